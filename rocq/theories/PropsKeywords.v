(** Property C83: the keyword arguments of the public functions
    (segeval/util/__init__.py, segeval/compute.py, segeval/metric.py, segeval/window/,
    segeval/similarity/, segeval/agreement/). *)
From Verif Require Import Keywords SpecDispatch SpecKeywords DictProofs KeywordsMain KeywordsAgree.
Open Scope string_scope.
Open Scope Z_scope.

Definition mass (l : list Z) : seg := Ints (ints l).
Definition ord0 : gset string -> list string := fun s => elements s.
Definition kint (z : Z) : kval := KArg (AInt z).
Definition a0 : seg := mass [2; 3; 6].
Definition b0 : seg := mass [5; 6].
Definition two0 : dataset seg := new_dataset (Some [("doc", [("ann", a0); ("bob", b0)])]) None None FMass.
Definition one0 : dataset seg := new_dataset (Some [("doc", [("ann", a0)])]) None None FMass.
Definition pos0 : dataset seg := new_dataset (Some [("doc", [("zoe", mass [5; 6])])]) None None FPosition.

(** Each keyword that Pk takes sets what it names, an absent one has its default, and
    nothing else plays a part: the call is that of C45 with these settings. *)
Theorem C83_pk : forall A E lord args kws f ws rnd, dict_ok kws -> only (takes Pk) kws -> format_of kws f -> window_of kws ws rnd ->
  call_metric A E lord Pk args kws =
  fnc_metric (fun f a b => rmap VWindow (pk A rnd f ws (on kws "one_minus" false) (on kws "return_parts" false) a b))
    lord (on kws "permuted" true) f (Positional args).
Proof. exact pk_settings. Qed.
Print Assumptions C83_pk.

Theorem C83_window_diff : forall A E lord args kws f ws rnd b, dict_ok kws -> only (takes WindowDiff) kws -> format_of kws f -> window_of kws ws rnd ->
  setting kws "lamprier_et_al_2007_fix" (KBool false) = KBool b ->
  call_metric A E lord WindowDiff args kws =
  fnc_metric (fun f a c => rmap VWindow (window_diff A rnd f ws b (on kws "one_minus" false) (on kws "return_parts" false) a c))
    lord (on kws "permuted" true) f (Positional args).
Proof. exact wd_settings_bool. Qed.
Print Assumptions C83_window_diff.

(** With a flag that is false but not the object False (0, None), WindowDiff never
    returns a value. *)
Theorem C83_window_diff_flag : forall A E lord kws f ws rnd l a b v,
  dict_ok kws -> only (takes WindowDiff) kws -> format_of kws f -> window_of kws ws rnd ->
  dget kws "lamprier_et_al_2007_fix" = Some l -> ktrue l = false -> l <> KBool false ->
  call_metric A E lord WindowDiff [ASeg a; ASeg b] kws <> Ok v.
Proof. exact flag_never_call. Qed.
Print Assumptions C83_window_diff_flag.

(** B and S; [boundary_types] is taken but plays no part. *)
Theorem C83_boundary_similarity : forall A E lord args kws f W n_t, dict_ok kws -> only (takes BoundarySim) kws -> format_of kws f -> edits_of A kws W n_t ->
  call_metric A E lord BoundarySim args kws =
  fnc_metric (fun f a b => rmap VB (boundary_similarity A E W f n_t (on kws "one_minus" false) (on kws "return_parts" false) a b))
    lord (on kws "permuted" false) f (Positional args).
Proof. exact B_settings. Qed.
Print Assumptions C83_boundary_similarity.

Theorem C83_segmentation_similarity : forall A E lord args kws f W n_t, dict_ok kws -> only (takes SegmentationSim) kws -> format_of kws f -> edits_of A kws W n_t ->
  call_metric A E lord SegmentationSim args kws =
  fnc_metric (fun f a b => rmap VS (segmentation_similarity A E W f n_t (on kws "one_minus" false) (on kws "return_parts" false) a b))
    lord (on kws "permuted" false) f (Positional args).
Proof. exact S_settings. Qed.
Print Assumptions C83_segmentation_similarity.

(** The confusion matrix takes [one_minus] and [return_parts] as well, without effect;
    the statistics do not take them. *)
Theorem C83_confusion_matrix : forall A E lord args kws f W n_t, dict_ok kws -> only (takes ConfusionMatrix) kws -> format_of kws f -> edits_of A kws W n_t ->
  call_metric A E lord ConfusionMatrix args kws =
  fnc_metric (fun f a b => rmap VMatrix (boundary_confusion_matrix A E W f n_t a b)) lord (on kws "permuted" false) f (Positional args).
Proof. exact M_settings. Qed.
Print Assumptions C83_confusion_matrix.

Theorem C83_statistics : forall A E lord args kws f W n_t, dict_ok kws -> only (takes BoundaryStats) kws -> format_of kws f -> edits_of A kws W n_t ->
  call_metric A E lord BoundaryStats args kws =
  fnc_metric (fun f a b => rmap VStats (boundary_statistics A E W f n_t a b)) lord (on kws "permuted" false) f (Positional args).
Proof. exact stats_settings_are. Qed.
Print Assumptions C83_statistics.

Definition kws0 : dict kval := [("one_minus", KBool true); ("window_size", kint 3); ("permuted", KBool false)].
Definition kws1 : dict kval := [("n_t", kint 3); ("return_parts", KBool true); ("boundary_types", KOther)].

Example C83_case :
  (dict_ok kws0 /\ only (takes Pk) kws0 /\ format_of kws0 FMass /\ window_of kws0 (Some 3) default_round) /\
  (dict_ok kws1 /\ only (takes BoundarySim) kws1 /\ format_of kws1 FMass /\ edits_of pyA kws1 (default_weights pyA) 3) /\
  call_metric pyA env0 ord0 Pk [ASeg a0; ASeg b0] kws0 = rmap (fun w => One (VWindow w)) (pk pyA default_round FMass (Some 3) true false a0 b0) /\
  call_metric pyA env0 ord0 Pk [ASeg a0; ASeg b0] kws0 = Ok (One (VWindow (WVal (NDec (3 # 4))))) /\
  rmap (fun r => match r with Many d => length d | One _ => 0%nat end) (call_metric pyA env0 ord0 Pk [AData two0] []) = Ok 2%nat /\
  rmap (fun r => match r with Many d => length d | One _ => 0%nat end) (call_metric pyA env0 ord0 Pk [AData two0] kws0) = Ok 1%nat /\
  rmap (fun r => match r with One (VB (BParts n d _)) => Some (n, d) | _ => None end)
    (call_metric pyA env0 ord0 BoundarySim [ASeg a0; ASeg b0] kws1) = Ok (Some (NDec 1, NInt 2)).
Proof.
  split; [|split].
  - split; [apply (bool_decide_unpack _); vm_compute; exact I|]. split; [|split; [reflexivity|apply window_given; reflexivity]].
    intros k K. cbn in K. cbn [takes]. set_solver.
  - split; [apply (bool_decide_unpack _); vm_compute; exact I|]. split; [|split; [reflexivity|split; reflexivity]].
    intros k K. cbn in K. cbn [takes]. set_solver.
  - repeat split; vm_compute; reflexivity.
Qed.

Example C83_flag_case :
  call_metric pyA env0 ord0 WindowDiff [ASeg a0; ASeg b0] [("lamprier_et_al_2007_fix", KNone)] = Err AssertionError /\
  call_metric pyA env0 ord0 WindowDiff [ASeg a0; ASeg b0] [("lamprier_et_al_2007_fix", kint 0)] = Err AssertionError /\
  call_metric pyA env0 ord0 WindowDiff [ASeg a0; ASeg b0] [("lamprier_et_al_2007_fix", kint 1)] =
    call_metric pyA env0 ord0 WindowDiff [ASeg a0; ASeg b0] [("lamprier_et_al_2007_fix", KBool true)] /\
  call_metric pyA env0 ord0 WindowDiff [ASeg a0; ASeg b0] [("lamprier_et_al_2007_fix", KBool true)] = Ok (One (VWindow (WVal (NDec (1 # 5))))).
Proof. repeat split; vm_compute; reflexivity. Qed.

(** Arguments given by name are as good as by position. *)
Theorem C83_named_pair : forall A E lord fn kwargs h r, dict_ok kwargs ->
  dget kwargs "hypothesis" = Some (KArg h) -> dget kwargs "reference" = Some (KArg r) ->
  call_metric A E lord fn [] kwargs = call_metric A E lord fn [h; r] (ddel (ddel kwargs "hypothesis") "reference").
Proof. exact named_pair. Qed.
Print Assumptions C83_named_pair.

Theorem C83_named_dataset : forall A E lord fn kwargs d, dict_ok kwargs ->
  dget kwargs "hypothesis" = None \/ dget kwargs "reference" = None -> dget kwargs "dataset" = Some (KArg d) ->
  call_metric A E lord fn [] kwargs = call_metric A E lord fn [d] (ddel kwargs "dataset").
Proof. exact named_dataset. Qed.
Print Assumptions C83_named_dataset.

Theorem C83_named_nothing : forall A E lord fn kwargs,
  dget kwargs "hypothesis" = None \/ dget kwargs "reference" = None -> dget kwargs "dataset" = None ->
  call_metric A E lord fn [] kwargs = Err SegmentationMetricError.
Proof. exact named_nothing. Qed.
Print Assumptions C83_named_nothing.

(** A keyword that the function does not take is refused when two segmentations are
    compared, *)
Theorem C83_unknown_pair : forall A E lord fn kws k x y, dict_ok kws -> k ∈ kws.*1 -> k ∉ takes fn ->
  (exists a, fix_int x = ASeg a /\ seg_len a <> 0) -> (exists b, fix_int y = ASeg b /\ seg_len b <> 0) ->
  call_metric A E lord fn [x; y] kws = Err TypeError.
Proof. exact pair_refused. Qed.
Print Assumptions C83_unknown_pair.

(** and for a dataset, unless there is nothing to compare: then the result is empty. *)
Theorem C83_unknown_dataset : forall A E lord fn kws k d, lord_ok lord -> items_ok (ds_items d) -> dict_ok kws -> k ∈ kws.*1 -> k ∉ takes fn ->
  "dataset_b" ∉ kws.*1 -> ds_items d <> [] ->
  (k = "fnc_metric" \/ k = "dataset_a" \/ some_pair (ds_items d) -> call_metric A E lord fn [AData d] kws = Err TypeError) /\
  ("fnc_metric" ∉ kws.*1 -> "dataset_a" ∉ kws.*1 -> ~ some_pair (ds_items d) -> call_metric A E lord fn [AData d] kws = Ok (Many [])).
Proof. exact dataset_refused. Qed.
Print Assumptions C83_unknown_dataset.

Definition typo : dict kval := [("windowsize", kint 3)].

Example C83_unknown_case :
  (dict_ok typo /\ "windowsize" ∈ typo.*1 /\ "windowsize" ∉ takes Pk) /\
  call_metric pyA env0 ord0 Pk [ASeg a0; ASeg b0] typo = Err TypeError /\
  call_metric pyA env0 ord0 Pk [ASeg a0; ASeg b0] [("hypothesis", KArg (ASeg a0))] = Err TypeError /\
  call_metric pyA env0 ord0 BoundaryStats [ASeg a0; ASeg b0] [("one_minus", KBool false)] = Err TypeError /\
  call_metric pyA env0 ord0 SegmentationSim [ASeg a0; ASeg b0] [("window_size", kint 3)] = Err TypeError /\
  some_pair (ds_items two0) /\ call_metric pyA env0 ord0 Pk [AData two0] typo = Err TypeError /\
  call_metric pyA env0 ord0 Pk [] [("dataset", KArg (AData two0)); ("hypothesis", KArg (ASeg a0))] = Err TypeError.
Proof.
  split; [split; [apply (bool_decide_unpack _); vm_compute; exact I|]; split; apply (bool_decide_unpack _); vm_compute; exact I|].
  repeat split; try (vm_compute; reflexivity).
  exists "doc", [("ann", a0); ("bob", b0)]. split; [left|cbn; lia].
Qed.

(** So a misspelt keyword does not always raise. *)
Theorem C83_unknown_raises_refuted :
  ~ (forall d, ds_items d <> [] -> exists e, call_metric pyA env0 ord0 Pk [AData d] typo = Err e).
Proof. intros H. destruct (H one0) as [e K]; [discriminate|]. vm_compute in K. discriminate K. Qed.
Print Assumptions C83_unknown_raises_refuted.

(** The keyword [dataset_b], which no function documents, is a second dataset: its
    codings are read in the format of the first. *)
Theorem C83_second_dataset : forall A E lord fn kws d b, dict_ok kws -> only ("dataset_b" :: takes fn) kws ->
  dget kws "dataset_b" = Some (KArg (AData b)) -> ds_items d <> [] -> ds_items b <> [] ->
  call_metric A E lord fn [AData d] kws =
  call_metric A E lord fn [AData d; AData (read_as b (ds_format d))] (ddel kws "dataset_b").
Proof. exact second_dataset. Qed.
Print Assumptions C83_second_dataset.

Definition second0 : dict kval := [("dataset_b", KArg (AData pos0))].

Example C83_second_case :
  dict_ok second0 /\ only ("dataset_b" :: takes BoundarySim) second0 /\
  call_metric pyA env0 ord0 BoundarySim [AData two0] second0 =
    Ok (Many [("doc,ann,zoe", VB (BVal (NDec (1 # 2)))); ("doc,bob,zoe", VB (BVal (NDec 1)))]).
Proof.
  split; [apply (bool_decide_unpack _); vm_compute; exact I|]. split; [|vm_compute; reflexivity].
  intros k K. cbn in K. set_solver.
Qed.

(** Hence datasets of different formats are compared after all. *)
Theorem C83_formats_refuted :
  call_metric pyA env0 ord0 BoundarySim [AData two0; AData pos0] [] = Err SegmentationMetricError /\
  exists v, call_metric pyA env0 ord0 BoundarySim [AData two0] [("dataset_b", KArg (AData pos0))] = Ok v.
Proof. split; [vm_compute; reflexivity|]. eexists. exact (proj2 (proj2 C83_second_case)). Qed.
Print Assumptions C83_formats_refuted.

(** The window size takes the keywords of Pk; all but the format and the rounding are
    without effect.  Others are refused. *)
Theorem C83_window_size : forall A ref kws f rnd, dict_ok kws -> only (takes Pk) kws -> format_of kws f ->
  setting kws "fnc_round" (KRound default_round) = KRound rnd ->
  compute_window_size_kw A ref kws = compute_window_size A rnd f ref.
Proof. exact window_size_settings. Qed.
Print Assumptions C83_window_size.

Theorem C83_window_size_unknown : forall A ref kws k, dict_ok kws -> k ∈ kws.*1 -> k ∉ takes Pk -> compute_window_size_kw A ref kws = Err TypeError.
Proof. exact window_size_refused. Qed.
Print Assumptions C83_window_size_unknown.

Example C83_window_size_case :
  compute_window_size_kw pyA (WSeg a0) [("window_size", kint 7); ("one_minus", KOther)] = Ok 2 /\
  compute_window_size_kw pyA (WSeg (mass [12; 8])) [("permuted", KNone)] = Ok 5 /\
  compute_window_size_kw pyA (WSeg (mass [12; 8])) [("n_t", kint 2)] = Err TypeError.
Proof. repeat split; vm_compute; reflexivity. Qed.

(** The agreement functions take the keywords of B and [fnc_compare], which may be B or
    S; the format is that of the dataset, or else that of the keyword. *)
Theorem C83_agreement : forall A E lord cord c kws f W n_t fn, fn = BoundarySim \/ fn = SegmentationSim -> dict_ok kws -> only agreement_takes kws ->
  (forall i, c = CDict i -> format_of kws f) -> edits_of A kws W n_t ->
  setting kws "fnc_compare" (KMetric BoundarySim) = KMetric fn ->
  let cmp := (match fn with BoundarySim => compare_B | _ => compare_S end) A E W n_t (on kws "one_minus" false) in
  let rp := on kws "return_parts" false in
  agree_kw A E lord cord Actual c kws =
    (if rp then rmap ALists (agreement_parts cmp (c_format c f) (cord (c_coders c)) (c_items c))
     else rmap AVal (actual_agreement_linear A cmp f cord c)) /\
  agree_kw A E lord cord FleissPi c kws = rmap as_aval (fleiss_pi_linear A cmp f cord rp c) /\
  agree_kw A E lord cord FleissKappa c kws = rmap as_aval (fleiss_kappa_linear A cmp f cord rp c) /\
  agree_kw A E lord cord Bias c kws = rmap as_aval (artstein_poesio_bias_linear A cmp f cord rp c).
Proof. exact agree_settings. Qed.
Print Assumptions C83_agreement.

(** With any other keyword, or another comparison (Pk and WindowDiff among them), no
    coefficient is ever computed. *)
Theorem C83_agreement_unknown : forall A E lord cord fn c kws v, dict_ok kws ->
  (exists k, k ∈ kws.*1 /\ k ∉ agreement_takes) \/
  (forall m, setting kws "fnc_compare" (KMetric BoundarySim) = KMetric m -> m <> BoundarySim /\ m <> SegmentationSim) ->
  agree_kw A E lord cord fn c kws = Ok v -> fn = Actual /\ v = ALists (Acc [] [] [] []).
Proof. exact agree_refused. Qed.
Print Assumptions C83_agreement_unknown.

Definition acc_of (r : res aval) : option num := match r with Ok (AVal v) => Some v | _ => None end.

Example C83_agreement_case :
  acc_of (agree_kw pyA env0 ord0 ord0 Actual (CDataset two0) []) = Some (NDec (1 # 2)) /\
  acc_of (agree_kw pyA env0 ord0 ord0 Actual (CDataset two0) [("fnc_compare", KMetric SegmentationSim)]) = Some (NDec (9 # 10)) /\
  agree_kw pyA env0 ord0 ord0 Actual (CDataset two0) [("fnc_compare", KMetric Pk)] = Err TypeError /\
  agree_kw pyA env0 ord0 ord0 FleissKappa (CDataset two0) [("fnc_compare", KMetric WindowDiff)] = Err TypeError /\
  agree_kw pyA env0 ord0 ord0 FleissPi (CDataset two0) [("window_size", kint 3)] = Err TypeError /\
  agree_kw pyA env0 ord0 ord0 Bias (CDataset two0) [("dataset", KArg (AData two0))] = Err TypeError /\
  agree_kw pyA env0 ord0 ord0 Actual (CDataset one0) [("fnc_compare", KMetric Pk); ("return_parts", KBool true)] = Ok (ALists (Acc [] [] [] [])).
Proof. repeat split; vm_compute; reflexivity. Qed.
