(** What the public functions make of their keywords. *)
From Verif Require Import Keywords SpecDispatch SpecKeywords DictProofs DispatchMain KeywordsProofs FormatProofs.
Open Scope string_scope.
Open Scope Z_scope.

(** Metrics that agree give the same results. *)
Lemma foldM_same {X S} (f g : S -> X -> res S) l s : (forall s x, f s x = g s x) -> foldM f l s = foldM g l s.
Proof. intros H. revert s. induction l as [|x l IH]; intros s; cbn [foldM]; [reflexivity|]. rewrite H. destruct (g s x); cbn [bind]; auto. Qed.

Lemma pairwise_same {R} (m m' : seg -> seg -> res R) lord p ma mb : (forall a b, m a b = m' a b) ->
  compute_pairwise_values m lord p ma mb = compute_pairwise_values m' lord p ma mb.
Proof.
  intros H. unfold compute_pairwise_values, compute_pairwise. f_equal. apply foldM_same. intros st l. unfold label_entries.
  assert (PE : forall two cm cn P s, foldM (pair_entry m l p two cm cn) P s = foldM (pair_entry m' l p two cm cn) P s).
  { intros. apply foldM_same. intros s0 [x y]. unfold pair_entry. destruct (dlookup cm x); cbn [bind]; [|reflexivity].
    destruct (dlookup cn y); cbn [bind]; [|reflexivity]. rewrite !H. reflexivity. }
  destruct mb as [d|]; destruct (dget ma l); try reflexivity; [destruct (dget d l); [|reflexivity]|]; rewrite PE; reflexivity.
Qed.

Lemma fnc_metric_same {R} (m m' : fmt -> seg -> seg -> res R) lord p f c : (forall f a b, m f a b = m' f a b) ->
  fnc_metric m lord p f c = fnc_metric m' lord p f c.
Proof.
  intros H. unfold fnc_metric. destruct (parse_call c) as [[[h r] d]|]; cbn [bind fst snd]; [|reflexivity].
  set (n := if stray c then _ else m). set (n' := if stray c then _ else m').
  assert (H' : forall f a b, n f a b = n' f a b) by (unfold n, n'; destruct (stray c); auto).
  destruct d as [x|].
  - destruct (truthy x); [|reflexivity]. destruct x; try reflexivity. rewrite (pairwise_same (n _) (n' _)) by auto. reflexivity.
  - destruct (option_map fix_int h) as [x|]; [|reflexivity]. destruct (option_map fix_int r) as [y|]; [|reflexivity].
    destruct (truthy x && truthy y); [|reflexivity]. destruct x, y; try reflexivity; [rewrite H'; reflexivity|].
    destruct (decide _); [|reflexivity]. rewrite (pairwise_same (n _) (n' _)) by auto. reflexivity.
Qed.

Definition permuted_default (fn : metric_fn) : bool := match fn with Pk | WindowDiff => true | _ => false end.

Section Main.
Context (A : arith) (E : env) (lord : gset string -> list string).

Lemma defaults_keys fn : (fn_defaults A fn).*1 = takes fn.
Proof. destruct fn; reflexivity. Qed.

Lemma defaults_ok fn : dict_ok (fn_defaults A fn).
Proof. unfold dict_ok. rewrite defaults_keys. destruct fn; apply (bool_decide_unpack _); vm_compute; exact I. Qed.

Definition full (fn : metric_fn) (kws : dict kval) : dict kval := dupdate (fn_defaults A fn) kws.

Lemma full_ok fn kws : dict_ok (full fn kws).
Proof. apply dupdate_ok, defaults_ok. Qed.

Lemma full_get fn kws k : dict_ok kws -> dget (full fn kws) k = match dget kws k with Some v => Some v | None => dget (fn_defaults A fn) k end.
Proof. apply dget_update. Qed.

Lemma full_setting fn kws k v : dict_ok kws -> dget (fn_defaults A fn) k = Some v -> dget (full fn kws) k = Some (setting kws k v).
Proof. intros H K. rewrite full_get by assumption. unfold setting. rewrite K. destruct (dget kws k); reflexivity. Qed.

Lemma full_keys fn kws k : k ∈ (full fn kws).*1 <-> k ∈ takes fn \/ k ∈ kws.*1.
Proof. unfold full. rewrite dupdate_elem, defaults_keys. reflexivity. Qed.

Lemma full_is_Some fn kws k : is_Some (dget (full fn kws) k) <-> k ∈ takes fn \/ k ∈ kws.*1.
Proof. rewrite dget_is_Some. apply full_keys. Qed.

Lemma not_taken fn kws k : only (takes fn) kws -> k ∉ takes fn -> dget (full fn kws) k = None.
Proof. intros H K. apply dget_None. rewrite full_keys. intros [L|L]; [auto|]. apply K, H, L. Qed.

Lemma takes_permuted fn : "permuted" ∈ takes fn.
Proof. destruct fn; apply (bool_decide_unpack _); vm_compute; exact I. Qed.
Lemma takes_format fn : "boundary_format" ∈ takes fn.
Proof. destruct fn; apply (bool_decide_unpack _); vm_compute; exact I. Qed.

Lemma takes_not fn k : k ∈ ["hypothesis"; "reference"; "dataset"; "fnc_metric"; "dataset_a"; "dataset_b"] -> k ∉ takes fn.
Proof.
  intros H. repeat (apply elem_of_cons in H as [->|H]); [..|apply elem_of_nil in H; contradiction];
    destruct fn; apply (bool_decide_unpack _); vm_compute; exact I.
Qed.

(** The settings of a call. *)
Definition inner (fn : metric_fn) (kws : dict kval) (f : fmt) : dict kval :=
  ddel (dset (full fn kws) "boundary_format" (KFmt f)) "permuted".

Lemma inner_ok fn kws f : dict_ok (inner fn kws f).
Proof. apply ddel_ok, dset_ok, full_ok. Qed.

Lemma inner_get fn kws f k : dict_ok kws -> dget (inner fn kws f) k =
  if decide (k = "permuted") then None else if decide (k = "boundary_format") then Some (KFmt f) else dget (full fn kws) k.
Proof.
  intros H. unfold inner. rewrite dget_ddel by (apply dset_ok, full_ok). rewrite dget_dset. reflexivity.
Qed.

Lemma inner_keys fn kws f k : dict_ok kws -> only (takes fn) kws -> is_Some (dget (inner fn kws f) k) <-> k <> "permuted" /\ k ∈ takes fn.
Proof.
  intros H0 H1. rewrite inner_get by assumption. destruct (decide (k = "permuted")) as [->|N].
  { split; [intros [? ?]; discriminate|intros [? _]; contradiction]. }
  destruct (decide (k = "boundary_format")) as [->|N'].
  { split; [intros _; split; [assumption|apply takes_format]|intros _; eauto]. }
  rewrite full_is_Some. split; [intros [K|K]; auto|tauto].
Qed.

Lemma permuted_setting fn kws : dict_ok kws -> dlookup (full fn kws) "permuted" = Ok (setting kws "permuted" (KBool (permuted_default fn))).
Proof. intros H. apply dlookup_is, full_setting; [assumption|]. destruct fn; reflexivity. Qed.

Lemma format_setting fn kws f : dict_ok kws -> format_of kws f -> dget (full fn kws) "boundary_format" = Some (KFmt f).
Proof. intros H K. unfold format_of in K. rewrite <- K. apply full_setting; [assumption|]. destruct fn; reflexivity. Qed.

Lemma pairwise_settings fn kws a b : dict_ok kws -> only (takes fn) kws ->
  pairwise_kw A E lord fn a b (dset (full fn kws) "boundary_format" (KFmt (ds_format a))) =
  rmap Many (compute_pairwise_values (call_fn A E fn (inner fn kws (ds_format a))) lord (on kws "permuted" (permuted_default fn))
    (ds_items a) (ds_items <$> b)).
Proof.
  intros H0 H1. unfold pairwise_kw.
  assert (G : forall k, k <> "boundary_format" -> dget (dset (full fn kws) "boundary_format" (KFmt (ds_format a))) k = dget (full fn kws) k).
  { intros k N. rewrite dget_dset. destruct (decide _); [contradiction|reflexivity]. }
  assert (NM : forall k, k ∈ ["hypothesis"; "reference"; "dataset"; "fnc_metric"; "dataset_a"; "dataset_b"] ->
    dget (dset (full fn kws) "boundary_format" (KFmt (ds_format a))) k = None).
  { intros k K. rewrite G; [apply not_taken; [exact H1|apply takes_not, K]|]. intros ->. apply (takes_not fn _ K), takes_format. }
  assert (dmem (dset (full fn kws) "boundary_format" (KFmt (ds_format a))) "fnc_metric" = false) as ->.
  { unfold dmem. rewrite NM; [reflexivity|]. set_solver. }
  assert (dmem (dset (full fn kws) "boundary_format" (KFmt (ds_format a))) "dataset_a" = false) as ->.
  { unfold dmem. rewrite NM; [reflexivity|]. set_solver. }
  cbn [orb]. rewrite (NM "dataset_b") by set_solver.
  assert ((match b with Some b0 => Ok (Some (ds_items b0)) | None => Ok None end : res (option (dict (dict seg)))) = Ok (ds_items <$> b)) as ->
    by (destruct b; reflexivity).
  cbn [bind].
  assert (dlookup (dset (full fn kws) "boundary_format" (KFmt (ds_format a))) "permuted" =
    Ok (setting kws "permuted" (KBool (permuted_default fn)))) as ->.
  { unfold dlookup. rewrite G by discriminate. apply permuted_setting, H0. }
  cbn [bind]. rewrite kdel_ok.
  2: { rewrite G by discriminate. apply full_is_Some. left. apply takes_permuted. }
  cbn [bind]. fold (inner fn kws (ds_format a)). rewrite (ddel_id (inner _ _ _)); [reflexivity|].
  rewrite inner_get by assumption. cbn. apply not_taken; [exact H1|]. apply takes_not. set_solver.
Qed.

Lemma call_settings fn args kws f : dict_ok kws -> only (takes fn) kws -> format_of kws f ->
  call_metric A E lord fn args kws =
  fnc_metric (fun f => call_fn A E fn (inner fn kws f)) lord (on kws "permuted" (permuted_default fn)) f (Positional args).
Proof.
  intros H0 H1 HF. unfold call_metric, fnc_metric. fold (full fn kws).
  assert (N : forall k, k ∈ ["hypothesis"; "reference"; "dataset"; "fnc_metric"; "dataset_a"; "dataset_b"] -> dget kws k = None).
  { intros k K. apply dget_None. intros L. apply H1 in L. revert L. apply takes_not, K. }
  destruct args as [|x [|y [|z args]]]; cbn [parse_kw parse_call bind fst snd option_map stray].
  - rewrite (N "hypothesis"), (N "dataset") by set_solver. reflexivity.
  - cbn [ktrue]. destruct (truthy x); [|reflexivity]. destruct x as [z|s|d]; try reflexivity.
    rewrite pairwise_settings by assumption. cbn [fmap option_fmap option_map]. destruct (compute_pairwise_values _ _ _ _ _); reflexivity.
  - cbn [ktrue fix_kval]. destruct (truthy (fix_int x) && truthy (fix_int y)); [|reflexivity].
    assert (S : forall a b, (let* mk := kdel (full fn kws) "permuted" in rmap One (call_fn A E fn mk a b)) =
      let* v := call_fn A E fn (inner fn kws f) a b in Ok (One v)).
    { intros a b. rewrite kdel_ok by (apply full_is_Some; left; apply takes_permuted). cbn [bind]. unfold inner.
      rewrite (dset_id (full fn kws)) by (apply format_setting; assumption). destruct (call_fn _ _ _ _ _ _); reflexivity. }
    destruct (fix_int x) as [z|s|a], (fix_int y) as [z'|s'|b]; try reflexivity; [apply S|].
    destruct (decide (ds_format a = ds_format b)); [|reflexivity].
    rewrite pairwise_settings by assumption. cbn [fmap option_fmap option_map]. destruct (compute_pairwise_values _ _ _ _ _); reflexivity.
  - reflexivity.
Qed.
End Main.

(** * The functions one by one *)
Section Functions.
Context (A : arith) (E : env) (lord : gset string -> list string).

Ltac getter := rewrite inner_get by assumption; cbn; apply full_setting; [assumption|reflexivity].
Ltac keys H1 := intros k; rewrite inner_keys by (assumption || exact H1); unfold pk_params, wd_params, stats_params; cbn [takes]; rewrite !elem_of_cons, elem_of_nil; clear; naive_solver.

Lemma wd_flag_bool b rnd f ws om rp h r : window_diff_flag A rnd f ws (KBool b) om rp h r = window_diff A rnd f ws b om rp h r.
Proof. destruct b; reflexivity. Qed.

Lemma pk_settings args kws f ws rnd : dict_ok kws -> only (takes Pk) kws -> format_of kws f -> window_of kws ws rnd ->
  call_metric A E lord Pk args kws =
  fnc_metric (fun f a b => rmap VWindow (pk A rnd f ws (on kws "one_minus" false) (on kws "return_parts" false) a b))
    lord (on kws "permuted" true) f (Positional args).
Proof.
  intros H0 H1 HF HW. rewrite (call_settings A E lord Pk args kws f) by assumption. apply fnc_metric_same. clear f HF. intros f a b.
  rewrite (call_pk A E (inner A Pk kws f) (setting kws "window_size" KNone) (setting kws "one_minus" (KBool false)) (KFmt f)
    (setting kws "return_parts" (KBool false)) (setting kws "fnc_round" (KRound default_round))); try getter.
  - destruct HW as [k rnd Hk|rnd Hk Hr].
    + rewrite Hk. reflexivity.
    + rewrite Hk, Hr. reflexivity.
  - keys H1.
  - rewrite inner_get by assumption. reflexivity.
Qed.

Lemma wd_settings args kws f ws rnd : dict_ok kws -> only (takes WindowDiff) kws -> format_of kws f -> window_of kws ws rnd ->
  call_metric A E lord WindowDiff args kws =
  fnc_metric (fun f a b => rmap VWindow (window_diff_flag A rnd f ws (setting kws "lamprier_et_al_2007_fix" (KBool false))
      (on kws "one_minus" false) (on kws "return_parts" false) a b))
    lord (on kws "permuted" true) f (Positional args).
Proof.
  intros H0 H1 HF HW. rewrite (call_settings A E lord WindowDiff args kws f) by assumption. apply fnc_metric_same. clear f HF. intros f a b.
  rewrite (call_wd A E (inner A WindowDiff kws f) (setting kws "window_size" KNone) (setting kws "one_minus" (KBool false)) (KFmt f)
    (setting kws "return_parts" (KBool false)) (setting kws "fnc_round" (KRound default_round))
    (setting kws "lamprier_et_al_2007_fix" (KBool false))); try getter.
  - destruct HW as [k rnd Hk|rnd Hk Hr].
    + rewrite Hk. cbn [as_window as_int rmap bind as_round]. destruct (setting kws "lamprier_et_al_2007_fix" (KBool false)); reflexivity.
    + rewrite Hk, Hr. reflexivity.
  - keys H1.
  - rewrite inner_get by assumption. reflexivity.
Qed.

Lemma wd_settings_bool args kws f ws rnd b : dict_ok kws -> only (takes WindowDiff) kws -> format_of kws f -> window_of kws ws rnd ->
  setting kws "lamprier_et_al_2007_fix" (KBool false) = KBool b ->
  call_metric A E lord WindowDiff args kws =
  fnc_metric (fun f a c => rmap VWindow (window_diff A rnd f ws b (on kws "one_minus" false) (on kws "return_parts" false) a c))
    lord (on kws "permuted" true) f (Positional args).
Proof.
  intros H0 H1 HF HW HL. rewrite (wd_settings args kws f ws rnd) by assumption. rewrite HL. apply fnc_metric_same.
  intros. rewrite wd_flag_bool. reflexivity.
Qed.

Lemma sim_inner fn kws f W n_t : fn = BoundarySim \/ fn = SegmentationSim \/ fn = ConfusionMatrix ->
  dict_ok kws -> only (takes fn) kws -> edits_of A kws W n_t ->
  (let* trim := trimmed (inner A fn kws f) in stats_settings trim) = Ok (W, f, n_t) /\
  dlookup (inner A fn kws f) "return_parts" = Ok (setting kws "return_parts" (KBool false)) /\
  dlookup (inner A fn kws f) "one_minus" = Ok (setting kws "one_minus" (KBool false)).
Proof.
  intros Hfn H0 H1 [HW Ht]. split.
  - change f with (as_fmt (KFmt f)) at 2. apply trimmed_settings; [apply inner_ok| | | |].
    + intros k. rewrite inner_keys by assumption.
      assert (takes fn = ["boundary_format"; "permuted"; "one_minus"; "return_parts"; "n_t"; "boundary_types"; "weight"]) as ->
        by (destruct Hfn as [->|[->| ->]]; reflexivity).
      unfold sim_params. rewrite !elem_of_cons, elem_of_nil. clear. naive_solver.
    + rewrite <- HW. rewrite inner_get by assumption. cbn. apply full_setting; [assumption|]. destruct Hfn as [->|[->| ->]]; reflexivity.
    + rewrite inner_get by assumption. reflexivity.
    + rewrite <- Ht. rewrite inner_get by assumption. cbn. apply full_setting; [assumption|]. destruct Hfn as [->|[->| ->]]; reflexivity.
  - split; apply dlookup_is; rewrite inner_get by assumption; cbn; (apply full_setting; [assumption|]); destruct Hfn as [->|[->| ->]]; reflexivity.
Qed.

Lemma B_settings args kws f W n_t : dict_ok kws -> only (takes BoundarySim) kws -> format_of kws f -> edits_of A kws W n_t ->
  call_metric A E lord BoundarySim args kws =
  fnc_metric (fun f a b => rmap VB (boundary_similarity A E W f n_t (on kws "one_minus" false) (on kws "return_parts" false) a b))
    lord (on kws "permuted" false) f (Positional args).
Proof.
  intros H0 H1 HF HW. rewrite (call_settings A E lord BoundarySim args kws f) by assumption. apply fnc_metric_same. clear f HF. intros f a b.
  destruct (sim_inner BoundarySim kws f W n_t) as (K1 & K2 & K3); auto. unfold call_fn.
  destruct (trimmed (inner A BoundarySim kws f)) as [t|]; cbn [bind] in *; [|discriminate]. rewrite K2, K3, K1. reflexivity.
Qed.

Lemma S_settings args kws f W n_t : dict_ok kws -> only (takes SegmentationSim) kws -> format_of kws f -> edits_of A kws W n_t ->
  call_metric A E lord SegmentationSim args kws =
  fnc_metric (fun f a b => rmap VS (segmentation_similarity A E W f n_t (on kws "one_minus" false) (on kws "return_parts" false) a b))
    lord (on kws "permuted" false) f (Positional args).
Proof.
  intros H0 H1 HF HW. rewrite (call_settings A E lord SegmentationSim args kws f) by assumption. apply fnc_metric_same. clear f HF. intros f a b.
  destruct (sim_inner SegmentationSim kws f W n_t) as (K1 & K2 & K3); auto. unfold call_fn.
  destruct (trimmed (inner A SegmentationSim kws f)) as [t|]; cbn [bind] in *; [|discriminate]. rewrite K2, K3, K1. reflexivity.
Qed.

Lemma M_settings args kws f W n_t : dict_ok kws -> only (takes ConfusionMatrix) kws -> format_of kws f -> edits_of A kws W n_t ->
  call_metric A E lord ConfusionMatrix args kws =
  fnc_metric (fun f a b => rmap VMatrix (boundary_confusion_matrix A E W f n_t a b)) lord (on kws "permuted" false) f (Positional args).
Proof.
  intros H0 H1 HF HW. rewrite (call_settings A E lord ConfusionMatrix args kws f) by assumption. apply fnc_metric_same. clear f HF. intros f a b.
  destruct (sim_inner ConfusionMatrix kws f W n_t) as (K1 & K2 & K3); auto. unfold call_fn.
  destruct (trimmed (inner A ConfusionMatrix kws f)) as [t|]; cbn [bind] in *; [|discriminate]. rewrite K1. reflexivity.
Qed.

Lemma stats_settings_are args kws f W n_t : dict_ok kws -> only (takes BoundaryStats) kws -> format_of kws f -> edits_of A kws W n_t ->
  call_metric A E lord BoundaryStats args kws =
  fnc_metric (fun f a b => rmap VStats (boundary_statistics A E W f n_t a b)) lord (on kws "permuted" false) f (Positional args).
Proof.
  intros H0 H1 HF [HW Ht]. rewrite (call_settings A E lord BoundaryStats args kws f) by assumption. apply fnc_metric_same. clear f HF. intros f a b.
  unfold call_fn. rewrite (settings_are (inner A BoundaryStats kws f) W (KFmt f) n_t); [reflexivity| | | |].
  - keys H1.
  - rewrite <- HW. getter.
  - rewrite inner_get by assumption. reflexivity.
  - rewrite <- Ht. getter.
Qed.

(** * Arguments by name *)
Lemma named_pair fn kwargs h r : dict_ok kwargs -> dget kwargs "hypothesis" = Some (KArg h) -> dget kwargs "reference" = Some (KArg r) ->
  call_metric A E lord fn [] kwargs = call_metric A E lord fn [h; r] (ddel (ddel kwargs "hypothesis") "reference").
Proof.
  intros H0 H1 H2. unfold call_metric. cbn [parse_kw]. rewrite H1, H2. cbn [bind fst snd].
  rewrite ddel_dupdate by assumption. rewrite ddel_dupdate by (apply ddel_ok; assumption).
  rewrite (ddel_id (fn_defaults A fn)). 2: { apply dget_None. rewrite defaults_keys. apply takes_not. set_solver. }
  rewrite (ddel_id (fn_defaults A fn)). 2: { apply dget_None. rewrite defaults_keys. apply takes_not. set_solver. }
  reflexivity.
Qed.

Lemma named_dataset fn kwargs d : dict_ok kwargs -> dget kwargs "hypothesis" = None \/ dget kwargs "reference" = None ->
  dget kwargs "dataset" = Some (KArg d) ->
  call_metric A E lord fn [] kwargs = call_metric A E lord fn [d] (ddel kwargs "dataset").
Proof.
  intros H0 H1 H2. unfold call_metric. cbn [parse_kw].
  assert ((match dget kwargs "hypothesis", dget kwargs "reference", dget kwargs "dataset" with
    | Some h, Some r, _ => Ok (h, r, KNone, ddel (ddel (dupdate (fn_defaults A fn) kwargs) "hypothesis") "reference")
    | _, _, Some d0 => Ok (KNone, KNone, d0, ddel (dupdate (fn_defaults A fn) kwargs) "dataset")
    | _, _, _ => Err SegmentationMetricError
    end) = Ok (KNone, KNone, KArg d, ddel (dupdate (fn_defaults A fn) kwargs) "dataset")) as ->.
  { rewrite H2. destruct (dget kwargs "hypothesis"), (dget kwargs "reference"); destruct H1; try discriminate; reflexivity. }
  cbn [bind fst snd]. rewrite ddel_dupdate by assumption.
  rewrite (ddel_id (fn_defaults A fn)). 2: { apply dget_None. rewrite defaults_keys. apply takes_not. set_solver. }
  reflexivity.
Qed.

Lemma named_nothing fn kwargs : dget kwargs "hypothesis" = None \/ dget kwargs "reference" = None -> dget kwargs "dataset" = None ->
  call_metric A E lord fn [] kwargs = Err SegmentationMetricError.
Proof.
  intros H1 H2. unfold call_metric. cbn [parse_kw]. rewrite H2.
  destruct (dget kwargs "hypothesis"), (dget kwargs "reference"); destruct H1; try discriminate; reflexivity.
Qed.

(** * Keywords that a function does not take *)
Lemma call_fn_refused fn kws k a b : dict_ok kws -> (forall k', k' ∈ takes fn -> k' <> "permuted" -> is_Some (dget kws k')) ->
  is_Some (dget kws k) -> k ∉ takes fn -> call_fn A E fn kws a b = Err TypeError.
Proof.
  intros H0 HA HK HN.
  assert (T : forall g : metric_fn, g = fn -> (g = BoundarySim \/ g = SegmentationSim \/ g = ConfusionMatrix) ->
    exists t rp om, trimmed kws = Ok t /\ dlookup kws "return_parts" = Ok rp /\ dlookup kws "one_minus" = Ok om /\ stats_settings t = Err TypeError).
  { intros g -> Hg.
    assert (is_Some (dget kws "return_parts") /\ is_Some (dget kws "one_minus")) as [[rp R] [om O]].
    { split; apply HA; try discriminate; destruct Hg as [->|[->| ->]]; apply (bool_decide_unpack _); vm_compute; exact I. }
    exists (ddel (ddel kws "return_parts") "one_minus"), rp, om. split; [apply trimmed_is; eauto|].
    split; [apply dlookup_is, R|]. split; [apply dlookup_is, O|]. apply (settings_bad _ k).
    - rewrite !dget_ddel by (try apply ddel_ok; assumption).
      destruct (decide (k = "one_minus")) as [->|]; [exfalso; apply HN; destruct Hg as [->|[->| ->]]; apply (bool_decide_unpack _); vm_compute; exact I|].
      destruct (decide (k = "return_parts")) as [->|]; [exfalso; apply HN; destruct Hg as [->|[->| ->]]; apply (bool_decide_unpack _); vm_compute; exact I|].
      exact HK.
    - intros L. apply HN. unfold stats_params in L. destruct Hg as [->|[->| ->]]; cbn [takes]; set_solver. }
  destruct fn; unfold call_fn.
  - rewrite (bind_call_bad pk_params kws k); [reflexivity|exact HK|]. intros L. apply HN. unfold pk_params in L. cbn [takes]. set_solver.
  - rewrite (bind_call_bad wd_params kws k); [reflexivity|exact HK|]. intros L. apply HN. unfold wd_params in L. cbn [takes]. set_solver.
  - destruct (T BoundarySim eq_refl) as (t & rp & om & -> & -> & -> & K); [auto|]. cbn [bind]. rewrite K. reflexivity.
  - destruct (T SegmentationSim eq_refl) as (t & rp & om & -> & -> & -> & K); [auto|]. cbn [bind]. rewrite K. reflexivity.
  - destruct (T ConfusionMatrix eq_refl) as (t & rp & om & -> & _ & _ & K); [auto|]. cbn [bind]. rewrite K. reflexivity.
  - rewrite (settings_bad kws k); [reflexivity|exact HK|]. intros L. apply HN. unfold stats_params in L. cbn [takes]. set_solver.
Qed.

Lemma pair_refused fn kws k x y : dict_ok kws -> k ∈ kws.*1 -> k ∉ takes fn ->
  (exists a, fix_int x = ASeg a /\ seg_len a <> 0) -> (exists b, fix_int y = ASeg b /\ seg_len b <> 0) ->
  call_metric A E lord fn [x; y] kws = Err TypeError.
Proof.
  intros H0 HK HN (a & Ha & La) (b & Hb & Lb). unfold call_metric. cbn [parse_kw bind fst snd ktrue fix_kval]. rewrite Ha, Hb.
  cbn [truthy]. apply Z.eqb_neq in La, Lb. rewrite La, Lb. cbn [negb andb]. fold (full A fn kws).
  rewrite kdel_ok by (apply full_is_Some; left; apply takes_permuted). cbn [bind].
  rewrite (call_fn_refused fn _ k); [reflexivity|apply ddel_ok, full_ok| | |exact HN].
  - intros k' T N. rewrite dget_ddel by apply full_ok. destruct (decide _); [contradiction|]. apply full_is_Some. auto.
  - rewrite dget_ddel by apply full_ok. destruct (decide (k = "permuted")) as [->|]; [exfalso; apply HN, takes_permuted|]. apply full_is_Some. auto.
Qed.

Lemma dataset_refused fn kws k d : lord_ok lord -> items_ok (ds_items d) -> dict_ok kws -> k ∈ kws.*1 -> k ∉ takes fn ->
  "dataset_b" ∉ kws.*1 -> ds_items d <> [] ->
  (k = "fnc_metric" \/ k = "dataset_a" \/ some_pair (ds_items d) -> call_metric A E lord fn [AData d] kws = Err TypeError) /\
  ("fnc_metric" ∉ kws.*1 -> "dataset_a" ∉ kws.*1 -> ~ some_pair (ds_items d) -> call_metric A E lord fn [AData d] kws = Ok (Many [])).
Proof.
  intros HL HI H0 HK HN HB HE. unfold call_metric. cbn [parse_kw bind fst snd]. fold (full A fn kws).
  assert (T : ktrue (KArg (AData d)) = true). { cbn [ktrue]. apply truthy_nothing. exact HE. }
  rewrite T. unfold pairwise_kw. set (mk := dset (full A fn kws) "boundary_format" (KFmt (ds_format d))).
  assert (G : forall k', k' <> "boundary_format" -> is_Some (dget mk k') <-> k' ∈ takes fn \/ k' ∈ kws.*1).
  { intros k' N. unfold mk. rewrite dget_dset. destruct (decide _); [contradiction|]. apply full_is_Some. }
  assert (D : forall k', k' ∈ ["hypothesis"; "reference"; "dataset"; "fnc_metric"; "dataset_a"; "dataset_b"] -> dmem mk k' = true <-> k' ∈ kws.*1).
  { intros k' N. rewrite dmem_get, G. 2: { intros ->. apply (takes_not fn _ N), takes_format. }
    split; [intros [L|L]; [exfalso; apply (takes_not fn _ N), L|exact L]|auto]. }
  assert (OKm : dict_ok mk) by (apply dset_ok, full_ok).
  assert (KB : dget mk "dataset_b" = None).
  { destruct (dget mk "dataset_b") eqn:Q; [|reflexivity]. exfalso. apply HB, D; [set_solver|]. apply dmem_get. eauto. }
  destruct (dmem mk "fnc_metric" || dmem mk "dataset_a") eqn:O.
  { split; [reflexivity|]. intros N1 N2. exfalso. apply orb_true_iff in O as [O|O]; apply D in O; auto; set_solver. }
  apply orb_false_iff in O as [O1 O2]. rewrite KB. cbn [bind].
  assert (P : is_Some (dget mk "permuted")). { apply G; [discriminate|]. left. apply takes_permuted. }
  destruct P as [p P]. rewrite (dlookup_is _ _ _ P). cbn [bind]. rewrite kdel_ok by eauto. cbn [bind].
  rewrite ddel_id. 2: { rewrite dget_ddel by assumption. exact KB. }
  destruct (compute_refused (call_fn A E fn (ddel mk "permuted")) TypeError) with (lord := lord) (p := ktrue p) (ma := ds_items d) (mb := @None (dict (dict seg)))
    as [[S ->]|[S ->]]; auto; [|apply HI| |].
  - intros a b. apply (call_fn_refused fn _ k); [apply ddel_ok, OKm| | |exact HN].
    + intros k' T' N. rewrite dget_ddel by exact OKm. destruct (decide _); [contradiction|]. unfold mk. rewrite dget_dset.
      destruct (decide _); [eauto|]. apply full_is_Some. auto.
    + rewrite dget_ddel by exact OKm. destruct (decide (k = "permuted")) as [->|]; [exfalso; apply HN, takes_permuted|].
      apply G; [|auto]. intros ->. apply HN, takes_format.
  - split; [reflexivity|]. tauto.
  - split; [|reflexivity]. intros [->|[->|K]]; [| |contradiction].
    + apply (D "fnc_metric") in HK; [congruence|set_solver].
    + apply (D "dataset_a") in HK; [congruence|set_solver].
Qed.

(** * A second dataset by keyword *)
Lemma dataset_b_settings fn kws d b : dict_ok kws -> only ("dataset_b" :: takes fn) kws -> dget kws "dataset_b" = Some (KArg (AData b)) ->
  ds_items d <> [] ->
  call_metric A E lord fn [AData d] kws =
  rmap Many (compute_pairwise_values (call_fn A E fn (inner A fn (ddel kws "dataset_b") (ds_format d))) lord
    (on kws "permuted" (permuted_default fn)) (ds_items d) (Some (ds_items b))).
Proof.
  intros H0 H1 HB HE. unfold call_metric. cbn [parse_kw bind fst snd]. fold (full A fn kws).
  assert (T : ktrue (KArg (AData d)) = true). { cbn [ktrue]. apply truthy_nothing. exact HE. }
  rewrite T. unfold pairwise_kw. set (mk := dset (full A fn kws) "boundary_format" (KFmt (ds_format d))).
  assert (G : forall k, k <> "boundary_format" -> dget mk k = dget (full A fn kws) k).
  { intros k N. unfold mk. rewrite dget_dset. destruct (decide _); [contradiction|reflexivity]. }
  assert (NM : forall k, k ∈ ["fnc_metric"; "dataset_a"] -> dmem mk k = false).
  { intros k K. assert (K' : k ∈ ["hypothesis"; "reference"; "dataset"; "fnc_metric"; "dataset_a"; "dataset_b"]) by set_solver.
    unfold dmem. rewrite G. 2: { intros ->. apply (takes_not fn _ K'), takes_format. }
    assert (dget (full A fn kws) k = None) as ->; [|reflexivity]. apply dget_None. rewrite full_keys. intros [L|L].
    - apply (takes_not fn _ K'), L.
    - apply H1 in L. apply elem_of_cons in L as [->|L]; [|apply (takes_not fn _ K'), L].
      revert K. rewrite !elem_of_cons, elem_of_nil. clear. naive_solver. }
  rewrite !NM by set_solver. cbn [orb].
  assert (dget mk "dataset_b" = Some (KArg (AData b))) as ->.
  { rewrite G by discriminate. rewrite full_get by assumption. rewrite HB. reflexivity. }
  cbn [bind].
  assert (dlookup mk "permuted" = Ok (setting kws "permuted" (KBool (permuted_default fn)))) as ->.
  { unfold dlookup. rewrite G by discriminate. apply permuted_setting, H0. }
  cbn [bind]. rewrite kdel_ok. 2: { rewrite G by discriminate. apply full_is_Some. left. apply takes_permuted. }
  cbn [bind]. unfold mk, inner, full.
  assert (ddel (ddel (dset (dupdate (fn_defaults A fn) kws) "boundary_format" (KFmt (ds_format d))) "permuted") "dataset_b" =
    ddel (dset (dupdate (fn_defaults A fn) (ddel kws "dataset_b")) "boundary_format" (KFmt (ds_format d))) "permuted") as ->; [|reflexivity].
  assert (C : forall (e : dict kval) k k', dict_ok e -> ddel (ddel e k) k' = ddel (ddel e k') k).
  { clear. intros e k k' H. unfold dict_ok in H. induction e as [|[x v] e IH]; [reflexivity|]. cbn [fmap list_fmap fst] in H. apply NoDup_cons in H as [N H].
    cbn [ddel]. destruct (decide (k = x)) as [->|], (decide (k' = x)) as [->|]; cbn [ddel].
    - reflexivity.
    - destruct (decide (x = x)); [reflexivity|contradiction].
    - destruct (decide (x = x)); [reflexivity|contradiction].
    - destruct (decide (k' = x)); [contradiction|]. destruct (decide (k = x)); [contradiction|]. rewrite IH by assumption. reflexivity. }
  rewrite C by (apply dset_ok, full_ok). f_equal. rewrite ddel_dset_ne by discriminate. f_equal.
  rewrite ddel_dupdate by assumption. f_equal. apply ddel_id, dget_None. rewrite defaults_keys. apply takes_not. set_solver.
Qed.
End Functions.
