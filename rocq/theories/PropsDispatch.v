(** Properties C42-C45: pairwise values over datasets (segeval/compute.py) and the
    handling of arguments (segeval/util/__init__.py:31-83). *)
From stdpp Require Import gmap.
From Verif Require Import DictProofs SpecDispatch Dispatch DispatchProofs DispatchMain Similarity SpecSim Round RoundProofs
  BedProofs SimMain Spec Window.
Open Scope Z_scope.

(** Concrete cases: boundary similarity of masses with the default parameters, two
    orders of the set of items, two datasets. *)
Definition B0 (f : fmt) (a b : seg) : res bres := boundary_similarity pyA env0 (default_weights pyA) f 2 false false a b.
Definition ord0 : gset string -> list string := fun s => elements s.
Definition ord1 : gset string -> list string := fun s => reverse (elements s).
Definition mass (l : list Z) : seg := Ints (ints l).
Definition items0 : dict (dict seg) :=
  [("doc", [("ann", mass [2; 3; 6]); ("bob", mass [5; 6]); ("cat", mass [5; 6])]);
   ("dir,note", [("bob", mass [4; 4]); ("dan", mass [3; 5])])]%string.
Definition items1 : dict (dict seg) :=
  [("doc", [("zoe", mass [2; 3; 6])]); ("other", [("zoe", mass [4])])]%string.
Definition data (items : dict (dict seg)) (f : fmt) : dataset seg := new_dataset (Some items) None None f.

Lemma ord0_ok : lord_ok ord0.
Proof. intros s. reflexivity. Qed.
Lemma ord1_ok : lord_ok ord1.
Proof. intros s. unfold ord1. rewrite reverse_Permutation. reflexivity. Qed.

Ltac names_ok := repeat (apply NoDup_cons; split; [intros K; repeat (apply elem_of_cons in K as [K|K]; [discriminate K|]); apply elem_of_nil in K; exact K|]); apply NoDup_nil_2.
Ltac members H := repeat (apply elem_of_cons in H as [H|H]); [..|apply elem_of_nil in H; contradiction].

Lemma items0_ok : items_ok items0 /\ plain_coders items0.
Proof.
  split; [split; [unfold dict_ok; cbn; names_ok|]|].
  - intros item cs H. unfold items0 in H. members H; injection H as -> ->; unfold dict_ok; cbn; names_ok.
  - intros item cs c s H K. unfold items0 in H. members H; injection H as -> ->; members K; injection K as -> ->;
      cbn; repeat split; discriminate.
Qed.
Lemma items1_ok : items_ok items1 /\ plain_coders items1.
Proof.
  split; [split; [unfold dict_ok; cbn; names_ok|]|].
  - intros item cs H. unfold items1 in H. members H; injection H as -> ->; unfold dict_ok; cbn; names_ok.
  - intros item cs c s H K. unfold items1 in H. members H; injection H as -> ->; members K; injection K as -> ->;
      cbn; repeat split; discriminate.
Qed.

(** ** C42 *)

(** One dataset: the entries are the values of the metric for the pairs of coders of an
    item, in the order of the coders, and there are c(c-1)/2 for each item.  Only the
    coders' names have to be free of commas. *)
Theorem C42_complete : forall R (metric : seg -> seg -> res R) lord items d,
  lord_ok lord -> items_ok items -> plain_coders items ->
  compute_pairwise_values metric lord false items None = Ok d ->
  dict_ok d /\
  (forall k v, (k, v) ∈ d <-> exists item c1 c2 a b, k = name3 item c1 c2 /\ before items item c1 c2 a b /\ metric a b = Ok v) /\
  (2 * length d = sum_list ((fun ic => length (snd ic) * (length (snd ic) - 1)) <$> items))%nat.
Proof. exact (fun R metric => one_dataset_plain metric). Qed.
Print Assumptions C42_complete.

(** The metric is called exactly once for each item and pair of coders. *)
Theorem C42_calls : forall R (metric : seg -> seg -> res R) lord items d log,
  lord_ok lord -> items_ok items ->
  compute_pairwise metric lord false items None = Ok (d, log) ->
  log ≡ₚ items ≫= (fun ic => two_of (snd ic).*2).
Proof. exact (fun R metric => one_dataset_calls metric). Qed.
Print Assumptions C42_calls.

(** There is a result exactly if all these calls return; an exception is theirs. *)
Theorem C42_returns : forall R (metric : seg -> seg -> res R) lord items,
  lord_ok lord -> items_ok items ->
  ((exists d, compute_pairwise_values metric lord false items None = Ok d) <->
     forall item c1 c2 a b, before items item c1 c2 a b -> exists v, metric a b = Ok v) /\
  (forall e, compute_pairwise_values metric lord false items None = Err e ->
     exists item c1 c2 a b, before items item c1 c2 a b /\ metric a b = Err e).
Proof. exact (fun R metric => one_dataset_returns metric). Qed.
Print Assumptions C42_returns.

(** With any names: every entry is the value of a pair with that name, and every pair
    has an entry under its name. *)
Theorem C42_any_names : forall R (metric : seg -> seg -> res R) lord items d,
  lord_ok lord -> items_ok items ->
  compute_pairwise_values metric lord false items None = Ok d ->
  dict_ok d /\
  (forall k v, (k, v) ∈ d -> exists item c1 c2 a b, k = name3 item c1 c2 /\ before items item c1 c2 a b /\ metric a b = Ok v) /\
  (forall item c1 c2 a b, before items item c1 c2 a b -> exists v, (name3 item c1 c2, v) ∈ d).
Proof. exact (fun R metric => one_dataset_any metric). Qed.
Print Assumptions C42_any_names.

(** The order in which Python walks the set of items only permutes the result. *)
Theorem C42_order : forall R (metric : seg -> seg -> res R) lord lord' permuted ma mb d d',
  lord_ok lord -> lord_ok lord' -> items_ok ma -> plain_coders ma ->
  match mb with Some m => items_ok m /\ plain_coders m | None => True end ->
  compute_pairwise_values metric lord permuted ma mb = Ok d ->
  compute_pairwise_values metric lord' permuted ma mb = Ok d' -> d ≡ₚ d'.
Proof. exact (fun R metric => orders_agree metric). Qed.
Print Assumptions C42_order.

Example C42_case : lord_ok ord0 /\ items_ok items0 /\ plain_coders items0 /\
  compute_pairwise_values (B0 FMass) ord0 false items0 None =
  Ok [("dir,note,bob,dan", BVal (NDec (1 # 2))); ("doc,ann,bob", BVal (NDec (1 # 2))); ("doc,ann,cat", BVal (NDec (1 # 2)));
      ("doc,bob,cat", BVal (NDec 1))]%string.
Proof. split; [exact ord0_ok|]. split; [apply items0_ok|]. split; [apply items0_ok|]. vm_compute. reflexivity. Qed.

(** With commas in coders' names two pairs can have one name: an entry is lost. *)
Definition items_comma : dict (dict seg) :=
  [("a", [("b,c", mass [2; 3; 6]); ("d", mass [5; 6])]); ("a,b", [("c", mass [4; 4]); ("d", mass [4; 4])])]%string.

Theorem C42_commas_refuted : items_ok items_comma /\
  sum_list ((fun ic => length (snd ic) * (length (snd ic) - 1))%nat <$> items_comma) = 4%nat /\
  rmap length (compute_pairwise_values (B0 FMass) ord0 false items_comma None) = Ok 1%nat.
Proof.
  split; [|split; vm_compute; reflexivity]. split; [unfold dict_ok; cbn; names_ok|].
  intros item cs H. unfold items_comma in H. members H; injection H as -> ->; unfold dict_ok; cbn; names_ok.
Qed.
Print Assumptions C42_commas_refuted.

(** Which one survives depends on the order of the set, hence on string hashing. *)
Theorem C42_commas_order_refuted :
  compute_pairwise_values (B0 FMass) ord0 false items_comma None <> compute_pairwise_values (B0 FMass) ord1 false items_comma None.
Proof. vm_compute. discriminate. Qed.
Print Assumptions C42_commas_order_refuted.

(** ** C43 *)

Theorem C43_complete : forall R (metric : seg -> seg -> res R) lord permuted ia ib d,
  lord_ok lord -> items_ok ia -> items_ok ib -> plain_coders ia -> plain_coders ib ->
  compute_pairwise_values metric lord permuted ia (Some ib) = Ok d ->
  dict_ok d /\
  (forall k v, (k, v) ∈ d <-> exists item c1 c2 a b, k = name3 item c1 c2 /\ across ia ib item c1 c2 a b /\ metric a b = Ok v) /\
  length d = sum_list ((fun ic => length (snd ic) * codings_of ib (fst ic))%nat <$> ia).
Proof. exact (fun R metric => two_datasets metric). Qed.
Print Assumptions C43_complete.

(** The metric is called once for each entry, whatever the names, and for nothing else. *)
Theorem C43_calls : forall R (metric : seg -> seg -> res R) lord permuted ia ib d log,
  lord_ok lord -> items_ok ia -> items_ok ib ->
  compute_pairwise metric lord permuted ia (Some ib) = Ok (d, log) ->
  length log = sum_list ((fun ic => length (snd ic) * codings_of ib (fst ic))%nat <$> ia) /\
  forall a b, (a, b) ∈ log <-> exists item c1 c2, across ia ib item c1 c2 a b.
Proof. exact (fun R metric => two_datasets_calls metric). Qed.
Print Assumptions C43_calls.

Theorem C43_returns : forall R (metric : seg -> seg -> res R) lord permuted ia ib,
  lord_ok lord -> items_ok ia -> items_ok ib ->
  ((exists d, compute_pairwise_values metric lord permuted ia (Some ib) = Ok d) <->
     forall item c1 c2 a b, across ia ib item c1 c2 a b -> exists v, metric a b = Ok v) /\
  (forall e, compute_pairwise_values metric lord permuted ia (Some ib) = Err e ->
     exists item c1 c2 a b, across ia ib item c1 c2 a b /\ metric a b = Err e).
Proof. exact (fun R metric => two_datasets_returns metric). Qed.
Print Assumptions C43_returns.

Example C43_case : lord_ok ord0 /\ items_ok items0 /\ items_ok items1 /\ plain_coders items0 /\ plain_coders items1 /\
  compute_pairwise_values (B0 FMass) ord0 true items1 (Some items0) =
  Ok [("doc,zoe,ann", BVal (NDec 1)); ("doc,zoe,bob", BVal (NDec (1 # 2))); ("doc,zoe,cat", BVal (NDec (1 # 2)))]%string.
Proof.
  split; [exact ord0_ok|]. split; [apply items0_ok|]. split; [apply items1_ok|]. split; [apply items0_ok|].
  split; [apply items1_ok|]. vm_compute. reflexivity.
Qed.

(** ** C44 *)

Theorem C44_both_orders : forall R (metric : seg -> seg -> res R) lord items d,
  lord_ok lord -> items_ok items -> plain_coders items ->
  compute_pairwise_values metric lord true items None = Ok d ->
  dict_ok d /\
  (forall k v, (k, v) ∈ d <-> exists item c1 c2 a b, k = name3 item c1 c2 /\
     (before items item c1 c2 a b \/ before items item c2 c1 b a) /\ metric a b = Ok v) /\
  (length d = sum_list ((fun ic => length (snd ic) * (length (snd ic) - 1)) <$> items))%nat.
Proof. exact (fun R metric => permuted_dataset metric). Qed.
Print Assumptions C44_both_orders.

Theorem C44_symmetric : forall R (metric : seg -> seg -> res R) lord items d,
  lord_ok lord -> items_ok items -> plain_coders items ->
  (forall item c1 c2 a b, before items item c1 c2 a b -> metric a b = metric b a) ->
  compute_pairwise_values metric lord true items None = Ok d ->
  forall item c1 c2 v, (name3 item c1 c2, v) ∈ d -> comma_free c1 -> comma_free c2 -> (name3 item c2 c1, v) ∈ d.
Proof. exact (fun R metric => symmetric_pairs metric). Qed.
Print Assumptions C44_symmetric.

(** B and S with weights that look at counts and distances only. *)
Theorem C44_similarity : forall A E W f n_t om lord items,
  lord_ok lord -> items_ok items -> plain_coders items -> env_ok E -> neutral W ->
  codings_ok items (fun s => exists x, to_bstring f s = Ok x /\ small_types x x) ->
  (forall d, compute_pairwise_values (boundary_similarity A E W f n_t om false) lord true items None = Ok d ->
     forall item c1 c2 v, (name3 item c1 c2, v) ∈ d -> comma_free c1 -> comma_free c2 -> (name3 item c2 c1, v) ∈ d) /\
  (forall d, compute_pairwise_values (segmentation_similarity A E W f n_t om false) lord true items None = Ok d ->
     forall item c1 c2 v, (name3 item c1 c2, v) ∈ d -> comma_free c1 -> comma_free c2 -> (name3 item c2 c1, v) ∈ d).
Proof. exact similarity_pairs. Qed.
Print Assumptions C44_similarity.

(** Pk and WindowDiff with a given window. *)
Theorem C44_window : forall A rnd f k om rp lord items,
  lord_ok lord -> items_ok items -> plain_coders items ->
  codings_ok items (fun s => exists p, to_positions f s = Ok p) ->
  (forall d, compute_pairwise_values (pk A rnd f (Some k) om rp) lord true items None = Ok d ->
     forall item c1 c2 v, (name3 item c1 c2, v) ∈ d -> comma_free c1 -> comma_free c2 -> (name3 item c2 c1, v) ∈ d) /\
  (forall lam d, compute_pairwise_values (window_diff A rnd f (Some k) lam om rp) lord true items None = Ok d ->
     forall item c1 c2 v, (name3 item c1 c2, v) ∈ d -> comma_free c1 -> comma_free c2 -> (name3 item c2 c1, v) ∈ d).
Proof. exact window_pairs. Qed.
Print Assumptions C44_window.

Example C44_case : lord_ok ord0 /\ items_ok items0 /\ plain_coders items0 /\
  rmap (fun d => (dget d "doc,ann,bob", dget d "doc,bob,ann", dget d "dir,note,dan,bob", length d))
    (compute_pairwise_values (B0 FMass) ord0 true items0 None) =
  Ok (Some (BVal (NDec (1 # 2))), Some (BVal (NDec (1 # 2))), Some (BVal (NDec (1 # 2))), 8%nat).
Proof. split; [exact ord0_ok|]. split; [apply items0_ok|]. split; [apply items0_ok|]. vm_compute. reflexivity. Qed.

(** Pk with the default window is not symmetric, and the two entries differ. *)
Theorem C44_default_window_refuted :
  let items := [("doc", [("ann", mass [12]); ("bob", mass [6; 6])])]%string in
  ~ forall d, compute_pairwise_values (pk pyA default_round FMass None false false) ord0 true items None = Ok d ->
      dget d "doc,ann,bob" = dget d "doc,bob,ann".
Proof.
  cbv zeta. intros H. destruct (compute_pairwise_values _ _ _ _ _) as [d|] eqn:E.
  - specialize (H d eq_refl). vm_compute in E. injection E as <-. vm_compute in H. discriminate H.
  - vm_compute in E. discriminate E.
Qed.
Print Assumptions C44_default_window_refuted.

(** ** C45 *)

(** Two segmentations are compared directly, in the format of the keyword. *)
Theorem C45_two_segmentations : forall R (metric : fmt -> seg -> seg -> res R) lord permuted f a b, seg_len a <> 0 -> seg_len b <> 0 ->
  fnc_metric metric lord permuted f (Positional [ASeg a; ASeg b]) = rmap One (metric f a b).
Proof. exact (fun R metric => seg_call metric). Qed.
Print Assumptions C45_two_segmentations.

(** A bare int n is (n,); naming the arguments makes no difference, unless a dataset is
    named as well: then the metric refuses the call. *)
Theorem C45_ints_and_names : forall R (metric : fmt -> seg -> seg -> res R) lord permuted f x y,
  fnc_metric metric lord permuted f (Positional [x; y]) = fnc_metric metric lord permuted f (Positional [fix_int x; fix_int y]) /\
  fnc_metric metric lord permuted f (ByName (Some x) (Some y) None) = fnc_metric metric lord permuted f (Positional [x; y]) /\
  forall d, fnc_metric metric lord permuted f (ByName (Some x) (Some y) (Some d)) =
    fnc_metric (fun _ _ _ => Err TypeError) lord permuted f (Positional [x; y]).
Proof. exact (fun R metric => pair_call metric). Qed.
Print Assumptions C45_ints_and_names.

(** One dataset gives the pairwise values in the dataset's own format. *)
Theorem C45_one_dataset : forall R (metric : fmt -> seg -> seg -> res R) lord permuted f d, ds_items d <> [] ->
  fnc_metric metric lord permuted f (Positional [AData d]) =
    rmap Many (compute_pairwise_values (metric (ds_format d)) lord permuted (ds_items d) None) /\
  fnc_metric metric lord permuted f (ByName None None (Some (AData d))) = fnc_metric metric lord permuted f (Positional [AData d]) /\
  forall h r, h = None /\ is_Some r \/ is_Some h /\ r = None ->
    fnc_metric metric lord permuted f (ByName h r (Some (AData d))) =
    fnc_metric (fun _ _ _ => Err TypeError) lord permuted f (Positional [AData d]).
Proof. exact (fun R metric => data_call metric). Qed.
Print Assumptions C45_one_dataset.

Theorem C45_two_datasets : forall R (metric : fmt -> seg -> seg -> res R) lord permuted f a b,
  ds_items a <> [] -> ds_items b <> [] -> ds_format a = ds_format b ->
  fnc_metric metric lord permuted f (Positional [AData a; AData b]) =
    rmap Many (compute_pairwise_values (metric (ds_format a)) lord permuted (ds_items a) (Some (ds_items b))).
Proof. exact (fun R metric => data2_call metric). Qed.
Print Assumptions C45_two_datasets.

(** Exactly these calls are refused with SegmentationMetricError (for a metric that
    raises none itself): wrong counts, empty arguments, differing formats. *)
Theorem C45_refused : forall R (metric : fmt -> seg -> seg -> res R) lord permuted f c,
  (forall f a b, metric f a b <> Err SegmentationMetricError) ->
  fnc_metric metric lord permuted f c = Err SegmentationMetricError <-> rejected c.
Proof. exact (fun R metric => rejected_iff metric). Qed.
Print Assumptions C45_refused.

(** ... and for any metric they are refused. *)
Theorem C45_refused_always : forall R (metric : fmt -> seg -> seg -> res R) lord permuted f c,
  rejected c -> fnc_metric metric lord permuted f c = Err SegmentationMetricError.
Proof. exact (fun R metric => rejected_raises metric). Qed.
Print Assumptions C45_refused_always.

Example C45_case :
  fnc_metric B0 ord0 false FMass (Positional [AInt 11; ASeg (mass [5; 6])]) = Ok (One (BVal (NDec 0))) /\
  rejected (Positional [AData (data items0 FMass); AData (data items1 FPosition)]) /\
  fnc_metric B0 ord0 false FMass (Positional [AData (data items0 FMass); AData (data items1 FPosition)]) = Err SegmentationMetricError /\
  rmap (fun r => match r with One _ => O | Many d => length d end)
    (fnc_metric B0 ord0 false FPosition (Positional [AData (data items0 FMass)])) = Ok 4%nat.
Proof. split; [vm_compute; reflexivity|]. split; [constructor; discriminate|]. split; vm_compute; reflexivity. Qed.

Example C45_stray_case :
  fnc_metric B0 ord0 false FMass (ByName (Some (AInt 11)) (Some (ASeg (mass [5; 6]))) None) = Ok (One (BVal (NDec 0))) /\
  fnc_metric B0 ord0 false FMass (ByName (Some (AInt 11)) (Some (ASeg (mass [5; 6]))) (Some (AData (data items0 FMass)))) = Err TypeError /\
  fnc_metric B0 ord0 false FMass (ByName (Some (AInt 11)) None (Some (AData (data items0 FMass)))) = Err TypeError.
Proof. repeat split; vm_compute; reflexivity. Qed.

(** A single segmentation is taken for a dataset: the exception is another one. *)
Theorem C45_one_segmentation_refuted :
  fnc_metric B0 ord0 false FMass (Positional [ASeg (mass [5; 6])]) = Err AttributeError.
Proof. vm_compute. reflexivity. Qed.
Print Assumptions C45_one_segmentation_refuted.
