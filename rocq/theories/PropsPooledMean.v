(** Property C99: actual agreement as a mean of the values of the pairs
    (segeval/agreement/__init__.py:147-175, similarity/segmentation.py:12-37,
    compute.py:11-111). *)
From stdpp Require Import gmap.
From Verif Require Import SpecAgreement SpecML SpecDispatch SpecSim Spec Agreement BedProofs BedExtra SimStats AgreementCases BothOrders PooledMean.
Open Scope Z_scope.

(** If the items have exactly the coders of the dataset, the agreement is a mean of the
    pairwise values of B with positive weights, one for each value.  Nothing is rounded. *)
Theorem C99_weighted : forall E n_t f cord c om lord d, env_ok E -> n_t <> 0 -> lord_ok lord ->
  coded (c_format c f) (cord (c_coders c)) (c_items c) -> cached (c_format c f) (cord (c_coders c)) (c_items c) ->
  items_ok (c_items c) -> plain_coders (c_items c) -> full (cord (c_coders c)) (c_items c) ->
  compute_pairwise_values (boundary_similarity exactA E (default_weights exactA) (c_format c f) n_t false false) lord false (c_items c) None = Ok d ->
  exists v (l : list (Z * Q)), actual_agreement_linear exactA (compare_B exactA E (default_weights exactA) n_t om) f cord c = Ok (NDec v) /\
    d.*2 ≡ₚ (fun p => BVal (NDec (snd p))) <$> l /\ Forall (fun p => 0 < fst p) l /\
    (v == qsum ((fun p => inject_Z (fst p) * snd p) <$> l) / inject_Z (zsum (fst <$> l)))%Q.
Proof. exact pooled_weighted. Qed.
Print Assumptions C99_weighted.

(** By S it is their plain mean, the one [summarize] computes, if all texts have the same
    number [N] of gaps and all pairs of codings use the same types [T]. *)
Theorem C99_mean : forall E n_t f cord c om lord d N (T : gset Z), env_ok E -> n_t <> 0 -> lord_ok lord ->
  coded (c_format c f) (cord (c_coders c)) (c_items c) -> cached (c_format c f) (cord (c_coders c)) (c_items c) ->
  items_ok (c_items c) -> plain_coders (c_items c) -> full (cord (c_coders c)) (c_items c) ->
  (forall ic k, ic ∈ c_items c -> k ∈ cord (c_coders c) -> zlen (coding (c_format c f) k ic) = N) ->
  (forall ic m n t, ic ∈ c_items c -> m ∈ cord (c_coders c) -> n ∈ cord (c_coders c) -> m <> n ->
     used (coding (c_format c f) m ic) (coding (c_format c f) n ic) t <-> t ∈ T) ->
  compute_pairwise_values (segmentation_similarity exactA E (default_weights exactA) (c_format c f) n_t false false) lord false (c_items c) None = Ok d ->
  exists v m s w e, actual_agreement_linear exactA (compare_S exactA E (default_weights exactA) n_t om) f cord c = Ok (NDec v) /\
    summarize exactA (numbers s_num d) = Ok (NDec m, NDec s, NDec w, NDec e, zlen d) /\ (m == v)%Q.
Proof. exact pooled_mean. Qed.
Print Assumptions C99_mean.

Definition m99 (l : list Z) : seg := Ints (ints l).
Definition o99 (s : gset string) : list string := elements s.
Definition d99 : dict (dict seg) :=
  [("i", [("bob", m99 [2; 3]); ("ann", m99 [2; 1; 2])]); ("j", [("ann", m99 [1; 1; 3]); ("bob", m99 [5])])]%string.
Definition p99 := segmentation_similarity exactA env0 (default_weights exactA) FMass 2 false false.

Ltac names99 := repeat (apply NoDup_cons; split; [intros K; repeat (apply elem_of_cons in K as [K|K]; [discriminate K|]); apply elem_of_nil in K; exact K|]); apply NoDup_nil_2.
Ltac members99 H := repeat (apply elem_of_cons in H as [H|H]); [..|apply elem_of_nil in H; contradiction].

Example C99_case : coded FMass (o99 (c_coders (CDict d99))) d99 /\ cached FMass (o99 (c_coders (CDict d99))) d99 /\
  items_ok d99 /\ plain_coders d99 /\ full (o99 (c_coders (CDict d99))) d99 /\
  (forall ic k, ic ∈ d99 -> k ∈ o99 (c_coders (CDict d99)) -> zlen (coding FMass k ic) = 4) /\
  (forall ic m n t, ic ∈ d99 -> m ∈ o99 (c_coders (CDict d99)) -> n ∈ o99 (c_coders (CDict d99)) -> m <> n ->
     used (coding FMass m ic) (coding FMass n ic) t <-> t ∈ ({[1]} : gset Z)) /\
  compute_pairwise_values p99 o99 false d99 None = Ok [("j,ann,bob", SVal (NDec (1 # 2))); ("i,bob,ann", SVal (NDec (3 # 4)))]%string /\
  actual_agreement_linear exactA (compare_S exactA env0 (default_weights exactA) 2 false) FMass o99 (CDict d99) = Ok (NDec (5 # 8)).
Proof.
  assert (O : o99 (c_coders (CDict d99)) = ["bob"; "ann"]%string) by (vm_compute; reflexivity).
  split; [apply coded_b_ok; vm_compute; reflexivity|]. split; [apply cached_b_ok; vm_compute; reflexivity|]. rewrite !O.
  split; [|split; [|split; [|split; [|split; [|split; vm_compute; reflexivity]]]]].
  - split; [unfold dict_ok; cbn; names99|]. intros item cs H. unfold d99 in H. members99 H; injection H as -> ->; unfold dict_ok; cbn; names99.
  - intros item cs c s H K. unfold d99 in H. members99 H; injection H as -> ->; members99 K; injection K as -> ->; cbn; repeat split; discriminate.
  - intros ic H. unfold d99 in H. members99 H; subst ic; cbn; [reflexivity|apply perm_swap].
  - intros ic k H K. unfold d99 in H. members99 H; subst ic; members99 K; subst k; vm_compute; reflexivity.
  - intros ic m n t H K1 K2 K. rewrite <- elem_of_types. unfold d99 in H.
    members99 H; subst ic; members99 K1; subst m; members99 K2; subst n; try contradiction; clear;
    match goal with |- t ∈ ?S <-> t ∈ ?T => cut (S = T); [intros ->; reflexivity|apply (bool_decide_eq_true_1 _); vm_compute; reflexivity] end.
Qed.

(** The texts must be equally long. *)
Theorem C99_lengths_refuted : ~ forall c x y v, coded (c_format c FMass) (o99 (c_coders c)) (c_items c) ->
  compute_pairwise_values p99 o99 false (c_items c) None = Ok [x; y] ->
  actual_agreement_linear exactA (compare_S exactA env0 (default_weights exactA) 2 false) FMass o99 c = Ok (NDec v) ->
  mean exactA [s_num (snd x); s_num (snd y)] = Ok (NDec v).
Proof.
  intros H. specialize (H (CDict [("i", [("bob", m99 [2; 3]); ("ann", m99 [2; 1; 2])]); ("j", [("ann", m99 [1; 1; 1]); ("bob", m99 [3])])])%string
    ("j,ann,bob", SVal (NDec 0))%string ("i,bob,ann", SVal (NDec (3 # 4)))%string (1 # 2)%Q).
  assert (K : mean exactA [s_num (SVal (NDec 0)); s_num (SVal (NDec (3 # 4)))] = Ok (NDec (1 # 2)));
    [apply H; [apply coded_b_ok; vm_compute; reflexivity|vm_compute; reflexivity|vm_compute; reflexivity]|].
  vm_compute in K. discriminate K.
Qed.
Print Assumptions C99_lengths_refuted.

(** By B it is not the plain mean even if they are: more boundaries weigh more. *)
Theorem C99_B_refuted : ~ forall c N x y v, coded (c_format c FMass) (o99 (c_coders c)) (c_items c) ->
  (forall ic k, ic ∈ c_items c -> k ∈ o99 (c_coders c) -> zlen (coding (c_format c FMass) k ic) = N) ->
  compute_pairwise_values (boundary_similarity exactA env0 (default_weights exactA) FMass 2 false false) o99 false (c_items c) None = Ok [x; y] ->
  actual_agreement_linear exactA (compare_B exactA env0 (default_weights exactA) 2 false) FMass o99 c = Ok (NDec v) ->
  mean exactA [b_num (snd x); b_num (snd y)] = Ok (NDec v).
Proof.
  intros H. set (c := CDict [("i", [("bob", m99 [2; 3]); ("ann", m99 [2; 1; 2])]); ("j", [("ann", m99 [2; 3]); ("bob", m99 [2; 3])])]%string).
  specialize (H c 4 ("j,ann,bob", BVal (NDec 1))%string ("i,bob,ann", BVal (NDec (1 # 2)))%string (2 # 3)%Q).
  assert (O : o99 (c_coders c) = ["bob"; "ann"]%string) by (vm_compute; reflexivity).
  assert (K : mean exactA [b_num (BVal (NDec 1)); b_num (BVal (NDec (1 # 2)))] = Ok (NDec (2 # 3))).
  { apply H; [apply coded_b_ok; vm_compute; reflexivity| |vm_compute; reflexivity|vm_compute; reflexivity].
    rewrite O. cbn [c_items c_format c]. intros ic k K1 K2. members99 K1; subst ic; members99 K2; subst k; vm_compute; reflexivity. }
  vm_compute in K. discriminate K.
Qed.
Print Assumptions C99_B_refuted.
