(** Property C97: actual agreement lies between the smallest and the greatest of the values
    of the pairs (segeval/agreement/__init__.py:147-175, compute.py:11-100). *)
From stdpp Require Import gmap.
From Verif Require Import SpecAgreement SpecML SpecDispatch Spec Agreement BedProofs BedExtra AgreementCases Pooled.
Open Scope Z_scope.

(** Nothing is rounded here.  [d] holds B for every item and two coders. *)
Theorem C97_between_B : forall E n_t f cord c om lord d, env_ok E -> n_t <> 0 -> lord_ok lord ->
  coded (c_format c f) (cord (c_coders c)) (c_items c) -> cached (c_format c f) (cord (c_coders c)) (c_items c) ->
  items_ok (c_items c) -> plain_coders (c_items c) ->
  compute_pairwise_values (boundary_similarity exactA E (default_weights exactA) (c_format c f) n_t false false) lord false (c_items c) None = Ok d ->
  exists v k lo k' hi, actual_agreement_linear exactA (compare_B exactA E (default_weights exactA) n_t om) f cord c = Ok (NDec v) /\
    (k, BVal (NDec lo)) ∈ d /\ (k', BVal (NDec hi)) ∈ d /\ (lo <= v <= hi)%Q.
Proof. exact pooled_between_B. Qed.
Print Assumptions C97_between_B.

(** The same for S. *)
Theorem C97_between_S : forall E n_t f cord c om lord d, env_ok E -> n_t <> 0 -> lord_ok lord ->
  coded (c_format c f) (cord (c_coders c)) (c_items c) -> cached (c_format c f) (cord (c_coders c)) (c_items c) ->
  items_ok (c_items c) -> plain_coders (c_items c) ->
  compute_pairwise_values (segmentation_similarity exactA E (default_weights exactA) (c_format c f) n_t false false) lord false (c_items c) None = Ok d ->
  exists v k lo k' hi, actual_agreement_linear exactA (compare_S exactA E (default_weights exactA) n_t om) f cord c = Ok (NDec v) /\
    (k, SVal (NDec lo)) ∈ d /\ (k', SVal (NDec hi)) ∈ d /\ (lo <= v <= hi)%Q.
Proof. exact pooled_between_S. Qed.
Print Assumptions C97_between_S.

(** If all pairs have the same value, that is the agreement. *)
Theorem C97_common : forall E n_t f cord c om lord d q, env_ok E -> n_t <> 0 -> lord_ok lord ->
  coded (c_format c f) (cord (c_coders c)) (c_items c) -> cached (c_format c f) (cord (c_coders c)) (c_items c) ->
  items_ok (c_items c) -> plain_coders (c_items c) ->
  compute_pairwise_values (boundary_similarity exactA E (default_weights exactA) (c_format c f) n_t false false) lord false (c_items c) None = Ok d ->
  (forall k x, (k, BVal (NDec x)) ∈ d -> (x == q)%Q) ->
  exists v, actual_agreement_linear exactA (compare_B exactA E (default_weights exactA) n_t om) f cord c = Ok (NDec v) /\ (v == q)%Q.
Proof. exact pooled_common. Qed.
Print Assumptions C97_common.

Definition m97 (l : list Z) : seg := Ints (ints l).
Definition o97 (s : gset string) : list string := elements s.
Definition d97 : dict (dict seg) :=
  [("i", [("bob", m97 [2; 3]); ("ann", m97 [2; 1; 2])]); ("j", [("ann", m97 [1; 1; 2]); ("bob", m97 [1; 1; 1; 1])])]%string.
Definition p97 := boundary_similarity exactA env0 (default_weights exactA) FMass 2 false false.

Ltac names97 := repeat (apply NoDup_cons; split; [intros K; repeat (apply elem_of_cons in K as [K|K]; [discriminate K|]); apply elem_of_nil in K; exact K|]); apply NoDup_nil_2.
Ltac members97 H := repeat (apply elem_of_cons in H as [H|H]); [..|apply elem_of_nil in H; contradiction].

Example C97_case : lord_ok o97 /\ coded FMass (o97 (c_coders (CDict d97))) d97 /\ cached FMass (o97 (c_coders (CDict d97))) d97 /\
  items_ok d97 /\ plain_coders d97 /\
  compute_pairwise_values p97 o97 false d97 None = Ok [("j,ann,bob", BVal (NDec (2 # 3))); ("i,bob,ann", BVal (NDec (1 # 2)))]%string /\
  actual_agreement_linear exactA (compare_B exactA env0 (default_weights exactA) 2 false) FMass o97 (CDict d97) = Ok (NDec (3 # 5)).
Proof.
  split; [intros s; reflexivity|]. split; [apply coded_b_ok; vm_compute; reflexivity|]. split; [apply cached_b_ok; vm_compute; reflexivity|].
  split; [|split; [|split; vm_compute; reflexivity]].
  - split; [unfold dict_ok; cbn; names97|]. intros item cs H. unfold d97 in H. members97 H; injection H as -> ->; unfold dict_ok; cbn; names97.
  - intros item cs c s H K. unfold d97 in H. members97 H; injection H as -> ->; members97 K; injection K as -> ->; cbn; repeat split; discriminate.
Qed.

(** It is not their mean: an item with more boundaries weighs more. *)
Theorem C97_mean_refuted : ~ forall c x y v, coded (c_format c FMass) (o97 (c_coders c)) (c_items c) ->
  compute_pairwise_values p97 o97 false (c_items c) None = Ok [x; y] ->
  actual_agreement_linear exactA (compare_B exactA env0 (default_weights exactA) 2 false) FMass o97 c = Ok (NDec v) ->
  exists a b, snd x = BVal (NDec a) /\ snd y = BVal (NDec b) /\ (v == (a + b) / 2)%Q.
Proof.
  intros H. destruct C97_case as (_ & Hc & _ & _ & _ & Hp & Ha). destruct (H (CDict d97) _ _ _ Hc Hp Ha) as (a & b & Ea & Eb & E).
  cbn [snd] in Ea, Eb. injection Ea as <-. injection Eb as <-. discriminate E.
Qed.
Print Assumptions C97_mean_refuted.
