(** Property C106: summaries of a metric and of its complement (one_minus) over the same
    datasets (segeval/compute.py:11-111, segeval/util/math.py). *)
From stdpp Require Import gmap.
From Verif Require Import SpecCompared SpecDispatch SpecSim SpecWindow SpecMath Spec Dispatch SpecML BedProofs BedExtra AgreementCases BothOrders PropsAlong Complements.
Open Scope Z_scope.

(** ** C106 *)

(** With one_minus every value of a dataset is replaced by 1 minus it, and so is the mean;
    standard deviation, variance and standard error remain.  Pk, any window size and
    codings: *)
Theorem C106_pk : forall rnd f k lord permuted ma mb d d',
  compute_pairwise_values (pk exactA rnd f k false false) lord permuted ma mb = Ok d ->
  compute_pairwise_values (pk exactA rnd f k true false) lord permuted ma mb = Ok d' ->
  Forall2 (fun p p' => fst p' = fst p /\ (nval (w_num (snd p')) == 1 - nval (w_num (snd p)))%Q) d d' /\
  (d <> [] -> exists m s v e m' s' v' e', summarize exactA (numbers w_num d) = Ok (NDec m, NDec s, NDec v, NDec e, zlen d) /\
    summarize exactA (numbers w_num d') = Ok (NDec m', NDec s', NDec v', NDec e', zlen d) /\ (m' == 1 - m /\ s' == s /\ v' == v /\ e' == e)%Q).
Proof. exact pk_complement. Qed.
Print Assumptions C106_pk.

(** WindowDiff. *)
Theorem C106_window_diff : forall rnd f k lam lord permuted ma mb d d',
  compute_pairwise_values (window_diff exactA rnd f k lam false false) lord permuted ma mb = Ok d ->
  compute_pairwise_values (window_diff exactA rnd f k lam true false) lord permuted ma mb = Ok d' ->
  Forall2 (fun p p' => fst p' = fst p /\ (nval (w_num (snd p')) == 1 - nval (w_num (snd p)))%Q) d d' /\
  (d <> [] -> exists m s v e m' s' v' e', summarize exactA (numbers w_num d) = Ok (NDec m, NDec s, NDec v, NDec e, zlen d) /\
    summarize exactA (numbers w_num d') = Ok (NDec m', NDec s', NDec v', NDec e', zlen d) /\ (m' == 1 - m /\ s' == s /\ v' == v /\ e' == e)%Q).
Proof. exact wd_complement. Qed.
Print Assumptions C106_window_diff.

(** B, if some boundary occurs in any two codings that are compared. *)
Theorem C106_B : forall E n_t f lord permuted ma mb d d', env_ok E -> n_t <> 0 ->
  (forall a b, compared_codings ma mb a b -> exists x y, to_bstrings f a b = Ok (x, y) /\ exists t, used x y t) ->
  compute_pairwise_values (boundary_similarity exactA E (default_weights exactA) f n_t false false) lord permuted ma mb = Ok d ->
  compute_pairwise_values (boundary_similarity exactA E (default_weights exactA) f n_t true false) lord permuted ma mb = Ok d' ->
  Forall2 (fun p p' => fst p' = fst p /\ (nval (b_num (snd p')) == 1 - nval (b_num (snd p)))%Q) d d' /\
  (d <> [] -> exists m s v e m' s' v' e', summarize exactA (numbers b_num d) = Ok (NDec m, NDec s, NDec v, NDec e, zlen d) /\
    summarize exactA (numbers b_num d') = Ok (NDec m', NDec s', NDec v', NDec e', zlen d) /\ (m' == 1 - m /\ s' == s /\ v' == v /\ e' == e)%Q).
Proof. exact B_complement. Qed.
Print Assumptions C106_B.

(** S. *)
Theorem C106_S : forall E n_t f lord permuted ma mb d d', env_ok E -> n_t <> 0 ->
  (forall a b, compared_codings ma mb a b -> exists x y, to_bstrings f a b = Ok (x, y) /\ exists t, used x y t) ->
  compute_pairwise_values (segmentation_similarity exactA E (default_weights exactA) f n_t false false) lord permuted ma mb = Ok d ->
  compute_pairwise_values (segmentation_similarity exactA E (default_weights exactA) f n_t true false) lord permuted ma mb = Ok d' ->
  Forall2 (fun p p' => fst p' = fst p /\ (nval (s_num (snd p')) == 1 - nval (s_num (snd p)))%Q) d d' /\
  (d <> [] -> exists m s v e m' s' v' e', summarize exactA (numbers s_num d) = Ok (NDec m, NDec s, NDec v, NDec e, zlen d) /\
    summarize exactA (numbers s_num d') = Ok (NDec m', NDec s', NDec v', NDec e', zlen d) /\ (m' == 1 - m /\ s' == s /\ v' == v /\ e' == e)%Q).
Proof. exact S_complement. Qed.
Print Assumptions C106_S.

(** Without one_minus: C104_window_case, C104_similarity_case. *)
Example C106_case :
  compute_pairwise_values (pk exactA default_round FMass (Some 3) true false) o104 false d104 (Some e104) =
    Ok [("i,ann,bob", WVal (NDec (7 # 8))); ("i,ann,cat", WVal (NDec (3 # 4)))]%string /\
  compute_pairwise_values (window_diff exactA default_round FMass (Some 3) false true false) o104 false d104 (Some e104) =
    Ok [("i,ann,bob", WVal (NDec (5 # 8))); ("i,ann,cat", WVal (NDec (5 # 8)))]%string /\
  (forall a b, compared_codings e104 None a b -> exists x y, to_bstrings FMass a b = Ok (x, y) /\ exists t, used x y t) /\
  compute_pairwise_values (boundary_similarity exactA env0 (default_weights exactA) FMass 2 true false) o104 true e104 None =
    Ok [("i,bob,cat", BVal (NDec (1 # 2))); ("i,cat,bob", BVal (NDec (1 # 2)))]%string /\
  compute_pairwise_values (segmentation_similarity exactA env0 (default_weights exactA) FMass 2 true false) o104 true e104 None =
    Ok [("i,bob,cat", SVal (NDec (1 # 20))); ("i,cat,bob", SVal (NDec (1 # 20)))]%string.
Proof.
  split; [vm_compute; reflexivity|]. split; [vm_compute; reflexivity|]. split; [|split; vm_compute; reflexivity].
  intros a b H. destruct (proj1 C104_similarity_case a b H) as (x & y & H1 & H2 & _). exists x, y. auto.
Qed.
