(** Property C104: two metrics over the same datasets (segeval/compute.py:11-111,
    segeval/util/math.py). *)
From stdpp Require Import gmap.
From Verif Require Import SpecCompared SpecDispatch SpecSim SpecWindow Spec Dispatch SpecML BedProofs BedExtra AgreementCases BothOrders Along.
Open Scope Z_scope.

(** If the results of two metrics are related on all pairs of codings that are compared,
    they are related key by key over the datasets, and the keys have the same order. *)
Theorem C104_keys : forall R R' (M : seg -> seg -> res R) (M' : seg -> seg -> res R') (rel : R -> R' -> Prop) ma mb,
  (forall a b r r', compared_codings ma mb a b -> M a b = Ok r -> M' a b = Ok r' -> rel r r') ->
  forall lord permuted d d', compute_pairwise_values M lord permuted ma mb = Ok d -> compute_pairwise_values M' lord permuted ma mb = Ok d' ->
  Forall2 (fun p p' => fst p = fst p' /\ rel (snd p) (snd p')) d d'.
Proof. exact @along. Qed.
Print Assumptions C104_keys.

(** Pk never exceeds WindowDiff, nor does its mean. *)
Theorem C104_pk_wd : forall rnd f k lord permuted ma mb d d', 0 <= k <= 255 ->
  (forall a b, compared_codings ma mb a b -> exists m n, Spec.positive m /\ Spec.positive n /\ m <> [] /\ n <> [] /\ wencodes f m a /\ wencodes f n b /\ zsum m = zsum n /\ k < zsum n) ->
  compute_pairwise_values (pk exactA rnd f (Some k) false false) lord permuted ma mb = Ok d ->
  compute_pairwise_values (window_diff exactA rnd f (Some k) false false false) lord permuted ma mb = Ok d' ->
  Forall2 (fun p p' => fst p = fst p' /\ (nval (w_num (snd p)) <= nval (w_num (snd p')))%Q) d d' /\
  (d <> [] -> exists m s v e m' s' v' e', summarize exactA (numbers w_num d) = Ok (NDec m, NDec s, NDec v, NDec e, zlen d) /\
    summarize exactA (numbers w_num d') = Ok (NDec m', NDec s', NDec v', NDec e', zlen d) /\ (m <= m')%Q).
Proof. exact along_pk_wd. Qed.
Print Assumptions C104_pk_wd.

(** Nor does B exceed S. *)
Theorem C104_B_S : forall E n_t f lord permuted ma mb d d', env_ok E -> n_t <> 0 ->
  (forall a b, compared_codings ma mb a b -> exists x y, to_bstrings f a b = Ok (x, y) /\ (exists t, used x y t) /\ small_types x y) ->
  compute_pairwise_values (boundary_similarity exactA E (default_weights exactA) f n_t false false) lord permuted ma mb = Ok d ->
  compute_pairwise_values (segmentation_similarity exactA E (default_weights exactA) f n_t false false) lord permuted ma mb = Ok d' ->
  Forall2 (fun p p' => fst p = fst p' /\ (nval (b_num (snd p)) <= nval (s_num (snd p')))%Q) d d' /\
  (d <> [] -> exists m s v e m' s' v' e', summarize exactA (numbers b_num d) = Ok (NDec m, NDec s, NDec v, NDec e, zlen d) /\
    summarize exactA (numbers s_num d') = Ok (NDec m', NDec s', NDec v', NDec e', zlen d) /\ (m <= m')%Q).
Proof. exact along_B_S. Qed.
Print Assumptions C104_B_S.

Definition m104 (l : list Z) : seg := Ints (ints l).
Definition o104 (s : gset string) : list string := elements s.
Definition d104 : dict (dict seg) := [("i", [("ann", m104 [3; 1; 7])])]%string.
Definition e104 : dict (dict seg) := [("i", [("bob", m104 [3; 8]); ("cat", m104 [2; 9])])]%string.

Example C104_window_case :
  (forall a b, compared_codings d104 (Some e104) a b -> exists m n, Spec.positive m /\ Spec.positive n /\ m <> [] /\ n <> [] /\ wencodes FMass m a /\ wencodes FMass n b /\ zsum m = zsum n /\ 3 < zsum n) /\
  compute_pairwise_values (pk exactA default_round FMass (Some 3) false false) o104 false d104 (Some e104) =
    Ok [("i,ann,bob", WVal (NDec (1 # 8))); ("i,ann,cat", WVal (NDec (1 # 4)))]%string /\
  compute_pairwise_values (window_diff exactA default_round FMass (Some 3) false false false) o104 false d104 (Some e104) =
    Ok [("i,ann,bob", WVal (NDec (3 # 8))); ("i,ann,cat", WVal (NDec (3 # 8)))]%string.
Proof.
  split; [|split; vm_compute; reflexivity]. intros a b (label & cs & cs' & c & c' & H1 & H2 & H3 & H4).
  apply elem_of_list_singleton in H1. injection H1 as -> ->. apply elem_of_list_singleton in H2. injection H2 as ->.
  apply elem_of_list_singleton in H3. injection H3 as -> ->. exists [3; 1; 7].
  apply elem_of_cons in H4 as [H4|H4]; [|apply elem_of_list_singleton in H4]; injection H4 as -> ->; [exists [3; 8]|exists [2; 9]];
    (split; [repeat constructor; lia|]; split; [repeat constructor; lia|]; split; [discriminate|]; split; [discriminate|]; split; [reflexivity|]; split; [reflexivity|]; split; [reflexivity|cbn; lia]).
Qed.

Example C104_similarity_case :
  (forall a b, compared_codings e104 None a b -> exists x y, to_bstrings FMass a b = Ok (x, y) /\ (exists t, used x y t) /\ small_types x y) /\
  compute_pairwise_values (boundary_similarity exactA env0 (default_weights exactA) FMass 2 false false) o104 true e104 None =
    Ok [("i,bob,cat", BVal (NDec (1 # 2))); ("i,cat,bob", BVal (NDec (1 # 2)))]%string /\
  compute_pairwise_values (segmentation_similarity exactA env0 (default_weights exactA) FMass 2 false false) o104 true e104 None =
    Ok [("i,bob,cat", SVal (NDec (19 # 20))); ("i,cat,bob", SVal (NDec (19 # 20)))]%string.
Proof.
  split; [|split; vm_compute; reflexivity].
  set (ok := fun a b => match to_bstrings FMass a b with
    Ok (x, y) => used_b x y && forallb (fun s : gset Z => forallb (fun d => (-5 <=? d) && (d <=? 256)) (elements s)) (x ++ y) | Err _ => false end).
  assert (G : forall a b, ok a b = true -> exists x y, to_bstrings FMass a b = Ok (x, y) /\ (exists t, used x y t) /\ small_types x y).
  { intros a b H. unfold ok in H. destruct (to_bstrings FMass a b) as [[x y]|]; [|discriminate]. exists x, y. split; [reflexivity|].
    apply andb_true_iff in H as [H K]. split; [apply used_b_ok, H|]. intros s d Hs Hd. rewrite forallb_forall in K.
    specialize (K s ltac:(apply elem_of_list_In, elem_of_app, Hs)). rewrite forallb_forall in K.
    specialize (K d ltac:(apply elem_of_list_In, elem_of_elements, Hd)). apply andb_true_iff in K as [K1 K2]. lia. }
  intros a b (label & cs & cs' & c & c' & H1 & H2 & H3 & H4). apply G.
  apply elem_of_list_singleton in H1. injection H1 as -> ->. apply elem_of_list_singleton in H2. injection H2 as ->.
  apply elem_of_cons in H3 as [H3|H3]; [|apply elem_of_list_singleton in H3]; injection H3 as -> ->;
    (apply elem_of_cons in H4 as [H4|H4]; [|apply elem_of_list_singleton in H4]); injection H4 as -> ->; vm_compute; reflexivity.
Qed.
