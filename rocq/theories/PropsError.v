(** Properties C74 and C75: exactly which transpositions are found, and what single
    errors cost B and S (segeval/similarity/distance/multipleboundary.py:76-161,
    segeval/similarity/__init__.py:25-80). *)
From Verif Require Import SpecGreedy SpecError Round BedExtra BedGreedy SimMain BedError.
Open Scope Z_scope.

(** ** C74 *)

(** The transpositions found are a greedy set, and there is only one. *)
Theorem C74_greedy : forall E a b n_t e, env_ok E -> small_types a b -> length a = length b ->
  boundary_edit_distance E a b n_t = Ok e -> greedy a b n_t (e_transp e).
Proof. exact bed_greedy. Qed.
Print Assumptions C74_greedy.

Theorem C74_unique : forall a b n_t T T', greedy a b n_t T -> greedy a b n_t T' -> T ≡ₚ T'.
Proof. exact greedy_unique. Qed.
Print Assumptions C74_unique.

(** They are listed by span, then by position. *)
Theorem C74_order : forall E a b n_t e, env_ok E -> small_types a b -> length a = length b ->
  boundary_edit_distance E a b n_t = Ok e ->
  forall k1 k2 t u, (k1 < k2)%nat -> e_transp e !! k1 = Some t -> e_transp e !! k2 = Some u -> ~ before u t.
Proof. exact bed_transp_order. Qed.
Print Assumptions C74_order.

(** A swap of near enough gaps is overlooked only where transpositions of its type
    are, or where each of the two gaps has types of its own on both sides. *)
Theorem C74_nothing_overlooked : forall E a b n_t e, env_ok E -> small_types a b -> length a = length b ->
  boundary_edit_distance E a b n_t = Ok e ->
  forall i j d, (i < j < length a)%nat -> Z.of_nat j - Z.of_nat i <= n_t - 1 -> swaps a b i j d ->
  (forall t, t ∈ e_transp e -> t_type t = d -> t_start t <> i /\ t_start t <> j /\ t_end t <> i /\ t_end t <> j) ->
  exists x y x' y', (has a i x /\ ~ has b i x) /\ (has b i y /\ ~ has a i y) /\ (has a j x' /\ ~ has b j x') /\ (has b j y' /\ ~ has a j y').
Proof. exact bed_overlooks_nothing. Qed.
Print Assumptions C74_nothing_overlooked.

(** A shorter span that is found first, a longer one that it rules out, and one
    that is ruled out by the substitutions at both of its gaps. *)
Example C74_case :
  let a := [{[1]}; ∅; {[1]}; ∅; {[1]}; {[2]}] in let b := [∅; ∅; ∅; {[1]}; {[2]}; {[1]}] in
  small_types a b /\ swaps a b 4 5 1 /\ swaps a b 0 3 1 /\ swaps a b 2 3 1 /\ swaps a b 2 5 1 /\
  boundary_edit_distance env0 a b 4 = Ok (Edits [Addition 1 SideA] [(1, 2); (2, 1)] [Transp 2 3 1]).
Proof.
  cbn zeta. split; [apply small_typesb; reflexivity|].
  repeat split; try (vm_compute; reflexivity); rewrite <- BedMain.cand_swaps; apply (bool_decide_unpack _); vm_compute; exact I.
Qed.

(** ** C75 *)

Theorem C75_missing_edit : forall E a b n_t e, env_ok E -> small_types a b -> boundary_edit_distance E a b n_t = Ok e ->
  forall i t, missing a b i t -> e = Edits [Addition t SideA] [] [].
Proof. exact missing_edits. Qed.
Print Assumptions C75_missing_edit.

Theorem C75_near_edit : forall E a b n_t e, env_ok E -> small_types a b -> boundary_edit_distance E a b n_t = Ok e ->
  forall i j t, displaced a b i j t -> Z.of_nat j - Z.of_nat i < n_t -> e = Edits [] [] [Transp i j t].
Proof. exact displaced_near. Qed.
Print Assumptions C75_near_edit.

Theorem C75_far_edit : forall E a b n_t e, env_ok E -> small_types a b -> boundary_edit_distance E a b n_t = Ok e ->
  forall i j t, displaced a b i j t -> n_t <= Z.of_nat j - Z.of_nat i ->
  e_add e ≡ₚ [Addition t SideA; Addition t SideB] /\ e_sub e = [] /\ e_transp e = [].
Proof. exact displaced_far. Qed.
Print Assumptions C75_far_edit.

Theorem C75_type_edit : forall E a b n_t e, env_ok E -> small_types a b -> boundary_edit_distance E a b n_t = Ok e ->
  forall i t u, mistyped a b i t u -> e = Edits [] [(t, u)] [].
Proof. exact mistyped_edits. Qed.
Print Assumptions C75_type_edit.

(** With n boundaries in [a], wherever the error is. *)
Theorem C75_missing : forall E f n_t sa sb a b, env_ok E -> small_types a b -> n_t <> 0 -> to_bstrings f sa sb = Ok (a, b) ->
  forall i t, missing a b i t ->
  B_is E f n_t sa sb (1 - 1 / inject_Z (Z.of_nat (nbounds a))) /\
  S_is E f n_t sa sb (1 - 1 / inject_Z (zlen a * zsize (identify_types a b) * zsize (identify_types a b))).
Proof. exact missing_cost. Qed.
Print Assumptions C75_missing.

Theorem C75_near : forall E f n_t sa sb a b, env_ok E -> small_types a b -> n_t <> 0 -> to_bstrings f sa sb = Ok (a, b) ->
  forall i j t, displaced a b i j t -> Z.of_nat j - Z.of_nat i < n_t ->
  let c := (inject_Z (Z.of_nat j - Z.of_nat i) / inject_Z n_t)%Q in
  B_is E f n_t sa sb (1 - c / inject_Z (Z.of_nat (nbounds a))) /\
  S_is E f n_t sa sb (1 - c / inject_Z (zlen a * zsize (identify_types a b) * zsize (identify_types a b))).
Proof. exact displaced_near_cost. Qed.
Print Assumptions C75_near.

Theorem C75_far : forall E f n_t sa sb a b, env_ok E -> small_types a b -> n_t <> 0 -> to_bstrings f sa sb = Ok (a, b) ->
  forall i j t, displaced a b i j t -> n_t <= Z.of_nat j - Z.of_nat i ->
  B_is E f n_t sa sb (1 - 2 / (inject_Z (Z.of_nat (nbounds a)) + 1)) /\
  S_is E f n_t sa sb (1 - 2 / inject_Z (zlen a * zsize (identify_types a b) * zsize (identify_types a b))).
Proof. exact displaced_far_cost. Qed.
Print Assumptions C75_far.

Theorem C75_type : forall E f n_t sa sb a b, env_ok E -> small_types a b -> n_t <> 0 -> to_bstrings f sa sb = Ok (a, b) ->
  forall i t u lo hi, mistyped a b i t u -> extent a b lo hi ->
  let c := (inject_Z (Z.abs (t - u)) / inject_Z (hi - lo + 1))%Q in
  B_is E f n_t sa sb (1 - c / inject_Z (Z.of_nat (nbounds a))) /\
  S_is E f n_t sa sb (1 - c / inject_Z (zlen a * zsize (identify_types a b) * zsize (identify_types a b))).
Proof. exact mistyped_cost. Qed.
Print Assumptions C75_type.

Theorem C75_ranking : forall E f n_t sa sn sm sf a bn bm bf i j t k u p q w, env_ok E -> n_t <> 0 ->
  to_bstrings f sa sn = Ok (a, bn) -> to_bstrings f sa sm = Ok (a, bm) -> to_bstrings f sa sf = Ok (a, bf) ->
  small_types a bn -> small_types a bm -> small_types a bf ->
  displaced a bn i j t -> Z.of_nat j - Z.of_nat i < n_t -> missing a bm k u -> displaced a bf p q w -> n_t <= Z.of_nat q - Z.of_nat p ->
  exists x y z, B_is E f n_t sa sn x /\ B_is E f n_t sa sm y /\ B_is E f n_t sa sf z /\ (z <= y)%Q /\ (y < x)%Q /\ ((1 < nbounds a)%nat -> z < y)%Q.
Proof. exact error_ranking. Qed.
Print Assumptions C75_ranking.

(** Two boundaries after the 3rd and 7th of 10 units: the second is one gap off,
    missing, or two gaps off; then boundaries with types. *)
Definition mass (l : list Z) : seg := Ints (ints l).
Definition marks (l : list nat) : bstring := (fun i => if decide (i ∈ l) then {[1]} else ∅) <$> seq 0 9.

Lemma has_marks l i d : has (marks l) i d <-> (i < 9)%nat /\ i ∈ l /\ d = 1.
Proof.
  unfold has, marks. setoid_rewrite list_lookup_fmap. split.
  - intros (s & H & Hd). destruct (seq 0 9 !! i) as [k|] eqn:K; [|discriminate H]. apply lookup_seq in K as [-> K]. cbn in H. injection H as <-.
    case_decide; [|destruct (not_elem_of_empty _ Hd)]. apply elem_of_singleton in Hd. auto.
  - intros (H1 & H2 & ->). exists {[1]}. rewrite lookup_seq_lt by exact H1. cbn. rewrite decide_True by exact H2. split; [reflexivity|]. apply elem_of_singleton. reflexivity.
Qed.

Lemma bstringsb (r : res (bstring * bstring)) a b :
  match r with Ok (x, y) => bool_decide (x = a /\ y = b) | Err _ => false end = true -> r = Ok (a, b).
Proof. destruct r as [[x y]|]; [|discriminate]. intros H%bool_decide_eq_true. destruct H as [-> ->]. reflexivity. Qed.

Example C75_case :
  to_bstrings FMass (mass [3; 4; 3]) (mass [3; 5; 2]) = Ok (marks [2; 6]%nat, marks [2; 7]%nat) /\
  displaced (marks [2; 6]%nat) (marks [2; 7]%nat) 6 7 1 /\ missing (marks [2; 6]%nat) (marks [2]%nat) 6 1 /\
  displaced (marks [2; 6]%nat) (marks [2; 8]%nat) 6 8 1 /\ nbounds (marks [2; 6]%nat) = 2%nat /\
  boundary_similarity pyA env0 (default_weights pyA) FMass 2 false false (mass [3; 4; 3]) (mass [3; 5; 2]) = Ok (BVal (NDec (3 # 4))) /\
  boundary_similarity pyA env0 (default_weights pyA) FMass 2 false false (mass [3; 4; 3]) (mass [3; 7]) = Ok (BVal (NDec (1 # 2))) /\
  boundary_similarity pyA env0 (default_weights pyA) FMass 2 false false (mass [3; 4; 3]) (mass [3; 6; 1]) =
    Ok (BVal (NDec (3333333333333333333333333333 # 10 ^ 28))).
Proof.
  split; [apply bstringsb; vm_compute; reflexivity|]. split; [|split; [|split; [|split; [vm_compute; reflexivity|split; [vm_compute; reflexivity|split; vm_compute; reflexivity]]]]].
  - split; [split; [reflexivity|]|split; [lia|]].
    + intros i d K. rewrite !has_marks. rewrite !elem_of_cons in *. rewrite !elem_of_nil in *. destruct (decide (d = 1)) as [->|]; [|tauto].
      assert (i <> 6%nat /\ i <> 7%nat) by (split; intros ->; tauto). lia.
    + unfold swaps. rewrite !has_marks, !elem_of_cons, !elem_of_nil. left. lia.
  - split; [split; [reflexivity|]|]; rewrite ?has_marks, ?elem_of_cons, ?elem_of_nil; [|lia].
    intros i d K. rewrite !has_marks. rewrite !elem_of_cons in *. rewrite !elem_of_nil in *. destruct (decide (d = 1)) as [->|]; [|tauto].
    assert (i <> 6%nat) by (intros ->; tauto). lia.
  - split; [split; [reflexivity|]|split; [lia|]].
    + intros i d K. rewrite !has_marks. rewrite !elem_of_cons in *. rewrite !elem_of_nil in *. destruct (decide (d = 1)) as [->|]; [|tauto].
      assert (i <> 6%nat /\ i <> 8%nat) by (split; intros ->; tauto). lia.
    + unfold swaps. rewrite !has_marks, !elem_of_cons, !elem_of_nil. left. lia.
Qed.

(** A boundary of type 2 instead of 1 where types 1 to 4 occur. *)
Example C75_type_case : let a := [{[1]}; {[4]}; ∅; {[1; 3]}] in let b := [{[2]}; {[4]}; ∅; {[1; 3]}] in
  mistyped a b 0 1 2 /\ extent a b 1 4 /\
  boundary_similarity pyA env0 (default_weights pyA) FSets 2 false false (Sets a) (Sets b) = Ok (BVal (NDec (15 # 16))).
Proof.
  cbn zeta. split; [|split; [apply extentb_ok; vm_compute; reflexivity|vm_compute; reflexivity]].
  assert (H : forall (x y : tyset) l d, d <> 1 -> d <> 2 -> (d ∈ x <-> d ∈ y) -> forall i, has (x :: l) i d <-> has (y :: l) i d).
  { intros x y l d _ _ K [|i]; unfold has; cbn; [|reflexivity]. split; intros (s & Q & R); injection Q as <-; eexists; (split; [reflexivity|]); apply K, R. }
  split; [split; [reflexivity|]|].
  - intros i d K. rewrite !elem_of_cons, elem_of_nil in K. destruct i as [|i].
    + assert (d <> 1) by (intros ->; tauto). assert (d <> 2) by (intros ->; tauto). apply H; [assumption|assumption|]. rewrite !elem_of_singleton. tauto.
    + unfold has. cbn. reflexivity.
  - rewrite <- !BedMain.at_has. cbn. rewrite !elem_of_singleton. lia.
Qed.
