(** Properties C88 and C89: texts that consist of parts with agreed stretches between them
    (segeval/similarity/distance/multipleboundary.py:41-143, segeval/similarity/). *)
From Verif Require Import BedExtra SpecChange SpecGreedy SpecError FormatProofs SimContext Round RoundProofs BedError Join Correct.
From Coq Require Import Lqa.
Open Scope Z_scope.

(** ** C88 *)

(** If two codings agree on a stretch [z] of at least [n_t - 1] positions, the edits of the
    whole are those of what is before it and those of what is after it. *)
Theorem C88_edits : forall a1 b1 z a2 b2 n_t, length a1 = length b1 -> length a2 = length b2 -> n_t - 1 <= zlen z ->
  forall E E1 E2 e e1 e2, env_ok E -> env_ok E1 -> env_ok E2 -> small_types (a1 ++ z ++ a2) (b1 ++ z ++ b2) ->
  boundary_edit_distance E1 a1 b1 n_t = Ok e1 -> boundary_edit_distance E2 a2 b2 n_t = Ok e2 -> boundary_edit_distance E (a1 ++ z ++ a2) (b1 ++ z ++ b2) n_t = Ok e ->
  e_add e = e_add e1 ++ e_add e2 /\ e_sub e = e_sub e1 ++ e_sub e2 /\ e_transp e ≡ₚ e_transp e1 ++ (moved (length a1 + length z) <$> e_transp e2).
Proof. exact bed_join. Qed.
Print Assumptions C88_edits.

(** 1 - B of the whole is the average of 1 - B of the parts, where a part counts as often as
    it has edits and matches; agreed boundaries between the parts count as parts with B = 1.
    So B is never below the B of both parts, and never above it if there are none of those. *)
Theorem C88_B : forall E E1 E2 n_t a1 b1 z a2 b2 e e1 e2, env_ok E -> env_ok E1 -> env_ok E2 -> length a1 = length b1 -> length a2 = length b2 ->
  n_t - 1 <= zlen z -> small_types (a1 ++ z ++ a2) (b1 ++ z ++ b2) -> n_t <> 0 ->
  boundary_edit_distance E1 a1 b1 n_t = Ok e1 -> boundary_edit_distance E2 a2 b2 n_t = Ok e2 -> boundary_edit_distance E (a1 ++ z ++ a2) (b1 ++ z ++ b2) n_t = Ok e ->
  forall f f1 f2 sa sb sa1 sb1 sa2 sb2,
  to_bstrings f sa sb = Ok (a1 ++ z ++ a2, b1 ++ z ++ b2) -> to_bstrings f1 sa1 sb1 = Ok (a1, b1) -> to_bstrings f2 sa2 sb2 = Ok (a2, b2) ->
  forall lo hi, extent (a1 ++ z ++ a2) (b1 ++ z ++ b2) lo hi -> extent a1 b1 lo hi -> extent a2 b2 lo hi ->
  let w1 := inject_Z (edit_count e1 + Z.of_nat (nmatches a1 b1)) in
  let w2 := inject_Z (edit_count e2 + Z.of_nat (nmatches a2 b2)) in
  let g := inject_Z (Z.of_nat (nbounds z)) in
  exists v v1 v2, B_is E f n_t sa sb v /\ B_is E1 f1 n_t sa1 sb1 v1 /\ B_is E2 f2 n_t sa2 sb2 v2 /\
  ((w1 + w2 + g) * (1 - v) == w1 * (1 - v1) + w2 * (1 - v2))%Q /\
  (v1 <= v \/ v2 <= v)%Q /\ (nbounds z = 0%nat -> v <= v1 \/ v <= v2)%Q.
Proof. exact B_join. Qed.
Print Assumptions C88_B.

(** 1 - S of the whole is the average of 1 - S of the parts by their lengths, if the parts
    use the same types. *)
Theorem C88_S : forall E E1 E2 n_t a1 b1 z a2 b2 e e1 e2, env_ok E -> env_ok E1 -> env_ok E2 -> length a1 = length b1 -> length a2 = length b2 ->
  n_t - 1 <= zlen z -> small_types (a1 ++ z ++ a2) (b1 ++ z ++ b2) -> n_t <> 0 ->
  boundary_edit_distance E1 a1 b1 n_t = Ok e1 -> boundary_edit_distance E2 a2 b2 n_t = Ok e2 -> boundary_edit_distance E (a1 ++ z ++ a2) (b1 ++ z ++ b2) n_t = Ok e ->
  forall f f1 f2 sa sb sa1 sb1 sa2 sb2,
  to_bstrings f sa sb = Ok (a1 ++ z ++ a2, b1 ++ z ++ b2) -> to_bstrings f1 sa1 sb1 = Ok (a1, b1) -> to_bstrings f2 sa2 sb2 = Ok (a2, b2) ->
  forall lo hi, extent (a1 ++ z ++ a2) (b1 ++ z ++ b2) lo hi -> extent a1 b1 lo hi -> extent a2 b2 lo hi ->
  (forall d, used (a1 ++ z ++ a2) (b1 ++ z ++ b2) d <-> used a1 b1 d) -> (forall d, used a1 b1 d <-> used a2 b2 d) ->
  exists v v1 v2, S_is E f n_t sa sb v /\ S_is E1 f1 n_t sa1 sb1 v1 /\ S_is E2 f2 n_t sa2 sb2 v2 /\
  (inject_Z (zlen a1 + zlen z + zlen a2) * (1 - v) == inject_Z (zlen a1) * (1 - v1) + inject_Z (zlen a2) * (1 - v2))%Q.
Proof. exact S_join. Qed.
Print Assumptions C88_S.

Definition p1 : bstring := [{[1]}; ∅; ∅].
Definition q1 : bstring := [∅; {[1]}; ∅].
Definition mid : bstring := [{[1]}].
Definition one : bstring := [{[1]}].
Definition none : bstring := [∅].
Definition p2 : bstring := [{[1]}; ∅; ∅; {[1]}].
Definition q2 : bstring := [∅; ∅; ∅; {[1]}].

Lemma ones (x y : bstring) : (exists i, 1 ∈ default ∅ (x !! i)) -> (forall s, s ∈ x ++ y -> s ⊆ {[1]}) -> forall d, used x y d <-> d = 1.
Proof.
  intros (i & Hi) Hs d. split.
  - intros (j & [(s & L & K)|(s & L & K)]); apply elem_of_list_lookup_2 in L; (assert (M : s ∈ x ++ y) by (apply elem_of_app; tauto)); specialize (Hs s M); set_solver.
  - intros ->. exists i. left. unfold has. destruct (x !! i) as [s|]; cbn in Hi; [eauto|set_solver].
Qed.

(** One near miss before the agreed boundary (B = 1/2), a miss and a match behind it
    (B = 1/2); the whole has a cost of 3/2 on 4 and B = 5/8. *)
Example C88_case :
  length p1 = length q1 /\ length p2 = length q2 /\ 2 - 1 <= zlen mid /\ small_types (p1 ++ mid ++ p2) (q1 ++ mid ++ q2) /\
  extent (p1 ++ mid ++ p2) (q1 ++ mid ++ q2) 1 1 /\ extent p1 q1 1 1 /\ extent p2 q2 1 1 /\
  (forall d, used (p1 ++ mid ++ p2) (q1 ++ mid ++ q2) d <-> used p1 q1 d) /\ (forall d, used p1 q1 d <-> used p2 q2 d) /\
  boundary_edit_distance env0 p1 q1 2 = Ok (Edits [] [] [Transp 0 1 1]) /\
  boundary_edit_distance env0 p2 q2 2 = Ok (Edits [Addition 1 SideA] [] []) /\
  boundary_edit_distance env0 (p1 ++ mid ++ p2) (q1 ++ mid ++ q2) 2 = Ok (Edits [Addition 1 SideA] [] [Transp 0 1 1]) /\
  boundary_similarity pyA env0 (default_weights pyA) FSets 2 false false (Sets p1) (Sets q1) = Ok (BVal (NDec (1 # 2))) /\
  boundary_similarity pyA env0 (default_weights pyA) FSets 2 false false (Sets p2) (Sets q2) = Ok (BVal (NDec (1 # 2))) /\
  boundary_similarity pyA env0 (default_weights pyA) FSets 2 false false (Sets (p1 ++ mid ++ p2)) (Sets (q1 ++ mid ++ q2)) = Ok (BVal (NDec (5 # 8))) /\
  segmentation_similarity pyA env0 (default_weights pyA) FSets 2 false false (Sets p2) (Sets q2) = Ok (SVal (NDec (3 # 4))) /\
  segmentation_similarity pyA env0 (default_weights pyA) FSets 2 false false (Sets (p1 ++ mid ++ p2)) (Sets (q1 ++ mid ++ q2)) = Ok (SVal (NDec (13 # 16))).
Proof.
  assert (U1 : forall d, used p1 q1 d <-> d = 1) by (apply ones; [exists 0%nat; cbn; set_solver|apply Forall_forall; repeat constructor; set_solver]).
  assert (U2 : forall d, used p2 q2 d <-> d = 1) by (apply ones; [exists 0%nat; cbn; set_solver|apply Forall_forall; repeat constructor; set_solver]).
  assert (U0 : forall d, used (p1 ++ mid ++ p2) (q1 ++ mid ++ q2) d <-> d = 1) by (apply ones; [exists 0%nat; cbn; set_solver|apply Forall_forall; repeat constructor; set_solver]).
  split; [reflexivity|]. split; [reflexivity|]. split; [vm_compute; discriminate|]. split; [apply small_typesb; reflexivity|].
  split; [unfold extent; setoid_rewrite U0; repeat split; lia|]. split; [unfold extent; setoid_rewrite U1; repeat split; lia|].
  split; [unfold extent; setoid_rewrite U2; repeat split; lia|].
  split; [intros d; rewrite U0, U1; reflexivity|]. split; [intros d; rewrite U1, U2; reflexivity|].
  repeat split; vm_compute; reflexivity.
Qed.

(** Without the stretch it is false: a boundary at the end of one part and a boundary at the
    start of the next one are a near miss. *)
Theorem C88_apart_refuted : ~ (forall a1 b1 a2 b2 : bstring, length a1 = length b1 -> length a2 = length b2 ->
  forall E e e1 e2, env_ok E -> small_types (a1 ++ a2) (b1 ++ b2) ->
  boundary_edit_distance E a1 b1 2 = Ok e1 -> boundary_edit_distance E a2 b2 2 = Ok e2 -> boundary_edit_distance E (a1 ++ a2) (b1 ++ b2) 2 = Ok e ->
  e_add e = e_add e1 ++ e_add e2).
Proof.
  intros H. assert (K : [] = [Addition 1 SideA; Addition 1 SideB]); [|discriminate K].
  apply (H one none none one eq_refl eq_refl env0 (Edits [] [] [Transp 0 1 1]) (Edits [Addition 1 SideA] [] []) (Edits [Addition 1 SideB] [] []) env0_ok);
    [apply small_typesb; vm_compute; reflexivity|vm_compute; reflexivity|vm_compute; reflexivity|vm_compute; reflexivity].
Qed.
Print Assumptions C88_apart_refuted.

(** B of a whole that is cut elsewhere can even exceed B of both its parts. *)
Theorem C88_B_refuted : ~ (forall a1 b1 a2 b2 : bstring, length a1 = length b1 -> length a2 = length b2 -> small_types (a1 ++ a2) (b1 ++ b2) ->
  forall v v1 v2, boundary_similarity pyA env0 (default_weights pyA) FSets 2 false false (Sets (a1 ++ a2)) (Sets (b1 ++ b2)) = Ok (BVal (NDec v)) ->
  boundary_similarity pyA env0 (default_weights pyA) FSets 2 false false (Sets a1) (Sets b1) = Ok (BVal (NDec v1)) ->
  boundary_similarity pyA env0 (default_weights pyA) FSets 2 false false (Sets a2) (Sets b2) = Ok (BVal (NDec v2)) -> (v <= v1 \/ v <= v2)%Q).
Proof.
  intros H. destruct (H one none none one eq_refl eq_refl ltac:(apply small_typesb; vm_compute; reflexivity) (1 # 2)%Q 0%Q 0%Q) as [K|K];
    [vm_compute; reflexivity|vm_compute; reflexivity|vm_compute; reflexivity|revert K; vm_compute; intros K; apply K; reflexivity|revert K; vm_compute; intros K; apply K; reflexivity].
Qed.
Print Assumptions C88_B_refuted.

(** ** C89 *)

(** If a coder's stretch [m] is replaced by the reference's [m'], and the codings agree on
    at least [n_t - 1] positions on both sides of it, B does not fall; it rises if anything
    changed, unless B is 0 even afterwards. *)
Theorem C89_B : forall l l' z m m' z' r r' n_t, let x := l ++ z ++ m ++ z' ++ r in let y := l' ++ z ++ m' ++ z' ++ r' in let x' := l ++ z ++ m' ++ z' ++ r in
  forall E, env_ok E -> 0 < n_t -> length l = length l' -> length m = length m' -> length r = length r' -> n_t - 1 <= zlen z -> n_t - 1 <= zlen z' -> small_types x y ->
  forall f f' sx sy sx' sy', to_bstrings f sx sy = Ok (x, y) -> to_bstrings f' sx' sy' = Ok (x', y) ->
  forall lo hi, extent x y lo hi -> extent x' y lo hi ->
  exists v v', B_is E f n_t sx sy v /\ B_is E f' n_t sx' sy' v' /\ (v <= v')%Q /\ (m <> m' -> 0 < v' -> v < v')%Q.
Proof. exact B_corrected. Qed.
Print Assumptions C89_B.

(** S rises if anything changed, if the same types remain in use. *)
Theorem C89_S : forall l l' z m m' z' r r' n_t, let x := l ++ z ++ m ++ z' ++ r in let y := l' ++ z ++ m' ++ z' ++ r' in let x' := l ++ z ++ m' ++ z' ++ r in
  forall E, env_ok E -> 0 < n_t -> length l = length l' -> length m = length m' -> length r = length r' -> n_t - 1 <= zlen z -> n_t - 1 <= zlen z' -> small_types x y ->
  forall f f' sx sy sx' sy', to_bstrings f sx sy = Ok (x, y) -> to_bstrings f' sx' sy' = Ok (x', y) ->
  forall lo hi, extent x y lo hi -> extent x' y lo hi -> (forall d, used x y d <-> used x' y d) ->
  exists v v', S_is E f n_t sx sy v /\ S_is E f' n_t sx' sy' v' /\ (v <= v')%Q /\ (m <> m' -> v < v')%Q.
Proof. exact S_corrected. Qed.
Print Assumptions C89_S.

(** Every boundary of the second coding is matched or taken up by one edit, so the number of
    edits and matches exceeds its boundaries by additions only. *)
Theorem C89_edits : forall E x y n_t e, env_ok E -> small_types x y -> length x = length y -> boundary_edit_distance E x y n_t = Ok e ->
  edit_count e + Z.of_nat (nmatches x y) - Z.of_nat (nbounds y) <= zlen (e_add e).
Proof. exact edits_bound. Qed.
Print Assumptions C89_edits.

(** A near miss, then a false alarm that is taken back, then an agreed boundary. *)
Definition before_ : bstring := [{[1]}; ∅].
Definition before_' : bstring := [∅; {[1]}].
Definition gap : bstring := [∅].
Definition wrong : bstring := [{[1]}].
Definition right_ : bstring := [∅].
Definition after_ : bstring := [{[1]}].

Example C89_case : let x := before_ ++ gap ++ wrong ++ gap ++ after_ in let y := before_' ++ gap ++ right_ ++ gap ++ after_ in
  let x' := before_ ++ gap ++ right_ ++ gap ++ after_ in
  2 - 1 <= zlen gap /\ small_types x y /\ wrong <> right_ /\ extent x y 1 1 /\ extent x' y 1 1 /\ (forall d, used x y d <-> used x' y d) /\
  boundary_similarity pyA env0 (default_weights pyA) FSets 2 false false (Sets x) (Sets y) = Ok (BVal (NDec (1 # 2))) /\
  boundary_similarity pyA env0 (default_weights pyA) FSets 2 false false (Sets x') (Sets y) = Ok (BVal (NDec (3 # 4))) /\
  segmentation_similarity pyA env0 (default_weights pyA) FSets 2 false false (Sets x) (Sets y) = Ok (SVal (NDec (3 # 4))) /\
  exists q, segmentation_similarity exactA env0 (default_weights exactA) FSets 2 false false (Sets x') (Sets y) = Ok (SVal (NDec q)) /\ (q == 11 # 12)%Q.
Proof.
  cbn zeta.
  assert (U1 : forall d, used (before_ ++ gap ++ wrong ++ gap ++ after_) (before_' ++ gap ++ right_ ++ gap ++ after_) d <-> d = 1) by (apply ones; [exists 0%nat; cbn; set_solver|apply Forall_forall; repeat constructor; set_solver]).
  assert (U2 : forall d, used (before_ ++ gap ++ right_ ++ gap ++ after_) (before_' ++ gap ++ right_ ++ gap ++ after_) d <-> d = 1) by (apply ones; [exists 0%nat; cbn; set_solver|apply Forall_forall; repeat constructor; set_solver]).
  split; [vm_compute; discriminate|]. split; [apply small_typesb; reflexivity|]. split.
  { discriminate. }
  split; [unfold extent; setoid_rewrite U1; repeat split; lia|]. split; [unfold extent; setoid_rewrite U2; repeat split; lia|].
  split; [intros d; rewrite U1, U2; reflexivity|].
  split; [vm_compute; reflexivity|]. split; [vm_compute; reflexivity|]. split; [vm_compute; reflexivity|].
  eexists. split; [vm_compute; reflexivity|]. vm_compute. reflexivity.
Qed.

(** False without agreed stretches: to place a boundary correctly and leave the one that was
    a near miss of it is worse than the near miss. *)
Theorem C89_adjacent_refuted : ~ (forall l l' m m' r r' : bstring, length l = length l' -> length m = length m' -> length r = length r' ->
  small_types (l ++ m ++ r) (l' ++ m' ++ r') -> forall v v',
  boundary_similarity pyA env0 (default_weights pyA) FSets 2 false false (Sets (l ++ m ++ r)) (Sets (l' ++ m' ++ r')) = Ok (BVal (NDec v)) ->
  boundary_similarity pyA env0 (default_weights pyA) FSets 2 false false (Sets (l ++ m' ++ r)) (Sets (l' ++ m' ++ r')) = Ok (BVal (NDec v')) -> (v <= v')%Q).
Proof.
  pose (both := [{[1]}; {[1]}] : bstring). pose (first := [{[1]}; ∅] : bstring).
  intros H. assert (K : exists v', boundary_similarity pyA env0 (default_weights pyA) FSets 2 false false (Sets (both ++ one ++ [])) (Sets (first ++ one ++ [])) = Ok (BVal (NDec v')) /\ (v' < 3 # 4)%Q).
  { eexists. split; [vm_compute; reflexivity|]. vm_compute. reflexivity. }
  destruct K as (v' & K1 & K2).
  pose proof (H both first none one [] [] eq_refl eq_refl eq_refl ltac:(apply small_typesb; vm_compute; reflexivity) (3 # 4)%Q v' ltac:(vm_compute; reflexivity) K1). lra.
Qed.
Print Assumptions C89_adjacent_refuted.
