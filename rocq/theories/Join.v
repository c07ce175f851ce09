(** C88: texts that consist of two parts. *)
From Verif Require Import SpecChange SpecGreedy SpecError FormatProofs Bed BedProofs BedSubs BedMain BedTheory BedEmbed BedContext BedGreedy SimStats SimProofs SimRound SimTheory SimMain SimContext BedError.
From Coq Require Import Lqa.
Open Scope Z_scope.

Section Join.
Context (a1 b1 z a2 b2 : bstring) (n_t : Z) (H1 : length a1 = length b1) (H2 : length a2 = length b2) (Hz : n_t - 1 <= zlen z).
Let a := a1 ++ z ++ a2.
Let b := b1 ++ z ++ b2.
Let l := length a1.
Let k := (length a1 + length z)%nat.

Lemma has_left (s t : bstring) i d : (i < length s)%nat -> has (s ++ t) i d <-> has s i d.
Proof. intros H. unfold has. rewrite lookup_app_l by exact H. reflexivity. Qed.

Lemma has_right (s t : bstring) i d : has (s ++ t) (length s + i) d <-> has t i d.
Proof. unfold has. rewrite lookup_app_r by lia. replace (length s + i - length s)%nat with i by lia. reflexivity. Qed.

Lemma has_a1 i d : (i < l)%nat -> has a i d <-> has a1 i d.
Proof. apply has_left. Qed.
Lemma has_b1 i d : (i < l)%nat -> has b i d <-> has b1 i d.
Proof. unfold l. rewrite H1. apply has_left. Qed.
Lemma has_a2 i d : has a (k + i) d <-> has a2 i d.
Proof. unfold a, k. rewrite <- Nat.add_assoc, has_right, has_right. reflexivity. Qed.
Lemma has_b2 i d : has b (k + i) d <-> has b2 i d.
Proof. unfold b, k. rewrite H1, <- Nat.add_assoc, has_right, has_right. reflexivity. Qed.
Lemma has_z i d : (l <= i < k)%nat -> has a i d <-> has b i d.
Proof.
  intros H. unfold a, b. replace i with (length a1 + (i - l))%nat by (unfold l in *; lia). rewrite has_right, H1, has_right.
  rewrite !has_left by (unfold k, l in *; lia). reflexivity.
Qed.

Section Greedy.
Context (T1 T2 : list transposition) (G1 : greedy a1 b1 n_t T1) (G2 : greedy a2 b2 n_t T2).
Let T := T1 ++ (moved k <$> T2).

Lemma in_T1 t : t ∈ T1 -> (t_start t < t_end t < l)%nat.
Proof. intros K. apply G1 in K. apply K. Qed.

Lemma elem_of_T t : t ∈ T <-> t ∈ T1 \/ exists u, t = moved k u /\ u ∈ T2.
Proof. unfold T. rewrite elem_of_app, elem_of_list_fmap. reflexivity. Qed.

Lemma settled_left t i d : (i < l)%nat -> settled T t i d <-> settled T1 t i d.
Proof.
  intros Hi. split.
  - intros (u & K & B & D & P). apply elem_of_T in K as [K|(v & -> & K)]; [exists u; auto|]. cbn in P. unfold k, l in *. lia.
  - intros (u & K & R). exists u. split; [apply elem_of_T; auto|exact R].
Qed.

Lemma before_moved u t : before (moved k u) (moved k t) <-> before u t.
Proof. unfold before. cbn. split; intros; lia. Qed.

Lemma settled_right t i d : settled T (moved k t) (k + i) d <-> settled T2 t i d.
Proof.
  split.
  - intros (u & K & B & D & P). apply elem_of_T in K as [K|(v & -> & K)].
    + apply in_T1 in K. unfold k, l in *. lia.
    + apply (proj1 (before_moved _ _)) in B. exists v. cbn in D, P. split; [exact K|]. split; [exact B|]. split; [exact D|]. lia.
  - intros (u & K & B & D & P). exists (moved k u). split; [apply elem_of_T; eauto|]. split; [apply (proj2 (before_moved _ _)), B|]. split; [exact D|]. cbn. lia.
Qed.

Lemma sides_left t i : (i < l)%nat -> both_sides a b T t i <-> both_sides a1 b1 T1 t i.
Proof.
  intros Hi. unfold both_sides. setoid_rewrite (has_a1 i _ Hi). setoid_rewrite (has_b1 i _ Hi). setoid_rewrite (settled_left t i _ Hi). reflexivity.
Qed.

Lemma sides_right t i : both_sides a b T (moved k t) (k + i) <-> both_sides a2 b2 T2 t i.
Proof. unfold both_sides. setoid_rewrite (has_a2 i). setoid_rewrite (has_b2 i). setoid_rewrite (settled_right t i). reflexivity. Qed.

Lemma length_a : length a = (k + length a2)%nat.
Proof. unfold a, k. rewrite !app_length. lia. Qed.

Lemma taken_left t : (t_end t < l)%nat -> taken a b n_t T t <-> taken a1 b1 n_t T1 t.
Proof.
  intros Hi. pose proof length_a as La. split; intros [K1 K2 K3 K4 K5]; assert (Hj : (t_start t < l)%nat) by lia; split; try exact K2.
  - unfold l in Hi. lia.
  - revert K3. unfold swaps. rewrite !has_a1, !has_b1 by assumption. auto.
  - rewrite !settled_left in K4 by assumption. exact K4.
  - rewrite !sides_left in K5 by assumption. exact K5.
  - unfold k, l in *. lia.
  - unfold swaps. rewrite !has_a1, !has_b1 by assumption. exact K3.
  - rewrite !settled_left by assumption. exact K4.
  - rewrite !sides_left by assumption. exact K5.
Qed.

Lemma taken_right t : taken a b n_t T (moved k t) <-> taken a2 b2 n_t T2 t.
Proof.
  pose proof length_a as La. split; intros [K1 K2 K3 K4 K5]; cbn [moved t_start t_end t_type] in *; split; cbn [moved t_start t_end t_type] in *; try lia.
  - revert K3. unfold swaps. rewrite !has_a2, !has_b2. auto.
  - rewrite !settled_right in K4. exact K4.
  - rewrite !sides_right in K5. exact K5.
  - unfold swaps. rewrite !has_a2, !has_b2. exact K3.
  - rewrite !settled_right. exact K4.
  - rewrite !sides_right. exact K5.
Qed.

Lemma joined_greedy : greedy a b n_t T.
Proof.
  split.
  - unfold T. apply NoDup_app. split; [apply G1|]. split.
    + intros t K K'. apply in_T1 in K. apply elem_of_list_fmap in K' as (u & -> & _). cbn in K. unfold k, l in *. lia.
    + apply NoDup_fmap_2; [|apply G2]. intros [i j d] [i' j' d'] K. unfold moved in K. cbn in K. injection K as K1 K2 ->. f_equal; lia.
  - intros t. split.
    + intros K. apply elem_of_T in K as [K|(u & -> & K)].
      * apply taken_left; [apply in_T1 in K; lia|]. apply G1, K.
      * apply taken_right, G2, K.
    + intros K. apply elem_of_T. pose proof K as [K1 K2 K3 _ _].
      assert (Q : forall i, (i = t_start t \/ i = t_end t) -> (i < l \/ k <= i)%nat).
      { intros i Hi. destruct (decide (l <= i < k)%nat) as [C|C]; [|lia]. exfalso.
        pose proof (has_z i (t_type t) C) as Q. unfold swaps in K3. destruct Hi as [->| ->]; tauto. }
      pose proof (Q _ (or_introl eq_refl)) as Q1. pose proof (Q _ (or_intror eq_refl)) as Q2. clear Q.
      destruct Q2 as [Q2|Q2].
      * left. apply G1, taken_left; assumption.
      * destruct Q1 as [Q1|Q1]; [exfalso; unfold k, l, zlen in *; lia|]. right.
        exists (Transp (t_start t - k) (t_end t - k) (t_type t)).
        assert (Et : t = moved k (Transp (t_start t - k) (t_end t - k) (t_type t))).
        { destruct t as [i j d]. unfold moved. cbn in *. f_equal; lia. }
        split; [exact Et|]. apply G2, taken_right. rewrite <- Et. exact K.
Qed.
End Greedy.

Lemma small_parts : small_types a b -> small_types a1 b1 /\ small_types a2 b2.
Proof. intros H. split; intros s d Hs Hd; (eapply H; [|exact Hd]); unfold a, b; rewrite !elem_of_app; tauto. Qed.

Lemma same_at x y i : (forall d, has x i d <-> has y i d) -> at_ x i = at_ y i.
Proof. intros H. apply set_eq. intros d. rewrite !at_has. apply H. Qed.

Lemma at_move x y i j : (forall d, has x i d <-> has y j d) -> at_ x i = at_ y j.
Proof. intros H. apply set_eq. intros d. rewrite !at_has. apply H. Qed.

Theorem bed_join E E1 E2 e e1 e2 : env_ok E -> env_ok E1 -> env_ok E2 -> small_types a b ->
  boundary_edit_distance E1 a1 b1 n_t = Ok e1 -> boundary_edit_distance E2 a2 b2 n_t = Ok e2 -> boundary_edit_distance E a b n_t = Ok e ->
  e_add e = e_add e1 ++ e_add e2 /\ e_sub e = e_sub e1 ++ e_sub e2 /\ e_transp e ≡ₚ e_transp e1 ++ (moved k <$> e_transp e2).
Proof.
  intros HE HE1 HE2 Hs He1 He2 He. destruct (small_parts Hs) as [S1 S2].
  assert (La : length a = (k + length a2)%nat) by (unfold a, k; rewrite !app_length; lia).
  assert (Hl : length a = length b) by (unfold a, b; rewrite !app_length; lia).
  assert (P : e_transp e ≡ₚ e_transp e1 ++ (moved k <$> e_transp e2)).
  { apply (greedy_unique a b n_t); [exact (bed_greedy E a b n_t e HE Hs Hl He)|]. apply joined_greedy; [exact (bed_greedy E1 a1 b1 n_t e1 HE1 S1 H1 He1)|exact (bed_greedy E2 a2 b2 n_t e2 HE2 S2 H2 He2)]. }
  assert (L1 : forall t, t ∈ e_transp e1 -> (t_start t < t_end t < l)%nat).
  { intros t K. pose proof (bed_greedy E1 a1 b1 n_t e1 HE1 S1 H1 He1) as G. apply G in K. apply K. }
  assert (X1 : forall i, (i < l)%nat -> X (e_transp e) i = X (e_transp e1) i).
  { intros i Hi. rewrite (X_perm _ _ i P). apply set_eq. intros d. rewrite !elem_of_X. setoid_rewrite elem_of_app. split.
    - intros (t & [K|K] & C & D); [eauto|]. apply elem_of_list_fmap in K as (u & -> & K). unfold covers_pos in C. cbn in C. unfold k, l in *. lia.
    - intros (t & K & R). exists t. auto. }
  assert (X2 : forall i, X (e_transp e) (k + i) = X (e_transp e2) i).
  { intros i. rewrite (X_perm _ _ _ P). apply set_eq. intros d. rewrite !elem_of_X. setoid_rewrite elem_of_app. split.
    - intros (t & [K|K] & C & D).
      + apply L1 in K. unfold covers_pos in C. unfold k, l in *. lia.
      + apply elem_of_list_fmap in K as (u & -> & K). exists u. unfold covers_pos in *. cbn in C, D. split; [exact K|]. split; [lia|exact D].
    - intros (t & K & C & D). exists (moved k t). split; [right; apply elem_of_list_fmap; eauto|]. unfold covers_pos in *. cbn. split; [lia|exact D]. }
  rewrite bed_ok in He, He1, He2 by (assumption || lia). injection He as <-. injection He1 as <-. injection He2 as <-.
  cbn [e_add e_sub e_transp] in *.
  set (TT := ts E a b n_t) in *. set (T1 := ts E1 a1 b1 n_t) in *. set (T2 := ts E2 a2 b2 n_t) in *. clearbody TT T1 T2.
  assert (R1 : forall i, (i < l)%nat -> RA a b (X TT) i = RA a1 b1 (X T1) i /\ RB a b (X TT) i = RB a1 b1 (X T1) i).
  { intros i Hi. unfold RA, RB, OA, OB. rewrite (X1 i Hi), (at_move a a1 i i (fun d => has_a1 i d Hi)), (at_move b b1 i i (fun d => has_b1 i d Hi)). auto. }
  assert (R2 : forall i, RA a b (X TT) (k + i) = RA a2 b2 (X T2) i /\ RB a b (X TT) (k + i) = RB a2 b2 (X T2) i).
  { intros i. unfold RA, RB, OA, OB. rewrite (X2 i), (at_move a a2 (k + i) i (has_a2 i)), (at_move b b2 (k + i) i (has_b2 i)). auto. }
  assert (R0 : forall i, (l <= i < k)%nat -> RA a b (X TT) i = ∅ /\ RB a b (X TT) i = ∅).
  { intros i Hi. unfold RA, RB, OA, OB. rewrite (same_at a b i (fun d => has_z i d Hi)). split; set_solver. }
  assert (J : forall (Y : Type) (g g1 g2 : nat -> list Y), (forall i, (i < l)%nat -> g i = g1 i) -> (forall i, g (k + i)%nat = g2 i) ->
    (forall i, (l <= i < k)%nat -> g i = []) -> mjoin (g <$> seq 0 (length a)) = mjoin (g1 <$> seq 0 (length a1)) ++ mjoin (g2 <$> seq 0 (length a2))).
  { intros Y g g1 g2 Q1 Q2 Q0. rewrite La. unfold k. rewrite seq_app, seq_app, !fmap_app, !join_app. cbn [Nat.add].
    assert (N : mjoin (g <$> seq (length a1) (length z)) = []).
    { assert (Z : forall q, (forall i, i ∈ q -> g i = []) -> mjoin (g <$> q) = []).
      { induction q as [|i q IH]; intros Hi; [reflexivity|]. cbn. rewrite Hi by left. apply IH. intros; apply Hi; right; assumption. }
      apply Z. intros i Hi. apply elem_of_seq in Hi. apply Q0. unfold k, l. lia. }
    rewrite N, app_nil_r. f_equal.
    - f_equal. apply list_fmap_ext. intros j i Hi. apply elem_of_list_lookup_2, elem_of_seq in Hi. apply Q1. unfold l. lia.
    - f_equal. fold k. replace (seq k (length a2)) with (Nat.add k <$> seq 0 (length a2)) by (rewrite fmap_add_seq; f_equal; lia).
      rewrite <- list_fmap_compose. apply list_fmap_ext. intros j i _. apply Q2. }
  split; [|split; [|exact P]].
  - apply J.
    + intros i Hi. unfold adds_at. destruct (R1 i Hi) as [-> ->]. reflexivity.
    + intros i. unfold adds_at. destruct (R2 i) as [-> ->]. reflexivity.
    + intros i Hi. unfold adds_at. destruct (R0 i Hi) as [-> ->]. apply adds_empty.
  - apply J.
    + intros i Hi. unfold subs_at. destruct (R1 i Hi) as [-> ->]. reflexivity.
    + intros i. unfold subs_at. destruct (R2 i) as [-> ->]. reflexivity.
    + intros i Hi. unfold subs_at. destruct (R0 i Hi) as [-> ->]. apply best_empty.
Qed.
End Join.

(** * B and S *)

Lemma distance_app s t : distance (s ++ t) = distance s + distance t.
Proof. unfold distance. rewrite fmap_app. apply zsum_app. Qed.

Lemma spanned_app s t : spanned (s ++ t) = spanned s + spanned t.
Proof. unfold spanned. rewrite fmap_app. apply zsum_app. Qed.

Lemma zlen_app {X} (s t : list X) : zlen (s ++ t) = zlen s + zlen t.
Proof. unfold zlen. rewrite app_length. lia. Qed.

Section Metrics.
Context (E E1 E2 : env) (n_t : Z) (a1 b1 z a2 b2 : bstring) (e e1 e2 : edits).
Context (HE : env_ok E) (HE1 : env_ok E1) (HE2 : env_ok E2) (H1 : length a1 = length b1) (H2 : length a2 = length b2) (Hz : n_t - 1 <= zlen z)
  (Hs : small_types (a1 ++ z ++ a2) (b1 ++ z ++ b2)) (Hn : n_t <> 0)
  (He1 : boundary_edit_distance E1 a1 b1 n_t = Ok e1) (He2 : boundary_edit_distance E2 a2 b2 n_t = Ok e2)
  (He : boundary_edit_distance E (a1 ++ z ++ a2) (b1 ++ z ++ b2) n_t = Ok e).

Lemma joined_counts : edit_count e = edit_count e1 + edit_count e2 /\
  forall sp, (edit_cost e sp n_t == edit_cost e1 sp n_t + edit_cost e2 sp n_t)%Q.
Proof.
  destruct (bed_join a1 b1 z a2 b2 n_t H1 H2 Hz E E1 E2 e e1 e2 HE HE1 HE2 Hs He1 He2 He) as (Q1 & Q2 & Q3).
  assert (L : zlen (e_transp e) = zlen (e_transp e1) + zlen (e_transp e2)).
  { unfold zlen. apply Permutation_length in Q3. rewrite app_length, fmap_length in Q3. lia. }
  split; [unfold edit_count; rewrite Q1, Q2, L, !zlen_app; lia|].
  intros sp. unfold edit_cost. rewrite Q1, Q2, (spanned_perm _ _ Q3), spanned_app, spanned_moved, distance_app, zlen_app, !inject_Z_plus.
  unfold Qdiv. ring.
Qed.

Lemma joined_matches : nmatches (a1 ++ z ++ a2) (b1 ++ z ++ b2) = (nmatches a1 b1 + nmatches a2 b2 + nbounds z)%nat.
Proof. rewrite nmatches_app by exact H1. rewrite nmatches_app by reflexivity. rewrite nmatches_same. lia. Qed.

Context (f f1 f2 : fmt) (sa sb sa1 sb1 sa2 sb2 : seg).
Context (Hb : to_bstrings f sa sb = Ok (a1 ++ z ++ a2, b1 ++ z ++ b2)) (Hb1 : to_bstrings f1 sa1 sb1 = Ok (a1, b1)) (Hb2 : to_bstrings f2 sa2 sb2 = Ok (a2, b2)).
Context (lo hi : Z) (X0 : extent (a1 ++ z ++ a2) (b1 ++ z ++ b2) lo hi) (X1 : extent a1 b1 lo hi) (X2 : extent a2 b2 lo hi).

Let w1 := inject_Z (edit_count e1 + Z.of_nat (nmatches a1 b1)).
Let w2 := inject_Z (edit_count e2 + Z.of_nat (nmatches a2 b2)).
Let g := inject_Z (Z.of_nat (nbounds z)).

Theorem B_join : exists v v1 v2, B_is E f n_t sa sb v /\ B_is E1 f1 n_t sa1 sb1 v1 /\ B_is E2 f2 n_t sa2 sb2 v2 /\
  ((w1 + w2 + g) * (1 - v) == w1 * (1 - v1) + w2 * (1 - v2))%Q /\
  (v1 <= v \/ v2 <= v)%Q /\ (nbounds z = 0%nat -> v <= v1 \/ v <= v2)%Q.
Proof.
  destruct (values E f n_t sa sb _ _ HE Hn Hb lo hi e X0 He) as [V _].
  destruct (values E1 f1 n_t sa1 sb1 _ _ HE1 Hn Hb1 lo hi e1 X1 He1) as [V1 _].
  destruct (values E2 f2 n_t sa2 sb2 _ _ HE2 Hn Hb2 lo hi e2 X2 He2) as [V2 _].
  eexists _, _, _. split; [exact V|]. split; [exact V1|]. split; [exact V2|]. clear V V1 V2.
  destruct joined_counts as [K1 K2]. rewrite K1, joined_matches. rewrite (K2 (hi - lo + 1)).
  assert (P1 : (0 < w1)%Q).
  { unfold w1. change 0%Q with (inject_Z 0). rewrite <- Zlt_Qlt. apply (denominator_pos E1 a1 b1 n_t e1 HE1 H1 He1). exists lo. apply X1. }
  assert (P2 : (0 < w2)%Q).
  { unfold w2. change 0%Q with (inject_Z 0). rewrite <- Zlt_Qlt. apply (denominator_pos E2 a2 b2 n_t e2 HE2 H2 He2). exists lo. apply X2. }
  assert (P3 : (0 <= g)%Q) by (unfold g; change 0%Q with (inject_Z 0); rewrite <- Zle_Qle; lia).
  pose proof (proj1 (q_bounds E1 f1 n_t sa1 sb1 a1 b1 lo hi e1 HE1 Hb1 X1 Hn He1)) as C1.
  pose proof (proj1 (q_bounds E2 f2 n_t sa2 sb2 a2 b2 lo hi e2 HE2 Hb2 X2 Hn He2)) as C2.
  set (c1 := edit_cost e1 (hi - lo + 1) n_t) in *. set (c2 := edit_cost e2 (hi - lo + 1) n_t) in *.
  assert (W : (inject_Z (edit_count e1 + edit_count e2 + Z.of_nat (nmatches a1 b1 + nmatches a2 b2 + nbounds z)) == w1 + w2 + g)%Q).
  { unfold w1, w2, g. rewrite <- !inject_Z_plus. replace (edit_count e1 + edit_count e2 + Z.of_nat (nmatches a1 b1 + nmatches a2 b2 + nbounds z))
      with (edit_count e1 + Z.of_nat (nmatches a1 b1) + (edit_count e2 + Z.of_nat (nmatches a2 b2)) + Z.of_nat (nbounds z)) by lia. reflexivity. }
  rewrite W. fold w1 w2. clearbody c1 c2. split; [field; lra|]. split.
  - destruct (Qlt_le_dec (c1 * w2) (c2 * w1)) as [L|L]; [right|left]; apply Qplus_le_compat; try apply Qle_refl; apply Qopp_le_compat.
    + apply Qle_shift_div_l; [exact P2|]. setoid_replace ((c1 + c2) / (w1 + w2 + g) * w2)%Q with ((c1 + c2) * w2 / (w1 + w2 + g))%Q by (field; lra).
      apply Qle_shift_div_r; [lra|]. nra.
    + apply Qle_shift_div_l; [exact P1|]. setoid_replace ((c1 + c2) / (w1 + w2 + g) * w1)%Q with ((c1 + c2) * w1 / (w1 + w2 + g))%Q by (field; lra).
      apply Qle_shift_div_r; [lra|]. nra.
  - intros Z0. assert (G : (g == 0)%Q) by (unfold g; rewrite Z0; reflexivity). rewrite G.
    destruct (Qlt_le_dec (c1 * w2) (c2 * w1)) as [L|L]; [left|right]; apply Qplus_le_compat; try apply Qle_refl; apply Qopp_le_compat.
    + apply Qle_shift_div_r; [exact P1|]. setoid_replace ((c1 + c2) / (w1 + w2 + 0) * w1)%Q with ((c1 + c2) * w1 / (w1 + w2))%Q by (field; lra).
      apply Qle_shift_div_l; [lra|]. nra.
    + apply Qle_shift_div_r; [exact P2|]. setoid_replace ((c1 + c2) / (w1 + w2 + 0) * w2)%Q with ((c1 + c2) * w2 / (w1 + w2))%Q by (field; lra).
      apply Qle_shift_div_l; [lra|]. nra.
Qed.

Context (U1 : forall d, used (a1 ++ z ++ a2) (b1 ++ z ++ b2) d <-> used a1 b1 d) (U2 : forall d, used a1 b1 d <-> used a2 b2 d).
Theorem S_join : exists v v1 v2, S_is E f n_t sa sb v /\ S_is E1 f1 n_t sa1 sb1 v1 /\ S_is E2 f2 n_t sa2 sb2 v2 /\
  (inject_Z (zlen a1 + zlen z + zlen a2) * (1 - v) == inject_Z (zlen a1) * (1 - v1) + inject_Z (zlen a2) * (1 - v2))%Q.
Proof.
  destruct (values E f n_t sa sb _ _ HE Hn Hb lo hi e X0 He) as [_ V].
  destruct (values E1 f1 n_t sa1 sb1 _ _ HE1 Hn Hb1 lo hi e1 X1 He1) as [_ V1].
  destruct (values E2 f2 n_t sa2 sb2 _ _ HE2 Hn Hb2 lo hi e2 X2 He2) as [_ V2].
  eexists _, _, _. split; [exact V|]. split; [exact V1|]. split; [exact V2|]. clear V V1 V2.
  destruct joined_counts as [_ K2]. rewrite (K2 (hi - lo + 1)).
  assert (T1 : identify_types (a1 ++ z ++ a2) (b1 ++ z ++ b2) = identify_types a1 b1) by (apply set_eq; intros d; rewrite !SimStats.elem_of_types; apply U1).
  assert (T2 : identify_types a2 b2 = identify_types a1 b1) by (apply set_eq; intros d; rewrite !SimStats.elem_of_types; symmetry; apply U2).
  rewrite T1, T2. pose proof (types_size_pos _ _ _ _ X1) as P. pose proof (gaps_pos _ _ _ _ H1 X1) as P1. pose proof (gaps_pos _ _ _ _ H2 X2) as P2.
  replace (zlen (a1 ++ z ++ a2)) with (zlen a1 + zlen z + zlen a2) by (rewrite !zlen_app; lia).
  set (t := zsize (identify_types a1 b1)) in *. rewrite !inject_Z_mult, !inject_Z_plus.
  assert (0 < inject_Z t)%Q by (change 0%Q with (inject_Z 0); rewrite <- Zlt_Qlt; unfold t, zsize; lia).
  assert (0 < inject_Z (zlen a1))%Q by (change 0%Q with (inject_Z 0); rewrite <- Zlt_Qlt; unfold zlen; lia).
  assert (0 < inject_Z (zlen a2))%Q by (change 0%Q with (inject_Z 0); rewrite <- Zlt_Qlt; unfold zlen; lia).
  assert (0 <= inject_Z (zlen z))%Q by (change 0%Q with (inject_Z 0); rewrite <- Zle_Qle; unfold zlen; lia).
  field. repeat split; lra.
Qed.
End Metrics.
