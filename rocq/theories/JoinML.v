(** C92: the confusion matrix of a text that consists of parts. *)
From Coq Require Import Lqa.
From Verif Require Import SpecChange SpecML FormatProofs Round RoundProofs BedSubs BedProofs BedMain BedTheory BedExtra
  SimStats SimTheory SimContext MLProofs MLSums MLMain MLFmeasure MLMatrix MLFinal MLSwap MLBoundary Join.
Open Scope Z_scope.

(** ** Sums *)

Lemma csum_plus (f g : label -> Q) s : (csum (fun k => f k + g k) s == csum f s + csum g s)%Q.
Proof. unfold csum. induction (elements s) as [|k l IH]; cbn; [reflexivity|]. unfold qsum in IH. rewrite IH. lra. Qed.

Lemma csum_at (c : label) (v : Q) s : c ∈ s -> (csum (fun k => if decide (k = c) then v else 0) s == v)%Q.
Proof.
  intros H. unfold csum. apply elem_of_elements in H. pose proof (NoDup_elements s) as N. revert N H.
  induction (elements s) as [|k l IH]; intros N H; [inversion H|]. apply NoDup_cons in N as [N1 N2].
  rewrite fmap_cons, qsum_cons. apply elem_of_cons in H as [<-|H].
  - rewrite decide_True by reflexivity. rewrite qsum_zero; [lra|]. intros x Hx. rewrite decide_False by (intros ->; contradiction). reflexivity.
  - rewrite IH by assumption. rewrite decide_False by (intros ->; contradiction). lra.
Qed.

(** ** Matrices that add up *)

Definition at_diagonal (g : label -> Q) (p a : label) : Q := if decide (p = a) then g a else 0.

Section matrices.
Context (m m1 m2 : cmatrix) (g : label -> Q).
Context (W0 : wf m) (W1 : wf m1) (W2 : wf m2).
Context (H : forall p a, (nval (cell m p a) == nval (cell m1 p a) + nval (cell m2 p a) + at_diagonal g p a)%Q).

Let U := cls m ∪ cls m1 ∪ cls m2.

Lemma sum_over k (f : label -> Q) (n : cmatrix) : wf n -> cls n ⊆ U -> (forall c, c ∉ cls n -> f c == 0)%Q -> (csum f (cls n) == csum f (U ∪ {[k]}))%Q.
Proof. intros _ S Z. symmetry. apply csum_grow; [set_solver|exact Z]. Qed.

Lemma row_over c n : wf n -> cls n ⊆ U -> (row_sum n c == csum (fun a => nval (cell n c a)) (U ∪ {[c]}))%Q.
Proof. intros Wn S. apply sum_over; [exact Wn|exact S|]. intros a Ha. rewrite cell_outside by tauto. reflexivity. Qed.

Lemma col_over c n : wf n -> cls n ⊆ U -> (col_sum n c == csum (fun p => nval (cell n p c)) (U ∪ {[c]}))%Q.
Proof. intros Wn S. apply sum_over; [exact Wn|exact S|]. intros a Ha. rewrite cell_outside by tauto. reflexivity. Qed.

Lemma rows_add c : (row_sum m c == row_sum m1 c + row_sum m2 c + g c)%Q.
Proof.
  rewrite !row_over by (assumption || set_solver). rewrite <- csum_plus.
  rewrite <- (csum_at c (g c) (U ∪ {[c]})) by set_solver. rewrite <- csum_plus. apply csum_ext. intros a _. rewrite H.
  unfold at_diagonal. repeat destruct (decide _); subst; try congruence; lra.
Qed.

Lemma cols_add c : (col_sum m c == col_sum m1 c + col_sum m2 c + g c)%Q.
Proof.
  rewrite !col_over by (assumption || set_solver). rewrite <- csum_plus.
  rewrite <- (csum_at c (g c) (U ∪ {[c]})) by set_solver. rewrite <- csum_plus. apply csum_ext. intros a _. rewrite H.
  unfold at_diagonal. repeat destruct (decide _); subst; try congruence; lra.
Qed.

Lemma cells_of c : (nval (cell m c c) == nval (cell m1 c c) + nval (cell m2 c c) + g c)%Q.
Proof. rewrite H. unfold at_diagonal. rewrite decide_True by reflexivity. reflexivity. Qed.

Context (N1 : nonneg_cells m1) (N2 : nonneg_cells m2) (G : forall c, (0 <= g c)%Q).

Lemma g_outside c : c ∉ cls m -> (g c == 0)%Q.
Proof.
  intros K. pose proof (cells_of c) as C. rewrite (cell_outside m) in C by tauto. cbn [nval] in C.
  pose proof (N1 c c). pose proof (N2 c c). pose proof (G c). change (inject_Z 0) with 0%Q in C. lra.
Qed.

Lemma diagonals_add : (diagonal m == diagonal m1 + diagonal m2 + csum g (cls m))%Q.
Proof.
  unfold diagonal. rewrite (sum_over None _ m), (sum_over None _ m1), (sum_over None _ m2), (sum_over None g m);
    try assumption; try set_solver; try (intros c Hc; rewrite cell_outside by tauto; reflexivity); [|intros c; apply g_outside].
  rewrite <- !csum_plus. apply csum_ext. intros c _. rewrite cells_of. lra.
Qed.

Lemma totals_add : (total m == total m1 + total m2 + csum g (cls m))%Q.
Proof.
  assert (T : forall n, wf n -> cls n ⊆ U -> (total n == csum (row_sum n) (U ∪ {[None]}))%Q).
  { intros n Wn S. unfold total. change (csum (row_sum n) (cls n) == csum (row_sum n) (U ∪ {[None]}))%Q.
    apply sum_over; [exact Wn|exact S|]. intros c Hc. unfold row_sum, csum. apply qsum_zero. intros a _. rewrite cell_outside by tauto. reflexivity. }
  rewrite (T m), (T m1), (T m2) by (assumption || set_solver).
  rewrite (sum_over None g m); [|assumption|set_solver|intros c; apply g_outside].
  rewrite <- !csum_plus. apply csum_ext. intros c _. rewrite rows_add. lra.
Qed.
End matrices.

(** ** Averages *)

(** [d/r], or 0 if [d] is 0. *)
Definition share (d r : Q) : Q := if Qeq_bool d 0 then 0 else d / r.

Lemma share_times d r : (0 <= d <= r)%Q -> (r * share d r == d)%Q.
Proof.
  intros B. unfold share. destruct (Qeq_bool d 0) eqn:K; [apply Qeq_bool_iff in K; rewrite K; lra|].
  apply Qeq_bool_neq in K. field. lra.
Qed.

Lemma share_nonneg d r : (0 <= d <= r)%Q -> (0 <= share d r)%Q.
Proof.
  intros B. unfold share. destruct (Qeq_bool d 0) eqn:K; [lra|]. apply Qeq_bool_neq in K. apply Qle_shift_div_l; lra.
Qed.

Lemma share_one d r : (0 <= d <= r)%Q -> (share d r <= 1)%Q.
Proof.
  intros B. unfold share. destruct (Qeq_bool d 0) eqn:K; [lra|]. apply Qeq_bool_neq in K. apply Qle_shift_div_r; lra.
Qed.

Lemma share_join d r d1 r1 d2 r2 g : (0 <= d1 <= r1)%Q -> (0 <= d2 <= r2)%Q -> (0 <= g)%Q -> (d == d1 + d2 + g)%Q -> (r == r1 + r2 + g)%Q ->
  ((r1 + r2 + g) * share d r == r1 * share d1 r1 + r2 * share d2 r2 + g)%Q /\
  (share d1 r1 <= share d r \/ share d2 r2 <= share d r)%Q /\ (g == 0 -> share d r <= share d1 r1 \/ share d r <= share d2 r2)%Q.
Proof.
  intros B1 B2 Bg Ed Er. assert (B : (0 <= d <= r)%Q) by lra.
  pose proof (share_times d r B) as T. pose proof (share_times d1 r1 B1) as T1. pose proof (share_times d2 r2 B2) as T2.
  pose proof (share_nonneg d r B) as P. pose proof (share_nonneg d1 r1 B1) as P1. pose proof (share_nonneg d2 r2 B2) as P2.
  pose proof (share_one d r B) as O.
  split; [rewrite T1, T2, <- Er, T; exact Ed|].
  assert (Z : forall x y, (x == 0 -> share x y == 0)%Q).
  { intros x y K. unfold share. apply Qeq_bool_iff in K. rewrite K. reflexivity. }
  split.
  - destruct (Qlt_le_dec (share d r) (share d1 r1)) as [K1|K1]; [|left; exact K1].
    destruct (Qlt_le_dec (share d r) (share d2 r2)) as [K2|K2]; [|right; exact K2]. exfalso.
    assert (d1 == 0 \/ 0 < d1)%Q as [Q1|Q1] by (destruct (Qlt_le_dec 0 d1); [right|left]; lra); [rewrite (Z _ r1 Q1) in K1; lra|].
    assert ((r1 * (share d1 r1 - share d r)) > 0)%Q by (apply Qmult_lt_0_compat; lra).
    assert ((r2 * (share d2 r2 - share d r)) >= 0)%Q by (apply Qmult_le_0_compat; lra).
    assert ((g * (1 - share d r)) >= 0)%Q by (apply Qmult_le_0_compat; lra).
    assert ((r1 + r2 + g) * share d r == d1 + d2 + g)%Q by (rewrite <- Er, T; exact Ed). lra.
  - intros Hg. destruct (Qlt_le_dec (share d1 r1) (share d r)) as [K1|K1]; [|left; exact K1].
    destruct (Qlt_le_dec (share d2 r2) (share d r)) as [K2|K2]; [|right; exact K2]. exfalso.
    assert (0 < d)%Q. { destruct (Qlt_le_dec 0 d) as [?|Q]; [assumption|]. rewrite (Z d r) in K1 by lra. lra. }
    assert ((r1 * (share d r - share d1 r1)) >= 0)%Q by (apply Qmult_le_0_compat; lra).
    assert ((r2 * (share d r - share d2 r2)) >= 0)%Q by (apply Qmult_le_0_compat; lra).
    assert ((r1 + r2) * share d r == d1 + d2)%Q by (assert (R : (r1 + r2 == r)%Q) by lra; rewrite R, T; lra).
    assert (0 < r1 \/ 0 < r2)%Q as [R|R] by (destruct (Qlt_le_dec 0 r1); [left|right]; lra).
    + assert ((r1 * (share d r - share d1 r1)) > 0)%Q by (apply Qmult_lt_0_compat; lra). lra.
    + assert ((r2 * (share d r - share d2 r2)) > 0)%Q by (apply Qmult_lt_0_compat; lra). lra.
Qed.

Lemma share_ext d d' r r' : (d == d')%Q -> (r == r')%Q -> (share d r == share d' r')%Q.
Proof. intros Ed Er. unfold share. rewrite (Qeq_bool_ext d d' 0 Ed). destruct (Qeq_bool d' 0); [reflexivity|]. rewrite Ed, Er. reflexivity. Qed.

Lemma f_share b2 d R C : (0 <= b2)%Q -> (0 <= d <= R)%Q -> (0 <= d <= C)%Q -> (fbeta b2 (share d R) (share d C) == share ((1 + b2) * d) (b2 * C + R))%Q.
Proof.
  intros Hb BR BC. unfold fbeta, share. destruct (Qeq_bool d 0) eqn:K.
  - apply Qeq_bool_iff in K. assert (K' : ((1 + b2) * d == 0)%Q) by (rewrite K; ring). apply Qeq_bool_iff in K'. rewrite K'. unfold Qdiv. ring.
  - apply Qeq_bool_neq in K. assert (P : (0 < d)%Q) by lra.
    destruct (Qeq_bool ((1 + b2) * d) 0) eqn:K'.
    + apply Qeq_bool_iff in K'. exfalso. apply Qmult_integral in K' as [K'|K']; lra.
    + assert (0 <= b2 * C)%Q by (apply Qmult_le_0_compat; lra).
      assert (0 < d * (b2 * C + R))%Q by (apply Qmult_lt_0_compat; lra). field. repeat split; lra.
Qed.

(** ** One matrix *)

Section one.
Context (m : cmatrix) (HW : wf m) (HN : nonneg_cells m).

Lemma csum_member (f : label -> Q) s c : (forall k, 0 <= f k)%Q -> c ∈ s -> (f c <= csum f s)%Q.
Proof. intros F K. unfold csum. apply (qsum_elem f); [intros; apply F|apply elem_of_elements, K]. Qed.

Lemma csum_nonneg' (f : label -> Q) s : (forall k, 0 <= f k)%Q -> (0 <= csum f s)%Q.
Proof. intros F. unfold csum. apply qsum_nonneg. apply Forall_fmap, Forall_forall. intros; apply F. Qed.

Lemma row_bounds c : (0 <= nval (cell m c c) <= row_sum m c)%Q.
Proof.
  split; [apply HN|]. destruct (decide (c ∈ cls m)) as [D|D].
  - apply (csum_member (fun a => nval (cell m c a))); [intros; apply HN|exact D].
  - rewrite cell_outside by tauto. apply csum_nonneg'. intros; apply HN.
Qed.

Lemma col_bounds c : (0 <= nval (cell m c c) <= col_sum m c)%Q.
Proof.
  split; [apply HN|]. destruct (decide (c ∈ cls m)) as [D|D].
  - apply (csum_member (fun a => nval (cell m a c))); [intros; apply HN|exact D].
  - rewrite cell_outside by tauto. apply csum_nonneg'. intros; apply HN.
Qed.

Lemma diagonal_bounds : (0 <= diagonal m <= total m)%Q.
Proof.
  split; [apply csum_nonneg'; intros; apply HN|]. unfold diagonal, total, csum. generalize (elements (cls m)) at 1 3. intros l.
  induction l as [|c l IH]; [cbn; lra|]. rewrite !fmap_cons, !qsum_cons. pose proof (row_bounds c) as [_ R]. unfold row_sum, csum in R. lra.
Qed.

Lemma precision_share c : (class_precision exactA m c == share (nval (cell m c c)) (row_sum m c))%Q.
Proof. unfold class_precision, share. destruct (Qeq_bool _ 0); [reflexivity|]. cbn [rd exactA]. apply Qred_correct. Qed.

Lemma recall_share c : (class_recall exactA m c == share (nval (cell m c c)) (col_sum m c))%Q.
Proof. unfold class_recall, share. destruct (Qeq_bool _ 0); [reflexivity|]. cbn [rd exactA]. apply Qred_correct. Qed.

Lemma f_class_share b c : (class_f m b c == share ((1 + b * b) * nval (cell m c c)) (b * b * col_sum m c + row_sum m c))%Q.
Proof.
  unfold class_f. rewrite <- f_share; [|nra|apply row_bounds|apply col_bounds]. unfold fbeta. rewrite precision_share, recall_share. reflexivity.
Qed.

Lemma micro_share : exists v, micro_value exactA m = Ok v /\ (nval v == share (diagonal m) (total m))%Q.
Proof.
  pose proof diagonal_bounds as B. unfold micro_value, share. destruct (Qeq_bool (diagonal m) 0) eqn:K; [exists (NInt 0); split; reflexivity|].
  apply Qeq_bool_neq in K. destruct (Qeq_bool (total m) 0) eqn:K'; [apply Qeq_bool_iff in K'; lra|].
  eexists. split; [reflexivity|]. cbn [nval rd exactA]. apply Qred_correct.
Qed.
End one.

(** ** The matrix of the whole *)

Section join.
Context (a1 b1 z a2 b2 : bstring) (n_t : Z) (H1 : length a1 = length b1) (H2 : length a2 = length b2) (Hz : n_t - 1 <= zlen z).
Context (E E1 E2 : env) (HE : env_ok E) (HE1 : env_ok E1) (HE2 : env_ok E2) (Hs : small_types (a1 ++ z ++ a2) (b1 ++ z ++ b2)).
Context (f f1 f2 : fmt) (sa sb sa1 sb1 sa2 sb2 : seg).
Context (Hb : to_bstrings f sa sb = Ok (a1 ++ z ++ a2, b1 ++ z ++ b2)) (Hb1 : to_bstrings f1 sa1 sb1 = Ok (a1, b1)) (Hb2 : to_bstrings f2 sa2 sb2 = Ok (a2, b2)).

Lemma whole_edits : exists e e1 e2, boundary_edit_distance E (a1 ++ z ++ a2) (b1 ++ z ++ b2) n_t = Ok e /\
  boundary_edit_distance E1 a1 b1 n_t = Ok e1 /\ boundary_edit_distance E2 a2 b2 n_t = Ok e2 /\
  e_add e = e_add e1 ++ e_add e2 /\ e_sub e = e_sub e1 ++ e_sub e2 /\ e_transp e ≡ₚ e_transp e1 ++ (moved (length a1 + length z) <$> e_transp e2).
Proof.
  destruct (bed_returns E (a1 ++ z ++ a2) (b1 ++ z ++ b2) n_t HE ltac:(rewrite !app_length; lia)) as [e He].
  destruct (bed_returns E1 a1 b1 n_t HE1 ltac:(lia)) as [e1 He1]. destruct (bed_returns E2 a2 b2 n_t HE2 ltac:(lia)) as [e2 He2].
  exists e, e1, e2. split; [exact He|]. split; [exact He1|]. split; [exact He2|].
  exact (bed_join a1 b1 z a2 b2 n_t H1 H2 Hz E E1 E2 e e1 e2 HE HE1 HE2 Hs He1 He2 He).
Qed.

Theorem errors_join A W W1 W2 m m1 m2 : boundary_confusion_matrix A E W f n_t sa sb = Ok m ->
  boundary_confusion_matrix A E1 W1 f1 n_t sa1 sb1 = Ok m1 -> boundary_confusion_matrix A E2 W2 f2 n_t sa2 sb2 = Ok m2 ->
  forall p a, p <> a -> exists k1 k2, cell m1 p a = NInt k1 /\ cell m2 p a = NInt k2 /\ cell m p a = NInt (k1 + k2).
Proof.
  intros Hm Hm1 Hm2. destruct whole_edits as (e & e1 & e2 & He & He1 & He2 & QA & QS & _).
  destruct (matrix_cells _ _ _ _ _ _ _ _ _ _ _ HE Hb He Hm) as (C1 & C2 & C3 & _).
  destruct (matrix_cells _ _ _ _ _ _ _ _ _ _ _ HE1 Hb1 He1 Hm1) as (C1' & C2' & C3' & _).
  destruct (matrix_cells _ _ _ _ _ _ _ _ _ _ _ HE2 Hb2 He2 Hm2) as (C1'' & C2'' & C3'' & _).
  intros [t|] [u|] D; [| | |congruence].
  - do 2 eexists. rewrite C1, C1', C1'', QS, countP_app, Nat2Z.inj_add by congruence. auto.
  - do 2 eexists. rewrite C3, C3', C3'', QA, countP_app, Nat2Z.inj_add. auto.
  - do 2 eexists. rewrite C2, C2', C2'', QA, countP_app, Nat2Z.inj_add. auto.
Qed.

Lemma both_in_app (x x' y y' : bstring) d : length x = length y -> both_in (x ++ x') (y ++ y') d = (both_in x y d + both_in x' y' d)%nat.
Proof. intros L. unfold both_in. rewrite zip_with_app by exact L. rewrite filter_app, app_length. reflexivity. Qed.

Lemma both_in_same d : both_in z z d = countP (fun s => d ∈ s) z.
Proof.
  unfold both_in, countP. clear. induction z as [|s w IH]; [reflexivity|]. cbn [zip zip_with]. rewrite !filter_cons.
  repeat destruct (decide _); cbn [fst snd length] in *; try tauto; lia.
Qed.

Lemma filter_moved k t (l : list transposition) : filter (fun x => t_type x = t) (moved k <$> l) = moved k <$> filter (fun x => t_type x = t) l.
Proof.
  induction l as [|x l IH]; [reflexivity|]. rewrite fmap_cons, !filter_cons, IH.
  destruct (decide (t_type (moved k x) = t)) as [D|D], (decide (t_type x = t)) as [D'|D']; cbn in D; try congruence; reflexivity.
Qed.

(** How often a class occurs in [z]. *)
Definition agreed (c : label) : Q := match c with Some t => inject_Z (Z.of_nat (countP (fun s : gset Z => t ∈ s) z)) | None => 0 end.

Context (Hn : 0 < n_t) (m m1 m2 : cmatrix).
Context (Hm : boundary_confusion_matrix exactA E (default_weights exactA) f n_t sa sb = Ok m)
  (Hm1 : boundary_confusion_matrix exactA E1 (default_weights exactA) f1 n_t sa1 sb1 = Ok m1)
  (Hm2 : boundary_confusion_matrix exactA E2 (default_weights exactA) f2 n_t sa2 sb2 = Ok m2).

Theorem cells_join p a : (nval (cell m p a) == nval (cell m1 p a) + nval (cell m2 p a) + at_diagonal agreed p a)%Q.
Proof.
  unfold at_diagonal. destruct (decide (p = a)) as [<-|D].
  - destruct whole_edits as (e & e1 & e2 & He & He1 & He2 & _ & _ & QT). destruct p as [t|].
    + assert (Hn0 : n_t <> 0) by lia. rewrite (matrix_diagonal _ _ _ _ _ _ _ _ _ t HE Hn0 Hb He Hm),
        (matrix_diagonal _ _ _ _ _ _ _ _ _ t HE1 Hn0 Hb1 He1 Hm1), (matrix_diagonal _ _ _ _ _ _ _ _ _ t HE2 Hn0 Hb2 He2 Hm2).
      rewrite both_in_app, both_in_app by (reflexivity || exact H1). rewrite both_in_same.
      assert (K : spanned (filter (fun x => t_type x = t) (e_transp e)) =
        spanned (filter (fun x => t_type x = t) (e_transp e1)) + spanned (filter (fun x => t_type x = t) (e_transp e2))).
      { rewrite (spanned_perm _ (filter (fun x => t_type x = t) (e_transp e1 ++ (moved (length a1 + length z) <$> e_transp e2)))) by (rewrite QT; reflexivity).
        rewrite filter_app, spanned_app, filter_moved, spanned_moved. reflexivity. }
      rewrite K. cbn [agreed]. rewrite !Nat2Z.inj_add, !inject_Z_plus. unfold Qdiv. ring.
    + destruct (matrix_cells _ _ _ _ _ _ _ _ _ _ _ HE Hb He Hm) as (_ & _ & _ & C & _).
      destruct (matrix_cells _ _ _ _ _ _ _ _ _ _ _ HE1 Hb1 He1 Hm1) as (_ & _ & _ & C' & _).
      destruct (matrix_cells _ _ _ _ _ _ _ _ _ _ _ HE2 Hb2 He2 Hm2) as (_ & _ & _ & C'' & _). rewrite C, C', C''. reflexivity.
  - destruct (errors_join _ _ _ _ _ _ _ Hm Hm1 Hm2 p a D) as (k1 & k2 & -> & -> & ->). cbn [nval]. rewrite inject_Z_plus. ring.
Qed.

Lemma diagonal_join t : (nval (cell m (Some t) (Some t)) == nval (cell m1 (Some t) (Some t)) + nval (cell m2 (Some t) (Some t)) + agreed (Some t))%Q.
Proof. rewrite cells_join. unfold at_diagonal. rewrite decide_True by reflexivity. reflexivity. Qed.

Lemma setup : wf m /\ wf m1 /\ wf m2 /\ reachable exactA m /\ reachable exactA m1 /\ reachable exactA m2 /\ tame exactA m /\ tame exactA m1 /\ tame exactA m2.
Proof.
  destruct whole_edits as (e & e1 & e2 & He & He1 & He2 & _).
  assert (Hs1 : small_types a1 b1) by (intros s d K; apply Hs; rewrite !elem_of_app; tauto).
  assert (Hs2 : small_types a2 b2) by (intros s d K; apply Hs; rewrite !elem_of_app; tauto).
  destruct (matrix_classes _ _ _ _ _ _ _ _ _ _ _ HE Hs Hb He Hm) as (HR & _).
  destruct (matrix_classes _ _ _ _ _ _ _ _ _ _ _ HE1 Hs1 Hb1 He1 Hm1) as (HR1 & _).
  destruct (matrix_classes _ _ _ _ _ _ _ _ _ _ _ HE2 Hs2 Hb2 He2 Hm2) as (HR2 & _).
  split; [eapply wf_reachable, HR|]. split; [eapply wf_reachable, HR1|]. split; [eapply wf_reachable, HR2|].
  split; [exact HR|]. split; [exact HR1|]. split; [exact HR2|].
  split; [apply (matrix_tame exactA E f n_t sa sb _ _ e m sane_exactA HE Hs Hn Hb He Hm); left; reflexivity|].
  split; [apply (matrix_tame exactA E1 f1 n_t sa1 sb1 _ _ e1 m1 sane_exactA HE1 Hs1 Hn Hb1 He1 Hm1); left; reflexivity|].
  apply (matrix_tame exactA E2 f2 n_t sa2 sb2 _ _ e2 m2 sane_exactA HE2 Hs2 Hn Hb2 He2 Hm2); left; reflexivity.
Qed.

Lemma agreed_nonneg c : (0 <= agreed c)%Q.
Proof. destruct c as [t|]; cbn; [|lra]. change 0%Q with (inject_Z 0). rewrite <- Zle_Qle. lia. Qed.

Lemma agreed_all : (csum agreed (cls m) == inject_Z (Z.of_nat (nbounds z)))%Q.
Proof.
  assert (K : forall s, s ∈ z -> forall t : Z, t ∈ s -> Some t ∈ cls m).
  { intros s Ks t Kt. destruct whole_edits as (e & _ & _ & He & _).
    destruct (matrix_classes _ _ _ _ _ _ _ _ _ _ _ HE Hs Hb He Hm) as (_ & C & _). apply C.
    apply elem_of_list_lookup in Ks as [i Ki]. exists (length a1 + i)%nat. left. exists s. split; [|exact Kt].
    rewrite lookup_app_r by lia. replace (length a1 + i - length a1)%nat with i by lia. apply lookup_app_l_Some, Ki. }
  revert K. generalize (cls m). intros C. unfold agreed, nbounds. clear. induction z as [|s w IH]; intros K.
  { unfold csum. cbn. apply qsum_zero. intros [t|] _; reflexivity. }
  assert (P : (csum (fun c => match c with Some t => if decide (t ∈ s) then 1 else 0 | None => 0 end) C == inject_Z (Z.of_nat (size s)))%Q).
  { specialize (K s ltac:(left)). clear IH. revert K. induction s as [|x s Hx IH] using set_ind_L; intros K.
    - unfold csum. rewrite size_empty. apply qsum_zero. intros [t|] _; [|reflexivity]. destruct (decide _); [set_solver|reflexivity].
    - rewrite size_union, size_singleton, Nat2Z.inj_add, inject_Z_plus by set_solver. rewrite <- IH by set_solver.
      change (inject_Z (Z.of_nat 1)) with 1%Q. rewrite <- (csum_at (Some x) 1 C) by (apply K; set_solver). rewrite <- csum_plus. apply csum_ext.
      intros [t|] _; repeat destruct (decide _); try lra; set_solver. }
  cbn [fmap list_fmap sum_list sum_list_with]. rewrite Nat2Z.inj_add, inject_Z_plus, <- P.
  change (sum_list_with id (size <$> w)) with (sum_list (size <$> w)). rewrite <- IH by (intros s' Ks; apply K; right; exact Ks).
  rewrite <- csum_plus. apply csum_ext. intros [t|] _; [|lra]. unfold countP. rewrite filter_cons.
  destruct (decide (t ∈ s)); cbn [length]; [rewrite Nat2Z.inj_succ; unfold Z.succ; rewrite inject_Z_plus; change (inject_Z 1) with 1%Q|]; lra.
Qed.

Context (o o1 o2 : cord) (HO : cord_ok o) (HO1 : cord_ok o1) (HO2 : cord_ok o2).

Theorem class_join t ver ver1 ver2 : let c := Some t in
  exists p p1 p2 n n1 n2, precision exactA o m c ver = Ok (NDec p, n) /\ precision exactA o1 m1 c ver1 = Ok (NDec p1, n1) /\ precision exactA o2 m2 c ver2 = Ok (NDec p2, n2) /\
    ((row_sum m1 c + row_sum m2 c + agreed c) * p == row_sum m1 c * p1 + row_sum m2 c * p2 + agreed c)%Q /\
    (p1 <= p \/ p2 <= p)%Q /\ (agreed c == 0 -> p <= p1 \/ p <= p2)%Q.
Proof.
  intros c. destruct setup as (W0 & W1 & W2 & R0 & R1 & R2 & T0 & T1 & T2).
  destruct (class_values exactA o m sane_exactA HO R0 T0 t ver) as (p & ? & n & _ & P & _ & _ & _ & X).
  destruct (class_values exactA o1 m1 sane_exactA HO1 R1 T1 t ver1) as (p1 & ? & n1 & _ & P1 & _ & _ & _ & X1).
  destruct (class_values exactA o2 m2 sane_exactA HO2 R2 T2 t ver2) as (p2 & ? & n2 & _ & P2 & _ & _ & _ & X2).
  destruct (X (exact_of_tame _ T0)) as [-> _]. destruct (X1 (exact_of_tame _ T1)) as [-> _]. destruct (X2 (exact_of_tame _ T2)) as [-> _].
  do 6 eexists. split; [exact P|]. split; [exact P1|]. split; [exact P2|]. fold c. rewrite !precision_share.
  apply (share_join _ _ _ _ _ _ (agreed c)); [apply row_bounds; apply W1 || apply T1|apply row_bounds; apply W2 || apply T2|apply agreed_nonneg| |].
  - apply cells_of. apply cells_join.
  - apply (rows_add m m1 m2 agreed W0 W1 W2). apply cells_join.
Qed.

Theorem class_join_recall t ver ver1 ver2 : let c := Some t in
  exists r r1 r2 n n1 n2, recall exactA o m c ver = Ok (NDec r, n) /\ recall exactA o1 m1 c ver1 = Ok (NDec r1, n1) /\ recall exactA o2 m2 c ver2 = Ok (NDec r2, n2) /\
    ((col_sum m1 c + col_sum m2 c + agreed c) * r == col_sum m1 c * r1 + col_sum m2 c * r2 + agreed c)%Q /\
    (r1 <= r \/ r2 <= r)%Q /\ (agreed c == 0 -> r <= r1 \/ r <= r2)%Q.
Proof.
  intros c. destruct setup as (W0 & W1 & W2 & R0 & R1 & R2 & T0 & T1 & T2).
  destruct (class_values exactA o m sane_exactA HO R0 T0 t ver) as (? & p & _ & n & _ & P & _ & _ & X).
  destruct (class_values exactA o1 m1 sane_exactA HO1 R1 T1 t ver1) as (? & p1 & _ & n1 & _ & P1 & _ & _ & X1).
  destruct (class_values exactA o2 m2 sane_exactA HO2 R2 T2 t ver2) as (? & p2 & _ & n2 & _ & P2 & _ & _ & X2).
  destruct (X (exact_of_tame _ T0)) as [_ ->]. destruct (X1 (exact_of_tame _ T1)) as [_ ->]. destruct (X2 (exact_of_tame _ T2)) as [_ ->].
  do 6 eexists. split; [exact P|]. split; [exact P1|]. split; [exact P2|]. fold c. rewrite !recall_share.
  apply (share_join _ _ _ _ _ _ (agreed c)); [apply col_bounds; apply W1 || apply T1|apply col_bounds; apply W2 || apply T2|apply agreed_nonneg| |].
  - apply cells_of. apply cells_join.
  - apply (cols_add m m1 m2 agreed W0 W1 W2). apply cells_join.
Qed.

Theorem f_join b t ver ver1 ver2 : exists v v1 v2 n n1 n2,
  fmeasure exactA o b m (Some t) ver = Ok (v, n) /\ fmeasure exactA o1 b m1 (Some t) ver1 = Ok (v1, n1) /\ fmeasure exactA o2 b m2 (Some t) ver2 = Ok (v2, n2) /\
  (nval v1 <= nval v \/ nval v2 <= nval v)%Q /\ (agreed (Some t) == 0 -> nval v <= nval v1 \/ nval v <= nval v2)%Q.
Proof.
  destruct setup as (W0 & W1 & W2 & R0 & R1 & R2 & T0 & T1 & T2).
  destruct (f_exact o m HO R0 T0 b t ver) as (v & n & P & V & _). destruct (f_exact o1 m1 HO1 R1 T1 b t ver1) as (v1 & n1 & P1 & V1 & _).
  destruct (f_exact o2 m2 HO2 R2 T2 b t ver2) as (v2 & n2 & P2 & V2 & _).
  exists v, v1, v2, n, n1, n2. split; [exact P|]. split; [exact P1|]. split; [exact P2|]. rewrite V, V1, V2.
  rewrite (f_class_share m W0 ltac:(apply T0)), (f_class_share m1 W1 ltac:(apply T1)), (f_class_share m2 W2 ltac:(apply T2)).
  set (c := Some t). pose proof (cells_of m m1 m2 agreed cells_join c) as Kd.
  pose proof (rows_add m m1 m2 agreed W0 W1 W2 cells_join c) as Kr. pose proof (cols_add m m1 m2 agreed W0 W1 W2 cells_join c) as Kc.
  pose proof (row_bounds m1 W1 ltac:(apply T1) c). pose proof (col_bounds m1 W1 ltac:(apply T1) c).
  pose proof (row_bounds m2 W2 ltac:(apply T2) c). pose proof (col_bounds m2 W2 ltac:(apply T2) c).
  pose proof (agreed_nonneg c) as Ka. assert (B : (0 <= b * b)%Q) by nra.
  assert (S : forall d R C, (0 <= d <= R)%Q -> (0 <= d <= C)%Q -> (0 <= (1 + b * b) * d <= b * b * C + R)%Q).
  { intros d R C BR BC. assert (0 <= b * b * d)%Q by (apply Qmult_le_0_compat; lra). assert (0 <= b * b * (C - d))%Q by (apply Qmult_le_0_compat; lra). lra. }
  destruct (share_join ((1 + b * b) * nval (cell m c c)) (b * b * col_sum m c + row_sum m c) ((1 + b * b) * nval (cell m1 c c)) (b * b * col_sum m1 c + row_sum m1 c)
    ((1 + b * b) * nval (cell m2 c c)) (b * b * col_sum m2 c + row_sum m2 c) ((1 + b * b) * agreed c)) as (_ & J1 & J2).
  - apply S; assumption.
  - apply S; assumption.
  - apply Qmult_le_0_compat; lra.
  - rewrite Kd. ring.
  - rewrite Kr, Kc. ring.
  - split; [exact J1|]. intros K. apply J2. rewrite K. ring.
Qed.

Theorem micro_join : exists v v1 v2, let g := inject_Z (Z.of_nat (nbounds z)) in
  rmap fst (precision exactA o m None AvgMicro) = Ok v /\ rmap fst (precision exactA o1 m1 None AvgMicro) = Ok v1 /\ rmap fst (precision exactA o2 m2 None AvgMicro) = Ok v2 /\
  rmap fst (recall exactA o m None AvgMicro) = Ok v /\ rmap fst (recall exactA o1 m1 None AvgMicro) = Ok v1 /\ rmap fst (recall exactA o2 m2 None AvgMicro) = Ok v2 /\
  (total m == total m1 + total m2 + g)%Q /\ (total m * nval v == total m1 * nval v1 + total m2 * nval v2 + g)%Q /\
  (nval v1 <= nval v \/ nval v2 <= nval v)%Q /\ (nbounds z = 0%nat -> nval v <= nval v1 \/ nval v <= nval v2)%Q.
Proof.
  destruct setup as (W0 & W1 & W2 & R0 & R1 & R2 & T0 & T1 & T2).
  destruct (micro_precision_recall exactA o m sane_exactA R0 HO (exact_of_tame _ T0)) as [-> ->].
  destruct (micro_precision_recall exactA o1 m1 sane_exactA R1 HO1 (exact_of_tame _ T1)) as [-> ->].
  destruct (micro_precision_recall exactA o2 m2 sane_exactA R2 HO2 (exact_of_tame _ T2)) as [-> ->].
  destruct (micro_share m W0 ltac:(apply T0)) as (v & -> & V). destruct (micro_share m1 W1 ltac:(apply T1)) as (v1 & -> & V1).
  destruct (micro_share m2 W2 ltac:(apply T2)) as (v2 & -> & V2). exists v, v1, v2. intros g. do 6 (split; [reflexivity|]).
  pose proof (totals_add m m1 m2 agreed W0 W1 W2 cells_join ltac:(apply T1) ltac:(apply T2) agreed_nonneg) as Kt. rewrite agreed_all in Kt. fold g in Kt.
  pose proof (diagonals_add m m1 m2 agreed W0 W1 W2 cells_join ltac:(apply T1) ltac:(apply T2) agreed_nonneg) as Kd. rewrite agreed_all in Kd. fold g in Kd.
  split; [exact Kt|]. rewrite V, V1, V2.
  destruct (share_join (diagonal m) (total m) (diagonal m1) (total m1) (diagonal m2) (total m2) g) as (J0 & J1 & J2); try assumption;
    [apply diagonal_bounds; [exact W1|apply T1]|apply diagonal_bounds; [exact W2|apply T2]| |].
  - unfold g. change 0%Q with (inject_Z 0). rewrite <- Zle_Qle. lia.
  - split; [rewrite Kt at 1; exact J0|]. split; [exact J1|]. intros K. apply J2. unfold g. rewrite K. reflexivity.
Qed.
End join.
