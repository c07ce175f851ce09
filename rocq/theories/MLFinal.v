(** The properties of the machine learning metrics in their final form. *)
From Coq Require Import Lqa.
From Verif Require Import SpecML Round RoundProofs SimRound SimProofs MLProofs MLSums MLMain MLFmeasure MLMatrix.
Open Scope Z_scope.

Section final.
Context (A : arith) (o : cord) (m : cmatrix).
Context (HA : sane A) (HO : cord_ok o) (HR : reachable A m).
Let HW := wf_reachable A m HR.
Let HP := prec_sane A HA.
Let m1 := snd (cm_get_classes m).
Let G1 : grown ∅ m m1 := grown_classes ∅ m HW.

Lemma class_metric (byrow : bool) c ver : tame A m ->
  exists v m', micro_macro A o (the_metric A o byrow) m (Some c) ver = Ok (NDec v, m') /\ (0 <= v <= 1)%Q /\
    (exact_cells A m -> v = if byrow then class_precision A m (Some c) else class_recall A m (Some c)).
Proof.
  intros HT. unfold micro_macro. rewrite classes_split. fold m1.
  destruct (class_range A _ _ o byrow m1 (Some c) HP (g_wf _ _ _ G1) HO (tame_grown _ _ _ _ G1 HT)) as (v & m2 & E & _ & _ & B & _ & X).
  rewrite the_value, E. exists v, m2. split; [reflexivity|]. split; [exact B|]. intros HE. rewrite (X (exact_grown _ _ _ _ G1 HE)), line_value.
  destruct (class_grown A _ _ ∅ m m1 (Some c) HP HW G1) as [-> ->]. reflexivity.
Qed.

Theorem class_values : tame A m -> forall c ver,
  exists p r mp mr, precision A o m (Some c) ver = Ok (NDec p, mp) /\ recall A o m (Some c) ver = Ok (NDec r, mr) /\
    (0 <= p <= 1)%Q /\ (0 <= r <= 1)%Q /\
    (exact_cells A m -> p = class_precision A m (Some c) /\ r = class_recall A m (Some c)).
Proof.
  intros HT c ver. destruct (class_metric true c ver HT) as (p & mp & E1 & B1 & X1). destruct (class_metric false c ver HT) as (r & mr & E2 & B2 & X2).
  exists p, r, mp, mr. split; [exact E1|]. split; [exact E2|]. split; [exact B1|]. split; [exact B2|]. auto.
Qed.

Theorem average_values : tame A m -> (exact_cells A m \/ (diagonal m <= inject_Z (10 ^ 28))%Q) -> Z.of_nat (size (cls m)) <= 10 ^ 28 ->
  forall ver, ver <> AvgOther ->
  exists p r mp mr, precision A o m None ver = Ok (p, mp) /\ recall A o m None ver = Ok (r, mr) /\
    (0 <= nval p <= 1)%Q /\ (0 <= nval r <= 1)%Q.
Proof.
  intros HT HB HS ver HV.
  assert (K : forall byrow, exists v m', micro_macro A o (the_metric A o byrow) m None ver = Ok (v, m') /\ (0 <= nval v <= 1)%Q).
  { intros byrow. destruct ver; [| |contradiction].
    - destruct (micro_range A _ _ o byrow m HP HW HO HT HB) as (v & m' & E & _ & B). eauto.
    - destruct (macro_range A _ _ o (the_metric A o byrow) m HP HW HO HS (ratio_bounded A _ _ o byrow m HP HW HO HT)) as (v & m' & E & _ & B). eauto. }
  destruct (K true) as (p & mp & E1 & B1). destruct (K false) as (r & mr & E2 & B2). exists p, r, mp, mr. auto.
Qed.

Lemma f_class_value beta c ver : tame A m ->
  exists p r v m', fmeasure A o beta m (Some c) ver = Ok (v, m') /\ (0 <= p <= 1)%Q /\ (0 <= r <= 1)%Q /\ (p == 0 <-> r == 0)%Q /\
    (exact_cells A m -> p = class_precision A m (Some c) /\ r = class_recall A m (Some c)) /\
    forall eps M, precf A eps M -> exact_cells A m \/ eps = eps28 -> (Qabs (nval v - fbeta (beta * beta) p r) <= 12 * eps * fbeta (beta * beta) p r)%Q.
Proof.
  intros HT. unfold fmeasure, micro_macro. rewrite classes_split. fold m1. cbn [cvalue fmeasure_metric].
  destruct (f_class A eps28 (10 ^ 28) o beta m1 (Some c) (precf_sane A HA) (g_wf _ _ _ G1) HO (tame_grown _ _ _ _ G1 HT))
    as (p & r & v & m2 & E & _ & _ & B1 & B2 & Z1 & Z2 & X & _ & _ & V).
  exists p, r, v, m2. split; [exact E|]. split; [exact B1|]. split; [exact B2|]. split; [rewrite Z1, Z2; tauto|]. split.
  - intros HE. destruct (X (exact_grown _ _ _ _ G1 HE)) as [-> ->]. apply (class_grown A _ _ ∅ m m1 (Some c) HP HW G1).
  - intros eps M HF [HE| ->]; [|exact V].
    destruct (f_class A eps M o beta m1 (Some c) HF (g_wf _ _ _ G1) HO (tame_grown _ _ _ _ G1 HT))
      as (p' & r' & v' & m2' & E' & _ & _ & _ & _ & _ & _ & X' & _ & _ & V').
    destruct (X (exact_grown _ _ _ _ G1 HE)) as [-> ->]. destruct (X' (exact_grown _ _ _ _ G1 HE)) as [-> ->].
    rewrite E in E'. injection E' as <- _. exact V'.
Qed.

Lemma about_one x y : (0 <= y <= 1)%Q -> (Qabs (x - y) <= 12 * eps28 * y)%Q -> (0 <= x <= 1 + 6 * (1 # 10 ^ 27))%Q.
Proof.
  intros H1 H2. rewrite eps28_val in H2. apply Qabs_Qle_condition in H2. change (10 ^ 27)%positive with 1000000000000000000000000000%positive. lra.
Qed.

Theorem f_range beta : tame A m -> forall c ver, exists v m', fmeasure A o beta m (Some c) ver = Ok (v, m') /\
  (0 <= nval v <= 1 + 6 * (1 # 10 ^ 27))%Q.
Proof.
  intros HT c ver. destruct (f_class_value beta c ver HT) as (p & r & v & m' & E & B1 & B2 & Z & _ & V). exists v, m'. split; [exact E|].
  specialize (V eps28 (10 ^ 28) (precf_sane A HA) (or_intror eq_refl)). eapply about_one; [|exact V].
  apply fbeta_bounds; try assumption. apply sq_nonneg.
Qed.

Theorem f_accuracy beta : tame A m -> exact_cells A m -> forall c ver, exists v m', fmeasure A o beta m (Some c) ver = Ok (v, m') /\
  let f := fbeta (beta * beta) (class_precision A m (Some c)) (class_recall A m (Some c)) in
  (Qabs (nval v - f) <= 6 * (1 # 10 ^ 27) * f)%Q.
Proof.
  intros HT HE c ver. destruct (f_class_value beta c ver HT) as (p & r & v & m' & E & B1 & B2 & Z & X & V). exists v, m'. split; [exact E|]. cbv zeta.
  destruct (X HE) as [-> ->]. specialize (V eps28 (10 ^ 28) (precf_sane A HA) (or_introl HE)). rewrite eps28_val in V.
  change (10 ^ 27)%positive with 1000000000000000000000000000%positive. lra.
Qed.
End final.

(** Exact arithmetic. *)
Section exact.
Context (o : cord) (m : cmatrix) (HO : cord_ok o) (HR : reachable exactA m) (HT : tame exactA m).
Let HW := wf_reachable exactA m HR.

Lemma class_f_bounds beta c : (0 <= class_f m beta c <= 1)%Q.
Proof.
  destruct (class_bounds exactA 0 _ o m c sane_prec_exact HW HO HT (exact_of_tame m HT)) as (P & R & Z). apply fbeta_bounds; try assumption. apply sq_nonneg.
Qed.

Theorem f_exact beta : forall c ver, exists v m', fmeasure exactA o beta m (Some c) ver = Ok (v, m') /\
  (nval v == class_f m beta (Some c))%Q /\ (0 <= nval v <= 1)%Q.
Proof.
  intros c ver. destruct (f_class_value exactA o m sane_exactA HO HR beta c ver HT) as (p & r & v & m' & E & _ & _ & _ & X & V). exists v, m'. split; [exact E|].
  destruct (X (exact_of_tame m HT)) as [-> ->]. specialize (V 0%Q (10 ^ 28) (precf_exact (10 ^ 28) ltac:(lia)) (or_introl (exact_of_tame m HT))).
  apply zero_bound in V. split; [exact V|]. rewrite V. apply class_f_bounds.
Qed.

Theorem f_averages beta : exists v w mv mw, fmeasure exactA o beta m None AvgMicro = Ok (v, mv) /\ fmeasure exactA o beta m None AvgMacro = Ok (w, mw) /\
  (nval v == micro_f m beta)%Q /\ (nval w == macro_value m (class_f m beta))%Q /\ (0 <= nval v <= 1)%Q /\ (0 <= nval w <= 1)%Q.
Proof.
  destruct (f_micro o beta m HW HO HT) as (v & mv & E1 & _ & V1 & B1). destruct (f_macro o beta m HW HO HT) as (w & mw & E2 & _ & V2).
  exists v, w, mv, mw. split; [exact E1|]. split; [exact E2|]. split; [exact V1|]. split; [exact V2|]. split; [exact B1|]. rewrite V2.
  apply macro_bounds. intros c. apply class_f_bounds.
Qed.

Theorem pr_macros : exists p r mp mr, precision exactA o m None AvgMacro = Ok (p, mp) /\ recall exactA o m None AvgMacro = Ok (r, mr) /\
  (nval p == macro_value m (class_precision exactA m))%Q /\ (nval r == macro_value m (class_recall exactA m))%Q.
Proof.
  destruct (pr_macro o true m HW HO HT) as (p & mp & E1 & _ & V1). destruct (pr_macro o false m HW HO HT) as (r & mr & E2 & _ & V2).
  exists p, r, mp, mr. auto.
Qed.

Theorem f_mean beta c : let p := class_precision exactA m c in let r := class_recall exactA m c in let f := class_f m beta c in
  ((p == 0 \/ r == 0) -> f == 0)%Q /\ (p == r -> f == p)%Q /\ (forall x, p <= x -> r <= x -> f <= x)%Q /\ (forall x, x <= p -> x <= r -> x <= f)%Q.
Proof.
  intros p r f. destruct (class_bounds exactA 0 _ o m c sane_prec_exact HW HO HT (exact_of_tame m HT)) as (P & R & Z). fold p in P, Z. fold r in R, Z.
  pose proof (sq_nonneg beta) as HB. assert (E0 : (p == 0 -> f == 0)%Q) by (intros E; unfold f, class_f, fbeta, Qdiv; fold p; rewrite E; ring).
  destruct (Qlt_le_dec 0 p) as [L|L].
  - assert (L' : (0 < r)%Q). { destruct (Qlt_le_dec 0 r); [assumption|]. assert (p == 0)%Q by (apply Z; lra). lra. }
    split; [intros [?|?]; lra|]. split; [apply fbeta_same; assumption|]. split; [intros x; apply fbeta_le; assumption|intros x; apply fbeta_ge; assumption].
  - assert (EP : (p == 0)%Q) by lra. assert (ER : (r == 0)%Q) by (apply Z, EP). specialize (E0 EP). split; [intros _; exact E0|]. split; [intros _; rewrite E0, EP; reflexivity|].
    split; intros x H1 H2; rewrite E0; lra.
Qed.
End exact.

Lemma other_average A o m beta :
  precision A o m None AvgOther = Err SegmentationMetricError /\ recall A o m None AvgOther = Err SegmentationMetricError /\
  fmeasure A o beta m None AvgOther = Err SegmentationMetricError /\
  forall c ver ver', precision A o m (Some c) ver = precision A o m (Some c) ver' /\
    recall A o m (Some c) ver = recall A o m (Some c) ver' /\ fmeasure A o beta m (Some c) ver = fmeasure A o beta m (Some c) ver'.
Proof.
  unfold precision, recall, fmeasure, micro_macro. rewrite classes_split. repeat split.
Qed.
