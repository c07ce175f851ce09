(** F-measure. *)
From Coq Require Import Lqa.
From Verif Require Import SpecML Round RoundProofs SimRound SimProofs MLProofs MLSums MLMain.
Open Scope Q_scope.

(** ** The formula *)

Lemma fbeta_den b2 p r : 0 <= b2 -> 0 < p -> 0 < r -> 0 < b2 * p + r.
Proof. intros. nra. Qed.

Lemma fbeta_pos b2 p r : 0 <= b2 -> 0 < p -> 0 < r -> 0 < fbeta b2 p r.
Proof.
  intros H1 H2 H3. unfold fbeta. apply Qlt_shift_div_l; [apply fbeta_den; assumption|]. assert (0 < (1 + b2) * p) by nra. nra.
Qed.

Lemma fbeta_le b2 p r x : 0 <= b2 -> 0 < p -> 0 < r -> p <= x -> r <= x -> fbeta b2 p r <= x.
Proof.
  intros H1 H2 H3 H4 H5. unfold fbeta. apply Qdiv_bounds; [apply fbeta_den; assumption|].
  assert (p * r <= x * r) by nra. assert (b2 * p * r <= b2 * p * x) by (apply Qmult_le_l_weak; nra). nra.
Qed.

Lemma fbeta_ge b2 p r x : 0 <= b2 -> 0 < p -> 0 < r -> x <= p -> x <= r -> x <= fbeta b2 p r.
Proof.
  intros H1 H2 H3 H4 H5. unfold fbeta. apply Qdiv_bounds_l; [apply fbeta_den; assumption|].
  assert (x * r <= p * r) by nra. assert (b2 * p * x <= b2 * p * r) by (apply Qmult_le_l_weak; nra). nra.
Qed.

Lemma fbeta_same b2 p r : 0 <= b2 -> 0 < p -> p == r -> fbeta b2 p r == p.
Proof.
  intros H1 H2 E. assert (0 < r) by (rewrite <- E; exact H2).
  apply Qle_antisym; [apply fbeta_le|apply fbeta_ge]; try assumption; try (rewrite E; apply Qle_refl); apply Qle_refl.
Qed.

(** ** One class, rounded *)

(** The squaring of beta has twice the relative error. *)
Record precf (A : arith) (eps : Q) (M : Z) : Prop := Precf {
  f_prec :> prec A eps M;
  f_sq : forall x, Qabs (r2 A x - x) <= 2 * eps * Qabs x;
  f_eps : eps <= 1 # 1000
}.

Lemma precf_sane A : sane A -> precf A eps28 (10 ^ 28).
Proof.
  intros HA. split; [apply prec_sane, HA| |rewrite eps28_val; lra]. intros x. unfold eps28.
  setoid_replace (2 * ((1 # 2) * qpow 10 (-27))) with (qpow 10 (-27)) by ring. apply (r2_err A HA).
Qed.

Lemma precf_exact M : (1 <= M)%Z -> precf exactA 0 M.
Proof.
  intros HM. split; [apply prec_exact, HM| |lra]. intros x. cbn [exactA r2].
  setoid_replace (Qred x - x) with 0 by (rewrite Qred_correct; lra). change (Qabs 0) with 0. lra.
Qed.

(** [x] is within the factors [lo] and [hi] of [y]. *)
Definition about (lo hi x y : Q) : Prop := lo * y <= x /\ x <= hi * y.

Section fclass.
Context (A : arith) (eps : Q) (M : Z) (HF : precf A eps M).
Let HP := f_prec _ _ _ HF.

Lemma sq_about x : 0 <= x -> about (1 - 2 * eps) (1 + 2 * eps) (r2 A x) x.
Proof.
  intros H. pose proof (f_sq _ _ _ HF x) as K. rewrite (Qabs_pos x H) in K. apply Qabs_Qle_condition in K. unfold about. split; lra.
Qed.

Lemma about_rd lo hi x y : 0 <= lo -> 0 <= y -> about lo hi x y -> about ((1 - eps) * lo) ((1 + eps) * hi) (rd A x) y.
Proof.
  intros H1 H2 [H3 H4]. assert (0 <= x) by nra. destruct (rd_rel A _ _ HP x ltac:(assumption)) as [H5 H6].
  pose proof (p_pos _ _ _ HP). pose proof (f_eps _ _ _ HF). split.
  - apply (Qle_trans _ ((1 - eps) * x)); [|exact H5]. rewrite <- Qmult_assoc. apply Qmult_le_l_weak; lra.
  - apply (Qle_trans _ ((1 + eps) * x)); [exact H6|]. rewrite <- Qmult_assoc. apply Qmult_le_l_weak; lra.
Qed.

Lemma about_mul lo hi x y z : 0 <= z -> about lo hi x y -> about lo hi (x * z) (y * z).
Proof. intros H [H1 H2]. split; rewrite Qmult_assoc; apply Qmult_le_compat_r; assumption. Qed.

Lemma about_le lo hi lo' hi' x y : 0 <= y -> lo' <= lo -> hi <= hi' -> about lo hi x y -> about lo' hi' x y.
Proof. intros H H1 H2 [H3 H4]. split; nra. Qed.

Lemma about_div lo hi lo' hi' x y x' y' : 0 < lo' -> 0 < hi' -> 0 <= lo -> 0 <= hi -> 0 <= y -> 0 < y' -> about lo hi x y -> about lo' hi' x' y' ->
  about (lo / hi') (hi / lo') (x / x') (y / y').
Proof.
  intros H1 H2 H3 H3' H4 H5 [H6 H7] [H8 H9]. assert (0 < x') by nra. unfold about.
  setoid_replace (lo / hi' * (y / y')) with (lo * y / (hi' * y')) by (field; lra).
  setoid_replace (hi / lo' * (y / y')) with (hi * y / (lo' * y')) by (field; lra). split.
  - apply Qdiv_bounds_l; [assumption|]. setoid_replace (lo * y / (hi' * y') * x') with (lo * y * x' / (hi' * y')) by (field; lra).
    apply Qdiv_bounds; [nra|]. assert (0 <= lo * y) by nra. apply (Qle_trans _ (lo * y * (hi' * y'))); [apply Qmult_le_l_weak; lra|apply Qmult_le_compat_r; [assumption|nra]].
  - apply Qdiv_bounds; [assumption|]. setoid_replace (hi * y / (lo' * y') * x') with (hi * y * x' / (lo' * y')) by (field; lra).
    apply Qdiv_bounds_l; [nra|]. assert (0 <= hi * y) by nra. apply (Qle_trans _ (hi * y * (lo' * y'))); [apply Qmult_le_compat_r; [assumption|nra]|apply Qmult_le_l_weak; lra].
Qed.

Lemma coef_hi : (1 + eps) * ((1 + eps) * ((1 + eps) * ((1 + eps) * (1 + 2 * eps)))) <= (1 + 12 * eps) * ((1 - eps) * ((1 - eps) * (1 - 2 * eps))).
Proof.
  pose proof (p_pos _ _ _ HP) as H. pose proof (f_eps _ _ _ HF) as H0.
  assert (E2 : 0 <= eps * eps /\ eps * eps <= (1 # 1000) * eps) by nra.
  assert (E3 : 0 <= eps * eps * eps /\ eps * eps * eps <= (1 # 1000) * eps) by nra.
  assert (E4 : 0 <= eps * eps * eps * eps /\ eps * eps * eps * eps <= (1 # 1000) * eps) by nra.
  assert (E5 : 0 <= eps * eps * eps * eps * eps /\ eps * eps * eps * eps * eps <= (1 # 1000) * eps) by nra.
  lra.
Qed.

Lemma coef_lo : (1 - 12 * eps) * ((1 + eps) * ((1 + eps) * (1 + 2 * eps))) <= (1 - eps) * ((1 - eps) * ((1 - eps) * ((1 - eps) * (1 - 2 * eps)))).
Proof.
  pose proof (p_pos _ _ _ HP) as H. pose proof (f_eps _ _ _ HF) as H0.
  assert (E2 : 0 <= eps * eps /\ eps * eps <= (1 # 1000) * eps) by nra.
  assert (E3 : 0 <= eps * eps * eps /\ eps * eps * eps <= (1 # 1000) * eps) by nra.
  assert (E4 : 0 <= eps * eps * eps * eps /\ eps * eps * eps * eps <= (1 # 1000) * eps) by nra.
  assert (E5 : 0 <= eps * eps * eps * eps * eps /\ eps * eps * eps * eps * eps <= (1 # 1000) * eps) by nra.
  lra.
Qed.

Lemma terms_eq beta p r : fmeasure_terms A beta (NDec p) (NDec r) =
  Ok (NDec (rd A (rd A (rd A (1 + r2 A (beta * beta)) * p) * r)), NDec (rd A (rd A (r2 A (beta * beta) * p) + r))).
Proof. reflexivity. Qed.

Lemma sq_nonneg (x : Q) : 0 <= x * x.
Proof. nra. Qed.

Lemma terms_about beta p r : 0 <= p -> 0 <= r ->
  about ((1 - eps) * ((1 - eps) * ((1 - eps) * (1 - 2 * eps)))) ((1 + eps) * ((1 + eps) * ((1 + eps) * (1 + 2 * eps))))
    (rd A (rd A (rd A (1 + r2 A (beta * beta)) * p) * r)) ((1 + beta * beta) * p * r) /\
  about ((1 - eps) * ((1 - eps) * (1 - 2 * eps))) ((1 + eps) * ((1 + eps) * (1 + 2 * eps)))
    (rd A (rd A (r2 A (beta * beta) * p) + r)) (beta * beta * p + r).
Proof.
  intros H1 H2. pose proof (p_pos _ _ _ HP) as HE0. pose proof (f_eps _ _ _ HF) as HE1. pose proof (sq_nonneg beta) as HB.
  pose proof (sq_about _ HB) as HS. set (b2 := beta * beta) in *.
  assert (G : 0 <= 1 - eps) by lra. assert (G' : 0 <= 1 - 2 * eps) by lra.
  assert (P1 : 0 <= (1 - eps) * (1 - 2 * eps)) by nra. assert (P2 : 0 <= (1 - eps) * ((1 - eps) * (1 - 2 * eps))) by nra.
  assert (N1 : 0 <= (1 + b2) * p) by nra. assert (N2 : 0 <= (1 + b2) * p * r) by nra. assert (N3 : 0 <= b2 * p) by nra.
  split.
  - apply about_rd; [exact P2|exact N2|]. apply about_mul; [exact H2|]. apply about_rd; [exact P1|exact N1|]. apply about_mul; [exact H1|].
    apply about_rd; [exact G'|lra|]. destruct HS as [S1 S2]. split; nra.
  - apply about_rd; [exact P1|lra|]. pose proof (about_rd _ _ _ _ G' N3 (about_mul _ _ _ _ _ H1 HS)) as [S1 S2].
    assert ((1 - eps) * (1 - 2 * eps) <= 1) by nra. assert (1 <= (1 + eps) * (1 + 2 * eps)) by nra. split; nra.
Qed.

Lemma terms_accurate beta p r : 0 < p -> 0 < r ->
  let n := rd A (rd A (rd A (1 + r2 A (beta * beta)) * p) * r) in
  let d := rd A (rd A (r2 A (beta * beta) * p) + r) in
  0 < d /\ Qabs (rd A (n / d) - fbeta (beta * beta) p r) <= 12 * eps * fbeta (beta * beta) p r.
Proof.
  intros H1 H2 n d. destruct (terms_about beta p r ltac:(lra) ltac:(lra)) as [HN HD]. fold n in HN. fold d in HD.
  pose proof (p_pos _ _ _ HP) as HE0. pose proof (f_eps _ _ _ HF) as HE1. pose proof (sq_nonneg beta) as HB.
  pose proof coef_hi as CH. pose proof coef_lo as CL.
  set (b2 := beta * beta) in *. pose proof (fbeta_den b2 p r HB H1 H2) as HD0. pose proof (fbeta_pos b2 p r HB H1 H2) as HFp.
  assert (G : 0 < 1 - eps) by lra. assert (G' : 0 < 1 - 2 * eps) by lra.
  set (l := 1 - eps) in *. set (h := 1 + eps) in *. set (l2 := 1 - 2 * eps) in *. set (h2 := 1 + 2 * eps) in *.
  assert (Hh : 0 < h) by (unfold h; lra). assert (Hh2 : 0 < h2) by (unfold h2; lra).
  assert (L1 : 0 < l * l2) by nra. assert (L2 : 0 < l * (l * l2)) by nra. assert (L3 : 0 < l * (l * (l * l2))) by nra.
  assert (K1 : 0 < h * h2) by nra. assert (K2 : 0 < h * (h * h2)) by nra. assert (K3 : 0 < h * (h * (h * h2))) by nra.
  assert (Hd : 0 < d) by (destruct HD as [HD _]; nra). split; [exact Hd|].
  assert (HN0 : 0 <= (1 + b2) * p * r) by (assert (0 <= (1 + b2) * p) by nra; nra).
  pose proof (about_div _ _ _ _ _ _ _ _ L2 K2 (Qlt_le_weak _ _ L3) (Qlt_le_weak _ _ K3) HN0 HD0 HN HD) as HQ. fold (fbeta b2 p r) in HQ.
  apply about_rd in HQ; [|apply Qdiv_bounds_l; [exact K2|lra]|lra].
  assert (B1 : (h * (h * (h * (h * h2)) / (l * (l * l2))) <= 1 + 12 * eps)).
  { setoid_replace (h * (h * (h * (h * h2)) / (l * (l * l2)))) with (h * (h * (h * (h * h2))) / (l * (l * l2))) by (field; split; lra).
    apply Qdiv_bounds; [exact L2|exact CH]. }
  assert (B2 : (1 - 12 * eps <= l * (l * (l * (l * l2)) / (h * (h * h2))))).
  { setoid_replace (l * (l * (l * (l * l2)) / (h * (h * h2)))) with (l * (l * (l * (l * l2))) / (h * (h * h2))) by (field; split; lra).
    apply Qdiv_bounds_l; [exact K2|exact CL]. }
  apply (about_le _ _ (1 - 12 * eps) (1 + 12 * eps)) in HQ; [|lra|exact B2|exact B1].
  destruct HQ as [Q1 Q2]. apply Qabs_Qle_condition. lra.
Qed.
End fclass.

(** ** F-measure of one class *)

Lemma qzero_iff q : qzero q = true <-> q == 0.
Proof. apply Qeq_bool_iff. Qed.

Lemma line_value A (m : cmatrix) byrow c : (if Qeq_bool (nval (cell m c c)) 0 then 0 else rd A (nval (cell m c c) / line m byrow c)) =
  if byrow then class_precision A m c else class_recall A m c.
Proof. destruct byrow; reflexivity. Qed.

Lemma class_pr A eps M o m c : prec A eps M -> wf m -> cord_ok o -> tame A m ->
  exists p r m1 m2, precision_class A o m c = Ok (NDec p, m1) /\ recall_class A o m1 c = Ok (NDec r, m2) /\
    grown {[c]} m m2 /\ c ∈ cls m2 /\ 0 <= p <= 1 /\ 0 <= r <= 1 /\ (p == 0 <-> nval (cell m c c) == 0) /\ (r == 0 <-> nval (cell m c c) == 0) /\
    (exact_cells A m -> p = class_precision A m c /\ r = class_recall A m c).
Proof.
  intros HP HW HO HT.
  destruct (class_range A eps M o true m c HP HW HO HT) as (p & m1 & E1 & G1 & C1 & P1 & P2 & P3).
  destruct (class_range A eps M o false m1 c HP (g_wf _ _ _ G1) HO (tame_grown _ _ _ _ G1 HT)) as (r & m2 & E2 & G2 & C2 & R1 & R2 & R3).
  exists p, r, m1, m2. split; [exact E1|]. split; [exact E2|]. split; [eapply grown_trans; eassumption|]. split; [exact C2|].
  split; [exact P1|]. split; [exact R1|]. split; [exact P2|]. rewrite (g_cells _ _ _ G1) in R2. split; [exact R2|].
  intros HE. specialize (P3 HE). specialize (R3 (exact_grown _ _ _ _ G1 HE)). rewrite (line_value A m true c) in P3. split; [exact P3|].
  rewrite R3, (g_cells _ _ _ G1). unfold class_recall. destruct (Qeq_bool (nval (cell m c c)) 0); [reflexivity|].
  apply (p_ext _ _ _ HP). rewrite (line_grown _ m m1 false c HW G1). reflexivity.
Qed.

Lemma f_class A eps M o beta m c : precf A eps M -> wf m -> cord_ok o -> tame A m ->
  exists p r v m', fmeasure_class A o beta m c = Ok (v, m') /\
    grown {[c]} m m' /\ c ∈ cls m' /\ 0 <= p <= 1 /\ 0 <= r <= 1 /\ (p == 0 <-> nval (cell m c c) == 0) /\ (r == 0 <-> nval (cell m c c) == 0) /\
    (exact_cells A m -> p = class_precision A m c /\ r = class_recall A m c) /\ not_float v /\
    (nval (cell m c c) == 0 -> v = NInt 0) /\
    Qabs (nval v - fbeta (beta * beta) p r) <= 12 * eps * fbeta (beta * beta) p r.
Proof.
  intros HP HW HO HT. destruct (class_pr A eps M o m c HP HW HO HT) as (p & r & m1 & m2 & E1 & E2 & G & C & P1 & R1 & P2 & R2 & X).
  unfold fmeasure_class. rewrite E1. cbn [bind]. rewrite E2. cbn [bind]. unfold neqb. cbn [nval]. change (inject_Z 0) with 0.
  destruct (Qeq_bool p 0) eqn:EP.
  - apply Qeq_bool_iff in EP. cbn [orb]. exists p, r, (NInt 0), m2. split; [reflexivity|]. do 7 (split; [assumption|]). split; [exact I|]. split; [reflexivity|].
    cbn [nval]. change (inject_Z 0) with 0.
    assert (EF : fbeta (beta * beta) p r == 0) by (unfold fbeta, Qdiv; rewrite EP; ring). rewrite EF. setoid_replace (0 - 0) with 0 by ring. change (Qabs 0) with 0. lra.
  - assert (EP' : ~ p == 0) by (intros K; apply Qeq_bool_iff in K; congruence).
    assert (ER' : ~ r == 0) by tauto.
    assert (ER : Qeq_bool r 0 = false) by (destruct (Qeq_bool r 0) eqn:K; [apply Qeq_bool_iff in K; contradiction|reflexivity]). rewrite ER. cbn [orb].
    rewrite terms_eq. cbn [bind]. destruct (terms_accurate A eps M HP beta p r ltac:(lra) ltac:(lra)) as [HD HA].
    unfold to_dec. cbn [nval ndiv]. unfold qzero.
    destruct (Qeq_bool (rd A (rd A (r2 A (beta * beta) * p) + r)) 0) eqn:K; [apply Qeq_bool_iff in K; lra|]. cbn [bind].
    eexists p, r, _, m2. split; [reflexivity|]. do 7 (split; [assumption|]). split; [exact I|]. split; [tauto|exact HA].
Qed.

Lemma fbeta_bounds b2 p r : 0 <= b2 -> 0 <= p <= 1 -> 0 <= r <= 1 -> (p == 0 <-> r == 0) -> 0 <= fbeta b2 p r <= 1.
Proof.
  intros HB HP HR HZ. destruct (Qlt_le_dec 0 p) as [L|L].
  - assert (0 < r). { destruct (Qlt_le_dec 0 r); [assumption|]. assert (p == 0) by (apply HZ; lra). lra. }
    split; [apply fbeta_ge; lra|apply fbeta_le; lra].
  - assert (EP : p == 0) by lra. assert (E : fbeta b2 p r == 0) by (unfold fbeta, Qdiv; rewrite EP; ring). rewrite E. lra.
Qed.

(** The formula depends only on values. *)
Lemma fbeta_ext b p p' r r' : p == p' -> r == r' -> fbeta b p r == fbeta b p' r'.
Proof. intros E1 E2. unfold fbeta. rewrite E1, E2. reflexivity. Qed.

(** ** Exact averages *)

Lemma sane_prec_exact : prec exactA 0 (10 ^ 28).
Proof. apply prec_exact. lia. Qed.

Lemma tame_exact m : (forall p a, not_float (cell m p a)) -> nonneg_cells m -> no_decimal_zero m -> tame exactA m.
Proof. intros H1 H2 H3. split; [exact H2|]. split; [exact H3|]. left. right. split; [reflexivity|exact H1]. Qed.

Lemma exact_of_tame m : tame exactA m -> exact_cells exactA m.
Proof. intros (_ & _ & [H|H]); [exact H|]. right. split; [reflexivity|]. intros p a. eapply fits_not_float, H. Qed.

Lemma class_grown A eps M ex m m' c : prec A eps M -> wf m -> grown ex m m' ->
  class_precision A m' c = class_precision A m c /\ class_recall A m' c = class_recall A m c.
Proof.
  intros HP HW G. unfold class_precision, class_recall. rewrite (g_cells _ _ _ G). destruct (Qeq_bool (nval (cell m c c)) 0); [auto|].
  split; apply (p_ext _ _ _ HP); [rewrite (line_grown ex m m' true c HW G)|rewrite (line_grown ex m m' false c HW G)]; reflexivity.
Qed.

Lemma class_bounds A eps M o m c : prec A eps M -> wf m -> cord_ok o -> tame A m -> exact_cells A m ->
  0 <= class_precision A m c <= 1 /\ 0 <= class_recall A m c <= 1 /\ (class_precision A m c == 0 <-> class_recall A m c == 0).
Proof.
  intros HP HW HO HT HE. destruct (class_pr A eps M o m c HP HW HO HT) as (p & r & _ & _ & _ & _ & _ & _ & H1 & H2 & H3 & H4 & HX).
  destruct (HX HE) as [<- <-]. rewrite H3, H4. tauto.
Qed.

Lemma class_outside A m c : wf m -> c ∉ cls m -> class_precision A m c = 0 /\ class_recall A m c = 0.
Proof. intros HW H. unfold class_precision, class_recall. rewrite cell_outside by tauto. auto. Qed.

Lemma f_parts o beta m c : wf m -> cord_ok o -> tame exactA m ->
  exists n d m', fmeasure_parts exactA o beta m c = Ok (NDec n, NDec d, m') /\ grown {[c]} m m' /\
    n == (1 + beta * beta) * class_precision exactA m c * class_recall exactA m c /\
    d == beta * beta * class_precision exactA m c + class_recall exactA m c.
Proof.
  intros HW HO HT. destruct (class_pr exactA 0 _ o m c sane_prec_exact HW HO HT) as (p & r & m1 & m2 & E1 & E2 & G & C & P1 & R1 & P2 & R2 & X).
  destruct (X (exact_of_tame m HT)) as [<- <-]. unfold fmeasure_parts. rewrite E1. cbn [bind]. rewrite E2. cbn [bind]. rewrite terms_eq. cbn [bind].
  eexists _, _, m2. split; [reflexivity|]. split; [exact G|]. cbn [exactA rd r2]. rewrite !Qred_correct. split; reflexivity.
Qed.

Lemma f_micro_fold o beta m : wf m -> cord_ok o -> tame exactA m -> forall l n0 d0 m1, grown ∅ m m1 -> not_float n0 -> not_float d0 -> (forall c, c ∈ l -> c ∈ cls m) ->
  exists n d m2, foldM (micro_step exactA (fmeasure_metric exactA o beta)) l (n0, d0, m1) = Ok (n, d, m2) /\ grown ∅ m m2 /\ not_float n /\ not_float d /\
    nval n == nval n0 + qsum ((fun c => (1 + beta * beta) * class_precision exactA m c * class_recall exactA m c) <$> l) /\
    nval d == nval d0 + qsum ((fun c => beta * beta * class_precision exactA m c + class_recall exactA m c) <$> l).
Proof.
  intros HW HO HT. induction l as [|c l IH]; intros n0 d0 m1 G Hn Hd Hl.
  - exists n0, d0, m1. rewrite !fmap_nil, !qsum_nil. split; [reflexivity|]. do 3 (split; [assumption|]). split; lra.
  - destruct (f_parts o beta m1 c (g_wf _ _ _ G) HO (tame_grown _ _ _ _ G HT)) as (nc & dc & m2 & E & G2 & En & Ed).
    destruct (class_grown exactA 0 _ ∅ m m1 c sane_prec_exact HW G) as [K1 K2]. rewrite K1, K2 in En, Ed.
    cbn [foldM]. unfold micro_step at 1. cbn [cparts fmeasure_metric]. rewrite E. cbn [bind fst snd].
    destruct (pex_add exactA n0 (NDec nc)) as (n1 & E1 & P1 & V1); [right; auto|right; split; [reflexivity|exact I]|]. rewrite E1. cbn [bind].
    destruct (pex_add exactA d0 (NDec dc)) as (d1 & E2 & P2 & V2); [right; auto|right; split; [reflexivity|exact I]|]. rewrite E2. cbn [bind].
    assert (G3 : grown ∅ m m2).
    { eapply grown_trans; [exact G|]. eapply grown_absorb; [|exact G2]. eapply grown_keys; [exact HW|exact G|apply Hl; left]. }
    destruct (IH n1 d1 m2 G3) as (n & d & m3 & E3 & G4 & F1 & F2 & W1 & W2); [eapply Pex_not_float, P1|eapply Pex_not_float, P2|intros; apply Hl; right; assumption|].
    exists n, d, m3. split; [exact E3|]. do 3 (split; [assumption|]). rewrite !fmap_cons, !qsum_cons. cbn [nval] in *. rewrite W1, W2, V1, V2, En, Ed. split; lra.
Qed.

Lemma f_micro o beta m : wf m -> cord_ok o -> tame exactA m ->
  exists v m', fmeasure exactA o beta m None AvgMicro = Ok (v, m') /\ grown ∅ m m' /\ nval v == micro_f m beta /\ 0 <= nval v <= 1.
Proof.
  intros HW HO HT. unfold fmeasure, micro_macro. rewrite classes_split.
  destruct (f_micro_fold o beta m HW HO HT (o (cls m)) (NInt 0) (NInt 0) (snd (cm_get_classes m))) as (n & d & m2 & E & G & Fn & Fd & Vn & Vd); try exact I.
  - apply grown_classes, HW.
  - intros c Hc. rewrite (HO (cls m)) in Hc. apply elem_of_elements, Hc.
  - rewrite E. cbn [bind]. change (nval (NInt 0)) with 0 in *. rewrite Qplus_0_l in Vn, Vd.
    rewrite (csum_order o (fun c => (1 + beta * beta) * class_precision exactA m c * class_recall exactA m c) (cls m) HO) in Vn.
    rewrite (csum_order o (fun c => beta * beta * class_precision exactA m c + class_recall exactA m c) (cls m) HO) in Vd.
    assert (H0 : 0 <= nval n <= nval d).
    { rewrite Vn, Vd. pose proof (sq_nonneg beta) as HB.
      assert (HC : forall c, 0 <= (1 + beta * beta) * class_precision exactA m c * class_recall exactA m c <= beta * beta * class_precision exactA m c + class_recall exactA m c).
      { intros c. destruct (class_bounds exactA 0 _ o m c sane_prec_exact HW HO HT (exact_of_tame m HT)) as (P & R & _). set (p := class_precision exactA m c) in *. set (r := class_recall exactA m c) in *.
        set (b := beta * beta) in *. assert (0 <= p * r) by nra. assert (p * r <= r) by nra. assert (p * r <= p) by nra. assert (b * (p * r) <= b * p) by (apply Qmult_le_l_weak; assumption). assert (0 <= b * (p * r)) by nra.
        setoid_replace ((1 + b) * p * r) with (p * r + b * (p * r)) by ring. lra. }
      split; [apply qsum_nonneg, Forall_fmap, Forall_forall; intros c _; apply HC|apply qsum_mono; intros c _; apply HC]. }
    unfold neqb. change (nval (NInt 0)) with 0. assert (EM : micro_f m beta == nval n / nval d) by (unfold micro_f; rewrite <- Vn, <- Vd; reflexivity).
    destruct (Qeq_bool (nval n) 0) eqn:EZ.
    + apply Qeq_bool_iff in EZ. exists (NInt 0), m2. split; [reflexivity|]. split; [exact G|]. change (nval (NInt 0)) with 0. split; [rewrite EM; unfold Qdiv; rewrite EZ; ring|lra].
    + assert (EZ' : ~ nval n == 0) by (intros K; apply Qeq_bool_iff in K; congruence).
      assert (ED : ndiv exactA (to_dec n) d = Ok (NDec (Qred (nval n / nval d)))).
      { assert (Hq : qzero (nval d) = false) by (unfold qzero; destruct (Qeq_bool (nval d) 0) eqn:K; [apply Qeq_bool_iff in K; lra|reflexivity]).
        unfold to_dec. destruct d as [z|q|]; [| |contradiction]; cbn [ndiv]; cbn [nval] in Hq; rewrite Hq; reflexivity. }
      rewrite ED. cbn [bind]. eexists _, m2. split; [reflexivity|]. split; [exact G|]. cbn [nval]. rewrite Qred_correct, EM. split; [reflexivity|].
      split; [apply Qdiv_bounds_l; lra|apply Qdiv_bounds; lra].
Qed.

(** Macro-averages of a metric with known class values. *)
Lemma macro_exact o F (f : label -> Q) m : wf m -> cord_ok o ->
  (forall c m1, grown ∅ m m1 -> exists v m2, cvalue F m1 c = Ok (v, m2) /\ not_float v /\ nval v == f c /\ grown {[c]} m1 m2) ->
  exists v m', micro_macro exactA o F m None AvgMacro = Ok (v, m') /\ grown ∅ m m' /\ nval v == macro_value m f.
Proof.
  intros HW HO HF. unfold micro_macro. rewrite classes_split.
  assert (HS : forall l m1 vs, grown ∅ m m1 -> (forall c, c ∈ l -> c ∈ cls m) -> Forall not_float vs ->
    exists ws m2, foldM (macro_step F) l (vs, m1) = Ok (vs ++ ws, m2) /\ length ws = length l /\ grown ∅ m m2 /\ Forall not_float ws /\ qsum (nval <$> ws) == qsum (f <$> l)).
  { induction l as [|c l IH]; intros m1 vs G Hl Hvs.
    - exists [], m1. rewrite app_nil_r. split; [reflexivity|]. split; [reflexivity|]. split; [exact G|]. split; [constructor|reflexivity].
    - destruct (HF c m1 G) as (v & m2 & E & Hn & Hv & G2). cbn [foldM]. unfold macro_step at 1. rewrite E. cbn [bind].
      assert (G3 : grown ∅ m m2).
      { eapply grown_trans; [exact G|]. eapply grown_absorb; [|exact G2]. eapply grown_keys; [exact HW|exact G|apply Hl; left]. }
      destruct (IH m2 (vs ++ [v]) G3) as (ws & m3 & E3 & HL & G4 & HB & HQ); [intros; apply Hl; right; assumption|apply Forall_app; auto|].
      exists (v :: ws), m3. rewrite E3, <- app_assoc. split; [reflexivity|]. split; [cbn; congruence|]. split; [exact G4|]. split; [constructor; auto|].
      rewrite !fmap_cons, !qsum_cons, HQ, Hv. reflexivity. }
  destruct (HS (o (cls m)) (snd (cm_get_classes m)) []) as (ws & m2 & E & HL & G & HB & HQ).
  - apply grown_classes, HW.
  - intros c Hc. rewrite (HO (cls m)) in Hc. apply elem_of_elements, Hc.
  - constructor.
  - rewrite E. cbn [bind app]. unfold mean.
    destruct (exact_sum exactA ws (NDec 0)) as (s & Es & Ps & Vs); [right; split; [reflexivity|exact I]|eapply Forall_impl; [exact HB|]; intros v Hv; right; auto|].
    rewrite Es. cbn [bind]. cbn [nval] in Vs. rewrite Qplus_0_l, HQ, (csum_order o f (cls m) HO) in Vs.
    assert (HZ : zlen ws = Z.of_nat (size (cls m))) by (unfold zlen; rewrite HL, (HO (cls m)); reflexivity).
    assert (Hs : exists q, s = NDec q).
    { clear - Es. revert Es. generalize 0. induction ws as [|w ws IH]; intros q Es; [injection Es as <-; eauto|]. cbn [foldM] in Es. destruct w; cbn in Es; try discriminate; eapply IH, Es. }
    destruct Hs as [q ->]. unfold macro_value. rewrite HZ. destruct (Z.ltb_spec 0 (Z.of_nat (size (cls m)))) as [L|L].
    + cbn [ndiv]. rewrite qzero_inject by lia. cbn [bind]. eexists _, m2. split; [reflexivity|]. split; [exact G|]. cbn [nval exactA rd] in *. rewrite Qred_correct, Vs. reflexivity.
    + eexists _, m2. split; [reflexivity|]. split; [exact G|]. assert (size (cls m) = 0%nat) as EZ by lia. rewrite EZ.
      change (inject_Z (Z.of_nat 0)) with 0. change (nval (NInt 0)) with 0. unfold Qdiv. change (/ 0) with 0. ring.
Qed.

Lemma pr_macro o byrow m : wf m -> cord_ok o -> tame exactA m ->
  exists v m', micro_macro exactA o (the_metric exactA o byrow) m None AvgMacro = Ok (v, m') /\ grown ∅ m m' /\
    nval v == macro_value m (if byrow then class_precision exactA m else class_recall exactA m).
Proof.
  intros HW HO HT. apply macro_exact; try assumption. intros c m1 G.
  pose proof (tame_grown _ _ _ _ G HT) as HT1.
  destruct (class_range exactA 0 _ o byrow m1 c sane_prec_exact (g_wf _ _ _ G) HO HT1) as (v & m2 & E & G2 & _ & _ & _ & HX).
  rewrite the_value, E. exists (NDec v), m2. split; [reflexivity|]. split; [exact I|]. split; [|exact G2]. cbn [nval].
  rewrite (HX (exact_of_tame _ HT1)), line_value. destruct (class_grown exactA 0 _ ∅ m m1 c sane_prec_exact HW G) as [K1 K2]. destruct byrow; [rewrite K1|rewrite K2]; reflexivity.
Qed.

Lemma zero_bound x y : Qabs (x - y) <= 12 * 0 * y -> x == y.
Proof. intros H. apply Qabs_Qle_condition in H. lra. Qed.

Lemma f_macro o beta m : wf m -> cord_ok o -> tame exactA m ->
  exists v m', fmeasure exactA o beta m None AvgMacro = Ok (v, m') /\ grown ∅ m m' /\ nval v == macro_value m (class_f m beta).
Proof.
  intros HW HO HT. apply (macro_exact o (fmeasure_metric exactA o beta)); try assumption. intros c m1 G.
  pose proof (tame_grown _ _ _ _ G HT) as HT1.
  destruct (f_class exactA 0 (10 ^ 28) o beta m1 c) as (p & r & v & m2 & E & G2 & _ & _ & _ & _ & _ & HX & HN & _ & HV); try assumption; [apply precf_exact; lia|apply G|].
  cbn [cvalue fmeasure_metric]. exists v, m2. split; [exact E|]. split; [exact HN|]. split; [|exact G2].
  apply zero_bound in HV. rewrite HV. destruct (HX (exact_of_tame _ HT1)) as [-> ->]. unfold class_f.
  destruct (class_grown exactA 0 _ ∅ m m1 c sane_prec_exact HW G) as [-> ->]. reflexivity.
Qed.

Lemma macro_bounds m f : (forall c, 0 <= f c <= 1) -> 0 <= macro_value m f <= 1.
Proof.
  intros H. unfold macro_value.
  assert (H0 : 0 <= csum f (cls m)) by (apply qsum_nonneg, Forall_fmap, Forall_forall; intros c _; apply H).
  assert (H1 : csum f (cls m) <= inject_Z (Z.of_nat (size (cls m)))).
  { unfold csum. change (size (cls m)) with (length (elements (cls m))). induction (elements (cls m)) as [|c l IH]; [rewrite fmap_nil, qsum_nil; discriminate|].
    rewrite fmap_cons, qsum_cons. cbn [length]. rewrite Nat2Z.inj_succ. unfold Z.succ. rewrite inject_Z_plus. change (inject_Z 1) with 1. specialize (H c). lra. }
  destruct (size (cls m)) as [|n]; [change (inject_Z (Z.of_nat 0)) with 0 in *; unfold Qdiv; change (/ 0) with 0; lra|].
  assert (0 < inject_Z (Z.of_nat (S n))) by (apply inj_pos; lia). split; [apply Qdiv_bounds_l; lra|apply Qdiv_bounds; lra].
Qed.
