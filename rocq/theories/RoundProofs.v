(** Half-even rounding is monotone, odd, exact on small integers, and has a
    bounded relative error. *)
From Coq Require Import Lqa Qpower Qfield.
From Verif Require Import Py Round.
Open Scope Z_scope.

Lemma ilog_fuel_spec f b x :
  2 <= b -> 0 < x -> x < 2 ^ (Z.of_nat f + 1) ->
  0 <= ilog_fuel f b x /\ b ^ ilog_fuel f b x <= x < b ^ (ilog_fuel f b x + 1).
Proof.
  intros Hb. revert x. induction f as [|f IH]; intros x Hx Hlt.
  - simpl in *. change (2 ^ (0 + 1)) with 2 in Hlt.
    rewrite Z.pow_0_r, Z.pow_1_r. lia.
  - cbn [ilog_fuel]. destruct (Z.ltb_spec x b) as [Hxb|Hxb].
    + rewrite Z.pow_0_r, Z.add_0_l, Z.pow_1_r. lia.
    + assert (Hd : 0 < x / b) by (apply Z.div_str_pos; lia).
      assert (Hd2 : x / b < 2 ^ (Z.of_nat f + 1)).
      { apply Z.div_lt_upper_bound; [lia|].
        replace (Z.of_nat (S f) + 1) with (Z.succ (Z.of_nat f + 1)) in Hlt by lia.
        rewrite Z.pow_succ_r in Hlt by lia.
        assert (0 < 2 ^ (Z.of_nat f + 1)) by (apply Z.pow_pos_nonneg; lia). nia. }
      destruct (IH _ Hd Hd2) as (H0 & H1 & H2).
      set (e := ilog_fuel f b (x / b)) in *.
      split; [lia|].
      replace (1 + e) with (Z.succ e) by lia.
      replace (Z.succ e + 1) with (Z.succ (e + 1)) by lia.
      rewrite !Z.pow_succ_r by lia.
      pose proof (Z.div_mod x b ltac:(lia)) as Hdm.
      pose proof (Z.mod_pos_bound x b ltac:(lia)) as Hmb.
      split; nia.
Qed.

Lemma ilog_spec b x :
  2 <= b -> 0 < x -> 0 <= ilog b x /\ b ^ ilog b x <= x < b ^ (ilog b x + 1).
Proof.
  intros Hb Hx. unfold ilog. apply ilog_fuel_spec; [lia|lia|].
  pose proof (Z.log2_nonneg x).
  rewrite Z2Nat.id by lia. destruct (Z.log2_spec x Hx) as [_ H1].
  replace (Z.log2 x + 1) with (Z.succ (Z.log2 x)) by lia. exact H1.
Qed.

Open Scope Q_scope.

Lemma inject_Z_pos b : (2 <= b)%Z -> 0 < inject_Z b.
Proof. intros. change 0 with (inject_Z 0). rewrite <- Zlt_Qlt. lia. Qed.

Lemma qpow_pos b e : (2 <= b)%Z -> 0 < qpow b e.
Proof.
  intros Hb. unfold qpow. apply Qpower_0_lt. apply inject_Z_pos, Hb.
Qed.

Lemma qpow_plus b e f : (2 <= b)%Z -> qpow b (e + f) == qpow b e * qpow b f.
Proof.
  intros Hb. unfold qpow. apply Qpower_plus. pose proof (inject_Z_pos b Hb). lra.
Qed.

Lemma qpow_nonneg b e : (2 <= b)%Z -> (0 <= e)%Z -> qpow b e == inject_Z (b ^ e).
Proof.
  intros Hb He. unfold qpow. symmetry. apply Zpower_Qpower. exact He.
Qed.

Lemma qpow_0 b : qpow b 0 == 1. Proof. reflexivity. Qed.
Lemma qpow_1 b : qpow b 1 == inject_Z b. Proof. unfold qpow. apply Qpower_1_r. Qed.

Lemma qpow_ge_1 b e : (2 <= b)%Z -> (0 <= e)%Z -> 1 <= qpow b e.
Proof.
  intros Hb He. rewrite qpow_nonneg by assumption. change 1 with (inject_Z 1).
  rewrite <- Zle_Qle. assert (0 < b ^ e)%Z by (apply Z.pow_pos_nonneg; lia). lia.
Qed.

Lemma qpow_le b e f : (2 <= b)%Z -> (e <= f)%Z -> qpow b e <= qpow b f.
Proof.
  intros Hb Hef. replace f with (e + (f - e))%Z by lia.
  rewrite qpow_plus by assumption.
  pose proof (qpow_pos b e Hb). pose proof (qpow_ge_1 b (f - e) Hb ltac:(lia)).
  nra.
Qed.

Lemma qpow_lt_inv b e f : (2 <= b)%Z -> qpow b e < qpow b f -> (e < f)%Z.
Proof.
  intros Hb H. destruct (Z_lt_le_dec e f) as [|Hle]; [assumption|].
  pose proof (qpow_le b f e Hb Hle). lra.
Qed.

Lemma flog_spec b q :
  (2 <= b)%Z -> 0 < q -> qpow b (flog b q) <= q /\ q < qpow b (flog b q + 1).
Proof.
  intros Hb Hq. unfold flog.
  destruct q as [n d]. cbn [Qnum Qden].
  assert (Hn : (0 < n)%Z). { unfold Qlt in Hq. cbn in Hq. lia. }
  destruct (ilog_spec b n Hb Hn) as (Hln0 & Hn1 & Hn2).
  destruct (ilog_spec b (Zpos d) Hb ltac:(lia)) as (Hld0 & Hd1 & Hd2).
  set (ln := ilog b n) in *. set (ld := ilog b (Zpos d)) in *.
  (* q = n / d *)
  assert (Hqd : (n # d) * inject_Z (Zpos d) == inject_Z n).
  { unfold Qeq, Qmult, inject_Z. cbn. lia. }
  assert (HN1 : qpow b ln <= inject_Z n).
  { rewrite qpow_nonneg by assumption. rewrite <- Zle_Qle. exact Hn1. }
  assert (HN2 : inject_Z n < qpow b (ln + 1)).
  { rewrite qpow_nonneg by lia. rewrite <- Zlt_Qlt. exact Hn2. }
  assert (HD1 : qpow b ld <= inject_Z (Zpos d)).
  { rewrite qpow_nonneg by assumption. rewrite <- Zle_Qle. exact Hd1. }
  assert (HD2 : inject_Z (Zpos d) < qpow b (ld + 1)).
  { rewrite qpow_nonneg by lia. rewrite <- Zlt_Qlt. exact Hd2. }
  set (q := n # d) in *. set (D := inject_Z (Zpos d)) in *.
  assert (HDpos : 0 < D). { pose proof (qpow_pos b ld Hb). lra. }
  (* q < b^(ln-ld+1) *)
  assert (Hup : q < qpow b (ln - ld + 1)).
  { apply Qnot_le_lt. intros Hle.
    assert (qpow b (ln - ld + 1) * qpow b ld == qpow b (ln + 1)).
    { rewrite <- qpow_plus by assumption. replace (ln - ld + 1 + ld)%Z with (ln + 1)%Z by lia. reflexivity. }
    assert (qpow b (ln - ld + 1) * D <= q * D) by (apply Qmult_le_compat_r; lra).
    pose proof (qpow_pos b (ln - ld + 1) Hb). nra. }
  assert (Hlow : qpow b (ln - ld - 1) < q).
  { apply Qnot_le_lt. intros Hle.
    assert (qpow b (ln - ld - 1) * qpow b (ld + 1) == qpow b ln).
    { rewrite <- qpow_plus by assumption. replace (ln - ld - 1 + (ld + 1))%Z with ln by lia. reflexivity. }
    assert (q * D <= qpow b (ln - ld - 1) * D) by (apply Qmult_le_compat_r; lra).
    pose proof (qpow_pos b (ln - ld - 1) Hb). nra. }
  destruct (Qle_bool (qpow b (ln - ld)) q) eqn:E.
  - apply Qle_bool_iff in E. split; assumption.
  - assert (~ qpow b (ln - ld) <= q) by (intros H; apply Qle_bool_iff in H; congruence).
    replace (ln - ld - 1 + 1)%Z with (ln - ld)%Z by lia. split; [lra|].
    apply Qnot_le_lt. assumption.
Qed.

(** ** Rounding to an integer *)

Lemma hround_cases q :
  (hround q = Qfloor q /\ q - inject_Z (Qfloor q) <= 1 # 2) \/
  (hround q = (Qfloor q + 1)%Z /\ 1 # 2 <= q - inject_Z (Qfloor q)).
Proof.
  unfold hround. destruct (Qcompare_spec (q - inject_Z (Qfloor q)) (1 # 2)) as [E|E|E].
  - destruct (Z.even _); [left|right]; split; auto; lra.
  - left. split; [auto|lra].
  - right. split; [auto|lra].
Qed.

Lemma Qfloor_bounds q : inject_Z (Qfloor q) <= q < inject_Z (Qfloor q) + 1.
Proof.
  split; [apply Qfloor_le|]. pose proof (Qlt_floor q) as H.
  rewrite inject_Z_plus in H. exact H.
Qed.

Lemma hround_error q : - (1 # 2) <= inject_Z (hround q) - q <= 1 # 2.
Proof.
  pose proof (Qfloor_bounds q).
  destruct (hround_cases q) as [[-> H1]|[-> H1]].
  - lra.
  - rewrite inject_Z_plus. change (inject_Z 1) with 1. lra.
Qed.

Lemma Qfloor_unique q k : inject_Z k <= q -> q < inject_Z k + 1 -> Qfloor q = k.
Proof.
  intros H1 H2. pose proof (Qfloor_bounds q) as [H3 H4].
  assert (inject_Z k < inject_Z (Qfloor q + 1)) as H5 by (rewrite inject_Z_plus; change (inject_Z 1) with 1; lra).
  assert (inject_Z (Qfloor q) < inject_Z (k + 1)) as H6 by (rewrite inject_Z_plus; change (inject_Z 1) with 1; lra).
  rewrite <- Zlt_Qlt in H5, H6. lia.
Qed.

Lemma Qfloor_inj_Z z : Qfloor (inject_Z z) = z.
Proof. apply Qfloor_Z. Qed.

Lemma Qfloor_ext p q : p == q -> Qfloor p = Qfloor q.
Proof. apply Qfloor_comp. Qed.

Lemma hround_ext p q : p == q -> hround p = hround q.
Proof.
  intros E. unfold hround. rewrite (Qfloor_ext p q E).
  assert (p - inject_Z (Qfloor q) == q - inject_Z (Qfloor q)) as E2 by lra.
  destruct (Qcompare_spec (p - inject_Z (Qfloor q)) (1 # 2)) as [H|H|H];
  destruct (Qcompare_spec (q - inject_Z (Qfloor q)) (1 # 2)) as [H'|H'|H']; auto; lra.
Qed.

Lemma hround_Z z : hround (inject_Z z) = z.
Proof.
  destruct (hround_cases (inject_Z z)) as [[-> H]|[-> H]]; rewrite Qfloor_inj_Z in *; auto.
  exfalso. lra.
Qed.

Lemma hround_mono p q : p <= q -> (hround p <= hround q)%Z.
Proof.
  intros Hpq.
  pose proof (Qfloor_resp_le p q Hpq) as Hf.
  destruct (Z.eq_dec (Qfloor p) (Qfloor q)) as [E|E].
  - unfold hround. rewrite E.
    destruct (Qcompare_spec (p - inject_Z (Qfloor q)) (1 # 2)) as [H|H|H];
    destruct (Qcompare_spec (q - inject_Z (Qfloor q)) (1 # 2)) as [H'|H'|H'];
      try (destruct (Z.even (Qfloor q))); try lia; exfalso; lra.
  - destruct (hround_cases p) as [[-> _]|[-> _]];
    destruct (hround_cases q) as [[-> _]|[-> _]]; lia.
Qed.

(** Nearest, ties to even: the specification of [hround]. *)
Lemma hround_nearest q k : Qabs (inject_Z (hround q) - q) <= Qabs (inject_Z k - q).
Proof.
  pose proof (hround_error q) as [H1 H2].
  assert (Qabs (inject_Z (hround q) - q) <= 1 # 2) as Ha by (apply Qabs_Qle_condition; lra).
  destruct (Z.eq_dec k (hround q)) as [->|Hne]; [apply Qle_refl|].
  eapply Qle_trans; [exact Ha|].
  destruct (Z_lt_le_dec k (hround q)) as [Hlt|Hge].
  - assert (inject_Z (k + 1) <= inject_Z (hround q)) as H by (rewrite <- Zle_Qle; lia).
    rewrite inject_Z_plus in H. change (inject_Z 1) with 1 in H.
    rewrite Qabs_neg by lra. lra.
  - assert (inject_Z (hround q + 1) <= inject_Z k) as H by (rewrite <- Zle_Qle; lia).
    rewrite inject_Z_plus in H. change (inject_Z 1) with 1 in H.
    rewrite Qabs_pos by lra. lra.
Qed.

Lemma hround_tie_even q :
  q - inject_Z (Qfloor q) == 1 # 2 -> Z.even (hround q) = true.
Proof.
  intros H. unfold hround.
  destruct (Qcompare_spec (q - inject_Z (Qfloor q)) (1 # 2)) as [E|E|E]; [|lra|lra].
  destruct (Z.even (Qfloor q)) eqn:Ev; auto.
  rewrite Z.even_add, Ev. reflexivity.
Qed.

(** ** Rounding to significant digits *)

Section Rnd.
Variables b p : Z.
Hypothesis Hb : (2 <= b)%Z.
Hypothesis Hp : (1 <= p)%Z.

Let ulp (q : Q) := qpow b (flog b q - (p - 1)).

Lemma ulp_pos q : 0 < ulp q.
Proof. apply qpow_pos, Hb. Qed.

(** the mantissa [q / ulp] lies in [b^(p-1), b^p) *)
Lemma mant_bounds q : 0 < q ->
  inject_Z (b ^ (p - 1)) <= q / ulp q /\ q / ulp q < inject_Z (b ^ p).
Proof.
  intros Hq. destruct (flog_spec b q Hb Hq) as [H1 H2].
  pose proof (ulp_pos q) as Hu.
  assert (E : q / ulp q * ulp q == q) by (field; lra).
  assert (E1 : inject_Z (b ^ (p - 1)) * ulp q == qpow b (flog b q)).
  { rewrite <- qpow_nonneg by lia. unfold ulp. rewrite <- qpow_plus by assumption.
    replace (p - 1 + (flog b q - (p - 1)))%Z with (flog b q) by lia. reflexivity. }
  assert (E2 : inject_Z (b ^ p) * ulp q == qpow b (flog b q + 1)).
  { rewrite <- qpow_nonneg by lia. unfold ulp. rewrite <- qpow_plus by assumption.
    replace (p + (flog b q - (p - 1)))%Z with (flog b q + 1)%Z by lia. reflexivity. }
  split.
  - apply (Qmult_le_r _ _ (ulp q)); [assumption|]. lra.
  - apply (Qmult_lt_r _ _ (ulp q)); [assumption|]. lra.
Qed.

Lemma rnd_pos_bounds q : 0 < q ->
  qpow b (flog b q) <= rnd_pos b p q /\ rnd_pos b p q <= qpow b (flog b q + 1).
Proof.
  intros Hq. destruct (mant_bounds q Hq) as [H1 H2].
  pose proof (ulp_pos q) as Hu.
  unfold rnd_pos. fold (ulp q).
  assert (h1 : (b ^ (p - 1) <= hround (q / ulp q))%Z).
  { rewrite <- (hround_Z (b ^ (p - 1))). apply hround_mono. assumption. }
  assert (h2 : (hround (q / ulp q) <= b ^ p)%Z).
  { rewrite <- (hround_Z (b ^ p)). apply hround_mono. lra. }
  assert (E1 : inject_Z (b ^ (p - 1)) * ulp q == qpow b (flog b q)).
  { rewrite <- qpow_nonneg by lia. unfold ulp. rewrite <- qpow_plus by assumption.
    replace (p - 1 + (flog b q - (p - 1)))%Z with (flog b q) by lia. reflexivity. }
  assert (E2 : inject_Z (b ^ p) * ulp q == qpow b (flog b q + 1)).
  { rewrite <- qpow_nonneg by lia. unfold ulp. rewrite <- qpow_plus by assumption.
    replace (p + (flog b q - (p - 1)))%Z with (flog b q + 1)%Z by lia. reflexivity. }
  rewrite Zle_Qle in h1, h2.
  split.
  - rewrite <- E1. apply Qmult_le_compat_r; lra.
  - rewrite <- E2. apply Qmult_le_compat_r; lra.
Qed.

Lemma flog_mono x y : 0 < x -> x <= y -> (flog b x <= flog b y)%Z.
Proof.
  intros Hx Hxy. destruct (flog_spec b x Hb Hx) as [H1 _].
  destruct (flog_spec b y Hb ltac:(lra)) as [_ H2].
  assert (qpow b (flog b x) < qpow b (flog b y + 1)) as H by lra.
  apply (qpow_lt_inv b _ _ Hb) in H. lia.
Qed.

Lemma flog_ext x y : 0 < x -> x == y -> flog b x = flog b y.
Proof.
  intros Hx E. apply Z.le_antisymm; apply flog_mono; lra.
Qed.

Lemma rnd_pos_mono x y : 0 < x -> x <= y -> rnd_pos b p x <= rnd_pos b p y.
Proof.
  intros Hx Hxy. pose proof (flog_mono x y Hx Hxy) as Hf.
  destruct (Z.eq_dec (flog b x) (flog b y)) as [E|E].
  - unfold rnd_pos. rewrite E. set (u := qpow b (flog b y - (p - 1))).
    assert (0 < u) as Hu by (apply qpow_pos, Hb).
    apply Qmult_le_compat_r; [|lra].
    rewrite <- Zle_Qle. apply hround_mono.
    apply Qle_shift_div_l; [assumption|].
    assert (x / u * u == x) as Ex by (field; lra). lra.
  - destruct (rnd_pos_bounds x Hx) as [_ H1].
    destruct (rnd_pos_bounds y ltac:(lra)) as [H2 _].
    assert (qpow b (flog b x + 1) <= qpow b (flog b y)) by (apply qpow_le; [assumption|lia]).
    lra.
Qed.

Lemma rnd_pos_pos x : 0 < x -> 0 < rnd_pos b p x.
Proof.
  intros Hx. destruct (rnd_pos_bounds x Hx) as [H _].
  pose proof (qpow_pos b (flog b x) Hb). lra.
Qed.

(** relative error at most half an ulp *)
Lemma rnd_pos_error x : 0 < x ->
  Qabs (rnd_pos b p x - x) <= (1 # 2) * qpow b (1 - p) * x.
Proof.
  intros Hx. unfold rnd_pos. fold (ulp x). pose proof (ulp_pos x) as Hu.
  set (m := x / ulp x).
  assert (Em : m * ulp x == x) by (unfold m; field; lra).
  pose proof (hround_error m) as [H1 H2].
  assert (E : inject_Z (hround m) * ulp x - x == (inject_Z (hround m) - m) * ulp x) by lra.
  rewrite E.
  assert (Hux : ulp x <= qpow b (1 - p) * x).
  { destruct (flog_spec b x Hb Hx) as [H3 _]. unfold ulp.
    replace (flog b x - (p - 1))%Z with (1 - p + flog b x)%Z by lia.
    rewrite qpow_plus by assumption.
    pose proof (qpow_pos b (1 - p) Hb). nra. }
  apply Qabs_Qle_condition. split; nra.
Qed.

(** exact on multiples of the unit in the last place *)
Lemma rnd_pos_exact x k e : 0 < x -> x == inject_Z k * qpow b e ->
  (Z.abs k <= b ^ p)%Z -> rnd_pos b p x == x.
Proof.
  intros Hx Ex Hk.
  assert (Hk0 : (0 < k)%Z).
  { pose proof (qpow_pos b e Hb). destruct (Z_lt_le_dec 0 k) as [|Hle]; [assumption|].
    assert (inject_Z k <= inject_Z 0) as Hc by (rewrite <- Zle_Qle; lia).
    change (inject_Z 0) with 0 in Hc. nra. }
  (* the rounded value is x whenever x / ulp is an integer *)
  assert (Hint : forall z, x / ulp x == inject_Z z -> rnd_pos b p x == x).
  { intros z Hz. unfold rnd_pos. fold (ulp x).
    rewrite (hround_ext _ _ Hz), hround_Z, <- Hz. field. pose proof (ulp_pos x). lra. }
  destruct (flog_spec b x Hb Hx) as [H1 H2].
  destruct (Z_lt_le_dec k (b ^ p)) as [Hlt|Hge].
  - (* flog x <= e + p - 1 so ulp divides b^e *)
    assert (Hf : (flog b x <= e + p - 1)%Z).
    { assert (qpow b (flog b x) < qpow b (e + p)) as H.
      { rewrite (Z.add_comm e p), qpow_plus, (qpow_nonneg b p) by (try assumption; lia).
        rewrite Zlt_Qlt in Hlt. pose proof (qpow_pos b e Hb). nra. }
      apply (qpow_lt_inv b _ _ Hb) in H. lia. }
    apply (Hint (k * b ^ (e - (flog b x - (p - 1))))%Z).
    rewrite inject_Z_mult, <- qpow_nonneg by (try assumption; lia).
    assert (qpow b e == qpow b (e - (flog b x - (p - 1))) * ulp x) as Ee.
    { unfold ulp. rewrite <- qpow_plus by assumption.
      replace (e - (flog b x - (p - 1)) + (flog b x - (p - 1)))%Z with e by lia. reflexivity. }
    rewrite Ex at 1. rewrite Ee. field. pose proof (ulp_pos x). lra.
  - assert (k = b ^ p)%Z as -> by lia.
    (* x = b^(p+e) *)
    assert (Ex2 : x == qpow b (p + e)).
    { rewrite qpow_plus, (qpow_nonneg b p) by (try assumption; lia). assumption. }
    assert (Hf : flog b x = (p + e)%Z).
    { assert (qpow b (flog b x) < qpow b (p + e + 1)) as Ha.
      { rewrite qpow_plus by assumption. rewrite <- Ex2, qpow_1.
        assert (inject_Z 2 <= inject_Z b) as H3 by (rewrite <- Zle_Qle; assumption).
        change (inject_Z 2) with 2 in H3. nra. }
      assert (qpow b (p + e) < qpow b (flog b x + 1)) as Hc by lra.
      apply (qpow_lt_inv b _ _ Hb) in Ha, Hc. lia. }
    apply (Hint (b ^ (p - 1))%Z).
    rewrite <- qpow_nonneg by lia. unfold ulp. rewrite Hf.
    rewrite Ex2 at 1.
    pose proof (qpow_pos b (p + e - (p - 1)) Hb).
    rewrite <- (Qmult_inj_r _ _ (qpow b (p + e - (p - 1)))) by lra.
    rewrite <- qpow_plus by assumption.
    replace (p - 1 + (p + e - (p - 1)))%Z with (p + e)%Z by lia. field. lra.
Qed.

Lemma rnd_ext x y : x == y -> rnd b p x = rnd b p y.
Proof. intros E. unfold rnd. rewrite (Qred_complete _ _ E). reflexivity. Qed.

Lemma rnd_unfold_pos x : 0 < x -> rnd b p x == rnd_pos b p (Qred x).
Proof.
  intros Hx. unfold rnd. pose proof (Qred_correct x) as E.
  destruct (Qcompare_spec (Qred x) 0) as [H|H|H]; [lra|lra|]. apply Qred_correct.
Qed.

Lemma rnd_unfold_neg x : x < 0 -> rnd b p x == - rnd_pos b p (- Qred x).
Proof.
  intros Hx. unfold rnd. pose proof (Qred_correct x) as E.
  destruct (Qcompare_spec (Qred x) 0) as [H|H|H]; [lra| |lra]. apply Qred_correct.
Qed.

Lemma rnd_unfold_0 x : x == 0 -> rnd b p x == 0.
Proof.
  intros Hx. unfold rnd. pose proof (Qred_correct x) as E.
  destruct (Qcompare_spec (Qred x) 0) as [H|H|H]; [|lra|lra]. apply Qred_correct.
Qed.

Lemma rnd_mono x y : x <= y -> rnd b p x <= rnd b p y.
Proof.
  intros Hxy.
  pose proof (Qred_correct x) as Ex. pose proof (Qred_correct y) as Ey.
  destruct (Qcompare_spec x 0) as [Hx|Hx|Hx]; destruct (Qcompare_spec y 0) as [Hy|Hy|Hy]; try (exfalso; lra).
  - rewrite (rnd_unfold_0 x), (rnd_unfold_0 y) by assumption. lra.
  - rewrite (rnd_unfold_0 x), (rnd_unfold_pos y) by assumption.
    pose proof (rnd_pos_pos (Qred y)). lra.
  - rewrite (rnd_unfold_0 y), (rnd_unfold_neg x) by assumption.
    pose proof (rnd_pos_pos (- Qred x)). lra.
  - rewrite (rnd_unfold_neg x), (rnd_unfold_neg y) by assumption.
    assert (rnd_pos b p (- Qred y) <= rnd_pos b p (- Qred x)) by (apply rnd_pos_mono; lra). lra.
  - rewrite (rnd_unfold_neg x), (rnd_unfold_pos y) by assumption.
    pose proof (rnd_pos_pos (- Qred x)). pose proof (rnd_pos_pos (Qred y)). lra.
  - rewrite (rnd_unfold_pos x), (rnd_unfold_pos y) by assumption.
    apply rnd_pos_mono; lra.
Qed.

Lemma rnd_pos_ext x y : 0 < x -> x == y -> rnd_pos b p x == rnd_pos b p y.
Proof.
  intros Hx E. apply Qle_antisym; apply rnd_pos_mono; lra.
Qed.

Lemma rnd_opp x : rnd b p (- x) == - rnd b p x.
Proof.
  pose proof (Qred_correct x) as Ex. pose proof (Qred_correct (- x)) as Ex'.
  destruct (Qcompare_spec x 0) as [H|H|H].
  - rewrite (rnd_unfold_0 x), (rnd_unfold_0 (- x)) by lra. lra.
  - rewrite (rnd_unfold_neg x), (rnd_unfold_pos (- x)) by lra.
    rewrite Qopp_involutive. apply rnd_pos_ext; lra.
  - rewrite (rnd_unfold_pos x), (rnd_unfold_neg (- x)) by lra.
    rewrite (rnd_pos_ext (- Qred (- x)) (Qred x)) by lra. lra.
Qed.

(** any number with at most [p] digits is represented exactly *)
Lemma rnd_exact x k e : x == inject_Z k * qpow b e -> (Z.abs k <= b ^ p)%Z -> rnd b p x == x.
Proof.
  intros Ex Hk. pose proof (Qred_correct x) as E.
  destruct (Qcompare_spec x 0) as [H|H|H].
  - rewrite rnd_unfold_0 by assumption. lra.
  - rewrite rnd_unfold_neg by assumption.
    rewrite (rnd_pos_exact (- Qred x) (- k)%Z e); [lra|lra| |lia].
    rewrite inject_Z_opp. rewrite E, Ex. lra.
  - rewrite rnd_unfold_pos by assumption.
    rewrite (rnd_pos_exact (Qred x) k e); [lra|lra| |lia]. rewrite E, Ex. lra.
Qed.

Lemma rnd_int z : (Z.abs z <= b ^ p)%Z -> rnd b p (inject_Z z) == inject_Z z.
Proof.
  intros Hz. apply (rnd_exact _ z 0); [|assumption]. rewrite qpow_0. lra.
Qed.

Lemma rnd_error x : Qabs (rnd b p x - x) <= (1 # 2) * qpow b (1 - p) * Qabs x.
Proof.
  pose proof (Qred_correct x) as E.
  destruct (Qcompare_spec x 0) as [H|H|H].
  - assert (rnd b p x - x == 0) as E0 by (rewrite rnd_unfold_0 by assumption; lra).
    rewrite E0, H. change (Qabs 0) with 0. lra.
  - assert (E0 : rnd b p x - x == - (rnd_pos b p (- Qred x) - (- Qred x))).
    { rewrite rnd_unfold_neg by assumption. lra. }
    rewrite E0, Qabs_opp. rewrite (Qabs_neg x) by lra.
    eapply Qle_trans; [apply rnd_pos_error; lra|].
    rewrite E. lra.
  - assert (E0 : rnd b p x - x == rnd_pos b p (Qred x) - Qred x).
    { rewrite rnd_unfold_pos by assumption. lra. }
    rewrite E0. rewrite (Qabs_pos x) by lra.
    eapply Qle_trans; [apply rnd_pos_error; lra|].
    rewrite E. lra.
Qed.
End Rnd.

(** ** What the theorems assume of an arithmetic context *)

Record sane (A : arith) : Prop := Sane {
  rd_ext : forall x y, x == y -> rd A x = rd A y;
  rd_mono : forall x y, x <= y -> rd A x <= rd A y;
  rd_int : forall z, (Z.abs z <= 10 ^ 28)%Z -> rd A (inject_Z z) == inject_Z z;
  rd_opp : forall x, rd A (- x) == - rd A x;
  rd_err : forall x, Qabs (rd A x - x) <= (1 # 2) * qpow 10 (-27) * Qabs x;
  rf_ext : forall x y, x == y -> rf A x = rf A y;
  rf_mono : forall x y, x <= y -> rf A x <= rf A y;
  rf_int : forall z, (Z.abs z <= 2 ^ 53)%Z -> rf A (inject_Z z) == inject_Z z;
  rf_opp : forall x, rf A (- x) == - rf A x;
  rf_err : forall x, Qabs (rf A x - x) <= (1 # 2) * qpow 2 (-52) * Qabs x;
  r2_ext : forall x y, x == y -> r2 A x = r2 A y;
  r2_mono : forall x y, x <= y -> r2 A x <= r2 A y;
  r2_int : forall z, (Z.abs z <= 10 ^ 28)%Z -> r2 A (inject_Z z) == inject_Z z;
  r2_err : forall x, Qabs (r2 A x - x) <= qpow 10 (-27) * Qabs x
}.

Lemma Qabs_0 x : x == 0 -> Qabs x == 0.
Proof. intros E. setoid_rewrite E. reflexivity. Qed.

Lemma sane_exactA : sane exactA.
Proof.
  assert (HE : forall x c, 0 <= c -> Qabs (Qred x - x) <= c * Qabs x).
  { intros x c Hc. setoid_replace (Qred x - x) with 0 by (rewrite Qred_correct; lra).
    cbn [Qabs]. apply Qmult_le_0_compat; [assumption|apply Qabs_nonneg]. }
  split; cbn [exactA rd rf r2]; intros.
  - apply Qred_complete; assumption.
  - rewrite !Qred_correct; assumption.
  - apply Qred_correct.
  - rewrite !Qred_correct; lra.
  - apply HE. cbv. congruence.
  - apply Qred_complete; assumption.
  - rewrite !Qred_correct; assumption.
  - apply Qred_correct.
  - rewrite !Qred_correct; lra.
  - apply HE. cbv. congruence.
  - apply Qred_complete; assumption.
  - rewrite !Qred_correct; assumption.
  - apply Qred_correct.
  - apply HE. cbv. congruence.
Qed.

Lemma Qabs_tri x y : Qabs (x + y) <= Qabs x + Qabs y.
Proof. apply Qabs_triangle. Qed.

(** Two roundings in a row. *)
Lemma rnd_twice_error x :
  Qabs (rnd 10 28 (rnd 10 31 x) - x) <= qpow 10 (-27) * Qabs x.
Proof.
  pose proof (rnd_error 10 31 ltac:(lia) x) as H1.
  pose proof (rnd_error 10 28 ltac:(lia) (rnd 10 31 x)) as H2.
  set (y := rnd 10 31 x) in *. set (z := rnd 10 28 y) in *.
  assert (Hy : Qabs y <= Qabs x + Qabs (y - x)).
  { setoid_replace y with (x + (y - x)) at 1 by lra. apply Qabs_triangle. }
  assert (Hz : Qabs (z - x) <= Qabs (z - y) + Qabs (y - x)).
  { setoid_replace (z - x) with ((z - y) + (y - x)) by lra. apply Qabs_triangle. }
  let c := eval vm_compute in (qpow 10 (1 - 31)) in change (qpow 10 (1 - 31)) with c in H1.
  let c := eval vm_compute in (qpow 10 (1 - 28)) in change (qpow 10 (1 - 28)) with c in H2.
  let c := eval vm_compute in (qpow 10 (- 27)) in change (qpow 10 (- 27)) with c.
  pose proof (Qabs_nonneg x). lra.
Qed.

Lemma sane_pyA : sane pyA.
Proof.
  split; cbn [pyA rd rf r2]; unfold dec28, flt53, sq28; intros.
  - apply rnd_ext; assumption.
  - apply rnd_mono; [lia|lia|assumption].
  - apply rnd_int; [lia|lia|assumption].
  - apply rnd_opp; lia.
  - apply (rnd_error 10 28); lia.
  - apply rnd_ext; assumption.
  - apply rnd_mono; [lia|lia|assumption].
  - apply rnd_int; [lia|lia|assumption].
  - apply rnd_opp; lia.
  - apply (rnd_error 2 53); lia.
  - apply rnd_ext. rewrite (rnd_ext 10 31 x y); [reflexivity|assumption].
  - apply rnd_mono; [lia|lia|]. apply rnd_mono; [lia|lia|assumption].
  - rewrite (rnd_ext 10 28 _ (inject_Z z)).
    + apply rnd_int; [lia|lia|assumption].
    + apply rnd_int; [lia|lia|lia].
  - apply rnd_twice_error.
Qed.

(** [dec_sqrt] is the nearest multiple of its last digit. *)
Lemma dec_sqrt_spec q : 0 < q ->
  exists u, 0 < u /\ u * qpow 10 27 <= dec_sqrt q /\
    (dec_sqrt q - u * (1 # 2)) * (dec_sqrt q - u * (1 # 2)) <= q /\
    q <= (dec_sqrt q + u * (1 # 2)) * (dec_sqrt q + u * (1 # 2)).
Proof.
  intros Hq. unfold dec_sqrt.
  set (p := Qred q). assert (Ep : p == q) by apply Qred_correct.
  assert (Hp : 0 < p) by (rewrite Ep; assumption).
  destruct (Qle_bool p 0) eqn:E; [apply Qle_bool_iff in E; lra|].
  set (e := (flog 10 p / 2)%Z). set (u := qpow 10 (e - 27)).
  assert (Hu : 0 < u) by (apply qpow_pos; lia).
  set (m := (p / (u * u))%Q). set (s := Z.sqrt (Qfloor m)).
  assert (Hm : p == m * (u * u)) by (unfold m; field; lra).
  destruct (flog_spec 10 p ltac:(lia) Hp) as [Hl Hh].
  assert (Hm1 : qpow 10 54 <= m).
  { unfold m. apply Qle_shift_div_l; [nra|].
    unfold u. rewrite <- qpow_plus by lia. rewrite <- qpow_plus by lia.
    eapply Qle_trans; [|exact Hl]. apply qpow_le; [lia|].
    pose proof (Z.mul_div_le (flog 10 p) 2 ltac:(lia)). fold e in H. lia. }
  assert (Hf0 : (10 ^ 54 <= Qfloor m)%Z).
  { change (10 ^ 54)%Z with (Qfloor (qpow 10 54)). apply Qfloor_resp_le. exact Hm1. }
  pose proof (Z.sqrt_spec (Qfloor m) ltac:(lia)) as [Hs1 Hs2]. fold s in Hs1, Hs2.
  assert (Hs0 : (10 ^ 27 <= s)%Z).
  { change (10 ^ 27)%Z with (Z.sqrt (10 ^ 54)). apply Z.sqrt_le_mono. exact Hf0. }
  destruct (Qfloor_bounds m) as [Hf1 Hf2].
  assert (B1 : inject_Z s * inject_Z s <= m).
  { rewrite <- inject_Z_mult. eapply Qle_trans; [|exact Hf1]. rewrite <- Zle_Qle. lia. }
  assert (B2 : m < (inject_Z s + 1) * (inject_Z s + 1)).
  { eapply Qlt_le_trans; [exact Hf2|].
    change 1 with (inject_Z 1). rewrite <- !inject_Z_plus, <- inject_Z_mult.
    rewrite <- Zle_Qle. lia. }
  assert (Hs : inject_Z (10 ^ 27) <= inject_Z s) by (rewrite <- Zle_Qle; lia).
  change (inject_Z (10 ^ 27)) with (qpow 10 27) in Hs.
  set (h := inject_Z s + (1 # 2)).
  set (r := match m ?= h * h with Eq => if Z.even s then s else (s + 1)%Z
            | Lt => s | Gt => (s + 1)%Z end).
  assert (Hr : (r = s /\ m <= h * h) \/ (r = (s + 1)%Z /\ h * h <= m)).
  { unfold r. destruct (Qcompare_spec m (h * h)) as [C|C|C].
    - destruct (Z.even s); [left|right]; split; auto; rewrite C; apply Qle_refl.
    - left; split; auto. apply Qlt_le_weak; assumption.
    - right; split; auto. apply Qlt_le_weak; assumption. }
  exists u. split; [assumption|].
  assert (R0 : Qred (inject_Z r * u) == inject_Z r * u) by apply Qred_correct.
  rewrite R0, <- Ep, Hm.
  assert (Hc : forall x, (x * u + u * (1 # 2)) * (x * u + u * (1 # 2)) == (x + (1 # 2)) * (x + (1 # 2)) * (u * u)).
  { intros; ring. }
  assert (Hd : forall x, (x * u - u * (1 # 2)) * (x * u - u * (1 # 2)) == (x - (1 # 2)) * (x - (1 # 2)) * (u * u)).
  { intros; ring. }
  rewrite Hc, Hd.
  assert (Huu : 0 < u * u) by nra.
  assert (T : 1 <= qpow 10 27) by (apply qpow_ge_1; lia).
  destruct Hr as [[-> Hr]|[-> Hr]].
  - unfold h in Hr. split; [|split].
    + rewrite Qmult_comm. apply Qmult_le_compat_r; lra.
    + apply Qmult_le_compat_r; [|lra]. nra.
    + apply Qmult_le_compat_r; [|lra]. nra.
  - unfold h in Hr. rewrite inject_Z_plus. change (inject_Z 1) with 1. split; [|split].
    + rewrite Qmult_comm. apply Qmult_le_compat_r; lra.
    + apply Qmult_le_compat_r; [|lra].
      setoid_replace (inject_Z s + 1 - (1 # 2)) with (inject_Z s + (1 # 2)) by lra. exact Hr.
    + apply Qmult_le_compat_r; [|lra]. nra.
Qed.
