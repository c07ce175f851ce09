(** Rounding meets its specification. *)
From Coq Require Import Lqa.
From Verif Require Export SpecMath RoundProofs.
From Verif Require Import Round.
Open Scope Q_scope.

Section Rnd.
Context (b p : Z) (Hb : (2 <= b)%Z) (Hp : (1 <= p)%Z).

Lemma qpow_split e f : qpow b (e + f) == qpow b e * qpow b f.
Proof. apply qpow_plus, Hb. Qed.

Lemma digits_full k e : (Z.abs k <= b ^ p)%Z -> digits_in b p (inject_Z k * qpow b e).
Proof.
  intros H. destruct (Z.eq_dec (Z.abs k) (b ^ p)%Z) as [E|E]; [|exists k, e; split; [lia|reflexivity]].
  assert (P : (b ^ p = b * b ^ (p - 1))%Z) by (rewrite <- Z.pow_succ_r by lia; f_equal; lia).
  assert (Q : (0 < b ^ (p - 1))%Z) by (apply Z.pow_pos_nonneg; lia).
  exists (Z.sgn k * b ^ (p - 1))%Z, (e + 1)%Z. split.
  - rewrite Z.abs_mul, (Z.abs_eq (b ^ (p - 1))%Z) by lia. destruct k; cbn [Z.sgn Z.abs] in *; nia.
  - rewrite qpow_split, qpow_1. replace k with (Z.sgn k * b ^ (p - 1) * b)%Z at 1; [rewrite (inject_Z_mult _ b); ring|].
    destruct k; cbn [Z.sgn Z.abs] in *; nia.
Qed.

Lemma hround_tie x k : Qabs (inject_Z k - x) == Qabs (inject_Z (hround x) - x) -> k <> hround x -> Z.even (hround x) = true.
Proof.
  intros E Hne. apply hround_tie_even. pose proof (Qfloor_bounds x) as [F1 F2]. pose proof (hround_error x) as [E1 E2].
  assert (Ha : Qabs (inject_Z (hround x) - x) <= 1 # 2) by (apply Qabs_Qle_condition; lra).
  assert (Hk : Qabs (inject_Z k - x) <= 1 # 2) by (rewrite E; exact Ha). apply Qabs_Qle_condition in Hk.
  assert (Hd : (k = hround x + 1 \/ k = hround x - 1)%Z).
  { assert (B1 : inject_Z k <= inject_Z (hround x + 1)) by (rewrite inject_Z_plus; change (inject_Z 1) with 1; lra).
    assert (B2 : inject_Z (hround x - 1) <= inject_Z k) by (unfold Z.sub; rewrite inject_Z_plus; change (inject_Z (- (1))) with (-(1)); lra).
    rewrite <- Zle_Qle in B1, B2. lia. }
  destruct (hround_cases x) as [[H1 H2]|[H1 H2]]; rewrite H1 in *.
  - destruct Hd as [-> | ->].
    + rewrite inject_Z_plus in *. change (inject_Z 1) with 1 in *. lra.
    + unfold Z.sub in *. rewrite inject_Z_plus in *. change (inject_Z (- (1))) with (-(1)) in *. lra.
  - destruct Hd as [-> | ->].
    + rewrite !inject_Z_plus in *. change (inject_Z 1) with 1 in *. lra.
    + replace (Qfloor x + 1 - 1)%Z with (Qfloor x) in * by lia. lra.
Qed.

Lemma qabs_scale u x : 0 < u -> Qabs (x * u) == Qabs x * u.
Proof. intros H. rewrite Qabs_Qmult, (Qabs_pos u); [reflexivity|lra]. Qed.

Lemma rounded_pos x : 0 < x -> rounded b p x (rnd_pos b p x).
Proof.
  intros Hx. unfold rnd_pos. set (f := (flog b x - (p - 1))%Z). set (u := qpow b f).
  assert (Hu : 0 < u) by (apply qpow_pos, Hb). destruct (mant_bounds b p Hb Hp x Hx) as [M1 M2]. fold f u in M1, M2.
  set (m := x / u) in *. assert (Em : x == m * u) by (unfold m; field; lra).
  assert (h1 : (b ^ (p - 1) <= hround m)%Z). { rewrite <- (hround_Z (b ^ (p - 1))%Z). apply hround_mono. assumption. }
  assert (h2 : (hround m <= b ^ p)%Z). { rewrite <- (hround_Z (b ^ p)%Z). apply hround_mono. lra. }
  assert (Q1 : (0 < b ^ (p - 1))%Z) by (apply Z.pow_pos_nonneg; lia).
  assert (D : forall k, Qabs (inject_Z k * u - x) == Qabs (inject_Z k - m) * u).
  { intros k. rewrite <- qabs_scale by exact Hu. apply Qabs_wd. rewrite Em. ring. }
  assert (BB : inject_Z (b ^ (p - 1)) * u <= x) by (rewrite Em; apply Qmult_le_compat_r; lra).
  (** every number of p digits is a multiple of u, or below b^(p-1) u *)
  assert (C : forall y, digits_in b p y -> (exists k, y == inject_Z k * u) \/ y <= inject_Z (b ^ (p - 1)) * u).
  { intros y (k & e & Hk & Hy). destruct (Z_le_gt_dec f e) as [L|L].
    - left. exists (k * b ^ (e - f))%Z. rewrite Hy, inject_Z_mult, <- qpow_nonneg by lia. unfold u. rewrite <- Qmult_assoc, <- qpow_split. replace (e - f + f)%Z with e by lia. reflexivity.
    - right. assert (P : (b ^ p = b * b ^ (p - 1))%Z) by (rewrite <- Z.pow_succ_r by lia; f_equal; lia).
      assert (He : qpow b e * inject_Z b <= u). { rewrite <- qpow_1, <- qpow_split. apply qpow_le; [exact Hb|lia]. }
      assert (H0 : 0 < qpow b e) by (apply qpow_pos, Hb).
      rewrite Hy. apply Qle_trans with (inject_Z (b ^ p) * qpow b e).
      + apply Qmult_le_compat_r; [|lra]. rewrite <- Zle_Qle. lia.
      + rewrite P, inject_Z_mult. setoid_replace (inject_Z b * inject_Z (b ^ (p - 1)) * qpow b e) with ((qpow b e * inject_Z b) * inject_Z (b ^ (p - 1))) by ring.
        rewrite (Qmult_comm (inject_Z (b ^ (p - 1)))). apply Qmult_le_compat_r; [exact He|]. change 0 with (inject_Z 0). rewrite <- Zle_Qle. lia. }
  assert (N : forall k, Qabs (inject_Z (hround m) * u - x) <= Qabs (inject_Z k * u - x)).
  { intros k. rewrite !D. apply Qmult_le_compat_r; [apply hround_nearest|lra]. }
  split; [apply digits_full; lia|]. split.
  - intros y Hy. destruct (C y Hy) as [[k E]|L].
    + rewrite E. apply N.
    + eapply Qle_trans; [apply (N (b ^ (p - 1))%Z)|]. rewrite (Qabs_neg (inject_Z (b ^ (p - 1)) * u - x)) by lra. rewrite (Qabs_neg (y - x)) by lra. lra.
  - intros y Hy Ed Hne. assert (K : exists k, y == inject_Z k * u).
    { destruct (C y Hy) as [K|L]; [exact K|]. exists (b ^ (p - 1))%Z. pose proof (N (b ^ (p - 1))%Z) as H. rewrite <- Ed in H.
      rewrite (Qabs_neg (inject_Z (b ^ (p - 1)) * u - x)) in H by lra. rewrite (Qabs_neg (y - x)) in H by lra. lra. }
    destruct K as [k E]. exists (hround m), f. split; [reflexivity|]. split; [lia|]. apply (hround_tie m k).
    + rewrite E in Ed. rewrite !D in Ed. apply Qmult_inj_r in Ed; [exact Ed|lra].
    + intros ->. apply Hne, E.
Qed.

Lemma digits_opp x : digits_in b p x -> digits_in b p (- x).
Proof. intros (k & e & H & E). exists (- k)%Z, e. split; [lia|]. rewrite E, inject_Z_opp. ring. Qed.
Lemma digits_ext x y : x == y -> digits_in b p x -> digits_in b p y.
Proof. intros Exy (k & e & H & E). exists k, e. split; [exact H|]. rewrite <- Exy. exact E. Qed.

Lemma rounded_ext x x' r r' : x == x' -> r == r' -> rounded b p x r -> rounded b p x' r'.
Proof.
  intros Ex Er (H1 & H2 & H3). split; [eapply digits_ext; eassumption|]. split.
  - intros y Hy. rewrite <- Ex, <- Er. apply H2, Hy.
  - intros y Hy E Hne. rewrite <- Ex, <- Er in E. destruct (H3 y Hy E) as (k & e & Q1 & Q2); [rewrite Er; exact Hne|]. exists k, e. rewrite <- Er. auto.
Qed.

Lemma rounded_opp x r : rounded b p x r -> rounded b p (- x) (- r).
Proof.
  intros (H1 & H2 & H3). assert (O : forall y z, Qabs (y - - z) == Qabs (- y - z)).
  { intros y z. rewrite <- Qabs_opp. apply Qabs_wd. ring. }
  assert (O2 : Qabs (- r - - x) == Qabs (r - x)). { rewrite <- Qabs_opp. apply Qabs_wd. ring. }
  split; [apply digits_opp, H1|]. split.
  - intros y Hy. rewrite O2, O. apply H2, digits_opp, Hy.
  - intros y Hy E Hne. rewrite O2, O in E. destruct (H3 (- y) (digits_opp _ Hy) E) as (k & e & Q1 & Q2 & Q3).
    + intros K. apply Hne. rewrite <- K. ring.
    + exists (- k)%Z, e. rewrite Q1, inject_Z_opp. split; [ring|]. split; [lia|]. rewrite Z.even_opp. exact Q3.
Qed.

Lemma rnd_rounded x : rounded b p x (rnd b p x).
Proof.
  destruct (Q_dec x 0) as [[H|H]|H].
  - eapply rounded_ext; [|symmetry; apply rnd_unfold_neg; exact H|apply rounded_opp, rounded_pos; rewrite Qred_correct; lra]. rewrite Qred_correct. ring.
  - eapply rounded_ext; [|symmetry; apply rnd_unfold_pos; exact H|apply rounded_pos; rewrite Qred_correct; lra]. apply Qred_correct.
  - apply rounded_ext with 0 0; [symmetry; exact H|symmetry; apply rnd_unfold_0, H|]. split; [exists 0%Z, 0%Z; split; [rewrite Z.abs_0; apply Z.pow_pos_nonneg; lia|reflexivity]|]. split.
    + intros y _. change (Qabs (0 - 0)) with 0. apply Qabs_nonneg.
    + intros y _ E Hne. change (Qabs (0 - 0)) with 0 in E. destruct Hne. destruct (Qabs_Qle_condition (y - 0) 0) as [Q _]. rewrite E in Q. specialize (Q (Qle_refl 0)). lra.
Qed.

(** Rounding a number of p digits leaves it alone. *)
Lemma rnd_id x : digits_in b p x -> rnd b p x == x.
Proof. intros (k & e & H & E). eapply rnd_exact; [exact Hb|exact Hp|exact E|lia]. Qed.
End Rnd.

Lemma pyA_error x : Qabs (rd pyA x - x) <= (5 # 10 ^ 28) * Qabs x.
Proof. setoid_replace (5 # 10 ^ 28) with ((1 # 2) * qpow 10 (-27)) by reflexivity. apply (rd_err pyA sane_pyA). Qed.
Lemma pyA_square_error x : Qabs (r2 pyA x - x) <= (1 # 10 ^ 27) * Qabs x.
Proof. setoid_replace (1 # 10 ^ 27) with (qpow 10 (-27)) by reflexivity. apply (r2_err pyA sane_pyA). Qed.
