(** The default window size under Python 2, whose [round] goes through a float and rounds
    halves away from zero.  (setup.py:50-53 names Python 2.6 and 2.7 beside 3.2 and 3.3.) *)
From Coq Require Import Lqa.
From Verif Require Import SpecWindow FormatProofs Round RoundProofs SimRound SimProofs SimMain WindowProofs WindowMain WindowSym WindowSize.
Open Scope Z_scope.

(** segeval/window/__init__.py:16 ['fnc_round': round] and :54 [int(fnc_round(avg))] under
    Python 2: the Decimal is converted to a double and rounded half away from zero. *)
Definition python2_round (q : Q) : Z := hround_away (flt53 q).

Lemma away_char (x : Q) h : (0 <= x)%Q -> (inject_Z h - (1 # 2) <= x)%Q -> (x < inject_Z h + (1 # 2))%Q -> hround_away x = h.
Proof.
  intros H0 H1 H2. unfold hround_away. rewrite (proj2 (Qle_bool_iff 0 x) H0).
  pose proof (Qfloor_le (x + (1 # 2))) as A1. pose proof (Qlt_floor (x + (1 # 2))) as A2.
  assert (B1 : (inject_Z (Qfloor (x + (1 # 2))) < inject_Z (h + 1))%Q) by (rewrite inject_Z_plus; change (inject_Z 1) with 1%Q; lra).
  assert (B2 : (inject_Z h < inject_Z (Qfloor (x + (1 # 2)) + 1))%Q) by lra.
  rewrite <- Zlt_Qlt in B1, B2. lia.
Qed.

Lemma away_spec (x : Q) : (0 <= x)%Q -> (inject_Z (hround_away x) - (1 # 2) <= x)%Q /\ (x < inject_Z (hround_away x) + (1 # 2))%Q.
Proof.
  intros H0. unfold hround_away. rewrite (proj2 (Qle_bool_iff 0 x) H0).
  pose proof (Qfloor_le (x + (1 # 2))) as A1. pose proof (Qlt_floor (x + (1 # 2))) as A2.
  rewrite inject_Z_plus in A2. change (inject_Z 1) with 1%Q in A2. lra.
Qed.

Lemma flt_half (z : Z) : (Z.abs z <= 2 ^ 53)%Z -> (flt53 (inject_Z z / 2) == inject_Z z / 2)%Q.
Proof.
  intros H. apply (rnd_exact 2 53 ltac:(lia) ltac:(lia) _ z (-1)); [|lia].
  change (qpow 2 (-1)) with (/ inject_Z 2)%Q. field.
Qed.

Theorem python2_window f t l : f <> FPosition -> collects t l -> Spec.positive l -> l <> [] -> zsum l <= 10 ^ 13 ->
  compute_window_size pyA python2_round f t = Ok (Z.max 2 (hround_away (inject_Z (zsum l) / (2 * inject_Z (zlen l))))).
Proof.
  intros Hf HC Hl Hne HM. pose proof (prec_sane pyA sane_pyA) as HP.
  rewrite (window_size_masses pyA eps28 (10 ^ 28) python2_round f t l HP Hf HC); [|eapply Forall_impl; [exact Hl|]; intros z Hz; cbn in Hz |- *; lia|lia|assumption].
  do 2 f_equal. unfold python2_round.
  assert (HN : 0 < zlen l <= zsum l).
  { split; [destruct l; [congruence|]; unfold zlen; cbn [length]; lia|]. clear -Hl. induction Hl as [|z l Hz _ IH]; [reflexivity|].
    rewrite zsum_cons. unfold zlen in *. cbn [length]. lia. }
  set (S := zsum l) in *. set (n := zlen l) in *. clearbody S n. clear Hf HC Hl Hne t l.
  assert (Hn : (0 < inject_Z n)%Q) by (apply inj_pos; lia).
  set (x := (inject_Z S / (2 * inject_Z n))%Q). set (y := (inject_Z S / inject_Z n)%Q).
  assert (Exy : (y == 2 * x)%Q) by (unfold x, y; field; lra).
  assert (EX : (x * (2 * inject_Z n) == inject_Z S)%Q) by (unfold x; field; lra).
  assert (Hx0 : (0 <= x)%Q).
  { apply Qdiv_bounds_l; [lra|]. rewrite Qmult_0_l. change 0%Q with (inject_Z 0). apply inj_le. lia. }
  destruct (away_spec x Hx0) as [L U]. set (h := hround_away x) in *.
  set (y' := rd pyA y). set (x' := rd pyA (y' / 2)). set (w := flt53 x').
  assert (Hy0 : (0 <= y)%Q) by lra.
  assert (Hy0' : (0 <= y' / 2)%Q).
  { pose proof (rd_nonneg pyA _ _ HP y Hy0) as K. fold y' in K. apply Qdiv_bounds_l; lra. }
  assert (Hx0' : (0 <= x')%Q) by (exact (rd_nonneg pyA _ _ HP (y' / 2) Hy0')).
  pose proof (rnd_error 2 53 ltac:(lia) x') as W. fold w in W. change (rnd 2 53 x') with w in W.
  rewrite (Qabs_pos x') in W by assumption.
  change ((1 # 2) * qpow 2 (1 - 53))%Q with (1 # 9007199254740992)%Q in W.
  apply Qabs_Qle_condition in W.
  assert (Hw0 : (0 <= w)%Q) by lra.
  destruct (Z.eq_dec (S - (2 * h - 1) * n) 0) as [T|T].
  - assert (Hz : S = n * (2 * h - 1)) by lia. set (z := 2 * h - 1) in *.
    assert (0 <= z <= 10 ^ 13) by nia.
    assert (Hy : (y == inject_Z z)%Q).
    { unfold y. rewrite Hz, inject_Z_mult. field. lra. }
    assert (E1 : (y' == inject_Z z)%Q) by (apply (rd_z pyA _ _ HP); [exact Hy|lia]).
    assert (E2 : (x' == inject_Z z / 2)%Q).
    { unfold x'. rewrite (p_ext _ _ _ HP _ (inject_Z z / 2)%Q) by (rewrite E1; reflexivity). apply half_exact. lia. }
    assert (E3 : (w == x)%Q).
    { unfold w, flt53. rewrite (rnd_ext 2 53 _ _ E2). change (rnd 2 53 (inject_Z z / 2)) with (flt53 (inject_Z z / 2)). rewrite flt_half by lia. rewrite <- Hy, Exy. field. }
    apply away_char; [assumption| |]; rewrite E3; assumption.
  - assert (D1 : (1 <= (x - (inject_Z h - (1 # 2))) * (2 * inject_Z n))%Q).
    { assert (K : (0 <= inject_Z (S - (2 * h - 1) * n))%Q).
      { replace (S - (2 * h - 1) * n) with (S + - (2 * h * n) + n) by lia. rewrite !inject_Z_plus, inject_Z_opp, !inject_Z_mult, <- EX. change (inject_Z 2) with 2%Q. nra. }
      change 0%Q with (inject_Z 0) in K. rewrite <- Zle_Qle in K.
      assert (K2 : (inject_Z 1 <= inject_Z (S - (2 * h - 1) * n))%Q) by (rewrite <- Zle_Qle; lia).
      replace (S - (2 * h - 1) * n) with (S + - (2 * h * n) + n) in K2 by lia. rewrite !inject_Z_plus, inject_Z_opp, !inject_Z_mult, <- EX in K2. change (inject_Z 2) with 2%Q in K2. change (inject_Z 1) with 1%Q in K2. nra. }
    assert (D2 : (1 <= (inject_Z h + (1 # 2) - x) * (2 * inject_Z n))%Q).
    { assert (K : (0 < inject_Z ((2 * h + 1) * n - S))%Q).
      { replace ((2 * h + 1) * n - S) with (2 * h * n + n + - S) by lia. rewrite !inject_Z_plus, inject_Z_opp, !inject_Z_mult, <- EX. change (inject_Z 2) with 2%Q. nra. }
      change 0%Q with (inject_Z 0) in K. rewrite <- Zlt_Qlt in K.
      assert (K2 : (inject_Z 1 <= inject_Z ((2 * h + 1) * n - S))%Q) by (rewrite <- Zle_Qle; lia).
      replace ((2 * h + 1) * n - S) with (2 * h * n + n + - S) in K2 by lia. rewrite !inject_Z_plus, inject_Z_opp, !inject_Z_mult, <- EX in K2. change (inject_Z 2) with 2%Q in K2. change (inject_Z 1) with 1%Q in K2. nra. }
    destruct (rd_rel pyA _ _ HP y Hy0) as [Y1 Y2]. fold y' in Y1, Y2.
    destruct (rd_rel pyA _ _ HP (y' / 2) Hy0') as [X1 X2]. fold x' in X1, X2.
    assert (Ey : (y' / 2 == y' * (1 # 2))%Q) by reflexivity. rewrite Ey in X1, X2.
    pose proof eps28_val as EE. rewrite EE in *.
    assert (HS : (inject_Z S <= inject_Z (10 ^ 13))%Q) by (apply inj_le; lia). change (inject_Z (10 ^ 13)) with (10000000000000 # 1)%Q in HS.
    assert (P1 : (w - x <= (1 # 4503599627370496) * x)%Q) by lra.
    assert (P2 : (x - w <= (1 # 4503599627370496) * x)%Q) by lra.
    assert (Q1 : ((w - x) * (2 * inject_Z n) <= 1 # 10)%Q).
    { apply Qle_trans with ((1 # 4503599627370496) * x * (2 * inject_Z n))%Q; [apply Qmult_le_compat_r; lra|]. rewrite <- Qmult_assoc, EX. lra. }
    assert (Q2 : ((x - w) * (2 * inject_Z n) <= 1 # 10)%Q).
    { apply Qle_trans with ((1 # 4503599627370496) * x * (2 * inject_Z n))%Q; [apply Qmult_le_compat_r; lra|]. rewrite <- Qmult_assoc, EX. lra. }
    apply away_char; [assumption| |].
    + apply Qlt_le_weak. apply (Qmult_lt_r _ _ (2 * inject_Z n)); [lra|]. lra.
    + apply (Qmult_lt_r _ _ (2 * inject_Z n)); [lra|]. lra.
Qed.

(** The two roundings of a quotient [S / (2 n)] differ only at a half above an even number. *)
Lemma away_even S n : 0 < n -> 0 <= S ->
  hround_away (inject_Z S / (2 * inject_Z n)) = hround (inject_Z S / (2 * inject_Z n)) \/
  (hround_away (inject_Z S / (2 * inject_Z n)) = hround (inject_Z S / (2 * inject_Z n)) + 1 /\
   exists j, hround (inject_Z S / (2 * inject_Z n)) = 2 * j /\ S = n * (4 * j + 1)).
Proof.
  intros Hn HS. assert (Hq : (0 < inject_Z n)%Q) by (apply inj_pos; lia).
  set (x := (inject_Z S / (2 * inject_Z n))%Q).
  assert (EX : (x * (2 * inject_Z n) == inject_Z S)%Q) by (unfold x; field; lra).
  assert (Hx0 : (0 <= x)%Q).
  { apply Qdiv_bounds_l; [lra|]. rewrite Qmult_0_l. change 0%Q with (inject_Z 0). apply inj_le. lia. }
  clearbody x. pose proof (Qfloor_le x) as F1. pose proof (Qlt_floor x) as F2. unfold hround. cbn zeta.
  set (k := Qfloor x) in *. clearbody k. rewrite inject_Z_plus in F2. change (inject_Z 1) with 1%Q in F2.
  destruct (Qcompare_spec (x - inject_Z k) (1 # 2)) as [E|E|E].
  - assert (A : hround_away x = k + 1).
    { apply away_char; [assumption| |]; rewrite inject_Z_plus; change (inject_Z 1) with 1%Q; lra. }
    rewrite A. destruct (Z.even k) eqn:K; [right|left; reflexivity]. split; [reflexivity|].
    apply Z.even_spec in K as [j K]. exists j. split; [assumption|].
    assert (EZ : (inject_Z S == inject_Z (n * (4 * j + 1)))%Q).
    { rewrite <- EX. assert (Ex : (x == inject_Z k + (1 # 2))%Q) by lra. rewrite Ex, K, (inject_Z_mult n), inject_Z_plus, !inject_Z_mult.
      change (inject_Z 2) with 2%Q. change (inject_Z 4) with 4%Q. change (inject_Z 1) with 1%Q. ring. }
    apply (proj1 (inject_Z_injective _ _)) in EZ. exact EZ.
  - left. apply away_char; [assumption|lra|lra].
  - left. apply away_char; [assumption| |]; rewrite inject_Z_plus; change (inject_Z 1) with 1%Q; lra.
Qed.

Lemma half_even n j : 0 < n -> hround (inject_Z (n * (4 * j + 1)) / (2 * inject_Z n)) = 2 * j.
Proof.
  intros Hn. assert (Hq : (0 < inject_Z n)%Q) by (apply inj_pos; lia).
  assert (E : (inject_Z (n * (4 * j + 1)) / (2 * inject_Z n) == inject_Z (2 * j) + (1 # 2))%Q).
  { rewrite inject_Z_mult, inject_Z_plus, !inject_Z_mult. change (inject_Z 2) with 2%Q. change (inject_Z 4) with 4%Q. change (inject_Z 1) with 1%Q. field. lra. }
  rewrite (hround_ext _ _ E). unfold hround. cbn zeta.
  assert (K : Qfloor (inject_Z (2 * j) + (1 # 2)) = 2 * j).
  { pose proof (Qfloor_le (inject_Z (2 * j) + (1 # 2))) as F1. pose proof (Qlt_floor (inject_Z (2 * j) + (1 # 2))) as F2.
    set (k := Qfloor (inject_Z (2 * j) + (1 # 2))) in *. clearbody k.
    assert (G1 : (inject_Z k < inject_Z (2 * j + 1))%Q) by (rewrite inject_Z_plus; change (inject_Z 1) with 1%Q; lra).
    assert (G2 : (inject_Z (2 * j) < inject_Z (k + 1))%Q) by lra.
    rewrite <- Zlt_Qlt in G1, G2. lia. }
  rewrite K. destruct (Qcompare_spec (inject_Z (2 * j) + (1 # 2) - inject_Z (2 * j)) (1 # 2)) as [_|E2|E2]; [|lra|lra].
  replace (Z.even (2 * j)) with true; [reflexivity|]. symmetry. apply Z.even_spec. exists j. reflexivity.
Qed.

(** The sizes of the two versions. *)
Theorem versions f t l : f <> FPosition -> collects t l -> Spec.positive l -> l <> [] -> zsum l <= 10 ^ 13 ->
  exists k2 k3, compute_window_size pyA python2_round f t = Ok k2 /\ compute_window_size pyA default_round f t = Ok k3 /\
    k3 <= k2 <= k3 + 1 /\ (k2 <> k3 <-> exists j, 1 <= j /\ zsum l = zlen l * (4 * j + 1)).
Proof.
  intros Hf HC Hl Hne HM. eexists _, _. split; [apply (python2_window f t l); assumption|]. split; [apply (default_window_exact f t l); assumption|].
  assert (HN : 0 < zlen l <= zsum l).
  { split; [destruct l; [congruence|]; unfold zlen; cbn [length]; lia|]. clear -Hl. induction Hl as [|z l Hz _ IH]; [reflexivity|].
    rewrite zsum_cons. unfold zlen in *. cbn [length]. lia. }
  destruct (away_even (zsum l) (zlen l) ltac:(lia) ltac:(lia)) as [E|[E (j & Ej & ES)]].
  - rewrite E. split; [lia|]. split; [congruence|]. intros (j & Hj & ES).
    exfalso. rewrite ES in E. rewrite half_even in E by lia.
    assert (A : hround_away (inject_Z (zlen l * (4 * j + 1)) / (2 * inject_Z (zlen l))) = 2 * j + 1); [|lia].
    assert (Hq : (0 < inject_Z (zlen l))%Q) by (apply inj_pos; lia).
    assert (E2 : (inject_Z (zlen l * (4 * j + 1)) / (2 * inject_Z (zlen l)) == inject_Z (2 * j + 1) - (1 # 2))%Q).
    { rewrite inject_Z_mult, !inject_Z_plus, !inject_Z_mult. change (inject_Z 2) with 2%Q. change (inject_Z 4) with 4%Q. change (inject_Z 1) with 1%Q. field. lra. }
    assert (H1 : (1 <= inject_Z (2 * j + 1))%Q) by (change 1%Q with (inject_Z 1); rewrite <- Zle_Qle; lia).
    apply away_char; rewrite E2; lra.
  - rewrite E, Ej. split; [lia|]. split.
    + intros D. exists j. split; [lia|exact ES].
    + intros (i & Hi & EI). assert (j = i) by nia. subst. lia.
Qed.

(** The size in whole numbers: half the mean mass, halves up. *)
Theorem python2_size f t l : f <> FPosition -> collects t l -> Spec.positive l -> l <> [] -> zsum l <= 10 ^ 13 ->
  exists k, compute_window_size pyA python2_round f t = Ok (Z.max 2 k) /\ zlen l * (2 * k - 1) <= zsum l < zlen l * (2 * k + 1).
Proof.
  intros Hf HC Hl Hne HM. eexists. split; [apply (python2_window f t l); assumption|].
  assert (HN : 0 < zlen l <= zsum l).
  { split; [destruct l; [congruence|]; unfold zlen; cbn [length]; lia|]. clear -Hl. induction Hl as [|z l Hz _ IH]; [reflexivity|].
    rewrite zsum_cons. unfold zlen in *. cbn [length]. lia. }
  set (S := zsum l) in *. set (n := zlen l) in *. clearbody S n.
  assert (Hq : (0 < inject_Z n)%Q) by (apply inj_pos; lia).
  set (x := (inject_Z S / (2 * inject_Z n))%Q).
  assert (EX : (x * (2 * inject_Z n) == inject_Z S)%Q) by (unfold x; field; lra).
  assert (Hx0 : (0 <= x)%Q).
  { apply Qdiv_bounds_l; [lra|]. rewrite Qmult_0_l. change 0%Q with (inject_Z 0). apply inj_le. lia. }
  destruct (away_spec x Hx0) as [L U]. set (k := hround_away x) in *. clearbody k. clearbody x.
  split.
  - rewrite Zle_Qle. replace (n * (2 * k - 1)) with (2 * k * n + - n) by lia. rewrite inject_Z_plus, inject_Z_opp, !inject_Z_mult, <- EX. change (inject_Z 2) with 2%Q. nra.
  - rewrite Zlt_Qlt. replace (n * (2 * k + 1)) with (2 * k * n + n) by lia. rewrite inject_Z_plus, !inject_Z_mult, <- EX. change (inject_Z 2) with 2%Q. nra.
Qed.

(** Where the sizes agree, so do the metrics. *)
Theorem versions_metrics f mh mr sh sr : Spec.positive mh -> Spec.positive mr -> mh <> [] -> mr <> [] ->
  wencodes f mh sh -> wencodes f mr sr -> zsum mr <= 10 ^ 13 ->
  ~ (exists j, 1 <= j /\ zsum mr = zlen mr * (4 * j + 1)) -> forall om rp,
  pk pyA python2_round f None om rp sh sr = pk pyA default_round f None om rp sh sr /\
  forall lam, window_diff pyA python2_round f None lam om rp sh sr = window_diff pyA default_round f None lam om rp sh sr.
Proof.
  intros Hh Hr Eh Er Wh Wr HM HJ om rp.
  pose proof (prec_sane pyA sane_pyA) as HP.
  destruct (default_window pyA eps28 (10 ^ 28) python2_round f mh mr sh sr HP Hh Hr Eh Er Wh Wr ltac:(lia) om rp) as [A1 A2].
  destruct (default_window pyA eps28 (10 ^ 28) default_round f mh mr sh sr HP Hh Hr Eh Er Wh Wr ltac:(lia) om rp) as [B1 B2].
  pose proof (Col_seg (ints mr)) as HC. assert (EM : pval <$> ints mr = mr).
  { unfold ints. rewrite <- list_fmap_compose. apply list_fmap_id. }
  rewrite EM in HC.
  destruct (versions FMass (WSeg (Ints (ints mr))) mr ltac:(discriminate) HC Hr Er HM) as (k2 & k3 & E2 & E3 & _ & K).
  rewrite (window_size_masses pyA eps28 (10 ^ 28) python2_round FMass _ mr HP ltac:(discriminate) HC) in E2; [|eapply Forall_impl; [exact Hr|]; intros z Hz; cbn in Hz |- *; lia|lia|assumption].
  rewrite (window_size_masses pyA eps28 (10 ^ 28) default_round FMass _ mr HP ltac:(discriminate) HC) in E3; [|eapply Forall_impl; [exact Hr|]; intros z Hz; cbn in Hz |- *; lia|lia|assumption].
  assert (k2 = k3) as -> by (destruct (Z.eq_dec k2 k3); [assumption|exfalso; apply HJ, K; assumption]).
  injection E2 as E2. injection E3 as E3. rewrite E2 in A1, A2. rewrite E3 in B1, B2.
  split; [rewrite A1, B1; reflexivity|]. intros lam. rewrite A2, B2. reflexivity.
Qed.
