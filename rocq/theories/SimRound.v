(** Rounding errors in the computation of B and S. *)
From Coq Require Import Lqa.
From Verif Require Import Py Round RoundProofs.
Open Scope Q_scope.

(** An arithmetic whose Decimals have relative error [eps] and represent ints up
    to [M]. *)
Record prec (A : arith) (eps : Q) (M : Z) : Prop := Prec {
  p_ext : forall x y, x == y -> rd A x = rd A y;
  p_mono : forall x y, x <= y -> rd A x <= rd A y;
  p_int : forall z, (Z.abs z <= M)%Z -> rd A (inject_Z z) == inject_Z z;
  p_err : forall x, Qabs (rd A x - x) <= eps * Qabs x;
  p_pos : 0 <= eps;
  p_small : eps <= 1 # 10;
  p_M : (1 <= M)%Z
}.

Definition eps28 : Q := (1 # 2) * qpow 10 (-27).

Lemma eps28_val : eps28 == 1 # 2000000000000000000000000000.
Proof. vm_compute. reflexivity. Qed.

Lemma prec_sane A : sane A -> prec A eps28 (10 ^ 28).
Proof.
  intros HA. pose proof eps28_val. constructor; try apply HA; try (rewrite H; lra). lia.
Qed.

Lemma prec_exact M : (1 <= M)%Z -> prec exactA 0 M.
Proof.
  intros HM. constructor; cbn [exactA rd]; try lra; try assumption.
  - intros x y E. apply Qred_complete, E.
  - intros x y E. rewrite !Qred_correct. exact E.
  - intros z _. apply Qred_correct.
  - intros x. setoid_replace (Qred x - x) with 0 by (rewrite Qred_correct; lra). change (Qabs 0) with 0. lra.
Qed.

Lemma Qmult_le_l_weak z x y : 0 <= z -> x <= y -> z * x <= z * y.
Proof. intros Hz H. rewrite !(Qmult_comm z). apply Qmult_le_compat_r; assumption. Qed.

Section Prec.
Context (A : arith) (eps : Q) (M : Z) (HP : prec A eps M).

Let Hpos : 0 <= eps := p_pos _ _ _ HP.
Let Hsmall : eps <= 1 # 10 := p_small _ _ _ HP.

Lemma rd_0 x : x == 0 -> rd A x == 0.
Proof.
  intros H. rewrite (p_ext _ _ _ HP x (inject_Z 0)) by exact H. apply (p_int _ _ _ HP).
  pose proof (p_M _ _ _ HP). cbn. lia.
Qed.

Lemma rd_1 x : x == 1 -> rd A x == 1.
Proof.
  intros H. rewrite (p_ext _ _ _ HP x (inject_Z 1)) by exact H. apply (p_int _ _ _ HP).
  pose proof (p_M _ _ _ HP). cbn. lia.
Qed.

Lemma rd_z x z : x == inject_Z z -> (Z.abs z <= M)%Z -> rd A x == inject_Z z.
Proof. intros H Hz. rewrite (p_ext _ _ _ HP x (inject_Z z)) by exact H. apply (p_int _ _ _ HP), Hz. Qed.

Lemma rd_nonneg x : 0 <= x -> 0 <= rd A x.
Proof. intros H. apply (p_mono _ _ _ HP) in H. rewrite (rd_0 0) in H by reflexivity. exact H. Qed.

Lemma rd_le x z : x <= inject_Z z -> (Z.abs z <= M)%Z -> rd A x <= inject_Z z.
Proof. intros H Hz. apply (p_mono _ _ _ HP) in H. rewrite (p_int _ _ _ HP z Hz) in H. exact H. Qed.

Lemma rd_rel x : 0 <= x -> (1 - eps) * x <= rd A x /\ rd A x <= (1 + eps) * x.
Proof.
  intros H. pose proof (p_err _ _ _ HP x) as E. rewrite (Qabs_pos x) in E by assumption.
  apply Qabs_Qle_condition in E. lra.
Qed.

Lemma rd_zero x : 0 <= x -> rd A x == 0 -> x == 0.
Proof. intros H H0. destruct (rd_rel x H) as [H1 _]. nra. Qed.

Lemma rd_pos x : 0 < x -> 0 < rd A x.
Proof. intros H. destruct (rd_rel x) as [H1 _]; nra. Qed.

(** The weighted count. *)
Lemma count_spec (na ns nt : Z) (qs qt : Q) :
  (0 <= na)%Z -> 0 <= qs -> qs <= inject_Z ns -> 0 <= qt -> qt <= inject_Z nt -> (0 <= ns)%Z -> (0 <= nt)%Z ->
  (na + ns + nt <= M)%Z ->
  let q := inject_Z na + qs + qt in
  let c := rd A (rd A (inject_Z na + rd A qs) + rd A qt) in
  0 <= c /\ c <= inject_Z (na + ns + nt) /\ (1 - 4 * eps) * q <= c /\ c <= (1 + 4 * eps) * q.
Proof.
  intros Ha Hs0 Hs1 Ht0 Ht1 Hns Hnt HM q c.
  assert (Ha' : 0 <= inject_Z na) by (change 0 with (inject_Z 0); rewrite <- Zle_Qle; assumption).
  destruct (rd_rel qs Hs0) as [S1 S2]. pose proof (rd_nonneg qs Hs0) as S0.
  destruct (rd_rel qt Ht0) as [T1 T2]. pose proof (rd_nonneg qt Ht0) as T0.
  pose proof (rd_le qs ns Hs1 ltac:(lia)) as S3. pose proof (rd_le qt nt Ht1 ltac:(lia)) as T3.
  set (s := rd A qs) in *. set (t := rd A qt) in *.
  assert (C0 : 0 <= inject_Z na + s) by lra.
  destruct (rd_rel _ C0) as [C1 C2]. pose proof (rd_nonneg _ C0) as C3.
  assert (C4 : rd A (inject_Z na + s) <= inject_Z (na + ns)) by (apply rd_le; [rewrite inject_Z_plus; lra|lia]).
  set (c1 := rd A (inject_Z na + s)) in *.
  assert (D0 : 0 <= c1 + t) by lra.
  destruct (rd_rel _ D0) as [D1 D2]. pose proof (rd_nonneg _ D0) as D3.
  assert (D4 : rd A (c1 + t) <= inject_Z (na + ns + nt)) by (apply rd_le; [rewrite inject_Z_plus; lra|lia]).
  fold c in D1, D2, D3, D4. split; [exact D3|]. split; [exact D4|].
  assert (U1 : c1 <= (1 + eps) * (1 + eps) * (inject_Z na + qs)).
  { eapply Qle_trans; [exact C2|]. rewrite <- Qmult_assoc. apply Qmult_le_l_weak; [lra|].
    assert (inject_Z na <= (1 + eps) * inject_Z na) by nra. lra. }
  assert (L1 : (1 - eps) * (1 - eps) * (inject_Z na + qs) <= c1).
  { eapply Qle_trans; [|exact C1]. rewrite <- Qmult_assoc. apply Qmult_le_l_weak; [lra|].
    assert ((1 - eps) * inject_Z na <= inject_Z na) by nra. lra. }
  assert (U2 : c <= (1 + eps) * (1 + eps) * (1 + eps) * q).
  { eapply Qle_trans; [exact D2|]. setoid_replace ((1 + eps) * (1 + eps) * (1 + eps) * q) with ((1 + eps) * ((1 + eps) * (1 + eps) * q)) by ring.
    apply Qmult_le_l_weak; [lra|]. unfold q. assert (t <= (1 + eps) * (1 + eps) * qt).
    { eapply Qle_trans; [exact T2|]. assert (0 <= eps * qt) by nra. assert (0 <= eps * (eps * qt)) by nra. lra. }
    lra. }
  assert (L2 : (1 - eps) * (1 - eps) * (1 - eps) * q <= c).
  { eapply Qle_trans; [|exact D1]. setoid_replace ((1 - eps) * (1 - eps) * (1 - eps) * q) with ((1 - eps) * ((1 - eps) * (1 - eps) * q)) by ring.
    apply Qmult_le_l_weak; [lra|]. unfold q. assert ((1 - eps) * (1 - eps) * qt <= t).
    { eapply Qle_trans; [|exact T1]. assert (0 <= eps * qt) by nra. assert (0 <= (1 - eps) * (eps * qt)) by (apply Qmult_le_0_compat; lra). lra. }
    lra. }
  assert (Q0 : 0 <= q) by (unfold q; lra).
  assert (E2 : 0 <= eps * eps) by nra. assert (E2' : eps * eps <= (1 # 10) * eps) by nra.
  assert (E3 : eps * eps * eps <= (1 # 10) * (eps * eps)) by nra. assert (E3' : 0 <= eps * eps * eps) by nra.
  split.
  - eapply Qle_trans; [|exact L2]. apply Qmult_le_compat_r; [|exact Q0]. lra.
  - eapply Qle_trans; [exact U2|]. apply Qmult_le_compat_r; [|exact Q0]. lra.
Qed.

(** The quotient [(d - c) / d]. *)
Definition quot (d : Z) (c : Q) : Q := rd A (rd A (inject_Z d - c) / inject_Z d).

Lemma Qdiv_bounds x y d : 0 < d -> x <= y * d -> x / d <= y.
Proof. intros Hd H. apply Qle_shift_div_r; assumption. Qed.

Lemma Qdiv_bounds_l x y d : 0 < d -> y * d <= x -> y <= x / d.
Proof. intros Hd H. apply Qle_shift_div_l; assumption. Qed.

Lemma inj_pos d : (0 < d)%Z -> 0 < inject_Z d.
Proof. intros H. change 0 with (inject_Z 0). rewrite <- Zlt_Qlt. exact H. Qed.

Lemma quot_bounds d c : (0 < d)%Z -> (d <= M)%Z -> 0 <= c -> c <= inject_Z d ->
  0 <= quot d c /\ quot d c <= 1 /\
  (1 - 3 * eps) * (1 - c / inject_Z d) <= quot d c /\ quot d c <= (1 + 3 * eps) * (1 - c / inject_Z d).
Proof.
  intros Hd HM H0 H1. pose proof (inj_pos d Hd) as Hd'. unfold quot.
  assert (N0 : 0 <= inject_Z d - c) by lra. destruct (rd_rel _ N0) as [N1 N2]. pose proof (rd_nonneg _ N0) as N3.
  assert (N4 : rd A (inject_Z d - c) <= inject_Z d) by (apply rd_le; [lra|lia]).
  set (n := rd A (inject_Z d - c)) in *.
  assert (V0 : 0 <= n / inject_Z d) by (apply Qdiv_bounds_l; lra).
  destruct (rd_rel _ V0) as [V1 V2]. pose proof (rd_nonneg _ V0) as V3.
  assert (V4 : rd A (n / inject_Z d) <= 1).
  { change 1 with (inject_Z 1). pose proof (p_M _ _ _ HP). apply rd_le; [|cbn; lia]. apply Qdiv_bounds; [lra|]. change (inject_Z 1) with 1. lra. }
  set (v := rd A (n / inject_Z d)) in *.
  split; [exact V3|]. split; [exact V4|].
  assert (EX : (inject_Z d - c) / inject_Z d == 1 - c / inject_Z d) by (field; lra).
  set (x := 1 - c / inject_Z d) in *.
  assert (X0 : 0 <= x) by (rewrite <- EX; apply Qdiv_bounds_l; lra).
  assert (U : n / inject_Z d <= (1 + eps) * x).
  { rewrite <- EX. apply Qdiv_bounds; [lra|]. eapply Qle_trans; [exact N2|].
    setoid_replace ((1 + eps) * ((inject_Z d - c) / inject_Z d) * inject_Z d) with ((1 + eps) * (inject_Z d - c)) by (field; lra). lra. }
  assert (L : (1 - eps) * x <= n / inject_Z d).
  { rewrite <- EX. apply Qdiv_bounds_l; [lra|]. eapply Qle_trans; [|exact N1].
    setoid_replace ((1 - eps) * ((inject_Z d - c) / inject_Z d) * inject_Z d) with ((1 - eps) * (inject_Z d - c)) by (field; lra). lra. }
  assert (E2 : 0 <= eps * eps) by nra. assert (E2' : eps * eps <= (1 # 10) * eps) by nra.
  split.
  - eapply Qle_trans; [|exact V1]. eapply Qle_trans; [|apply Qmult_le_l_weak; [lra|exact L]].
    rewrite Qmult_assoc. apply Qmult_le_compat_r; [lra|exact X0].
  - eapply Qle_trans; [exact V2|]. eapply Qle_trans; [apply Qmult_le_l_weak; [lra|exact U]|].
    rewrite Qmult_assoc. apply Qmult_le_compat_r; [lra|exact X0].
Qed.

Lemma quot_same d : (0 < d)%Z -> (d <= M)%Z -> forall c, c == 0 -> quot d c == 1.
Proof.
  intros Hd HM c Hc. pose proof (inj_pos d Hd) as Hd'. unfold quot. apply rd_1.
  rewrite (rd_z (inject_Z d - c) d) by (lra || lia). field. lra.
Qed.

Lemma quot_one d c : (0 < d)%Z -> (d <= M)%Z -> 0 <= c -> c <= inject_Z d ->
  quot d c == 1 -> c <= 3 * eps * inject_Z d.
Proof.
  intros Hd HM H0 H1 H. destruct (quot_bounds d c Hd HM H0 H1) as (_ & _ & _ & U). rewrite H in U.
  pose proof (inj_pos d Hd) as Hd'. set (y := c / inject_Z d) in *.
  assert (Y0 : 0 <= y) by (apply Qdiv_bounds_l; lra).
  assert (c == y * inject_Z d) as -> by (unfold y; field; lra).
  assert (y <= 3 * eps) by nra. apply Qmult_le_compat_r; lra.
Qed.

Lemma quot_zero d c : (0 < d)%Z -> (d <= M)%Z -> 0 <= c -> c <= inject_Z d ->
  quot d c == 0 <-> c == inject_Z d.
Proof.
  intros Hd HM H0 H1. pose proof (inj_pos d Hd) as Hd'. split.
  - intros H. destruct (quot_bounds d c Hd HM H0 H1) as (_ & _ & L & _). rewrite H in L.
    set (y := c / inject_Z d) in *. assert (c == y * inject_Z d) as -> by (unfold y; field; lra).
    assert (Y1 : y <= 1) by (apply Qdiv_bounds; lra). assert (y == 1) as -> by nra. lra.
  - intros H. unfold quot. apply rd_0. rewrite (rd_0 (inject_Z d - c)) by lra. field. lra.
Qed.

Lemma quot_accuracy d c q : (0 < d)%Z -> (d <= M)%Z -> 0 <= c -> c <= inject_Z d -> 0 <= q -> q <= inject_Z d ->
  (1 - 4 * eps) * q <= c -> c <= (1 + 4 * eps) * q ->
  Qabs (quot d c - (1 - q / inject_Z d)) <= 8 * eps.
Proof.
  intros Hd HM H0 H1 Q0 Q1 L U. pose proof (inj_pos d Hd) as Hd'.
  destruct (quot_bounds d c Hd HM H0 H1) as (_ & _ & VL & VU).
  set (v := quot d c) in *. set (y := c / inject_Z d) in *. set (z := q / inject_Z d) in *.
  assert (Ec : c == y * inject_Z d) by (unfold y; field; lra).
  assert (Eq : q == z * inject_Z d) by (unfold z; field; lra).
  assert (Y0 : 0 <= y) by (apply Qdiv_bounds_l; lra). assert (Y1 : y <= 1) by (apply Qdiv_bounds; lra).
  assert (Z0 : 0 <= z) by (apply Qdiv_bounds_l; lra). assert (Z1 : z <= 1) by (apply Qdiv_bounds; lra).
  rewrite Eq in L, U. assert (YL : (1 - 4 * eps) * z <= y) by (apply Qdiv_bounds_l; lra).
  assert (YU : y <= (1 + 4 * eps) * z) by (apply Qdiv_bounds; lra).
  assert (0 <= eps * y) by nra. assert (eps * y <= eps) by nra. assert (0 <= eps * z) by nra. assert (eps * z <= eps) by nra.
  apply Qabs_Qle_condition. split; lra.
Qed.
End Prec.
