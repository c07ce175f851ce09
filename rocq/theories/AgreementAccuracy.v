(** Property C79: the rounding errors of the agreement statistics. *)
From Verif Require Import SpecAccuracy SpecML FormatProofs Round RoundProofs BedProofs BedTheory SimStats SimRound SimProofs SimTheory SimMain SimSym
  MLProofs MLSums DictProofs DispatchProofs DispatchMain AgreementProofs AgreementMain AgreementFinal AgreementExact AgreementPerm AgreementBias AgreementPublic
  AgreementValue.
From Coq Require Import Lqa.
Open Scope Z_scope.

Lemma close_trans x y z a b : (Qabs (x - y) <= a -> Qabs (y - z) <= b -> Qabs (x - z) <= a + b)%Q.
Proof. rewrite !Qabs_Qle_condition. lra. Qed.

Section Rounded.
Context (A : arith) (eps : Q) (M : Z) (HP : prec A eps M).

Lemma rd_close x b : (Qabs x <= b -> Qabs (rd A x - x) <= eps * b)%Q.
Proof.
  intros H. eapply Qle_trans; [apply (p_err _ _ _ HP)|]. apply Qmult_le_l_weak; [apply HP|exact H].
Qed.

Lemma zsum_nonneg {X} (d : X -> Z) l : (forall x, x ∈ l -> 0 <= d x) -> 0 <= zsum (d <$> l).
Proof.
  intros H. induction l as [|x l IH]; [reflexivity|]. rewrite fmap_cons. unfold zsum in *. cbn [foldr].
  pose proof (H x ltac:(left)). specialize (IH ltac:(intros y Hy; apply H; right; exact Hy)). lia.
Qed.

(** *** Sums *)
Lemma sum_close {X} (g h : X -> Q) (d : X -> Z) c D (l : list X) : D <= M -> (0 <= c)%Q ->
  (forall x, x ∈ l -> below (g x) (d x) /\ Qabs (g x - h x) <= c * inject_Z (d x))%Q ->
  forall a a0 z b, below a z -> z + zsum (d <$> l) <= D -> (Qabs (a - a0) <= b)%Q ->
  exists s, foldM (nadd A) (NDec <$> (g <$> l)) (NDec a) = Ok (NDec s) /\ below s (z + zsum (d <$> l)) /\
    (Qabs (s - (a0 + qsum (h <$> l))) <= b + c * inject_Z (zsum (d <$> l)) + inject_Z (zlen l) * eps * inject_Z D)%Q.
Proof.
  intros HM Hc. induction l as [|x l IH]; intros HG a a0 z b Ha HD Hb.
  - exists a. split; [reflexivity|]. rewrite fmap_nil in *. change (zsum []) with 0 in *. rewrite Z.add_0_r. split; [exact Ha|].
    rewrite fmap_nil, qsum_nil. change (zlen []) with 0. change (inject_Z 0) with 0%Q. rewrite Qabs_Qle_condition in *. lra.
  - destruct (HG x ltac:(left)) as [Hx Hxh]. assert (HG' : forall y, y ∈ l -> below (g y) (d y) /\ (Qabs (g y - h y) <= c * inject_Z (d y))%Q) by (intros y Hy; apply HG; right; exact Hy).
    assert (H0 : 0 <= zsum (d <$> l)) by (apply zsum_nonneg; intros y Hy; destruct (HG' y Hy) as [Hy' _]; exact (below_nonneg _ _ Hy')).
    pose proof (below_nonneg _ _ Hx) as H1. pose proof (below_nonneg _ _ Ha) as H2.
    rewrite !fmap_cons in *. replace (zsum (d x :: (d <$> l))) with (d x + zsum (d <$> l)) in * by reflexivity.
    rewrite Z.add_assoc in *. destruct Hx as [Hx0 Hx1], Ha as [Ha0 Ha1].
    cbn [foldM nadd num2 bind]. change (num2 A Z.add Qplus) with (nadd A).
    assert (HDQ : (inject_Z (z + d x) <= inject_Z D)%Q) by (rewrite <- Zle_Qle; lia). rewrite inject_Z_plus in HDQ.
    assert (HR : (Qabs (rd A (a + g x) - (a + g x)) <= eps * inject_Z D)%Q) by (apply rd_close; rewrite Qabs_Qle_condition; lra).
    destruct (IH HG' (rd A (a + g x)%Q) (a0 + h x)%Q (z + d x) (b + c * inject_Z (d x) + eps * inject_Z D)%Q) as (s & Hs & Hbs & He).
    + split; [apply (rd_nonneg A _ _ HP); lra|]. apply (rd_le A _ _ HP); [rewrite inject_Z_plus; lra|lia].
    + exact HD.
    + rewrite Qabs_Qle_condition in *. lra.
    + exists s. split; [exact Hs|]. split; [exact Hbs|]. rewrite qsum_cons. unfold zlen. cbn [length].
      rewrite Nat2Z.inj_succ, <- Z.add_1_r, !inject_Z_plus. fold (zlen l). change (inject_Z 1) with 1%Q.
      rewrite Qabs_Qle_condition in *. set (k := inject_Z (zlen l)) in *. set (D' := inject_Z D) in *. set (q := qsum (h <$> l)) in *.
      set (w := inject_Z (zsum (d <$> l))) in *. lra.
Qed.

Lemma nsum_start q (qs : list Q) : nsum A (NDec <$> (q :: qs)) = foldM (nadd A) (NDec <$> (q :: qs)) (NDec (inject_Z 0)).
Proof. reflexivity. Qed.

Lemma nsum_close {X} (g h : X -> Q) (d : X -> Z) c (l : list X) : l <> [] -> zsum (d <$> l) <= M -> (0 <= c)%Q ->
  (forall x, x ∈ l -> below (g x) (d x) /\ Qabs (g x - h x) <= c * inject_Z (d x))%Q ->
  exists s, nsum A (NDec <$> (g <$> l)) = Ok (NDec s) /\ below s (zsum (d <$> l)) /\
    (Qabs (s - qsum (h <$> l)) <= (c + inject_Z (zlen l) * eps) * inject_Z (zsum (d <$> l)))%Q.
Proof.
  intros Hne HM Hc HG. assert (nsum A (NDec <$> (g <$> l)) = foldM (nadd A) (NDec <$> (g <$> l)) (NDec (inject_Z 0))) as -> by (destruct l; [contradiction|apply nsum_start]).
  destruct (sum_close g h d c (zsum (d <$> l)) l HM Hc HG (inject_Z 0) 0%Q 0 0%Q) as (s & Hs & Hb & He).
  - split; apply Qle_refl.
  - reflexivity.
  - apply Qle_refl.
  - exists s. split; [exact Hs|]. split; [exact Hb|]. rewrite Qabs_Qle_condition in *. lra.
Qed.

Lemma quotient_close s h D b : 0 < D -> below s D -> (Qabs (s - h) <= b * inject_Z D)%Q ->
  (0 <= rd A (s / inject_Z D) /\ rd A (s / inject_Z D) <= 1)%Q /\ (Qabs (rd A (s / inject_Z D) - h / inject_Z D) <= b + eps)%Q.
Proof.
  intros HD [H0 H1] Hb. pose proof (inj_pos _ HD) as HD'. set (D' := inject_Z D) in *.
  assert (R : (0 <= s / D' /\ s / D' <= 1)%Q) by (split; [apply Qdiv_bounds_l|apply Qdiv_bounds]; lra).
  split; [apply (rd_unit A _ _ _ HP), R|]. assert (HR : (Qabs (rd A (s / D') - s / D') <= eps * 1)%Q) by (apply rd_close; rewrite Qabs_Qle_condition; lra).
  rewrite Qabs_Qle_condition in *.
  assert (- b <= s / D' - h / D' /\ s / D' - h / D' <= b)%Q.
  { assert (s / D' - h / D' == (s - h) / D')%Q as -> by (field; lra). split; [apply Qdiv_bounds_l|apply Qdiv_bounds]; lra. }
  lra.
Qed.

Lemma Aa_close {X} (g h : X -> Q) (d : X -> Z) c (l : list X) : l <> [] -> 0 < zsum (d <$> l) -> zsum (d <$> l) <= M -> (0 <= c)%Q ->
  (forall x, x ∈ l -> below (g x) (d x) /\ Qabs (g x - h x) <= c * inject_Z (d x))%Q ->
  exists v, agreement_Aa A (Acc (NDec <$> (g <$> l)) (NInt <$> (d <$> l)) [] []) = Ok (NDec v) /\ (0 <= v /\ v <= 1)%Q /\
    (Qabs (v - qsum (h <$> l) / inject_Z (zsum (d <$> l))) <= c + (inject_Z (zlen l) + 1) * eps)%Q.
Proof.
  intros Hne Hpos HM Hc HG. destruct (nsum_close g h d c l Hne HM Hc HG) as (s & Hs & Hb & He).
  unfold agreement_Aa. cbn [ac_num ac_den]. rewrite Hs. cbn [bind]. unfold nsum. rewrite nsum_int, Z.add_0_l. cbn [bind to_dec nval ndiv].
  rewrite qzero_inject by lia. eexists. split; [reflexivity|]. destruct (quotient_close s _ _ _ Hpos Hb He) as [R HR]. split; [exact R|].
  eapply Qle_trans; [exact HR|]. lra.
Qed.

Lemma mean_close {X} (g h : X -> Q) c (l : list X) : l <> [] -> zlen l <= M -> (0 <= c)%Q ->
  (forall x, x ∈ l -> (0 <= g x /\ g x <= 1) /\ Qabs (g x - h x) <= c)%Q ->
  exists s v, nsum A (NDec <$> (g <$> l)) = Ok (NDec s) /\ ndiv A (to_dec (NDec s)) (NInt (zlen (g <$> l))) = Ok (NDec v) /\
    (0 <= v /\ v <= 1)%Q /\ (Qabs (v - qsum (h <$> l) / inject_Z (zlen l)) <= c + (inject_Z (zlen l) + 1) * eps)%Q.
Proof.
  intros Hne HM Hc HG. assert (Hpos : 0 < zlen l) by (destruct l; [contradiction|unfold zlen; cbn [length]; lia]).
  destruct (nsum_close g h (fun _ => 1) c l Hne) as (s & Hs & Hb & He).
  - rewrite zsum_ones. exact HM.
  - exact Hc.
  - intros x Hx. destruct (HG x Hx) as [G1 G2]. split; [exact G1|]. change (inject_Z 1) with 1%Q. lra.
  - rewrite zsum_ones in Hb, He. exists s. unfold zlen at 1. rewrite fmap_length. fold (zlen l). cbn [to_dec nval ndiv].
    rewrite qzero_inject by lia. eexists. split; [exact Hs|]. split; [reflexivity|].
    destruct (quotient_close s _ _ _ Hpos Hb He) as [R HR]. split; [exact R|]. eapply Qle_trans; [exact HR|]. lra.
Qed.

Lemma share_close e : share e -> (0 <= rd A (ratio e) /\ rd A (ratio e) <= 1)%Q /\ (Qabs (rd A (ratio e) - ratio e) <= eps)%Q.
Proof.
  intros He. destruct (ratio_range e He) as [R0 R1]. split; [apply (rd_unit A _ _ _ HP); auto|].
  setoid_replace eps with (eps * 1)%Q by ring. apply rd_close. rewrite Qabs_Qle_condition. lra.
Qed.

Lemma kappa_Ae_close bnd : dict_ok bnd -> (forall k l, (k, l) ∈ bnd -> l <> [] /\ Forall share l) ->
  pairs2 bnd.*1 <> [] -> zlen (pairs2 bnd.*1) <= M ->
  exists v, kappa_Ae A bnd = Ok (NDec v) /\ (0 <= v /\ v <= 1)%Q /\
    (Qabs (v - qsum ((fun p => ratio (kpool bnd (fst p)) * ratio (kpool bnd (snd p))) <$> pairs2 bnd.*1) / inject_Z (zlen (pairs2 bnd.*1)))
     <= (inject_Z (zlen (pairs2 bnd.*1)) + 4) * eps)%Q.
Proof.
  intros Hok HS Hne HM. unfold kappa_Ae. rewrite kappa_shares by assumption. cbn [bind]. set (P := pairs2 bnd.*1) in *.
  assert (HK : forall k, k ∈ bnd.*1 -> share (kpool bnd k)) by (intros k; apply kpool_share; assumption).
  pose proof (p_pos _ _ _ HP) as Hpos.
  match goal with |- context [NDec <$> (?g <$> P)] => destruct (mean_close g (fun p => ratio (kpool bnd (fst p)) * ratio (kpool bnd (snd p)))%Q (3 * eps) P Hne HM ltac:(lra)) as (s & v & Hs & Hv & HV & V) end.
  { intros [m n] Hp. apply pairs2_distinct in Hp as (Hm & Hn & _); [|exact Hok]. cbn [fst snd].
    destruct (share_close _ (HK m Hm)) as [[A1 A2] A3]. destruct (share_close _ (HK n Hn)) as [[B1 B2] B3].
    destruct (ratio_range _ (HK m Hm)) as [R1 R2]. destruct (ratio_range _ (HK n Hn)) as [R3 R4].
    set (x := ratio (kpool bnd m)) in *. set (y := ratio (kpool bnd n)) in *. set (x' := rd A x) in *. set (y' := rd A y) in *.
    assert (HU : (0 <= x' * y' /\ x' * y' <= 1)%Q) by (split; nra).
    split; [apply (rd_unit A _ _ _ HP), HU|].
    assert (HR : (Qabs (rd A (x' * y') - x' * y') <= eps * 1)%Q) by (apply rd_close; rewrite Qabs_Qle_condition; lra).
    assert (HX : (Qabs (x' * y' - x * y) <= 2 * eps)%Q).
    { rewrite Qabs_Qle_condition in *. split; nra. }
    rewrite Qabs_Qle_condition in *. lra. }
  rewrite Hs. cbn [bind]. match goal with |- context [zlen (NDec <$> (?g <$> P))] =>
    replace (zlen (NDec <$> (g <$> P))) with (zlen (g <$> P)) by (unfold zlen; rewrite !fmap_length; reflexivity) end.
  rewrite Hv. exists v. split; [reflexivity|]. split; [exact HV|]. eapply Qle_trans; [exact V|]. lra.
Qed.

(** *** Correction for chance *)
Lemma corrected_close a a' e e' ea ee : (0 <= a <= 1)%Q -> (0 <= a' <= 1)%Q -> (0 <= e)%Q -> (0 <= e' <= 1)%Q -> (0 <= ea)%Q -> (0 <= ee)%Q ->
  (e < 1)%Q -> (Qabs (a' - a) <= ea)%Q -> (Qabs (e' - e) <= ee)%Q -> (ea + ee + eps <= 1 - e)%Q -> (2 * (ee + eps) <= 1 - e)%Q ->
  exists v, chance_corrected A (NDec a') (NDec e') = Ok (NDec v) /\
    (Qabs (v - beyond a e) <= (2 * ea + 4 * ee + 8 * eps) / ((1 - e) * (1 - e)))%Q.
Proof.
  intros [A0 A1] [B0 B1] E0 [E1 E2] Hea Hee Hlt Ha He H1 H2. pose proof (p_pos _ _ _ HP) as Hpos.
  unfold chance_corrected. cbn [nsub num2 bind ndiv].
  assert (HU : (Qabs (rd A (a' - e') - (a' - e')) <= eps * 1)%Q) by (apply rd_close; rewrite Qabs_Qle_condition; lra).
  assert (HW : (Qabs (rd A (1 - e') - (1 - e')) <= eps * 1)%Q) by (apply rd_close; rewrite Qabs_Qle_condition; lra).
  set (u := rd A (a' - e')) in *. set (w := rd A (1 - e')) in *. set (W := (1 - e)%Q) in *. set (U := (a - e)%Q) in *.
  assert (Hu : (Qabs (u - U) <= ea + ee + eps)%Q) by (unfold U; rewrite Qabs_Qle_condition in *; lra).
  assert (Hw : (Qabs (w - W) <= ee + eps)%Q) by (unfold W; rewrite Qabs_Qle_condition in *; lra).
  assert (W0 : (0 < W)%Q) by (unfold W; lra). assert (W1 : (W <= 1)%Q) by (unfold W; lra).
  assert (w0 : (W <= 2 * w)%Q) by (rewrite Qabs_Qle_condition in Hw; lra).
  assert (HQ : qzero w = false).
  { apply not_true_is_false. unfold qzero. rewrite Qeq_bool_iff. lra. }
  rewrite HQ. exists (rd A (u / w)). split; [reflexivity|]. unfold beyond. fold U W.
  set (R := (/ W)%Q). assert (RW : (R * W == 1)%Q) by (unfold R; field; lra).
  assert (R1 : (1 <= R)%Q) by nra.
  set (eu := (ea + ee + eps)%Q) in *. set (ew := (ee + eps)%Q) in *.
  assert (Heu : (0 <= eu)%Q) by (unfold eu; lra). assert (Hew : (0 <= ew)%Q) by (unfold ew; lra).
  assert (HUU : (-1 <= U /\ U <= 1)%Q) by (unfold U; lra).
  set (r := (/ w)%Q). assert (rw : (r * w == 1)%Q) by (unfold r; field; lra).
  assert (r0 : (0 <= r)%Q) by (apply Qlt_le_weak, Qinv_lt_0_compat; lra).
  assert (r2R : (r <= 2 * R)%Q).
  { assert (r * W <= r * (2 * w))%Q by (apply Qmult_le_l_weak; assumption). assert (r * W <= 2)%Q as HrW by lra.
    assert (r == r * W * R)%Q as -> by (rewrite <- Qmult_assoc, (Qmult_comm W R), RW; ring). apply Qmult_le_compat_r; lra. }
  assert (X : (u / w - U / W == r * ((u - U) + U * R * (W - w)))%Q) by (unfold r, R; field; lra).
  assert (UR : (- R <= U * R /\ U * R <= R)%Q) by nra.
  assert (Y : (- (eu + R * ew) <= (u - U) + U * R * (W - w) /\ (u - U) + U * R * (W - w) <= eu + R * ew)%Q).
  { rewrite Qabs_Qle_condition in Hu, Hw. set (S := (U * R)%Q) in *.
    assert (- (R * ew) <= S * (W - w) /\ S * (W - w) <= R * ew)%Q by (split; nra). lra. }
  set (Z := ((u - U) + U * R * (W - w))%Q) in *.
  assert (B : (- (2 * R * (eu + R * ew)) <= r * Z /\ r * Z <= 2 * R * (eu + R * ew))%Q).
  { assert (0 <= eu + R * ew)%Q by nra. set (k := (eu + R * ew)%Q) in *. split; nra. }
  assert (B1' : (2 * R * (eu + R * ew) <= R * R * (2 * eu + 2 * ew))%Q).
  { assert (H3 : (0 <= R * eu)%Q) by (apply Qmult_le_0_compat; lra).
    assert (1 * (R * eu) <= R * (R * eu))%Q by (apply Qmult_le_compat_r; assumption). lra. }
  assert (T : (Qabs (u / w) <= 4 * R)%Q).
  { assert (u / w == U * R + r * Z)%Q as -> by (rewrite <- X; unfold R; field; lra).
    assert (R * eu <= 1)%Q by nra. assert (2 * (R * ew) <= 1)%Q by nra. assert (2 * (R * (R * ew)) <= R)%Q by nra.
    rewrite Qabs_Qle_condition. lra. }
  pose proof (rd_close _ _ T) as HR.
  assert (G : ((2 * ea + 4 * ee + 8 * eps) / (W * W) == R * R * (2 * eu + 2 * ew) + R * R * (4 * eps))%Q) by (unfold eu, ew, R; field; lra).
  rewrite G. assert (H3 : (0 <= R * eps)%Q) by (apply Qmult_le_0_compat; lra).
  assert (1 * (R * eps) <= R * (R * eps))%Q by (apply Qmult_le_compat_r; assumption).
  rewrite Qabs_Qle_condition in *. rewrite <- X in B. lra.
Qed.
End Rounded.

Lemma Qred_inj x y : Qred x = Qred y -> (x == y)%Q.
Proof. intros H. rewrite <- (Qred_correct x), H. apply Qred_correct. Qed.

(** ** Comparisons *)

Lemma compare_close b A eps M E n_t om f sa sb x y : prec A eps M -> env_ok E -> small_types x y -> n_t <> 0 -> seg_len sa <> 0 -> seg_len sb <> 0 ->
  to_bstring f sa = Ok x -> to_bstring f sb = Ok y -> length x = length y -> (exists d, used x y d) ->
  exists n n' d, compare_with b exactA E n_t om f sa sb = Ok (NDec n, NInt d) /\ compare_with b A E n_t om f sa sb = Ok (NDec n', NInt d) /\
    (d <= M -> (Qabs (n' - n) <= 5 * eps * inject_Z d)%Q).
Proof.
  intros HP HE Hs Hn Ha Hb Hx Hy Hl Hu.
  assert (Hbs : to_bstrings f sa sb = Ok (x, y)).
  { rewrite (to_bstrings_eq f sa sb x y Hx Hy). destruct (Z.eqb_spec (zlen x) (zlen y)) as [C|C]; [reflexivity|unfold zlen in C; lia]. }
  destruct (setup E f n_t sa sb x y HE Hbs Hu) as (e & lo & hi & He & Hext).
  assert (R : forall K, edit_count e <= K -> K <= M ->
    (Qabs (rd A (inject_Z K - dcount A e (hi - lo + 1) n_t) - rd exactA (inject_Z K - dcount exactA e (hi - lo + 1) n_t)) <= 5 * eps * inject_Z K)%Q).
  { intros K HK HM. pose proof (p_M _ _ _ HP) as HM1. pose proof (prec_exact M HM1) as HX. pose proof (p_pos _ _ _ HP) as Hpos.
    destruct (c_bounds A eps M HP E f n_t sa sb x y lo hi e HE Hbs Hext Hn He K HK HM) as (C1 & C2 & C3 & C4).
    destruct (c_bounds exactA 0 M HX E f n_t sa sb x y lo hi e HE Hbs Hext Hn He K HK HM) as (D1 & D2 & D3 & D4).
    destruct (q_bounds E f n_t sa sb x y lo hi e HE Hbs Hext Hn He) as [Q1 Q2].
    set (c := dcount A e (hi - lo + 1) n_t) in *. set (c0 := dcount exactA e (hi - lo + 1) n_t) in *.
    cbv zeta in *. set (q := edit_cost e (hi - lo + 1) n_t) in *.
    assert (HKQ : (inject_Z (edit_count e) <= inject_Z K)%Q) by (rewrite <- Zle_Qle; exact HK).
    assert (HR : (Qabs (rd A (inject_Z K - c) - (inject_Z K - c)) <= eps * inject_Z K)%Q) by (apply (rd_close A eps M HP); rewrite Qabs_Qle_condition; lra).
    assert (HR0 : (rd exactA (inject_Z K - c0) == inject_Z K - c0)%Q) by apply Qred_correct.
    assert (eps * q <= eps * inject_Z K)%Q by (apply Qmult_le_l_weak; lra).
    rewrite HR0. rewrite Qabs_Qle_condition in *. lra. }
  assert (Ha' : (seg_len sa =? 0) = false) by (apply Z.eqb_neq, Ha). assert (Hb' : (seg_len sb =? 0) = false) by (apply Z.eqb_neq, Hb).
  pose proof (den_le E f n_t sa sb x y HE Hbs Hu e Hs He) as HD.
  destruct b; unfold compare_with, compare_B, compare_S, compare_of; rewrite Ha', Hb'; cbn [negb andb];
    rewrite ?(B_eq _ E f n_t sa sb x y lo hi e), ?(S_eq _ E f n_t sa sb x y lo hi e) by assumption; cbv zeta; cbn [bind];
    do 3 eexists; (split; [reflexivity|]); (split; [reflexivity|]); intros HM; apply R; lia.
Qed.

(** ** Datasets *)

Section Data.
Context (b : bool) (A : arith) (E : env) (n_t : Z) (om : bool) (f : fmt) (coders : list string) (items : dict (dict seg)).
Context (HA : sane A) (HE : env_ok E) (Hn : n_t <> 0) (HC : coded f coders items) (Hca : cached f coders items) (HW : workload f coders items <= 10 ^ 28).

Notation J := (jobs_of coders items).
Notation Es := (J ≫= entry2 (marks_of f) (room_of f)).
Notation cmp := (compare_with b A E n_t om).
Notation cmp0 := (compare_with b exactA E n_t om).
Notation N := (zlen (comparisons coders items)).

Let HP : prec A eps28 (10 ^ 28) := prec_sane A HA.
Let Hcmp : comparison A E n_t (cached f coders items) cmp := with_comparison b A E n_t om _ Hca.
Let Hcmp0 : comparison exactA E n_t (cached f coders items) cmp0 := with_comparison b exactA E n_t om _ Hca.

Lemma N_jobs : N = zlen J.
Proof. unfold comparisons. rewrite two_of_pairs2. reflexivity. Qed.

Lemma job_close m n ic : (m, n) ∈ pairs2 coders -> ic ∈ items ->
  den_of cmp f m n ic = den_of cmp0 f m n ic /\
  (den_of cmp f m n ic <= 10 ^ 28 -> (Qabs (num_of cmp f m n ic - num_of cmp0 f m n ic) <= 5 * eps28 * inject_Z (den_of cmp f m n ic))%Q).
Proof.
  intros Hp Hic. apply pairs2_distinct in Hp as (Hm & Hn' & Hne); [|exact (coded_coders _ _ _ HC)].
  destruct (coding_seg _ _ _ ic m HC Hic Hm) as (Lm & Sm & Bm). destruct (coding_seg _ _ _ ic n HC Hic Hn') as (Ln & Sn & Bn).
  pose proof (coded_len _ _ _ HC ic m n Hic Hm Hn') as Hl. pose proof (coded_used _ _ _ HC ic m n Hic Hm Hn' Hne) as Hu.
  destruct (compare_close b A eps28 (10 ^ 28) E n_t om f (seg_of m ic) (seg_of n ic) (coding f m ic) (coding f n ic) HP HE (Hca ic m n Hic Hm Hn'))
    as (p & p' & d & H1 & H2 & H3); try assumption.
  unfold num_of, den_of. rewrite H1, H2. split; [reflexivity|exact H3].
Qed.

Lemma den_same : over (den_of cmp f) <$> J = over (den_of cmp0 f) <$> J.
Proof. apply list_fmap_ext. intros i [[m n] ic] Hj. apply elem_of_list_lookup_2, elem_of_jobs_of in Hj as [Hp Hic]. apply job_close; assumption. Qed.

Lemma sizes : dsum f coders items cmp <= 10 ^ 28 /\ 2 * N <= 10 ^ 28 /\ 1 <= N.
Proof.
  destruct (dsum_pos A E n_t f coders items cmp HE Hn HC Hcmp) as [H1 H2]. pose proof (dsum_workload A E n_t f coders items cmp HE Hn HC Hcmp Hca).
  rewrite N_jobs. unfold zlen. pose proof (jobs_nonempty f coders items HC) as Hne. split; [lia|]. split; [lia|]. destruct J; [contradiction|cbn [length]; lia].
Qed.

Lemma actual_close : exists v, actual_agreement A cmp f coders items = Ok (NDec v) /\
  (forall a, agreement_parts cmp f coders items = Ok a -> agreement_Aa A a = Ok (NDec v)) /\ (0 <= v /\ v <= 1)%Q /\
  (Qabs (v - exact_Aa f coders items cmp0) <= inject_Z (N + 6) * eps28)%Q.
Proof.
  destruct sizes as (S1 & S2 & S3). pose proof (jobs_nonempty f coders items HC) as Hne.
  pose proof (p_pos _ _ _ HP) as Hpos.
  destruct (Aa_close A eps28 (10 ^ 28) HP (over (num_of cmp f)) (over (num_of cmp0 f)) (over (den_of cmp f)) (5 * eps28) J Hne) as (v & Hv & R & Hc).
  - apply (dsum_pos A E n_t f coders items cmp HE Hn HC Hcmp).
  - exact S1.
  - lra.
  - intros j Hj. assert (Hle : over (den_of cmp f) j <= dsum f coders items cmp).
    { apply zsum_elem; [|exact Hj]. intros j' Hj'. pose proof (den_pos A E n_t f coders items cmp HE Hn HC Hcmp j' Hj'). lia. }
    destruct j as [[m n] ic]. apply elem_of_jobs_of in Hj as [Hp Hic]. cbn [over] in *. split.
    + destruct (job_ok A E n_t f coders items cmp m n ic HE Hn HC Hcmp Hp Hic) as (_ & _ & _ & H & _). apply (H eps28 (10 ^ 28) HP). lia.
    + apply job_close; [assumption|assumption|lia].
  - exists v. split.
    { pose proof (parts_coded A E n_t f coders items cmp HE Hn HC Hcmp) as HPc. rewrite (actual_Aa A cmp f coders items _ _ _ _ HPc); [exact Hv|].
      intros E0. apply Hne. destruct J; [reflexivity|discriminate]. }
    split; [intros a Ha; rewrite (parts_Aa A E n_t f coders items cmp HE Hn HC Hcmp a Ha); exact Hv|]. split; [exact R|].
    unfold exact_Aa, dsum. rewrite Qred_correct, <- den_same, N_jobs, inject_Z_plus. change (inject_Z 6) with 6%Q. eapply Qle_trans; [exact Hc|]. lra.
Qed.

Lemma pi_close : exists e, pi_Ae A (group Es) = Ok (NDec e) /\ (0 <= e /\ e <= 1)%Q /\
  (Qabs (e - pi_chance f coders items) <= inject_Z (4 * N + 6) * eps28)%Q.
Proof.
  destruct sizes as (S1 & S2 & S3). pose proof (group_values f coders items) as HG.
  pose proof (entries_share f coders items HC) as HS. pose proof (entries_nonempty f coders items HC) as HN. pose proof (p_pos _ _ _ HP) as Hpos.
  assert (HF : Forall share (mjoin (group Es).*2)) by (apply Forall_forall; intros x Hx; rewrite HG in Hx; apply HS, Hx).
  assert (Hne : mjoin (group Es).*2 <> []) by (intros E0; rewrite E0 in HG; apply Permutation_nil, fmap_nil_inv in HG; contradiction).
  assert (HL : zlen (mjoin (group Es).*2) = 2 * N).
  { rewrite N_jobs. replace (zlen (mjoin (group Es).*2)) with (zlen Es) by (unfold zlen; rewrite HG, fmap_length; reflexivity). apply entries_length. }
  pose proof (pi_value Es HS HN) as HV. rewrite pi_Ae_exact in HV by assumption. injection HV as HV. apply Qred_inj in HV. cbv zeta in HV.
  unfold pi_Ae. rewrite pi_shares by exact HF. cbn [bind]. set (l := mjoin (group Es).*2) in *.
  destruct (mean_close A eps28 (10 ^ 28) HP (fun e => rd A (ratio e)) ratio eps28 l Hne ltac:(lia) Hpos) as (s & v & Hs & Hv & [V0 V1] & V).
  { intros x Hx. apply (share_close A eps28 (10 ^ 28) HP). rewrite Forall_forall in HF. apply HF, Hx. }
  rewrite Hs. cbn [bind]. replace (zlen (NDec <$> _)) with (zlen ((fun e => rd A (ratio e)) <$> l)) by (unfold zlen; rewrite !fmap_length; reflexivity).
  rewrite Hv. cbn [bind nsq]. exists (r2 A (v * v)%Q). split; [reflexivity|].
  assert (R0 : (r2 A 0 == 0)%Q) by (rewrite (r2_ext A HA 0 (inject_Z 0)) by reflexivity; apply (r2_int A HA); lia).
  assert (R1 : (r2 A 1 == 1)%Q) by (rewrite (r2_ext A HA 1 (inject_Z 1)) by reflexivity; apply (r2_int A HA); cbn; lia).
  assert (VV : (0 <= v * v /\ v * v <= 1)%Q) by (split; nra).
  split; [split|].
  - rewrite <- R0. apply (r2_mono A HA), VV.
  - rewrite <- R1. apply (r2_mono A HA), VV.
  - rewrite <- (mean_share_pi f coders items HC), <- HV. rewrite HL in *. set (p := (qsum (ratio <$> l) / inject_Z (2 * N))%Q) in *.
    assert (P : (0 <= p /\ p <= 1)%Q).
    { assert (HD : (0 < inject_Z (2 * N))%Q) by (apply inj_pos; lia). unfold p. split; [apply Qdiv_bounds_l|apply Qdiv_bounds]; try exact HD.
      - rewrite Qmult_0_l. apply qsum_nonneg, Forall_fmap. eapply Forall_impl; [exact HF|]. intros x Hx. apply ratio_range, Hx.
      - eapply Qle_trans; [apply (qsum_mono _ (fun _ => 1%Q)); intros x Hx; rewrite Forall_forall in HF; apply ratio_range, HF, Hx|].
        rewrite qsum_const, HL. lra. }
    pose proof (r2_err A HA (v * v)%Q) as HR. rewrite (Qabs_pos (v * v)) in HR by apply VV.
    assert (E2 : (qpow 10 (-27) == 2 * eps28)%Q) by (unfold eps28; ring).
    assert (HR' : (Qabs (r2 A (v * v) - v * v) <= 2 * eps28)%Q).
    { eapply Qle_trans; [exact HR|]. rewrite E2. assert (2 * eps28 * (v * v) <= 2 * eps28 * 1)%Q by (apply Qmult_le_l_weak; [lra|apply VV]). lra. }
    set (k := (eps28 + (inject_Z (2 * N) + 1) * eps28)%Q) in *.
    assert (HD : (Qabs (v * v - p * p) <= 2 * k)%Q) by (rewrite Qabs_Qle_condition in *; split; nra).
    rewrite inject_Z_plus, inject_Z_mult. unfold k in HD. rewrite inject_Z_mult in HD. change (inject_Z 4) with 4%Q. change (inject_Z 6) with 6%Q. change (inject_Z 2) with 2%Q in *.
    rewrite Qabs_Qle_condition in *. set (n := inject_Z N) in *. lra.
Qed.

Lemma kappa_close : exists e, kappa_Ae A (group Es) = Ok (NDec e) /\ (0 <= e /\ e <= 1)%Q /\
  (Qabs (e - kappa_chance f coders items) <= inject_Z (N + 4) * eps28)%Q.
Proof.
  destruct sizes as (S1 & S2 & S3). pose proof (group_keys f coders items HC) as HG.
  pose proof (entries_share f coders items HC) as HS. pose proof (entries_keys f coders items HC) as HK. pose proof (p_pos _ _ _ HP) as Hpos.
  assert (HL : length (pairs2 (group Es).*1) = length (pairs2 coders)).
  { pose proof (pairs2_length (group Es).*1) as L1. pose proof (pairs2_length coders) as L2.
    rewrite (Permutation_length HG) in L1. lia. }
  assert (HLN : zlen (pairs2 (group Es).*1) <= N).
  { rewrite N_jobs. unfold zlen. rewrite HL, jobs_length. pose proof (coded_items _ _ _ HC) as Hne. destruct items; [contradiction|]. cbn [length]. nia. }
  assert (Hok : dict_ok (group Es)) by apply pushes_ok, NoDup_nil_2.
  assert (HSh : forall k l, (k, l) ∈ group Es -> l <> [] /\ Forall share l) by (intros k l Hkl; eapply group_share; eassumption).
  assert (Hne : pairs2 (group Es).*1 <> []).
  { intros E0. rewrite E0 in HL. pose proof (two_coders f coders items HC) as H2. destruct (pairs2 coders); [contradiction|discriminate]. }
  pose proof (kappa_value coders Es (coded_coders _ _ _ HC) HK HS (coded_two _ _ _ HC)) as HV.
  rewrite kappa_Ae_exact in HV by assumption. injection HV as HV. apply Qred_inj in HV.
  destruct (kappa_Ae_close A eps28 (10 ^ 28) HP (group Es) Hok HSh Hne ltac:(lia)) as (v & Hv & R & Hc).
  exists v. split; [exact Hv|]. split; [exact R|]. rewrite <- (mean_product_kappa f coders items HC), <- HV.
  eapply Qle_trans; [exact Hc|]. apply Qmult_le_compat_r; [|exact Hpos]. rewrite inject_Z_plus. change (inject_Z 4) with 4%Q.
  rewrite Zle_Qle in HLN. lra.
Qed.
End Data.

Section Public.
Context (b : bool) (A : arith) (E : env) (n_t : Z) (om : bool) (f : fmt) (cord : gset string -> list string) (c : container).
Notation F := (c_format c f).
Notation coders := (cord (c_coders c)).
Notation items := (c_items c).
Notation X := (compare_with b A E n_t om).
Notation X0 := (compare_with b exactA E n_t om).
Notation N := (zlen (comparisons coders items)).
Context (HA : sane A) (HE : env_ok E) (Hn : n_t <> 0) (HC : coded F coders items) (Hca : cached F coders items) (HW : workload F coders items <= 10 ^ 28).

Lemma within_eps k x y : (Qabs (x - y) <= inject_Z k * eps28)%Q -> within k x y.
Proof. intros H. unfold within. eapply Qle_trans; [exact H|]. rewrite eps28_val. apply Qle_refl. Qed.

Lemma exact_range : (0 <= exact_Aa F coders items X0 <= 1)%Q.
Proof.
  pose proof (with_comparison b exactA E n_t om _ Hca) as Hcmp0.
  destruct (Aa_coded exactA E n_t F coders items X0 sane_exactA HE Hn HC Hcmp0 ltac:(left; reflexivity) _ (parts_coded exactA E n_t F coders items X0 HE Hn HC Hcmp0)) as (v & Hv & R & _).
  rewrite (Aa_value E n_t F coders items X0 HE Hn HC Hcmp0 _ (parts_coded exactA E n_t F coders items X0 HE Hn HC Hcmp0)) in Hv. injection Hv as <-. exact R.
Qed.

Theorem actual_accurate : exists a a',
  actual_agreement_linear exactA X0 f cord c = Ok (NDec a) /\ actual_agreement_linear A X f cord c = Ok (NDec a') /\ within (N + 6) a' a.
Proof.
  pose proof (with_comparison b exactA E n_t om _ Hca) as Hcmp0.
  destruct (actual_close b A E n_t om F coders items HA HE Hn HC Hca HW) as (v & Hv & _ & _ & Hc).
  exists (exact_Aa F coders items X0), v. split; [apply (actual_value E n_t F coders items X0 HE Hn HC Hcmp0)|]. split; [exact Hv|]. apply within_eps, Hc.
Qed.

Context (HF : full coders items).

(** Agreement corrected for the chance agreement that [ae] computes. *)
Lemma corrected_accurate ae chance k e : ae A (group (jobs_of coders items ≫= entry2 (marks_of F) (room_of F))) = Ok (NDec e) -> (0 <= e /\ e <= 1)%Q ->
  (0 <= chance)%Q -> 0 <= k -> (Qabs (e - chance) <= inject_Z k * eps28)%Q -> k <= 4 * N + 6 -> (inject_Z (16 * (N + 2)) * eps28 <= 1 - chance)%Q ->
  exists a a' v, actual_agreement_linear exactA X0 f cord c = Ok (NDec a) /\
    corrected_by ae A X F coders items = Ok (NDec v, NDec a', NDec e) /\ within (N + 6) a' a /\
    (Qabs (v - beyond a chance) <= inject_Z (2 * N + 4 * k + 20) * half_ulp / ((1 - chance) * (1 - chance)))%Q.
Proof.
  intros He Re H0 Hk Hc HkN Hlt. pose proof (with_comparison b exactA E n_t om _ Hca) as Hcmp0. pose proof (with_comparison b A E n_t om _ Hca) as Hcmp.
  pose proof (prec_sane A HA) as HP. pose proof (p_pos _ _ _ HP) as Hpos. destruct (sizes b A E n_t om F coders items HE Hn HC Hca HW) as (_ & _ & HN).
  assert (HE1 : (0 < eps28)%Q) by (rewrite eps28_val; reflexivity).
  destruct (actual_close b A E n_t om F coders items HA HE Hn HC Hca HW) as (a' & _ & Ha' & Ra' & Hca').
  assert (Q1 : (1 <= inject_Z N)%Q) by (change 1%Q with (inject_Z 1); rewrite <- Zle_Qle; exact HN).
  assert (Q2 : (inject_Z k <= 4 * inject_Z N + 6)%Q).
  { rewrite Zle_Qle, inject_Z_plus, inject_Z_mult in HkN. exact HkN. }
  assert (Q3 : (0 <= inject_Z k)%Q) by (change 0%Q with (inject_Z 0); rewrite <- Zle_Qle; exact Hk).
  rewrite inject_Z_mult, inject_Z_plus in Hlt. change (inject_Z 16) with 16%Q in Hlt. change (inject_Z 2) with 2%Q in Hlt.
  rewrite inject_Z_plus in Hca'. change (inject_Z 6) with 6%Q in Hca'.
  set (n := inject_Z N) in *. set (q := inject_Z k) in *. set (u := eps28) in *.
  assert (P1 : (q * u <= (4 * n + 6) * u)%Q) by (apply Qmult_le_compat_r; lra).
  assert (P2 : (1 * u <= n * u)%Q) by (apply Qmult_le_compat_r; lra).
  assert (P3 : (0 <= q * u)%Q) by (apply Qmult_le_0_compat; lra).
  destruct (corrected_close A u (10 ^ 28) HP (exact_Aa F coders items X0) a' chance e ((n + 6) * u) (q * u)) as (v & Hv & Hcv); try lra; try assumption.
  { apply exact_range. }
  exists (exact_Aa F coders items X0), a', v. split; [apply (actual_value E n_t F coders items X0 HE Hn HC Hcmp0)|]. split; [|split].
  - unfold corrected_by. rewrite (parts_coded A E n_t F coders items X HE Hn HC Hcmp). cbn [bind].
    rewrite (Ha' _ (parts_coded A E n_t F coders items X HE Hn HC Hcmp)). cbn [bind ac_bnd]. rewrite He. cbn [bind]. rewrite Hv. reflexivity.
  - apply within_eps. rewrite inject_Z_plus. exact Hca'.
  - eapply Qle_trans; [exact Hcv|].
    assert (HU : (half_ulp == u)%Q) by (unfold u; rewrite eps28_val; reflexivity). rewrite HU.
    rewrite !inject_Z_plus, !inject_Z_mult. change (inject_Z 20) with 20%Q. change (inject_Z 4) with 4%Q. change (inject_Z 2) with 2%Q. fold n q.
    assert (G : (2 * ((n + 6) * u) + 4 * (q * u) + 8 * u == (2 * n + 4 * q + 20) * u)%Q) by ring. rewrite G. apply Qle_refl.
Qed.

Lemma chance_nonneg : (0 <= pi_chance F coders items /\ 0 <= kappa_chance F coders items)%Q.
Proof.
  pose proof (entries_share F coders items HC) as HS. pose proof (entries_keys F coders items HC) as HK.
  destruct (mean_product_range coders _ (coded_coders _ _ _ HC) HK HS (coded_two _ _ _ HC)) as [R3 _].
  split; [rewrite <- mean_share_pi by exact HC; apply qsquare|rewrite <- mean_product_kappa by exact HC; exact R3].
Qed.

Lemma half_eps k : (inject_Z k * eps28 == inject_Z k * half_ulp)%Q.
Proof. rewrite eps28_val. reflexivity. Qed.

Theorem pi_accurate : let p := pi_chance F coders items in (inject_Z (16 * (N + 2)) * half_ulp <= 1 - p)%Q ->
  exists a a' p' v, actual_agreement_linear exactA X0 f cord c = Ok (NDec a) /\
  fleiss_pi_linear A X f cord true c = Ok (GParts (NDec a') (NDec p')) /\ fleiss_pi_linear A X f cord false c = Ok (GVal (NDec v)) /\
  within (N + 6) a' a /\ within (4 * N + 6) p' p /\
  (Qabs (v - beyond a p) <= inject_Z (18 * N + 44) * half_ulp / ((1 - p) * (1 - p)))%Q.
Proof.
  intros p Hlt. destruct (pi_close b A E n_t om F coders items HA HE Hn HC Hca HW) as (e & He & Re & Hc).
  rewrite <- half_eps in Hlt. assert (0 <= N) by (unfold zlen; lia).
  destruct (corrected_accurate pi_Ae p (4 * N + 6) e He Re (proj1 chance_nonneg) ltac:(lia) Hc ltac:(lia) Hlt) as (a & a' & v & Ha & Hv & Wa & Wv).
  exists a, a', e, v. split; [exact Ha|]. unfold fleiss_pi_linear. rewrite pi_is, (counts_equal _ _ (coded_items _ _ _ HC) HF), Hv. cbn [three bind fst snd].
  split; [reflexivity|]. split; [reflexivity|]. split; [exact Wa|]. split; [apply within_eps, Hc|].
  replace (18 * N + 44) with (2 * N + 4 * (4 * N + 6) + 20) by lia. exact Wv.
Qed.

Theorem kappa_accurate : let k := kappa_chance F coders items in (inject_Z (16 * (N + 2)) * half_ulp <= 1 - k)%Q ->
  exists a a' k' v, actual_agreement_linear exactA X0 f cord c = Ok (NDec a) /\
  fleiss_kappa_linear A X f cord true c = Ok (GParts (NDec a') (NDec k')) /\ fleiss_kappa_linear A X f cord false c = Ok (GVal (NDec v)) /\
  within (N + 6) a' a /\ within (N + 4) k' k /\
  (Qabs (v - beyond a k) <= inject_Z (6 * N + 36) * half_ulp / ((1 - k) * (1 - k)))%Q.
Proof.
  intros k Hlt. destruct (kappa_close b A E n_t om F coders items HA HE Hn HC Hca HW) as (e & He & Re & Hc).
  rewrite <- half_eps in Hlt. assert (0 <= N) by (unfold zlen; lia).
  destruct (corrected_accurate kappa_Ae k (N + 4) e He Re (proj2 chance_nonneg) ltac:(lia) Hc ltac:(lia) Hlt) as (a & a' & v & Ha & Hv & Wa & Wv).
  exists a, a', e, v. split; [exact Ha|]. unfold fleiss_kappa_linear.
  rewrite kappa_is, (counts_equal _ _ (coded_items _ _ _ HC) HF), (counts_two _ _ (coded_two _ _ _ HC) HF), Hv. cbn [three bind fst snd].
  split; [reflexivity|]. split; [reflexivity|]. split; [exact Wa|]. split; [apply within_eps, Hc|].
  replace (6 * N + 36) with (2 * N + 4 * (N + 4) + 20) by lia. exact Wv.
Qed.

Theorem bias_accurate : let p := pi_chance F coders items in let k := kappa_chance F coders items in
  (inject_Z (16 * (N + 2)) * half_ulp <= 1 - p)%Q -> (inject_Z (16 * (N + 2)) * half_ulp <= 1 - k)%Q ->
  exists p' k' v, artstein_poesio_bias_linear A X f cord true c = Ok (GParts (NDec p') (NDec k')) /\
  artstein_poesio_bias_linear A X f cord false c = Ok (GVal (NDec v)) /\
  within (4 * N + 6) p' p /\ within (N + 4) k' k /\ within (5 * N + 11) v (p - k)%Q.
Proof.
  intros p k H1 H2. pose proof (prec_sane A HA) as HP. assert (HN : 0 <= N) by (unfold zlen; lia).
  destruct (pi_close b A E n_t om F coders items HA HE Hn HC Hca HW) as (e1 & He1 & Re1 & Hc1).
  destruct (kappa_close b A E n_t om F coders items HA HE Hn HC Hca HW) as (e2 & He2 & Re2 & Hc2).
  rewrite <- half_eps in H1, H2.
  destruct (corrected_accurate pi_Ae p (4 * N + 6) e1 He1 Re1 (proj1 chance_nonneg) ltac:(lia) Hc1 ltac:(lia) H1) as (a1 & a1' & v1 & _ & Hv1 & _).
  destruct (corrected_accurate kappa_Ae k (N + 4) e2 He2 Re2 (proj2 chance_nonneg) ltac:(lia) Hc2 ltac:(lia) H2) as (a2 & a2' & v2 & _ & Hv2 & _).
  exists e1, e2, (rd A (e1 - e2)). unfold artstein_poesio_bias_linear, bias_full.
  rewrite pi_is, kappa_is, (counts_equal _ _ (coded_items _ _ _ HC) HF), (counts_two _ _ (coded_two _ _ _ HC) HF), Hv1, Hv2.
  split; [reflexivity|]. split; [reflexivity|]. split; [apply within_eps, Hc1|]. split; [apply within_eps, Hc2|]. apply within_eps.
  assert (HR : (Qabs (rd A (e1 - e2) - (e1 - e2)) <= eps28 * 1)%Q) by (apply (rd_close A _ _ HP); rewrite Qabs_Qle_condition; lra).
  replace (5 * N + 11) with ((4 * N + 6) + (N + 4) + 1) by lia. rewrite (inject_Z_plus _ 1), (inject_Z_plus (4 * N + 6)). change (inject_Z 1) with 1%Q.
  fold p in Hc1. fold k in Hc2. set (x1 := inject_Z (4 * N + 6)) in *. set (x2 := inject_Z (N + 4)) in *. clearbody x1 x2 p k.
  rewrite Qabs_Qle_condition in *. lra.
Qed.
End Public.
