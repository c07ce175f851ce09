(** Proofs about mean, variance and friends. *)
From Verif Require Export Dispatch SpecML SpecMath MLSums RoundProofs AgreementExact.
From Verif Require Import SimProofs SimRound MLMain.
From Coq Require Import Lqa.
Open Scope Q_scope.

Notation qmean := average.

(** Left-to-right sum with rounding. *)
Definition rsum (A : arith) (l : list Q) : Q := foldl (fun a x => rd A (a + x)) 0 l.
Definition rmean (A : arith) (xs : list Q) : Q := rd A (rsum A xs / inject_Z (zlen xs)).
Definition rdev (A : arith) (m x : Q) : Q := r2 A (rd A (x - m) * rd A (x - m)).
Definition rvar (A : arith) (xs : list Q) : Q := rd A (rsum A (rdev A (rmean A xs) <$> xs) / inject_Z (zlen xs)).

Lemma foldM_nadd A vs : Forall not_float vs -> forall a, foldM (nadd A) vs (NDec a) = Ok (NDec (foldl (fun a x => rd A (a + x)) a (nval <$> vs))).
Proof.
  induction 1 as [|v vs Hv _ IH]; intros a; [reflexivity|]. cbn [foldM fmap list_fmap foldl]. destruct v as [z|q|q]; try contradiction; cbn [nadd num2 bind nval]; apply IH.
Qed.

Lemma zlen_pos {X} (l : list X) : l <> [] -> (0 < zlen l)%Z.
Proof. destruct l; [contradiction|]. unfold zlen. cbn [length]. lia. Qed.
Lemma zlen_fmap {X Y} (f : X -> Y) (l : list X) : zlen (f <$> l) = zlen l.
Proof. unfold zlen. rewrite fmap_length. reflexivity. Qed.

Lemma mean_eq A vs : vs <> [] -> Forall not_float vs -> mean A vs = Ok (NDec (rmean A (nval <$> vs))).
Proof.
  intros Hne HF. unfold mean. rewrite foldM_nadd by exact HF. cbn [bind]. pose proof (zlen_pos vs Hne). replace (0 <? zlen vs)%Z with true by lia.
  cbn [ndiv]. rewrite qzero_inject by lia. unfold rmean. rewrite zlen_fmap. reflexivity.
Qed.

Lemma var_fold A vs m : Forall not_float vs -> forall a,
  foldM (fun acc v => let* d := nsub A v (NDec m) in nadd A acc (nsq A d)) vs (NDec a) =
  Ok (NDec (foldl (fun a x => rd A (a + x)) a (rdev A m <$> (nval <$> vs)))).
Proof.
  induction 1 as [|v vs Hv _ IH]; intros a; [reflexivity|]. cbn [foldM fmap list_fmap foldl]. destruct v as [z|q|q]; try contradiction; cbn [nsub nadd num2 bind nval nsq]; apply IH.
Qed.

Lemma var_eq A vs : vs <> [] -> Forall not_float vs -> var A vs = Ok (NDec (rvar A (nval <$> vs))).
Proof.
  intros Hne HF. unfold var. rewrite mean_eq by assumption. cbn [bind]. rewrite var_fold by exact HF. cbn [bind]. pose proof (zlen_pos vs Hne).
  cbn [ndiv]. rewrite qzero_inject by lia. unfold rvar. rewrite zlen_fmap. reflexivity.
Qed.

Section Sane.
Context (A : arith) (SA : sane A).

Lemma rd_zero x : x == 0 -> rd A x == 0.
Proof. intros E. rewrite (rd_ext A SA x (inject_Z 0)) by exact E. apply (rd_int A SA). cbn. lia. Qed.
Lemma r2_zero x : x == 0 -> r2 A x == 0.
Proof. intros E. rewrite (r2_ext A SA x (inject_Z 0)) by exact E. apply (r2_int A SA). cbn. lia. Qed.
Lemma rd_pos x : 0 <= x -> 0 <= rd A x.
Proof. intros H. rewrite <- (rd_zero 0) by reflexivity. apply (rd_mono A SA), H. Qed.
Lemma r2_pos x : 0 <= x -> 0 <= r2 A x.
Proof. intros H. rewrite <- (r2_zero 0) by reflexivity. apply (r2_mono A SA), H. Qed.

Lemma rdev_pos m x : 0 <= rdev A m x.
Proof. apply r2_pos. nra. Qed.

Lemma rsum_snoc l x : rsum A (l ++ [x]) = rd A (rsum A l + x).
Proof. unfold rsum. rewrite foldl_app. reflexivity. Qed.

Lemma rsum_pos l : Forall (fun x => 0 <= x) l -> 0 <= rsum A l.
Proof.
  induction l as [|x l IH] using rev_ind; intros H; [discriminate|]. apply Forall_app in H as [H1 H2]. rewrite rsum_snoc. apply rd_pos. apply Forall_inv in H2. specialize (IH H1). lra.
Qed.

Lemma rvar_pos xs : xs <> [] -> 0 <= rvar A xs.
Proof.
  intros Hne. pose proof (inj_pos _ (zlen_pos xs Hne)). unfold rvar. apply rd_pos, Qdiv_bounds_l; [assumption|]. rewrite Qmult_0_l. apply rsum_pos, Forall_fmap, Forall_forall. intros x _. apply rdev_pos.
Qed.

Lemma dec_sqrt_zero q : q == 0 -> dec_sqrt q = 0.
Proof. intros E. unfold dec_sqrt. replace (Qred q) with 0 by (rewrite (Qred_complete q 0 E); reflexivity). reflexivity. Qed.

(** The square root and its relative error. *)
Lemma dec_sqrt_error q : 0 <= q -> let s := dec_sqrt q in let eps := (1 # 2) * qpow 10 (-27) in
  0 <= s /\ (s * (1 - eps)) * (s * (1 - eps)) <= q /\ q <= (s * (1 + eps)) * (s * (1 + eps)) /\ (0 < q -> 0 < s).
Proof.
  intros Hq. cbv zeta. destruct (Qlt_le_dec 0 q) as [P|P].
  - destruct (dec_sqrt_spec q P) as (u & Hu & Hs & H1 & H2). set (s := dec_sqrt q) in *.
    assert (Hs0 : 0 < s). { eapply Qlt_le_trans; [|exact Hs]. pose proof (qpow_pos 10 27 ltac:(lia)). nra. }
    assert (Hus : u <= s * qpow 10 (-27)).
    { assert (E : qpow 10 27 * qpow 10 (-27) == 1) by reflexivity.
      setoid_replace u with (u * qpow 10 27 * qpow 10 (-27)) by (rewrite <- Qmult_assoc, E; lra). apply Qmult_le_compat_r; [exact Hs|].
      apply Qlt_le_weak, qpow_pos. lia. }
    assert (Hc : qpow 10 (-27) <= 1 # 2) by (cbv; discriminate). pose proof (qpow_pos 10 (-27) ltac:(lia)) as Hc0. set (c := qpow 10 (-27)) in *.
    split; [lra|]. split; [|split; [|intros _; exact Hs0]].
    + eapply Qle_trans; [|exact H1]. assert (B1 : 0 <= s * (1 - (1 # 2) * c)) by (apply Qmult_le_0_compat; lra).
      assert (B2 : s * (1 - (1 # 2) * c) <= s - u * (1 # 2)) by lra. nra.
    + eapply Qle_trans; [exact H2|]. assert (B1 : 0 <= s + u * (1 # 2)) by lra.
      assert (B2 : s + u * (1 # 2) <= s * (1 + (1 # 2) * c)) by lra. nra.
  - assert (E : q == 0) by lra. rewrite (dec_sqrt_zero q E). repeat split; try (vm_compute; discriminate); try lra.
Qed.

Lemma Qmul_le_left a b c : 0 <= a -> b <= c -> a * b <= a * c.
Proof. intros. rewrite !(Qmult_comm a). apply Qmult_le_compat_r; assumption. Qed.

Lemma sqmul_le a b : 0 <= a -> a <= b -> a * a <= b * b.
Proof. intros. nra. Qed.

Lemma stderr_error v n : 0 <= v -> 0 < n -> let e := rd A (dec_sqrt v / dec_sqrt n) in let eta := 2 * qpow 10 (-27) in
  0 <= e /\ (e * (1 - eta)) * (e * (1 - eta)) * n <= v /\ v <= (e * (1 + eta)) * (e * (1 + eta)) * n.
Proof.
  intros Hv Hn. cbv zeta. destruct (dec_sqrt_error v Hv) as (S0 & S1 & S2 & _). destruct (dec_sqrt_error n ltac:(lra)) as (_ & T1 & T2 & T0). specialize (T0 Hn).
  set (s := dec_sqrt v) in *. set (t := dec_sqrt n) in *. set (y := s / t).
  assert (Hy : s == y * t) by (unfold y; field; lra).
  assert (Y0 : 0 <= y). { unfold y. apply Qdiv_bounds_l; [exact T0|]. lra. }
  pose proof (rd_err A SA y) as HE. rewrite (Qabs_pos y Y0) in HE. apply Qabs_Qle_condition in HE as [E1 E2]. pose proof (rd_pos y Y0) as E0.
  set (e := rd A y) in *. change (qpow 10 (-27)) with (1 # 1000000000000000000000000000) in *.
  set (ep := (1 # 2) * (1 # 1000000000000000000000000000)) in *.
  assert (EQ : 2 * (1 # 1000000000000000000000000000) == 4 * ep) by reflexivity. rewrite EQ.
  assert (P0 : 0 <= ep) by discriminate. assert (P1 : ep <= 1 # 100) by discriminate. clearbody ep. clear EQ.
  split; [exact E0|]. split.
  - eapply Qle_trans; [|exact S1].
    assert (B1 : e * (1 - 4 * ep) <= y * ((1 + ep) * (1 - 4 * ep))). { setoid_replace (y * ((1 + ep) * (1 - 4 * ep))) with ((y + ep * y) * (1 - 4 * ep)) by ring. apply Qmult_le_compat_r; lra. }
    assert (B0 : 0 <= e * (1 - 4 * ep)) by (apply Qmult_le_0_compat; lra).
    pose proof (sqmul_le _ _ B0 B1) as B2.
    eapply Qle_trans; [apply Qmult_le_compat_r; [exact B2|lra]|].
    set (k := (1 + ep) * (1 - 4 * ep)) in *.
    eapply Qle_trans; [apply Qmul_le_left|].
    + nra.
    + exact T2.
    + setoid_replace (y * k * (y * k) * (t * (1 + ep) * (t * (1 + ep)))) with ((s * (k * (1 + ep))) * (s * (k * (1 + ep)))) by (rewrite Hy; ring).
      assert (K0 : 0 <= k) by (unfold k; apply Qmult_le_0_compat; lra). apply sqmul_le.
      * apply Qmult_le_0_compat; [exact S0|]. apply Qmult_le_0_compat; lra.
      * rewrite !(Qmult_comm s). apply Qmult_le_compat_r; [|exact S0]. unfold k. nra.
  - eapply Qle_trans; [exact S2|].
    assert (B1 : y * ((1 - ep) * (1 + 4 * ep)) <= e * (1 + 4 * ep)). { setoid_replace (y * ((1 - ep) * (1 + 4 * ep))) with ((y - ep * y) * (1 + 4 * ep)) by ring. apply Qmult_le_compat_r; lra. }
    set (k := (1 - ep) * (1 + 4 * ep)) in *. assert (K0 : 0 <= k) by (unfold k; apply Qmult_le_0_compat; lra).
    assert (B0 : 0 <= y * k) by (apply Qmult_le_0_compat; lra). pose proof (sqmul_le _ _ B0 B1) as B2.
    eapply Qle_trans; [|apply Qmult_le_compat_r; [exact B2|lra]].
    eapply Qle_trans; [|apply Qmul_le_left; [nra|exact T1]].
    setoid_replace (y * k * (y * k) * (t * (1 - ep) * (t * (1 - ep)))) with ((s * (k * (1 - ep))) * (s * (k * (1 - ep)))) by (rewrite Hy; ring).
    apply sqmul_le; [apply Qmult_le_0_compat; lra|]. rewrite !(Qmult_comm s). apply Qmult_le_compat_r; [|exact S0]. unfold k. nra.
Qed.

Lemma std_eq vs : vs <> [] -> Forall not_float vs -> std A vs = Ok (NDec (dec_sqrt (rvar A (nval <$> vs)))).
Proof.
  intros Hne HF. unfold std. rewrite var_eq by assumption. cbn [bind nsqrt].
  assert (H : Qle_bool 0 (rvar A (nval <$> vs)) = true) by (apply Qle_bool_iff, rvar_pos; destruct vs; [contradiction|discriminate]). rewrite H. reflexivity.
Qed.

Lemma stderr_eq vs : vs <> [] -> Forall not_float vs ->
  stderr A vs = Ok (NDec (rd A (dec_sqrt (rvar A (nval <$> vs)) / dec_sqrt (inject_Z (zlen vs))))).
Proof.
  intros Hne HF. unfold stderr. rewrite std_eq by assumption. cbn [bind nsqrt]. pose proof (inj_pos _ (zlen_pos vs Hne)) as Hn.
  assert (H : Qle_bool 0 (inject_Z (zlen vs)) = true) by (apply Qle_bool_iff; lra). rewrite H. cbn [bind ndiv].
  destruct (dec_sqrt_error (inject_Z (zlen vs)) ltac:(lra)) as (_ & _ & _ & Hp). specialize (Hp Hn).
  assert (Hz : qzero (dec_sqrt (inject_Z (zlen vs))) = false).
  { destruct (qzero (dec_sqrt (inject_Z (zlen vs)))) eqn:E; [|reflexivity]. apply Qeq_bool_iff in E. lra. }
  rewrite Hz. reflexivity.
Qed.

Lemma summarize_eq pairs : pairs <> [] -> Forall not_float pairs.*2 ->
  let xs := nval <$> pairs.*2 in
  summarize A pairs = Ok (NDec (rmean A xs), NDec (dec_sqrt (rvar A xs)), NDec (rvar A xs), NDec (rd A (dec_sqrt (rvar A xs) / dec_sqrt (inject_Z (zlen pairs)))), zlen pairs).
Proof.
  intros Hne HF xs. assert (Hne2 : pairs.*2 <> []) by (destruct pairs; [contradiction|discriminate]).
  unfold summarize. rewrite mean_eq, std_eq, var_eq, stderr_eq by assumption. cbn [bind]. rewrite zlen_fmap. reflexivity.
Qed.

(** ** Rounding errors *)

Lemma qsum_abs l (B : Q) : Forall (fun x => Qabs x <= B) l -> Qabs (qsum l) <= inject_Z (zlen l) * B.
Proof.
  induction 1 as [|x l Hx _ IH]; [change (inject_Z (zlen [])) with 0; rewrite Qmult_0_l; discriminate|]. rewrite qsum_cons. unfold zlen in *. cbn [length]. rewrite Nat2Z.inj_succ, <- Z.add_1_r, inject_Z_plus.
  eapply Qle_trans; [apply Qabs_triangle|]. change (inject_Z 1) with 1. lra.
Qed.

Definition eta : Q := qpow 10 (-27).
Lemma eta_pos : 0 < eta. Proof. reflexivity. Qed.

Lemma rsum_error l (B : Q) : 0 <= B -> Forall (fun x => Qabs x <= B) l -> inject_Z (zlen l) * eta <= 1 ->
  Qabs (rsum A l - qsum l) <= (1 # 2) * eta * (inject_Z (zlen l) * inject_Z (zlen l)) * B.
Proof.
  intros HB. induction l as [|x l IH] using rev_ind; intros HF Hk; [change (inject_Z (zlen [])) with 0; change (Qabs (rsum A [] - qsum [])) with 0; lra|].
  apply Forall_app in HF as [HF Hx]. apply Forall_inv in Hx. rewrite rsum_snoc, qsum_app.
  pose proof (qsum_abs l B HF) as HS. unfold zlen in *. rewrite app_length in *. cbn [length] in *. rewrite Nat.add_1_r, Nat2Z.inj_succ, <- Z.add_1_r, inject_Z_plus in *.
  change (inject_Z 1) with 1 in *. set (k := inject_Z (Z.of_nat (length l))) in *.
  assert (K0 : 0 <= k) by (unfold k; change 0 with (inject_Z 0); rewrite <- Zle_Qle; lia).
  pose proof eta_pos as He. specialize (IH HF ltac:(lra)).
  pose proof (rd_err A SA (rsum A l + x)) as HR. fold eta in HR. set (y := rsum A l + x) in *.
  assert (Hy : Qabs y <= Qabs (rsum A l - qsum l) + Qabs (qsum l) + Qabs x).
  { unfold y. setoid_replace (rsum A l + x) with ((rsum A l - qsum l) + qsum l + x) by ring. eapply Qle_trans; [apply Qabs_triangle|]. pose proof (Qabs_triangle (rsum A l - qsum l) (qsum l)). lra. }
  assert (HT : Qabs (rd A y - (qsum l + qsum [x])) <= Qabs (rd A y - y) + Qabs (rsum A l - qsum l)).
  { setoid_replace (rd A y - (qsum l + qsum [x])) with ((rd A y - y) + (rsum A l - qsum l)) by (unfold y; cbn; ring). apply Qabs_triangle. }
  eapply Qle_trans; [exact HT|]. set (E := Qabs (rsum A l - qsum l)) in *.
  assert (H1 : eta * (k * B) <= B). { setoid_replace (eta * (k * B)) with (k * eta * B) by ring. setoid_replace B with (1 * B) at 2 by ring. apply Qmult_le_compat_r; lra. }
  assert (KB : 0 <= k * B) by (apply Qmult_le_0_compat; assumption).
  assert (H2 : eta * (k * k * B) <= k * B). { setoid_replace (eta * (k * k * B)) with (k * (eta * (k * B))) by ring. apply Qmul_le_left; assumption. }
  assert (H3 : (1 # 2) * eta * Qabs y <= (1 # 2) * eta * (k * B + B + (1 # 2) * (k * B))).
  { apply Qmul_le_left; [lra|]. lra. }
  setoid_replace ((1 # 2) * eta * ((k + 1) * (k + 1)) * B) with ((1 # 2) * eta * (k * k * B) + (1 # 2) * eta * (2 * (k * B) + B)) by ring.
  assert (H4 : (1 # 2) * eta * (k * B + B + (1 # 2) * (k * B)) <= (1 # 2) * eta * (2 * (k * B) + B)) by (apply Qmul_le_left; lra).
  assert (H5 : (1 # 2) * eta * (k * k) * B == (1 # 2) * eta * (k * k * B)) by ring. lra.
Qed.

Lemma Qabs_div x n : 0 < n -> Qabs (x / n) == Qabs x / n.
Proof. intros H. unfold Qdiv. rewrite Qabs_Qmult, (Qabs_pos (/ n)); [reflexivity|]. apply Qlt_le_weak, Qinv_lt_0_compat, H. Qed.

(** Dividing a sum known up to [n * D] whose terms are bounded by [B]. *)
Lemma quot_error n S' S D B : 0 < n -> 0 <= B -> Qabs (S' - S) <= n * D -> Qabs S <= n * B ->
  Qabs (rd A (S' / n) - S / n) <= D + (1 # 2) * eta * (B + D).
Proof.
  intros Hn HB HD HS. pose proof (rd_err A SA (S' / n)) as HR. fold eta in HR. pose proof eta_pos as He.
  assert (H1 : Qabs (S' / n - S / n) <= D).
  { setoid_replace (S' / n - S / n) with ((S' - S) / n) by (field; lra). rewrite Qabs_div by exact Hn. apply Qdiv_bounds; [exact Hn|]. lra. }
  assert (H2 : Qabs (S / n) <= B). { rewrite Qabs_div by exact Hn. apply Qdiv_bounds; [exact Hn|]. lra. }
  assert (H3 : Qabs (S' / n) <= B + D).
  { setoid_replace (S' / n) with (S / n + (S' / n - S / n)) by ring. eapply Qle_trans; [apply Qabs_triangle|]. lra. }
  setoid_replace (rd A (S' / n) - S / n) with ((rd A (S' / n) - S' / n) + (S' / n - S / n)) by ring. eapply Qle_trans; [apply Qabs_triangle|].
  assert (H4 : (1 # 2) * eta * Qabs (S' / n) <= (1 # 2) * eta * (B + D)) by (apply Qmul_le_left; lra). lra.
Qed.

Definition qvar (xs : list Q) : Q := qsum ((fun x => (x - qmean xs) * (x - qmean xs)) <$> xs) / inject_Z (zlen xs).
Lemma qvar_eq xs : variance xs = qvar xs.
Proof. unfold variance, qvar, average. rewrite zlen_fmap. reflexivity. Qed.

Lemma rmean_error xs (B : Q) : xs <> [] -> 0 <= B -> Forall (fun x => Qabs x <= B) xs -> inject_Z (zlen xs) * eta <= 1 ->
  Qabs (rmean A xs - qmean xs) <= (inject_Z (zlen xs) + 1) * eta * B.
Proof.
  intros Hne HB HF Hk. pose proof (rsum_error xs B HB HF Hk) as HS. pose proof (qsum_abs xs B HF) as HQ.
  pose proof (inj_pos _ (zlen_pos xs Hne)) as Hn. set (n := inject_Z (zlen xs)) in *. pose proof eta_pos as He.
  unfold rmean, average. fold n. eapply Qle_trans; [apply (quot_error n _ _ ((1 # 2) * eta * n * B) B Hn HB); [|exact HQ]|].
  - eapply Qle_trans; [exact HS|]. apply Qle_lteq. right. ring.
  - assert (H1 : eta * n * B <= B). { setoid_replace B with (1 * B) at 2 by ring. apply Qmult_le_compat_r; [|exact HB]. lra. }
    assert (H2 : (1 # 2) * eta * (B + (1 # 2) * eta * n * B) <= (1 # 2) * eta * (2 * B)) by (apply Qmul_le_left; lra).
    assert (H3 : 0 <= eta * n * B). { apply Qmult_le_0_compat; [|exact HB]. apply Qmult_le_0_compat; lra. }
    setoid_replace ((n + 1) * eta * B) with (eta * n * B + eta * B) by ring. assert (0 <= eta * B) by (apply Qmult_le_0_compat; lra). lra.
Qed.

Lemma qmean_abs xs (B : Q) : xs <> [] -> Forall (fun x => Qabs x <= B) xs -> Qabs (qmean xs) <= B.
Proof.
  intros Hne HF. pose proof (inj_pos _ (zlen_pos xs Hne)) as Hn. pose proof (qsum_abs xs B HF) as HQ. unfold average. rewrite Qabs_div by exact Hn.
  apply Qdiv_bounds; [exact Hn|]. lra.
Qed.

Lemma abs_le x b : Qabs x <= b <-> - b <= x /\ x <= b.
Proof. apply Qabs_Qle_condition. Qed.

(** One squared deviation. *)
Lemma rdev_error x m m' (B d : Q) : 0 <= B -> Qabs x <= B -> Qabs m <= B -> Qabs (m' - m) <= d -> d <= (1 # 100) * B ->
  Qabs (rdev A m' x - (x - m) * (x - m)) <= (5 # 1) * B * d + (11 # 1) * eta * (B * B) /\ Qabs (rdev A m' x) <= (5 # 1) * (B * B).
Proof.
  intros HB Hx Hm Hd Hs. pose proof eta_pos as He. assert (He2 : eta <= 1 # 1000) by discriminate.
  pose proof (rd_err A SA (x - m')) as HR. fold eta in HR. set (y := rd A (x - m')) in *.
  pose proof (r2_err A SA (y * y)) as H2. fold eta in H2. unfold rdev. fold y. set (w := r2 A (y * y)) in *.
  assert (D0 : 0 <= d) by (eapply Qle_trans; [apply Qabs_nonneg|exact Hd]).
  rewrite (Qabs_pos (y * y)) in H2 by nra.
  apply abs_le in Hx, Hm, Hd. assert (Hxm : Qabs (x - m') <= 3 * B) by (apply abs_le; lra).
  assert (HR' : Qabs (y - (x - m')) <= (3 # 2) * (eta * B)).
  { eapply Qle_trans; [exact HR|]. setoid_replace ((3 # 2) * (eta * B)) with ((1 # 2) * eta * (3 * B)) by ring. apply Qmul_le_left; lra. }
  apply abs_le in HR', H2.
  assert (EB : 0 <= eta * B) by (apply Qmult_le_0_compat; lra). assert (EB2 : eta * B <= (1 # 1000) * B) by (apply Qmult_le_compat_r; lra).
  set (g := y - (x - m)). assert (Hg : Qabs g <= d + (3 # 2) * (eta * B)) by (apply abs_le; unfold g; lra).
  assert (Hy : Qabs y <= (21 # 10) * B) by (apply abs_le; lra).
  assert (Hyd : Qabs (y + (x - m)) <= (41 # 10) * B) by (apply abs_le; lra).
  assert (Hsq : Qabs (y * y - (x - m) * (x - m)) <= (d + (3 # 2) * (eta * B)) * ((41 # 10) * B)).
  { setoid_replace (y * y - (x - m) * (x - m)) with (g * (y + (x - m))) by (unfold g; ring). rewrite Qabs_Qmult. apply Qmult_le_compat_nonneg; split; try apply Qabs_nonneg; assumption. }
  assert (Hyy : 0 <= y * y <= (441 # 100) * (B * B)).
  { split; [nra|]. apply abs_le in Hy. nra. }
  assert (Hw : Qabs (w - y * y) <= (441 # 100) * (eta * (B * B))).
  { apply abs_le. setoid_replace ((441 # 100) * (eta * (B * B))) with (eta * ((441 # 100) * (B * B))) by ring. assert (eta * (y * y) <= eta * ((441 # 100) * (B * B))) by (apply Qmul_le_left; lra). lra. }
  assert (BB : 0 <= B * B) by nra. assert (BD : 0 <= B * d) by (apply Qmult_le_0_compat; assumption).
  assert (EBB : 0 <= eta * (B * B)) by (apply Qmult_le_0_compat; lra). assert (EBB2 : eta * (B * B) <= (1 # 1000) * (B * B)) by (apply Qmult_le_compat_r; lra).
  split.
  - setoid_replace (w - (x - m) * (x - m)) with ((w - y * y) + (y * y - (x - m) * (x - m))) by ring. eapply Qle_trans; [apply Qabs_triangle|].
    setoid_replace ((d + (3 # 2) * (eta * B)) * ((41 # 10) * B)) with ((41 # 10) * (B * d) + (123 # 20) * (eta * (B * B))) in Hsq by ring.
    setoid_replace ((5 # 1) * B * d + (11 # 1) * eta * (B * B)) with ((5 # 1) * (B * d) + (11 # 1) * (eta * (B * B))) by ring.
    lra.
  - apply abs_le. apply abs_le in Hw. lra.
Qed.

Lemma qsum_diff {X} (f g : X -> Q) l (D : Q) : Forall (fun x => Qabs (f x - g x) <= D) l -> Qabs (qsum (f <$> l) - qsum (g <$> l)) <= inject_Z (zlen l) * D.
Proof.
  intros H. assert (E : qsum (f <$> l) - qsum (g <$> l) == qsum ((fun x => f x - g x) <$> l)).
  { clear H. induction l as [|x l IH]; [reflexivity|]. rewrite !fmap_cons, !qsum_cons, <- IH. ring. }
  rewrite E. replace (zlen l) with (zlen ((fun x => f x - g x) <$> l)) by apply zlen_fmap. apply qsum_abs, Forall_fmap, H.
Qed.

Lemma rvar_error xs (B : Q) : xs <> [] -> 0 <= B -> Forall (fun x => Qabs x <= B) xs -> inject_Z (zlen xs) * eta <= 1 # 1000 ->
  Qabs (rvar A xs - qvar xs) <= (8 * inject_Z (zlen xs) + 19) * eta * (B * B).
Proof.
  intros Hne HB HF Hk. pose proof (rmean_error xs B Hne HB HF ltac:(lra)) as Hm. pose proof (qmean_abs xs B Hne HF) as Hm0.
  pose proof (inj_pos _ (zlen_pos xs Hne)) as Hn. unfold rvar, qvar. set (n := inject_Z (zlen xs)) in *. pose proof eta_pos as He. assert (He2 : eta <= 1 # 1000) by discriminate.
  set (m := qmean xs) in *. set (m' := rmean A xs) in *. set (d := (n + 1) * eta * B) in *.
  assert (Hd : d <= (1 # 100) * B). { unfold d. apply Qmult_le_compat_r; [|exact HB]. setoid_replace ((n + 1) * eta) with (n * eta + eta) by ring. lra. }
  set (G := (5 # 1) * B * d + (11 # 1) * eta * (B * B)).
  assert (HG : Forall (fun x => Qabs (rdev A m' x - (x - m) * (x - m)) <= G /\ Qabs (rdev A m' x) <= (5 # 1) * (B * B)) xs).
  { eapply Forall_impl; [exact HF|]. intros x Hx. apply rdev_error; assumption. }
  assert (BB : 0 <= B * B) by nra.
  assert (H1 : Qabs (rsum A (rdev A m' <$> xs) - qsum (rdev A m' <$> xs)) <= (1 # 2) * eta * (n * n) * ((5 # 1) * (B * B))).
  { assert (E : zlen (rdev A m' <$> xs) = zlen xs) by apply zlen_fmap. pose proof (rsum_error (rdev A m' <$> xs) ((5 # 1) * (B * B))) as R. rewrite E in R. apply R; [lra| |fold n; lra].
    apply Forall_fmap. eapply Forall_impl; [exact HG|]. intros x [_ H]. exact H. }
  assert (H2 : Qabs (qsum (rdev A m' <$> xs) - qsum ((fun x => (x - m) * (x - m)) <$> xs)) <= n * G).
  { apply qsum_diff. eapply Forall_impl; [exact HG|]. intros x [H _]. exact H. }
  assert (H3 : Qabs (qsum ((fun x => (x - m) * (x - m)) <$> xs)) <= n * (4 * (B * B))).
  { unfold n. rewrite <- (zlen_fmap (fun x => (x - m) * (x - m)) xs). apply qsum_abs, Forall_fmap. eapply Forall_impl; [exact HF|]. intros x Hx.
    change (Qabs ((x - m) * (x - m)) <= 4 * (B * B)). apply abs_le. apply abs_le in Hx, Hm0. clearbody m. split; nra. }
  set (S' := rsum A (rdev A m' <$> xs)) in *. set (S1 := qsum (rdev A m' <$> xs)) in *. set (S := qsum ((fun x => (x - m) * (x - m)) <$> xs)) in *.
  set (D := G + (5 # 2) * (n * eta) * (B * B)).
  assert (HD : Qabs (S' - S) <= n * D).
  { setoid_replace (S' - S) with ((S' - S1) + (S1 - S)) by ring. eapply Qle_trans; [apply Qabs_triangle|]. unfold D.
    setoid_replace (n * (G + (5 # 2) * (n * eta) * (B * B))) with (n * G + (1 # 2) * eta * (n * n) * ((5 # 1) * (B * B))) by ring. lra. }
  eapply Qle_trans; [apply (quot_error n S' S D (4 * (B * B)) Hn ltac:(lra) HD H3)|].
  assert (ED : D == (15 # 2) * (n * eta * (B * B)) + 16 * (eta * (B * B))) by (unfold D, G, d; ring).
  assert (N1 : 0 <= n * eta * (B * B)) by (apply Qmult_le_0_compat; [apply Qmult_le_0_compat; lra|exact BB]).
  assert (N2 : n * eta * (B * B) <= (1 # 1000) * (B * B)) by (apply Qmult_le_compat_r; assumption).
  assert (N3 : 0 <= eta * (B * B)) by (apply Qmult_le_0_compat; lra).
  assert (N4 : eta * (B * B) <= (1 # 1000) * (B * B)) by (apply Qmult_le_compat_r; lra).
  assert (N5 : (1 # 2) * eta * (4 * (B * B) + D) <= (1 # 2) * eta * (5 * (B * B))) by (apply Qmul_le_left; [lra|]; rewrite ED; lra).
  setoid_replace ((8 * n + 19) * eta * (B * B)) with (8 * (n * eta * (B * B)) + 19 * (eta * (B * B))) by ring. rewrite ED in *. lra.
Qed.
End Sane.

(** ** Exact arithmetic *)

Lemma rsum_exact l : rsum exactA l == qsum l.
Proof. induction l as [|x l IH] using rev_ind; [reflexivity|]. rewrite rsum_snoc, qsum_app. cbn [rd exactA]. rewrite Qred_correct, IH. cbn. ring. Qed.

Lemma rmean_exact xs : rmean exactA xs == qmean xs.
Proof. unfold rmean, average. cbn [rd exactA]. rewrite Qred_correct, rsum_exact. reflexivity. Qed.

Lemma rvar_exact xs : rvar exactA xs == qvar xs.
Proof.
  unfold rvar, qvar. cbn [rd exactA]. rewrite Qred_correct, rsum_exact. apply Qmult_comp; [|reflexivity]. apply qsum_fmap_ext. intros x _.
  unfold rdev. cbn [rd r2 exactA]. rewrite !Qred_correct, rmean_exact. reflexivity.
Qed.

Lemma qmean_between xs lo hi : xs <> [] -> (forall x, x ∈ xs -> lo <= x /\ x <= hi) -> lo <= qmean xs /\ qmean xs <= hi.
Proof.
  intros Hne H. pose proof (inj_pos _ (zlen_pos xs Hne)) as Hn. unfold average.
  assert (E : (fun x : Q => x) <$> xs = xs) by apply list_fmap_id.
  assert (H1 : qsum ((fun _ => lo) <$> xs) <= qsum ((fun x => x) <$> xs)) by (apply qsum_mono; intros x Hx; apply H, Hx).
  assert (H2 : qsum ((fun x => x) <$> xs) <= qsum ((fun _ => hi) <$> xs)) by (apply qsum_mono; intros x Hx; apply H, Hx).
  rewrite qsum_const in H1, H2. rewrite E in H1, H2. split; [apply Qdiv_bounds_l; lra|apply Qdiv_bounds; lra].
Qed.

Lemma qsq_nonneg (q : Q) : 0 <= q * q. Proof. nra. Qed.
Lemma qsq_zero (q : Q) : q * q <= 0 -> q == 0. Proof. nra. Qed.

Lemma qvar_pos xs : xs <> [] -> 0 <= qvar xs.
Proof.
  intros Hne. pose proof (inj_pos _ (zlen_pos xs Hne)) as Hn. unfold qvar. apply Qdiv_bounds_l; [exact Hn|]. rewrite Qmult_0_l. apply qsum_nonneg, Forall_fmap, Forall_forall.
  intros x _. apply qsq_nonneg.
Qed.

Lemma qvar_zero xs : xs <> [] -> (qvar xs == 0 <-> forall x y, x ∈ xs -> y ∈ xs -> x == y).
Proof.
  intros Hne. pose proof (inj_pos _ (zlen_pos xs Hne)) as Hn. split.
  - intros E. assert (S0 : qsum ((fun x => (x - qmean xs) * (x - qmean xs)) <$> xs) == 0).
    { unfold qvar in E. set (S := qsum _) in *. set (n := inject_Z (zlen xs)) in *. setoid_replace S with (S / n * n) by (field; lra). rewrite E. ring. }
    assert (K : forall x, x ∈ xs -> x == qmean xs).
    { intros x Hx. pose proof (qsum_elem (fun x => (x - qmean xs) * (x - qmean xs)) xs x) as Q. cbv beta in Q. specialize (Q ltac:(intros; apply qsq_nonneg) Hx). rewrite S0 in Q. apply qsq_zero in Q. lra. }
    intros x y Hx Hy. rewrite (K x Hx), (K y Hy). reflexivity.
  - intros H. unfold qvar. assert (K : forall x, x ∈ xs -> x == qmean xs).
    { intros x Hx. destruct (qmean_between xs x x Hne) as [B1 B2]; [intros y Hy; rewrite (H y x Hy Hx); lra|]. lra. }
    rewrite qsum_zero; [field; lra|]. intros x Hx. cbv beta. rewrite <- (K x Hx). ring.
Qed.

(** ** Values with common last digit *)


Lemma zsum_abs l : (Z.abs (zsum l) <= zsum (Z.abs <$> l))%Z.
Proof. induction l as [|z l IH]; [reflexivity|]. rewrite fmap_cons. unfold zsum in *. cbn [foldr]. lia. Qed.

Lemma zsum_snoc l z : zsum (l ++ [z]) = (zsum l + z)%Z.
Proof. induction l as [|x l IH]; unfold zsum in *; cbn [app foldr]; lia. Qed.

Lemma rsum_grid e zs xs : Forall2 (grid e) zs xs -> (zsum (Z.abs <$> zs) <= 10 ^ 28)%Z -> grid e (zsum zs) (rsum pyA xs) /\ rsum pyA xs == qsum xs.
Proof.
  revert xs. induction zs as [|z zs IH] using rev_ind; intros xs HF Hb.
  - apply Forall2_nil_inv_l in HF as ->. split; reflexivity.
  - apply Forall2_app_inv_l in HF as (ys & w & HF & Hw & ->). apply Forall2_cons_inv_l in Hw as (x & t & Hx & Ht & ->). apply Forall2_nil_inv_l in Ht as ->.
    rewrite fmap_app in Hb. cbn [fmap list_fmap] in Hb. rewrite zsum_snoc in Hb. destruct (IH ys HF ltac:(lia)) as [G1 G2]. rewrite rsum_snoc, zsum_snoc, qsum_app.
    assert (G : grid e (zsum zs + z) (rsum pyA ys + x)). { unfold grid in *. rewrite inject_Z_plus, G1, Hx. ring. }
    assert (R : rd pyA (rsum pyA ys + x) == rsum pyA ys + x).
    { cbn [rd pyA]. unfold dec28. apply (rnd_exact 10 28 ltac:(lia) ltac:(lia) _ (zsum zs + z) e G). pose proof (zsum_abs zs). lia. }
    split; [unfold grid; rewrite R; exact G|]. rewrite R, G2. cbn. ring.
Qed.

Lemma grid_elem_abs zs : forall z, z ∈ zs -> (Z.abs z <= zsum (Z.abs <$> zs))%Z.
Proof.
  assert (P : forall l, (0 <= zsum (Z.abs <$> l))%Z) by (intros l; induction l as [|a l IH]; [reflexivity|]; rewrite fmap_cons; unfold zsum in *; cbn [foldr]; lia).
  induction zs as [|a zs IH]; intros z Hz; [inversion Hz|]. rewrite fmap_cons. unfold zsum in *. cbn [foldr]. specialize (P zs). unfold zsum in P. apply elem_of_cons in Hz as [->|Hz]; [lia|]. specialize (IH z Hz). lia.
Qed.

Lemma rd_grid e z x : grid e z x -> (Z.abs z <= 10 ^ 28)%Z -> rd pyA x == x.
Proof. intros G H. cbn [rd pyA]. unfold dec28. apply (rnd_exact 10 28 ltac:(lia) ltac:(lia) x z e G H). Qed.

Lemma rmean_grid e zs xs lo hi : xs <> [] -> Forall2 (grid e) zs xs -> (zsum (Z.abs <$> zs) <= 10 ^ 28)%Z -> lo ∈ xs -> hi ∈ xs ->
  (forall x, x ∈ xs -> lo <= x /\ x <= hi) -> lo <= rmean pyA xs /\ rmean pyA xs <= hi.
Proof.
  intros Hne HF Hb Hlo Hhi H. destruct (rsum_grid e zs xs HF Hb) as [_ ES]. destruct (qmean_between xs lo hi Hne H) as [B1 B2].
  assert (EM : rmean pyA xs == rd pyA (qmean xs)). { unfold rmean, average. rewrite (rd_ext pyA sane_pyA _ (qsum xs / inject_Z (zlen xs))); [reflexivity|]. rewrite ES. reflexivity. }
  assert (F : forall x, x ∈ xs -> rd pyA x == x).
  { intros x Hx. apply elem_of_list_lookup in Hx as [i Hi]. destruct (Forall2_lookup_r _ _ _ _ _ HF Hi) as (z & Hz & G). apply (rd_grid e z x G). pose proof (grid_elem_abs zs z ltac:(apply elem_of_list_lookup; eauto)). lia. }
  rewrite EM. split.
  - rewrite <- (F lo Hlo). apply (rd_mono pyA sane_pyA), B1.
  - rewrite <- (F hi Hhi). apply (rd_mono pyA sane_pyA), B2.
Qed.

Lemma rvar_const A xs : sane A -> xs <> [] -> (forall x, x ∈ xs -> x == rmean A xs) -> rvar A xs == 0.
Proof.
  intros SA Hne H. pose proof (inj_pos _ (zlen_pos xs Hne)) as Hn. unfold rvar.
  assert (E : rsum A (rdev A (rmean A xs) <$> xs) == 0).
  { assert (K : Forall (fun y => y == 0) (rdev A (rmean A xs) <$> xs)).
    { apply Forall_fmap, Forall_forall. intros x Hx. unfold compose, rdev. apply r2_zero; [exact SA|]. rewrite rd_zero; [reflexivity|exact SA|]. rewrite (H x Hx). ring. }
    clear H. generalize dependent (rdev A (rmean A xs) <$> xs). intros l K. induction l as [|y l IH] using rev_ind; [reflexivity|].
    apply Forall_app in K as [K1 K2]. apply Forall_inv in K2. rewrite rsum_snoc. apply rd_zero; [exact SA|]. rewrite (IH K1), K2. ring. }
  apply rd_zero; [exact SA|]. rewrite E. field. lra.
Qed.

(** ** Failures *)

Lemma foldM_float A vs a : ~ Forall not_float vs -> foldM (nadd A) vs (NDec a) = Err TypeError.
Proof.
  revert a. induction vs as [|v vs IH]; intros a H; [destruct H; constructor|]. cbn [foldM]. destruct v as [z|q|q]; cbn [nadd num2 bind]; [apply IH| apply IH|reflexivity]; intros K; apply H; constructor; (exact I || exact K).
Qed.

Lemma summarize_float A pairs : ~ Forall not_float pairs.*2 -> summarize A pairs = Err TypeError.
Proof. intros H. unfold summarize, mean. rewrite foldM_float by exact H. reflexivity. Qed.

(** ** More about the variance *)

Lemma qsum_shift xs c : qsum ((fun x => (x - c) * (x - c)) <$> xs) == qsum ((fun x => x * x) <$> xs) - 2 * c * qsum xs + inject_Z (zlen xs) * (c * c).
Proof.
  induction xs as [|x xs IH]; [change (inject_Z (zlen [])) with 0; cbn; ring|]. rewrite !fmap_cons, !qsum_cons, IH. unfold zlen. cbn [length]. rewrite Nat2Z.inj_succ, <- Z.add_1_r, inject_Z_plus.
  change (inject_Z 1) with 1. ring.
Qed.

Lemma qvar_min xs c : xs <> [] -> qvar xs <= qsum ((fun x => (x - c) * (x - c)) <$> xs) / inject_Z (zlen xs).
Proof.
  intros Hne. pose proof (inj_pos _ (zlen_pos xs Hne)) as Hn. unfold qvar. set (n := inject_Z (zlen xs)) in *.
  apply Qdiv_bounds; [exact Hn|]. set (T := qsum ((fun x => (x - c) * (x - c)) <$> xs)). setoid_replace (T / n * n) with T by (field; lra). unfold T.
  rewrite !qsum_shift. fold n. set (m := qmean xs). assert (E : qsum xs == n * m) by (unfold m, average; fold n; field; lra). rewrite E.
  assert (0 <= n * ((m - c) * (m - c))) by (apply Qmult_le_0_compat; [lra|apply qsq_nonneg]). lra.
Qed.

Lemma qvar_spread xs lo hi : xs <> [] -> (forall x, x ∈ xs -> lo <= x /\ x <= hi) -> qvar xs <= (hi - lo) * (hi - lo) / 4.
Proof.
  intros Hne H. pose proof (inj_pos _ (zlen_pos xs Hne)) as Hn. eapply Qle_trans; [apply (qvar_min xs ((lo + hi) / 2) Hne)|]. apply Qdiv_bounds; [exact Hn|].
  eapply Qle_trans; [apply (qsum_mono _ (fun _ => (hi - lo) * (hi - lo) / 4))|].
  - intros x Hx. destruct (H x Hx) as [H1 H2]. assert (0 <= (hi - x) * (x - lo)) by (apply Qmult_le_0_compat; lra).
    setoid_replace ((x - (lo + hi) / 2) * (x - (lo + hi) / 2)) with ((hi - lo) * (hi - lo) / 4 - (hi - x) * (x - lo)) by field. lra.
  - rewrite qsum_const. lra.
Qed.

Lemma average_perm xs ys : xs ≡ₚ ys -> average xs == average ys.
Proof. intros H. unfold average, zlen. rewrite (qsum_perm _ _ H), (Permutation_length H). reflexivity. Qed.
Lemma qvar_perm xs ys : xs ≡ₚ ys -> qvar xs == qvar ys.
Proof.
  intros H. unfold qvar, zlen. rewrite (Permutation_length H). apply Qmult_comp; [|reflexivity]. rewrite (qsum_perm _ _ (fmap_Permutation _ _ _ H)).
  apply qsum_fmap_ext. intros x _. rewrite (average_perm xs ys H). reflexivity.
Qed.

Lemma dec_sqrt_ext p q : p == q -> dec_sqrt p = dec_sqrt q.
Proof. intros E. unfold dec_sqrt. rewrite (Qred_complete p q E). reflexivity. Qed.

(** ** The statements *)

Lemma near_root_ext r v d d' : d == d' -> near_root r v d -> near_root r v d'.
Proof. intros E (H1 & H2 & H3). unfold near_root. rewrite <- E. auto. Qed.

Lemma sqrt_near v : 0 <= v -> near_root (dec_sqrt v) v (5 # 10 ^ 28).
Proof.
  intros Hv. apply (near_root_ext _ _ ((1 # 2) * qpow 10 (-27))); [reflexivity|]. destruct (dec_sqrt_error v Hv) as (H1 & H2 & H3 & _). split; [exact H1|]. exact (conj H2 H3).
Qed.

Lemma stderr_near A v n : sane A -> 0 <= v -> 0 < n -> near_root (rd A (dec_sqrt v / dec_sqrt n)) (v / n) (2 # 10 ^ 27).
Proof.
  intros SA Hv Hn. apply (near_root_ext _ _ (2 * qpow 10 (-27))); [reflexivity|]. destruct (stderr_error A SA v n Hv Hn) as (H1 & H2 & H3). split; [exact H1|].
  split; [apply Qdiv_bounds_l|apply Qdiv_bounds]; assumption.
Qed.

Lemma summary_exact pairs : pairs <> [] -> Forall not_float pairs.*2 -> let xs := nval <$> pairs.*2 in let n := inject_Z (zlen pairs) in
  exists m s v e, summarize exactA pairs = Ok (NDec m, NDec s, NDec v, NDec e, zlen pairs) /\ m == average xs /\ v == variance xs /\
    near_root s v (5 # 10 ^ 28) /\ near_root e (v / n) (2 # 10 ^ 27).
Proof.
  intros Hne HF xs n. pose proof (inj_pos _ (zlen_pos pairs Hne)) as Hn. fold n in Hn.
  assert (Hx : xs <> []) by (unfold xs; destruct pairs; [contradiction|discriminate]).
  rewrite (summarize_eq exactA sane_exactA pairs Hne HF). fold xs n. do 4 eexists. split; [reflexivity|]. split; [apply rmean_exact|]. split; [rewrite qvar_eq; apply rvar_exact|].
  pose proof (rvar_pos exactA sane_exactA xs Hx) as Hv. set (v := rvar exactA xs) in *. split.
  - apply sqrt_near, Hv.
  - apply stderr_near; assumption || apply sane_exactA.
Qed.

Lemma summary_rounded A pairs (B : Q) : sane A -> pairs <> [] -> Forall not_float pairs.*2 -> (zlen pairs <= 10 ^ 24)%Z ->
  (forall x, x ∈ nval <$> pairs.*2 -> Qabs x <= B) -> let xs := nval <$> pairs.*2 in let n := inject_Z (zlen pairs) in
  exists m s v e, summarize A pairs = Ok (NDec m, NDec s, NDec v, NDec e, zlen pairs) /\
    Qabs (m - average xs) <= (n + 1) * B / inject_Z (10 ^ 27) /\ 0 <= v /\ Qabs (v - variance xs) <= (8 * n + 19) * (B * B) / inject_Z (10 ^ 27) /\
    near_root s v (5 # 10 ^ 28) /\ near_root e (v / n) (2 # 10 ^ 27).
Proof.
  intros SA Hne HF HN HB xs n. pose proof (inj_pos _ (zlen_pos pairs Hne)) as Hn. fold n in Hn. fold xs in HB.
  assert (Hx : xs <> []) by (unfold xs; destruct pairs; [contradiction|discriminate]).
  assert (B0 : 0 <= B). { destruct xs as [|x xs']; [contradiction|]. eapply Qle_trans; [apply Qabs_nonneg|]. apply (HB x). left. }
  assert (EZ : zlen xs = zlen pairs) by (unfold xs; rewrite !zlen_fmap; reflexivity).
  assert (HK : inject_Z (zlen xs) * eta <= 1 # 1000).
  { rewrite EZ. rewrite Zle_Qle in HN. eapply Qle_trans; [apply Qmult_le_compat_r; [exact HN|apply Qlt_le_weak, eta_pos]|]. vm_compute. discriminate. }
  apply Forall_forall in HB. pose proof (rmean_error A SA xs B Hx B0 HB ltac:(lra)) as HM. pose proof (rvar_error A SA xs B Hx B0 HB HK) as HV. rewrite EZ in HM, HV. fold n in HM, HV.
  assert (EE : forall q, q * eta == q / inject_Z (10 ^ 27)) by (intros q; reflexivity).
  rewrite (summarize_eq A SA pairs Hne HF). fold xs n. do 4 eexists. split; [reflexivity|]. split.
  { eapply Qle_trans; [exact HM|]. rewrite <- EE. apply Qle_lteq. right. ring. }
  pose proof (rvar_pos A SA xs Hx) as Hv. set (v := rvar A xs) in *. split; [exact Hv|]. split.
  { rewrite qvar_eq. eapply Qle_trans; [exact HV|]. rewrite <- EE. apply Qle_lteq. right. ring. }
  split.
  - apply sqrt_near, Hv.
  - apply stderr_near; assumption || apply sane_exactA.
Qed.

Lemma summarize_inv A pairs m s v e n : sane A -> pairs <> [] -> Forall not_float pairs.*2 -> summarize A pairs = Ok (m, s, v, e, n) ->
  let xs := nval <$> pairs.*2 in
  m = NDec (rmean A xs) /\ s = NDec (dec_sqrt (rvar A xs)) /\ v = NDec (rvar A xs) /\ e = NDec (rd A (dec_sqrt (rvar A xs) / dec_sqrt (inject_Z (zlen pairs)))) /\ n = zlen pairs.
Proof. intros SA Hne HF E. cbv zeta. rewrite (summarize_eq A SA pairs Hne HF) in E. injection E as <- <- <- <- <-. auto. Qed.

(** In the arithmetic of CPython, for values on a common decimal grid. *)
Lemma summary_grid e zs pairs lo hi m s v se n : Forall2 (grid e) zs (nval <$> pairs.*2) -> (zsum (Z.abs <$> zs) <= 10 ^ 28)%Z -> Forall not_float pairs.*2 ->
  summarize pyA pairs = Ok (m, s, v, se, n) -> lo ∈ nval <$> pairs.*2 -> hi ∈ nval <$> pairs.*2 ->
  (forall x, x ∈ nval <$> pairs.*2 -> lo <= x /\ x <= hi) ->
  lo <= nval m /\ nval m <= hi /\ (lo == hi -> nval v == 0 /\ nval s == 0 /\ nval se == 0).
Proof.
  intros HG Hb HF E Hlo Hhi H. assert (Hne : pairs <> []) by (intros ->; inversion Hlo).
  destruct (summarize_inv pyA pairs m s v se n sane_pyA Hne HF E) as (-> & -> & -> & -> & ->). set (xs := nval <$> pairs.*2) in *. cbn [nval].
  assert (Hx : xs <> []) by (intros K; rewrite K in Hlo; inversion Hlo).
  destruct (rmean_grid e zs xs lo hi Hx HG Hb Hlo Hhi H) as [M1 M2]. split; [exact M1|]. split; [exact M2|]. intros EL.
  assert (V : rvar pyA xs == 0). { apply (rvar_const pyA xs sane_pyA Hx). intros x Hx'. destruct (H x Hx') as [? ?]. lra. }
  split; [exact V|]. rewrite (dec_sqrt_zero _ V). split; [reflexivity|]. apply rd_zero; [exact sane_pyA|]. reflexivity.
Qed.

Lemma summary_unit pairs : (zlen pairs <= 10 ^ 28)%Z -> pairs <> [] -> Forall not_float pairs.*2 -> (forall x, x ∈ nval <$> pairs.*2 -> 0 <= x /\ x <= 1) ->
  forall m s v se n, summarize pyA pairs = Ok (m, s, v, se, n) -> 0 <= nval m /\ nval m <= 1.
Proof.
  intros HN Hne HF H m s v se n E. unfold summarize in E. destruct (mean_bound pyA eps28 (10 ^ 28) pairs.*2 1) as (w & Ew & Hw).
  - apply prec_sane, sane_pyA.
  - lia.
  - rewrite zlen_fmap. lia.
  - apply Forall_forall. intros x Hx. rewrite Forall_forall in HF. split; [apply HF, Hx|]. apply (H (nval x)), elem_of_list_fmap_1, Hx.
  - rewrite Ew in E. cbn [bind] in E. destruct (std _ _); [|discriminate]. cbn [bind] in E. destruct (var _ _); [|discriminate]. cbn [bind] in E. destruct (stderr _ _); [|discriminate]. cbn [bind] in E.
    injection E as <- _ _ _ _. exact Hw.
Qed.

Lemma summary_order pairs pairs' : pairs ≡ₚ pairs' -> Forall not_float pairs.*2 -> forall m s v e n m' s' v' e' n',
  summarize exactA pairs = Ok (m, s, v, e, n) -> summarize exactA pairs' = Ok (m', s', v', e', n') -> nval m == nval m' /\ nval s == nval s' /\ nval v == nval v' /\ nval e == nval e' /\ n = n'.
Proof.
  intros HP HF m s v e n m' s' v' e' n' E E'.
  assert (Hne : pairs <> []) by (intros ->; discriminate). assert (Hne' : pairs' <> []) by (intros ->; discriminate).
  assert (HF' : Forall not_float pairs'.*2) by (rewrite <- HP; exact HF).
  destruct (summarize_inv exactA pairs m s v e n sane_exactA Hne HF E) as (-> & -> & -> & -> & ->).
  destruct (summarize_inv exactA pairs' m' s' v' e' n' sane_exactA Hne' HF' E') as (-> & -> & -> & -> & ->).
  assert (HX : nval <$> pairs.*2 ≡ₚ nval <$> pairs'.*2) by (rewrite HP; reflexivity). set (xs := nval <$> pairs.*2) in *. set (ys := nval <$> pairs'.*2) in *.
  assert (EN : zlen pairs = zlen pairs') by (unfold zlen; rewrite (Permutation_length HP); reflexivity).
  assert (EV : rvar exactA xs == rvar exactA ys) by (rewrite !rvar_exact; apply qvar_perm, HX).
  cbn [nval]. split; [rewrite !rmean_exact; apply average_perm, HX|].
  rewrite (dec_sqrt_ext _ _ EV), EN. split; [reflexivity|]. split; [exact EV|]. split; reflexivity.
Qed.

Lemma summary_empty A : summarize A [] = Err InvalidOperation.
Proof. reflexivity. Qed.
