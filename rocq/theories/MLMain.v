(** Averages and F-measure. *)
From Coq Require Import Lqa.
From Verif Require Import SpecML Round RoundProofs SimRound SimProofs MLProofs MLSums.
Open Scope Z_scope.

(** ** Growth by known classes *)

Lemma grown_absorb m m' c : c ∈ keys m -> grown {[c]} m m' -> grown ∅ m m'.
Proof. intros H [C W S K]. split; try assumption. intros x Hx. apply K in Hx. set_solver. Qed.

Lemma grown_weaken ex ex' m m' : ex ⊆ ex' -> grown ex m m' -> grown ex' m m'.
Proof. intros H [C W S K]. split; try assumption. intros x Hx. apply K in Hx. set_solver. Qed.

Lemma grown_trans2 ex m m' m'' : grown ∅ m m' -> grown ex m' m'' -> grown ex m m''.
Proof. intros H1 H2. eapply grown_trans; [|exact H2]. apply (grown_weaken ∅ ex); [set_solver|exact H1]. Qed.

Lemma grown_keys ex m m' c : wf m -> grown ex m m' -> c ∈ cls m -> c ∈ keys m'.
Proof. intros HW G H. apply cls_sub; [apply G|]. apply G, H. Qed.

Lemma exact_grown A ex m m' : grown ex m m' -> exact_cells A m -> exact_cells A m'.
Proof. intros G [H|[H1 H2]]; [left|right; split; [exact H1|]]; intros p a; rewrite (g_cells _ _ _ G); auto. Qed.

Lemma tame_grown A ex m m' : grown ex m m' -> tame A m -> tame A m'.
Proof.
  intros G (H1 & H2 & H3). split; [|split].
  - intros p a. rewrite (g_cells _ _ _ G). apply H1.
  - intros c q. rewrite (g_cells _ _ _ G). apply H2.
  - destruct H3 as [H3|H3]; [left; eapply exact_grown; eassumption|right]. intros p a. rewrite (g_cells _ _ _ G). apply H3.
Qed.

Lemma classes_split m : cm_get_classes m = (cls m, snd (cm_get_classes m)).
Proof. unfold cls. destruct (cm_get_classes m). reflexivity. Qed.

(** ** Micro-average of precision and recall *)

Definition the_metric (A : arith) (o : cord) (byrow : bool) : cmetric := if byrow then precision_metric A o else recall_metric A o.

Lemma the_parts A o byrow m c : cparts (the_metric A o byrow) m c = ratio_parts A o byrow m c.
Proof. destruct byrow; reflexivity. Qed.

Lemma micro_exact A o byrow m : wf m -> cord_ok o -> exact_cells A m ->
  forall l n0 d0 m1, grown ∅ m m1 -> Pex A n0 -> Pex A d0 -> (forall c, c ∈ l -> c ∈ cls m) ->
  exists n d m2, foldM (micro_step A (the_metric A o byrow)) l (n0, d0, m1) = Ok (n, d, m2) /\ grown ∅ m m2 /\ Pex A n /\ Pex A d /\
    (nval n == nval n0 + qsum ((fun c => nval (cell m c c)) <$> l))%Q /\ (nval d == nval d0 + qsum ((fun c => line m byrow c) <$> l))%Q.
Proof.
  intros HW HO HE. induction l as [|c l IH]; intros n0 d0 m1 G Hn Hd Hl.
  - exists n0, d0, m1. rewrite !fmap_nil, qsum_nil. split; [reflexivity|]. do 3 (split; [assumption|]). split; lra.
  - destruct (parts_exact A o byrow m1 c (g_wf _ _ _ G) HO (exact_grown _ _ _ _ G HE)) as (dc & m2 & E & G2 & _ & Pd & Ed).
    cbn [foldM]. unfold micro_step at 1. rewrite the_parts, E. cbn [bind fst snd]. rewrite (g_cells _ _ _ G).
    destruct (pex_add A n0 (cell m c c) Hn (exact_pex A m c c HE)) as (n1 & En & Pn & Vn). rewrite En. cbn [bind].
    destruct (pex_add A d0 dc Hd Pd) as (d1 & Ed1 & Pd1 & Vd). rewrite Ed1. cbn [bind].
    assert (G3 : grown ∅ m m2).
    { eapply grown_trans; [exact G|]. eapply grown_absorb; [|exact G2]. eapply grown_keys; [exact HW|exact G|apply Hl; left]. }
    destruct (IH n1 d1 m2 G3 Pn Pd1) as (n & d & m3 & E3 & G4 & P1 & P2 & V1 & V2); [intros; apply Hl; right; assumption|].
    exists n, d, m3. split; [exact E3|]. split; [exact G4|]. split; [exact P1|]. split; [exact P2|].
    rewrite !fmap_cons, !qsum_cons. rewrite V1, V2, Vn, Vd, Ed, (line_grown ∅ m m1 byrow c HW G). split; lra.
Qed.

Lemma total_rows m : total m = csum (fun p => line m true p) (cls m). Proof. reflexivity. Qed.
Lemma total_cols m : (total m == csum (fun a => line m false a) (cls m))%Q.
Proof. unfold total, csum. rewrite qsum_swap. reflexivity. Qed.

Lemma Qeq_bool_ext x y z : (x == y)%Q -> Qeq_bool x z = Qeq_bool y z.
Proof. intros H. apply eq_true_iff_eq. rewrite !Qeq_bool_iff, H. reflexivity. Qed.

Lemma micro_average A o byrow m : sane A -> wf m -> cord_ok o -> exact_cells A m ->
  (forall v, micro_value A m = Ok v -> exists m', micro_macro A o (the_metric A o byrow) m None AvgMicro = Ok (v, m') /\ grown ∅ m m') /\
  (forall e, micro_value A m = Err e -> micro_macro A o (the_metric A o byrow) m None AvgMicro = Err e).
Proof.
  intros HA HW HO HE. unfold micro_macro. rewrite classes_split.
  set (m1 := snd (cm_get_classes m)). assert (G : grown ∅ m m1) by apply grown_classes, HW.
  destruct (micro_exact A o byrow m HW HO HE (o (cls m)) (NInt 0) (NInt 0) m1 G) as (n & d & m2 & E & G2 & Pn & Pd & Vn & Vd).
  - left. exact I.
  - left. exact I.
  - intros c Hc. rewrite (HO (cls m)) in Hc. apply elem_of_elements, Hc.
  - rewrite E. cbn [bind]. change (nval (NInt 0)) with 0%Q in *. rewrite Qplus_0_l in Vn, Vd.
    assert (Vn' : (nval n == diagonal m)%Q) by (rewrite Vn; apply (csum_order o (fun c => nval (cell m c c)) (cls m) HO)).
    assert (Vd' : (nval d == total m)%Q).
    { rewrite Vd, (csum_order o (fun c => line m byrow c) (cls m) HO). destruct byrow; [reflexivity|]. symmetry. apply total_cols. }
    unfold micro_value, neqb. change (nval (NInt 0)) with 0%Q. rewrite (Qeq_bool_ext _ _ 0 Vn').
    destruct (Qeq_bool (diagonal m) 0) eqn:EZ.
    + split; [|discriminate]. intros v H. injection H as <-. eauto.
    + assert (ED : ndiv A (to_dec n) d = if Qeq_bool (total m) 0 then Err DivisionByZero else Ok (NDec (rd A (diagonal m / total m)))).
      { assert (HR : rd A (nval n / nval d) = rd A (diagonal m / total m)) by (apply (rd_ext A HA); rewrite Vn', Vd'; reflexivity).
        assert (Hq : qzero (nval d) = Qeq_bool (total m) 0) by (apply Qeq_bool_ext, Vd').
        assert (Hq' : qzero (nval n) = false) by (unfold qzero; rewrite (Qeq_bool_ext _ _ 0 Vn'); exact EZ).
        pose proof (Pex_not_float A d Pd) as HF. unfold to_dec. destruct d as [z|q|]; [| |contradiction]; cbn [ndiv]; cbn [nval] in Hq, HR; rewrite Hq, Hq', HR; reflexivity. }
      rewrite ED. destruct (Qeq_bool (total m) 0); cbn [bind]; (split; intros ? H; [try discriminate; injection H as <-; eauto|try discriminate; congruence]).
Qed.

Theorem micro_precision_recall A o m : sane A -> reachable A m -> cord_ok o -> exact_cells A m ->
  rmap fst (precision A o m None AvgMicro) = micro_value A m /\ rmap fst (recall A o m None AvgMicro) = micro_value A m.
Proof.
  intros HA HR HO HE. apply wf_reachable in HR.
  destruct (micro_average A o true m HA HR HO HE) as [H1 H2]. destruct (micro_average A o false m HA HR HO HE) as [H3 H4].
  cbn [the_metric] in *. unfold precision, recall. destruct (micro_value A m) as [v|e].
  - destruct (H1 v eq_refl) as (m1 & -> & _). destruct (H3 v eq_refl) as (m2 & -> & _). auto.
  - rewrite (H2 e eq_refl), (H4 e eq_refl). auto.
Qed.

Lemma micro_value_grown A ex m m' : sane A -> wf m -> grown ex m m' -> micro_value A m' = micro_value A m.
Proof.
  intros HA HW G.
  assert (ED : (diagonal m' == diagonal m)%Q).
  { unfold diagonal. rewrite (csum_ext _ (fun c => nval (cell m c c))) by (intros k _; rewrite (g_cells _ _ _ G); reflexivity).
    apply csum_grow; [apply G|]. intros k Hk. rewrite (cell_outside m) by tauto. reflexivity. }
  assert (ET : (total m' == total m)%Q).
  { rewrite !total_rows. rewrite (csum_ext _ (fun p => line m true p)) by (intros k _; apply (line_grown ex); assumption).
    apply csum_grow; [apply G|]. intros k Hk. unfold line. apply qsum_zero. intros x _. cbn [cidx fst snd]. rewrite (cell_outside m) by tauto. reflexivity. }
  unfold micro_value. rewrite (Qeq_bool_ext _ _ 0 ED), (Qeq_bool_ext _ _ 0 ET).
  rewrite (rd_ext A HA (diagonal m' / total m') (diagonal m / total m)) by (rewrite ED, ET; reflexivity). reflexivity.
Qed.

(** ** Ranges of averages *)

Definition metric_class (A : arith) (o : cord) (byrow : bool) (m : cmatrix) (c : label) : res (num * cmatrix) :=
  if byrow then precision_class A o m c else recall_class A o m c.

Lemma the_value A o byrow m c : cvalue (the_metric A o byrow) m c =
  let* (nd, m) := ratio_parts A o byrow m c in let* v := ratio_value A (fst nd) (snd nd) in Ok (v, m).
Proof. destruct byrow; reflexivity. Qed.

(** A metric whose class values lie in [0, B]. *)
Definition bounded_metric (A : arith) (F : cmetric) (m : cmatrix) (B : Q) : Prop :=
  forall c m1, grown ∅ m m1 -> exists v m2, cvalue F m1 c = Ok (v, m2) /\ not_float v /\ (0 <= nval v <= B)%Q /\ grown {[c]} m1 m2.

Lemma ratio_bounded A eps M o byrow m : prec A eps M -> wf m -> cord_ok o -> tame A m -> bounded_metric A (the_metric A o byrow) m 1.
Proof.
  intros HP HW HO HT c m1 G. destruct (class_range A eps M o byrow m1 c HP (g_wf _ _ _ G) HO (tame_grown _ _ _ _ G HT)) as (v & m2 & E & G2 & _ & Hv & _).
  rewrite the_value, E. exists (NDec v), m2. split; [reflexivity|]. split; [exact I|]. split; [exact Hv|exact G2].
Qed.

Lemma macro_values A F m B : wf m -> bounded_metric A F m B -> forall l m1 vs, grown ∅ m m1 -> (forall c, c ∈ l -> c ∈ cls m) ->
  exists ws m2, foldM (macro_step F) l (vs, m1) = Ok (vs ++ ws, m2) /\ length ws = length l /\ grown ∅ m m2 /\
    Forall (fun v => not_float v /\ (0 <= nval v <= B)%Q) ws.
Proof.
  intros HW HF. induction l as [|c l IH]; intros m1 vs G Hl.
  - exists [], m1. rewrite app_nil_r. split; [reflexivity|]. split; [reflexivity|]. split; [exact G|constructor].
  - destruct (HF c m1 G) as (v & m2 & E & Hn & Hv & G2). cbn [foldM]. unfold macro_step at 1. rewrite E. cbn [bind].
    assert (G3 : grown ∅ m m2).
    { eapply grown_trans; [exact G|]. eapply grown_absorb; [|exact G2]. eapply grown_keys; [exact HW|exact G|apply Hl; left]. }
    destruct (IH m2 (vs ++ [v]) G3) as (ws & m3 & E3 & HL & G4 & HB); [intros; apply Hl; right; assumption|].
    exists (v :: ws), m3. rewrite E3, <- app_assoc. split; [reflexivity|]. split; [cbn; congruence|]. split; [exact G4|]. constructor; auto.
Qed.

Lemma mean_bound A eps M vs (B : Z) : prec A eps M -> 1 <= B -> B * zlen vs <= M -> Forall (fun v => not_float v /\ (0 <= nval v <= inject_Z B)%Q) vs ->
  exists v, mean A vs = Ok v /\ (0 <= nval v <= inject_Z B)%Q.
Proof.
  intros HP HB HM HV.
  assert (HS : forall d j, not_float d -> is_dec d -> 0 <= j -> B * (j + zlen vs) <= M -> (0 <= nval d <= inject_Z (B * j))%Q ->
    exists s, foldM (nadd A) vs d = Ok s /\ is_dec s /\ (0 <= nval s <= inject_Z (B * (j + zlen vs)))%Q).
  { clear HM. induction HV as [|v vs [Hn Hv] _ IH]; intros d j Hd HD Hj HM Hb.
    - exists d. unfold zlen. cbn [length]. rewrite Z.add_0_r. auto.
    - destruct (round_add A eps M d v HP Hd Hn) as (u & E & Hu & Hu0 & HDu & Vu & _); [apply Hb|apply Hv|].
      cbn [foldM]. rewrite E. cbn [bind]. unfold zlen in *. cbn [length] in *. rewrite Nat2Z.inj_succ in *.
      destruct (IH u (j + 1)) as (s & Es & Ds & Hs); try assumption; try lia.
      + apply HDu. left. exact HD.
      + split; [exact Hu0|]. rewrite Vu by (apply HDu; left; exact HD). apply (rd_le A _ _ HP); [|nia].
        rewrite Z.mul_add_distr_l, inject_Z_plus, Z.mul_1_r. lra.
      + exists s. split; [exact Es|]. split; [exact Ds|]. replace (j + Z.succ (Z.of_nat (length vs))) with (j + 1 + Z.of_nat (length vs)) by lia. exact Hs. }
  destruct (HS (NDec 0) 0) as (s & Es & Ds & Hs); try exact I; try lia; [rewrite Z.mul_0_r; split; discriminate|].
  unfold mean. rewrite Es. cbn [bind]. rewrite Z.add_0_l in Hs.
  destruct (Z.ltb_spec 0 (zlen vs)) as [C|C].
  - destruct s as [|q|]; try contradiction. cbn [ndiv]. rewrite qzero_inject by lia. eexists. split; [reflexivity|]. cbn [nval] in *.
    assert (Hd : (0 < inject_Z (zlen vs))%Q) by (apply inj_pos; lia). split.
    + apply (rd_nonneg A _ _ HP). apply Qdiv_bounds_l; lra.
    + apply (rd_le A _ _ HP); [|nia]. apply Qdiv_bounds; [lra|]. rewrite <- inject_Z_mult. lra.
  - exists (NInt 0). split; [reflexivity|]. change (nval (NInt 0)) with (inject_Z 0). split; [discriminate|]. rewrite <- Zle_Qle. lia.
Qed.

Lemma macro_range A eps M o F m : prec A eps M -> wf m -> cord_ok o -> Z.of_nat (size (cls m)) <= M -> bounded_metric A F m 1 ->
  exists v m', micro_macro A o F m None AvgMacro = Ok (v, m') /\ grown ∅ m m' /\ (0 <= nval v <= 1)%Q.
Proof.
  intros HP HW HO HM HF. unfold micro_macro. rewrite classes_split.
  destruct (macro_values A F m 1 HW HF (o (cls m)) (snd (cm_get_classes m)) []) as (ws & m2 & E & HL & G & HB).
  - apply grown_classes, HW.
  - intros c Hc. rewrite (HO (cls m)) in Hc. apply elem_of_elements, Hc.
  - rewrite E. cbn [bind app]. destruct (mean_bound A eps M ws 1 HP) as (v & Ev & Hv).
    + lia.
    + unfold zlen. rewrite HL, (HO (cls m)). unfold size, set_size in HM. cbn in HM. lia.
    + exact HB.
    + rewrite Ev. cbn [bind]. eauto 10.
Qed.

(** Micro-average for rounded sums. *)
Lemma micro_round A eps M o byrow m : prec A eps M -> wf m -> cord_ok o -> tame A m ->
  forall l done n0 d0 m1, grown ∅ m m1 -> (forall c, c ∈ l -> c ∈ cls m) ->
  not_float n0 -> not_float d0 -> (0 <= nval n0)%Q -> (nval n0 <= nval d0)%Q -> (is_dec n0 -> is_dec d0) ->
  (~ is_dec n0 -> (nval n0 == done)%Q) -> (done + qsum ((fun c => nval (cell m c c)) <$> l) <= inject_Z M)%Q ->
  exists n d m2, foldM (micro_step A (the_metric A o byrow)) l (n0, d0, m1) = Ok (n, d, m2) /\ grown ∅ m m2 /\
    not_float n /\ not_float d /\ (0 <= nval n <= nval d)%Q.
Proof.
  intros HP HW HO HT. induction l as [|c l IH]; intros done n0 d0 m1 G Hl Hn Hd H0 H1 HD HE HB.
  - exists n0, d0, m1. split; [reflexivity|]. tauto.
  - pose proof (tame_grown _ _ _ _ G HT) as HT1.
    destruct (parts_tame A eps M o byrow m1 c HP (g_wf _ _ _ G) HO HT1) as (dc & m2 & E & G2 & _ & Fd & Fd0 & HL & HDc).
    assert (HC1 : c ∈ cls m1) by (apply G, Hl; left). specialize (HDc HC1). rewrite (g_cells _ _ _ G) in *.
    assert (HNF : not_float (cell m c c)).
    { destruct HT as (_ & _ & [HEx|HF]); [|eapply fits_not_float, HF]. eapply Pex_not_float, exact_pex, HEx. }
    assert (HC0 : (0 <= nval (cell m c c))%Q) by apply HT.
    cbn [foldM]. unfold micro_step at 1. rewrite the_parts, E. cbn [bind fst snd].
    destruct (round_add A eps M n0 (cell m c c) HP Hn HNF H0 HC0) as (n1 & En & Fn & N0 & ND & NV & NV' & _). rewrite En. cbn [bind].
    destruct (round_add A eps M d0 dc HP Hd Fd ltac:(lra) Fd0) as (d1 & Ed1 & Fd1 & D0 & DD & DV & DV' & _). rewrite Ed1. cbn [bind].
    assert (G3 : grown ∅ m m2).
    { eapply grown_trans; [exact G|]. eapply grown_absorb; [|exact G2]. eapply grown_keys; [exact HW|exact G|apply Hl; left]. }
    rewrite fmap_cons, qsum_cons in HB.
    assert (HQ : (0 <= qsum ((fun c => nval (cell m c c)) <$> l))%Q) by (apply qsum_nonneg, Forall_fmap, Forall_forall; intros x _; apply HT).
    assert (HN1 : ~ is_dec n1 -> (nval n1 == done + nval (cell m c c))%Q).
    { intros K. rewrite NV' by exact K. rewrite HE by tauto. reflexivity. }
    assert (HDD : is_dec n1 -> is_dec d1).
    { intros K. apply DD. apply ND in K as [K|K]; [left; auto|]. right. apply HDc, K. }
    destruct (IH (done + nval (cell m c c))%Q n1 d1 m2 G3) as (n & d & m3 & E3 & R); try assumption.
    + intros; apply Hl; right; assumption.
    + assert (HDec : is_dec n1 \/ ~ is_dec n1) by (destruct n1; cbn; tauto). assert (HDec' : is_dec d1 \/ ~ is_dec d1) by (destruct d1; cbn; tauto).
      destruct HDec as [K|K].
      * rewrite NV, DV by auto. apply (p_mono _ _ _ HP). lra.
      * destruct HDec' as [K'|K'].
        -- rewrite DV by exact K'.
           assert (Hint : exists z, (nval n1 = inject_Z z)%Q) by (clear - K Fn; destruct n1 as [z|q|q]; [exists z; reflexivity|exfalso; apply K; exact I|contradiction]).
           destruct Hint as [z Hz].
           assert (HM' : (Z.abs z <= M)%Z).
           { specialize (HN1 K). assert (inject_Z z <= inject_Z M)%Q as L1 by (rewrite <- Hz; lra). assert (inject_Z 0 <= inject_Z z)%Q as L2 by (rewrite <- Hz; exact N0).
             rewrite <- Zle_Qle in L1, L2. lia. }
           rewrite Hz. rewrite <- (p_int _ _ _ HP z HM'). apply (p_mono _ _ _ HP). rewrite <- Hz, NV' by exact K. lra.
        -- rewrite NV', DV' by assumption. lra.
    + lra.
    + exists n, d, m3. split; [exact E3|]. exact R.
Qed.

Lemma micro_range A eps M o byrow m : prec A eps M -> wf m -> cord_ok o -> tame A m -> (exact_cells A m \/ (diagonal m <= inject_Z M)%Q) ->
  exists v m', micro_macro A o (the_metric A o byrow) m None AvgMicro = Ok (v, m') /\ grown ∅ m m' /\ (0 <= nval v <= 1)%Q.
Proof.
  intros HP HW HO HT HB. unfold micro_macro. rewrite classes_split.
  assert (G : grown ∅ m (snd (cm_get_classes m))) by apply grown_classes, HW.
  assert (Hin : forall c, c ∈ o (cls m) -> c ∈ cls m) by (intros c Hc; rewrite (HO (cls m)) in Hc; apply elem_of_elements, Hc).
  assert (HS : exists n d m2, foldM (micro_step A (the_metric A o byrow)) (o (cls m)) (NInt 0, NInt 0, snd (cm_get_classes m)) = Ok (n, d, m2) /\ grown ∅ m m2 /\
    not_float n /\ not_float d /\ (0 <= nval n <= nval d)%Q).
  { assert (HEX : exact_cells A m -> exists n d m2, foldM (micro_step A (the_metric A o byrow)) (o (cls m)) (NInt 0, NInt 0, snd (cm_get_classes m)) = Ok (n, d, m2) /\ grown ∅ m m2 /\
      not_float n /\ not_float d /\ (0 <= nval n <= nval d)%Q).
    { intros HE. destruct (micro_exact A o byrow m HW HO HE (o (cls m)) (NInt 0) (NInt 0) _ G) as (n & d & m2 & E & G2 & Pn & Pd & Vn & Vd); try (left; exact I); [exact Hin|].
      exists n, d, m2. split; [exact E|]. split; [exact G2|]. split; [eapply Pex_not_float, Pn|]. split; [eapply Pex_not_float, Pd|].
      rewrite Vn, Vd. change (nval (NInt 0)) with 0%Q. split.
      - assert (0 <= qsum ((fun c => nval (cell m c c)) <$> o (cls m)))%Q by (apply qsum_nonneg, Forall_fmap, Forall_forall; intros x _; apply HT). lra.
      - assert (qsum ((fun c => nval (cell m c c)) <$> o (cls m)) <= qsum ((fun c => line m byrow c) <$> o (cls m)))%Q; [|lra].
        apply qsum_mono. intros c Hc.
        pose proof (qsum_elem (fun k => nval (cell m (fst (cidx byrow c k)) (snd (cidx byrow c k)))) (elements (cls m)) c) as K. cbv beta in K.
        replace (cell m (fst (cidx byrow c c)) (snd (cidx byrow c c))) with (cell m c c) in K by (destruct byrow; reflexivity).
        apply K; [intros k _; apply HT|apply elem_of_elements, Hin, Hc]. }
    destruct HB as [HE|HB]; [apply HEX, HE|].
    destruct (proj2 (proj2 HT)) as [HE|HF]; [apply HEX, HE|].
    apply (micro_round A eps M o byrow m HP HW HO HT (o (cls m)) 0%Q); try exact I; try assumption; try (cbn; tauto); try discriminate; try reflexivity.
      rewrite (csum_order o (fun c => nval (cell m c c)) (cls m) HO). fold (diagonal m). lra. }
  destruct HS as (n & d & m2 & E & G2 & Fn & Fd & H0 & H1). rewrite E. cbn [bind]. unfold neqb. change (nval (NInt 0)) with 0%Q.
  destruct (Qeq_bool (nval n) 0) eqn:EZ.
  - exists (NInt 0), m2. split; [reflexivity|]. split; [exact G2|]. cbn. split; discriminate.
  - assert (HP0 : (0 < nval n)%Q). { destruct (Qlt_le_dec 0 (nval n)); [assumption|]. exfalso. assert (nval n == 0)%Q as K by lra. apply Qeq_bool_iff in K. congruence. }
    assert (ED : ndiv A (to_dec n) d = Ok (NDec (rd A (nval n / nval d)))).
    { assert (Hq : qzero (nval d) = false) by (unfold qzero; destruct (Qeq_bool (nval d) 0) eqn:K; [apply Qeq_bool_iff in K; lra|reflexivity]).
      unfold to_dec. destruct d as [z|q|]; [| |contradiction]; cbn [ndiv]; cbn [nval] in Hq; rewrite Hq; reflexivity. }
    rewrite ED. cbn [bind]. eexists _, m2. split; [reflexivity|]. split; [exact G2|]. cbn [nval]. split.
    + apply (rd_nonneg A _ _ HP). apply Qdiv_bounds_l; lra.
    + change 1%Q with (inject_Z 1). apply (rd_le A _ _ HP); [apply Qdiv_bounds; [lra|]; change (inject_Z 1) with 1%Q; lra|]. pose proof (p_M _ _ _ HP). lia.
Qed.
