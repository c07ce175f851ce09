(** The matrix of two segmentations is one the metrics are proved for. *)
From Coq Require Import Lqa.
From Verif Require Import SpecSwap FormatProofs Round RoundProofs SimRound SimProofs BedSubs BedProofs BedMain BedTheory BedExtra
  SimStats SimTheory SimContext SimSym MLProofs MLSums MLMain MLFmeasure MLMatrix MLFinal MLSwap.
Open Scope Z_scope.

(** ** Rounding twice *)

Section idem.
Context (b p : Z) (Hb : 2 <= b) (Hp : 1 <= p).

Lemma rnd_pos_form q : (0 < q)%Q -> exists k e, (rnd_pos b p q == inject_Z k * qpow b e)%Q /\ Z.abs k <= b ^ p.
Proof.
  intros Hq. unfold rnd_pos. cbv zeta. eexists _, _. split; [reflexivity|].
  destruct (mant_bounds b p Hb Hp q Hq) as [H1 H2]. set (u := qpow b (flog b q - (p - 1))) in *.
  assert (h1 : b ^ (p - 1) <= hround (q / u)) by (rewrite <- (hround_Z (b ^ (p - 1))); apply hround_mono; assumption).
  assert (h2 : hround (q / u) <= b ^ p) by (rewrite <- (hround_Z (b ^ p)); apply hround_mono; lra).
  pose proof (Z.pow_nonneg b (p - 1) ltac:(lia)). lia.
Qed.

Lemma rnd_idem x : (rnd b p (rnd b p x) == rnd b p x)%Q.
Proof.
  pose proof (Qred_correct x) as Ex.
  destruct (Qcompare_spec x 0) as [H|H|H].
  - pose proof (rnd_unfold_0 b p x H) as E. rewrite (rnd_ext b p _ _ E). rewrite E. rewrite rnd_unfold_0; reflexivity.
  - destruct (rnd_pos_form (- Qred x)) as (k & e & E & Hk); [lra|].
    pose proof (rnd_unfold_neg b p x H) as Er. apply (rnd_exact b p Hb Hp _ (- k) e); [|lia].
    rewrite Er, E, inject_Z_opp. ring.
  - destruct (rnd_pos_form (Qred x)) as (k & e & E & Hk); [lra|].
    pose proof (rnd_unfold_pos b p x H) as Er. apply (rnd_exact b p Hb Hp _ k e); [|assumption].
    rewrite Er. exact E.
Qed.
End idem.

Lemma idem_pyA x : (rd pyA (rd pyA x) == rd pyA x)%Q.
Proof. apply rnd_idem; lia. Qed.

Lemma idem_exactA x : (rd exactA (rd exactA x) == rd exactA x)%Q.
Proof. apply Qred_correct. Qed.

(** ** The cells *)

Definition counted (A : arith) (k : Z) (v : num) : Prop :=
  v = NInt k \/ exists q, v = NDec (rd A q) /\ (0 < rd A q)%Q.

Lemma near_miss_counted A n_t t l k : sane A -> 0 < n_t -> 0 <= k -> Forall (fun x => t_start x < t_end x)%nat l ->
  forall ws v, near_misses (default_weights A) n_t t l = Ok ws -> foldM (nadd A) ws (NInt k) = Ok v -> counted A k v.
Proof.
  intros HA Hn Hk Hl. pose proof (prec_sane A HA) as HP. unfold near_misses.
  assert (Hf : Forall (fun x => t_start x < t_end x)%nat (filter (fun x => t_type x = t) l)) by (apply Forall_forall; intros x Hx; apply elem_of_list_filter in Hx as [_ Hx]; rewrite Forall_forall in Hl; apply Hl, Hx).
  generalize dependent (filter (fun x => t_type x = t) l). clear Hl. intros fl Hf ws v Hw Hv.
  assert (HW : Forall (fun w => exists q, w = NDec q /\ (0 < q)%Q) ws).
  { clear Hv. revert ws Hw. induction Hf as [|x fl Hx Hf IH]; intros ws Hw; cbn [mapM] in Hw; [injection Hw as <-; constructor|].
    assert (E1 : w_t (default_weights A) [x] n_t = Ok (NDec (rd A (inject_Z (0 + Z.abs (Z.of_nat (t_start x) - Z.of_nat (t_end x))) / inject_Z n_t)))).
    { cbn [default_weights w_t]. unfold weight_t_scale, weight_scale. cbn [fmap list_fmap foldl ndiv]. rewrite qzero_inject by lia. reflexivity. }
    rewrite E1 in Hw. cbn [bind] in Hw. destruct (mapM _ fl) as [vs|]; [|discriminate]. cbn [bind] in Hw.
    assert (ws = NDec (rd A (inject_Z (0 + Z.abs (Z.of_nat (t_start x) - Z.of_nat (t_end x))) / inject_Z n_t)) :: vs) as -> by congruence.
    constructor; [|apply IH; reflexivity]. eexists. split; [reflexivity|]. apply (rd_pos A _ _ HP).
    apply Qlt_shift_div_l; [apply inj_pos; lia|]. rewrite Qmult_0_l. apply inj_pos. lia. }
  assert (HC : counted A k (NInt k)) by (left; reflexivity).
  revert HC Hv. generalize (NInt k) as u. clear Hw. induction HW as [|w ws (q & -> & Hq) HW IH]; intros u Hu Hv.
  - injection Hv as <-. exact Hu.
  - cbn [foldM] in Hv. destruct (nadd A u (NDec q)) as [u'|] eqn:Eu; [|discriminate]. cbn [bind] in Hv. apply (IH u'); [|exact Hv]. right.
    destruct Hu as [->|(r & -> & Hr)]; unfold nadd, num2 in Eu.
    + eexists. assert (u' = NDec (rd A (inject_Z k + q))) as -> by congruence. split; [reflexivity|]. apply (rd_pos A _ _ HP).
      assert (0 <= inject_Z k)%Q by (change 0%Q with (inject_Z 0); rewrite <- Zle_Qle; exact Hk). lra.
    + eexists. assert (u' = NDec (rd A (rd A r + q))) as -> by congruence. split; [reflexivity|]. apply (rd_pos A _ _ HP). lra.
Qed.

Section tame.
Context (A : arith) (E : env) (f : fmt) (n_t : Z) (sa sb : seg) (x y : bstring) (e : edits) (m : cmatrix).
Context (HA : sane A) (HE : env_ok E) (Hs : small_types x y) (Hn : 0 < n_t) (Hb : to_bstrings f sa sb = Ok (x, y)).
Context (He : boundary_edit_distance E x y n_t = Ok e) (Hm : boundary_confusion_matrix A E (default_weights A) f n_t sa sb = Ok m).

Lemma zip_count_le (P : gset Z * gset Z -> Prop) `{!forall x, Decision (P x)} u v : length u = length v ->
  (length (filter P (zip u v)) <= length u)%nat.
Proof. intros Hl. etransitivity; [apply filter_length|]. rewrite zip_with_length. lia. Qed.

Lemma countP_mono {X} (P Q : X -> Prop) `{!forall x, Decision (P x), !forall x, Decision (Q x)} l :
  (forall x, P x -> Q x) -> (countP P l <= countP Q l)%nat.
Proof.
  intros HPQ. unfold countP. induction l as [|z l IH]; [reflexivity|]. rewrite !filter_cons. specialize (HPQ z).
  destruct (decide (P z)), (decide (Q z)); try tauto; cbn [length]; lia.
Qed.

Lemma matrix_counted : forall p a, exists k, 0 <= k <= zlen x /\ (counted A k (cell m p a) /\ (p <> a -> cell m p a = NInt k)).
Proof.
  pose proof (to_bstrings_length _ _ _ _ _ Hb) as Hl.
  destruct (matrix_cells _ _ _ _ _ _ _ _ _ _ _ HE Hb He Hm) as (C1 & C2 & C3 & C4 & C5).
  assert (L1 : forall t, (only_in x y t <= length x)%nat) by (intros; apply zip_count_le, Hl).
  assert (L2 : forall t, (only_in y x t <= length y)%nat) by (intros; apply zip_count_le; congruence).
  assert (L3 : forall t, (both_in x y t <= length x)%nat) by (intros; apply zip_count_le, Hl).
  assert (HI : forall p a k, cell m p a = NInt (Z.of_nat k) -> (k <= length x)%nat ->
    exists k, 0 <= k <= zlen x /\ (counted A k (cell m p a) /\ (p <> a -> cell m p a = NInt k))).
  { intros p a k H K. exists (Z.of_nat k). unfold zlen. split; [lia|]. split; [left; exact H|auto]. }
  intros [t|] [u|].
  - destruct (decide (t = u)) as [<-|D].
    + destruct (C5 t) as (ws & Ew & Ev). exists (Z.of_nat (both_in x y t)). specialize (L3 t). unfold zlen. split; [lia|].
      split; [|congruence]. eapply near_miss_counted; [exact HA|exact Hn|lia| |exact Ew|exact Ev].
      exact (bed_starts _ _ _ _ _ HE Hl He).
    + eapply HI; [apply C1, D|]. destruct (bed_conserves E x y n_t e t HE Hs Hl He) as [K _]. specialize (L1 t).
      pose proof (countP_mono (fun s => s = (t, u)) (fun s => fst s = t) (e_sub e) ltac:(intros s ->; reflexivity)). lia.
  - eapply HI; [apply C3|]. destruct (bed_conserves E x y n_t e t HE Hs Hl He) as [_ K]. specialize (L2 t). lia.
  - eapply HI; [apply C2|]. destruct (bed_conserves E x y n_t e u HE Hs Hl He) as [K _]. specialize (L1 u). lia.
  - apply (HI _ _ 0%nat); [exact C4|lia].
Qed.

Theorem matrix_tame : (A = exactA \/ (forall q, rd A (rd A q) == rd A q)%Q /\ zlen x <= 10 ^ 28) -> tame A m.
Proof.
  intros HX. split; [|split].
  - intros p a. destruct (matrix_counted p a) as (k & Hk & [->|(q & -> & Hq)] & _); cbn [nval]; [|lra].
    change 0%Q with (inject_Z 0). rewrite <- Zle_Qle. lia.
  - intros c q Hc K. destruct (matrix_counted c c) as (k & Hk & [H|(q' & H & Hq)] & _); rewrite H in Hc; [discriminate|].
    injection Hc as <-. lra.
  - destruct HX as [HX|[HI HB]].
    + left. right. split; [exact HX|]. intros p a. destruct (matrix_counted p a) as (k & Hk & [->|(q & -> & Hq)] & _); exact I.
    + right. intros p a. destruct (matrix_counted p a) as (k & Hk & [->|(q & -> & Hq)] & _); cbn [fits].
      * apply (rd_int A HA). lia.
      * apply HI.
Qed.

Lemma matrix_ints : e_transp e = [] -> forall p a, is_int (cell m p a).
Proof.
  intros HT p a. destruct (decide (p = a)) as [<-|D].
  - destruct (matrix_cells _ _ _ _ _ _ _ _ _ _ _ HE Hb He Hm) as (_ & _ & _ & C4 & C5). destruct p as [t|]; [|rewrite C4; exact I].
    destruct (C5 t) as (ws & Ew & Ec). rewrite HT in Ew. injection Ew as <-. injection Ec as <-. exact I.
  - destruct (matrix_counted p a) as (k & _ & _ & K). rewrite (K D). exact I.
Qed.
End tame.

(** ** Upper bounds *)

Lemma near_miss_le A n_t t l k : sane A -> 0 < n_t -> 0 <= k -> k + zlen (filter (fun x => t_type x = t) l) <= 10 ^ 28 ->
  Forall (fun x => Z.of_nat (t_start x) < Z.of_nat (t_end x) <= Z.of_nat (t_start x) + n_t) l ->
  forall ws v, near_misses (default_weights A) n_t t l = Ok ws -> foldM (nadd A) ws (NInt k) = Ok v ->
  (nval v <= inject_Z (k + zlen (filter (fun x => t_type x = t) l)))%Q.
Proof.
  intros HA Hn Hk HB Hl. unfold near_misses.
  assert (Hf : Forall (fun x => Z.of_nat (t_start x) < Z.of_nat (t_end x) <= Z.of_nat (t_start x) + n_t) (filter (fun x => t_type x = t) l))
    by (apply Forall_forall; intros x Hx; apply elem_of_list_filter in Hx as [_ Hx]; rewrite Forall_forall in Hl; apply Hl, Hx).
  generalize dependent (filter (fun x => t_type x = t) l). clear Hl. intros fl HB Hf ws v Hw Hv.
  assert (HW : length ws = length fl /\ Forall (fun w => exists q, w = NDec q /\ (q <= 1)%Q) ws).
  { clear Hv HB. revert ws Hw. induction Hf as [|x fl Hx Hf IH]; intros ws Hw; cbn [mapM] in Hw; [injection Hw as <-; split; [reflexivity|constructor]|].
    assert (E1 : w_t (default_weights A) [x] n_t = Ok (NDec (rd A (inject_Z (0 + Z.abs (Z.of_nat (t_start x) - Z.of_nat (t_end x))) / inject_Z n_t)))).
    { cbn [default_weights w_t]. unfold weight_t_scale, weight_scale. cbn [fmap list_fmap foldl ndiv]. rewrite qzero_inject by lia. reflexivity. }
    rewrite E1 in Hw. cbn [bind] in Hw. destruct (mapM _ fl) as [vs|]; [|discriminate]. cbn [bind] in Hw.
    assert (ws = NDec (rd A (inject_Z (0 + Z.abs (Z.of_nat (t_start x) - Z.of_nat (t_end x))) / inject_Z n_t)) :: vs) as -> by congruence.
    destruct (IH vs eq_refl) as [IH1 IH2]. split; [cbn; congruence|]. constructor; [|exact IH2]. eexists. split; [reflexivity|].
    rewrite <- (rd_int A HA 1) by lia. apply (rd_mono A HA). apply Qle_shift_div_r; [apply inj_pos; lia|]. rewrite Qmult_1_l.
    rewrite <- Zle_Qle. lia. }
  destruct HW as [HL HW]. unfold zlen in *. rewrite <- HL in *. clear Hw HL Hf fl.
  assert (HC : (nval (NInt k) <= inject_Z k)%Q /\ not_float (NInt k)) by (split; [apply Qle_refl|exact I]).
  revert HC Hv. generalize (NInt k) as u. revert k Hk HB. induction HW as [|w ws (q & -> & Hq) HW IH]; intros k Hk HB u [Hu Hu'] Hv.
  - injection Hv as <-. cbn. rewrite Z.add_0_r. exact Hu.
  - cbn [foldM] in Hv. destruct (nadd A u (NDec q)) as [u'|] eqn:Eu; [|discriminate]. cbn [bind length] in *.
    replace (k + Z.of_nat (S (length ws))) with ((k + 1) + Z.of_nat (length ws)) in * by lia.
    apply (IH (k + 1) ltac:(lia) HB u'); [|exact Hv].
    assert (Eu' : u' = NDec (rd A (nval u + q))) by (destruct u; [| |contradiction]; unfold nadd, num2 in Eu; cbn [nval]; congruence).
    rewrite Eu'. split; [|exact I]. cbn [nval]. rewrite <- (rd_int A HA (k + 1)) by lia. apply (rd_mono A HA). rewrite inject_Z_plus.
    change (inject_Z 1) with 1%Q. lra.
Qed.

Lemma both_only x y d : length x = length y -> (both_in x y d + only_in x y d <= length x)%nat.
Proof.
  unfold both_in, only_in. revert y. induction x as [|s x IH]; intros [|u y] Hl; try discriminate; [cbn; lia|].
  injection Hl as Hl. specialize (IH y Hl). cbn [zip zip_with]. rewrite !filter_cons.
  destruct (decide (d ∈ (s, u).1 /\ d ∈ (s, u).2)), (decide (d ∈ (s, u).1 /\ d ∉ (s, u).2)); cbn [length]; try lia. tauto.
Qed.

Lemma csum_bound (g : label -> Q) S (B : Z) : (forall c, c ∈ S -> g c <= inject_Z B)%Q -> (csum g S <= inject_Z (B * Z.of_nat (size S)))%Q.
Proof.
  intros H. unfold csum. change (size S) with (length (elements S)).
  assert (K : forall c, c ∈ elements S -> (g c <= inject_Z B)%Q) by (intros c Hc; apply H, elem_of_elements, Hc).
  induction (elements S) as [|c l IH]; [rewrite Z.mul_0_r; apply Qle_refl|].
  rewrite fmap_cons, qsum_cons. cbn [length]. replace (B * Z.of_nat (Datatypes.S (length l))) with (B + B * Z.of_nat (length l)) by lia.
  rewrite inject_Z_plus. apply Qplus_le_compat; [apply K; left|]. apply IH. intros d Hd. apply K. right. exact Hd.
Qed.

Definition all_small : gset label := list_to_set (None :: (Some <$> seqZ (-5) 262)).

Lemma all_small_size : (size all_small <= 263)%nat.
Proof. unfold all_small. rewrite size_list_to_set; [cbn [length]; rewrite fmap_length, seqZ_length; lia|].
  constructor; [intros H; apply elem_of_list_fmap in H as (z & K & _); discriminate|]. apply NoDup_fmap_2; [intros ? ? [=]; assumption|apply NoDup_seqZ].
Qed.

Section ranges.
Context (A : arith) (E : env) (f : fmt) (n_t : Z) (sa sb : seg) (x y : bstring) (m : cmatrix).
Context (HA : sane A) (HE : env_ok E) (Hs : small_types x y) (Hn : 0 < n_t) (Hb : to_bstrings f sa sb = Ok (x, y)).
Context (Hm : boundary_confusion_matrix A E (default_weights A) f n_t sa sb = Ok m).
Context (HI : forall q, (rd A (rd A q) == rd A q)%Q) (HB : zlen x <= 10 ^ 25).

Lemma classes_few : (size (cls m) <= 263)%nat.
Proof.
  pose proof (to_bstrings_length _ _ _ _ _ Hb) as Hl. destruct (bed_returns E x y n_t HE ltac:(lia)) as [e He].
  destruct (matrix_classes A E _ f n_t sa sb x y e m HE Hs Hb He Hm) as (_ & K & _).
  etransitivity; [|apply all_small_size]. apply subseteq_size. intros [t|] Ht; unfold all_small; rewrite elem_of_list_to_set, elem_of_cons; [right|left; reflexivity].
  apply K in Ht. apply elem_of_list_fmap. exists t. split; [reflexivity|]. apply elem_of_seqZ.
  pose proof (used_small _ _ _ Hs Ht). lia.
Qed.

Lemma diagonal_small : (diagonal m <= inject_Z (10 ^ 28))%Q.
Proof.
  pose proof (to_bstrings_length _ _ _ _ _ Hb) as Hl. destruct (bed_returns E x y n_t HE ltac:(lia)) as [e He].
  destruct (matrix_cells _ _ _ _ _ _ _ _ _ _ _ HE Hb He Hm) as (_ & _ & _ & C4 & C5).
  assert (HZ : 0 <= zlen x) by (unfold zlen; lia).
  assert (HC : forall c, c ∈ cls m -> (nval (cell m c c) <= inject_Z (zlen x))%Q).
  { intros [t|] _; [|rewrite C4; cbn [nval]; rewrite <- Zle_Qle; lia].
    destruct (C5 t) as (ws & Ew & Ev).
    assert (HK : Z.of_nat (both_in x y t) + zlen (filter (fun z => t_type z = t) (e_transp e)) <= zlen x).
    { destruct (bed_conserves E x y n_t e t HE Hs Hl He) as [K _]. pose proof (both_only x y t Hl). unfold countP in K. unfold zlen. lia. }
    eapply Qle_trans; [|rewrite <- Zle_Qle; exact HK].
    eapply near_miss_le; [exact HA|exact Hn|lia|lia| |exact Ew|exact Ev].
    rewrite bed_ok in He by (assumption || lia). injection He as <-. cbn [e_transp]. apply Forall_forall. intros z Hz.
    destruct (ts_valid _ _ _ _ _ HE Hz) as (K1 & K2 & _). lia. }
  eapply Qle_trans; [apply (csum_bound _ _ _ HC)|]. rewrite <- Zle_Qle. pose proof classes_few. nia.
Qed.

Theorem matrix_metrics o : cord_ok o ->
  (forall t ver, exists p r mp mr, precision A o m (Some t) ver = Ok (NDec p, mp) /\ recall A o m (Some t) ver = Ok (NDec r, mr) /\
     (0 <= p <= 1)%Q /\ (0 <= r <= 1)%Q) /\
  (forall ver, ver <> AvgOther -> exists p r mp mr, precision A o m None ver = Ok (p, mp) /\ recall A o m None ver = Ok (r, mr) /\
     (0 <= nval p <= 1)%Q /\ (0 <= nval r <= 1)%Q) /\
  (forall beta t ver, exists v m', fmeasure A o beta m (Some t) ver = Ok (v, m') /\ (0 <= nval v <= 1 + 6 * (1 # 10 ^ 27))%Q).
Proof.
  intros HO. pose proof (to_bstrings_length _ _ _ _ _ Hb) as Hl. destruct (bed_returns E x y n_t HE ltac:(lia)) as [e He].
  destruct (matrix_classes A E _ f n_t sa sb x y e m HE Hs Hb He Hm) as (HR & _ & _).
  assert (HT : tame A m) by (apply (matrix_tame A E f n_t sa sb x y e m HA HE Hs Hn Hb He Hm); right; split; [exact HI|lia]).
  split; [|split].
  - intros t ver. destruct (class_values A o m HA HO HR HT t ver) as (p & r & mp & mr & E1 & E2 & B1 & B2 & _). exists p, r, mp, mr. auto.
  - intros ver HV. apply (average_values A o m HA HO HR HT); [right; apply diagonal_small|pose proof classes_few; lia|exact HV].
  - intros beta t ver. apply (f_range A o m HA HO HR beta HT).
Qed.
End ranges.

(** ** Precision and recall in terms of the edits *)

Lemma csum_plus (g h : label -> Q) S : (csum (fun c => g c + h c) S == csum g S + csum h S)%Q.
Proof. apply qsum_plus. Qed.

Lemma csum_one (q : Q) c0 `{!forall c : label, Decision (c = c0)} S : c0 ∈ S \/ (q == 0)%Q -> (csum (fun c => if decide (c = c0) then q else 0) S == q)%Q.
Proof.
  intros HS. unfold csum. destruct (decide (c0 ∈ S)) as [D|D].
  - apply elem_of_elements in D. pose proof (NoDup_elements S) as N. apply elem_of_list_split in D as (l1 & l2 & D). rewrite D in *.
    apply NoDup_app in N as (_ & N1 & N2). apply NoDup_cons in N2 as [N2 _].
    rewrite fmap_app, fmap_cons, qsum_app, qsum_cons. rewrite decide_True by reflexivity.
    rewrite (qsum_zero _ l1), (qsum_zero _ l2); [ring| |].
    + intros c Hc. rewrite decide_False; [reflexivity|]. intros ->. contradiction.
    + intros c Hc. rewrite decide_False; [reflexivity|]. intros ->. apply (N1 _ Hc). left.
  - destruct HS as [HS|HS]; [contradiction|]. rewrite qsum_zero; [symmetry; exact HS|]. intros c _. destruct (decide _); [exact HS|reflexivity].
Qed.

Lemma csum_count {X} (key : X -> label) (P : X -> Prop) `{!forall x, Decision (P x)} (l : list X) S :
  (forall z, z ∈ l -> P z -> key z ∈ S) ->
  (csum (fun c => inject_Z (Z.of_nat (countP (fun z => P z /\ key z = c) l))) S == inject_Z (Z.of_nat (countP P l)))%Q.
Proof.
  intros HS. induction l as [|z l IH].
  - unfold csum. rewrite qsum_zero; [reflexivity|]. intros; reflexivity.
  - assert (HS' : forall z, z ∈ l -> P z -> key z ∈ S) by (intros; apply HS; [right|]; assumption). specialize (IH HS').
    assert (HC : forall (Q : X -> Prop) `{!forall x, Decision (Q x)}, countP Q (z :: l) = ((if decide (Q z) then 1 else 0) + countP Q l)%nat).
    { intros Q HQ. unfold countP. rewrite filter_cons. destruct (decide (Q z)); reflexivity. }
    rewrite HC, Nat2Z.inj_add, inject_Z_plus, <- IH. clear IH.
    rewrite <- (csum_one (inject_Z (Z.of_nat (if decide (P z) then 1 else 0))) (key z) S).
    2:{ destruct (decide (P z)) as [D|D]; [left; apply HS; [left|exact D]|right; reflexivity]. }
    rewrite <- csum_plus. apply csum_ext. intros c _. rewrite HC, Nat2Z.inj_add, inject_Z_plus. apply Qplus_comp; [|reflexivity].
    destruct (decide (c = key z)) as [->|D].
    + destruct (decide (P z)) as [D|D]; [rewrite decide_True by auto|rewrite decide_False by tauto]; reflexivity.
    + rewrite decide_False by (intros [_ K]; congruence). reflexivity.
Qed.

Section formula.
Context (E : env) (f : fmt) (n_t : Z) (sa sb : seg) (x y : bstring) (e : edits) (m : cmatrix).
Context (HE : env_ok E) (Hs : small_types x y) (Hn : 0 < n_t) (Hb : to_bstrings f sa sb = Ok (x, y)).
Context (He : boundary_edit_distance E x y n_t = Ok e) (Hm : boundary_confusion_matrix exactA E (default_weights exactA) f n_t sa sb = Ok m).

(** What counts as found: the matches and the near misses. *)
Definition found (t : Z) : Q :=
  (inject_Z (Z.of_nat (both_in x y t)) + inject_Z (spanned (filter (fun z => t_type z = t) (e_transp e))) / inject_Z n_t)%Q.

Lemma matrix_row t : (row_sum m (Some t) == found t + inject_Z (Z.of_nat (countP (fun s => fst s = t) (e_sub e)))
    + inject_Z (Z.of_nat (countP (fun a => a = Addition t SideB) (e_add e))))%Q.
Proof.
  pose proof (to_bstrings_length _ _ _ _ _ Hb) as Hl.
  destruct (matrix_cells _ _ _ _ _ _ _ _ _ _ _ HE Hb He Hm) as (C1 & C2 & C3 & C4 & _).
  destruct (matrix_classes _ E _ f n_t sa sb x y e m HE Hs Hb He Hm) as (HR & K1 & K2). apply wf_reachable in HR.
  assert (Hn0 : n_t <> 0) by lia. pose proof (matrix_diagonal _ _ _ _ _ _ _ _ _ t HE Hn0 Hb He Hm) as HD. fold (found t) in HD.
  unfold row_sum.
  rewrite (csum_ext _ (fun c => (if decide (c = Some t) then found t else 0) +
     inject_Z (Z.of_nat (countP (fun s => fst s = t /\ Some (snd s) = c) (e_sub e))) +
     (if decide (c = None) then inject_Z (Z.of_nat (countP (fun a => a = Addition t SideB) (e_add e))) else 0))%Q).
  - etransitivity; [apply csum_plus|]. apply Qplus_comp;
      [etransitivity; [apply csum_plus|]; apply Qplus_comp; [apply csum_one|apply (csum_count (fun s => Some (snd s)) (fun s => fst s = t))]|apply csum_one].
    + destruct (decide (Some t ∈ cls m)) as [D|D]; [left; exact D|]. right. rewrite <- HD, cell_outside by tauto. reflexivity.
    + intros [u v] Hz _. cbn [snd]. apply K1. apply elem_of_types.
      destruct (bed_sub_types _ _ _ _ _ _ _ HE Hl He Hz) as (_ & H & _). exact H.
    + destruct (decide (None ∈ cls m)) as [D|D]; [left; exact D|]. right. destruct (e_add e) as [|z l] eqn:Ea; [reflexivity|].
      exfalso. apply D, K2. discriminate.
  - assert (none : forall {X} (P : X -> Prop) `{!forall x, Decision (P x)} (l : list X), (forall z, z ∈ l -> ~ P z) -> countP P l = 0%nat).
    { intros X P HP l HN. destruct (countP P l) eqn:EC; [reflexivity|]. exfalso.
      assert (K : (0 < countP P l)%nat) by lia. apply countP_pos in K as (z & Hz & Pz). exact (HN z Hz Pz). }
    assert (Hsub : forall u v, (u, v) ∈ e_sub e -> u <> v) by (intros u v K; apply (bed_sub_types _ _ _ _ _ _ _ HE Hl He K)).
    intros [u|] _.
    + rewrite (decide_False (P := Some u = None)) by discriminate. destruct (decide (Some u = Some t)) as [[= ->]|D].
      * rewrite HD. rewrite (none substitution); [ring|]. intros [u v] Hz [K3 K4]. cbn in *. injection K4 as ->. apply (Hsub u t Hz). exact K3.
      * rewrite C1 by congruence. cbn [nval].
        replace (countP (fun s => fst s = t /\ Some (snd s) = Some u) (e_sub e)) with (countP (fun s => s = (t, u)) (e_sub e)); [ring|].
        clear. unfold countP. f_equal. apply list_filter_iff. intros [a b]. cbn. split; [intros [= -> ->]; auto|intros [-> [= ->]]; reflexivity].
    + rewrite (decide_False (P := None = Some t)) by discriminate. rewrite decide_True by reflexivity. rewrite C3. cbn [nval].
      rewrite (none substitution); [ring|]. intros z _ [_ K]. discriminate.
Qed.

Lemma matrix_col t : (col_sum m (Some t) == found t + inject_Z (Z.of_nat (countP (fun s => snd s = t) (e_sub e)))
    + inject_Z (Z.of_nat (countP (fun a => a = Addition t SideA) (e_add e))))%Q.
Proof.
  pose proof (to_bstrings_length _ _ _ _ _ Hb) as Hl.
  destruct (matrix_cells _ _ _ _ _ _ _ _ _ _ _ HE Hb He Hm) as (C1 & C2 & C3 & C4 & _).
  destruct (matrix_classes _ E _ f n_t sa sb x y e m HE Hs Hb He Hm) as (HR & K1 & K2). apply wf_reachable in HR.
  assert (Hn0 : n_t <> 0) by lia. pose proof (matrix_diagonal _ _ _ _ _ _ _ _ _ t HE Hn0 Hb He Hm) as HD. fold (found t) in HD.
  unfold col_sum.
  rewrite (csum_ext _ (fun c => (if decide (c = Some t) then found t else 0) +
     inject_Z (Z.of_nat (countP (fun s => snd s = t /\ Some (fst s) = c) (e_sub e))) +
     (if decide (c = None) then inject_Z (Z.of_nat (countP (fun a => a = Addition t SideA) (e_add e))) else 0))%Q).
  - etransitivity; [apply csum_plus|]. apply Qplus_comp;
      [etransitivity; [apply csum_plus|]; apply Qplus_comp; [apply csum_one|apply (csum_count (fun s => Some (fst s)) (fun s => snd s = t))]|apply csum_one].
    + destruct (decide (Some t ∈ cls m)) as [D|D]; [left; exact D|]. right. rewrite <- HD, cell_outside by tauto. reflexivity.
    + intros [u v] Hz _. cbn [fst]. apply K1. apply elem_of_types.
      destruct (bed_sub_types _ _ _ _ _ _ _ HE Hl He Hz) as (H & _). exact H.
    + destruct (decide (None ∈ cls m)) as [D|D]; [left; exact D|]. right. destruct (e_add e) as [|z l] eqn:Ea; [reflexivity|].
      exfalso. apply D, K2. discriminate.
  - assert (none : forall {X} (P : X -> Prop) `{!forall x, Decision (P x)} (l : list X), (forall z, z ∈ l -> ~ P z) -> countP P l = 0%nat).
    { intros X P HP l HN. destruct (countP P l) eqn:EC; [reflexivity|]. exfalso.
      assert (K : (0 < countP P l)%nat) by lia. apply countP_pos in K as (z & Hz & Pz). exact (HN z Hz Pz). }
    assert (Hsub : forall u v, (u, v) ∈ e_sub e -> u <> v) by (intros u v K; apply (bed_sub_types _ _ _ _ _ _ _ HE Hl He K)).
    intros [u|] _.
    + rewrite (decide_False (P := Some u = None)) by discriminate. destruct (decide (Some u = Some t)) as [[= ->]|D].
      * rewrite HD. rewrite (none substitution); [ring|]. intros [u v] Hz [K3 K4]. cbn in *. injection K4 as ->. apply (Hsub t v Hz). congruence.
      * rewrite C1 by congruence. cbn [nval].
        replace (countP (fun s => snd s = t /\ Some (fst s) = Some u) (e_sub e)) with (countP (fun s => s = (u, t)) (e_sub e)); [ring|].
        clear. unfold countP. f_equal. apply list_filter_iff. intros [a b]. cbn. split; [intros [= -> ->]; auto|intros [-> [= ->]]; reflexivity].
    + rewrite (decide_False (P := None = Some t)) by discriminate. rewrite decide_True by reflexivity. rewrite C2. cbn [nval].
      rewrite (none substitution); [ring|]. intros z _ [_ K]. discriminate.
Qed.

(** [n / d], 0 if [n] is 0. *)
Theorem matrix_precision_recall o t ver : cord_ok o -> exists p r mp mr,
  precision exactA o m (Some t) ver = Ok (NDec p, mp) /\ recall exactA o m (Some t) ver = Ok (NDec r, mr) /\
  (p == found t / (found t + inject_Z (Z.of_nat (countP (fun s => fst s = t) (e_sub e)))
                   + inject_Z (Z.of_nat (countP (fun a => a = Addition t SideB) (e_add e)))))%Q /\
  (r == found t / (found t + inject_Z (Z.of_nat (countP (fun s => snd s = t) (e_sub e)))
                   + inject_Z (Z.of_nat (countP (fun a => a = Addition t SideA) (e_add e)))))%Q.
Proof.
  intros HO. destruct (matrix_classes _ E _ f n_t sa sb x y e m HE Hs Hb He Hm) as (HR & _ & _).
  assert (HT : tame exactA m) by (apply (matrix_tame exactA E f n_t sa sb x y e m sane_exactA HE Hs Hn Hb He Hm); left; reflexivity).
  destruct (class_values exactA o m sane_exactA HO HR HT t ver) as (p & r & mp & mr & E1 & E2 & _ & _ & HX).
  destruct (HX (exact_of_tame m HT)) as [-> ->]. exists (class_precision exactA m (Some t)), (class_recall exactA m (Some t)), mp, mr.
  split; [exact E1|]. split; [exact E2|].
  assert (Hn0 : n_t <> 0) by lia. pose proof (matrix_diagonal _ _ _ _ _ _ _ _ _ t HE Hn0 Hb He Hm) as HD. fold (found t) in HD.
  unfold class_precision, class_recall. rewrite <- matrix_row, <- matrix_col. 
  assert (EQ : Qeq_bool (nval (cell m (Some t) (Some t))) 0 = Qeq_bool (found t) 0) by (apply Qeq_bool_ext, HD). rewrite EQ.
  destruct (Qeq_bool (found t) 0) eqn:EZ.
  - apply Qeq_bool_eq in EZ. unfold Qdiv. split; rewrite EZ; ring.
  - rewrite !exact_rd, HD. split; reflexivity.
Qed.
End formula.
