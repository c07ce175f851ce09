(** Properties of Pk and WindowDiff. *)
From Coq Require Import Lqa.
From Verif Require Import SpecWindow FormatProofs Round RoundProofs SimRound SimProofs SimMain WindowProofs.
Open Scope Z_scope.

(** ** Values on label sequences *)

Definition far_errors (h r : list pyint) (k : Z) : Z :=
  zlen (filter (fun i => far h (Z.to_nat i) (Z.to_nat (i + k)) <> far r (Z.to_nat i) (Z.to_nat (i + k))) (seqZ 0 (zlen r - k))).
Definition nb_errors (h r : list pyint) (k : Z) : Z :=
  zlen (filter (fun i => nb h (Z.to_nat i) (Z.to_nat k) <> nb r (Z.to_nat i) (Z.to_nat k)) (seqZ 0 (zlen r - k))).

Lemma count_le (P : Z -> Prop) `{!forall x, Decision (P x)} n : 0 <= zlen (filter P (seqZ 0 n)) <= Z.max 0 n.
Proof.
  unfold zlen. pose proof (filter_length P (seqZ 0 n)) as K. rewrite seqZ_length in K. lia.
Qed.

Lemma pk_positions_eq A om rp h r k : length h = length r -> 0 <= k ->
  pk_positions A om rp h r k =
    if rp then Ok (WParts (far_errors h r k) (Z.max 0 (zlen r - k)))
    else let v := if k <? zlen r then NDec (rd A (inject_Z (far_errors h r k) / inject_Z (zlen r - k))) else NInt 0 in
         Ok (WVal (if om then NDec (rd A (1 - nval v)) else v)).
Proof.
  intros Hl Hk. unfold pk_positions. rewrite pk_loop by assumption. cbn [bind]. fold (far_errors h r k).
  destruct (Z.ltb_spec k (zlen r)) as [C|C].
  - rewrite (Z.max_r 0 (zlen r - k)) by lia. destruct (Z.ltb_spec 0 (zlen r - k)); [|lia]. cbn [ndiv]. rewrite qzero_inject by lia. cbn [bind].
    destruct rp; [reflexivity|]. destruct om; reflexivity.
  - rewrite (Z.max_l 0 (zlen r - k)) by lia. change (0 <? 0) with false. cbn [bind]. destruct rp; [reflexivity|]. destruct om; reflexivity.
Qed.

Lemma unit_rd A c d : sane A -> 0 <= c <= d -> 0 < d ->
  (0 <= rd A (inject_Z c / inject_Z d) /\ rd A (inject_Z c / inject_Z d) <= 1)%Q.
Proof.
  intros HA Hc Hd. pose proof (prec_sane A HA) as HP.
  assert (Hd' : (0 < inject_Z d)%Q) by (apply inj_pos; lia).
  split.
  - apply (rd_nonneg A _ _ HP). apply Qdiv_bounds_l; [assumption|]. rewrite Qmult_0_l. change 0%Q with (inject_Z 0). apply inj_le. lia.
  - change 1%Q with (inject_Z 1). apply (rd_le A _ _ HP); [|lia]. apply Qdiv_bounds; [assumption|].
    rewrite <- inject_Z_mult. apply inj_le. lia.
Qed.

Lemma one_minus_rd A v : sane A -> (0 <= v <= 1)%Q -> (0 <= rd A (1 - v) /\ rd A (1 - v) <= 1)%Q.
Proof.
  intros HA [H0 H1]. pose proof (prec_sane A HA) as HP. split.
  - apply (rd_nonneg A _ _ HP). lra.
  - change 1%Q with (inject_Z 1). apply (rd_le A _ _ HP); [|lia]. change (inject_Z 1) with 1%Q. lra.
Qed.

Lemma runs_sum r : zsum (convert_positions_to_masses r) = zlen r.
Proof. unfold convert_positions_to_masses. rewrite group_lengths_sum. unfold zlen. rewrite fmap_length. reflexivity. Qed.

(** What window_diff returns for [c] errors in [d] windows. *)
Definition wd_result (A : arith) (om rp : bool) (c d : Z) : res wres :=
  let v := rd A (inject_Z c / inject_Z d) in
  if om then Ok (WVal (NDec (rd A (1 - v)))) else if rp then Ok (WParts c d) else Ok (WVal (NDec v)).

Lemma wd_finish A (om rp : bool) c d : sane A -> 0 <= c <= d -> 0 < d ->
  (let* win_diff := ndiv A (NDec (inject_Z c)) (NInt d) in
   if negb (nleb win_diff (NInt 1)) then Err AssertionError
   else if om then let* v := nsub A (NDec 1) win_diff in Ok (WVal v)
   else if rp then Ok (WParts c d) else Ok (WVal win_diff)) = wd_result A om rp c d.
Proof.
  intros HA Hc Hd. cbn [ndiv]. rewrite qzero_inject by lia. cbn [bind]. unfold nleb. cbn [nval].
  destruct (unit_rd A c d HA Hc Hd) as [_ H1].
  replace (Qle_bool _ (inject_Z 1)) with true by (symmetry; apply Qle_bool_iff; exact H1). cbn [negb].
  unfold wd_result. destruct om; [reflexivity|]. destruct rp; reflexivity.
Qed.

Lemma wd_positions_eq A om rp h r k : sane A -> length h = length r -> 0 <= k <= 255 -> k < zlen r ->
  wd_positions A false om rp h r k = wd_result A om rp (nb_errors h r k) (zlen r - k).
Proof.
  intros HA Hl Hk Hn. unfold wd_positions, paired_units. rewrite wd_loop by assumption. cbn [bind]. fold (nb_errors h r k).
  assert (EL : zlen (zip r h) = zlen r) by (unfold zlen; rewrite zip_with_length; lia).
  rewrite EL, runs_sum, Z.eqb_refl. cbn [orb negb]. rewrite wd_finish; [reflexivity|assumption| |lia].
  unfold nb_errors. match goal with |- context[filter ?P _] => pose proof (count_le P (zlen r - k)) end. lia.
Qed.

Definition pad (k : Z) (p : list pyint) : list pyint :=
  replicate (Z.to_nat (Z.max 1 k)) (PyInt 0 0) ++ p ++ replicate (Z.to_nat (Z.max 1 k)) (PyInt 0 0).

Lemma pad_length k p : zlen (pad k p) = zlen p + 2 * Z.max 1 k.
Proof. unfold pad, zlen. rewrite !app_length, !replicate_length. lia. Qed.

Lemma paired_pad h r k : paired_units h r k true = zip (pad k r) (pad k h).
Proof.
  unfold paired_units, pad. replace (if k <=? 0 then 1 else k) with (Z.max 1 k); [reflexivity|].
  destruct (Z.leb_spec k 0); lia.
Qed.

Lemma wd_lamprier_eq A om rp h r k : sane A -> length h = length r -> 0 <= k <= 255 ->
  wd_positions A true om rp h r k = wd_result A om rp (nb_errors (pad k h) (pad k r) k) (zlen r + 2 * Z.max 1 k - k + 1).
Proof.
  intros HA Hl Hk. unfold wd_positions. rewrite paired_pad.
  assert (HL : length (pad k h) = length (pad k r)).
  { pose proof (pad_length k h). pose proof (pad_length k r). unfold zlen in *. lia. }
  rewrite wd_loop by assumption. cbn [bind]. fold (nb_errors (pad k h) (pad k r) k).
  assert (EL : zlen (zip (pad k r) (pad k h)) = zlen (pad k r)) by (unfold zlen; rewrite zip_with_length; lia).
  rewrite EL, pad_length, orb_true_r. cbn [negb]. rewrite wd_finish; [reflexivity|assumption| |unfold zlen; lia].
  unfold nb_errors. rewrite pad_length. match goal with |- context[filter ?P _] => pose proof (count_le P (zlen r + 2 * Z.max 1 k - k)) end.
  unfold zlen in *. lia.
Qed.

(** ** Encodings *)

Lemma to_positions2_ok f mh mr sh sr : Spec.positive mh -> Spec.positive mr -> mh <> [] -> mr <> [] ->
  wencodes f mh sh -> wencodes f mr sr -> exists h r, canonical mh h /\ canonical mr r /\
  to_positions f sh = Ok h /\ to_positions f sr = Ok r /\
  to_positions2 f sh sr = if zsum mh =? zsum mr then Ok (h, r) else Err SegmentationMetricError.
Proof.
  intros Hh Hr Nh Nr Eh Er. destruct (to_positions_ok f mh sh Hh Nh Eh) as (h & H1 & H2). destruct (to_positions_ok f mr sr Hr Nr Er) as (r & R1 & R2).
  exists h, r. split; [assumption|]. split; [assumption|]. split; [assumption|]. split; [assumption|].
  unfold to_positions2. rewrite H1, R1. cbn [bind]. rewrite (proj1 H2), (proj1 R2), Z.eqb_sym. destruct (zsum mh =? zsum mr); reflexivity.
Qed.

Lemma canonical_encodes m p : Spec.positive m -> canonical m p -> encodes FPosition m (Ints p).
Proof.
  intros Hm [HL HC]. split; [exact HL|]. intros i u v Hu Hv. destruct (HC i (S i) u v ltac:(lia) Hu Hv) as [H _].
  replace (Z.of_nat (S i)) with (Z.of_nat i + 1) in * by lia. rewrite ncuts_step, ncuts_none in H by (assumption || lia).
  destruct (decide (cut m (Z.of_nat i + 1))) as [C|C]; (split; intros K).
  - exact C.
  - intros E. apply H in E. lia.
  - exfalso. apply K, H. lia.
  - contradiction.
Qed.

Lemma canonical_runs m p : Spec.positive m -> m <> [] -> canonical m p -> convert_positions_to_masses p = m.
Proof.
  intros Hm Hne HC. pose proof (to_bstring_encodes FPosition m (Ints p) Hm Hne (canonical_encodes m p Hm HC)) as H.
  cbn [to_bstring as_positions bind] in H. pose proof (group_lengths_positive (pval <$> p)) as HP. unfold convert_positions_to_masses in *.
  rewrite bstring_of_masses in H by assumption. injection H as H. apply bs_of_inj; try assumption.
  pose proof (group_lengths_sum (pval <$> p)) as HS. destruct HC as [HL _]. pose proof (positive_sum_pos m Hm Hne).
  intros E. rewrite E in HS. unfold zlen in *. rewrite fmap_length in HS. cbn in HS. lia.
Qed.

(** ** C34, C35 *)

Theorem pk_masses A rnd f mh mr sh sr k om rp : Spec.positive mh -> Spec.positive mr -> mh <> [] -> mr <> [] ->
  wencodes f mh sh -> wencodes f mr sr -> zsum mh = zsum mr -> 0 <= k < zsum mr ->
  pk A rnd f (Some k) om rp sh sr =
    if rp then Ok (WParts (pk_errors mh mr k (zsum mr)) (zsum mr - k))
    else let v := rd A (inject_Z (pk_errors mh mr k (zsum mr)) / inject_Z (zsum mr - k)) in
         Ok (WVal (NDec (if om then rd A (1 - v) else v))).
Proof.
  intros Hh Hr Nh Nr Eh Er Hz Hk.
  destruct (to_positions2_ok f mh mr sh sr) as (h & r & Ch & Cr & _ & _ & H2); try assumption.
  unfold pk. rewrite H2, Hz, Z.eqb_refl. cbn [bind effective_window].
  assert (HL : length h = length r) by (destruct Ch as [A1 _]; destruct Cr as [A2 _]; unfold zlen in *; lia).
  rewrite pk_positions_eq by (assumption || lia). unfold far_errors. rewrite (pk_count_ok mh mr) by (assumption || lia).
  rewrite (proj1 Cr). rewrite (Z.max_r 0) by lia. rewrite (proj2 (Z.ltb_lt k (zsum mr))) by lia. cbn [nval]. destruct rp; [reflexivity|].
  destruct om; reflexivity.
Qed.

Lemma encodes_tuple f m s : wencodes f m s -> is_tuple f s = true.
Proof. destruct f, s; cbn; tauto || reflexivity. Qed.

Theorem wd_masses A rnd f mh mr sh sr k om rp : sane A -> Spec.positive mh -> Spec.positive mr -> mh <> [] -> mr <> [] ->
  wencodes f mh sh -> wencodes f mr sr -> zsum mh = zsum mr -> 0 <= k <= 255 -> k < zsum mr ->
  window_diff A rnd f (Some k) false om rp sh sr = wd_result A om rp (wd_errors mh mr k (zsum mr)) (zsum mr - k).
Proof.
  intros HA Hh Hr Nh Nr Eh Er Hz Hk Hn.
  destruct (to_positions2_ok f mh mr sh sr) as (h & r & Ch & Cr & _ & _ & H2); try assumption.
  unfold window_diff. rewrite H2, Hz, Z.eqb_refl. cbn [bind effective_window andb].
  assert (HL : length h = length r) by (destruct Ch as [A1 _]; destruct Cr as [A2 _]; unfold zlen in *; lia).
  rewrite wd_positions_eq by (assumption || rewrite (proj1 Cr); lia). unfold nb_errors.
  rewrite (wd_count_ok mh mr) by (assumption || lia || (apply canonical_stepwise; assumption)).
  rewrite (proj1 Cr). reflexivity.
Qed.

(** Padding. *)
Lemma cut_snoc m z p : m <> [] -> cut (m ++ [z]) p <-> cut m p \/ p = zsum m.
Proof.
  intros Hne. unfold cut. rewrite app_length. cbn [length]. split.
  - intros (k & Hk & E). destruct (decide (k = length m)) as [->|C].
    + right. rewrite take_app in E. congruence.
    + left. exists k. split; [lia|]. rewrite take_app_le in E by lia. exact E.
  - intros [(k & Hk & E)| ->].
    + exists k. split; [lia|]. rewrite take_app_le by lia. exact E.
    + exists (length m). split; [destruct m; [congruence|]; cbn [length]; lia|]. rewrite take_app. reflexivity.
Qed.

Lemma padded_positive k m : Spec.positive m -> Spec.positive (padded k m).
Proof.
  intros H. unfold padded. apply Forall_cons. split; [lia|]. apply Forall_app. split; [exact H|]. repeat constructor. lia.
Qed.

Lemma padded_sum k m : zsum (padded k m) = zsum m + 2 * Z.max 1 k.
Proof. unfold padded. rewrite zsum_cons, zsum_app. cbn [zsum foldr]. lia. Qed.

(** No label 0 at either end. *)
Definition no_zero (p : list pyint) : Prop :=
  (forall u, p !! 0%nat = Some u -> pval u <> 0) /\ (forall u, last p = Some u -> pval u <> 0).

Lemma pad_stepwise k m p : Spec.positive m -> m <> [] -> stepwise m p -> no_zero p -> stepwise (padded k m) (pad k p).
Proof.
  intros Hm Hne [HL HS] [Z0 Z1]. split; [rewrite pad_length, padded_sum, HL; reflexivity|].
  pose proof (positive_sum_pos m Hm Hne) as Hpos. intros t Ht.
  set (K := Z.to_nat (Z.max 1 k)) in *. assert (HK : (1 <= K)%nat) by (unfold K; lia).
  assert (EK : Z.max 1 k = Z.of_nat K) by (unfold K; lia).
  assert (EC : cut (padded k m) (Z.of_nat t + 1) <-> Z.of_nat t + 1 = Z.of_nat K \/ cut m (Z.of_nat t + 1 - Z.of_nat K) \/ Z.of_nat t + 1 - Z.of_nat K = zsum m).
  { unfold padded. rewrite cut_cons, cut_snoc by (assumption || (destruct m; [congruence|discriminate])). rewrite EK. reflexivity. }
  assert (Hlen : length (pad k p) = (length p + 2 * K)%nat).
  { pose proof (pad_length k p). unfold zlen in *. lia. }
  assert (Hp : (1 <= length p)%nat) by (unfold zlen in HL; lia).
  assert (L1 : forall i, (i < K)%nat -> pad k p !! i = Some (PyInt 0 0)).
  { intros i Hi. unfold pad. fold K. rewrite lookup_app_l by (rewrite replicate_length; lia). apply lookup_replicate_2. lia. }
  assert (L2 : forall i, (K <= i < K + length p)%nat -> pad k p !! i = p !! (i - K)%nat).
  { intros i Hi. unfold pad. fold K. rewrite lookup_app_r by (rewrite replicate_length; lia). rewrite replicate_length.
    rewrite lookup_app_l by lia. reflexivity. }
  assert (L3 : forall i, (K + length p <= i < K + length p + K)%nat -> pad k p !! i = Some (PyInt 0 0)).
  { intros i Hi. unfold pad. fold K. rewrite lookup_app_r by (rewrite replicate_length; lia). rewrite replicate_length.
    rewrite lookup_app_r by lia. apply lookup_replicate_2. lia. }
  destruct (lookup_lt_is_Some_2 p 0 ltac:(lia)) as [p0 Hp0].
  destruct (lookup_lt_is_Some_2 p (length p - 1) ltac:(lia)) as [p1 Hp1].
  assert (Hlast : last p = Some p1) by (rewrite last_lookup; replace (Init.Nat.pred (length p)) with (length p - 1)%nat by lia; exact Hp1).
  unfold zlen in HL.
  destruct (decide (S t < K)%nat) as [C1|C1].
  { unfold far. rewrite !L1 by lia. rewrite bool_decide_eq_false_2; [reflexivity|]. rewrite EC. intros [?|[C|?]]; [lia| |lia].
    apply cut_range in C; [lia|assumption]. }
  destruct (decide (S t = K)) as [C2|C2].
  { unfold far. rewrite L1, L2 by lia. replace (S t - K)%nat with 0%nat by lia. rewrite Hp0.
    rewrite bool_decide_eq_true_2 by (rewrite EC; lia). unfold py_is. cbn [pval].
    destruct (Z.eqb_spec 0 (pval p0)) as [E|E]; [exfalso; apply (Z0 p0 Hp0); congruence|reflexivity]. }
  destruct (decide (S t < K + length p)%nat) as [C3|C3].
  { specialize (HS (t - K)%nat ltac:(lia)). unfold far in HS |- *. rewrite !L2 by lia.
    replace (S t - K)%nat with (S (t - K)) by lia. rewrite HS. f_equal.
    replace (Z.of_nat (t - K) + 1) with (Z.of_nat t + 1 - Z.of_nat K) by lia. apply bool_decide_ext. rewrite EC. split; [auto|].
    intros [?|[?|?]]; [lia|assumption|lia]. }
  destruct (decide (S t = K + length p)%nat) as [C4|C4].
  { unfold far. rewrite L2, L3 by lia. replace (t - K)%nat with (length p - 1)%nat by lia. rewrite Hp1.
    rewrite bool_decide_eq_true_2 by (rewrite EC; lia). unfold py_is. cbn [pval].
    destruct (Z.eqb_spec (pval p1) 0) as [E|E]; [exfalso; apply (Z1 p1 Hlast E)|reflexivity]. }
  unfold far. rewrite !L3 by lia. rewrite bool_decide_eq_false_2; [reflexivity|]. rewrite EC. intros [?|[C|?]]; [lia| |lia].
  apply cut_range in C; [lia|assumption].
Qed.

Lemma masses_no_zero m : no_zero (convert_masses_to_positions m).
Proof.
  assert (H : forall u, u ∈ convert_masses_to_positions m -> pval u <> 0).
  { intros u Hu. assert (Hp : pval u ∈ pval <$> convert_masses_to_positions m) by (apply elem_of_list_fmap; eauto).
    rewrite positions_labels in Hp. apply labels_from_gt in Hp. lia. }
  split; intros u Hu; apply H.
  - eapply elem_of_list_lookup_2, Hu.
  - apply last_Some_elem_of, Hu.
Qed.

Lemma to_positions_no_zero f s p : to_positions f s = Ok p -> ends_not_zero f s -> (exists m, wencodes f m s) -> no_zero p.
Proof.
  intros H Hz [m He]. destruct f; try contradiction; destruct s as [q|b|t]; try contradiction; cbn [to_positions as_string as_masses as_positions bind] in H.
  - injection H as <-. exact Hz.
  - injection H as <-. apply masses_no_zero.
  - destruct (convert_nltk_to_masses t sym1) as [m'|]; [|discriminate]. cbn [bind] in H. injection H as <-. apply masses_no_zero.
Qed.

Theorem wd_lamprier A rnd f mh mr sh sr k om rp : sane A -> Spec.positive mh -> Spec.positive mr -> mh <> [] -> mr <> [] ->
  wencodes f mh sh -> wencodes f mr sr -> ends_not_zero f sh -> ends_not_zero f sr -> zsum mh = zsum mr -> 0 <= k <= 255 ->
  window_diff A rnd f (Some k) true om rp sh sr =
    let n := zsum mr + 2 * Z.max 1 k in
    wd_result A om rp (wd_errors (padded k mh) (padded k mr) k n) (n - k + 1).
Proof.
  intros HA Hh Hr Nh Nr Eh Er Lh Lr Hz Hk.
  destruct (to_positions2_ok f mh mr sh sr) as (h & r & Ch & Cr & Ph & Pr & H2); try assumption.
  unfold window_diff. rewrite H2, Hz, Z.eqb_refl, (encodes_tuple _ _ _ Eh), (encodes_tuple _ _ _ Er). cbn [bind effective_window andb negb].
  assert (HL : length h = length r) by (destruct Ch as [A1 _]; destruct Cr as [A2 _]; unfold zlen in *; lia).
  rewrite wd_lamprier_eq by assumption. cbn zeta. unfold nb_errors.
  rewrite (wd_count_ok (padded k mh) (padded k mr)).
  - rewrite pad_length, (proj1 Cr). reflexivity.
  - apply padded_positive, Hh.
  - apply padded_positive, Hr.
  - apply pad_stepwise; try assumption; [apply canonical_stepwise; assumption|]. apply (to_positions_no_zero f sh); eauto.
  - apply pad_stepwise; try assumption; [apply canonical_stepwise; assumption|]. apply (to_positions_no_zero f sr); eauto.
  - pose proof (pad_length k h). pose proof (pad_length k r). unfold zlen in *. lia.
  - lia.
Qed.
