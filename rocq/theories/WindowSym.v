(** Range, symmetry, encodings and degenerate windows of Pk and WindowDiff. *)
From Coq Require Import Lqa.
From Verif Require Import SpecWindow FormatProofs Round RoundProofs SimRound SimProofs SimMain WindowProofs WindowMain.
Open Scope Z_scope.

(** ** Sequences with the same pattern of equal labels *)

Definition alike (p q : list pyint) : Prop :=
  length p = length q /\ forall i j u v u' v', p !! i = Some u -> p !! j = Some v -> q !! i = Some u' -> q !! j = Some v' ->
  py_is u v = py_is u' v'.

Lemma py_is_sym u v : py_is u v = py_is v u.
Proof.
  unfold py_is. rewrite (Z.eqb_sym (pval u)), (Z.eqb_sym (pobj u)). destruct (Z.eqb_spec (pval v) (pval u)) as [E|]; [|reflexivity].
  rewrite E. reflexivity.
Qed.

Lemma canonical_alike m p q : canonical m p -> canonical m q -> alike p q.
Proof.
  intros Hp Hq. split; [destruct Hp as [Lp _]; destruct Hq as [Lq _]; unfold zlen in *; lia|].
  intros i j u v u' v' H1 H2 H3 H4. destruct (le_lt_dec i j) as [C|C].
  - rewrite (canonical_is m p i j) by assumption. rewrite (canonical_is m q i j) by assumption. reflexivity.
  - rewrite (py_is_sym u), (py_is_sym u'). rewrite (canonical_is m p j i) by (assumption || lia). rewrite (canonical_is m q j i) by (assumption || lia). reflexivity.
Qed.

Lemma alike_take n p q : alike p q -> alike (take n p) (take n q).
Proof.
  intros [HL H]. split; [rewrite !take_length; lia|]. intros i j u v u' v'. rewrite !lookup_take_Some.
  intros [H1 _] [H2 _] [H3 _] [H4 _]. eapply H; eassumption.
Qed.

Lemma alike_drop n p q : alike p q -> alike (drop n p) (drop n q).
Proof.
  intros [HL H]. split; [rewrite !drop_length; lia|]. intros i j u v u' v'. rewrite !lookup_drop. apply H.
Qed.

Lemma alike_slice p q lo hi : alike p q -> alike (pyslice p lo hi) (pyslice q lo hi).
Proof. intros H. unfold pyslice. rewrite (proj1 H). apply alike_take, alike_drop, H. Qed.

Lemma pyindex_alike (p q : list pyint) i : length p = length q ->
  (pyindex p i = Err IndexError /\ pyindex q i = Err IndexError) \/
  (exists k u v, p !! k = Some u /\ q !! k = Some v /\ pyindex p i = Ok u /\ pyindex q i = Ok v /\ k = Z.to_nat (if i <? 0 then i + Z.of_nat (length p) else i)).
Proof.
  intros HL. unfold pyindex. rewrite <- HL. set (k := if i <? 0 then i + Z.of_nat (length p) else i).
  destruct (k <? 0); [left; auto|]. destruct (p !! Z.to_nat k) as [u|] eqn:E1.
  - assert (is_Some (q !! Z.to_nat k)) as [v E2] by (apply lookup_lt_is_Some; rewrite <- HL; eapply lookup_lt_Some, E1).
    rewrite E2. right. exists (Z.to_nat k), u, v. auto.
  - rewrite (proj2 (lookup_ge_None q (Z.to_nat k))); [left; auto|]. rewrite <- HL. apply lookup_ge_None, E1.
Qed.

Lemma ends_alike p q : alike p q -> ends_agree p = ends_agree q.
Proof.
  intros [HL H]. unfold ends_agree.
  destruct (pyindex_alike p q 0 HL) as [[-> ->]|(k & u & v & K1 & K2 & -> & -> & _)]; [reflexivity|].
  destruct (pyindex_alike p q (-1) HL) as [[-> ->]|(k' & u' & v' & K1' & K2' & -> & -> & _)]; [reflexivity|].
  cbn [bind]. f_equal. eapply H; eassumption.
Qed.

Lemma foldM_ext {S B} (f g : S -> B -> res S) l s : (forall s b, f s b = g s b) -> foldM f l s = foldM g l s.
Proof.
  intros H. revert s. induction l as [|b l IH]; intros s; [reflexivity|]. cbn [foldM]. rewrite H. destruct (g s b); cbn [bind]; [apply IH|reflexivity].
Qed.

Lemma pk_alike A om rp h r h' r' k : alike h h' -> alike r r' -> pk_positions A om rp h r k = pk_positions A om rp h' r' k.
Proof.
  intros Hh Hr. unfold pk_positions. rewrite (foldM_ext (pk_step h r k) (pk_step h' r' k)).
  - unfold zlen. rewrite (proj1 Hr). reflexivity.
  - intros [s1 s2] i. unfold pk_step. rewrite (ends_alike _ _ (alike_slice r r' i (i + k + 1) Hr)), (ends_alike _ _ (alike_slice h h' i (i + k + 1) Hh)). reflexivity.
Qed.

(** ** The same for adjacent pairs *)

Definition adj (p q : list (pyint * pyint)) : Prop :=
  length p = length q /\ forall i u v u' v', p !! i = Some u -> p !! S i = Some v -> q !! i = Some u' -> q !! S i = Some v' ->
  py_is u.1 v.1 = py_is u'.1 v'.1 /\ py_is u.2 v.2 = py_is u'.2 v'.2.

Lemma adj_take n p q : adj p q -> adj (take n p) (take n q).
Proof.
  intros [HL H]. split; [rewrite !take_length; lia|]. intros i u v u' v'. rewrite !lookup_take_Some.
  intros [H1 _] [H2 _] [H3 _] [H4 _]. eapply H; eassumption.
Qed.

Lemma adj_drop n p q : adj p q -> adj (drop n p) (drop n q).
Proof.
  intros [HL H]. split; [rewrite !drop_length; lia|]. intros i u v u' v'. rewrite !lookup_drop, Nat.add_succ_r. apply H.
Qed.

Lemma adj_slice p q lo hi : adj p q -> adj (pyslice p lo hi) (pyslice q lo hi).
Proof. intros H. unfold pyslice. rewrite (proj1 H). apply adj_take, adj_drop, H. Qed.

Lemma wd_pair_adj p q acc j : adj p q -> wd_pair p acc j = wd_pair q acc j.
Proof.
  intros H. unfold wd_pair. destruct (adj_slice p q j (j + 2) H) as [HL HA].
  destruct (pyslice p j (j + 2)) as [|[r0 h0] [|[r1 h1] [|]]]; destruct (pyslice q j (j + 2)) as [|[r0' h0'] [|[r1' h1'] [|]]]; try discriminate HL; try reflexivity.
  destruct (HA 0%nat _ _ _ _ eq_refl eq_refl eq_refl eq_refl) as [E1 E2]. cbn [fst snd] in E1, E2. rewrite E1, E2. reflexivity.
Qed.

Lemma wd_step_adj p q k sd i : adj p q -> wd_step p k sd i = wd_step q k sd i.
Proof.
  intros H. unfold wd_step. pose proof (adj_slice p q i (i + k + 1) H) as HS. unfold zlen. rewrite (proj1 HS).
  destruct (negb _); [reflexivity|]. rewrite (foldM_ext (wd_pair (pyslice p i (i + k + 1))) (wd_pair (pyslice q i (i + k + 1)))); [reflexivity|].
  intros s j. apply wd_pair_adj, HS.
Qed.

Lemma wd_adj A lam om rp h r h' r' k : length r = length r' -> adj (paired_units h r k lam) (paired_units h' r' k lam) ->
  wd_positions A lam om rp h r k = wd_positions A lam om rp h' r' k.
Proof.
  intros HL H. unfold wd_positions. rewrite !runs_sum.
  rewrite (foldM_ext (wd_step (paired_units h r k lam) k) (wd_step (paired_units h' r' k lam) k)) by (intros; apply wd_step_adj, H).
  unfold zlen. rewrite HL, (proj1 H). reflexivity.
Qed.

Lemma stepwise_adj mh mr h h' r r' : stepwise mh h -> stepwise mh h' -> stepwise mr r -> stepwise mr r' -> zsum mh = zsum mr -> adj (zip r h) (zip r' h').
Proof.
  intros [L1 H1] [L2 H2] [L3 H3] [L4 H4] Hz. unfold zlen in *. split; [rewrite !zip_with_length; lia|].
  intros i [ur uh] [vr vh] [ur' uh'] [vr' vh'] Hu Hv Hu' Hv'. apply lookup_zip_with_Some in Hu, Hv, Hu', Hv'.
  destruct Hu as (? & ? & [= <- <-] & U1 & U2). destruct Hv as (? & ? & [= <- <-] & V1 & V2).
  destruct Hu' as (? & ? & [= <- <-] & U1' & U2'). destruct Hv' as (? & ? & [= <- <-] & V1' & V2'). cbn [fst snd].
  pose proof (lookup_lt_Some _ _ _ V1). pose proof (lookup_lt_Some _ _ _ V2). pose proof (lookup_lt_Some _ _ _ V1'). pose proof (lookup_lt_Some _ _ _ V2').
  split.
  - pose proof (H3 i ltac:(lia)) as E. pose proof (H4 i ltac:(lia)) as E'. unfold far in E, E'. rewrite U1, V1 in E. rewrite U1', V1' in E'. congruence.
  - pose proof (H1 i ltac:(lia)) as E. pose proof (H2 i ltac:(lia)) as E'. unfold far in E, E'. rewrite U2, V2 in E. rewrite U2', V2' in E'. congruence.
Qed.

(** ** C07 *)

Theorem window_encodings A rnd f f' mh mr sh sr sh' sr' :
  Spec.positive mh -> Spec.positive mr -> mh <> [] -> mr <> [] ->
  wencodes f mh sh -> wencodes f mr sr -> wencodes f' mh sh' -> wencodes f' mr sr' ->
  forall w om rp,
    pk A rnd f w om rp sh sr = pk A rnd f' w om rp sh' sr' /\
    window_diff A rnd f w false om rp sh sr = window_diff A rnd f' w false om rp sh' sr' /\
    (ends_not_zero f sh -> ends_not_zero f sr -> ends_not_zero f' sh' -> ends_not_zero f' sr' ->
     window_diff A rnd f w true om rp sh sr = window_diff A rnd f' w true om rp sh' sr').
Proof.
  intros Hh Hr Nh Nr E1 E2 E3 E4 w om rp.
  destruct (to_positions2_ok f mh mr sh sr) as (h & r & Ch & Cr & P1 & P2 & H2); try assumption.
  destruct (to_positions2_ok f' mh mr sh' sr') as (h' & r' & Ch' & Cr' & P1' & P2' & H2'); try assumption.
  unfold pk, window_diff. rewrite H2, H2'. destruct (Z.eqb_spec (zsum mh) (zsum mr)) as [Hz|Hz]; [|auto]. cbn [bind].
  replace (effective_window A rnd w r') with (effective_window A rnd w r).
  2:{ destruct w as [k|]; [reflexivity|]. cbn [effective_window]. unfold compute_window_size. cbn [tree_runs bind].
      rewrite (canonical_runs mr r), (canonical_runs mr r') by assumption. reflexivity. }
  destruct (effective_window A rnd w r) as [k|e]; [|auto]. cbn [bind].
  split; [apply pk_alike; eapply canonical_alike; eassumption|].
  assert (HL : length r = length r') by (destruct Cr as [A1 _]; destruct Cr' as [A2 _]; unfold zlen in *; lia).
  rewrite (encodes_tuple _ _ _ E1), (encodes_tuple _ _ _ E2), (encodes_tuple _ _ _ E3), (encodes_tuple _ _ _ E4). cbn [andb negb].
  split; [|intros Z1 Z2 Z3 Z4]; apply wd_adj; try assumption.
  - apply (stepwise_adj mh mr); try assumption; apply canonical_stepwise; assumption.
  - rewrite !paired_pad. apply (stepwise_adj (padded k mh) (padded k mr)).
    + apply pad_stepwise; try assumption; [apply canonical_stepwise; assumption|]. eapply to_positions_no_zero; [exact P1|assumption|eauto].
    + apply pad_stepwise; try assumption; [apply canonical_stepwise; assumption|]. eapply to_positions_no_zero; [exact P1'|assumption|eauto].
    + apply pad_stepwise; try assumption; [apply canonical_stepwise; assumption|]. eapply to_positions_no_zero; [exact P2|assumption|eauto].
    + apply pad_stepwise; try assumption; [apply canonical_stepwise; assumption|]. eapply to_positions_no_zero; [exact P2'|assumption|eauto].
    + rewrite !padded_sum. lia.
Qed.

(** ** C38 *)

Lemma ends_agree_err w : exists b, ends_agree w = Ok b \/ ends_agree w = Err IndexError.
Proof.
  unfold ends_agree. destruct (pyindex_alike w w 0 eq_refl) as [[-> _]|(? & ? & ? & _ & _ & -> & _)]; [exists true; auto|].
  destruct (pyindex_alike w w (-1) eq_refl) as [[-> _]|(? & ? & ? & _ & _ & -> & _)]; [exists true; auto|]. cbn [bind]. eexists. left. reflexivity.
Qed.

Lemma pk_sym A om rp h r k : length h = length r -> pk_positions A om rp h r k = pk_positions A om rp r h k.
Proof.
  intros HL. unfold pk_positions. rewrite (foldM_ext (pk_step h r k) (pk_step r h k)); [unfold zlen; rewrite HL; reflexivity|].
  intros [s1 s2] i. unfold pk_step.
  destruct (ends_agree_err (pyslice r i (i + k + 1))) as [b [->| ->]]; destruct (ends_agree_err (pyslice h i (i + k + 1))) as [b' [->| ->]]; try reflexivity.
  cbn [bind]. rewrite xorb_comm. reflexivity.
Qed.

Definition swap {X Y} (p : X * Y) : Y * X := (p.2, p.1).

Lemma zip_swap {X Y} (l : list X) (l' : list Y) : zip l' l = swap <$> zip l l'.
Proof. revert l'. induction l as [|x l IH]; intros [|y l']; try reflexivity. cbn. f_equal. apply IH. Qed.

Lemma pyslice_fmap {X Y} (f : X -> Y) l lo hi : pyslice (f <$> l) lo hi = f <$> pyslice l lo hi.
Proof. unfold pyslice. rewrite fmap_length, fmap_take, fmap_drop. reflexivity. Qed.

Lemma wd_pair_swap w acc j : wd_pair (swap <$> w) (swap acc) j = rmap swap (wd_pair w acc j).
Proof.
  unfold wd_pair. rewrite pyslice_fmap. destruct acc as [a b].
  destruct (pyslice w j (j + 2)) as [|[r0 h0] [|[r1 h1] [|]]]; reflexivity.
Qed.

Lemma foldM_swap {S T B} (g : S -> T) (f : S -> B -> res S) (f' : T -> B -> res T) l s :
  (forall s b, f' (g s) b = rmap g (f s b)) -> foldM f' l (g s) = rmap g (foldM f l s).
Proof.
  intros H. revert s. induction l as [|b l IH]; intros s; [reflexivity|]. cbn [foldM]. rewrite H.
  destruct (f s b); cbn [bind rmap]; [apply IH|reflexivity].
Qed.

Lemma fresh_is_sym a b : fresh_is a b = fresh_is b a.
Proof.
  unfold fresh_is. destruct (Z.eqb_spec a b) as [->|C].
  - rewrite Z.eqb_refl. reflexivity.
  - destruct (Z.eqb_spec b a); [congruence|reflexivity].
Qed.

Lemma wd_step_swap u k sd i : wd_step (swap <$> u) k sd i = wd_step u k sd i.
Proof.
  unfold wd_step. rewrite pyslice_fmap. unfold zlen. rewrite fmap_length. destruct (negb _); [reflexivity|].
  change (0, 0) with (@swap Z Z (0, 0)) at 1. rewrite (foldM_swap swap (wd_pair (pyslice u i (i + k + 1)))) by (intros; apply wd_pair_swap).
  destruct (foldM _ _ _) as [[a b]|]; [|reflexivity]. cbn [rmap bind swap fst snd]. rewrite fresh_is_sym. reflexivity.
Qed.

Lemma wd_sym A lam om rp h r k : length h = length r -> wd_positions A lam om rp h r k = wd_positions A lam om rp r h k.
Proof.
  intros HL. assert (HU : paired_units r h k lam = swap <$> paired_units h r k lam) by (unfold paired_units; destruct lam; apply zip_swap).
  unfold wd_positions. rewrite HU, !runs_sum.
  rewrite (foldM_ext (wd_step (swap <$> paired_units h r k lam) k) (wd_step (paired_units h r k lam) k)) by (intros; apply wd_step_swap).
  unfold zlen. rewrite fmap_length, HL. reflexivity.
Qed.

(** The exceptions of a failing conversion may differ, hence [is_ok]. *)
Theorem window_symmetric A rnd f k sh sr h r : to_positions f sh = Ok h -> to_positions f sr = Ok r -> forall om rp,
  pk A rnd f (Some k) om rp sh sr = pk A rnd f (Some k) om rp sr sh /\
  forall lam, window_diff A rnd f (Some k) lam om rp sh sr = window_diff A rnd f (Some k) lam om rp sr sh.
Proof.
  intros Hh Hr om rp. unfold pk, window_diff, to_positions2. rewrite Hh, Hr. cbn [bind]. rewrite (Z.eqb_sym (zlen h)).
  destruct (Z.eqb_spec (zlen r) (zlen h)) as [E|E]; cbn [negb]; [|auto]. cbn [bind effective_window].
  assert (HL : length h = length r) by (unfold zlen in E; lia). split; [apply pk_sym, HL|]. intros lam.
  rewrite (andb_comm (is_tuple f sh)). destruct (lam && _); [reflexivity|]. apply wd_sym, HL.
Qed.

(** ** C26 *)

Theorem window_lengths_fail A rnd f sh sr h r : to_positions f sh = Ok h -> to_positions f sr = Ok r -> length h <> length r ->
  window_fails A rnd f sh sr SegmentationMetricError.
Proof.
  intros Hh Hr Hn w om rp. unfold pk, window_diff, to_positions2. rewrite Hh, Hr. cbn [bind].
  destruct (Z.eqb_spec (zlen r) (zlen h)) as [E|E]; [unfold zlen in E; lia|]. cbn [negb bind]. auto.
Qed.

Theorem window_masses_fail A rnd f mh mr sh sr : Spec.positive mh -> Spec.positive mr -> mh <> [] -> mr <> [] ->
  wencodes f mh sh -> wencodes f mr sr -> zsum mh <> zsum mr -> window_fails A rnd f sh sr SegmentationMetricError.
Proof.
  intros Hh Hr Nh Nr Eh Er Hz. destruct (to_positions2_ok f mh mr sh sr) as (h & r & Ch & Cr & P1 & P2 & _); try assumption.
  eapply window_lengths_fail; [exact P1|exact P2|]. destruct Ch as [A1 _]; destruct Cr as [A2 _]. unfold zlen in *. lia.
Qed.

Theorem window_format_fails A rnd f sh sr : f = FSets \/ f = FOther -> window_fails A rnd f sh sr SegmentationMetricError.
Proof. intros [->| ->] w om rp; split; reflexivity. Qed.

(** ** C36 *)

Theorem pk_range A rnd f sh sr h r k : sane A -> to_positions f sh = Ok h -> to_positions f sr = Ok r -> length h = length r ->
  0 <= k < zlen r -> exists v, pk A rnd f (Some k) false false sh sr = Ok (WVal (NDec v)) /\ (0 <= v <= 1)%Q.
Proof.
  intros HA Hh Hr HL Hk. unfold pk, to_positions2. rewrite Hh, Hr. cbn [bind]. rewrite (proj2 (Z.eqb_eq (zlen r) (zlen h))) by (unfold zlen; lia).
  cbn [negb bind effective_window]. rewrite pk_positions_eq by (assumption || lia). rewrite (proj2 (Z.ltb_lt k (zlen r))) by lia.
  eexists. split; [reflexivity|]. apply unit_rd; [assumption| |lia]. unfold far_errors.
  match goal with |- context[filter ?P _] => pose proof (count_le P (zlen r - k)) end. lia.
Qed.

Lemma not_string f s : ~ label_string f s -> is_tuple f s = true.
Proof. intros H. destruct f, s; try reflexivity. destruct H. split; [reflexivity|]. eexists. reflexivity. Qed.

Theorem wd_string A rnd f sh sr h r : to_positions f sh = Ok h -> to_positions f sr = Ok r -> length h = length r ->
  label_string f sh \/ label_string f sr -> forall k om rp, window_diff A rnd f (Some k) true om rp sh sr = Err TypeError.
Proof.
  intros Hh Hr HL H k om rp. unfold window_diff, to_positions2. rewrite Hh, Hr. cbn [bind]. rewrite (proj2 (Z.eqb_eq (zlen r) (zlen h))) by (unfold zlen; lia).
  cbn [negb bind effective_window andb]. destruct H as [[-> [t ->]]|[-> [t ->]]]; cbn [is_tuple andb negb]; rewrite ?andb_false_r; reflexivity.
Qed.

Theorem wd_range A rnd f sh sr h r k : sane A -> to_positions f sh = Ok h -> to_positions f sr = Ok r -> length h = length r ->
  0 <= k <= 255 ->
  (k < zlen r -> exists v, window_diff A rnd f (Some k) false false false sh sr = Ok (WVal (NDec v)) /\ (0 <= v <= 1)%Q) /\
  (~ label_string f sh -> ~ label_string f sr -> exists v, window_diff A rnd f (Some k) true false false sh sr = Ok (WVal (NDec v)) /\ (0 <= v <= 1)%Q).
Proof.
  intros HA Hh Hr HL Hk. unfold window_diff, to_positions2. rewrite Hh, Hr. cbn [bind]. rewrite (proj2 (Z.eqb_eq (zlen r) (zlen h))) by (unfold zlen; lia).
  cbn [negb bind effective_window andb]. split; [intros Hn|intros T1 T2; rewrite !not_string by assumption; cbn [andb negb]].
  - rewrite wd_positions_eq by assumption. eexists. split; [reflexivity|]. apply unit_rd; [assumption| |lia]. unfold nb_errors.
    match goal with |- context[filter ?P _] => pose proof (count_le P (zlen r - k)) end. lia.
  - rewrite wd_lamprier_eq by assumption. eexists. split; [reflexivity|]. apply unit_rd; [assumption| |unfold zlen; lia]. unfold nb_errors. rewrite pad_length.
    match goal with |- context[filter ?P _] => pose proof (count_le P (zlen r + 2 * Z.max 1 k - k)) end. unfold zlen in *. lia.
Qed.

Lemma no_errors (P : Z -> Prop) `{!forall x, Decision (P x)} l : (forall x, ~ P x) -> filter P l = [].
Proof. intros K. induction l as [|x l IH]; [reflexivity|]. rewrite filter_cons_False by apply K. exact IH. Qed.

Theorem window_same A rnd f s p k : sane A -> to_positions f s = Ok p -> 0 <= k < zlen p ->
  (exists v, pk A rnd f (Some k) false false s s = Ok (WVal (NDec v)) /\ (v == 0)%Q) /\
  (k <= 255 -> forall lam, (lam = true -> ~ label_string f s) -> exists v, window_diff A rnd f (Some k) lam false false s s = Ok (WVal (NDec v)) /\ (v == 0)%Q).
Proof.
  intros HA Hs Hk. pose proof (prec_sane A HA) as HP.
  assert (HR : forall d, (rd A (inject_Z 0 / inject_Z d) == 0)%Q) by (intros d; apply (rd_0 A _ _ HP); unfold Qdiv; apply Qmult_0_l).
  unfold pk, window_diff, to_positions2. rewrite Hs. cbn [bind]. rewrite Z.eqb_refl. cbn [negb bind effective_window]. split; [|intros H255 lam Hlam].
  - rewrite pk_positions_eq by (reflexivity || lia). rewrite (proj2 (Z.ltb_lt k (zlen p))) by lia.
    eexists. split; [reflexivity|]. unfold far_errors. rewrite no_errors by tauto. apply HR.
  - destruct lam; cbn [andb]; [rewrite !not_string by (apply Hlam; reflexivity); cbn [andb negb]; rewrite wd_lamprier_eq by (assumption || reflexivity || lia)|rewrite wd_positions_eq by (assumption || reflexivity || lia)];
      (eexists; split; [reflexivity|]; unfold nb_errors; rewrite no_errors by tauto; apply HR).
Qed.

(** ** C37 *)

Theorem pk_le_wd A rnd f mh mr sh sr k : sane A -> Spec.positive mh -> Spec.positive mr -> mh <> [] -> mr <> [] ->
  wencodes f mh sh -> wencodes f mr sr -> zsum mh = zsum mr -> 0 <= k <= 255 -> k < zsum mr ->
  exists v w, pk A rnd f (Some k) false false sh sr = Ok (WVal (NDec v)) /\
    window_diff A rnd f (Some k) false false false sh sr = Ok (WVal (NDec w)) /\ (v <= w)%Q.
Proof.
  intros HA Hh Hr Nh Nr Eh Er Hz Hk Hn. rewrite (pk_masses A rnd f mh mr) by (assumption || lia). rewrite (wd_masses A rnd f mh mr) by assumption.
  eexists _, _. split; [reflexivity|]. split; [reflexivity|]. apply HA. assert (Hd : (0 < inject_Z (zsum mr - k))%Q) by (apply inj_pos; lia).
  apply Qmult_le_compat_r; [|apply Qlt_le_weak, Qinv_lt_0_compat, Hd]. rewrite <- Zle_Qle. unfold pk_errors, wd_errors, zlen.
  apply Nat2Z.inj_le. induction (seqZ 0 (zsum mr - k)) as [|x l IH]; [reflexivity|].
  rewrite !filter_cons. pose proof (ncuts_nonneg mh x (x + k)). pose proof (ncuts_nonneg mr x (x + k)).
  destruct (decide (_ <-> _)) as [D|D]; destruct (decide (_ <> _)) as [D'|D']; cbn [length]; try lia; try exact IH.
Qed.

(** ** C39 *)

Lemma fresh_big a b : 256 < a -> fresh_is a b = false.
Proof. intros H. unfold fresh_is, small. destruct (Z.leb_spec a 256); [lia|]. rewrite andb_false_r. apply andb_false_r. Qed.

Theorem wd_large A rnd f sh sr h r k : to_positions f sh = Ok h -> to_positions f sr = Ok r -> length h = length r -> 256 <= k ->
  forall om rp, (k < zlen r -> window_diff A rnd f (Some k) false om rp sh sr = Err AssertionError) /\
    (~ label_string f sh -> ~ label_string f sr -> window_diff A rnd f (Some k) true om rp sh sr = Err AssertionError).
Proof.
  intros Hh Hr HL Hk om rp. unfold window_diff, to_positions2. rewrite Hh, Hr. cbn [bind]. rewrite (proj2 (Z.eqb_eq (zlen r) (zlen h))) by (unfold zlen; lia).
  cbn [negb bind effective_window andb]. unfold wd_positions.
  assert (HU : forall u : list (pyint * pyint), k < zlen u -> foldM (wd_step u k) (pyrange 0 (zlen u - k)) 0 = Err AssertionError).
  { intros u Hu. rewrite pyrange_0, seqZ_cons by lia. cbn [foldM]. unfold wd_step. rewrite pyslice_in by lia.
    unfold zlen at 1. rewrite window_length by (unfold zlen in Hu; lia). rewrite fresh_big by lia. reflexivity. }
  split; [intros Hn|intros T1 T2; rewrite !not_string by assumption; cbn [andb negb]].
  - rewrite HU; [reflexivity|]. unfold paired_units, zlen. rewrite zip_with_length. unfold zlen in Hn. lia.
  - rewrite HU; [reflexivity|]. rewrite paired_pad. pose proof (pad_length k h). pose proof (pad_length k r). unfold zlen in *. rewrite zip_with_length. lia.
Qed.

(** ** C40 *)

Theorem pk_degenerate A rnd f sh sr h r k : to_positions f sh = Ok h -> to_positions f sr = Ok r -> length h = length r -> zlen r <= k -> 
  pk A rnd f (Some k) false false sh sr = Ok (WVal (NInt 0)) /\ forall om, pk A rnd f (Some k) om true sh sr = Ok (WParts 0 0).
Proof.
  intros Hh Hr HL Hk. unfold pk, to_positions2. rewrite Hh, Hr. cbn [bind]. rewrite (proj2 (Z.eqb_eq (zlen r) (zlen h))) by (unfold zlen; lia).
  cbn [negb bind effective_window]. assert (0 <= k) by (unfold zlen in Hk; lia).
  split; [|intros om]; rewrite pk_positions_eq by assumption.
  - destruct (Z.ltb_spec k (zlen r)); [lia|reflexivity].
  - rewrite Z.max_l by lia. unfold far_errors. rewrite seqZ_nil by lia. reflexivity.
Qed.

Theorem wd_degenerate A rnd f sh sr h r k : sane A -> to_positions f sh = Ok h -> to_positions f sr = Ok r -> length h = length r -> zlen r <= k ->
  (k = zlen r -> forall om rp, window_diff A rnd f (Some k) false om rp sh sr = Err InvalidOperation) /\
  (zlen r < k -> exists v, window_diff A rnd f (Some k) false false false sh sr = Ok (WVal (NDec v)) /\ (v == 0)%Q).
Proof.
  intros HA Hh Hr HL Hk. pose proof (prec_sane A HA) as HP. unfold window_diff, to_positions2. rewrite Hh, Hr. cbn [bind]. rewrite (proj2 (Z.eqb_eq (zlen r) (zlen h))) by (unfold zlen; lia).
  cbn [negb bind effective_window andb]. unfold wd_positions, paired_units.
  assert (EL : zlen (zip r h) = zlen r) by (unfold zlen; rewrite zip_with_length; lia).
  rewrite EL, runs_sum, pyrange_0, seqZ_nil by lia. cbn [foldM bind].
  split; [intros -> om rp|intros Hn].
  - rewrite Z.sub_diag. reflexivity.
  - cbn [ndiv]. rewrite qzero_inject by lia. cbn [bind]. rewrite Z.eqb_refl. cbn [orb negb].
    assert (E0 : (rd A (inject_Z 0 / inject_Z (zlen r - k)) == 0)%Q) by (apply (rd_0 A _ _ HP); unfold Qdiv; apply Qmult_0_l).
    unfold nleb. cbn [nval]. replace (Qle_bool _ (inject_Z 1)) with true; [|symmetry; apply Qle_bool_iff; rewrite E0; discriminate].
    cbn [negb]. eexists. split; [reflexivity|exact E0].
Qed.
