(** Properties C20 (errors), C21, C23, C25 and C26. *)
From Coq Require Import Lqa.
From Verif Require Import SpecSim FormatProofs Similarity ML Round RoundProofs BedProofs BedSubs BedMain BedTheory BedExtra
  SimStats SimRound SimProofs SimTheory SimMain.
Open Scope Z_scope.

(** ** C20: nothing to compare *)

Lemma no_boundaries_types x y : (forall d, ~ used x y d) -> identify_types x y = ∅.
Proof. intros H. apply elem_of_equiv_empty_L. intros d Hd. apply elem_of_types in Hd. exact (H d Hd). Qed.

Theorem no_boundaries_error A E W f n_t sa sb x y c : env_ok E -> to_bstrings f sa sb = Ok (x, y) ->
  (forall d, ~ used x y d) -> w_a W [] = Ok c ->
  bed_fails A E W f n_t sa sb ValueError.
Proof.
  intros HE Hb Hu HW. assert (HS : boundary_statistics A E W f n_t sa sb = Err ValueError).
  { unfold boundary_statistics. rewrite Hb. cbn [bind]. eapply no_types_error; try eassumption.
    - eapply to_bstrings_length, Hb.
    - apply no_boundaries_types, Hu. }
  unfold bed_fails, boundary_similarity, segmentation_similarity, boundary_confusion_matrix. rewrite HS. auto.
Qed.

(** ** C21 *)

(** What B and S look at. *)
Definition same_stats (r r' : res stats) : Prop :=
  match r, r' with
  | Ok s, Ok s' => st_count s = st_count s' /\ edit_count (st_edits s) = edit_count (st_edits s') /\
      zlen (st_matches s) = zlen (st_matches s') /\ st_pbs s = st_pbs s' /\ size (st_types s) = size (st_types s')
  | Err e, Err e' => e = e'
  | _, _ => False
  end.

Lemma stats_sym A E E' W n_t x y : env_ok E -> env_ok E' -> neutral W -> small_types x y -> length x = length y ->
  same_stats (bstring_statistics A E W n_t x y) (bstring_statistics A E' W n_t y x).
Proof.
  intros HE HE' (W1 & W2 & W3) Hs Hl. rewrite !statistics_eq by (assumption || congruence).
  destruct (bed_returns E x y n_t HE ltac:(lia)) as [e He]. destruct (bed_returns E' y x n_t HE' ltac:(lia)) as [e' He'].
  destruct (bed_symmetric E E' x y n_t e e' HE HE' Hs Hl He He') as (P1 & _ & _ & P2 & P3 & P4).
  rewrite He, He'. cbn [bind]. rewrite (types_sym y x), (W1 _ _ P2), (W3 _ _ n_t P1).
  destruct (w_a W (e_add e')) as [ca|]; cbn [bind same_stats]; [|reflexivity].
  destruct (set_max (identify_types x y)) as [mx|]; cbn [bind same_stats]; [|reflexivity].
  destruct (set_min (identify_types x y)) as [mn|]; cbn [bind same_stats]; [|reflexivity].
  rewrite (W2 _ _ mx mn P3 P4).
  destruct (w_s W (e_sub e') mx mn) as [cs|]; cbn [bind same_stats]; [|reflexivity].
  destruct (w_t W (e_transp e') n_t) as [ct|]; cbn [bind same_stats]; [|reflexivity].
  destruct (nadd A ca cs) as [c1|]; cbn [bind same_stats]; [|reflexivity].
  destruct (nadd A c1 ct) as [c2|]; cbn [bind same_stats]; [|reflexivity].
  cbn [st_count st_edits st_matches st_pbs st_types]. split; [reflexivity|]. split.
  { unfold edit_count, zlen. apply Permutation_length in P1. lia. }
  split. { unfold zlen. rewrite !match_list_length, nmatches_sym. reflexivity. }
  split; [|reflexivity]. unfold zlen. rewrite Hl. reflexivity.
Qed.

Lemma B_same A om rp r r' : same_stats r r' ->
  same_result (let* s := r in similarity_of_stats A om rp s) (let* s := r' in similarity_of_stats A om rp s).
Proof.
  destruct r as [s|e]; destruct r' as [s'|e']; cbn [same_stats bind]; try contradiction; [|auto].
  intros (H1 & H2 & H3 & H4 & H5). unfold similarity_of_stats. rewrite H1, H2, H3.
  destruct (nsub A _ (st_count s')) as [n|]; cbn [bind]; [|reflexivity]. destruct rp; [split; reflexivity|].
  destruct (if 0 <? _ then _ else _) as [v|]; cbn [bind]; [|reflexivity]. destruct om; [|reflexivity].
  destruct (nsub A (NDec 1) v); reflexivity.
Qed.

Lemma S_same A om rp r r' : same_stats r r' ->
  (let* s := r in segmentation_of_stats A om rp s) = (let* s := r' in segmentation_of_stats A om rp s).
Proof.
  destruct r as [s|e]; destruct r' as [s'|e']; cbn [same_stats bind]; try contradiction; [|congruence].
  intros (H1 & H2 & H3 & H4 & H5). unfold segmentation_of_stats, zsize. rewrite H1, H4, H5. reflexivity.
Qed.

Lemma to_bstrings_swap f sa sb :
  (forall e e', to_bstring f sa = Err e -> to_bstring f sb = Err e' -> e = e') ->
  match to_bstrings f sa sb with
  | Ok (x, y) => to_bstrings f sb sa = Ok (y, x) /\ to_bstring f sa = Ok x /\ to_bstring f sb = Ok y
  | Err e => to_bstrings f sb sa = Err e
  end.
Proof.
  intros HE. unfold to_bstrings. destruct f.
  3: { rewrite (Z.eqb_sym (seg_len sb)). destruct (seg_len sa =? seg_len sb); cbn [negb]; [|reflexivity].
    cbn [to_bstring] in HE |- *. destruct (as_sets sa) as [x|e]; destruct (as_sets sb) as [y|e']; cbn [bind]; auto.
    rewrite (HE e e') by reflexivity. reflexivity. }
  all: destruct (to_bstring _ sa) as [x|e]; destruct (to_bstring _ sb) as [y|e']; cbn [bind]; auto.
  all: first [rewrite (Z.eqb_sym (zlen y)); destruct (zlen x =? zlen y); cbn [negb]; auto; fail
             |rewrite (HE e e') by reflexivity; reflexivity].
Qed.

Theorem metrics_symmetric A E E' W f n_t sa sb : env_ok E -> env_ok E' -> neutral W ->
  (forall e e', to_bstring f sa = Err e -> to_bstring f sb = Err e' -> e = e') ->
  (forall x y, to_bstring f sa = Ok x -> to_bstring f sb = Ok y -> small_types x y) ->
  (forall om rp, same_result (boundary_similarity A E W f n_t om rp sa sb) (boundary_similarity A E' W f n_t om rp sb sa)) /\
  (forall om rp, segmentation_similarity A E W f n_t om rp sa sb = segmentation_similarity A E' W f n_t om rp sb sa).
Proof.
  intros HE HE' HW He Hs.
  assert (HS : same_stats (boundary_statistics A E W f n_t sa sb) (boundary_statistics A E' W f n_t sb sa)).
  { unfold boundary_statistics. pose proof (to_bstrings_swap f sa sb He) as HT.
    destruct (to_bstrings f sa sb) as [[x y]|e] eqn:Eb.
    - destruct HT as (-> & Hx & Hy). cbn [bind]. apply stats_sym; try assumption; [auto|]. eapply to_bstrings_length, Eb.
    - rewrite HT. reflexivity. }
  split; intros om rp; [apply B_same|apply S_same]; exact HS.
Qed.

Lemma default_neutral A : neutral (default_weights A).
Proof.
  split; [|split]; cbn [default_weights w_a w_s w_t].
  - intros l l' H. unfold weight_a, zlen. rewrite H. reflexivity.
  - intros l l' hi lo H1 H2. unfold weight_s_scale, weight_scale. rewrite !foldl_zsum, H2. reflexivity.
  - intros l l' n H. unfold weight_t_scale, weight_scale. rewrite !foldl_zsum, (distance_transp_perm l l' H). reflexivity.
Qed.

Lemma plain_neutral : neutral plain_weights.
Proof.
  split; [|split]; cbn [plain_weights w_a w_s w_t]; intros; unfold weight_a, weight_s, weight_t, zlen; try congruence.
  rewrite (Permutation_length H). reflexivity.
Qed.

(** ** C23 *)

Section Flags.
Context (A : arith) (E : env) (f : fmt) (n_t : Z) (sa sb : seg) (x y : bstring).
Context (HE : env_ok E) (Hb : to_bstrings f sa sb = Ok (x, y)) (Hu : exists d, used x y d).

Let Hl : length x = length y := to_bstrings_length _ _ _ _ _ Hb.

Theorem B_flags : n_t <> 0 -> exists n d e,
  boundary_similarity A E (default_weights A) f n_t false true sa sb = Ok (BParts (NDec n) (NInt d) e) /\
  boundary_similarity A E (default_weights A) f n_t true true sa sb = Ok (BParts (NDec n) (NInt d) e) /\
  boundary_edit_distance E x y n_t = Ok e /\ d = edit_count e + Z.of_nat (nmatches x y) /\ 0 < d /\
  boundary_similarity A E (default_weights A) f n_t false false sa sb = Ok (BVal (NDec (rd A (n / inject_Z d)))) /\
  boundary_similarity A E (default_weights A) f n_t true false sa sb = Ok (BVal (NDec (rd A (1 - rd A (n / inject_Z d))))).
Proof.
  intros Hn. destruct (setup E f n_t sa sb x y HE Hb Hu) as (e & lo & hi & He & Hx).
  exists (rd A (inject_Z (edit_count e + Z.of_nat (nmatches x y)) - dcount A e (hi - lo + 1) n_t)), (edit_count e + Z.of_nat (nmatches x y)), e.
  rewrite !(B_eq _ E f n_t sa sb x y lo hi e) by assumption. cbn zeta iota. unfold quot.
  repeat split; try assumption. eapply d_pos; eassumption.
Qed.

Theorem S_flags : n_t <> 0 -> exists n d,
  segmentation_similarity A E (default_weights A) f n_t false true sa sb = Ok (SParts (NDec n) (NInt d)) /\
  segmentation_similarity A E (default_weights A) f n_t true true sa sb = Ok (SParts (NDec n) (NInt d)) /\
  (forall T : gset Z, (forall t, t ∈ T <-> used x y t) -> d = zlen x * (Z.of_nat (size T) * Z.of_nat (size T))) /\ 0 < d /\
  segmentation_similarity A E (default_weights A) f n_t false false sa sb = Ok (SVal (NDec (rd A (n / inject_Z d)))) /\
  segmentation_similarity A E (default_weights A) f n_t true false sa sb = Ok (SVal (NDec (rd A (1 - rd A (n / inject_Z d))))).
Proof.
  intros Hn. destruct (setup E f n_t sa sb x y HE Hb Hu) as (e & lo & hi & He & Hx).
  set (D := zlen x * zsize (identify_types x y) * zsize (identify_types x y)).
  exists (rd A (inject_Z D - dcount A e (hi - lo + 1) n_t)), D.
  rewrite !(S_eq _ E f n_t sa sb x y lo hi e) by assumption. cbn zeta iota. fold D. unfold quot.
  split; [reflexivity|]. split; [reflexivity|]. split.
  { intros T HT. assert (T = identify_types x y) as ->. { apply set_eq. intros t. rewrite HT, elem_of_types. reflexivity. }
    unfold D, zsize. lia. }
  split; [|split; reflexivity].
  pose proof (types_size_pos _ _ _ _ Hx). pose proof (gaps_pos _ _ _ _ Hl Hx).
  unfold D, zsize, zlen. apply Z.mul_pos_pos; [apply Z.mul_pos_pos|]; lia.
Qed.

(** With the integer weights. *)
Theorem B_plain : exists e, boundary_edit_distance E x y n_t = Ok e /\
  let d := edit_count e + Z.of_nat (nmatches x y) in
  boundary_similarity A E plain_weights f n_t false true sa sb = Ok (BParts (NInt (Z.of_nat (nmatches x y))) (NInt d) e) /\
  boundary_similarity A E plain_weights f n_t false false sa sb =
    Ok (BVal (NFlt (rf A (inject_Z (Z.of_nat (nmatches x y)) / inject_Z d)))) /\
  boundary_similarity A E plain_weights f n_t true false sa sb = Err TypeError.
Proof.
  destruct (setup E f n_t sa sb x y HE Hb Hu) as (e & lo & hi & He & Hx). exists e. split; [exact He|]. cbn zeta.
  set (d := edit_count e + Z.of_nat (nmatches x y)).
  assert (Hd : 0 < d) by (apply (denominator_pos E x y n_t e); assumption).
  unfold boundary_similarity, boundary_statistics. rewrite Hb. cbn [bind]. rewrite statistics_eq by assumption. rewrite He. cbn [bind].
  assert (Ht : identify_types x y <> ∅). { destruct Hu as [t Ht]. apply elem_of_types in Ht. set_solver. }
  destruct (extent_ok x y Ht) as (lo' & hi' & _ & -> & ->).
  cbn [bind plain_weights w_a w_s w_t]. unfold weight_a, weight_s, weight_t. cbn [bind nadd num2].
  unfold similarity_of_stats. cbn [st_edits st_matches st_count nsub num2 bind]. rewrite zlen_matches. fold d.
  replace (d - (zlen (e_add e) + zlen (e_sub e) + zlen (e_transp e))) with (Z.of_nat (nmatches x y)) by (unfold d, edit_count; lia).
  rewrite (proj2 (Z.ltb_lt 0 d) Hd). cbn [ndiv]. rewrite qzero_inject by lia. cbn [bind nsub num2]. auto.
Qed.
End Flags.

(** ** C25 *)

Lemma scale_between A eps M l k : prec A eps M -> l <> [] -> (forall x y, (x, y) ∈ l -> 1 <= Z.abs (x - y) <= k - 1) ->
  (2 * eps * inject_Z (zlen l) * inject_Z k < 1)%Q -> 
  exists q, weight_scale A l k = Ok (NDec q) /\ (0 < q)%Q /\ (q < inject_Z (zlen l))%Q.
Proof.
  intros HP Hne Hl Hs. pose proof (p_pos _ _ _ HP) as P0. pose proof (p_small _ _ _ HP) as P1.
  assert (Hlen : 1 <= zlen l) by (destruct l; [congruence|]; unfold zlen; cbn [length]; lia).
  assert (HD : zlen l <= distance l <= (k - 1) * zlen l).
  { unfold distance. rewrite <- (Z.mul_1_l (zlen l)) at 1. apply zsum_bounds. intros [u v] H. apply Hl, H. }
  assert (Hk : 2 <= k) by nia. rewrite scale_ok by lia. eexists. split; [reflexivity|].
  destruct (unit_bounds (zlen l) (distance l) k k) as (U1 & U2 & U3); try lia. destruct (U3 Hlen) as [L U].
  set (q := (inject_Z (distance l) / inject_Z k)%Q) in *. set (n := inject_Z (zlen l)) in *.
  assert (HK' : (0 < inject_Z k)%Q) by (apply inj_pos; lia).
  set (r := (1 / inject_Z k)%Q) in *. assert (R : (r * inject_Z k == 1)%Q) by (unfold r; field; lra).
  assert (R0 : (0 < r)%Q) by nra.
  assert (F : (2 * eps * n < r)%Q).
  { setoid_replace (2 * eps * n)%Q with ((2 * eps * n * inject_Z k) * r)%Q.
    - rewrite <- (Qmult_1_l r) at 2. apply Qmult_lt_r; assumption.
    - setoid_replace (2 * eps * n * inject_Z k * r)%Q with (2 * eps * n * (r * inject_Z k))%Q by ring. rewrite R. ring. }
  destruct (rd_rel A eps M HP q) as [R1 R2]; [lra|]. split; [apply (rd_pos A eps M HP); lra|].
  assert (eps * q <= eps * n)%Q by (apply Qmult_le_l_weak; lra). lra.
Qed.

(** Any part of the edits, weighed with the default weights. *)
Theorem scaled_between A eps M E x y n_t e lo hi : prec A eps M -> env_ok E -> length x = length y ->
  boundary_edit_distance E x y n_t = Ok e -> extent x y lo hi ->
  (forall l, l <> [] -> l ⊆ e_sub e -> (2 * eps * inject_Z (zlen l) * inject_Z (hi - lo + 1) < 1)%Q ->
    exists q, w_s (default_weights A) l hi lo = Ok (NDec q) /\ (0 < q)%Q /\ (q < inject_Z (zlen l))%Q) /\
  (forall l, l <> [] -> l ⊆ e_transp e -> (2 * eps * inject_Z (zlen l) * inject_Z n_t < 1)%Q ->
    exists q, w_t (default_weights A) l n_t = Ok (NDec q) /\ (0 < q)%Q /\ (q < inject_Z (zlen l))%Q).
Proof.
  intros HP HE Hl He Hx. split; intros l Hne Hsub Hk; cbn [default_weights w_s w_t].
  - apply (scale_between A eps M); try assumption. intros u v Huv. apply Hsub in Huv.
    destruct (bed_sub_types _ _ _ _ _ _ _ HE Hl He Huv) as (H1 & H2 & H3).
    apply elem_of_types, Hx in H1. apply elem_of_types, Hx in H2. lia.
  - unfold weight_t_scale.
    assert (HL : zlen ((fun t => (Z.of_nat (t_start t), Z.of_nat (t_end t))) <$> l) = zlen l) by (unfold zlen; rewrite fmap_length; reflexivity).
    rewrite <- HL. apply (scale_between A eps M); try assumption.
    + destruct l; [congruence|discriminate].
    + intros u v Huv. apply elem_of_list_fmap in Huv as (t & [= -> ->] & Ht). apply Hsub in Ht.
      rewrite bed_ok in He by (assumption || lia). injection He as <-. cbn [e_transp] in Ht.
      destruct (ts_valid _ _ _ _ _ HE Ht) as (H1 & H2 & _). lia.
    + rewrite HL. exact Hk.
Qed.

Lemma scaled_exact E x y n_t e lo hi : env_ok E -> length x = length y ->
  boundary_edit_distance E x y n_t = Ok e -> extent x y lo hi ->
  (forall l, l <> [] -> l ⊆ e_sub e ->
    exists q, w_s (default_weights exactA) l hi lo = Ok (NDec q) /\ (0 < q)%Q /\ (q < inject_Z (zlen l))%Q) /\
  (forall l, l <> [] -> l ⊆ e_transp e ->
    exists q, w_t (default_weights exactA) l n_t = Ok (NDec q) /\ (0 < q)%Q /\ (q < inject_Z (zlen l))%Q).
Proof.
  intros HE Hl He Hx. destruct (scaled_between exactA 0 1 E x y n_t e lo hi) as [H1 H2]; try assumption; [apply prec_exact; lia|].
  split; intros l Hne Hs; [apply H1|apply H2]; try assumption; rewrite Qmult_0_r, !Qmult_0_l; reflexivity.
Qed.

Lemma scaled_decimal A E x y n_t e lo hi : sane A -> env_ok E -> length x = length y ->
  boundary_edit_distance E x y n_t = Ok e -> extent x y lo hi ->
  (forall l, l <> [] -> l ⊆ e_sub e -> zlen l * (hi - lo + 1) <= 10 ^ 26 ->
    exists q, w_s (default_weights A) l hi lo = Ok (NDec q) /\ (0 < q)%Q /\ (q < inject_Z (zlen l))%Q) /\
  (forall l, l <> [] -> l ⊆ e_transp e -> zlen l * n_t <= 10 ^ 26 ->
    exists q, w_t (default_weights A) l n_t = Ok (NDec q) /\ (0 < q)%Q /\ (q < inject_Z (zlen l))%Q).
Proof.
  intros HA HE Hl He Hx. destruct (scaled_between A _ _ E x y n_t e lo hi (prec_sane A HA)) as [H1 H2]; try assumption.
  split; intros l Hne Hs Hk; [apply H1|apply H2]; try assumption.
  all: rewrite <- Qmult_assoc, <- inject_Z_mult.
  all: apply Qle_lt_trans with (2 * eps28 * inject_Z (10 ^ 26))%Q; [|rewrite eps28_val; reflexivity].
  all: apply Qmult_le_l_weak; [rewrite eps28_val; discriminate|]; apply inj_le; exact Hk.
Qed.

(** [n_t = 0]. *)
Theorem zero_n_t A E f sa sb x y : env_ok E -> to_bstrings f sa sb = Ok (x, y) ->
  (exists e, boundary_edit_distance E x y 0 = Ok e) /\
  ((exists d, used x y d) ->
    bed_fails A E (default_weights A) f 0 sa sb InvalidOperation).
Proof.
  intros HE Hb. pose proof (to_bstrings_length _ _ _ _ _ Hb) as Hl.
  destruct (bed_returns E x y 0 HE ltac:(lia)) as [e He]. split; [eauto|]. intros Hu.
  assert (HS : boundary_statistics A E (default_weights A) f 0 sa sb = Err InvalidOperation).
  { unfold boundary_statistics. rewrite Hb. cbn [bind]. rewrite statistics_eq by assumption. rewrite He. cbn [bind].
    assert (Ht : identify_types x y <> ∅). { destruct Hu as [t Ht]. apply elem_of_types in Ht. set_solver. }
    destruct (extent_ok x y Ht) as (lo & hi & Hx & -> & ->). pose proof (extent_le _ _ _ _ Hx).
    cbn [bind default_weights w_a w_s w_t]. unfold weight_a, weight_s_scale, weight_t_scale. cbn [bind].
    rewrite scale_ok by lia. cbn [bind]. rewrite scale_zero; [reflexivity|].
    pose proof (tdist_bounds E x y 0 e HE Hl He) as HD.
    assert (e_transp e = []) as ->; [|reflexivity]. unfold zlen in HD. apply nil_length_inv. lia. }
  unfold bed_fails, boundary_similarity, segmentation_similarity, boundary_confusion_matrix. rewrite HS. auto.
Qed.

(** ** C26 *)

Lemma to_bstrings_fails A E W f n_t sa sb e : to_bstrings f sa sb = Err e -> bed_fails A E W f n_t sa sb e.
Proof.
  intros H. assert (HS : boundary_statistics A E W f n_t sa sb = Err e) by (unfold boundary_statistics; rewrite H; reflexivity).
  unfold bed_fails, boundary_similarity, segmentation_similarity, boundary_confusion_matrix. rewrite HS. auto.
Qed.

Theorem other_format_fails A E W n_t sa sb : bed_fails A E W FOther n_t sa sb SegmentationMetricError.
Proof. apply to_bstrings_fails. reflexivity. Qed.

Theorem lengths_fail A E W f n_t sa sb x y : to_bstring f sa = Ok x -> to_bstring f sb = Ok y -> length x <> length y ->
  bed_fails A E W f n_t sa sb SegmentationMetricError.
Proof.
  intros Hx Hy Hl. apply to_bstrings_fails. rewrite (to_bstrings_eq f sa sb x y Hx Hy).
  destruct (Z.eqb_spec (zlen x) (zlen y)) as [C|]; [unfold zlen in C; lia|reflexivity].
Qed.

Theorem masses_fail A E W f n_t m m' sa sb : Spec.positive m -> Spec.positive m' -> m <> [] -> m' <> [] ->
  encodes f m sa -> encodes f m' sb -> zsum m <> zsum m' -> bed_fails A E W f n_t sa sb SegmentationMetricError.
Proof.
  intros Hm Hm' Hn Hn' He He' Hz. apply lengths_fail with (bs_of m) (bs_of m'); try (apply to_bstring_encodes; assumption).
  pose proof (bs_of_length m Hm Hn). pose proof (bs_of_length m' Hm' Hn'). unfold zlen in *. lia.
Qed.
