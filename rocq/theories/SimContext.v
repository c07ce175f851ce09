(** B and S in a larger context and with other names of types. *)
From Coq Require Import Lqa.
From Verif Require Import SpecChange FormatProofs Similarity ML Round RoundProofs BedProofs BedSubs BedMain BedTheory BedExtra
  BedEmbed BedContext SimStats SimRound SimProofs SimTheory SimMain SimSym.
Open Scope Z_scope.

(** ** Context *)

Lemma nmatches_app a b a' b' : length a = length b ->
  nmatches (a ++ a') (b ++ b') = (nmatches a b + nmatches a' b')%nat.
Proof.
  intros Hl. unfold nmatches. rewrite zip_with_app by exact Hl. apply sum_list_app.
Qed.

Lemma nmatches_same x : nmatches x x = nbounds x.
Proof.
  unfold nmatches, nbounds. induction x as [|s x IH]; [reflexivity|]. cbn [zip_with fmap list_fmap].
  change (size (s ∩ s) + sum_list (zip_with (λ s t : tyset, size (s ∩ t)) x x) = size s + sum_list (size <$> x))%nat.
  rewrite IH. do 2 f_equal. set_solver.
Qed.

Lemma nmatches_context x a b y : length a = length b ->
  nmatches (x ++ a ++ y) (x ++ b ++ y) = (nmatches a b + (nbounds x + nbounds y))%nat.
Proof. intros Hl. rewrite nmatches_app by reflexivity. rewrite nmatches_app by exact Hl. rewrite !nmatches_same. lia. Qed.

Lemma spanned_moved k l : spanned (moved k <$> l) = spanned l.
Proof.
  unfold spanned. rewrite <- list_fmap_compose. f_equal. apply list_fmap_ext. intros i t _. cbn. lia.
Qed.

Lemma spanned_retyped f l : spanned (retyped f <$> l) = spanned l.
Proof. unfold spanned. rewrite <- list_fmap_compose. f_equal. Qed.

Lemma zsum_perm l l' : l ≡ₚ l' -> zsum l = zsum l'.
Proof. induction 1; rewrite ?zsum_cons in *; try lia; reflexivity. Qed.

Lemma spanned_perm l l' : l ≡ₚ l' -> spanned l = spanned l'.
Proof. intros H. unfold spanned. apply zsum_perm, fmap_Permutation, H. Qed.

Lemma exact_rd q : (rd exactA q == q)%Q.
Proof. apply Qred_correct. Qed.

Section Context_.
Context (E E' : env) (f f' : fmt) (n_t : Z) (sa sb sa' sb' : seg) (x a b y : bstring) (lo hi : Z) (e e' : edits).
Context (HE : env_ok E) (HE' : env_ok E') (Hb : to_bstrings f sa sb = Ok (a, b))
  (Hb' : to_bstrings f' sa' sb' = Ok (x ++ a ++ y, x ++ b ++ y)) (Hs : small_types (x ++ a ++ y) (x ++ b ++ y))
  (Hn : n_t <> 0) (Hx : extent a b lo hi) (Hx' : extent (x ++ a ++ y) (x ++ b ++ y) lo hi)
  (He : boundary_edit_distance E a b n_t = Ok e)
  (He' : boundary_edit_distance E' (x ++ a ++ y) (x ++ b ++ y) n_t = Ok e').

Let Hl : length a = length b := to_bstrings_length _ _ _ _ _ Hb.

Lemma context_counts A : dcount A e' (hi - lo + 1) n_t = dcount A e (hi - lo + 1) n_t /\ edit_count e' = edit_count e.
Proof.
  destruct (bed_context E E' x a b y n_t e e' HE HE' Hl Hs He He') as (H1 & H2 & H3).
  unfold dcount, edit_count. rewrite H1, H2, (spanned_perm _ _ H3), spanned_moved. split; [reflexivity|].
  unfold zlen. apply Permutation_length in H3. rewrite fmap_length in H3. lia.
Qed.

Theorem B_context_parts A : exists c,
  let d := edit_count e + Z.of_nat (nmatches a b) in
  let d' := d + Z.of_nat (nbounds x + nbounds y) in
  boundary_similarity A E (default_weights A) f n_t false true sa sb = Ok (BParts (NDec (rd A (inject_Z d - c))) (NInt d) e) /\
  boundary_similarity A E' (default_weights A) f' n_t false true sa' sb' = Ok (BParts (NDec (rd A (inject_Z d' - c))) (NInt d') e').
Proof.
  exists (dcount A e (hi - lo + 1) n_t). cbn zeta. destruct (context_counts A) as [H1 H2].
  rewrite (B_eq _ E f n_t sa sb a b lo hi e) by assumption. rewrite (B_eq _ E' f' n_t sa' sb' (x ++ a ++ y) (x ++ b ++ y) lo hi e') by assumption.
  cbn zeta iota. rewrite H1, H2, (nmatches_context _ _ _ _ Hl). split; [reflexivity|].
  rewrite Nat2Z.inj_add, Z.add_assoc. reflexivity.
Qed.

Lemma quot_grows d d' c : (0 <= c)%Q -> 0 < d -> d <= d' -> (quot exactA d c <= quot exactA d' c)%Q.
Proof.
  intros Hc Hd Hd'. unfold quot. rewrite !exact_rd.
  assert (0 < inject_Z d)%Q as P by (change 0%Q with (inject_Z 0); rewrite <- Zlt_Qlt; lia).
  assert (inject_Z d <= inject_Z d')%Q as P' by (rewrite <- Zle_Qle; lia).
  apply Qle_shift_div_l; [lra|].
  setoid_replace ((inject_Z d - c) / inject_Z d * inject_Z d')%Q with (inject_Z d' - c * (inject_Z d' / inject_Z d))%Q by (field; lra).
  assert (1 <= inject_Z d' / inject_Z d)%Q by (apply Qle_shift_div_l; lra). nra.
Qed.

Lemma quot_le_one d c : 0 < d -> (quot exactA d c <= 1)%Q -> (0 <= c)%Q.
Proof.
  intros Hd H. unfold quot in H. rewrite !exact_rd in H.
  assert (0 < inject_Z d)%Q as P by (change 0%Q with (inject_Z 0); rewrite <- Zlt_Qlt; lia).
  apply Qnot_lt_le. intros Hc. assert (1 < (inject_Z d - c) / inject_Z d)%Q by (apply Qlt_shift_div_l; lra). lra.
Qed.

Theorem B_context : exists v v',
  boundary_similarity exactA E (default_weights exactA) f n_t false false sa sb = Ok (BVal (NDec v)) /\
  boundary_similarity exactA E' (default_weights exactA) f' n_t false false sa' sb' = Ok (BVal (NDec v')) /\ (v <= v')%Q.
Proof.
  assert (Hu : exists d, used a b d) by (exists lo; apply Hx).
  destruct (B_range_exact E f n_t sa sb a b HE Hb Hu Hn) as (v & Hv & R).
  rewrite (B_eq _ E f n_t sa sb a b lo hi e) in Hv by assumption. cbn zeta iota in Hv.
  match type of Hv with Ok (BVal (NDec ?q)) = _ => assert (q = v) as Hv' by congruence end. clear Hv. rename Hv' into Hv.
  rewrite (B_eq _ E f n_t sa sb a b lo hi e) by assumption. rewrite (B_eq _ E' f' n_t sa' sb' (x ++ a ++ y) (x ++ b ++ y) lo hi e') by assumption. cbn zeta iota.
  eexists _, _. split; [reflexivity|]. split; [reflexivity|]. destruct (context_counts exactA) as [H1 H2].
  rewrite H1, H2, (nmatches_context _ _ _ _ Hl).
  assert (0 < edit_count e + Z.of_nat (nmatches a b)) as Hd.
  { apply (d_pos E f n_t sa sb a b lo hi e); assumption. }
  apply quot_grows; [|exact Hd|lia]. eapply quot_le_one; [exact Hd|]. rewrite Hv. apply R.
Qed.

Theorem S_context : exists w w',
  segmentation_similarity exactA E (default_weights exactA) f n_t false false sa sb = Ok (SVal (NDec w)) /\
  segmentation_similarity exactA E' (default_weights exactA) f' n_t false false sa' sb' = Ok (SVal (NDec w')) /\ (w <= w')%Q.
Proof.
  assert (Hu : exists d, used a b d) by (exists lo; apply Hx).
  destruct (S_exact E f n_t sa sb a b HE Hb Hu Hn (small_context _ _ _ _ Hs)) as (v & _ & Hv & _ & R & _).
  rewrite (S_eq _ E f n_t sa sb a b lo hi e) in Hv by assumption. cbn zeta iota in Hv.
  match type of Hv with Ok (SVal (NDec ?q)) = _ => assert (q = v) as Hv' by congruence end. clear Hv. rename Hv' into Hv.
  rewrite (S_eq _ E f n_t sa sb a b lo hi e) by assumption. rewrite (S_eq _ E' f' n_t sa' sb' (x ++ a ++ y) (x ++ b ++ y) lo hi e') by assumption. cbn zeta iota.
  eexists _, _. split; [reflexivity|]. split; [reflexivity|]. destruct (context_counts exactA) as [H1 H2].
  rewrite H1. pose proof (types_size_pos _ _ _ _ Hx) as T1. pose proof (gaps_pos _ _ _ _ Hl Hx) as T2.
  assert (identify_types a b ⊆ identify_types (x ++ a ++ y) (x ++ b ++ y)) as HT.
  { intros d. rewrite !SimStats.elem_of_types. unfold used. intros [i Hi]. exists (length x + i)%nat.
    assert (forall s, has s i d -> has (x ++ s ++ y) (length x + i) d) as G.
    { intros s (z & Hz & Hd). exists z. split; [|exact Hd]. rewrite lookup_app_r by lia.
      replace (length x + i - length x)%nat with i by lia. apply lookup_app_l_Some, Hz. }
    destruct Hi as [H|H]; [left|right]; apply G, H. }
  apply subseteq_size in HT.
  apply quot_grows.
  - eapply quot_le_one; [|rewrite Hv; exact R]. unfold zsize, zlen. nia.
  - unfold zsize, zlen. nia.
  - unfold zsize, zlen. rewrite !app_length. repeat apply Z.mul_le_mono_nonneg; lia.
Qed.
End Context_.

(** ** Renaming *)

Lemma nmatches_renamed f a b : (forall d d', f d = f d' -> d = d') -> nmatches (renamed f a) (renamed f b) = nmatches a b.
Proof.
  intros Hf. unfold nmatches, renamed. revert b. induction a as [|s a IH]; intros [|t b]; try reflexivity.
  cbn [fmap list_fmap zip_with]. rewrite !sum_list_cons. f_equal; [|apply IH].
  change (set_map f s : tyset) with (fmap_types f s). change (set_map f t : tyset) with (fmap_types f t).
  rewrite <- (size_types f Hf (s ∩ t)). f_equal. apply set_eq. intros d. rewrite elem_of_intersection, !BedEmbed.elem_of_types.
  setoid_rewrite elem_of_intersection. split.
  - intros [(d' & -> & H1) (d'' & H2 & H3)]. apply Hf in H2 as <-. eauto.
  - intros (d' & -> & H1 & H2). split; eauto.
Qed.

Lemma types_renamed f a b : identify_types (renamed f a) (renamed f b) = fmap_types f (identify_types a b).
Proof.
  apply set_eq. intros d. rewrite BedEmbed.elem_of_types. setoid_rewrite SimStats.elem_of_types. unfold used. setoid_rewrite <- at_has.
  setoid_rewrite at_renamed. setoid_rewrite BedEmbed.elem_of_types. split.
  - intros (i & [(d' & -> & H)|(d' & -> & H)]); eauto.
  - intros (d' & -> & i & [H|H]); eauto.
Qed.

Section Stats.
Context (iso : Prop) (f : Z -> Z) (Hf : forall d d', f d = f d' -> d = d')
  (Hiso : iso -> forall d d', Z.abs (f d - f d') = Z.abs (d - d')).
Context (A : arith) (W : weights).
Context (W1 : forall l l', length l = length l' -> w_a W l = w_a W l')
  (W2 : forall l l' hi lo hi' lo', length l = length l' -> (iso -> distance l = distance l' /\ hi - lo = hi' - lo') ->
     w_s W l hi lo = w_s W l' hi' lo')
  (W3 : forall l l' n, l' ≡ₚ retyped f <$> l -> w_t W l' n = w_t W l n).

Lemma width_renamed s : s <> ∅ -> exists hi lo hi' lo',
  set_max s = Ok hi /\ set_min s = Ok lo /\ set_max (fmap_types f s) = Ok hi' /\ set_min (fmap_types f s) = Ok lo' /\
  (iso -> hi - lo = hi' - lo').
Proof.
  intros Hs. assert (Hs' : fmap_types f s <> ∅) by (rewrite (BedEmbed.types_empty f Hf); exact Hs).
  destruct (set_max_ok _ Hs) as (hi & H1 & I1 & B1). destruct (set_min_ok _ Hs) as (lo & H2 & I2 & B2).
  destruct (set_max_ok _ Hs') as (hi' & H3 & I3 & B3). destruct (set_min_ok _ Hs') as (lo' & H4 & I4 & B4).
  exists hi, lo, hi', lo'. repeat (split; [assumption|]). intros Hi.
  apply BedEmbed.elem_of_types in I3 as (u & -> & I3). apply BedEmbed.elem_of_types in I4 as (v & -> & I4).
  pose proof (Hiso Hi u v) as K1. pose proof (Hiso Hi hi lo) as K2.
  pose proof (B1 _ I3). pose proof (B1 _ I4). pose proof (B2 _ I3). pose proof (B2 _ I4). pose proof (B1 _ I2).
  assert (forall d, d ∈ s -> f v <= f d <= f u) as G.
  { intros d Hd. split; [apply B4|apply B3]; apply elem_of_types_f; assumption. }
  pose proof (G _ I1). pose proof (G _ I2). pose proof (G _ I3). lia.
Qed.

Lemma stats_renamed E E' n_t a b : env_ok E -> env_ok E' -> length a = length b ->
  small_types a b -> small_types (renamed f a) (renamed f b) ->
  same_stats (bstring_statistics A E W n_t a b) (bstring_statistics A E' W n_t (renamed f a) (renamed f b)).
Proof.
  intros HE HE' Hl Hs Hs'.
  assert (La : length (renamed f a) = length a) by apply fmap_length.
  assert (Lb : length (renamed f b) = length b) by apply fmap_length.
  rewrite !statistics_eq by (assumption || congruence).
  destruct (bed_returns E a b n_t HE ltac:(lia)) as [e He].
  destruct (bed_returns E' (renamed f a) (renamed f b) n_t HE' ltac:(lia)) as [e' He'].
  destruct (bed_renamed f Hf E E' a b n_t e e' HE HE' Hl Hs Hs' He He') as (P1 & _ & P2 & P3 & P4).
  rewrite He, He'. cbn [bind]. rewrite types_renamed, (W1 _ _ P2), (W3 _ _ n_t P1).
  destruct (w_a W (e_add e)) as [ca|]; cbn [bind same_stats]; [|reflexivity].
  destruct (decide (identify_types a b = ∅)) as [C|C].
  { rewrite C. assert (fmap_types f ∅ = ∅) as -> by (apply (BedEmbed.types_empty f Hf); reflexivity). reflexivity. }
  destruct (width_renamed _ C) as (hi & lo & hi' & lo' & -> & -> & -> & -> & Hw). cbn [bind].
  rewrite (W2 (e_sub e) (e_sub e') hi lo hi' lo') by (intros; first [congruence|symmetry; auto; fail|split; [symmetry; auto|auto]]).
  destruct (w_s W (e_sub e') hi' lo') as [cs|]; cbn [bind same_stats]; [|reflexivity].
  destruct (w_t W (e_transp e) n_t) as [ct|]; cbn [bind same_stats]; [|reflexivity].
  destruct (nadd A ca cs) as [c1|]; cbn [bind same_stats]; [|reflexivity].
  destruct (nadd A c1 ct) as [c2|]; cbn [bind same_stats]; [|reflexivity].
  cbn [st_count st_edits st_matches st_pbs st_types]. split; [reflexivity|]. split.
  { unfold edit_count, zlen. apply Permutation_length in P1. rewrite fmap_length in P1. lia. }
  split. { unfold zlen. rewrite !match_list_length, nmatches_renamed by exact Hf. reflexivity. }
  unfold zsize, zlen. rewrite size_types by exact Hf. rewrite ?La, ?Lb. auto.
Qed.

Lemma metrics_renamed E E' n_t a b : env_ok E -> env_ok E' -> small_types a b -> small_types (renamed f a) (renamed f b) ->
  forall om rp,
    same_result (boundary_similarity A E W FSets n_t om rp (Sets a) (Sets b))
      (boundary_similarity A E' W FSets n_t om rp (Sets (renamed f a)) (Sets (renamed f b))) /\
    segmentation_similarity A E W FSets n_t om rp (Sets a) (Sets b) =
      segmentation_similarity A E' W FSets n_t om rp (Sets (renamed f a)) (Sets (renamed f b)).
Proof.
  intros HE HE' Hs Hs' om rp.
  assert (HS : same_stats (boundary_statistics A E W FSets n_t (Sets a) (Sets b))
    (boundary_statistics A E' W FSets n_t (Sets (renamed f a)) (Sets (renamed f b)))).
  { unfold boundary_statistics, to_bstrings. cbn [seg_len as_sets bind]. unfold zlen.
    replace (length (renamed f a)) with (length a) by (symmetry; apply fmap_length).
    replace (length (renamed f b)) with (length b) by (symmetry; apply fmap_length).
    destruct (Z.eqb_spec (Z.of_nat (length a)) (Z.of_nat (length b))) as [C|C]; cbn [negb bind]; [|reflexivity].
    apply stats_renamed; try assumption. lia. }
  split; [apply B_same|apply S_same]; exact HS.
Qed.
End Stats.

Lemma iso_inj f : (forall d d', Z.abs (f d - f d') = Z.abs (d - d')) -> forall d d', f d = f d' -> d = d'.
Proof. intros H d d' Hd. specialize (H d d'). rewrite Hd in H. lia. Qed.

Theorem default_renamed A E E' n_t f a b : env_ok E -> env_ok E' ->
  (forall d d', Z.abs (f d - f d') = Z.abs (d - d')) -> small_types a b -> small_types (renamed f a) (renamed f b) ->
  forall om rp,
    same_result (boundary_similarity A E (default_weights A) FSets n_t om rp (Sets a) (Sets b))
      (boundary_similarity A E' (default_weights A) FSets n_t om rp (Sets (renamed f a)) (Sets (renamed f b))) /\
    segmentation_similarity A E (default_weights A) FSets n_t om rp (Sets a) (Sets b) =
      segmentation_similarity A E' (default_weights A) FSets n_t om rp (Sets (renamed f a)) (Sets (renamed f b)).
Proof.
  intros HE HE' Hf. apply (metrics_renamed True f (iso_inj f Hf) (fun _ => Hf)); try assumption; cbn [default_weights w_a w_s w_t].
  - intros l l' H. unfold weight_a, zlen. rewrite H. reflexivity.
  - intros l l' hi lo hi' lo' _ H. destruct (H I) as [H1 H2]. unfold weight_s_scale, weight_scale. rewrite !foldl_zsum, H1, H2. reflexivity.
  - intros l l' n Hp. unfold weight_t_scale, weight_scale. rewrite !foldl_zsum. rewrite (distance_transp_perm _ _ Hp).
    rewrite <- list_fmap_compose. reflexivity.
Qed.

Theorem plain_renamed A E E' n_t f a b : env_ok E -> env_ok E' ->
  (forall d d', f d = f d' -> d = d') -> small_types a b -> small_types (renamed f a) (renamed f b) ->
  forall om rp,
    same_result (boundary_similarity A E plain_weights FSets n_t om rp (Sets a) (Sets b))
      (boundary_similarity A E' plain_weights FSets n_t om rp (Sets (renamed f a)) (Sets (renamed f b))) /\
    segmentation_similarity A E plain_weights FSets n_t om rp (Sets a) (Sets b) =
      segmentation_similarity A E' plain_weights FSets n_t om rp (Sets (renamed f a)) (Sets (renamed f b)).
Proof.
  intros HE HE' Hf. apply (metrics_renamed False f Hf (fun F => match F with end)); try assumption; cbn [plain_weights w_a w_s w_t].
  - intros l l' H. unfold weight_a, zlen. rewrite H. reflexivity.
  - intros l l' hi lo hi' lo' H _. unfold weight_s, zlen. rewrite H. reflexivity.
  - intros l l' n Hp. unfold weight_t, zlen. apply Permutation_length in Hp. rewrite fmap_length in Hp. rewrite Hp. reflexivity.
Qed.
