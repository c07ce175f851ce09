(** Boundary strings read backwards. *)
From Verif Require Import SpecChange FormatProofs Similarity ML Round RoundProofs BedProofs BedSubs BedMain BedTheory BedMin BedExtra
  SimStats SimRound SimProofs SimTheory SimMain SimSym WindowReverse.
Open Scope Z_scope.

Lemma at_reverse s i n : length s = n -> (i < n)%nat -> at_ (reverse s) i = at_ s (n - 1 - i).
Proof.
  intros <- Hi. unfold at_. rewrite reverse_lookup by exact Hi. do 2 f_equal. lia.
Qed.

Lemma join_perm {A B} (g : A -> list B) l l' : l ≡ₚ l' -> mjoin (g <$> l) ≡ₚ mjoin (g <$> l').
Proof.
  induction 1 as [|x l l' H IH|x y l|l l' l'' H1 IH1 H2 IH2].
  - reflexivity.
  - cbn [fmap list_fmap mjoin list_join]. f_equiv. exact IH.
  - cbn [fmap list_fmap mjoin list_join]. rewrite !app_assoc. f_equiv. apply Permutation_app_comm.
  - etransitivity; eassumption.
Qed.

Lemma join_mirror {B} (g g' : nat -> list B) n : (forall i, (i < n)%nat -> g' i = g (n - 1 - i)%nat) ->
  mjoin (g' <$> seq 0 n) ≡ₚ mjoin (g <$> seq 0 n).
Proof.
  intros H. rewrite (join_perm g _ _ (seq_mirror n)). rewrite <- list_fmap_compose.
  rewrite (list_fmap_ext g' (g ∘ (fun i => (n - 1 - i)%nat)) (seq 0 n)); [reflexivity|].
  intros j i Hi. apply elem_of_list_lookup_2, elem_of_seq in Hi. apply H. lia.
Qed.

Lemma small_reverse a b : small_types a b -> small_types (reverse a) (reverse b).
Proof. intros H s d Hs. apply H. rewrite !elem_of_reverse in Hs. exact Hs. Qed.

Lemma one_type_reverse a b c : one_type a b c -> one_type (reverse a) (reverse b) c.
Proof. intros H s d Hs. apply H. rewrite !elem_of_reverse in Hs. exact Hs. Qed.

(** ** No transpositions *)

Theorem bed_reverse_short E E' a b n_t e e' : env_ok E -> env_ok E' -> length a = length b -> n_t <= 1 ->
  boundary_edit_distance E a b n_t = Ok e -> boundary_edit_distance E' (reverse a) (reverse b) n_t = Ok e' ->
  e_add e' ≡ₚ e_add e /\ e_sub e' ≡ₚ e_sub e /\ e_transp e = [] /\ e_transp e' = [].
Proof.
  intros HE HE' Hl Hn H1 H2. rewrite bed_ok in H1, H2 by (assumption || (rewrite ?reverse_length; lia)).
  injection H1 as <-. injection H2 as <-. cbn [e_add e_sub e_transp]. rewrite reverse_length.
  assert (Ht : forall E0 x y, ts E0 x y n_t = []).
  { intros. unfold ts, spans. replace (Z.to_nat (n_t - 1)) with 0%nat by lia. reflexivity. }
  rewrite !Ht.
  assert (HR : forall i, (i < length a)%nat ->
     RA (reverse a) (reverse b) (X []) i = RA a b (X []) (length a - 1 - i) /\
     RB (reverse a) (reverse b) (X []) i = RB a b (X []) (length a - 1 - i)).
  { intros i Hi. unfold RA, RB, OA, OB. rewrite !X_nil.
    rewrite (at_reverse a i (length a)), (at_reverse b i (length a)) by (assumption || reflexivity || congruence). auto. }
  split; [|split; [|auto]]; apply join_mirror; intros i Hi; unfold adds_at, subs_at; destruct (HR i Hi) as [-> ->]; reflexivity.
Qed.

(** ** One type, neighbouring gaps *)

Lemma zip_reverse {A B} (g : A -> A -> B) a b : length a = length b ->
  zip_with g (reverse a) (reverse b) = reverse (zip_with g a b).
Proof.
  intros Hl. revert b Hl. induction a as [|x a IH]; intros [|y b] Hl; try discriminate; [reflexivity|]. injection Hl as Hl.
  cbn [zip_with]. rewrite !reverse_cons. rewrite zip_with_app by (rewrite !reverse_length; exact Hl). rewrite IH by exact Hl. reflexivity.
Qed.

Lemma sum_perm (l l' : list nat) : l ≡ₚ l' -> sum_list l = sum_list l'.
Proof.
  induction 1 as [|x l l' H IH|x y l|l l' l'' H1 IH1 H2 IH2]; cbn in *; unfold id in *; try lia.
Qed.

Lemma ndiffs_reverse a b : length a = length b -> ndiffs (reverse a) (reverse b) = ndiffs a b.
Proof.
  intros Hl. unfold ndiffs. rewrite zip_reverse by exact Hl. apply sum_perm, reverse_Permutation.
Qed.

Lemma has_reverse s i n d : length s = n -> (i < n)%nat -> has (reverse s) (n - 1 - i) d <-> has s i d.
Proof.
  intros Hl Hi. rewrite <- !at_has. rewrite (at_reverse s _ n) by (assumption || lia). replace (n - 1 - (n - 1 - i))%nat with i by lia. reflexivity.
Qed.

Lemma script_reverse a b c n_t T G : length a = length b -> edit_script a b c n_t T G -> exists T' G',
  edit_script (reverse a) (reverse b) c n_t T' G' /\ length T' = length T /\ length G' = length G.
Proof.
  intros Hl [S1 S2 S3]. set (n := length a) in *. set (m := fun i => (n - 1 - i)%nat).
  exists ((fun '(i, j) => (m j, m i)) <$> T), (m <$> G). rewrite !fmap_length. split; [|auto].
  assert (F1 : ((fun '(i, j) => (m j, m i)) <$> T).*1 = m <$> T.*2).
  { rewrite <- !list_fmap_compose. apply list_fmap_ext. intros k [i j] _. reflexivity. }
  assert (F2 : ((fun '(i, j) => (m j, m i)) <$> T).*2 = m <$> T.*1).
  { rewrite <- !list_fmap_compose. apply list_fmap_ext. intros k [i j] _. reflexivity. }
  assert (B1 : forall i, i ∈ T.*1 ++ T.*2 -> (i < n)%nat).
  { intros i. rewrite elem_of_app, !elem_of_list_fmap. intros [([x y] & -> & H)|([x y] & -> & H)]; apply S1 in H; cbn; lia. }
  split.
  - intros i j Hij. apply elem_of_list_fmap in Hij as ([i' j'] & [= -> ->] & Hij). apply S1 in Hij as (H1 & H2 & H3).
    unfold m. rewrite reverse_length. fold n. split; [lia|]. split; [lia|].
    unfold swaps in *. rewrite !(has_reverse a _ n), !(has_reverse b _ n) by (reflexivity || congruence || lia). tauto.
  - rewrite F1, F2, <- fmap_app. apply NoDup_fmap_2_strong.
    + intros i j Hi Hj. assert (i < n)%nat by (apply B1; rewrite elem_of_app in *; tauto).
      assert (j < n)%nat by (apply B1; rewrite elem_of_app in *; tauto). unfold m. lia.
    + rewrite Permutation_app_comm. exact S2.
  - rewrite F1, F2. intros i. rewrite reverse_length. fold n. intros Hi Hd.
    assert (Ha : reverse a !! i = a !! (n - 1 - i)%nat) by (rewrite reverse_lookup by exact Hi; f_equal; lia).
    assert (Hb : reverse b !! i = b !! (n - 1 - i)%nat) by (rewrite reverse_lookup by lia; f_equal; lia).
    rewrite Ha, Hb in Hd.
    assert (Hm : i = m (n - 1 - i)%nat) by (unfold m; lia). rewrite Hm, !elem_of_list_fmap.
    destruct (S3 (n - 1 - i)%nat ltac:(lia) Hd) as [H|[H|H]]; eauto 6.
Qed.

Lemma bed_reverse_le E E' a b c e e' : env_ok E -> env_ok E' -> one_type a b c -> -5 <= c <= 256 -> length a = length b ->
  boundary_edit_distance E a b 2 = Ok e -> boundary_edit_distance E' (reverse a) (reverse b) 2 = Ok e' ->
  (length (e_transp e) <= length (e_transp e'))%nat.
Proof.
  intros HE HE' H1 Hc Hl H2 H3. destruct (bed_is_script E a b c HE H1 Hc Hl e H2) as (G & HG & _).
  destruct (script_reverse a b c 2 _ G Hl HG) as (T' & G' & HS & HT & _). rewrite fmap_length in HT.
  apply (swaps_max E' _ _ c HE' (one_type_reverse _ _ _ H1) Hc) in HS; [|rewrite !reverse_length; exact Hl].
  rewrite bed_ok in H3 by (assumption || rewrite !reverse_length; lia). injection H3 as <-. cbn [e_transp]. lia.
Qed.

Theorem bed_reverse_one E E' a b c e e' : env_ok E -> env_ok E' -> one_type a b c -> -5 <= c <= 256 -> length a = length b ->
  boundary_edit_distance E a b 2 = Ok e -> boundary_edit_distance E' (reverse a) (reverse b) 2 = Ok e' ->
  length (e_transp e') = length (e_transp e) /\ length (e_add e') = length (e_add e) /\ e_sub e = [] /\ e_sub e' = [] /\
  Forall (fun t => t_end t = S (t_start t)) (e_transp e ++ e_transp e').
Proof.
  intros HE HE' H1 Hc Hl H2 H3. pose proof (one_type_reverse _ _ _ H1) as H1'.
  assert (Hl' : length (reverse a) = length (reverse b)) by (rewrite !reverse_length; exact Hl).
  assert (HT : length (e_transp e') = length (e_transp e)).
  { pose proof (bed_reverse_le E E' a b c e e' HE HE' H1 Hc Hl H2 H3).
    pose proof (bed_reverse_le E' E (reverse a) (reverse b) c e' e HE' HE H1' Hc Hl' H3) as K.
    rewrite !reverse_involutive in K. specialize (K H2). lia. }
  pose proof (one_subs E a b c HE H1 Hc Hl e H2) as S1. pose proof (one_subs E' _ _ c HE' H1' Hc Hl' e' H3) as S2.
  pose proof (bed_total E a b 2 e HE (one_small a b c H1 Hc) Hl H2) as T1.
  pose proof (bed_total E' _ _ 2 e' HE' (one_small _ _ c H1' Hc) Hl' H3) as T2.
  rewrite ndiffs_reverse in T2 by exact Hl. rewrite S1 in T1. rewrite S2 in T2. cbn [length] in T1, T2.
  split; [exact HT|]. split; [lia|]. split; [exact S1|]. split; [exact S2|].
  rewrite bed_ok in H2, H3 by (assumption || lia). injection H2 as <-. injection H3 as <-. cbn [e_transp].
  apply Forall_app. split; apply Forall_forall; intros t Ht.
  - rewrite (ts2 E a b) in Ht. apply (gpre_shape E a b c HE H1 Hc) in Ht; [lia|assumption..].
  - rewrite (ts2 E' (reverse a) (reverse b)) in Ht. apply (gpre_shape E' _ _ c HE' H1' Hc) in Ht; [lia|assumption..].
Qed.

(** ** B and S *)

Lemma types_reverse a b : identify_types (reverse a) (reverse b) = identify_types a b.
Proof.
  unfold identify_types. apply set_eq. intros d. rewrite !elem_of_union, !elem_of_union_list. setoid_rewrite elem_of_reverse. reflexivity.
Qed.

Lemma nmatches_reverse a b : length a = length b -> nmatches (reverse a) (reverse b) = nmatches a b.
Proof.
  intros Hl. unfold nmatches. rewrite zip_reverse by exact Hl. apply sum_perm, reverse_Permutation.
Qed.

Lemma stats_reverse A E E' W n_t a b : env_ok E -> env_ok E' -> length a = length b ->
  (forall e e', boundary_edit_distance E a b n_t = Ok e -> boundary_edit_distance E' (reverse a) (reverse b) n_t = Ok e' ->
    edit_count e' = edit_count e /\ w_a W (e_add e') = w_a W (e_add e) /\
    (forall hi lo, w_s W (e_sub e') hi lo = w_s W (e_sub e) hi lo) /\ w_t W (e_transp e') n_t = w_t W (e_transp e) n_t) ->
  same_stats (bstring_statistics A E W n_t a b) (bstring_statistics A E' W n_t (reverse a) (reverse b)).
Proof.
  intros HE HE' Hl HW. assert (Hl' : length (reverse a) = length (reverse b)) by (rewrite !reverse_length; exact Hl).
  rewrite !statistics_eq by assumption.
  destruct (bed_returns E a b n_t HE ltac:(lia)) as [e He].
  destruct (bed_returns E' (reverse a) (reverse b) n_t HE' ltac:(lia)) as [e' He'].
  destruct (HW e e' He He') as (W0 & W1 & W2 & W3).
  rewrite He, He'. cbn [bind]. rewrite types_reverse, W1, W3.
  destruct (w_a W (e_add e)) as [ca|]; cbn [bind same_stats]; [|reflexivity].
  destruct (set_max (identify_types a b)) as [hi|]; cbn [bind same_stats]; [|reflexivity].
  destruct (set_min (identify_types a b)) as [lo|]; cbn [bind same_stats]; [|reflexivity].
  rewrite W2.
  destruct (w_s W (e_sub e) hi lo) as [cs|]; cbn [bind same_stats]; [|reflexivity].
  destruct (w_t W (e_transp e) n_t) as [ct|]; cbn [bind same_stats]; [|reflexivity].
  destruct (nadd A ca cs) as [c1|]; cbn [bind same_stats]; [|reflexivity].
  destruct (nadd A c1 ct) as [c2|]; cbn [bind same_stats]; [|reflexivity].
  cbn [st_count st_edits st_matches st_pbs st_types]. split; [reflexivity|]. split; [congruence|].
  split. { unfold zlen. rewrite !match_list_length, nmatches_reverse by exact Hl. reflexivity. }
  unfold zlen. rewrite ?reverse_length. auto.
Qed.

Lemma metrics_reverse A E E' W n_t a b :
  (length a = length b -> same_stats (bstring_statistics A E W n_t a b) (bstring_statistics A E' W n_t (reverse a) (reverse b))) ->
  forall om rp,
    same_result (boundary_similarity A E W FSets n_t om rp (Sets a) (Sets b))
      (boundary_similarity A E' W FSets n_t om rp (Sets (reverse a)) (Sets (reverse b))) /\
    segmentation_similarity A E W FSets n_t om rp (Sets a) (Sets b) =
      segmentation_similarity A E' W FSets n_t om rp (Sets (reverse a)) (Sets (reverse b)).
Proof.
  intros H om rp.
  assert (HS : same_stats (boundary_statistics A E W FSets n_t (Sets a) (Sets b))
    (boundary_statistics A E' W FSets n_t (Sets (reverse a)) (Sets (reverse b)))).
  { unfold boundary_statistics, to_bstrings. cbn [seg_len as_sets bind]. unfold zlen. rewrite !reverse_length.
    destruct (Z.eqb_spec (Z.of_nat (length a)) (Z.of_nat (length b))) as [C|C]; cbn [negb bind]; [|reflexivity].
    apply H. lia. }
  split; [apply B_same|apply S_same]; exact HS.
Qed.

Lemma distance_perm l l' : l ≡ₚ l' -> distance l = distance l'.
Proof. intros H. apply zsum_perm, fmap_Permutation, H. Qed.

Theorem short_reverse A E E' W n_t a b : env_ok E -> env_ok E' -> neutral W -> n_t <= 1 ->
  forall om rp,
    same_result (boundary_similarity A E W FSets n_t om rp (Sets a) (Sets b))
      (boundary_similarity A E' W FSets n_t om rp (Sets (reverse a)) (Sets (reverse b))) /\
    segmentation_similarity A E W FSets n_t om rp (Sets a) (Sets b) =
      segmentation_similarity A E' W FSets n_t om rp (Sets (reverse a)) (Sets (reverse b)).
Proof.
  intros HE HE' (W1 & W2 & W3) Hn. apply metrics_reverse. intros Hl. apply stats_reverse; try assumption.
  intros e e' He He'. destruct (bed_reverse_short E E' a b n_t e e' HE HE' Hl Hn He He') as (P1 & P2 & P3 & P4).
  unfold edit_count, zlen. rewrite P3, P4, (Permutation_length P1), (Permutation_length P2). split; [reflexivity|].
  split; [apply W1, Permutation_length, P1|]. split; [|reflexivity].
  intros hi lo. apply W2; [apply Permutation_length, P2|apply distance_perm, P2].
Qed.

Lemma ones_distance (l : list transposition) : Forall (fun t => t_end t = S (t_start t)) l ->
  distance ((fun t => (Z.of_nat (t_start t), Z.of_nat (t_end t))) <$> l) = Z.of_nat (length l).
Proof.
  induction 1 as [|t l Ht _ IH]; [reflexivity|]. unfold distance in *. rewrite !fmap_cons, zsum_cons, IH. cbn [length]. lia.
Qed.

Theorem one_reverse A E E' W a b c : env_ok E -> env_ok E' -> one_type a b c -> -5 <= c <= 256 ->
  W = default_weights A \/ W = plain_weights ->
  forall om rp,
    same_result (boundary_similarity A E W FSets 2 om rp (Sets a) (Sets b))
      (boundary_similarity A E' W FSets 2 om rp (Sets (reverse a)) (Sets (reverse b))) /\
    segmentation_similarity A E W FSets 2 om rp (Sets a) (Sets b) =
      segmentation_similarity A E' W FSets 2 om rp (Sets (reverse a)) (Sets (reverse b)).
Proof.
  intros HE HE' H1 Hc HW. apply metrics_reverse. intros Hl. apply stats_reverse; try assumption.
  intros e e' He He'. destruct (bed_reverse_one E E' a b c e e' HE HE' H1 Hc Hl He He') as (P1 & P2 & P3 & P4 & P5).
  unfold edit_count, zlen. rewrite P1, P2, P3, P4. split; [reflexivity|]. apply Forall_app in P5 as [F1 F2].
  destruct HW as [-> | ->]; cbn [default_weights plain_weights w_a w_s w_t].
  - unfold weight_a, weight_s_scale, weight_t_scale, weight_scale, zlen. rewrite P2, !foldl_zsum, !ones_distance by assumption.
    rewrite P1. auto.
  - unfold weight_a, weight_s, weight_t, zlen. rewrite P1, P2. auto.
Qed.

(** ** Segmentations given by masses *)

Lemma cut_reverse m p : cut (reverse m) p <-> cut m (zsum m - p).
Proof.
  unfold cut. rewrite reverse_length. split; intros (k & Hk & E); exists (length m - k)%nat; (split; [lia|]).
  - rewrite take_reverse_sum in E by lia. lia.
  - rewrite take_reverse_sum by lia. replace (length m - (length m - k))%nat with k by lia. lia.
Qed.

Lemma bs_of_reverse m : Spec.positive m -> m <> [] -> bs_of (reverse m) = reverse (bs_of m).
Proof.
  intros Hm Hne. symmetry. pose proof (bs_of_length m Hm Hne) as HL.
  apply bs_of_unique; [apply positive_reverse, Hm|apply reverse_not_nil, Hne| |].
  - unfold zlen in *. rewrite reverse_length, zsum_reverse. exact HL.
  - intros i t Ht. pose proof (lookup_lt_Some _ _ _ Ht) as Hi. rewrite reverse_length in Hi.
    rewrite reverse_lookup in Ht by exact Hi. rewrite !cut_reverse.
    replace (zsum m - (Z.of_nat i + 1)) with (Z.of_nat (length (bs_of m) - S i) + 1) by (unfold zlen in HL; lia).
    destruct (bs_of_lookup m (length (bs_of m) - S i) Hm ltac:(lia)) as [[K1 K2]|[K1 K2]]; rewrite Ht in K2; injection K2 as ->;
      split; intros; tauto || reflexivity.
Qed.

Lemma bs_of_one m s d : s ∈ bs_of m -> d ∈ s -> d = 1.
Proof.
  induction m as [|x m IH]; [cbn; intros H; inversion H|]. cbn [bs_of]. rewrite elem_of_app. intros [H|H].
  - apply elem_of_replicate in H as [-> _]. set_solver.
  - destruct m as [|y m]; [inversion H|]. apply elem_of_cons in H as [->|H]; [set_solver|]. apply IH, H.
Qed.

Theorem masses_reverse A E E' W n_t f f' m m' sa sb sa' sb' : env_ok E -> env_ok E' -> n_t <= 2 ->
  W = default_weights A \/ W = plain_weights ->
  Spec.positive m -> Spec.positive m' -> m <> [] -> m' <> [] ->
  encodes f m sa -> encodes f m' sb -> encodes f' (reverse m) sa' -> encodes f' (reverse m') sb' ->
  forall om rp,
    same_result (boundary_similarity A E W f n_t om rp sa sb) (boundary_similarity A E' W f' n_t om rp sa' sb') /\
    segmentation_similarity A E W f n_t om rp sa sb = segmentation_similarity A E' W f' n_t om rp sa' sb'.
Proof.
  intros HE HE' Hn HW Hm Hm' Nm Nm' H1 H2 H3 H4 om rp.
  assert (B1 : to_bstrings f sa sb = to_bstrings FSets (Sets (bs_of m)) (Sets (bs_of m'))).
  { rewrite (to_bstrings_eq f sa sb (bs_of m) (bs_of m')) by (apply to_bstring_encodes; assumption).
    symmetry. apply to_bstrings_eq; reflexivity. }
  assert (B2 : to_bstrings f' sa' sb' = to_bstrings FSets (Sets (reverse (bs_of m))) (Sets (reverse (bs_of m')))).
  { rewrite (to_bstrings_eq f' sa' sb' (bs_of (reverse m)) (bs_of (reverse m')))
      by (apply to_bstring_encodes; try assumption; (apply positive_reverse || apply reverse_not_nil); assumption).
    rewrite !bs_of_reverse by assumption. symmetry. apply to_bstrings_eq; reflexivity. }
  assert (H1' : one_type (bs_of m) (bs_of m') 1) by (intros s d [Hs|Hs] Hd; eapply bs_of_one; eassumption).
  destruct (decide (n_t = 2)) as [->|C].
  - pose proof (one_reverse A E E' W (bs_of m) (bs_of m') 1 HE HE' H1' ltac:(lia) HW om rp) as K.
    unfold boundary_similarity, segmentation_similarity, boundary_statistics in *. rewrite B1, B2. exact K.
  - assert (HN : neutral W) by (destruct HW as [-> | ->]; [apply default_neutral|apply plain_neutral]).
    pose proof (short_reverse A E E' W n_t (bs_of m) (bs_of m') HE HE' HN ltac:(lia) om rp) as K.
    unfold boundary_similarity, segmentation_similarity, boundary_statistics in *. rewrite B1, B2. exact K.
Qed.
