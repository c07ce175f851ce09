(** Facts about boundary statistics that do not involve rounding. *)
From Verif Require Import SpecSim FormatProofs Similarity BedProofs BedSubs BedMain BedTheory BedExtra.
Open Scope Z_scope.

(** ** Matches, misses, boundaries *)

Lemma sum_list_cons x l : sum_list (x :: l) = (x + sum_list l)%nat.
Proof. reflexivity. Qed.


Definition match_list (a b : bstring) : list Z := mjoin (zip_with (fun x y : tyset => elements (x ∩ y)) a b).
Definition miss_list (a b : bstring) : list Z := mjoin (zip_with (fun x y : tyset => elements (symdiff x y)) a b).

Lemma tally_fold a b ms fm n :
  foldl tally (ms, fm, n) (zip a b) = (ms ++ match_list a b, fm ++ miss_list a b, n + Z.of_nat (nboundaries a b)).
Proof.
  revert b ms fm n. induction a as [|x a IH]; intros [|y b] ms fm n;
    try (cbn; unfold match_list, miss_list, nboundaries; cbn; rewrite !app_nil_r; f_equal; lia).
  cbn [zip zip_with foldl tally]. rewrite IH. unfold match_list, miss_list, nboundaries. cbn [zip_with mjoin list_join].
  rewrite !app_assoc, sum_list_cons. unfold zsize. f_equal. lia.
Qed.

Lemma match_list_length a b : length (match_list a b) = nmatches a b.
Proof.
  unfold match_list, nmatches. revert b. induction a as [|x a IH]; intros [|y b]; try reflexivity.
  cbn [zip_with mjoin list_join]. rewrite app_length, IH. reflexivity.
Qed.

Lemma size_symdiff (x y : tyset) : size (symdiff x y) = (size (x ∖ y) + size (y ∖ x))%nat.
Proof. unfold symdiff. rewrite (size_union (x ∖ y) (y ∖ x)) by set_solver. reflexivity. Qed.

Lemma miss_list_length a b : length (miss_list a b) = ndiffs a b.
Proof.
  unfold miss_list, ndiffs. revert b. induction a as [|x a IH]; intros [|y b]; try reflexivity.
  cbn [zip_with mjoin list_join]. rewrite app_length, IH, sum_list_cons.
  change (length (elements (symdiff x y))) with (size (symdiff x y)). rewrite size_symdiff. reflexivity.
Qed.

Lemma size_split (x y : tyset) : size x = (size (x ∩ y) + size (x ∖ y))%nat.
Proof.
  replace (size x) with (size ((x ∩ y) ∪ (x ∖ y))).
  - rewrite (size_union (x ∩ y) (x ∖ y)) by set_solver. reflexivity.
  - f_equal. apply set_eq. intros d. rewrite elem_of_union, elem_of_intersection, elem_of_difference.
    destruct (decide (d ∈ y)); tauto.
Qed.

Lemma nboundaries_split a b : nboundaries a b = (2 * nmatches a b + ndiffs a b)%nat.
Proof.
  unfold nboundaries, nmatches, ndiffs. revert b. induction a as [|x a IH]; intros [|y b]; try reflexivity.
  cbn [zip_with]. rewrite !sum_list_cons, IH.
  rewrite (size_split x y) at 1. rewrite (size_split y x) at 1.
  replace (y ∩ x) with (x ∩ y) by set_solver. lia.
Qed.

Lemma nboundaries_sym a b : nboundaries a b = nboundaries b a.
Proof.
  unfold nboundaries. revert b. induction a as [|x a IH]; intros [|y b]; try reflexivity.
  cbn [zip_with]. rewrite !sum_list_cons, IH. lia.
Qed.

Lemma nmatches_sym a b : nmatches a b = nmatches b a.
Proof.
  unfold nmatches. revert b. induction a as [|x a IH]; intros [|y b]; try reflexivity.
  cbn [zip_with]. rewrite !sum_list_cons, IH.
  replace (y ∩ x) with (x ∩ y) by set_solver. lia.
Qed.

(** ** Types *)

Lemma elem_of_types a b d : d ∈ identify_types a b <-> used a b d.
Proof.
  unfold identify_types, used, has. rewrite elem_of_union, !elem_of_union_list. split.
  - intros [(x & Hx & Hd)|(x & Hx & Hd)]; apply elem_of_list_lookup in Hx as [i Hi]; exists i; [left|right]; eauto.
  - intros (i & [(x & Hx & Hd)|(x & Hx & Hd)]); [left|right]; exists x; split; auto;
      eapply elem_of_list_lookup_2; eassumption.
Qed.

Lemma types_sym a b : identify_types a b = identify_types b a.
Proof. unfold identify_types. set_solver. Qed.

Lemma types_empty a b : length a = length b -> identify_types a b = ∅ <-> nboundaries a b = 0%nat.
Proof.
  intros Hl. unfold nboundaries. revert b Hl. induction a as [|x a IH]; intros [|y b] Hl; try discriminate.
  - split; [reflexivity|]. intros _. unfold identify_types. set_solver.
  - cbn [zip_with]. rewrite sum_list_cons. specialize (IH b ltac:(cbn in Hl; congruence)).
    assert (E : identify_types (x :: a) (y :: b) = x ∪ y ∪ identify_types a b).
    { unfold identify_types. cbn. set_solver. }
    rewrite E. split.
    + intros H. assert (x = ∅) as -> by set_solver. assert (y = ∅) as -> by set_solver.
      rewrite size_empty. apply IH. set_solver.
    + intros H. assert (Hx : size x = 0%nat) by lia. assert (Hy : size y = 0%nat) by lia.
      apply size_empty_inv in Hx. apply size_empty_inv in Hy.
      assert (HI : identify_types a b = ∅) by (apply IH; lia). rewrite HI. set_solver.
Qed.

Lemma foldl_max_spec l x : (foldl Z.max x l = x \/ foldl Z.max x l ∈ l) /\ x <= foldl Z.max x l /\ forall y, y ∈ l -> y <= foldl Z.max x l.
Proof.
  revert x. induction l as [|z l IH]; intros x; cbn [foldl]; [split; [auto|split; [lia|set_solver]]|].
  destruct (IH (Z.max x z)) as (H1 & H2 & H3). split; [|split].
  - destruct H1 as [H1|H1]; [|right; right; assumption]. rewrite H1.
    destruct (Z.max_spec x z) as [[_ ->]|[_ ->]]; [right; left|left; reflexivity].
  - lia.
  - intros y Hy. apply elem_of_cons in Hy as [->|Hy]; [lia|auto].
Qed.

Lemma foldl_min_spec l x : (foldl Z.min x l = x \/ foldl Z.min x l ∈ l) /\ foldl Z.min x l <= x /\ forall y, y ∈ l -> foldl Z.min x l <= y.
Proof.
  revert x. induction l as [|z l IH]; intros x; cbn [foldl]; [split; [auto|split; [lia|set_solver]]|].
  destruct (IH (Z.min x z)) as (H1 & H2 & H3). split; [|split].
  - destruct H1 as [H1|H1]; [|right; right; assumption]. rewrite H1.
    destruct (Z.min_spec x z) as [[_ ->]|[_ ->]]; [left; reflexivity|right; left].
  - lia.
  - intros y Hy. apply elem_of_cons in Hy as [->|Hy]; [lia|auto].
Qed.

Lemma set_max_ok s : s <> ∅ -> exists m, set_max s = Ok m /\ m ∈ s /\ forall x, x ∈ s -> x <= m.
Proof.
  intros Hs. unfold set_max. destruct (elements s) as [|x l] eqn:El.
  - apply elements_empty_inv in El. apply leibniz_equiv in El. contradiction.
  - exists (foldl Z.max x l). split; [reflexivity|]. destruct (foldl_max_spec l x) as (H1 & H2 & H3).
    setoid_rewrite <- elem_of_elements. rewrite El. split.
    + destruct H1 as [->|H1]; [left|right; assumption].
    + intros y Hy. apply elem_of_cons in Hy as [->|Hy]; auto.
Qed.

Lemma set_min_ok s : s <> ∅ -> exists m, set_min s = Ok m /\ m ∈ s /\ forall x, x ∈ s -> m <= x.
Proof.
  intros Hs. unfold set_min. destruct (elements s) as [|x l] eqn:El.
  - apply elements_empty_inv in El. apply leibniz_equiv in El. contradiction.
  - exists (foldl Z.min x l). split; [reflexivity|]. destruct (foldl_min_spec l x) as (H1 & H2 & H3).
    setoid_rewrite <- elem_of_elements. rewrite El. split.
    + destruct H1 as [->|H1]; [left|right; assumption].
    + intros y Hy. apply elem_of_cons in Hy as [->|Hy]; auto.
Qed.

Lemma set_max_empty : set_max ∅ = Err ValueError.
Proof. reflexivity. Qed.

(** ** Edits lie among the types *)

Lemma ts_valid E a b n_t t : env_ok E -> t ∈ ts E a b n_t ->
  (t_start t < t_end t < length a)%nat /\ Z.of_nat (t_end t) - Z.of_nat (t_start t) <= n_t - 1 /\
  t_type t ∈ cand a b (t_start t) (t_end t).
Proof.
  intros HE. set (P := fun t => (t_start t < t_end t < length a)%nat /\
    Z.of_nat (t_end t) - Z.of_nat (t_start t) <= n_t - 1 /\ t_type t ∈ cand a b (t_start t) (t_end t)).
  assert (H : Forall P (ts E a b n_t)); [|intros Ht; rewrite Forall_forall in H; exact (H t Ht)].
  unfold ts, run. apply (foldl_inv (Forall P)); [constructor|]. intros out n Hn Hout.
  apply elem_of_spans in Hn. unfold span. apply (foldl_inv (Forall P)); [exact Hout|]. clear out Hout.
  intros out i Hi Hout. apply elem_of_seq in Hi. unfold block. apply (foldl_inv (Forall P)); [exact Hout|]. clear out Hout.
  intros out u Hu Hout. unfold tstep. destruct (accept E a b out u); [|exact Hout].
  apply Forall_app. split; [exact Hout|]. repeat constructor; apply elem_of_list_fmap in Hu as (d & -> & Hd); cbn [t_start t_end t_type].
  - lia.
  - lia.
  - lia.
  - apply elem_of_ord in Hd; assumption.
Qed.

Lemma bed_sub_types E a b n_t e x y : env_ok E -> length a = length b ->
  boundary_edit_distance E a b n_t = Ok e -> (x, y) ∈ e_sub e ->
  x ∈ identify_types a b /\ y ∈ identify_types a b /\ x <> y.
Proof.
  intros HE Hl Hb Hin. rewrite bed_ok in Hb by (assumption || lia). injection Hb as <-. cbn [e_sub] in Hin.
  apply elem_of_list_join in Hin as (l & Hin & Hl').
  apply elem_of_list_fmap in Hl' as (i & -> & Hi). unfold subs_at in Hin.
  destruct (best_is_pairing (RA a b (X (ts E a b n_t)) i) (RB a b (X (ts E a b n_t)) i)) as (_ & _ & HP & _).
  apply HP in Hin as [H1 H2]. unfold RA, RB, OA, OB in *.
  rewrite !elem_of_difference, !at_has' in H1. rewrite !elem_of_difference, !at_has' in H2.
  rewrite !elem_of_types. unfold used. split; [exists i; tauto|]. split; [exists i; tauto|]. intros ->. tauto.
Qed.


Lemma zsum_bounds {A} (f : A -> Z) l lo hi : (forall x, x ∈ l -> lo <= f x <= hi) ->
  lo * zlen l <= zsum (f <$> l) <= hi * zlen l.
Proof.
  unfold zlen. induction l as [|x l IH]; intros H; [cbn; lia|]. rewrite fmap_cons, zsum_cons. cbn [length].
  pose proof (H x ltac:(left)). specialize (IH ltac:(intros; apply H; right; assumption)). lia.
Qed.

Lemma tdist_bounds E a b n_t e : env_ok E -> length a = length b -> boundary_edit_distance E a b n_t = Ok e ->
  zlen (e_transp e) <= spanned (e_transp e) <= (n_t - 1) * zlen (e_transp e).
Proof.
  intros HE Hl Hb. rewrite bed_ok in Hb by (assumption || lia). injection Hb as <-. cbn [e_transp].
  unfold spanned. rewrite <- (Z.mul_1_l (zlen _)) at 1. apply zsum_bounds. intros t Ht.
  destruct (ts_valid _ _ _ _ _ HE Ht) as (H1 & H2 & _). lia.
Qed.

Lemma distance_bounds E a b n_t e mx mn : env_ok E -> length a = length b -> boundary_edit_distance E a b n_t = Ok e ->
  (forall x, x ∈ identify_types a b -> mn <= x <= mx) ->
  zlen (e_sub e) <= distance (e_sub e) <= (mx - mn) * zlen (e_sub e).
Proof.
  intros HE Hl Hb Hm. unfold distance. rewrite <- (Z.mul_1_l (zlen _)) at 1. apply zsum_bounds. intros [x y] Hxy.
  destruct (bed_sub_types _ _ _ _ _ _ _ HE Hl Hb Hxy) as (H1 & H2 & H3). apply Hm in H1. apply Hm in H2. lia.
Qed.

Lemma foldl_zsum l k : foldl (fun acc '(x, y) => acc + Z.abs (x - y)) k l = k + distance l.
Proof.
  unfold distance. revert k. induction l as [|[x y] l IH]; intros k; [cbn; lia|]. cbn [foldl].
  rewrite IH, fmap_cons, zsum_cons. lia.
Qed.

Lemma distance_transp l : Forall (fun t => t_start t < t_end t)%nat l ->
  distance ((fun t => (Z.of_nat (t_start t), Z.of_nat (t_end t))) <$> l) = spanned l.
Proof.
  unfold distance, spanned. induction l as [|t l IH]; intros H; [reflexivity|].
  apply Forall_cons in H as [Ht Hl]. rewrite !fmap_cons, !zsum_cons, IH by assumption. lia.
Qed.

Lemma distance_transp_perm l l' : l ≡ₚ l' ->
  distance ((fun t => (Z.of_nat (t_start t), Z.of_nat (t_end t))) <$> l) =
  distance ((fun t => (Z.of_nat (t_start t), Z.of_nat (t_end t))) <$> l').
Proof.
  unfold distance. induction 1 as [|t l l' _ IH|t u l|l1 l2 l3 _ IH1 _ IH2].
  - reflexivity.
  - rewrite !fmap_cons, !zsum_cons, IH. reflexivity.
  - rewrite !fmap_cons, !zsum_cons. lia.
  - congruence.
Qed.

Lemma bed_starts E a b n_t e : env_ok E -> length a = length b -> boundary_edit_distance E a b n_t = Ok e ->
  Forall (fun t => t_start t < t_end t)%nat (e_transp e).
Proof.
  intros HE Hl Hb. rewrite bed_ok in Hb by (assumption || lia). injection Hb as <-. cbn [e_transp].
  apply Forall_forall. intros t Ht. destruct (ts_valid _ _ _ _ _ HE Ht) as (H1 & _). lia.
Qed.

(** ** The statistics *)

(** [bstring_statistics] with the loops evaluated. *)
Lemma statistics_eq A E W n_t a b : env_ok E -> length a = length b ->
  bstring_statistics A E W n_t a b =
    let* ed := boundary_edit_distance E a b n_t in
    let* ca := w_a W (e_add ed) in
    let* mx := set_max (identify_types a b) in
    let* mn := set_min (identify_types a b) in
    let* cs := w_s W (e_sub ed) mx mn in
    let* ct := w_t W (e_transp ed) n_t in
    let* c1 := nadd A ca cs in
    let* count := nadd A c1 ct in
    Ok (Stats count ed (miss_list a b) (Z.of_nat (nboundaries a b)) (match_list a b)
         (zlen b * zsize (identify_types a b)) (identify_types a b)).
Proof.
  intros HE Hl. unfold bstring_statistics. destruct (boundary_edit_distance E a b n_t) as [ed|]; [|reflexivity]. cbn [bind].
  destruct (w_a W (e_add ed)) as [ca|]; [|reflexivity]. cbn [bind].
  destruct (set_max _) as [mx|]; [|reflexivity]. cbn [bind].
  destruct (set_min _) as [mn|]; [|reflexivity]. cbn [bind].
  destruct (w_s W _ _ _) as [cs|]; [|reflexivity]. cbn [bind].
  destruct (w_t W _ _) as [ct|]; [|reflexivity]. cbn [bind].
  destruct (nadd A ca cs) as [c1|]; [|reflexivity]. cbn [bind].
  destruct (nadd A c1 ct) as [c|]; [|reflexivity]. cbn [bind].
  rewrite tally_fold. cbn. reflexivity.
Qed.

Lemma no_types_error A E W n_t a b c : env_ok E -> length a = length b -> identify_types a b = ∅ ->
  w_a W [] = Ok c -> bstring_statistics A E W n_t a b = Err ValueError.
Proof.
  intros HE Hl Ht HW. rewrite statistics_eq by assumption.
  assert (a = b) as ->.
  { apply list_eq. intros i. destruct (decide (i < length a)%nat) as [C|C].
    - destruct (lookup_lt_is_Some_2 a i C) as [x Hx]. destruct (lookup_lt_is_Some_2 b i ltac:(lia)) as [y Hy].
      rewrite Hx, Hy. f_equal. unfold identify_types in Ht.
      apply set_eq. intros d.
      assert (forall d, ~ used a b d) as HU by (intros d'; rewrite <- elem_of_types; unfold identify_types; set_solver).
      split; intros Hd; exfalso; apply (HU d); exists i; [left|right]; eexists; eauto.
    - rewrite !lookup_ge_None_2 by lia. reflexivity. }
  assert (HB : boundary_edit_distance E b b n_t = Ok (Edits [] [] [])) by (apply bed_empty_iff; auto).
  rewrite HB. cbn [bind e_add]. rewrite HW. cbn [bind]. rewrite Ht. reflexivity.
Qed.
