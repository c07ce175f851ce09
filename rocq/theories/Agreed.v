(** C84: agreed boundaries play no part in the edit distance. *)
From Verif Require Import SpecAgreed FormatProofs Bed BedProofs BedSubs BedMain BedTheory SimStats SimProofs SimRound SimTheory SimMain BedError.
From Coq Require Import Lqa.
Open Scope Z_scope.

Lemma foldM_ext {S X} (f g : S -> X -> res S) l s : (forall s x, f s x = g s x) -> foldM f l s = foldM g l s.
Proof. intros H. revert s. induction l as [|x l IH]; intros s; cbn; [reflexivity|]. rewrite H. destruct (g s x); cbn; [apply IH|reflexivity]. Qed.

Section Alike.
Context (x y x' y' : list (gset Z)) (H : differ_alike x y x' y').

Definition sets_alike (s t s' t' : gset Z) : Prop := forall d, (d ∈ s /\ d ∉ t <-> d ∈ s' /\ d ∉ t') /\ (d ∈ t /\ d ∉ s <-> d ∈ t' /\ d ∉ s').

Lemma at_gap i s t s' t' : x !! i = Some s -> y !! i = Some t -> x' !! i = Some s' -> y' !! i = Some t' -> sets_alike s t s' t'.
Proof.
  intros X Y X' Y' d. destruct H as (_ & _ & K). specialize (K i d). unfold has in K. rewrite X, Y, X', Y' in K.
  assert (M : forall (u : gset Z) , (exists t0, Some u = Some t0 /\ d ∈ t0) <-> d ∈ u) by (intros u; split; [intros (? & [= <-] & ?); assumption|eauto]).
  rewrite !M in K. exact K.
Qed.

Lemma candidates_iff (si sj ti tj : gset Z) d : d ∈ candidates_at si sj ti tj <->
  (d ∈ si /\ d ∉ ti) /\ (d ∈ tj /\ d ∉ sj) \/ (d ∈ ti /\ d ∉ si) /\ (d ∈ sj /\ d ∉ tj).
Proof.
  unfold candidates_at, symdiff. rewrite !elem_of_intersection, !elem_of_union, !elem_of_difference.
  destruct (decide (d ∈ si)), (decide (d ∈ ti)), (decide (d ∈ sj)), (decide (d ∈ tj)); tauto.
Qed.

Lemma candidates_alike si ti si' ti' sj tj sj' tj' : sets_alike si ti si' ti' -> sets_alike sj tj sj' tj' ->
  candidates_at si sj ti tj = candidates_at si' sj' ti' tj'.
Proof.
  intros I J. apply set_eq. intros d. destruct (I d) as [I1 I2], (J d) as [J1 J2]. rewrite !candidates_iff, I1, I2, J1, J2. reflexivity.
Qed.

Lemma diff_alike s t s' t' : sets_alike s t s' t' -> symdiff s t = symdiff s' t' /\ s ∖ t = s' ∖ t' /\ t ∖ s = t' ∖ s'.
Proof.
  intros K. unfold symdiff. assert (s ∖ t = s' ∖ t') as -> by (apply set_eq; intros d; rewrite !elem_of_difference; apply (K d)).
  assert (t ∖ s = t' ∖ s') as -> by (apply set_eq; intros d; rewrite !elem_of_difference; apply (K d)). auto.
Qed.

Lemma there {V} (l l' : list V) i v : length l = length l' -> l !! i = Some v -> exists v', l' !! i = Some v'.
Proof. intros L K. apply lookup_lt_is_Some. rewrite <- L. apply lookup_lt_is_Some. eauto. Qed.

Lemma absent {V} (l l' : list V) i : length l = length l' -> l !! i = None -> l' !! i = None.
Proof. intros L K. apply lookup_ge_None. rewrite <- L. apply lookup_ge_None. exact K. Qed.

Lemma lookups_alike i j : (let* a_i := lookup_or x i in let* a_j := lookup_or x j in let* b_i := lookup_or y i in let* b_j := lookup_or y j in
    Ok (candidates_at a_i a_j b_i b_j)) =
  (let* a_i := lookup_or x' i in let* a_j := lookup_or x' j in let* b_i := lookup_or y' i in let* b_j := lookup_or y' j in
    Ok (candidates_at a_i a_j b_i b_j)).
Proof.
  destruct H as (L & L' & _). unfold lookup_or.
  destruct (x !! i) as [xi|] eqn:Xi; [destruct (there _ _ _ _ L Xi) as [xi' Xi']|pose proof (absent _ _ _ L Xi) as Xi']; rewrite Xi'; [|reflexivity]. cbn [bind].
  destruct (x !! j) as [xj|] eqn:Xj; [destruct (there _ _ _ _ L Xj) as [xj' Xj']|pose proof (absent _ _ _ L Xj) as Xj']; rewrite Xj'; [|reflexivity]. cbn [bind].
  destruct (y !! i) as [yi|] eqn:Yi; [destruct (there _ _ _ _ L' Yi) as [yi' Yi']|pose proof (absent _ _ _ L' Yi) as Yi']; rewrite Yi'; [|reflexivity]. cbn [bind].
  destruct (y !! j) as [yj|] eqn:Yj; [destruct (there _ _ _ _ L' Yj) as [yj' Yj']|pose proof (absent _ _ _ L' Yj) as Yj']; rewrite Yj'; [|reflexivity]. cbn [bind].
  f_equal. apply candidates_alike; eapply at_gap; eassumption.
Qed.

Lemma pos_alike E n st i : transp_pos E x y n st i = transp_pos E x' y' n st i.
Proof.
  unfold transp_pos. set (j := (i + n)%nat). pose proof (lookups_alike i j) as K.
  destruct (lookup_or x i) as [xi|]; destruct (lookup_or x' i) as [xi'|]; cbn [bind] in *;
  destruct (lookup_or x j) as [xj|]; destruct (lookup_or x' j) as [xj'|]; cbn [bind] in *;
  destruct (lookup_or y i) as [yi|]; destruct (lookup_or y' i) as [yi'|]; cbn [bind] in *;
  destruct (lookup_or y j) as [yj|]; destruct (lookup_or y' j) as [yj'|]; cbn [bind] in *; try discriminate; try congruence.
Qed.

Lemma options_alike : optional_set_edits x y = optional_set_edits x' y'.
Proof.
  unfold optional_set_edits. f_equal. set (g := fun '(i, (a_i, b_i)) => _).
  assert (F : Forall2 (fun p q => g p = g q) (imap pair (zip x y)) (imap pair (zip x' y'))).
  { destruct H as (L & L' & _). apply Forall2_same_length_lookup_2.
    - rewrite !imap_length, !zip_with_length. lia.
    - intros i [n [s t]] [n' [s' t']] K K'. rewrite list_lookup_imap in K, K'. apply fmap_Some in K, K'. destruct K as ([s0 t0] & Z1 & [= -> -> ->]), K' as ([s1 t1] & Z2 & [= -> -> ->]).
      apply lookup_zip_with_Some in Z1, Z2. destruct Z1 as (? & ? & [= <- <-] & X & Y), Z2 as (? & ? & [= <- <-] & X' & Y').
      destruct (diff_alike _ _ _ _ (at_gap _ _ _ _ _ X Y X' Y')) as (E1 & E2 & E3). unfold g. rewrite E1, E2, E3. reflexivity. }
  clearbody g. induction F as [|p q l l' K F IH]; [reflexivity|]. cbn. rewrite K, IH. reflexivity.
Qed.

Theorem bed_alike E n_t : boundary_edit_distance E x y n_t = boundary_edit_distance E x' y' n_t.
Proof.
  unfold boundary_edit_distance, boundary_edit_distance_n, transpositions. rewrite options_alike. destruct H as (L & _). rewrite L.
  rewrite (foldM_ext (transp_span E x y) (transp_span E x' y')); [reflexivity|]. intros st n. unfold transp_span. rewrite L. apply foldM_ext. intros s i. apply pos_alike.
Qed.

Lemma types_alike : used_alike x y x' y' -> identify_types x y = identify_types x' y'.
Proof. intros U. apply set_eq. intros d. rewrite !elem_of_types. apply U. Qed.

Theorem S_alike A E W f f' n_t om rp sa sb sa' sb' : used_alike x y x' y' -> to_bstrings f sa sb = Ok (x, y) -> to_bstrings f' sa' sb' = Ok (x', y') ->
  segmentation_similarity A E W f n_t om rp sa sb = segmentation_similarity A E W f' n_t om rp sa' sb'.
Proof.
  intros U B B'. unfold segmentation_similarity, boundary_statistics. rewrite B, B'. cbn [bind]. unfold bstring_statistics.
  rewrite (bed_alike E n_t), (types_alike U). pose proof H as (_ & L & _). unfold zlen. rewrite L.
  destruct (boundary_edit_distance E x' y' n_t) as [ed|]; [|reflexivity]. cbn [bind].
  destruct (w_a W (e_add ed)); [|reflexivity]. cbn [bind]. destruct (set_max _); [|reflexivity]. cbn [bind]. destruct (set_min _); [|reflexivity]. cbn [bind].
  destruct (w_s W _ _ _); [|reflexivity]. cbn [bind]. destruct (w_t W _ _); [|reflexivity]. cbn [bind]. destruct (nadd A _ _); [|reflexivity]. cbn [bind].
  destruct (nadd A _ _); [|reflexivity]. cbn [bind].
  destruct (foldl tally _ (zip x y)) as [[? ?] ?]. destruct (foldl tally _ (zip x' y')) as [[? ?] ?]. reflexivity.
Qed.

Lemma cost_nonneg e sp n_t : 0 <= spanned (e_transp e) -> 0 < sp -> 0 < n_t -> (0 <= edit_cost e sp n_t)%Q.
Proof.
  intros Ht Hs Hn. unfold edit_cost.
  assert (P : forall z, 0 <= z -> (0 <= inject_Z z)%Q) by (intros z K; change 0%Q with (inject_Z 0); rewrite <- Zle_Qle; exact K).
  assert (D : forall z n, 0 <= z -> 0 < n -> (0 <= inject_Z z / inject_Z n)%Q).
  { intros z n K L. apply Qle_shift_div_l; [change 0%Q with (inject_Z 0); rewrite <- Zlt_Qlt; exact L|]. rewrite Qmult_0_l. apply P, K. }
  assert (Z1 : forall l : list Z, Forall (fun z => 0 <= z) l -> 0 <= zsum l) by (intros l F; induction F as [|z l K F IH]; [cbn; lia|]; change (zsum (z :: l)) with (z + zsum l); lia).
  assert (0 <= distance (e_sub e)). { unfold distance. apply Z1, Forall_fmap, Forall_true. intros [u v]. cbn. lia. }
  pose proof (P (zlen (e_add e)) ltac:(unfold zlen; lia)). pose proof (D (distance (e_sub e)) sp ltac:(lia) Hs). pose proof (D (spanned (e_transp e)) n_t ltac:(lia) Hn). lra.
Qed.

Theorem B_alike E f f' n_t sa sb sa' sb' : env_ok E -> 0 < n_t -> used_alike x y x' y' -> (exists d, used x y d) ->
  to_bstrings f sa sb = Ok (x, y) -> to_bstrings f' sa' sb' = Ok (x', y') -> (nmatches x y <= nmatches x' y')%nat ->
  exists v v', B_is E f n_t sa sb v /\ B_is E f' n_t sa' sb' v' /\ (v <= v')%Q /\ ((nmatches x y < nmatches x' y')%nat -> (v < 1)%Q -> (v < v')%Q).
Proof.
  intros HE Hn U N B B' M. destruct (extent_exists x y N) as (lo & hi & X). assert (X' : extent x' y' lo hi).
  { destruct X as (X1 & X2 & X3). split; [apply U, X1|]. split; [apply U, X2|]. intros d K. apply X3, U, K. }
  assert (N' : exists d, used x' y' d) by (exists lo; apply X').
  pose proof (to_bstrings_length _ _ _ _ _ B) as L. pose proof (to_bstrings_length _ _ _ _ _ B') as L'.
  destruct (bed_returns E x y n_t HE ltac:(lia)) as [e He]. pose proof He as He'. rewrite bed_alike in He'.
  destruct (values E f n_t sa sb x y HE ltac:(lia) B lo hi e X He) as [V _]. destruct (values E f' n_t sa' sb' x' y' HE ltac:(lia) B' lo hi e X' He') as [V' _].
  eexists _, _. split; [exact V|]. split; [exact V'|]. clear V V'.
  pose proof (denominator_pos E x y n_t e HE L He N) as D. pose proof (denominator_pos E x' y' n_t e HE L' He' N') as D'.
  assert (R : lo <= hi) by (destruct X as (X1 & _ & X3); specialize (X3 lo X1); lia).
  pose proof (tdist_bounds E x y n_t e HE L He) as T.
  pose proof (cost_nonneg e (hi - lo + 1) n_t ltac:(unfold zlen in T; lia) ltac:(lia) Hn) as C. set (c := edit_cost e (hi - lo + 1) n_t) in *. clearbody c.
  set (d := edit_count e + Z.of_nat (nmatches x y)) in *. set (d' := edit_count e + Z.of_nat (nmatches x' y')) in *.
  assert (DD : d <= d') by lia. assert (0 < inject_Z d)%Q as Q1 by (change 0%Q with (inject_Z 0); rewrite <- Zlt_Qlt; exact D).
  assert (0 < inject_Z d')%Q as Q2 by (change 0%Q with (inject_Z 0); rewrite <- Zlt_Qlt; exact D').
  assert (inject_Z d <= inject_Z d')%Q as Q3 by (rewrite <- Zle_Qle; exact DD).
  assert (K : (c / inject_Z d' <= c / inject_Z d)%Q).
  { apply Qle_shift_div_l; [exact Q1|]. setoid_replace (c / inject_Z d' * inject_Z d)%Q with ((c * inject_Z d) / inject_Z d')%Q by (field; lra).
    apply Qle_shift_div_r; [exact Q2|]. rewrite !(Qmult_comm c); apply Qmult_le_compat_r; assumption. }
  split; [lra|]. intros M1 V1. assert (C1 : (0 < c)%Q).
  { destruct (Qlt_le_dec 0 c) as [K1|K1]; [exact K1|]. exfalso. assert (c == 0)%Q as C0 by lra. rewrite C0 in V1. unfold Qdiv in V1. rewrite Qmult_0_l in V1. lra. }
  assert (inject_Z d < inject_Z d')%Q as Q4 by (rewrite <- Zlt_Qlt; lia).
  assert (K2 : (c / inject_Z d' < c / inject_Z d)%Q); [|lra].
  apply Qlt_shift_div_l; [exact Q1|]. setoid_replace (c / inject_Z d' * inject_Z d)%Q with ((c * inject_Z d) / inject_Z d')%Q by (field; lra).
  apply Qlt_shift_div_r; [exact Q2|]. rewrite !(Qmult_comm c). apply Qmult_lt_compat_r; assumption.
Qed.
End Alike.
