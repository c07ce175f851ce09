(** Minimality of the edits for one boundary type and adjacent transpositions. *)
From Verif Require Import Spec FormatProofs Bed BedProofs BedSubs BedMain BedTheory.
Open Scope Z_scope.

Section Min.
Context (E : env) (a b : bstring) (c : Z).
Context (HE : env_ok E) (H1 : one_type a b c) (Hc : -5 <= c <= 256) (Hl : length a = length b).

Lemma one_small : small_types a b.
Proof. intros s d Hs Hd. rewrite (H1 s d Hs Hd). exact Hc. Qed.

Lemma at_one i d : d ∈ at_ a i \/ d ∈ at_ b i -> d = c.
Proof.
  unfold at_. intros [H|H].
  - destruct (a !! i) as [t|] eqn:Ea; cbn in H; [|set_solver]. eapply H1; [left; eapply elem_of_list_lookup_2, Ea|exact H].
  - destruct (b !! i) as [t|] eqn:Eb; cbn in H; [|set_solver]. eapply H1; [right; eapply elem_of_list_lookup_2, Eb|exact H].
Qed.

Lemma cand_one i j d : d ∈ cand a b i j -> d = c.
Proof. intros H. apply elem_of_candidates in H. apply (at_one i). tauto. Qed.

Lemma one_no_sub Y i : ~ sub_pos a b Y i.
Proof.
  intros [H2 H3]. unfold RA, RB, OA, OB in *. apply set_choose_L in H2 as [x Hx]. apply set_choose_L in H3 as [y Hy].
  assert (x = c) by (apply (at_one i); set_solver). assert (y = c) by (apply (at_one i); set_solver). set_solver.
Qed.

Lemma one_subs_nil out i : subs_at a b out i = [].
Proof.
  unfold subs_at. destruct (best_is_pairing (RA a b (X out) i) (RB a b (X out) i)) as (_ & _ & _ & H).
  apply nil_length_inv. rewrite H. destruct (decide (RA a b (X out) i = ∅)) as [->|C].
  - rewrite size_empty. lia.
  - destruct (decide (RB a b (X out) i = ∅)) as [->|C2]; [rewrite size_empty; lia|].
    exfalso. apply (one_no_sub (X out) i). split; assumption.
Qed.

Definition gpre (k : nat) : list transposition := foldl (block E a b (fun i => i + (2 - 1))%nat) [] (seq 0 k).

Lemma ts2 : ts E a b 2 = gpre (length a - 1).
Proof. reflexivity. Qed.

Lemma gpre_S k : gpre (S k) = gpre k ++
  (Transp k (k + 1) <$> filter (fresh (gpre k) k (k + 1)) (ord E k (k + 1) (cand a b k (k + 1)))).
Proof.
  unfold gpre. rewrite seq_S, foldl_app. cbn [foldl Nat.add]. unfold block at 1.
  change (2 - 1)%nat with 1%nat. rewrite fold_block.
  - rewrite decide_False; [reflexivity|]. intros [H _]. exact (one_no_sub _ _ H).
  - exact HE.
  - lia.
  - apply NoDup_ord, HE.
  - intros d Hd. apply elem_of_ord in Hd; [|exact HE]. apply cand_one in Hd. subst d. exact Hc.
Qed.

Lemma gpre_shape k t : t ∈ gpre k -> (t_start t < k)%nat /\ t_end t = (t_start t + 1)%nat /\ t_type t = c.
Proof.
  revert t. induction k as [|k IH]; intros t Ht; [inversion Ht|].
  rewrite gpre_S in Ht. apply elem_of_app in Ht as [Ht|Ht].
  - apply IH in Ht. lia.
  - apply elem_of_list_fmap in Ht as (d & -> & Hd). apply elem_of_list_filter in Hd as [_ Hd].
    apply elem_of_ord in Hd; [|exact HE]. apply cand_one in Hd. cbn. split; [lia|]. split; [reflexivity|exact Hd].
Qed.

Lemma gpre_maximal k i : (i < k)%nat -> c ∈ cand a b i (i + 1) ->
  Transp i (i + 1) c ∈ gpre k \/ (1 <= i)%nat /\ Transp (i - 1) i c ∈ gpre k.
Proof.
  induction k as [|k IH]; intros Hi Hcand; [lia|]. rewrite gpre_S. setoid_rewrite elem_of_app.
  destruct (decide (i = k)) as [->|Hne].
  - destruct (decide (fresh (gpre k) k (k + 1) c)) as [F|F].
    + left. right. apply elem_of_list_fmap. exists c. split; [reflexivity|]. apply elem_of_list_filter.
      split; [exact F|]. apply elem_of_ord; assumption.
    + right. assert (HX : c ∈ X (gpre k) k \/ c ∈ X (gpre k) (k + 1)).
      { unfold fresh in F. destruct (decide (c ∈ X (gpre k) k)); [auto|]. destruct (decide (c ∈ X (gpre k) (k + 1))); tauto. }
      rewrite !elem_of_X in HX.
      destruct HX as [(t & Ht & Hcov & _)|(t & Ht & Hcov & _)];
        pose proof (gpre_shape _ _ Ht) as (S1 & S2 & S3); unfold covers_pos in Hcov.
      * assert (t_end t = k) by lia. split; [lia|]. left.
        replace (Transp (k - 1) k c) with t; [exact Ht|]. destruct t as [s e ty]. cbn in *. subst. f_equal. lia.
      * lia.
  - destruct (IH ltac:(lia) Hcand) as [IH1|[IH1 IH2]]; auto.
Qed.

(** The swaps found are at least as many as in any script. *)
Lemma swaps_max T G : edit_script a b c 2 T G -> (length T <= length (ts E a b 2))%nat.
Proof.
  intros [HS HD _]. rewrite ts2. set (out := gpre (length a - 1)).
  assert (HT : forall i j, (i, j) ∈ T -> j = (i + 1)%nat /\ (i < length a - 1)%nat /\ c ∈ cand a b i (i + 1)).
  { intros i j Hij. destruct (HS i j Hij) as (S1 & S2 & S3). assert (j = (i + 1)%nat) as -> by lia.
    split; [reflexivity|]. split; [lia|]. apply cand_swaps, S3. }
  set (phi := fun i : nat => if decide (Transp i (i + 1) c ∈ out) then i else (i - 1)%nat).
  assert (Hin : forall i, i ∈ T.*1 -> phi i ∈ (t_start <$> out) /\
             (phi i = i \/ (1 <= i)%nat /\ phi i = (i - 1)%nat)).
  { intros i Hi. apply elem_of_list_fmap in Hi as ([i' j] & -> & Hij). cbn [fst].
    destruct (HT _ _ Hij) as (-> & Hlt & Hcd). unfold phi.
    destruct (gpre_maximal _ _ Hlt Hcd) as [K|[K1 K2]]; [change (Transp i' (i' + 1) c ∈ out) in K|change (Transp (i' - 1) i' c ∈ out) in K2].
    - rewrite decide_True by exact K. split; [|auto]. apply elem_of_list_fmap. exists (Transp i' (i' + 1) c). auto.
    - destruct (decide (Transp i' (i' + 1) c ∈ out)) as [K|K].
      + split; [|auto]. apply elem_of_list_fmap. exists (Transp i' (i' + 1) c). auto.
      + split; [|auto]. apply elem_of_list_fmap. exists (Transp (i' - 1) i' c). auto. }
  apply NoDup_app in HD as (HD1 & HD2 & _).
  assert (Hinj : forall i j, i ∈ T.*1 -> j ∈ T.*1 -> phi i = phi j -> (i < j)%nat -> False).
  { intros i j Hi Hj Hphi Hlt. destruct (Hin i Hi) as [_ Pi]. destruct (Hin j Hj) as [_ Pj].
    assert (j = (i + 1)%nat) as -> by lia.
    apply (HD2 (i + 1)%nat Hj). apply elem_of_list_fmap in Hi as ([i' k] & -> & Hik).
    destruct (HT _ _ Hik) as (-> & _ & _). apply elem_of_list_fmap. exists (i', (i' + 1)%nat). auto. }
  assert (HN : NoDup (phi <$> T.*1)).
  { revert HD1 Hinj. generalize (T.*1). clear. induction l as [|x l IH]; intros HD1 Hinj; [constructor|].
    apply NoDup_cons in HD1 as [Hx HD1]. cbn. apply NoDup_cons. split.
    - intros Hp. apply elem_of_list_fmap in Hp as (y & Hy & Hyl).
      destruct (decide (x < y)%nat); [eapply (Hinj x y); [left|right; assumption|assumption|assumption]|].
      destruct (decide (y < x)%nat); [eapply (Hinj y x); [right; assumption|left|congruence|assumption]|].
      assert (x = y) as -> by lia. contradiction.
    - apply IH; [assumption|]. intros i j Hi Hj. apply Hinj; right; assumption. }
  assert (HSub : phi <$> T.*1 ⊆+ t_start <$> out).
  { apply NoDup_submseteq; [exact HN|]. intros x Hx. apply elem_of_list_fmap in Hx as (i & -> & Hi). apply Hin, Hi. }
  apply submseteq_length in HSub. rewrite !fmap_length in HSub. exact HSub.
Qed.

(** The differing gaps. *)
Definition dgaps : list nat := filter (fun i => at_ a i <> at_ b i) (seq 0 (length a)).

Lemma gap_size i : (size (at_ a i ∖ at_ b i) + size (at_ b i ∖ at_ a i) = if decide (at_ a i <> at_ b i) then 1 else 0)%nat.
Proof.
  assert (HS : forall s : tyset, (forall d, d ∈ s -> d = c) -> s = ∅ \/ s = {[c]}).
  { intros s Hs. destruct (decide (c ∈ s)) as [C|C].
    - right. apply set_eq. intros d. rewrite elem_of_singleton. split; [apply Hs|intros ->; exact C].
    - left. apply set_eq. intros d. split; [|set_solver]. intros Hd. rewrite (Hs d Hd) in Hd. contradiction. }
  destruct (HS (at_ a i)) as [Ea|Ea]; [intros d Hd; apply (at_one i); auto| |];
  destruct (HS (at_ b i)) as [Eb|Eb]; try (intros d Hd; apply (at_one i); auto); rewrite Ea, Eb.
  - rewrite decide_False by (intros K; apply K; reflexivity). rewrite difference_diag_L, size_empty. reflexivity.
  - rewrite decide_True by set_solver.
    rewrite difference_empty_L, size_singleton. replace (∅ ∖ {[c]} : tyset) with (∅ : tyset) by (apply set_eq; set_solver).
    rewrite size_empty. reflexivity.
  - rewrite decide_True by set_solver.
    rewrite difference_empty_L, size_singleton. replace (∅ ∖ {[c]} : tyset) with (∅ : tyset) by (apply set_eq; set_solver).
    rewrite size_empty. reflexivity.
  - rewrite decide_False by (intros K; apply K; reflexivity). rewrite difference_diag_L, size_empty. reflexivity.
Qed.

Lemma dgaps_length : length dgaps = ndiffs a b.
Proof.
  rewrite ndiffs_sum by exact Hl. unfold dgaps, sumn. generalize (seq 0 (length a)). induction l as [|i l IH]; [reflexivity|].
  rewrite filter_cons, fmap_cons. cbn [sum_list sum_list_with].
  pose proof (gap_size i) as G. unfold id at 1. rewrite <- IH, G.
  destruct (decide (at_ a i <> at_ b i)); reflexivity.
Qed.

Lemma script_bound T G : edit_script a b c 2 T G -> (ndiffs a b <= length G + 2 * length T)%nat.
Proof.
  intros [HS HD HC]. rewrite <- dgaps_length.
  assert (HSub : dgaps ⊆+ G ++ T.*1 ++ T.*2).
  { apply NoDup_submseteq.
    - unfold dgaps. apply NoDup_filter, NoDup_seq.
    - intros i Hi. unfold dgaps in Hi. apply elem_of_list_filter in Hi as [Hi Hin]. apply elem_of_seq in Hin.
      rewrite !elem_of_app. apply HC; [lia|]. intros K. apply Hi. unfold at_. rewrite K. reflexivity. }
  apply submseteq_length in HSub. rewrite !app_length, !fmap_length in HSub. lia.
Qed.

Lemma cost2 (T : list (nat * nat)) : (forall i j, (i, j) ∈ T -> j = (i + 1)%nat) ->
  zsum ((fun p => Z.of_nat (snd p) - Z.of_nat (fst p)) <$> T) = zlen T.
Proof.
  unfold zlen. induction T as [|[i j] T IH]; intros H; [reflexivity|]. rewrite fmap_cons, zsum_cons, IH.
  - cbn [fst snd length]. rewrite (H i j) by left. lia.
  - intros i' j' H'. apply H. right. exact H'.
Qed.

Lemma one_subs e : boundary_edit_distance E a b 2 = Ok e -> e_sub e = [].
Proof.
  intros Hb. rewrite bed_ok in Hb by (assumption || lia). injection Hb as <-. cbn [e_sub].
  apply nil_length_inv. rewrite length_join. apply sumn_zero_iff. intros i _. rewrite one_subs_nil. reflexivity.
Qed.

Theorem bed_minimal e T G : boundary_edit_distance E a b 2 = Ok e -> edit_script a b c 2 T G ->
  (length (e_add e) + length (e_sub e) + length (e_transp e) <= length G + length T)%nat /\
  2 * zlen (e_add e) + 2 * zlen (e_sub e) + zlen (e_transp e) <= script_cost 2 T G.
Proof.
  intros Hb HS. pose proof (one_subs e Hb) as Hsub.
  pose proof (bed_total E a b 2 e HE one_small Hl Hb) as HT.
  pose proof (swaps_max T G HS) as HM. pose proof (script_bound T G HS) as HB.
  assert (Et : e_transp e = ts E a b 2).
  { rewrite bed_ok in Hb by (assumption || lia). injection Hb as <-. reflexivity. }
  rewrite <- Et in HM. rewrite Hsub in *. cbn [length] in *.
  split; [lia|]. unfold script_cost. rewrite cost2; [unfold zlen; cbn [length]; lia|].
  intros i j Hij. destruct (script_swap _ _ _ _ _ _ HS i j Hij) as (S1 & S2 & _). lia.
Qed.

(** The reported edits are such a script. *)
Theorem bed_is_script e : boundary_edit_distance E a b 2 = Ok e ->
  exists G, edit_script a b c 2 ((fun t => (t_start t, t_end t)) <$> e_transp e) G /\ length G = length (e_add e).
Proof.
  intros Hb. pose proof (one_subs e Hb) as Hsub.
  pose proof (bed_total E a b 2 e HE one_small Hl Hb) as HT. rewrite Hsub in HT. cbn [length] in HT.
  destruct (bed_transpositions E a b 2 e HE one_small Hl Hb) as [HV HO].
  assert (Et : e_transp e = ts E a b 2).
  { rewrite bed_ok in Hb by (assumption || lia). injection Hb as <-. reflexivity. }
  assert (Hty : forall t, t ∈ e_transp e -> t_type t = c).
  { intros t Ht. rewrite Et, ts2 in Ht. apply gpre_shape in Ht. tauto. }
  set (out := e_transp e) in *.
  set (L := (t_start <$> out) ++ (t_end <$> out)).
  assert (F1 : ((fun t => (t_start t, t_end t)) <$> out).*1 = t_start <$> out) by (rewrite <- list_fmap_compose; reflexivity).
  assert (F2 : ((fun t => (t_start t, t_end t)) <$> out).*2 = t_end <$> out) by (rewrite <- list_fmap_compose; reflexivity).
  assert (HL : NoDup L).
  { apply NoDup_app. split; [|split].
    - apply NoDup_alt. intros k1 k2 x K1 K2. rewrite list_lookup_fmap in K1, K2.
      destruct (out !! k1) as [t|] eqn:O1; [|discriminate]. destruct (out !! k2) as [u|] eqn:O2; [|discriminate].
      cbn in K1, K2. injection K1 as <-. injection K2 as K2.
      destruct (decide (k1 = k2)) as [|Hk]; [assumption|]. exfalso.
      destruct (HO k1 k2 t u O1 O2 Hk) as (N & _); [|congruence].
      rewrite !Hty; [reflexivity| |]; eapply elem_of_list_lookup_2; eassumption.
    - intros x K1 K2. apply elem_of_list_fmap in K1 as (t & -> & Ht). apply elem_of_list_fmap in K2 as (u & Hx & Hu).
      apply elem_of_list_lookup in Ht as [k1 O1]. apply elem_of_list_lookup in Hu as [k2 O2].
      destruct (decide (k1 = k2)) as [->|Hk].
      + assert (t = u) as -> by congruence. apply elem_of_list_lookup_2 in O2. apply HV in O2. lia.
      + destruct (HO k1 k2 t u O1 O2 Hk) as (_ & N & _); [|congruence].
        rewrite !Hty; [reflexivity| |]; eapply elem_of_list_lookup_2; eassumption.
    - apply NoDup_alt. intros k1 k2 x K1 K2. rewrite list_lookup_fmap in K1, K2.
      destruct (out !! k1) as [t|] eqn:O1; [|discriminate]. destruct (out !! k2) as [u|] eqn:O2; [|discriminate].
      cbn in K1, K2. injection K1 as <-. injection K2 as K2.
      destruct (decide (k1 = k2)) as [|Hk]; [assumption|]. exfalso.
      destruct (HO k1 k2 t u O1 O2 Hk) as (_ & _ & _ & N); [|congruence].
      rewrite !Hty; [reflexivity| |]; eapply elem_of_list_lookup_2; eassumption. }
  assert (HLD : forall i, i ∈ L -> i ∈ dgaps).
  { intros i Hi. unfold L in Hi. apply elem_of_app in Hi. unfold dgaps. apply elem_of_list_filter.
    assert (exists t, t ∈ out /\ (i = t_start t \/ i = t_end t)) as (t & Ht & Hit).
    { destruct Hi as [Hi|Hi]; apply elem_of_list_fmap in Hi as (t & -> & Ht); eauto. }
    destruct (HV t Ht) as (V1 & V2 & V3). apply cand_swaps, elem_of_candidates in V3.
    split; [|apply elem_of_seq; lia]. intros K. destruct Hit as [->| ->]; rewrite K in V3; tauto. }
  exists (filter (fun i => i ∉ L) dgaps).
  assert (HP : dgaps ≡ₚ L ++ filter (fun i => i ∉ L) dgaps).
  { apply NoDup_Permutation.
    - unfold dgaps. apply NoDup_filter, NoDup_seq.
    - apply NoDup_app. split; [exact HL|]. split; [|unfold dgaps; apply NoDup_filter, NoDup_filter, NoDup_seq].
      intros x Hx Hx2. apply elem_of_list_filter in Hx2. tauto.
    - intros x. rewrite elem_of_app, elem_of_list_filter. destruct (decide (x ∈ L)) as [C|C].
      + split; [auto|]. intros _. apply HLD, C.
      + tauto. }
  split.
  - constructor.
    + intros i j Hij. apply elem_of_list_fmap in Hij as (t & Ht & Hin). injection Ht as -> ->.
      destruct (HV t Hin) as (V1 & V2 & V3). rewrite (Hty t Hin) in V3. auto.
    + rewrite F1, F2. exact HL.
    + intros i Hi Hne. rewrite F1, F2, <- elem_of_app. fold L.
      destruct (decide (i ∈ L)) as [C|C]; [auto|]. left. apply elem_of_list_filter. split; [exact C|].
      unfold dgaps. apply elem_of_list_filter. split; [|apply elem_of_seq; lia].
      unfold at_. destruct (lookup_lt_is_Some_2 a i Hi) as [x Hx]. destruct (lookup_lt_is_Some_2 b i ltac:(lia)) as [y Hy].
      rewrite Hx, Hy in *. cbn. congruence.
  - apply Permutation_length in HP. rewrite dgaps_length, app_length in HP. unfold L in HP at 1.
    rewrite app_length, !fmap_length in HP. lia.
Qed.
End Min.
