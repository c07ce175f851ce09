(** Boundary edit distance of strings that are embedded in larger ones or whose
    types are renamed. *)
From Verif Require Import Spec FormatProofs Bed BedProofs BedSubs BedMain BedTheory.
Open Scope Z_scope.

Section Embed.
Context (f : Z -> Z) (Hf : forall d d', f d = f d' -> d = d') (k : nat).

Definition fmap_types (s : tyset) : tyset := set_map f s.

Lemma elem_of_types d s : d ∈ fmap_types s <-> exists d', d = f d' /\ d' ∈ s.
Proof. unfold fmap_types. apply elem_of_map. Qed.

Lemma elem_of_types_f d s : f d ∈ fmap_types s <-> d ∈ s.
Proof.
  rewrite elem_of_types. split; [intros (d' & H & Hd); apply Hf in H as ->; exact Hd|]. intros H. eauto.
Qed.

Lemma types_empty s : fmap_types s = ∅ <-> s = ∅.
Proof.
  split; intros H.
  - apply set_eq. intros d. rewrite <- elem_of_types_f, H. set_solver.
  - subst s. apply set_eq. intros d. rewrite elem_of_types. set_solver.
Qed.

Lemma types_difference s t : fmap_types (s ∖ t) = fmap_types s ∖ fmap_types t.
Proof.
  apply set_eq. intros d. rewrite elem_of_difference, !elem_of_types. split.
  - intros (d' & -> & H). apply elem_of_difference in H as [H1 H2]. split; [eauto|].
    intros (d'' & H & Hd). apply Hf in H as ->. contradiction.
  - intros ((d' & -> & H) & N). exists d'. split; [reflexivity|]. apply elem_of_difference. split; [exact H|].
    intros Hd. apply N. eauto.
Qed.

Lemma elements_types s : elements (fmap_types s) ≡ₚ f <$> elements s.
Proof.
  apply NoDup_Permutation; [apply NoDup_elements| |].
  - apply NoDup_fmap_2_strong; [|apply NoDup_elements]. intros x y _ _. apply Hf.
  - intros d. rewrite elem_of_elements, elem_of_types, elem_of_list_fmap. setoid_rewrite elem_of_elements. reflexivity.
Qed.

Lemma size_types s : size (fmap_types s) = size s.
Proof. unfold size, set_size. cbn. rewrite elements_types, fmap_length. reflexivity. Qed.

(** [a] sits in [a'] at [k], with renamed types; [a'], [b'] agree elsewhere. *)
Record embedded (a b a' b' : bstring) : Prop := Embedded {
  em_len : (k + length a <= length a')%nat;
  em_a : forall i, (i < length a)%nat -> at_ a' (k + i) = fmap_types (at_ a i);
  em_b : forall i, (i < length a)%nat -> at_ b' (k + i) = fmap_types (at_ b i);
  em_out : forall i, (i < k \/ k + length a <= i)%nat -> at_ a' i = at_ b' i
}.

Definition moved_to (t : transposition) : transposition :=
  Transp (k + t_start t) (k + t_end t) (f (t_type t)).

Context (a b a' b' : bstring) (H : embedded a b a' b').

Lemma X_moved out i : X (moved_to <$> out) (k + i) = fmap_types (X out i).
Proof.
  apply set_eq. intros d. rewrite elem_of_X, elem_of_types. setoid_rewrite elem_of_X. split.
  - intros (t & Ht & C & <-). apply elem_of_list_fmap in Ht as (u & -> & Hu). exists (t_type u).
    split; [reflexivity|]. exists u. split; [exact Hu|]. split; [|reflexivity].
    unfold covers_pos in *. cbn in C. lia.
  - intros (d' & -> & u & Hu & C & <-). exists (moved_to u). split; [apply elem_of_list_fmap; eauto|].
    split; [|reflexivity]. unfold covers_pos in *. cbn. lia.
Qed.

Lemma R_embedded out i : (i < length a)%nat ->
  RA a' b' (X (moved_to <$> out)) (k + i) = fmap_types (RA a b (X out) i) /\
  RB a' b' (X (moved_to <$> out)) (k + i) = fmap_types (RB a b (X out) i).
Proof.
  intros Hi. unfold RA, RB, OA, OB. rewrite X_moved, (em_a _ _ _ _ H), (em_b _ _ _ _ H) by exact Hi.
  rewrite !types_difference. auto.
Qed.

Lemma R_outside Y i : (i < k \/ k + length a <= i)%nat -> RA a' b' Y i = ∅ /\ RB a' b' Y i = ∅.
Proof. intros Hi. unfold RA, RB, OA, OB. rewrite (em_out _ _ _ _ H i Hi). split; set_solver. Qed.

Lemma sub_embedded out i : (i < length a)%nat ->
  sub_pos a' b' (X (moved_to <$> out)) (k + i) <-> sub_pos a b (X out) i.
Proof.
  intros Hi. unfold sub_pos. destruct (R_embedded out i Hi) as [-> ->]. rewrite !types_empty. reflexivity.
Qed.

Lemma cand_embedded i j : (i < length a)%nat -> (j < length a)%nat ->
  cand a' b' (k + i) (k + j) = fmap_types (cand a b i j).
Proof.
  intros Hi Hj. apply set_eq. intros d. unfold cand. rewrite elem_of_candidates, elem_of_types.
  rewrite !(em_a _ _ _ _ H), !(em_b _ _ _ _ H) by assumption. split.
  - intros C. assert (exists d', d = f d') as [d' ->].
    { destruct C as [(C & _)|(_ & C & _)]; apply elem_of_types in C as (d' & -> & _); eauto. }
    exists d'. split; [reflexivity|]. apply elem_of_candidates. rewrite !elem_of_types_f in C. exact C.
  - intros (d' & -> & C). apply elem_of_candidates in C. rewrite !elem_of_types_f. exact C.
Qed.

Lemma cand_outside i j : (i < k \/ k + length a <= i \/ j < k \/ k + length a <= j)%nat -> cand a' b' i j = ∅.
Proof.
  intros Hi. apply set_eq. intros d. unfold cand. rewrite elem_of_candidates. split; [|set_solver].
  assert (at_ a' i = at_ b' i \/ at_ a' j = at_ b' j) as [E|E].
  { destruct Hi as [Hi|[Hi|[Hi|Hi]]]; [left|left|right|right]; apply (em_out _ _ _ _ H); auto. }
  - rewrite E. intros [C|C]; tauto.
  - rewrite E. intros [C|C]; tauto.
Qed.

Context (E E' : env) (HE : env_ok E) (HE' : env_ok E') (Hs : small_types a b) (Hs' : small_types a' b').

Lemma block_outside j out i :
  (i < k \/ k + length a <= i \/ j i < k \/ k + length a <= j i)%nat -> block E' a' b' j out i = out.
Proof.
  intros Hi. unfold block. rewrite cand_outside by exact Hi.
  assert (ord E' i (j i) ∅ = []) as ->; [|reflexivity].
  apply Permutation_nil. rewrite (ord_perm E' HE'). rewrite elements_empty. reflexivity.
Qed.

Lemma block_embedded n out out' i : (0 < n)%nat -> (i + n < length a)%nat -> out' ≡ₚ moved_to <$> out ->
  block E' a' b' (fun i => i + n)%nat out' (k + i) ≡ₚ moved_to <$> block E a b (fun i => i + n)%nat out i.
Proof.
  intros Hn Hi Hp. unfold block.
  replace (k + i + n)%nat with (k + (i + n))%nat by lia.
  rewrite !fold_block; try assumption.
  - assert (HX : forall j, X out' (k + j) = fmap_types (X out j)).
    { intros j. rewrite <- X_moved. apply X_perm, Hp. }
    assert (HB : forall j, (j < length a)%nat -> sub_pos a' b' (X out') (k + j) <-> sub_pos a b (X out) j).
    { intros j Hj. rewrite <- sub_embedded by exact Hj. unfold sub_pos, RA, RB. rewrite HX, X_moved. reflexivity. }
    pose proof (HB i ltac:(lia)) as B1. pose proof (HB (i + n)%nat ltac:(lia)) as B2.
    destruct (decide (sub_pos a b (X out) i /\ sub_pos a b (X out) (i + n))) as [B|B].
    + rewrite decide_True by tauto. exact Hp.
    + rewrite decide_False by tauto. rewrite fmap_app. apply Permutation_app; [exact Hp|].
      rewrite (ord_perm E HE), (ord_perm E' HE'), cand_embedded by lia. rewrite elements_types.
      generalize (elements (cand a b i (i + n))). intros l.
      induction l as [|d l IH]; [constructor|]. rewrite fmap_cons, !filter_cons.
      assert (F : fresh out' (k + i) (k + (i + n)) (f d) <-> fresh out i (i + n) d).
      { unfold fresh. rewrite !HX, !elem_of_types_f. reflexivity. }
      destruct (decide (fresh out i (i + n) d)) as [C|C].
      * rewrite decide_True by tauto. rewrite !fmap_cons. apply perm_skip. exact IH.
      * rewrite decide_False by tauto. exact IH.
  - lia.
  - apply NoDup_ord, HE.
  - intros d Hd. apply elem_of_ord in Hd; [|exact HE]. first [exact (cand_small _ _ _ _ d Hs Hd)|exact (cand_small _ _ _ _ d Hs' Hd)].
  - lia.
  - apply NoDup_ord, HE'.
  - intros d Hd. apply elem_of_ord in Hd; [|exact HE']. first [exact (cand_small _ _ _ _ d Hs Hd)|exact (cand_small _ _ _ _ d Hs' Hd)].
Qed.

Lemma blocks_outside j l out : (forall i, i ∈ l -> (i < k \/ k + length a <= i \/ j i < k \/ k + length a <= j i)%nat) ->
  foldl (block E' a' b' j) out l = out.
Proof.
  revert out. induction l as [|i l IH]; intros out Hl; [reflexivity|]. cbn [foldl].
  rewrite block_outside by (apply Hl; left). apply IH. intros; apply Hl; right; assumption.
Qed.

Lemma span_embedded n out out' : (2 <= n)%nat -> out' ≡ₚ moved_to <$> out ->
  span E' a' b' out' n ≡ₚ moved_to <$> span E a b out n.
Proof.
  intros Hn Hp. unfold span. set (m := (n - 1)%nat). assert (0 < m)%nat as Hm by (unfold m; lia).
  pose proof (em_len _ _ _ _ H) as Hl. destruct (decide (m <= length a)%nat) as [C|C].
  - replace (length a' - m)%nat with (k + ((length a - m) + (length a' - k - length a)))%nat by lia.
    rewrite seq_app, seq_app, !foldl_app. rewrite (blocks_outside _ (seq 0 k)).
    2: { intros i Hi. apply elem_of_seq in Hi. lia. }
    rewrite (blocks_outside _ (seq _ (length a' - k - length a))).
    2: { intros i Hi. apply elem_of_seq in Hi. lia. }
    change (0 + k)%nat with k.
    assert (G : forall l out out', (forall i, i ∈ l -> (i + m < length a)%nat) -> out' ≡ₚ moved_to <$> out ->
      foldl (block E' a' b' (fun i => i + m)%nat) out' (Nat.add k <$> l) ≡ₚ
      moved_to <$> foldl (block E a b (fun i => i + m)%nat) out l).
    { clear out out' Hp. induction l as [|i l IH]; intros out out' Hi Hp; [exact Hp|]. cbn [fmap list_fmap foldl].
      apply IH; [intros; apply Hi; right; assumption|]. apply block_embedded; [exact Hm| |exact Hp]. apply Hi; left. }
    replace (seq k (length a - m)) with (Nat.add k <$> seq 0 (length a - m)).
    2: { rewrite fmap_add_seq. f_equal. lia. }
    apply G; [|exact Hp]. intros i Hi. apply elem_of_seq in Hi. lia.
  - replace (length a - m)%nat with 0%nat by lia. cbn [seq foldl].
    rewrite blocks_outside; [exact Hp|]. intros i Hi. lia.
Qed.

Lemma run_embedded ns : Forall (fun n => 2 <= n)%nat ns -> run E' a' b' ns ≡ₚ moved_to <$> run E a b ns.
Proof.
  intros Hns. unfold run.
  assert (G : forall out out', out' ≡ₚ moved_to <$> out ->
    foldl (span E' a' b') out' ns ≡ₚ moved_to <$> foldl (span E a b) out ns).
  2: { apply G. reflexivity. }
  induction ns as [|n ns IH]; intros out out' Hp; [exact Hp|]. apply Forall_cons in Hns as [Hn Hns].
  cbn [foldl]. apply IH; [assumption|]. apply span_embedded; assumption.
Qed.

(** What is collected gap by gap. *)
Lemma gaps_embedded {A} (g g' : nat -> list A) :
  (forall i, (i < length a)%nat -> g' (k + i)%nat = g i) ->
  (forall i, (i < k \/ k + length a <= i)%nat -> g' i = []) ->
  mjoin (g' <$> seq 0 (length a')) = mjoin (g <$> seq 0 (length a)).
Proof.
  intros H1 H2. pose proof (em_len _ _ _ _ H) as Hl.
  replace (length a') with (k + (length a + (length a' - k - length a)))%nat by lia.
  assert (Z : forall l, (forall i, i ∈ l -> g' i = []) -> mjoin (g' <$> l) = []).
  { induction l as [|i l IH]; intros Hi; [reflexivity|]. cbn. rewrite Hi by left. apply IH. intros; apply Hi; right; assumption. }
  rewrite seq_app, seq_app, !fmap_app, !join_app.
  rewrite (Z (seq 0 k)) by (intros i Hi; apply elem_of_seq in Hi; apply H2; lia).
  rewrite (Z (seq _ (length a' - k - length a))) by (intros i Hi; apply elem_of_seq in Hi; apply H2; lia).
  rewrite app_nil_r. change (0 + k)%nat with k. cbn [app]. f_equal.
  replace (seq k (length a)) with (Nat.add k <$> seq 0 (length a)) by (rewrite fmap_add_seq; f_equal; lia).
  rewrite <- list_fmap_compose. apply list_fmap_ext. intros j i Hj.
  apply elem_of_list_lookup_2, elem_of_seq in Hj. unfold compose. apply H1. lia.
Qed.

Lemma sums_embedded (g g' : nat -> nat) :
  (forall i, (i < length a)%nat -> g' (k + i)%nat = g i) ->
  (forall i, (i < k \/ k + length a <= i)%nat -> g' i = 0%nat) ->
  sumn g' (length a') = sumn g (length a).
Proof.
  intros H1 H2. pose proof (gaps_embedded (fun i => replicate (g i) ()) (fun i => replicate (g' i) ())) as K.
  apply (f_equal length) in K.
  - rewrite !length_join in K. unfold sumn in *. 
    erewrite list_fmap_ext in K; [|intros; cbn; apply replicate_length].
    rewrite K. f_equal. apply list_fmap_ext. intros. apply replicate_length.
  - intros i Hi. rewrite H1 by exact Hi. reflexivity.
  - intros i Hi. rewrite H2 by exact Hi. reflexivity.
Qed.

End Embed.
