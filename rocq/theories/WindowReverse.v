(** The window metrics of two segmentations read backwards. *)
From Verif Require Import SpecChange SpecWindow FormatProofs Round RoundProofs SimRound WindowProofs WindowMain WindowSym WindowSize.
Open Scope Z_scope.

Lemma filter_image {A B} (P : A -> Prop) (Q : B -> Prop) `{!forall x, Decision (P x), !forall x, Decision (Q x)}
  (g : A -> B) (l : list A) (l' : list B) : l' ≡ₚ g <$> l -> (forall x, x ∈ l -> Q (g x) <-> P x) ->
  length (filter Q l') = length (filter P l).
Proof.
  intros Hp HPQ. rewrite Hp. clear Hp. induction l as [|x l IH]; [reflexivity|].
  rewrite fmap_cons, !filter_cons. assert (IHl : length (filter Q (g <$> l)) = length (filter P l)).
  { apply IH. intros y Hy. apply HPQ. right. exact Hy. }
  pose proof (HPQ x (elem_of_list_here _ _)) as Hx.
  destruct (decide (P x)) as [D|D]; destruct (decide (Q (g x))) as [D'|D']; cbn [length]; try tauto; congruence.
Qed.

Lemma seq_mirror n : seq 0 n ≡ₚ (fun i => n - 1 - i)%nat <$> seq 0 n.
Proof.
  apply NoDup_Permutation.
  - apply NoDup_seq.
  - apply NoDup_fmap_2_strong; [|apply NoDup_seq]. intros i j Hi Hj. apply elem_of_seq in Hi, Hj. lia.
  - intros i. rewrite elem_of_list_fmap. setoid_rewrite elem_of_seq. split.
    + intros Hi. exists (n - 1 - i)%nat. lia.
    + intros (j & -> & Hj). lia.
Qed.

Lemma seq1_mirror n : seq 1 (n - 1) ≡ₚ (fun i => n - i)%nat <$> seq 1 (n - 1).
Proof.
  apply NoDup_Permutation.
  - apply NoDup_seq.
  - apply NoDup_fmap_2_strong; [|apply NoDup_seq]. intros i j Hi Hj. apply elem_of_seq in Hi, Hj. lia.
  - intros i. rewrite elem_of_list_fmap. setoid_rewrite elem_of_seq. split.
    + intros Hi. exists (n - i)%nat. lia.
    + intros (j & -> & Hj). lia.
Qed.

Lemma seqZ_mirror n : seqZ 0 n ≡ₚ (fun i => n - 1 - i) <$> seqZ 0 n.
Proof.
  apply NoDup_Permutation.
  - apply NoDup_seqZ.
  - apply NoDup_fmap_2_strong; [|apply NoDup_seqZ]. intros i j Hi Hj. lia.
  - intros i. rewrite elem_of_list_fmap. setoid_rewrite elem_of_seqZ. split.
    + intros Hi. exists (n - 1 - i). lia.
    + intros (j & -> & Hj). lia.
Qed.

Lemma zsum_perm (l l' : list Z) : l ≡ₚ l' -> zsum l = zsum l'.
Proof. induction 1; rewrite ?zsum_cons in *; try lia; reflexivity. Qed.

Lemma zsum_reverse l : zsum (reverse l) = zsum l.
Proof. apply zsum_perm, reverse_Permutation. Qed.

Lemma take_reverse_sum m k : (k <= length m)%nat -> zsum (take k (reverse m)) = zsum m - zsum (take (length m - k) m).
Proof.
  intros Hk. rewrite <- (take_drop (length m - k) m) at 1 2. rewrite reverse_app, zsum_app.
  rewrite take_app_alt by (rewrite reverse_length, drop_length; lia). rewrite zsum_reverse. lia.
Qed.

(** A boundary at distance [p] from the end. *)
Lemma ncuts_reverse m u v : ncuts (reverse m) u v = ncuts m (zsum m - v - 1) (zsum m - u - 1).
Proof.
  unfold ncuts, zlen. f_equal. rewrite reverse_length. symmetry. apply filter_image with (g := fun i => (length m - i)%nat).
  - apply seq1_mirror.
  - intros k Hk. apply elem_of_seq in Hk. rewrite take_reverse_sum by lia. lia.
Qed.

Lemma pk_errors_reverse h r k n : zsum h = n -> zsum r = n -> pk_errors (reverse h) (reverse r) k n = pk_errors h r k n.
Proof.
  intros Hh Hr. unfold pk_errors, zlen. f_equal. symmetry. apply filter_image with (g := fun i => n - k - 1 - i); [apply seqZ_mirror|].
  intros i _. rewrite !ncuts_reverse, Hh, Hr. replace (n - (i + k) - 1) with (n - k - 1 - i) by lia.
  replace (n - i - 1) with (n - k - 1 - i + k) by lia. reflexivity.
Qed.

Lemma wd_errors_reverse h r k n : zsum h = n -> zsum r = n -> wd_errors (reverse h) (reverse r) k n = wd_errors h r k n.
Proof.
  intros Hh Hr. unfold wd_errors, zlen. f_equal. symmetry. apply filter_image with (g := fun i => n - k - 1 - i); [apply seqZ_mirror|].
  intros i _. rewrite !ncuts_reverse, Hh, Hr. replace (n - (i + k) - 1) with (n - k - 1 - i) by lia.
  replace (n - i - 1) with (n - k - 1 - i + k) by lia. reflexivity.
Qed.

Lemma padded_reverse k m : padded k (reverse m) = reverse (padded k m).
Proof. unfold padded. rewrite reverse_cons, reverse_app. reflexivity. Qed.

Lemma positive_reverse m : Spec.positive m -> Spec.positive (reverse m).
Proof. unfold Spec.positive. rewrite reverse_Permutation. auto. Qed.

Lemma reverse_not_nil {A} (m : list A) : m <> [] -> reverse m <> [].
Proof. intros H E. apply H. rewrite <- (reverse_involutive m), E. reflexivity. Qed.

Section Reverse.
Context (A : arith) (rnd : Q -> Z) (f f' : fmt) (mh mr : list Z) (sh sr sh' sr' : seg).
Context (Hh : Spec.positive mh) (Hr : Spec.positive mr) (Nh : mh <> []) (Nr : mr <> []) (Hz : zsum mh = zsum mr).
Context (Eh : wencodes f mh sh) (Er : wencodes f mr sr) (Eh' : wencodes f' (reverse mh) sh') (Er' : wencodes f' (reverse mr) sr').

Theorem pk_reverse k om rp : 0 <= k < zsum mr ->
  pk A rnd f' (Some k) om rp sh' sr' = pk A rnd f (Some k) om rp sh sr.
Proof.
  intros Hk. rewrite (pk_masses A rnd f' (reverse mh) (reverse mr)), (pk_masses A rnd f mh mr);
    rewrite ?zsum_reverse; try assumption; try (apply positive_reverse; assumption); try (apply reverse_not_nil; assumption).
  rewrite pk_errors_reverse by (assumption || reflexivity). reflexivity.
Qed.

Theorem wd_reverse k om rp : sane A -> 0 <= k <= 255 -> k < zsum mr ->
  window_diff A rnd f' (Some k) false om rp sh' sr' = window_diff A rnd f (Some k) false om rp sh sr.
Proof.
  intros HA Hk Hk'. rewrite (wd_masses A rnd f' (reverse mh) (reverse mr)), (wd_masses A rnd f mh mr);
    rewrite ?zsum_reverse; try assumption; try (apply positive_reverse; assumption); try (apply reverse_not_nil; assumption).
  rewrite wd_errors_reverse by (assumption || reflexivity). reflexivity.
Qed.

Theorem lamprier_reverse k om rp : sane A -> 0 <= k <= 255 ->
  ends_not_zero f sh -> ends_not_zero f sr -> ends_not_zero f' sh' -> ends_not_zero f' sr' ->
  window_diff A rnd f' (Some k) true om rp sh' sr' = window_diff A rnd f (Some k) true om rp sh sr.
Proof.
  intros HA Hk Z1 Z2 Z3 Z4. rewrite (wd_lamprier A rnd f' (reverse mh) (reverse mr)), (wd_lamprier A rnd f mh mr);
    rewrite ?zsum_reverse; try assumption; try (apply positive_reverse; assumption); try (apply reverse_not_nil; assumption).
  cbn zeta. rewrite !padded_reverse, wd_errors_reverse by (rewrite padded_sum; lia). reflexivity.
Qed.

(** The window size computed from the reference is the same as well. *)
Theorem window_reverse eps M : prec A eps M -> zsum mr <= M -> forall r r',
  to_positions f sr = Ok r -> to_positions f' sr' = Ok r' ->
  effective_window A rnd None r' = effective_window A rnd None r.
Proof.
  intros HP HM r r' Tr Tr'.
  destruct (to_positions_ok f mr sr Hr Nr Er) as (q & C1 & C2). assert (q = r) as -> by congruence.
  destruct (to_positions_ok f' (reverse mr) sr' (positive_reverse _ Hr) (reverse_not_nil _ Nr) Er') as (q & C1' & C2'). assert (q = r') as -> by congruence.
  cbn [effective_window]. rewrite !(window_size_position A eps M rnd (reverse mr) (Ints r')), !(window_size_position A eps M rnd mr (Ints r));
    rewrite ?zsum_reverse; try assumption; try (apply positive_reverse; assumption); try (apply reverse_not_nil; assumption);
    try (apply canonical_encodes; [first [assumption|apply positive_reverse; assumption]|assumption]).
  unfold zlen. rewrite reverse_length. reflexivity.
Qed.
End Reverse.
