(** Lemmas on the window metrics. *)
From Coq Require Import Lqa.
From Verif Require Import SpecWindow FormatProofs Round RoundProofs SimRound SimMain.
Open Scope Z_scope.

(** ** Counting boundaries *)

Lemma prefix_lt m i j : Spec.positive m -> (i < j <= length m)%nat -> zsum (take i m) < zsum (take j m).
Proof.
  intros Hm [Hi Hj]. replace j with (i + (j - i))%nat by lia. rewrite <- (take_take_drop _ i), zsum_app.
  pose proof (positive_sum (take (j - i) (drop i m))) as H.
  assert (HL : (1 <= length (take (j - i) (drop i m)))%nat) by (rewrite take_length, drop_length; lia).
  unfold zlen in H. specialize (H ltac:(apply Forall_take, Forall_drop, Hm)). lia.
Qed.

Lemma filter_split {A} (P Q R : A -> Prop) `{!forall x, Decision (P x), !forall x, Decision (Q x), !forall x, Decision (R x)} (l : list A) :
  (forall x, x ∈ l -> (P x <-> Q x \/ R x) /\ ~ (Q x /\ R x)) ->
  length (filter P l) = (length (filter Q l) + length (filter R l))%nat.
Proof.
  induction l as [|x l IH]; intros K; [reflexivity|]. rewrite !filter_cons.
  specialize (IH ltac:(intros y Hy; apply K; right; exact Hy)). destruct (K x ltac:(left)) as [K1 K2].
  destruct (decide (P x)); destruct (decide (Q x)); destruct (decide (R x)); cbn [length]; tauto || lia.
Qed.

Lemma filter_one {A} (P : A -> Prop) `{!forall x, Decision (P x)} (l : list A) :
  NoDup l -> (forall x y, x ∈ l -> y ∈ l -> P x -> P y -> x = y) ->
  length (filter P l) = if decide (Exists P l) then 1%nat else 0%nat.
Proof.
  intros Hn Hu. destruct (decide (Exists P l)) as [C|C].
  - apply Exists_exists in C as (x & Hx & HP).
    assert (HF : x ∈ filter P l) by (apply elem_of_list_filter; auto).
    destruct (filter P l) as [|y [|z fl]] eqn:EF; [inversion HF|reflexivity|]. exfalso.
    assert (HN : NoDup (y :: z :: fl)) by (rewrite <- EF; apply NoDup_filter, Hn).
    assert (Hy : y ∈ filter P l) by (rewrite EF; left). assert (Hz : z ∈ filter P l) by (rewrite EF; right; left).
    apply elem_of_list_filter in Hy as [Hy1 Hy2]. apply elem_of_list_filter in Hz as [Hz1 Hz2].
    assert (y = z) as <- by (apply Hu; assumption). apply NoDup_cons in HN as [HN _]. apply HN. left.
  - destruct (filter P l) as [|y fl] eqn:EF; [reflexivity|]. exfalso. apply C, Exists_exists. exists y.
    assert (Hy : y ∈ filter P l) by (rewrite EF; left). apply elem_of_list_filter in Hy as [Hy1 Hy2]. auto.
Qed.

Lemma ncuts_step m u v : Spec.positive m -> u <= v -> ncuts m u (v + 1) = ncuts m u v + (if decide (cut m (v + 1)) then 1 else 0).
Proof.
  intros Hm Huv. unfold ncuts, zlen.
  rewrite (filter_split (fun k => u < zsum (take k m) <= v + 1) (fun k => u < zsum (take k m) <= v) (fun k => zsum (take k m) = v + 1)).
  2: { intros k Hk. lia. }
  rewrite (filter_one (fun k => zsum (take k m) = v + 1)).
  - rewrite Nat2Z.inj_add. f_equal. destruct (decide (Exists _ _)) as [C|C]; destruct (decide (cut m (v + 1))) as [D|D]; try reflexivity; exfalso.
    + apply D. apply Exists_exists in C as (k & Hk & E). apply elem_of_seq in Hk. exists k. split; [lia|exact E].
    + apply C. destruct D as (k & Hk & E). apply Exists_exists. exists k. split; [apply elem_of_seq; lia|exact E].
  - apply NoDup_seq.
  - intros i j Hi Hj Ei Ej. apply elem_of_seq in Hi. apply elem_of_seq in Hj.
    destruct (decide (i < j)%nat) as [C|C]; [pose proof (prefix_lt m i j Hm ltac:(lia)); lia|].
    destruct (decide (j < i)%nat) as [D|D]; [pose proof (prefix_lt m j i Hm ltac:(lia)); lia|]. lia.
Qed.

Lemma ncuts_none m u : ncuts m u u = 0.
Proof.
  unfold ncuts, zlen. rewrite (filter_split _ (fun _ => False) (fun _ => False)) by (intros; lia).
  induction (seq 1 (length m - 1)); [reflexivity|]. rewrite filter_cons, decide_False by tauto. assumption.
Qed.

Lemma ncuts_nonneg m u v : 0 <= ncuts m u v.
Proof. unfold ncuts, zlen. lia. Qed.

(** ** Labels *)

Lemma labels_ncuts k m i j x y : Spec.positive m -> labels_from k m !! i = Some x -> labels_from k m !! (i + j)%nat = Some y ->
  y = x + ncuts m (Z.of_nat i) (Z.of_nat (i + j)).
Proof.
  intros Hm Hx. revert y. induction j as [|j IH]; intros y Hy.
  - rewrite Nat.add_0_r in *. rewrite ncuts_none. assert (x = y) by congruence. lia.
  - destruct (labels_from k m !! (i + j)%nat) as [z|] eqn:Ez.
    2: { apply lookup_ge_None in Ez. apply lookup_lt_Some in Hy. lia. }
    specialize (IH z eq_refl). replace (i + S j)%nat with (S (i + j)) in * by lia.
    replace (Z.of_nat (S (i + j))) with (Z.of_nat (i + j) + 1) by lia. rewrite ncuts_step by (assumption || lia).
    replace (Z.of_nat (i + j) + 1) with (Z.of_nat (S (i + j))) by lia.
    destruct (labels_cut k m (i + j) z y Hm Ez Hy) as [[C ->]|[C ->]]; destruct (decide _); try contradiction; lia.
Qed.

Lemma canonical_masses m : Spec.positive m -> canonical m (convert_masses_to_positions m).
Proof.
  intros Hm. pose proof (positions_labels m) as HL. pose proof (positions_objects m) as HO. split.
  - pose proof (labels_length 0 m) as H. rewrite positive_max in H by assumption. rewrite <- HL in H.
    unfold zlen in *. rewrite fmap_length in H. exact H.
  - intros i j u v Hij Hu Hv.
    assert (E : pval v = pval u + ncuts m (Z.of_nat i) (Z.of_nat j)).
    { replace j with (i + (j - i))%nat by lia. apply (labels_ncuts 0 m i (j - i)); [assumption| |].
      - rewrite <- HL, list_lookup_fmap, Hu. reflexivity.
      - replace (i + (j - i))%nat with j by lia. rewrite <- HL, list_lookup_fmap, Hv. reflexivity. }
    split; [lia|]. intros Huv. right. rewrite Forall_lookup in HO. rewrite (HO _ _ Hu), (HO _ _ Hv). exact Huv.
Qed.

Lemma encodes_nltk m s : Spec.positive m -> m <> [] -> encodes FNltk m (Str s) -> convert_nltk_to_masses s sym1 = Ok m.
Proof.
  intros Hm Hne He. unfold sym1. rewrite nltk_convert. f_equal. apply bs_of_inj; try assumption; [apply nltk1_positive|apply nltk1_nonempty|].
  pose proof (to_bstring_encodes FNltk m (Str s) Hm Hne He) as H. cbn [to_bstring as_string bind] in H. unfold sym1 in H.
  rewrite nltk_convert in H. cbn [bind] in H. rewrite bstring_of_masses in H by apply nltk1_positive. injection H as H. exact H.
Qed.

Lemma to_positions_ok f m s : Spec.positive m -> m <> [] -> wencodes f m s ->
  exists p, to_positions f s = Ok p /\ canonical m p.
Proof.
  intros Hm Hne He. destruct f; try contradiction.
  - destruct s as [p|b|t]; try contradiction. exists p. split; [reflexivity|exact He].
  - destruct s as [p|b|t]; try contradiction. cbn in He. exists (convert_masses_to_positions m).
    split; [cbn; rewrite He; reflexivity|apply canonical_masses, Hm].
  - destruct s as [p|b|t]; try contradiction. exists (convert_masses_to_positions m).
    split; [cbn [to_positions as_string bind]; rewrite (encodes_nltk m t Hm Hne He); reflexivity|apply canonical_masses, Hm].
Qed.

Lemma canonical_is m p i j u v : canonical m p -> (i <= j)%nat -> p !! i = Some u -> p !! j = Some v ->
  py_is u v = bool_decide (ncuts m (Z.of_nat i) (Z.of_nat j) = 0).
Proof.
  intros [_ H] Hij Hu Hv. destruct (H i j u v Hij Hu Hv) as [H1 H2]. unfold py_is.
  destruct (Z.eqb_spec (pval u) (pval v)) as [C|C]; cbn [andb].
  - rewrite bool_decide_eq_true_2 by tauto. destruct (H2 C) as [->| ->]; [reflexivity|]. rewrite Z.eqb_refl. apply orb_true_r.
  - rewrite bool_decide_eq_false_2 by tauto. reflexivity.
Qed.

(** ** Windows *)

Lemma clamp_in n i : 0 <= i <= n -> clamp n i = i.
Proof. intros H. unfold clamp. destruct (Z.ltb_spec i 0); lia. Qed.

Lemma pyslice_in {A} (l : list A) i k : 0 <= i -> 0 <= k -> i + k < zlen l ->
  pyslice l i (i + k + 1) = take (S (Z.to_nat k)) (drop (Z.to_nat i) l).
Proof.
  intros Hi Hk Hl. unfold pyslice. fold (zlen l). rewrite !clamp_in by lia. f_equal. lia.
Qed.

Lemma window_lookup {A} (l : list A) i k j : (j <= k)%nat -> take (S k) (drop i l) !! j = l !! (i + j)%nat.
Proof. intros H. rewrite lookup_take by lia. apply lookup_drop. Qed.

Lemma window_length {A} (l : list A) i k : (i + k < length l)%nat -> length (take (S k) (drop i l)) = S k.
Proof. intros H. rewrite take_length, drop_length. lia. Qed.

(** [p] has the same label object at [i] and [j]. *)
Definition far (p : list pyint) (i j : nat) : bool :=
  match p !! i, p !! j with Some u, Some v => py_is u v | _, _ => false end.

Lemma ends_agree_in p i k : 0 <= i -> 0 <= k -> i + k < zlen p ->
  ends_agree (pyslice p i (i + k + 1)) = Ok (far p (Z.to_nat i) (Z.to_nat (i + k))).
Proof.
  intros Hi Hk Hl. rewrite pyslice_in by assumption.
  set (w := take (S (Z.to_nat k)) (drop (Z.to_nat i) p)).
  assert (HL : length w = S (Z.to_nat k)) by (apply window_length; unfold zlen in Hl; lia).
  unfold ends_agree, pyindex. rewrite HL. cbn [Z.ltb Z.compare].
  destruct (Z.ltb_spec (-1 + Z.of_nat (S (Z.to_nat k))) 0); [lia|].
  change (Z.to_nat 0) with 0%nat.
  replace (Z.to_nat (-1 + Z.of_nat (S (Z.to_nat k)))) with (Z.to_nat k) by lia. unfold w. rewrite !window_lookup by lia. unfold far.
  rewrite Nat.add_0_r. replace (Z.to_nat i + Z.to_nat k)%nat with (Z.to_nat (i + k)) by lia.
  destruct (lookup_lt_is_Some_2 p (Z.to_nat i) ltac:(unfold zlen in Hl; lia)) as [u ->].
  destruct (lookup_lt_is_Some_2 p (Z.to_nat (i + k)) ltac:(unfold zlen in Hl; lia)) as [v ->]. reflexivity.
Qed.

Lemma pyrange_0 n : pyrange 0 n = seqZ 0 n.
Proof. unfold pyrange, seqZ. rewrite Z.sub_0_r. apply list_fmap_ext. intros i x _. lia. Qed.

Lemma foldM_count {B} (step : Z * Z -> B -> res (Z * Z)) (P : B -> Prop) `{!forall x, Decision (P x)} l a b :
  (forall x s c, x ∈ l -> step (s, c) x = Ok (if decide (P x) then s + 1 else s, c + 1)) ->
  foldM step l (a, b) = Ok (a + zlen (filter P l), b + zlen l).
Proof.
  revert a b. induction l as [|x l IH]; intros a b K; [cbn; unfold zlen; cbn; do 2 f_equal; lia|].
  cbn [foldM]. rewrite K by left. cbn [bind]. rewrite IH by (intros; apply K; right; assumption).
  rewrite filter_cons. unfold zlen. destruct (decide (P x)); cbn [length]; do 2 f_equal; lia.
Qed.

Lemma seqZ_len n : zlen (seqZ 0 n) = Z.max 0 n.
Proof. unfold zlen. rewrite seqZ_length. lia. Qed.

(** Pk on label sequences. *)
Lemma pk_loop h r k : length h = length r -> 0 <= k ->
  foldM (pk_step h r k) (pyrange 0 (zlen r - k)) (0, 0) =
    Ok (zlen (filter (fun i => far h (Z.to_nat i) (Z.to_nat (i + k)) <> far r (Z.to_nat i) (Z.to_nat (i + k))) (seqZ 0 (zlen r - k))),
        Z.max 0 (zlen r - k)).
Proof.
  intros Hl Hk. rewrite pyrange_0.
  rewrite (foldM_count _ (fun i => far h (Z.to_nat i) (Z.to_nat (i + k)) <> far r (Z.to_nat i) (Z.to_nat (i + k)))).
  - rewrite seqZ_len. do 2 f_equal; lia.
  - intros i s c Hi. apply elem_of_seqZ in Hi. unfold pk_step.
    rewrite !ends_agree_in by (unfold zlen in *; lia). cbn [bind fst snd].
    destruct (decide _) as [C|C]; destruct (far r _ _), (far h _ _); cbn [xorb]; try reflexivity; exfalso; auto.
Qed.

(** The number of places in a window of [k + 1] labels where the label changes. *)
Definition nb (p : list pyint) (i k : nat) : Z := zlen (filter (fun t => far p t (S t) = false) (seq i k)).

Lemma nb_S p i k : nb p i (S k) = nb p i k + (if far p (i + k) (S (i + k)) then 0 else 1).
Proof.
  unfold nb. rewrite seq_S, filter_app. unfold zlen. rewrite app_length, filter_cons.
  destruct (far p (i + k) (S (i + k))); destruct (decide _); try congruence; cbn [length filter list_filter]; lia.
Qed.

Lemma wd_loop_inner (h r : list pyint) i k j : length h = length r -> (i + k < length r)%nat -> (j <= k)%nat ->
  foldM (wd_pair (take (S k) (drop i (zip r h)))) (pyrange 0 (Z.of_nat j)) (0, 0) = Ok (nb r i j, nb h i j).
Proof.
  intros Hl Hk. induction j as [|j IH]; intros Hj; [reflexivity|].
  assert (ER : pyrange 0 (Z.of_nat (S j)) = pyrange 0 (Z.of_nat j) ++ [Z.of_nat j]).
  { unfold pyrange. rewrite !Z.sub_0_r, !Nat2Z.id, seq_S, fmap_app. reflexivity. }
  rewrite ER. assert (HA : forall l s, foldM (wd_pair (take (S k) (drop i (zip r h)))) (l ++ [Z.of_nat j]) s =
    let* s' := foldM (wd_pair (take (S k) (drop i (zip r h)))) l s in wd_pair (take (S k) (drop i (zip r h))) s' (Z.of_nat j)).
  { intros l. induction l as [|x l IHl]; intros s; cbn [app foldM bind].
    - destruct (wd_pair _ s _); reflexivity.
    - destruct (wd_pair _ s x); cbn [bind]; [apply IHl|reflexivity]. }
  rewrite HA, IH by lia. cbn [bind]. unfold wd_pair. rewrite !nb_S. cbn [fst snd].
  set (w := take (S k) (drop i (zip r h))).
  assert (HL : length w = S k) by (apply window_length; rewrite zip_with_length; lia).
  replace (Z.of_nat j + 2) with (Z.of_nat j + 1 + 1) by lia. rewrite pyslice_in by (unfold zlen; lia).
  rewrite Nat2Z.id. change (S (Z.to_nat 1)) with 2%nat.
  destruct (lookup_lt_is_Some_2 r (i + j) ltac:(lia)) as [r0 Hr0]. destruct (lookup_lt_is_Some_2 h (i + j) ltac:(lia)) as [h0 Hh0].
  destruct (lookup_lt_is_Some_2 r (S (i + j)) ltac:(lia)) as [r1 Hr1]. destruct (lookup_lt_is_Some_2 h (S (i + j)) ltac:(lia)) as [h1 Hh1].
  assert (E0 : w !! j = Some (r0, h0)).
  { unfold w. rewrite window_lookup by lia. apply lookup_zip_with_Some. eauto 10. }
  assert (E1 : w !! S j = Some (r1, h1)).
  { unfold w. rewrite window_lookup by lia. replace (i + S j)%nat with (S (i + j)) by lia. apply lookup_zip_with_Some. eauto 10. }
  rewrite (drop_S w (r0, h0) j E0), (drop_S w (r1, h1) (S j) E1). cbn [take].
  unfold far. rewrite Hr0, Hr1, Hh0, Hh1. destruct (py_is r0 r1), (py_is h0 h1); do 2 f_equal; lia.
Qed.

Lemma nb_le p i k : 0 <= nb p i k <= Z.of_nat k.
Proof.
  unfold nb, zlen. pose proof (filter_length (fun t => far p t (S t) = false) (seq i k)) as H. rewrite seq_length in H. lia.
Qed.

Lemma foldM_sum {B} (step : Z -> B -> res Z) (P : B -> Prop) `{!forall x, Decision (P x)} l a :
  (forall x s, x ∈ l -> step s x = Ok (if decide (P x) then s + 1 else s)) ->
  foldM step l a = Ok (a + zlen (filter P l)).
Proof.
  revert a. induction l as [|x l IH]; intros a K; [cbn; unfold zlen; cbn; f_equal; lia|].
  cbn [foldM]. rewrite K by left. cbn [bind]. rewrite IH by (intros; apply K; right; assumption).
  rewrite filter_cons. unfold zlen. destruct (decide (P x)); cbn [length]; f_equal; lia.
Qed.

Lemma wd_loop h r k : length h = length r -> 0 <= k <= 255 ->
  foldM (wd_step (zip r h) k) (pyrange 0 (zlen (zip r h) - k)) 0 =
    Ok (zlen (filter (fun i => nb h (Z.to_nat i) (Z.to_nat k) <> nb r (Z.to_nat i) (Z.to_nat k)) (seqZ 0 (zlen r - k)))).
Proof.
  intros Hl Hk. rewrite pyrange_0. assert (EL : zlen (zip r h) = zlen r) by (unfold zlen; rewrite zip_with_length; lia).
  rewrite EL. rewrite (foldM_sum _ (fun i => nb h (Z.to_nat i) (Z.to_nat k) <> nb r (Z.to_nat i) (Z.to_nat k))); [f_equal; lia|].
  intros i s Hi. apply elem_of_seqZ in Hi. unfold wd_step. rewrite pyslice_in by lia.
  assert (HL : zlen (take (S (Z.to_nat k)) (drop (Z.to_nat i) (zip r h))) = k + 1).
  { unfold zlen. rewrite window_length; [lia|]. unfold zlen in EL, Hi. lia. }
  rewrite HL. unfold fresh_is at 1. rewrite Z.eqb_refl. unfold small.
  destruct (Z.leb_spec (-5) (k + 1)); [|lia]. destruct (Z.leb_spec (k + 1) 256); [|lia]. cbn [andb negb].
  replace (k + 1 - 1) with (Z.of_nat (Z.to_nat k)) at 1 by lia.
  rewrite wd_loop_inner by (unfold zlen in *; lia). cbn [bind].
  pose proof (nb_le r (Z.to_nat i) (Z.to_nat k)) as B1. pose proof (nb_le h (Z.to_nat i) (Z.to_nat k)) as B2.
  unfold fresh_is. destruct (Z.eqb_spec (nb r (Z.to_nat i) (Z.to_nat k)) (nb h (Z.to_nat i) (Z.to_nat k))) as [C|C]; cbn [andb].
  - unfold small. destruct (Z.leb_spec (-5) (nb r (Z.to_nat i) (Z.to_nat k))); [|lia].
    destruct (Z.leb_spec (nb r (Z.to_nat i) (Z.to_nat k)) 256); [|lia]. cbn [andb]. destruct (decide _); congruence.
  - destruct (decide _) as [D|D]; [reflexivity|]. exfalso. apply D. congruence.
Qed.

(** ** Label sequences of segmentations *)

Lemma far_canonical m p i j : canonical m p -> (i <= j < length p)%nat ->
  far p i j = bool_decide (ncuts m (Z.of_nat i) (Z.of_nat j) = 0).
Proof.
  intros HC Hij. unfold far. destruct (lookup_lt_is_Some_2 p i ltac:(lia)) as [u Hu]. destruct (lookup_lt_is_Some_2 p j ltac:(lia)) as [v Hv].
  rewrite Hu, Hv. apply (canonical_is m p i j); try assumption. lia.
Qed.

(** [p] changes its label where [m] has a boundary. *)
Definition stepwise (m : list Z) (p : list pyint) : Prop :=
  zlen p = zsum m /\ forall t, (S t < length p)%nat -> far p t (S t) = negb (bool_decide (cut m (Z.of_nat t + 1))).

Lemma canonical_stepwise m p : Spec.positive m -> canonical m p -> stepwise m p.
Proof.
  intros Hm HC. split; [apply HC|]. intros t Ht. rewrite (far_canonical m p t (S t) HC) by lia.
  replace (Z.of_nat (S t)) with (Z.of_nat t + 1) by lia. rewrite ncuts_step, ncuts_none by (assumption || lia).
  destruct (decide (cut m (Z.of_nat t + 1))) as [C|C].
  - rewrite (bool_decide_eq_true_2 (cut _ _)) by assumption. rewrite bool_decide_eq_false_2 by lia. reflexivity.
  - rewrite (bool_decide_eq_false_2 (cut _ _)) by assumption. rewrite bool_decide_eq_true_2 by lia. reflexivity.
Qed.

Lemma nb_ncuts m p i k : Spec.positive m -> stepwise m p -> (i + k < length p)%nat ->
  nb p i k = ncuts m (Z.of_nat i) (Z.of_nat (i + k)).
Proof.
  intros Hm [_ HC]. induction k as [|k IH]; intros Hk.
  - rewrite Nat.add_0_r, ncuts_none. reflexivity.
  - rewrite nb_S, IH by lia. replace (i + S k)%nat with (S (i + k)) by lia.
    replace (Z.of_nat (S (i + k))) with (Z.of_nat (i + k) + 1) by lia. rewrite ncuts_step by (assumption || lia).
    rewrite HC by lia.
    destruct (decide (cut m (Z.of_nat (i + k) + 1))) as [C|C].
    + rewrite bool_decide_eq_true_2 by assumption. reflexivity.
    + rewrite bool_decide_eq_false_2 by assumption. reflexivity.
Qed.

Lemma filter_ext_in {A} (P Q : A -> Prop) `{!forall x, Decision (P x), !forall x, Decision (Q x)} (l : list A) :
  (forall x, x ∈ l -> P x <-> Q x) -> filter P l = filter Q l.
Proof.
  induction l as [|x l IH]; intros K; [reflexivity|]. rewrite !filter_cons.
  rewrite IH by (intros y Hy; apply K; right; exact Hy). pose proof (K x ltac:(left)) as K1.
  destruct (decide (P x)); destruct (decide (Q x)); tauto.
Qed.

Lemma pk_count_ok mh mr h r k : canonical mh h -> canonical mr r -> length h = length r -> 0 <= k ->
  zlen (filter (fun i => far h (Z.to_nat i) (Z.to_nat (i + k)) <> far r (Z.to_nat i) (Z.to_nat (i + k))) (seqZ 0 (zlen r - k))) =
  pk_errors mh mr k (zlen r).
Proof.
  intros Hh Hr Hl Hk. unfold pk_errors. f_equal. apply filter_ext_in. intros i Hi. apply elem_of_seqZ in Hi.
  rewrite (far_canonical mh h), (far_canonical mr r) by (assumption || unfold zlen in *; lia).
  rewrite !Z2Nat.id by lia.
  destruct (bool_decide_reflect (ncuts mh i (i + k) = 0)); destruct (bool_decide_reflect (ncuts mr i (i + k) = 0)); split; intros; try tauto; congruence.
Qed.

Lemma wd_count_ok mh mr h r k : Spec.positive mh -> Spec.positive mr -> stepwise mh h -> stepwise mr r -> length h = length r -> 0 <= k ->
  zlen (filter (fun i => nb h (Z.to_nat i) (Z.to_nat k) <> nb r (Z.to_nat i) (Z.to_nat k)) (seqZ 0 (zlen r - k))) =
  wd_errors mh mr k (zlen r).
Proof.
  intros Hmh Hmr Hh Hr Hl Hk. unfold wd_errors. f_equal. apply filter_ext_in. intros i Hi. apply elem_of_seqZ in Hi.
  rewrite (nb_ncuts mh h), (nb_ncuts mr r) by (assumption || unfold zlen in *; lia).
  rewrite <- Z2Nat.inj_add, !Z2Nat.id by lia. reflexivity.
Qed.
