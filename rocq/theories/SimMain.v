(** Properties C06, C19-C26 in the form used by PropsSim.v. *)
From Coq Require Import Lqa.
From Verif Require Import SpecSim FormatProofs Similarity ML Round RoundProofs BedProofs BedSubs BedMain BedTheory BedExtra
  SimStats SimRound SimProofs SimTheory.
Open Scope Z_scope.

(** ** C06 *)

Lemma bs_of_unique m (s : bstring) : Spec.positive m -> m <> [] -> zlen s = zsum m - 1 ->
  (forall i t, s !! i = Some t -> (cut m (Z.of_nat i + 1) -> t = {[1]}) /\ (~ cut m (Z.of_nat i + 1) -> t = ∅)) ->
  s = bs_of m.
Proof.
  intros Hm Hne Hl Hs. pose proof (bs_of_length m Hm Hne) as HL. apply list_eq. intros i.
  destruct (decide (i < length s)%nat) as [C|C].
  - destruct (lookup_lt_is_Some_2 s i C) as [t Ht]. destruct (Hs i t Ht) as [H1 H2]. rewrite Ht.
    destruct (bs_of_lookup m i Hm) as [[K1 K2]|[K1 K2]]; [unfold zlen in *; lia| |]; rewrite K2; f_equal; auto.
  - rewrite !lookup_ge_None_2; [reflexivity| |]; unfold zlen in *; lia.
Qed.

Lemma to_bstring_encodes f m s : Spec.positive m -> m <> [] -> encodes f m s -> to_bstring f s = Ok (bs_of m).
Proof.
  intros Hm Hne He. destruct f; destruct s as [p|b|t]; try contradiction; cbn [encodes] in He.
  - destruct He as [Hl Hc]. cbn [to_bstring as_positions bind]. unfold convert_positions_to_masses.
    pose proof (group_lengths_positive (pval <$> p)) as Hp.
    rewrite bstring_of_masses by assumption. f_equal. apply bs_of_unique; try assumption.
    + pose proof (positive_sum_pos m Hm Hne) as Hpos.
      rewrite bs_of_length; [| assumption |].
      * rewrite group_lengths_sum. unfold zlen in *. rewrite fmap_length. lia.
      * destruct p as [|x p]; [unfold zlen in Hl; cbn [length] in Hl; lia|]. apply group_lengths_nonempty.
    + intros i t Ht. pose proof (lookup_lt_Some _ _ _ Ht) as Hi.
      destruct p as [|x p]; [cbn in Ht; discriminate|].
      pose proof (bs_of_length (group_lengths (pval <$> x :: p)) Hp ltac:(apply group_lengths_nonempty)) as HL.
      rewrite group_lengths_sum in HL. unfold zlen in HL. rewrite fmap_length in HL.
      destruct (lookup_lt_is_Some_2 (x :: p) i ltac:(lia)) as [u Hu].
      destruct (lookup_lt_is_Some_2 (x :: p) (S i) ltac:(lia)) as [v Hv].
      specialize (Hc i u v Hu Hv).
      pose proof (group_lengths_cut (pval <$> x :: p) i (pval u) (pval v)) as HG.
      rewrite !list_lookup_fmap, Hu, Hv in HG. specialize (HG eq_refl eq_refl).
      replace (Z.of_nat i + 1) with (Z.of_nat (S i)) by lia.
      destruct (bs_of_lookup _ i Hp Hi) as [[K1 K2]|[K1 K2]]; rewrite Ht in K2; injection K2 as ->;
        replace (Z.of_nat i + 1) with (Z.of_nat (S i)) in K1 by lia.
      * split; [auto|]. intros C. exfalso. apply C, Hc, HG, K1.
      * split; [|auto]. intros C. exfalso. apply K1, HG, Hc, C.
  - cbn [to_bstring as_masses bind]. rewrite He. apply bstring_of_masses, Hm.
  - cbn [to_bstring as_sets]. f_equal. apply bs_of_unique; try assumption; apply He.
  - destruct He as [Hl Hc]. cbn [to_bstring as_string bind]. unfold sym1. rewrite nltk_convert. cbn [bind].
    rewrite bstring_of_masses by apply nltk1_positive. f_equal. rewrite bs_of_nltk1. apply bs_of_unique; try assumption.
    + unfold zlen in *. rewrite fmap_length. exact Hl.
    + intros i x Hx. rewrite list_lookup_fmap in Hx. destruct (t !! i) as [c|] eqn:Ec; [|discriminate]. apply (inj Some) in Hx. subst x.
      specialize (Hc i c Ec). change (Ascii.ascii_of_nat 49) with (Ascii.Ascii true false false false true true false false) in Hc.
      destruct (Ascii.eqb_spec (Ascii.Ascii true false false false true true false false) c) as [Q|Q].
      * split; [auto|]. intros C. exfalso. apply C, Hc. congruence.
      * split; [|auto]. intros C. exfalso. apply Q. symmetry. apply Hc, C.
Qed.

Lemma as_sets_len s z : as_sets s = Ok z -> zlen z = seg_len s.
Proof. destruct s as [[|? ?]|?|[|? ?]]; intros Hz; cbn in Hz; congruence || (injection Hz as <-; reflexivity). Qed.

Lemma to_bstrings_eq f sa sb x y : to_bstring f sa = Ok x -> to_bstring f sb = Ok y ->
  to_bstrings f sa sb = if zlen x =? zlen y then Ok (x, y) else Err SegmentationMetricError.
Proof.
  intros Ha Hb. unfold to_bstrings. destruct f.
  1, 2, 4, 5: rewrite Ha; cbn [bind]; rewrite Hb; cbn [bind]; destruct (zlen x =? zlen y); reflexivity.
  cbn [to_bstring] in Ha, Hb. rewrite <- (as_sets_len _ _ Ha), <- (as_sets_len _ _ Hb), Ha, Hb.
  destruct (zlen x =? zlen y); reflexivity.
Qed.

Lemma to_bstrings_encodes f f' m m' sa sb sa' sb' : Spec.positive m -> Spec.positive m' -> m <> [] -> m' <> [] ->
  encodes f m sa -> encodes f m' sb -> encodes f' m sa' -> encodes f' m' sb' ->
  to_bstrings f sa sb = to_bstrings f' sa' sb'.
Proof.
  intros Hm Hm' Hn Hn' H1 H2 H3 H4.
  rewrite (to_bstrings_eq f sa sb (bs_of m) (bs_of m')) by (apply to_bstring_encodes; assumption).
  rewrite (to_bstrings_eq f' sa' sb' (bs_of m) (bs_of m')) by (apply to_bstring_encodes; assumption). reflexivity.
Qed.

Theorem encoding_independent A E W n_t f f' m m' sa sb sa' sb' :
  Spec.positive m -> Spec.positive m' -> m <> [] -> m' <> [] ->
  encodes f m sa -> encodes f m' sb -> encodes f' m sa' -> encodes f' m' sb' ->
  boundary_statistics A E W f n_t sa sb = boundary_statistics A E W f' n_t sa' sb' /\
  (forall om rp, boundary_similarity A E W f n_t om rp sa sb = boundary_similarity A E W f' n_t om rp sa' sb') /\
  (forall om rp, segmentation_similarity A E W f n_t om rp sa sb = segmentation_similarity A E W f' n_t om rp sa' sb') /\
  boundary_confusion_matrix A E W f n_t sa sb = boundary_confusion_matrix A E W f' n_t sa' sb'.
Proof.
  intros. assert (HB : to_bstrings f sa sb = to_bstrings f' sa' sb') by (apply (to_bstrings_encodes f f' m m'); assumption).
  unfold boundary_similarity, segmentation_similarity, boundary_confusion_matrix, boundary_statistics. rewrite HB. auto.
Qed.

(** ** C19, C20, C22, C24 *)

Definition some_boundary (x y : bstring) : Prop := exists d, used x y d.

Section Main.
Context (E : env) (f : fmt) (n_t : Z) (sa sb : seg) (x y : bstring).
Context (HE : env_ok E) (Hb : to_bstrings f sa sb = Ok (x, y)) (Hu : exists d, used x y d) (Hn : n_t <> 0).

Let Hl : length x = length y := to_bstrings_length _ _ _ _ _ Hb.

Lemma setup : exists e lo hi, boundary_edit_distance E x y n_t = Ok e /\ extent x y lo hi.
Proof.
  destruct (bed_returns E x y n_t HE ltac:(lia)) as [e He]. destruct (used_extent x y Hu) as (lo & hi & Hx).
  exists e, lo, hi. auto.
Qed.

Lemma small_extent lo hi : small_types x y -> extent x y lo hi -> hi - lo + 1 <= 262.
Proof.
  intros Hs (H1 & H2 & _). pose proof (used_small _ _ _ Hs H1). pose proof (used_small _ _ _ Hs H2). lia.
Qed.

(** *** Exact arithmetic *)

Theorem B_exact : exists v, boundary_similarity exactA E (default_weights exactA) f n_t false false sa sb = Ok (BVal (NDec v)) /\
  (0 <= v)%Q /\ (v <= 1)%Q /\ ((v == 1)%Q <-> x = y) /\
  exists e lo hi, boundary_edit_distance E x y n_t = Ok e /\ extent x y lo hi /\
    (v == 1 - edit_cost e (hi - lo + 1) n_t / inject_Z (edit_count e + Z.of_nat (nmatches x y)))%Q /\
    ((v == 0)%Q <-> nmatches x y = 0%nat /\ e_sub e = [] /\ e_transp e = []).
Proof.
  destruct setup as (e & lo & hi & He & Hx). rewrite (B_eq _ E f n_t sa sb x y lo hi e) by assumption. cbn zeta iota.
  set (d := edit_count e + Z.of_nat (nmatches x y)). set (c := dcount exactA e (hi - lo + 1) n_t).
  assert (Hd : 0 < d) by (eapply d_pos; eassumption).
  pose proof (prec_exact d ltac:(lia)) as HP.
  assert (Hed : edit_count e <= d) by (unfold d; lia).
  set (K := Z.max 1 (Z.max (hi - lo + 1) n_t)).
  assert (Hz : (8 * 0 * inject_Z d * inject_Z K < 1)%Q) by (setoid_replace (8 * 0 * inject_Z d * inject_Z K)%Q with 0%Q by ring; lra).
  exists (quot exactA d c). split; [reflexivity|].
  destruct (range exactA 0 d HP E f n_t sa sb x y lo hi e HE Hb Hx Hn He d) as [R1 R2]; try lia.
  split; [exact R1|]. split; [exact R2|]. split.
  { apply (is_one exactA 0 d HP E f n_t sa sb x y lo hi e HE Hb Hx Hn He d K); try lia. exact Hz. }
  exists e, lo, hi. split; [exact He|]. split; [exact Hx|]. split.
  - pose proof (accurate exactA 0 d HP E f n_t sa sb x y lo hi e HE Hb Hx Hn He d Hed Hd ltac:(lia)) as HA.
    apply Qabs_Qle_condition in HA. fold c d in HA |- *.
    set (qq := (edit_cost e (hi - lo + 1) n_t / inject_Z d)%Q) in *. lra.
  - apply (is_zero exactA 0 d HP E f n_t sa sb x y lo hi e HE Hb Hx Hn He K); try lia. exact Hz.
Qed.


Lemma den_le e : small_types x y -> boundary_edit_distance E x y n_t = Ok e ->
  edit_count e + Z.of_nat (nmatches x y) <= zlen x * zsize (identify_types x y) * zsize (identify_types x y).
Proof.
  intros Hs He. pose proof (places x y Hl) as HP. pose proof (bed_total _ _ _ _ _ HE Hs Hl He) as HT.
  destruct (used_extent x y Hu) as (lo & hi & Hx). pose proof (types_size_pos _ _ _ _ Hx) as H1.
  unfold zsize, zlen. set (k := size (identify_types x y)) in *.
  assert (edit_count e + Z.of_nat (nmatches x y) <= Z.of_nat (k * length x)) by (unfold edit_count, zlen; lia).
  rewrite Nat2Z.inj_mul in H. nia.
Qed.

Theorem S_exact : small_types x y ->
  exists v w, segmentation_similarity exactA E (default_weights exactA) f n_t false false sa sb = Ok (SVal (NDec v)) /\
  (0 <= v)%Q /\ (v <= 1)%Q /\ ((v == 1)%Q <-> x = y) /\
  boundary_similarity exactA E (default_weights exactA) f n_t false false sa sb = Ok (BVal (NDec w)) /\ (w <= v)%Q.
Proof.
  intros Hs. destruct setup as (e & lo & hi & He & Hx).
  rewrite (B_eq _ E f n_t sa sb x y lo hi e), (S_eq _ E f n_t sa sb x y lo hi e) by assumption. cbn zeta iota.
  pose proof (den_le e Hs He) as HD. set (D := zlen x * zsize (identify_types x y) * zsize (identify_types x y)) in *.
  set (d := edit_count e + Z.of_nat (nmatches x y)) in *. set (c := dcount exactA e (hi - lo + 1) n_t).
  assert (Hd : 0 < d) by (eapply d_pos; eassumption).
  pose proof (prec_exact D ltac:(lia)) as HP.
  assert (Hed : edit_count e <= D) by (unfold d in HD; lia).
  set (K := Z.max 1 (Z.max (hi - lo + 1) n_t)).
  exists (quot exactA D c), (quot exactA d c). split; [reflexivity|].
  destruct (range exactA 0 D HP E f n_t sa sb x y lo hi e HE Hb Hx Hn He D) as [R1 R2]; try lia.
  split; [exact R1|]. split; [exact R2|]. split.
  { apply (is_one exactA 0 D HP E f n_t sa sb x y lo hi e HE Hb Hx Hn He D K); try lia.
    setoid_replace (8 * 0 * inject_Z D * inject_Z K)%Q with 0%Q by ring. lra. }
  split; [reflexivity|].
  apply (S_ge_B exactA 0 D HP E f n_t sa sb x y lo hi e HE Hb Hx Hn He D K); try lia.
  setoid_replace (16 * 0 * inject_Z K * (inject_Z (edit_count e + Z.of_nat (nmatches x y)) * (inject_Z (edit_count e + Z.of_nat (nmatches x y)) + 1)))%Q with 0%Q by ring. lra.
Qed.

(** *** Rounded arithmetic *)

Lemma inject_prod_lt (k : Q) (a b p q : Z) : (0 <= k)%Q -> 0 <= a <= p -> 0 <= b <= q -> (k * inject_Z p * inject_Z q < 1)%Q ->
  (k * inject_Z a * inject_Z b < 1)%Q.
Proof.
  intros Hk Ha Hb' H. eapply Qle_lt_trans; [|exact H]. rewrite <- !Qmult_assoc. apply Qmult_le_l_weak; [exact Hk|].
  rewrite <- !inject_Z_mult. apply inj_le. nia.
Qed.

Theorem B_decimal A : sane A -> small_types x y -> Z.of_nat (nboundaries x y) <= 10 ^ 28 ->
  exists v, boundary_similarity A E (default_weights A) f n_t false false sa sb = Ok (BVal (NDec v)) /\
  (0 <= v)%Q /\ (v <= 1)%Q /\
  exists e lo hi, boundary_edit_distance E x y n_t = Ok e /\ extent x y lo hi /\
    (Qabs (v - (1 - edit_cost e (hi - lo + 1) n_t / inject_Z (edit_count e + Z.of_nat (nmatches x y)))) <= 1 / inject_Z (10 ^ 26))%Q /\
    (n_t <= 10 ^ 12 -> Z.of_nat (nboundaries x y) <= 10 ^ 12 ->
      ((v == 1)%Q <-> x = y) /\ ((v == 0)%Q <-> nmatches x y = 0%nat /\ e_sub e = [] /\ e_transp e = [])).
Proof.
  intros HA Hs HN. destruct setup as (e & lo & hi & He & Hx). rewrite (B_eq _ E f n_t sa sb x y lo hi e) by assumption. cbn zeta iota.
  pose proof (denominator_le E x y n_t e HE Hs Hl He) as Hdn.
  set (d := edit_count e + Z.of_nat (nmatches x y)) in *. set (c := dcount A e (hi - lo + 1) n_t).
  assert (Hd : 0 < d) by (eapply d_pos; eassumption).
  pose proof (prec_sane A HA) as HP.
  assert (Hed : edit_count e <= d) by (unfold d; lia).
  exists (quot A d c). split; [reflexivity|].
  destruct (range A _ _ HP E f n_t sa sb x y lo hi e HE Hb Hx Hn He d) as [R1 R2]; try lia.
  split; [exact R1|]. split; [exact R2|]. exists e, lo, hi. split; [exact He|]. split; [exact Hx|]. split.
  - eapply Qle_trans; [apply (accurate A _ _ HP E f n_t sa sb x y lo hi e HE Hb Hx Hn He d); lia|].
    rewrite eps28_val. vm_compute. discriminate.
  - intros Hn12 Hb12. pose proof (small_extent lo hi Hs Hx) as Hsp.
    assert (Hz : (8 * eps28 * inject_Z d * inject_Z (10 ^ 12) < 1)%Q).
    { apply (inject_prod_lt _ _ _ (10 ^ 12) (10 ^ 12)); try lia; rewrite eps28_val; vm_compute; congruence. }
    split.
    + apply (is_one A _ _ HP E f n_t sa sb x y lo hi e HE Hb Hx Hn He d (10 ^ 12)); try lia. exact Hz.
    + apply (is_zero A _ _ HP E f n_t sa sb x y lo hi e HE Hb Hx Hn He (10 ^ 12)); try lia. exact Hz.
Qed.

Theorem S_decimal A : sane A -> small_types x y -> zlen x * zsize (identify_types x y) * zsize (identify_types x y) <= 10 ^ 28 ->
  exists v, segmentation_similarity A E (default_weights A) f n_t false false sa sb = Ok (SVal (NDec v)) /\
  (0 <= v)%Q /\ (v <= 1)%Q /\
  (n_t <= 10 ^ 12 -> zlen x * zsize (identify_types x y) * zsize (identify_types x y) <= 10 ^ 12 -> ((v == 1)%Q <-> x = y)) /\
  (n_t <= 10 ^ 8 -> Z.of_nat (nboundaries x y) <= 10 ^ 8 ->
    exists w, boundary_similarity A E (default_weights A) f n_t false false sa sb = Ok (BVal (NDec w)) /\ (w <= v)%Q).
Proof.
  intros HA Hs HN. destruct setup as (e & lo & hi & He & Hx).
  rewrite (B_eq _ E f n_t sa sb x y lo hi e), (S_eq _ E f n_t sa sb x y lo hi e) by assumption. cbn zeta iota.
  pose proof (den_le e Hs He) as HD. pose proof (denominator_le E x y n_t e HE Hs Hl He) as Hdn.
  set (D := zlen x * zsize (identify_types x y) * zsize (identify_types x y)) in *.
  set (d := edit_count e + Z.of_nat (nmatches x y)) in *. set (c := dcount A e (hi - lo + 1) n_t).
  assert (Hd : 0 < d) by (eapply d_pos; eassumption).
  pose proof (prec_sane A HA) as HP.
  assert (Hed : edit_count e <= D) by (unfold d in HD; lia).
  pose proof (small_extent lo hi Hs Hx) as Hsp.
  exists (quot A D c). split; [reflexivity|].
  destruct (range A _ _ HP E f n_t sa sb x y lo hi e HE Hb Hx Hn He D) as [R1 R2]; try lia.
  split; [exact R1|]. split; [exact R2|]. split.
  - intros Hn12 Hb12.
    apply (is_one A _ _ HP E f n_t sa sb x y lo hi e HE Hb Hx Hn He D (10 ^ 12)); try lia.
    apply (inject_prod_lt _ _ _ (10 ^ 12) (10 ^ 12)); try lia; rewrite eps28_val; vm_compute; congruence.
  - intros Hn8 Hb8. eexists. split; [reflexivity|].
    apply (S_ge_B A _ _ HP E f n_t sa sb x y lo hi e HE Hb Hx Hn He D (10 ^ 8)); try lia.
    fold d. change 1%Q with (inject_Z 1) at 1. rewrite <- inject_Z_plus, <- inject_Z_mult.
    apply Qlt_le_weak, (inject_prod_lt _ _ _ (10 ^ 8) (10 ^ 17)); try lia; try nia; rewrite eps28_val; vm_compute; congruence.
Qed.
End Main.

(** ** Deciding [encodes] on concrete cases *)

Global Instance cut_dec m p : Decision (cut m p).
Proof.
  refine (cast_if (decide (Exists (fun k => zsum (take k m) = p) (seq 1 (length m - 1))))).
  - abstract (apply Exists_exists in e as (k & Hk & E); apply elem_of_seq in Hk; exists k; split; [lia|exact E]).
  - abstract (intros (k & Hk & E); apply n, Exists_exists; exists k; split; [apply elem_of_seq; lia|exact E]).
Defined.

Definition encodesb (f : fmt) (m : list Z) (s : seg) : bool :=
  match f, s with
  | FMass, Ints l => bool_decide ((pval <$> l) = m)
  | FPosition, Ints p => (zlen p =? zsum m) &&
      forallb (fun i => match p !! i, p !! S i with
                        | Some u, Some v => Bool.eqb (negb (pval u =? pval v)) (bool_decide (cut m (Z.of_nat (S i))))
                        | _, _ => true end) (seq 0 (length p))
  | FNltk, Str t => (zlen t =? zsum m - 1) &&
      forallb (fun i => match t !! i with
                        | Some c => Bool.eqb (Ascii.eqb c (Ascii.ascii_of_nat 49)) (bool_decide (cut m (Z.of_nat i + 1)))
                        | _ => true end) (seq 0 (length t))
  | FSets, Sets b => (zlen b =? zsum m - 1) &&
      forallb (fun i => match b !! i with
                        | Some t => bool_decide (t = if bool_decide (cut m (Z.of_nat i + 1)) then {[1]} else ∅)
                        | _ => true end) (seq 0 (length b))
  | _, _ => false
  end.

Lemma encodesb_ok f m s : encodesb f m s = true -> encodes f m s.
Proof.
  destruct f; destruct s as [p|b|t]; cbn [encodesb encodes]; try discriminate.
  - intros H. apply andb_true_iff in H as [H1 H2]. apply Z.eqb_eq in H1. split; [exact H1|]. intros i u v Hu Hv.
    rewrite forallb_forall in H2. specialize (H2 i). rewrite Hu, Hv in H2.
    specialize (H2 ltac:(apply in_seq; apply lookup_lt_Some in Hu; lia)). apply Bool.eqb_prop in H2.
    destruct (Z.eqb_spec (pval u) (pval v)); destruct (bool_decide_reflect (cut m (Z.of_nat (S i)))); try discriminate; tauto.
  - intros H. apply bool_decide_eq_true in H. exact H.
  - intros H. apply andb_true_iff in H as [H1 H2]. apply Z.eqb_eq in H1. split; [exact H1|]. intros i t Ht.
    rewrite forallb_forall in H2. specialize (H2 i). rewrite Ht in H2.
    specialize (H2 ltac:(apply in_seq; apply lookup_lt_Some in Ht; lia)). apply bool_decide_eq_true in H2. subst t.
    destruct (bool_decide_reflect (cut m (Z.of_nat i + 1))); tauto.
  - intros H. apply andb_true_iff in H as [H1 H2]. apply Z.eqb_eq in H1. split; [exact H1|]. intros i c Hc.
    rewrite forallb_forall in H2. specialize (H2 i). rewrite Hc in H2.
    specialize (H2 ltac:(apply in_seq; apply lookup_lt_Some in Hc; lia)). apply Bool.eqb_prop in H2.
    destruct (Ascii.eqb_spec c (Ascii.ascii_of_nat 49)); destruct (bool_decide_reflect (cut m (Z.of_nat i + 1))); try discriminate; tauto.
Qed.

(** Deciding [extent] and [used]. *)
Definition extentb (x y : bstring) (lo hi : Z) : bool :=
  bool_decide (lo ∈ identify_types x y) && bool_decide (hi ∈ identify_types x y) &&
  forallb (fun d => (lo <=? d) && (d <=? hi)) (elements (identify_types x y)).

Lemma extentb_ok x y lo hi : extentb x y lo hi = true -> extent x y lo hi.
Proof.
  unfold extentb, extent. rewrite !andb_true_iff, !bool_decide_eq_true, forallb_forall. intros [[H1 H2] H3].
  split; [apply elem_of_types, H1|]. split; [apply elem_of_types, H2|]. intros d Hd.
  specialize (H3 d). rewrite andb_true_iff, !Z.leb_le in H3. apply H3. apply elem_of_list_In, elem_of_elements, elem_of_types, Hd.
Qed.

(** ** The statements one by one *)

Section Corollaries.
Context (E : env) (f : fmt) (n_t : Z) (sa sb : seg) (x y : bstring).
Context (HE : env_ok E) (Hb : to_bstrings f sa sb = Ok (x, y)) (Hu : exists d, used x y d) (Hn : n_t <> 0).

Lemma B_range_exact : exists v, boundary_similarity exactA E (default_weights exactA) f n_t false false sa sb = Ok (BVal (NDec v)) /\
  (0 <= v <= 1)%Q.
Proof. destruct (B_exact E f n_t sa sb x y HE Hb Hu Hn) as (v & H & H0 & H1 & _). eauto. Qed.

Lemma B_one_exact v : boundary_similarity exactA E (default_weights exactA) f n_t false false sa sb = Ok (BVal (NDec v)) ->
  (v == 1)%Q <-> x = y.
Proof. destruct (B_exact E f n_t sa sb x y HE Hb Hu Hn) as (w & -> & _ & _ & H & _). intros [= ->]. exact H. Qed.

Lemma B_zero_exact v e : boundary_similarity exactA E (default_weights exactA) f n_t false false sa sb = Ok (BVal (NDec v)) ->
  boundary_edit_distance E x y n_t = Ok e ->
  (v == 0)%Q <-> nmatches x y = 0%nat /\ e_sub e = [] /\ e_transp e = [].
Proof.
  destruct (B_exact E f n_t sa sb x y HE Hb Hu Hn) as (w & -> & _ & _ & _ & e' & lo & hi & He & _ & _ & H).
  intros [= ->] He'. assert (e' = e) as <- by congruence. exact H.
Qed.

Lemma B_value_exact v e lo hi : boundary_similarity exactA E (default_weights exactA) f n_t false false sa sb = Ok (BVal (NDec v)) ->
  boundary_edit_distance E x y n_t = Ok e -> extent x y lo hi ->
  (v == 1 - edit_cost e (hi - lo + 1) n_t / inject_Z (edit_count e + Z.of_nat (nmatches x y)))%Q.
Proof.
  destruct (B_exact E f n_t sa sb x y HE Hb Hu Hn) as (w & -> & _ & _ & _ & e' & lo' & hi' & He & Hx & H & _).
  intros [= ->] He' Hx'. assert (e' = e) as <- by congruence. destruct (extent_unique _ _ _ _ _ _ Hx Hx') as [<- <-]. exact H.
Qed.

Context (A : arith) (HA : sane A) (Hs : small_types x y).

Lemma B_range : Z.of_nat (nboundaries x y) <= 10 ^ 28 ->
  exists v, boundary_similarity A E (default_weights A) f n_t false false sa sb = Ok (BVal (NDec v)) /\ (0 <= v <= 1)%Q.
Proof. intros Hc. destruct (B_decimal E f n_t sa sb x y HE Hb Hu Hn A HA Hs Hc) as (v & H & H0 & H1 & _). eauto. Qed.

Lemma B_one v : Z.of_nat (nboundaries x y) <= 10 ^ 12 -> n_t <= 10 ^ 12 ->
  boundary_similarity A E (default_weights A) f n_t false false sa sb = Ok (BVal (NDec v)) ->
  (v == 1)%Q <-> x = y.
Proof.
  intros Hc Hn'. destruct (B_decimal E f n_t sa sb x y HE Hb Hu Hn A HA Hs ltac:(lia)) as (w & -> & _ & _ & e & lo & hi & _ & _ & _ & H).
  intros [= ->]. apply H; assumption.
Qed.

Lemma B_zero v e : Z.of_nat (nboundaries x y) <= 10 ^ 12 -> n_t <= 10 ^ 12 ->
  boundary_similarity A E (default_weights A) f n_t false false sa sb = Ok (BVal (NDec v)) ->
  boundary_edit_distance E x y n_t = Ok e ->
  (v == 0)%Q <-> nmatches x y = 0%nat /\ e_sub e = [] /\ e_transp e = [].
Proof.
  intros Hc Hn'. destruct (B_decimal E f n_t sa sb x y HE Hb Hu Hn A HA Hs ltac:(lia)) as (w & -> & _ & _ & e' & lo & hi & He & _ & _ & H).
  intros [= ->] He'. assert (e' = e) as <- by congruence. apply H; assumption.
Qed.

Lemma B_value v e lo hi : Z.of_nat (nboundaries x y) <= 10 ^ 28 ->
  boundary_similarity A E (default_weights A) f n_t false false sa sb = Ok (BVal (NDec v)) ->
  boundary_edit_distance E x y n_t = Ok e -> extent x y lo hi ->
  (Qabs (v - (1 - edit_cost e (hi - lo + 1) n_t / inject_Z (edit_count e + Z.of_nat (nmatches x y)))) <= 1 / inject_Z (10 ^ 26))%Q.
Proof.
  intros Hc. destruct (B_decimal E f n_t sa sb x y HE Hb Hu Hn A HA Hs Hc) as (w & -> & _ & _ & e' & lo' & hi' & He & Hx & H & _).
  intros [= ->] He' Hx'. assert (e' = e) as <- by congruence. destruct (extent_unique _ _ _ _ _ _ Hx Hx') as [<- <-]. exact H.
Qed.

(** The types in use as a set. *)
Context (T : gset Z) (HT : forall t, t ∈ T <-> used x y t).
Let size_T : zsize (identify_types x y) = Z.of_nat (size T).
Proof. unfold zsize. do 2 f_equal. apply set_eq. intros t. rewrite HT, elem_of_types. reflexivity. Qed.

Lemma S_range : zlen x * Z.of_nat (size T) * Z.of_nat (size T) <= 10 ^ 28 ->
  exists v, segmentation_similarity A E (default_weights A) f n_t false false sa sb = Ok (SVal (NDec v)) /\ (0 <= v <= 1)%Q.
Proof. rewrite <- size_T. intros Hc. destruct (S_decimal E f n_t sa sb x y HE Hb Hu Hn A HA Hs Hc) as (v & H & H0 & H1 & _). eauto. Qed.

Lemma S_one v : zlen x * Z.of_nat (size T) * Z.of_nat (size T) <= 10 ^ 12 -> n_t <= 10 ^ 12 ->
  segmentation_similarity A E (default_weights A) f n_t false false sa sb = Ok (SVal (NDec v)) -> (v == 1)%Q <-> x = y.
Proof.
  rewrite <- size_T. intros Hc Hn'. destruct (S_decimal E f n_t sa sb x y HE Hb Hu Hn A HA Hs ltac:(lia)) as (w & -> & _ & _ & H & _).
  intros [= ->]. apply H; assumption.
Qed.

Lemma S_above_B v w : zlen x * Z.of_nat (size T) * Z.of_nat (size T) <= 10 ^ 28 ->
  Z.of_nat (nboundaries x y) <= 10 ^ 8 -> n_t <= 10 ^ 8 ->
  segmentation_similarity A E (default_weights A) f n_t false false sa sb = Ok (SVal (NDec v)) ->
  boundary_similarity A E (default_weights A) f n_t false false sa sb = Ok (BVal (NDec w)) -> (w <= v)%Q.
Proof.
  rewrite <- size_T. intros Hc Hc' Hn'. destruct (S_decimal E f n_t sa sb x y HE Hb Hu Hn A HA Hs Hc) as (w' & -> & _ & _ & _ & H).
  destruct (H Hn' Hc') as (b & -> & HB). intros [= ->] [= ->]. exact HB.
Qed.
End Corollaries.

Lemma S_all_exact E f n_t sa sb x y : env_ok E -> to_bstrings f sa sb = Ok (x, y) -> (exists d, used x y d) -> n_t <> 0 ->
  small_types x y ->
  exists v w, segmentation_similarity exactA E (default_weights exactA) f n_t false false sa sb = Ok (SVal (NDec v)) /\
  (0 <= v)%Q /\ (v <= 1)%Q /\ ((v == 1)%Q <-> x = y) /\
  boundary_similarity exactA E (default_weights exactA) f n_t false false sa sb = Ok (BVal (NDec w)) /\ (w <= v)%Q.
Proof. intros. apply S_exact; assumption. Qed.
