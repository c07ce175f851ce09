(** Actual agreement lies among the values of the pairs. *)
From stdpp Require Import gmap.
From Verif Require Import SpecAgreement SpecML SpecDispatch SpecSim Spec Agreement DictProofs DispatchProofs DispatchMain AgreementProofs AgreementMain AgreementPublic SimMain SimSym Round RoundProofs.
Open Scope Z_scope.

Lemma mediant2 (a c : Q) (b d : Z) : 0 < b -> 0 < d -> (a / inject_Z b <= c / inject_Z d)%Q ->
  (a / inject_Z b <= (a + c) / inject_Z (b + d) <= c / inject_Z d)%Q.
Proof.
  intros Hb Hd H. assert (Hb' : (0 < inject_Z b)%Q) by (rewrite <- (Zlt_Qlt 0); exact Hb).
  assert (Hd' : (0 < inject_Z d)%Q) by (rewrite <- (Zlt_Qlt 0); exact Hd).
  assert (Hs : (0 < inject_Z (b + d))%Q) by (rewrite <- (Zlt_Qlt 0); lia).
  assert (E : (a * inject_Z d <= c * inject_Z b)%Q).
  { apply (Qmult_le_compat_r _ _ (inject_Z b * inject_Z d)) in H; [|apply Qmult_le_0_compat; apply Qlt_le_weak; assumption].
    assert (E1 : (a / inject_Z b * (inject_Z b * inject_Z d) == a * inject_Z d)%Q) by (field; intros K; rewrite K in Hb'; discriminate).
    assert (E2 : (c / inject_Z d * (inject_Z b * inject_Z d) == c * inject_Z b)%Q) by (field; intros K; rewrite K in Hd'; discriminate).
    rewrite E1, E2 in H. exact H. }
  rewrite inject_Z_plus in *. split.
  - apply Qle_shift_div_l; [exact Hs|].
    assert (E1 : (a / inject_Z b * (inject_Z b + inject_Z d) == a + (a * inject_Z d) / inject_Z b)%Q) by (field; intros K; rewrite K in Hb'; discriminate).
    rewrite E1. apply Qplus_le_r. apply Qle_shift_div_r; assumption.
  - apply Qle_shift_div_r; [exact Hs|].
    assert (E1 : (c / inject_Z d * (inject_Z b + inject_Z d) == (c * inject_Z b) / inject_Z d + c)%Q) by (field; intros K; rewrite K in Hd'; discriminate).
    rewrite E1. apply Qplus_le_l. apply Qle_shift_div_l; assumption.
Qed.

Lemma zsum_pos {X} (d : X -> Z) l : l <> [] -> (forall x, x ∈ l -> 0 < d x) -> 0 < zsum (d <$> l).
Proof.
  induction l as [|x l IH]; intros Hne H; [contradiction|]. cbn. pose proof (H x ltac:(left)).
  destruct l as [|y l]; [cbn; lia|]. assert (0 < zsum (d <$> y :: l)); [|cbn in *; lia]. apply IH; [discriminate|]. intros z Hz. apply H. right. exact Hz.
Qed.

Lemma mediant {X} (n : X -> Q) (d : X -> Z) l : l <> [] -> (forall x, x ∈ l -> 0 < d x) ->
  exists x y, x ∈ l /\ y ∈ l /\ (n x / inject_Z (d x) <= qsum (n <$> l) / inject_Z (zsum (d <$> l)) <= n y / inject_Z (d y))%Q.
Proof.
  induction l as [|x l IH]; intros Hne H; [contradiction|]. destruct l as [|z l].
  - exists x, x. split; [left|]. split; [left|]. cbn. rewrite Z.add_0_r.
    assert (E : ((n x + 0) / inject_Z (d x) == n x / inject_Z (d x))%Q) by (rewrite Qplus_0_r; reflexivity). rewrite E. split; apply Qle_refl.
  - set (t := z :: l) in *. destruct IH as (u & w & Hu & Hw & H1 & H2); [discriminate|intros y Hy; apply H; right; exact Hy|].
    assert (P : 0 < zsum (d <$> t)) by (apply zsum_pos; [discriminate|intros y Hy; apply H; right; exact Hy]).
    pose proof (H x ltac:(left)) as Px. cbn [fmap list_fmap qsum foldr]. change (foldr Qplus 0%Q (n <$> t)) with (qsum (n <$> t)).
    change (zsum (d x :: (d <$> t))) with (d x + zsum (d <$> t)).
    destruct (Qlt_le_dec (n x / inject_Z (d x)) (qsum (n <$> t) / inject_Z (zsum (d <$> t)))) as [L|L].
    + apply Qlt_le_weak in L. destruct (mediant2 _ _ _ _ Px P L) as [M1 M2]. exists x, w. split; [left|]. split; [right; exact Hw|].
      split; [exact M1|]. eapply Qle_trans; eassumption.
    + destruct (mediant2 _ _ _ _ P Px L) as [M1 M2]. exists u, x. split; [right; exact Hu|]. split; [left|].
      assert (E : ((n x + qsum (n <$> t)) / inject_Z (d x + zsum (d <$> t)) == (qsum (n <$> t) + n x) / inject_Z (zsum (d <$> t) + d x))%Q)
        by (rewrite Qplus_comm, Z.add_comm; reflexivity).
      rewrite E. split; [eapply Qle_trans; eassumption|exact M2].
Qed.

(** Two codings of an item, in the order of the item. *)
Lemma in_order (items : dict (dict seg)) ic m n a b : items_ok items -> ic ∈ items -> m <> n -> dget (snd ic) m = Some a -> dget (snd ic) n = Some b ->
  before items (fst ic) m n a b \/ before items (fst ic) n m b a.
Proof.
  intros Ho Hi Hmn Ha Hb. destruct ic as [i cs]. cbn [fst snd] in *. apply dget_elem in Ha, Hb.
  apply elem_of_list_lookup in Ha as [u Hu]. apply elem_of_list_lookup in Hb as [w Hw].
  destruct (Nat.lt_trichotomy u w) as [L|[L|L]].
  - left. exists cs, u, w. auto.
  - subst w. congruence.
  - right. exists cs, w, u. auto.
Qed.

Section between.
Context (E : env) (n_t : Z) (f : fmt) (cord : gset string -> list string) (c : container).
Context (HE : env_ok E) (Hn : n_t <> 0).
Let F := c_format c f.
Let coders := cord (c_coders c).
Let items := c_items c.
Context (HC : coded F coders items) (HF : cached F coders items) (HI : items_ok items).

Lemma among {R} (val : R -> option Q) (metric : seg -> seg -> res R) cmp lord d : comparison exactA E n_t True cmp ->
  lord_ok lord -> plain_coders items ->
  (forall m n ic sa sb p q, ic ∈ items -> m ∈ coders -> n ∈ coders -> m <> n -> dget (snd ic) m = Some sa -> dget (snd ic) n = Some sb ->
     cmp F sa sb = Ok (NDec p, NInt q) ->
     (exists r x, metric sa sb = Ok r /\ val r = Some x /\ (x == p / inject_Z q)%Q) /\ (exists r x, metric sb sa = Ok r /\ val r = Some x /\ (x == p / inject_Z q)%Q)) ->
  compute_pairwise_values metric lord false items None = Ok d ->
  exists v k r lo k' r' hi, actual_agreement_linear exactA cmp f cord c = Ok (NDec v) /\ (k, r) ∈ d /\ val r = Some lo /\
    (k', r') ∈ d /\ val r' = Some hi /\ (lo <= v <= hi)%Q.
Proof.
  intros Hcmp Hl Hpl Hm Hd.
  destruct (actual_exact E n_t f cord c cmp HE Hn HC) as (num & den & v & Hp & Ha & Hv & _).
  { destruct Hcmp; constructor. exact HF. }
  destruct (one_dataset_plain metric lord items d Hl HI Hpl Hd) as (_ & Hk & _).
  assert (K : forall m n ic, (m, n) ∈ two_of coders -> ic ∈ items -> 0 < den m n ic /\
    exists k r x, (k, r) ∈ d /\ val r = Some x /\ (x == num m n ic / inject_Z (den m n ic))%Q).
  { intros m n ic Hmn Hic. destruct (Hp m n ic Hmn Hic) as (sa & sb & Hsa & Hsb & Hc & Hpos). split; [exact Hpos|].
    rewrite two_of_pairs2 in Hmn. apply pairs2_distinct in Hmn as (H1 & H2 & H3); [|exact (coded_coders _ _ _ HC)].
    destruct (Hm m n ic sa sb _ _ Hic H1 H2 H3 Hsa Hsb Hc) as [(r & x & Hr & Hx & He) (r' & x' & Hr' & Hx' & He')].
    destruct (in_order items ic m n sa sb HI Hic H3 Hsa Hsb) as [B|B].
    - exists (name3 (fst ic) m n), r, x. split; [apply Hk; exists (fst ic), m, n, sa, sb; auto|auto].
    - exists (name3 (fst ic) n m), r', x'. split; [apply Hk; exists (fst ic), n, m, sb, sa; auto|auto]. }
  set (J := comparisons coders items).
  assert (HJ : forall m n ic, ((m, n), ic) ∈ J <-> (m, n) ∈ two_of coders /\ ic ∈ items).
  { intros m n ic. unfold J, comparisons. rewrite two_of_pairs2. apply (elem_of_jobs_of coders items). }
  destruct (mediant (fun '((m, n), ic) => num m n ic) (fun '((m, n), ic) => den m n ic) J) as ([[m n] ic] & [[m' n'] ic'] & H1 & H2 & H3 & H4).
  - pose proof (coded_two _ _ _ HC) as H2. pose proof (coded_items _ _ _ HC) as Hne. unfold J, comparisons. rewrite two_of_pairs2.
    fold coders in H2. destruct coders as [|c1 [|c2 rest]]; [cbn in H2; lia|cbn in H2; lia|]. fold items in Hne. destruct items as [|ic rest']; [contradiction|]. discriminate.
  - intros [[m n] ic] H. apply HJ in H as [H1 H2]. apply (K m n ic H1 H2).
  - apply HJ in H1 as [? ?], H2 as [? ?]. destruct (K m n ic) as (_ & k & r & x & ? & ? & Ex); [assumption..|].
    destruct (K m' n' ic') as (_ & k' & r' & x' & ? & ? & Ex'); [assumption..|]. exists v, k, r, x, k', r', x'.
    split; [exact Ha|]. split; [assumption|]. split; [assumption|]. split; [assumption|]. split; [assumption|].
    rewrite Hv, Ex, Ex'. split; assumption.
Qed.

Lemma strings m n ic sa sb : ic ∈ items -> m ∈ coders -> n ∈ coders -> m <> n -> dget (snd ic) m = Some sa -> dget (snd ic) n = Some sb ->
  exists x y, to_bstring F sa = Ok x /\ to_bstring F sb = Ok y /\ seg_len sa <> 0 /\ seg_len sb <> 0 /\
    to_bstrings F sa sb = Ok (x, y) /\ (exists d, used x y d) /\ small_types x y.
Proof.
  intros Hic H1 H2 H3 Ha Hb. destruct (coded_seg _ _ _ HC ic m Hic H1) as (s & x & Hs & Hls & Hx). rewrite Hs in Ha. injection Ha as ->.
  destruct (coded_seg _ _ _ HC ic n Hic H2) as (s & y & Hs' & Hls' & Hy). rewrite Hs' in Hb. injection Hb as ->.
  assert (C1 : coding F m ic = x) by (unfold coding; rewrite Hs, Hx; reflexivity).
  assert (C2 : coding F n ic = y) by (unfold coding; rewrite Hs', Hy; reflexivity).
  exists x, y. split; [assumption|]. split; [assumption|]. split; [assumption|]. split; [assumption|]. split; [|split].
  - rewrite (to_bstrings_eq _ _ _ _ _ Hx Hy). pose proof (coded_len _ _ _ HC ic m n Hic H1 H2) as L. rewrite C1, C2 in L. unfold zlen. rewrite L, Z.eqb_refl. reflexivity.
  - pose proof (coded_used _ _ _ HC ic m n Hic H1 H2 H3) as U. rewrite C1, C2 in U. exact U.
  - pose proof (HF ic m n Hic H1 H2) as S. rewrite C1, C2 in S. exact S.
Qed.

Definition value_B (r : bres) : option Q := match r with BVal (NDec q) => Some q | _ => None end.
Definition value_S (r : sres) : option Q := match r with SVal (NDec q) => Some q | _ => None end.

Lemma among_B om lord d : lord_ok lord -> plain_coders items ->
  compute_pairwise_values (boundary_similarity exactA E (default_weights exactA) F n_t false false) lord false items None = Ok d ->
  exists v k lo k' hi, actual_agreement_linear exactA (compare_B exactA E (default_weights exactA) n_t om) f cord c = Ok (NDec v) /\
    (k, BVal (NDec lo)) ∈ d /\ (k', BVal (NDec hi)) ∈ d /\ (lo <= v <= hi)%Q.
Proof.
  intros Hl Hpl Hd. destruct (among value_B (boundary_similarity exactA E (default_weights exactA) F n_t false false) (compare_B exactA E (default_weights exactA) n_t om) lord d (by_B _ _ _ _ om) Hl Hpl) as (v & k & r & lo & k' & r' & hi & Ha & H1 & H2 & H3 & H4 & H5);
    [|exact Hd|].
  - intros m n ic sa sb p q Hic Hm Hn' Hne Hsa Hsb Hc. destruct (strings m n ic sa sb Hic Hm Hn' Hne Hsa Hsb) as (x & y & Hx & Hy & L1 & L2 & Hxy & Hu & Hs).
    destruct (B_flags exactA E F n_t sa sb x y HE Hxy Hu Hn) as (nu & de & e & P1 & P2 & _ & _ & _ & V & _).
    assert (Q : p = nu /\ q = de).
    { unfold compare_B, compare_of in Hc. rewrite (proj2 (Z.eqb_neq _ _) L1), (proj2 (Z.eqb_neq _ _) L2) in Hc. cbn [negb andb] in Hc.
      destruct om; [rewrite P2 in Hc|rewrite P1 in Hc]; cbn [bind] in Hc; injection Hc as <- <-; auto. }
    destruct Q as [-> ->]. destruct (metrics_symmetric exactA E E (default_weights exactA) F n_t sa sb HE HE (default_neutral exactA)) as [SB _].
    + intros e1 e2 K. congruence.
    + intros x1 y1 K1 K2. rewrite Hx in K1. rewrite Hy in K2. injection K1 as <-. injection K2 as <-. exact Hs.
    + specialize (SB false false). rewrite V in SB. split.
      * rewrite V. eexists _, _. split; [reflexivity|]. split; [reflexivity|]. apply Qred_correct.
      * destruct (boundary_similarity exactA E (default_weights exactA) F n_t false false sb sa) as [[w|]|]; cbn in SB; try contradiction. subst w.
        eexists _, _. split; [reflexivity|]. split; [reflexivity|]. apply Qred_correct.
  - destruct r as [[|lo'|]|]; try discriminate. destruct r' as [[|hi'|]|]; try discriminate. cbn in H2, H4. injection H2 as ->. injection H4 as ->.
    exists v, k, lo, k', hi. auto.
Qed.

Lemma among_S om lord d : lord_ok lord -> plain_coders items ->
  compute_pairwise_values (segmentation_similarity exactA E (default_weights exactA) F n_t false false) lord false items None = Ok d ->
  exists v k lo k' hi, actual_agreement_linear exactA (compare_S exactA E (default_weights exactA) n_t om) f cord c = Ok (NDec v) /\
    (k, SVal (NDec lo)) ∈ d /\ (k', SVal (NDec hi)) ∈ d /\ (lo <= v <= hi)%Q.
Proof.
  intros Hl Hpl Hd. destruct (among value_S (segmentation_similarity exactA E (default_weights exactA) F n_t false false) (compare_S exactA E (default_weights exactA) n_t om) lord d (by_S _ _ _ _ om I) Hl Hpl) as (v & k & r & lo & k' & r' & hi & Ha & H1 & H2 & H3 & H4 & H5);
    [|exact Hd|].
  - intros m n ic sa sb p q Hic Hm Hn' Hne Hsa Hsb Hc. destruct (strings m n ic sa sb Hic Hm Hn' Hne Hsa Hsb) as (x & y & Hx & Hy & L1 & L2 & Hxy & Hu & Hs).
    destruct (S_flags exactA E F n_t sa sb x y HE Hxy Hu Hn) as (nu & de & P1 & P2 & _ & _ & V & _).
    assert (Q : p = nu /\ q = de).
    { unfold compare_S, compare_of in Hc. rewrite (proj2 (Z.eqb_neq _ _) L1), (proj2 (Z.eqb_neq _ _) L2) in Hc. cbn [negb andb] in Hc.
      destruct om; [rewrite P2 in Hc|rewrite P1 in Hc]; cbn [bind] in Hc; injection Hc as <- <-; auto. }
    destruct Q as [-> ->]. destruct (metrics_symmetric exactA E E (default_weights exactA) F n_t sa sb HE HE (default_neutral exactA)) as [_ SS].
    + intros e1 e2 K. congruence.
    + intros x1 y1 K1 K2. rewrite Hx in K1. rewrite Hy in K2. injection K1 as <-. injection K2 as <-. exact Hs.
    + split.
      * rewrite V. eexists _, _. split; [reflexivity|]. split; [reflexivity|]. apply Qred_correct.
      * rewrite <- SS, V. eexists _, _. split; [reflexivity|]. split; [reflexivity|]. apply Qred_correct.
  - destruct r as [[|lo'|]|]; try discriminate. destruct r' as [[|hi'|]|]; try discriminate. cbn in H2, H4. injection H2 as ->. injection H4 as ->.
    exists v, k, lo, k', hi. auto.
Qed.
End between.

Theorem pooled_between_B E n_t f cord c om lord d : env_ok E -> n_t <> 0 -> lord_ok lord ->
  coded (c_format c f) (cord (c_coders c)) (c_items c) -> cached (c_format c f) (cord (c_coders c)) (c_items c) ->
  items_ok (c_items c) -> plain_coders (c_items c) ->
  compute_pairwise_values (boundary_similarity exactA E (default_weights exactA) (c_format c f) n_t false false) lord false (c_items c) None = Ok d ->
  exists v k lo k' hi, actual_agreement_linear exactA (compare_B exactA E (default_weights exactA) n_t om) f cord c = Ok (NDec v) /\
    (k, BVal (NDec lo)) ∈ d /\ (k', BVal (NDec hi)) ∈ d /\ (lo <= v <= hi)%Q.
Proof. intros HE Hn Hl HC HF HI Hpl. apply among_B; assumption. Qed.

Theorem pooled_between_S E n_t f cord c om lord d : env_ok E -> n_t <> 0 -> lord_ok lord ->
  coded (c_format c f) (cord (c_coders c)) (c_items c) -> cached (c_format c f) (cord (c_coders c)) (c_items c) ->
  items_ok (c_items c) -> plain_coders (c_items c) ->
  compute_pairwise_values (segmentation_similarity exactA E (default_weights exactA) (c_format c f) n_t false false) lord false (c_items c) None = Ok d ->
  exists v k lo k' hi, actual_agreement_linear exactA (compare_S exactA E (default_weights exactA) n_t om) f cord c = Ok (NDec v) /\
    (k, SVal (NDec lo)) ∈ d /\ (k', SVal (NDec hi)) ∈ d /\ (lo <= v <= hi)%Q.
Proof. intros HE Hn Hl HC HF HI Hpl. apply among_S; assumption. Qed.

Theorem pooled_common E n_t f cord c om lord d q : env_ok E -> n_t <> 0 -> lord_ok lord ->
  coded (c_format c f) (cord (c_coders c)) (c_items c) -> cached (c_format c f) (cord (c_coders c)) (c_items c) ->
  items_ok (c_items c) -> plain_coders (c_items c) ->
  compute_pairwise_values (boundary_similarity exactA E (default_weights exactA) (c_format c f) n_t false false) lord false (c_items c) None = Ok d ->
  (forall k x, (k, BVal (NDec x)) ∈ d -> (x == q)%Q) ->
  exists v, actual_agreement_linear exactA (compare_B exactA E (default_weights exactA) n_t om) f cord c = Ok (NDec v) /\ (v == q)%Q.
Proof.
  intros HE Hn Hl HC HF HI Hpl Hd Hq. destruct (pooled_between_B E n_t f cord c om lord d HE Hn Hl HC HF HI Hpl Hd) as (v & k & lo & k' & hi & Ha & H1 & H2 & H3 & H4).
  exists v. split; [exact Ha|]. rewrite (Hq _ _ H1) in H3. rewrite (Hq _ _ H2) in H4. apply Qle_antisym; assumption.
Qed.
