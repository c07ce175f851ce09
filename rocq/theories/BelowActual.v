(** Pi and kappa against actual agreement. *)
From Coq Require Import Lqa.
From stdpp Require Import gmap.
From Verif Require Import SpecAgreement SpecML SpecDispatch SpecSim SpecValue SpecSilent Spec Agreement DictProofs DispatchProofs MLSums AgreementProofs AgreementExact AgreementMain AgreementPublic AgreementValue AgreementFinal Pooled.
Open Scope Z_scope.

Lemma marks_zero x : marks x = 0 <-> forall t, t ∈ x -> t = ∅.
Proof.
  unfold marks. induction x as [|s x IH].
  - split; [|reflexivity]. intros _ t H. apply elem_of_nil in H. contradiction.
  - rewrite fmap_cons. cbn [sum_list sum_list_with foldr]. split.
    + intros H t K. apply elem_of_cons in K as [->|K]; [|apply IH; [|exact K]; cbn in *; lia]. apply leibniz_equiv, size_empty_inv. cbn in *. lia.
    + intros H. rewrite (H s ltac:(left)). cbn. rewrite size_empty. cbn. apply IH. intros t K. apply H. right. exact K.
Qed.

Lemma used_marks x y d : used x y d -> 0 < marks x + marks y.
Proof.
  intros (i & H). pose proof (marks_room x y) as [P1 _]. pose proof (marks_room y x) as [P2 _].
  assert (K : forall z, has z i d -> marks z <> 0).
  { intros z Hz K. rewrite marks_zero in K. destruct Hz as (s & Hs & Hd). rewrite (K s) in Hd by (eapply elem_of_list_lookup_2; exact Hs). apply not_elem_of_empty in Hd. exact Hd. }
  destruct H as [H|H]; apply K in H; lia.
Qed.

Lemma qsum_null {X} (g : X -> Q) l : (forall x, x ∈ l -> 0 <= g x)%Q -> (qsum (g <$> l) == 0)%Q -> forall x, x ∈ l -> (g x == 0)%Q.
Proof.
  induction l as [|y l IH]; intros H Hs x Hx; [apply elem_of_nil in Hx; contradiction|]. rewrite fmap_cons, qsum_cons in Hs.
  assert (P : (0 <= qsum (g <$> l))%Q). { apply qsum_nonneg, Forall_fmap, Forall_forall. intros z Hz. apply H. right. exact Hz. }
  pose proof (H y ltac:(left)). apply elem_of_cons in Hx as [->|Hx]; [lra|]. apply IH; [intros; apply H; right; assumption|lra|exact Hx].
Qed.

Lemma zsum_null {X} (g : X -> Z) l : (forall x, x ∈ l -> 0 <= g x) -> 0 <= zsum (g <$> l) /\ (zsum (g <$> l) = 0 <-> forall x, x ∈ l -> g x = 0).
Proof.
  induction l as [|y l IH]; intros H.
  - split; [cbn; lia|]. split; [|reflexivity]. intros _ x Hx. apply elem_of_nil in Hx. contradiction.
  - destruct IH as [I1 I2]; [intros; apply H; right; assumption|]. pose proof (H y ltac:(left)) as P. rewrite fmap_cons. unfold zsum in *. cbn [foldr]. split; [lia|]. split.
    + intros K x Hx. apply elem_of_cons in Hx as [->|Hx]; [lia|]. apply I2; [lia|exact Hx].
    + intros K. rewrite (K y ltac:(left)). rewrite (proj2 I2); [reflexivity|]. intros x Hx. apply K. right. exact Hx.
Qed.

Lemma div_zero a b : 0 < b -> (inject_Z a / inject_Z b == 0)%Q <-> a = 0.
Proof.
  intros Hb. assert (P : (0 < inject_Z b)%Q) by (rewrite <- (Zlt_Qlt 0); exact Hb). split.
  - intros H. apply inject_Z_injective. assert (K : (inject_Z a == inject_Z a / inject_Z b * inject_Z b)%Q) by (field; lra). rewrite K, H. ring.
  - intros ->. unfold Qdiv. ring.
Qed.
Lemma div_nonneg a b : 0 <= a -> 0 < b -> (0 <= inject_Z a / inject_Z b)%Q.
Proof.
  intros Ha Hb. apply Qle_shift_div_l; [rewrite <- (Zlt_Qlt 0); exact Hb|]. rewrite Qmult_0_l, <- (Zle_Qle 0). exact Ha.
Qed.

Section chance.
Context (F : fmt) (coders : list string) (items : dict (dict seg)) (HC : coded F coders items).

Lemma pair_room m n ic : m ∈ coders -> n ∈ coders -> m <> n -> ic ∈ items -> 0 < room (coding F m ic) (coding F n ic).
Proof. intros Hm Hn Hne Hic. apply room_pos; [apply (coded_len _ _ _ HC); assumption|apply (coded_used _ _ _ HC); assumption]. Qed.

Lemma comparisons_in m n ic : ((m, n), ic) ∈ comparisons coders items -> m ∈ coders /\ n ∈ coders /\ m <> n /\ ic ∈ items.
Proof.
  intros H. unfold comparisons in H. rewrite two_of_pairs2 in H. apply (elem_of_jobs_of coders items) in H as [H1 H2].
  apply pairs2_distinct in H1 as (? & ? & ?); [auto|exact (coded_coders _ _ _ HC)].
Qed.

Lemma two_ne : pairs2 coders <> [].
Proof. pose proof (coded_two _ _ _ HC) as H2. destruct coders as [|x [|y r]]; [cbn in H2; lia|cbn in H2; lia|discriminate]. Qed.

Lemma comparisons_ne : comparisons coders items <> [].
Proof.
  pose proof two_ne as H. pose proof (coded_items _ _ _ HC) as K. unfold comparisons. rewrite two_of_pairs2. destruct (pairs2 coders); [contradiction|]. destruct items; [contradiction|]. discriminate.
Qed.

Lemma pi_chance_pos : (0 < pi_chance F coders items)%Q.
Proof.
  unfold pi_chance. cbv zeta. unfold gather.
  set (g := fun '((m, n), ic) => (portion F m n ic + portion F n m ic)%Q). change (fun '(m, n, ic) => (portion F m n ic + portion F n m ic)%Q) with g.
  assert (HN : forall x, x ∈ comparisons coders items -> (0 <= g x)%Q).
  { intros [[m n] ic] H. apply comparisons_in in H as (H1 & H2 & H3 & H4). unfold g, portion.
    pose proof (div_nonneg (marks (coding F m ic)) (room (coding F m ic) (coding F n ic))). pose proof (div_nonneg (marks (coding F n ic)) (room (coding F n ic) (coding F m ic))).
    pose proof (marks_room (coding F m ic) (coding F n ic)) as [M1 _]. pose proof (marks_room (coding F n ic) (coding F m ic)) as [M2 _].
    pose proof (pair_room m n ic H1 H2 H3 H4). pose proof (pair_room n m ic H2 H1 (not_eq_sym H3) H4).
    specialize (H M1 ltac:(assumption)). specialize (H0 M2 ltac:(assumption)). lra. }
  assert (P : (0 <= qsum (g <$> comparisons coders items))%Q) by (apply qsum_nonneg, Forall_fmap, Forall_forall; exact HN).
  assert (P' : ~ (qsum (g <$> comparisons coders items) == 0)%Q).
  { intros K. pose proof (qsum_null g _ HN K) as Z. pose proof comparisons_ne as Hne. destruct (comparisons coders items) as [|[[m n] ic] J] eqn:EJ; [contradiction|].
    specialize (Z ((m, n), ic) ltac:(left)). assert (HI : ((m, n), ic) ∈ comparisons coders items) by (rewrite EJ; left). apply comparisons_in in HI as (H1 & H2 & H3 & H4).
    unfold g, portion in Z. pose proof (pair_room m n ic H1 H2 H3 H4) as R1. pose proof (pair_room n m ic H2 H1 (not_eq_sym H3) H4) as R2.
    pose proof (marks_room (coding F m ic) (coding F n ic)) as [M1 _]. pose proof (marks_room (coding F n ic) (coding F m ic)) as [M2 _].
    pose proof (div_nonneg _ _ M1 R1) as D1. pose proof (div_nonneg _ _ M2 R2) as D2.
    assert (Z1 : marks (coding F m ic) = 0) by (apply (div_zero _ _ R1); lra). assert (Z2 : marks (coding F n ic) = 0) by (apply (div_zero _ _ R2); lra).
    destruct (coded_used _ _ _ HC ic m n H4 H1 H2 H3) as [d Hd]. apply used_marks in Hd. lia. }
  assert (L : (0 < inject_Z (2 * zlen (comparisons coders items)))%Q).
  { rewrite <- (Zlt_Qlt 0). pose proof comparisons_ne. destruct (comparisons coders items); [contradiction|]. unfold zlen. cbn [length]. lia. }
  assert (Q0 : (0 < qsum (g <$> comparisons coders items) / inject_Z (2 * zlen (comparisons coders items)))%Q) by (apply Qlt_shift_div_l; [exact L|]; lra).
  apply Qmult_lt_0_compat; exact Q0.
Qed.

Lemma pooled_null k : k ∈ coders -> (0 <= pooled_portion F coders items k)%Q /\ ((pooled_portion F coders items k == 0)%Q <-> silent F items k).
Proof.
  intros Hk. unfold pooled_portion. cbv zeta. set (others := filter (fun d => d <> k) coders).
  assert (Ho : 0 < zlen others).
  { assert (others <> []); [|destruct others; [contradiction|unfold zlen; cbn [length]; lia]]. intros K.
    pose proof (coded_two _ _ _ HC) as H2. pose proof (coded_coders _ _ _ HC) as HN.
    assert (A : forall d, d ∈ coders -> d = k). { intros d Hd. destruct (decide (d = k)) as [|N]; [assumption|]. assert (B : d ∈ others) by (apply elem_of_list_filter; auto). rewrite K in B. apply elem_of_nil in B. contradiction. }
    destruct coders as [|x [|y r]]; [cbn in H2; lia|cbn in H2; lia|]. apply NoDup_cons in HN as [HN _]. apply HN. rewrite (A x ltac:(left)), <- (A y ltac:(right; left)). left. }
  destruct (zsum_null (fun ic => marks (coding F k ic)) items) as [M1 M2]; [intros ic _; exact (proj1 (marks_room _ (coding F k ic)))|].
  assert (R : 0 < zsum (others ≫= fun d => (fun ic => room (coding F k ic) (coding F d ic)) <$> items)).
  { assert (G : forall l, l <> [] -> (forall d, d ∈ l -> d ∈ coders /\ d <> k) -> 0 < zsum (l ≫= fun d => (fun ic => room (coding F k ic) (coding F d ic)) <$> items)).
    { assert (T : forall d, d ∈ coders -> d <> k -> 0 < zsum ((fun ic => room (coding F k ic) (coding F d ic)) <$> items)).
      { intros d H1 H2. apply Pooled.zsum_pos; [exact (coded_items _ _ _ HC)|]. intros ic Hic. apply pair_room; auto. }
      induction l as [|d l IH]; intros Hne Hl; [contradiction|]. cbn [mbind list_bind]. rewrite FormatProofs.zsum_app. destruct (Hl d ltac:(left)) as [H1 H2]. pose proof (T d H1 H2).
      destruct l as [|e l]; [cbn [mbind list_bind]; cbn; cbn in H; lia|]. pose proof (IH ltac:(discriminate) ltac:(intros; apply Hl; right; assumption)). unfold mbind in *. lia. }
    apply G; [destruct others; [unfold zlen in Ho; cbn in Ho; lia|discriminate]|]. intros d Hd. apply elem_of_list_filter in Hd as [? ?]. auto. }
  split; [apply div_nonneg; [nia|exact R]|]. rewrite div_zero by exact R. unfold silent. split.
  - intros H ic t Hic Ht. assert (Z : zsum ((fun ic => marks (coding F k ic)) <$> items) = 0) by nia. rewrite M2 in Z. specialize (Z ic Hic). cbn beta in Z. rewrite marks_zero in Z. apply Z, Ht.
  - intros H. rewrite (proj2 M2); [lia|]. intros ic Hic. apply marks_zero. intros t Ht. exact (H ic t Hic Ht).
Qed.

Lemma kappa_chance_null : (kappa_chance F coders items == 0)%Q <-> forall c c', c ∈ coders -> c' ∈ coders -> c <> c' -> silent F items c \/ silent F items c'.
Proof.
  unfold kappa_chance. rewrite two_of_pairs2. set (g := fun '((m, n) : string * string) => (pooled_portion F coders items m * pooled_portion F coders items n)%Q).
  assert (L : (0 < inject_Z (zlen (pairs2 coders)))%Q). { rewrite <- (Zlt_Qlt 0). pose proof two_ne. destruct (pairs2 coders); [contradiction|]. unfold zlen. cbn [length]. lia. }
  assert (D : (qsum (g <$> pairs2 coders) / inject_Z (zlen (pairs2 coders)) == 0 <-> qsum (g <$> pairs2 coders) == 0)%Q).
  { set (q := qsum (g <$> pairs2 coders)). split; intros H; [|rewrite H; unfold Qdiv; ring].
    assert (K : (q == q / inject_Z (zlen (pairs2 coders)) * inject_Z (zlen (pairs2 coders)))%Q) by (field; lra). rewrite K, H. ring. }
  rewrite D. split.
  - intros H. assert (Z : forall p, p ∈ pairs2 coders -> (g p == 0)%Q).
    { apply qsum_null; [|exact H]. intros [m n] Hp. apply pairs2_distinct in Hp as (H1 & H2 & _); [|exact (coded_coders _ _ _ HC)].
      apply Qmult_le_0_compat; apply pooled_null; assumption. }
    assert (Y : forall m n, (m, n) ∈ pairs2 coders -> silent F items m \/ silent F items n).
    { intros m n Hp. specialize (Z _ Hp). apply pairs2_distinct in Hp as (H1 & H2 & _); [|exact (coded_coders _ _ _ HC)].
      apply Qmult_integral in Z as [Z|Z]; [left|right]; apply pooled_null; assumption. }
    intros c c' Hc Hc' Hne. destruct (AgreementFinal.pair_of coders c c' (coded_coders _ _ _ HC) Hc Hc' Hne) as [K|K]; apply Y in K; tauto.
  - intros H. apply qsum_zero. intros [m n] Hp. apply pairs2_distinct in Hp as (H1 & H2 & H3); [|exact (coded_coders _ _ _ HC)]. unfold g.
    destruct (H m n H1 H2 H3) as [K|K]; apply pooled_null in K; try assumption; rewrite K; ring.
Qed.
End chance.

Lemma beyond_below a e : (a <= 1)%Q -> (0 <= e < 1)%Q -> (beyond a e <= a)%Q /\ ((beyond a e == a)%Q <-> (a == 1)%Q \/ (e == 0)%Q).
Proof.
  intros Ha He. assert (D : (a - beyond a e == e * (1 - a) / (1 - e))%Q) by (unfold beyond; field; lra).
  assert (K : (0 <= e * (1 - a) / (1 - e))%Q) by (apply Qle_shift_div_l; [lra|]; rewrite Qmult_0_l; apply Qmult_le_0_compat; lra).
  split; [lra|]. split.
  - intros H. assert (Z : (e * (1 - a) == 0)%Q).
    { assert (T : (e * (1 - a) == e * (1 - a) / (1 - e) * (1 - e))%Q) by (field; lra). rewrite T, <- D, H. ring. }
    apply Qmult_integral in Z as [Z|Z]; [right; exact Z|left; lra].
  - intros [H|H]; assert (Z : (e * (1 - a) / (1 - e) == 0)%Q) by (rewrite H; field; lra); lra.
Qed.

Theorem below_actual E n_t f cord c cmp :
  env_ok E -> n_t <> 0 -> coded (c_format c f) (cord (c_coders c)) (c_items c) -> full (cord (c_coders c)) (c_items c) ->
  comparison exactA E n_t (cached (c_format c f) (cord (c_coders c)) (c_items c)) cmp ->
  ~ all_gaps_marked (c_format c f) (cord (c_coders c)) (c_items c) ->
  let agreed := unanimous (c_format c f) (cord (c_coders c)) (c_items c) in
  exists a v w, actual_agreement_linear exactA cmp f cord c = Ok (NDec a) /\
  fleiss_pi_linear exactA cmp f cord false c = Ok (GVal (NDec v)) /\
  fleiss_kappa_linear exactA cmp f cord false c = Ok (GVal (NDec w)) /\
  (v <= a)%Q /\ (w <= a)%Q /\ ((v == a)%Q <-> agreed) /\
  ((w == a)%Q <-> agreed \/ forall m n, m ∈ cord (c_coders c) -> n ∈ cord (c_coders c) -> m <> n ->
    silent (c_format c f) (c_items c) m \/ silent (c_format c f) (c_items c) n).
Proof.
  intros HE Hn HC HF Hcmp HM agreed.
  destruct (pi_kappa_values E n_t f cord c cmp HE Hn HC HF Hcmp HM) as (a & p & k & v & w & b & Ha & _ & _ & _ & Hv & Hw & _ & Hp & Hk & Ep & Ek & Ev & Ew & _).
  destruct (actual_exact E n_t f cord c cmp HE Hn HC Hcmp) as (_ & _ & a' & _ & Ha' & _ & [_ B] & U). assert (a' = a) by congruence. subst a'.
  exists a, v, w. do 3 (split; [assumption|]). destruct (beyond_below a p B Hp) as [L1 Q1]. destruct (beyond_below a k B Hk) as [L2 Q2].
  pose proof (pi_chance_pos _ _ _ HC) as P. rewrite <- Ep in P. pose proof (kappa_chance_null _ _ _ HC) as K. rewrite <- Ek in K.
  rewrite Ev, Ew. split; [exact L1|]. split; [exact L2|]. rewrite Q1, Q2, U, K. split; [|reflexivity].
  split; [|tauto]. intros [H|H]; [exact H|]. lra.
Qed.
