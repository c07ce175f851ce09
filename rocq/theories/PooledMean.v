(** Actual agreement as a mean of the values of the pairs. *)
From Coq Require Import Lqa.
From stdpp Require Import gmap.
From Verif Require Import SpecAgreement SpecML SpecMath SpecDispatch SpecSim Spec Agreement DictProofs DispatchProofs DispatchMain MLSums AgreementProofs AgreementExact AgreementMain AgreementPublic SimMain SimSym MathProofs Reload Pooled BothOrders.
Open Scope Z_scope.

Lemma bind_swap {X Y Z} (g : X -> Y -> Z) l k : l ≫= (fun x => (fun y => g x y) <$> k) ≡ₚ k ≫= (fun y => (fun x => g x y) <$> l).
Proof.
  induction l as [|x l IH]; cbn [mbind list_bind].
  - induction k as [|y k IHk]; [reflexivity|]. cbn. exact IHk.
  - etransitivity; [apply Permutation_app_head, IH|]. clear IH. induction k as [|y k IHk]; [reflexivity|].
    cbn. apply perm_skip. etransitivity; [|apply Permutation_app_head, IHk].
    rewrite !app_assoc. apply Permutation_app_tail, Permutation_app_comm.
Qed.

Lemma bind_ext_in {X Y} (h h' : X -> list Y) l : (forall x, x ∈ l -> h x = h' x) -> l ≫= h = l ≫= h'.
Proof.
  induction l as [|x l IH]; intros H; [reflexivity|]. cbn [mbind list_bind]. f_equal; [apply H; left|]. apply IH. intros y Hy. apply H. right. exact Hy.
Qed.

Section mean.
Context (E : env) (n_t : Z) (f : fmt) (cord : gset string -> list string) (c : container).
Context (HE : env_ok E) (Hn : n_t <> 0).
Let F := c_format c f.
Let coders := cord (c_coders c).
Let items := c_items c.
Context (HC : coded F coders items) (HF : cached F coders items) (HI : items_ok items) (HU : full coders items).

Lemma pooled_values {R} (out : Q -> R) (metric : seg -> seg -> res R) cmp lord d : comparison exactA E n_t True cmp ->
  lord_ok lord -> plain_coders items ->
  (forall m n ic sa sb p q, ic ∈ items -> m ∈ coders -> n ∈ coders -> m <> n -> dget (snd ic) m = Some sa -> dget (snd ic) n = Some sb ->
     cmp F sa sb = Ok (NDec p, NInt q) -> metric sa sb = Ok (out (Qred (p / inject_Z q)))) ->
  (forall m n ic sa sb, ic ∈ items -> m ∈ coders -> n ∈ coders -> m <> n -> dget (snd ic) m = Some sa -> dget (snd ic) n = Some sb ->
     metric sa sb = metric sb sa) ->
  compute_pairwise_values metric lord false items None = Ok d ->
  exists (num : string -> string -> string * dict seg -> Q) (den : string -> string -> string * dict seg -> Z) v,
    (forall m n ic, (m, n) ∈ two_of coders -> ic ∈ items ->
      exists sa sb, dget (snd ic) m = Some sa /\ dget (snd ic) n = Some sb /\ cmp F sa sb = Ok (NDec (num m n ic), NInt (den m n ic)) /\ 0 < den m n ic) /\
    actual_agreement_linear exactA cmp f cord c = Ok (NDec v) /\
    (v == qsum (gather num coders items) / inject_Z (zsum (gather den coders items)))%Q /\
    d.*2 ≡ₚ gather (fun m n ic => out (Qred (num m n ic / inject_Z (den m n ic)))) coders items.
Proof.
  intros Hcmp Hl Hpl Hm Hs Hd.
  destruct (actual_exact E n_t f cord c cmp HE Hn HC) as (num & den & v & Hp & Ha & Hv & _).
  { destruct Hcmp; constructor. exact HF. }
  exists num, den, v. split; [exact Hp|]. split; [exact Ha|]. split; [exact Hv|].
  rewrite (values_perm metric lord items d Hl HI Hpl Hd).
  set (h := fun (ic : string * dict seg) (p : string * string) =>
    match dget (snd ic) (fst p), dget (snd ic) (snd p) with Some a, Some b => gives metric a b | _, _ => [] end).
  transitivity (items ≫= (fun ic => (fun p => out (Qred (num (fst p) (snd p) ic / inject_Z (den (fst p) (snd p) ic)))) <$> pairs2 coders)).
  - apply bind_perm_r. intros ic Hic. transitivity (pairs2 (snd ic).*1 ≫= h ic); [|transitivity (pairs2 coders ≫= h ic)].
    + rewrite pairs2_fmap, fmap_bind. apply reflexive_eq, bind_ext_in. intros [e e'] He. cbn [fst snd]. unfold h. cbn [fst snd].
      apply elem_of_pairs2 in He as (u & w & _ & Hu & Hw). apply elem_of_list_lookup_2 in Hu, Hw. destruct ic as [i cs]. cbn [snd] in *.
      pose proof (proj2 HI i cs Hic) as Hk. destruct e as [k1 s1], e' as [k2 s2]. cbn [fst snd].
      rewrite (proj2 (dget_Some cs k1 s1 Hk) Hu), (proj2 (dget_Some cs k2 s2 Hk) Hw). reflexivity.
    + apply pairs_bind_perm; [apply HU, Hic|]. intros m n H1 H2. rewrite (HU ic Hic) in H1, H2. unfold h. cbn [fst snd].
      destruct (decide (m = n)) as [->|Hmn]; [reflexivity|].
      destruct (dget (snd ic) m) as [a|] eqn:Ea; destruct (dget (snd ic) n) as [b|] eqn:Eb; try reflexivity.
      unfold gives. rewrite (Hs m n ic a b Hic H1 H2 Hmn Ea Eb). reflexivity.
    + apply reflexive_eq. rewrite (bind_ext_in (h ic) (fun p => [out (Qred (num (fst p) (snd p) ic / inject_Z (den (fst p) (snd p) ic)))])).
      * generalize (pairs2 coders). intros l. induction l as [|p l IH]; [reflexivity|]. cbn. f_equal.
      * intros [m n] Hmn. rewrite <- two_of_pairs2 in Hmn. destruct (Hp m n ic Hmn Hic) as (sa & sb & Hsa & Hsb & Hc & _).
        rewrite two_of_pairs2 in Hmn. apply pairs2_distinct in Hmn as (H1 & H2 & H3); [|exact (coded_coders _ _ _ HC)].
        unfold h. cbn [fst snd]. rewrite Hsa, Hsb. unfold gives. rewrite (Hm m n ic sa sb _ _ Hic H1 H2 H3 Hsa Hsb Hc). reflexivity.
  - rewrite (bind_swap (fun ic p => out (Qred (num (fst p) (snd p) ic / inject_Z (den (fst p) (snd p) ic)))) items (pairs2 coders)).
    unfold gather, comparisons. rewrite two_of_pairs2. apply reflexive_eq. generalize (pairs2 coders). intros l.
    induction l as [|[m n] l IH]; [reflexivity|]. cbn [mbind list_bind]. rewrite fmap_app, <- list_fmap_compose. f_equal. exact IH.
Qed.

(** The weight of a value is the denominator of its comparison. *)
Lemma weighted {R} (out : Q -> R) (metric : seg -> seg -> res R) cmp lord d : comparison exactA E n_t True cmp ->
  lord_ok lord -> plain_coders items ->
  (forall m n ic sa sb p q, ic ∈ items -> m ∈ coders -> n ∈ coders -> m <> n -> dget (snd ic) m = Some sa -> dget (snd ic) n = Some sb ->
     cmp F sa sb = Ok (NDec p, NInt q) -> metric sa sb = Ok (out (Qred (p / inject_Z q)))) ->
  (forall m n ic sa sb, ic ∈ items -> m ∈ coders -> n ∈ coders -> m <> n -> dget (snd ic) m = Some sa -> dget (snd ic) n = Some sb ->
     metric sa sb = metric sb sa) ->
  compute_pairwise_values metric lord false items None = Ok d ->
  exists v (l : list (Z * Q)), actual_agreement_linear exactA cmp f cord c = Ok (NDec v) /\
    d.*2 ≡ₚ (fun p => out (snd p)) <$> l /\
    (forall w x, (w, x) ∈ l -> 0 < w /\ exists m n ic sa sb p, (m, n) ∈ two_of coders /\ ic ∈ items /\ dget (snd ic) m = Some sa /\ dget (snd ic) n = Some sb /\ cmp F sa sb = Ok (NDec p, NInt w)) /\
    l <> [] /\
    (v == qsum ((fun p => inject_Z (fst p) * snd p) <$> l) / inject_Z (zsum (fst <$> l)))%Q.
Proof.
  intros Hcmp Hl Hpl Hm Hs Hd. destruct (pooled_values out metric cmp lord d Hcmp Hl Hpl Hm Hs Hd) as (num & den & v & Hp & Ha & Hv & HD).
  set (J := comparisons coders items).
  assert (HJ : forall m n ic, ((m, n), ic) ∈ J <-> (m, n) ∈ two_of coders /\ ic ∈ items).
  { intros m n ic. unfold J, comparisons. rewrite two_of_pairs2. apply (elem_of_jobs_of coders items). }
  set (g := fun '((m, n), ic) => (den m n ic, Qred (num m n ic / inject_Z (den m n ic)))).
  exists v, (g <$> J). split; [exact Ha|]. split; [|split; [|split]].
  - rewrite HD. unfold gather. fold J. rewrite <- list_fmap_compose. apply reflexive_eq, list_fmap_ext. intros ? [[m n] ic] _. reflexivity.
  - intros w x H. apply elem_of_list_fmap in H as ([[m n] ic] & K & H). apply HJ in H as [H1 H2]. cbn in K. injection K as -> ->.
    destruct (Hp m n ic H1 H2) as (sa & sb & A & B & D & P). split; [exact P|]. exists m, n, ic, sa, sb, (num m n ic). auto 10.
  - pose proof (coded_two _ _ _ HC) as H2. pose proof (coded_items _ _ _ HC) as Hne. unfold J, comparisons. rewrite two_of_pairs2.
    fold coders in H2. destruct coders as [|c1 [|c2 rest]]; [cbn in H2; lia|cbn in H2; lia|]. fold items in Hne. destruct items as [|ic rest']; [contradiction|]. discriminate.
  - rewrite Hv. unfold gather. fold J.
    assert (EQ : (qsum ((fun p => inject_Z (fst p) * snd p)%Q <$> (g <$> J)) == qsum ((fun '((m, n), ic) => num m n ic) <$> J))%Q).
    { assert (K : forall m n ic, ((m, n), ic) ∈ J -> 0 < den m n ic).
      { intros m n ic H. apply HJ in H as [H1 H2]. destruct (Hp m n ic H1 H2) as (? & ? & _ & _ & _ & P). exact P. }
      revert K. generalize J. intros l K. induction l as [|[[m n] ic] l IH]; [reflexivity|]. rewrite !fmap_cons, !qsum_cons, IH.
      - cbn [g fst snd]. rewrite Qred_correct. assert (P : (0 < inject_Z (den m n ic))%Q) by (rewrite <- (Zlt_Qlt 0); apply K; left).
        assert (X : (inject_Z (den m n ic) * (num m n ic / inject_Z (den m n ic)) == num m n ic)%Q) by (field; intros Z; rewrite Z in P; discriminate).
        rewrite X. reflexivity.
      - intros m' n' ic' H. apply K. right. exact H. }
    rewrite EQ. rewrite <- list_fmap_compose.
    assert (EZ : (fst ∘ g <$> J) = ((fun '((m, n), ic) => den m n ic) <$> J)) by (apply list_fmap_ext; intros ? [[m n] ic] _; reflexivity).
    rewrite EZ. reflexivity.
Qed.

Lemma weighted_B om lord d : lord_ok lord -> plain_coders items ->
  compute_pairwise_values (boundary_similarity exactA E (default_weights exactA) F n_t false false) lord false items None = Ok d ->
  exists v (l : list (Z * Q)), actual_agreement_linear exactA (compare_B exactA E (default_weights exactA) n_t om) f cord c = Ok (NDec v) /\
    d.*2 ≡ₚ (fun p => BVal (NDec (snd p))) <$> l /\ Forall (fun p => 0 < fst p) l /\
    (v == qsum ((fun p => inject_Z (fst p) * snd p) <$> l) / inject_Z (zsum (fst <$> l)))%Q.
Proof.
  intros Hl Hpl Hd. destruct (weighted (fun q => BVal (NDec q)) (boundary_similarity exactA E (default_weights exactA) F n_t false false) (compare_B exactA E (default_weights exactA) n_t om) lord d (by_B _ _ _ _ om) Hl Hpl) as (v & l & Ha & H1 & H2 & _ & H3); [| |exact Hd|].
  - intros m n ic sa sb p q Hic Hm Hn' Hne Hsa Hsb Hc. destruct (strings f cord c HC HF m n ic sa sb Hic Hm Hn' Hne Hsa Hsb) as (x & y & Hx & Hy & L1 & L2 & Hxy & Hu & Hs).
    destruct (B_flags exactA E F n_t sa sb x y HE Hxy Hu Hn) as (nu & de & e & P1 & P2 & _ & _ & _ & V & _).
    assert (Q : p = nu /\ q = de).
    { unfold compare_B, compare_of in Hc. rewrite (proj2 (Z.eqb_neq _ _) L1), (proj2 (Z.eqb_neq _ _) L2) in Hc. cbn [negb andb] in Hc.
      destruct om; [rewrite P2 in Hc|rewrite P1 in Hc]; cbn [bind] in Hc; injection Hc as <- <-; auto. }
    destruct Q as [-> ->]. exact V.
  - intros m n ic sa sb Hic Hm Hn' Hne Hsa Hsb. destruct (strings f cord c HC HF m n ic sa sb Hic Hm Hn' Hne Hsa Hsb) as (x & y & Hx & Hy & L1 & L2 & Hxy & Hu & Hs).
    destruct (B_flags exactA E F n_t sa sb x y HE Hxy Hu Hn) as (nu & de & e & _ & _ & _ & _ & _ & V & _).
    destruct (metrics_symmetric exactA E E (default_weights exactA) F n_t sa sb HE HE (default_neutral exactA)) as [SB _].
    + intros e1 e2 K. fold F in Hx. congruence.
    + intros x1 y1 K1 K2. fold F in Hx, Hy. rewrite Hx in K1. rewrite Hy in K2. injection K1 as <-. injection K2 as <-. exact Hs.
    + specialize (SB false false). rewrite V in SB |- *.
      destruct (boundary_similarity exactA E (default_weights exactA) F n_t false false sb sa) as [[w|]|]; cbn in SB; try contradiction. subst w. reflexivity.
  - exists v, l. split; [exact Ha|]. split; [exact H1|]. split; [|exact H3]. apply Forall_forall. intros [w x] H. apply (H2 w x H).
Qed.

(** All texts have [N] gaps and all pairs of codings use the same types: S has the same
    denominator everywhere. *)
Lemma mean_S om lord d N (T : gset Z) : lord_ok lord -> plain_coders items ->
  (forall ic k, ic ∈ items -> k ∈ coders -> zlen (coding F k ic) = N) ->
  (forall ic m n t, ic ∈ items -> m ∈ coders -> n ∈ coders -> m <> n -> used (coding F m ic) (coding F n ic) t <-> t ∈ T) ->
  compute_pairwise_values (segmentation_similarity exactA E (default_weights exactA) F n_t false false) lord false items None = Ok d ->
  exists v m s w e, actual_agreement_linear exactA (compare_S exactA E (default_weights exactA) n_t om) f cord c = Ok (NDec v) /\
    summarize exactA (numbers s_num d) = Ok (NDec m, NDec s, NDec w, NDec e, zlen d) /\ (m == v)%Q.
Proof.
  intros Hl Hpl HN HT Hd. set (D := N * (Z.of_nat (size T) * Z.of_nat (size T))).
  destruct (weighted (fun q => SVal (NDec q)) (segmentation_similarity exactA E (default_weights exactA) F n_t false false) (compare_S exactA E (default_weights exactA) n_t om) lord d (by_S _ _ _ _ om I) Hl Hpl) as (v & l & Ha & H1 & H2 & Hne & H3); [| |exact Hd|].
  - intros m n ic sa sb p q Hic Hm Hn' Hne Hsa Hsb Hc. destruct (strings f cord c HC HF m n ic sa sb Hic Hm Hn' Hne Hsa Hsb) as (x & y & Hx & Hy & L1 & L2 & Hxy & Hu & Hs).
    destruct (S_flags exactA E F n_t sa sb x y HE Hxy Hu Hn) as (nu & de & P1 & P2 & _ & _ & V & _).
    assert (Q : p = nu /\ q = de).
    { unfold compare_S, compare_of in Hc. rewrite (proj2 (Z.eqb_neq _ _) L1), (proj2 (Z.eqb_neq _ _) L2) in Hc. cbn [negb andb] in Hc.
      destruct om; [rewrite P2 in Hc|rewrite P1 in Hc]; cbn [bind] in Hc; injection Hc as <- <-; auto. }
    destruct Q as [-> ->]. exact V.
  - intros m n ic sa sb Hic Hm Hn' Hne Hsa Hsb. destruct (strings f cord c HC HF m n ic sa sb Hic Hm Hn' Hne Hsa Hsb) as (x & y & Hx & Hy & L1 & L2 & Hxy & Hu & Hs).
    destruct (metrics_symmetric exactA E E (default_weights exactA) F n_t sa sb HE HE (default_neutral exactA)) as [_ SS].
    + intros e1 e2 K. fold F in Hx. congruence.
    + intros x1 y1 K1 K2. fold F in Hx, Hy. rewrite Hx in K1. rewrite Hy in K2. injection K1 as <-. injection K2 as <-. exact Hs.
    + apply SS.
  - assert (W : forall p, p ∈ l -> fst p = D).
    { intros [w x] H. cbn [fst]. destruct (H2 w x H) as (_ & m & n & ic & sa & sb & p & Hmn & Hic & Hsa & Hsb & Hc).
      rewrite two_of_pairs2 in Hmn. apply pairs2_distinct in Hmn as (K1 & K2 & K3); [|exact (coded_coders _ _ _ HC)].
      destruct (strings f cord c HC HF m n ic sa sb Hic K1 K2 K3 Hsa Hsb) as (y & z & Hy & Hz & L1 & L2 & Hyz & Hu & Hs).
      destruct (S_flags exactA E F n_t sa sb y z HE Hyz Hu Hn) as (nu & de & P1 & P2 & Q & _).
      assert (w = de) as ->.
      { unfold compare_S, compare_of in Hc. rewrite (proj2 (Z.eqb_neq _ _) L1), (proj2 (Z.eqb_neq _ _) L2) in Hc. cbn [negb andb] in Hc.
        destruct om; [rewrite P2 in Hc|rewrite P1 in Hc]; cbn [bind] in Hc; injection Hc as <- <-; auto. }
      fold F in Hy, Hz. assert (C1 : coding F m ic = y) by (unfold coding; rewrite Hsa, Hy; reflexivity).
      assert (C2 : coding F n ic = z) by (unfold coding; rewrite Hsb, Hz; reflexivity).
      unfold D. rewrite <- (HN ic m Hic K1), C1. apply Q. intros t. rewrite <- C1, <- C2. symmetry. apply HT; assumption. }
    assert (Dp : 0 < D). { destruct l as [|[w x] l']; [contradiction|]. rewrite <- (W (w, x) ltac:(left)). apply (H2 w x ltac:(left)). }
    assert (Hd' : d <> []). { intros ->. cbn in H1. apply Permutation_nil_l in H1. destruct l; [contradiction|discriminate]. }
    assert (N1 : numbers s_num d <> []) by (destruct d; [contradiction|discriminate]).
    assert (NV : nval <$> (numbers s_num d).*2 ≡ₚ snd <$> l).
    { rewrite numbers_snd, H1, <- !list_fmap_compose. reflexivity. }
    assert (F1 : Forall not_float (numbers s_num d).*2).
    { rewrite numbers_snd, H1, <- list_fmap_compose. apply Forall_fmap, Forall_forall. intros p _. exact I. }
    destruct (summary_exact _ N1 F1) as (m & s & w & e & Es & Hm & _). exists v, m, s, w, e.
    assert (Z1 : zlen (numbers s_num d) = zlen d) by apply zlen_fmap. rewrite Z1 in Es. split; [exact Ha|]. split; [exact Es|].
    rewrite Hm, H3, (average_perm _ _ NV). unfold average.
    assert (S1 : (qsum ((fun p => inject_Z (fst p) * snd p)%Q <$> l) == inject_Z D * qsum (snd <$> l))%Q).
    { clear - W. induction l as [|p l IH]; [cbn; lra|]. rewrite !fmap_cons, !qsum_cons, IH, (W p ltac:(left)); [lra|]. intros q H. apply W. right. exact H. }
    assert (S2 : zsum (fst <$> l) = D * zlen l).
    { clear - W. induction l as [|p l IH]; [cbn; rewrite Z.mul_0_r; reflexivity|]. rewrite fmap_cons. change (fst p + zsum (fst <$> l) = D * zlen (p :: l)).
      rewrite IH, (W p ltac:(left)) by (intros q H; apply W; right; exact H). unfold zlen. cbn. lia. }
    rewrite S1, S2, inject_Z_mult, zlen_fmap.
    assert (P1 : (0 < inject_Z D)%Q) by (rewrite <- (Zlt_Qlt 0); exact Dp).
    assert (P2 : (0 < inject_Z (zlen l))%Q) by (rewrite <- (Zlt_Qlt 0); unfold zlen; destruct l; [contradiction|cbn; lia]).
    field. split; intros K; [rewrite K in P2; discriminate P2|rewrite K in P1; discriminate P1].
Qed.
End mean.

Theorem pooled_weighted E n_t f cord c om lord d : env_ok E -> n_t <> 0 -> lord_ok lord ->
  coded (c_format c f) (cord (c_coders c)) (c_items c) -> cached (c_format c f) (cord (c_coders c)) (c_items c) ->
  items_ok (c_items c) -> plain_coders (c_items c) -> full (cord (c_coders c)) (c_items c) ->
  compute_pairwise_values (boundary_similarity exactA E (default_weights exactA) (c_format c f) n_t false false) lord false (c_items c) None = Ok d ->
  exists v (l : list (Z * Q)), actual_agreement_linear exactA (compare_B exactA E (default_weights exactA) n_t om) f cord c = Ok (NDec v) /\
    d.*2 ≡ₚ (fun p => BVal (NDec (snd p))) <$> l /\ Forall (fun p => 0 < fst p) l /\
    (v == qsum ((fun p => inject_Z (fst p) * snd p) <$> l) / inject_Z (zsum (fst <$> l)))%Q.
Proof. intros HE Hn Hl HC HF HI Hpl HU. apply weighted_B; assumption. Qed.

Theorem pooled_mean E n_t f cord c om lord d N (T : gset Z) : env_ok E -> n_t <> 0 -> lord_ok lord ->
  coded (c_format c f) (cord (c_coders c)) (c_items c) -> cached (c_format c f) (cord (c_coders c)) (c_items c) ->
  items_ok (c_items c) -> plain_coders (c_items c) -> full (cord (c_coders c)) (c_items c) ->
  (forall ic k, ic ∈ c_items c -> k ∈ cord (c_coders c) -> zlen (coding (c_format c f) k ic) = N) ->
  (forall ic m n t, ic ∈ c_items c -> m ∈ cord (c_coders c) -> n ∈ cord (c_coders c) -> m <> n ->
     used (coding (c_format c f) m ic) (coding (c_format c f) n ic) t <-> t ∈ T) ->
  compute_pairwise_values (segmentation_similarity exactA E (default_weights exactA) (c_format c f) n_t false false) lord false (c_items c) None = Ok d ->
  exists v m s w e, actual_agreement_linear exactA (compare_S exactA E (default_weights exactA) n_t om) f cord c = Ok (NDec v) /\
    summarize exactA (numbers s_num d) = Ok (NDec m, NDec s, NDec w, NDec e, zlen d) /\ (m == v)%Q.
Proof. intros HE Hn Hl HC HF HI Hpl HU. apply mean_S; assumption. Qed.
