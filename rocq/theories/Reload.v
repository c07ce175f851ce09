(** Results before and after a dataset was saved and reloaded: the statements of PropsReload.v. *)
From Verif Require Export SpecReload SpecMath DataPublic MathProofs JsonFile.
From Verif Require Import SpecJson SpecAgreement SimSym WindowSym DispatchMain DispatchProofs AgreementExact AgreementPerm.
Open Scope Z_scope.

Section Same.
Context {C : Type}.
Implicit Types ia ib : dict (dict C).

Lemma same_sym ia ib : same_codings ia ib -> same_codings ib ia.
Proof. intros [H1 H2]. split; [intros i; rewrite H1; reflexivity|intros i c; symmetry; apply H2]. Qed.

Lemma same_get ia ib i cs : items_ok ia -> items_ok ib -> same_codings ia ib -> (i, cs) ∈ ia ->
  exists cs', (i, cs') ∈ ib /\ cs ≡ₚ cs'.
Proof.
  intros [A1 A2] [B1 B2] [H1 H2] K. assert (K' : i ∈ ib.*1) by (apply H1, elem_of_list_fmap; exists (i, cs); auto).
  apply elem_of_list_fmap in K' as ([i' cs'] & E & K'). cbn in E. subst i'. exists cs'. split; [exact K'|].
  pose proof (A2 _ _ K) as D. pose proof (B2 _ _ K') as D'.
  apply dget_Some in K; [|exact A1]. apply dget_Some in K'; [|exact B1].
  apply NoDup_Permutation; [apply dict_ok_NoDup, D|apply dict_ok_NoDup, D'|]. intros [c x].
  rewrite <- (dget_Some cs c x D), <- (dget_Some cs' c x D'). specialize (H2 i c). unfold coding_at in H2.
  rewrite K, K' in H2. rewrite H2. reflexivity.
Qed.

Lemma same_perm ia ib : items_ok ia -> items_ok ib -> same_codings ia ib ->
  exists i1, ia ≡ₚ i1 /\ Forall2 (fun x y => fst x = fst y /\ dict_ok (snd x) /\ snd x ≡ₚ snd y) i1 ib.
Proof.
  intros HA HB H. exists ((fun ic => (fst ic, default [] (dget ia (fst ic)))) <$> ib).
  assert (G : forall i cs', (i, cs') ∈ ib -> exists cs, (i, cs) ∈ ia /\ dget ia i = Some cs /\ cs ≡ₚ cs').
  { intros i cs' K. destruct (same_get ib ia i cs' HB HA (same_sym _ _ H) K) as (cs & K1 & K2). exists cs.
    split; [exact K1|]. split; [apply dget_Some; [apply HA|exact K1]|symmetry; exact K2]. }
  split.
  - apply NoDup_Permutation; [apply dict_ok_NoDup, HA| |].
    + apply (NoDup_fmap_1 fst). rewrite <- list_fmap_compose. exact (proj1 HB).
    + intros [i cs]. rewrite elem_of_list_fmap. split.
      * intros K. destruct (same_get ia ib i cs HA HB H K) as (cs' & K1 & _). exists (i, cs'). cbn [fst].
        apply dget_Some in K; [|apply HA]. rewrite K. auto.
      * intros ([i' cs'] & E & K). cbn [fst] in E. destruct (G _ _ K) as (cs1 & K1 & K2 & _). rewrite K2 in E. cbn in E. congruence.
  - apply Forall2_fmap_l, Forall_Forall2_diag, Forall_forall. intros [i cs'] K. unfold compose. cbn [fst snd].
    destruct (G _ _ K) as (cs & K1 & -> & K2). cbn [default]. split; [reflexivity|]. split; [|exact K2]. eapply HA, K1.
Qed.

Lemma same_plain ia ib : items_ok ia -> items_ok ib -> same_codings ia ib -> plain_coders ia -> plain_coders ib.
Proof.
  intros HA HB H HP i cs c s K1 K2. destruct (same_get ib ia i cs HB HA (same_sym _ _ H) K1) as (cs' & K3 & K4).
  apply (HP i cs' c s K3). rewrite <- K4. exact K2.
Qed.

(** Two codings of one item, in either order. *)
Lemma either_before ia item c1 c2 (a b : C) : items_ok ia ->
  (before ia item c1 c2 a b \/ before ia item c2 c1 b a) <->
  c1 <> c2 /\ coding_at ia item c1 = Some a /\ coding_at ia item c2 = Some b.
Proof.
  intros [A1 A2].
  assert (F : forall c1 c2 (a b : C), before ia item c1 c2 a b -> c1 <> c2 /\ coding_at ia item c1 = Some a /\ coding_at ia item c2 = Some b).
  { clear c1 c2 a b. intros c1 c2 a b (cs & i & j & K & L & K1 & K2). pose proof (A2 _ _ K) as D.
    apply dget_Some in K; [|exact A1]. unfold coding_at. rewrite K.
    split; [|split; apply dget_Some; try exact D; eapply elem_of_list_lookup_2; eassumption].
    intros ->. assert (E : i = j); [|lia]. apply (NoDup_lookup _ i j c2 D); rewrite list_lookup_fmap; [rewrite K1|rewrite K2]; reflexivity. }
  split.
  - intros [K|K]; apply F in K as (N & K1 & K2); [auto|]. split; [congruence|]. auto.
  - intros (N & K1 & K2). unfold coding_at in K1, K2. destruct (dget ia item) as [cs|] eqn:E; [|discriminate K1].
    apply dget_Some in E; [|exact A1]. apply dget_elem in K1, K2. apply elem_of_list_lookup in K1 as [i K1], K2 as [j K2].
    destruct (Nat.lt_trichotomy i j) as [L|[L|L]].
    + left. exists cs, i, j. auto.
    + subst j. rewrite K1 in K2. congruence.
    + right. exists cs, j, i. auto.
Qed.

Lemma across_at ia ib item c1 c2 (a b : C) : items_ok ia -> items_ok ib ->
  across ia ib item c1 c2 a b <-> coding_at ia item c1 = Some a /\ coding_at ib item c2 = Some b.
Proof.
  intros [A1 A2] [B1 B2]. unfold across, coding_at. split.
  - intros (ca & cb & K1 & K2 & K3 & K4). pose proof (A2 _ _ K1). pose proof (B2 _ _ K2).
    apply dget_Some in K1, K2; [|assumption..]. rewrite K1, K2. split; apply dget_Some; assumption.
  - intros [K1 K2]. destruct (dget ia item) as [ca|] eqn:E1; [|discriminate]. destruct (dget ib item) as [cb|] eqn:E2; [|discriminate].
    exists ca, cb. apply dget_elem in E1, E2, K1, K2. auto.
Qed.
End Same.

Section Values.
Context {R : Type} (metric : seg -> seg -> res R) (lord lord' : gset string -> list string).
Hypothesis HL : lord_ok lord.
Hypothesis HL' : lord_ok lord'.

Lemma both_orders_same ia ib d : items_ok ia -> items_ok ib -> plain_coders ia -> same_codings ia ib ->
  compute_pairwise_values metric lord true ia None = Ok d ->
  exists d', compute_pairwise_values metric lord' true ib None = Ok d' /\ d ≡ₚ d'.
Proof.
  intros HA HB HP H E. pose proof (same_plain ia ib HA HB H HP) as HP'.
  assert (OA : both_ok ia None) by (split; [exact HA|exact I]). assert (OB : both_ok ib None) by (split; [exact HB|exact I]).
  assert (Q : forall k a b, asked true ia None k a b <-> asked true ib None k a b).
  { assert (Q : forall i1 i2 k a b, items_ok i1 -> items_ok i2 -> same_codings i1 i2 -> asked true i1 None k a b -> asked true i2 None k a b).
    { intros i1 i2 k a b O1 O2 S (item & c1 & c2 & K). exists item, c1, c2.
      assert (K' : before i1 item c1 c2 a b \/ before i1 item c2 c1 b a) by tauto. assert (k = name3 item c1 c2) by tauto.
      apply either_before in K'; [|exact O1]. rewrite !(proj2 S) in K'. apply either_before in K'; [|exact O2]. tauto. }
    intros. split; apply Q; auto using same_sym. }
  destruct (values_returns metric lord HL true ia None OA) as [R1 _].
  destruct (values_returns metric lord' HL' true ib None OB) as [R2 _].
  destruct (proj2 R2) as [d' E'].
  { intros k a b K. apply Q in K. revert k a b K. apply R1. eauto. }
  exists d'. split; [exact E'|].
  destruct (values_sound metric lord HL true ia None d OA E) as (D & _ & _).
  destruct (values_sound metric lord' HL' true ib None d' OB E') as (D' & _ & _).
  destruct (values_plain metric lord HL true ia None d OA (conj HP I) E) as [F _].
  destruct (values_plain metric lord' HL' true ib None d' OB (conj HP' I) E') as [F' _].
  apply NoDup_Permutation; [apply dict_ok_NoDup, D|apply dict_ok_NoDup, D'|].
  intros [k v]. rewrite F, F'. setoid_rewrite Q. reflexivity.
Qed.

Lemma across_same p ia ja ib jb d : items_ok ia -> items_ok ja -> items_ok ib -> items_ok jb ->
  plain_coders ia -> plain_coders ja -> same_codings ia ib -> same_codings ja jb ->
  compute_pairwise_values metric lord p ia (Some ja) = Ok d ->
  exists d', compute_pairwise_values metric lord' p ib (Some jb) = Ok d' /\ d ≡ₚ d'.
Proof.
  intros HA JA HB JB PA PJ SI SJ E.
  pose proof (same_plain ia ib HA HB SI PA) as PB. pose proof (same_plain ja jb JA JB SJ PJ) as PJB.
  assert (Q : forall item c1 c2 a b, across ia ja item c1 c2 a b <-> across ib jb item c1 c2 a b).
  { intros. rewrite !across_at by assumption. rewrite (proj2 SI), (proj2 SJ). reflexivity. }
  destruct (two_datasets_returns metric lord p ia ja HL HA JA) as [R1 _].
  destruct (two_datasets_returns metric lord' p ib jb HL' HB JB) as [R2 _].
  destruct (proj2 R2) as [d' E'].
  { intros item c1 c2 a b K. apply Q in K. revert item c1 c2 a b K. apply R1. eauto. }
  exists d'. split; [exact E'|].
  destruct (two_datasets metric lord p ia ja d HL HA JA PA PJ E) as (D & F & _).
  destruct (two_datasets metric lord' p ib jb d' HL' HB JB PB PJB E') as (D' & F' & _).
  apply NoDup_Permutation; [apply dict_ok_NoDup, D|apply dict_ok_NoDup, D'|].
  intros [k v]. rewrite F, F'. setoid_rewrite Q. reflexivity.
Qed.

(** ** One order *)

Definition gives (a b : seg) : list R := match metric a b with Ok v => [v] | Err _ => [] end.

Lemma values_perm l items d : lord_ok l -> items_ok items -> plain_coders items ->
  compute_pairwise_values metric l false items None = Ok d ->
  d.*2 ≡ₚ items ≫= (fun ic => pairs2 (snd ic) ≫= (fun p => gives (snd (fst p)) (snd (snd p)))).
Proof.
  intros H HO HP E. assert (OB : both_ok items None) by (split; [exact HO|exact I]).
  destruct (values_jobs metric l H false items None d OB E) as (vs & HV & ->).
  set (J := all_jobs false items None (l (labels_of items None))) in *.
  assert (ND : NoDup J.*1). { apply jobs_NoDup; try assumption; [split; [exact HP|exact I]|]. rewrite (H _). apply NoDup_elements. }
  assert (Len : length J.*1 = length vs) by (rewrite fmap_length; eapply Forall2_length, HV).
  rewrite dupdate_nodup; [|unfold dict_ok; cbn [app]; rewrite zip_fst; assumption]. cbn [app].
  rewrite snd_zip by lia.
  assert (V : vs = J ≫= (fun j => gives (fst (snd j)) (snd (snd j)))).
  { clear - HV. induction HV as [|j v J vs Hj _ IH]; [reflexivity|]. cbn [mbind list_bind]. unfold gives at 1. unfold eval in Hj.
    rewrite Hj. cbn. f_equal. exact IH. }
  rewrite V. unfold J. rewrite (bind_perm_l _ _ _ (jobs_perm1 l false items H HO)). rewrite bind_bind.
  apply bind_perm_r. intros [i cs] _. cbn [fst snd]. rewrite bind_bind.
  apply bind_perm_r. intros [[m a] [n b]] _. cbn. rewrite app_nil_r. reflexivity.
Qed.

Lemma symmetric_same ia ib d : items_ok ia -> items_ok ib -> plain_coders ia -> same_codings ia ib ->
  (forall item c1 c2 a b, before ia item c1 c2 a b -> even_handed metric a b) ->
  compute_pairwise_values metric lord false ia None = Ok d ->
  exists d', compute_pairwise_values metric lord' false ib None = Ok d' /\ d.*2 ≡ₚ d'.*2 /\
    forall item c1 c2 v, comma_free c1 -> comma_free c2 -> (name3 item c1 c2, v) ∈ d -> (name3 item c1 c2, v) ∈ d' \/ (name3 item c2 c1, v) ∈ d'.
Proof.
  intros HA HB HP H S E. pose proof (same_plain ia ib HA HB H HP) as HP'.
  destruct (one_dataset_returns metric lord ia HL HA) as [R1 _].
  destruct (one_dataset_returns metric lord' ib HL' HB) as [R2 _].
  destruct (proj2 R2) as [d' E'].
  { intros item c1 c2 a b K. assert (K' : before ib item c1 c2 a b \/ before ib item c2 c1 b a) by auto.
    apply either_before in K'; [|exact HB]. rewrite <- !(proj2 H) in K'. apply either_before in K'; [|exact HA].
    destruct K' as [K'|K']; destruct (proj1 R1 (ex_intro _ d E) _ _ _ _ _ K') as [v Hv]; exists v; [exact Hv|].
    apply (S _ _ _ _ _ K'), Hv. }
  exists d'. split; [exact E'|]. split.
  - rewrite (values_perm lord ia d HL HA HP E), (values_perm lord' ib d' HL' HB HP' E').
    destruct (same_perm ia ib HA HB H) as (i1 & P & F). rewrite (bind_perm_l _ _ _ P).
    assert (S1 : forall i cs c1 c2 a b, (i, cs) ∈ i1 -> (c1, a) ∈ cs -> (c2, b) ∈ cs -> gives a b = gives b a).
    { intros i cs c1 c2 a b K K1 K2. rewrite <- P in K. destruct (decide (c1 = c2)) as [->|N].
      - assert (D : dict_ok cs) by (eapply HA, K). apply dget_Some in K1, K2; try exact D. rewrite K1 in K2. injection K2 as ->. reflexivity.
      - assert (Q : before ia i c1 c2 a b \/ before ia i c2 c1 b a).
        { apply either_before; [exact HA|]. split; [exact N|]. assert (D : dict_ok cs) by (eapply HA, K). unfold coding_at.
          apply dget_Some in K; [|apply HA]. rewrite K. split; apply dget_Some; assumption. }
        assert (EV : even_handed metric a b). { destruct Q as [Q|Q]; apply S in Q; [exact Q|]. intros v. symmetry. apply Q. }
        unfold gives. destruct (metric a b) as [v|] eqn:V1.
        + rewrite (proj1 (EV v) V1). reflexivity.
        + destruct (metric b a) as [w|] eqn:V2; [|reflexivity]. pose proof (proj2 (EV w) V2). congruence. }
    clear - F S1. induction F as [|[i cs] [i' cs'] i1 ib (_ & _ & Q) F IH]; [reflexivity|]. cbn [mbind list_bind fst snd] in *. apply Permutation_app.
    + apply pairs_bind_perm; [exact Q|]. intros [c1 a] [c2 b] K1 K2. cbn [fst snd]. rewrite (S1 i cs c1 c2 a b); [reflexivity|left|assumption..].
    + apply IH. intros. eapply S1; [right; eassumption|eassumption..].
  - intros item c1 c2 v F1 F2 K.
    destruct (one_dataset_plain metric lord ia d HL HA HP E) as (_ & G & _).
    destruct (one_dataset_plain metric lord' ib d' HL' HB HP' E') as (_ & G' & _).
    apply G in K as (i' & e1 & e2 & a & b & K & Q & Hv).
    assert (C : comma_free e1 /\ comma_free e2).
    { destruct Q as (cs & i & j & B1 & _ & B2 & B3). apply elem_of_list_lookup_2 in B2, B3; split; eapply HP; eassumption. }
    destruct C as [C1 C2]. rewrite !name3_join in K. apply key3_inj in K; try assumption. destruct K as (<- & <- & <-).
    pose proof (S _ _ _ _ _ Q) as Sv. assert (K : before ia item c1 c2 a b \/ before ia item c2 c1 b a) by auto.
    apply either_before in K; [|exact HA]. rewrite !(proj2 H) in K. apply either_before in K; [|exact HB].
    destruct K as [K|K]; [left|right]; apply G'; [exists item, c1, c2, a, b|exists item, c2, c1, b, a]; (split; [reflexivity|]); (split; [exact K|]); [exact Hv|].
    apply Sv, Hv.
Qed.
End Values.

(** * The metrics *)

Lemma similarity_even A E W f n_t om items : env_ok E -> neutral W ->
  codings_ok items (fun s => exists x, to_bstring f s = Ok x /\ small_types x x) ->
  forall item c1 c2 a b, before items item c1 c2 a b ->
    even_handed (boundary_similarity A E W f n_t om false) a b /\ even_handed (segmentation_similarity A E W f n_t om false) a b.
Proof.
  intros HE HW HC item c1 c2 a b K. destruct (before_ok items _ _ _ _ _ _ HC K) as [(x & Hx & Sx) (y & Hy & Sy)].
  destruct (metrics_symmetric A E E W f n_t a b HE HE HW) as [S1 S2].
  - intros e e' Q. rewrite Hx in Q. discriminate Q.
  - intros x' y' Qx Qy. assert (x' = x) by congruence. assert (y' = y) by congruence. subst.
    intros u t [Ht|Ht] Hu; [apply (Sx u)|apply (Sy u)]; auto.
  - specialize (S1 om false). specialize (S2 om false). split; [|intros v; rewrite S2; reflexivity].
    assert (NP : forall a b n d e, boundary_similarity A E W f n_t om false a b <> Ok (BParts n d e)).
    { intros a' b' n' d' e' Q. unfold boundary_similarity in Q. destruct (boundary_statistics A E W f n_t a' b') as [s|]; cbn [bind] in Q; [|discriminate Q].
      unfold similarity_of_stats in Q. destruct (nsub A _ _) as [m|]; cbn [bind] in Q; [|discriminate Q].
      destruct (if 0 <? _ then ndiv A m _ else _) as [v|] in Q; cbn [bind] in Q; [|discriminate Q]. destruct om; [|discriminate Q].
      destruct (nsub A _ v); discriminate Q. }
    enough (Q : boundary_similarity A E W f n_t om false a b = boundary_similarity A E W f n_t om false b a) by (intros v; rewrite Q; reflexivity).
    revert S1. unfold same_result.
    destruct (boundary_similarity A E W f n_t om false a b) as [[v|n1 d1 e1]|e] eqn:E1;
    destruct (boundary_similarity A E W f n_t om false b a) as [[v'|n2 d2 e2]|e'] eqn:E2; intros Q; try contradiction; try congruence.
    exfalso. exact (NP _ _ _ _ _ E1).
Qed.

Lemma window_even A rnd f k om rp items : codings_ok items (fun s => exists p, to_positions f s = Ok p) ->
  forall item c1 c2 a b, before items item c1 c2 a b ->
    even_handed (pk A rnd f (Some k) om rp) a b /\ forall lam, even_handed (window_diff A rnd f (Some k) lam om rp) a b.
Proof.
  intros HC item c1 c2 a b K. destruct (before_ok items _ _ _ _ _ _ HC K) as [(x & Hx) (y & Hy)].
  destruct (window_symmetric A rnd f k a b x y Hx Hy om rp) as [S1 S2]. split.
  - intros v. rewrite S1. reflexivity.
  - intros lam v. rewrite (S2 lam). reflexivity.
Qed.

(** * Summaries and agreement *)

Lemma zlen_perm {X} (l l' : list X) : l ≡ₚ l' -> zlen l = zlen l'.
Proof. intros H. unfold zlen. rewrite H. reflexivity. Qed.

Lemma average_perm xs ys : xs ≡ₚ ys -> SpecMath.average xs == SpecMath.average ys.
Proof. intros H. unfold SpecMath.average. rewrite (zlen_perm _ _ H), (qsum_perm _ _ H). reflexivity. Qed.

Lemma qsum_same {X} (g g' : X -> Q) l : (forall x, g x == g' x) -> qsum (g <$> l) == qsum (g' <$> l).
Proof. intros H. induction l as [|x l IH]; [reflexivity|]. cbn [fmap list_fmap]. rewrite !qsum_cons, IH, (H x). reflexivity. Qed.

Lemma variance_perm xs ys : xs ≡ₚ ys -> variance xs == variance ys.
Proof.
  intros H. unfold variance. rewrite (average_perm _ _ (fmap_Permutation _ _ _ H)).
  pose proof (average_perm _ _ H) as E. revert E. generalize (SpecMath.average xs) (SpecMath.average ys). intros m m' E.
  unfold SpecMath.average. apply Qmult_comp.
  - apply qsum_same. intros x. rewrite E. reflexivity.
  - unfold zlen. rewrite !fmap_length. reflexivity.
Qed.

Lemma summary_same (d d' : dict num) : d <> [] -> Forall not_float d.*2 -> d.*2 ≡ₚ d'.*2 ->
  exists m s v e m' s' v' e', summarize exactA d = Ok (NDec m, NDec s, NDec v, NDec e, zlen d) /\
    summarize exactA d' = Ok (NDec m', NDec s', NDec v', NDec e', zlen d) /\ m == m' /\ v == v'.
Proof.
  intros N F P. assert (L : length d = length d') by (rewrite <- (fmap_length snd d), P; apply fmap_length).
  assert (N' : d' <> []) by (intros ->; destruct d; [contradiction|discriminate L]).
  assert (F' : Forall not_float d'.*2) by (rewrite <- P; exact F).
  destruct (summary_exact d N F) as (m & s & v & e & E & Em & Ev & _). destruct (summary_exact d' N' F') as (m' & s' & v' & e' & E' & Em' & Ev' & _).
  exists m, s, v, e, m', s', v', e'. split; [exact E|]. split; [rewrite E'; unfold zlen; rewrite L; reflexivity|].
  rewrite Em, Em', Ev, Ev'. split; [apply average_perm|apply variance_perm]; apply fmap_Permutation, P.
Qed.

Lemma same_coders {C} (ia ib : dict (dict C)) : items_ok ia -> items_ok ib -> same_codings ia ib -> all_coders ia = all_coders ib.
Proof.
  intros HA HB [_ H]. apply set_eq. intros c. rewrite !all_coders_elem by assumption. unfold codes.
  setoid_rewrite H. reflexivity.
Qed.

Lemma same_relabelled ia ib : items_ok ia -> items_ok ib -> same_codings ia ib -> relabelled id ia ib.
Proof.
  intros HA HB H. destruct (same_perm ia ib HA HB H) as (i1 & P & F). exists i1. split; [exact P|].
  eapply Forall2_impl; [exact F|]. intros x y (_ & D & Q). split; [exact D|]. rewrite <- Q.
  assert (E : (fun cs : string * seg => (id (fst cs), snd cs)) <$> snd x = snd x); [|rewrite E; reflexivity].
  transitivity (id <$> snd x); [|apply list_fmap_id]. apply list_fmap_ext. intros _ [c s] _. reflexivity.
Qed.

Lemma agreement_same E E' n_t b om f cord cord' ia ib : env_ok E -> env_ok E' -> lord_ok cord -> lord_ok cord' ->
  items_ok ia -> items_ok ib -> same_codings ia ib -> cached f (elements (all_coders ia)) ia ->
  let X := compare_with b exactA E n_t om in let X' := compare_with b exactA E' n_t om in
  (forall v, actual_agreement_linear exactA X f cord (CDict ia) = Ok v <-> actual_agreement_linear exactA X' f cord' (CDict ib) = Ok v) /\
  forall rp v, (fleiss_pi_linear exactA X f cord rp (CDict ia) = Ok v <-> fleiss_pi_linear exactA X' f cord' rp (CDict ib) = Ok v) /\
    (fleiss_kappa_linear exactA X f cord rp (CDict ia) = Ok v <-> fleiss_kappa_linear exactA X' f cord' rp (CDict ib) = Ok v) /\
    (artstein_poesio_bias_linear exactA X f cord rp (CDict ia) = Ok v <-> artstein_poesio_bias_linear exactA X' f cord' rp (CDict ib) = Ok v).
Proof.
  intros HE HE' HL HL' HA HB H HC. apply (agreement_relabelled id); try assumption; cbn [c_format c_coders c_items].
  - intros x y K. exact K.
  - reflexivity.
  - rewrite (same_coders ia ib HA HB H). apply set_eq. intros c. rewrite elem_of_map. split; [intros K; exists c; auto|intros (c' & -> & K); exact K].
  - apply same_relabelled; assumption.
Qed.

(** * Saving and reloading *)

Lemma dget_conv {V W} (g : V -> W) (d : dict V) k : dget (map (fun p => (fst p, g (snd p))) d) k = g <$> dget d k.
Proof. induction d as [|[k' v] d IH]; [reflexivity|]. cbn [map dget fst snd]. destruct (decide (k = k')); [reflexivity|exact IH]. Qed.

Lemma conv_keys {V W} (g : V -> W) (d : dict V) : (map (fun p => (fst p, g (snd p))) d).*1 = d.*1.
Proof. induction d as [|[k' v] d IH]; [reflexivity|]. cbn. f_equal. exact IH. Qed.

Lemma conv_at {C} (conv : C -> seg) d i c : coding_at (ds_items (as_segs conv d)) i c = conv <$> coding_at (ds_items d) i c.
Proof.
  unfold coding_at, as_segs. cbn [ds_items]. rewrite (dget_conv (fun cs => map (fun cm => (fst cm, conv (snd cm))) cs)).
  destruct (dget (ds_items d) i) as [cs|]; [|reflexivity]. cbn. apply (dget_conv conv).
Qed.

Lemma conv_names {C} (conv : C -> seg) d : (ds_items (as_segs conv d)).*1 = (ds_items d).*1.
Proof. apply (conv_keys (fun cs => map (fun cm => (fst cm, conv (snd cm))) cs)). Qed.

Lemma conv_ok {C} (conv : C -> seg) d : items_ok (ds_items d) -> items_ok (ds_items (as_segs conv d)).
Proof.
  intros [H1 H2]. split; [unfold dict_ok; rewrite conv_names; exact H1|]. intros i cs K. unfold as_segs in K. cbn [ds_items] in K.
  apply elem_of_list_In, in_map_iff in K as ([i' cs'] & E & K). cbn [fst snd] in E. injection E as <- <-.
  unfold dict_ok. rewrite (conv_keys conv). eapply H2, elem_of_list_In, K.
Qed.

Lemma reloaded_same frepr (d : dataset (list json)) (conv : list json -> seg) : items_ok (ds_items d) ->
  (forall i c m, coding_at (ds_items d) i c = Some m -> is_masses m) -> json_ok (JObj (ds_props d)) -> floats_ok frepr (JObj (ds_props d)) ->
  "items"%string ∉ (ds_props d).*1 ->
  (dget (ds_props d) "segmentation_type" = None \/ dget (ds_props d) "segmentation_type" = Some (JStr "linear")) ->
  exists r, read_json (written frepr d) = Some (Ok r) /\ items_ok (ds_items (as_segs conv d)) /\ items_ok (ds_items (as_segs conv r)) /\
    same_codings (ds_items (as_segs conv d)) (ds_items (as_segs conv r)).
Proof.
  intros H1 H2 H3 H4 H5 H6. destruct (file_round_trip frepr d H1 H2 H3 H4 H5 H6) as (r & Hr & R1 & R2 & R3 & _).
  exists r. split; [exact Hr|]. split; [apply conv_ok, H1|]. split; [apply conv_ok, R3|]. split.
  - intros i. rewrite !conv_names. symmetry. apply R2.
  - intros i c. rewrite !conv_at, R1. reflexivity.
Qed.
