(** Properties C46, C47, C48 and C50 for the public functions. *)
From Coq Require Import Lqa.
From Verif Require Import SpecAgreement SpecML FormatProofs Round RoundProofs BedProofs BedTheory SimStats SimRound SimProofs SimMain SimSym
  MLProofs MLSums DictProofs DispatchProofs DispatchMain AgreementProofs AgreementMain AgreementFinal AgreementExact AgreementPerm AgreementBias.
Open Scope Z_scope.

Lemma lord_nodup cord s : lord_ok cord -> NoDup (cord s).
Proof. intros H. rewrite (H s). apply NoDup_elements. Qed.

(** ** C46 *)

Theorem actual_exact E n_t f cord c cmp : env_ok E -> n_t <> 0 -> coded (c_format c f) (cord (c_coders c)) (c_items c) ->
  comparison exactA E n_t (cached (c_format c f) (cord (c_coders c)) (c_items c)) cmp ->
  exists (num : string -> string -> string * dict seg -> Q) (den : string -> string -> string * dict seg -> Z) (v : Q),
    (forall m n ic, (m, n) ∈ two_of (cord (c_coders c)) -> ic ∈ c_items c ->
      exists sa sb, dget (snd ic) m = Some sa /\ dget (snd ic) n = Some sb /\
        cmp (c_format c f) sa sb = Ok (NDec (num m n ic), NInt (den m n ic)) /\ 0 < den m n ic) /\
    actual_agreement_linear exactA cmp f cord c = Ok (NDec v) /\
    (v == qsum (gather num (cord (c_coders c)) (c_items c)) / inject_Z (zsum (gather den (cord (c_coders c)) (c_items c))))%Q /\
    (0 <= v <= 1)%Q /\ ((v == 1)%Q <-> unanimous (c_format c f) (cord (c_coders c)) (c_items c)).
Proof.
  intros HE Hn HC Hcmp. set (F := c_format c f) in *. set (coders := cord (c_coders c)) in *. set (items := c_items c) in *.
  exists (num_of cmp F), (den_of cmp F), (exact_Aa F coders items cmp).
  assert (HG : forall C (g : string -> string -> string * dict seg -> C), gather g coders items = over g <$> jobs_of coders items).
  { intros C g. unfold gather, comparisons. rewrite two_of_pairs2. reflexivity. }
  split; [|split; [|split; [|split]]].
  - intros m n ic Hp Hic. rewrite two_of_pairs2 in Hp.
    destruct (job_ok exactA E n_t F coders items cmp m n ic HE Hn HC Hcmp Hp Hic) as (HJ & Hd & _).
    apply pairs2_distinct in Hp as (Hm & Hn' & Hne); [|exact (coded_coders _ _ _ HC)].
    destruct (coding_seg _ _ _ ic m HC Hic Hm) as (Lm & _). destruct (coding_seg _ _ _ ic n HC Hic Hn') as (Ln & _).
    unfold job in HJ. rewrite Lm, Ln in HJ. cbn [bind] in HJ. exists (seg_of m ic), (seg_of n ic).
    split; [apply dlookup_Ok, Lm|]. split; [apply dlookup_Ok, Ln|]. split; [|exact Hd].
    destruct (cmp F (seg_of m ic) (seg_of n ic)) as [[p q]|]; [|discriminate]. cbn [bind] in HJ.
    destruct (potential_boundaries F (seg_of m ic) (seg_of n ic)); [|discriminate]. cbn [bind] in HJ.
    destruct (boundaries F (seg_of m ic)); [|discriminate]. cbn [bind] in HJ.
    destruct (boundaries F (seg_of n ic)); [|discriminate]. cbn [bind] in HJ. congruence.
  - apply (actual_value E n_t F coders items cmp HE Hn HC Hcmp).
  - rewrite !HG. unfold exact_Aa. rewrite Qred_correct. reflexivity.
  - pose proof (parts_coded exactA E n_t F coders items cmp HE Hn HC Hcmp) as HP.
    destruct (Aa_coded exactA E n_t F coders items cmp sane_exactA HE Hn HC Hcmp ltac:(left; reflexivity) _ HP) as (v & Hv & Hr & _).
    rewrite (Aa_value E n_t F coders items cmp HE Hn HC Hcmp _ HP) in Hv. injection Hv as <-. exact Hr.
  - split; [apply (exact_one E n_t F coders items cmp HE Hn HC Hcmp)|]. intros HU.
    pose proof (parts_coded exactA E n_t F coders items cmp HE Hn HC Hcmp) as HP.
    destruct (Aa_coded exactA E n_t F coders items cmp sane_exactA HE Hn HC Hcmp ltac:(left; reflexivity) _ HP) as (v & Hv & _ & Hr).
    rewrite (Aa_value E n_t F coders items cmp HE Hn HC Hcmp _ HP) in Hv. injection Hv as <-. apply Hr, HU.
Qed.

Theorem actual_rounded A E n_t f cord c cmp : sane A -> env_ok E -> n_t <> 0 -> coded (c_format c f) (cord (c_coders c)) (c_items c) ->
  comparison A E n_t (cached (c_format c f) (cord (c_coders c)) (c_items c)) cmp -> in_precision A (c_format c f) (cord (c_coders c)) (c_items c) ->
  exists v, actual_agreement_linear A cmp f cord c = Ok (NDec v) /\ (0 <= v <= 1)%Q /\
    (unanimous (c_format c f) (cord (c_coders c)) (c_items c) -> (v == 1)%Q).
Proof.
  intros HA HE Hn HC Hcmp HF. unfold actual_agreement_linear.
  pose proof (parts_coded A E n_t _ _ _ cmp HE Hn HC Hcmp) as HP.
  rewrite (actual_Aa A cmp _ _ _ _ _ _ _ HP).
  - rewrite <- (parts_Aa A E n_t _ _ _ cmp HE Hn HC Hcmp _ HP).
    destruct (Aa_coded A E n_t _ _ _ cmp HA HE Hn HC Hcmp HF _ HP) as (v & Hv & Hr & Hu). exists v. auto.
  - pose proof (jobs_nonempty _ _ _ HC) as Hne. intros E0. apply Hne. destruct (jobs_of _ _); [reflexivity|discriminate].
Qed.

(** ** C47 *)

Theorem corrected_at_most_one A E n_t f cord rp c cmp g : sane A -> env_ok E -> lord_ok cord ->
  comparison A E n_t (cached (c_format c f) (cord (c_coders c)) (c_items c)) cmp -> in_precision A (c_format c f) (cord (c_coders c)) (c_items c) ->
  fleiss_pi_linear A cmp f cord rp c = Ok g \/ fleiss_kappa_linear A cmp f cord rp c = Ok g ->
  at_most_one g /\ (unanimous (c_format c f) (cord (c_coders c)) (c_items c) -> equals_one g).
Proof.
  intros HA HE HL Hcmp HF H. pose proof (lord_nodup cord (c_coders c) HL) as Hnd.
  assert (G : exists ae, (ae = pi_Ae \/ ae = kappa_Ae) /\ three rp (corrected_by ae A cmp (c_format c f) (cord (c_coders c)) (c_items c)) = Ok g).
  { destruct H as [H|H].
    - unfold fleiss_pi_linear in H. rewrite pi_is in H. destruct (equal_counts _); [|discriminate]. eauto.
    - unfold fleiss_kappa_linear in H. rewrite kappa_is in H. destruct (existsb _ _); [discriminate|]. destruct (equal_counts _); [|discriminate]. eauto. }
  destruct G as (ae & Hae & Hg). destruct (corrected_by ae A cmp _ _ _) as [r|] eqn:HR; [|discriminate].
  destruct (corrected_range ae Hae A E n_t _ _ _ cmp HA HE Hcmp HF Hnd r rp HR) as (g' & Hg' & H1 & H2).
  rewrite Hg in Hg'. injection Hg' as <-. auto.
Qed.

Theorem corrected_raises A E n_t f cord rp c cmp : sane A -> env_ok E -> n_t <> 0 ->
  coded (c_format c f) (cord (c_coders c)) (c_items c) -> full (cord (c_coders c)) (c_items c) ->
  comparison A E n_t (cached (c_format c f) (cord (c_coders c)) (c_items c)) cmp -> in_precision A (c_format c f) (cord (c_coders c)) (c_items c) ->
  all_gaps_marked (c_format c f) (cord (c_coders c)) (c_items c) ->
  fleiss_pi_linear A cmp f cord rp c = Err InvalidOperation /\ fleiss_kappa_linear A cmp f cord rp c = Err InvalidOperation.
Proof.
  intros HA HE Hn HC Hfull Hcmp HF HM. pose proof (coded_coders _ _ _ HC) as Hnd.
  pose proof (counts_equal _ _ (coded_items _ _ _ HC) Hfull) as H1. pose proof (counts_two _ _ (coded_two _ _ _ HC) Hfull) as H2.
  unfold fleiss_pi_linear, fleiss_kappa_linear. rewrite pi_is, kappa_is, H1, H2.
  rewrite (corrected_marked pi_Ae ltac:(auto) A E n_t _ _ _ cmp HA HE Hcmp HF HC Hn HM).
  rewrite (corrected_marked kappa_Ae ltac:(auto) A E n_t _ _ _ cmp HA HE Hcmp HF HC Hn HM). auto.
Qed.

Lemma all_marked f coders items : coded f coders items -> ~ some_gap_unmarked f coders items -> all_gaps_marked f coders items.
Proof.
  intros HC HN ic Hic.
  assert (G : forall c c' t, c ∈ coders -> c' ∈ coders -> c <> c' -> t ∈ coding f c ic -> t = types_in (coding f c ic) (coding f c' ic)).
  { intros c c' t Hc Hc' Hne Ht. apply set_eq. intros d. split.
    - intros Hd. apply elem_of_union_l, elem_of_union_list. eauto.
    - intros Hd. destruct (decide (d ∈ t)) as [|Hnt]; [assumption|]. exfalso. apply HN. exists ic, c, c', t. repeat (split; [assumption|]).
      exists d. split; [apply (elem_of_types (coding f c ic) (coding f c' ic)), Hd|exact Hnt]. }
  assert (HS : forall c c', types_in (coding f c ic) (coding f c' ic) = types_in (coding f c' ic) (coding f c ic)) by (intros; set_solver).
  pose proof (coded_two _ _ _ HC) as H2. pose proof (coded_coders _ _ _ HC) as Hnd.
  destruct coders as [|c0 l] eqn:El; [cbn in H2; lia|]. rewrite <- El in *. assert (Hc0 : c0 ∈ coders) by (rewrite El; left).
  destruct (other_coder coders c0 Hnd H2) as (c1 & Hc1 & Hne). exists (types_in (coding f c0 ic) (coding f c1 ic)).
  assert (exists u, u ∈ coding f c0 ic) as [u Hu].
  { destruct (coded_used _ _ _ HC ic c0 c1 Hic Hc0 Hc1 ltac:(congruence)) as (d & i & Hi).
    pose proof (coded_len _ _ _ HC ic c0 c1 Hic Hc0 Hc1) as Hl.
    destruct (coding f c0 ic) as [|u x]; [|exists u; left]. exfalso.
    destruct Hi as [(t & Ht & _)|(t & Ht & _)]; apply lookup_lt_Some in Ht; cbn [length] in *; lia. }
  intros c t Hc Ht. destruct (decide (c = c0)) as [->|Hd]; [apply G; [assumption|assumption|congruence|assumption]|].
  rewrite (G c c0 t Hc Hc0 Hd Ht), HS, <- (G c0 c u Hc0 Hc ltac:(congruence) Hu). apply G; [assumption|assumption|congruence|assumption].
Qed.

Theorem corrected_returns E n_t f cord rp c cmp : env_ok E -> n_t <> 0 ->
  coded (c_format c f) (cord (c_coders c)) (c_items c) -> full (cord (c_coders c)) (c_items c) ->
  comparison exactA E n_t (cached (c_format c f) (cord (c_coders c)) (c_items c)) cmp ->
  ~ all_gaps_marked (c_format c f) (cord (c_coders c)) (c_items c) ->
  (exists g, fleiss_pi_linear exactA cmp f cord rp c = Ok g) /\ (exists g, fleiss_kappa_linear exactA cmp f cord rp c = Ok g).
Proof.
  intros HE Hn HC Hfull Hcmp HM.
  pose proof (counts_equal _ _ (coded_items _ _ _ HC) Hfull) as H1. pose proof (counts_two _ _ (coded_two _ _ _ HC) Hfull) as H2.
  unfold fleiss_pi_linear, fleiss_kappa_linear. rewrite pi_is, kappa_is, H1, H2.
  pose proof (unmarked_returns E n_t _ _ _ cmp HE Hn HC Hcmp) as HU. split.
  - destruct (corrected_by pi_Ae exactA cmp _ _ _) as [[[v1 v2] v3]|e]; [eexists; reflexivity|]. exfalso. apply HM, all_marked; [exact HC|].
    intros C. destruct (HU C) as [[v Hv] _]. discriminate.
  - destruct (corrected_by kappa_Ae exactA cmp _ _ _) as [[[v1 v2] v3]|e]; [eexists; reflexivity|]. exfalso. apply HM, all_marked; [exact HC|].
    intros C. destruct (HU C) as [_ [v Hv]]. discriminate.
Qed.

(** ** C48 *)

Theorem bias_difference A cmp f cord c g : artstein_poesio_bias_linear A cmp f cord false c = Ok g ->
  exists a p a' k b, fleiss_pi_linear A cmp f cord true c = Ok (GParts a p) /\ fleiss_kappa_linear A cmp f cord true c = Ok (GParts a' k) /\
    nsub A p k = Ok b /\ g = GVal b /\ artstein_poesio_bias_linear A cmp f cord true c = Ok (GParts p k).
Proof.
  unfold artstein_poesio_bias_linear, fleiss_pi_linear, fleiss_kappa_linear, bias_full. intros H.
  destruct (pi_full A cmp _ _ _) as [[[v a] p]|]; [|discriminate]. cbn [bind] in *.
  destruct (kappa_full A cmp _ _ _) as [[[v' a'] k]|]; [|discriminate]. cbn [bind] in *.
  destruct (nsub A p k) as [b|] eqn:HB; [|discriminate]. cbn [bind three fst snd] in *. injection H as <-. exists a, p, a', k, b. auto.
Qed.

Section Bias.
Context (E : env) (n_t : Z) (f : fmt) (cord : gset string -> list string) (c : container) (cmp : Agreement.compare) (ic : string * dict seg).
Context (HE : env_ok E) (HL : lord_ok cord) (Hit : c_items c = [ic])
  (Hcmp : comparison exactA E n_t (cached (c_format c f) (cord (c_coders c)) (c_items c)) cmp).
Notation F := (c_format c f).
Notation coders := (cord (c_coders c)).
Notation Es := (jobs_of coders [ic] ≫= entry2 (marks_of F) (room_of F)).

Lemma bias_is g : artstein_poesio_bias_linear exactA cmp f cord false c = Ok g ->
  coded F coders [ic] /\ exists v, g = GVal (NDec v) /\ (v == mean_share Es * mean_share Es - mean_product coders Es)%Q.
Proof.
  unfold artstein_poesio_bias_linear, bias_full. intros H. rewrite Hit in *.
  destruct (pi_full exactA cmp F coders [ic]) as [p|] eqn:HP; [|discriminate].
  destruct (kappa_full exactA cmp F coders [ic]) as [k|] eqn:HK; [|destruct p as [[]]; discriminate].
  rewrite pi_is in HP. destruct (equal_counts _); [|discriminate].
  rewrite kappa_is in HK. destruct (existsb _ _); [discriminate|]. destruct (equal_counts _); [|discriminate].
  destruct (corrected_inv _ exactA E n_t _ _ _ cmp HE Hcmp (lord_nodup _ _ HL) _ HP) as [HC Hn].
  rewrite (pi_exact E n_t _ _ _ cmp HE Hn HC Hcmp) in HP. rewrite (kappa_exact E n_t _ _ _ cmp HE Hn HC Hcmp) in HK. cbv zeta in HP, HK.
  destruct (chance_corrected _ _ _) in HP; [|discriminate]. cbn [bind] in HP. injection HP as <-.
  destruct (chance_corrected _ _ _) in HK; [|discriminate]. cbn [bind] in HK. injection HK as <-.
  split; [exact HC|]. cbn [bind nsub num2 three fst snd] in H. injection H as <-. eexists. split; [reflexivity|].
  cbn [rd exactA]. rewrite !Qred_correct. reflexivity.
Qed.

Theorem bias_not_negative g : artstein_poesio_bias_linear exactA cmp f cord false c = Ok g -> exists v, g = GVal (NDec v) /\ (0 <= v)%Q.
Proof. intros H. destruct (bias_is g H) as (HC & v & -> & Hv). exists v. split; [reflexivity|]. rewrite Hv. apply bias_nonneg, HC. Qed.

Lemma one_room : coded F coders [ic] -> one_boundary_type F coders ic -> exists N, forall m n, m ∈ coders -> n ∈ coders -> m <> n -> room_of F m n ic = N.
Proof.
  intros HC [t Ht]. pose proof (coded_two _ _ _ HC) as H2. destruct coders as [|c0 l] eqn:El; [cbn in H2; lia|]. rewrite <- El in *.
  exists (zlen (coding F c0 ic)). intros m n Hm Hn Hne. unfold room_of, room.
  assert (HT : types_in (coding F m ic) (coding F n ic) = {[t]}).
  { destruct (coded_used _ _ _ HC ic m n ltac:(left) Hm Hn Hne) as [d Hd]. apply (elem_of_types (coding F m ic) (coding F n ic) d) in Hd.
    assert (HS : forall z, z ∈ types_in (coding F m ic) (coding F n ic) -> z = t).
    { intros z Hz. apply elem_of_union in Hz. rewrite !elem_of_union_list in Hz. destruct Hz as [(s & Hs & Hz)|(s & Hs & Hz)].
      - specialize (Ht m s Hm Hs). set_solver.
      - specialize (Ht n s Hn Hs). set_solver. }
    apply set_eq. intros z. rewrite elem_of_singleton. split; [apply HS|]. intros ->. rewrite <- (HS d Hd). exact Hd. }
  rewrite HT, size_singleton. unfold zlen. rewrite (coded_len _ _ _ HC ic m c0 ltac:(left) Hm ltac:(rewrite El; left)). lia.
Qed.

Theorem bias_zero_iff v : one_boundary_type F coders ic -> artstein_poesio_bias_linear exactA cmp f cord false c = Ok (GVal v) ->
  (nval v == 0)%Q <-> equally_many F coders ic.
Proof.
  intros HT H. destruct (bias_is _ H) as (HC & q & [= ->] & Hq). cbn [nval]. destruct (one_room HC HT) as [N HN].
  rewrite Hq. apply (bias_zero F coders ic HC N HN).
Qed.
End Bias.

(** ** C50 *)

Theorem guard_two A cmp f cord rp c : (exists ic, ic ∈ c_items c /\ (length (snd ic) < 2)%nat) ->
  fleiss_kappa_linear A cmp f cord rp c = Err PlainException.
Proof.
  intros (ic & Hic & H). unfold fleiss_kappa_linear. rewrite kappa_is.
  assert (existsb (fun ic => zlen (snd ic) <? 2) (c_items c) = true) as ->; [|reflexivity].
  apply existsb_exists. exists ic. split; [apply elem_of_list_In, Hic|]. apply Z.ltb_lt. unfold zlen. lia.
Qed.

Theorem guard_equal A cmp f cord rp c :
  (c_items c = [] \/ exists ic ic', ic ∈ c_items c /\ ic' ∈ c_items c /\ length (snd ic) <> length (snd ic')) ->
  fleiss_pi_linear A cmp f cord rp c = Err PlainException /\ fleiss_kappa_linear A cmp f cord rp c = Err PlainException /\
  artstein_poesio_bias_linear A cmp f cord rp c = Err PlainException.
Proof.
  intros H. unfold fleiss_pi_linear, fleiss_kappa_linear, artstein_poesio_bias_linear, bias_full. rewrite pi_is, kappa_is.
  assert (equal_counts (c_items c) = false) as ->; [|destruct (existsb _ _); auto].
  unfold equal_counts. apply bool_decide_eq_false_2. destruct H as [->|(ic & ic' & Hic & Hic' & Hne)]; [cbn; discriminate|].
  intros HS. apply size_1_elem_of in HS as [z Hz].
  assert (G : forall jc, jc ∈ c_items c -> zlen (snd jc) = z).
  { intros jc Hj. assert (zlen (snd jc) ∈ (list_to_set ((fun ic => zlen (snd ic)) <$> c_items c) : gset Z)) as Hin.
    { apply elem_of_list_to_set, elem_of_list_fmap. eauto. }
    apply Hz in Hin. set_solver. }
  pose proof (G ic Hic) as G1. pose proof (G ic' Hic') as G2. unfold zlen in G1, G2. lia.
Qed.

Theorem guard_one_coder A cmp f cord rp c : lord_ok cord -> (size (c_coders c) <= 1)%nat ->
  actual_agreement_linear A cmp f cord c = Err ZeroDivisionError /\
  (fleiss_pi_linear A cmp f cord rp c = Err InvalidOperation \/ fleiss_pi_linear A cmp f cord rp c = Err PlainException) /\
  (fleiss_kappa_linear A cmp f cord rp c = Err InvalidOperation \/ fleiss_kappa_linear A cmp f cord rp c = Err PlainException).
Proof.
  intros HL HS. assert (HP : forall f, agreement_parts cmp f (cord (c_coders c)) (c_items c) = Ok (Acc [] [] [] [])).
  { intros f'. apply parts_none. left. rewrite (HL (c_coders c)). exact HS. }
  unfold actual_agreement_linear, actual_agreement, fleiss_pi_linear, fleiss_kappa_linear. rewrite pi_is, kappa_is. unfold corrected_by. rewrite !HP. cbn [bind].
  split; [reflexivity|]. split; [destruct (equal_counts _); auto|]. destruct (existsb _ _); [auto|]. destruct (equal_counts _); auto.
Qed.
