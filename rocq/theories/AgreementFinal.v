(** Properties C46, C47 and C50. *)
From Coq Require Import Lqa.
From Verif Require Import SpecAgreement SpecML FormatProofs Round RoundProofs BedProofs BedTheory SimStats SimRound SimProofs SimMain SimSym
  MLProofs MLSums DictProofs DispatchProofs DispatchMain AgreementProofs AgreementMain.
Open Scope Z_scope.

(** ** A computation that returns was given a coded dataset *)

Lemma pair_of {X} (l : list X) x y : NoDup l -> x ∈ l -> y ∈ l -> x <> y -> (x, y) ∈ pairs2 l \/ (y, x) ∈ pairs2 l.
Proof.
  intros Hnd Hx Hy Hne. apply elem_of_list_lookup in Hx as [i Hi]. apply elem_of_list_lookup in Hy as [j Hj].
  destruct (decide (i < j)%nat) as [C|C]; [left; apply elem_of_pairs2; eauto|].
  assert (i <> j) by (intros ->; congruence). right. apply elem_of_pairs2. exists j, i. split; [lia|auto].
Qed.

Lemma other_coder {X} `{EqDecision X} (l : list X) x : NoDup l -> (2 <= length l)%nat -> exists y, y ∈ l /\ y <> x.
Proof.
  intros Hnd H2. destruct l as [|a [|b l]]; cbn [length] in H2; try lia.
  destruct (decide (a = x)) as [->|Hne].
  - exists b. split; [right; left|]. intros ->. apply NoDup_cons in Hnd as [Hn _]. apply Hn. left.
  - exists a. split; [left|exact Hne].
Qed.

Lemma used_sym x y d : used x y d <-> used y x d.
Proof. unfold used. split; intros (i & H); exists i; tauto. Qed.

Lemma parts_inv A E n_t P f coders items cmp a : env_ok E -> comparison A E n_t P cmp -> NoDup coders -> (2 <= length coders)%nat -> items <> [] ->
  agreement_parts cmp f coders items = Ok a -> coded f coders items /\ n_t <> 0.
Proof.
  intros HE Hcmp Hnd H2 Hne Hp. rewrite parts_jobs in Hp.
  destruct (mapM (job cmp f) (jobs_of coders items)) as [rs|] eqn:HJ; [|discriminate]. clear Hp. apply mapM_Ok in HJ.
  assert (HJ' : forall m n ic, (m, n) ∈ pairs2 coders -> ic ∈ items -> exists r, job cmp f ((m, n), ic) = Ok r).
  { intros m n ic Hp Hic. assert (Hin : ((m, n), ic) ∈ jobs_of coders items) by (apply elem_of_jobs_of; auto).
    apply elem_of_list_lookup in Hin as [i Hi]. destruct (Forall2_lookup_l _ _ _ _ _ HJ Hi) as (r & _ & Hr). eauto. }
  assert (G : forall m n ic, (m, n) ∈ pairs2 coders -> ic ∈ items -> n_t <> 0 /\ exists sa sb x y, dget (snd ic) m = Some sa /\ dget (snd ic) n = Some sb /\
    seg_len sa <> 0 /\ seg_len sb <> 0 /\ to_bstring f sa = Ok x /\ to_bstring f sb = Ok y /\ length x = length y /\ exists d, used x y d).
  { intros m n ic Hp Hic. destruct (HJ' m n ic Hp Hic) as [r Hr]. unfold job in Hr.
    destruct (dlookup (snd ic) m) as [sa|] eqn:La; [|discriminate]. destruct (dlookup (snd ic) n) as [sb|] eqn:Lb; [|discriminate]. cbn [bind] in Hr.
    destruct (cmp f sa sb) as [r'|] eqn:Hc; [|discriminate].
    destruct (compare_inv A E n_t cmp f sa sb HE P r' Hcmp Hc) as (S1 & S2 & Hn & x & y & X & Y & L & U).
    apply dlookup_Ok in La. apply dlookup_Ok in Lb. split; [exact Hn|]. exists sa, sb, x, y. auto 10. }
  assert (G1 : forall m n ic, m ∈ coders -> n ∈ coders -> m <> n -> ic ∈ items -> n_t <> 0 /\ exists sa sb x y, dget (snd ic) m = Some sa /\ dget (snd ic) n = Some sb /\
    seg_len sa <> 0 /\ seg_len sb <> 0 /\ to_bstring f sa = Ok x /\ to_bstring f sb = Ok y /\ length x = length y /\ exists d, used x y d).
  { intros m n ic Hm Hn Hd Hic. destruct (pair_of coders m n Hnd Hm Hn Hd) as [Hp|Hp]; [apply G; assumption|].
    destruct (G n m ic Hp Hic) as (Hz & sa & sb & x & y & A1 & A2 & A3 & A4 & A5 & A6 & A7 & A8 & A9). split; [exact Hz|].
    exists sb, sa, y, x. repeat (split; [assumption || congruence|]). exists A8. apply used_sym, A9. }
  split.
  - constructor; try assumption.
    + intros ic c Hic Hc. destruct (other_coder coders c Hnd H2) as (c' & Hc' & Hd).
      destruct (G1 c c' ic Hc Hc' ltac:(congruence) Hic) as (_ & sa & sb & x & y & A1 & A2 & A3 & A4 & A5 & _). eauto.
    + intros ic c c' Hic Hc Hc'. destruct (decide (c = c')) as [->|Hd]; [reflexivity|].
      destruct (G1 c c' ic Hc Hc' Hd Hic) as (_ & sa & sb & x & y & A1 & A2 & A3 & A4 & A5 & A6 & A7 & _).
      unfold coding. rewrite A1, A2, A5, A6. exact A7.
    + intros ic c c' Hic Hc Hc' Hd.
      destruct (G1 c c' ic Hc Hc' Hd Hic) as (_ & sa & sb & x & y & A1 & A2 & A3 & A4 & A5 & A6 & _ & A7).
      unfold coding. rewrite A1, A2, A5, A6. exact A7.
  - destruct items as [|ic I]; [contradiction|]. destruct coders as [|c l]; [cbn in H2; lia|].
    destruct (other_coder (c :: l) c Hnd H2) as (c' & Hc' & Hd).
    apply (G1 c c' ic); [left|exact Hc'|congruence|left].
Qed.

(** With fewer than two coders, or no item, nothing is compared. *)
Lemma parts_none cmp f coders items : (length coders <= 1)%nat \/ items = [] -> agreement_parts cmp f coders items = Ok (Acc [] [] [] []).
Proof.
  intros H. rewrite parts_jobs. assert (jobs_of coders items = []) as ->; [|reflexivity]. unfold jobs_of.
  destruct H as [H| ->].
  - destruct coders as [|c [|c' l]]; [reflexivity|reflexivity|cbn in H; lia].
  - induction (pairs2 coders) as [|p P IH]; [reflexivity|exact IH].
Qed.

Lemma few_dec (coders : list string) (items : dict (dict seg)) :
  ((length coders <= 1)%nat \/ items = []) \/ ((2 <= length coders)%nat /\ items <> []).
Proof.
  destruct (decide (length coders <= 1)%nat) as [|C]; [left; left; assumption|].
  destruct items; [left; right; reflexivity|right; split; [lia|discriminate]].
Qed.

Lemma Aa_inv A E n_t P f coders items cmp a v : env_ok E -> comparison A E n_t P cmp -> NoDup coders ->
  agreement_parts cmp f coders items = Ok a -> agreement_Aa A a = Ok v -> coded f coders items /\ n_t <> 0.
Proof.
  intros HE Hcmp Hnd Hp HA. destruct (few_dec coders items) as [C|[C1 C2]].
  - rewrite parts_none in Hp by exact C. injection Hp as <-. discriminate.
  - eapply parts_inv; eassumption.
Qed.

Lemma jobs_length coders items : length (jobs_of coders items) = (length (pairs2 coders) * length items)%nat.
Proof.
  unfold jobs_of. induction (pairs2 coders) as [|p P IH]; [reflexivity|]. cbn [mbind list_bind]. rewrite app_length, fmap_length.
  change (list_bind _ _ ?g P) with (P ≫= g). rewrite IH. reflexivity.
Qed.

(** ** The numbers *)

Section Numbers.
Context (A : arith) (E : env) (n_t : Z) (f : fmt) (coders : list string) (items : dict (dict seg)) (cmp : Agreement.compare).
Context (HA : sane A) (HE : env_ok E) (Hn : n_t <> 0) (HC : coded f coders items)
  (Hcmp : comparison A E n_t (cached f coders items) cmp) (HF : in_precision A f coders items).

Notation J := (jobs_of coders items).
Notation Es := (J ≫= entry2 (marks_of f) (room_of f)).

Lemma precise : exists eps M, prec A eps M /\ dsum f coders items cmp <= M /\ 2 * Z.of_nat (length J) <= M.
Proof.
  destruct (dsum_pos A E n_t f coders items cmp HE Hn HC Hcmp) as [H1 H2]. destruct HF as [->|[Hca HW]].
  - exists 0%Q, (2 * dsum f coders items cmp). split; [apply prec_exact; lia|lia].
  - exists eps28, (10 ^ 28). split; [apply prec_sane, HA|]. pose proof (dsum_workload A E n_t f coders items cmp HE Hn HC Hcmp Hca). lia.
Qed.

Lemma Aa_coded a : agreement_parts cmp f coders items = Ok a ->
  exists v, agreement_Aa A a = Ok (NDec v) /\ (0 <= v /\ v <= 1)%Q /\ (unanimous f coders items -> (v == 1)%Q).
Proof.
  intros Hp. rewrite (parts_Aa A E n_t f coders items cmp HE Hn HC Hcmp a Hp). destruct precise as (eps & M & HP & HM & _).
  destruct (Aa_range A eps M (over (num_of cmp f) <$> J) (over (den_of cmp f) <$> J)) as (v & Hv & Hr & Hu).
  - exact HP.
  - pose proof (jobs_nonempty f coders items HC) as Hne. intros E0. apply Hne. destruct J; [reflexivity|discriminate].
  - eapply nums_below; eassumption.
  - apply (dsum_pos A E n_t f coders items cmp HE Hn HC Hcmp).
  - exact HM.
  - exists v. split; [exact Hv|]. split; [exact Hr|]. intros HU. apply Hu. eapply nums_agree; eassumption.
Qed.

Lemma entries_nonempty : Es <> [].
Proof.
  pose proof (jobs_nonempty f coders items HC) as Hne. destruct J as [|[[m n] ic] l]; [contradiction|]. discriminate.
Qed.

Lemma pi_coded a : agreement_parts cmp f coders items = Ok a ->
  exists e, pi_Ae A (ac_bnd a) = Ok (NDec e) /\ (0 <= e /\ e <= 1)%Q /\
    ((forall c x, (c, x) ∈ Es -> fst x = snd x) -> (e == 1)%Q).
Proof.
  rewrite (parts_coded A E n_t f coders items cmp HE Hn HC Hcmp). intros [= <-]. cbn [ac_bnd].
  destruct precise as (eps & M & HP & _ & HM).
  pose proof (group_values f coders items) as HG.
  destruct (pi_Ae_range A eps M (group Es) HA HP) as (e & He & Hr & Hu).
  - apply Forall_forall. intros x Hx. rewrite HG in Hx. eapply entries_share; eassumption.
  - intros E0. rewrite E0 in HG. apply Permutation_nil, fmap_nil_inv in HG. exact (entries_nonempty HG).
  - replace (zlen (mjoin (group Es).*2)) with (zlen Es) by (unfold zlen; rewrite HG, fmap_length; reflexivity).
    rewrite entries_length. exact HM.
  - exists e. split; [exact He|]. split; [exact Hr|]. intros H. apply Hu. intros x Hx. rewrite HG in Hx.
    apply elem_of_list_fmap in Hx as ([c x'] & -> & Hx). eapply H, Hx.
Qed.

Lemma kappa_coded a : agreement_parts cmp f coders items = Ok a ->
  exists e, kappa_Ae A (ac_bnd a) = Ok (NDec e) /\ (0 <= e /\ e <= 1)%Q /\
    ((forall c x, (c, x) ∈ Es -> fst x = snd x) -> (e == 1)%Q).
Proof.
  rewrite (parts_coded A E n_t f coders items cmp HE Hn HC Hcmp). intros [= <-]. cbn [ac_bnd].
  destruct precise as (eps & M & HP & _ & HM).
  pose proof (group_keys f coders items HC) as HG.
  assert (HL : length (pairs2 (group Es).*1) = length (pairs2 coders)).
  { pose proof (pairs2_length (group Es).*1) as L1. pose proof (pairs2_length coders) as L2.
    rewrite (Permutation_length HG) in L1. lia. }
  destruct (kappa_Ae_range A eps M (group Es) HP) as (e & He & Hr & Hu).
  - apply pushes_ok, NoDup_nil_2.
  - intros k l Hkl. eapply group_share; eassumption.
  - intros E0. rewrite E0 in HL. pose proof (two_coders f coders items HC) as H2. destruct (pairs2 coders); [contradiction|discriminate].
  - unfold zlen. rewrite HL. assert (length (pairs2 coders) <= length J)%nat; [|lia].
    rewrite jobs_length. pose proof (coded_items _ _ _ HC) as Hne. destruct items; [contradiction|]. cbn [length]. nia.
  - exists e. split; [exact He|]. split; [exact Hr|]. intros H. apply Hu. intros k l x Hkl Hx.
    apply group_elem in Hkl as [_ ->]. apply elem_of_list_fmap in Hx as ([c x'] & -> & Hx). apply elem_of_list_filter in Hx as [_ Hx]. eapply H, Hx.
Qed.
End Numbers.

(** ** Guards *)

Lemma counts_equal coders items : items <> [] -> full coders items -> equal_counts items = true.
Proof.
  intros Hne HF. unfold equal_counts. apply bool_decide_eq_true_2.
  assert ((list_to_set ((fun ic => zlen (snd ic)) <$> items) : gset Z) = {[zlen coders]}) as ->; [|apply size_singleton].
  apply set_eq. intros z. rewrite elem_of_list_to_set, elem_of_singleton, elem_of_list_fmap. split.
  - intros (ic & -> & Hic). specialize (HF ic Hic). unfold zlen. rewrite <- (Permutation_length HF), fmap_length. reflexivity.
  - intros ->. destruct items as [|ic I]; [contradiction|]. exists ic. split; [|left].
    specialize (HF ic ltac:(left)). unfold zlen. rewrite <- (Permutation_length HF), fmap_length. reflexivity.
Qed.

Lemma counts_two coders items : (2 <= length coders)%nat -> full coders items -> existsb (fun ic => zlen (snd ic) <? 2) items = false.
Proof.
  intros H2 HF. apply not_true_is_false. intros H. apply existsb_exists in H as (ic & Hic & H). apply elem_of_list_In in Hic.
  apply Z.ltb_lt in H. specialize (HF ic Hic). unfold zlen in H. apply Permutation_length in HF. rewrite fmap_length in HF. lia.
Qed.

(** Both statistics in one: [ae] computes the chance agreement. *)
Definition corrected_by (ae : arith -> dict (list (Z * Z)) -> res num) A cmp f coders items : res (num * num * num) :=
  let* a := agreement_parts cmp f coders items in
  let* Aa := agreement_Aa A a in
  let* Ae := ae A (ac_bnd a) in
  let* v := chance_corrected A Aa Ae in
  Ok (v, Aa, Ae).

Lemma pi_is A cmp f coders items : pi_full A cmp f coders items =
  if equal_counts items then corrected_by pi_Ae A cmp f coders items else Err PlainException.
Proof. unfold pi_full, corrected_by. destruct (equal_counts items); reflexivity. Qed.

Lemma kappa_is A cmp f coders items : kappa_full A cmp f coders items =
  if existsb (fun ic => zlen (snd ic) <? 2) items then Err PlainException else
  if equal_counts items then corrected_by kappa_Ae A cmp f coders items else Err PlainException.
Proof. unfold kappa_full, corrected_by. destruct (existsb _ items), (equal_counts items); reflexivity. Qed.

Section Corrected.
Context (ae : arith -> dict (list (Z * Z)) -> res num) (Hae : ae = pi_Ae \/ ae = kappa_Ae).
Context (A : arith) (E : env) (n_t : Z) (f : fmt) (coders : list string) (items : dict (dict seg)) (cmp : Agreement.compare).
Context (HA : sane A) (HE : env_ok E) (Hcmp : comparison A E n_t (cached f coders items) cmp) (HF : in_precision A f coders items)
  (Hnd : NoDup coders).

Notation J := (jobs_of coders items).
Notation Es := (J ≫= entry2 (marks_of f) (room_of f)).

Lemma coded_numbers : coded f coders items -> n_t <> 0 -> exists a e,
  corrected_by ae A cmp f coders items = (let* v := chance_corrected A (NDec a) (NDec e) in Ok (v, NDec a, NDec e)) /\
  (0 <= a /\ a <= 1)%Q /\ (0 <= e /\ e <= 1)%Q /\ (unanimous f coders items -> (a == 1)%Q) /\
  ((forall c x, (c, x) ∈ Es -> fst x = snd x) -> (e == 1)%Q).
Proof.
  intros HC Hn. pose proof (parts_coded A E n_t f coders items cmp HE Hn HC Hcmp) as HP. unfold corrected_by. rewrite HP. cbn [bind].
  destruct (Aa_coded A E n_t f coders items cmp HA HE Hn HC Hcmp HF _ HP) as (a & Ha & Ra & Ua). rewrite Ha. cbn [bind].
  assert (HX : exists e, ae A (group Es) = Ok (NDec e) /\ (0 <= e /\ e <= 1)%Q /\ ((forall c x, (c, x) ∈ Es -> fst x = snd x) -> (e == 1)%Q)).
  { destruct Hae as [->| ->].
    - apply (pi_coded A E n_t f coders items cmp HA HE Hn HC Hcmp HF _ HP).
    - apply (kappa_coded A E n_t f coders items cmp HA HE Hn HC Hcmp HF _ HP). }
  destruct HX as (e & He & Re & Ue). cbn [ac_bnd]. rewrite He. cbn [bind]. exists a, e. auto 10.
Qed.

Lemma corrected_inv r : corrected_by ae A cmp f coders items = Ok r -> coded f coders items /\ n_t <> 0.
Proof.
  unfold corrected_by. intros H. destruct (agreement_parts cmp f coders items) as [a|] eqn:HP; [|discriminate]. cbn [bind] in H.
  destruct (agreement_Aa A a) as [v|] eqn:HV; [|discriminate]. eapply Aa_inv; eassumption.
Qed.

Lemma corrected_range r rp : corrected_by ae A cmp f coders items = Ok r ->
  exists g, three rp (Ok r) = Ok g /\ at_most_one g /\ (unanimous f coders items -> equals_one g).
Proof.
  intros H. destruct (corrected_inv r H) as [HC Hn]. destruct (coded_numbers HC Hn) as (a & e & HN & Ra & Re & Ua & _).
  rewrite HN in H. destruct (chance_corrected A (NDec a) (NDec e)) as [v|] eqn:HV; [|discriminate]. cbn [bind] in H. injection H as <-.
  destruct (precise A E n_t f coders items cmp HA HE Hn HC Hcmp HF) as (eps & M & HP & _).
  destruct (corrected A eps M a e HP ltac:(tauto) ltac:(tauto)) as (H1 & H2 & _).
  destruct (H1 v HV) as (q & -> & Hq). unfold three. cbn [bind fst snd]. eexists. split; [reflexivity|]. destruct rp; cbn [at_most_one equals_one nval].
  - split; [tauto|exact Ua].
  - split; [exact Hq|]. intros HU. destruct (H2 (Ua HU) _ HV) as (q' & [= <-] & E'). exact E'.
Qed.

Lemma marked_entries : coded f coders items -> all_gaps_marked f coders items ->
  unanimous f coders items /\ forall c x, (c, x) ∈ Es -> fst x = snd x.
Proof.
  intros HC HM. split.
  - intros ic c c' Hic Hc Hc'. destruct (HM ic Hic) as [U HU]. pose proof (coded_len _ _ _ HC ic c c' Hic Hc Hc') as Hl.
    assert (G : forall c, c ∈ coders -> coding f c ic = replicate (length (coding f c ic)) U).
    { intros d Hd. specialize (fun t => HU d t Hd). clear -HU. induction (coding f d ic) as [|t l IH]; [reflexivity|].
      cbn [length replicate]. rewrite <- IH; [|intros t' Ht'; apply HU; right; exact Ht']. f_equal. apply HU. left. }
    rewrite (G c Hc), (G c' Hc'), Hl. reflexivity.
  - intros c x Hx. apply elem_of_entries in Hx as (m & n & ic & Hp & Hic & Hx).
    apply pairs2_distinct in Hp as (Hm & Hn & Hne); [|exact (coded_coders _ _ _ HC)].
    destruct (HM ic Hic) as [U HU]. pose proof (coded_len _ _ _ HC ic m n Hic Hm Hn) as Hl.
    destruct (coded_used _ _ _ HC ic m n Hic Hm Hn Hne) as [d Hd].
    assert (G : forall c, c ∈ coders -> marks_of f c ic = zlen (coding f c ic) * Z.of_nat (size U)).
    { intros c' Hc'. specialize (fun t => HU c' t Hc'). unfold marks_of, marks, zlen. rewrite <- Nat2Z.inj_mul. f_equal. clear -HU.
      induction (coding f c' ic) as [|t l IH]; [reflexivity|]. rewrite fmap_cons.
      change (sum_list (size t :: ?l)) with (size t + sum_list l)%nat. rewrite IH by (intros t' Ht'; apply HU; right; exact Ht').
      rewrite (HU t ltac:(left)). change (length (t :: l)) with (S (length l)). cbn [Nat.mul]. reflexivity. }
    assert (HT : types_in (coding f m ic) (coding f n ic) = U).
    { apply set_eq. intros z. rewrite elem_of_union, !elem_of_union_list. split.
      - intros [(t & Ht & Hz)|(t & Ht & Hz)]; [rewrite <- (HU m t Hm Ht)|rewrite <- (HU n t Hn Ht)]; exact Hz.
      - intros Hz. assert (Hpos : (0 < length (coding f m ic))%nat).
        { destruct Hd as [i [(t & Ht & _)|(t & Ht & _)]]; apply lookup_lt_Some in Ht; lia. }
        destruct (coding f m ic) as [|t l] eqn:Em; [cbn in Hpos; lia|]. left. exists t. split; [left|].
        rewrite (HU m t Hm); [exact Hz|]. rewrite Em. left. }
    unfold room_of, room in Hx. rewrite HT in Hx. rewrite (G m Hm), (G n Hn) in Hx. unfold zlen in *. rewrite <- Hl in Hx.
    destruct Hx as [[_ ->]|[_ ->]]; reflexivity.
Qed.

Lemma corrected_marked : coded f coders items -> n_t <> 0 -> all_gaps_marked f coders items ->
  corrected_by ae A cmp f coders items = Err InvalidOperation.
Proof.
  intros HC Hn HM. destruct (marked_entries HC HM) as [HU HS]. destruct (coded_numbers HC Hn) as (a & e & HN & Ra & Re & Ua & Ue).
  destruct (precise A E n_t f coders items cmp HA HE Hn HC Hcmp HF) as (eps & M & HP & _).
  destruct (corrected A eps M a e HP ltac:(tauto) ltac:(tauto)) as (_ & _ & H & _).
  rewrite HN, (H (Ua HU) (Ue HS)). reflexivity.
Qed.
End Corrected.
