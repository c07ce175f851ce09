(** Property C49: order and names do not matter. *)
From Coq Require Import Lqa.
From Verif Require Import SpecAgreement SpecML FormatProofs Round RoundProofs BedProofs BedTheory SimStats SimRound SimProofs SimMain SimSym
  MLProofs MLSums DictProofs DispatchProofs DispatchMain AgreementProofs AgreementMain AgreementFinal AgreementExact.
Open Scope Z_scope.

Lemma with_comparison b A E n_t om (P : Prop) : P -> comparison A E n_t P (compare_with b A E n_t om).
Proof. intros HP. destruct b; [apply by_B|apply by_S, HP]. Qed.

(** ** Swapping the arguments *)

Lemma compare_swap b A E E' n_t om f sa sb x y : env_ok E -> env_ok E' -> to_bstring f sa = Ok x -> to_bstring f sb = Ok y -> small_types x y ->
  compare_with b A E n_t om f sa sb = compare_with b A E' n_t om f sb sa.
Proof.
  intros HE HE' Hx Hy Hs. destruct (metrics_symmetric A E E' (default_weights A) f n_t sa sb HE HE' (default_neutral A)) as [HB HS].
  - intros e e' H. rewrite Hx in H. discriminate.
  - intros x' y' H1 H2. rewrite Hx in H1. rewrite Hy in H2. injection H1 as <-. injection H2 as <-. exact Hs.
  - unfold compare_with. destruct b; unfold compare_B, compare_S, compare_of; rewrite (andb_comm (negb (seg_len sb =? 0)));
      destruct (negb (seg_len sa =? 0) && negb (seg_len sb =? 0)); try reflexivity.
    + specialize (HB om true). destruct (boundary_similarity A E _ f n_t om true sa sb) as [[v|n d l]|e],
        (boundary_similarity A E' _ f n_t om true sb sa) as [[v'|n' d' l']|e']; cbn in HB |- *; try contradiction; try congruence.
      all: destruct HB; congruence.
    + rewrite (HS om true). reflexivity.
Qed.

Lemma compare_env b A E E' n_t om f sa sb x y : env_ok E -> env_ok E' -> to_bstring f sa = Ok x -> to_bstring f sb = Ok y -> small_types x y ->
  compare_with b A E n_t om f sa sb = compare_with b A E' n_t om f sa sb.
Proof.
  intros HE HE' Hx Hy Hs. rewrite (compare_swap b A E E' n_t om f sa sb x y) by assumption.
  symmetry. apply (compare_swap b A E' E' n_t om f sa sb x y); assumption.
Qed.

(** ** Relabelled items *)

Section Relabel.
Context (rho : string -> string) (Hrho : Inj (=) (=) rho).

Definition relab (ic ic' : string * dict seg) : Prop :=
  dict_ok (snd ic) /\ snd ic' ≡ₚ ((fun cs => (rho (fst cs), snd cs)) <$> snd ic).

Lemma relab_get ic ic' c : relab ic ic' -> dget (snd ic') (rho c) = dget (snd ic) c.
Proof.
  intros [Hok HP].
  assert (Hok1 : dict_ok ((fun cs : string * seg => (rho (fst cs), snd cs)) <$> snd ic)).
  { unfold dict_ok in *. rewrite <- list_fmap_compose. change (fst ∘ _) with (rho ∘ (fst : string * seg -> string)).
    rewrite list_fmap_compose. apply NoDup_fmap; [exact Hrho|exact Hok]. }
  rewrite (dget_perm _ _ (rho c) HP) by (eapply dict_ok_perm; [symmetry; exact HP|exact Hok1]).
  destruct (dget (snd ic) c) as [s|] eqn:Hg.
  - apply dget_Some in Hg; [|exact Hok]. apply dget_Some; [exact Hok1|]. apply elem_of_list_fmap. exists (c, s). auto.
  - apply dget_None in Hg. apply dget_None. intros C. apply Hg. rewrite <- list_fmap_compose in C.
    apply elem_of_list_fmap in C as ([c' s] & C & Hin). cbn in C. apply Hrho in C as ->. apply elem_of_list_fmap. exists (c', s). auto.
Qed.

Lemma relab_seg ic ic' c : relab ic ic' -> seg_of (rho c) ic' = seg_of c ic.
Proof. intros H. unfold seg_of. rewrite (relab_get _ _ c H). reflexivity. Qed.

Lemma relab_coding f ic ic' c : relab ic ic' -> coding f (rho c) ic' = coding f c ic.
Proof. intros H. unfold coding. rewrite (relab_get _ _ c H). reflexivity. Qed.

Lemma relab_count ic ic' : relab ic ic' -> zlen (snd ic') = zlen (snd ic).
Proof. intros [_ HP]. unfold zlen. rewrite HP, fmap_length. reflexivity. Qed.

Context (coders coders' : list string) (items items' : dict (dict seg)).
Context (Hco : coders' ≡ₚ rho <$> coders) (Hit : relabelled rho items items').

Lemma relab_l ic : ic ∈ items -> exists ic', ic' ∈ items' /\ relab ic ic'.
Proof using Hit.
  destruct Hit as (items1 & HP & HF). rewrite HP. intros Hic. apply elem_of_list_lookup in Hic as [i Hi].
  destruct (Forall2_lookup_l _ _ _ _ _ HF Hi) as (ic' & Hi' & HR). exists ic'. split; [eapply elem_of_list_lookup_2, Hi'|exact HR].
Qed.

Lemma relab_r ic' : ic' ∈ items' -> exists ic, ic ∈ items /\ relab ic ic'.
Proof using Hit.
  destruct Hit as (items1 & HP & HF). intros Hic. apply elem_of_list_lookup in Hic as [i Hi].
  destruct (Forall2_lookup_r _ _ _ _ _ HF Hi) as (ic & Hi' & HR). exists ic. split; [rewrite HP; eapply elem_of_list_lookup_2, Hi'|exact HR].
Qed.

Lemma coder_l c : c ∈ coders -> rho c ∈ coders'.
Proof using Hco. intros H. rewrite Hco. apply elem_of_list_fmap. eauto. Qed.

Lemma coder_r c' : c' ∈ coders' -> exists c, c ∈ coders /\ c' = rho c.
Proof using Hco. rewrite Hco. intros H. apply elem_of_list_fmap in H as (c & -> & H). eauto. Qed.

Lemma coded_relabelled f : coded f coders items <-> coded f coders' items'.
Proof.
  assert (HL : length coders' = length coders) by (rewrite Hco, fmap_length; reflexivity).
  assert (HN : items = [] <-> items' = []).
  { destruct Hit as (items1 & HP & HF). split; intros ->.
    - apply Permutation_nil in HP as ->. inversion HF. reflexivity.
    - inversion HF; subst. symmetry in HP. apply Permutation_nil in HP. exact HP. }
  split; intros H; constructor.
  - rewrite Hco. apply NoDup_fmap; [exact Hrho|apply H].
  - rewrite HL. apply H.
  - rewrite <- HN. apply H.
  - intros ic' c' Hic Hc. destruct (relab_r _ Hic) as (ic & Hic0 & HR). destruct (coder_r _ Hc) as (c & Hc0 & ->).
    rewrite (relab_get _ _ c HR). apply (coded_seg _ _ _ H); assumption.
  - intros ic' c' d' Hic Hc Hd. destruct (relab_r _ Hic) as (ic & Hic0 & HR). destruct (coder_r _ Hc) as (c & Hc0 & ->). destruct (coder_r _ Hd) as (d & Hd0 & ->).
    rewrite !(relab_coding _ _ _ _ HR). apply (coded_len _ _ _ H); assumption.
  - intros ic' c' d' Hic Hc Hd Hne. destruct (relab_r _ Hic) as (ic & Hic0 & HR). destruct (coder_r _ Hc) as (c & Hc0 & ->). destruct (coder_r _ Hd) as (d & Hd0 & ->).
    rewrite !(relab_coding _ _ _ _ HR). apply (coded_used _ _ _ H); congruence.
  - apply (NoDup_fmap_1 rho). rewrite <- Hco. apply H.
  - rewrite <- HL. apply H.
  - rewrite HN. apply H.
  - intros ic c Hic Hc. destruct (relab_l _ Hic) as (ic' & Hic0 & HR). rewrite <- (relab_get _ _ c HR). apply (coded_seg _ _ _ H); [assumption|apply coder_l, Hc].
  - intros ic c d Hic Hc Hd. destruct (relab_l _ Hic) as (ic' & Hic0 & HR). rewrite <- !(relab_coding _ _ _ _ HR).
    apply (coded_len _ _ _ H); [assumption|apply coder_l, Hc|apply coder_l, Hd].
  - intros ic c d Hic Hc Hd Hne. destruct (relab_l _ Hic) as (ic' & Hic0 & HR). rewrite <- !(relab_coding _ _ _ _ HR).
    apply (coded_used _ _ _ H); [assumption|apply coder_l, Hc|apply coder_l, Hd|]. intros C. apply Hrho in C. contradiction.
Qed.

Lemma cached_relabelled f : cached f coders items -> cached f coders' items'.
Proof.
  intros H ic' c' d' Hic Hc Hd. destruct (relab_r _ Hic) as (ic & Hic0 & HR). destruct (coder_r _ Hc) as (c & Hc0 & ->). destruct (coder_r _ Hd) as (d & Hd0 & ->).
  rewrite !(relab_coding _ _ _ _ HR). apply H; assumption.
Qed.

Lemma spread_relabelled {C} (F : C -> C) (g g' : string -> string -> string * dict seg -> list C) :
  (forall m n ic', m ∈ coders' -> n ∈ coders' -> ic' ∈ items' -> g' m n ic' ≡ₚ g' n m ic') ->
  (forall m n ic ic', m ∈ coders -> n ∈ coders -> ic ∈ items -> relab ic ic' -> g' (rho m) (rho n) ic' = F <$> g m n ic) ->
  spread g' coders' items' ≡ₚ F <$> spread g coders items.
Proof.
  intros Hs Hg. rewrite (spread_perm g' coders' (rho <$> coders) items' items' Hco ltac:(reflexivity) Hs).
  rewrite !spread_cons.
  assert (HPr : forall l : list string, pairs2 (rho <$> l) = (fun p => (rho (fst p), rho (snd p))) <$> pairs2 l).
  { induction l as [|c l IH]; [reflexivity|]. rewrite fmap_cons. cbn [pairs2]. rewrite IH, fmap_app, <- !list_fmap_compose. reflexivity. }
  rewrite HPr, fmap_bind, bind_fmap. apply bind_perm_r. intros [m n] Hp. unfold compose. cbn [fst snd].
  destruct Hit as (items1 & HP & HF).
  assert (Hm : m ∈ coders /\ n ∈ coders).
  { apply elem_of_pairs2 in Hp as (i & j & _ & Hi & Hj). split; eapply elem_of_list_lookup_2; eassumption. }
  destruct Hm as [Hm Hn]. transitivity (F <$> (items1 ≫= g m n)); [|apply fmap_Permutation, bind_perm_l; symmetry; exact HP].
  assert (Hg1 : forall ic ic', ic ∈ items1 -> relab ic ic' -> g' (rho m) (rho n) ic' = F <$> g m n ic).
  { intros ic ic' Hic HR. apply Hg; try assumption. rewrite HP. exact Hic. }
  clear -HF Hg1. induction HF as [|ic ic' l l' HR HF IH]; [reflexivity|]. cbn [mbind list_bind]. rewrite fmap_app, (Hg1 ic ic' ltac:(left) HR).
  apply Permutation_app_head, IH. intros jc jc' Hj. apply Hg1. right. exact Hj.
Qed.

(** ** The statistics *)

Context (E E' : env) (n_t : Z) (f : fmt) (b om : bool) (HE : env_ok E) (HE' : env_ok E') (Hca : cached f coders items).
Notation cmp := (compare_with b exactA E n_t om).
Notation cmp' := (compare_with b exactA E' n_t om).

Section Coded.
Context (Hn : n_t <> 0) (HC : coded f coders items).

Let HC' : coded f coders' items'.
Proof. apply coded_relabelled, HC. Qed.
Let Hca' : cached f coders' items'.
Proof. apply cached_relabelled, Hca. Qed.

Lemma cmp_relabelled m n ic ic' : m ∈ coders -> n ∈ coders -> ic ∈ items -> relab ic ic' ->
  cmp' f (seg_of (rho m) ic') (seg_of (rho n) ic') = cmp f (seg_of m ic) (seg_of n ic).
Proof.
  intros Hm Hn' Hic HR. rewrite !(relab_seg _ _ _ HR).
  destruct (coding_seg _ _ _ ic m HC Hic Hm) as (_ & _ & Bm). destruct (coding_seg _ _ _ ic n HC Hic Hn') as (_ & _ & Bn).
  eapply compare_env; try eassumption. apply Hca; assumption.
Qed.

Lemma cmp_swapped m n ic : m ∈ coders' -> n ∈ coders' -> ic ∈ items' ->
  cmp' f (seg_of m ic) (seg_of n ic) = cmp' f (seg_of n ic) (seg_of m ic).
Proof.
  intros Hm Hn' Hic.
  destruct (coding_seg _ _ _ ic m HC' Hic Hm) as (_ & _ & Bm). destruct (coding_seg _ _ _ ic n HC' Hic Hn') as (_ & _ & Bn).
  eapply compare_swap; try eassumption. apply Hca'; assumption.
Qed.

Lemma over_relabelled {C} (h : res (num * num) -> C) :
  over (fun m n ic => h (cmp' f (seg_of m ic) (seg_of n ic))) <$> jobs_of coders' items' ≡ₚ
  over (fun m n ic => h (cmp f (seg_of m ic) (seg_of n ic))) <$> jobs_of coders items.
Proof.
  rewrite !over_spread. rewrite <- (list_fmap_id (spread _ coders items)). apply (spread_relabelled id).
  - intros m n ic Hm Hn' Hic. rewrite cmp_swapped by assumption. reflexivity.
  - intros m n ic ic' Hm Hn' Hic HR. rewrite (cmp_relabelled m n ic ic') by assumption. reflexivity.
Qed.

Lemma zsum_perm (l l' : list Z) : l ≡ₚ l' -> zsum l = zsum l'.
Proof. induction 1; unfold zsum in *; cbn [foldr]; lia. Qed.

Lemma Aa_relabelled : exact_Aa f coders' items' cmp' = exact_Aa f coders items cmp.
Proof.
  unfold exact_Aa, dsum. apply Qred_complete.
  pose proof (over_relabelled (fun r => match r with Ok (p, _) => nval p | Err _ => 0%Q end)) as H1.
  pose proof (over_relabelled (fun r => match r with Ok (_, NInt d) => d | _ => 0 end)) as H2.
  apply qsum_perm in H1. apply zsum_perm in H2. unfold num_of, den_of. rewrite H1, H2. reflexivity.
Qed.

Notation Es := (jobs_of coders items ≫= entry2 (marks_of f) (room_of f)).
Notation Es' := (jobs_of coders' items' ≫= entry2 (marks_of f) (room_of f)).
Notation F := (fun e : string * (Z * Z) => (rho (fst e), snd e)).

Lemma entries_relabelled : Es' ≡ₚ F <$> Es.
Proof.
  rewrite !entries_spread. apply spread_relabelled.
  - intros m n ic Hm Hn' Hic. unfold room_of. rewrite (room_sym (coding f m ic)) by (apply (coded_len _ _ _ HC'); assumption). apply perm_swap.
  - intros m n ic ic' Hm Hn' Hic HR. unfold marks_of, room_of. rewrite !(relab_coding _ _ _ _ HR). reflexivity.
Qed.

Lemma share_relabelled : (mean_share Es' == mean_share Es)%Q.
Proof.
  unfold mean_share. pose proof entries_relabelled as HP.
  assert (zlen Es' = zlen Es) as -> by (unfold zlen; rewrite HP, fmap_length; reflexivity).
  rewrite (qsum_perm (ratio <$> Es'.*2) (ratio <$> Es.*2)); [reflexivity|]. rewrite HP, <- !list_fmap_compose. reflexivity.
Qed.

Lemma pool_perm l l' : l ≡ₚ l' -> pool l = pool l'.
Proof. intros H. unfold pool. f_equal; apply zsum_perm; rewrite H; reflexivity. Qed.

Lemma cpool_relabelled c : cpool Es' (rho c) = cpool Es c.
Proof.
  unfold cpool. apply pool_perm. rewrite entries_relabelled. clear -Hrho.
  generalize (jobs_of coders items ≫= entry2 (marks_of f) (room_of f)). intros L.
  induction L as [|[d e] L IH]; [reflexivity|]. rewrite fmap_cons, !filter_cons. cbn [fst snd].
  destruct (decide (d = c)) as [->|Hd].
  - rewrite decide_True by reflexivity. rewrite !fmap_cons. cbn [snd]. apply perm_skip, IH.
  - rewrite decide_False by (intros C; apply Hrho in C; contradiction). exact IH.
Qed.

Lemma product_relabelled : (mean_product coders' Es' == mean_product coders Es)%Q.
Proof.
  unfold mean_product.
  assert (HPr : pairs2 (rho <$> coders) = (fun p => (rho (fst p), rho (snd p))) <$> pairs2 coders).
  { clear. induction coders as [|c l IH]; [reflexivity|]. rewrite fmap_cons. cbn [pairs2]. rewrite IH, fmap_app, <- !list_fmap_compose. reflexivity. }
  assert (zlen (pairs2 coders') = zlen (pairs2 coders)) as ->.
  { pose proof (pairs2_length coders) as L1. pose proof (pairs2_length coders') as L2. rewrite (Permutation_length Hco), fmap_length in L2. unfold zlen. lia. }
  rewrite (qsum_pairs_perm _ coders' (rho <$> coders)); [|intros; cbn [fst snd]; ring|exact Hco].
  rewrite HPr, <- list_fmap_compose. unfold compose. cbn [fst snd].
  rewrite (qsum_fmap_ext _ (fun p => ratio (cpool Es (fst p)) * ratio (cpool Es (snd p)))%Q); [reflexivity|].
  intros p _. rewrite !cpool_relabelled. reflexivity.
Qed.

Lemma stats_relabelled :
  actual_agreement exactA cmp' f coders' items' = actual_agreement exactA cmp f coders items /\
  corrected_by pi_Ae exactA cmp' f coders' items' = corrected_by pi_Ae exactA cmp f coders items /\
  corrected_by kappa_Ae exactA cmp' f coders' items' = corrected_by kappa_Ae exactA cmp f coders items.
Proof.
  assert (G : comparison exactA E n_t (cached f coders items) cmp) by (apply with_comparison, Hca).
  assert (G' : comparison exactA E' n_t (cached f coders' items') cmp') by (apply with_comparison, Hca').
  rewrite (actual_value E n_t f coders items cmp HE Hn HC G), (actual_value E' n_t f coders' items' cmp' HE' Hn HC' G').
  rewrite (pi_exact E n_t f coders items cmp HE Hn HC G), (pi_exact E' n_t f coders' items' cmp' HE' Hn HC' G').
  rewrite (kappa_exact E n_t f coders items cmp HE Hn HC G), (kappa_exact E' n_t f coders' items' cmp' HE' Hn HC' G').
  rewrite Aa_relabelled.
  assert (Qred (mean_share Es' * mean_share Es') = Qred (mean_share Es * mean_share Es)) as -> by (apply Qred_complete; rewrite share_relabelled; reflexivity).
  assert (Qred (mean_product coders' Es') = Qred (mean_product coders Es)) as -> by (apply Qred_complete, product_relabelled). auto.
Qed.
End Coded.

Lemma counts_relabelled : (fun ic => zlen (snd ic)) <$> items' ≡ₚ (fun ic => zlen (snd ic)) <$> items.
Proof.
  destruct Hit as (items1 & HP & HF). rewrite HP. clear -HF.
  induction HF as [|ic ic' l l' HR HF IH]; [reflexivity|]. rewrite !fmap_cons, (relab_count _ _ HR). apply perm_skip, IH.
Qed.

Lemma equal_counts_relabelled : equal_counts items' = equal_counts items.
Proof.
  unfold equal_counts. pose proof counts_relabelled as HP.
  assert ((list_to_set ((fun ic => zlen (snd ic)) <$> items') : gset Z) = list_to_set ((fun ic => zlen (snd ic)) <$> items)) as ->; [|reflexivity].
  apply set_eq. intros z. rewrite !elem_of_list_to_set, HP. reflexivity.
Qed.

Lemma few_relabelled : existsb (fun ic => zlen (snd ic) <? 2) items' = existsb (fun ic => zlen (snd ic) <? 2) items.
Proof.
  apply eq_true_iff_eq. rewrite !existsb_exists. split; intros (ic & Hic & H).
  - apply elem_of_list_In in Hic. destruct (relab_r _ Hic) as (jc & Hj & HR). exists jc. split; [apply elem_of_list_In, Hj|]. rewrite <- (relab_count _ _ HR). exact H.
  - apply elem_of_list_In in Hic. destruct (relab_l _ Hic) as (jc & Hj & HR). exists jc. split; [apply elem_of_list_In, Hj|]. rewrite (relab_count _ _ HR). exact H.
Qed.

(** What is returned for the one is returned for the other. *)
Lemma actual_inv env cmp0 co it v : env_ok env -> comparison exactA env n_t (cached f co it) cmp0 -> NoDup co ->
  actual_agreement exactA cmp0 f co it = Ok v -> coded f co it /\ n_t <> 0.
Proof using.
  clear. intros He Hc Hnd H. unfold actual_agreement in H. destruct (agreement_parts cmp0 f co it) as [a|] eqn:HP; [|discriminate].
  destruct (few_dec co it) as [C|[C1 C2]]; [|eapply parts_inv; eassumption].
  rewrite parts_none in HP by exact C. injection HP as <-. discriminate.
Qed.

Context (Hnd : NoDup coders).

Lemma nodup_relabelled : NoDup coders'.
Proof using Hrho Hco Hnd. rewrite Hco. apply NoDup_fmap; assumption. Qed.

Lemma iff_coded {R} (x x' : res R) v :
  (x = Ok v -> coded f coders items /\ n_t <> 0) -> (x' = Ok v -> coded f coders' items' /\ n_t <> 0) ->
  (n_t <> 0 -> coded f coders items -> x' = x) -> x = Ok v <-> x' = Ok v.
Proof using Hrho Hco Hit.
  intros H1 H2 H. split; intros Hx.
  - destruct (H1 Hx) as [HC Hn]. rewrite (H Hn HC). exact Hx.
  - destruct (H2 Hx) as [HC Hn]. rewrite <- (H Hn) by (apply coded_relabelled, HC). exact Hx.
Qed.

Lemma full_relabelled :
  (forall v, actual_agreement exactA cmp f coders items = Ok v <-> actual_agreement exactA cmp' f coders' items' = Ok v) /\
  (forall v, pi_full exactA cmp f coders items = Ok v <-> pi_full exactA cmp' f coders' items' = Ok v) /\
  (forall v, kappa_full exactA cmp f coders items = Ok v <-> kappa_full exactA cmp' f coders' items' = Ok v).
Proof.
  assert (G : comparison exactA E n_t (cached f coders items) cmp) by (apply with_comparison, Hca).
  assert (G' : comparison exactA E' n_t (cached f coders' items') cmp') by (apply with_comparison, cached_relabelled, Hca).
  pose proof nodup_relabelled as Hnd'. split; [|split]; intros v.
  - apply iff_coded; [apply (actual_inv E); assumption|apply (actual_inv E'); assumption|]. intros Hn HC. apply stats_relabelled; assumption.
  - rewrite !pi_is, equal_counts_relabelled. destruct (equal_counts items); [|reflexivity].
    apply iff_coded; [eapply (corrected_inv _ exactA E); eassumption|eapply (corrected_inv _ exactA E'); eassumption|].
    intros Hn HC. apply stats_relabelled; assumption.
  - rewrite !kappa_is, equal_counts_relabelled, few_relabelled. destruct (existsb _ items); [reflexivity|]. destruct (equal_counts items); [|reflexivity].
    apply iff_coded; [eapply (corrected_inv _ exactA E); eassumption|eapply (corrected_inv _ exactA E'); eassumption|].
    intros Hn HC. apply stats_relabelled; assumption.
Qed.

Lemma bias_relabelled v : bias_full exactA cmp f coders items = Ok v <-> bias_full exactA cmp' f coders' items' = Ok v.
Proof.
  destruct full_relabelled as (_ & Hp & Hk). unfold bias_full. split; intros H.
  - destruct (pi_full exactA cmp f coders items) as [p|] eqn:P; [|discriminate].
    destruct (kappa_full exactA cmp f coders items) as [k|] eqn:K; [|destruct p as [[]]; discriminate].
    rewrite (proj1 (Hp p) eq_refl), (proj1 (Hk k) eq_refl). exact H.
  - destruct (pi_full exactA cmp' f coders' items') as [p|] eqn:P; [|discriminate].
    destruct (kappa_full exactA cmp' f coders' items') as [k|] eqn:K; [|destruct p as [[]]; discriminate].
    rewrite (proj2 (Hp p) eq_refl), (proj2 (Hk k) eq_refl). exact H.
Qed.
End Relabel.

Lemma three_iff rp (x y : res (num * num * num)) : (forall v, x = Ok v <-> y = Ok v) -> forall v, three rp x = Ok v <-> three rp y = Ok v.
Proof.
  intros H v. unfold three. split; intros Hv.
  - destruct x as [r|]; [|discriminate]. rewrite (proj1 (H r) eq_refl). exact Hv.
  - destruct y as [r|]; [|discriminate]. rewrite (proj2 (H r) eq_refl). exact Hv.
Qed.

(** The public functions. *)
Theorem agreement_relabelled rho E E' n_t b om f cord cord' c c' :
  Inj (=) (=) rho -> env_ok E -> env_ok E' -> lord_ok cord -> lord_ok cord' ->
  c_format c' f = c_format c f -> c_coders c' = set_map rho (c_coders c) -> relabelled rho (c_items c) (c_items c') ->
  cached (c_format c f) (elements (c_coders c)) (c_items c) ->
  let X := compare_with b exactA E n_t om in let X' := compare_with b exactA E' n_t om in
  (forall v, actual_agreement_linear exactA X f cord c = Ok v <-> actual_agreement_linear exactA X' f cord' c' = Ok v) /\
  forall rp v, (fleiss_pi_linear exactA X f cord rp c = Ok v <-> fleiss_pi_linear exactA X' f cord' rp c' = Ok v) /\
    (fleiss_kappa_linear exactA X f cord rp c = Ok v <-> fleiss_kappa_linear exactA X' f cord' rp c' = Ok v) /\
    (artstein_poesio_bias_linear exactA X f cord rp c = Ok v <-> artstein_poesio_bias_linear exactA X' f cord' rp c' = Ok v).
Proof.
  intros Hrho HE HE' Hc Hc' Hf HS HR Hca X X'.
  assert (HP : cord' (c_coders c') ≡ₚ rho <$> cord (c_coders c)).
  { rewrite (Hc (c_coders c)), (Hc' (c_coders c')), HS. apply NoDup_Permutation; [apply NoDup_elements|apply NoDup_fmap; [exact Hrho|apply NoDup_elements]|].
    intros x. rewrite elem_of_elements, elem_of_map, elem_of_list_fmap. split; intros (y & -> & Hy); exists y; (split; [reflexivity|apply elem_of_elements, Hy]). }
  assert (N1 : NoDup (cord (c_coders c))) by (rewrite (Hc (c_coders c)); apply NoDup_elements).
  assert (Hca1 : cached (c_format c f) (cord (c_coders c)) (c_items c)).
  { intros ic d d' Hic Hd Hd'. rewrite (Hc (c_coders c)) in Hd, Hd'. apply Hca; assumption. }
  destruct (full_relabelled rho Hrho _ _ _ _ HP HR E E' n_t (c_format c f) b om HE HE' Hca1 N1) as (A1 & A2 & A3).
  pose proof (bias_relabelled rho Hrho _ _ _ _ HP HR E E' n_t (c_format c f) b om HE HE' Hca1 N1) as A4.
  unfold actual_agreement_linear, fleiss_pi_linear, fleiss_kappa_linear, artstein_poesio_bias_linear. rewrite Hf.
  split; [exact A1|]. intros rp v. split; [|split]; apply three_iff; assumption.
Qed.
