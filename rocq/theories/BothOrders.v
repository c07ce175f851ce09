(** Summaries of the values when each pair is also compared in the other order. *)
From stdpp Require Import gmap.
From Verif Require Import SpecDispatch SpecML SpecMath SpecSim Spec Dispatch DictProofs DispatchProofs DispatchMain MLSums MathProofs Round RoundProofs SimSym.
Open Scope Z_scope.

Section Values.
Context {R : Type} (metric : seg -> seg -> res R).

Definition got (j : job) : option R := match eval metric j with Ok v => Some v | Err _ => None end.

Lemma values_got J vs : Forall2 (fun j v => eval metric j = Ok v) J vs -> vs = omap got J.
Proof. induction 1 as [|j v J vs H _ IH]; [reflexivity|]. cbn. unfold got at 1. rewrite H. f_equal. exact IH. Qed.

(** The values, as a list of the pairs of all items. *)
Lemma values_list lord permuted items d : lord_ok lord -> items_ok items -> plain_coders items ->
  compute_pairwise_values metric lord permuted items None = Ok d ->
  d.*2 ≡ₚ omap got (items ≫= (fun ic => pairs2 (snd ic) ≫= pair_jobs permuted (fst ic))).
Proof.
  intros HL HO HP H. assert (HB : both_ok items None) by (split; [exact HO|exact I]).
  destruct (values_jobs metric lord HL permuted items None d HB H) as (vs & HV & ->).
  set (J := all_jobs permuted items None (lord (labels_of items None))) in *.
  assert (ND : NoDup J.*1). { apply jobs_NoDup; [exact HB|exact (conj HP I)|]. rewrite (HL _). apply NoDup_elements. }
  assert (Len : length J.*1 = length vs) by (rewrite fmap_length; eapply Forall2_length, HV).
  rewrite dupdate_nodup; [|unfold dict_ok; cbn [app]; rewrite zip_fst; assumption]. cbn [app].
  rewrite snd_zip by lia. rewrite (values_got J vs HV). apply omap_Permutation. apply jobs_perm1; assumption.
Qed.

Lemma got_flip label p : metric (snd (fst p)) (snd (snd p)) = metric (snd (snd p)) (snd (fst p)) ->
  omap got (pair_jobs true label p) = omap got (pair_jobs false label p) ++ omap got (pair_jobs false label p).
Proof.
  destruct p as [[m a] [n b]]. cbn [fst snd]. intros H. unfold pair_jobs. cbn [omap list_omap app]. unfold got, eval. cbn [fst snd].
  rewrite <- H. destruct (metric a b); reflexivity.
Qed.

Lemma got_pairs label P : (forall p, p ∈ P -> metric (snd (fst p)) (snd (snd p)) = metric (snd (snd p)) (snd (fst p))) ->
  omap got (P ≫= pair_jobs true label) ≡ₚ omap got (P ≫= pair_jobs false label) ++ omap got (P ≫= pair_jobs false label).
Proof.
  induction P as [|p P IH]; intros H; [reflexivity|]. cbn [mbind list_bind]. rewrite !omap_app.
  rewrite (got_flip label p) by (apply H; left). rewrite IH by (intros q Hq; apply H; right; exact Hq).
  set (x := omap got (pair_jobs false label p)). set (y := omap got (P ≫= pair_jobs false label)). solve_Permutation.
Qed.

Lemma got_items items : (forall ic p, ic ∈ items -> p ∈ pairs2 (snd ic) -> metric (snd (fst p)) (snd (snd p)) = metric (snd (snd p)) (snd (fst p))) ->
  omap got (items ≫= (fun ic => pairs2 (snd ic) ≫= pair_jobs true (fst ic))) ≡ₚ
  omap got (items ≫= (fun ic => pairs2 (snd ic) ≫= pair_jobs false (fst ic))) ++ omap got (items ≫= (fun ic => pairs2 (snd ic) ≫= pair_jobs false (fst ic))).
Proof.
  induction items as [|ic items IH]; intros H; [reflexivity|]. cbn [mbind list_bind]. rewrite !omap_app.
  rewrite (got_pairs (fst ic)) by (intros p Hp; apply (H ic p); [left|exact Hp]).
  change (list_bind (string * dict seg)%type job) with (@mbind list list_bind (string * dict seg)%type job).
  rewrite IH by (intros ic' p Hi Hp; apply (H ic' p); [right; exact Hi|exact Hp]). solve_Permutation.
Qed.

Theorem both_values lord lord' items d d' : lord_ok lord -> lord_ok lord' -> items_ok items -> plain_coders items ->
  (forall item c1 c2 a b, before items item c1 c2 a b -> metric a b = metric b a) ->
  compute_pairwise_values metric lord false items None = Ok d -> compute_pairwise_values metric lord' true items None = Ok d' ->
  d'.*2 ≡ₚ d.*2 ++ d.*2.
Proof.
  intros HL HL' HO HP HS Hd Hd'. rewrite (values_list lord' true items d' HL' HO HP Hd'), (values_list lord false items d HL HO HP Hd).
  apply got_items. intros [i cs] [[m a] [n b]] Hi Hp. cbn [fst snd] in *. apply elem_of_pairs2 in Hp as (u & w & L & Hu & Hw).
  apply (HS i m n). exists cs, u, w. auto.
Qed.
End Values.

(** ** Statistics of a list taken twice *)

Lemma zlen_app {X} (l k : list X) : zlen (l ++ k) = zlen l + zlen k.
Proof. unfold zlen. rewrite app_length. lia. Qed.

Lemma average_twice xs : xs <> [] -> (average (xs ++ xs) == average xs)%Q.
Proof.
  intros H. unfold average. rewrite qsum_app, zlen_app, inject_Z_plus. assert (K : (0 < inject_Z (zlen xs))%Q).
  { rewrite <- (Zlt_Qlt 0). unfold zlen. destruct xs; [contradiction|cbn; lia]. }
  field. split; intros E; [rewrite E in K; discriminate K|]. set (z := inject_Z (zlen xs)) in *.
  assert (K2 : (0 < z + z)%Q) by (rewrite <- (Qplus_0_r 0); apply Qplus_lt_le_compat; [exact K|apply Qlt_le_weak, K]). rewrite E in K2. discriminate K2.
Qed.

Lemma qsum_ext {X} (f g : X -> Q) l : (forall x, f x == g x)%Q -> (qsum (f <$> l) == qsum (g <$> l))%Q.
Proof. intros H. induction l as [|x l IH]; [reflexivity|]. cbn. rewrite H. change (foldr Qplus 0%Q (f <$> l)) with (qsum (f <$> l)). rewrite IH. reflexivity. Qed.

Lemma variance_twice xs : xs <> [] -> (variance (xs ++ xs) == variance xs)%Q.
Proof.
  intros H. unfold variance at 1. set (g := fun x => ((x - average (xs ++ xs)) * (x - average (xs ++ xs)))%Q). rewrite fmap_app.
  rewrite average_twice by (destruct xs; [contradiction|discriminate]). unfold variance, average at 1 2. rewrite !zlen_fmap.
  rewrite (qsum_ext g (fun x => (x - average xs) * (x - average xs))%Q); [reflexivity|].
  intros x. unfold g. rewrite (average_twice xs H). reflexivity.
Qed.

Definition numbers {R} (w : R -> num) (d : dict R) : dict num := (fun kv => (fst kv, w (snd kv))) <$> d.

Lemma numbers_snd {R} (w : R -> num) d : (numbers w d).*2 = w <$> d.*2.
Proof. unfold numbers. rewrite <- !list_fmap_compose. reflexivity. Qed.

Theorem both_summary {R} (metric : seg -> seg -> res R) (w : R -> num) lord lord' items d d' : lord_ok lord -> lord_ok lord' -> items_ok items -> plain_coders items ->
  (forall item c1 c2 a b, before items item c1 c2 a b -> metric a b = metric b a) ->
  compute_pairwise_values metric lord false items None = Ok d -> compute_pairwise_values metric lord' true items None = Ok d' ->
  d <> [] -> Forall not_float (w <$> d.*2) ->
  exists m s v e m' s' v' e', summarize exactA (numbers w d) = Ok (NDec m, NDec s, NDec v, NDec e, zlen d) /\
    summarize exactA (numbers w d') = Ok (NDec m', NDec s', NDec v', NDec e', 2 * zlen d) /\
    (m' == m)%Q /\ (s' == s)%Q /\ (v' == v)%Q /\
    near_root e (v / inject_Z (zlen d)) (2 # 10 ^ 27) /\ near_root e' (v / inject_Z (2 * zlen d)) (2 # 10 ^ 27).
Proof.
  intros HL HL' HO HP HS Hd Hd' Hne HF. pose proof (both_values metric lord lord' items d d' HL HL' HO HP HS Hd Hd') as HV.
  assert (L : zlen d' = 2 * zlen d).
  { apply Permutation_length in HV. rewrite app_length, !fmap_length in HV. unfold zlen. lia. }
  assert (Hne' : d' <> []). { intros ->. unfold zlen in L. cbn in L. destruct d; [contradiction|cbn in L; lia]. }
  assert (N1 : numbers w d <> []) by (destruct d; [contradiction|discriminate]).
  assert (N2 : numbers w d' <> []) by (destruct d'; [contradiction|discriminate]).
  assert (F1 : Forall not_float (numbers w d).*2) by (rewrite numbers_snd; exact HF).
  assert (F2 : Forall not_float (numbers w d').*2) by (rewrite numbers_snd, HV, fmap_app; apply Forall_app; auto).
  destruct (summary_exact _ N1 F1) as (m & s & v & e & E & Hm & Hv & _ & He). destruct (summary_exact _ N2 F2) as (m' & s' & v' & e' & E' & Hm' & Hv' & _ & He').
  assert (Z1 : zlen (numbers w d) = zlen d) by apply zlen_fmap. assert (Z2 : zlen (numbers w d') = 2 * zlen d) by (rewrite <- L; apply zlen_fmap).
  destruct (summarize_inv exactA _ _ _ _ _ _ sane_exactA N1 F1 E) as (_ & S1 & V1 & _ & _).
  destruct (summarize_inv exactA _ _ _ _ _ _ sane_exactA N2 F2 E') as (_ & S2 & V2 & _ & _).
  set (xs := nval <$> (numbers w d).*2) in *. set (ys := nval <$> (numbers w d').*2) in *.
  assert (X : ys ≡ₚ xs ++ xs). { unfold xs, ys. rewrite !numbers_snd, HV, !fmap_app. reflexivity. }
  assert (Hx : xs <> []) by (unfold xs; rewrite numbers_snd; destruct d; [contradiction|discriminate]).
  assert (EV : (v' == v)%Q). { rewrite Hv, Hv', <- (variance_twice xs Hx), !qvar_eq. apply qvar_perm. exact X. }
  exists m, s, v, e, m', s', v', e'. rewrite Z1, Z2 in *. split; [exact E|]. split; [exact E'|].
  split; [rewrite Hm, Hm', <- (average_twice xs Hx); apply average_perm; exact X|]. split.
  - injection S1 as ->. injection S2 as ->. injection V1 as V1. injection V2 as V2. rewrite V1, V2 in EV. rewrite (dec_sqrt_ext _ _ EV). reflexivity.
  - split; [exact EV|]. split; [exact He|]. unfold near_root in *. rewrite <- EV. exact He'.
Qed.

(** ** B and S *)

Definition b_num (r : bres) : num := match r with BVal v => v | BParts n _ _ => n end.
Definition s_num (r : sres) : num := match r with SVal v => v | SParts n _ => n end.

Lemma similarity_symmetric A E W f n_t om items : env_ok E -> neutral W ->
  codings_ok items (fun s => exists x, to_bstring f s = Ok x /\ small_types x x) ->
  forall item c1 c2 a b, before items item c1 c2 a b ->
    boundary_similarity A E W f n_t om false a b = boundary_similarity A E W f n_t om false b a /\
    segmentation_similarity A E W f n_t om false a b = segmentation_similarity A E W f n_t om false b a.
Proof.
  intros HE HW HC item c1 c2 a b K. destruct (before_ok items _ _ _ _ _ _ HC K) as [(x & Hx & Sx) (y & Hy & Sy)].
  destruct (metrics_symmetric A E E W f n_t a b HE HE HW) as [S1 S2].
  - intros e e' Q. rewrite Hx in Q. discriminate Q.
  - intros x' y' Qx Qy. assert (x' = x) by congruence. assert (y' = y) by congruence. subst.
    intros u t [Ht|Ht] Hu; [apply (Sx u)|apply (Sy u)]; auto.
  - split; [|apply S2]. specialize (S1 om false). revert S1. unfold same_result.
    assert (NP : forall a b n d e, boundary_similarity A E W f n_t om false a b <> Ok (BParts n d e)).
    { intros a' b' n' d' e' Q. unfold boundary_similarity in Q. destruct (boundary_statistics A E W f n_t a' b') as [s|]; cbn [bind] in Q; [|discriminate Q].
      unfold similarity_of_stats in Q. destruct (nsub A _ _) as [m|]; cbn [bind] in Q; [|discriminate Q].
      destruct (if 0 <? _ then ndiv A m _ else _) as [v|] in Q; cbn [bind] in Q; [|discriminate Q]. destruct om; [|discriminate Q].
      destruct (nsub A _ v); discriminate Q. }
    destruct (boundary_similarity A E W f n_t om false a b) as [[v|n1 d1 e1]|e] eqn:E1;
    destruct (boundary_similarity A E W f n_t om false b a) as [[v'|n2 d2 e2]|e'] eqn:E2; intros Q; try contradiction; try congruence.
    exfalso. exact (NP _ _ _ _ _ E1).
Qed.

Theorem both_similarity A E W f n_t om lord lord' items : lord_ok lord -> lord_ok lord' -> items_ok items -> plain_coders items -> env_ok E -> neutral W ->
  codings_ok items (fun s => exists x, to_bstring f s = Ok x /\ small_types x x) ->
  (forall d d', compute_pairwise_values (boundary_similarity A E W f n_t om false) lord false items None = Ok d ->
     compute_pairwise_values (boundary_similarity A E W f n_t om false) lord' true items None = Ok d' -> d'.*2 ≡ₚ d.*2 ++ d.*2) /\
  (forall d d', compute_pairwise_values (segmentation_similarity A E W f n_t om false) lord false items None = Ok d ->
     compute_pairwise_values (segmentation_similarity A E W f n_t om false) lord' true items None = Ok d' -> d'.*2 ≡ₚ d.*2 ++ d.*2).
Proof.
  intros HL HL' HO HP HE HW HC. split; intros d d'; apply both_values; try assumption;
    intros item c1 c2 a b K; destruct (similarity_symmetric A E W f n_t om items HE HW HC item c1 c2 a b K); assumption.
Qed.
