(** What BED, B, S, precision and recall make of nested segmentations. *)
From Verif Require Import SpecNested SpecML Round RoundProofs SimRound BedProofs BedSubs BedMain BedTheory BedExtra
  SimStats SimProofs SimTheory SimMain BedMetric BedError MLProofs MLMain MLMatrix MLFinal MLBoundary.
From Coq Require Import Lqa.
Open Scope Z_scope.

Lemma nested_matches a b : nested a b -> nmatches a b = nbounds a.
Proof.
  intros [Hl H]. rewrite (bounds_split a b Hl). rewrite (proj2 (sumn_zero_iff _ _)); [lia|]. intros k _. apply size_empty_iff. intros d. rewrite elem_of_difference, !at_has, elem_of_empty.
  pose proof (H k d). tauto.
Qed.

Lemma nmatches_sym (x y : bstring) : nmatches x y = nmatches y x.
Proof.
  unfold nmatches. revert y. induction x as [|s x IH]; intros [|t y]; try reflexivity. cbn [zip_with sum_list]. rewrite (IH y), (intersection_comm_L s t). reflexivity.
Qed.

Lemma nested_sum (a b : bstring) : nested a b -> ndiffs a b = sumn (fun i => size (at_ b i ∖ at_ a i)) (length b).
Proof.
  intros [Hl H]. unfold ndiffs, sumn. revert b Hl H. induction a as [|s a IH]; intros [|t b] Hl H; try discriminate; [reflexivity|].
  cbn [zip_with sum_list length seq fmap list_fmap]. rewrite <- fmap_S_seq, <- list_fmap_compose.
  change ((λ i : nat, size (at_ (t :: b) i ∖ at_ (s :: a) i)) ∘ S) with (λ i : nat, size (at_ b i ∖ at_ a i)).
  rewrite (IH b); [|cbn in Hl; lia|intros i d K; exact (H (S i) d K)].
  change (at_ (s :: a) 0) with s. change (at_ (t :: b) 0) with t.
  unfold id. assert (size (s ∖ t) = 0%nat) as ->; [|lia]. apply size_empty_iff. intros d. rewrite elem_of_difference, elem_of_empty. split; [|tauto]. intros [K1 K2]. apply K2.
  destruct (H 0%nat d) as (t' & K3 & K4); [exists s; auto|]. cbn in K3. congruence.
Qed.

Lemma nested_diffs (a b : bstring) : nested a b -> (ndiffs a b + nbounds a = nbounds b)%nat.
Proof.
  intros Hn. rewrite (bounds_split b a) by (destruct Hn; congruence). rewrite (nmatches_sym b a), (nested_matches a b Hn). rewrite (nested_sum a b Hn). lia.
Qed.

Section Edits.
Context (E : env) (a b : bstring) (n_t : Z) (e : edits) (HE : env_ok E) (Hs : small_types a b)
  (He : boundary_edit_distance E a b n_t = Ok e) (Hn : nested a b).

Lemma nested_transp : e_transp e = [].
Proof.
  destruct Hn as [Hl H]. apply no_element. intros u Hu. destruct (bed_transpositions E a b n_t e HE Hs Hl He) as [T _]. destruct (T u Hu) as (_ & _ & T3).
  unfold swaps in T3. pose proof (H (t_start u) (t_type u)). pose proof (H (t_end u) (t_type u)). tauto.
Qed.

Lemma nested_only d : only_in a b d = 0%nat.
Proof.
  destruct Hn as [Hl H]. rewrite only_in_sum by exact Hl. apply sumn_zero_iff. intros k _. unfold ind. rewrite decide_False; [reflexivity|].
  rewrite elem_of_difference, !at_has. pose proof (H k d). tauto.
Qed.

Theorem nested_edits : e_sub e = [] /\ e_transp e = [] /\ Forall (fun x => a_side x = SideB) (e_add e) /\
  forall d, countP (fun x => x = Addition d SideB) (e_add e) = only_in b a d.
Proof.
  pose proof nested_transp as HT. destruct Hn as [Hl H].
  assert (HSub : e_sub e = []).
  { apply no_element. intros [x y] K. destruct (bed_conserves E a b n_t e x HE Hs Hl He) as [K1 _]. rewrite nested_only in K1.
    assert (countP (fun s => fst s = x) (e_sub e) = 0%nat) as Z0 by lia. unfold countP in Z0. apply nil_length_inv in Z0.
    assert ((x, y) ∈ filter (fun s : substitution => fst s = x) (e_sub e)) as W by (apply elem_of_list_filter; auto). rewrite Z0 in W. inversion W. }
  split; [exact HSub|]. split; [exact HT|]. split.
  - apply Forall_forall. intros [d []] K; [|reflexivity]. exfalso. destruct (bed_conserves E a b n_t e d HE Hs Hl He) as [K1 _]. rewrite nested_only in K1.
    assert (countP (fun x => x = Addition d SideA) (e_add e) = 0%nat) as Z0 by lia. unfold countP in Z0. apply nil_length_inv in Z0.
    assert (Addition d SideA ∈ filter (fun x => x = Addition d SideA) (e_add e)) as W by (apply elem_of_list_filter; auto). rewrite Z0 in W. inversion W.
  - intros d. destruct (bed_conserves E a b n_t e d HE Hs Hl He) as [_ ->]. rewrite HSub, HT. cbn. unfold countP. cbn. lia.
Qed.

Theorem nested_count : (length (e_add e) + nbounds a = nbounds b)%nat.
Proof.
  destruct nested_edits as (S0 & T0 & _). pose proof (bed_total E a b n_t e HE Hs (proj1 Hn) He) as K. rewrite S0, T0 in K. cbn in K. pose proof (nested_diffs a b Hn). lia.
Qed.
End Edits.

Lemma nbounds_pos s : nbounds s <> 0%nat -> exists i d, has s i d.
Proof.
  unfold nbounds. induction s as [|t s IH]; [intros []; reflexivity|]. change (sum_list (size <$> t :: s)) with (size t + sum_list (size <$> s))%nat. intros H. destruct (decide (size t = 0%nat)) as [Z|Z].
  - destruct IH as (i & d & K); [lia|]. exists (S i), d. exact K.
  - destruct (set_choose_or_empty t) as [[d K]|K]; [exists 0%nat, d, t; auto|]. apply size_empty_iff in K. contradiction.
Qed.
Lemma has_nbounds s i d : has s i d -> nbounds s <> 0%nat.
Proof.
  unfold nbounds. revert i. induction s as [|t s IH]; intros i (x & H & K); [discriminate H|]. change (sum_list (size <$> t :: s)) with (size t + sum_list (size <$> s))%nat. destruct i.
  - cbn in H. injection H as ->. assert (size x <> 0%nat); [|lia]. intros Z. apply size_empty_iff in Z. apply Z in K. exact (not_elem_of_empty _ K).
  - assert (sum_list (size <$> s) <> 0%nat); [|lia]. apply (IH i). exists x. auto.
Qed.

Section Values.
Context (E : env) (f : fmt) (n_t : Z) (sa sb : seg) (a b : bstring) (HE : env_ok E) (Hs : small_types a b) (Hn : n_t <> 0)
  (Hb : to_bstrings f sa sb = Ok (a, b)) (N : nested a b) (U : nbounds b <> 0%nat).

Theorem nested_values :
  B_is E f n_t sa sb (inject_Z (Z.of_nat (nbounds a)) / inject_Z (Z.of_nat (nbounds b))) /\
  S_is E f n_t sa sb (1 - inject_Z (Z.of_nat (nbounds b) - Z.of_nat (nbounds a)) / inject_Z (zlen a * zsize (identify_types a b) * zsize (identify_types a b))).
Proof.
  destruct (bed_returns E a b n_t HE ltac:(rewrite (proj1 N); lia)) as [e He]. destruct (nested_edits E a b n_t e HE Hs He N) as (S0 & T0 & _ & _).
  pose proof (nested_count E a b n_t e HE Hs He N) as L. pose proof (nested_matches a b N) as M.
  destruct (extent_exists a b) as (lo & hi & Hx). { destruct (nbounds_pos b U) as (i & d & K). exists d, i. auto. }
  destruct (values E f n_t sa sb a b HE Hn Hb lo hi e Hx He) as [VB VS].
  assert (C : (edit_cost e (hi - lo + 1) n_t == inject_Z (Z.of_nat (nbounds b) - Z.of_nat (nbounds a)))%Q).
  { unfold edit_cost. rewrite S0, T0. replace (Z.of_nat (nbounds b) - Z.of_nat (nbounds a)) with (zlen (e_add e)) by (unfold zlen; lia). unfold zlen; cbn. unfold Qdiv. ring. }
  split; [eapply B_is_ext; [exact VB|]|eapply S_is_ext; [exact VS|]]; rewrite C; [|reflexivity].
  unfold edit_count. rewrite S0, T0, M. replace (zlen (e_add e) + zlen (@nil substitution) + zlen (@nil transposition) + Z.of_nat (nbounds a)) with (Z.of_nat (nbounds b)) by (unfold zlen; cbn; lia).
  unfold Z.sub. rewrite inject_Z_plus, inject_Z_opp. assert (0 < inject_Z (Z.of_nat (nbounds b)))%Q by (change 0%Q with (inject_Z 0); rewrite <- Zlt_Qlt; lia). field. lra.
Qed.
End Values.

(** Along a chain of refinements B is multiplied and, with one type, the cost of S added. *)
Theorem nested_chain E f n_t sa sb sc a b c : env_ok E -> n_t <> 0 ->
  to_bstrings f sa sb = Ok (a, b) -> to_bstrings f sb sc = Ok (b, c) -> to_bstrings f sa sc = Ok (a, c) ->
  small_types a b -> small_types b c -> small_types a c -> nested a b -> nested b c -> nbounds b <> 0%nat ->
  exists u v w, B_is E f n_t sa sb u /\ B_is E f n_t sb sc v /\ B_is E f n_t sa sc w /\ (w == u * v)%Q.
Proof.
  intros HE Hn H1 H2 H3 S1 S2 S3 N1 N2 U.
  assert (N3 : nested a c) by (split; [rewrite (proj1 N1); apply N2|intros i d K; apply N2, N1, K]).
  assert (U' : nbounds c <> 0%nat) by (destruct (nbounds_pos b U) as (i & d & K); eapply has_nbounds, N2, K).
  destruct (nested_values E f n_t sa sb a b HE S1 Hn H1 N1 U) as [V1 _]. destruct (nested_values E f n_t sb sc b c HE S2 Hn H2 N2 U') as [V2 _].
  destruct (nested_values E f n_t sa sc a c HE S3 Hn H3 N3 U') as [V3 _]. eexists _, _, _. split; [exact V1|]. split; [exact V2|]. split; [exact V3|].
  assert (forall x, x <> 0%nat -> ~ (inject_Z (Z.of_nat x) == 0)%Q) as P by (intros x Hx K; change 0%Q with (inject_Z 0) in K; rewrite inject_Z_injective in K; lia).
  field. split; apply P; assumption.
Qed.

(** The first segmentation is nested in the second. *)
Theorem nested_precision E f n_t sa sb a b m : env_ok E -> small_types a b -> 0 < n_t -> to_bstrings f sa sb = Ok (a, b) -> nested a b ->
  boundary_confusion_matrix exactA E (default_weights exactA) f n_t sa sb = Ok m ->
  forall o t ver, cord_ok o -> used a a t ->
  exists p r mp mr, precision exactA o m (Some t) ver = Ok (NDec p, mp) /\ recall exactA o m (Some t) ver = Ok (NDec r, mr) /\
    (p == inject_Z (Z.of_nat (both_in a b t)) / inject_Z (Z.of_nat (both_in a b t + only_in b a t)))%Q /\ (r == 1)%Q.
Proof.
  intros HE Hs Hn Hb N Hm o t ver HO Ht. destruct (bed_returns E a b n_t HE ltac:(rewrite (proj1 N); lia)) as [e He].
  destruct (nested_edits E a b n_t e HE Hs He N) as (S0 & T0 & A0 & C0).
  destruct (matrix_precision_recall E f n_t sa sb a b e m HE Hs Hn Hb He Hm o t ver HO) as (p & r & mp & mr & E1 & E2 & V1 & V2).
  exists p, r, mp, mr. split; [exact E1|]. split; [exact E2|]. rewrite V1, V2. unfold found. rewrite S0, T0, C0.
  assert (countP (fun x => x = Addition t SideA) (e_add e) = 0%nat) as ->.
  { unfold countP. apply length_zero_iff_nil, no_element. intros x K. apply elem_of_list_filter in K as [-> K]. rewrite Forall_forall in A0. specialize (A0 _ K). discriminate A0. }
  unfold countP. cbn. rewrite Nat2Z.inj_add, inject_Z_plus.
  assert (P : (0 < both_in a b t)%nat).
  { destruct Ht as (i & [Ht|Ht]); destruct Ht as (s & K1 & K2); unfold both_in;
    (destruct (proj2 N i t (ex_intro _ s (conj K1 K2))) as (s' & K3 & K4);
     assert (W : (s, s') ∈ filter (fun p : gset Z * gset Z => t ∈ p.1 /\ t ∈ p.2) (zip a b));
     [apply elem_of_list_filter; split; [auto|]; apply elem_of_list_lookup; exists i; apply lookup_zip_with_Some; eauto|];
     destruct (filter _ _); [inversion W|cbn; lia]). }
  assert (0 < inject_Z (Z.of_nat (both_in a b t)))%Q as Q1 by (change 0%Q with (inject_Z 0); rewrite <- Zlt_Qlt; lia).
  assert (0 <= inject_Z (Z.of_nat (only_in b a t)))%Q as Q2 by (change 0%Q with (inject_Z 0); rewrite <- Zle_Qle; lia).
  assert (~ (inject_Z n_t == 0)%Q) as Q3 by (intros K; change 0%Q with (inject_Z 0) in K; rewrite inject_Z_injective in K; lia).
  assert (inject_Z 0 / inject_Z n_t == 0)%Q as Q4 by (unfold Qdiv; apply Qmult_0_l).
  change (inject_Z (Z.of_nat 0)) with 0%Q. rewrite Q4, !Qplus_0_r. split; [reflexivity|]. field. lra.
Qed.
