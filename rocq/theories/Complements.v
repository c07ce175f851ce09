(** Summaries of a metric and of its complement. *)
From Coq Require Import Lqa.
From stdpp Require Import gmap.
From Verif Require Import SpecCompared SpecDispatch SpecSim SpecMath SpecWindow SpecML Spec Dispatch Round MathProofs SimMain BothOrders Along MLSums SimStats SimSym WindowSize.
Open Scope Z_scope.

Lemma average_complement xs ys : xs <> [] -> Forall2 (fun x y => y == 1 - x)%Q xs ys -> (average ys == 1 - average xs)%Q.
Proof.
  intros Hne H. assert (L : zlen ys = zlen xs) by (unfold zlen; rewrite (Forall2_length _ _ _ H); reflexivity). unfold average. rewrite L.
  assert (E : (qsum ys == inject_Z (zlen xs) - qsum xs)%Q).
  { clear - H. induction H as [|x y xs ys H1 H2 IH]; [reflexivity|]. rewrite !qsum_cons, IH, H1.
    assert (Z : zlen (x :: xs) = 1 + zlen xs) by (unfold zlen; cbn [length]; lia). rewrite Z, inject_Z_plus. change (inject_Z 1) with 1%Q. ring. }
  assert (P : (0 < inject_Z (zlen xs))%Q) by (rewrite <- (Zlt_Qlt 0); unfold zlen; destruct xs; [contradiction|cbn [length]; lia]). rewrite E. field. lra.
Qed.

Lemma variance_complement xs ys : xs <> [] -> Forall2 (fun x y => y == 1 - x)%Q xs ys -> (variance ys == variance xs)%Q.
Proof.
  intros Hne H. pose proof (average_complement xs ys Hne H) as A. unfold variance. set (a := average xs) in *. set (b := average ys) in *. clearbody a b.
  assert (L : zlen ys = zlen xs) by (unfold zlen; rewrite (Forall2_length _ _ _ H); reflexivity). unfold average.
  assert (L1 : zlen ((fun x => ((x - b) * (x - b))%Q) <$> ys) = zlen ys) by (unfold zlen; rewrite fmap_length; reflexivity).
  assert (L2 : zlen ((fun x => ((x - a) * (x - a))%Q) <$> xs) = zlen xs) by (unfold zlen; rewrite fmap_length; reflexivity). rewrite L1, L2, L.
  apply Qmult_comp; [|reflexivity]. clear - H A. induction H as [|x y xs ys H1 H2 IH]; [reflexivity|]. rewrite !fmap_cons, !qsum_cons, IH, H1, A. ring.
Qed.

Lemma summary_complement pairs pairs' : Forall not_float pairs.*2 -> Forall not_float pairs'.*2 ->
  Forall2 (fun p p' : string * num => nval (snd p') == 1 - nval (snd p))%Q pairs pairs' ->
  forall m s v e n m' s' v' e' n', summarize exactA pairs = Ok (m, s, v, e, n) -> summarize exactA pairs' = Ok (m', s', v', e', n') ->
  (nval m' == 1 - nval m /\ nval s' == nval s /\ nval v' == nval v /\ nval e' == nval e)%Q /\ n' = n.
Proof.
  intros HF HF' HP m s v e n m' s' v' e' n' E E'.
  assert (Hne : pairs <> []) by (intros ->; discriminate). assert (Hne' : pairs' <> []) by (intros ->; discriminate).
  destruct (summarize_inv exactA pairs m s v e n sane_exactA Hne HF E) as (-> & -> & -> & -> & ->).
  destruct (summarize_inv exactA pairs' m' s' v' e' n' sane_exactA Hne' HF' E') as (-> & -> & -> & -> & ->).
  assert (HX : Forall2 (fun x y => y == 1 - x)%Q (nval <$> pairs.*2) (nval <$> pairs'.*2)) by (rewrite <- !list_fmap_compose; apply Forall2_fmap; exact HP).
  assert (Hx : nval <$> pairs.*2 <> []) by (destruct pairs; [contradiction|discriminate]).
  set (xs := nval <$> pairs.*2) in *. set (ys := nval <$> pairs'.*2) in *.
  assert (EN : zlen pairs' = zlen pairs) by (unfold zlen; rewrite (Forall2_length _ _ _ HP); reflexivity).
  assert (EV : (rvar exactA ys == rvar exactA xs)%Q) by (rewrite !rvar_exact, <- !qvar_eq; apply variance_complement; assumption).
  cbn [nval]. split; [|exact EN]. split; [rewrite !rmean_exact; apply average_complement; assumption|].
  rewrite (dec_sqrt_ext _ _ EV), EN. split; [reflexivity|]. split; [exact EV|]. reflexivity.
Qed.

(** Over whole datasets. *)
Theorem along_complement {R} (M M' : seg -> seg -> res R) (w : R -> num) lord permuted ma mb d d' :
  (forall a b r r', compared_codings ma mb a b -> M a b = Ok r -> M' a b = Ok r' -> not_float (w r) /\ not_float (w r') /\ (nval (w r') == 1 - nval (w r))%Q) ->
  compute_pairwise_values M lord permuted ma mb = Ok d -> compute_pairwise_values M' lord permuted ma mb = Ok d' ->
  Forall2 (fun p p' => fst p' = fst p /\ (nval (w (snd p')) == 1 - nval (w (snd p)))%Q) d d' /\
  (d <> [] -> exists m s v e m' s' v' e', summarize exactA (numbers w d) = Ok (NDec m, NDec s, NDec v, NDec e, zlen d) /\
    summarize exactA (numbers w d') = Ok (NDec m', NDec s', NDec v', NDec e', zlen d) /\ (m' == 1 - m /\ s' == s /\ v' == v /\ e' == e)%Q).
Proof.
  intros HR H H'. pose proof (along M M' _ ma mb HR lord permuted d d' H H') as A.
  assert (A' : Forall2 (fun p p' => fst p' = fst p /\ (nval (w (snd p')) == 1 - nval (w (snd p)))%Q) d d') by (eapply Forall2_impl; [exact A|]; intros p p' (? & _ & _ & ?); auto).
  split; [exact A'|]. intros Hne. assert (L : length d = length d') by (eapply Forall2_length; exact A).
  assert (Hne' : d' <> []) by (intros ->; destruct d; [contradiction|discriminate L]).
  assert (S : forall d : dict R, (numbers w d).*2 = (fun p => w (snd p)) <$> d) by (intros x; unfold numbers; rewrite <- !list_fmap_compose; apply list_fmap_ext; intros ? [? ?] _; reflexivity).
  assert (F1 : Forall not_float (numbers w d).*2) by (rewrite S; apply Forall_fmap; clear - A; induction A as [|p p' d d' (_ & K & _) A IH]; constructor; [exact K|exact IH]).
  assert (F2 : Forall not_float (numbers w d').*2) by (rewrite S; apply Forall_fmap; clear - A; induction A as [|p p' d d' (_ & _ & K & _) A IH]; constructor; [exact K|exact IH]).
  assert (N1 : numbers w d <> []) by (destruct d; [contradiction|discriminate]). assert (N2 : numbers w d' <> []) by (destruct d'; [contradiction|discriminate]).
  destruct (summary_exact (numbers w d) N1 F1) as (m & s & v & e & E & _). destruct (summary_exact (numbers w d') N2 F2) as (m' & s' & v' & e' & E' & _).
  assert (HP : Forall2 (fun p p' : string * num => nval (snd p') == 1 - nval (snd p))%Q (numbers w d) (numbers w d')).
  { unfold numbers. apply Forall2_fmap. eapply Forall2_impl; [exact A'|]. intros [k x] [k' y] [_ K]. exact K. }
  destruct (summary_complement _ _ F1 F2 HP _ _ _ _ _ _ _ _ _ _ E E') as [G _].
  assert (Z1 : zlen (numbers w d) = zlen d) by (unfold numbers, zlen; rewrite fmap_length; reflexivity). assert (Z2 : zlen (numbers w d') = zlen d) by (unfold numbers, zlen; rewrite fmap_length; lia).
  rewrite Z1 in E. rewrite Z2 in E'. exists m, s, v, e, m', s', v', e'. split; [exact E|]. split; [exact E'|]. exact G.
Qed.

Lemma exact_rd x : (rd exactA x == x)%Q.
Proof. apply Qred_correct. Qed.

Theorem pk_complement rnd f k lord permuted ma mb d d' :
  compute_pairwise_values (pk exactA rnd f k false false) lord permuted ma mb = Ok d ->
  compute_pairwise_values (pk exactA rnd f k true false) lord permuted ma mb = Ok d' ->
  Forall2 (fun p p' => fst p' = fst p /\ (nval (w_num (snd p')) == 1 - nval (w_num (snd p)))%Q) d d' /\
  (d <> [] -> exists m s v e m' s' v' e', summarize exactA (numbers w_num d) = Ok (NDec m, NDec s, NDec v, NDec e, zlen d) /\
    summarize exactA (numbers w_num d') = Ok (NDec m', NDec s', NDec v', NDec e', zlen d) /\ (m' == 1 - m /\ s' == s /\ v' == v /\ e' == e)%Q).
Proof.
  apply along_complement. intros a b r r' _ E E'. destruct (pk_flags exactA rnd f k a b) as [[x Hx]|(n & t & v & _ & H1 & _ & H2 & Hv)].
  - rewrite Hx in E. discriminate.
  - rewrite H1 in E. rewrite H2 in E'. injection E as <-. injection E' as <-. cbn [w_num nval]. split; [|split; [exact I|apply exact_rd]].
    rewrite Hv. destruct (0 <? t); exact I.
Qed.

Theorem wd_complement rnd f k lam lord permuted ma mb d d' :
  compute_pairwise_values (window_diff exactA rnd f k lam false false) lord permuted ma mb = Ok d ->
  compute_pairwise_values (window_diff exactA rnd f k lam true false) lord permuted ma mb = Ok d' ->
  Forall2 (fun p p' => fst p' = fst p /\ (nval (w_num (snd p')) == 1 - nval (w_num (snd p)))%Q) d d' /\
  (d <> [] -> exists m s v e m' s' v' e', summarize exactA (numbers w_num d) = Ok (NDec m, NDec s, NDec v, NDec e, zlen d) /\
    summarize exactA (numbers w_num d') = Ok (NDec m', NDec s', NDec v', NDec e', zlen d) /\ (m' == 1 - m /\ s' == s /\ v' == v /\ e' == e)%Q).
Proof.
  apply along_complement. intros a b r r' _ E E'. destruct (wd_flags exactA rnd f k lam a b) as [[x Hx]|(n & t & v & _ & H1 & _ & H2 & Hv)].
  - rewrite Hx in E. discriminate.
  - rewrite H1 in E. rewrite H2 in E'. injection E as <-. injection E' as <-. cbn [w_num nval]. split; [exact I|split; [exact I|apply exact_rd]].
Qed.

Theorem B_complement E n_t f lord permuted ma mb d d' : env_ok E -> n_t <> 0 ->
  (forall a b, compared_codings ma mb a b -> exists x y, to_bstrings f a b = Ok (x, y) /\ exists t, used x y t) ->
  compute_pairwise_values (boundary_similarity exactA E (default_weights exactA) f n_t false false) lord permuted ma mb = Ok d ->
  compute_pairwise_values (boundary_similarity exactA E (default_weights exactA) f n_t true false) lord permuted ma mb = Ok d' ->
  Forall2 (fun p p' => fst p' = fst p /\ (nval (b_num (snd p')) == 1 - nval (b_num (snd p)))%Q) d d' /\
  (d <> [] -> exists m s v e m' s' v' e', summarize exactA (numbers b_num d) = Ok (NDec m, NDec s, NDec v, NDec e, zlen d) /\
    summarize exactA (numbers b_num d') = Ok (NDec m', NDec s', NDec v', NDec e', zlen d) /\ (m' == 1 - m /\ s' == s /\ v' == v /\ e' == e)%Q).
Proof.
  intros HE Hn HA. apply along_complement. intros a b r r' Hab G G'. destruct (HA a b Hab) as (x & y & Hb & Hu).
  destruct (B_flags exactA E f n_t a b x y HE Hb Hu Hn) as (n & t & e & _ & _ & _ & _ & _ & H1 & H2).
  rewrite H1 in G. rewrite H2 in G'. injection G as <-. injection G' as <-. cbn [b_num nval]. split; [exact I|split; [exact I|apply exact_rd]].
Qed.

Theorem S_complement E n_t f lord permuted ma mb d d' : env_ok E -> n_t <> 0 ->
  (forall a b, compared_codings ma mb a b -> exists x y, to_bstrings f a b = Ok (x, y) /\ exists t, used x y t) ->
  compute_pairwise_values (segmentation_similarity exactA E (default_weights exactA) f n_t false false) lord permuted ma mb = Ok d ->
  compute_pairwise_values (segmentation_similarity exactA E (default_weights exactA) f n_t true false) lord permuted ma mb = Ok d' ->
  Forall2 (fun p p' => fst p' = fst p /\ (nval (s_num (snd p')) == 1 - nval (s_num (snd p)))%Q) d d' /\
  (d <> [] -> exists m s v e m' s' v' e', summarize exactA (numbers s_num d) = Ok (NDec m, NDec s, NDec v, NDec e, zlen d) /\
    summarize exactA (numbers s_num d') = Ok (NDec m', NDec s', NDec v', NDec e', zlen d) /\ (m' == 1 - m /\ s' == s /\ v' == v /\ e' == e)%Q).
Proof.
  intros HE Hn HA. apply along_complement. intros a b r r' Hab G G'. destruct (HA a b Hab) as (x & y & Hb & Hu).
  destruct (S_flags exactA E f n_t a b x y HE Hb Hu Hn) as (n & t & _ & _ & _ & _ & H1 & H2).
  rewrite H1 in G. rewrite H2 in G'. injection G as <-. injection G' as <-. cbn [s_num nval]. split; [exact I|split; [exact I|apply exact_rd]].
Qed.
