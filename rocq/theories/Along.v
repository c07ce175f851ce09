(** Two metrics over the same datasets. *)
From Coq Require Import Lqa.
From stdpp Require Import gmap.
From Verif Require Import SpecCompared SpecDispatch SpecMath SpecSim SpecWindow Spec Dispatch SpecML Round DictProofs DispatchProofs MLSums MathProofs SimMain WindowSym BothOrders.
Open Scope Z_scope.

Section along.
Context {R R' : Type} (M : seg -> seg -> res R) (M' : seg -> seg -> res R') (rel : R -> R' -> Prop).
Definition alike (p : string * R) (p' : string * R') : Prop := fst p = fst p' /\ rel (snd p) (snd p').

Lemma dset_alike d d' k v v' : Forall2 alike d d' -> rel v v' -> Forall2 alike (dset d k v) (dset d' k v').
Proof.
  intros H Hv. induction H as [|[k1 v1] [k1' v1'] d d' [H1 H2] H IH]; cbn [dset].
  - repeat constructor; assumption.
  - cbn in H1. subst k1'. case_decide; constructor; try assumption; split; auto.
Qed.

Lemma dupdate_alike e e' : Forall2 alike e e' -> forall d d', Forall2 alike d d' -> Forall2 alike (dupdate d e) (dupdate d' e').
Proof.
  intros H. unfold dupdate. induction H as [|[k v] [k' v'] e e' [H1 H2] H IH]; intros d d' Hd; cbn [foldl]; [exact Hd|].
  cbn in H1. subst k'. apply IH, dset_alike; assumption.
Qed.

Context (ma : dict (dict seg)) (mb : option (dict (dict seg))) (Hrel : forall a b r r', compared_codings ma mb a b -> M a b = Ok r -> M' a b = Ok r' -> rel r r').

Lemma foldM_alike {S S' X} (F : S -> X -> res S) (F' : S' -> X -> res S') (I : S -> S' -> Prop) l :
  (forall s s' x t t', x ∈ l -> I s s' -> F s x = Ok t -> F' s' x = Ok t' -> I t t') ->
  forall s s' t t', I s s' -> foldM F l s = Ok t -> foldM F' l s' = Ok t' -> I t t'.
Proof.
  induction l as [|x l IH]; intros HF s s' t t' HI H H'; cbn [foldM] in H, H'; [congruence|].
  destruct (F s x) as [u|] eqn:E; [|discriminate]. destruct (F' s' x) as [u'|] eqn:E'; [|discriminate]. cbn [bind] in H, H'.
  eapply IH; [|eapply (HF s s' x u u'); [left|exact HI|exact E|exact E']|exact H|exact H']. intros; eapply HF; [right; eassumption|eassumption..].
Qed.

Notation sim := (fun (s : pstate (R := R)) (s' : pstate (R := R')) => Forall2 alike (fst s) (fst s')).

Lemma pair_alike label permuted two cm cn : (label, cm) ∈ ma -> (label, cn) ∈ default ma mb -> (two = false -> mb = None /\ cm = cn) ->
  forall s s' p t t', sim s s' -> pair_entry M label permuted two cm cn s p = Ok t -> pair_entry M' label permuted two cm cn s' p = Ok t' -> sim t t'.
Proof.
  intros Hm Hn Ht s s' [m n] t t' Hs H H'. unfold pair_entry in H, H'.
  destruct (dlookup cm m) as [a|] eqn:Ea; [|discriminate]. destruct (dlookup cn n) as [b|] eqn:Eb; [|discriminate]. cbn [bind] in H, H'.
  apply dlookup_Ok, dget_elem in Ea. apply dlookup_Ok, dget_elem in Eb.
  destruct (M a b) as [v|] eqn:E; [|discriminate]. destruct (M' a b) as [v'|] eqn:E'; [|discriminate]. cbn [bind fst snd] in H, H'.
  assert (HV : rel v v') by (eapply Hrel; [|exact E|exact E']; exists label, cm, cn, m, n; auto).
  destruct (permuted && negb two) eqn:EP.
  - apply andb_true_iff in EP as [_ EP]. apply negb_true_iff in EP. destruct (Ht EP) as [Hb Hc]. subst cn.
    destruct (M b a) as [w|] eqn:G; [|discriminate]. destruct (M' b a) as [w'|] eqn:G'; [|discriminate]. cbn [bind] in H, H'.
    assert (HW : rel w w') by (eapply Hrel; [|exact G|exact G']; exists label, cm, cm, n, m; auto).
    injection H as <-. injection H' as <-. cbn [fst]. apply dset_alike; [apply dset_alike; assumption|exact HW].
  - injection H as <-. injection H' as <-. cbn [fst]. apply dset_alike; assumption.
Qed.

Lemma label_alike permuted label s s' t t' : sim s s' -> label_entries M permuted ma mb s label = Ok t -> label_entries M' permuted ma mb s' label = Ok t' -> sim t t'.
Proof.
  intros Hs H H'. unfold label_entries in H, H'.
  assert (G : forall two cm cn l, (label, cm) ∈ ma -> (label, cn) ∈ default ma mb -> (two = false -> mb = None /\ cm = cn) ->
    (let* (lp, log) := foldM (pair_entry M label permuted two cm cn) l ([], snd s) in Ok (dupdate (fst s) lp, log)) = Ok t ->
    (let* (lp, log) := foldM (pair_entry M' label permuted two cm cn) l ([], snd s') in Ok (dupdate (fst s') lp, log)) = Ok t' -> sim t t').
  { intros two cm cn l H1 H2 H3 K K'. destruct (foldM (pair_entry M label permuted two cm cn) l ([], snd s)) as [[lp log]|] eqn:E; [|discriminate].
    destruct (foldM (pair_entry M' label permuted two cm cn) l ([], snd s')) as [[lp' log']|] eqn:E'; [|discriminate]. cbn [bind] in K, K'. injection K as <-. injection K' as <-.
    cbn [fst]. apply dupdate_alike; [|exact Hs].
    apply (foldM_alike (pair_entry M label permuted two cm cn) (pair_entry M' label permuted two cm cn) sim l) with (s := ([], snd s)) (s' := ([], snd s')) (t := (lp, log)) (t' := (lp', log')); [|constructor|exact E|exact E'].
    intros u u' p w w' _ Hu. apply (pair_alike label permuted two cm cn H1 H2 H3); exact Hu. }
  destruct mb as [d|] eqn:EB.
  - destruct (dget ma label) as [cm|] eqn:Em; [|congruence]. destruct (dget d label) as [cn|] eqn:En; [|congruence].
    apply dget_elem in Em. apply dget_elem in En. apply (G true cm cn _ Em En ltac:(discriminate) H H').
  - destruct (dget ma label) as [cm|] eqn:Em; [|discriminate]. apply dget_elem in Em. apply (G false cm cm _ Em Em ltac:(auto) H H').
Qed.

Lemma along lord permuted d d' : compute_pairwise_values M lord permuted ma mb = Ok d -> compute_pairwise_values M' lord permuted ma mb = Ok d' ->
  Forall2 (fun p p' => fst p = fst p' /\ rel (snd p) (snd p')) d d'.
Proof.
  unfold compute_pairwise_values, compute_pairwise. intros H H'.
  match type of H with context [foldM ?F ?l ?z] => destruct (foldM F l z) as [t|] eqn:E; [|discriminate] end.
  match type of H' with context [foldM ?F ?l ?z] => destruct (foldM F l z) as [t'|] eqn:E'; [|discriminate] end.
  cbn in H, H'. injection H as <-. injection H' as <-.
  refine (foldM_alike (label_entries M permuted ma mb) (label_entries M' permuted ma mb) sim _ _ _ _ _ _ _ E E'); [|constructor].
  intros u u' p w w' _ Hu. apply label_alike. exact Hu.
Qed.
End along.

(** ** Their means *)

Lemma qsum_le {X Y} (g : X -> Q) (h : Y -> Q) l l' : Forall2 (fun x y => g x <= h y)%Q l l' -> (qsum (g <$> l) <= qsum (h <$> l'))%Q.
Proof. induction 1 as [|x y l l' H1 H2 IH]; [cbn; lra|]. rewrite !fmap_cons, !qsum_cons. lra. Qed.

Lemma means {R R'} (w : R -> num) (w' : R' -> num) (d : dict R) (d' : dict R') : d <> [] -> Forall not_float (w <$> d.*2) -> Forall not_float (w' <$> d'.*2) ->
  Forall2 (fun p p' => fst p = fst p' /\ (nval (w (snd p)) <= nval (w' (snd p')))%Q) d d' ->
  exists m s v e m' s' v' e', summarize exactA (numbers w d) = Ok (NDec m, NDec s, NDec v, NDec e, zlen d) /\
    summarize exactA (numbers w' d') = Ok (NDec m', NDec s', NDec v', NDec e', zlen d) /\ (m <= m')%Q.
Proof.
  intros Hne Hf Hf' H. assert (L : length d = length d') by (eapply Forall2_length; exact H).
  assert (Hne' : d' <> []) by (intros ->; destruct d; [contradiction|discriminate L]).
  assert (S1 : (numbers w d).*2 = w <$> d.*2) by (unfold numbers; rewrite <- !list_fmap_compose; apply list_fmap_ext; intros ? [? ?] _; reflexivity).
  assert (S2 : (numbers w' d').*2 = w' <$> d'.*2) by (unfold numbers; rewrite <- !list_fmap_compose; apply list_fmap_ext; intros ? [? ?] _; reflexivity).
  assert (N1 : numbers w d <> []) by (destruct d; [contradiction|discriminate]). assert (N2 : numbers w' d' <> []) by (destruct d'; [contradiction|discriminate]).
  destruct (summary_exact (numbers w d) N1) as (m & s & v & e & E & Hm & _); [rewrite S1; exact Hf|].
  destruct (summary_exact (numbers w' d') N2) as (m' & s' & v' & e' & E' & Hm' & _); [rewrite S2; exact Hf'|].
  assert (Z1 : zlen (numbers w d) = zlen d) by (unfold numbers, zlen; rewrite fmap_length; reflexivity). assert (Z2 : zlen (numbers w' d') = zlen d) by (unfold numbers, zlen; rewrite fmap_length; lia).
  rewrite Z1 in E. rewrite Z2 in E'. exists m, s, v, e, m', s', v', e'. split; [exact E|]. split; [exact E'|]. rewrite Hm, Hm'. unfold average. rewrite S1, S2.
  assert (A1 : zlen (nval <$> (w <$> d.*2)) = zlen d) by (unfold zlen; rewrite !fmap_length; reflexivity). assert (A2 : zlen (nval <$> (w' <$> d'.*2)) = zlen d) by (unfold zlen; rewrite !fmap_length; lia).
  rewrite A1, A2. apply Qmult_le_compat_r; [|apply Qinv_le_0_compat; rewrite <- (Zle_Qle 0); unfold zlen; lia].
  rewrite <- !list_fmap_compose. apply qsum_le. eapply Forall2_impl; [exact H|]. intros [k x] [k' y] [_ K]. exact K.
Qed.

Theorem along_means {R R'} (M : seg -> seg -> res R) (M' : seg -> seg -> res R') (w : R -> num) (w' : R' -> num) lord permuted ma mb d d' :
  (forall a b r r', compared_codings ma mb a b -> M a b = Ok r -> M' a b = Ok r' -> not_float (w r) /\ not_float (w' r') /\ (nval (w r) <= nval (w' r'))%Q) ->
  compute_pairwise_values M lord permuted ma mb = Ok d -> compute_pairwise_values M' lord permuted ma mb = Ok d' ->
  Forall2 (fun p p' => fst p = fst p' /\ (nval (w (snd p)) <= nval (w' (snd p')))%Q) d d' /\
  (d <> [] -> exists m s v e m' s' v' e', summarize exactA (numbers w d) = Ok (NDec m, NDec s, NDec v, NDec e, zlen d) /\
    summarize exactA (numbers w' d') = Ok (NDec m', NDec s', NDec v', NDec e', zlen d) /\ (m <= m')%Q).
Proof.
  intros HR H H'. pose proof (along M M' _ ma mb HR lord permuted d d' H H') as A.
  assert (A' : Forall2 (fun p p' => fst p = fst p' /\ (nval (w (snd p)) <= nval (w' (snd p')))%Q) d d') by (eapply Forall2_impl; [exact A|]; intros p p' (? & _ & _ & ?); auto).
  split; [exact A'|]. intros Hne. apply means; [exact Hne| | |exact A']; rewrite <- list_fmap_compose; apply Forall_fmap.
  - clear - A. induction A as [|p p' d d' (_ & K & _) A IH]; constructor; [exact K|exact IH].
  - clear - A. induction A as [|p p' d d' (_ & _ & K & _) A IH]; constructor; [exact K|exact IH].
Qed.

Theorem along_pk_wd rnd f k lord permuted ma mb d d' : 0 <= k <= 255 ->
  (forall a b, compared_codings ma mb a b -> exists m n, Spec.positive m /\ Spec.positive n /\ m <> [] /\ n <> [] /\ wencodes f m a /\ wencodes f n b /\ zsum m = zsum n /\ k < zsum n) ->
  compute_pairwise_values (pk exactA rnd f (Some k) false false) lord permuted ma mb = Ok d ->
  compute_pairwise_values (window_diff exactA rnd f (Some k) false false false) lord permuted ma mb = Ok d' ->
  Forall2 (fun p p' => fst p = fst p' /\ (nval (w_num (snd p)) <= nval (w_num (snd p')))%Q) d d' /\
  (d <> [] -> exists m s v e m' s' v' e', summarize exactA (numbers w_num d) = Ok (NDec m, NDec s, NDec v, NDec e, zlen d) /\
    summarize exactA (numbers w_num d') = Ok (NDec m', NDec s', NDec v', NDec e', zlen d) /\ (m <= m')%Q).
Proof.
  intros Hk HA. apply along_means. intros a b r r' Hab E E'. destruct (HA a b Hab) as (m & n & P1 & P2 & N1 & N2 & W1 & W2 & S & L).
  destruct (pk_le_wd exactA rnd f m n a b k sane_exactA P1 P2 N1 N2 W1 W2 S Hk L) as (v & w & Hv & Hw & Hle).
  rewrite Hv in E. rewrite Hw in E'. injection E as <-. injection E' as <-. cbn. auto.
Qed.

Theorem along_B_S E n_t f lord permuted ma mb d d' : env_ok E -> n_t <> 0 ->
  (forall a b, compared_codings ma mb a b -> exists x y, to_bstrings f a b = Ok (x, y) /\ (exists t, used x y t) /\ small_types x y) ->
  compute_pairwise_values (boundary_similarity exactA E (default_weights exactA) f n_t false false) lord permuted ma mb = Ok d ->
  compute_pairwise_values (segmentation_similarity exactA E (default_weights exactA) f n_t false false) lord permuted ma mb = Ok d' ->
  Forall2 (fun p p' => fst p = fst p' /\ (nval (b_num (snd p)) <= nval (s_num (snd p')))%Q) d d' /\
  (d <> [] -> exists m s v e m' s' v' e', summarize exactA (numbers b_num d) = Ok (NDec m, NDec s, NDec v, NDec e, zlen d) /\
    summarize exactA (numbers s_num d') = Ok (NDec m', NDec s', NDec v', NDec e', zlen d) /\ (m <= m')%Q).
Proof.
  intros HE Hn HA. apply along_means. intros a b r r' Hab G G'. destruct (HA a b Hab) as (x & y & Hb & Hu & Hs).
  destruct (S_all_exact E f n_t a b x y HE Hb Hu Hn Hs) as (v & w & Hv & _ & _ & _ & Hw & Hle).
  rewrite Hw in G. rewrite Hv in G'. injection G as <-. injection G' as <-. cbn. auto.
Qed.
