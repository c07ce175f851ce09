(** Agreement needs a coding by every coder for every item. *)
From stdpp Require Import gmap.
From Verif Require Export SpecCoverage.
From Verif Require Import SpecData SpecAgreement Agreement DictProofs DispatchProofs AgreementProofs DataPublic.
Open Scope Z_scope.

Lemma job_Ok cmp f m n ic r : job cmp f ((m, n), ic) = Ok r ->
  exists a b x y, dget (snd ic) m = Some a /\ dget (snd ic) n = Some b /\ to_bstring f a = Ok x /\ to_bstring f b = Ok y.
Proof.
  unfold job, dlookup. destruct (dget (snd ic) m) as [a|]; [|discriminate]. cbn [bind].
  destruct (dget (snd ic) n) as [b|]; [|discriminate]. cbn [bind].
  destruct (cmp f a b) as [[p q]|]; [|discriminate]. cbn [bind]. unfold potential_boundaries.
  destruct (to_bstring f a) as [x|] eqn:Ea; [|discriminate]. cbn [bind].
  destruct (to_bstring f b) as [y|] eqn:Eb; [|discriminate]. intros _. exists a, b, x, y. auto.
Qed.

Lemma job_comparable cmp f items m n ic : comparable cmp f items -> ic ∈ items -> m <> n ->
  (exists r, job cmp f ((m, n), ic) = Ok r) \/ job cmp f ((m, n), ic) = Err KeyError.
Proof.
  intros Hc Hi Hmn. unfold job, dlookup. destruct (dget (snd ic) m) as [a|] eqn:Ea; [|right; reflexivity]. cbn [bind].
  destruct (dget (snd ic) n) as [b|] eqn:Eb; [|right; reflexivity]. cbn [bind].
  destruct (Hc _ _ _ _ _ Hi Hmn Ea Eb) as ([[p q] Hr] & [x Hx] & [y Hy]). left. rewrite Hr. cbn [bind].
  unfold potential_boundaries, boundaries. rewrite Hx, Hy. cbn [bind]. eauto.
Qed.

(** With two coders, each is in a pair. *)
Lemma in_a_pair {X} (l : list X) x : (2 <= length l)%nat -> x ∈ l -> exists y, (x, y) ∈ pairs2 l \/ (y, x) ∈ pairs2 l.
Proof.
  intros Hl Hx. apply elem_of_list_lookup in Hx as [i Hi]. destruct i as [|i].
  - destruct (lookup_lt_is_Some_2 l 1) as [y Hy]; [lia|]. exists y. left. apply elem_of_pairs2. exists 0%nat, 1%nat. auto.
  - destruct (lookup_lt_is_Some_2 l 0) as [y Hy]; [lia|]. exists y. right. apply elem_of_pairs2. exists 0%nat, (S i). repeat split; auto; lia.
Qed.

Lemma parts_cover cmp f coders items a : agreement_parts cmp f coders items = Ok a -> (2 <= length coders)%nat ->
  forall ic who, ic ∈ items -> who ∈ coders -> exists s x, dget (snd ic) who = Some s /\ to_bstring f s = Ok x.
Proof.
  intros H Hl ic who Hi Hw. rewrite parts_jobs in H. destruct (mapM (job cmp f) (jobs_of coders items)) as [rs|] eqn:E; [|discriminate].
  apply mapM_Ok in E. destruct (in_a_pair coders who Hl Hw) as [y [Hp|Hp]].
  - assert (Hj : ((who, y), ic) ∈ jobs_of coders items) by (apply elem_of_jobs_of; auto).
    apply elem_of_list_lookup in Hj as [k Hk]. destruct (Forall2_lookup_l _ _ _ _ _ E Hk) as (r & _ & Hr).
    apply job_Ok in Hr as (sa & sb & u & v & ? & ? & ? & ?). eauto.
  - assert (Hj : ((y, who), ic) ∈ jobs_of coders items) by (apply elem_of_jobs_of; auto).
    apply elem_of_list_lookup in Hj as [k Hk]. destruct (Forall2_lookup_l _ _ _ _ _ E Hk) as (r & _ & Hr).
    apply job_Ok in Hr as (sa & sb & u & v & ? & ? & ? & ?). eauto.
Qed.

Lemma parts_missing cmp f coders items : comparable cmp f items -> NoDup coders -> (2 <= length coders)%nat ->
  (exists ic who, ic ∈ items /\ who ∈ coders /\ dget (snd ic) who = None) -> agreement_parts cmp f coders items = Err KeyError.
Proof.
  intros Hc Hnd Hl (ic & who & Hi & Hw & Hn). destruct (agreement_parts cmp f coders items) as [a|e] eqn:E.
  - destruct (parts_cover _ _ _ _ _ E Hl ic who Hi Hw) as (s & x & Hs & _). congruence.
  - rewrite parts_jobs in E. destruct (mapM (job cmp f) (jobs_of coders items)) as [rs|e'] eqn:Em; [discriminate|].
    cbn [bind] in E. injection E as <-. apply mapM_Err in Em as ([[m n] ic'] & Hj & He).
    apply elem_of_jobs_of in Hj as [Hp Hi']. destruct (pairs2_distinct _ _ _ Hnd Hp) as (_ & _ & Hmn).
    destruct (job_comparable cmp f items m n ic' Hc Hi' Hmn) as [[r Hr]|Hr]; rewrite Hr in He; congruence.
Qed.

Lemma cord_length cord (s : gset string) : lord_ok cord -> length (cord s) = size s.
Proof. intros H. rewrite (H s). reflexivity. Qed.

Lemma cord_elem cord (s : gset string) c : lord_ok cord -> c ∈ cord s <-> c ∈ s.
Proof. intros H. rewrite (H s). apply elem_of_elements. Qed.

Lemma cord_NoDup cord (s : gset string) : lord_ok cord -> NoDup (cord s).
Proof. intros H. rewrite (H s). apply NoDup_elements. Qed.

(** What it is for every coder to have coded every item. *)
Definition covered (f : fmt) (c : container) : Prop :=
  forall ic who, ic ∈ c_items c -> who ∈ c_coders c -> exists s x, dget (snd ic) who = Some s /\ to_bstring (c_format c f) s = Ok x.

Lemma covers cmp f cord c a : lord_ok cord -> (2 <= size (c_coders c))%nat ->
  agreement_parts cmp (c_format c f) (cord (c_coders c)) (c_items c) = Ok a -> covered f c.
Proof.
  intros Hc Hs H ic who Hi Hw. eapply parts_cover; [exact H| |exact Hi|].
  - rewrite cord_length by assumption. exact Hs.
  - apply cord_elem; assumption.
Qed.

Lemma actual_covers A cmp f cord c v : lord_ok cord -> (2 <= size (c_coders c))%nat ->
  actual_agreement_linear A cmp f cord c = Ok v -> covered f c.
Proof.
  intros Hc Hs. unfold actual_agreement_linear, actual_agreement.
  destruct (agreement_parts _ _ _ _) as [a|] eqn:E; [|discriminate]. intros _. eapply covers; eassumption.
Qed.

Lemma pi_covers A cmp f cord rp c v : lord_ok cord -> (2 <= size (c_coders c))%nat ->
  fleiss_pi_linear A cmp f cord rp c = Ok v -> covered f c.
Proof.
  intros Hc Hs. unfold fleiss_pi_linear, pi_full. destruct (negb _); [discriminate|].
  destruct (agreement_parts _ _ _ _) as [a|] eqn:E; [|discriminate]. intros _. eapply covers; eassumption.
Qed.

Lemma kappa_covers A cmp f cord rp c v : lord_ok cord -> (2 <= size (c_coders c))%nat ->
  fleiss_kappa_linear A cmp f cord rp c = Ok v -> covered f c.
Proof.
  intros Hc Hs. unfold fleiss_kappa_linear, kappa_full. destruct (existsb _ _); [discriminate|]. destruct (negb _); [discriminate|].
  destruct (agreement_parts _ _ _ _) as [a|] eqn:E; [|discriminate]. intros _. eapply covers; eassumption.
Qed.

Lemma bias_covers A cmp f cord rp c v : lord_ok cord -> (2 <= size (c_coders c))%nat ->
  artstein_poesio_bias_linear A cmp f cord rp c = Ok v -> covered f c.
Proof.
  intros Hc Hs. unfold artstein_poesio_bias_linear, bias_full, pi_full. destruct (negb _); [discriminate|].
  destruct (agreement_parts _ _ _ _) as [a|] eqn:E; [|discriminate]. intros _. eapply covers; eassumption.
Qed.

Theorem coverage_needed A cmp f cord rp c : lord_ok cord -> (2 <= size (c_coders c))%nat ->
  (exists v, actual_agreement_linear A cmp f cord c = Ok v) \/ (exists v, fleiss_pi_linear A cmp f cord rp c = Ok v) \/
  (exists v, fleiss_kappa_linear A cmp f cord rp c = Ok v) \/ (exists v, artstein_poesio_bias_linear A cmp f cord rp c = Ok v) ->
  forall ic who, ic ∈ c_items c -> who ∈ c_coders c -> exists s x, dget (snd ic) who = Some s /\ to_bstring (c_format c f) s = Ok x.
Proof.
  intros Hc Hs [[v H]|[[v H]|[[v H]|[v H]]]].
  - eapply actual_covers; eassumption.
  - eapply pi_covers; eassumption.
  - eapply kappa_covers; eassumption.
  - eapply bias_covers; eassumption.
Qed.

(** ** The exception *)

Lemma same_counts items n : items <> [] -> (forall ic, ic ∈ items -> length (snd ic) = n) -> equal_counts items = true.
Proof.
  intros Hne H. unfold equal_counts. apply bool_decide_eq_true.
  assert (E : (list_to_set ((fun ic : string * dict seg => zlen (snd ic)) <$> items) : gset Z) = {[Z.of_nat n]}).
  { apply set_eq. intros z. rewrite elem_of_list_to_set, elem_of_list_fmap, elem_of_singleton. split.
    - intros (ic & -> & Hi). unfold zlen. rewrite (H ic Hi). reflexivity.
    - intros ->. destruct items as [|ic items]; [contradiction|]. exists ic. split; [|left]. unfold zlen. rewrite (H ic); [reflexivity|left]. }
  rewrite E. apply size_singleton.
Qed.

Lemma enough_codings (items : dict (dict seg)) n : (forall ic, ic ∈ items -> length (snd ic) = n) -> (2 <= n)%nat ->
  existsb (fun ic => zlen (snd ic) <? 2) items = false.
Proof.
  intros H Hn. apply not_true_is_false. intros K. apply existsb_exists in K as (ic & Hi & K). apply elem_of_list_In in Hi.
  unfold zlen in K. rewrite (H ic Hi) in K. lia.
Qed.

Theorem coverage_missing A cmp f cord rp c : lord_ok cord -> (2 <= size (c_coders c))%nat -> comparable cmp (c_format c f) (c_items c) ->
  (exists ic who, ic ∈ c_items c /\ who ∈ c_coders c /\ dget (snd ic) who = None) ->
  actual_agreement_linear A cmp f cord c = Err KeyError /\
  (forall n, (forall ic, ic ∈ c_items c -> length (snd ic) = n) ->
     fleiss_pi_linear A cmp f cord rp c = Err KeyError /\ artstein_poesio_bias_linear A cmp f cord rp c = Err KeyError /\
     ((2 <= n)%nat -> fleiss_kappa_linear A cmp f cord rp c = Err KeyError)).
Proof.
  intros Hc Hs Hcmp Hmiss.
  assert (P : agreement_parts cmp (c_format c f) (cord (c_coders c)) (c_items c) = Err KeyError).
  { apply parts_missing; [assumption|apply cord_NoDup; assumption|rewrite cord_length by assumption; assumption|].
    destruct Hmiss as (ic & who & Hi & Hw & Hn). exists ic, who. split; [assumption|]. split; [apply cord_elem; assumption|assumption]. }
  split; [unfold actual_agreement_linear, actual_agreement; rewrite P; reflexivity|]. intros n Hn.
  assert (Hne : c_items c <> []). { destruct Hmiss as (ic & _ & Hi & _). intros K. rewrite K in Hi. apply elem_of_nil in Hi. contradiction. }
  pose proof (same_counts _ _ Hne Hn) as He.
  split; [unfold fleiss_pi_linear, pi_full; rewrite He, P; reflexivity|].
  split; [unfold artstein_poesio_bias_linear, bias_full, pi_full; rewrite He, P; reflexivity|].
  intros H2. unfold fleiss_kappa_linear, kappa_full. rewrite (enough_codings _ _ Hn H2), He, P. reflexivity.
Qed.

(** ** Sums of datasets *)

Theorem coverage_sum A cmp f cord (a b s : dataset seg) i who other : lord_ok cord -> SpecData.items_ok (ds_items a) -> SpecData.items_ok (ds_items b) ->
  ds_add a b = Ok s -> i ∈ (ds_items a).*1 \/ i ∈ (ds_items b).*1 -> coding_at (ds_items a) i who = None -> coding_at (ds_items b) i who = None ->
  who ∈ ds_coders a \/ codes (ds_items b) who -> other ∈ ds_coders a \/ codes (ds_items b) other -> who <> other ->
  forall v, actual_agreement_linear A cmp f cord (CDataset s) <> Ok v.
Proof.
  intros Hc Ha Hb Hadd Hi Hna Hnb Hw Ho Hwo v H. unfold ds_add in Hadd. destruct (iadd a b None) as [r [e|]] eqn:E; [discriminate|].
  injection Hadd as ->. destruct (merge_union None a b s Hb E) as (Hcod & Hit & Hcs & _ & _ & _ & Hok).
  assert (Hii : i ∈ (ds_items s).*1) by (apply Hit; destruct Hi; [auto|right; exists i; split; [reflexivity|assumption]]).
  assert (Hww : who ∈ ds_coders s) by (apply Hcs; exact Hw). assert (Hoo : other ∈ ds_coders s) by (apply Hcs; exact Ho).
  apply elem_of_list_fmap in Hii as ([i' cs] & Hi' & Hin). cbn in Hi'. subst i'.
  destruct (actual_covers A cmp f cord (CDataset s) v Hc) with (ic := (i, cs)) (who := who) as (sg & x & Hs & _); try assumption.
  { cbn [c_coders]. change 2%nat with (1 + 1)%nat. rewrite <- (size_singleton who (C := gset string)) at 1. rewrite <- (size_singleton other (C := gset string)).
    rewrite <- size_union by set_solver. apply subseteq_size. set_solver. }
  cbn [snd] in Hs. assert (K : coding_at (ds_items s) i who = Some sg).
  { unfold coding_at. destruct (Hok Ha) as [Hd _]. rewrite (proj2 (dget_Some (ds_items s) i cs Hd) Hin). exact Hs. }
  apply Hcod in K as [K|(i' & Hf & K)]; [congruence|]. cbn in Hf. subst i'. congruence.
Qed.
