(** Actual agreement on a dataset and on two parts of it. *)
From Coq Require Import Lqa.
From stdpp Require Import gmap.
From Verif Require Import SpecAgreement SpecML SpecDispatch SpecSim Spec Agreement Data FormatProofs DictProofs DispatchProofs MLSums AgreementProofs AgreementExact AgreementMain AgreementPublic AgreementPerm Pooled Subsets.
Open Scope Z_scope.

Section parts.
Context (E : env) (n_t : Z) (b om : bool) (F : fmt) (cord : gset string -> list string) (i j : dict (dict seg)).
Context (HE : env_ok E) (Hn : n_t <> 0) (HL : lord_ok cord) (Hi : i <> []) (Hj : j <> []).
Notation X := (compare_with b exactA E n_t om).
Notation coders := (cord (c_coders (CDict (i ++ j)))).
Context (HC : coded F coders (i ++ j)) (HF : cached F coders (i ++ j)).

Lemma part_coded k : k <> [] -> (forall ic, ic ∈ k -> ic ∈ i ++ j) -> coded F coders k /\ cached F coders k.
Proof.
  intros Hne Hk. split; [constructor|].
  - exact (coded_coders _ _ _ HC).
  - exact (coded_two _ _ _ HC).
  - exact Hne.
  - intros ic c H. apply (coded_seg _ _ _ HC), Hk, H.
  - intros ic c c' H. apply (coded_len _ _ _ HC), Hk, H.
  - intros ic c c' H. apply (coded_used _ _ _ HC), Hk, H.
  - intros ic c c' H. apply HF, Hk, H.
Qed.

Lemma part_coders k : k <> [] -> (forall ic, ic ∈ k -> ic ∈ i ++ j) -> c_coders (CDict k) = c_coders (CDict (i ++ j)).
Proof.
  intros Hne Hk. apply set_eq. intros x. split.
  - cbn [c_coders]. unfold all_coders. rewrite !elem_of_union_list. intros (S & HS & Hx). exists S. split; [|exact Hx].
    apply elem_of_list_fmap in HS as (d & -> & Hd). apply elem_of_list_fmap in Hd as (ic & -> & Hic).
    apply elem_of_list_fmap. exists (snd ic). split; [reflexivity|]. apply elem_of_list_fmap. exists ic. auto.
  - intros Hx. destruct k as [|ic k]; [contradiction|].
    destruct (coded_seg _ _ _ HC ic x (Hk ic ltac:(left))) as (s & y & Hs & _); [rewrite (HL _); apply elem_of_elements, Hx|].
    cbn [c_coders]. unfold all_coders. rewrite elem_of_union_list. exists (list_to_set (snd ic).*1). split; [left|].
    apply elem_of_list_to_set, elem_of_list_fmap. exists (x, s). split; [reflexivity|]. apply dget_elem, Hs.
Qed.

Definition Nk (k : dict (dict seg)) : Q := qsum ((fun p => qsum (num_of X F (fst p) (snd p) <$> k)) <$> pairs2 coders).
Definition Dk (k : dict (dict seg)) : Z := zsum ((fun p => zsum (den_of X F (fst p) (snd p) <$> k)) <$> pairs2 coders).

Lemma part_value k : k <> [] -> (forall ic, ic ∈ k -> ic ∈ i ++ j) ->
  exists v, actual_agreement_linear exactA X F cord (CDict k) = Ok (NDec v) /\ (v == Nk k / inject_Z (Dk k))%Q /\ 0 < Dk k.
Proof.
  intros Hne Hk. destruct (part_coded k Hne Hk) as [HC2 HF2]. pose proof (part_coders k Hne Hk) as HK.
  pose proof (actual_value E n_t F coders k X HE Hn HC2 (with_comparison b exactA E n_t om _ HF2)) as HA.
  exists (exact_Aa F coders k X). split; [unfold actual_agreement_linear; rewrite HK; exact HA|]. split.
  - unfold exact_Aa, dsum. rewrite Qred_correct, jobs_q, jobs_z. reflexivity.
  - unfold Dk. apply Pooled.zsum_pos.
    + pose proof (coded_two _ _ _ HC) as H2. destruct coders as [|x [|y r]]; [cbn in H2; lia|cbn in H2; lia|discriminate].
    + intros [m n] Hp. apply Pooled.zsum_pos; [exact Hne|]. intros ic Hic. cbn [fst snd].
      pose proof (job_ok exactA E n_t F coders k X m n ic HE Hn HC2 (with_comparison b exactA E n_t om _ HF2) Hp Hic) as (_ & Hd & _). exact Hd.
Qed.

Lemma Nk_app : (Nk (i ++ j) == Nk i + Nk j)%Q.
Proof.
  unfold Nk. induction (pairs2 coders) as [|p P IH]; [reflexivity|]. rewrite !fmap_cons, !qsum_cons, IH, fmap_app, qsum_app. ring.
Qed.
Lemma Dk_app : Dk (i ++ j) = Dk i + Dk j.
Proof.
  unfold Dk. induction (pairs2 coders) as [|p P IH]; [reflexivity|]. rewrite !fmap_cons. unfold zsum in *. cbn [foldr]. rewrite IH, fmap_app.
  pose proof (FormatProofs.zsum_app (den_of X F p.1 p.2 <$> i) (den_of X F p.1 p.2 <$> j)) as Z. unfold zsum in Z. rewrite Z. lia.
Qed.
End parts.

Theorem two_parts E n_t b om f cord i j : env_ok E -> n_t <> 0 -> lord_ok cord -> i <> [] -> j <> [] ->
  let C := cord (c_coders (CDict (i ++ j))) in coded f C (i ++ j) -> cached f C (i ++ j) ->
  let X := compare_with b exactA E n_t om in
  exists x y v (p q : Z), actual_agreement_linear exactA X f cord (CDict i) = Ok (NDec x) /\
    actual_agreement_linear exactA X f cord (CDict j) = Ok (NDec y) /\
    actual_agreement_linear exactA X f cord (CDict (i ++ j)) = Ok (NDec v) /\
    0 < p /\ 0 < q /\ (v == (inject_Z p * x + inject_Z q * y) / inject_Z (p + q))%Q.
Proof.
  intros HE Hn HL Hi Hj C HC HF X.
  destruct (part_value E n_t b om f cord i j HE Hn HL HC HF i Hi) as (x & Hx & Ex & Px); [intros; apply elem_of_app; auto|].
  destruct (part_value E n_t b om f cord i j HE Hn HL HC HF j Hj) as (y & Hy & Ey & Py); [intros; apply elem_of_app; auto|].
  destruct (part_value E n_t b om f cord i j HE Hn HL HC HF (i ++ j)) as (v & Hv & Ev & Pv); [|auto|].
  { intros K. apply app_eq_nil in K as [K _]. contradiction. }
  exists x, y, v, (Dk E n_t b om f cord i j i), (Dk E n_t b om f cord i j j). do 3 (split; [assumption|]). split; [exact Px|]. split; [exact Py|].
  rewrite Ev, Nk_app, Dk_app, Ex, Ey. apply Qmult_comp; [|reflexivity]. field.
  split; intros K; [clear - Py K|clear - Px K]; change 0%Q with (inject_Z 0) in K; rewrite inject_Z_injective in K; lia.
Qed.

(** Adding items on which all coders agree. *)
Theorem agreed_items E n_t b om f cord i j : env_ok E -> n_t <> 0 -> lord_ok cord -> i <> [] -> j <> [] ->
  let C := cord (c_coders (CDict (i ++ j))) in coded f C (i ++ j) -> cached f C (i ++ j) -> unanimous f C j ->
  let X := compare_with b exactA E n_t om in
  exists x v, actual_agreement_linear exactA X f cord (CDict i) = Ok (NDec x) /\
    actual_agreement_linear exactA X f cord (CDict (i ++ j)) = Ok (NDec v) /\ (x <= v)%Q /\ (~ unanimous f C i -> (x < v)%Q).
Proof.
  intros HE Hn HL Hi Hj C HC HF HU X. destruct (two_parts E n_t b om f cord i j HE Hn HL Hi Hj HC HF) as (x & y & v & p & q & Hx & Hy & Hv & Hp & Hq & Ev).
  exists x, v. split; [exact Hx|]. split; [exact Hv|].
  pose proof (part_coders f cord i j HL HC i Hi) as KI. pose proof (part_coders f cord i j HL HC j Hj) as KJ.
  pose proof (part_coded f cord i j HC HF i Hi) as CI. pose proof (part_coded f cord i j HC HF j Hj) as CJ.
  assert (Ii : forall ic, ic ∈ i -> ic ∈ i ++ j) by (intros; apply elem_of_app; auto). assert (Ij : forall ic, ic ∈ j -> ic ∈ i ++ j) by (intros; apply elem_of_app; auto).
  specialize (KI Ii). specialize (KJ Ij). specialize (CI Ii) as [CI FI]. specialize (CJ Ij) as [CJ FJ].
  destruct (actual_exact E n_t f cord (CDict i) X HE Hn) as (_ & _ & x' & _ & Hx' & _ & Bx & Ux); cbn [c_format c_items]; rewrite ?KI; [exact CI|apply with_comparison; exact FI|].
  destruct (actual_exact E n_t f cord (CDict j) X HE Hn) as (_ & _ & y' & _ & Hy' & _ & By & Uy); cbn [c_format c_items]; rewrite ?KJ; [exact CJ|apply with_comparison; exact FJ|].
  assert (x' = x) by (unfold X in Hx'; congruence). assert (y' = y) by (unfold X in Hy'; congruence). subst x' y'.
  cbn [c_format c_items] in Ux, Uy. rewrite KI in Ux. rewrite KJ in Uy. assert (Y1 : (y == 1)%Q) by (apply Uy, HU).
  assert (Pp : (0 < inject_Z p)%Q) by (rewrite <- (Zlt_Qlt 0); exact Hp). assert (Pq : (0 < inject_Z q)%Q) by (rewrite <- (Zlt_Qlt 0); exact Hq).
  rewrite Y1, inject_Z_plus in Ev.
  assert (D : (v - x == inject_Z q * (1 - x) / (inject_Z p + inject_Z q))%Q) by (rewrite Ev; field; lra).
  split.
  - assert (K : (0 <= inject_Z q * (1 - x) / (inject_Z p + inject_Z q))%Q) by (apply Qle_shift_div_l; [lra|]; rewrite Qmult_0_l; apply Qmult_le_0_compat; lra). lra.
  - intros HN. assert (Nx : (x < 1)%Q). { apply Qnot_le_lt. intros K. apply HN, Ux. lra. }
    assert (K : (0 < inject_Z q * (1 - x) / (inject_Z p + inject_Z q))%Q) by (apply Qlt_shift_div_l; [lra|]; rewrite Qmult_0_l; apply Qmult_lt_0_compat; lra). lra.
Qed.
