(** For concrete datasets: hypotheses decided by evaluation. *)
From Verif Require Import SpecAgreement SpecML FormatProofs SimStats AgreementProofs AgreementMain.
Open Scope Z_scope.

Definition used_b (x y : bstring) : bool := negb (bool_decide (identify_types x y = ∅)).

Definition coded_b (f : fmt) (coders : list string) (items : dict (dict seg)) : bool :=
  bool_decide (NoDup coders) && (2 <=? length coders)%nat && negb (match items with [] => true | _ => false end) &&
  forallb (fun ic =>
    forallb (fun c => match dget (snd ic) c with
                      | Some s => negb (seg_len s =? 0) && match to_bstring f s with Ok _ => true | Err _ => false end
                      | None => false end) coders &&
    forallb (fun c => forallb (fun c' => (length (coding f c ic) =? length (coding f c' ic))%nat &&
      (bool_decide (c = c') || used_b (coding f c ic) (coding f c' ic))) coders) coders) items.

Lemma used_b_ok x y : used_b x y = true -> exists d, used x y d.
Proof.
  unfold used_b. intros H. apply negb_true_iff, bool_decide_eq_false in H. apply set_choose_L in H as [d Hd]. exists d. apply elem_of_types, Hd.
Qed.

Lemma coded_b_ok f coders items : coded_b f coders items = true -> coded f coders items.
Proof.
  unfold coded_b. rewrite !andb_true_iff. intros [[[H1 H2] H3] H4]. rewrite forallb_forall in H4.
  assert (G1 : forall ic c, ic ∈ items -> c ∈ coders -> match dget (snd ic) c with
    | Some s => negb (seg_len s =? 0) && match to_bstring f s with Ok _ => true | Err _ => false end | None => false end = true).
  { intros ic c Hic Hc. apply elem_of_list_In in Hic, Hc. specialize (H4 ic Hic). apply andb_true_iff in H4 as [H4 _].
    rewrite forallb_forall in H4. exact (H4 c Hc). }
  assert (G2 : forall ic c c', ic ∈ items -> c ∈ coders -> c' ∈ coders -> length (coding f c ic) = length (coding f c' ic) /\
    (c <> c' -> exists d, used (coding f c ic) (coding f c' ic) d)).
  { intros ic c c' Hic Hc Hc'. apply elem_of_list_In in Hic, Hc, Hc'. specialize (H4 ic Hic). apply andb_true_iff in H4 as [_ H4].
    rewrite forallb_forall in H4. specialize (H4 c Hc). rewrite forallb_forall in H4. specialize (H4 c' Hc').
    apply andb_true_iff in H4 as [H5 H6]. apply Nat.eqb_eq in H5. split; [exact H5|]. intros Hne.
    apply orb_true_iff in H6 as [H6|H6]; [apply bool_decide_eq_true in H6; contradiction|apply used_b_ok, H6]. }
  constructor.
  - apply bool_decide_eq_true in H1. exact H1.
  - apply Nat.leb_le, H2.
  - destruct items; [discriminate|congruence].
  - intros ic c Hic Hc. specialize (G1 ic c Hic Hc). destruct (dget (snd ic) c) as [s|]; [|discriminate].
    apply andb_true_iff in G1 as [G1 G3]. destruct (to_bstring f s) as [x|] eqn:Hx; [|discriminate].
    exists s, x. split; [reflexivity|]. split; [|exact Hx]. apply negb_true_iff, Z.eqb_neq in G1. exact G1.
  - intros. apply G2; assumption.
  - intros. apply G2; assumption.
Qed.

Definition cached_b (f : fmt) (coders : list string) (items : dict (dict seg)) : bool :=
  forallb (fun ic => forallb (fun c => forallb (fun s : gset Z => forallb (fun d => (-5 <=? d) && (d <=? 256)) (elements s)) (coding f c ic)) coders) items.

Lemma cached_b_ok f coders items : cached_b f coders items = true -> cached f coders items.
Proof.
  unfold cached_b. rewrite forallb_forall. intros H.
  assert (G : forall ic c (s : gset Z) d, ic ∈ items -> c ∈ coders -> s ∈ coding f c ic -> d ∈ s -> -5 <= d <= 256).
  { intros ic c s d Hic Hc Hs Hd. apply elem_of_list_In in Hic, Hc, Hs. apply elem_of_elements, elem_of_list_In in Hd.
    specialize (H ic Hic). rewrite forallb_forall in H. specialize (H c Hc). rewrite forallb_forall in H. specialize (H s Hs).
    rewrite forallb_forall in H. specialize (H d Hd). apply andb_true_iff in H as [H1 H2]. apply Z.leb_le in H1, H2. lia. }
  intros ic c c' Hic Hc Hc' s d [Hs|Hs] Hd; [apply (G ic c s)|apply (G ic c' s)]; assumption.
Qed.

Definition full_b (coders : list string) (items : dict (dict seg)) : bool :=
  forallb (fun ic => bool_decide ((snd ic).*1 ≡ₚ coders)) items.

Lemma full_b_ok coders items : full_b coders items = true -> full coders items.
Proof. unfold full_b. rewrite forallb_forall. intros H ic Hic. apply elem_of_list_In in Hic. specialize (H ic Hic). apply bool_decide_eq_true in H. exact H. Qed.

Definition unanimous_b (f : fmt) (coders : list string) (items : dict (dict seg)) : bool :=
  forallb (fun ic => forallb (fun c => forallb (fun c' => bool_decide (coding f c ic = coding f c' ic)) coders) coders) items.

Lemma unanimous_b_ok f coders items : unanimous_b f coders items = true <-> unanimous f coders items.
Proof.
  unfold unanimous_b, unanimous. rewrite forallb_forall. split.
  - intros H ic c c' Hic Hc Hc'. apply elem_of_list_In in Hic, Hc, Hc'. specialize (H ic Hic). rewrite forallb_forall in H.
    specialize (H c Hc). rewrite forallb_forall in H. specialize (H c' Hc'). apply bool_decide_eq_true in H. exact H.
  - intros H ic Hic. apply forallb_forall. intros c Hc. apply forallb_forall. intros c' Hc'. apply bool_decide_eq_true.
    apply elem_of_list_In in Hic, Hc, Hc'. apply H; assumption.
Qed.

(** Every coder has the same types at every gap. *)
Definition marked_b (f : fmt) (coders : list string) (items : dict (dict seg)) : bool :=
  forallb (fun ic => match flat_map (fun c => coding f c ic) coders with [] => true | t :: l => forallb (fun s => bool_decide (s = t)) l end) items.

Lemma marked_b_ok f coders items : marked_b f coders items = true <-> all_gaps_marked f coders items.
Proof.
  unfold marked_b, all_gaps_marked. rewrite forallb_forall.
  assert (HF : forall ic t, In t (flat_map (fun c => coding f c ic) coders) <-> exists c, c ∈ coders /\ t ∈ coding f c ic).
  { intros ic t. rewrite in_flat_map. split; intros (c & H1 & H2); exists c; [apply elem_of_list_In in H1, H2|apply elem_of_list_In in H1; apply elem_of_list_In in H2]; auto. }
  split; intros H ic Hic.
  - apply elem_of_list_In in Hic. specialize (H ic Hic). specialize (HF ic). destruct (flat_map _ coders) as [|t l].
    + exists ∅. intros c s Hc Hs. exfalso. apply (HF s). eauto.
    + exists t. intros c s Hc Hs. rewrite forallb_forall in H. destruct (proj2 (HF s)) as [->|Hin]; [eauto|reflexivity|].
      specialize (H s Hin). apply bool_decide_eq_true in H. exact H.
  - apply elem_of_list_In in Hic. destruct (H ic Hic) as [U HU]. specialize (HF ic). destruct (flat_map _ coders) as [|t l]; [reflexivity|].
    apply forallb_forall. intros s Hs. apply bool_decide_eq_true.
    destruct (proj1 (HF s)) as (c & Hc & Hin); [right; exact Hs|]. destruct (proj1 (HF t)) as (c' & Hc' & Hin'); [left; reflexivity|].
    rewrite (HU c s Hc Hin), (HU c' t Hc' Hin'). reflexivity.
Qed.

Definition one_type_b (f : fmt) (coders : list string) (ic : string * dict seg) (t : Z) : bool :=
  forallb (fun c => forallb (fun s : gset Z => forallb (fun d => d =? t) (elements s)) (coding f c ic)) coders.

Lemma one_type_b_ok f coders ic t : one_type_b f coders ic t = true -> one_boundary_type f coders ic.
Proof.
  unfold one_type_b. rewrite forallb_forall. intros H. exists t. intros c s Hc Hs d Hd.
  apply elem_of_list_In in Hc, Hs. apply elem_of_elements, elem_of_list_In in Hd.
  specialize (H c Hc). rewrite forallb_forall in H. specialize (H s Hs). rewrite forallb_forall in H. specialize (H d Hd). apply Z.eqb_eq in H. set_solver.
Qed.
