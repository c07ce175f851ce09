(** Statements C11, C15-C17 in the form used by PropsBed.v. *)
From Verif Require Import Spec FormatProofs Bed BedProofs BedSubs BedMain BedTheory BedMin.
Open Scope Z_scope.

Theorem sets_cheapest a b : a ## b -> exists adds subs,
  additions_substitutions_sets (a ∪ b) a b = Ok (adds, subs) /\
  cheapest_pairing a b subs /\ NoDup adds /\
  (forall d, Addition d SideA ∈ adds <-> d ∈ a /\ d ∉ subs.*1) /\
  (forall d, Addition d SideB ∈ adds <-> d ∈ b /\ d ∉ subs.*2).
Proof.
  intros Hd. exists (adds_of a b), (best_substitutions a b). split; [apply sets_ok; auto|].
  split; [split; [apply best_is_pairing|apply best_is_cheapest]|]. split; [apply adds_NoDup, Hd|].
  split; intros d; [apply (elem_of_adds a b d SideA Hd)|apply (elem_of_adds a b d SideB Hd)].
Qed.

Lemma at_has' s i d : d ∈ at_ s i <-> has s i d.
Proof.
  unfold at_, has. destruct (s !! i) as [t|] eqn:Es; cbn.
  - split; [intros H; exists t; auto|]. intros (t' & H & Hd). congruence.
  - split; [set_solver|]. intros (t' & H & _). discriminate.
Qed.

Lemma ex_comm3 {A} (P Q R : A -> Prop) : (exists t, P t /\ Q t /\ R t) <-> (exists t, P t /\ R t /\ Q t).
Proof. split; intros (t & ? & ? & ?); exists t; auto. Qed.

Theorem bed_gapwise E a b n_t e : env_ok E -> length a = length b ->
  boundary_edit_distance E a b n_t = Ok e ->
  exists (adds : nat -> list addition) (subs : nat -> list substitution),
    e_add e = mjoin (adds <$> seq 0 (length a)) /\ e_sub e = mjoin (subs <$> seq 0 (length a)) /\
    forall i (A B : tyset), (i < length a)%nat ->
      (forall d, d ∈ A <-> has a i d /\ ~ has b i d /\
         ~ exists t, t ∈ e_transp e /\ t_type t = d /\ (t_start t = i \/ t_end t = i)) ->
      (forall d, d ∈ B <-> has b i d /\ ~ has a i d /\
         ~ exists t, t ∈ e_transp e /\ t_type t = d /\ (t_start t = i \/ t_end t = i)) ->
      cheapest_pairing A B (subs i) /\ NoDup (adds i) /\
      (forall d, Addition d SideA ∈ adds i <-> d ∈ A /\ d ∉ (subs i).*1) /\
      (forall d, Addition d SideB ∈ adds i <-> d ∈ B /\ d ∉ (subs i).*2).
Proof.
  intros HE Hl Hb. rewrite bed_ok in Hb by (assumption || lia). injection Hb as <-. cbn [e_add e_sub e_transp].
  set (out := ts E a b n_t). exists (adds_at a b out), (subs_at a b out).
  split; [reflexivity|]. split; [reflexivity|]. intros i A B Hi HA HB.
  assert (EA : A = RA a b (X out) i).
  { apply set_eq. intros d. rewrite HA. unfold RA, OA. rewrite !elem_of_difference, !at_has', elem_of_X. unfold covers_pos.
    rewrite ex_comm3. tauto. }
  assert (EB : B = RB a b (X out) i).
  { apply set_eq. intros d. rewrite HB. unfold RB, OB. rewrite !elem_of_difference, !at_has', elem_of_X. unfold covers_pos.
    rewrite ex_comm3. tauto. }
  pose proof (R_disjoint a b (X out) i) as Hd. unfold adds_at, subs_at. rewrite <- EA, <- EB in *.
  split; [split; [apply best_is_pairing|apply best_is_cheapest]|]. split; [apply adds_NoDup, Hd|].
  split; intros d; [apply (elem_of_adds A B d SideA Hd)|apply (elem_of_adds A B d SideB Hd)].
Qed.

(** ** C16 *)

Definition by_equality (E : env) : env := Env (ord E) (fun t u => t_type t =? t_type u).

Lemma by_equality_ok E : env_ok E -> env_ok (by_equality E).
Proof.
  intros HE. constructor; cbn.
  - apply (ord_perm E HE).
  - intros t u H. apply Z.eqb_eq, H.
  - intros t u H _. apply Z.eqb_eq, H.
Qed.

Lemma foldl_ext_in {A B} (f g : A -> B -> A) (l : list B) x :
  (forall y z, z ∈ l -> f y z = g y z) -> foldl f x l = foldl g x l.
Proof.
  revert x. induction l as [|z l IH]; intros x H; [reflexivity|]. cbn. rewrite H by left. apply IH.
  intros; apply H; right; assumption.
Qed.

Lemma ts_by_equality E a b n_t : env_ok E -> small_types a b -> ts E a b n_t = ts (by_equality E) a b n_t.
Proof.
  intros HE Hs. unfold ts, run. apply foldl_ext_in. intros out n Hn. unfold span. apply foldl_ext_in.
  intros out' i _. unfold block. apply elem_of_spans in Hn. rewrite !fold_block.
  - reflexivity.
  - apply by_equality_ok, HE.
  - lia.
  - apply NoDup_ord, by_equality_ok, HE.
  - intros d Hd. apply elem_of_ord in Hd; [|apply by_equality_ok, HE]. eapply cand_small; eassumption.
  - exact HE.
  - lia.
  - apply NoDup_ord, HE.
  - intros d Hd. apply elem_of_ord in Hd; [|exact HE]. eapply cand_small; eassumption.
Qed.

Theorem bed_by_equality E a b n_t : env_ok E -> small_types a b -> (length a <= length b)%nat ->
  boundary_edit_distance E a b n_t = boundary_edit_distance (by_equality E) a b n_t.
Proof.
  intros HE Hs Hl. rewrite !bed_ok by (assumption || (apply by_equality_ok; assumption)).
  rewrite ts_by_equality by assumption. reflexivity.
Qed.

(** An environment in which no two transpositions share a large type object. *)
Definition env_distinct : env :=
  Env (fun _ _ s => elements s) (fun t u => (t_type t =? t_type u) && (small (t_type t) || bool_decide (t = u))).

Lemma env_distinct_ok : env_ok env_distinct.
Proof.
  constructor; cbn.
  - reflexivity.
  - intros t u H. apply andb_true_iff in H as [H _]. apply Z.eqb_eq, H.
  - intros t u H Hs. rewrite Hs, H, Z.eqb_refl. reflexivity.
Qed.

Lemma env0_ok : env_ok env0.
Proof.
  constructor; cbn.
  - reflexivity.
  - intros t u H. apply Z.eqb_eq, H.
  - intros t u H _. apply Z.eqb_eq, H.
Qed.

(** An environment iterating sets in decreasing order. *)
Definition env_rev : env := Env (fun _ _ s => reverse (elements s)) (fun t u => t_type t =? t_type u).

Lemma env_rev_ok : env_ok env_rev.
Proof.
  constructor; cbn.
  - intros _ _ s. rewrite reverse_Permutation. reflexivity.
  - intros t u H. apply Z.eqb_eq, H.
  - intros t u H _. apply Z.eqb_eq, H.
Qed.

Global Instance edits_eq_dec : EqDecision edits.
Proof. solve_decision. Defined.

Lemma one_typeb a b c : bool_decide (Forall (fun s : gset Z => s ⊆ {[c]}) (a ++ b)) = true -> one_type a b c.
Proof.
  intros H. apply bool_decide_eq_true in H. intros s d Hs Hd. rewrite Forall_forall in H.
  specialize (H s). rewrite elem_of_app in H. specialize (H Hs). set_solver.
Qed.

Lemma small_typesb a b : bool_decide (Forall (fun s : gset Z => Forall (fun d => -5 <= d <= 256) (elements s)) (a ++ b)) = true ->
  small_types a b.
Proof.
  intros H. apply bool_decide_eq_true in H. intros s d Hs Hd. rewrite Forall_forall in H.
  specialize (H s). rewrite elem_of_app in H. specialize (H Hs). rewrite Forall_forall in H. apply H.
  apply elem_of_elements, Hd.
Qed.

Lemma hasb s i d : bool_decide (d ∈ default ∅ (s !! i)) = true -> has s i d.
Proof. intros H. apply at_has'. apply bool_decide_eq_true in H. exact H. Qed.

Lemma hasb_not s i d : bool_decide (d ∈ default ∅ (s !! i)) = false -> ~ has s i d.
Proof. intros H K. apply at_has' in K. apply bool_decide_eq_false in H. contradiction. Qed.

Definition swapsb (a b : list (gset Z)) (i j : nat) (d : Z) : bool :=
  let h s k := bool_decide (d ∈ (default ∅ (s !! k) : gset Z)) in
  (h a i && negb (h a j) && negb (h b i) && h b j) || (negb (h a i) && h a j && h b i && negb (h b j)).

Lemma swapsb_ok a b i j d : swapsb a b i j d = true -> swaps a b i j d.
Proof.
  unfold swapsb, swaps. rewrite orb_true_iff, !andb_true_iff, !negb_true_iff.
  intros [(((H1 & H2) & H3) & H4)|(((H1 & H2) & H3) & H4)]; [left|right];
    repeat split; auto using hasb, hasb_not.
Qed.

Definition scriptb (a b : list (gset Z)) (c n_t : Z) (T : list (nat * nat)) (G : list nat) : bool :=
  forallb (fun p => bool_decide (fst p < snd p < length a)%nat &&
    bool_decide (Z.of_nat (snd p) - Z.of_nat (fst p) <= n_t - 1) && swapsb a b (fst p) (snd p) c) T &&
  bool_decide (NoDup (T.*1 ++ T.*2)) &&
  forallb (fun i => bool_decide (a !! i = b !! i \/ i ∈ G \/ i ∈ T.*1 \/ i ∈ T.*2)) (seq 0 (length a)).

Lemma scriptb_ok a b c n_t T G : scriptb a b c n_t T G = true -> edit_script a b c n_t T G.
Proof.
  unfold scriptb. rewrite !andb_true_iff, !forallb_forall. intros [[H1 H2] H3]. apply bool_decide_eq_true in H2.
  constructor; [|exact H2|].
  - intros i j Hij. apply elem_of_list_In in Hij. specialize (H1 _ Hij). rewrite !andb_true_iff in H1. cbn in H1.
    destruct H1 as [[K1 K2] K3]. apply bool_decide_eq_true in K1. apply bool_decide_eq_true in K2.
    split; [exact K1|]. split; [exact K2|]. apply swapsb_ok, K3.
  - intros i Hi Hne. specialize (H3 i). rewrite <- elem_of_list_In, elem_of_seq in H3. specialize (H3 ltac:(lia)).
    apply bool_decide_eq_true in H3. tauto.
Qed.
