(** For concrete matrices: hypotheses decided by evaluation. *)
From Verif Require Import SpecML MLProofs.
Open Scope Z_scope.

Definition cells_all (P : num -> bool) (m : cmatrix) : bool :=
  P (NInt 0) && forallb (fun pr => forallb (fun av => P (snd av)) (map_to_list (snd pr))) (map_to_list (cm_rows m)).

Lemma cells_all_ok P m : cells_all P m = true -> forall p a, P (cell m p a) = true.
Proof.
  intros H p a. apply andb_prop in H as [H0 H]. rewrite cell_look. unfold look.
  destruct (cm_rows m !! p) as [r|] eqn:E; cbn [mbind option_bind]; [|exact H0]. destruct (r !! a) as [v|] eqn:E2; [|exact H0].
  rewrite forallb_forall in H. specialize (H (p, r)). rewrite <- elem_of_list_In, elem_of_map_to_list in H. specialize (H E). cbn [snd] in H.
  rewrite forallb_forall in H. specialize (H (a, v)). rewrite <- elem_of_list_In, elem_of_map_to_list in H. exact (H E2).
Qed.

Definition nonneg_int (v : num) : bool := match v with NInt z => 0 <=? z | _ => false end.
Definition pos_dec_or_int (A : arith) (v : num) : bool :=
  match v with NInt z => (0 <=? z) && Qeq_bool (rd A (inject_Z z)) (inject_Z z) | NDec q => negb (Qle_bool q 0) && Qeq_bool (rd A q) q | NFlt _ => false end.

Lemma int_matrix A m : cells_all nonneg_int m = true -> exact_cells A m /\ tame A m.
Proof.
  intros H. pose proof (cells_all_ok _ _ H) as K.
  assert (HI : forall p a, exists z, cell m p a = NInt z /\ 0 <= z).
  { intros p a. specialize (K p a). destruct (cell m p a); try discriminate. apply Z.leb_le in K. eauto. }
  assert (HE : exact_cells A m) by (left; intros p a; destruct (HI p a) as (z & -> & _); exact I).
  split; [exact HE|]. split; [|split; [|left; exact HE]].
  - intros p a. destruct (HI p a) as (z & -> & Hz). cbn [nval]. change 0%Q with (inject_Z 0). rewrite <- Zle_Qle. exact Hz.
  - intros c q E. destruct (HI c c) as (z & E' & _). congruence.
Qed.

Lemma dec_matrix A m : cells_all (pos_dec_or_int A) m = true -> tame A m.
Proof.
  intros H. pose proof (cells_all_ok _ _ H) as K. split; [|split].
  - intros p a. specialize (K p a). destruct (cell m p a); try discriminate; cbn [nval]; apply andb_prop in K as [K _].
    + change 0%Q with (inject_Z 0). rewrite <- Zle_Qle. apply Z.leb_le, K.
    + apply negb_true_iff in K. destruct (Qlt_le_dec q 0) as [L|L]; [|exact L]. apply Qlt_le_weak, Qle_bool_iff in L. congruence.
  - intros c q E. specialize (K c c). rewrite E in K. apply andb_prop in K as [K _]. apply negb_true_iff in K. intros Z0.
    assert (Qle_bool q 0 = true) by (apply Qle_bool_iff; rewrite Z0; apply Qle_refl). congruence.
  - right. intros p a. specialize (K p a). unfold fits. destruct (cell m p a); try discriminate; apply andb_prop in K as [_ K]; apply Qeq_bool_iff, K.
Qed.

Lemma cord0_ok : cord_ok (fun s => elements s).
Proof. intros s. reflexivity. Qed.

Lemma above_one (r : res (num * cmatrix)) : match r with Ok (v, _) => negb (Qle_bool (nval v) 1) | Err _ => false end = true ->
  exists v m', r = Ok (v, m') /\ (1 < nval v)%Q.
Proof.
  destruct r as [[v m']|]; [|discriminate]. intros H. exists v, m'. split; [reflexivity|]. apply negb_true_iff in H.
  destruct (Qlt_le_dec 1 (nval v)) as [L|L]; [exact L|]. apply Qle_bool_iff in L. congruence.
Qed.

Global Instance Q_eq_decision : EqDecision Q.
Proof. solve_decision. Defined.
Global Instance num_eq_decision : EqDecision num.
Proof. solve_decision. Defined.

Definition ask_all (A : arith) (o : cord) (m : cmatrix) (qs : list query) : res cmatrix :=
  foldM (fun m q => rmap snd (ask A o m q)) qs m.

Lemma ask_all_ok A o qs : forall m m', ask_all A o m qs = Ok m' -> asked A o m qs m'.
Proof.
  induction qs as [|q qs IH]; intros m m' H; cbn [ask_all foldM] in H.
  - injection H as <-. constructor.
  - unfold ask_all in H. cbn [foldM] in H. destruct (ask A o m q) as [[v m1]|] eqn:E; [|discriminate]. cbn [rmap bind snd] in H.
    econstructor; [exact E|]. apply IH, H.
Qed.

Lemma ask_all_check A o m qs (P : cmatrix -> Prop) `{!forall m, Decision (P m)} :
  match ask_all A o m qs with Ok m' => bool_decide (P m') | Err _ => false end = true -> exists m', asked A o m qs m' /\ P m'.
Proof.
  destruct (ask_all A o m qs) as [m'|] eqn:E; [|discriminate]. intros K. exists m'. split; [apply ask_all_ok, E|]. apply bool_decide_eq_true in K. exact K.
Qed.

Ltac ask_all_compute :=
  match goal with |- exists m', asked ?A ?o ?m ?qs m' /\ @?P m' => apply (ask_all_check A o m qs P) end; vm_compute; reflexivity.
