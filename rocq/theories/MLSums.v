(** Sums over classes; what precision and recall compute. *)
From Coq Require Import Lqa.
From Verif Require Import SpecML Round RoundProofs SimRound SimProofs MLProofs.
Open Scope Z_scope.

(** ** Sums of rationals *)

Lemma qsum_cons x l : qsum (x :: l) = (x + qsum l)%Q. Proof. reflexivity. Qed.
Lemma qsum_nil : qsum [] = 0%Q. Proof. reflexivity. Qed.

Lemma qsum_app l l' : (qsum (l ++ l') == qsum l + qsum l')%Q.
Proof. induction l as [|x l IH]; cbn [app]; rewrite ?qsum_cons, ?qsum_nil; lra. Qed.

Lemma qsum_perm l l' : l ≡ₚ l' -> (qsum l == qsum l')%Q.
Proof. induction 1 as [|x l l' _ IH|x y l|l1 l2 l3 _ IH1 _ IH2]; rewrite ?qsum_cons; lra. Qed.

Lemma qsum_nonneg l : Forall (fun x => 0 <= x)%Q l -> (0 <= qsum l)%Q.
Proof. induction 1 as [|x l Hx _ IH]; rewrite ?qsum_cons, ?qsum_nil; lra. Qed.

Lemma qsum_fmap_ext {X} (f g : X -> Q) l : (forall x, x ∈ l -> f x == g x)%Q -> (qsum (f <$> l) == qsum (g <$> l))%Q.
Proof.
  intros H. induction l as [|x l IH]; [reflexivity|]. rewrite ?fmap_cons, ?qsum_cons.
  rewrite (H x) by left. rewrite IH; [reflexivity|]. intros y Hy. apply H. right. exact Hy.
Qed.

Lemma qsum_zero {X} (f : X -> Q) l : (forall x, x ∈ l -> f x == 0)%Q -> (qsum (f <$> l) == 0)%Q.
Proof.
  intros H. rewrite (qsum_fmap_ext f (fun _ => 0%Q)) by exact H. clear. induction l as [|x l IH]; [reflexivity|].
  rewrite ?fmap_cons, ?qsum_cons. lra.
Qed.

Lemma qsum_plus {X} (f g : X -> Q) l : (qsum ((fun x => f x + g x) <$> l) == qsum (f <$> l) + qsum (g <$> l))%Q.
Proof.
  induction l as [|x l IH]; [rewrite ?fmap_nil, ?qsum_nil; lra|]. rewrite ?fmap_cons, ?qsum_cons.
  lra.
Qed.

Lemma qsum_swap {X Y} (f : X -> Y -> Q) l l' :
  (qsum ((fun x => qsum ((fun y => f x y) <$> l')) <$> l) == qsum ((fun y => qsum ((fun x => f x y) <$> l)) <$> l'))%Q.
Proof.
  induction l as [|x l IH].
  - symmetry. apply qsum_zero. reflexivity.
  - rewrite ?fmap_cons, ?qsum_cons.
    rewrite IH. rewrite <- qsum_plus. reflexivity.
Qed.

Lemma qsum_mono {X} (f g : X -> Q) l : (forall x, x ∈ l -> f x <= g x)%Q -> (qsum (f <$> l) <= qsum (g <$> l))%Q.
Proof.
  intros H. induction l as [|x l IH]; [rewrite ?fmap_nil, ?qsum_nil; lra|]. rewrite ?fmap_cons, ?qsum_cons.
  pose proof (H x ltac:(left)). assert (qsum (f <$> l) <= qsum (g <$> l))%Q by (apply IH; intros y Hy; apply H; right; exact Hy). lra.
Qed.

Lemma qsum_elem {X} (f : X -> Q) l x : (forall y, y ∈ l -> 0 <= f y)%Q -> x ∈ l -> (f x <= qsum (f <$> l))%Q.
Proof.
  intros H Hx. induction l as [|y l IH]; [apply elem_of_nil in Hx; contradiction|].
  rewrite ?fmap_cons, ?qsum_cons.
  assert (0 <= qsum (f <$> l))%Q. { apply qsum_nonneg. apply Forall_fmap, Forall_forall. intros z Hz. cbn. apply H. right. exact Hz. }
  apply elem_of_cons in Hx as [->|Hx]; [lra|]. pose proof (H y ltac:(left)).
  assert (f x <= qsum (f <$> l))%Q by (apply IH; [intros z Hz; apply H; right; exact Hz|exact Hx]). lra.
Qed.

(** A larger set, zero outside the smaller. *)
Lemma csum_grow (f : label -> Q) (s s' : gset label) : s ⊆ s' -> (forall k, k ∉ s -> f k == 0)%Q -> (csum f s' == csum f s)%Q.
Proof.
  intros Hs Hz. unfold csum.
  assert (E : elements s' ≡ₚ elements s ++ elements (s' ∖ s)).
  { rewrite <- elements_disj_union by set_solver. replace (s ∪ s' ∖ s) with s'; [reflexivity|].
    apply set_eq. intros k. rewrite elem_of_union, elem_of_difference. destruct (decide (k ∈ s)); set_solver. }
  rewrite (qsum_perm _ (f <$> (elements s ++ elements (s' ∖ s)))) by (rewrite E; reflexivity).
  rewrite fmap_app, qsum_app. rewrite (qsum_zero f (elements (s' ∖ s))); [lra|].
  intros k Hk. apply Hz. apply elem_of_elements in Hk. set_solver.
Qed.

Lemma csum_ext (f g : label -> Q) s : (forall k, k ∈ s -> f k == g k)%Q -> (csum f s == csum g s)%Q.
Proof. intros H. apply qsum_fmap_ext. intros k Hk. apply H, elem_of_elements, Hk. Qed.

Lemma csum_order o (f : label -> Q) s : cord_ok o -> (qsum (f <$> o s) == csum f s)%Q.
Proof. intros HO. unfold csum. apply qsum_perm. rewrite (HO s). reflexivity. Qed.

(** ** Exact addition *)

Definition Pex (A : arith) (v : num) : Prop := is_int v \/ (A = exactA /\ not_float v).

Lemma exact_pex A m p a : exact_cells A m -> Pex A (cell m p a).
Proof. intros [H|[H1 H2]]; [left; apply H|right; split; [exact H1|apply H2]]. Qed.

Lemma pex_add A v w : Pex A v -> Pex A w -> exists u, nadd A v w = Ok u /\ Pex A u /\ (nval u == nval v + nval w)%Q.
Proof.
  intros Hv Hw.
  assert (HQ : forall z z', (inject_Z (z + z') == inject_Z z + inject_Z z')%Q) by (intros; rewrite inject_Z_plus; reflexivity).
  destruct v as [a|p|x]; destruct w as [b|q|y]; destruct Hv as [Hv|[Ea Hv]]; destruct Hw as [Hw|[Eb Hw]]; try contradiction; subst;
    (eexists; split; [reflexivity|]; split; [(left; exact I) || (right; split; [reflexivity|exact I])|cbn [nval exactA rd]; rewrite ?Qred_correct, ?HQ; lra]).
Qed.

Lemma exact_sum A l : forall d, Pex A d -> Forall (Pex A) l -> exists s, foldM (nadd A) l d = Ok s /\ Pex A s /\ (nval s == nval d + qsum (nval <$> l))%Q.
Proof.
  induction l as [|v l IH]; intros d Hd Hl.
  - exists d. split; [reflexivity|]. split; [assumption|]. cbn. lra.
  - apply Forall_cons in Hl as [Hv Hl]. destruct (pex_add A d v Hd Hv) as (u & E & Hu & Eu). cbn [foldM]. rewrite E. cbn [bind].
    destruct (IH u Hu Hl) as (s & Es & Hs & Ev). exists s. split; [assumption|]. split; [assumption|].
    rewrite Ev, Eu. rewrite ?fmap_cons, ?qsum_cons. lra.
Qed.

(** ** Addition with rounding: a sum is at least each of its terms *)


Lemma fits_val A v : fits A v -> (rd A (nval v) == nval v)%Q.
Proof. destruct v; cbn; intros H; [exact H|exact H|contradiction]. Qed.
Lemma fits_not_float A v : fits A v -> not_float v.
Proof. destruct v; cbn; auto. Qed.

Lemma Pex_not_float A v : Pex A v -> not_float v.
Proof. intros [H|[_ H]]; destruct v; try contradiction; exact I. Qed.

Definition is_dec (v : num) : Prop := match v with NDec _ => True | _ => False end.

Lemma round_add A eps M v w : prec A eps M -> not_float v -> not_float w -> (0 <= nval v)%Q -> (0 <= nval w)%Q ->
  exists u, nadd A v w = Ok u /\ not_float u /\ (0 <= nval u)%Q /\ ((is_dec v \/ is_dec w) <-> is_dec u) /\
    (is_dec u -> (nval u == rd A (nval v + nval w))%Q) /\ (~ is_dec u -> (nval u == nval v + nval w)%Q) /\
    (forall x, (rd A x == x)%Q -> (x <= nval v \/ x <= nval w)%Q -> (x <= nval u)%Q).
Proof.
  intros HP Hv Hw H1 H2.
  assert (HM : forall s x, (rd A x == x -> x <= s -> x <= rd A s)%Q) by (intros s x E L; rewrite <- E; apply (p_mono _ _ _ HP), L).
  assert (HN : forall s, (0 <= s -> 0 <= rd A s)%Q) by (intros s; apply (rd_nonneg A _ _ HP)).
  destruct v as [a|p|x]; destruct w as [b|q|y]; try contradiction; cbn [nval] in *; (eexists; split; [reflexivity|]; split; [exact I|]; cbn [nval is_dec]).
  - rewrite inject_Z_plus. repeat split; try tauto; try lra; try reflexivity. intros x _ [?|?]; lra.
  - repeat split; try tauto; try reflexivity; [apply HN; lra|]. intros x E [?|?]; apply HM; lra || exact E.
  - repeat split; try tauto; try reflexivity; [apply HN; lra|]. intros x E [?|?]; apply HM; lra || exact E.
  - repeat split; try tauto; try reflexivity; [apply HN; lra|]. intros x E [?|?]; apply HM; lra || exact E.
Qed.

Lemma round_sum A eps M l : prec A eps M -> forall d, not_float d -> (0 <= nval d)%Q -> Forall (fun v => not_float v /\ (0 <= nval v)%Q) l ->
  exists s, foldM (nadd A) l d = Ok s /\ not_float s /\ (0 <= nval s)%Q /\ ((is_dec d \/ Exists is_dec l) -> is_dec s) /\
    (forall x, (rd A x == x)%Q -> (x <= nval d)%Q \/ (exists v, v ∈ l /\ (x <= nval v)%Q) -> (x <= nval s)%Q).
Proof.
  intros HP. induction l as [|v l IH]; intros d Hd H0 Hl.
  - exists d. split; [reflexivity|]. split; [assumption|]. split; [assumption|]. split.
    + intros [H|H]; [assumption|]. apply Exists_nil in H. contradiction.
    + intros x _ [H|(v & Hv & _)]; [assumption|]. apply elem_of_nil in Hv. contradiction.
  - apply Forall_cons in Hl as [[Hv Hv0] Hl]. destruct (round_add A eps M d v HP Hd Hv H0 Hv0) as (u & E & Hu & Hu0 & HD & _ & _ & HX).
    cbn [foldM]. rewrite E. cbn [bind]. destruct (IH u Hu Hu0 Hl) as (s & Es & Hs & Hs0 & HDs & HXs). exists s.
    split; [assumption|]. split; [assumption|]. split; [assumption|]. split.
    + intros [H|H]; [apply HDs; left; tauto|]. apply Exists_cons in H as [H|H]; apply HDs; [left; tauto|right; assumption].
    + intros x Ex [H|(w & Hw & Hx)]; [apply HXs; [assumption|left; apply HX; tauto]|].
      apply elem_of_cons in Hw as [->|Hw]; [apply HXs; [assumption|left; apply HX; tauto]|apply HXs; [assumption|right; eauto]].
Qed.

(** ** The parts of precision and recall *)

Definition line (m : cmatrix) (byrow : bool) (c : label) : Q :=
  csum (fun k => nval (cell m (fst (cidx byrow c k)) (snd (cidx byrow c k)))) (cls m).

Lemma line_row m c : line m true c = row_sum m c. Proof. reflexivity. Qed.
Lemma line_col m c : line m false c = col_sum m c. Proof. reflexivity. Qed.

Lemma line_grown ex m m' byrow c : wf m -> grown ex m m' -> (line m' byrow c == line m byrow c)%Q.
Proof.
  intros HW G. unfold line.
  rewrite (csum_ext _ (fun k => nval (cell m (fst (cidx byrow c k)) (snd (cidx byrow c k))))).
  2:{ intros k _. rewrite (g_cells _ _ _ G). reflexivity. }
  apply csum_grow; [apply G|]. intros k Hk. rewrite (cell_outside m) by (assumption || (destruct byrow; cbn; tauto)). reflexivity.
Qed.

Lemma parts_exact A o byrow m c : wf m -> cord_ok o -> exact_cells A m ->
  exists d m', ratio_parts A o byrow m c = Ok (cell m c c, d, m') /\ grown {[c]} m m' /\ c ∈ cls m' /\ Pex A d /\ (nval d == line m byrow c)%Q.
Proof.
  intros HW HO HE. pose proof (ratio_parts_eq A o byrow m c HW HO) as H.
  set (f := fun k => cell m (fst (cidx byrow c k)) (snd (cidx byrow c k))) in *.
  destruct (exact_sum A (f <$> o (cls m)) (NInt 0)) as (s & Es & Hs & Ev).
  - left. exact I.
  - apply Forall_fmap, Forall_forall. intros k _. apply exact_pex, HE.
  - rewrite Es in H. destruct H as (m' & H & G & HC). exists s, m'. split; [exact H|]. split; [exact G|]. split; [exact HC|]. split; [exact Hs|].
    rewrite Ev, <- list_fmap_compose. change (nval (NInt 0)) with 0%Q. rewrite Qplus_0_l. apply (csum_order o (fun k => nval (f k)) (cls m) HO).
Qed.


Lemma parts_tame A eps M o byrow m c : prec A eps M -> wf m -> cord_ok o -> tame A m ->
  exists d m', ratio_parts A o byrow m c = Ok (cell m c c, d, m') /\ grown {[c]} m m' /\ c ∈ cls m' /\ not_float d /\ (0 <= nval d)%Q /\
    (nval (cell m c c) <= nval d)%Q /\ (c ∈ cls m -> is_dec (cell m c c) -> is_dec d).
Proof.
  intros HP HW HO (HN & _ & [HE|HF]).
  - destruct (parts_exact A o byrow m c HW HO HE) as (d & m' & E & G & HC & Pd & Ed). exists d, m'. split; [exact E|]. split; [exact G|]. split; [exact HC|].
    split; [destruct Pd as [Pd|[_ Pd]]; destruct d; try contradiction; exact I|].
    assert (H0 : (0 <= line m byrow c)%Q) by (apply qsum_nonneg, Forall_fmap, Forall_forall; intros k _; apply HN).
    split; [rewrite Ed; exact H0|]. split.
    + rewrite Ed. destruct (decide (c ∈ cls m)) as [C|C].
      * unfold line, csum. pose proof (qsum_elem (fun k => nval (cell m (fst (cidx byrow c k)) (snd (cidx byrow c k)))) (elements (cls m)) c) as K. cbv beta in K.
        replace (cell m (fst (cidx byrow c c)) (snd (cidx byrow c c))) with (cell m c c) in K by (destruct byrow; reflexivity).
        apply K; [intros k _; apply HN|apply elem_of_elements, C].
      * rewrite cell_outside by tauto. exact H0.
    + intros C HDc. pose proof (ratio_parts_eq A o byrow m c HW HO) as H.
      set (f := fun k => cell m (fst (cidx byrow c k)) (snd (cidx byrow c k))) in *.
      destruct (round_sum A eps M (f <$> o (cls m)) HP (NInt 0)) as (s & Es & _ & _ & HD & _).
      * exact I.
      * discriminate.
      * apply Forall_fmap, Forall_forall. intros k _. split; [|apply HN]. apply (Pex_not_float A), exact_pex, HE.
      * rewrite Es in H. destruct H as (m'' & H & _). rewrite E in H. injection H as -> _. apply HD. right. apply Exists_exists. exists (cell m c c). split; [|exact HDc].
        apply elem_of_list_fmap. exists c. split; [unfold f; destruct byrow; reflexivity|]. rewrite (HO (cls m)). apply elem_of_elements, C.
  - pose proof (ratio_parts_eq A o byrow m c HW HO) as H.
    set (f := fun k => cell m (fst (cidx byrow c k)) (snd (cidx byrow c k))) in *.
    destruct (round_sum A eps M (f <$> o (cls m)) HP (NInt 0)) as (s & Es & Hs & Hs0 & HD & HX).
    + exact I.
    + discriminate.
    + apply Forall_fmap, Forall_forall. intros k _. split; [eapply fits_not_float, HF|apply HN].
    + rewrite Es in H. destruct H as (m' & H & G & HC). exists s, m'. split; [exact H|]. split; [exact G|]. split; [exact HC|]. split; [exact Hs|]. split; [exact Hs0|].
      assert (Hin : c ∈ cls m -> cell m c c ∈ f <$> o (cls m)).
      { intros C. apply elem_of_list_fmap. exists c. split; [unfold f; destruct byrow; reflexivity|]. rewrite (HO (cls m)). apply elem_of_elements, C. }
      split.
      * destruct (decide (c ∈ cls m)) as [C|C]; [|rewrite cell_outside by tauto; exact Hs0].
        apply HX; [apply fits_val, HF|]. right. exists (cell m c c). split; [apply Hin, C|lra].
      * intros C HDc. apply HD. right. apply Exists_exists. exists (cell m c c). split; [apply Hin, C|exact HDc].
Qed.

Lemma ratio_ok A eps M n d : prec A eps M -> (forall q, n = NDec q -> ~ (q == 0)%Q) -> not_float n -> not_float d -> (0 <= nval n)%Q -> (nval n <= nval d)%Q ->
  exists v, ratio_value A n d = Ok (NDec v) /\ (0 <= v <= 1)%Q /\ ((v == 0)%Q <-> (nval n == 0)%Q) /\
    (~ (nval n == 0)%Q -> v = rd A (nval n / nval d)).
Proof.
  intros HP HD Hn Hd H0 H1. unfold ratio_value.
  assert (HZ : is_int0 n = true \/ (0 < nval n)%Q).
  { destruct n as [[|z|z]|q|]; cbn [nval is_int0] in *; try contradiction; [left; reflexivity|right; reflexivity|right].
    specialize (HD q eq_refl). lra. }
  destruct HZ as [HZ|HZ].
  - rewrite HZ. exists 0%Q. assert (nval n == 0)%Q by (destruct n as [[|z|z]|q|]; try discriminate HZ; reflexivity).
    split; [reflexivity|]. split; [lra|]. split; [split; [auto|reflexivity]|tauto].
  - replace (is_int0 n) with false by (destruct n as [[|z|z]|q|]; try reflexivity; vm_compute in HZ; discriminate HZ).
    unfold to_dec. cbn [ndiv]. unfold qzero. destruct (Qeq_bool (nval d) 0) eqn:E; [apply Qeq_bool_iff in E; lra|].
    exists (rd A (nval n / nval d)). assert (Hp : (0 < nval n / nval d)%Q) by (apply Qlt_shift_div_l; lra).
    split; [reflexivity|]. split; [split|split].
    + apply (rd_nonneg A _ _ HP). lra.
    + change 1%Q with (inject_Z 1). apply (rd_le A _ _ HP); [apply Qdiv_bounds; [lra|]; change (inject_Z 1) with 1%Q; lra|]. pose proof (p_M _ _ _ HP). lia.
    + pose proof (rd_pos A _ _ HP _ Hp). split; intros; lra.
    + reflexivity.
Qed.

(** One class. *)
Lemma class_range A eps M o byrow m c : prec A eps M -> wf m -> cord_ok o -> tame A m ->
  exists v m', (let* (nd, m) := ratio_parts A o byrow m c in let* v := ratio_value A (fst nd) (snd nd) in Ok (v, m)) = Ok (NDec v, m') /\
    grown {[c]} m m' /\ c ∈ cls m' /\ (0 <= v <= 1)%Q /\ ((v == 0)%Q <-> (nval (cell m c c) == 0)%Q) /\
    (exact_cells A m -> v = if Qeq_bool (nval (cell m c c)) 0 then 0%Q else rd A (nval (cell m c c) / line m byrow c)).
Proof.
  intros HP HW HO HT. destruct (parts_tame A eps M o byrow m c HP HW HO HT) as (d & m' & E & G & HC & Hd & Hd0 & HL & _).
  assert (HNF : not_float (cell m c c)).
  { destruct HT as (_ & _ & [HE|HF]); [|eapply fits_not_float, HF]. destruct (exact_pex A m c c HE) as [K|[_ K]]; destruct (cell m c c); try contradiction; exact I. }
  destruct (ratio_ok A eps M (cell m c c) d HP) as (v & Ev & Hv & Hz & Hx); try assumption; [apply HT|apply HT|].
  rewrite E. cbn [bind fst snd]. rewrite Ev. cbn [bind]. exists v, m'. split; [reflexivity|]. split; [exact G|]. split; [exact HC|]. split; [exact Hv|]. split; [exact Hz|].
  intros HE. destruct (Qeq_bool (nval (cell m c c)) 0) eqn:EZ.
  - apply Qeq_bool_iff in EZ. unfold ratio_value in Ev. destruct (is_int0 (cell m c c)) eqn:EI; [injection Ev as <-; reflexivity|].
    exfalso. destruct (cell m c c) as [[|z|z]|q|] eqn:EC; try discriminate EI; cbn [nval] in EZ; try (apply (proj1 (proj2 HT) c q EC EZ)); try contradiction.
    + unfold inject_Z, Qeq in EZ. cbn in EZ. discriminate.
    + unfold inject_Z, Qeq in EZ. cbn in EZ. discriminate.
  - rewrite Hx by (intros K; apply Qeq_bool_iff in K; congruence).
    destruct (parts_exact A o byrow m c HW HO HE) as (d' & m'' & E' & _ & _ & _ & Ed). rewrite E in E'. injection E' as -> ->.
    apply (p_ext _ _ _ HP). rewrite Ed. reflexivity.
Qed.
