(** Confusion matrices as objects. *)
From Verif Require Import SpecMatrix.
Open Scope Z_scope.

(** ** Invariant *)

Record minv (H : mheap) : Prop := {
  inv_parent : forall m p r, is_row H m p r -> exists x, mh_rows H !! r = Some x /\ ro_parent x = m;
  inv_inj : forall m p p' r, is_row H m p r -> is_row H m p' r -> p = p';
  inv_row : forall r x, mh_rows H !! r = Some x -> (ro_parent x < length (mh_mats H))%nat;
  inv_set : forall m o, mh_mats H !! m = Some o -> (default 0%nat (mo_classes o) < length (mh_sets H))%nat;
  inv_zero : (0 < length (mh_sets H))%nat
}.

Lemma inv0 : minv mh0.
Proof.
  split.
  - intros m p r (o & Ho & _). discriminate Ho.
  - intros m p p' r (o & Ho & _). discriminate Ho.
  - intros r x Hx. discriminate Hx.
  - intros m o Ho. discriminate Ho.
  - cbn. lia.
Qed.

(** ** m[p] *)

Lemma get_row_ok H m p r H' : minv H -> get_row H m p = Some (r, H') ->
  minv H' /\ is_row H' m p r /\ only m H H' /\ exists M, view H m = Some M /\ view H' m = Some (snd (cm_row M p)).
Proof.
  intros I E. unfold get_row in E. destruct (mh_mats H !! m) as [o|] eqn:Hm; [|discriminate E]. cbn in E.
  destruct (mo_rows o !! p) as [r0|] eqn:Hp.
  - injection E as -> <-. split; [exact I|]. split; [exists o; auto|]. split; [intros m' _; reflexivity|].
    unfold view. rewrite Hm. cbn. eexists. split; [reflexivity|]. unfold cm_row. cbn. rewrite lookup_fmap, Hp. reflexivity.
  - injection E as <- <-. set (n := length (mh_rows H)).
    set (H' := MH (<[m := MObj (<[p := n]> (mo_rows o)) (mo_classes o) (mo_dirty o)]> (mh_mats H)) (mh_rows H ++ [RObj m ∅]) (mh_sets H)).
    assert (Lm : (m < length (mh_mats H))%nat) by (eapply lookup_lt_Some; exact Hm).
    assert (Old : forall m' p' r', is_row H m' p' r' -> (r' < n)%nat).
    { intros m' p' r' K. destruct (inv_parent H I _ _ _ K) as (x & Hx & _). apply lookup_lt_Some in Hx. exact Hx. }
    assert (R : forall m' p' r', is_row H' m' p' r' <-> (m' = m /\ p' = p /\ r' = n) \/ ((m', p') <> (m, p) /\ is_row H m' p' r')).
    { intros m' p' r'. unfold is_row. cbn. destruct (decide (m' = m)) as [->|D].
      - rewrite list_lookup_insert by exact Lm. destruct (decide (p' = p)) as [->|D'].
        + split.
          * intros (o' & [= <-] & K). cbn in K. rewrite lookup_insert in K. injection K as <-. auto.
          * intros [(_ & _ & ->)|[K _]]; [|contradiction]. eexists. split; [reflexivity|]. cbn. apply lookup_insert.
        + split.
          * intros (o' & [= <-] & K). cbn in K. rewrite lookup_insert_ne in K by congruence. right. split; [congruence|]. exists o. auto.
          * intros [(_ & ? & _)|[_ (o' & K1 & K2)]]; [contradiction|]. assert (o' = o) as -> by congruence. eexists. split; [reflexivity|]. cbn. rewrite lookup_insert_ne by congruence. exact K2.
      - rewrite list_lookup_insert_ne by congruence. split; [intros K; right; split; [congruence|exact K]|]. intros [(? & _)|[_ K]]; [contradiction|exact K]. }
    assert (Rn : forall r', (r' < n)%nat -> mh_rows H' !! r' = mh_rows H !! r') by (intros r' K; apply lookup_app_l; exact K).
    assert (I' : minv H').
    { split.
      - intros m' p' r' K. apply R in K as [(-> & -> & ->)|[_ K]].
        + exists (RObj m ∅). split; [|reflexivity]. cbn. rewrite lookup_app_r by reflexivity. fold n. rewrite Nat.sub_diag. reflexivity.
        + destruct (inv_parent H I _ _ _ K) as (x & Hx & Px). exists x. split; [|exact Px]. rewrite Rn; [exact Hx|exact (Old _ _ _ K)].
      - intros m' p1 p2 r' K1 K2. apply R in K1 as [(-> & -> & ->)|[_ K1]]; apply R in K2 as [(E1 & E2 & E3)|[_ K2]].
        + auto.
        + apply Old in K2. lia.
        + subst. apply Old in K1. lia.
        + exact (inv_inj H I _ _ _ _ K1 K2).
      - intros r' x K. cbn. rewrite insert_length. cbn in K. apply lookup_app_Some in K as [K|[_ K]]; [exact (inv_row H I _ _ K)|]. apply list_lookup_singleton_Some in K as [_ <-]. exact Lm.
      - intros m' o' K. cbn in K |- *. destruct (decide (m' = m)) as [->|D].
        + rewrite list_lookup_insert in K by exact Lm. injection K as <-. exact (inv_set H I m o Hm).
        + rewrite list_lookup_insert_ne in K by congruence. exact (inv_set H I _ _ K).
      - exact (inv_zero H I). }
    assert (C : forall m' p' r', is_row H m' p' r' -> row_cells H' r' = row_cells H r').
    { intros m' p' r' K. unfold row_cells. rewrite Rn; [reflexivity|exact (Old _ _ _ K)]. }
    split; [exact I'|]. split; [apply R; auto|]. split.
    + intros m' D. unfold view. cbn [mh_mats H']. rewrite list_lookup_insert_ne by congruence. destruct (mh_mats H !! m') as [o'|] eqn:Hm'; [|reflexivity]. cbn. f_equal. f_equal.
      apply map_eq. intros p'. rewrite !lookup_fmap. destruct (mo_rows o' !! p') as [r'|] eqn:Hr'; [|reflexivity]. cbn. f_equal. apply (C m' p'). exists o'. auto.
    + unfold view. cbn [mh_mats H']. rewrite list_lookup_insert, Hm by exact Lm. cbn [mbind option_bind]. eexists. split; [reflexivity|]. unfold cm_row. cbn [cm_rows mo_rows]. rewrite lookup_fmap, Hp. cbn.
      f_equal. f_equal. rewrite fmap_insert. apply map_eq. intros p'. destruct (decide (p' = p)) as [->|D].
      * rewrite !lookup_insert. f_equal. unfold row_cells. cbn. rewrite lookup_app_r by reflexivity. fold n. rewrite Nat.sub_diag. reflexivity.
      * rewrite !lookup_insert_ne by congruence. rewrite !lookup_fmap. destruct (mo_rows o !! p') as [r'|] eqn:Hr'; [|reflexivity]. cbn. f_equal. apply (C m p'). exists o. auto.
Qed.

(** Held rows stay rows. *)
Lemma get_row_keeps H m p r H' m' p' r' : get_row H m p = Some (r, H') -> is_row H m' p' r' -> is_row H' m' p' r'.
Proof.
  intros E (o' & K1 & K2). unfold get_row in E. destruct (mh_mats H !! m) as [o|] eqn:Hm; [|discriminate E]. cbn in E.
  destruct (mo_rows o !! p) as [r0|] eqn:Hp; injection E as <- <-; [exists o'; auto|].
  assert (Lm : (m < length (mh_mats H))%nat) by (eapply lookup_lt_Some; exact Hm).
  unfold is_row. cbn. destruct (decide (m' = m)) as [->|D].
  - rewrite list_lookup_insert by exact Lm. eexists. split; [reflexivity|]. cbn. assert (o' = o) as -> by congruence. rewrite lookup_insert_ne by congruence. exact K2.
  - rewrite list_lookup_insert_ne by congruence. exists o'. auto.
Qed.

(** ** row[a] = v *)

Lemma set_cell_rows H r a v H' : set_cell H r a v = Some H' -> forall m p r', is_row H' m p r' <-> is_row H m p r'.
Proof.
  intros E m p r'. unfold set_cell in E. destruct (mh_rows H !! r) as [x|] eqn:Hx; [|discriminate E]. cbn in E.
  destruct (mh_mats H !! ro_parent x) as [o|] eqn:Ho; [|discriminate E]. cbn in E. injection E as <-. unfold is_row. cbn.
  assert (L : (ro_parent x < length (mh_mats H))%nat) by (eapply lookup_lt_Some; exact Ho).
  destruct (decide (m = ro_parent x)) as [->|D].
  - rewrite list_lookup_insert by exact L. split; intros (o' & K1 & K2); [injection K1 as <-; exists o; auto|]. assert (o' = o) as -> by congruence. eexists. split; [reflexivity|exact K2].
  - rewrite list_lookup_insert_ne by congruence. reflexivity.
Qed.

Lemma set_cell_inv H r a v H' : minv H -> set_cell H r a v = Some H' -> minv H'.
Proof.
  intros I E. pose proof (set_cell_rows H r a v H' E) as R. unfold set_cell in E. destruct (mh_rows H !! r) as [x|] eqn:Hx; [|discriminate E]. cbn in E.
  destruct (mh_mats H !! ro_parent x) as [o|] eqn:Ho; [|discriminate E]. cbn in E. injection E as <-.
  assert (Lr : (r < length (mh_rows H))%nat) by (eapply lookup_lt_Some; exact Hx).
  assert (L : (ro_parent x < length (mh_mats H))%nat) by (eapply lookup_lt_Some; exact Ho).
  split.
  - intros m p r' K. apply R in K. destruct (inv_parent H I _ _ _ K) as (y & Hy & Py). cbn. destruct (decide (r' = r)) as [->|D].
    + rewrite list_lookup_insert by exact Lr. eexists. split; [reflexivity|]. cbn. congruence.
    + rewrite list_lookup_insert_ne by congruence. eauto.
  - intros m p p' r' K1 K2. apply R in K1, K2. exact (inv_inj H I _ _ _ _ K1 K2).
  - intros r' y K. cbn in K |- *. rewrite insert_length. destruct (decide (r' = r)) as [->|D].
    + rewrite list_lookup_insert in K by exact Lr. injection K as <-. exact L.
    + rewrite list_lookup_insert_ne in K by congruence. exact (inv_row H I _ _ K).
  - intros m o' K. cbn in K |- *. destruct (decide (m = ro_parent x)) as [->|D].
    + rewrite list_lookup_insert in K by exact L. injection K as <-. exact (inv_set H I _ _ Ho).
    + rewrite list_lookup_insert_ne in K by congruence. exact (inv_set H I _ _ K).
  - exact (inv_zero H I).
Qed.

Lemma set_cell_ok H m p r a v : minv H -> is_row H m p r ->
  exists H' M, set_cell H r a v = Some H' /\ only m H H' /\ view H m = Some M /\ view H' m = Some (cm_set M p a v).
Proof.
  intros I Hr. destruct (inv_parent H I _ _ _ Hr) as (x & Hx & Px). destruct Hr as (o & Ho & Hp).
  assert (E : set_cell H r a v = Some (MH (<[m := MObj (mo_rows o) (mo_classes o) true]> (mh_mats H)) (<[r := RObj m (<[a := v]> (ro_cells x))]> (mh_rows H)) (mh_sets H))).
  { unfold set_cell. rewrite Hx. cbn. rewrite Px, Ho. reflexivity. }
  rewrite E. set (H' := MH _ _ _) in *.
  assert (Lr : (r < length (mh_rows H))%nat) by (eapply lookup_lt_Some; exact Hx).
  assert (L : (m < length (mh_mats H))%nat) by (eapply lookup_lt_Some; exact Ho).
  assert (C : forall r', r' <> r -> row_cells H' r' = row_cells H r').
  { intros r' D. unfold row_cells. cbn. rewrite list_lookup_insert_ne by congruence. reflexivity. }
  eexists H', _. split; [reflexivity|]. split; [|split; [unfold view; rewrite Ho; reflexivity|]].
  - intros m' D. unfold view. cbn [mh_mats H']. rewrite list_lookup_insert_ne by congruence. destruct (mh_mats H !! m') as [o'|] eqn:Hm'; [|reflexivity]. cbn. f_equal. f_equal.
    apply map_eq. intros p'. rewrite !lookup_fmap. destruct (mo_rows o' !! p') as [r'|] eqn:Hr'; [|reflexivity]. cbn. f_equal. apply C. intros ->.
    destruct (inv_parent H I m' p' r ltac:(exists o'; auto)) as (y & Hy & Py). assert (y = x) as -> by congruence. congruence.
  - unfold view. cbn [mh_mats H']. rewrite list_lookup_insert by exact L. cbn [mbind option_bind]. f_equal. unfold cm_set, cm_row. cbn [cm_rows mo_rows]. rewrite lookup_fmap, Hp. cbn. f_equal.
    apply map_eq. intros p'. destruct (decide (p' = p)) as [->|D].
    + rewrite lookup_fmap, Hp, lookup_insert. cbn. f_equal. unfold row_cells. cbn. rewrite list_lookup_insert by exact Lr. rewrite Hx. reflexivity.
    + rewrite lookup_insert_ne by congruence. rewrite !lookup_fmap. destruct (mo_rows o !! p') as [r'|] eqn:Hr'; [|reflexivity]. cbn. f_equal. apply C. intros ->. apply D.
      apply (inv_inj H I m p' p r); exists o; auto.
Qed.

(** ** row[a] *)

Lemma get_cell_ok H m p r a : minv H -> is_row H m p r ->
  exists v H' M, get_cell H r a = Some (v, H') /\ minv H' /\ (forall m' p' r', is_row H' m' p' r' <-> is_row H m' p' r') /\ only m H H' /\
    view H m = Some M /\ cm_get M p a = (v, match view H' m with Some M' => M' | None => M end) /\ view H' m <> None.
Proof.
  intros I Hr. destruct (inv_parent H I _ _ _ Hr) as (x & Hx & Px). unfold get_cell. rewrite Hx. cbn [mbind option_bind].
  destruct (set_cell_ok H m p r a (NInt 0) I Hr) as (H1 & M & E1 & O1 & V1 & V2).
  assert (Row : cm_rows M !! p = Some (ro_cells x)).
  { destruct Hr as (o & Ho & Hp). unfold view in V1. rewrite Ho in V1. cbn in V1. injection V1 as <-. cbn. rewrite lookup_fmap, Hp. cbn. unfold row_cells. rewrite Hx. reflexivity. }
  destruct (ro_cells x !! a) as [v|] eqn:Hv.
  - exists v, H, M. split; [reflexivity|]. split; [exact I|]. split; [reflexivity|]. split; [intros m' _; reflexivity|]. split; [exact V1|]. rewrite V1. split; [|discriminate].
    unfold cm_get, cm_row. rewrite Row, Hv. reflexivity.
  - rewrite E1. exists (NInt 0), H1, M. split; [reflexivity|]. split; [exact (set_cell_inv _ _ _ _ _ I E1)|]. split; [exact (set_cell_rows _ _ _ _ _ E1)|]. split; [exact O1|]. split; [exact V1|]. rewrite V2.
    split; [|discriminate]. unfold cm_get, cm_row. rewrite Row, Hv. reflexivity.
Qed.

(** ** m.classes() *)

Lemma get_classes_ok H m s H' : minv H -> get_classes H m = Some (s, H') ->
  minv H' /\ only m H H' /\ (forall m' p' r', is_row H' m' p' r' <-> is_row H m' p' r') /\
  (forall s' c, mh_sets H !! s' = Some c -> mh_sets H' !! s' = Some c) /\
  exists M, view H m = Some M /\ view H' m = Some (snd (cm_get_classes M)) /\ mh_sets H' !! s = Some (fst (cm_get_classes M)) /\
    (cm_dirty M = true -> mh_sets H !! s = None).
Proof.
  intros I E. unfold get_classes in E. destruct (mh_mats H !! m) as [o|] eqn:Hm; [|discriminate E]. cbn in E. unfold view. rewrite Hm. cbn [mbind option_bind]. unfold cm_get_classes. cbn [cm_dirty].
  assert (L : (m < length (mh_mats H))%nat) by (eapply lookup_lt_Some; exact Hm).
  destruct (mo_dirty o) eqn:Hd; injection E as <- <-.
  - set (n := length (mh_sets H)). set (cs := cm_keys (row_cells H <$> mo_rows o)). set (H' := MH _ _ _).
    assert (S : forall s' c, mh_sets H !! s' = Some c -> mh_sets H' !! s' = Some c) by (intros s' c K; apply lookup_app_l_Some; exact K).
    assert (Sn : mh_sets H' !! n = Some cs) by (cbn; rewrite lookup_app_r by reflexivity; fold n; rewrite Nat.sub_diag; reflexivity).
    assert (R : forall m' p' r', is_row H' m' p' r' <-> is_row H m' p' r').
    { intros m' p' r'. unfold is_row. cbn. destruct (decide (m' = m)) as [->|D].
      - rewrite list_lookup_insert by exact L. split; intros (o' & K1 & K2); [injection K1 as <-; exists o; auto|]. assert (o' = o) as -> by congruence. eexists. split; [reflexivity|exact K2].
      - rewrite list_lookup_insert_ne by congruence. reflexivity. }
    split; [|split; [|split; [exact R|split; [exact S|]]]].
    + split.
      * intros m' p' r' K. apply R in K. exact (inv_parent H I _ _ _ K).
      * intros m' p1 p2 r' K1 K2. apply R in K1, K2. exact (inv_inj H I _ _ _ _ K1 K2).
      * intros r' x K. cbn. rewrite insert_length. exact (inv_row H I _ _ K).
      * intros m' o' K. cbn in K |- *. rewrite app_length. cbn. destruct (decide (m' = m)) as [->|D].
        -- rewrite list_lookup_insert in K by exact L. injection K as <-. cbn. lia.
        -- rewrite list_lookup_insert_ne in K by congruence. pose proof (inv_set H I _ _ K). lia.
      * cbn. rewrite app_length. cbn. lia.
    + intros m' D. unfold view. cbn [mh_mats H']. rewrite list_lookup_insert_ne by congruence. destruct (mh_mats H !! m') as [o'|] eqn:Hm'; [|reflexivity]. cbn [mbind option_bind]. f_equal.
      pose proof (inv_set H I _ _ Hm') as Li. apply lookup_lt_is_Some_2 in Li as [c Hc]. rewrite (S _ _ Hc), Hc. reflexivity.
    + eexists. split; [reflexivity|]. split; [|split].
      * cbn [mh_mats H']. rewrite list_lookup_insert by exact L. cbn [mbind option_bind mo_classes default from_option id snd]. rewrite Sn. reflexivity.
      * exact Sn.
      * intros _. apply lookup_ge_None. reflexivity.
  - split; [exact I|]. split; [intros m' _; reflexivity|]. split; [reflexivity|]. split; [auto|]. eexists. split; [reflexivity|]. rewrite Hm. cbn [mbind option_bind].
    split; [rewrite Hd; reflexivity|]. split; [|discriminate]. pose proof (inv_set H I _ _ Hm) as Li. apply lookup_lt_is_Some_2 in Li as [c Hc]. cbn [fst]. rewrite Hc. reflexivity.
Qed.

(** ** The other operations *)

Lemma new_ok H : minv H -> let H' := MH (mh_mats H ++ [MObj ∅ None false]) (mh_rows H) (mh_sets H) in
  minv H' /\ (forall m p r, is_row H m p r -> is_row H' m p r) /\ (forall m, (m < length (mh_mats H))%nat -> view H' m = view H m) /\
  view H' (length (mh_mats H)) = Some (CM ∅ (match mh_sets H !! 0%nat with Some s => s | None => ∅ end) false).
Proof.
  intros I H'. assert (O : forall m, (m < length (mh_mats H))%nat -> mh_mats H' !! m = mh_mats H !! m) by (intros m L; apply lookup_app_l, L).
  assert (N : mh_mats H' !! length (mh_mats H) = Some (MObj ∅ None false)) by (cbn; rewrite lookup_app_r, Nat.sub_diag by reflexivity; reflexivity).
  assert (R : forall m p r, is_row H' m p r <-> is_row H m p r).
  { intros m p r. unfold is_row. destruct (decide (m < length (mh_mats H))%nat) as [L|L]; [rewrite O by exact L; reflexivity|].
    split; intros (o & K1 & K2); [|apply lookup_lt_Some in K1; lia]. cbn in K1. apply lookup_app_Some in K1 as [K1|[_ K1]]; [apply lookup_lt_Some in K1; lia|].
    apply list_lookup_singleton_Some in K1 as [_ <-]. discriminate K2. }
  split; [|split; [intros m p r; apply R|split]].
  - split.
    + intros m p r K. apply R in K. exact (inv_parent H I _ _ _ K).
    + intros m p p' r K1 K2. apply R in K1, K2. exact (inv_inj H I _ _ _ _ K1 K2).
    + intros r x K. cbn. rewrite app_length. pose proof (inv_row H I _ _ K). lia.
    + intros m o K. cbn in K. apply lookup_app_Some in K as [K|[_ K]]; [exact (inv_set H I _ _ K)|]. apply list_lookup_singleton_Some in K as [_ <-]. exact (inv_zero H I).
    + exact (inv_zero H I).
  - intros m L. unfold view. rewrite O by exact L. reflexivity.
  - unfold view. rewrite N. cbn. rewrite fmap_empty. reflexivity.
Qed.

Lemma step_inv H op o H' : minv H -> mstep H op = Some (o, H') -> minv H'.
Proof.
  intros I E. destruct op; cbn in E.
  - injection E as <- <-. exact (proj1 (new_ok H I)).
  - destruct (get_row H m p) as [[r H1]|] eqn:K; [|discriminate E]. injection E as <- <-. exact (proj1 (get_row_ok _ _ _ _ _ I K)).
  - unfold get_cell in E. destruct (mh_rows H !! r) as [x|]; [|discriminate E]. cbn in E. destruct (ro_cells x !! a); [injection E as <- <-; exact I|].
    destruct (set_cell H r a (NInt 0)) as [H1|] eqn:K; [|discriminate E]. injection E as <- <-. exact (set_cell_inv _ _ _ _ _ I K).
  - destruct (set_cell H r a v) as [H1|] eqn:K; [|discriminate E]. injection E as <- <-. exact (set_cell_inv _ _ _ _ _ I K).
  - destruct (get_classes H m) as [[s H1]|] eqn:K; [|discriminate E]. injection E as <- <-. exact (proj1 (get_classes_ok _ _ _ _ I K)).
  - destruct (mh_sets H !! s); [|discriminate E]. injection E as <- <-. exact I.
  - destruct (mh_sets H !! s) as [old|]; [|discriminate E]. injection E as <- <-. destruct I as [I1 I2 I3 I4 I5]. split; cbn; rewrite ?insert_length; assumption.
  - destruct (mh_mats H !! m) as [q|] eqn:Hm; [|discriminate E]. cbn in E. destruct (mo_rows q !! p); [|injection E as <- <-; exact I]. injection E as <- <-.
    assert (L : (m < length (mh_mats H))%nat) by (eapply lookup_lt_Some; exact Hm).
    assert (R : forall m' p' r', is_row (MH (<[m := MObj (delete p (mo_rows q)) (mo_classes q) (mo_dirty q)]> (mh_mats H)) (mh_rows H) (mh_sets H)) m' p' r' -> is_row H m' p' r').
    { intros m' p' r' (o' & K1 & K2). cbn in K1. destruct (decide (m' = m)) as [->|D].
      - rewrite list_lookup_insert in K1 by exact L. injection K1 as <-. cbn in K2. apply lookup_delete_Some in K2 as [_ K2]. exists q. auto.
      - rewrite list_lookup_insert_ne in K1 by congruence. exists o'. auto. }
    destruct I as [I1 I2 I3 I4 I5]. split.
    + intros m' p' r' K. apply R in K. exact (I1 _ _ _ K).
    + intros m' p1 p2 r' K1 K2. apply R in K1, K2. exact (I2 _ _ _ _ K1 K2).
    + intros r' x K. cbn. rewrite insert_length. exact (I3 _ _ K).
    + intros m' o' K. cbn in K |- *. destruct (decide (m' = m)) as [->|D]; [rewrite list_lookup_insert in K by exact L; injection K as <-; exact (I4 _ _ Hm)|]. rewrite list_lookup_insert_ne in K by congruence. exact (I4 _ _ K).
    + exact I5.
  - destruct (mh_rows H !! r) as [x|] eqn:Hx; [|discriminate E]. cbn in E. destruct (ro_cells x !! a); [|injection E as <- <-; exact I]. injection E as <- <-.
    assert (L : (r < length (mh_rows H))%nat) by (eapply lookup_lt_Some; exact Hx).
    destruct I as [I1 I2 I3 I4 I5]. split; [| |intros r' y K|exact I4|exact I5].
    + intros m' p' r' K. destruct (I1 _ _ _ K) as (y & Hy & Py). cbn. destruct (decide (r' = r)) as [->|D]; [rewrite list_lookup_insert by exact L; eexists; split; [reflexivity|cbn; congruence]|].
      rewrite list_lookup_insert_ne by congruence. eauto.
    + exact I2.
    + cbn in K |- *. destruct (decide (r' = r)) as [->|D]; [rewrite list_lookup_insert in K by exact L; injection K as <-; exact (I3 _ _ Hx)|]. rewrite list_lookup_insert_ne in K by congruence. exact (I3 _ _ K).
Qed.

Lemma reach_inv H : mreach H -> minv H.
Proof. induction 1 as [|H op o H' _ I E]; [exact inv0|exact (step_inv _ _ _ _ I E)]. Qed.

(** ** Theorems *)

(** Matrix objects behave as the values of [ML.v], each on its own. *)
Theorem matrix_row H m p r H' : mreach H -> mstep H (MRow m p) = Some (MRef r, H') ->
  is_row H' m p r /\ only m H H' /\ (forall m' p' r', is_row H m' p' r' -> is_row H' m' p' r') /\
  exists M, view H m = Some M /\ view H' m = Some (snd (cm_row M p)).
Proof.
  intros R E. cbn in E. destruct (get_row H m p) as [[r' H1]|] eqn:K; [|discriminate E]. injection E as -> ->.
  destruct (get_row_ok _ _ _ _ _ (reach_inv H R) K) as (_ & I2 & I3 & I4). split; [exact I2|]. split; [exact I3|]. split; [|exact I4]. intros m' p' r0. exact (get_row_keeps _ _ _ _ _ _ _ _ K).
Qed.

Theorem matrix_get H m p r a : mreach H -> is_row H m p r -> exists M H', view H m = Some M /\
  mstep H (MGet r a) = Some (MNum (fst (cm_get M p a)), H') /\ view H' m = Some (snd (cm_get M p a)) /\ only m H H' /\
  forall m' p' r', is_row H m' p' r' -> is_row H' m' p' r'.
Proof.
  intros R Hr. destruct (get_cell_ok H m p r a (reach_inv H R) Hr) as (v & H' & M & E & _ & Rows & O & V & C & N). exists M, H'. split; [exact V|]. cbn. rewrite E, C. cbn.
  split; [reflexivity|]. split; [destruct (view H' m); [reflexivity|contradiction]|]. split; [exact O|]. intros m' p' r'. apply Rows.
Qed.

Theorem matrix_set H m p r a v : mreach H -> is_row H m p r -> exists M H', view H m = Some M /\
  mstep H (MSet r a v) = Some (MNone, H') /\ view H' m = Some (cm_set M p a v) /\ only m H H' /\
  forall m' p' r', is_row H m' p' r' -> is_row H' m' p' r'.
Proof.
  intros R Hr. destruct (set_cell_ok H m p r a v (reach_inv H R) Hr) as (H' & M & E & O & V & V'). exists M, H'. split; [exact V|]. cbn. rewrite E.
  split; [reflexivity|]. split; [exact V'|]. split; [exact O|]. intros m' p' r'. apply (set_cell_rows _ _ _ _ _ E).
Qed.

Theorem matrix_classes H m s H' : mreach H -> mstep H (MClasses m) = Some (MRef s, H') ->
  only m H H' /\ (forall m' p' r', is_row H m' p' r' -> is_row H' m' p' r') /\
  exists M, view H m = Some M /\ view H' m = Some (snd (cm_get_classes M)) /\ mh_sets H' !! s = Some (fst (cm_get_classes M)).
Proof.
  intros R E. cbn in E. destruct (get_classes H m) as [[s' H1]|] eqn:K; [|discriminate E]. injection E as -> ->.
  destruct (get_classes_ok _ _ _ _ (reach_inv H R) K) as (_ & O & Rows & _ & M & V1 & V2 & V3 & _). split; [exact O|]. split; [intros m' p' r'; apply Rows|]. exists M. auto.
Qed.

(** Sets once returned are changed by their holders only. *)
Theorem set_stable H op o H' s c : mreach H -> mstep H op = Some (o, H') -> (forall x, op <> MAdd s x) ->
  mh_sets H !! s = Some c -> mh_sets H' !! s = Some c.
Proof.
  intros R E N K. pose proof (reach_inv H R) as I. destruct op; cbn in E.
  - injection E as <- <-. exact K.
  - unfold get_row in E. destruct (mh_mats H !! m) as [q|]; [|discriminate E]. cbn in E. destruct (mo_rows q !! p); cbn in E; injection E as <- <-; exact K.
  - unfold get_cell, set_cell in E. destruct (mh_rows H !! r) as [x|]; [|discriminate E]. cbn in E. destruct (ro_cells x !! a); [injection E as <- <-; exact K|].
    destruct (mh_mats H !! ro_parent x); [|discriminate E]. injection E as <- <-. exact K.
  - unfold set_cell in E. destruct (mh_rows H !! r) as [x|]; [|discriminate E]. cbn in E. destruct (mh_mats H !! ro_parent x); [|discriminate E]. injection E as <- <-. exact K.
  - destruct (get_classes H m) as [[s' H1]|] eqn:Q; [|discriminate E]. injection E as <- <-. destruct (get_classes_ok _ _ _ _ I Q) as (_ & _ & _ & S & _). exact (S _ _ K).
  - destruct (mh_sets H !! s0); [|discriminate E]. injection E as <- <-. exact K.
  - destruct (mh_sets H !! s0) as [old|]; [|discriminate E]. injection E as <- <-. cbn. rewrite list_lookup_insert_ne; [exact K|]. intros ->. exact (N c0 eq_refl).
  - destruct (mh_mats H !! m) as [q|]; [|discriminate E]. cbn in E. destruct (mo_rows q !! p); injection E as <- <-; exact K.
  - destruct (mh_rows H !! r) as [x|]; [|discriminate E]. cbn in E. destruct (ro_cells x !! a); injection E as <- <-; exact K.
Qed.

(** After a write the classes are right whatever happened before, and the set is a new one. *)
Theorem classes_recover H m : mreach H -> forall M, view H m = Some M -> cm_dirty M = true ->
  exists s H', mstep H (MClasses m) = Some (MRef s, H') /\ mh_sets H !! s = None /\ mh_sets H' !! s = Some (cm_keys (cm_rows M)).
Proof.
  intros R M V D. cbn. destruct (get_classes H m) as [[s H']|] eqn:Q.
  - destruct (get_classes_ok _ _ _ _ (reach_inv H R) Q) as (_ & _ & _ & _ & M' & V1 & _ & V3 & V4). assert (M' = M) as -> by congruence.
    exists s, H'. split; [reflexivity|]. split; [exact (V4 D)|]. rewrite V3. unfold cm_get_classes. rewrite D. reflexivity.
  - exfalso. unfold get_classes, view in *. destruct (mh_mats H !! m) as [q|]; [|discriminate V]. cbn in Q. destruct (mo_dirty q); discriminate Q.
Qed.

(** ** Programs on several matrices *)

Section Programs.
Context (A : arith).

Lemma row_twice M p : cm_row (snd (cm_row M p)) p = cm_row M p.
Proof. unfold cm_row. destruct (cm_rows M !! p) as [r|] eqn:Z; cbn [snd]; [rewrite Z; reflexivity|]. cbn [cm_rows]. rewrite lookup_insert. reflexivity. Qed.

Lemma set_twice M p a v : cm_set (snd (cm_row M p)) p a v = cm_set M p a v.
Proof. unfold cm_set. rewrite row_twice. reflexivity. Qed.

Lemma get_twice M p a : cm_get M p a = cm_get (snd (cm_row M p)) p a.
Proof. unfold cm_get. rewrite row_twice. destruct (cm_row M p) as [r M'] eqn:Z. assert (M' = snd (cm_row M p)) as -> by (rewrite Z; reflexivity). rewrite ?set_twice. reflexivity. Qed.

Lemma dos H m op H' : minv H -> heap_do A H (POp m op) = Some H' ->
  minv H' /\ length (mh_mats H') = length (mh_mats H) /\ only m H H' /\ exists M, view H m = Some M /\ view H' m = Some (cm_do A M op).
Proof.
  assert (LR : forall H m p r H', get_row H m p = Some (r, H') -> length (mh_mats H') = length (mh_mats H)).
  { clear. intros H m p r H' E. unfold get_row in E. destruct (mh_mats H !! m) as [o|]; [|discriminate E]. cbn in E. destruct (mo_rows o !! p); injection E as <- <-; [reflexivity|apply insert_length]. }
  assert (LS : forall H r a v H', set_cell H r a v = Some H' -> length (mh_mats H') = length (mh_mats H)).
  { clear. intros H r a v H' E. unfold set_cell in E. destruct (mh_rows H !! r) as [x|]; [|discriminate E]. cbn in E. destruct (mh_mats H !! ro_parent x); [|discriminate E]. injection E as <-. apply insert_length. }
  assert (LG : forall H r a v H', get_cell H r a = Some (v, H') -> length (mh_mats H') = length (mh_mats H)).
  { clear - LS. intros H r a v H' E. unfold get_cell in E. destruct (mh_rows H !! r) as [x|]; [|discriminate E]. cbn in E. destruct (ro_cells x !! a); [injection E as <- <-; reflexivity|].
    destruct (set_cell H r a (NInt 0)) eqn:K; [|discriminate E]. injection E as <- <-. exact (LS _ _ _ _ _ K). }
  assert (OT : forall H1 H2 H3, only m H1 H2 -> only m H2 H3 -> only m H1 H3).
  { intros H1 H2 H3 O1 O2 m' D. rewrite (O2 m' D). exact (O1 m' D). }
  intros I E. destruct op as [p|p a|p a v|p a v|]; cbn in E.
  - destruct (get_row H m p) as [[r H1]|] eqn:K; [|discriminate E]. injection E as <-. destruct (get_row_ok _ _ _ _ _ I K) as (I1 & _ & O & M & V1 & V2).
    split; [exact I1|]. split; [exact (LR _ _ _ _ _ K)|]. split; [exact O|]. exists M. auto.
  - destruct (get_row H m p) as [[r H1]|] eqn:K; [|discriminate E]. cbn in E. destruct (get_row_ok _ _ _ _ _ I K) as (I1 & Hr & O & M & V1 & V2).
    destruct (get_cell_ok H1 m p r a I1 Hr) as (v & H2 & M1 & E2 & I2 & _ & O2 & V3 & C & N). rewrite E2 in E. injection E as <-.
    split; [exact I2|]. split; [rewrite (LG _ _ _ _ _ E2); exact (LR _ _ _ _ _ K)|]. split; [exact (OT _ _ _ O O2)|]. exists M. split; [exact V1|]. cbn [cm_do].
    assert (M1 = snd (cm_row M p)) as -> by congruence. pose proof (get_twice M p a) as G.
    rewrite G, C. cbn. destruct (view H2 m); [reflexivity|contradiction].
  - destruct (get_row H m p) as [[r H1]|] eqn:K; [|discriminate E]. cbn in E. destruct (get_row_ok _ _ _ _ _ I K) as (I1 & Hr & O & M & V1 & V2).
    destruct (set_cell_ok H1 m p r a v I1 Hr) as (H2 & M1 & E2 & O2 & V3 & V4). assert (H2 = H') as -> by congruence.
    split; [exact (set_cell_inv _ _ _ _ _ I1 E2)|]. split; [rewrite (LS _ _ _ _ _ E2); exact (LR _ _ _ _ _ K)|]. split; [exact (OT _ _ _ O O2)|]. exists M. split; [exact V1|]. cbn [cm_do].
    assert (M1 = snd (cm_row M p)) as -> by congruence. rewrite V4. f_equal. exact (set_twice M p a v).
  - destruct (get_row H m p) as [[r H1]|] eqn:K; [|discriminate E]. cbn in E. destruct (get_row_ok _ _ _ _ _ I K) as (I1 & Hr & O & M & V1 & V2).
    destruct (get_cell_ok H1 m p r a I1 Hr) as (old & H2 & M1 & E2 & I2 & Rows & O2 & V3 & C & N). rewrite E2 in E. cbn in E.
    assert (M1 = snd (cm_row M p)) as -> by congruence. pose proof (get_twice M p a) as G.
    destruct (view H2 m) as [M2|] eqn:V5; [|contradiction].
    assert (D : cm_do A M (OAdd p a v) = match nadd A old v with Ok new => cm_set M2 p a new | Err _ => M2 end).
    { cbn [cm_do]. unfold cm_add. rewrite G, C. cbn. destruct (nadd A old v); reflexivity. }
    destruct (nadd A old v) as [new|e].
    + apply Rows in Hr. destruct (set_cell_ok H2 m p r a new I2 Hr) as (H3 & M3 & E3 & O3 & V6 & V7). assert (H3 = H') as -> by congruence. assert (M3 = M2) as -> by congruence.
      split; [exact (set_cell_inv _ _ _ _ _ I2 E3)|]. split; [rewrite (LS _ _ _ _ _ E3), (LG _ _ _ _ _ E2); exact (LR _ _ _ _ _ K)|]. split; [exact (OT _ _ _ (OT _ _ _ O O2) O3)|]. exists M. rewrite D. auto.
    + injection E as <-. split; [exact I2|]. split; [rewrite (LG _ _ _ _ _ E2); exact (LR _ _ _ _ _ K)|]. split; [exact (OT _ _ _ O O2)|]. exists M. rewrite D. auto.
  - destruct (get_classes H m) as [[s H1]|] eqn:K; [|discriminate E]. injection E as <-. destruct (get_classes_ok _ _ _ _ I K) as (I1 & O & _ & _ & M & V1 & V2 & _).
    split; [exact I1|]. split; [|split; [exact O|exists M; auto]]. unfold get_classes in K. destruct (mh_mats H !! m) as [o|]; [|discriminate K]. cbn in K. destruct (mo_dirty o); injection K as <- <-; [apply insert_length|reflexivity].
Qed.

(** The class attribute is never touched. *)
Lemma do_set0 H q H' : heap_do A H q = Some H' -> (0 < length (mh_sets H))%nat -> mh_sets H' !! 0%nat = mh_sets H !! 0%nat.
Proof.
  assert (SR : forall H m p r H', get_row H m p = Some (r, H') -> mh_sets H' = mh_sets H).
  { clear. intros H m p r H' E. unfold get_row in E. destruct (mh_mats H !! m) as [o|]; [|discriminate E]. cbn in E. destruct (mo_rows o !! p); injection E as <- <-; reflexivity. }
  assert (SS : forall H r a v H', set_cell H r a v = Some H' -> mh_sets H' = mh_sets H).
  { clear. intros H r a v H' E. unfold set_cell in E. destruct (mh_rows H !! r) as [x|]; [|discriminate E]. cbn in E. destruct (mh_mats H !! ro_parent x); [|discriminate E]. injection E as <-. reflexivity. }
  assert (SG : forall H r a v H', get_cell H r a = Some (v, H') -> mh_sets H' = mh_sets H).
  { clear - SS. intros H r a v H' E. unfold get_cell in E. destruct (mh_rows H !! r) as [x|]; [|discriminate E]. cbn in E. destruct (ro_cells x !! a); [injection E as <- <-; reflexivity|].
    destruct (set_cell H r a (NInt 0)) eqn:K; [|discriminate E]. injection E as <- <-. exact (SS _ _ _ _ _ K). }
  intros E L. destruct q as [|m [p|p a|p a v|p a v|]]; cbn in E.
  - injection E as <-. reflexivity.
  - destruct (get_row H m p) as [[r H1]|] eqn:K; [|discriminate E]. injection E as <-. rewrite (SR _ _ _ _ _ K). reflexivity.
  - destruct (get_row H m p) as [[r H1]|] eqn:K; [|discriminate E]. cbn in E. destruct (get_cell H1 r a) as [[v H2]|] eqn:K2; [|discriminate E]. injection E as <-. rewrite (SG _ _ _ _ _ K2), (SR _ _ _ _ _ K). reflexivity.
  - destruct (get_row H m p) as [[r H1]|] eqn:K; [|discriminate E]. cbn in E. rewrite (SS _ _ _ _ _ E), (SR _ _ _ _ _ K). reflexivity.
  - destruct (get_row H m p) as [[r H1]|] eqn:K; [|discriminate E]. cbn in E. destruct (get_cell H1 r a) as [[old H2]|] eqn:K2; [|discriminate E]. cbn in E.
    destruct (nadd A old v); [rewrite (SS _ _ _ _ _ E)|injection E as <-]; rewrite (SG _ _ _ _ _ K2), (SR _ _ _ _ _ K); reflexivity.
  - destruct (get_classes H m) as [[s H1]|] eqn:K; [|discriminate E]. injection E as <-. unfold get_classes in K. destruct (mh_mats H !! m) as [o|]; [|discriminate K]. cbn in K. destruct (mo_dirty o); injection K as <- <-; [cbn; apply lookup_app_l; exact L|reflexivity].
Qed.

Lemma run_views l : forall H H', minv H -> mh_sets H !! 0%nat = Some ∅ -> heap_run A H l = Some H' ->
  minv H' /\ length (mh_mats H') = (length (mh_mats H) + made l)%nat /\
  forall m, (m < length (mh_mats H'))%nat ->
    view H' m = Some (foldl (cm_do A) (match view H m with Some M => M | None => cm_empty end) (ops_on m l)).
Proof.
  induction l as [|q l IH]; intros H H' I Z E.
  - cbn in E. injection E as <-. split; [exact I|]. split; [unfold made; cbn; lia|]. intros m L. cbn. unfold view. apply lookup_lt_is_Some_2 in L as [o ->]. reflexivity.
  - cbn in E. destruct (heap_do A H q) as [H1|] eqn:K; [|discriminate E]. cbn in E.
    assert (Z1 : mh_sets H1 !! 0%nat = Some ∅) by (rewrite (do_set0 H q H1 K); [exact Z|apply lookup_lt_Some in Z; exact Z]).
    destruct q as [|m0 op].
    + cbn in K. injection K as <-. destruct (new_ok H I) as (I1 & _ & V1 & V2). cbn zeta in *. destruct (IH _ _ I1 Z1 E) as (I2 & L2 & V3).
      split; [exact I2|]. unfold made in *. cbn [omap list_omap length] in *. cbn [mh_mats] in L2. rewrite app_length in L2. cbn [length] in L2. split; [lia|]. intros m L. rewrite (V3 m L). f_equal. cbn [ops_on omap list_omap]. fold (ops_on m l).
      destruct (decide (m < length (mh_mats H))%nat) as [D|D]; [rewrite (V1 m D); reflexivity|]. f_equal.
      assert (N : view H m = None) by (unfold view; rewrite lookup_ge_None_2 by lia; reflexivity). rewrite N.
      destruct (decide (m = length (mh_mats H))) as [->|D']; [rewrite V2, Z; reflexivity|]. unfold view. rewrite lookup_ge_None_2; [reflexivity|]. cbn. rewrite app_length. cbn. lia.
    + destruct (dos _ _ _ _ I K) as (I1 & L1 & O & M & V1 & V2). destruct (IH _ _ I1 Z1 E) as (I2 & L2 & V3). split; [exact I2|]. split; [unfold made in *; cbn [omap list_omap]; lia|].
      intros m L. rewrite (V3 m L). f_equal. unfold ops_on. cbn [omap list_omap]. fold (ops_on m l). destruct (decide (m0 = m)) as [->|D].
      * cbn [foldl]. rewrite V1, V2. reflexivity.
      * rewrite (O m) by congruence. reflexivity.
Qed.

Theorem matrices_independent l H : heap_run A mh0 l = Some H -> forall m,
  view H m = if decide (m < made l)%nat then Some (cm_run A (ops_on m l)) else None.
Proof.
  intros E m. destruct (run_views l mh0 H inv0 eq_refl E) as (_ & L & V). cbn in L. destruct (decide (m < made l)%nat) as [D|D].
  - rewrite V by lia. reflexivity.
  - unfold view. rewrite lookup_ge_None_2 by lia. reflexivity.
Qed.

Lemma do_defined H m op : minv H -> (m < length (mh_mats H))%nat -> exists H', heap_do A H (POp m op) = Some H'.
Proof.
  intros I L. apply lookup_lt_is_Some_2 in L as [o Ho].
  assert (GR : forall p, exists r H1, get_row H m p = Some (r, H1)) by (intros p; unfold get_row; rewrite Ho; cbn; destruct (mo_rows o !! p); eauto).
  destruct op as [p|p a|p a v|p a v|]; cbn.
  - destruct (GR p) as (r & H1 & ->). cbn. eauto.
  - destruct (GR p) as (r & H1 & E). rewrite E. cbn. destruct (get_row_ok _ _ _ _ _ I E) as (I1 & Hr & _). destruct (get_cell_ok H1 m p r a I1 Hr) as (x & H2 & M1 & -> & _). cbn. eauto.
  - destruct (GR p) as (r & H1 & E). rewrite E. cbn. destruct (get_row_ok _ _ _ _ _ I E) as (I1 & Hr & _). destruct (set_cell_ok H1 m p r a v I1 Hr) as (H2 & M1 & -> & _). eauto.
  - destruct (GR p) as (r & H1 & E). rewrite E. cbn. destruct (get_row_ok _ _ _ _ _ I E) as (I1 & Hr & _). destruct (get_cell_ok H1 m p r a I1 Hr) as (x & H2 & M1 & -> & I2 & Rows & _). cbn.
    destruct (nadd A x v); [|eauto]. apply Rows in Hr. destruct (set_cell_ok H2 m p r a a0 I2 Hr) as (H3 & M3 & -> & _). eauto.
  - unfold get_classes. rewrite Ho. cbn. destruct (mo_dirty o); cbn; eauto.
Qed.

Theorem run_defined l : forall H, minv H -> well_named (length (mh_mats H)) l -> exists H', heap_run A H l = Some H'.
Proof.
  induction l as [|q l IH]; intros H I W; [eexists; reflexivity|]. destruct q as [|m op].
  - cbn. apply IH; [exact (proj1 (new_ok H I))|]. cbn. rewrite app_length, Nat.add_comm. exact W.
  - destruct W as [L W]. destruct (do_defined H m op I L) as [H1 E]. cbn [heap_run]. rewrite E. cbn. destruct (dos _ _ _ _ I E) as (I1 & L1 & _). apply IH; [exact I1|]. rewrite L1. exact W.
Qed.
End Programs.

Theorem programs_run A l : well_named 0 l -> exists H, heap_run A mh0 l = Some H.
Proof. intros W. exact (run_defined A l mh0 inv0 W). Qed.
