(** Deletions from confusion matrices. *)
From Verif Require Import SpecMatrix MatrixMain.
Open Scope Z_scope.

Theorem delete_row H m p M : mreach H -> view H m = Some M ->
  (cm_rows M !! p = None -> mstep H (MDelRow m p) = Some (MExc KeyError, H)) /\
  (cm_rows M !! p <> None -> exists H', mstep H (MDelRow m p) = Some (MNone, H') /\
     view H' m = Some (CM (delete p (cm_rows M)) (cm_classes M) (cm_dirty M)) /\ only m H H' /\
     (forall r, row_cells H' r = row_cells H r) /\ forall r, is_row H m p r -> forall m' p', ~ is_row H' m' p' r).
Proof.
  intros R V. pose proof (reach_inv H R) as I. unfold view in V. destruct (mh_mats H !! m) as [o|] eqn:Ho; [|discriminate V]. cbn in V. injection V as <-.
  assert (L : (m < length (mh_mats H))%nat) by (eapply lookup_lt_Some; exact Ho).
  cbn [cm_rows cm_classes cm_dirty]. rewrite lookup_fmap. cbn. rewrite Ho. cbn. destruct (mo_rows o !! p) as [r|] eqn:Hp; cbn; (split; [intros K|intros K]); [discriminate K| |reflexivity|congruence].
  eexists. split; [reflexivity|]. split; [|split; [|split; [reflexivity|]]].
  - unfold view. cbn [mh_mats]. rewrite list_lookup_insert by exact L. cbn. do 2 f_equal. rewrite fmap_delete. reflexivity.
  - intros m' D. unfold view. cbn [mh_mats]. rewrite list_lookup_insert_ne by congruence. reflexivity.
  - intros r' (o' & E1 & E2) m' p' (o2 & E3 & E4). assert (o' = o) as -> by congruence. assert (r' = r) as -> by congruence. cbn in E3.
    destruct (decide (m' = m)) as [->|D].
    + rewrite list_lookup_insert in E3 by exact L. injection E3 as <-. cbn in E4. apply lookup_delete_Some in E4 as [D E4]. apply D.
      apply (inv_inj H I m p p' r); exists o; auto.
    + rewrite list_lookup_insert_ne in E3 by congruence. destruct (inv_parent H I m p r ltac:(exists o; auto)) as (x & X1 & X2).
      destruct (inv_parent H I m' p' r ltac:(exists o2; auto)) as (y & Y1 & Y2). congruence.
Qed.

Theorem delete_cell H m p r a M row : mreach H -> is_row H m p r -> view H m = Some M -> cm_rows M !! p = Some row ->
  (row !! a = None -> mstep H (MDelCell r a) = Some (MExc KeyError, H)) /\
  (row !! a <> None -> exists H', mstep H (MDelCell r a) = Some (MNone, H') /\
     view H' m = Some (CM (<[p := delete a row]> (cm_rows M)) (cm_classes M) (cm_dirty M)) /\ only m H H' /\
     forall m' p' r', is_row H' m' p' r' <-> is_row H m' p' r').
Proof.
  intros R Hr V Hrow. pose proof (reach_inv H R) as I. destruct (inv_parent H I _ _ _ Hr) as (x & Hx & Px). destruct Hr as (o & Ho & Hp).
  unfold view in V. rewrite Ho in V. cbn in V. injection V as <-. cbn [cm_rows cm_classes cm_dirty] in *. rewrite lookup_fmap, Hp in Hrow. cbn in Hrow.
  unfold row_cells in Hrow. rewrite Hx in Hrow. injection Hrow as <-. cbn. rewrite Hx. cbn.
  assert (Lr : (r < length (mh_rows H))%nat) by (eapply lookup_lt_Some; exact Hx).
  destruct (ro_cells x !! a) as [v|] eqn:Ha; cbn; (split; [intros K|intros K]); [discriminate K| |reflexivity|congruence].
  set (H' := MH (mh_mats H) (<[r := RObj (ro_parent x) (delete a (ro_cells x))]> (mh_rows H)) (mh_sets H)).
  assert (C : forall r', r' <> r -> row_cells H' r' = row_cells H r').
  { intros r' D. unfold row_cells. cbn. rewrite list_lookup_insert_ne by congruence. reflexivity. }
  exists H'. split; [reflexivity|]. split; [|split; [|reflexivity]].
  - unfold view. cbn [mh_mats H']. rewrite Ho. cbn [mbind option_bind]. do 2 f_equal. apply map_eq. intros p'. destruct (decide (p' = p)) as [->|D].
    + rewrite lookup_fmap, Hp, lookup_insert. cbn. f_equal. unfold row_cells. cbn. rewrite list_lookup_insert by exact Lr. reflexivity.
    + rewrite lookup_insert_ne by congruence. rewrite !lookup_fmap. destruct (mo_rows o !! p') as [r'|] eqn:Hr'; [|reflexivity]. cbn. f_equal. apply C. intros ->. apply D.
      apply (inv_inj H I m p' p r); exists o; auto.
  - intros m' D. unfold view. cbn [mh_mats H']. destruct (mh_mats H !! m') as [o'|] eqn:Hm'; [|reflexivity]. cbn. do 2 f_equal.
    apply map_eq. intros p'. rewrite !lookup_fmap. destruct (mo_rows o' !! p') as [r'|] eqn:Hr'; [|reflexivity]. cbn. f_equal. apply C. intros ->.
    destruct (inv_parent H I m' p' r ltac:(exists o'; auto)) as (y & Hy & Py). assert (y = x) as -> by congruence. congruence.
Qed.

(** A row that is in no matrix any more. *)
Theorem orphan_set H r x a v : mreach H -> mh_rows H !! r = Some x -> (forall m p, ~ is_row H m p r) ->
  exists H', mstep H (MSet r a v) = Some (MNone, H') /\ forall m M, view H m = Some M ->
    view H' m = Some (CM (cm_rows M) (cm_classes M) (if decide (m = ro_parent x) then true else cm_dirty M)).
Proof.
  intros R Hx N. pose proof (reach_inv H R) as I. pose proof (inv_row H I r x Hx) as L. pose proof L as L'. apply lookup_lt_is_Some_2 in L' as [o Ho].
  cbn. unfold set_cell. rewrite Hx. cbn. rewrite Ho. cbn. eexists. split; [reflexivity|]. intros m M V.
  set (H' := MH _ _ _).
  assert (C : forall o' m', mh_mats H !! m' = Some o' -> row_cells H' <$> mo_rows o' = row_cells H <$> mo_rows o').
  { intros o' m' K. apply map_eq. intros p'. rewrite !lookup_fmap. destruct (mo_rows o' !! p') as [r'|] eqn:Hr'; [|reflexivity]. cbn. f_equal.
    unfold row_cells. cbn. rewrite list_lookup_insert_ne; [reflexivity|]. intros ->. apply (N m' p'). exists o'. auto. }
  unfold view in *. cbn [mh_mats H']. destruct (decide (m = ro_parent x)) as [->|D].
  - rewrite list_lookup_insert by exact L. rewrite Ho in V. cbn in V. injection V as <-. cbn. rewrite (C o _ Ho). reflexivity.
  - rewrite list_lookup_insert_ne by congruence. destruct (mh_mats H !! m) as [o'|] eqn:Hm; [|discriminate V]. cbn in V |- *. injection V as <-. cbn. rewrite (C o' _ Hm). reflexivity.
Qed.
