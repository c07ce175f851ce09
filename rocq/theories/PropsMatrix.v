(** Property C73: confusion matrices as objects that share state, with rows and
    class sets that callers keep (segeval/ml/__init__.py:190-252). *)
From Verif Require Import SpecMatrix MatrixMain MatrixDelete.
Open Scope Z_scope.

Definition la : label := Some 1.
Definition lb : label := Some 2.

(** Read every set a program returned as the list of its elements. *)
Definition shown (r : option (list mout * mheap)) : option (list (option (list label))) :=
  match r with
  | Some (os, _) => Some (map (fun o => match o with MClassSet c => Some (elements c) | _ => None end) os)
  | None => None
  end.

(** The outcomes of a program and the cells of matrix 0 after it. *)
Definition rows_of (r : option (list mout * mheap)) : option (list mout * list (label * list (label * num))) :=
  match r with
  | Some (os, H) => match view H 0 with Some M => Some (os, prod_map id map_to_list <$> map_to_list (cm_rows M)) | None => None end
  | None => None
  end.

(** ** Programs on several matrices: whatever the interleaving, each matrix
    holds what its own operations, run alone on a new matrix, would give. *)
Theorem C73_programs : forall A l, well_named 0 l -> exists H, heap_run A mh0 l = Some H.
Proof. exact programs_run. Qed.
Print Assumptions C73_programs.

Theorem C73_independent : forall A l H, heap_run A mh0 l = Some H -> forall m,
  view H m = if decide (m < made l)%nat then Some (cm_run A (ops_on m l)) else None.
Proof. exact matrices_independent. Qed.
Print Assumptions C73_independent.

(** Two matrices, four interleaved operations. *)
Definition interleaved : list pop :=
  [PNew; POp 0 (OAdd la lb (NInt 2)); PNew; POp 1 (OGet lb lb); POp 0 OClasses; POp 1 (OSet la la (NInt 7)); POp 0 (OAdd la lb (NInt 3))].
Example C73_programs_case : well_named 0 interleaved /\
  ops_on 0 interleaved = [OAdd la lb (NInt 2); OClasses; OAdd la lb (NInt 3)] /\
  match heap_run exactA mh0 interleaved with
  | Some H => Some (map (fun m => match view H m with Some M => (cell M la lb, cell M la la, elements (cm_classes M), cm_dirty M) | None => (NInt 0, NInt 0, [], false) end) [0%nat; 1%nat])
  | None => None
  end = Some [(NInt 5, NInt 0, [la; lb], true); (NInt 0, NInt 7, [], true)].
Proof. split; [cbn; lia|]. split; vm_compute; reflexivity. Qed.

(** ** Single steps, in any heap that any program can reach, including programs
    that add to returned sets or delete rows and cells. *)
Theorem C73_row : forall H m p r H', mreach H -> mstep H (MRow m p) = Some (MRef r, H') ->
  is_row H' m p r /\ only m H H' /\ (forall m' p' r', is_row H m' p' r' -> is_row H' m' p' r') /\
  exists M, view H m = Some M /\ view H' m = Some (snd (cm_row M p)).
Proof. exact matrix_row. Qed.
Print Assumptions C73_row.

(** A row kept by the caller reads and writes the matrix it came from. *)
Theorem C73_get : forall H m p r a, mreach H -> is_row H m p r -> exists M H', view H m = Some M /\
  mstep H (MGet r a) = Some (MNum (fst (cm_get M p a)), H') /\ view H' m = Some (snd (cm_get M p a)) /\ only m H H' /\
  forall m' p' r', is_row H m' p' r' -> is_row H' m' p' r'.
Proof. exact matrix_get. Qed.
Print Assumptions C73_get.

Theorem C73_set : forall H m p r a v, mreach H -> is_row H m p r -> exists M H', view H m = Some M /\
  mstep H (MSet r a v) = Some (MNone, H') /\ view H' m = Some (cm_set M p a v) /\ only m H H' /\
  forall m' p' r', is_row H m' p' r' -> is_row H' m' p' r'.
Proof. exact matrix_set. Qed.
Print Assumptions C73_set.

Theorem C73_classes : forall H m s H', mreach H -> mstep H (MClasses m) = Some (MRef s, H') ->
  only m H H' /\ (forall m' p' r', is_row H m' p' r' -> is_row H' m' p' r') /\
  exists M, view H m = Some M /\ view H' m = Some (snd (cm_get_classes M)) /\ mh_sets H' !! s = Some (fst (cm_get_classes M)).
Proof. exact matrix_classes. Qed.
Print Assumptions C73_classes.

(** ** Sets that were returned do not change behind the caller's back. *)
Theorem C73_snapshot : forall H op o H' s c, mreach H -> mstep H op = Some (o, H') -> (forall x, op <> MAdd s x) ->
  mh_sets H !! s = Some c -> mh_sets H' !! s = Some c.
Proof. exact set_stable. Qed.
Print Assumptions C73_snapshot.

(** A kept row and a kept set: the row writes to the matrix, the set stays as it
    was, and the next call returns another set. *)
Example C73_snapshot_case :
  shown (msteps mh0 [MNew; MRow 0 la; MSet 0 la (NInt 1); MClasses 0; MSet 0 lb (NInt 1); MRead 1; MClasses 0; MRead 1; MRead 2]) =
    Some [None; None; None; None; None; Some [la]; None; Some [la]; Some [la; lb]].
Proof. vm_compute. reflexivity. Qed.

(** ** After any write the classes are those of the cells, in a set nobody holds. *)
Theorem C73_recover : forall H m, mreach H -> forall M, view H m = Some M -> cm_dirty M = true ->
  exists s H', mstep H (MClasses m) = Some (MRef s, H') /\ mh_sets H !! s = None /\ mh_sets H' !! s = Some (cm_keys (cm_rows M)).
Proof. exact classes_recover. Qed.
Print Assumptions C73_recover.

(** ** Deletions.  An absent key is a KeyError and nothing changes; otherwise exactly that row
    is gone, and whoever kept it holds a row of no matrix. *)
Theorem C73_delete_row : forall H m p M, mreach H -> view H m = Some M ->
  (cm_rows M !! p = None -> mstep H (MDelRow m p) = Some (MExc KeyError, H)) /\
  (cm_rows M !! p <> None -> exists H', mstep H (MDelRow m p) = Some (MNone, H') /\
     view H' m = Some (CM (delete p (cm_rows M)) (cm_classes M) (cm_dirty M)) /\ only m H H' /\
     (forall r, row_cells H' r = row_cells H r) /\ forall r, is_row H m p r -> forall m' p', ~ is_row H' m' p' r).
Proof. exact delete_row. Qed.
Print Assumptions C73_delete_row.

Theorem C73_delete_cell : forall H m p r a M row, mreach H -> is_row H m p r -> view H m = Some M -> cm_rows M !! p = Some row ->
  (row !! a = None -> mstep H (MDelCell r a) = Some (MExc KeyError, H)) /\
  (row !! a <> None -> exists H', mstep H (MDelCell r a) = Some (MNone, H') /\
     view H' m = Some (CM (<[p := delete a row]> (cm_rows M)) (cm_classes M) (cm_dirty M)) /\ only m H H' /\
     forall m' p' r', is_row H' m' p' r' <-> is_row H m' p' r').
Proof. exact delete_cell. Qed.
Print Assumptions C73_delete_cell.

(** Writing to a row that was deleted changes no cell of any matrix; it only makes the
    matrix it came from work out its classes again. *)
Theorem C73_orphan : forall H r x a v, mreach H -> mh_rows H !! r = Some x -> (forall m p, ~ is_row H m p r) ->
  exists H', mstep H (MSet r a v) = Some (MNone, H') /\ forall m M, view H m = Some M ->
    view H' m = Some (CM (cm_rows M) (cm_classes M) (if decide (m = ro_parent x) then true else cm_dirty M)).
Proof. exact orphan_set. Qed.
Print Assumptions C73_orphan.

(** Row [la] is deleted and then written to by whoever kept it; deleting it again fails. *)
Example C73_delete_case :
  rows_of (msteps mh0 [MNew; MRow 0 la; MSet 0 la (NInt 1); MRow 0 lb; MSet 1 lb (NInt 2); MDelRow 0 la; MSet 0 la (NInt 3); MDelRow 0 la; MDelCell 1 la; MDelCell 1 lb]) =
    Some ([MRef 0; MRef 0; MNone; MRef 1; MNone; MNone; MNone; MExc KeyError; MExc KeyError; MNone], [(lb, [])]).
Proof. vm_compute. reflexivity. Qed.

(** ** What does not hold.  A class that a caller adds to the set of a matrix
    without any cells shows up in every other matrix without any cells, as both
    return the set of the class [ConfusionMatrix]. *)
Theorem C73_alias_refuted :
  shown (msteps mh0 [MNew; MNew; MClasses 0; MAdd 0 la; MClasses 1; MRead 0; MNew; MClasses 2; MRead 0]) =
    Some [None; None; None; None; None; Some [la]; None; None; Some [la]] /\
  match msteps mh0 [MNew; MNew; MClasses 0; MClasses 1] with Some (os, _) => Some os | None => None end = Some [MRef 0; MRef 1; MRef 0; MRef 0].
Proof. split; vm_compute; reflexivity. Qed.
Print Assumptions C73_alias_refuted.

(** Deleting a row or a cell does not mark the classes: the deleted class stays
    until the next write. *)
Theorem C73_delete_refuted :
  shown (msteps mh0 [MNew; MRow 0 la; MSet 0 la (NInt 1); MRow 0 lb; MSet 1 lb (NInt 1); MClasses 0; MDelRow 0 lb; MClasses 0; MRead 1;
                     MSet 0 la (NInt 2); MClasses 0; MRead 2]) =
    Some [None; None; None; None; None; None; None; None; Some [la; lb]; None; None; Some [la]].
Proof. vm_compute. reflexivity. Qed.
Print Assumptions C73_delete_refuted.
