(** Model of confusion matrices as objects (segeval/ml/__init__.py:190-252).
    [ML.v] treats a matrix as a value.  Here its rows and its cached set of
    classes are objects that a caller can hold, share and change. *)
From Verif Require Export ML.
Open Scope Z_scope.

(** ml/__init__.py:206-252 [ConfusionMatrix]: the row objects by key; the
    instance attribute [__classes__] ([None]: not set, so that the attribute of
    the class is found, line 213); [__dirty_classes__]. *)
Record mobj := MObj { mo_rows : gmap label nat; mo_classes : option nat; mo_dirty : bool }.

(** ml/__init__.py:190-203 [_InnerConfusionMatrix]: the parent and the cells. *)
Record robj := RObj { ro_parent : nat; ro_cells : gmap label num }.

(** The objects, by number; set 0 is the class attribute [__classes__] (line 213). *)
Record mheap := MH { mh_mats : list mobj; mh_rows : list robj; mh_sets : list (gset label) }.

Definition mh0 : mheap := MH [] [] [∅].

(** What a caller can do. *)
Inductive mop :=
  | MNew                                   (* ConfusionMatrix() *)
  | MRow (m : nat) (p : label)             (* m[p] *)
  | MGet (r : nat) (a : label)             (* row[a] *)
  | MSet (r : nat) (a : label) (v : num)   (* row[a] = v *)
  | MClasses (m : nat)                     (* m.classes() *)
  | MRead (s : nat)                        (* looking at a set *)
  | MAdd (s : nat) (c : label)             (* s.add(c) *)
  | MDelRow (m : nat) (p : label)          (* del m[p] *)
  | MDelCell (r : nat) (a : label).        (* del row[a] *)

Inductive mout := MRef (i : nat) | MNum (v : num) | MClassSet (s : gset label) | MNone | MExc (e : exn).

(** ml/__init__.py:201-203 [__setitem__]: the parent becomes dirty. *)
Definition set_cell (H : mheap) (r : nat) (a : label) (v : num) : option mheap :=
  x ← mh_rows H !! r;
  o ← mh_mats H !! ro_parent x;
  Some (MH (<[ro_parent x := MObj (mo_rows o) (mo_classes o) true]> (mh_mats H))
           (<[r := RObj (ro_parent x) (<[a := v]> (ro_cells x))]> (mh_rows H)) (mh_sets H)).

(** ml/__init__.py:218-239 [__getitem__]. *)
Definition get_row (H : mheap) (m : nat) (p : label) : option (nat * mheap) :=
  o ← mh_mats H !! m;
  match mo_rows o !! p with
  | Some r => Some (r, H)
  | None => Some (length (mh_rows H),
      MH (<[m := MObj (<[p := length (mh_rows H)]> (mo_rows o)) (mo_classes o) (mo_dirty o)]> (mh_mats H))
         (mh_rows H ++ [RObj m ∅]) (mh_sets H))
  end.

(** [row[a]]: defaultdict.__missing__ stores [int()] through [__setitem__]. *)
Definition get_cell (H : mheap) (r : nat) (a : label) : option (num * mheap) :=
  x ← mh_rows H !! r;
  match ro_cells x !! a with
  | Some v => Some (v, H)
  | None => H' ← set_cell H r a (NInt 0); Some (NInt 0, H')
  end.

(** The cells of a row object. *)
Definition row_cells (H : mheap) (r : nat) : gmap label num :=
  match mh_rows H !! r with Some x => ro_cells x | None => ∅ end.

(** ml/__init__.py:241-252 [classes]: a new set if dirty. *)
Definition get_classes (H : mheap) (m : nat) : option (nat * mheap) :=
  o ← mh_mats H !! m;
  if mo_dirty o then
    Some (length (mh_sets H),
      MH (<[m := MObj (mo_rows o) (Some (length (mh_sets H))) false]> (mh_mats H)) (mh_rows H)
         (mh_sets H ++ [cm_keys (row_cells H <$> mo_rows o)]))
  else Some (default 0%nat (mo_classes o), H).

(** One operation; [None]: it refers to an object that does not exist.
    Deletions are those of dict, which [ConfusionMatrix] inherits. *)
Definition mstep (H : mheap) (op : mop) : option (mout * mheap) :=
  match op with
  | MNew => Some (MRef (length (mh_mats H)), MH (mh_mats H ++ [MObj ∅ None false]) (mh_rows H) (mh_sets H))
  | MRow m p => '(r, H') ← get_row H m p; Some (MRef r, H')
  | MGet r a => '(v, H') ← get_cell H r a; Some (MNum v, H')
  | MSet r a v => H' ← set_cell H r a v; Some (MNone, H')
  | MClasses m => '(s, H') ← get_classes H m; Some (MRef s, H')
  | MRead s => c ← mh_sets H !! s; Some (MClassSet c, H)
  | MAdd s c => old ← mh_sets H !! s; Some (MNone, MH (mh_mats H) (mh_rows H) (<[s := {[c]} ∪ old]> (mh_sets H)))
  | MDelRow m p =>
    o ← mh_mats H !! m;
    match mo_rows o !! p with
    | Some _ => Some (MNone, MH (<[m := MObj (delete p (mo_rows o)) (mo_classes o) (mo_dirty o)]> (mh_mats H)) (mh_rows H) (mh_sets H))
    | None => Some (MExc KeyError, H)
    end
  | MDelCell r a =>
    x ← mh_rows H !! r;
    match ro_cells x !! a with
    | Some _ => Some (MNone, MH (mh_mats H) (<[r := RObj (ro_parent x) (delete a (ro_cells x))]> (mh_rows H)) (mh_sets H))
    | None => Some (MExc KeyError, H)
    end
  end.

Fixpoint msteps (H : mheap) (l : list mop) : option (list mout * mheap) :=
  match l with
  | [] => Some ([], H)
  | op :: l => '(o, H') ← mstep H op; '(os, H'') ← msteps H' l; Some (o :: os, H'')
  end.
