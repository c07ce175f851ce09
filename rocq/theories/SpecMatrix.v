(** Specification for confusion matrices as objects. *)
From Verif Require Export SpecML MatrixHeap.
Open Scope Z_scope.

(** What a matrix object amounts to as a value. *)
Definition view (H : mheap) (m : nat) : option cmatrix :=
  o ← mh_mats H !! m;
  Some (CM (row_cells H <$> mo_rows o)
           (match mh_sets H !! default 0%nat (mo_classes o) with Some s => s | None => ∅ end) (mo_dirty o)).

(** Row object [r] is [m[p]]. *)
Definition is_row (H : mheap) (m : nat) (p : label) (r : nat) : Prop :=
  exists o, mh_mats H !! m = Some o /\ mo_rows o !! p = Some r.

(** The other matrices keep their value. *)
Definition only (m : nat) (H H' : mheap) : Prop := forall m', m' <> m -> view H' m' = view H m'.

(** The heaps a program can reach. *)
Inductive mreach : mheap -> Prop :=
  | Reach_start : mreach mh0
  | Reach_step H op o H' : mreach H -> mstep H op = Some (o, H') -> mreach H'.

(** Operations on several matrices: make one, or operate on number [m]. *)
Inductive pop := PNew | POp (m : nat) (op : cm_op).

(** What [matrix[p][a]], [+=] and so on do to the objects; the sum may raise,
    as in [cm_do]. *)
Definition heap_do (A : arith) (H : mheap) (q : pop) : option mheap :=
  match q with
  | PNew => snd <$> mstep H MNew
  | POp m (ORow p) => snd <$> get_row H m p
  | POp m (OGet p a) => '(r, H) ← get_row H m p; snd <$> get_cell H r a
  | POp m (OSet p a v) => '(r, H) ← get_row H m p; set_cell H r a v
  | POp m (OAdd p a v) =>
    '(r, H) ← get_row H m p; '(old, H) ← get_cell H r a;
    match nadd A old v with Ok new => set_cell H r a new | Err _ => Some H end
  | POp m OClasses => snd <$> get_classes H m
  end.

Fixpoint heap_run (A : arith) (H : mheap) (l : list pop) : option mheap :=
  match l with
  | [] => Some H
  | q :: l => H' ← heap_do A H q; heap_run A H' l
  end.

(** The operations on matrix [m], and how many matrices are made. *)
Definition ops_on (m : nat) (l : list pop) : list cm_op :=
  omap (fun q => match q with POp m' op => if decide (m' = m) then Some op else None | PNew => None end) l.
Definition made (l : list pop) : nat := length (omap (fun q => match q with PNew => Some tt | POp _ _ => None end) l).

(** Every matrix is made before it is used; [n] exist already. *)
Fixpoint well_named (n : nat) (l : list pop) : Prop :=
  match l with
  | [] => True
  | PNew :: l => well_named (S n) l
  | POp m _ :: l => (m < n)%nat /\ well_named n l
  end.
