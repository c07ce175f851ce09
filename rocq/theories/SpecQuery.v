(** Specification for the metrics on matrix objects. *)
From Verif Require Export SpecMatrix MatrixQuery.
Open Scope Z_scope.

(** An operation that only looks. *)
Definition looks (op : cm_op) : bool := match op with OGet _ _ | OClasses => true | _ => false end.

(** [M'] is [M] after somebody looked at cells and classes. *)
Definition looked_at (M M' : cmatrix) : Prop := exists ops, forallb looks ops = true /\ M' = foldl (cm_do exactA) M ops.

(** Nobody is disturbed: matrices were at most looked at, rows that callers keep
    are still rows, sets that callers keep are as they were. *)
Record undisturbed (H H' : mheap) : Prop := Undisturbed {
  und_mats : forall m M, view H m = Some M -> exists M', view H' m = Some M' /\ looked_at M M';
  und_none : forall m, view H m = None -> view H' m = None;
  und_rows : forall m p r, is_row H m p r -> is_row H' m p r;
  und_sets : forall s c, mh_sets H !! s = Some c -> mh_sets H' !! s = Some c
}.

(** The same metric in [ML.v]. *)
Definition kind_of (k : hkind) : kind :=
  match k with HPrecision => KPrecision | HRecall => KRecall | HFmeasure beta => KFmeasure beta end.
