(** Specification for results before and after a dataset was saved and reloaded. *)
From Verif Require Export SpecData SpecDispatch.

(** The same items, and the same coding by every coder of every item, in whatever order. *)
Definition same_codings {C} (ia ib : dict (dict C)) : Prop :=
  (forall i, i ∈ ia.*1 <-> i ∈ ib.*1) /\ forall i c, coding_at ia i c = coding_at ib i c.

(** Both give the same value, if any. *)
Definition even_handed {C R} (metric : C -> C -> res R) (a b : C) : Prop := forall v, metric a b = Ok v <-> metric b a = Ok v.
