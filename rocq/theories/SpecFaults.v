(** Specification for C54: an item whose codings can be read. *)
From Verif Require Export SpecData.

(** The item is an object of things that can be iterated over. *)
Definition fits (it : json) : Prop := exists cs, it = JObj cs /\ forall c v, (c, v) ∈ cs -> exists m, yields v m.
