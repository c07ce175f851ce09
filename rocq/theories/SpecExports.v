(** What the names of the package are, read off the tables of segeval/__init__.py. *)
From stdpp Require Import list strings.
From Verif Require Import Exports.

(** [n] is a public name, defined in module [m]. *)
Definition exported (m n : string) : Prop := exists l, (m, l) ∈ all_by_module /\ n ∈ l.

Definition package_module (m : string) : Prop := exists b, (m, b) ∈ bodies.

(** Histories that import modules of the package and access any name. *)
Definition possible (h : list event) : Prop :=
  Forall (fun e => match e with EGet _ => True | EImport m => package_module m end) h.

(** Events that leave the package in working order. *)
Definition loads (e : event) : Prop :=
  match e with
  | EGet n => n <> "summarize"%string /\ exists m, exported m n
  | EImport m => m <> "segeval.compute"%string
  end.
