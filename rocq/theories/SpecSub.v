(** Some of the coders of a dataset (specification of C100). *)
From stdpp Require Import gmap.
From Verif Require Import Spec SpecAgreement.
Open Scope Z_scope.

(** All items, with the codings of the coders [sub] only. *)
Definition only (sub : list string) (items : dict (dict seg)) : dict (dict seg) :=
  (fun ic => (fst ic, filter (fun cs => fst cs ∈ sub) (snd ic))) <$> items.

(** All coders but [k]. *)
Definition but (k : string) (coders : list string) : list string := filter (fun x => x <> k) coders.
