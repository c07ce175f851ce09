(** Coders who place no boundary. *)
From Verif Require Import SpecAgreement.

Definition silent (f : fmt) (items : dict (dict seg)) (c : string) : Prop :=
  forall ic t, ic ∈ items -> t ∈ coding f c ic -> t = ∅.
