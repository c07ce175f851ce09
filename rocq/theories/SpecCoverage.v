(** When codings of the same item can be compared. *)
From Verif Require Import Agreement.
Open Scope Z_scope.

(** Any two coders who coded the same item can be compared on it. *)
Definition comparable (cmp : Agreement.compare) (f : fmt) (items : dict (dict seg)) : Prop :=
  forall ic m n a b, ic ∈ items -> m <> n -> dget (snd ic) m = Some a -> dget (snd ic) n = Some b ->
    (exists r, cmp f a b = Ok r) /\ (exists x, to_bstring f a = Ok x) /\ (exists y, to_bstring f b = Ok y).
