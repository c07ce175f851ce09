(** Reference and hypothesis exchanged. *)
From Verif Require Export SpecML.
Open Scope Z_scope.

Definition other_side (s : side) : side := match s with SideA => SideB | SideB => SideA end.

(** The same addition and substitution, seen from the other segmentation. *)
Definition flip_addition (x : addition) : addition := Addition (a_type x) (other_side (a_side x)).
Definition flip_substitution (s : substitution) : substitution := (snd s, fst s).

(** One matrix is the other with rows and columns exchanged. *)
Definition transposed (m m' : cmatrix) : Prop :=
  cls m' = cls m /\ forall p a, (nval (cell m' a p) == nval (cell m p a))%Q.
