(** Specification for C84 and C85: pairs of segmentations that differ in the same way. *)
From Verif Require Export SpecError SpecMetric.
Open Scope Z_scope.

(** At every gap the first string of either pair has the same types that the second lacks,
    and the other way round; where both have a type, the pairs may differ. *)
Definition differ_alike (x y x' y' : list (gset Z)) : Prop :=
  length x = length x' /\ length y = length y' /\
  forall i d, (has x i d /\ ~ has y i d <-> has x' i d /\ ~ has y' i d) /\ (has y i d /\ ~ has x i d <-> has y' i d /\ ~ has x' i d).

(** The same for masses. *)
Definition cut_alike (x y x' y' : list Z) : Prop :=
  forall p, (cut x p /\ ~ cut y p <-> cut x' p /\ ~ cut y' p) /\ (cut y p /\ ~ cut x p <-> cut y' p /\ ~ cut x' p).

(** The types used are the same. *)
Definition used_alike (x y x' y' : list (gset Z)) : Prop := forall d, used x y d <-> used x' y' d.
