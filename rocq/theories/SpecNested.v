(** Segmentations of which one has all the boundaries of the other. *)
From Verif Require Export SpecError SpecMetric.
Open Scope Z_scope.

(** [b] has every boundary of [a], and perhaps more. *)
Definition nested (a b : bstring) : Prop := length a = length b /\ forall i d, has a i d -> has b i d.

(** The same for masses. *)
Definition refines (y x : list Z) : Prop := forall p, cut x p -> cut y p.

(** One segment of [n] units, and [n] segments of one unit. *)
Definition whole (n : Z) : list Z := [n].
Definition units (n : Z) : list Z := replicate (Z.to_nat n) 1.

(** There are [c] windows of [k + 1] of the [n] units that satisfy [P], which
    looks at the distances from the start of the gaps in a window. *)
Definition windows (k n : Z) (P : (Z -> Prop) -> Prop) (c : Z) : Prop :=
  exists W, NoDup W /\ (forall i, i ∈ W <-> 0 <= i < n - k /\ P (fun p => i < p <= i + k)) /\ zlen W = c.

(** No gap of a window has a boundary of [m], some has, and each has. *)
Definition without (m : list Z) (window : Z -> Prop) : Prop := forall p, window p -> ~ cut m p.
Definition with_some (m : list Z) (window : Z -> Prop) : Prop := exists p, window p /\ cut m p.
Definition with_all (m : list Z) (window : Z -> Prop) : Prop := forall p, window p -> cut m p.

(** A gap of a window has a boundary of [y] but none of [x]. *)
Definition with_more (x y : list Z) (window : Z -> Prop) : Prop := exists p, window p /\ cut y p /\ ~ cut x p.

(** [s] encodes the masses [m] of [n] units, for the boundary metrics. *)
Definition marked (f : fmt) (n : Z) (m : list Z) (s : seg) : Prop :=
  Spec.positive m /\ m <> [] /\ zsum m = n /\ encodes f m s.
