(** Specification for the distance properties of the metrics. *)
From Verif Require Export SpecWindow.
Open Scope Z_scope.

(** [h] and [h'] have the same boundaries, except perhaps at the distances in [D]. *)
Definition same_but (D : list Z) (h h' : list Z) : Prop := forall p, p ∉ D -> (cut h p <-> cut h' p).

(** The windows of [k + 1] units of a text of [n] units that have the gap at distance [g] inside. *)
Definition windows_over (k n g : Z) : Z := Z.min (Z.min g (n - g)) (Z.min k (n - k)).

(** [s] encodes the masses [m], a segmentation of [n] units. *)
Definition coded (f : fmt) (n : Z) (m : list Z) (s : seg) : Prop :=
  Spec.positive m /\ m <> [] /\ zsum m = n /\ wencodes f m s.

(** What WindowDiff needs: no wide windows, none longer than the text unless
    the text is padded, and padding that stands apart. *)
Definition wd_window (lam : bool) (f : fmt) (n k : Z) (l : list seg) : Prop :=
  0 <= k <= 255 /\ (lam = false -> k < n) /\ (lam = true -> Forall (ends_not_zero f) l).
