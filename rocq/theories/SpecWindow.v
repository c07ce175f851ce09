(** Specifications for the window metrics. *)
From Verif Require Export SpecSim Window.
Open Scope Z_scope.

(** The labels [p] number the segments of [m]: two units have equal labels if
    and only if no boundary lies between them, and equal labels are the same
    object (always so for labels up to 256). *)
Definition canonical (m : list Z) (p : list pyint) : Prop :=
  zlen p = zsum m /\
  forall i j u v, (i <= j)%nat -> p !! i = Some u -> p !! j = Some v ->
    (pval u = pval v <-> ncuts m (Z.of_nat i) (Z.of_nat j) = 0) /\
    (pval u = pval v -> small (pval u) = true \/ pobj u = pobj v).

(** [s] encodes the masses [m] for the window metrics. *)
Definition wencodes (f : fmt) (m : list Z) (s : seg) : Prop :=
  match f, s with
  | FPosition, Ints p => canonical m p
  | FMass, _ | FNltk, _ => encodes f m s
  | _, _ => False
  end.

(** The probes [i], [i + k] that only one of two segmentations separates. *)
Definition pk_errors (h r : list Z) (k n : Z) : Z :=
  zlen (filter (fun i => ncuts h i (i + k) = 0 <-> ncuts r i (i + k) <> 0) (seqZ 0 (n - k))).

(** The windows of [k + 1] units with different numbers of boundaries. *)
Definition wd_errors (h r : list Z) (k n : Z) : Z :=
  zlen (filter (fun i => ncuts h i (i + k) <> ncuts r i (i + k)) (seqZ 0 (n - k))).

(** One more segment of [k] units (at least one) before and after. *)
Definition padded (k : Z) (m : list Z) : list Z := Z.max 1 k :: m ++ [Z.max 1 k].

(** The masses in a segmentation or a nested dict of segmentations. *)
Inductive collects : wtree -> list Z -> Prop :=
  | Col_seg l : collects (WSeg (Ints l)) (pval <$> l)
  | Col_empty : collects (WSeg (Sets [])) []
  | Col_nil : collects (WDict []) []
  | Col_cons name t l x y : collects t x -> collects (WDict l) y -> collects (WDict ((name, t) :: l)) (x ++ y).

(** A number or a string, or a non-empty tuple of sets, somewhere in the dicts. *)
Inductive holds (P : wtree -> Prop) : wtree -> Prop :=
  | Holds_here t : P t -> holds P t
  | Holds_in name t l : (name, t) ∈ l -> holds P t -> holds P (WDict l).
Definition no_collection (t : wtree) : Prop := (exists z, t = WInt z) \/ (exists s, t = WSeg (Str s)).
Definition of_sets (t : wtree) : Prop := exists x l, t = WSeg (Sets (x :: l)).

(** Both window metrics raise [e] whatever the other parameters. *)
Definition window_fails (A : arith) (fnc_round : Q -> Z) (f : fmt) (sh sr : seg) (e : exn) : Prop :=
  forall w om rp, pk A fnc_round f w om rp sh sr = Err e /\
  forall lam, window_diff A fnc_round f w lam om rp sh sr = Err e.

(** Neither end of a position encoding is labelled 0, the label of the phantom
    units of the Lamprier correction. *)
Definition ends_not_zero (f : fmt) (s : seg) : Prop :=
  match f, s with
  | FPosition, Ints p =>
    (forall u, p !! 0%nat = Some u -> pval u <> 0) /\ (forall u, last p = Some u -> pval u <> 0)
  | _, _ => True
  end.

(** Position labels given as a string, one character each. *)
Definition label_string (f : fmt) (s : seg) : Prop := f = FPosition /\ exists t, s = Str t.
