(** What the properties of the statistics and of rounding speak about. *)
From Verif Require Export Py.
From Verif Require Import SpecML Round.
Open Scope Q_scope.

(** Arithmetic mean and population variance. *)
Definition average (xs : list Q) : Q := qsum xs / inject_Z (zlen xs).
Definition variance (xs : list Q) : Q := average ((fun x => (x - average xs) * (x - average xs)) <$> xs).

(** [x] has at most [p] significant digits in radix [b]. *)
Definition digits_in (b p : Z) (x : Q) : Prop := exists k e, (Z.abs k < b ^ p)%Z /\ x == inject_Z k * qpow b e.

(** [r] is [x] rounded to [p] digits, half to even: no number of [p] digits is nearer, and
    if another one is as near then the [p]-digit coefficient of [r] is even. *)
Definition rounded (b p : Z) (x r : Q) : Prop :=
  digits_in b p r /\
  (forall y, digits_in b p y -> Qabs (r - x) <= Qabs (y - x)) /\
  (forall y, digits_in b p y -> Qabs (y - x) == Qabs (r - x) -> ~ y == r ->
     exists k e, r == inject_Z k * qpow b e /\ (b ^ (p - 1) <= Z.abs k <= b ^ p)%Z /\ Z.even k = true).

(** [r] is the square root of [v] up to the relative error [d]. *)
Definition near_root (r v d : Q) : Prop :=
  0 <= r /\ (r * (1 - d)) * (r * (1 - d)) <= v /\ v <= (r * (1 + d)) * (r * (1 + d)).

(** [x] is [z] units of the decimal place [e]. *)
Definition grid (e : Z) (z : Z) (x : Q) : Prop := x == inject_Z z * qpow 10 e.
