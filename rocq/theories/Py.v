(** Python values needed by the model: exceptions, numbers, identity of ints,
    slices.  Nothing here is specific to segeval. *)
From Coq Require Export ZArith QArith Qround Qabs Qreduction Lia.
From stdpp Require Export base list.

Open Scope Z_scope.

(** Exceptions that the modelled code can raise.  [PlainException] is
    [raise Exception(...)]; [InvalidOperation] and [DivisionByZero] are the
    [decimal] signals. *)
Inductive exn :=
| SegmentationMetricError | DataIOError | PlainException
| ValueError | TypeError | KeyError | IndexError | AttributeError
| AssertionError | ZeroDivisionError | InvalidOperation | DivisionByZero.

Global Instance exn_eq_dec : EqDecision exn.
Proof. solve_decision. Defined.

Inductive res (A : Type) := Ok (a : A) | Err (e : exn).
Arguments Ok {A} a.
Arguments Err {A} e.

Definition bind {A B} (r : res A) (k : A -> res B) : res B :=
  match r with Ok a => k a | Err e => Err e end.

Notation "'let*' p := c1 'in' c2" := (bind c1 (fun p => c2))
  (at level 200, p pattern, c1 at level 100, c2 at level 200, right associativity).

Definition rmap {A B} (f : A -> B) (r : res A) : res B :=
  match r with Ok a => Ok (f a) | Err e => Err e end.

(** A [for] loop whose body may raise. *)
Fixpoint foldM {S X} (f : S -> X -> res S) (l : list X) (s : S) : res S :=
  match l with
  | [] => Ok s
  | x :: l' => let* s' := f s x in foldM f l' s'
  end.

(** A list comprehension whose body may raise. *)
Fixpoint mapM {X Y} (f : X -> res Y) (l : list X) : res (list Y) :=
  match l with
  | [] => Ok []
  | x :: l' => let* y := f x in let* ys := mapM f l' in Ok (y :: ys)
  end.

(** * Numbers *)

(** [int], [decimal.Decimal] and [float].  Decimals and floats are represented
    by the rational number they denote; NaN, infinities, signed zeros and
    exponent limits are not represented. *)
Inductive num := NInt (z : Z) | NDec (q : Q) | NFlt (q : Q).

(** Numeric value. *)
Definition nval (n : num) : Q :=
  match n with NInt z => inject_Z z | NDec q => q | NFlt q => q end.

(** An arithmetic context: how results of Decimal ([rd]) and float ([rf])
    operations are rounded.  [r2] rounds the exact result of [x ** 2] for a
    Decimal (the C implementation rounds it twice). *)
Record arith := Arith { rd : Q -> Q; rf : Q -> Q; r2 : Q -> Q }.

(** Exact arithmetic (results kept in lowest terms). *)
Definition exactA : arith := Arith Qred Qred Qred.

(** Kind of the result of a binary operation; Decimal with float is a TypeError
    in Python 2.7 and 3. *)
Definition num2 (A : arith) (fz : Z -> Z -> Z) (fq : Q -> Q -> Q) (x y : num) : res num :=
  match x, y with
  | NInt a, NInt b => Ok (NInt (fz a b))
  | NInt a, NDec q => Ok (NDec (rd A (fq (inject_Z a) q)))
  | NDec p, NInt b => Ok (NDec (rd A (fq p (inject_Z b))))
  | NDec p, NDec q => Ok (NDec (rd A (fq p q)))
  | NInt a, NFlt q => Ok (NFlt (rf A (fq (rf A (inject_Z a)) q)))
  | NFlt p, NInt b => Ok (NFlt (rf A (fq p (rf A (inject_Z b)))))
  | NFlt p, NFlt q => Ok (NFlt (rf A (fq p q)))
  | NDec _, NFlt _ | NFlt _, NDec _ => Err TypeError
  end.

Definition nadd A := num2 A Z.add Qplus.
Definition nsub A := num2 A Z.sub Qminus.
Definition nmul A := num2 A Z.mul Qmult.

Definition qzero (q : Q) : bool := Qeq_bool q 0.

(** True division ([from __future__ import division]).  int/int is a correctly
    rounded float.  A zero divisor raises: ZeroDivisionError for int/float,
    InvalidOperation for Decimal 0/0, DivisionByZero for other Decimals. *)
Definition ndiv (A : arith) (x y : num) : res num :=
  let decdiv p q :=
    if qzero q then Err (if qzero p then InvalidOperation else DivisionByZero)
    else Ok (NDec (rd A (p / q)%Q)) in
  let fltdiv p q :=
    if qzero q then Err ZeroDivisionError else Ok (NFlt (rf A (p / q)%Q)) in
  match x, y with
  | NInt a, NInt b => fltdiv (inject_Z a) (inject_Z b)
  | NInt a, NDec q => decdiv (inject_Z a) q
  | NDec p, NInt b => decdiv p (inject_Z b)
  | NDec p, NDec q => decdiv p q
  | NInt a, NFlt q => fltdiv (rf A (inject_Z a)) q
  | NFlt p, NInt b => fltdiv p (rf A (inject_Z b))
  | NFlt p, NFlt q => fltdiv p q
  | NDec _, NFlt _ | NFlt _, NDec _ => Err TypeError
  end.

(** [x ** 2] for a Decimal, an int, or a float. *)
Definition nsq (A : arith) (x : num) : num :=
  match x with
  | NInt z => NInt (z * z)
  | NDec q => NDec (r2 A (q * q)%Q)
  | NFlt q => NFlt (rf A (q * q)%Q)
  end.

(** Comparisons are by value for all three kinds. *)
Definition nleb (x y : num) : bool := Qle_bool (nval x) (nval y).
Definition nltb (x y : num) : bool := negb (Qle_bool (nval y) (nval x)).
Definition neqb (x y : num) : bool := Qeq_bool (nval x) (nval y).

(** [Decimal(x)] for an int or Decimal is exact; for a float it is exact too. *)
Definition to_dec (x : num) : num := NDec (nval x).

(** [sum(l)]: starts from the int 0. *)
Definition nsum (A : arith) (l : list num) : res num := foldM (nadd A) l (NInt 0).

(** * Identity of ints *)

(** CPython caches the ints -5..256: inside the cache equal ints are the same
    object. *)
Definition small (z : Z) : bool := (-5 <=? z) && (z <=? 256).

(** [x is y] for two ints freshly computed by arithmetic or [len]. *)
Definition fresh_is (x y : Z) : bool := (x =? y) && small x.

(** An int object held in a container: its value and, for ints outside the
    cache, the object it is (an allocation number). *)
Record pyint := PyInt { pval : Z; pobj : Z }.

Global Instance pyint_eq_dec : EqDecision pyint.
Proof. solve_decision. Defined.

(** [x is y] for two int objects taken from containers. *)
Definition py_is (x y : pyint) : bool :=
  (pval x =? pval y) && (small (pval x) || (pobj x =? pobj y)).

(** A tuple of ints in which equal ints are one object (as in a literal). *)
Definition ints (l : list Z) : list pyint := (fun z => PyInt z z) <$> l.

(** * Sequences *)

(** [l[i]] with Python's negative indices. *)
Definition pyindex {A} (l : list A) (i : Z) : res A :=
  let n := Z.of_nat (length l) in
  let k := if i <? 0 then i + n else i in
  if k <? 0 then Err IndexError
  else match l !! Z.to_nat k with Some x => Ok x | None => Err IndexError end.

(** Clamping of one slice bound. *)
Definition clamp (n i : Z) : Z :=
  let j := if i <? 0 then i + n else i in Z.max 0 (Z.min n j).

(** [l[lo:hi]]. *)
Definition pyslice {A} (l : list A) (lo hi : Z) : list A :=
  let n := Z.of_nat (length l) in
  let a := clamp n lo in
  let b := clamp n hi in
  take (Z.to_nat (b - a)) (drop (Z.to_nat a) l).

(** [range(lo, hi)] as a list of ints. *)
Definition pyrange (lo hi : Z) : list Z :=
  (fun k => lo + Z.of_nat k) <$> seq 0 (Z.to_nat (hi - lo)).

Definition zlen {A} (l : list A) : Z := Z.of_nat (length l).

Definition zsum (l : list Z) : Z := foldr Z.add 0 l.
