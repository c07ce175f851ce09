(** Correctly rounded arithmetic: half-even rounding to an integer and to [p]
    significant digits in radix [b]. *)
From Verif Require Import Py.

(** Round half to even: [round(Decimal)] of Python 3. *)
Definition hround (q : Q) : Z :=
  let k := Qfloor q in
  match Qcompare (q - inject_Z k) (1 # 2) with
  | Lt => k
  | Gt => k + 1
  | Eq => if Z.even k then k else k + 1
  end.

(** Round half away from zero: [round] of Python 2 (which goes through a
    float; that conversion is added in Python2.v). *)
Definition hround_away (q : Q) : Z :=
  if Qle_bool 0 q then Qfloor (q + (1 # 2)) else - Qfloor (- q + (1 # 2)).

Fixpoint ilog_fuel (f : nat) (b x : Z) : Z :=
  match f with
  | O => 0
  | S f' => if x <? b then 0 else 1 + ilog_fuel f' b (x / b)
  end.

(** Integer logarithm: [b^(ilog b x) <= x < b^(ilog b x + 1)]. *)
Definition ilog (b x : Z) : Z := ilog_fuel (Z.to_nat (Z.log2 x)) b x.

Definition qpow (b e : Z) : Q := Qpower (inject_Z b) e.

(** Floor of the logarithm of a positive rational. *)
Definition flog (b : Z) (q : Q) : Z :=
  let g := ilog b (Qnum q) - ilog b (Zpos (Qden q)) in
  if Qle_bool (qpow b g) q then g else g - 1.

(** Round a positive rational to [p] significant radix-[b] digits. *)
Definition rnd_pos (b p : Z) (q : Q) : Q :=
  let u := qpow b (flog b q - (p - 1)) in
  inject_Z (hround (q / u)) * u.

Definition rnd (b p : Z) (q : Q) : Q :=
  let q := Qred q in
  Qred (match Qcompare q 0 with
        | Eq => 0
        | Gt => rnd_pos b p q
        | Lt => - rnd_pos b p (- q)
        end).

(** decimal.DefaultContext: prec=28, ROUND_HALF_EVEN. *)
Definition dec28 : Q -> Q := rnd 10 28.
(** IEEE double, without exponent limits. *)
Definition flt53 : Q -> Q := rnd 2 53.

(** [Decimal ** 2] in libmpdec: the product at 31 digits, then at 28 (found by comparing with
    CPython 3.11's decimal on 200000 values; other digit counts disagree). *)
Definition sq28 (q : Q) : Q := rnd 10 28 (rnd 10 31 q).

(** The arithmetic of CPython. *)
Definition pyA : arith := Arith dec28 flt53 sq28.

(** Square root of a positive rational, rounded half-even to 28 digits
    ([Decimal.sqrt]); 0 for 0. *)
Definition dec_sqrt (q : Q) : Q :=
  let q := Qred q in
  if Qle_bool q 0 then 0 else
  let e := flog 10 q / 2 in
  let u := qpow 10 (e - 27) in
  let m := (q / (u * u))%Q in
  let s := Z.sqrt (Qfloor m) in
  let h := (inject_Z s + (1 # 2))%Q in
  let r := match Qcompare m (h * h) with
           | Lt => s
           | Gt => s + 1
           | Eq => if Z.even s then s else s + 1
           end in
  Qred (inject_Z r * u).
