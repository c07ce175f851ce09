(** How far rounded results may be from the exact ones. *)
From Verif Require Export SpecValue.

(** The largest relative error of one operation on Decimals of 28 digits: half a
    unit in the last place. *)
Definition half_ulp : Q := 1 # 2000000000000000000000000000.

(** [x] and [y] differ by at most [k] such errors. *)
Definition within (k : Z) (x y : Q) : Prop := (Qabs (x - y) <= inject_Z k * half_ulp)%Q.
