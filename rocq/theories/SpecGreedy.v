(** Specification of the set of transpositions: nearer gaps first, then from left
    to right, each swap of a type that is still possible is taken, unless
    substitutions are still possible at both of its gaps. *)
From Verif Require Export Spec Bed.
Open Scope Z_scope.

(** [u] spans fewer gaps than [t], or as many and starts further left. *)
Definition before (u t : transposition) : Prop :=
  (t_end u - t_start u < t_end t - t_start t)%nat \/
  ((t_end u - t_start u = t_end t - t_start t)%nat /\ (t_start u < t_start t)%nat).

(** A transposition in [T] that is before [t] moves type [d] from or to gap [i]. *)
Definition settled (T : list transposition) (t : transposition) (i : nat) (d : Z) : Prop :=
  exists u, u ∈ T /\ before u t /\ t_type u = d /\ (t_start u = i \/ t_end u = i).

(** Apart from these, each string has a type at gap [i] that the other lacks. *)
Definition both_sides (a b : list (gset Z)) (T : list transposition) (t : transposition) (i : nat) : Prop :=
  (exists d, has a i d /\ ~ has b i d /\ ~ settled T t i d) /\ (exists d, has b i d /\ ~ has a i d /\ ~ settled T t i d).

Record taken (a b : list (gset Z)) (n_t : Z) (T : list transposition) (t : transposition) : Prop := Taken {
  taken_gaps : (t_start t < t_end t < length a)%nat;
  taken_near : Z.of_nat (t_end t) - Z.of_nat (t_start t) <= n_t - 1;
  taken_swap : swaps a b (t_start t) (t_end t) (t_type t);
  taken_free : ~ settled T t (t_start t) (t_type t) /\ ~ settled T t (t_end t) (t_type t);
  taken_subs : ~ (both_sides a b T t (t_start t) /\ both_sides a b T t (t_end t))
}.

Record greedy (a b : list (gset Z)) (n_t : Z) (T : list transposition) : Prop := Greedy {
  greedy_once : NoDup T;
  greedy_all : forall t, t ∈ T <-> taken a b n_t T t
}.
