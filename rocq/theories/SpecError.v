(** Specification of single errors: pairs of segmentations that differ in one way. *)
From Verif Require Export SpecSim SpecChange.
Open Scope Z_scope.

(** The two strings have the same types everywhere, except perhaps type [d] at
    gap [i] for the pairs [(i, d)] listed. *)
Definition agree_but (P : list (nat * Z)) (a b : bstring) : Prop :=
  length a = length b /\ forall i d, (i, d) ∉ P -> (has a i d <-> has b i d).

(** [b] lacks one boundary of [a]. *)
Definition missing (a b : bstring) (i : nat) (t : Z) : Prop :=
  agree_but [(i, t)] a b /\ has a i t /\ ~ has b i t.

(** One boundary of [a] is at another gap in [b]; the gaps are [i < j]. *)
Definition displaced (a b : bstring) (i j : nat) (t : Z) : Prop :=
  agree_but [(i, t); (j, t)] a b /\ (i < j)%nat /\ swaps a b i j t.

(** One boundary of [a] has another type in [b]. *)
Definition mistyped (a b : bstring) (i : nat) (t u : Z) : Prop :=
  agree_but [(i, t); (i, u)] a b /\ has a i t /\ ~ has b i t /\ has b i u /\ ~ has a i u.

(** The exact value of B (or S) for these weights is [v]. *)
Definition B_is (E : env) (f : fmt) (n_t : Z) (sa sb : seg) (v : Q) : Prop :=
  exists q, boundary_similarity exactA E (default_weights exactA) f n_t false false sa sb = Ok (BVal (NDec q)) /\ (q == v)%Q.
Definition S_is (E : env) (f : fmt) (n_t : Z) (sa sb : seg) (v : Q) : Prop :=
  exists q, segmentation_similarity exactA E (default_weights exactA) f n_t false false sa sb = Ok (SVal (NDec q)) /\ (q == v)%Q.
