(** Small specifications, independent of the model's helper functions. *)
From stdpp Require Export gmap.
From Verif Require Export Py.
Open Scope Z_scope.

Global Arguments Z.add : simpl never.
Global Arguments Z.sub : simpl never.
Global Arguments Z.mul : simpl never.
Global Arguments Z.opp : simpl never.
Global Arguments Z.of_nat : simpl never.
Global Arguments Z.to_nat : simpl never.

(** Masses that describe a real segmentation: at least one segment, each of at
    least one unit. *)
Definition positive (m : list Z) : Prop := Forall (fun x => 1 <= x) m.

(** There is a boundary after the first [p] units. *)
Definition cut (m : list Z) (p : Z) : Prop :=
  exists k, (0 < k < length m)%nat /\ zsum (take k m) = p.

(** Number of boundaries at distances [u < p <= v] from the start. *)
Definition ncuts (m : list Z) (u v : Z) : Z :=
  zlen (filter (fun k => u < zsum (take k m) <= v) (seq 1 (length m - 1))).

(** ** Boundary strings *)

(** Type [d] occurs at gap [i] of [s]. *)
Definition has (s : list (gset Z)) (i : nat) (d : Z) : Prop := exists t, s !! i = Some t /\ d ∈ t.

(** Type [d] sits at one of the gaps [i], [j] in [a] and at the other in [b]. *)
Definition swaps (a b : list (gset Z)) (i j : nat) (d : Z) : Prop :=
  (has a i d /\ ~ has a j d /\ ~ has b i d /\ has b j d) \/
  (~ has a i d /\ has a j d /\ has b i d /\ ~ has b j d).

(** All types are ints that CPython caches. *)
Definition small_types (a b : list (gset Z)) : Prop :=
  forall s d, s ∈ a \/ s ∈ b -> d ∈ s -> -5 <= d <= 256.

(** The number of gaps where [x] has type [d] and [y] has not. *)
Definition only_in (x y : list (gset Z)) (d : Z) : nat :=
  length (filter (fun p : gset Z * gset Z => d ∈ p.1 /\ d ∉ p.2) (zip x y)).

(** The number of gaps where both have type [d]. *)
Definition both_in (x y : list (gset Z)) (d : Z) : nat :=
  length (filter (fun p : gset Z * gset Z => d ∈ p.1 /\ d ∈ p.2) (zip x y)).

(** The number of differences between [x] and [y], over all gaps and types. *)
Definition ndiffs (x y : list (gset Z)) : nat :=
  sum_list (zip_with (fun s t : gset Z => size (s ∖ t) + size (t ∖ s))%nat x y).

(** The number of boundaries of [x] and [y] together, and of shared ones. *)
Definition nboundaries (x y : list (gset Z)) : nat :=
  sum_list (zip_with (fun s t : gset Z => size s + size t)%nat x y).
Definition nmatches (x y : list (gset Z)) : nat :=
  sum_list (zip_with (fun s t : gset Z => size (s ∩ t)) x y).

(** [d] is used somewhere in [x] or [y]. *)
Definition used (x y : list (gset Z)) (d : Z) : Prop := exists i, has x i d \/ has y i d.

(** How many elements satisfy [P]. *)
Definition countP {A} (P : A -> Prop) `{!forall x, Decision (P x)} (l : list A) : nat := length (filter P l).

(** Pairs of one type of [a] and one of [b], as many as possible, no type twice. *)
Definition pairing (a b : gset Z) (l : list (Z * Z)) : Prop :=
  NoDup (l.*1) /\ NoDup (l.*2) /\
  (forall x y, (x, y) ∈ l -> x ∈ a /\ y ∈ b) /\
  length l = Nat.min (size a) (size b).

(** The summed distance of the pairs. *)
Definition distance (l : list (Z * Z)) : Z := zsum ((fun '(x, y) => Z.abs (x - y)) <$> l).

Definition cheapest_pairing (a b : gset Z) (l : list (Z * Z)) : Prop :=
  pairing a b l /\ forall l', pairing a b l' -> distance l <= distance l'.

(** Only type [c] occurs. *)
Definition one_type (a b : list (gset Z)) (c : Z) : Prop :=
  forall s d, s ∈ a \/ s ∈ b -> d ∈ s -> d = c.

(** A way of editing [a] into [b] when only type [c] occurs: swaps [T] of gaps at
    distance at most [n_t - 1], none sharing a gap, and additions or deletions at
    the gaps [G], such that every differing gap is dealt with. *)
Record edit_script (a b : list (gset Z)) (c n_t : Z) (T : list (nat * nat)) (G : list nat) : Prop := {
  script_swap : forall i j, (i, j) ∈ T ->
    (i < j < length a)%nat /\ Z.of_nat j - Z.of_nat i <= n_t - 1 /\ swaps a b i j c;
  script_disjoint : NoDup (T.*1 ++ T.*2);
  script_complete : forall i, (i < length a)%nat -> a !! i <> b !! i -> i ∈ G \/ i ∈ T.*1 \/ i ∈ T.*2
}.

(** [n_t] times the cost of a script: an addition costs 1, a swap of gaps [i]
    and [j] costs [(j - i) / n_t]. *)
Definition script_cost (n_t : Z) (T : list (nat * nat)) (G : list nat) : Z :=
  n_t * zlen G + zsum ((fun p => Z.of_nat (snd p) - Z.of_nat (fst p)) <$> T).

(** ** For concrete cases: equality decided by evaluation. *)

Global Instance res_eq_dec {A} `{EqDecision A} : EqDecision (res A).
Proof. solve_decision. Defined.

Ltac by_compute :=
  cbv zeta; repeat match goal with |- _ /\ _ => split end;
  refine (bool_decide_unpack _ _); vm_compute; exact I.
