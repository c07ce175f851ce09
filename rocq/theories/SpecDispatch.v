(** What pairwise computation over datasets should yield: which coders are
    compared, by position, and under which name. *)
From stdpp Require Import gmap.
From Verif Require Import DictProofs Format.
Open Scope Z_scope.

(** A dict of dicts: no name twice. *)
Definition items_ok {C} (items : dict (dict C)) : Prop :=
  dict_ok items /\ forall item cs, (item, cs) ∈ items -> dict_ok cs.

(** No coder has a comma in its name (items may). *)
Definition plain_coders {C} (items : dict (dict C)) : Prop :=
  forall item cs c s, (item, cs) ∈ items -> (c, s) ∈ cs -> comma_free c.

(** An iteration order of sets. *)
Definition lord_ok (lord : gset string -> list string) : Prop := forall s, lord s ≡ₚ elements s.

Definition name3 (a b c : string) : string := (a ++ "," ++ b ++ "," ++ c)%string.

(** In [items], [c1] comes before [c2] among the coders of [item] and they gave [a] and [b]. *)
Definition before {C} (items : dict (dict C)) (item c1 c2 : string) (a b : C) : Prop :=
  exists cs i j, (item, cs) ∈ items /\ (i < j)%nat /\ cs !! i = Some (c1, a) /\ cs !! j = Some (c2, b).

(** [item] is in both datasets, [c1] gave [a] in the first and [c2] gave [b] in the second. *)
Definition across {C} (ia ib : dict (dict C)) (item c1 c2 : string) (a b : C) : Prop :=
  exists ca cb, (item, ca) ∈ ia /\ (item, cb) ∈ ib /\ (c1, a) ∈ ca /\ (c2, b) ∈ cb.

(** Positions i < j of a list of [n]. *)
Definition slots (n : nat) : list (nat * nat) :=
  filter (fun p => (fst p < snd p)%nat) (i ← seq 0 n; (fun j => (i, j)) <$> seq 0 n).

(** What stands at two positions. *)
Definition at2 {X} (l : list X) (p : nat * nat) : option (X * X) :=
  match l !! fst p, l !! snd p with Some x, Some y => Some (x, y) | _, _ => None end.

(** All pairs of elements at positions i < j. *)
Definition two_of {X} (l : list X) : list (X * X) := omap (at2 l) (slots (length l)).

(** The number of codings of [item] in [items]. *)
Definition codings_of {C} (items : dict (dict C)) (item : string) : nat :=
  sum_list ((fun ic => length (snd ic)) <$> filter (fun ic => fst ic = item) items).
