(** Model of segeval/format.py. *)
From stdpp Require Export gmap strings.
From Verif Require Export Py.
Open Scope Z_scope.

(** segeval/format.py:11.  [FOther] stands for any value that is not one of the
    four enum members (for example [None]). *)
Inductive fmt := FPosition | FMass | FSets | FNltk | FOther.

Global Instance fmt_eq_dec : EqDecision fmt.
Proof. solve_decision. Defined.

(** A set of boundary types, and a boundary string. *)
Notation tyset := (gset Z).
Notation bstring := (list (gset Z)).

(** A segmentation as the caller passes it: a tuple of ints (masses or position
    labels), a tuple of sets of types, or a string. *)
Inductive seg := Ints (l : list pyint) | Sets (s : bstring) | Str (s : list Ascii.ascii).

(** [itertools.groupby] (elements compared with [==]) reduced to run lengths. *)
Fixpoint group_lengths {A} `{EqDecision A} (l : list A) : list Z :=
  match l with
  | [] => []
  | x :: l' =>
    let r := group_lengths l' in
    match l', r with
    | y :: _, c :: cs => if decide (x = y) then (c + 1) :: cs else 1 :: r
    | _, _ => [1]
    end
  end.

(** segeval/format.py:14-25 [convert_positions_to_masses] on int labels. *)
Definition convert_positions_to_masses (positions : list pyint) : list Z :=
  group_lengths (pval <$> positions).

(** segeval/format.py:28-40 [convert_masses_to_positions].
    [[i + 1] * mass] repeats one int object, and is empty for mass <= 0. *)
Definition convert_masses_to_positions (masses : list Z) : list pyint :=
  mjoin (imap (fun i mass =>
    replicate (Z.to_nat mass) (PyInt (Z.of_nat i + 1) (Z.of_nat i + 1))) masses).

(** [l[i] = f(l[i])] with Python indexing. *)
Definition pyupdate {A} (l : list A) (i : Z) (f : A -> A) : res (list A) :=
  let n := Z.of_nat (length l) in
  let k := if i <? 0 then i + n else i in
  if (k <? 0) || (n <=? k) then Err IndexError
  else Ok (alter f (Z.to_nat k) l).

(** segeval/format.py:43-61 [boundary_string_from_masses].  One iteration of
    the loop, on the pair (pos, string). *)
Definition bstring_step (st : Z * bstring) (mass : Z) : res (Z * bstring) :=
  let '(pos, string) := st in
  let cur_pos := pos + mass - 1 in
  let* string' :=
    (if cur_pos <? zlen string
     then pyupdate string cur_pos (fun s => {[1]} ∪ s)
     else Ok string) in
  Ok (pos + mass, string').

Definition boundary_string_from_masses (masses : list Z) : res bstring :=
  let string := replicate (Z.to_nat (zsum masses - 1)) ∅ in
  let* st := foldM bstring_step masses (0, string) in
  Ok (snd st).

Fixpoint is_prefix (p s : list Ascii.ascii) : bool :=
  match p, s with
  | [], _ => true
  | _ :: _, [] => false
  | c :: p', d :: s' => Ascii.eqb c d && is_prefix p' s'
  end.

(** [str.split(sep)] for a non-empty separator: leftmost, non-overlapping. *)
Fixpoint split_fuel (n : nat) (sep s : list Ascii.ascii) : list (list Ascii.ascii) :=
  match n with
  | O => [s]
  | S n' =>
    if is_prefix sep s then [] :: split_fuel n' sep (drop (length sep) s)
    else match s with
         | [] => [[]]
         | c :: s' => match split_fuel n' sep s' with
                      | h :: t => (c :: h) :: t
                      | [] => [[c]]
                      end
         end
  end.

Definition pysplit (sep s : list Ascii.ascii) : res (list (list Ascii.ascii)) :=
  match sep with
  | [] => Err ValueError
  | _ => Ok (split_fuel (S (length s)) sep s)
  end.

(** segeval/format.py:64-77 [convert_nltk_to_masses]. *)
Definition convert_nltk_to_masses (string symbol : list Ascii.ascii) : res (list Z) :=
  let* segments := pysplit symbol string in
  Ok ((fun s => zlen s + 1) <$> segments).

(** The default [boundary_symbol], the character 1. *)
Definition sym1 : list Ascii.ascii := [Ascii.Ascii true false false false true true false false].

(** Characters as labels: one-character strings are cached by CPython, so they
    behave like small ints. *)
Definition char_label (c : Ascii.ascii) : pyint :=
  let z := Z.of_nat (Ascii.nat_of_ascii c) in PyInt z z.

(** The ways the code reads a segmentation.  A tuple of the wrong kind raises;
    an empty sequence is accepted by every reader.  [as_positions] of a tuple
    of sets is not modelled (the code would group equal sets) and is given the
    TypeError that the other readers raise. *)
Definition as_masses (s : seg) : res (list Z) :=
  match s with
  | Ints l => Ok (pval <$> l)
  | Sets [] | Str [] => Ok []
  | _ => Err TypeError
  end.

Definition as_positions (s : seg) : res (list pyint) :=
  match s with
  | Ints l => Ok l
  | Str l => Ok (char_label <$> l)
  | Sets [] => Ok []
  | _ => Err TypeError
  end.

Definition as_string (s : seg) : res (list Ascii.ascii) :=
  match s with
  | Str l => Ok l
  | _ => Err AttributeError
  end.

Definition as_sets (s : seg) : res bstring :=
  match s with
  | Sets l => Ok l
  | Ints [] | Str [] => Ok []
  | _ => Err TypeError
  end.

(** [len(segmentation)]. *)
Definition seg_len (s : seg) : Z :=
  match s with Ints l => zlen l | Sets l => zlen l | Str l => zlen l end.
