(** What a multiply coded dataset is and what the agreement statistics measure on it. *)
From Verif Require Export SpecSim SpecDispatch Agreement.
From Verif Require Import SpecML.
Open Scope Z_scope.

(** The boundary string that coder [c] gave to item [ic]. *)
Definition coding (f : fmt) (c : string) (ic : string * dict seg) : bstring :=
  match dget (snd ic) c with
  | Some s => match to_bstring f s with Ok x => x | Err _ => [] end
  | None => []
  end.

(** How many boundaries there are in [x]. *)
Definition marks (x : bstring) : Z := Z.of_nat (sum_list (size <$> x)).

(** How many there could be: gaps times types that one of the two coders uses. *)
Definition room (x y : bstring) : Z := zlen x * Z.of_nat (size (⋃ x ∪ ⋃ y : gset Z)).

(** Every coder of [coders] gave every item a segmentation in format [f]; any
    two of them for the same item have the same length and a boundary. *)
Record coded (f : fmt) (coders : list string) (items : dict (dict seg)) : Prop := {
  coded_coders : NoDup coders;
  coded_two : (2 <= length coders)%nat;
  coded_items : items <> [];
  coded_seg : forall ic c, ic ∈ items -> c ∈ coders ->
    exists s x, dget (snd ic) c = Some s /\ seg_len s <> 0 /\ to_bstring f s = Ok x;
  coded_len : forall ic c c', ic ∈ items -> c ∈ coders -> c' ∈ coders ->
    length (coding f c ic) = length (coding f c' ic);
  coded_used : forall ic c c', ic ∈ items -> c ∈ coders -> c' ∈ coders -> c <> c' ->
    exists d, used (coding f c ic) (coding f c' ic) d
}.

(** The items have exactly the coders [coders]. *)
Definition full (coders : list string) (items : dict (dict seg)) : Prop :=
  forall ic, ic ∈ items -> (snd ic).*1 ≡ₚ coders.

(** All comparisons: an item and two coders. *)
Definition comparisons (coders : list string) (items : dict (dict seg)) :=
  p ← two_of coders; (fun ic => (p, ic)) <$> items.

(** The values of [g], comparison by comparison. *)
Definition gather {C} (g : string -> string -> string * dict seg -> C) (coders : list string) (items : dict (dict seg)) : list C :=
  (fun '((m, n), ic) => g m n ic) <$> comparisons coders items.

(** All types are ints that CPython caches. *)
Definition cached (f : fmt) (coders : list string) (items : dict (dict seg)) : Prop :=
  forall ic c c', ic ∈ items -> c ∈ coders -> c' ∈ coders -> small_types (coding f c ic) (coding f c' ic).

(** All coders agree on all items. *)
Definition unanimous (f : fmt) (coders : list string) (items : dict (dict seg)) : Prop :=
  forall ic c c', ic ∈ items -> c ∈ coders -> c' ∈ coders -> coding f c ic = coding f c' ic.

(** The size of a dataset: an upper bound of all that is counted. *)
Definition workload (f : fmt) (coders : list string) (items : dict (dict seg)) : Z :=
  zsum (gather (fun m n ic => 2 * (room (coding f m ic) (coding f n ic) *
    Z.of_nat (size (⋃ (coding f m ic) ∪ ⋃ (coding f n ic) : gset Z)))) coders items).

(** Segmentations are compared with B, or, provided that [P], with S; the
    weights are the default ones. *)
Inductive comparison (A : arith) (E : env) (n_t : Z) (P : Prop) : Agreement.compare -> Prop :=
| by_B om : comparison A E n_t P (compare_B A E (default_weights A) n_t om)
| by_S om : P -> comparison A E n_t P (compare_S A E (default_weights A) n_t om).

(** Nothing is rounded, or nothing that is counted exceeds the precision. *)
Definition in_precision (A : arith) (f : fmt) (coders : list string) (items : dict (dict seg)) : Prop :=
  A = exactA \/ (cached f coders items /\ workload f coders items <= 10 ^ 28).

(** A gap where a coder does not place all the types that the two coders use. *)
Definition some_gap_unmarked (f : fmt) (coders : list string) (items : dict (dict seg)) : Prop :=
  exists ic c c' t, ic ∈ items /\ c ∈ coders /\ c' ∈ coders /\ c <> c' /\ t ∈ coding f c ic /\
    exists d, used (coding f c ic) (coding f c' ic) d /\ d ∉ t.

(** Every coder places the same types at every gap of an item. *)
Definition all_gaps_marked (f : fmt) (coders : list string) (items : dict (dict seg)) : Prop :=
  forall ic, ic ∈ items -> exists U : gset Z, forall c t, c ∈ coders -> t ∈ coding f c ic -> t = U.

(** A value at most 1; parts between 0 and 1. *)
Definition at_most_one (r : agres) : Prop :=
  match r with
  | GVal v => (nval v <= 1)%Q
  | GParts a e => (0 <= nval a <= 1)%Q /\ (0 <= nval e <= 1)%Q
  end.

Definition equals_one (r : agres) : Prop :=
  match r with GVal v => (nval v == 1)%Q | GParts a _ => (nval a == 1)%Q end.

(** B or S with the default weights. *)
Definition compare_with (b : bool) (A : arith) (E : env) (n_t : Z) (om : bool) : Agreement.compare :=
  if b then compare_B A E (default_weights A) n_t om else compare_S A E (default_weights A) n_t om.

(** [items'] are [items] in another order and perhaps with other names, and
    with [rho c] in the place of coder [c], in any order. *)
Definition relabelled (rho : string -> string) (items items' : dict (dict seg)) : Prop :=
  exists items1, items ≡ₚ items1 /\
    Forall2 (fun ic ic' => dict_ok (snd ic) /\ snd ic' ≡ₚ ((fun cs => (rho (fst cs), snd cs)) <$> snd ic)) items1 items'.

(** The coders of item [ic] place boundaries of one type only. *)
Definition one_boundary_type (f : fmt) (coders : list string) (ic : string * dict seg) : Prop :=
  exists t : Z, forall c s, c ∈ coders -> s ∈ coding f c ic -> s ⊆ {[t]}.

Definition equally_many (f : fmt) (coders : list string) (ic : string * dict seg) : Prop :=
  forall c c', c ∈ coders -> c' ∈ coders -> marks (coding f c ic) = marks (coding f c' ic).
