(** Which keywords each public function takes and what they mean, independently of how
    the code hands them around. *)
From Verif Require Import Keywords SpecDispatch.
Open Scope string_scope.
Open Scope Z_scope.

(** The keywords of each function. *)
Definition takes (fn : metric_fn) : list string :=
  match fn with
  | Pk => ["boundary_format"; "permuted"; "one_minus"; "return_parts"; "window_size"; "fnc_round"]
  | WindowDiff => ["boundary_format"; "permuted"; "one_minus"; "return_parts"; "window_size"; "fnc_round"; "lamprier_et_al_2007_fix"]
  | BoundarySim | SegmentationSim | ConfusionMatrix =>
      ["boundary_format"; "permuted"; "one_minus"; "return_parts"; "n_t"; "boundary_types"; "weight"]
  | BoundaryStats => ["boundary_format"; "permuted"; "n_t"; "boundary_types"; "weight"]
  end.

(** All keywords are among [ks]. *)
Definition only (ks : list string) (kws : dict kval) : Prop := forall k, k ∈ kws.*1 -> k ∈ ks.

(** The value of keyword [k], or what stands for it when it is absent. *)
Definition setting (kws : dict kval) (k : string) (absent : kval) : kval := default absent (dget kws k).

(** A flag that is on. *)
Definition on (kws : dict kval) (k : string) (absent : bool) : bool := ktrue (setting kws k (KBool absent)).

(** The format asked for. *)
Definition format_of (kws : dict kval) (f : fmt) : Prop := setting kws "boundary_format" (KFmt FMass) = KFmt f.

(** The size of the window asked for: none means the default one, rounded by [rnd]. *)
Inductive window_of (kws : dict kval) : option Z -> (Q -> Z) -> Prop :=
| window_given k rnd : setting kws "window_size" KNone = KArg (AInt k) -> window_of kws (Some k) rnd
| window_default rnd : setting kws "window_size" KNone = KNone -> setting kws "fnc_round" (KRound default_round) = KRound rnd ->
    window_of kws None rnd.

(** The weights and the span asked for. *)
Definition edits_of (A : arith) (kws : dict kval) (W : weights) (n_t : Z) : Prop :=
  setting kws "weight" (KWeights (default_weights A)) = KWeights W /\ setting kws "n_t" (KArg (AInt 2)) = KArg (AInt n_t).

(** There is something to compare: two coders of one item. *)
Definition some_pair {C} (items : dict (dict C)) : Prop := exists item cs, (item, cs) ∈ items /\ (2 <= length cs)%nat.

(** ... or one coder in each of two datasets. *)
Definition some_cross {C} (ia ib : dict (dict C)) : Prop :=
  exists item ca cb, (item, ca) ∈ ia /\ (item, cb) ∈ ib /\ ca <> [] /\ cb <> [].

(** The same codings said to be in another format. *)
Definition read_as (b : dataset seg) (f : fmt) : dataset seg :=
  Dataset (ds_items b) (ds_props b) (ds_types b) f (ds_coders b).

(** The keywords of the agreement functions. *)
Definition agreement_takes : list string :=
  ["boundary_format"; "permuted"; "one_minus"; "return_parts"; "n_t"; "boundary_types"; "weight"; "fnc_compare"].

(** The result of an agreement function. *)
Definition as_aval (g : agres) : aval := match g with GVal v => AVal v | GParts x y => AParts x y end.
