(** Changes to segmentations: renamed types, added context, reversal. *)
From Verif Require Export SpecSim.
Open Scope Z_scope.

(** Every boundary type [d] is called [f d] instead. *)
Definition renamed (f : Z -> Z) (s : bstring) : bstring := (fun t => set_map f t) <$> s.

(** The transposition [k] gaps further on. *)
Definition moved (k : nat) (t : transposition) : transposition :=
  Transp (k + t_start t) (k + t_end t) (t_type t).

(** The transposition of the same gaps of type [f d] instead of [d]. *)
Definition retyped (f : Z -> Z) (t : transposition) : transposition :=
  Transp (t_start t) (t_end t) (f (t_type t)).

(** How many boundaries a string has. *)
Definition nbounds (s : bstring) : nat := sum_list (size <$> s).
