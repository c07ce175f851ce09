(** Python dicts with string keys, in insertion order. *)
From stdpp Require Export strings.
From Verif Require Export Py.

Notation dict V := (list (string * V)).

Fixpoint dget {V} (d : dict V) (k : string) : option V :=
  match d with
  | [] => None
  | (k', v) :: d' => if decide (k = k') then Some v else dget d' k
  end.

(** [d[k] = v]: replaces in place, otherwise appends. *)
Fixpoint dset {V} (d : dict V) (k : string) (v : V) : dict V :=
  match d with
  | [] => [(k, v)]
  | (k', v') :: d' => if decide (k = k') then (k, v) :: d' else (k', v') :: dset d' k v
  end.

(** [del d[k]]. *)
Fixpoint ddel {V} (d : dict V) (k : string) : dict V :=
  match d with
  | [] => []
  | (k', v') :: d' => if decide (k = k') then d' else (k', v') :: ddel d' k
  end.

Definition dmem {V} (d : dict V) (k : string) : bool :=
  match dget d k with Some _ => true | None => false end.

(** [d.update(e)]. *)
Definition dupdate {V} (d e : dict V) : dict V := foldl (fun d '(k, v) => dset d k v) d e.

(** A list of bindings that is a dict: no key twice. *)
Definition dict_ok {V} (d : dict V) : Prop := NoDup d.*1.

(** [d[k]] on a plain dict. *)
Definition dlookup {V} (d : dict V) (k : string) : res V :=
  match dget d k with Some v => Ok v | None => Err KeyError end.

(** [','.join(parts)]. *)
Fixpoint join_comma (parts : list string) : string :=
  match parts with
  | [] => ""
  | [s] => s
  | s :: rest => s +:+ "," +:+ join_comma rest
  end.
