(** Datasets as objects: the inner dicts and the coder set are references, so
    that sharing and copying can be told apart (segeval/data/__init__.py).  The
    codings themselves, the properties, the boundary types and the format are
    values: no modelled operation changes them in place. *)
From Verif Require Export SpecData.
From stdpp Require Export gmap.

Definition loc := positive.

(** The objects that exist: dicts (coder to coding) and sets of names. *)
Record heap (C : Type) := Heap { h_dicts : gmap loc (dict C); h_sets : gmap loc (gset string) }.
Arguments Heap {C}.
Arguments h_dicts {C}.
Arguments h_sets {C}.

(** The state of a [Dataset] object: its own entries refer to inner dicts. *)
Record hdataset := HDataset {
  hd_items : dict loc;
  hd_coders : loc;
  hd_props : dict json;
  hd_types : gset Z;
  hd_format : fmt
}.

Section Heaps.
Context {C : Type}.
Implicit Types h : heap C.

Definition read_dict h (l : loc) : dict C := default [] (h_dicts h !! l).
Definition read_set h (l : loc) : gset string := default ∅ (h_sets h !! l).
Definition write_dict h (l : loc) (d : dict C) : heap C := Heap (<[l := d]> (h_dicts h)) (h_sets h).
Definition write_set h (l : loc) (s : gset string) : heap C := Heap (h_dicts h) (<[l := s]> (h_sets h)).

(** A new object. *)
Definition new_loc {V} (m : gmap loc V) : loc := fresh (dom m : gset loc).

(** data/__init__.py:73-79: add one coding; nothing is looked at once an
    exception is raised. *)
Definition h_coding (a : hdataset) (item : string) (st : heap C * option exn) (cm : string * C) : heap C * option exn :=
  match st with
  | (h, Some e) => (h, Some e)
  | (h, None) =>
    let '(coder, coding) := cm in
    let h := write_set h (hd_coders a) ({[coder]} ∪ read_set h (hd_coders a)) in
    match dget (hd_items a) item with
    | None => (h, Some KeyError)
    | Some l =>
      if dmem (read_dict h l) coder then (h, Some DataIOError)
      else (write_dict h l (dset (read_dict h l) coder coding), None)
    end
  end.

(** data/__init__.py:64-79: add one item of [other], whose codings are in the
    dict at [src].  The loop over that dict never changes it: a write goes to it
    only if it is also the dict of the receiving item, and then its first coder
    is a duplicate. *)
Definition h_item (prepend : option (list string)) (st : heap C * hdataset * option exn) (ic : string * loc) :
  heap C * hdataset * option exn :=
  match st with
  | (h, a, Some e) => (h, a, Some e)
  | (h, a, None) =>
    let '(item, src) := ic in
    let item := prefixed prepend item in
    let '(h, a) :=
      if dmem (hd_items a) item then (h, a)
      else let l := new_loc (h_dicts h) in
           (write_dict h l [], HDataset (dset (hd_items a) item l) (hd_coders a) (hd_props a) (hd_types a) (hd_format a)) in
    let '(h, e) := foldl (h_coding a item) (h, None) (read_dict h src) in
    (h, a, e)
  end.

(** data/__init__.py:59-80 [Dataset.__iadd__]. *)
Definition h_iadd h (self other : hdataset) (prepend : option (list string)) : heap C * hdataset * option exn :=
  foldl (h_item prepend) (h, self, None) (hd_items other).

(** data/__init__.py:93 [copy.deepcopy(self)]: every inner dict is copied once,
    however often it is referred to ([memo]). *)
Definition copy_item (st : heap C * gmap loc loc * dict loc) (il : string * loc) : heap C * gmap loc loc * dict loc :=
  let '(h, memo, items) := st in
  match memo !! snd il with
  | Some l' => (h, memo, dset items (fst il) l')
  | None =>
    let l' := new_loc (h_dicts h) in
    (write_dict h l' (read_dict h (snd il)), <[snd il := l']> memo, dset items (fst il) l')
  end.

(** data/__init__.py:90-100 [copy]. *)
Definition h_copy h (self : hdataset) : heap C * hdataset :=
  let '(h, _, items) := foldl copy_item (h, ∅, []) (hd_items self) in
  let s := new_loc (h_sets h) in
  (write_set h s (read_set h (hd_coders self)), HDataset items s (hd_props self) (hd_types self) (hd_format self)).

(** data/__init__.py:82-88 [__add__]. *)
Definition h_add h (self other : hdataset) : heap C * res hdataset :=
  let '(h, d) := h_copy h self in
  match h_iadd h d other None with
  | (h, d, None) => (h, Ok d)
  | (h, _, Some e) => (h, Err e)
  end.

(** What the references of a dataset stand for. *)
Definition deref h (items : dict loc) : dict (dict C) := prod_map id (read_dict h) <$> items.
Definition view h (a : hdataset) : dataset C :=
  Dataset (deref h (hd_items a)) (hd_props a) (hd_types a) (hd_format a) (read_set h (hd_coders a)).

(** data/__init__.py:33-57 [Dataset.__init__] on a dict of inner dicts: the
    inner dicts are shared with it, the coder set is new. *)
Definition h_new h (data : dict loc) (props : option (dict json)) (types : option (list Z)) (f : fmt) : heap C * hdataset :=
  let items := dupdate [] data in
  let s := new_loc (h_sets h) in
  (write_set h s (all_coders (deref h items)),
   HDataset items s (dupdate [] (default [] props)) (match types with Some l => list_to_set l | None => {[1%Z]} end) f).

(** Every reference of the dataset is to an object that exists. *)
Definition live h (a : hdataset) : Prop :=
  (forall l, l ∈ (hd_items a).*2 -> l ∈ dom (h_dicts h)) /\ hd_coders a ∈ dom (h_sets h).

(** No inner dict is the value of two items of the dataset. *)
Definition unshared (a : hdataset) : Prop := NoDup (hd_items a).*2.

(** Two datasets have no inner dict in common. *)
Definition apart (a b : hdataset) : Prop := forall l, l ∈ (hd_items a).*2 -> l ∈ (hd_items b).*2 -> False.
End Heaps.
