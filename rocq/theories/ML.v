(** Model of segeval/util/math.py (mean), segeval/ml/__init__.py and the
    confusion matrix part of segeval/similarity/__init__.py. *)
From Verif Require Export Similarity.
Open Scope Z_scope.

(** segeval/util/math.py:10-26 [mean]. *)
Definition mean (A : arith) (values : list num) : res num :=
  let* summation := foldM (nadd A) values (NDec 0) in
  if 0 <? zlen values then ndiv A summation (NInt (zlen values)) else Ok (NInt 0).

(** A class label: a boundary type or [None]. *)
Notation label := (option Z).

(** segeval/ml/__init__.py:190-252 [ConfusionMatrix] with its inner
    defaultdicts: the rows, the cached [__classes__], and [__dirty_classes__].
    The set [__classes__] of a fresh matrix is shared by the class, and callers
    may keep rows and sets: [MatrixHeap.v]. *)
Record cmatrix := CM {
  cm_rows : gmap label (gmap label num);
  cm_classes : gset label;
  cm_dirty : bool
}.

Definition cm_empty : cmatrix := CM ∅ ∅ false.

(** ml/__init__.py:218-239 [__getitem__]: creates the row if missing. *)
Definition cm_row (m : cmatrix) (p : label) : gmap label num * cmatrix :=
  match cm_rows m !! p with
  | Some r => (r, m)
  | None => (∅, CM (<[p := ∅]> (cm_rows m)) (cm_classes m) (cm_dirty m))
  end.

(** [matrix[p][a] = v], ml/__init__.py:201-203. *)
Definition cm_set (m : cmatrix) (p a : label) (v : num) : cmatrix :=
  let '(r, m) := cm_row m p in
  CM (<[p := <[a := v]> r]> (cm_rows m)) (cm_classes m) true.

(** [matrix[p][a]]: a missing cell is created as [int()] through
    [__setitem__] (defaultdict.__missing__). *)
Definition cm_get (m : cmatrix) (p a : label) : num * cmatrix :=
  let '(r, m) := cm_row m p in
  match r !! a with
  | Some v => (v, m)
  | None => (NInt 0, cm_set m p a (NInt 0))
  end.

(** [matrix[p][a] += v]. *)
Definition cm_add (A : arith) (m : cmatrix) (p a : label) (v : num) : res cmatrix :=
  let '(old, m) := cm_get m p a in
  let* new := nadd A old v in
  Ok (cm_set m p a new).

(** All keys of rows and cells. *)
Definition cm_keys (rows : gmap label (gmap label num)) : gset label :=
  dom rows ∪ ⋃ ((fun r => dom r) <$> (map_to_list rows).*2).

(** ml/__init__.py:241-252 [classes]. *)
Definition cm_get_classes (m : cmatrix) : gset label * cmatrix :=
  if cm_dirty m
  then let cs := cm_keys (cm_rows m) in (cs, CM (cm_rows m) cs false)
  else (cm_classes m, m).

(** The iteration order of a set of classes; any permutation of it. *)
Definition cord := gset label -> list label.
Definition cord_ok (o : cord) : Prop := forall s, o s ≡ₚ elements s.

(** Summation over the cells [cell k], ml/__init__.py:67-68 and 83-84. *)
Definition sum_cells (A : arith) (cell : label -> label * label) (acc : num * cmatrix) (k : label)
  : res (num * cmatrix) :=
  let '(d, m) := acc in
  let '(v, m) := cm_get m (fst (cell k)) (snd (cell k)) in
  let* d := nadd A d v in
  Ok (d, m).

(** ml/__init__.py:63-92, the numerator and denominator of [__precision__]
    ([byrow = true]) and [__recall__]. *)
Definition ratio_parts (A : arith) (o : cord) (byrow : bool) (m : cmatrix) (c : label)
  : res (num * num * cmatrix) :=
  let '(cs, m) := cm_get_classes m in
  let* (d, m) := foldM (sum_cells A (fun k => if byrow then (c, k) else (k, c))) (o cs) (NInt 0, m) in
  let '(n, m) := cm_get m c c in
  Ok (n, d, m).

(** [x is 0]: only the int 0 is that object. *)
Definition is_int0 (x : num) : bool := match x with NInt 0 => true | _ => false end.

(** ml/__init__.py:73-76 and 89-92. *)
Definition ratio_value (A : arith) (n d : num) : res num :=
  if is_int0 n then Ok (NDec 0) else ndiv A (to_dec n) (to_dec d).

Definition precision_class (A : arith) (o : cord) (m : cmatrix) (c : label) : res (num * cmatrix) :=
  let* (nd, m) := ratio_parts A o true m c in
  let* v := ratio_value A (fst nd) (snd nd) in Ok (v, m).

Definition recall_class (A : arith) (o : cord) (m : cmatrix) (c : label) : res (num * cmatrix) :=
  let* (nd, m) := ratio_parts A o false m c in
  let* v := ratio_value A (fst nd) (snd nd) in Ok (v, m).

(** ml/__init__.py:119-124, the two parts of F-beta; [beta] is the value of
    [Decimal(str(beta))]. *)
Definition fmeasure_terms (A : arith) (beta : Q) (p r : num) : res (num * num) :=
  let beta2 := nsq A (NDec beta) in
  let* beta2_1 := nadd A (NDec 1) beta2 in
  let* t := nmul A beta2_1 p in
  let* numerator := nmul A t r in
  let* u := nmul A beta2 p in
  let* denominator := nadd A u r in
  Ok (numerator, denominator).

(** ml/__init__.py:95-128 [__fmeasure__] with [return_parts = True]. *)
Definition fmeasure_parts (A : arith) (o : cord) (beta : Q) (m : cmatrix) (c : label)
  : res (num * num * cmatrix) :=
  let* (p, m) := precision_class A o m c in
  let* (r, m) := recall_class A o m c in
  let* nd := fmeasure_terms A beta p r in
  Ok (nd, m).

(** ml/__init__.py:95-128 [__fmeasure__] with [return_parts = False]. *)
Definition fmeasure_class (A : arith) (o : cord) (beta : Q) (m : cmatrix) (c : label)
  : res (num * cmatrix) :=
  let* (p, m) := precision_class A o m c in
  let* (r, m) := recall_class A o m c in
  if neqb p (NInt 0) || neqb r (NInt 0) then Ok (NInt 0, m)
  else
    let* (n, d) := fmeasure_terms A beta p r in
    let* v := ndiv A (to_dec n) (to_dec d) in
    Ok (v, m).

(** ml/__init__.py:15 [Average]; [AvgOther] is any other value. *)
Inductive average := AvgMicro | AvgMacro | AvgOther.

(** A per-class metric: its parts and its value, both reading the matrix. *)
Record cmetric := CMetric {
  cparts : cmatrix -> label -> res (num * num * cmatrix);
  cvalue : cmatrix -> label -> res (num * cmatrix)
}.

Definition precision_metric A o := CMetric (ratio_parts A o true) (precision_class A o).
Definition recall_metric A o := CMetric (ratio_parts A o false) (recall_class A o).
Definition fmeasure_metric A o beta := CMetric (fmeasure_parts A o beta) (fmeasure_class A o beta).

(** ml/__init__.py:26-31. *)
Definition micro_step (A : arith) (M : cmetric) (acc : num * num * cmatrix) (c : label)
  : res (num * num * cmatrix) :=
  let '(n, d, m) := acc in
  let* (cnd, m) := cparts M m c in
  let* n := nadd A n (fst cnd) in
  let* d := nadd A d (snd cnd) in
  Ok (n, d, m).

(** ml/__init__.py:39-42. *)
Definition macro_step (M : cmetric) (acc : list num * cmatrix) (c : label) : res (list num * cmatrix) :=
  let '(vs, m) := acc in
  let* (v, m) := cvalue M m c in
  Ok (vs ++ [v], m).

(** ml/__init__.py:18-51 [__value_micro_macro__] on one matrix.  The class
    argument [None] means "average"; consequently a class cannot be [None]
    here, although the averages do visit the class [None]. *)
Definition micro_macro (A : arith) (o : cord) (M : cmetric) (m : cmatrix) (c : option Z)
  (version : average) : res (num * cmatrix) :=
  let '(cs, m) := cm_get_classes m in
  match c with
  | Some t => cvalue M m (Some t)
  | None =>
    match version with
    | AvgMicro =>
      let* (nd, m) := foldM (micro_step A M) (o cs) (NInt 0, NInt 0, m) in
      let '(n, d) := nd in
      if neqb n (NInt 0) then Ok (NInt 0, m)
      else let* v := ndiv A (to_dec n) d in Ok (v, m)
    | AvgMacro =>
      let* (vs, m) := foldM (macro_step M) (o cs) ([], m) in
      let* v := mean A vs in Ok (v, m)
    | AvgOther => Err SegmentationMetricError
    end
  end.

(** ml/__init__.py:131-187. *)
Definition precision A o m c v := micro_macro A o (precision_metric A o) m c v.
Definition recall A o m c v := micro_macro A o (recall_metric A o) m c v.
Definition fmeasure A o beta m c v := micro_macro A o (fmeasure_metric A o beta) m c v.

(** ml/__init__.py:52-60: a dict of matrices, entry by entry. *)
Definition micro_macro_dict (A : arith) (o : cord) (M : cmetric) (ms : list (string * cmatrix))
  (c : option Z) (version : average) : res (list (string * num)) :=
  mapM (fun '(lab, m) => let* (v, _) := micro_macro A o M m c version in Ok (lab, v)) ms.

(** segeval/similarity/__init__.py:83-123 [__boundary_confusion_matrix__]. *)
Definition cm_match (A : arith) (m : cmatrix) (t : Z) : res cmatrix :=
  cm_add A m (Some t) (Some t) (NInt 1).

Definition cm_transp (A : arith) (W : weights) (n_t : Z) (m : cmatrix) (t : transposition) : res cmatrix :=
  let* w := w_t W [t] n_t in
  cm_add A m (Some (t_type t)) (Some (t_type t)) w.

Definition cm_subst (A : arith) (m : cmatrix) (s : substitution) : res cmatrix :=
  cm_add A m (Some (fst s)) (Some (snd s)) (NInt 1).

Definition cm_addition (A : arith) (m : cmatrix) (x : addition) : res cmatrix :=
  let '(hyp, ref) :=
    match a_side x with
    | SideA => (None, Some (a_type x))
    | SideB => (Some (a_type x), None)
    end in
  cm_add A m hyp ref (NInt 1).

Definition matrix_of_stats (A : arith) (W : weights) (n_t : Z) (s : stats) : res cmatrix :=
  let* m := foldM (cm_match A) (st_matches s) cm_empty in
  let* m := foldM (cm_transp A W n_t) (e_transp (st_edits s)) m in
  let* m := foldM (cm_subst A) (e_sub (st_edits s)) m in
  foldM (cm_addition A) (e_add (st_edits s)) m.

Definition boundary_confusion_matrix (A : arith) (E : env) (W : weights) (f : fmt) (n_t : Z)
  (a b : seg) : res cmatrix :=
  let* s := boundary_statistics A E W f n_t a b in
  matrix_of_stats A W n_t s.
