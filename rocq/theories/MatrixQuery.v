(** Model of the metrics on confusion matrices as objects
    (segeval/ml/__init__.py:18-187).  [ML.v] drops what a query has added to the
    matrix when it raises; here it stays, and matrices may be shared. *)
From Verif Require Export MatrixHeap.
Open Scope Z_scope.

(** A computation on the objects: a value or an exception, and the objects
    afterwards; [None]: there is no such object. *)
Definition hm (X : Type) : Type := mheap -> option (res X * mheap).

Definition hlift {X} (r : res X) : hm X := fun H => Some (r, H).

Definition hbind {X Y} (f : hm X) (g : X -> hm Y) : hm Y := fun H =>
  match f H with
  | Some (Ok x, H') => g x H'
  | Some (Err e, H') => Some (Err e, H')
  | None => None
  end.

Notation "'let+' p := c1 'in' c2" := (hbind c1 (fun p => c2))
  (at level 200, p pattern, c1 at level 100, c2 at level 200, right associativity).

(** A [for] loop. *)
Fixpoint hfold {S X} (f : S -> X -> hm S) (l : list X) (s : S) : hm S :=
  match l with
  | [] => hlift (Ok s)
  | x :: l => let+ s' := f s x in hfold f l s'
  end.

(** ml/__init__.py:218-239: [matrix[p][a]]. *)
Definition h_cell (m : nat) (p a : label) : hm num := fun H =>
  match get_row H m p with
  | Some (r, H1) => match get_cell H1 r a with Some (v, H2) => Some (Ok v, H2) | None => None end
  | None => None
  end.

(** ml/__init__.py:241-252: [matrix.classes()], and the elements the set has then. *)
Definition h_classes (m : nat) : hm (gset label) := fun H =>
  match get_classes H m with
  | Some (s, H') => match mh_sets H' !! s with Some c => Some (Ok c, H') | None => None end
  | None => None
  end.

(** ml/__init__.py:63-92: numerator and denominator of [__precision__]
    ([byrow = true]) and [__recall__]. *)
Definition h_parts (A : arith) (o : cord) (byrow : bool) (m : nat) (c : label) : hm (num * num) :=
  let+ cs := h_classes m in
  let+ d := hfold (fun d k => let+ v := (if byrow then h_cell m c k else h_cell m k c) in hlift (nadd A d v)) (o cs) (NInt 0) in
  let+ n := h_cell m c c in
  hlift (Ok (n, d)).

Definition h_ratio (A : arith) (o : cord) (byrow : bool) (m : nat) (c : label) : hm num :=
  let+ (n, d) := h_parts A o byrow m c in
  hlift (ratio_value A n d).

(** ml/__init__.py:95-128 [__fmeasure__] with and without [return_parts]. *)
Definition h_fmeasure_parts (A : arith) (o : cord) (beta : Q) (m : nat) (c : label) : hm (num * num) :=
  let+ p := h_ratio A o true m c in
  let+ r := h_ratio A o false m c in
  hlift (fmeasure_terms A beta p r).

Definition h_fmeasure (A : arith) (o : cord) (beta : Q) (m : nat) (c : label) : hm num :=
  let+ p := h_ratio A o true m c in
  let+ r := h_ratio A o false m c in
  if neqb p (NInt 0) || neqb r (NInt 0) then hlift (Ok (NInt 0))
  else hlift (let* (n, d) := fmeasure_terms A beta p r in ndiv A (to_dec n) (to_dec d)).

(** The three functions handed to [__value_micro_macro__] (lines 131-187). *)
Inductive hkind := HPrecision | HRecall | HFmeasure (beta : Q).

Definition h_metric_parts (A : arith) (o : cord) (k : hkind) : nat -> label -> hm (num * num) :=
  match k with HPrecision => h_parts A o true | HRecall => h_parts A o false | HFmeasure beta => h_fmeasure_parts A o beta end.

Definition h_metric (A : arith) (o : cord) (k : hkind) : nat -> label -> hm num :=
  match k with HPrecision => h_ratio A o true | HRecall => h_ratio A o false | HFmeasure beta => h_fmeasure A o beta end.

(** ml/__init__.py:18-51 [__value_micro_macro__] on one matrix. *)
Definition h_query (A : arith) (o : cord) (k : hkind) (m : nat) (c : option Z) (version : average) : hm num :=
  let+ cs := h_classes m in
  match c, version with
  | Some t, _ => h_metric A o k m (Some t)
  | None, AvgMicro =>
    let+ (n, d) := hfold (fun acc c =>
        let+ (cn, cd) := h_metric_parts A o k m c in
        hlift (let* n := nadd A (fst acc) cn in let* d := nadd A (snd acc) cd in Ok (n, d))) (o cs) (NInt 0, NInt 0) in
    if neqb n (NInt 0) then hlift (Ok (NInt 0)) else hlift (ndiv A (to_dec n) d)
  | None, AvgMacro =>
    let+ vs := hfold (fun acc c => let+ v := h_metric A o k m c in hlift (Ok (acc ++ [v]))) (o cs) [] in
    hlift (mean A vs)
  | None, AvgOther => hlift (Err SegmentationMetricError)
  end.

(** ml/__init__.py:52-60: a dict of matrices, some of which may be the same object. *)
Definition h_query_dict (A : arith) (o : cord) (k : hkind) (ms : list (string * nat)) (c : option Z) (version : average)
  : hm (list (string * num)) :=
  hfold (fun acc '(lab, m) => let+ v := h_query A o k m c version in hlift (Ok (acc ++ [(lab, v)]))) ms [].

(** Queries one after the other, the caller catching what they raise. *)
Fixpoint h_queries (A : arith) (o : cord) (qs : list (hkind * nat * option Z * average)) (H : mheap) : option (list (res num) * mheap) :=
  match qs with
  | [] => Some ([], H)
  | (k, m, c, v) :: qs =>
    match h_query A o k m c v H with
    | Some (r, H') => match h_queries A o qs H' with Some (rs, H'') => Some (r :: rs, H'') | None => None end
    | None => None
    end
  end.
