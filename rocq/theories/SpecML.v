(** Specifications for the confusion matrix and the metrics on it. *)
From Verif Require Export SpecSim ML.
Open Scope Z_scope.

(** What a caller sees: [matrix[p][a]] and [matrix.classes()]. *)
Definition cell (m : cmatrix) (p a : label) : num := fst (cm_get m p a).
Definition cls (m : cmatrix) : gset label := fst (cm_get_classes m).

(** Operations on a matrix. *)
Inductive cm_op :=
  | ORow (p : label)                       (* matrix[p] *)
  | OGet (p a : label)                     (* matrix[p][a] *)
  | OSet (p a : label) (v : num)           (* matrix[p][a] = v *)
  | OAdd (p a : label) (v : num)           (* matrix[p][a] += v *)
  | OClasses.                              (* matrix.classes() *)

(** If the addition raises, the cell has been created all the same. *)
Definition cm_do (A : arith) (m : cmatrix) (op : cm_op) : cmatrix :=
  match op with
  | ORow p => snd (cm_row m p)
  | OGet p a => snd (cm_get m p a)
  | OSet p a v => cm_set m p a v
  | OAdd p a v => match cm_add A m p a v with Ok m' => m' | Err _ => snd (cm_get m p a) end
  | OClasses => snd (cm_get_classes m)
  end.

(** The matrix after a history, oldest operation first. *)
Definition cm_run (A : arith) (h : list cm_op) : cmatrix := foldl (cm_do A) cm_empty h.

Definition reachable (A : arith) (m : cmatrix) : Prop := exists h, m = cm_run A h.

(** The value last stored in a cell, for a history with the newest operation first. *)
Fixpoint stored (A : arith) (h : list cm_op) (p a : label) : num :=
  match h with
  | [] => NInt 0
  | OSet p' a' v :: h => if decide ((p', a') = (p, a)) then v else stored A h p a
  | OAdd p' a' v :: h =>
    if decide ((p', a') = (p, a))
    then match nadd A (stored A h p a) v with Ok w => w | Err _ => stored A h p a end
    else stored A h p a
  | _ :: h => stored A h p a
  end.

(** The keys used in cell accesses, and those used in bare row accesses. *)
Definition op_keys (op : cm_op) : gset label :=
  match op with OGet p a | OSet p a _ | OAdd p a _ => {[p; a]} | _ => ∅ end.
Definition op_bare (op : cm_op) : gset label :=
  match op with ORow p => {[p]} | _ => ∅ end.
Definition keys_of (h : list cm_op) : gset label := ⋃ (op_keys <$> h).
Definition bare_of (h : list cm_op) : gset label := ⋃ (op_bare <$> h).

(** Sums over sets of classes. *)
Definition qsum (l : list Q) : Q := foldr Qplus 0%Q l.
Definition csum (f : label -> Q) (s : gset label) : Q := qsum (f <$> elements s).

Definition diagonal (m : cmatrix) : Q := csum (fun c => nval (cell m c c)) (cls m).
Definition total (m : cmatrix) : Q := csum (fun p => csum (fun a => nval (cell m p a)) (cls m)) (cls m).
Definition row_sum (m : cmatrix) (p : label) : Q := csum (fun a => nval (cell m p a)) (cls m).
Definition col_sum (m : cmatrix) (a : label) : Q := csum (fun p => nval (cell m p a)) (cls m).

(** Cell contents on which addition is exact: ints in every arithmetic, ints
    and Decimals in exact arithmetic. *)
Definition is_int (v : num) : Prop := match v with NInt _ => True | _ => False end.
Definition not_float (v : num) : Prop := match v with NFlt _ => False | _ => True end.
Definition exact_cells (A : arith) (m : cmatrix) : Prop :=
  (forall p a, is_int (cell m p a)) \/ (A = exactA /\ forall p a, not_float (cell m p a)).
Definition nonneg_cells (m : cmatrix) : Prop := forall p a, (0 <= nval (cell m p a))%Q.

(** The diagonal holds no Decimal zero (an int 0 is fine). *)
Definition no_decimal_zero (m : cmatrix) : Prop := forall c q, cell m c c = NDec q -> ~ (q == 0)%Q.

(** The F-beta formula. *)
Definition fbeta (b2 p r : Q) : Q := ((1 + b2) * p * r / (b2 * p + r))%Q.

(** Precision and recall of one class: 0 without a true positive. *)
Definition class_precision (A : arith) (m : cmatrix) (c : label) : Q :=
  if Qeq_bool (nval (cell m c c)) 0 then 0 else rd A (nval (cell m c c) / row_sum m c).
Definition class_recall (A : arith) (m : cmatrix) (c : label) : Q :=
  if Qeq_bool (nval (cell m c c)) 0 then 0 else rd A (nval (cell m c c) / col_sum m c).

(** Micro-averages: sums over the classes of numerators and denominators. *)
Definition micro_value (A : arith) (m : cmatrix) : res num :=
  if Qeq_bool (diagonal m) 0 then Ok (NInt 0)
  else if Qeq_bool (total m) 0 then Err DivisionByZero
  else Ok (NDec (rd A (diagonal m / total m))).

Definition micro_f (m : cmatrix) (beta : Q) : Q :=
  (csum (fun c => (1 + beta * beta) * class_precision exactA m c * class_recall exactA m c) (cls m) /
   csum (fun c => beta * beta * class_precision exactA m c + class_recall exactA m c) (cls m))%Q.

(** The mean over the classes. *)
Definition macro_value (m : cmatrix) (f : label -> Q) : Q :=
  (csum f (cls m) / inject_Z (Z.of_nat (size (cls m))))%Q.

(** F of one class, exactly. *)
Definition class_f (m : cmatrix) (beta : Q) (c : label) : Q :=
  fbeta (beta * beta) (class_precision exactA m c) (class_recall exactA m c).

(** A metric query: which metric, which class (or [None] for an average) and
    which average. *)
Inductive kind := KPrecision | KRecall | KFmeasure (beta : Q).
Record query := Query { q_kind : kind; q_class : option Z; q_avg : average }.

Definition ask (A : arith) (o : cord) (m : cmatrix) (q : query) : res (num * cmatrix) :=
  match q_kind q with
  | KPrecision => precision A o m (q_class q) (q_avg q)
  | KRecall => recall A o m (q_class q) (q_avg q)
  | KFmeasure beta => fmeasure A o beta m (q_class q) (q_avg q)
  end.

(** The matrix after some queries, none of which raised. *)
Inductive asked (A : arith) (o : cord) : cmatrix -> list query -> cmatrix -> Prop :=
  | asked_nil m : asked A o m [] m
  | asked_cons m q v m1 qs m2 : ask A o m q = Ok (v, m1) -> asked A o m1 qs m2 -> asked A o m (q :: qs) m2.

(** The classes asked for. *)
Definition classes_asked (qs : list query) : gset label :=
  ⋃ ((fun q => match q_class q with Some t => {[Some t]} | None => ∅ end) <$> qs).

(** Every row key ever used without a column is also used with one. *)
Definition no_bare_rows (m : cmatrix) : Prop := cm_keys (cm_rows m) ⊆ cls m.

(** The increments [matrix[p][a] += v] made for some edits; [None] if a weight
    function raises. *)
Definition near_misses (W : weights) (n_t : Z) (t : Z) (l : list transposition) : res (list num) :=
  mapM (fun x => w_t W [x] n_t) (filter (fun x => t_type x = t) l).

(** A number the Decimal context can represent. *)
Definition fits (A : arith) (v : num) : Prop :=
  match v with NInt z => (rd A (inject_Z z) == inject_Z z)%Q | NDec q => (rd A q == q)%Q | NFlt _ => False end.

(** Non-negative ints or Decimals, no Decimal zero on the diagonal, and no
    cell longer than the Decimal context (ints may have any size if there are
    only ints). *)
Definition tame (A : arith) (m : cmatrix) : Prop :=
  nonneg_cells m /\ no_decimal_zero m /\ (exact_cells A m \/ forall p a, fits A (cell m p a)).
