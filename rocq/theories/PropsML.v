(** Properties C27-C32: the confusion matrix, precision, recall and F-measure
    (segeval/ml/__init__.py and segeval/similarity/__init__.py:83-123). *)
From Verif Require Import SpecML Round RoundProofs SimRound MLProofs MLMain MLFmeasure MLMatrix MLCases MLFinal SimMain.
Open Scope Z_scope.

(** The iteration order used in concrete cases. *)
Definition o0 : cord := fun s => elements s.
Definition mass (l : list Z) : seg := Ints (ints l).

(** ** C27 *)

(** Off the diagonal every cell is a number of edits; additions of [h] alone are
    filed under the row [None], those of [r] alone under the column [None]. *)
Theorem C27_cells : forall A E W f n_t sh sr x y e m, env_ok E -> to_bstrings f sh sr = Ok (x, y) ->
  boundary_edit_distance E x y n_t = Ok e -> boundary_confusion_matrix A E W f n_t sh sr = Ok m ->
  (forall t u, t <> u -> cell m (Some t) (Some u) = NInt (Z.of_nat (countP (fun s => s = (t, u)) (e_sub e)))) /\
  (forall t, cell m None (Some t) = NInt (Z.of_nat (countP (fun a => a = Addition t SideA) (e_add e)))) /\
  (forall t, cell m (Some t) None = NInt (Z.of_nat (countP (fun a => a = Addition t SideB) (e_add e)))) /\
  cell m None None = NInt 0 /\
  (forall t, exists ws, near_misses W n_t t (e_transp e) = Ok ws /\
     foldM (nadd A) ws (NInt (Z.of_nat (both_in x y t))) = Ok (cell m (Some t) (Some t))).
Proof. exact matrix_cells. Qed.
Print Assumptions C27_cells.

(** The diagonal, with default weights: the matches plus span/[n_t] for every near miss. *)
Theorem C27_diagonal : forall E f n_t sh sr x y e m t, env_ok E -> n_t <> 0 -> to_bstrings f sh sr = Ok (x, y) ->
  boundary_edit_distance E x y n_t = Ok e ->
  boundary_confusion_matrix exactA E (default_weights exactA) f n_t sh sr = Ok m ->
  (nval (cell m (Some t) (Some t)) == inject_Z (Z.of_nat (both_in x y t)) +
     inject_Z (spanned (filter (fun x => t_type x = t) (e_transp e))) / inject_Z n_t)%Q.
Proof. exact matrix_diagonal. Qed.
Print Assumptions C27_diagonal.

(** Row and column [None] in terms of the segmentations: boundaries of [h] that are not
    in [r] less those substituted or transposed, and conversely. *)
Theorem C27_sides : forall A E W f n_t sh sr x y e m t, env_ok E -> small_types x y -> to_bstrings f sh sr = Ok (x, y) ->
  boundary_edit_distance E x y n_t = Ok e -> boundary_confusion_matrix A E W f n_t sh sr = Ok m ->
  cell m None (Some t) = NInt (Z.of_nat (only_in x y t) - Z.of_nat (countP (fun s => fst s = t) (e_sub e)) -
    Z.of_nat (countP (fun z => t_type z = t) (e_transp e))) /\
  cell m (Some t) None = NInt (Z.of_nat (only_in y x t) - Z.of_nat (countP (fun s => snd s = t) (e_sub e)) -
    Z.of_nat (countP (fun z => t_type z = t) (e_transp e))).
Proof. exact matrix_margins. Qed.
Print Assumptions C27_sides.

(** The matrix exists whenever the statistics do. *)
Theorem C27_exists : forall A E f n_t sh sr s, n_t <> 0 -> boundary_statistics A E (default_weights A) f n_t sh sr = Ok s ->
  exists m, boundary_confusion_matrix A E (default_weights A) f n_t sh sr = Ok m.
Proof. exact default_matrix_ok. Qed.
Print Assumptions C27_exists.

(** A match, a near miss, a substitution and two additions. *)
Example C27_case :
  let x := [{[1]}; {[1]}; ∅; {[2]}; {[1]}; ∅; ∅] in let y := [{[1]}; ∅; {[1]}; {[3]}; ∅; ∅; {[2]}] in
  boundary_edit_distance env0 x y 2 = Ok (Edits [Addition 1 SideA; Addition 2 SideB] [(2, 3)] [Transp 1 2 1]) /\
  rmap (fun m => (cell m (Some 1) (Some 1), cell m (Some 2) (Some 3), cell m None (Some 1), cell m (Some 2) None))
    (boundary_confusion_matrix pyA env0 (default_weights pyA) FSets 2 (Sets x) (Sets y)) =
  Ok (NDec (3 # 2), NInt 1, NInt 1, NInt 1).
Proof. split; [by_compute|]. vm_compute. reflexivity. Qed.

(** Read as matrix[predicted][actual], as the class documents, a boundary predicted by
    the hypothesis alone would be at [t][None]; it is at [None][t]. *)
Theorem C27_documented_sides_refuted :
  rmap (fun m => (cell m (Some 1) None, cell m None (Some 1)))
    (boundary_confusion_matrix pyA env0 (default_weights pyA) FSets 2 (Sets [{[1]}; ∅]) (Sets [∅; ∅])) = Ok (NInt 0, NInt 1).
Proof. vm_compute. reflexivity. Qed.
Print Assumptions C27_documented_sides_refuted.

(** ** C28 *)

Theorem C28_class : forall A o m, sane A -> cord_ok o -> reachable A m -> tame A m -> forall c ver,
  exists p r mp mr, precision A o m (Some c) ver = Ok (NDec p, mp) /\ recall A o m (Some c) ver = Ok (NDec r, mr) /\
    (0 <= p <= 1)%Q /\ (0 <= r <= 1)%Q /\
    (exact_cells A m -> p = class_precision A m (Some c) /\ r = class_recall A m (Some c)).
Proof. exact class_values. Qed.
Print Assumptions C28_class.

Theorem C28_averages : forall A o m, sane A -> cord_ok o -> reachable A m -> tame A m ->
  (exact_cells A m \/ (diagonal m <= inject_Z (10 ^ 28))%Q) -> Z.of_nat (size (cls m)) <= 10 ^ 28 ->
  forall ver, ver <> AvgOther ->
  exists p r mp mr, precision A o m None ver = Ok (p, mp) /\ recall A o m None ver = Ok (r, mr) /\
    (0 <= nval p <= 1)%Q /\ (0 <= nval r <= 1)%Q.
Proof. exact average_values. Qed.
Print Assumptions C28_averages.

(** F-measure: in [0,1] in exact arithmetic, for a class and for both averages. *)
Theorem C28_fmeasure : forall o m, cord_ok o -> reachable exactA m -> tame exactA m -> forall beta,
  (forall c ver, exists v m', fmeasure exactA o beta m (Some c) ver = Ok (v, m') /\
     (nval v == class_f m beta (Some c))%Q /\ (0 <= nval v <= 1)%Q) /\
  (exists v w mv mw, fmeasure exactA o beta m None AvgMicro = Ok (v, mv) /\ fmeasure exactA o beta m None AvgMacro = Ok (w, mw) /\
     (nval v == micro_f m beta)%Q /\ (nval w == macro_value m (class_f m beta))%Q /\ (0 <= nval v <= 1)%Q /\ (0 <= nval w <= 1)%Q).
Proof. exact (fun o m HO HR HT beta => conj (f_exact o m HO HR HT beta) (f_averages o m HO HR HT beta)). Qed.
Print Assumptions C28_fmeasure.

(** In 28 digits it exceeds 1 by at most 6 units in the 27th place. *)
Theorem C28_fmeasure_decimal : forall A o m, sane A -> cord_ok o -> reachable A m -> forall beta, tame A m ->
  forall c ver, exists v m', fmeasure A o beta m (Some c) ver = Ok (v, m') /\ (0 <= nval v <= 1 + 6 * (1 # 10 ^ 27))%Q.
Proof. exact f_range. Qed.
Print Assumptions C28_fmeasure_decimal.

(** It does exceed 1: p = 1, r = 1146330507/1146330508, beta = 8.0775E-14. *)
Definition m_ulp : cmatrix := cm_run pyA [OSet (Some 1) (Some 1) (NInt 1146330507); OSet (Some 2) (Some 1) (NInt 1)].

Theorem C28_fmeasure_refuted : reachable pyA m_ulp /\ tame pyA m_ulp /\ exists v m',
  fmeasure pyA o0 (80775 # 10 ^ 18) m_ulp (Some 1) AvgMicro = Ok (v, m') /\ (1 < nval v)%Q.
Proof.
  split; [eexists; reflexivity|]. split; [apply int_matrix; vm_compute; reflexivity|].
  apply above_one. vm_compute. reflexivity.
Qed.
Print Assumptions C28_fmeasure_refuted.

(** A Decimal zero as true positives is not recognised as 0 and the metric raises. *)
Theorem C28_decimal_zero_refuted : let m := cm_run pyA [OSet (Some 1) (Some 1) (NDec 0)] in
  reachable pyA m /\ nonneg_cells m /\ precision pyA o0 m (Some 1) AvgMicro = Err InvalidOperation.
Proof.
  split; [eexists; reflexivity|]. split; [|vm_compute; reflexivity].
  intros p a. pose proof (cells_all_ok (fun v => Qle_bool 0 (nval v)) (cm_run pyA [OSet (Some 1) (Some 1) (NDec 0)])) as K.
  apply Qle_bool_iff, K. vm_compute. reflexivity.
Qed.
Print Assumptions C28_decimal_zero_refuted.

(** A matrix of ints and one with a Decimal near miss. *)
Definition m_ints : cmatrix := cm_run pyA [OAdd (Some 1) (Some 1) (NInt 3); OAdd (Some 1) (Some 2) (NInt 1);
  OAdd (Some 2) (Some 2) (NInt 2); OAdd None (Some 1) (NInt 2); OGet (Some 3) (Some 3)].
Definition m_decs : cmatrix := cm_run pyA [OAdd (Some 1) (Some 1) (NInt 3); OAdd (Some 1) (Some 1) (NDec (1 # 2));
  OAdd (Some 1) None (NInt 1)].

Example C28_case : reachable pyA m_ints /\ tame pyA m_ints /\ reachable pyA m_decs /\ tame pyA m_decs /\
  cord_ok o0 /\ (diagonal m_decs <= inject_Z (10 ^ 28))%Q /\ size (cls m_ints) = 4%nat /\
  rmap fst (precision pyA o0 m_ints (Some 1) AvgMicro) = Ok (NDec (3 # 4)) /\
  rmap fst (recall pyA o0 m_ints (Some 1) AvgMicro) = Ok (NDec (3 # 5)) /\
  rmap fst (precision pyA o0 m_ints (Some 9) AvgMicro) = Ok (NDec 0) /\
  rmap fst (precision pyA o0 m_decs (Some 1) AvgMicro) = Ok (NDec (3888888888888888888888888889 # 5000000000000000000000000000)).
Proof.
  split; [eexists; reflexivity|]. split; [apply int_matrix; vm_compute; reflexivity|].
  split; [eexists; reflexivity|]. split; [apply dec_matrix; vm_compute; reflexivity|].
  split; [exact cord0_ok|]. split; [vm_compute; discriminate|]. repeat split; vm_compute; reflexivity.
Qed.

(** An average that is neither raises, whatever the matrix; with a class named the
    kind of average is not looked at. *)
Theorem C28_other_average : forall A o m beta,
  precision A o m None AvgOther = Err SegmentationMetricError /\ recall A o m None AvgOther = Err SegmentationMetricError /\
  fmeasure A o beta m None AvgOther = Err SegmentationMetricError /\
  forall c ver ver', precision A o m (Some c) ver = precision A o m (Some c) ver' /\
    recall A o m (Some c) ver = recall A o m (Some c) ver' /\ fmeasure A o beta m (Some c) ver = fmeasure A o beta m (Some c) ver'.
Proof. exact other_average. Qed.
Print Assumptions C28_other_average.

(** ** C29 *)

(** All cells ints, or any Decimals in exact arithmetic; cells may be negative. *)
Theorem C29_micro : forall A o m, sane A -> reachable A m -> cord_ok o -> exact_cells A m ->
  rmap fst (precision A o m None AvgMicro) = micro_value A m /\
  rmap fst (recall A o m None AvgMicro) = micro_value A m.
Proof. exact micro_precision_recall. Qed.
Print Assumptions C29_micro.

Example C29_case : exact_cells pyA m_ints /\ (diagonal m_ints == 5)%Q /\ (total m_ints == 8)%Q /\
  rmap fst (precision pyA o0 m_ints None AvgMicro) = Ok (NDec (5 # 8)) /\
  rmap fst (recall pyA o0 m_ints None AvgMicro) = Ok (NDec (5 # 8)).
Proof.
  split; [apply int_matrix; vm_compute; reflexivity|]. split; [vm_compute; reflexivity|]. split; [vm_compute; reflexivity|].
  split; vm_compute; reflexivity.
Qed.

(** With Decimals in the cells, rounding of the sums may tell them apart. *)
Theorem C29_decimals_refuted : let m := cm_run pyA [OSet (Some 1) (Some 1) (NDec (inject_Z (10 ^ 28)));
    OSet (Some 1) (Some 2) (NDec 4); OSet (Some 2) (Some 2) (NDec 4)] in
  reachable pyA m /\ tame pyA m /\
  rmap fst (precision pyA o0 m None AvgMicro) <> rmap fst (recall pyA o0 m None AvgMicro).
Proof.
  split; [eexists; reflexivity|]. split; [apply dec_matrix; vm_compute; reflexivity|]. vm_compute. discriminate.
Qed.
Print Assumptions C29_decimals_refuted.

(** ** C30 *)

Theorem C30_formula : forall o m, cord_ok o -> reachable exactA m -> tame exactA m -> forall beta c ver,
  exists v m', fmeasure exactA o beta m (Some c) ver = Ok (v, m') /\
    (nval v == class_f m beta (Some c))%Q /\ (0 <= nval v <= 1)%Q.
Proof. exact f_exact. Qed.
Print Assumptions C30_formula.

(** 0 if either is 0, p if p = r, and between p and r. *)
Theorem C30_mean : forall o m, cord_ok o -> reachable exactA m -> tame exactA m -> forall beta c,
  let p := class_precision exactA m c in let r := class_recall exactA m c in let f := class_f m beta c in
  ((p == 0 \/ r == 0) -> f == 0)%Q /\ (p == r -> f == p)%Q /\
  (forall x, p <= x -> r <= x -> f <= x)%Q /\ (forall x, x <= p -> x <= r -> x <= f)%Q.
Proof. exact f_mean. Qed.
Print Assumptions C30_mean.

(** The 28 digit result is the formula up to a relative error of 6E-27. *)
Theorem C30_decimal : forall A o m, sane A -> cord_ok o -> reachable A m -> forall beta, tame A m -> exact_cells A m ->
  forall c ver, exists v m', fmeasure A o beta m (Some c) ver = Ok (v, m') /\
  let f := fbeta (beta * beta) (class_precision A m (Some c)) (class_recall A m (Some c)) in
  (Qabs (nval v - f) <= 6 * (1 # 10 ^ 27) * f)%Q.
Proof. exact f_accuracy. Qed.
Print Assumptions C30_decimal.

Example C30_case : let m := cm_run exactA [OSet (Some 1) (Some 1) (NInt 3); OSet (Some 1) (Some 2) (NInt 1); OSet None (Some 1) (NInt 2)] in
  reachable exactA m /\ tame exactA m /\
  (class_precision exactA m (Some 1%Z) == 3 # 4)%Q /\ (class_recall exactA m (Some 1%Z) == 3 # 5)%Q /\
  (class_f m 1 (Some 1%Z) == 2 # 3)%Q /\ (class_f m 2 (Some 1%Z) == 5 # 8)%Q /\
  rmap fst (fmeasure pyA o0 2 m_ints (Some 1) AvgMicro) = Ok (NDec (5 # 8)).
Proof.
  split; [eexists; reflexivity|]. split; [apply int_matrix; vm_compute; reflexivity|]. repeat split; vm_compute; reflexivity.
Qed.

(** ** C31 *)

Theorem C31_cells : forall A h p a, cell (cm_run A h) p a = stored A (rev h) p a.
Proof. exact run_cells. Qed.
Print Assumptions C31_cells.

(** classes() always has the keys of every cell access, and nothing but these and the
    keys of bare row accesses. *)
Theorem C31_classes : forall A h, keys_of h ⊆ cls (cm_run A h) /\ cls (cm_run A h) ⊆ keys_of h ∪ bare_of h.
Proof. exact run_cls. Qed.
Print Assumptions C31_classes.

Theorem C31_classes_no_bare : forall A h, bare_of h = ∅ -> cls (cm_run A h) = keys_of h.
Proof. exact run_no_bare. Qed.
Print Assumptions C31_classes_no_bare.

(** After a write the bare rows are in as well. *)
Theorem C31_classes_after_write : forall A h p a v,
  cls (cm_run A (h ++ [OSet p a v])) = keys_of (h ++ [OSet p a v]) ∪ bare_of (h ++ [OSet p a v]).
Proof. exact run_after_write. Qed.
Print Assumptions C31_classes_after_write.

Definition h31 : list cm_op := [OSet (Some 1) (Some 2) (NInt 4); OClasses; OAdd (Some 1) (Some 2) (NInt 3); OGet None (Some 3); OGet (Some 1) (Some 2)].

Example C31_case : cell (cm_run pyA h31) (Some 1) (Some 2) = NInt 7 /\ cell (cm_run pyA h31) None (Some 3) = NInt 0 /\
  bare_of h31 = ∅ /\ cls (cm_run pyA h31) = {[Some 1; Some 2; Some 3; None]}.
Proof. split; [vm_compute; reflexivity|]. split; [vm_compute; reflexivity|]. by_compute. Qed.

(** A bare row access may be missed (here) or not (when a write is pending). *)
Theorem C31_bare_row_refuted :
  cls (cm_run pyA [OSet (Some 1) (Some 2) (NInt 4); OClasses; ORow (Some 5)]) = {[Some 1; Some 2]} /\
  cls (cm_run pyA [OSet (Some 1) (Some 2) (NInt 4); ORow (Some 5)]) = {[Some 1; Some 2; Some 5]} /\
  cls (cm_run pyA [OSet (Some 1) (Some 2) (NInt 4); OClasses; ORow (Some 5); OGet (Some 5) (Some 1)]) = {[Some 1; Some 2; Some 5]}.
Proof. by_compute. Qed.
Print Assumptions C31_bare_row_refuted.

(** ** C32 *)

Theorem C32_cells : forall A o m qs m', reachable A m -> cord_ok o -> asked A o m qs m' ->
  forall p a, cell m' p a = cell m p a.
Proof. exact queries_keep_cells. Qed.
Print Assumptions C32_cells.

(** Later micro averages are unchanged. *)
Theorem C32_micro : forall A o m qs m', sane A -> reachable A m -> cord_ok o -> exact_cells A m -> asked A o m qs m' ->
  rmap fst (precision A o m' None AvgMicro) = rmap fst (precision A o m None AvgMicro) /\
  rmap fst (recall A o m' None AvgMicro) = rmap fst (recall A o m None AvgMicro).
Proof. exact queries_micro. Qed.
Print Assumptions C32_micro.

Theorem C32_micro_fmeasure : forall o m qs m' beta, reachable exactA m -> cord_ok o -> tame exactA m -> asked exactA o m qs m' ->
  exists v v' n n', fmeasure exactA o beta m None AvgMicro = Ok (v, n) /\ fmeasure exactA o beta m' None AvgMicro = Ok (v', n') /\
    (nval v' == nval v)%Q.
Proof. exact queries_micro_f. Qed.
Print Assumptions C32_micro_fmeasure.

(** Exactly the classes asked for are added. *)
Theorem C32_classes : forall A o m qs m', reachable A m -> cord_ok o -> asked A o m qs m' -> no_bare_rows m ->
  cls m' = cls m ∪ classes_asked qs.
Proof. exact queries_classes. Qed.
Print Assumptions C32_classes.

(** The macro average shrinks in proportion. *)
Theorem C32_macro : forall o m qs m', reachable exactA m -> cord_ok o -> tame exactA m -> asked exactA o m qs m' ->
  exists v v' n n', precision exactA o m None AvgMacro = Ok (v, n) /\ precision exactA o m' None AvgMacro = Ok (v', n') /\
    (nval v' * inject_Z (Z.of_nat (size (cls m'))) == nval v * inject_Z (Z.of_nat (size (cls m))))%Q.
Proof. exact queries_macro. Qed.
Print Assumptions C32_macro.

(** Asking for the precision of an unknown class changes the macro average. *)
Theorem C32_macro_refuted : let m := cm_run pyA [OSet (Some 1) (Some 1) (NInt 3)] in
  reachable pyA m /\ no_bare_rows m /\ exists m', asked pyA o0 m [Query KPrecision (Some 9) AvgMacro] m' /\
  rmap fst (precision pyA o0 m None AvgMacro) = Ok (NDec 1) /\
  rmap fst (precision pyA o0 m' None AvgMacro) = Ok (NDec (1 # 2)) /\ cls m' = {[Some 1; Some 9]}.
Proof.
  split; [eexists; reflexivity|]. split; [unfold no_bare_rows; refine (bool_decide_unpack _ _); vm_compute; exact I|].
  ask_all_compute.
Qed.
Print Assumptions C32_macro_refuted.

Example C32_case : no_bare_rows m_ints /\ exists m',
  asked pyA o0 m_ints [Query KRecall (Some 9) AvgMicro; Query (KFmeasure 1) None AvgMacro] m' /\
  cls m' = cls m_ints ∪ {[Some 9]} /\ rmap fst (precision pyA o0 m' None AvgMicro) = Ok (NDec (5 # 8)).
Proof.
  split; [unfold no_bare_rows; refine (bool_decide_unpack _ _); vm_compute; exact I|].
  ask_all_compute.
Qed.
