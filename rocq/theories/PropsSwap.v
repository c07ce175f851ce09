(** Properties C65 and C66: exchanging the two segmentations, and precision and recall
    of the confusion matrix of two segmentations
    (segeval/similarity/__init__.py:83-123, segeval/ml/__init__.py,
    segeval/similarity/distance/multipleboundary.py). *)
From Verif Require Import SpecSwap SpecSim Round RoundProofs SimRound BedExtra SimTheory SimMain MLProofs MLMain MLMatrix MLFinal MLCases MLSwap
  MLBoundary SwapMetrics.
Open Scope Z_scope.

Definition o0 : cord := fun s => elements s.
Definition mass (l : list Z) : seg := Ints (ints l).

(** The metric of a matrix that may not exist. *)
Definition of_matrix (g : cmatrix -> res (num * cmatrix)) (m : res cmatrix) : res num := rmap fst (bind m g).

(** ** C65 *)

Theorem C65_edits : forall E E' a b n_t e e', env_ok E -> env_ok E' -> small_types a b -> length a = length b ->
  boundary_edit_distance E a b n_t = Ok e -> boundary_edit_distance E' b a n_t = Ok e' ->
  e_add e' ≡ₚ flip_addition <$> e_add e /\ e_sub e' ≡ₚ flip_substitution <$> e_sub e /\ e_transp e' ≡ₚ e_transp e.
Proof. exact bed_swapped. Qed.
Print Assumptions C65_edits.

(** Two optimal assignments exist here; both directions choose the same one. *)
Example C65_edits_case : small_types [{[1; 2]}; {[1]}; ∅; {[5]}] [{[3; 4]}; ∅; {[1]}; ∅] /\
  boundary_edit_distance env0 [{[1; 2]}; {[1]}; ∅; {[5]}] [{[3; 4]}; ∅; {[1]}; ∅] 2 =
    Ok (Edits [Addition 5 SideA] [(1, 3); (2, 4)] [Transp 1 2 1]) /\
  boundary_edit_distance env_rev [{[3; 4]}; ∅; {[1]}; ∅] [{[1; 2]}; {[1]}; ∅; {[5]}] 2 =
    Ok (Edits [Addition 5 SideB] [(3, 1); (4, 2)] [Transp 1 2 1]).
Proof. split; [apply small_typesb; vm_compute; reflexivity|]. split; vm_compute; reflexivity. Qed.

(** Off the diagonal, any weights and any arithmetic. *)
Theorem C65_cells : forall A E E' W f n_t sa sb x y m m', env_ok E -> env_ok E' -> small_types x y ->
  to_bstrings f sa sb = Ok (x, y) -> to_bstrings f sb sa = Ok (y, x) ->
  boundary_confusion_matrix A E W f n_t sa sb = Ok m -> boundary_confusion_matrix A E' W f n_t sb sa = Ok m' ->
  forall p a, p <> a -> cell m' a p = cell m p a.
Proof. exact swapped_cells. Qed.
Print Assumptions C65_cells.

Theorem C65_transposed : forall E E' f n_t sa sb x y m m', env_ok E -> env_ok E' -> small_types x y -> n_t <> 0 ->
  to_bstrings f sa sb = Ok (x, y) -> to_bstrings f sb sa = Ok (y, x) ->
  boundary_confusion_matrix exactA E (default_weights exactA) f n_t sa sb = Ok m ->
  boundary_confusion_matrix exactA E' (default_weights exactA) f n_t sb sa = Ok m' -> transposed m m'.
Proof. exact swapped_transposed. Qed.
Print Assumptions C65_transposed.

(** Precision becomes recall, and F with [b] becomes F with 1/[b]; class by class and on average. *)
Theorem C65_metrics : forall E E' f n_t sa sb x y m m' o o',
  env_ok E -> env_ok E' -> cord_ok o -> cord_ok o' -> small_types x y -> 0 < n_t -> to_bstrings f sa sb = Ok (x, y) ->
  boundary_confusion_matrix exactA E (default_weights exactA) f n_t sa sb = Ok m ->
  boundary_confusion_matrix exactA E' (default_weights exactA) f n_t sb sa = Ok m' ->
  forall b b', (b * b' == 1)%Q ->
  (forall t ver, exists v n n', precision exactA o m (Some t) ver = Ok (v, n) /\ recall exactA o' m' (Some t) ver = Ok (v, n')) /\
  (forall ver, ver <> AvgOther -> exists v v' n n',
     precision exactA o m None ver = Ok (v, n) /\ recall exactA o' m' None ver = Ok (v', n') /\ (nval v' == nval v)%Q) /\
  (forall c ver, c <> None \/ ver <> AvgOther -> exists v v' n n',
     fmeasure exactA o b m c ver = Ok (v, n) /\ fmeasure exactA o' b' m' c ver = Ok (v', n') /\ (nval v' == nval v)%Q).
Proof. exact swap_metrics. Qed.
Print Assumptions C65_metrics.

(** Without near misses the values are the same in any arithmetic, with any weights. *)
Theorem C65_counts : forall A E E' W f n_t sa sb x y m m' o o' e, sane A -> env_ok E -> env_ok E' -> cord_ok o -> cord_ok o' ->
  small_types x y -> to_bstrings f sa sb = Ok (x, y) -> boundary_edit_distance E x y n_t = Ok e -> e_transp e = [] ->
  boundary_confusion_matrix A E W f n_t sa sb = Ok m -> boundary_confusion_matrix A E' W f n_t sb sa = Ok m' ->
  (forall t ver, exists v n n', precision A o m (Some t) ver = Ok (v, n) /\ recall A o' m' (Some t) ver = Ok (v, n')) /\
  rmap fst (precision A o m None AvgMicro) = rmap fst (recall A o' m' None AvgMicro).
Proof. exact swap_counts. Qed.
Print Assumptions C65_counts.

Example C65_case :
  let x := [{[1; 2]}; {[1]}; ∅; {[5]}; {[1]}] in let y := [{[3; 4]}; ∅; {[1]}; ∅; {[1]}] in
  let m A := boundary_confusion_matrix A env0 (default_weights A) FSets 2 (Sets x) (Sets y) in
  let m' A := boundary_confusion_matrix A env_rev (default_weights A) FSets 2 (Sets y) (Sets x) in
  small_types x y /\ cord_ok o0 /\ to_bstrings FSets (Sets x) (Sets y) = Ok (x, y) /\ sane pyA /\ (2 * (1 # 2) == 1)%Q /\
  of_matrix (fun m => precision exactA o0 m (Some 1) AvgMicro) (m exactA) = Ok (NDec (3 # 5)) /\
  of_matrix (fun m => recall exactA o0 m (Some 1) AvgMicro) (m exactA) = Ok (NDec 1) /\
  of_matrix (fun m => recall exactA o0 m (Some 1) AvgMicro) (m' exactA) = Ok (NDec (3 # 5)) /\
  of_matrix (fun m => fmeasure exactA o0 2 m (Some 1) AvgMicro) (m exactA) = Ok (NDec (15 # 17)) /\
  of_matrix (fun m => fmeasure exactA o0 (1 # 2) m (Some 1) AvgMicro) (m' exactA) = Ok (NDec (15 # 17)) /\
  of_matrix (fun m => precision pyA o0 m (Some 1) AvgMicro)
    (boundary_confusion_matrix pyA env0 (default_weights pyA) FSets 1 (Sets x) (Sets y)) = Ok (NDec (3333333333333333333333333333 # 10000000000000000000000000000)) /\
  rmap e_transp (boundary_edit_distance env0 x y 1) = Ok [].
Proof.
  split; [apply small_typesb; vm_compute; reflexivity|]. split; [exact cord0_ok|]. split; [vm_compute; reflexivity|].
  split; [apply sane_pyA|]. repeat split; vm_compute; reflexivity.
Qed.

(** Precision itself is not symmetric. *)
Theorem C65_precision_symmetric_refuted :
  of_matrix (fun m => precision pyA o0 m (Some 1) AvgMicro)
    (boundary_confusion_matrix pyA env0 (default_weights pyA) FMass 2 (mass [1; 1; 1; 1]) (mass [2; 2])) = Ok (NDec 1) /\
  of_matrix (fun m => precision pyA o0 m (Some 1) AvgMicro)
    (boundary_confusion_matrix pyA env0 (default_weights pyA) FMass 2 (mass [2; 2]) (mass [1; 1; 1; 1])) =
    Ok (NDec (3333333333333333333333333333 # 10000000000000000000000000000)).
Proof. split; vm_compute; reflexivity. Qed.
Print Assumptions C65_precision_symmetric_refuted.

(** ** C66 *)

(** The classes are the boundary types used, and None if there are additions. *)
Theorem C66_classes : forall A E W f n_t sa sb x y e m, env_ok E -> small_types x y -> to_bstrings f sa sb = Ok (x, y) ->
  boundary_edit_distance E x y n_t = Ok e -> boundary_confusion_matrix A E W f n_t sa sb = Ok m ->
  reachable A m /\ (forall t, Some t ∈ cls m <-> used x y t) /\ (None ∈ cls m <-> e_add e <> []).
Proof. exact matrix_classes. Qed.
Print Assumptions C66_classes.

(** In Python's arithmetic, for segmentations of fewer than 10^25 units, all the metrics are defined and in range. *)
Theorem C66_range : forall E f n_t sa sb x y m, env_ok E -> small_types x y -> 0 < n_t -> to_bstrings f sa sb = Ok (x, y) ->
  boundary_confusion_matrix pyA E (default_weights pyA) f n_t sa sb = Ok m -> zlen x <= 10 ^ 25 ->
  forall o, cord_ok o ->
  (forall t ver, exists p r mp mr, precision pyA o m (Some t) ver = Ok (NDec p, mp) /\ recall pyA o m (Some t) ver = Ok (NDec r, mr) /\
     (0 <= p <= 1)%Q /\ (0 <= r <= 1)%Q) /\
  (forall ver, ver <> AvgOther -> exists p r mp mr, precision pyA o m None ver = Ok (p, mp) /\ recall pyA o m None ver = Ok (r, mr) /\
     (0 <= nval p <= 1)%Q /\ (0 <= nval r <= 1)%Q) /\
  (forall beta t ver, exists v m', fmeasure pyA o beta m (Some t) ver = Ok (v, m') /\ (0 <= nval v <= 1 + 6 * (1 # 10 ^ 27))%Q).
Proof. exact (fun E f n_t sa sb x y m HE Hs Hn Hb Hm => matrix_metrics pyA E f n_t sa sb x y m sane_pyA HE Hs Hn Hb Hm idem_pyA). Qed.
Print Assumptions C66_range.

(** What they are, exactly: of a type [t], the boundaries in both (a near miss counts
    span/[n_t]) among these, the ones of the first segmentation substituted and the ones
    only in the SECOND segmentation; and conversely for recall. *)
Theorem C66_values : forall E f n_t sa sb x y e m, env_ok E -> small_types x y -> 0 < n_t -> to_bstrings f sa sb = Ok (x, y) ->
  boundary_edit_distance E x y n_t = Ok e ->
  boundary_confusion_matrix exactA E (default_weights exactA) f n_t sa sb = Ok m ->
  forall o t ver, cord_ok o ->
  let both := (inject_Z (Z.of_nat (both_in x y t)) + inject_Z (spanned (filter (fun z => t_type z = t) (e_transp e))) / inject_Z n_t)%Q in
  exists p r mp mr, precision exactA o m (Some t) ver = Ok (NDec p, mp) /\ recall exactA o m (Some t) ver = Ok (NDec r, mr) /\
  (p == both / (both + inject_Z (Z.of_nat (countP (fun s => fst s = t) (e_sub e)))
                + inject_Z (Z.of_nat (countP (fun a => a = Addition t SideB) (e_add e)))))%Q /\
  (r == both / (both + inject_Z (Z.of_nat (countP (fun s => snd s = t) (e_sub e)))
                + inject_Z (Z.of_nat (countP (fun a => a = Addition t SideA) (e_add e)))))%Q.
Proof. exact matrix_precision_recall. Qed.
Print Assumptions C66_values.

(** With one boundary type: precision is lowered by what the second segmentation has alone, recall by what the first has alone. *)
Theorem C66_one_type : forall E f n_t sa sb x y e m o t ver, env_ok E -> cord_ok o -> small_types x y -> 0 < n_t ->
  (forall d, used x y d -> d = t) -> to_bstrings f sa sb = Ok (x, y) -> boundary_edit_distance E x y n_t = Ok e ->
  boundary_confusion_matrix exactA E (default_weights exactA) f n_t sa sb = Ok m ->
  let both := (inject_Z (Z.of_nat (both_in x y t)) + inject_Z (spanned (e_transp e)) / inject_Z n_t)%Q in
  let missed p q := inject_Z (Z.of_nat (only_in p q t) - Z.of_nat (length (e_transp e))) in
  exists p r mp mr, precision exactA o m (Some t) ver = Ok (NDec p, mp) /\ recall exactA o m (Some t) ver = Ok (NDec r, mr) /\
    (p == both / (both + missed y x))%Q /\ (r == both / (both + missed x y))%Q.
Proof. exact one_type. Qed.
Print Assumptions C66_one_type.

Example C66_case :
  let x := [{[1]}; {[1]}; ∅; {[2]}; {[1]}; ∅; ∅] in let y := [{[1]}; ∅; {[1]}; {[3]}; ∅; ∅; {[2]}] in
  let m A := boundary_confusion_matrix A env0 (default_weights A) FSets 2 (Sets x) (Sets y) in
  small_types x y /\ to_bstrings FSets (Sets x) (Sets y) = Ok (x, y) /\
  boundary_edit_distance env0 x y 2 = Ok (Edits [Addition 1 SideA; Addition 2 SideB] [(2, 3)] [Transp 1 2 1]) /\
  rmap cls (m pyA) = Ok {[Some 1; Some 2; Some 3; None]} /\
  of_matrix (fun m => precision exactA o0 m (Some 1) AvgMicro) (m exactA) = Ok (NDec 1) /\
  of_matrix (fun m => recall exactA o0 m (Some 1) AvgMicro) (m exactA) = Ok (NDec (3 # 5)) /\
  of_matrix (fun m => recall pyA o0 m None AvgMacro) (m pyA) = Ok (NDec (3 # 20)).
Proof. split; [apply small_typesb; vm_compute; reflexivity|]. split; [by_compute|]. split; [by_compute|]. split; [by_compute|]. repeat split; vm_compute; reflexivity. Qed.

(** A hypothesis with a boundary everywhere has precision 1, although two of its three
    boundaries are not in the reference; its recall is 1/3. *)
Theorem C66_false_positives_refuted :
  let m := boundary_confusion_matrix exactA env0 (default_weights exactA) FMass 2 (mass [1; 1; 1; 1]) (mass [2; 2]) in
  of_matrix (fun m => precision exactA o0 m (Some 1) AvgMicro) m = Ok (NDec 1) /\
  of_matrix (fun m => recall exactA o0 m (Some 1) AvgMicro) m = Ok (NDec (1 # 3)).
Proof. split; vm_compute; reflexivity. Qed.
Print Assumptions C66_false_positives_refuted.

(** A near miss earns what B charges for it: missing by two positions gives a higher
    precision than missing by one. *)
Theorem C66_closer_is_better_refuted :
  let p r := of_matrix (fun m => precision exactA o0 m (Some 1) AvgMicro)
    (boundary_confusion_matrix exactA env0 (default_weights exactA) FMass 3 (mass [2; 6]) r) in
  p (mass [3; 4; 1]) = Ok (NDec (1 # 4)) /\ p (mass [4; 3; 1]) = Ok (NDec (2 # 5)) /\
  let b r := boundary_similarity exactA env0 (default_weights exactA) FMass 3 false false (mass [2; 6]) r in
  b (mass [3; 4; 1]) = Ok (BVal (NDec (1 # 3))) /\ b (mass [4; 3; 1]) = Ok (BVal (NDec (1 # 6))).
Proof. repeat split; vm_compute; reflexivity. Qed.
Print Assumptions C66_closer_is_better_refuted.
