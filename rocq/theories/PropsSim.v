(** Properties C06, C18-C26 and C61: statistics, B and S
    (segeval/similarity/__init__.py, boundary.py, segmentation.py, weight.py). *)
From Verif Require Import SpecSim Round RoundProofs BedExtra SimTheory SimMain SimSym.
Open Scope Z_scope.

(** ** C06 *)

Theorem C06_encodings : forall A E W n_t f f' m m' sa sb sa' sb',
  Spec.positive m -> Spec.positive m' -> m <> [] -> m' <> [] ->
  encodes f m sa -> encodes f m' sb -> encodes f' m sa' -> encodes f' m' sb' ->
  boundary_statistics A E W f n_t sa sb = boundary_statistics A E W f' n_t sa' sb' /\
  (forall om rp, boundary_similarity A E W f n_t om rp sa sb = boundary_similarity A E W f' n_t om rp sa' sb') /\
  (forall om rp, segmentation_similarity A E W f n_t om rp sa sb = segmentation_similarity A E W f' n_t om rp sa' sb') /\
  boundary_confusion_matrix A E W f n_t sa sb = boundary_confusion_matrix A E W f' n_t sa' sb'.
Proof. exact encoding_independent. Qed.
Print Assumptions C06_encodings.

(** The four encodings of the masses 2, 1, 3; labels may repeat. *)
Example C06_case :
  encodes FMass [2; 1; 3] (Ints (ints [2; 1; 3])) /\
  encodes FPosition [2; 1; 3] (Ints (ints [7; 7; 4; 7; 7; 7])) /\
  encodes FNltk [2; 1; 3] (Str (String.list_ascii_of_string "01100")) /\
  encodes FSets [2; 1; 3] (Sets [∅; {[1]}; {[1]}; ∅; ∅]).
Proof. split; [|split; [|split]]; apply encodesb_ok; vm_compute; reflexivity. Qed.

(** The same B for two of them. *)
Example C06_values :
  boundary_similarity pyA env0 (default_weights pyA) FMass 2 false false (Ints (ints [2; 1; 3])) (Ints (ints [1; 5])) =
  boundary_similarity pyA env0 (default_weights pyA) FSets 2 false false (Sets [∅; {[1]}; {[1]}; ∅; ∅]) (Sets [{[1]}; ∅; ∅; ∅; ∅]) /\
  boundary_similarity pyA env0 (default_weights pyA) FMass 2 false false (Ints (ints [2; 1; 3])) (Ints (ints [1; 5])) =
  Ok (BVal (NDec (1 # 4))).
Proof. split; vm_compute; reflexivity. Qed.

(** ** C18 *)

Theorem C18_statistics : forall A E W f n_t sa sb x y s,
  env_ok E -> to_bstrings f sa sb = Ok (x, y) -> boundary_statistics A E W f n_t sa sb = Ok s ->
  boundary_edit_distance E x y n_t = Ok (st_edits s) /\
  (forall d, countP (fun z => z = d) (st_matches s) = both_in x y d) /\
  (forall d, countP (fun z => z = d) (st_full_misses s) = (only_in x y d + only_in y x d)%nat) /\
  st_all s = Z.of_nat (nboundaries x y) /\ st_all s = 2 * zlen (st_matches s) + zlen (st_full_misses s) /\
  (forall d, d ∈ st_types s <-> used x y d) /\ st_pbs s = zlen x * Z.of_nat (size (st_types s)) /\
  (small_types x y -> zlen (st_full_misses s) =
     zlen (e_add (st_edits s)) + 2 * zlen (e_sub (st_edits s)) + 2 * zlen (e_transp (st_edits s))).
Proof. exact statistics_consistent. Qed.
Print Assumptions C18_statistics.

Example C18_case :
  to_bstrings FSets (Sets [{[1; 2]}; ∅; {[1]}]) (Sets [{[1; 3]}; {[1]}; ∅]) = Ok ([{[1; 2]}; ∅; {[1]}], [{[1; 3]}; {[1]}; ∅]) /\
  match boundary_statistics pyA env0 (default_weights pyA) FSets 2 (Sets [{[1; 2]}; ∅; {[1]}]) (Sets [{[1; 3]}; {[1]}; ∅]) with
  | Ok s => st_edits s = Edits [] [(2, 3)] [Transp 1 2 1] /\ st_matches s = [1] /\ st_all s = 6 /\ st_pbs s = 9 /\
            st_count s = NDec (8333333333333333333333333333 # 10000000000000000000000000000)
  | Err _ => False
  end.
Proof. split; [reflexivity|]. vm_compute. repeat split; reflexivity. Qed.

(** ** C19 *)

(** Exact arithmetic: any types, any size. *)
Theorem C19_range_exact : forall E f n_t sa sb x y,
  env_ok E -> to_bstrings f sa sb = Ok (x, y) -> (exists d, used x y d) -> n_t <> 0 ->
  exists v, boundary_similarity exactA E (default_weights exactA) f n_t false false sa sb = Ok (BVal (NDec v)) /\
    (0 <= v <= 1)%Q.
Proof. exact B_range_exact. Qed.
Print Assumptions C19_range_exact.

(** Decimal arithmetic: [sane] covers 28 digits, round half even. *)
Theorem C19_range : forall E f n_t sa sb x y,
  env_ok E -> to_bstrings f sa sb = Ok (x, y) -> (exists d, used x y d) -> n_t <> 0 ->
  forall A, sane A -> small_types x y -> Z.of_nat (nboundaries x y) <= 10 ^ 28 ->
  exists v, boundary_similarity A E (default_weights A) f n_t false false sa sb = Ok (BVal (NDec v)) /\ (0 <= v <= 1)%Q.
Proof. exact B_range. Qed.
Print Assumptions C19_range.

(** [pyA], the arithmetic of CPython, is [sane]; the documented example. *)
Example C19_case : sane pyA /\
  let x := [∅; {[1]}; ∅; ∅; {[1]}; ∅; ∅; ∅; ∅; ∅] in let y := [∅; ∅; ∅; ∅; {[1]}; ∅; ∅; ∅; ∅; ∅] in
  to_bstrings FMass (Ints (ints [2; 3; 6])) (Ints (ints [5; 6])) = Ok (x, y) /\
  small_types x y /\ extent x y 1 1 /\ nboundaries x y = 3%nat /\
  boundary_similarity pyA env0 (default_weights pyA) FMass 2 false false (Ints (ints [2; 3; 6])) (Ints (ints [5; 6])) =
    Ok (BVal (NDec (1 # 2))).
Proof.
  split; [exact sane_pyA|]. cbn zeta. split; [by_compute|]. split; [apply small_typesb; reflexivity|].
  split; [apply extentb_ok; vm_compute; reflexivity|]. split; vm_compute; reflexivity.
Qed.

(** ** C20 *)

Theorem C20_one_exact : forall E f n_t sa sb x y,
  env_ok E -> to_bstrings f sa sb = Ok (x, y) -> (exists d, used x y d) -> n_t <> 0 ->
  forall v, boundary_similarity exactA E (default_weights exactA) f n_t false false sa sb = Ok (BVal (NDec v)) ->
  (v == 1)%Q <-> x = y.
Proof. exact B_one_exact. Qed.
Print Assumptions C20_one_exact.

Theorem C20_one : forall E f n_t sa sb x y,
  env_ok E -> to_bstrings f sa sb = Ok (x, y) -> (exists d, used x y d) -> n_t <> 0 ->
  forall A, sane A -> small_types x y -> forall v, Z.of_nat (nboundaries x y) <= 10 ^ 12 -> n_t <= 10 ^ 12 ->
  boundary_similarity A E (default_weights A) f n_t false false sa sb = Ok (BVal (NDec v)) ->
  (v == 1)%Q <-> x = y.
Proof. exact B_one. Qed.
Print Assumptions C20_one.

(** Without a boundary nothing can be compared, whatever the weights do. *)
Theorem C20_no_boundaries : forall A E W f n_t sa sb x y c, env_ok E -> to_bstrings f sa sb = Ok (x, y) ->
  (forall d, ~ used x y d) -> w_a W [] = Ok c -> bed_fails A E W f n_t sa sb ValueError.
Proof. exact no_boundaries_error. Qed.
Print Assumptions C20_no_boundaries.

Example C20_case :
  boundary_similarity pyA env0 (default_weights pyA) FMass 2 false false (Ints (ints [2; 3])) (Ints (ints [2; 3])) = Ok (BVal (NDec 1)) /\
  boundary_similarity pyA env0 (default_weights pyA) FMass 2 false false (Ints (ints [5])) (Ints (ints [5])) = Err ValueError /\
  to_bstrings FMass (Ints (ints [5])) (Ints (ints [5])) = Ok ([∅; ∅; ∅; ∅], [∅; ∅; ∅; ∅]).
Proof. split; [vm_compute; reflexivity|]. split; [vm_compute; reflexivity|]. by_compute. Qed.

(** Identical segmentations without boundaries do not get the value 1. *)
Theorem C20_identical_refuted : exists E f sa x, env_ok E /\ to_bstrings f sa sa = Ok (x, x) /\
  boundary_similarity exactA E (default_weights exactA) f 2 false false sa sa = Err ValueError.
Proof. exists env0, FMass, (Ints (ints [5])), [∅; ∅; ∅; ∅]. split; [exact env0_ok|]. split; [by_compute|vm_compute; reflexivity]. Qed.
Print Assumptions C20_identical_refuted.

(** ** C21 *)

(** B and S, for any weights that depend on counts and distances only (as the
    ones in weight.py do) and any iteration orders in the two calls. *)
Theorem C21_symmetric : forall A E E' W f n_t sa sb, env_ok E -> env_ok E' -> neutral W ->
  (forall e e', to_bstring f sa = Err e -> to_bstring f sb = Err e' -> e = e') ->
  (forall x y, to_bstring f sa = Ok x -> to_bstring f sb = Ok y -> small_types x y) ->
  (forall om rp, same_result (boundary_similarity A E W f n_t om rp sa sb) (boundary_similarity A E' W f n_t om rp sb sa)) /\
  (forall om rp, segmentation_similarity A E W f n_t om rp sa sb = segmentation_similarity A E' W f n_t om rp sb sa).
Proof. exact metrics_symmetric. Qed.
Print Assumptions C21_symmetric.

Theorem C21_weights : (forall A, neutral (default_weights A)) /\ neutral plain_weights.
Proof. exact (conj default_neutral plain_neutral). Qed.
Print Assumptions C21_weights.

Example C21_case : env_ok env_rev /\
  boundary_similarity pyA env0 (default_weights pyA) FSets 2 false false (Sets [{[1; 2]}; ∅; {[1]}]) (Sets [{[1; 3]}; {[1]}; ∅]) =
  boundary_similarity pyA env_rev (default_weights pyA) FSets 2 false false (Sets [{[1; 3]}; {[1]}; ∅]) (Sets [{[1; 2]}; ∅; {[1]}]) /\
  to_bstring FMass (Ints (ints [2; 2])) = Ok [∅; {[1]}; ∅] /\ to_bstring FMass (Ints (ints [2; 1])) = Ok [∅; {[1]}] /\
  boundary_similarity pyA env0 (default_weights pyA) FMass 2 false false (Ints (ints [2; 2])) (Ints (ints [2; 1])) = Err SegmentationMetricError.
Proof.
  split; [exact env_rev_ok|]. split; [vm_compute; reflexivity|]. split; [by_compute|]. split; [by_compute|]. vm_compute; reflexivity.
Qed.

(** ** C22 *)

Theorem C22_zero_exact : forall E f n_t sa sb x y,
  env_ok E -> to_bstrings f sa sb = Ok (x, y) -> (exists d, used x y d) -> n_t <> 0 ->
  forall v e, boundary_similarity exactA E (default_weights exactA) f n_t false false sa sb = Ok (BVal (NDec v)) ->
  boundary_edit_distance E x y n_t = Ok e ->
  (v == 0)%Q <-> nmatches x y = 0%nat /\ e_sub e = [] /\ e_transp e = [].
Proof. exact B_zero_exact. Qed.
Print Assumptions C22_zero_exact.

Theorem C22_zero : forall E f n_t sa sb x y,
  env_ok E -> to_bstrings f sa sb = Ok (x, y) -> (exists d, used x y d) -> n_t <> 0 ->
  forall A, sane A -> small_types x y -> forall v e, Z.of_nat (nboundaries x y) <= 10 ^ 12 -> n_t <= 10 ^ 12 ->
  boundary_similarity A E (default_weights A) f n_t false false sa sb = Ok (BVal (NDec v)) ->
  boundary_edit_distance E x y n_t = Ok e ->
  (v == 0)%Q <-> nmatches x y = 0%nat /\ e_sub e = [] /\ e_transp e = [].
Proof. exact B_zero. Qed.
Print Assumptions C22_zero.

Example C22_case :
  to_bstrings FMass (Ints (ints [1; 5])) (Ints (ints [4; 2])) = Ok ([{[1]}; ∅; ∅; ∅; ∅], [∅; ∅; ∅; {[1]}; ∅]) /\
  boundary_edit_distance env0 [{[1]}; ∅; ∅; ∅; ∅] [∅; ∅; ∅; {[1]}; ∅] 2 = Ok (Edits [Addition 1 SideA; Addition 1 SideB] [] []) /\
  boundary_similarity pyA env0 (default_weights pyA) FMass 2 false false (Ints (ints [1; 5])) (Ints (ints [4; 2])) = Ok (BVal (NDec 0)) /\
  boundary_similarity pyA env0 (default_weights pyA) FMass 4 false false (Ints (ints [1; 5])) (Ints (ints [4; 2])) = Ok (BVal (NDec (1 # 4))).
Proof. split; [by_compute|]. split; [by_compute|]. split; vm_compute; reflexivity. Qed.

(** ** C23 *)

Theorem C23_B_flags : forall A E f n_t sa sb x y,
  env_ok E -> to_bstrings f sa sb = Ok (x, y) -> (exists d, used x y d) -> n_t <> 0 ->
  exists n d e,
  boundary_similarity A E (default_weights A) f n_t false true sa sb = Ok (BParts (NDec n) (NInt d) e) /\
  boundary_similarity A E (default_weights A) f n_t true true sa sb = Ok (BParts (NDec n) (NInt d) e) /\
  boundary_edit_distance E x y n_t = Ok e /\ d = edit_count e + Z.of_nat (nmatches x y) /\ 0 < d /\
  boundary_similarity A E (default_weights A) f n_t false false sa sb = Ok (BVal (NDec (rd A (n / inject_Z d)))) /\
  boundary_similarity A E (default_weights A) f n_t true false sa sb = Ok (BVal (NDec (rd A (1 - rd A (n / inject_Z d))))).
Proof. exact B_flags. Qed.
Print Assumptions C23_B_flags.

Theorem C23_S_flags : forall A E f n_t sa sb x y,
  env_ok E -> to_bstrings f sa sb = Ok (x, y) -> (exists d, used x y d) -> n_t <> 0 ->
  exists n d,
  segmentation_similarity A E (default_weights A) f n_t false true sa sb = Ok (SParts (NDec n) (NInt d)) /\
  segmentation_similarity A E (default_weights A) f n_t true true sa sb = Ok (SParts (NDec n) (NInt d)) /\
  (forall T : gset Z, (forall t, t ∈ T <-> used x y t) -> d = zlen x * (Z.of_nat (size T) * Z.of_nat (size T))) /\ 0 < d /\
  segmentation_similarity A E (default_weights A) f n_t false false sa sb = Ok (SVal (NDec (rd A (n / inject_Z d)))) /\
  segmentation_similarity A E (default_weights A) f n_t true false sa sb = Ok (SVal (NDec (rd A (1 - rd A (n / inject_Z d))))).
Proof. exact S_flags. Qed.
Print Assumptions C23_S_flags.

(** With weight_a, weight_s and weight_t the value is a float and
    [one_minus] fails. *)
Theorem C23_integer_weights : forall A E f n_t sa sb x y,
  env_ok E -> to_bstrings f sa sb = Ok (x, y) -> (exists d, used x y d) ->
  exists e, boundary_edit_distance E x y n_t = Ok e /\
  let d := edit_count e + Z.of_nat (nmatches x y) in
  boundary_similarity A E plain_weights f n_t false true sa sb = Ok (BParts (NInt (Z.of_nat (nmatches x y))) (NInt d) e) /\
  boundary_similarity A E plain_weights f n_t false false sa sb =
    Ok (BVal (NFlt (rf A (inject_Z (Z.of_nat (nmatches x y)) / inject_Z d)))) /\
  boundary_similarity A E plain_weights f n_t true false sa sb = Err TypeError.
Proof. exact B_plain. Qed.
Print Assumptions C23_integer_weights.

Example C23_case :
  let a := Ints (ints [2; 3; 6]) in let b := Ints (ints [5; 6]) in
  boundary_similarity pyA env0 (default_weights pyA) FMass 2 false true a b = Ok (BParts (NDec 1) (NInt 2) (Edits [Addition 1 SideA] [] [])) /\
  boundary_similarity pyA env0 (default_weights pyA) FMass 2 true false a b = Ok (BVal (NDec (1 # 2))) /\
  boundary_similarity pyA env0 plain_weights FMass 2 false false a b = Ok (BVal (NFlt (1 # 2))) /\
  boundary_similarity pyA env0 plain_weights FMass 2 true false a b = Err TypeError.
Proof. repeat split; vm_compute; reflexivity. Qed.

(** ** C24 *)

Theorem C24_exact : forall E f n_t sa sb x y,
  env_ok E -> to_bstrings f sa sb = Ok (x, y) -> (exists d, used x y d) -> n_t <> 0 -> small_types x y ->
  exists v w, segmentation_similarity exactA E (default_weights exactA) f n_t false false sa sb = Ok (SVal (NDec v)) /\
  (0 <= v)%Q /\ (v <= 1)%Q /\ ((v == 1)%Q <-> x = y) /\
  boundary_similarity exactA E (default_weights exactA) f n_t false false sa sb = Ok (BVal (NDec w)) /\ (w <= v)%Q.
Proof. exact S_all_exact. Qed.
Print Assumptions C24_exact.

Theorem C24_range : forall E f n_t sa sb x y,
  env_ok E -> to_bstrings f sa sb = Ok (x, y) -> (exists d, used x y d) -> n_t <> 0 ->
  forall A, sane A -> small_types x y -> forall T : gset Z, (forall t, t ∈ T <-> used x y t) ->
  zlen x * Z.of_nat (size T) * Z.of_nat (size T) <= 10 ^ 28 ->
  exists v, segmentation_similarity A E (default_weights A) f n_t false false sa sb = Ok (SVal (NDec v)) /\ (0 <= v <= 1)%Q.
Proof. exact S_range. Qed.
Print Assumptions C24_range.

Theorem C24_one : forall E f n_t sa sb x y,
  env_ok E -> to_bstrings f sa sb = Ok (x, y) -> (exists d, used x y d) -> n_t <> 0 ->
  forall A, sane A -> small_types x y -> forall T : gset Z, (forall t, t ∈ T <-> used x y t) ->
  forall v, zlen x * Z.of_nat (size T) * Z.of_nat (size T) <= 10 ^ 12 -> n_t <= 10 ^ 12 ->
  segmentation_similarity A E (default_weights A) f n_t false false sa sb = Ok (SVal (NDec v)) -> (v == 1)%Q <-> x = y.
Proof. exact S_one. Qed.
Print Assumptions C24_one.

Theorem C24_above_B : forall E f n_t sa sb x y,
  env_ok E -> to_bstrings f sa sb = Ok (x, y) -> (exists d, used x y d) -> n_t <> 0 ->
  forall A, sane A -> small_types x y -> forall T : gset Z, (forall t, t ∈ T <-> used x y t) ->
  forall v w, zlen x * Z.of_nat (size T) * Z.of_nat (size T) <= 10 ^ 28 ->
  Z.of_nat (nboundaries x y) <= 10 ^ 8 -> n_t <= 10 ^ 8 ->
  segmentation_similarity A E (default_weights A) f n_t false false sa sb = Ok (SVal (NDec v)) ->
  boundary_similarity A E (default_weights A) f n_t false false sa sb = Ok (BVal (NDec w)) -> (w <= v)%Q.
Proof. exact S_above_B. Qed.
Print Assumptions C24_above_B.

(** Three types at two gaps: the denominator is 18, where the documentation
    promises gaps times types, 6. *)
Example C24_case :
  let a := Sets [{[1; 2]}; {[3]}] in let b := Sets [{[1]}; {[3]}] in
  segmentation_similarity pyA env0 (default_weights pyA) FSets 2 false true a b = Ok (SParts (NDec 17) (NInt 18)) /\
  boundary_similarity pyA env0 (default_weights pyA) FSets 2 false false a b =
    Ok (BVal (NDec (6666666666666666666666666667 # 10000000000000000000000000000))).
Proof. split; vm_compute; reflexivity. Qed.

(** ** C25 *)

Theorem C25_scaled_exact : forall E x y n_t e lo hi, env_ok E -> length x = length y ->
  boundary_edit_distance E x y n_t = Ok e -> extent x y lo hi ->
  (forall l, l <> [] -> l ⊆ e_sub e ->
    exists q, w_s (default_weights exactA) l hi lo = Ok (NDec q) /\ (0 < q)%Q /\ (q < inject_Z (zlen l))%Q) /\
  (forall l, l <> [] -> l ⊆ e_transp e ->
    exists q, w_t (default_weights exactA) l n_t = Ok (NDec q) /\ (0 < q)%Q /\ (q < inject_Z (zlen l))%Q).
Proof. exact scaled_exact. Qed.
Print Assumptions C25_scaled_exact.

Theorem C25_scaled : forall A E x y n_t e lo hi, sane A -> env_ok E -> length x = length y ->
  boundary_edit_distance E x y n_t = Ok e -> extent x y lo hi ->
  (forall l, l <> [] -> l ⊆ e_sub e -> zlen l * (hi - lo + 1) <= 10 ^ 26 ->
    exists q, w_s (default_weights A) l hi lo = Ok (NDec q) /\ (0 < q)%Q /\ (q < inject_Z (zlen l))%Q) /\
  (forall l, l <> [] -> l ⊆ e_transp e -> zlen l * n_t <= 10 ^ 26 ->
    exists q, w_t (default_weights A) l n_t = Ok (NDec q) /\ (0 < q)%Q /\ (q < inject_Z (zlen l))%Q).
Proof. exact scaled_decimal. Qed.
Print Assumptions C25_scaled.

Theorem C25_zero_n_t : forall A E f sa sb x y, env_ok E -> to_bstrings f sa sb = Ok (x, y) ->
  (exists e, boundary_edit_distance E x y 0 = Ok e) /\
  ((exists d, used x y d) -> bed_fails A E (default_weights A) f 0 sa sb InvalidOperation).
Proof. exact zero_n_t. Qed.
Print Assumptions C25_zero_n_t.

Example C25_case : let x := [{[1; 2]}; ∅; {[1]}] in let y := [{[1; 4]}; {[1]}; ∅] in
  boundary_edit_distance env0 x y 3 = Ok (Edits [] [(2, 4)] [Transp 1 2 1]) /\ extent x y 1 4 /\
  w_s (default_weights pyA) [(2, 4)] 4 1 = Ok (NDec (1 # 2)) /\
  w_t (default_weights pyA) [Transp 1 2 1] 3 = Ok (NDec (3333333333333333333333333333 # 10000000000000000000000000000)).
Proof. split; [by_compute|]. split; [apply extentb_ok; vm_compute; reflexivity|]. split; vm_compute; reflexivity. Qed.

(** ** C26 *)

Theorem C26_lengths : forall A E W f n_t sa sb x y, to_bstring f sa = Ok x -> to_bstring f sb = Ok y -> length x <> length y ->
  bed_fails A E W f n_t sa sb SegmentationMetricError.
Proof. exact lengths_fail. Qed.
Print Assumptions C26_lengths.

Theorem C26_masses : forall A E W f n_t m m' sa sb, Spec.positive m -> Spec.positive m' -> m <> [] -> m' <> [] ->
  encodes f m sa -> encodes f m' sb -> zsum m <> zsum m' -> bed_fails A E W f n_t sa sb SegmentationMetricError.
Proof. exact masses_fail. Qed.
Print Assumptions C26_masses.

Theorem C26_format : forall A E W n_t sa sb, bed_fails A E W FOther n_t sa sb SegmentationMetricError.
Proof. exact other_format_fails. Qed.
Print Assumptions C26_format.

Example C26_case : encodes FMass [2; 3] (Ints (ints [2; 3])) /\ encodes FMass [2; 4] (Ints (ints [2; 4])) /\
  boundary_statistics pyA env0 (default_weights pyA) FMass 2 (Ints (ints [2; 3])) (Ints (ints [2; 4])) = Err SegmentationMetricError.
Proof. repeat split; vm_compute; reflexivity. Qed.

(** ** C61 *)

(** The value of B: one minus the weighted cost over edits plus matches. *)
Theorem C61_value_exact : forall E f n_t sa sb x y,
  env_ok E -> to_bstrings f sa sb = Ok (x, y) -> (exists d, used x y d) -> n_t <> 0 ->
  forall v e lo hi, boundary_similarity exactA E (default_weights exactA) f n_t false false sa sb = Ok (BVal (NDec v)) ->
  boundary_edit_distance E x y n_t = Ok e -> extent x y lo hi ->
  (v == 1 - edit_cost e (hi - lo + 1) n_t / inject_Z (edit_count e + Z.of_nat (nmatches x y)))%Q.
Proof. exact B_value_exact. Qed.
Print Assumptions C61_value_exact.

Theorem C61_accuracy : forall E f n_t sa sb x y,
  env_ok E -> to_bstrings f sa sb = Ok (x, y) -> (exists d, used x y d) -> n_t <> 0 ->
  forall A, sane A -> small_types x y -> forall v e lo hi, Z.of_nat (nboundaries x y) <= 10 ^ 28 ->
  boundary_similarity A E (default_weights A) f n_t false false sa sb = Ok (BVal (NDec v)) ->
  boundary_edit_distance E x y n_t = Ok e -> extent x y lo hi ->
  (Qabs (v - (1 - edit_cost e (hi - lo + 1) n_t / inject_Z (edit_count e + Z.of_nat (nmatches x y)))) <= 1 / inject_Z (10 ^ 26))%Q.
Proof. exact B_value. Qed.
Print Assumptions C61_accuracy.

(** Costs of 1/3 for the substitution and 1/2 for the transposition over 3. *)
Example C61_case :
  boundary_similarity pyA env0 (default_weights pyA) FSets 2 false false (Sets [{[1; 2]}; ∅; {[1]}]) (Sets [{[1; 3]}; {[1]}; ∅]) =
    Ok (BVal (NDec (7222222222222222222222222223 # 10000000000000000000000000000))) /\
  boundary_similarity exactA env0 (default_weights exactA) FSets 2 false false (Sets [{[1; 2]}; ∅; {[1]}]) (Sets [{[1; 3]}; {[1]}; ∅]) =
    Ok (BVal (NDec (13 # 18))).
Proof. split; vm_compute; reflexivity. Qed.
