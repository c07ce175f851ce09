(** Properties C78 and C79: the value of segmentation similarity, and how far rounding
    moves the agreement coefficients (segeval/similarity/segmentation.py,
    segeval/agreement/). *)
From stdpp Require Import gmap.
From Verif Require Import SpecAccuracy SpecML SpecSim SpecDispatch Round RoundProofs BedExtra SimStats SimMain SimAccuracy AgreementPublic AgreementAccuracy AgreementLimit
  PropsSim PropsAgreement.
Open Scope Z_scope.

(** ** C78 *)

(** The value of S: one minus the weighted cost over the potential boundaries times the
    square of the number of boundary types [T] that occur. *)
Theorem C78_value_exact : forall E f n_t sa sb x y (T : gset Z),
  env_ok E -> to_bstrings f sa sb = Ok (x, y) -> (forall t : Z, t ∈ T <-> used x y t) -> T <> ∅ -> n_t <> 0 -> small_types x y ->
  forall v e lo hi, segmentation_similarity exactA E (default_weights exactA) f n_t false false sa sb = Ok (SVal (NDec v)) ->
  boundary_edit_distance E x y n_t = Ok e -> extent x y lo hi ->
  (v == 1 - edit_cost e (hi - lo + 1) n_t / inject_Z (zlen x * Z.of_nat (size T) * Z.of_nat (size T)))%Q.
Proof. exact S_value_exact. Qed.
Print Assumptions C78_value_exact.

Theorem C78_accuracy : forall E f n_t sa sb x y (T : gset Z),
  env_ok E -> to_bstrings f sa sb = Ok (x, y) -> (forall t : Z, t ∈ T <-> used x y t) -> T <> ∅ -> n_t <> 0 -> small_types x y ->
  forall A v e lo hi, sane A -> zlen x * Z.of_nat (size T) * Z.of_nat (size T) <= 10 ^ 28 ->
  segmentation_similarity A E (default_weights A) f n_t false false sa sb = Ok (SVal (NDec v)) ->
  boundary_edit_distance E x y n_t = Ok e -> extent x y lo hi ->
  (Qabs (v - (1 - edit_cost e (hi - lo + 1) n_t / inject_Z (zlen x * Z.of_nat (size T) * Z.of_nat (size T)))) <= 1 / inject_Z (10 ^ 26))%Q.
Proof. exact S_value. Qed.
Print Assumptions C78_accuracy.

(** Costs of 1/3 for the substitution and 1/2 for the transposition over 3 * 3 * 3. *)
Example C78_case :
  to_bstrings FSets (Sets [{[1; 2]}; ∅; {[1]}]) (Sets [{[1; 3]}; {[1]}; ∅]) = Ok ([{[1; 2]}; ∅; {[1]}], [{[1; 3]}; {[1]}; ∅]) /\
  (forall t : Z, t ∈ ({[1; 2; 3]} : gset Z) <-> used [{[1; 2]}; ∅; {[1]}] [{[1; 3]}; {[1]}; ∅] t) /\
  small_types [{[1; 2]}; ∅; {[1]}] [{[1; 3]}; {[1]}; ∅] /\
  segmentation_similarity exactA env0 (default_weights exactA) FSets 2 false false (Sets [{[1; 2]}; ∅; {[1]}]) (Sets [{[1; 3]}; {[1]}; ∅]) =
    Ok (SVal (NDec (157 # 162))) /\
  segmentation_similarity pyA env0 (default_weights pyA) FSets 2 false false (Sets [{[1; 2]}; ∅; {[1]}]) (Sets [{[1; 3]}; {[1]}; ∅]) =
    Ok (SVal (NDec (4845679012345679012345679013 # 5000000000000000000000000000))) /\
  (157 # 162 == 1 - ((1 # 3) + (1 # 2)) / inject_Z (3 * 3 * 3))%Q.
Proof.
  split; [reflexivity|]. split.
  { intros t. rewrite <- SimStats.elem_of_types. revert t. apply set_eq. refine (bool_decide_unpack _ _). vm_compute. exact I. }
  split; [apply small_typesb; reflexivity|]. repeat split; vm_compute; reflexivity.
Qed.

(** ** C79 *)

(** Any order of the coders and of the boundary types, any arithmetic that rounds to 28
    digits: with [N] comparisons the agreement is off by [N + 6] half units of the
    28th digit at most. *)
Theorem C79_actual : forall b A E n_t om f cord c, sane A -> env_ok E -> n_t <> 0 ->
  coded (c_format c f) (cord (c_coders c)) (c_items c) -> cached (c_format c f) (cord (c_coders c)) (c_items c) ->
  workload (c_format c f) (cord (c_coders c)) (c_items c) <= 10 ^ 28 ->
  exists a a', actual_agreement_linear exactA (compare_with b exactA E n_t om) f cord c = Ok (NDec a) /\
    actual_agreement_linear A (compare_with b A E n_t om) f cord c = Ok (NDec a') /\
    within (zlen (comparisons (cord (c_coders c)) (c_items c)) + 6) a' a.
Proof. exact actual_accurate. Qed.
Print Assumptions C79_actual.

Theorem C79_pi : forall b A E n_t om f cord c, sane A -> env_ok E -> n_t <> 0 ->
  coded (c_format c f) (cord (c_coders c)) (c_items c) -> cached (c_format c f) (cord (c_coders c)) (c_items c) ->
  workload (c_format c f) (cord (c_coders c)) (c_items c) <= 10 ^ 28 -> full (cord (c_coders c)) (c_items c) ->
  let p := pi_chance (c_format c f) (cord (c_coders c)) (c_items c) in let N := zlen (comparisons (cord (c_coders c)) (c_items c)) in
  (inject_Z (16 * (N + 2)) * half_ulp <= 1 - p)%Q ->
  exists a a' p' v, actual_agreement_linear exactA (compare_with b exactA E n_t om) f cord c = Ok (NDec a) /\
  fleiss_pi_linear A (compare_with b A E n_t om) f cord true c = Ok (GParts (NDec a') (NDec p')) /\
  fleiss_pi_linear A (compare_with b A E n_t om) f cord false c = Ok (GVal (NDec v)) /\
  within (N + 6) a' a /\ within (4 * N + 6) p' p /\
  (Qabs (v - beyond a p) <= inject_Z (18 * N + 44) * half_ulp / ((1 - p) * (1 - p)))%Q.
Proof. exact pi_accurate. Qed.
Print Assumptions C79_pi.

Theorem C79_kappa : forall b A E n_t om f cord c, sane A -> env_ok E -> n_t <> 0 ->
  coded (c_format c f) (cord (c_coders c)) (c_items c) -> cached (c_format c f) (cord (c_coders c)) (c_items c) ->
  workload (c_format c f) (cord (c_coders c)) (c_items c) <= 10 ^ 28 -> full (cord (c_coders c)) (c_items c) ->
  let k := kappa_chance (c_format c f) (cord (c_coders c)) (c_items c) in let N := zlen (comparisons (cord (c_coders c)) (c_items c)) in
  (inject_Z (16 * (N + 2)) * half_ulp <= 1 - k)%Q ->
  exists a a' k' v, actual_agreement_linear exactA (compare_with b exactA E n_t om) f cord c = Ok (NDec a) /\
  fleiss_kappa_linear A (compare_with b A E n_t om) f cord true c = Ok (GParts (NDec a') (NDec k')) /\
  fleiss_kappa_linear A (compare_with b A E n_t om) f cord false c = Ok (GVal (NDec v)) /\
  within (N + 6) a' a /\ within (N + 4) k' k /\
  (Qabs (v - beyond a k) <= inject_Z (6 * N + 36) * half_ulp / ((1 - k) * (1 - k)))%Q.
Proof. exact kappa_accurate. Qed.
Print Assumptions C79_kappa.

Theorem C79_bias : forall b A E n_t om f cord c, sane A -> env_ok E -> n_t <> 0 ->
  coded (c_format c f) (cord (c_coders c)) (c_items c) -> cached (c_format c f) (cord (c_coders c)) (c_items c) ->
  workload (c_format c f) (cord (c_coders c)) (c_items c) <= 10 ^ 28 -> full (cord (c_coders c)) (c_items c) ->
  let p := pi_chance (c_format c f) (cord (c_coders c)) (c_items c) in let k := kappa_chance (c_format c f) (cord (c_coders c)) (c_items c) in
  let N := zlen (comparisons (cord (c_coders c)) (c_items c)) in
  (inject_Z (16 * (N + 2)) * half_ulp <= 1 - p)%Q -> (inject_Z (16 * (N + 2)) * half_ulp <= 1 - k)%Q ->
  exists p' k' v, artstein_poesio_bias_linear A (compare_with b A E n_t om) f cord true c = Ok (GParts (NDec p') (NDec k')) /\
  artstein_poesio_bias_linear A (compare_with b A E n_t om) f cord false c = Ok (GVal (NDec v)) /\
  within (4 * N + 6) p' p /\ within (N + 4) k' k /\ within (5 * N + 11) v (p - k)%Q.
Proof. exact bias_accurate. Qed.
Print Assumptions C79_bias.

(** Chance agreement is that far from 1 in every dataset of practical size in which some
    gap is not marked by all coders: rounding then never makes the division fail. *)
Theorem C79_chance : forall f coders items, coded f coders items -> ~ all_gaps_marked f coders items -> workload f coders items <= 10 ^ 8 ->
  (inject_Z (16 * (zlen (comparisons coders items) + 2)) * half_ulp <= 1 - pi_chance f coders items /\
   inject_Z (16 * (zlen (comparisons coders items) + 2)) * half_ulp <= 1 - kappa_chance f coders items)%Q.
Proof. exact chance_room. Qed.
Print Assumptions C79_chance.

Theorem C79_returns : forall b A E n_t om f cord c, sane A -> env_ok E -> n_t <> 0 ->
  coded (c_format c f) (cord (c_coders c)) (c_items c) -> cached (c_format c f) (cord (c_coders c)) (c_items c) ->
  workload (c_format c f) (cord (c_coders c)) (c_items c) <= 10 ^ 8 -> full (cord (c_coders c)) (c_items c) ->
  ~ all_gaps_marked (c_format c f) (cord (c_coders c)) (c_items c) ->
  (exists v, fleiss_pi_linear A (compare_with b A E n_t om) f cord false c = Ok (GVal (NDec v))) /\
  (exists v, fleiss_kappa_linear A (compare_with b A E n_t om) f cord false c = Ok (GVal (NDec v))) /\
  (exists v, artstein_poesio_bias_linear A (compare_with b A E n_t om) f cord false c = Ok (GVal (NDec v))).
Proof. exact rounded_returns. Qed.
Print Assumptions C79_returns.

(** Six comparisons; chance agreement is 169/3969 and 44/1083. *)
Definition x79 := compare_with true pyA env0 2 false.
Example C79_case :
  coded FMass (coders_of three_coders) (c_items three_coders) /\ cached FMass (coders_of three_coders) (c_items three_coders) /\
  full (coders_of three_coders) (c_items three_coders) /\ ~ all_gaps_marked FMass (coders_of three_coders) (c_items three_coders) /\
  workload FMass (coders_of three_coders) (c_items three_coders) = 114 /\ zlen (comparisons (coders_of three_coders) (c_items three_coders)) = 6 /\
  (inject_Z (16 * (6 + 2)) * half_ulp <= 1 - pi_chance FMass (coders_of three_coders) (c_items three_coders))%Q /\
  (inject_Z (16 * (6 + 2)) * half_ulp <= 1 - kappa_chance FMass (coders_of three_coders) (c_items three_coders))%Q /\
  actual_agreement_linear pyA x79 FMass aord0 three_coders = Ok (NDec (3 # 8)) /\
  fleiss_pi_linear pyA x79 FMass aord0 true three_coders = Ok (GParts (NDec (3 # 8)) (NDec (532249937011841773746535651 # 12500000000000000000000000000))) /\
  fleiss_pi_linear pyA x79 FMass aord0 false three_coders = Ok (GVal (NDec (1736019736842105263157894737 # 5000000000000000000000000000))) /\
  fleiss_kappa_linear pyA x79 FMass aord0 false three_coders = Ok (GVal (NDec (348532242540904716073147257 # 1000000000000000000000000000))) /\
  artstein_poesio_bias_linear pyA x79 FMass aord0 false three_coders = Ok (GVal (NDec (39042189154311565602951963 # 20000000000000000000000000000))).
Proof.
  destruct three_coded as (H1 & H2 & H3 & _ & _ & H4). split; [exact H1|]. split; [exact H3|]. split; [exact H2|]. split; [exact H4|].
  split; [vm_compute; reflexivity|]. split; [vm_compute; reflexivity|]. split; [vm_compute; discriminate|]. split; [vm_compute; discriminate|].
  repeat split; vm_compute; reflexivity.
Qed.
