(** Property C101: agreement by S and agreement by B (segeval/agreement/__init__.py:23-175,
    agreement/pi.py:11-56, agreement/kappa.py:11-65, similarity/boundary.py:12-45,
    similarity/segmentation.py:12-37). *)
From stdpp Require Import gmap.
From Verif Require Import SpecAgreement SpecML SpecSim Spec Agreement AgreementCases PropsAgreement AboveB.
Open Scope Z_scope.

(** In exact arithmetic the actual agreement by S is at least that by B. *)
Theorem C101_actual : forall E n_t f cord c om om', env_ok E -> n_t <> 0 ->
  coded (c_format c f) (cord (c_coders c)) (c_items c) -> cached (c_format c f) (cord (c_coders c)) (c_items c) ->
  exists v w, actual_agreement_linear exactA (compare_B exactA E (default_weights exactA) n_t om) f cord c = Ok (NDec v) /\
    actual_agreement_linear exactA (compare_S exactA E (default_weights exactA) n_t om') f cord c = Ok (NDec w) /\ (v <= w)%Q.
Proof. exact agreement_above. Qed.
Print Assumptions C101_actual.

(** So are pi and kappa. *)
Theorem C101_coefficients : forall E n_t f cord c om om', env_ok E -> n_t <> 0 ->
  coded (c_format c f) (cord (c_coders c)) (c_items c) -> full (cord (c_coders c)) (c_items c) -> cached (c_format c f) (cord (c_coders c)) (c_items c) ->
  ~ all_gaps_marked (c_format c f) (cord (c_coders c)) (c_items c) ->
  let XB := compare_B exactA E (default_weights exactA) n_t om in let XS := compare_S exactA E (default_weights exactA) n_t om' in
  exists p p' k k', fleiss_pi_linear exactA XB f cord false c = Ok (GVal (NDec p)) /\ fleiss_pi_linear exactA XS f cord false c = Ok (GVal (NDec p')) /\
    fleiss_kappa_linear exactA XB f cord false c = Ok (GVal (NDec k)) /\ fleiss_kappa_linear exactA XS f cord false c = Ok (GVal (NDec k')) /\
    (p <= p')%Q /\ (k <= k')%Q.
Proof. exact coefficients_above. Qed.
Print Assumptions C101_coefficients.

Definition b101 := compare_B exactA env0 (default_weights exactA) 2 false.
Definition s101 := compare_S exactA env0 (default_weights exactA) 2 false.
Example C101_case :
  coded FMass (coders_of three_coders) (c_items three_coders) /\ full (coders_of three_coders) (c_items three_coders) /\
  cached FMass (coders_of three_coders) (c_items three_coders) /\ ~ all_gaps_marked FMass (coders_of three_coders) (c_items three_coders) /\
  actual_agreement_linear exactA b101 FMass aord0 three_coders = Ok (NDec (3 # 8)) /\
  actual_agreement_linear exactA s101 FMass aord0 three_coders = Ok (NDec (47 # 57)).
Proof.
  destruct three_coded as (H1 & H2 & _ & _ & _ & H4). split; [exact H1|]. split; [exact H2|].
  split; [apply cached_b_ok; vm_compute; reflexivity|]. split; [exact H4|]. split; vm_compute; reflexivity.
Qed.

(** The two do not order datasets alike: on a longer text with no boundary in common B is
    lower and S is higher. *)
Definition m101 (l : list Z) : seg := Ints (ints l).
Theorem C101_order_refuted : ~ forall c c' v v' w w', coded (c_format c FMass) (aord0 (c_coders c)) (c_items c) ->
  coded (c_format c' FMass) (aord0 (c_coders c')) (c_items c') ->
  cached (c_format c FMass) (aord0 (c_coders c)) (c_items c) -> cached (c_format c' FMass) (aord0 (c_coders c')) (c_items c') ->
  actual_agreement_linear exactA b101 FMass aord0 c = Ok (NDec v) -> actual_agreement_linear exactA b101 FMass aord0 c' = Ok (NDec v') ->
  actual_agreement_linear exactA s101 FMass aord0 c = Ok (NDec w) -> actual_agreement_linear exactA s101 FMass aord0 c' = Ok (NDec w') ->
  (v < v')%Q -> (w <= w')%Q.
Proof.
  intros H. specialize (H (CDict [("i", [("ann", m101 [5; 5]); ("bob", m101 [2; 8])])])%string (CDict [("i", [("ann", m101 [2; 1; 2]); ("bob", m101 [2; 3])])])%string
    0%Q (1 # 2)%Q (7 # 9)%Q (3 # 4)%Q).
  assert (K : (7 # 9 <= 3 # 4)%Q); [|exact (K eq_refl)].
  apply H; try (apply coded_b_ok; vm_compute; reflexivity); try (apply cached_b_ok; vm_compute; reflexivity); vm_compute; reflexivity.
Qed.
Print Assumptions C101_order_refuted.
