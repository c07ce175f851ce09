(** Property C103: pi and kappa against actual agreement
    (segeval/agreement/pi.py:11-56, agreement/kappa.py:11-65, agreement/__init__.py:80-175). *)
From stdpp Require Import gmap.
From Verif Require Import SpecAgreement SpecML SpecSilent Spec Agreement AgreementCases PropsAgreement BelowActual.
Open Scope Z_scope.

(** Neither exceeds the actual agreement.  Pi equals it only if all coders agree on
    everything; kappa also if of any two coders one never places a boundary.  Nothing is
    rounded, and some gap is not marked alike by all coders. *)
Theorem C103_below : forall E n_t f cord c cmp,
  env_ok E -> n_t <> 0 -> coded (c_format c f) (cord (c_coders c)) (c_items c) -> full (cord (c_coders c)) (c_items c) ->
  comparison exactA E n_t (cached (c_format c f) (cord (c_coders c)) (c_items c)) cmp ->
  ~ all_gaps_marked (c_format c f) (cord (c_coders c)) (c_items c) ->
  let agreed := unanimous (c_format c f) (cord (c_coders c)) (c_items c) in
  exists a v w, actual_agreement_linear exactA cmp f cord c = Ok (NDec a) /\
  fleiss_pi_linear exactA cmp f cord false c = Ok (GVal (NDec v)) /\
  fleiss_kappa_linear exactA cmp f cord false c = Ok (GVal (NDec w)) /\
  (v <= a)%Q /\ (w <= a)%Q /\ ((v == a)%Q <-> agreed) /\
  ((w == a)%Q <-> agreed \/ forall m n, m ∈ cord (c_coders c) -> n ∈ cord (c_coders c) -> m <> n ->
    silent (c_format c f) (c_items c) m \/ silent (c_format c f) (c_items c) n).
Proof. exact below_actual. Qed.
Print Assumptions C103_below.

Definition x103 := compare_with true exactA env0 2 false.
Example C103_case :
  coded FMass (coders_of three_coders) (c_items three_coders) /\ full (coders_of three_coders) (c_items three_coders) /\
  ~ all_gaps_marked FMass (coders_of three_coders) (c_items three_coders) /\ ~ unanimous FMass (coders_of three_coders) (c_items three_coders) /\
  actual_agreement_linear exactA x103 FMass aord0 three_coders = Ok (NDec (3 # 8)) /\
  fleiss_pi_linear exactA x103 FMass aord0 false three_coders = Ok (GVal (NDec (2111 # 6080))) /\
  fleiss_kappa_linear exactA x103 FMass aord0 false three_coders = Ok (GVal (NDec (2897 # 8312))).
Proof.
  destruct three_coded as (H1 & H2 & _ & _ & H3 & H4). split; [exact H1|]. split; [exact H2|]. split; [exact H4|]. split; [exact H3|].
  repeat split; vm_compute; reflexivity.
Qed.

(** One coder of two never places a boundary: kappa equals the actual agreement, pi does not. *)
Definition c103 : container := CDict [("i", [("ann", am [2; 3]); ("bob", am [5])])]%string.
Example C103_silent_case :
  coded FMass (coders_of c103) (c_items c103) /\ full (coders_of c103) (c_items c103) /\
  ~ all_gaps_marked FMass (coders_of c103) (c_items c103) /\ silent FMass (c_items c103) "bob" /\ ~ silent FMass (c_items c103) "ann" /\
  actual_agreement_linear exactA x103 FMass aord0 c103 = Ok (NDec 0) /\
  fleiss_pi_linear exactA x103 FMass aord0 false c103 = Ok (GVal (NDec (-1 # 63))) /\
  fleiss_kappa_linear exactA x103 FMass aord0 false c103 = Ok (GVal (NDec 0)).
Proof.
  split; [apply coded_b_ok; vm_compute; reflexivity|]. split; [apply full_b_ok; vm_compute; reflexivity|].
  split; [rewrite <- marked_b_ok; vm_compute; discriminate|]. split; [|split; [|repeat split; vm_compute; reflexivity]].
  - intros ic t H K. apply elem_of_list_singleton in H. subst ic.
    assert (A : Forall (fun s : gset Z => s = ∅) (coding FMass "bob" ("i", [("ann", am [2; 3]); ("bob", am [5])])%string)) by (refine (bool_decide_unpack _ _); vm_compute; exact I).
    rewrite Forall_forall in A. apply A, K.
  - intros H. assert (K : coding FMass "ann" ("i", [("ann", am [2; 3]); ("bob", am [5])])%string !! 1%nat = Some ({[1]} : gset Z)) by (refine (bool_decide_unpack _ _); vm_compute; exact I).
    apply elem_of_list_lookup_2 in K. apply (H ("i", [("ann", am [2; 3]); ("bob", am [5])])%string) in K; [|apply elem_of_list_singleton; reflexivity].
    assert (N : (1 : Z) ∈ ({[1]} : gset Z)) by (apply elem_of_singleton; reflexivity). rewrite K in N. apply not_elem_of_empty in N. exact N.
Qed.
