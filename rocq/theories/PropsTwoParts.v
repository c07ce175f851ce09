(** Property C102: actual agreement on a dataset and on two parts of it
    (segeval/agreement/__init__.py:23-30, 80-175). *)
From stdpp Require Import gmap.
From Verif Require Import SpecAgreement SpecML SpecDispatch SpecSub Spec Agreement BedProofs BedExtra AgreementCases TwoParts.
Open Scope Z_scope.

(** The agreement on all items is a mean, with positive weights, of those on the items in
    front and on the other ones.  Nothing is rounded. *)
Theorem C102_parts : forall E n_t b om f cord i j, env_ok E -> n_t <> 0 -> lord_ok cord -> i <> [] -> j <> [] ->
  let C := cord (c_coders (CDict (i ++ j))) in coded f C (i ++ j) -> cached f C (i ++ j) ->
  let X := compare_with b exactA E n_t om in
  exists x y v (p q : Z), actual_agreement_linear exactA X f cord (CDict i) = Ok (NDec x) /\
    actual_agreement_linear exactA X f cord (CDict j) = Ok (NDec y) /\
    actual_agreement_linear exactA X f cord (CDict (i ++ j)) = Ok (NDec v) /\
    0 < p /\ 0 < q /\ (v == (inject_Z p * x + inject_Z q * y) / inject_Z (p + q))%Q.
Proof. exact two_parts. Qed.
Print Assumptions C102_parts.

(** Adding items on which all coders agree does not lower it, and raises it unless they
    agree on all. *)
Theorem C102_agreed : forall E n_t b om f cord i j, env_ok E -> n_t <> 0 -> lord_ok cord -> i <> [] -> j <> [] ->
  let C := cord (c_coders (CDict (i ++ j))) in coded f C (i ++ j) -> cached f C (i ++ j) -> unanimous f C j ->
  let X := compare_with b exactA E n_t om in
  exists x v, actual_agreement_linear exactA X f cord (CDict i) = Ok (NDec x) /\
    actual_agreement_linear exactA X f cord (CDict (i ++ j)) = Ok (NDec v) /\ (x <= v)%Q /\ (~ unanimous f C i -> (x < v)%Q).
Proof. exact agreed_items. Qed.
Print Assumptions C102_agreed.

Definition m102 (l : list Z) : seg := Ints (ints l).
Definition o102 (s : gset string) : list string := elements s.
Definition X102 := compare_with true exactA env0 2 false.
Definition i102 : dict (dict seg) := [("i", [("ann", m102 [2; 1; 1; 1; 5]); ("bob", m102 [2; 1; 1; 1; 1; 4])])]%string.
Definition j102 : dict (dict seg) := [("j", [("bob", m102 [1; 1]); ("ann", m102 [1; 1])])]%string.

Lemma case102 : let C := o102 (c_coders (CDict (i102 ++ j102))) in coded FMass C (i102 ++ j102) /\ cached FMass C (i102 ++ j102) /\
  unanimous FMass C j102 /\ ~ unanimous FMass C i102.
Proof.
  split; [apply coded_b_ok; vm_compute; reflexivity|]. split; [apply cached_b_ok; vm_compute; reflexivity|].
  split; [apply unanimous_b_ok; vm_compute; reflexivity|rewrite <- unanimous_b_ok; vm_compute; discriminate].
Qed.

Example C102_case : let C := o102 (c_coders (CDict (i102 ++ j102))) in coded FMass C (i102 ++ j102) /\ cached FMass C (i102 ++ j102) /\
  unanimous FMass C j102 /\ ~ unanimous FMass C i102 /\
  actual_agreement_linear exactA X102 FMass o102 (CDict i102) = Ok (NDec (4 # 5)) /\
  actual_agreement_linear exactA X102 FMass o102 (CDict j102) = Ok (NDec 1) /\
  actual_agreement_linear exactA X102 FMass o102 (CDict (i102 ++ j102)) = Ok (NDec (5 # 6)).
Proof.
  destruct case102 as (H1 & H2 & H3 & H4). split; [exact H1|]. split; [exact H2|]. split; [exact H3|]. split; [exact H4|].
  repeat split; vm_compute; reflexivity.
Qed.

(** It can lower pi: the new item also makes boundaries more likely. *)
Theorem C102_pi_refuted : ~ forall i j x v, let C := o102 (c_coders (CDict (i ++ j))) in coded FMass C (i ++ j) -> cached FMass C (i ++ j) -> unanimous FMass C j ->
  fleiss_pi_linear exactA X102 FMass o102 false (CDict i) = Ok (GVal (NDec x)) ->
  fleiss_pi_linear exactA X102 FMass o102 false (CDict (i ++ j)) = Ok (GVal (NDec v)) -> (x <= v)%Q.
Proof.
  intros H. specialize (H i102 j102 (11 # 15)%Q (13 # 21)%Q). destruct case102 as (H1 & H2 & H3 & _).
  assert (K : (11 # 15 <= 13 # 21)%Q); [|exact (K eq_refl)].
  apply H; [exact H1|exact H2|exact H3|vm_compute; reflexivity|vm_compute; reflexivity].
Qed.
Print Assumptions C102_pi_refuted.
