(** Property C100: actual agreement of some of the coders
    (segeval/agreement/__init__.py:23-130, 147-175). *)
From stdpp Require Import gmap.
From Verif Require Import SpecAgreement SpecSub SpecML SpecDispatch Spec Agreement BedProofs BedExtra AgreementCases Subsets.
Open Scope Z_scope.

(** Some two coders agree at most as much as all of them, some two at least as much.
    [only] keeps the codings of the coders given.  Nothing is rounded. *)
Theorem C100_pairs : forall E n_t b om f cord c, env_ok E -> n_t <> 0 -> lord_ok cord ->
  coded (c_format c f) (cord (c_coders c)) (c_items c) -> cached (c_format c f) (cord (c_coders c)) (c_items c) -> items_ok (c_items c) ->
  let X := compare_with b exactA E n_t om in
  exists v m n m' n' lo hi, actual_agreement_linear exactA X f cord c = Ok (NDec v) /\
    m ∈ c_coders c /\ n ∈ c_coders c /\ m <> n /\ m' ∈ c_coders c /\ n' ∈ c_coders c /\ m' <> n' /\
    actual_agreement_linear exactA X (c_format c f) cord (CDict (only [m; n] (c_items c))) = Ok (NDec lo) /\
    actual_agreement_linear exactA X (c_format c f) cord (CDict (only [m'; n'] (c_items c))) = Ok (NDec hi) /\ (lo <= v <= hi)%Q.
Proof. exact pairs_of_coders. Qed.
Print Assumptions C100_pairs.

(** With three or more coders: there is one without whom agreement is not higher, and one
    without whom it is not lower. *)
Theorem C100_left_out : forall E n_t b om f cord c, env_ok E -> n_t <> 0 -> lord_ok cord ->
  coded (c_format c f) (cord (c_coders c)) (c_items c) -> cached (c_format c f) (cord (c_coders c)) (c_items c) -> items_ok (c_items c) ->
  (3 <= size (c_coders c))%nat ->
  let X := compare_with b exactA E n_t om in
  exists v k k' lo hi, actual_agreement_linear exactA X f cord c = Ok (NDec v) /\ k ∈ c_coders c /\ k' ∈ c_coders c /\
    actual_agreement_linear exactA X (c_format c f) cord (CDict (only (but k (cord (c_coders c))) (c_items c))) = Ok (NDec lo) /\
    actual_agreement_linear exactA X (c_format c f) cord (CDict (only (but k' (cord (c_coders c))) (c_items c))) = Ok (NDec hi) /\ (lo <= v <= hi)%Q.
Proof. exact coder_left_out. Qed.
Print Assumptions C100_left_out.

Definition m100 (l : list Z) : seg := Ints (ints l).
Definition o100 (s : gset string) : list string := elements s.
Definition X100 := compare_with true exactA env0 2 false.
Definition d100 : dict (dict seg) := [("i", [("ann", m100 [2; 3]); ("bob", m100 [2; 1; 2]); ("cat", m100 [1; 1; 3])])]%string.
Definition e100 : dict (dict seg) := [("i", [("ann", m100 [5; 5]); ("bob", m100 [1; 1; 1; 1; 1; 1; 1; 1; 1; 1]); ("cat", m100 [1; 9])])]%string.

Ltac names100 := repeat (apply NoDup_cons; split; [intros K; repeat (apply elem_of_cons in K as [K|K]; [discriminate K|]); apply elem_of_nil in K; exact K|]); apply NoDup_nil_2.

Example C100_case : lord_ok o100 /\ coded FMass (o100 (c_coders (CDict d100))) d100 /\ cached FMass (o100 (c_coders (CDict d100))) d100 /\
  items_ok d100 /\ size (c_coders (CDict d100)) = 3%nat /\
  actual_agreement_linear exactA X100 FMass o100 (CDict d100) = Ok (NDec (3 # 7)) /\
  actual_agreement_linear exactA X100 FMass o100 (CDict (only ["bob"; "cat"]%string d100)) = Ok (NDec (1 # 3)) /\
  actual_agreement_linear exactA X100 FMass o100 (CDict (only (but "cat" (o100 (c_coders (CDict d100)))) d100)) = Ok (NDec (1 # 2)).
Proof.
  split; [intros s; reflexivity|]. split; [apply coded_b_ok; vm_compute; reflexivity|]. split; [apply cached_b_ok; vm_compute; reflexivity|].
  split; [|split; [vm_compute; reflexivity|split; [vm_compute; reflexivity|split; vm_compute; reflexivity]]].
  split; [unfold dict_ok; cbn; names100|]. intros item cs H. apply elem_of_list_singleton in H. injection H as -> ->. unfold dict_ok; cbn; names100.
Qed.

(** Kappa is different: here it is positive, although for no two of the three coders. *)
Theorem C100_kappa_refuted : ~ forall c v, coded (c_format c FMass) (o100 (c_coders c)) (c_items c) ->
  fleiss_kappa_linear exactA X100 FMass o100 false c = Ok (GVal (NDec v)) ->
  exists m n hi, m ∈ o100 (c_coders c) /\ n ∈ o100 (c_coders c) /\ m <> n /\
    fleiss_kappa_linear exactA X100 FMass o100 false (CDict (only [m; n] (c_items c))) = Ok (GVal (NDec hi)) /\ (v <= hi)%Q.
Proof.
  intros H. destruct (H (CDict e100) (53 # 2240)%Q) as (m & n & hi & Hm & Hn & Hne & Hk & Hle);
    [apply coded_b_ok; vm_compute; reflexivity|vm_compute; reflexivity|].
  assert (O : o100 (c_coders (CDict e100)) = ["bob"; "ann"; "cat"]%string) by (vm_compute; reflexivity). rewrite O in Hm, Hn. clear O H.
  assert (K : forall a b, fleiss_kappa_linear exactA X100 FMass o100 false (CDict (only [m; n] e100)) = Ok (GVal (NDec (a # b))) ->
    Qle_bool (53 # 2240) (a # b) = false -> False).
  { intros a b Ha Hb. change (c_items (CDict e100)) with e100 in Hk. rewrite Ha in Hk. injection Hk as <-. apply Qle_bool_iff in Hle. congruence. }
  repeat (apply elem_of_cons in Hm as [Hm|Hm]); try (apply elem_of_nil in Hm; contradiction); subst m;
    repeat (apply elem_of_cons in Hn as [Hn|Hn]); try (apply elem_of_nil in Hn; contradiction); subst n; try contradiction;
    (eapply K; [vm_compute; reflexivity|vm_compute; reflexivity]).
Qed.
Print Assumptions C100_kappa_refuted.
