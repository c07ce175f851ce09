(** Property C105: how large annotator bias can be (segeval/agreement/bias.py). *)
From stdpp Require Import gmap.
From Verif Require Import SpecAgreement SpecML SpecDispatch Spec Round BedProofs AgreementPublic AgreementCases PropsAgreement BiasBound.
Open Scope Z_scope.

(** ** C105 *)

(** One item with [N] gaps, one boundary type, [k] coders, exact arithmetic: the bias is
    the sum of the squared differences of the portions of the gaps that any two coders
    mark, over [k * k * (k - 1)]; so it is at most [1 / (4 * (k - 1))]. *)
Theorem C105_bias : forall E n_t f cord c cmp ic,
  env_ok E -> lord_ok cord -> c_items c = [ic] ->
  comparison exactA E n_t (cached (c_format c f) (cord (c_coders c)) (c_items c)) cmp ->
  forall v, one_boundary_type (c_format c f) (cord (c_coders c)) ic -> artstein_poesio_bias_linear exactA cmp f cord false c = Ok (GVal v) ->
  let k := inject_Z (Z.of_nat (size (c_coders c))) in
  exists N, 0 < N /\ (forall m, m ∈ cord (c_coders c) -> zlen (coding (c_format c f) m ic) = N) /\
    (let share m := inject_Z (marks (coding (c_format c f) m ic)) / inject_Z N in
     nval v == qsum ((fun mn => (share (fst mn) - share (snd mn)) * (share (fst mn) - share (snd mn))) <$> two_of (cord (c_coders c))) / (k * k * (k - 1)))%Q /\
    (0 <= nval v <= 1 / (4 * (k - 1)))%Q.
Proof. exact bias_bound. Qed.
Print Assumptions C105_bias.

(** The bound is reached: one of two coders marks every gap, the other none. With three
    coders: portions 1/3, 2/3 and 0. *)
Definition all_or_none : container := CDict [("i1", [("c1", am [1; 1; 1]); ("c2", am [3])])]%string.
Definition three_portions : container := CDict [("i1", [("c1", am [1; 3]); ("c2", am [1; 1; 2]); ("c3", am [4])])]%string.
Example C105_case :
  artstein_poesio_bias_linear exactA (compare_with true exactA env0 2 false) FMass aord0 false all_or_none = Ok (GVal (NDec (1 # 4))) /\
  one_boundary_type FMass (coders_of all_or_none) ("i1", [("c1", am [1; 1; 1]); ("c2", am [3])])%string /\
  artstein_poesio_bias_linear exactA (compare_with true exactA env0 2 false) FMass aord0 false three_portions = Ok (GVal (NDec (1 # 27))) /\
  one_boundary_type FMass (coders_of three_portions) ("i1", [("c1", am [1; 3]); ("c2", am [1; 1; 2]); ("c3", am [4])])%string.
Proof. split; [vm_compute; reflexivity|]. split; [apply (one_type_b_ok _ _ _ 1); vm_compute; reflexivity|]. split; [vm_compute; reflexivity|]. apply (one_type_b_ok _ _ _ 1). vm_compute. reflexivity. Qed.
