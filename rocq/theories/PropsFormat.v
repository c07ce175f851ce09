(** Properties C01-C05: conversions between encodings (segeval/format.py). *)
From Verif Require Import Format Spec FormatProofs.
Open Scope Z_scope.

(** ** C01 *)

Theorem C01_masses_positions_masses : forall m,
  convert_positions_to_masses (convert_masses_to_positions m) = filter (fun x => 0 < x) m.
Proof. exact masses_positions_masses. Qed.
Print Assumptions C01_masses_positions_masses.

Theorem C01_positive_masses_survive : forall m, positive m ->
  convert_positions_to_masses (convert_masses_to_positions m) = m.
Proof. exact C01_pos. Qed.
Print Assumptions C01_positive_masses_survive.

Example C01_case : positive [2; 3; 6] /\
  (pval <$> convert_masses_to_positions [2; 3; 6]) = [1;1;2;2;2;3;3;3;3;3;3] /\
  convert_positions_to_masses (convert_masses_to_positions [2; 0; -1; 3]) = [2; 3].
Proof. repeat split; repeat constructor; lia. Qed.

(** ** C02 *)

Theorem C02_run_lengths : forall p,
  positive (convert_positions_to_masses p) /\
  zsum (convert_positions_to_masses p) = zlen p /\
  (forall i x y, p !! i = Some x -> p !! S i = Some y ->
     (cut (convert_positions_to_masses p) (Z.of_nat (S i)) <-> pval x <> pval y)).
Proof. exact C02_all. Qed.
Print Assumptions C02_run_lengths.

Theorem C02_back_to_positions : forall p,
  let q := convert_masses_to_positions (convert_positions_to_masses p) in
  length q = length p /\
  (forall x, q !! 0%nat = Some x -> pval x = 1) /\
  (forall i x y x' y', p !! i = Some x -> p !! S i = Some y ->
     q !! i = Some x' -> q !! S i = Some y' ->
     pval y' = if decide (pval x = pval y) then pval x' else pval x' + 1).
Proof. exact C02_back. Qed.
Print Assumptions C02_back_to_positions.

Example C02_case : convert_positions_to_masses (ints [7; 7; 2; 7; 7; 7]) = [2; 1; 3] /\
  cut [2; 1; 3] 2 /\ cut [2; 1; 3] 3.
Proof. split; [reflexivity|]. split; [exists 1%nat|exists 2%nat]; cbn; lia. Qed.

(** ** C03 *)

Theorem C03_boundary_string : forall m, positive m -> m <> [] ->
  exists s, boundary_string_from_masses m = Ok s /\ zlen s = zsum m - 1 /\
    forall p t, s !! p = Some t ->
      (cut m (Z.of_nat p + 1) -> t = {[1]}) /\ (~ cut m (Z.of_nat p + 1) -> t = ∅).
Proof. exact C03_main. Qed.
Print Assumptions C03_boundary_string.

(** Zero masses behind the first segment are ignored. *)
Theorem C03_inner_zeros_ignored : forall x m, 1 <= x -> Forall (fun y => 0 <= y) m ->
  boundary_string_from_masses (x :: m) = boundary_string_from_masses (x :: filter (fun y => 0 < y) m).
Proof. exact bstring_zeros. Qed.
Print Assumptions C03_inner_zeros_ignored.

(** A zero mass in front marks the last gap, or raises. *)
Theorem C03_leading_zero_mass : forall m, positive m ->
  boundary_string_from_masses (0 :: m) =
    if 2 <=? zsum m
    then let* s := boundary_string_from_masses m in Ok (alter (union {[1]}) (length s - 1)%nat s)
    else Err IndexError.
Proof. exact C03_leading_zero. Qed.
Print Assumptions C03_leading_zero_mass.

Example C03_case : positive [2; 3] /\ boundary_string_from_masses [2; 3] = Ok [∅; {[1]}; ∅; ∅] /\
  boundary_string_from_masses [2; 0; 3] = Ok [∅; {[1]}; ∅; ∅] /\
  boundary_string_from_masses [0; 2; 3] = Ok [∅; {[1]}; ∅; {[1]}].
Proof. split; [repeat constructor; lia|]. by_compute. Qed.

(** The natural statement for all masses is false because of the zero in front. *)
Theorem C03_all_masses_refuted :
  ~ (forall m, Forall (fun y => 0 <= y) m -> m <> [] ->
       exists s, boundary_string_from_masses m = Ok s /\
         forall p t, s !! p = Some t -> ~ cut m (Z.of_nat p + 1) -> t = ∅).
Proof.
  intros H. destruct (H [0; 2]) as (s & E & K).
  - repeat constructor; lia.
  - congruence.
  - assert (E0 : boundary_string_from_masses [0; 2] = Ok [{[1]}]) by by_compute.
    rewrite E0 in E. injection E as <-.
    specialize (K 0%nat {[1]} eq_refl). assert (C : ~ cut [0; 2] (Z.of_nat 0 + 1)).
    { intros (k & Hk & Hs). cbn in Hk. assert (k = 1)%nat as -> by lia. vm_compute in Hs. discriminate. }
    specialize (K C). revert K. by_compute.
Qed.
Print Assumptions C03_all_masses_refuted.

(** ** C04 *)

Theorem C04_boundary_string_injective : forall m m' s,
  positive m -> positive m' -> m <> [] -> m' <> [] ->
  boundary_string_from_masses m = Ok s -> boundary_string_from_masses m' = Ok s -> m = m'.
Proof. exact C04_main. Qed.
Print Assumptions C04_boundary_string_injective.

(** The empty sequence and the single segment of one unit share a string. *)
Example C04_empty : boundary_string_from_masses [] = Ok [] /\ boundary_string_from_masses [1] = Ok [].
Proof. split; reflexivity. Qed.

Example C04_case : positive [2; 3] /\ positive [2; 3] /\
  boundary_string_from_masses [2; 3] <> boundary_string_from_masses [3; 2].
Proof.
  split; [repeat constructor; lia|]. split; [repeat constructor; lia|].
  by_compute.
Qed.

(** ** C05 *)

Theorem C05_nltk_boundaries : forall c s,
  exists m, convert_nltk_to_masses s [c] = Ok m /\
    positive m /\ zsum m = zlen s + 1 /\
    boundary_string_from_masses m = Ok ((fun d => if decide (d = c) then {[1]} else ∅) <$> s).
Proof. exact C05_main. Qed.
Print Assumptions C05_nltk_boundaries.

(** Longer symbols: each occurrence swallows its extra characters. *)
Theorem C05_longer_symbol : forall sym s, sym <> [] ->
  exists m, convert_nltk_to_masses s sym = Ok m /\ m <> [] /\
    zsum m = zlen s + 1 - (zlen m - 1) * (zlen sym - 1).
Proof. exact C05_any_symbol. Qed.
Print Assumptions C05_longer_symbol.

Example C05_case : convert_nltk_to_masses (String.list_ascii_of_string "0100010000") sym1 = Ok [2; 4; 5].
Proof. reflexivity. Qed.
