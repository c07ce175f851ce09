(** Properties C70-C72: which laws of a distance the metrics obey, and how far
    one changed boundary moves them (segeval/window/pk.py, windowdiff.py,
    segeval/similarity/boundary.py, segmentation.py). *)
From Verif Require Import SpecMetric Round RoundProofs SimRound FormatProofs WindowMetric BedMetric.
Open Scope Z_scope.

Definition mass (l : list Z) : seg := Ints (ints l).

(** ** C70 *)

(** The triangle inequality, on the counts and on the exact quotients. *)
Theorem C70_pk_triangle : forall f n x y z sx sy sz, coded f n x sx -> coded f n y sy -> coded f n z sz ->
  forall A rnd k, 0 <= k < n -> exists a b c,
    pk A rnd f (Some k) false true sx sy = Ok (WParts a (n - k)) /\
    pk A rnd f (Some k) false true sy sz = Ok (WParts b (n - k)) /\
    pk A rnd f (Some k) false true sx sz = Ok (WParts c (n - k)) /\ c <= a + b.
Proof. exact pk_three. Qed.
Print Assumptions C70_pk_triangle.

Theorem C70_wd_triangle : forall f n x y z sx sy sz, coded f n x sx -> coded f n y sy -> coded f n z sz ->
  forall A rnd k lam, sane A -> wd_window lam f n k [sx; sy; sz] -> exists a b c d,
    window_diff A rnd f (Some k) lam false true sx sy = Ok (WParts a d) /\
    window_diff A rnd f (Some k) lam false true sy sz = Ok (WParts b d) /\
    window_diff A rnd f (Some k) lam false true sx sz = Ok (WParts c d) /\ c <= a + b.
Proof. exact wd_three. Qed.
Print Assumptions C70_wd_triangle.

Theorem C70_pk_triangle_exact : forall f n x y z sx sy sz, coded f n x sx -> coded f n y sy -> coded f n z sz ->
  forall rnd k, 0 <= k < n -> exists a b c,
    pk exactA rnd f (Some k) false false sx sy = Ok (WVal (NDec a)) /\
    pk exactA rnd f (Some k) false false sy sz = Ok (WVal (NDec b)) /\
    pk exactA rnd f (Some k) false false sx sz = Ok (WVal (NDec c)) /\ (c <= a + b)%Q.
Proof. exact pk_three_exact. Qed.
Print Assumptions C70_pk_triangle_exact.

Theorem C70_wd_triangle_exact : forall f n x y z sx sy sz, coded f n x sx -> coded f n y sy -> coded f n z sz ->
  forall rnd k lam, wd_window lam f n k [sx; sy; sz] -> exists a b c,
    window_diff exactA rnd f (Some k) lam false false sx sy = Ok (WVal (NDec a)) /\
    window_diff exactA rnd f (Some k) lam false false sy sz = Ok (WVal (NDec b)) /\
    window_diff exactA rnd f (Some k) lam false false sx sz = Ok (WVal (NDec c)) /\ (c <= a + b)%Q.
Proof. exact wd_three_exact. Qed.
Print Assumptions C70_wd_triangle_exact.

(** With decimals of 28 digits it fails in the last digit: 2/3 is rounded up,
    1/3 twice down. *)
Theorem C70_decimal_triangle_refuted :
  ~ forall x y z a b c, Spec.positive x -> Spec.positive y -> Spec.positive z -> zsum x = zsum y -> zsum y = zsum z ->
    pk pyA default_round FMass (Some 1) false false (mass x) (mass y) = Ok (WVal (NDec a)) ->
    pk pyA default_round FMass (Some 1) false false (mass y) (mass z) = Ok (WVal (NDec b)) ->
    pk pyA default_round FMass (Some 1) false false (mass x) (mass z) = Ok (WVal (NDec c)) -> (c <= a + b)%Q.
Proof.
  intros H. assert (P : forall l, forallb (Z.leb 1) l = true -> Spec.positive l).
  { intros l K. apply Forall_forall. intros i Hi. rewrite forallb_forall in K. specialize (K i (proj1 (elem_of_list_In _ _) Hi)). lia. }
  assert (K : (6666666666666666666666666667 # 10000000000000000000000000000 <= (3333333333333333333333333333 # 10000000000000000000000000000) + (3333333333333333333333333333 # 10000000000000000000000000000))%Q);
    [|vm_compute in K; apply K; reflexivity].
  apply (H [4] [1; 3] [1; 1; 2]); try (apply P; reflexivity); vm_compute; reflexivity.
Qed.
Print Assumptions C70_decimal_triangle_refuted.

(** No error means equality if neighbouring units are compared, or if the text
    is padded. *)
Theorem C70_pk_zero : forall f n x y sx sy, coded f n x sx -> coded f n y sy ->
  forall A rnd d, 1 < n -> pk A rnd f (Some 1) false true sx sy = Ok (WParts 0 d) -> x = y.
Proof. exact pk_zero_one. Qed.
Print Assumptions C70_pk_zero.

Theorem C70_wd_zero : forall f n x y sx sy, coded f n x sx -> coded f n y sy ->
  forall A rnd d, sane A -> 1 < n -> window_diff A rnd f (Some 1) false false true sx sy = Ok (WParts 0 d) -> x = y.
Proof. exact wd_zero_one. Qed.
Print Assumptions C70_wd_zero.

Theorem C70_lamprier_zero : forall f n x y sx sy, coded f n x sx -> coded f n y sy ->
  forall A rnd k d, sane A -> 1 <= k -> wd_window true f n k [sx; sy] ->
    window_diff A rnd f (Some k) true false true sx sy = Ok (WParts 0 d) -> x = y.
Proof. exact wd_zero_lamprier. Qed.
Print Assumptions C70_lamprier_zero.

(** In every other case there are different segmentations without an error: no
    window of two or more steps, the smallest computed one, tells all apart. *)
Theorem C70_blind : forall n k, 2 <= k < n -> exists h r, Spec.positive h /\ Spec.positive r /\ zsum h = n /\ zsum r = n /\ h <> r /\
  forall A rnd, pk A rnd FMass (Some k) false true (mass h) (mass r) = Ok (WParts 0 (n - k)) /\
    (sane A -> k <= 255 -> window_diff A rnd FMass (Some k) false false true (mass h) (mass r) = Ok (WParts 0 (n - k))).
Proof. exact blind_metrics. Qed.
Print Assumptions C70_blind.

Example C70_case : coded FMass 4 [4] (mass [4]) /\ coded FMass 4 [1; 3] (mass [1; 3]) /\ coded FMass 4 [1; 1; 2] (mass [1; 1; 2]) /\
  wd_window true FMass 4 2 [mass [4]; mass [1; 3]; mass [1; 1; 2]] /\
  window_diff pyA default_round FMass (Some 2) true false true (mass [4]) (mass [1; 3]) = Ok (WParts 2 7) /\
  window_diff pyA default_round FMass (Some 2) true false true (mass [1; 3]) (mass [1; 1; 2]) = Ok (WParts 2 7) /\
  window_diff pyA default_round FMass (Some 2) true false true (mass [4]) (mass [1; 1; 2]) = Ok (WParts 3 7) /\
  pk pyA default_round FMass (Some 2) false false (mass [1; 2; 1]) (mass [2; 2]) = Ok (WVal (NDec 0)).
Proof.
  do 3 (split; [apply mass_coded; [repeat constructor; lia|discriminate|reflexivity]|]).
  split. { split; [lia|]. split; [discriminate|]. intros _. repeat constructor. }
  repeat split; vm_compute; reflexivity.
Qed.

(** ** C71 *)

(** Changing the boundaries at some gaps changes the count by [k] for each. *)
Theorem C71_pk_change : forall f n x y sx sy, coded f n x sx -> coded f n y sy ->
  forall z sz, coded f n z sz -> forall D, same_but D x y ->
  forall A rnd k, 0 <= k < n -> exists a b,
    pk A rnd f (Some k) false true sx sz = Ok (WParts a (n - k)) /\
    pk A rnd f (Some k) false true sy sz = Ok (WParts b (n - k)) /\ Z.abs (a - b) <= k * zlen D.
Proof. exact pk_change_bound. Qed.
Print Assumptions C71_pk_change.

Theorem C71_wd_change : forall f n x y sx sy, coded f n x sx -> coded f n y sy ->
  forall z sz, coded f n z sz -> forall D, same_but D x y ->
  forall A rnd k lam, sane A -> wd_window lam f n k [sx; sy; sz] -> exists a b d,
    window_diff A rnd f (Some k) lam false true sx sz = Ok (WParts a d) /\
    window_diff A rnd f (Some k) lam false true sy sz = Ok (WParts b d) /\ Z.abs (a - b) <= k * zlen D.
Proof. exact wd_change_bound. Qed.
Print Assumptions C71_wd_change.

(** One missing or superfluous boundary: a count that depends on how near the
    ends it is, unless the text is padded. *)
Theorem C71_one_gap : forall f n x y sx sy, coded f n x sx -> coded f n y sy ->
  forall A rnd k g, sane A -> 0 <= k <= 255 -> k < n -> 0 < g < n -> same_but [g] x y -> (cut x g <-> ~ cut y g) ->
  window_diff A rnd f (Some k) false false true sx sy = Ok (WParts (windows_over k n g) (n - k)).
Proof. exact wd_one_gap. Qed.
Print Assumptions C71_one_gap.

Theorem C71_one_gap_lamprier : forall f n x y sx sy, coded f n x sx -> coded f n y sy ->
  forall A rnd k g, sane A -> 1 <= k -> wd_window true f n k [sx; sy] -> 0 < g < n -> same_but [g] x y -> (cut x g <-> ~ cut y g) ->
  window_diff A rnd f (Some k) true false true sx sy = Ok (WParts k (n + k + 1)).
Proof. exact wd_one_gap_lamprier. Qed.
Print Assumptions C71_one_gap_lamprier.

(** A boundary off by a few units counts less the fewer they are. *)
Theorem C71_moved : forall f n x y sx sy, coded f n x sx -> coded f n y sy ->
  forall A rnd k lam g g', sane A -> wd_window lam f n k [sx; sy] -> 0 < g < g' -> g' < n -> same_but [g; g'] x y ->
  cut x g /\ ~ cut x g' /\ ~ cut y g /\ cut y g' ->
  exists c d, window_diff A rnd f (Some k) lam false true sx sy = Ok (WParts c d) /\ c <= 2 * Z.min k (g' - g).
Proof. exact wd_moved_gap. Qed.
Print Assumptions C71_moved.

(** With the correction the worst value stays below 1: the numerator is at most
    three less than the denominator, and this is attained. *)
Theorem C71_lamprier_bound : forall f n x y sx sy, coded f n x sx -> coded f n y sy ->
  forall A rnd k, sane A -> 1 <= k -> wd_window true f n k [sx; sy] ->
  exists c, window_diff A rnd f (Some k) true false true sx sy = Ok (WParts c (n + k + 1)) /\ 0 <= c <= n + k - 2.
Proof. exact wd_lamprier_bound. Qed.
Print Assumptions C71_lamprier_bound.

Theorem C71_lamprier_attained : forall n k, 2 <= n -> 1 <= k <= 255 -> exists h r, Spec.positive h /\ Spec.positive r /\ zsum h = n /\ zsum r = n /\
  forall A rnd, sane A -> window_diff A rnd FMass (Some k) true false true (mass h) (mass r) = Ok (WParts (n + k - 2) (n + k + 1)).
Proof. exact lamprier_tight. Qed.
Print Assumptions C71_lamprier_attained.

Example C71_case : same_but [3] [3; 8] [11] /\ cut [3; 8] 3 /\ ~ cut [11] 3 /\ windows_over 4 11 3 = 3 /\
  window_diff pyA default_round FMass (Some 4) false false true (mass [3; 8]) (mass [11]) = Ok (WParts 3 7) /\
  window_diff pyA default_round FMass (Some 4) true false true (mass [3; 8]) (mass [11]) = Ok (WParts 4 16) /\
  window_diff pyA default_round FMass (Some 4) false false true (mass [5; 6]) (mass [6; 5]) = Ok (WParts 2 7) /\
  window_diff pyA default_round FMass (Some 4) true false true (mass [1; 1; 1]) (mass [3]) = Ok (WParts 5 8).
Proof.
  split. { intros p Hp. rewrite elem_of_list_singleton in Hp. rewrite (cut_cons 3 [8]) by discriminate. split; [intros [?|K]; [lia|]|intros K]; exfalso; exact (cut_one _ _ K). }
  split; [apply cut_cons; [discriminate|left; reflexivity]|]. split; [apply cut_one|]. repeat split; vm_compute; reflexivity.
Qed.

(** ** C72 *)

(** One boundary type, no transpositions: 1 - B is the Jaccard distance of the
    two sets of boundaries, 1 - S the share of the gaps that differ. *)
Theorem C72_B_value : forall E f n_t c, env_ok E -> n_t <= 1 -> n_t <> 0 -> -5 <= c <= 256 ->
  forall sa sb x y, to_bstrings f sa sb = Ok (x, y) -> one_type x y c -> (exists d, used x y d) ->
  exists v w, boundary_similarity exactA E (default_weights exactA) f n_t false false sa sb = Ok (BVal (NDec v)) /\
    boundary_similarity exactA E (default_weights exactA) f n_t true false sa sb = Ok (BVal (NDec w)) /\
    let u := Z.of_nat (both_in x y c + only_in x y c + only_in y x c) in
    0 < u /\ (v == inject_Z (Z.of_nat (both_in x y c)) / inject_Z u)%Q /\
    (w == inject_Z (Z.of_nat (only_in x y c + only_in y x c)) / inject_Z u)%Q.
Proof. exact B_one. Qed.
Print Assumptions C72_B_value.

Theorem C72_S_value : forall E f n_t c, env_ok E -> n_t <= 1 -> n_t <> 0 -> -5 <= c <= 256 ->
  forall sa sb x y, to_bstrings f sa sb = Ok (x, y) -> one_type x y c -> (exists d, used x y d) ->
  exists v w, segmentation_similarity exactA E (default_weights exactA) f n_t false false sa sb = Ok (SVal (NDec v)) /\
    segmentation_similarity exactA E (default_weights exactA) f n_t true false sa sb = Ok (SVal (NDec w)) /\
    0 < zlen x /\ (v == 1 - inject_Z (Z.of_nat (only_in x y c + only_in y x c)) / inject_Z (zlen x))%Q /\
    (w == inject_Z (Z.of_nat (only_in x y c + only_in y x c)) / inject_Z (zlen x))%Q.
Proof. exact S_one. Qed.
Print Assumptions C72_S_value.

(** So both obey the triangle inequality. *)
Theorem C72_B_triangle : forall E f n_t c, env_ok E -> n_t <= 1 -> n_t <> 0 -> -5 <= c <= 256 ->
  forall sx sy sz x y z, to_bstrings f sx sy = Ok (x, y) -> to_bstrings f sy sz = Ok (y, z) -> to_bstrings f sx sz = Ok (x, z) ->
  one_type x y c -> one_type y z c -> (exists d, used x y d) -> (exists d, used y z d) -> (exists d, used x z d) ->
  exists u v w, boundary_similarity exactA E (default_weights exactA) f n_t true false sx sy = Ok (BVal (NDec u)) /\
    boundary_similarity exactA E (default_weights exactA) f n_t true false sy sz = Ok (BVal (NDec v)) /\
    boundary_similarity exactA E (default_weights exactA) f n_t true false sx sz = Ok (BVal (NDec w)) /\ (w <= u + v)%Q.
Proof. exact B_triangle. Qed.
Print Assumptions C72_B_triangle.

Theorem C72_S_triangle : forall E f n_t c, env_ok E -> n_t <= 1 -> n_t <> 0 -> -5 <= c <= 256 ->
  forall sx sy sz x y z, to_bstrings f sx sy = Ok (x, y) -> to_bstrings f sy sz = Ok (y, z) -> to_bstrings f sx sz = Ok (x, z) ->
  one_type x y c -> one_type y z c -> (exists d, used x y d) -> (exists d, used y z d) -> (exists d, used x z d) ->
  exists u v w, segmentation_similarity exactA E (default_weights exactA) f n_t true false sx sy = Ok (SVal (NDec u)) /\
    segmentation_similarity exactA E (default_weights exactA) f n_t true false sy sz = Ok (SVal (NDec v)) /\
    segmentation_similarity exactA E (default_weights exactA) f n_t true false sx sz = Ok (SVal (NDec w)) /\ (w <= u + v)%Q.
Proof. exact S_triangle. Qed.
Print Assumptions C72_S_triangle.

Example C72_case :
  let bs := boundary_similarity exactA env0 (default_weights exactA) FMass 1 true false in
  let ss := segmentation_similarity exactA env0 (default_weights exactA) FMass 1 true false in
  let x := mass [1; 1; 3] in let y := mass [1; 4] in let z := mass [1; 3; 1] in
  bs x y = Ok (BVal (NDec (1 # 2))) /\ bs y z = Ok (BVal (NDec (1 # 2))) /\ bs x z = Ok (BVal (NDec (2 # 3))) /\
  ss x y = Ok (SVal (NDec (1 # 4))) /\ ss y z = Ok (SVal (NDec (1 # 4))) /\ ss x z = Ok (SVal (NDec (1 # 2))) /\
  let show p := Ok (elements <$> fst p, elements <$> snd p) in
  bind (to_bstrings FMass x y) show = Ok ([[1]; [1]; []; []], [[1]; []; []; []]) /\
  bind (to_bstrings FMass y z) show = Ok ([[1]; []; []; []], [[1]; []; []; [1]]).
Proof. cbn zeta. repeat split; vm_compute; reflexivity. Qed.

(** With transpositions (the default n_t is 2) neither does: two moves of one
    step are cheap, one move of two steps is an addition and a deletion. *)
Theorem C72_B_triangle_default_refuted :
  ~ forall x y z u v w, Spec.positive x -> Spec.positive y -> Spec.positive z -> zsum x = zsum y -> zsum y = zsum z ->
    boundary_similarity exactA env0 (default_weights exactA) FMass 2 true false (mass x) (mass y) = Ok (BVal (NDec u)) ->
    boundary_similarity exactA env0 (default_weights exactA) FMass 2 true false (mass y) (mass z) = Ok (BVal (NDec v)) ->
    boundary_similarity exactA env0 (default_weights exactA) FMass 2 true false (mass x) (mass z) = Ok (BVal (NDec w)) -> (w <= u + v)%Q.
Proof.
  intros H. assert (P : forall l, forallb (Z.leb 1) l = true -> Spec.positive l).
  { intros l K. apply Forall_forall. intros i Hi. rewrite forallb_forall in K. specialize (K i (proj1 (elem_of_list_In _ _) Hi)). lia. }
  assert (K : (2 # 3 <= (1 # 4) + (1 # 4))%Q); [|vm_compute in K; apply K; reflexivity].
  apply (H [1; 1; 2] [1; 2; 1] [2; 1; 1]); try (apply P; reflexivity); vm_compute; reflexivity.
Qed.
Print Assumptions C72_B_triangle_default_refuted.

Theorem C72_S_triangle_default_refuted :
  ~ forall x y z u v w, Spec.positive x -> Spec.positive y -> Spec.positive z -> zsum x = zsum y -> zsum y = zsum z ->
    segmentation_similarity exactA env0 (default_weights exactA) FMass 2 true false (mass x) (mass y) = Ok (SVal (NDec u)) ->
    segmentation_similarity exactA env0 (default_weights exactA) FMass 2 true false (mass y) (mass z) = Ok (SVal (NDec v)) ->
    segmentation_similarity exactA env0 (default_weights exactA) FMass 2 true false (mass x) (mass z) = Ok (SVal (NDec w)) -> (w <= u + v)%Q.
Proof.
  intros H. assert (P : forall l, forallb (Z.leb 1) l = true -> Spec.positive l).
  { intros l K. apply Forall_forall. intros i Hi. rewrite forallb_forall in K. specialize (K i (proj1 (elem_of_list_In _ _) Hi)). lia. }
  assert (K : (2 # 3 <= (1 # 6) + (1 # 6))%Q); [|vm_compute in K; apply K; reflexivity].
  apply (H [1; 1; 2] [1; 2; 1] [2; 1; 1]); try (apply P; reflexivity); vm_compute; reflexivity.
Qed.
Print Assumptions C72_S_triangle_default_refuted.
