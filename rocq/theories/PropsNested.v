(** Property C82: nested segmentations and the two extreme ones
    (segeval/similarity/, segeval/window/, segeval/ml/__init__.py). *)
From Verif Require Import SpecNested SpecML Round RoundProofs SimRound BedExtra FormatProofs SimMain WindowMetric BedError MLProofs MLMatrix MLFinal Nested NestedWindow NestedMass.
Open Scope Z_scope.

Definition mass (l : list Z) : seg := Ints (ints l).

(** If [b] has all the boundaries of [a] then every edit is an addition to [a] of a
    boundary that only [b] has, once for each. *)
Theorem C82_edits : forall E a b n_t e, env_ok E -> small_types a b -> boundary_edit_distance E a b n_t = Ok e -> nested a b ->
  e_sub e = [] /\ e_transp e = [] /\ Forall (fun x => a_side x = SideB) (e_add e) /\
  forall d, countP (fun x => x = Addition d SideB) (e_add e) = only_in b a d.
Proof. exact nested_edits. Qed.
Print Assumptions C82_edits.

Theorem C82_count : forall E a b n_t e, env_ok E -> small_types a b -> boundary_edit_distance E a b n_t = Ok e -> nested a b ->
  (length (e_add e) + nbounds a = nbounds b)%nat.
Proof. exact nested_count. Qed.
Print Assumptions C82_count.

(** B is the share of the boundaries of [b] that [a] has. *)
Theorem C82_values : forall E f n_t sa sb a b, env_ok E -> small_types a b -> n_t <> 0 -> to_bstrings f sa sb = Ok (a, b) ->
  nested a b -> nbounds b <> 0%nat ->
  B_is E f n_t sa sb (inject_Z (Z.of_nat (nbounds a)) / inject_Z (Z.of_nat (nbounds b))) /\
  S_is E f n_t sa sb (1 - inject_Z (Z.of_nat (nbounds b) - Z.of_nat (nbounds a)) /
    inject_Z (zlen a * zsize (identify_types a b) * zsize (identify_types a b))).
Proof. exact nested_values. Qed.
Print Assumptions C82_values.

Theorem C82_chain : forall E f n_t sa sb sc a b c, env_ok E -> n_t <> 0 ->
  to_bstrings f sa sb = Ok (a, b) -> to_bstrings f sb sc = Ok (b, c) -> to_bstrings f sa sc = Ok (a, c) ->
  small_types a b -> small_types b c -> small_types a c -> nested a b -> nested b c -> nbounds b <> 0%nat ->
  exists u v w, B_is E f n_t sa sb u /\ B_is E f n_t sb sc v /\ B_is E f n_t sa sc w /\ (w == u * v)%Q.
Proof. exact nested_chain. Qed.
Print Assumptions C82_chain.

(** The first segmentation is nested in the second: recall is 1, precision is not. *)
Theorem C82_precision : forall E f n_t sa sb a b m, env_ok E -> small_types a b -> 0 < n_t -> to_bstrings f sa sb = Ok (a, b) -> nested a b ->
  boundary_confusion_matrix exactA E (default_weights exactA) f n_t sa sb = Ok m ->
  forall o t ver, cord_ok o -> used a a t ->
  exists p r mp mr, precision exactA o m (Some t) ver = Ok (NDec p, mp) /\ recall exactA o m (Some t) ver = Ok (NDec r, mr) /\
    (p == inject_Z (Z.of_nat (both_in a b t)) / inject_Z (Z.of_nat (both_in a b t + only_in b a t)))%Q /\ (r == 1)%Q.
Proof. exact nested_precision. Qed.
Print Assumptions C82_precision.

(** For segmentations by masses, in any encoding. *)
Theorem C82_masses : forall E f n n_t x y sx sy, env_ok E -> n_t <> 0 -> marked f n x sx -> marked f n y sy -> refines y x -> (1 < length y)%nat ->
  B_is E f n_t sx sy (inject_Z (zlen x - 1) / inject_Z (zlen y - 1)) /\ S_is E f n_t sx sy (1 - inject_Z (zlen y - zlen x) / inject_Z (n - 1)).
Proof. exact nested_masses. Qed.
Print Assumptions C82_masses.

(** No boundaries at all, and all possible boundaries. *)
Theorem C82_baselines : forall E f n n_t r s0 s1 sr, env_ok E -> n_t <> 0 ->
  marked f n (whole n) s0 -> marked f n (units n) s1 -> marked f n r sr -> (1 < length r)%nat ->
  let share := (inject_Z (zlen r - 1) / inject_Z (n - 1))%Q in
  B_is E f n_t s0 sr 0 /\ B_is E f n_t sr s1 share /\ S_is E f n_t s0 sr (1 - share) /\ S_is E f n_t sr s1 share.
Proof. exact B_S_baselines. Qed.
Print Assumptions C82_baselines.

(** Pk counts the windows that the refinement no longer leaves empty, WindowDiff
    those in which it has a boundary more. *)
Theorem C82_pk : forall f n x y sx sy, coded f n x sx -> coded f n y sy -> refines y x ->
  forall A rnd k, 0 <= k < n -> exists u v, windows k n (without x) u /\ windows k n (without y) v /\
  pk A rnd f (Some k) false true sx sy = Ok (WParts (u - v) (n - k)).
Proof. exact pk_nested. Qed.
Print Assumptions C82_pk.

Theorem C82_window_diff : forall f n x y sx sy, coded f n x sx -> coded f n y sy -> refines y x ->
  forall A rnd k, sane A -> 0 <= k <= 255 -> k < n -> exists c, windows k n (with_more x y) c /\
  window_diff A rnd f (Some k) false false true sx sy = Ok (WParts c (n - k)).
Proof. exact wd_nested. Qed.
Print Assumptions C82_window_diff.

Theorem C82_lamprier : forall f n x y sx sy, coded f n x sx -> coded f n y sy -> refines y x ->
  forall A rnd k, sane A -> wd_window true f n k [sx; sy] ->
  exists c, windows k (n + 2 * Z.max 1 k) (with_more (padded k x) (padded k y)) c /\
  window_diff A rnd f (Some k) true false true sx sy = Ok (WParts c (n + 2 * Z.max 1 k - k + 1)).
Proof. exact wd_nested_lamprier. Qed.
Print Assumptions C82_lamprier.

(** Along a chain of refinements the errors of Pk add up; those of WindowDiff grow. *)
Theorem C82_pk_chain : forall f n x y z sx sy sz, coded f n x sx -> coded f n y sy -> coded f n z sz -> refines y x -> refines z y ->
  forall A rnd k, 0 <= k < n -> exists a b, pk A rnd f (Some k) false true sx sy = Ok (WParts a (n - k)) /\
  pk A rnd f (Some k) false true sy sz = Ok (WParts b (n - k)) /\ pk A rnd f (Some k) false true sx sz = Ok (WParts (a + b) (n - k)).
Proof. exact pk_chain. Qed.
Print Assumptions C82_pk_chain.

Theorem C82_window_diff_chain : forall f n x y z sx sy sz, coded f n x sx -> coded f n y sy -> coded f n z sz -> refines y x -> refines z y ->
  forall A rnd k lam, sane A -> wd_window lam f n k [sx; sy; sz] -> exists a b c d,
  window_diff A rnd f (Some k) lam false true sx sy = Ok (WParts a d) /\ window_diff A rnd f (Some k) lam false true sy sz = Ok (WParts b d) /\
  window_diff A rnd f (Some k) lam false true sx sz = Ok (WParts c d) /\ Z.max a b <= c <= a + b.
Proof. exact wd_chain. Qed.
Print Assumptions C82_window_diff_chain.

(** The two extreme segmentations share the windows between them under Pk. *)
Theorem C82_pk_baselines : forall f n r s0 s1 sr, coded f n (whole n) s0 -> coded f n (units n) s1 -> coded f n r sr ->
  forall k, 1 <= k < n -> forall A rnd, exists a b, windows k n (with_some r) a /\ windows k n (without r) b /\ a + b = n - k /\
  pk A rnd f (Some k) false true s0 sr = Ok (WParts a (n - k)) /\ pk A rnd f (Some k) false true s1 sr = Ok (WParts b (n - k)).
Proof. exact pk_baselines. Qed.
Print Assumptions C82_pk_baselines.

Theorem C82_window_diff_baselines : forall f n r s0 s1 sr, coded f n (whole n) s0 -> coded f n (units n) s1 -> coded f n r sr ->
  forall k, 1 <= k < n -> forall A rnd, sane A -> k <= 255 -> exists a c, windows k n (with_some r) a /\ windows k n (fun w => ~ with_all r w) c /\
  window_diff A rnd f (Some k) false false true s0 sr = Ok (WParts a (n - k)) /\ window_diff A rnd f (Some k) false false true s1 sr = Ok (WParts c (n - k)).
Proof. exact wd_baselines. Qed.
Print Assumptions C82_window_diff_baselines.

(** The count of windows is determined by the condition. *)
Theorem C82_windows_unique : forall k n P c c', windows k n P c -> windows k n P c' -> c = c'.
Proof. exact windows_unique. Qed.
Print Assumptions C82_windows_unique.

(** Several types, and two more boundaries in the second; B is 2/4. *)
Example C82_case : let a := [{[1]}; ∅; {[2]}] in let b := [{[1; 3]}; {[1]}; {[2]}] in
  small_types a b /\ nested a b /\ nbounds b = 4%nat /\ to_bstrings FSets (Sets a) (Sets b) = Ok (a, b) /\
  boundary_edit_distance env0 a b 2 = Ok (Edits [Addition 3 SideB; Addition 1 SideB] [] []) /\
  boundary_similarity exactA env0 (default_weights exactA) FSets 2 false false (Sets a) (Sets b) = Ok (BVal (NDec (1 # 2))) /\
  boundary_similarity exactA env0 (default_weights exactA) FSets 2 false false (Sets b) (Sets a) = Ok (BVal (NDec (1 # 2))).
Proof.
  cbn zeta. split; [apply small_typesb; reflexivity|]. split.
  { split; [reflexivity|]. intros i d (t & H & K). destruct i as [|[|[|i]]]; cbn in H; try discriminate; injection H as <-.
    - exists {[1; 3]}. split; [reflexivity|]. set_solver.
    - set_solver.
    - exists {[2]}. split; [reflexivity|exact K]. }
  repeat split; vm_compute; reflexivity.
Qed.

(** 3 segments of 9 units between the extremes. *)
Example C82_mass_case :
  marked FMass 9 (whole 9) (mass [9]) /\ marked FMass 9 (units 9) (mass [1; 1; 1; 1; 1; 1; 1; 1; 1]) /\ marked FMass 9 [2; 3; 4] (mass [2; 3; 4]) /\
  coded FMass 9 (whole 9) (mass [9]) /\ coded FMass 9 (units 9) (mass [1; 1; 1; 1; 1; 1; 1; 1; 1]) /\ coded FMass 9 [2; 3; 4] (mass [2; 3; 4]) /\
  refines [2; 3; 4] [5; 4] /\
  boundary_similarity exactA env0 (default_weights exactA) FMass 2 false false (mass [5; 4]) (mass [2; 3; 4]) = Ok (BVal (NDec (1 # 2))) /\
  segmentation_similarity exactA env0 (default_weights exactA) FMass 2 false false (mass [9]) (mass [2; 3; 4]) = Ok (SVal (NDec (3 # 4))) /\
  segmentation_similarity exactA env0 (default_weights exactA) FMass 2 false false (mass [2; 3; 4]) (mass [1; 1; 1; 1; 1; 1; 1; 1; 1]) = Ok (SVal (NDec (1 # 4))) /\
  pk pyA default_round FMass (Some 2) false true (mass [9]) (mass [2; 3; 4]) = Ok (WParts 4 7) /\
  pk pyA default_round FMass (Some 2) false true (mass [1; 1; 1; 1; 1; 1; 1; 1; 1]) (mass [2; 3; 4]) = Ok (WParts 3 7) /\
  pk pyA default_round FMass (Some 2) false true (mass [9]) (mass [5; 4]) = Ok (WParts 2 7) /\
  pk pyA default_round FMass (Some 2) false true (mass [5; 4]) (mass [2; 3; 4]) = Ok (WParts 2 7) /\
  window_diff pyA default_round FMass (Some 2) false false true (mass [9]) (mass [2; 3; 4]) = Ok (WParts 4 7) /\
  window_diff pyA default_round FMass (Some 2) false false true (mass [1; 1; 1; 1; 1; 1; 1; 1; 1]) (mass [2; 3; 4]) = Ok (WParts 7 7).
Proof.
  do 3 (split; [split; [repeat constructor; lia|]; split; [discriminate|]; split; reflexivity|]).
  do 3 (split; [split; [repeat constructor; lia|]; split; [discriminate|]; split; reflexivity|]).
  split. { intros p (k & H & <-). destruct k as [|[|k]]; cbn in H; try lia. exists 2%nat. split; [cbn; lia|reflexivity]. }
  repeat split; vm_compute; reflexivity.
Qed.
