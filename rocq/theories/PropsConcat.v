(** Property C90: texts put one after the other (segeval/window/pk.py:19-62,
    segeval/window/windowdiff.py:43-139, segeval/similarity/). *)
From Verif Require Import SpecNested Round RoundProofs SimRound FormatProofs BedExtra BedError NestedMass Concat.
Open Scope Z_scope.

Definition mass (l : list Z) : seg := Ints (ints l).

(** The errors that Pk counts in two texts add up: a window across the border has a
    boundary in both segmentations. *)
Theorem C90_pk : forall f1 f2 f n1 n2 k x1 y1 x2 y2 sx1 sy1 sx2 sy2 sx sy, coded f1 n1 x1 sx1 -> coded f1 n1 y1 sy1 -> coded f2 n2 x2 sx2 -> coded f2 n2 y2 sy2 ->
  coded f (n1 + n2) (x1 ++ x2) sx -> coded f (n1 + n2) (y1 ++ y2) sy ->
  forall A rnd, 0 <= k < n1 -> k < n2 -> exists c1 c2,
  pk A rnd f1 (Some k) false true sx1 sy1 = Ok (WParts c1 (n1 - k)) /\ pk A rnd f2 (Some k) false true sx2 sy2 = Ok (WParts c2 (n2 - k)) /\
  pk A rnd f (Some k) false true sx sy = Ok (WParts (c1 + c2) (n1 + n2 - k)).
Proof. exact pk_concat. Qed.
Print Assumptions C90_pk.

(** For WindowDiff up to k windows across the border are added. *)
Theorem C90_window_diff : forall f1 f2 f n1 n2 k x1 y1 x2 y2 sx1 sy1 sx2 sy2 sx sy, coded f1 n1 x1 sx1 -> coded f1 n1 y1 sy1 -> coded f2 n2 x2 sx2 -> coded f2 n2 y2 sy2 ->
  coded f (n1 + n2) (x1 ++ x2) sx -> coded f (n1 + n2) (y1 ++ y2) sy ->
  forall A rnd, sane A -> 0 <= k <= 255 -> k < n1 -> k < n2 -> exists c1 c2 c,
  window_diff A rnd f1 (Some k) false false true sx1 sy1 = Ok (WParts c1 (n1 - k)) /\ window_diff A rnd f2 (Some k) false false true sx2 sy2 = Ok (WParts c2 (n2 - k)) /\
  window_diff A rnd f (Some k) false false true sx sy = Ok (WParts c (n1 + n2 - k)) /\ c1 + c2 <= c <= c1 + c2 + k.
Proof. exact wd_concat. Qed.
Print Assumptions C90_window_diff.

(** With transpositions of neighbours at most, B and S of the whole follow from the edits of
    the two texts; the border counts as one more match. *)
Theorem C90_similarity : forall E f1 f2 f n1 n2 n_t x1 y1 x2 y2 sx1 sy1 sx2 sy2 sx sy, env_ok E -> n_t <> 0 -> n_t <= 2 ->
  marked f1 n1 x1 sx1 -> marked f1 n1 y1 sy1 -> marked f2 n2 x2 sx2 -> marked f2 n2 y2 sy2 ->
  marked f (n1 + n2) (x1 ++ x2) sx -> marked f (n1 + n2) (y1 ++ y2) sy ->
  forall a1 b1 a2 b2 e1 e2, to_bstrings f1 sx1 sy1 = Ok (a1, b1) -> to_bstrings f2 sx2 sy2 = Ok (a2, b2) ->
  boundary_edit_distance E a1 b1 n_t = Ok e1 -> boundary_edit_distance E a2 b2 n_t = Ok e2 ->
  let c := (edit_cost e1 1 n_t + edit_cost e2 1 n_t)%Q in
  B_is E f n_t sx sy (1 - c / inject_Z (edit_count e1 + Z.of_nat (nmatches a1 b1) + (edit_count e2 + Z.of_nat (nmatches a2 b2)) + 1)) /\
  S_is E f n_t sx sy (1 - c / inject_Z (n1 + n2 - 1)).
Proof. exact similarity_concat. Qed.
Print Assumptions C90_similarity.

(** All of the k windows across the border can be errors. *)
Example C90_window_case :
  coded FMass 4 [3; 1] (mass [3; 1]) /\ coded FMass 4 [4] (mass [4]) /\ coded FMass 4 [1; 3] (mass [1; 3]) /\
  coded FMass (4 + 4) ([3; 1] ++ [1; 3]) (mass [3; 1; 1; 3]) /\ coded FMass (4 + 4) ([4] ++ [4]) (mass [4; 4]) /\ 0 <= 2 < 4 /\
  pk pyA default_round FMass (Some 2) false true (mass [3; 1]) (mass [4]) = Ok (WParts 1 2) /\
  pk pyA default_round FMass (Some 2) false true (mass [1; 3]) (mass [4]) = Ok (WParts 1 2) /\
  pk pyA default_round FMass (Some 2) false true (mass [3; 1; 1; 3]) (mass [4; 4]) = Ok (WParts 2 6) /\
  window_diff pyA default_round FMass (Some 2) false false true (mass [3; 1]) (mass [4]) = Ok (WParts 1 2) /\
  window_diff pyA default_round FMass (Some 2) false false true (mass [1; 3]) (mass [4]) = Ok (WParts 1 2) /\
  window_diff pyA default_round FMass (Some 2) false false true (mass [3; 1; 1; 3]) (mass [4; 4]) = Ok (WParts 4 6).
Proof.
  do 5 (split; [split; [repeat constructor; lia|]; split; [discriminate|]; split; reflexivity|]). split; [lia|]. repeat split; vm_compute; reflexivity.
Qed.

(** A near miss in the first text, nothing to be found in the second. *)
Example C90_similarity_case :
  marked FMass 5 [2; 3] (mass [2; 3]) /\ marked FMass 5 [3; 2] (mass [3; 2]) /\ marked FMass 4 [4] (mass [4]) /\
  marked FMass (5 + 4) ([2; 3] ++ [4]) (mass [2; 3; 4]) /\ marked FMass (5 + 4) ([3; 2] ++ [4]) (mass [3; 2; 4]) /\
  boundary_edit_distance env0 [∅; {[1]}; ∅; ∅] [∅; ∅; {[1]}; ∅] 2 = Ok (Edits [] [] [Transp 1 2 1]) /\
  boundary_similarity exactA env0 (default_weights exactA) FMass 2 false false (mass [2; 3; 4]) (mass [3; 2; 4]) = Ok (BVal (NDec (3 # 4))) /\
  segmentation_similarity exactA env0 (default_weights exactA) FMass 2 false false (mass [2; 3; 4]) (mass [3; 2; 4]) = Ok (SVal (NDec (15 # 16))).
Proof.
  do 5 (split; [split; [repeat constructor; lia|]; split; [discriminate|]; split; reflexivity|]). repeat split; vm_compute; reflexivity.
Qed.

(** With longer transpositions B of the whole is not determined in this way: a boundary
    before the border and one behind it can be a near miss. *)
Theorem C90_longer_refuted : ~ (forall x1 y1 x2 y2 e1 e2 a1 b1 a2 b2,
  to_bstrings FMass (mass x1) (mass y1) = Ok (a1, b1) -> to_bstrings FMass (mass x2) (mass y2) = Ok (a2, b2) ->
  boundary_edit_distance env0 a1 b1 3 = Ok e1 -> boundary_edit_distance env0 a2 b2 3 = Ok e2 ->
  forall q, boundary_similarity exactA env0 (default_weights exactA) FMass 3 false false (mass (x1 ++ x2)) (mass (y1 ++ y2)) = Ok (BVal (NDec q)) ->
  (q == 1 - (edit_cost e1 1 3 + edit_cost e2 1 3) / inject_Z (edit_count e1 + Z.of_nat (nmatches a1 b1) + (edit_count e2 + Z.of_nat (nmatches a2 b2)) + 1))%Q).
Proof.
  intros H.
  assert (M1 : marked FMass 2 [1; 1] (mass [1; 1])) by (split; [repeat constructor; lia|]; split; [discriminate|]; split; reflexivity).
  assert (M2 : marked FMass 2 [2] (mass [2])) by (split; [repeat constructor; lia|]; split; [discriminate|]; split; reflexivity).
  specialize (H [1; 1] [2] [2] [1; 1] (Edits [Addition 1 SideA] [] []) (Edits [Addition 1 SideB] [] []) _ _ _ _
    (marked_bstrings FMass 2 _ _ _ _ M1 M2) (marked_bstrings FMass 2 _ _ _ _ M2 M1) ltac:(vm_compute; reflexivity) ltac:(vm_compute; reflexivity) (2 # 3)%Q ltac:(vm_compute; reflexivity)).
  vm_compute in H. discriminate H.
Qed.
Print Assumptions C90_longer_refuted.
