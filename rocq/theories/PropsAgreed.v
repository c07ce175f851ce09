(** Properties C84 and C85: what agreed boundaries and longer transpositions do to the
    metrics (segeval/similarity/distance/multipleboundary.py, segeval/similarity/,
    segeval/window/). *)
From Verif Require Import SpecAgreed Round RoundProofs BedExtra FormatProofs WindowMetric Agreed AgreedWindow Spans.
Open Scope Z_scope.

Definition mass (l : list Z) : seg := Ints (ints l).

(** ** C84 *)

(** The edits depend on the differences only: where both have a type is of no account. *)
Theorem C84_edits : forall x y x' y', differ_alike x y x' y' -> forall E n_t, boundary_edit_distance E x y n_t = boundary_edit_distance E x' y' n_t.
Proof. exact bed_alike. Qed.
Print Assumptions C84_edits.

(** So does S if the same types are used, with any weights and arithmetic. *)
Theorem C84_S : forall x y x' y', differ_alike x y x' y' -> forall A E W f f' n_t om rp sa sb sa' sb',
  used_alike x y x' y' -> to_bstrings f sa sb = Ok (x, y) -> to_bstrings f' sa' sb' = Ok (x', y') ->
  segmentation_similarity A E W f n_t om rp sa sb = segmentation_similarity A E W f' n_t om rp sa' sb'.
Proof. exact S_alike. Qed.
Print Assumptions C84_S.

(** B grows with the number of agreed boundaries, strictly so unless it is 1. *)
Theorem C84_B : forall x y x' y', differ_alike x y x' y' -> forall E f f' n_t sa sb sa' sb',
  env_ok E -> 0 < n_t -> used_alike x y x' y' -> (exists d, used x y d) ->
  to_bstrings f sa sb = Ok (x, y) -> to_bstrings f' sa' sb' = Ok (x', y') -> (nmatches x y <= nmatches x' y')%nat ->
  exists v v', B_is E f n_t sa sb v /\ B_is E f' n_t sa' sb' v' /\ (v <= v')%Q /\ ((nmatches x y < nmatches x' y')%nat -> (v < 1)%Q -> (v < v')%Q).
Proof. exact B_alike. Qed.
Print Assumptions C84_B.

(** For a given window size WindowDiff depends on the differences only, *)
Theorem C84_window_diff : forall f f' n x y x' y' sx sy sx' sy', coded f n x sx -> coded f n y sy -> coded f' n x' sx' -> coded f' n y' sy' -> cut_alike x y x' y' ->
  forall A rnd k lam om rp, sane A -> wd_window lam f n k [sx; sy] -> wd_window lam f' n k [sx'; sy'] ->
  window_diff A rnd f (Some k) lam om rp sx sy = window_diff A rnd f' (Some k) lam om rp sx' sy'.
Proof. exact wd_alike. Qed.
Print Assumptions C84_window_diff.

(** and further agreed boundaries never add errors to Pk. *)
Theorem C84_pk : forall f f' n x y x' y' sx sy sx' sy', coded f n x sx -> coded f n y sy -> coded f' n x' sx' -> coded f' n y' sy' -> cut_alike x y x' y' ->
  forall A rnd k, (forall p, cut x p -> cut x' p) -> (forall p, cut y p -> cut y' p) -> 0 <= k < n ->
  exists c c', pk A rnd f (Some k) false true sx sy = Ok (WParts c (n - k)) /\ pk A rnd f' (Some k) false true sx' sy' = Ok (WParts c' (n - k)) /\ 0 <= c' <= c.
Proof. exact pk_alike. Qed.
Print Assumptions C84_pk.

Definition x0 : list (gset Z) := [{[1]}; ∅; ∅; ∅].
Definition y0 : list (gset Z) := [∅; {[1]}; ∅; ∅].
Definition x1 : list (gset Z) := [{[1]}; ∅; {[1]}; ∅].
Definition y1 : list (gset Z) := [∅; {[1]}; {[1]}; ∅].

Lemma has_at (s : list (gset Z)) i d : has s i d <-> d ∈ default ∅ (s !! i).
Proof. unfold has. destruct (s !! i); cbn; [|set_solver]. split; [intros (? & [= <-] & ?); assumption|eauto]. Qed.

Example C84_case :
  differ_alike x0 y0 x1 y1 /\ used_alike x0 y0 x1 y1 /\ nmatches x0 y0 = 0%nat /\ nmatches x1 y1 = 1%nat /\
  boundary_edit_distance env0 x0 y0 2 = Ok (Edits [] [] [Transp 0 1 1]) /\ boundary_edit_distance env0 x1 y1 2 = Ok (Edits [] [] [Transp 0 1 1]) /\
  boundary_similarity pyA env0 (default_weights pyA) FSets 2 false false (Sets x0) (Sets y0) = Ok (BVal (NDec (1 # 2))) /\
  boundary_similarity pyA env0 (default_weights pyA) FSets 2 false false (Sets x1) (Sets y1) = Ok (BVal (NDec (3 # 4))) /\
  segmentation_similarity pyA env0 (default_weights pyA) FSets 2 false false (Sets x0) (Sets y0) = Ok (SVal (NDec (7 # 8))) /\
  segmentation_similarity pyA env0 (default_weights pyA) FSets 2 false false (Sets x1) (Sets y1) = Ok (SVal (NDec (7 # 8))).
Proof.
  split.
  { split; [reflexivity|]. split; [reflexivity|]. intros i d. rewrite !has_at. destruct i as [|[|[|[|i]]]]; cbn; set_solver. }
  split.
  { intros d. split; intros (i & K); rewrite !has_at in K; assert (d = 1) as -> by (destruct i as [|[|[|[|i]]]]; cbn in K; set_solver);
      exists 0%nat; left; apply has_at; cbn; set_solver. }
  repeat split; vm_compute; reflexivity.
Qed.

Example C84_window_case :
  cut_alike [1; 4] [2; 3] [1; 3; 1] [2; 2; 1] /\ (forall p, cut [1; 4] p -> cut [1; 3; 1] p) /\ (forall p, cut [2; 3] p -> cut [2; 2; 1] p) /\
  window_diff pyA default_round FMass (Some 2) false false true (mass [1; 4]) (mass [2; 3]) = Ok (WParts 1 3) /\
  window_diff pyA default_round FMass (Some 2) false false true (mass [1; 3; 1]) (mass [2; 2; 1]) = Ok (WParts 1 3) /\
  pk pyA default_round FMass (Some 3) false true (mass [1; 4]) (mass [2; 3]) = Ok (WParts 1 2) /\
  pk pyA default_round FMass (Some 3) false true (mass [1; 3; 1]) (mass [2; 2; 1]) = Ok (WParts 0 2).
Proof.
  assert (X : forall p, cut [1; 4] p <-> p = 1).
  { intros p. rewrite (cut_cons 1 [4]) by discriminate. split; [intros [K|K]; [exact K|destruct (cut_one _ _ K)]|auto]. }
  assert (Y : forall p, cut [2; 3] p <-> p = 2).
  { intros p. rewrite (cut_cons 2 [3]) by discriminate. split; [intros [K|K]; [exact K|destruct (cut_one _ _ K)]|auto]. }
  assert (X' : forall p, cut [1; 3; 1] p <-> p = 1 \/ p = 4).
  { intros p. rewrite (cut_cons 1 [3; 1]), (cut_cons 3 [1]) by discriminate. split; [intros [K|[K|K]]; [lia|lia|destruct (cut_one _ _ K)]|]. intros [K|K]; [auto|]. right. left. lia. }
  assert (Y' : forall p, cut [2; 2; 1] p <-> p = 2 \/ p = 4).
  { intros p. rewrite (cut_cons 2 [2; 1]), (cut_cons 2 [1]) by discriminate. split; [intros [K|[K|K]]; [lia|lia|destruct (cut_one _ _ K)]|]. intros [K|K]; [auto|]. right. left. lia. }
  split; [intros p; rewrite X, Y, X', Y'; lia|]. split; [intros p; rewrite X, X'; auto|]. split; [intros p; rewrite Y, Y'; auto|]. repeat split; vm_compute; reflexivity.
Qed.

(** ** C85 *)

(** With one boundary type, allowing longer transpositions never lowers B or S. *)
Theorem C85_B : forall E f n n' c sa sb x y, env_ok E -> 1 <= n <= n' -> -5 <= c <= 256 -> to_bstrings f sa sb = Ok (x, y) -> one_type x y c -> (exists d, used x y d) ->
  exists v v', B_is E f n sa sb v /\ B_is E f n' sa sb v' /\ (v <= v')%Q.
Proof. exact B_spans. Qed.
Print Assumptions C85_B.

Theorem C85_S : forall E f n n' c sa sb x y, env_ok E -> 1 <= n <= n' -> -5 <= c <= 256 -> to_bstrings f sa sb = Ok (x, y) -> one_type x y c -> (exists d, used x y d) ->
  exists v v', S_is E f n sa sb v /\ S_is E f n' sa sb v' /\ (v <= v')%Q.
Proof. exact S_spans. Qed.
Print Assumptions C85_S.

(** Two additions, then a transposition that weighs less and less. *)
Example C85_case : let a := [{[1]}; ∅; ∅; {[1]}] in let b := [∅; {[1]}; ∅; {[1]}] in
  one_type a b 1 /\ to_bstrings FSets (Sets a) (Sets b) = Ok (a, b) /\
  (fun n => boundary_similarity exactA env0 (default_weights exactA) FSets n false false (Sets a) (Sets b)) <$> [1; 2; 3; 4] =
    [Ok (BVal (NDec (1 # 3))); Ok (BVal (NDec (3 # 4))); Ok (BVal (NDec (5 # 6))); Ok (BVal (NDec (7 # 8)))] /\
  (fun n => segmentation_similarity exactA env0 (default_weights exactA) FSets n false false (Sets a) (Sets b)) <$> [1; 2; 3; 4] =
    [Ok (SVal (NDec (1 # 2))); Ok (SVal (NDec (7 # 8))); Ok (SVal (NDec (11 # 12))); Ok (SVal (NDec (15 # 16)))].
Proof. cbn zeta. split; [apply one_typeb; vm_compute; reflexivity|]. repeat split; vm_compute; reflexivity. Qed.

(** With several types it may: a transposition can take the place of a cheap substitution. *)
Theorem C85_several_types_refuted :
  ~ forall n n' (x y : list (gset Z)) v v', 1 <= n <= n' -> small_types x y ->
    boundary_similarity exactA env0 (default_weights exactA) FSets n false false (Sets x) (Sets y) = Ok (BVal (NDec v)) ->
    boundary_similarity exactA env0 (default_weights exactA) FSets n' false false (Sets x) (Sets y) = Ok (BVal (NDec v')) -> (v <= v')%Q.
Proof.
  intros H. assert (K : (17 # 27 <= 1 # 2)%Q); [|vm_compute in K; apply K; reflexivity].
  apply (H 1 2 [{[1]}; ∅; {[9]}] [{[2]}; {[1]}; {[9]}]); [lia|apply small_typesb; vm_compute; reflexivity| |]; vm_compute; reflexivity.
Qed.
Print Assumptions C85_several_types_refuted.
