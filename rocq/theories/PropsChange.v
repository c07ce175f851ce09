(** Properties C62-C64: what a larger context, other names of the boundary types
    or reading backwards change in the edits, B, S, Pk and WindowDiff
    (segeval/similarity/distance/multipleboundary.py, boundary.py, segmentation.py,
    segeval/window/pk.py, windowdiff.py). *)
From Verif Require Import SpecChange SpecWindow Round RoundProofs BedExtra SimRound SimTheory SimMain SimSym BedContext SimContext
  WindowReverse BedReverse.
Open Scope Z_scope.

(** ** C62 *)

(** [x] before and [y] after, in both segmentations. *)
Theorem C62_context : forall E E' x a b y n_t e e',
  env_ok E -> env_ok E' -> length a = length b -> small_types (x ++ a ++ y) (x ++ b ++ y) ->
  boundary_edit_distance E a b n_t = Ok e ->
  boundary_edit_distance E' (x ++ a ++ y) (x ++ b ++ y) n_t = Ok e' ->
  e_add e' = e_add e /\ e_sub e' = e_sub e /\ e_transp e' ≡ₚ moved (length x) <$> e_transp e.
Proof. exact bed_context. Qed.
Print Assumptions C62_context.

Example C62_case :
  small_types ([{[1]}; ∅] ++ [{[1; 2]}; ∅; {[1]}] ++ [{[2]}]) ([{[1]}; ∅] ++ [{[1; 3]}; {[1]}; ∅] ++ [{[2]}]) /\
  boundary_edit_distance env0 [{[1; 2]}; ∅; {[1]}] [{[1; 3]}; {[1]}; ∅] 2 = Ok (Edits [] [(2, 3)] [Transp 1 2 1]) /\
  boundary_edit_distance env_rev ([{[1]}; ∅] ++ [{[1; 2]}; ∅; {[1]}] ++ [{[2]}]) ([{[1]}; ∅] ++ [{[1; 3]}; {[1]}; ∅] ++ [{[2]}]) 2 =
    Ok (Edits [] [(2, 3)] [Transp 3 4 1]).
Proof. split; [apply small_typesb; vm_compute; reflexivity|]. split; vm_compute; reflexivity. Qed.

(** Numerator and denominator of B both grow by the boundaries of the context; [c] is the weight of the edits. *)
Theorem C62_parts : forall E E' f f' n_t sa sb sa' sb' x a b y lo hi e e',
  env_ok E -> env_ok E' -> to_bstrings f sa sb = Ok (a, b) -> to_bstrings f' sa' sb' = Ok (x ++ a ++ y, x ++ b ++ y) ->
  small_types (x ++ a ++ y) (x ++ b ++ y) -> n_t <> 0 -> extent a b lo hi -> extent (x ++ a ++ y) (x ++ b ++ y) lo hi ->
  boundary_edit_distance E a b n_t = Ok e -> boundary_edit_distance E' (x ++ a ++ y) (x ++ b ++ y) n_t = Ok e' ->
  forall A, exists c,
  let d := edit_count e + Z.of_nat (nmatches a b) in
  let d' := d + Z.of_nat (nbounds x + nbounds y) in
  boundary_similarity A E (default_weights A) f n_t false true sa sb = Ok (BParts (NDec (rd A (inject_Z d - c))) (NInt d) e) /\
  boundary_similarity A E' (default_weights A) f' n_t false true sa' sb' = Ok (BParts (NDec (rd A (inject_Z d' - c))) (NInt d') e').
Proof. exact B_context_parts. Qed.
Print Assumptions C62_parts.

(** So agreed context never lowers B or S. *)
Theorem C62_B : forall E E' f f' n_t sa sb sa' sb' x a b y lo hi e e',
  env_ok E -> env_ok E' -> to_bstrings f sa sb = Ok (a, b) -> to_bstrings f' sa' sb' = Ok (x ++ a ++ y, x ++ b ++ y) ->
  small_types (x ++ a ++ y) (x ++ b ++ y) -> n_t <> 0 -> extent a b lo hi -> extent (x ++ a ++ y) (x ++ b ++ y) lo hi ->
  boundary_edit_distance E a b n_t = Ok e -> boundary_edit_distance E' (x ++ a ++ y) (x ++ b ++ y) n_t = Ok e' ->
  exists v v',
  boundary_similarity exactA E (default_weights exactA) f n_t false false sa sb = Ok (BVal (NDec v)) /\
  boundary_similarity exactA E' (default_weights exactA) f' n_t false false sa' sb' = Ok (BVal (NDec v')) /\ (v <= v')%Q.
Proof. exact B_context. Qed.
Print Assumptions C62_B.

Theorem C62_S : forall E E' f f' n_t sa sb sa' sb' x a b y lo hi e e',
  env_ok E -> env_ok E' -> to_bstrings f sa sb = Ok (a, b) -> to_bstrings f' sa' sb' = Ok (x ++ a ++ y, x ++ b ++ y) ->
  small_types (x ++ a ++ y) (x ++ b ++ y) -> n_t <> 0 -> extent a b lo hi -> extent (x ++ a ++ y) (x ++ b ++ y) lo hi ->
  boundary_edit_distance E a b n_t = Ok e -> boundary_edit_distance E' (x ++ a ++ y) (x ++ b ++ y) n_t = Ok e' ->
  exists w w',
  segmentation_similarity exactA E (default_weights exactA) f n_t false false sa sb = Ok (SVal (NDec w)) /\
  segmentation_similarity exactA E' (default_weights exactA) f' n_t false false sa' sb' = Ok (SVal (NDec w')) /\ (w <= w')%Q.
Proof. exact S_context. Qed.
Print Assumptions C62_S.

(** Masses 2, 3 and 3, 2; then after a segment of 2 and before one of 4: B goes from 1/2 to 5/6, S from 7/8 to 19/20. *)
Example C62_values :
  to_bstrings FMass (Ints (ints [2; 3])) (Ints (ints [3; 2])) = Ok ([∅; {[1]}; ∅; ∅], [∅; ∅; {[1]}; ∅]) /\
  to_bstrings FMass (Ints (ints [2; 2; 3; 4])) (Ints (ints [2; 3; 2; 4])) =
    Ok ([∅; {[1]}] ++ [∅; {[1]}; ∅; ∅] ++ [{[1]}; ∅; ∅; ∅], [∅; {[1]}] ++ [∅; ∅; {[1]}; ∅] ++ [{[1]}; ∅; ∅; ∅]) /\
  extent [∅; {[1]}; ∅; ∅] [∅; ∅; {[1]}; ∅] 1 1 /\
  extent ([∅; {[1]}] ++ [∅; {[1]}; ∅; ∅] ++ [{[1]}; ∅; ∅; ∅]) ([∅; {[1]}] ++ [∅; ∅; {[1]}; ∅] ++ [{[1]}; ∅; ∅; ∅]) 1 1 /\
  boundary_similarity exactA env0 (default_weights exactA) FMass 2 false false (Ints (ints [2; 3])) (Ints (ints [3; 2])) = Ok (BVal (NDec (1 # 2))) /\
  boundary_similarity exactA env0 (default_weights exactA) FMass 2 false false (Ints (ints [2; 2; 3; 4])) (Ints (ints [2; 3; 2; 4])) =
    Ok (BVal (NDec (5 # 6))) /\
  segmentation_similarity exactA env0 (default_weights exactA) FMass 2 false false (Ints (ints [2; 3])) (Ints (ints [3; 2])) = Ok (SVal (NDec (7 # 8))) /\
  segmentation_similarity exactA env0 (default_weights exactA) FMass 2 false false (Ints (ints [2; 2; 3; 4])) (Ints (ints [2; 3; 2; 4])) =
    Ok (SVal (NDec (19 # 20))).
Proof.
  split; [by_compute|]. split; [by_compute|].
  split; [apply extentb_ok; vm_compute; reflexivity|]. split; [apply extentb_ok; vm_compute; reflexivity|].
  repeat (split; [vm_compute; reflexivity|]). vm_compute. reflexivity.
Qed.

(** ** C63 *)

Theorem C63_edits : forall f, (forall d d', f d = f d' -> d = d') -> forall E E' a b n_t e e',
  env_ok E -> env_ok E' -> length a = length b -> small_types a b -> small_types (renamed f a) (renamed f b) ->
  boundary_edit_distance E a b n_t = Ok e ->
  boundary_edit_distance E' (renamed f a) (renamed f b) n_t = Ok e' ->
  e_transp e' ≡ₚ retyped f <$> e_transp e /\
  (forall s, countP (fun x => a_side x = s) (e_add e') = countP (fun x => a_side x = s) (e_add e)) /\
  length (e_add e') = length (e_add e) /\
  length (e_sub e') = length (e_sub e) /\
  ((forall d d', Z.abs (f d - f d') = Z.abs (d - d')) -> distance (e_sub e') = distance (e_sub e)).
Proof. exact bed_renamed. Qed.
Print Assumptions C63_edits.

(** The scaled weights look at distances between types only. *)
Theorem C63_default_weights : forall A E E' n_t f a b, env_ok E -> env_ok E' ->
  (forall d d', Z.abs (f d - f d') = Z.abs (d - d')) -> small_types a b -> small_types (renamed f a) (renamed f b) ->
  forall om rp,
    same_result (boundary_similarity A E (default_weights A) FSets n_t om rp (Sets a) (Sets b))
      (boundary_similarity A E' (default_weights A) FSets n_t om rp (Sets (renamed f a)) (Sets (renamed f b))) /\
    segmentation_similarity A E (default_weights A) FSets n_t om rp (Sets a) (Sets b) =
      segmentation_similarity A E' (default_weights A) FSets n_t om rp (Sets (renamed f a)) (Sets (renamed f b)).
Proof. exact default_renamed. Qed.
Print Assumptions C63_default_weights.

(** With the unscaled weights any renaming will do. *)
Theorem C63_plain_weights : forall A E E' n_t f a b, env_ok E -> env_ok E' ->
  (forall d d', f d = f d' -> d = d') -> small_types a b -> small_types (renamed f a) (renamed f b) ->
  forall om rp,
    same_result (boundary_similarity A E plain_weights FSets n_t om rp (Sets a) (Sets b))
      (boundary_similarity A E' plain_weights FSets n_t om rp (Sets (renamed f a)) (Sets (renamed f b))) /\
    segmentation_similarity A E plain_weights FSets n_t om rp (Sets a) (Sets b) =
      segmentation_similarity A E' plain_weights FSets n_t om rp (Sets (renamed f a)) (Sets (renamed f b)).
Proof. exact plain_renamed. Qed.
Print Assumptions C63_plain_weights.

(** Types 1, 2, 3 called 9, 8, 7. *)
Example C63_case :
  let f := fun d => 10 - d in let a := [{[1; 2]}; ∅; {[1]}] in let b := [{[1; 3]}; {[1]}; {[2]}] in
  (forall d d', Z.abs (f d - f d') = Z.abs (d - d')) /\ small_types a b /\ small_types (renamed f a) (renamed f b) /\
  boundary_edit_distance env0 a b 2 = Ok (Edits [Addition 2 SideB] [(2, 3)] [Transp 1 2 1]) /\
  boundary_edit_distance env0 (renamed f a) (renamed f b) 2 = Ok (Edits [Addition 8 SideB] [(8, 7)] [Transp 1 2 9]) /\
  boundary_similarity pyA env0 (default_weights pyA) FSets 2 false false (Sets a) (Sets b) =
  boundary_similarity pyA env0 (default_weights pyA) FSets 2 false false (Sets (renamed f a)) (Sets (renamed f b)).
Proof.
  split; [intros; lia|]. split; [apply small_typesb; vm_compute; reflexivity|]. split; [apply small_typesb; vm_compute; reflexivity|].
  repeat (split; [vm_compute; reflexivity|]). vm_compute. reflexivity.
Qed.

(** With the scaled weights the distances do count: types 1, 2, 3 called 1, 2, 30 cost more. *)
Theorem C63_any_renaming_refuted : ~ forall A E n_t f a b, env_ok E ->
  (forall d d', f d = f d' -> d = d') -> small_types a b -> small_types (renamed f a) (renamed f b) ->
    same_result (boundary_similarity A E (default_weights A) FSets n_t false false (Sets a) (Sets b))
      (boundary_similarity A E (default_weights A) FSets n_t false false (Sets (renamed f a)) (Sets (renamed f b))).
Proof.
  intros H. set (f := fun d => if d =? 3 then 30 else if d =? 30 then 3 else d).
  assert (Hf : forall d d', f d = f d' -> d = d').
  { intros d d'. unfold f. destruct (Z.eqb_spec d 3), (Z.eqb_spec d 30), (Z.eqb_spec d' 3), (Z.eqb_spec d' 30); lia. }
  specialize (H exactA env0 2 f [{[1; 2]}] [{[1; 3]}] env0_ok Hf).
  assert (S1 : small_types [{[1; 2]}] [{[1; 3]}]) by (apply small_typesb; vm_compute; reflexivity).
  assert (S2 : small_types (renamed f [{[1; 2]}]) (renamed f [{[1; 3]}])) by (apply small_typesb; vm_compute; reflexivity).
  specialize (H S1 S2). vm_compute in H. discriminate H.
Qed.
Print Assumptions C63_any_renaming_refuted.

(** ** C64 *)

Theorem C64_pk : forall A rnd f f' mh mr sh sr sh' sr',
  Spec.positive mh -> Spec.positive mr -> mh <> [] -> mr <> [] -> zsum mh = zsum mr ->
  wencodes f mh sh -> wencodes f mr sr -> wencodes f' (reverse mh) sh' -> wencodes f' (reverse mr) sr' ->
  forall k om rp, 0 <= k < zsum mr -> pk A rnd f' (Some k) om rp sh' sr' = pk A rnd f (Some k) om rp sh sr.
Proof. exact pk_reverse. Qed.
Print Assumptions C64_pk.

Theorem C64_window_diff : forall A rnd f f' mh mr sh sr sh' sr',
  Spec.positive mh -> Spec.positive mr -> mh <> [] -> mr <> [] -> zsum mh = zsum mr ->
  wencodes f mh sh -> wencodes f mr sr -> wencodes f' (reverse mh) sh' -> wencodes f' (reverse mr) sr' ->
  forall k om rp, sane A -> 0 <= k <= 255 -> k < zsum mr ->
  window_diff A rnd f' (Some k) false om rp sh' sr' = window_diff A rnd f (Some k) false om rp sh sr.
Proof. exact wd_reverse. Qed.
Print Assumptions C64_window_diff.

Theorem C64_lamprier : forall A rnd f f' mh mr sh sr sh' sr',
  Spec.positive mh -> Spec.positive mr -> mh <> [] -> mr <> [] -> zsum mh = zsum mr ->
  wencodes f mh sh -> wencodes f mr sr -> wencodes f' (reverse mh) sh' -> wencodes f' (reverse mr) sr' ->
  forall k om rp, sane A -> 0 <= k <= 255 ->
  ends_not_zero f sh -> ends_not_zero f sr -> ends_not_zero f' sh' -> ends_not_zero f' sr' ->
  window_diff A rnd f' (Some k) true om rp sh' sr' = window_diff A rnd f (Some k) true om rp sh sr.
Proof. exact lamprier_reverse. Qed.
Print Assumptions C64_lamprier.

(** The default window does not change either. *)
Theorem C64_default_window : forall A rnd f f' mr sr sr',
  Spec.positive mr -> mr <> [] -> wencodes f mr sr -> wencodes f' (reverse mr) sr' ->
  forall eps M, prec A eps M -> zsum mr <= M -> forall r r',
  to_positions f sr = Ok r -> to_positions f' sr' = Ok r' -> effective_window A rnd None r' = effective_window A rnd None r.
Proof. exact window_reverse. Qed.
Print Assumptions C64_default_window.

Example C64_window_case :
  wencodes FMass [2; 3; 6] (Ints (ints [2; 3; 6])) /\ wencodes FMass (reverse [2; 3; 6]) (Ints (ints [6; 3; 2])) /\
  pk pyA default_round FMass (Some 3) false true (Ints (ints [2; 3; 6])) (Ints (ints [5; 6])) = Ok (WParts 2 8) /\
  pk pyA default_round FMass (Some 3) false true (Ints (ints [6; 3; 2])) (Ints (ints [6; 5])) = Ok (WParts 2 8) /\
  window_diff pyA default_round FMass (Some 3) true false true (Ints (ints [2; 3; 6])) (Ints (ints [5; 6])) =
  window_diff pyA default_round FMass (Some 3) true false true (Ints (ints [6; 3; 2])) (Ints (ints [6; 5])).
Proof. repeat split; vm_compute; reflexivity. Qed.

(** B and S of segmentations given by masses, up to the default [n_t]. *)
Theorem C64_masses : forall A E E' W n_t f f' m m' sa sb sa' sb', env_ok E -> env_ok E' -> n_t <= 2 ->
  W = default_weights A \/ W = plain_weights ->
  Spec.positive m -> Spec.positive m' -> m <> [] -> m' <> [] ->
  encodes f m sa -> encodes f m' sb -> encodes f' (reverse m) sa' -> encodes f' (reverse m') sb' ->
  forall om rp,
    same_result (boundary_similarity A E W f n_t om rp sa sb) (boundary_similarity A E' W f' n_t om rp sa' sb') /\
    segmentation_similarity A E W f n_t om rp sa sb = segmentation_similarity A E' W f' n_t om rp sa' sb'.
Proof. exact masses_reverse. Qed.
Print Assumptions C64_masses.

(** The edits: without transpositions the same, with [n_t = 2] and one type as many. *)
Theorem C64_edits_short : forall E E' a b n_t e e', env_ok E -> env_ok E' -> length a = length b -> n_t <= 1 ->
  boundary_edit_distance E a b n_t = Ok e -> boundary_edit_distance E' (reverse a) (reverse b) n_t = Ok e' ->
  e_add e' ≡ₚ e_add e /\ e_sub e' ≡ₚ e_sub e /\ e_transp e = [] /\ e_transp e' = [].
Proof. exact bed_reverse_short. Qed.
Print Assumptions C64_edits_short.

Theorem C64_edits_one_type : forall E E' a b c e e', env_ok E -> env_ok E' -> one_type a b c -> -5 <= c <= 256 -> length a = length b ->
  boundary_edit_distance E a b 2 = Ok e -> boundary_edit_distance E' (reverse a) (reverse b) 2 = Ok e' ->
  length (e_transp e') = length (e_transp e) /\ length (e_add e') = length (e_add e) /\ e_sub e = [] /\ e_sub e' = [] /\
  Forall (fun t => t_end t = S (t_start t)) (e_transp e ++ e_transp e').
Proof. exact bed_reverse_one. Qed.
Print Assumptions C64_edits_one_type.

(** Boundaries at 1, 3 and at 2: read forwards the first two are swapped, read backwards the last two. *)
Example C64_case :
  let a := [{[1]}; ∅; {[1]}; ∅] in let b := [∅; {[1]}; ∅; ∅] in
  one_type a b 1 /\
  boundary_edit_distance env0 a b 2 = Ok (Edits [Addition 1 SideA] [] [Transp 0 1 1]) /\
  boundary_edit_distance env0 (reverse a) (reverse b) 2 = Ok (Edits [Addition 1 SideA] [] [Transp 1 2 1]) /\
  encodes FMass [1; 2; 2] (Ints (ints [1; 2; 2])) /\ encodes FMass (reverse [1; 2; 2]) (Ints (ints [2; 2; 1])) /\
  boundary_similarity pyA env0 (default_weights pyA) FMass 2 false false (Ints (ints [1; 2; 2])) (Ints (ints [2; 3])) = Ok (BVal (NDec (1 # 4))) /\
  boundary_similarity pyA env0 (default_weights pyA) FMass 2 false false (Ints (ints [2; 2; 1])) (Ints (ints [3; 2])) = Ok (BVal (NDec (1 # 4))).
Proof. split; [apply one_typeb; reflexivity|]. split; [by_compute|]. split; [by_compute|]. repeat split; vm_compute; reflexivity. Qed.

(** Longer spans: forwards both boundaries move, backwards only one does (1/2 against 2/9). *)
Theorem C64_longer_spans_refuted : exists a b c v v', one_type a b c /\ -5 <= c <= 256 /\ length a = length b /\
  boundary_similarity exactA env0 (default_weights exactA) FSets 3 false false (Sets a) (Sets b) = Ok (BVal (NDec v)) /\
  boundary_similarity exactA env0 (default_weights exactA) FSets 3 false false (Sets (reverse a)) (Sets (reverse b)) = Ok (BVal (NDec v')) /\
  ~ (v == v')%Q.
Proof.
  exists [{[1]}; ∅; {[1]}; ∅; ∅], [∅; {[1]}; ∅; ∅; {[1]}], 1, (1 # 2)%Q, (2 # 9)%Q.
  split; [apply one_typeb; reflexivity|]. split; [lia|]. split; [reflexivity|].
  split; [vm_compute; reflexivity|]. split; [vm_compute; reflexivity|]. discriminate.
Qed.
Print Assumptions C64_longer_spans_refuted.

(** Several types: a transposition decides which boundary is left to be substituted (1/2 against 1/6). *)
Theorem C64_several_types_refuted : exists a b v v', small_types a b /\ length a = length b /\
  boundary_similarity exactA env0 (default_weights exactA) FSets 2 false false (Sets a) (Sets b) = Ok (BVal (NDec v)) /\
  boundary_similarity exactA env0 (default_weights exactA) FSets 2 false false (Sets (reverse a)) (Sets (reverse b)) = Ok (BVal (NDec v')) /\
  ~ (v == v')%Q.
Proof.
  exists [{[1]}; ∅; {[1]}], [∅; {[1]}; {[2]}], (1 # 2)%Q, (1 # 6)%Q.
  split; [apply small_typesb; reflexivity|]. split; [reflexivity|].
  split; [vm_compute; reflexivity|]. split; [vm_compute; reflexivity|]. discriminate.
Qed.
Print Assumptions C64_several_types_refuted.
