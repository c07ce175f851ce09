(** Properties C07, C26 (window part) and C33-C41: window size, Pk and
    WindowDiff (segeval/window/__init__.py, pk.py, windowdiff.py). *)
From Verif Require Import SpecWindow Round RoundProofs SimRound SimMain WindowMain WindowSym WindowSize.
Open Scope Z_scope.

Definition mass (l : list Z) : seg := Ints (ints l).

(** ** C07 *)

Theorem C07_encodings : forall A rnd f f' mh mr sh sr sh' sr',
  Spec.positive mh -> Spec.positive mr -> mh <> [] -> mr <> [] ->
  wencodes f mh sh -> wencodes f mr sr -> wencodes f' mh sh' -> wencodes f' mr sr' ->
  forall w om rp,
    pk A rnd f w om rp sh sr = pk A rnd f' w om rp sh' sr' /\
    window_diff A rnd f w false om rp sh sr = window_diff A rnd f' w false om rp sh' sr' /\
    (ends_not_zero f sh -> ends_not_zero f sr -> ends_not_zero f' sh' -> ends_not_zero f' sr' ->
     window_diff A rnd f w true om rp sh sr = window_diff A rnd f' w true om rp sh' sr').
Proof. exact window_encodings. Qed.
Print Assumptions C07_encodings.

(** Every mass sequence has all three encodings; here one pair. *)
Example C07_case :
  let h := [2; 3] in let r := [1; 3; 1] in
  wencodes FMass h (mass h) /\ wencodes FNltk h (Str (String.list_ascii_of_string "0100")) /\
  pk pyA default_round FMass (Some 2) false false (mass h) (mass r) =
    pk pyA default_round FPosition (Some 2) false false (mass [7; 7; 4; 4; 4]) (mass [1; 2; 2; 2; 3]) /\
  pk pyA default_round FMass (Some 2) false true (mass h) (mass r) = Ok (WParts 2 3).
Proof.
  split; [|split; [|split]]; [reflexivity| |vm_compute; reflexivity|vm_compute; reflexivity].
  apply encodesb_ok. vm_compute. reflexivity.
Qed.

(** With the Lamprier correction the labels matter: the phantom units are
    labelled 0, so a first segment labelled 0 merges with them. *)
Theorem C07_lamprier_zero_refuted :
  ~ forall f' m m' sh' sr', Spec.positive m -> Spec.positive m' -> m <> [] -> m' <> [] ->
    wencodes f' m sh' -> wencodes f' m' sr' ->
    window_diff exactA default_round FMass (Some 2) true false true (mass m) (mass m') =
    window_diff exactA default_round f' (Some 2) true false true sh' sr'.
Proof.
  intros H. specialize (H FPosition [2; 1] [3] (mass [0; 0; 1]) (mass [5; 5; 5])).
  assert (E : window_diff exactA default_round FMass (Some 2) true false true (mass [2; 1]) (mass [3]) =
              window_diff exactA default_round FPosition (Some 2) true false true (mass [0; 0; 1]) (mass [5; 5; 5])).
  { apply H; try discriminate; try (repeat constructor; lia).
    - split; [reflexivity|]. intros i j u v Hij Hi Hj.
      destruct i as [|[|[|i]]]; [| | |discriminate Hi]; (destruct j as [|[|[|j]]]; [| | |discriminate Hj]); try lia;
        cbn in Hi, Hj; injection Hi as <-; injection Hj as <-; vm_compute; (split; [split; intros; congruence|auto]).
    - split; [reflexivity|]. intros i j u v Hij Hi Hj.
      destruct i as [|[|[|i]]]; [| | |discriminate Hi]; (destruct j as [|[|[|j]]]; [| | |discriminate Hj]); try lia;
        cbn in Hi, Hj; injection Hi as <-; injection Hj as <-; vm_compute; (split; [split; intros; congruence|auto]). }
  vm_compute in E. discriminate E.
Qed.
Print Assumptions C07_lamprier_zero_refuted.

(** ** C26 *)

Theorem C26_window_lengths : forall A rnd f sh sr h r,
  to_positions f sh = Ok h -> to_positions f sr = Ok r -> length h <> length r -> window_fails A rnd f sh sr SegmentationMetricError.
Proof. exact window_lengths_fail. Qed.
Print Assumptions C26_window_lengths.

Theorem C26_window_masses : forall A rnd f mh mr sh sr,
  Spec.positive mh -> Spec.positive mr -> mh <> [] -> mr <> [] -> wencodes f mh sh -> wencodes f mr sr ->
  zsum mh <> zsum mr -> window_fails A rnd f sh sr SegmentationMetricError.
Proof. exact window_masses_fail. Qed.
Print Assumptions C26_window_masses.

Theorem C26_window_format : forall A rnd f sh sr, f = FSets \/ f = FOther -> window_fails A rnd f sh sr SegmentationMetricError.
Proof. exact window_format_fails. Qed.
Print Assumptions C26_window_format.

Example C26_window_case : wencodes FMass [2; 3] (mass [2; 3]) /\ wencodes FMass [6] (mass [6]) /\ zsum [2; 3] <> zsum [6].
Proof. repeat split; vm_compute; congruence. Qed.

(** ** C33 *)

(** [prec A eps M]: the arithmetic is monotone, exact on integers up to [M];
    [sane] arithmetics (CPython's decimals) have M = 10^28, exact arithmetic any M. *)
Theorem C33_window_size : forall A eps M rnd f t l,
  prec A eps M -> f <> FPosition -> collects t l -> Forall (fun z => 0 <= z) l -> zsum l <= M -> l <> [] ->
  compute_window_size A rnd f t = Ok (Z.max 2 (rnd (rd A (rd A (inject_Z (zsum l) / inject_Z (zlen l)) / 2)))).
Proof. exact window_size_masses. Qed.
Print Assumptions C33_window_size.

(** With CPython's decimals and round(), decimal rounding never shows. *)
Theorem C33_default_round : forall f t l,
  f <> FPosition -> collects t l -> Spec.positive l -> l <> [] -> zsum l <= 10 ^ 13 ->
  compute_window_size pyA default_round f t = Ok (Z.max 2 (hround (inject_Z (zsum l) / (2 * inject_Z (zlen l))))).
Proof. exact default_window_exact. Qed.
Print Assumptions C33_default_round.

Theorem C33_position : forall A eps M rnd m s,
  prec A eps M -> Spec.positive m -> m <> [] -> encodes FPosition m s -> zsum m <= M ->
  compute_window_size A rnd FPosition (WSeg s) = Ok (Z.max 2 (rnd (rd A (rd A (inject_Z (zsum m) / inject_Z (zlen m)) / 2)))).
Proof. exact window_size_position. Qed.
Print Assumptions C33_position.

Theorem C33_at_least_2 : forall A rnd f t k, compute_window_size A rnd f t = Ok k -> 2 <= k.
Proof. exact window_size_ge_2. Qed.
Print Assumptions C33_at_least_2.

Theorem C33_empty : forall A rnd f t,
  sane A -> f <> FPosition -> collects t [] -> (forall x, (x == 0)%Q -> rnd x <= 1) -> compute_window_size A rnd f t = Ok 2.
Proof. exact window_size_empty. Qed.
Print Assumptions C33_empty.

Theorem C33_not_a_collection : forall A rnd f, f <> FPosition ->
  (forall z, compute_window_size A rnd f (WInt z) = Err SegmentationMetricError) /\
  (forall s, compute_window_size A rnd f (WSeg (Str s)) = Err SegmentationMetricError).
Proof. exact window_size_bad. Qed.
Print Assumptions C33_not_a_collection.

(** Anywhere in nested dicts; sets are no masses either.  Without both there is a list of masses to
    which [C33_window_size] and [C33_empty] apply. *)
Theorem C33_rejected : forall A rnd f t, f <> FPosition ->
  (holds no_collection t -> compute_window_size A rnd f t = Err SegmentationMetricError) /\
  (~ holds no_collection t -> holds of_sets t -> compute_window_size A rnd f t = Err TypeError) /\
  (~ holds no_collection t -> ~ holds of_sets t -> exists l, collects t l).
Proof. exact window_size_rejects. Qed.
Print Assumptions C33_rejected.

Theorem C33_position_int : forall A rnd z, compute_window_size A rnd FPosition (WInt z) = Err TypeError.
Proof. exact window_size_position_int. Qed.
Print Assumptions C33_position_int.

Example C33_rejected_case : let t := WDict [("i"%string, WDict [("a"%string, WSeg (mass [5; 5])); ("b"%string, WInt 7)])] in
  holds no_collection t /\ compute_window_size pyA default_round FMass t = Err SegmentationMetricError /\
  compute_window_size pyA default_round FMass (WDict [("a"%string, WSeg (Sets [{[1]}]))]) = Err TypeError.
Proof.
  split; [|split; vm_compute; reflexivity]. eapply Holds_in; [left|]. eapply Holds_in; [right; left|]. apply Holds_here. left. exists 7. reflexivity.
Qed.

(** A dict in position format: the segmentations are ignored, the result is
    always 2 (the code run-length encodes the keys). *)
Theorem C33_position_dict_ignored : forall A l, sane A -> NoDup l.*1 -> l <> [] -> zlen l <= 10 ^ 28 ->
  compute_window_size A default_round FPosition (WDict l) = Ok 2.
Proof. exact window_size_position_dict. Qed.
Print Assumptions C33_position_dict_ignored.

(** So the mean-mass reading is false for dicts of position segmentations. *)
Theorem C33_position_dict_refuted :
  ~ forall name m s, Spec.positive m -> m <> [] -> encodes FPosition m s ->
    compute_window_size pyA default_round FPosition (WDict [(name, WSeg s)]) = compute_window_size pyA default_round FPosition (WSeg s).
Proof.
  intros H. specialize (H "a"%string [10] (mass (replicate 10 1))).
  assert (E : compute_window_size pyA default_round FPosition (WDict [("a"%string, WSeg (mass (replicate 10 1)))]) =
              compute_window_size pyA default_round FPosition (WSeg (mass (replicate 10 1)))).
  { apply H; [repeat constructor; lia|discriminate|]. split; [reflexivity|]. intros i u v Hu Hv.
    unfold ints in *. rewrite list_lookup_fmap in Hu, Hv.
    apply fmap_Some in Hu as (x & Hu & ->). apply fmap_Some in Hv as (y & Hv & ->).
    apply lookup_replicate in Hu as [-> _], Hv as [-> _]. split; [congruence|]. intros (k & Hk & _). cbn in Hk. lia. }
  vm_compute in E. discriminate E.
Qed.
Print Assumptions C33_position_dict_refuted.

Example C33_case : collects (WDict [("i"%string, WDict [("a"%string, WSeg (mass [5; 5])); ("b"%string, WSeg (mass [2; 3; 6]))])]) [5; 5; 2; 3; 6] /\
  compute_window_size pyA default_round FMass (WDict [("i"%string, WDict [("a"%string, WSeg (mass [5; 5])); ("b"%string, WSeg (mass [2; 3; 6]))])]) = Ok 2 /\
  compute_window_size pyA default_round FMass (WSeg (mass [11; 10])) = Ok 5 /\
  hround (inject_Z (zsum [11; 10]) / (2 * inject_Z (zlen [11; 10]))) = 5.
Proof.
  split; [|split; [|split]; vm_compute; reflexivity].
  change [5; 5; 2; 3; 6] with (([5; 5] ++ ([2; 3; 6] ++ [])) ++ []).
  constructor; [|constructor]. constructor; [apply (Col_seg (ints [5; 5]))|]. constructor; [apply (Col_seg (ints [2; 3; 6]))|constructor].
Qed.

(** ** C34 *)

Theorem C34_pk_counts : forall A rnd f mh mr sh sr k om rp,
  Spec.positive mh -> Spec.positive mr -> mh <> [] -> mr <> [] ->
  wencodes f mh sh -> wencodes f mr sr -> zsum mh = zsum mr -> 0 <= k < zsum mr ->
  pk A rnd f (Some k) om rp sh sr =
    if rp then Ok (WParts (pk_errors mh mr k (zsum mr)) (zsum mr - k))
    else let v := rd A (inject_Z (pk_errors mh mr k (zsum mr)) / inject_Z (zsum mr - k)) in
         Ok (WVal (NDec (if om then rd A (1 - v) else v))).
Proof. exact pk_masses. Qed.
Print Assumptions C34_pk_counts.

Example C34_case : pk_errors [2; 3; 6] [5; 6] 3 11 = 2 /\
  pk pyA default_round FMass (Some 3) false true (mass [2; 3; 6]) (mass [5; 6]) = Ok (WParts 2 8).
Proof. split; vm_compute; reflexivity. Qed.

(** ** C35 *)

Theorem C35_window_diff_counts : forall A rnd f mh mr sh sr k om rp,
  sane A -> Spec.positive mh -> Spec.positive mr -> mh <> [] -> mr <> [] ->
  wencodes f mh sh -> wencodes f mr sr -> zsum mh = zsum mr -> 0 <= k <= 255 -> k < zsum mr ->
  let n := wd_errors mh mr k (zsum mr) in
  let d := zsum mr - k in
  let v := rd A (inject_Z n / inject_Z d) in
  window_diff A rnd f (Some k) false om rp sh sr =
    if om then Ok (WVal (NDec (rd A (1 - v)))) else if rp then Ok (WParts n d) else Ok (WVal (NDec v)).
Proof. exact wd_masses. Qed.
Print Assumptions C35_window_diff_counts.

Theorem C35_lamprier : forall A rnd f mh mr sh sr k om rp,
  sane A -> Spec.positive mh -> Spec.positive mr -> mh <> [] -> mr <> [] ->
  wencodes f mh sh -> wencodes f mr sr -> ends_not_zero f sh -> ends_not_zero f sr -> zsum mh = zsum mr -> 0 <= k <= 255 ->
  let n := wd_errors (padded k mh) (padded k mr) k (zsum mr + 2 * Z.max 1 k) in
  let d := zsum mr + 2 * Z.max 1 k - k + 1 in
  let v := rd A (inject_Z n / inject_Z d) in
  window_diff A rnd f (Some k) true om rp sh sr =
    if om then Ok (WVal (NDec (rd A (1 - v)))) else if rp then Ok (WParts n d) else Ok (WVal (NDec v)).
Proof. exact wd_lamprier. Qed.
Print Assumptions C35_lamprier.

Example C35_case : wd_errors [3; 1; 7] [3; 8] 3 11 = 3 /\
  window_diff pyA default_round FMass (Some 3) false false true (mass [3; 1; 7]) (mass [3; 8]) = Ok (WParts 3 8) /\
  wd_errors (padded 3 [3; 1; 7]) (padded 3 [3; 8]) 3 17 = 3 /\
  window_diff pyA default_round FMass (Some 3) true false true (mass [3; 1; 7]) (mass [3; 8]) = Ok (WParts 3 15).
Proof. repeat split; vm_compute; reflexivity. Qed.

(** ** C36 *)

Theorem C36_pk_range : forall A rnd f sh sr h r k,
  sane A -> to_positions f sh = Ok h -> to_positions f sr = Ok r -> length h = length r -> 0 <= k < zlen r ->
  exists v, pk A rnd f (Some k) false false sh sr = Ok (WVal (NDec v)) /\ (0 <= v <= 1)%Q.
Proof. exact pk_range. Qed.
Print Assumptions C36_pk_range.

Theorem C36_window_diff_range : forall A rnd f sh sr h r k,
  sane A -> to_positions f sh = Ok h -> to_positions f sr = Ok r -> length h = length r -> 0 <= k <= 255 ->
  (k < zlen r -> exists v, window_diff A rnd f (Some k) false false false sh sr = Ok (WVal (NDec v)) /\ (0 <= v <= 1)%Q) /\
  (~ label_string f sh -> ~ label_string f sr -> exists v, window_diff A rnd f (Some k) true false false sh sr = Ok (WVal (NDec v)) /\ (0 <= v <= 1)%Q).
Proof. exact wd_range. Qed.
Print Assumptions C36_window_diff_range.

Theorem C36_identical : forall A rnd f s p k,
  sane A -> to_positions f s = Ok p -> 0 <= k < zlen p ->
  (exists v, pk A rnd f (Some k) false false s s = Ok (WVal (NDec v)) /\ (v == 0)%Q) /\
  (k <= 255 -> forall lam, (lam = true -> ~ label_string f s) -> exists v, window_diff A rnd f (Some k) lam false false s s = Ok (WVal (NDec v)) /\ (v == 0)%Q).
Proof. exact window_same. Qed.
Print Assumptions C36_identical.

(** The Lamprier correction adds tuples, so labels given as a string are refused. *)
Theorem C36_lamprier_string : forall A rnd f sh sr h r,
  to_positions f sh = Ok h -> to_positions f sr = Ok r -> length h = length r -> label_string f sh \/ label_string f sr ->
  forall k om rp, window_diff A rnd f (Some k) true om rp sh sr = Err TypeError.
Proof. exact wd_string. Qed.
Print Assumptions C36_lamprier_string.

Example C36_string_case : label_string FPosition (Str (String.list_ascii_of_string "aab")) /\
  window_diff pyA default_round FPosition (Some 1) false false true (Str (String.list_ascii_of_string "aab")) (mass [1; 2; 2]) = Ok (WParts 2 2) /\
  window_diff pyA default_round FPosition (Some 1) true false true (Str (String.list_ascii_of_string "aab")) (mass [1; 2; 2]) = Err TypeError.
Proof. split; [split; [reflexivity|eexists; reflexivity]|]. split; vm_compute; reflexivity. Qed.

Example C36_case : pk pyA default_round FPosition (Some 2) false false (mass [1; 2; 1]) (mass [1; 2; 3]) = Ok (WVal (NDec 1)) /\
  window_diff pyA default_round FPosition (Some 1) false false false (mass [1; 1; 1; 3]) (mass [4; 5; 7; 8]) = Ok (WVal (NDec (dec28 (2 # 3)))).
Proof. split; vm_compute; reflexivity. Qed.

(** ** C37 *)

Theorem C37_pk_le_window_diff : forall A rnd f mh mr sh sr k,
  sane A -> Spec.positive mh -> Spec.positive mr -> mh <> [] -> mr <> [] ->
  wencodes f mh sh -> wencodes f mr sr -> zsum mh = zsum mr -> 0 <= k <= 255 -> k < zsum mr ->
  exists v w, pk A rnd f (Some k) false false sh sr = Ok (WVal (NDec v)) /\
    window_diff A rnd f (Some k) false false false sh sr = Ok (WVal (NDec w)) /\ (v <= w)%Q.
Proof. exact pk_le_wd. Qed.
Print Assumptions C37_pk_le_window_diff.

Example C37_case : pk pyA default_round FMass (Some 3) false false (mass [3; 1; 7]) (mass [3; 8]) = Ok (WVal (NDec (1 # 8))) /\
  window_diff pyA default_round FMass (Some 3) false false false (mass [3; 1; 7]) (mass [3; 8]) = Ok (WVal (NDec (3 # 8))).
Proof. split; vm_compute; reflexivity. Qed.

(** Repeating labels: Pk compares only the ends of the window. *)
Theorem C37_labels_refuted :
  ~ forall h r v w, pk pyA default_round FPosition (Some 2) false false (Ints h) (Ints r) = Ok (WVal (NDec v)) ->
    window_diff pyA default_round FPosition (Some 2) false false false (Ints h) (Ints r) = Ok (WVal (NDec w)) -> (v <= w)%Q.
Proof.
  intros H. specialize (H (ints [1; 2; 3]) (ints [1; 2; 1]) 1%Q 0%Q ltac:(vm_compute; reflexivity) ltac:(vm_compute; reflexivity)).
  vm_compute in H. congruence.
Qed.
Print Assumptions C37_labels_refuted.

(** ** C38 *)

Theorem C38_symmetric : forall A rnd f k sh sr h r, to_positions f sh = Ok h -> to_positions f sr = Ok r -> forall om rp,
  pk A rnd f (Some k) om rp sh sr = pk A rnd f (Some k) om rp sr sh /\
  forall lam, window_diff A rnd f (Some k) lam om rp sh sr = window_diff A rnd f (Some k) lam om rp sr sh.
Proof. exact window_symmetric. Qed.
Print Assumptions C38_symmetric.

Example C38_case : to_positions FMass (mass [2; 3]) <> to_positions FMass (mass [1; 4]) /\
  pk pyA default_round FMass (Some 2) false true (mass [2; 3]) (mass [1; 4]) = Ok (WParts 1 3).
Proof. split; vm_compute; congruence. Qed.

(** Without a window size it is half the mean mass of the reference. *)
Theorem C38_default_window : forall A eps M rnd f mh mr sh sr,
  prec A eps M -> Spec.positive mh -> Spec.positive mr -> mh <> [] -> mr <> [] ->
  wencodes f mh sh -> wencodes f mr sr -> zsum mr <= M ->
  let k := Z.max 2 (rnd (rd A (rd A (inject_Z (zsum mr) / inject_Z (zlen mr)) / 2))) in forall om rp,
  pk A rnd f None om rp sh sr = pk A rnd f (Some k) om rp sh sr /\
  forall lam, window_diff A rnd f None lam om rp sh sr = window_diff A rnd f (Some k) lam om rp sh sr.
Proof. exact default_window. Qed.
Print Assumptions C38_default_window.

Example C38_window_case : wencodes FMass [12] (mass [12]) /\ wencodes FMass [6; 6] (mass [6; 6]) /\
  pk pyA default_round FMass None false true (mass [12]) (mass [6; 6]) = Ok (WParts 3 9) /\
  pk pyA default_round FMass None false true (mass [6; 6]) (mass [12]) = Ok (WParts 6 6).
Proof. repeat split; vm_compute; reflexivity. Qed.

(** So the metrics are not symmetric. *)
Theorem C38_default_window_refuted :
  (~ forall h r, zsum h = zsum r -> pk pyA default_round FMass None false false (mass h) (mass r) = pk pyA default_round FMass None false false (mass r) (mass h)) /\
  (~ forall h r, zsum h = zsum r ->
      window_diff pyA default_round FMass None false false false (mass h) (mass r) = window_diff pyA default_round FMass None false false false (mass r) (mass h)).
Proof.
  split; intros H; specialize (H [12] [6; 6] eq_refl); vm_compute in H; discriminate H.
Qed.
Print Assumptions C38_default_window_refuted.

(** ** C39 *)

Theorem C39_large_window_fails : forall A rnd f sh sr h r k,
  to_positions f sh = Ok h -> to_positions f sr = Ok r -> length h = length r -> 256 <= k -> forall om rp,
  (k < zlen r -> window_diff A rnd f (Some k) false om rp sh sr = Err AssertionError) /\
  (~ label_string f sh -> ~ label_string f sr -> window_diff A rnd f (Some k) true om rp sh sr = Err AssertionError).
Proof. exact wd_large. Qed.
Print Assumptions C39_large_window_fails.

(** Pk has no such limit: [C36_pk_range].  So the title claim is false: *)
Theorem C39_every_window_refuted :
  ~ forall m k, Spec.positive m -> 0 <= k < zsum m -> exists v, window_diff pyA default_round FMass (Some k) false false false (mass m) (mass m) = Ok v.
Proof.
  intros H. destruct (H [300] 256) as [v Hv]; [repeat constructor; lia|cbn; lia|].
  destruct (C39_large_window_fails pyA default_round FMass (mass [300]) (mass [300]) _ _ 256 eq_refl eq_refl eq_refl ltac:(lia) false false) as [K _].
  rewrite K in Hv; [discriminate|]. vm_compute. reflexivity.
Qed.
Print Assumptions C39_every_window_refuted.

(** Even the default window is affected, from segments of 511 units on. *)
Example C39_default : window_diff pyA default_round FMass None false false false (mass [600]) (mass [600]) = Err AssertionError /\
  pk pyA default_round FMass None false true (mass [600]) (mass [600]) = Ok (WParts 0 300).
Proof. split; vm_compute; reflexivity. Qed.

(** ** C40 *)

Theorem C40_pk : forall A rnd f sh sr h r k,
  to_positions f sh = Ok h -> to_positions f sr = Ok r -> length h = length r -> zlen r <= k ->
  pk A rnd f (Some k) false false sh sr = Ok (WVal (NInt 0)) /\ forall om, pk A rnd f (Some k) om true sh sr = Ok (WParts 0 0).
Proof. exact pk_degenerate. Qed.
Print Assumptions C40_pk.

Theorem C40_window_diff : forall A rnd f sh sr h r k,
  sane A -> to_positions f sh = Ok h -> to_positions f sr = Ok r -> length h = length r -> zlen r <= k ->
  (k = zlen r -> forall om rp, window_diff A rnd f (Some k) false om rp sh sr = Err InvalidOperation) /\
  (zlen r < k -> exists v, window_diff A rnd f (Some k) false false false sh sr = Ok (WVal (NDec v)) /\ (v == 0)%Q).
Proof. exact wd_degenerate. Qed.
Print Assumptions C40_window_diff.

(** This happens with the default window: two units, completely different. *)
Example C40_case :
  pk pyA default_round FMass None false false (mass [1; 1]) (mass [2]) = Ok (WVal (NInt 0)) /\
  window_diff pyA default_round FMass None false false false (mass [1; 1]) (mass [2]) = Err InvalidOperation /\
  window_diff pyA default_round FMass (Some 3) false false false (mass [1; 1]) (mass [2]) = Ok (WVal (NDec 0)).
Proof. repeat split; vm_compute; reflexivity. Qed.

(** ** C41 *)

Theorem C41_pk_flags : forall A rnd f w sh sr,
  (exists e, forall om rp, pk A rnd f w om rp sh sr = Err e) \/
  (exists n d v, 0 <= d /\ pk A rnd f w false false sh sr = Ok (WVal v) /\
    (forall om, pk A rnd f w om true sh sr = Ok (WParts n d)) /\
    pk A rnd f w true false sh sr = Ok (WVal (NDec (rd A (1 - nval v)))) /\
    v = (if 0 <? d then NDec (rd A (inject_Z n / inject_Z d)) else NInt 0)).
Proof. exact pk_flags. Qed.
Print Assumptions C41_pk_flags.

Theorem C41_window_diff_flags : forall A rnd f w lam sh sr,
  (exists e, forall om rp, window_diff A rnd f w lam om rp sh sr = Err e) \/
  (exists n d v, d <> 0 /\ window_diff A rnd f w lam false false sh sr = Ok (WVal (NDec v)) /\
    window_diff A rnd f w lam false true sh sr = Ok (WParts n d) /\
    (forall rp, window_diff A rnd f w lam true rp sh sr = Ok (WVal (NDec (rd A (1 - v))))) /\
    v = rd A (inject_Z n / inject_Z d)).
Proof. exact wd_flags. Qed.
Print Assumptions C41_window_diff_flags.

Example C41_case :
  pk pyA default_round FMass (Some 3) true true (mass [3; 1; 7]) (mass [3; 8]) = Ok (WParts 1 8) /\
  window_diff pyA default_round FMass (Some 3) false true true (mass [3; 1; 7]) (mass [3; 8]) = Ok (WVal (NDec (5 # 8))).
Proof. split; vm_compute; reflexivity. Qed.
