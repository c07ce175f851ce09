(** Property C93: the default window under Python 2, whose built-in round differs
    (segeval/window/__init__.py:16, 52-57). *)
From Verif Require Import SpecWindow Round RoundProofs SimRound SimMain WindowMain WindowSym WindowSize Python2.
Open Scope Z_scope.

Definition mass (l : list Z) : seg := Ints (ints l).

(** Python 2 takes half the mean mass, a half rounded up, and at least 2.  The decimal
    divisions and the conversion to a double do not disturb this. *)
Theorem C93_size : forall f t l, f <> FPosition -> collects t l -> Spec.positive l -> l <> [] -> zsum l <= 10 ^ 13 ->
  exists k, compute_window_size pyA python2_round f t = Ok (Z.max 2 k) /\ zlen l * (2 * k - 1) <= zsum l < zlen l * (2 * k + 1).
Proof. exact python2_size. Qed.
Print Assumptions C93_size.

(** Python 3 gives the same size or one less; one less exactly if the mean mass is 5, 9, 13, … *)
Theorem C93_versions : forall f t l, f <> FPosition -> collects t l -> Spec.positive l -> l <> [] -> zsum l <= 10 ^ 13 ->
  exists k2 k3, compute_window_size pyA python2_round f t = Ok k2 /\ compute_window_size pyA default_round f t = Ok k3 /\
    k3 <= k2 <= k3 + 1 /\ (k2 <> k3 <-> exists j, 1 <= j /\ zsum l = zlen l * (4 * j + 1)).
Proof. exact versions. Qed.
Print Assumptions C93_versions.

(** For any other mean mass of the reference Pk and WindowDiff do not depend on the version. *)
Theorem C93_metrics : forall f mh mr sh sr, Spec.positive mh -> Spec.positive mr -> mh <> [] -> mr <> [] ->
  wencodes f mh sh -> wencodes f mr sr -> zsum mr <= 10 ^ 13 ->
  ~ (exists j, 1 <= j /\ zsum mr = zlen mr * (4 * j + 1)) -> forall om rp,
  pk pyA python2_round f None om rp sh sr = pk pyA default_round f None om rp sh sr /\
  forall lam, window_diff pyA python2_round f None lam om rp sh sr = window_diff pyA default_round f None lam om rp sh sr.
Proof. exact versions_metrics. Qed.
Print Assumptions C93_metrics.

(** Mean masses 5, 3 and 20/3. *)
Example C93_case :
  compute_window_size pyA python2_round FMass (WSeg (mass [4; 6])) = Ok 3 /\
  compute_window_size pyA default_round FMass (WSeg (mass [4; 6])) = Ok 2 /\
  compute_window_size pyA python2_round FMass (WDict [("a"%string, WSeg (mass [3])); ("b"%string, WSeg (mass [3; 3]))]) = Ok 2 /\
  compute_window_size pyA python2_round FMass (WSeg (mass [6; 7; 7])) = Ok 3 /\
  (~ exists j, 1 <= j /\ zsum [6; 7; 7] = zlen [6; 7; 7] * (4 * j + 1)) /\
  (exists j, 1 <= j /\ zsum [4; 6] = zlen [4; 6] * (4 * j + 1)).
Proof.
  split; [vm_compute; reflexivity|]. split; [vm_compute; reflexivity|]. split; [vm_compute; reflexivity|]. split; [vm_compute; reflexivity|].
  split; [intros (j & Hj & E); change (20 = 3 * (4 * j + 1)) in E; lia|]. exists 1. split; [lia|reflexivity].
Qed.

(** The values of the metrics do depend on the version. *)
Theorem C93_versions_agree_refuted :
  (~ forall h r, zsum h = zsum r -> pk pyA python2_round FMass None false false (mass h) (mass r) = pk pyA default_round FMass None false false (mass h) (mass r)) /\
  (~ forall h r, zsum h = zsum r ->
      window_diff pyA python2_round FMass None false false false (mass h) (mass r) = window_diff pyA default_round FMass None false false false (mass h) (mass r)).
Proof.
  split; intros H; specialize (H [10] [4; 6] eq_refl); vm_compute in H; discriminate H.
Qed.
Print Assumptions C93_versions_agree_refuted.

(** Beyond 2^53 a double no longer holds every half: the conversion then shows.  Half of
    2^54 + 5 is 2^53 + 2.5; Python 2 makes it 2^53 + 2. *)
Example C93_conversion : python2_round (inject_Z (2 ^ 54 + 5) / 2) = 2 ^ 53 + 2 /\ hround_away (inject_Z (2 ^ 54 + 5) / 2) = 2 ^ 53 + 3.
Proof. split; vm_compute; reflexivity. Qed.
