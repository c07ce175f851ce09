(** C84 for the window metrics. *)
From Verif Require Import SpecAgreed FormatProofs WindowProofs WindowMain WindowSym WindowMetric NestedWindow SpecNested Round RoundProofs SimRound SimMain.
Open Scope Z_scope.

Lemma ncuts_alike x y x' y' i k : Spec.positive x -> Spec.positive y -> Spec.positive x' -> Spec.positive y' -> 0 <= k -> cut_alike x y x' y' ->
  ncuts x i (i + k) - ncuts y i (i + k) = ncuts x' i (i + k) - ncuts y' i (i + k).
Proof.
  intros Px Py Px' Py' Hk H. rewrite !ncuts_count by assumption. clear -H. unfold zlen. induction (seqZ (i + 1) k) as [|p l IH]; [reflexivity|].
  rewrite !filter_cons. destruct (H p) as [H1 H2].
  destruct (decide (cut x p)), (decide (cut y p)), (decide (cut x' p)), (decide (cut y' p)); cbn [length]; try lia; exfalso; tauto.
Qed.

Lemma wd_errors_alike x y x' y' k n : Spec.positive x -> Spec.positive y -> Spec.positive x' -> Spec.positive y' -> 0 <= k -> cut_alike x y x' y' ->
  wd_errors x y k n = wd_errors x' y' k n.
Proof.
  intros Px Py Px' Py' Hk H. unfold wd_errors, zlen. f_equal. f_equal. apply list_filter_iff. intros i. pose proof (ncuts_alike x y x' y' i k Px Py Px' Py' Hk H). lia.
Qed.

Lemma alike_pad k x y x' y' : x <> [] -> y <> [] -> x' <> [] -> y' <> [] -> zsum x = zsum y -> zsum x' = zsum x -> zsum y' = zsum y ->
  cut_alike x y x' y' -> cut_alike (padded k x) (padded k y) (padded k x') (padded k y').
Proof.
  intros Nx Ny Nx' Ny' S1 S2 S3 H p. rewrite !cuts_pad by assumption. rewrite S2, S3, S1. destruct (H (p - Z.max 1 k)) as [H1 H2].
  clear -H1 H2. destruct (decide (p = Z.max 1 k)), (decide (p = Z.max 1 k + zsum y)); tauto.
Qed.

Section Pairs.
Context (f f' : fmt) (n : Z) (x y x' y' : list Z) (sx sy sx' sy' : seg)
  (Cx : coded f n x sx) (Cy : coded f n y sy) (Cx' : coded f' n x' sx') (Cy' : coded f' n y' sy') (H : cut_alike x y x' y').

Theorem wd_alike A rnd k lam om rp : sane A -> wd_window lam f n k [sx; sy] -> wd_window lam f' n k [sx'; sy'] ->
  window_diff A rnd f (Some k) lam om rp sx sy = window_diff A rnd f' (Some k) lam om rp sx' sy'.
Proof.
  intros HA W W'. destruct Cx as (Px & Nx & Sx & _), Cy as (Py & Ny & Sy & _), Cx' as (Px' & Nx' & Sx' & _), Cy' as (Py' & Ny' & Sy' & _).
  rewrite (wd_any A rnd f n k lam x y), (wd_any A rnd f' n k lam x' y') by assumption. f_equal. destruct W as (Hk & _). unfold wd_count. destruct lam.
  - apply wd_errors_alike; try (apply padded_positive; assumption); [lia|]. apply alike_pad; try assumption; congruence.
  - apply wd_errors_alike; try assumption. lia.
Qed.

Theorem pk_alike A rnd k : (forall p, cut x p -> cut x' p) -> (forall p, cut y p -> cut y' p) -> 0 <= k < n ->
  exists c c', pk A rnd f (Some k) false true sx sy = Ok (WParts c (n - k)) /\ pk A rnd f' (Some k) false true sx' sy' = Ok (WParts c' (n - k)) /\ 0 <= c' <= c.
Proof.
  intros MX MY Hk. eexists _, _. rewrite (pk_parts A rnd f n k x y), (pk_parts A rnd f' n k x' y') by assumption. split; [reflexivity|]. split; [reflexivity|].
  destruct Cx as (Px & Nx & Sx & _), Cy as (Py & Ny & Sy & _), Cx' as (Px' & Nx' & Sx' & _), Cy' as (Py' & Ny' & Sy' & _).
  split; [unfold pk_errors, zlen; lia|]. apply count_mono. intros i _. rewrite !ncuts_some, !ncuts_zero by (assumption || lia).
  unfold without, with_some. intros K.
  destruct (decide (ncuts x' i (i + k) = 0)) as [D|D].
  - apply ncuts_zero in D; [|assumption|lia]. destruct (proj1 K D) as (p & I & C). split.
    + intros _. exists p. split; [exact I|]. destruct (H p) as [_ H2]. apply H2. split; [exact C|]. exact (D p I).
    + intros _ q J Q. exact (D q J (MX q Q)).
  - assert (N : ~ exists p, (i < p <= i + k) /\ cut y' p). { intros Q. apply D. apply ncuts_zero; [assumption|lia|]. exact (proj2 K Q). }
    apply ncuts_some in D; [|assumption|lia]. destruct D as (p & I & C). split.
    + intros Z0. exfalso. apply (Z0 p I). destruct (H p) as [H1 _]. apply H1. split; [exact C|]. intros Q. apply N. eauto.
    + intros (q & J & Q). exfalso. apply N. exists q. split; [exact J|apply MY, Q].
Qed.
End Pairs.
