(** What Pk and WindowDiff make of nested segmentations. *)
From Verif Require Import SpecNested FormatProofs WindowProofs WindowMain WindowSym WindowMetric Round RoundProofs SimRound SimMain.
Open Scope Z_scope.

Lemma windows_filter (Q : Z -> Prop) `{dQ : !forall i, Decision (Q i)} k n (P : (Z -> Prop) -> Prop) :
  (forall i, 0 <= i < n - k -> (Q i <-> P (fun p => i < p <= i + k))) -> windows k n P (zlen (filter Q (seqZ 0 (n - k)))).
Proof.
  intros H. exists (filter Q (seqZ 0 (n - k))). split; [apply NoDup_filter, NoDup_seqZ|]. split; [|reflexivity].
  intros i. rewrite elem_of_list_filter, elem_seqZ. split.
  - intros [K1 K2]. split; [lia|]. apply H; [lia|exact K1].
  - intros [K1 K2]. split; [apply H; assumption|lia].
Qed.

Lemma windows_unique k n P c c' : windows k n P c -> windows k n P c' -> c = c'.
Proof.
  intros (W & N & H & <-) (W' & N' & H' & <-). unfold zlen. f_equal. apply Permutation_length, NoDup_Permutation; [exact N|exact N'|].
  intros i. rewrite H, H'. reflexivity.
Qed.

Lemma ncuts_zero m i k : Spec.positive m -> 0 <= k -> ncuts m i (i + k) = 0 <-> without m (fun p => i < p <= i + k).
Proof.
  intros Hm Hk. rewrite ncuts_count by assumption. rewrite count_none. unfold without. setoid_rewrite elem_seqZ. split; intros H p K; apply H; lia.
Qed.

Lemma ncuts_some m i k : Spec.positive m -> 0 <= k -> ncuts m i (i + k) <> 0 <-> with_some m (fun p => i < p <= i + k).
Proof.
  intros Hm Hk. rewrite ncuts_count by assumption. split.
  - intros H. unfold zlen in H. destruct (filter (cut m) (seqZ (i + 1) k)) as [|p l] eqn:E; [destruct H; reflexivity|].
    assert (K : p ∈ filter (cut m) (seqZ (i + 1) k)) by (rewrite E; left). apply elem_of_list_filter in K as [K1 K2]. apply elem_seqZ in K2. exists p. split; [lia|exact K1].
  - intros (p & K1 & K2) H. rewrite count_none in H. apply (H p); [apply elem_seqZ; lia|exact K2].
Qed.

Lemma ncuts_refine x y i k : Spec.positive x -> Spec.positive y -> 0 <= k -> refines y x ->
  ncuts x i (i + k) <= ncuts y i (i + k) /\ (ncuts x i (i + k) <> ncuts y i (i + k) <-> with_more x y (fun p => i < p <= i + k)).
Proof.
  intros Px Py Hk R. split; [rewrite !ncuts_count by assumption; apply count_mono; intros p _; apply R|]. split.
  - intros H. destruct (decide (Exists (fun p => cut y p /\ ~ cut x p) (seqZ (i + 1) k))) as [D|D].
    + apply Exists_exists in D as (p & K1 & K2). apply elem_seqZ in K1. exists p. split; [lia|exact K2].
    + exfalso. apply H. apply ncuts_same; [assumption..|]. intros p Hp. split; [apply R|]. intros C. destruct (decide (cut x p)) as [K|K]; [exact K|].
      exfalso. apply D. apply Exists_exists. exists p. split; [apply elem_seqZ; lia|auto].
  - intros (p & K1 & K2 & K3) H. pose proof (ncuts_more x y i k p Px Py Hk R K1 K2 K3). lia.
Qed.

Lemma pk_errors_nested x y k n : Spec.positive x -> Spec.positive y -> 0 <= k -> refines y x ->
  exists u v, windows k n (without x) u /\ windows k n (without y) v /\ pk_errors x y k n = u - v.
Proof.
  intros Px Py Hk R.
  pose proof (windows_filter (fun i => ncuts x i (i + k) = 0) k n (without x) (fun i _ => ncuts_zero x i k Px Hk)) as U.
  pose proof (windows_filter (fun i => ncuts y i (i + k) = 0) k n (without y) (fun i _ => ncuts_zero y i k Py Hk)) as V.
  eexists _, _. split; [exact U|]. split; [exact V|]. unfold pk_errors.
  assert (H : forall i, ncuts y i (i + k) = 0 -> ncuts x i (i + k) = 0).
  { intros i K. pose proof (proj1 (ncuts_refine x y i k Px Py Hk R)). assert (0 <= ncuts x i (i + k)) by (unfold ncuts, zlen; lia). lia. }
  clear U V. induction (seqZ 0 (n - k)) as [|i l IH]; [reflexivity|]. unfold zlen in *. rewrite !filter_cons. specialize (H i).
  destruct (decide (ncuts x i (i + k) = 0 <-> ncuts y i (i + k) <> 0)), (decide (ncuts x i (i + k) = 0)), (decide (ncuts y i (i + k) = 0)); cbn [length]; try lia; exfalso; tauto.
Qed.

Lemma wd_errors_nested x y k n : Spec.positive x -> Spec.positive y -> 0 <= k -> refines y x -> windows k n (with_more x y) (wd_errors x y k n).
Proof. intros Px Py Hk R. apply windows_filter. intros i _. apply ncuts_refine; assumption. Qed.

Lemma refines_pad k x y : x <> [] -> y <> [] -> zsum x = zsum y -> refines y x -> refines (padded k y) (padded k x).
Proof. intros Nx Ny E R p. rewrite !cuts_pad by assumption. rewrite E. intros [K|[K|K]]; auto. Qed.

Section Two.
Context (f : fmt) (n : Z) (x y : list Z) (sx sy : seg) (Cx : coded f n x sx) (Cy : coded f n y sy) (R : refines y x).

Theorem pk_nested A rnd k : 0 <= k < n -> exists u v, windows k n (without x) u /\ windows k n (without y) v /\
  pk A rnd f (Some k) false true sx sy = Ok (WParts (u - v) (n - k)).
Proof.
  intros Hk. pose proof Cx as (Px & _). pose proof Cy as (Py & _). destruct (pk_errors_nested x y k n Px Py ltac:(lia) R) as (u & v & U & V & K).
  exists u, v. split; [exact U|]. split; [exact V|]. rewrite (pk_parts A rnd f n k x y) by assumption. rewrite K. reflexivity.
Qed.

Theorem wd_nested A rnd k : sane A -> 0 <= k <= 255 -> k < n -> exists c, windows k n (with_more x y) c /\
  window_diff A rnd f (Some k) false false true sx sy = Ok (WParts c (n - k)).
Proof.
  intros HA Hk Hn. pose proof Cx as (Px & _). pose proof Cy as (Py & _). eexists. split; [apply wd_errors_nested; assumption || lia|].
  rewrite (wd_parts A rnd f n k false x y); [reflexivity|assumption..|]. split; [lia|]. split; [lia|discriminate].
Qed.

Theorem wd_nested_lamprier A rnd k : sane A -> wd_window true f n k [sx; sy] ->
  exists c, windows k (n + 2 * Z.max 1 k) (with_more (padded k x) (padded k y)) c /\
  window_diff A rnd f (Some k) true false true sx sy = Ok (WParts c (n + 2 * Z.max 1 k - k + 1)).
Proof.
  intros HA Hw. pose proof Cx as (Px & Nx & Ex & _). pose proof Cy as (Py & Ny & Ey & _). pose proof Hw as (Hk & _). eexists. split.
  - apply wd_errors_nested; [apply padded_positive, Px|apply padded_positive, Py|lia|]. apply refines_pad; congruence || assumption.
  - rewrite (wd_parts A rnd f n k true x y) by assumption. reflexivity.
Qed.
End Two.

Section Three.
Context (f : fmt) (n : Z) (x y z : list Z) (sx sy sz : seg) (Cx : coded f n x sx) (Cy : coded f n y sy) (Cz : coded f n z sz)
  (R1 : refines y x) (R2 : refines z y).

Theorem pk_chain A rnd k : 0 <= k < n -> exists a b, pk A rnd f (Some k) false true sx sy = Ok (WParts a (n - k)) /\
  pk A rnd f (Some k) false true sy sz = Ok (WParts b (n - k)) /\ pk A rnd f (Some k) false true sx sz = Ok (WParts (a + b) (n - k)).
Proof.
  intros Hk. destruct (pk_nested f n x y sx sy Cx Cy R1 A rnd k Hk) as (u & v & U & V & E1). destruct (pk_nested f n y z sy sz Cy Cz R2 A rnd k Hk) as (v' & w & V' & W & E2).
  destruct (pk_nested f n x z sx sz Cx Cz (fun p K => R2 p (R1 p K)) A rnd k Hk) as (u' & w' & U' & W' & E3).
  rewrite <- (windows_unique _ _ _ _ _ V V') in *. rewrite <- (windows_unique _ _ _ _ _ U U'), <- (windows_unique _ _ _ _ _ W W') in *.
  exists (u - v), (v - w). split; [exact E1|]. split; [exact E2|]. rewrite E3. do 2 f_equal. lia.
Qed.

Theorem wd_chain A rnd k lam : sane A -> wd_window lam f n k [sx; sy; sz] -> exists a b c d,
  window_diff A rnd f (Some k) lam false true sx sy = Ok (WParts a d) /\ window_diff A rnd f (Some k) lam false true sy sz = Ok (WParts b d) /\
  window_diff A rnd f (Some k) lam false true sx sz = Ok (WParts c d) /\ Z.max a b <= c <= a + b.
Proof.
  intros HA Hw. rewrite (wd_parts A rnd f n k lam x y), (wd_parts A rnd f n k lam y z), (wd_parts A rnd f n k lam x z);
    try assumption; try (eapply window_sub; [|exact Hw]; set_solver).
  eexists _, _, _, _. split; [reflexivity|]. split; [reflexivity|]. split; [reflexivity|]. split; [|apply wd_count_triangle].
  assert (M : forall x y z m, Spec.positive x -> Spec.positive y -> Spec.positive z -> refines y x -> refines z y -> Z.max (wd_errors x y k m) (wd_errors y z k m) <= wd_errors x z k m).
  { clear - Hw. intros x y z m Px Py Pz R1 R2. destruct Hw as (Hk & _). apply Z.max_lub; apply count_mono; intros i _ H E;
      pose proof (proj1 (ncuts_refine x y i k Px Py ltac:(lia) R1)); pose proof (proj1 (ncuts_refine y z i k Py Pz ltac:(lia) R2)); lia. }
  destruct Cx as (Px & Nx & Ex & _), Cy as (Py & Ny & Ey & _), Cz as (Pz & Nz & Ez & _). destruct lam; cbn [wd_count].
  - apply M; try (apply padded_positive; assumption); apply refines_pad; congruence || assumption.
  - apply M; assumption.
Qed.
End Three.

(** ** The two extreme segmentations *)

Lemma cut_whole n p : ~ cut (whole n) p.
Proof. apply cut_one. Qed.

Lemma take_units j k : zsum (take j (replicate k 1)) = Z.of_nat (Nat.min j k).
Proof. rewrite take_replicate. generalize (Nat.min j k). intros m. induction m as [|m IH]; [reflexivity|]. cbn [replicate zsum foldr] in *. rewrite Nat2Z.inj_succ, <- IH. unfold zsum. cbn. lia. Qed.

Lemma cut_units n p : cut (units n) p <-> 0 < p < n.
Proof.
  unfold cut, units. rewrite replicate_length. setoid_rewrite take_units. split.
  - intros (k & H1 & <-). lia.
  - intros H. exists (Z.to_nat p). lia.
Qed.

Section Baselines.
Context (f : fmt) (n : Z) (r : list Z) (s0 s1 sr : seg) (C0 : coded f n (whole n) s0) (C1 : coded f n (units n) s1) (Cr : coded f n r sr)
  (k : Z) (Hk : 1 <= k < n).

Lemma cut_within p : cut r p -> 0 < p < n.
Proof. destruct Cr as (P & _ & E & _). rewrite <- E. intros K. pose proof (cut_range r p P K); lia. Qed.

Theorem pk_baselines A rnd : exists a b, windows k n (with_some r) a /\ windows k n (without r) b /\ a + b = n - k /\
  pk A rnd f (Some k) false true s0 sr = Ok (WParts a (n - k)) /\ pk A rnd f (Some k) false true s1 sr = Ok (WParts b (n - k)).
Proof.
  destruct C0 as (P0 & _), C1 as (P1 & _). pose proof Cr as (Pr & _).
  rewrite (pk_parts A rnd f n k (whole n) r), (pk_parts A rnd f n k (units n) r) by (assumption || lia).
  assert (Z0 : forall i, ncuts (whole n) i (i + k) = 0) by (intros i; apply ncuts_zero; [exact P0|lia|]; intros p _; apply cut_whole).
  assert (Z1 : forall i, 0 <= i < n - k -> ncuts (units n) i (i + k) <> 0) by (intros i Hi; apply ncuts_some; [exact P1|lia|]; exists (i + 1); split; [lia|]; apply cut_units; lia).
  eexists _, _. split; [|split; [|split; [|split; reflexivity]]].
  - apply windows_filter. intros i Hi. rewrite Z0, <- ncuts_some by (exact Pr || lia). tauto.
  - apply windows_filter. intros i Hi. specialize (Z1 i Hi). rewrite <- ncuts_zero by (exact Pr || lia). lia.
  - unfold pk_errors. transitivity (zlen (seqZ 0 (n - k))); [|unfold zlen; rewrite seqZ_length; lia].
    assert (W : forall i, i ∈ seqZ 0 (n - k) -> ncuts (units n) i (i + k) <> 0) by (intros i Hi; apply elem_seqZ in Hi; apply Z1; lia).
    clear Z1. revert W. generalize (seqZ 0 (n - k)) as l. induction l as [|i l IH]; [reflexivity|]. intros W. specialize (IH (fun j K => W j (elem_of_list_further _ _ _ K))). specialize (W i (elem_of_list_here _ _)). specialize (Z0 i).
    unfold zlen in *. rewrite !filter_cons. destruct (decide (ncuts (whole n) i (i + k) = 0 <-> ncuts r i (i + k) <> 0)), (decide (ncuts (units n) i (i + k) = 0 <-> ncuts r i (i + k) <> 0)); cbn [length]; lia.
Qed.

Theorem wd_baselines A rnd : sane A -> k <= 255 -> exists a c, windows k n (with_some r) a /\ windows k n (fun w => ~ with_all r w) c /\
  window_diff A rnd f (Some k) false false true s0 sr = Ok (WParts a (n - k)) /\ window_diff A rnd f (Some k) false false true s1 sr = Ok (WParts c (n - k)).
Proof.
  intros HA Hk'. destruct C0 as (P0 & _), C1 as (P1 & _). pose proof Cr as (Pr & _).
  rewrite (wd_parts A rnd f n k false (whole n) r), (wd_parts A rnd f n k false (units n) r) by (assumption || (split; [lia|]; split; [lia|discriminate])).
  assert (Z0 : forall i, ncuts (whole n) i (i + k) = 0) by (intros i; apply ncuts_zero; [exact P0|lia|]; intros p _; apply cut_whole).
  eexists _, _. split; [|split; [|split; reflexivity]].
  - apply windows_filter. intros i Hi. rewrite Z0, <- ncuts_some by (exact Pr || lia). lia.
  - apply windows_filter. intros i Hi. transitivity (ncuts r i (i + k) <> ncuts (units n) i (i + k)); [split; apply not_eq_sym|]. rewrite (proj2 (ncuts_refine r (units n) i k Pr P1 ltac:(lia) (fun p K => proj2 (cut_units n p) (cut_within p K)))).
    split.
    + intros (p & K1 & _ & K2) K. exact (K2 (K p K1)).
    + intros H. destruct (decide (Exists (fun p => ~ cut r p) (seqZ (i + 1) k))) as [D|D].
      * apply Exists_exists in D as (p & K1 & K2). apply elem_seqZ in K1. exists p. split; [lia|]. split; [apply cut_units; lia|exact K2].
      * exfalso. apply H. intros p Hp. destruct (decide (cut r p)) as [K|K]; [exact K|]. exfalso. apply D. apply Exists_exists. exists p. split; [apply elem_seqZ; lia|exact K].
Qed.
End Baselines.
