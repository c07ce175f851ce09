(** Nested masses, and the two extreme segmentations. *)
From Verif Require Import SpecNested FormatProofs SimStats SimTheory SimMain BedMetric BedError Nested NestedWindow.
From Coq Require Import Lqa.
Open Scope Z_scope.

Lemma has_bs_of m i d : Spec.positive m -> m <> [] -> has (bs_of m) i d <-> d = 1 /\ cut m (Z.of_nat i + 1).
Proof.
  intros P Ne. split.
  - intros (t & H & K). destruct (bs_of_lookup m i P (lookup_lt_Some _ _ _ H)) as [[C E]|[C E]]; rewrite H in E; injection E as ->.
    + apply elem_of_singleton in K. auto.
    + destruct (not_elem_of_empty _ K).
  - intros [-> C]. pose proof (cut_range m _ P C) as B. pose proof (bs_of_length m P Ne) as L. unfold zlen in L.
    destruct (bs_of_lookup m i P ltac:(lia)) as [[_ E]|[K _]]; [|contradiction]. exists {[1]}. split; [exact E|apply elem_of_singleton; reflexivity].
Qed.

Lemma nbounds_app (a b : bstring) : nbounds (a ++ b) = (nbounds a + nbounds b)%nat.
Proof. unfold nbounds. rewrite fmap_app, sum_list_with_app. reflexivity. Qed.
Lemma nbounds_empty k : nbounds (replicate k ∅) = 0%nat.
Proof. induction k as [|k IH]; [reflexivity|]. change (nbounds (replicate (S k) ∅)) with (size (∅ : tyset) + nbounds (replicate k ∅))%nat. rewrite IH, size_empty. reflexivity. Qed.

Lemma nbounds_bs_of m : m <> [] -> S (nbounds (bs_of m)) = length m.
Proof.
  induction m as [|x m IH]; intros H; [congruence|]. destruct (decide (m = [])) as [->|Hn].
  - cbn [bs_of]. rewrite app_nil_r, nbounds_empty. reflexivity.
  - rewrite bs_of_cons, nbounds_app, nbounds_empty by exact Hn. change (nbounds ({[1]} :: bs_of m)) with (size ({[1%Z]} : tyset) + nbounds (bs_of m))%nat.
    rewrite size_singleton. cbn [length]. rewrite <- (IH Hn). reflexivity.
Qed.

Section Two.
Context (E : env) (f : fmt) (n n_t : Z) (x y : list Z) (sx sy : seg) (HE : env_ok E) (Hn : n_t <> 0)
  (Cx : marked f n x sx) (Cy : marked f n y sy) (R : refines y x).

Lemma marked_bstrings : to_bstrings f sx sy = Ok (bs_of x, bs_of y).
Proof.
  destruct Cx as (Px & Nx & Ex & Wx), Cy as (Py & Ny & Ey & Wy).
  rewrite (to_bstrings_eq f sx sy (bs_of x) (bs_of y)) by (apply to_bstring_encodes; assumption). rewrite !bs_of_length by assumption. rewrite Ex, Ey, Z.eqb_refl. reflexivity.
Qed.

Theorem nested_masses : (1 < length y)%nat ->
  B_is E f n_t sx sy (inject_Z (zlen x - 1) / inject_Z (zlen y - 1)) /\ S_is E f n_t sx sy (1 - inject_Z (zlen y - zlen x) / inject_Z (n - 1)).
Proof.
  intros L. pose proof marked_bstrings as Hb. pose proof (to_bstrings_length _ _ _ _ _ Hb) as Hl. destruct Cx as (Px & Nx & Ex & Wx), Cy as (Py & Ny & Ey & Wy).
  pose proof (nbounds_bs_of x Nx) as Bx. pose proof (nbounds_bs_of y Ny) as By.
  assert (N : nested (bs_of x) (bs_of y)).
  { split; [exact Hl|]. intros i d. rewrite !has_bs_of by assumption. intros [K1 K2]. split; [exact K1|apply R, K2]. }
  assert (U : forall d, used (bs_of x) (bs_of y) d -> d = 1).
  { intros d (i & [K|K]); apply has_bs_of in K; try assumption; apply K. }
  assert (T : identify_types (bs_of x) (bs_of y) = {[1]}).
  { apply set_eq. intros d. rewrite elem_of_types, elem_of_singleton. split; [apply U|]. intros ->.
    destruct (nbounds_pos (bs_of y) ltac:(lia)) as (i & d & K). exists i. right. pose proof K as K'. apply has_bs_of in K'; [|assumption..]. destruct K' as [-> _]. exact K. }
  destruct (nested_values E f n_t sx sy (bs_of x) (bs_of y) HE) as [VB VS]; try assumption.
  - intros t d H K. assert (d = 1); [|lia]. apply U. destruct H as [H|H]; apply elem_of_list_lookup in H as [i H]; exists i; [left|right]; exists t; auto.
  - lia.
  - rewrite T in VS. unfold zsize in VS. rewrite size_singleton in VS. rewrite bs_of_length, Ex in VS by assumption.
    replace (Z.of_nat (nbounds (bs_of x))) with (zlen x - 1) in * by (unfold zlen; lia). replace (Z.of_nat (nbounds (bs_of y))) with (zlen y - 1) in * by (unfold zlen; lia).
    replace (zlen y - 1 - (zlen x - 1)) with (zlen y - zlen x) in VS by lia. replace ((n - 1) * Z.of_nat 1 * Z.of_nat 1) with (n - 1) in VS by lia. split; assumption.
Qed.
End Two.

Theorem B_S_baselines E f n n_t r s0 s1 sr : env_ok E -> n_t <> 0 -> marked f n (whole n) s0 -> marked f n (units n) s1 -> marked f n r sr -> (1 < length r)%nat ->
  let share := (inject_Z (zlen r - 1) / inject_Z (n - 1))%Q in
  B_is E f n_t s0 sr 0 /\ B_is E f n_t sr s1 share /\ S_is E f n_t s0 sr (1 - share) /\ S_is E f n_t sr s1 share.
Proof.
  intros HE Hn C0 C1 Cr L share. pose proof Cr as (Pr & Nr & Er & _). pose proof C1 as (P1 & N1 & E1 & _).
  assert (Ln : zlen (units n) = n). { unfold zlen, units. rewrite replicate_length. pose proof (positive_sum_pos r Pr Nr). lia. }
  assert (R1 : refines (units n) r). { intros p K. apply cut_units. pose proof (cut_range r p Pr K). lia. }
  assert (Lr : zlen r <= n). { rewrite <- Er. clear - Pr. induction Pr as [|x l Hx Pr IH]; [reflexivity|]. rewrite zsum_cons. unfold zlen in *. cbn [length]. lia. }
  destruct (nested_masses E f n n_t (whole n) r s0 sr HE Hn C0 Cr) as [B0 S0]; [intros p K; destruct (cut_whole _ _ K)|exact L|].
  destruct (nested_masses E f n n_t r (units n) sr s1 HE Hn Cr C1 R1) as [B1 S1]; [unfold zlen in *; lia|].
  assert (0 < inject_Z (n - 1))%Q as Q1 by (change 0%Q with (inject_Z 0); rewrite <- Zlt_Qlt; unfold zlen in *; lia).
  rewrite Ln in *. split; [|split; [|split]].
  - eapply B_is_ext; [exact B0|]. change (zlen (whole n) - 1) with 0. unfold Qdiv. apply Qmult_0_l.
  - exact B1.
  - exact S0.
  - eapply S_is_ext; [exact S1|]. unfold share. replace (n - zlen r) with ((n - 1) + - (zlen r - 1)) by lia. rewrite inject_Z_plus, inject_Z_opp. field. lra.
Qed.
