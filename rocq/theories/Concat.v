(** C90: two texts, one after the other. *)
From Verif Require Import SpecNested FormatProofs SimStats SimProofs SimTheory SimMain SimRound RoundProofs BedMain BedMetric BedError WindowProofs WindowMain WindowMetric Nested NestedWindow NestedMass Join.
From Coq Require Import Lqa.
Open Scope Z_scope.

Lemma count_map {X Y} (g : X -> Y) (P : Y -> Prop) (Q : X -> Prop) `{dP : !forall y, Decision (P y)} `{dQ : !forall x, Decision (Q x)} l :
  (forall x, x ∈ l -> (P (g x) <-> Q x)) -> zlen (filter P (g <$> l)) = zlen (filter Q l).
Proof.
  induction l as [|x l IH]; intros H; [reflexivity|]. rewrite fmap_cons, !filter_cons.
  assert (I : zlen (filter P (g <$> l)) = zlen (filter Q l)) by (apply IH; intros; apply H; right; assumption).
  pose proof (H x (elem_of_list_here _ _)) as K. destruct (decide (P (g x))), (decide (Q x)); try tauto. unfold zlen in *. cbn [length]. lia.
Qed.

Lemma count_same {X} (P Q : X -> Prop) `{dP : !forall x, Decision (P x)} `{dQ : !forall x, Decision (Q x)} l :
  (forall x, x ∈ l -> (P x <-> Q x)) -> zlen (filter P l) = zlen (filter Q l).
Proof. intros H. rewrite <- (list_fmap_id l) at 1. apply count_map, H. Qed.

Lemma count_none {X} (P : X -> Prop) `{dP : !forall x, Decision (P x)} l : (forall x, x ∈ l -> ~ P x) -> zlen (filter P l) = 0.
Proof.
  induction l as [|x l IH]; intros H; [reflexivity|]. rewrite filter_cons, decide_False by (apply H; left). apply IH. intros. apply H. right. assumption.
Qed.

Lemma cut_app x y p : x <> [] -> y <> [] -> cut (x ++ y) p <-> cut x p \/ p = zsum x \/ cut y (p - zsum x).
Proof.
  intros Nx Ny. revert p. induction x as [|a x IH]; intros p; [congruence|]. cbn [app]. destruct (decide (x = [])) as [->|N].
  - cbn [app]. rewrite cut_cons by exact Ny. rewrite zsum_cons. change (zsum []) with 0. rewrite Z.add_0_r.
    split; [intros [K|K]; auto|intros [K|[K|K]]; auto]. destruct (cut_one _ _ K).
  - rewrite (cut_cons a (x ++ y)) by (intros K; apply app_eq_nil in K; tauto). rewrite (IH N), (cut_cons a x) by exact N. rewrite zsum_cons.
    replace (p - a - zsum x) with (p - (a + zsum x)) by lia. split.
    + intros [K|[K|[K|K]]]; auto. right. left. lia.
    + intros [[K|K]|[K|K]]; auto. right. right. left. lia.
Qed.

Section Windows.
Context (x1 x2 : list Z) (k : Z) (P1 : Spec.positive x1) (P2 : Spec.positive x2) (N1 : x1 <> []) (N2 : x2 <> []) (Hk : 0 <= k).

Lemma positive_app : Spec.positive (x1 ++ x2).
Proof. apply Forall_app. auto. Qed.

Lemma ncuts_first i : i + k < zsum x1 -> ncuts (x1 ++ x2) i (i + k) = ncuts x1 i (i + k).
Proof.
  intros Hi. apply ncuts_same; try assumption; [apply positive_app|]. intros p Hp. rewrite cut_app by assumption. split; [|auto].
  intros [K|[K|K]]; [exact K|lia|]. apply cut_range in K; [|exact P2]. lia.
Qed.

Lemma ncuts_second i : 0 <= i -> ncuts (x1 ++ x2) (zsum x1 + i) (zsum x1 + i + k) = ncuts x2 i (i + k).
Proof.
  intros Hi. rewrite !ncuts_count by (assumption || apply positive_app).
  replace (seqZ (zsum x1 + i + 1) k) with (Z.add (zsum x1) <$> seqZ (i + 1) k) by (rewrite fmap_add_seqZ; f_equal; lia).
  apply count_map. intros p Hp. apply elem_of_seqZ in Hp. rewrite cut_app by assumption.
  replace (zsum x1 + p - zsum x1) with p by lia. split; [|auto]. intros [K|[K|K]]; [|lia|exact K]. apply cut_range in K; [|exact P1]. lia.
Qed.

Lemma ncuts_across i : i < zsum x1 <= i + k -> ncuts (x1 ++ x2) i (i + k) <> 0.
Proof.
  intros Hi. apply ncuts_some; [apply positive_app|exact Hk|]. exists (zsum x1). split; [exact Hi|]. apply cut_app; auto.
Qed.
End Windows.

Lemma filter_count {X} (P : X -> Prop) `{dP : !forall x, Decision (P x)} l : 0 <= zlen (filter P l) <= zlen l.
Proof. unfold zlen. pose proof (filter_length P l). lia. Qed.

Section Two.
Context (f1 f2 f : fmt) (n1 n2 k : Z) (x1 y1 x2 y2 : list Z) (sx1 sy1 sx2 sy2 sx sy : seg)
  (Cx1 : coded f1 n1 x1 sx1) (Cy1 : coded f1 n1 y1 sy1) (Cx2 : coded f2 n2 x2 sx2) (Cy2 : coded f2 n2 y2 sy2)
  (Cx : coded f (n1 + n2) (x1 ++ x2) sx) (Cy : coded f (n1 + n2) (y1 ++ y2) sy).

Lemma starts : 0 <= k < n1 -> k < n2 -> seqZ 0 (n1 + n2 - k) = seqZ 0 (n1 - k) ++ seqZ (n1 - k) k ++ (Z.add n1 <$> seqZ 0 (n2 - k)).
Proof.
  intros H1 H2. replace (n1 + n2 - k) with ((n1 - k) + (k + (n2 - k))) by lia. rewrite seqZ_app, seqZ_app by lia. rewrite fmap_add_seqZ.
  replace (0 + (n1 - k)) with (n1 - k) by lia. do 3 f_equal; lia.
Qed.

Theorem pk_concat A rnd : 0 <= k < n1 -> k < n2 -> exists c1 c2,
  pk A rnd f1 (Some k) false true sx1 sy1 = Ok (WParts c1 (n1 - k)) /\ pk A rnd f2 (Some k) false true sx2 sy2 = Ok (WParts c2 (n2 - k)) /\
  pk A rnd f (Some k) false true sx sy = Ok (WParts (c1 + c2) (n1 + n2 - k)).
Proof.
  intros H1 H2. eexists _, _. split; [apply pk_parts with (x := x1) (y := y1); assumption|]. split; [apply pk_parts with (x := x2) (y := y2); (assumption || lia)|].
  rewrite (pk_parts A rnd f (n1 + n2) k (x1 ++ x2) (y1 ++ y2)) by (assumption || lia). do 2 f_equal.
  destruct Cx1 as (Px1 & Nx1 & Ex1 & _), Cy1 as (Py1 & Ny1 & Ey1 & _), Cx2 as (Px2 & Nx2 & Ex2 & _), Cy2 as (Py2 & Ny2 & Ey2 & _).
  unfold pk_errors. rewrite (starts H1 H2), !filter_app, !zlen_app.
  match goal with |- ?a + (?b + ?c) = _ => assert (Q : b = 0) end.
  { apply count_none. intros i Hi. apply elem_of_seqZ in Hi.
    intros [K1 K2]. apply (ncuts_across x1 x2 k) with (i := i); try assumption; try lia. apply K2. apply (ncuts_across y1 y2 k); try assumption; lia. }
  rewrite Q. rewrite Z.add_0_l. f_equal.
  - apply count_same. intros i Hi. apply elem_of_seqZ in Hi. rewrite !ncuts_first by (assumption || lia). reflexivity.
  - apply count_map. intros i Hi. apply elem_of_seqZ in Hi.
    pose proof (ncuts_second x1 x2 k Px1 Px2 Nx1 Nx2 ltac:(lia) i ltac:(lia)) as R1. pose proof (ncuts_second y1 y2 k Py1 Py2 Ny1 Ny2 ltac:(lia) i ltac:(lia)) as R2.
    rewrite Ex1 in R1. rewrite Ey1 in R2. rewrite R1, R2. reflexivity.
Qed.

Theorem wd_concat A rnd : sane A -> 0 <= k <= 255 -> k < n1 -> k < n2 -> exists c1 c2 c,
  window_diff A rnd f1 (Some k) false false true sx1 sy1 = Ok (WParts c1 (n1 - k)) /\ window_diff A rnd f2 (Some k) false false true sx2 sy2 = Ok (WParts c2 (n2 - k)) /\
  window_diff A rnd f (Some k) false false true sx sy = Ok (WParts c (n1 + n2 - k)) /\ c1 + c2 <= c <= c1 + c2 + k.
Proof.
  intros HA Hk H1 H2. exists (wd_errors x1 y1 k n1), (wd_errors x2 y2 k n2), (wd_errors (x1 ++ x2) (y1 ++ y2) k (n1 + n2)).
  rewrite (wd_parts A rnd f1 n1 k false x1 y1) by (assumption || (split; [exact Hk|split; [auto|discriminate]])).
  rewrite (wd_parts A rnd f2 n2 k false x2 y2) by (assumption || (split; [exact Hk|split; [auto|discriminate]])).
  rewrite (wd_parts A rnd f (n1 + n2) k false (x1 ++ x2) (y1 ++ y2)) by (assumption || (split; [exact Hk|split; [lia|discriminate]])).
  split; [reflexivity|]. split; [reflexivity|]. split; [reflexivity|].
  destruct Cx1 as (Px1 & Nx1 & Ex1 & _), Cy1 as (Py1 & Ny1 & Ey1 & _), Cx2 as (Px2 & Nx2 & Ex2 & _), Cy2 as (Py2 & Ny2 & Ey2 & _).
  unfold wd_errors. rewrite (starts ltac:(lia) H2), !filter_app, !zlen_app.
  match goal with |- _ <= ?a + (?b + ?c) <= _ => assert (Q : 0 <= b <= k) end.
  { pose proof (filter_count (fun i => ncuts (x1 ++ x2) i (i + k) <> ncuts (y1 ++ y2) i (i + k)) (seqZ (n1 - k) k)) as R. unfold zlen in R at 3. rewrite seqZ_length in R. lia. }
  match goal with |- _ <= ?a + (?b + ?c) <= _ => set (bb := b) in *; assert (Qa : a = zlen (filter (fun i => ncuts x1 i (i + k) <> ncuts y1 i (i + k)) (seqZ 0 (n1 - k)))) end.
  { apply count_same. intros i Hi. apply elem_of_seqZ in Hi. rewrite !ncuts_first by (assumption || lia). reflexivity. }
  match goal with |- _ <= ?a + (bb + ?c) <= _ => assert (Qc : c = zlen (filter (fun i => ncuts x2 i (i + k) <> ncuts y2 i (i + k)) (seqZ 0 (n2 - k)))) end.
  { apply count_map. intros i Hi. apply elem_of_seqZ in Hi.
    pose proof (ncuts_second x1 x2 k Px1 Px2 Nx1 Nx2 ltac:(lia) i ltac:(lia)) as R1. pose proof (ncuts_second y1 y2 k Py1 Py2 Ny1 Ny2 ltac:(lia) i ltac:(lia)) as R2.
    rewrite Ex1 in R1. rewrite Ey1 in R2. rewrite R1, R2. reflexivity. }
  rewrite Qa, Qc. lia.
Qed.
End Two.

Lemma bs_of_app x y : x <> [] -> y <> [] -> bs_of (x ++ y) = bs_of x ++ [{[1]}] ++ bs_of y.
Proof.
  intros Nx Ny. induction x as [|a x IH]; [congruence|]. destruct (decide (x = [])) as [->|N].
  - cbn [app]. rewrite bs_of_cons by exact Ny. cbn [bs_of]. rewrite app_nil_r. reflexivity.
  - cbn [app]. rewrite !bs_of_cons by (try exact N; intros K; apply app_eq_nil in K; tauto). rewrite (IH N), <- !app_assoc. reflexivity.
Qed.

Lemma bs_of_types x d s : Spec.positive x -> x <> [] -> s ∈ bs_of x -> d ∈ s -> d = 1.
Proof.
  intros P N Hs Hd. apply elem_of_list_lookup in Hs as [i Hi]. assert (K : has (bs_of x) i d) by (exists s; auto). apply has_bs_of in K; [apply K|assumption..].
Qed.

Section Boundaries.
Context (E : env) (f1 f2 f : fmt) (n1 n2 n_t : Z) (x1 y1 x2 y2 : list Z) (sx1 sy1 sx2 sy2 sx sy : seg) (HE : env_ok E) (Hn : n_t <> 0) (Hn2 : n_t <= 2)
  (Cx1 : marked f1 n1 x1 sx1) (Cy1 : marked f1 n1 y1 sy1) (Cx2 : marked f2 n2 x2 sx2) (Cy2 : marked f2 n2 y2 sy2)
  (Cx : marked f (n1 + n2) (x1 ++ x2) sx) (Cy : marked f (n1 + n2) (y1 ++ y2) sy).
Context (a1 b1 a2 b2 : bstring) (e1 e2 : edits) (H1 : to_bstrings f1 sx1 sy1 = Ok (a1, b1)) (H2 : to_bstrings f2 sx2 sy2 = Ok (a2, b2))
  (E1 : boundary_edit_distance E a1 b1 n_t = Ok e1) (E2 : boundary_edit_distance E a2 b2 n_t = Ok e2).

Theorem similarity_concat : let c := (edit_cost e1 1 n_t + edit_cost e2 1 n_t)%Q in
  B_is E f n_t sx sy (1 - c / inject_Z (edit_count e1 + Z.of_nat (nmatches a1 b1) + (edit_count e2 + Z.of_nat (nmatches a2 b2)) + 1)) /\
  S_is E f n_t sx sy (1 - c / inject_Z (n1 + n2 - 1)).
Proof.
  rewrite (marked_bstrings f1 n1 x1 y1 sx1 sy1 Cx1 Cy1) in H1. injection H1 as <- <-. rewrite (marked_bstrings f2 n2 x2 y2 sx2 sy2 Cx2 Cy2) in H2. injection H2 as <- <-.
  pose proof (marked_bstrings f (n1 + n2) _ _ sx sy Cx Cy) as Hb.
  destruct Cx1 as (Px1 & Nx1 & Ex1 & _), Cy1 as (Py1 & Ny1 & Ey1 & _), Cx2 as (Px2 & Nx2 & Ex2 & _), Cy2 as (Py2 & Ny2 & Ey2 & _), Cx as (Px & Nx & Ex & _), Cy as (Py & Ny & Ey & _).
  pose proof (bs_of_length x1 Px1 Nx1) as Lx1. pose proof (bs_of_length y1 Py1 Ny1) as Ly1. pose proof (bs_of_length x2 Px2 Nx2) as Lx2. pose proof (bs_of_length y2 Py2 Ny2) as Ly2.
  pose proof (bs_of_length _ Px Nx) as Lx. unfold zlen in Lx1, Ly1, Lx2, Ly2.
  rewrite (bs_of_app x1 x2) in Hb, Lx by assumption. rewrite (bs_of_app y1 y2) in Hb by assumption.
  set (A1 := bs_of x1) in *. set (B1 := bs_of y1) in *. set (A2 := bs_of x2) in *. set (B2 := bs_of y2) in *. set (z := [{[1]}] : bstring) in *.
  assert (U : forall s d, s ∈ A1 ++ z ++ A2 \/ s ∈ B1 ++ z ++ B2 -> d ∈ s -> d = 1).
  { intros s d Hs Hd. rewrite !elem_of_app in Hs. destruct Hs as [[Hs|[Hs|Hs]]|[Hs|[Hs|Hs]]];
      try (eapply bs_of_types; [| |exact Hs|exact Hd]; assumption); apply elem_of_list_singleton in Hs; subst s; apply elem_of_singleton in Hd; exact Hd. }
  assert (U1 : used (A1 ++ z ++ A2) (B1 ++ z ++ B2) 1).
  { exists (length A1). left. exists {[1]}. split; [|apply elem_of_singleton; reflexivity]. rewrite lookup_app_r by lia. rewrite Nat.sub_diag. reflexivity. }
  assert (Hx : extent (A1 ++ z ++ A2) (B1 ++ z ++ B2) 1 1) by (apply used_extent; [exact U|exists 1; exact U1]).
  assert (Hs : small_types (A1 ++ z ++ A2) (B1 ++ z ++ B2)) by (intros s d K D; rewrite (U s d K D); lia).
  pose proof (bed_ok E (A1 ++ z ++ A2) (B1 ++ z ++ B2) n_t HE ltac:(rewrite !app_length; lia)) as He.
  match type of He with _ = Ok ?r => set (e := r) in * end. clearbody e.
  destruct (joined_counts E E E n_t A1 B1 z A2 B2 e e1 e2 HE HE HE ltac:(lia) ltac:(lia) ltac:(unfold z, zlen; cbn; lia) Hs E1 E2 He) as [K1 K2].
  destruct (values E f n_t sx sy _ _ HE Hn Hb 1 1 e Hx He) as [VB VS]. split.
  - eapply B_is_ext; [exact VB|]. change (1 - 1 + 1) with 1. rewrite (K2 1), K1, joined_matches by lia.
    assert (Nz : nbounds z = 1%nat) by (unfold z, nbounds; cbn; rewrite size_singleton; reflexivity). rewrite Nz.
    replace (edit_count e1 + edit_count e2 + Z.of_nat (nmatches A1 B1 + nmatches A2 B2 + 1)) with
      (edit_count e1 + Z.of_nat (nmatches A1 B1) + (edit_count e2 + Z.of_nat (nmatches A2 B2)) + 1) by lia. reflexivity.
  - eapply S_is_ext; [exact VS|]. change (1 - 1 + 1) with 1. rewrite (K2 1), Lx, Ex.
    assert (T : identify_types (A1 ++ z ++ A2) (B1 ++ z ++ B2) = {[1]}).
    { apply set_eq. intros d. rewrite SimStats.elem_of_types, elem_of_singleton. split; [|intros ->; exact U1].
      intros (i & [(s & L & K)|(s & L & K)]); apply (U s d); try exact K; [left|right]; apply elem_of_list_lookup_2 in L; exact L. }
    rewrite T. unfold zsize. rewrite size_singleton. replace ((n1 + n2 - 1) * Z.of_nat 1 * Z.of_nat 1) with (n1 + n2 - 1) by lia. reflexivity.
Qed.
End Boundaries.
