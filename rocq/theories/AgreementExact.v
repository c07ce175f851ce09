(** Exact values; properties C48 and C49. *)
From Coq Require Import Lqa.
From Verif Require Import SpecAgreement SpecML FormatProofs Round RoundProofs BedProofs BedTheory SimStats SimRound SimProofs SimMain SimSym
  MLProofs MLSums DictProofs DispatchProofs DispatchMain AgreementProofs AgreementMain AgreementFinal.
Open Scope Z_scope.

(** ** Sums over pairs *)

Lemma qsquare (x : Q) : (0 <= x * x)%Q.
Proof.
  destruct (Qlt_le_dec x 0) as [C|C].
  - setoid_replace (x * x)%Q with ((- x) * (- x))%Q by ring. apply Qmult_le_0_compat; lra.
  - apply Qmult_le_0_compat; assumption.
Qed.

Lemma qsum_le {X} (f g : X -> Q) l : (forall x, x ∈ l -> f x <= g x)%Q -> (qsum (f <$> l) <= qsum (g <$> l))%Q.
Proof. apply qsum_mono. Qed.

Lemma qsum_lt {X} (f g : X -> Q) l x : (forall x, x ∈ l -> f x <= g x)%Q -> x ∈ l -> (f x < g x)%Q -> (qsum (f <$> l) < qsum (g <$> l))%Q.
Proof.
  intros H Hx Hlt. induction l as [|y l IH]; [apply elem_of_nil in Hx; contradiction|]. rewrite !fmap_cons, !qsum_cons.
  pose proof (H y ltac:(left)) as Hy. assert (Hl : forall z, z ∈ l -> (f z <= g z)%Q) by (intros z Hz; apply H; right; exact Hz).
  pose proof (qsum_mono f g l Hl). apply elem_of_cons in Hx as [->|Hx]; [lra|]. specialize (IH Hl Hx). lra.
Qed.

Lemma qsum_const {X} (c : Q) (l : list X) : (qsum ((fun _ => c) <$> l) == inject_Z (zlen l) * c)%Q.
Proof.
  induction l as [|x l IH]; [rewrite fmap_nil, qsum_nil; unfold zlen; cbn [length]; change (inject_Z (Z.of_nat 0)) with 0%Q; lra|].
  rewrite fmap_cons, qsum_cons, IH. unfold zlen. cbn [length]. rewrite Nat2Z.inj_succ, <- Z.add_1_r, inject_Z_plus.
  change (inject_Z 1) with 1%Q. lra.
Qed.

Lemma qsum_scale {X} (c : Q) (g : X -> Q) l : (qsum ((fun x => c * g x) <$> l) == c * qsum (g <$> l))%Q.
Proof. induction l as [|x l IH]; [rewrite !fmap_nil, !qsum_nil; lra|]. rewrite !fmap_cons, !qsum_cons, IH. lra. Qed.

Lemma qsum_pairs_cons {X} (g : X * X -> Q) x l :
  (qsum (g <$> pairs2 (x :: l)) == qsum ((fun y => g (x, y)) <$> l) + qsum (g <$> pairs2 l))%Q.
Proof. cbn [pairs2]. rewrite fmap_app, qsum_app, <- list_fmap_compose. reflexivity. Qed.

(** Symmetric summands: the order of the elements does not matter. *)
Lemma qsum_pairs_perm {X} (g : X * X -> Q) l l' : (forall x y, g (x, y) == g (y, x))%Q -> l ≡ₚ l' ->
  (qsum (g <$> pairs2 l) == qsum (g <$> pairs2 l'))%Q.
Proof.
  intros Hg. induction 1 as [|x l l' Hl IH|x y l|l1 l2 l3 _ IH1 _ IH2]; [reflexivity| | |lra].
  - rewrite !qsum_pairs_cons, IH. rewrite (qsum_perm ((fun y => g (x, y)) <$> l) ((fun y => g (x, y)) <$> l')) by (rewrite Hl; reflexivity). reflexivity.
  - rewrite !qsum_pairs_cons, !fmap_cons, !qsum_cons. rewrite (Hg y x). lra.
Qed.

(** The square of a sum. *)
Lemma square_pairs {X} (p : X -> Q) l :
  (qsum (p <$> l) * qsum (p <$> l) == qsum ((fun x => p x * p x) <$> l) + 2 * qsum ((fun xy => p (fst xy) * p (snd xy)) <$> pairs2 l))%Q.
Proof.
  induction l as [|x l IH]; [rewrite !fmap_nil, !qsum_nil; cbn [pairs2]; rewrite ?fmap_nil, ?qsum_nil; lra|].
  rewrite qsum_pairs_cons, !fmap_cons, !qsum_cons. cbn [fst snd]. rewrite (qsum_scale (p x) p l).
  set (S := qsum (p <$> l)) in *. set (Q2 := qsum ((fun x => p x * p x)%Q <$> l)) in *.
  set (P2 := qsum ((fun xy => p (fst xy) * p (snd xy))%Q <$> pairs2 l)) in *. lra.
Qed.

Lemma differences_pairs {X} (p : X -> Q) l :
  (qsum ((fun xy => (p (fst xy) - p (snd xy)) * (p (fst xy) - p (snd xy))) <$> pairs2 l) ==
   inject_Z (zlen l) * qsum ((fun x => p x * p x) <$> l) - qsum (p <$> l) * qsum (p <$> l))%Q.
Proof.
  induction l as [|x l IH]; [cbn [pairs2]; rewrite !fmap_nil, !qsum_nil; lra|].
  rewrite qsum_pairs_cons, !fmap_cons, !qsum_cons, IH. cbn [fst snd].
  assert (HX : (qsum ((fun y => (p x - p y) * (p x - p y)) <$> l) ==
    inject_Z (zlen l) * (p x * p x) - 2 * p x * qsum (p <$> l) + qsum ((fun y => p y * p y) <$> l))%Q).
  { clear IH. induction l as [|y l IH]; [rewrite !fmap_nil, !qsum_nil; unfold zlen; cbn [length]; change (inject_Z (Z.of_nat 0)) with 0%Q; lra|].
    rewrite !fmap_cons, !qsum_cons, IH. unfold zlen. cbn [length]. rewrite Nat2Z.inj_succ, <- Z.add_1_r, inject_Z_plus. change (inject_Z 1) with 1%Q. lra. }
  rewrite HX. unfold zlen. cbn [length]. rewrite Nat2Z.inj_succ, <- Z.add_1_r, inject_Z_plus. change (inject_Z 1) with 1%Q.
  set (S := qsum (p <$> l)). set (Q2 := qsum ((fun x => p x * p x)%Q <$> l)). set (k := inject_Z (Z.of_nat (length l))). lra.
Qed.

Lemma pairs_count {X} (l : list X) : (2 * inject_Z (zlen (pairs2 l)) == inject_Z (zlen l) * (inject_Z (zlen l) - 1))%Q.
Proof.
  pose proof (pairs2_length l) as H. change 2%Q with (inject_Z 2). change 1%Q with (inject_Z 1).
  unfold Qminus. rewrite <- inject_Z_opp, <- inject_Z_plus, <- !inject_Z_mult. unfold zlen.
  replace (2 * Z.of_nat (length (pairs2 l))) with (Z.of_nat (length l) * (Z.of_nat (length l) + -1)); [reflexivity|]. nia.
Qed.

(** The square of the mean and the mean of the products. *)
Lemma mean_products {X} (p : X -> Q) l : (2 <= length l)%nat ->
  let k := inject_Z (zlen l) in let S := qsum (p <$> l) in
  ((S / k) * (S / k) - qsum ((fun xy => p (fst xy) * p (snd xy)) <$> pairs2 l) / inject_Z (zlen (pairs2 l)) ==
   qsum ((fun xy => (p (fst xy) - p (snd xy)) * (p (fst xy) - p (snd xy))) <$> pairs2 l) / (k * k * (k - 1)))%Q.
Proof.
  intros H2 k S. pose proof (square_pairs p l) as H1. pose proof (differences_pairs p l) as HD. pose proof (pairs_count l) as HC.
  fold S k in H1, HD, HC. set (Q2 := qsum ((fun x => p x * p x)%Q <$> l)) in *.
  set (P2 := qsum ((fun xy => p (fst xy) * p (snd xy))%Q <$> pairs2 l)) in *.
  set (D := qsum ((fun xy => (p (fst xy) - p (snd xy)) * (p (fst xy) - p (snd xy)))%Q <$> pairs2 l)) in *.
  set (n := inject_Z (zlen (pairs2 l))) in *.
  assert (Hk : (2 <= k)%Q) by (unfold k, zlen; change 2%Q with (inject_Z 2); rewrite <- Zle_Qle; lia).
  assert (Hn : (n == k * (k - 1) / 2)%Q) by (rewrite <- HC; field). clearbody k S Q2 P2 D n. clear -Hk Hn H1 HD.
  assert (Hk1 : (0 < k * (k - 1))%Q) by nra.
  assert (HP : (P2 == (S * S - Q2) / 2)%Q) by (rewrite H1; field).
  rewrite Hn, HP, HD. field. split; lra.
Qed.

(** Mean of reciprocals. *)
Lemma harmonic {X} (t : X -> Q) l : (forall x, x ∈ l -> 0 < t x)%Q ->
  (inject_Z (zlen l) * inject_Z (zlen l) <= qsum ((fun x => 1 / t x) <$> l) * qsum (t <$> l))%Q.
Proof.
  intros H. induction l as [|x l IH]; [rewrite !fmap_nil, !qsum_nil; unfold zlen; cbn [length]; change (inject_Z (Z.of_nat 0)) with 0%Q; lra|].
  rewrite !fmap_cons, !qsum_cons. pose proof (H x ltac:(left)) as Hx.
  assert (Hl : forall y, y ∈ l -> (0 < t y)%Q) by (intros y Hy; apply H; right; exact Hy). specialize (IH Hl).
  assert (HR : (0 <= qsum ((fun x => 1 / t x) <$> l))%Q).
  { apply qsum_nonneg, Forall_fmap, Forall_forall. intros y Hy. cbn. pose proof (Hl y Hy). apply Qdiv_bounds_l; lra. }
  assert (HS : (0 <= qsum (t <$> l))%Q).
  { apply qsum_nonneg, Forall_fmap, Forall_forall. intros y Hy. cbn. pose proof (Hl y Hy). lra. }
  unfold zlen in *. cbn [length]. rewrite Nat2Z.inj_succ, <- Z.add_1_r, inject_Z_plus. change (inject_Z 1) with 1%Q.
  assert (Hk : (0 <= inject_Z (Z.of_nat (length l)))%Q) by (change 0%Q with (inject_Z 0); rewrite <- Zle_Qle; lia).
  set (k := inject_Z (Z.of_nat (length l))) in *. set (R := qsum ((fun x => 1 / t x)%Q <$> l)) in *. set (S := qsum (t <$> l)) in *.
  set (u := t x) in *. clearbody k R S u. clear -IH Hx HR HS Hk.
  set (a := (u * R)%Q). set (b := (S / u)%Q). assert (Eb : (b * u == S)%Q) by (unfold b; field; lra).
  assert (Hb : (0 <= b)%Q) by (unfold b; apply Qdiv_bounds_l; lra). assert (Ha : (0 <= a)%Q) by (unfold a; nra).
  assert (Eab : (a * b == R * S)%Q) by (unfold a; rewrite <- Eb; ring).
  setoid_replace ((1 / u + R) * (u + S))%Q with (1 + a + b + R * S)%Q by (unfold a, b; field; lra).
  assert (k * k <= a * b)%Q by lra.
  assert (2 * k <= a + b)%Q.
  { destruct (Qlt_le_dec (a + b) (2 * k)) as [C|C]; [|exact C]. exfalso.
    pose proof (qsquare (a - b)). assert ((a + b) * (a + b) < (2 * k) * (2 * k))%Q by nra. lra. }
  lra.
Qed.

(** ** Order of comparisons *)

(** Values of [g] for all comparisons. *)
Definition spread {C} (g : string -> string -> string * dict seg -> list C) (coders : list string) (items : dict (dict seg)) : list C :=
  jobs_of coders items ≫= over g.

Lemma spread_cons {C} (g : string -> string -> string * dict seg -> list C) coders items :
  spread g coders items = pairs2 coders ≫= (fun p => items ≫= g (fst p) (snd p)).
Proof.
  unfold spread, jobs_of. rewrite bind_bind. apply bind_ext. intros [m n] _. cbn [fst snd]. rewrite fmap_bind. reflexivity.
Qed.

Lemma bind_perm_l {X Y} (h : X -> list Y) l l' : l ≡ₚ l' -> l ≫= h ≡ₚ l' ≫= h.
Proof. intros H. apply bind_Permutation, H. Qed.

Lemma bind_perm_r {X Y} (h h' : X -> list Y) (l : list X) : (forall x, x ∈ l -> h x ≡ₚ h' x) -> l ≫= h ≡ₚ l ≫= h'.
Proof.
  intros H. induction l as [|x l IH]; [reflexivity|]. cbn [mbind list_bind]. rewrite (H x ltac:(left)).
  apply Permutation_app_head, IH. intros y Hy. apply H. right. exact Hy.
Qed.

Lemma pairs_bind_perm {X Y} (h : X * X -> list Y) (l l' : list X) : l ≡ₚ l' -> (forall x y, x ∈ l -> y ∈ l -> h (x, y) ≡ₚ h (y, x)) ->
  pairs2 l ≫= h ≡ₚ pairs2 l' ≫= h.
Proof.
  induction 1 as [|x l l' Hl IH|x y l|l1 l2 l3 H1 IH1 H2 IH2]; intros Hh.
  - reflexivity.
  - cbn [pairs2]. rewrite !bind_app, !fmap_bind. apply Permutation_app; [apply bind_perm_l, Hl|].
    apply IH. intros a b Ha Hb. apply Hh; right; assumption.
  - cbn [pairs2]. rewrite !bind_app, !fmap_bind. cbn [mbind list_bind].
    rewrite (Hh y x) by (repeat constructor). rewrite <- !app_assoc. apply Permutation_app_head.
    rewrite !app_assoc. apply Permutation_app_tail, Permutation_app_comm.
  - rewrite IH1 by assumption. apply IH2. intros x y Hx Hy. rewrite <- H1 in Hx, Hy. auto.
Qed.

Lemma spread_perm {C} (g : string -> string -> string * dict seg -> list C) coders coders' items items' :
  coders ≡ₚ coders' -> items ≡ₚ items' ->
  (forall m n ic, m ∈ coders -> n ∈ coders -> ic ∈ items -> g m n ic ≡ₚ g n m ic) ->
  spread g coders items ≡ₚ spread g coders' items'.
Proof.
  intros Hc Hi Hg. rewrite !spread_cons.
  etransitivity; [apply (pairs_bind_perm _ coders coders' Hc)|].
  - intros m n Hm Hn. cbn [fst snd]. apply bind_perm_r. intros ic Hic. apply Hg; assumption.
  - apply bind_perm_r. intros [m n] _. cbn [fst snd]. apply bind_perm_l, Hi.
Qed.

Lemma over_spread {C} (g : string -> string -> string * dict seg -> C) coders items :
  over g <$> jobs_of coders items = spread (fun m n ic => [g m n ic]) coders items.
Proof.
  unfold spread. induction (jobs_of coders items) as [|[[m n] ic] l IH]; [reflexivity|]. rewrite fmap_cons, IH. reflexivity.
Qed.

Lemma entries_spread K T coders items :
  jobs_of coders items ≫= entry2 K T = spread (fun m n ic => [(m, (K m ic, T m n ic)); (n, (K n ic, T m n ic))]) coders items.
Proof. reflexivity. Qed.

(** ** Exact values *)

Definition cpool (E : list (string * (Z * Z))) (c : string) : Z * Z := pool (filter (fun e => fst e = c) E).*2.

Section Values.
Context (coders : list string) (E : list (string * (Z * Z))).
Context (Hnd : NoDup coders) (Hk : forall c, c ∈ E.*1 <-> c ∈ coders) (Hs : forall e, e ∈ E.*2 -> share e).

Lemma grp_keys : (group E).*1 ≡ₚ coders.
Proof.
  apply NoDup_Permutation; [apply pushes_ok, NoDup_nil_2|exact Hnd|].
  intros c. rewrite pushes_keys, Hk. cbn. set_solver.
Qed.

Lemma grp_values : mjoin (group E).*2 ≡ₚ E.*2.
Proof. rewrite pushes_values. reflexivity. Qed.

Lemma filter_key_nonempty k : k ∈ E.*1 -> (filter (fun e => fst e = k) E).*2 <> [].
Proof.
  intros C E0. apply elem_of_list_fmap in C as ([k' e] & -> & C). cbn [fst] in E0.
  assert (e ∈ (filter (fun e0 => e0.1 = k') E).*2) as Hin.
  { apply elem_of_list_fmap. exists (k', e). split; [reflexivity|]. apply elem_of_list_filter. auto. }
  rewrite E0 in Hin. apply elem_of_nil in Hin. exact Hin.
Qed.

Lemma filter_key_share k : Forall share (filter (fun e => fst e = k) E).*2.
Proof.
  apply Forall_forall. intros e He. apply Hs. apply elem_of_list_fmap in He as ([k' e'] & -> & He).
  apply elem_of_list_filter in He as [_ He]. apply elem_of_list_fmap. eauto.
Qed.

Lemma cpool_share c : c ∈ coders -> share (cpool E c).
Proof. intros Hc. apply share_pool; [apply filter_key_nonempty, Hk, Hc|apply filter_key_share]. Qed.

Lemma grp_elem k l : (k, l) ∈ group E -> l <> [] /\ l = (filter (fun e => fst e = k) E).*2.
Proof.
  intros H. apply dget_Some in H; [|apply pushes_ok, NoDup_nil_2]. rewrite dget_pushes in H.
  destruct (decide (k ∈ E.*1)) as [C|C]; [|discriminate]. cbn [dget default app] in H. injection H as <-.
  split; [apply filter_key_nonempty, C|reflexivity].
Qed.

Lemma grp_kpool k : k ∈ coders -> kpool (group E) k = cpool E k.
Proof. intros H. unfold kpool, cpool. rewrite dget_pushes, decide_True by (apply Hk, H). reflexivity. Qed.

Definition mean_share : Q := (qsum (ratio <$> E.*2) / inject_Z (zlen E))%Q.

Lemma pi_value : E <> [] -> pi_Ae exactA (group E) = Ok (NDec (Qred (mean_share * mean_share))).
Proof.
  intros Hne. pose proof grp_values as HG. rewrite pi_Ae_exact.
  - do 2 f_equal. apply Qred_complete. cbv zeta. unfold mean_share.
    rewrite (qsum_perm (ratio <$> mjoin (group E).*2) (ratio <$> E.*2)) by (rewrite HG; reflexivity).
    replace (zlen (mjoin (group E).*2)) with (zlen E) by (unfold zlen; rewrite HG, fmap_length; reflexivity). reflexivity.
  - apply Forall_forall. intros x Hx. rewrite HG in Hx. apply Hs, Hx.
  - intros E0. rewrite E0 in HG. apply Permutation_nil, fmap_nil_inv in HG. contradiction.
Qed.

Definition mean_product : Q :=
  (qsum ((fun p => ratio (cpool E (fst p)) * ratio (cpool E (snd p))) <$> pairs2 coders) / inject_Z (zlen (pairs2 coders)))%Q.

Lemma kappa_value : (2 <= length coders)%nat -> kappa_Ae exactA (group E) = Ok (NDec (Qred mean_product)).
Proof.
  intros H2. pose proof grp_keys as HG.
  assert (HL : zlen (pairs2 (group E).*1) = zlen (pairs2 coders)).
  { pose proof (pairs2_length (group E).*1) as L1. pose proof (pairs2_length coders) as L2.
    rewrite (Permutation_length HG) in L1. unfold zlen. lia. }
  rewrite kappa_Ae_exact.
  - do 2 f_equal. apply Qred_complete. unfold mean_product. rewrite HL.
    rewrite (qsum_fmap_ext _ (fun p => ratio (cpool E (fst p)) * ratio (cpool E (snd p)))%Q).
    + rewrite (qsum_pairs_perm _ _ coders); [reflexivity| |exact HG]. intros x y. cbn [fst snd]. ring.
    + intros [m n] Hp. apply pairs2_distinct in Hp as (Hm & Hn & _); [|apply pushes_ok, NoDup_nil_2]. rewrite HG in Hm, Hn. cbn [fst snd].
      rewrite !grp_kpool by assumption. reflexivity.
  - apply pushes_ok, NoDup_nil_2.
  - intros k l Hkl. apply grp_elem in Hkl as [H1 ->]. split; [exact H1|apply filter_key_share].
  - intros E0. rewrite E0 in HL. pose proof (pairs2_length coders) as L. unfold zlen in HL. cbn [length] in HL. destruct (length coders) as [|[|k]]; lia.
Qed.

(** If some coder leaves something unmarked, chance agreement is below 1. *)
Lemma mean_share_range : E <> [] -> (0 <= mean_share /\ mean_share <= 1)%Q.
Proof using Hs. clear Hnd Hk coders.
  intros Hne. assert (Hpos : (0 < inject_Z (zlen E))%Q) by (apply inj_pos; destruct E; [contradiction|unfold zlen; cbn [length]; lia]).
  unfold mean_share. split; [apply Qdiv_bounds_l; [exact Hpos|]|apply Qdiv_bounds; [exact Hpos|]].
  - rewrite Qmult_0_l. apply qsum_nonneg, Forall_fmap, Forall_forall. intros e He. apply ratio_range, Hs, He.
  - eapply Qle_trans; [apply (qsum_mono ratio (fun _ => 1%Q)); intros e He; apply ratio_range, Hs, He|]. rewrite qsum_const. unfold zlen. rewrite fmap_length. lra.
Qed.

Lemma ratio_lt e : share e -> fst e < snd e -> (ratio e < 1)%Q.
Proof.
  intros [_ H] Hlt. pose proof (inj_pos _ H). unfold ratio. apply Qlt_shift_div_r; [assumption|]. rewrite Qmult_1_l, <- Zlt_Qlt. exact Hlt.
Qed.

Lemma mean_share_lt c e : (c, e) ∈ E -> fst e < snd e -> (mean_share * mean_share < 1)%Q.
Proof using Hs. clear Hnd Hk coders.
  intros He Hlt. assert (Hne : E <> []) by (intros E0; rewrite E0 in He; apply elem_of_nil in He; exact He).
  destruct (mean_share_range Hne) as [H0 H1].
  assert (Hpos : (0 < inject_Z (zlen E))%Q) by (apply inj_pos; destruct E; [contradiction|unfold zlen; cbn [length]; lia]).
  assert (HL : (mean_share < 1)%Q); [|nra]. unfold mean_share. apply Qlt_shift_div_r; [exact Hpos|].
  assert (Hin : e ∈ E.*2) by (apply elem_of_list_fmap; exists (c, e); auto).
  eapply Qlt_le_trans; [apply (qsum_lt ratio (fun _ => 1%Q) _ e)|].
  - intros x Hx. apply ratio_range, Hs, Hx.
  - exact Hin.
  - apply ratio_lt; [apply Hs, Hin|exact Hlt].
  - rewrite qsum_const. unfold zlen. rewrite fmap_length. lra.
Qed.

Lemma pool_lt l e : Forall share l -> e ∈ l -> fst e < snd e -> fst (pool l) < snd (pool l).
Proof.
  intros HF He Hlt. unfold pool. cbn [fst snd]. induction HF as [|x l [Hx _] HF IH]; [apply elem_of_nil in He; contradiction|].
  rewrite !fmap_cons. unfold zsum in *. cbn [foldr].
  assert (Hle : foldr Z.add 0 l.*1 <= foldr Z.add 0 l.*2).
  { clear -HF. induction HF as [|x l [Hx _] HF IH]; [reflexivity|]. rewrite !fmap_cons. cbn [foldr]. lia. }
  apply elem_of_cons in He as [->|He]; [lia|]. specialize (IH He). lia.
Qed.

Lemma mean_product_range : (2 <= length coders)%nat -> (0 <= mean_product /\ mean_product <= 1)%Q.
Proof.
  intros H2. assert (Hpos : (0 < inject_Z (zlen (pairs2 coders)))%Q).
  { apply inj_pos. pose proof (pairs2_length coders) as L. unfold zlen. destruct (length coders) as [|[|k]]; lia. }
  assert (HR : forall p, p ∈ pairs2 coders -> (0 <= ratio (cpool E (fst p)) * ratio (cpool E (snd p)) /\ ratio (cpool E (fst p)) * ratio (cpool E (snd p)) <= 1)%Q).
  { intros [m n] Hp. apply pairs2_distinct in Hp as (Hm & Hn & _); [|exact Hnd]. cbn [fst snd].
    destruct (ratio_range _ (cpool_share m Hm)), (ratio_range _ (cpool_share n Hn)). split; nra. }
  unfold mean_product. split; [apply Qdiv_bounds_l; [exact Hpos|]|apply Qdiv_bounds; [exact Hpos|]].
  - rewrite Qmult_0_l. apply qsum_nonneg, Forall_fmap, Forall_forall. intros p Hp. exact (proj1 (HR p Hp)).
  - eapply Qle_trans; [apply (qsum_mono _ (fun _ => 1%Q)); intros p Hp; exact (proj2 (HR p Hp))|]. rewrite qsum_const. lra.
Qed.

Lemma mean_product_lt c e : (2 <= length coders)%nat -> (c, e) ∈ E -> fst e < snd e -> (mean_product < 1)%Q.
Proof.
  intros H2 He Hlt. assert (Hpos : (0 < inject_Z (zlen (pairs2 coders)))%Q).
  { apply inj_pos. pose proof (pairs2_length coders) as L. unfold zlen. destruct (length coders) as [|[|k]]; lia. }
  assert (Hc : c ∈ coders) by (apply Hk, elem_of_list_fmap; exists (c, e); auto).
  assert (Hc1 : (ratio (cpool E c) < 1)%Q).
  { apply ratio_lt; [apply cpool_share, Hc|]. apply (pool_lt _ e); [apply filter_key_share| |exact Hlt].
    apply elem_of_list_fmap. exists (c, e). split; [reflexivity|]. apply elem_of_list_filter. auto. }
  destruct (other_coder coders c Hnd H2) as (c' & Hc' & Hd).
  assert (exists p, p ∈ pairs2 coders /\ (fst p = c \/ snd p = c)) as (p & Hp & Hpc).
  { destruct (pair_of coders c c' Hnd Hc Hc' ltac:(congruence)) as [Hp|Hp]; eexists; (split; [exact Hp|]); auto. }
  unfold mean_product. apply Qlt_shift_div_r; [exact Hpos|].
  eapply Qlt_le_trans; [apply (qsum_lt _ (fun _ => 1%Q) _ p)|].
  - intros [m n] Hmn. apply pairs2_distinct in Hmn as (Hm & Hn & _); [|exact Hnd]. cbn [fst snd].
    destruct (ratio_range _ (cpool_share m Hm)), (ratio_range _ (cpool_share n Hn)). nra.
  - exact Hp.
  - destruct p as [m n]. apply pairs2_distinct in Hp as (Hm & Hn & _); [|exact Hnd]. cbn [fst snd] in *.
    destruct (ratio_range _ (cpool_share m Hm)), (ratio_range _ (cpool_share n Hn)). destruct Hpc as [->| ->]; nra.
  - rewrite qsum_const. lra.
Qed.
End Values.

(** ** Exact statistics of a dataset *)

Section Exact.
Context (E : env) (n_t : Z) (f : fmt) (coders : list string) (items : dict (dict seg)) (cmp : Agreement.compare).
Context (HE : env_ok E) (Hn : n_t <> 0) (HC : coded f coders items) (Hcmp : comparison exactA E n_t (cached f coders items) cmp).

Notation J := (jobs_of coders items).
Notation Es := (J ≫= entry2 (marks_of f) (room_of f)).

Definition exact_Aa : Q := Qred (qsum (over (num_of cmp f) <$> J) / inject_Z (dsum f coders items cmp)).

Lemma Aa_value a : agreement_parts cmp f coders items = Ok a -> agreement_Aa exactA a = Ok (NDec exact_Aa).
Proof.
  intros Hp. rewrite (parts_Aa exactA E n_t f coders items cmp HE Hn HC Hcmp a Hp). apply Aa_exact.
  - pose proof (jobs_nonempty f coders items HC) as Hne. intros E0. apply Hne. destruct J; [reflexivity|discriminate].
  - apply (dsum_pos exactA E n_t f coders items cmp HE Hn HC Hcmp).
Qed.

Lemma actual_value : actual_agreement exactA cmp f coders items = Ok (NDec exact_Aa).
Proof.
  pose proof (parts_coded exactA E n_t f coders items cmp HE Hn HC Hcmp) as HP.
  rewrite (actual_Aa exactA cmp f coders items _ _ _ _ HP).
  - rewrite <- (parts_Aa exactA E n_t f coders items cmp HE Hn HC Hcmp _ HP). apply Aa_value, HP.
  - pose proof (jobs_nonempty f coders items HC) as Hne. intros E0. apply Hne. destruct J; [reflexivity|discriminate].
Qed.

Lemma pi_exact : corrected_by pi_Ae exactA cmp f coders items =
  let e := NDec (Qred (mean_share Es * mean_share Es)) in
  let* v := chance_corrected exactA (NDec exact_Aa) e in Ok (v, NDec exact_Aa, e).
Proof.
  pose proof (parts_coded exactA E n_t f coders items cmp HE Hn HC Hcmp) as HP. unfold corrected_by. rewrite HP at 1. cbn [bind].
  rewrite (Aa_value _ HP). cbn [bind ac_bnd]. rewrite (pi_value Es); [reflexivity| |].
  - intros e. apply entries_share; assumption.
  - apply entries_nonempty, HC.
Qed.

Lemma kappa_exact : corrected_by kappa_Ae exactA cmp f coders items =
  let e := NDec (Qred (mean_product coders Es)) in
  let* v := chance_corrected exactA (NDec exact_Aa) e in Ok (v, NDec exact_Aa, e).
Proof.
  pose proof (parts_coded exactA E n_t f coders items cmp HE Hn HC Hcmp) as HP. unfold corrected_by. rewrite HP at 1. cbn [bind].
  rewrite (Aa_value _ HP). cbn [bind ac_bnd]. rewrite (kappa_value coders Es); [reflexivity|apply HC| | |apply HC].
  - intros c. apply entries_keys, HC.
  - intros e. apply entries_share; assumption.
Qed.

Lemma marks_lt x y t d : t ∈ x -> d ∈ types_in x y -> d ∉ t -> marks x < room x y.
Proof.
  intros Ht Hd Hnt. unfold marks, room, zlen. rewrite <- Nat2Z.inj_mul. apply inj_lt.
  assert (G : forall x (U : gset Z), (forall t, t ∈ x -> t ⊆ U) -> (sum_list (size <$> x) <= length x * size U)%nat /\
    (forall t, t ∈ x -> d ∈ U -> d ∉ t -> (sum_list (size <$> x) < length x * size U)%nat)).
  { clear. induction x as [|t x IH]; intros U HU; [split; [cbn; lia|intros t Ht; apply elem_of_nil in Ht; contradiction]|]. rewrite fmap_cons.
    pose proof (subseteq_size t U (HU t ltac:(left))) as Ht. destruct (IH U ltac:(intros s Hs; apply HU; right; exact Hs)) as [IH1 IH2].
    change (sum_list (size t :: ?l)) with (size t + sum_list l)%nat. change (length (t :: x)) with (S (length x)). cbn [Nat.mul].
    split; [generalize dependent (sum_list (size <$> x)); generalize dependent (size U); intros; lia|].
    intros t' Ht' Hd Hn. apply elem_of_cons in Ht' as [->|Ht'].
    - assert (Hlt : (size t < size U)%nat) by (apply subset_size; split; [apply HU; left|set_solver]).
      generalize dependent (sum_list (size <$> x)); generalize dependent (size U); intros; lia.
    - specialize (IH2 t' Ht' Hd Hn). generalize dependent (sum_list (size <$> x)); generalize dependent (size U); intros; lia. }
  destruct (G x (types_in x y)) as [_ H]; [|apply (H t); assumption].
  intros s Hs z Hz. apply elem_of_union_l, elem_of_union_list. eauto.
Qed.

Lemma unmarked_entry : some_gap_unmarked f coders items -> exists c e, (c, e) ∈ Es /\ fst e < snd e.
Proof.
  intros (ic & c & c' & t & Hic & Hc & Hc' & Hne & Ht & d & Hd & Hnt).
  pose proof (marks_lt _ (coding f c' ic) t d Ht ltac:(apply (elem_of_types _ _ d), Hd) Hnt) as HL.
  exists c. destruct (pair_of coders c c' (coded_coders _ _ _ HC) Hc Hc' Hne) as [Hp|Hp].
  - exists (marks_of f c ic, room_of f c c' ic). split; [|exact HL]. apply elem_of_entries. exists c, c', ic. auto.
  - exists (marks_of f c ic, room_of f c' c ic). split; [apply elem_of_entries; exists c', c, ic; auto|].
    cbn [fst snd]. unfold room_of. rewrite room_sym by (apply (coded_len _ _ _ HC); assumption). exact HL.
Qed.

Lemma unmarked_returns : some_gap_unmarked f coders items ->
  (exists v, corrected_by pi_Ae exactA cmp f coders items = Ok v) /\ (exists v, corrected_by kappa_Ae exactA cmp f coders items = Ok v).
Proof.
  intros HU. destruct (unmarked_entry HU) as (c & e & He & Hlt).
  pose proof (entries_share f coders items HC) as HS. pose proof (entries_keys f coders items HC) as HK.
  assert (R : forall a e, (e < 1)%Q -> exists v, chance_corrected exactA (NDec a) (NDec (Qred e)) = Ok v).
  { intros a x Hx. unfold chance_corrected. cbn [nsub num2 bind ndiv].
    assert (qzero (rd exactA (1 - Qred x)) = false) as ->; [|eauto].
    apply not_true_is_false. unfold qzero. cbn [rd exactA]. rewrite Qeq_bool_iff, !Qred_correct. lra. }
  rewrite pi_exact, kappa_exact. cbv zeta. split.
  - destruct (R exact_Aa _ (mean_share_lt Es HS c e He Hlt)) as [v ->]. eexists. reflexivity.
  - destruct (R exact_Aa _ (mean_product_lt coders Es (coded_coders _ _ _ HC) HK HS c e (coded_two _ _ _ HC) He Hlt)) as [v ->]. eexists. reflexivity.
Qed.

Lemma exact_one : (exact_Aa == 1)%Q -> unanimous f coders items.
Proof.
  intros H. unfold exact_Aa in H. rewrite Qred_correct in H.
  destruct (dsum_pos exactA E n_t f coders items cmp HE Hn HC Hcmp) as [_ Hd]. pose proof (inj_pos _ Hd) as Hd'.
  assert (HS : (qsum (over (num_of cmp f) <$> J) == inject_Z (dsum f coders items cmp))%Q).
  { setoid_replace (qsum (over (num_of cmp f) <$> J)) with (qsum (over (num_of cmp f) <$> J) / inject_Z (dsum f coders items cmp) * inject_Z (dsum f coders items cmp))%Q by (field; lra).
    rewrite H. lra. }
  unfold dsum in HS. rewrite inject_zsum, <- list_fmap_compose in HS.
  pose proof (prec_exact (dsum f coders items cmp) ltac:(lia)) as HP.
  pose proof (nums_below exactA E n_t f coders items cmp HE Hn HC Hcmp 0 _ HP ltac:(lia)) as HB.
  assert (G : forall m n ic, (m, n) ∈ pairs2 coders -> ic ∈ items -> coding f m ic = coding f n ic).
  { intros m n ic Hp Hic. destruct (job_ok exactA E n_t f coders items cmp m n ic HE Hn HC Hcmp Hp Hic) as (_ & _ & _ & _ & HX).
    apply HX; [reflexivity|]. assert (Hj : ((m, n), ic) ∈ J) by (apply elem_of_jobs_of; auto).
    assert (HL : forall j, j ∈ J -> (over (num_of cmp f) j <= (inject_Z ∘ over (den_of cmp f)) j)%Q).
    { intros j Hj'. apply elem_of_list_lookup in Hj' as [i Hi]. rewrite Forall2_fmap in HB.
      pose proof (Forall2_lookup_l _ _ _ _ _ HB Hi) as (j' & Hj'' & [_ B2]). rewrite Hi in Hj''. injection Hj'' as <-. exact B2. }
    destruct (Qlt_le_dec (num_of cmp f m n ic) (inject_Z (den_of cmp f m n ic))) as [C|C].
    - exfalso. pose proof (qsum_lt _ _ J ((m, n), ic) HL Hj C) as HC'. lra.
    - apply Qle_antisym; [|exact C]. exact (HL _ Hj). }
  intros ic c c' Hic Hc Hc'. destruct (decide (c = c')) as [->|Hd'']; [reflexivity|].
  destruct (pair_of coders c c' (coded_coders _ _ _ HC) Hc Hc' Hd'') as [Hp|Hp]; [apply G; assumption|symmetry; apply G; assumption].
Qed.
End Exact.
