(** Boundary similarity and segmentation similarity. *)
From Coq Require Import Lqa.
From Verif Require Import SpecSim FormatProofs Similarity Round RoundProofs BedProofs BedSubs BedMain BedTheory BedExtra SimStats SimRound.
Open Scope Z_scope.

Global Arguments rd : simpl never.

Lemma qzero_inject z : z <> 0 -> qzero (inject_Z z) = false.
Proof.
  intros H. unfold qzero. apply not_true_is_false. intros E. apply Qeq_bool_eq in E.
  unfold Qeq in E. cbn in E. lia.
Qed.

Lemma scale_ok A l k : k <> 0 ->
  weight_scale A l k = Ok (NDec (rd A (inject_Z (distance l) / inject_Z k)%Q)).
Proof. intros H. unfold weight_scale. rewrite foldl_zsum. cbn. rewrite qzero_inject by assumption. rewrite Z.add_0_l. reflexivity. Qed.

Lemma scale_zero A l : distance l = 0 -> weight_scale A l 0 = Err InvalidOperation.
Proof. intros H. unfold weight_scale. rewrite foldl_zsum, H. reflexivity. Qed.

(** The rounded count of edits. *)
Definition dcount (A : arith) (e : edits) (sp n_t : Z) : Q :=
  rd A (rd A (inject_Z (zlen (e_add e)) + rd A (inject_Z (distance (e_sub e)) / inject_Z sp)) +
        rd A (inject_Z (spanned (e_transp e)) / inject_Z n_t)).

Lemma extent_ok a b : identify_types a b <> ∅ -> exists lo hi,
  extent a b lo hi /\ set_max (identify_types a b) = Ok hi /\ set_min (identify_types a b) = Ok lo.
Proof.
  intros H. destruct (set_max_ok _ H) as (hi & H1 & H2 & H3). destruct (set_min_ok _ H) as (lo & L1 & L2 & L3).
  exists lo, hi. split; [|auto]. unfold extent. setoid_rewrite <- elem_of_types. auto.
Qed.

Lemma extent_unique a b lo hi lo' hi' : extent a b lo hi -> extent a b lo' hi' -> lo = lo' /\ hi = hi'.
Proof.
  intros (H1 & H2 & H3) (K1 & K2 & K3). pose proof (H3 _ K1). pose proof (H3 _ K2). pose proof (K3 _ H1). pose proof (K3 _ H2). lia.
Qed.

Lemma extent_le a b lo hi : extent a b lo hi -> lo <= hi.
Proof. intros (H1 & H2 & H3). apply H3 in H1. lia. Qed.

Lemma used_small a b d : small_types a b -> used a b d -> -5 <= d <= 256.
Proof. intros Hs (i & [(t & Ht & Hd)|(t & Ht & Hd)]); eapply Hs; try exact Hd; [left|right]; eapply elem_of_list_lookup_2; eassumption. Qed.

Lemma default_stats A E n_t a b lo hi : env_ok E -> length a = length b -> extent a b lo hi -> n_t <> 0 ->
  exists e, boundary_edit_distance E a b n_t = Ok e /\
  bstring_statistics A E (default_weights A) n_t a b =
    Ok (Stats (NDec (dcount A e (hi - lo + 1) n_t)) e (miss_list a b) (Z.of_nat (nboundaries a b)) (match_list a b)
         (zlen b * zsize (identify_types a b)) (identify_types a b)).
Proof.
  intros HE Hl Hx Hn. destruct (bed_returns E a b n_t HE ltac:(lia)) as [e He]. exists e. split; [exact He|].
  rewrite statistics_eq by assumption. rewrite He. cbn [bind].
  assert (Hne : identify_types a b <> ∅).
  { destruct Hx as (H1 & _). apply elem_of_types in H1. set_solver. }
  destruct (extent_ok a b Hne) as (lo' & hi' & Hx' & -> & ->). destruct (extent_unique _ _ _ _ _ _ Hx Hx') as [<- <-].
  pose proof (extent_le _ _ _ _ Hx). cbn [bind w_a w_s w_t default_weights]. unfold weight_s_scale, weight_t_scale.
  rewrite !scale_ok by lia. rewrite distance_transp by (eapply bed_starts; eassumption).
  reflexivity.
Qed.

(** ** Bounds on the exact cost *)

Lemma zlen_nonneg {A} (l : list A) : 0 <= zlen l.
Proof. unfold zlen. lia. Qed.

Lemma inj_le x y : x <= y -> (inject_Z x <= inject_Z y)%Q.
Proof. rewrite <- Zle_Qle. auto. Qed.

(** A sum [D] of [n] distances between 1 and [k - 1], in units of [k]. *)
Lemma unit_bounds (n D k K : Z) : 0 <= n -> n <= D <= (k - 1) * n -> 1 <= k \/ n = 0 -> k <= K -> 1 <= K ->
  let q := (inject_Z D / inject_Z k)%Q in
  (0 <= q /\ q <= inject_Z n /\ ((1 <= n)%Z -> 1 / inject_Z K <= q /\ q <= inject_Z n - 1 / inject_Z K))%Q.
Proof.
  intros Hn0 HD Hk HK HK1 q. assert (HK' : (0 < inject_Z K)%Q) by (apply inj_pos; lia).
  destruct (decide (n = 0)) as [->|Hne].
  - assert (D = 0) as -> by lia. assert (E0 : q == 0) by (unfold q; apply Qmult_0_l). rewrite E0.
    change (inject_Z 0) with 0%Q. split; [lra|]. split; [lra|]. lia.
  - assert (Hk1 : 1 <= k) by lia. assert (Hk' : (0 < inject_Z k)%Q) by (apply inj_pos; lia).
    assert (I1 : (inject_Z n <= inject_Z D)%Q) by (apply inj_le; lia).
    assert (I2 : (inject_Z D <= (inject_Z k - 1) * inject_Z n)%Q).
    { change 1%Q with (inject_Z 1). unfold Qminus. rewrite <- inject_Z_opp, <- inject_Z_plus, <- inject_Z_mult. apply inj_le. lia. }
    assert (I3 : (inject_Z k <= inject_Z K)%Q) by (apply inj_le; lia).
    assert (I4 : (1 <= inject_Z n)%Q) by (change 1%Q with (inject_Z 1); apply inj_le; lia).
    assert (I5 : (1 <= inject_Z k)%Q) by (change 1%Q with (inject_Z 1); apply inj_le; lia).
    set (r := (1 / inject_Z K)%Q). assert (R : (r * inject_Z K == 1)%Q) by (unfold r; field; lra).
    assert (R0 : (0 < r)%Q) by nra. assert (R1 : (r * inject_Z k <= 1)%Q) by nra.
    unfold q. split; [apply Qdiv_bounds_l; nra|]. split; [apply Qdiv_bounds; nra|]. intros _.
    split; [apply Qdiv_bounds_l; nra|apply Qdiv_bounds; nra].
Qed.

Section Cost.
Context (E : env) (a b : bstring) (n_t : Z) (e : edits) (lo hi : Z).
Context (HE : env_ok E) (Hl : length a = length b) (He : boundary_edit_distance E a b n_t = Ok e)
  (Hx : extent a b lo hi) (Hn : n_t <> 0).

Let na := zlen (e_add e).
Let ns := zlen (e_sub e).
Let nt := zlen (e_transp e).
Let qs := (inject_Z (distance (e_sub e)) / inject_Z (hi - lo + 1))%Q.
Let qt := (inject_Z (spanned (e_transp e)) / inject_Z n_t)%Q.

Lemma D_bounds : ns <= distance (e_sub e) <= (hi - lo) * ns.
Proof.
  apply (distance_bounds E a b n_t); try assumption. intros x H. apply elem_of_types in H. apply Hx in H. lia.
Qed.

Lemma S_bounds : nt <= spanned (e_transp e) <= (n_t - 1) * nt.
Proof. apply (tdist_bounds E a b); assumption. Qed.

Lemma cost_bounds K : 1 <= K -> hi - lo + 1 <= K -> n_t <= K ->
  (0 <= qs /\ qs <= inject_Z ns /\ 0 <= qt /\ qt <= inject_Z nt /\
   ((1 <= na + ns + nt)%Z -> 1 / inject_Z K <= inject_Z na + qs + qt) /\
   ((1 <= ns + nt)%Z -> inject_Z na + qs + qt <= inject_Z (na + ns + nt) - 1 / inject_Z K))%Q.
Proof.
  intros HK HK1 HK2. pose proof D_bounds as HD. pose proof S_bounds as HS.
  pose proof (extent_le _ _ _ _ Hx). pose proof (zlen_nonneg (e_add e)) as Pa. fold na in Pa.
  pose proof (zlen_nonneg (e_sub e)) as Ps. fold ns in Ps. pose proof (zlen_nonneg (e_transp e)) as Pt. fold nt in Pt.
  destruct (unit_bounds ns (distance (e_sub e)) (hi - lo + 1) K) as (A1 & A2 & A3); try lia.
  destruct (unit_bounds nt (spanned (e_transp e)) n_t K) as (B1 & B2 & B3); try lia; try nia.
  fold qs in A1, A2, A3. fold qt in B1, B2, B3.
  assert (Pa' : (0 <= inject_Z na)%Q) by (change 0%Q with (inject_Z 0); apply inj_le; lia).
  assert (HK' : (0 < inject_Z K)%Q) by (apply inj_pos; lia).
  assert (R0 : (1 / inject_Z K <= 1)%Q).
  { apply Qdiv_bounds; [assumption|]. rewrite Qmult_1_l. change 1%Q with (inject_Z 1). apply inj_le; lia. }
  split; [assumption|]. split; [assumption|]. split; [assumption|]. split; [assumption|]. split.
  - intros HH. destruct (decide (1 <= ns)) as [C|C]; [apply A3 in C; lra|]. destruct (decide (1 <= nt)) as [C'|C']; [apply B3 in C'; lra|].
    assert (1 <= inject_Z na)%Q by (change 1%Q with (inject_Z 1); apply inj_le; lia). lra.
  - intros HH. rewrite !inject_Z_plus. destruct (decide (1 <= ns)) as [C|C]; [apply A3 in C; lra|].
    destruct (decide (1 <= nt)) as [C'|C']; [apply B3 in C'; lra|]. lia.
Qed.

Lemma cost_count A eps M : prec A eps M -> na + ns + nt <= M ->
  let q := edit_cost e (hi - lo + 1) n_t in let c := dcount A e (hi - lo + 1) n_t in
  (0 <= c /\ c <= inject_Z (na + ns + nt) /\ (1 - 4 * eps) * q <= c /\ c <= (1 + 4 * eps) * q)%Q.
Proof.
  intros HP HM. destruct (cost_bounds (Z.max 1 (Z.max (hi - lo + 1) n_t))) as (A1 & A2 & B1 & B2 & _ & _); try lia.
  apply (count_spec A eps M HP na ns nt qs qt); try assumption; apply zlen_nonneg.
Qed.
End Cost.

(** ** Edits and matches *)

Lemma zlen_matches a b : zlen (match_list a b) = Z.of_nat (nmatches a b).
Proof. unfold zlen. rewrite match_list_length. reflexivity. Qed.

Lemma edits_none_iff E a b n_t e : env_ok E -> length a = length b -> boundary_edit_distance E a b n_t = Ok e ->
  edit_count e = 0 <-> a = b.
Proof.
  intros HE Hl He. rewrite <- (bed_empty_iff E a b n_t HE Hl). rewrite He. unfold edit_count, zlen. destruct e as [x y z]. cbn.
  split.
  - intros H. destruct x, y, z; cbn in H; try lia. reflexivity.
  - intros H. injection H as -> -> ->. reflexivity.
Qed.

Lemma nboundaries_pos a b : length a = length b -> (exists d, used a b d) -> (0 < nboundaries a b)%nat.
Proof.
  intros Hl [d Hd]. apply elem_of_types in Hd. destruct (nboundaries a b) eqn:E; [|lia].
  apply types_empty in E; [|assumption]. set_solver.
Qed.

Lemma nmatches_same a : (2 * nmatches a a = nboundaries a a)%nat.
Proof.
  rewrite nboundaries_split. assert (ndiffs a a = 0%nat); [|lia]. unfold ndiffs. induction a as [|x a IH]; [reflexivity|].
  cbn [zip_with]. rewrite sum_list_cons, IH, difference_diag_L, size_empty. reflexivity.
Qed.

(** The denominator of B. *)
Lemma denominator_pos E a b n_t e : env_ok E -> length a = length b -> boundary_edit_distance E a b n_t = Ok e ->
  (exists d, used a b d) -> 0 < edit_count e + Z.of_nat (nmatches a b).
Proof.
  intros HE Hl He Hu. destruct (decide (a = b)) as [->|Hne].
  - pose proof (nboundaries_pos b b eq_refl Hu). pose proof (nmatches_same b). unfold edit_count, zlen. lia.
  - assert (edit_count e <> 0) by (intros H; apply Hne; eapply edits_none_iff; eassumption).
    unfold edit_count, zlen in *. lia.
Qed.

Lemma denominator_le E a b n_t e : env_ok E -> small_types a b -> length a = length b -> boundary_edit_distance E a b n_t = Ok e ->
  edit_count e + Z.of_nat (nmatches a b) <= Z.of_nat (nboundaries a b).
Proof.
  intros HE Hs Hl He. pose proof (bed_total _ _ _ _ _ HE Hs Hl He). rewrite nboundaries_split.
  unfold edit_count, zlen. lia.
Qed.

(** ** B *)

Definition bval (s : res bres) : option Q := match s with Ok (BVal (NDec v)) => Some v | _ => None end.

Lemma B_of_stats A E a b n_t e lo hi c fm n pbs tys om rp : env_ok E -> length a = length b -> extent a b lo hi ->
  boundary_edit_distance E a b n_t = Ok e ->
  similarity_of_stats A om rp (Stats (NDec c) e fm n (match_list a b) pbs tys) =
    let d := edit_count e + Z.of_nat (nmatches a b) in
    if rp then Ok (BParts (NDec (rd A (inject_Z d - c))) (NInt d) e)
    else if om then Ok (BVal (NDec (rd A (1 - quot A d c)))) else Ok (BVal (NDec (quot A d c))).
Proof.
  intros HE Hl Hx He. pose proof (denominator_pos E a b n_t e HE Hl He) as Hd.
  specialize (Hd ltac:(destruct Hx; eauto)). unfold similarity_of_stats. cbn [st_edits st_matches st_count].
  rewrite zlen_matches. set (d := edit_count e + Z.of_nat (nmatches a b)) in *.
  cbn [nsub num2 bind]. destruct rp; [reflexivity|].
  replace (0 <? d) with true by (symmetry; apply Z.ltb_lt; lia). cbn [ndiv]. rewrite qzero_inject by lia. cbn [bind].
  destruct om; reflexivity.
Qed.

(** ** S *)

Lemma S_of_stats A c e fm n ms pbs tys om rp : 0 < pbs * zsize tys ->
  segmentation_of_stats A om rp (Stats (NDec c) e fm n ms pbs tys) =
    let d := pbs * zsize tys in
    if rp then Ok (SParts (NDec (rd A (inject_Z d - c))) (NInt d))
    else if om then Ok (SVal (NDec (rd A (1 - quot A d c)))) else Ok (SVal (NDec (quot A d c))).
Proof.
  intros Hd. unfold segmentation_of_stats. cbn [st_pbs st_types st_count].
  set (d := pbs * zsize tys) in *.
  cbn [nsub num2 bind]. destruct rp; [reflexivity|].
  replace (0 <? d) with true by (symmetry; apply Z.ltb_lt; lia). cbn [ndiv]. rewrite qzero_inject by lia. cbn [bind].
  destruct om; reflexivity.
Qed.

Lemma size_le_types a b i : (size (at_ a i ∪ at_ b i) <= size (identify_types a b))%nat.
Proof.
  apply subseteq_size. intros d Hd. apply elem_of_types. exists i. apply elem_of_union in Hd. rewrite <- !at_has'. exact Hd.
Qed.

Lemma zip_sum_le {A B} (f : A -> B -> nat) k (x : list A) (y : list B) :
  (forall i s t, x !! i = Some s -> y !! i = Some t -> (f s t <= k)%nat) ->
  (sum_list (zip_with f x y) <= k * length x)%nat.
Proof.
  revert y. induction x as [|s x IH]; intros [|t y] H; try (cbn; lia). cbn [zip_with length]. rewrite sum_list_cons.
  pose proof (H 0%nat s t eq_refl eq_refl). specialize (IH y ltac:(intros i u v Hu Hv; apply (H (S i)); assumption)). lia.
Qed.

(** Matches and differences together occupy at most one place per gap and type. *)
Lemma places a b : length a = length b ->
  (nmatches a b + ndiffs a b <= size (identify_types a b) * length a)%nat.
Proof.
  intros Hl. assert (E : (nmatches a b + ndiffs a b = sum_list (zip_with (fun s t : tyset => size (s ∪ t)) a b))%nat).
  { clear Hl. unfold nmatches, ndiffs. revert b. induction a as [|x a IH]; intros [|y b]; try reflexivity.
    cbn [zip_with]. rewrite !sum_list_cons, <- IH.
    assert (EU : x ∪ y = x ∩ y ∪ (x ∖ y ∪ y ∖ x)).
    { apply set_eq. intros d. rewrite !elem_of_union, !elem_of_intersection, !elem_of_difference.
      destruct (decide (d ∈ x)), (decide (d ∈ y)); tauto. }
    rewrite EU. rewrite (size_union (x ∩ y) (x ∖ y ∪ y ∖ x)) by set_solver. rewrite (size_union (x ∖ y) (y ∖ x)) by set_solver. lia. }
  rewrite E. apply zip_sum_le. intros i s t Hs Ht. pose proof (size_le_types a b i) as H. unfold at_ in H.
  rewrite Hs, Ht in H. exact H.
Qed.

Lemma types_size_pos a b lo hi : extent a b lo hi -> (1 <= size (identify_types a b))%nat.
Proof.
  intros (H & _). apply elem_of_types in H. destruct (size (identify_types a b)) eqn:E; [|lia].
  apply size_empty_inv in E. set_solver.
Qed.

Lemma gaps_pos a b lo hi : length a = length b -> extent a b lo hi -> (1 <= length a)%nat.
Proof.
  intros Hl ((i & [(t & Ht & _)|(t & Ht & _)]) & _); apply lookup_lt_Some in Ht; lia.
Qed.
