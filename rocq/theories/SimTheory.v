(** Properties C18-C25 of the similarity metrics. *)
From Coq Require Import Lqa.
From Verif Require Import SpecSim FormatProofs Similarity Round RoundProofs BedProofs BedSubs BedMain BedTheory BedExtra SimStats SimRound SimProofs.
Open Scope Z_scope.

Lemma to_bstrings_length f sa sb x y : to_bstrings f sa sb = Ok (x, y) -> length x = length y.
Proof.
  unfold to_bstrings. destruct f.
  1, 2, 4, 5: destruct (to_bstring _ sa) as [x'|]; [|discriminate]; cbn [bind]; destruct (to_bstring _ sb) as [y'|]; [|discriminate]; cbn [bind];
    destruct (zlen x' =? zlen y') eqn:E; cbn; [|discriminate]; intros H; injection H as <- <-; apply Z.eqb_eq in E; unfold zlen in E; lia.
  destruct (seg_len sa =? seg_len sb) eqn:E; cbn [negb]; [|discriminate].
  apply Z.eqb_eq in E.
  destruct (as_sets sa) as [x'|] eqn:Ea; [|discriminate]; cbn [bind]; destruct (as_sets sb) as [y'|] eqn:Eb; [|discriminate].
  cbn. intros H. injection H as <- <-.
  assert (HL : forall s z, as_sets s = Ok z -> zlen z = seg_len s).
  { intros [[|? ?]|?|[|? ?]] z Hz; cbn in Hz; congruence || (injection Hz as <-; reflexivity). }
  apply HL in Ea. apply HL in Eb. unfold zlen in *. lia.
Qed.

(** ** C18 *)

Lemma countP_app' {A} (P : A -> Prop) `{!forall x, Decision (P x)} l k : countP P (l ++ k) = (countP P l + countP P k)%nat.
Proof. apply countP_app. Qed.

Lemma countP_elements (s : tyset) d : countP (fun x => x = d) (elements s) = ind (d ∈ s).
Proof.
  rewrite countP_NoDup_eq by apply NoDup_elements. unfold ind.
  destruct (decide (d ∈ elements s)) as [C|C]; destruct (decide (d ∈ s)) as [C'|C']; try reflexivity; rewrite elem_of_elements in C; contradiction.
Qed.

Lemma count_matches a b d : countP (fun x => x = d) (match_list a b) = both_in a b d.
Proof.
  unfold match_list, both_in. revert b. induction a as [|x a IH]; intros [|y b]; try reflexivity.
  cbn [zip_with mjoin list_join zip]. rewrite countP_app, countP_elements, IH, filter_cons. cbn [fst snd].
  unfold ind. destruct (decide (d ∈ x ∩ y)) as [C|C]; rewrite elem_of_intersection in C; destruct (decide (d ∈ x /\ d ∈ y)); try contradiction; reflexivity.
Qed.

Lemma count_misses a b d : countP (fun x => x = d) (miss_list a b) = (only_in a b d + only_in b a d)%nat.
Proof.
  unfold miss_list, only_in. revert b. induction a as [|x a IH]; intros [|y b]; try reflexivity.
  cbn [zip_with mjoin list_join zip]. rewrite countP_app, countP_elements, IH, !filter_cons. cbn [fst snd].
  unfold ind. pose proof (elem_of_symdiff d x y) as HS.
  destruct (decide (d ∈ symdiff x y)) as [C|C]; destruct (decide (d ∈ x /\ d ∉ y)); destruct (decide (d ∈ y /\ d ∉ x)); try tauto; cbn [length]; lia.
Qed.

Theorem statistics_consistent A E W f n_t sa sb x y s :
  env_ok E -> to_bstrings f sa sb = Ok (x, y) -> boundary_statistics A E W f n_t sa sb = Ok s ->
  boundary_edit_distance E x y n_t = Ok (st_edits s) /\
  (forall d, countP (fun z => z = d) (st_matches s) = both_in x y d) /\
  (forall d, countP (fun z => z = d) (st_full_misses s) = (only_in x y d + only_in y x d)%nat) /\
  st_all s = Z.of_nat (nboundaries x y) /\ st_all s = 2 * zlen (st_matches s) + zlen (st_full_misses s) /\
  (forall d, d ∈ st_types s <-> used x y d) /\ st_pbs s = zlen x * Z.of_nat (size (st_types s)) /\
  (small_types x y -> zlen (st_full_misses s) =
     zlen (e_add (st_edits s)) + 2 * zlen (e_sub (st_edits s)) + 2 * zlen (e_transp (st_edits s))).
Proof.
  intros HE Hb Hs. pose proof (to_bstrings_length _ _ _ _ _ Hb) as Hl. unfold boundary_statistics in Hs. rewrite Hb in Hs.
  cbn [bind] in Hs. rewrite statistics_eq in Hs by assumption.
  destruct (boundary_edit_distance E x y n_t) as [e|] eqn:He; [|discriminate].
  repeat (cbn [bind] in Hs; match type of Hs with bind ?r _ = _ => destruct r; [|discriminate] end).
  cbn [bind] in Hs. injection Hs as <-. cbn [st_edits st_matches st_full_misses st_all st_types st_pbs].
  split; [reflexivity|]. split; [intros; apply count_matches|]. split; [intros; apply count_misses|].
  split; [reflexivity|]. split.
  { unfold zlen. rewrite match_list_length, miss_list_length, nboundaries_split. lia. }
  split; [intros; apply elem_of_types|]. split; [unfold zlen, zsize; rewrite Hl; reflexivity|].
  intros Hsm. pose proof (bed_total _ _ _ _ _ HE Hsm Hl He). unfold zlen. rewrite miss_list_length. lia.
Qed.

(** ** The value of B and S with default weights *)

Lemma B_eq A E f n_t sa sb x y lo hi e om rp :
  env_ok E -> to_bstrings f sa sb = Ok (x, y) -> extent x y lo hi -> n_t <> 0 ->
  boundary_edit_distance E x y n_t = Ok e ->
  boundary_similarity A E (default_weights A) f n_t om rp sa sb =
    let d := edit_count e + Z.of_nat (nmatches x y) in let c := dcount A e (hi - lo + 1) n_t in
    if rp then Ok (BParts (NDec (rd A (inject_Z d - c))) (NInt d) e)
    else if om then Ok (BVal (NDec (rd A (1 - quot A d c)))) else Ok (BVal (NDec (quot A d c))).
Proof.
  intros HE Hb Hx Hn He. pose proof (to_bstrings_length _ _ _ _ _ Hb) as Hl. unfold boundary_similarity, boundary_statistics.
  rewrite Hb. cbn [bind]. destruct (default_stats A E n_t x y lo hi HE Hl Hx Hn) as (e' & He' & ->).
  assert (e' = e) as -> by congruence. cbn [bind].
  rewrite (B_of_stats A E x y n_t e lo hi) by assumption. reflexivity.
Qed.

Lemma S_eq A E f n_t sa sb x y lo hi e om rp :
  env_ok E -> to_bstrings f sa sb = Ok (x, y) -> extent x y lo hi -> n_t <> 0 ->
  boundary_edit_distance E x y n_t = Ok e ->
  segmentation_similarity A E (default_weights A) f n_t om rp sa sb =
    let d := zlen x * zsize (identify_types x y) * zsize (identify_types x y) in let c := dcount A e (hi - lo + 1) n_t in
    if rp then Ok (SParts (NDec (rd A (inject_Z d - c))) (NInt d))
    else if om then Ok (SVal (NDec (rd A (1 - quot A d c)))) else Ok (SVal (NDec (quot A d c))).
Proof.
  intros HE Hb Hx Hn He. pose proof (to_bstrings_length _ _ _ _ _ Hb) as Hl. unfold segmentation_similarity, boundary_statistics.
  rewrite Hb. cbn [bind]. destruct (default_stats A E n_t x y lo hi HE Hl Hx Hn) as (e' & He' & ->).
  assert (e' = e) as -> by congruence. cbn [bind].
  pose proof (types_size_pos _ _ _ _ Hx). pose proof (gaps_pos _ _ _ _ Hl Hx).
  rewrite S_of_stats.
  - replace (zlen y) with (zlen x) by (unfold zlen; lia). reflexivity.
  - unfold zsize, zlen. rewrite Hl in *. apply Z.mul_pos_pos; [apply Z.mul_pos_pos|]; lia.
Qed.

Lemma used_extent x y : (exists d, used x y d) -> exists lo hi, extent x y lo hi.
Proof.
  intros [d Hd]. apply elem_of_types in Hd. destruct (extent_ok x y) as (lo & hi & H & _); [set_solver|]. eauto.
Qed.

Section Values.
Context (A : arith) (eps : Q) (M : Z) (HP : prec A eps M).
Context (E : env) (f : fmt) (n_t : Z) (sa sb : seg) (x y : bstring) (lo hi : Z) (e : edits).
Context (HE : env_ok E) (Hb : to_bstrings f sa sb = Ok (x, y)) (Hx : extent x y lo hi) (Hn : n_t <> 0)
  (He : boundary_edit_distance E x y n_t = Ok e).

Let Hl : length x = length y := to_bstrings_length _ _ _ _ _ Hb.
Let d := edit_count e + Z.of_nat (nmatches x y).
Let c := dcount A e (hi - lo + 1) n_t.
Let q := edit_cost e (hi - lo + 1) n_t.

Lemma d_pos : 0 < d.
Proof. apply (denominator_pos E x y n_t e); try assumption. destruct Hx; eauto. Qed.

Lemma edits_le_d : edit_count e <= d.
Proof. unfold d. lia. Qed.

Lemma c_bounds K : edit_count e <= K -> K <= M ->
  (0 <= c /\ c <= inject_Z K /\ (1 - 4 * eps) * q <= c /\ c <= (1 + 4 * eps) * q)%Q.
Proof.
  intros HK HM. destruct (cost_count E x y n_t e lo hi HE Hl He Hx Hn A eps M HP) as (H1 & H2 & H3 & H4).
  { unfold edit_count in HK. lia. }
  split; [exact H1|]. split; [|split; assumption]. eapply Qle_trans; [exact H2|]. apply inj_le. exact HK.
Qed.

Lemma q_bounds : (0 <= q /\ q <= inject_Z (edit_count e))%Q.
Proof.
  destruct (cost_bounds E x y n_t e lo hi HE Hl He Hx Hn (Z.max 1 (Z.max (hi - lo + 1) n_t))) as (A1 & A2 & B1 & B2 & _ & _); try lia.
  unfold q, edit_cost, edit_count. rewrite (inject_Z_plus (_ + _)), (inject_Z_plus (zlen (e_add e))).
  assert (0 <= inject_Z (zlen (e_add e)))%Q by (change 0%Q with (inject_Z 0); apply inj_le, zlen_nonneg). lra.
Qed.

Lemma q_lower K : 1 <= K -> hi - lo + 1 <= K -> n_t <= K -> 1 <= edit_count e -> (1 / inject_Z K <= q)%Q.
Proof.
  intros. destruct (cost_bounds E x y n_t e lo hi HE Hl He Hx Hn K) as (_ & _ & _ & _ & H3 & _); try assumption.
  unfold q, edit_cost. apply H3. unfold edit_count in *. lia.
Qed.

Lemma q_upper K : 1 <= K -> hi - lo + 1 <= K -> n_t <= K -> 1 <= zlen (e_sub e) + zlen (e_transp e) ->
  (q <= inject_Z (edit_count e) - 1 / inject_Z K)%Q.
Proof.
  intros. destruct (cost_bounds E x y n_t e lo hi HE Hl He Hx Hn K) as (_ & _ & _ & _ & _ & H3); try assumption.
  unfold q, edit_cost. apply H3. unfold edit_count in *. lia.
Qed.

(** The quotient with a denominator [D] not below the number of edits. *)
Lemma range D : edit_count e <= D -> 0 < D -> D <= M -> (0 <= quot A D c /\ quot A D c <= 1)%Q.
Proof.
  intros H1 H2 H3. destruct (c_bounds D H1 H3) as (C1 & C2 & _).
  destruct (quot_bounds A eps M HP D c) as (V1 & V2 & _); try assumption. split; assumption.
Qed.

Lemma accurate D : edit_count e <= D -> 0 < D -> D <= M ->
  (Qabs (quot A D c - (1 - q / inject_Z D)) <= 8 * eps)%Q.
Proof.
  intros H1 H2 H3. destruct (c_bounds D H1 H3) as (C1 & C2 & C3 & C4). destruct q_bounds as [Q1 Q2].
  apply (quot_accuracy A eps M HP); try assumption. eapply Qle_trans; [exact Q2|]. apply inj_le, H1.
Qed.

Lemma is_one D K : edit_count e <= D -> 0 < D -> D <= M -> 1 <= K -> hi - lo + 1 <= K -> n_t <= K ->
  (8 * eps * inject_Z D * inject_Z K < 1)%Q -> (quot A D c == 1 <-> x = y)%Q.
Proof.
  intros H1 H2 H3 HK HK1 HK2 Hs. destruct (c_bounds D H1 H3) as (C1 & C2 & C3 & C4). destruct q_bounds as [Q1 Q2].
  pose proof (p_pos _ _ _ HP) as P0. pose proof (p_small _ _ _ HP) as P1.
  rewrite <- (edits_none_iff E x y n_t e) by assumption. split.
  - intros HV. destruct (decide (edit_count e = 0)) as [|Hne]; [assumption|]. exfalso.
    assert (Hpos : 1 <= edit_count e) by (unfold edit_count, zlen in *; lia).
    pose proof (q_lower K HK HK1 HK2 Hpos) as L. pose proof (quot_one A eps M HP D c H2 H3 C1 C2 HV) as U.
    assert (HK' : (0 < inject_Z K)%Q) by (apply inj_pos; lia).
    set (r := (1 / inject_Z K)%Q) in *. assert (R : (r * inject_Z K == 1)%Q) by (unfold r; field; lra).
    assert (R0 : (0 < r)%Q) by nra.
    assert ((1 # 2) * r <= c)%Q.
    { assert ((1 # 2) * q <= (1 - 4 * eps) * q)%Q by nra. lra. }
    assert (F : (8 * eps * inject_Z D < r)%Q).
    { setoid_replace (8 * eps * inject_Z D)%Q with ((8 * eps * inject_Z D * inject_Z K) * r)%Q.
      - rewrite <- (Qmult_1_l r) at 2. apply Qmult_lt_r; assumption.
      - setoid_replace (8 * eps * inject_Z D * inject_Z K * r)%Q with (8 * eps * inject_Z D * (r * inject_Z K))%Q by ring. rewrite R. ring. }
    lra.
  - intros H0. apply (quot_same A eps M HP); try assumption.
    assert (q == 0)%Q by (rewrite H0 in Q2; change (inject_Z 0) with 0%Q in Q2; lra).
    rewrite H in C3, C4. lra.
Qed.

Lemma is_zero K : d <= M -> 1 <= K -> hi - lo + 1 <= K -> n_t <= K ->
  (8 * eps * inject_Z d * inject_Z K < 1)%Q ->
  (quot A d c == 0 <-> nmatches x y = 0%nat /\ e_sub e = [] /\ e_transp e = [])%Q.
Proof.
  intros H3 HK HK1 HK2 Hs. pose proof d_pos as Hd. pose proof edits_le_d as H1.
  destruct (c_bounds (edit_count e) ltac:(lia) ltac:(lia)) as (C1 & C2' & C3 & C4). destruct q_bounds as [Q1 Q2].
  assert (C2 : (c <= inject_Z d)%Q) by (eapply Qle_trans; [exact C2'|]; apply inj_le, H1).
  pose proof (p_pos _ _ _ HP) as P0. pose proof (p_small _ _ _ HP) as P1.
  rewrite (quot_zero A eps M HP d c) by assumption. split.
  - intros HV. assert (Hm : nmatches x y = 0%nat).
    { destruct (decide (nmatches x y = 0%nat)) as [|Hne]; [assumption|]. exfalso.
      rewrite HV in C2'. rewrite <- Zle_Qle in C2'. unfold d in C2'. lia. }
    split; [exact Hm|].
    destruct (decide (1 <= zlen (e_sub e) + zlen (e_transp e))) as [C|C].
    + exfalso. pose proof (q_upper K HK HK1 HK2 C) as U. assert (Ed : d = edit_count e) by (unfold d; lia).
      rewrite <- Ed in U. assert (HK' : (0 < inject_Z K)%Q) by (apply inj_pos; lia).
      set (r := (1 / inject_Z K)%Q) in *. assert (R : (r * inject_Z K == 1)%Q) by (unfold r; field; lra).
      assert (R0 : (0 < r)%Q) by nra.
      assert (F : (8 * eps * inject_Z d < r)%Q).
      { setoid_replace (8 * eps * inject_Z d)%Q with ((8 * eps * inject_Z d * inject_Z K) * r)%Q.
        - rewrite <- (Qmult_1_l r) at 2. apply Qmult_lt_r; assumption.
        - setoid_replace (8 * eps * inject_Z d * inject_Z K * r)%Q with (8 * eps * inject_Z d * (r * inject_Z K))%Q by ring. rewrite R. ring. }
      assert (Hd' : (0 < inject_Z d)%Q) by (apply inj_pos; lia).
      assert (eps * q <= eps * inject_Z d)%Q by (apply Qmult_le_l_weak; lra).
      assert (0 <= eps * inject_Z d)%Q by (apply Qmult_le_0_compat; lra).
      lra.
    + unfold zlen in C. split; apply nil_length_inv; lia.
  - intros (Hm & Hs0 & Ht0). assert (Ed : d = zlen (e_add e)).
    { unfold d, edit_count. rewrite Hm, Hs0, Ht0. unfold zlen. cbn [length]. lia. }
    unfold c, dcount. rewrite Hs0, Ht0.
    assert (T : (rd A (inject_Z (spanned []) / inject_Z n_t) == 0)%Q).
    { apply (rd_0 A eps M HP). unfold spanned. cbn. apply Qmult_0_l. }
    assert (S : (rd A (inject_Z (distance []) / inject_Z (hi - lo + 1)) == 0)%Q).
    { apply (rd_0 A eps M HP). unfold distance. cbn. apply Qmult_0_l. }
    rewrite <- Ed.
    assert (S1 : (rd A (inject_Z d + rd A (inject_Z (distance []) / inject_Z (hi - lo + 1))) == inject_Z d)%Q).
    { apply (rd_z A eps M HP); [rewrite S; lra|lia]. }
    apply (rd_z A eps M HP); [rewrite S1, T; lra|lia].
Qed.

(** S is not smaller than B. *)
Lemma S_ge_B D K : d <= D -> D <= M -> 1 <= K -> hi - lo + 1 <= K -> n_t <= K ->
  (16 * eps * inject_Z K * (inject_Z d * (inject_Z d + 1)) <= 1)%Q -> (quot A d c <= quot A D c)%Q.
Proof.
  intros HD HM HK HK1 HK2 Hs. pose proof d_pos as Hd. pose proof edits_le_d as H1.
  destruct (decide (d = D)) as [<-|Hne]; [lra|].
  destruct (c_bounds d ltac:(lia) ltac:(lia)) as (C1 & C2 & C3 & C4). destruct q_bounds as [Q1 Q2].
  pose proof (p_pos _ _ _ HP) as P0. pose proof (p_small _ _ _ HP) as P1.
  destruct (decide (edit_count e = 0)) as [H0|Hp].
  { assert (c == 0)%Q as H.
    { rewrite H0 in Q2. change (inject_Z 0) with 0%Q in Q2. assert (q == 0)%Q by lra. rewrite H in C3, C4. lra. }
    rewrite !(quot_same A eps M HP) by (assumption || lia). lra. }
  assert (Hpos : 1 <= edit_count e) by (unfold edit_count, zlen in *; lia).
  pose proof (q_lower K HK HK1 HK2 Hpos) as L.
  assert (C2' : (c <= inject_Z D)%Q) by (eapply Qle_trans; [exact C2|]; apply inj_le, HD).
  destruct (quot_bounds A eps M HP d c) as (_ & _ & _ & U); try assumption; try lia.
  destruct (quot_bounds A eps M HP D c) as (_ & _ & LD & _); try assumption; try lia.
  eapply Qle_trans; [exact U|]. eapply Qle_trans; [|exact LD].
  assert (Hd' : (0 < inject_Z d)%Q) by (apply inj_pos; lia).
  assert (HD' : (inject_Z d + 1 <= inject_Z D)%Q).
  { change 1%Q with (inject_Z 1). rewrite <- inject_Z_plus. apply inj_le. lia. }
  assert (HK' : (0 < inject_Z K)%Q) by (apply inj_pos; lia).
  set (u := inject_Z d) in *. set (w := inject_Z D) in *. set (k := inject_Z K) in *.
  set (g := (c / u)%Q). set (h := (c / w)%Q).
  assert (Eg : (g * u == c)%Q) by (unfold g; field; lra).
  assert (Eh : (h * w == c)%Q) by (unfold h; field; lra).
  set (r := (1 / k)%Q) in *. assert (R : (r * k == 1)%Q) by (unfold r; field; lra).
  assert (R0 : (0 < r)%Q) by nra.
  assert (LC : ((1 # 2) * r <= c)%Q).
  { assert ((1 # 2) * q <= (1 - 4 * eps) * q)%Q by nra. lra. }
  (* g - h >= c / (u (u + 1)) *)
  assert (G0 : (0 <= g)%Q) by (unfold g; apply Qdiv_bounds_l; lra).
  assert (G1 : (g <= 1)%Q) by (unfold g; apply Qdiv_bounds; lra).
  assert (H0 : (0 <= h)%Q) by (unfold h; apply Qdiv_bounds_l; lra).
  assert (H2 : (h * (u + 1) <= g * u)%Q).
  { rewrite Eg, <- Eh. apply Qmult_le_l_weak; assumption. }
  set (t := (g - h)%Q). assert (T0 : (h <= t * u)%Q) by (unfold t; lra).
  assert (T1 : (c <= t * (u * (u + 1)))%Q).
  { rewrite <- Eg. setoid_replace (t * (u * (u + 1)))%Q with (t * (u + 1) * u)%Q by ring.
    apply Qmult_le_compat_r; [|lra]. unfold t in *. lra. }
  assert (T2 : (8 * eps <= t)%Q).
  { set (m := (u * (u + 1))%Q) in *. assert (M0 : (0 < m)%Q) by (unfold m; nra).
    assert (F : (16 * eps * m <= r)%Q).
    { setoid_replace (16 * eps * m)%Q with ((16 * eps * k * m) * r)%Q.
      - rewrite <- (Qmult_1_l r) at 2. apply Qmult_le_compat_r; [assumption|lra].
      - setoid_replace (16 * eps * k * m * r)%Q with (16 * eps * m * (r * k))%Q by ring. rewrite R. ring. }
    apply (Qmult_le_r _ _ m); [assumption|]. lra. }
  assert (eps * g <= eps)%Q by nra. assert (0 <= eps * g)%Q by nra.
  assert (Hhg : (h <= g)%Q) by (unfold t in T2; lra).
  assert (eps * h <= eps * g)%Q by nra. assert (0 <= eps * h)%Q by nra.
  unfold t in T2. lra.
Qed.
End Values.
