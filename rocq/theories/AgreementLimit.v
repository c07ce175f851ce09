(** Property C79: chance agreement stays away from 1, so pi, kappa and bias return
    with rounding as well; and how much the order of coders can show. *)
From Verif Require Import SpecAccuracy SpecML FormatProofs Round RoundProofs BedProofs BedTheory SimStats SimRound SimProofs SimTheory SimMain SimSym
  MLProofs MLSums DictProofs DispatchProofs DispatchMain AgreementProofs AgreementMain AgreementFinal AgreementExact AgreementPerm AgreementBias AgreementPublic
  AgreementValue AgreementAccuracy.
From Coq Require Import Lqa.
Open Scope Z_scope.

Lemma qsum_gap {X} (g : X -> Q) l x : (forall y, y ∈ l -> g y <= 1)%Q -> x ∈ l -> (qsum (g <$> l) <= inject_Z (zlen l) - (1 - g x))%Q.
Proof.
  intros H Hx. assert (HL : forall l, (forall y, y ∈ l -> g y <= 1)%Q -> (qsum (g <$> l) <= inject_Z (zlen l))%Q).
  { intros k Hk. eapply Qle_trans; [apply (qsum_mono g (fun _ => 1%Q)), Hk|]. rewrite qsum_const. lra. }
  induction l as [|y l IH]; [apply elem_of_nil in Hx; contradiction|]. rewrite fmap_cons, qsum_cons. unfold zlen. cbn [length].
  rewrite Nat2Z.inj_succ, <- Z.add_1_r, inject_Z_plus. fold (zlen l). change (inject_Z 1) with 1%Q.
  assert (H' : forall z, z ∈ l -> (g z <= 1)%Q) by (intros z Hz; apply H; right; exact Hz). pose proof (H y ltac:(left)) as Hy.
  apply elem_of_cons in Hx as [->|Hx]; [specialize (HL l H')|specialize (IH H' Hx)]; lra.
Qed.

Lemma ratio_gap e : share e -> fst e < snd e -> (ratio e <= 1 - 1 / inject_Z (snd e))%Q.
Proof.
  intros [_ H] Hlt. pose proof (inj_pos _ H) as Hp. unfold ratio. apply Qdiv_bounds; [exact Hp|].
  assert ((1 - 1 / inject_Z (snd e)) * inject_Z (snd e) == inject_Z (snd e - 1))%Q as ->.
  { unfold Z.sub. rewrite inject_Z_plus. change (inject_Z (- (1))) with (-1)%Q. field. lra. }
  rewrite <- Zle_Qle. lia.
Qed.

(** One element of a mean is [1 / r] below 1. *)
Lemma mean_gap {X} (g : X -> Q) l x r K : (forall y, y ∈ l -> g y <= 1)%Q -> x ∈ l -> 0 < r -> zlen l * r <= K -> (g x <= 1 - 1 / inject_Z r)%Q ->
  (1 / inject_Z K <= 1 - qsum (g <$> l) / inject_Z (zlen l))%Q.
Proof.
  intros H Hx Hr HK Hg. assert (Hl : 0 < zlen l) by (destruct l; [apply elem_of_nil in Hx; contradiction|unfold zlen; cbn [length]; lia]).
  pose proof (qsum_gap g l x H Hx) as HS. pose proof (inj_pos _ Hl) as HL. pose proof (inj_pos _ Hr) as HR.
  assert (HKp : 0 < K) by nia. pose proof (inj_pos _ HKp) as HKQ.
  assert (H1 : (1 / inject_Z K <= 1 / inject_Z (zlen l * r))%Q).
  { apply Qdiv_bounds; [exact HKQ|]. rewrite Zle_Qle, inject_Z_mult in HK. rewrite inject_Z_mult.
    assert (E : (1 == 1 / (inject_Z (zlen l) * inject_Z r) * (inject_Z (zlen l) * inject_Z r))%Q) by (field; split; lra).
    rewrite E at 1. rewrite !(Qmult_comm (1 / _)). apply Qmult_le_compat_r; [exact HK|]. apply Qdiv_bounds_l; [nra|lra]. }
  eapply Qle_trans; [exact H1|]. rewrite inject_Z_mult.
  assert (E : (1 - qsum (g <$> l) / inject_Z (zlen l) == (inject_Z (zlen l) - qsum (g <$> l)) / inject_Z (zlen l))%Q) by (field; lra).
  rewrite E. apply Qdiv_bounds_l; [exact HL|].
  assert (E2 : (1 / (inject_Z (zlen l) * inject_Z r) * inject_Z (zlen l) == 1 / inject_Z r)%Q) by (field; split; lra). rewrite E2. lra.
Qed.

Section Gap.
Context (f : fmt) (coders : list string) (items : dict (dict seg)) (HC : coded f coders items).
Notation J := (jobs_of coders items).
Notation Es := (J ≫= entry2 (marks_of f) (room_of f)).
Notation W := (workload f coders items).

Lemma room_part m n ic : (m, n) ∈ pairs2 coders -> ic ∈ items -> 1 <= room_of f m n ic /\ 2 * room_of f m n ic <= size_of f m n ic.
Proof.
  intros Hp Hic. apply pairs2_distinct in Hp as (Hm & Hn' & Hne); [|exact (coded_coders _ _ _ HC)].
  pose proof (coded_len _ _ _ HC ic m n Hic Hm Hn') as Hl. pose proof (coded_used _ _ _ HC ic m n Hic Hm Hn' Hne) as Hu.
  destruct (room_pos _ _ Hl Hu) as [H1 H2]. unfold size_of, room_of. set (T := Z.of_nat _) in *. nia.
Qed.

Lemma entries_workload : zsum (snd <$> Es.*2) <= W /\ zlen Es <= W.
Proof.
  assert (HWJ : W = zsum (over (size_of f) <$> J)).
  { unfold workload, gather, comparisons. rewrite two_of_pairs2. reflexivity. }
  rewrite HWJ. assert (G : forall j, j ∈ J -> 1 <= over (room_of f) j /\ 2 * over (room_of f) j <= over (size_of f) j).
  { intros [[m n] ic] Hj. apply elem_of_jobs_of in Hj as [Hp Hic]. apply room_part; assumption. }
  revert G. generalize J. intros l. induction l as [|[[m n] ic] l IH]; intros G; [split; reflexivity|].
  destruct (IH ltac:(intros j Hj; apply G; right; exact Hj)) as [I1 I2]. destruct (G (m, n, ic) ltac:(left)) as [G1 G2]. cbn [over] in *.
  rewrite bind_cons. cbn [entry2]. rewrite !fmap_app, fmap_cons. cbn [fmap list_fmap app snd over] in *. unfold zsum, zlen in *. cbn [foldr length app] in *.
  unfold fmap in *. lia.
Qed.

Lemma entry_workload c e : (c, e) ∈ Es -> snd e <= W.
Proof.
  intros He. etransitivity; [|exact (proj1 entries_workload)]. apply zsum_elem.
  - intros x Hx. apply (entries_share f coders items HC) in Hx as [_ Hx]. lia.
  - apply elem_of_list_fmap. exists (c, e). auto.
Qed.

Lemma pool_workload c : c ∈ coders -> snd (cpool Es c) <= W.
Proof.
  intros Hc. etransitivity; [|exact (proj1 entries_workload)]. unfold cpool, pool. cbn [snd].
  assert (G : forall x, x ∈ Es.*2 -> 0 <= snd x) by (intros x Hx; apply (entries_share f coders items HC) in Hx as [_ Hx]; lia).
  revert G. generalize Es. intros l. induction l as [|[d e] l IH]; intros G; [reflexivity|].
  specialize (IH ltac:(intros x Hx; apply G; right; exact Hx)). pose proof (G e ltac:(left)) as He.
  rewrite filter_cons. destruct (decide _); rewrite !fmap_cons; unfold zsum in *; cbn [foldr snd] in *; lia.
Qed.

Lemma chance_gap : some_gap_unmarked f coders items ->
  (1 / inject_Z (W * W) <= 1 - pi_chance f coders items /\ 1 / inject_Z (W * W) <= 1 - kappa_chance f coders items)%Q.
Proof.
  intros HU. destruct (unmarked_entry f coders items HC HU) as (c & e & He & Hlt).
  pose proof (entries_share f coders items HC) as HS. pose proof (entries_keys f coders items HC) as HK.
  pose proof (entries_nonempty f coders items HC) as HNE. destruct entries_workload as [_ HLW].
  assert (Hin : e ∈ Es.*2) by (apply elem_of_list_fmap; exists (c, e); auto).
  split.
  - rewrite <- mean_share_pi by exact HC. destruct (mean_share_range Es HS HNE) as [R0 R1].
    assert (1 / inject_Z (W * W) <= 1 - mean_share Es)%Q; [|nra].
    unfold mean_share. replace (zlen Es) with (zlen Es.*2) in * by (unfold zlen; rewrite fmap_length; reflexivity).
    apply (mean_gap ratio Es.*2 e (snd e)).
    + intros x Hx. apply ratio_range, HS, Hx.
    + exact Hin.
    + apply HS in Hin as [_ Hin]. exact Hin.
    + pose proof (entry_workload c e He). apply HS in Hin as [_ Hin]. unfold zlen in *. nia.
    + apply ratio_gap; [apply HS, Hin|exact Hlt].
  - rewrite <- mean_product_kappa by exact HC. pose proof (coded_coders _ _ _ HC) as Hnd. pose proof (coded_two _ _ _ HC) as H2.
    assert (Hc : c ∈ coders) by (apply HK, elem_of_list_fmap; exists (c, e); auto).
    assert (Hsh : forall d, d ∈ coders -> share (cpool Es d)) by (intros d Hd; apply (cpool_share coders); assumption).
    assert (Hc1 : (ratio (cpool Es c) <= 1 - 1 / inject_Z (snd (cpool Es c)))%Q).
    { apply ratio_gap; [apply Hsh, Hc|]. apply (pool_lt _ e); [apply filter_key_share, HS| |exact Hlt].
      apply elem_of_list_fmap. exists (c, e). split; [reflexivity|]. apply elem_of_list_filter. auto. }
    destruct (other_coder coders c Hnd H2) as (c' & Hc' & Hd).
    assert (exists p, p ∈ pairs2 coders /\ (fst p = c \/ snd p = c)) as (p & Hp & Hpc).
    { destruct (pair_of coders c c' Hnd Hc Hc' ltac:(congruence)) as [Hp|Hp]; eexists; (split; [exact Hp|]); auto. }
    assert (HLP : zlen (pairs2 coders) <= W).
    { transitivity (zlen Es); [|exact HLW]. rewrite entries_length, jobs_length. unfold zlen. pose proof (coded_items _ _ _ HC) as Hne. destruct items; [contradiction|]. cbn [length]. nia. }
    unfold mean_product. apply (mean_gap _ (pairs2 coders) p (snd (cpool Es c))).
    + intros [m n] Hmn. apply pairs2_distinct in Hmn as (Hm & Hn & _); [|exact Hnd]. cbn [fst snd].
      destruct (ratio_range _ (Hsh m Hm)), (ratio_range _ (Hsh n Hn)). nra.
    + exact Hp.
    + apply (Hsh c Hc).
    + pose proof (pool_workload c Hc). destruct (Hsh c Hc) as [_ Hpos]. unfold zlen in *. nia.
    + destruct p as [m n]. apply pairs2_distinct in Hp as (Hm & Hn & _); [|exact Hnd]. cbn [fst snd] in *.
      destruct (ratio_range _ (Hsh m Hm)), (ratio_range _ (Hsh n Hn)). destruct Hpc as [->| ->]; nra.
Qed.

Lemma chance_room : ~ all_gaps_marked f coders items -> W <= 10 ^ 8 ->
  (inject_Z (16 * (zlen (comparisons coders items) + 2)) * half_ulp <= 1 - pi_chance f coders items /\
   inject_Z (16 * (zlen (comparisons coders items) + 2)) * half_ulp <= 1 - kappa_chance f coders items)%Q.
Proof.
  intros HM HW. assert (HN : 2 * zlen (comparisons coders items) <= W).
  { destruct entries_workload as [_ H]. rewrite entries_length in H. rewrite N_jobs. unfold zlen in *. lia. }
  set (N := zlen (comparisons coders items)) in *. set (b := (inject_Z (16 * (N + 2)) * half_ulp)%Q).
  assert (HB : (1 <= W)%Z -> (b <= 1 / inject_Z (W * W))%Q).
  { intros H1. apply Qdiv_bounds_l; [apply inj_pos; nia|]. unfold b.
    assert (H3 : (inject_Z (16 * (N + 2)) * inject_Z (W * W) <= inject_Z (2 * 10 ^ 27))%Q).
    { rewrite <- inject_Z_mult, <- Zle_Qle. assert (0 <= N) by (unfold N, zlen; lia). assert (W * W <= 10 ^ 16) by nia. nia. }
    assert (H4 : (inject_Z (2 * 10 ^ 27) * half_ulp == 1)%Q) by reflexivity.
    assert (H5 : (0 <= half_ulp)%Q) by (vm_compute; discriminate).
    pose proof (Qmult_le_compat_r _ _ _ H3 H5) as H6. rewrite H4 in H6.
    setoid_replace (inject_Z (16 * (N + 2)) * half_ulp * inject_Z (W * W))%Q with (inject_Z (16 * (N + 2)) * inject_Z (W * W) * half_ulp)%Q by ring. exact H6. }
  assert (HW1 : 1 <= W).
  { destruct entries_workload as [_ H]. pose proof (entries_nonempty f coders items HC). destruct Es; [contradiction|]. unfold zlen in H. cbn [length] in H. lia. }
  specialize (HB HW1). clearbody b.
  split.
  - destruct (Qlt_le_dec (1 - pi_chance f coders items) b) as [C|C]; [|exact C]. exfalso. apply HM, all_marked; [exact HC|]. intros HU. destruct (chance_gap HU) as [G _]. lra.
  - destruct (Qlt_le_dec (1 - kappa_chance f coders items) b) as [C|C]; [|exact C]. exfalso. apply HM, all_marked; [exact HC|]. intros HU. destruct (chance_gap HU) as [_ G]. lra.
Qed.
End Gap.

Section Public.
Context (b : bool) (A : arith) (E : env) (n_t : Z) (om : bool) (f : fmt) (cord : gset string -> list string) (c : container).
Notation F := (c_format c f).
Notation coders := (cord (c_coders c)).
Notation items := (c_items c).
Notation X := (compare_with b A E n_t om).
Context (HA : sane A) (HE : env_ok E) (Hn : n_t <> 0) (HC : coded F coders items) (Hca : cached F coders items) (HW : workload F coders items <= 10 ^ 8)
  (HF : full coders items) (HM : ~ all_gaps_marked F coders items).

Theorem rounded_returns : (exists v, fleiss_pi_linear A X f cord false c = Ok (GVal (NDec v))) /\
  (exists v, fleiss_kappa_linear A X f cord false c = Ok (GVal (NDec v))) /\ (exists v, artstein_poesio_bias_linear A X f cord false c = Ok (GVal (NDec v))).
Proof.
  assert (HW' : workload F coders items <= 10 ^ 28) by lia.
  destruct (chance_room F coders items HC HM HW) as [G1 G2].
  destruct (pi_accurate b A E n_t om f cord c HA HE Hn HC Hca HW' HF G1) as (? & ? & ? & v & _ & _ & Hv & _).
  destruct (kappa_accurate b A E n_t om f cord c HA HE Hn HC Hca HW' HF G2) as (? & ? & ? & w & _ & _ & Hw & _).
  destruct (bias_accurate b A E n_t om f cord c HA HE Hn HC Hca HW' HF G1 G2) as (? & ? & u & _ & Hu & _). split; [|split]; eauto.
Qed.
End Public.
