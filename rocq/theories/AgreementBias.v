(** Property C48: annotator bias. *)
From Coq Require Import Lqa.
From Verif Require Import SpecAgreement SpecML FormatProofs Round RoundProofs BedProofs BedTheory SimStats SimRound SimProofs SimMain SimSym
  MLProofs MLSums DictProofs DispatchProofs DispatchMain AgreementProofs AgreementMain AgreementFinal AgreementExact AgreementPerm.
Open Scope Z_scope.

(** ** A sum, key by key *)

Lemma qsum_delta {X} `{EqDecision X} (l : list X) x (q : Q) : NoDup l -> x ∈ l -> (qsum ((fun y => if decide (x = y) then q else 0) <$> l) == q)%Q.
Proof.
  intros Hnd Hx. induction Hnd as [|y l Hy Hnd IH]; [apply elem_of_nil in Hx; contradiction|]. rewrite fmap_cons, qsum_cons.
  destruct (decide (x = y)) as [->|Hne].
  - rewrite qsum_zero; [lra|]. intros z Hz. rewrite decide_False; [reflexivity|]. intros ->. contradiction.
  - rewrite IH; [lra|]. apply elem_of_cons in Hx as [->|Hx]; [contradiction|exact Hx].
Qed.

Lemma qsum_by_key {V} (h : V -> Q) (E : list (string * V)) l : NoDup l -> (forall c, c ∈ E.*1 -> c ∈ l) ->
  (qsum (h <$> E.*2) == qsum ((fun c => qsum (h <$> (filter (fun e => fst e = c) E).*2)) <$> l))%Q.
Proof.
  intros Hnd. induction E as [|[c v] E IH]; intros HK.
  - rewrite fmap_nil, fmap_nil, qsum_nil. symmetry. apply qsum_zero. intros z _. cbn. reflexivity.
  - rewrite !fmap_cons, qsum_cons. cbn [snd]. rewrite IH by (intros c' Hc'; apply HK; right; exact Hc').
    rewrite <- (qsum_delta l c (h v) Hnd) at 1 by (apply HK; left).
    rewrite <- qsum_plus. apply qsum_fmap_ext. intros z _. rewrite filter_cons. cbn [fst].
    destruct (decide (c = z)) as [->|Hne]; [rewrite fmap_cons, fmap_cons, qsum_cons; cbn [snd]; reflexivity|lra].
Qed.

(** ** One item *)

Section One.
Context (f : fmt) (coders : list string) (ic : string * dict seg) (HC : coded f coders [ic]).

Notation Es := (jobs_of coders [ic] ≫= entry2 (marks_of f) (room_of f)).
Notation K c := (marks_of f c ic).
Notation T c d := (room_of f c d ic).

Lemma entries_of_coder c rest : coders ≡ₚ c :: rest -> (filter (fun e => fst e = c) Es).*2 ≡ₚ (fun d => (K c, T c d)) <$> rest.
Proof.
  intros HP. assert (Hnd : NoDup (c :: rest)) by (rewrite <- HP; apply HC). apply NoDup_cons in Hnd as [Hc Hnd].
  rewrite entries_spread. rewrite (spread_perm _ coders (c :: rest) [ic] [ic] HP ltac:(reflexivity)).
  2: { intros m n jc Hm Hn Hj. unfold room_of. rewrite (room_sym (coding f m jc)) by (apply (coded_len _ _ _ HC); assumption). apply perm_swap. }
  rewrite spread_cons. cbn [pairs2]. rewrite bind_app, filter_app, fmap_app.
  assert ((filter (fun e => e.1 = c) (pairs2 rest ≫= (fun p => [ic] ≫= (fun m n ic => [(m, (marks_of f m ic, room_of f m n ic)); (n, (marks_of f n ic, room_of f m n ic))]) p.1 p.2))).*2 = []) as ->.
  { assert (H : forall m n, (m, n) ∈ pairs2 rest -> m <> c /\ n <> c).
    { intros m n Hp. apply elem_of_pairs2 in Hp as (i & j & _ & Hi & Hj). apply elem_of_list_lookup_2 in Hi, Hj. split; intros ->; contradiction. }
    induction (pairs2 rest) as [|[m n] P IH]; [reflexivity|]. destruct (H m n ltac:(left)) as [H1 H2].
    cbn [mbind list_bind app fst snd] in *. change (list_bind _ _ ?g P) with (P ≫= g). rewrite !filter_cons. cbn [fst].
    rewrite !decide_False by assumption. apply IH. intros m' n' Hp. apply H. right. exact Hp. }
  rewrite app_nil_r, fmap_bind. clear HP Hnd HC. induction rest as [|d rest IH]; [reflexivity|].
  cbn [mbind list_bind app fst snd].
  change (list_bind _ _ ?g rest) with (rest ≫= g). rewrite !filter_cons. cbn [fst].
  rewrite decide_True by reflexivity. rewrite decide_False by (intros ->; apply Hc; left). rewrite !fmap_cons. cbn [snd]. apply perm_skip, IH.
  intros C. apply Hc. right. exact C.
Qed.

Definition part (c : string) : Q := ratio (cpool Es c).
Definition inner (c : string) : Q := qsum (ratio <$> (filter (fun e => fst e = c) Es).*2).

Lemma split_coder c : c ∈ coders -> exists rest, coders ≡ₚ c :: rest /\ length coders = S (length rest) /\ (forall d, d ∈ rest -> d ∈ coders /\ d <> c).
Proof.
  intros Hc. apply elem_of_Permutation in Hc as [rest HP]. exists rest. split; [exact HP|]. split; [rewrite HP; reflexivity|].
  intros d Hd. split; [rewrite HP; right; exact Hd|]. intros ->. pose proof (coded_coders _ _ _ HC) as Hnd. rewrite HP in Hnd.
  apply NoDup_cons in Hnd as [H _]. contradiction.
Qed.

Lemma T_pos c d : c ∈ coders -> d ∈ coders -> c <> d -> 0 < T c d.
Proof.
  intros Hc Hd Hne. apply room_pos; [apply (coded_len _ _ _ HC); [left|assumption|assumption]|apply (coded_used _ _ _ HC); [left|assumption..]].
Qed.

Lemma part_value c rest : coders ≡ₚ c :: rest ->
  part c = (inject_Z (zlen rest * K c) / inject_Z (zsum ((fun d => T c d) <$> rest)))%Q.
Proof.
  intros HP. unfold part, cpool. rewrite (pool_perm _ _ (entries_of_coder c rest HP)). unfold ratio, pool. cbn [fst snd].
  f_equal; f_equal.
  - clear. induction rest as [|d rest IH]; [reflexivity|]. rewrite !fmap_cons. unfold zsum, zlen in *. cbn [foldr fst length]. rewrite IH. lia.
  - rewrite <- list_fmap_compose. reflexivity.
Qed.

(** A coder's mean proportion is at least the pooled one. *)
Lemma inner_part c : c ∈ coders -> (inject_Z (zlen coders - 1) * part c <= inner c)%Q.
Proof.
  intros Hc. destruct (split_coder c Hc) as (rest & HP & HL & HR).
  assert (HLz : zlen coders - 1 = zlen rest) by (unfold zlen; lia). rewrite HLz.
  assert (Hr : (1 <= length rest)%nat) by (pose proof (coded_two _ _ _ HC); lia).
  rewrite (part_value c rest HP). unfold inner.
  rewrite (qsum_perm _ (ratio <$> ((fun d => (K c, T c d)) <$> rest))) by (rewrite (entries_of_coder c rest HP); reflexivity).
  rewrite <- list_fmap_compose.
  assert (HT : forall d, d ∈ rest -> (0 < inject_Z (T c d))%Q).
  { intros d Hd. destruct (HR d Hd) as [Hd1 Hd2]. apply inj_pos, T_pos; [exact Hc|exact Hd1|congruence]. }
  assert (HI : (qsum ((ratio ∘ (fun d => (K c, T c d))) <$> rest) == qsum ((fun d => inject_Z (K c) * (1 / inject_Z (T c d))) <$> rest))%Q).
  { apply qsum_fmap_ext. intros d Hd. unfold compose, ratio. cbn [fst snd]. pose proof (HT d Hd). field. lra. }
  rewrite HI. clear HI.
  rewrite qsum_scale, inject_Z_mult, inject_zsum, <- list_fmap_compose.
  pose proof (harmonic (fun d => inject_Z (T c d)) rest HT) as HH.
  assert (HS : (0 < qsum ((inject_Z ∘ (fun d => T c d)) <$> rest))%Q).
  { destruct rest as [|d rest]; [cbn in Hr; lia|]. rewrite fmap_cons, qsum_cons. unfold compose at 1. pose proof (HT d ltac:(left)).
    assert (0 <= qsum ((inject_Z ∘ (fun d => T c d)) <$> rest))%Q; [|lra]. apply qsum_nonneg, Forall_fmap, Forall_forall. intros e He. cbn. pose proof (HT e ltac:(right; exact He)). lra. }
  change (inject_Z ∘ (fun d => T c d)) with (fun d => inject_Z (T c d)) in *.
  assert (HK : (0 <= inject_Z (K c))%Q) by (change 0%Q with (inject_Z 0); rewrite <- Zle_Qle; apply (marks_room _ (coding f c ic))).
  set (S := qsum ((fun d => inject_Z (T c d)) <$> rest)) in *. set (R := qsum ((fun d => 1 / inject_Z (T c d))%Q <$> rest)) in *.
  set (n := inject_Z (zlen rest)) in *. set (k := inject_Z (K c)) in *. clearbody S R n k. clear -HH HS HK.
  setoid_replace (n * (n * k / S))%Q with (n * n * k / S)%Q by (field; lra). apply Qdiv_bounds; [exact HS|].
  setoid_replace (n * n * k)%Q with (k * (n * n))%Q by ring. setoid_replace (k * R * S)%Q with (k * (R * S))%Q by ring. apply Qmult_le_l_weak; assumption.
Qed.

Lemma Es_length : zlen Es = zlen coders * (zlen coders - 1).
Proof.
  pose proof (entries_length f coders [ic]) as H. rewrite jobs_length in H. cbn [length] in H. pose proof (pairs2_length coders) as HL.
  unfold zlen in *. pose proof (coded_two _ _ _ HC). nia.
Qed.

Lemma k_bound : (2 <= inject_Z (zlen coders))%Q.
Proof. pose proof (coded_two _ _ _ HC). change 2%Q with (inject_Z 2). rewrite <- Zle_Qle. unfold zlen. lia. Qed.

Lemma share_inner : (mean_share Es == qsum (inner <$> coders) / (inject_Z (zlen coders) * (inject_Z (zlen coders) - 1)))%Q.
Proof.
  unfold mean_share. rewrite Es_length.
  rewrite (qsum_by_key ratio Es coders) by (apply HC || (intros c Hc; eapply entries_keys; eassumption)).
  assert ((inject_Z (zlen coders * (zlen coders - 1)) == inject_Z (zlen coders) * (inject_Z (zlen coders) - 1))%Q) as ->.
  { rewrite inject_Z_mult. unfold Z.sub. rewrite inject_Z_plus. reflexivity. }
  reflexivity.
Qed.

Definition mean_part : Q := (qsum (part <$> coders) / inject_Z (zlen coders))%Q.

Lemma mean_part_le : (0 <= mean_part /\ mean_part <= mean_share Es)%Q.
Proof.
  pose proof k_bound as Hk. rewrite share_inner. unfold mean_part. split.
  - apply Qdiv_bounds_l; [lra|]. rewrite Qmult_0_l. apply qsum_nonneg, Forall_fmap, Forall_forall. intros c Hc. apply ratio_range.
    apply (cpool_share coders); [intros; apply entries_keys, HC|intros e; apply entries_share, HC|exact Hc].
  - assert (HS : ((inject_Z (zlen coders) - 1) * qsum (part <$> coders) <= qsum (inner <$> coders))%Q).
    { rewrite <- qsum_scale. apply qsum_mono. intros c Hc. pose proof (inner_part c Hc) as H.
      unfold Z.sub in H. rewrite inject_Z_plus in H. exact H. }
    set (k := inject_Z (zlen coders)) in *. set (P := qsum (part <$> coders)) in *. set (I := qsum (inner <$> coders)) in *. clearbody k P I.
    assert (0 < k * (k - 1))%Q by nra. apply Qdiv_bounds_l; [assumption|].
    setoid_replace (P / k * (k * (k - 1)))%Q with ((k - 1) * P)%Q by (field; lra). exact HS.
Qed.

Definition unevenness : Q := qsum ((fun xy => (part (fst xy) - part (snd xy)) * (part (fst xy) - part (snd xy))) <$> pairs2 coders)%Q.

Lemma unevenness_nonneg : (0 <= unevenness)%Q.
Proof. apply qsum_nonneg, Forall_fmap, Forall_forall. intros p _. apply qsquare. Qed.

Lemma bias_value :
  (mean_share Es * mean_share Es - mean_product coders Es ==
   (mean_share Es * mean_share Es - mean_part * mean_part) + unevenness / (inject_Z (zlen coders) * inject_Z (zlen coders) * (inject_Z (zlen coders) - 1)))%Q.
Proof.
  pose proof (mean_products part coders (coded_two _ _ _ HC)) as H. cbv zeta in H. fold mean_part in H. fold unevenness in H.
  unfold mean_product. fold part. change (fun p : string * string => (ratio (cpool Es p.1) * ratio (cpool Es p.2))%Q) with (fun p => part (fst p) * part (snd p))%Q.
  rewrite <- H. ring.
Qed.

Lemma bias_nonneg : (0 <= mean_share Es * mean_share Es - mean_product coders Es)%Q.
Proof.
  rewrite bias_value. destruct mean_part_le as [H0 H1]. pose proof unevenness_nonneg as HU. pose proof k_bound as Hk.
  assert (0 <= unevenness / (inject_Z (zlen coders) * inject_Z (zlen coders) * (inject_Z (zlen coders) - 1)))%Q.
  { apply Qdiv_bounds_l; [|lra]. set (k := inject_Z (zlen coders)) in *. clearbody k. assert (0 < k * k)%Q by nra. nra. }
  assert (mean_part * mean_part <= mean_share Es * mean_share Es)%Q by nra. lra.
Qed.

(** One boundary type: the rooms are all equal. *)
Context (N : Z) (HN : forall c d, c ∈ coders -> d ∈ coders -> c <> d -> T c d = N).

Lemma N_pos : 0 < N.
Proof.
  pose proof (coded_two _ _ _ HC) as H2. pose proof (coded_coders _ _ _ HC) as Hnd. destruct coders as [|c l] eqn:El; [cbn in H2; lia|]. rewrite <- El in *.
  destruct (other_coder coders c Hnd H2) as (d & Hd & Hne). rewrite <- (HN c d); [|rewrite El; left|exact Hd|congruence].
  apply T_pos; [rewrite El; left|exact Hd|congruence].
Qed.

Lemma part_uniform c : c ∈ coders -> (part c == inject_Z (K c) / inject_Z N)%Q.
Proof.
  intros Hc. destruct (split_coder c Hc) as (rest & HP & HL & HR). rewrite (part_value c rest HP).
  assert (zsum ((fun d => T c d) <$> rest) = zlen rest * N) as ->.
  { assert (G : forall d, d ∈ rest -> T c d = N) by (intros d Hd; destruct (HR d Hd); apply HN; congruence). clear -G.
    induction rest as [|d rest IH]; [reflexivity|]. rewrite fmap_cons. unfold zsum, zlen in *. cbn [foldr length].
    rewrite IH by (intros e He; apply G; right; exact He). rewrite (G d ltac:(left)). lia. }
  assert (Hr : 0 < zlen rest) by (pose proof (coded_two _ _ _ HC); unfold zlen; lia).
  pose proof (inj_pos _ Hr). pose proof (inj_pos _ N_pos). rewrite !inject_Z_mult. field. split; lra.
Qed.

Lemma inner_uniform c : c ∈ coders -> (inner c == (inject_Z (zlen coders) - 1) * part c)%Q.
Proof.
  intros Hc. destruct (split_coder c Hc) as (rest & HP & HL & HR). rewrite (part_uniform c Hc). unfold inner.
  rewrite (qsum_perm _ (ratio <$> ((fun d => (K c, T c d)) <$> rest))) by (rewrite (entries_of_coder c rest HP); reflexivity).
  rewrite <- list_fmap_compose. rewrite (qsum_fmap_ext _ (fun _ => inject_Z (K c) / inject_Z N)%Q).
  - rewrite qsum_const. assert (zlen rest = zlen coders + -1) as -> by (unfold zlen; lia). rewrite inject_Z_plus. reflexivity.
  - intros d Hd. destruct (HR d Hd). unfold compose, ratio. cbn [fst snd]. rewrite (HN c d) by congruence. reflexivity.
Qed.

Lemma share_uniform : (mean_share Es == mean_part)%Q.
Proof.
  rewrite share_inner. unfold mean_part. rewrite (qsum_fmap_ext inner (fun c => (inject_Z (zlen coders) - 1) * part c)%Q) by (apply inner_uniform).
  rewrite qsum_scale. pose proof k_bound. field. split; lra.
Qed.

Lemma bias_zero : (mean_share Es * mean_share Es - mean_product coders Es == 0)%Q <-> forall c d, c ∈ coders -> d ∈ coders -> K c = K d.
Proof.
  pose proof k_bound as Hk. pose proof (inj_pos _ N_pos) as HNp. rewrite bias_value, share_uniform.
  set (k := inject_Z (zlen coders)) in *. assert (0 < k * k * (k - 1))%Q as Hkk by (clearbody k; assert (0 < k * k)%Q by nra; nra). split.
  - intros H.
    assert (HU : (unevenness == 0)%Q).
    { setoid_replace unevenness with (unevenness / (k * k * (k - 1)) * (k * k * (k - 1)))%Q by (field; split; lra).
      setoid_replace (unevenness / (k * k * (k - 1)))%Q with 0%Q by lra. lra. }
    assert (G : forall c d, (c, d) ∈ pairs2 coders -> K c = K d).
    { intros c d Hp. assert (Hcd : c ∈ coders /\ d ∈ coders).
      { apply elem_of_pairs2 in Hp as (i & j & _ & Hi & Hj). split; eapply elem_of_list_lookup_2; eassumption. }
      assert (E0 : (part c == part d)%Q).
      { destruct (Qeq_dec (part c) (part d)) as [?|Hne]; [assumption|]. exfalso.
        assert (0 < (part c - part d) * (part c - part d))%Q.
        { destruct (Qlt_le_dec (part c) (part d)) as [C|C]; [|assert (part d < part c)%Q by (destruct (Qle_lt_or_eq _ _ C); [assumption|exfalso; apply Hne; symmetry; assumption])].
          - setoid_replace ((part c - part d) * (part c - part d))%Q with ((part d - part c) * (part d - part c))%Q by ring. assert (0 < part d - part c)%Q by lra. nra.
          - assert (0 < part c - part d)%Q by lra. nra. }
        pose proof (qsum_lt (fun _ => 0%Q) (fun xy => (part (fst xy) - part (snd xy)) * (part (fst xy) - part (snd xy)))%Q (pairs2 coders) (c, d)) as HL.
        specialize (HL ltac:(intros; apply qsquare) Hp ltac:(assumption)). fold unevenness in HL. rewrite qsum_const in HL. lra. }
      rewrite !part_uniform in E0 by tauto. apply inject_Z_injective.
      setoid_replace (inject_Z (K c)) with (inject_Z (K c) / inject_Z N * inject_Z N)%Q by (field; lra). rewrite E0. field. lra. }
    intros c d Hc Hd. destruct (decide (c = d)) as [->|Hne]; [reflexivity|].
    destruct (pair_of coders c d (coded_coders _ _ _ HC) Hc Hd Hne) as [Hp|Hp]; [apply G, Hp|symmetry; apply G, Hp].
  - intros H. assert (HU : (unevenness == 0)%Q).
    { apply qsum_zero. intros [c d] Hp. cbn [fst snd]. apply elem_of_pairs2 in Hp as (i & j & _ & Hi & Hj).
      apply elem_of_list_lookup_2 in Hi, Hj. rewrite (part_uniform c Hi), (part_uniform d Hj), (H c d Hi Hj). lra. }
    rewrite HU. field. split; lra.
Qed.
End One.
