(** Property C76: the values of pi, kappa and bias. *)
From Verif Require Import SpecValue SpecML FormatProofs Round RoundProofs BedProofs BedTheory SimStats SimRound SimProofs SimMain SimSym
  MLProofs MLSums DictProofs DispatchProofs DispatchMain AgreementProofs AgreementMain AgreementFinal AgreementExact AgreementPerm AgreementBias AgreementPublic.
From Coq Require Import Lqa.
Open Scope Z_scope.

Section Values.
Context (f : fmt) (coders : list string) (items : dict (dict seg)) (HC : coded f coders items).
Notation Es := (jobs_of coders items ≫= entry2 (marks_of f) (room_of f)).

Lemma elem_of_jobs m n ic : (m, n, ic) ∈ jobs_of coders items -> (m, n) ∈ pairs2 coders /\ ic ∈ items.
Proof.
  unfold jobs_of. intros H. apply elem_of_list_bind in H as (p & H & Hp). apply elem_of_list_fmap in H as (jc & [= <- ->] & Hj). auto.
Qed.

Lemma mean_share_pi : (mean_share Es * mean_share Es == pi_chance f coders items)%Q.
Proof.
  unfold pi_chance. cbv zeta.
  assert (H : (mean_share Es == qsum (gather (fun m n ic => portion f m n ic + portion f n m ic) coders items) / inject_Z (2 * zlen (comparisons coders items)))%Q);
    [|rewrite H; reflexivity].
  unfold mean_share, gather, comparisons. rewrite two_of_pairs2. fold (jobs_of coders items).
  assert (HJ : forall m n ic, (m, n, ic) ∈ jobs_of coders items -> room_of f m n ic = room (coding f n ic) (coding f m ic)).
  { intros m n ic Hj. apply elem_of_jobs in Hj as [Hp Hic]. apply pairs2_distinct in Hp as (Hm & Hn & _); [|apply HC].
    unfold room_of. apply room_sym. apply (coded_len _ _ _ HC); assumption. }
  assert (G : (qsum (ratio <$> Es.*2) == qsum ((fun '((m, n), ic) => portion f m n ic + portion f n m ic)%Q <$> jobs_of coders items))%Q /\
    zlen Es = 2 * zlen (jobs_of coders items)).
  { induction (jobs_of coders items) as [|[[m n] ic] J IH]; [split; reflexivity|].
    destruct IH as [I1 I2]; [intros m' n' ic' Hj; apply HJ; right; exact Hj|]. cbn [mbind list_bind entry2 app] in *.
    change (list_bind _ _ ?g J) with (J ≫= g) in *. split.
    - rewrite !fmap_cons, !qsum_cons, I1. cbn [snd]. unfold portion. rewrite <- (HJ m n ic) by left. unfold ratio, marks_of, room_of. cbn [fst snd]. ring.
    - unfold zlen in *. cbn [length]. lia. }
  destruct G as [-> ->]. reflexivity.
Qed.

Lemma entries_coder c rest : coders ≡ₚ c :: rest ->
  (filter (fun e => fst e = c) Es).*2 ≡ₚ rest ≫= fun d => (fun ic => (marks_of f c ic, room_of f c d ic)) <$> items.
Proof.
  intros HP. assert (Hnd : NoDup (c :: rest)) by (rewrite <- HP; apply HC). apply NoDup_cons in Hnd as [Hc Hnd].
  rewrite entries_spread. rewrite (spread_perm _ coders (c :: rest) items items HP ltac:(reflexivity)).
  2: { intros m n jc Hm Hn Hj. unfold room_of. rewrite (room_sym (coding f m jc)) by (apply (coded_len _ _ _ HC); assumption). apply perm_swap. }
  rewrite spread_cons. cbn [pairs2]. rewrite bind_app, filter_app, fmap_app.
  set (g := fun m n ic => [(m, (marks_of f m ic, room_of f m n ic)); (n, (marks_of f n ic, room_of f m n ic))]).
  assert (N : forall m n, m <> c -> n <> c -> filter (fun e : string * (Z * Z) => e.1 = c) (items ≫= g m n) = []).
  { subst g. clear -c. intros m n H1 H2. induction items as [|ic l IH]; [reflexivity|]. cbn [mbind list_bind app] in *.
    change (list_bind _ _ ?g l) with (l ≫= g) in *. rewrite !filter_cons. cbn [fst]. rewrite !decide_False by assumption. exact IH. }
  assert (M : forall d, d <> c -> (filter (fun e : string * (Z * Z) => e.1 = c) (items ≫= g c d)).*2 = (fun ic => (marks_of f c ic, room_of f c d ic)) <$> items).
  { subst g. clear -c. intros d Hd. induction items as [|ic l IH]; [reflexivity|]. cbn [mbind list_bind app] in *. change (list_bind _ _ ?g l) with (l ≫= g) in *.
    rewrite !filter_cons. cbn [fst]. rewrite decide_True by reflexivity. rewrite decide_False by exact Hd. rewrite !fmap_cons. cbn [snd]. f_equal. exact IH. }
  change ((filter (fun e => e.1 = c) (((fun y => (c, y)) <$> rest) ≫= (fun p => items ≫= g p.1 p.2))).*2 ++
    (filter (fun e => e.1 = c) (pairs2 rest ≫= (fun p => items ≫= g p.1 p.2))).*2 ≡ₚ
    rest ≫= (fun d => (fun ic => (marks_of f c ic, room_of f c d ic)) <$> items)). clearbody g.
  assert ((filter (fun e => e.1 = c) (pairs2 rest ≫= (fun p => items ≫= g p.1 p.2))).*2 = []) as ->.
  { assert (H : forall m n, (m, n) ∈ pairs2 rest -> m <> c /\ n <> c).
    { intros m n Hp. apply elem_of_pairs2 in Hp as (i & j & _ & Hi & Hj). apply elem_of_list_lookup_2 in Hi, Hj. split; intros ->; contradiction. }
    induction (pairs2 rest) as [|[m n] P IH]; [reflexivity|]. destruct (H m n ltac:(left)) as [H1 H2].
    rewrite bind_cons, filter_app, fmap_app. cbn [fst snd]. rewrite (N m n H1 H2). apply IH. intros m' n' Hp. apply H. right. exact Hp. }
  rewrite app_nil_r, fmap_bind. apply reflexive_eq. clear HP Hnd HC N. induction rest as [|d rest IH]; [reflexivity|].
  assert (Hd : d <> c) by (intros ->; apply Hc; left). rewrite !bind_cons, filter_app, fmap_app. cbn [compose fst snd].
  rewrite (M d Hd). f_equal. apply IH. intros C. apply Hc. right. exact C.
Qed.

Lemma zsum_app (l l' : list Z) : zsum (l ++ l') = zsum l + zsum l'.
Proof. unfold zsum. induction l; cbn [foldr app]; lia. Qed.

Lemma pooled_part c : c ∈ coders -> ratio (cpool Es c) = pooled_portion f coders items c.
Proof.
  intros Hc. apply elem_of_Permutation in Hc as [rest HP].
  assert (HF : filter (fun d => d <> c) coders ≡ₚ rest).
  { rewrite HP, filter_cons. rewrite decide_False by (intros H; apply H; reflexivity).
    assert (Hn : c ∉ rest) by (pose proof (coded_coders _ _ _ HC) as Hnd; rewrite HP in Hnd; apply NoDup_cons in Hnd; apply Hnd).
    clear -Hn. induction rest as [|d rest IH]; [reflexivity|]. rewrite filter_cons. rewrite decide_True by (intros ->; apply Hn; left).
    rewrite IH by (intros C; apply Hn; right; exact C). reflexivity. }
  unfold cpool. rewrite (pool_perm _ _ (entries_coder c rest HP)). unfold pooled_portion, ratio, pool. cbv zeta. cbn [fst snd]. apply f_equal2; [|]; apply f_equal.
  - replace (zlen (filter (fun d => d <> c) coders)) with (zlen rest) by (unfold zlen; rewrite HF; reflexivity).
    clear. induction rest as [|d rest IH]; [reflexivity|]. rewrite bind_cons, fmap_app, zsum_app, IH.
    rewrite <- list_fmap_compose. unfold zlen. cbn [length].
    replace (zsum ((fst ∘ (fun ic => (marks_of f c ic, room_of f c d ic))) <$> items)) with (zsum ((fun ic => marks (coding f c ic)) <$> items)) by reflexivity. lia.
  - rewrite (zsum_perm _ _ (bind_perm_l _ _ _ HF)). f_equal. clear. induction rest as [|d rest IH]; [reflexivity|].
    rewrite !bind_cons, fmap_app, IH. f_equal. rewrite <- list_fmap_compose. reflexivity.
Qed.

Lemma mean_product_kappa : (mean_product coders Es == kappa_chance f coders items)%Q.
Proof.
  unfold mean_product, kappa_chance. rewrite two_of_pairs2. apply Qmult_comp; [|reflexivity]. apply qsum_fmap_ext. intros [m n] Hp. cbn [fst snd].
  apply pairs2_distinct in Hp as (Hm & Hn & _); [|apply HC]. rewrite !pooled_part by assumption. reflexivity.
Qed.

End Values.

Lemma corrected_beyond a e w : chance_corrected exactA (NDec a) (NDec (Qred e)) = Ok w -> exists v, w = NDec v /\ (v == beyond a e)%Q /\ ~ (e == 1)%Q.
Proof.
  unfold chance_corrected. cbn [nsub num2 bind ndiv]. destruct (qzero (rd exactA (1 - Qred e))) eqn:HZ; [destruct (qzero _); discriminate|].
  intros [= <-]. eexists. split; [reflexivity|]. split; [cbn [rd exactA]; rewrite !Qred_correct; reflexivity|].
  intros H1. apply not_true_iff_false in HZ. apply HZ. unfold qzero. cbn [rd exactA]. rewrite Qeq_bool_iff, !Qred_correct. lra.
Qed.

Section Public.
Context (E : env) (n_t : Z) (f : fmt) (cord : gset string -> list string) (c : container) (cmp : Agreement.compare).
Context (HE : env_ok E) (Hn : n_t <> 0) (HC : coded (c_format c f) (cord (c_coders c)) (c_items c)) (HF : full (cord (c_coders c)) (c_items c))
  (Hcmp : comparison exactA E n_t (cached (c_format c f) (cord (c_coders c)) (c_items c)) cmp)
  (HM : ~ all_gaps_marked (c_format c f) (cord (c_coders c)) (c_items c)).
Notation F := (c_format c f).
Notation coders := (cord (c_coders c)).
Notation items := (c_items c).
Notation Es := (jobs_of coders items ≫= entry2 (marks_of F) (room_of F)).

Theorem pi_kappa_values : exists a p k v w b,
  actual_agreement_linear exactA cmp f cord c = Ok (NDec a) /\
  fleiss_pi_linear exactA cmp f cord true c = Ok (GParts (NDec a) (NDec p)) /\
  fleiss_kappa_linear exactA cmp f cord true c = Ok (GParts (NDec a) (NDec k)) /\
  artstein_poesio_bias_linear exactA cmp f cord true c = Ok (GParts (NDec p) (NDec k)) /\
  fleiss_pi_linear exactA cmp f cord false c = Ok (GVal (NDec v)) /\
  fleiss_kappa_linear exactA cmp f cord false c = Ok (GVal (NDec w)) /\
  artstein_poesio_bias_linear exactA cmp f cord false c = Ok (GVal (NDec b)) /\
  (0 <= p < 1 /\ 0 <= k < 1 /\ p == pi_chance F coders items /\ k == kappa_chance F coders items /\
   v == beyond a p /\ w == beyond a k /\ b == p - k)%Q.
Proof.
  destruct (corrected_returns E n_t f cord false c cmp HE Hn HC HF Hcmp HM) as [[g1 H1] [g2 H2]].
  exists (exact_Aa F coders items cmp), (Qred (mean_share Es * mean_share Es)), (Qred (mean_product coders Es)).
  unfold fleiss_pi_linear, fleiss_kappa_linear, artstein_poesio_bias_linear, bias_full in *.
  pose proof (counts_equal _ _ (coded_items _ _ _ HC) HF) as C1. pose proof (counts_two _ _ (coded_two _ _ _ HC) HF) as C2.
  rewrite pi_is in *. rewrite kappa_is in *. rewrite C1, C2 in *.
  rewrite (pi_exact E n_t _ _ _ cmp HE Hn HC Hcmp) in *. rewrite (kappa_exact E n_t _ _ _ cmp HE Hn HC Hcmp) in *. cbv zeta in *.
  destruct (chance_corrected exactA (NDec (exact_Aa F coders items cmp)) (NDec (Qred (mean_share Es * mean_share Es)))) as [w1|] eqn:E1; [|discriminate].
  destruct (chance_corrected exactA (NDec (exact_Aa F coders items cmp)) (NDec (Qred (mean_product coders Es)))) as [w2|] eqn:E2; [|discriminate].
  apply corrected_beyond in E1 as (v & -> & Hv & N1). apply corrected_beyond in E2 as (w & -> & Hw & N2).
  exists v, w. eexists. split; [apply (actual_value E n_t _ _ _ cmp HE Hn HC Hcmp)|].
  do 6 (split; [reflexivity|]). unfold beyond in *. cbn [rd exactA]. rewrite !Qred_correct. rewrite Hv, Hw, mean_share_pi, mean_product_kappa by exact HC.
  rewrite mean_share_pi in N1 by exact HC. rewrite mean_product_kappa in N2 by exact HC.
  pose proof (entries_share F coders items HC) as HS. pose proof (entries_keys F coders items HC) as HK.
  destruct (mean_share_range Es HS (entries_nonempty F coders items HC)) as [R1 R2].
  destruct (mean_product_range coders Es (coded_coders _ _ _ HC) HK HS (coded_two _ _ _ HC)) as [R3 R4].
  rewrite mean_product_kappa in R3, R4 by exact HC. assert (R5 : (0 <= pi_chance F coders items <= 1)%Q) by (rewrite <- mean_share_pi by exact HC; nra).
  repeat split; try reflexivity; try lra.
Qed.
End Public.

Lemma beyond_antitone a p k : (a < 1)%Q -> (p < 1)%Q -> (k < 1)%Q -> (beyond a p <= beyond a k <-> k <= p)%Q.
Proof.
  intros Ha Hp Hk. unfold beyond.
  assert (H : forall e, (e < 1)%Q -> ((a - e) / (1 - e) == 1 - (1 - a) / (1 - e))%Q) by (intros e He; field; lra).
  rewrite (H p Hp), (H k Hk). clear H.
  assert (H : forall e e', (e < 1)%Q -> (e' < 1)%Q -> (e <= e')%Q -> ((1 - a) / (1 - e) <= (1 - a) / (1 - e'))%Q).
  { intros e e' He He' Hee. apply Qle_shift_div_r; [lra|]. setoid_replace ((1 - a) / (1 - e') * (1 - e))%Q with ((1 - a) * ((1 - e) / (1 - e')))%Q by (field; lra).
    assert (1 <= (1 - e) / (1 - e'))%Q by (apply Qle_shift_div_l; lra). nra. }
  assert (H' : forall e e', (e < 1)%Q -> (e' < 1)%Q -> (e < e')%Q -> ((1 - a) / (1 - e) < (1 - a) / (1 - e'))%Q).
  { intros e e' He He' Hee. apply Qlt_shift_div_r; [lra|]. setoid_replace ((1 - a) / (1 - e') * (1 - e))%Q with ((1 - a) * ((1 - e) / (1 - e')))%Q by (field; lra).
    assert (1 < (1 - e) / (1 - e'))%Q by (apply Qlt_shift_div_l; lra). nra. }
  split; intros HL.
  - destruct (Qlt_le_dec p k) as [C|C]; [|exact C]. specialize (H' p k Hp Hk C). lra.
  - specialize (H k p Hk Hp HL). lra.
Qed.

Section Order.
Context (E : env) (n_t : Z) (f : fmt) (cord : gset string -> list string) (c : container) (cmp : Agreement.compare).
Context (HE : env_ok E) (Hn : n_t <> 0) (HC : coded (c_format c f) (cord (c_coders c)) (c_items c)) (HF : full (cord (c_coders c)) (c_items c))
  (Hcmp : comparison exactA E n_t (cached (c_format c f) (cord (c_coders c)) (c_items c)) cmp)
  (HU : ~ unanimous (c_format c f) (cord (c_coders c)) (c_items c)).

Lemma not_unanimous_unmarked : ~ all_gaps_marked (c_format c f) (cord (c_coders c)) (c_items c).
Proof using HU HC.
  intros H. apply HU. intros ic d d' Hic Hd Hd'. destruct (H ic Hic) as [U HUU].
  pose proof (coded_len _ _ _ HC ic d d' Hic Hd Hd') as HL.
  apply list_eq_same_length with (length (coding (c_format c f) d' ic)); [reflexivity|exact HL|].
  intros i x y _ Hx Hy. apply elem_of_list_lookup_2 in Hx, Hy. rewrite (HUU d x Hd Hx), (HUU d' y Hd' Hy). reflexivity.
Qed.

Theorem kappa_pi_order : exists v w b,
  fleiss_pi_linear exactA cmp f cord false c = Ok (GVal (NDec v)) /\
  fleiss_kappa_linear exactA cmp f cord false c = Ok (GVal (NDec w)) /\
  artstein_poesio_bias_linear exactA cmp f cord false c = Ok (GVal (NDec b)) /\ (v <= w <-> 0 <= b)%Q.
Proof.
  destruct (pi_kappa_values E n_t f cord c cmp HE Hn HC HF Hcmp not_unanimous_unmarked) as (a & p & k & v & w & b & Ha & _ & _ & _ & Hv & Hw & Hb & Rp & Rk & _ & _ & Ev & Ew & Eb).
  exists v, w, b. split; [exact Hv|]. split; [exact Hw|]. split; [exact Hb|]. rewrite Ev, Ew, Eb, beyond_antitone; [split; intros; lra| |apply Rp|apply Rk].
  destruct (actual_exact E n_t f cord c cmp HE Hn HC Hcmp) as (n & d & a' & _ & Ha' & _ & R & R1). rewrite Ha in Ha'. injection Ha' as <-.
  destruct (Qlt_le_dec a 1) as [|C]; [assumption|]. exfalso. apply HU, R1. lra.
Qed.

Theorem kappa_pi_one_item ic : lord_ok cord -> c_items c = [ic] -> exists v w,
  fleiss_pi_linear exactA cmp f cord false c = Ok (GVal (NDec v)) /\
  fleiss_kappa_linear exactA cmp f cord false c = Ok (GVal (NDec w)) /\ (v <= w)%Q.
Proof.
  intros HL Hit. destruct kappa_pi_order as (v & w & b & Hv & Hw & Hb & HO). exists v, w. split; [exact Hv|]. split; [exact Hw|]. apply HO.
  destruct (bias_not_negative E n_t f cord c cmp ic HE HL Hit Hcmp _ Hb) as (b' & [= <-] & R). exact R.
Qed.
End Order.

(** ** Two coders, one item, one type *)

Section Two.
Context (f : fmt) (m n : string) (ic : string * dict seg) (t : Z) (HC : coded f [m; n] [ic])
  (HT : forall c s, c ∈ [m; n] -> s ∈ coding f c ic -> s ⊆ {[t]}).

Lemma two_room : room (coding f m ic) (coding f n ic) = zlen (coding f m ic) /\ room (coding f n ic) (coding f m ic) = zlen (coding f m ic).
Proof.
  assert (Hne : m <> n) by (pose proof (coded_coders _ _ _ HC) as Hnd; apply NoDup_cons in Hnd as [Hnd _]; intros ->; apply Hnd; left).
  assert (Hm : m ∈ [m; n]) by left. assert (Hn : n ∈ [m; n]) by (right; left).
  assert (Hic : ic ∈ [ic]) by left. pose proof (coded_len _ _ _ HC ic m n Hic Hm Hn) as HL.
  assert (U : types_in (coding f m ic) (coding f n ic) = {[t]}).
  { destruct (coded_used _ _ _ HC ic m n Hic Hm Hn Hne) as [d Hd]. apply (elem_of_types (coding f m ic) (coding f n ic) d) in Hd.
    assert (HS : forall z, z ∈ types_in (coding f m ic) (coding f n ic) -> z = t).
    { intros z Hz. apply elem_of_union in Hz. rewrite !elem_of_union_list in Hz. destruct Hz as [(s & Hs & Hz)|(s & Hs & Hz)].
      - specialize (HT m s Hm Hs). set_solver.
      - specialize (HT n s Hn Hs). set_solver. }
    apply set_eq. intros z. rewrite elem_of_singleton. split; [apply HS|]. intros ->. rewrite <- (HS d Hd). exact Hd. }
  rewrite (room_sym (coding f n ic)) by congruence. unfold room. rewrite U, size_singleton. lia.
Qed.

Notation N := (inject_Z (zlen (coding f m ic))).
Notation K c := (inject_Z (marks (coding f c ic))).

Theorem two_chances : (pi_chance f [m; n] [ic] == ((K m + K n) / (2 * N)) * ((K m + K n) / (2 * N)) /\ kappa_chance f [m; n] [ic] == (K m / N) * (K n / N))%Q.
Proof.
  assert (Hne : m <> n) by (pose proof (coded_coders _ _ _ HC) as Hnd; apply NoDup_cons in Hnd as [Hnd _]; intros ->; apply Hnd; left).
  destruct two_room as [R1 R2].
  assert (0 < N)%Q as HN.
  { change 0%Q with (inject_Z 0). rewrite <- Zlt_Qlt, <- R1. apply room_pos; [apply (coded_len _ _ _ HC)|apply (coded_used _ _ _ HC)]; try assumption; repeat constructor. }
  split.
  - unfold pi_chance, gather, comparisons. cbv zeta. rewrite two_of_pairs2. cbn [pairs2 fmap list_fmap app mbind list_bind]. change (inject_Z (2 * zlen [(m, n, ic)])) with 2%Q.
    rewrite !qsum_cons, !qsum_nil. unfold portion. rewrite R1, R2. field. lra.
  - unfold kappa_chance. rewrite two_of_pairs2. cbn [pairs2 fmap list_fmap app]. rewrite !qsum_cons, !qsum_nil. unfold pooled_portion. cbv zeta.
    assert (filter (fun d => d <> m) [m; n] = [n]) as -> by (rewrite !filter_cons, filter_nil; rewrite decide_False by (intros C; apply C; reflexivity); rewrite decide_True by congruence; reflexivity).
    assert (filter (fun d => d <> n) [m; n] = [m]) as -> by (rewrite !filter_cons, filter_nil; rewrite decide_True by congruence; rewrite decide_False by (intros C; apply C; reflexivity); reflexivity).
    cbn [mbind list_bind fmap list_fmap app]. unfold zsum. cbn [foldr]. rewrite R1, R2.
    change (zlen [n]) with 1. change (zlen [m]) with 1. change (inject_Z (zlen [(m, n)])) with 1%Q. rewrite !Z.add_0_r, !Z.mul_1_l. field. lra.
Qed.
End Two.
