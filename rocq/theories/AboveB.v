(** Agreement by S is at least agreement by B. *)
From Coq Require Import Lqa.
From stdpp Require Import gmap.
From Verif Require Import SimProofs SpecAgreement SpecML SpecDispatch SpecSim SpecValue Spec Agreement DictProofs DispatchProofs MLSums AgreementProofs AgreementExact AgreementMain AgreementPublic AgreementValue Round RoundProofs SimTheory SimMain SimSym Pooled.
Open Scope Z_scope.

(** The two metrics subtract the same cost from different numbers. *)
Lemma same_cost E f n_t sa sb x y : env_ok E -> to_bstrings f sa sb = Ok (x, y) -> (exists d, used x y d) -> n_t <> 0 -> small_types x y ->
  exists k p q dB dS e, (forall om, boundary_similarity exactA E (default_weights exactA) f n_t om true sa sb = Ok (BParts (NDec p) (NInt dB) e)) /\
    (forall om, segmentation_similarity exactA E (default_weights exactA) f n_t om true sa sb = Ok (SParts (NDec q) (NInt dS))) /\
    (p == inject_Z dB - k)%Q /\ (q == inject_Z dS - k)%Q /\ (0 <= k)%Q /\ 0 < dB /\ dB <= dS.
Proof.
  intros HE Hb Hu Hn Hs. destruct (setup E f n_t sa sb x y HE Hb Hu) as (e & lo & hi & He & Hx).
  pose proof (den_le E f n_t sa sb x y HE Hb Hu e Hs He) as HD.
  assert (Hd : 0 < edit_count e + Z.of_nat (nmatches x y)) by (eapply d_pos; eassumption).
  destruct (B_exact E f n_t sa sb x y HE Hb Hu Hn) as (v & Hv & _ & Hv1 & _).
  rewrite (B_eq _ E f n_t sa sb x y lo hi e) in Hv by assumption. cbn zeta iota in Hv. injection Hv as Hv.
  set (d := edit_count e + Z.of_nat (nmatches x y)) in *. set (k := dcount exactA e (hi - lo + 1) n_t) in *.
  exists k. do 4 eexists. exists e. split; [intros om; rewrite (B_eq _ E f n_t sa sb x y lo hi e) by assumption; reflexivity|].
  split; [intros om; rewrite (S_eq _ E f n_t sa sb x y lo hi e) by assumption; reflexivity|]. fold d k.
  split; [apply Qred_correct|]. split; [apply Qred_correct|]. split; [|split; [exact Hd|exact HD]].
  assert (P : (0 < inject_Z d)%Q) by (rewrite <- (Zlt_Qlt 0); exact Hd).
  assert (Q1 : (v == (inject_Z d - k) / inject_Z d)%Q).
  { rewrite <- Hv. unfold k, dcount. cbn [rd exactA]. rewrite !Qred_correct. reflexivity. }
  rewrite Q1 in Hv1. apply (Qmult_le_compat_r _ _ (inject_Z d)) in Hv1; [|lra].
  assert (Q2 : ((inject_Z d - k) / inject_Z d * inject_Z d == inject_Z d - k)%Q) by (field; intros K; rewrite K in P; discriminate P).
  rewrite Q2 in Hv1. lra.
Qed.

Section above.
Context (E : env) (n_t : Z) (f : fmt) (cord : gset string -> list string) (c : container).
Context (HE : env_ok E) (Hn : n_t <> 0).
Let F := c_format c f.
Let coders := cord (c_coders c).
Let items := c_items c.
Context (HC : coded F coders items) (HF : cached F coders items).
Notation XB om := (compare_B exactA E (default_weights exactA) n_t om).
Notation XS om := (compare_S exactA E (default_weights exactA) n_t om).

Lemma actual_above om om' : exists v w, actual_agreement_linear exactA (XB om) f cord c = Ok (NDec v) /\
  actual_agreement_linear exactA (XS om') f cord c = Ok (NDec w) /\ (v <= w)%Q.
Proof.
  destruct (actual_exact E n_t f cord c (XB om) HE Hn HC (by_B _ _ _ _ om)) as (nB & dB & v & HB & Ha & Hv & _).
  destruct (actual_exact E n_t f cord c (XS om') HE Hn HC (by_S _ _ _ _ om' HF)) as (nS & dS & w & HS & Hb & Hw & _).
  exists v, w. split; [exact Ha|]. split; [exact Hb|].
  assert (K : forall m n ic, ((m, n), ic) ∈ comparisons coders items -> exists k, (nB m n ic == inject_Z (dB m n ic) - k)%Q /\ (nS m n ic == inject_Z (dS m n ic) - k)%Q /\ (0 <= k)%Q /\ 0 < dB m n ic /\ dB m n ic <= dS m n ic).
  { intros m n ic H. assert (H' : (m, n) ∈ two_of coders /\ ic ∈ items).
    { unfold comparisons in H. rewrite two_of_pairs2 in H |- *. apply (elem_of_jobs_of coders items) in H. exact H. }
    destruct H' as [Hmn Hic]. destruct (HB m n ic Hmn Hic) as (sa & sb & Hsa & Hsb & CB & P). destruct (HS m n ic Hmn Hic) as (sa' & sb' & Hsa' & Hsb' & CS & _).
    assert (sa' = sa) by congruence. assert (sb' = sb) by congruence. subst sa' sb'.
    rewrite two_of_pairs2 in Hmn. apply pairs2_distinct in Hmn as (K1 & K2 & K3); [|exact (coded_coders _ _ _ HC)].
    destruct (strings f cord c HC HF m n ic sa sb Hic K1 K2 K3 Hsa Hsb) as (x & y & Hx & Hy & L1 & L2 & Hxy & Hu & Hs).
    destruct (same_cost E _ n_t sa sb x y HE Hxy Hu Hn Hs) as (k & p & q & d & D & e & PB & PS & E1 & E2 & Hk & Hd & HD).
    exists k. unfold compare_B, compare_S, compare_of in CB, CS. rewrite (proj2 (Z.eqb_neq _ _) L1), (proj2 (Z.eqb_neq _ _) L2) in CB, CS. cbn [negb andb] in CB, CS.
    rewrite PB in CB. rewrite PS in CS. cbn [bind] in CB, CS. injection CB as <- <-. injection CS as <- <-. auto. }
  assert (Hne : comparisons coders items <> []).
  { pose proof (coded_two _ _ _ HC) as H2. pose proof (coded_items _ _ _ HC) as Hne. unfold comparisons. rewrite two_of_pairs2.
    fold coders in H2. destruct coders as [|c1 [|c2 rest]]; [cbn in H2; lia|cbn in H2; lia|]. fold items in Hne. destruct items as [|ic rest']; [contradiction|]. discriminate. }
  rewrite Hv, Hw. unfold gather. fold F coders items. set (J := comparisons coders items) in *.
  assert (S : exists k, (qsum ((fun '((m, n), ic) => nB m n ic) <$> J) == inject_Z (zsum ((fun '((m, n), ic) => dB m n ic) <$> J)) - k)%Q /\
    (qsum ((fun '((m, n), ic) => nS m n ic) <$> J) == inject_Z (zsum ((fun '((m, n), ic) => dS m n ic) <$> J)) - k)%Q /\ (0 <= k)%Q /\
    zsum ((fun '((m, n), ic) => dB m n ic) <$> J) <= zsum ((fun '((m, n), ic) => dS m n ic) <$> J)).
  { clear Hne Hv Hw. clearbody J. induction J as [|[[m n] ic] J IH]; [exists 0%Q; cbn; repeat split; try lra; lia|].
    destruct IH as (k & I1 & I2 & I3 & I4); [intros; apply K; right; assumption|].
    destruct (K m n ic ltac:(left)) as (k' & K1 & K2 & K3 & K4 & K5). exists (k' + k)%Q. rewrite !fmap_cons, !qsum_cons, I1, I2, K1, K2. unfold zsum in *. cbn [foldr]. rewrite !inject_Z_plus.
    repeat split; try lra. lia. }
  assert (P : 0 < zsum ((fun '((m, n), ic) => dB m n ic) <$> J)).
  { apply Pooled.zsum_pos; [exact Hne|]. intros [[m n] ic] H. destruct (K m n ic H) as (? & _ & _ & _ & Hp & _). exact Hp. }
  destruct S as (k & S1 & S2 & S3 & S4). rewrite S1, S2.
  set (a := zsum ((fun '((m, n), ic) => dB m n ic) <$> J)) in *. set (b := zsum ((fun '((m, n), ic) => dS m n ic) <$> J)) in *.
  assert (Pa : (0 < inject_Z a)%Q) by (rewrite <- (Zlt_Qlt 0); exact P). assert (Pb : (inject_Z a <= inject_Z b)%Q) by (rewrite <- Zle_Qle; exact S4).
  apply Qle_shift_div_l; [lra|].
  assert (X : ((inject_Z a - k) / inject_Z a * inject_Z b == inject_Z b - k * (inject_Z b / inject_Z a))%Q) by (field; intros Z; rewrite Z in Pa; discriminate Pa).
  rewrite X. assert (Y : (1 <= inject_Z b / inject_Z a)%Q) by (apply Qle_shift_div_l; lra).
  set (t := (inject_Z b / inject_Z a)%Q) in *. assert (Z : (k * 1 <= k * t)%Q) by (rewrite !(Qmult_comm k); apply Qmult_le_compat_r; assumption). lra.
Qed.

Lemma beyond_mono a a' e : (e < 1)%Q -> (a <= a')%Q -> (SpecValue.beyond a e <= SpecValue.beyond a' e)%Q.
Proof.
  intros He Ha. unfold SpecValue.beyond. unfold Qdiv. apply Qmult_le_compat_r; [lra|]. apply Qlt_le_weak, Qinv_lt_0_compat. lra.
Qed.
End above.

Theorem coefficients_above E n_t f cord c om om' : env_ok E -> n_t <> 0 ->
  coded (c_format c f) (cord (c_coders c)) (c_items c) -> full (cord (c_coders c)) (c_items c) -> cached (c_format c f) (cord (c_coders c)) (c_items c) ->
  ~ all_gaps_marked (c_format c f) (cord (c_coders c)) (c_items c) ->
  let XB := compare_B exactA E (default_weights exactA) n_t om in let XS := compare_S exactA E (default_weights exactA) n_t om' in
  exists p p' k k', fleiss_pi_linear exactA XB f cord false c = Ok (GVal (NDec p)) /\ fleiss_pi_linear exactA XS f cord false c = Ok (GVal (NDec p')) /\
    fleiss_kappa_linear exactA XB f cord false c = Ok (GVal (NDec k)) /\ fleiss_kappa_linear exactA XS f cord false c = Ok (GVal (NDec k')) /\
    (p <= p')%Q /\ (k <= k')%Q.
Proof.
  intros HE Hn HC HU HF HA XB XS. destruct (actual_above E n_t f cord c HE Hn HC HF om om') as (v & w & Hv & Hw & Hle).
  destruct (pi_kappa_values E n_t f cord c XB HE Hn HC HU (by_B _ _ _ _ om) HA) as (a & e & g & p & k & b & Ha & _ & _ & _ & Hp & Hk & _ & He & Hg & Ee & Eg & Ep & Ek & _).
  destruct (pi_kappa_values E n_t f cord c XS HE Hn HC HU (by_S _ _ _ _ om' HF) HA) as (a' & e' & g' & p' & k' & b' & Ha' & _ & _ & _ & Hp' & Hk' & _ & He' & Hg' & Ee' & Eg' & Ep' & Ek' & _).
  exists p, p', k, k'. do 4 (split; [assumption|]).
  assert (a = v) by (unfold XB in Ha; congruence). assert (a' = w) by (unfold XS in Ha'; congruence). subst a a'.
  assert (Q1 : (e == e')%Q) by (rewrite Ee, Ee'; reflexivity). assert (Q2 : (g == g')%Q) by (rewrite Eg, Eg'; reflexivity).
  rewrite Ep, Ep', Ek, Ek'. unfold SpecValue.beyond. rewrite Q1, Q2. split; apply beyond_mono; tauto.
Qed.

Theorem agreement_above E n_t f cord c om om' : env_ok E -> n_t <> 0 ->
  coded (c_format c f) (cord (c_coders c)) (c_items c) -> cached (c_format c f) (cord (c_coders c)) (c_items c) ->
  exists v w, actual_agreement_linear exactA (compare_B exactA E (default_weights exactA) n_t om) f cord c = Ok (NDec v) /\
    actual_agreement_linear exactA (compare_S exactA E (default_weights exactA) n_t om') f cord c = Ok (NDec w) /\ (v <= w)%Q.
Proof. intros HE Hn HC HF. apply actual_above; assumption. Qed.
