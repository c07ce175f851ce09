(** C85: longer transpositions never lower B and S of segmentations with one boundary type. *)
From Verif Require Import SpecAgreed FormatProofs Bed BedProofs BedSubs BedMain BedTheory BedMin SimStats SimProofs SimRound SimTheory SimMain BedError BedMetric Agreed.
From Coq Require Import Lqa.
Open Scope Z_scope.

Section Spans.
Context (E : env) (HE : env_ok E) (a b : bstring) (c : Z) (H1 : one_type a b c) (Hc : -5 <= c <= 256) (Hl : length a = length b)
  (n n' : Z) (Hn : 1 <= n <= n') (e e' : edits) (He : boundary_edit_distance E a b n = Ok e) (He' : boundary_edit_distance E a b n' = Ok e').

Let T := zlen (e_transp e).
Let T' := zlen (e_transp e').
Let D := Z.of_nat (ndiffs a b).

Lemma adds_of m ed : boundary_edit_distance E a b m = Ok ed -> e_sub ed = [] /\ zlen (e_add ed) = D - 2 * zlen (e_transp ed).
Proof.
  intros K. pose proof (one_subs_any E a b c m ed HE H1 Hc Hl K) as S0. split; [exact S0|].
  pose proof (bed_total E a b m ed HE (one_small a b c H1 Hc) Hl K) as B. rewrite S0 in B. unfold D, zlen. cbn [length] in B. lia.
Qed.

Lemma spans : T <= T' /\ spanned (e_transp e) <= (n - 1) * T /\ 0 <= spanned (e_transp e) /\ spanned (e_transp e') <= spanned (e_transp e) + (n' - 1) * (T' - T).
Proof.
  pose proof (bed_monotone E a b n n' e e' HE ltac:(lia) ltac:(lia) He He') as [l L].
  pose proof (tdist_bounds E a b n e HE Hl He) as B.
  pose proof (bed_transpositions E a b n' e' HE (one_small a b c H1 Hc) Hl He') as [V _].
  unfold T, T', zlen in *. rewrite L in *. rewrite app_length. unfold spanned in *. rewrite fmap_app, zsum_app.
  pose proof (zsum_bounds (fun t => Z.of_nat (t_end t) - Z.of_nat (t_start t)) l 0 (n' - 1)) as Q. unfold zlen in Q. specialize (Q ltac:(intros t K; destruct (V t); [set_solver|lia])).
  repeat split; try lia.
Qed.

Lemma costs sp : 0 < sp -> (edit_cost e' sp n' <= edit_cost e sp n - inject_Z (T' - T))%Q /\ (edit_cost e sp n <= inject_Z (edit_count e))%Q /\ edit_count e' = edit_count e - (T' - T).
Proof.
  intros Hs. destruct (adds_of n e He) as [S0 A0], (adds_of n' e' He') as [S1 A1]. destruct spans as (B1 & B2 & B3 & B4). fold T in A0. fold T' in A1.
  unfold edit_cost, edit_count. rewrite S0, S1, A0, A1. fold T T'. change (distance []) with 0. change (zlen (@nil (Z * Z))) with 0.
  assert (T0 : 0 <= T) by (unfold T, zlen; lia). set (s := spanned (e_transp e)) in *. set (s' := spanned (e_transp e')) in *. clearbody s s' T T' D.
  assert (0 < inject_Z n)%Q as N1 by (change 0%Q with (inject_Z 0); rewrite <- Zlt_Qlt; lia).
  assert (0 < inject_Z n')%Q as N2 by (change 0%Q with (inject_Z 0); rewrite <- Zlt_Qlt; lia).
  assert (K1 : (inject_Z s' / inject_Z n' <= inject_Z s / inject_Z n + inject_Z (T' - T))%Q).
  { apply (Qle_trans _ (inject_Z s / inject_Z n' + inject_Z (T' - T))%Q).
    - apply Qle_shift_div_r; [exact N2|]. setoid_replace ((inject_Z s / inject_Z n' + inject_Z (T' - T)) * inject_Z n')%Q with (inject_Z s + inject_Z (T' - T) * inject_Z n')%Q by (field; lra).
      rewrite <- inject_Z_mult, <- inject_Z_plus, <- Zle_Qle. nia.
    - apply Qplus_le_compat; [|apply Qle_refl]. apply Qle_shift_div_l; [exact N1|]. setoid_replace (inject_Z s / inject_Z n' * inject_Z n)%Q with ((inject_Z s * inject_Z n) / inject_Z n')%Q by (field; lra).
      apply Qle_shift_div_r; [exact N2|]. rewrite <- !inject_Z_mult, <- Zle_Qle. nia. }
  assert (K2 : (inject_Z s / inject_Z n <= inject_Z T)%Q).
  { apply Qle_shift_div_r; [exact N1|]. rewrite <- inject_Z_mult, <- Zle_Qle. nia. }
  assert (Z0 : (inject_Z 0 / inject_Z sp == 0)%Q) by (unfold Qdiv; apply Qmult_0_l). rewrite Z0. split; [|split; [|lia]].
  - unfold Zminus in *. rewrite !inject_Z_plus, !inject_Z_opp, !inject_Z_mult in *. change (inject_Z 2) with 2%Q. lra.
  - unfold Zminus in *. rewrite !inject_Z_plus, !inject_Z_opp, !inject_Z_mult in *. change (inject_Z 2) with 2%Q in *. change (inject_Z 0) with 0%Q. lra.
Qed.
End Spans.

Theorem B_spans E f n n' c sa sb x y : env_ok E -> 1 <= n <= n' -> -5 <= c <= 256 -> to_bstrings f sa sb = Ok (x, y) -> one_type x y c -> (exists d, used x y d) ->
  exists v v', B_is E f n sa sb v /\ B_is E f n' sa sb v' /\ (v <= v')%Q.
Proof.
  intros HE Hn Hc Hb H1 U. pose proof (to_bstrings_length _ _ _ _ _ Hb) as Hl. pose proof (used_extent c x y H1 U) as X.
  destruct (bed_returns E x y n HE ltac:(lia)) as [e He]. destruct (bed_returns E x y n' HE ltac:(lia)) as [e' He'].
  destruct (values E f n sa sb x y HE ltac:(lia) Hb c c e X He) as [V _]. destruct (values E f n' sa sb x y HE ltac:(lia) Hb c c e' X He') as [V' _].
  eexists _, _. split; [exact V|]. split; [exact V'|]. clear V V'.
  pose proof (denominator_pos E x y n e HE Hl He U) as D. pose proof (denominator_pos E x y n' e' HE Hl He' U) as D'.
  destruct (costs E HE x y c H1 Hc Hl n n' Hn e e' He He' (c - c + 1) ltac:(lia)) as (K1 & K2 & K3).
  destruct (spans E HE x y c H1 Hc Hl n n' Hn e e' He He') as (K4 & _).
  set (q := edit_cost e (c - c + 1) n) in *. set (q' := edit_cost e' (c - c + 1) n') in *. clearbody q q'.
  set (t := zlen (e_transp e') - zlen (e_transp e)) in *. rewrite K3 in *. set (k := edit_count e) in *. set (m := Z.of_nat (nmatches x y)) in *.
  assert (0 <= m) by lia. assert (0 <= t) by lia. clearbody m t k.
  assert (0 < inject_Z (k + m))%Q as Q1 by (change 0%Q with (inject_Z 0); rewrite <- Zlt_Qlt; exact D).
  assert (0 < inject_Z (k - t + m))%Q as Q2 by (change 0%Q with (inject_Z 0); rewrite <- Zlt_Qlt; exact D').
  assert (0 <= inject_Z t)%Q as Q3 by (change 0%Q with (inject_Z 0); rewrite <- Zle_Qle; assumption).
  assert (inject_Z k <= inject_Z (k + m))%Q as Q4 by (rewrite <- Zle_Qle; lia).
  assert (inject_Z (k - t + m) == inject_Z (k + m) - inject_Z t)%Q as Q5 by (unfold Zminus; rewrite !inject_Z_plus, inject_Z_opp; ring).
  assert (K : (q' / inject_Z (k - t + m) <= q / inject_Z (k + m))%Q); [|lra].
  apply Qle_shift_div_l; [exact Q1|]. setoid_replace (q' / inject_Z (k - t + m) * inject_Z (k + m))%Q with ((q' * inject_Z (k + m)) / inject_Z (k - t + m))%Q by (field; lra).
  apply Qle_shift_div_r; [exact Q2|]. rewrite Q5. set (N := inject_Z (k + m)) in *. set (tt := inject_Z t) in *.
  assert (L1 : (q' * N <= (q - tt) * N)%Q) by (apply Qmult_le_compat_r; lra).
  assert (L2 : (q * tt <= N * tt)%Q) by (apply Qmult_le_compat_r; lra). lra.
Qed.

Theorem S_spans E f n n' c sa sb x y : env_ok E -> 1 <= n <= n' -> -5 <= c <= 256 -> to_bstrings f sa sb = Ok (x, y) -> one_type x y c -> (exists d, used x y d) ->
  exists v v', S_is E f n sa sb v /\ S_is E f n' sa sb v' /\ (v <= v')%Q.
Proof.
  intros HE Hn Hc Hb H1 U. pose proof (to_bstrings_length _ _ _ _ _ Hb) as Hl. pose proof (used_extent c x y H1 U) as X.
  destruct (bed_returns E x y n HE ltac:(lia)) as [e He]. destruct (bed_returns E x y n' HE ltac:(lia)) as [e' He'].
  destruct (values E f n sa sb x y HE ltac:(lia) Hb c c e X He) as [_ V]. destruct (values E f n' sa sb x y HE ltac:(lia) Hb c c e' X He') as [_ V'].
  eexists _, _. split; [exact V|]. split; [exact V'|]. clear V V'.
  pose proof (types_size_pos _ _ _ _ X) as P1. pose proof (gaps_pos _ _ _ _ Hl X) as P2.
  destruct (costs E HE x y c H1 Hc Hl n n' Hn e e' He He' (c - c + 1) ltac:(lia)) as (K1 & _).
  destruct (spans E HE x y c H1 Hc Hl n n' Hn e e' He He') as (K4 & _).
  assert (0 <= inject_Z (zlen (e_transp e') - zlen (e_transp e)))%Q as Q3 by (change 0%Q with (inject_Z 0); rewrite <- Zle_Qle; lia).
  set (d := zlen x * zsize (identify_types x y) * zsize (identify_types x y)). assert (0 < d) as Hd by (unfold d, zlen, zsize; nia).
  assert (0 < inject_Z d)%Q as Q1 by (change 0%Q with (inject_Z 0); rewrite <- Zlt_Qlt; exact Hd).
  apply Qplus_le_compat; [apply Qle_refl|]. apply Qopp_le_compat. unfold Qdiv. apply Qmult_le_compat_r; [lra|]. apply Qlt_le_weak, Qinv_lt_0_compat. exact Q1.
Qed.
