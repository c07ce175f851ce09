(** Distance properties of B and S: one boundary type, no transpositions. *)
From Verif Require Import SpecMetric FormatProofs Bed BedProofs BedSubs BedMain BedTheory BedMin SimStats SimProofs SimRound SimTheory SimMain.
From Coq Require Import Lqa.
Open Scope Z_scope.

Lemma one_subs_any E a b c n_t e : env_ok E -> one_type a b c -> -5 <= c <= 256 -> length a = length b -> boundary_edit_distance E a b n_t = Ok e -> e_sub e = [].
Proof.
  intros HE H1 Hc Hl Hb. rewrite bed_ok in Hb by (assumption || lia). injection Hb as <-. cbn [e_sub].
  apply nil_length_inv. rewrite length_join. apply sumn_zero_iff. intros i _. rewrite (one_subs_nil E a b c HE H1 Hc Hl). reflexivity.
Qed.

(** ** Venn diagrams *)

Lemma regions (c : Z) : forall x y z : list (gset Z), length x = length y -> length y = length z ->
  exists a b d ab bd ad abd : nat,
    (only_in x y c = a + ad /\ only_in y x c = b + bd /\ both_in x y c = ab + abd)%nat /\
    (only_in y z c = b + ab /\ only_in z y c = d + ad /\ both_in y z c = bd + abd)%nat /\
    (only_in x z c = a + ab /\ only_in z x c = d + bd /\ both_in x z c = ad + abd)%nat.
Proof.
  unfold only_in, both_in. induction x as [|s x IH]; intros [|t y] [|u z] H1 H2; try discriminate.
  - exists 0%nat, 0%nat, 0%nat, 0%nat, 0%nat, 0%nat, 0%nat. repeat split.
  - cbn [length] in H1, H2. destruct (IH y z ltac:(lia) ltac:(lia)) as (a & b & d & ab & bd & ad & abd & K). clear IH. cbn [zip zip_with]. rewrite !filter_cons. cbn [fst snd].
    exists (a + (if decide (c ∈ s /\ c ∉ t /\ c ∉ u) then 1 else 0))%nat, (b + (if decide (c ∉ s /\ c ∈ t /\ c ∉ u) then 1 else 0))%nat,
      (d + (if decide (c ∉ s /\ c ∉ t /\ c ∈ u) then 1 else 0))%nat, (ab + (if decide (c ∈ s /\ c ∈ t /\ c ∉ u) then 1 else 0))%nat,
      (bd + (if decide (c ∉ s /\ c ∈ t /\ c ∈ u) then 1 else 0))%nat, (ad + (if decide (c ∈ s /\ c ∉ t /\ c ∈ u) then 1 else 0))%nat,
      (abd + (if decide (c ∈ s /\ c ∈ t /\ c ∈ u) then 1 else 0))%nat.
    destruct (decide (c ∈ s)), (decide (c ∈ t)), (decide (c ∈ u));
      repeat (match goal with |- context [decide ?P] => first [rewrite (decide_True (P := P)) by tauto | rewrite (decide_False (P := P)) by tauto] end);
      cbn [length]; lia.
Qed.

Lemma size_one (s : gset Z) c : (forall d, d ∈ s -> d = c) -> size s = if decide (c ∈ s) then 1%nat else 0%nat.
Proof.
  intros H. case_decide as Hc.
  - replace s with ({[c]} : gset Z) by set_solver. apply size_singleton.
  - replace s with (∅ : gset Z) by set_solver. apply size_empty.
Qed.

Lemma one_type_cons s t x y c : one_type (s :: x) (t :: y) c -> one_type x y c /\ (forall d, d ∈ s -> d = c) /\ (forall d, d ∈ t -> d = c).
Proof.
  intros H. split; [|split]; unfold one_type in *.
  - intros u d Hu. apply H. rewrite !elem_of_cons. tauto.
  - intros d. apply H. left. constructor.
  - intros d. apply H. right. constructor.
Qed.

Lemma one_counts c : forall x y, one_type x y c -> length x = length y ->
  ndiffs x y = (only_in x y c + only_in y x c)%nat /\ nmatches x y = both_in x y c.
Proof.
  unfold ndiffs, nmatches, only_in, both_in. induction x as [|s x IH]; intros [|t y] H1 Hl; try discriminate; [split; reflexivity|].
  destruct (one_type_cons _ _ _ _ _ H1) as (H1' & Hs & Ht). destruct (IH y H1' ltac:(cbn in Hl; lia)) as [I1 I2]. clear IH.
  cbn [zip zip_with]. rewrite !filter_cons. cbn [fst snd]. cbn [sum_list sum_list_with id].
  rewrite (size_one (s ∖ t) c), (size_one (t ∖ s) c), (size_one (s ∩ t) c) by (intros d Hd; set_solver).
  destruct (decide (c ∈ s)), (decide (c ∈ t));
    repeat (match goal with |- context [decide ?P] => first [rewrite (decide_True (P := P)) by set_solver | rewrite (decide_False (P := P)) by set_solver] end);
    cbn [length]; lia.
Qed.

Lemma quot_adds e k sp n_t d : e_sub e = [] -> e_transp e = [] -> zlen (e_add e) = k -> 0 < d ->
  (quot exactA d (dcount exactA e sp n_t) == 1 - inject_Z k / inject_Z d)%Q.
Proof.
  intros Es Et Ea Hd. unfold quot, dcount. rewrite Es, Et, Ea. cbn [rd exactA]. rewrite !Qred_correct.
  change (inject_Z (distance [])) with 0%Q. change (inject_Z (spanned [])) with 0%Q.
  assert (0 < inject_Z d)%Q by (change 0%Q with (inject_Z 0); rewrite <- Zlt_Qlt; exact Hd).
  unfold Qdiv. rewrite !Qmult_0_l. field. lra.
Qed.

Section One.
Context (E : env) (f : fmt) (n_t c : Z) (HE : env_ok E) (Hn : n_t <= 1) (Hn0 : n_t <> 0) (Hc : -5 <= c <= 256).

Lemma one_edits x y e : one_type x y c -> length x = length y -> boundary_edit_distance E x y n_t = Ok e ->
  e_sub e = [] /\ e_transp e = [] /\ zlen (e_add e) = Z.of_nat (only_in x y c + only_in y x c).
Proof.
  intros H1 Hl He. pose proof (one_subs_any E x y c n_t e HE H1 Hc Hl He) as Hs.
  pose proof (bed_no_transposition E x y n_t e HE ltac:(lia) Hn He) as Ht.
  pose proof (bed_total E x y n_t e HE (one_small x y c H1 Hc) Hl He) as HT. rewrite Hs, Ht in HT. cbn [length] in HT.
  destruct (one_counts c x y H1 Hl) as [Hd _]. unfold zlen. split; [exact Hs|]. split; [exact Ht|]. lia.
Qed.

Lemma used_extent x y : one_type x y c -> (exists d, used x y d) -> extent x y c c.
Proof.
  intros H1 (d & i & Hd). assert (K : forall d, used x y d -> d = c).
  { intros d' (j & [(s & Hj & Hs)|(s & Hj & Hs)]); (apply (H1 s d'); [|exact Hs]); [left|right]; eapply elem_of_list_lookup_2; exact Hj. }
  assert (d = c) as -> by (apply K; exists i; exact Hd). split; [exists i; exact Hd|]. split; [exists i; exact Hd|].
  intros d' Hd'. rewrite (K d' Hd'). lia.
Qed.

Lemma B_one sa sb x y : to_bstrings f sa sb = Ok (x, y) -> one_type x y c -> (exists d, used x y d) ->
  exists v w, boundary_similarity exactA E (default_weights exactA) f n_t false false sa sb = Ok (BVal (NDec v)) /\
    boundary_similarity exactA E (default_weights exactA) f n_t true false sa sb = Ok (BVal (NDec w)) /\
    let u := Z.of_nat (both_in x y c + only_in x y c + only_in y x c) in
    0 < u /\ (v == inject_Z (Z.of_nat (both_in x y c)) / inject_Z u)%Q /\
    (w == inject_Z (Z.of_nat (only_in x y c + only_in y x c)) / inject_Z u)%Q.
Proof.
  intros Hb H1 Hu. pose proof (to_bstrings_length _ _ _ _ _ Hb) as Hl. pose proof (used_extent x y H1 Hu) as Hx.
  destruct (bed_returns E x y n_t HE ltac:(lia)) as [e He]. destruct (one_edits x y e H1 Hl He) as (Es & Et & Ea).
  pose proof (denominator_pos E x y n_t e HE Hl He Hu) as Hd.
  eexists _, _. rewrite !(B_eq _ E f n_t sa sb x y c c e) by assumption. cbn zeta iota. split; [reflexivity|]. split; [reflexivity|].
  destruct (one_counts c x y H1 Hl) as [_ Hm]. cbn [rd exactA]. rewrite !Qred_correct.
  rewrite !(quot_adds e _ _ _ _ Es Et Ea Hd). unfold edit_count in *. rewrite Hm, Es, Et, Ea in *. unfold zlen in *. cbn [length] in *.
  set (o := (only_in x y c + only_in y x c)%nat) in *.
  replace (Z.of_nat (both_in x y c + only_in x y c + only_in y x c)) with (Z.of_nat o + Z.of_nat (both_in x y c)) by lia.
  replace (Z.of_nat o + Z.of_nat 0 + Z.of_nat 0 + Z.of_nat (both_in x y c)) with (Z.of_nat o + Z.of_nat (both_in x y c)) in * by lia.
  split; [exact Hd|]. set (u := Z.of_nat o + Z.of_nat (both_in x y c)) in *.
  assert (0 < inject_Z u)%Q by (change 0%Q with (inject_Z 0); rewrite <- Zlt_Qlt; exact Hd).
  assert (inject_Z (Z.of_nat (both_in x y c)) == inject_Z u - inject_Z (Z.of_nat o))%Q as ->.
  { unfold u. rewrite inject_Z_plus. ring. }
  split; field; lra.
Qed.

Lemma S_one sa sb x y : to_bstrings f sa sb = Ok (x, y) -> one_type x y c -> (exists d, used x y d) ->
  exists v w, segmentation_similarity exactA E (default_weights exactA) f n_t false false sa sb = Ok (SVal (NDec v)) /\
    segmentation_similarity exactA E (default_weights exactA) f n_t true false sa sb = Ok (SVal (NDec w)) /\
    0 < zlen x /\ (v == 1 - inject_Z (Z.of_nat (only_in x y c + only_in y x c)) / inject_Z (zlen x))%Q /\
    (w == inject_Z (Z.of_nat (only_in x y c + only_in y x c)) / inject_Z (zlen x))%Q.
Proof.
  intros Hb H1 Hu. pose proof (to_bstrings_length _ _ _ _ _ Hb) as Hl. pose proof (used_extent x y H1 Hu) as Hx.
  destruct (bed_returns E x y n_t HE ltac:(lia)) as [e He]. destruct (one_edits x y e H1 Hl He) as (Es & Et & Ea).
  eexists _, _. rewrite !(S_eq _ E f n_t sa sb x y c c e) by assumption. cbn zeta iota. split; [reflexivity|]. split; [reflexivity|].
  assert (HT : identify_types x y = {[c]}).
  { apply set_eq. intros d. rewrite elem_of_types, elem_of_singleton. destruct Hx as (U1 & _ & U). split; [|intros ->; exact U1]. intros Hd. specialize (U d Hd). lia. }
  rewrite HT. unfold zsize. rewrite size_singleton. rewrite !Z.mul_1_r.
  assert (Hd : 0 < zlen x).
  { destruct Hx as ((i & [(s & Hi & _)|(s & Hi & _)]) & _); apply lookup_lt_Some in Hi; unfold zlen; lia. }
  split; [exact Hd|]. cbn [rd exactA]. rewrite !Qred_correct. rewrite !(quot_adds e _ _ _ _ Es Et Ea Hd). split; [reflexivity|]. ring.
Qed.
End One.

(** ** Triangle inequalities *)

Lemma inj_nat_nonneg n : (0 <= inject_Z (Z.of_nat n))%Q.
Proof. change 0%Q with (inject_Z 0). rewrite <- Zle_Qle. lia. Qed.

Lemma Qdiv_le_cross p q r s : (0 < q)%Q -> (0 < s)%Q -> (p * s <= r * q)%Q -> (p / q <= r / s)%Q.
Proof.
  intros Hq Hs H. apply Qle_shift_div_l; [exact Hs|]. setoid_replace (p / q * s)%Q with (p * s / q)%Q by (field; lra).
  apply Qle_shift_div_r; [exact Hq|exact H].
Qed.

(** The distance between finite sets, by the seven regions of their diagram. *)
Lemma venn (a b d ab bd ad abd : Q) : (0 <= a -> 0 <= b -> 0 <= d -> 0 <= ab -> 0 <= bd -> 0 <= ad -> 0 <= abd ->
  0 < a + ad + b + bd + ab + abd -> 0 < b + ab + d + ad + bd + abd -> 0 < a + ab + d + bd + ad + abd ->
  (a + ab + d + bd) / (a + ab + d + bd + ad + abd) <=
  (a + ad + b + bd) / (a + ad + b + bd + ab + abd) + (b + ab + d + ad) / (b + ab + d + ad + bd + abd))%Q.
Proof.
  intros Ha Hb Hd Hab Hbd Had Habd U1 U2 U3. set (T := (a + b + d + ab + bd + ad + abd)%Q). assert (0 < T)%Q by (unfold T; lra).
  assert ((a + ab + d + bd) / (a + ab + d + bd + ad + abd) <= (a + ab + d + bd + b) / T)%Q.
  { apply Qdiv_le_cross; [assumption..|]. unfold T. nra. }
  assert ((a + ad + b + bd) / T <= (a + ad + b + bd) / (a + ad + b + bd + ab + abd))%Q.
  { apply Qdiv_le_cross; [assumption..|]. unfold T. nra. }
  assert ((b + ab + d + ad) / T <= (b + ab + d + ad) / (b + ab + d + ad + bd + abd))%Q.
  { apply Qdiv_le_cross; [assumption..|]. unfold T. nra. }
  assert ((a + ab + d + bd + b) / T <= (a + ad + b + bd) / T + (b + ab + d + ad) / T)%Q.
  { setoid_replace ((a + ad + b + bd) / T + (b + ab + d + ad) / T)%Q with ((a + ad + b + bd + (b + ab + d + ad)) / T)%Q by (field; lra).
    apply Qdiv_le_cross; [assumption..|]. unfold T. nra. }
  lra.
Qed.

Section Triangle.
Context (E : env) (f : fmt) (n_t c : Z) (HE : env_ok E) (Hn : n_t <= 1) (Hn0 : n_t <> 0) (Hc : -5 <= c <= 256).
Context (sx sy sz : seg) (x y z : bstring) (Hxy : to_bstrings f sx sy = Ok (x, y)) (Hyz : to_bstrings f sy sz = Ok (y, z)) (Hxz : to_bstrings f sx sz = Ok (x, z)).
Context (Oxy : one_type x y c) (Oyz : one_type y z c) (Uxy : exists d, used x y d) (Uyz : exists d, used y z d) (Uxz : exists d, used x z d).

Let Oxz : one_type x z c.
Proof. intros s d [H|H] Hd; [apply (Oxy s d)|apply (Oyz s d)]; auto. Qed.

Lemma B_triangle : exists u v w, boundary_similarity exactA E (default_weights exactA) f n_t true false sx sy = Ok (BVal (NDec u)) /\
  boundary_similarity exactA E (default_weights exactA) f n_t true false sy sz = Ok (BVal (NDec v)) /\
  boundary_similarity exactA E (default_weights exactA) f n_t true false sx sz = Ok (BVal (NDec w)) /\ (w <= u + v)%Q.
Proof.
  destruct (B_one E f n_t c HE Hn Hn0 Hc sx sy x y Hxy Oxy Uxy) as (_ & u & _ & -> & P1 & _ & Eu).
  destruct (B_one E f n_t c HE Hn Hn0 Hc sy sz y z Hyz Oyz Uyz) as (_ & v & _ & -> & P2 & _ & Ev).
  destruct (B_one E f n_t c HE Hn Hn0 Hc sx sz x z Hxz Oxz Uxz) as (_ & w & _ & -> & P3 & _ & Ew).
  exists u, v, w. split; [reflexivity|]. split; [reflexivity|]. split; [reflexivity|]. rewrite Eu, Ev, Ew. clear Eu Ev Ew.
  pose proof (to_bstrings_length _ _ _ _ _ Hxy) as L1. pose proof (to_bstrings_length _ _ _ _ _ Hyz) as L2.
  destruct (regions c x y z L1 L2) as (a & b & d & ab & bd & ad & abd & (R1 & R2 & R3) & (R4 & R5 & R6) & R7 & R8 & R9).
  rewrite R1, R2, R3, R4, R5, R6, R7, R8, R9 in *.
  rewrite Zlt_Qlt in P1, P2, P3. change (inject_Z 0) with 0%Q in P1, P2, P3.
  rewrite !Nat2Z.inj_add, !inject_Z_plus in *.
  pose proof (venn _ _ _ _ _ _ _ (inj_nat_nonneg a) (inj_nat_nonneg b) (inj_nat_nonneg d) (inj_nat_nonneg ab) (inj_nat_nonneg bd) (inj_nat_nonneg ad) (inj_nat_nonneg abd)) as V.
  set (qa := inject_Z (Z.of_nat a)) in *.
  set (qb := inject_Z (Z.of_nat b)) in *.
  set (qd := inject_Z (Z.of_nat d)) in *.
  set (qab := inject_Z (Z.of_nat ab)) in *.
  set (qbd := inject_Z (Z.of_nat bd)) in *.
  set (qad := inject_Z (Z.of_nat ad)) in *.
  set (qabd := inject_Z (Z.of_nat abd)) in *.
  specialize (V ltac:(lra) ltac:(lra) ltac:(lra)).
  setoid_replace (qa + qab + (qd + qbd))%Q with (qa + qab + qd + qbd)%Q by ring.
  setoid_replace (qad + qabd + (qa + qab) + (qd + qbd))%Q with (qa + qab + qd + qbd + qad + qabd)%Q by ring.
  setoid_replace (qa + qad + (qb + qbd))%Q with (qa + qad + qb + qbd)%Q by ring.
  setoid_replace (qab + qabd + (qa + qad) + (qb + qbd))%Q with (qa + qad + qb + qbd + qab + qabd)%Q by ring.
  setoid_replace (qb + qab + (qd + qad))%Q with (qb + qab + qd + qad)%Q by ring.
  setoid_replace (qbd + qabd + (qb + qab) + (qd + qad))%Q with (qb + qab + qd + qad + qbd + qabd)%Q by ring.
  exact V.
Qed.

Lemma S_triangle : exists u v w, segmentation_similarity exactA E (default_weights exactA) f n_t true false sx sy = Ok (SVal (NDec u)) /\
  segmentation_similarity exactA E (default_weights exactA) f n_t true false sy sz = Ok (SVal (NDec v)) /\
  segmentation_similarity exactA E (default_weights exactA) f n_t true false sx sz = Ok (SVal (NDec w)) /\ (w <= u + v)%Q.
Proof.
  destruct (S_one E f n_t c HE Hn Hn0 Hc sx sy x y Hxy Oxy Uxy) as (_ & u & _ & -> & P1 & _ & Eu).
  destruct (S_one E f n_t c HE Hn Hn0 Hc sy sz y z Hyz Oyz Uyz) as (_ & v & _ & -> & P2 & _ & Ev).
  destruct (S_one E f n_t c HE Hn Hn0 Hc sx sz x z Hxz Oxz Uxz) as (_ & w & _ & -> & P3 & _ & Ew).
  exists u, v, w. split; [reflexivity|]. split; [reflexivity|]. split; [reflexivity|]. rewrite Eu, Ev, Ew. clear Eu Ev Ew.
  pose proof (to_bstrings_length _ _ _ _ _ Hxy) as L1. pose proof (to_bstrings_length _ _ _ _ _ Hyz) as L2.
  assert (zlen y = zlen x) as -> by (unfold zlen; lia).
  destruct (regions c x y z L1 L2) as (a & b & d & ab & bd & ad & abd & (R1 & R2 & R3) & (R4 & R5 & R6) & R7 & R8 & R9).
  assert (0 < inject_Z (zlen x))%Q by (change 0%Q with (inject_Z 0); rewrite <- Zlt_Qlt; exact P1).
  set (o := inject_Z (Z.of_nat (only_in x y c + only_in y x c))). set (p := inject_Z (Z.of_nat (only_in y z c + only_in z y c))).
  setoid_replace (o / inject_Z (zlen x) + p / inject_Z (zlen x))%Q with ((o + p) / inject_Z (zlen x))%Q by (field; lra).
  apply Qdiv_le_cross; [assumption..|]. apply Qmult_le_compat_r; [|lra]. unfold o, p. rewrite <- inject_Z_plus, <- Zle_Qle. lia.
Qed.
End Triangle.
