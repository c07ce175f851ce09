(** How large the bias of one item can be. *)
From Coq Require Import Lqa.
From stdpp Require Import gmap.
From Verif Require Import SpecAgreement SpecML SpecDispatch SpecSim Spec Agreement DictProofs DispatchProofs MLSums SimStats AgreementProofs AgreementExact AgreementMain AgreementFinal AgreementBias AgreementPublic.
Open Scope Z_scope.

Lemma square_nonneg (x : Q) : (0 <= x * x)%Q.
Proof. destruct (Qlt_le_dec x 0) as [H|H]; [|apply Qmult_le_0_compat; exact H]. setoid_replace (x * x)%Q with (- x * - x)%Q by ring. apply Qmult_le_0_compat; lra. Qed.

Lemma pairs_squares {X} (p : X -> Q) l :
  (qsum ((fun xy => (p (fst xy) - p (snd xy)) * (p (fst xy) - p (snd xy))) <$> pairs2 l) ==
   inject_Z (zlen l) * qsum ((fun x => p x * p x) <$> l) - qsum (p <$> l) * qsum (p <$> l))%Q.
Proof.
  induction l as [|x l IH]; [reflexivity|]. cbn [pairs2]. rewrite fmap_app, qsum_app, IH, <- list_fmap_compose.
  assert (E : (qsum (((fun xy : X * X => (p (fst xy) - p (snd xy)) * (p (fst xy) - p (snd xy))) ∘ (fun y => (x, y))) <$> l) ==
    inject_Z (zlen l) * (p x * p x) - 2 * p x * qsum (p <$> l) + qsum ((fun y => p y * p y) <$> l))%Q).
  { clear. induction l as [|y l IH]; [rewrite !fmap_nil; change (qsum []) with 0%Q; change (inject_Z (zlen (@nil X))) with 0%Q; ring|]. rewrite !fmap_cons, !qsum_cons, IH. unfold compose at 1. cbn [fst snd].
    assert (Z : zlen (y :: l) = 1 + zlen l) by (unfold zlen; cbn [length]; lia). rewrite Z, inject_Z_plus. change (inject_Z 1) with 1%Q. ring. }
  rewrite E, !fmap_cons, !qsum_cons. assert (Z : zlen (x :: l) = 1 + zlen l) by (unfold zlen; cbn [length]; lia). rewrite Z, inject_Z_plus. change (inject_Z 1) with 1%Q. ring.
Qed.

(** Numbers between 0 and 1. *)
Lemma pairs_bound {X} (p : X -> Q) l : (forall x, x ∈ l -> 0 <= p x <= 1)%Q ->
  (4 * qsum ((fun xy => (p (fst xy) - p (snd xy)) * (p (fst xy) - p (snd xy))) <$> pairs2 l) <= inject_Z (zlen l) * inject_Z (zlen l))%Q.
Proof.
  intros H. rewrite pairs_squares.
  assert (A : (qsum ((fun x => p x * p x) <$> l) <= qsum (p <$> l))%Q).
  { induction l as [|x l IH]; [cbn; lra|]. rewrite !fmap_cons, !qsum_cons. destruct (H x ltac:(left)) as [H0 H1].
    assert (p x * p x <= 1 * p x)%Q by (apply Qmult_le_compat_r; assumption). specialize (IH ltac:(intros; apply H; right; assumption)). lra. }
  set (S := qsum (p <$> l)) in *. set (Q2 := qsum ((fun x => (p x * p x)%Q) <$> l)) in *. set (k := inject_Z (zlen l)).
  assert (Hk : (0 <= k)%Q) by (unfold k; rewrite <- (Zle_Qle 0); unfold zlen; lia). pose proof (square_nonneg (k - 2 * S)) as Sq.
  assert (B : (Q2 * k <= S * k)%Q) by (apply Qmult_le_compat_r; assumption).
  clearbody k S Q2. setoid_replace ((k - 2 * S) * (k - 2 * S))%Q with (k * k - 4 * (S * k) + 4 * (S * S))%Q in Sq by ring. setoid_replace (k * Q2)%Q with (Q2 * k)%Q by ring. lra.
Qed.

Section bias.
Context (F : fmt) (coders : list string) (ic : string * dict seg) (HC : coded F coders [ic]) (HT : one_boundary_type F coders ic).

Lemma one_room_len m n : m ∈ coders -> n ∈ coders -> m <> n -> room_of F m n ic = zlen (coding F m ic).
Proof.
  intros Hm Hn Hne. destruct HT as [t Ht]. unfold room_of, room.
  assert (HS : types_in (coding F m ic) (coding F n ic) = {[t]}).
  { destruct (coded_used _ _ _ HC ic m n ltac:(left) Hm Hn Hne) as [d Hd]. apply (elem_of_types (coding F m ic) (coding F n ic) d) in Hd.
    assert (HS : forall z, z ∈ types_in (coding F m ic) (coding F n ic) -> z = t).
    { intros z Hz. apply elem_of_union in Hz. rewrite !elem_of_union_list in Hz. destruct Hz as [(s & Hs & Hz)|(s & Hs & Hz)].
      - specialize (Ht m s Hm Hs). set_solver.
      - specialize (Ht n s Hn Hs). set_solver. }
    apply set_eq. intros z. rewrite elem_of_singleton. split; [apply HS|]. intros ->. rewrite <- (HS d Hd). exact Hd. }
  rewrite HS, size_singleton. lia.
Qed.

Lemma gaps : exists N, 0 < N /\ (forall c, c ∈ coders -> zlen (coding F c ic) = N) /\ forall m n, m ∈ coders -> n ∈ coders -> m <> n -> room_of F m n ic = N.
Proof.
  pose proof (coded_two _ _ _ HC) as H2. pose proof (coded_coders _ _ _ HC) as HN. destruct coders as [|c0 [|c1 l]] eqn:El; [cbn in H2; lia|cbn in H2; lia|]. rewrite <- El in *.
  assert (C0 : c0 ∈ coders) by (rewrite El; left). assert (C1 : c1 ∈ coders) by (rewrite El; right; left).
  assert (Hne : c0 <> c1) by (intros ->; rewrite El in HN; apply NoDup_cons in HN as [HN _]; apply HN; left).
  assert (L : forall c, c ∈ coders -> zlen (coding F c ic) = zlen (coding F c0 ic)) by (intros c Hc; unfold zlen; rewrite (coded_len _ _ _ HC ic c c0 ltac:(left) Hc C0); reflexivity).
  exists (zlen (coding F c0 ic)). split; [rewrite <- (one_room_len c0 c1) by assumption; apply room_pos; [apply (coded_len _ _ _ HC); [left|assumption..]|apply (coded_used _ _ _ HC); [left|assumption..]]|].
  split; [exact L|]. intros m n Hm Hn Hmn. rewrite one_room_len by assumption. apply L, Hm.
Qed.
End bias.

Section public.
Context (E : env) (n_t : Z) (f : fmt) (cord : gset string -> list string) (c : container) (cmp : Agreement.compare) (ic : string * dict seg).
Context (HE : env_ok E) (HL : lord_ok cord) (Hit : c_items c = [ic])
  (Hcmp : comparison exactA E n_t (cached (c_format c f) (cord (c_coders c)) (c_items c)) cmp).
Notation F := (c_format c f).
Notation coders := (cord (c_coders c)).

Theorem bias_bound v : one_boundary_type F coders ic -> artstein_poesio_bias_linear exactA cmp f cord false c = Ok (GVal v) ->
  let k := inject_Z (Z.of_nat (size (c_coders c))) in
  exists N, 0 < N /\ (forall m, m ∈ coders -> zlen (coding F m ic) = N) /\
    (let share m := inject_Z (marks (coding F m ic)) / inject_Z N in
     nval v == qsum ((fun mn => (share (fst mn) - share (snd mn)) * (share (fst mn) - share (snd mn))) <$> two_of coders) / (k * k * (k - 1)))%Q /\
    (0 <= nval v <= 1 / (4 * (k - 1)))%Q.
Proof.
  intros HT H k. destruct (bias_is E n_t f cord c cmp ic HE HL Hit Hcmp _ H) as (HC & q & [= ->] & Hq). cbn [nval].
  destruct (gaps F coders ic HC HT) as (N & HNp & HNl & HN). exists N. split; [exact HNp|]. split; [exact HNl|].
  assert (Hk : zlen coders = Z.of_nat (size (c_coders c))) by (unfold zlen; rewrite (HL (c_coders c)); reflexivity).
  assert (K2 : (2 <= k)%Q). { unfold k. rewrite <- Hk. change 2%Q with (inject_Z 2). rewrite <- Zle_Qle. pose proof (coded_two _ _ _ HC). unfold zlen. lia. }
  set (share := fun m => (inject_Z (marks (coding F m ic)) / inject_Z N)%Q).
  assert (PN : (0 < inject_Z N)%Q) by (rewrite <- (Zlt_Qlt 0); exact HNp).
  assert (SP : forall m, m ∈ coders -> (part F coders ic m == share m)%Q) by (intros m Hm; exact (part_uniform F coders ic HC N HN m Hm)).
  assert (SR : forall m, m ∈ coders -> (0 <= share m <= 1)%Q).
  { intros m Hm. destruct (other_coder coders m (coded_coders _ _ _ HC) (coded_two _ _ _ HC)) as (n & Hn & Hne).
    pose proof (marks_room (coding F m ic) (coding F n ic)) as [M0 M1]. pose proof (HN m n Hm Hn ltac:(congruence)) as R. unfold room_of in R. rewrite R in M1. unfold share. split.
    - apply Qle_shift_div_l; [exact PN|]. rewrite Qmult_0_l, <- (Zle_Qle 0). exact M0.
    - apply Qle_shift_div_r; [exact PN|]. rewrite Qmult_1_l, <- Zle_Qle. exact M1. }
  assert (EU : (unevenness F coders ic == qsum ((fun mn => (share (fst mn) - share (snd mn)) * (share (fst mn) - share (snd mn))) <$> pairs2 coders))%Q).
  { unfold unevenness. apply qsum_fmap_ext. intros [m n] Hp. apply pairs2_distinct in Hp as (H1 & H2 & _); [|exact (coded_coders _ _ _ HC)]. cbn [fst snd]. rewrite (SP m H1), (SP n H2). reflexivity. }
  assert (V : (q == unevenness F coders ic / (k * k * (k - 1)))%Q).
  { rewrite Hq, (bias_value F coders ic HC), (share_uniform F coders ic HC N HN). unfold k. rewrite <- Hk. ring. }
  cbv zeta. rewrite two_of_pairs2. split; [rewrite V, EU; reflexivity|].
  pose proof (pairs_bound share coders SR) as B. rewrite <- EU, Hk in B. fold k in B.
  assert (U0 : (0 <= unevenness F coders ic)%Q) by apply unevenness_nonneg. set (u := unevenness F coders ic) in *. clearbody u k. clear - V B U0 K2.
  assert (P : (0 < k * k * (k - 1))%Q) by (apply Qmult_lt_0_compat; [apply Qmult_lt_0_compat|]; lra). rewrite V. split.
  - apply Qle_shift_div_l; [exact P|]. lra.
  - apply Qle_shift_div_r; [exact P|]. setoid_replace (1 / (4 * (k - 1)) * (k * k * (k - 1)))%Q with (k * k / 4)%Q by (field; lra). apply Qle_shift_div_l; lra.
Qed.
End public.
