(** C89: correcting one stretch of a coding. *)
From Verif Require Import SpecChange SpecGreedy SpecError FormatProofs Bed BedProofs BedSubs BedMain BedTheory BedEmbed BedContext BedGreedy SimStats SimProofs SimRound SimTheory SimMain SimContext BedError Join.
From Coq Require Import Lqa.
Open Scope Z_scope.

Lemma sum_cons n l : sum_list (n :: l) = (n + sum_list l)%nat.
Proof. reflexivity. Qed.

Lemma count_all {X} (g : X -> Z) (l : list X) (U : list Z) : NoDup U -> (forall x, x ∈ l -> g x ∈ U) ->
  sum_list ((fun d => countP (fun x => g x = d) l) <$> U) = length l.
Proof.
  intros HU. induction l as [|x l IH]; intros Hl.
  - clear. induction U as [|d U IH]; [reflexivity|]. cbn. exact IH.
  - cbn [length]. rewrite <- IH by (intros y Hy; apply Hl; right; exact Hy).
    assert (Hx : g x ∈ U) by (apply Hl; left). clear Hl IH.
    assert (K : forall V, NoDup V -> sum_list ((fun d => countP (fun x => g x = d) (x :: l)) <$> V) =
      ((if decide (g x ∈ V) then 1 else 0) + sum_list ((fun d => countP (fun x => g x = d) l) <$> V))%nat).
    { induction V as [|d V IH]; intros HV; [reflexivity|]. apply NoDup_cons in HV as [H1 H2]. rewrite !fmap_cons, !sum_cons. rewrite (IH H2).
      assert (C : countP (fun x => g x = d) (x :: l) = ((if decide (g x = d) then 1 else 0) + countP (fun x => g x = d) l)%nat).
      { unfold countP. rewrite filter_cons. destruct (decide (g x = d)); reflexivity. }
      rewrite C. destruct (decide (g x = d)) as [<-|N].
      - rewrite (decide_False (P := g x ∈ V)) by exact H1. rewrite decide_True by left. lia.
      - destruct (decide (g x ∈ V)) as [I|I]; [rewrite decide_True by (right; exact I)|rewrite decide_False by (rewrite elem_of_cons; tauto)]; lia. }
    rewrite (K U HU), decide_True by exact Hx. reflexivity.
Qed.

Definition nonly (x y : bstring) : nat := sum_list (zip_with (fun s t : tyset => size (s ∖ t)) x y).

Lemma only_all x y (U : list Z) : NoDup U -> (sum_list (only_in x y <$> U) <= nonly x y)%nat.
Proof.
  intros HU. revert y. induction x as [|s x IH]; intros y.
  - replace (sum_list (only_in [] y <$> U)) with 0%nat; [lia|]. clear. induction U as [|d U IH]; [reflexivity|]. cbn. exact IH.
  - destruct y as [|t y].
    { replace (sum_list (only_in (s :: x) [] <$> U)) with 0%nat; [lia|]. clear. induction U as [|d U IH]; [reflexivity|]. cbn. exact IH. }
    unfold nonly. cbn [zip_with]. rewrite !sum_cons. fold (nonly x y).
    assert (K : forall V, sum_list (only_in (s :: x) (t :: y) <$> V) = (length (filter (fun d => d ∈ s /\ d ∉ t) V) + sum_list (only_in x y <$> V))%nat).
    { induction V as [|d V IHV]; [reflexivity|]. rewrite !fmap_cons, !sum_cons. rewrite IHV.
      assert (C : only_in (s :: x) (t :: y) d = ((if decide (d ∈ s /\ d ∉ t) then 1 else 0) + only_in x y d)%nat).
      { unfold only_in. cbn [zip_with]. rewrite filter_cons. cbn [fst snd]. destruct (decide (d ∈ s /\ d ∉ t)); reflexivity. }
      rewrite C, filter_cons. destruct (decide (d ∈ s /\ d ∉ t)); cbn [length]; lia. }
    rewrite K. pose proof (IH y) as I. assert (F : (length (filter (fun d => d ∈ s /\ d ∉ t) U) <= size (s ∖ t))%nat); [|lia].
    rewrite <- (size_list_to_set (C := gset Z)) by (apply NoDup_filter, HU). apply subseteq_size. intros d. rewrite elem_of_list_to_set, elem_of_list_filter. set_solver.
Qed.

Lemma nbounds_split x y : length x = length y -> (nmatches x y + nonly y x = nbounds y)%nat.
Proof.
  unfold nmatches, nonly, nbounds. revert y. induction x as [|s x IH]; intros [|t y] H; try discriminate; [reflexivity|].
  injection H as H. specialize (IH y H). rewrite fmap_cons. cbn [zip_with]. rewrite !sum_cons.
  assert (K : (size (s ∩ t) + size (t ∖ s) = size t)%nat).
  { rewrite <- size_union by set_solver. f_equal. apply set_eq. intros d. destruct (decide (d ∈ s)); set_solver. }
  lia.
Qed.

(** A boundary of [y] is matched or taken up by one edit; other edits are additions. *)
Lemma edits_bound E x y n_t e : env_ok E -> small_types x y -> length x = length y -> boundary_edit_distance E x y n_t = Ok e ->
  edit_count e + Z.of_nat (nmatches x y) - Z.of_nat (nbounds y) <= zlen (e_add e).
Proof.
  intros HE Hs Hl He. rewrite <- (nbounds_split x y Hl). unfold edit_count.
  set (U := elements (list_to_set ((e_sub e).*2 ++ (t_type <$> e_transp e)) : gset Z)).
  assert (HU : NoDup U) by apply NoDup_elements.
  assert (K : (length (e_sub e) + length (e_transp e) <= nonly y x)%nat); [|unfold zlen; lia].
  etransitivity; [|apply (only_all y x U HU)].
  rewrite <- (count_all snd (e_sub e) U HU), <- (count_all t_type (e_transp e) U HU).
  - clear HU. induction U as [|d U IH]; [cbn; lia|]. rewrite !fmap_cons, !sum_cons.
    destruct (bed_conserves E x y n_t e d HE Hs Hl He) as [_ Q]. rewrite Q. lia.
  - intros t Ht. unfold U. rewrite elem_of_elements, elem_of_list_to_set, elem_of_app. right. apply elem_of_list_fmap. eauto.
  - intros t Ht. unfold U. rewrite elem_of_elements, elem_of_list_to_set, elem_of_app. left. apply elem_of_list_fmap. eauto.
Qed.

Lemma cost_adds e sp n_t : 0 < sp -> 0 < n_t -> (forall t, t ∈ e_transp e -> (t_start t <= t_end t)%nat) ->
  (inject_Z (zlen (e_add e)) <= edit_cost e sp n_t)%Q /\ 0 <= distance (e_sub e) /\ 0 <= spanned (e_transp e).
Proof.
  intros H1 H2 Ht.
  assert (D : 0 <= distance (e_sub e)).
  { unfold distance. induction (e_sub e) as [|[p q] l IH]; [cbn; lia|]. rewrite fmap_cons, zsum_cons. lia. }
  assert (S : 0 <= spanned (e_transp e)).
  { unfold spanned. revert Ht. induction (e_transp e) as [|t l IH]; intros Ht; [cbn; lia|]. rewrite fmap_cons, zsum_cons.
    specialize (Ht t (elem_of_list_here _ _)) as Q. assert (0 <= zsum ((fun t => Z.of_nat (t_end t) - Z.of_nat (t_start t)) <$> l)) by (apply IH; intros; apply Ht; right; assumption). lia. }
  split; [|auto]. unfold edit_cost.
  assert (0 <= inject_Z (distance (e_sub e)) / inject_Z sp)%Q.
  { apply Qle_shift_div_l; [change 0%Q with (inject_Z 0); rewrite <- Zlt_Qlt; exact H1|]. rewrite Qmult_0_l. change 0%Q with (inject_Z 0). rewrite <- Zle_Qle. exact D. }
  assert (0 <= inject_Z (spanned (e_transp e)) / inject_Z n_t)%Q.
  { apply Qle_shift_div_l; [change 0%Q with (inject_Z 0); rewrite <- Zlt_Qlt; exact H2|]. rewrite Qmult_0_l. change 0%Q with (inject_Z 0). rewrite <- Zle_Qle. exact S. }
  lra.
Qed.

Lemma cost_pos E x y n_t e sp : env_ok E -> length x = length y -> boundary_edit_distance E x y n_t = Ok e -> 0 < n_t -> 0 < sp -> x <> y ->
  (0 < edit_cost e sp n_t)%Q.
Proof.
  intros HE Hl He Hn Hsp Hne.
  assert (Hc : 1 <= edit_count e).
  { assert (edit_count e <> 0) by (intros K; apply Hne, (edits_none_iff E x y n_t e HE Hl He), K). unfold edit_count, zlen in *. lia. }
  assert (Hu : exists d, used x y d).
  { destruct (decide (identify_types x y = ∅)) as [K|K].
    - exfalso. apply Hne. apply list_eq_same_length with (length x); [congruence|reflexivity|]. intros i s t Hi Ks Kt. apply set_eq. intros d.
      assert (N : ~ used x y d) by (rewrite <- SimStats.elem_of_types, K; apply not_elem_of_empty). split; intros D; exfalso; apply N; exists i; [left|right]; eexists; eauto.
    - apply set_choose_L in K as [d K]. exists d. apply SimStats.elem_of_types, K. }
  destruct (extent_exists x y Hu) as (lo & hi & Hx).
  pose proof (D_bounds E x y n_t e lo hi HE Hl He Hx) as D. pose proof (S_bounds E x y n_t e HE Hl He) as S.
  assert (P : forall u v, 0 < v -> 0 <= u -> (0 <= inject_Z u / inject_Z v)%Q /\ ((0 < u)%Z -> 0 < inject_Z u / inject_Z v)%Q).
  { intros u v Hv Hu'. assert (V : (0 < inject_Z v)%Q) by (change 0%Q with (inject_Z 0); rewrite <- Zlt_Qlt; exact Hv). split; [|intros H].
    - apply Qle_shift_div_l; [exact V|]. rewrite Qmult_0_l. change 0%Q with (inject_Z 0). rewrite <- Zle_Qle. exact Hu'.
    - apply Qlt_shift_div_l; [exact V|]. rewrite Qmult_0_l. change 0%Q with (inject_Z 0). rewrite <- Zlt_Qlt. exact H. }
  pose proof (zlen_nonneg (e_add e)). pose proof (zlen_nonneg (e_sub e)). pose proof (zlen_nonneg (e_transp e)).
  destruct (P (distance (e_sub e)) sp Hsp ltac:(lia)) as [D1 D2]. destruct (P (spanned (e_transp e)) n_t Hn ltac:(lia)) as [S1 S2].
  assert (A1 : (0 <= inject_Z (zlen (e_add e)))%Q) by (change 0%Q with (inject_Z 0); rewrite <- Zle_Qle; lia).
  assert (A2 : 0 < zlen (e_add e) -> (0 < inject_Z (zlen (e_add e)))%Q) by (intros; change 0%Q with (inject_Z 0); rewrite <- Zlt_Qlt; lia).
  unfold edit_cost. unfold edit_count in Hc.
  destruct (decide (0 < zlen (e_add e))) as [K|K]; [specialize (A2 K); lra|].
  destruct (decide (0 < distance (e_sub e))) as [K'|K']; [specialize (D2 K'); lra|].
  specialize (S2 ltac:(lia)). lra.
Qed.

Section Stretch.
Context (l l' z m m' z' r r' : bstring) (n_t : Z).
Let x := l ++ z ++ m ++ z' ++ r.
Let y := l' ++ z ++ m' ++ z' ++ r'.
Let x' := l ++ z ++ m' ++ z' ++ r.
Context (E : env) (HE : env_ok E) (Hn : 0 < n_t) (Ll : length l = length l') (Lm : length m = length m') (Lr : length r = length r')
  (Hz : n_t - 1 <= zlen z) (Hz' : n_t - 1 <= zlen z') (Hs : small_types x y).

Lemma small_corrected : small_types x' y.
Proof.
  intros s d Hi Hd. eapply Hs; [|exact Hd]. revert Hi. unfold x, x', y. rewrite !elem_of_app. tauto.
Qed.

Lemma stretch_counts : exists e e' em, boundary_edit_distance E x y n_t = Ok e /\ boundary_edit_distance E x' y n_t = Ok e' /\ boundary_edit_distance E m m' n_t = Ok em /\
  edit_count e = edit_count e' + edit_count em /\ (forall sp, edit_cost e sp n_t == edit_cost e' sp n_t + edit_cost em sp n_t)%Q /\
  (nmatches x y + nbounds m' = nmatches x' y + nmatches m m')%nat /\ edit_count em + Z.of_nat (nmatches m m') - Z.of_nat (nbounds m') <= zlen (e_add em).
Proof.
  pose proof small_corrected as Hs'.
  assert (Sm : small_types m m').
  { intros s d Hi Hd. eapply Hs; [|exact Hd]. revert Hi. unfold x, y. rewrite !elem_of_app. tauto. }
  assert (Sr : small_types (m ++ z' ++ r) (m' ++ z' ++ r')).
  { intros s d Hi Hd. eapply Hs; [|exact Hd]. revert Hi. unfold x, y. rewrite !elem_of_app. tauto. }
  assert (Lmr : length (m ++ z' ++ r) = length (m' ++ z' ++ r')) by (rewrite !app_length; lia).
  assert (Lx : length x = length y) by (unfold x, y; rewrite !app_length; lia).
  assert (Lx' : length x' = length y) by (unfold x', y; rewrite !app_length; lia).
  pose proof (bed_ok E x y n_t HE ltac:(lia)) as Be. pose proof (bed_ok E x' y n_t HE ltac:(lia)) as Be'.
  pose proof (bed_ok E m m' n_t HE ltac:(lia)) as Bm. pose proof (bed_ok E (m ++ z' ++ r) (m' ++ z' ++ r') n_t HE ltac:(lia)) as Bmr.
  assert (Sl : small_types l l').
  { intros s d Hi Hd. eapply Hs; [|exact Hd]. revert Hi. unfold x, y. rewrite !elem_of_app. tauto. }
  assert (Srr : small_types r r').
  { intros s d Hi Hd. eapply Hs; [|exact Hd]. revert Hi. unfold x, y. rewrite !elem_of_app. tauto. }
  pose proof (bed_ok E l l' n_t HE ltac:(lia)) as Bl. pose proof (bed_ok E r r' n_t HE ltac:(lia)) as Br.
  eexists _, _, _. split; [exact Be|]. split; [exact Be'|]. split; [exact Bm|].
  match type of Be with _ = Ok ?e => set (ee := e) in * end. match type of Be' with _ = Ok ?e => set (ee' := e) in * end.
  match type of Bm with _ = Ok ?e => set (em := e) in * end. match type of Bmr with _ = Ok ?e => set (emr := e) in * end.
  match type of Bl with _ = Ok ?e => set (el := e) in * end. match type of Br with _ = Ok ?e => set (er := e) in * end.
  clearbody ee ee' em emr el er.
  destruct (joined_counts E E E n_t l l' z (m ++ z' ++ r) (m' ++ z' ++ r') ee el emr HE HE HE Ll Lmr Hz Hs Bl Bmr Be) as [C1 K1].
  destruct (joined_counts E E E n_t m m' z' r r' emr em er HE HE HE Lm Lr Hz' Sr Bm Br Bmr) as [C2 K2].
  assert (Q : x' = l ++ (z ++ m' ++ z') ++ r /\ y = l' ++ (z ++ m' ++ z') ++ r') by (unfold x', y; rewrite <- !app_assoc; auto).
  assert (Be2 : boundary_edit_distance E (l ++ (z ++ m' ++ z') ++ r) (l' ++ (z ++ m' ++ z') ++ r') n_t = Ok ee') by (destruct Q as [<- <-]; exact Be').
  assert (Hs2 : small_types (l ++ (z ++ m' ++ z') ++ r) (l' ++ (z ++ m' ++ z') ++ r')) by (destruct Q as [<- <-]; exact Hs').
  destruct (joined_counts E E E n_t l l' (z ++ m' ++ z') r r' ee' el er HE HE HE Ll Lr ltac:(rewrite !zlen_app; unfold zlen in *; lia) Hs2 Bl Br Be2) as [C3 K3].
  split; [lia|]. split; [intros sp; rewrite K1, K2, K3; ring|].
  split.
  - unfold x, y, x'. rewrite !(nmatches_app l l') by exact Ll. rewrite !(nmatches_app z z) by reflexivity. rewrite (nmatches_app m m') by exact Lm. rewrite (nmatches_app m' m') by reflexivity.
    rewrite (nmatches_same m'). lia.
  - apply (edits_bound E m m' n_t em); assumption.
Qed.

Context (f f' : fmt) (sx sy sx' sy' : seg) (Hb : to_bstrings f sx sy = Ok (x, y)) (Hb' : to_bstrings f' sx' sy' = Ok (x', y))
  (lo hi : Z) (X : extent x y lo hi) (X' : extent x' y lo hi).

Theorem B_corrected : exists v v', B_is E f n_t sx sy v /\ B_is E f' n_t sx' sy' v' /\ (v <= v')%Q /\ (m <> m' -> 0 < v' -> v < v')%Q.
Proof.
  destruct stretch_counts as (e & e' & em & He & He' & Hem & C & K & M & B).
  destruct (values E f n_t sx sy _ _ HE ltac:(lia) Hb lo hi e X He) as [V _].
  destruct (values E f' n_t sx' sy' _ _ HE ltac:(lia) Hb' lo hi e' X' He') as [V' _].
  eexists _, _. split; [exact V|]. split; [exact V'|]. clear V V'.
  assert (Hsp : 0 < hi - lo + 1) by (destruct X as (_ & X1 & X2); specialize (X2 hi X1); lia).
  pose proof (q_bounds E f' n_t sx' sy' x' y lo hi e' HE Hb' X' ltac:(lia) He') as [Q1 Q2].
  pose proof (to_bstrings_length _ _ _ _ _ Hb') as Lx'. pose proof (to_bstrings_length _ _ _ _ _ Hb) as Lx.
  assert (P : 0 < edit_count e + Z.of_nat (nmatches x y)) by (apply (denominator_pos E x y n_t e HE Lx He); exists lo; apply X).
  assert (P' : 0 < edit_count e' + Z.of_nat (nmatches x' y)) by (apply (denominator_pos E x' y n_t e' HE Lx' He'); exists lo; apply X').
  assert (A : (inject_Z (zlen (e_add em)) <= edit_cost em (hi - lo + 1) n_t)%Q).
  { apply (cost_adds em); [exact Hsp|exact Hn|]. intros t Ht.
    assert (Sm : small_types m m') by (intros s d Hi Hd; eapply Hs; [|exact Hd]; revert Hi; unfold x, y; rewrite !elem_of_app; tauto).
    pose proof (bed_greedy E m m' n_t em HE Sm Lm Hem) as G. apply G in Ht as [T _ _ _ _]. lia. }
  assert (D : m <> m' -> (0 < edit_cost em (hi - lo + 1) n_t)%Q) by (intros; apply (cost_pos E m m' n_t em); assumption).
  rewrite (K (hi - lo + 1)).
  set (w := inject_Z (edit_count e + Z.of_nat (nmatches x y))). set (w' := inject_Z (edit_count e' + Z.of_nat (nmatches x' y))).
  assert (W : (0 < w)%Q) by (unfold w; change 0%Q with (inject_Z 0); rewrite <- Zlt_Qlt; exact P).
  assert (W' : (0 < w')%Q) by (unfold w'; change 0%Q with (inject_Z 0); rewrite <- Zlt_Qlt; exact P').
  assert (U : (w <= w' + edit_cost em (hi - lo + 1) n_t)%Q).
  { eapply Qle_trans; [|apply Qplus_le_r, A]. unfold w, w'. rewrite <- inject_Z_plus, <- Zle_Qle. lia. }
  assert (N : (0 <= edit_cost em (hi - lo + 1) n_t)%Q).
  { eapply Qle_trans; [|exact A]. change 0%Q with (inject_Z 0). rewrite <- Zle_Qle. apply zlen_nonneg. }
  assert (Cw : (edit_cost e' (hi - lo + 1) n_t <= w')%Q).
  { eapply Qle_trans; [exact Q2|]. unfold w'. rewrite <- Zle_Qle. lia. }
  set (c := edit_cost e' (hi - lo + 1) n_t) in *. set (k := edit_cost em (hi - lo + 1) n_t) in *. clearbody c k w w'. split.
  - apply Qplus_le_compat; [apply Qle_refl|]. apply Qopp_le_compat. apply Qle_shift_div_l; [exact W|].
    setoid_replace (c / w' * w)%Q with (c * w / w')%Q by (field; lra). apply Qle_shift_div_r; [exact W'|]. nra.
  - intros Hne Hv. specialize (D Hne).
    assert (Cl : (c < w')%Q).
    { apply Qnot_le_lt. intros R. assert (c == w')%Q as R' by lra. rewrite R' in Hv. assert (w' / w' == 1)%Q as R2 by (field; lra). rewrite R2 in Hv. lra. }
    assert (G : (c / w' < (c + k) / w)%Q); [|lra]. apply Qlt_shift_div_l; [exact W|].
    setoid_replace (c / w' * w)%Q with (c * w / w')%Q by (field; lra). apply Qlt_shift_div_r; [exact W'|]. nra.
Qed.

Context (U : forall d, used x y d <-> used x' y d).
Theorem S_corrected : exists v v', S_is E f n_t sx sy v /\ S_is E f' n_t sx' sy' v' /\ (v <= v')%Q /\ (m <> m' -> v < v')%Q.
Proof.
  destruct stretch_counts as (e & e' & em & He & He' & Hem & C & K & M & B).
  destruct (values E f n_t sx sy _ _ HE ltac:(lia) Hb lo hi e X He) as [_ V].
  destruct (values E f' n_t sx' sy' _ _ HE ltac:(lia) Hb' lo hi e' X' He') as [_ V'].
  eexists _, _. split; [exact V|]. split; [exact V'|]. clear V V'.
  assert (Hsp : 0 < hi - lo + 1) by (destruct X as (_ & X1 & X2); specialize (X2 hi X1); lia).
  assert (A : (0 <= edit_cost em (hi - lo + 1) n_t)%Q).
  { eapply Qle_trans; [|apply (cost_adds em); [exact Hsp|exact Hn|]].
    - change 0%Q with (inject_Z 0). rewrite <- Zle_Qle. apply zlen_nonneg.
    - intros t Ht. assert (Sm : small_types m m') by (intros s d Hi Hd; eapply Hs; [|exact Hd]; revert Hi; unfold x, y; rewrite !elem_of_app; tauto).
      pose proof (bed_greedy E m m' n_t em HE Sm Lm Hem) as G. apply G in Ht as [T _ _ _ _]. lia. }
  assert (D : m <> m' -> (0 < edit_cost em (hi - lo + 1) n_t)%Q) by (intros; apply (cost_pos E m m' n_t em); assumption).
  assert (T : identify_types x' y = identify_types x y) by (apply set_eq; intros d; rewrite !SimStats.elem_of_types; symmetry; apply U).
  pose proof (to_bstrings_length _ _ _ _ _ Hb) as Lx.
  assert (Z : zlen x' = zlen x) by (unfold x, x', zlen; rewrite !app_length; lia). rewrite T, Z, (K (hi - lo + 1)).
  pose proof (types_size_pos _ _ _ _ X) as P1. pose proof (gaps_pos _ _ _ _ Lx X) as P2.
  set (N := zlen x * zsize (identify_types x y) * zsize (identify_types x y)).
  assert (W : (0 < inject_Z N)%Q) by (change 0%Q with (inject_Z 0); rewrite <- Zlt_Qlt; unfold N, zlen, zsize; nia).
  set (c := edit_cost e' (hi - lo + 1) n_t) in *. set (k := edit_cost em (hi - lo + 1) n_t) in *. clearbody c k N.
  setoid_replace ((c + k) / inject_Z N)%Q with (c / inject_Z N + k / inject_Z N)%Q by (field; lra). split.
  - assert (0 <= k / inject_Z N)%Q by (apply Qle_shift_div_l; [exact W|lra]). lra.
  - intros Hne. specialize (D Hne). assert (0 < k / inject_Z N)%Q by (apply Qlt_shift_div_l; [exact W|lra]). lra.
Qed.
End Stretch.
