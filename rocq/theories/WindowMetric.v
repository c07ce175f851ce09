(** Distance properties of Pk and WindowDiff. *)
From Verif Require Import SpecMetric FormatProofs WindowProofs WindowMain WindowSym Round RoundProofs SimRound.
From Coq Require Import Lqa.
Open Scope Z_scope.

(** ** Counting *)

Lemma count_cover {X} (P Q R : X -> Prop) `{dP : !forall x, Decision (P x), dQ : !forall x, Decision (Q x), dR : !forall x, Decision (R x)} (l : list X) :
  (forall x, x ∈ l -> P x -> Q x \/ R x) -> zlen (filter P l) <= zlen (filter Q l) + zlen (filter R l).
Proof.
  intros H. unfold zlen. induction l as [|x l IH]; [cbn; lia|]. specialize (IH (fun y K => H y (elem_of_list_further _ _ _ K))).
  specialize (H x (elem_of_list_here _ _)). rewrite !filter_cons.
  destruct (decide (P x)), (decide (Q x)), (decide (R x)); cbn [length]; try lia. exfalso. tauto.
Qed.

Lemma count_mono {X} (P Q : X -> Prop) `{dP : !forall x, Decision (P x), dQ : !forall x, Decision (Q x)} (l : list X) :
  (forall x, x ∈ l -> P x -> Q x) -> zlen (filter P l) <= zlen (filter Q l).
Proof.
  intros H. unfold zlen. induction l as [|x l IH]; [cbn; lia|]. specialize (IH (fun y K => H y (elem_of_list_further _ _ _ K))).
  specialize (H x (elem_of_list_here _ _)). rewrite !filter_cons. destruct (decide (P x)), (decide (Q x)); cbn [length]; try lia. exfalso. tauto.
Qed.

Lemma count_ext {X} (P Q : X -> Prop) `{dP : !forall x, Decision (P x), dQ : !forall x, Decision (Q x)} (l : list X) :
  (forall x, x ∈ l -> P x <-> Q x) -> zlen (filter P l) = zlen (filter Q l).
Proof. intros H. apply Z.le_antisymm; apply count_mono; intros x K; apply H, K. Qed.

Lemma count_none {X} (P : X -> Prop) `{dP : !forall x, Decision (P x)} (l : list X) : zlen (filter P l) = 0 <-> forall x, x ∈ l -> ~ P x.
Proof.
  unfold zlen. split.
  - intros E x Hx Px. assert (K : x ∈ filter P l) by (apply elem_of_list_filter; auto). destruct (filter P l); [inversion K|discriminate].
  - intros H. destruct (filter P l) as [|x f] eqn:E; [reflexivity|]. exfalso. assert (K : x ∈ filter P l) by (rewrite E; left). apply elem_of_list_filter in K as [K1 K2]. exact (H x K2 K1).
Qed.

(** An interval in an interval. *)
Lemma count_interval n : 0 <= n -> forall s a b, zlen (filter (fun i => a <= i < b) (seqZ s n)) = Z.max 0 (Z.min b (s + n) - Z.max a s).
Proof.
  intros Hn. pattern n. apply natlike_ind; [|clear n Hn; intros n Hn IH|exact Hn]; intros s a b.
  - rewrite seqZ_nil by lia. unfold zlen. cbn. lia.
  - rewrite seqZ_cons by lia. rewrite Z.pred_succ. unfold zlen in *. rewrite filter_cons. specialize (IH (Z.succ s) a b).
    destruct (decide (a <= s < b)); cbn [length]; lia.
Qed.

Lemma elem_seqZ s n i : i ∈ seqZ s n <-> s <= i < s + n.
Proof. apply elem_of_seqZ. Qed.

(** ** Triangle inequality *)

Lemma pk_triangle h m r k n : pk_errors h r k n <= pk_errors h m k n + pk_errors m r k n.
Proof.
  apply count_cover. intros i _. destruct (decide (ncuts h i (i + k) = 0)), (decide (ncuts m i (i + k) = 0)), (decide (ncuts r i (i + k) = 0)); tauto.
Qed.
Lemma wd_triangle h m r k n : wd_errors h r k n <= wd_errors h m k n + wd_errors m r k n.
Proof. apply count_cover. intros i _. destruct (decide (ncuts h i (i + k) = ncuts m i (i + k))) as [E|E]; [rewrite E; auto|auto]. Qed.

Lemma pk_errors_sym h r k n : pk_errors h r k n = pk_errors r h k n.
Proof. apply count_ext. intros i _. destruct (decide (ncuts h i (i + k) = 0)), (decide (ncuts r i (i + k) = 0)); tauto. Qed.
Lemma wd_errors_sym h r k n : wd_errors h r k n = wd_errors r h k n.
Proof. apply count_ext. intros i _. split; intros K E; apply K; symmetry; exact E. Qed.

Lemma pk_wd_errors h r k n : pk_errors h r k n <= wd_errors h r k n.
Proof. apply count_mono. intros i _ H E. rewrite E in H. destruct (decide (ncuts r i (i + k) = 0)); tauto. Qed.

(** ** Boundaries determine the masses *)

Lemma cuts_unique m : forall m', Spec.positive m -> Spec.positive m' -> m <> [] -> m' <> [] -> zsum m = zsum m' -> (forall p, cut m p <-> cut m' p) -> m = m'.
Proof.
  induction m as [|x t IH]; intros m' Hm Hm' N N' E H; [contradiction|]. destruct m' as [|y u]; [contradiction|].
  apply Forall_cons in Hm as [Hx Ht]. apply Forall_cons in Hm' as [Hy Hu].
  destruct t as [|x1 t].
  - destruct u as [|y1 u]; [cbn in E; f_equal; lia|]. exfalso. apply (cut_one x y). apply H. apply cut_cons; [discriminate|auto].
  - destruct u as [|y1 u]; [exfalso; apply (cut_one y x); apply H; apply cut_cons; [discriminate|auto]|].
    assert (x = y) as ->.
    { assert (A : cut (y :: y1 :: u) x) by (apply H; apply cut_cons; [discriminate|auto]). assert (B : cut (x :: x1 :: t) y) by (apply H; apply cut_cons; [discriminate|auto]).
      apply cut_cons in A; [|discriminate]. apply cut_cons in B; [|discriminate]. destruct A as [A|A]; [exact A|]. destruct B as [B|B]; [auto|].
      apply (cut_range _ _ Hu) in A. apply (cut_range _ _ Ht) in B. lia. }
    f_equal. apply IH; [exact Ht|exact Hu|discriminate|discriminate|cbn in E |- *; lia|]. intros p. specialize (H (p + y)).
    rewrite (cut_cons y (x1 :: t)), (cut_cons y (y1 :: u)) in H by discriminate. replace (p + y - y) with p in H by lia. split; intros K.
    + pose proof (cut_range _ _ Ht K). destruct (proj1 H (or_intror K)) as [A|A]; [lia|exact A].
    + pose proof (cut_range _ _ Hu K). destruct (proj2 H (or_intror K)) as [A|A]; [lia|exact A].
Qed.

(** ** Any set of gaps is a segmentation *)

Lemma cuts_exist (P : Z -> Prop) `{dP : !forall p, Decision (P p)} n : 1 <= n ->
  exists m, Spec.positive m /\ m <> [] /\ zsum m = n /\ forall p, cut m p <-> (1 <= p < n /\ P p).
Proof.
  intros Hn. replace n with (Z.succ (n - 1)) by lia. assert (H0 : 0 <= n - 1) by lia. revert H0. generalize (n - 1). clear n Hn. intros n Hn. pattern n. apply natlike_ind; [|clear n Hn; intros n Hn IH|exact Hn].
  - exists [1]. split; [repeat constructor; lia|]. split; [discriminate|]. split; [reflexivity|]. intros p. split; [intros K; exfalso; exact (cut_one _ _ K)|lia].
  - destruct IH as (m & Hm & N & E & H). destruct (decide (P (Z.succ n))) as [D|D].
    + exists (m ++ [1]). split; [apply Forall_app; split; [exact Hm|repeat constructor; lia]|]. split; [destruct m; discriminate|]. split; [rewrite zsum_app, E; cbn; lia|].
      intros p. rewrite cut_snoc by exact N. rewrite H, E. split.
      * intros [[K1 K2]| ->]; (split; [lia|assumption]).
      * intros [K1 K2]. destruct (decide (p = Z.succ n)); [auto|]. left. split; [lia|exact K2].
    + destruct (exists_last N) as (m0 & z & ->). exists (m0 ++ [z + 1]). apply Forall_app in Hm as [Hm Hz]. inversion Hz as [|? ? Hz' _]; subst.
      split; [apply Forall_app; split; [exact Hm|repeat constructor; lia]|]. split; [destruct m0; discriminate|]. rewrite zsum_app in E |- *. split; [cbn in E |- *; lia|].
      intros p.
      assert (C : cut (m0 ++ [z + 1]) p <-> cut (m0 ++ [z]) p).
      { destruct m0 as [|x m0]; [cbn [app]; split; intros K; exfalso; exact (cut_one _ _ K)|]. rewrite !cut_snoc by discriminate. reflexivity. }
      rewrite C, H. split; intros [K1 K2]; (split; [|exact K2]); [lia|]. destruct (decide (p = Z.succ n)) as [->|]; [contradiction|lia].
Qed.

(** ** Windows as counts of gaps *)

Lemma ncuts_count m u j : Spec.positive m -> 0 <= j -> ncuts m u (u + j) = zlen (filter (cut m) (seqZ (u + 1) j)).
Proof.
  intros Hm Hj. pattern j. apply natlike_ind; [|clear j Hj; intros j Hj IH|exact Hj].
  - rewrite Z.add_0_r, ncuts_none. rewrite seqZ_nil by lia. reflexivity.
  - replace (u + Z.succ j) with (u + j + 1) by lia. rewrite ncuts_step by (exact Hm || lia). rewrite IH. unfold Z.succ. rewrite seqZ_app by lia.
    unfold zlen. rewrite filter_app, app_length, Nat2Z.inj_add. f_equal. rewrite seqZ_cons by lia. rewrite seqZ_nil by lia. rewrite filter_cons.
    replace (u + 1 + j) with (u + j + 1) by lia. destruct (decide (cut m (u + j + 1))); reflexivity.
Qed.

Lemma ncuts_same h h' u j : Spec.positive h -> Spec.positive h' -> 0 <= j -> (forall p, u < p <= u + j -> (cut h p <-> cut h' p)) -> ncuts h u (u + j) = ncuts h' u (u + j).
Proof. intros H H' Hj K. rewrite !ncuts_count by assumption. apply count_ext. intros p Hp. apply elem_seqZ in Hp. apply K. lia. Qed.

(** ** When no error is counted *)

Lemma cuts_pad k m p : m <> [] -> cut (padded k m) p <-> p = Z.max 1 k \/ p = Z.max 1 k + zsum m \/ cut m (p - Z.max 1 k).
Proof.
  intros N. unfold padded. rewrite cut_cons by (destruct m; discriminate). rewrite cut_snoc by exact N. assert (X : p - Z.max 1 k = zsum m <-> p = Z.max 1 k + zsum m) by lia. tauto.
Qed.

Lemma lamprier_zero h r k : Spec.positive h -> Spec.positive r -> h <> [] -> r <> [] -> zsum h = zsum r -> 1 <= k ->
  wd_errors (padded k h) (padded k r) k (zsum r + 2 * Z.max 1 k) = 0 -> h = r.
Proof.
  intros Hh Hr Nh Nr E Hk H. pose proof (proj1 (count_none _ _) H) as W. clear H. cbn beta in W.
  assert (Ph := padded_positive k h Hh). assert (Pr := padded_positive k r Hr).
  assert (K : forall p, 0 <= p -> forall q, q <= p -> (cut (padded k h) q <-> cut (padded k r) q)).
  { intros p Hp. pattern p. apply natlike_ind; [|clear p Hp; intros p Hp IH|exact Hp].
    - intros q Hq. split; intros C; exfalso; apply cut_range in C; try assumption; lia.
    - intros q Hq. destruct (decide (q = Z.succ p)) as [->|D]; [|apply IH; lia].
      destruct (decide (p < k)) as [L|L].
      + rewrite !cuts_pad by assumption. split; intros [C|[C|C]]; auto; exfalso.
        1,3: pose proof (positive_sum_pos h Hh Nh); pose proof (positive_sum_pos r Hr Nr); lia.
        all: apply cut_range in C; [lia|assumption].
      + destruct (decide (Z.succ p < zsum r + 2 * Z.max 1 k)) as [L'|L'].
        2: { split; intros C; exfalso; apply cut_range in C; try assumption; rewrite padded_sum in C; lia. }
        specialize (W (Z.succ p - k)). rewrite elem_seqZ in W. specialize (W ltac:(lia)).
        assert (W' : ncuts (padded k h) (Z.succ p - k) (Z.succ p - k + k) = ncuts (padded k r) (Z.succ p - k) (Z.succ p - k + k)) by lia. clear W.
        replace (Z.succ p - k + k) with (Z.succ p - k + (k - 1) + 1) in W' by lia. rewrite !ncuts_step in W' by (assumption || lia).
        rewrite (ncuts_same (padded k h) (padded k r)) in W' by (assumption || lia || (intros q Hq'; apply IH; lia)).
        replace (Z.succ p - k + (k - 1) + 1) with (Z.succ p) in W' by lia.
        destruct (decide (cut (padded k h) (Z.succ p))), (decide (cut (padded k r) (Z.succ p))); try tauto; lia. }
  apply cuts_unique; try assumption. intros p. destruct (decide (p < 1)) as [L|L]; [split; intros C; exfalso; apply cut_range in C; try assumption; lia|].
  assert (Q := K (p + Z.max 1 k) ltac:(lia) (p + Z.max 1 k) ltac:(lia)). rewrite !cuts_pad in Q by assumption. replace (p + Z.max 1 k - Z.max 1 k) with p in Q by lia.
  rewrite E in Q. split; intros C; pose proof C as C'; apply cut_range in C'; try assumption.
  - destruct (proj1 Q (or_intror (or_intror C))) as [A|[A|A]]; [lia|lia|exact A].
  - destruct (proj2 Q (or_intror (or_intror C))) as [A|[A|A]]; [lia|lia|exact A].
Qed.

Lemma one_zero h r n : Spec.positive h -> Spec.positive r -> h <> [] -> r <> [] -> zsum h = n -> zsum r = n -> pk_errors h r 1 n = 0 \/ wd_errors h r 1 n = 0 -> h = r.
Proof.
  intros Hh Hr Nh Nr Eh Er H.
  assert (W : forall i, 0 <= i < n - 1 -> (cut h (i + 1) <-> cut r (i + 1))).
  { intros i Hi. assert (D : ~ ((ncuts h i (i + 1) = 0 <-> ncuts r i (i + 1) <> 0)) \/ ncuts h i (i + 1) = ncuts r i (i + 1)).
    { destruct H as [H|H]; [left|right]; pose proof (proj1 (count_none _ _) H i) as W; rewrite elem_seqZ in W; specialize (W ltac:(lia)); cbn beta in W; [exact W|lia]. }
    rewrite !ncuts_step, !ncuts_none in D by (assumption || lia). destruct (decide (cut h (i + 1))), (decide (cut r (i + 1))); try tauto; exfalso; destruct D as [D|D]; try lia; apply D; lia. }
  apply cuts_unique; try assumption; [congruence|]. intros p. split; intros C; [pose proof (cut_range _ _ Hh C) as R|pose proof (cut_range _ _ Hr C) as R]; specialize (W (p - 1) ltac:(lia)); replace (p - 1 + 1) with p in W by lia; tauto.
Qed.

(** ** Blind spots *)

Lemma mod_one k c i : 0 <= c < k -> zlen (filter (fun p => (p - 1) mod k = c) (seqZ (i + 1) k)) = 1.
Proof.
  intros Hc. unfold zlen. rewrite filter_one.
  - rewrite decide_True; [reflexivity|]. apply Exists_exists. exists (i + 1 + (c - i) mod k). split.
    + apply elem_seqZ. pose proof (Z.mod_pos_bound (c - i) k ltac:(lia)). lia.
    + replace (i + 1 + (c - i) mod k - 1) with (i + (c - i) mod k) by lia. rewrite Z.add_mod_idemp_r by lia. replace (i + (c - i)) with c by lia. apply Z.mod_small. lia.
  - apply NoDup_seqZ.
  - intros p q Hp Hq Ep Eq. apply elem_seqZ in Hp. apply elem_seqZ in Hq. rewrite <- Eq in Ep.
    assert (D : (p - q) mod k = 0). { replace (p - q) with ((p - 1) - (q - 1)) by lia. rewrite Zminus_mod, Ep, Z.sub_diag. apply Z.mod_0_l. lia. }
    apply Z.mod_divide in D; [|lia]. destruct D as [z D]. assert (z = 0) by nia. subst z. lia.
Qed.

Lemma blind k n : 2 <= k < n -> exists h r, Spec.positive h /\ Spec.positive r /\ h <> [] /\ r <> [] /\ zsum h = n /\ zsum r = n /\ h <> r /\
  forall i, 0 <= i < n - k -> ncuts h i (i + k) = 1 /\ ncuts r i (i + k) = 1.
Proof.
  intros Hk. destruct (cuts_exist (fun p => (p - 1) mod k = 0) n ltac:(lia)) as (h & Ph & Nh & Eh & Ch). destruct (cuts_exist (fun p => (p - 1) mod k = 1) n ltac:(lia)) as (r & Pr & Nr & Er & Cr).
  exists h, r. repeat (split; [assumption|]). split.
  - intros ->. assert (C : cut r 1) by (apply Ch; split; [lia|reflexivity]). apply Cr in C as [_ C]. cbn in C. discriminate.
  - intros i Hi. rewrite !ncuts_count by (assumption || lia). split.
    + transitivity (zlen (filter (fun p => (p - 1) mod k = 0) (seqZ (i + 1) k))); [|apply mod_one; lia]. apply count_ext. intros p Hp. apply elem_seqZ in Hp. rewrite Ch. split; [tauto|]. intros K. split; [lia|exact K].
    + transitivity (zlen (filter (fun p => (p - 1) mod k = 1) (seqZ (i + 1) k))); [|apply mod_one; lia]. apply count_ext. intros p Hp. apply elem_seqZ in Hp. rewrite Cr. split; [tauto|]. intros K. split; [lia|exact K].
Qed.

(** ** Changing boundaries *)

Lemma count_at {X} `{!EqDecision X} (P : X -> Prop) `{dP : !forall x, Decision (P x)} (l : list X) g : NoDup l -> g ∈ l ->
  zlen (filter P l) = zlen (filter (fun p => P p /\ p <> g) l) + (if decide (P g) then 1 else 0).
Proof.
  unfold zlen. induction l as [|x l IH]; intros N H; [inversion H|]. apply NoDup_cons in N as [Nx N]. rewrite !filter_cons. apply elem_of_cons in H as [<-|H].
  - rewrite (decide_False (P := P g /\ g <> g)) by tauto.
    assert (E : length (filter P l) = length (filter (fun p => P p /\ p <> g) l)).
    { apply Nat2Z.inj. apply count_ext. intros y Hy. split; [|tauto]. intros K. split; [exact K|]. intros ->. contradiction. }
    destruct (decide (P g)); cbn [length]; lia.
  - specialize (IH N H). assert (x <> g) by (intros ->; contradiction). destruct (decide (P x)) as [K|K].
    + rewrite decide_True by tauto. cbn [length]. lia.
    + rewrite decide_False by tauto. exact IH.
Qed.

Lemma windows_count k n a b : 0 <= a -> zlen (filter (fun i => a <= i < b) (seqZ 0 (n - k))) <= Z.max 0 (b - a).
Proof.
  intros Ha. destruct (decide (0 <= n - k)) as [L|L]; [rewrite count_interval by exact L; lia|]. rewrite seqZ_nil by lia. unfold zlen. cbn. lia.
Qed.
Lemma over_count k n g : 0 <= k < n -> 0 < g < n -> zlen (filter (fun i => i < g <= i + k) (seqZ 0 (n - k))) = windows_over k n g.
Proof.
  intros Hk Hg. transitivity (zlen (filter (fun i => g - k <= i < g) (seqZ 0 (n - k)))); [apply count_ext; intros; lia|]. rewrite count_interval by lia. unfold windows_over. lia.
Qed.

Lemma over_le k n g : 0 <= k -> zlen (filter (fun i => i < g <= i + k) (seqZ 0 (n - k))) <= k.
Proof.
  intros Hk. destruct (decide (0 <= n - k)) as [L|L]; [|rewrite seqZ_nil by lia; unfold zlen; cbn; lia].
  transitivity (zlen (filter (fun i => g - k <= i < g) (seqZ 0 (n - k)))); [apply count_mono; intros; lia|]. rewrite count_interval by exact L. lia.
Qed.

Lemma wd_change D h h' k n : Spec.positive h -> Spec.positive h' -> 0 <= k -> same_but D h h' -> wd_errors h h' k n <= k * zlen D.
Proof.
  intros Hh Hh' Hk H. transitivity (zlen (filter (fun i => Exists (fun g => i < g <= i + k) D) (seqZ 0 (n - k)))).
  - apply count_mono. intros i _ K. destruct (decide (Exists (fun g => i < g <= i + k) D)) as [E|E]; [exact E|]. exfalso. apply K. apply ncuts_same; [assumption|assumption|assumption|].
    intros p Hp. apply H. intros Q. apply E, Exists_exists. exists p. split; [exact Q|lia].
  - clear H. induction D as [|g D IH].
    + assert (E : zlen (filter (fun i => Exists (fun g => i < g <= i + k) []) (seqZ 0 (n - k))) = 0) by (apply count_none; intros i _ K; inversion K). rewrite E. unfold zlen. cbn. lia.
    + etransitivity; [apply (count_cover _ (fun i => i < g <= i + k) (fun i => Exists (fun g => i < g <= i + k) D)); intros i _ K; inversion K; auto|].
      pose proof (over_le k n g Hk). unfold zlen in *. cbn [length]. lia.
Qed.

Lemma wd_one g h h' k n : Spec.positive h -> Spec.positive h' -> 0 <= k < n -> 0 < g < n -> same_but [g] h h' -> (cut h g <-> ~ cut h' g) ->
  wd_errors h h' k n = windows_over k n g.
Proof.
  intros Hh Hh' Hk Hg H X. rewrite <- over_count by assumption. apply count_ext. intros i Hi. apply elem_seqZ in Hi.
  destruct (decide (i < g <= i + k)) as [W|W].
  - split; [intros _; exact W|]. intros _. rewrite !ncuts_count by (assumption || lia). rewrite (count_at (cut h) _ g), (count_at (cut h') _ g); [|apply NoDup_seqZ|apply elem_seqZ; lia|apply NoDup_seqZ|apply elem_seqZ; lia].
    assert (E : zlen (filter (fun p => cut h p /\ p <> g) (seqZ (i + 1) k)) = zlen (filter (fun p => cut h' p /\ p <> g) (seqZ (i + 1) k))).
    { apply count_ext. intros p _. specialize (H p). rewrite elem_of_list_singleton in H. tauto. }
    rewrite E. destruct (decide (cut h g)), (decide (cut h' g)); try tauto; lia.
  - split; [|contradiction]. intros K. exfalso. apply K. apply ncuts_same; [assumption|assumption|lia|]. intros p Hp. apply H. rewrite elem_of_list_singleton. intros ->. lia.
Qed.

Lemma wd_moved g g' h h' k n : Spec.positive h -> Spec.positive h' -> 0 <= k -> 0 < g < g' -> same_but [g; g'] h h' ->
  cut h g /\ ~ cut h g' /\ ~ cut h' g /\ cut h' g' \/ cut h' g /\ ~ cut h' g' /\ ~ cut h g /\ cut h g' ->
  wd_errors h h' k n <= 2 * Z.min k (g' - g).
Proof.
  intros Hh Hh' Hk Hg H X.
  assert (B : forall i, i < g -> g' <= i + k -> ncuts h i (i + k) = ncuts h' i (i + k)).
  { intros i L1 L2. rewrite !ncuts_count by assumption.
    rewrite (count_at (cut h) _ g), (count_at (cut h') _ g); [|apply NoDup_seqZ|apply elem_seqZ; lia|apply NoDup_seqZ|apply elem_seqZ; lia].
    rewrite (count_at (fun p => cut h p /\ p <> g) _ g'), (count_at (fun p => cut h' p /\ p <> g) _ g'); [|apply NoDup_seqZ|apply elem_seqZ; lia|apply NoDup_seqZ|apply elem_seqZ; lia].
    assert (E : zlen (filter (fun p => (cut h p /\ p <> g) /\ p <> g') (seqZ (i + 1) k)) = zlen (filter (fun p => (cut h' p /\ p <> g) /\ p <> g') (seqZ (i + 1) k))).
    { apply count_ext. intros p _. specialize (H p). rewrite elem_of_cons, elem_of_list_singleton in H. tauto. }
    rewrite E. assert (N : g <> g') by lia. destruct (decide (cut h g)), (decide (cut h' g)), (decide (cut h g' /\ g' <> g)), (decide (cut h' g' /\ g' <> g)); try lia; exfalso; assert (g' <> g) by lia; tauto. }
  transitivity (zlen (filter (fun i => Z.max 0 (g - k) <= i < Z.min g (g' - k)) (seqZ 0 (n - k))) + zlen (filter (fun i => Z.max g (g' - k) <= i < g') (seqZ 0 (n - k)))).
  - apply count_cover. intros i Hi K. apply elem_seqZ in Hi. destruct (decide (i < g <= i + k)) as [W|W], (decide (i < g' <= i + k)) as [W'|W'].
    + exfalso. apply K, B; lia.
    + left. lia.
    + right. lia.
    + exfalso. apply K, ncuts_same; [assumption|assumption|assumption|]. intros p Hp. apply H. rewrite elem_of_cons, elem_of_list_singleton. intros [->| ->]; lia.
  - pose proof (windows_count k n (Z.max 0 (g - k)) (Z.min g (g' - k)) ltac:(lia)). pose proof (windows_count k n (Z.max g (g' - k)) g' ltac:(lia)). lia.
Qed.

Lemma wd_lipschitz h h' r k n : Z.abs (wd_errors h r k n - wd_errors h' r k n) <= wd_errors h h' k n.
Proof. pose proof (wd_triangle h h' r k n). pose proof (wd_triangle h' h r k n). rewrite (wd_errors_sym h' h) in *. lia. Qed.
Lemma pk_lipschitz h h' r k n : Z.abs (pk_errors h r k n - pk_errors h' r k n) <= pk_errors h h' k n.
Proof. pose proof (pk_triangle h h' r k n). pose proof (pk_triangle h' h r k n). rewrite (pk_errors_sym h' h) in *. lia. Qed.

(** ** The correction of Lamprier et al. *)

Lemma same_but_pad D k h h' : h <> [] -> h' <> [] -> zsum h = zsum h' -> same_but D h h' -> same_but ((fun g => g + Z.max 1 k) <$> D) (padded k h) (padded k h').
Proof.
  intros N N' E H p Hp. rewrite !cuts_pad by assumption. rewrite E. specialize (H (p - Z.max 1 k)). assert (K : p - Z.max 1 k ∉ D); [|tauto].
  intros Q. apply Hp. apply elem_of_list_fmap. exists (p - Z.max 1 k). split; [lia|exact Q].
Qed.

Lemma cut_pad_in k m p : Spec.positive m -> m <> [] -> 0 < p < zsum m -> cut (padded k m) (p + Z.max 1 k) <-> cut m p.
Proof. intros H N Hp. rewrite cuts_pad by exact N. replace (p + Z.max 1 k - Z.max 1 k) with p by lia. split; [intros [?|[?|?]]; [lia|lia|assumption]|auto]. Qed.

Lemma lamprier_one g h h' k : Spec.positive h -> Spec.positive h' -> h <> [] -> h' <> [] -> zsum h = zsum h' -> 1 <= k -> 0 < g < zsum h -> same_but [g] h h' -> (cut h g <-> ~ cut h' g) ->
  wd_errors (padded k h) (padded k h') k (zsum h' + 2 * Z.max 1 k) = k.
Proof.
  intros Hh Hh' N N' E Hk Hg H X. rewrite (wd_one (g + Z.max 1 k)).
  - unfold windows_over. lia.
  - apply padded_positive, Hh.
  - apply padded_positive, Hh'.
  - lia.
  - lia.
  - apply (same_but_pad [g] k h h' N N' E H).
  - rewrite !cut_pad_in by (assumption || lia). exact X.
Qed.

Lemma lamprier_max h r k : Spec.positive h -> Spec.positive r -> h <> [] -> r <> [] -> zsum h = zsum r -> 1 <= k ->
  wd_errors (padded k h) (padded k r) k (zsum r + 2 * Z.max 1 k) <= zsum r + k - 2.
Proof.
  intros Hh Hr N N' E Hk. pose proof (positive_sum_pos r Hr N').
  transitivity (zlen (filter (fun i => 1 <= i < zsum r + k - 1) (seqZ 0 (zsum r + 2 * Z.max 1 k - k)))); [|rewrite count_interval by lia; lia].
  apply count_mono. intros i Hi K. apply elem_seqZ in Hi. destruct (decide (1 <= i < zsum r + k - 1)) as [W|W]; [exact W|]. exfalso. apply K.
  apply ncuts_same; [apply padded_positive, Hh|apply padded_positive, Hr|lia|]. intros p Hp. rewrite !cuts_pad by assumption. rewrite E.
  assert (A : ~ cut h (p - Z.max 1 k)) by (intros C; apply (cut_range _ _ Hh) in C; lia). assert (B : ~ cut r (p - Z.max 1 k)) by (intros C; apply (cut_range _ _ Hr) in C; lia). tauto.
Qed.

Lemma ncuts_more h h' u j g : Spec.positive h -> Spec.positive h' -> 0 <= j -> (forall p, cut h p -> cut h' p) -> u < g <= u + j -> cut h' g -> ~ cut h g ->
  ncuts h u (u + j) < ncuts h' u (u + j).
Proof.
  intros Hh Hh' Hj H Hg C N. rewrite !ncuts_count by assumption. rewrite (count_at (cut h) _ g), (count_at (cut h') _ g); [|apply NoDup_seqZ|apply elem_seqZ; lia|apply NoDup_seqZ|apply elem_seqZ; lia].
  rewrite (decide_False (P := cut h g)), (decide_True (P := cut h' g)) by assumption.
  pose proof (count_mono (fun p => cut h p /\ p <> g) (fun p => cut h' p /\ p <> g) (seqZ (u + 1) j) ltac:(intros p _ [K1 K2]; auto)). lia.
Qed.

Lemma lamprier_attained n k : 2 <= n -> 1 <= k -> exists h r, Spec.positive h /\ Spec.positive r /\ h <> [] /\ r <> [] /\ zsum h = n /\ zsum r = n /\
  wd_errors (padded k h) (padded k r) k (n + 2 * Z.max 1 k) = n + k - 2.
Proof.
  intros Hn Hk. destruct (cuts_exist (fun _ => True) n ltac:(lia)) as (h & Ph & Nh & Eh & Ch).
  assert (Pn : Spec.positive [n]) by (repeat constructor; lia).
  exists h, [n]. split; [exact Ph|]. split; [exact Pn|]. split; [exact Nh|]. split; [discriminate|]. split; [exact Eh|].
  assert (En : zsum [n] = n) by (cbn; lia). split; [exact En|].
  apply Z.le_antisymm.
  - pose proof (lamprier_max h [n] k Ph Pn Nh ltac:(discriminate) ltac:(lia) Hk) as K. rewrite En in K. exact K.
  - transitivity (zlen (filter (fun i => 1 <= i < n + k - 1) (seqZ 0 (n + 2 * Z.max 1 k - k)))); [rewrite count_interval by lia; lia|].
    apply count_mono. intros i Hi K. enough (ncuts (padded k [n]) i (i + k) < ncuts (padded k h) i (i + k)) by lia.
    assert (Hc : forall p, cut (padded k [n]) p -> cut (padded k h) p).
    { intros p. rewrite !cuts_pad by (assumption || discriminate). rewrite Eh, En. intros [?|[?|C]]; [auto|auto|]. exfalso. exact (cut_one _ _ C). }
    assert (H : exists g, 0 < g < n /\ i < g + Z.max 1 k <= i + k). { destruct (decide (i <= k)); [exists 1|exists (i - k + 1)]; lia. }
    destruct H as (g & G1 & G2). apply (ncuts_more _ _ i k (g + Z.max 1 k)); [apply padded_positive, Pn|apply padded_positive, Ph|lia|exact Hc|exact G2| |].
    + apply cut_pad_in; [assumption..|lia|]. apply Ch. auto with lia.
    + rewrite cut_pad_in; [apply cut_one|assumption|discriminate|lia].
Qed.

(** ** The metrics *)

Lemma pk_parts A rnd f n k x y sx sy : coded f n x sx -> coded f n y sy -> 0 <= k < n ->
  pk A rnd f (Some k) false true sx sy = Ok (WParts (pk_errors x y k n) (n - k)).
Proof. intros (Px & Nx & Ex & Cx) (Py & Ny & Ey & Cy) Hk. rewrite (pk_masses A rnd f x y) by (assumption || lia). rewrite Ey. reflexivity. Qed.

(** What WindowDiff counts. *)
Definition wd_count (lam : bool) (x y : list Z) (k n : Z) : Z :=
  if lam then wd_errors (padded k x) (padded k y) k (n + 2 * Z.max 1 k) else wd_errors x y k n.
Definition wd_den (lam : bool) (k n : Z) : Z := if lam then n + 2 * Z.max 1 k - k + 1 else n - k.

Lemma wd_any A rnd f n k lam x y sx sy om rp : sane A -> coded f n x sx -> coded f n y sy -> wd_window lam f n k [sx; sy] ->
  window_diff A rnd f (Some k) lam om rp sx sy = wd_result A om rp (wd_count lam x y k n) (wd_den lam k n).
Proof.
  intros HA (Px & Nx & Ex & Cx) (Py & Ny & Ey & Cy) (Hk & H0 & H1). destruct lam.
  - specialize (H1 eq_refl). apply Forall_cons in H1 as [E1 H1]. apply Forall_cons in H1 as [E2 _].
    rewrite (wd_lamprier A rnd f x y) by (assumption || lia). rewrite Ey. reflexivity.
  - specialize (H0 eq_refl). rewrite (wd_masses A rnd f x y) by (assumption || lia). rewrite Ey. reflexivity.
Qed.

Lemma wd_parts A rnd f n k lam x y sx sy : sane A -> coded f n x sx -> coded f n y sy -> wd_window lam f n k [sx; sy] ->
  window_diff A rnd f (Some k) lam false true sx sy = Ok (WParts (wd_count lam x y k n) (wd_den lam k n)).
Proof. intros. rewrite (wd_any A rnd f n k lam x y) by assumption. reflexivity. Qed.

Lemma window_sub lam f n k l l' : l' ⊆ l -> wd_window lam f n k l -> wd_window lam f n k l'.
Proof.
  intros H (H1 & H2 & H3). split; [exact H1|]. split; [exact H2|]. intros E. specialize (H3 E). rewrite Forall_forall in *. intros s Hs. apply H3, H, Hs.
Qed.

Lemma wd_count_triangle lam x y z k n : wd_count lam x z k n <= wd_count lam x y k n + wd_count lam y z k n.
Proof. destruct lam; apply wd_triangle. Qed.

Section Three.
Context (f : fmt) (n : Z) (x y z : list Z) (sx sy sz : seg) (Cx : coded f n x sx) (Cy : coded f n y sy) (Cz : coded f n z sz).

Lemma pk_three A rnd k : 0 <= k < n -> exists a b c, pk A rnd f (Some k) false true sx sy = Ok (WParts a (n - k)) /\
  pk A rnd f (Some k) false true sy sz = Ok (WParts b (n - k)) /\ pk A rnd f (Some k) false true sx sz = Ok (WParts c (n - k)) /\ c <= a + b.
Proof.
  intros Hk. rewrite (pk_parts A rnd f n k x y), (pk_parts A rnd f n k y z), (pk_parts A rnd f n k x z) by assumption.
  eexists _, _, _. split; [reflexivity|]. split; [reflexivity|]. split; [reflexivity|]. apply pk_triangle.
Qed.

Lemma wd_three A rnd k lam : sane A -> wd_window lam f n k [sx; sy; sz] -> exists a b c d, window_diff A rnd f (Some k) lam false true sx sy = Ok (WParts a d) /\
  window_diff A rnd f (Some k) lam false true sy sz = Ok (WParts b d) /\ window_diff A rnd f (Some k) lam false true sx sz = Ok (WParts c d) /\ c <= a + b.
Proof.
  intros HA Hw. rewrite (wd_parts A rnd f n k lam x y), (wd_parts A rnd f n k lam y z), (wd_parts A rnd f n k lam x z);
    try assumption; try (eapply window_sub; [|exact Hw]; set_solver).
  eexists _, _, _, _. split; [reflexivity|]. split; [reflexivity|]. split; [reflexivity|]. apply wd_count_triangle.
Qed.

Lemma quotient_triangle a b c d : 0 < d -> c <= a + b ->
  (Qred (inject_Z c / inject_Z d) <= Qred (inject_Z a / inject_Z d) + Qred (inject_Z b / inject_Z d))%Q.
Proof.
  intros Hd H. rewrite !Qred_correct. assert (0 < inject_Z d)%Q by (change 0%Q with (inject_Z 0); rewrite <- Zlt_Qlt; exact Hd).
  setoid_replace (inject_Z a / inject_Z d + inject_Z b / inject_Z d)%Q with ((inject_Z a + inject_Z b) / inject_Z d)%Q by (field; lra).
  unfold Qdiv. apply Qmult_le_compat_r; [|apply Qlt_le_weak, Qinv_lt_0_compat; assumption]. rewrite <- inject_Z_plus, <- Zle_Qle. exact H.
Qed.

Lemma pk_three_exact rnd k : 0 <= k < n -> exists a b c, pk exactA rnd f (Some k) false false sx sy = Ok (WVal (NDec a)) /\
  pk exactA rnd f (Some k) false false sy sz = Ok (WVal (NDec b)) /\ pk exactA rnd f (Some k) false false sx sz = Ok (WVal (NDec c)) /\ (c <= a + b)%Q.
Proof.
  intros Hk. destruct Cx as (Px & Nx & Ex & Wx), Cy as (Py & Ny & Ey & Wy), Cz as (Pz & Nz & Ez & Wz).
  rewrite (pk_masses exactA rnd f x y), (pk_masses exactA rnd f y z), (pk_masses exactA rnd f x z) by (assumption || lia).
  eexists _, _, _. split; [reflexivity|]. split; [reflexivity|]. split; [reflexivity|]. rewrite Ey, Ez. apply quotient_triangle; [lia|apply pk_triangle].
Qed.

Lemma wd_three_exact rnd k lam : wd_window lam f n k [sx; sy; sz] -> exists a b c, window_diff exactA rnd f (Some k) lam false false sx sy = Ok (WVal (NDec a)) /\
  window_diff exactA rnd f (Some k) lam false false sy sz = Ok (WVal (NDec b)) /\ window_diff exactA rnd f (Some k) lam false false sx sz = Ok (WVal (NDec c)) /\ (c <= a + b)%Q.
Proof.
  intros Hw. rewrite (wd_any exactA rnd f n k lam x y), (wd_any exactA rnd f n k lam y z), (wd_any exactA rnd f n k lam x z);
    try assumption; try apply sane_exactA; try (eapply window_sub; [|exact Hw]; set_solver).
  eexists _, _, _. split; [reflexivity|]. split; [reflexivity|]. split; [reflexivity|]. apply quotient_triangle; [|apply wd_count_triangle].
  destruct Hw as (Hk & H0 & _), Cx as (Px & Nx & Ex & _). pose proof (positive_sum_pos x Px Nx). unfold wd_den. destruct lam; [lia|]. specialize (H0 eq_refl). lia.
Qed.
End Three.

Section Two.
Context (f : fmt) (n : Z) (x y : list Z) (sx sy : seg) (Cx : coded f n x sx) (Cy : coded f n y sy).

Lemma pk_zero_one A rnd d : 1 < n -> pk A rnd f (Some 1) false true sx sy = Ok (WParts 0 d) -> x = y.
Proof.
  intros Hn. rewrite (pk_parts A rnd f n 1 x y) by (assumption || lia). intros [= H _]. destruct Cx as (Px & Nx & Ex & _), Cy as (Py & Ny & Ey & _).
  apply (one_zero x y n); auto.
Qed.

Lemma wd_zero_one A rnd d : sane A -> 1 < n -> window_diff A rnd f (Some 1) false false true sx sy = Ok (WParts 0 d) -> x = y.
Proof.
  intros HA Hn. rewrite (wd_parts A rnd f n 1 false x y); [|assumption..|]. 2:{ split; [lia|]. split; [auto|discriminate]. }
  intros [= H _]. destruct Cx as (Px & Nx & Ex & _), Cy as (Py & Ny & Ey & _). apply (one_zero x y n); auto.
Qed.

Lemma wd_zero_lamprier A rnd k d : sane A -> 1 <= k -> wd_window true f n k [sx; sy] -> window_diff A rnd f (Some k) true false true sx sy = Ok (WParts 0 d) -> x = y.
Proof.
  intros HA Hk Hw. rewrite (wd_parts A rnd f n k true x y) by assumption.
  intros [= H _]. destruct Cx as (Px & Nx & Ex & _), Cy as (Py & Ny & Ey & _). apply (lamprier_zero x y k); try assumption; [lia|]. rewrite Ey. exact H.
Qed.

Lemma wd_one_gap A rnd k g : sane A -> 0 <= k <= 255 -> k < n -> 0 < g < n -> same_but [g] x y -> (cut x g <-> ~ cut y g) ->
  window_diff A rnd f (Some k) false false true sx sy = Ok (WParts (windows_over k n g) (n - k)).
Proof.
  intros HA Hk Hn Hg HS HC. rewrite (wd_parts A rnd f n k false x y); [|assumption..|]. 2:{ split; [lia|]. split; [auto|discriminate]. }
  destruct Cx as (Px & _), Cy as (Py & _). cbn [wd_count wd_den]. rewrite (wd_one g) by (assumption || lia). reflexivity.
Qed.

Lemma wd_one_gap_lamprier A rnd k g : sane A -> 1 <= k -> wd_window true f n k [sx; sy] -> 0 < g < n -> same_but [g] x y -> (cut x g <-> ~ cut y g) ->
  window_diff A rnd f (Some k) true false true sx sy = Ok (WParts k (n + k + 1)).
Proof.
  intros HA Hk Hw Hg HS HC. rewrite (wd_parts A rnd f n k true x y) by assumption. destruct Cx as (Px & Nx & Ex & _), Cy as (Py & Ny & Ey & _). cbn [wd_count wd_den].
  rewrite <- Ey at 1. rewrite (lamprier_one g) by (assumption || lia). do 2 f_equal. lia.
Qed.

Lemma wd_moved_gap A rnd k lam g g' : sane A -> wd_window lam f n k [sx; sy] -> 0 < g < g' -> g' < n -> same_but [g; g'] x y ->
  cut x g /\ ~ cut x g' /\ ~ cut y g /\ cut y g' ->
  exists c d, window_diff A rnd f (Some k) lam false true sx sy = Ok (WParts c d) /\ c <= 2 * Z.min k (g' - g).
Proof.
  intros HA Hw Hg Hg' HS HC. rewrite (wd_parts A rnd f n k lam x y) by assumption. destruct Cx as (Px & Nx & Ex & _), Cy as (Py & Ny & Ey & _).
  destruct Hw as (Hk & _ & _). eexists _, _. split; [reflexivity|]. destruct lam; cbn [wd_count].
  - replace (g' - g) with (g' + Z.max 1 k - (g + Z.max 1 k)) by lia. apply wd_moved; [apply padded_positive, Px|apply padded_positive, Py|lia|lia| |].
    + apply (same_but_pad [g; g'] k x y Nx Ny ltac:(lia) HS).
    + left. rewrite !cut_pad_in by (assumption || lia). exact HC.
  - apply wd_moved; try assumption; [lia|]. left. exact HC.
Qed.

Lemma wd_lamprier_bound A rnd k : sane A -> 1 <= k -> wd_window true f n k [sx; sy] ->
  exists c, window_diff A rnd f (Some k) true false true sx sy = Ok (WParts c (n + k + 1)) /\ 0 <= c <= n + k - 2.
Proof.
  intros HA Hk Hw. rewrite (wd_parts A rnd f n k true x y) by assumption. destruct Cx as (Px & Nx & Ex & _), Cy as (Py & Ny & Ey & _). cbn [wd_count wd_den].
  eexists. split; [do 2 f_equal; lia|]. split; [unfold wd_errors, zlen; lia|]. rewrite <- Ey. apply lamprier_max; try assumption; lia.
Qed.

Context (z : list Z) (sz : seg) (Cz : coded f n z sz) (D : list Z) (HD : same_but D x y).

Lemma pk_change_bound A rnd k : 0 <= k < n -> exists a b, pk A rnd f (Some k) false true sx sz = Ok (WParts a (n - k)) /\
  pk A rnd f (Some k) false true sy sz = Ok (WParts b (n - k)) /\ Z.abs (a - b) <= k * zlen D.
Proof.
  intros Hk. rewrite (pk_parts A rnd f n k x z), (pk_parts A rnd f n k y z) by assumption. eexists _, _. split; [reflexivity|]. split; [reflexivity|].
  destruct Cx as (Px & _), Cy as (Py & _). pose proof (pk_lipschitz x y z k n). pose proof (pk_wd_errors x y k n). pose proof (wd_change D x y k n Px Py ltac:(lia) HD). lia.
Qed.

Lemma wd_change_bound A rnd k lam : sane A -> wd_window lam f n k [sx; sy; sz] -> exists a b d, window_diff A rnd f (Some k) lam false true sx sz = Ok (WParts a d) /\
  window_diff A rnd f (Some k) lam false true sy sz = Ok (WParts b d) /\ Z.abs (a - b) <= k * zlen D.
Proof.
  intros HA Hw. rewrite (wd_parts A rnd f n k lam x z), (wd_parts A rnd f n k lam y z); try assumption; try (eapply window_sub; [|exact Hw]; set_solver).
  eexists _, _, _. split; [reflexivity|]. split; [reflexivity|]. destruct Cx as (Px & Nx & Ex & _), Cy as (Py & Ny & Ey & _), Hw as (Hk & _ & _).
  destruct lam; cbn [wd_count].
  - match goal with |- Z.abs (wd_errors ?a ?c k ?m - wd_errors ?b ?c k ?m) <= _ => pose proof (wd_lipschitz a b c k m);
      pose proof (wd_change _ a b k m (padded_positive _ _ Px) (padded_positive _ _ Py) ltac:(lia) (same_but_pad D k x y Nx Ny ltac:(lia) HD)) as K end.
    unfold zlen in *. rewrite fmap_length in K. lia.
  - pose proof (wd_lipschitz x y z k n). pose proof (wd_change D x y k n Px Py ltac:(lia) HD). lia.
Qed.
End Two.

Lemma mass_coded n m : Spec.positive m -> m <> [] -> zsum m = n -> coded FMass n m (Ints (ints m)).
Proof. intros. repeat split; try assumption. cbn. unfold ints. rewrite <- list_fmap_compose. exact (list_fmap_id m). Qed.

Lemma blind_metrics n k : 2 <= k < n -> exists h r, Spec.positive h /\ Spec.positive r /\ zsum h = n /\ zsum r = n /\ h <> r /\
  forall A rnd, pk A rnd FMass (Some k) false true (Ints (ints h)) (Ints (ints r)) = Ok (WParts 0 (n - k)) /\
    (sane A -> k <= 255 -> window_diff A rnd FMass (Some k) false false true (Ints (ints h)) (Ints (ints r)) = Ok (WParts 0 (n - k))).
Proof.
  intros Hk. destruct (blind k n Hk) as (h & r & Ph & Pr & Nh & Nr & Eh & Er & Ne & W). exists h, r. repeat (split; [assumption|]). intros A rnd.
  split.
  - rewrite (pk_parts A rnd FMass n k h r); [|apply mass_coded; assumption|apply mass_coded; assumption|lia]. do 2 f_equal. apply count_none. intros i Hi. apply elem_seqZ in Hi.
    destruct (W i ltac:(lia)) as [-> ->]. lia.
  - intros HA Hk'. rewrite (wd_parts A rnd FMass n k false h r); [|assumption|apply mass_coded; assumption|apply mass_coded; assumption|split; [lia|]; split; [lia|discriminate]].
    do 2 f_equal. apply count_none. intros i Hi. apply elem_seqZ in Hi. destruct (W i ltac:(lia)) as [-> ->]. lia.
Qed.

Lemma lamprier_tight n k : 2 <= n -> 1 <= k <= 255 -> exists h r, Spec.positive h /\ Spec.positive r /\ zsum h = n /\ zsum r = n /\
  forall A rnd, sane A -> window_diff A rnd FMass (Some k) true false true (Ints (ints h)) (Ints (ints r)) = Ok (WParts (n + k - 2) (n + k + 1)).
Proof.
  intros Hn Hk. destruct (lamprier_attained n k Hn ltac:(lia)) as (h & r & Ph & Pr & Nh & Nr & Eh & Er & K). exists h, r. repeat (split; [assumption|]). intros A rnd HA.
  rewrite (wd_parts A rnd FMass n k true h r); [|assumption|apply mass_coded; assumption|apply mass_coded; assumption|split; [lia|]; split; [discriminate|repeat constructor]].
  cbn [wd_count wd_den]. rewrite K. do 2 f_equal. lia.
Qed.
