(** Proofs about format conversion. *)
From Verif Require Import Format Spec.
Open Scope Z_scope.

(** ** Sums and prefixes *)

Lemma zsum_cons x l : zsum (x :: l) = x + zsum l.
Proof. reflexivity. Qed.

Lemma zsum_app l m : zsum (l ++ m) = zsum l + zsum m.
Proof. induction l as [|x l IH]; cbn [app]; rewrite ?zsum_cons; [reflexivity|lia]. Qed.

Lemma positive_cons x m : positive (x :: m) <-> 1 <= x /\ positive m.
Proof. apply Forall_cons. Qed.

Lemma positive_sum m : positive m -> zlen m <= zsum m.
Proof.
  unfold zlen. induction m as [|x m IH]; intros H; [cbn; lia|].
  apply positive_cons in H as [Hx Hm]. rewrite zsum_cons. cbn [length]. specialize (IH Hm). lia.
Qed.

Lemma positive_sum_0 m : positive m -> 0 <= zsum m.
Proof. intros H. apply positive_sum in H. unfold zlen in H. lia. Qed.

Lemma positive_sum_pos m : positive m -> m <> [] -> 1 <= zsum m.
Proof. intros H Hm. apply positive_sum in H. destruct m; [congruence|]. unfold zlen in H. cbn [length] in H. lia. Qed.

Lemma positive_take k m : positive m -> positive (take k m).
Proof. apply Forall_take. Qed.

Lemma cut_nil p : ~ cut [] p.
Proof. intros (k & Hk & _). cbn in Hk. lia. Qed.

Lemma cut_one x p : ~ cut [x] p.
Proof. intros (k & Hk & _). cbn in Hk. lia. Qed.

Lemma cut_cons x m p : m <> [] -> cut (x :: m) p <-> p = x \/ cut m (p - x).
Proof.
  intros Hm. split.
  - intros (k & Hk & Hs). destruct k as [|k]; [lia|]. cbn [take] in Hs. rewrite zsum_cons in Hs.
    destruct k as [|k].
    + left. change (zsum (take 0 m)) with 0 in Hs. lia.
    + right. exists (S k). split; [cbn in Hk; lia|lia].
  - intros [->|(k & Hk & Hs)].
    + exists 1%nat. split; [destruct m; [congruence|cbn; lia]|]. change (x + 0 = x). lia.
    + exists (S k). split; [cbn; lia|]. cbn [take]. rewrite zsum_cons. lia.
Qed.

Lemma cut_range m p : positive m -> cut m p -> 1 <= p < zsum m.
Proof.
  revert p. induction m as [|x m IH]; intros p H HC; [destruct (cut_nil _ HC)|].
  apply positive_cons in H as [Hx Hm]. rewrite zsum_cons.
  destruct (decide (m = [])) as [->|Hne]; [destruct (cut_one _ _ HC)|].
  pose proof (positive_sum_pos m Hm Hne).
  apply cut_cons in HC as [->|HC]; [lia|auto|assumption].
  specialize (IH _ Hm HC). lia.
Qed.

(** ** Runs *)

Section Runs.
Context {A : Type} `{EqDecision A}.

Lemma group_lengths_cons2 (x y : A) l :
  group_lengths (x :: y :: l) =
    if decide (x = y) then match group_lengths (y :: l) with c :: cs => (c + 1) :: cs | [] => [1] end
    else 1 :: group_lengths (y :: l).
Proof.
  assert (group_lengths (y :: l) <> []).
  { cbn. destruct l; [congruence|]. destruct (group_lengths _); [congruence|]. destruct (decide _); congruence. }
  change (group_lengths (x :: y :: l)) with
    (match group_lengths (y :: l) with c :: cs => if decide (x = y) then (c + 1) :: cs else 1 :: group_lengths (y :: l) | [] => [1] end).
  destruct (group_lengths (y :: l)); [congruence|]. destruct (decide (x = y)); reflexivity.
Qed.

Lemma group_lengths_nonempty (x : A) l : group_lengths (x :: l) <> [].
Proof.
  destruct l as [|y l]; [cbn; congruence|]. rewrite group_lengths_cons2.
  destruct (decide (x = y)); [|congruence]. destruct (group_lengths (y :: l)); congruence.
Qed.

Lemma group_lengths_run (x : A) n l :
  (forall y l', l = y :: l' -> x <> y) ->
  group_lengths (replicate (S n) x ++ l) = Z.of_nat (S n) :: group_lengths l.
Proof.
  intros Hl. induction n as [|n IH].
  - cbn [replicate app]. destruct l as [|y l]; [reflexivity|].
    rewrite group_lengths_cons2. destruct (decide (x = y)) as [e|e]; [destruct (Hl _ _ eq_refl e)|reflexivity].
  - change (replicate (S (S n)) x ++ l) with (x :: x :: (replicate n x ++ l)).
    rewrite group_lengths_cons2. destruct (decide (x = x)); [|congruence].
    change (x :: replicate n x ++ l) with (replicate (S n) x ++ l). rewrite IH. f_equal. lia.
Qed.

Lemma group_lengths_positive (l : list A) : positive (group_lengths l).
Proof.
  induction l as [|x l IH]; [constructor|]. destruct l as [|y l]; [repeat constructor; lia|].
  rewrite group_lengths_cons2. destruct (decide (x = y)).
  - destruct (group_lengths (y :: l)) as [|c cs]; [repeat constructor; lia|].
    apply positive_cons in IH as [? ?]. apply positive_cons. split; [lia|assumption].
  - apply positive_cons. split; [lia|assumption].
Qed.

Lemma group_lengths_sum (l : list A) : zsum (group_lengths l) = zlen l.
Proof.
  unfold zlen. induction l as [|x l IH]; [reflexivity|]. destruct l as [|y l]; [reflexivity|].
  rewrite group_lengths_cons2.
  pose proof (group_lengths_nonempty y l) as Hne.
  destruct (group_lengths (y :: l)) as [|c cs]; [congruence|].
  destruct (decide (x = y)).
  - rewrite zsum_cons in *. cbn [length] in *. lia.
  - rewrite zsum_cons, IH. cbn [length]. lia.
Qed.

Lemma group_lengths_cut (l : list A) (i : nat) (x y : A) :
  l !! i = Some x -> l !! S i = Some y ->
  cut (group_lengths l) (Z.of_nat (S i)) <-> x <> y.
Proof.
  revert i x y. induction l as [|u l IH]; intros i x y Hx Hy; [discriminate|].
  destruct l as [|v l]; [destruct i; discriminate|].
  rewrite group_lengths_cons2.
  pose proof (group_lengths_nonempty v l) as Hne.
  pose proof (group_lengths_positive (v :: l)) as Hpos.
  assert (HR : forall i x y, (v :: l) !! i = Some x -> (v :: l) !! S i = Some y ->
     cut (group_lengths (v :: l)) (Z.of_nat (S i)) ↔ x ≠ y) by (intros; apply IH; assumption).
  clear IH.
  destruct (group_lengths (v :: l)) as [|c cs] eqn:EG; [congruence|]. clear Hne.
  apply positive_cons in Hpos as [Hc Hcs].
  assert (HS : cut ((c + 1) :: cs) (Z.of_nat (S i)) <-> cut (c :: cs) (Z.of_nat (S i) - 1)).
  { destruct (decide (cs = [])) as [->|Hn].
    - split; intros H; exfalso; exact (cut_one _ _ H).
    - rewrite !cut_cons by assumption.
      replace (Z.of_nat (S i) - (c + 1)) with (Z.of_nat (S i) - 1 - c) by lia. split; intros [?|?]; auto; left; lia. }
  destruct i as [|i]; cbn in Hx, Hy.
  - injection Hx as <-. injection Hy as <-.
    destruct (decide (u = v)) as [e|e].
    + rewrite HS. split; [|congruence]. intros HC. exfalso.
      apply cut_range in HC; [lia|]. apply positive_cons; split; assumption.
    + rewrite cut_cons by congruence. split; [congruence|]. left; reflexivity.
  - specialize (HR i x y Hx Hy). destruct (decide (u = v)) as [e|e].
    + rewrite HS. rewrite <- HR. replace (Z.of_nat (S (S i)) - 1) with (Z.of_nat (S i)) by lia. reflexivity.
    + rewrite cut_cons by congruence. rewrite <- HR.
      replace (Z.of_nat (S (S i)) - 1) with (Z.of_nat (S i)) by lia.
      split; [intros [?|?]; [lia|assumption]|right; assumption].
Qed.
End Runs.

(** ** Masses to positions *)

(** The labels, numbering segments from [k + 1]. *)
Definition labels_from (k : Z) (m : list Z) : list Z :=
  mjoin (imap (fun i x => replicate (Z.to_nat x) (k + Z.of_nat i + 1)) m).

Lemma labels_from_cons k x m :
  labels_from k (x :: m) = replicate (Z.to_nat x) (k + 1) ++ labels_from (k + 1) m.
Proof.
  unfold labels_from. rewrite imap_cons. cbn [mjoin list_join]. f_equal.
  - f_equal. lia.
  - f_equal. apply imap_ext. intros i y _. cbn. f_equal. lia.
Qed.

Lemma positions_labels m : pval <$> convert_masses_to_positions m = labels_from 0 m.
Proof.
  unfold convert_masses_to_positions, labels_from.
  assert (H : forall (l : list (list pyint)), pval <$> mjoin l = mjoin ((fmap pval) <$> l)).
  { induction l as [|y l IH]; [reflexivity|]. cbn [mjoin list_join fmap list_fmap].
    rewrite fmap_app. f_equal. exact IH. }
  rewrite H. f_equal. rewrite fmap_imap. apply imap_ext. intros i x _. cbn.
  rewrite fmap_replicate. cbn. f_equal.
Qed.

Lemma positions_objects m : Forall (fun x => pobj x = pval x) (convert_masses_to_positions m).
Proof.
  unfold convert_masses_to_positions. apply Forall_join, Forall_lookup. intros i l Hl.
  rewrite list_lookup_imap in Hl. destruct (m !! i) eqn:E; [|discriminate]. injection Hl as <-.
  apply Forall_replicate. reflexivity.
Qed.

Lemma labels_from_gt k m x : x ∈ labels_from k m -> k < x.
Proof.
  revert k. induction m as [|y m IH]; intros k H; [inversion H|].
  rewrite labels_from_cons in H. apply elem_of_app in H as [H|H].
  - apply elem_of_replicate_inv in H. lia.
  - apply IH in H. lia.
Qed.

Lemma labels_length k m : zlen (labels_from k m) = zsum (Z.max 0 <$> m).
Proof.
  unfold zlen. revert k. induction m as [|x m IH]; intros k; [reflexivity|].
  rewrite labels_from_cons, app_length, replicate_length, fmap_cons, zsum_cons, <- (IH (k + 1)).
  lia.
Qed.

Lemma positive_max m : positive m -> Z.max 0 <$> m = m.
Proof.
  induction m as [|x m IH]; intros H; [reflexivity|]. apply positive_cons in H as [? ?].
  rewrite fmap_cons, IH by assumption. f_equal. lia.
Qed.

Lemma group_labels k m : group_lengths (labels_from k m) = filter (fun x => 0 < x) m.
Proof.
  revert k. induction m as [|x m IH]; intros k; [reflexivity|].
  rewrite labels_from_cons, filter_cons. destruct (decide (0 < x)) as [H|H].
  - destruct (Z.to_nat x) as [|n] eqn:En; [lia|].
    rewrite group_lengths_run.
    + rewrite IH. f_equal. lia.
    + intros y l' E. assert (y ∈ labels_from (k + 1) m) by (rewrite E; left).
      apply labels_from_gt in H0. lia.
  - replace (Z.to_nat x) with O by lia. cbn [replicate app]. apply IH.
Qed.

Lemma masses_positions_masses m :
  convert_positions_to_masses (convert_masses_to_positions m) = filter (fun x => 0 < x) m.
Proof. unfold convert_positions_to_masses. rewrite positions_labels. apply group_labels. Qed.

Lemma filter_positive m : positive m -> filter (fun x => 0 < x) m = m.
Proof.
  induction m as [|x m IH]; intros H; [reflexivity|]. apply positive_cons in H as [? ?].
  rewrite filter_cons, decide_True by lia. f_equal. auto.
Qed.

(** Labels of neighbouring units, by cuts. *)
Lemma labels_cut k m i x y : positive m ->
  labels_from k m !! i = Some x -> labels_from k m !! S i = Some y ->
  (cut m (Z.of_nat (S i)) /\ y = x + 1) \/ (~ cut m (Z.of_nat (S i)) /\ y = x).
Proof.
  revert k i x y. induction m as [|n m IH]; intros k i x y Hm Hx Hy; [discriminate|].
  apply positive_cons in Hm as [Hn Hm]. rewrite labels_from_cons in Hx, Hy.
  destruct (decide (m = [])) as [->|Hne].
  { right. split; [apply cut_one|]. change (labels_from (k + 1) []) with (@nil Z) in *.
    rewrite app_nil_r in *. apply lookup_replicate in Hx as [-> _]. apply lookup_replicate in Hy as [-> _]. reflexivity. }
  rewrite cut_cons by assumption.
  destruct (decide (S i < Z.to_nat n)%nat) as [C|C].
  - rewrite lookup_app_l in Hx by (rewrite replicate_length; lia).
    rewrite lookup_app_l in Hy by (rewrite replicate_length; lia).
    apply lookup_replicate in Hx as [-> _]. apply lookup_replicate in Hy as [-> _].
    right. split; [|reflexivity]. intros [E|HC]; [lia|]. apply cut_range in HC; [lia|assumption].
  - destruct (decide (S i = Z.to_nat n)) as [C2|C2].
    + rewrite lookup_app_l in Hx by (rewrite replicate_length; lia).
      rewrite lookup_app_r in Hy by (rewrite replicate_length; lia).
      apply lookup_replicate in Hx as [-> _]. rewrite replicate_length in Hy.
      replace (S i - Z.to_nat n)%nat with O in Hy by lia.
      left. split; [left; lia|].
      destruct m as [|n2 m]; [congruence|]. apply positive_cons in Hm as [Hn2 Hm].
      rewrite labels_from_cons in Hy. destruct (Z.to_nat n2) eqn:E2; [lia|]. cbn in Hy. injection Hy as <-. lia.
    + rewrite lookup_app_r in Hx by (rewrite replicate_length; lia).
      rewrite lookup_app_r in Hy by (rewrite replicate_length; lia).
      rewrite replicate_length in Hx, Hy.
      replace (S i - Z.to_nat n)%nat with (S (i - Z.to_nat n)) in Hy by lia.
      destruct (IH (k + 1) _ _ _ Hm Hx Hy) as [[HC E]|[HC E]]; [left|right]; (split; [|assumption]).
      * right. replace (Z.of_nat (S i) - n) with (Z.of_nat (S (i - Z.to_nat n))) by lia. assumption.
      * intros [E1|E1]; [lia|]. apply HC.
        replace (Z.of_nat (S (i - Z.to_nat n))) with (Z.of_nat (S i) - n) by lia. assumption.
Qed.

(** ** Boundary strings *)

(** The boundary string of positive masses, recursively. *)
Fixpoint bs_of (m : list Z) : bstring :=
  match m with
  | [] => []
  | x :: m' =>
    replicate (Z.to_nat (x - 1)) ∅ ++ match m' with [] => [] | _ => {[1]} :: bs_of m' end
  end.

Lemma bs_of_cons x m : m <> [] -> bs_of (x :: m) = replicate (Z.to_nat (x - 1)) ∅ ++ {[1]} :: bs_of m.
Proof. intros H. destruct m; [congruence|reflexivity]. Qed.

Lemma bs_of_length m : positive m -> m <> [] -> zlen (bs_of m) = zsum m - 1.
Proof.
  unfold zlen. induction m as [|x m IH]; intros H Hne; [congruence|].
  apply positive_cons in H as [Hx Hm]. destruct (decide (m = [])) as [->|Hn].
  - cbn [bs_of]. rewrite app_nil_r, replicate_length, zsum_cons. cbn. lia.
  - rewrite bs_of_cons, app_length, replicate_length, zsum_cons by assumption. cbn [length].
    specialize (IH Hm Hn). lia.
Qed.

Lemma bs_of_lookup m p : positive m -> (p < length (bs_of m))%nat ->
  (cut m (Z.of_nat p + 1) /\ bs_of m !! p = Some {[1]}) \/
  (~ cut m (Z.of_nat p + 1) /\ bs_of m !! p = Some ∅).
Proof.
  revert p. induction m as [|x m IH]; intros p H Hp; [cbn in Hp; lia|].
  apply positive_cons in H as [Hx Hm]. destruct (decide (m = [])) as [->|Hn].
  - right. split; [apply cut_one|]. cbn [bs_of] in *. rewrite app_nil_r in *.
    rewrite replicate_length in Hp. apply lookup_replicate. split; [reflexivity|lia].
  - rewrite bs_of_cons in * by assumption. rewrite cut_cons by assumption.
    rewrite app_length, replicate_length in Hp. cbn [length] in Hp.
    destruct (decide (p < Z.to_nat (x - 1))%nat) as [C|C].
    + right. rewrite lookup_app_l by (rewrite replicate_length; lia). split.
      * intros [E|E]; [lia|]. apply cut_range in E; [lia|assumption].
      * apply lookup_replicate. split; [reflexivity|lia].
    + rewrite lookup_app_r by (rewrite replicate_length; lia). rewrite replicate_length.
      destruct (p - Z.to_nat (x - 1))%nat as [|q] eqn:Eq.
      * left. split; [left; lia|reflexivity].
      * cbn [lookup list_lookup]. fold (bs_of m !! q).
        destruct (IH q Hm ltac:(lia)) as [[HC E]|[HC E]]; [left|right]; (split; [|exact E]).
        -- right. replace (Z.of_nat p + 1 - x) with (Z.of_nat q + 1) by lia. assumption.
        -- intros [E1|E1]; [lia|]. apply HC.
           replace (Z.of_nat q + 1) with (Z.of_nat p + 1 - x) by lia. assumption.
Qed.

Lemma alter_app_at {A} (f : A -> A) (l1 l2 : list A) x k :
  length l1 = k -> alter f k (l1 ++ x :: l2) = l1 ++ f x :: l2.
Proof.
  intros <-. replace (length l1) with (length l1 + 0)%nat by lia.
  rewrite alter_app_r. reflexivity.
Qed.

Lemma bstring_fold m pos pre : positive m -> m <> [] -> zlen pre = pos ->
  rmap snd (foldM bstring_step m (pos, pre ++ replicate (Z.to_nat (zsum m - 1)) ∅)) = Ok (pre ++ bs_of m).
Proof.
  revert pos pre. induction m as [|x m IH]; intros pos pre H Hne Hp; [congruence|].
  apply positive_cons in H as [Hx Hm]. cbn [foldM]. unfold bstring_step at 1.
  assert (Hlen : zlen (pre ++ replicate (Z.to_nat (zsum (x :: m) - 1)) (∅ : tyset)) = pos + zsum (x :: m) - 1).
  { unfold zlen in *. rewrite app_length, replicate_length. rewrite zsum_cons in *.
    pose proof (positive_sum_0 m Hm). lia. }
  destruct (decide (m = [])) as [->|Hn].
  - rewrite Hlen, zsum_cons. change (zsum []) with 0.
    replace (pos + x - 1 <? pos + (x + 0) - 1) with false by lia.
    cbn [bind foldM rmap snd]. cbn [bs_of]. rewrite app_nil_r. repeat f_equal. lia.
  - pose proof (positive_sum_pos m Hm Hn) as Hs. rewrite Hlen, zsum_cons.
    replace (pos + x - 1 <? pos + (x + zsum m) - 1) with true by lia.
    unfold pyupdate. fold (zlen (pre ++ replicate (Z.to_nat (x + zsum m - 1)) (∅ : tyset))).
    rewrite zsum_cons in Hlen. rewrite Hlen.
    assert (0 <= pos) by (unfold zlen in Hp; lia).
    replace (pos + x - 1 <? 0) with false by lia.
    replace (pos + x - 1 <? 0) with false by lia.
    replace (pos + (x + zsum m) - 1 <=? pos + x - 1) with false by lia.
    cbn [orb bind].
    replace (replicate (Z.to_nat (x + zsum m - 1)) (∅ : tyset)) with
      (replicate (Z.to_nat (x - 1)) ∅ ++ ∅ :: replicate (Z.to_nat (zsum m - 1)) (∅ : tyset)).
    2: { rewrite <- replicate_S, <- replicate_add. f_equal. lia. }
    rewrite app_assoc.
    rewrite alter_app_at by (rewrite app_length, replicate_length; unfold zlen in Hp; lia).
    replace ({[1]} ∪ ∅ : tyset) with ({[1]} : tyset) by (symmetry; apply leibniz_equiv, right_id, _).
    set (pre' := (pre ++ replicate (Z.to_nat (x - 1)) ∅) ++ [{[1]}]).
    replace ((pre ++ replicate (Z.to_nat (x - 1)) ∅) ++ {[1]} :: replicate (Z.to_nat (zsum m - 1)) ∅)
      with (pre' ++ replicate (Z.to_nat (zsum m - 1)) ∅) by (unfold pre'; rewrite <- app_assoc; reflexivity).
    rewrite IH; [|assumption|assumption|].
    + rewrite bs_of_cons by assumption. unfold pre'. rewrite <- !app_assoc. reflexivity.
    + unfold pre', zlen in *. rewrite !app_length, replicate_length. cbn [length]. lia.
Qed.

Lemma bstring_of_masses m : positive m -> boundary_string_from_masses m = Ok (bs_of m).
Proof.
  intros H. unfold boundary_string_from_masses.
  destruct (decide (m = [])) as [->|Hn]; [reflexivity|].
  pose proof (bstring_fold m 0 [] H Hn eq_refl) as E. cbn [app] in E.
  destruct (foldM _ _ _) as [[p s]|e]; cbn in *; congruence.
Qed.

(** Zero masses after the first segment change nothing. *)
Lemma bstring_fold_zeros m pos s :
  0 < pos -> Forall (fun x => 0 <= x) m ->
  (pos <= zlen s -> exists t, s !! Z.to_nat (pos - 1) = Some t /\ 1 ∈ t) ->
  foldM bstring_step (filter (fun x => 0 < x) m) (pos, s) = foldM bstring_step m (pos, s).
Proof.
  revert pos s. induction m as [|x m IH]; intros pos s Hpos Hm Hs; [reflexivity|].
  apply Forall_cons in Hm as [Hx Hm].
  rewrite filter_cons. destruct (decide (0 < x)) as [C|C].
  - cbn [foldM]. unfold bstring_step at 1 3.
    destruct (pos + x - 1 <? zlen s) eqn:El.
    + unfold pyupdate. fold (zlen s).
      replace (pos + x - 1 <? 0) with false by lia. replace (pos + x - 1 <? 0) with false by lia.
      replace (zlen s <=? pos + x - 1) with false by lia. cbn [orb bind].
      apply IH; [lia|assumption|]. intros _.
      destruct (lookup_lt_is_Some_2 s (Z.to_nat (pos + x - 1))) as [t Ht]; [unfold zlen in *; lia|].
      exists ({[1]} ∪ t). replace (pos + x - 1)%Z with (pos + x - 1) by lia.
      rewrite list_lookup_alter, Ht. split; [reflexivity|set_solver].
    + cbn [bind]. apply IH; [lia|assumption|]. intros. lia.
  - assert (x = 0) as -> by lia. cbn [foldM]. unfold bstring_step at 2.
    replace (pos + 0) with pos by lia.
    destruct (pos - 1 <? zlen s) eqn:El.
    + unfold pyupdate. fold (zlen s).
      replace (pos - 1 <? 0) with false by lia. replace (pos - 1 <? 0) with false by lia.
      replace (zlen s <=? pos - 1) with false by lia. cbn [orb bind].
      destruct Hs as (t & Ht & H1); [lia|].
      replace (alter (λ s0 : tyset, {[1]} ∪ s0) (Z.to_nat (pos - 1)) s) with s.
      * apply IH; [assumption|assumption|]. intros _. exists t. auto.
      * apply list_eq. intros i. destruct (decide (i = Z.to_nat (pos - 1))) as [->|Hi].
        -- rewrite list_lookup_alter, Ht. cbn. f_equal. apply leibniz_equiv. set_solver.
        -- rewrite list_lookup_alter_ne by congruence. reflexivity.
    + cbn [bind]. apply IH; [assumption|assumption|]. intros; lia.
Qed.

Lemma zsum_filter_pos m : Forall (fun x => 0 <= x) m -> zsum (filter (fun x => 0 < x) m) = zsum m.
Proof.
  induction m as [|x m IH]; intros H; [reflexivity|]. apply Forall_cons in H as [? ?].
  rewrite filter_cons. destruct (decide (0 < x)); rewrite ?zsum_cons, IH by assumption; lia.
Qed.

Lemma bstring_zeros x m : 1 <= x -> Forall (fun x => 0 <= x) m ->
  boundary_string_from_masses (x :: m) = boundary_string_from_masses (x :: filter (fun x => 0 < x) m).
Proof.
  intros Hx Hm. unfold boundary_string_from_masses. rewrite !zsum_cons, zsum_filter_pos by assumption.
  cbn [foldM]. f_equal. unfold bstring_step at 1 3.
  assert (Hs : 0 <= zsum m).
  { rewrite <- zsum_filter_pos by assumption. apply positive_sum_0.
    apply Forall_forall. intros y Hy. apply elem_of_list_filter in Hy. lia. }
  set (s := replicate (Z.to_nat (x + zsum m - 1)) (∅ : tyset)).
  assert (Hl : zlen s = x + zsum m - 1) by (unfold zlen, s; rewrite replicate_length; lia).
  rewrite Hl. destruct (0 + x - 1 <? x + zsum m - 1) eqn:El.
  - unfold pyupdate. fold (zlen s). rewrite Hl.
    replace (0 + x - 1 <? 0) with false by lia. replace (0 + x - 1 <? 0) with false by lia.
    replace (x + zsum m - 1 <=? 0 + x - 1) with false by lia. cbn [orb bind].
    symmetry. apply bstring_fold_zeros; [lia|assumption|]. intros _.
    destruct (lookup_lt_is_Some_2 s (Z.to_nat (0 + x - 1))) as [t Ht]; [unfold zlen in *; lia|].
    exists ({[1]} ∪ t). rewrite list_lookup_alter, Ht. split; [reflexivity|set_solver].
  - cbn [bind]. symmetry. apply bstring_fold_zeros; [lia|assumption|]. intros; lia.
Qed.

Lemma list_alter_comm {A} (f : A -> A) k1 k2 (l : list A) :
  alter f k1 (alter f k2 l) = alter f k2 (alter f k1 l).
Proof.
  apply list_eq. intros i. destruct (decide (k1 = k2)) as [->|Hk]; [reflexivity|].
  destruct (decide (i = k1)) as [->|H1].
  - rewrite list_lookup_alter, !list_lookup_alter_ne, list_lookup_alter by congruence. reflexivity.
  - rewrite (list_lookup_alter_ne f) by congruence. destruct (decide (i = k2)) as [->|H2].
    + rewrite !list_lookup_alter, list_lookup_alter_ne by congruence. reflexivity.
    + rewrite !list_lookup_alter_ne by congruence. reflexivity.
Qed.

(** A zero mass in front. *)
Lemma bstring_leading_zero m : positive m ->
  boundary_string_from_masses (0 :: m) =
    if 2 <=? zsum m
    then Ok (alter (fun s => {[1]} ∪ s) (length (bs_of m) - 1)%nat (bs_of m))
    else Err IndexError.
Proof.
  intros H. unfold boundary_string_from_masses. rewrite zsum_cons. cbn [foldM].
  unfold bstring_step at 1. replace (0 + zsum m) with (zsum m) by lia.
  replace (0 + 0 - 1) with (-1) by lia.
  set (s := replicate (Z.to_nat (zsum m - 1)) (∅ : tyset)).
  assert (Hl : zlen s = Z.max 0 (zsum m - 1)) by (unfold zlen, s; rewrite replicate_length; lia).
  replace (-1 <? zlen s) with true by lia.
  unfold pyupdate. fold (zlen s). rewrite Hl.
  replace (-1 <? 0) with true by reflexivity.
  destruct (2 <=? zsum m) eqn:E2.
  - replace (-1 + Z.max 0 (zsum m - 1) <? 0) with false by lia.
    replace (Z.max 0 (zsum m - 1) <=? -1 + Z.max 0 (zsum m - 1)) with false by lia.
    cbn [orb bind].
    assert (Hne : m <> []) by (intros ->; cbn in E2; lia).
    pose proof (bs_of_length m H Hne) as HL. unfold zlen in HL.
    (* the marked last gap commutes with the other markings *)
    assert (HC : forall m pos s k, positive m -> m <> [] -> 0 <= pos -> pos + zsum m - 1 <= zlen s ->
        rmap snd (foldM bstring_step m (pos, alter (fun t : tyset => {[1]} ∪ t) k s)) =
        rmap (alter (fun t : tyset => {[1]} ∪ t) k) (rmap snd (foldM bstring_step m (pos, s)))).
    { clear. induction m as [|x m IH]; intros pos s k H Hne Hp Hs; [congruence|].
      apply positive_cons in H as [Hx Hm]. cbn [foldM]. unfold bstring_step at 1 3.
      assert (HA : zlen (alter (fun t : tyset => {[1]} ∪ t) k s) = zlen s) by (unfold zlen; rewrite alter_length; reflexivity).
      rewrite HA. rewrite zsum_cons in Hs.
      destruct (decide (m = [])) as [->|Hn].
      - destruct (pos + x - 1 <? zlen s) eqn:E.
        + unfold pyupdate. fold (zlen s). fold (zlen (alter (fun t : tyset => {[1]} ∪ t) k s)).
          rewrite HA. replace (pos + x - 1 <? 0) with false by lia.
          replace (pos + x - 1 <? 0) with false by lia.
          replace (zlen s <=? pos + x - 1) with false by lia. cbn [orb bind foldM rmap snd].
          f_equal. apply list_alter_comm.
        + reflexivity.
      - pose proof (positive_sum_pos m Hm Hn).
        replace (pos + x - 1 <? zlen s) with true by lia.
        unfold pyupdate. fold (zlen s). fold (zlen (alter (fun t : tyset => {[1]} ∪ t) k s)).
        rewrite HA. replace (pos + x - 1 <? 0) with false by lia.
        replace (pos + x - 1 <? 0) with false by lia.
        replace (zlen s <=? pos + x - 1) with false by lia. cbn [orb bind].
        set (f := fun t : tyset => {[1]} ∪ t).
        replace (alter f (Z.to_nat (pos + x - 1)) (alter f k s)) with (alter f k (alter f (Z.to_nat (pos + x - 1)) s)).
        + apply IH; [assumption|assumption|lia|]. unfold zlen in *. rewrite alter_length. lia.
        + apply list_alter_comm. }
    specialize (HC m 0 s (length (bs_of m) - 1)%nat H Hne ltac:(lia) ltac:(lia)).
    replace (Z.to_nat (-1 + Z.max 0 (zsum m - 1))) with (length (bs_of m) - 1)%nat by lia.
    replace (0 + 0) with 0 by lia.
    pose proof (bstring_fold m 0 [] H Hne eq_refl) as E. cbn [app] in E. fold s in E. rewrite E in HC.
    destruct (foldM _ _ _) as [[p q]|e]; cbn in *; congruence.
  - replace (-1 + Z.max 0 (zsum m - 1) <? 0) with true by lia. reflexivity.
Qed.

(** ** Injectivity *)

Lemma bs_of_inj m m' : positive m -> positive m' -> m <> [] -> m' <> [] -> bs_of m = bs_of m' -> m = m'.
Proof.
  revert m'. induction m as [|x m IH]; intros m' H H' Hne Hne' E; [congruence|].
  destruct m' as [|y m']; [congruence|].
  apply positive_cons in H as [Hx Hm]. apply positive_cons in H' as [Hy Hm'].
  assert (K : forall a b (r r' : list tyset), replicate a ∅ ++ {[1]} :: r = replicate b ∅ ++ {[1]} :: r' -> a = b /\ r = r').
  { clear. induction a as [|a IHa]; intros [|b] r r' E; cbn in E.
    - apply (f_equal tail) in E. auto.
    - exfalso. apply (f_equal (fun l : list tyset => bool_decide (1 ∈ hd ∅ l))) in E. revert E. vm_compute. congruence.
    - exfalso. apply (f_equal (fun l : list tyset => bool_decide (1 ∈ hd ∅ l))) in E. revert E. vm_compute. congruence.
    - apply (f_equal tail) in E. apply IHa in E as [-> ->]. auto. }
  assert (K2 : forall a b (r : list tyset), replicate a ∅ = replicate b ∅ ++ {[1]} :: r -> False).
  { clear. intros a b r E. assert ({[1]} ∈ replicate a (∅ : tyset)).
    { rewrite E. apply elem_of_app. right. left. }
    apply elem_of_replicate_inv in H. apply (f_equal (fun s : tyset => bool_decide (1 ∈ s))) in H. revert H. vm_compute. congruence. }
  destruct (decide (m = [])) as [->|Hn]; destruct (decide (m' = [])) as [->|Hn'].
  - cbn [bs_of] in E. rewrite !app_nil_r in E. apply (f_equal length) in E. rewrite !replicate_length in E. f_equal. lia.
  - rewrite (bs_of_cons y) in E by assumption. cbn [bs_of] in E. rewrite app_nil_r in E. destruct (K2 _ _ _ E).
  - rewrite (bs_of_cons x) in E by assumption. cbn [bs_of] in E. rewrite app_nil_r in E. symmetry in E. destruct (K2 _ _ _ E).
  - rewrite !bs_of_cons in E by assumption. apply K in E as [E1 E2]. f_equal; [lia|]. apply IH; assumption.
Qed.

(** ** NLTK strings *)

(** One-character split, directly. *)
Fixpoint split1 (c : Ascii.ascii) (s : list Ascii.ascii) : list (list Ascii.ascii) :=
  match s with
  | [] => [[]]
  | d :: s' => if Ascii.eqb c d then [] :: split1 c s'
               else match split1 c s' with h :: t => (d :: h) :: t | [] => [[d]] end
  end.

Lemma split_fuel_1 c n s : (length s < n)%nat -> split_fuel n [c] s = split1 c s.
Proof.
  revert s. induction n as [|n IH]; intros s Hn; [lia|]. destruct s as [|d s]; [reflexivity|].
  cbn [split_fuel is_prefix split1]. rewrite andb_true_r. cbn [length drop]. cbn in Hn.
  rewrite drop_0. rewrite IH by lia. reflexivity.
Qed.

Definition nltk1 (c : Ascii.ascii) (s : list Ascii.ascii) : list Z := (fun x => zlen x + 1) <$> split1 c s.

Lemma nltk_convert c s : convert_nltk_to_masses s [c] = Ok (nltk1 c s).
Proof. unfold convert_nltk_to_masses, pysplit. cbn [bind]. rewrite split_fuel_1 by lia. reflexivity. Qed.

Lemma split1_nonempty c s : split1 c s <> [].
Proof. destruct s as [|d s]; cbn; [congruence|]. destruct (Ascii.eqb c d); [congruence|]. destruct (split1 c s); congruence. Qed.

Lemma nltk1_nonempty c s : nltk1 c s <> [].
Proof. unfold nltk1. pose proof (split1_nonempty c s). destruct (split1 c s); [congruence|]. cbn. congruence. Qed.

Lemma nltk1_cons c d s : nltk1 c (d :: s) =
  if Ascii.eqb c d then 1 :: nltk1 c s
  else match nltk1 c s with h :: t => (h + 1) :: t | [] => [] end.
Proof.
  unfold nltk1. cbn [split1]. destruct (Ascii.eqb c d); [reflexivity|].
  pose proof (split1_nonempty c s). destruct (split1 c s); [congruence|]. cbn. f_equal. unfold zlen. cbn [length]. lia.
Qed.

Lemma nltk1_positive c s : positive (nltk1 c s).
Proof.
  induction s as [|d s IH]; [apply positive_cons; split; [vm_compute; congruence|constructor]|]. rewrite nltk1_cons.
  destruct (Ascii.eqb c d); [apply positive_cons; split; [lia|assumption]|].
  destruct (nltk1 c s); [constructor|]. apply positive_cons in IH as [? ?]. apply positive_cons. split; [lia|assumption].
Qed.

Lemma nltk1_sum c s : zsum (nltk1 c s) = zlen s + 1.
Proof.
  induction s as [|d s IH]; [reflexivity|]. rewrite nltk1_cons. unfold zlen in *. cbn [length].
  destruct (Ascii.eqb c d); [rewrite zsum_cons; lia|].
  pose proof (nltk1_nonempty c s). destruct (nltk1 c s); [congruence|]. rewrite zsum_cons in *. lia.
Qed.

Lemma bs_of_nltk1 c s : bs_of (nltk1 c s) = (fun d => if Ascii.eqb c d then {[1]} else ∅) <$> s.
Proof.
  induction s as [|d s IH]; [reflexivity|]. rewrite nltk1_cons, fmap_cons, <- IH.
  pose proof (nltk1_nonempty c s) as Hne. pose proof (nltk1_positive c s) as Hp.
  destruct (Ascii.eqb c d).
  - rewrite bs_of_cons by assumption. reflexivity.
  - destruct (nltk1 c s) as [|h t]; [congruence|]. apply positive_cons in Hp as [Hh _].
    destruct (decide (t = [])) as [->|Ht].
    + cbn [bs_of]. replace (Z.to_nat (h + 1 - 1)) with (S (Z.to_nat (h - 1))) by lia. reflexivity.
    + rewrite !bs_of_cons by assumption. replace (Z.to_nat (h + 1 - 1)) with (S (Z.to_nat (h - 1))) by lia. reflexivity.
Qed.

(** Any separator: what the masses add up to. *)
Lemma split_fuel_length n sep s : (length s < n)%nat -> sep <> [] ->
  zsum (zlen <$> split_fuel n sep s) = zlen s - (zlen (split_fuel n sep s) - 1) * zlen sep
  /\ split_fuel n sep s <> [].
Proof.
  revert s. induction n as [|n IH]; intros s Hn Hsep; [lia|].
  cbn [split_fuel]. destruct (is_prefix sep s) eqn:Ep.
  - assert (Hl : (length sep <= length s)%nat).
    { clear - Ep. revert s Ep. induction sep as [|c sep IH]; intros [|d s] Ep; cbn in *; try lia; try discriminate.
      apply andb_true_iff in Ep as [_ Ep]. apply IH in Ep. lia. }
    assert (0 < length sep)%nat by (destruct sep; [congruence|cbn; lia]).
    destruct (IH (drop (length sep) s)) as [IH1 IH2]; [rewrite drop_length; lia|assumption|].
    split; [|congruence]. rewrite fmap_cons, zsum_cons, IH1. unfold zlen in *. cbn [length]. rewrite drop_length. nia.
  - destruct s as [|c s]; [split; [reflexivity|congruence]|].
    destruct (IH s) as [IH1 IH2]; [cbn in Hn; lia|assumption|].
    destruct (split_fuel n sep s) as [|h t]; [congruence|]. split; [|congruence].
    rewrite fmap_cons, zsum_cons in *. unfold zlen in *. cbn [length] in *. lia.
Qed.

(** ** Statements used by the property file *)

Lemma C01_pos m : positive m ->
  convert_positions_to_masses (convert_masses_to_positions m) = m.
Proof. intros H. rewrite masses_positions_masses. apply filter_positive, H. Qed.

Lemma C02_back_length p :
  length (convert_masses_to_positions (convert_positions_to_masses p)) = length p.
Proof.
  pose proof (labels_length 0 (convert_positions_to_masses p)) as H.
  rewrite <- positions_labels in H. unfold zlen in H. rewrite fmap_length in H.
  unfold convert_positions_to_masses in H at 2.
  rewrite positive_max in H by apply group_lengths_positive.
  rewrite group_lengths_sum in H. unfold zlen in H. rewrite fmap_length in H. lia.
Qed.

Lemma C02_back_first p x :
  convert_masses_to_positions (convert_positions_to_masses p) !! 0%nat = Some x -> pval x = 1.
Proof.
  intros H. pose proof (positions_labels (convert_positions_to_masses p)) as E.
  assert (E0 : labels_from 0 (convert_positions_to_masses p) !! 0%nat = Some (pval x)).
  { rewrite <- E, list_lookup_fmap, H. reflexivity. }
  unfold convert_positions_to_masses in E0.
  pose proof (group_lengths_positive (pval <$> p)) as HP.
  destruct (group_lengths (pval <$> p)) as [|n l]; [discriminate|].
  apply positive_cons in HP as [Hn _]. rewrite labels_from_cons in E0.
  destruct (Z.to_nat n) eqn:En; [lia|]. cbn in E0. injection E0 as E0. lia.
Qed.

Lemma C02_back_step p i x y x' y' :
  p !! i = Some x -> p !! S i = Some y ->
  convert_masses_to_positions (convert_positions_to_masses p) !! i = Some x' ->
  convert_masses_to_positions (convert_positions_to_masses p) !! S i = Some y' ->
  (pval x = pval y /\ pval y' = pval x') \/ (pval x <> pval y /\ pval y' = pval x' + 1).
Proof.
  intros Hx Hy Hx' Hy'.
  pose proof (positions_labels (convert_positions_to_masses p)) as E.
  assert (Ex : labels_from 0 (convert_positions_to_masses p) !! i = Some (pval x')).
  { rewrite <- E, list_lookup_fmap, Hx'. reflexivity. }
  assert (Ey : labels_from 0 (convert_positions_to_masses p) !! S i = Some (pval y')).
  { rewrite <- E, list_lookup_fmap, Hy'. reflexivity. }
  pose proof (group_lengths_cut (pval <$> p) i (pval x) (pval y)) as HC.
  rewrite !list_lookup_fmap, Hx, Hy in HC. specialize (HC eq_refl eq_refl).
  destruct (labels_cut 0 _ i _ _ (group_lengths_positive (pval <$> p)) Ex Ey) as [[C1 C2]|[C1 C2]].
  - right. split; [apply HC, C1|exact C2].
  - left. split; [|exact C2]. destruct (decide (pval x = pval y)); [assumption|]. exfalso. apply C1, HC. assumption.
Qed.

Lemma C02_all p :
  positive (convert_positions_to_masses p) /\
  zsum (convert_positions_to_masses p) = zlen p /\
  (forall i x y, p !! i = Some x -> p !! S i = Some y ->
     (cut (convert_positions_to_masses p) (Z.of_nat (S i)) <-> pval x <> pval y)).
Proof.
  split; [apply group_lengths_positive|]. split.
  - unfold convert_positions_to_masses. rewrite group_lengths_sum. unfold zlen. rewrite fmap_length. reflexivity.
  - intros i x y Hx Hy. apply group_lengths_cut; rewrite list_lookup_fmap; [rewrite Hx|rewrite Hy]; reflexivity.
Qed.

Lemma C02_back p :
  let q := convert_masses_to_positions (convert_positions_to_masses p) in
  length q = length p /\
  (forall x, q !! 0%nat = Some x -> pval x = 1) /\
  (forall i x y x' y', p !! i = Some x -> p !! S i = Some y ->
     q !! i = Some x' -> q !! S i = Some y' ->
     pval y' = if decide (pval x = pval y) then pval x' else pval x' + 1).
Proof.
  cbn zeta. split; [apply C02_back_length|]. split; [apply C02_back_first|].
  intros i x y x' y' H1 H2 H3 H4. destruct (C02_back_step p i x y x' y' H1 H2 H3 H4) as [[C1 C2]|[C1 C2]].
  - rewrite decide_True by assumption. assumption.
  - rewrite decide_False by assumption. assumption.
Qed.

Lemma C03_main m : positive m -> m <> [] ->
  exists s, boundary_string_from_masses m = Ok s /\ zlen s = zsum m - 1 /\
    forall p t, s !! p = Some t ->
      (cut m (Z.of_nat p + 1) -> t = {[1]}) /\ (~ cut m (Z.of_nat p + 1) -> t = ∅).
Proof.
  intros H Hn. exists (bs_of m). split; [apply bstring_of_masses, H|].
  split; [apply bs_of_length; assumption|]. intros p t Ht.
  destruct (bs_of_lookup m p H) as [[C E]|[C E]].
  - apply lookup_lt_Some in Ht. exact Ht.
  - rewrite E in Ht. injection Ht as <-. split; [reflexivity|intros; contradiction].
  - rewrite E in Ht. injection Ht as <-. split; [intros; contradiction|reflexivity].
Qed.

Lemma C03_leading_zero m : positive m ->
  boundary_string_from_masses (0 :: m) =
    if 2 <=? zsum m
    then let* s := boundary_string_from_masses m in Ok (alter (union {[1]}) (length s - 1)%nat s)
    else Err IndexError.
Proof.
  intros H. rewrite bstring_leading_zero, bstring_of_masses by assumption. reflexivity.
Qed.

Lemma C04_main m m' s : positive m -> positive m' -> m <> [] -> m' <> [] ->
  boundary_string_from_masses m = Ok s -> boundary_string_from_masses m' = Ok s -> m = m'.
Proof.
  intros H H' Hn Hn' E E'. rewrite bstring_of_masses in E, E' by assumption.
  apply bs_of_inj; congruence.
Qed.

Lemma C05_main c s :
  exists m, convert_nltk_to_masses s [c] = Ok m /\
    positive m /\ zsum m = zlen s + 1 /\
    boundary_string_from_masses m = Ok ((fun d => if decide (d = c) then {[1]} else ∅) <$> s).
Proof.
  exists (nltk1 c s). split; [apply nltk_convert|]. split; [apply nltk1_positive|].
  split; [apply nltk1_sum|]. rewrite bstring_of_masses by apply nltk1_positive.
  rewrite bs_of_nltk1. f_equal. apply list_fmap_ext. intros i d _.
  destruct (Ascii.eqb_spec c d) as [->|Hne]; [rewrite decide_True by reflexivity|rewrite decide_False by congruence]; reflexivity.
Qed.

Lemma C05_any_symbol sym s : sym <> [] ->
  exists m, convert_nltk_to_masses s sym = Ok m /\ m <> [] /\
    zsum m = zlen s + 1 - (zlen m - 1) * (zlen sym - 1).
Proof.
  intros H. unfold convert_nltk_to_masses, pysplit. destruct sym as [|c sym]; [congruence|].
  cbn [bind]. set (l := split_fuel (S (length s)) (c :: sym) s).
  destruct (split_fuel_length (S (length s)) (c :: sym) s ltac:(lia) H) as [E1 E2]. fold l in E1, E2.
  eexists. split; [reflexivity|]. split; [destruct l; [congruence|cbn; congruence]|].
  assert (K : zsum ((fun x : list Ascii.ascii => zlen x + 1) <$> l) = zsum (zlen <$> l) + zlen l).
  { clear. unfold zlen at 3. induction l as [|x l IH]; [reflexivity|]. rewrite !fmap_cons, !zsum_cons. cbn [length]. lia. }
  rewrite K, E1. unfold zlen. rewrite fmap_length. nia.
Qed.
