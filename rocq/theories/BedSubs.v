(** Proofs about the choice of substitutions at one gap. *)
From Verif Require Import Spec FormatProofs Bed.
Open Scope Z_scope.

(** ** Permutations *)

Lemma elem_of_picks {A} (l : list A) x r : (x, r) ∈ picks l <-> exists l1 l2, l = l1 ++ x :: l2 /\ r = l1 ++ l2.
Proof.
  revert r. induction l as [|y l IH]; intros r; cbn [picks].
  - split; [intros H; inversion H|]. intros (l1 & l2 & H & _). destruct l1; discriminate.
  - rewrite elem_of_cons, elem_of_list_fmap. split.
    + intros [H|([z s] & H & Hz)].
      * injection H as -> ->. exists [], l. auto.
      * injection H as -> ->. apply IH in Hz as (l1 & l2 & -> & ->). exists (y :: l1), l2. auto.
    + intros (l1 & l2 & H & ->). destruct l1 as [|z l1]; injection H as -> ->.
      * left. reflexivity.
      * right. exists (x, l1 ++ l2). split; [reflexivity|]. apply IH. eauto.
Qed.

Lemma elem_of_perms_n {A} n (l p : list A) : length l = n -> p ∈ perms_n n l <-> p ≡ₚ l.
Proof.
  revert l p. induction n as [|n IH]; intros l p Hl; cbn [perms_n].
  - destruct l; [|discriminate]. rewrite elem_of_list_singleton. split.
    + intros ->. reflexivity.
    + intros H. apply Permutation_nil_r in H. exact H.
  - rewrite elem_of_list_bind. split.
    + intros ([x r] & Hp & Hx). apply elem_of_list_fmap in Hp as (q & -> & Hq).
      apply elem_of_picks in Hx as (l1 & l2 & -> & ->). rewrite app_length in Hl. cbn in Hl.
      apply IH in Hq; [|rewrite app_length; lia]. rewrite Hq. apply Permutation_middle.
    + intros H. destruct p as [|x p]; [apply Permutation_nil_l in H; subst; discriminate|].
      assert (Hx : x ∈ l) by (rewrite <- H; left). apply elem_of_list_split in Hx as (l1 & l2 & ->).
      exists (x, l1 ++ l2). split.
      * apply elem_of_list_fmap. exists p. split; [reflexivity|]. apply IH.
        -- rewrite app_length in *. cbn in Hl. lia.
        -- rewrite <- Permutation_middle in H. apply Permutation_cons_inv in H. exact H.
      * apply elem_of_picks. eauto.
Qed.

Lemma elem_of_perms {A} (l p : list A) : p ∈ perms l <-> p ≡ₚ l.
Proof. apply elem_of_perms_n. reflexivity. Qed.

Lemma sorted_types_perm s : sorted_types s ≡ₚ elements s.
Proof. apply merge_sort_Permutation. Qed.

(** ** The loop finds a least pairing *)

Lemma sub_step_fold l best : forall c r,
  foldl sub_step best l = (c, r) ->
  ((c, r) = best \/ (r ∈ l /\ c = Some (pair_cost r))) /\
  (forall d, fst best = Some d -> exists c', c = Some c' /\ c' <= d) /\
  (forall x, x ∈ l -> exists c', c = Some c' /\ c' <= pair_cost x).
Proof.
  revert best. induction l as [|x l IH]; intros best c r H; cbn [foldl] in H.
  - subst best. split; [left; reflexivity|]. split.
    + intros d Hd. cbn in Hd. subst c. exists d. split; [reflexivity|lia].
    + intros x Hx. inversion Hx.
  - apply IH in H as (H1 & H2 & H3). clear IH. unfold sub_step in *.
    destruct (fst best) as [d0|] eqn:Ed.
    + destruct (pair_cost x <? d0) eqn:Ec.
      * cbn [fst] in *. destruct (H2 _ eq_refl) as (c' & -> & Hc'). split.
        -- destruct H1 as [H1|[H1 H1']].
           ++ injection H1 as -> ->. right. split; [left|reflexivity].
           ++ right. split; [right; assumption|assumption].
        -- split.
           ++ intros d Hd. injection Hd as <-. exists c'. split; [reflexivity|lia].
           ++ intros y Hy. apply elem_of_cons in Hy as [->|Hy].
              ** exists c'. split; [reflexivity|lia].
              ** apply H3, Hy.
      * split; [|split].
        -- destruct H1 as [H1|[H1 H1']]; [left; assumption|right]. split; [right; assumption|assumption].
        -- rewrite Ed in H2. exact H2.
        -- intros y Hy. apply elem_of_cons in Hy as [->|Hy]; [|apply H3, Hy].
           rewrite Ed in H2. destruct (H2 _ eq_refl) as (c' & -> & Hc'). exists c'. split; [reflexivity|lia].
    + cbn [fst] in *. destruct (H2 _ eq_refl) as (c' & -> & Hc'). split.
      * right. destruct H1 as [H1|[H1 H1']].
        -- injection H1 as -> ->. split; [left|reflexivity].
        -- split; [right; assumption|assumption].
      * split; [intros d Hd; discriminate|]. intros y Hy. apply elem_of_cons in Hy as [->|Hy].
        -- exists c'. split; [reflexivity|lia].
        -- apply H3, Hy.
Qed.

(** All pairings, in the order they are tried. *)
Definition pairings (a b : tyset) : list (list substitution) :=
  pa ← perms (sorted_types a); zip pa <$> perms (sorted_types b).

Lemma best_substitutions_fold a b :
  best_substitutions a b = snd (foldl sub_step (None, []) (pairings a b)).
Proof.
  unfold best_substitutions, pairings. f_equal.
  generalize (@None Z, @nil substitution). generalize (perms (sorted_types a)).
  induction l as [|pa l IH]; intros best; [reflexivity|].
  cbn [foldl mbind list_bind]. rewrite foldl_app, IH. f_equal.
  generalize (perms (sorted_types b)). clear. intros l. revert best.
  induction l as [|pb l IH]; intros best; [reflexivity|]. cbn. apply IH.
Qed.

Lemma elem_of_pairings a b l : l ∈ pairings a b <-> exists pa pb, pa ≡ₚ elements a /\ pb ≡ₚ elements b /\ l = zip pa pb.
Proof.
  unfold pairings. rewrite elem_of_list_bind. setoid_rewrite elem_of_list_fmap. setoid_rewrite elem_of_perms. split.
  - intros (pa & (pb & -> & Hb) & Ha). exists pa, pb. rewrite sorted_types_perm in Ha, Hb. auto.
  - intros (pa & pb & Ha & Hb & ->). exists pa. split; [|rewrite Ha; symmetry; apply sorted_types_perm].
    exists pb. split; [reflexivity|]. rewrite Hb; symmetry; apply sorted_types_perm.
Qed.

Lemma best_substitutions_spec a b :
  best_substitutions a b ∈ pairings a b /\
  forall l, l ∈ pairings a b -> pair_cost (best_substitutions a b) <= pair_cost l.
Proof.
  rewrite best_substitutions_fold. destruct (foldl sub_step (None, []) (pairings a b)) as [c r] eqn:Ef.
  apply sub_step_fold in Ef as (H1 & _ & H3). cbn [snd].
  assert (Hne : zip (elements a) (elements b) ∈ pairings a b) by (apply elem_of_pairings; eauto).
  destruct (H3 _ Hne) as (c' & -> & _).
  destruct H1 as [H1|[H1 H1']]; [discriminate|]. injection H1' as ->. split; [assumption|].
  intros l Hl. destruct (H3 l Hl) as (c'' & Hc & Hle). injection Hc as ->. lia.
Qed.

(** ** Pairings, abstractly *)

Lemma zip_fst_take {A B} (l : list A) (k : list B) : (zip l k).*1 = take (length k) l.
Proof. revert k. induction l as [|x l IH]; intros [|y k]; cbn; f_equal; auto. Qed.

Lemma zip_snd_take {A B} (l : list A) (k : list B) : (zip l k).*2 = take (length l) k.
Proof. revert k. induction l as [|x l IH]; intros [|y k]; cbn; f_equal; auto. Qed.

Lemma elements_length (s : tyset) : length (elements s) = size s.
Proof. reflexivity. Qed.

Lemma NoDup_take {A} n (l : list A) : NoDup l -> NoDup (take n l).
Proof. intros H. rewrite <- (take_drop n l) in H. apply NoDup_app in H. tauto. Qed.

Lemma pairings_pairing a b l : l ∈ pairings a b -> pairing a b l.
Proof.
  intros H. apply elem_of_pairings in H as (pa & pb & Ha & Hb & ->).
  assert (Na : NoDup pa) by (rewrite Ha; apply NoDup_elements).
  assert (Nb : NoDup pb) by (rewrite Hb; apply NoDup_elements).
  split; [|split; [|split]].
  - rewrite zip_fst_take. apply NoDup_take, Na.
  - rewrite zip_snd_take. apply NoDup_take, Nb.
  - intros x y Hxy. split.
    + apply elem_of_elements. rewrite <- Ha. eapply elem_of_zip_l, Hxy.
    + apply elem_of_elements. rewrite <- Hb. eapply elem_of_zip_r, Hxy.
  - rewrite zip_with_length, Ha, Hb. reflexivity.
Qed.

Lemma submseteq_extend (l : list Z) (s : tyset) : NoDup l -> (forall x, x ∈ l -> x ∈ s) ->
  exists r, l ++ r ≡ₚ elements s.
Proof.
  intros Hl Hs. assert (H : l ⊆+ elements s).
  { apply NoDup_submseteq; [assumption|]. intros x Hx. apply elem_of_elements, Hs, Hx. }
  apply submseteq_Permutation in H as [r Hr]. exists r. symmetry. exact Hr.
Qed.

Lemma zip_app_r {A B} (l : list (A * B)) r : zip (l.*1) (l.*2 ++ r) = l.
Proof. induction l as [|[x y] l IH]; cbn; [reflexivity|]. f_equal. exact IH. Qed.

Lemma zip_app_l {A B} (l : list (A * B)) r : zip (l.*1 ++ r) (l.*2) = l.
Proof. induction l as [|[x y] l IH]; cbn; [destruct r; reflexivity|]. f_equal. exact IH. Qed.

Lemma pairing_pairings a b l : pairing a b l -> l ∈ pairings a b.
Proof.
  intros (N1 & N2 & Hin & Hlen). apply elem_of_pairings.
  destruct (submseteq_extend (l.*1) a N1) as [ra Hra].
  { intros x Hx. apply elem_of_list_fmap in Hx as ([x' y] & -> & H). apply Hin in H. cbn. tauto. }
  destruct (submseteq_extend (l.*2) b N2) as [rb Hrb].
  { intros x Hx. apply elem_of_list_fmap in Hx as ([x' y] & -> & H). apply Hin in H. cbn. tauto. }
  exists (l.*1 ++ ra), (l.*2 ++ rb). split; [assumption|]. split; [assumption|].
  pose proof (Permutation_length Hra) as L1. pose proof (Permutation_length Hrb) as L2.
  rewrite app_length, fmap_length, elements_length in L1, L2.
  destruct (decide (ra = [])) as [->|Hn].
  - rewrite app_nil_r. symmetry. apply zip_app_r.
  - destruct (decide (rb = [])) as [->|Hn2].
    + rewrite app_nil_r. symmetry. apply zip_app_l.
    + destruct ra, rb; try congruence. cbn in L1, L2. lia.
Qed.

Lemma elem_of_pairings_spec a b l : l ∈ pairings a b <-> pairing a b l.
Proof. split; [apply pairings_pairing|apply pairing_pairings]. Qed.

Lemma best_is_pairing a b : pairing a b (best_substitutions a b).
Proof. apply pairings_pairing, best_substitutions_spec. Qed.

Lemma best_is_cheapest a b l : pairing a b l -> pair_cost (best_substitutions a b) <= pair_cost l.
Proof. intros H. apply best_substitutions_spec, pairing_pairings, H. Qed.

(** ** Additions *)

Definition substituted (l : list substitution) : tyset := list_to_set (l.*1 ++ l.*2).

Definition adds_of (a b : tyset) : list addition :=
  let s := substituted (best_substitutions a b) in
  ((fun t => Addition t SideA) <$> elements (a ∖ s)) ++
  ((fun t => Addition t SideB) <$> elements (b ∖ s)).

Lemma sets_ok d a b : d = a ∪ b -> a ## b ->
  additions_substitutions_sets d a b = Ok (adds_of a b, best_substitutions a b).
Proof.
  intros -> Hd. unfold additions_substitutions_sets, adds_of. cbn zeta.
  fold (substituted (best_substitutions a b)).
  rewrite decide_True; [reflexivity|].
  rewrite app_length, !fmap_length, !elements_length.
  replace ((a ∪ b) ∖ substituted (best_substitutions a b)) with
    ((a ∖ substituted (best_substitutions a b)) ∪ (b ∖ substituted (best_substitutions a b))).
  - set (s := substituted _). rewrite (size_union (a ∖ s) (b ∖ s)) by set_solver. reflexivity.
  - apply set_eq. set_solver.
Qed.

(** Membership in [substituted], on each side. *)
Lemma substituted_a a b l x : pairing a b l -> a ## b -> x ∈ a -> (x ∈ substituted l <-> x ∈ l.*1).
Proof.
  intros (_ & _ & Hin & _) Hd Hx. unfold substituted. rewrite elem_of_list_to_set, elem_of_app. split; [|auto].
  intros [H|H]; [assumption|]. exfalso. apply elem_of_list_fmap in H as ([u v] & -> & H).
  apply Hin in H as [_ H]. cbn in Hx. set_solver.
Qed.

Lemma substituted_b a b l x : pairing a b l -> a ## b -> x ∈ b -> (x ∈ substituted l <-> x ∈ l.*2).
Proof.
  intros (_ & _ & Hin & _) Hd Hx. unfold substituted. rewrite elem_of_list_to_set, elem_of_app. split; [|auto].
  intros [H|H]; [|assumption]. exfalso. apply elem_of_list_fmap in H as ([u v] & -> & H).
  apply Hin in H as [H _]. cbn in Hx. set_solver.
Qed.

Lemma elem_of_adds a b d s : a ## b ->
  Addition d s ∈ adds_of a b <->
    match s with
    | SideA => d ∈ a /\ d ∉ (best_substitutions a b).*1
    | SideB => d ∈ b /\ d ∉ (best_substitutions a b).*2
    end.
Proof.
  intros Hd. pose proof (best_is_pairing a b) as HP. unfold adds_of. cbn zeta.
  rewrite elem_of_app, !elem_of_list_fmap. setoid_rewrite elem_of_elements. setoid_rewrite elem_of_difference.
  destruct s; split.
  - intros [(x & H & Hx & Hs)|(x & H & _)]; [|discriminate]. injection H as ->.
    rewrite substituted_a in Hs by eassumption. auto.
  - intros [H1 H2]. left. exists d. split; [reflexivity|]. split; [assumption|]. rewrite substituted_a by eassumption. assumption.
  - intros [(x & H & _)|(x & H & Hx & Hs)]; [discriminate|]. injection H as ->.
    rewrite substituted_b in Hs by eassumption. auto.
  - intros [H1 H2]. right. exists d. split; [reflexivity|]. split; [assumption|]. rewrite substituted_b by eassumption. assumption.
Qed.

Lemma adds_NoDup a b : a ## b -> NoDup (adds_of a b).
Proof.
  intros Hd. unfold adds_of. cbn zeta. apply NoDup_app. split; [|split].
  - apply NoDup_fmap_2; [intros x y H; congruence|apply NoDup_elements].
  - intros x H1 H2. apply elem_of_list_fmap in H1 as (u & -> & _). apply elem_of_list_fmap in H2 as (v & H & _). discriminate.
  - apply NoDup_fmap_2; [intros x y H; congruence|apply NoDup_elements].
Qed.

(** Counting: each type is on exactly one list. *)
Definition ind (P : Prop) `{Decision P} : nat := if decide P then 1 else 0.

Lemma countP_app {A} (P : A -> Prop) `{!forall x, Decision (P x)} l k : countP P (l ++ k) = (countP P l + countP P k)%nat.
Proof. unfold countP. rewrite filter_app, app_length. reflexivity. Qed.

Lemma countP_NoDup_eq {A} `{EqDecision A} (l : list A) x : NoDup l ->
  countP (fun y => y = x) l = ind (x ∈ l).
Proof.
  unfold countP, ind. intros H. induction H as [|y l Hy Hl IH].
  - cbn. rewrite decide_False by set_solver. reflexivity.
  - rewrite filter_cons. destruct (decide (y = x)) as [->|Hn].
    + cbn [length]. rewrite IH, decide_False, decide_True by set_solver. reflexivity.
    + rewrite IH. destruct (decide (x ∈ l)) as [C|C].
      * rewrite decide_True by (right; assumption). reflexivity.
      * rewrite decide_False; [reflexivity|]. rewrite elem_of_cons. intros [?|?]; [congruence|contradiction].
Qed.

Lemma countP_fmap {A B} (f : A -> B) (P : B -> Prop) `{!forall x, Decision (P x)} (Q : A -> Prop)
  `{!forall x, Decision (Q x)} l :
  (forall x, Q x <-> P (f x)) -> countP P (f <$> l) = countP Q l.
Proof.
  intros HPQ. unfold countP. induction l as [|x l IH]; [reflexivity|]. rewrite fmap_cons, !filter_cons.
  specialize (HPQ x).
  destruct (decide (P (f x))), (decide (Q x)); cbn [length]; try tauto; rewrite IH; reflexivity.
Qed.

Lemma countP_ext {A} (P Q : A -> Prop) `{!forall x, Decision (P x)} `{!forall x, Decision (Q x)} l :
  (forall x, x ∈ l -> P x <-> Q x) -> countP P l = countP Q l.
Proof.
  unfold countP. induction l as [|x l IH]; intros HPQ; [reflexivity|]. rewrite !filter_cons.
  assert (HP : P x <-> Q x) by (apply HPQ; left). specialize (IH ltac:(intros; apply HPQ; right; assumption)).
  destruct (decide (P x)), (decide (Q x)); cbn [length]; try tauto; rewrite IH; reflexivity.
Qed.

Lemma count_side_A a b d : a ## b ->
  (countP (fun x => x = Addition d SideA) (adds_of a b) + countP (fun s => fst s = d) (best_substitutions a b)
   = ind (d ∈ a))%nat.
Proof.
  intros Hd. rewrite countP_NoDup_eq by (apply adds_NoDup, Hd).
  rewrite <- (countP_fmap (fst : Z * Z -> Z) (fun x => x = d)) by reflexivity.
  destruct (best_is_pairing a b) as (N1 & N2 & Hin & Hlen).
  change (fst <$> best_substitutions a b) with ((best_substitutions a b).*1).
  rewrite countP_NoDup_eq by assumption. unfold ind.
  pose proof (elem_of_adds a b d SideA Hd) as K. cbn in K.
  assert (Hsub : d ∈ (best_substitutions a b).*1 -> d ∈ a).
  { intros H. apply elem_of_list_fmap in H as ([u v] & -> & H). apply Hin in H. cbn. tauto. }
  destruct (decide (Addition d SideA ∈ adds_of a b)), (decide (d ∈ (best_substitutions a b).*1)), (decide (d ∈ a)); tauto.
Qed.

Lemma count_side_B a b d : a ## b ->
  (countP (fun x => x = Addition d SideB) (adds_of a b) + countP (fun s => snd s = d) (best_substitutions a b)
   = ind (d ∈ b))%nat.
Proof.
  intros Hd. rewrite countP_NoDup_eq by (apply adds_NoDup, Hd).
  rewrite <- (countP_fmap (snd : Z * Z -> Z) (fun x => x = d)) by reflexivity.
  destruct (best_is_pairing a b) as (N1 & N2 & Hin & Hlen).
  change (snd <$> best_substitutions a b) with ((best_substitutions a b).*2).
  rewrite countP_NoDup_eq by assumption. unfold ind.
  pose proof (elem_of_adds a b d SideB Hd) as K. cbn in K.
  assert (Hsub : d ∈ (best_substitutions a b).*2 -> d ∈ b).
  { intros H. apply elem_of_list_fmap in H as ([u v] & -> & H). apply Hin in H. cbn. tauto. }
  destruct (decide (Addition d SideB ∈ adds_of a b)), (decide (d ∈ (best_substitutions a b).*2)), (decide (d ∈ b)); tauto.
Qed.

(** Sizes. *)
Lemma size_fst_substituted a b : a ## b ->
  (size (a ∖ substituted (best_substitutions a b)) + length (best_substitutions a b) = size a)%nat.
Proof.
  intros Hd. destruct (best_is_pairing a b) as (N1 & N2 & Hin & Hlen).
  set (l := best_substitutions a b) in *.
  assert (E1 : a ∖ substituted l = a ∖ list_to_set (l.*1)).
  { apply set_eq. intros x. rewrite !elem_of_difference, elem_of_list_to_set. split; intros [H1 H2]; (split; [assumption|]).
    - rewrite <- (substituted_a a b l x); [assumption|exact (best_is_pairing a b)|assumption|assumption].
    - rewrite (substituted_a a b l x); [assumption|exact (best_is_pairing a b)|assumption|assumption]. }
  rewrite E1, size_difference.
  - rewrite size_list_to_set by assumption. rewrite fmap_length. pose proof (Nat.le_min_l (size a) (size b)). lia.
  - intros x Hx. apply elem_of_list_to_set, elem_of_list_fmap in Hx as ([u v] & -> & H). apply Hin in H. cbn. tauto.
Qed.

Lemma size_snd_substituted a b : a ## b ->
  (size (b ∖ substituted (best_substitutions a b)) + length (best_substitutions a b) = size b)%nat.
Proof.
  intros Hd. destruct (best_is_pairing a b) as (N1 & N2 & Hin & Hlen).
  set (l := best_substitutions a b) in *.
  assert (E1 : b ∖ substituted l = b ∖ list_to_set (l.*2)).
  { apply set_eq. intros x. rewrite !elem_of_difference, elem_of_list_to_set. split; intros [H1 H2]; (split; [assumption|]).
    - rewrite <- (substituted_b a b l x); [assumption|exact (best_is_pairing a b)|assumption|assumption].
    - rewrite (substituted_b a b l x); [assumption|exact (best_is_pairing a b)|assumption|assumption]. }
  rewrite E1, size_difference.
  - rewrite size_list_to_set by assumption. rewrite fmap_length. pose proof (Nat.le_min_r (size a) (size b)). lia.
  - intros x Hx. apply elem_of_list_to_set, elem_of_list_fmap in Hx as ([u v] & -> & H). apply Hin in H. cbn. tauto.
Qed.

Lemma adds_length a b : a ## b ->
  (length (adds_of a b) + 2 * length (best_substitutions a b) = size a + size b)%nat.
Proof.
  intros Hd. unfold adds_of. cbn zeta. rewrite app_length, !fmap_length, !elements_length.
  pose proof (size_fst_substituted a b Hd). pose proof (size_snd_substituted a b Hd). lia.
Qed.

(** Swapping the sides. *)
Definition swap (p : substitution) : substitution := (snd p, fst p).
Definition flip_side (s : side) : side := match s with SideA => SideB | SideB => SideA end.
Definition flip_add (x : addition) : addition := Addition (a_type x) (flip_side (a_side x)).

Lemma pairing_swap a b l : pairing a b l -> pairing b a (swap <$> l).
Proof.
  intros (N1 & N2 & Hin & Hlen).
  assert (F1 : (swap <$> l).*1 = l.*2) by (rewrite <- list_fmap_compose; reflexivity).
  assert (F2 : (swap <$> l).*2 = l.*1) by (rewrite <- list_fmap_compose; reflexivity).
  split; [rewrite F1; assumption|]. split; [rewrite F2; assumption|]. split.
  - intros x y H. apply elem_of_list_fmap in H as ([u v] & H & Huv). injection H as -> ->. apply Hin in Huv. cbn. tauto.
  - rewrite fmap_length, Hlen. apply Nat.min_comm.
Qed.

Lemma pair_cost_swap l : pair_cost (swap <$> l) = pair_cost l.
Proof.
  unfold pair_cost. rewrite <- list_fmap_compose. f_equal. apply list_fmap_ext. intros i [x y] _. cbn. lia.
Qed.

Lemma best_cost_sym a b : pair_cost (best_substitutions a b) = pair_cost (best_substitutions b a).
Proof.
  apply Z.le_antisymm.
  - rewrite <- (pair_cost_swap (best_substitutions b a)). apply best_is_cheapest, pairing_swap, best_is_pairing.
  - rewrite <- (pair_cost_swap (best_substitutions a b)). apply best_is_cheapest, pairing_swap, best_is_pairing.
Qed.

Lemma best_length_sym a b : length (best_substitutions a b) = length (best_substitutions b a).
Proof.
  destruct (best_is_pairing a b) as (_ & _ & _ & ->). destruct (best_is_pairing b a) as (_ & _ & _ & ->). apply Nat.min_comm.
Qed.

(** How many additions come from each side. *)
Lemma countP_const (l : list Z) (s s' : side) :
  countP (fun x => a_side x = s') ((fun t => Addition t s) <$> l) = if decide (s = s') then length l else 0%nat.
Proof.
  unfold countP. induction l as [|x l IH]; [destruct (decide _); reflexivity|].
  rewrite fmap_cons, filter_cons. cbn [a_side].
  destruct (decide (s = s')); cbn [length]; rewrite IH; reflexivity.
Qed.

Lemma adds_side_A a b : a ## b ->
  (countP (fun x => a_side x = SideA) (adds_of a b) + Nat.min (size a) (size b) = size a)%nat.
Proof.
  intros Hd. unfold adds_of. cbn zeta. rewrite countP_app, !countP_const. cbn.
  pose proof (size_fst_substituted a b Hd) as K.
  destruct (best_is_pairing a b) as (_ & _ & _ & Hl). rewrite Hl in K.
  rewrite !elements_length, decide_True, decide_False by congruence. lia.
Qed.

Lemma adds_side_B a b : a ## b ->
  (countP (fun x => a_side x = SideB) (adds_of a b) + Nat.min (size a) (size b) = size b)%nat.
Proof.
  intros Hd. unfold adds_of. cbn zeta. rewrite countP_app, !countP_const. cbn.
  pose proof (size_snd_substituted a b Hd) as K.
  destruct (best_is_pairing a b) as (_ & _ & _ & Hl). rewrite Hl in K.
  rewrite !elements_length, decide_False, decide_True by congruence. lia.
Qed.
