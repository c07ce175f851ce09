(** The substitutions chosen at a gap do not depend on which side is called
    the reference. *)
From Verif Require Import Spec FormatProofs Bed BedSubs.
Open Scope Z_scope.

(** ** The loop keeps the first least pairing *)


Lemma sub_step_first l : forall r,
  exists l1 c l2, r :: l = l1 ++ c :: l2 /\
    foldl sub_step (Some (pair_cost r), r) l = (Some (pair_cost c), c) /\
    (forall x, x ∈ l1 -> pair_cost c < pair_cost x).
Proof.
  induction l as [|y l IH]; intros r.
  - exists [], r, []. split; [reflexivity|]. split; [reflexivity|]. intros x Hx. inversion Hx.
  - cbn [foldl]. unfold sub_step at 2. cbn [fst]. destruct (pair_cost y <? pair_cost r) eqn:E.
    + apply Z.ltb_lt in E. destruct (IH y) as (l1 & c & l2 & Hl & Hf & H1).
      exists (r :: l1), c, l2. split; [cbn; rewrite Hl; reflexivity|]. split; [exact Hf|].
      intros x Hx. apply elem_of_cons in Hx as [->|Hx]; [|auto].
      destruct l1 as [|z l1]; cbn in Hl; injection Hl as -> _; [assumption|].
      specialize (H1 z ltac:(left)). lia.
    + apply Z.ltb_ge in E. destruct (IH r) as (l1 & c & l2 & Hl & Hf & H1).
      destruct l1 as [|z l1]; cbn in Hl; injection Hl as -> ->.
      * exists [], c, (y :: l2). split; [reflexivity|]. split; [exact Hf|]. intros x Hx. inversion Hx.
      * exists (z :: y :: l1), c, l2. split; [reflexivity|]. split; [exact Hf|].
        intros x Hx. apply elem_of_cons in Hx as [->|Hx]; [apply H1; left|].
        apply elem_of_cons in Hx as [->|Hx]; [|apply H1; right; assumption].
        specialize (H1 z ltac:(left)). lia.
Qed.

(** ** The order in which pairings are tried *)

Fixpoint lexlt (l k : list Z) : Prop :=
  match l, k with
  | x :: l, y :: k => x < y \/ (x = y /\ lexlt l k)
  | _, _ => False
  end.

Definition lexle (l k : list Z) : Prop := l = k \/ lexlt l k.

Lemma lexlt_irrefl l : ~ lexlt l l.
Proof. induction l as [|x l IH]; cbn; [auto|]. intros [H|[_ H]]; [lia|auto]. Qed.

Lemma lexlt_asym l : forall k, lexlt l k -> ~ lexlt k l.
Proof.
  induction l as [|x l IH]; intros [|y k] H; cbn in *; try tauto.
  intros H'. destruct H as [H|[-> H]], H' as [H'|[E H']]; try lia. exact (IH _ H H').
Qed.

Lemma lexle_antisym l k : lexle l k -> lexle k l -> l = k.
Proof. intros [->|H] [E|H']; try congruence. destruct (lexlt_asym _ _ H H'). Qed.

Lemma lexle_cons x l k : lexle l k -> lexle (x :: l) (x :: k).
Proof. intros [->|H]; [left; reflexivity|right]. cbn. auto. Qed.

Lemma lexle_head x y l k : x < y -> lexle (x :: l) (y :: k).
Proof. intros H. right. cbn. auto. Qed.

Lemma lexle_app l : forall k r, lexle l k -> length l = length k -> lexle (l ++ r) (k ++ r).
Proof.
  intros k r [->|H] _; [left; reflexivity|]. right. revert k H.
  induction l as [|x l IH]; intros [|y k] H; cbn in *; try tauto.
  destruct H as [H|[-> H]]; [left; assumption|right; auto].
Qed.

Lemma StronglySorted_app {A} (R : A -> A -> Prop) l k :
  StronglySorted R l -> StronglySorted R k -> (forall x y, x ∈ l -> y ∈ k -> R x y) -> StronglySorted R (l ++ k).
Proof.
  induction 1 as [|x l Hs IH Hf]; intros Hk H; cbn; [assumption|]. constructor.
  - apply IH; [assumption|]. intros u v Hu Hv. apply H; [right; assumption|assumption].
  - apply Forall_app. split; [assumption|]. apply Forall_forall. intros v Hv. apply H; [left|assumption].
Qed.

Lemma StronglySorted_bind {A B} (R : A -> A -> Prop) (S : B -> B -> Prop) (f : A -> list B) l :
  StronglySorted R l -> (forall x, x ∈ l -> StronglySorted S (f x)) ->
  (forall x y, R x y -> forall u v, u ∈ f x -> v ∈ f y -> S u v) ->
  StronglySorted S (l ≫= f).
Proof.
  induction 1 as [|x l Hs IH Hf]; intros H1 H2; cbn; [constructor|]. apply StronglySorted_app.
  - apply H1. left.
  - apply IH; [|assumption]. intros y Hy. apply H1. right. assumption.
  - intros u v Hu Hv. apply elem_of_list_bind in Hv as (y & Hv & Hy).
    rewrite Forall_forall in Hf. eapply H2; eauto.
Qed.

Lemma StronglySorted_fmap {A B} (R : A -> A -> Prop) (S : B -> B -> Prop) (f : A -> B) l :
  StronglySorted R l -> (forall x y, R x y -> S (f x) (f y)) -> StronglySorted S (f <$> l).
Proof.
  induction 1 as [|x l Hs IH Hf]; intros H; cbn; [constructor|]. constructor; [auto|].
  apply Forall_fmap. eapply Forall_impl; [exact Hf|]. intros y. apply H.
Qed.

Lemma picks_sorted (l : list Z) : StronglySorted Z.lt l ->
  StronglySorted (fun p q => fst p < fst q) (picks l) /\ forall x r, (x, r) ∈ picks l -> StronglySorted Z.lt r.
Proof.
  induction 1 as [|x l Hs IH Hf]; cbn [picks].
  - split; [constructor|]. intros x r H. inversion H.
  - destruct IH as [IH1 IH2]. split.
    + constructor.
      * eapply StronglySorted_fmap; [exact IH1|]. intros [y s] [z t]. cbn. auto.
      * apply Forall_fmap, Forall_forall. intros [y s] Hy. cbn. apply elem_of_picks in Hy as (l1 & l2 & -> & _).
        rewrite Forall_forall in Hf. apply Hf. rewrite elem_of_app, elem_of_cons. auto.
    + intros y r Hy. apply elem_of_cons in Hy as [Hy|Hy]; [injection Hy as -> ->; assumption|].
      apply elem_of_list_fmap in Hy as ([z s] & Hy & Hz). injection Hy as -> ->. constructor; [eauto|].
      apply elem_of_picks in Hz as (l1 & l2 & -> & ->). rewrite Forall_app, Forall_cons in Hf. rewrite Forall_app. tauto.
Qed.

Lemma perms_sorted n : forall l : list Z, StronglySorted Z.lt l -> StronglySorted lexlt (perms_n n l).
Proof.
  induction n as [|n IH]; intros l Hl; cbn [perms_n].
  - repeat constructor.
  - destruct (picks_sorted l Hl) as [H1 H2].
    eapply StronglySorted_bind; [exact H1| |].
    + intros [x r] Hx. eapply StronglySorted_fmap; [apply IH; eauto|]. intros u v Huv. cbn. auto.
    + intros [x r] [y s] Hxy u v Hu Hv. cbn in Hxy.
      apply elem_of_list_fmap in Hu as (u' & -> & _). apply elem_of_list_fmap in Hv as (v' & -> & _). cbn. auto.
Qed.

Lemma sorted_types_sorted s : StronglySorted Z.lt (sorted_types s).
Proof.
  assert (H : StronglySorted Z.le (sorted_types s)) by (apply StronglySorted_merge_sort; apply _).
  assert (Hn : NoDup (sorted_types s)) by (rewrite sorted_types_perm; apply NoDup_elements).
  induction H as [|x l Hs IH Hf]; [constructor|]. apply NoDup_cons in Hn as [Hx Hn]. constructor; [auto|].
  rewrite Forall_forall in *. intros y Hy. specialize (Hf y Hy).
  destruct (decide (x = y)) as [->|]; [contradiction|lia].
Qed.

Definition pairlt (p q : list Z * list Z) : Prop := lexlt (fst p) (fst q) \/ (fst p = fst q /\ lexlt (snd p) (snd q)).

Definition rows (a b : tyset) : list (list Z * list Z) :=
  pa ← perms (sorted_types a); pair pa <$> perms (sorted_types b).

Lemma rows_sorted a b : StronglySorted pairlt (rows a b).
Proof.
  eapply StronglySorted_bind; [apply perms_sorted, sorted_types_sorted| |].
  - intros pa _. eapply StronglySorted_fmap; [apply perms_sorted, sorted_types_sorted|].
    intros u v Huv. right. auto.
  - intros pa pa' H u v Hu Hv. apply elem_of_list_fmap in Hu as (u' & -> & _).
    apply elem_of_list_fmap in Hv as (v' & -> & _). left. exact H.
Qed.

Lemma elem_of_rows a b pa pb : (pa, pb) ∈ rows a b <-> pa ≡ₚ elements a /\ pb ≡ₚ elements b.
Proof.
  unfold rows. rewrite elem_of_list_bind. setoid_rewrite elem_of_list_fmap. setoid_rewrite elem_of_perms. split.
  - intros (x & (y & E & Hy) & Hx). injection E as -> ->. rewrite Hx, Hy, !sorted_types_perm. auto.
  - intros [H1 H2]. exists pa. split; [exists pb; split; [reflexivity|]|].
    + rewrite H2. symmetry. apply sorted_types_perm.
    + rewrite H1. symmetry. apply sorted_types_perm.
Qed.

Lemma pairings_rows a b : pairings a b = (fun p => zip (fst p) (snd p)) <$> rows a b.
Proof.
  unfold pairings, rows. induction (perms (sorted_types a)) as [|pa l IH]; [reflexivity|].
  cbn [mbind list_bind]. rewrite fmap_app, <- IH. f_equal. rewrite <- list_fmap_compose. reflexivity.
Qed.

Definition optimal (a b : tyset) (pa pb : list Z) : Prop :=
  pa ≡ₚ elements a /\ pb ≡ₚ elements b /\
  forall pa' pb', pa' ≡ₚ elements a -> pb' ≡ₚ elements b -> pair_cost (zip pa pb) <= pair_cost (zip pa' pb').

Lemma best_first a b : exists pa pb, best_substitutions a b = zip pa pb /\ optimal a b pa pb /\
  forall pa' pb', optimal a b pa' pb' -> (pa, pb) = (pa', pb') \/ pairlt (pa, pb) (pa', pb').
Proof.
  pose proof (best_substitutions_spec a b) as [_ Hbest].
  rewrite best_substitutions_fold in *. pose proof (rows_sorted a b) as Hs.
  rewrite pairings_rows in *. remember (rows a b) as L eqn:HL.
  destruct L as [|p0 L].
  { exfalso. assert (H : (elements a, elements b) ∈ rows a b) by (apply elem_of_rows; auto).
    rewrite <- HL in H. inversion H. }
  cbn [fmap list_fmap foldl] in *. unfold sub_step at 2. unfold sub_step at 2 in Hbest. cbn [fst] in *.
  destruct (sub_step_first ((fun p => zip p.1 p.2) <$> L) (zip p0.1 p0.2)) as (l1 & c & l2 & Hl & Hf & H1).
  rewrite Hf in *. cbn [snd] in *.
  change (zip p0.1 p0.2 :: ((fun p => zip p.1 p.2) <$> L)) with ((fun p => zip (fst p) (snd p)) <$> (p0 :: L)) in *.
  apply fmap_app_inv in Hl as (k1 & k2 & Hk1 & Hk2 & HL'). symmetry in Hk2.
  apply fmap_cons_inv in Hk2 as ([pa pb] & k3 & -> & -> & ->).
  exists pa, pb. cbn [fst snd] in *. split; [reflexivity|].
  assert (Hin : (pa, pb) ∈ rows a b) by (rewrite <- HL, HL'; rewrite elem_of_app, elem_of_cons; auto).
  apply elem_of_rows in Hin as [Ha Hb]. split.
  - split; [assumption|]. split; [assumption|]. intros pa' pb' Ha' Hb'. apply Hbest.
    apply elem_of_list_fmap. exists (pa', pb'). split; [reflexivity|]. rewrite HL. apply elem_of_rows. auto.
  - intros pa' pb' (Ha' & Hb' & Ho).
    assert (Hin : (pa', pb') ∈ rows a b) by (apply elem_of_rows; auto).
    rewrite <- HL, HL' in Hin. rewrite HL' in Hs. apply elem_of_app in Hin as [Hin|Hin].
    + exfalso. specialize (H1 (zip pa' pb')). rewrite Hk1 in H1.
      specialize (H1 ltac:(apply elem_of_list_fmap; exists (pa', pb'); auto)). specialize (Ho pa pb Ha Hb). lia.
    + apply elem_of_cons in Hin as [Hin|Hin]; [left; congruence|right].
      clear -Hs Hin. induction k1 as [|z k1 IH]; cbn in Hs; inversion Hs as [|? ? Hs' Hf]; subst; [|auto].
      rewrite Forall_forall in Hf. apply Hf, Hin.
Qed.

(** ** Rearranging a pairing *)

Lemma zsum_perm' (l k : list Z) : l ≡ₚ k -> zsum l = zsum k.
Proof. induction 1; unfold zsum in *; cbn [foldr]; lia. Qed.

Lemma pair_cost_perm l k : l ≡ₚ k -> pair_cost l = pair_cost k.
Proof. intros H. unfold pair_cost. apply zsum_perm'. rewrite H. reflexivity. Qed.

Lemma pair_cost_swap l k : pair_cost (zip l k) = pair_cost (zip k l).
Proof.
  revert k. induction l as [|x l IH]; intros [|y k]; try reflexivity. cbn in *.
  change (Z.abs (x - y) + pair_cost (zip l k) = Z.abs (y - x) + pair_cost (zip k l)). rewrite IH. lia.
Qed.

Lemma zip_nil_r' {A B} (l : list A) : zip l (@nil B) = [].
Proof. destruct l; reflexivity. Qed.

(** Whatever order the shorter side is put in, the longer can follow it. *)
Lemma follow (l l' : list Z) : l ≡ₚ l' -> forall k : list Z, (length l <= length k)%nat ->
  exists k', k' ≡ₚ k /\ zip l' k' ≡ₚ zip l k.
Proof.
  induction 1 as [|x l l' H IH|x y l|l l' l'' H1 IH1 H2 IH2]; intros k Hk.
  - exists k. auto.
  - destruct k as [|z k]; [cbn in Hk; lia|]. destruct (IH k) as (k' & E & Ez); [cbn in Hk; lia|].
    exists (z :: k'). cbn. split; constructor; assumption.
  - destruct k as [|z [|w k]]; [cbn in Hk; lia..|]. exists (w :: z :: k). split; [constructor|]. cbn. constructor.
  - destruct (IH1 k Hk) as (k' & E & Ez).
    destruct (IH2 k') as (k'' & E' & Ez'); [rewrite <- H1, E; exact Hk|].
    exists k''. split; [exact (Permutation_trans E' E)|exact (Permutation_trans Ez' Ez)].
Qed.

Lemma zip_take_l {A B} (l : list A) : forall k : list B, zip (take (length k) l) k = zip l k.
Proof. induction l as [|x l IH]; intros [|y k]; cbn; f_equal; auto. Qed.

Lemma sorted_least (s : list Z) : StronglySorted Z.le s -> forall l, l ≡ₚ s -> lexle s l.
Proof.
  induction 1 as [|x s Hs IH Hf]; intros l Hl.
  - apply Permutation_nil_r in Hl as ->. left. reflexivity.
  - destruct l as [|y l]; [apply Permutation_nil_l in Hl; discriminate|].
    assert (Hy : y ∈ x :: s) by (rewrite <- Hl; left).
    destruct (decide (x = y)) as [->|Hne].
    + apply lexle_cons, IH. eapply Permutation_cons_inv, Hl.
    + apply elem_of_cons in Hy as [->|Hy]; [congruence|]. rewrite Forall_forall in Hf. specialize (Hf y Hy).
      apply lexle_head. lia.
Qed.

(** Pairing two sorted lists in order is cheapest. *)
Lemma in_order (x : list Z) : StronglySorted Z.le x -> forall y, StronglySorted Z.le y -> length x = length y ->
  forall z, z ≡ₚ y -> pair_cost (zip x y) <= pair_cost (zip x z).
Proof.
  induction 1 as [|x0 x Hx IH Hfx]; intros y Hy Hl z Hz; [reflexivity|].
  destruct Hy as [|y0 y Hy Hfy]; [discriminate|]. cbn in Hl. injection Hl as Hl.
  destruct z as [|z0 z]; [apply Permutation_nil_l in Hz; discriminate|].
  change (Z.abs (x0 - y0) + pair_cost (zip x y) <= Z.abs (x0 - z0) + pair_cost (zip x z)).
  destruct (decide (y0 = z0)) as [->|Hne].
  - apply Permutation_cons_inv in Hz. specialize (IH y Hy Hl z Hz). lia.
  - assert (Hin : y0 ∈ z0 :: z) by (rewrite Hz; left).
    apply elem_of_cons in Hin as [->|Hin]; [congruence|]. apply elem_of_list_split in Hin as (l1 & l2 & ->).
    assert (Hz0 : z0 ∈ y0 :: y) by (rewrite <- Hz; left). apply elem_of_cons in Hz0 as [->|Hz0]; [congruence|].
    rewrite Forall_forall in Hfy. specialize (Hfy _ Hz0).
    assert (Hz' : l1 ++ z0 :: l2 ≡ₚ y).
    { apply (Permutation_cons_inv (a := y0)). rewrite <- Hz, <- !Permutation_middle. constructor. }
    specialize (IH y Hy Hl _ Hz').
    assert (Hlen : length x = length (l1 ++ z0 :: l2)) by (rewrite Hz'; exact Hl).
    rewrite app_length in Hlen. cbn in Hlen.
    assert (exists x1 xi x2, x = x1 ++ xi :: x2 /\ length x1 = length l1) as (x1 & xi & x2 & -> & Hx1).
    { destruct (drop (length l1) x) as [|xi x2] eqn:Ed.
      - apply (f_equal length) in Ed. rewrite drop_length in Ed. cbn in Ed. lia.
      - exists (take (length l1) x), xi, x2. rewrite <- Ed, take_drop. split; [reflexivity|].
        rewrite take_length. lia. }
    rewrite Forall_forall in Hfx. specialize (Hfx xi ltac:(rewrite elem_of_app, elem_of_cons; auto)).
    rewrite !zip_with_app in * by assumption. cbn [zip_with] in *.
    rewrite <- !(pair_cost_perm (_ :: _ ++ _) (_ ++ _ :: _)) in * by apply Permutation_middle.
    set (r := zip x1 l1 ++ zip x2 l2) in *.
    change (pair_cost ((xi, z0) :: r)) with (Z.abs (xi - z0) + pair_cost r) in IH.
    change (pair_cost ((xi, y0) :: r)) with (Z.abs (xi - y0) + pair_cost r). lia.
Qed.

Lemma lt_le_sorted l : StronglySorted Z.lt l -> StronglySorted Z.le l.
Proof.
  induction 1 as [|x l H IH Hf]; constructor; [assumption|]. eapply Forall_impl; [exact Hf|]. cbn. lia.
Qed.

Lemma pairlt_row pa pb pa' pb' : (pa, pb) = (pa', pb') \/ pairlt (pa, pb) (pa', pb') -> lexle pa pa'.
Proof. intros [H|[H|[H _]]]; cbn in *; [injection H as -> ->; left; reflexivity|right; assumption|left; assumption]. Qed.

Lemma pairlt_col pa pb pb' : (pa, pb) = (pa, pb') \/ pairlt (pa, pb) (pa, pb') -> lexle pb pb'.
Proof.
  intros [H|[H|[_ H]]]; cbn in *; [injection H as ->; left; reflexivity| |right; assumption].
  destruct (lexlt_irrefl _ H).
Qed.

Lemma optimal_swap a b pa pb : optimal a b pa pb -> optimal b a pb pa.
Proof.
  intros (Ha & Hb & H). split; [assumption|]. split; [assumption|]. intros pa' pb' Ha' Hb'.
  rewrite pair_cost_swap, (pair_cost_swap pa'). auto.
Qed.

Lemma optimal_cost a b pa pb pa' pb' : optimal a b pa pb -> pa' ≡ₚ elements a -> pb' ≡ₚ elements b ->
  pair_cost (zip pa' pb') <= pair_cost (zip pa pb) -> optimal a b pa' pb'.
Proof.
  intros (Ha & Hb & H) Ha' Hb' Hle. split; [assumption|]. split; [assumption|]. intros pa2 pb2 H1 H2.
  specialize (H _ _ H1 H2). lia.
Qed.

Lemma zip_swap {A B} (l : list A) : forall k : list B, zip k l = (fun '(x, y) => (y, x)) <$> zip l k.
Proof. induction l as [|x l IH]; intros [|y k]; cbn; f_equal; auto. Qed.

Lemma best_swap_le a b : (size a <= size b)%nat ->
  best_substitutions b a = (fun '(x, y) => (y, x)) <$> best_substitutions a b.
Proof.
  intros Hsz.
  destruct (best_first a b) as (pa & pb & -> & Ho & Hmin).
  destruct (best_first b a) as (qb & qa & -> & Ho' & Hmin').
  set (sa := sorted_types a). pose proof (sorted_types_perm a) as Hsa. fold sa in Hsa.
  pose proof (sorted_types_sorted a) as Hss. fold sa in Hss. apply lt_le_sorted in Hss.
  assert (La : forall l, l ≡ₚ elements a -> length l = size a) by (intros l ->; reflexivity).
  assert (Lb : forall l, l ≡ₚ elements b -> length l = size b) by (intros l ->; reflexivity).
  pose proof Ho as (Ha & Hb & Hc). pose proof Ho' as (Hb' & Ha' & Hc').
  (* the shorter side comes in sorted order *)
  assert (pa = sa) as ->.
  { destruct (follow pa sa ltac:(rewrite Ha, Hsa; reflexivity) pb) as (pb' & E & Ez).
    { rewrite (La pa Ha), (Lb pb Hb). exact Hsz. }
    assert (Ho2 : optimal a b sa pb').
    { eapply optimal_cost; [exact Ho|assumption|rewrite E; assumption|]. rewrite (pair_cost_perm _ _ Ez). lia. }
    apply Hmin, pairlt_row in Ho2. apply lexle_antisym; [assumption|].
    apply sorted_least; [assumption|]. rewrite Ha, Hsa. reflexivity. }
  assert (qa = sa) as ->.
  { set (h := take (size a) qb). set (t := drop (size a) qb).
    assert (Hqb : h ++ t = qb) by apply take_drop.
    assert (Lh : length h = size a) by (unfold h; rewrite take_length, (Lb qb Hb'); lia).
    assert (Hz : forall l k : list Z, length l = size a -> length k = size a -> zip (l ++ t) k = zip l k).
    { intros l k Hl Hk. rewrite <- (zip_take_l (l ++ t)), Hk, <- Hl, take_app. reflexivity. }
    set (h' := merge_sort Z.le h).
    assert (Hh' : h' ≡ₚ h) by apply merge_sort_Permutation.
    assert (Hs' : StronglySorted Z.le h') by (apply StronglySorted_merge_sort; apply _).
    assert (h = h') as Hh.
    { destruct (follow h h' ltac:(symmetry; exact Hh') qa) as (qa' & E & Ez).
      { rewrite Lh, (La qa Ha'). lia. }
      assert (Ho2 : optimal b a (h' ++ t) qa').
      { eapply optimal_cost; [exact Ho'| |rewrite E; assumption|].
        - rewrite Hh', Hqb. assumption.
        - rewrite <- Hqb, !Hz; [rewrite (pair_cost_perm _ _ Ez); lia|assumption|auto| |apply La; rewrite E; assumption].
          rewrite Hh'. assumption. }
      apply Hmin', pairlt_row in Ho2.
      assert (E2 : qb = h' ++ t).
      { apply lexle_antisym; [assumption|]. rewrite <- Hqb. apply lexle_app; [|rewrite Hh'; reflexivity].
        apply sorted_least; [assumption|symmetry; assumption]. }
      rewrite <- Hqb in E2. apply app_inv_tail in E2. exact E2. }
    assert (Ho2 : optimal b a qb sa).
    { eapply optimal_cost; [exact Ho'|assumption|assumption|].
      rewrite <- Hqb, !Hz; try assumption; try (apply La; assumption).
      rewrite Hh. apply in_order; [assumption|assumption| |rewrite Ha', Hsa; reflexivity].
      rewrite Hh', Lh. symmetry. apply La, Hsa. }
    apply Hmin', pairlt_col in Ho2. apply lexle_antisym; [assumption|].
    apply sorted_least; [assumption|]. rewrite Ha', Hsa. reflexivity. }
  assert (pb = qb) as <-.
  { apply lexle_antisym.
    - apply optimal_swap, Hmin, pairlt_col in Ho'. exact Ho'.
    - apply optimal_swap, Hmin', pairlt_row in Ho. exact Ho. }
  apply zip_swap.
Qed.

Theorem best_swap a b : best_substitutions b a = (fun '(x, y) => (y, x)) <$> best_substitutions a b.
Proof.
  destruct (decide (size a <= size b)%nat) as [H|H]; [apply best_swap_le, H|].
  rewrite (best_swap_le b a) by lia. rewrite <- list_fmap_compose.
  rewrite <- (list_fmap_id (best_substitutions b a)) at 1. apply list_fmap_ext. intros i [x y] _. reflexivity.
Qed.
