(** C42-C45. *)
From stdpp Require Import gmap.
From Verif Require Import DictProofs SpecDispatch Dispatch DispatchProofs.
Open Scope Z_scope.

Lemma NoDup_bind {A B} (f : A -> list B) (l : list A) :
  (forall x1 x2 y, x1 ∈ l -> x2 ∈ l -> y ∈ f x1 -> y ∈ f x2 -> x1 = x2) ->
  (forall x, x ∈ l -> NoDup (f x)) -> NoDup l -> NoDup (l ≫= f).
Proof.
  induction l as [|x l IH]; intros H1 H2 H3; [constructor|]. apply NoDup_cons in H3 as [Hx H3].
  cbn [mbind list_bind]. apply NoDup_app. split; [apply H2, elem_of_list_here|]. split.
  - intros y Hy K. apply elem_of_list_bind in K as (x' & Hy' & Hx'). apply Hx.
    rewrite (H1 x x' y); [exact Hx'|apply elem_of_list_here|apply elem_of_list_further, Hx'|exact Hy|exact Hy'].
  - apply IH; [| |exact H3].
    + intros x1 x2 y K1 K2. apply H1; apply elem_of_list_further; assumption.
    + intros y Hy. apply H2, elem_of_list_further, Hy.
Qed.

Lemma bind_fmap {A B C} (f : A -> list B) (g : B -> C) l : g <$> (l ≫= f) = l ≫= (fun x => g <$> f x).
Proof. induction l as [|x l IH]; [reflexivity|]. cbn [mbind list_bind]. rewrite fmap_app, IH. reflexivity. Qed.

Lemma bind_bind {A B C} (l : list A) (f : A -> list B) (g : B -> list C) : (l ≫= f) ≫= g = l ≫= (fun x => f x ≫= g).
Proof. induction l as [|x l IH]; [reflexivity|]. cbn [mbind list_bind]. rewrite bind_app, IH. reflexivity. Qed.

Lemma fmap_bind {A B C} (f : A -> B) (g : B -> list C) l : (f <$> l) ≫= g = l ≫= (fun x => g (f x)).
Proof. induction l as [|x l IH]; [reflexivity|]. cbn [fmap list_fmap mbind list_bind]. f_equal. exact IH. Qed.

Lemma bind_length {A B} (f : A -> list B) l : length (l ≫= f) = sum_list ((fun x => length (f x)) <$> l).
Proof. induction l as [|x l IH]; [reflexivity|]. cbn [mbind list_bind fmap list_fmap sum_list sum_list_with id]. rewrite app_length, IH. reflexivity. Qed.

Lemma bind_ext {A B} (f g : A -> list B) l : (forall x, x ∈ l -> f x = g x) -> l ≫= f = l ≫= g.
Proof.
  induction l as [|x l IH]; intros H; [reflexivity|]. cbn [mbind list_bind]. rewrite H by apply elem_of_list_here.
  f_equal. apply IH. intros y Hy. apply H, elem_of_list_further, Hy.
Qed.

Lemma bind_nil {A B} (f : A -> list B) l : (forall x, x ∈ l -> f x = []) -> l ≫= f = [].
Proof. intros H. rewrite (bind_ext f (fun _ => []) l H). clear. induction l; [reflexivity|assumption]. Qed.

(** * Keys are distinct *)

Definition plain2 (ma : dict (dict seg)) (mb : option (dict (dict seg))) : Prop :=
  plain_coders ma /\ match mb with Some d => plain_coders d | None => True end.

Lemma NoDup_cross {A} (l m : list A) : NoDup l -> NoDup m -> NoDup (cross l m).
Proof.
  intros Hl Hm. apply NoDup_bind; [| |exact Hl].
  - intros x1 x2 y _ _ H1 H2. apply elem_of_list_fmap in H1 as (? & -> & _). apply elem_of_list_fmap in H2 as (? & H2 & _).
    injection H2 as ->. reflexivity.
  - intros x _. apply NoDup_fmap_2; [|exact Hm]. intros ? ? K. injection K as ->. reflexivity.
Qed.

Lemma dict_ok_NoDup {V} (d : dict V) : dict_ok d -> NoDup d.
Proof. apply NoDup_fmap_1. Qed.

Lemma get_default_ok {C} (items : dict (dict C)) l : items_ok items -> dict_ok (default [] (dget items l)).
Proof. intros H. destruct (dget items l) as [cs|] eqn:E; [exact (items_get items l cs H E)|constructor]. Qed.

Lemma item_pairs_NoDup ma mb l : both_ok ma mb -> NoDup (item_pairs ma mb l).
Proof.
  intros [H1 H2]. unfold item_pairs. destruct mb as [mb|].
  - apply NoDup_cross; apply dict_ok_NoDup, get_default_ok; assumption.
  - apply pairs2_NoDup, dict_ok_NoDup, get_default_ok, H1.
Qed.

(** In one item a coder has one coding and stands at one place. *)
Lemma item_pair_det ma mb l m n a b a' b' : both_ok ma mb ->
  ((m, a), (n, b)) ∈ item_pairs ma mb l -> ((m, a'), (n, b')) ∈ item_pairs ma mb l -> a = a' /\ b = b'.
Proof.
  intros [H1 H2]. unfold item_pairs. destruct mb as [mb|].
  - rewrite !elem_of_cross. intros [K1 K2] [K3 K4].
    pose proof (get_default_ok ma l H1) as D1. pose proof (get_default_ok mb l H2) as D2.
    apply dget_Some in K1, K3; try assumption. apply dget_Some in K2, K4; try assumption. split; congruence.
  - rewrite !elem_of_pairs2. intros (i & j & _ & K1 & K2) (i' & j' & _ & K3 & K4).
    apply elem_of_list_lookup_2 in K1, K2, K3, K4.
    pose proof (get_default_ok ma l H1) as D1. apply dget_Some in K1, K2, K3, K4; try assumption. split; congruence.
Qed.

Lemma before_asym {C} (l : dict C) m n a b a' b' : dict_ok l ->
  ((m, a), (n, b)) ∈ pairs2 l -> ((n, b'), (m, a')) ∈ pairs2 l -> False.
Proof.
  intros D. rewrite !elem_of_pairs2. intros (i & j & H & K1 & K2) (i' & j' & H' & K3 & K4).
  assert (P : forall k c x k' x', l !! k = Some (c, x) -> l !! k' = Some (c, x') -> k = k').
  { intros k c x k' x' Q Q'. unfold dict_ok in D. eapply (NoDup_lookup _ k k' c D); rewrite list_lookup_fmap; [rewrite Q|rewrite Q']; reflexivity. }
  pose proof (P _ _ _ _ _ K1 K4). pose proof (P _ _ _ _ _ K2 K3). lia.
Qed.

Lemma item_pairs_plain ma mb l m n a b : both_ok ma mb -> plain2 ma mb ->
  ((m, a), (n, b)) ∈ item_pairs ma mb l -> comma_free m /\ comma_free n.
Proof.
  intros HO [P1 P2] H. apply elem_of_item_pairs in H; [|exact HO]. destruct mb as [mb|].
  - destruct H as (ca & cb & H1 & H2 & H3 & H4). split; [exact (P1 _ _ _ _ H1 H3)|exact (P2 _ _ _ _ H2 H4)].
  - destruct H as (cs & i & j & H1 & _ & H3 & H4). apply elem_of_list_lookup_2 in H3, H4.
    split; [exact (P1 _ _ _ _ H1 H3)|exact (P1 _ _ _ _ H1 H4)].
Qed.

Lemma name3_join a b c : name3 a b c = join_comma [a; b; c].
Proof. reflexivity. Qed.

Lemma jobs_NoDup permuted ma mb labels : both_ok ma mb -> plain2 ma mb -> NoDup labels ->
  NoDup (all_jobs permuted ma mb labels).*1.
Proof.
  intros HO HP HL. unfold all_jobs. rewrite bind_fmap.
  rewrite (bind_ext _ (fun x => item_pairs ma mb x ≫= (fun p => (pair_jobs (flip_of permuted mb) x p).*1)) labels) by (intros; apply bind_fmap).
  assert (Key : forall l k m a n b, ((m, a), (n, b)) ∈ item_pairs ma mb l ->
     k ∈ (pair_jobs (flip_of permuted mb) l ((m, a), (n, b))).*1 ->
     k = name3 l m n \/ (flip_of permuted mb = true /\ k = name3 l n m)).
  { intros l k m a n b _ K. apply elem_of_list_fmap in K as ([k' [x y]] & -> & K). apply pair_jobs_elem in K. cbn. tauto. }
  apply NoDup_bind; [| |exact HL].
  - intros l l' k _ _ H1 H2. apply elem_of_list_bind in H1 as ([[m a] [n b]] & K1 & P1).
    apply elem_of_list_bind in H2 as ([[m' a'] [n' b']] & K2 & P2).
    pose proof (item_pairs_plain _ _ _ _ _ _ _ HO HP P1) as [C1 C2]. pose proof (item_pairs_plain _ _ _ _ _ _ _ HO HP P2) as [C3 C4].
    apply Key in K1; [|exact P1]. apply Key in K2; [|exact P2]. rewrite !name3_join in K1, K2.
    destruct K1 as [->|[_ ->]]; destruct K2 as [K2|[_ K2]]; apply key3_inj in K2; try assumption; tauto.
  - intros l _. apply NoDup_bind.
    + intros [[m a] [n b]] [[m' a'] [n' b']] k P1 P2 K1 K2.
      pose proof (item_pairs_plain _ _ _ _ _ _ _ HO HP P1) as [C1 C2]. pose proof (item_pairs_plain _ _ _ _ _ _ _ HO HP P2) as [C3 C4].
      apply Key in K1; [|exact P1]. apply Key in K2; [|exact P2]. rewrite !name3_join in K1, K2.
      assert (Same : m = m' -> n = n' -> (m, a, (n, b)) = (m', a', (n', b'))).
      { intros <- <-. destruct (item_pair_det _ _ _ _ _ _ _ _ _ HO P1 P2). subst. reflexivity. }
      assert (Flip : m = n' -> n = m' -> flip_of permuted mb = true -> (m, a, (n, b)) = (m', a', (n', b'))).
      { intros <- <- Hf. exfalso. unfold flip_of in Hf. destruct mb as [mb|]; [rewrite andb_false_r in Hf; discriminate|].
        unfold item_pairs in P1, P2. eapply before_asym; [|exact P1|exact P2]. apply get_default_ok, HO. }
      destruct K1 as [->|[Hf ->]]; destruct K2 as [K2|[Hf' K2]]; apply key3_inj in K2; try assumption;
        destruct K2 as (_ & ? & ?); auto.
    + intros [[m a] [n b]] P1. unfold pair_jobs. destruct (flip_of permuted mb) eqn:Hf; cbn [fmap list_fmap fst].
      * apply NoDup_cons. split; [|apply NoDup_singleton]. intros K. apply elem_of_list_singleton in K.
        pose proof (item_pairs_plain _ _ _ _ _ _ _ HO HP P1) as [C1 C2].
        apply key3_inj in K; try assumption. destruct K as (_ & -> & _). unfold flip_of in Hf.
        destruct mb; [rewrite andb_false_r in Hf; discriminate|]. unfold item_pairs in P1.
        pose proof (get_default_ok ma l (proj1 HO)) as D.
        apply elem_of_pairs2 in P1 as (i & j & Hij & Q1 & Q2).
        assert (i = j); [|lia]. unfold dict_ok in D.
        eapply (NoDup_lookup _ i j n D); rewrite list_lookup_fmap; [rewrite Q1|rewrite Q2]; reflexivity.
      * apply NoDup_singleton.
    + apply item_pairs_NoDup, HO.
Qed.

(** * Which jobs, up to order *)

Lemma labels_perm (ma : dict (dict seg)) lord : lord_ok lord -> dict_ok ma ->
  lord (labels_of ma None) ≡ₚ ma.*1.
Proof.
  intros HL HM. rewrite (HL _). unfold labels_of. rewrite union_empty_r_L. apply elements_list_to_set, HM.
Qed.

Lemma union_split (A B : gset string) : A ∪ B = A ∪ (B ∖ A).
Proof. apply set_eq. intros x. rewrite !elem_of_union, elem_of_difference. destruct (decide (x ∈ A)); tauto. Qed.

Lemma labels_perm2 (ma mb : dict (dict seg)) lord : lord_ok lord -> dict_ok ma ->
  exists rest, lord (labels_of ma (Some mb)) ≡ₚ ma.*1 ++ rest /\ forall l, l ∈ rest -> l ∉ ma.*1.
Proof.
  intros HL HM. exists (elements (list_to_set mb.*1 ∖ list_to_set ma.*1 : gset string)). split.
  - rewrite (HL _). unfold labels_of.
    rewrite union_split. rewrite elements_disj_union by (clear; intros x; rewrite elem_of_difference; tauto). rewrite elements_list_to_set by exact HM. reflexivity.
  - intros l Hl K. apply elem_of_elements in Hl. apply elem_of_difference in Hl as [_ Hl]. apply Hl. apply elem_of_list_to_set, K.
Qed.

Lemma jobs_perm1 lord permuted ma : lord_ok lord -> items_ok ma ->
  all_jobs permuted ma None (lord (labels_of ma None)) ≡ₚ
  ma ≫= (fun ic => pairs2 (snd ic) ≫= pair_jobs permuted (fst ic)).
Proof.
  intros HL [HM _]. unfold all_jobs. rewrite (labels_perm ma lord HL HM), fmap_bind.
  erewrite bind_ext; [reflexivity|]. intros [l cs] H. unfold item_pairs, flip_of. rewrite andb_true_r. cbn [fst snd].
  apply dget_Some in H; [|exact HM]. rewrite H. reflexivity.
Qed.

Lemma jobs_perm2 lord permuted ma mb : lord_ok lord -> items_ok ma ->
  all_jobs permuted ma (Some mb) (lord (labels_of ma (Some mb))) ≡ₚ
  ma ≫= (fun ic => cross (snd ic) (default [] (dget mb (fst ic))) ≫= pair_jobs false (fst ic)).
Proof.
  intros HL [HM _]. unfold all_jobs. destruct (labels_perm2 ma mb lord HL HM) as (rest & -> & Hr).
  rewrite bind_app, (bind_nil _ rest), app_nil_r, fmap_bind.
  - erewrite bind_ext; [reflexivity|]. intros [l cs] H. unfold item_pairs, flip_of. rewrite andb_false_r. cbn [fst snd].
    apply dget_Some in H; [|exact HM]. rewrite H. reflexivity.
  - intros l Hl. unfold item_pairs. apply Hr in Hl. apply dget_None in Hl. rewrite Hl. reflexivity.
Qed.

Lemma pair_jobs_length p l x : length (pair_jobs p l x) = if p then 2%nat else 1%nat.
Proof. destruct x as [[m a] [n b]]. destruct p; reflexivity. Qed.

Lemma sum_const {A} (f : A -> nat) c l : (forall x, x ∈ l -> f x = c) -> sum_list (f <$> l) = (c * length l)%nat.
Proof.
  induction l as [|x l IH]; intros H; [cbn; lia|]. cbn [fmap list_fmap sum_list sum_list_with length id].
  rewrite H by apply elem_of_list_here. rewrite IH; [lia|]. intros y Hy. apply H, elem_of_list_further, Hy.
Qed.

Lemma sum_ext {A} (f g : A -> nat) l : (forall x, x ∈ l -> f x = g x) -> sum_list (f <$> l) = sum_list (g <$> l).
Proof.
  induction l as [|x l IH]; intros H; [reflexivity|]. cbn [fmap list_fmap sum_list sum_list_with id].
  rewrite H by apply elem_of_list_here. f_equal. apply IH. intros y Hy. apply H, elem_of_list_further, Hy.
Qed.

Lemma sum_mult {A} (f : A -> nat) c l : (c * sum_list (f <$> l))%nat = sum_list ((fun x => c * f x)%nat <$> l).
Proof. induction l as [|x l IH]; [cbn; lia|]. cbn [fmap list_fmap sum_list sum_list_with id]. rewrite <- IH. cbn. lia. Qed.

Lemma jobs_length1 lord permuted ma : lord_ok lord -> items_ok ma ->
  (2 * length (all_jobs permuted ma None (lord (labels_of ma None))) =
   (if permuted then 2 else 1) * sum_list ((fun ic => length (snd ic) * (length (snd ic) - 1)) <$> ma))%nat.
Proof.
  intros HL HM. rewrite (jobs_perm1 lord permuted ma HL HM), bind_length, sum_mult, sum_mult.
  apply sum_ext. intros [l cs] _. cbn [fst snd]. rewrite bind_length, (sum_const _ (if permuted then 2 else 1)%nat).
  - rewrite <- (pairs2_length cs). destruct permuted; lia.
  - intros x _. apply pair_jobs_length.
Qed.

Lemma codings_of_get {C} (items : dict (dict C)) l : dict_ok items -> codings_of items l = length (default [] (dget items l)).
Proof.
  unfold codings_of, dict_ok. induction items as [|[l' cs] items IH]; intros H; [reflexivity|].
  cbn [fmap list_fmap fst] in H. apply NoDup_cons in H as [H1 H2]. rewrite filter_cons. cbn [fst dget].
  destruct (decide (l' = l)) as [->|Hl].
  - destruct (decide (l = l)); [|contradiction]. cbn [fmap list_fmap sum_list sum_list_with snd default id].
    assert (filter (fun ic : string * dict C => fst ic = l) items = []) as ->; [|cbn; lia].
    clear IH H2. induction items as [|[k ds] items IH]; [reflexivity|]. cbn [fmap list_fmap fst] in H1. apply not_elem_of_cons in H1 as [H1 H2].
    rewrite filter_cons_False by (cbn; congruence). apply IH, H2.
  - destruct (decide (l = l')); [congruence|]. apply IH, H2.
Qed.

Lemma jobs_length2 lord permuted ma mb : lord_ok lord -> items_ok ma -> items_ok mb ->
  length (all_jobs permuted ma (Some mb) (lord (labels_of ma (Some mb)))) =
   sum_list ((fun ic => length (snd ic) * codings_of mb (fst ic))%nat <$> ma).
Proof.
  intros HL HM HM'. rewrite (jobs_perm2 lord permuted ma mb HL HM), bind_length.
  apply sum_ext. intros [l cs] _. cbn [fst snd]. rewrite bind_length, (sum_const _ 1%nat).
  - rewrite cross_length, codings_of_get by apply HM'. lia.
  - intros x _. apply pair_jobs_length.
Qed.

(** * Results *)

Lemma zip_fst {A B} (l : list A) (k : list B) : length l = length k -> (zip l k).*1 = l.
Proof. intros H. apply fst_zip. lia. Qed.

Section Results.
Context {R : Type} (metric : seg -> seg -> res R) (lord : gset string -> list string).
Hypothesis HL : lord_ok lord.

Lemma values_jobs permuted ma mb d : both_ok ma mb ->
  compute_pairwise_values metric lord permuted ma mb = Ok d ->
  exists vs, Forall2 (fun j v => eval metric j = Ok v) (all_jobs permuted ma mb (lord (labels_of ma mb))) vs /\
    d = dupdate [] (zip (all_jobs permuted ma mb (lord (labels_of ma mb))).*1 vs).
Proof.
  intros HO. unfold compute_pairwise_values. rewrite compute_jobs by assumption. cbv zeta.
  destruct (mapM _ _) as [vs|] eqn:E; cbn [bind rmap fst]; [|discriminate]. intros H.
  exists vs. split; [apply mapM_Ok, E|congruence].
Qed.

(** Whatever the names: every value comes from a request under its key and every
    request has a value under its key. *)
Lemma values_sound permuted ma mb d : both_ok ma mb ->
  compute_pairwise_values metric lord permuted ma mb = Ok d ->
  dict_ok d /\
  (forall k v, (k, v) ∈ d -> exists a b, asked permuted ma mb k a b /\ metric a b = Ok v) /\
  (forall k a b, asked permuted ma mb k a b -> exists v, (k, v) ∈ d).
Proof.
  intros HO H. destruct (values_jobs permuted ma mb d HO H) as (vs & HV & ->).
  set (J := all_jobs permuted ma mb (lord (labels_of ma mb))) in *.
  assert (HJ : forall k a b, (k, (a, b)) ∈ J <-> asked permuted ma mb k a b) by (intros; apply elem_of_jobs; assumption).
  assert (D : dict_ok (dupdate [] (zip J.*1 vs))) by (apply dupdate_ok, NoDup_nil_2).
  split; [exact D|]. split.
  - intros k v K. apply dget_Some in K; [|exact D]. rewrite dget_dupdate in K.
    destruct (dget (reverse (zip J.*1 vs)) k) as [w|] eqn:E; [|discriminate K]. injection K as ->.
    apply dget_elem in E. rewrite elem_of_reverse in E. apply elem_of_list_lookup_1 in E as [i E].
    apply lookup_zip_with_Some in E as (k' & w & K1 & K2 & K3). injection K1 as -> ->.
    rewrite list_lookup_fmap in K2. apply fmap_Some in K2 as ([k1 [a b]] & Ej & ->). cbn [fst].
    exists a, b. split; [apply HJ; eapply elem_of_list_lookup_2, Ej|].
    exact (Forall2_lookup_lr _ _ _ _ _ _ HV Ej K3).
  - intros k a b K. apply HJ in K.
    assert (Q : k ∈ (dupdate [] (zip J.*1 vs)).*1).
    { apply dupdate_elem. right. rewrite zip_fst by (rewrite fmap_length; eapply Forall2_length, HV).
      apply elem_of_list_fmap. exists (k, (a, b)). auto. }
    apply elem_of_list_fmap in Q as ([k' v] & -> & Q). exists v. exact Q.
Qed.

Lemma values_plain permuted ma mb d : both_ok ma mb -> plain2 ma mb ->
  compute_pairwise_values metric lord permuted ma mb = Ok d ->
  (forall k v, (k, v) ∈ d <-> exists a b, asked permuted ma mb k a b /\ metric a b = Ok v) /\
  length d = length (all_jobs permuted ma mb (lord (labels_of ma mb))).
Proof.
  intros HO HP H. destruct (values_jobs permuted ma mb d HO H) as (vs & HV & ->).
  set (J := all_jobs permuted ma mb (lord (labels_of ma mb))) in *.
  assert (HJ : forall k a b, (k, (a, b)) ∈ J <-> asked permuted ma mb k a b) by (intros; apply elem_of_jobs; assumption).
  assert (ND : NoDup J.*1).
  { apply jobs_NoDup; try assumption. rewrite (HL _). apply NoDup_elements. }
  assert (Len : length J.*1 = length vs) by (rewrite fmap_length; eapply Forall2_length, HV).
  rewrite dupdate_nodup; [|unfold dict_ok; cbn [app]; rewrite zip_fst; assumption]. cbn [app]. split.
  - intros k v. rewrite elem_of_list_lookup. split.
    + intros [i E]. apply lookup_zip_with_Some in E as (k' & w & K1 & K2 & K3). injection K1 as -> ->.
      rewrite list_lookup_fmap in K2. apply fmap_Some in K2 as ([k1 [a b]] & Ej & ->). cbn [fst].
      exists a, b. split; [apply HJ; eapply elem_of_list_lookup_2, Ej|].
      exact (Forall2_lookup_lr _ _ _ _ _ _ HV Ej K3).
    + intros (a & b & K & Hv). apply HJ, elem_of_list_lookup in K as [i K]. exists i. apply lookup_zip_with_Some.
      destruct (Forall2_lookup_l _ _ _ _ _ HV K) as (w & Hw & E). exists k, w. unfold eval in E. cbn [fst snd] in E.
      split; [congruence|]. split; [|exact Hw]. rewrite list_lookup_fmap, K. reflexivity.
  - rewrite zip_with_length, Len, Nat.min_id, <- Len, fmap_length. reflexivity.
Qed.

(** The metric is called once for each request. *)
Lemma values_calls permuted ma mb d log : both_ok ma mb ->
  compute_pairwise metric lord permuted ma mb = Ok (d, log) ->
  log = (all_jobs permuted ma mb (lord (labels_of ma mb))).*2.
Proof.
  intros HO. rewrite compute_jobs by assumption. cbv zeta. destruct (mapM _ _) as [vs|]; cbn [bind]; [|discriminate].
  intros H. congruence.
Qed.

(** It succeeds when all calls do; an exception is the metric's. *)
Lemma values_returns permuted ma mb : both_ok ma mb ->
  ((exists d, compute_pairwise_values metric lord permuted ma mb = Ok d) <->
     forall k a b, asked permuted ma mb k a b -> exists v, metric a b = Ok v) /\
  (forall e, compute_pairwise_values metric lord permuted ma mb = Err e ->
     exists k a b, asked permuted ma mb k a b /\ metric a b = Err e).
Proof.
  intros HO.
  assert (HJ : forall k a b, (k, (a, b)) ∈ all_jobs permuted ma mb (lord (labels_of ma mb)) <-> asked permuted ma mb k a b)
    by (intros; apply elem_of_jobs; assumption).
  unfold compute_pairwise_values. rewrite compute_jobs by assumption. cbv zeta.
  set (J := all_jobs permuted ma mb (lord (labels_of ma mb))) in *. split; [split|].
  - intros [d H] k a b K. apply HJ in K. destruct (mapM (eval metric) J) as [vs|] eqn:E; [|discriminate H]. apply mapM_Ok in E.
    apply elem_of_list_lookup in K as [i K]. destruct (Forall2_lookup_l _ _ _ _ _ E K) as (w & _ & Hw). eauto.
  - intros H. destruct (mapM_total (eval metric) J) as [vs ->]; [|cbn; eauto]. intros [k [a b]] K. apply HJ in K. exact (H _ _ _ K).
  - intros e H. destruct (mapM (eval metric) J) as [vs|e'] eqn:E; cbn [bind rmap] in H; [discriminate H|]. injection H as ->.
    apply mapM_Err in E as ([k [a b]] & K1 & K2). exists k, a, b. split; [apply HJ, K1|exact K2].
Qed.
End Results.

(** * C42 and C44: one dataset *)

Lemma one_dataset {R} (metric : seg -> seg -> res R) lord permuted items d :
  lord_ok lord -> items_ok items -> plain_coders items ->
  compute_pairwise_values metric lord permuted items None = Ok d ->
  dict_ok d /\
  (forall k v, (k, v) ∈ d <-> exists item c1 c2 a b, k = name3 item c1 c2 /\ metric a b = Ok v /\
     (before items item c1 c2 a b \/ (permuted = true /\ before items item c2 c1 b a))) /\
  (2 * length d = (if permuted then 2 else 1) * sum_list ((fun ic => length (snd ic) * (length (snd ic) - 1)) <$> items))%nat.
Proof.
  intros HL HO HP H. assert (HB : both_ok items None) by (split; [exact HO|exact I]).
  destruct (values_sound metric lord HL permuted items None d HB H) as (D & _ & _).
  destruct (values_plain metric lord HL permuted items None d HB (conj HP I) H) as [E L].
  split; [exact D|]. split.
  - intros k v. rewrite E. split.
    + intros (a & b & (item & c1 & c2 & K) & Hv). exists item, c1, c2, a, b. destruct K as [[K ->]|(Hp & K & ->)]; auto 6.
    + intros (item & c1 & c2 & a & b & -> & Hv & K). exists a, b. split; [|exact Hv]. exists item, c1, c2. tauto.
  - rewrite L. apply jobs_length1; assumption.
Qed.

Lemma one_dataset_plain {R} (metric : seg -> seg -> res R) lord items d :
  lord_ok lord -> items_ok items -> plain_coders items ->
  compute_pairwise_values metric lord false items None = Ok d ->
  dict_ok d /\
  (forall k v, (k, v) ∈ d <-> exists item c1 c2 a b, k = name3 item c1 c2 /\ before items item c1 c2 a b /\ metric a b = Ok v) /\
  (2 * length d = sum_list ((fun ic => length (snd ic) * (length (snd ic) - 1)) <$> items))%nat.
Proof.
  intros HL HO HP H. destruct (one_dataset metric lord false items d HL HO HP H) as (D & E & L).
  split; [exact D|]. split; [|lia]. intros k v. rewrite E. split.
  - intros (item & c1 & c2 & a & b & -> & Hv & [K|[K _]]); [|discriminate K]. exists item, c1, c2, a, b. auto.
  - intros (item & c1 & c2 & a & b & -> & K & Hv). exists item, c1, c2, a, b. auto.
Qed.

Lemma permuted_dataset {R} (metric : seg -> seg -> res R) lord items d :
  lord_ok lord -> items_ok items -> plain_coders items ->
  compute_pairwise_values metric lord true items None = Ok d ->
  dict_ok d /\
  (forall k v, (k, v) ∈ d <-> exists item c1 c2 a b, k = name3 item c1 c2 /\
     (before items item c1 c2 a b \/ before items item c2 c1 b a) /\ metric a b = Ok v) /\
  (length d = sum_list ((fun ic => length (snd ic) * (length (snd ic) - 1)) <$> items))%nat.
Proof.
  intros HL HO HP H. destruct (one_dataset metric lord true items d HL HO HP H) as (D & E & L).
  split; [exact D|]. split; [|lia]. intros k v. rewrite E. split.
  - intros (item & c1 & c2 & a & b & -> & Hv & K). exists item, c1, c2, a, b. tauto.
  - intros (item & c1 & c2 & a & b & -> & K & Hv). exists item, c1, c2, a, b. tauto.
Qed.

Lemma one_dataset_any {R} (metric : seg -> seg -> res R) lord items d :
  lord_ok lord -> items_ok items ->
  compute_pairwise_values metric lord false items None = Ok d ->
  dict_ok d /\
  (forall k v, (k, v) ∈ d -> exists item c1 c2 a b, k = name3 item c1 c2 /\ before items item c1 c2 a b /\ metric a b = Ok v) /\
  (forall item c1 c2 a b, before items item c1 c2 a b -> exists v, (name3 item c1 c2, v) ∈ d).
Proof.
  intros HL HO H. assert (HB : both_ok items None) by (split; [exact HO|exact I]).
  destruct (values_sound metric lord HL false items None d HB H) as (D & E1 & E2).
  split; [exact D|]. split.
  - intros k v K. destruct (E1 k v K) as (a & b & (item & c1 & c2 & [[Q ->]|[Q _]]) & Hv); [|discriminate Q].
    exists item, c1, c2, a, b. auto.
  - intros item c1 c2 a b K. apply (E2 _ a b). exists item, c1, c2. auto.
Qed.

Lemma one_dataset_calls {R} (metric : seg -> seg -> res R) lord items d log :
  lord_ok lord -> items_ok items ->
  compute_pairwise metric lord false items None = Ok (d, log) ->
  log ≡ₚ items ≫= (fun ic => two_of (snd ic).*2).
Proof.
  intros HL HO H. assert (HB : both_ok items None) by (split; [exact HO|exact I]).
  rewrite (values_calls metric lord HL false items None d log HB H), (jobs_perm1 lord false items HL HO), bind_fmap.
  erewrite bind_ext; [reflexivity|]. intros [l cs] _. cbn [fst snd]. rewrite two_of_pairs2, pairs2_fmap, bind_fmap.
  rewrite (bind_ext _ (fun p => [(snd (fst p), snd (snd p))])).
  - induction (pairs2 cs) as [|p P IH]; [reflexivity|]. cbn. f_equal; exact IH.
  - intros [[m a] [n b]] _. reflexivity.
Qed.

Lemma one_dataset_returns {R} (metric : seg -> seg -> res R) lord items :
  lord_ok lord -> items_ok items ->
  ((exists d, compute_pairwise_values metric lord false items None = Ok d) <->
     forall item c1 c2 a b, before items item c1 c2 a b -> exists v, metric a b = Ok v) /\
  (forall e, compute_pairwise_values metric lord false items None = Err e ->
     exists item c1 c2 a b, before items item c1 c2 a b /\ metric a b = Err e).
Proof.
  intros HL HO. assert (HB : both_ok items None) by (split; [exact HO|exact I]).
  destruct (values_returns metric lord HL false items None HB) as [E1 E2]. split.
  - rewrite E1. split.
    + intros H item c1 c2 a b K. apply (H (name3 item c1 c2)). exists item, c1, c2. auto.
    + intros H k a b (item & c1 & c2 & [[K _]|[K _]]); [eauto|discriminate K].
  - intros e H. destruct (E2 e H) as (k & a & b & (item & c1 & c2 & [[K _]|[K _]]) & Hv); [|discriminate K].
    exists item, c1, c2, a, b. auto.
Qed.

(** The order in which the set of items is walked does not matter. *)
Lemma orders_agree {R} (metric : seg -> seg -> res R) lord lord' permuted ma mb d d' :
  lord_ok lord -> lord_ok lord' -> items_ok ma -> plain_coders ma ->
  match mb with Some m => items_ok m /\ plain_coders m | None => True end ->
  compute_pairwise_values metric lord permuted ma mb = Ok d ->
  compute_pairwise_values metric lord' permuted ma mb = Ok d' -> d ≡ₚ d'.
Proof.
  intros HL HL' HO HP HM H H'.
  assert (HB : both_ok ma mb) by (split; [exact HO|destruct mb; [apply HM|exact I]]).
  assert (HP2 : plain2 ma mb) by (split; [exact HP|destruct mb; [apply HM|exact I]]).
  destruct (values_sound metric lord HL permuted ma mb d HB H) as (D & _ & _).
  destruct (values_sound metric lord' HL' permuted ma mb d' HB H') as (D' & _ & _).
  destruct (values_plain metric lord HL permuted ma mb d HB HP2 H) as [E _].
  destruct (values_plain metric lord' HL' permuted ma mb d' HB HP2 H') as [E' _].
  apply NoDup_Permutation; [apply dict_ok_NoDup, D|apply dict_ok_NoDup, D'|].
  intros [k v]. rewrite E, E'. reflexivity.
Qed.

(** Symmetric metrics give both orders the same value. *)
Lemma symmetric_pairs {R} (metric : seg -> seg -> res R) lord items d :
  lord_ok lord -> items_ok items -> plain_coders items ->
  (forall item c1 c2 a b, before items item c1 c2 a b -> metric a b = metric b a) ->
  compute_pairwise_values metric lord true items None = Ok d ->
  forall item c1 c2 v, (name3 item c1 c2, v) ∈ d -> comma_free c1 -> comma_free c2 -> (name3 item c2 c1, v) ∈ d.
Proof.
  intros HL HO HP HS H item c1 c2 v K F1 F2.
  destruct (one_dataset metric lord true items d HL HO HP H) as (_ & E & _).
  apply E in K as (i' & e1 & e2 & a & b & K & Hv & Q).
  assert (C : comma_free e1 /\ comma_free e2).
  { destruct Q as [(cs & i & j & B1 & _ & B2 & B3)|(_ & cs & i & j & B1 & _ & B2 & B3)];
      apply elem_of_list_lookup_2 in B2, B3; split; eapply HP; eassumption. }
  destruct C as [C1 C2]. rewrite !name3_join in K. apply key3_inj in K; try assumption. destruct K as (<- & <- & <-).
  apply E. exists item, c2, c1, b, a. split; [reflexivity|].
  destruct Q as [Q|[_ Q]]; [rewrite <- (HS _ _ _ _ _ Q)|rewrite (HS _ _ _ _ _ Q)]; auto.
Qed.

(** * C43: two datasets *)

Lemma two_datasets {R} (metric : seg -> seg -> res R) lord permuted ia ib d :
  lord_ok lord -> items_ok ia -> items_ok ib -> plain_coders ia -> plain_coders ib ->
  compute_pairwise_values metric lord permuted ia (Some ib) = Ok d ->
  dict_ok d /\
  (forall k v, (k, v) ∈ d <-> exists item c1 c2 a b, k = name3 item c1 c2 /\ across ia ib item c1 c2 a b /\ metric a b = Ok v) /\
  length d = sum_list ((fun ic => length (snd ic) * codings_of ib (fst ic))%nat <$> ia).
Proof.
  intros HL HO HO' HP HP' H. assert (HB : both_ok ia (Some ib)) by (split; assumption).
  destruct (values_sound metric lord HL permuted ia (Some ib) d HB H) as (D & _ & _).
  destruct (values_plain metric lord HL permuted ia (Some ib) d HB (conj HP HP') H) as [E L].
  split; [exact D|]. split.
  - intros k v. rewrite E. split.
    + intros (a & b & (item & c1 & c2 & K & ->) & Hv). exists item, c1, c2, a, b. auto.
    + intros (item & c1 & c2 & a & b & -> & K & Hv). exists a, b. split; [|exact Hv]. exists item, c1, c2. auto.
  - rewrite L. apply jobs_length2; assumption.
Qed.

Lemma two_datasets_returns {R} (metric : seg -> seg -> res R) lord permuted ia ib :
  lord_ok lord -> items_ok ia -> items_ok ib ->
  ((exists d, compute_pairwise_values metric lord permuted ia (Some ib) = Ok d) <->
     forall item c1 c2 a b, across ia ib item c1 c2 a b -> exists v, metric a b = Ok v) /\
  (forall e, compute_pairwise_values metric lord permuted ia (Some ib) = Err e ->
     exists item c1 c2 a b, across ia ib item c1 c2 a b /\ metric a b = Err e).
Proof.
  intros HL HO HO'. assert (HB : both_ok ia (Some ib)) by (split; assumption).
  destruct (values_returns metric lord HL permuted ia (Some ib) HB) as [E1 E2]. split.
  - rewrite E1. split.
    + intros H item c1 c2 a b K. apply (H (name3 item c1 c2)). exists item, c1, c2. auto.
    + intros H k a b (item & c1 & c2 & K & _). eauto.
  - intros e H. destruct (E2 e H) as (k & a & b & (item & c1 & c2 & K & _) & Hv).
    exists item, c1, c2, a, b. auto.
Qed.

Lemma two_datasets_calls {R} (metric : seg -> seg -> res R) lord permuted ia ib d log :
  lord_ok lord -> items_ok ia -> items_ok ib ->
  compute_pairwise metric lord permuted ia (Some ib) = Ok (d, log) ->
  length log = sum_list ((fun ic => length (snd ic) * codings_of ib (fst ic))%nat <$> ia) /\
  forall a b, (a, b) ∈ log <-> exists item c1 c2, across ia ib item c1 c2 a b.
Proof.
  intros HL HO HO' H. assert (HB : both_ok ia (Some ib)) by (split; assumption).
  rewrite (values_calls metric lord HL permuted ia (Some ib) d log HB H). split.
  - rewrite fmap_length. apply jobs_length2; assumption.
  - intros a b. rewrite elem_of_list_fmap. split.
    + intros ([k [x y]] & K & Q). cbn in K. injection K as -> ->. apply elem_of_jobs in Q; [|assumption|exact HB].
      destruct Q as (item & c1 & c2 & Q & _). eauto.
    + intros (item & c1 & c2 & Q). exists (name3 item c1 c2, (a, b)). split; [reflexivity|].
      apply elem_of_jobs; [assumption|exact HB|]. exists item, c1, c2. auto.
Qed.

(** * C45 *)

Definition no_items (x : arg) : Prop :=
  match x with AInt z => False | ASeg s => seg_len s = 0 | AData d => ds_items d = [] end.

(** Nothing usable as a dataset: also the int 0. *)
Definition nothing (x : arg) : Prop :=
  match x with AInt z => z = 0 | _ => no_items x end.

(** Arguments that are refused. *)
Inductive rejected : call -> Prop :=
| rej_count l : length l <> 1%nat -> length l <> 2%nat -> rejected (Positional l)
| rej_missing h r : h = None \/ r = None -> rejected (ByName h r None)
| rej_nothing x : nothing x -> rejected (Positional [x])
| rej_nothing_named h r x : h = None \/ r = None -> nothing x -> rejected (ByName h r (Some x))
| rej_empty x y : no_items x \/ no_items y -> rejected (Positional [x; y])
| rej_empty_named x y d : no_items x \/ no_items y -> rejected (ByName (Some x) (Some y) d)
| rej_formats a b : ds_format a <> ds_format b -> rejected (Positional [AData a; AData b])
| rej_formats_named a b d : ds_format a <> ds_format b -> rejected (ByName (Some (AData a)) (Some (AData b)) d).

Lemma zlen_zero {X} (l : list X) : (zlen l =? 0) = true <-> l = [].
Proof. unfold zlen. destruct l; cbn [length]; split; intros; try reflexivity; try lia; discriminate. Qed.

Lemma truthy_fix x : truthy (fix_int x) = true <-> ~ no_items x.
Proof.
  destruct x as [z|s|d]; cbn [fix_int truthy no_items].
  - split; auto.
  - rewrite negb_true_iff, Z.eqb_neq. reflexivity.
  - rewrite negb_true_iff. rewrite <- not_true_iff_false, zlen_zero. reflexivity.
Qed.

Lemma truthy_nothing x : truthy x = true <-> ~ nothing x.
Proof.
  destruct x as [z|s|d]; cbn [truthy nothing no_items].
  - rewrite negb_true_iff, Z.eqb_neq. reflexivity.
  - rewrite negb_true_iff, Z.eqb_neq. reflexivity.
  - rewrite negb_true_iff. rewrite <- not_true_iff_false, zlen_zero. reflexivity.
Qed.

Lemma nothing_dec x : {nothing x} + {~ nothing x}.
Proof. destruct (truthy x) eqn:E; [right; apply truthy_nothing, E|left]. destruct x as [z|s|d]; cbn in *; try lia. apply zlen_zero. lia. Qed.

Lemma compute_err {R} (metric : seg -> seg -> res R) lord permuted ma mb e :
  (forall a b, metric a b <> Err e) -> e <> KeyError -> e <> AttributeError ->
  compute_pairwise_values metric lord permuted ma mb <> Err e.
Proof.
  intros HM N1 N2. unfold compute_pairwise_values. destruct (compute_pairwise _ _ _ _ _) eqn:E; [discriminate|]. cbn. intros K. injection K as ->.
  unfold compute_pairwise in E. revert E. generalize (lord (list_to_set ma.*1 ∪ match mb with Some d => list_to_set d.*1 | None => ∅ end)).
  generalize (@nil (string * R), @nil (seg * seg)).
  assert (PE : forall l p two cm cn P st, foldM (pair_entry metric l p two cm cn) P st <> Err e).
  { intros l p two cm cn P. induction P as [|[m n] P IH]; intros st; cbn [foldM]; [discriminate|].
    destruct (pair_entry metric l p two cm cn st (m, n)) as [st'|e'] eqn:E'; cbn [bind]; [apply IH|].
    intros K. injection K as ->. revert E'. unfold pair_entry, dlookup. destruct (dget cm m) as [a|]; cbn [bind]; [|congruence].
    destruct (dget cn n) as [b|]; cbn [bind]; [|congruence]. destruct (metric a b) eqn:E1; cbn [bind].
    - destruct (p && negb two); [|discriminate]. destruct (metric b a) eqn:E2; cbn [bind]; [discriminate|].
      intros K. injection K as ->. exact (HM _ _ E2).
    - intros K. injection K as ->. exact (HM _ _ E1). }
  intros st ls. revert st. induction ls as [|l ls IH]; intros st; cbn [foldM]; [discriminate|].
  destruct (label_entries metric permuted ma mb st l) as [st'|e'] eqn:E'; cbn [bind]; [apply IH|].
  intros K. injection K as ->. revert E'. unfold label_entries.
  assert (PL : forall p two cm cn P d log, (let* (lp, log) := foldM (pair_entry metric l p two cm cn) P ([], log) in Ok (dupdate d lp, log)) <> Err e).
  { intros. destruct (foldM _ _ _) as [[lp log']|e'] eqn:E'; cbn [bind]; [discriminate|]. intros K. injection K as ->. exact (PE _ _ _ _ _ _ _ E'). }
  destruct mb as [mb|]; destruct (dget ma l) as [cm|]; try congruence.
  - destruct (dget mb l) as [cn|]; [apply PL|discriminate].
  - apply PL.
Qed.

Section Dispatching.
Context {R : Type} (metric : fmt -> seg -> seg -> res R) (lord : gset string -> list string) (permuted : bool) (f : fmt).

Let run := fnc_metric metric lord permuted f.

Lemma pair_call x y : run (Positional [x; y]) = run (Positional [fix_int x; fix_int y]) /\
  run (ByName (Some x) (Some y) None) = run (Positional [x; y]) /\
  forall d, run (ByName (Some x) (Some y) (Some d)) =
    fnc_metric (fun _ _ _ => Err TypeError : res R) lord permuted f (Positional [x; y]).
Proof. split; [destruct x, y; reflexivity|]. split; [reflexivity|]. intros d. reflexivity. Qed.

Lemma seg_call a b : seg_len a <> 0 -> seg_len b <> 0 -> run (Positional [ASeg a; ASeg b]) = rmap One (metric f a b).
Proof.
  intros Ha Hb. unfold run, fnc_metric. cbn [parse_call bind fst snd option_map fix_int truthy stray].
  apply Z.eqb_neq in Ha, Hb. rewrite Ha, Hb. cbn [negb andb]. destruct (metric f a b); reflexivity.
Qed.

Lemma data_call d : ds_items d <> [] ->
  run (Positional [AData d]) = rmap Many (compute_pairwise_values (metric (ds_format d)) lord permuted (ds_items d) None) /\
  run (ByName None None (Some (AData d))) = run (Positional [AData d]) /\
  forall h r, h = None /\ is_Some r \/ is_Some h /\ r = None ->
    run (ByName h r (Some (AData d))) =
    fnc_metric (fun _ _ _ => Err TypeError : res R) lord permuted f (Positional [AData d]).
Proof.
  intros Hd. assert (T : truthy (AData d) = true) by (apply truthy_nothing; exact Hd). split.
  - unfold run, fnc_metric. cbn [parse_call bind fst snd option_map stray]. rewrite T.
    destruct (compute_pairwise_values _ _ _ _ _); reflexivity.
  - split; [reflexivity|]. intros h r [[-> [x ->]]|[[x ->] ->]]; reflexivity.
Qed.

Lemma data2_call a b : ds_items a <> [] -> ds_items b <> [] -> ds_format a = ds_format b ->
  run (Positional [AData a; AData b]) =
  rmap Many (compute_pairwise_values (metric (ds_format a)) lord permuted (ds_items a) (Some (ds_items b))).
Proof.
  intros Ha Hb Hf. unfold run, fnc_metric. cbn [parse_call bind fst snd option_map fix_int stray].
  assert (T1 : truthy (AData a) = true) by (apply truthy_nothing; exact Ha).
  assert (T2 : truthy (AData b) = true) by (apply truthy_nothing; exact Hb). rewrite T1, T2. cbn [andb].
  destruct (decide _); [|contradiction]. destruct (compute_pairwise_values _ _ _ _ _); reflexivity.
Qed.

(** A call by name is the positional call of the metric or, with an argument left over,
    of one that refuses it. *)
Let refuse : fmt -> seg -> seg -> res R := fun _ _ _ => Err TypeError.
Let as_called (c c' : call) : Prop := run c = run c' \/ run c = fnc_metric refuse lord permuted f c'.

Lemma dataset_named h r x : h = None \/ r = None -> as_called (ByName h r (Some x)) (Positional [x]).
Proof. intros [->| ->]; [destruct r|destruct h]; solve [left; reflexivity|right; reflexivity]. Qed.

Lemma pair_named x y d : as_called (ByName (Some x) (Some y) d) (Positional [x; y]).
Proof. destruct d; [right|left]; reflexivity. Qed.

Let safe (m : fmt -> seg -> seg -> res R) := forall f a b, m f a b <> Err SegmentationMetricError.

Lemma rejected_raises c : rejected c -> run c = Err SegmentationMetricError.
Proof.
  assert (PE : forall m x y, no_items x \/ no_items y -> fnc_metric (R := R) m lord permuted f (Positional [x; y]) = Err SegmentationMetricError).
  { intros m x y H. unfold fnc_metric. cbn [parse_call bind fst snd option_map stray].
    destruct (truthy (fix_int x)) eqn:Tx; [|reflexivity]. destruct (truthy (fix_int y)) eqn:Ty; [|reflexivity].
    apply truthy_fix in Tx, Ty. tauto. }
  assert (PF : forall m a b, ds_format a <> ds_format b -> fnc_metric (R := R) m lord permuted f (Positional [AData a; AData b]) = Err SegmentationMetricError).
  { intros m a b H. unfold fnc_metric. cbn [parse_call bind fst snd option_map fix_int stray].
    destruct (truthy (AData a) && truthy (AData b)); [|reflexivity]. destruct (decide _); [contradiction|reflexivity]. }
  assert (PN : forall m x, nothing x -> fnc_metric (R := R) m lord permuted f (Positional [x]) = Err SegmentationMetricError).
  { intros m x H. unfold fnc_metric. cbn [parse_call bind fst snd option_map stray].
    destruct (truthy x) eqn:T; [|reflexivity]. apply truthy_nothing in T. contradiction. }
  intros H. destruct H as [l H1 H2|h r H|x H|h r x H K|x y H|x y d H|a b H|a b d H]; unfold run; auto.
  - destruct l as [|x [|y [|z l]]]; cbn in H1, H2; try lia; reflexivity.
  - destruct H as [->| ->]; [reflexivity|destruct h; reflexivity].
  - destruct (dataset_named h r x H) as [Q|Q]; unfold run in Q; rewrite Q; apply PN, K.
  - destruct (pair_named x y d) as [Q|Q]; unfold run in Q; rewrite Q; apply PE, H.
  - destruct (pair_named (AData a) (AData b) d) as [Q|Q]; unfold run in Q; rewrite Q; apply PF, H.
Qed.

Lemma raises_rejected c : (forall f a b, metric f a b <> Err SegmentationMetricError) ->
  run c = Err SegmentationMetricError -> rejected c.
Proof.
  intros HM.
  assert (P1 : forall m x, safe m -> fnc_metric (R := R) m lord permuted f (Positional [x]) = Err SegmentationMetricError -> nothing x).
  { intros m x Hm. unfold fnc_metric. cbn [parse_call bind fst snd option_map stray]. destruct (truthy x) eqn:T.
    - destruct x as [z|s|d]; try discriminate. destruct (compute_pairwise_values _ _ _ _ _) eqn:E; cbn [bind]; [discriminate|].
      intros K. exfalso. revert E. injection K as ->. apply compute_err; [intros; apply Hm|discriminate..].
    - intros _. destruct (nothing_dec x) as [K|K]; [exact K|]. apply truthy_nothing in K. congruence. }
  assert (P2 : forall m x y, safe m -> fnc_metric (R := R) m lord permuted f (Positional [x; y]) = Err SegmentationMetricError ->
    (no_items x \/ no_items y) \/ exists a b, x = AData a /\ y = AData b /\ ds_format a <> ds_format b).
  { intros m x y Hm. destruct (truthy (fix_int x)) eqn:Tx.
    2: { intros _. left. left. destruct x as [z|s|d]; cbn in Tx |- *; [discriminate Tx| |]; [lia|apply zlen_zero; lia]. }
    destruct (truthy (fix_int y)) eqn:Ty.
    2: { intros _. left. right. destruct y as [z|s|d]; cbn in Ty |- *; [discriminate Ty| |]; [lia|apply zlen_zero; lia]. }
    unfold fnc_metric. cbn [parse_call bind fst snd option_map stray]. rewrite Tx, Ty. cbn [andb].
    destruct x as [z|s|a]; destruct y as [z'|s'|b]; cbn [fix_int]; try discriminate;
      try (intros K; destruct (m f _ _) eqn:E; cbn [bind] in K; [discriminate K|];
           exfalso; injection K as ->; exact (Hm _ _ _ E)).
    destruct (decide _) as [E|E]; [|intros _; right; eauto].
    intros K. destruct (compute_pairwise_values _ _ _ _ _) eqn:E'; cbn [bind] in K; [discriminate K|].
    exfalso. revert E'. injection K as ->. apply compute_err; [intros; apply Hm|discriminate..]. }
  destruct c as [l|h r d].
  - destruct l as [|x [|y [|z l]]]; intros H.
    + apply rej_count; cbn; lia.
    + apply rej_nothing, (P1 metric), H. exact HM.
    + apply P2 in H as [H|(a & b & -> & -> & H)]; [apply rej_empty, H|apply rej_formats, H|exact HM].
    + apply rej_count; cbn; lia.
  - assert (PD : forall x', h = None \/ r = None -> run (ByName h r (Some x')) = Err SegmentationMetricError -> rejected (ByName h r (Some x'))).
    { intros x' N H. apply rej_nothing_named; [exact N|]. destruct (dataset_named h r x' N) as [Q|Q]; rewrite Q in H; apply P1 in H; auto; discriminate. }
    destruct h as [x|]; destruct r as [y|].
    + intros H. assert (G : (no_items x \/ no_items y) \/ exists a b, x = AData a /\ y = AData b /\ ds_format a <> ds_format b).
      { destruct (pair_named x y d) as [Q|Q]; rewrite Q in H; apply P2 in H; auto; discriminate. }
      destruct G as [G|(a & b & -> & -> & G)]; [apply rej_empty_named, G|apply rej_formats_named, G].
    + destruct d as [x'|]; intros H; [|apply rej_missing; auto]. apply PD; auto.
    + destruct d as [x'|]; intros H; [|apply rej_missing; auto]. apply PD; auto.
    + destruct d as [x'|]; intros H; [|apply rej_missing; auto]. apply PD; auto.
Qed.
End Dispatching.

Lemma rejected_iff {R} (metric : fmt -> seg -> seg -> res R) lord permuted f c :
  (forall f a b, metric f a b <> Err SegmentationMetricError) ->
  fnc_metric metric lord permuted f c = Err SegmentationMetricError <-> rejected c.
Proof. intros HM. split; [|apply rejected_raises]. apply raises_rejected, HM. Qed.

(** * C44 for the metrics of the library *)
From Verif Require Import Spec SpecSim SimSym SimMain BedProofs WindowSym.

Definition codings_ok {C} (items : dict (dict C)) (P : C -> Prop) : Prop :=
  forall item cs c s, (item, cs) ∈ items -> (c, s) ∈ cs -> P s.

Lemma before_ok {C} (items : dict (dict C)) P item c1 c2 a b : codings_ok items P -> before items item c1 c2 a b -> P a /\ P b.
Proof.
  intros H (cs & i & j & K & _ & Ki & Kj). apply elem_of_list_lookup_2 in Ki, Kj. split; eapply H; eassumption.
Qed.

Lemma similarity_pairs A E W f n_t om lord items :
  lord_ok lord -> items_ok items -> plain_coders items -> env_ok E -> neutral W ->
  codings_ok items (fun s => exists x, to_bstring f s = Ok x /\ small_types x x) ->
  (forall d, compute_pairwise_values (boundary_similarity A E W f n_t om false) lord true items None = Ok d ->
     forall item c1 c2 v, (name3 item c1 c2, v) ∈ d -> comma_free c1 -> comma_free c2 -> (name3 item c2 c1, v) ∈ d) /\
  (forall d, compute_pairwise_values (segmentation_similarity A E W f n_t om false) lord true items None = Ok d ->
     forall item c1 c2 v, (name3 item c1 c2, v) ∈ d -> comma_free c1 -> comma_free c2 -> (name3 item c2 c1, v) ∈ d).
Proof.
  intros HL HO HP HE HW HC.
  assert (S : forall item c1 c2 a b, before items item c1 c2 a b ->
     (same_result (boundary_similarity A E W f n_t om false a b) (boundary_similarity A E W f n_t om false b a)) /\
     segmentation_similarity A E W f n_t om false a b = segmentation_similarity A E W f n_t om false b a).
  { intros item c1 c2 a b K. destruct (before_ok items _ _ _ _ _ _ HC K) as [(x & Hx & Sx) (y & Hy & Sy)].
    destruct (metrics_symmetric A E E W f n_t a b HE HE HW) as [S1 S2].
    - intros e e' Q. rewrite Hx in Q. discriminate Q.
    - intros x' y' Qx Qy. assert (x' = x) by congruence. assert (y' = y) by congruence. subst.
      intros u t [Ht|Ht] Hu; [apply (Sx u)|apply (Sy u)]; auto.
    - auto. }
  split; intros d H; eapply symmetric_pairs; try eassumption.
  - intros item c1 c2 a b K. destruct (S item c1 c2 a b K) as [Q _]. revert Q. unfold same_result.
    assert (NP : forall a b n d e, boundary_similarity A E W f n_t om false a b <> Ok (BParts n d e)).
    { intros a' b' n' d' e' Q. unfold boundary_similarity in Q. destruct (boundary_statistics A E W f n_t a' b') as [s|]; cbn [bind] in Q; [|discriminate Q].
      unfold similarity_of_stats in Q. destruct (nsub A _ _) as [m|]; cbn [bind] in Q; [|discriminate Q].
      destruct (if 0 <? _ then ndiv A m _ else _) as [v|] in Q; cbn [bind] in Q; [|discriminate Q]. destruct om; [|discriminate Q].
      destruct (nsub A _ v); discriminate Q. }
    destruct (boundary_similarity A E W f n_t om false a b) as [[v|n1 d1 e1]|e] eqn:E1;
    destruct (boundary_similarity A E W f n_t om false b a) as [[v'|n2 d2 e2]|e'] eqn:E2; intros Q; try contradiction; try congruence.
    exfalso. exact (NP _ _ _ _ _ E1).
  - intros item c1 c2 a b K. apply (S item c1 c2 a b K).
Qed.

Lemma window_pairs A rnd f k om rp lord items :
  lord_ok lord -> items_ok items -> plain_coders items ->
  codings_ok items (fun s => exists p, to_positions f s = Ok p) ->
  (forall d, compute_pairwise_values (pk A rnd f (Some k) om rp) lord true items None = Ok d ->
     forall item c1 c2 v, (name3 item c1 c2, v) ∈ d -> comma_free c1 -> comma_free c2 -> (name3 item c2 c1, v) ∈ d) /\
  (forall lam d, compute_pairwise_values (window_diff A rnd f (Some k) lam om rp) lord true items None = Ok d ->
     forall item c1 c2 v, (name3 item c1 c2, v) ∈ d -> comma_free c1 -> comma_free c2 -> (name3 item c2 c1, v) ∈ d).
Proof.
  intros HL HO HP HC.
  assert (S : forall item c1 c2 a b, before items item c1 c2 a b ->
     pk A rnd f (Some k) om rp a b = pk A rnd f (Some k) om rp b a /\
     forall lam, window_diff A rnd f (Some k) lam om rp a b = window_diff A rnd f (Some k) lam om rp b a).
  { intros item c1 c2 a b K. destruct (before_ok items _ _ _ _ _ _ HC K) as [(x & Hx) (y & Hy)].
    exact (window_symmetric A rnd f k a b x y Hx Hy om rp). }
  split; [intros d H|intros lam d H]; eapply symmetric_pairs; try eassumption; intros item c1 c2 a b K; apply (S item c1 c2 a b K).
Qed.
