(** Looking up an item of a dataset.  A [Dataset] is a [defaultdict(dict)], so that reading an
    absent item inserts it. *)
From Verif Require Import SpecData SpecDispatch DictProofs DispatchProofs DispatchMain AgreementFinal AgreementPublic SpecAgreement Agreement.
Open Scope Z_scope.

(** segeval/data/__init__.py:27 and :38: [dataset[item]] of a [defaultdict(dict)]: an absent
    item becomes an empty dict, which is stored and returned. *)
Definition ds_lookup {C} (d : dataset C) (item : string) : dict C * dataset C :=
  match dget (ds_items d) item with
  | Some codings => (codings, d)
  | None => ([], with_items d (dset (ds_items d) item []))
  end.

(** The dataset after the lookup. *)
Definition after {C} (d : dataset C) (item : string) : dataset C := snd (ds_lookup d item).

Lemma after_absent {C} (d : dataset C) x : x ∉ (ds_items d).*1 -> after d x = with_items d (ds_items d ++ [(x, [])]).
Proof.
  intros H. unfold after, ds_lookup. rewrite (proj2 (dget_None _ _) H). cbn [snd]. rewrite dset_fresh by assumption. reflexivity.
Qed.

Lemma after_present {C} (d : dataset C) x : x ∈ (ds_items d).*1 -> after d x = d.
Proof. intros H. unfold after, ds_lookup. apply dget_is_Some in H as [v ->]. reflexivity. Qed.

Lemma with_items_same {C} (d : dataset C) : with_items d (ds_items d) = d.
Proof. destruct d. reflexivity. Qed.

(** What the dataset holds afterwards. *)
Theorem lookup_state {C} (d : dataset C) x : dict_ok (ds_items d) ->
  (forall y c, (y, c) ∈ ds_items (after d x) <-> (y, c) ∈ ds_items d \/ (y = x /\ c = [] /\ x ∉ (ds_items d).*1)) /\
  dict_ok (ds_items (after d x)) /\ (x, fst (ds_lookup d x)) ∈ ds_items (after d x) /\
  (forall y c, coding_at (ds_items (after d x)) y c = coding_at (ds_items d) y c) /\
  ds_coders (after d x) = ds_coders d /\ ds_props (after d x) = ds_props d /\ ds_types (after d x) = ds_types d /\ ds_format (after d x) = ds_format d.
Proof.
  intros Hd. destruct (decide (x ∈ (ds_items d).*1)) as [H|H].
  - rewrite after_present by assumption. split; [intros y c; split; [intros K; left; exact K|intros [K|(_ & _ & K)]; [exact K|contradiction]]|].
    split; [exact Hd|]. split; [|repeat split].
    unfold ds_lookup. pose proof (proj2 (dget_is_Some _ _) H) as [v E]. rewrite E. cbn [fst]. exact (dget_elem _ _ _ E).
  - rewrite after_absent by assumption. destruct d as [items props types f coders]. cbn in *.
    split; [|split; [|split; [|split; [|repeat split]]]].
    + intros y c. rewrite elem_of_app, elem_of_list_singleton. split.
      * intros [K|K]; [left; exact K|]. injection K as -> ->. right. auto.
      * intros [K|(-> & -> & _)]; [left; exact K|right; reflexivity].
    + unfold dict_ok. rewrite fmap_app. apply NoDup_app. split; [exact Hd|]. split; [|apply NoDup_singleton].
      intros y Hy K. apply elem_of_list_singleton in K. subst. exact (H Hy).
    + unfold ds_lookup. cbn. rewrite (proj2 (dget_None _ _) H). cbn. apply elem_of_app. right. apply elem_of_list_singleton. reflexivity.
    + intros y c. unfold coding_at. assert (E : dget (items ++ [(x, [])]) y = match dget items y with Some v => Some v | None => if decide (y = x) then Some [] else None end).
      { clear. induction items as [|[k v] l IH]; cbn; [reflexivity|]. destruct (decide (y = k)); [reflexivity|exact IH]. }
      rewrite E. destruct (dget items y); [reflexivity|]. destruct (decide (y = x)); reflexivity.
Qed.

(** ** Pairwise values *)
Section Pairs.
Context {R : Type} (metric : seg -> seg -> res R).

(** The order in which the items other than [x] are walked. *)
Definition without (lord : gset string -> list string) (x : string) (s : gset string) : list string :=
  if decide (x ∈ s) then lord s else filter (fun y => y <> x) (lord ({[x]} ∪ s)).

Lemma without_ok lord x : lord_ok lord -> lord_ok (without lord x).
Proof.
  intros H s. unfold without. destruct (decide (x ∈ s)); [apply H|].
  apply NoDup_Permutation; [apply NoDup_filter; rewrite (H _); apply NoDup_elements|apply NoDup_elements|].
  intros y. rewrite elem_of_list_filter, (H _), !elem_of_elements, elem_of_union, elem_of_singleton. split.
  - intros [K [E|E]]; [contradiction|exact E].
  - intros K. split; [intros ->; contradiction|right; exact K].
Qed.

Lemma foldM_skip {S X} (f : S -> X -> res S) (P : X -> Prop) `{!forall x, Decision (P x)} l s :
  (forall x s, ~ P x -> f s x = Ok s) -> foldM f l s = foldM f (filter P l) s.
Proof.
  intros K0. revert s. induction l as [|x l IH]; intros s; [reflexivity|]. rewrite filter_cons. destruct (decide (P x)) as [K|K].
  - cbn. destruct (f s x); [apply IH|reflexivity].
  - cbn. rewrite K0 by assumption. apply IH.
Qed.

Lemma foldM_on {S X} (f g : S -> X -> res S) l s : (forall x s, x ∈ l -> f s x = g s x) -> foldM f l s = foldM g l s.
Proof.
  revert s. induction l as [|x l IH]; intros s H; [reflexivity|]. cbn. rewrite H by left. destruct (g s x); [|reflexivity].
  apply IH. intros y s' K. apply H. right. exact K.
Qed.

Lemma dget_snoc (items : dict (dict seg)) x y : y <> x -> dget (items ++ [(x, [])]) y = dget items y.
Proof. intros N. induction items as [|[k v] l IH]; cbn; [rewrite decide_False by exact N; reflexivity|]. destruct (decide (y = k)); [reflexivity|exact IH]. Qed.
Lemma dget_last (items : dict (dict seg)) x : x ∉ items.*1 -> dget (items ++ [(x, [])]) x = Some [].
Proof. induction items as [|[k v] l IH]; cbn; intros N; [rewrite decide_True by reflexivity; reflexivity|]. apply not_elem_of_cons in N as [N1 N2]. rewrite decide_False by exact N1. auto. Qed.

Lemma cross_nil (l : list string) : cross l ([] : list string) = [].
Proof. unfold cross. induction l; [reflexivity|exact IHl]. Qed.

(** In one dataset, or as the first of two. *)
Lemma lookup_pairs_l lord p (ma : dict (dict seg)) mb x : x ∉ ma.*1 -> lord_ok lord ->
  exists lord', lord_ok lord' /\
    compute_pairwise metric lord p (ma ++ [(x, [])]) mb = compute_pairwise metric lord' p ma mb.
Proof.
  intros Hx Hl. exists (without lord x). split; [apply without_ok, Hl|]. unfold compute_pairwise. cbn zeta.
  set (L := list_to_set ma.*1 ∪ match mb with Some d => list_to_set d.*1 | None => ∅ end : gset string).
  assert (EL : list_to_set (ma ++ [(x, [])]).*1 ∪ match mb with Some d => list_to_set d.*1 | None => ∅ end = {[x]} ∪ L).
  { unfold L. rewrite fmap_app, list_to_set_app_L. cbn. set_solver. }
  rewrite EL.
  assert (S1 : forall y s, ~ (y <> x) -> label_entries metric p (ma ++ [(x, [])]) mb s y = Ok s).
  { intros y s K. assert (y = x) as -> by (destruct (decide (y = x)); [assumption|contradiction]).
    unfold label_entries. rewrite dget_last by assumption. destruct mb as [d|].
    - destruct (dget d x); [|reflexivity]. cbn. destruct s. reflexivity.
    - cbn. destruct s. reflexivity. }
  assert (S2 : forall y s, y <> x -> label_entries metric p (ma ++ [(x, [])]) mb s y = label_entries metric p ma mb s y).
  { intros y s K. unfold label_entries. rewrite dget_snoc by assumption. reflexivity. }
  unfold without. destruct (decide (x ∈ L)) as [K|K].
  - assert (E : {[x]} ∪ L = L) by set_solver. rewrite E. apply foldM_on. intros y s Hy.
    destruct (decide (y = x)) as [->|N]; [|apply S2, N]. rewrite S1 by (intros N; contradiction).
    unfold L in K. destruct mb as [d|].
    + unfold label_entries. rewrite (proj2 (dget_None _ _) Hx). destruct (dget d x); reflexivity.
    + exfalso. apply Hx. set_solver.
  - rewrite (foldM_skip _ (fun y => y <> x)) by exact S1. apply foldM_on. intros y s Hy. apply elem_of_list_filter in Hy as [Hy _]. apply S2, Hy.
Qed.

(** As the second of two. *)
Lemma lookup_pairs_r lord p (ma mb : dict (dict seg)) x : x ∉ mb.*1 -> lord_ok lord ->
  exists lord', lord_ok lord' /\
    compute_pairwise metric lord p ma (Some (mb ++ [(x, [])])) = compute_pairwise metric lord' p ma (Some mb).
Proof.
  intros Hx Hl. exists (without lord x). split; [apply without_ok, Hl|]. unfold compute_pairwise. cbn zeta.
  set (L := list_to_set ma.*1 ∪ list_to_set mb.*1 : gset string).
  assert (EL : list_to_set ma.*1 ∪ list_to_set (mb ++ [(x, [])]).*1 = {[x]} ∪ L).
  { unfold L. rewrite fmap_app, list_to_set_app_L. cbn. set_solver. }
  rewrite EL.
  assert (S1 : forall y s, ~ (y <> x) -> label_entries metric p ma (Some (mb ++ [(x, [])])) s y = Ok s).
  { intros y s K. assert (y = x) as -> by (destruct (decide (y = x)); [assumption|contradiction]).
    unfold label_entries. rewrite dget_last by assumption. destruct (dget ma x); [|reflexivity].
    cbn [fmap list_fmap]. rewrite cross_nil. cbn. destruct s. reflexivity. }
  assert (S2 : forall y s, y <> x -> label_entries metric p ma (Some (mb ++ [(x, [])])) s y = label_entries metric p ma (Some mb) s y).
  { intros y s K. unfold label_entries. rewrite dget_snoc by assumption. reflexivity. }
  unfold without. destruct (decide (x ∈ L)) as [K|K].
  - assert (E : {[x]} ∪ L = L) by set_solver. rewrite E. apply foldM_on. intros y s Hy.
    destruct (decide (y = x)) as [->|N]; [|apply S2, N]. rewrite S1 by (intros N; contradiction).
    unfold label_entries. rewrite (proj2 (dget_None _ _) Hx). destruct (dget ma x); reflexivity.
  - rewrite (foldM_skip _ (fun y => y <> x)) by exact S1. apply foldM_on. intros y s Hy. apply elem_of_list_filter in Hy as [Hy _]. apply S2, Hy.
Qed.
End Pairs.

Theorem lookup_one R (metric : seg -> seg -> res R) lord p (d : dataset seg) x : lord_ok lord ->
  exists lord', lord_ok lord' /\
    compute_pairwise metric lord p (ds_items (after d x)) None = compute_pairwise metric lord' p (ds_items d) None.
Proof.
  intros Hl. destruct (decide (x ∈ (ds_items d).*1)) as [H|H].
  - rewrite after_present by assumption. exists lord. auto.
  - rewrite after_absent by assumption. cbn [with_items ds_items]. apply lookup_pairs_l; assumption.
Qed.

Theorem lookup_two R (metric : seg -> seg -> res R) lord p (a b : dataset seg) x y : lord_ok lord ->
  exists lord', lord_ok lord' /\
    compute_pairwise metric lord p (ds_items (after a x)) (Some (ds_items (after b y))) =
    compute_pairwise metric lord' p (ds_items a) (Some (ds_items b)).
Proof.
  intros Hl.
  assert (exists lord', lord_ok lord' /\ compute_pairwise metric lord p (ds_items (after a x)) (Some (ds_items (after b y))) =
    compute_pairwise metric lord' p (ds_items a) (Some (ds_items (after b y)))) as (l1 & H1 & E1).
  { destruct (decide (x ∈ (ds_items a).*1)) as [H|H].
    - rewrite after_present by assumption. exists lord. auto.
    - rewrite (after_absent a) by assumption. cbn [with_items ds_items]. apply lookup_pairs_l; assumption. }
  rewrite E1. destruct (decide (y ∈ (ds_items b).*1)) as [H|H].
  - rewrite after_present by assumption. exists l1. auto.
  - rewrite (after_absent b) by assumption. cbn [with_items ds_items]. apply lookup_pairs_r; assumption.
Qed.

(** ** Agreement *)

Theorem lookup_agreement A cmp f cord (d : dataset seg) x : lord_ok cord -> x ∉ (ds_items d).*1 -> (2 <= size (ds_coders d))%nat ->
  exists e, actual_agreement_linear A cmp f cord (CDataset (after d x)) = Err e /\
    (e = KeyError \/ actual_agreement_linear A cmp f cord (CDataset d) = Err e).
Proof.
  intros Hc Hx Hs. rewrite after_absent by assumption. unfold actual_agreement_linear, actual_agreement, agreement_parts.
  cbn [c_format c_coders c_items with_items ds_items ds_coders ds_format].
  assert (L : length (cord (ds_coders d)) = size (ds_coders d)) by (rewrite (Hc _); reflexivity).
  destruct (cord (ds_coders d)) as [|m [|n l]]; [cbn in L; lia|cbn in L; lia|]. clear L.
  cbn [pairs2 fmap list_fmap app foldM]. unfold agree_pair at 1 3. cbn [fst snd]. rewrite foldM_app.
  destruct (foldM (agree_item cmp (ds_format d) m n) (ds_items d) (Acc [] [] [] [])) as [a|e]; cbn [bind foldM].
  - exists KeyError. split; [reflexivity|left; reflexivity].
  - exists e. split; [reflexivity|right; reflexivity].
Qed.

Theorem lookup_chance A cmp f cord rp (d : dataset seg) x : x ∉ (ds_items d).*1 ->
  fleiss_kappa_linear A cmp f cord rp (CDataset (after d x)) = Err PlainException /\
  ((exists ic, ic ∈ ds_items d /\ snd ic <> []) ->
   fleiss_pi_linear A cmp f cord rp (CDataset (after d x)) = Err PlainException /\
   artstein_poesio_bias_linear A cmp f cord rp (CDataset (after d x)) = Err PlainException).
Proof.
  intros Hx. rewrite after_absent by assumption.
  assert (K : (x, []) ∈ c_items (CDataset (with_items d (ds_items d ++ [(x, [])])))).
  { cbn. apply elem_of_app. right. apply elem_of_list_singleton. reflexivity. }
  split; [apply guard_two; exists (x, []); split; [exact K|cbn; lia]|].
  intros (ic & Hic & Hne).
  destruct (guard_equal A cmp f cord rp (CDataset (with_items d (ds_items d ++ [(x, [])])))) as (G1 & _ & G3); [|auto].
  right. exists ic, (x, []). split; [cbn; apply elem_of_app; left; exact Hic|]. split; [exact K|]. destruct ic as [i [|c l]]; cbn in *; congruence.
Qed.

(** ** Addition *)

Lemma coding_keeps {C} x item (l : dict C) (st : upd C) : dmem (ds_items (fst st)) x = true ->
  dmem (ds_items (fst (foldl (iadd_coding item) st l))) x = true.
Proof.
  revert st. induction l as [|[c v] l IH]; intros [d [e|]] H; try exact H; cbn [foldl]; apply IH; [exact H|].
  unfold iadd_coding. destruct (dmem _ c); cbn [fst with_coders with_items ds_items]; [exact H|].
  apply dmem_true. apply dset_elem. right. apply dmem_true. exact H.
Qed.

Lemma item_keeps {C} x p (ic : string * dict C) (st : upd C) : dmem (ds_items (fst st)) x = true ->
  dmem (ds_items (fst (iadd_item p st ic))) x = true.
Proof.
  destruct st as [d [e|]], ic as [i cs]; intros H; [exact H|]. unfold iadd_item. apply coding_keeps. cbn [fst].
  destruct (dmem (ds_items d) (prefixed p i)); [exact H|]. cbn [with_items ds_items]. apply dmem_true. apply dset_elem. right. apply dmem_true. exact H.
Qed.

Lemma items_keep {C} x p (l : dict (dict C)) (st : upd C) : dmem (ds_items (fst st)) x = true ->
  dmem (ds_items (fst (foldl (iadd_item p) st l))) x = true.
Proof. revert st. induction l as [|ic l IH]; intros st H; [exact H|]. cbn [foldl]. apply IH, item_keeps, H. Qed.

Lemma items_added {C} x (l : dict (dict C)) (d : dataset C) s : x ∈ l.*1 -> foldl (iadd_item None) (d, None) l = (s, None) -> dmem (ds_items s) x = true.
Proof.
  revert d. induction l as [|[i cs] l IH]; intros d Hx E; [inversion Hx|]. cbn [foldl] in E.
  destruct (iadd_item None (d, None) (i, cs)) as [d' [e|]] eqn:E1.
  - exfalso. clear -E. revert E. induction l as [|[j k] l IH]; [discriminate|exact IH].
  - apply elem_of_cons in Hx as [->|Hx]; [|exact (IH d' Hx E)].
    change (dmem (ds_items (fst (s, @None exn))) i = true). rewrite <- E. apply items_keep. cbn [fst].
    change (ds_items d') with (ds_items (fst (d', @None exn))). rewrite <- E1. unfold iadd_item. apply coding_keeps. cbn [fst prefixed].
    destruct (dmem (ds_items d) i) eqn:K; [exact K|]. cbn [with_items ds_items]. apply dmem_true, dset_elem. left. reflexivity.
Qed.

Lemma after_mem {C} (s : dataset C) x : after s x = if dmem (ds_items s) x then s else with_items s (dset (ds_items s) x []).
Proof. unfold after, ds_lookup, dmem. destruct (dget (ds_items s) x); reflexivity. Qed.

(** Looking up before adding is looking up in the sum. *)
Theorem lookup_add {C} (a b : dataset C) x : ds_add a (after b x) = rmap (fun s => after s x) (ds_add a b).
Proof.
  unfold ds_add, iadd. destruct (decide (x ∈ (ds_items b).*1)) as [H|H].
  - rewrite (after_present b) by assumption. destruct (foldl _ _ _) as [s [e|]] eqn:E; [reflexivity|]. cbn [rmap bind].
    rewrite after_mem, (items_added x _ _ _ H E). reflexivity.
  - rewrite (after_absent b) by assumption. cbn [with_items ds_items]. rewrite foldl_app. destruct (foldl _ _ (ds_items b)) as [s [e|]]; [reflexivity|].
    cbn [foldl iadd_item prefixed rmap bind]. rewrite after_mem. destruct (dmem (ds_items s) x); reflexivity.
Qed.

(** ** The metrics *)

Theorem lookup_same R (metric : seg -> seg -> res R) lord p (d : dataset seg) x v v' : lord_ok lord ->
  SpecDispatch.items_ok (ds_items d) -> plain_coders (ds_items d) ->
  compute_pairwise_values metric lord p (ds_items d) None = Ok v ->
  compute_pairwise_values metric lord p (ds_items (after d x)) None = Ok v' -> v ≡ₚ v'.
Proof.
  intros Hl Hd Hp E1 E2. destruct (lookup_one R metric lord p d x Hl) as (lord' & Hl' & E).
  unfold compute_pairwise_values in *. rewrite E in E2. exact (orders_agree metric lord lord' p (ds_items d) None v v' Hl Hl' Hd Hp I E1 E2).
Qed.

Theorem lookup_empty R (metric : fmt -> seg -> seg -> res R) lord p f (d : dataset seg) x : lord_ok lord -> ds_items d = [] ->
  fnc_metric metric lord p f (Positional [AData d]) = Err SegmentationMetricError /\
  fnc_metric metric lord p f (Positional [AData (after d x)]) = Ok (Many []).
Proof.
  intros Hl E. assert (Hx : x ∉ (ds_items d).*1) by (rewrite E; apply not_elem_of_nil).
  split; [unfold fnc_metric; cbn; rewrite E; reflexivity|].
  rewrite after_absent, E by assumption. destruct d as [items props types g coders]. cbn in E. subst items.
  unfold fnc_metric. cbn -[compute_pairwise_values].
  destruct (lookup_pairs_l (metric g) lord p [] None x ltac:(apply not_elem_of_nil) Hl) as (lord' & Hl' & E). cbn [app] in E.
  unfold compute_pairwise_values. cbn in E |- *. 
  match goal with |- context [rmap fst ?r] => assert (K : r = Ok ([], [])) end.
  { etransitivity; [exact E|]. unfold compute_pairwise. cbn. replace (lord' (∅ ∪ ∅)) with (@nil string); [reflexivity|].
    symmetry. apply Permutation_nil. rewrite (Hl' _). rewrite union_empty_l_L. reflexivity. }
  rewrite K. reflexivity.
Qed.
