(** Merging datasets. *)
From Verif Require Export SpecData DictProofs.
Open Scope Z_scope.

Section Merge.
Context {C : Type}.
Implicit Types d : dataset C.
Implicit Types items : dict (dict C).

Lemma dset_twice_same {V} (d : dict V) k v v' : dset (dset d k v) k v' = dset d k v'.
Proof.
  induction d as [|[k1 v1] d IH]; cbn [dset].
  - rewrite decide_True by reflexivity. reflexivity.
  - destruct (decide (k = k1)) as [->|H]; cbn [dset].
    + rewrite decide_True by reflexivity. reflexivity.
    + rewrite decide_False by exact H. rewrite IH. reflexivity.
Qed.

Lemma dset_same {V} (d : dict V) k v : dget d k = Some v -> dset d k v = d.
Proof.
  induction d as [|[k1 v1] d IH]; cbn [dset dget]; [discriminate|].
  destruct (decide (k = k1)) as [->|H]; [intros K; injection K as ->; reflexivity|]. intros K. rewrite IH by exact K. reflexivity.
Qed.

Lemma coders_comm (x : string) (s : gset string) (l : list string) :
  list_to_set l ∪ ({[x]} ∪ s) = list_to_set (x :: l) ∪ s :> gset string.
Proof. rewrite list_to_set_cons. set_solver. Qed.

(** ** One item *)
Definition merged d item (old codings : dict C) : dataset C :=
  Dataset (dset (ds_items d) item (old ++ codings)) (ds_props d) (ds_types d) (ds_format d)
    (list_to_set codings.*1 ∪ ds_coders d).

Lemma codings_stuck item d e (l : dict C) : foldl (iadd_coding item) (d, Some e) l = (d, Some e).
Proof. induction l as [|x l IH]; [reflexivity|exact IH]. Qed.

Lemma items_stuck path d e (l : dict (dict C)) : foldl (iadd_item path) (d, Some e) l = (d, Some e).
Proof. induction l as [|x l IH]; [reflexivity|exact IH]. Qed.

Lemma codings_ok item (l : dict C) : forall d old, dget (ds_items d) item = Some old -> dict_ok l ->
  (forall c, c ∈ l.*1 -> c ∉ old.*1) -> foldl (iadd_coding item) (d, None) l = (merged d item old l, None).
Proof.
  induction l as [|[c m] l IH]; intros d old Hold Hok Hnew.
  - cbn [foldl]. unfold merged. rewrite app_nil_r, dset_same by exact Hold. destruct d. cbn. do 2 f_equal. set_solver.
  - cbn [foldl iadd_coding with_coders with_items ds_items ds_coders]. rewrite Hold. cbn [default id]. change (id old) with old.
    assert (Hc : c ∉ old.*1) by (apply Hnew; cbn; apply elem_of_cons; auto).
    rewrite (proj2 (dmem_false old c) Hc). rewrite (dset_fresh old c m Hc). unfold dict_ok in Hok. cbn [fmap list_fmap fst] in Hok.
    apply NoDup_cons in Hok as [Hcl Hok].
    rewrite (IH _ (old ++ [(c, m)])).
    + unfold merged. cbn [ds_items ds_props ds_types ds_format ds_coders with_items with_coders]. rewrite dset_twice_same, <- app_assoc. cbn [app fmap list_fmap fst].
      rewrite coders_comm. reflexivity.
    + cbn [ds_items with_items]. rewrite dget_dset, decide_True by reflexivity. reflexivity.
    + exact Hok.
    + intros x Hx. rewrite fmap_app, elem_of_app. intros [Hx'|Hx'].
      * revert Hx'. apply Hnew. cbn. apply elem_of_cons. auto.
      * cbn in Hx'. apply elem_of_list_singleton in Hx' as ->. contradiction.
Qed.

Lemma codings_dup item (l : dict C) : forall d old, dget (ds_items d) item = Some old -> dict_ok l ->
  (exists c, c ∈ l.*1 /\ c ∈ old.*1) -> exists d', foldl (iadd_coding item) (d, None) l = (d', Some DataIOError).
Proof.
  induction l as [|[c m] l IH]; intros d old Hold Hok (x & Hx & Hx').
  - cbn in Hx. apply elem_of_nil in Hx. contradiction.
  - cbn [foldl iadd_coding with_coders with_items ds_items ds_coders]. rewrite Hold. cbn [default id]. change (id old) with old.
    destruct (dmem old c) eqn:Hc; [rewrite codings_stuck; eauto|]. apply dmem_false in Hc.
    unfold dict_ok in Hok. cbn [fmap list_fmap fst] in Hok, Hx. apply NoDup_cons in Hok as [Hcl Hok].
    apply (IH _ (old ++ [(c, m)])).
    + cbn [ds_items with_items]. rewrite dget_dset, decide_True by reflexivity. rewrite dset_fresh by exact Hc. reflexivity.
    + exact Hok.
    + exists x. apply elem_of_cons in Hx as [->|Hx]; [contradiction|]. split; [exact Hx|]. rewrite fmap_app, elem_of_app. auto.
Qed.

Definition old_codings d item : dict C := default [] (dget (ds_items d) item).

Lemma with_new_item d item : dget (ds_items (if dmem (ds_items d) item then d else with_items d (dset (ds_items d) item []))) item = Some (old_codings d item).
Proof.
  unfold old_codings, dmem. destruct (dget (ds_items d) item) as [o|] eqn:H; [exact H|]. cbn [ds_items with_items].
  rewrite dget_dset, decide_True by reflexivity. reflexivity.
Qed.

Lemma merged_new d item codings :
  merged (if dmem (ds_items d) item then d else with_items d (dset (ds_items d) item [])) item (old_codings d item) codings =
  merged d item (old_codings d item) codings.
Proof. unfold merged. destruct (dmem (ds_items d) item); [reflexivity|]. cbn [with_items ds_items ds_props ds_types ds_format ds_coders]. rewrite dset_twice_same. reflexivity. Qed.

Lemma iadd_item_ok path d i codings : dict_ok codings ->
  (forall c, c ∈ codings.*1 -> c ∉ (old_codings d (prefixed path i)).*1) ->
  iadd_item path (d, None) (i, codings) = (merged d (prefixed path i) (old_codings d (prefixed path i)) codings, None).
Proof.
  intros Hok H. cbn [iadd_item]. rewrite (codings_ok (prefixed path i) codings _ _ (with_new_item d (prefixed path i)) Hok H).
  rewrite merged_new. reflexivity.
Qed.

Lemma iadd_item_dup path d i codings : dict_ok codings ->
  (exists c, c ∈ codings.*1 /\ c ∈ (old_codings d (prefixed path i)).*1) ->
  exists d', iadd_item path (d, None) (i, codings) = (d', Some DataIOError).
Proof. intros Hok H. cbn [iadd_item]. exact (codings_dup _ codings _ _ (with_new_item d (prefixed path i)) Hok H). Qed.

(** ** Names *)
Lemma prefixed_filed path i j : j = prefixed path i <-> filed path i j.
Proof.
  destruct path as [ps|]; [|reflexivity]. unfold filed, prefixed. assert (join_comma (ps ++ [i]) = foldr (fun p rest => p +:+ "," +:+ rest) i ps) as ->; [|reflexivity].
  induction ps as [|p ps IH]; [reflexivity|]. cbn [app foldr]. rewrite <- IH. destruct ps; reflexivity.
Qed.

Lemma prefixed_inj path i i' : prefixed path i = prefixed path i' -> i = i'.
Proof.
  intros H. assert (F : filed path i' (prefixed path i)) by (apply prefixed_filed; exact H).
  assert (G : filed path i (prefixed path i)) by (apply prefixed_filed; reflexivity).
  destruct path as [ps|]; cbn [filed] in *; [|congruence]. rewrite G in F. clear G H. induction ps as [|p ps IH]; [exact F|].
  cbn [foldr] in F. apply IH. apply (inj (String.append p)) in F. apply (inj (String.append ",")) in F. exact F.
Qed.

(** ** Lookups after one merge *)
Lemma coding_at_merged d item codings j c :
  coding_at (ds_items (merged d item (old_codings d item) codings)) j c =
  if decide (j = item) then match coding_at (ds_items d) item c with Some v => Some v | None => dget codings c end
  else coding_at (ds_items d) j c.
Proof.
  unfold coding_at, merged. cbn [ds_items]. rewrite dget_dset. destruct (decide (j = item)) as [->|H]; [|reflexivity].
  assert (Happ : forall (a b : dict C), dget (a ++ b) c = match dget a c with Some v => Some v | None => dget b c end).
  { intros a b. induction a as [|[k v] a IH]; [reflexivity|]. cbn [app dget]. destruct (decide (c = k)); [reflexivity|exact IH]. }
  rewrite Happ. unfold old_codings. destruct (dget (ds_items d) item); reflexivity.
Qed.

Lemma coding_at_old d item c : dget (old_codings d item) c = coding_at (ds_items d) item c.
Proof. unfold old_codings, coding_at. destruct (dget (ds_items d) item); reflexivity. Qed.

Lemma merged_items_ok d item codings : items_ok (ds_items d) -> dict_ok codings ->
  (forall c, c ∈ codings.*1 -> c ∉ (old_codings d item).*1) -> items_ok (ds_items (merged d item (old_codings d item) codings)).
Proof.
  intros [H1 H2] Hc Hd. split; [apply dset_ok; exact H1|]. intros i cs Hi. unfold merged in Hi. cbn [ds_items] in Hi.
  apply (dget_Some _ _ _ (dset_ok _ item (old_codings d item ++ codings) H1)) in Hi. rewrite dget_dset in Hi. destruct (decide (i = item)) as [->|Hne].
  - injection Hi as <-. unfold dict_ok. rewrite fmap_app. apply NoDup_app. split; [|split; [|exact Hc]].
    + unfold old_codings. destruct (dget (ds_items d) item) as [o|] eqn:E; [|constructor]. apply (H2 item). apply dget_elem, E.
    + intros x Hx Hx'. exact (Hd x Hx' Hx).
  - apply (H2 i). apply dget_elem, Hi.
Qed.

(** ** All items *)
Record merge_result (path : option (list string)) (self : dataset C) (items : dict (dict C)) (r : dataset C) : Prop := MergeResult {
  mr_codings : forall j c v, coding_at (ds_items r) j c = Some v <->
    coding_at (ds_items self) j c = Some v \/ exists i, j = prefixed path i /\ coding_at items i c = Some v;
  mr_keys : forall j, j ∈ (ds_items r).*1 <-> j ∈ (ds_items self).*1 \/ exists i, j = prefixed path i /\ i ∈ items.*1;
  mr_coders : forall c, c ∈ ds_coders r <-> c ∈ ds_coders self \/ codes items c;
  mr_rest : ds_props r = ds_props self /\ ds_types r = ds_types self /\ ds_format r = ds_format self;
  mr_ok : items_ok (ds_items self) -> items_ok (ds_items r)
}.

Lemma items_ok_cons i cs items : items_ok ((i, cs) :: items) -> i ∉ items.*1 /\ dict_ok cs /\ items_ok items.
Proof.
  intros [H1 H2]. unfold dict_ok in H1. cbn [fmap list_fmap fst] in H1. apply NoDup_cons in H1 as [Hi H1].
  split; [exact Hi|]. split; [apply (H2 i); apply elem_of_cons; auto|]. split; [exact H1|]. intros j js Hj. apply (H2 j). apply elem_of_cons. auto.
Qed.

Lemma coding_at_cons i cs items j c : coding_at ((i, cs) :: items) j c = if decide (j = i) then dget cs c else coding_at items j c.
Proof. unfold coding_at. cbn [dget]. destruct (decide (j = i)); reflexivity. Qed.

Lemma coding_at_key items i c v : coding_at items i c = Some v -> i ∈ items.*1.
Proof. unfold coding_at. destruct (dget items i) eqn:H; [|discriminate]. intros _. apply dget_is_Some. eauto. Qed.

Lemma iadd_items_ok path (items : dict (dict C)) : items_ok items -> forall self,
  (forall i c, is_Some (coding_at items i c) -> coding_at (ds_items self) (prefixed path i) c = None) ->
  exists r, foldl (iadd_item path) (self, None) items = (r, None) /\ merge_result path self items r.
Proof.
  induction items as [|[i cs] items IH]; intros Hok self Hnew.
  - exists self. split; [reflexivity|]. split.
    + intros j c v. split; [auto|]. intros [H|(i & _ & H)]; [exact H|]. unfold coding_at in H. cbn in H. discriminate.
    + intros j. split; [auto|]. intros [H|(i & _ & H)]; [exact H|]. cbn in H. apply elem_of_nil in H. contradiction.
    + intros c. split; [auto|]. intros [H|(i & v & H)]; [exact H|]. unfold coding_at in H. cbn in H. discriminate.
    + auto.
    + auto.
  - destruct (items_ok_cons _ _ _ Hok) as (Hi & Hcs & Hok').
    assert (Hd : forall c, c ∈ cs.*1 -> c ∉ (old_codings self (prefixed path i)).*1).
    { intros c Hc. apply dget_None. rewrite coding_at_old. apply Hnew. rewrite coding_at_cons, decide_True by reflexivity. apply dget_is_Some, Hc. }
    cbn [foldl]. rewrite (iadd_item_ok path self i cs Hcs Hd).
    set (m := merged self (prefixed path i) (old_codings self (prefixed path i)) cs) in *.
    destruct (IH Hok' m) as (r & Hr & [R1 R2 R3 R4 R5]).
    { intros i' c H. assert (i' <> i). { intros ->. destruct H as [v H]. apply coding_at_key in H. contradiction. }
      unfold m. rewrite coding_at_merged. rewrite decide_False by (intros K; apply prefixed_inj in K; contradiction).
      apply Hnew. rewrite coding_at_cons, decide_False by assumption. exact H. }
    exists r. split; [exact Hr|]. split.
    + intros j c v. rewrite R1. unfold m. rewrite coding_at_merged. destruct (decide (j = prefixed path i)) as [->|Hj].
      * split.
        -- intros [H|(i' & E & H)].
           ++ destruct (coding_at (ds_items self) (prefixed path i) c); [auto|]. right. exists i. split; [reflexivity|].
              rewrite coding_at_cons, decide_True by reflexivity. exact H.
           ++ apply prefixed_inj in E as <-. apply coding_at_key in H. contradiction.
        -- intros [H|(i' & E & H)]; [left; rewrite H; reflexivity|]. apply prefixed_inj in E as <-.
           rewrite coding_at_cons, decide_True in H by reflexivity. left.
           assert (K : coding_at (ds_items self) (prefixed path i) c = None).
           { apply Hnew. rewrite coding_at_cons, decide_True by reflexivity. eauto. }
           rewrite K. exact H.
      * split; (intros [H|(i' & E & H)]; [auto|]); right; exists i'; (split; [exact E|]); revert H; rewrite coding_at_cons, decide_False by (intros ->; contradiction); auto.
    + intros j. rewrite R2. unfold m, merged. cbn [ds_items]. rewrite dset_elem. cbn [fmap list_fmap fst]. split.
      * intros [[->|H]|(i' & E & H)]; [right; exists i; split; [reflexivity|]; apply elem_of_cons; auto|auto|]. right. exists i'. split; [exact E|]. apply elem_of_cons. auto.
      * intros [H|(i' & E & H)]; [auto|]. apply elem_of_cons in H as [->|H]; [auto|]. right. eauto.
    + intros c. rewrite R3. unfold m, merged. cbn [ds_coders]. rewrite elem_of_union, elem_of_list_to_set, <- dget_is_Some. split.
      * intros [[[v H]|H]|(i' & v & H)]; [|auto|].
        -- right. exists i, v. rewrite coding_at_cons, decide_True by reflexivity. exact H.
        -- right. exists i', v. rewrite coding_at_cons, decide_False; [exact H|]. intros ->. apply coding_at_key in H. contradiction.
      * intros [H|(i' & v & H)]; [auto|]. rewrite coding_at_cons in H. destruct (decide (i' = i)) as [->|]; [left; left; eauto|]. right. exists i', v. exact H.
    + destruct R4 as (-> & -> & ->). auto.
    + intros Hs. apply R5. unfold m. apply merged_items_ok; assumption.
Qed.

Lemma iadd_items_dup path (items : dict (dict C)) : items_ok items -> forall self,
  (exists i c, is_Some (coding_at items i c) /\ is_Some (coding_at (ds_items self) (prefixed path i) c)) ->
  exists d', foldl (iadd_item path) (self, None) items = (d', Some DataIOError).
Proof.
  induction items as [|[i cs] items IH]; intros Hok self (i' & c & H1 & H2).
  - unfold coding_at in H1. cbn in H1. destruct H1; discriminate.
  - destruct (items_ok_cons _ _ _ Hok) as (Hi & Hcs & Hok').
    destruct (decide (Exists (fun c => c ∈ (old_codings self (prefixed path i)).*1) cs.*1)) as [He|He].
    { apply Exists_exists in He. cbn [foldl]. destruct (iadd_item_dup path self i cs Hcs He) as [d' ->]. rewrite items_stuck. eauto. }
    assert (Hd : forall c, c ∈ cs.*1 -> c ∉ (old_codings self (prefixed path i)).*1).
    { intros x Hx K. apply He. apply Exists_exists. eauto. }
    cbn [foldl]. rewrite (iadd_item_ok path self i cs Hcs Hd). apply (IH Hok').
    rewrite coding_at_cons in H1. destruct (decide (i' = i)) as [->|Hne].
    { exfalso. apply (Hd c); [apply dget_is_Some, H1|]. apply dget_is_Some. rewrite coding_at_old. exact H2. }
    exists i', c. split; [exact H1|]. rewrite coding_at_merged, decide_False by (intros K; apply prefixed_inj in K; contradiction). exact H2.
Qed.

Lemma clash_dec path (self other : dict (dict C)) : items_ok other ->
  {forall i c, is_Some (coding_at other i c) -> coding_at self (prefixed path i) c = None} +
  {exists i c, is_Some (coding_at other i c) /\ is_Some (coding_at self (prefixed path i) c)}.
Proof.
  intros Hok.
  destruct (decide (Exists (fun ic : string * dict C => Exists (fun c => is_Some (coding_at self (prefixed path ic.1) c)) ic.2.*1) other)) as [H|H].
  - right. apply Exists_exists in H as ([i cs] & Hi & H). apply Exists_exists in H as (c & Hc & H). cbn [fst snd] in *.
    exists i, c. split; [|exact H]. unfold coding_at. rewrite (proj2 (dget_Some _ _ _ (proj1 Hok)) Hi). apply dget_is_Some, Hc.
  - left. intros i c [v Hv]. destruct (coding_at self (prefixed path i) c) eqn:E; [|reflexivity]. exfalso. apply H.
    unfold coding_at in Hv. destruct (dget other i) as [cs|] eqn:Ei; [|discriminate]. apply Exists_exists. exists (i, cs).
    split; [apply dget_elem, Ei|]. apply Exists_exists. exists c. cbn [fst snd]. split; [apply dget_is_Some; eauto|]. rewrite E. eauto.
Qed.

Lemma clash_prefixed path (self other : dict (dict C)) : clash path self other <->
  exists i c, is_Some (coding_at other i c) /\ is_Some (coding_at self (prefixed path i) c).
Proof.
  split.
  - intros (i & j & c & F & H1 & H2). apply prefixed_filed in F as ->. eauto.
  - intros (i & c & H1 & H2). exists i, (prefixed path i), c. split; [apply prefixed_filed; reflexivity|]. auto.
Qed.

(** C51 *)
Lemma iadd_success path (self other : dataset C) : items_ok (ds_items other) ->
  (snd (iadd self other path) = None <-> ~ clash path (ds_items self) (ds_items other)).
Proof.
  intros Hok. rewrite clash_prefixed. unfold iadd. destruct (clash_dec path (ds_items self) (ds_items other) Hok) as [H|H].
  - destruct (iadd_items_ok path (ds_items other) Hok self H) as (r & -> & _). cbn. split; [|auto]. intros _ (i & c & H1 & H2).
    rewrite (H i c H1) in H2. destruct H2; discriminate.
  - destruct (iadd_items_dup path (ds_items other) Hok self H) as (r & ->). cbn. split; [discriminate|]. intros K. contradiction.
Qed.

Lemma iadd_failure path (self other : dataset C) : items_ok (ds_items other) ->
  (snd (iadd self other path) = Some DataIOError <-> clash path (ds_items self) (ds_items other)).
Proof.
  intros Hok. rewrite clash_prefixed. unfold iadd. destruct (clash_dec path (ds_items self) (ds_items other) Hok) as [H|H].
  - destruct (iadd_items_ok path (ds_items other) Hok self H) as (r & -> & _). cbn. split; [discriminate|]. intros (i & c & H1 & H2).
    rewrite (H i c H1) in H2. destruct H2; discriminate.
  - destruct (iadd_items_dup path (ds_items other) Hok self H) as (r & ->). cbn. split; [intros _; exact H|reflexivity].
Qed.

Lemma iadd_result path (self other r : dataset C) : items_ok (ds_items other) -> iadd self other path = (r, None) ->
  merge_result path self (ds_items other) r.
Proof.
  intros Hok Hr. destruct (clash_dec path (ds_items self) (ds_items other) Hok) as [H|H].
  - destruct (iadd_items_ok path (ds_items other) Hok self H) as (r' & Hr' & M). unfold iadd in Hr. rewrite Hr' in Hr. injection Hr as <-. exact M.
  - destruct (iadd_items_dup path (ds_items other) Hok self H) as (r' & Hr'). unfold iadd in Hr. rewrite Hr' in Hr. discriminate.
Qed.

End Merge.
