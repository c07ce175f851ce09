(** Aliasing: what [+] and [+=] change. *)
From Verif Require Export Heap DataProofs.

Section Heaps.
Context {C : Type}.
Implicit Types h : heap C.

Lemma new_loc_fresh {V} (m : gmap loc V) : new_loc m ∉ dom m.
Proof. apply is_fresh. Qed.

Lemma deref_get h items i : dget (deref h items) i = read_dict h <$> dget items i.
Proof. induction items as [|[k l] items IH]; [reflexivity|]. cbn. destruct (decide (i = k)); [reflexivity|exact IH]. Qed.

Lemma deref_keys h items : (deref h items).*1 = items.*1.
Proof. unfold deref. rewrite <- list_fmap_compose. apply list_fmap_ext. intros ? []; reflexivity. Qed.

Lemma deref_mem h items i : dmem (deref h items) i = dmem items i.
Proof. unfold dmem. rewrite deref_get. destruct (dget items i); reflexivity. Qed.

Lemma deref_set_new h items i l : i ∉ items.*1 -> deref h (dset items i l) = dset (deref h items) i (read_dict h l).
Proof.
  intros H. rewrite dset_fresh by exact H. rewrite (dset_fresh (deref h items)) by (rewrite deref_keys; exact H).
  unfold deref. rewrite fmap_app. reflexivity.
Qed.

Lemma read_write h l d l' : read_dict (write_dict h l d) l' = if decide (l = l') then d else read_dict h l'.
Proof. unfold read_dict, write_dict. cbn. destruct (decide (l = l')) as [->|H]; [rewrite lookup_insert; reflexivity|]. rewrite lookup_insert_ne by exact H. reflexivity. Qed.

Lemma deref_ext h h' items : (forall l, l ∈ items.*2 -> read_dict h' l = read_dict h l) -> deref h' items = deref h items.
Proof.
  intros H. unfold deref. induction items as [|[i l] items IH]; [reflexivity|]. rewrite !fmap_cons. f_equal.
  - unfold prod_map. cbn. rewrite H; [reflexivity|]. cbn. apply elem_of_cons. auto.
  - apply IH. intros l' Hl'. apply H. cbn. apply elem_of_cons. auto.
Qed.

Lemma deref_write_other h items l d : l ∉ items.*2 -> deref (write_dict h l d) items = deref h items.
Proof. intros H. apply deref_ext. intros l' Hl'. rewrite read_write, decide_False; [reflexivity|]. intros ->. contradiction. Qed.

Lemma deref_write h items i l d : dget items i = Some l -> NoDup items.*2 -> deref (write_dict h l d) items = dset (deref h items) i d.
Proof.
  induction items as [|[k l'] items IH]; [discriminate|]. cbn [dget fmap list_fmap snd]. intros Hg Hn. apply NoDup_cons in Hn as [Hl Hn].
  change (deref (write_dict h l d) ((k, l') :: items)) with ((k, read_dict (write_dict h l d) l') :: deref (write_dict h l d) items).
  change (deref h ((k, l') :: items)) with ((k, read_dict h l') :: deref h items). cbn [dset].
  destruct (decide (i = k)) as [->|Hk].
  - injection Hg as ->. rewrite read_write, decide_True by reflexivity. rewrite deref_write_other by exact Hl. reflexivity.
  - rewrite (IH Hg Hn). rewrite read_write, decide_False; [reflexivity|]. intros ->. apply Hl. apply elem_of_list_fmap. exists (i, l'). split; [reflexivity|apply dget_elem, Hg].
Qed.

(** ** Adding the codings of one item *)
Definition grows (h h' : heap C) (ds : loc -> Prop) (s : loc) : Prop :=
  (forall l, l ∈ dom (h_dicts h) -> l ∈ dom (h_dicts h')) /\ (forall l, l ∈ dom (h_sets h) -> l ∈ dom (h_sets h')) /\
  (forall l, l ∈ dom (h_dicts h) -> ~ ds l -> h_dicts h' !! l = h_dicts h !! l) /\
  (forall l, l ∈ dom (h_sets h) -> l <> s -> h_sets h' !! l = h_sets h !! l).

Lemma grows_refl h ds s : grows h h ds s.
Proof. repeat split; auto. Qed.

Lemma grows_trans h1 h2 h3 ds s : grows h1 h2 ds s -> grows h2 h3 ds s -> grows h1 h3 ds s.
Proof.
  intros (A1 & A2 & A3 & A4) (B1 & B2 & B3 & B4). repeat split; auto.
  - intros l H1 H2. rewrite B3 by auto. auto.
  - intros l H1 H2. rewrite B4 by auto. auto.
Qed.

Lemma grows_trans_in h1 h2 h3 (ds ds' : loc -> Prop) s : grows h1 h2 ds s -> grows h2 h3 ds' s ->
  (forall l, l ∈ dom (h_dicts h1) -> ds' l -> ds l) -> grows h1 h3 ds s.
Proof.
  intros (A1 & A2 & A3 & A4) (B1 & B2 & B3 & B4) H. repeat split; auto.
  - intros l H1 H2. rewrite B3; auto.
  - intros l H1 H2. rewrite B4 by auto. auto.
Qed.

Lemma grows_weaken h h' (ds ds' : loc -> Prop) s : (forall l, l ∈ dom (h_dicts h) -> ds l -> ds' l) -> grows h h' ds s -> grows h h' ds' s.
Proof. intros H (A1 & A2 & A3 & A4). repeat split; auto. Qed.

Lemma grows_write_dict h l d (ds : loc -> Prop) s : (l ∈ dom (h_dicts h) -> ds l) -> grows h (write_dict h l d) ds s.
Proof.
  intros H. unfold write_dict. repeat split; cbn; auto.
  - intros l' Hl'. rewrite dom_insert. apply elem_of_union. auto.
  - intros l' Hl' Hd. apply lookup_insert_ne. intros ->. apply Hd, H, Hl'.
Qed.

Lemma grows_write_set h s v (ds : loc -> Prop) : grows h (write_set h s v) ds s.
Proof.
  unfold write_set. repeat split; cbn; auto.
  - intros l' Hl'. rewrite dom_insert. apply elem_of_union. auto.
  - intros l' Hl' Hd. apply lookup_insert_ne. congruence.
Qed.

Lemma h_codings_stuck a item h e (l : dict C) : foldl (h_coding a item) (h, Some e) l = (h, Some e).
Proof. induction l as [|x l IH]; [reflexivity|exact IH]. Qed.

Lemma h_codings a item l : dget (hd_items a) item = Some l -> forall (cs : dict C) h h' e,
  foldl (h_coding a item) (h, None) cs = (h', e) ->
  grows h h' (fun x => x = l) (hd_coders a) /\
  (unshared a -> foldl (iadd_coding item) (view h a, None) cs = (view h' a, e)).
Proof.
  intros Hl cs. induction cs as [|[c m] cs IH]; intros h h' e H; cbn [foldl] in H.
  - injection H as <- <-. split; [apply grows_refl|]. reflexivity.
  - cbn [h_coding] in H. rewrite Hl in H. set (h1 := write_set h (hd_coders a) ({[c]} ∪ read_set h (hd_coders a))) in *.
    assert (G1 : grows h h1 (fun x => x = l) (hd_coders a)) by (apply grows_write_set).
    assert (R1 : read_dict h1 l = read_dict h l) by reflexivity.
    assert (V1 : with_coders (view h a) ({[c]} ∪ ds_coders (view h a)) = view h1 a).
    { unfold view, with_coders, h1. cbn. unfold read_set at 3. cbn. rewrite lookup_insert. reflexivity. }
    assert (D1 : default [] (dget (ds_items (view h1 a)) item) = read_dict h1 l).
    { cbn [view ds_items]. rewrite deref_get, Hl. reflexivity. }
    destruct (dmem (read_dict h1 l) c) eqn:Hm.
    + rewrite h_codings_stuck in H. injection H as <- <-. split; [exact G1|]. intros Hu. cbn [foldl iadd_coding].
      rewrite V1. rewrite D1, Hm. apply codings_stuck.
    + apply IH in H as [G2 H]. set (h2 := write_dict h1 l (dset (read_dict h1 l) c m)) in *. split.
      * eapply grows_trans; [exact G1|]. eapply grows_trans; [|exact G2]. apply grows_write_dict. auto.
      * intros Hu. rewrite <- (H Hu). cbn [foldl iadd_coding]. rewrite V1, D1, Hm. f_equal.
        f_equal. unfold h2, with_items. cbn [view ds_items ds_props ds_types ds_format ds_coders].
        unfold view. rewrite (deref_write _ _ item _ _ Hl Hu). reflexivity.
Qed.

(** ** Adding all items *)
Lemma h_items_stuck path h a e l : foldl (h_item path) (h, a, Some e) l = (h, a, Some e : option exn) :> heap C * hdataset * option exn.
Proof. induction l as [|x l IH]; [reflexivity|exact IH]. Qed.

Lemma dset_fresh_vals {V} (d : dict V) k v : k ∉ d.*1 -> (dset d k v).*2 = d.*2 ++ [v].
Proof. intros H. rewrite dset_fresh by exact H. rewrite fmap_app. reflexivity. Qed.

Lemma h_items path items : forall h a h' a' e,
  foldl (h_item path) (h, a, None) items = (h', a', e) -> live h a ->
  (forall l, l ∈ items.*2 -> l ∈ dom (h_dicts h)) ->
  grows h h' (fun l => l ∈ (hd_items a).*2) (hd_coders a) /\ live h' a' /\ hd_coders a' = hd_coders a /\
  (forall i l, dget (hd_items a) i = Some l -> dget (hd_items a') i = Some l) /\
  (forall l, l ∈ (hd_items a').*2 -> l ∈ (hd_items a).*2 \/ l ∉ dom (h_dicts h)) /\
  (unshared a -> unshared a' /\
     ((forall l, l ∈ (hd_items a).*2 -> l ∈ items.*2 -> False) ->
      foldl (iadd_item path) (view h a, None) (deref h items) = (view h' a', e))).
Proof.
  induction items as [|[i src] items IH]; intros h a h' a' e H Hlive Hsrc; cbn [foldl] in H.
  - injection H as <- <- <-. split; [apply grows_refl|]. split; [exact Hlive|]. split; [reflexivity|]. split; [auto|]. split; [auto|]. auto.
  - cbn [h_item] in H. set (item := prefixed path i) in *.
    set (ha := if dmem (hd_items a) item then (h, a)
               else (write_dict h (new_loc (h_dicts h)) [], HDataset (dset (hd_items a) item (new_loc (h_dicts h))) (hd_coders a) (hd_props a) (hd_types a) (hd_format a))) in *.
    assert (Hsrc0 : src ∈ dom (h_dicts h)) by (apply Hsrc; cbn; apply elem_of_cons; auto).
    (* the state with the item there *)
    assert (S1 : exists h1 a1 l, ha = (h1, a1) /\ dget (hd_items a1) item = Some l /\
      grows h h1 (fun l => l ∈ (hd_items a).*2) (hd_coders a) /\ live h1 a1 /\ hd_coders a1 = hd_coders a /\
      (forall i l, dget (hd_items a) i = Some l -> dget (hd_items a1) i = Some l) /\
      (forall l, l ∈ (hd_items a1).*2 -> l ∈ (hd_items a).*2 \/ l ∉ dom (h_dicts h)) /\
      (unshared a -> unshared a1) /\ read_dict h1 src = read_dict h src /\
      view h1 a1 = (if dmem (ds_items (view h a)) item then view h a else with_items (view h a) (dset (ds_items (view h a)) item []))).
    { unfold ha. cbn [view ds_items]. rewrite deref_mem. destruct (dmem (hd_items a) item) eqn:Hm.
      - pose proof Hm as Hm'. apply dmem_true, dget_is_Some in Hm' as [l Hl]. exists h, a, l. repeat (split; [solve [reflexivity|exact Hl|apply grows_refl|exact Hlive|auto]|]). reflexivity.
      - apply dmem_false in Hm. set (l := new_loc (h_dicts h)). pose proof (new_loc_fresh (h_dicts h)) as Hf. fold l in Hf.
        eexists _, _, l. split; [reflexivity|]. cbn [hd_items hd_coders].
        split; [rewrite dget_dset, decide_True by reflexivity; reflexivity|].
        split; [apply grows_write_dict; intros K; contradiction|].
        split.
        { split; cbn [hd_items hd_coders]; [|exact (proj2 Hlive)]. intros l' Hl'. rewrite dset_fresh_vals in Hl' by exact Hm. unfold write_dict. cbn. rewrite dom_insert, elem_of_union.
          apply elem_of_app in Hl' as [Hl'|Hl']; [right; apply (proj1 Hlive), Hl'|]. left. apply elem_of_list_singleton in Hl' as ->. apply elem_of_singleton. reflexivity. }
        split; [reflexivity|].
        split. { intros j l' Hj. rewrite dget_dset, decide_False; [exact Hj|]. intros ->. apply Hm. apply dget_is_Some. eauto. }
        split. { intros l' Hl'. rewrite dset_fresh_vals in Hl' by exact Hm. apply elem_of_app in Hl' as [Hl'|Hl']; [auto|]. right. apply elem_of_list_singleton in Hl' as ->. exact Hf. }
        split. { unfold unshared. cbn [hd_items]. intros Hu. rewrite dset_fresh_vals by exact Hm. apply NoDup_app. split; [exact Hu|]. split; [|apply NoDup_singleton].
          intros x Hx Hx'. apply elem_of_list_singleton in Hx' as ->. apply Hf. apply (proj1 Hlive), Hx. }
        split. { rewrite read_write, decide_False; [reflexivity|]. intros ->. contradiction. }
        unfold view, with_items. cbn [hd_items hd_coders hd_props hd_types hd_format ds_items ds_props ds_types ds_format ds_coders].
        rewrite deref_set_new by exact Hm. rewrite read_write, decide_True by reflexivity. rewrite deref_write_other; [reflexivity|].
        intros K. apply Hf. apply (proj1 Hlive), K. }
    destruct S1 as (h1 & a1 & l & E1 & Hl & G1 & L1 & C1 & K1 & N1 & U1 & R1 & V1). rewrite E1 in H.
    destruct (foldl (h_coding a1 item) (h1, None) (read_dict h1 src)) as [h2 e2] eqn:E2.
    destruct (h_codings a1 item l Hl _ _ _ _ E2) as [G2 V2].
    assert (Hl1 : l ∈ (hd_items a1).*2). { apply elem_of_list_fmap. exists (item, l). split; [reflexivity|apply dget_elem, Hl]. }
    assert (G12 : grows h h2 (fun l => l ∈ (hd_items a).*2) (hd_coders a)).
    { rewrite C1 in G2. eapply grows_trans_in; [exact G1|exact G2|]. intros x Hx ->. destruct (N1 l Hl1) as [K|K]; [exact K|contradiction]. }
    assert (L2 : live h2 a1). { split; [intros x Hx; apply G2, (proj1 L1), Hx|apply G2, (proj2 L1)]. }
    assert (Hsrc2 : forall x, x ∈ items.*2 -> x ∈ dom (h_dicts h2)). { intros x Hx. apply G12. apply Hsrc. cbn. apply elem_of_cons. auto. }
    assert (V12 : unshared a -> iadd_item path (view h a, None) (i, read_dict h src) = (view h2 a1, e2)).
    { intros Hu. cbn [iadd_item]. fold item. rewrite <- V1, <- R1. exact (V2 (U1 Hu)). }
    change (deref h ((i, src) :: items)) with ((i, read_dict h src) :: deref h items). cbn [foldl].
    destruct e2 as [e2|].
    + rewrite h_items_stuck in H. injection H as <- <- <-. split; [exact G12|]. split; [exact L2|]. split; [exact C1|]. split; [exact K1|]. split; [exact N1|].
      intros Hu. split; [exact (U1 Hu)|]. intros _. rewrite (V12 Hu). apply items_stuck.
    + destruct (IH _ _ _ _ _ H L2 Hsrc2) as (G3 & L3 & C3 & K3 & N3 & U3). rewrite C1 in G3.
      split. { eapply grows_trans_in; [exact G12|exact G3|]. intros x Hx Hx'. destruct (N1 x Hx') as [K|K]; [exact K|contradiction]. }
      split; [exact L3|]. split; [congruence|]. split; [auto|].
      split. { intros x Hx. destruct (N3 x Hx) as [K|K]; [exact (N1 x K)|]. right. intros K'. apply K, G12, K'. }
      intros Hu. destruct (U3 (U1 Hu)) as [U4 V4]. split; [exact U4|]. intros Hap. rewrite (V12 Hu).
      rewrite <- V4.
      * f_equal. symmetry. apply deref_ext. intros x Hx. unfold read_dict. f_equal. apply G12; [apply Hsrc; cbn; apply elem_of_cons; auto|].
        intros Hx'. apply (Hap x Hx'). cbn. apply elem_of_cons. auto.
      * intros x Hx Hx'. destruct (N1 x Hx) as [K|K]; [apply (Hap x K); cbn; apply elem_of_cons; auto|]. apply K, Hsrc. cbn. apply elem_of_cons. auto.
Qed.

Lemma view_same h h' a : live h a -> (forall l, l ∈ (hd_items a).*2 -> h_dicts h' !! l = h_dicts h !! l) ->
  h_sets h' !! hd_coders a = h_sets h !! hd_coders a -> view h' a = view h a.
Proof.
  intros Hl H1 H2. unfold view, read_set. rewrite H2. f_equal. apply deref_ext. intros l Hx. unfold read_dict. rewrite H1 by exact Hx. reflexivity.
Qed.

(** ** Copying *)
Definition memo_ok h0 h (memo : gmap loc loc) : Prop :=
  (forall l l', memo !! l = Some l' -> l' ∉ dom (h_dicts h0) /\ l' ∈ dom (h_dicts h) /\ read_dict h l' = read_dict h0 l) /\
  (forall l1 l2 l', memo !! l1 = Some l' -> memo !! l2 = Some l' -> l1 = l2).

Lemma copy_items h0 items : (forall l, l ∈ items.*2 -> l ∈ dom (h_dicts h0)) -> dict_ok items ->
  forall h memo acc h' memo' acc', foldl copy_item (h, memo, acc) items = (h', memo', acc') ->
  grows h0 h (fun _ => False) 1%positive -> h_sets h = h_sets h0 -> memo_ok h0 h memo ->
  (forall i, i ∈ items.*1 -> i ∉ acc.*1) ->
  grows h h' (fun _ => False) 1%positive /\ h_sets h' = h_sets h0 /\ memo_ok h0 h' memo' /\
  (forall l, is_Some (memo !! l) -> memo' !! l = memo !! l) /\
  (forall l, is_Some (memo' !! l) -> is_Some (memo !! l) \/ l ∈ items.*2) /\
  exists new, acc' = acc ++ new /\ new.*1 = items.*1 /\ Forall2 (fun '(_, l) '(_, l') => memo' !! l = Some l') items new.
Proof.
  intros Hlive Hok. induction items as [|[i l] items IH]; intros h memo acc h' memo' acc' H G S M Hnew; cbn [foldl] in H.
  - injection H as <- <- <-. split; [apply grows_refl|]. split; [exact S|]. split; [exact M|]. split; [auto|]. split; [auto|]. exists []. rewrite app_nil_r. repeat split. constructor.
  - unfold dict_ok in Hok. cbn [fmap list_fmap fst] in Hok. apply NoDup_cons in Hok as [Hi Hok].
    assert (Hlive' : forall l, l ∈ items.*2 -> l ∈ dom (h_dicts h0)) by (intros x Hx; apply Hlive; cbn; apply elem_of_cons; auto).
    assert (Hl0 : l ∈ dom (h_dicts h0)) by (apply Hlive; cbn; apply elem_of_cons; auto).
    assert (Hia : i ∉ acc.*1) by (apply Hnew; cbn; apply elem_of_cons; auto).
    assert (S1 : exists h1 memo1 l', copy_item (h, memo, acc) (i, l) = (h1, memo1, acc ++ [(i, l')]) /\
      grows h h1 (fun _ => False) 1%positive /\ h_sets h1 = h_sets h0 /\ memo_ok h0 h1 memo1 /\ memo1 !! l = Some l' /\
      (forall x, is_Some (memo !! x) -> memo1 !! x = memo !! x) /\ (forall x, is_Some (memo1 !! x) -> is_Some (memo !! x) \/ x = l)).
    { unfold copy_item. cbn [fst snd]. destruct (memo !! l) as [l'|] eqn:E.
      - exists h, memo, l'. rewrite dset_fresh by exact Hia. split; [reflexivity|]. split; [apply grows_refl|]. split; [exact S|]. split; [exact M|]. split; [exact E|]. auto.
      - set (l' := new_loc (h_dicts h)). pose proof (new_loc_fresh (h_dicts h)) as Hf. fold l' in Hf.
        eexists _, _, l'. rewrite dset_fresh by exact Hia. split; [reflexivity|]. split; [apply grows_write_dict; intros K; contradiction|].
        split; [exact S|]. split; [|split; [apply lookup_insert|split]].
        + destruct M as [M1 M2]. split.
          * intros x x' Hx. destruct (decide (x = l)) as [->|Hne].
            -- rewrite lookup_insert in Hx. injection Hx as <-. split; [intros K; apply Hf, G, K|]. split; [unfold write_dict; cbn; rewrite dom_insert; apply elem_of_union; left; apply elem_of_singleton; reflexivity|].
               rewrite read_write, decide_True by reflexivity. unfold read_dict. f_equal. apply G; auto.
            -- rewrite lookup_insert_ne in Hx by congruence. destruct (M1 x x' Hx) as (Q1 & Q2 & Q3). split; [exact Q1|]. split; [unfold write_dict; cbn; rewrite dom_insert; apply elem_of_union; auto|].
               rewrite read_write, decide_False; [exact Q3|]. intros <-. contradiction.
          * intros x1 x2 x' H1 H2. destruct (decide (x1 = l)) as [->|N1], (decide (x2 = l)) as [->|N2]; [reflexivity| | |].
            -- rewrite lookup_insert in H1. injection H1 as <-. rewrite lookup_insert_ne in H2 by congruence. exfalso. apply Hf. apply (M1 _ _ H2).
            -- rewrite lookup_insert in H2. injection H2 as <-. rewrite lookup_insert_ne in H1 by congruence. exfalso. apply Hf. apply (M1 _ _ H1).
            -- rewrite lookup_insert_ne in H1, H2 by congruence. eauto.
        + intros x [y Hx]. rewrite lookup_insert_ne by congruence. reflexivity.
        + intros x Hx. destruct (decide (x = l)) as [->|N]; [auto|]. rewrite lookup_insert_ne in Hx by congruence. auto. }
    destruct S1 as (h1 & memo1 & l' & E & G1 & S1 & M1 & L1 & K1 & N1). rewrite E in H.
    assert (G01 : grows h0 h1 (fun _ => False) 1%positive) by (eapply grows_trans; eassumption).
    destruct (IH Hlive' Hok _ _ _ _ _ _ H G01 S1 M1) as (G2 & S2 & M2 & K2 & N2 & new & E2 & E3 & F).
    { intros j Hj. rewrite fmap_app, elem_of_app. intros [K|K]; [revert K; apply Hnew; cbn; apply elem_of_cons; auto|].
      cbn in K. apply elem_of_list_singleton in K as ->. contradiction. }
    split; [eapply grows_trans; eassumption|]. split; [exact S2|]. split; [exact M2|].
    split. { intros x Hx. rewrite K2 by (rewrite K1; assumption). apply K1, Hx. }
    split. { intros x Hx. cbn. rewrite elem_of_cons. destruct (N2 x Hx) as [K|K]; [destruct (N1 x K); auto|auto]. }
    exists ((i, l') :: new). split; [rewrite E2, <- app_assoc; reflexivity|]. split; [cbn; f_equal; exact E3|].
    constructor; [|exact F]. rewrite K2 by eauto. exact L1.
Qed.

Lemma copy_result h a h' a' : h_copy h a = (h', a') -> live h a -> dict_ok (hd_items a) ->
  grows h h' (fun _ => False) (hd_coders a') /\ hd_coders a' ∉ dom (h_sets h) /\ live h' a' /\ view h' a' = view h a /\
  (forall l, l ∈ (hd_items a').*2 -> l ∉ dom (h_dicts h)) /\ (unshared a -> unshared a').
Proof.
  unfold h_copy. intros H Hlive Hok. destruct (foldl copy_item (h, ∅, []) (hd_items a)) as [[h1 memo] items] eqn:E.
  injection H as <- <-. cbn [hd_coders hd_items].
  destruct (copy_items h (hd_items a) (proj1 Hlive) Hok h ∅ [] h1 memo items E (grows_refl _ _ _) eq_refl) as (G & S & [M1 M2] & _ & _ & new & E1 & E2 & F).
  { split; intros *; rewrite lookup_empty; discriminate. }
  { intros i _ K. cbn in K. apply elem_of_nil in K. exact K. }
  cbn [app] in E1. subst items.
  set (s := new_loc (h_sets h1)). pose proof (new_loc_fresh (h_sets h1)) as Hs. fold s in Hs.
  assert (Hnew : forall l', l' ∈ new.*2 -> exists l, l ∈ (hd_items a).*2 /\ memo !! l = Some l').
  { intros l' Hl'. clear - F Hl'. revert Hl'. induction F as [|[i l] [j l1] its nw H F IH]; intros Hl'; [cbn in Hl'; apply elem_of_nil in Hl'; contradiction|].
    cbn in Hl'. apply elem_of_cons in Hl' as [->|Hl'].
    - exists l. split; [cbn; apply elem_of_cons; auto|exact H].
    - destruct (IH Hl') as (x & Hx & Hm). exists x. split; [cbn; apply elem_of_cons; auto|exact Hm]. }
  split.
  { eapply grows_trans; [|apply grows_write_set]. repeat split; try apply G. intros l Hl Hne. rewrite S. reflexivity. }
  split; [rewrite <- S; exact Hs|].
  split.
  { split; cbn [hd_items hd_coders].
    - intros l' Hl'. destruct (Hnew l' Hl') as (l & _ & Hm). apply (M1 _ _ Hm).
    - unfold write_set. cbn. rewrite dom_insert. apply elem_of_union. left. apply elem_of_singleton. reflexivity. }
  split.
  { unfold view. cbn [hd_items hd_coders hd_props hd_types hd_format]. f_equal.
    - change (deref (write_set h1 s (read_set h1 (hd_coders a))) new) with (deref h1 new).
      clear - F E2 M1. revert E2. induction F as [|[i l] [j l1] its nw H F IH]; intros E2; [reflexivity|]. cbn in E2. injection E2 as -> E2.
      change (deref h1 ((i, l1) :: nw)) with ((i, read_dict h1 l1) :: deref h1 nw). change (deref h ((i, l) :: its)) with ((i, read_dict h l) :: deref h its).
      rewrite (IH E2). destruct (M1 _ _ H) as (_ & _ & ->). reflexivity.
    - unfold read_set at 1. unfold write_set. cbn. rewrite lookup_insert. cbn. unfold read_set. rewrite S. reflexivity. }
  split. { intros l' Hl'. destruct (Hnew l' Hl') as (l & _ & Hm). apply (M1 _ _ Hm). }
  unfold unshared. cbn [hd_items]. intros Hu. clear - F Hu M2. induction F as [|[i l] [j l1] its nw H F IH]; [constructor|].
  cbn in Hu |- *. apply NoDup_cons in Hu as [Hl Hu]. apply NoDup_cons. split; [|exact (IH Hu)].
  intros K. apply Hl. clear IH Hu Hl. induction F as [|[i' l'] [j' l1'] its nw H' F IH]; [cbn in K; apply elem_of_nil in K; contradiction|].
  cbn in K |- *. apply elem_of_cons in K as [<-|K]; apply elem_of_cons; [left; eauto|right; auto].
Qed.

(** C52: addition. *)
Lemma add_frame h a b h' r : h_add h a b = (h', r) -> live h a -> dict_ok (hd_items a) -> live h b ->
  (forall l, l ∈ dom (h_dicts h) -> h_dicts h' !! l = h_dicts h !! l) /\ (forall l, l ∈ dom (h_sets h) -> h_sets h' !! l = h_sets h !! l).
Proof.
  unfold h_add. intros H La Oa Lb. destruct (h_copy h a) as [h1 a1] eqn:E. destruct (copy_result _ _ _ _ E La Oa) as (G1 & S1 & L1 & V1 & N1 & U1).
  unfold h_iadd in H. destruct (foldl (h_item None) (h1, a1, None) (hd_items b)) as [[h2 a2] e] eqn:E2.
  destruct (h_items None (hd_items b) _ _ _ _ _ E2 L1) as (G2 & _).
  { intros l Hl. apply G1, (proj1 Lb), Hl. }
  assert (h' = h2) as -> by (destruct e; congruence).
  split.
  - intros l Hl. destruct G2 as (_ & _ & G2 & _). rewrite G2; [apply G1; auto|apply G1, Hl|]. intros K. exact (N1 l K Hl).
  - intros l Hl. assert (l <> hd_coders a1) by congruence. destruct G2 as (_ & _ & _ & G2). rewrite G2; [apply G1; auto|apply G1, Hl|assumption].
Qed.

Lemma add_view h a b h' r : h_add h a b = (h', r) -> live h a -> dict_ok (hd_items a) -> live h b -> unshared a ->
  rmap (view h') r = ds_add (view h a) (view h b).
Proof.
  unfold h_add. intros H La Oa Lb Hu. destruct (h_copy h a) as [h1 a1] eqn:E. destruct (copy_result _ _ _ _ E La Oa) as (G1 & S1 & L1 & V1 & N1 & U1).
  unfold h_iadd in H. destruct (foldl (h_item None) (h1, a1, None) (hd_items b)) as [[h2 a2] e] eqn:E2.
  assert (Hb1 : forall l, l ∈ (hd_items b).*2 -> l ∈ dom (h_dicts h1)) by (intros l Hl; apply G1, (proj1 Lb), Hl).
  destruct (h_items None (hd_items b) _ _ _ _ _ E2 L1 Hb1) as (G2 & _ & _ & _ & _ & U2).
  destruct (U2 (U1 Hu)) as [_ V2].
  assert (Hap : forall l, l ∈ (hd_items a1).*2 -> l ∈ (hd_items b).*2 -> False) by (intros l H1 H2; apply (N1 l H1), (proj1 Lb), H2).
  specialize (V2 Hap). rewrite V1 in V2. unfold ds_add, iadd.
  assert (Vb : ds_items (view h b) = deref h1 (hd_items b)).
  { cbn [view ds_items]. symmetry. apply deref_ext. intros l Hl. unfold read_dict. f_equal. apply G1; [apply (proj1 Lb), Hl|auto]. }
  rewrite Vb, V2. destruct e; injection H as <- <-; reflexivity.
Qed.

(** C52: in-place addition. *)
Lemma iadd_frame h a b path h' a' e : h_iadd h a b path = (h', a', e) -> live h a -> live h b ->
  (forall l, l ∈ dom (h_dicts h) -> l ∉ (hd_items a).*2 -> h_dicts h' !! l = h_dicts h !! l) /\
  (forall l, l ∈ dom (h_sets h) -> l <> hd_coders a -> h_sets h' !! l = h_sets h !! l).
Proof. unfold h_iadd. intros H La Lb. destruct (h_items path (hd_items b) _ _ _ _ _ H La (proj1 Lb)) as ((_ & _ & G3 & G4) & _). auto. Qed.

Lemma iadd_view h a b path h' a' e : h_iadd h a b path = (h', a', e) -> live h a -> live h b -> unshared a -> apart a b ->
  iadd (view h a) (view h b) path = (view h' a', e).
Proof.
  unfold h_iadd. intros H La Lb Hu Hap. destruct (h_items path (hd_items b) _ _ _ _ _ H La (proj1 Lb)) as (_ & _ & _ & _ & _ & U).
  destruct (U Hu) as [_ V]. exact (V Hap).
Qed.

Lemma iadd_keeps h a b path h' a' e : h_iadd h a b path = (h', a', e) -> live h a -> live h b ->
  forall i l, dget (hd_items a) i = Some l -> dget (hd_items a') i = Some l.
Proof. unfold h_iadd. intros H La Lb. destruct (h_items path (hd_items b) _ _ _ _ _ H La (proj1 Lb)) as (_ & _ & _ & K & _). exact K. Qed.

(** Writing through to the dict a dataset was made from. *)
Lemma new_dataset_view h data props types f h' a : dict_ok data -> (forall l, l ∈ data.*2 -> l ∈ dom (h_dicts h)) ->
  h_new h data props types f = (h', a) ->
  h_dicts h' = h_dicts h /\ live h' a /\ hd_items a = data /\ view h' a = new_dataset (Some (deref h data)) props types f.
Proof.
  unfold h_new. intros Hok Hl H. injection H as <- <-. assert (E : dupdate [] data = data) by (rewrite dupdate_nodup; [reflexivity|exact Hok]).
  assert (E' : dupdate [] (deref h data) = deref h data) by (rewrite dupdate_nodup; [reflexivity|unfold dict_ok; cbn; rewrite deref_keys; exact Hok]).
  split; [reflexivity|]. split.
  - split; cbn [hd_items hd_coders]; [rewrite E; exact Hl|]. unfold write_set. cbn. rewrite dom_insert. apply elem_of_union. left. apply elem_of_singleton. reflexivity.
  - split; [exact E|]. unfold view, new_dataset. cbn [hd_items hd_coders hd_props hd_types hd_format default]. change (id (deref h data)) with (deref h data). rewrite E, E'.
    f_equal. unfold read_set, write_set. cbn. rewrite lookup_insert. reflexivity.
Qed.

Lemma write_through h data props types f h1 a b h' a' : dict_ok data -> NoDup data.*2 ->
  (forall l, l ∈ data.*2 -> l ∈ dom (h_dicts h)) -> h_new h data props types f = (h1, a) ->
  live h1 b -> apart a b -> items_ok (ds_items (view h1 b)) -> h_iadd h1 a b None = (h', a', None) ->
  forall i c v, i ∈ data.*1 -> coding_at (deref h' data) i c = Some v <-> coding_at (deref h data) i c = Some v \/ coding_at (ds_items (view h1 b)) i c = Some v.
Proof.
  intros Hok Hn Hl Hnew Lb Hap Hbok H i c v Hi. destruct (new_dataset_view _ _ _ _ _ _ _ Hok Hl Hnew) as (D1 & La & Ea & Va).
  assert (Hu : unshared a) by (unfold unshared; rewrite Ea; exact Hn).
  pose proof (iadd_view _ _ _ _ _ _ _ H La Lb Hu Hap) as V. pose proof (iadd_keeps _ _ _ _ _ _ _ H La Lb) as K. rewrite Ea in K.
  apply (iadd_result _ _ _ _ Hbok) in V. destruct V as [V _ _ _ _]. specialize (V i c v).
  apply dget_is_Some in Hi as [l Hil]. unfold coding_at in V |- *. cbn [view ds_items] in V. rewrite !deref_get in V |- *. rewrite (K i l Hil), Ea, Hil in V. rewrite Hil. cbn [fmap option_fmap option_map] in V |- *.
  rewrite V. assert (R : read_dict h1 l = read_dict h l) by (unfold read_dict; rewrite D1; reflexivity). rewrite R. split.
  - intros [Q|(i' & -> & Q)]; [auto|]. right. cbn [view ds_items]. exact Q.
  - intros [Q|Q]; [auto|]. right. exists i. split; [reflexivity|]. exact Q.
Qed.
End Heaps.
