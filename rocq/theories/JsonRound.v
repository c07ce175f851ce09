(** Writing a dataset as JSON and reading it again. *)
From Verif Require Export JsonProofs.
Open Scope Z_scope.

Fixpoint dump_load_ok (j : json) : json_ok j -> json_ok (dump_load j).
Proof.
  destruct j as [| | | | |l|l]; try (intros H; exact H).
  - cbn [dump_load]. cbn [json_ok]. induction l as [|x l IH]; [auto|]. intros [H1 H2]. split; [apply dump_load_ok, H1|exact (IH H2)].
  - intros H. assert (Hsub : forall k v, (k, v) ∈ l -> json_ok v -> json_ok (dump_load v)).
    { intros k v _. apply dump_load_ok. }
    assert (Hall : forall k v, (k, v) ∈ key_sort (map (fun '(k, v) => (k, dump_load v)) l) -> json_ok v).
    { clear -H dump_load_ok. intros k v. rewrite key_sort_perm. destruct H as [_ H]. induction l as [|[k1 x] l IH]; cbn [map]; [intros K; apply elem_of_nil in K; contradiction|].
      destruct H as [H1 H2]. rewrite elem_of_cons. intros [E|K]; [injection E as -> ->; apply dump_load_ok, H1|exact (IH H2 K)]. }
    cbn [dump_load json_ok]. split.
    + rewrite key_sort_perm. change (map (fun '(k, v) => (k, dump_load v)) l) with ((fun '(k, v) => (k, dump_load v)) <$> l). rewrite keys_fmap. exact (proj1 H).
    + clear -Hall. revert Hall. generalize (key_sort (map (fun '(k, v) => (k, dump_load v)) l)). intros s Hall. induction s as [|[k x] s IH]; [exact I|].
      split; [apply (Hall k), elem_of_cons; auto|]. apply IH. intros k' v Hv. apply (Hall k'), elem_of_cons. auto.
Qed.

Lemma member_dump j k v' : member (dump_load j) k v' <-> exists v, member j k v /\ v' = dump_load v.
Proof.
  split.
  - intros (l' & E & H). destruct j as [| | | | |l|l]; try discriminate. rewrite dump_load_obj in E. injection E as <-. rewrite key_sort_perm in H.
    apply elem_of_list_fmap in H as ([k1 v] & E & H). injection E as -> ->. exists v. split; [exists l; auto|reflexivity].
  - intros (v & (l & -> & H) & ->). rewrite dump_load_obj. eexists. split; [reflexivity|]. rewrite key_sort_perm. apply elem_of_list_fmap. exists (k, v). auto.
Qed.

Lemma json_ok_intro l : NoDup l.*1 -> (forall k v, (k, v) ∈ l -> json_ok v) -> json_ok (JObj l).
Proof.
  intros H1 H2. split; [exact H1|]. clear H1. induction l as [|[k x] l IH]; [exact I|]. split; [apply (H2 k), elem_of_cons; auto|].
  apply IH. intros k' v Hv. apply (H2 k'), elem_of_cons. auto.
Qed.

Lemma masses_ok m : is_masses m -> json_ok (JArr m).
Proof. intros [z ->]. cbn. induction z as [|x z IH]; [exact I|]. split; [exact I|exact IH]. Qed.

Section Round.
Context (d : dataset (list json)).
Hypothesis Hitems : items_ok (ds_items d).
Hypothesis Hmasses : forall i c m, coding_at (ds_items d) i c = Some m -> is_masses m.
Hypothesis Hprops : json_ok (JObj (ds_props d)).

Definition doc_items : dict json := (fun '(i, cs) => (i, JObj ((fun '(c, m) => (c, JArr m)) <$> cs))) <$> ds_items d.

Lemma item_json_eq : json_items (ds_items d) = JObj doc_items.
Proof. reflexivity. Qed.

Lemma doc_items_ok : json_ok (JObj doc_items).
Proof using Hitems Hmasses.
  clear Hprops. apply json_ok_intro.
  - unfold doc_items. rewrite (keys_fmap (fun cs : dict (list json) => JObj ((fun '(c, m) => (c, JArr m)) <$> cs))). exact (proj1 Hitems).
  - intros i v Hv. apply elem_of_list_fmap in Hv as ([i' cs] & E & Hi). injection E as -> ->. pose proof (proj2 Hitems _ _ Hi) as Hcs. apply json_ok_intro.
    + rewrite (keys_fmap JArr). exact Hcs.
    + intros c v Hv. apply elem_of_list_fmap in Hv as ([c' m] & E & Hc). injection E as -> ->. apply masses_ok. apply (Hmasses i' c').
      unfold coding_at. rewrite (proj2 (dget_Some _ _ _ (proj1 Hitems)) Hi). apply (dget_Some _ _ _ Hcs), Hc.
Qed.

Definition doc : dict json := dupdate [(f_type, JStr v_linear); (f_items, JObj doc_items)] (ds_props d).

Lemma doc_eq : output_json d = JObj doc.
Proof. reflexivity. Qed.

Lemma base_ok : dict_ok [(f_type, JStr v_linear); (f_items, JObj doc_items)].
Proof. unfold dict_ok. cbn. apply NoDup_cons. split; [|apply NoDup_singleton]. intros K. apply elem_of_list_singleton in K. discriminate. Qed.

Lemma doc_ok_keys : dict_ok doc.
Proof. apply dupdate_ok, base_ok. Qed.

Lemma doc_get k : dget doc k = match dget (ds_props d) k with Some v => Some v | None => dget [(f_type, JStr v_linear); (f_items, JObj doc_items)] k end.
Proof using Hprops. unfold doc. rewrite dget_dupdate. rewrite (dget_perm_eq (ds_props d) (reverse (ds_props d))); [reflexivity|apply (json_ok_obj _ Hprops)|]. symmetry. apply reverse_Permutation. Qed.

Lemma doc_ok : json_ok (JObj doc).
Proof using Hitems Hmasses Hprops.
  apply json_ok_intro; [apply doc_ok_keys|]. intros k v Hv. apply (dget_Some _ _ _ doc_ok_keys) in Hv. rewrite doc_get in Hv.
  destruct (dget (ds_props d) k) as [p|] eqn:E.
  - injection Hv as ->. apply dget_elem in E. exact (proj2 (json_ok_obj _ Hprops) k v E).
  - cbn [dget] in Hv. destruct (decide (k = f_type)); [injection Hv as <-; exact I|]. destruct (decide (k = f_items)); [|discriminate]. injection Hv as <-. apply doc_items_ok.
Qed.

Lemma doc_member k v : member (JObj doc) k v <-> dget doc k = Some v.
Proof. apply member_get, doc_ok_keys. Qed.

(** The entries the document has. *)
Lemma items_member i v : member (JObj doc_items) i v <-> exists cs, dget (ds_items d) i = Some cs /\ v = JObj ((fun '(c, m) => (c, JArr m)) <$> cs).
Proof using Hitems.
  clear Hprops Hmasses. split.
  - intros (l & E & H). injection E as <-. apply elem_of_list_fmap in H as ([i' cs] & E & H). injection E as -> ->. exists cs. split; [|reflexivity]. apply (dget_Some _ _ _ (proj1 Hitems)), H.
  - intros (cs & H & ->). exists doc_items. split; [reflexivity|]. apply elem_of_list_fmap. exists (i, cs). split; [reflexivity|]. apply dget_elem, H.
Qed.

Lemma codings_member (cs : dict (list json)) c v : dict_ok cs -> member (JObj ((fun '(c, m) => (c, JArr m)) <$> cs)) c v <-> exists m, dget cs c = Some m /\ v = JArr m.
Proof.
  intros Hok. split.
  - intros (l & E & H). injection E as <-. apply elem_of_list_fmap in H as ([c' m] & E & H). injection E as -> ->. exists m. split; [|reflexivity]. apply (dget_Some _ _ _ Hok), H.
  - intros (m & H & ->). eexists. split; [reflexivity|]. apply elem_of_list_fmap. exists (c, m). split; [reflexivity|]. apply dget_elem, H.
Qed.

Hypothesis Hnoitems : "items"%string ∉ (ds_props d).*1.

Lemma doc_has_items v : member (JObj doc) "items" v <-> v = JObj doc_items.
Proof using Hprops Hnoitems.
  rewrite doc_member, doc_get. rewrite (proj2 (dget_None _ _) Hnoitems). change "items"%string with f_items. cbn [dget].
  rewrite decide_False by discriminate. rewrite decide_True by reflexivity. split; [congruence|intros ->; reflexivity].
Qed.

Lemma doc_coded i c m : coded_in (dump_load (JObj doc)) i c m <-> coding_at (ds_items d) i c = Some m.
Proof using Hitems Hmasses Hprops Hnoitems.
  unfold coded_in. split.
  - intros (items & it & v & H1 & H2 & H3 & H4). apply member_dump in H1 as (v1 & H1 & ->). apply doc_has_items in H1 as ->.
    apply member_dump in H2 as (v2 & H2 & ->). apply items_member in H2 as (cs & Hcs & ->). apply member_dump in H3 as (v3 & H3 & ->).
    apply codings_member in H3 as (m' & Hm & ->); [|apply (proj2 Hitems i), dget_elem, Hcs].
    assert (E : coding_at (ds_items d) i c = Some m') by (unfold coding_at; rewrite Hcs; exact Hm).
    cbn [dump_load] in H4. inversion H4; subst. rewrite (dump_load_masses m' (Hmasses _ _ _ E)). exact E.
  - intros E. pose proof (Hmasses _ _ _ E) as Hm. unfold coding_at in E. destruct (dget (ds_items d) i) as [cs|] eqn:Hcs; [|discriminate].
    exists (dump_load (JObj doc_items)), (dump_load (JObj ((fun '(c, m) => (c, JArr m)) <$> cs))), (dump_load (JArr m)).
    split; [apply member_dump; exists (JObj doc_items); split; [apply doc_has_items; reflexivity|reflexivity]|].
    split; [apply member_dump; eexists; split; [apply items_member; exists cs; auto|reflexivity]|].
    split; [apply member_dump; eexists; split; [apply codings_member; [apply (proj2 Hitems i), dget_elem, Hcs|exists m; auto]|reflexivity]|].
    cbn [dump_load]. rewrite (dump_load_masses m Hm). constructor.
Qed.

Hypothesis Htype : dget (ds_props d) "segmentation_type" = None \/ dget (ds_props d) "segmentation_type" = Some (JStr "linear").

Lemma doc_type : member (JObj doc) "segmentation_type" (JStr "linear").
Proof using Hprops Htype. apply doc_member. rewrite doc_get. destruct Htype as [-> | ->]; reflexivity. Qed.

Lemma round_trip : exists r, input_json (Some (dump_load (output_json d))) = Ok r /\
  (forall i c, coding_at (ds_items r) i c = coding_at (ds_items d) i c) /\
  (forall i, i ∈ (ds_items r).*1 <-> i ∈ (ds_items d).*1) /\ items_ok (ds_items r) /\
  (forall k v, k <> "segmentation_type"%string -> (k, v) ∈ ds_props d -> exists v', (k, v') ∈ ds_props r /\ same_json v v') /\
  (forall k v', (k, v') ∈ ds_props r -> k = "segmentation_type"%string /\ v' = JStr "linear" \/ exists v, (k, v) ∈ ds_props d /\ same_json v v') /\
  ("segmentation_type"%string, JStr "linear") ∈ ds_props r /\
  ds_coders r = ∅ /\ ds_format r = FMass.
Proof using All.
  rewrite doc_eq. pose proof (dump_load_ok _ doc_ok) as Hok. destruct (dump_load (JObj doc)) as [| | | | |l0|l] eqn:E; try discriminate.
  assert (A : exists r, input_json (Some (JObj l)) = Ok r).
  { apply (input_accepts l Hok). rewrite <- E. split; [apply member_dump; eexists; split; [apply doc_type|reflexivity]|].
    exists (key_sort ((fun '(k, v) => (k, dump_load v)) <$> doc_items)). split; [apply member_dump; exists (JObj doc_items); split; [apply doc_has_items; reflexivity|reflexivity]|].
    intros i it Hi. assert (M : member (dump_load (JObj doc_items)) i it) by (eexists; split; [apply dump_load_obj|exact Hi]).
    apply member_dump in M as (v & M & ->). apply items_member in M as (cs & Hcs & ->). rewrite dump_load_obj. eexists. split; [reflexivity|]. intros c v Hv.
    assert (M : member (dump_load (JObj ((fun '(c, m) => (c, JArr m)) <$> cs))) c v) by (eexists; split; [apply dump_load_obj|exact Hv]).
    apply member_dump in M as (v1 & M & ->). apply codings_member in M as (m & _ & ->); [|apply (proj2 Hitems i), dget_elem, Hcs].
    cbn [dump_load]. eexists. constructor. }
  destruct A as [r Hr]. exists r. split; [exact Hr|]. destruct (input_result l r Hok Hr) as (R1 & R2 & R3 & R4 & R5 & R6).
  rewrite <- E in R1, R2, R3.
  assert (Hpn : NoDup (ds_props d).*1) by (apply (json_ok_obj _ Hprops)).
  split; [|split; [|split; [exact R4|split; [|split; [|split; [|auto]]]]]].
  - intros i c. destruct (coding_at (ds_items r) i c) as [m|] eqn:Em.
    + apply R1, doc_coded in Em. congruence.
    + destruct (coding_at (ds_items d) i c) as [m|] eqn:Em'; [|reflexivity]. apply doc_coded, R1 in Em'. congruence.
  - intros i. rewrite R2. split.
    + intros (items & it & H1 & H2). apply member_dump in H1 as (v1 & H1 & ->). apply doc_has_items in H1 as ->.
      apply member_dump in H2 as (v2 & H2 & ->). apply items_member in H2 as (cs & Hcs & _). apply dget_is_Some. eauto.
    + intros Hi. apply dget_is_Some in Hi as [cs Hcs]. do 2 eexists. split; [apply member_dump; eexists; split; [apply doc_has_items; reflexivity|reflexivity]|].
      apply member_dump. eexists. split; [apply items_member; eauto|reflexivity].
  - intros k v Hk Hv. exists (dump_load v). split; [|apply dump_load_same]. apply R3. split.
    + intros ->. apply Hnoitems. apply elem_of_list_fmap. exists ("items"%string, v). auto.
    + apply member_dump. exists v. split; [|reflexivity]. apply doc_member. rewrite doc_get. rewrite (proj2 (dget_Some _ _ _ Hpn) Hv). reflexivity.
  - intros k v' Hv. apply R3 in Hv as [Hk Hv]. apply member_dump in Hv as (v & Hv & ->). apply doc_member in Hv. rewrite doc_get in Hv.
    destruct (dget (ds_props d) k) as [p|] eqn:Ep.
    + injection Hv as ->. right. exists v. split; [apply dget_elem, Ep|apply dump_load_same].
    + left. cbn [dget] in Hv. destruct (decide (k = f_type)) as [->|]; [injection Hv as <-; auto|]. destruct (decide (k = f_items)) as [->|]; [contradiction|discriminate].
  - apply R3. split; [discriminate|]. apply member_dump. eexists. split; [apply doc_type|reflexivity].
Qed.
End Round.

(** A property called [items] takes the place of the codings. *)
Lemma items_overridden d d' : ds_props d' = ds_props d -> "items"%string ∈ (ds_props d).*1 -> output_json d' = output_json d.
Proof.
  intros Hp Hi. unfold output_json. rewrite Hp. f_equal. revert Hi. generalize (ds_props d). intros props Hi.
  cbn [dset]. rewrite decide_False by discriminate. generalize (json_items (ds_items d')). intros a. generalize (json_items (ds_items d)). intros b.
  assert (G : forall (base base' : dict json), base.*1 = base'.*1 -> (forall k, k <> f_items -> dget base k = dget base' k) -> NoDup base.*1 -> f_items ∈ props.*1 -> dupdate base props = dupdate base' props).
  { clear. intros base base'. revert base base'. induction props as [|[k v] props IH]; intros base base' E H Hn Hi; [cbn in Hi; apply elem_of_nil in Hi; contradiction|].
    cbn [dupdate foldl]. fold (dupdate (dset base k v) props). fold (dupdate (dset base' k v) props).
    assert (Em : dmem base k = dmem base' k). { destruct (dmem base' k) eqn:M; [apply dmem_true in M; apply dmem_true; rewrite E; exact M|]. apply dmem_false in M. apply dmem_false. rewrite E. exact M. }
    destruct (decide (k = f_items)) as [->|Hk].
    - f_equal. assert (Q : forall (x y : dict json), x.*1 = y.*1 -> NoDup x.*1 -> (forall k, dget x k = dget y k) -> x = y).
      { clear. induction x as [|[k v] x IHx]; intros [|[k' v'] y] E Hn H; try discriminate; [reflexivity|]. cbn in E. injection E as -> E.
        pose proof (H k') as Hk. cbn [dget] in Hk. rewrite !decide_True in Hk by reflexivity. injection Hk as ->. f_equal. cbn [fmap list_fmap fst] in Hn. apply NoDup_cons in Hn as [Hkn Hn].
        apply IHx; [exact E|exact Hn|]. intros k. specialize (H k). cbn [dget] in H. destruct (decide (k = k')) as [->|]; [|exact H].
        unfold fmap in E. rewrite (proj2 (dget_None x k') Hkn). symmetry. apply dget_None. unfold fmap. rewrite <- E. exact Hkn. }
      apply Q.
      + rewrite !dset_keys, Em, E. reflexivity.
      + apply dset_ok. exact Hn.
      + intros k. rewrite !dget_dset. destruct (decide (k = f_items)); [reflexivity|]. apply H. assumption.
    - apply IH.
      + rewrite !dset_keys, Em, E. reflexivity.
      + intros k' Hk'. rewrite !dget_dset. destruct (decide (k' = k)); [reflexivity|]. apply H, Hk'.
      + apply dset_ok. exact Hn.
      + cbn in Hi. apply elem_of_cons in Hi as [E'|Hi]; [congruence|exact Hi]. }
  apply G; [reflexivity| |apply (base_ok empty_dataset)|exact Hi].
  intros k Hk. rewrite decide_False by discriminate. cbn [dget]. destruct (decide (k = f_type)); [reflexivity|]. rewrite !(decide_False (P := k = f_items)) by exact Hk. reflexivity.
Qed.

(** A foreign segmentation type makes the file unreadable. *)
Lemma foreign_type d v : json_ok (JObj (ds_props d)) -> dget (ds_props d) "segmentation_type" = Some v -> v <> JStr "linear" ->
  input_json (Some (dump_load (output_json d))) = Err DataIOError.
Proof.
  intros Hp Hv Hne. rewrite doc_eq, dump_load_obj. unfold input_json.
  assert (Hn : dict_ok ((fun '(k, v) => (k, dump_load v)) <$> doc d)) by (unfold dict_ok; rewrite keys_fmap; apply doc_ok_keys).
  rewrite (dget_sort _ f_type Hn), dget_fmap, (doc_get d Hp f_type). change (dget (ds_props d) f_type = Some v) in Hv. rewrite Hv. cbn [fmap option_fmap option_map].
  destruct (json_is_str (dump_load v) v_linear) eqn:E; [|reflexivity]. exfalso. apply json_is_str_true in E. destruct v; try discriminate. cbn in E. exact (Hne E).
Qed.
