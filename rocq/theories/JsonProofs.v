(** Reading and writing JSON documents. *)
From Verif Require Export DataProofs.
From Coq Require Import String.
Open Scope Z_scope.

(** * Sorting keys *)
Section Sort.
Context {V : Type}.
Implicit Types d : dict V.

Lemma key_insert_perm k v d : key_insert k v d ≡ₚ (k, v) :: d.
Proof.
  induction d as [|[k' v'] d IH]; [reflexivity|]. cbn [key_insert]. destruct (String.leb k k'); [reflexivity|]. rewrite IH. constructor.
Qed.

Lemma key_sort_perm d : key_sort d ≡ₚ d.
Proof.
  induction d as [|[k v] d IH]; [reflexivity|]. cbn [key_sort foldr]. fold (key_sort d). cbn [fst snd]. rewrite key_insert_perm, IH. reflexivity.
Qed.

Lemma dget_perm_eq d d' k : dict_ok d -> d ≡ₚ d' -> dget d' k = dget d k.
Proof.
  intros Hok Hp. assert (Hok' : dict_ok d') by (unfold dict_ok in *; rewrite <- Hp; exact Hok).
  destruct (dget d k) as [v|] eqn:E.
  - apply (dget_Some _ _ _ Hok) in E. apply (dget_Some _ _ _ Hok'). rewrite <- Hp. exact E.
  - apply dget_None in E. apply dget_None. rewrite <- Hp. exact E.
Qed.

Lemma dget_sort d k : dict_ok d -> dget (key_sort d) k = dget d k.
Proof. intros Hok. apply dget_perm_eq; [exact Hok|]. symmetry. apply key_sort_perm. Qed.

Lemma sort_ok d : dict_ok d -> dict_ok (key_sort d).
Proof. unfold dict_ok. rewrite key_sort_perm. auto. Qed.

Lemma sort_keys d k : k ∈ (key_sort d).*1 <-> k ∈ d.*1.
Proof. rewrite key_sort_perm. reflexivity. Qed.
End Sort.

Lemma dget_fmap {V W} (f : V -> W) (d : dict V) k : dget ((fun '(k, v) => (k, f v)) <$> d) k = f <$> dget d k.
Proof. induction d as [|[k' v] d IH]; [reflexivity|]. cbn. destruct (decide (k = k')); [reflexivity|exact IH]. Qed.

Lemma keys_fmap {V W} (f : V -> W) (d : dict V) : ((fun '(k, v) => (k, f v)) <$> d).*1 = d.*1.
Proof. rewrite <- list_fmap_compose. apply list_fmap_ext. intros ? [? ?]. reflexivity. Qed.

(** ** Dumping and loading again changes the order of keys only *)
Lemma dump_load_obj l : dump_load (JObj l) = JObj (key_sort ((fun '(k, v) => (k, dump_load v)) <$> l)).
Proof. reflexivity. Qed.

Fixpoint dump_load_same (j : json) : same_json j (dump_load j).
Proof.
  destruct j; try apply same_refl; cbn [dump_load].
  - apply same_arr. induction l as [|x l IH]; cbn [map]; constructor; [apply dump_load_same|exact IH].
  - apply (same_obj _ (map (fun '(k, v) => (k, dump_load v)) l)).
    + induction l as [|[k x] l IH]; cbn [map]; constructor; [|exact IH]. split; [reflexivity|apply dump_load_same].
    + symmetry. apply key_sort_perm.
Qed.

Lemma dump_load_masses m : is_masses m -> map dump_load m = m.
Proof. intros [z ->]. induction z as [|x z IH]; [reflexivity|]. cbn. f_equal. exact IH. Qed.

(** * Loading *)
Section Load.
Context {V : Type} (f : json -> res V).

Lemma load_fold l : forall (acc : dict V), NoDup l.*1 -> (forall k, k ∈ l.*1 -> k ∉ acc.*1) ->
  match foldM (fun acc kv => let* y := f (snd kv) in Ok (dset acc (fst kv) y)) l acc with
  | Ok r => exists new, r = acc ++ new /\ Forall2 (fun p q => fst p = fst q /\ f (snd p) = Ok (snd q)) l new
  | Err e => exists k v, (k, v) ∈ l /\ f v = Err e
  end.
Proof.
  induction l as [|[k v] l IH]; intros acc Hn Hf; cbn [foldM].
  - exists []. rewrite app_nil_r. split; [reflexivity|constructor].
  - cbn [fmap list_fmap fst] in Hn, Hf. apply NoDup_cons in Hn as [Hk Hn]. cbn [fst snd]. destruct (f v) as [y|e] eqn:E; cbn [bind].
    + rewrite dset_fresh by (apply Hf, elem_of_cons; auto). specialize (IH (acc ++ [(k, y)]) Hn).
      destruct (foldM _ l (acc ++ [(k, y)])) as [r|e].
      * destruct IH as (new & -> & F).
        { intros x Hx. rewrite fmap_app, elem_of_app. intros [K|K]; [revert K; apply Hf, elem_of_cons; auto|]. cbn in K. apply elem_of_list_singleton in K as ->. contradiction. }
        exists ((k, y) :: new). rewrite <- app_assoc. split; [reflexivity|]. constructor; [auto|exact F].
      * destruct IH as (k' & v' & H1 & H2).
        { intros x Hx. rewrite fmap_app, elem_of_app. intros [K|K]; [revert K; apply Hf, elem_of_cons; auto|]. cbn in K. apply elem_of_list_singleton in K as ->. contradiction. }
        exists k', v'. split; [apply elem_of_cons; auto|exact H2].
    + exists k, v. split; [apply elem_of_cons; auto|exact E].
Qed.

Lemma load_fold_ok l r : NoDup l.*1 -> foldM (fun acc kv => let* y := f (snd kv) in Ok (dset acc (fst kv) y)) l [] = Ok r ->
  Forall2 (fun p q => fst p = fst q /\ f (snd p) = Ok (snd q)) l r.
Proof.
  intros Hn H. pose proof (load_fold l [] Hn) as L. rewrite H in L. destruct L as (new & -> & F); [|exact F].
  intros k _ K. cbn in K. apply elem_of_nil in K. exact K.
Qed.

Lemma load_fold_err l e : NoDup l.*1 -> foldM (fun acc kv => let* y := f (snd kv) in Ok (dset acc (fst kv) y)) l [] = Err e ->
  exists k v, (k, v) ∈ l /\ f v = Err e.
Proof.
  intros Hn H. pose proof (load_fold l [] Hn) as L. rewrite H in L. apply L.
  intros k _ K. cbn in K. apply elem_of_nil in K. exact K.
Qed.

Lemma load_fold_total l : NoDup l.*1 -> (forall k v, (k, v) ∈ l -> exists y, f v = Ok y) ->
  exists r, foldM (fun acc kv => let* y := f (snd kv) in Ok (dset acc (fst kv) y)) l [] = Ok r.
Proof.
  intros Hn H. destruct (foldM _ l []) as [r|e] eqn:E; [eauto|]. destruct (load_fold_err l e Hn E) as (k & v & K1 & K2).
  destruct (H k v K1). congruence.
Qed.

Lemma pairs_keys (l : dict json) (r : dict V) : Forall2 (fun p q => fst p = fst q /\ f (snd p) = Ok (snd q)) l r -> r.*1 = l.*1.
Proof. induction 1 as [|p q l r [H _] F IH]; [reflexivity|]. cbn. rewrite H. f_equal. exact IH. Qed.

Lemma pairs_get (l : dict json) (r : dict V) k y : Forall2 (fun p q => fst p = fst q /\ f (snd p) = Ok (snd q)) l r ->
  dget r k = Some y <-> exists v, dget l k = Some v /\ f v = Ok y.
Proof.
  induction 1 as [|[k1 v1] [k2 y2] l r [H1 H2] F IH]; [split; [discriminate|intros (v & H & _); discriminate]|]. cbn [fst snd] in *. subst k2. cbn [dget].
  destruct (decide (k = k1)) as [->|Hk]; [|exact IH]. split.
  - intros E. injection E as <-. eauto.
  - intros (v & E & H). injection E as <-. congruence.
Qed.
End Load.

(** [load_item] and [load_coding] have that form. *)
Definition load_codings (j : json) : res (dict (list json)) := let* cs := json_obj j in foldM load_coding cs [].

Lemma load_item_form l acc : foldM load_item l acc = foldM (fun acc kv => let* y := load_codings (snd kv) in Ok (dset acc (fst kv) y)) l acc.
Proof.
  revert acc. induction l as [|[k v] l IH]; intros acc; [reflexivity|]. cbn [foldM]. unfold load_item at 1, load_codings at 1. cbn [fst snd].
  destruct (json_obj v) as [cs|]; [|reflexivity]. cbn [bind]. destruct (foldM load_coding cs []); [|reflexivity]. cbn [bind]. apply IH.
Qed.

Lemma json_tuple_yields j m : json_tuple j = Ok m <-> yields j m.
Proof.
  destruct j; cbn [json_tuple]; split; intros H; try discriminate; try (inversion H; fail).
  - injection H as <-. apply yields_string.
  - inversion H; subst. reflexivity.
  - injection H as <-. apply yields_array.
  - inversion H; subst. reflexivity.
  - injection H as <-. change ((fun kv => JStr (fst kv)) <$> l) with (JStr ∘ fst <$> l). rewrite (list_fmap_compose fst JStr l). apply yields_object.
  - inversion H; subst. change ((fun kv => JStr (fst kv)) <$> l) with (JStr ∘ fst <$> l). rewrite (list_fmap_compose fst JStr l). reflexivity.
Qed.

(** ** Distinct keys *)
Lemma json_ok_obj l : json_ok (JObj l) -> NoDup l.*1 /\ forall k v, (k, v) ∈ l -> json_ok v.
Proof.
  intros [H1 H2]. split; [exact H1|]. clear H1. induction l as [|[k x] l IH]; intros k' v Hv; [apply elem_of_nil in Hv; contradiction|].
  destruct H2 as [Hx H2]. apply elem_of_cons in Hv as [E|Hv]; [injection E as <- <-; exact Hx|exact (IH H2 k' v Hv)].
Qed.

Lemma load_codings_ok j r : json_ok j -> load_codings j = Ok r ->
  exists cs, j = JObj cs /\ NoDup cs.*1 /\ Forall2 (fun p q => fst p = fst q /\ json_tuple (snd p) = Ok (snd q)) cs r.
Proof.
  unfold load_codings. destruct j as [| | | | | |cs]; cbn [json_obj bind]; try discriminate. intros Hok H.
  exists cs. destruct (json_ok_obj _ Hok) as [Hn _]. split; [reflexivity|]. split; [exact Hn|]. exact (load_fold_ok json_tuple cs r Hn H).
Qed.

Lemma load_codings_err j e : json_ok j -> load_codings j = Err e ->
  e = AttributeError /\ (forall cs, j <> JObj cs) \/ e = TypeError /\ exists cs k v, j = JObj cs /\ (k, v) ∈ cs /\ forall m, ~ yields v m.
Proof.
  unfold load_codings. destruct j as [| | | | | |cs]; cbn [json_obj bind]; try (intros _ H; injection H as <-; left; split; [reflexivity|intros cs; discriminate]).
  intros Hok H. destruct (json_ok_obj _ Hok) as [Hn _]. destruct (load_fold_err json_tuple cs e Hn H) as (k & v & K1 & K2). right.
  split; [destruct v; cbn in K2; congruence|]. exists cs, k, v. split; [reflexivity|]. split; [exact K1|]. intros m Hm. apply json_tuple_yields in Hm. congruence.
Qed.

(** * C54 *)
Lemma input_unreadable : input_json None = Err DataIOError.
Proof. reflexivity. Qed.

Lemma member_get l k v : NoDup l.*1 -> member (JObj l) k v <-> dget l k = Some v.
Proof.
  intros Hn. split.
  - intros (l' & E & H). injection E as <-. apply (dget_Some _ _ _ Hn), H.
  - intros H. exists l. split; [reflexivity|]. apply dget_elem, H.
Qed.

Lemma json_is_str_true j s : json_is_str j s = true <-> j = JStr s.
Proof.
  destruct j; cbn; try (split; discriminate). rewrite bool_decide_eq_true. split; [intros ->; reflexivity|]. intros E. injection E as ->. reflexivity.
Qed.

Lemma input_checked l : json_ok (JObj l) ->
  (~ member (JObj l) "segmentation_type" (JStr "linear") \/ lacks (JObj l) "items") -> input_json (Some (JObj l)) = Err DataIOError.
Proof.
  intros Hok H. destruct (json_ok_obj _ Hok) as [Hn _]. unfold input_json. destruct (dget l f_type) as [t|] eqn:E; [|reflexivity].
  destruct (json_is_str t v_linear) eqn:Et; [|reflexivity]. cbn [negb]. apply json_is_str_true in Et as ->.
  destruct H as [H|(l' & E' & H)]; [exfalso; apply H; apply (member_get l _ _ Hn), E|]. injection E' as <-.
  apply dget_None in H. fold f_items in H. rewrite H. reflexivity.
Qed.

Lemma input_loaded l : json_ok (JObj l) -> member (JObj l) "segmentation_type" (JStr "linear") -> forall items, member (JObj l) "items" items ->
  input_json (Some (JObj l)) = let* its := json_obj items in let* ds := foldM load_item its [] in Ok (Dataset ds (ddel l f_items) {[1]} FMass ∅).
Proof.
  intros Hok H1 items H2. destruct (json_ok_obj _ Hok) as [Hn _]. apply (member_get l _ _ Hn) in H1, H2. unfold input_json.
  change (dget l f_type = Some (JStr v_linear)) in H1. change (dget l f_items = Some items) in H2. rewrite H1, H2.
  rewrite (proj2 (json_is_str_true (JStr v_linear) v_linear) eq_refl). reflexivity.
Qed.

Lemma ddel_get {V} (d : dict V) k k' : dict_ok d -> dget (ddel d k) k' = if decide (k' = k) then None else dget d k'.
Proof.
  unfold dict_ok. induction d as [|[k1 v1] d IH]; cbn [ddel dget fmap list_fmap fst]; intros Hn.
  - destruct (decide (k' = k)); reflexivity.
  - apply NoDup_cons in Hn as [Hk Hn]. destruct (decide (k = k1)) as [<-|H1].
    + destruct (decide (k' = k)) as [->|]; [|reflexivity]. apply dget_None, Hk.
    + cbn [dget]. rewrite (IH Hn). destruct (decide (k' = k1)) as [->|]; [|reflexivity]. rewrite decide_False by congruence. reflexivity.
Qed.

Lemma load_items_result items ds : json_ok items -> (let* its := json_obj items in foldM load_item its []) = Ok ds ->
  items_ok ds /\ (forall i, i ∈ ds.*1 <-> exists it, member items i it) /\
  (forall i c m, coding_at ds i c = Some m <-> exists it v, member items i it /\ member it c v /\ yields v m) /\
  (exists its, items = JObj its /\ forall i it, (i, it) ∈ its -> exists cs, it = JObj cs /\ forall c v, (c, v) ∈ cs -> exists m, yields v m).
Proof.
  intros Hok H. destruct items as [| | | | | |its]; cbn [json_obj bind] in H; try discriminate. destruct (json_ok_obj _ Hok) as [Hn Hsub].
  rewrite load_item_form in H. apply (load_fold_ok load_codings its ds Hn) in H.
  assert (Hinner : forall i cs, (i, cs) ∈ ds -> exists l, (i, JObj l) ∈ its /\ NoDup l.*1 /\ Forall2 (fun p q => fst p = fst q /\ json_tuple (snd p) = Ok (snd q)) l cs).
  { intros i cs Hi. assert (Hds : dict_ok ds) by (unfold dict_ok; rewrite (pairs_keys _ _ _ H); exact Hn).
    apply (dget_Some _ _ _ Hds) in Hi. pose proof (proj1 (pairs_get _ _ _ _ _ H) Hi) as (v & Hv & Hl). apply dget_elem in Hv.
    destruct (load_codings_ok v cs (Hsub _ _ Hv) Hl) as (l & -> & Hnl & F). eauto. }
  split; [|split; [|split]].
  - split; [unfold dict_ok; rewrite (pairs_keys _ _ _ H); exact Hn|]. intros i cs Hi. destruct (Hinner i cs Hi) as (l & _ & Hnl & F).
    unfold dict_ok. rewrite (pairs_keys _ _ _ F). exact Hnl.
  - intros i. rewrite (pairs_keys _ _ _ H). split.
    + intros Hi. apply dget_is_Some in Hi as [v Hv]. exists v. exists its. split; [reflexivity|apply dget_elem, Hv].
    + intros (it & l & E & Hi). injection E as <-. apply elem_of_list_fmap. exists (i, it). auto.
  - intros i c m. unfold coding_at. split.
    + destruct (dget ds i) as [cs|] eqn:E; [|discriminate]. intros Hc. destruct (Hinner i cs (dget_elem _ _ _ E)) as (l & Hl & Hnl & F).
      pose proof (proj1 (pairs_get _ _ _ _ _ F) Hc) as (v & Hv & Hm). exists (JObj l), v. split; [exists its; auto|]. split; [exists l; split; [reflexivity|apply dget_elem, Hv]|]. apply json_tuple_yields, Hm.
    + intros (it & v & (l & E & Hi) & (cs & -> & Hc) & Hm). injection E as <-.
      apply (dget_Some _ _ _ Hn) in Hi. assert (Hok' := Hsub _ _ (dget_elem _ _ _ Hi)).
      destruct (dget ds i) as [cs'|] eqn:Ed.
      * pose proof (proj1 (pairs_get _ _ _ _ _ H) Ed) as (v' & Hv' & Hl). rewrite Hi in Hv'. injection Hv' as <-.
        destruct (load_codings_ok _ _ Hok' Hl) as (l & E & Hnl & F). injection E as <-. apply (proj2 (pairs_get _ _ _ _ _ F)). exists v. split; [apply (dget_Some _ _ _ Hnl), Hc|]. apply json_tuple_yields, Hm.
      * exfalso. apply dget_None in Ed. rewrite (pairs_keys _ _ _ H) in Ed. apply Ed. apply dget_is_Some. eauto.
  - exists its. split; [reflexivity|]. intros i it Hi. apply (dget_Some _ _ _ Hn) in Hi.
    assert (Hin : i ∈ ds.*1) by (rewrite (pairs_keys _ _ _ H); apply dget_is_Some; eauto). apply dget_is_Some in Hin as [cs Hcs].
    pose proof (proj1 (pairs_get _ _ _ _ _ H) Hcs) as (v & Hv & Hl). rewrite Hi in Hv. injection Hv as <-.
    destruct (load_codings_ok it cs (Hsub _ _ (dget_elem _ _ _ Hi)) Hl) as (l & -> & Hnl & F). exists l. split; [reflexivity|].
    intros c v Hc. apply (dget_Some _ _ _ Hnl) in Hc. assert (Hic : c ∈ cs.*1) by (rewrite (pairs_keys _ _ _ F); apply dget_is_Some; eauto).
    apply dget_is_Some in Hic as [m Hm]. pose proof (proj1 (pairs_get _ _ _ _ _ F) Hm) as (v' & Hv' & Hm'). rewrite Hc in Hv'. injection Hv' as <-. exists m. apply json_tuple_yields, Hm'.
Qed.

Lemma load_items_total items : json_ok items ->
  (exists its, items = JObj its /\ forall i it, (i, it) ∈ its -> exists cs, it = JObj cs /\ forall c v, (c, v) ∈ cs -> exists m, yields v m) ->
  exists ds, (let* its := json_obj items in foldM load_item its []) = Ok ds.
Proof.
  intros Hok (its & -> & H). cbn [json_obj bind]. destruct (json_ok_obj _ Hok) as [Hn Hsub]. rewrite load_item_form. apply load_fold_total; [exact Hn|].
  intros i it Hi. destruct (H i it Hi) as (cs & -> & Hc). unfold load_codings. cbn [json_obj bind]. apply load_fold_total; [apply (json_ok_obj _ (Hsub _ _ Hi))|].
  intros c v Hv. destruct (Hc c v Hv) as [m Hm]. exists m. apply json_tuple_yields, Hm.
Qed.

Lemma load_items_err items e : json_ok items -> (let* its := json_obj items in foldM load_item its []) = Err e -> e = AttributeError \/ e = TypeError.
Proof.
  intros Hok H. destruct items as [| | | | | |its]; cbn [json_obj bind] in H; try (injection H as <-; auto).
  destruct (json_ok_obj _ Hok) as [Hn Hsub]. rewrite load_item_form in H. destruct (load_fold_err _ _ _ Hn H) as (k & v & K1 & K2).
  destruct (load_codings_err v e (Hsub _ _ K1) K2) as [[-> _]|[-> _]]; auto.
Qed.

Lemma loaded_split items l : (let* its := json_obj items in let* ds := foldM load_item its [] in Ok (Dataset ds (ddel l f_items) {[1]} FMass ∅)) =
  let* ds := (let* its := json_obj items in foldM load_item its []) in Ok (Dataset ds (ddel l f_items) {[1]} FMass ∅).
Proof. destruct (json_obj items); reflexivity. Qed.

(** The loader accepts exactly the well-formed documents of linear type. *)
Lemma input_accepts l : json_ok (JObj l) ->
  (exists r, input_json (Some (JObj l)) = Ok r) <-> member (JObj l) "segmentation_type" (JStr "linear") /\ well_formed (JObj l).
Proof.
  intros Hok. destruct (json_ok_obj _ Hok) as [Hn Hsub]. split.
  - intros [r H].
    assert (D : dget l f_type = Some (JStr v_linear) \/ dget l f_type <> Some (JStr v_linear)).
    { destruct (dget l f_type) as [t|]; [|right; discriminate]. destruct (json_is_str t v_linear) eqn:Et; [apply json_is_str_true in Et as ->; auto|].
      right. intros K. injection K as ->. rewrite (proj2 (json_is_str_true (JStr v_linear) v_linear) eq_refl) in Et. discriminate. }
    destruct D as [E1|E1].
    2:{ exfalso. rewrite input_checked in H; [discriminate|exact Hok|]. left. intros K. apply (member_get l _ _ Hn) in K. contradiction. }
    destruct (dget l f_items) as [items|] eqn:E2.
    2:{ exfalso. rewrite input_checked in H; [discriminate|exact Hok|]. right. exists l. split; [reflexivity|]. apply dget_None in E2. exact E2. }
    apply (member_get l _ _ Hn) in E1, E2. split; [exact E1|].
    rewrite (input_loaded l Hok E1 items E2), loaded_split in H.
    destruct (let* its := json_obj items in foldM load_item its []) as [ds|] eqn:E; [|discriminate].
    assert (Hoki : json_ok items) by (destruct E2 as (l' & E' & Hi); injection E' as <-; exact (Hsub _ _ Hi)).
    destruct (load_items_result items ds Hoki E) as (_ & _ & _ & its & -> & W). exists its. split; [exact E2|exact W].
  - intros [E1 (its & E2 & W)]. rewrite (input_loaded l Hok E1 (JObj its) E2), loaded_split.
    assert (Hoki : json_ok (JObj its)) by (destruct E2 as (l' & E' & Hi); injection E' as <-; exact (Hsub _ _ Hi)).
    destruct (load_items_total (JObj its) Hoki) as [ds ->]; [eauto|]. cbn [bind]. eauto.
Qed.

Lemma input_result l r : json_ok (JObj l) -> input_json (Some (JObj l)) = Ok r ->
  (forall i c m, coding_at (ds_items r) i c = Some m <-> coded_in (JObj l) i c m) /\
  (forall i, i ∈ (ds_items r).*1 <-> exists items it, member (JObj l) "items" items /\ member items i it) /\
  (forall k v, (k, v) ∈ ds_props r <-> k <> "items"%string /\ member (JObj l) k v) /\
  items_ok (ds_items r) /\ ds_coders r = ∅ /\ ds_format r = FMass.
Proof.
  intros Hok H. destruct (json_ok_obj _ Hok) as [Hn Hsub].
  destruct (proj1 (input_accepts l Hok) (ex_intro _ r H)) as [E1 (its & E2 & _)].
  rewrite (input_loaded l Hok E1 (JObj its) E2), loaded_split in H.
  assert (Hoki : json_ok (JObj its)) by (destruct E2 as (l' & E' & Hi); injection E' as <-; exact (Hsub _ _ Hi)).
  destruct (let* its := json_obj (JObj its) in foldM load_item its []) as [ds|] eqn:E; [|discriminate]. cbn [bind] in H. injection H as <-. cbn [ds_items ds_props ds_coders ds_format].
  destruct (load_items_result (JObj its) ds Hoki E) as (Hds & Hk & Hc & _).
  assert (Huniq : forall items, member (JObj l) "items" items -> items = JObj its).
  { intros items Hi. apply (member_get l _ _ Hn) in Hi. apply (member_get l _ _ Hn) in E2. congruence. }
  split; [|split; [|split; [|auto]]].
  - intros i c m. rewrite Hc. unfold coded_in. split.
    + intros (it & v & H). exists (JObj its), it, v. tauto.
    + intros (items & it & v & Hi & H). apply Huniq in Hi as ->. exists it, v. exact H.
  - intros i. rewrite Hk. split.
    + intros (it & H). exists (JObj its), it. tauto.
    + intros (items & it & Hi & H). apply Huniq in Hi as ->. exists it. exact H.
  - intros k v. rewrite (member_get l _ _ Hn). assert (Hdd : dict_ok (ddel l f_items)).
    { unfold dict_ok. clear -Hn. induction l as [|[k x] l IH]; [constructor|]. cbn [ddel]. cbn [fmap list_fmap fst] in Hn. apply NoDup_cons in Hn as [Hk Hn].
      destruct (decide (f_items = k)); [exact Hn|]. cbn [fmap list_fmap fst]. apply NoDup_cons. split; [|exact (IH Hn)].
      intros K. apply Hk. clear - K. induction l as [|[k' x'] l IH]; [exact K|]. cbn [ddel] in K. cbn [fmap list_fmap fst]. apply elem_of_cons.
      destruct (decide (f_items = k')); [right; exact K|]. cbn [fmap list_fmap fst] in K. apply elem_of_cons in K as [K|K]; [auto|]. right. exact (IH K). }
    rewrite <- (dget_Some _ _ _ Hdd), (ddel_get l f_items k Hn). unfold f_items. destruct (decide (k = "items"%string)); split; try tauto; try (intros K; discriminate).
Qed.

Lemma input_malformed l e : json_ok (JObj l) -> member (JObj l) "segmentation_type" (JStr "linear") -> ~ lacks (JObj l) "items" ->
  input_json (Some (JObj l)) = Err e -> e = AttributeError \/ e = TypeError.
Proof.
  intros Hok E1 E2 H. destruct (json_ok_obj _ Hok) as [Hn Hsub].
  assert (E3 : exists items, dget l f_items = Some items).
  { destruct (dget l f_items) eqn:E; [eauto|]. exfalso. apply E2. exists l. split; [reflexivity|]. apply dget_None, E. }
  destruct E3 as [items E3]. pose proof E3 as E4. apply (member_get l _ _ Hn) in E4. rewrite (input_loaded l Hok E1 items E4), loaded_split in H.
  apply (load_items_err items e).
  - apply dget_elem in E3. exact (Hsub _ _ E3).
  - destruct (let* its := json_obj items in foldM load_item its []); [discriminate|]. cbn [bind] in H. congruence.
Qed.
