(** Datasets: the statements of PropsData.v. *)
From Verif Require Export SpecDispatch Agreement HeapProofs JsonRound TsvProofs FolderProofs AgreementPublic.
Open Scope Z_scope.

(** The dataset with every coding turned into a segmentation. *)
Definition as_segs {C} (conv : C -> seg) (d : dataset C) : dataset seg :=
  Dataset (map (fun ic => (fst ic, map (fun cm => (fst cm, conv (snd cm))) (snd ic))) (ds_items d)) (ds_props d) (ds_types d) (ds_format d) (ds_coders d).

Section Merging.
Context {C : Type}.

Lemma merge_outcome path (a b : dataset C) : items_ok (ds_items b) ->
  (snd (iadd a b path) = None <-> ~ clash path (ds_items a) (ds_items b)) /\
  (snd (iadd a b path) = Some DataIOError <-> clash path (ds_items a) (ds_items b)).
Proof. intros H. split; [apply iadd_success, H|apply iadd_failure, H]. Qed.

Lemma merge_union path (a b r : dataset C) : items_ok (ds_items b) -> iadd a b path = (r, None) ->
  (forall j c v, coding_at (ds_items r) j c = Some v <->
     coding_at (ds_items a) j c = Some v \/ exists i, filed path i j /\ coding_at (ds_items b) i c = Some v) /\
  (forall j, j ∈ (ds_items r).*1 <-> j ∈ (ds_items a).*1 \/ exists i, filed path i j /\ i ∈ (ds_items b).*1) /\
  (forall c, c ∈ ds_coders r <-> c ∈ ds_coders a \/ codes (ds_items b) c) /\
  ds_props r = ds_props a /\ ds_types r = ds_types a /\ ds_format r = ds_format a /\ (items_ok (ds_items a) -> items_ok (ds_items r)).
Proof.
  intros Hb Hr. destruct (iadd_result _ _ _ _ Hb Hr) as [M1 M2 M3 (M4 & M5 & M6) M7]. split; [|split; [|auto 10]].
  - intros j c v. rewrite M1. split; (intros [H|(i & E & H)]; [auto|]); right; exists i; (split; [apply prefixed_filed, E|exact H]).
  - intros j. rewrite M2. split; (intros [H|(i & E & H)]; [auto|]); right; exists i; (split; [apply prefixed_filed, E|exact H]).
Qed.

Lemma merge_covers path (a b r : dataset C) : items_ok (ds_items b) -> iadd a b path = (r, None) ->
  (forall c, c ∈ ds_coders a <-> codes (ds_items a) c) -> forall c, c ∈ ds_coders r <-> codes (ds_items r) c.
Proof.
  intros Hb Hr Ha c. destruct (iadd_result _ _ _ _ Hb Hr) as [M1 _ M3 _ _]. rewrite M3, Ha. unfold codes. split.
  - intros [(i & v & H)|(i & v & H)].
    + exists i, v. apply M1. auto.
    + exists (prefixed path i), v. apply M1. eauto.
  - intros (j & v & H). apply M1 in H as [H|(i & _ & H)]; [left|right]; eauto.
Qed.

(** A dataset built in memory knows exactly the coders there are. *)
Lemma all_coders_elem (items : dict (dict C)) c : items_ok items -> c ∈ all_coders items <-> codes items c.
Proof.
  intros [H1 H2]. unfold all_coders, codes. rewrite elem_of_union_list. split.
  - intros (s & Hs & Hc). apply elem_of_list_fmap in Hs as (cs & -> & Hcs). apply elem_of_list_fmap in Hcs as ([i cs'] & E & Hi). cbn in E. subst cs'.
    apply elem_of_list_to_set, dget_is_Some in Hc as [v Hv]. exists i, v. unfold coding_at. rewrite (proj2 (dget_Some _ _ _ H1) Hi). exact Hv.
  - intros (i & v & H). unfold coding_at in H. destruct (dget items i) as [cs|] eqn:E; [|discriminate]. exists (list_to_set cs.*1). split.
    + apply elem_of_list_fmap. exists cs. split; [reflexivity|]. apply elem_of_list_fmap. exists (i, cs). split; [reflexivity|apply dget_elem, E].
    + apply elem_of_list_to_set, dget_is_Some. eauto.
Qed.

Lemma built_coders (items : dict (dict C)) p ty f : items_ok items ->
  ds_items (new_dataset (Some items) p ty f) = items /\ forall c, c ∈ ds_coders (new_dataset (Some items) p ty f) <-> codes items c.
Proof.
  intros H. unfold new_dataset. cbn [ds_items ds_coders default]. change (id items) with items. rewrite dupdate_nodup; [|exact (proj1 H)]. cbn [app].
  split; [reflexivity|]. intros c. apply all_coders_elem, H.
Qed.
End Merging.

Section Agreeing.
Context {C : Type} (conv : C -> seg).

Lemma no_coders A cmp f cord rp (d : dataset C) : lord_ok cord -> ds_coders d = ∅ ->
  actual_agreement_linear A cmp f cord (CDataset (as_segs conv d)) = Err ZeroDivisionError /\
  (exists e, fleiss_pi_linear A cmp f cord rp (CDataset (as_segs conv d)) = Err e) /\
  (exists e, fleiss_kappa_linear A cmp f cord rp (CDataset (as_segs conv d)) = Err e) /\
  (exists e, artstein_poesio_bias_linear A cmp f cord rp (CDataset (as_segs conv d)) = Err e).
Proof.
  intros HL H. assert (HS : (size (c_coders (CDataset (as_segs conv d))) <= 1)%nat) by (cbn; rewrite H; cbn; rewrite size_empty; lia).
  destruct (guard_one_coder A cmp f cord rp _ HL HS) as (H1 & H2 & H3). split; [exact H1|].
  split; [destruct H2 as [-> | ->]; eauto|]. split; [destruct H3 as [-> | ->]; eauto|].
  unfold artstein_poesio_bias_linear, bias_full. unfold fleiss_pi_linear in H2.
  destruct (pi_full A cmp _ _ _) as [[[x y] z]|e]; [|eauto]. cbn in H2. destruct H2; discriminate.
Qed.

Lemma built_agrees A cmp f f' cord rp (items : dict (dict seg)) p ty : items_ok items ->
  let d := CDataset (new_dataset (Some items) p ty f) in
  actual_agreement_linear A cmp f' cord d = actual_agreement_linear A cmp f cord (CDict items) /\
  fleiss_pi_linear A cmp f' cord rp d = fleiss_pi_linear A cmp f cord rp (CDict items) /\
  fleiss_kappa_linear A cmp f' cord rp d = fleiss_kappa_linear A cmp f cord rp (CDict items) /\
  artstein_poesio_bias_linear A cmp f' cord rp d = artstein_poesio_bias_linear A cmp f cord rp (CDict items).
Proof.
  intros H d. assert (E : ds_items (new_dataset (Some items) p ty f) = items) by (apply built_coders, H).
  assert (E' : ds_coders (new_dataset (Some items) p ty f) = all_coders items).
  { unfold new_dataset. cbn [ds_coders default]. change (id items) with items. rewrite dupdate_nodup; [reflexivity|exact (proj1 H)]. }
  unfold d, actual_agreement_linear, fleiss_pi_linear, fleiss_kappa_linear, artstein_poesio_bias_linear. cbn [c_format c_coders c_items]. rewrite E, E'. auto.
Qed.
End Agreeing.

Lemma json_loaded_fails A cmp f cord rp (conv : list json -> seg) doc r : lord_ok cord -> input_json doc = Ok r ->
  actual_agreement_linear A cmp f cord (CDataset (as_segs conv r)) = Err ZeroDivisionError /\
  (exists e, fleiss_pi_linear A cmp f cord rp (CDataset (as_segs conv r)) = Err e) /\
  (exists e, fleiss_kappa_linear A cmp f cord rp (CDataset (as_segs conv r)) = Err e) /\
  (exists e, artstein_poesio_bias_linear A cmp f cord rp (CDataset (as_segs conv r)) = Err e).
Proof.
  intros HL H. apply no_coders; [exact HL|]. unfold input_json in H. destruct doc as [[| | | |s|l|l]|]; try discriminate.
  - destruct (str_contains f_type s); discriminate.
  - destruct (existsb (fun j => json_is_str j f_type) l); discriminate.
  - destruct (dget l f_type) as [t|]; [|discriminate]. destruct (negb (json_is_str t v_linear)); [discriminate|]. destruct (dget l f_items) as [it|]; [|discriminate].
    destruct (json_obj it) as [its|]; [|discriminate]. cbn [bind] in H. destruct (foldM load_item its []); [|discriminate]. cbn [bind] in H. injection H as <-. reflexivity.
Qed.

Lemma tsv_loaded_fails A cmp f cord rp (conv : list Z -> seg) item rows r : lord_ok cord -> input_tsv item rows = Ok r ->
  actual_agreement_linear A cmp f cord (CDataset (as_segs conv r)) = Err ZeroDivisionError /\
  (exists e, fleiss_pi_linear A cmp f cord rp (CDataset (as_segs conv r)) = Err e) /\
  (exists e, fleiss_kappa_linear A cmp f cord rp (CDataset (as_segs conv r)) = Err e) /\
  (exists e, artstein_poesio_bias_linear A cmp f cord rp (CDataset (as_segs conv r)) = Err e).
Proof.
  intros HL H. apply no_coders; [exact HL|]. unfold input_tsv in H. destruct (foldM tsv_row (tail rows) []); [|discriminate]. cbn [bind] in H. injection H as <-. reflexivity.
Qed.

(** Addition on the heap: the value of the sum is the union. *)
Lemma add_union {C} (h : heap C) a b h' r : live h a -> live h b -> dict_ok (hd_items a) -> unshared a -> items_ok (ds_items (view h b)) ->
  h_add h a b = (h', Ok r) ->
  forall i c v, coding_at (ds_items (view h' r)) i c = Some v <-> coding_at (ds_items (view h a)) i c = Some v \/ coding_at (ds_items (view h b)) i c = Some v.
Proof.
  intros La Lb Oa Hu Hb H i c v. pose proof (add_view _ _ _ _ _ H La Oa Lb Hu) as V. unfold ds_add in V. destruct (iadd (view h a) (view h b) None) as [d [e|]] eqn:E; [discriminate|].
  cbn [rmap] in V. injection V as V. rewrite V. destruct (iadd_result _ _ _ _ Hb E) as [M _ _ _ _]. rewrite M. split.
  - intros [K|(i' & -> & K)]; auto.
  - intros [K|K]; [auto|]. right. exists i. auto.
Qed.

Lemma add_outcome {C} (h : heap C) a b h' r : live h a -> live h b -> dict_ok (hd_items a) -> unshared a -> items_ok (ds_items (view h b)) ->
  h_add h a b = (h', r) ->
  ((exists d, r = Ok d) <-> ~ clash None (ds_items (view h a)) (ds_items (view h b))) /\
  (r = Err DataIOError <-> clash None (ds_items (view h a)) (ds_items (view h b))).
Proof.
  intros La Lb Oa Hu Hb H. pose proof (add_view _ _ _ _ _ H La Oa Lb Hu) as V. unfold ds_add in V.
  pose proof (iadd_success None (view h a) (view h b) Hb) as S. pose proof (iadd_failure None (view h a) (view h b) Hb) as F.
  destruct (iadd (view h a) (view h b) None) as [d [e|]] eqn:E; cbn [snd] in S, F.
  - destruct r as [r|e']; [discriminate|]. cbn [rmap] in V. injection V as ->. split.
    + rewrite <- S. split; [intros [? K]; discriminate|discriminate].
    + rewrite <- F. split; congruence.
  - destruct r as [r|e']; [|discriminate]. split.
    + rewrite <- S. split; [reflexivity|eauto].
    + rewrite <- F. split; discriminate.
Qed.

Lemma add_leaves {C} (h : heap C) a b h' r : live h a -> live h b -> dict_ok (hd_items a) -> h_add h a b = (h', r) ->
  forall x, live h x -> view h' x = view h x.
Proof.
  intros La Lb Oa H x Lx. destruct (add_frame _ _ _ _ _ H La Oa Lb) as [F1 F2]. apply view_same; [exact Lx| |].
  - intros l Hl. apply F1, (proj1 Lx), Hl.
  - apply F2, (proj2 Lx).
Qed.

Lemma iadd_leaves {C} (h : heap C) a b path h' a' e : live h a -> live h b -> h_iadd h a b path = (h', a', e) ->
  forall x, live h x -> apart a x -> hd_coders x <> hd_coders a -> view h' x = view h x.
Proof.
  intros La Lb H x Lx Hap Hc. destruct (iadd_frame _ _ _ _ _ _ _ H La Lb) as [F1 F2]. apply view_same; [exact Lx| |].
  - intros l Hl. apply F1; [apply (proj1 Lx), Hl|]. intros K. exact (Hap l K Hl).
  - apply F2; [apply (proj2 Lx)|exact Hc].
Qed.

(** Folders with distinct stems. *)
Lemma nested_all {C} t (entries : list (string * node C)) r : tree_ok entries -> loads_ok entries -> stems_distinct t entries ->
  load_nested_folders t entries = Ok r ->
  forall j c v, coding_at (ds_items r) j c = Some v <->
    exists path sub name o i, dir_at entries path sub /\ (name, NFile (Ok o)) ∈ sub /\ accepted t name = true /\ filed (Some path) i j /\ coding_at (ds_items o) i c = Some v.
Proof.
  intros Ht Hl Hs H j c v. destruct (nested_result t entries Ht Hl r H) as (_ & R & _). rewrite R. split.
  - intros (path & name & o & i & (sub & D & K) & F & Hc). exists path, sub, name, o, i. split; [exact D|]. split; [exact (kept_listed t sub name _ K)|]. split; [|auto].
    destruct K as (? & ? & _ & K & _). exact K.
  - intros (path & sub & name & o & i & D & Hin & Ha & F & Hc). exists path, name, o, i. split; [|auto]. exists sub. split; [exact D|]. exact (all_taken t entries Hs path sub name _ D Hin Ha).
Qed.
