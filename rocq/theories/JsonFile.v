(** JSON files: the loader and the writer on the text of the file. *)
From Coq Require Import String.
From Verif Require Import SpecJson DictProofs DataProofs JsonProofs JsonRound JsonLex JsonParse JsonPrint CsvProofs CsvMain.
Open Scope Z_scope.

(** ** Where the model stops *)

Lemma beyond_suffix p t : beyond t -> beyond (p ++ t).
Proof. intros (pre & w & post & -> & H). exists (p ++ pre), w, post. split; [rewrite <- app_assoc; reflexivity|exact H]. Qed.
Lemma beyond_cons c t : beyond t -> beyond (c :: t).
Proof. apply (beyond_suffix [c]). Qed.
Lemma beyond_skip t : beyond (skip_ws t) -> beyond t.
Proof. intros H. destruct (skip_split t) as (w & _ & E & _). rewrite E. apply beyond_suffix, H. Qed.
Lemma on_value_beyond {A B} (f : A -> B) o : on_value f o = Beyond -> o = Beyond.
Proof. destruct o; [discriminate|discriminate|reflexivity]. Qed.

Lemma string_beyond t : scan_string t = Beyond -> beyond t.
Proof.
  enough (K : forall n t, (List.length t <= n)%nat -> scan_string t = Beyond -> beyond t) by exact (K _ t (le_n _)).
  clear. intros n. induction n as [|n IH]; intros t Hn H; [destruct t; [discriminate|cbn in Hn; lia]|].
  destruct t as [|c t]; [discriminate|]. cbn [List.length] in Hn. cbn [scan_string] in H.
  destruct (bool_decide_reflect (c = c_quote)) as [->|Dq]; [discriminate|].
  destruct (bool_decide_reflect (c = c_backslash)) as [->|Db].
  - destruct t as [|e t]; [discriminate|]. cbn [List.length] in Hn. destruct (bool_decide_reflect (e = c_u)) as [->|Du].
    + destruct t as [|h1 [|h2 [|h3 [|h4 t]]]]; try discriminate. cbn [List.length] in Hn.
      destruct (hex_value h1) as [z1|] eqn:E1; [|discriminate]. destruct (hex_value h2) as [z2|] eqn:E2; [|discriminate].
      destruct (hex_value h3) as [z3|] eqn:E3; [|discriminate]. destruct (hex_value h4) as [z4|] eqn:E4; [|discriminate].
      destruct (Z.leb_spec (((z1 * 16 + z2) * 16 + z3) * 16 + z4) 255) as [L|L].
      * apply on_value_beyond in H. do 6 apply beyond_cons. apply IH; [lia|exact H].
      * exists [], [c_backslash; c_u; h1; h2; h3; h4], t. split; [reflexivity|]. right. right. exists h1, h2, h3, h4, z1, z2, z3, z4. split; [reflexivity|].
        repeat (split; [apply hex_spec; assumption|]). lia.
    + destruct (unescape e) as [x|]; [|discriminate]. apply on_value_beyond in H. do 2 apply beyond_cons. apply IH; [lia|exact H].
  - destruct (Z.leb_spec (code c) 31) as [L|L]; [discriminate|]. apply on_value_beyond in H. apply beyond_cons, IH; [lia|exact H].
Qed.

Lemma finish_beyond neg u r : finish neg u r <> Beyond.
Proof.
  unfold finish. destruct (scan_frac r) as [[fr r1]|]; [destruct (scan_exp r1) as [[e r2]|]; discriminate|]. destruct (scan_exp r) as [[e r2]|]; discriminate.
Qed.
Lemma unsigned_beyond neg t : scan_unsigned neg t <> Beyond.
Proof.
  destruct t as [|c t]; [discriminate|]. cbn [scan_unsigned]. destruct (bool_decide (c = c_zero)); [apply (finish_beyond neg [c] t)|].
  destruct (is_digit c); [|discriminate]. destruct (span_digits (c :: t)) as [d r]. apply (finish_beyond neg d r).
Qed.

Lemma atom_beyond t : scan_atom t = Beyond -> beyond t.
Proof.
  unfold scan_atom. destruct (drop_word (chars "null") t); [discriminate|]. destruct (drop_word (chars "true") t); [discriminate|]. destruct (drop_word (chars "false") t); [discriminate|].
  destruct (drop_word (chars "NaN") t) as [x|] eqn:E1; [intros _; apply strip_spec in E1; exists [], (chars "NaN"), x; auto|].
  destruct (drop_word (chars "Infinity") t) as [x|] eqn:E2; [intros _; apply strip_spec in E2; exists [], (chars "Infinity"), x; auto|].
  destruct (drop_word (chars "-Infinity") t) as [x|] eqn:E3; [intros _; apply strip_spec in E3; exists [c_minus], (chars "Infinity"), x; auto|].
  destruct t as [|c t]; [discriminate|]. destruct (bool_decide (c = c_minus)); intros H; exfalso; exact (unsigned_beyond _ _ H).
Qed.

Lemma scan_beyond : forall fuel,
  (forall t, scan fuel t = Beyond -> beyond t) /\ (forall t, scan_items fuel t = Beyond -> beyond t) /\ (forall t, scan_members fuel t = Beyond -> beyond t).
Proof.
  induction fuel as [|fuel (IH & IHi & IHm)]; [repeat split; intros; discriminate|]. split; [|split].
  - intros [|c t] H; [discriminate|]. cbn [scan] in H. destruct (bool_decide (c = c_quote)); [apply on_value_beyond in H; apply beyond_cons, string_beyond, H|].
    destruct (bool_decide (c = c_lbracket)).
    { apply beyond_cons, beyond_skip. destruct (skip_ws t) as [|d x]; [discriminate|]. destruct (bool_decide (d = c_rbracket)); [discriminate|]. apply on_value_beyond in H. apply IHi, H. }
    destruct (bool_decide (c = c_lbrace)).
    { apply beyond_cons, beyond_skip. destruct (skip_ws t) as [|d x]; [discriminate|]. destruct (bool_decide (d = c_rbrace)); [discriminate|]. apply on_value_beyond in H. apply IHm, H. }
    apply atom_beyond, H.
  - intros t H. cbn [scan_items] in H. destruct (scan fuel t) as [j r| |] eqn:E; [|discriminate|apply IH, E]. apply (proj1 (scan_sound fuel)) in E as (u & -> & _).
    apply beyond_suffix, beyond_skip. destruct (skip_ws r) as [|c x]; [discriminate|]. destruct (bool_decide (c = c_rbracket)); [discriminate|]. destruct (bool_decide (c = c_comma)); [|discriminate].
    apply on_value_beyond in H. apply beyond_cons, beyond_skip, IHi, H.
  - intros [|q t] H; [discriminate|]. cbn [scan_members] in H. destruct (bool_decide (q = c_quote)); [|discriminate]. apply beyond_cons.
    destruct (scan_string t) as [k r1| |] eqn:Es; [|discriminate|apply string_beyond, Es]. apply string_sound in Es as (kt & -> & _). apply beyond_suffix, beyond_cons, beyond_skip.
    destruct (skip_ws r1) as [|col r2]; [discriminate|]. destruct (bool_decide (col = c_colon)); [|discriminate]. apply beyond_cons, beyond_skip.
    destruct (scan fuel (skip_ws r2)) as [j r3| |] eqn:Ej; [|discriminate|apply IH, Ej]. apply (proj1 (scan_sound fuel)) in Ej as (u & -> & _). apply beyond_suffix, beyond_skip.
    destruct (skip_ws r3) as [|c r4]; [discriminate|]. destruct (bool_decide (c = c_rbrace)); [discriminate|]. destruct (bool_decide (c = c_comma)); [|discriminate].
    apply on_value_beyond in H. apply beyond_cons, beyond_skip, IHm, H.
Qed.

Theorem loads_unknown t : loads t = Unknown -> beyond t.
Proof.
  unfold loads. destruct (scan _ (skip_ws t)) as [j r| |] eqn:E; [destruct (skip_ws r); discriminate|discriminate|]. intros _. apply beyond_skip. apply (proj1 (scan_beyond _) _ E).
Qed.

Theorem loads_rejected t : loads t = Rejected -> forall j, ~ document j t.
Proof. intros H j K. apply loads_spec in K. congruence. Qed.

Theorem loads_known t : ~ beyond t -> (exists j, loads t = Loaded j /\ document j t) \/ (loads t = Rejected /\ forall j, ~ document j t).
Proof.
  intros H. destruct (loads t) as [j| |] eqn:E; [left; exists j; split; [reflexivity|apply loads_spec, E]|right; split; [reflexivity|apply loads_rejected, E]|].
  exfalso. apply H, loads_unknown, E.
Qed.

(** ** Documents have no key twice *)

Lemma text_json_ok :
  (forall j t, json_text j t -> json_ok j) /\ (forall l t, items_text l t -> json_ok (JArr l)) /\ (forall ms t, members_text ms t -> forall k v, (k, v) ∈ ms -> json_ok v).
Proof.
  apply text_rules; try (intros; exact I).
  - intros w l t _ _ H. exact H.
  - intros w _. split; [constructor|exact I].
  - intros w ms l t _ _ H [Hk Hl]. apply json_ok_intro; [rewrite Hk; apply first_nodup|]. intros k v Hv. apply (H k). apply Hl in Hv as (pre & post & -> & _). apply elem_of_app. right. left.
  - intros j t w _ H _. split; [exact H|exact I].
  - intros j t w w' l u _ H _ _ _ H'. split; [exact H|exact H'].
  - intros k kt w w' j t w1 _ _ _ _ H _ k' v Hv. apply elem_of_list_singleton in Hv. injection Hv as -> ->. exact H.
  - intros k kt w w' j t w1 w2 l u _ _ _ _ H _ _ _ H' k' v Hv. apply elem_of_cons in Hv as [Hv|Hv]; [injection Hv as -> ->; exact H|exact (H' k' v Hv)].
Qed.
Lemma document_ok j t : document j t -> json_ok j.
Proof. intros (w & u & w' & _ & H & _ & _). apply (proj1 text_json_ok j u H). Qed.

(** ** The loader *)

Lemma read_document t j : document j (translate t) -> read_json t = Some (input_json (Some j)).
Proof. intros H. apply loads_spec in H. unfold read_json. rewrite H. reflexivity. Qed.

Lemma input_object j r : input_json j = Ok r -> exists l, j = Some (JObj l).
Proof.
  destruct j as [[| | | |s|l|l]|]; try discriminate; [..|eauto]; cbn; [destruct (str_contains _ _)|destruct (existsb _ _)]; discriminate.
Qed.

Theorem read_accepts t : (exists r, read_json t = Some (Ok r)) <->
  exists l, document (JObj l) (translate t) /\ member (JObj l) "segmentation_type" (JStr "linear") /\ well_formed (JObj l).
Proof.
  split.
  - intros (r & H). unfold read_json in H. destruct (loads (translate t)) as [j| |] eqn:E; [|discriminate|discriminate]. assert (H' : input_json (Some j) = Ok r) by congruence. clear H. rename H' into H. apply loads_spec in E.
    destruct (input_object _ _ H) as (l & El). injection El as ->. exists l. split; [exact E|]. apply input_accepts; [apply (document_ok _ _ E)|]. eauto.
  - intros (l & E & H). rewrite (read_document t _ E). apply input_accepts in H as (r & H); [|apply (document_ok _ _ E)]. exists r. rewrite H. reflexivity.
Qed.

Theorem read_codings t l r : document (JObj l) (translate t) -> read_json t = Some (Ok r) ->
  (forall i c m, coding_at (ds_items r) i c = Some m <-> coded_in (JObj l) i c m) /\
  (forall i, i ∈ (ds_items r).*1 <-> exists items it, member (JObj l) "items" items /\ member items i it) /\
  (forall k v, (k, v) ∈ ds_props r <-> k <> "items"%string /\ member (JObj l) k v) /\
  items_ok (ds_items r) /\ ds_coders r = ∅ /\ ds_format r = FMass.
Proof. intros E H. rewrite (read_document t _ E) in H. apply (input_result l r (document_ok _ _ E)). congruence. Qed.

Theorem read_rejects t : ~ beyond (translate t) -> (forall j, ~ document j (translate t)) -> read_json t = Some (Err DataIOError).
Proof.
  intros H1 H2. destruct (loads_known _ H1) as [(j & _ & K)|[K _]]; [exfalso; exact (H2 j K)|]. unfold read_json. rewrite K. reflexivity.
Qed.

Lemma input_errors j e : (forall x, j = Some x -> json_ok x) -> input_json j = Err e -> e = DataIOError \/ e = AttributeError \/ e = TypeError.
Proof.
  intros Hok H. destruct j as [[| | | |s|l|l]|]; cbn in H; try (injection H as <-; auto).
  - destruct (str_contains _ _); injection H as <-; auto.
  - destruct (existsb _ _); injection H as <-; auto.
  - assert (K : json_ok (JObj l)) by (apply Hok; reflexivity). change (input_json (Some (JObj l)) = Err e) in H.
    destruct (decide (e = DataIOError)) as [->|D]; [auto|]. right. apply (input_malformed l e K).
    + destruct (dget l f_type) as [t|] eqn:Et; [|cbn in H; rewrite Et in H; congruence]. cbn in H. rewrite Et in H. destruct (json_is_str t v_linear) eqn:Ej; cbn in H; [|congruence].
      apply json_is_str_true in Ej. subst t. exists l. split; [reflexivity|]. apply dget_elem, Et.
    + intros (l' & El & Hk). injection El as <-. apply dget_None in Hk. cbn in H. destruct (dget l f_type) as [t|]; [|congruence]. destruct (negb _); [congruence|].
      change f_items with "items"%string in H. rewrite Hk in H. congruence.
    + exact H.
Qed.

Theorem read_errors t e : read_json t = Some (Err e) -> e = DataIOError \/ e = AttributeError \/ e = TypeError.
Proof.
  unfold read_json. destruct (loads (translate t)) as [j| |] eqn:E; intros H; [|cbn in H; injection H as <-; auto|discriminate]. apply (input_errors (Some j)); [|congruence].
  intros x Ex. injection Ex as <-. apply loads_spec in E. exact (document_ok _ _ E).
Qed.

(** ** Writing and reading *)

Lemma printable_no_cr t : printable t -> no_cr t.
Proof. intros H. eapply Forall_impl; [exact H|]. intros c [->|B] E; [discriminate|]. cbn in E. subst c. vm_compute in B. destruct B as [B _]. apply B. reflexivity. Qed.

Lemma floats_obj frepr l : floats_ok frepr (JObj l) <-> forall k v, (k, v) ∈ l -> floats_ok frepr v.
Proof.
  cbn. induction l as [|[k x] l IH]; [split; [intros _ k v H; apply elem_of_nil in H; contradiction|auto]|]. split.
  - intros [H1 H2] k' v Hv. apply elem_of_cons in Hv as [E|Hv]; [injection E as -> ->; exact H1|exact (proj1 IH H2 k' v Hv)].
  - intros H. split; [apply (H k); left|]. apply IH. intros k' v Hv. apply (H k'). right. exact Hv.
Qed.

Lemma floats_masses frepr m : is_masses m -> floats_ok frepr (JArr m).
Proof. intros [z ->]. cbn. induction z as [|x z IH]; [exact I|]. split; [exact I|exact IH]. Qed.

Section Written.
Context (frepr : Q -> text) (d : dataset (list json)).
Hypothesis Hitems : items_ok (ds_items d).
Hypothesis Hmasses : forall i c m, coding_at (ds_items d) i c = Some m -> is_masses m.
Hypothesis Hprops : json_ok (JObj (ds_props d)).
Hypothesis Hfloats : floats_ok frepr (JObj (ds_props d)).

Lemma output_ok : json_ok (output_json d).
Proof using Hitems Hmasses Hprops. rewrite doc_eq. apply doc_ok; assumption. Qed.

Lemma output_floats : floats_ok frepr (output_json d).
Proof using Hitems Hmasses Hprops Hfloats.
  rewrite doc_eq. apply floats_obj. intros k v Hv. apply (dget_Some _ _ _ (doc_ok_keys d)) in Hv. rewrite (doc_get d Hprops) in Hv.
  destruct (dget (ds_props d) k) as [v'|] eqn:E.
  - injection Hv as ->. apply dget_elem in E. exact (proj1 (floats_obj frepr _) Hfloats k v E).
  - cbn in Hv. destruct (decide (k = f_type)); [injection Hv as <-; exact I|]. destruct (decide (k = f_items)); [|discriminate]. injection Hv as <-.
    apply floats_obj. intros i x Hx. apply elem_of_list_fmap in Hx as ([i' cs] & E' & Hi). injection E' as -> ->. apply floats_obj. intros c m Hm.
    apply elem_of_list_fmap in Hm as ([c' ms] & E' & Hc). injection E' as -> ->. apply floats_masses. apply (Hmasses i' c').
    unfold coding_at. rewrite (proj2 (dget_Some _ _ _ (proj1 Hitems)) Hi). apply (dget_Some _ _ _ (proj2 Hitems _ _ Hi)), Hc.
Qed.

Theorem written_document : document (dump_load (output_json d)) (written frepr d) /\ printable (written frepr d).
Proof using Hitems Hmasses Hprops Hfloats.
  split; [apply dumps_document; [apply output_ok|apply output_floats]|apply print_printable, output_floats].
Qed.

Theorem written_read : read_json (written frepr d) = Some (input_json (Some (dump_load (output_json d)))).
Proof using Hitems Hmasses Hprops Hfloats.
  destruct written_document as [H1 H2]. apply read_document. rewrite translate_no_cr by (apply printable_no_cr, H2). exact H1.
Qed.

Theorem file_round_trip : "items"%string ∉ (ds_props d).*1 ->
  (dget (ds_props d) "segmentation_type" = None \/ dget (ds_props d) "segmentation_type" = Some (JStr "linear")) ->
  exists r, read_json (written frepr d) = Some (Ok r) /\
    (forall i c, coding_at (ds_items r) i c = coding_at (ds_items d) i c) /\
    (forall i, i ∈ (ds_items r).*1 <-> i ∈ (ds_items d).*1) /\ items_ok (ds_items r) /\
    (forall k v, k <> "segmentation_type"%string -> (k, v) ∈ ds_props d -> exists v', (k, v') ∈ ds_props r /\ same_json v v') /\
    (forall k v', (k, v') ∈ ds_props r -> k = "segmentation_type"%string /\ v' = JStr "linear" \/ exists v, (k, v) ∈ ds_props d /\ same_json v v') /\
    ("segmentation_type"%string, JStr "linear") ∈ ds_props r /\
    ds_coders r = ∅ /\ ds_format r = FMass.
Proof using Hitems Hmasses Hprops Hfloats.
  intros H1 H2. destruct (round_trip d Hitems Hmasses Hprops H1 H2) as (r & E & H). exists r. split; [rewrite written_read, E; reflexivity|exact H].
Qed.
End Written.

(** ** The file does not depend on the order of insertion *)

Lemma same_obj_intro l l' : NoDup l.*1 -> NoDup l'.*1 -> (forall k, k ∈ l.*1 <-> k ∈ l'.*1) ->
  (forall k v v', (k, v) ∈ l -> (k, v') ∈ l' -> same_json v v') -> same_json (JObj l) (JObj l').
Proof.
  intros N1 N2 HK HV.
  set (g := fun kv : string * json => (fst kv, match dget l' (fst kv) with Some v => v | None => snd kv end)).
  apply (same_obj l (g <$> l)).
  - assert (K : forall k v, (k, v) ∈ l -> same_json v (snd (g (k, v)))).
    { intros k v H. cbn. destruct (dget l' k) as [v'|] eqn:E; [|apply same_refl]. apply dget_elem in E. exact (HV k v v' H E). }
    clear -K. induction l as [|[k v] l IH]; [constructor|]. constructor; [split; [reflexivity|apply (K k); left]|]. apply IH. intros k' v' H. apply (K k'). right. exact H.
  - assert (Kf : (g <$> l).*1 = l.*1) by (rewrite <- list_fmap_compose; reflexivity).
    apply NoDup_Permutation.
    + apply (NoDup_fmap_1 fst). rewrite Kf. exact N1.
    + apply (NoDup_fmap_1 fst). exact N2.
    + intros [k v]. split.
      * intros H. apply elem_of_list_fmap in H as ([k' v'] & E & H). injection E as -> ->.
        assert (Hk : k' ∈ l'.*1) by (apply HK; apply elem_of_list_fmap; exists (k', v'); auto). cbn. destruct (dget l' k') as [x|] eqn:E; [apply dget_elem, E|]. apply dget_None in E. contradiction.
      * intros H. assert (Hk : k ∈ l.*1) by (apply HK; apply elem_of_list_fmap; exists (k, v); auto). apply elem_of_list_fmap in Hk as ([k' v'] & E & H'). cbn in E. subst k'.
        apply elem_of_list_fmap. exists (k, v'). split; [|exact H']. unfold g. cbn. rewrite (proj2 (dget_Some l' k v N2) H). reflexivity.
Qed.

Lemma same_obj_get l l' k : NoDup l.*1 -> same_json (JObj l) (JObj l') ->
  match dget l k, dget l' k with Some v, Some v' => same_json v v' | None, None => True | _, _ => False end.
Proof.
  intros N H. inversion H as [j|?|? l1 ? F Hp]; subst.
  - destruct (dget l' k); [apply same_refl|exact I].
  - assert (E : l1.*1 = l.*1). { clear -F. induction F as [|p q l l1 [E _] _ IH]; [reflexivity|]. cbn. rewrite E, IH. reflexivity. }
    assert (N1 : NoDup l1.*1) by (rewrite E; exact N). rewrite (dget_perm_eq l1 l' k N1 Hp).
    clear -F. induction F as [|[k1 v1] [k2 v2] l l1 [E S] _ IH]; [exact I|]. cbn in E, S. subst k2. cbn. destruct (decide (k = k1)); [exact S|exact IH].
Qed.

Lemma not_None_dget {V} (l : dict V) k : dget l k <> None <-> k ∈ l.*1.
Proof.
  rewrite dget_None. split; [|intros H K; contradiction]. intros H. destruct (decide (k ∈ l.*1)) as [K|K]; [exact K|contradiction].
Qed.

Theorem written_canonical frepr d d' : items_ok (ds_items d) -> items_ok (ds_items d') ->
  (forall i c m, coding_at (ds_items d) i c = Some m -> is_masses m) ->
  (forall i, i ∈ (ds_items d).*1 <-> i ∈ (ds_items d').*1) -> (forall i c, coding_at (ds_items d) i c = coding_at (ds_items d') i c) ->
  json_ok (JObj (ds_props d)) -> json_ok (JObj (ds_props d')) -> same_json (JObj (ds_props d)) (JObj (ds_props d')) ->
  written frepr d = written frepr d'.
Proof.
  intros I1 I2 HM HK HC P1 P2 HP. apply dumps_same; [apply output_ok; assumption|]. rewrite !doc_eq. apply same_obj_intro; [apply doc_ok_keys|apply doc_ok_keys| |].
  - intros k. rewrite <- !not_None_dget. rewrite (doc_get d P1), (doc_get d' P2). pose proof (same_obj_get _ _ k (proj1 P1) HP) as S.
    destruct (dget (ds_props d) k), (dget (ds_props d') k); try contradiction; [split; discriminate|]. cbn. destruct (decide (k = f_type)); [split; discriminate|]. destruct (decide (k = f_items)); [split; discriminate|reflexivity].
  - intros k v v' Hv Hv'. apply (dget_Some _ _ _ (doc_ok_keys d)) in Hv. apply (dget_Some _ _ _ (doc_ok_keys d')) in Hv'. rewrite (doc_get d P1) in Hv. rewrite (doc_get d' P2) in Hv'.
    pose proof (same_obj_get _ _ k (proj1 P1) HP) as S. destruct (dget (ds_props d) k), (dget (ds_props d') k); try contradiction; [injection Hv as <-; injection Hv' as <-; exact S|].
    cbn in Hv, Hv'. destruct (decide (k = f_type)); [injection Hv as <-; injection Hv' as <-; apply same_refl|]. destruct (decide (k = f_items)); [|discriminate]. injection Hv as <-. injection Hv' as <-.
    unfold doc_items. apply same_obj_intro.
    + rewrite (keys_fmap (fun cs : dict (list json) => JObj ((fun '(c, m) => (c, JArr m)) <$> cs))). apply I1.
    + rewrite (keys_fmap (fun cs : dict (list json) => JObj ((fun '(c, m) => (c, JArr m)) <$> cs))). apply I2.
    + intros i. rewrite !(keys_fmap (fun cs : dict (list json) => JObj ((fun '(c, m) => (c, JArr m)) <$> cs))). apply HK.
    + intros i x x' Hx Hx'. apply elem_of_list_fmap in Hx as ([i1 cs] & E1 & Hi). apply elem_of_list_fmap in Hx' as ([i2 cs'] & E2 & Hi'). injection E1 as -> ->. injection E2 as <- ->.
      pose proof (proj2 I1 _ _ Hi) as N1. pose proof (proj2 I2 _ _ Hi') as N2.
      assert (G : forall c, dget cs c = dget cs' c).
      { intros c. specialize (HC i1 c). unfold coding_at in HC. rewrite (proj2 (dget_Some _ _ _ (proj1 I1)) Hi), (proj2 (dget_Some _ _ _ (proj1 I2)) Hi') in HC. exact HC. }
      apply same_obj_intro; [rewrite (keys_fmap JArr); exact N1|rewrite (keys_fmap JArr); exact N2| |].
      * intros c. rewrite !(keys_fmap JArr), <- !not_None_dget, G. reflexivity.
      * intros c y y' Hy Hy'. apply elem_of_list_fmap in Hy as ([c1 m] & E1 & Hc). apply elem_of_list_fmap in Hy' as ([c2 m'] & E2 & Hc'). injection E1 as -> ->. injection E2 as <- ->.
        assert (m = m') as ->; [|apply same_refl]. apply (dget_Some _ _ _ N1) in Hc. apply (dget_Some _ _ _ N2) in Hc'. rewrite G in Hc. congruence.
Qed.

Theorem written_faithful frepr d d' : items_ok (ds_items d) -> items_ok (ds_items d') ->
  (forall i c m, coding_at (ds_items d) i c = Some m -> is_masses m) -> (forall i c m, coding_at (ds_items d') i c = Some m -> is_masses m) ->
  json_ok (JObj (ds_props d)) -> json_ok (JObj (ds_props d')) -> floats_ok frepr (JObj (ds_props d)) -> floats_ok frepr (JObj (ds_props d')) ->
  "items"%string ∉ (ds_props d).*1 -> "items"%string ∉ (ds_props d').*1 ->
  (dget (ds_props d) "segmentation_type" = None \/ dget (ds_props d) "segmentation_type" = Some (JStr "linear")) ->
  (dget (ds_props d') "segmentation_type" = None \/ dget (ds_props d') "segmentation_type" = Some (JStr "linear")) ->
  written frepr d = written frepr d' ->
  (forall i c, coding_at (ds_items d) i c = coding_at (ds_items d') i c) /\ (forall i, i ∈ (ds_items d).*1 <-> i ∈ (ds_items d').*1).
Proof.
  intros I1 I2 M1 M2 P1 P2 F1 F2 N1 N2 T1 T2 E.
  destruct (file_round_trip frepr d I1 M1 P1 F1 N1 T1) as (r & R & C & K & _). destruct (file_round_trip frepr d' I2 M2 P2 F2 N2 T2) as (r' & R' & C' & K' & _).
  rewrite E, R' in R. injection R as <-. split.
  - intros i c. rewrite <- C, <- C'. reflexivity.
  - intros i. rewrite <- K, <- K'. reflexivity.
Qed.

(** ** Truncated files *)

Lemma object_scan l t fuel r : json_text (JObj l) t -> (2 * List.length t + 1 <= fuel)%nat -> scan fuel (t ++ r) = Got (JObj l) r.
Proof.
  intros H Hf. destruct fuel as [|fuel]; [lia|]. inversion H as [| | | | | | | |w Hw|w ms ? u Hw Hm Hc]; subst.
  - cbn [app]. rewrite <- app_assoc. cbn [scan]. change (bool_decide (chr 123 = c_quote)) with false. change (bool_decide (chr 123 = c_lbracket)) with false. change (bool_decide (chr 123 = c_lbrace)) with true. cbv iota.
    rewrite skip_blank_to by (exact Hw || reflexivity). reflexivity.
  - cbn [app]. repeat (rewrite <- app_assoc; cbn [app]). cbn [scan]. change (bool_decide (chr 123 = c_quote)) with false. change (bool_decide (chr 123 = c_lbracket)) with false. change (bool_decide (chr 123 = c_lbrace)) with true. cbv iota.
    assert (St : exists x, u = chr 34 :: x) by (destruct Hm; eexists; reflexivity). destruct St as (x & ->). rewrite skip_blank_to by (exact Hw || reflexivity).
    cbn [app]. change (bool_decide (chr 34 = c_rbrace)) with false. cbv iota. change (chr 34 :: x ++ chr 125 :: r) with ((chr 34 :: x) ++ c_rbrace :: r).
    cbn [List.length] in Hf. rewrite !app_length in Hf. rewrite (proj2 (proj2 scan_complete) ms _ Hm) by (cbn [List.length] in *; lia). apply collected_spec in Hc as ->. reflexivity.
Qed.

Lemma object_brace l t : json_text (JObj l) t -> exists x, t = c_lbrace :: x.
Proof. intros H. inversion H; subst; eexists; reflexivity. Qed.

Lemma brace_object j x : loads (c_lbrace :: x) = Loaded j -> exists l, j = JObj l.
Proof.
  unfold loads. change (skip_ws (c_lbrace :: x)) with (c_lbrace :: x). cbn [List.length Nat.add scan]. rewrite Nat.add_succ_r. cbn [scan].
  change (bool_decide (c_lbrace = c_quote)) with false. change (bool_decide (c_lbrace = c_lbracket)) with false. change (bool_decide (c_lbrace = c_lbrace)) with true. cbv iota.
  destruct (skip_ws x) as [|d y]; [discriminate|]. destruct (bool_decide (d = c_rbrace)).
  - cbn. destruct (skip_ws y); [|discriminate]. intros H. injection H as <-. eauto.
  - destruct (scan_members _ _) as [ms r| |]; cbn; [|discriminate|discriminate]. destruct (skip_ws r); [|discriminate]. intros H. injection H as <-. eauto.
Qed.

Theorem object_prefix l p s j : json_text (JObj l) (p ++ s) -> document j p -> s = [].
Proof.
  intros H D. destruct p as [|c p]; [apply loads_spec in D; discriminate|]. destruct (object_brace _ _ H) as (x & E). cbn in E. injection E as -> _.
  pose proof D as K. apply loads_spec, brace_object in K as (l' & ->). destruct D as (w & u & w' & Hw & Hu & Hw' & E).
  destruct w as [|b w].
  - cbn in E. rewrite E in H. set (F := (2 * List.length (u ++ w' ++ s) + 1)%nat).
    assert (A1 : scan F (u ++ w' ++ s) = Got (JObj l') (w' ++ s)) by (apply object_scan; [exact Hu|unfold F; rewrite app_length; lia]).
    assert (A2 : scan F ((u ++ w' ++ s) ++ []) = Got (JObj l) []) by (apply object_scan; [rewrite app_assoc; exact H|unfold F; lia]).
    rewrite app_nil_r in A2. rewrite A1 in A2. injection A2 as _ A2. apply app_eq_nil in A2 as [_ A2]. exact A2.
  - cbn in E. injection E as <- _. inversion Hw as [|? ? B _]; subst. vm_compute in B. repeat (apply elem_of_cons in B as [B|B]; [discriminate|]). apply elem_of_nil in B. contradiction.
Qed.

Theorem written_truncated frepr d p s : items_ok (ds_items d) -> (forall i c m, coding_at (ds_items d) i c = Some m -> is_masses m) ->
  json_ok (JObj (ds_props d)) -> floats_ok frepr (JObj (ds_props d)) -> written frepr d = p ++ s -> s <> [] ->
  (forall r, read_json p <> Some (Ok r)) /\ (~ beyond p -> read_json p = Some (Err DataIOError)).
Proof.
  intros HI HM HP HF E Hs.
  assert (T : exists l, json_text (JObj l) (written frepr d)).
  { unfold written, dumps. exists (key_sort ((fun '(k, v) => (k, dump_load v)) <$> doc d)).
    pose proof (print_text frepr (output_json d) 0 (output_ok d HI HM HP) (output_floats frepr d HI HM HP HF)) as K. exact K. }
  destruct T as (l & T). rewrite E in T.
  assert (C : no_cr p). { pose proof (proj2 (written_document frepr d HI HM HP HF)) as K. rewrite E in K. apply printable_no_cr in K. apply Forall_app in K as [K _]. exact K. }
  assert (N : forall j, ~ document j (translate p)). { intros j D. rewrite translate_no_cr in D by exact C. apply Hs. exact (object_prefix l p s j T D). }
  split.
  - intros r H. destruct (proj1 (read_accepts p) (ex_intro _ r H)) as (l' & D & _). exact (N _ D).
  - intros B. apply read_rejects; [rewrite translate_no_cr by exact C; exact B|exact N].
Qed.

(** ** For the examples *)

Lemma float_by q t : loads t = Loaded (JFloat q) -> (exists c x, t = c :: x /\ is_ws c = false) -> (exists c x, t = x ++ [c] /\ is_ws c = false) -> float_text q t.
Proof.
  intros H (c & x & E & Hc) (d & y & E' & Hd). apply loads_spec in H as (w & u & w' & Hw & Hu & Hw' & Et).
  assert (Sp : forall a, a ∈ [chr 32; chr 9; chr 10; chr 13] -> is_ws a = true).
  { intros a K. repeat (apply elem_of_cons in K as [->|K]; [reflexivity|]). apply elem_of_nil in K. contradiction. }
  destruct w as [|a w]; [|rewrite E in Et; injection Et as -> _; inversion Hw as [|? ? K _]; subst; rewrite (Sp _ K) in Hc; discriminate].
  destruct w' as [|a w1 _] using rev_ind.
  - cbn in Et. rewrite app_nil_r in Et. subst u. inversion Hu; subst; assumption.
  - cbn in Et. rewrite E', app_assoc in Et. apply app_inj_tail in Et as [_ ->]. apply Forall_app in Hw' as [_ K]. inversion K as [|? ? K' _]; subst. rewrite (Sp _ K') in Hd. discriminate.
Qed.
