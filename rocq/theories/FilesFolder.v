(** Property C81: loading folders of files. *)
From Verif Require Import SpecFiles DictProofs FormatProofs FilesProofs FolderProofs FolderClash FolderNames.
Open Scope Z_scope.

Lemma dset_Forall2 {V W} (R : V -> W -> Prop) (d : dict V) (e : dict W) k v w :
  Forall2 (fun x y => fst x = fst y /\ R (snd x) (snd y)) d e -> R v w -> Forall2 (fun x y => fst x = fst y /\ R (snd x) (snd y)) (dset d k v) (dset e k w).
Proof.
  intros H Hr. induction H as [|[k1 v1] [k2 w2] d e [E R1] Hde IH]; cbn [dset]; [repeat constructor; exact Hr|].
  cbn [fst snd] in E, R1. subst k2. repeat case_decide; try case_bool_decide; repeat constructor; auto.
Qed.

Lemma base_in p c : p <> ""%string -> no_slash c -> base_name (in_folder p c) = c.
Proof. intros Hp Hc. destruct (in_folder_pieces p c Hp Hc) as (cs & _ & E & _). unfold base_name. rewrite E, last_snoc. reflexivity. Qed.

Lemma height_below es name e : (name, e) ∈ es -> (height e < height (Dir es))%nat.
Proof.
  cbn [height]. induction es as [|[n e'] es IH]; intros H; [apply elem_of_nil in H; contradiction|]. apply elem_of_cons in H as [[= -> ->]|H]; [lia|]. specialize (IH H). lia.
Qed.

Lemma height_lies e loc e' : lies e loc e' -> (height e' <= height e)%nat.
Proof. intros H. induction H as [|es name e loc e' Hin _ IH]; [lia|]. pose proof (height_below _ _ _ Hin). lia. Qed.

Section Load.
Context {C : Type} (t : filetype) (rd : string -> text -> option (res (dataset C))) (fs : entry) (HO : fs_ok fs).
Context (load : string -> fres (dataset C)).
Context (Hload : forall p u, open_read fs p = Fine u -> load p = match rd (base_name p) u with Some r => of_res r | None => Fails NotModelled end).

Definition rd' (name : string) (u : text) : res (dataset C) := default (Err DataIOError) (rd name u).

Fixpoint node_of (name : string) (e : entry) : node C :=
  match e with
  | File u => NFile (rd' name u)
  | Dir es => NDir ((fix go (l : list (string * entry)) : list (string * node C) := match l with [] => [] | (n, e') :: l' => (n, node_of n e') :: go l' end) es)
  end.
Definition nodes (es : dict entry) : list (string * node C) := (fun ne => (fst ne, node_of (fst ne) (snd ne))) <$> es.
Lemma node_of_dir name es : node_of name (Dir es) = NDir (nodes es).
Proof. cbn [node_of]. f_equal. induction es as [|[n e'] es IH]; [reflexivity|]. cbn. f_equal. exact IH. Qed.

Lemma nodes_keys es : (nodes es).*1 = es.*1.
Proof. unfold nodes. rewrite <- list_fmap_compose. apply list_fmap_ext. reflexivity. Qed.

(** Everything that is loaded below [e] is a document in the model. *)
Definition known (e : entry) : Prop := forall loc name u, lies e (loc ++ [name]) (File u) -> accepted t name = true -> rd name u <> None.

Lemma known_below es name e : known (Dir es) -> (name, e) ∈ es -> known e.
Proof. intros H Hin loc n u Hl. apply (H (name :: loc)). econstructor; eassumption. Qed.

Section Folder.
Context (p : string) (loc : list string) (es : dict entry) (Hp : at_path fs p loc) (Hd : lies fs loc (Dir es)) (HK : known (Dir es)).

Lemma entry_join name e : (name, e) ∈ es -> path_join p name = in_folder p name /\ plain_name name /\ at_path fs (in_folder p name) (loc ++ [name]) /\ lies fs (loc ++ [name]) e.
Proof using HO Hp Hd.
  intros Hin. destruct (at_path_in fs HO _ _ _ _ _ Hp Hd Hin) as [H1 H2]. pose proof (lies_parent fs HO _ _ _ H2) as (_ & _ & _ & Hc).
  split; [apply join_in_folder, Hc|auto].
Qed.

Lemma entry_isdir name e : (name, e) ∈ es -> isdir fs (path_join p name) = match e with Dir _ => true | File _ => false end.
Proof using HO Hp Hd.
  intros Hin. destruct (entry_join _ _ Hin) as (-> & _ & H1 & H2). destruct e as [u|sub].
  - apply not_true_iff_false. rewrite (isdir_iff fs HO). intros (es' & loc' & H1' & H2'). rewrite <- (at_path_unique fs HO _ _ _ H1 H1') in H2'.
    pose proof (lies_unique fs HO _ _ _ H2 H2'). discriminate.
  - apply (isdir_iff fs HO). exists sub. eexists. eauto.
Qed.

Lemma entry_load name u : (name, File u) ∈ es -> accepted t name = true -> load (path_join p name) = of_res (rd' name u).
Proof using HO Hp Hd Hload HK.
  intros Hin Ha. destruct (entry_join _ _ Hin) as (-> & (N1 & N2 & N3 & N4) & H1 & H2). rewrite (Hload _ u) by (apply (open_read_iff fs HO); eexists; eauto).
  rewrite base_in by (try apply Hp; assumption). unfold rd'. destruct (rd name u) as [r|] eqn:E; [reflexivity|]. exfalso.
  apply (HK [] name u); [apply lies_one, Hin|exact Ha|exact E].
Qed.

Lemma files_related : Forall2 (fun x y => fst x = fst y /\ load (snd x) = of_res (snd y)) (files_of fs t p es.*1) (list_files t (nodes es)).
Proof using HO Hp Hd Hload HK.
  unfold files_of, list_files. assert (Hsub : forall ne, ne ∈ es -> ne ∈ es) by auto. revert Hsub. generalize es at 1 3 4. intros l Hsub.
  induction l as [|[name e] l IH] using rev_ind; [constructor|]. unfold nodes. rewrite !fmap_app, !foldl_app. cbn [fmap list_fmap foldl fst snd].
  specialize (IH ltac:(intros ne H; apply Hsub, elem_of_app; auto)). assert (Hin : (name, e) ∈ es) by (apply Hsub, elem_of_app; right; left).
  rewrite (entry_isdir _ _ Hin). destruct e as [u|sub]; [|rewrite node_of_dir; exact IH]. cbn [node_of]. destruct (accepted t name) eqn:Ha; [|exact IH].
  apply (dset_Forall2 (fun x y => load x = of_res y)); [exact IH|]. apply entry_load; assumption.
Qed.

Lemma files_loaded prepend st : foldl (add_file load prepend) (of_upd st) (files_of fs t p es.*1) = of_upd (foldl (load_file prepend) st (list_files t (nodes es))).
Proof using HO Hp Hd Hload HK.
  revert st. induction files_related as [|[k q] [k' r] l l' [E R] _ IH]; intros st; [reflexivity|]. cbn [foldl]. rewrite <- IH. f_equal. cbn [fst snd] in *.
  destruct st as [d [e|]]; [reflexivity|]. cbn [add_file of_upd load_file fst snd fmap option_fmap option_map]. rewrite R. destruct r; reflexivity.
Qed.

Definition is_dir (e : entry) : bool := match e with Dir _ => true | _ => false end.
Lemma dirs_listed : dirs_of fs p es.*1 = (fun ne => (fst ne, in_folder p (fst ne))) <$> filter (fun ne => is_dir (snd ne)) es.
Proof using HO Hp Hd.
  destruct (dir_ok fs HO _ _ Hd) as [Hk _]. unfold dirs_of. assert (Hsub : forall ne, ne ∈ es -> ne ∈ es) by auto. revert Hsub. unfold dict_ok in Hk. revert Hk.
  generalize es at 1 2 4 5. intros l Hk Hsub. induction l as [|[name e] l IH] using rev_ind; [reflexivity|]. rewrite fmap_app in Hk. cbn [fmap list_fmap fst] in Hk.
  apply NoDup_app in Hk as (Hk1 & Hk2 & _). rewrite fmap_app, foldl_app, filter_app, fmap_app. cbn [fmap list_fmap foldl fst].
  rewrite (IH Hk1 ltac:(intros ne H; apply Hsub, elem_of_app; auto)). assert (Hin : (name, e) ∈ es) by (apply Hsub, elem_of_app; right; left).
  rewrite (entry_isdir _ _ Hin). destruct (entry_join _ _ Hin) as (-> & _). destruct e as [u|sub].
  - rewrite filter_cons_False by (cbn; auto). rewrite filter_nil, app_nil_r. reflexivity.
  - rewrite filter_cons_True by (cbn; auto). rewrite filter_nil. cbn [fmap list_fmap fst]. apply dset_fresh. rewrite <- list_fmap_compose. intros Hn.
    apply elem_of_list_fmap in Hn as ([n' e'] & En & Hf). cbn in En. subst n'. apply elem_of_list_filter in Hf as [_ Hf].
    apply (Hk2 name); [apply elem_of_list_fmap; exists (name, e'); auto|left].
Qed.
End Folder.

Lemma load_dir_nodes fuel : forall p loc es prepend st, at_path fs p loc -> lies fs loc (Dir es) -> known (Dir es) -> (height (Dir es) <= fuel)%nat ->
  load_dir fuel load fs t p prepend (of_upd st) = of_upd (load_entries t prepend (NDir (nodes es)) st).
Proof using HO Hload.
  induction fuel as [|n IH]; intros p loc es prepend st Hp Hd HK Hh; [cbn [height] in Hh; lia|]. cbn [load_dir].
  rewrite (proj2 (listdir_iff fs HO p es.*1)) by (exists es; split; [eexists; eauto|reflexivity]).
  rewrite (files_loaded p loc es Hp Hd HK), (dirs_listed p loc es Hp Hd). cbn [load_entries]. generalize (foldl (load_file prepend) st (list_files t (nodes es))). clear st.
  assert (Hsub : forall ne, ne ∈ es -> ne ∈ es) by auto. revert Hsub. generalize es at 1 3 4. intros l. induction l as [|[name e] l IHl]; intros Hsub st; [reflexivity|].
  assert (Hin : (name, e) ∈ es) by (apply Hsub; left). specialize (IHl ltac:(intros ne H; apply Hsub; right; exact H)).
  change (nodes ((name, e) :: l)) with ((name, node_of name e) :: nodes l). destruct e as [u|sub].
  - rewrite filter_cons_False by (cbn; auto). rewrite IHl. cbn [node_of]. destruct st as [d [x|]]; reflexivity.
  - rewrite filter_cons_True by (cbn; auto). cbn [fmap list_fmap foldl fst snd]. rewrite <- IHl. f_equal. rewrite node_of_dir. destruct st as [d [x|]]; [reflexivity|].
    destruct (at_path_in fs HO _ _ _ _ _ Hp Hd Hin) as [H1 H2].
    apply (IH _ (loc ++ [name]) sub (prepend ++ [name]) (d, None)); [exact H1|exact H2|eapply known_below; eassumption|].
    pose proof (height_below _ _ _ Hin). lia.
Qed.

Lemma load_nested_nodes p loc es : at_path fs p loc -> lies fs loc (Dir es) -> known (Dir es) ->
  load_nested load fs t p = of_res (load_nested_folders t (nodes es)).
Proof using HO Hload.
  intros Hp Hd HK. unfold load_nested, load_nested_folders.
  assert (E := load_dir_nodes (S (height fs)) p loc es [] (empty_dataset, None) Hp Hd HK ltac:(pose proof (height_lies _ _ _ Hd); lia)).
  change (of_upd (empty_dataset, None)) with ((@empty_dataset C, None) : loading C) in E. rewrite E. destruct (load_entries _ _ _ _) as [d [e|]]; reflexivity.
Qed.

Lemma load_nested_no_folder p : (forall es, ~ folder_at fs p es) -> exists e, load_nested load fs t p = Fails (OSFault e).
Proof using HO.
  intros H. unfold load_nested. cbn [load_dir]. destruct (listdir fs p) as [names|f] eqn:E.
  - apply (listdir_iff fs HO) in E as (es & Hes & _). exfalso. exact (H _ Hes).
  - unfold listdir in E. destruct (resolve fs p) as [l| |]; [destruct (entry_at fs l) as [[]|]| |]; try discriminate; injection E as <-; cbn; eauto.
Qed.

(** ** Which files those are *)

Lemma nodes_elem es name n : (name, n) ∈ nodes es <-> exists e, (name, e) ∈ es /\ n = node_of name e.
Proof.
  unfold nodes. rewrite elem_of_list_fmap. split.
  - intros ([n0 e] & [= -> ->] & H). eauto.
  - intros (e & H & ->). exists (name, e). auto.
Qed.

Lemma dir_at_lies es path sub' : dir_at (nodes es) path sub' <-> exists sub, sub' = nodes sub /\ lies (Dir es) path (Dir sub).
Proof.
  revert es. induction path as [|name path IH]; intros es; split.
  - intros H. inversion H; subst. exists es. split; [reflexivity|constructor].
  - intros (sub & -> & H). inversion H; subst. constructor.
  - intros H. inversion H as [|? ? sub0 ? ? Hin Hd]; subst. apply nodes_elem in Hin as ([u|es0] & Hin & E); [discriminate|]. rewrite node_of_dir in E. injection E as ->.
    apply IH in Hd as (sub & -> & Hl). exists sub. split; [reflexivity|]. econstructor; eassumption.
  - intros (sub & -> & H). inversion H as [|? ? e0 ? ? Hin Hl]; subst. destruct e0 as [u|es0]; [inversion Hl|].
    econstructor; [apply nodes_elem; exists (Dir es0); split; [exact Hin|symmetry; apply node_of_dir]|]. apply IH. eauto.
Qed.

Lemma str_inj a b : str a = str b -> a = b.
Proof. intros H. rewrite <- (chars_str a), <- (chars_str b), H. reflexivity. Qed.

Lemma kept_counts es name l : kept t (nodes es) name l <-> exists u, counts t es name u /\ l = rd' name u.
Proof.
  split.
  - intros (pre & post & E & Ha & Hl). unfold nodes in E. apply fmap_app_inv in E as (pre' & rest & -> & E & ->). symmetry in E. destruct rest as [|[n e] post']; [discriminate|].
    cbn [fmap list_fmap] in E. injection E as E1 E2 E3. cbn [fst snd] in E1, E2. subst n post. destruct e as [u|sub]; [|rewrite node_of_dir in E2; discriminate]. injection E2 as <-.
    exists u. split; [|reflexivity]. apply accepted_names in Ha as [base Hb]. exists pre', base, post'. split; [reflexivity|]. split; [exact Hb|].
    intros name' u' Hin Hn. apply (Hl name' (rd' name' u')).
    + apply elem_of_list_fmap. exists (name', File u'). split; [reflexivity|exact Hin].
    + apply accepted_names. eauto.
    + rewrite (named_stem _ _ _ Hn), (named_stem _ _ _ Hb). reflexivity.
  - intros (u & (pre & base & post & -> & Hb & Hl) & ->). exists (nodes pre), (nodes post). unfold nodes. rewrite fmap_app. split; [reflexivity|].
    split; [apply accepted_names; eauto|]. intros name' load' Hin Ha E. apply nodes_elem in Hin as ([u'|sub] & Hin & En); [|rewrite node_of_dir in En; discriminate].
    apply accepted_names in Ha as [base' Hb']. rewrite (named_stem _ _ _ Hb'), (named_stem _ _ _ Hb) in E. apply str_inj in E as ->. exact (Hl _ _ Hin Hb').
Qed.

Section At.
Context (loc : list string) (es : dict entry) (Hd : lies fs loc (Dir es)).

Lemma taken_counted path name l : taken t (nodes es) path name l <-> exists u, counted t fs loc path name u /\ l = rd' name u.
Proof using HO Hd.
  unfold taken, counted. split.
  - intros (sub' & D & K). apply dir_at_lies in D as (sub & -> & Hl). apply kept_counts in K as (u & K & ->). exists u. split; [|reflexivity]. exists sub. split; [|exact K].
    apply lies_app. eauto.
  - intros (u & (sub & Hl & K) & ->). apply lies_app in Hl as (m & Hm & Hl). rewrite <- (lies_unique fs HO _ _ _ Hd Hm) in Hl. exists (nodes sub).
    split; [apply dir_at_lies; eauto|]. apply kept_counts. eauto.
Qed.

Lemma nodes_tree_ok : tree_ok (nodes es).
Proof using HO Hd.
  intros path sub' D. apply dir_at_lies in D as (sub & -> & Hl). rewrite nodes_keys. apply (dir_ok fs HO (loc ++ path)). apply lies_app. eauto.
Qed.

Lemma nodes_loads_ok : (forall name u r, rd name u = Some (Ok r) -> items_ok (ds_items r)) -> loads_ok (nodes es).
Proof using.
  intros H path sub' name d D Hin. apply dir_at_lies in D as (sub & -> & Hl). apply nodes_elem in Hin as ([u|?] & _ & E); [|rewrite node_of_dir in E; discriminate].
  injection E as E. unfold rd' in E. destruct (rd name u) as [r|] eqn:Er; [|discriminate]. cbn in E. subst r. exact (H _ _ _ Er).
Qed.
End At.

Context (Hok : forall name u r, rd name u = Some (Ok r) -> items_ok (ds_items r)).

(** What is loaded. *)
Theorem folder_loaded p loc es r : at_path fs p loc -> lies fs loc (Dir es) ->
  (forall path name u, lies fs (loc ++ path ++ [name]) (File u) -> (exists base, named t base name) -> rd name u <> None) ->
  load_nested load fs t p = Fine r ->
  (forall path name u, counted t fs loc path name u -> exists o, rd name u = Some (Ok o)) /\
  (forall j c v, coding_at (ds_items r) j c = Some v <-> exists path name u o i, counted t fs loc path name u /\ rd name u = Some (Ok o) /\ filed (Some path) i j /\ coding_at (ds_items o) i c = Some v) /\
  (forall j, j ∈ (ds_items r).*1 <-> exists path name u o i, counted t fs loc path name u /\ rd name u = Some (Ok o) /\ filed (Some path) i j /\ i ∈ (ds_items o).*1) /\
  (forall c, c ∈ ds_coders r <-> codes (ds_items r) c) /\ items_ok (ds_items r) /\ ds_format r = FMass.
Proof using HO Hload Hok.
  intros Hp Hd HK H. assert (HK' : known (Dir es)).
  { intros path name u Hl Ha. apply (HK path); [apply lies_app; eauto|apply accepted_names, Ha]. }
  rewrite (load_nested_nodes p loc es Hp Hd HK') in H. destruct (load_nested_folders t (nodes es)) as [r'|] eqn:E; [|discriminate]. injection H as ->.
  destruct (nested_result t (nodes es) (nodes_tree_ok loc es Hd) (nodes_loads_ok es Hok) r E) as (R1 & R2 & R3 & R4).
  assert (Hr : forall path name u, counted t fs loc path name u -> rd name u = Some (rd' name u)).
  { intros path name u (sub & Hl & pre & base & post & -> & Hb & _). unfold rd'. destruct (rd name u) eqn:Er; [reflexivity|]. exfalso. apply (HK path name u); [|eauto|exact Er].
    rewrite app_assoc. apply lies_app. eexists. split; [exact Hl|]. apply lies_one, elem_of_app. right. left. }
  split; [|split; [|split; [|exact R4]]].
  - intros path name u Hc. destruct (R1 path name (rd' name u)) as [o Ho]; [apply (taken_counted loc es Hd); eauto|]. exists o. rewrite (Hr _ _ _ Hc), Ho. reflexivity.
  - intros j c v. rewrite R2. split.
    + intros (path & name & o & i & T & F & K). apply (taken_counted loc es Hd) in T as (u & Hc & Eo). exists path, name, u, o, i. rewrite (Hr _ _ _ Hc), <- Eo. auto.
    + intros (path & name & u & o & i & Hc & Eo & F & K). exists path, name, o, i. split; [|auto]. apply (taken_counted loc es Hd). exists u. split; [exact Hc|].
      rewrite (Hr _ _ _ Hc) in Eo. congruence.
  - intros j. rewrite R3. split.
    + intros (path & name & o & i & T & F & K). apply (taken_counted loc es Hd) in T as (u & Hc & Eo). exists path, name, u, o, i. rewrite (Hr _ _ _ Hc), <- Eo. auto.
    + intros (path & name & u & o & i & Hc & Eo & F & K). exists path, name, o, i. split; [|auto]. apply (taken_counted loc es Hd). exists u. split; [exact Hc|].
      rewrite (Hr _ _ _ Hc) in Eo. congruence.
Qed.

(** When it fails. *)
Theorem folder_fails p loc es f : at_path fs p loc -> lies fs loc (Dir es) ->
  (forall path name u, lies fs (loc ++ path ++ [name]) (File u) -> (exists base, named t base name) -> rd name u <> None) ->
  load_nested load fs t p = Fails f -> exists e, f = Raised e /\
  ((exists path name u, counted t fs loc path name u /\ rd name u = Some (Err e)) \/
   (e = DataIOError /\ exists p1 n1 u1 o1 i1 p2 n2 u2 o2 i2 j c, counted t fs loc p1 n1 u1 /\ rd n1 u1 = Some (Ok o1) /\ counted t fs loc p2 n2 u2 /\ rd n2 u2 = Some (Ok o2) /\ (p1, n1) <> (p2, n2) /\
     filed (Some p1) i1 j /\ filed (Some p2) i2 j /\ is_Some (coding_at (ds_items o1) i1 c) /\ is_Some (coding_at (ds_items o2) i2 c))).
Proof using HO Hload Hok.
  intros Hp Hd HK H. assert (HK' : known (Dir es)).
  { intros path name u Hl Ha. apply (HK path); [apply lies_app; eauto|apply accepted_names, Ha]. }
  rewrite (load_nested_nodes p loc es Hp Hd HK') in H. destruct (load_nested_folders t (nodes es)) as [r'|e] eqn:E; [discriminate|]. injection H as <-.
  exists e. split; [reflexivity|].
  assert (Hr : forall path name u, counted t fs loc path name u -> rd name u = Some (rd' name u)).
  { intros path name u (sub & Hl & pre & base & post & -> & Hb & _). unfold rd'. destruct (rd name u) eqn:Er; [reflexivity|]. exfalso. apply (HK path name u); [|eauto|exact Er].
    rewrite app_assoc. apply lies_app. eexists. split; [exact Hl|]. apply lies_one, elem_of_app. right. left. }
  destruct (nested_raises t (nodes es) (nodes_tree_ok loc es Hd) (nodes_loads_ok es Hok) e E) as [(path & name & T)|(-> & p1 & n1 & o1 & i1 & p2 & n2 & o2 & i2 & j & c & T1 & T2 & R)].
  - left. apply (taken_counted loc es Hd) in T as (u & Hc & Eo). exists path, name, u. rewrite (Hr _ _ _ Hc), <- Eo. auto.
  - right. split; [reflexivity|]. apply (taken_counted loc es Hd) in T1 as (u1 & Hc1 & Eo1). apply (taken_counted loc es Hd) in T2 as (u2 & Hc2 & Eo2).
    exists p1, n1, u1, o1, i1, p2, n2, u2, o2, i2, j, c. rewrite (Hr _ _ _ Hc1), (Hr _ _ _ Hc2), <- Eo1, <- Eo2. auto 10.
Qed.

Theorem folder_succeeds p loc es : at_path fs p loc -> lies fs loc (Dir es) ->
  (forall path name u, lies fs (loc ++ path ++ [name]) (File u) -> (exists base, named t base name) -> rd name u <> None) ->
  (exists r, load_nested load fs t p = Fine r) <->
  (forall path name u, counted t fs loc path name u -> exists o, rd name u = Some (Ok o)) /\
  (forall p1 n1 u1 o1 i1 p2 n2 u2 o2 i2 j c, counted t fs loc p1 n1 u1 -> rd n1 u1 = Some (Ok o1) -> counted t fs loc p2 n2 u2 -> rd n2 u2 = Some (Ok o2) -> (p1, n1) <> (p2, n2) ->
     filed (Some p1) i1 j -> filed (Some p2) i2 j -> is_Some (coding_at (ds_items o1) i1 c) -> ~ is_Some (coding_at (ds_items o2) i2 c)).
Proof using HO Hload Hok.
  intros Hp Hd HK. split.
  - intros [r H]. split; [exact (proj1 (folder_loaded p loc es r Hp Hd HK H))|]. assert (HK' : known (Dir es)).
    { intros path name u Hl Ha. apply (HK path); [apply lies_app; eauto|apply accepted_names, Ha]. }
    rewrite (load_nested_nodes p loc es Hp Hd HK') in H. destruct (load_nested_folders t (nodes es)) as [r'|] eqn:E; [|discriminate].
    intros p1 n1 u1 o1 i1 p2 n2 u2 o2 i2 j c C1 E1 C2 E2. apply (nested_no_clash t (nodes es) (nodes_tree_ok loc es Hd) (nodes_loads_ok es Hok) r' E).
    + apply (taken_counted loc es Hd). exists u1. split; [exact C1|]. unfold rd'. rewrite E1. reflexivity.
    + apply (taken_counted loc es Hd). exists u2. split; [exact C2|]. unfold rd'. rewrite E2. reflexivity.
  - intros [H1 H2]. destruct (load_nested load fs t p) as [r|f] eqn:E; [eauto|]. exfalso.
    destruct (folder_fails p loc es f Hp Hd HK E) as (e & _ & [(path & name & u & Hc & Er)|(_ & p1 & n1 & u1 & o1 & i1 & p2 & n2 & u2 & o2 & i2 & j & c & C1 & E1 & C2 & E2 & Hne & F1 & F2 & K1 & K2)]).
    + destruct (H1 _ _ _ Hc) as [o Eo]. rewrite Er in Eo. discriminate.
    + exact (H2 _ _ _ _ _ _ _ _ _ _ _ _ C1 E1 C2 E2 Hne F1 F2 K1 K2).
Qed.
End Load.
