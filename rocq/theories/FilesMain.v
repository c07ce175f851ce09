(** Properties C80 and C81: writing and reading back, and folders of documents and tables. *)
From Verif Require Import TsvProofs CsvProofs CsvMain CsvLimit JsonParse JsonFile DictProofs FormatProofs FolderNames.
From Verif Require Import SpecFiles FilesProofs FilesWrite FilesFolder.
Open Scope Z_scope.

(** ** Reading back *)

Section Back.
Context (fs fs' : entry) (loc : list string) (t : text) (HO : fs_ok fs) (HO' : fs_ok fs') (HC : only_changed fs fs' loc t).

Lemma changed_dir l es : lies fs l (Dir es) -> exists es', lies fs' l (Dir es').
Proof using HC. intros H. apply HC. eauto. Qed.
Lemma changed_lies l e : lies fs l e -> exists e', lies fs' l e'.
Proof using HC.
  intros H. destruct e as [u|es]; [|destruct (changed_dir _ _ H); eauto]. destruct (decide (l = loc)) as [->|Hne]; [eexists; exact (proj1 HC)|]. exists (File u). apply HC; assumption.
Qed.
Lemma changed_leads cs l l' : leads fs l cs l' -> leads fs' l cs l'.
Proof using HC.
  intros H. induction H as [l|l es c cs l' Hd Hc _ IH|l es cs l' Hd _ IH|l c e cs l' Hd _ IH]; [constructor| | |].
  - destruct (changed_dir _ _ Hd). eapply leads_stay; eassumption.
  - destruct (changed_dir _ _ Hd). eapply leads_up; eassumption.
  - destruct (changed_lies _ _ Hd). eapply leads_down; eassumption.
Qed.
Lemma changed_at p l : at_path fs p l -> at_path fs' p l.
Proof using HC. intros [Hp (cs & Hcs & Hl)]. split; [exact Hp|]. exists cs. split; [exact Hcs|]. apply changed_leads, Hl. Qed.
End Back.

Lemma leads_snoc fs cs l l' c e : leads fs l cs l' -> lies fs (l' ++ [c]) e -> leads fs l (cs ++ [c]) (l' ++ [c]).
Proof.
  intros H Hc. induction H; cbn [app].
  - eapply leads_down; [exact Hc|constructor].
  - eapply leads_stay; eauto.
  - eapply leads_up; eauto.
  - eapply leads_down; eauto.
Qed.

Lemma written_at fs fs' p q loc t : fs_ok fs -> fs_ok fs' -> target fs p loc -> only_changed fs fs' loc t -> result_path fs p q -> file_at fs' q t.
Proof.
  intros HO HO' HT HC HR. exists loc. split; [|exact (proj1 HC)]. inversion HT as [l es Hp Hd Hno|l u Hp Hf|l es cs c Hp Hl Hd Hc Hn]; subst.
  - destruct HR as [[_ ->]|[HR _]]; [|exfalso; apply (HR es); exists l; auto].
    destruct (changed_dir _ _ _ _ HC _ _ Hd) as [es' Hd']. assert (Hin : ("output.json"%string, File t) ∈ es').
    { destruct (lies_parent fs' HO' _ _ _ (proj1 HC)) as (es1 & H1 & H2 & _). pose proof (lies_unique fs' HO' _ _ _ Hd' H1) as [= <-]. exact H2. }
    apply (at_path_in fs' HO' p l es' _ _ (changed_at _ _ _ _ HC _ _ Hp) Hd' Hin).
  - destruct HR as [[(es & l & H1 & H2) _]|[_ ->]]; [|apply (changed_at _ _ _ _ HC), Hp].
    exfalso. rewrite (at_path_unique fs HO _ _ _ Hp H1) in Hf. pose proof (lies_unique fs HO _ _ _ Hf H2). discriminate.
  - assert (HRV : resolve fs p = Vacant l c) by (apply (resolve_vacant fs HO); eauto 10). destruct HR as [[(es' & l' & H1 & H2) _]|[_ ->]].
    + apply (resolve_found fs HO) in H1. congruence.
    + split; [intros ->; unfold resolve in HRV; cbn in HRV; discriminate|]. exists (cs ++ [c]). split; [exact Hp|]. eapply leads_snoc; [apply (changed_leads _ _ _ _ HC), Hl|exact (proj1 HC)].
Qed.

Lemma result_path_exists fs p : fs_ok fs -> exists q, result_path fs p q.
Proof.
  intros HO. destruct (isdir fs p) eqn:E.
  - apply (isdir_iff fs HO) in E. eexists. left. eauto.
  - eexists. right. split; [|reflexivity]. intros es H. rewrite (proj2 (isdir_iff fs HO p)) in E by eauto. discriminate.
Qed.

Theorem write_read frepr fs p q loc (d : dataset (list json)) : fs_ok fs -> target fs p loc -> result_path fs p q -> items_ok (ds_items d) ->
  (forall i c m, coding_at (ds_items d) i c = Some m -> is_masses m) -> json_ok (JObj (ds_props d)) -> floats_ok frepr (JObj (ds_props d)) ->
  "items"%string ∉ (ds_props d).*1 ->
  (dget (ds_props d) "segmentation_type" = None \/ dget (ds_props d) "segmentation_type" = Some (JStr "linear")) ->
  exists fs', output_linear_mass_json frepr fs p d None = (fs', Fine tt) /\ file_at fs' q (written frepr d) /\
  exists r, input_linear_mass_json fs' q = Fine r /\ (forall i c, coding_at (ds_items r) i c = coding_at (ds_items d) i c) /\
    (forall i, i ∈ (ds_items r).*1 <-> i ∈ (ds_items d).*1).
Proof.
  intros HO HT HR H1 H2 H3 H4 H5 H6. unfold output_linear_mass_json. destruct (writes fs HO p (written frepr d) None) as [W _].
  destruct (write_json fs p (written frepr d) None) as [fs' r']. cbn [fst snd] in W. destruct (W loc HT) as (HO' & HC & ->). exists fs'. split; [reflexivity|].
  pose proof (written_at _ _ _ _ _ _ HO HO' HT HC HR) as HF. split; [exact HF|].
  destruct (file_round_trip frepr d H1 H2 H3 H4 H5 H6) as (r & Hr & R1 & R2 & _). exists r. split; [|auto].
  unfold input_linear_mass_json. rewrite (proj2 (open_read_iff fs' HO' q _) HF), Hr. reflexivity.
Qed.

Theorem interrupted frepr fs p q loc (d : dataset (list json)) n : fs_ok fs -> target fs p loc -> result_path fs p q -> items_ok (ds_items d) ->
  (forall i c m, coding_at (ds_items d) i c = Some m -> is_masses m) -> json_ok (JObj (ds_props d)) -> floats_ok frepr (JObj (ds_props d)) ->
  (n < length (written frepr d))%nat ->
  exists fs', output_linear_mass_json frepr fs p d (Some n) = (fs', Fails Interrupted) /\ only_changed fs fs' loc (take n (written frepr d)) /\
  (forall r, input_linear_mass_json fs' q <> Fine r) /\
  (~ beyond (take n (written frepr d)) -> input_linear_mass_json fs' q = Fails (Raised DataIOError)).
Proof.
  intros HO HT HR H1 H2 H3 H4 Hn. unfold output_linear_mass_json. destruct (writes fs HO p (written frepr d) (Some n)) as [W _].
  destruct (write_json fs p (written frepr d) (Some n)) as [fs' r']. cbn [fst snd] in W. destruct (W loc HT) as (HO' & HC & ->). exists fs'. split; [reflexivity|]. split; [exact HC|].
  pose proof (written_at _ _ _ _ _ _ HO HO' HT HC HR) as HF.
  destruct (written_truncated frepr d (take n (written frepr d)) (drop n (written frepr d)) H1 H2 H3 H4) as [T1 T2].
  { symmetry. apply take_drop. }
  { intros E. apply (f_equal length) in E. rewrite drop_length in E. change (length (@nil char)) with O in E. lia. }
  unfold input_linear_mass_json. rewrite (proj2 (open_read_iff fs' HO' q _) HF). split.
  - intros r. destruct (read_json (take n (written frepr d))) as [[r'|]|] eqn:E; try discriminate. exfalso. exact (T1 _ eq_refl).
  - intros Hb. rewrite (T2 Hb). reflexivity.
Qed.

(** ** Folders of documents *)

Lemma json_items_ok (name : string) u r : read_json u = Some (Ok r) -> items_ok (ds_items r).
Proof. intros H. destruct (proj1 (read_accepts u)) as (l & Hl & _); [eauto|]. apply (read_codings u l r Hl H). Qed.

Lemma json_load fs p u : Files.open_read fs p = Fine u -> input_linear_mass_json fs p = match read_json u with Some r => of_res r | None => Fails NotModelled end.
Proof. intros H. unfold input_linear_mass_json. rewrite H. reflexivity. Qed.

Lemma readable_known fs loc : json_readable fs loc -> forall path name u, lies fs (loc ++ path ++ [name]) (File u) -> (exists base, named JSON base name) -> read_json u <> None.
Proof. intros H path name u Hl Hb K. apply (H path name u Hl Hb). apply loads_unknown. revert K. unfold read_json. destruct (loads (translate u)); [discriminate|discriminate|reflexivity]. Qed.

Lemma ok_object u o : read_json u = Some (Ok o) -> exists l, object_of u l /\ (forall i c m, coding_at (ds_items o) i c = Some m <-> coded_in (JObj l) i c m) /\
  (forall i, i ∈ (ds_items o).*1 <-> exists items it, member (JObj l) "items" items /\ member items i it).
Proof.
  intros H. destruct (proj1 (read_accepts u)) as (l & Hl & _); [eauto|]. destruct (read_codings u l o Hl H) as (R1 & R2 & _). exists l. auto.
Qed.

Lemma object_unique u l l' : object_of u l -> object_of u l' -> l = l'.
Proof. intros H H'. pose proof (document_unique _ _ _ H H') as [= ->]. reflexivity. Qed.

Theorem json_folder fs p loc es r : fs_ok fs -> at_path fs p loc -> lies fs loc (Dir es) -> json_readable fs loc -> load_nested_json fs p = Fine r ->
  (forall j c m, coding_at (ds_items r) j c = Some m <->
     exists path name u l i, counted JSON fs loc path name u /\ object_of u l /\ filed (Some path) i j /\ coded_in (JObj l) i c m) /\
  (forall j, j ∈ (ds_items r).*1 <->
     exists path name u l i items it, counted JSON fs loc path name u /\ object_of u l /\ filed (Some path) i j /\ member (JObj l) "items" items /\ member items i it) /\
  (forall c, c ∈ ds_coders r <-> codes (ds_items r) c) /\ items_ok (ds_items r) /\ ds_format r = FMass.
Proof.
  intros HO Hp Hd HK H. destruct (folder_loaded JSON (fun _ => read_json) fs HO _ (json_load fs) json_items_ok p loc es r Hp Hd (readable_known fs loc HK) H) as (R0 & R1 & R2 & R3).
  split; [|split; [|exact R3]].
  - intros j c m. rewrite R1. split.
    + intros (path & name & u & o & i & Hc & Ho & F & K). destruct (ok_object u o Ho) as (l & Hl & Hcod & _). exists path, name, u, l, i. split; [exact Hc|]. split; [exact Hl|]. split; [exact F|]. apply Hcod, K.
    + intros (path & name & u & l & i & Hc & Hl & F & K). destruct (R0 _ _ _ Hc) as [o Ho]. destruct (ok_object u o Ho) as (l' & Hl' & Hcod & _). rewrite (object_unique _ _ _ Hl Hl') in K.
      exists path, name, u, o, i. split; [exact Hc|]. split; [exact Ho|]. split; [exact F|]. apply Hcod, K.
  - intros j. rewrite R2. split.
    + intros (path & name & u & o & i & Hc & Ho & F & K). destruct (ok_object u o Ho) as (l & Hl & _ & Hit). destruct (proj1 (Hit i) K) as (items & it & K1 & K2). exists path, name, u, l, i, items, it. auto 10.
    + intros (path & name & u & l & i & items & it & Hc & Hl & F & K1 & K2). destruct (R0 _ _ _ Hc) as [o Ho]. destruct (ok_object u o Ho) as (l' & Hl' & _ & Hit). rewrite (object_unique _ _ _ Hl Hl') in K1.
      exists path, name, u, o, i. split; [exact Hc|]. split; [exact Ho|]. split; [exact F|]. apply Hit. eauto.
Qed.

Theorem json_folder_iff fs p loc es : fs_ok fs -> at_path fs p loc -> lies fs loc (Dir es) -> json_readable fs loc ->
  (exists r, load_nested_json fs p = Fine r) <->
  (forall path name u, counted JSON fs loc path name u -> exists l, object_of u l /\ member (JObj l) "segmentation_type" (JStr "linear") /\ well_formed (JObj l)) /\
  (forall p1 n1 u1 l1 i1 m1 p2 n2 u2 l2 i2 m2 j c, counted JSON fs loc p1 n1 u1 -> object_of u1 l1 -> counted JSON fs loc p2 n2 u2 -> object_of u2 l2 -> (p1, n1) <> (p2, n2) ->
     filed (Some p1) i1 j -> filed (Some p2) i2 j -> coded_in (JObj l1) i1 c m1 -> ~ coded_in (JObj l2) i2 c m2).
Proof.
  intros HO Hp Hd HK. unfold load_nested_json. rewrite (folder_succeeds JSON (fun _ => read_json) fs HO _ (json_load fs) json_items_ok p loc es Hp Hd (readable_known fs loc HK)). split.
  - intros [H1 H2]. split.
    + intros path name u Hc. destruct (H1 _ _ _ Hc) as [o Ho]. apply read_accepts. eauto.
    + intros p1 n1 u1 l1 i1 m1 p2 n2 u2 l2 i2 m2 j c C1 L1 C2 L2 Hne F1 F2 K1 K2. destruct (H1 _ _ _ C1) as [o1 O1]. destruct (H1 _ _ _ C2) as [o2 O2].
      refine (H2 _ _ _ _ _ _ _ _ _ _ _ _ C1 O1 C2 O2 Hne F1 F2 _ _).
      * exists m1. apply (read_codings u1 l1 o1 L1 O1), K1.
      * exists m2. apply (read_codings u2 l2 o2 L2 O2), K2.
  - intros [H1 H2]. split.
    + intros path name u Hc. apply read_accepts. eauto.
    + intros p1 n1 u1 o1 i1 p2 n2 u2 o2 i2 j c C1 O1 C2 O2 Hne F1 F2 [m1 K1] [m2 K2].
      destruct (ok_object u1 o1 O1) as (l1 & L1 & Q1 & _). destruct (ok_object u2 o2 O2) as (l2 & L2 & Q2 & _).
      apply (H2 _ _ _ _ _ m1 _ _ _ _ _ m2 j c C1 L1 C2 L2 Hne F1 F2); [apply Q1, K1|apply Q2, K2].
Qed.

Theorem json_folder_fails fs p loc es f : fs_ok fs -> at_path fs p loc -> lies fs loc (Dir es) -> json_readable fs loc -> load_nested_json fs p = Fails f ->
  exists e, f = Raised e /\ (e = DataIOError \/ e = AttributeError \/ e = TypeError).
Proof.
  intros HO Hp Hd HK H. destruct (folder_fails JSON (fun _ => read_json) fs HO _ (json_load fs) json_items_ok p loc es f Hp Hd (readable_known fs loc HK) H) as (e & -> & [(path & name & u & _ & E)|[-> _]]);
    exists e || exists DataIOError; split; auto. exact (read_errors u e E).
Qed.

Theorem no_folder fs p : fs_ok fs -> (forall es, ~ folder_at fs p es) ->
  (exists e, load_nested_json fs p = Fails (OSFault e)) /\ (exists e, load_nested_tsv fs p = Fails (OSFault e)).
Proof. intros HO H. split; apply load_nested_no_folder; assumption. Qed.

(** A dataset that is written to a folder and loaded from it. *)
Theorem folder_round_trip frepr fs p loc es (d : dataset (list json)) : fs_ok fs -> at_path fs p loc -> lies fs loc (Dir es) -> target fs p (loc ++ ["output.json"%string]) ->
  (forall path name u, lies fs (loc ++ path ++ [name]) (File u) -> path = [] /\ name = "output.json"%string \/ forall base, ~ named JSON base name) ->
  items_ok (ds_items d) ->
  (forall i c m, coding_at (ds_items d) i c = Some m -> is_masses m) -> json_ok (JObj (ds_props d)) -> floats_ok frepr (JObj (ds_props d)) ->
  "items"%string ∉ (ds_props d).*1 ->
  (dget (ds_props d) "segmentation_type" = None \/ dget (ds_props d) "segmentation_type" = Some (JStr "linear")) ->
  exists fs', output_linear_mass_json frepr fs p d None = (fs', Fine tt) /\
  exists r, load_nested_json fs' p = Fine r /\ (forall i c, coding_at (ds_items r) i c = coding_at (ds_items d) i c) /\
    (forall i, i ∈ (ds_items r).*1 <-> i ∈ (ds_items d).*1) /\ (forall c, c ∈ ds_coders r <-> codes (ds_items d) c) /\ items_ok (ds_items r) /\ ds_format r = FMass.
Proof.
  intros HO Hp Hd HT HN H1 H2 H3 H4 H5 H6. unfold output_linear_mass_json. destruct (writes fs HO p (written frepr d) None) as [W _].
  destruct (write_json fs p (written frepr d) None) as [fs' r']. cbn [fst snd] in W. destruct (W _ HT) as (HO' & HC & ->). exists fs'. split; [reflexivity|].
  destruct (file_round_trip frepr d H1 H2 H3 H4 H5 H6) as (o & Ho & O1 & O2 & O3 & _).
  pose proof (changed_at _ _ _ _ HC _ _ Hp) as Hp'. destruct (changed_dir _ _ _ _ HC _ _ Hd) as [es' Hd'].
  assert (Hfiles : forall path name u, lies fs' (loc ++ path ++ [name]) (File u) -> (exists base, named JSON base name) -> path = [] /\ name = "output.json"%string /\ u = written frepr d).
  { intros path name u Hl [base Hb]. destruct (decide (loc ++ path ++ [name] = loc ++ ["output.json"%string])) as [E|E].
    - apply app_inv_head in E. destruct path as [|x path]; [|destruct path; discriminate]. injection E as ->. split; [reflexivity|]. split; [reflexivity|].
      pose proof (lies_unique fs' HO' _ _ _ Hl (proj1 HC)) as [= ->]. reflexivity.
    - apply HC in Hl; [|exact E]. destruct (HN path name u Hl) as [[-> ->]|HN']; [contradiction|]. exfalso. exact (HN' _ Hb). }
  assert (HK : forall path name u, lies fs' (loc ++ path ++ [name]) (File u) -> (exists base, named JSON base name) -> read_json u <> None).
  { intros path name u Hl Hb. destruct (Hfiles _ _ _ Hl Hb) as (_ & _ & ->). rewrite Ho. discriminate. }
  assert (Hcounted : forall path name u, counted JSON fs' loc path name u -> path = [] /\ name = "output.json"%string /\ u = written frepr d).
  { intros path name u (sub & Hl & pre & base & post & -> & Hb & _). apply Hfiles; [|eauto]. rewrite app_assoc. apply lies_app. eexists. split; [exact Hl|]. apply lies_one, elem_of_app. right. left. }
  assert (Hself : counted JSON fs' loc [] "output.json" (written frepr d)).
  { exists es'. rewrite app_nil_r. split; [exact Hd'|]. destruct (lies_parent fs' HO' _ _ _ (proj1 HC)) as (es1 & E1 & E2 & _). pose proof (lies_unique fs' HO' _ _ _ Hd' E1) as [= <-].
    assert (Hb : exists base, named JSON base "output.json") by (apply accepted_names; reflexivity). destruct Hb as [base Hb].
    destruct (dir_ok fs' HO' _ _ Hd') as [Hk _]. apply elem_of_list_split in E2 as (pre & post & ->). exists pre, base, post. split; [reflexivity|]. split; [exact Hb|].
    intros name' u' Hin Hb'. destruct (Hfiles [] name' u') as (_ & -> & _); [cbn [app]; apply lies_app; eexists; split; [exact Hd'|apply lies_one, elem_of_app; right; right; exact Hin]|eauto|].
    unfold dict_ok in Hk. rewrite fmap_app in Hk. apply NoDup_app in Hk as (_ & _ & Hk). cbn [fmap list_fmap fst] in Hk. apply NoDup_cons in Hk as [Hk _]. apply Hk, elem_of_list_fmap.
    exists ("output.json"%string, File u'). auto. }
  destruct (proj2 (folder_succeeds JSON (fun _ => read_json) fs' HO' _ (json_load fs') json_items_ok p loc es' Hp' Hd' HK)) as [r Hr].
  { split.
    - intros path name u Hc. destruct (Hcounted _ _ _ Hc) as (_ & _ & ->). eauto.
    - intros p1 n1 u1 o1 i1 p2 n2 u2 o2 i2 j c C1 _ C2 _ Hne. exfalso. apply Hne. destruct (Hcounted _ _ _ C1) as (-> & -> & _). destruct (Hcounted _ _ _ C2) as (-> & -> & _). reflexivity. }
  exists r. split; [exact Hr|].
  destruct (folder_loaded JSON (fun _ => read_json) fs' HO' _ (json_load fs') json_items_ok p loc es' r Hp' Hd' HK Hr) as (_ & R1 & R2 & R3 & R4 & R5).
  assert (HR : forall j c v, coding_at (ds_items r) j c = Some v <-> coding_at (ds_items d) j c = Some v).
  { intros j c v. rewrite R1, <- O1. split.
    - intros (path & name & u & o' & i & Hc & Eo & F & K). destruct (Hcounted _ _ _ Hc) as (-> & -> & ->). rewrite Ho in Eo. injection Eo as <-. cbn in F. subst j. exact K.
    - intros K. exists [], "output.json"%string, (written frepr d), o, j. split; [exact Hself|]. split; [exact Ho|]. split; [reflexivity|exact K]. }
  split; [|split; [|split; [|auto]]].
  - intros i c. destruct (coding_at (ds_items d) i c) as [v|] eqn:E; [apply HR, E|]. destruct (coding_at (ds_items r) i c) as [v|] eqn:E'; [|reflexivity]. apply HR in E'. congruence.
  - intros j. rewrite R2, <- O2. split.
    + intros (path & name & u & o' & i & Hc & Eo & F & K). destruct (Hcounted _ _ _ Hc) as (-> & -> & ->). rewrite Ho in Eo. injection Eo as <-. cbn in F. subst j. exact K.
    + intros K. exists [], "output.json"%string, (written frepr d), o, j. split; [exact Hself|]. split; [exact Ho|]. split; [reflexivity|exact K].
  - intros c. rewrite R3. unfold codes. split; intros (i & v & K); exists i, v; apply HR, K.
Qed.

(** ** Folders of tables *)

Lemma tab_separator : separator c_tab.
Proof. repeat split; discriminate. Qed.

Lemma named_item t base name : named t base name -> name_from_filename name = str base.
Proof.
  intros H. unfold name_from_filename. change (fst (splitext name)) with (stem name). rewrite (named_stem _ _ _ H). destruct H as (w & ext & _ & _ & _ & c & Hc & _).
  destruct base as [|a base]; [apply elem_of_nil in Hc; contradiction|]. reflexivity.
Qed.

Lemma tsv_read name u o : read_tsv c_tab name u = Ok o -> items_ok (ds_items o) /\
  forall i, (i ∈ (ds_items o).*1 <-> i = name_from_filename name) /\ forall c zs, coding_at (ds_items o) i c = Some zs <-> i = name_from_filename name /\ row_in u c zs.
Proof.
  intros H. destruct (every_text c_tab u tab_separator) as (rows & HT & HU).
  pose proof (csv_limit c_tab rows u tab_separator HT) as HL. unfold read_tsv in H. destruct (csv_rows c_tab u) as [rs b] eqn:Ec. cbn [snd] in HL.
  destruct (input_tsv (name_from_filename name) rs) as [o'|] eqn:Eo; [|discriminate]. cbn [bind] in H. destruct b; [discriminate|]. injection H as ->.
  pose proof (csv_table c_tab rows u tab_separator HT (proj1 HL eq_refl)) as E. rewrite Ec in E. injection E as ->. destruct rows as [|header rows].
  - cbn in Eo. injection Eo as <-. cbn [with_items ds_items]. split; [split; [repeat constructor; intros K; apply elem_of_nil in K; contradiction|]|].
    + intros i cs K. apply elem_of_list_singleton in K as [= -> ->]. constructor.
    + intros i. split; [cbn; apply elem_of_list_singleton|]. intros c zs. unfold coding_at. cbn [dget]. split.
      * case_decide; discriminate.
      * intros (_ & header & rows & pre & row & post & HT' & _). specialize (HU _ HT'). discriminate.
  - change (map (map str) (header :: rows)) with (map str header :: (map str <$> rows)) in Eo. destruct (tsv_result _ _ _ _ Eo) as (R1 & R2 & _ & R3). split; [exact R2|]. intros i. split; [rewrite R1; apply elem_of_list_singleton|]. intros c zs. split.
    + intros K. assert (i = name_from_filename name) as ->.
      { apply elem_of_list_singleton. rewrite <- R1. unfold coding_at in K. destruct (dget (ds_items o) i) eqn:Ei; [|discriminate]. apply dget_is_Some. eauto. }
      split; [reflexivity|]. apply R3 in K as (pre & row & post & E & K1 & K2). apply fmap_app_inv in E as (pre' & rest & -> & E & ->). symmetry in E. destruct rest as [|row' post']; [discriminate|].
      cbn [fmap list_fmap] in E. injection E as <- <-. exists header, (pre' ++ row' :: post'), pre', row', post'. split; [exact HT|]. split; [reflexivity|]. split; [exact K1|].
      rewrite List.Forall_map in K2. exact K2.
    + intros (-> & header' & rows' & pre & row & post & HT' & -> & K1 & K2). specialize (HU _ HT') as [= -> <-]. apply R3. exists (map (map str) pre), (map str row), (map (map str) post).
      split; [rewrite map_app; reflexivity|]. split; [exact K1|]. rewrite List.Forall_map. exact K2.
Qed.

Lemma tsv_load fs p u : Files.open_read fs p = Fine u -> input_linear_mass_tsv c_tab fs p = match Some (read_tsv c_tab (base_name p) u) with Some r => of_res r | None => Fails NotModelled end.
Proof. intros H. unfold input_linear_mass_tsv. rewrite H. reflexivity. Qed.

Theorem tsv_folder fs p loc es r : fs_ok fs -> at_path fs p loc -> lies fs loc (Dir es) -> load_nested_tsv fs p = Fine r ->
  (forall j c zs, coding_at (ds_items r) j c = Some zs <->
     exists path base name u, counted TSV fs loc path name u /\ named TSV base name /\ filed (Some path) (str base) j /\ row_in u c zs) /\
  (forall j, j ∈ (ds_items r).*1 <-> exists path base name u, counted TSV fs loc path name u /\ named TSV base name /\ filed (Some path) (str base) j) /\
  (forall c, c ∈ ds_coders r <-> codes (ds_items r) c) /\ items_ok (ds_items r) /\ ds_format r = FMass.
Proof.
  intros HO Hp Hd H.
  destruct (folder_loaded TSV (fun name u => Some (read_tsv c_tab name u)) fs HO _ (tsv_load fs) ltac:(intros name u o [= E]; apply (tsv_read _ _ _ E)) p loc es r Hp Hd ltac:(discriminate) H) as (R0 & R1 & R2 & R3).
  assert (Hb : forall path name u, counted TSV fs loc path name u -> exists base, named TSV base name) by (intros path name u (sub & _ & pre & base & post & _ & Hb & _); eauto).
  split; [|split; [|exact R3]].
  - intros j c zs. rewrite R1. split.
    + intros (path & name & u & o & i & Hc & [= Ho] & F & K). destruct (Hb _ _ _ Hc) as [base Hn]. apply (tsv_read _ _ _ Ho) in K as [-> K]. rewrite (named_item _ _ _ Hn) in F. exists path, base, name, u. auto.
    + intros (path & base & name & u & Hc & Hn & F & K). destruct (R0 _ _ _ Hc) as [o Ho]. exists path, name, u, o, (str base). split; [exact Hc|]. split; [exact Ho|]. split; [exact F|].
      injection Ho as Ho. apply (tsv_read _ _ _ Ho). rewrite (named_item _ _ _ Hn). auto.
  - intros j. rewrite R2. split.
    + intros (path & name & u & o & i & Hc & [= Ho] & F & K). destruct (Hb _ _ _ Hc) as [base Hn]. apply (tsv_read _ _ _ Ho) in K as ->. rewrite (named_item _ _ _ Hn) in F. exists path, base, name, u. auto.
    + intros (path & base & name & u & Hc & Hn & F). destruct (R0 _ _ _ Hc) as [o Ho]. exists path, name, u, o, (str base). split; [exact Hc|]. split; [exact Ho|]. split; [exact F|].
      injection Ho as Ho. apply (tsv_read _ _ _ Ho). rewrite (named_item _ _ _ Hn). reflexivity.
Qed.

Theorem tsv_folder_iff fs p loc es : fs_ok fs -> at_path fs p loc -> lies fs loc (Dir es) ->
  (exists r, load_nested_tsv fs p = Fine r) <->
  (forall path name u, counted TSV fs loc path name u -> exists o, read_tsv c_tab name u = Ok o) /\
  (forall p1 b1 n1 u1 p2 b2 n2 u2 j c z1 z2, counted TSV fs loc p1 n1 u1 -> named TSV b1 n1 -> counted TSV fs loc p2 n2 u2 -> named TSV b2 n2 -> (p1, n1) <> (p2, n2) ->
     filed (Some p1) (str b1) j -> filed (Some p2) (str b2) j -> row_in u1 c z1 -> ~ row_in u2 c z2).
Proof.
  intros HO Hp Hd. unfold load_nested_tsv.
  rewrite (folder_succeeds TSV (fun name u => Some (read_tsv c_tab name u)) fs HO _ (tsv_load fs) ltac:(intros name u o [= E]; apply (tsv_read _ _ _ E)) p loc es Hp Hd ltac:(discriminate)). split.
  - intros [H1 H2]. split; [intros path name u Hc; destruct (H1 _ _ _ Hc) as [o [= Ho]]; eauto|].
    intros p1 b1 n1 u1 p2 b2 n2 u2 j c z1 z2 C1 N1 C2 N2 Hne F1 F2 K1 K2. destruct (H1 _ _ _ C1) as [o1 O1]. destruct (H1 _ _ _ C2) as [o2 O2].
    refine (H2 _ _ _ _ _ _ _ _ _ _ _ c C1 O1 C2 O2 Hne F1 F2 _ _).
    + exists z1. injection O1 as O1. apply (tsv_read _ _ _ O1). rewrite (named_item _ _ _ N1). auto.
    + exists z2. injection O2 as O2. apply (tsv_read _ _ _ O2). rewrite (named_item _ _ _ N2). auto.
  - intros [H1 H2]. split; [intros path name u Hc; destruct (H1 _ _ _ Hc) as [o Ho]; exists o; congruence|].
    assert (Hb : forall path name u, counted TSV fs loc path name u -> exists base, named TSV base name) by (intros path name u (sub & _ & pre & base & post & _ & Hb & _); eauto).
    intros p1 n1 u1 o1 i1 p2 n2 u2 o2 i2 j c C1 [= O1] C2 [= O2] Hne F1 F2 [z1 K1] [z2 K2]. destruct (Hb _ _ _ C1) as [b1 N1]. destruct (Hb _ _ _ C2) as [b2 N2].
    apply (tsv_read _ _ _ O1) in K1 as [-> K1]. apply (tsv_read _ _ _ O2) in K2 as [-> K2]. rewrite (named_item _ _ _ N1) in F1. rewrite (named_item _ _ _ N2) in F2.
    exact (H2 _ _ _ _ _ _ _ _ j c z1 z2 C1 N1 C2 N2 Hne F1 F2 K1 K2).
Qed.
