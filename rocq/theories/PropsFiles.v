(** Properties C80, C81 and part of C56: files and folders. *)
From Verif Require Import FolderProofs FolderClash JsonRound JsonFile.
From Verif Require Import SpecFiles FilesProofs FilesWrite FilesFolder FilesMain.
Open Scope Z_scope.

(** ** C80 *)

(** A file is written exactly if the path has a target; then the target holds the text, or the part that was written before
    json.dump failed, and nothing else changes. Otherwise nothing changes and an OSError is raised. *)
Theorem C80_write : forall fs p t stop, fs_ok fs -> let r := write_json fs p t stop in
  (forall loc, target fs p loc -> fs_ok (fst r) /\ only_changed fs (fst r) loc (match stop with Some n => take n t | None => t end) /\
     snd r = match stop with Some _ => Fails Interrupted | None => Fine tt end) /\
  ((exists loc, target fs p loc) \/ (fst r = fs /\ exists e, snd r = Fails (OSFault e))).
Proof. intros fs p t stop HO. exact (writes fs HO p t stop). Qed.
Print Assumptions C80_write.

(** Reading a path gives the text of the file that the path leads to. *)
Theorem C80_read : forall fs p t, fs_ok fs -> open_read fs p = Fine t <-> file_at fs p t.
Proof. intros fs p t HO. exact (open_read_iff fs HO p t). Qed.
Print Assumptions C80_read.

(** A dataset that was written to a path, or to output.json in the folder at that path, is read back. *)
Theorem C80_round_trip : forall frepr fs p q loc (d : dataset (list json)), fs_ok fs -> target fs p loc -> result_path fs p q -> items_ok (ds_items d) ->
  (forall i c m, coding_at (ds_items d) i c = Some m -> is_masses m) -> json_ok (JObj (ds_props d)) -> floats_ok frepr (JObj (ds_props d)) ->
  "items"%string ∉ (ds_props d).*1 ->
  (dget (ds_props d) "segmentation_type" = None \/ dget (ds_props d) "segmentation_type" = Some (JStr "linear")) ->
  exists fs', output_linear_mass_json frepr fs p d None = (fs', Fine tt) /\ file_at fs' q (written frepr d) /\
  exists r, input_linear_mass_json fs' q = Fine r /\ (forall i c, coding_at (ds_items r) i c = coding_at (ds_items d) i c) /\
    (forall i, i ∈ (ds_items r).*1 <-> i ∈ (ds_items d).*1).
Proof. exact write_read. Qed.
Print Assumptions C80_round_trip.

(** If json.dump fails midway, the target holds a part of the document, which is never read as data. *)
Theorem C80_interrupted : forall frepr fs p q loc (d : dataset (list json)) n, fs_ok fs -> target fs p loc -> result_path fs p q -> items_ok (ds_items d) ->
  (forall i c m, coding_at (ds_items d) i c = Some m -> is_masses m) -> json_ok (JObj (ds_props d)) -> floats_ok frepr (JObj (ds_props d)) ->
  (n < List.length (written frepr d))%nat ->
  exists fs', output_linear_mass_json frepr fs p d (Some n) = (fs', Fails Interrupted) /\ only_changed fs fs' loc (take n (written frepr d)) /\
  (forall r, input_linear_mass_json fs' q <> Fine r) /\
  (~ beyond (take n (written frepr d)) -> input_linear_mass_json fs' q = Fails (Raised DataIOError)).
Proof. exact interrupted. Qed.
Print Assumptions C80_interrupted.

Definition dq1 (c : Ascii.ascii) : Ascii.ascii := if bool_decide (c = chr 39) then chr 34 else c.
Definition doc1 : text := dq1 <$> chars "{'segmentation_type': 'linear', 'items': {'d': {'c1': [2, 3], 'c2': [5]}}}".
Definition doc2 : text := dq1 <$> chars "{'segmentation_type': 'linear', 'items': {'d': {'c1': [4, 4]}}}".
Definition table : text := chars "coder" ++ c_lf :: chars "c1" ++ c_tab :: chars "2" ++ c_tab :: chars "3" ++ [c_lf].
Definition disk : entry := Dir [
  ("data", Dir [("a.json", File doc1); ("sub", Dir [("b.JSON", File doc2); ("readme", File (chars "NaN"))]); ("t.tsv", File table)]);
  ("new", Dir [])]%string.
Definition fr0 (q : Q) : text := chars "0.5".
Definition ds1 : dataset (list json) := new_dataset (Some [("i", [("c1", [JInt 2; JInt 3])])])%string (Some [("id", JStr "x")])%string None FMass.

Example C80_disk_case : fs_ok disk /\ target disk "new" ["new"; "output.json"]%string /\ target disk "data/../x.json" ["x.json"%string] /\
  target disk "/data//sub/b.JSON" ["data"; "sub"; "b.JSON"]%string /\ result_path disk "new" "new/output.json" /\
  (forall loc, ~ target disk "nowhere/x.json" loc) /\ (forall loc, ~ target disk "x.json/" loc).
Proof.
  assert (HO : fs_ok disk) by (apply fs_ok_by; vm_compute; reflexivity). split; [exact HO|].
  assert (W : forall p loc, open_write disk (opened disk p) = Fine loc -> target disk p loc).
  { intros p loc H. destruct (write_cases disk HO p [] None) as [(l & ? & ? & T & _ & _ & _ & O)|(e & _ & O)]; rewrite O in H; [injection H as <-; exact T|discriminate]. }
  assert (N : forall p f, open_write disk (opened disk p) = Fails f -> forall loc, ~ target disk p loc).
  { intros p f H loc T. apply (target_open disk HO) in T. congruence. }
  split; [apply W; vm_compute; reflexivity|]. split; [apply W; vm_compute; reflexivity|]. split; [apply W; vm_compute; reflexivity|]. split; [|split].
  - left. split; [|reflexivity]. apply (isdir_iff disk HO). vm_compute. reflexivity.
  - eapply N. vm_compute. reflexivity.
  - eapply N. vm_compute. reflexivity.
Qed.

Example C80_case : items_ok (ds_items ds1) /\ json_ok (JObj (ds_props ds1)) /\ floats_ok fr0 (JObj (ds_props ds1)) /\
  (forall i c m, coding_at (ds_items ds1) i c = Some m -> is_masses m) /\
  match output_linear_mass_json fr0 disk "new" ds1 None with
  | (fs', Fine tt) => match input_linear_mass_json fs' "new/output.json" with Fine r => ds_items r = ds_items ds1 | _ => False end
  | _ => False
  end /\
  match output_linear_mass_json fr0 disk "new" ds1 (Some 40%nat) with
  | (fs', Fails Interrupted) => input_linear_mass_json fs' "new/output.json" = Fails (Raised DataIOError)
  | _ => False
  end /\ (40 < List.length (written fr0 ds1))%nat.
Proof.
  split; [|split; [|split; [|split; [|split; [|split]]]]].
  - split; [refine (bool_decide_unpack _ _); vm_compute; exact I|]. intros i cs H. apply elem_of_list_singleton in H as [= -> ->]. refine (bool_decide_unpack _ _). vm_compute. exact I.
  - apply json_ok_intro; [refine (bool_decide_unpack _ _); vm_compute; exact I|]. intros k v K. apply elem_of_list_singleton in K as [= -> ->]. exact I.
  - repeat split.
  - intros i c m. change (ds_items ds1) with [("i", [("c1", [JInt 2; JInt 3])])]%string. unfold coding_at. cbn [dget]. case_decide; [|discriminate]. cbn [dget]. case_decide; [|discriminate]. intros [= <-]. exists [2; 3]. reflexivity.
  - vm_compute. reflexivity.
  - vm_compute. reflexivity.
  - apply Nat.ltb_lt. vm_compute. reflexivity.
Qed.

(** "If writing fails, the files that were there keep their content": no, the old file is truncated first. *)
Theorem C80_failure_keeps_files_refuted : ~ (forall fs p t n fs', fs_ok fs -> write_json fs p t (Some n) = (fs', Fails Interrupted) ->
  forall q u, file_at fs q u -> file_at fs' q u).
Proof.
  intros K. assert (HO : fs_ok disk) by (apply fs_ok_by; vm_compute; reflexivity).
  destruct (write_json disk "data/a.json" doc2 (Some O)) as [fs' r] eqn:E.
  assert (Er : r = Fails Interrupted /\ open_read fs' "data/a.json" = Fine []) by (vm_compute in E; injection E as <- <-; vm_compute; auto). destruct Er as [-> Er].
  assert (HO' : fs_ok fs') by (vm_compute in E; injection E as <-; apply fs_ok_by; vm_compute; reflexivity).
  assert (F := K _ _ _ _ _ HO E "data/a.json"%string doc1 ltac:(apply (open_read_iff disk HO); vm_compute; reflexivity)).
  apply (open_read_iff fs' HO') in F. rewrite Er in F. discriminate.
Qed.
Print Assumptions C80_failure_keeps_files_refuted.

(** ** C81 *)

(** What loading a folder of documents gives. *)
Theorem C81_json : forall fs p loc es r, fs_ok fs -> at_path fs p loc -> lies fs loc (Dir es) -> json_readable fs loc -> load_nested_json fs p = Fine r ->
  (forall j c m, coding_at (ds_items r) j c = Some m <->
     exists path name u l i, counted JSON fs loc path name u /\ object_of u l /\ filed (Some path) i j /\ coded_in (JObj l) i c m) /\
  (forall j, j ∈ (ds_items r).*1 <->
     exists path name u l i items it, counted JSON fs loc path name u /\ object_of u l /\ filed (Some path) i j /\ member (JObj l) "items" items /\ member items i it) /\
  (forall c, c ∈ ds_coders r <-> codes (ds_items r) c) /\ items_ok (ds_items r) /\ ds_format r = FMass.
Proof. exact json_folder. Qed.
Print Assumptions C81_json.

(** It succeeds exactly if every file that counts is acceptable and no two of them code one item by one coder. *)
Theorem C81_json_succeeds : forall fs p loc es, fs_ok fs -> at_path fs p loc -> lies fs loc (Dir es) -> json_readable fs loc ->
  (exists r, load_nested_json fs p = Fine r) <->
  (forall path name u, counted JSON fs loc path name u -> exists l, object_of u l /\ member (JObj l) "segmentation_type" (JStr "linear") /\ well_formed (JObj l)) /\
  (forall p1 n1 u1 l1 i1 m1 p2 n2 u2 l2 i2 m2 j c, counted JSON fs loc p1 n1 u1 -> object_of u1 l1 -> counted JSON fs loc p2 n2 u2 -> object_of u2 l2 -> (p1, n1) <> (p2, n2) ->
     filed (Some p1) i1 j -> filed (Some p2) i2 j -> coded_in (JObj l1) i1 c m1 -> ~ coded_in (JObj l2) i2 c m2).
Proof. exact json_folder_iff. Qed.
Print Assumptions C81_json_succeeds.

Theorem C81_json_fails : forall fs p loc es f, fs_ok fs -> at_path fs p loc -> lies fs loc (Dir es) -> json_readable fs loc -> load_nested_json fs p = Fails f ->
  exists e, f = Raised e /\ (e = DataIOError \/ e = AttributeError \/ e = TypeError).
Proof. exact json_folder_fails. Qed.
Print Assumptions C81_json_fails.

(** The same for tables. *)
Theorem C81_tsv : forall fs p loc es r, fs_ok fs -> at_path fs p loc -> lies fs loc (Dir es) -> load_nested_tsv fs p = Fine r ->
  (forall j c zs, coding_at (ds_items r) j c = Some zs <->
     exists path base name u, counted TSV fs loc path name u /\ named TSV base name /\ filed (Some path) (str base) j /\ row_in u c zs) /\
  (forall j, j ∈ (ds_items r).*1 <-> exists path base name u, counted TSV fs loc path name u /\ named TSV base name /\ filed (Some path) (str base) j) /\
  (forall c, c ∈ ds_coders r <-> codes (ds_items r) c) /\ items_ok (ds_items r) /\ ds_format r = FMass.
Proof. exact tsv_folder. Qed.
Print Assumptions C81_tsv.

Theorem C81_tsv_succeeds : forall fs p loc es, fs_ok fs -> at_path fs p loc -> lies fs loc (Dir es) ->
  (exists r, load_nested_tsv fs p = Fine r) <->
  (forall path name u, counted TSV fs loc path name u -> exists o, read_tsv c_tab name u = Ok o) /\
  (forall p1 b1 n1 u1 p2 b2 n2 u2 j c z1 z2, counted TSV fs loc p1 n1 u1 -> named TSV b1 n1 -> counted TSV fs loc p2 n2 u2 -> named TSV b2 n2 -> (p1, n1) <> (p2, n2) ->
     filed (Some p1) (str b1) j -> filed (Some p2) (str b2) j -> row_in u1 c z1 -> ~ row_in u2 c z2).
Proof. exact tsv_folder_iff. Qed.
Print Assumptions C81_tsv_succeeds.

(** A path that is no folder. *)
Theorem C81_no_folder : forall fs p, fs_ok fs -> (forall es, ~ folder_at fs p es) ->
  (exists e, load_nested_json fs p = Fails (OSFault e)) /\ (exists e, load_nested_tsv fs p = Fails (OSFault e)).
Proof. exact no_folder. Qed.
Print Assumptions C81_no_folder.

(** A dataset that is written to a folder without other documents and loaded from the folder has its codings and, unlike one
    that is loaded from the file ([C57_json]), its coders. *)
Theorem C81_round_trip : forall frepr fs p loc es (d : dataset (list json)), fs_ok fs -> at_path fs p loc -> lies fs loc (Dir es) -> target fs p (loc ++ ["output.json"%string]) ->
  (forall path name u, lies fs (loc ++ path ++ [name]) (File u) -> path = [] /\ name = "output.json"%string \/ forall base, ~ named JSON base name) ->
  items_ok (ds_items d) ->
  (forall i c m, coding_at (ds_items d) i c = Some m -> is_masses m) -> json_ok (JObj (ds_props d)) -> floats_ok frepr (JObj (ds_props d)) ->
  "items"%string ∉ (ds_props d).*1 ->
  (dget (ds_props d) "segmentation_type" = None \/ dget (ds_props d) "segmentation_type" = Some (JStr "linear")) ->
  exists fs', output_linear_mass_json frepr fs p d None = (fs', Fine tt) /\
  exists r, load_nested_json fs' p = Fine r /\ (forall i c, coding_at (ds_items r) i c = coding_at (ds_items d) i c) /\
    (forall i, i ∈ (ds_items r).*1 <-> i ∈ (ds_items d).*1) /\ (forall c, c ∈ ds_coders r <-> codes (ds_items d) c) /\ items_ok (ds_items r) /\ ds_format r = FMass.
Proof. exact folder_round_trip. Qed.
Print Assumptions C81_round_trip.

Lemma plain_not_beyond t : chr 78 ∉ t -> chr 73 ∉ t -> chr 92 ∉ t -> ~ beyond t.
Proof.
  intros H1 H2 H3 (pre & w & post & -> & [->|[->|(a & b & c & d & z1 & z2 & z3 & z4 & -> & _)]]).
  - apply H1, elem_of_app. right. left.
  - apply H2, elem_of_app. right. left.
  - apply H3, elem_of_app. right. left.
Qed.

Example C81_case : at_path disk "data/" ["data"%string] /\ (exists es, lies disk ["data"%string] (Dir es)) /\ json_readable disk ["data"%string] /\
  match load_nested_json disk "data/" with
  | Fine r => ds_items r = [("d", [("c1", [JInt 2; JInt 3]); ("c2", [JInt 5])]); ("sub,d", [("c1", [JInt 4; JInt 4])])]%string
  | _ => False
  end /\
  match load_nested_tsv disk "data" with Fine r => ds_items r = [("t", [("c1", [2; 3])])]%string | _ => False end /\
  load_nested_json disk "nowhere" = Fails (OSFault Missing).
Proof.
  assert (HO : fs_ok disk) by (apply fs_ok_by; vm_compute; reflexivity). split; [apply (resolve_found disk HO); vm_compute; reflexivity|].
  split; [eexists; apply (entry_at_lies disk HO); vm_compute; reflexivity|]. split; [|split; [vm_compute; reflexivity|split; vm_compute; reflexivity]].
  intros path name u Hl [base Hb]. assert (Ha : accepted JSON name = true) by (apply FolderNames.accepted_names; eauto). apply lies_files with (pre := []) in Hl. cbn [app] in Hl.
  change (files_in [] disk) with [(["data"; "a.json"]%string, doc1); (["data"; "sub"; "b.JSON"]%string, doc2); (["data"; "sub"; "readme"]%string, chars "NaN"); (["data"; "t.tsv"]%string, table)] in Hl.
  assert (HN : forall v, v = doc1 \/ v = doc2 -> ~ beyond (translate v)).
  { intros v [-> | ->]; apply plain_not_beyond; refine (bool_decide_unpack _ _); vm_compute; exact I. }
  repeat (apply elem_of_cons in Hl as [Hl|Hl]); [| | | |apply elem_of_nil in Hl; contradiction]; injection Hl as E ->; [apply HN; auto|apply HN; auto| |];
    exfalso; apply (f_equal last) in E; rewrite last_snoc in E; injection E as ->; discriminate.
Qed.

Example C81_round_trip_case : at_path disk "new" ["new"%string] /\ lies disk ["new"%string] (Dir []) /\ target disk "new" (["new"%string] ++ ["output.json"%string]) /\
  (forall path name u, ~ lies disk (["new"%string] ++ path ++ [name]) (File u)) /\
  match load_nested_json (fst (output_linear_mass_json fr0 disk "new" ds1 None)) "new" with
  | Fine r => ds_items r = ds_items ds1 /\ elements (ds_coders r) = ["c1"%string]
  | _ => False
  end.
Proof.
  assert (HO : fs_ok disk) by (apply fs_ok_by; vm_compute; reflexivity). split; [apply (resolve_found disk HO); vm_compute; reflexivity|].
  split; [apply (entry_at_lies disk HO); vm_compute; reflexivity|]. split; [apply C80_disk_case|]. split.
  - intros path name u Hl. apply lies_files with (pre := []) in Hl. cbn [app] in Hl.
    change (files_in [] disk) with [(["data"; "a.json"]%string, doc1); (["data"; "sub"; "b.JSON"]%string, doc2); (["data"; "sub"; "readme"]%string, chars "NaN"); (["data"; "t.tsv"]%string, table)] in Hl.
    repeat (apply elem_of_cons in Hl as [Hl|Hl]; [discriminate|]). apply elem_of_nil in Hl. exact Hl.
  - vm_compute. auto.
Qed.

(** ** C56 *)

(** Two files that code one item by one coder are never both loaded: the call fails. *)
Theorem C56_clash : forall (C : Type) t (entries : list (string * node C)), tree_ok entries -> loads_ok entries -> forall r, load_nested_folders t entries = Ok r ->
  forall p1 n1 o1 i1 p2 n2 o2 i2 j c, taken t entries p1 n1 (Ok o1) -> taken t entries p2 n2 (Ok o2) -> (p1, n1) <> (p2, n2) -> filed (Some p1) i1 j -> filed (Some p2) i2 j ->
  is_Some (coding_at (ds_items o1) i1 c) -> ~ is_Some (coding_at (ds_items o2) i2 c).
Proof. exact (@nested_no_clash). Qed.
Print Assumptions C56_clash.

(** The same coding in two files of one folder. *)
Example C56_clash_case : load_nested_json (Dir [("a.json", File doc1); ("b.json", File doc1)])%string "." = Fails (Raised DataIOError) /\
  load_nested_json (Dir [("a.json", File doc1); ("s", Dir [("b.json", File doc1)])])%string "." <> Fails (Raised DataIOError).
Proof. split; [vm_compute; reflexivity|vm_compute; discriminate]. Qed.
