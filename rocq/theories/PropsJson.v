(** Properties C68 and C69: JSON texts and what the JSON loader and writer make of them
    (segeval/data/jsonutils.py:23-82 with CPython's json.dumps and json.loads). *)
From Verif Require Import SpecJson DataProofs JsonRound JsonLex JsonParse JsonPrint JsonFile CsvMain PropsData.
Open Scope Z_scope.

(** ** C68 *)

(** json.loads returns a value exactly if the text is a document of the grammar, and then that value. *)
Theorem C68_loads : forall t j, loads t = Loaded j <-> document j t.
Proof. exact loads_spec. Qed.
Print Assumptions C68_loads.

(** A text stands for at most one value, and no object of it has a key twice. *)
Theorem C68_unique : forall t j j', document j t -> document j' t -> j = j' /\ json_ok j.
Proof. intros t j j' H H'. exact (conj (document_unique t j j' H H') (document_ok j t H)). Qed.
Print Assumptions C68_unique.

(** Every other text is rejected, unless it contains NaN, Infinity or an escape of a character above U+00FF. *)
Theorem C68_others : forall t, ~ beyond t -> (exists j, loads t = Loaded j /\ document j t) \/ (loads t = Rejected /\ forall j, ~ document j t).
Proof. exact loads_known. Qed.
Print Assumptions C68_others.

Definition dq (s : string) : text := map (fun c => if decide (c = chr 39) then chr 34 else c) (chars s).
Example C68_case :
  loads (dq " {'a' : [1, -20,0.5e0 , 1E1], 'b\n':{}, 'a': [ ] ,'c':null} ") = Loaded (JObj [("a", JArr []); (str [chr 98; chr 10], JObj []); ("c", JNull)])%string /\
  loads (dq "[1, -20,0.5e0 , 1E1,0,-0]") = Loaded (JArr [JInt 1; JInt (-20); JFloat (1 # 2); JFloat (10 # 1); JInt 0; JInt 0]) /\
  Forall (fun s => loads (dq s) = Rejected) [""; "[1,]"; "{'a':1,}"; "01"; "1."; ".5"; "+1"; "'\x'"; "[1] 2"; "{a:1}"; "nul"; "{'a' 1}"; "[1 2]"; "'a"; "-"]%string /\
  loads (dq "NaN") = Unknown.
Proof. split; [|split; [|split; [repeat (constructor; [vm_compute; reflexivity|]); constructor|]]]; vm_compute; reflexivity. Qed.

(** json.dumps writes line breaks and printable ASCII characters only, and json.loads reads the value back, up to the order of keys. *)
Theorem C68_dumps : forall frepr j, json_ok j -> floats_ok frepr j ->
  printable (dumps frepr j) /\ exists j', document j' (dumps frepr j) /\ loads (dumps frepr j) = Loaded j' /\ same_json j j'.
Proof.
  intros frepr j H F. split; [exact (print_printable frepr j 0%nat F)|].
  exact (ex_intro _ (dump_load j) (conj (dumps_document frepr j H F) (conj (dumps_loads frepr j H F) (dump_load_same j)))).
Qed.
Print Assumptions C68_dumps.

(** Two values have the same text exactly if they are the same up to the order of keys. *)
Theorem C68_canonical : forall frepr j j', json_ok j -> json_ok j' -> floats_ok frepr j -> floats_ok frepr j' ->
  (dumps frepr j = dumps frepr j' <-> exists j0, same_json j j0 /\ same_json j' j0).
Proof.
  intros frepr j j' H H' F F'. split; [exact (dumps_injective frepr j j' H H' F F')|].
  intros (j0 & S & S'). exact (eq_trans (dumps_same frepr j j0 H S) (eq_sym (dumps_same frepr j' j0 H' S'))).
Qed.
Print Assumptions C68_canonical.

(** A text of an object is complete: nothing shorter is a document. *)
Theorem C68_prefix : forall l p s j, json_text (JObj l) (p ++ s) -> s <> [] -> ~ document j p.
Proof. intros l p s j H N D. exact (N (object_prefix l p s j H D)). Qed.
Print Assumptions C68_prefix.

(** A writer of floats, right for the two below. *)
Definition fr (q : Q) : text := if Qeq_bool q (1 # 2) then chars "0.5" else chars "-2.25e+1".
Example C68_dumps_case : let j := JObj [("b", JArr [JFloat (1 # 2); JFloat (-45 # 2)]); ("a", JObj [("y", JBool true); ("x", JStr (str [chr 34; chr 10; chr 233]))]); ("c", JArr [])]%string in
  json_ok j /\ floats_ok fr j /\
  dumps fr j = dq ("{" ++ String (chr 10) "    'a': {" ++ String (chr 10) "        'x': '\'\n\u00e9'," ++ String (chr 10) "        'y': true" ++ String (chr 10) "    }," ++
    String (chr 10) "    'b': [" ++ String (chr 10) "        0.5," ++ String (chr 10) "        -2.25e+1" ++ String (chr 10) "    ]," ++ String (chr 10) "    'c': []" ++ String (chr 10) "}")%string.
Proof.
  intros j. split; [|split; [|vm_compute; reflexivity]].
  - unfold j. apply json_ok_intro; [refine (bool_decide_unpack _ _); vm_compute; exact I|]. intros k v K.
    repeat (apply elem_of_cons in K as [K|K]; [injection K as -> ->|]); [repeat split| |repeat split|apply elem_of_nil in K; contradiction].
    split; [refine (bool_decide_unpack _ _); vm_compute; exact I|repeat split].
  - cbn. repeat split; (apply float_by; [vm_compute; reflexivity|vm_compute; eexists; eexists; split; reflexivity|]).
    + exists (chr 53), (chars "0."). split; reflexivity.
    + exists (chr 49), (chars "-2.25e+"). split; reflexivity.
Qed.

(** ** C69 *)

(** Which files are accepted. *)
Theorem C69_accepts : forall t, (exists r, read_json t = Some (Ok r)) <->
  exists l, document (JObj l) (translate t) /\ member (JObj l) "segmentation_type" (JStr "linear") /\ well_formed (JObj l).
Proof. exact read_accepts. Qed.
Print Assumptions C69_accepts.

(** What is read from an accepted file. *)
Theorem C69_codings : forall t l r, document (JObj l) (translate t) -> read_json t = Some (Ok r) ->
  (forall i c m, coding_at (ds_items r) i c = Some m <-> coded_in (JObj l) i c m) /\
  (forall i, i ∈ (ds_items r).*1 <-> exists items it, member (JObj l) "items" items /\ member items i it) /\
  (forall k v, (k, v) ∈ ds_props r <-> k <> "items"%string /\ member (JObj l) k v) /\
  items_ok (ds_items r) /\ ds_coders r = ∅ /\ ds_format r = FMass.
Proof. exact read_codings. Qed.
Print Assumptions C69_codings.

(** A text that is no document is a DataIOError; nothing else than three exceptions is raised. *)
Theorem C69_rejects : forall t,
  (~ beyond (translate t) -> (forall j, ~ document j (translate t)) -> read_json t = Some (Err DataIOError)) /\
  (forall e, read_json t = Some (Err e) -> e = DataIOError \/ e = AttributeError \/ e = TypeError) /\
  (read_json t = None -> beyond (translate t)).
Proof.
  intros t. refine (conj (read_rejects t) (conj (read_errors t) _)). intros H. apply loads_unknown. revert H. unfold read_json. destruct (loads (translate t)); [discriminate|discriminate|reflexivity].
Qed.
Print Assumptions C69_rejects.

Definition body (s : string) : text := dq ("{'segmentation_type': 'linear', 'items': {" ++ s ++ "}}").
Example C69_read_case :
  match read_json (body "'d': {'a': [2, 3], 'b': [5]}, 'e': {}") with
  | Some (Ok r) => ds_items r = [("d", [("a", ji [2; 3]); ("b", ji [5])]); ("e", [])]%string /\ ds_props r = [("segmentation_type", JStr "linear")]%string
  | _ => False
  end /\
  read_json (body "'d': {'a': [2, 3}") = Some (Err DataIOError) /\ read_json (body "'d': {'a': 5}") = Some (Err TypeError) /\ read_json (body "'d': [5]") = Some (Err AttributeError) /\
  read_json (dq "{'items': {}}") = Some (Err DataIOError) /\ read_json (chars "17") = Some (Err TypeError) /\ read_json (chars "[]") = Some (Err DataIOError).
Proof. repeat split; vm_compute; reflexivity. Qed.

(** "Every coding in the text of an accepted file is loaded": no, of two entries with the same name the first is dropped without an error. *)
Theorem C69_every_coding_loaded_refuted : ~ (forall s its r, members_text its (dq s) -> read_json (body s) = Some (Ok r) ->
  forall i cs c m, (i, JObj cs) ∈ its -> (c, JArr m) ∈ cs -> coding_at (ds_items r) i c = Some m).
Proof.
  intros K. set (s := "'d':{'a':[1,2]},'d':{'a':[3]}"%string).
  assert (M : members_text [("d", JObj [("a", JArr (ji [1; 2]))]); ("d", JObj [("a", JArr (ji [3]))])]%string (dq s)).
  { destruct (proj2 (proj2 (scan_sound 50)) (dq s ++ [c_rbrace]) [("d", JObj [("a", JArr (ji [1; 2]))]); ("d", JObj [("a", JArr (ji [3]))])]%string []) as (u & E & H); [vm_compute; reflexivity|].
    apply app_inj_tail in E as [-> _]. exact H. }
  assert (E : match read_json (body s) with Some (Ok r) => coding_at (ds_items r) "d" "a" = Some (ji [3]) | _ => False end) by (vm_compute; reflexivity).
  destruct (read_json (body s)) as [[r|]|] eqn:Er; try contradiction.
  assert (A : coding_at (ds_items r) "d" "a" = Some (ji [1; 2])); [|rewrite E in A; discriminate].
  apply (K s _ r M Er "d"%string [("a", JArr (ji [1; 2]))]%string); left.
Qed.
Print Assumptions C69_every_coding_loaded_refuted.

(** Writing a dataset of masses and reading the text of the file gives the same codings and items, and the same properties
    (up to the order of keys) plus segmentation_type; the coder set is lost and the format is mass. *)
Theorem C69_round_trip : forall frepr (d : dataset (list json)), items_ok (ds_items d) ->
  (forall i c m, coding_at (ds_items d) i c = Some m -> is_masses m) -> json_ok (JObj (ds_props d)) -> floats_ok frepr (JObj (ds_props d)) ->
  "items"%string ∉ (ds_props d).*1 ->
  (dget (ds_props d) "segmentation_type" = None \/ dget (ds_props d) "segmentation_type" = Some (JStr "linear")) ->
  exists r, read_json (written frepr d) = Some (Ok r) /\
    (forall i c, coding_at (ds_items r) i c = coding_at (ds_items d) i c) /\
    (forall i, i ∈ (ds_items r).*1 <-> i ∈ (ds_items d).*1) /\ items_ok (ds_items r) /\
    (forall k v, k <> "segmentation_type"%string -> (k, v) ∈ ds_props d -> exists v', (k, v') ∈ ds_props r /\ same_json v v') /\
    (forall k v', (k, v') ∈ ds_props r -> k = "segmentation_type"%string /\ v' = JStr "linear" \/ exists v, (k, v) ∈ ds_props d /\ same_json v v') /\
    ("segmentation_type"%string, JStr "linear") ∈ ds_props r /\
    ds_coders r = ∅ /\ ds_format r = FMass.
Proof. exact file_round_trip. Qed.
Print Assumptions C69_round_trip.

(** The file does not depend on the order in which items, coders and properties were added, nor on the coder set. *)
Theorem C69_canonical : forall frepr (d d' : dataset (list json)), items_ok (ds_items d) -> items_ok (ds_items d') ->
  (forall i c m, coding_at (ds_items d) i c = Some m -> is_masses m) ->
  (forall i, i ∈ (ds_items d).*1 <-> i ∈ (ds_items d').*1) -> (forall i c, coding_at (ds_items d) i c = coding_at (ds_items d') i c) ->
  json_ok (JObj (ds_props d)) -> json_ok (JObj (ds_props d')) -> same_json (JObj (ds_props d)) (JObj (ds_props d')) ->
  written frepr d = written frepr d'.
Proof. exact written_canonical. Qed.
Print Assumptions C69_canonical.

(** Datasets with different items or codings have different files. *)
Theorem C69_faithful : forall frepr (d d' : dataset (list json)), items_ok (ds_items d) -> items_ok (ds_items d') ->
  (forall i c m, coding_at (ds_items d) i c = Some m -> is_masses m) -> (forall i c m, coding_at (ds_items d') i c = Some m -> is_masses m) ->
  json_ok (JObj (ds_props d)) -> json_ok (JObj (ds_props d')) -> floats_ok frepr (JObj (ds_props d)) -> floats_ok frepr (JObj (ds_props d')) ->
  "items"%string ∉ (ds_props d).*1 -> "items"%string ∉ (ds_props d').*1 ->
  (dget (ds_props d) "segmentation_type" = None \/ dget (ds_props d) "segmentation_type" = Some (JStr "linear")) ->
  (dget (ds_props d') "segmentation_type" = None \/ dget (ds_props d') "segmentation_type" = Some (JStr "linear")) ->
  written frepr d = written frepr d' ->
  (forall i c, coding_at (ds_items d) i c = coding_at (ds_items d') i c) /\ (forall i, i ∈ (ds_items d).*1 <-> i ∈ (ds_items d').*1).
Proof. exact written_faithful. Qed.
Print Assumptions C69_faithful.

(** A file that was cut off while it was written is never read as data. *)
Theorem C69_truncated : forall frepr (d : dataset (list json)) p s, items_ok (ds_items d) -> (forall i c m, coding_at (ds_items d) i c = Some m -> is_masses m) ->
  json_ok (JObj (ds_props d)) -> floats_ok frepr (JObj (ds_props d)) -> written frepr d = p ++ s -> s <> [] ->
  (forall r, read_json p <> Some (Ok r)) /\ (~ beyond p -> read_json p = Some (Err DataIOError)).
Proof. exact written_truncated. Qed.
Print Assumptions C69_truncated.

Definition jd' : dataset (list json) :=
  new_dataset (Some [("i1", [("c1", ji [5])]); ("i2", [("c1", ji [2; 2]); ("c2", ji [1; 3])])])%string
    (Some [("author", JObj [("a", JInt 1); ("z", JNull)]); ("id", JStr "x")])%string None FMass.
Example C69_written_case : written fr jd = written fr jd' /\ floats_ok fr (JObj (ds_props jd)) /\
  match read_json (written fr jd) with
  | Some (Ok r) => ds_items r = [("i1", [("c1", ji [5])]); ("i2", [("c1", ji [2; 2]); ("c2", ji [1; 3])])]%string
  | _ => False
  end /\ read_json (take 300 (written fr jd)) = Some (Err DataIOError) /\ (300 < List.length (written fr jd))%nat.
Proof. split; [vm_compute; reflexivity|]. split; [repeat split|]. split; [vm_compute; reflexivity|]. split; [vm_compute; reflexivity|]. apply Nat.ltb_lt. vm_compute. reflexivity. Qed.
