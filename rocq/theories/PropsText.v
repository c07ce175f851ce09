(** Property C67 and a part of C56: what the table loaders make of the text of a file
    (segeval/data/tsv.py:27-112 with CPython's csv.reader and universal newlines). *)
From Verif Require Import SpecText CsvProofs CsvMain CsvLimit FolderNames.
Open Scope Z_scope.

Definition tab : char := c_tab.
Lemma tab_separator : separator tab.
Proof. split; [discriminate|]. split; discriminate. Qed.

Definition crlf (t : text) : text := t ≫= (fun c => if decide (c = c_lf) then [c_cr; c_lf] else [c]).
Definition cr (t : text) : text := t ≫= (fun c => if decide (c = c_lf) then [c_cr] else [c]).

(** ** C67 *)

(** The reader returns the rows that the text stands for. *)
Theorem C67_rows : forall delim rows t, separator delim -> table_text delim rows (translate t) ->
  Forall (Forall (fun f => zlen f <= field_limit)) rows -> csv_rows delim t = (map (map str) rows, false).
Proof. exact csv_table. Qed.
Print Assumptions C67_rows.

(** Every text stands for exactly one list of rows. *)
Theorem C67_every_text : forall delim t, separator delim ->
  exists rows, table_text delim rows (translate t) /\ forall rows', table_text delim rows' (translate t) -> rows' = rows.
Proof. exact every_text. Qed.
Print Assumptions C67_every_text.

(** A quoted field with a separator, a quote and a line break; an empty line; characters after a closing quote; no final line break. *)
Definition sample : text :=
  c_quote :: chars "a" ++ [tab; c_quote; c_quote; c_lf; c_quote] ++ chars "b" ++ tab :: chars "2" ++ [c_lf; c_lf] ++ chars "c" ++ tab :: chars "3".
Definition sample_rows : list (list text) := [[chars "a" ++ [tab; c_quote; c_lf] ++ chars "b"; chars "2"]; []; [chars "c"; chars "3"]].
Example C67_rows_case : table_text tab sample_rows (translate sample) /\ Forall (Forall (fun f => zlen f <= field_limit)) sample_rows /\
  csv_rows tab sample = (map (map str) sample_rows, false).
Proof.
  split; [|split; [repeat constructor; apply Z.leb_le; vm_compute; reflexivity|vm_compute; reflexivity]].
  change (translate sample) with
    ((((c_quote :: doubled (chars "a" ++ [tab; c_quote; c_lf]) ++ c_quote :: chars "b") ++ tab :: chars "2") ++ c_lf :: c_lf :: (chars "c" ++ tab :: chars "3"))).
  assert (K : forall l, forallb (fun c => negb (bool_decide (c = tab)) && negb (bool_decide (c = c_lf))) l = true -> unbroken tab l).
  { intros l Hl. apply Forall_forall. intros c Hc. rewrite forallb_forall in Hl. specialize (Hl c (proj1 (elem_of_list_In _ _) Hc)).
    apply andb_prop in Hl as [H1 H2]. apply negb_true_iff in H1, H2. apply bool_decide_eq_false in H1, H2. auto. }
  apply table_row; [|discriminate|].
  - apply row_next; [apply (quoted_field _ (chars "a" ++ [tab; c_quote; c_lf]) (chars "b")); [discriminate|apply K; reflexivity]|].
    apply row_last, plain_field; [discriminate|apply K; reflexivity].
  - apply table_empty, table_last; [|discriminate]. apply row_next; [apply plain_field; [discriminate|apply K; reflexivity]|].
    apply row_last, plain_field; [discriminate|apply K; reflexivity].
Qed.

(** Files written with "\r\n" or "\r" as line breaks are read like those with "\n". *)
Theorem C67_newlines : forall delim name t, Forall (fun c => c <> c_cr) t ->
  csv_rows delim (crlf t) = csv_rows delim t /\ csv_rows delim (cr t) = csv_rows delim t /\
  read_tsv delim name (crlf t) = read_tsv delim name t /\ read_tsv delim name (cr t) = read_tsv delim name t /\
  read_positions_tsv delim name (crlf t) = read_positions_tsv delim name t /\ read_positions_tsv delim name (cr t) = read_positions_tsv delim name t.
Proof. exact newlines. Qed.
Print Assumptions C67_newlines.

Example C67_newlines_case : Forall (fun c => c <> c_cr) sample /\ crlf sample <> sample /\
  csv_rows tab (crlf sample) = (map (map str) sample_rows, false).
Proof. split; [repeat constructor; discriminate|]. split; [discriminate|vm_compute; reflexivity]. Qed.

(** From the text to the codings: the file is accepted if every row after the first is a name followed by masses,
    and then every coder has the masses of the last row with that name. *)
Theorem C67_file : forall delim name header rows t, separator delim -> table_text delim (header :: rows) (translate t) ->
  Forall (Forall (fun f => zlen f <= field_limit)) (header :: rows) ->
  ((exists r, read_tsv delim name t = Ok r) <-> Forall (fun row => exists c zs, row_codes (map str row) c zs) rows) /\
  forall r, read_tsv delim name t = Ok r ->
    (ds_items r).*1 = [name_from_filename name] /\ ds_coders r = ∅ /\
    forall c zs, coding_at (ds_items r) (name_from_filename name) c = Some zs <->
      exists pre row post, rows = pre ++ row :: post /\ row_codes (map str row) c zs /\
        Forall (fun row' => forall zs', ~ row_codes (map str row') c zs') post.
Proof. exact tsv_file. Qed.
Print Assumptions C67_file.

(** The loader of positions accepts no more files, and gives the lengths of the runs. *)
Theorem C67_positions : forall delim name t r, read_positions_tsv delim name t = Ok r ->
  exists r0, read_tsv delim name t = Ok r0 /\ (ds_items r).*1 = (ds_items r0).*1 /\
  forall i c, match coding_at (ds_items r0) i c with
              | Some zs => exists ms, coding_at (ds_items r) i c = Some ms /\ run_lengths zs ms
              | None => coding_at (ds_items r) i c = None
              end.
Proof. exact positions_file. Qed.
Print Assumptions C67_positions.

(** csv.Error is raised exactly if some field is longer than the limit, and the loaders let it through. *)
Theorem C67_limit : forall delim rows t, separator delim -> table_text delim rows (translate t) ->
  (snd (csv_rows delim t) = false <-> Forall (Forall (fun f => zlen f <= field_limit)) rows).
Proof. exact csv_limit. Qed.
Print Assumptions C67_limit.

Theorem C67_too_long : forall delim name rows t, separator delim -> table_text delim rows (translate t) ->
  (exists row f, row ∈ rows /\ f ∈ row /\ field_limit < zlen f) ->
  (exists e, read_tsv delim name t = Err e) /\ (exists e, read_positions_tsv delim name t = Err e).
Proof. exact too_long. Qed.
Print Assumptions C67_too_long.

(** One field of one digit too many. *)
Definition digits (n : Z) : text := replicate (Z.to_nat n) (chr 49).
Example C67_limit_case : separator tab /\ table_text tab [[chars "c"; digits (field_limit + 1)]] (translate (chars "c" ++ tab :: digits (field_limit + 1))) /\
  field_limit < zlen (digits (field_limit + 1)).
Proof.
  split; [repeat split; discriminate|]. split; [|unfold digits, zlen; rewrite replicate_length, Z2Nat.id by discriminate; reflexivity].
  generalize (field_limit + 1). intros n.
  assert (HF : forall P : char -> Prop, P (chr 49) -> Forall P (digits n)) by (intros P HP; apply Forall_forall; intros c Hc; apply elem_of_replicate in Hc as [-> _]; exact HP).
  rewrite translate_no_cr by (apply Forall_app; split; [repeat constructor; discriminate|constructor; [discriminate|apply HF; discriminate]]).
  apply table_last; [|discriminate]. apply row_next; [apply plain_field; [discriminate|repeat constructor; discriminate]|].
  apply row_last, plain_field; [unfold digits, unquoted; destruct (Z.to_nat n); discriminate|apply HF; split; discriminate].
Qed.

Definition lf : string := String c_lf "".
Definition tb : string := String tab "".
Definition file : text := chars ("coder" ++ tb ++ "m" ++ lf ++ "c1" ++ tb ++ "1" ++ tb ++ "1" ++ tb ++ "2" ++ lf ++ "c2" ++ tb ++ "3" ++ tb ++ "4" ++ lf)%string.
Example C67_file_case : rmap (fun r => coding_at (ds_items r) "doc" <$> ["c1"; "c2"; "c3"]) (read_tsv tab "doc.tsv" file) =
    Ok [Some [1; 1; 2]; Some [3; 4]; None]%Z /\
  rmap (fun r => coding_at (ds_items r) "doc" <$> ["c1"; "c2"; "c3"]) (read_positions_tsv tab "doc.tsv" file) =
    Ok [Some [2; 1]; Some [1; 1]; None]%Z.
Proof. split; vm_compute; reflexivity. Qed.

(** "Every line of an accepted file whose first cell is a name is a coding": no, a stray double quote takes in the rest of the file.
    Here c2 and c3 are lost without an error. *)
Definition stray : text := chars ("coder" ++ tb ++ "m" ++ lf ++ "c1" ++ tb ++ "2" ++ lf)%string ++ c_quote :: chars ("c2" ++ tb ++ "3" ++ lf ++ "c3" ++ tb ++ "4" ++ lf)%string.
Theorem C67_every_line_counts_refuted : ~ (forall t r pre c post, t = pre ++ c_lf :: chars (c ++ tb ++ "4" ++ lf)%string ++ post ->
  read_tsv tab "doc.tsv" t = Ok r -> is_Some (coding_at (ds_items r) "doc" c)).
Proof.
  intros K.
  assert (E : match read_tsv tab "doc.tsv" stray with Ok r => bool_decide (coding_at (ds_items r) "doc" "c3" = None) | Err _ => false end = true)
    by (vm_compute; reflexivity).
  destruct (read_tsv tab "doc.tsv" stray) as [r|] eqn:Er; [|discriminate]. apply bool_decide_eq_true in E.
  destruct (K stray r (chars ("coder" ++ tb ++ "m" ++ lf ++ "c1" ++ tb ++ "2" ++ lf)%string ++ c_quote :: chars ("c2" ++ tb ++ "3")%string) "c3"%string []) as [v Hv];
    [reflexivity|exact Er|]. rewrite E in Hv. discriminate.
Qed.
Print Assumptions C67_every_line_counts_refuted.

(** ** C56 *)

(** Which names are accepted: a dot and one of the words, capital or not, after a base that is not only dots; the base is the stem. *)
Theorem C56_names : forall t name, (accepted t name = true <-> exists base, named t base name) /\
  forall base, named t base name -> stem name = str base.
Proof. intros t name. exact (conj (accepted_names t name) (fun base => named_stem t base name)). Qed.
Print Assumptions C56_names.

Example C56_names_case : named JSON (chars ".a.b") ".a.b.JsOn" /\ (forall base, ~ named JSON base "..json") /\ accepted TSV "x.CSV" = true.
Proof.
  split; [|split; [|reflexivity]].
  - exists "json"%string, (chars "JsOn"). split; [left|]. split; [|split; [reflexivity|exists (chr 97); split; [right; left|discriminate]]].
    assert (K : forall d c, (Z.of_nat (Ascii.nat_of_ascii c) + 32 =? Z.of_nat (Ascii.nat_of_ascii d)) && (97 <=? Z.of_nat (Ascii.nat_of_ascii d)) && (Z.of_nat (Ascii.nat_of_ascii d) <=? 122) = true -> same_letter d c)
      by (intros d c H; apply andb_prop in H as [H H3]; apply andb_prop in H as [H1 H2]; right; lia).
    change (Forall2 same_letter [chr 106; chr 115; chr 111; chr 110] [chr 74; chr 115; chr 79; chr 110]).
    do 4 (constructor; [first [left; reflexivity|apply K; reflexivity]|]). constructor.
  - intros base H. assert (E : accepted JSON "..json" = true) by (apply accepted_names; exists base; exact H). discriminate.
Qed.
