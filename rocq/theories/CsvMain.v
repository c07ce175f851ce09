(** Every text is a table; files of tables. *)
From Verif Require Import SpecText CsvProofs FormatProofs TsvProofs.
Open Scope Z_scope.

Section total.
Context (delim : char).

Lemma split_unbroken t : exists g rest, t = g ++ rest /\ unbroken delim g /\ (rest = [] \/ exists d rest', rest = d :: rest' /\ (d = delim \/ d = c_lf)).
Proof.
  induction t as [|c t (g & rest & -> & Hg & Hr)]; [exists [], []; split; [reflexivity|]; split; [constructor|left; reflexivity]|].
  destruct (decide (c = delim)) as [Dc|Dc]; [|destruct (decide (c = c_lf)) as [Dl|Dl]].
  - exists [], (c :: g ++ rest). split; [reflexivity|]. split; [constructor|]. right. eauto.
  - exists [], (c :: g ++ rest). split; [reflexivity|]. split; [constructor|]. right. eauto.
  - exists (c :: g), rest. split; [reflexivity|]. split; [constructor; [auto|exact Hg]|exact Hr].
Qed.

Lemma split_quoted t : exists f, t = doubled f \/ exists rest, t = doubled f ++ c_quote :: rest /\ unquoted rest.
Proof.
  revert t. enough (K : forall n t, (length t <= n)%nat -> exists f, t = doubled f \/ exists rest, t = doubled f ++ c_quote :: rest /\ unquoted rest) by (intros t; exact (K _ t (le_n _))).
  intros n. induction n as [|n IH]; intros t Hn.
  - destruct t; [exists []; left; reflexivity|cbn in Hn; lia].
  - destruct t as [|c t]; [exists []; left; reflexivity|]. cbn [length] in Hn. destruct (decide (c = c_quote)) as [->|D].
    + destruct t as [|d t]; [exists []; right; exists []; split; [reflexivity|discriminate]|].
      destruct (decide (d = c_quote)) as [->|D].
      * cbn [length] in Hn. destruct (IH t ltac:(lia)) as (f & [->|(rest & -> & K)]).
        -- exists (c_quote :: f). left. reflexivity.
        -- exists (c_quote :: f). right. exists rest. split; [reflexivity|exact K].
      * exists []. right. exists (d :: t). split; [reflexivity|]. intros [=]. contradiction.
    + assert (E : forall f, doubled (c :: f) = c :: doubled f) by (intros f; rewrite doubled_cons; rewrite decide_False by exact D; reflexivity).
      destruct (IH t ltac:(lia)) as (f & [->|(rest & -> & K)]).
      * exists (c :: f). left. rewrite E. reflexivity.
      * exists (c :: f). right. exists rest. split; [rewrite E; reflexivity|exact K].
Qed.

Lemma split_field t : (exists f u d rest, field_text delim f u /\ t = u ++ d :: rest /\ (d = delim \/ d = c_lf)) \/
  (exists f, field_text delim f t) \/ (exists f, t = c_quote :: doubled f).
Proof.
  destruct t as [|c t]; [right; left; exists []; constructor; [discriminate|constructor]|]. destruct (decide (c = c_quote)) as [->|D].
  - destruct (split_quoted t) as (f & [->|(rest & -> & K)]); [right; right; exists f; reflexivity|].
    destruct (split_unbroken rest) as (g & rest' & -> & Hg & Hr).
    assert (UG : unquoted g) by (destruct g; [discriminate|exact K]).
    destruct Hr as [->|(d & rest & -> & Hd)].
    + right. left. exists (f ++ g). rewrite app_nil_r. apply quoted_field; assumption.
    + left. exists (f ++ g), (c_quote :: doubled f ++ c_quote :: g), d, rest. split; [apply quoted_field; assumption|]. split; [|exact Hd].
      cbn [app]. rewrite <- app_assoc. reflexivity.
  - destruct (split_unbroken (c :: t)) as (g & rest & E & Hg & Hr).
    assert (UG : unquoted g) by (destruct g as [|x g]; [discriminate|]; injection E as <- _; intros [=]; contradiction).
    destruct Hr as [->|(d & rest' & -> & Hd)].
    + right. left. exists g. rewrite app_nil_r in E. rewrite E. apply plain_field; assumption.
    + left. exists g, g, d, rest'. split; [apply plain_field; assumption|]. split; [exact E|exact Hd].
Qed.

Lemma split_row n : forall t, (length t <= n)%nat -> (exists r u rest, row_text delim r u /\ t = u ++ c_lf :: rest) \/
  (exists r, row_text delim r t) \/ (exists r, open_row delim r t).
Proof.
  induction n as [|n IH]; intros t Hn.
  - destruct t; [|cbn in Hn; lia]. right. left. exists [[]]. constructor. constructor; [discriminate|constructor].
  - destruct (split_field t) as [(f & u & d & rest & Hf & -> & Hd)|[(f & Hf)|(f & ->)]].
    + destruct (decide (d = c_lf)) as [->|D]; [left; exists [f], u, rest; split; [constructor; exact Hf|reflexivity]|].
      destruct Hd as [->|?]; [|contradiction]. rewrite app_length in Hn. cbn [length] in Hn.
      destruct (IH rest ltac:(lia)) as [(r & u' & rest' & Hr & ->)|[(r & Hr)|(r & Hr)]].
      * left. exists (f :: r), (u ++ delim :: u'), rest'. split; [apply row_next; assumption|]. rewrite <- app_assoc. reflexivity.
      * right. left. exists (f :: r). apply row_next; assumption.
      * right. right. exists (f :: r). apply open_next; assumption.
    + right. left. exists [f]. constructor. exact Hf.
    + right. right. exists [f]. constructor.
Qed.

Theorem table_total t : exists rows, table_text delim rows t.
Proof.
  enough (K : forall n t, (length t <= n)%nat -> exists rows, table_text delim rows t) by exact (K _ t (le_n _)). clear t.
  intros n. induction n as [|n IH]; intros t Hn; [destruct t; [exists []; constructor|cbn in Hn; lia]|].
  destruct t as [|c t]; [exists []; constructor|].
  destruct (split_row _ (c :: t) (le_n _)) as [(r & u & rest & Hr & E)|[(r & Hr)|(r & Hr)]].
  - assert (HL : (length rest <= n)%nat) by (apply (f_equal length) in E; rewrite app_length in E; cbn [length] in *; lia).
    destruct (IH rest HL) as (rows & Hrows). rewrite E. destruct (decide (u = [])) as [->|D].
    + exists ([] :: rows). apply table_empty, Hrows.
    + exists (r :: rows). apply table_row; assumption.
  - exists [r]. apply table_last; [exact Hr|discriminate].
  - exists [r]. apply table_open, Hr.
Qed.

(** ** No field is longer than the text *)

Lemma doubled_length f : (length f <= length (doubled f))%nat.
Proof. induction f as [|c f IH]; [reflexivity|]. rewrite doubled_cons, app_length. cbn [length]. destruct (decide _); cbn [length]; lia. Qed.

Lemma field_length f t : field_text delim f t -> (length f <= length t)%nat.
Proof. intros [g _ _|g h _ _]; [lia|]. cbn [length]. rewrite !app_length. cbn [length]. pose proof (doubled_length g). lia. Qed.

Lemma row_length r t : row_text delim r t -> Forall (fun f => length f <= length t)%nat r.
Proof.
  induction 1 as [f t Hf|f t fs ts Hf _ IH]; [constructor; [apply field_length, Hf|constructor]|].
  constructor; [|eapply Forall_impl; [exact IH|]; intros g Hg; cbn in Hg]; rewrite app_length; cbn [length]; [pose proof (field_length _ _ Hf)|]; lia.
Qed.
Lemma open_length r t : open_row delim r t -> Forall (fun f => length f <= length t)%nat r.
Proof.
  induction 1 as [f|f t fs ts Hf _ IH]; [constructor; [cbn [length]; pose proof (doubled_length f); lia|constructor]|].
  constructor; [|eapply Forall_impl; [exact IH|]; intros g Hg; cbn in Hg]; rewrite app_length; cbn [length]; [pose proof (field_length _ _ Hf)|]; lia.
Qed.
Lemma table_length rows t : table_text delim rows t -> Forall (Forall (fun f => length f <= length t)%nat) rows.
Proof.
  induction 1 as [|r t Hr _|r t Hr|rows ts _ IH|r t rows ts Hr _ _ IH].
  - constructor.
  - constructor; [apply row_length, Hr|constructor].
  - constructor; [apply open_length, Hr|constructor].
  - constructor; [constructor|]. eapply Forall_impl; [exact IH|]. intros r Hr. eapply Forall_impl; [exact Hr|]. intros f Hf. cbn in *. lia.
  - constructor; [eapply Forall_impl; [apply row_length, Hr|]; intros f Hf; cbn in *; rewrite app_length; lia|].
    eapply Forall_impl; [exact IH|]. intros r' Hr'. eapply Forall_impl; [exact Hr'|]. intros f Hf. cbn in *. rewrite app_length. cbn [length]. lia.
Qed.
End total.

(** ** Newlines *)

Lemma translate_no_cr t : no_cr t -> translate t = t.
Proof. induction 1 as [|c t Hc _ IH]; [reflexivity|]. cbn [translate]. rewrite bool_decide_eq_false_2 by exact Hc. rewrite IH. reflexivity. Qed.

Lemma no_cr_translate t : no_cr (translate t).
Proof.
  enough (K : forall n t, (length t <= n)%nat -> no_cr (translate t)) by exact (K _ t (le_n _)). clear t.
  intros n. induction n as [|n IH]; intros t Hn; [destruct t; [constructor|cbn in Hn; lia]|].
  destruct t as [|c t]; [constructor|]. cbn [length] in Hn. cbn [translate]. destruct (bool_decide_reflect (c = c_cr)) as [D|D].
  - destruct t as [|d t]; [repeat constructor; discriminate|]. cbn [length] in Hn. destruct (bool_decide (d = c_lf)); (constructor; [discriminate|]); apply IH; cbn [length]; lia.
  - constructor; [exact D|]. apply IH. lia.
Qed.

(** The same text with another end of line. *)
Lemma translate_crlf t : no_cr t -> translate (t ≫= (fun c => if decide (c = c_lf) then [c_cr; c_lf] else [c])) = t.
Proof.
  induction 1 as [|c t Hc _ IH]; [reflexivity|]. rewrite bind_cons. destruct (decide (c = c_lf)) as [->|D].
  - cbn [app translate]. rewrite (bool_decide_eq_true_2 (c_cr = c_cr)) by reflexivity. rewrite (bool_decide_eq_true_2 (c_lf = c_lf)) by reflexivity. rewrite IH. reflexivity.
  - cbn [app translate]. rewrite bool_decide_eq_false_2 by exact Hc. rewrite IH. reflexivity.
Qed.

Lemma translate_cr t : no_cr t -> translate (t ≫= (fun c => if decide (c = c_lf) then [c_cr] else [c])) = t.
Proof.
  set (g := fun c => if decide (c = c_lf) then [c_cr] else [c]).
  induction 1 as [|c t Hc HT IH]; [reflexivity|]. rewrite bind_cons. unfold g at 1. destruct (decide (c = c_lf)) as [->|D].
  - cbn [app translate]. rewrite (bool_decide_eq_true_2 (c_cr = c_cr)) by reflexivity. destruct t as [|d t]; [reflexivity|].
    rewrite bind_cons in *. destruct (g d) as [|x l] eqn:Eg; [unfold g in Eg; destruct (decide _); discriminate|].
    assert (x <> c_lf) by (unfold g in Eg; destruct (decide _); injection Eg as <- <-; [discriminate|assumption]).
    cbn [app] in *. rewrite bool_decide_eq_false_2 by assumption. rewrite IH. reflexivity.
  - cbn [app translate]. rewrite bool_decide_eq_false_2 by exact Hc. rewrite IH. reflexivity.
Qed.

Lemma csv_translate delim t : csv_rows delim (translate t) = csv_rows delim t.
Proof. unfold csv_rows, lines_of. rewrite (translate_no_cr (translate t) (no_cr_translate t)). reflexivity. Qed.

(** ** The rows of a text *)

Theorem csv_table delim rows t : separator delim -> table_text delim rows (translate t) -> Forall (Forall (fun f => zlen f <= field_limit)) rows ->
  csv_rows delim t = (map (map str) rows, false).
Proof.
  intros HD HT HL. unfold csv_rows, lines_of. rewrite (feed_lines field_limit delim new_record [] new_record) by reflexivity.
  apply table_read; [exact HD|exact HT|apply no_cr_translate|exact HL].
Qed.

Theorem table_unique delim rows rows' t : separator delim -> no_cr t -> table_text delim rows t -> table_text delim rows' t -> rows = rows'.
Proof.
  intros HD Hc H1 H2.
  assert (K : forall rs, table_text delim rs t -> Forall (fits (zlen t)) rs).
  { intros rs Hrs. eapply Forall_impl; [exact (table_length _ _ _ Hrs)|]. intros r Hr. eapply Forall_impl; [exact Hr|]. intros f Hf. unfold zlen. cbn in Hf. lia. }
  pose proof (table_read (zlen t) delim HD rows t H1 Hc (K _ H1)) as E1. pose proof (table_read (zlen t) delim HD rows' t H2 Hc (K _ H2)) as E2.
  rewrite E1 in E2. injection E2 as E2. revert E2. clear. revert rows'. induction rows as [|r rows IH]; intros [|r' rows'] E; try discriminate; [reflexivity|].
  injection E as E1 E2. f_equal; [|apply IH, E2]. revert r' E1. induction r as [|f r IHr]; intros [|f' r'] E; try discriminate; [reflexivity|].
  injection E as E3 E4. f_equal; [|apply IHr, E4]. rewrite <- (String.list_ascii_of_string_of_list_ascii f), E3. apply String.list_ascii_of_string_of_list_ascii.
Qed.

(** ** Files *)

Theorem read_tsv_table delim name header rows t : separator delim -> table_text delim (header :: rows) (translate t) ->
  Forall (Forall (fun f => zlen f <= field_limit)) (header :: rows) ->
  read_tsv delim name t = input_tsv (name_from_filename name) (map (map str) (header :: rows)) /\
  read_positions_tsv delim name t = input_positions_tsv (name_from_filename name) (map (map str) (header :: rows)).
Proof.
  intros HD HT HL. unfold read_tsv, read_positions_tsv. rewrite (csv_table delim (header :: rows) t HD HT HL).
  split; [destruct (input_tsv _ _)|destruct (input_positions_tsv _ _)]; reflexivity.
Qed.

Theorem tsv_file delim name header rows t : separator delim -> table_text delim (header :: rows) (translate t) ->
  Forall (Forall (fun f => zlen f <= field_limit)) (header :: rows) ->
  ((exists r, read_tsv delim name t = Ok r) <-> Forall (fun row => exists c zs, row_codes (map str row) c zs) rows) /\
  forall r, read_tsv delim name t = Ok r ->
    (ds_items r).*1 = [name_from_filename name] /\ ds_coders r = ∅ /\
    forall c zs, coding_at (ds_items r) (name_from_filename name) c = Some zs <->
      exists pre row post, rows = pre ++ row :: post /\ row_codes (map str row) c zs /\
        Forall (fun row' => forall zs', ~ row_codes (map str row') c zs') post.
Proof.
  intros HD HT HL. destruct (read_tsv_table delim name header rows t HD HT HL) as [-> _]. cbn [map]. split.
  - rewrite tsv_accepts. change (map (map str) rows) with (map str <$> rows). rewrite Forall_fmap. reflexivity.
  - intros r Hr. destruct (tsv_result _ _ _ _ Hr) as (E1 & _ & E3 & E4). split; [exact E1|]. split; [exact E3|]. intros c zs. rewrite E4. split.
    + intros (pre & row & post & Er & Hrow & Hpost). change (map (map str) rows) with (map str <$> rows) in Er.
      apply fmap_app_inv in Er as (pre' & l & -> & El & ->). destruct l as [|row' post']; [discriminate|].
      rewrite fmap_cons in El. injection El as -> ->. exists pre', row', post'. split; [reflexivity|]. split; [exact Hrow|].
      rewrite Forall_fmap in Hpost. exact Hpost.
    + intros (pre & row & post & -> & Hrow & Hpost). exists (map (map str) pre), (map str row), (map (map str) post).
      split; [rewrite map_app; reflexivity|]. split; [exact Hrow|]. change (map (map str) post) with (map str <$> post). rewrite Forall_fmap. exact Hpost.
Qed.

Theorem positions_file delim name t r : read_positions_tsv delim name t = Ok r ->
  exists r0, read_tsv delim name t = Ok r0 /\ (ds_items r).*1 = (ds_items r0).*1 /\
  forall i c, match coding_at (ds_items r0) i c with
              | Some zs => exists ms, coding_at (ds_items r) i c = Some ms /\ run_lengths zs ms
              | None => coding_at (ds_items r) i c = None
              end.
Proof.
  unfold read_positions_tsv, read_tsv, input_positions_tsv. destruct (csv_rows delim t) as [rows failed].
  destruct (input_tsv _ rows) as [d|] eqn:Ed; [|discriminate]. cbn [bind]. destruct failed; [discriminate|]. intros [= <-].
  exists d. split; [reflexivity|]. cbn [ds_items with_items]. split.
  - induction (ds_items d) as [|[i cs] l IH]; [reflexivity|]. cbn. f_equal. exact IH.
  - intros i c. unfold coding_at.
    assert (K : dget (map (fun ic : string * dict (list Z) => (fst ic, map (fun cm => (fst cm, group_lengths (snd cm))) (snd ic))) (ds_items d)) i =
      option_map (map (fun cm : string * list Z => (fst cm, group_lengths (snd cm)))) (dget (ds_items d) i)).
    { induction (ds_items d) as [|[j cs] l IH]; [reflexivity|]. cbn. destruct (decide (i = j)); [reflexivity|exact IH]. }
    rewrite K. clear K. destruct (dget (ds_items d) i) as [cs|]; [|reflexivity]. cbn [option_map].
    induction cs as [|[c' zs] cs IH]; [reflexivity|]. cbn [dget map fst snd]. destruct (decide (c = c')) as [_|_]; [|exact IH].
    exists (group_lengths zs). split; [reflexivity|].
    split; [apply group_lengths_positive|]. split; [apply group_lengths_sum|]. intros k x y Hx Hy. apply group_lengths_cut; assumption.
Qed.

(** ** For the theorems *)

Theorem every_text delim t : separator delim ->
  exists rows, table_text delim rows (translate t) /\ forall rows', table_text delim rows' (translate t) -> rows' = rows.
Proof.
  intros HD. destruct (table_total delim (translate t)) as [rows Hr]. exists rows. split; [exact Hr|]. intros rows' Hr'.
  exact (table_unique _ _ _ _ HD (no_cr_translate t) Hr' Hr).
Qed.

Lemma csv_same delim t t' : translate t = translate t' -> csv_rows delim t = csv_rows delim t'.
Proof. intros E. unfold csv_rows, lines_of. rewrite E. reflexivity. Qed.

Theorem newlines delim name t : Forall (fun c => c <> c_cr) t ->
  let crlf := t ≫= (fun c => if decide (c = c_lf) then [c_cr; c_lf] else [c]) in
  let cr := t ≫= (fun c => if decide (c = c_lf) then [c_cr] else [c]) in
  csv_rows delim crlf = csv_rows delim t /\ csv_rows delim cr = csv_rows delim t /\
  read_tsv delim name crlf = read_tsv delim name t /\ read_tsv delim name cr = read_tsv delim name t /\
  read_positions_tsv delim name crlf = read_positions_tsv delim name t /\ read_positions_tsv delim name cr = read_positions_tsv delim name t.
Proof.
  intros Hc crlf cr.
  assert (E1 : csv_rows delim crlf = csv_rows delim t) by (apply csv_same; unfold crlf; rewrite (translate_crlf t Hc), (translate_no_cr t Hc); reflexivity).
  assert (E2 : csv_rows delim cr = csv_rows delim t) by (apply csv_same; unfold cr; rewrite (translate_cr t Hc), (translate_no_cr t Hc); reflexivity).
  unfold read_tsv, read_positions_tsv. rewrite E1, E2. repeat split; reflexivity.
Qed.
