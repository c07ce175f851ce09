(** Lemmas: csv.reader reads tables as [table_text] says. *)
From Verif Require Import SpecText.
Open Scope Z_scope.

Section csv.
Context (limit : Z) (delim : char) (HD : separator delim).

(** ** One pass over the text *)

(** [b]: whether the current line has begun. *)
Fixpoint feed (b : bool) (r : reader) (t : text) : list (list string) * bool :=
  match t with
  | [] =>
    if b then
      match process_char limit delim r None with
      | None => ([], true)
      | Some r2 => if bool_decide (r_state r2 = StartRecord) then ([reverse (r_fields r2)], false) else read_rows limit delim r2 []
      end
    else read_rows limit delim r []
  | c :: t' =>
    match process_char limit delim r (Some c) with
    | None => ([], true)
    | Some r1 =>
      if bool_decide (c = c_lf) then
        match process_char limit delim r1 None with
        | None => ([], true)
        | Some r2 => if bool_decide (r_state r2 = StartRecord) then let '(rows, failed) := feed false new_record t' in (reverse (r_fields r2) :: rows, failed) else feed false r2 t'
        end
      else feed true r1 t'
    end
  end.

Lemma process_chars_app r l1 l2 : process_chars limit delim r (l1 ++ l2) =
  match process_chars limit delim r l1 with Some r' => process_chars limit delim r' l2 | None => None end.
Proof. revert r. induction l1 as [|c l1 IH]; intros r; [reflexivity|]. cbn. destruct (process_char _ _ _ _); [apply IH|reflexivity]. Qed.

Lemma split_prefix cur t : exists l ls, split_lines cur t = ls /\ (cur <> [] -> exists l', ls = (reverse cur ++ l) :: l').
Proof.
  revert cur. induction t as [|c t IH]; intros cur; cbn [split_lines].
  - destruct cur as [|x cur]; [exists [], []; split; [reflexivity|congruence]|]. exists [], [reverse (x :: cur)]. split; [reflexivity|]. intros _. exists []. rewrite app_nil_r. reflexivity.
  - destruct (bool_decide (c = c_lf)).
    + exists [c]. eexists. split; [reflexivity|]. intros _. rewrite reverse_cons. eauto.
    + destruct (IH (c :: cur)) as (l & ls & E & K). destruct (K ltac:(discriminate)) as (l' & E'). exists (c :: l), ls. split; [exact E|].
      intros _. exists l'. rewrite E', reverse_cons, <- app_assoc. reflexivity.
Qed.

Lemma feed_lines r0 cur r t : process_chars limit delim r0 (reverse cur) = Some r ->
  read_rows limit delim r0 (split_lines cur t) = feed (match cur with [] => false | _ => true end) r t.
Proof.
  revert r0 cur r. induction t as [|c t IH]; intros r0 cur r Hr.
  - cbn [split_lines feed]. destruct cur as [|x cur].
    + injection Hr as <-. reflexivity.
    + cbn [read_rows]. rewrite Hr. destruct (process_char limit delim r None) as [r2|]; [|reflexivity].
      destruct (bool_decide (r_state r2 = StartRecord)); reflexivity.
  - cbn [split_lines feed]. destruct (process_char limit delim r (Some c)) as [r1|] eqn:E1.
    + destruct (bool_decide (c = c_lf)) eqn:Ec.
      * cbn [read_rows]. rewrite reverse_cons, process_chars_app, Hr. cbn [process_chars]. rewrite E1.
        destruct (process_char limit delim r1 None) as [r2|]; [|reflexivity].
        destruct (bool_decide (r_state r2 = StartRecord)).
        -- rewrite (IH new_record [] new_record eq_refl). reflexivity.
        -- rewrite (IH r2 [] r2 eq_refl). reflexivity.
      * rewrite (IH r0 (c :: cur) r1); [reflexivity|]. rewrite reverse_cons, process_chars_app, Hr. cbn [process_chars]. rewrite E1. reflexivity.
    + assert (K : process_chars limit delim r0 (reverse (c :: cur)) = None) by (rewrite reverse_cons, process_chars_app, Hr; cbn [process_chars]; rewrite E1; reflexivity).
      destruct (bool_decide (c = c_lf)); [cbn [read_rows]; rewrite K; reflexivity|].
      destruct (split_prefix (c :: cur) t) as (l & ls & El & Kl). destruct (Kl ltac:(discriminate)) as (l' & El'). rewrite El, El'.
      cbn [read_rows]. rewrite process_chars_app, K. reflexivity.
Qed.

(** ** Fields *)

Lemma quote_lf : c_quote <> c_lf. Proof. discriminate. Qed.
Lemma quote_cr : c_quote <> c_cr. Proof. discriminate. Qed.

Definition no_cr (t : text) : Prop := Forall (fun c => c <> c_cr) t.

Lemma newline_lf : is_newline c_lf = true. Proof. reflexivity. Qed.
Lemma newline_no c : c <> c_lf -> c <> c_cr -> is_newline c = false.
Proof. intros H1 H2. unfold is_newline. rewrite !bool_decide_eq_false_2 by assumption. reflexivity. Qed.

(** Adding the characters of an unquoted field. *)
Lemma in_field f : forall b w fs rest, unbroken delim f -> no_cr f -> zlen w + zlen f <= limit ->
  feed b (Reader InField w fs) (f ++ rest) = feed (match f with [] => b | _ => true end) (Reader InField (reverse f ++ w) fs) rest.
Proof.
  induction f as [|c f IH]; intros b w fs rest Hf Hc HL; [reflexivity|].
  apply Forall_cons in Hf as [[F1 F2] Hf]. apply Forall_cons in Hc as [C1 Hc]. unfold zlen in *. cbn [length] in HL.
  cbn [app feed process_char r_state]. rewrite newline_no by assumption. rewrite bool_decide_eq_false_2 by exact F1.
  unfold add_char. cbn [r_field r_fields]. rewrite (proj2 (Z.leb_gt _ _)) by (unfold zlen; lia). rewrite bool_decide_eq_false_2 by exact F2.
  rewrite (IH true) by (assumption || (cbn [length]; lia)). rewrite reverse_cons, <- app_assoc. destruct f; reflexivity.
Qed.

Lemma doubled_cons c f : doubled (c :: f) = (if decide (c = c_quote) then [c; c] else [c]) ++ doubled f.
Proof. reflexivity. Qed.

(** Inside quotes. *)
Lemma in_quotes f : forall b w fs rest, zlen w + zlen f <= limit ->
  exists b', feed b (Reader InQuoted w fs) (doubled f ++ rest) = feed b' (Reader InQuoted (reverse f ++ w) fs) rest.
Proof.
  induction f as [|c f IH]; intros b w fs rest HL; [exists b; reflexivity|].
  unfold zlen in *. cbn [length] in HL. rewrite doubled_cons, <- app_assoc. rewrite reverse_cons, <- app_assoc. cbn [app].
  destruct (decide (c = c_quote)) as [->|D].
  - cbn [app feed process_char r_state]. rewrite bool_decide_eq_true_2 by reflexivity. cbn [r_field r_fields r_state].
    rewrite (bool_decide_eq_false_2 (c_quote = c_lf)) by discriminate. cbn [process_char r_state]. rewrite (bool_decide_eq_true_2 (c_quote = c_quote)) by reflexivity. unfold add_char. cbn [r_field r_fields].
    rewrite (proj2 (Z.leb_gt _ _)) by (unfold zlen; lia). apply IH. cbn [length]. lia.
  - cbn [app feed process_char r_state]. rewrite bool_decide_eq_false_2 by exact D. unfold add_char. cbn [r_field r_fields].
    rewrite (proj2 (Z.leb_gt _ _)) by (unfold zlen; lia). destruct (bool_decide (c = c_lf)); [|apply IH; cbn [length]; lia].
    cbn [process_char r_state]. rewrite bool_decide_eq_false_2 by discriminate. apply IH. cbn [length]. lia.
Qed.

Definition starting (s : cstate) : Prop := s = StartRecord \/ s = StartField.


(** The reader has taken in the field [f] and nothing else. *)
Definition holds (f : text) (r : reader) (fs : list string) : Prop :=
  r_field r = reverse f /\ r_fields r = fs /\ (r_state r = InField \/ r_state r = QuoteInQuoted \/ (f = [] /\ r_state r = StartField)).

Lemma holds_delim f r fs b rest : holds f r fs -> feed b r (delim :: rest) = feed true (Reader StartField [] (str f :: fs)) rest.
Proof.
  destruct HD as (D1 & D2 & D3). intros (H1 & H2 & H3). destruct r as [s w ws]. cbn in H1, H2, H3. subst w ws. cbn [feed].
  assert (E : process_char limit delim (Reader s (reverse f) fs) (Some delim) = Some (Reader StartField [] (str f :: fs))).
  { assert (K : save_field (Reader s (reverse f) fs) StartField = Reader StartField [] (str f :: fs)) by (unfold save_field; cbn [r_field r_fields]; rewrite reverse_involutive; reflexivity).
    destruct H3 as [->|[->|[-> ->]]]; cbn [process_char r_state start_field]; rewrite newline_no by assumption.
    - rewrite bool_decide_eq_true_2 by reflexivity. f_equal. exact K.
    - rewrite (bool_decide_eq_false_2 (delim = c_quote)) by exact D1. rewrite bool_decide_eq_true_2 by reflexivity. f_equal. exact K.
    - rewrite (bool_decide_eq_false_2 (delim = c_quote)) by exact D1. rewrite bool_decide_eq_true_2 by reflexivity. reflexivity. }
  rewrite E. rewrite (bool_decide_eq_false_2 (delim = c_lf)) by exact D2. reflexivity.
Qed.

Lemma holds_lf f r fs b rest : holds f r fs -> feed b r (c_lf :: rest) = let '(rows, failed) := feed false new_record rest in (reverse (str f :: fs) :: rows, failed).
Proof.
  destruct HD as (D1 & D2 & D3). intros (H1 & H2 & H3). destruct r as [s w ws]. cbn in H1, H2, H3. subst w ws. cbn [feed].
  assert (E : process_char limit delim (Reader s (reverse f) fs) (Some c_lf) = Some (Reader EatCRNL [] (str f :: fs))).
  { assert (K : save_field (Reader s (reverse f) fs) EatCRNL = Reader EatCRNL [] (str f :: fs)) by (unfold save_field; cbn [r_field r_fields]; rewrite reverse_involutive; reflexivity).
    destruct H3 as [->|[->|[-> ->]]]; cbn [process_char r_state start_field].
    - rewrite newline_lf. f_equal. exact K.
    - rewrite (bool_decide_eq_false_2 (c_lf = c_quote)) by discriminate. rewrite (bool_decide_eq_false_2 (c_lf = delim)) by congruence. rewrite newline_lf. f_equal. exact K.
    - rewrite newline_lf. reflexivity. }
  rewrite E. rewrite (bool_decide_eq_true_2 (c_lf = c_lf)) by reflexivity. reflexivity.
Qed.

Lemma holds_end f r fs : holds f r fs -> feed true r [] = ([reverse (str f :: fs)], false).
Proof.
  intros (H1 & H2 & H3). destruct r as [s w ws]. cbn in H1, H2, H3. subst w ws. cbn [feed].
  assert (E : process_char limit delim (Reader s (reverse f) fs) None = Some (Reader StartRecord [] (str f :: fs))).
  { assert (K : save_field (Reader s (reverse f) fs) StartRecord = Reader StartRecord [] (str f :: fs)) by (unfold save_field; cbn [r_field r_fields]; rewrite reverse_involutive; reflexivity).
    destruct H3 as [->|[->|[-> ->]]]; cbn [process_char r_state start_field]; f_equal; exact K. }
  rewrite E. reflexivity.
Qed.

(** Reading a field. In [StartRecord] the text must not be empty. *)
Lemma field_read f t s b fs rest : field_text delim f t -> no_cr t -> zlen f <= limit -> starting s ->
  (t = [] -> s = StartField) ->
  exists r, holds f r fs /\ feed b (Reader s [] fs) (t ++ rest) = feed (match t with [] => b | _ => true end) r rest.
Proof.
  destruct HD as (D1 & D2 & D3). intros Hf Hc HL Hs Ht. destruct Hf as [f H1 H2|f g H1 H2].
  - destruct f as [|c f].
    + exists (Reader s [] fs). split; [|reflexivity]. split; [reflexivity|]. split; [reflexivity|]. right. right. split; [reflexivity|]. apply Ht. reflexivity.
    + apply Forall_cons in H2 as [[F1 F2] H2]. apply Forall_cons in Hc as [C1 Hc]. unfold zlen in *. cbn [length] in HL.
      assert (NQ : c <> c_quote) by (intros ->; apply H1; reflexivity).
      exists (Reader InField (reverse f ++ [c]) fs). split; [split; [cbn [r_field]; rewrite reverse_cons; reflexivity|]; split; [reflexivity|left; reflexivity]|].
      cbn [app feed].
      assert (E : process_char limit delim (Reader s [] fs) (Some c) = Some (Reader InField [c] fs)).
      { destruct Hs as [->| ->]; cbn [process_char r_state start_field]; rewrite newline_no by assumption; try cbn [start_field];
          try rewrite newline_no by assumption; rewrite (bool_decide_eq_false_2 (c = c_quote)) by exact NQ; rewrite (bool_decide_eq_false_2 (c = delim)) by exact F1;
          unfold add_char; cbn [r_field r_fields]; rewrite (proj2 (Z.leb_gt _ _)) by (unfold zlen; cbn [length]; lia); reflexivity. }
      rewrite E. rewrite (bool_decide_eq_false_2 (c = c_lf)) by exact F2.
      rewrite in_field; [destruct f; reflexivity|exact H2|exact Hc|unfold zlen; cbn [length]; lia].
  - cbn [app feed].
    assert (E : process_char limit delim (Reader s [] fs) (Some c_quote) = Some (Reader InQuoted [] fs)) by (destruct Hs as [->| ->]; reflexivity).
    rewrite E. rewrite (bool_decide_eq_false_2 (c_quote = c_lf)) by discriminate.
    assert (HL1 : zlen (@nil char) + zlen f <= limit) by (unfold zlen in *; rewrite app_length in HL; cbn [length]; lia).
    rewrite <- app_assoc. destruct (in_quotes f true [] fs ((c_quote :: g) ++ rest) HL1) as [b' ->]. rewrite app_nil_r. clear HL1 E.
    apply Forall_cons in Hc as [_ Hc]. apply Forall_app in Hc as [_ Hc]. apply Forall_cons in Hc as [_ Hc].
    cbn [app feed process_char r_state]. rewrite (bool_decide_eq_true_2 (c_quote = c_quote)) by reflexivity. rewrite (bool_decide_eq_false_2 (c_quote = c_lf)) by discriminate.
    destruct g as [|c g].
    + exists (Reader QuoteInQuoted (reverse f) fs). rewrite app_nil_r. split; [|reflexivity]. split; [reflexivity|]. split; [reflexivity|]. right. left. reflexivity.
    + apply Forall_cons in H2 as [[F1 F2] H2]. apply Forall_cons in Hc as [C1 Hc]. assert (NQ : c <> c_quote) by (intros ->; apply H1; reflexivity).
      unfold zlen in *. rewrite app_length in HL. cbn [length] in HL.
      exists (Reader InField (reverse g ++ c :: reverse f) fs). split.
      { split; [|split; [reflexivity|left; reflexivity]]. cbn [r_field]. rewrite reverse_app, reverse_cons, <- app_assoc. reflexivity. }
      cbn [app feed process_char r_state]. rewrite (bool_decide_eq_false_2 (c = c_quote)) by exact NQ. rewrite (bool_decide_eq_false_2 (c = delim)) by exact F1.
      rewrite newline_no by assumption. unfold add_char. cbn [r_field r_fields].
      rewrite (proj2 (Z.leb_gt _ _)) by (unfold zlen; rewrite reverse_length; lia). rewrite (bool_decide_eq_false_2 (c = c_lf)) by exact F2.
      rewrite in_field; [destruct g; reflexivity|exact H2|exact Hc|unfold zlen; cbn [length]; rewrite reverse_length; lia].
Qed.

(** ** Rows *)

Definition fits (r : list text) : Prop := Forall (fun f => zlen f <= limit) r.

(** The reader after all fields but with the last one still held. *)
Lemma row_read r t : row_text delim r t -> forall s b fs rest, no_cr t -> fits r -> starting s -> (t = [] -> s = StartField) ->
  exists f rd fs', reverse (str f :: fs') = reverse fs ++ (str <$> r) /\ holds f rd fs' /\
    feed b (Reader s [] fs) (t ++ rest) = feed (match t with [] => b | _ => true end) rd rest.
Proof.
  induction 1 as [f t Hf|f t fs' ts Hf _ IH]; intros s b fs rest Hc HL Hs Ht; apply Forall_cons in HL as [HL1 HL].
  - destruct (field_read f t s b fs rest Hf Hc HL1 Hs Ht) as (rd & H1 & H2). exists f, rd, fs. split; [rewrite reverse_cons; reflexivity|]. split; [exact H1|exact H2].
  - apply Forall_app in Hc as [Hc1 Hc]. apply Forall_cons in Hc as [_ Hc].
    assert (K : exists b', feed b (Reader s [] fs) ((t ++ delim :: ts) ++ rest) = feed b' (Reader StartField [] (str f :: fs)) (ts ++ rest) /\ b' = true).
    { exists true. split; [|reflexivity]. rewrite <- app_assoc. cbn [app]. destruct (decide (t = [])) as [->|Nt].
      - cbn [app]. assert (f = []) as -> by (inversion Hf; reflexivity). destruct Hs as [->| ->].
        + destruct HD as (D1 & D2 & D3). cbn [feed process_char r_state start_field]. rewrite newline_no by assumption. 
          rewrite (bool_decide_eq_false_2 (delim = c_quote)) by exact D1. rewrite (bool_decide_eq_true_2 (delim = delim)) by reflexivity.
          rewrite (bool_decide_eq_false_2 (delim = c_lf)) by exact D2. reflexivity.
        + apply holds_delim. split; [reflexivity|]. split; [reflexivity|]. right. right. split; reflexivity.
      - destruct (field_read f t s b fs (delim :: ts ++ rest) Hf Hc1 HL1 Hs ltac:(congruence)) as (rd & H1 & ->). apply (holds_delim f rd fs _ _ H1). }
    destruct K as (b' & -> & ->).
    destruct (IH StartField true (str f :: fs) rest Hc HL (or_intror eq_refl) ltac:(reflexivity)) as (f' & rd & fs'' & E1 & E2 & E3).
    exists f', rd, fs''. split; [rewrite E1, reverse_cons, <- app_assoc; reflexivity|]. split; [exact E2|]. rewrite E3. destruct t, ts; reflexivity.
Qed.

Lemma open_read r t : open_row delim r t -> forall s b fs, no_cr t -> fits r -> starting s ->
  feed b (Reader s [] fs) t = ([reverse fs ++ (str <$> r)], false).
Proof.
  induction 1 as [f|f t fs' ts Hf _ IH]; intros s b fs Hc HL Hs; apply Forall_cons in HL as [HL1 HL].
  - cbn [feed].
    assert (E : process_char limit delim (Reader s [] fs) (Some c_quote) = Some (Reader InQuoted [] fs)) by (destruct Hs as [->| ->]; reflexivity).
    rewrite E. rewrite (bool_decide_eq_false_2 (c_quote = c_lf)) by discriminate.
    destruct (in_quotes f true [] fs []) as [b' K]; [unfold zlen in *; cbn [length]; lia|]. rewrite app_nil_r in K. rewrite K. rewrite app_nil_r.
    assert (EE : read_rows limit delim (Reader InQuoted (reverse f) fs) [] = ([reverse fs ++ [str f]], false)).
    { cbn [read_rows r_state r_field]. rewrite orb_true_r. cbn [save_field r_fields r_field]. rewrite reverse_involutive, reverse_cons. reflexivity. }
    destruct b'; cbn [feed process_char r_state]; [rewrite bool_decide_eq_false_2 by discriminate|]; exact EE.
  - apply Forall_app in Hc as [Hc1 Hc]. apply Forall_cons in Hc as [_ Hc].
    assert (K : feed b (Reader s [] fs) (t ++ delim :: ts) = feed true (Reader StartField [] (str f :: fs)) ts).
    { destruct (decide (t = [])) as [->|Nt].
      - cbn [app]. assert (f = []) as -> by (inversion Hf; reflexivity). destruct Hs as [->| ->].
        + destruct HD as (D1 & D2 & D3). cbn [feed process_char r_state start_field]. rewrite newline_no by assumption. 
          rewrite (bool_decide_eq_false_2 (delim = c_quote)) by exact D1. rewrite (bool_decide_eq_true_2 (delim = delim)) by reflexivity.
          rewrite (bool_decide_eq_false_2 (delim = c_lf)) by exact D2. reflexivity.
        + apply holds_delim. split; [reflexivity|]. split; [reflexivity|]. right. right. split; reflexivity.
      - destruct (field_read f t s b fs (delim :: ts) Hf Hc1 HL1 Hs ltac:(congruence)) as (rd & H1 & ->). apply (holds_delim f rd fs _ _ H1). }
    rewrite K, (IH StartField true (str f :: fs) Hc HL (or_intror eq_refl)), reverse_cons, <- app_assoc. reflexivity.
Qed.

Lemma table_read rows t : table_text delim rows t -> no_cr t -> Forall fits rows ->
  feed false new_record t = (map (map str) rows, false).
Proof.
  induction 1 as [|r t Hr Nt|r t Hr|rows ts _ IH|r t rows ts Hr Nt _ IH]; intros Hc HL.
  - reflexivity.
  - apply Forall_cons in HL as [HL _]. destruct (row_read r t Hr StartRecord false [] [] Hc HL (or_introl eq_refl) ltac:(congruence)) as (f & rd & fs & E1 & E2 & E3).
    rewrite app_nil_r in E3. unfold new_record. rewrite E3. destruct t as [|c t]; [congruence|]. rewrite (holds_end f rd fs E2), E1. reflexivity.
  - apply Forall_cons in HL as [HL _]. unfold new_record. rewrite (open_read r t Hr StartRecord false [] Hc HL (or_introl eq_refl)). reflexivity.
  - apply Forall_cons in HL as [_ HL]. apply Forall_cons in Hc as [_ Hc]. cbn [feed process_char r_state new_record]. rewrite newline_lf.
    rewrite (bool_decide_eq_true_2 (c_lf = c_lf)) by reflexivity. cbn [process_char r_state new_record r_field r_fields].
    rewrite (bool_decide_eq_true_2 (StartRecord = StartRecord)) by reflexivity. fold new_record. rewrite (IH Hc HL). reflexivity.
  - apply Forall_cons in HL as [HL1 HL]. apply Forall_app in Hc as [Hc1 Hc]. apply Forall_cons in Hc as [_ Hc].
    destruct (row_read r t Hr StartRecord false [] (c_lf :: ts) Hc1 HL1 (or_introl eq_refl) ltac:(congruence)) as (f & rd & fs & E1 & E2 & E3).
    unfold new_record at 1. rewrite E3. rewrite (holds_lf f rd fs _ ts E2), (IH Hc HL), E1. reflexivity.
Qed.
End csv.
