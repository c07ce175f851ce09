(** Property C67: fields longer than csv.field_size_limit(). *)
From Verif Require Import SpecText CsvProofs CsvMain FormatProofs TsvProofs.
Open Scope Z_scope.

Section mono.
Context (L L' : Z) (delim : char) (HL : L <= L').

Lemma add_char_mono r c s r' : add_char L r c s = Some r' -> add_char L' r c s = Some r'.
Proof. unfold add_char. intros H. destruct (Z.leb_spec L (zlen (r_field r))); [discriminate|]. destruct (Z.leb_spec L' (zlen (r_field r))); [lia|exact H]. Qed.

Lemma process_char_mono r c r' : process_char L delim r c = Some r' -> process_char L' delim r c = Some r'.
Proof.
  unfold process_char, start_field. intros H.
  repeat match type of H with
  | (match ?x with _ => _ end) = _ => destruct x
  end; first [exact H|apply add_char_mono, H|discriminate].
Qed.

Lemma process_chars_mono l : forall r r', process_chars L delim r l = Some r' -> process_chars L' delim r l = Some r'.
Proof.
  induction l as [|c l IH]; intros r r' H; [exact H|]. cbn [process_chars] in *. destruct (process_char L delim r (Some c)) as [r1|] eqn:E; [|discriminate].
  rewrite (process_char_mono _ _ _ E). apply IH, H.
Qed.

Lemma read_rows_mono lines : forall r rows, read_rows L delim r lines = (rows, false) -> read_rows L' delim r lines = (rows, false).
Proof.
  induction lines as [|l lines IH]; intros r rows H; [exact H|]. cbn [read_rows] in *.
  destruct (process_chars L delim r l) as [r1|] eqn:E1; [|discriminate]. rewrite (process_chars_mono _ _ _ E1).
  destruct (process_char L delim r1 None) as [r2|] eqn:E2; [|discriminate]. rewrite (process_char_mono _ _ _ E2).
  destruct (bool_decide _); [|apply IH, H].
  destruct (read_rows L delim new_record lines) as [rows' fl] eqn:E3. destruct fl; [discriminate|]. rewrite (IH _ _ E3). exact H.
Qed.
End mono.

Section bound.
Context (L : Z) (delim : char) (HL : 0 <= L).

Definition short (s : string) : Prop := zlen (chars s) <= L.
Definition holds (r : reader) : Prop := zlen (r_field r) <= L /\ Forall short (r_fields r).

Lemma save_holds r s : holds r -> holds (save_field r s).
Proof.
  intros [H1 H2]. split; [exact HL|]. cbn [save_field r_fields]. constructor; [|exact H2]. unfold short.
  rewrite String.list_ascii_of_string_of_list_ascii. unfold zlen in *. rewrite reverse_length. exact H1.
Qed.
Lemma same_holds r s : holds r -> holds (Reader s (r_field r) (r_fields r)).
Proof. intros H. exact H. Qed.
Lemma add_holds r c s r' : holds r -> add_char L r c s = Some r' -> holds r'.
Proof.
  unfold add_char. intros [H1 H2] H. destruct (Z.leb_spec L (zlen (r_field r))); [discriminate|]. injection H as <-. split; [|exact H2].
  cbn [r_field]. unfold zlen in *. cbn [length]. lia.
Qed.

Lemma process_char_holds r c r' : holds r -> process_char L delim r c = Some r' -> holds r'.
Proof.
  unfold process_char, start_field. intros Hr H.
  repeat match type of H with
  | (match ?x with _ => _ end) = _ => destruct x
  end; first [discriminate|eapply add_holds; eassumption|injection H as <-; first [exact Hr|apply save_holds, Hr]].
Qed.

Lemma process_chars_holds l : forall r r', holds r -> process_chars L delim r l = Some r' -> holds r'.
Proof.
  induction l as [|c l IH]; intros r r' Hr H; [injection H as <-; exact Hr|]. cbn [process_chars] in H.
  destruct (process_char L delim r (Some c)) as [r1|] eqn:E; [|discriminate]. exact (IH _ _ (process_char_holds _ _ _ Hr E) H).
Qed.

Lemma read_rows_short lines : forall r rows b, holds r -> read_rows L delim r lines = (rows, b) -> Forall (Forall short) rows.
Proof.
  assert (HN : holds new_record) by (split; [exact HL|constructor]).
  induction lines as [|l lines IH]; intros r rows b Hr H; cbn [read_rows] in H.
  - destruct (_ || _); injection H as <- _; [|constructor]. constructor; [|constructor]. apply Forall_reverse, (save_holds r StartRecord Hr).
  - destruct (process_chars L delim r l) as [r1|] eqn:E1; [|injection H as <- _; constructor]. pose proof (process_chars_holds _ _ _ Hr E1) as H1.
    destruct (process_char L delim r1 None) as [r2|] eqn:E2; [|injection H as <- _; constructor]. pose proof (process_char_holds _ _ _ H1 E2) as H2.
    destruct (bool_decide _); [|exact (IH _ _ _ H2 H)]. destruct (read_rows L delim new_record lines) as [rows' fl] eqn:E3.
    injection H as <- _. constructor; [apply Forall_reverse, H2|exact (IH _ _ _ HN E3)].
Qed.
End bound.

(** The reader fails exactly if some field is longer than the limit. *)
Theorem csv_limit delim rows t : separator delim -> table_text delim rows (translate t) ->
  (snd (csv_rows delim t) = false <-> Forall (Forall (fun f => zlen f <= field_limit)) rows).
Proof.
  intros HD HT. split; [|intros HF; rewrite (csv_table delim rows t HD HT HF); reflexivity].
  intros H. destruct (csv_rows delim t) as [rs b] eqn:E. cbn [snd] in H. subst b. unfold csv_rows in E.
  pose proof (read_rows_short field_limit delim ltac:(discriminate) _ new_record rs false ltac:(split; [discriminate|constructor]) E) as HS.
  set (L' := Z.max field_limit (zlen (translate t))).
  pose proof (read_rows_mono field_limit L' delim ltac:(lia) _ _ _ E) as E'.
  unfold lines_of in E'. rewrite (feed_lines L' delim new_record [] new_record) in E' by reflexivity.
  assert (HF : Forall (fits L') rows).
  { eapply Forall_impl; [exact (table_length _ _ _ HT)|]. intros r Hr. eapply Forall_impl; [exact Hr|]. intros f Hf. unfold L', zlen. cbn in Hf. lia. }
  rewrite (table_read L' delim HD rows _ HT (no_cr_translate t) HF) in E'. injection E' as <-.
  rewrite List.Forall_map in HS. eapply Forall_impl; [exact HS|]. intros r Hr. cbn in Hr. rewrite List.Forall_map in Hr. eapply Forall_impl; [exact Hr|].
  intros f Hf. unfold short in Hf. rewrite String.list_ascii_of_string_of_list_ascii in Hf. exact Hf.
Qed.

Theorem too_long delim name rows t : separator delim -> table_text delim rows (translate t) ->
  (exists row f, row ∈ rows /\ f ∈ row /\ field_limit < zlen f) ->
  (exists e, read_tsv delim name t = Err e) /\ (exists e, read_positions_tsv delim name t = Err e).
Proof.
  intros HD HT (row & f & Hrow & Hf & Hlt). pose proof (csv_limit delim rows t HD HT) as HC.
  unfold read_tsv, read_positions_tsv. destruct (csv_rows delim t) as [rs b]. cbn [snd] in HC. destruct b.
  - split; [destruct (input_tsv _ rs)|destruct (input_positions_tsv _ rs)]; cbn [bind]; eauto.
  - destruct HC as [HC _]. specialize (HC eq_refl). rewrite Forall_forall in HC. specialize (HC _ Hrow). rewrite Forall_forall in HC. specialize (HC _ Hf). lia.
Qed.
