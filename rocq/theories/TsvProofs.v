(** Reading tables. *)
From Verif Require Export DataProofs.
Open Scope Z_scope.

(** * Integers *)
Definition dstep (st : option (Z * bool)) (c : Ascii.ascii) : option (Z * bool) :=
  match st with
  | None => None
  | Some (acc, d) => if is_digit c then Some (10 * acc + digit c, true) else if is_underscore c && d then Some (acc, false) else None
  end.

Lemma dstep_None l : foldl dstep None l = None.
Proof. induction l; [reflexivity|assumption]. Qed.

Lemma digits_value_fold l : forall acc d, digits_value acc d l = match foldl dstep (Some (acc, d)) l with Some (a, true) => Some a | _ => None end.
Proof.
  induction l as [|c l IH]; intros acc d; cbn [digits_value foldl]; [destruct d; reflexivity|]. unfold dstep at 2.
  destruct (is_digit c); [apply IH|]. destruct (is_underscore c && d); [apply IH|]. rewrite dstep_None. reflexivity.
Qed.

Lemma digit_char_iff c d : digit_char c d <-> is_digit c = true /\ d = digit c.
Proof.
  unfold digit_char, is_digit, digit. rewrite andb_true_iff, !Nat.leb_le. split.
  - intros [H ->]. rewrite Ascii.nat_ascii_embedding by lia. lia.
  - intros [H ->]. split; [lia|]. rewrite <- (Ascii.ascii_nat_embedding c) at 1. f_equal. lia.
Qed.

Lemma underscore_iff c : is_underscore c = true <-> c = Ascii.ascii_of_nat 95.
Proof.
  unfold is_underscore. rewrite Nat.eqb_eq. split; [|intros ->; reflexivity]. intros H. rewrite <- (Ascii.ascii_nat_embedding c), H. reflexivity.
Qed.

Lemma underscore_no_digit : is_digit (Ascii.ascii_of_nat 95) = false.
Proof. reflexivity. Qed.

Lemma digits_nonempty l v : digits l v -> l <> [].
Proof. destruct 1; [discriminate| |]; destruct l; discriminate. Qed.

Lemma digits_fold l v : digits l v -> foldl dstep (Some (0, false)) l = Some (v, true).
Proof.
  induction 1 as [c d Hc|l v c d H IH Hc|l v c d H IH Hc]; apply digit_char_iff in Hc as [Hc ->].
  - cbn [foldl dstep]. rewrite Hc. reflexivity.
  - rewrite foldl_app, IH. cbn [foldl dstep]. rewrite Hc. reflexivity.
  - rewrite foldl_app, IH. cbn [foldl]. cbn [dstep]. rewrite underscore_no_digit, (proj2 (underscore_iff _) eq_refl). cbn [andb dstep]. rewrite Hc. reflexivity.
Qed.

Lemma fold_digits l : forall a b, foldl dstep (Some (0, false)) l = Some (a, b) ->
  if b then digits l a else (l = [] /\ a = 0) \/ exists l', l = l' ++ [Ascii.ascii_of_nat 95] /\ digits l' a.
Proof.
  induction l as [|c l IH] using rev_ind; intros a b H.
  - cbn in H. injection H as <- <-. auto.
  - rewrite foldl_app in H. destruct (foldl dstep (Some (0, false)) l) as [[a1 b1]|] eqn:E; [|discriminate]. specialize (IH a1 b1 eq_refl). cbn [foldl dstep] in H.
    destruct (is_digit c) eqn:Hd.
    + injection H as <- <-. assert (Hc : digit_char c (digit c)) by (apply digit_char_iff; auto). destruct b1.
      * apply digits_more; assumption.
      * destruct IH as [[-> ->]|(l' & -> & IH)].
        -- cbn [app]. replace (10 * 0 + digit c) with (digit c) by lia. apply digits_one, Hc.
        -- rewrite <- app_assoc. apply digits_under; assumption.
    + destruct (is_underscore c) eqn:Hu; [|discriminate]. destruct b1; [|discriminate]. cbn [andb] in H. injection H as <- <-. right. exists l.
      apply underscore_iff in Hu as ->. auto.
Qed.

Lemma digits_value_iff l v : digits_value 0 false l = Some v <-> digits l v.
Proof.
  rewrite digits_value_fold. split.
  - destruct (foldl dstep (Some (0, false)) l) as [[a b]|] eqn:E; [|discriminate]. destruct b; [|discriminate]. intros H. injection H as <-. exact (fold_digits l a true E).
  - intros H. rewrite (digits_fold l v H). reflexivity.
Qed.

(** ** White space *)
Lemma blank_iff c : is_blank c = true <-> blank c.
Proof.
  unfold is_blank, blank. rewrite !orb_true_iff, !andb_true_iff, Nat.eqb_eq, !Nat.leb_le. rewrite !elem_of_cons, elem_of_nil. lia.
Qed.

Lemma skip_split l : exists b, l = b ++ skip_blanks l /\ Forall blank b.
Proof.
  induction l as [|c l (b & E & F)]; [exists []; split; [reflexivity|constructor]|]. cbn [skip_blanks]. destruct (is_blank c) eqn:H.
  - exists (c :: b). split; [cbn; f_equal; exact E|]. constructor; [apply blank_iff, H|exact F].
  - exists []. split; [reflexivity|constructor].
Qed.

Lemma skip_blanks_app b l : Forall blank b -> skip_blanks (b ++ l) = skip_blanks l.
Proof. induction 1 as [|c b H F IH]; [reflexivity|]. cbn [app skip_blanks]. rewrite (proj2 (blank_iff c) H). exact IH. Qed.

Lemma skip_blanks_stop c l : ~ blank c -> skip_blanks (c :: l) = c :: l.
Proof. intros H. cbn. destruct (is_blank c) eqn:E; [|reflexivity]. apply blank_iff in E. contradiction. Qed.

Lemma strip_split l : exists b a, l = b ++ strip l ++ a /\ Forall blank b /\ Forall blank a.
Proof.
  unfold strip. destruct (skip_split l) as (b & E & Fb). destruct (skip_split (reverse (skip_blanks l))) as (a & E' & Fa).
  exists b, (reverse a). split; [|split; [exact Fb|apply Forall_reverse, Fa]].
  rewrite E at 1. f_equal. rewrite <- (reverse_involutive (skip_blanks l)) at 1. rewrite E' at 1. rewrite reverse_app. reflexivity.
Qed.

Lemma strip_exact b c m c' a : Forall blank b -> Forall blank a -> ~ blank c -> ~ blank c' ->
  (exists m1, c :: m = m1 ++ [c']) -> strip (b ++ (c :: m) ++ a) = c :: m.
Proof.
  intros Fb Fa Hc Hc' [m1 E]. unfold strip. rewrite skip_blanks_app by exact Fb. cbn [app]. rewrite skip_blanks_stop by exact Hc.
  change (c :: m ++ a) with ((c :: m) ++ a). rewrite E, reverse_app, reverse_app. rewrite skip_blanks_app by (apply Forall_reverse, Fa).
  change (reverse [c'] ++ reverse m1) with (c' :: reverse m1). rewrite skip_blanks_stop by exact Hc'. rewrite reverse_cons, reverse_involutive. reflexivity.
Qed.

Lemma digit_not_blank c d : digit_char c d -> ~ blank c.
Proof.
  intros [H ->] B. unfold blank in B. rewrite Ascii.nat_ascii_embedding in B by lia. rewrite !elem_of_cons, elem_of_nil in B. lia.
Qed.

Lemma digits_ends l v : digits l v -> exists c d m m' c' d', l = c :: m /\ digit_char c d /\ l = m' ++ [c'] /\ digit_char c' d'.
Proof.
  induction 1 as [c d Hc|l v c d H IH Hc|l v c d H IH Hc].
  - exists c, d, [], [], c, d. auto.
  - destruct IH as (c0 & d0 & m & m' & c' & d' & E & Hc0 & _ & _). exists c0, d0, (m ++ [c]), l, c, d. rewrite E. auto.
  - destruct IH as (c0 & d0 & m & m' & c' & d' & E & Hc0 & _ & _). exists c0, d0, (m ++ [Ascii.ascii_of_nat 95; c]), (l ++ [Ascii.ascii_of_nat 95]), c, d.
    rewrite E. split; [reflexivity|]. split; [exact Hc0|]. split; [|exact Hc]. rewrite <- app_assoc. reflexivity.
Qed.

Lemma char_eq c n : (n < 256)%nat -> (Ascii.nat_of_ascii c =? n)%nat = true <-> c = Ascii.ascii_of_nat n.
Proof.
  intros Hn. rewrite Nat.eqb_eq. split; [|intros ->; apply Ascii.nat_ascii_embedding, Hn]. intros H. rewrite <- (Ascii.ascii_nat_embedding c), H. reflexivity.
Qed.

Lemma digit_not_sign c d n : digit_char c d -> (n = 43 \/ n = 45)%nat -> (Ascii.nat_of_ascii c =? n)%nat = false.
Proof. intros [H ->] Hn. apply Nat.eqb_neq. rewrite Ascii.nat_ascii_embedding by lia. lia. Qed.

Lemma parse_int_iff s z : parse_int s = Ok z <-> integer_text s z.
Proof.
  unfold parse_int, integer_text. generalize (String.list_ascii_of_string s). clear s. intros l. split.
  - destruct (strip_split l) as (b & a & E & Fb & Fa). destruct (strip l) as [|c m]; [discriminate|].
    destruct (Ascii.nat_of_ascii c =? 45)%nat eqn:H45; [|destruct (Ascii.nat_of_ascii c =? 43)%nat eqn:H43].
    + destruct (digits_value 0 false m) as [v|] eqn:Ev; [|discriminate]. cbn. intros H. injection H as <-. apply digits_value_iff in Ev.
      apply char_eq in H45 as ->; [|lia]. exists b, [Ascii.ascii_of_nat 45], m, a, v. split; [exact E|]. split; [exact Fb|]. split; [exact Fa|]. split; [exact Ev|]. auto.
    + destruct (digits_value 0 false m) as [v|] eqn:Ev; [|discriminate]. cbn. intros H. injection H as <-. apply digits_value_iff in Ev.
      apply char_eq in H43 as ->; [|lia]. exists b, [Ascii.ascii_of_nat 43], m, a, v. split; [exact E|]. split; [exact Fb|]. split; [exact Fa|]. split; [exact Ev|]. auto.
    + destruct (digits_value 0 false (c :: m)) as [v|] eqn:Ev; [|discriminate]. intros H. injection H as <-. apply digits_value_iff in Ev.
      exists b, [], (c :: m), a, v. split; [exact E|]. split; [exact Fb|]. split; [exact Fa|]. split; [exact Ev|]. auto.
  - intros (b & sg & m & a & v & -> & Fb & Fa & D & Hs). destruct (digits_ends m v D) as (c & d & m0 & m' & c' & d' & E1 & Hc & E2 & Hc').
    pose proof (digit_not_blank _ _ Hc') as Bc'. pose proof (digit_not_blank _ _ Hc) as Bc.
    assert (S : strip (b ++ sg ++ m ++ a) = sg ++ m).
    { rewrite (app_assoc sg m a). destruct Hs as [[-> _]|[[-> _]|[-> _]]].
      - cbn [app]. rewrite E1. apply (strip_exact b c m0 c'); try assumption. exists m'. congruence.
      - change ([Ascii.ascii_of_nat 43] ++ m) with (Ascii.ascii_of_nat 43 :: m). apply (strip_exact b _ m c'); try assumption.
        + intros B. apply blank_iff in B. discriminate.
        + exists (Ascii.ascii_of_nat 43 :: m'). rewrite E2. reflexivity.
      - change ([Ascii.ascii_of_nat 45] ++ m) with (Ascii.ascii_of_nat 45 :: m). apply (strip_exact b _ m c'); try assumption.
        + intros B. apply blank_iff in B. discriminate.
        + exists (Ascii.ascii_of_nat 45 :: m'). rewrite E2. reflexivity. }
    rewrite S. pose proof (proj2 (digits_value_iff m v) D) as Dv.
    destruct Hs as [[-> ->]|[[-> ->]|[-> ->]]].
    + cbn [app]. rewrite E1 at 1. rewrite (digit_not_sign c d 45 Hc) by auto. rewrite (digit_not_sign c d 43 Hc) by auto. rewrite Dv. reflexivity.
    + cbn [app]. rewrite Dv. reflexivity.
    + cbn [app]. rewrite Dv. reflexivity.
Qed.

Lemma parse_int_err s e : parse_int s = Err e -> e = ValueError.
Proof. unfold parse_int. generalize (String.list_ascii_of_string s). intros l. destruct (match strip l with [] => _ | _ => _ end); congruence. Qed.

(** * Rows *)
Lemma columns_fold cols : forall acc r, foldM (fun l col => let* z := parse_int col in Ok (l ++ [z])) cols acc = Ok r <->
  exists zs, r = acc ++ zs /\ Forall2 integer_text cols zs.
Proof.
  induction cols as [|s cols IH]; intros acc r; cbn [foldM].
  - split.
    + intros H. injection H as <-. exists []. rewrite app_nil_r. split; [reflexivity|constructor].
    + intros (zs & -> & F). inversion F; subst. rewrite app_nil_r. reflexivity.
  - destruct (parse_int s) as [z|e] eqn:E; cbn [bind].
    + rewrite IH. split.
      * intros (zs & -> & F). exists (z :: zs). rewrite <- app_assoc. split; [reflexivity|]. constructor; [apply parse_int_iff, E|exact F].
      * intros (zs & -> & F). inversion F as [|? z' ? zs' Hz F']; subst. apply parse_int_iff in Hz. rewrite E in Hz. injection Hz as <-. exists zs'. rewrite <- app_assoc. auto.
    + split; [discriminate|]. intros (zs & _ & F). inversion F as [|? z' ? zs' Hz F']; subst. apply parse_int_iff in Hz. congruence.
Qed.

Lemma columns_err cols : forall acc e, foldM (fun l col => let* z := parse_int col in Ok (l ++ [z])) cols acc = Err e -> e = ValueError.
Proof.
  induction cols as [|s cols IH]; intros acc e; cbn [foldM]; [discriminate|]. destruct (parse_int s) as [z|e'] eqn:E; cbn [bind]; [apply IH|].
  intros H. injection H as <-. exact (parse_int_err s e' E).
Qed.

Lemma tsv_row_iff acc row r : tsv_row acc row = Ok r <-> exists c zs, row_codes row c zs /\ r = dset acc c zs.
Proof.
  unfold tsv_row, row_codes. destruct row as [|c cols].
  - split; [discriminate|]. intros (c & zs & (cols & E & _) & _). discriminate.
  - split.
    + destruct (foldM _ cols []) as [l|] eqn:E; [|discriminate]. cbn [bind]. intros H. injection H as <-. apply columns_fold in E as (zs & -> & F). exists c, zs. eauto.
    + intros (c' & zs & (cols' & E & F) & ->). injection E as <- <-.
      assert (Q : foldM (fun l col => let* z := parse_int col in Ok (l ++ [z])) cols [] = Ok ([] ++ zs)) by (apply columns_fold; eauto).
      rewrite Q. reflexivity.
Qed.

Lemma row_codes_det row c c' zs zs' : row_codes row c zs -> row_codes row c' zs' -> c = c' /\ zs = zs'.
Proof.
  intros (cols & -> & F) (cols' & E & F'). injection E as <- <-. split; [reflexivity|]. clear c. revert zs' F'. induction F as [|s z cols zs H F IH]; intros zs' F'; inversion F' as [|? z' ? zs1 Hz F1]; subst; [reflexivity|].
  f_equal; [|exact (IH zs1 F1)]. apply parse_int_iff in H, Hz. congruence.
Qed.

Lemma rows_fold rows : forall acc r, foldM tsv_row rows acc = Ok r ->
  Forall (fun row => exists c zs, row_codes row c zs) rows /\
  (dict_ok acc -> dict_ok r) /\
  (forall c zs, dget r c = Some zs <->
    (exists pre row post, rows = pre ++ row :: post /\ row_codes row c zs /\ Forall (fun row' => forall zs', ~ row_codes row' c zs') post) \/
    (dget acc c = Some zs /\ Forall (fun row' => forall zs', ~ row_codes row' c zs') rows)).
Proof.
  induction rows as [|row rows IH]; intros acc r H; cbn [foldM] in H.
  - injection H as <-. split; [constructor|]. split; [auto|]. intros c zs. split; [right; split; [assumption|constructor]|].
    intros [(pre & row & post & E & _)|[K _]]; [destruct pre; discriminate|exact K].
  - destruct (tsv_row acc row) as [acc1|] eqn:E; [|discriminate]. cbn [bind] in H. apply tsv_row_iff in E as (c0 & zs0 & Hrow & ->).
    destruct (IH _ _ H) as (F & Hok & Hget). split; [constructor; eauto|]. split; [intros Ha; apply Hok, dset_ok, Ha|].
    intros c zs. rewrite Hget. split.
    + intros [(pre & row' & post & E & Hr & Fp)|[K Fr]].
      * left. exists (row :: pre), row', post. rewrite E. auto.
      * rewrite dget_dset in K. destruct (decide (c = c0)) as [->|Hne].
        -- injection K as <-. left. exists [], row, rows. auto.
        -- right. split; [exact K|]. constructor; [|exact Fr]. intros zs' Hr'. destruct (row_codes_det _ _ _ _ _ Hrow Hr'). congruence.
    + intros [(pre & row' & post & E & Hr & Fp)|[K Fr]].
      * destruct pre as [|p pre]; cbn [app] in E; injection E as -> E.
        -- subst rows. destruct (row_codes_det _ _ _ _ _ Hrow Hr) as [<- <-]. right. rewrite dget_dset, decide_True by reflexivity. auto.
        -- left. exists pre, row', post. auto.
      * apply Forall_cons in Fr as [Fr1 Fr]. right. split; [|exact Fr]. rewrite dget_dset, decide_False; [exact K|]. intros ->. exact (Fr1 zs0 Hrow).
Qed.

Lemma rows_total rows : Forall (fun row => exists c zs, row_codes row c zs) rows -> forall acc, exists r, foldM tsv_row rows acc = Ok r.
Proof.
  induction 1 as [|row rows (c & zs & H) F IH]; intros acc; cbn [foldM]; [eauto|].
  rewrite (proj2 (tsv_row_iff acc row (dset acc c zs))) by eauto. cbn [bind]. apply IH.
Qed.

Lemma rows_err rows : forall acc e, foldM tsv_row rows acc = Err e ->
  exists pre bad post, rows = pre ++ bad :: post /\ Forall (fun row => exists c zs, row_codes row c zs) pre /\
    (forall c zs, ~ row_codes bad c zs) /\ e = (if decide (bad = []) then KeyError else ValueError).
Proof.
  induction rows as [|row rows IH]; intros acc e H; cbn [foldM] in H; [discriminate|]. destruct (tsv_row acc row) as [acc1|e'] eqn:E; cbn [bind] in H.
  - apply tsv_row_iff in E as (c0 & zs0 & Hrow & ->). destruct (IH _ _ H) as (pre & bad & post & -> & F & Hb & He). exists (row :: pre), bad, post.
    split; [reflexivity|]. split; [constructor; eauto|]. auto.
  - injection H as <-. exists [], row, rows. split; [reflexivity|]. split; [constructor|]. split.
    + intros c zs Hr. assert (K : tsv_row acc row = Ok (dset acc c zs)) by (apply tsv_row_iff; eauto). congruence.
    + unfold tsv_row in E. destruct row as [|c cols]; [cbn in E; rewrite decide_True by reflexivity; congruence|]. rewrite decide_False by discriminate.
      destruct (foldM _ cols []) eqn:Ef; [discriminate|]. cbn [bind] in E. injection E as <-. exact (columns_err _ _ _ Ef).
Qed.

(** * C55 *)
Lemma tsv_accepts item header rows : (exists r, input_tsv item (header :: rows) = Ok r) <-> Forall (fun row => exists c zs, row_codes row c zs) rows.
Proof.
  unfold input_tsv. cbn [tail]. split.
  - intros [r H]. destruct (foldM tsv_row rows []) as [l|] eqn:E; [|discriminate]. apply (rows_fold _ _ _ E).
  - intros F. destruct (rows_total rows F []) as [l ->]. cbn [bind]. eauto.
Qed.

Lemma tsv_result item header rows r : input_tsv item (header :: rows) = Ok r ->
  (ds_items r).*1 = [item] /\ items_ok (ds_items r) /\ ds_coders r = ∅ /\
  forall c zs, coding_at (ds_items r) item c = Some zs <->
    exists pre row post, rows = pre ++ row :: post /\ row_codes row c zs /\ Forall (fun row' => forall zs', ~ row_codes row' c zs') post.
Proof.
  unfold input_tsv. cbn [tail]. destruct (foldM tsv_row rows []) as [l|] eqn:E; [|discriminate]. cbn [bind]. intros H. injection H as <-.
  destruct (rows_fold _ _ _ E) as (_ & Hok & Hget). cbn [ds_items with_items]. split; [reflexivity|]. split.
  - split; [apply NoDup_singleton|]. intros i cs Hi. apply elem_of_list_singleton in Hi. injection Hi as -> ->. apply Hok. constructor.
  - split; [reflexivity|]. intros c zs. unfold coding_at. cbn [dget]. rewrite decide_True by reflexivity. rewrite Hget. split; [|auto].
    intros [K|[K _]]; [exact K|discriminate].
Qed.

Lemma tsv_raises item header rows e : input_tsv item (header :: rows) = Err e ->
  exists pre bad post, rows = pre ++ bad :: post /\ Forall (fun row => exists c zs, row_codes row c zs) pre /\
    (forall c zs, ~ row_codes bad c zs) /\ e = (if decide (bad = []) then KeyError else ValueError).
Proof.
  unfold input_tsv. cbn [tail]. destruct (foldM tsv_row rows []) as [l|e'] eqn:E; [discriminate|]. cbn [bind]. intros H. injection H as <-.
  exact (rows_err _ _ _ E).
Qed.
