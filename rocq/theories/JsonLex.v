(** Blanks, strings and numbers of JSON texts: the scanner against the grammar. *)
From Coq Require Import Qpower.
From Verif Require Import SpecJson.
Open Scope Z_scope.

(** ** Characters *)

Definition all_chars : list char := map Ascii.ascii_of_nat (seq 0 256).
Lemma every_char (P : char -> bool) : forallb P all_chars = true -> forall c, P c = true.
Proof.
  intros H c. rewrite forallb_forall in H. apply H. apply in_map_iff. exists (Ascii.nat_of_ascii c). split; [apply Ascii.ascii_nat_embedding|].
  apply in_seq. pose proof (Ascii.nat_ascii_bounded c). lia.
Qed.

Lemma code_bound c : 0 <= code c < 256.
Proof. unfold code. pose proof (Ascii.nat_ascii_bounded c). lia. Qed.
Lemma char_code c : char_of (code c) = c.
Proof. unfold char_of, code. rewrite Nat2Z.id. apply Ascii.ascii_nat_embedding. Qed.
Lemma code_char z : 0 <= z < 256 -> code (char_of z) = z.
Proof. intros H. unfold char_of, code. rewrite Ascii.nat_ascii_embedding by lia. lia. Qed.
Lemma code_inj c d : code c = code d -> c = d.
Proof. intros E. rewrite <- (char_code c), E. apply char_code. Qed.

(** ** Blanks *)

Lemma code_eq c n : (n < 256)%nat -> code c = Z.of_nat n <-> c = chr n.
Proof. intros Hn. split; [intros E; apply code_inj; rewrite E; unfold code; rewrite Ascii.nat_ascii_embedding by exact Hn; reflexivity|intros ->; unfold code; rewrite Ascii.nat_ascii_embedding by exact Hn; reflexivity]. Qed.

Lemma is_ws_spec c : is_ws c = true <-> c ∈ [chr 32; chr 9; chr 10; chr 13].
Proof.
  unfold is_ws. rewrite !orb_true_iff, !Z.eqb_eq, !elem_of_cons, elem_of_nil.
  rewrite (code_eq c 32), (code_eq c 9), (code_eq c 10), (code_eq c 13) by lia. tauto.
Qed.

Lemma skip_blank w t : spaces w -> skip_ws (w ++ t) = skip_ws t.
Proof. induction 1 as [|c w Hc _ IH]; [reflexivity|]. cbn [app skip_ws]. apply is_ws_spec in Hc. rewrite Hc. exact IH. Qed.
Definition no_ws (t : text) : Prop := match t with c :: _ => is_ws c = false | [] => True end.
Lemma skip_none t : no_ws t -> skip_ws t = t.
Proof. destruct t as [|c t]; [reflexivity|]. cbn. intros ->. reflexivity. Qed.
Lemma skip_split t : exists w, spaces w /\ t = w ++ skip_ws t /\ no_ws (skip_ws t).
Proof.
  induction t as [|c t (w & Hw & E & Hn)]; [exists []; split; [constructor|]; split; [reflexivity|exact I]|]. cbn [skip_ws]. destruct (is_ws c) eqn:Ec.
  - exists (c :: w). split; [constructor; [apply is_ws_spec, Ec|exact Hw]|]. split; [cbn [app]; f_equal; exact E|exact Hn].
  - exists []. split; [constructor|]. split; [reflexivity|exact Ec].
Qed.
Lemma skip_blank_to w t : spaces w -> no_ws t -> skip_ws (w ++ t) = t.
Proof. intros Hw Ht. rewrite skip_blank by exact Hw. apply skip_none, Ht. Qed.

(** ** Strings *)

Definition letter_of (e : char) : option char := char_of <$> (snd <$> List.find (fun p => bool_decide (fst p = e)) letters).
Definition unescape_check (e : char) : bool := bool_decide (unescape e = letter_of e).
Lemma unescape_spec e c : unescape e = Some c <-> (e, code c) ∈ letters.
Proof.
  assert (E : unescape e = letter_of e) by (apply (bool_decide_eq_true (unescape e = letter_of e)); apply (every_char unescape_check); vm_compute; reflexivity).
  rewrite E. unfold letter_of. split.
  - intros H. destruct (List.find _ letters) as [[e' z]|] eqn:F; [|discriminate]. apply find_some in F as [F1 F2]. cbn in F2. apply bool_decide_eq_true in F2 as ->.
    cbn in H. injection H as <-. rewrite code_char; [apply elem_of_list_In, F1|]. unfold letters in F1. cbn in F1.
    repeat destruct F1 as [F1|F1]; try contradiction; injection F1 as _ <-; lia.
  - intros H. apply elem_of_list_In in H. unfold letters in H. cbn [In] in H.
    repeat destruct H as [H|H]; try contradiction; injection H as <- Hz; (rewrite <- (char_code c), <- Hz; vm_compute; reflexivity).
Qed.

Definition hex_check (c : char) : bool :=
  match hex_value c with
  | Some z => (0 <=? z) && (bool_decide (chars "0123456789abcdef" !! Z.to_nat z = Some c) || bool_decide (chars "0123456789ABCDEF" !! Z.to_nat z = Some c))
  | None => true
  end.
Lemma hex_spec c z : hex_value c = Some z <-> hexadecimal c z.
Proof.
  assert (K1 : hex_value c = Some z -> hexadecimal c z).
  { intros E. assert (K : hex_check c = true) by (apply (every_char hex_check); vm_compute; reflexivity). unfold hex_check in K.
    rewrite E in K. apply andb_prop in K as [K0 K]. apply Z.leb_le in K0. apply orb_prop in K. split; [exact K0|]. destruct K as [K|K]; apply bool_decide_eq_true in K; auto. }
  split; [apply K1|]. intros [Hz H].
  assert (B : (Z.to_nat z < 16)%nat) by (destruct H as [H|H]; apply lookup_lt_Some in H; exact H).
  rewrite <- (Z2Nat.id z Hz). revert B H. generalize (Z.to_nat z). intros n B H.
  do 16 (destruct n as [|n]; [destruct H as [H|H]; injection H as <-; reflexivity|]). lia.
Qed.

Lemma hex_range c z : hex_value c = Some z -> 0 <= z < 16.
Proof.
  intros H. apply hex_spec in H as [Hz H]. assert (B : (Z.to_nat z < 16)%nat) by (destruct H as [H|H]; apply lookup_lt_Some in H; exact H). lia.
Qed.

Lemma string_complete s t r : string_text s t -> scan_string (t ++ chr 34 :: r) = Got s r.
Proof.
  intros H. revert r. induction H as [|c s t Hc Hq Hb _ IH|e c s t He _ IH|a b c d z1 z2 z3 z4 x s t Ha Hb Hc Hd E _ IH]; intros r.
  - reflexivity.
  - cbn [app scan_string]. rewrite bool_decide_eq_false_2 by exact Hq. rewrite bool_decide_eq_false_2 by exact Hb.
    destruct (Z.leb_spec (code c) 31); [lia|]. rewrite IH. reflexivity.
  - cbn [app scan_string]. change (bool_decide (chr 92 = c_quote)) with false. change (bool_decide (chr 92 = c_backslash)) with true. cbv iota.
    assert (Hu : bool_decide (e = c_u) = false).
    { apply bool_decide_eq_false_2. intros ->. unfold letters in He. repeat (apply elem_of_cons in He as [He|He]; [discriminate|]). apply not_elem_of_nil in He as []. }
    rewrite Hu. apply unescape_spec in He. rewrite He, IH. reflexivity.
  - apply hex_spec in Ha, Hb, Hc, Hd. cbn [app scan_string]. change (bool_decide (chr 92 = c_quote)) with false. change (bool_decide (chr 92 = c_backslash)) with true.
    change (bool_decide (chr 117 = c_u)) with true. cbv iota. rewrite Ha, Hb, Hc, Hd. cbv zeta.
    replace (((z1 * 16 + z2) * 16 + z3) * 16 + z4) with (code x) by lia. destruct (Z.leb_spec (code x) 255) as [_|L]; [|pose proof (code_bound x); lia].
    rewrite IH, char_code. reflexivity.
Qed.

Lemma string_sound t s r : scan_string t = Got s r -> exists u, t = u ++ chr 34 :: r /\ string_text s u.
Proof.
  enough (K : forall n t s r, (length t <= n)%nat -> scan_string t = Got s r -> exists u, t = u ++ chr 34 :: r /\ string_text s u) by exact (K _ t s r (le_n _)).
  clear. intros n. induction n as [|n IH]; intros t s r Hn H; [destruct t; [discriminate|cbn in Hn; lia]|].
  destruct t as [|c t]; [discriminate|]. cbn [length] in Hn. cbn [scan_string] in H.
  destruct (bool_decide_reflect (c = c_quote)) as [->|Dq]; [injection H as <- <-; exists []; split; [reflexivity|constructor]|].
  destruct (bool_decide_reflect (c = c_backslash)) as [->|Db].
  - destruct t as [|e t]; [discriminate|]. cbn [length] in Hn. destruct (bool_decide_reflect (e = c_u)) as [->|Du].
    + destruct t as [|h1 [|h2 [|h3 [|h4 t]]]]; try discriminate. cbn [length] in Hn.
      destruct (hex_value h1) as [z1|] eqn:E1; [|discriminate]. destruct (hex_value h2) as [z2|] eqn:E2; [|discriminate].
      destruct (hex_value h3) as [z3|] eqn:E3; [|discriminate]. destruct (hex_value h4) as [z4|] eqn:E4; [|discriminate].
      destruct (Z.leb_spec (((z1 * 16 + z2) * 16 + z3) * 16 + z4) 255) as [L|L]; [|discriminate].
      destruct (scan_string t) as [s' r'| |] eqn:Et; try discriminate. cbn in H. injection H as <- <-. destruct (IH t s' r' ltac:(lia) Et) as (u & -> & Hu).
      exists (c_backslash :: c_u :: h1 :: h2 :: h3 :: h4 :: u). split; [reflexivity|].
      pose proof (hex_range _ _ E1). pose proof (hex_range _ _ E2). pose proof (hex_range _ _ E3). pose proof (hex_range _ _ E4).
      apply (string_code _ _ _ _ z1 z2 z3 z4); try (apply hex_spec; assumption); [|exact Hu]. rewrite code_char; lia.
    + destruct (unescape e) as [x|] eqn:Ee; [|discriminate]. destruct (scan_string t) as [s' r'| |] eqn:Et; try discriminate. cbn in H. injection H as <- <-.
      destruct (IH t s' r' ltac:(lia) Et) as (u & -> & Hu). exists (c_backslash :: e :: u). split; [reflexivity|]. apply string_letter; [apply unescape_spec, Ee|exact Hu].
  - destruct (Z.leb_spec (code c) 31) as [L|L]; [discriminate|]. destruct (scan_string t) as [s' r'| |] eqn:Et; try discriminate. cbn in H. injection H as <- <-.
    destruct (IH t s' r' ltac:(lia) Et) as (u & -> & Hu). exists (c :: u). split; [reflexivity|]. apply string_plain; [lia|exact Dq|exact Db|exact Hu].
Qed.

(** ** Digits *)

Definition digit_check (c : char) : bool :=
  if is_digit c then (0 <=? digit c) && bool_decide (chars "0123456789" !! Z.to_nat (digit c) = Some c) else true.
Lemma decimal_spec c z : (is_digit c = true /\ digit c = z) <-> decimal c z.
Proof.
  split.
  - intros [H <-]. assert (K : digit_check c = true) by (apply (every_char digit_check); vm_compute; reflexivity). unfold digit_check in K.
    rewrite H in K. apply andb_prop in K as [K1 K2]. apply Z.leb_le in K1. apply bool_decide_eq_true in K2. split; assumption.
  - intros [Hz H]. assert (B : (Z.to_nat z < 10)%nat) by (apply lookup_lt_Some in H; exact H).
    rewrite <- (Z2Nat.id z Hz). revert B H. generalize (Z.to_nat z). intros n B H.
    do 10 (destruct n as [|n]; [injection H as <-; split; reflexivity|]). lia.
Qed.

Definition all_digits (d : text) : Prop := Forall (fun c => is_digit c = true) d.
Lemma value_snoc d c : value_of (d ++ [c]) = 10 * value_of d + digit c.
Proof. unfold value_of. rewrite foldl_app. reflexivity. Qed.
Lemma digits_spec d v : numeral d v <-> d <> [] /\ all_digits d /\ v = value_of d.
Proof.
  split.
  - induction 1 as [c z Hc|t v c z _ (H1 & H2 & ->) Hc]; apply decimal_spec in Hc as [Hc <-].
    + split; [discriminate|]. split; [repeat constructor; exact Hc|]. unfold value_of. cbn. lia.
    + split; [destruct t; discriminate|]. split; [apply Forall_app; split; [exact H2|repeat constructor; exact Hc]|]. rewrite value_snoc. reflexivity.
  - intros (H1 & H2 & ->). induction d as [|c d IH] using rev_ind; [contradiction|]. apply Forall_app in H2 as [H2 Hc]. inversion Hc as [|? ? Hc' _]; subst.
    assert (Dc : decimal c (digit c)) by (apply decimal_spec; auto). destruct d as [|x d]; [cbn; change (value_of [c]) with (10 * 0 + digit c); rewrite Z.mul_0_r; apply numeral_one, Dc|].
    rewrite value_snoc. apply numeral_more; [apply IH; [discriminate|exact H2]|exact Dc].
Qed.

Definition no_digit (t : text) : Prop := match t with c :: _ => is_digit c = false | [] => True end.
Lemma span_app d r : all_digits d -> no_digit r -> span_digits (d ++ r) = (d, r).
Proof.
  intros Hd Hr. induction Hd as [|c d Hc _ IH].
  - destruct r as [|c r]; [reflexivity|]. cbn in *. rewrite Hr. reflexivity.
  - cbn [app span_digits]. rewrite Hc, IH. reflexivity.
Qed.
Lemma span_spec t : forall d r, span_digits t = (d, r) -> t = d ++ r /\ all_digits d /\ no_digit r.
Proof.
  induction t as [|c t IH]; intros d r E; cbn [span_digits] in E.
  - injection E as <- <-. split; [reflexivity|]. split; [constructor|exact I].
  - destruct (is_digit c) eqn:Hc.
    + destruct (span_digits t) as [d' r'] eqn:Et. injection E as <- <-. destruct (IH d' r' eq_refl) as (-> & Hd & Hr). split; [reflexivity|]. split; [constructor; assumption|exact Hr].
    + injection E as <- <-. split; [reflexivity|]. split; [constructor|exact Hc].
Qed.

Lemma whole_spec u v : whole u v <-> u <> [] /\ all_digits u /\ v = value_of u /\ (u = [c_zero] \/ head u <> Some c_zero).
Proof. unfold whole. rewrite digits_spec. tauto. Qed.

(** ** Numbers *)

(** What may follow a number: nothing that would continue it. *)
Definition ends (r : text) : Prop := match r with c :: _ => is_digit c = false /\ c <> c_dot /\ code c <> 101 /\ code c <> 69 | [] => True end.
Lemma ends_no_digit r : ends r -> no_digit r.
Proof. destruct r; [auto|]. intros [H _]. exact H. Qed.
Lemma ends_frac r : ends r -> scan_frac r = None.
Proof. destruct r as [|c r]; [reflexivity|]. intros (_ & H & _). cbn. rewrite bool_decide_eq_false_2 by exact H. reflexivity. Qed.
Lemma ends_exp r : ends r -> scan_exp r = None.
Proof. destruct r as [|c r]; [reflexivity|]. intros (_ & _ & H1 & H2). cbn. destruct (Z.eqb_spec (code c) 101); [contradiction|]. destruct (Z.eqb_spec (code c) 69); [contradiction|]. reflexivity. Qed.

Lemma frac_app d r : d <> [] -> all_digits d -> no_digit r -> scan_frac (c_dot :: d ++ r) = Some (d, r).
Proof. intros H1 H2 H3. cbn [scan_frac]. rewrite bool_decide_eq_true_2 by reflexivity. rewrite span_app by assumption. destruct d; [contradiction|reflexivity]. Qed.
Lemma frac_spec t d r : scan_frac t = Some (d, r) -> t = c_dot :: d ++ r /\ d <> [] /\ all_digits d /\ no_digit r.
Proof.
  destruct t as [|c t]; [discriminate|]. cbn [scan_frac]. destruct (bool_decide_reflect (c = c_dot)) as [->|]; [|discriminate].
  destruct (span_digits t) as [[|x d'] r'] eqn:E; [discriminate|]. intros H. injection H as <- <-. apply span_spec in E as (-> & H1 & H2). auto.
Qed.

Lemma digit_not c : is_digit c = true -> c <> c_minus /\ c <> c_plus /\ c <> c_dot /\ code c <> 101 /\ code c <> 69.
Proof.
  intros H. repeat split; intros E; [subst c; discriminate..| |]; unfold is_digit in H; unfold code in E; apply andb_prop in H as [H1 H2]; apply Nat.leb_le in H1, H2; lia.
Qed.

Lemma exp_complete ex e r : exp_text ex e -> ex <> [] -> ends r -> scan_exp (ex ++ r) = Some (e, r).
Proof.
  intros [[-> _]|(m & s & g & d & v & Hm & Hs & Hd & -> & ->)] Hne Hr; [contradiction|]. apply digits_spec in Hd as (H1 & H2 & ->).
  cbn [app scan_exp]. replace ((code m =? 101) || (code m =? 69)) with true by (destruct Hm as [-> | ->]; reflexivity).
  assert (Sp : span_digits (d ++ r) = (d, r)) by (apply span_app; [exact H2|apply ends_no_digit, Hr]).
  destruct Hs as [[[-> ->]|[-> ->]]|[-> ->]]; cbn [app].
  - destruct d as [|x d]; [contradiction|]. cbn [app]. inversion H2 as [|? ? Hx _]; subst. destruct (digit_not x Hx) as (N1 & N2 & _).
    rewrite bool_decide_eq_false_2 by exact N1. rewrite bool_decide_eq_false_2 by exact N2. change (x :: d ++ r) with ((x :: d) ++ r). rewrite Sp. reflexivity.
  - change (bool_decide (chr 45 = c_minus)) with true. cbv iota. rewrite Sp. destruct d; [contradiction|reflexivity].
  - change (bool_decide (chr 43 = c_minus)) with false. change (bool_decide (chr 43 = c_plus)) with true. cbv iota. rewrite Sp. destruct d; [contradiction|reflexivity].
Qed.

Lemma exp_sound t e r : scan_exp t = Some (e, r) -> exists ex, t = ex ++ r /\ exp_text ex e /\ ex <> [].
Proof.
  destruct t as [|m t]; [discriminate|]. cbn [scan_exp]. destruct ((code m =? 101) || (code m =? 69)) eqn:Em; [|discriminate].
  assert (Hm : m = chr 101 \/ m = chr 69).
  { apply orb_prop in Em as [E|E]; apply Z.eqb_eq in E; [left|right]; apply code_inj; exact E. }
  assert (K : forall s g t2, (signed s g \/ (s = [chr 43] /\ g = 1)) -> t = s ++ t2 ->
    match span_digits t2 with ([], _) => None | (d, r) => Some (g * value_of d, r) end = Some (e, r) -> exists ex, m :: t = ex ++ r /\ exp_text ex e /\ ex <> []).
  { intros s g t2 Hs -> H. destruct (span_digits t2) as [[|x d] r'] eqn:Sp; [discriminate|]. injection H as <- <-. apply span_spec in Sp as (-> & H1 & H2).
    exists (m :: s ++ x :: d). split; [cbn [app]; rewrite <- app_assoc; reflexivity|]. split; [|discriminate].
    right. exists m, s, g, (x :: d), (value_of (x :: d)). split; [exact Hm|]. split; [exact Hs|]. split; [apply digits_spec; split; [discriminate|auto]|auto]. }
  destruct t as [|x t]; [discriminate|].
  destruct (bool_decide_reflect (x = c_minus)) as [->|]; [apply (K [chr 45] (-1) t); [left; right; auto|reflexivity]|].
  destruct (bool_decide_reflect (x = c_plus)) as [->|]; [apply (K [chr 43] 1 t); [right; auto|reflexivity]|].
  apply (K [] 1 (x :: t)); [left; left; auto|reflexivity].
Qed.

Lemma pow10_spec e : (pow10 e == (10 # 1) ^ e)%Q.
Proof.
  unfold pow10. destruct (Z.leb_spec 0 e) as [L|L].
  - rewrite Zpower_Qpower by exact L. reflexivity.
  - rewrite Zpower_Qpower by lia. rewrite Qpower_opp, Qinv_involutive. reflexivity.
Qed.
Lemma flt53_eq q q' : (q == q')%Q -> flt53 q = flt53 q'.
Proof. intros E. unfold flt53, rnd. rewrite (Qred_complete _ _ E). reflexivity. Qed.

Lemma value_app a b : value_of (a ++ b) = value_of a * 10 ^ zlen b + value_of b.
Proof.
  induction b as [|c b IH] using rev_ind; [rewrite app_nil_r; change (zlen []) with 0; change (value_of []) with 0; lia|].
  rewrite app_assoc, !value_snoc, IH. unfold zlen in *. rewrite app_length. cbn [length]. rewrite Nat2Z.inj_add, Z.pow_add_r by lia. lia.
Qed.

Lemma float_value_spec (neg : bool) g i fr e : g = (if neg then -1 else 1) ->
  float_value neg i fr e = flt53 (inject_Z (g * (value_of i * 10 ^ zlen fr + value_of fr)) * (10 # 1) ^ (e - zlen fr)).
Proof. intros ->. unfold float_value. apply flt53_eq. rewrite pow10_spec, value_app. reflexivity. Qed.

(** [scan_unsigned] after the integer part. *)
Definition finish (neg : bool) (i r : text) : outcome json :=
  match scan_frac r with
  | Some (fr, r1) => match scan_exp r1 with Some (e, r2) => Got (JFloat (float_value neg i fr e)) r2 | None => Got (JFloat (float_value neg i fr 0)) r1 end
  | None => match scan_exp r with Some (e, r2) => Got (JFloat (float_value neg i [] e)) r2 | None => Got (JInt (if neg then - value_of i else value_of i)) r end
  end.

Lemma unsigned_whole neg u v r : whole u v -> no_digit r -> scan_unsigned neg (u ++ r) = finish neg u r.
Proof.
  intros Hu Hr. apply whole_spec in Hu as (H1 & H2 & _ & H3). destruct u as [|c u]; [contradiction|]. cbn [app scan_unsigned].
  destruct (bool_decide_reflect (c = c_zero)) as [->|D].
  - destruct H3 as [E|E]; [injection E as ->; reflexivity|]. cbn in E. contradiction.
  - inversion H2 as [|? ? Hc Hu]; subst. rewrite Hc. change (c :: u ++ r) with ((c :: u) ++ r). rewrite span_app by assumption. reflexivity.
Qed.

Lemma unsigned_split neg t j r : scan_unsigned neg t = Got j r -> exists u r', t = u ++ r' /\ whole u (value_of u) /\ finish neg u r' = Got j r.
Proof.
  destruct t as [|c t]; [discriminate|]. cbn [scan_unsigned]. destruct (bool_decide_reflect (c = c_zero)) as [->|D].
  - intros H. exists [c_zero], t. split; [reflexivity|]. split; [|exact H]. apply whole_spec. split; [discriminate|]. split; [repeat constructor|auto].
  - destruct (is_digit c) eqn:Hc; [|discriminate]. destruct (span_digits (c :: t)) as [d r'] eqn:Sp. intros H. pose proof Sp as Sp'.
    apply span_spec in Sp' as (E & Hd & _). exists d, r'. split; [exact E|]. split; [|exact H]. apply whole_spec.
    cbn [span_digits] in Sp. rewrite Hc in Sp. destruct (span_digits t) as [d' r'']. injection Sp as <- <-. split; [discriminate|]. split; [exact Hd|]. split; [reflexivity|].
    right. intros K. apply D. injection K as K. exact K.
Qed.

Definition minus (neg : bool) : text := if neg then [c_minus] else [].
Lemma minus_signed neg : signed (minus neg) (if neg then -1 else 1).
Proof. destruct neg; [right|left]; auto. Qed.

Lemma finish_int neg u r : ends r -> finish neg u r = Got (JInt ((if neg then -1 else 1) * value_of u)) r.
Proof. intros H. unfold finish. rewrite (ends_frac r H), (ends_exp r H). destruct neg; do 2 f_equal; lia. Qed.

Lemma exp_start ex e r : exp_text ex e -> ends r -> no_digit (ex ++ r) /\ scan_frac (ex ++ r) = None.
Proof.
  intros [[-> _]|(m & s & g & d & v & Hm & _ & _ & -> & _)] Hr; [split; [apply ends_no_digit, Hr|apply ends_frac, Hr]|].
  destruct Hm as [-> | ->]; split; reflexivity.
Qed.

Lemma finish_float neg u v fr f n ex e r : whole u v -> frac_text fr f n -> exp_text ex e -> (fr <> [] \/ ex <> []) -> ends r ->
  finish neg u (fr ++ ex ++ r) = Got (JFloat (flt53 (inject_Z ((if neg then -1 else 1) * (v * 10 ^ n + f)) * (10 # 1) ^ (e - n)))) r.
Proof.
  intros Hu Hf He Hne Hr. apply whole_spec in Hu as (_ & _ & -> & _). destruct (exp_start ex e r He Hr) as [N1 N2]. unfold finish.
  destruct Hf as [(-> & -> & ->)|(d & -> & Hd & ->)].
  - cbn [app]. rewrite N2. destruct Hne as [?|Hne]; [contradiction|]. rewrite (exp_complete ex e r He Hne Hr), (float_value_spec neg _ u [] e eq_refl). reflexivity.
  - apply digits_spec in Hd as (D1 & D2 & ->). change (chr 46) with c_dot. cbn [app]. rewrite (frac_app d (ex ++ r) D1 D2 N1).
    destruct (decide (ex = [])) as [->|Dx].
    + destruct He as [[_ ->]|(m & s & g & d' & v' & _ & _ & _ & ? & _)]; [|discriminate]. cbn [app]. rewrite (ends_exp r Hr), (float_value_spec neg _ u d 0 eq_refl). reflexivity.
    + rewrite (exp_complete ex e r He Dx Hr), (float_value_spec neg _ u d e eq_refl). reflexivity.
Qed.

Lemma finish_sound neg u r' j r : whole u (value_of u) -> finish neg u r' = Got j r -> exists t, minus neg ++ u ++ r' = t ++ r /\
  ((exists z, j = JInt z /\ int_text z t) \/ (exists q, j = JFloat q /\ float_text q t)).
Proof.
  intros Hu. unfold finish. destruct (scan_frac r') as [[fr r1]|] eqn:Ef.
  - apply frac_spec in Ef as (-> & F1 & F2 & F3). assert (HF : frac_text (c_dot :: fr) (value_of fr) (zlen fr)) by (right; exists fr; split; [reflexivity|]; split; [apply digits_spec; auto|reflexivity]).
    destruct (scan_exp r1) as [[e r2]|] eqn:Ee; intros H; injection H as <- <-.
    + apply exp_sound in Ee as (ex & -> & He & Hx). exists (minus neg ++ u ++ (c_dot :: fr) ++ ex). split; [rewrite <- !app_assoc; reflexivity|]. right. eexists. split; [reflexivity|].
      exists (minus neg), (if neg then -1 else 1), u, (value_of u), (c_dot :: fr), (value_of fr), (zlen fr), ex, e.
      split; [apply minus_signed|]. split; [exact Hu|]. split; [exact HF|]. split; [exact He|]. split; [left; discriminate|]. split; [reflexivity|]. apply float_value_spec. reflexivity.
    + exists (minus neg ++ u ++ (c_dot :: fr) ++ []). split; [rewrite app_nil_r, <- !app_assoc; reflexivity|]. right. eexists. split; [reflexivity|].
      exists (minus neg), (if neg then -1 else 1), u, (value_of u), (c_dot :: fr), (value_of fr), (zlen fr), [], 0.
      split; [apply minus_signed|]. split; [exact Hu|]. split; [exact HF|]. split; [left; auto|]. split; [left; discriminate|]. split; [reflexivity|]. apply float_value_spec. reflexivity.
  - destruct (scan_exp r') as [[e r2]|] eqn:Ee; intros H; injection H as <- <-.
    + apply exp_sound in Ee as (ex & -> & He & Hx). exists (minus neg ++ u ++ [] ++ ex). split; [cbn [app]; rewrite <- !app_assoc; reflexivity|]. right. eexists. split; [reflexivity|].
      exists (minus neg), (if neg then -1 else 1), u, (value_of u), [], 0, 0, ex, e.
      split; [apply minus_signed|]. split; [exact Hu|]. split; [left; auto|]. split; [exact He|]. split; [right; exact Hx|]. split; [reflexivity|]. apply (float_value_spec neg _ u [] e). reflexivity.
    + exists (minus neg ++ u). split; [rewrite <- app_assoc; reflexivity|]. left. eexists. split; [reflexivity|].
      exists (minus neg), (if neg then -1 else 1), u, (value_of u). split; [apply minus_signed|]. split; [exact Hu|]. split; [reflexivity|]. destruct neg; lia.
Qed.
