(** What json.dump writes, and that json.load reads it back. *)
From Coq Require Import String.
From Verif Require Import SpecJson DictProofs JsonProofs JsonLex JsonParse.
Open Scope Z_scope.

(** ** Strings *)

Definition short_check (c : char) : bool := match short_escape c with Some e => bool_decide (unescape e = Some c) | None => negb (bool_decide (c = chr 34)) && negb (bool_decide (c = chr 92)) end.
Lemma short_spec c : match short_escape c with Some e => (e, code c) ∈ letters | None => c <> chr 34 /\ c <> chr 92 end.
Proof.
  assert (K : short_check c = true) by (apply (every_char short_check); vm_compute; reflexivity). unfold short_check in K. destruct (short_escape c) as [e|].
  - apply bool_decide_eq_true in K. apply unescape_spec, K.
  - apply andb_prop in K as [K1 K2]. apply negb_true_iff in K1, K2. apply bool_decide_eq_false in K1, K2. auto.
Qed.

Lemma hex_of_spec z : 0 <= z < 16 -> hexadecimal (hex_of z) z.
Proof.
  intros H. apply hex_spec. rewrite <- (Z2Nat.id z) by lia. assert (B : (Z.to_nat z < 16)%nat) by lia. revert B. generalize (Z.to_nat z). intros n B.
  do 16 (destruct n as [|n]; [reflexivity|]). lia.
Qed.

Lemma escape_spec c s t : string_text s t -> string_text (c :: s) (escape c ++ t).
Proof.
  intros H. unfold escape. pose proof (short_spec c) as K. destruct (short_escape c) as [e|]; [apply string_letter; assumption|]. destruct K as [K1 K2].
  destruct (Z.leb_spec 32 (code c)) as [L1|L1]; cbn [andb].
  - destruct (Z.leb_spec (code c) 126) as [L2|L2].
    + apply string_plain; assumption.
    + pose proof (code_bound c). pose proof (Z.div_mod (code c) 16 ltac:(lia)). pose proof (Z.mod_pos_bound (code c) 16 ltac:(lia)).
      assert (0 <= code c / 16 < 16) by (split; [apply Z.div_pos; lia|apply Z.div_lt_upper_bound; lia]).
      apply (string_code _ _ _ _ 0 0 (code c / 16) (code c mod 16)); try (apply (hex_of_spec 0); lia); try (apply hex_of_spec; lia); [lia|exact H].
  - pose proof (code_bound c). pose proof (Z.div_mod (code c) 16 ltac:(lia)). pose proof (Z.mod_pos_bound (code c) 16 ltac:(lia)).
    assert (0 <= code c / 16 < 16) by (split; [apply Z.div_pos; lia|apply Z.div_lt_upper_bound; lia]).
    apply (string_code _ _ _ _ 0 0 (code c / 16) (code c mod 16)); try (apply (hex_of_spec 0); lia); try (apply hex_of_spec; lia); [lia|exact H].
Qed.

Lemma escaped_text s : string_text s (s ≫= escape).
Proof. induction s as [|c s IH]; [constructor|]. rewrite bind_cons. apply escape_spec, IH. Qed.

(** ** Integers *)

Lemma digit_of_spec z : 0 <= z < 10 -> is_digit (digit_of z) = true /\ digit (digit_of z) = z.
Proof.
  intros H. rewrite <- (Z2Nat.id z) by lia. assert (B : (Z.to_nat z < 10)%nat) by lia. revert B. generalize (Z.to_nat z). intros n B.
  do 10 (destruct n as [|n]; [split; reflexivity|]). lia.
Qed.

Lemma value_cons c d : value_of (c :: d) = digit c * 10 ^ zlen d + value_of d.
Proof. change (c :: d) with ([c] ++ d). rewrite value_app. reflexivity. Qed.

Lemma zlen_cons (c : char) d : zlen (c :: d) = zlen d + 1.
Proof. unfold zlen. cbn [List.length]. lia. Qed.

Lemma to_digits_spec fuel : forall z acc, 0 <= z < 2 ^ Z.of_nat fuel -> (0 < fuel)%nat -> all_digits acc ->
  to_digits fuel z acc <> [] /\ all_digits (to_digits fuel z acc) /\ value_of (to_digits fuel z acc) = z * 10 ^ zlen acc + value_of acc /\
  (0 < z -> head (to_digits fuel z acc) <> Some c_zero) /\ (z = 0 -> to_digits fuel z acc = c_zero :: acc).
Proof.
  induction fuel as [|fuel IH]; intros z acc Hz Hf Ha; [lia|]. cbn [to_digits]. destruct (Z.ltb_spec z 10) as [L|L].
  - destruct (digit_of_spec z ltac:(lia)) as [D1 D2]. split; [discriminate|]. split; [constructor; assumption|]. split; [rewrite value_cons, D2; reflexivity|].
    split; [|intros ->; reflexivity]. intros Hp E. injection E as E. change (digit_of z = c_zero) in E. rewrite E in D2. change (digit c_zero) with 0 in D2. lia.
  - pose proof (Z.div_mod z 10 ltac:(lia)). pose proof (Z.mod_pos_bound z 10 ltac:(lia)). destruct (digit_of_spec (z mod 10) ltac:(lia)) as [D1 D2].
    assert (Hp : 2 ^ Z.of_nat (S fuel) = 2 * 2 ^ Z.of_nat fuel) by (rewrite Nat2Z.inj_succ, Z.pow_succ_r by lia; reflexivity).
    assert (H10 : 0 < z / 10) by (apply Z.div_str_pos; lia).
    assert (Hd : 0 <= z / 10 < 2 ^ Z.of_nat fuel) by lia.
    assert (Hf' : (0 < fuel)%nat) by (destruct fuel; [cbn in Hd; lia|lia]).
    destruct (IH (z / 10) (digit_of (z mod 10) :: acc) Hd Hf' ltac:(constructor; assumption)) as (I1 & I2 & I3 & I4 & _).
    split; [exact I1|]. split; [exact I2|]. split; [|split; [intros _; exact (I4 H10)|lia]].
    rewrite I3, value_cons, D2, zlen_cons, Z.pow_add_r by (unfold zlen; lia). change (10 ^ 1) with 10. nia.
Qed.

Lemma nat_repr_spec z : 0 <= z -> whole (nat_repr z) z.
Proof.
  intros Hz. unfold nat_repr.
  assert (B : 0 <= z < 2 ^ Z.of_nat (S (Z.to_nat (Z.log2 z)))).
  { split; [exact Hz|]. rewrite Nat2Z.inj_succ, Z2Nat.id by apply Z.log2_nonneg. destruct (decide (z = 0)) as [->|D]; [reflexivity|]. apply Z.log2_spec. lia. }
  destruct (to_digits_spec _ z [] B ltac:(lia) ltac:(constructor)) as (I1 & I2 & I3 & I4 & I5). apply whole_spec.
  split; [exact I1|]. split; [exact I2|]. split; [rewrite I3; change (zlen []) with 0; change (value_of []) with 0; lia|].
  destruct (decide (z = 0)) as [->|D]; [left; apply I5; reflexivity|right; apply I4; lia].
Qed.

Lemma int_repr_spec z : int_text z (int_repr z).
Proof.
  unfold int_repr. destruct (Z.ltb_spec z 0) as [L|L].
  - exists [c_minus], (-1), (nat_repr (- z)), (- z). split; [right; auto|]. split; [apply nat_repr_spec; lia|]. split; [reflexivity|lia].
  - exists [], 1, (nat_repr z), z. split; [left; auto|]. split; [apply nat_repr_spec; lia|]. split; [reflexivity|lia].
Qed.

(** ** Arrays and objects *)

Lemma indent_blank lvl : spaces (newline_indent lvl).
Proof. constructor; [right; right; left|]. apply Forall_replicate. left. Qed.

Lemma join_cons sep x y l : join_with sep (x :: y :: l) = x ++ sep ++ join_with sep (y :: l).
Proof. reflexivity. Qed.

Lemma join_items w w' js ts : spaces w -> spaces w' -> Forall2 json_text js ts -> ts <> [] -> items_text js (join_with (c_comma :: w) ts ++ w').
Proof.
  intros Hw Hw' H. induction H as [|j t js ts Hj HF IH]; intros Hne; [contradiction|]. destruct HF as [|j2 t2 js ts Hj2 HF].
  - apply items_last; assumption.
  - rewrite join_cons, <- app_assoc. cbn [app]. rewrite <- app_assoc. apply (items_next j t [] w (j2 :: js) _ Hj); [constructor|exact Hw|]. apply IH. discriminate.
Qed.

Lemma join_members w w' (l : dict json) ts : spaces w -> spaces w' ->
  Forall2 (fun kj t => exists u, json_text (snd kj) u /\ t = encode_string (fst kj) ++ c_colon :: c_space :: u) l ts -> ts <> [] ->
  members_text l (join_with (c_comma :: w) ts ++ w').
Proof.
  assert (Hs : spaces [c_space]) by (constructor; [left|constructor]).
  intros Hw Hw' H. induction H as [|[k j] t l ts (u & Hu & ->) HF IH]; intros Hne; [contradiction|]. cbn [fst snd] in *. destruct HF as [|kj2 t2 l ts Hj2 HF].
  - pose proof (members_last (chars k) _ [] [c_space] j u w' (escaped_text (chars k)) ltac:(constructor) Hs Hu Hw') as M. rewrite string_of_list_ascii_of_string in M.
    cbn [join_with]. unfold encode_string. cbn [app] in *. repeat (rewrite <- app_assoc; cbn [app]). exact M.
  - pose proof (members_next (chars k) _ [] [c_space] j u [] w (kj2 :: l) _ (escaped_text (chars k)) ltac:(constructor) Hs Hu ltac:(constructor) Hw (IH ltac:(discriminate))) as M.
    rewrite string_of_list_ascii_of_string in M. rewrite join_cons. unfold encode_string. cbn [app] in *. repeat (rewrite <- app_assoc; cbn [app]). exact M.
Qed.

Lemma key_insert_fmap {V W} (f : V -> W) k v (d : dict V) : key_insert k (f v) ((fun '(k, v) => (k, f v)) <$> d) = (fun '(k, v) => (k, f v)) <$> key_insert k v d.
Proof. induction d as [|[k' v'] d IH]; [reflexivity|]. cbn. destruct (String.leb k k'); [reflexivity|]. cbn. f_equal. exact IH. Qed.
Lemma key_sort_fmap {V W} (f : V -> W) (d : dict V) : key_sort ((fun '(k, v) => (k, f v)) <$> d) = (fun '(k, v) => (k, f v)) <$> key_sort d.
Proof. induction d as [|[k v] d IH]; [reflexivity|]. cbn. unfold key_sort in IH. rewrite IH. apply key_insert_fmap. Qed.

Lemma bracketed_nonempty op cl lvl l : l <> [] ->
  bracketed op cl lvl l = op :: newline_indent (S lvl) ++ (join_with (c_comma :: newline_indent (S lvl)) l ++ newline_indent lvl) ++ [cl].
Proof. destruct l; [contradiction|]. intros _. unfold bracketed. rewrite <- app_assoc. reflexivity. Qed.

Section Print.
Context (frepr : Q -> text).

Lemma print_obj lvl l : print frepr lvl (JObj l) = bracketed c_lbrace c_rbrace lvl
  ((fun '(k, t) => encode_string k ++ c_colon :: c_space :: t) <$> ((fun '(k, v) => (k, print frepr (S lvl) v)) <$> key_sort l)).
Proof. rewrite <- key_sort_fmap. reflexivity. Qed.

Fixpoint print_text (j : json) : forall lvl, json_ok j -> floats_ok frepr j -> json_text (dump_load j) (print frepr lvl j).
Proof.
  destruct j as [|b|z|q|s|l|l]; intros lvl Hok Hfl.
  - apply text_null.
  - destruct b; [apply text_true|apply text_false].
  - apply text_int, int_repr_spec.
  - apply text_float, Hfl.
  - cbn [dump_load print]. unfold encode_string. rewrite <- (string_of_list_ascii_of_string s) at 1. apply text_string, escaped_text.
  - cbn [dump_load print]. assert (F : Forall2 json_text (map dump_load l) (map (print frepr (S lvl)) l)).
    { cbn in Hok, Hfl. clear -print_text Hok Hfl. induction l as [|x l IH]; [constructor|]. destruct Hok as [O1 O2]. destruct Hfl as [F1 F2].
      constructor; [apply print_text; assumption|apply IH; assumption]. }
    clear print_text. destruct (decide (l = [])) as [->|D]; [apply (text_no_items []); constructor|].
    rewrite bracketed_nonempty by (destruct l; [contradiction|discriminate]). apply text_items; [apply indent_blank|].
    apply join_items; [apply indent_blank|apply indent_blank|exact F|destruct l; [contradiction|discriminate]].
  - assert (F : forall k v, (k, v) ∈ l -> json_text (dump_load v) (print frepr (S lvl) v)).
    { cbn in Hok, Hfl. destruct Hok as [_ Hok]. clear -print_text Hok Hfl. induction l as [|[k x] l IH]; [intros k v H; apply elem_of_nil in H; contradiction|].
      destruct Hok as [O1 O2]. destruct Hfl as [F1 F2]. specialize (IH O2 F2). specialize (print_text x (S lvl) O1 F1). clear -print_text IH.
      intros k' v H. apply elem_of_cons in H as [E|H]; [injection E as -> ->; exact print_text|exact (IH k' v H)]. }
    clear print_text. rewrite print_obj, dump_load_obj, key_sort_fmap.
    assert (Hn : NoDup (key_sort l).*1) by (rewrite key_sort_perm; apply Hok).
    assert (F' : forall k v, (k, v) ∈ key_sort l -> json_text (dump_load v) (print frepr (S lvl) v)) by (intros k v H; rewrite key_sort_perm in H; exact (F k v H)).
    revert Hn F'. generalize (key_sort l). clear. intros l Hn F. destruct (decide (l = [])) as [->|D]; [apply (text_no_members []); constructor|].
    rewrite bracketed_nonempty by (destruct l; [contradiction|discriminate]).
    apply (text_members _ ((fun '(k, v) => (k, dump_load v)) <$> l)); [apply indent_blank| |].
    + apply join_members; [apply indent_blank|apply indent_blank| |destruct l; [contradiction|discriminate]].
      clear Hn D. induction l as [|[k v] l IH]; [constructor|]. cbn. constructor.
      * exists (print frepr (S lvl) v). split; [apply (F k); left|reflexivity].
      * apply IH. intros k' v' H. apply (F k'). right. exact H.
    + apply collected_spec. rewrite dupdate_nodup; [reflexivity|]. unfold dict_ok. cbn [app]. rewrite keys_fmap. exact Hn.
Qed.

Theorem dumps_document j : json_ok j -> floats_ok frepr j -> document (dump_load j) (dumps frepr j).
Proof. intros H1 H2. exists [], (dumps frepr j), []. split; [constructor|]. split; [apply print_text; assumption|]. split; [constructor|]. rewrite app_nil_r. reflexivity. Qed.

Theorem dumps_loads j : json_ok j -> floats_ok frepr j -> loads (dumps frepr j) = Loaded (dump_load j).
Proof. intros H1 H2. apply loads_spec, dumps_document; assumption. Qed.
End Print.

(** ** Characters written *)

Lemma printable_app a b : printable (a ++ b) <-> printable a /\ printable b.
Proof. apply Forall_app. Qed.
Lemma printable_of l : forallb (fun c => (code c =? 10) || (32 <=? code c) && (code c <=? 126)) l = true -> printable l.
Proof.
  intros H. apply Forall_forall. intros c Hc. rewrite forallb_forall in H. specialize (H c (proj1 (elem_of_list_In _ _) Hc)). apply orb_prop in H as [H|H].
  - left. apply Z.eqb_eq in H. apply (code_eq c 10); [lia|exact H].
  - right. apply andb_prop in H. lia.
Qed.
Lemma digit_printable c : is_digit c = true -> c = chr 10 \/ 32 <= code c <= 126.
Proof. intros H. right. unfold is_digit in H. unfold code. apply andb_prop in H as [H1 H2]. apply Nat.leb_le in H1, H2. lia. Qed.
Lemma digits_printable d v : numeral d v -> printable d.
Proof. intros H. apply digits_spec in H as (_ & H & _). eapply Forall_impl; [exact H|]. intros c Hc. apply digit_printable, Hc. Qed.
Lemma signed_printable s g : signed s g -> printable s.
Proof. intros [[-> _]|[-> _]]; apply printable_of; reflexivity. Qed.
Lemma int_printable z t : int_text z t -> printable t.
Proof. intros (s & g & u & v & Hs & [Hu _] & -> & _). apply printable_app. split; [eapply signed_printable, Hs|eapply digits_printable, Hu]. Qed.
Lemma float_printable q t : float_text q t -> printable t.
Proof.
  intros (s & g & u & v & fr & f & n & ex & e & Hs & [Hu _] & Hf & He & _ & -> & _). apply printable_app. split; [eapply signed_printable, Hs|].
  apply printable_app. split; [eapply digits_printable, Hu|]. apply printable_app. split.
  - destruct Hf as [(-> & _)|(d & -> & Hd & _)]; [constructor|]. constructor; [right; vm_compute; split; discriminate|eapply digits_printable, Hd].
  - destruct He as [[-> _]|(m & s' & g' & d & v' & Hm & Hs' & Hd & -> & _)]; [constructor|].
    constructor; [right; destruct Hm as [-> | ->]; vm_compute; split; discriminate|]. apply printable_app. split; [|eapply digits_printable, Hd].
    destruct Hs' as [Hs'|[-> _]]; [eapply signed_printable, Hs'|apply printable_of; reflexivity].
Qed.
Lemma escape_printable c : printable (escape c).
Proof.
  apply printable_of. apply (every_char (fun c => forallb (fun c => (code c =? 10) || (32 <=? code c) && (code c <=? 126)) (escape c))). vm_compute. reflexivity.
Qed.
Lemma string_printable s : printable (encode_string s).
Proof.
  unfold encode_string. constructor; [right; vm_compute; split; discriminate|]. apply printable_app. split; [|apply printable_of; reflexivity].
  induction (chars s) as [|c l IH]; [constructor|]. rewrite bind_cons. apply printable_app. split; [apply escape_printable|exact IH].
Qed.
Lemma indent_printable lvl : printable (newline_indent lvl).
Proof. constructor; [left; reflexivity|]. apply Forall_replicate. right. vm_compute. split; discriminate. Qed.
Lemma join_printable sep l : printable sep -> Forall printable l -> printable (join_with sep l).
Proof.
  intros Hs H. induction H as [|x l Hx HF IH]; [constructor|]. destruct l as [|y l]; [exact Hx|]. rewrite join_cons. apply printable_app. split; [exact Hx|]. apply printable_app. split; [exact Hs|exact IH].
Qed.
Lemma bracketed_printable op cl lvl l : printable [op; cl] -> Forall printable l -> printable (bracketed op cl lvl l).
Proof.
  intros Hb H. destruct (decide (l = [])) as [->|D]; [exact Hb|]. rewrite bracketed_nonempty by exact D. inversion Hb as [|? ? B1 B2]; subst.
  constructor; [exact B1|]. apply printable_app. split; [apply indent_printable|]. apply printable_app. split; [|exact B2]. apply printable_app. split; [|apply indent_printable].
  apply join_printable; [|exact H]. constructor; [right; vm_compute; split; discriminate|apply indent_printable].
Qed.

Fixpoint print_printable frepr (j : json) : forall lvl, floats_ok frepr j -> printable (print frepr lvl j).
Proof.
  destruct j as [|b|z|q|s|l|l]; intros lvl Hfl.
  - apply printable_of. reflexivity.
  - destruct b; apply printable_of; reflexivity.
  - eapply int_printable, int_repr_spec.
  - eapply float_printable, Hfl.
  - apply string_printable.
  - cbn [print]. apply bracketed_printable; [apply printable_of; reflexivity|]. cbn in Hfl. induction l as [|x l IH]; [constructor|]. destruct Hfl as [F1 F2].
    constructor; [apply print_printable, F1|apply IH, F2].
  - rewrite print_obj. apply bracketed_printable; [apply printable_of; reflexivity|].
    assert (F : forall k v, (k, v) ∈ l -> printable (print frepr (S lvl) v)).
    { cbn in Hfl. clear -print_printable Hfl. induction l as [|[k x] l IH]; [intros k v H; apply elem_of_nil in H; contradiction|].
      destruct Hfl as [F1 F2]. specialize (IH F2). specialize (print_printable frepr x (S lvl) F1). clear -print_printable IH.
      intros k' v H. apply elem_of_cons in H as [E|H]; [injection E as -> ->; exact print_printable|exact (IH k' v H)]. }
    clear print_printable. apply Forall_forall. intros t Ht. apply elem_of_list_fmap in Ht as ([k u] & -> & H). apply elem_of_list_fmap in H as ([k' v] & E & H). injection E as -> ->.
    rewrite key_sort_perm in H. apply printable_app. split; [apply string_printable|]. constructor; [right; vm_compute; split; discriminate|]. constructor; [right; vm_compute; split; discriminate|].
    exact (F k' v H).
Qed.

(** ** Equal values are written alike *)

Lemma ascii_compare_lt a b : Ascii.compare a b = Lt <-> (N.lt (Ascii.N_of_ascii a) (Ascii.N_of_ascii b)).
Proof. unfold Ascii.compare. apply N.compare_lt_iff. Qed.
Lemma ascii_compare_eq a b : Ascii.compare a b = Eq <-> a = b.
Proof. split; [apply Ascii.compare_eq_iff|intros ->; unfold Ascii.compare; apply N.compare_refl]. Qed.
Lemma string_lt_trans a : forall b c, String.compare a b = Lt -> String.compare b c = Lt -> String.compare a c = Lt.
Proof.
  induction a as [|x a IH]; intros [|y b] [|z c] H1 H2; try discriminate; [reflexivity|]. cbn in *.
  destruct (Ascii.compare x y) eqn:E1; try discriminate; destruct (Ascii.compare y z) eqn:E2; try discriminate.
  - apply ascii_compare_eq in E1 as ->. rewrite E2. exact (IH b c H1 H2).
  - apply ascii_compare_eq in E1 as ->. rewrite E2. reflexivity.
  - apply ascii_compare_eq in E2 as ->. rewrite E1. reflexivity.
  - assert (E : Ascii.compare x z = Lt) by (rewrite ascii_compare_lt in *; lia). rewrite E. reflexivity.
Qed.
Lemma leb_false a b : String.leb a b = false -> String.compare b a = Lt.
Proof. unfold String.leb. rewrite (String.compare_antisym a b). destruct (String.compare b a); cbn; [discriminate|reflexivity|discriminate]. Qed.
Lemma leb_true a b : String.leb a b = true -> a = b \/ String.compare a b = Lt.
Proof. unfold String.leb. destruct (String.compare a b) eqn:E; [left; apply String.compare_eq_iff, E|auto|discriminate]. Qed.
Lemma lt_leb a b : String.compare a b = Lt -> String.leb a b = true.
Proof. unfold String.leb. intros ->. reflexivity. Qed.
Lemma lt_not_leb a b : String.compare a b = Lt -> String.leb b a = false.
Proof. unfold String.leb. rewrite (String.compare_antisym b a). intros ->. reflexivity. Qed.

Lemma key_insert_comm {V} k k' (v v' : V) (d : dict V) : k <> k' -> key_insert k v (key_insert k' v' d) = key_insert k' v' (key_insert k v d).
Proof.
  assert (S : forall k k' (v v' : V) d, String.compare k k' = Lt -> key_insert k v (key_insert k' v' d) = key_insert k' v' (key_insert k v d)).
  { clear. intros k k' v v' d L. induction d as [|[x y] d IH].
    - cbn. rewrite (lt_leb _ _ L), (lt_not_leb _ _ L). reflexivity.
    - cbn. destruct (String.leb k' x) eqn:E1.
      + cbn. rewrite (lt_leb _ _ L). assert (E2 : String.leb k x = true) by (apply leb_true in E1 as [<-|E1]; [apply lt_leb, L|apply lt_leb; exact (string_lt_trans _ _ _ L E1)]).
        rewrite E2. cbn. rewrite (lt_not_leb _ _ L), E1. reflexivity.
      + cbn. destruct (String.leb k x) eqn:E2; cbn.
        * rewrite (lt_not_leb _ _ L), E1. reflexivity.
        * rewrite E1. f_equal. exact IH. }
  intros D. destruct (String.compare k k') eqn:E.
  - apply String.compare_eq_iff in E. contradiction.
  - apply S, E.
  - symmetry. apply S. rewrite String.compare_antisym, E. reflexivity.
Qed.

Lemma key_sort_unique {V} (l l' : dict V) : NoDup l.*1 -> l ≡ₚ l' -> key_sort l = key_sort l'.
Proof.
  intros Hn Hp. induction Hp as [|[k v] l l' Hp IH|[k v] [k' v'] l|l1 l2 l3 H1 IH1 H2 IH2].
  - reflexivity.
  - cbn in *. apply NoDup_cons in Hn as [_ Hn]. unfold key_sort in IH. rewrite (IH Hn). reflexivity.
  - cbn in *. apply key_insert_comm. apply NoDup_cons in Hn as [Hn _]. intros ->. apply Hn. left.
  - rewrite IH1 by exact Hn. apply IH2. rewrite <- H1. exact Hn.
Qed.

Fixpoint print_same frepr (j : json) : forall j' lvl, json_ok j -> same_json j j' -> print frepr lvl j = print frepr lvl j'.
Proof.
  destruct j as [|b|z|q|s|l|l]; intros j' lvl Hok H; try (inversion H; subst; reflexivity).
  - inversion H as [|? l' F|]; subst; [reflexivity|]. cbn [print]. f_equal. cbn in Hok. clear H. revert l' F. induction l as [|x l IH]; intros l' F; inversion F as [|? y ? l2 Hx F']; subst; [reflexivity|].
    destruct Hok as [O1 O2]. cbn [map]. f_equal; [apply print_same; assumption|apply IH; assumption].
  - inversion H as [| |? l1 l' F Hp]; subst; [reflexivity|]. cbn [print]. do 2 f_equal. destruct Hok as [Hn Hok].
    assert (E : map (fun '(k, v) => (k, print frepr (S lvl) v)) l = map (fun '(k, v) => (k, print frepr (S lvl) v)) l1 /\ l1.*1 = l.*1).
    { clear -print_same F Hok. revert l1 F. induction l as [|[k x] l IH]; intros l1 F; inversion F as [|? [k' y] ? l2 [E1 E2] F']; subst; [auto|]. destruct Hok as [O1 O2]. cbn [fst snd] in E1, E2. subst k'.
      destruct (IH O2 l2 F') as [I1 I2]. specialize (print_same frepr x y (S lvl) O1 E2). clear -print_same I1 I2. cbn [map]. split; [rewrite print_same, I1; reflexivity|]. cbn. f_equal. exact I2. }
    clear print_same. destruct E as [-> E]. apply key_sort_unique; [|apply Permutation_map, Hp].
    change (map (fun '(k, v) => (k, print frepr (S lvl) v)) l1) with ((fun '(k, v) => (k, print frepr (S lvl) v)) <$> l1). rewrite keys_fmap, E. exact Hn.
Qed.

Theorem dumps_same frepr j j' : json_ok j -> same_json j j' -> dumps frepr j = dumps frepr j'.
Proof. apply print_same. Qed.

Theorem dumps_injective frepr j j' : json_ok j -> json_ok j' -> floats_ok frepr j -> floats_ok frepr j' -> dumps frepr j = dumps frepr j' ->
  exists j0, same_json j j0 /\ same_json j' j0.
Proof.
  intros H1 H2 F1 F2 E. pose proof (dumps_loads frepr j H1 F1) as L1. pose proof (dumps_loads frepr j' H2 F2) as L2. rewrite E, L2 in L1. injection L1 as L1.
  exists (dump_load j). split; [apply dump_load_same|]. rewrite <- L1. apply dump_load_same.
Qed.
