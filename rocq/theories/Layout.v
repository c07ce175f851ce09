(** How json.dumps lays out its text: indentation, line breaks and the order of keys. *)
From Verif Require Import SpecLayout SpecJson DataProofs JsonRound JsonLex JsonParse JsonPrint.
Open Scope Z_scope.

(** ** Composition *)

Lemma read_app s x y : read s (x ++ y) = read (read s x) y.
Proof. apply foldl_app. Qed.

Lemma follows_app d c b y : follows d c b -> follows d c (b ++ y).
Proof.
  intros (F1 & F2 & F3 & F4). split; [|split; [|split]].
  - intros E. destruct (F1 E) as (n & x & b' & -> & H). exists n, x, (b' ++ y). split; [rewrite <- app_assoc; reflexivity|exact H].
  - intros E. destruct (F2 E) as (b' & ->). exists (b' ++ y). reflexivity.
  - intros E. destruct (F3 E) as (x & b' & -> & H). exists x, (b' ++ y). split; [reflexivity|exact H].
  - intros E. destruct (F4 E) as (x & b' & -> & H). exists x, (b' ++ y). split; [reflexivity|exact H].
Qed.

Lemma laid_nil s : laid_out_from s [].
Proof. intros a c b E. destruct a; discriminate E. Qed.

Lemma laid_cons s c y : (fst s = Outside -> follows (snd s) c y) -> laid_out_from (step s c) y -> laid_out_from s (c :: y).
Proof.
  intros H1 H2 a c' b E. destruct a as [|x a].
  - injection E as <- <-. exact H1.
  - injection E as <- ->. intros K. apply (H2 a c' b eq_refl). exact K.
Qed.

Lemma laid_app s x y : laid_out_from s x -> laid_out_from (read s x) y -> laid_out_from s (x ++ y).
Proof.
  intros H1 H2 a c b E K. symmetry in E. apply app_eq_app in E as [k [[E1 E2]|[E1 E2]]].
  - (* a = x ++ k *) subst a. rewrite read_app in *. exact (H2 k c b E2 K).
  - subst x. destruct k as [|c' k].
    + cbn in E2. rewrite app_nil_r in *. subst y. exact (H2 [] c b eq_refl K).
    + injection E2 as <- ->. apply follows_app. exact (H1 a c k eq_refl K).
Qed.

(** Characters that change nothing and ask for nothing. *)
Definition quiet (c : char) : Prop := c <> chr 34 /\ ~ opening c /\ ~ closing c /\ c <> chr 44 /\ c <> chr 58 /\ ~ white c.
Lemma quiet_step c d : quiet c -> step (Outside, d) c = (Outside, d).
Proof. intros (H1 & H2 & H3 & _). unfold step. cbn [fst snd]. rewrite !decide_False by assumption. reflexivity. Qed.
Lemma quiet_follows d c b : quiet c -> follows d c b.
Proof. intros (H1 & H2 & H3 & H4 & H5 & H6). repeat split; intros E; try contradiction. exfalso. apply H6. right. exact E. Qed.
Lemma quiet_read t d : Forall quiet t -> read (Outside, d) t = (Outside, d).
Proof. induction 1 as [|c t H _ IH]; [reflexivity|]. cbn [read foldl]. rewrite quiet_step by exact H. exact IH. Qed.
Lemma quiet_laid t d : Forall quiet t -> laid_out_from (Outside, d) t.
Proof.
  induction 1 as [|c t H _ IH]; [apply laid_nil|]. apply laid_cons; [intros _; apply quiet_follows, H|]. rewrite quiet_step by exact H. exact IH.
Qed.

Definition quiet_b (c : char) : bool := negb (bool_decide (c ∈ [chr 34; chr 91; chr 123; chr 93; chr 125; chr 44; chr 58; chr 32; chr 10])).
Lemma quiet_of l : forallb quiet_b l = true -> Forall quiet l.
Proof.
  intros H. apply Forall_forall. intros c Hc. rewrite forallb_forall in H. specialize (H c (proj1 (elem_of_list_In _ _) Hc)).
  apply negb_true_iff, bool_decide_eq_false_1 in H. rewrite !elem_of_cons in H. unfold quiet, opening, closing, white. tauto.
Qed.

Lemma digit_quiet c : is_digit c = true -> quiet c.
Proof.
  intros H. assert (K : forall c, implb (is_digit c) (quiet_b c) = true) by (intros x; apply (every_char (fun c => implb (is_digit c) (quiet_b c))); vm_compute; reflexivity).
  specialize (K c). rewrite H in K. cbn in K. assert (F : Forall quiet [c]) by (apply quiet_of; cbn; rewrite K; reflexivity). inversion F; assumption.
Qed.
Lemma digits_quiet d v : numeral d v -> Forall quiet d.
Proof. intros H. apply digits_spec in H as (_ & H & _). eapply Forall_impl; [exact H|]. intros c Hc. apply digit_quiet, Hc. Qed.
Lemma signed_quiet s g : signed s g -> Forall quiet s.
Proof. intros [[-> _]|[-> _]]; apply quiet_of; reflexivity. Qed.
Lemma int_quiet z t : int_text z t -> Forall quiet t.
Proof. intros (s & g & u & v & Hs & [Hu _] & -> & _). apply Forall_app. split; [eapply signed_quiet, Hs|eapply digits_quiet, Hu]. Qed.
Lemma float_quiet q t : float_text q t -> Forall quiet t.
Proof.
  intros (s & g & u & v & fr & f & n & ex & e & Hs & [Hu _] & Hf & He & _ & -> & _). apply Forall_app. split; [eapply signed_quiet, Hs|].
  apply Forall_app. split; [eapply digits_quiet, Hu|]. apply Forall_app. split.
  - destruct Hf as [(-> & _)|(d & -> & Hd & _)]; [constructor|]. apply (Forall_app _ [_]). split; [apply quiet_of; reflexivity|eapply digits_quiet, Hd].
  - destruct He as [[-> _]|(m & s' & g' & d & v' & Hm & Hs' & Hd & -> & _)]; [constructor|].
    apply (Forall_app _ [_]). split; [destruct Hm as [-> | ->]; apply quiet_of; reflexivity|]. apply Forall_app. split; [|eapply digits_quiet, Hd].
    destruct Hs' as [Hs'|[-> _]]; [eapply signed_quiet, Hs'|apply quiet_of; reflexivity].
Qed.
Lemma int_nonempty z t : int_text z t -> t <> [].
Proof.
  intros (s & g & u & v & Hs & [Hu _] & -> & _) E. apply app_eq_nil in E as [_ ->]. inversion Hu as [|x w c y K1 K2 K3]. destruct x; discriminate K3.
Qed.
Lemma float_nonempty q t : float_text q t -> t <> [].
Proof.
  intros (s & g & u & v & fr & f & n & ex & e & Hs & [Hu _] & Hf & He & _ & -> & _) E. apply app_eq_nil in E as [_ E]. apply app_eq_nil in E as [-> _].
  inversion Hu as [|x w c y K1 K2 K3]. destruct x; discriminate K3.
Qed.

(** Strings: the reader is not outside before any of these characters. *)
Fixpoint within (s : mode * Z) (t : text) : Prop :=
  match t with [] => True | c :: t' => fst s <> Outside /\ within (step s c) t' end.
Lemma within_laid s t : within s t -> laid_out_from s t.
Proof.
  revert s. induction t as [|c t IH]; intros s H; [apply laid_nil|]. destruct H as [H1 H2]. apply laid_cons; [contradiction|apply IH, H2].
Qed.

Lemma escape_read c d : read (Inside, d) (escape c) = (Inside, d).
Proof. destruct c as [[] [] [] [] [] [] [] []]; vm_compute; reflexivity. Qed.
Lemma escape_within c d : within (Inside, d) (escape c).
Proof. destruct c as [[] [] [] [] [] [] [] []]; vm_compute; repeat split; discriminate. Qed.

Lemma string_read s d : read (Outside, d) (encode_string s) = (Outside, d).
Proof.
  unfold encode_string. cbn [read foldl]. change (step (Outside, d) c_quote) with (Inside, d).
  change (read (Inside, d) ((chars s ≫= escape) ++ [c_quote]) = (Outside, d)). rewrite read_app.
  assert (E : read (Inside, d) (chars s ≫= escape) = (Inside, d)); [|rewrite E; reflexivity].
  induction (chars s) as [|c l IH]; [reflexivity|]. rewrite bind_cons, read_app, escape_read. exact IH.
Qed.
Lemma string_laid s d : laid_out_from (Outside, d) (encode_string s).
Proof.
  unfold encode_string. apply laid_cons.
  - intros _. unfold follows, opening. repeat split; intros E; try discriminate E. destruct E as [E|E]; discriminate E.
  - change (step (Outside, d) c_quote) with (Inside, d). induction (chars s) as [|c l IH].
    + apply laid_cons; [discriminate|apply laid_nil].
    + rewrite bind_cons, <- app_assoc. apply laid_app; [apply within_laid, escape_within|]. rewrite escape_read. exact IH.
Qed.

(** ** Line breaks *)

Definition first_ok (t : text) : Prop := exists x t', t = x :: t' /\ ~ white x /\ ~ closing x.

Lemma spaces_read n d : read (Outside, d) (replicate n (chr 32)) = (Outside, d).
Proof. induction n as [|n IH]; [reflexivity|exact IH]. Qed.
Lemma spaces_laid n d : laid_out_from (Outside, d) (replicate n (chr 32)).
Proof.
  induction n as [|n IH]; [apply laid_nil|]. cbn [replicate]. apply laid_cons; [|exact IH].
  intros _. unfold follows, opening. repeat split; intros E; try discriminate E. destruct E as [E|E]; discriminate E.
Qed.
Lemma indent_read n d : read (Outside, d) (newline_indent n) = (Outside, d).
Proof. unfold newline_indent. exact (spaces_read (4 * n) d). Qed.

Lemma break_laid n x y d : ~ white x -> Z.of_nat n = (if decide (closing x) then d - 1 else d) -> laid_out_from (Outside, d) (x :: y) ->
  laid_out_from (Outside, d) (newline_indent n ++ x :: y).
Proof.
  intros Hx Hn HL. unfold newline_indent. rewrite <- app_comm_cons. apply laid_cons.
  - intros _. unfold follows, opening. split; [|repeat split; intros E; try discriminate E; destruct E as [E|E]; discriminate E].
    intros _. exists n, x, y. split; [reflexivity|]. split; [exact Hx|exact Hn].
  - change (step (Outside, d) c_lf) with (Outside, d). apply laid_app; [apply spaces_laid|]. change c_space with (chr 32). rewrite spaces_read. exact HL.
Qed.

(** ** Brackets *)

(** A value written [n] brackets deep. *)
Definition placed (d : Z) (t : text) : Prop := laid_out_from (Outside, d) t /\ read (Outside, d) t = (Outside, d) /\ first_ok t.

Lemma comma_laid d y : laid_out_from (Outside, d) (c_lf :: y) -> laid_out_from (Outside, d) (c_comma :: c_lf :: y).
Proof.
  intros H. apply laid_cons; [|exact H]. intros _. unfold follows, opening. split; [discriminate|]. split; [intros _; eauto|]. split; [discriminate|].
  intros [E|E]; discriminate E.
Qed.

Lemma join_laid n ts tail : Forall (placed (Z.of_nat n)) ts -> ts <> [] -> laid_out_from (Outside, Z.of_nat n) tail ->
  laid_out_from (Outside, Z.of_nat n) (newline_indent n ++ join_with (c_comma :: newline_indent n) ts ++ tail).
Proof.
  intros H. induction H as [|t ts (H1 & H2 & x & t' & -> & Hx & Hc) HF IH]; [contradiction|]. intros _ HT. destruct ts as [|u ts].
  - cbn [join_with]. rewrite <- app_comm_cons. apply break_laid; [exact Hx|rewrite decide_False by exact Hc; reflexivity|].
    change (x :: t' ++ tail) with ((x :: t') ++ tail). apply laid_app; [exact H1|]. rewrite H2. exact HT.
  - rewrite join_cons. rewrite <- !app_assoc. rewrite <- (app_comm_cons t'). apply break_laid; [exact Hx|rewrite decide_False by exact Hc; reflexivity|].
    rewrite app_comm_cons. apply laid_app; [exact H1|]. rewrite H2. rewrite <- app_comm_cons. specialize (IH ltac:(discriminate) HT).
    unfold newline_indent in IH |- *. rewrite <- !app_comm_cons in IH |- *. apply comma_laid. exact IH.
Qed.

Lemma join_read n ts d : Forall (fun t => read (Outside, d) t = (Outside, d)) ts -> read (Outside, d) (join_with (c_comma :: newline_indent n) ts) = (Outside, d).
Proof.
  induction 1 as [|t ts H HF IH]; [reflexivity|]. destruct ts as [|u ts]; [exact H|]. rewrite join_cons, !read_app, H.
  change (read (Outside, d) (c_comma :: newline_indent n)) with (read (Outside, d) (newline_indent n)). rewrite indent_read. exact IH.
Qed.

Lemma bracketed_placed op cl n ts : opening op -> closing cl -> Forall (placed (Z.of_nat (S n))) ts -> placed (Z.of_nat n) (bracketed op cl n ts).
Proof.
  intros Ho Hc HF.
  assert (So : forall d, step (Outside, d) op = (Outside, d + 1)) by (intros d; destruct Ho as [-> | ->]; reflexivity).
  assert (Sc : forall d, step (Outside, d) cl = (Outside, d - 1)) by (intros d; destruct Hc as [-> | ->]; reflexivity).
  assert (Nb : forall c, opening c \/ closing c -> ~ white c) by (intros c [[-> | ->]|[-> | ->]] [E|E]; discriminate E).
  assert (Fo : forall d x b, x = chr 10 \/ closing x -> follows d op (x :: b)).
  { intros d x b Hx. unfold follows. split; [intros ->; destruct Ho as [E|E]; discriminate E|]. split; [intros ->; destruct Ho as [E|E]; discriminate E|].
    split; [intros ->; destruct Ho as [E|E]; discriminate E|]. intros _. exists x, b. auto. }
  assert (Fc : forall d b, follows d cl b).
  { intros d b. unfold follows, opening. destruct Hc as [-> | ->]; repeat split; intros E; try discriminate E; destruct E as [E|E]; discriminate E. }
  assert (Nc : ~ closing op) by (destruct Ho as [-> | ->]; intros [E|E]; discriminate E).
  assert (Ed : Z.of_nat (S n) = Z.of_nat n + 1) by lia.
  destruct (decide (ts = [])) as [->|D].
  - split; [|split].
    + cbn [bracketed]. apply laid_cons; [intros _; apply Fo; auto|]. apply laid_cons; [intros _; apply Fc|apply laid_nil].
    + cbn [bracketed read foldl]. rewrite So, Sc. f_equal. lia.
    + exists op, [cl]. auto.
  - rewrite bracketed_nonempty by exact D. split; [|split].
    + apply laid_cons; [intros _; unfold newline_indent; rewrite <- app_comm_cons; apply Fo; left; reflexivity|]. cbn [snd]. rewrite So, <- Ed.
      rewrite <- app_assoc. apply join_laid; [exact HF|exact D|]. apply break_laid; [apply Nb; auto|rewrite decide_True by exact Hc; lia|].
      apply laid_cons; [intros _; apply Fc|apply laid_nil].
    + rewrite <- !app_assoc. change (read (step (Outside, Z.of_nat n) op) (newline_indent (S n) ++ join_with (c_comma :: newline_indent (S n)) ts ++ newline_indent n ++ [cl]) = (Outside, Z.of_nat n)).
      rewrite So, !read_app, indent_read, join_read, indent_read.
      * cbn [read foldl]. rewrite Sc. f_equal. lia.
      * rewrite <- Ed. eapply Forall_impl; [exact HF|]. intros t (_ & H & _). exact H.
    + eexists _, _. split; [reflexivity|]. auto.
Qed.

(** ** Values *)

Lemma quiet_placed d t : Forall quiet t -> t <> [] -> placed d t.
Proof.
  intros H N. split; [apply quiet_laid, H|]. split; [apply quiet_read, H|]. destruct H as [|c t (H1 & H2 & H3 & H4 & H5 & H6) _]; [contradiction|]. exists c, t. auto.
Qed.

Lemma string_placed s d : placed d (encode_string s).
Proof.
  split; [apply string_laid|]. split; [apply string_read|]. eexists _, _. split; [reflexivity|]. split; intros [E|E]; discriminate E.
Qed.

Lemma member_placed k t d : placed d t -> placed d (encode_string k ++ c_colon :: c_space :: t).
Proof.
  intros (H1 & H2 & x & t' & -> & Hx & Hc). split; [|split].
  - apply laid_app; [apply string_laid|]. rewrite string_read. apply laid_cons.
    + intros _. unfold follows, opening. split; [discriminate|]. split; [discriminate|]. split; [intros _; exists x, t'; auto|]. intros [E|E]; discriminate E.
    + change (step (Outside, d) c_colon) with (Outside, d). apply laid_cons; [|exact H1].
      intros _. unfold follows, opening. repeat split; intros E; try discriminate E. destruct E as [E|E]; discriminate E.
  - rewrite read_app, string_read. exact H2.
  - eexists _, _. split; [reflexivity|]. split; intros [E|E]; discriminate E.
Qed.

Fixpoint print_placed frepr (j : json) : forall n, floats_ok frepr j -> placed (Z.of_nat n) (print frepr n j).
Proof.
  destruct j as [|b|z|q|s|l|l]; intros n Hfl.
  - apply quiet_placed; [apply quiet_of; reflexivity|discriminate].
  - destruct b; (apply quiet_placed; [apply quiet_of; reflexivity|discriminate]).
  - pose proof (int_repr_spec z) as H. apply quiet_placed; [eapply int_quiet, H|eapply int_nonempty, H].
  - apply quiet_placed; [eapply float_quiet, Hfl|eapply float_nonempty, Hfl].
  - apply string_placed.
  - cbn [print]. apply bracketed_placed; [left; reflexivity|left; reflexivity|]. cbn in Hfl. induction l as [|x l IH]; [constructor|]. destruct Hfl as [F1 F2].
    constructor; [apply print_placed, F1|apply IH, F2].
  - rewrite print_obj. apply bracketed_placed; [right; reflexivity|right; reflexivity|].
    assert (F : forall k v, (k, v) ∈ l -> placed (Z.of_nat (S n)) (print frepr (S n) v)).
    { cbn in Hfl. clear -print_placed Hfl. induction l as [|[k x] l IH]; [intros k v H; apply elem_of_nil in H; contradiction|].
      destruct Hfl as [F1 F2]. specialize (IH F2). specialize (print_placed frepr x (S n) F1). clear -print_placed IH.
      intros k' v H. apply elem_of_cons in H as [E|H]; [injection E as -> ->; exact print_placed|exact (IH k' v H)]. }
    clear print_placed. apply Forall_forall. intros t Ht. apply elem_of_list_fmap in Ht as ([k u] & -> & H). apply elem_of_list_fmap in H as ([k' v] & E & H). injection E as -> ->.
    rewrite key_sort_perm in H. apply member_placed. exact (F k' v H).
Qed.

Theorem dumps_laid_out frepr j : floats_ok frepr j -> laid_out (dumps frepr j).
Proof. intros H. exact (proj1 (print_placed frepr j 0%nat H)). Qed.

(** ** The order of keys *)

Lemma insert_sorted {V} k (v : V) d : k ∉ d.*1 -> StronglySorted (fun k k' => String.compare k k' = Lt) d.*1 ->
  StronglySorted (fun k k' => String.compare k k' = Lt) (key_insert k v d).*1.
Proof.
  induction d as [|[k' v'] d IH]; intros N H; [repeat constructor|]. cbn [fmap list_fmap fst] in N, H. apply not_elem_of_cons in N as [N1 N2].
  apply StronglySorted_inv in H as [H1 H2]. cbn [key_insert]. destruct (String.leb k k') eqn:E.
  - apply leb_true in E as [E|E]; [contradiction|]. cbn. constructor; [constructor; assumption|]. constructor; [exact E|].
    eapply Forall_impl; [exact H2|]. intros a Ha. cbn in Ha. exact (string_lt_trans k k' a E Ha).
  - apply leb_false in E. cbn. constructor; [exact (IH N2 H1)|]. apply Forall_forall. intros a Ha.
    apply elem_of_list_fmap in Ha as ([a' w] & -> & Ha). cbn [fst].
    assert (P : key_insert k v d ≡ₚ (k, v) :: d).
    { clear. induction d as [|[k' v'] d IH]; [reflexivity|]. cbn. destruct (String.leb k k'); [reflexivity|]. rewrite IH. constructor. }
    rewrite P in Ha. apply elem_of_cons in Ha as [Ha|Ha]; [injection Ha as -> ->; exact E|].
    rewrite Forall_forall in H2. apply H2. apply elem_of_list_fmap. exists (a', w). auto.
Qed.

Lemma key_sort_sorted {V} (d : dict V) : NoDup d.*1 -> StronglySorted (fun k k' => String.compare k k' = Lt) (key_sort d).*1.
Proof.
  induction d as [|[k v] d IH]; intros H; [constructor|]. cbn in H. apply NoDup_cons in H as [H1 H2].
  change (key_sort ((k, v) :: d)) with (key_insert k v (key_sort d)). apply insert_sorted; [rewrite key_sort_perm; exact H1|exact (IH H2)].
Qed.

Fixpoint dump_load_sorted (j : json) : json_ok j -> sorted (dump_load j).
Proof.
  destruct j as [|b|z|q|s|l|l]; intros H; try exact I.
  - cbn in H |- *. induction l as [|x l IH]; [exact I|]. destruct H as [H1 H2]. split; [exact (dump_load_sorted x H1)|exact (IH H2)].
  - rewrite dump_load_obj. cbn [sorted]. destruct H as [H1 H2]. split; [apply key_sort_sorted; rewrite keys_fmap; exact H1|].
    assert (F : forall k v, (k, v) ∈ (fun '(k, v) => (k, dump_load v)) <$> l -> sorted v).
    { clear -dump_load_sorted H2. induction l as [|[k x] l IH]; [intros k v H; apply elem_of_nil in H; contradiction|]. destruct H2 as [O1 O2].
      specialize (IH O2). specialize (dump_load_sorted x O1). clear -dump_load_sorted IH. intros k' v H. cbn in H.
      apply elem_of_cons in H as [E|H]; [injection E as -> ->; exact dump_load_sorted|exact (IH k' v H)]. }
    clear dump_load_sorted H1 H2. revert F. generalize ((fun '(k, v) => (k, dump_load v)) <$> l). clear l. intros l F.
    assert (F' : forall k v, (k, v) ∈ key_sort l -> sorted v) by (intros k v H; rewrite key_sort_perm in H; exact (F k v H)).
    clear F. induction (key_sort l) as [|[k x] l' IH]; [exact I|]. split; [apply (F' k); left|]. apply IH. intros k' v H. apply (F' k'). right. exact H.
Qed.

Theorem dumps_sorted frepr j j' : json_ok j -> floats_ok frepr j -> document j' (dumps frepr j) -> sorted j'.
Proof.
  intros H F D. rewrite (document_unique _ _ _ D (dumps_document frepr j H F)). apply dump_load_sorted, H.
Qed.
