(** Names of files with an accepted extension. *)
From Verif Require Import SpecText.
Open Scope Z_scope.

Lemma is_dot c : (Ascii.nat_of_ascii c =? 46)%nat = bool_decide (c = dot).
Proof. destruct (Nat.eqb_spec (Ascii.nat_of_ascii c) 46) as [E|E]; symmetry; [apply bool_decide_eq_true_2|apply bool_decide_eq_false_2].
  - rewrite <- (Ascii.ascii_nat_embedding c), E. reflexivity.
  - intros ->. apply E. reflexivity.
Qed.

Lemma last_dot_split l : forall k acc,
  (exists b e, l = b ++ dot :: e /\ dot ∉ e /\ last_dot k l acc = Some (k + length b)%nat) \/ (dot ∉ l /\ last_dot k l acc = acc).
Proof.
  induction l as [|c l IH]; intros k acc; [right; split; [apply not_elem_of_nil|reflexivity]|].
  cbn [last_dot]. rewrite is_dot. destruct (IH (S k) (if bool_decide (c = dot) then Some k else acc)) as [(b & e & -> & He & E)|[Hn E]].
  - left. exists (c :: b), e. split; [reflexivity|]. split; [exact He|]. rewrite E. f_equal. cbn [length]. lia.
  - rewrite E. destruct (bool_decide_reflect (c = dot)) as [->|D].
    + left. exists [], l. split; [reflexivity|]. split; [exact Hn|]. f_equal. cbn [length]. lia.
    + right. split; [|reflexivity]. rewrite not_elem_of_cons. split; [congruence|exact Hn].
Qed.

Lemma leading_dots_split b e : (leading_dots (b ++ dot :: e) <=? length b)%nat = true <-> exists c, c ∈ b /\ c <> dot.
Proof.
  induction b as [|c b IH]; cbn [app leading_dots length].
  - split; [discriminate|]. intros (c & H & _). apply not_elem_of_nil in H as [].
  - rewrite is_dot. destruct (bool_decide_reflect (c = dot)) as [->|D].
    + cbn [Nat.leb]. rewrite IH. setoid_rewrite elem_of_cons. firstorder congruence.
    + split; [intros _; exists c; split; [left|exact D]|reflexivity].
Qed.

Lemma splitext_dot b e : dot ∉ e -> (exists c, c ∈ b /\ c <> dot) -> splitext (str (b ++ dot :: e)) = (str b, str (dot :: e)).
Proof.
  intros He Hb. unfold splitext. rewrite String.list_ascii_of_string_of_list_ascii.
  destruct (last_dot_split (b ++ dot :: e) 0 None) as [(b' & e' & E & He' & ->)|[Hn _]]; [|exfalso; apply Hn; rewrite elem_of_app, elem_of_cons; auto].
  assert (b' = b /\ e' = e) as [-> ->].
  { clear Hb. revert b' E. induction b as [|c b IH]; intros [|c' b'] E; cbn in E.
    - injection E as <-. auto.
    - injection E as _ ->. exfalso. apply He. rewrite elem_of_app, elem_of_cons. auto.
    - injection E as _ <-. exfalso. apply He'. rewrite elem_of_app, elem_of_cons. auto.
    - injection E as -> E. destruct (IH _ E) as [-> ->]. auto. }
  cbn [plus]. rewrite (proj2 (leading_dots_split b e) Hb), take_app, drop_app. reflexivity.
Qed.

Lemma lower_letter d c : 97 <= Z.of_nat (Ascii.nat_of_ascii d) <= 122 -> (lower_ascii c = d <-> same_letter d c).
Proof.
  intros Hd. unfold lower_ascii, same_letter.
  assert (B : (Ascii.nat_of_ascii c < 256)%nat) by apply Ascii.nat_ascii_bounded.
  destruct (Nat.leb_spec 65 (Ascii.nat_of_ascii c)); [destruct (Nat.leb_spec (Ascii.nat_of_ascii c) 90)|]; cbn [andb].
  - split.
    + intros <-. right. rewrite Ascii.nat_ascii_embedding in * by lia. lia.
    + intros [->|[_ E]]; [lia|]. rewrite <- (Ascii.ascii_nat_embedding d). f_equal. lia.
  - split; [intros ->; left; reflexivity|]. intros [->|[_ E]]; [reflexivity|lia].
  - split; [intros ->; left; reflexivity|]. intros [->|[_ E]]; [reflexivity|lia].
Qed.

Lemma lower_letters w l : Forall (fun d => 97 <= Z.of_nat (Ascii.nat_of_ascii d) <= 122) w -> (lower_ascii <$> l = w <-> Forall2 same_letter w l).
Proof.
  intros Hw. revert l. induction Hw as [|d w Hd _ IH]; intros [|c l]; cbn.
  - split; [constructor|reflexivity].
  - split; [discriminate|]. intros K. inversion K.
  - split; [discriminate|]. intros K. inversion K.
  - split.
    + intros E. injection E as E1 E2. constructor; [apply lower_letter; assumption|apply IH, E2].
    + intros K. inversion K; subst. f_equal; [apply lower_letter; assumption|apply IH; assumption].
Qed.

Lemma words_ok t w : w ∈ words t -> Forall (fun d => 97 <= Z.of_nat (Ascii.nat_of_ascii d) <= 122) (chars w).
Proof.
  intros Hw. apply Forall_forall. intros d Hd.
  assert (K : forallb (fun w => forallb (fun d => (97 <=? Z.of_nat (Ascii.nat_of_ascii d)) && (Z.of_nat (Ascii.nat_of_ascii d) <=? 122)) (chars w)) (words t) = true)
    by (destruct t; vm_compute; reflexivity).
  rewrite forallb_forall in K. specialize (K w (proj1 (elem_of_list_In _ _) Hw)). rewrite forallb_forall in K.
  specialize (K d (proj1 (elem_of_list_In _ _) Hd)). apply andb_prop in K as [K1 K2]. lia.
Qed.

Lemma extensions_words t x : x ∈ extensions t <-> exists w, w ∈ words t /\ x = String dot w.
Proof.
  destruct t; cbn [extensions words]; rewrite ?elem_of_cons, elem_of_nil; split.
  all: try (intros [->|[->|[]]]; eexists; (split; [|reflexivity]); rewrite ?elem_of_cons; auto).
  all: intros (w & Hw & ->); rewrite ?elem_of_cons, elem_of_nil in Hw; destruct Hw as [->|[->|[]]]; auto.
Qed.

Lemma word_no_dot t w ext : w ∈ words t -> Forall2 same_letter (chars w) ext -> dot ∉ ext.
Proof.
  intros Hw K Hin. apply elem_of_list_lookup in Hin as [i Hi]. destruct (Forall2_lookup_r _ _ _ _ _ K Hi) as (d & Hd & Hs).
  pose proof (Forall_lookup_1 _ _ _ _ (words_ok t w Hw) Hd) as B. cbn in B. destruct Hs as [E|[_ E]]; [rewrite <- E in B|]; change (Z.of_nat (Ascii.nat_of_ascii dot)) with 46 in *; lia.
Qed.

Lemma lower_cons c s : lower (String c s) = String (lower_ascii c) (lower s).
Proof. reflexivity. Qed.

Theorem accepted_names t name : accepted t name = true <-> exists base, named t base name.
Proof.
  unfold accepted. split.
  - intros H. apply andb_prop in H as [_ H]. apply bool_decide_eq_true in H. apply extensions_words in H as (w & Hw & H).
    rewrite <- (String.string_of_list_ascii_of_string name) in H. unfold splitext in H. rewrite String.list_ascii_of_string_of_list_ascii in H.
    destruct (last_dot_split (chars name) 0 None) as [(b & e & E & He & El)|[_ El]]; rewrite El in H; [|discriminate].
    cbn [plus] in H. destruct (_ <=? _)%nat eqn:Hb; [|discriminate]. rewrite E in Hb. apply leading_dots_split in Hb.
    rewrite E, drop_app in H. cbn [snd] in H. change (str (dot :: e)) with (String dot (str e)) in H. rewrite lower_cons in H. injection H as H.
    exists b, w, e. split; [exact Hw|]. split; [|split; [exact E|exact Hb]].
    apply lower_letters; [apply (words_ok t w Hw)|]. unfold lower in H. rewrite String.list_ascii_of_string_of_list_ascii in H. rewrite <- H, String.list_ascii_of_string_of_list_ascii. reflexivity.
  - intros (b & w & ext & Hw & Hl & E & Hb).
    rewrite <- (String.string_of_list_ascii_of_string name), E, (splitext_dot b ext (word_no_dot t w ext Hw Hl) Hb). cbn [snd].
    apply andb_true_intro. split; [reflexivity|]. apply bool_decide_eq_true_2. apply extensions_words. exists w. split; [exact Hw|].
    change (str (dot :: ext)) with (String dot (str ext)). rewrite lower_cons. change (lower_ascii dot) with dot. f_equal.
    unfold lower. rewrite String.list_ascii_of_string_of_list_ascii. apply lower_letters in Hl; [|apply (words_ok t w Hw)]. rewrite Hl. apply String.string_of_list_ascii_of_string.
Qed.

Theorem named_stem t base name : named t base name -> stem name = str base.
Proof.
  intros (w & ext & Hw & Hl & E & Hb). unfold stem. rewrite <- (String.string_of_list_ascii_of_string name), E, (splitext_dot base ext (word_no_dot t w ext Hw Hl) Hb). reflexivity.
Qed.
