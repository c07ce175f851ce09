(** The JSON scanner accepts exactly the texts of the grammar. *)
From Verif Require Import SpecJson DictProofs JsonLex.
Open Scope Z_scope.

(** ** Objects *)

Lemma last_dget {V} (ms : dict V) k v : last_value ms k v <-> dget (reverse ms) k = Some v.
Proof.
  induction ms as [|[k' v'] ms IH] using rev_ind.
  - split; [intros (pre & post & E & _); destruct pre; discriminate|discriminate].
  - rewrite reverse_app. cbn [reverse app]. change (reverse [(k', v')] ++ reverse ms) with ((k', v') :: reverse ms). cbn [dget]. destruct (decide (k = k')) as [->|D].
    + split.
      * intros (pre & post & E & Hk). destruct post as [|p post] using rev_ind; [apply app_inj_tail in E as [_ E]; injection E as ->; reflexivity|].
        rewrite app_comm_cons, app_assoc in E. apply app_inj_tail in E as [_ <-]. exfalso. apply Hk. rewrite fmap_app, elem_of_app. right. left.
      * intros E. injection E as ->. exists ms, []. split; [reflexivity|apply not_elem_of_nil].
    + rewrite <- IH. split.
      * intros (pre & post & E & Hk). destruct post as [|p post _] using rev_ind; [apply app_inj_tail in E as [_ E]; injection E as -> _; contradiction|].
        rewrite app_comm_cons, app_assoc in E. apply app_inj_tail in E as [-> _]. exists pre, post. split; [reflexivity|]. intros H. apply Hk. rewrite fmap_app, elem_of_app. auto.
      * intros (pre & post & -> & Hk). exists pre, (post ++ [(k', v')]). split; [rewrite <- app_assoc; reflexivity|]. rewrite fmap_app, elem_of_app. intros [H|H]; [exact (Hk H)|].
        cbn in H. apply elem_of_list_singleton in H. contradiction.
Qed.

Lemma dset_keys_in {V} (d : dict V) k v : (dset d k v).*1 = if decide (k ∈ d.*1) then d.*1 else d.*1 ++ [k].
Proof.
  induction d as [|[k' v'] d IH]; [reflexivity|]. cbn [dset]. destruct (decide (k = k')) as [->|D].
  - cbn. rewrite decide_True by left. reflexivity.
  - cbn. rewrite IH. destruct (decide (k ∈ d.*1)) as [H|H].
    + rewrite decide_True by (right; exact H). reflexivity.
    + rewrite decide_False by (rewrite not_elem_of_cons; auto). reflexivity.
Qed.

Lemma dupdate_snoc {V} (ms : dict V) k v : dupdate [] (ms ++ [(k, v)]) = dset (dupdate [] ms) k v.
Proof. unfold dupdate. rewrite foldl_app. reflexivity. Qed.

Lemma dupdate_keys_first {V} (ms : dict V) : (dupdate [] ms).*1 = reverse (remove_dups (reverse ms.*1)).
Proof.
  induction ms as [|[k v] ms IH] using rev_ind; [reflexivity|]. rewrite dupdate_snoc, dset_keys_in, IH, fmap_app, reverse_app. cbn [fmap list_fmap fst].
  change (reverse [k] ++ reverse ms.*1) with (k :: reverse ms.*1). cbn [remove_dups].
  destruct (decide (k ∈ reverse (remove_dups (reverse ms.*1)))) as [H|H]; rewrite elem_of_reverse, elem_of_remove_dups in H.
  - destruct (decide_rel elem_of k (reverse ms.*1)); [reflexivity|contradiction].
  - destruct (decide_rel elem_of k (reverse ms.*1)); [contradiction|]. rewrite reverse_cons. reflexivity.
Qed.

Lemma dupdate_get {V} (ms : dict V) k : dget (dupdate [] ms) k = dget (reverse ms) k.
Proof.
  induction ms as [|[k' v'] ms IH] using rev_ind; [reflexivity|]. rewrite dupdate_snoc, reverse_app. change (reverse [(k', v')] ++ reverse ms) with ((k', v') :: reverse ms).
  rewrite dget_dset, IH. reflexivity.
Qed.

Lemma first_nodup (l : list string) : NoDup (reverse (remove_dups (reverse l))).
Proof. rewrite (reverse_Permutation (remove_dups (reverse l))). apply NoDup_remove_dups. Qed.

Theorem collected_spec {V} (ms l : dict V) : collected ms l <-> l = dupdate [] ms.
Proof.
  assert (Hc : collected ms (dupdate [] ms)).
  { split; [apply dupdate_keys_first|]. intros k v H. apply last_dget. rewrite <- dupdate_get. apply dget_Some; [|exact H]. unfold dict_ok. rewrite dupdate_keys_first. apply first_nodup. }
  split; [|intros ->; exact Hc]. intros [H1 H2]. destruct Hc as [C1 C2]. rewrite <- C1 in H1. clear C1.
  revert H1 H2 C2. generalize (dupdate [] ms). intros l' H1 H2 C2. revert l' H1 C2. induction l as [|[k v] l IH]; intros [|[k' v'] l'] H1 C2; try discriminate; [reflexivity|].
  cbn in H1. injection H1 as -> H1.
  assert (v = v') as ->.
  { specialize (H2 k' v ltac:(left)). specialize (C2 k' v' ltac:(left)). apply last_dget in H2, C2. congruence. }
  f_equal. apply IH; [intros k v H; apply H2; right; exact H|exact H1|intros k v H; apply C2; right; exact H].
Qed.

(** ** What begins and what follows a value *)

Definition starts (t : text) : Prop := match t with c :: _ => is_ws c = false /\ c <> c_rbracket /\ c <> c_rbrace | [] => False end.
Definition stops (r : text) : Prop := match r with c :: _ => is_ws c = true \/ c = c_comma \/ c = c_rbracket \/ c = c_rbrace | [] => True end.

Lemma stops_ends r : stops r -> ends r.
Proof.
  destruct r as [|c r]; [auto|]. cbn. intros H.
  assert (Hc : c ∈ [chr 32; chr 9; chr 10; chr 13; chr 44; chr 93; chr 125]).
  { destruct H as [H|[-> |[-> | ->]]]; [apply is_ws_spec in H|..]; [rewrite !elem_of_cons in *; tauto|rewrite !elem_of_cons; auto 10..]. }
  rewrite !elem_of_cons, elem_of_nil in Hc. repeat destruct Hc as [->|Hc]; try contradiction; (split; [reflexivity|]; split; [discriminate|]; split; discriminate).
Qed.

Lemma stops_blank w r : spaces w -> stops r -> stops (w ++ r).
Proof. intros [|c w' Hc _] Hr; [exact Hr|]. left. apply is_ws_spec, Hc. Qed.

Lemma digit_ok c : is_digit c = true -> is_ws c = false /\ code c <> 93 /\ code c <> 125 /\ code c <> 34 /\ code c <> 91 /\ code c <> 123 /\ code c <> 110 /\ code c <> 116 /\
  code c <> 102 /\ code c <> 78 /\ code c <> 73 /\ code c <> 45.
Proof.
  intros H. assert (B : 48 <= code c <= 57) by (unfold is_digit in H; unfold code; apply andb_prop in H as [H1 H2]; apply Nat.leb_le in H1, H2; lia).
  split; [|lia]. unfold is_ws. destruct (Z.eqb_spec (code c) 32); [lia|]. destruct (Z.eqb_spec (code c) 9); [lia|]. destruct (Z.eqb_spec (code c) 10); [lia|]. destruct (Z.eqb_spec (code c) 13); [lia|]. reflexivity.
Qed.

Lemma neq_code c d : code c <> code d -> c <> d.
Proof. congruence. Qed.

Lemma signed_minus s g : signed s g -> exists neg, s = minus neg /\ g = (if neg : bool then -1 else 1).
Proof. intros [[-> ->]|[-> ->]]; [exists false|exists true]; auto. Qed.

Lemma number_starts s g u v x : signed s g -> whole u v -> starts (s ++ u ++ x).
Proof.
  intros Hs Hu. apply whole_spec in Hu as (H1 & H2 & _). destruct u as [|c u]; [contradiction|]. inversion H2 as [|? ? Hc _]; subst.
  destruct Hs as [[-> _]|[-> _]]; cbn; [|split; [reflexivity|]; split; discriminate].
  destruct (digit_ok c Hc) as (N1 & N2 & N3 & _). split; [exact N1|]. split; apply neq_code; assumption.
Qed.

Lemma json_starts j t : json_text j t -> forall x, starts (t ++ x).
Proof.
  intros H x. destruct H as [| | |z t (s & g & u & v & Hs & Hu & -> & _)|q t (s & g & u & v & fr & f & n & ex & e & Hs & Hu & _ & _ & _ & -> & _)| | | | |];
    try (cbn; split; [reflexivity|]; split; discriminate).
  - rewrite <- app_assoc. apply (number_starts s g u v x Hs Hu).
  - rewrite <- !app_assoc. apply (number_starts s g u v _ Hs Hu).
Qed.

Lemma starts_no_ws t : starts t -> no_ws t.
Proof. destruct t; [intros []|]. intros [H _]. exact H. Qed.

Lemma items_starts l t : items_text l t -> forall x, starts (t ++ x).
Proof. intros H x. destruct H as [j t w Hj _|j t w w' l u Hj _ _ _]; rewrite <- app_assoc; apply (json_starts j t Hj). Qed.

(** ** Terms without parts *)

Lemma strip_none a w c t : code c <> code a -> drop_word (a :: w) (c :: t) = None.
Proof. intros H. cbn. rewrite bool_decide_eq_false_2 by congruence. reflexivity. Qed.

Lemma scan_number fuel neg u v x : whole u v -> scan (S fuel) (minus neg ++ u ++ x) = scan_unsigned neg (u ++ x).
Proof.
  intros Hu. apply whole_spec in Hu as (H1 & H2 & _). destruct u as [|c u]; [contradiction|]. inversion H2 as [|? ? Hc _]; subst.
  destruct (digit_ok c Hc) as (N1 & N2 & N3 & N4 & N5 & N6 & N7 & N8 & N9 & N10 & N11 & N12). destruct neg; cbn [minus app scan].
  - change (bool_decide (c_minus = c_quote)) with false. change (bool_decide (c_minus = c_lbracket)) with false. change (bool_decide (c_minus = c_lbrace)) with false. cbv iota.
    unfold scan_atom. assert (E : drop_word (chars "-Infinity") (c_minus :: c :: u ++ x) = None) by (change (drop_word (chars "Infinity") (c :: u ++ x) = None); apply strip_none; exact N11).
    rewrite E. reflexivity.
  - rewrite (bool_decide_eq_false_2 (c = c_quote)) by (apply neq_code; exact N4). rewrite (bool_decide_eq_false_2 (c = c_lbracket)) by (apply neq_code; exact N5).
    rewrite (bool_decide_eq_false_2 (c = c_lbrace)) by (apply neq_code; exact N6). cbv iota. unfold scan_atom.
    assert (E1 : drop_word (chars "null") (c :: u ++ x) = None) by (apply strip_none; exact N7).
    assert (E2 : drop_word (chars "true") (c :: u ++ x) = None) by (apply strip_none; exact N8).
    assert (E3 : drop_word (chars "false") (c :: u ++ x) = None) by (apply strip_none; exact N9).
    assert (E4 : drop_word (chars "NaN") (c :: u ++ x) = None) by (apply strip_none; exact N10).
    assert (E5 : drop_word (chars "Infinity") (c :: u ++ x) = None) by (apply strip_none; exact N11).
    assert (E6 : drop_word (chars "-Infinity") (c :: u ++ x) = None) by (apply strip_none; exact N12).
    rewrite E1, E2, E3, E4, E5, E6. rewrite (bool_decide_eq_false_2 (c = c_minus)) by (apply neq_code; exact N12). reflexivity.
Qed.

Lemma strip_spec w : forall t r, drop_word w t = Some r -> t = w ++ r.
Proof.
  induction w as [|a w IH]; intros t r H; [injection H as ->; reflexivity|]. destruct t as [|b t]; [discriminate|]. cbn in H.
  destruct (bool_decide_reflect (a = b)) as [->|]; [|discriminate]. cbn. f_equal. apply IH, H.
Qed.

Lemma atom_sound t j r : scan_atom t = Got j r -> exists u, t = u ++ r /\ json_text j u.
Proof.
  unfold scan_atom. destruct (drop_word (chars "null") t) as [x|] eqn:E1; [intros H; injection H as <- <-; apply strip_spec in E1; eexists; split; [exact E1|constructor]|].
  destruct (drop_word (chars "true") t) as [x|] eqn:E2; [intros H; injection H as <- <-; apply strip_spec in E2; eexists; split; [exact E2|constructor]|].
  destruct (drop_word (chars "false") t) as [x|] eqn:E3; [intros H; injection H as <- <-; apply strip_spec in E3; eexists; split; [exact E3|constructor]|].
  destruct (drop_word (chars "NaN") t); [discriminate|]. destruct (drop_word (chars "Infinity") t); [discriminate|]. destruct (drop_word (chars "-Infinity") t); [discriminate|].
  destruct t as [|c t]; [discriminate|].
  assert (K : forall neg t', scan_unsigned neg t' = Got j r -> exists u, minus neg ++ t' = u ++ r /\ json_text j u).
  { intros neg t' H. apply unsigned_split in H as (u & r' & -> & Hu & Hf). destruct (finish_sound neg u r' j r Hu Hf) as (x & E & [(z & -> & Hz)|(q & -> & Hq)]); exists x; (split; [exact E|constructor; assumption]). }
  destruct (bool_decide_reflect (c = c_minus)) as [->|]; [exact (K true t)|exact (K false (c :: t))].
Qed.

(** ** Completeness *)

Scheme json_text_rule := Minimality for json_text Sort Prop
with items_text_rule := Minimality for items_text Sort Prop
with members_text_rule := Minimality for members_text Sort Prop.
Combined Scheme text_rules from json_text_rule, items_text_rule, members_text_rule.

Lemma skip_to w t : spaces w -> starts t -> skip_ws (w ++ t) = t.
Proof. intros Hw Ht. apply skip_blank_to; [exact Hw|apply starts_no_ws, Ht]. Qed.

Lemma scan_complete :
  (forall j t, json_text j t -> forall fuel r, (2 * length t + 1 <= fuel)%nat -> stops r -> scan fuel (t ++ r) = Got j r) /\
  (forall l t, items_text l t -> forall fuel r, (2 * length t + 2 <= fuel)%nat -> scan_items fuel (t ++ c_rbracket :: r) = Got l r) /\
  (forall ms t, members_text ms t -> forall fuel r, (2 * length t + 2 <= fuel)%nat -> scan_members fuel (t ++ c_rbrace :: r) = Got ms r).
Proof.
  apply text_rules.
  - intros fuel r Hf _. destruct fuel; [lia|]. reflexivity.
  - intros fuel r Hf _. destruct fuel; [lia|]. reflexivity.
  - intros fuel r Hf _. destruct fuel; [lia|]. reflexivity.
  - intros z t (s & g & u & v & Hs & Hu & -> & ->) fuel r Hf Hr. destruct fuel as [|fuel]; [lia|]. apply signed_minus in Hs as (neg & -> & ->).
    rewrite <- app_assoc, (scan_number fuel neg u v r Hu). apply stops_ends in Hr. rewrite (unsigned_whole neg u v r Hu (ends_no_digit r Hr)), (finish_int neg u r Hr).
    apply whole_spec in Hu as (_ & _ & -> & _). reflexivity.
  - intros q t (s & g & u & v & fr & f & n & ex & e & Hs & Hu & Hfr & Hex & Hne & -> & ->) fuel r Hf Hr. destruct fuel as [|fuel]; [lia|]. apply signed_minus in Hs as (neg & -> & ->).
    rewrite <- !app_assoc, (scan_number fuel neg u v _ Hu). apply stops_ends in Hr.
    assert (N : no_digit (fr ++ ex ++ r)).
    { destruct Hfr as [(-> & _)|(d & -> & _)]; [apply (exp_start ex e r Hex Hr)|reflexivity]. }
    rewrite (unsigned_whole neg u v _ Hu N). apply finish_float; assumption.
  - intros s t Hs fuel r Hf Hr. destruct fuel as [|fuel]; [lia|]. cbn [app scan]. change (bool_decide (chr 34 = c_quote)) with true. cbv iota.
    rewrite <- app_assoc. cbn [app]. rewrite (string_complete s t r Hs). reflexivity.
  - intros w Hw fuel r Hf Hr. destruct fuel as [|fuel]; [lia|]. cbn [app scan]. change (bool_decide (chr 91 = c_quote)) with false. change (bool_decide (chr 91 = c_lbracket)) with true. cbv iota.
    rewrite <- app_assoc. rewrite skip_blank_to by (exact Hw || reflexivity). reflexivity.
  - intros w l t Hw Ht IH fuel r Hf Hr. destruct fuel as [|fuel]; [lia|]. cbn [app scan]. change (bool_decide (chr 91 = c_quote)) with false. change (bool_decide (chr 91 = c_lbracket)) with true. cbv iota.
    rewrite <- !app_assoc. pose proof (items_starts l t Ht ([chr 93] ++ r)) as St. rewrite skip_to by assumption.
    destruct (t ++ [chr 93] ++ r) as [|d x] eqn:E; [contradiction|]. rewrite (bool_decide_eq_false_2 (d = c_rbracket)) by (apply St). rewrite <- E.
    cbn [length] in Hf. rewrite !app_length in Hf. cbn [app]. change (chr 93) with c_rbracket. rewrite IH by lia. reflexivity.
  - intros w Hw fuel r Hf Hr. destruct fuel as [|fuel]; [lia|]. cbn [app scan]. change (bool_decide (chr 123 = c_quote)) with false. change (bool_decide (chr 123 = c_lbracket)) with false.
    change (bool_decide (chr 123 = c_lbrace)) with true. cbv iota. rewrite <- app_assoc. rewrite skip_blank_to by (exact Hw || reflexivity). reflexivity.
  - intros w ms l t Hw Ht IH Hc fuel r Hf Hr. destruct fuel as [|fuel]; [lia|]. cbn [app scan]. change (bool_decide (chr 123 = c_quote)) with false. change (bool_decide (chr 123 = c_lbracket)) with false.
    change (bool_decide (chr 123 = c_lbrace)) with true. cbv iota. rewrite <- !app_assoc.
    assert (St : exists x, t = chr 34 :: x) by (destruct Ht; eexists; reflexivity). destruct St as (x & ->). rewrite skip_blank_to by (exact Hw || reflexivity).
    cbn [app]. change (bool_decide (chr 34 = c_rbrace)) with false. cbv iota. change (chr 34 :: x ++ chr 125 :: r) with ((chr 34 :: x) ++ c_rbrace :: r).
    cbn [length] in Hf. rewrite !app_length in Hf. rewrite IH by (cbn [length] in *; lia). apply collected_spec in Hc as ->. reflexivity.
  - intros j t w Hj IH Hw fuel r Hf. destruct fuel as [|fuel]; [lia|]. cbn [scan_items]. rewrite <- app_assoc. rewrite app_length in Hf.
    rewrite IH; [|lia|apply stops_blank; [exact Hw|cbn; auto]]. rewrite skip_blank_to by (exact Hw || reflexivity). reflexivity.
  - intros j t w w' l u Hj IH Hw Hw' Hu IHu fuel r Hf. destruct fuel as [|fuel]; [lia|]. cbn [scan_items]. repeat (rewrite <- app_assoc; cbn [app]).
    rewrite !app_length in Hf. cbn [length] in Hf. rewrite app_length in Hf.
    rewrite IH; [|lia|apply stops_blank; [exact Hw|cbn; auto]]. rewrite skip_blank_to by (exact Hw || reflexivity).
    change (bool_decide (chr 44 = c_rbracket)) with false. change (bool_decide (chr 44 = c_comma)) with true. cbv iota.
    rewrite skip_to; [|exact Hw'|apply (items_starts l u Hu)]. rewrite IHu by lia. reflexivity.
  - intros k kt w w' j t w1 Hk Hw Hw' Hj IH Hw1 fuel r Hf. destruct fuel as [|fuel]; [lia|]. cbn [app scan_members]. change (bool_decide (chr 34 = c_quote)) with true. cbv iota.
    repeat (rewrite <- app_assoc; cbn [app]). rewrite (string_complete k kt _ Hk). rewrite skip_blank_to by (exact Hw || reflexivity). change (bool_decide (chr 58 = c_colon)) with true. cbv iota.
    rewrite skip_to; [|exact Hw'|apply (json_starts j t Hj)].
    repeat (cbn [length] in Hf; rewrite ?app_length in Hf).
    rewrite IH; [|lia|apply stops_blank; [exact Hw1|cbn; auto]]. rewrite skip_blank_to by (exact Hw1 || reflexivity). reflexivity.
  - intros k kt w w' j t w1 w2 l u Hk Hw Hw' Hj IH Hw1 Hw2 Hu IHu fuel r Hf. destruct fuel as [|fuel]; [lia|]. cbn [app scan_members]. change (bool_decide (chr 34 = c_quote)) with true. cbv iota.
    repeat (rewrite <- app_assoc; cbn [app]). rewrite (string_complete k kt _ Hk). rewrite skip_blank_to by (exact Hw || reflexivity). change (bool_decide (chr 58 = c_colon)) with true. cbv iota.
    rewrite skip_to; [|exact Hw'|apply (json_starts j t Hj)].
    repeat (cbn [length] in Hf; rewrite ?app_length in Hf).
    rewrite IH; [|lia|apply stops_blank; [exact Hw1|cbn; auto]]. rewrite skip_blank_to by (exact Hw1 || reflexivity).
    change (bool_decide (chr 44 = c_rbrace)) with false. change (bool_decide (chr 44 = c_comma)) with true. cbv iota.
    assert (St : exists x, u = chr 34 :: x) by (destruct Hu; eexists; reflexivity). destruct St as (x & ->).
    rewrite (skip_blank_to w2 ((chr 34 :: x) ++ c_rbrace :: r)) by (exact Hw2 || reflexivity). rewrite IHu by lia. reflexivity.
Qed.

(** ** Soundness *)

Lemma scan_sound : forall fuel,
  (forall t j r, scan fuel t = Got j r -> exists u, t = u ++ r /\ json_text j u) /\
  (forall t l r, scan_items fuel t = Got l r -> exists u, t = u ++ c_rbracket :: r /\ items_text l u) /\
  (forall t ms r, scan_members fuel t = Got ms r -> exists u, t = u ++ c_rbrace :: r /\ members_text ms u).
Proof.
  induction fuel as [|fuel (IH & IHi & IHm)]; [repeat split; intros; discriminate|]. split; [|split].
  - intros [|c t] j r H; [discriminate|]. cbn [scan] in H. destruct (bool_decide_reflect (c = c_quote)) as [->|Dq].
    { destruct (scan_string t) as [s r'| |] eqn:E; try discriminate. injection H as <- <-. apply string_sound in E as (u & -> & Hu).
      exists (c_quote :: u ++ [c_quote]). split; [cbn [app]; rewrite <- app_assoc; reflexivity|]. apply (text_string s u Hu). }
    destruct (bool_decide_reflect (c = c_lbracket)) as [->|Db].
    { destruct (skip_split t) as (w & Hw & Et & _). destruct (skip_ws t) as [|d x]; [discriminate|]. destruct (bool_decide_reflect (d = c_rbracket)) as [->|Dd].
      - injection H as <- <-. exists (c_lbracket :: w ++ [c_rbracket]). split; [rewrite Et; cbn [app]; rewrite <- app_assoc; reflexivity|]. apply (text_no_items w Hw).
      - destruct (scan_items fuel (d :: x)) as [l r'| |] eqn:E; try discriminate. injection H as <- <-. apply IHi in E as (u & E & Hu). rewrite E in Et.
        exists (c_lbracket :: w ++ u ++ [c_rbracket]). split; [rewrite Et; cbn [app]; rewrite <- !app_assoc; reflexivity|]. apply (text_items w l u Hw Hu). }
    destruct (bool_decide_reflect (c = c_lbrace)) as [->|Dc].
    { destruct (skip_split t) as (w & Hw & Et & _). destruct (skip_ws t) as [|d x]; [discriminate|]. destruct (bool_decide_reflect (d = c_rbrace)) as [->|Dd].
      - injection H as <- <-. exists (c_lbrace :: w ++ [c_rbrace]). split; [rewrite Et; cbn [app]; rewrite <- app_assoc; reflexivity|]. apply (text_no_members w Hw).
      - destruct (scan_members fuel (d :: x)) as [l r'| |] eqn:E; try discriminate. injection H as <- <-. apply IHm in E as (u & E & Hu). rewrite E in Et.
        exists (c_lbrace :: w ++ u ++ [c_rbrace]). split; [rewrite Et; cbn [app]; rewrite <- !app_assoc; reflexivity|]. apply (text_members w l _ u Hw Hu). apply collected_spec. reflexivity. }
    apply atom_sound, H.
  - intros t l r H. cbn [scan_items] in H. destruct (scan fuel t) as [j r'| |] eqn:E; try discriminate. apply IH in E as (u & -> & Hu).
    destruct (skip_split r') as (w & Hw & Er & _). destruct (skip_ws r') as [|c x]; [discriminate|]. destruct (bool_decide_reflect (c = c_rbracket)) as [->|D1].
    + injection H as <- <-. exists (u ++ w). split; [rewrite Er, <- app_assoc; reflexivity|]. apply items_last; assumption.
    + destruct (bool_decide_reflect (c = c_comma)) as [->|D2]; [|discriminate]. destruct (skip_split x) as (w' & Hw' & Ex & _). destruct (scan_items fuel (skip_ws x)) as [l' r2| |] eqn:E; try discriminate.
      injection H as <- <-. apply IHi in E as (u' & E & Hu'). exists (u ++ w ++ c_comma :: w' ++ u'). split; [|apply (items_next j u w w' l' u'); assumption].
      rewrite Er, Ex, E. cbn [app]. repeat (rewrite <- app_assoc; cbn [app]). reflexivity.
  - intros [|q t] ms r H; [discriminate|]. cbn [scan_members] in H. destruct (bool_decide_reflect (q = c_quote)) as [->|Dq]; [|discriminate].
    destruct (scan_string t) as [k r1| |] eqn:Es; try discriminate. apply string_sound in Es as (kt & -> & Hk).
    destruct (skip_split r1) as (w & Hw & E1 & _). destruct (skip_ws r1) as [|col r2]; [discriminate|]. destruct (bool_decide_reflect (col = c_colon)) as [->|Dcol]; [|discriminate].
    destruct (skip_split r2) as (w' & Hw' & E2 & _). destruct (scan fuel (skip_ws r2)) as [j r3| |] eqn:Ej; try discriminate. apply IH in Ej as (t & Ej & Ht).
    destruct (skip_split r3) as (w1 & Hw1 & E3 & _). destruct (skip_ws r3) as [|c r4]; [discriminate|]. destruct (bool_decide_reflect (c = c_rbrace)) as [->|D1].
    + injection H as <- <-. exists (c_quote :: kt ++ c_quote :: w ++ c_colon :: w' ++ t ++ w1). split; [|apply (members_last k kt w w' j t w1); assumption].
      rewrite E1, E2, Ej, E3. cbn [app]. repeat (rewrite <- app_assoc; cbn [app]). reflexivity.
    + destruct (bool_decide_reflect (c = c_comma)) as [->|D2]; [|discriminate]. destruct (skip_split r4) as (w2 & Hw2 & E4 & _).
      destruct (scan_members fuel (skip_ws r4)) as [l' r5| |] eqn:E; try discriminate. injection H as <- <-. apply IHm in E as (u & E & Hu).
      exists (c_quote :: kt ++ c_quote :: w ++ c_colon :: w' ++ t ++ w1 ++ c_comma :: w2 ++ u). split; [|apply (members_next k kt w w' j t w1 w2 l' u); assumption].
      rewrite E1, E2, Ej, E3, E4, E. cbn [app]. repeat (rewrite <- app_assoc; cbn [app]). reflexivity.
Qed.

(** ** Documents *)

Theorem loads_spec t j : loads t = Loaded j <-> document j t.
Proof.
  unfold loads. split.
  - intros H. destruct (scan _ (skip_ws t)) as [j' r| |] eqn:E; try discriminate. destruct (skip_ws r) as [|c x] eqn:Er; [|discriminate]. injection H as ->.
    apply (proj1 (scan_sound _)) in E as (u & E & Hu). destruct (skip_split t) as (w & Hw & Et & _). destruct (skip_split r) as (w' & Hw' & Er' & _). rewrite Er, app_nil_r in Er'.
    exists w, u, w'. subst r. rewrite Et, E. auto.
  - intros (w & u & w' & Hw & Hu & Hw' & ->). rewrite skip_to; [|exact Hw|apply (json_starts j u Hu)].
    rewrite (proj1 scan_complete j u Hu); [|rewrite !app_length; lia|rewrite <- (app_nil_r w'); apply stops_blank; [exact Hw'|exact I]].
    rewrite <- (app_nil_r w'), skip_blank by exact Hw'. reflexivity.
Qed.

Theorem document_unique t j j' : document j t -> document j' t -> j = j'.
Proof. intros H1 H2. apply loads_spec in H1, H2. congruence. Qed.
