(** Paths, looking up and writing. *)
From Verif Require Import SpecFiles DictProofs FormatProofs.
Open Scope Z_scope.

(** ** Pieces *)

Lemma chars_str l : chars (str l) = l.
Proof. apply String.list_ascii_of_string_of_list_ascii. Qed.
Lemma str_chars s : str (chars s) = s.
Proof. apply String.string_of_list_ascii_of_string. Qed.

Lemma split_slash_pieces t : forall cur, c_slash ∉ cur ->
  split_slash cur t <> [] /\ Forall no_slash (split_slash cur t) /\ reverse cur ++ t = slashed (split_slash cur t).
Proof.
  induction t as [|c t IH]; intros cur Hc; cbn [split_slash].
  - split; [discriminate|]. split; [constructor; [|constructor]|]; unfold no_slash; cbn [slashed]; rewrite ?chars_str, ?elem_of_reverse, ?app_nil_r; auto.
  - case_bool_decide as D.
    + destruct (IH [] ltac:(apply not_elem_of_nil)) as (H1 & H2 & H3). split; [discriminate|]. split.
      * constructor; [unfold no_slash; rewrite chars_str, elem_of_reverse; exact Hc|exact H2].
      * cbn [slashed]. destruct (split_slash [] t) as [|x l]; [contradiction|]. rewrite <- H3, chars_str, D. reflexivity.
    + destruct (IH (c :: cur)) as (H1 & H2 & H3); [rewrite elem_of_cons; intros [E|E]; [congruence|contradiction]|].
      split; [exact H1|]. split; [exact H2|]. rewrite <- H3, reverse_cons, <- app_assoc. reflexivity.
Qed.

Lemma parts_pieces p : pieces p (parts p).
Proof. destruct (split_slash_pieces (chars p) [] ltac:(apply not_elem_of_nil)) as (H1 & H2 & H3). split; [exact H1|]. split; [exact H2|exact H3]. Qed.

Lemma split_slash_skip u : forall cur t, c_slash ∉ u -> split_slash cur (u ++ t) = split_slash (reverse u ++ cur) t.
Proof.
  induction u as [|c u IH]; intros cur t Hu; [reflexivity|]. cbn [app split_slash]. rewrite bool_decide_eq_false_2 by (intros ->; apply Hu; left).
  rewrite IH by (intros H; apply Hu; right; exact H). rewrite reverse_cons, <- app_assoc. reflexivity.
Qed.

Lemma split_slashed cs : cs <> [] -> Forall no_slash cs -> split_slash [] (slashed cs) = cs.
Proof.
  induction cs as [|c cs IH]; intros Hn Hf; [contradiction|]. apply Forall_cons in Hf as [Hc Hf]. destruct cs as [|d cs].
  - cbn [slashed]. rewrite <- (app_nil_r (chars c)), split_slash_skip by exact Hc. cbn [split_slash]. rewrite app_nil_r, reverse_involutive, str_chars. reflexivity.
  - change (slashed (c :: d :: cs)) with (chars c ++ c_slash :: slashed (d :: cs)). rewrite split_slash_skip by exact Hc. cbn [split_slash].
    rewrite bool_decide_eq_true_2 by reflexivity. rewrite IH by (discriminate || exact Hf). rewrite app_nil_r, reverse_involutive, str_chars. reflexivity.
Qed.

Lemma pieces_parts p cs : pieces p cs <-> parts p = cs.
Proof. split; [|intros <-; apply parts_pieces]. intros (H1 & H2 & H3). unfold parts. rewrite H3. apply split_slashed; assumption. Qed.

Lemma slashed_snoc cs c : cs <> [] -> slashed (cs ++ [c]) = slashed cs ++ chr 47 :: chars c.
Proof.
  induction cs as [|d cs IH]; intros H; [contradiction|]. destruct cs as [|e cs]; [reflexivity|].
  change (slashed ((d :: e :: cs) ++ [c])) with (chars d ++ chr 47 :: slashed ((e :: cs) ++ [c])). rewrite IH by discriminate.
  change (slashed (d :: e :: cs)) with (chars d ++ chr 47 :: slashed (e :: cs)). rewrite <- app_assoc. reflexivity.
Qed.

Lemma chars_app a b : chars (a +:+ b) = chars a ++ chars b.
Proof. induction a as [|c a IH]; [reflexivity|]. change (chars (String c a +:+ b)) with (c :: chars (a +:+ b)). rewrite IH. reflexivity. Qed.

Lemma join_in_folder p c : no_slash c -> path_join p c = in_folder p c.
Proof.
  intros Hc. unfold path_join, in_folder. rewrite bool_decide_eq_false_2.
  - case_decide as D; [|rewrite !bool_decide_eq_false_2 by tauto; reflexivity].
    destruct D as [D|D]; [rewrite (bool_decide_eq_true_2 _ D)|rewrite (bool_decide_eq_true_2 _ D), orb_true_r]; reflexivity.
  - unfold no_slash in Hc. intros H. apply Hc. destruct (chars c); [discriminate|]. injection H as ->. left.
Qed.

(** The pieces of a name in a folder: those of the folder, without an empty last one, and the name. *)
Lemma in_folder_pieces p c : p <> ""%string -> no_slash c ->
  exists cs, (parts p = cs \/ (parts p = cs ++ [""%string] /\ cs <> [])) /\ parts (in_folder p c) = cs ++ [c] /\ cs <> [].
Proof.
  intros Hp Hc. pose proof (parts_pieces p) as (H1 & H2 & H3). unfold in_folder. case_decide as D.
  - destruct D as [D|D]; [contradiction|]. destruct (parts p) as [|x l] eqn:E using rev_ind; [contradiction|]. clear IHl.
    apply Forall_app in H2 as [H2 H2']. apply Forall_inv in H2'.
    destruct (decide (l = [])) as [->|Hl].
    { exfalso. cbn [slashed app] in H3. apply H2'. rewrite <- H3. apply last_Some_elem_of, D. }
    rewrite slashed_snoc in H3 by exact Hl.
    assert (x = ""%string) as ->.
    { destruct (chars x) as [|a u] eqn:Ex; [rewrite <- (str_chars x), Ex; reflexivity|]. exfalso. apply H2'. rewrite Ex.
      rewrite H3 in D. change (chr 47 :: a :: u) with ([chr 47] ++ a :: u) in D. rewrite app_assoc in D.
      rewrite last_app in D. destruct (last (a :: u)) as [z|] eqn:Ez; [|apply last_None in Ez; discriminate]. injection D as ->. apply last_Some_elem_of, Ez. }
    exists l. split; [right; auto|]. split; [|exact Hl]. apply pieces_parts. split; [destruct l; discriminate|]. split.
    + apply Forall_app. split; [exact H2|]. constructor; [exact Hc|constructor].
    + rewrite chars_app, H3, slashed_snoc by exact Hl. rewrite <- app_assoc. reflexivity.
  - exists (parts p). split; [left; reflexivity|]. split; [|exact H1]. apply pieces_parts. split; [destruct (parts p); discriminate|]. split.
    + apply Forall_app. split; [exact H2|]. constructor; [exact Hc|constructor].
    + rewrite chars_app, H3, slashed_snoc by exact H1. reflexivity.
Qed.

(** ** Looking up *)

Lemma lies_app e l1 l2 e' : lies e (l1 ++ l2) e' <-> exists m, lies e l1 m /\ lies m l2 e'.
Proof.
  revert e. induction l1 as [|c l1 IH]; intros e; cbn [app].
  - split; [intros H; exists e; split; [constructor|exact H]|]. intros (m & H1 & H2). inversion H1; subst. exact H2.
  - split.
    + intros H. inversion H as [|es name e1 loc e2 Hin Hl]; subst. apply IH in Hl as (m & Hm & Hl). exists m. split; [econstructor; eassumption|exact Hl].
    + intros (m & H1 & H2). inversion H1 as [|es name e1 loc e2 Hin Hl]; subst. econstructor; [exact Hin|]. apply IH. eauto.
Qed.

Lemma lies_one es c e : lies (Dir es) [c] e <-> (c, e) ∈ es.
Proof.
  split; [intros H; inversion H as [|? ? ? ? ? Hin Hl]; subst; inversion Hl; subst; exact Hin|]. intros H. econstructor; [exact H|constructor].
Qed.

Section Ok.
Context (fs : entry) (HO : fs_ok fs).

Lemma dir_ok loc es : lies fs loc (Dir es) -> dict_ok es /\ Forall plain_name es.*1.
Proof. exact (proj2 HO loc es). Qed.

Lemma entry_at_lies_gen e pre : lies fs pre e -> forall loc e', entry_at e loc = Some e' <-> lies e loc e'.
Proof.
  intros Hp loc. revert e pre Hp. induction loc as [|c loc IH]; intros e pre Hp e'; cbn [entry_at].
  - split; [intros [= <-]; constructor|intros H; inversion H; subst; reflexivity].
  - destruct e as [t|es].
    + split; [discriminate|intros H; inversion H].
    + destruct (dir_ok pre es Hp) as [Hd _]. split.
      * destruct (dget es c) as [e1|] eqn:E; [|discriminate]. apply (dget_Some _ _ _ Hd) in E. intros H. econstructor; [exact E|].
        apply (IH e1 (pre ++ [c])); [apply lies_app; exists (Dir es); split; [exact Hp|apply lies_one, E]|exact H].
      * intros H. inversion H as [|es' name e1 loc' e2 Hin Hl]; subst. rewrite (proj2 (dget_Some _ _ _ Hd) Hin).
        apply (IH e1 (pre ++ [c])); [apply lies_app; exists (Dir es); split; [exact Hp|apply lies_one, Hin]|exact Hl].
Qed.

Lemma entry_at_lies loc e : entry_at fs loc = Some e <-> lies fs loc e.
Proof. apply (entry_at_lies_gen fs []). constructor. Qed.

Lemma lies_unique loc e e' : lies fs loc e -> lies fs loc e' -> e = e'.
Proof. rewrite <- !entry_at_lies. congruence. Qed.

Lemma lies_root : exists es, lies fs [] (Dir es).
Proof. destruct HO as [[es ->] _]. exists es. constructor. Qed.

Lemma lies_removelast loc e : lies fs loc e -> exists es, lies fs (removelast loc) (Dir es).
Proof.
  destruct loc as [|x l _] using rev_ind; [intros _; apply lies_root|]. rewrite removelast_last. intros H. apply lies_app in H as (m & H1 & H2).
  inversion H2; subst. eauto.
Qed.

Lemma lies_parent loc c e : lies fs (loc ++ [c]) e -> exists es, lies fs loc (Dir es) /\ (c, e) ∈ es /\ plain_name c.
Proof.
  intros H. apply lies_app in H as (m & H1 & H2). inversion H2 as [|es ? ? ? ? Hin Hl]; subst. inversion Hl; subst. exists es. split; [exact H1|]. split; [exact Hin|].
  destruct (dir_ok _ _ H1) as [_ Hf]. rewrite Forall_forall in Hf. apply Hf, elem_of_list_fmap. exists (c, e). auto.
Qed.

Lemma walk_found cs : forall loc e loc', lies fs loc e -> walk fs loc cs = Found loc' <-> leads fs loc cs loc'.
Proof.
  induction cs as [|c cs IH]; intros loc e loc' He; cbn [walk].
  - split; [intros [= <-]; constructor|intros H; inversion H; subst; reflexivity].
  - rewrite (proj2 (entry_at_lies loc e) He). destruct e as [t|es].
    { split; [discriminate|]. intros H. inversion H as [|? es ? ? ? Hd|? es ? ? Hd|? ? e ? ? Hd]; subst.
      - pose proof (lies_unique _ _ _ He Hd). discriminate.
      - pose proof (lies_unique _ _ _ He Hd). discriminate.
      - apply lies_parent in Hd as (es & Hd & _). pose proof (lies_unique _ _ _ He Hd). discriminate. }
    destruct (dir_ok _ _ He) as [Hd Hf].
    assert (HS : c = ""%string \/ c = "."%string -> walk fs loc cs = Found loc' <-> leads fs loc (c :: cs) loc').
    { intros Hc. rewrite (IH loc (Dir es) loc' He). split; [intros H; econstructor; eassumption|]. intros H. inversion H as [|? ? ? ? ? _ _ Hl|? ? ? ? _ Hl|? ? e ? ? Hl]; subst.
      - exact Hl.
      - destruct Hc; discriminate.
      - apply lies_parent in Hl as (? & _ & _ & (N1 & N2 & _)). tauto. }
    case_bool_decide as D1; [apply HS; auto|]. case_bool_decide as D2; [apply HS; auto|]. clear HS. cbn [orb].
    case_bool_decide as D3.
    + subst c. destruct (lies_removelast _ _ He) as [es' He']. rewrite (IH _ _ loc' He'). split; [intros H; econstructor; eassumption|].
      intros H. inversion H as [|? ? ? ? ? _ Hc|? ? ? ? _ Hl|? ? e ? ? Hl]; subst.
      * destruct Hc; discriminate.
      * exact Hl.
      * apply lies_parent in Hl as (? & _ & _ & (_ & _ & N3 & _)). congruence.
    + destruct (dget es c) as [e1|] eqn:E1.
      * assert (Hc : lies fs (loc ++ [c]) e1) by (apply lies_app; exists (Dir es); split; [exact He|apply lies_one, (dget_Some _ _ _ Hd), E1]).
        rewrite (IH _ _ loc' Hc). split; [intros H; econstructor; eassumption|].
        intros H. inversion H as [|? ? ? ? ? _ Hx|? ? ? ? _ Hl|? ? e ? ? _ Hl]; subst; [tauto|congruence|exact Hl].
      * split; [destruct cs; discriminate|]. intros H. inversion H as [|? ? ? ? ? _ Hx|? ? ? ? _ Hl|? ? e ? ? Hl _]; subst; [tauto|congruence|].
        apply lies_parent in Hl as (es' & Hl & Hin & _). pose proof (lies_unique _ _ _ He Hl) as [= <-]. apply (dget_Some _ _ _ Hd) in Hin. congruence.
Qed.

Lemma leads_lies cs : forall loc e loc', lies fs loc e -> leads fs loc cs loc' -> exists e', lies fs loc' e'.
Proof.
  intros loc e loc' He H. revert e He. induction H as [loc|loc es c cs loc' Hd _ _ IH|loc es cs loc' Hd _ IH|loc c e1 cs loc' Hd _ IH]; intros e He; eauto.
  destruct (lies_removelast _ _ He) as [es' He']. eauto.
Qed.

Lemma resolve_found p loc : resolve fs p = Found loc <-> at_path fs p loc.
Proof.
  unfold resolve, at_path. destruct lies_root as [es He]. case_bool_decide as D; [split; [discriminate|tauto]|]. rewrite (walk_found _ [] _ loc He). split.
  - intros H. split; [exact D|]. exists (parts p). split; [apply parts_pieces|exact H].
  - intros [_ (cs & Hc & H)]. apply pieces_parts in Hc as <-. exact H.
Qed.

Lemma at_path_unique p loc loc' : at_path fs p loc -> at_path fs p loc' -> loc = loc'.
Proof. rewrite <- !resolve_found. congruence. Qed.

Lemma at_path_lies p loc : at_path fs p loc -> exists e, lies fs loc e.
Proof. intros [_ (cs & _ & H)]. destruct lies_root as [es He]. exact (leads_lies _ _ _ _ He H). Qed.

(** ** Reading *)

Theorem open_read_iff p t : open_read fs p = Fine t <-> file_at fs p t.
Proof.
  unfold open_read, file_at. split.
  - destruct (resolve fs p) as [loc| |] eqn:E; try discriminate. apply resolve_found in E. destruct (entry_at fs loc) as [[u|]|] eqn:E2; try discriminate.
    intros [= ->]. apply entry_at_lies in E2. eauto.
  - intros (loc & H & Hl). apply resolve_found in H as ->. apply entry_at_lies in Hl as ->. reflexivity.
Qed.

Theorem isdir_iff p : isdir fs p = true <-> exists es, folder_at fs p es.
Proof.
  unfold isdir, folder_at. split.
  - destruct (resolve fs p) as [loc| |] eqn:E; try discriminate. apply resolve_found in E. destruct (entry_at fs loc) as [[u|es]|] eqn:E2; try discriminate.
    intros _. apply entry_at_lies in E2. eauto.
  - intros (es & loc & H & Hl). apply resolve_found in H as ->. apply entry_at_lies in Hl as ->. reflexivity.
Qed.

Theorem listdir_iff p names : listdir fs p = Fine names <-> exists es, folder_at fs p es /\ names = es.*1.
Proof.
  unfold listdir, folder_at. split.
  - destruct (resolve fs p) as [loc| |] eqn:E; try discriminate. apply resolve_found in E. destruct (entry_at fs loc) as [[u|es]|] eqn:E2; try discriminate.
    intros [= <-]. apply entry_at_lies in E2. eauto.
  - intros (es & (loc & H & Hl) & ->). apply resolve_found in H as ->. apply entry_at_lies in Hl as ->. reflexivity.
Qed.

(** ** A name in a folder *)

Lemma walk_app cs1 : forall cs2 loc loc' e, lies fs loc e -> leads fs loc cs1 loc' -> walk fs loc (cs1 ++ cs2) = walk fs loc' cs2.
Proof.
  intros cs2 loc loc' e He H. revert e He.
  induction H as [loc|loc es c cs loc' Hd Hc _ IH|loc es cs loc' Hd _ IH|loc c e1 cs loc' Hd _ IH]; intros e He; cbn [app walk]; [reflexivity| | |].
  - rewrite (proj2 (entry_at_lies _ _) Hd). assert (bool_decide (c = ""%string) || bool_decide (c = "."%string) = true) as ->.
    { apply orb_true_iff. destruct Hc; [left|right]; apply bool_decide_eq_true_2; assumption. } eauto.
  - rewrite (proj2 (entry_at_lies _ _) Hd). cbn [orb]. destruct (lies_removelast _ _ Hd) as [es' He']. exact (IH _ He').
  - pose proof (lies_parent _ _ _ Hd) as (es & Hes & Hin & (N1 & N2 & N3 & _)). rewrite (proj2 (entry_at_lies _ _) Hes).
    rewrite !bool_decide_eq_false_2 by assumption. cbn [orb]. destruct (dir_ok _ _ Hes) as [Hk _]. rewrite (proj2 (dget_Some _ _ _ Hk) Hin). eauto.
Qed.

Lemma leads_app cs1 cs2 loc loc' e : lies fs loc e -> leads fs loc (cs1 ++ cs2) loc' -> exists m, leads fs loc cs1 m /\ leads fs m cs2 loc'.
Proof.
  revert loc e. induction cs1 as [|c cs1 IH]; intros loc e He H; [exists loc; split; [constructor|exact H]|]. cbn [app] in H.
  inversion H as [|? es ? ? ? Hd Hc Hl|? es ? ? Hd Hl|? ? e1 ? ? Hd Hl]; subst.
  - destruct (IH _ _ He Hl) as (m & H1 & H2). exists m. split; [econstructor; eassumption|exact H2].
  - destruct (lies_removelast _ _ Hd) as [es' He']. destruct (IH _ _ He' Hl) as (m & H1 & H2). exists m. split; [econstructor; eassumption|exact H2].
  - destruct (IH _ _ Hd Hl) as (m & H1 & H2). exists m. split; [econstructor; eassumption|exact H2].
Qed.

(** Resolution of a name in a folder. *)
Lemma resolve_in p loc es c : at_path fs p loc -> lies fs loc (Dir es) -> plain_name c ->
  resolve fs (in_folder p c) = match dget es c with Some _ => Found (loc ++ [c]) | None => Vacant loc c end.
Proof.
  intros [Hp (cs & Hcs & Hl)] Hd (N1 & N2 & N3 & N4). apply pieces_parts in Hcs as <-. destruct lies_root as [res Hroot].
  destruct (in_folder_pieces p c Hp N4) as (cs & Hparts & Hnew & Hne).
  assert (HL : leads fs [] cs loc).
  { destruct Hparts as [Hq|[Hq _]]; rewrite Hq in Hl; [exact Hl|]. destruct (leads_app _ _ _ _ _ Hroot Hl) as (m & Hm & Hs).
    inversion Hs as [|? ? ? ? ? _ _ Hx|? ? ? ? Hx|? ? e1 ? ? Hx]; subst; [inversion Hx; subst; exact Hm|]. apply lies_parent in Hx as (? & _ & _ & [N _]). contradiction. }
  unfold resolve. rewrite bool_decide_eq_false_2.
  - rewrite Hnew, (walk_app cs [c] [] loc (Dir res) Hroot HL). cbn [walk]. rewrite (proj2 (entry_at_lies _ _) Hd), !bool_decide_eq_false_2 by assumption. cbn [orb].
    destruct (dget es c); reflexivity.
  - intros E. rewrite E in Hnew. destruct cs as [|x [|? ?]]; [contradiction| |]; discriminate.
Qed.

Lemma at_path_in p loc es c e : at_path fs p loc -> lies fs loc (Dir es) -> (c, e) ∈ es -> at_path fs (in_folder p c) (loc ++ [c]) /\ lies fs (loc ++ [c]) e.
Proof.
  intros Hp Hd Hin. assert (Hl : lies fs (loc ++ [c]) e) by (apply lies_app; exists (Dir es); split; [exact Hd|apply lies_one, Hin]). split; [|exact Hl].
  pose proof (lies_parent _ _ _ Hl) as (es' & Hes & Hin' & Hc). apply resolve_found. rewrite (resolve_in p loc es c Hp Hd Hc).
  destruct (dir_ok _ _ Hd) as [Hk _]. rewrite (proj2 (dget_Some _ _ _ Hk) Hin). reflexivity.
Qed.
End Ok.

(** ** Checks for concrete trees *)

Fixpoint tree_okb (e : entry) : bool :=
  match e with
  | File _ => true
  | Dir es => bool_decide (NoDup es.*1) && (fix go (l : list (string * entry)) : bool :=
      match l with
      | [] => true
      | (n, e') :: l' => bool_decide (n <> ""%string) && bool_decide (n <> "."%string) && bool_decide (n <> ".."%string) && bool_decide (chr 47 ∉ chars n) && tree_okb e' && go l'
      end) es
  end.

Lemma tree_okb_ok e : tree_okb e = true -> forall loc es, lies e loc (Dir es) -> NoDup es.*1 /\ Forall plain_name es.*1.
Proof.
  intros H loc es Hl. remember (Dir es) as e' eqn:E. revert H es E. induction Hl as [e|es0 name e loc e' Hin Hl IH]; intros H es E.
  - subst e. cbn [tree_okb] in H. apply andb_true_iff in H as [H1 H2]. apply bool_decide_eq_true in H1. split; [exact H1|]. clear H1.
    induction es as [|[n e'] es IH]; [constructor|]. rewrite !andb_true_iff in H2. destruct H2 as [[[[[A B] C] D] _] F]. apply bool_decide_eq_true in A, B, C, D.
    cbn [fmap list_fmap fst]. constructor; [repeat split; assumption|]. exact (IH F).
  - apply (IH); [|exact E]. cbn [tree_okb] in H. apply andb_true_iff in H as [_ H]. clear -H Hin. induction es0 as [|[n e'] es0 IH]; [apply elem_of_nil in Hin; contradiction|].
    rewrite !andb_true_iff in H. destruct H as [[_ H1] H2]. apply elem_of_cons in Hin as [[= _ ->]|Hin]; [exact H1|exact (IH Hin H2)].
Qed.

Lemma fs_ok_by es : tree_okb (Dir es) = true -> fs_ok (Dir es).
Proof. intros H. split; [eauto|]. apply tree_okb_ok, H. Qed.

Fixpoint files_in (pre : list string) (e : entry) : list (list string * text) :=
  match e with
  | File u => [(pre, u)]
  | Dir es => (fix go (l : list (string * entry)) : list (list string * text) := match l with [] => [] | (n, e') :: l' => files_in (pre ++ [n]) e' ++ go l' end) es
  end.

Lemma lies_files e loc u : lies e loc (File u) -> forall pre, (pre ++ loc, u) ∈ files_in pre e.
Proof.
  intros H. remember (File u) as e' eqn:E. revert E. induction H as [e|es name e loc e' Hin _ IH]; intros E pre.
  - subst e. rewrite app_nil_r. left.
  - cbn [files_in]. specialize (IH E (pre ++ [name])). rewrite <- app_assoc in IH. cbn [app] in IH. induction es as [|[n e0] es IHe]; [apply elem_of_nil in Hin; contradiction|].
    apply elem_of_app. apply elem_of_cons in Hin as [[= -> ->]|Hin]; [left; exact IH|right; exact (IHe Hin)].
Qed.
