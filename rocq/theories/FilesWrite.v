(** Property C80: what writing changes. *)
From Verif Require Import SpecFiles DictProofs FormatProofs FilesProofs.
Open Scope Z_scope.

(** ** Replacing one entry *)

Definition tree_names (e : entry) : Prop := forall loc es, lies e loc (Dir es) -> NoDup es.*1 /\ Forall plain_name es.*1.

Lemma tree_names_below es c e : tree_names (Dir es) -> (c, e) ∈ es -> tree_names e.
Proof. intros H Hin loc sub Hl. apply (H (c :: loc)). econstructor; eassumption. Qed.

Lemma dset_in {V} (d : dict V) k v n x : dict_ok d -> (n, x) ∈ dset d k v <-> (n = k /\ x = v) \/ (n <> k /\ (n, x) ∈ d).
Proof.
  intros Hd. rewrite <- (dget_Some _ _ _ (dset_ok _ _ _ Hd)), dget_dset, <- (dget_Some _ _ _ Hd). case_decide as D; split.
  - intros [= ->]. auto.
  - intros [[_ ->]|[? _]]; [reflexivity|contradiction].
  - auto.
  - intros [[? _]|[_ H]]; [contradiction|exact H].
Qed.

(** A file can be put at [l ++ [c]]. *)
Definition slot (e : entry) (l : list string) (c : string) : Prop :=
  exists es, lies e l (Dir es) /\ plain_name c /\ forall sub, (c, Dir sub) ∉ es.

Lemma put_step es a e l c t : dict_ok es -> (a, e) ∈ es -> put (Dir es) ((a :: l) ++ [c]) t = Dir (dset es a (put e (l ++ [c]) t)).
Proof. intros Hd Hin. cbn [put app]. rewrite (proj2 (dget_Some _ _ _ Hd) Hin). reflexivity. Qed.

Lemma put_last es c t : dict_ok es -> (forall sub, (c, Dir sub) ∉ es) -> put (Dir es) [c] t = Dir (dset es c (File t)).
Proof. intros Hd H. cbn [put]. destruct (dget es c) as [e|]; reflexivity. Qed.

Lemma lies_dset_one es k v loc e : dict_ok es -> lies (Dir (dset es k v)) loc e <->
  (loc = [] /\ e = Dir (dset es k v)) \/ (exists loc', loc = k :: loc' /\ lies v loc' e) \/
  (exists n loc' e0, loc = n :: loc' /\ n <> k /\ (n, e0) ∈ es /\ lies e0 loc' e).
Proof.
  intros Hd. split.
  - intros H. inversion H as [|? n e1 loc' ? Hin Hl]; subst; [auto|]. apply (dset_in _ _ _ _ _ Hd) in Hin as [[-> ->]|[Hn Hin]]; [right; left; eauto|]. right. right. eauto 8.
  - intros [[-> ->]|[(loc' & -> & Hl)|(n & loc' & e0 & -> & Hn & Hin & Hl)]]; [constructor| |]; (econstructor; [apply (dset_in _ _ _ _ _ Hd)|exact Hl]); auto.
Qed.

Lemma put_files l c t : plain_name c -> forall e, tree_names e -> slot e l c -> forall loc u,
  lies (put e (l ++ [c]) t) loc (File u) <-> (loc = l ++ [c] /\ u = t) \/ (loc <> l ++ [c] /\ lies e loc (File u)).
Proof.
  intros Hc. induction l as [|a l IH]; intros e HT (es & Hl & _ & Hno) loc u.
  - inversion Hl; subst. destruct (HT [] es ltac:(constructor)) as [Hd _]. cbn [app]. rewrite (put_last _ _ _ Hd Hno), (lies_dset_one _ _ _ _ _ Hd). split.
    + intros [[_ ?]|[(loc' & -> & Hf)|(n & loc' & e0 & -> & Hn & Hin & Hf)]]; [discriminate| |].
      * inversion Hf; subst. auto.
      * right. split; [congruence|]. econstructor; eassumption.
    + intros [[-> ->]|[Hne Hf]]; [right; left; exists []; split; [reflexivity|constructor]|]. inversion Hf as [|? n e1 loc' ? Hin Hf']; subst.
      destruct (decide (n = c)) as [->|Hn]; [|right; right; eauto 8]. destruct e1 as [w|sub]; [|exfalso; exact (Hno _ Hin)]. inversion Hf'; subst. congruence.
  - inversion Hl as [|es0 ? e1 ? ? Hin Hl']; subst. destruct (HT [] es0 ltac:(constructor)) as [Hd _].
    rewrite (put_step _ _ _ _ _ _ Hd Hin), (lies_dset_one _ _ _ _ _ Hd).
    assert (IH' := IH e1 (tree_names_below _ _ _ HT Hin) (ex_intro _ es (conj Hl' (conj Hc Hno)))). split.
    + intros [[_ ?]|[(loc' & -> & Hf)|(n & loc' & e0 & -> & Hn & Hin' & Hf)]]; [discriminate| |].
      * apply IH' in Hf as [[-> ->]|[Hne Hf]]; [left; auto|]. right. split; [intros [= ?]; contradiction|]. econstructor; eassumption.
      * right. split; [intros [= ? _]; contradiction|]. econstructor; eassumption.
    + intros [[-> ->]|[Hne Hf]].
      * right. left. exists (l ++ [c]). split; [reflexivity|]. apply IH'. auto.
      * inversion Hf as [|? n e2 loc' ? Hin' Hf']; subst. destruct (decide (n = a)) as [->|Hn]; [|right; right; eauto 8].
        right. left. exists loc'. split; [reflexivity|]. apply IH'. right. split; [intros ->; apply Hne; reflexivity|].
        assert (e2 = e1) as -> by (pose proof (proj2 (dget_Some _ _ _ Hd) Hin); pose proof (proj2 (dget_Some _ _ _ Hd) Hin'); congruence). exact Hf'.
Qed.

Lemma put_dirs l c t : plain_name c -> forall e, tree_names e -> slot e l c ->
  tree_names (put e (l ++ [c]) t) /\ forall loc, (exists es, lies (put e (l ++ [c]) t) loc (Dir es)) <-> (exists es, lies e loc (Dir es)).
Proof.
  intros Hc. induction l as [|a l IH]; intros e HT (es & Hl & _ & Hno).
  - inversion Hl; subst. destruct (HT [] es ltac:(constructor)) as [Hd Hf]. cbn [app]. rewrite (put_last _ _ _ Hd Hno). split.
    + intros loc es' H. apply (lies_dset_one _ _ _ _ _ Hd) in H as [[-> [= ->]]|[(loc' & -> & H)|(n & loc' & e0 & -> & Hn & Hin & H)]].
      * split; [apply dset_ok, Hd|]. apply Forall_forall. intros k Hk. apply dset_elem in Hk as [->|Hk]; [exact Hc|]. rewrite Forall_forall in Hf. exact (Hf k Hk).
      * inversion H.
      * apply (HT (n :: loc')). econstructor; eassumption.
    + intros loc. split.
      * intros [es' H]. apply (lies_dset_one _ _ _ _ _ Hd) in H as [[-> _]|[(loc' & -> & H)|(n & loc' & e0 & -> & Hn & Hin & H)]].
        -- exists es. constructor.
        -- inversion H.
        -- exists es'. econstructor; eassumption.
      * intros [es' H]. inversion H as [|? n e1 loc' ? Hin Hl']; subst; [eexists; constructor|].
        destruct (decide (n = c)) as [->|Hn]; [destruct e1 as [w|sub]; [inversion Hl'|exfalso; exact (Hno _ Hin)]|].
        exists es'. apply (lies_dset_one _ _ _ _ _ Hd). right. right. eauto 8.
  - inversion Hl as [|es0 ? e1 ? ? Hin Hl']; subst. destruct (HT [] es0 ltac:(constructor)) as [Hd Hf]. rewrite (put_step _ _ _ _ _ _ Hd Hin).
    destruct (IH e1 (tree_names_below _ _ _ HT Hin) (ex_intro _ es (conj Hl' (conj Hc Hno)))) as [I1 I2]. split.
    + intros loc es' H. apply (lies_dset_one _ _ _ _ _ Hd) in H as [[-> [= ->]]|[(loc' & -> & H)|(n & loc' & e0 & -> & Hn & Hin' & H)]].
      * split; [apply dset_ok, Hd|]. apply Forall_forall. intros k Hk. rewrite Forall_forall in Hf. apply dset_elem in Hk as [->|Hk]; [|exact (Hf k Hk)].
        apply Hf, elem_of_list_fmap. exists (a, e1). auto.
      * exact (I1 _ _ H).
      * apply (HT (n :: loc')). econstructor; eassumption.
    + intros loc. split.
      * intros [es' H]. apply (lies_dset_one _ _ _ _ _ Hd) in H as [[-> _]|[(loc' & -> & H)|(n & loc' & e0 & -> & Hn & Hin' & H)]].
        -- eexists. constructor.
        -- destruct (proj1 (I2 loc') (ex_intro _ es' H)) as [es1 H1]. exists es1. econstructor; eassumption.
        -- exists es'. econstructor; eassumption.
      * intros [es' H]. inversion H as [|? n e2 loc' ? Hin' Hl2]; subst; [eexists; constructor|]. destruct (decide (n = a)) as [->|Hn].
        -- assert (e2 = e1) as -> by (pose proof (proj2 (dget_Some _ _ _ Hd) Hin); pose proof (proj2 (dget_Some _ _ _ Hd) Hin'); congruence).
           destruct (proj2 (I2 loc') (ex_intro _ es' Hl2)) as [es1 H1]. exists es1. apply (lies_dset_one _ _ _ _ _ Hd). right. left. eauto.
        -- exists es'. apply (lies_dset_one _ _ _ _ _ Hd). right. right. eauto 8.
Qed.

Lemma put_changes fs l c t : fs_ok fs -> slot fs l c -> fs_ok (put fs (l ++ [c]) t) /\ only_changed fs (put fs (l ++ [c]) t) (l ++ [c]) t.
Proof.
  intros HO HS. pose proof (proj2 HO) as HT. assert (Hc : plain_name c) by (destruct HS as (? & _ & H & _); exact H).
  destruct (put_dirs l c t Hc fs HT HS) as [D1 D2]. pose proof (put_files l c t Hc fs HT HS) as F. split; [split|].
  - destruct (proj2 (D2 [])) as [es He]; [destruct (proj1 HO) as [es ->]; exists es; constructor|]. inversion He; subst. eauto.
  - exact D1.
  - split; [apply F; auto|]. split; [|exact D2]. intros loc' u Hne. rewrite F. split; [intros [[? _]|[_ H]]; [contradiction|exact H]|auto].
Qed.

(** ** Where a path leads *)

Section Ok.
Context (fs : entry) (HO : fs_ok fs).

Lemma walk_vacant cs : forall loc e loc' c, lies fs loc e -> walk fs loc cs = Vacant loc' c ->
  exists cs' es, cs = cs' ++ [c] /\ leads fs loc cs' loc' /\ lies fs loc' (Dir es) /\ c ∉ es.*1 /\ c <> ""%string /\ c <> "."%string /\ c <> ".."%string.
Proof.
  induction cs as [|d cs IH]; intros loc e loc' c He H; cbn [walk] in H; [discriminate|]. rewrite (proj2 (entry_at_lies fs HO loc e) He) in H.
  destruct e as [t|es]; [discriminate|].
  assert (HS : d = ""%string \/ d = "."%string -> walk fs loc cs = Vacant loc' c -> exists cs' es, d :: cs = cs' ++ [c] /\ leads fs loc cs' loc' /\ lies fs loc' (Dir es) /\
    c ∉ es.*1 /\ c <> ""%string /\ c <> "."%string /\ c <> ".."%string).
  { intros Hd H'. destruct (IH _ _ _ _ He H') as (cs' & es' & -> & Hl & R). exists (d :: cs'), es'. split; [reflexivity|]. split; [econstructor; eassumption|exact R]. }
  revert H. case_bool_decide as D1; [apply HS; auto|]. case_bool_decide as D2; [apply HS; auto|]. clear HS. cbn [orb]. case_bool_decide as D3.
  - intros H. subst d. destruct (lies_removelast fs HO _ _ He) as [es' He']. destruct (IH _ _ _ _ He' H) as (cs' & es1 & -> & Hl & R).
    exists (".."%string :: cs'), es1. split; [reflexivity|]. split; [econstructor; eassumption|exact R].
  - destruct (dget es d) as [e1|] eqn:E1.
    + intros H. destruct (dir_ok fs HO _ _ He) as [Hk _].
      assert (Hc : lies fs (loc ++ [d]) e1) by (apply lies_app; exists (Dir es); split; [exact He|apply lies_one, (dget_Some _ _ _ Hk), E1]).
      destruct (IH _ _ _ _ Hc H) as (cs' & es1 & -> & Hl & R). exists (d :: cs'), es1. split; [reflexivity|]. split; [econstructor; eassumption|exact R].
    + destruct cs as [|x cs]; [|discriminate]. intros [= <- <-]. exists [], es. split; [reflexivity|]. split; [constructor|]. split; [exact He|].
      split; [apply dget_None, E1|auto].
Qed.

Lemma resolve_vacant p loc c : resolve fs p = Vacant loc c <->
  exists cs es, pieces p (cs ++ [c]) /\ leads fs [] cs loc /\ lies fs loc (Dir es) /\ plain_name c /\ c ∉ es.*1.
Proof.
  destruct (lies_root fs HO) as [res Hr]. unfold resolve. split.
  - case_bool_decide as D; [discriminate|]. intros H. destruct (walk_vacant _ _ _ _ _ Hr H) as (cs & es & Hp & Hl & Hd & Hc & N1 & N2 & N3).
    exists cs, es. pose proof (parts_pieces p) as P. rewrite Hp in P. split; [exact P|]. split; [exact Hl|]. split; [exact Hd|]. split; [|exact Hc].
    destruct P as (_ & P & _). apply Forall_app in P as [_ P]. apply Forall_inv in P. repeat split; assumption.
  - intros (cs & es & Hp & Hl & Hd & (N1 & N2 & N3 & N4) & Hc). rewrite bool_decide_eq_false_2.
    + apply pieces_parts in Hp. rewrite Hp, (walk_app fs HO cs [c] [] loc _ Hr Hl). cbn [walk]. rewrite (proj2 (entry_at_lies fs HO _ _) Hd), !bool_decide_eq_false_2 by assumption.
      cbn [orb]. rewrite (proj2 (dget_None _ _) Hc). reflexivity.
    + intros ->. apply pieces_parts in Hp. change (parts "") with [""%string] in Hp. destruct cs as [|x [|? ?]]; [injection Hp as <-; contradiction| |]; discriminate.
Qed.

Lemma file_slot loc t : lies fs loc (File t) -> exists l c, loc = l ++ [c] /\ slot fs l c.
Proof.
  destruct loc as [|c l _] using rev_ind.
  - intros H. inversion H as [e E|]; subst. destruct (proj1 HO) as [es Hes]. discriminate.
  - intros H. exists l, c. split; [reflexivity|]. pose proof (lies_parent fs HO _ _ _ H) as (es & Hes & Hin & Hc). exists es. split; [exact Hes|]. split; [exact Hc|].
    intros sub Hs. destruct (dir_ok fs HO _ _ Hes) as [Hk _]. apply (dget_Some _ _ _ Hk) in Hin, Hs. congruence.
Qed.

(** The path that is opened, and where it is. *)
Lemma open_write_target p loc : (forall es, ~ folder_at fs p es) -> open_write fs p = Fine loc ->
  target fs p loc /\ exists l c, loc = l ++ [c] /\ slot fs l c.
Proof.
  intros Hno H. unfold open_write in H. destruct (resolve fs p) as [loc'|loc' c|] eqn:E; [| |discriminate].
  - apply (resolve_found fs HO) in E. destruct (entry_at fs loc') as [[t|]|] eqn:E2; try discriminate. injection H as <-. apply (entry_at_lies fs HO) in E2.
    split; [eapply target_file; eassumption|]. eapply file_slot, E2.
  - injection H as <-. apply resolve_vacant in E as (cs & es & Hp & Hl & Hd & Hc & Hn). split; [eapply target_new; eassumption|].
    exists loc', c. split; [reflexivity|]. exists es. split; [exact Hd|]. split; [exact Hc|]. intros sub Hs. apply Hn, elem_of_list_fmap. exists (c, Dir sub). auto.
Qed.

Lemma output_name : plain_name "output.json".
Proof. repeat split; try discriminate. intros H. vm_compute in H. repeat (apply elem_of_cons in H as [H|H]; [discriminate|]). apply elem_of_nil in H. exact H. Qed.

Definition opened (p : string) : string := if isdir fs p then in_folder p "output.json" else p.

Lemma write_cases p t stop : (exists loc l c, target fs p loc /\ loc = l ++ [c] /\ slot fs l c /\
    write_json fs p t stop = (put fs loc (match stop with Some n => take n t | None => t end), match stop with Some _ => Fails Interrupted | None => Fine tt end) /\
    open_write fs (opened p) = Fine loc) \/
  (exists e, write_json fs p t stop = (fs, Fails (OSFault e)) /\ open_write fs (opened p) = Fails (OSFault e)).
Proof.
  unfold write_json, opened. rewrite join_in_folder by apply output_name. destruct (isdir fs p) eqn:Ed.
  - apply (isdir_iff fs HO) in Ed as (es & loc & Hp & Hd). pose proof (resolve_in fs HO p loc es "output.json" Hp Hd output_name) as HR.
    destruct (dir_ok fs HO _ _ Hd) as [Hk _].
    assert (HS : (forall sub, ("output.json"%string, Dir sub) ∉ es) -> target fs p (loc ++ ["output.json"%string]) /\ slot fs loc "output.json").
    { intros Hno. split; [|exists es; split; [exact Hd|]; split; [apply output_name|exact Hno]]. eapply target_folder; [exact Hp|exact Hd|]. intros sub Hs.
      apply (lies_parent fs HO) in Hs as (es' & Hes' & Hin & _). pose proof (lies_unique fs HO _ _ _ Hd Hes') as [= <-]. exact (Hno _ Hin). }
    unfold open_write. rewrite HR. destruct (dget es "output.json") as [e|] eqn:Eo.
    + assert (Hl : lies fs (loc ++ ["output.json"%string]) e) by (apply lies_app; exists (Dir es); split; [exact Hd|apply lies_one, (dget_Some _ _ _ Hk), Eo]).
      rewrite (proj2 (entry_at_lies fs HO _ _) Hl). destruct e as [u|sub]; [left|right; eauto].
      destruct HS as [H1 H2]; [intros sub Hs; apply (dget_Some _ _ _ Hk) in Hs; congruence|].
      exists (loc ++ ["output.json"%string]), loc, "output.json"%string. split; [exact H1|]. split; [reflexivity|]. split; [exact H2|]. destruct stop; auto.
    + left. destruct HS as [H1 H2]; [intros sub Hs; apply (dget_Some _ _ _ Hk) in Hs; congruence|].
      exists (loc ++ ["output.json"%string]), loc, "output.json"%string. split; [exact H1|]. split; [reflexivity|]. split; [exact H2|]. destruct stop; auto.
  - assert (Hno : forall es, ~ folder_at fs p es) by (intros es H; rewrite (proj2 (isdir_iff fs HO p)) in Ed by eauto; discriminate).
    destruct (open_write fs p) as [loc|f] eqn:E.
    + destruct (open_write_target p loc Hno E) as (H1 & l & c & H2 & H3). left. exists loc, l, c. split; [exact H1|]. split; [exact H2|]. split; [exact H3|]. destruct stop; auto.
    + right. unfold open_write in E. destruct (resolve fs p) as [loc'|loc' c|] eqn:E2; [|discriminate|].
      * destruct (entry_at fs loc') as [[?|?]|]; try discriminate; injection E as <-; eauto.
      * injection E as <-. eauto.
Qed.

Lemma target_open p loc : target fs p loc -> open_write fs (opened p) = Fine loc.
Proof.
  unfold opened. intros H. inversion H as [l es Hp Hd Hno|l t Hp Hf|l es cs c Hp Hl Hd Hc Hn]; subst.
  - rewrite (proj2 (isdir_iff fs HO p)) by (exists es, l; auto). unfold open_write. rewrite (resolve_in fs HO p l es _ Hp Hd output_name).
    destruct (dir_ok fs HO _ _ Hd) as [Hk _]. destruct (dget es "output.json") as [e|] eqn:Eo; [|reflexivity].
    assert (Hl : lies fs (l ++ ["output.json"%string]) e) by (apply lies_app; exists (Dir es); split; [exact Hd|apply lies_one, (dget_Some _ _ _ Hk), Eo]).
    rewrite (proj2 (entry_at_lies fs HO _ _) Hl). destruct e as [u|sub]; [reflexivity|]. exfalso. exact (Hno _ Hl).
  - assert (isdir fs p = false) as ->.
    { apply not_true_iff_false. rewrite (isdir_iff fs HO). intros (es & l' & Hp' & Hd). rewrite (at_path_unique fs HO _ _ _ Hp Hp') in Hf. pose proof (lies_unique fs HO _ _ _ Hf Hd). discriminate. }
    unfold open_write. rewrite (proj2 (resolve_found fs HO p loc) Hp), (proj2 (entry_at_lies fs HO _ _) Hf). reflexivity.
  - assert (HR : resolve fs p = Vacant l c) by (apply resolve_vacant; eauto 10).
    assert (isdir fs p = false) as -> by (unfold isdir; rewrite HR; reflexivity). unfold open_write. rewrite HR. reflexivity.
Qed.

Theorem writes p t stop : let r := write_json fs p t stop in
  (forall loc, target fs p loc -> fs_ok (fst r) /\ only_changed fs (fst r) loc (match stop with Some n => take n t | None => t end) /\
     snd r = match stop with Some _ => Fails Interrupted | None => Fine tt end) /\
  ((exists loc, target fs p loc) \/ (fst r = fs /\ exists e, snd r = Fails (OSFault e))).
Proof.
  cbn zeta. destruct (write_cases p t stop) as [(loc & l & c & Ht & -> & Hs & -> & Ho)|(e & -> & Ho)]; cbn [fst snd].
  - split; [|eauto]. intros loc' Ht'. pose proof (target_open _ _ Ht') as Ho'. rewrite Ho in Ho'. injection Ho' as <-.
    destruct (put_changes fs l c (match stop with Some n => take n t | None => t end) HO Hs). auto.
  - split; [|right; eauto]. intros loc' Ht'. pose proof (target_open _ _ Ht') as Ho'. rewrite Ho in Ho'. discriminate.
Qed.
End Ok.
