(** Property C56: two files that code one item by one coder are never both loaded. *)
From Verif Require Import FolderProofs.
Open Scope Z_scope.

Section Folders.
Context {C : Type} (t : filetype).
Notation found := (list string * string * res (dataset C))%type.

Lemma loads_no_clash (fs : list found) : (forall p s o, (p, s, Ok o) ∈ fs -> items_ok (ds_items o)) ->
  forall d0 r, foldl load1 (d0, None) fs = (r, None) ->
  (forall p s o i j c, (p, s, Ok o) ∈ fs -> filed (Some p) i j -> is_Some (coding_at (ds_items o) i c) -> ~ is_Some (coding_at (ds_items d0) j c)) /\
  (forall p1 s1 o1 i1 p2 s2 o2 i2 j c, (p1, s1, Ok o1) ∈ fs -> (p2, s2, Ok o2) ∈ fs -> (p1, s1) <> (p2, s2) -> filed (Some p1) i1 j -> filed (Some p2) i2 j ->
     is_Some (coding_at (ds_items o1) i1 c) -> ~ is_Some (coding_at (ds_items o2) i2 c)).
Proof.
  induction fs as [|[[p s] l] fs IH]; intros Hok d0 r H; [split; intros *; intros Hin; apply elem_of_nil in Hin; contradiction|]. cbn [foldl] in H.
  unfold load1 at 2 in H. cbn [load_file fst snd] in H. destruct l as [o|e0]; [|rewrite load1_stuck in H; discriminate].
  assert (Hoo : items_ok (ds_items o)) by (apply (Hok p s), elem_of_cons; auto).
  destruct (iadd d0 o (Some p)) as [d1 [e1|]] eqn:E1; [rewrite load1_stuck in H; discriminate|].
  assert (Hno : ~ clash (Some p) (ds_items d0) (ds_items o)) by (apply (iadd_success (Some p) d0 o Hoo); rewrite E1; reflexivity).
  pose proof (mr_codings _ _ _ _ (iadd_result _ _ _ _ Hoo E1)) as M.
  destruct (IH ltac:(intros p' s' o' Hin; apply (Hok p' s'), elem_of_cons; auto) d1 r H) as [I1 I2].
  assert (Hfirst : forall p2 s2 o2 i i2 j c, (p2, s2, Ok o2) ∈ fs -> filed (Some p) i j -> filed (Some p2) i2 j -> is_Some (coding_at (ds_items o) i c) -> ~ is_Some (coding_at (ds_items o2) i2 c)).
  { intros p2 s2 o2 i i2 j c Hin F F2 [v Hv] K. apply (I1 p2 s2 o2 i2 j c Hin F2 K). exists v. apply M. right. exists i. split; [apply prefixed_filed, F|exact Hv]. }
  split.
  - intros p' s' o' i j c Hin F K [v Hv]. apply elem_of_cons in Hin as [[= -> -> ->]|Hin]; [apply Hno; exists i, j, c; eauto|].
    apply (I1 p' s' o' i j c Hin F K). exists v. apply M. auto.
  - intros p1 s1 o1 i1 p2 s2 o2 i2 j c Hin1 Hin2 Hne F1 F2 K1 K2.
    apply elem_of_cons in Hin1 as [[= -> -> ->]|Hin1]; apply elem_of_cons in Hin2 as [[= -> -> ->]|Hin2]; [contradiction| | |].
    + exact (Hfirst p2 s2 o2 i1 i2 j c Hin2 F1 F2 K1 K2).
    + exact (Hfirst p1 s1 o1 i2 i1 j c Hin1 F2 F1 K2 K1).
    + exact (I2 p1 s1 o1 i1 p2 s2 o2 i2 j c Hin1 Hin2 Hne F1 F2 K1 K2).
Qed.

Lemma dir_at_unique (entries : list (string * node C)) path sub sub' : tree_ok entries -> dir_at entries path sub -> dir_at entries path sub' -> sub = sub'.
Proof.
  intros Ht H. revert Ht sub'. induction H as [entries|entries name sub0 path found Hin _ IH]; intros Ht sub' H'; inversion H' as [|? ? sub1 ? ? Hin' H1]; subst; [reflexivity|].
  assert (NDir sub0 = NDir sub1) as [= <-].
  { assert (Hn : dict_ok entries) by (apply (Ht [] entries); constructor). apply (dget_Some _ _ _ Hn) in Hin, Hin'. congruence. }
  apply IH; [|exact H1]. intros q s D. apply (Ht (name :: q)). econstructor; eassumption.
Qed.

Lemma kept_stem (sub : list (string * node C)) n1 l1 n2 l2 : kept t sub n1 l1 -> kept t sub n2 l2 -> stem n1 = stem n2 -> n1 = n2.
Proof.
  intros (pre1 & post1 & -> & A1 & H1) (pre2 & post2 & E & A2 & H2) Es.
  assert (Hlt : forall (pre pre' : list (string * node C)) x x' post post', pre ++ x :: post = pre' ++ x' :: post' -> (x = x' \/ x' ∈ post) \/ x ∈ post').
  { induction pre as [|y pre IH]; intros [|y' pre'] x x' post post' E'; cbn [app] in E'; injection E' as -> E'.
    - auto.
    - rewrite E'. left. right. apply elem_of_app. right. left.
    - rewrite <- E'. right. apply elem_of_app. right. left.
    - eapply IH, E'. }
  destruct (Hlt _ _ _ _ _ _ E) as [[[= -> _]|K]|K]; [reflexivity| |].
  - exfalso. exact (H1 _ _ K A2 (eq_sym Es)).
  - exfalso. exact (H2 _ _ K A1 Es).
Qed.

Lemma nested_no_clash (entries : list (string * node C)) : tree_ok entries -> loads_ok entries -> forall r, load_nested_folders t entries = Ok r ->
  forall p1 n1 o1 i1 p2 n2 o2 i2 j c, taken t entries p1 n1 (Ok o1) -> taken t entries p2 n2 (Ok o2) -> (p1, n1) <> (p2, n2) -> filed (Some p1) i1 j -> filed (Some p2) i2 j ->
  is_Some (coding_at (ds_items o1) i1 c) -> ~ is_Some (coding_at (ds_items o2) i2 c).
Proof.
  intros Ht Hl r H p1 n1 o1 i1 p2 n2 o2 i2 j c (sub1 & D1 & K1) (sub2 & D2 & K2) Hne F1 F2. unfold load_nested_folders in H. rewrite load_flat in H.
  destruct (foldl load1 (empty_dataset, None) (flat t [] (NDir entries))) as [r' [e|]] eqn:E; [discriminate|].
  apply (proj2 (loads_no_clash _ (flat_loads_ok t entries Hl) _ _ E) p1 (stem n1) o1 i1 p2 (stem n2) o2 i2 j c); [apply flat_elem; eauto|apply flat_elem; eauto| |exact F1|exact F2].
  intros [= -> Es]. rewrite (dir_at_unique _ _ _ _ Ht D1 D2) in K1. apply Hne. rewrite (kept_stem _ _ _ _ _ K1 K2 Es). reflexivity.
Qed.
End Folders.
