(** C54: which exception a document raises that is no object, or whose items are laid out
    otherwise than expected. *)
From Verif Require Export SpecFaults JsonProofs.
Local Open Scope string_scope.
Local Open Scope Z_scope.

Lemma prefix_iff s t : String.prefix s t = true <-> exists r, t = s ++ r.
Proof.
  revert t. induction s as [|a s IH]; intros t; cbn.
  - split; [|destruct t; reflexivity]. intros _. exists t. reflexivity.
  - destruct t as [|b t]; cbn.
    + split; [discriminate|]. intros [r H]. discriminate.
    + destruct (Ascii.ascii_dec a b) as [->|N].
      * rewrite IH. split; intros [r H]; exists r; [rewrite H; reflexivity|injection H as H; exact H].
      * split; [discriminate|]. intros [r H]. injection H as -> H. destruct N; reflexivity.
Qed.

Lemma contains_iff s t : str_contains s t = true <-> exists a b, t = a ++ s ++ b.
Proof.
  induction t as [|c t IH]; cbn [str_contains]; rewrite orb_true_iff, prefix_iff.
  - split; [intros [[r H]|]; [exists "", r; exact H|discriminate]|]. intros (a & b & H). left. destruct a; [exists b; exact H|discriminate].
  - rewrite IH. split.
    + intros [[r H]|(a & b & H)]; [exists "", r; exact H|]. exists (String c a), b. rewrite H. reflexivity.
    + intros (a & b & H). destruct a as [|x a]; [left; exists b; exact H|]. right. injection H as _ H. exists a, b. exact H.
Qed.

Lemma not_object j : (forall l, j <> JObj l) ->
  input_json (Some j) = Err DataIOError /\ ((exists l, j = JArr l /\ JStr "segmentation_type" ∉ l) \/ (exists s, j = JStr s /\ forall a b, s <> a ++ "segmentation_type" ++ b)) \/
  input_json (Some j) = Err TypeError /\ (forall l, j = JArr l -> JStr "segmentation_type" ∈ l) /\ (forall s, j = JStr s -> exists a b, s = a ++ "segmentation_type" ++ b).
Proof.
  intros H. destruct j as [| | | |s|l|l]; cbn [input_json]; try (right; repeat split; intros ? K; discriminate K).
  - change f_type with "segmentation_type". destruct (str_contains _ s) eqn:Q.
    + apply contains_iff in Q. right. split; [reflexivity|]. split; [discriminate|]. intros ? [= <-]. exact Q.
    + left. split; [reflexivity|]. right. exists s. split; [reflexivity|]. intros a b K. apply not_true_iff_false in Q. apply Q, contains_iff. eauto.
  - destruct (existsb _ l) eqn:Q.
    + apply existsb_exists in Q. destruct Q as (x & I & K). apply json_is_str_true in K. subst x. right. split; [reflexivity|]. split; [|discriminate].
      intros ? [= <-]. apply elem_of_list_In. exact I.
    + left. split; [reflexivity|]. left. exists l. split; [reflexivity|]. intros K. apply not_true_iff_false in Q. apply Q, existsb_exists.
      exists (JStr "segmentation_type"). split; [apply elem_of_list_In; exact K|]. apply json_is_str_true. reflexivity.
  - destruct (H l); reflexivity.
Qed.

Section Folds.
Context {S X : Type} (f : S -> X -> res S).

Lemma foldM_app l l' s : foldM f (l ++ l') s = let* s' := foldM f l s in foldM f l' s'.
Proof. revert s. induction l as [|x l IH]; intros s; cbn; [reflexivity|]. destruct (f s x); cbn; [apply IH|reflexivity]. Qed.

Lemma foldM_stops l s e : foldM f l s = Err e <-> exists pre x post s', l = (pre ++ x :: post)%list /\ foldM f pre s = Ok s' /\ f s' x = Err e.
Proof.
  split.
  - revert s. induction l as [|x l IH]; intros s H; [discriminate|]. cbn in H. destruct (f s x) as [s'|e'] eqn:Q; cbn in H.
    + destruct (IH _ H) as (p & y & q & t & -> & K & L). exists (x :: p), y, q, t. split; [reflexivity|]. split; [cbn; rewrite Q; exact K|exact L].
    + exists [], x, l, s. split; [reflexivity|]. split; [reflexivity|congruence].
  - intros (p & x & q & t & -> & K & L). rewrite foldM_app, K. cbn. rewrite L. reflexivity.
Qed.
End Folds.

Lemma codings_total (cs : list (string * json)) acc : (forall c v, (c, v) ∈ cs -> exists m, yields v m) -> exists r, foldM load_coding cs acc = Ok r.
Proof.
  revert acc. induction cs as [|[c v] cs IH]; intros acc H; [eexists; reflexivity|]. cbn. unfold load_coding at 1. cbn [fst snd].
  destruct (H c v) as [m M]; [left|]. apply json_tuple_yields in M. rewrite M. cbn. apply IH. intros c' v' K. apply (H c'). right. exact K.
Qed.

Lemma codings_stop (cs : list (string * json)) acc e : foldM load_coding cs acc = Err e <-> e = TypeError /\ exists c v, (c, v) ∈ cs /\ forall m, ~ yields v m.
Proof.
  split.
  - intros H. apply foldM_stops in H. destruct H as (p & [c v] & q & s & -> & _ & H). unfold load_coding in H. cbn [fst snd] in H.
    destruct (json_tuple v) as [m|e'] eqn:Q; [discriminate|]. cbn in H. injection H as ->. split.
    + destruct v; cbn in Q; congruence.
    + exists c, v. split; [set_solver|]. intros m M. apply json_tuple_yields in M. congruence.
  - intros (-> & c & v & I & N). destruct (foldM load_coding cs acc) as [r|e] eqn:Q.
    + exfalso. apply elem_of_list_split in I. destruct I as (p & q & ->). rewrite foldM_app in Q. destruct (foldM _ p acc); [|discriminate]. cbn in Q. unfold load_coding at 1 in Q.
      cbn [fst snd] in Q. destruct (json_tuple v) as [m|] eqn:M; [|discriminate]. apply json_tuple_yields in M. exact (N m M).
    + f_equal. apply foldM_stops in Q. destruct Q as (p & [c' v'] & q & s & -> & _ & H). unfold load_coding in H. cbn [fst snd] in H.
      destruct (json_tuple v') as [m|e'] eqn:Q; [discriminate|]. cbn in H. destruct v'; cbn in Q; congruence.
Qed.

Lemma item_fits acc i it : (exists r, load_item acc (i, it) = Ok r) <-> fits it.
Proof.
  unfold load_item. cbn [fst snd]. split.
  - intros [r H]. destruct it as [| | | |s|l|l]; try discriminate. cbn in H. exists l. split; [reflexivity|]. intros c v I.
    destruct (foldM load_coding l []) as [d|e] eqn:Q; [|discriminate]. destruct (json_tuple v) as [m|e] eqn:M; [exists m; apply json_tuple_yields; exact M|].
    exfalso. assert (foldM load_coding l [] = Err TypeError) as K; [|congruence]. apply codings_stop. split; [reflexivity|]. exists c, v. split; [exact I|].
    intros m Y. apply json_tuple_yields in Y. congruence.
  - intros (cs & -> & H). cbn. destruct (codings_total cs [] H) as [r ->]. cbn. eauto.
Qed.

Lemma items_fit pre acc : (exists r, foldM load_item pre acc = Ok r) <-> Forall (fun x => fits (snd x)) pre.
Proof.
  revert acc. induction pre as [|[i it] pre IH]; intros acc; cbn.
  - split; [constructor|]. intros _. eauto.
  - rewrite Forall_cons. rewrite <- (item_fits acc i it). cbn [snd]. destruct (load_item acc (i, it)) as [a|e]; cbn.
    + rewrite IH. split; [intros H; split; [eauto|exact H]|tauto].
    + split; [intros [r H]; discriminate|]. intros [[r H] _]. discriminate.
Qed.

Lemma item_stops acc i it e : load_item acc (i, it) = Err e <->
  (forall cs, it <> JObj cs) /\ e = AttributeError \/ (exists cs c v, it = JObj cs /\ (c, v) ∈ cs /\ (forall m, ~ yields v m) /\ e = TypeError).
Proof.
  unfold load_item. cbn [fst snd]. destruct it as [| | | |s|l|l]; cbn [json_obj bind];
    try (split; [intros H; left; split; [intros cs K; discriminate K|congruence]|intros [[_ ->]|(cs & c & v & K & _)]; [reflexivity|discriminate K]]).
  split.
  - intros H. right. destruct (foldM load_coding l []) as [d|e'] eqn:Q; [discriminate|]. cbn in H. injection H as ->. apply codings_stop in Q. destruct Q as (-> & c & v & I & N).
    exists l, c, v. auto.
  - intros [[N _]|(cs & c & v & K & I & N & ->)]; [destruct (N l); reflexivity|]. injection K as <-.
    assert (foldM load_coding l [] = Err TypeError) as ->; [|reflexivity]. apply codings_stop. split; [reflexivity|]. eauto.
Qed.

Lemma first_fault l items e : json_ok (JObj l) -> member (JObj l) "segmentation_type" (JStr "linear") -> member (JObj l) "items" items ->
  input_json (Some (JObj l)) = Err e <->
  (forall its, items <> JObj its) /\ e = AttributeError \/
  exists pre i it post, items = JObj (pre ++ (i, it) :: post)%list /\ Forall (fun x => fits (snd x)) pre /\
    ((forall cs, it <> JObj cs) /\ e = AttributeError \/ (exists cs c v, it = JObj cs /\ (c, v) ∈ cs /\ (forall m, ~ yields v m) /\ e = TypeError)).
Proof.
  intros H0 H1 H2. rewrite (input_loaded l H0 H1 items H2). destruct items as [| | | |s|its|its]; cbn [json_obj bind];
    try (split; [intros H; left; split; [intros cs K; discriminate K|congruence]|intros [[_ ->]|(pp & ii & jt & qq & K & _)]; [reflexivity|discriminate K]]).
  transitivity (foldM load_item its [] = Err e).
  { destruct (foldM load_item its []); cbn; split; congruence. }
  rewrite foldM_stops. split.
  - intros (p & [i it] & q & s & -> & K & L). right. exists p, i, it, q. split; [reflexivity|]. split; [apply (items_fit p []); eauto|]. apply (item_stops s i it e). exact L.
  - intros [[N _]|(p & i & it & q & K & F & L)]; [destruct (N its); reflexivity|]. injection K as ->. apply (items_fit p []) in F. destruct F as [s F].
    exists p, (i, it), q, s. split; [reflexivity|]. split; [exact F|]. apply item_stops. exact L.
Qed.
