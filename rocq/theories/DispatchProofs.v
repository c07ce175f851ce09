(** Proofs for C42-C44. *)
From stdpp Require Import gmap.
From Verif Require Import DictProofs SpecDispatch Dispatch.
Open Scope Z_scope.

(** * Loops *)

Lemma foldM_app {S X} (f : S -> X -> res S) l1 l2 s :
  foldM f (l1 ++ l2) s = let* s' := foldM f l1 s in foldM f l2 s'.
Proof. revert s. induction l1 as [|x l1 IH]; intros s; cbn [foldM app bind]; [reflexivity|]. destruct (f s x); cbn [bind]; auto. Qed.

Lemma foldM_bind {S X Y} (f : S -> Y -> res S) (g : X -> list Y) (h : S -> X -> res S) l s :
  (forall x s, x ∈ l -> h s x = foldM f (g x) s) -> foldM h l s = foldM f (l ≫= g) s.
Proof.
  revert s. induction l as [|x l IH]; intros s H; [reflexivity|]. cbn [foldM mbind list_bind]. rewrite foldM_app.
  rewrite H by apply elem_of_list_here. destruct (foldM f (g x) s); cbn [bind]; [|reflexivity].
  apply IH. intros y s' Hy. apply H. apply elem_of_list_further, Hy.
Qed.

Lemma mapM_app {X Y} (f : X -> res Y) l1 l2 :
  mapM f (l1 ++ l2) = let* a := mapM f l1 in let* b := mapM f l2 in Ok (a ++ b).
Proof.
  induction l1 as [|x l1 IH]; cbn [mapM app bind]; [destruct (mapM f l2); reflexivity|].
  destruct (f x); cbn [bind]; [|reflexivity]. rewrite IH. destruct (mapM f l1); cbn [bind]; [|reflexivity].
  destruct (mapM f l2); reflexivity.
Qed.

Lemma mapM_Ok {X Y} (f : X -> res Y) l vs : mapM f l = Ok vs <-> Forall2 (fun x v => f x = Ok v) l vs.
Proof.
  revert vs. induction l as [|x l IH]; intros vs; cbn [mapM].
  - split; [intros H; injection H as <-; constructor|]. intros H; inversion H; reflexivity.
  - split.
    + destruct (f x) as [v|] eqn:E; cbn [bind]; [|discriminate]. destruct (mapM f l) as [ws|]; cbn [bind]; [|discriminate].
      intros H. injection H as <-. constructor; [exact E|]. apply IH. reflexivity.
    + intros H. inversion H as [|? v ? ws H1 H2]; subst. rewrite H1. cbn [bind]. apply IH in H2. rewrite H2. reflexivity.
Qed.

Lemma mapM_total {X Y} (f : X -> res Y) l : (forall x, x ∈ l -> exists v, f x = Ok v) -> exists vs, mapM f l = Ok vs.
Proof.
  induction l as [|x l IH]; intros H; cbn [mapM]; [eauto|].
  destruct (H x (elem_of_list_here _ _)) as [v ->]. cbn [bind].
  destruct IH as [vs ->]; [|cbn [bind]; eauto]. intros y Hy. apply H, elem_of_list_further, Hy.
Qed.

Lemma mapM_Err {X Y} (f : X -> res Y) l e : mapM f l = Err e -> exists x, x ∈ l /\ f x = Err e.
Proof.
  induction l as [|x l IH]; cbn [mapM]; [discriminate|]. destruct (f x) as [v|e'] eqn:E; cbn [bind].
  - destruct (mapM f l) as [vs|e']; cbn [bind]; [discriminate|]. intros H. injection H as ->.
    destruct (IH eq_refl) as (y & Hy & K). exists y. split; [apply elem_of_list_further, Hy|exact K].
  - intros H. injection H as ->. exists x. split; [apply elem_of_list_here|exact E].
Qed.

(** * Pairs *)

Lemma pairs2_fmap {A B} (f : A -> B) l : pairs2 (f <$> l) = (fun p => (f (fst p), f (snd p))) <$> pairs2 l.
Proof.
  induction l as [|x l IH]; [reflexivity|]. cbn [pairs2 fmap list_fmap].
  rewrite fmap_app, IH. f_equal. rewrite <- !list_fmap_compose. reflexivity.
Qed.

Lemma slots_S n : slots (S n) = ((fun j => (0%nat, S j)) <$> seq 0 n) ++ ((fun p => (S (fst p), S (snd p))) <$> slots n).
Proof.
  unfold slots. cbn [seq mbind list_bind]. rewrite filter_app. f_equal.
  - cbn [fmap list_fmap]. rewrite filter_cons_False by (cbn; lia). rewrite <- fmap_S_seq, <- list_fmap_compose.

    induction (seq 0 n) as [|k l IH]; [reflexivity|]. cbn [fmap list_fmap]. rewrite filter_cons_True by (cbn; lia).
    f_equal. exact IH.
  - rewrite <- (fmap_S_seq 0 n) at 1.
    change (0%nat :: seq 1 n) with (seq 0 (S n)).
    assert (forall m, filter (fun p : nat * nat => (fst p < snd p)%nat) (i ← S <$> m; (fun j => (i, j)) <$> seq 0 (S n)) =
      (fun p : nat * nat => (S (fst p), S (snd p))) <$> filter (fun p => (fst p < snd p)%nat) (i ← m; (fun j => (i, j)) <$> seq 0 n)) as K; [|exact (K (seq 0 n))].
    induction m as [|i m IH]; [reflexivity|]. cbn [fmap list_fmap mbind list_bind]. rewrite !filter_app, fmap_app.
 rewrite IH. f_equal. clear IH.
    cbn [seq fmap list_fmap]. rewrite filter_cons_False by (cbn; lia). rewrite <- fmap_S_seq.

    rewrite <- list_fmap_compose. induction (seq 0 n) as [|k l IH]; [reflexivity|].
    cbn [fmap list_fmap]. rewrite !filter_cons. cbn [compose fst snd].
    destruct (decide (S i < S k)%nat); destruct (decide (i < k)%nat); try lia; cbn [fmap list_fmap]; [f_equal|]; exact IH.
Qed.

Lemma omap_fmap {A B C} (f : A -> B) (g : B -> option C) (l : list A) : omap g (f <$> l) = omap (fun x => g (f x)) l.
Proof. induction l as [|x l IH]; [reflexivity|]. cbn. destruct (g (f x)); [f_equal|]; exact IH. Qed.

Lemma omap_some {A B} (g : A -> option B) (h : A -> B) (l : list A) : (forall x, x ∈ l -> g x = Some (h x)) -> omap g l = h <$> l.
Proof.
  induction l as [|x l IH]; intros H; [reflexivity|]. cbn. rewrite H by apply elem_of_list_here. f_equal.
  apply IH. intros y Hy. apply H, elem_of_list_further, Hy.
Qed.

Lemma omap_seq {X Y} (f : X -> Y) (l : list X) : omap (fun j => f <$> l !! j) (seq 0 (length l)) = f <$> l.
Proof.
  induction l as [|x l IH]; [reflexivity|]. cbn [length seq]. cbn [omap list_omap lookup list_lookup fmap option_fmap option_map list_fmap].
  f_equal. rewrite <- fmap_S_seq. rewrite omap_fmap. exact IH.
Qed.

Lemma two_of_pairs2 {X} (l : list X) : two_of l = pairs2 l.
Proof.
  unfold two_of. induction l as [|x l IH]; [reflexivity|]. cbn [length pairs2]. rewrite slots_S.
  rewrite omap_app, !omap_fmap. f_equal.
  - rewrite <- (omap_seq (fun y => (x, y)) l). apply list_omap_ext. apply Forall_Forall2_diag, Forall_forall. intros j _.
    unfold at2. cbn. destruct (l !! j); reflexivity.
  - rewrite <- IH. reflexivity.
Qed.

Lemma elem_of_pairs2 {X} (l : list X) x y :
  (x, y) ∈ pairs2 l <-> exists i j, (i < j)%nat /\ l !! i = Some x /\ l !! j = Some y.
Proof.
  rewrite <- two_of_pairs2. unfold two_of, slots. rewrite elem_of_list_omap. split.
  - intros ([i j] & H1 & H2). apply elem_of_list_filter in H1 as [H1 _]. cbn in H1. exists i, j.
    unfold at2 in H2. cbn [fst snd] in H2. destruct (l !! i) eqn:?; [|discriminate]. destruct (l !! j) eqn:?; [|discriminate].
    injection H2 as -> ->. auto.
  - intros (i & j & H & Hi & Hj). exists (i, j). split.
    + apply elem_of_list_filter. split; [exact H|]. apply elem_of_list_bind. exists i.
      apply lookup_lt_Some in Hi, Hj. split; [|apply elem_of_seq; lia]. apply elem_of_list_fmap. exists j. split; [reflexivity|].
      apply elem_of_seq. lia.
    + unfold at2. cbn [fst snd]. rewrite Hi, Hj. reflexivity.
Qed.

Lemma pairs2_length {X} (l : list X) : (2 * length (pairs2 l) = length l * (length l - 1))%nat.
Proof.
  induction l as [|x l IH]; [reflexivity|]. cbn [pairs2 length]. rewrite app_length, fmap_length.
  replace (S (length l) - 1)%nat with (length l) by lia. destruct (length l) as [|n]; [cbn in *; lia|].
  replace (S n - 1)%nat with n in IH by lia. lia.
Qed.

Lemma pairs2_NoDup {X} (l : list X) : NoDup l -> NoDup (pairs2 l).
Proof.
  induction l as [|x l IH]; intros H; [constructor|]. apply NoDup_cons in H as [H1 H2]. cbn [pairs2].
  apply NoDup_app. split; [|split; [|apply IH, H2]].
  - apply NoDup_fmap_2; [|exact H2]. intros ? ? K. injection K as ->. reflexivity.
  - intros [a b] K K'. apply elem_of_list_fmap in K as (c & K & _). injection K as -> ->.
    apply elem_of_pairs2 in K' as (i & j & _ & K' & _). apply H1. eapply elem_of_list_lookup_2, K'.
Qed.

(** * The jobs of a computation *)

Definition job := (string * (seg * seg))%type.

(** What one pair of coders with their codings asks for. *)
Definition pair_jobs (permuted : bool) (label : string) (p : (string * seg) * (string * seg)) : list job :=
  let '((m, a), (n, b)) := p in
  (join_comma [label; m; n], (a, b)) :: if permuted then [(join_comma [label; n; m], (b, a))] else [].

Section Run.
Context {R : Type} (metric : seg -> seg -> res R).

Definition step (st : @pstate R) (j : job) : res (@pstate R) :=
  let* v := metric (fst (snd j)) (snd (snd j)) in
  Ok (dset (fst st) (fst j) v, snd st ++ [snd j]).

Definition eval (j : job) : res R := metric (fst (snd j)) (snd (snd j)).

Lemma run_jobs J st : foldM step J st =
  let* vs := mapM eval J in Ok (dupdate (fst st) (zip J.*1 vs), snd st ++ J.*2).
Proof.
  revert st. induction J as [|[k ab] J IH]; intros [d log]; cbn [foldM mapM bind fmap list_fmap fst snd].
  - cbn. rewrite app_nil_r. reflexivity.
  - unfold eval at 1, step at 1. cbn [fst snd]. destruct (metric _ _) as [v|]; cbn [bind]; [|reflexivity].
    rewrite IH. destruct (mapM eval J) as [vs|]; cbn [bind fst snd]; [|reflexivity]. cbn [zip_with dupdate foldl].
    rewrite <- app_assoc. reflexivity.
Qed.

Lemma pair_entry_jobs label permuted two cm cn m a n b st :
  dget cm m = Some a -> dget cn n = Some b ->
  pair_entry metric label permuted two cm cn st (m, n) =
  foldM step (pair_jobs (permuted && negb two) label ((m, a), (n, b))) st.
Proof.
  intros Ha Hb. unfold pair_entry, dlookup. rewrite Ha, Hb. cbn [bind pair_jobs foldM].
  unfold step at 1. cbn [fst snd]. destruct (metric a b) as [v|]; cbn [bind]; [|reflexivity].
  destruct (permuted && negb two); cbn [foldM bind]; [|reflexivity]. unfold step. cbn [fst snd].
  destruct (metric b a); reflexivity.
Qed.

Lemma label_run permuted two label cm cn (P : list ((string * seg) * (string * seg))) log d :
  (forall m a n b, ((m, a), (n, b)) ∈ P -> dget cm m = Some a /\ dget cn n = Some b) ->
  (let* (lp, log') := foldM (pair_entry metric label permuted two cm cn)
      ((fun p => (fst (fst p), fst (snd p))) <$> P) ([], log) in Ok (dupdate d lp, log')) =
  foldM step (P ≫= pair_jobs (permuted && negb two) label) (d, log).
Proof.
  intros H. replace (foldM _ _ ([], log)) with (foldM step (P ≫= pair_jobs (permuted && negb two) label) ([], log)).
  - rewrite !run_jobs. destruct (mapM eval _) as [vs|]; cbn [bind fst snd]; [|reflexivity]. rewrite dupdate_dupdate. reflexivity.
  - symmetry. generalize (@nil (string * R), log). revert H. induction P as [|[[m a] [n b]] P IH]; intros H st; [reflexivity|].
    cbn [fmap list_fmap foldM mbind list_bind]. rewrite foldM_app.
    destruct (H m a n b (elem_of_list_here _ _)) as [H1 H2]. cbn [fst snd].
    rewrite (pair_entry_jobs label permuted two cm cn m a n b st H1 H2).
    destruct (foldM step _ st); cbn [bind]; [|reflexivity]. apply IH. intros. apply H, elem_of_list_further. assumption.
Qed.

(** The pairs of an item: of one dataset, or of two. *)
Definition item_pairs (ma : dict (dict seg)) (mb : option (dict (dict seg))) (label : string) :
  list ((string * seg) * (string * seg)) :=
  match mb with
  | None => pairs2 (default [] (dget ma label))
  | Some mb => cross (default [] (dget ma label)) (default [] (dget mb label))
  end.

Definition flip_of (permuted : bool) (mb : option (dict (dict seg))) : bool :=
  permuted && match mb with Some _ => false | None => true end.

Definition all_jobs permuted ma mb (labels : list string) : list job :=
  labels ≫= (fun l => item_pairs ma mb l ≫= pair_jobs (flip_of permuted mb) l).

Lemma cross_fmap {A B} (f : A -> B) l m : cross (f <$> l) (f <$> m) = (fun p => (f (fst p), f (snd p))) <$> cross l m.
Proof.
  unfold cross. induction l as [|x l IH]; [reflexivity|]. cbn [fmap list_fmap mbind list_bind].
 rewrite IH, fmap_app. f_equal. rewrite <- !list_fmap_compose. reflexivity.
Qed.

Lemma elem_of_cross {A} (l m : list A) x y : (x, y) ∈ cross l m <-> x ∈ l /\ y ∈ m.
Proof.
  unfold cross. rewrite elem_of_list_bind. split.
  - intros (z & H & Hz). apply elem_of_list_fmap in H as (w & H & Hw). injection H as -> ->. auto.
  - intros [Hx Hy]. exists x. split; [|exact Hx]. apply elem_of_list_fmap. eauto.
Qed.

Lemma cross_nil {A} (l : list A) : cross l [] = [].
Proof. unfold cross. induction l; [reflexivity|assumption]. Qed.

Lemma cross_length {A} (l m : list A) : length (cross l m) = (length l * length m)%nat.
Proof. unfold cross. induction l as [|x l IH]; [reflexivity|]. cbn [mbind list_bind]. rewrite app_length, fmap_length, IH. reflexivity. Qed.

Definition both_ok (ma : dict (dict seg)) (mb : option (dict (dict seg))) : Prop :=
  items_ok ma /\ match mb with Some d => items_ok d | None => True end.

Definition labels_of (ma : dict (dict seg)) (mb : option (dict (dict seg))) : gset string :=
  list_to_set (ma.*1) ∪ match mb with Some d => list_to_set (d.*1) | None => ∅ end.

Lemma items_get {C} (items : dict (dict C)) l cs : items_ok items -> dget items l = Some cs -> dict_ok cs.
Proof. intros [H1 H2] K. apply (H2 l cs). apply dget_Some; assumption. Qed.

Lemma label_jobs permuted ma mb st label : both_ok ma mb -> label ∈ labels_of ma mb ->
  label_entries metric permuted ma mb st label =
  foldM step (item_pairs ma mb label ≫= pair_jobs (flip_of permuted mb) label) st.
Proof.
  intros [Hma Hmb] Hl. unfold label_entries, item_pairs, flip_of. destruct st as [d log]. destruct mb as [mb|]; cbn [fst snd].
  - destruct (dget ma label) as [cm|] eqn:Em; [|reflexivity]. destruct (dget mb label) as [cn|] eqn:En.
    + cbn [default]. rewrite cross_fmap. rewrite andb_false_r. rewrite label_run; [rewrite andb_false_r; reflexivity|].
      intros m a n b K. apply elem_of_cross in K as [K1 K2].
      split; apply dget_Some; try assumption; [exact (items_get ma label cm Hma Em)|exact (items_get mb label cn Hmb En)].
    + cbn [default]. rewrite cross_nil. reflexivity.
  - destruct (dget ma label) as [cm|] eqn:Em.
    + cbn [default]. rewrite pairs2_fmap, label_run; [rewrite !andb_true_r; reflexivity|].
      intros m a n b K. apply elem_of_pairs2 in K as (i & j & _ & K1 & K2).
      split; apply dget_Some; try exact (items_get ma label cm Hma Em); eapply elem_of_list_lookup_2; eassumption.
    + exfalso. unfold labels_of in Hl. rewrite union_empty_r_L in Hl. apply elem_of_list_to_set in Hl. apply dget_None in Em. contradiction.
Qed.

(** The whole computation: evaluate the jobs in order, then file them. *)
Lemma compute_jobs lord permuted ma mb : lord_ok lord -> both_ok ma mb ->
  compute_pairwise metric lord permuted ma mb =
  let J := all_jobs permuted ma mb (lord (labels_of ma mb)) in
  let* vs := mapM eval J in Ok (dupdate [] (zip J.*1 vs), J.*2).
Proof.
  intros HL HO. unfold compute_pairwise. fold (labels_of ma mb). cbv zeta.
  rewrite (foldM_bind step (fun l => item_pairs ma mb l ≫= pair_jobs (flip_of permuted mb) l)).
  - rewrite run_jobs. reflexivity.
  - intros l st Hl. apply label_jobs; [exact HO|]. rewrite (HL (labels_of ma mb)) in Hl. apply elem_of_elements, Hl.
Qed.

(** * The jobs, by position *)

(** The request for [a] against [b] filed under [k]. *)
Definition asked (permuted : bool) ma (mb : option (dict (dict seg))) (k : string) (a b : seg) : Prop :=
  exists item c1 c2, match mb with
    | None => (before ma item c1 c2 a b /\ k = name3 item c1 c2) \/
              (permuted = true /\ before ma item c2 c1 b a /\ k = name3 item c1 c2)
    | Some mb => across ma mb item c1 c2 a b /\ k = name3 item c1 c2
    end.

Lemma elem_of_item_pairs ma mb label m a n b : both_ok ma mb ->
  ((m, a), (n, b)) ∈ item_pairs ma mb label <->
  match mb with None => before ma label m n a b | Some mb => across ma mb label m n a b end.
Proof.
  intros [Hma Hmb]. unfold item_pairs. destruct mb as [mb|].
  - rewrite elem_of_cross. unfold across. split.
    + intros [H1 H2]. destruct (dget ma label) as [ca|] eqn:Ea; cbn [default] in H1; [|apply elem_of_nil in H1; contradiction].
      destruct (dget mb label) as [cb|] eqn:Eb; cbn [default] in H2; [|apply elem_of_nil in H2; contradiction].
      exists ca, cb. split; [apply dget_Some; [apply Hma|exact Ea]|]. split; [apply dget_Some; [apply Hmb|exact Eb]|]. auto.
    + intros (ca & cb & H1 & H2 & H3 & H4). apply dget_Some in H1; [|apply Hma]. apply dget_Some in H2; [|apply Hmb].
      rewrite H1, H2. auto.
  - rewrite elem_of_pairs2. unfold before. split.
    + intros (i & j & H & Hi & Hj). destruct (dget ma label) as [ca|] eqn:Ea; cbn [default] in Hi, Hj; [|discriminate Hi].
      exists ca, i, j. split; [apply dget_Some; [apply Hma|exact Ea]|]. auto.
    + intros (cs & i & j & H1 & H2 & H3 & H4). apply dget_Some in H1; [|apply Hma]. rewrite H1. exists i, j. auto.
Qed.

Lemma pair_jobs_elem p label k a b : forall m x n y, (k, (a, b)) ∈ pair_jobs p label ((m, x), (n, y)) <->
  (k = name3 label m n /\ a = x /\ b = y) \/ (p = true /\ k = name3 label n m /\ a = y /\ b = x).
Proof.
  intros m x n y. unfold pair_jobs. rewrite elem_of_cons. split.
  - intros [H|H].
    + left. injection H as -> -> ->. auto.
    + destruct p; [|apply elem_of_nil in H; contradiction]. apply elem_of_list_singleton in H. injection H as -> -> ->. auto.
  - intros [(-> & -> & ->)|(-> & -> & -> & ->)]; [left; reflexivity|]. right. apply elem_of_list_singleton. reflexivity.
Qed.

Lemma before_item (ma : dict (dict seg)) item c1 c2 a b : before ma item c1 c2 a b -> item ∈ ma.*1.
Proof. intros (cs & i & j & H & _). apply elem_of_list_fmap. exists (item, cs). auto. Qed.

Lemma elem_of_jobs lord permuted ma mb k a b : lord_ok lord -> both_ok ma mb ->
  (k, (a, b)) ∈ all_jobs permuted ma mb (lord (labels_of ma mb)) <-> asked permuted ma mb k a b.
Proof.
  intros HL HO. unfold all_jobs. rewrite elem_of_list_bind. setoid_rewrite elem_of_list_bind. split.
  - intros (item & ([[m x] [n y]] & H1 & H2) & _). apply elem_of_item_pairs in H2; [|exact HO].
    apply pair_jobs_elem in H1 as [(-> & -> & ->)|(Hp & -> & -> & ->)].
    + exists item, m, n. destruct mb; auto.
    + exists item, n, m. unfold flip_of in Hp. destruct mb; [rewrite andb_false_r in Hp; discriminate|].
      rewrite andb_true_r in Hp. auto.
  - intros (item & c1 & c2 & H). destruct mb as [mb|].
    + destruct H as [H ->]. exists item. split.
      * exists ((c1, a), (c2, b)). split; [apply pair_jobs_elem; auto|]. apply elem_of_item_pairs; assumption.
      * rewrite (HL _). apply elem_of_elements. unfold labels_of. apply elem_of_union. left. apply elem_of_list_to_set.
        destruct H as (ca & cb & H & _). apply elem_of_list_fmap. exists (item, ca). auto.
    + assert (K : exists m x n y, before ma item m n x y /\ (k, (a, b)) ∈ pair_jobs (flip_of permuted None) item ((m, x), (n, y))).
      { destruct H as [[H ->]|(-> & H & ->)].
        - exists c1, a, c2, b. split; [exact H|]. apply pair_jobs_elem. auto.
        - exists c2, b, c1, a. split; [exact H|]. apply pair_jobs_elem. auto. }
      destruct K as (m & x & n & y & K1 & K2). exists item. split.
      * exists ((m, x), (n, y)). split; [exact K2|]. apply elem_of_item_pairs; assumption.
      * rewrite (HL _). apply elem_of_elements. unfold labels_of. apply elem_of_union. left. apply elem_of_list_to_set.
        eapply before_item, K1.
Qed.
End Run.
