(** What a successful import does, and that it also succeeds when more is loaded. *)
From stdpp Require Import list strings.
From Verif Require Import Py Dict DictProofs Exports SpecExports.

Definition loaded (s : modules) (m : string) : Prop := is_Some (dget s m).
Definition has (s : modules) (m k : string) : Prop := exists ns, dget s m = Some ns /\ is_Some (dget ns k).
Definition grows (s s1 : modules) : Prop := (forall m, loaded s m -> loaded s1 m) /\ (forall m k, has s m k -> has s1 m k).

Lemma grows_refl s : grows s s.
Proof. split; auto. Qed.
Lemma grows_trans s1 s2 s3 : grows s1 s2 -> grows s2 s3 -> grows s1 s3.
Proof. intros [A B] [C D]. split; auto. Qed.

Lemma loaded_bind m k v s m' : loaded (fst (bind_in m k v s)) m' <-> loaded (fst s) m'.
Proof.
  unfold loaded, bind_in. cbn [fst]. destruct (dget (fst s) m) as [ns|] eqn:E; [|reflexivity].
  rewrite dget_dset. destruct (decide (m' = m)) as [->|N]; [|reflexivity]. rewrite E. split; eauto.
Qed.
Lemma has_bind m k v s m' k' : has (fst (bind_in m k v s)) m' k' <-> has (fst s) m' k' \/ (m' = m /\ k' = k /\ loaded (fst s) m).
Proof.
  unfold has, loaded, bind_in. cbn [fst]. destruct (dget (fst s) m) as [ns|] eqn:E.
  - rewrite dget_dset. destruct (decide (m' = m)) as [->|N].
    + split.
      * intros (ns' & [= <-] & H). rewrite dget_dset in H. destruct (decide (k' = k)) as [->|N]; [eauto 6|]. left. eauto.
      * intros [(ns' & X & H)|(_ & -> & _)].
        -- assert (ns' = ns) as -> by congruence. eexists. split; [reflexivity|]. rewrite dget_dset. destruct (decide (k' = k)); eauto.
        -- eexists. split; [reflexivity|]. rewrite dget_dset, decide_True by reflexivity. eauto.
    + split; [auto|]. intros [H|(X & _)]; [exact H|contradiction].
  - split; [auto|]. intros [H|(_ & _ & H)]; [exact H|]. destruct H as (x & H). discriminate H.
Qed.
Lemma loaded_new s m m' : loaded (dset s m []) m' <-> m' = m \/ loaded s m'.
Proof. unfold loaded. rewrite dget_dset. destruct (decide (m' = m)) as [->|N]; [split; eauto|]. split; [auto|]. intros [H|H]; [contradiction|exact H]. Qed.
Lemma has_new s m m' k : dget s m = None -> has (dset s m []) m' k <-> has s m' k.
Proof.
  intros E. unfold has. rewrite dget_dset. destruct (decide (m' = m)) as [->|N]; [|reflexivity]. rewrite E. split.
  - intros (ns & [= <-] & (x & H)). discriminate H.
  - intros (ns & H & _). discriminate H.
Qed.
Lemma has_loaded s m k : has s m k -> loaded s m.
Proof. intros (ns & E & _). exists ns. exact E. Qed.
Lemma grows_bind m k v s : grows (fst s) (fst (bind_in m k v s)).
Proof. split; intros; [apply loaded_bind; assumption|apply has_bind; auto]. Qed.
Lemma grows_new s m : dget s m = None -> grows s (dset s m []).
Proof. intros E. split; intros; [apply loaded_new; auto|apply has_new; auto]. Qed.
Lemma grows_child m parent c s : grows (fst s) (fst (bind_child m parent c s)).
Proof. unfold bind_child. destruct (decide _); [apply grows_refl|apply grows_bind]. Qed.

(** * The tables *)

Definition stmt_names (st : stmt) : list string :=
  match st with SFrom _ l => snd <$> l | SExternal l => l | SDef l => l end.
Definition all_steps : list (string * string * string) := concat (steps <$> (fst <$> bodies)).
Definition exports_of (m : string) : list string := default [] (dget all_by_module m).
Definition names : list string := concat (snd <$> all_by_module).
Definition inb (n : string) (l : list string) : bool := existsb (String.eqb n) l.

(** The statements of module [m] other than definitions do not rebind its public names,
    and import from modules of the package. *)
Definition stmt_ok (m : string) (st : stmt) : bool :=
  match st with
  | SFrom m' l => inb m' (fst <$> bodies) && forallb (fun ab => negb (inb (snd ab) (exports_of m))) l
  | SExternal l => forallb (fun n => negb (inb n (exports_of m))) l
  | SDef _ => true
  end.
Definition bodies_ok : bool := forallb (fun mb => forallb (stmt_ok (fst mb)) (snd mb)) bodies.
(** Parents are functions of the module; a submodule does not hide a public name; below the
    package module itself, submodules have other names than the public ones. *)
Definition step_ok (e : string * string * string) : bool :=
  let '(m, parent, c) := e in
  negb (inb c (exports_of parent)) && (if String.eqb parent "segeval" then negb (inb c names) && inb ("segeval." +:+ c) (fst <$> bodies) else true)
  && forallb (fun e' => let '(m', parent', c') := e' in if String.eqb m m' then String.eqb parent parent' && String.eqb c c' else true) all_steps.
Definition steps_ok : bool := forallb step_ok all_steps.
Definition rooted : bool := forallb (fun mb => match components (fst mb) with c :: _ => String.eqb c "segeval" | [] => false end &&
  existsb (fun e => String.eqb (fst (fst e)) (fst mb)) (steps (fst mb))) bodies.
Lemma tables_ok : bodies_ok && steps_ok && rooted = true.
Proof. vm_compute. reflexivity. Qed.

Lemma inb_elem n l : inb n l = true <-> n ∈ l.
Proof.
  unfold inb. rewrite existsb_exists, elem_of_list_In. split.
  - intros (x & I & E). apply String.eqb_eq in E. congruence.
  - intros I. exists n. split; [exact I|apply String.eqb_refl].
Qed.
Lemma inb_not n l : negb (inb n l) = true <-> n ∉ l.
Proof. rewrite <- inb_elem. destruct (inb n l); simpl; split; congruence. Qed.
Lemma forallb_elem {A} (f : A -> bool) l x : forallb f l = true -> x ∈ l -> f x = true.
Proof. intros H I. rewrite forallb_forall in H. apply H, elem_of_list_In. exact I. Qed.

Local Opaque bodies all_by_module.

Lemma package_key m : package_module m <-> m ∈ fst <$> bodies.
Proof.
  rewrite elem_of_list_fmap. split.
  - intros (b & I). exists (m, b). auto.
  - intros ([m' b] & -> & I). exists b. exact I.
Qed.
Lemma body_elem m b : body_of m = Some b -> (m, b) ∈ bodies.
Proof. apply dget_elem. Qed.
Lemma body_stmt m b st : body_of m = Some b -> st ∈ b -> stmt_ok m st = true.
Proof.
  intros E I. pose proof tables_ok as H. apply andb_prop in H as [H _]. apply andb_prop in H as [H _].
  pose proof (forallb_elem _ _ _ H (body_elem m b E)) as K. exact (forallb_elem _ _ _ K I).
Qed.
Lemma step_facts m parent c : (m, parent, c) ∈ all_steps ->
  c ∉ exports_of parent /\ (parent = "segeval"%string -> c ∉ names /\ package_module ("segeval." +:+ c)) /\
  (forall parent' c', (m, parent', c') ∈ all_steps -> parent' = parent /\ c' = c).
Proof.
  intros I. pose proof tables_ok as H. apply andb_prop in H as [H _]. apply andb_prop in H as [_ H].
  pose proof (forallb_elem _ _ _ H I) as K. unfold step_ok in K. apply andb_prop in K as [K K3]. apply andb_prop in K as [K1 K2].
  split; [apply inb_not; exact K1|]. split.
  - intros ->. rewrite String.eqb_refl in K2. apply andb_prop in K2 as [A B]. split; [apply inb_not; exact A|].
    apply package_key, inb_elem. exact B.
  - intros parent' c' J. pose proof (forallb_elem _ _ _ K3 J) as L. cbv beta iota in L. rewrite String.eqb_refl in L.
    apply andb_prop in L as [A B]. apply String.eqb_eq in A, B. auto.
Qed.
Lemma package_steps m : package_module m -> exists cs, steps m = steps_from "segeval" cs /\ (forall e, e ∈ steps m -> e ∈ all_steps) /\
  (exists e, e ∈ steps m /\ fst (fst e) = m).
Proof.
  intros P. destruct P as (b & I). pose proof tables_ok as H. apply andb_prop in H as [_ H].
  pose proof (forallb_elem _ _ _ H I) as K. cbn [fst] in K. apply andb_prop in K as [K K2]. unfold steps at 1. destruct (components m) as [|c cs]; [discriminate K|].
  apply String.eqb_eq in K. subst c. exists cs. split; [reflexivity|]. split.
  2: { apply existsb_exists in K2 as (e & J & X). exists e. split; [apply elem_of_list_In; exact J|apply String.eqb_eq; exact X]. }
  intros e J. unfold all_steps.
  apply elem_of_list_In, in_concat. exists (steps m). split; [|apply elem_of_list_In; exact J].
  apply elem_of_list_In. apply elem_of_list_fmap_1, elem_of_list_fmap. exists (m, b). auto.
Qed.

(** * Failure stops everything *)

Lemma load_err imp s e l : foldl (load_step imp) (s, Some e) l = (s, Some e).
Proof. induction l as [|x l IH]; [reflexivity|exact IH]. Qed.

(** * What holds after a successful import *)

(** Public names that are bound are bound to their objects, and the names bound in the
    package module are submodules. *)
Definition sound (s : istate) : Prop :=
  (forall m n ns v, dget (fst s) m = Some ns -> n ∈ exports_of m -> dget ns n = Some v -> v = VObj m n) /\
  (forall c, c ∈ snd s -> c ∉ names /\ package_module ("segeval." +:+ c)).
Definition improves (s s1 : istate) : Prop := grows (fst s) (fst s1) /\ (sound s -> sound s1).
Lemma improves_refl s : improves s s.
Proof. split; [apply grows_refl|auto]. Qed.
Lemma improves_trans s1 s2 s3 : improves s1 s2 -> improves s2 s3 -> improves s1 s3.
Proof. intros [A B] [C D]. split; [eapply grows_trans; eauto|auto]. Qed.

Lemma improves_bind m k v s : (k ∈ exports_of m -> v = VObj m k) -> improves s (bind_in m k v s).
Proof.
  intros H. split; [apply grows_bind|]. intros [S T]. split; [|exact T].
  intros m' n ns w E I L. unfold bind_in in E. cbn [fst] in E. destruct (dget (fst s) m) as [ns0|] eqn:E0; [|eapply S; eauto].
  rewrite dget_dset in E. destruct (decide (m' = m)) as [->|N]; [|eapply S; eauto]. injection E as <-.
  rewrite dget_dset in L. destruct (decide (n = k)) as [->|N]; [|eapply S; eauto]. injection L as <-. auto.
Qed.
Lemma improves_new s t m : dget s m = None -> improves (s, t) (dset s m [], t).
Proof.
  intros E. split; [apply grows_new; exact E|]. intros [S T]. split; [|exact T]. cbn [fst] in *.
  intros m' n ns v L I G. rewrite dget_dset in L. destruct (decide (m' = m)) as [->|N]; [|eapply S; eauto].
  injection L as <-. discriminate G.
Qed.
Lemma improves_child m parent c s : (m, parent, c) ∈ all_steps -> improves s (bind_child m parent c s).
Proof.
  intros I. destruct (step_facts _ _ _ I) as (A & B & _). unfold bind_child. destruct (decide (parent = "segeval"%string)) as [E|E].
  - split; [apply grows_refl|]. intros [S T]. split; [exact S|]. cbn [snd]. intros c' J.
    apply elem_of_app in J as [J|J]; [auto|]. apply elem_of_list_singleton in J as ->. auto.
  - apply improves_bind. intros J. contradiction.
Qed.
Lemma improves_binds m f l : (forall k, k ∈ l -> k ∈ exports_of m -> f k = VObj m k) -> forall s,
  improves s (foldl (fun s n => bind_in m n (f n) s) s l).
Proof.
  induction l as [|k l IH]; intros H s; [apply improves_refl|]. cbn [foldl]. eapply improves_trans.
  - apply improves_bind. apply H. left.
  - apply IH. intros k' I. apply H. right. exact I.
Qed.
Lemma improves_from self m l : (forall ab, ab ∈ l -> snd ab ∉ exports_of self) -> forall s s1,
  bind_names self m l s = (s1, None) -> improves s s1.
Proof.
  induction l as [|[a b] l IH]; intros H s s1 E; cbn [bind_names] in E.
  - injection E as <-. apply improves_refl.
  - destruct (dget (fst s) m ≫= (fun ns => dget ns a)) as [v|]; [|discriminate E]. eapply improves_trans; [|eapply IH; [|exact E]].
    + apply improves_bind. intros J. exfalso. exact (H (a, b) ltac:(left) J).
    + intros ab I. apply H. right. exact I.
Qed.

Definition run_improves (imp : istate -> string -> istate * option iexn) : Prop :=
  forall s m s1, package_module m -> imp s m = (s1, None) -> improves s s1.

Lemma exec_improves imp self st s s1 : run_improves imp -> stmt_ok self st = true -> exec imp self st s = (s1, None) -> improves s s1.
Proof.
  intros R K E. destruct st as [m l|l|l]; cbn [exec] in E.
  - apply andb_prop in K as [K1 K2]. destruct (imp s m) as [s2 [e|]] eqn:E2; [discriminate E|]. eapply improves_trans.
    + eapply R; [|exact E2]. apply package_key, inb_elem. exact K1.
    + eapply improves_from; [|exact E]. intros ab I. apply inb_not. exact (forallb_elem _ _ _ K2 I).
  - injection E as <-. apply (improves_binds self VExternal). intros k I J. exfalso. apply (proj1 (inb_not _ _) (forallb_elem _ _ _ K I)). exact J.
  - injection E as <-. apply (improves_binds self (VObj self)). auto.
Qed.
Lemma exec_all_improves imp self : run_improves imp -> forall b s s1, (forall st, st ∈ b -> stmt_ok self st = true) ->
  exec_all imp self b s = (s1, None) -> improves s s1.
Proof.
  intros R b. induction b as [|st b IH]; intros s s1 K E; cbn [exec_all] in E; [injection E as <-; apply improves_refl|].
  destruct (exec imp self st s) as [s2 [e|]] eqn:E2; [discriminate E|]. eapply improves_trans.
  - eapply exec_improves; [exact R|apply K; left|exact E2].
  - apply IH; [|exact E]. intros st' I. apply K. right. exact I.
Qed.

Lemma steps_improves imp l : run_improves imp -> (forall e, e ∈ l -> e ∈ all_steps) -> forall s s1,
  foldl (load_step imp) (s, None) l = (s1, None) -> improves s s1.
Proof.
  intros R. induction l as [|[[m parent] c] l IH]; intros H s s1 E; cbn [foldl] in E; [injection E as <-; apply improves_refl|].
  assert (H' : forall e, e ∈ l -> e ∈ all_steps) by (intros e I; apply H; right; exact I).
  cbn [load_step] in E. destruct (dget (fst s) m) as [ns|] eqn:G; [apply IH; assumption|].
  destruct (body_of m) as [b|] eqn:B; [|rewrite load_err in E; discriminate E].
  destruct (exec_all imp m b (dset (fst s) m [], snd s)) as [s2 [e|]] eqn:X; [rewrite load_err in E; discriminate E|].
  eapply improves_trans; [|apply IH; [exact H'|exact E]]. eapply improves_trans; [|apply improves_child, H; left].
  eapply improves_trans; [|eapply exec_all_improves; [exact R| |exact X]].
  - destruct s as [s t]. apply improves_new. exact G.
  - intros st I. eapply body_stmt; eauto.
Qed.
Lemma import_improves f : run_improves (import_module f).
Proof.
  induction f as [|f IH]; intros s m s1 P E; cbn [import_module] in E; [discriminate E|].
  destruct (package_steps m P) as (cs & _ & A & _). eapply steps_improves; eauto.
Qed.

(** * Loading more does not break an import *)

Record done (s : modules) (m : string) : Prop := Done {
  d_body : exists b, body_of m = Some b /\
    (forall st k, st ∈ b -> k ∈ stmt_names st -> has s m k) /\
    (forall m' l e, SFrom m' l ∈ b -> e ∈ steps m' -> loaded s (fst (fst e)));
  d_child : forall parent c, (m, parent, c) ∈ all_steps -> parent <> "segeval"%string -> has s parent c }.
Lemma done_grows s s1 m : grows s s1 -> done s m -> done s1 m.
Proof.
  intros [A B] [(b & E & N & T) C]. split.
  - exists b. split; [exact E|]. split; [intros; apply B; eapply N; eauto|intros; apply A; eapply T; eauto].
  - intros. apply B. eapply C; eauto.
Qed.

Record rel (prog : list string) (s s' : modules) : Prop := Rel {
  r_loaded : forall m, loaded s m -> loaded s' m;
  r_has : forall m k, has s m k -> has s' m k;
  r_prog : forall m, m ∈ prog -> loaded s m;
  r_done : forall m, loaded s' m -> m ∉ prog -> done s' m }.

Lemma rel_left prog s s1 s' : rel prog s s' -> grows s s1 -> (forall m, loaded s1 m -> loaded s' m) -> (forall m k, has s1 m k -> has s' m k) -> rel prog s1 s'.
Proof. intros [A B C D] [G H] X Y. split; auto. Qed.
Lemma rel_bind prog m k v v' s s' : rel prog (fst s) (fst s') -> rel prog (fst (bind_in m k v s)) (fst (bind_in m k v' s')).
Proof.
  intros [A B C D]. split.
  - intros m' L. rewrite loaded_bind in L. apply loaded_bind. auto.
  - intros m' k' L. rewrite has_bind in L. apply has_bind. destruct L as [L|(-> & -> & L)]; auto.
  - intros m' L. apply loaded_bind. auto.
  - intros m' L N. rewrite loaded_bind in L. eapply done_grows; [apply grows_bind|]. auto.
Qed.
Lemma rel_bind_left prog m k v s s' : rel prog (fst s) s' -> has s' m k -> rel prog (fst (bind_in m k v s)) s'.
Proof.
  intros R H. eapply rel_left; [exact R|apply grows_bind| |].
  - intros m' L. rewrite loaded_bind in L. eapply r_loaded; eauto.
  - intros m' k' L. rewrite has_bind in L; destruct L as [L|(-> & -> & _)]; [eapply r_has; eauto|exact H].
Qed.

(** An import whose modules are all loaded does nothing. *)
Lemma steps_loaded imp l s : (forall e, e ∈ l -> loaded (fst s) (fst (fst e))) -> foldl (load_step imp) (s, None) l = (s, None).
Proof.
  induction l as [|[[m p] c] l IH]; intros H; [reflexivity|]. cbn [foldl load_step].
  destruct (H (m, p, c) ltac:(left)) as (ns & E). cbn [fst] in E. rewrite E. apply IH. intros e I. apply H. right. exact I.
Qed.

Definition parallel (imp : istate -> string -> istate * option iexn) : Prop :=
  forall prog s t m s1 s' t', package_module m -> rel prog s s' -> imp (s, t) m = (s1, None) ->
  exists s1', imp (s', t') m = (s1', None) /\ rel prog (fst s1) (fst s1') /\ (forall e, e ∈ steps m -> loaded (fst s1') (fst (fst e))).

Lemma bind_names_par prog self m l : forall s s1 s', rel prog (fst s) (fst s') -> loaded (fst s') self ->
  bind_names self m l s = (s1, None) ->
  exists s1', bind_names self m l s' = (s1', None) /\ rel prog (fst s1) (fst s1') /\ grows (fst s') (fst s1') /\
    forall k, k ∈ snd <$> l -> has (fst s1') self k.
Proof.
  induction l as [|[a b] l IH]; intros s s1 s' R L E; cbn [bind_names] in E |- *.
  - injection E as <-. exists s'. split; [reflexivity|]. split; [exact R|]. split; [apply grows_refl|]. intros k I. inversion I.
  - destruct (dget (fst s) m ≫= (fun ns => dget ns a)) as [v|] eqn:G; [|discriminate E].
    assert (H : has (fst s) m a).
    { destruct (dget (fst s) m) as [ns|] eqn:Z; [|discriminate G]. exists ns. split; [exact Z|]. exists v. exact G. }
    apply (r_has _ _ _ R) in H as (ns' & Z & (v' & W)). rewrite Z. cbn [mbind option_bind]. rewrite W.
    destruct (IH (bind_in self b v s) s1 (bind_in self b v' s')) as (s1' & X & R1 & G1 & N).
    + apply rel_bind. exact R.
    + apply loaded_bind. exact L.
    + exact E.
    + exists s1'. split; [exact X|]. split; [exact R1|]. split; [eapply grows_trans; [apply grows_bind|exact G1]|].
      intros k I. cbn in I. apply elem_of_cons in I as [->|I]; [|apply N; exact I].
      apply G1, has_bind. auto.
Qed.
Lemma binds_par prog self f l : forall s s', rel prog (fst s) (fst s') -> loaded (fst s') self ->
  rel prog (fst (foldl (fun s n => bind_in self n (f n) s) s l)) (fst (foldl (fun s n => bind_in self n (f n) s) s' l)) /\
  grows (fst s') (fst (foldl (fun s n => bind_in self n (f n) s) s' l)) /\
  forall k, k ∈ l -> has (fst (foldl (fun s n => bind_in self n (f n) s) s' l)) self k.
Proof.
  induction l as [|k l IH]; intros s s' R L; cbn [foldl].
  - split; [exact R|]. split; [apply grows_refl|]. intros k I. inversion I.
  - destruct (IH (bind_in self k (f k) s) (bind_in self k (f k) s')) as (A & B & C).
    + apply rel_bind. exact R.
    + apply loaded_bind. exact L.
    + split; [exact A|]. split; [eapply grows_trans; [apply grows_bind|exact B]|].
      intros k' I. apply elem_of_cons in I as [->|I]; [|apply C; exact I]. apply B, has_bind. auto.
Qed.

Lemma exec_par imp prog self st s s1 s' : parallel imp -> run_improves imp -> stmt_ok self st = true -> rel prog (fst s) (fst s') -> loaded (fst s') self ->
  exec imp self st s = (s1, None) ->
  exists s1', exec imp self st s' = (s1', None) /\ rel prog (fst s1) (fst s1') /\ grows (fst s') (fst s1') /\
    (forall k, k ∈ stmt_names st -> has (fst s1') self k) /\
    (forall m l e, st = SFrom m l -> e ∈ steps m -> loaded (fst s1') (fst (fst e))).
Proof.
  intros P RI K R L E. destruct st as [m l|l|l]; cbn [exec stmt_names] in *.
  - apply andb_prop in K as [K1 _]. apply inb_elem, package_key in K1.
    destruct (imp s m) as [s2 [e|]] eqn:E2; [discriminate E|]. destruct s as [s t], s' as [s' t']. cbn [fst] in *.
    destruct (P prog s t m s2 s' t' K1 R E2) as (s2' & E2' & R2 & T). rewrite E2'.
    destruct (RI (s', t') m s2' K1 E2') as [G2 _]. cbn [fst] in G2.
    destruct (bind_names_par prog self m l s2 s1 s2' R2 (proj1 G2 _ L) E) as (s1' & E1' & R1 & G1 & N).
    exists s1'. split; [exact E1'|]. split; [exact R1|]. split; [eapply grows_trans; eauto|]. split; [exact N|].
    intros m' l' e [= <- <-] I. apply G1. auto.
  - injection E as <-. destruct (binds_par prog self VExternal l s s' R L) as (A & B & C). eexists. split; [reflexivity|].
    split; [exact A|]. split; [exact B|]. split; [exact C|]. intros m l' e X. discriminate X.
  - injection E as <-. destruct (binds_par prog self (VObj self) l s s' R L) as (A & B & C). eexists. split; [reflexivity|].
    split; [exact A|]. split; [exact B|]. split; [exact C|]. intros m l' e X. discriminate X.
Qed.
Lemma exec_all_par imp prog self : parallel imp -> run_improves imp -> forall b s s1 s', (forall st, st ∈ b -> stmt_ok self st = true) ->
  rel prog (fst s) (fst s') -> loaded (fst s') self -> exec_all imp self b s = (s1, None) ->
  exists s1', exec_all imp self b s' = (s1', None) /\ rel prog (fst s1) (fst s1') /\ grows (fst s') (fst s1') /\
    (forall st k, st ∈ b -> k ∈ stmt_names st -> has (fst s1') self k) /\
    (forall m l e, SFrom m l ∈ b -> e ∈ steps m -> loaded (fst s1') (fst (fst e))).
Proof.
  intros P RI b. induction b as [|st b IH]; intros s s1 s' K R L E; cbn [exec_all] in E |- *.
  - injection E as <-. exists s'. split; [reflexivity|]. split; [exact R|]. split; [apply grows_refl|].
    split; [intros st k I; inversion I|intros m l e I; inversion I].
  - destruct (exec imp self st s) as [s2 [e|]] eqn:E2; [discriminate E|].
    destruct (exec_par imp prog self st s s2 s' P RI (K st ltac:(left)) R L E2) as (s2' & -> & R2 & G2 & N2 & T2).
    destruct (IH s2 s1 s2') as (s1' & -> & R1 & G1 & N1 & T1); [intros st' I; apply K; right; exact I|exact R2|apply G2; exact L|exact E|].
    exists s1'. split; [reflexivity|]. split; [exact R1|]. split; [eapply grows_trans; eauto|]. split.
    + intros st' k I J. apply elem_of_cons in I as [->|I]; [apply G1, N2; exact J|eapply N1; eauto].
    + intros m l e I J. apply elem_of_cons in I as [I|I]; [apply G1; eapply T2; eauto|eapply T1; eauto].
Qed.

(** Executing a module that the other side has already finished. *)
Lemma bind_names_skip prog self m l s' : (forall k, k ∈ snd <$> l -> has s' self k) -> forall s s1, rel prog (fst s) s' ->
  bind_names self m l s = (s1, None) -> rel prog (fst s1) s'.
Proof.
  induction l as [|[a b] l IH]; intros H s s1 R E; cbn [bind_names] in E; [injection E as <-; exact R|].
  destruct (dget (fst s) m ≫= (fun ns => dget ns a)) as [v|]; [|discriminate E].
  eapply IH; [| |exact E]; [intros k I; apply H; cbn; right; exact I|]. apply rel_bind_left; [exact R|]. apply H. cbn. left.
Qed.
Lemma binds_skip prog self f l s' : (forall k, k ∈ l -> has s' self k) -> forall s, rel prog (fst s) s' ->
  rel prog (fst (foldl (fun s n => bind_in self n (f n) s) s l)) s'.
Proof.
  induction l as [|k l IH]; intros H s R; [exact R|]. cbn [foldl]. apply IH; [intros k' I; apply H; right; exact I|].
  apply rel_bind_left; [exact R|]. apply H. left.
Qed.
Lemma exec_all_skip f prog self s' : parallel (import_module f) -> forall b s s1, (forall st, st ∈ b -> stmt_ok self st = true) ->
  (forall st k, st ∈ b -> k ∈ stmt_names st -> has s' self k) ->
  (forall m l e, SFrom m l ∈ b -> e ∈ steps m -> loaded s' (fst (fst e))) ->
  rel prog (fst s) s' -> exec_all (import_module f) self b s = (s1, None) -> rel prog (fst s1) s'.
Proof.
  intros P b. induction b as [|st b IH]; intros s s1 K N T R E; cbn [exec_all] in E; [injection E as <-; exact R|].
  destruct (exec (import_module f) self st s) as [s2 [e|]] eqn:E2; [discriminate E|].
  eapply IH; [| | | |exact E].
  - intros st' I. apply K. right. exact I.
  - intros st' k I. apply N. right. exact I.
  - intros m l e I. eapply T. right. exact I.
  - pose proof (K st ltac:(left)) as K0. destruct st as [m l|l|l]; cbn [exec] in E2.
    + apply andb_prop in K0 as [K0 _]. apply inb_elem, package_key in K0.
      destruct (import_module f s m) as [s3 [e|]] eqn:E3; [discriminate E2|].
      eapply bind_names_skip; [|  |exact E2]; [intros k I; exact (N (SFrom m l) k ltac:(left) I)|].
      destruct s as [s t]. destruct (P prog s t m s3 s' [] K0 R E3) as (s3' & X & R3 & _).
      destruct f as [|f]; [discriminate X|]. cbn [import_module] in X. rewrite steps_loaded in X.
      * injection X as <-. exact R3.
      * intros e I. exact (T m l e ltac:(left) I).
    + injection E2 as <-. apply (binds_skip prog self VExternal); [|exact R]. intros k I. exact (N (SExternal l) k ltac:(left) I).
    + injection E2 as <-. apply (binds_skip prog self (VObj self)); [|exact R]. intros k I. exact (N (SDef l) k ltac:(left) I).
Qed.

Lemma steps_par f prog : parallel (import_module f) -> forall cs parent0 s s1 s', (forall e, e ∈ steps_from parent0 cs -> e ∈ all_steps) ->
  parent0 = "segeval"%string \/ loaded (fst s') parent0 -> rel prog (fst s) (fst s') ->
  foldl (load_step (import_module f)) (s, None) (steps_from parent0 cs) = (s1, None) ->
  exists s1', foldl (load_step (import_module f)) (s', None) (steps_from parent0 cs) = (s1', None) /\ rel prog (fst s1) (fst s1') /\
    (forall e, e ∈ steps_from parent0 cs -> loaded (fst s1') (fst (fst e))).
Proof.
  intros P. pose proof (import_improves f) as RI. induction cs as [|c cs IH]; intros parent s s1 s' A Q R E.
  { cbn [steps_from foldl] in E |- *. injection E as <-. exists s'. split; [reflexivity|]. split; [exact R|]. intros e I. inversion I. }
  cbn [steps_from] in A, E |- *. set (m := parent +:+ "." +:+ c) in *. cbv zeta in A, E |- *. cbn [foldl] in E |- *.
  assert (A' : forall e, e ∈ steps_from m cs -> e ∈ all_steps) by (intros e I; apply A; right; exact I).
  assert (A0 : (m, parent, c) ∈ all_steps) by (apply A; left).
  assert (next : forall s2 s2', rel prog (fst s2) (fst s2') -> loaded (fst s2') m ->
    foldl (load_step (import_module f)) (s2, None) (steps_from m cs) = (s1, None) ->
    exists s1', foldl (load_step (import_module f)) (s2', None) (steps_from m cs) = (s1', None) /\ rel prog (fst s1) (fst s1') /\
      (forall e, e ∈ (m, parent, c) :: steps_from m cs -> loaded (fst s1') (fst (fst e)))).
  { intros s2 s2' R2 L2 E2. destruct (IH m s2 s1 s2' A' (or_intror L2) R2 E2) as (s1' & X & R1 & T).
    exists s1'. split; [exact X|]. split; [exact R1|]. intros e I. apply elem_of_cons in I as [->|I]; [|apply T; exact I].
    cbn [fst]. destruct (steps_improves _ _ RI A' _ _ X) as [[G _] _]. apply G. exact L2. }
  cbn [load_step] in E |- *.
  destruct (dget (fst s) m) as [ns|] eqn:G.
  - destruct (r_loaded _ _ _ R m (ex_intro _ ns G)) as (ns' & G'). rewrite G'. apply (next s s'); [exact R|exists ns'; exact G'|exact E].
  - destruct (body_of m) as [b|] eqn:B; [|rewrite load_err in E; discriminate E].
    destruct (exec_all (import_module f) m b (dset (fst s) m [], snd s)) as [s2 [e|]] eqn:X; [rewrite load_err in E; discriminate E|].
    pose proof (fun st I => body_stmt m b st B I) as K.
    assert (NP : m ∉ prog) by (intros I; destruct (r_prog _ _ _ R m I) as (ns & Z); congruence).
    destruct (dget (fst s') m) as [ns'|] eqn:G'.
    + assert (D : done (fst s') m) by (apply (r_done _ _ _ R); [exists ns'; exact G'|exact NP]).
      pose proof D as [(b' & B' & N & T) C]. assert (b' = b) as -> by congruence.
      assert (R2 : rel prog (fst s2) (fst s')).
      { eapply exec_all_skip; [exact P|exact K|exact N|exact T| |exact X]. cbn [fst]. eapply rel_left; [exact R|apply grows_new; exact G| |].
        - intros m' L. rewrite loaded_new in L; destruct L as [->|L]; [exists ns'; exact G'|]. eapply r_loaded; eauto.
        - intros m' k L. rewrite has_new in L by exact G. eapply r_has; eauto. }
      apply (next (bind_child m parent c s2) s'); [|exists ns'; exact G'|exact E].
      unfold bind_child. destruct (decide (parent = "segeval"%string)) as [Z|Z]; [exact R2|].
      apply rel_bind_left; [exact R2|]. apply C; assumption.
    + destruct (exec_all_par (import_module f) (m :: prog) m P RI b (dset (fst s) m [], snd s) s2 (dset (fst s') m [], snd s')) as (s2' & -> & R2 & G2 & N & T).
      * exact K.
      * cbn [fst]. split.
        -- intros m' L. rewrite loaded_new in L. apply loaded_new. destruct L as [->|L]; [auto|]. right. eapply r_loaded; eauto.
        -- intros m' k L. rewrite has_new in L by exact G. apply has_new; [exact G'|]. eapply r_has; eauto.
        -- intros m' I. apply loaded_new. apply elem_of_cons in I as [->|I]; [auto|]. right. eapply r_prog; eauto.
        -- intros m' L I. apply not_elem_of_cons in I as [I1 I2]. rewrite loaded_new in L; destruct L as [->|L]; [contradiction|].
           eapply done_grows; [apply grows_new; exact G'|]. eapply r_done; eauto.
      * cbn [fst]. apply loaded_new. auto.
      * exact X.
      * cbn [fst] in G2.
        assert (L2 : loaded (fst s2') m) by (apply G2, loaded_new; auto).
        apply (next (bind_child m parent c s2) (bind_child m parent c s2')); [|apply grows_child; exact L2|exact E].
        assert (R3 : rel (m :: prog) (fst (bind_child m parent c s2)) (fst (bind_child m parent c s2'))).
        { unfold bind_child. destruct (decide (parent = "segeval"%string)) as [Z|Z]; [exact R2|]. apply rel_bind. exact R2. }
        destruct R3 as [R3a R3b R3c R3d]. split; [exact R3a|exact R3b| |].
        -- intros m' I. apply R3c. right. exact I.
        -- intros m' L I. destruct (decide (m' = m)) as [->|Z]; [|apply R3d; [exact L|]; apply not_elem_of_cons; auto].
           split.
           ++ exists b. split; [exact B|]. split.
              ** intros st k J1 J2. apply grows_child. eapply N; eauto.
              ** intros m' l e J1 J2. apply grows_child. eapply T; eauto.
           ++ intros parent' c' J Y. destruct (step_facts _ _ _ A0) as (_ & _ & U). destruct (U _ _ J) as [-> ->].
              unfold bind_child. rewrite decide_False by exact Y. apply has_bind. right. split; [reflexivity|]. split; [reflexivity|].
              apply G2, loaded_new. right. destruct Q as [Q|Q]; [contradiction|exact Q].
Qed.

Lemma import_parallel f : parallel (import_module f).
Proof.
  induction f as [|f IH]; intros prog s t m s1 s' t' P R E; cbn [import_module] in E |- *; [discriminate E|].
  destruct (package_steps m P) as (cs & X & A & _). rewrite X in E, A |- *.
  eapply (steps_par f prog IH cs "segeval" (s, t) s1 (s', t')); [exact A|left; reflexivity|exact R|exact E].
Qed.

(** * From any state in which all loaded modules are finished *)

Definition settled (s : modules) : Prop := forall m, loaded s m -> done s m.

(** Executed once, from nothing: every module but segeval.compute can be imported, and that
    loads segeval.compute. *)
Definition base_ok : bool :=
  forallb (fun mb => if String.eqb (fst mb) "segeval.compute" then true else
    match import_module fuel ([], []) (fst mb) with
    | ((s, _), None) => match dget s "segeval.compute" with Some _ => true | None => false end
    | _ => false
    end) bodies.
Lemma base_ok_true : base_ok = true.
Proof. vm_compute. reflexivity. Qed.
Lemma base_compute : import_module fuel ([], []) "segeval.compute" = (([], []), Some ImportError).
Proof. vm_compute. reflexivity. Qed.

Lemma settled_rel s : settled s -> rel [] [] s.
Proof.
  intros S. split; auto.
  - intros m (x & H). discriminate H.
  - intros m k (x & H & _). discriminate H.
  - intros m I. inversion I.
Qed.

Definition compute : string := "segeval.compute".

Lemma import_settled s t m : settled s -> package_module m -> m <> compute \/ loaded s compute ->
  exists s1, import_module fuel (s, t) m = (s1, None) /\ settled (fst s1) /\ loaded (fst s1) compute /\ done (fst s1) m.
Proof.
  intros S P D. destruct (package_steps m P) as (cs & _ & _ & (e & Ie & Ee)).
  destruct (decide (m = compute)) as [->|N].
  - destruct D as [D|D]; [contradiction|].
    (* segeval.compute is a top-level module: its only step is itself *)
    assert (T : forall e, e ∈ steps compute -> fst (fst e) = compute).
    { intros e' I. vm_compute in I. apply elem_of_list_singleton in I as ->. reflexivity. }
    exists (s, t). split; [|auto]. unfold fuel. cbn [import_module]. apply steps_loaded. intros e' I. rewrite (T e' I). exact D.
  - destruct P as (b & I). pose proof (forallb_elem _ _ _ base_ok_true I) as H. cbn [fst] in H.
    destruct (String.eqb_spec m "segeval.compute") as [Z|_]; [contradiction|].
    destruct (import_module fuel ([], []) m) as [[s0 t0] [x|]] eqn:E; [discriminate H|].
    destruct (dget s0 "segeval.compute") as [ns|] eqn:C; [|discriminate H].
    destruct (import_parallel fuel [] [] [] m (s0, t0) s t (ex_intro _ b I) (settled_rel s S) E) as (s1 & X & R & T).
    exists s1. split; [exact X|].
    assert (S1 : settled (fst s1)) by (intros m' L; apply (r_done _ _ _ R m' L); intros J; inversion J).
    split; [exact S1|]. split; [apply (r_loaded _ _ _ R); exists ns; exact C|]. apply S1. rewrite <- Ee. apply T. exact Ie.
Qed.
