(** Loading nested folders. *)
From Verif Require Export DataProofs.
Open Scope Z_scope.

Section Folders.
Context {C : Type} (t : filetype).
Notation entry := (string * node C)%type.
Notation found := (list string * string * res (dataset C))%type.

Lemma node_rect' (P : node C -> Prop) (Hf : forall l, P (NFile l)) (Hd : forall es, Forall (fun e => P (snd e)) es -> P (NDir es)) : forall n, P n.
Proof.
  fix IH 1. intros [l|es]; [apply Hf|]. apply Hd. induction es as [|[name n] es IHes]; constructor; [apply IH|exact IHes].
Qed.

(** The files in the order in which they are merged. *)
Fixpoint flat (path : list string) (n : node C) : list found :=
  match n with
  | NFile _ => []
  | NDir entries =>
    ((fun '(s, load) => (path, s, load)) <$> list_files t entries) ++
    (fix go (l : list entry) : list found := match l with [] => [] | (name, sub) :: l' => flat (path ++ [name]) sub ++ go l' end) entries
  end.

Fixpoint flats (path : list string) (l : list entry) : list found :=
  match l with [] => [] | (name, sub) :: l' => flat (path ++ [name]) sub ++ flats path l' end.

Lemma flat_dir path entries : flat path (NDir entries) = ((fun '(s, load) => (path, s, load)) <$> list_files t entries) ++ flats path entries.
Proof. cbn [flat]. f_equal. induction entries as [|[name sub] entries IH]; [reflexivity|]. cbn [flats]. rewrite <- IH. reflexivity. Qed.

Definition load1 (st : upd C) (f : found) : upd C := load_file (fst (fst f)) st (snd (fst f), snd f).

Lemma load1_stuck d e l : foldl load1 (d, Some e) l = (d, Some e).
Proof. induction l as [|f l IH]; [reflexivity|exact IH]. Qed.

Fixpoint load_flat (n : node C) {struct n} : forall path st, load_entries t path n st = foldl load1 st (flat path n).
Proof.
  destruct n as [load|entries]; intros path st; [reflexivity|]. rewrite flat_dir, foldl_app. cbn [load_entries].
  assert (E : forall l st, foldl (load_file path) st l = foldl load1 st ((fun '(s, load) => (path, s, load)) <$> l)).
  { induction l as [|[s load] l IH]; intros st'; [reflexivity|]. cbn [foldl fmap list_fmap]. unfold load1 at 2. cbn [fst snd]. apply IH. }
  rewrite <- E. generalize (foldl (load_file path) st (list_files t entries)). clear E st.
  induction entries as [|[name sub] entries IH]; intros st; [reflexivity|]. cbn [flats]. rewrite foldl_app. rewrite IH. f_equal.
  destruct st as [d [e|]]; [rewrite load1_stuck; reflexivity|]. apply load_flat.
Qed.

(** ** Which files those are *)
Lemma list_files_kept (sub : list entry) : dict_ok (list_files t sub) /\
  forall s load, dget (list_files t sub) s = Some load <-> exists name, kept t sub name load /\ stem name = s.
Proof.
  unfold list_files. induction sub as [|[name n] sub [IH1 IH2]] using rev_ind.
  - split; [constructor|]. intros s load. cbn. split; [discriminate|]. intros (name & (pre & post & E & _) & _). destruct pre; discriminate.
  - rewrite foldl_app. cbn [foldl]. set (acc := foldl _ [] sub) in *.
    assert (Kold : forall name0 load0, kept t sub name0 load0 -> (match n with NFile _ => accepted t name = true -> stem name <> stem name0 | NDir _ => True end) -> kept t (sub ++ [(name, n)]) name0 load0).
    { intros name0 load0 (pre & post & -> & Ha & Hl) Hn. exists pre, (post ++ [(name, n)]). rewrite <- app_assoc. split; [reflexivity|]. split; [exact Ha|].
      intros name' load' Hin Ha'. apply elem_of_app in Hin as [Hin|Hin]; [exact (Hl _ _ Hin Ha')|]. apply elem_of_list_singleton in Hin. injection Hin as -> <-. exact (Hn Ha'). }
    assert (Knew : forall name0 load0, kept t (sub ++ [(name, n)]) name0 load0 -> (name0 = name /\ n = NFile load0) \/ (kept t sub name0 load0 /\ match n with NFile _ => accepted t name = true -> stem name <> stem name0 | NDir _ => True end)).
    { intros name0 load0 (pre & post & E & Ha & Hl). destruct post as [|x post _] using rev_ind.
      - apply app_inj_tail in E as [_ E]. injection E as -> ->. auto.
      - rewrite app_comm_cons, app_assoc in E. apply app_inj_tail in E as [-> <-]. right. split.
        + exists pre, post. split; [reflexivity|]. split; [exact Ha|]. intros name' load' Hin. apply (Hl name' load'). apply elem_of_app. auto.
        + destruct n as [load|]; [|exact I]. intros Ha'. apply (Hl name load); [apply elem_of_app; right; apply elem_of_list_singleton; reflexivity|exact Ha']. }
    destruct n as [load|es].
    + destruct (accepted t name) eqn:Ha.
      * split; [apply dset_ok, IH1|]. intros s load0. change (fst (splitext name)) with (stem name). rewrite dget_dset. destruct (decide (s = stem name)) as [->|Hs].
        -- split.
           ++ intros H. injection H as <-. exists name. split; [|reflexivity]. exists sub, []. split; [reflexivity|]. split; [exact Ha|]. intros ? ? K. apply elem_of_nil in K. contradiction.
           ++ intros (name0 & K & Hs). apply Knew in K as [[-> E]|[K Hn]]; [injection E as ->; reflexivity|]. exfalso. apply (Hn eq_refl). auto.
        -- rewrite IH2. split.
           ++ intros (name0 & K & E). exists name0. split; [|exact E]. apply Kold; [exact K|]. intros _. congruence.
           ++ intros (name0 & K & E). apply Knew in K as [[-> _]|[K _]]; [congruence|]. eauto.
      * split; [exact IH1|]. intros s load0. rewrite IH2. split.
        -- intros (name0 & K & E). exists name0. split; [|exact E]. apply Kold; [exact K|]. intros Q. congruence.
        -- intros (name0 & K & E). pose proof K as K0. apply Knew in K as [[-> _]|[K _]]; [|eauto]. destruct K0 as (? & ? & _ & K0 & _). congruence.
    + split; [exact IH1|]. intros s load0. rewrite IH2. split.
      * intros (name0 & K & E). exists name0. split; [|exact E]. apply Kold; [exact K|exact I].
      * intros (name0 & K & E). apply Knew in K as [[_ K]|[K _]]; [discriminate|]. eauto.
Qed.

Lemma flat_elem_gen (n : node C) : forall path p s load, (p, s, load) ∈ flat path n <->
  exists entries q sub, n = NDir entries /\ p = path ++ q /\ dir_at entries q sub /\ (s, load) ∈ list_files t sub.
Proof.
  induction n as [l|entries IH] using node_rect'; intros path p s load.
  - split; [intros K; apply elem_of_nil in K; contradiction|]. intros (es & q & sub & E & _). discriminate.
  - rewrite flat_dir, elem_of_app.
    assert (Hs : forall es, Forall (fun e => forall path p s load, (p, s, load) ∈ flat path (snd e) <-> exists entries q sub, snd e = NDir entries /\ p = path ++ q /\ dir_at entries q sub /\ (s, load) ∈ list_files t sub) es -> (p, s, load) ∈ flats path es <-> exists name sub0 q sub, (name, NDir sub0) ∈ es /\ p = path ++ name :: q /\ dir_at sub0 q sub /\ (s, load) ∈ list_files t sub).
    { clear -IH. intros es Hes. revert Hes. induction es as [|[name n] es IHs]; intros Hes; cbn [flats].
      - split; [intros K; apply elem_of_nil in K; contradiction|]. intros (name & sub0 & q & sub & K & _). apply elem_of_nil in K. contradiction.
      - apply Forall_cons in Hes as [Hn Hes]. cbn [snd] in Hn. rewrite elem_of_app, (IHs Hes), Hn. split.
        + intros [(es0 & q & sub & -> & -> & D & L)|(name0 & sub0 & q & sub & Hin & H)].
          * exists name, es0, q, sub. split; [apply elem_of_cons; auto|]. rewrite <- app_assoc. auto.
          * exists name0, sub0, q, sub. split; [apply elem_of_cons; auto|exact H].
        + intros (name0 & sub0 & q & sub & Hin & -> & D & L). apply elem_of_cons in Hin as [E|Hin].
          * injection E as -> <-. left. exists sub0, q, sub. rewrite <- app_assoc. auto.
          * right. exists name0, sub0, q, sub. auto. }
    rewrite (Hs entries IH). split.
    + intros [K|(name & sub0 & q & sub & Hin & -> & D & L)].
      * apply elem_of_list_fmap in K as ([s0 load0] & E & K). injection E as -> -> ->. exists entries, [], entries. rewrite app_nil_r. split; [reflexivity|]. split; [reflexivity|]. split; [constructor|exact K].
      * exists entries, (name :: q), sub. split; [reflexivity|]. split; [reflexivity|]. split; [econstructor; eassumption|exact L].
    + intros (es & q & sub & E & -> & D & L). injection E as <-. inversion D as [|? name sub0 q0 ? Hin D']; subst.
      * left. rewrite app_nil_r. apply elem_of_list_fmap. exists (s, load). auto.
      * right. exists name, sub0, q0, sub. auto.
Qed.

Lemma flat_elem (entries : list entry) p s load : (p, s, load) ∈ flat [] (NDir entries) <-> exists sub name, dir_at entries p sub /\ kept t sub name load /\ stem name = s.
Proof.
  rewrite flat_elem_gen. split.
  - intros (es & q & sub & E & -> & D & L). injection E as <-. destruct (list_files_kept sub) as [Hok Hk]. apply (dget_Some _ _ _ Hok) in L. apply Hk in L as (name & K & E).
    exists sub, name. auto.
  - intros (sub & name & D & K & E). exists entries, p, sub. split; [reflexivity|]. split; [reflexivity|]. split; [exact D|].
    destruct (list_files_kept sub) as [Hok Hk]. apply (dget_Some _ _ _ Hok), Hk. eauto.
Qed.

(** Different places. *)
Lemma app_cons_inv {X} (path : list X) a b q q' : path ++ a :: q = path ++ b :: q' -> a = b /\ q = q'.
Proof. intros H. apply app_inv_head in H. injection H as -> ->. auto. Qed.

Lemma flat_places (n : node C) : forall path, (forall entries, n = NDir entries -> tree_ok entries) -> NoDup (flat path n).*1.
Proof.
  induction n as [l|entries IH] using node_rect'; intros path Hok; [constructor|]. rewrite flat_dir, fmap_app. apply NoDup_app. specialize (Hok entries eq_refl).
  assert (Hn : NoDup entries.*1) by (apply (Hok [] entries); constructor).
  assert (Hsub : forall name sub, (name, NDir sub) ∈ entries -> tree_ok sub) by (intros name sub Hin q s D; apply (Hok (name :: q) s); econstructor; eassumption).
  clear Hok. split; [|split].
  - rewrite <- list_fmap_compose. pose proof (proj1 (list_files_kept entries)) as K. unfold dict_ok in K.
    assert (E : (fst ∘ (fun '(s, load) => (path, s, load)) : string * res (dataset C) -> list string * string) <$> list_files t entries = (fun s => (path, s)) <$> (list_files t entries).*1).
    { rewrite <- list_fmap_compose. apply list_fmap_ext. intros ? [? ?]. reflexivity. }
    rewrite E. apply NoDup_fmap; [|exact K]. intros a b H. congruence.
  - intros [p s] H1 H2. apply elem_of_list_fmap in H1 as ([[p1 s1] l1] & E & H1). injection E as -> ->. apply elem_of_list_fmap in H1 as ([s2 l2] & E & _). injection E as -> -> ->.
    apply elem_of_list_fmap in H2 as ([[p2 s3] l3] & E & H2). injection E as <- <-.
    clear -H2. induction entries as [|[name n] entries IHe]; cbn [flats] in H2; [apply elem_of_nil in H2; contradiction|]. apply elem_of_app in H2 as [H2|H2]; [|exact (IHe H2)].
    apply flat_elem_gen in H2 as (es & q & sub & _ & E & _). rewrite <- app_assoc in E. apply (f_equal length) in E. rewrite app_length in E. cbn in E. lia.
  - revert IH Hn Hsub. induction entries as [|[name n] entries IHe]; intros IH Hn Hsub; cbn [flats]; [constructor|]. apply Forall_cons in IH as [IHn IH]. cbn [snd] in IHn. cbn [fmap list_fmap fst] in Hn. apply NoDup_cons in Hn as [Hname Hn].
    rewrite fmap_app. apply NoDup_app. split; [|split].
    + apply IHn. intros es ->. apply (Hsub name es), elem_of_cons. auto.
    + intros [p s] H1 H2. apply elem_of_list_fmap in H1 as ([[p1 s1] l1] & E & H1). injection E as -> ->. apply elem_of_list_fmap in H2 as ([[p2 s2] l2] & E & H2). injection E as <- <-.
      apply flat_elem_gen in H1 as (es & q & sub & _ & E & _). rewrite <- app_assoc in E. cbn [app] in E. apply Hname.
      clear -H2 E. induction entries as [|[name' n'] entries IHe]; cbn [flats] in H2; [apply elem_of_nil in H2; contradiction|]. cbn [fmap list_fmap fst]. apply elem_of_cons.
      apply elem_of_app in H2 as [H2|H2]; [|right; exact (IHe H2)]. left. apply flat_elem_gen in H2 as (es' & q' & sub' & _ & E' & _). rewrite <- app_assoc in E'. cbn [app] in E'.
      rewrite E in E'. apply app_cons_inv in E' as [-> _]. reflexivity.
    + apply IHe; [exact IH|exact Hn|]. intros name' sub Hin. apply (Hsub name' sub), elem_of_cons. auto.
Qed.

(** ** Merging them all *)
Lemma loads_fold (fs : list found) : (forall p s o, (p, s, Ok o) ∈ fs -> items_ok (ds_items o)) -> NoDup fs.*1 ->
  forall d0 r e, foldl load1 (d0, None) fs = (r, e) ->
  match e with
  | None =>
    (forall p s l, (p, s, l) ∈ fs -> exists o, l = Ok o) /\
    (forall j c v, coding_at (ds_items r) j c = Some v <-> coding_at (ds_items d0) j c = Some v \/ exists p s o i, (p, s, Ok o) ∈ fs /\ filed (Some p) i j /\ coding_at (ds_items o) i c = Some v) /\
    (forall j, j ∈ (ds_items r).*1 <-> j ∈ (ds_items d0).*1 \/ exists p s o i, (p, s, Ok o) ∈ fs /\ filed (Some p) i j /\ i ∈ (ds_items o).*1) /\
    (forall c, c ∈ ds_coders r <-> c ∈ ds_coders d0 \/ exists p s o, (p, s, Ok o) ∈ fs /\ codes (ds_items o) c) /\
    (items_ok (ds_items d0) -> items_ok (ds_items r)) /\ ds_format r = ds_format d0
  | Some e =>
    (exists p s, (p, s, Err e) ∈ fs) \/
    (e = DataIOError /\ exists p s o i j c, (p, s, Ok o) ∈ fs /\ filed (Some p) i j /\ is_Some (coding_at (ds_items o) i c) /\
       (is_Some (coding_at (ds_items d0) j c) \/ exists p' s' o' i', (p', s', Ok o') ∈ fs /\ (p', s') <> (p, s) /\ filed (Some p') i' j /\ is_Some (coding_at (ds_items o') i' c)))
  end.
Proof.
  induction fs as [|[[p s] l] fs IH]; intros Hok Hn d0 r e H; cbn [foldl] in H.
  - injection H as <- <-. split; [intros p s l K; apply elem_of_nil in K; contradiction|]. split; [|split; [|split; [|auto]]].
    + intros j c v. split; [auto|]. intros [K|(p & s & o & i & K & _)]; [exact K|]. apply elem_of_nil in K. contradiction.
    + intros j. split; [auto|]. intros [K|(p & s & o & i & K & _)]; [exact K|]. apply elem_of_nil in K. contradiction.
    + intros c. split; [auto|]. intros [K|(p & s & o & K & _)]; [exact K|]. apply elem_of_nil in K. contradiction.
  - cbn [fmap list_fmap fst] in Hn. apply NoDup_cons in Hn as [Hps Hn].
    assert (Hok' : forall p s o, (p, s, Ok o) ∈ fs -> items_ok (ds_items o)) by (intros p' s' o' Hin; apply (Hok p' s'), elem_of_cons; auto).
    unfold load1 at 2 in H. cbn [load_file fst snd] in H. destruct l as [o|e0].
    2:{ rewrite load1_stuck in H. injection H as <- <-. left. exists p, s. apply elem_of_cons. auto. }
    assert (Hoo : items_ok (ds_items o)) by (apply (Hok p s), elem_of_cons; auto).
    destruct (iadd d0 o (Some p)) as [d1 [e1|]] eqn:E1.
    + rewrite load1_stuck in H. injection H as <- <-. right.
      assert (Hc : clash (Some p) (ds_items d0) (ds_items o)).
      { destruct (clash_dec (Some p) (ds_items d0) (ds_items o) Hoo) as [Hn0|Hc]; [|apply clash_prefixed, Hc]. exfalso.
        destruct (iadd_items_ok (Some p) (ds_items o) Hoo d0 Hn0) as (r & Hr & _). unfold iadd in E1. congruence. }
      pose proof (proj2 (iadd_failure (Some p) d0 o Hoo) Hc) as Hf. rewrite E1 in Hf. cbn in Hf. injection Hf as ->. split; [reflexivity|].
      destruct Hc as (i & j & c & F & H1 & H2). exists p, s, o, i, j, c. split; [apply elem_of_cons; auto|]. auto.
    + destruct (iadd_result _ _ _ _ Hoo E1) as [M1 M2 M3 M4 M5]. pose proof (IH Hok' Hn d1 r e H) as R. destruct e as [e|].
      * destruct R as [(p' & s' & Hin)|(-> & p' & s' & o' & i & j & c & Hin & F & Hs & Hd)]; [left; exists p', s'; apply elem_of_cons; auto|].
        right. split; [reflexivity|]. exists p', s', o', i, j, c. split; [apply elem_of_cons; auto|]. split; [exact F|]. split; [exact Hs|].
        destruct Hd as [[v Hd]|(p2 & s2 & o2 & i2 & Hin2 & H2)].
        -- apply M1 in Hd as [Hd|(i0 & E & Hd)]; [left; eauto|]. right. exists p, s, o, i0. split; [apply elem_of_cons; auto|]. split.
           ++ intros K. apply Hps. apply elem_of_list_fmap. exists (p', s', Ok o'). split; [exact K|exact Hin].
           ++ split; [apply prefixed_filed, E|eauto].
        -- right. exists p2, s2, o2, i2. split; [apply elem_of_cons; auto|exact H2].
      * destruct R as (R1 & R2 & R3 & R4 & R5 & R6). split; [|split; [|split; [|split; [|split]]]].
        -- intros p' s' l Hin. apply elem_of_cons in Hin as [E|Hin]; [injection E as -> -> ->; eauto|]. exact (R1 _ _ _ Hin).
        -- intros j c v. rewrite R2, M1. split.
           ++ intros [[K|(i & E & K)]|(p' & s' & o' & i & Hin & K)]; [auto| |].
              ** right. exists p, s, o, i. split; [apply elem_of_cons; auto|]. split; [apply prefixed_filed, E|exact K].
              ** right. exists p', s', o', i. split; [apply elem_of_cons; auto|exact K].
           ++ intros [K|(p' & s' & o' & i & Hin & F & K)]; [auto|]. apply elem_of_cons in Hin as [E|Hin].
              ** injection E as -> -> ->. left. right. exists i. split; [apply prefixed_filed, F|exact K].
              ** right. exists p', s', o', i. auto.
        -- intros j. rewrite R3, M2. split.
           ++ intros [[K|(i & E & K)]|(p' & s' & o' & i & Hin & K)]; [auto| |].
              ** right. exists p, s, o, i. split; [apply elem_of_cons; auto|]. split; [apply prefixed_filed, E|exact K].
              ** right. exists p', s', o', i. split; [apply elem_of_cons; auto|exact K].
           ++ intros [K|(p' & s' & o' & i & Hin & F & K)]; [auto|]. apply elem_of_cons in Hin as [E|Hin].
              ** injection E as -> -> ->. left. right. exists i. split; [apply prefixed_filed, F|exact K].
              ** right. exists p', s', o', i. auto.
        -- intros c. rewrite R4, M3. split.
           ++ intros [[K|K]|(p' & s' & o' & Hin & K)]; [auto| |].
              ** right. exists p, s, o. split; [apply elem_of_cons; auto|exact K].
              ** right. exists p', s', o'. split; [apply elem_of_cons; auto|exact K].
           ++ intros [K|(p' & s' & o' & Hin & K)]; [auto|]. apply elem_of_cons in Hin as [E|Hin].
              ** injection E as -> -> ->. auto.
              ** right. exists p', s', o'. auto.
        -- intros H0. apply R5, M5, H0.
        -- rewrite R6. apply M4.
Qed.

Lemma kept_listed (sub : list entry) name load : kept t sub name load -> (name, NFile load) ∈ sub.
Proof. intros (pre & post & -> & _). apply elem_of_app. right. apply elem_of_cons. auto. Qed.

(** A file at [path] that is taken into account. *)
Definition taken (entries : list entry) (path : list string) (name : string) (load : res (dataset C)) : Prop :=
  exists sub, dir_at entries path sub /\ kept t sub name load.

Section Tree.
Context (entries : list entry).
Hypothesis Htree : tree_ok entries.
Hypothesis Hloads : loads_ok entries.

Lemma flat_loads_ok : forall p s o, (p, s, Ok o) ∈ flat [] (NDir entries) -> items_ok (ds_items o).
Proof using Hloads. clear Htree. intros p s o Hin. apply flat_elem in Hin as (sub & name & D & K & _). apply (Hloads p sub name o D), kept_listed, K. Qed.

Lemma nested_result : forall r, load_nested_folders t entries = Ok r ->
  (forall path name l, taken entries path name l -> exists o, l = Ok o) /\
  (forall j c v, coding_at (ds_items r) j c = Some v <-> exists path name o i, taken entries path name (Ok o) /\ filed (Some path) i j /\ coding_at (ds_items o) i c = Some v) /\
  (forall j, j ∈ (ds_items r).*1 <-> exists path name o i, taken entries path name (Ok o) /\ filed (Some path) i j /\ i ∈ (ds_items o).*1) /\
  (forall c, c ∈ ds_coders r <-> codes (ds_items r) c) /\ items_ok (ds_items r) /\ ds_format r = FMass.
Proof using Htree Hloads.
  intros r H. unfold load_nested_folders in H. rewrite load_flat in H. destruct (foldl load1 (empty_dataset, None) (flat [] (NDir entries))) as [r' e] eqn:E.
  destruct e as [e|]; [discriminate|]. injection H as ->.
  assert (Hp : NoDup (flat [] (NDir entries)).*1) by (apply flat_places; intros es K; injection K as <-; exact Htree).
  pose proof (loads_fold _ flat_loads_ok Hp _ _ _ E) as (R1 & R2 & R3 & R4 & R5 & R6).
  assert (R2' : forall j c v, coding_at (ds_items r) j c = Some v <-> exists path name o i, taken entries path name (Ok o) /\ filed (Some path) i j /\ coding_at (ds_items o) i c = Some v).
  { intros j c v. rewrite R2. split.
    - intros [K|(p & s & o & i & Hin & F & K)]; [discriminate|]. apply flat_elem in Hin as (sub & name & D & Kp & _). exists p, name, o, i. split; [exists sub; auto|]. auto.
    - intros (p & name & o & i & (sub & D & Kp) & F & K). right. exists p, (stem name), o, i. split; [apply flat_elem; exists sub, name; auto|]. auto. }
  split; [|split; [exact R2'|split; [|split; [|split]]]].
  - intros p name l (sub & D & K). apply (R1 p (stem name) l). apply flat_elem. exists sub, name. auto.
  - intros j. rewrite R3. split.
    + intros [K|(p & s & o & i & Hin & F & K)]; [cbn in K; apply elem_of_nil in K; contradiction|]. apply flat_elem in Hin as (sub & name & D & Kp & _). exists p, name, o, i. split; [exists sub; auto|]. auto.
    + intros (p & name & o & i & (sub & D & Kp) & F & K). right. exists p, (stem name), o, i. split; [apply flat_elem; exists sub, name; auto|]. auto.
  - intros c. rewrite R4. unfold codes. split.
    + intros [K|(p & s & o & Hin & i & v & K)]; [apply elem_of_empty in K; contradiction|]. exists (prefixed (Some p) i), v. apply R2. right. exists p, s, o, i. split; [exact Hin|]. split; [apply prefixed_filed; reflexivity|exact K].
    + intros (j & v & K). apply R2 in K as [K|(p & s & o & i & Hin & F & K)]; [discriminate|]. right. exists p, s, o. split; [exact Hin|]. exists i, v. exact K.
  - apply R5. split; [constructor|]. intros i cs K. apply elem_of_nil in K. contradiction.
  - exact R6.
Qed.

Lemma nested_raises : forall e, load_nested_folders t entries = Err e ->
  (exists path name, taken entries path name (Err e)) \/
  (e = DataIOError /\ exists p1 n1 o1 i1 p2 n2 o2 i2 j c, taken entries p1 n1 (Ok o1) /\ taken entries p2 n2 (Ok o2) /\ (p1, n1) <> (p2, n2) /\
     filed (Some p1) i1 j /\ filed (Some p2) i2 j /\ is_Some (coding_at (ds_items o1) i1 c) /\ is_Some (coding_at (ds_items o2) i2 c)).
Proof using Htree Hloads.
  intros e0 H. unfold load_nested_folders in H. rewrite load_flat in H. destruct (foldl load1 (empty_dataset, None) (flat [] (NDir entries))) as [r' e] eqn:E.
  destruct e as [e|]; [|discriminate]. injection H as ->.
  assert (Hp : NoDup (flat [] (NDir entries)).*1) by (apply flat_places; intros es K; injection K as <-; exact Htree).
  pose proof (loads_fold _ flat_loads_ok Hp _ _ _ E) as R. cbn beta iota in R.
  destruct R as [(p & s & Hin)|(-> & p & s & o & i & j & c & Hin & F & Hs & [Hd|(p' & s' & o' & i' & Hin' & Hne & F' & Hs')])].
  - left. apply flat_elem in Hin as (sub & name & D & K & _). exists p, name. exists sub. auto.
  - destruct Hd; discriminate.
  - right. split; [reflexivity|]. apply flat_elem in Hin as (sub & name & D & K & Es). apply flat_elem in Hin' as (sub' & name' & D' & K' & Es').
    exists p, name, o, i, p', name', o', i', j, c. split; [exists sub; auto|]. split; [exists sub'; auto|]. split; [congruence|]. auto.
Qed.

(** With distinct stems every accepted file is taken. *)
Lemma all_taken : stems_distinct t entries -> forall path sub name load, dir_at entries path sub -> (name, NFile load) ∈ sub -> accepted t name = true -> kept t sub name load.
Proof using.
  clear Htree Hloads. intros Hs path sub name load D Hin Ha. apply elem_of_list_split in Hin as (pre & post & ->). exists pre, post. split; [reflexivity|]. split; [exact Ha|].
  intros name' load' Hin' Ha' E. apply elem_of_list_lookup in Hin' as [k Hk].
  assert (K : length pre = (length pre + S k)%nat); [|lia].
  apply (Hs path _ _ _ name name' load load' D); try assumption.
  - rewrite lookup_app_r by lia. rewrite Nat.sub_diag. reflexivity.
  - rewrite lookup_app_r by lia. replace (length pre + S k - length pre)%nat with (S k) by lia. exact Hk.
  - auto.
Qed.
End Tree.
End Folders.
