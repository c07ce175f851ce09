(** The state of the package after any history. *)
From stdpp Require Import list strings.
From Verif Require Import Py Dict DictProofs Exports SpecExports ExportsRun.

Local Opaque import_module fuel object_origins all_by_module bodies initial_names.

Definition list_eqb (l k : list string) : bool := if decide (l = k) then true else false.
Lemma list_eqb_eq l k : list_eqb l k = true -> l = k.
Proof. unfold list_eqb. destruct (decide (l = k)); [auto|discriminate]. Qed.

(** * The tables *)

Lemma names_nodup : NoDup names.
Proof. apply (bool_decide_unpack _). vm_compute. exact I. Qed.
Lemma modules_nodup : NoDup (fst <$> all_by_module).
Proof. apply (bool_decide_unpack _). vm_compute. exact I. Qed.

Lemma exported_names m n : exported m n -> n ∈ names.
Proof.
  intros (l & E & I). unfold names. apply elem_of_list_In, in_concat. exists l. split; [|apply elem_of_list_In; exact I].
  apply elem_of_list_In, elem_of_list_fmap. exists (m, l). auto.
Qed.
Lemma names_exported n : n ∈ names -> exists m, exported m n.
Proof.
  unfold names. intros H. apply elem_of_list_In, in_concat in H as (l & I & J).
  apply elem_of_list_In, elem_of_list_fmap in I as ([m l'] & E & I). cbn [fst snd] in E. subst l'.
  exists m, l. split; [exact I|apply elem_of_list_In; exact J].
Qed.

Definition origins_ok : bool :=
  forallb (fun e => forallb (fun n => match dget object_origins n with Some m => String.eqb m (fst e) | None => false end) (snd e)
    && list_eqb (exports_of (fst e)) (snd e) && inb (fst e) (fst <$> bodies)
    && (negb (String.eqb (fst e) compute) || list_eqb (snd e) ["summarize"%string])) all_by_module
  && forallb (fun e => match body_of (fst e) with
      | Some b => forallb (fun n => existsb (fun st => inb n (stmt_names st)) b) (snd e)
      | None => false
      end) all_by_module
  && forallb (fun kv => inb (fst kv) names) object_origins
  && forallb (fun n => negb (inb n initial_names)) names.
Lemma origins_ok_true : origins_ok = true.
Proof. vm_compute. reflexivity. Qed.

Lemma origins_parts :
  (forall m l, (m, l) ∈ all_by_module ->
     (forall n, n ∈ l -> dget object_origins n = Some m) /\ exports_of m = l /\ package_module m /\ (m = compute -> l = ["summarize"%string])) /\
  (forall n m, dget object_origins n = Some m -> n ∈ names) /\
  (forall n, n ∈ names -> n ∉ initial_names).
Proof.
  pose proof origins_ok_true as H. unfold origins_ok in H.
  apply andb_prop in H as [H H3]. apply andb_prop in H as [H H2]. apply andb_prop in H as [H1 _].
  rewrite forallb_forall in H1, H2, H3. split; [|split].
  - intros m l I. specialize (H1 (m, l) (proj1 (elem_of_list_In _ _) I)). cbn [fst snd] in H1.
    apply andb_prop in H1 as [H1 D]. apply andb_prop in H1 as [H1 C]. apply andb_prop in H1 as [A B]. split; [|split; [|split]].
    + intros n J. rewrite forallb_forall in A. specialize (A n (proj1 (elem_of_list_In _ _) J)).
      destruct (dget object_origins n) as [m'|]; [|discriminate A]. apply String.eqb_eq in A. congruence.
    + apply list_eqb_eq. exact B.
    + apply inb_elem, elem_of_list_fmap in C as ([m' b] & E & J). cbn [fst snd] in E. subst m'. exists b. exact J.
    + intros ->. rewrite String.eqb_refl in D. cbn [negb orb] in D. apply list_eqb_eq. exact D.
  - intros n m E. apply dget_elem in E. specialize (H2 (n, m) (proj1 (elem_of_list_In _ _) E)). cbn [fst snd] in H2.
    apply inb_elem. exact H2.
  - intros n I J. specialize (H3 n (proj1 (elem_of_list_In _ _) I)). apply inb_elem in J. rewrite J in H3. discriminate H3.
Qed.

Lemma exported_origin m n : exported m n -> dget object_origins n = Some m.
Proof. intros (l & E & I). apply (proj1 origins_parts m l E). exact I. Qed.
Lemma origin_exported m n : dget object_origins n = Some m -> exported m n.
Proof.
  intros E. pose proof (proj1 (proj2 origins_parts) n m E) as I. apply names_exported in I as (m' & X).
  pose proof (exported_origin m' n X). congruence.
Qed.
Lemma exported_unique m m' n : exported m n -> exported m' n -> m = m'.
Proof. intros A B. pose proof (exported_origin _ _ A). pose proof (exported_origin _ _ B). congruence. Qed.
Lemma exported_module m n : exported m n -> package_module m.
Proof. intros (l & E & I). apply (proj1 origins_parts m l E). Qed.
Lemma exported_of m n : exported m n -> forall k, exported m k <-> k ∈ exports_of m.
Proof.
  intros (l & E & I) k. destruct (proj1 origins_parts m l E) as (O & -> & _). split.
  - intros (l' & E' & I'). destruct (proj1 origins_parts m l' E') as (_ & X & _).
    destruct (proj1 origins_parts m l E) as (_ & Y & _). congruence.
  - intros J. exists l. auto.
Qed.
Lemma exported_compute n : exported compute n <-> n = "summarize"%string.
Proof.
  split.
  - intros (l & E & I). destruct (proj1 origins_parts _ l E) as (_ & _ & _ & X). rewrite (X eq_refl) in I.
    apply elem_of_list_singleton in I. exact I.
  - intros ->. apply origin_exported. vm_compute. reflexivity.
Qed.

Lemma exported_defined m n : exported m n -> exists b st, body_of m = Some b /\ st ∈ b /\ n ∈ stmt_names st.
Proof.
  intros (l & E & I). pose proof origins_ok_true as H. unfold origins_ok in H.
  apply andb_prop in H as [H _]. apply andb_prop in H as [H _]. apply andb_prop in H as [_ H].
  pose proof (forallb_elem _ _ _ H E) as K. cbn [fst snd] in K. destruct (body_of m) as [b|]; [|discriminate K].
  pose proof (forallb_elem _ _ _ K I) as L. cbv beta in L. apply existsb_exists in L as (st & J & L).
  exists b, st. split; [reflexivity|]. split; [apply elem_of_list_In; exact J|apply inb_elem; exact L].
Qed.

(** * Imports *)

Lemma compute_module : package_module compute.
Proof. exact (exported_module _ _ (proj2 (exported_compute "summarize") eq_refl)). Qed.

Definition bad (s : modules) (m : string) : Prop := s = [] /\ m = compute.

Definition public_ok (s : modules) : Prop := forall m n ns v, dget s m = Some ns -> n ∈ exports_of m -> dget ns n = Some v -> v = VObj m n.

Record sane (s : modules) : Prop := Sane {
  s_settled : settled s;
  s_sound : public_ok s;
  s_compute : s <> [] -> loaded s compute }.

Lemma import_good s m : sane s -> package_module m -> ~ bad s m ->
  exists s' tops, import_module fuel (s, []) m = ((s', tops), None) /\ sane s' /\ s' <> [] /\
    (forall c, c ∈ tops -> c ∉ names /\ package_module ("segeval." +:+ c)) /\
    (forall n, exported m n -> exists ns, dget s' m = Some ns /\ forall k, exported m k -> dget ns k = Some (VObj m k)).
Proof.
  intros [S1 S2 S3] P B. destruct (import_settled s [] m S1 P) as ([s' tops] & E & K & C & D).
  { destruct (decide (m = compute)) as [->|N]; [|auto]. right. apply S3. intros ->. apply B. split; reflexivity. }
  cbn [fst] in *. destruct (import_improves fuel (s, []) m (s', tops) P E) as [_ W].
  destruct W as [W1 W2]; [split; [exact S2|intros c I; inversion I]|]. cbn [fst snd] in *.
  exists s', tops. split; [exact E|]. split; [split; auto|]. split.
  - intros ->. destruct C as (x & C). discriminate C.
  - split; [exact W2|]. intros n X. destruct D as [(b & Eb & N & _) _].
    assert (Q : forall k, exported m k -> has s' m k).
    { intros k Y. destruct (exported_defined m k Y) as (b' & st & Eb' & I & J). assert (b' = b) as -> by congruence. eapply N; eauto. }
    destruct (Q n X) as (ns & Z & _). exists ns. split; [exact Z|]. intros k Y.
    destruct (Q k Y) as (ns' & Z' & (v & V)). assert (ns' = ns) as -> by congruence. rewrite V. f_equal.
    eapply W1; [exact Z| |exact V]. apply (exported_of m n X). exact Y.
Qed.

Lemma import_bad : import_module fuel ([], []) compute = (([], []), Some ImportError).
Proof. exact base_compute. Qed.

(** * The package module *)

Record inv (p : package) (h : list event) : Prop := Inv {
  i_sane : sane (p_modules p);
  i_fresh : p_modules p = [] -> ~ Exists loads h;
  i_loaded : p_modules p <> [] -> Exists loads h;
  i_empty : p_modules p = [] -> forall n, n ∈ names -> dget (p_attrs p) n = None;
  i_names : forall m n v, exported m n -> dget (p_attrs p) n = Some v -> forall k, exported m k -> dget (p_attrs p) k = Some (VObj m k);
  i_init : forall n, n ∈ initial_names -> is_Some (dget (p_attrs p) n);
  i_other : forall n v, dget (p_attrs p) n = Some v -> n ∈ initial_names \/ n ∈ names \/ package_module ("segeval." +:+ n) }.

Definition add_tops (a : dict value) (tops : list string) : dict value :=
  foldl (fun a c => dset a c (VMod ("segeval." +:+ c))) a tops.

Lemma add_tops_other tops : forall a n, n ∉ tops -> dget (add_tops a tops) n = dget a n.
Proof.
  induction tops as [|c tops IH]; intros a n N; [reflexivity|]. apply not_elem_of_cons in N as [N1 N2].
  cbn [add_tops foldl]. change (dget (add_tops (dset a c (VMod ("segeval." +:+ c))) tops) n = dget a n).
  rewrite IH by exact N2. rewrite dget_dset, decide_False by congruence. reflexivity.
Qed.
Lemma add_tops_some tops : forall a n, is_Some (dget a n) -> is_Some (dget (add_tops a tops) n).
Proof.
  induction tops as [|c tops IH]; intros a n N; [exact N|].
  cbn [add_tops foldl]. change (is_Some (dget (add_tops (dset a c (VMod ("segeval." +:+ c))) tops) n)).
  apply IH. rewrite dget_dset. destruct (decide _); eauto.
Qed.

Lemma set_all_ok m ns ks : forall a, (forall k, k ∈ ks -> dget ns k = Some (VObj m k)) ->
  exists a', set_all ns ks a = (a', None) /\
    (forall k, k ∈ ks -> dget a' k = Some (VObj m k)) /\ (forall k, k ∉ ks -> dget a' k = dget a k).
Proof.
  induction ks as [|k ks IH]; intros a H.
  - exists a. split; [reflexivity|]. split; [intros k E; inversion E|auto].
  - simpl. rewrite (H k) by (left; auto). 
    destruct (IH (dset a k (VObj m k))) as (a' & -> & S & O); [intros k' I; apply H; right; exact I|].
    exists a'. split; [reflexivity|]. split.
    + intros k' I. destruct (decide (k' ∈ ks)) as [J|J]; [apply S; exact J|].
      rewrite O by exact J. apply elem_of_cons in I as [->|I]; [rewrite dget_dset, decide_True by reflexivity; reflexivity|contradiction].
    + intros k' N. apply not_elem_of_cons in N as [N1 N2]. rewrite O by exact N2. rewrite dget_dset, decide_False by congruence. reflexivity.
Qed.

Lemma import_in_good p h m : inv p h -> package_module m -> ~ bad (p_modules p) m ->
  exists p', import_in p m = (p', None) /\ sane (p_modules p') /\ p_modules p' <> [] /\
    (forall n, n ∈ names -> dget (p_attrs p') n = dget (p_attrs p) n) /\
    (forall n, is_Some (dget (p_attrs p) n) -> is_Some (dget (p_attrs p') n)) /\
    (forall n v, dget (p_attrs p') n = Some v -> n ∈ initial_names \/ n ∈ names \/ package_module ("segeval." +:+ n)) /\
    (forall n, exported m n -> exists ns, dget (p_modules p') m = Some ns /\ forall k, exported m k -> dget ns k = Some (VObj m k)).
Proof.
  intros V P B. destruct (import_good _ m (i_sane _ _ V) P B) as (s' & tops & E & K & N & T & X).
  exists (Package s' (add_tops (p_attrs p) tops)). unfold import_in. rewrite E. split; [reflexivity|]. simpl.
  split; [exact K|]. split; [exact N|]. split; [|split; [|split]].
  - intros n I. apply add_tops_other. intros J. destruct (T n J). contradiction.
  - intros n S. apply add_tops_some. exact S.
  - intros n v L. destruct (decide (n ∈ tops)) as [J|J]; [destruct (T n J); auto|].
    rewrite add_tops_other in L by exact J. eapply i_other; eauto.
  - exact X.
Qed.

Lemma import_in_bad p : p_modules p = [] -> import_in p compute = (p, Some ImportError).
Proof. intros E. unfold import_in. rewrite E, import_bad. destruct p. simpl in *. subst. reflexivity. Qed.

(** Access to an exported name. *)
Lemma get_good p h m n : inv p h -> exported m n -> ~ bad (p_modules p) m ->
  exists p', get_attr p n = (p', inl (VObj m n)) /\ (forall k, exported m k -> dget (p_attrs p') k = Some (VObj m k)) /\
    sane (p_modules p') /\ (p_modules p' <> []) /\
    (forall k, ~ exported m k -> k ∈ names -> dget (p_attrs p') k = dget (p_attrs p) k) /\
    (forall k, is_Some (dget (p_attrs p) k) -> is_Some (dget (p_attrs p') k)) /\
    (forall k v, dget (p_attrs p') k = Some v -> k ∈ initial_names \/ k ∈ names \/ package_module ("segeval." +:+ k)).
Proof.
  intros V X B. unfold get_attr. destruct (dget (p_attrs p) n) as [v|] eqn:L.
  - exists p. pose proof (i_names _ _ V m n v X L) as S. pose proof (S n X) as Sn. split; [congruence|].
    split; [exact S|]. split; [apply (i_sane _ _ V)|]. split.
    + intros E. pose proof (i_empty _ _ V E n (exported_names _ _ X)). congruence.
    + split; [auto|]. split; [auto|]. apply (i_other _ _ V).
  - rewrite (exported_origin _ _ X).
    destruct (import_in_good p h m V (exported_module _ _ X) B) as (p' & -> & K & N & O & G & U & D).
    destruct (D n X) as (ns & E & W). rewrite E. simpl default.
    change (default [] (dget all_by_module m)) with (exports_of m).
    destruct (set_all_ok m ns (exports_of m) (p_attrs p')) as (a & -> & S & R).
    { intros k I. apply W, (exported_of m n X). exact I. }
    rewrite (W n X). eexists. split; [reflexivity|]. simpl. split.
    + intros k J. apply S, (exported_of m n X). exact J.
    + split; [exact K|]. split; [exact N|]. split; [|split].
      * intros k J I. rewrite R; [apply O; exact I|]. intros Z. apply J, (exported_of m n X). exact Z.
      * intros k J. destruct (decide (k ∈ exports_of m)) as [Z|Z]; [rewrite (S k Z); eauto|]. rewrite R by exact Z. auto.
      * intros k v J. destruct (decide (k ∈ exports_of m)) as [Z|Z].
        -- right. left. apply (exported_names m), (exported_of m n X). exact Z.
        -- rewrite R in J by exact Z. eapply U; eauto.
Qed.

Lemma get_bad p h : inv p h -> p_modules p = [] -> get_attr p "summarize" = (p, inr ImportError).
Proof.
  intros V E. pose proof (proj2 (exported_compute "summarize") eq_refl) as X. unfold get_attr.
  rewrite (i_empty _ _ V E _ (exported_names _ _ X)), (exported_origin _ _ X), (import_in_bad p E). reflexivity.
Qed.

Lemma get_other p n : dget (p_attrs p) n <> None \/ n ∉ names -> fst (get_attr p n) = p.
Proof.
  intros H. unfold get_attr. destruct (dget (p_attrs p) n) as [v|] eqn:L; [reflexivity|]. destruct H as [H|H]; [congruence|].
  destruct (dget object_origins n) as [m|] eqn:O; [|reflexivity]. exfalso. apply H. eapply origins_parts; eauto.
Qed.

Lemma inv_fresh : inv fresh_package [].
Proof.
  assert (D : forall n, is_Some (dget (p_attrs fresh_package) n) <-> n ∈ initial_names).
  { intros n. rewrite dget_is_Some. cbn [p_attrs fresh_package]. rewrite <- list_fmap_compose, list_fmap_id. reflexivity. }
  split.
  - split.
    + intros m (x & H). discriminate H.
    + intros m n ns v H. discriminate H.
    + intros H. contradiction.
  - intros _ H. inversion H.
  - intros H. contradiction.
  - intros _ n I. destruct (dget (p_attrs fresh_package) n) as [v|] eqn:E; [|reflexivity]. exfalso.
    apply (proj2 (proj2 origins_parts) n I), D. rewrite E. eauto.
  - intros m n v X L. exfalso. apply (proj2 (proj2 origins_parts) n (exported_names _ _ X)), D. rewrite L. eauto.
  - intros n I. apply D. exact I.
  - intros n v L. left. apply D. rewrite L. eauto.
Qed.

Lemma Exists_snoc h e : Exists loads (h ++ [e]) <-> Exists loads h \/ loads e.
Proof.
  rewrite Exists_app. split; intros [H|H]; auto.
  - right. inversion H; subst; auto. inversion H1.
Qed.

Lemma loads_dec e : loads e \/ ~ loads e.
Proof.
  destruct e as [n|m]; simpl.
  - destruct (decide (n = "summarize"%string)) as [E|E]; [right; intros [H _]; contradiction|].
    destruct (decide (n ∈ names)) as [I|I]; [left; split; [exact E|apply names_exported; exact I]|].
    right. intros [_ (m & X)]. apply I. eapply exported_names; eauto.
  - destruct (decide (m = compute)) as [E|E]; auto.
Qed.

Lemma inv_same p h e : inv p h -> p_modules p <> [] \/ ~ loads e -> inv p (h ++ [e]).
Proof.
  intros V H. destruct V as [A B B' C D E F]. split; auto; rewrite Exists_snoc.
  - intros Z. destruct H as [H|H]; [contradiction|]. apply B in Z. tauto.
  - auto.
Qed.

Lemma inv_step p h e : inv p h -> possible [e] -> inv (step p e) (h ++ [e]).
Proof.
  intros V P. destruct e as [n|m]; simpl.
  - destruct (decide (n ∈ names)) as [I|I].
    + destruct (names_exported n I) as (m & X).
      destruct (decide (p_modules p = [] /\ m = compute)) as [[Z ->]|B].
      * apply exported_compute in X as ->. rewrite (get_bad p h V Z). simpl. apply inv_same; [exact V|]. right. simpl. tauto.
      * destruct (get_good p h m n V X B) as (p' & -> & S & K & N & O & G & U). simpl. split; auto.
        -- intros _. apply Exists_snoc.
           destruct (decide (n = "summarize"%string)) as [->|E]; [|right; split; [exact E|exists m; exact X]].
           left. apply (i_loaded _ _ V). intros Z. apply B. split; [exact Z|].
           eapply exported_unique; [exact X|apply exported_compute; reflexivity].
        -- contradiction.
        -- intros m' k v X' L k' J. destruct (decide (m' = m)) as [->|M]; [apply S; exact J|].
           assert (Q : forall x, exported m' x -> dget (p_attrs p') x = dget (p_attrs p) x).
           { intros x Y. apply O; [|eapply exported_names; eauto]. intros Y'. apply M. eapply exported_unique; eauto. }
           rewrite (Q k' J). rewrite (Q k X') in L. exact (i_names _ _ V m' k v X' L k' J).
        -- intros k J. apply G, (i_init _ _ V). exact J.
    + rewrite get_other by (right; exact I). apply inv_same; [exact V|]. right. simpl. intros [_ (m & X)]. apply I. eapply exported_names; eauto.
  - assert (M : package_module m) by (inversion P; assumption).
    destruct (decide (p_modules p = [] /\ m = compute)) as [[Z ->]|B].
    + rewrite (import_in_bad p Z). simpl. apply inv_same; [exact V|]. right. simpl. tauto.
    + destruct (import_in_good p h m V M B) as (p' & -> & K & N & O & G & U & D). simpl. split; auto.
      * intros _. apply Exists_snoc. destruct (decide (m = compute)) as [->|E]; [|right; exact E].
        left. apply (i_loaded _ _ V). intros Z. apply B. auto.
      * contradiction.
      * intros m' k v X L k' J. rewrite O in L by (eapply exported_names; eauto). rewrite O by (eapply exported_names; eauto).
        exact (i_names _ _ V m' k v X L k' J).
      * intros k J. apply G, (i_init _ _ V). exact J.
Qed.

Lemma inv_after h : possible h -> inv (after h) h.
Proof.
  induction h as [|e h IH] using rev_ind; intros P; [exact inv_fresh|].
  apply Forall_app in P as [P1 P2]. unfold after. rewrite foldl_app. cbn [foldl]. apply inv_step; [apply IH; exact P1|exact P2].
Qed.

(** * The properties *)

Lemma not_bad_after h m n : possible h -> exported m n -> n <> "summarize"%string \/ Exists loads h -> ~ bad (p_modules (after h)) m.
Proof.
  intros P X D [Z ->]. destruct D as [D|D].
  - apply D, exported_compute. exact X.
  - exact (i_fresh _ _ (inv_after h P) Z D).
Qed.

Lemma resolves h m n : possible h -> exported m n -> n <> "summarize"%string \/ Exists loads h ->
  snd (get_attr (after h) n) = inl (VObj m n).
Proof.
  intros P X D. destruct (get_good _ h m n (inv_after h P) X (not_bad_after h m n P X D)) as (p' & -> & _). reflexivity.
Qed.

Lemma nothing_loaded h : possible h -> ~ Exists loads h -> p_modules (after h) = [].
Proof.
  intros P N. destruct (decide (p_modules (after h) = [])) as [E|E]; [exact E|].
  exfalso. apply N, (i_loaded _ _ (inv_after h P)). exact E.
Qed.

Lemma summarize_fails h : possible h -> ~ Exists loads h -> get_attr (after h) "summarize" = (after h, inr ImportError).
Proof. intros P N. apply (get_bad _ h (inv_after h P)), nothing_loaded; assumption. Qed.

Lemma siblings h m n v : possible h -> exported m n -> snd (get_attr (after h) n) = inl v ->
  forall k, exported m k -> dget (p_attrs (fst (get_attr (after h) n))) k = Some (VObj m k).
Proof.
  intros P X G k Y. destruct (decide (p_modules (after h) = [] /\ m = compute)) as [[Z ->]|B].
  - apply exported_compute in X as ->. rewrite (get_bad _ h (inv_after h P) Z) in G. discriminate G.
  - destruct (get_good _ h m n (inv_after h P) X B) as (p' & -> & S & _). apply S. exact Y.
Qed.

Lemma unknown_name h n : possible h -> ~ (exists m, exported m n) -> n ∉ initial_names -> ~ package_module ("segeval." +:+ n) ->
  get_attr (after h) n = (after h, inr AttrError).
Proof.
  intros P X I M. unfold get_attr. destruct (dget (p_attrs (after h)) n) as [v|] eqn:L.
  - exfalso. destruct (i_other _ _ (inv_after h P) n v L) as [J|[J|J]]; [contradiction| |contradiction].
    apply X, names_exported. exact J.
  - destruct (dget object_origins n) as [m|] eqn:O; [|reflexivity]. exfalso. apply X. exists m. apply origin_exported. exact O.
Qed.

Lemma imports_work h m : possible h -> package_module m -> m <> compute \/ Exists loads h ->
  snd (import_in (after h) m) = None.
Proof.
  intros P M D. destruct (import_in_good _ h m (inv_after h P) M) as (p' & -> & _); [|reflexivity].
  intros [Z ->]. destruct D as [D|D]; [congruence|]. exact (i_fresh _ _ (inv_after h P) Z D).
Qed.

Lemma import_compute_fails h : possible h -> ~ Exists loads h -> import_in (after h) compute = (after h, Some ImportError).
Proof. intros P N. apply import_in_bad, nothing_loaded; assumption. Qed.

Definition dir_ok : bool := forallb (fun n => inb n names || inb n initial_names) package_dir && forallb (fun n => inb n package_dir) names.
Lemma dir_ok_true : dir_ok = true.
Proof. vm_compute. reflexivity. Qed.
Lemma dir_lists n : n ∈ package_dir -> n ∈ names \/ n ∈ initial_names.
Proof.
  intros I. pose proof dir_ok_true as H. apply andb_prop in H as [H _]. rewrite forallb_forall in H.
  specialize (H n (proj1 (elem_of_list_In _ _) I)). apply orb_prop in H as [H|H]; apply inb_elem in H; auto.
Qed.
Lemma dir_complete m n : exported m n -> n ∈ package_dir.
Proof.
  intros X. pose proof dir_ok_true as H. apply andb_prop in H as [_ H]. rewrite forallb_forall in H.
  apply inb_elem, H, elem_of_list_In. eapply exported_names; eauto.
Qed.
Lemma dir_resolves h n : possible h -> n ∈ package_dir -> n <> "summarize"%string \/ Exists loads h ->
  exists v, snd (get_attr (after h) n) = inl v.
Proof.
  intros P I D. apply dir_lists in I as [I|I].
  - destruct (names_exported n I) as (m & X). exists (VObj m n). apply resolves; assumption.
  - destruct (i_init _ _ (inv_after h P) n I) as (v & L). exists v. unfold get_attr. rewrite L. reflexivity.
Qed.
