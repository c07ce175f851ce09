(** Lemmas about the confusion matrix. *)
From Coq Require Import Lqa.
From Verif Require Import SpecML Round RoundProofs SimRound.
Open Scope Z_scope.

(** ** Cells *)

Definition look (m : cmatrix) (p a : label) : option num := cm_rows m !! p ≫= fun r => r !! a.

Lemma cell_look m p a : cell m p a = default (NInt 0) (look m p a).
Proof.
  unfold cell, cm_get, cm_row, look. destruct (cm_rows m !! p) as [r|] eqn:E; cbn [mbind option_bind].
  - destruct (r !! a); reflexivity.
  - rewrite lookup_empty. reflexivity.
Qed.

Lemma look_row m p q a : look (snd (cm_row m p)) q a = look m q a.
Proof.
  unfold cm_row, look. destruct (cm_rows m !! p) as [r|] eqn:E; [reflexivity|]. cbn [snd cm_rows].
  destruct (decide (q = p)) as [->|N]; [rewrite lookup_insert, E; cbn; apply lookup_empty|rewrite lookup_insert_ne by congruence; reflexivity].
Qed.

Lemma cm_row_rows m p : cm_rows (snd (cm_row m p)) !! p = Some (fst (cm_row m p)).
Proof. unfold cm_row. destruct (cm_rows m !! p) as [r|] eqn:E; cbn; [exact E|apply lookup_insert]. Qed.

Lemma cm_row_again m p : cm_row (snd (cm_row m p)) p = (fst (cm_row m p), snd (cm_row m p)).
Proof. unfold cm_row at 1. rewrite cm_row_rows. reflexivity. Qed.

Lemma cm_set_row m p a v : cm_set (snd (cm_row m p)) p a v = cm_set m p a v.
Proof. unfold cm_set. rewrite cm_row_again. destruct (cm_row m p). reflexivity. Qed.

Lemma look_set m p a v q b : look (cm_set m p a v) q b = if decide ((p, a) = (q, b)) then Some v else look m q b.
Proof.
  unfold cm_set. pose proof (cm_row_rows m p) as HR. pose proof (look_row m p q b) as HL.
  destruct (cm_row m p) as [r m'] eqn:E. cbn [fst snd] in *. rewrite <- HL. unfold look. cbn [cm_rows].
  destruct (decide (p = q)) as [->|N].
  - rewrite lookup_insert, HR. cbn [mbind option_bind]. destruct (decide (a = b)) as [->|N'].
    + rewrite lookup_insert, decide_True by reflexivity. reflexivity.
    + rewrite lookup_insert_ne by assumption. rewrite decide_False by congruence. reflexivity.
  - rewrite lookup_insert_ne by assumption. rewrite decide_False by congruence. reflexivity.
Qed.

(** [cm_get] in one equation. *)
Lemma cm_get_eq m p a : cm_get m p a = (cell m p a, match look m p a with Some _ => m | None => cm_set m p a (NInt 0) end).
Proof.
  unfold cell, cm_get, look. destruct (cm_row m p) as [r m'] eqn:E. pose proof (cm_set_row m p a (NInt 0)) as HS. rewrite E in HS. cbn [snd] in HS.
  unfold cm_row in E. destruct (cm_rows m !! p) as [r'|] eqn:E'; injection E as <- <-; cbn [mbind option_bind].
  - destruct (r' !! a); reflexivity.
  - rewrite lookup_empty. cbn [fst]. rewrite HS. reflexivity.
Qed.

Lemma look_get m p a q b : default (NInt 0) (look (snd (cm_get m p a)) q b) = default (NInt 0) (look m q b).
Proof.
  rewrite cm_get_eq. cbn [snd]. destruct (look m p a) eqn:E; [reflexivity|]. rewrite look_set.
  destruct (decide _) as [D|D]; [|reflexivity]. injection D as -> ->. rewrite E. reflexivity.
Qed.

Lemma cell_row m p q b : cell (snd (cm_row m p)) q b = cell m q b.
Proof. rewrite !cell_look, look_row. reflexivity. Qed.
Lemma cell_get m p a q b : cell (snd (cm_get m p a)) q b = cell m q b.
Proof. rewrite !cell_look. apply look_get. Qed.
Lemma cell_set m p a v q b : cell (cm_set m p a v) q b = if decide ((p, a) = (q, b)) then v else cell m q b.
Proof. rewrite !cell_look, look_set. destruct (decide _); reflexivity. Qed.
Lemma cell_classes m q b : cell (snd (cm_get_classes m)) q b = cell m q b.
Proof. rewrite !cell_look. unfold cm_get_classes. destruct (cm_dirty m); reflexivity. Qed.

Lemma cm_add_eq A m p a v : cm_add A m p a v = rmap (fun w => cm_set m p a w) (nadd A (cell m p a) v).
Proof.
  unfold cm_add. rewrite cm_get_eq. destruct (nadd A (cell m p a) v) as [w|]; [|reflexivity]. cbn [bind rmap]. f_equal.
  destruct (look m p a) eqn:E; [reflexivity|]. unfold cm_set at 2 3. unfold cm_set. 
  destruct (cm_row m p) as [r m'] eqn:ER. unfold cm_row at 1. cbn [cm_rows]. rewrite lookup_insert. cbn [cm_rows cm_classes].
  rewrite insert_insert. rewrite insert_insert. reflexivity.
Qed.

(** ** Keys *)

Lemma elem_keys rows k : k ∈ cm_keys rows <-> (exists r, rows !! k = Some r) \/ (exists p r, rows !! p = Some r /\ k ∈ dom r).
Proof.
  unfold cm_keys. rewrite elem_of_union, elem_of_dom, elem_of_union_list. unfold is_Some. split.
  - intros [H|(X & HX & Hk)]; [left; exact H|right]. apply elem_of_list_fmap in HX as (r & -> & Hr).
    apply elem_of_list_fmap in Hr as ([p r'] & -> & Hr). apply elem_of_map_to_list in Hr. exists p, r'. auto.
  - intros [H|(p & r & Hr & Hk)]; [left; exact H|right]. exists (dom r). split; [|exact Hk]. apply elem_of_list_fmap. exists r. split; [reflexivity|].
    apply elem_of_list_fmap. exists (p, r). split; [reflexivity|]. apply elem_of_map_to_list, Hr.
Qed.

Lemma look_keys m p a v : look m p a = Some v -> p ∈ cm_keys (cm_rows m) /\ a ∈ cm_keys (cm_rows m).
Proof.
  unfold look. intros H. destruct (cm_rows m !! p) as [r|] eqn:E; [|discriminate]. cbn in H. split; apply elem_keys.
  - left. eauto.
  - right. exists p, r. split; [assumption|]. apply elem_of_dom. eauto.
Qed.

Lemma keys_row m p : cm_keys (cm_rows (snd (cm_row m p))) = cm_keys (cm_rows m) ∪ {[p]}.
Proof.
  unfold cm_row. destruct (cm_rows m !! p) as [r|] eqn:E; cbn [snd cm_rows].
  - assert (p ∈ cm_keys (cm_rows m)) by (apply elem_keys; eauto). set_solver.
  - apply set_eq. intros k. rewrite elem_of_union, elem_of_singleton, !elem_keys. split.
    + intros [(r & Hr)|(q & r & Hr & Hk)].
      * apply lookup_insert_Some in Hr as [[-> _]|[_ Hr]]; eauto.
      * apply lookup_insert_Some in Hr as [[-> <-]|[_ Hr]]; [rewrite dom_empty in Hk; set_solver|left; right; eauto].
    + intros [[(r & Hr)|(q & r & Hr & Hk)]| ->].
      * left. exists r. rewrite lookup_insert_ne by congruence. exact Hr.
      * right. exists q, r. rewrite lookup_insert_ne by congruence. auto.
      * left. exists ∅. apply lookup_insert.
Qed.

Lemma keys_set m p a v : cm_keys (cm_rows (cm_set m p a v)) = cm_keys (cm_rows m) ∪ {[p; a]}.
Proof.
  unfold cm_set. pose proof (cm_row_rows m p) as HR. pose proof (keys_row m p) as HK. destruct (cm_row m p) as [r m'] eqn:E. cbn [fst snd cm_rows] in *.
  replace (cm_keys (cm_rows m) ∪ {[p; a]}) with (cm_keys (cm_rows m') ∪ {[a]}) by (rewrite HK; set_solver).
  apply set_eq. intros k. rewrite elem_of_union, elem_of_singleton, !elem_keys. split.
  - intros [(r' & Hr)|(q & r' & Hr & Hk)].
    + apply lookup_insert_Some in Hr as [[-> _]|[_ Hr]]; eauto.
    + apply lookup_insert_Some in Hr as [[-> <-]|[_ Hr]].
      * rewrite dom_insert in Hk. apply elem_of_union in Hk as [Hk|Hk]; [right; set_solver|left; right; eauto].
      * left. right. eauto.
  - intros [[(r' & Hr)|(q & r' & Hr & Hk)]| ->].
    + left. destruct (decide (k = p)) as [->|N]; [eexists; apply lookup_insert|exists r'; rewrite lookup_insert_ne by congruence; exact Hr].
    + right. destruct (decide (q = p)) as [->|N].
      * exists p. eexists. split; [apply lookup_insert|]. rewrite dom_insert. assert (r' = r) by congruence. subst. set_solver.
      * exists q, r'. rewrite lookup_insert_ne by congruence. auto.
    + right. exists p. eexists. split; [apply lookup_insert|]. rewrite dom_insert. set_solver.
Qed.

(** ** Well-formed matrices *)

Definition keys (m : cmatrix) : gset label := cm_keys (cm_rows m).

Record wf (m : cmatrix) : Prop := WF {
  wf_cells : cm_dirty m = false -> forall p a v, look m p a = Some v -> p ∈ cm_classes m /\ a ∈ cm_classes m;
  wf_sub : cm_dirty m = false -> cm_classes m ⊆ keys m
}.

Lemma cls_eq m : cls m = if cm_dirty m then keys m else cm_classes m.
Proof. unfold cls, cm_get_classes. destruct (cm_dirty m); reflexivity. Qed.

Lemma cls_sub m : wf m -> cls m ⊆ keys m.
Proof. intros H. rewrite cls_eq. destruct (cm_dirty m) eqn:E; [reflexivity|]. apply H, E. Qed.

Lemma cls_look m p a v : wf m -> look m p a = Some v -> p ∈ cls m /\ a ∈ cls m.
Proof.
  intros H HL. rewrite cls_eq. destruct (cm_dirty m) eqn:E; [apply (look_keys m p a v HL)|]. apply (wf_cells m H E p a v HL).
Qed.

Lemma cell_outside m p a : wf m -> p ∉ cls m \/ a ∉ cls m -> cell m p a = NInt 0.
Proof.
  intros H HN. rewrite cell_look. destruct (look m p a) as [v|] eqn:E; [|reflexivity]. destruct (cls_look m p a v H E). tauto.
Qed.

Lemma wf_empty : wf cm_empty.
Proof. split; intros _; [|set_solver]. intros p a v H. unfold look in H. cbn in H. rewrite lookup_empty in H. discriminate. Qed.

Lemma wf_row m p : wf m -> wf (snd (cm_row m p)).
Proof.
  intros [H1 H2]. pose proof (keys_row m p) as HK. pose proof (look_row m p) as HL.
  assert (HD : cm_dirty (snd (cm_row m p)) = cm_dirty m /\ cm_classes (snd (cm_row m p)) = cm_classes m).
  { unfold cm_row. destruct (cm_rows m !! p); auto. }
  destruct HD as [HD HC]. split; rewrite HD; intros D.
  - intros q a v. rewrite HL, HC. apply H1, D.
  - unfold keys. rewrite HK, HC. specialize (H2 D). unfold keys in H2. set_solver.
Qed.

Lemma dirty_set m p a v : cm_dirty (cm_set m p a v) = true.
Proof. unfold cm_set. destruct (cm_row m p). reflexivity. Qed.

Lemma wf_set m p a v : wf (cm_set m p a v).
Proof. split; rewrite dirty_set; discriminate. Qed.

Lemma wf_get m p a : wf m -> wf (snd (cm_get m p a)).
Proof. intros H. rewrite cm_get_eq. cbn [snd]. destruct (look m p a); [assumption|apply wf_set]. Qed.

Lemma wf_classes m : wf m -> wf (snd (cm_get_classes m)).
Proof.
  intros [H1 H2]. unfold cm_get_classes. destruct (cm_dirty m) eqn:E; cbn [snd]; [|split; rewrite E; auto].
  split; intros _; [|unfold keys; cbn; reflexivity]. intros p a v H. cbn [cm_classes]. apply (look_keys m p a v H).
Qed.

Lemma wf_do A m op : wf m -> wf (cm_do A m op).
Proof.
  intros H. destruct op; cbn [cm_do].
  - apply wf_row, H.
  - apply wf_get, H.
  - apply wf_set.
  - rewrite cm_add_eq. destruct (nadd A (cell m p a) v); cbn [rmap]; [apply wf_set|apply wf_get, H].
  - apply wf_classes, H.
Qed.

Lemma wf_reachable A m : reachable A m -> wf m.
Proof.
  intros [h ->]. unfold cm_run. generalize wf_empty. generalize cm_empty. induction h as [|op h IH]; intros m H; [exact H|].
  cbn [foldl]. apply IH, wf_do, H.
Qed.

(** Classes after reads. *)
Lemma cls_classes m : cls (snd (cm_get_classes m)) = cls m.
Proof. unfold cls, cm_get_classes. destruct (cm_dirty m) eqn:E; [reflexivity|]. cbn [snd]. rewrite E. reflexivity. Qed.

Lemma keys_classes m : keys (snd (cm_get_classes m)) = keys m.
Proof. unfold keys, cm_get_classes. destruct (cm_dirty m); reflexivity. Qed.

Lemma cls_set m p a v : cls (cm_set m p a v) = keys m ∪ {[p; a]}.
Proof. rewrite cls_eq, dirty_set. unfold keys. apply keys_set. Qed.

Lemma cls_get m p a : wf m ->
  cls m ∪ {[p; a]} ⊆ cls (snd (cm_get m p a)) /\ cls (snd (cm_get m p a)) ⊆ keys m ∪ {[p; a]} /\ keys (snd (cm_get m p a)) = keys m ∪ {[p; a]}.
Proof.
  intros H. rewrite cm_get_eq. cbn [snd]. pose proof (cls_sub m H). destruct (look m p a) as [v|] eqn:E.
  - destruct (cls_look m p a v H E). set_solver.
  - rewrite cls_set. unfold keys. rewrite keys_set. set_solver.
Qed.

Lemma set_mono (x : label) (K K' E : gset label) : x ∈ K ∪ E -> K ⊆ K' -> x ∈ K' ∪ E.
Proof. set_solver. Qed.
Lemma set_trans (K1 K2 K3 E : gset label) : K2 ⊆ K1 ∪ E -> K3 ⊆ K2 ∪ E -> K3 ⊆ K1 ∪ E.
Proof. set_solver. Qed.
Lemma set_pair (p a : label) (K E : gset label) : p ∈ K ∪ E -> a ∈ K ∪ E -> K ∪ {[p; a]} ⊆ K ∪ E.
Proof. set_solver. Qed.

(** A matrix that differs only by zero cells and bookkeeping. *)
Record grown (ex : gset label) (m m' : cmatrix) : Prop := Grown {
  g_cells : forall p a, cell m' p a = cell m p a;
  g_wf : wf m';
  g_cls : cls m ⊆ cls m';
  g_keys : keys m' ⊆ keys m ∪ ex
}.

Lemma grown_refl ex m : wf m -> grown ex m m.
Proof. intros H. split; try reflexivity; try assumption. set_solver. Qed.

Lemma grown_trans ex m m' m'' : grown ex m m' -> grown ex m' m'' -> grown ex m m''.
Proof.
  intros [C1 W1 S1 K1] [C2 W2 S2 K2]. split; [intros; rewrite C2; apply C1|assumption|etrans; eassumption|exact (set_trans _ _ _ _ K1 K2)].
Qed.

Lemma grown_get ex m p a : wf m -> p ∈ keys m ∪ ex -> a ∈ keys m ∪ ex -> grown ex m (snd (cm_get m p a)).
Proof.
  intros H Hp Ha. destruct (cls_get m p a H) as (C1 & C2 & C3). split; [apply cell_get|apply wf_get, H|etrans; [apply union_subseteq_l|exact C1]|rewrite C3; apply set_pair; assumption].
Qed.

Lemma grown_classes ex m : wf m -> grown ex m (snd (cm_get_classes m)).
Proof. intros H. split; [apply cell_classes|apply wf_classes, H|rewrite cls_classes; reflexivity|rewrite keys_classes; set_solver]. Qed.

(** ** Sums *)

Lemma sum_cells_eq A cellf l : forall d m ex, wf m -> (forall k, k ∈ l -> fst (cellf k) ∈ keys m ∪ ex /\ snd (cellf k) ∈ keys m ∪ ex) ->
  match foldM (nadd A) ((fun k => cell m (fst (cellf k)) (snd (cellf k))) <$> l) d with
  | Ok s => exists m', foldM (sum_cells A cellf) l (d, m) = Ok (s, m') /\ grown ex m m'
  | Err e => foldM (sum_cells A cellf) l (d, m) = Err e
  end.
Proof.
  induction l as [|k l IH]; intros d m ex HW HK.
  - exists m. split; [reflexivity|]. apply grown_refl, HW.
  - cbn [fmap list_fmap foldM]. unfold sum_cells at 1 3. rewrite cm_get_eq. cbv beta iota zeta.
    set (m1 := match look m (fst (cellf k)) (snd (cellf k)) with Some _ => m | None => _ end).
    assert (E1 : m1 = snd (cm_get m (fst (cellf k)) (snd (cellf k)))) by (rewrite cm_get_eq; reflexivity).
    destruct (HK k ltac:(left)) as [K1 K2].
    assert (G : grown ex m m1) by (rewrite E1; apply grown_get; assumption).
    destruct (nadd A d (cell m (fst (cellf k)) (snd (cellf k)))) as [d'|e]; cbn [bind]; [|reflexivity].
    specialize (IH d' m1 ex (g_wf _ _ _ G)).
    assert (HK' : forall k0, k0 ∈ l -> fst (cellf k0) ∈ keys m1 ∪ ex /\ snd (cellf k0) ∈ keys m1 ∪ ex).
    { intros k0 Hk0. destruct (HK k0 ltac:(right; assumption)) as [A1 A2].
      assert (keys m ⊆ keys m1). { rewrite E1. destruct (cls_get m (fst (cellf k)) (snd (cellf k)) HW) as (_ & _ & ->). apply union_subseteq_l. }
      split; eapply set_mono; eassumption. }
    specialize (IH HK').
    replace ((fun k => cell m1 (fst (cellf k)) (snd (cellf k))) <$> l) with ((fun k => cell m (fst (cellf k)) (snd (cellf k))) <$> l) in IH.
    2:{ apply list_fmap_ext. intros i x _. symmetry. apply G. }
    destruct (foldM (nadd A) ((fun k0 => cell m (fst (cellf k0)) (snd (cellf k0))) <$> l) d') as [s|e].
    + destruct IH as (m' & IH & G'). exists m'. split; [exact IH|]. eapply grown_trans; eassumption.
    + exact IH.
Qed.

Definition cidx (byrow : bool) (c k : label) : label * label := if byrow then (c, k) else (k, c).

Lemma ratio_parts_eq A o byrow m c : wf m -> cord_ok o ->
  match foldM (nadd A) ((fun k => cell m (fst (cidx byrow c k)) (snd (cidx byrow c k))) <$> o (cls m)) (NInt 0) with
  | Ok d => exists m', ratio_parts A o byrow m c = Ok (cell m c c, d, m') /\ grown {[c]} m m' /\ c ∈ cls m'
  | Err e => ratio_parts A o byrow m c = Err e
  end.
Proof.
  intros HW HO. unfold ratio_parts. destruct (cm_get_classes m) as [cs m1] eqn:E.
  assert (Ecs : cs = cls m) by (unfold cls; rewrite E; reflexivity). assert (E1 : m1 = snd (cm_get_classes m)) by (rewrite E; reflexivity).
  assert (G1 : grown {[c]} m m1) by (rewrite E1; apply grown_classes, HW).
  rewrite Ecs. change (fun k => if byrow then (c, k) else (k, c)) with (cidx byrow c). pose proof (sum_cells_eq A (cidx byrow c) (o (cls m)) (NInt 0) m1 {[c]} (g_wf _ _ _ G1)) as HS.
  assert (HK : forall k, k ∈ o (cls m) -> fst (cidx byrow c k) ∈ keys m1 ∪ {[c]} /\ snd (cidx byrow c k) ∈ keys m1 ∪ {[c]}).
  { intros k Hk. rewrite (HO (cls m)), elem_of_elements in Hk. assert (k ∈ keys m1) by (rewrite E1, keys_classes; apply cls_sub; assumption).
    destruct byrow; cbn [cidx fst snd]; set_solver. }
  specialize (HS HK).
  replace ((fun k => cell m1 (fst (cidx byrow c k)) (snd (cidx byrow c k))) <$> o (cls m)) with ((fun k => cell m (fst (cidx byrow c k)) (snd (cidx byrow c k))) <$> o (cls m)) in HS.
  2:{ apply list_fmap_ext. intros i x _. symmetry. apply G1. }
  destruct (foldM (nadd A) _ (NInt 0)) as [d|e].
  - destruct HS as (m2 & HS & G2). rewrite HS. cbn [bind].
    rewrite cm_get_eq. set (m3 := match look m2 c c with Some _ => m2 | None => _ end).
    assert (E3 : m3 = snd (cm_get m2 c c)) by (rewrite cm_get_eq; reflexivity).
    assert (G3 : grown {[c]} m2 m3) by (rewrite E3; apply grown_get; [apply G2|set_solver|set_solver]).
    exists m3. split.
    + rewrite (g_cells _ _ _ G2), (g_cells _ _ _ G1). reflexivity.
    + split; [eapply grown_trans; [exact G1|]; eapply grown_trans; eassumption|].
      destruct (cls_get m2 c c (g_wf _ _ _ G2)) as (C1 & _ & _). rewrite E3. set_solver.
  - rewrite HS. reflexivity.
Qed.
