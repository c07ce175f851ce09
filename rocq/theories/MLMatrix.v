(** Histories of a confusion matrix, queries, and the matrix of two segmentations. *)
From Coq Require Import Lqa.
From Verif Require Import SpecML FormatProofs Round RoundProofs SimRound SimProofs BedMain BedTheory BedExtra SimStats SimTheory MLProofs MLSums MLMain MLFmeasure.
Open Scope Z_scope.

(** ** Histories *)

Lemma run_snoc A h op : cm_run A (h ++ [op]) = cm_do A (cm_run A h) op.
Proof. unfold cm_run. rewrite foldl_app. reflexivity. Qed.

Lemma cell_do A m op p a : cell (cm_do A m op) p a =
  match op with
  | OSet p' a' v => if decide ((p', a') = (p, a)) then v else cell m p a
  | OAdd p' a' v => if decide ((p', a') = (p, a)) then match nadd A (cell m p a) v with Ok w => w | Err _ => cell m p a end else cell m p a
  | _ => cell m p a
  end.
Proof.
  destruct op; cbn [cm_do].
  - apply cell_row.
  - apply cell_get.
  - apply cell_set.
  - rewrite cm_add_eq. destruct (nadd A (cell m p0 a0) v) as [w|e] eqn:E; cbn [rmap].
    + rewrite cell_set. destruct (decide _) as [D|D]; [|reflexivity]. injection D as -> ->. rewrite E. reflexivity.
    + rewrite cell_get. destruct (decide _) as [D|D]; [|reflexivity]. injection D as -> ->. rewrite E. reflexivity.
  - apply cell_classes.
Qed.

Lemma run_cells A h p a : cell (cm_run A h) p a = stored A (rev h) p a.
Proof.
  induction h as [|op h IH] using rev_ind; [reflexivity|].
  rewrite run_snoc, rev_app_distr, cell_do, IH. cbn [rev app stored]. destruct op; reflexivity.
Qed.

Lemma run_wf A h : wf (cm_run A h).
Proof. apply (wf_reachable A). exists h. reflexivity. Qed.

Lemma keys_do A m op : wf m -> keys (cm_do A m op) = keys m ∪ (op_keys op ∪ op_bare op).
Proof.
  intros HW. destruct op; cbn [cm_do op_keys op_bare].
  - unfold keys. rewrite keys_row. set_solver.
  - destruct (cls_get m p a HW) as (_ & _ & ->). set_solver.
  - unfold keys. rewrite keys_set. set_solver.
  - rewrite cm_add_eq. destruct (nadd A (cell m p a) v); cbn [rmap].
    + unfold keys. rewrite keys_set. set_solver.
    + destruct (cls_get m p a HW) as (_ & _ & ->). set_solver.
  - rewrite keys_classes. set_solver.
Qed.

Lemma union_snoc (f : cm_op -> gset label) h op : ⋃ (f <$> h ++ [op]) = ⋃ (f <$> h) ∪ f op.
Proof. rewrite fmap_app, union_list_app_L. cbn. rewrite (right_id_L ∅ (∪)). reflexivity. Qed.

Lemma run_keys A h : keys (cm_run A h) = keys_of h ∪ bare_of h.
Proof.
  induction h as [|op h IH] using rev_ind; [unfold keys; cbn; set_solver|].
  rewrite run_snoc, keys_do, IH by apply run_wf. unfold keys_of, bare_of. rewrite !union_snoc. set_solver.
Qed.

Lemma cls_row m p : cls (snd (cm_row m p)) = if cm_dirty m then keys m ∪ {[p]} else cls m.
Proof.
  rewrite !cls_eq. unfold keys. rewrite keys_row.
  assert (HD : cm_dirty (snd (cm_row m p)) = cm_dirty m /\ cm_classes (snd (cm_row m p)) = cm_classes m) by (unfold cm_row; destruct (cm_rows m !! p); auto).
  destruct HD as [-> ->]. destruct (cm_dirty m); reflexivity.
Qed.

Lemma cls_do A m op : wf m -> cls m ∪ op_keys op ⊆ cls (cm_do A m op).
Proof.
  intros HW. pose proof (cls_sub m HW) as HS. destruct op; cbn [cm_do op_keys].
  - rewrite cls_row. destruct (cm_dirty m); set_solver.
  - destruct (cls_get m p a HW) as (H & _). exact H.
  - rewrite cls_set. set_solver.
  - rewrite cm_add_eq. destruct (nadd A (cell m p a) v); cbn [rmap]; [rewrite cls_set; set_solver|]. destruct (cls_get m p a HW) as (H & _). exact H.
  - rewrite cls_classes. set_solver.
Qed.

Lemma run_cls A h : keys_of h ⊆ cls (cm_run A h) /\ cls (cm_run A h) ⊆ keys_of h ∪ bare_of h.
Proof.
  split; [|rewrite <- (run_keys A); apply cls_sub, run_wf].
  induction h as [|op h IH] using rev_ind; [apply empty_subseteq|].
  rewrite run_snoc. pose proof (cls_do A _ op (run_wf A h)) as H. unfold keys_of in *. rewrite union_snoc. set_solver.
Qed.

Lemma run_no_bare A h : bare_of h = ∅ -> cls (cm_run A h) = keys_of h.
Proof. intros E. destruct (run_cls A h) as [H1 H2]. rewrite E in H2. set_solver. Qed.

Lemma run_after_write A h p a v : cls (cm_run A (h ++ [OSet p a v])) = keys_of (h ++ [OSet p a v]) ∪ bare_of (h ++ [OSet p a v]).
Proof.
  rewrite run_snoc. cbn [cm_do]. rewrite cls_set, run_keys. unfold keys_of, bare_of. rewrite !union_snoc. cbn [op_keys op_bare]. set_solver.
Qed.

(** ** Queries *)

Definition quiet (F : cmetric) : Prop := forall c m, wf m ->
  (forall x m', cparts F m c = Ok (x, m') -> grown {[c]} m m' /\ c ∈ cls m') /\
  (forall v m', cvalue F m c = Ok (v, m') -> grown {[c]} m m' /\ c ∈ cls m').

Lemma parts_quiet A o byrow m c x m' : wf m -> cord_ok o -> ratio_parts A o byrow m c = Ok (x, m') -> grown {[c]} m m' /\ c ∈ cls m'.
Proof.
  intros HW HO H. pose proof (ratio_parts_eq A o byrow m c HW HO) as K. destruct (foldM _ _ _) as [d|e].
  - destruct K as (m1 & E & G & C). rewrite E in H. injection H as _ <-. auto.
  - rewrite K in H. discriminate.
Qed.

Lemma ratio_quiet A o byrow : cord_ok o -> quiet (the_metric A o byrow).
Proof.
  intros HO c m HW. split.
  - intros x m' H. rewrite the_parts in H. eapply parts_quiet; eassumption.
  - intros v m' H. rewrite the_value in H. destruct (ratio_parts A o byrow m c) as [[x m1]|] eqn:E; [|discriminate]. cbn [bind] in H.
    destruct (ratio_value A _ _); [|discriminate]. cbn [bind] in H. injection H as _ <-. eapply parts_quiet; eassumption.
Qed.

Lemma f_quiet A o beta : cord_ok o -> quiet (fmeasure_metric A o beta).
Proof.
  intros HO c m HW. destruct (ratio_quiet A o true HO c m HW) as [_ HP]. cbn [the_metric cvalue precision_metric] in HP.
  assert (HB : forall p r m1 m2, precision_class A o m c = Ok (p, m1) -> recall_class A o m1 c = Ok (r, m2) -> grown {[c]} m m2 /\ c ∈ cls m2).
  { intros p r m1 m2 E1 E2. destruct (HP _ _ E1) as [G1 C1]. destruct (ratio_quiet A o false HO c m1 (g_wf _ _ _ G1)) as [_ HR].
    destruct (HR _ _ E2) as [G2 C2]. split; [eapply grown_trans; eassumption|exact C2]. }
  split; cbn [cparts cvalue fmeasure_metric].
  - intros x m' H. unfold fmeasure_parts in H. destruct (precision_class A o m c) as [[p m1]|] eqn:E1; [|discriminate]. cbn [bind] in H.
    destruct (recall_class A o m1 c) as [[r m2]|] eqn:E2; [|discriminate]. cbn [bind] in H. destruct (fmeasure_terms A beta p r); [|discriminate].
    cbn [bind] in H. injection H as _ <-. eapply HB; [reflexivity|eassumption].
  - intros v m' H. unfold fmeasure_class in H. destruct (precision_class A o m c) as [[p m1]|] eqn:E1; [|discriminate]. cbn [bind] in H.
    destruct (recall_class A o m1 c) as [[r m2]|] eqn:E2; [|discriminate]. cbn [bind] in H.
    destruct (_ || _); [injection H as _ <-; eapply HB; [reflexivity|eassumption]|]. destruct (fmeasure_terms A beta p r) as [[n d]|]; [|discriminate]. cbn [bind] in H.
    destruct (ndiv A _ _); [|discriminate]. cbn [bind] in H. injection H as _ <-. eapply HB; [reflexivity|eassumption].
Qed.

Lemma foldM_grown {S} (F : cmetric) (step : S * cmatrix -> label -> res (S * cmatrix)) m :
  wf m -> (forall s m1 c s' m2, wf m1 -> step (s, m1) c = Ok (s', m2) -> grown {[c]} m1 m2) ->
  forall l s m1 s' m2, grown ∅ m m1 -> (forall c, c ∈ l -> c ∈ cls m) -> foldM step l (s, m1) = Ok (s', m2) -> grown ∅ m m2.
Proof.
  intros HW HS. induction l as [|c l IH]; intros s m1 s' m2 G Hl H; cbn [foldM] in H; [injection H as _ <-; exact G|].
  destruct (step (s, m1) c) as [[s1 m3]|] eqn:E; [|discriminate]. cbn [bind] in H. apply HS in E; [|apply G].
  eapply IH; [|intros; apply Hl; right; assumption|exact H].
  eapply grown_trans; [exact G|]. eapply grown_absorb; [|exact E]. eapply grown_keys; [exact HW|exact G|apply Hl; left].
Qed.

Lemma average_quiet A o F m c ver v m' : wf m -> cord_ok o -> quiet F -> micro_macro A o F m c ver = Ok (v, m') ->
  grown (match c with Some t => {[Some t]} | None => ∅ end) m m' /\ forall t, c = Some t -> Some t ∈ cls m'.
Proof.
  intros HW HO HQ H. unfold micro_macro in H. rewrite classes_split in H. pose proof (grown_classes ∅ m HW) as G.
  assert (Hin : forall c, c ∈ o (cls m) -> c ∈ cls m) by (intros c0 Hc; rewrite (HO (cls m)) in Hc; apply elem_of_elements, Hc).
  destruct c as [t|].
  - destruct (HQ (Some t) _ (g_wf _ _ _ G)) as [_ HV]. apply HV in H as [G2 C]. split; [eapply grown_trans2; eassumption|]. intros u [= <-]. exact C.
  - split; [|discriminate]. destruct ver; [| |discriminate].
    + destruct (foldM (micro_step A F) _ _) as [[[n d] m2]|] eqn:E; [|discriminate]. cbn [bind] in H.
      assert (G2 : grown ∅ m m2).
      { eapply (foldM_grown F (micro_step A F)); [exact HW| |exact G|exact Hin|exact E].
        intros [n1 d1] m1 c s' m3 HW1 K. unfold micro_step in K. destruct (cparts F m1 c) as [[x m4]|] eqn:EP; [|discriminate]. cbn [bind] in K.
        destruct (nadd A n1 _); [|discriminate]. cbn [bind] in K. destruct (nadd A d1 _); [|discriminate]. cbn [bind] in K. injection K as _ <-.
        destruct (HQ c m1 HW1) as [HQ1 _]; eapply HQ1, EP. }
      destruct (neqb n (NInt 0)); [injection H as _ <-; exact G2|]. destruct (ndiv A _ _); [|discriminate]. cbn [bind] in H. injection H as _ <-. exact G2.
    + destruct (foldM (macro_step F) _ _) as [[vs m2]|] eqn:E; [|discriminate]. cbn [bind] in H.
      assert (G2 : grown ∅ m m2).
      { eapply (foldM_grown F (macro_step F)); [exact HW| |exact G|exact Hin|exact E].
        intros vs1 m1 c s' m3 HW1 K. unfold macro_step in K. destruct (cvalue F m1 c) as [[x m4]|] eqn:EP; [|discriminate]. cbn [bind] in K. injection K as _ <-.
        destruct (HQ c m1 HW1) as [_ HQ1]; eapply HQ1, EP. }
      destruct (mean A vs); [|discriminate]. cbn [bind] in H. injection H as _ <-. exact G2.
Qed.

Lemma ask_quiet A o m q v m' : wf m -> cord_ok o -> ask A o m q = Ok (v, m') ->
  grown (match q_class q with Some t => {[Some t]} | None => ∅ end) m m' /\ forall t, q_class q = Some t -> Some t ∈ cls m'.
Proof.
  intros HW HO H. unfold ask in H. destruct (q_kind q).
  - eapply average_quiet; [exact HW|exact HO|apply (ratio_quiet A o true HO)|exact H].
  - eapply average_quiet; [exact HW|exact HO|apply (ratio_quiet A o false HO)|exact H].
  - eapply average_quiet; [exact HW|exact HO|apply (f_quiet A o beta HO)|exact H].
Qed.

Lemma asked_grown A o m qs m' : wf m -> cord_ok o -> asked A o m qs m' -> grown (classes_asked qs) m m' /\ cls m ∪ classes_asked qs ⊆ cls m'.
Proof.
  intros HW HO H. induction H as [m|m q v m1 qs m2 E _ IH].
  - split; [|unfold classes_asked; cbn; set_solver]. split; [reflexivity|exact HW|set_solver|set_solver].
  - destruct (ask_quiet A o m q v m1 HW HO E) as [G C]. destruct (IH (g_wf _ _ _ G)) as [G2 C2].
    unfold classes_asked in *. rewrite fmap_cons. cbn [union_list foldr].
    set (s := match q_class q with Some t => {[Some t]} | None => ∅ end) in *.
    set (u := ⋃ ((fun q => match q_class q with Some t => {[Some t]} | None => (∅ : gset label) end) <$> qs)) in *.
    split.
    + eapply grown_trans; (eapply grown_weaken; [|eassumption]); set_solver.
    + assert (Hs : s ⊆ cls m1) by (unfold s; destruct (q_class q) as [t|]; [apply singleton_subseteq_l, C; reflexivity|set_solver]).
      pose proof (g_cls _ _ _ G) as K. clear - Hs K C2. set_solver.
Qed.

Theorem queries_keep_cells A o m qs m' : reachable A m -> cord_ok o -> asked A o m qs m' -> forall p a, cell m' p a = cell m p a.
Proof. intros HR HO H. apply wf_reachable in HR. apply (asked_grown A o m qs m' HR HO) in H as [G _]. apply G. Qed.

Lemma queries_classes A o m qs m' : reachable A m -> cord_ok o -> asked A o m qs m' -> no_bare_rows m -> cls m' = cls m ∪ classes_asked qs.
Proof.
  intros HR HO H HB. apply wf_reachable in HR. apply (asked_grown A o m qs m' HR HO) in H as [G C].
  pose proof (cls_sub m' (g_wf _ _ _ G)) as K. pose proof (g_keys _ _ _ G) as K2. unfold no_bare_rows in HB. unfold keys in *.
  clear - HB C K K2. set_solver.
Qed.

Lemma micro_pr_wf A o m : sane A -> wf m -> cord_ok o -> exact_cells A m ->
  rmap fst (precision A o m None AvgMicro) = micro_value A m /\ rmap fst (recall A o m None AvgMicro) = micro_value A m.
Proof.
  intros HA HR HO HE.
  destruct (micro_average A o true m HA HR HO HE) as [H1 H2]. destruct (micro_average A o false m HA HR HO HE) as [H3 H4].
  cbn [the_metric] in *. unfold precision, recall. destruct (micro_value A m) as [v|e].
  - destruct (H1 v eq_refl) as (m1 & -> & _). destruct (H3 v eq_refl) as (m2 & -> & _). auto.
  - rewrite (H2 e eq_refl), (H4 e eq_refl). auto.
Qed.

Lemma queries_micro A o m qs m' : sane A -> reachable A m -> cord_ok o -> exact_cells A m -> asked A o m qs m' ->
  rmap fst (precision A o m' None AvgMicro) = rmap fst (precision A o m None AvgMicro) /\
  rmap fst (recall A o m' None AvgMicro) = rmap fst (recall A o m None AvgMicro).
Proof.
  intros HA HR HO HE H. apply wf_reachable in HR. apply (asked_grown A o m qs m' HR HO) in H as [G _].
  destruct (micro_pr_wf A o m HA HR HO HE) as [-> ->]. destruct (micro_pr_wf A o m' HA (g_wf _ _ _ G) HO (exact_grown _ _ _ _ G HE)) as [-> ->].
  rewrite (micro_value_grown A _ m m' HA HR G). auto.
Qed.

Lemma micro_f_grown ex m m' beta : wf m -> grown ex m m' -> (micro_f m' beta == micro_f m beta)%Q.
Proof.
  intros HW G. unfold micro_f.
  assert (H1 : (csum (fun c => (1 + beta * beta) * class_precision exactA m' c * class_recall exactA m' c) (cls m') ==
    csum (fun c => (1 + beta * beta) * class_precision exactA m c * class_recall exactA m c) (cls m))%Q).
  { rewrite (csum_ext _ (fun c => (1 + beta * beta) * class_precision exactA m c * class_recall exactA m c)%Q).
    2:{ intros k _. destruct (class_grown exactA 0 _ ex m m' k sane_prec_exact HW G) as [-> ->]. reflexivity. }
    apply csum_grow; [apply G|]. intros k Hk. destruct (class_outside exactA m k HW Hk) as [-> ->]. ring. }
  assert (H2 : (csum (fun c => beta * beta * class_precision exactA m' c + class_recall exactA m' c) (cls m') ==
    csum (fun c => beta * beta * class_precision exactA m c + class_recall exactA m c) (cls m))%Q).
  { rewrite (csum_ext _ (fun c => beta * beta * class_precision exactA m c + class_recall exactA m c)%Q).
    2:{ intros k _. destruct (class_grown exactA 0 _ ex m m' k sane_prec_exact HW G) as [-> ->]. reflexivity. }
    apply csum_grow; [apply G|]. intros k Hk. destruct (class_outside exactA m k HW Hk) as [-> ->]. ring. }
  rewrite H1, H2. reflexivity.
Qed.

Lemma queries_micro_f o m qs m' beta : reachable exactA m -> cord_ok o -> tame exactA m -> asked exactA o m qs m' ->
  exists v v' n n', fmeasure exactA o beta m None AvgMicro = Ok (v, n) /\ fmeasure exactA o beta m' None AvgMicro = Ok (v', n') /\ (nval v' == nval v)%Q.
Proof.
  intros HR HO HT H. apply wf_reachable in HR. apply (asked_grown exactA o m qs m' HR HO) in H as [G _].
  destruct (f_micro o beta m HR HO HT) as (v & n & E & _ & V & _). destruct (f_micro o beta m' (g_wf _ _ _ G) HO (tame_grown _ _ _ _ G HT)) as (v' & n' & E' & _ & V' & _).
  exists v, v', n, n'. split; [exact E|]. split; [exact E'|]. rewrite V, V'. eapply micro_f_grown; eassumption.
Qed.

(** Macro-averages are diluted by the classes asked for. *)
Lemma macro_grown ex m m' f f' : wf m -> grown ex m m' -> (forall c, f' c == f c)%Q -> (forall c, c ∉ cls m -> f c == 0)%Q ->
  (macro_value m' f' * inject_Z (Z.of_nat (size (cls m'))) == macro_value m f * inject_Z (Z.of_nat (size (cls m))))%Q.
Proof.
  intros HW G HF HZ. unfold macro_value.
  assert (ES : (csum f' (cls m') == csum f (cls m))%Q).
  { rewrite (csum_ext f' f) by (intros; apply HF). apply csum_grow; [apply G|exact HZ]. }
  assert (HD : forall (s : gset label) x, (s = ∅ -> x == 0)%Q -> (x / inject_Z (Z.of_nat (size s)) * inject_Z (Z.of_nat (size s)) == x)%Q).
  { intros s x Hx. destruct (decide (size s = 0%nat)) as [E|E].
    - rewrite E. apply size_empty_inv in E. apply leibniz_equiv in E. rewrite Hx by exact E. reflexivity.
    - assert (~ inject_Z (Z.of_nat (size s)) == 0)%Q. { revert E. generalize (size s). intros k E. assert (0 < inject_Z (Z.of_nat k))%Q by (apply inj_pos; lia). intros K. rewrite K in H. discriminate. } field. assumption. }
  rewrite !HD; [exact ES| |]; intros E; rewrite E; reflexivity.
Qed.

Lemma queries_macro o m qs m' : reachable exactA m -> cord_ok o -> tame exactA m -> asked exactA o m qs m' ->
  exists v v' n n', precision exactA o m None AvgMacro = Ok (v, n) /\ precision exactA o m' None AvgMacro = Ok (v', n') /\
    (nval v' * inject_Z (Z.of_nat (size (cls m'))) == nval v * inject_Z (Z.of_nat (size (cls m))))%Q.
Proof.
  intros HR HO HT H. apply wf_reachable in HR. apply (asked_grown exactA o m qs m' HR HO) in H as [G _].
  destruct (pr_macro o true m HR HO HT) as (v & n & E & _ & V). destruct (pr_macro o true m' (g_wf _ _ _ G) HO (tame_grown _ _ _ _ G HT)) as (v' & n' & E' & _ & V').
  exists v, v', n, n'. split; [exact E|]. split; [exact E'|]. rewrite V, V'. eapply macro_grown; [exact HR|exact G| |].
  - intros c. destruct (class_grown exactA 0 _ _ m m' c sane_prec_exact HR G) as [-> _]. reflexivity.
  - intros c Hc. destruct (class_outside exactA m c HR Hc) as [-> _]. reflexivity.
Qed.

(** ** The matrix of two segmentations *)

Definition inc := (label * label * num)%type.
Definition cm_incs (A : arith) (l : list inc) (m : cmatrix) : res cmatrix :=
  foldM (fun m '(p, a, v) => cm_add A m p a v) l m.
Definition at_cell (p a : label) (l : list inc) : list num := snd <$> filter (fun x => fst x = (p, a)) l.

Lemma incs_cells A l : forall m m' p a, cm_incs A l m = Ok m' -> foldM (nadd A) (at_cell p a l) (cell m p a) = Ok (cell m' p a).
Proof.
  induction l as [|[[q b] v] l IH]; intros m m' p a H; unfold cm_incs in H; cbn [foldM] in H.
  - injection H as <-. reflexivity.
  - rewrite cm_add_eq in H. destruct (nadd A (cell m q b) v) as [w|] eqn:E; [|discriminate]. cbn [rmap bind] in H.
    specialize (IH _ _ p a H). rewrite cell_set in IH. unfold at_cell in *. rewrite filter_cons. cbn [fst].
    destruct (decide ((q, b) = (p, a))) as [D|D].
    + injection D as -> ->. rewrite fmap_cons. cbn [foldM snd]. rewrite E. exact IH.
    + exact IH.
Qed.

Lemma foldM_map {X Y S} (f : S -> Y -> res S) (g : X -> Y) l : forall s, foldM f (g <$> l) s = foldM (fun s x => f s (g x)) l s.
Proof. induction l as [|x l IH]; intros s; [reflexivity|]. cbn [fmap list_fmap foldM]. destruct (f s (g x)); [apply IH|reflexivity]. Qed.

Lemma foldM_app {X S} (f : S -> X -> res S) l k : forall s, foldM f (l ++ k) s = let* s := foldM f l s in foldM f k s.
Proof. induction l as [|x l IH]; intros s; [reflexivity|]. cbn [app foldM]. destruct (f s x); [apply IH|reflexivity]. Qed.

Definition inc_match (t : Z) : inc := (Some t, Some t, NInt 1).
Definition inc_subst (s : substitution) : inc := (Some (fst s), Some (snd s), NInt 1).
Definition inc_addition (x : addition) : inc :=
  match a_side x with SideA => (None, Some (a_type x), NInt 1) | SideB => (Some (a_type x), None, NInt 1) end.

Lemma foldM_ext {X S} (f g : S -> X -> res S) l : (forall s x, f s x = g s x) -> forall s, foldM f l s = foldM g l s.
Proof. intros H. induction l as [|x l IH]; intros s; [reflexivity|]. cbn [foldM]. rewrite H. destruct (g s x); [apply IH|reflexivity]. Qed.

Lemma transp_incs A W n_t l : forall m m', foldM (cm_transp A W n_t) l m = Ok m' ->
  exists ws, mapM (fun x => w_t W [x] n_t) l = Ok ws /\ cm_incs A (zip_with (fun x w => (Some (t_type x), Some (t_type x), w)) l ws) m = Ok m'.
Proof.
  induction l as [|x l IH]; intros m m' H; cbn [foldM] in H.
  - exists []. split; [reflexivity|exact H].
  - unfold cm_transp at 1 in H. destruct (w_t W [x] n_t) as [w|] eqn:E; [|discriminate]. cbn [bind] in H.
    destruct (cm_add A m _ _ w) as [m1|] eqn:E1; [|discriminate]. destruct (IH _ _ H) as (ws & Ew & Ei).
    exists (w :: ws). cbn [mapM]. rewrite E. cbn [bind]. rewrite Ew. split; [reflexivity|]. unfold cm_incs. cbn [zip_with foldM]. rewrite E1. exact Ei.
Qed.

Lemma matrix_incs A W n_t s m : matrix_of_stats A W n_t s = Ok m ->
  exists ws, mapM (fun x => w_t W [x] n_t) (e_transp (st_edits s)) = Ok ws /\
    cm_incs A ((inc_match <$> st_matches s) ++ zip_with (fun x w => (Some (t_type x), Some (t_type x), w)) (e_transp (st_edits s)) ws ++
      (inc_subst <$> e_sub (st_edits s)) ++ (inc_addition <$> e_add (st_edits s))) cm_empty = Ok m.
Proof.
  unfold matrix_of_stats. intros H.
  destruct (foldM (cm_match A) (st_matches s) cm_empty) as [m1|] eqn:E1; [|discriminate]. cbn [bind] in H.
  destruct (foldM (cm_transp A W n_t) _ m1) as [m2|] eqn:E2; [|discriminate]. cbn [bind] in H.
  destruct (foldM (cm_subst A) _ m2) as [m3|] eqn:E3; [|discriminate]. cbn [bind] in H.
  apply transp_incs in E2 as (ws & Ew & Ei). exists ws. split; [exact Ew|].
  unfold cm_incs in *. rewrite foldM_app, foldM_map. rewrite (foldM_ext _ (cm_match A)) by reflexivity. rewrite E1. cbn [bind].
  rewrite foldM_app, Ei. cbn [bind]. rewrite foldM_app, foldM_map. rewrite (foldM_ext _ (cm_subst A)) by reflexivity. rewrite E3. cbn [bind].
  rewrite foldM_map. rewrite (foldM_ext _ (cm_addition A)); [exact H|]. intros m4 x. unfold inc_addition, cm_addition. destruct (a_side x); reflexivity.
Qed.

Lemma at_app p a l k : at_cell p a (l ++ k) = at_cell p a l ++ at_cell p a k.
Proof. unfold at_cell. rewrite filter_app, fmap_app. reflexivity. Qed.

(** Increments by 1. *)
Lemma at_ones {X} (f : X -> inc) (P : X -> Prop) `{!forall x, Decision (P x)} p a l :
  (forall x, x ∈ l -> (fst (f x) = (p, a) <-> P x) /\ snd (f x) = NInt 1) -> at_cell p a (f <$> l) = replicate (countP P l) (NInt 1).
Proof.
  intros Hf. unfold at_cell, countP. induction l as [|x l IH]; [reflexivity|]. cbn [fmap list_fmap]. rewrite !filter_cons.
  destruct (Hf x ltac:(left)) as [H1 H2].
  assert (IH' := IH ltac:(intros; apply Hf; right; assumption)).
  destruct (decide (fst (f x) = (p, a))) as [D|D]; destruct (decide (P x)) as [D'|D']; try (exfalso; tauto).
  - rewrite fmap_cons. cbn [length replicate]. rewrite H2. f_equal. exact IH'.
  - exact IH'.
Qed.

Lemma sum_ones A n : forall k, foldM (nadd A) (replicate n (NInt 1)) (NInt k) = Ok (NInt (k + Z.of_nat n)).
Proof. induction n as [|n IH]; intros k; [rewrite Z.add_0_r; reflexivity|]. cbn [replicate foldM nadd num2]. cbn [bind]. rewrite IH. do 2 f_equal. lia. Qed.

Lemma at_transp {X} (W : X -> res num) (ty : X -> Z) (l : list X) : forall ws, mapM W l = Ok ws -> forall p a,
  match p, a with
  | Some t, Some u => if decide (t = u) then mapM W (filter (fun x => ty x = t) l) = Ok (at_cell p a (zip_with (fun x w => (Some (ty x), Some (ty x), w)) l ws))
                      else at_cell p a (zip_with (fun x w => (Some (ty x), Some (ty x), w)) l ws) = []
  | _, _ => at_cell p a (zip_with (fun x w => (Some (ty x), Some (ty x), w)) l ws) = []
  end.
Proof.
  induction l as [|x l IH]; intros ws H p a.
  - injection H as <-. destruct p, a; try reflexivity. destruct (decide _); reflexivity.
  - cbn [mapM] in H. destruct (W x) as [w|] eqn:E; [|discriminate]. cbn [bind] in H. destruct (mapM W l) as [vs|] eqn:E2; [|discriminate].
    cbn [bind] in H. injection H as <-. cbn [zip_with]. unfold at_cell in *. rewrite !filter_cons. cbn [fst]. specialize (IH vs eq_refl p a).
    destruct p as [t|], a as [u|]; try (rewrite decide_False by congruence; exact IH).
    destruct (decide (t = u)) as [->|D].
    + rewrite filter_cons. destruct (decide (ty x = u)) as [->|D].
      * rewrite decide_True by reflexivity. cbn [mapM fmap list_fmap]. rewrite E. cbn [bind]. rewrite IH. reflexivity.
      * rewrite decide_False by congruence. exact IH.
    + rewrite decide_False by congruence. exact IH.
Qed.

Theorem matrix_cells A E W f n_t sa sb x y e m : env_ok E -> to_bstrings f sa sb = Ok (x, y) ->
  boundary_edit_distance E x y n_t = Ok e -> boundary_confusion_matrix A E W f n_t sa sb = Ok m ->
  (forall t u, t <> u -> cell m (Some t) (Some u) = NInt (Z.of_nat (countP (fun s => s = (t, u)) (e_sub e)))) /\
  (forall t, cell m None (Some t) = NInt (Z.of_nat (countP (fun a => a = Addition t SideA) (e_add e)))) /\
  (forall t, cell m (Some t) None = NInt (Z.of_nat (countP (fun a => a = Addition t SideB) (e_add e)))) /\
  cell m None None = NInt 0 /\
  (forall t, exists ws, near_misses W n_t t (e_transp e) = Ok ws /\
     foldM (nadd A) ws (NInt (Z.of_nat (both_in x y t))) = Ok (cell m (Some t) (Some t))).
Proof.
  intros HE Hb He Hm. unfold boundary_confusion_matrix in Hm. destruct (boundary_statistics A E W f n_t sa sb) as [s|] eqn:Hs; [|discriminate].
  cbn [bind] in Hm. destruct (statistics_consistent _ _ _ _ _ _ _ _ _ _ HE Hb Hs) as (He' & HM & _). rewrite He in He'. injection He' as Es.
  apply matrix_incs in Hm as (ws & Ew & Hm). rewrite <- Es in *. pose proof (to_bstrings_length _ _ _ _ _ Hb) as Hl.
  assert (Hsub : forall u v, (u, v) ∈ e_sub e -> u <> v) by (intros u v K; apply (bed_sub_types _ _ _ _ _ _ _ HE Hl He K)).
  assert (HC : forall p a, foldM (nadd A) (at_cell p a (inc_match <$> st_matches s) ++
      at_cell p a (zip_with (fun x w => (Some (t_type x), Some (t_type x), w)) (e_transp e) ws) ++
      at_cell p a (inc_subst <$> e_sub e) ++ at_cell p a (inc_addition <$> e_add e)) (NInt 0) = Ok (cell m p a)).
  { intros p a. rewrite <- !at_app. apply (incs_cells A _ cm_empty m p a Hm). }
  assert (none : forall {X} (l : list X), countP (fun _ => False) l = 0%nat) by (intros X l; unfold countP; induction l as [|z l IH]; [reflexivity|]; rewrite filter_cons; exact IH).
  assert (HT := at_transp (fun x => w_t W [x] n_t) t_type (e_transp e) ws Ew). split; [|split; [|split; [|split]]].
  - intros t u D. specialize (HC (Some t) (Some u)). specialize (HT (Some t) (Some u)). cbv beta iota in HT. rewrite decide_False in HT by exact D. rewrite HT in HC.
    rewrite (at_ones inc_match (fun _ => False)) in HC by (intros z _; split; [split; [intros [= -> ->]; congruence|tauto]|reflexivity]).
    rewrite (at_ones inc_subst (fun s => s = (t, u))) in HC by (intros [z1 z2] _; split; [cbn; split; [intros [= -> ->]; reflexivity|intros [= -> ->]; reflexivity]|reflexivity]).
    rewrite (at_ones inc_addition (fun _ => False)) in HC by (intros [z [|]] _; (split; [split; [discriminate|tauto]|reflexivity])).
    rewrite !none in HC. cbn [replicate app] in HC. rewrite app_nil_r, sum_ones in HC. injection HC as <-. reflexivity.
  - intros t. specialize (HC None (Some t)). specialize (HT None (Some t)). cbv beta iota in HT. rewrite HT in HC.
    rewrite (at_ones inc_match (fun _ => False)) in HC by (intros z _; split; [split; [discriminate|tauto]|reflexivity]).
    rewrite (at_ones inc_subst (fun _ => False)) in HC by (intros z _; split; [split; [discriminate|tauto]|reflexivity]).
    rewrite (at_ones inc_addition (fun a => a = Addition t SideA)) in HC by (intros [z [|]] _; (split; [split; [intros [= ->]; reflexivity || discriminate|intros [= ->]; reflexivity || discriminate]|reflexivity])).
    rewrite !none in HC. cbn [replicate app] in HC. rewrite sum_ones in HC. injection HC as <-. reflexivity.
  - intros t. specialize (HC (Some t) None). specialize (HT (Some t) None). cbv beta iota in HT. rewrite HT in HC.
    rewrite (at_ones inc_match (fun _ => False)) in HC by (intros z _; split; [split; [discriminate|tauto]|reflexivity]).
    rewrite (at_ones inc_subst (fun _ => False)) in HC by (intros z _; split; [split; [discriminate|tauto]|reflexivity]).
    rewrite (at_ones inc_addition (fun a => a = Addition t SideB)) in HC by (intros [z [|]] _; (split; [split; [intros [= ->]; reflexivity || discriminate|intros [= ->]; reflexivity || discriminate]|reflexivity])).
    rewrite !none in HC. cbn [replicate app] in HC. rewrite sum_ones in HC. injection HC as <-. reflexivity.
  - specialize (HC None None). specialize (HT None None). cbv beta iota in HT. rewrite HT in HC.
    rewrite (at_ones inc_match (fun _ => False)) in HC by (intros z _; split; [split; [discriminate|tauto]|reflexivity]).
    rewrite (at_ones inc_subst (fun _ => False)) in HC by (intros z _; split; [split; [discriminate|tauto]|reflexivity]).
    rewrite (at_ones inc_addition (fun _ => False)) in HC by (intros [z [|]] _; (split; [split; [discriminate|tauto]|reflexivity])).
    rewrite !none in HC. cbn in HC. injection HC as <-. reflexivity.
  - intros t. specialize (HC (Some t) (Some t)). specialize (HT (Some t) (Some t)). cbv beta iota in HT. rewrite decide_True in HT by reflexivity.
    eexists. split; [exact HT|].
    rewrite (at_ones inc_match (fun z => z = t)) in HC by (intros z _; split; [cbn; split; [intros [= ->]; reflexivity|intros ->; reflexivity]|reflexivity]).
    rewrite (at_ones inc_subst (fun _ => False)) in HC by (intros [u v] K; split; [split; [cbn; intros [= -> ->]; destruct (Hsub t t K eq_refl)|tauto]|reflexivity]).
    rewrite (at_ones inc_addition (fun _ => False)) in HC by (intros [z [|]] _; (split; [split; [discriminate|tauto]|reflexivity])).
    rewrite !none in HC. cbn [replicate app] in HC. rewrite app_nil_r, foldM_app, HM, sum_ones in HC. cbn [bind] in HC. exact HC.
Qed.

(** With the default weights and exact arithmetic a near miss counts its span over [n_t]. *)
Lemma near_miss_sum n_t t l k : n_t <> 0 -> Forall (fun x => t_start x < t_end x)%nat l ->
  exists ws v, near_misses (default_weights exactA) n_t t l = Ok ws /\ foldM (nadd exactA) ws (NInt k) = Ok v /\ not_float v /\
    (nval v == inject_Z k + inject_Z (spanned (filter (fun x => t_type x = t) l)) / inject_Z n_t)%Q.
Proof.
  intros Hn Hl. unfold near_misses. set (fl := filter (fun x => t_type x = t) l).
  assert (HF : Forall (fun x => t_start x < t_end x)%nat fl) by (apply Forall_forall; intros x Hx; apply elem_of_list_filter in Hx as [_ Hx]; rewrite Forall_forall in Hl; apply Hl, Hx).
  assert (HW : exists ws, mapM (fun x => w_t (default_weights exactA) [x] n_t) fl = Ok ws /\ Forall (Pex exactA) ws /\ (qsum (nval <$> ws) == inject_Z (spanned fl) / inject_Z n_t)%Q).
  { clearbody fl. clear Hl l. induction HF as [|x fl Hx HF IH].
    - exists []. split; [reflexivity|]. split; [constructor|]. unfold Qdiv. rewrite fmap_nil, qsum_nil. change (inject_Z (spanned [])) with 0%Q. ring.
    - destruct IH as (ws & E & P & V). cbn [mapM].
      assert (E1 : w_t (default_weights exactA) [x] n_t = Ok (NDec (rd exactA (inject_Z (0 + Z.abs (Z.of_nat (t_start x) - Z.of_nat (t_end x))) / inject_Z n_t)))).
      { cbn [default_weights w_t]. unfold weight_t_scale, weight_scale. cbn [fmap list_fmap foldl ndiv]. rewrite qzero_inject by exact Hn. reflexivity. }
      rewrite E1. cbn [bind].
      rewrite E. cbn [bind]. eexists. split; [reflexivity|]. split; [constructor; [right; split; [reflexivity|exact I]|exact P]|].
      rewrite fmap_cons, qsum_cons, V. cbn [nval exactA rd]. rewrite Qred_correct. unfold spanned. rewrite fmap_cons, zsum_cons.
      replace (0 + Z.abs (Z.of_nat (t_start x) - Z.of_nat (t_end x))) with (Z.of_nat (t_end x) - Z.of_nat (t_start x)) by lia. rewrite inject_Z_plus. unfold Qdiv. ring. }
  destruct HW as (ws & E & P & V). destruct (exact_sum exactA ws (NInt k)) as (v & Ev & Pv & Vv); [left; exact I|exact P|].
  exists ws, v. split; [exact E|]. split; [exact Ev|]. split; [eapply Pex_not_float, Pv|]. rewrite Vv, V. reflexivity.
Qed.

Lemma matrix_diagonal E f n_t sa sb x y e m t : env_ok E -> n_t <> 0 -> to_bstrings f sa sb = Ok (x, y) ->
  boundary_edit_distance E x y n_t = Ok e -> boundary_confusion_matrix exactA E (default_weights exactA) f n_t sa sb = Ok m ->
  (nval (cell m (Some t) (Some t)) == inject_Z (Z.of_nat (both_in x y t)) + inject_Z (spanned (filter (fun x => t_type x = t) (e_transp e))) / inject_Z n_t)%Q.
Proof.
  intros HE Hn Hb He Hm. destruct (matrix_cells _ _ _ _ _ _ _ _ _ _ _ HE Hb He Hm) as (_ & _ & _ & _ & HD).
  destruct (HD t) as (ws & E1 & E2). pose proof (to_bstrings_length _ _ _ _ _ Hb) as Hl.
  destruct (near_miss_sum n_t t (e_transp e) (Z.of_nat (both_in x y t)) Hn) as (ws' & v & E3 & E4 & _ & V).
  - exact (bed_starts _ _ _ _ _ HE Hl He).
  - rewrite E1 in E3. injection E3 as <-. rewrite E2 in E4. injection E4 as <-. exact V.
Qed.

(** Every boundary of either segmentation is accounted for once in row or column. *)
Lemma matrix_margins A E W f n_t sa sb x y e m t : env_ok E -> small_types x y -> to_bstrings f sa sb = Ok (x, y) ->
  boundary_edit_distance E x y n_t = Ok e -> boundary_confusion_matrix A E W f n_t sa sb = Ok m ->
  cell m None (Some t) = NInt (Z.of_nat (only_in x y t) - Z.of_nat (countP (fun s => fst s = t) (e_sub e)) - Z.of_nat (countP (fun z => t_type z = t) (e_transp e))) /\
  cell m (Some t) None = NInt (Z.of_nat (only_in y x t) - Z.of_nat (countP (fun s => snd s = t) (e_sub e)) - Z.of_nat (countP (fun z => t_type z = t) (e_transp e))).
Proof.
  intros HE HS Hb He Hm. pose proof (to_bstrings_length _ _ _ _ _ Hb) as Hl.
  destruct (matrix_cells _ _ _ _ _ _ _ _ _ _ _ HE Hb He Hm) as (_ & HA & HB & _). rewrite HA, HB.
  destruct (bed_conserves _ _ _ _ _ t HE HS Hl He) as [H1 H2]. split; f_equal; lia.
Qed.

(** The matrix exists whenever the statistics do, for the default weights. *)
Lemma default_matrix_ok A E f n_t sa sb s : n_t <> 0 -> boundary_statistics A E (default_weights A) f n_t sa sb = Ok s ->
  exists m, boundary_confusion_matrix A E (default_weights A) f n_t sa sb = Ok m.
Proof.
  intros Hn Hs. unfold boundary_confusion_matrix. rewrite Hs. cbn [bind]. unfold matrix_of_stats.
  assert (Hfloat : forall m, (forall p a, not_float (cell m p a)) -> forall p a v, not_float v -> exists m', cm_add A m p a v = Ok m' /\ forall p a, not_float (cell m' p a)).
  { intros m H p a v Hv. rewrite cm_add_eq. assert (K : exists w, nadd A (cell m p a) v = Ok w /\ not_float w).
    { specialize (H p a). destruct (cell m p a), v; try contradiction; eexists; (split; [reflexivity|exact I]). }
    destruct K as (w & -> & Hw). cbn [rmap]. eexists. split; [reflexivity|]. intros q b. rewrite cell_set. destruct (decide _); [exact Hw|apply H]. }
  assert (HFold : forall X (step : cmatrix -> X -> res cmatrix) l, (forall m x, (forall p a, not_float (cell m p a)) -> exists m', step m x = Ok m' /\ forall p a, not_float (cell m' p a)) ->
    forall m, (forall p a, not_float (cell m p a)) -> exists m', foldM step l m = Ok m' /\ forall p a, not_float (cell m' p a)).
  { intros X step l HS. induction l as [|z l IH]; intros m H; [eauto|]. destruct (HS m z H) as (m1 & E1 & H1). cbn [foldM]. rewrite E1. cbn [bind]. apply IH, H1. }
  destruct (HFold _ (cm_match A) (st_matches s)) with (m := cm_empty) as (m1 & E1 & H1).
  { intros m z H. apply Hfloat; [exact H|exact I]. } { intros p a. exact I. }
  rewrite E1. cbn [bind]. destruct (HFold _ (cm_transp A (default_weights A) n_t) (e_transp (st_edits s))) with (m := m1) as (m2 & E2 & H2); [|exact H1|].
  { intros m z H. unfold cm_transp. cbn [default_weights w_t]. unfold weight_t_scale, weight_scale. cbn [ndiv]. rewrite qzero_inject by exact Hn. cbn [bind]. apply Hfloat; [exact H|exact I]. }
  rewrite E2. cbn [bind]. destruct (HFold _ (cm_subst A) (e_sub (st_edits s))) with (m := m2) as (m3 & E3 & H3); [|exact H2|].
  { intros m z H. apply Hfloat; [exact H|exact I]. }
  rewrite E3. cbn [bind]. destruct (HFold _ (cm_addition A) (e_add (st_edits s))) with (m := m3) as (m4 & E4 & H4); [|exact H3|].
  { intros m z H. unfold cm_addition. destruct (a_side z); apply Hfloat; try exact H; exact I. }
  rewrite E4. eauto.
Qed.
