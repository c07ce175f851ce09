(** The metrics on matrix objects follow those on matrix values. *)
From Verif Require Import SpecQuery MatrixMain FormatProofs Round RoundProofs SimRound SimProofs MLProofs MLSums MLMain MLFmeasure MLMatrix.
Open Scope Z_scope.

Lemma looked_refl M : looked_at M M.
Proof. exists []. auto. Qed.

Lemma looked_trans M M' M'' : looked_at M M' -> looked_at M' M'' -> looked_at M M''.
Proof. intros (l & K1 & ->) (l' & K2 & ->). exists (l ++ l'). rewrite forallb_app, K1, K2, foldl_app. auto. Qed.

Lemma und_refl H : undisturbed H H.
Proof. split; auto. intros m M V. exists M. split; [exact V|apply looked_refl]. Qed.

Lemma und_trans H H' H'' : undisturbed H H' -> undisturbed H' H'' -> undisturbed H H''.
Proof.
  intros [A1 A2 A3 A4] [B1 B2 B3 B4]. split; auto. intros m M V. destruct (A1 m M V) as (M' & V' & L'). destruct (B1 m M' V') as (M'' & V'' & L'').
  exists M''. split; [exact V''|]. eapply looked_trans; eassumption.
Qed.

(** A computation on matrix [m] that amounts to [g] on its value. *)
Definition follows {X} (m : nat) (f : hm X) (g : cmatrix -> res (X * cmatrix)) : Prop := forall H M, mreach H -> view H m = Some M ->
  exists r H' M', f H = Some (r, H') /\ mreach H' /\ view H' m = Some M' /\ only m H H' /\ undisturbed H H' /\
    match g M with Ok (x, M'') => r = Ok x /\ M' = M'' | Err e => r = Err e end.

Lemma follows_lift {X} m (r : res X) : follows m (hlift r) (fun M => let* x := r in Ok (x, M)).
Proof.
  intros H M R V. exists r, H, M. split; [reflexivity|]. split; [exact R|]. split; [exact V|]. split; [intros m' _; reflexivity|]. split; [apply und_refl|].
  destruct r; cbn; auto.
Qed.

Lemma follows_ext {X} m (f : hm X) g g' : (forall M, g M = g' M) -> follows m f g -> follows m f g'.
Proof. intros E F H M R V. destruct (F H M R V) as (r & H' & M' & K). exists r, H', M'. rewrite <- E. exact K. Qed.

Lemma follows_bind {X Y} m (f : hm X) g (f' : X -> hm Y) g' : follows m f g -> (forall x, follows m (f' x) (g' x)) ->
  follows m (hbind f f') (fun M => let* (x, M') := g M in g' x M').
Proof.
  intros F F' H M R V. destruct (F H M R V) as (r & H1 & M1 & E & R1 & V1 & O1 & Q1 & K). unfold hbind. rewrite E. destruct (g M) as [[x M1']|e].
  - destruct K as [-> <-]. destruct (F' x H1 M1 R1 V1) as (r2 & H2 & M2 & E2 & R2 & V2 & O2 & Q2 & K2). exists r2, H2, M2. split; [exact E2|]. split; [exact R2|].
    split; [exact V2|]. split; [intros m' N; rewrite (O2 m' N); apply O1, N|]. split; [eapply und_trans; eassumption|]. exact K2.
  - subst r. exists (Err e), H1, M1. cbn. auto 10.
Qed.

Lemma follows_fold {X S} m (f : S -> X -> hm S) g : (forall s x, follows m (f s x) (g s x)) -> forall l s,
  follows m (hfold f l s) (fun M => foldM (fun '(s, M) x => g s x M) l (s, M)).
Proof.
  intros F. induction l as [|x l IH]; intros s; cbn [hfold foldM].
  - exact (follows_lift m (Ok s)).
  - refine (follows_ext _ _ _ _ _ (follows_bind m _ (g s x) _ (fun s' M => foldM (fun '(s, M) x => g s x M) l (s', M)) (F s x) (fun s' => IH s'))).
    intros M. destruct (g s x M) as [[s' M']|e]; reflexivity.
Qed.

Lemma view_some H m : mh_mats H !! m <> None -> exists M, view H m = Some M.
Proof. unfold view. destruct (mh_mats H !! m); [eauto|intros []; reflexivity]. Qed.

Lemma only_und m H H' M M' : only m H H' -> view H m = Some M -> view H' m = Some M' -> looked_at M M' -> (forall m p r, is_row H m p r -> is_row H' m p r) ->
  (forall s c, mh_sets H !! s = Some c -> mh_sets H' !! s = Some c) -> undisturbed H H'.
Proof.
  intros O V V' L Rw Ss. split; [| |exact Rw|exact Ss].
  - intros k N K. destruct (decide (k = m)) as [->|D]; [|rewrite (O k D); exists N; split; [exact K|apply looked_refl]].
    assert (N = M) as -> by congruence. eauto.
  - intros k K. destruct (decide (k = m)) as [->|D]; [congruence|]. rewrite (O k D). exact K.
Qed.

Lemma follows_cell m p a : follows m (h_cell m p a) (fun M => Ok (cm_get M p a)).
Proof.
  intros H M R V. pose proof (reach_inv H R) as I.
  assert (exists r H1, get_row H m p = Some (r, H1)) as (r & H1 & E1).
  { unfold view in V. unfold get_row. destruct (mh_mats H !! m) as [o|]; [|discriminate V]. cbn. destruct (mo_rows o !! p); eauto. }
  assert (S1 : mstep H (MRow m p) = Some (MRef r, H1)) by (cbn; rewrite E1; reflexivity).
  destruct (matrix_row H m p r H1 R S1) as (Hr & O1 & K1 & M0 & V0 & V1). assert (M0 = M) as -> by congruence. clear V0.
  assert (R1 : mreach H1) by (eapply Reach_step; eassumption).
  destruct (matrix_get H1 m p r a R1 Hr) as (M1 & H2 & V1' & S2 & V2 & O2 & K2). assert (M1 = snd (cm_row M p)) as -> by congruence.
  assert (R2 : mreach H2) by (eapply Reach_step; eassumption).
  pose proof S2 as S2'. cbn in S2. destruct (get_cell H1 r a) as [[v H2']|] eqn:E2; [|discriminate S2]. cbn in S2. injection S2 as Ev ->.
  exists (Ok v), H2, (snd (cm_get M p a)). unfold h_cell. rewrite E1, E2. rewrite <- get_twice in Ev, V2.
  split; [reflexivity|]. split; [exact R2|]. split; [exact V2|]. assert (O : only m H H2) by (intros m' N; rewrite (O2 m' N); apply O1, N). split; [exact O|]. split.
  - eapply only_und; [exact O|exact V|exact V2| |intros; apply K2, K1; assumption|].
    + exists [OGet p a]. split; reflexivity.
    + intros s c K. eapply set_stable; [exact R1|exact S2'|discriminate|]. eapply set_stable; [exact R|exact S1|discriminate|exact K].
  - destruct (cm_get M p a) as [v' M']. cbn in *. subst. auto.
Qed.

Lemma follows_classes m : follows m (h_classes m) (fun M => Ok (cm_get_classes M)).
Proof.
  intros H M R V. pose proof (reach_inv H R) as I.
  assert (exists s H1, get_classes H m = Some (s, H1)) as (s & H1 & E1).
  { unfold view in V. unfold get_classes. destruct (mh_mats H !! m) as [o|]; [|discriminate V]. cbn. destruct (mo_dirty o); eauto. }
  assert (S1 : mstep H (MClasses m) = Some (MRef s, H1)) by (cbn; rewrite E1; reflexivity).
  destruct (matrix_classes H m s H1 R S1) as (O & K & M0 & V0 & V1 & Es). assert (M0 = M) as -> by congruence. clear V0.
  exists (Ok (fst (cm_get_classes M))), H1, (snd (cm_get_classes M)). unfold h_classes. rewrite E1, Es. split; [reflexivity|].
  split; [eapply Reach_step; eassumption|]. split; [exact V1|]. split; [exact O|]. split.
  - eapply only_und; [exact O|exact V|exact V1| |exact K|].
    + exists [OClasses]. split; reflexivity.
    + intros s' c Z. eapply set_stable; [exact R|exact S1|discriminate|exact Z].
  - destruct (cm_get_classes M). auto.
Qed.

(** ** The metrics *)

Lemma fold_same {S X} (f g : S -> X -> res S) l s : (forall s x, f s x = g s x) -> foldM f l s = foldM g l s.
Proof. intros K. revert s. induction l as [|x l IH]; intros s; [reflexivity|]. cbn [foldM]. rewrite K. destruct (g s x); cbn [bind]; [apply IH|reflexivity]. Qed.

Section Metrics.
Context (A : arith) (o : cord).

Lemma follows_parts byrow m c : follows m (h_parts A o byrow m c) (fun M => ratio_parts A o byrow M c).
Proof.
  eapply follows_ext; [|unfold h_parts; apply follows_bind; [apply follows_classes|intros cs; apply follows_bind; [apply follows_fold with (g := fun d k M => let '(v, M) := cm_get M (fst (if byrow then (c, k) else (k, c))) (snd (if byrow then (c, k) else (k, c))) in let* d := nadd A d v in Ok (d, M))|intros d; apply follows_bind; [apply follows_cell|intros n; apply follows_lift]]]].
  - intros M. unfold ratio_parts. cbn [bind]. destruct (cm_get_classes M) as [cs M1]. unfold sum_cells.
    rewrite (fold_same _ (fun acc k => let '(d, M) := acc in let '(v, M) := cm_get M (fst (if byrow then (c, k) else (k, c))) (snd (if byrow then (c, k) else (k, c))) in let* d := nadd A d v in Ok (d, M))) by (intros [d N] k; reflexivity).
    destruct (foldM _ (o cs) (NInt 0, M1)) as [[d M2]|e]; [|reflexivity]. cbn [bind]. destruct (cm_get M2 c c). reflexivity.
  - intros d k. destruct byrow; cbn [fst snd]; (eapply follows_ext; [|apply follows_bind; [apply follows_cell|intros v; apply follows_lift]]);
      intros M; cbn; destruct (cm_get M _ _); reflexivity.
Qed.

Lemma follows_ratio byrow m c : follows m (h_ratio A o byrow m c) (fun M => if byrow then precision_class A o M c else recall_class A o M c).
Proof.
  eapply follows_ext; [|unfold h_ratio; apply follows_bind with (g' := fun nd M => let* x := ratio_value A (fst nd) (snd nd) in Ok (x, M)); [apply follows_parts|intros [n d]; apply follows_lift]].
  intros M. destruct byrow; reflexivity.
Qed.

Lemma follows_fparts beta m c : follows m (h_fmeasure_parts A o beta m c) (fun M => fmeasure_parts A o beta M c).
Proof.
  eapply follows_ext; [|unfold h_fmeasure_parts; apply follows_bind; [apply follows_ratio|intros p; apply follows_bind; [apply follows_ratio|intros r; apply follows_lift]]].
  reflexivity.
Qed.

Lemma follows_f beta m c : follows m (h_fmeasure A o beta m c) (fun M => fmeasure_class A o beta M c).
Proof.
  eapply follows_ext; [|unfold h_fmeasure; apply follows_bind; [apply follows_ratio|intros p; apply follows_bind; [apply follows_ratio|intros r]]].
  2:{ instantiate (1 := fun r M => let* x := (if neqb p (NInt 0) || neqb r (NInt 0) then Ok (NInt 0) else let* (n, d) := fmeasure_terms A beta p r in ndiv A (to_dec n) (to_dec d)) in Ok (x, M)).
      cbn beta. destruct (neqb p (NInt 0) || neqb r (NInt 0)); apply follows_lift. }
  intros M. unfold fmeasure_class. destruct (precision_class A o M c) as [[p M1]|e]; [|reflexivity]. cbn [bind]. destruct (recall_class A o M1 c) as [[r M2]|e]; [|reflexivity]. cbn [bind].
  destruct (neqb p (NInt 0) || neqb r (NInt 0)); [reflexivity|]. destruct (fmeasure_terms A beta p r) as [[n d]|e]; reflexivity.
Qed.

Definition metric_of (k : hkind) : cmetric :=
  match k with HPrecision => precision_metric A o | HRecall => recall_metric A o | HFmeasure beta => fmeasure_metric A o beta end.

Lemma follows_mparts k m c : follows m (h_metric_parts A o k m c) (fun M => cparts (metric_of k) M c).
Proof. destruct k; [apply (follows_parts true)|apply (follows_parts false)|apply follows_fparts]. Qed.

Lemma follows_metric k m c : follows m (h_metric A o k m c) (fun M => cvalue (metric_of k) M c).
Proof. destruct k; [apply (follows_ratio true)|apply (follows_ratio false)|apply follows_f]. Qed.

Lemma follows_query k m c v : follows m (h_query A o k m c v) (fun M => ask A o M (Query (kind_of k) c v)).
Proof.
  assert (X : forall M, ask A o M (Query (kind_of k) c v) = micro_macro A o (metric_of k) M c v) by (intros M; destruct k; reflexivity).
  eapply follows_ext; [intros M; symmetry; apply X|]. clear X. unfold h_query.
  eapply follows_ext; [|apply follows_bind; [apply follows_classes|intros cs]]; cycle 1.
  { instantiate (1 := fun cs M => match c with
      | Some t => cvalue (metric_of k) M (Some t)
      | None => match v with
        | AvgMicro => let* (nd, m) := foldM (micro_step A (metric_of k)) (o cs) (NInt 0, NInt 0, M) in
            let '(n, d) := nd in if neqb n (NInt 0) then Ok (NInt 0, m) else let* v := ndiv A (to_dec n) d in Ok (v, m)
        | AvgMacro => let* (vs, m) := foldM (macro_step (metric_of k)) (o cs) ([], M) in let* v := mean A vs in Ok (v, m)
        | AvgOther => Err SegmentationMetricError
        end end). cbn beta.
    destruct c as [t|]; [apply follows_metric|]. destruct v.
    - eapply follows_ext; [|apply follows_bind with (g' := fun nd M => if neqb (fst nd) (NInt 0) then Ok (NInt 0, M) else let* v := ndiv A (to_dec (fst nd)) (snd nd) in Ok (v, M)); [apply follows_fold with (g := fun acc c M => micro_step A (metric_of k) (acc, M) c)|intros [n d]]].
      + intros M. cbn beta. rewrite (fold_same _ (micro_step A (metric_of k))) by (intros [s N] x; reflexivity). destruct (foldM (micro_step A (metric_of k)) _ _) as [[[n d] M']|e]; reflexivity.
      + intros [n d] x. eapply follows_ext; [|apply follows_bind with (g' := fun cnd M => let* x := (let* n := nadd A n (fst cnd) in let* d := nadd A d (snd cnd) in Ok (n, d)) in Ok (x, M)); [apply follows_mparts|intros [cn cd]; apply follows_lift]].
        intros M. cbn. destruct (cparts (metric_of k) M x) as [[[cn cd] M']|e]; [|reflexivity]. cbn. destruct (nadd A n cn); [|reflexivity]. cbn. destruct (nadd A d cd); reflexivity.
      + cbn [fst snd]. destruct (neqb n (NInt 0)); [exact (follows_lift m (Ok (NInt 0)))|apply follows_lift].
    - eapply follows_ext; [|apply follows_bind; [apply follows_fold with (g := fun acc c M => macro_step (metric_of k) (acc, M) c)|intros vs; apply follows_lift]].
      + intros M. cbn beta. rewrite (fold_same _ (macro_step (metric_of k))) by (intros [s N] x; reflexivity). destruct (foldM (macro_step (metric_of k)) _ _) as [[vs M']|e]; reflexivity.
      + intros vs x. eapply follows_ext; [|apply follows_bind; [apply follows_metric|intros w; apply follows_lift]]. intros M. cbn. destruct (cvalue (metric_of k) M x) as [[w M']|e]; reflexivity.
    - eapply follows_ext; [|apply (follows_lift m (Err SegmentationMetricError))]. reflexivity. }
  intros M. unfold micro_macro. cbn [bind]. destruct (cm_get_classes M) as [cs M1]. destruct c; [reflexivity|]. destruct v; reflexivity.
Qed.

End Metrics.

(** ** Theorems *)

Theorem query_value A o k m c v H M : mreach H -> view H m = Some M ->
  exists r H' M', h_query A o k m c v H = Some (r, H') /\ mreach H' /\ view H' m = Some M' /\ only m H H' /\ undisturbed H H' /\
    match ask A o M (Query (kind_of k) c v) with Ok (x, M'') => r = Ok x /\ M' = M'' | Err e => r = Err e end.
Proof. intros R V. exact (follows_query A o k m c v H M R V). Qed.

Lemma looked_cells M M' : looked_at M M' -> forall p a, cell M' p a = cell M p a.
Proof.
  intros (ops & L & ->) p a. revert M. induction ops as [|op ops IH]; intros M; [reflexivity|]. cbn in L. apply andb_prop in L as [L1 L2]. cbn [foldl]. rewrite (IH L2).
  rewrite cell_do. destruct op; try discriminate L1; reflexivity.
Qed.

Lemma looked_reach A M M' : reachable A M -> looked_at M M' -> reachable A M'.
Proof.
  intros (h & ->) (ops & L & ->). exists (h ++ ops). unfold cm_run. rewrite foldl_app. generalize (foldl (cm_do A) cm_empty h). clear h. intros M.
  revert M. induction ops as [|op ops IH]; intros M; [reflexivity|]. cbn in L. apply andb_prop in L as [L1 L2]. cbn [foldl]. rewrite (IH L2). destruct op; try discriminate L1; reflexivity.
Qed.

Lemma looked_grown M M' : wf M -> looked_at M M' -> exists ex, grown ex M M'.
Proof.
  intros W (ops & L & ->). revert M W. induction ops as [|op ops IH]; intros M W; [exists ∅; apply grown_refl, W|]. cbn in L. apply andb_prop in L as [L1 L2].
  assert (exists ex, grown ex M (cm_do exactA M op)) as [ex G].
  { destruct op; try discriminate L1; cbn [cm_do].
    - exists ({[p]} ∪ {[a]}). destruct (cls_get M p a W) as (C & _ & K). split; [intros p' a'; apply cell_get|apply wf_get, W|set_solver|rewrite K; set_solver].
    - exists ∅. apply grown_classes, W. }
  destruct (IH L2 _ (g_wf _ _ _ G)) as [ex' G']. exists (ex ∪ ex'). cbn [foldl]. eapply grown_trans; (eapply grown_weaken; [|eassumption]); set_solver.
Qed.

Theorem queries_quiet A o qs : forall H, mreach H -> (forall k m c v, (k, m, c, v) ∈ qs -> view H m <> None) ->
  exists rs H', h_queries A o qs H = Some (rs, H') /\ mreach H' /\ undisturbed H H' /\ length rs = length qs.
Proof.
  induction qs as [|[[[k m] c] v] qs IH]; intros H R K.
  - exists [], H. split; [reflexivity|]. split; [exact R|]. split; [apply und_refl|reflexivity].
  - destruct (view H m) as [M|] eqn:V; [|destruct (K k m c v); [left|exact V]].
    destruct (query_value A o k m c v H M R V) as (r & H1 & M1 & E1 & R1 & V1 & _ & Q1 & _).
    destruct (IH H1 R1) as (rs & H2 & E2 & R2 & Q2 & L).
    { intros k' m' c' v' I Z. destruct (view H m') as [N|] eqn:VN; [|eapply K; [right; exact I|exact VN]]. destruct (und_mats _ _ Q1 m' N VN) as (N' & VN' & _). congruence. }
    exists (r :: rs), H2. cbn [h_queries]. rewrite E1, E2. split; [reflexivity|]. split; [exact R2|]. split; [eapply und_trans; eassumption|cbn; rewrite L; reflexivity].
Qed.

Lemma query_none A o k m c v H : view H m = None -> h_query A o k m c v H = None.
Proof. unfold view, h_query, hbind, h_classes, get_classes. destruct (mh_mats H !! m); [discriminate|reflexivity]. Qed.

Theorem queries_undisturbed A o qs : forall H rs H', mreach H -> h_queries A o qs H = Some (rs, H') -> mreach H' /\ undisturbed H H'.
Proof.
  induction qs as [|[[[k m] c] v] qs IH]; intros H rs H' R E; cbn [h_queries] in E; [injection E as <- <-; split; [exact R|apply und_refl]|].
  destruct (view H m) as [M|] eqn:V; [|rewrite (query_none A o k m c v H V) in E; discriminate E].
  destruct (query_value A o k m c v H M R V) as (r & H1 & M1 & E1 & R1 & V1 & _ & Q1 & _). rewrite E1 in E.
  destruct (h_queries A o qs H1) as [[rs2 H2]|] eqn:E2; [|discriminate E]. injection E as <- <-. destruct (IH H1 rs2 H2 R1 E2) as [R2 Q2].
  split; [exact R2|eapply und_trans; eassumption].
Qed.

Lemma do_reach A H q H' : mreach H -> heap_do A H q = Some H' -> mreach H'.
Proof.
  assert (GR : forall H m p r H', mreach H -> get_row H m p = Some (r, H') -> mreach H').
  { intros H0 m p r H1 R E. refine (Reach_step H0 (MRow m p) (MRef r) H1 R _). cbn. rewrite E. reflexivity. }
  assert (GC : forall H r a v H', mreach H -> get_cell H r a = Some (v, H') -> mreach H').
  { intros H0 r a v H1 R E. refine (Reach_step H0 (MGet r a) (MNum v) H1 R _). cbn. rewrite E. reflexivity. }
  assert (SC : forall H r a v H', mreach H -> set_cell H r a v = Some H' -> mreach H').
  { intros H0 r a v H1 R E. refine (Reach_step H0 (MSet r a v) MNone H1 R _). cbn. rewrite E. reflexivity. }
  intros R E. destruct q as [|m op]; [injection E as <-; exact (Reach_step H MNew _ _ R eq_refl)|]. destruct op as [p|p a|p a v|p a v|]; cbn in E.
  - destruct (get_row H m p) as [[r H1]|] eqn:K; [|discriminate E]. injection E as <-. eauto.
  - destruct (get_row H m p) as [[r H1]|] eqn:K; [|discriminate E]. cbn in E. destruct (get_cell H1 r a) as [[x H2]|] eqn:K2; [|discriminate E]. injection E as <-. eauto.
  - destruct (get_row H m p) as [[r H1]|] eqn:K; [|discriminate E]. cbn in E. eauto.
  - destruct (get_row H m p) as [[r H1]|] eqn:K; [|discriminate E]. cbn in E. destruct (get_cell H1 r a) as [[x H2]|] eqn:K2; [|discriminate E]. cbn in E.
    destruct (nadd A x v) as [w|e]; [eauto|]. injection E as <-. eauto.
  - destruct (get_classes H m) as [[s H1]|] eqn:K; [|discriminate E]. injection E as <-. refine (Reach_step H (MClasses m) (MRef s) H1 R _). cbn. rewrite K. reflexivity.
Qed.

Lemma run_reach A l : forall H H', mreach H -> heap_run A H l = Some H' -> mreach H'.
Proof.
  induction l as [|q l IH]; intros H H' R E; cbn in E; [injection E as <-; exact R|]. destruct (heap_do A H q) as [H1|] eqn:K; [|discriminate E]. cbn in E.
  exact (IH H1 H' (do_reach A H q H1 R K) E).
Qed.

(** Cells and micro averages stay, whatever was asked. *)
Theorem queries_micro_objects A o l H qs rs H' : sane A -> cord_ok o -> heap_run A mh0 l = Some H -> h_queries A o qs H = Some (rs, H') ->
  forall m M, view H m = Some M -> exact_cells A M -> exists M', view H' m = Some M' /\ (forall p a, cell M' p a = cell M p a) /\
    rmap fst (precision A o M' None AvgMicro) = rmap fst (precision A o M None AvgMicro) /\
    rmap fst (recall A o M' None AvgMicro) = rmap fst (recall A o M None AvgMicro).
Proof.
  intros HA HO E Eq m M V HE. destruct (queries_undisturbed A o qs H rs H' (run_reach A l mh0 H Reach_start E) Eq) as [_ Q1].
  destruct (und_mats _ _ Q1 m M V) as (M' & V' & L). exists M'. split; [exact V'|]. split; [exact (looked_cells M M' L)|].
  assert (HR : reachable A M).
  { rewrite (matrices_independent A l H E m) in V. destruct (decide _); [|discriminate V]. injection V as <-. eexists. reflexivity. }
  apply wf_reachable in HR. destruct (looked_grown M M' HR L) as [ex G].
  destruct (micro_pr_wf A o M HA HR HO HE) as [-> ->]. destruct (micro_pr_wf A o M' HA (g_wf _ _ _ G) HO (exact_grown _ _ _ _ G HE)) as [-> ->].
  rewrite (micro_value_grown A _ M M' HA HR G). auto.
Qed.

Lemma map_same {X Y} (f g : X -> res Y) l : (forall x, x ∈ l -> f x = g x) -> mapM f l = mapM g l.
Proof. induction l as [|x l IH]; intros K; [reflexivity|]. cbn [mapM]. rewrite K, IH; [reflexivity|intros y I; apply K; right; exact I|left]. Qed.

(** A dict of different matrices. *)
Theorem query_dict A o k ms c v : forall H, mreach H -> NoDup ms.*2 -> (forall lab m, (lab, m) ∈ ms -> view H m <> None) ->
  exists r H', h_query_dict A o k ms c v H = Some (r, H') /\ undisturbed H H' /\
    r = mapM (fun '(lab, m) => let* x := rmap fst (ask A o (default cm_empty (view H m)) (Query (kind_of k) c v)) in Ok (lab, x)) ms.
Proof.
  unfold h_query_dict. assert (X : forall acc H, mreach H -> NoDup ms.*2 -> (forall lab m, (lab, m) ∈ ms -> view H m <> None) ->
    exists r H', hfold (fun acc '(lab, m) => let+ x := h_query A o k m c v in hlift (Ok (acc ++ [(lab, x)]))) ms acc H = Some (r, H') /\ undisturbed H H' /\
      r = let* l := mapM (fun '(lab, m) => let* x := rmap fst (ask A o (default cm_empty (view H m)) (Query (kind_of k) c v)) in Ok (lab, x)) ms in Ok (acc ++ l)).
  2:{ intros H R N K. destruct (X [] H R N K) as (r & H' & E & Q & ->). exists (let* l := mapM (fun '(lab, m) => let* x := rmap fst (ask A o (default cm_empty (view H m)) (Query (kind_of k) c v)) in Ok (lab, x)) ms in Ok ([] ++ l)), H'. split; [exact E|]. split; [exact Q|]. destruct (mapM _ ms); reflexivity. }
  induction ms as [|[lab m] ms IH]; intros acc H R N K.
  - exists (Ok acc), H. split; [reflexivity|]. split; [apply und_refl|]. cbn. rewrite app_nil_r. reflexivity.
  - change (NoDup (m :: ms.*2)) in N. apply NoDup_cons in N as [N1 N2]. destruct (view H m) as [M|] eqn:V; [|destruct (K lab m); [left|exact V]].
    destruct (query_value A o k m c v H M R V) as (r & H1 & M1 & E1 & R1 & V1 & O1 & Q1 & Z). cbn [hfold]. unfold hbind at 1. unfold hbind at 1. rewrite E1.
    cbn [mapM]. rewrite V. cbn [default]. change (id M) with M. destruct (ask A o M _) as [[x M2]|e].
    + destruct Z as [-> _]. cbn [hlift]. destruct (IH (acc ++ [(lab, x)]) H1 R1 N2) as (r2 & H2 & E2 & Q2 & ->).
      { intros lab' m' I Y. destruct (view H m') as [M'|] eqn:V'; [|eapply K; [right; exact I|exact V']]. destruct (und_mats _ _ Q1 m' M' V') as (M'' & V'' & _). congruence. }
      eexists _, H2. split; [exact E2|]. split; [eapply und_trans; eassumption|].
      rewrite (map_same _ (fun '(lab, m) => let* x := rmap fst (ask A o (default cm_empty (view H m)) (Query (kind_of k) c v)) in Ok (lab, x))).
      * clear. cbn [rmap bind fst]. destruct (mapM _ ms) as [l|e]; [|reflexivity]. cbn [bind]. rewrite <- app_assoc. reflexivity.
      * intros [lab' m'] I. rewrite (O1 m'); [reflexivity|]. intros ->. apply N1. apply elem_of_list_fmap. exists (lab', m). auto.
    + subst r. eexists _, H1. split; [reflexivity|]. split; [exact Q1|]. reflexivity.
Qed.

(** The same matrix may occur several times if looking does not change its value. *)
Lemma query_dict_same A o k ms c v H0 : (forall lab m, (lab, m) ∈ ms -> exists M, view H0 m = Some M /\
    forall M', looked_at M M' -> rmap fst (ask A o M' (Query (kind_of k) c v)) = rmap fst (ask A o M (Query (kind_of k) c v))) ->
  forall H, mreach H -> undisturbed H0 H ->
  exists r H', h_query_dict A o k ms c v H = Some (r, H') /\ undisturbed H0 H' /\
    r = mapM (fun '(lab, m) => let* x := rmap fst (ask A o (default cm_empty (view H0 m)) (Query (kind_of k) c v)) in Ok (lab, x)) ms.
Proof.
  intros K. unfold h_query_dict. assert (X : forall acc H, mreach H -> undisturbed H0 H ->
    exists r H', hfold (fun acc '(lab, m) => let+ x := h_query A o k m c v in hlift (Ok (acc ++ [(lab, x)]))) ms acc H = Some (r, H') /\ undisturbed H0 H' /\
      r = let* l := mapM (fun '(lab, m) => let* x := rmap fst (ask A o (default cm_empty (view H0 m)) (Query (kind_of k) c v)) in Ok (lab, x)) ms in Ok (acc ++ l)).
  2:{ intros H R U. destruct (X [] H R U) as (r & H' & E & Q & ->). exists (let* l := mapM (fun '(lab, m) => let* x := rmap fst (ask A o (default cm_empty (view H0 m)) (Query (kind_of k) c v)) in Ok (lab, x)) ms in Ok ([] ++ l)), H'. split; [exact E|]. split; [exact Q|]. destruct (mapM _ ms); reflexivity. }
  induction ms as [|[lab m] ms IH]; intros acc H R U.
  - exists (Ok acc), H. split; [reflexivity|]. split; [exact U|]. cbn. rewrite app_nil_r. reflexivity.
  - destruct (K lab m) as (M & V & S0); [left|]. destruct (und_mats _ _ U m M V) as (M1 & V1 & L1). specialize (S0 M1 L1).
    destruct (query_value A o k m c v H M1 R V1) as (r & H1 & M2 & E1 & R1 & V2 & O1 & Q1 & Z). cbn [hfold]. unfold hbind at 1. unfold hbind at 1. rewrite E1.
    cbn [mapM]. rewrite V. cbn [default]. change (id M) with M. rewrite <- S0. destruct (ask A o M1 _) as [[x M3]|e].
    + destruct Z as [-> _]. cbn [hlift]. destruct (IH (fun lab' m' I => K lab' m' (elem_of_list_further _ _ _ I)) (acc ++ [(lab, x)]) H1 R1) as (r2 & H2 & E2 & Q2 & ->).
      { eapply und_trans; eassumption. }
      eexists _, H2. split; [exact E2|]. split; [exact Q2|]. clear. cbn [rmap bind fst]. destruct (mapM _ ms) as [l|e]; [|reflexivity]. cbn [bind]. rewrite <- app_assoc. reflexivity.
    + subst r. eexists _, H1. split; [reflexivity|]. split; [eapply und_trans; eassumption|]. reflexivity.
Qed.

Theorem query_dict_shared A o l H k ms : sane A -> cord_ok o -> heap_run A mh0 l = Some H -> k = HPrecision \/ k = HRecall ->
  (forall lab m, (lab, m) ∈ ms -> exists M, view H m = Some M /\ exact_cells A M) ->
  exists r H', h_query_dict A o k ms None AvgMicro H = Some (r, H') /\ undisturbed H H' /\
    r = mapM (fun '(lab, m) => let* x := rmap fst (ask A o (default cm_empty (view H m)) (Query (kind_of k) None AvgMicro)) in Ok (lab, x)) ms.
Proof.
  intros HA HO E Hk K. refine (query_dict_same A o k ms None AvgMicro H _ H (run_reach A l mh0 H Reach_start E) (und_refl H)).
  intros lab m I. destruct (K lab m I) as (M & V & HE). exists M. split; [exact V|]. intros M' L.
  assert (HR : reachable A M).
  { rewrite (matrices_independent A l H E m) in V. destruct (decide _); [|discriminate V]. injection V as <-. eexists. reflexivity. }
  apply wf_reachable in HR. destruct (looked_grown M M' HR L) as [ex G].
  pose proof (micro_pr_wf A o M HA HR HO HE) as [X1 X2]. pose proof (micro_pr_wf A o M' HA (g_wf _ _ _ G) HO (exact_grown _ _ _ _ G HE)) as [Y1 Y2].
  pose proof (micro_value_grown A _ M M' HA HR G) as Z. destruct Hk as [->| ->]; cbn [ask kind_of q_kind q_class q_avg]; congruence.
Qed.
