(** Lemmas about precision, recall and F when the two segmentations are exchanged,
    and in the case of one boundary type. *)
From Coq Require Import Lqa.
From Verif Require Import SpecSwap FormatProofs Round RoundProofs SimRound SimProofs BedSubs BedSwap BedProofs BedMain BedTheory BedExtra BedReverse
  SimStats SimTheory SimContext SimSym MLProofs MLSums MLMain MLFmeasure MLMatrix MLFinal MLSwap MLBoundary.
Open Scope Z_scope.

Lemma transposed_f b b' m m' c : (b * b' == 1)%Q -> transposed m m' -> (class_f m' b' c == class_f m b c)%Q.
Proof.
  intros Hb HT. unfold class_f. rewrite (transposed_class exactA m m' c sane_exactA HT).
  rewrite <- (transposed_class exactA m' m c sane_exactA (transposed_sym _ _ HT)). apply fbeta_swap, Hb.
Qed.

Lemma csum_scale q (g : label -> Q) S : (csum (fun c => q * g c) S == q * csum g S)%Q.
Proof.
  unfold csum. induction (elements S) as [|c l IH]; [cbn; ring|]. rewrite !fmap_cons, !qsum_cons, IH. ring.
Qed.

Lemma transposed_micro_f b b' m m' : (b * b' == 1)%Q -> transposed m m' -> (micro_f m' b' == micro_f m b)%Q.
Proof.
  intros Hb HT. unfold micro_f. rewrite (proj1 HT).
  assert (Nb : ~ (b == 0)%Q). { intros K. rewrite K in Hb. discriminate (Qeq_eq_bool _ _ Hb). }
  assert (Eb : (b' == / b)%Q). { rewrite <- (Qmult_1_l (/ b)), <- Hb. field. exact Nb. }
  assert (N2 : ~ (b * b == 0)%Q) by (intros K; apply Qmult_integral in K; tauto).
  assert (HC : forall c, class_recall exactA m' c = class_precision exactA m c /\ class_precision exactA m' c = class_recall exactA m c).
  { intros c. split; [apply transposed_class; [apply sane_exactA|exact HT]|]. symmetry. apply transposed_class; [apply sane_exactA|apply transposed_sym, HT]. }
  set (N := csum (fun c => (1 + b * b) * class_precision exactA m c * class_recall exactA m c)%Q (cls m)).
  set (D := csum (fun c => b * b * class_precision exactA m c + class_recall exactA m c)%Q (cls m)).
  assert (EN : (csum (fun c => (1 + b' * b') * class_precision exactA m' c * class_recall exactA m' c) (cls m) == / (b * b) * N)%Q).
  { unfold N. rewrite <- csum_scale. apply csum_ext. intros c _. destruct (HC c) as [-> ->]. rewrite Eb. field. exact Nb. }
  assert (ED : (csum (fun c => b' * b' * class_precision exactA m' c + class_recall exactA m' c) (cls m) == / (b * b) * D)%Q).
  { unfold D. rewrite <- csum_scale. apply csum_ext. intros c _. destruct (HC c) as [-> ->]. rewrite Eb. field. exact Nb. }
  rewrite EN, ED.
  assert (NI : ~ (/ (b * b) == 0)%Q). { intros K. assert (K' : (b * b * / (b * b) == 0)%Q) by (rewrite K; ring). rewrite (Qmult_inv_r _ N2) in K'. discriminate. }
  generalize dependent (/ (b * b))%Q. intros k _ _ NI. clearbody N D.
  unfold Qdiv. rewrite Qinv_mult_distr.
  setoid_replace (k * N * (/ k * / D))%Q with ((k * / k) * (N * / D))%Q by ring. rewrite (Qmult_inv_r k NI). ring.
Qed.

Lemma transposed_macro_f b b' m m' : (b * b' == 1)%Q -> transposed m m' ->
  (macro_value m' (class_f m' b') == macro_value m (class_f m b))%Q.
Proof.
  intros Hb HT. unfold macro_value. rewrite (proj1 HT). unfold Qdiv. apply Qmult_comp; [|reflexivity].
  apply csum_ext. intros c _. apply transposed_f; assumption.
Qed.

(** *** On segmentations *)

Lemma bstrings_swap f sa sb x y : to_bstrings f sa sb = Ok (x, y) -> to_bstrings f sb sa = Ok (y, x).
Proof.
  intros H. assert (HE : forall e e', to_bstring f sa = Err e -> to_bstring f sb = Err e' -> e = e').
  { intros e e' H1. unfold to_bstrings in H. rewrite H1 in H. destruct f; try discriminate.
    unfold to_bstring in H1. destruct (negb _); [discriminate|]. rewrite H1 in H. discriminate. }
  pose proof (to_bstrings_swap f sa sb HE) as K. rewrite H in K. apply K.
Qed.


Section swap.
Context (E E' : env) (f : fmt) (n_t : Z) (sa sb : seg) (x y : bstring) (m m' : cmatrix) (o o' : cord).
Context (HE : env_ok E) (HE' : env_ok E') (HO : cord_ok o) (HO' : cord_ok o') (Hs : small_types x y) (Hn : 0 < n_t).
Context (Hb : to_bstrings f sa sb = Ok (x, y)).
Context (Hm : boundary_confusion_matrix exactA E (default_weights exactA) f n_t sa sb = Ok m).
Context (Hm' : boundary_confusion_matrix exactA E' (default_weights exactA) f n_t sb sa = Ok m').

Lemma swap_setup : transposed m m' /\ reachable exactA m /\ reachable exactA m' /\ tame exactA m /\ tame exactA m'.
Proof.
  pose proof (to_bstrings_length _ _ _ _ _ Hb) as Hl. pose proof (bstrings_swap _ _ _ _ _ Hb) as Hb'.
  destruct (bed_returns E x y n_t HE ltac:(lia)) as [e He]. destruct (bed_returns E' y x n_t HE' ltac:(lia)) as [e' He'].
  assert (Hs' : small_types y x) by (intros s d K; apply Hs; tauto).
  split; [apply (swapped_transposed E E' f n_t sa sb x y m m'); assumption || lia|].
  destruct (matrix_classes _ _ _ _ _ _ _ _ _ _ _ HE Hs Hb He Hm) as (HR & _). destruct (matrix_classes _ _ _ _ _ _ _ _ _ _ _ HE' Hs' Hb' He' Hm') as (HR' & _).
  split; [exact HR|]. split; [exact HR'|].
  split; [eapply (matrix_tame exactA E f n_t sa sb x y)|eapply (matrix_tame exactA E' f n_t sb sa y x)]; try eassumption; try apply sane_exactA; left; reflexivity.
Qed.

Theorem swap_metrics b b' : (b * b' == 1)%Q ->
  (forall t ver, exists v n n', precision exactA o m (Some t) ver = Ok (v, n) /\ recall exactA o' m' (Some t) ver = Ok (v, n')) /\
  (forall ver, ver <> AvgOther -> exists v v' n n', precision exactA o m None ver = Ok (v, n) /\ recall exactA o' m' None ver = Ok (v', n') /\ (nval v' == nval v)%Q) /\
  (forall c ver, c <> None \/ ver <> AvgOther -> exists v v' n n',
     fmeasure exactA o b m c ver = Ok (v, n) /\ fmeasure exactA o' b' m' c ver = Ok (v', n') /\ (nval v' == nval v)%Q).
Proof.
  intros Hbb. destruct swap_setup as (HX & HR & HR' & HT & HT').
  destruct (transposed_metrics exactA o o' m m' sane_exactA HO HO' HR HR' HT HT' (exact_of_tame m HT) (exact_of_tame m' HT') HX) as [K1 K2].
  split; [exact K1|]. split.
  - intros [| |] HV; [| |congruence].
    + destruct (average_values exactA o m sane_exactA HO HR HT (or_introl (exact_of_tame m HT)) ltac:(destruct swap_setup; pose proof (classes_few exactA E f n_t sa sb x y m HE Hs Hb Hm); lia) AvgMicro ltac:(discriminate)) as (p & _ & mp & _ & E1 & _).
      destruct (average_values exactA o' m' sane_exactA HO' HR' HT' (or_introl (exact_of_tame m' HT')) ltac:(rewrite (proj1 HX); pose proof (classes_few exactA E f n_t sa sb x y m HE Hs Hb Hm); lia) AvgMicro ltac:(discriminate)) as (_ & r & _ & mr & _ & E2 & _).
      exists p, r, mp, mr. split; [exact E1|]. split; [exact E2|]. rewrite E1, E2 in K2. cbn in K2. injection K2 as ->. reflexivity.
    + destruct (pr_macros o m HO HR HT) as (p & _ & mp & _ & E1 & _ & V1 & _). destruct (pr_macros o' m' HO' HR' HT') as (_ & r & _ & mr & _ & E2 & _ & V2).
      exists p, r, mp, mr. split; [exact E1|]. split; [exact E2|]. rewrite V1, V2. apply transposed_macro; [apply sane_exactA|exact HX].
  - intros [c|] ver HV.
    + destruct (f_exact o m HO HR HT b c ver) as (v & n & E1 & V1 & _). destruct (f_exact o' m' HO' HR' HT' b' c ver) as (v' & n' & E2 & V2 & _).
      exists v, v', n, n'. split; [exact E1|]. split; [exact E2|]. rewrite V1, V2. apply transposed_f; assumption.
    + destruct (f_averages o m HO HR HT b) as (v & w & mv & mw & E1 & E2 & V1 & V2 & _).
      destruct (f_averages o' m' HO' HR' HT' b') as (v' & w' & mv' & mw' & E1' & E2' & V1' & V2' & _).
      destruct ver; [| |destruct HV; congruence].
      * exists v, v', mv, mv'. split; [exact E1|]. split; [exact E1'|]. rewrite V1, V1'. apply transposed_micro_f; assumption.
      * exists w, w', mw, mw'. split; [exact E2|]. split; [exact E2'|]. rewrite V2, V2'. apply transposed_macro_f; assumption.
Qed.
End swap.

(** Any arithmetic and any weights, when there are no near misses. *)
Lemma counts_tame A E W f n_t sa sb x y e m : env_ok E -> to_bstrings f sa sb = Ok (x, y) -> boundary_edit_distance E x y n_t = Ok e ->
  e_transp e = [] -> boundary_confusion_matrix A E W f n_t sa sb = Ok m -> exact_cells A m /\ tame A m.
Proof.
  intros HE Hb He HT Hm. destruct (matrix_cells _ _ _ _ _ _ _ _ _ _ _ HE Hb He Hm) as (C1 & C2 & C3 & C4 & C5).
  assert (HC : forall p a, exists k, cell m p a = NInt k /\ 0 <= k).
  { intros [t|] [u|].
    - destruct (decide (t = u)) as [<-|D]; [|rewrite C1 by exact D; eexists; split; [reflexivity|lia]].
      destruct (C5 t) as (ws & Ew & Ec). rewrite HT in Ew. injection Ew as <-. injection Ec as <-. eexists; split; [reflexivity|lia].
    - rewrite C3. eexists; split; [reflexivity|lia].
    - rewrite C2. eexists; split; [reflexivity|lia].
    - rewrite C4. eexists; split; [reflexivity|lia]. }
  assert (HI : exact_cells A m) by (left; intros p a; destruct (HC p a) as (k & -> & _); exact I).
  split; [exact HI|]. split; [|split; [|left; exact HI]].
  - intros p a. destruct (HC p a) as (k & -> & Hk). cbn [nval]. change 0%Q with (inject_Z 0). rewrite <- Zle_Qle. exact Hk.
  - intros c q Eq. destruct (HC c c) as (k & Ek & _). congruence.
Qed.

Theorem swap_counts A E E' W f n_t sa sb x y m m' o o' e : sane A -> env_ok E -> env_ok E' -> cord_ok o -> cord_ok o' ->
  small_types x y -> to_bstrings f sa sb = Ok (x, y) -> boundary_edit_distance E x y n_t = Ok e -> e_transp e = [] ->
  boundary_confusion_matrix A E W f n_t sa sb = Ok m -> boundary_confusion_matrix A E' W f n_t sb sa = Ok m' ->
  (forall t ver, exists v n n', precision A o m (Some t) ver = Ok (v, n) /\ recall A o' m' (Some t) ver = Ok (v, n')) /\
  rmap fst (precision A o m None AvgMicro) = rmap fst (recall A o' m' None AvgMicro).
Proof.
  intros HA HE HE' HO HO' Hs Hb He Ht Hm Hm'.
  pose proof (to_bstrings_length _ _ _ _ _ Hb) as Hl. pose proof (bstrings_swap _ _ _ _ _ Hb) as Hb'.
  assert (Hs' : small_types y x) by (intros s d K; apply Hs; tauto).
  destruct (swapped_edits E E' f n_t sa sb x y HE HE' Hs Hb) as (e1 & e' & He1 & He' & _ & _ & PT).
  rewrite He in He1. injection He1 as <-. rewrite Ht in PT. apply Permutation_nil_r in PT.
  destruct (swapped_counts A E E' _ f n_t sa sb x y m m' HE HE' Hs Hb Hb' Hm Hm' e He Ht) as [HC _].
  destruct (matrix_classes _ _ _ _ _ _ _ _ _ _ _ HE Hs Hb He Hm) as (HR & _). destruct (matrix_classes _ _ _ _ _ _ _ _ _ _ _ HE' Hs' Hb' He' Hm') as (HR' & _).
  assert (HX : transposed m m').
  { split; [apply (swapped_classes A E E' _ f n_t sa sb x y m m' HE HE' Hs Hb Hb' Hm Hm')|]. intros p a. rewrite HC. reflexivity. }
  destruct (counts_tame _ _ _ _ _ _ _ _ _ _ _ HE Hb He Ht Hm). destruct (counts_tame _ _ _ _ _ _ _ _ _ _ _ HE' Hb' He' PT Hm').
  apply transposed_metrics; assumption.
Qed.

(** *** One boundary type *)

Lemma filter_all {X} (P : X -> Prop) `{!forall x, Decision (P x)} (l : list X) : (forall z, z ∈ l -> P z) -> filter P l = l.
Proof.
  induction l as [|z l IH]; intros K; [reflexivity|]. rewrite filter_cons_True by (apply K; left). f_equal. apply IH. intros w Hw. apply K. right. exact Hw.
Qed.


Theorem one_type E f n_t sa sb x y e m o t ver : env_ok E -> cord_ok o -> small_types x y -> 0 < n_t ->
  (forall d, used x y d -> d = t) -> to_bstrings f sa sb = Ok (x, y) -> boundary_edit_distance E x y n_t = Ok e ->
  boundary_confusion_matrix exactA E (default_weights exactA) f n_t sa sb = Ok m ->
  let both := (inject_Z (Z.of_nat (both_in x y t)) + inject_Z (spanned (e_transp e)) / inject_Z n_t)%Q in
  let missed p q := inject_Z (Z.of_nat (only_in p q t) - Z.of_nat (length (e_transp e))) in
  exists p r mp mr, precision exactA o m (Some t) ver = Ok (NDec p, mp) /\ recall exactA o m (Some t) ver = Ok (NDec r, mr) /\
    (p == both / (both + missed y x))%Q /\ (r == both / (both + missed x y))%Q.
Proof.
  intros HE HO Hs Hn Ht Hb He Hm both missed. pose proof (to_bstrings_length _ _ _ _ _ Hb) as Hl.
  destruct (matrix_precision_recall E f n_t sa sb x y e m HE Hs Hn Hb He Hm o t ver HO) as (p & r & mp & mr & E1 & E2 & V1 & V2).
  assert (HS : e_sub e = []).
  { destruct (e_sub e) as [|[u v] l] eqn:Es; [reflexivity|]. exfalso. assert (K : (u, v) ∈ e_sub e) by (rewrite Es; left).
    destruct (bed_sub_types _ _ _ _ _ _ _ HE Hl He K) as (K1 & K2 & K3). apply K3.
    rewrite (Ht u), (Ht v); [reflexivity| |]; apply SimStats.elem_of_types; assumption. }
  assert (HF : filter (fun z => t_type z = t) (e_transp e) = e_transp e).
  { apply filter_all. intros z Hz. apply Ht.
    pose proof He as He2. rewrite bed_ok in He2 by (assumption || lia). injection He2 as <-. cbn [e_transp] in Hz.
    destruct (ts_valid _ _ _ _ _ HE Hz) as (_ & _ & K). apply cand_swaps in K. destruct K as [(K & _)|(_ & K & _)]; eexists; left; exact K. }
  destruct (bed_conserves E x y n_t e t HE Hs Hl He) as [K1 K2].
  exists p, r, mp, mr. split; [exact E1|]. split; [exact E2|]. unfold found in V1, V2. rewrite HF, HS in V1, V2. cbn [countP filter list_filter length] in V1, V2.
  fold both in V1, V2. rewrite HS in K1, K2. unfold countP at 3 in K1. unfold countP at 3 in K2. rewrite HF in K1, K2.
  unfold missed. rewrite V1, V2. unfold Qdiv. split; apply Qmult_comp; [reflexivity| |reflexivity|]; apply Qinv_comp.
  - change (inject_Z (Z.of_nat 0)) with 0%Q.
    replace (Z.of_nat (only_in y x t) - Z.of_nat (length (e_transp e))) with (Z.of_nat (countP (fun a => a = Addition t SideB) (e_add e))); [ring|].
    cbn [countP filter list_filter length] in K2. lia.
  - change (inject_Z (Z.of_nat 0)) with 0%Q.
    replace (Z.of_nat (only_in x y t) - Z.of_nat (length (e_transp e))) with (Z.of_nat (countP (fun a => a = Addition t SideA) (e_add e))); [ring|].
    cbn [countP filter list_filter length] in K1. lia.
Qed.
