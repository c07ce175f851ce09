(** Exchanging reference and hypothesis transposes the confusion matrix. *)
From Coq Require Import Lqa.
From Verif Require Import SpecSwap FormatProofs Round RoundProofs SimRound SimProofs BedSubs BedSwap BedProofs BedMain BedTheory BedExtra BedReverse
  SimStats SimTheory SimContext SimSym MLProofs MLSums MLMain MLFmeasure MLMatrix MLFinal.
Open Scope Z_scope.

(** ** The edits *)

Lemma best_flip a b : best_substitutions b a = flip_substitution <$> best_substitutions a b.
Proof. rewrite best_swap. apply list_fmap_ext. intros i [x y] _. reflexivity. Qed.

Lemma substituted_flip l : substituted (flip_substitution <$> l) = substituted l.
Proof.
  unfold substituted. rewrite <- !list_fmap_compose. apply set_eq. intros z.
  rewrite !elem_of_list_to_set, !elem_of_app. unfold compose. cbn. tauto.
Qed.

Lemma adds_flip a b : adds_of b a ≡ₚ flip_addition <$> adds_of a b.
Proof.
  unfold adds_of. rewrite best_flip, substituted_flip. cbn zeta. rewrite fmap_app, <- !list_fmap_compose.
  rewrite Permutation_app_comm. reflexivity.
Qed.

Lemma join_fmap_perm {B C} (f : B -> C) (g : nat -> list B) (h : nat -> list C) l :
  (forall i, h i ≡ₚ f <$> g i) -> mjoin (h <$> l) ≡ₚ f <$> mjoin (g <$> l).
Proof.
  intros H. induction l as [|i l IH]; [reflexivity|]. cbn [fmap list_fmap mjoin list_join]. rewrite fmap_app.
  apply Permutation_app; [apply H|exact IH].
Qed.

Theorem bed_swapped E E' a b n_t e e' : env_ok E -> env_ok E' -> small_types a b -> length a = length b ->
  boundary_edit_distance E a b n_t = Ok e -> boundary_edit_distance E' b a n_t = Ok e' ->
  e_add e' ≡ₚ flip_addition <$> e_add e /\ e_sub e' ≡ₚ flip_substitution <$> e_sub e /\ e_transp e' ≡ₚ e_transp e.
Proof.
  intros HE HE' Hs Hl H1 H2.
  destruct (bed_symmetric E E' a b n_t e e' HE HE' Hs Hl H1 H2) as (HP & _).
  rewrite bed_ok in H1, H2 by (assumption || lia).
  injection H1 as <-. injection H2 as <-. cbn [e_add e_sub e_transp] in *. rewrite <- Hl.
  set (out := ts E a b n_t) in *. set (out' := ts E' b a n_t) in *.
  assert (HX : forall k, X out k = X out' k) by (intros; apply X_perm, HP).
  assert (HR1 : forall k, RA b a (X out') k = RB a b (X out) k) by (intros; unfold RA, RB; rewrite HX; reflexivity).
  assert (HR2 : forall k, RB b a (X out') k = RA a b (X out) k) by (intros; unfold RA, RB; rewrite HX; reflexivity).
  split; [|split; [|symmetry; exact HP]]; apply join_fmap_perm; intros i; unfold adds_at, subs_at; rewrite HR1, HR2.
  - apply adds_flip.
  - rewrite best_flip. reflexivity.
Qed.

(** ** Counting *)

Lemma countP_perm {X} (P : X -> Prop) `{!forall x, Decision (P x)} l l' : l ≡ₚ l' -> countP P l = countP P l'.
Proof. intros HP. unfold countP. rewrite HP. reflexivity. Qed.

Lemma countP_fmap' {X Y} (f : X -> Y) (P : Y -> Prop) (Q : X -> Prop) `{!forall x, Decision (P x), !forall x, Decision (Q x)} l :
  (forall x, P (f x) <-> Q x) -> countP P (f <$> l) = countP Q l.
Proof.
  intros HPQ. unfold countP. induction l as [|x l IH]; [reflexivity|]. cbn [fmap list_fmap]. rewrite !filter_cons.
  specialize (HPQ x). destruct (decide (P (f x))), (decide (Q x)); try tauto; cbn [length]; rewrite IH; reflexivity.
Qed.

Lemma countP_pos {X} (P : X -> Prop) `{!forall x, Decision (P x)} l : (0 < countP P l)%nat <-> exists x, x ∈ l /\ P x.
Proof.
  unfold countP. split.
  - destruct (filter P l) as [|x k] eqn:E; [cbn; lia|]. intros _. exists x.
    assert (K : x ∈ filter P l) by (rewrite E; left). apply elem_of_list_filter in K. tauto.
  - intros (x & Hx & HP). assert (K : x ∈ filter P l) by (apply elem_of_list_filter; auto).
    destruct (filter P l); [inversion K|cbn; lia].
Qed.

Lemma both_in_flip x y d : both_in y x d = both_in x y d.
Proof.
  unfold both_in. revert y. induction x as [|s x IH]; intros [|t y]; try reflexivity. cbn [zip zip_with].
  rewrite !filter_cons. specialize (IH y).
  destruct (decide (d ∈ (t, s).1 /\ d ∈ (t, s).2)), (decide (d ∈ (s, t).1 /\ d ∈ (s, t).2)); cbn in *; try tauto;
    cbn [length]; rewrite IH; reflexivity.
Qed.

Lemma zip_at (x y : bstring) i s t : x !! i = Some s -> y !! i = Some t -> (s, t) ∈ zip x y.
Proof.
  intros Hs Ht. apply elem_of_list_lookup. exists i. apply lookup_zip_with_Some. exists s, t. auto.
Qed.

Lemma used_counts x y d : length x = length y ->
  used x y d <-> (0 < both_in x y d + only_in x y d + only_in y x d)%nat.
Proof.
  intros Hl.
  assert (HB : (0 < both_in x y d)%nat <-> exists p, p ∈ zip x y /\ d ∈ p.1 /\ d ∈ p.2) by apply (countP_pos (fun p : gset Z * gset Z => d ∈ p.1 /\ d ∈ p.2)).
  assert (HX : (0 < only_in x y d)%nat <-> exists p, p ∈ zip x y /\ d ∈ p.1 /\ d ∉ p.2) by apply (countP_pos (fun p : gset Z * gset Z => d ∈ p.1 /\ d ∉ p.2)).
  assert (HY : (0 < only_in y x d)%nat <-> exists p, p ∈ zip y x /\ d ∈ p.1 /\ d ∉ p.2) by apply (countP_pos (fun p : gset Z * gset Z => d ∈ p.1 /\ d ∉ p.2)).
  split.
  - intros (i & H). assert (K : (i < length x)%nat).
    { destruct H as [(s & H & _)|(s & H & _)]; apply lookup_lt_Some in H; lia. }
    destruct (lookup_lt_is_Some_2 x i K) as [s Hs]. destruct (lookup_lt_is_Some_2 y i ltac:(lia)) as [t Ht].
    assert (D : d ∈ s \/ d ∈ t). { destruct H as [(u & H & Hu)|(u & H & Hu)]; [left|right]; congruence. }
    destruct (decide (d ∈ s)) as [D1|D1], (decide (d ∈ t)) as [D2|D2]; [| | |tauto].
    + enough (0 < both_in x y d)%nat by lia. apply HB. exists (s, t). split; [eapply zip_at; eassumption|auto].
    + enough (0 < only_in x y d)%nat by lia. apply HX. exists (s, t). split; [eapply zip_at; eassumption|auto].
    + enough (0 < only_in y x d)%nat by lia. apply HY. exists (t, s). split; [eapply zip_at; eassumption|auto].
  - intros H.
    assert (K : (exists p, p ∈ zip x y /\ d ∈ p.1) \/ (exists p, p ∈ zip y x /\ d ∈ p.1)).
    { destruct (decide (0 < both_in x y d)%nat) as [D|D]; [apply HB in D as (p & ? & ? & _); left; eauto|].
      destruct (decide (0 < only_in x y d)%nat) as [D'|D']; [apply HX in D' as (p & ? & ? & _); left; eauto|].
      destruct (decide (0 < only_in y x d)%nat) as [D''|D'']; [apply HY in D'' as (p & ? & ? & _); right; eauto|lia]. }
    destruct K as [([s t] & K & D)|([s t] & K & D)]; apply elem_of_list_lookup in K as (i & K);
      apply lookup_zip_with_Some in K as (s' & t' & [= <- <-] & K1 & K2); exists i; [left|right]; exists s; auto.
Qed.

(** ** The classes of the matrix *)

Definition inc_keys (i : inc) : gset label := {[fst (fst i); snd (fst i)]}.

Lemma incs_run A l : forall m m' h, m = cm_run A h -> cm_incs A l m = Ok m' ->
  m' = cm_run A (h ++ ((fun '(p, a, v) => OAdd p a v) <$> l)).
Proof.
  induction l as [|[[p a] v] l IH]; intros m m' h Hm H; unfold cm_incs in H; cbn [foldM] in H.
  - injection H as <-. cbn. rewrite app_nil_r. exact Hm.
  - destruct (cm_add A m p a v) as [m1|] eqn:E; [|discriminate]. cbn [bind] in H.
    cbn [fmap list_fmap]. rewrite (cons_middle _ h), app_assoc. apply (IH m1); [|exact H].
    rewrite run_snoc, <- Hm. cbn [cm_do]. rewrite E. reflexivity.
Qed.

Lemma incs_cls A l m : cm_incs A l cm_empty = Ok m -> reachable A m /\ cls m = ⋃ (inc_keys <$> l).
Proof.
  intros H. assert (K : m = cm_run A ([] ++ ((fun '(p, a, v) => OAdd p a v) <$> l))) by (apply (incs_run A l cm_empty); [reflexivity|exact H]).
  cbn [app] in K. split; [eexists; exact K|]. rewrite K, run_no_bare.
  - unfold keys_of. rewrite <- list_fmap_compose. f_equal. apply list_fmap_ext. intros i [[p a] v] _. reflexivity.
  - unfold bare_of. clear. induction l as [|[[p a] v] l IH]; [reflexivity|]. cbn [fmap list_fmap].
    rewrite union_list_cons. rewrite IH. set_solver.
Qed.

Lemma elem_of_inc_keys l c : c ∈ ⋃ (inc_keys <$> l) <-> exists p a v, (p, a, v) ∈ l /\ (c = p \/ c = a).
Proof.
  rewrite elem_of_union_list. split.
  - intros (k & Hk & Hc). apply elem_of_list_fmap in Hk as ([[p a] v] & -> & H). unfold inc_keys in Hc. cbn in Hc.
    exists p, a, v. split; [exact H|]. set_solver.
  - intros (p & a & v & H & Hc). exists (inc_keys (p, a, v)). split; [apply elem_of_list_fmap; eauto|]. unfold inc_keys. cbn. set_solver.
Qed.

Lemma mapM_length' {X Y} (f : X -> res Y) l : forall ws, mapM f l = Ok ws -> length ws = length l.
Proof.
  induction l as [|x l IH]; intros ws H; cbn [mapM] in H; [injection H as <-; reflexivity|].
  destruct (f x) as [w|]; [|discriminate]. cbn [bind] in H. destruct (mapM f l) as [vs|]; [|discriminate].
  injection H as <-. cbn. rewrite (IH vs); reflexivity.
Qed.

Section matrix.
Context (A : arith) (E : env) (W : weights) (f : fmt) (n_t : Z) (sa sb : seg) (x y : bstring) (e : edits) (m : cmatrix).
Context (HE : env_ok E) (Hs : small_types x y) (Hb : to_bstrings f sa sb = Ok (x, y)).
Context (He : boundary_edit_distance E x y n_t = Ok e) (Hm : boundary_confusion_matrix A E W f n_t sa sb = Ok m).

Lemma matrix_classes : reachable A m /\ (forall t, Some t ∈ cls m <-> used x y t) /\ (None ∈ cls m <-> e_add e <> []).
Proof.
  pose proof (to_bstrings_length _ _ _ _ _ Hb) as Hl.
  pose proof Hm as Hm'. unfold boundary_confusion_matrix in Hm'. destruct (boundary_statistics A E W f n_t sa sb) as [s|] eqn:Hst; [|discriminate].
  cbn [bind] in Hm'. destruct (statistics_consistent _ _ _ _ _ _ _ _ _ _ HE Hb Hst) as (He' & HM & _). rewrite He in He'. injection He' as Es.
  apply matrix_incs in Hm' as (ws & Ew & Hi). rewrite <- Es in *. apply mapM_length' in Ew.
  apply incs_cls in Hi as [HR HC]. split; [exact HR|].
  assert (HK : forall c, c ∈ cls m <-> (exists t, t ∈ st_matches s /\ c = Some t) \/ (exists z, z ∈ e_transp e /\ c = Some (t_type z)) \/
    (exists z, z ∈ e_sub e /\ (c = Some (fst z) \/ c = Some (snd z))) \/ (exists z, z ∈ e_add e /\ (c = None \/ c = Some (a_type z)))).
  { intros c. rewrite HC, elem_of_inc_keys. setoid_rewrite elem_of_app. setoid_rewrite elem_of_app. setoid_rewrite elem_of_app. split.
    - intros (p & a & v & [H|[H|[H|H]]] & Hc).
      + apply elem_of_list_fmap in H as (t & [= -> -> ->] & H). left. exists t. split; [exact H|]. tauto.
      + apply elem_of_lookup_zip_with in H as (i & z & w & [= -> -> ->] & H & _). apply elem_of_list_lookup_2 in H.
        right. left. exists z. split; [exact H|]. tauto.
      + apply elem_of_list_fmap in H as (z & [= -> -> ->] & H). right. right. left. exists z. auto.
      + apply elem_of_list_fmap in H as ([t sd] & K & H). right. right. right. exists (Addition t sd). split; [exact H|].
        unfold inc_addition in K. cbn [a_side a_type] in *. destruct sd; injection K as -> -> ->; tauto.
    - intros [(t & H & ->)|[(z & H & ->)|[(z & H & Hc)|([t sd] & H & Hc)]]].
      + exists (Some t), (Some t), (NInt 1). split; [|auto]. left. apply elem_of_list_fmap. exists t. auto.
      + apply elem_of_list_lookup in H as (i & H). destruct (lookup_lt_is_Some_2 ws i) as [w Hw].
        { rewrite Ew. eapply lookup_lt_Some, H. }
        exists (Some (t_type z)), (Some (t_type z)), w. split; [|auto]. right. left.
        apply elem_of_lookup_zip_with. exists i, z, w. auto.
      + exists (Some (fst z)), (Some (snd z)), (NInt 1). split; [|exact Hc]. right. right. left. apply elem_of_list_fmap. exists z. auto.
      + cbn [a_type] in Hc. destruct sd.
        * exists None, (Some t), (NInt 1). split; [|exact Hc]. right. right. right. apply elem_of_list_fmap. exists (Addition t SideA). auto.
        * exists (Some t), None, (NInt 1). split; [|tauto]. right. right. right. apply elem_of_list_fmap. exists (Addition t SideB). auto. }
  split.
  - intros t. rewrite HK, (used_counts x y t Hl). destruct (bed_conserves E x y n_t e t HE Hs Hl He) as [C1 C2].
    pose proof (countP_pos (fun z => z = t) (st_matches s)) as K0. rewrite HM in K0.
    pose proof (countP_pos (fun z => z = Addition t SideA) (e_add e)) as K1. pose proof (countP_pos (fun z => z = Addition t SideB) (e_add e)) as K2.
    pose proof (countP_pos (fun z => fst z = t) (e_sub e)) as K3. pose proof (countP_pos (fun z => snd z = t) (e_sub e)) as K4.
    pose proof (countP_pos (fun z => t_type z = t) (e_transp e)) as K5. split.
    + intros [(t' & H & [= <-])|[(z & H & [= ->])|[(z & H & [[= ->]|[= ->]])|([t' sd] & H & [Hc|[= ->]])]]].
      * enough (0 < both_in x y t)%nat by lia. apply K0. eauto.
      * enough (0 < countP (fun t => t_type t = t_type z) (e_transp e))%nat by lia. apply K5. eauto.
      * enough (0 < countP (fun s => fst s = fst z) (e_sub e))%nat by lia. apply K3. eauto.
      * enough (0 < countP (fun s => snd s = snd z) (e_sub e))%nat by lia. apply K4. eauto.
      * discriminate.
      * cbn [a_type] in *. destruct sd.
        -- enough (0 < countP (fun x => x = Addition t' SideA) (e_add e))%nat by lia. apply K1. eauto.
        -- enough (0 < countP (fun x => x = Addition t' SideB) (e_add e))%nat by lia. apply K2. eauto.
    + intros H. rewrite C1, C2 in H.
      destruct (decide (0 < both_in x y t)%nat) as [D|D]; [apply K0 in D as (z & D & ->); left; eauto|].
      destruct (decide (0 < countP (fun t0 => t_type t0 = t) (e_transp e))%nat) as [D1|D1]; [apply K5 in D1 as (z & D1 & <-); right; left; eauto|].
      destruct (decide (0 < countP (fun s0 => fst s0 = t) (e_sub e))%nat) as [D2|D2]; [apply K3 in D2 as (z & D2 & <-); right; right; left; eauto|].
      destruct (decide (0 < countP (fun s0 => snd s0 = t) (e_sub e))%nat) as [D3|D3]; [apply K4 in D3 as (z & D3 & <-); right; right; left; eauto|].
      destruct (decide (0 < countP (fun z => z = Addition t SideA) (e_add e))%nat) as [D4|D4]; [apply K1 in D4 as (z & D4 & ->); right; right; right; eexists; split; [exact D4|auto]|].
      destruct (decide (0 < countP (fun z => z = Addition t SideB) (e_add e))%nat) as [D5|D5]; [apply K2 in D5 as (z & D5 & ->); right; right; right; eexists; split; [exact D5|auto]|].
      lia.
  - rewrite HK. split.
    + intros [(t & _ & H)|[(z & _ & H)|[(z & _ & [H|H])|(z & H & _)]]]; try discriminate. intros K. rewrite K in H. inversion H.
    + destruct (e_add e) as [|z l]; [congruence|]. intros _. right. right. right. exists z. split; [left|auto].
Qed.
End matrix.

(** ** The two matrices *)

Section swapped.
Context (A : arith) (E E' : env) (W : weights) (f : fmt) (n_t : Z) (sa sb : seg) (x y : bstring) (m m' : cmatrix).
Context (HE : env_ok E) (HE' : env_ok E') (Hs : small_types x y) (Hb : to_bstrings f sa sb = Ok (x, y)) (Hb' : to_bstrings f sb sa = Ok (y, x)).
Context (Hm : boundary_confusion_matrix A E W f n_t sa sb = Ok m) (Hm' : boundary_confusion_matrix A E' W f n_t sb sa = Ok m').

Lemma small_flip : small_types y x.
Proof. intros i d H1 H2. apply (Hs i d); tauto. Qed.

Lemma swapped_edits : exists e e', boundary_edit_distance E x y n_t = Ok e /\ boundary_edit_distance E' y x n_t = Ok e' /\
  e_add e' ≡ₚ flip_addition <$> e_add e /\ e_sub e' ≡ₚ flip_substitution <$> e_sub e /\ e_transp e' ≡ₚ e_transp e.
Proof.
  pose proof (to_bstrings_length _ _ _ _ _ Hb) as Hl.
  destruct (bed_returns E x y n_t HE ltac:(lia)) as [e He]. destruct (bed_returns E' y x n_t HE' ltac:(lia)) as [e' He'].
  exists e, e'. split; [exact He|]. split; [exact He'|]. exact (bed_swapped E E' x y n_t e e' HE HE' Hs Hl He He').
Qed.

Theorem swapped_classes : cls m' = cls m.
Proof.
  destruct swapped_edits as (e & e' & He & He' & PA & _ & _).
  destruct (matrix_classes A E W f n_t sa sb x y e m HE Hs Hb He Hm) as (_ & K1 & K2).
  destruct (matrix_classes A E' W f n_t sb sa y x e' m' HE' small_flip Hb' He' Hm') as (_ & K1' & K2').
  apply set_eq. intros [t|].
  - rewrite K1, K1'. unfold used. split; intros (i & [H|H]); eauto.
  - rewrite K2, K2'. split; intros H K; apply H.
    + rewrite K in PA. apply Permutation_nil_r in PA. exact PA.
    + rewrite K in PA. symmetry in PA. apply Permutation_nil_r, fmap_nil_inv in PA. exact PA.
Qed.

Theorem swapped_cells : forall p a, p <> a -> cell m' a p = cell m p a.
Proof.
  destruct swapped_edits as (e & e' & He & He' & PA & PS & _).
  destruct (matrix_cells _ _ _ _ _ _ _ _ _ _ _ HE Hb He Hm) as (C1 & C2 & C3 & C4 & _).
  destruct (matrix_cells _ _ _ _ _ _ _ _ _ _ _ HE' Hb' He' Hm') as (C1' & C2' & C3' & C4' & _).
  intros [t|] [u|] D; [| | |congruence].
  - rewrite C1, C1' by congruence. do 2 f_equal. rewrite (countP_perm _ _ _ PS). apply countP_fmap'.
    intros [z1 z2]. unfold flip_substitution. cbn. split; intros [= -> ->]; reflexivity.
  - rewrite C2', C3. do 2 f_equal. rewrite (countP_perm _ _ _ PA). apply countP_fmap'.
    intros [z [|]]; unfold flip_addition; cbn; split; intros [= ->]; reflexivity.
  - rewrite C3', C2. do 2 f_equal. rewrite (countP_perm _ _ _ PA). apply countP_fmap'.
    intros [z [|]]; unfold flip_addition; cbn; split; intros [= ->]; reflexivity.
Qed.

(** Without near misses every cell is a count, whatever the weights and the arithmetic. *)
Theorem swapped_counts e : boundary_edit_distance E x y n_t = Ok e -> e_transp e = [] ->
  (forall p a, cell m' a p = cell m p a) /\ (forall p a, is_int (cell m p a)).
Proof.
  intros He0 HT. destruct swapped_edits as (e1 & e' & He & He' & _ & _ & PT). rewrite He0 in He. injection He as <-.
  rewrite HT in PT. apply Permutation_nil_r in PT.
  destruct (matrix_cells _ _ _ _ _ _ _ _ _ _ _ HE Hb He0 Hm) as (C1 & C2 & C3 & C4 & C5).
  destruct (matrix_cells _ _ _ _ _ _ _ _ _ _ _ HE' Hb' He' Hm') as (C1' & C2' & C3' & C4' & C5').
  assert (HD : forall t, cell m (Some t) (Some t) = NInt (Z.of_nat (both_in x y t))).
  { intros t. destruct (C5 t) as (ws & Ew & Ec). rewrite HT in Ew. injection Ew as <-. injection Ec as <-. reflexivity. }
  assert (HD' : forall t, cell m' (Some t) (Some t) = NInt (Z.of_nat (both_in y x t))).
  { intros t. destruct (C5' t) as (ws & Ew & Ec). rewrite PT in Ew. injection Ew as <-. injection Ec as <-. reflexivity. }
  split.
  - intros p a. destruct (decide (p = a)) as [<-|D]; [|apply swapped_cells, D].
    destruct p as [t|]; [|congruence]. rewrite HD, HD', both_in_flip. reflexivity.
  - intros [t|] [u|].
    + destruct (decide (t = u)) as [<-|D]; [rewrite HD|rewrite C1 by exact D]; exact I.
    + rewrite C3. exact I.
    + rewrite C2. exact I.
    + rewrite C4. exact I.
Qed.
End swapped.

(** With the default weights and exact arithmetic. *)
Theorem swapped_transposed E E' f n_t sa sb x y m m' : env_ok E -> env_ok E' -> small_types x y -> n_t <> 0 ->
  to_bstrings f sa sb = Ok (x, y) -> to_bstrings f sb sa = Ok (y, x) ->
  boundary_confusion_matrix exactA E (default_weights exactA) f n_t sa sb = Ok m ->
  boundary_confusion_matrix exactA E' (default_weights exactA) f n_t sb sa = Ok m' -> transposed m m'.
Proof.
  intros HE HE' Hs Hn Hb Hb' Hm Hm'. split; [eapply swapped_classes; [exact HE|exact HE'|exact Hs|exact Hb|exact Hb'|exact Hm|exact Hm']|].
  intros p a. destruct (decide (p = a)) as [<-|D].
  - destruct p as [t|].
    + destruct (swapped_edits E E' f n_t sa sb x y HE HE' Hs Hb) as (e & e' & He & He' & _ & _ & PT).
      rewrite (matrix_diagonal _ _ _ _ _ _ _ _ _ t HE Hn Hb He Hm), (matrix_diagonal _ _ _ _ _ _ _ _ _ t HE' Hn Hb' He' Hm').
      rewrite both_in_flip, (spanned_perm _ (filter (fun x => t_type x = t) (e_transp e))); [reflexivity|]. rewrite PT. reflexivity.
    + destruct (bed_returns E x y n_t HE ltac:(pose proof (to_bstrings_length _ _ _ _ _ Hb); lia)) as [e He].
      destruct (bed_returns E' y x n_t HE' ltac:(pose proof (to_bstrings_length _ _ _ _ _ Hb); lia)) as [e' He'].
      destruct (matrix_cells _ _ _ _ _ _ _ _ _ _ _ HE Hb He Hm) as (_ & _ & _ & -> & _).
      destruct (matrix_cells _ _ _ _ _ _ _ _ _ _ _ HE' Hb' He' Hm') as (_ & _ & _ & -> & _). reflexivity.
  - rewrite (swapped_cells exactA E E' _ f n_t sa sb x y m m' HE HE' Hs Hb Hb' Hm Hm' p a D). reflexivity.
Qed.

(** ** Transposed matrices *)

Lemma transposed_sym m m' : transposed m m' -> transposed m' m.
Proof. intros [H1 H2]. split; [congruence|]. intros p a. rewrite H2. reflexivity. Qed.

Lemma transposed_line m m' c : transposed m m' -> (col_sum m' c == row_sum m c)%Q.
Proof. intros [H1 H2]. unfold col_sum, row_sum. rewrite H1. apply csum_ext. intros k _. apply H2. Qed.

Lemma transposed_class A m m' c : sane A -> transposed m m' -> class_recall A m' c = class_precision A m c.
Proof.
  intros HA HT. unfold class_recall, class_precision. pose proof (proj2 HT c c) as Hc.
  rewrite (Qeq_bool_ext _ _ 0 Hc). destruct (Qeq_bool (nval (cell m c c)) 0); [reflexivity|].
  apply (rd_ext A HA). rewrite Hc, (transposed_line m m' c HT). reflexivity.
Qed.

Lemma transposed_micro A m m' : sane A -> transposed m m' -> micro_value A m' = micro_value A m.
Proof.
  intros HA [H1 H2]. unfold micro_value.
  assert (HD : (diagonal m' == diagonal m)%Q) by (unfold diagonal; rewrite H1; apply csum_ext; intros k _; apply H2).
  assert (HS : (total m' == total m)%Q).
  { unfold total. rewrite H1. unfold csum at 1 2. rewrite (qsum_swap (fun p a => nval (cell m' p a))).
    apply qsum_fmap_ext. intros a _. apply qsum_fmap_ext. intros p _. apply H2. }
  rewrite (Qeq_bool_ext _ _ 0 HD), (Qeq_bool_ext _ _ 0 HS).
  destruct (Qeq_bool (diagonal m) 0); [reflexivity|]. destruct (Qeq_bool (total m) 0); [reflexivity|].
  do 2 f_equal. apply (rd_ext A HA). rewrite HD, HS. reflexivity.
Qed.

Lemma transposed_macro A m m' : sane A -> transposed m m' ->
  (macro_value m' (class_recall A m') == macro_value m (class_precision A m))%Q.
Proof.
  intros HA HT. unfold macro_value. rewrite (proj1 HT). unfold Qdiv. apply Qmult_comp; [|reflexivity].
  apply csum_ext. intros c _. rewrite (transposed_class A m m' c HA HT). reflexivity.
Qed.

Theorem transposed_metrics A o o' m m' : sane A -> cord_ok o -> cord_ok o' -> reachable A m -> reachable A m' ->
  tame A m -> tame A m' -> exact_cells A m -> exact_cells A m' -> transposed m m' ->
  (forall t ver, exists v n n', precision A o m (Some t) ver = Ok (v, n) /\ recall A o' m' (Some t) ver = Ok (v, n')) /\
  rmap fst (precision A o m None AvgMicro) = rmap fst (recall A o' m' None AvgMicro).
Proof.
  intros HA HO HO' HR HR' HT HT' HE HE' H. split.
  - intros t ver. destruct (class_values A o m HA HO HR HT t ver) as (p & r & mp & mr & E1 & _ & _ & _ & X1).
    destruct (class_values A o' m' HA HO' HR' HT' t ver) as (p' & r' & mp' & mr' & _ & E2 & _ & _ & X2).
    destruct (X1 HE) as [-> _]. destruct (X2 HE') as [_ ->]. rewrite (transposed_class A m m' _ HA H) in E2. eauto.
  - destruct (micro_precision_recall A o m HA HR HO HE) as [-> _]. destruct (micro_precision_recall A o' m' HA HR' HO' HE') as [_ ->].
    symmetry. apply transposed_micro; assumption.
Qed.

(** F with the inverse of [beta] after the exchange. *)
Lemma fbeta_swap b b' p r : (b * b' == 1)%Q -> (fbeta (b' * b') r p == fbeta (b * b) p r)%Q.
Proof.
  intros Hb. unfold fbeta.
  assert (Nb : ~ (b == 0)%Q). { intros K. rewrite K in Hb. discriminate (Qeq_eq_bool _ _ Hb). }
  assert (Eb : (b' == / b)%Q). { rewrite <- (Qmult_1_l (/ b)), <- Hb. field. exact Nb. }
  rewrite Eb.
  destruct (Qeq_dec (b * b * p + r) 0) as [D|D].
  - rewrite D. assert (D' : (/ b * / b * r + p == 0)%Q).
    { rewrite <- (Qmult_0_r (/ b * / b)), <- D. field. exact Nb. }
    rewrite D'. unfold Qdiv. change (/ 0)%Q with 0%Q. ring.
  - field. split; assumption.
Qed.
