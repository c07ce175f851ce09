(** Boundary edit distance: the properties themselves. *)
From Verif Require Import Spec FormatProofs Bed BedProofs BedSubs BedMain.
Open Scope Z_scope.

Lemma ts_packed E a b n_t : env_ok E -> small_types a b ->
  packed (fun t => valid a b t /\ Z.of_nat (t_end t) - Z.of_nat (t_start t) <= n_t - 1) (ts E a b n_t).
Proof.
  intros HE Hs. eapply packed_impl; [|apply run_packed; [assumption|assumption|apply spans_ge]].
  intros t [H (n & Hn & He)]. split; [assumption|]. apply elem_of_spans in Hn. destruct H as [H _]. lia.
Qed.

(** ** C09 *)

Lemma ind_iff (P Q : Prop) `{Decision P} `{Decision Q} : (P <-> Q) -> ind P = ind Q.
Proof. unfold ind. intros HPQ. destruct (decide P), (decide Q); tauto. Qed.

Lemma covered_count (P : transposition -> Prop) a b out d (x y : bstring) :
  (forall t, P t -> valid a b t) -> packed P out ->
  ((x = a /\ y = b) \/ (x = b /\ y = a)) ->
  sumn (fun i => ind (d ∈ (at_ x i ∖ at_ y i) ∩ X out i)) (length a) = countP (fun t => t_type t = d) out.
Proof.
  intros HP H Hxy. induction H as [|out t H IH Ht H1 H2].
  - rewrite (sumn_ext _ (fun _ => 0%nat)); [apply sumn_0|]. intros i _. unfold ind. rewrite decide_False; [reflexivity|].
    rewrite X_nil. set_solver.
  - rewrite countP_app, <- IH. apply HP in Ht as (Hlt & Hle & Hc). apply elem_of_candidates in Hc.
    destruct (decide (t_type t = d)) as [<-|Hd].
    + replace (countP (λ t0, t_type t0 = t_type t) [t]) with 1%nat.
      2: { unfold countP. rewrite filter_cons, decide_True by reflexivity. reflexivity. }
      set (k := if decide (t_type t ∈ at_ x (t_start t)) then t_start t else t_end t).
      assert (Hk : (k < length a)%nat) by (unfold k; destruct (decide _); lia).
      rewrite <- (sumn_ind k (length a)) by exact Hk. rewrite <- sumn_add. apply sumn_ext.
      intros i Hi. rewrite X_snoc.
      destruct (decide (covers_pos i t)) as [C|C].
      * assert (Hnx : t_type t ∉ X out i) by (destruct C as [<-|<-]; assumption).
        transitivity (ind (t_type t ∈ at_ x i ∖ at_ y i)); [apply ind_iff; set_solver|].
        transitivity (0 + ind (i = k))%nat.
        2: { f_equal. unfold ind. rewrite decide_False by set_solver. reflexivity. }
        cbn [Nat.add]. apply ind_iff. rewrite elem_of_difference. unfold k.
        destruct Hxy as [[-> ->]|[-> ->]]; destruct C as [<-|<-];
          destruct (decide (t_type t ∈ _)); destruct Hc as [Hc|Hc]; split; intros; try lia; try tauto.
      * replace (ind (i = k)) with 0%nat; [lia|]. unfold ind. rewrite decide_False; [reflexivity|].
        intros ->. apply C. unfold k, covers_pos. destruct (decide _); auto.
    + replace (countP (λ t0, t_type t0 = d) [t]) with 0%nat.
      2: { unfold countP. rewrite filter_cons, decide_False by assumption. reflexivity. }
      rewrite Nat.add_0_r. apply sumn_ext. intros i Hi. apply ind_iff. rewrite X_snoc.
      destruct (decide (covers_pos i t)); [|reflexivity]. set_solver.
Qed.

Lemma split_ind (d : Z) (s t : tyset) : ind (d ∈ s) = (ind (d ∈ s ∩ t) + ind (d ∈ s ∖ t))%nat.
Proof.
  unfold ind. destruct (decide (d ∈ s)) as [C|C], (decide (d ∈ t)) as [C2|C2];
    repeat first [rewrite decide_True by set_solver | rewrite decide_False by set_solver]; reflexivity.
Qed.

Theorem bed_conserves E a b n_t e d : env_ok E -> small_types a b -> length a = length b ->
  boundary_edit_distance E a b n_t = Ok e ->
  only_in a b d = (countP (fun x => x = Addition d SideA) (e_add e) + countP (fun s => fst s = d) (e_sub e)
                   + countP (fun t => t_type t = d) (e_transp e))%nat /\
  only_in b a d = (countP (fun x => x = Addition d SideB) (e_add e) + countP (fun s => snd s = d) (e_sub e)
                   + countP (fun t => t_type t = d) (e_transp e))%nat.
Proof.
  intros HE Hs Hl Hb. rewrite bed_ok in Hb by (assumption || lia). injection Hb as <-. cbn [e_add e_sub e_transp].
  pose proof (ts_packed E a b n_t HE Hs) as HP. set (out := ts E a b n_t) in *.
  assert (HV : packed (valid a b) out) by (eapply packed_impl; [|exact HP]; intros t [? ?]; assumption).
  rewrite !countP_join. split.
  - rewrite only_in_sum by assumption.
    rewrite <- (covered_count (valid a b) a b out d a b (fun _ h => h) HV (or_introl (conj eq_refl eq_refl))).
    rewrite <- !sumn_add. apply sumn_ext. intros i _.
    unfold adds_at, subs_at. rewrite (count_side_A _ _ d (R_disjoint a b (X out) i)).
    rewrite (split_ind d _ (X out i)). rewrite Nat.add_comm. reflexivity.
  - rewrite only_in_sum by congruence. rewrite <- Hl.
    rewrite <- (covered_count (valid a b) a b out d b a (fun _ h => h) HV (or_intror (conj eq_refl eq_refl))).
    rewrite <- !sumn_add. apply sumn_ext. intros i _.
    unfold adds_at, subs_at. rewrite (count_side_B _ _ d (R_disjoint a b (X out) i)).
    rewrite (split_ind d _ (X out i)). rewrite Nat.add_comm. reflexivity.
Qed.

Lemma residual_size (P : transposition -> Prop) a b out : (forall t, P t -> valid a b t) -> packed P out ->
  (sumn (fun i => size (RA a b (X out) i) + size (RB a b (X out) i)) (length a) + 2 * length out
   = sumn (fun i => size (OA a b i) + size (OB a b i)) (length a))%nat.
Proof.
  intros HP H. induction H as [|out t H IH Ht H1 H2].
  - cbn [length]. rewrite Nat.mul_0_r, Nat.add_0_r. apply sumn_ext. intros i _. unfold RA, RB. rewrite X_nil.
    rewrite !difference_empty_L. reflexivity.
  - rewrite <- IH. clear IH. rewrite app_length. cbn [length].
    apply HP in Ht as (Hlt & Hle & Hc). apply elem_of_candidates in Hc.
    transitivity (sumn (fun i => size (RA a b (X (out ++ [t])) i) + size (RB a b (X (out ++ [t])) i)) (length a)
      + (sumn (fun i => ind (i = t_start t)) (length a) + sumn (fun i => ind (i = t_end t)) (length a)) + 2 * length out)%nat.
    { rewrite !sumn_ind by lia. lia. }
    f_equal. rewrite <- !sumn_add. apply sumn_ext. intros i Hi.
    unfold RA, RB. rewrite X_snoc. destruct (decide (covers_pos i t)) as [C|C].
    + assert (Hnx : t_type t ∉ X out i) by (destruct C as [<-|<-]; assumption).
      assert (HI : (ind (i = t_start t) + ind (i = t_end t) = 1)%nat).
      { unfold ind. destruct C as [<-|<-].
        - rewrite decide_True, decide_False by lia. reflexivity.
        - rewrite decide_False, decide_True by lia. reflexivity. }
      rewrite HI.
      assert (HS : forall s : tyset, (size (s ∖ ({[t_type t]} ∪ X out i)) + ind (t_type t ∈ s) = size (s ∖ X out i))%nat).
      { intros s. unfold ind. destruct (decide (t_type t ∈ s)) as [Cs|Cs].
        - replace (s ∖ ({[t_type t]} ∪ X out i)) with ((s ∖ X out i) ∖ {[t_type t]}) by (apply set_eq; set_solver).
          rewrite (size_difference (s ∖ X out i) {[t_type t]}) by set_solver. rewrite size_singleton.
          assert (size (s ∖ X out i) <> 0%nat); [|lia].
          intros Hz. apply size_empty_inv in Hz. set_solver.
        - rewrite Nat.add_0_r. f_equal. apply set_eq. set_solver. }
      assert (HD : (ind (t_type t ∈ OA a b i) + ind (t_type t ∈ OB a b i) = 1)%nat).
      { unfold ind, OA, OB. destruct C as [<-|<-];
          repeat match goal with |- context [decide ?Q] => destruct (decide Q) end;
          rewrite elem_of_difference in *; tauto. }
      pose proof (HS (OA a b i)) as HS1. pose proof (HS (OB a b i)) as HS2. lia.
    + unfold ind. rewrite !decide_False; [lia| |]; intros ->; apply C; unfold covers_pos; auto.
Qed.

Theorem bed_total E a b n_t e : env_ok E -> small_types a b -> length a = length b ->
  boundary_edit_distance E a b n_t = Ok e ->
  (length (e_add e) + 2 * length (e_sub e) + 2 * length (e_transp e) = ndiffs a b)%nat.
Proof.
  intros HE Hs Hl Hb. rewrite bed_ok in Hb by (assumption || lia). injection Hb as <-. cbn [e_add e_sub e_transp].
  pose proof (ts_packed E a b n_t HE Hs) as HP. set (out := ts E a b n_t) in *.
  assert (HV : packed (valid a b) out) by (eapply packed_impl; [|exact HP]; intros t [? ?]; assumption).
  rewrite !length_join, ndiffs_sum by assumption.
  change (fun i => (size (at_ a i ∖ at_ b i) + size (at_ b i ∖ at_ a i))%nat) with
    (fun i => (size (OA a b i) + size (OB a b i))%nat).
  rewrite <- (residual_size (valid a b) a b out (fun _ h => h) HV).
  f_equal. cbn [Nat.mul]. rewrite Nat.add_0_r, <- !sumn_add. apply sumn_ext. intros i _.
  pose proof (adds_length _ _ (R_disjoint a b (X out) i)) as K. unfold adds_at, subs_at. lia.
Qed.

(** ** C08 *)

Lemma run_equal E a ns : env_ok E -> run E a a ns = [].
Proof.
  intros HE. unfold run. apply (foldl_inv (fun out => out = [])); [reflexivity|]. intros out n _ ->.
  unfold span. apply (foldl_inv (fun out => out = [])); [reflexivity|]. intros out i _ ->.
  unfold block. replace (cand a a i (i + (n - 1))) with (∅ : tyset).
  - assert (EO : ord E i (i + (n - 1)) ∅ = []).
    { apply Permutation_nil_r. rewrite (ord_perm E HE). reflexivity. }
    rewrite EO. reflexivity.
  - apply set_eq. intros d. unfold cand. rewrite elem_of_candidates. set_solver.
Qed.

Theorem bed_empty_iff E a b n_t : env_ok E -> length a = length b ->
  boundary_edit_distance E a b n_t = Ok (Edits [] [] []) <-> a = b.
Proof.
  intros HE Hl. rewrite bed_ok by (assumption || lia). split.
  - intros H. injection H as H1 H2 H3. rewrite H3 in *.
    apply list_eq. intros i. destruct (decide (i < length a)%nat) as [C|C].
    + destruct (lookup_lt_is_Some_2 a i C) as [x Hx]. destruct (lookup_lt_is_Some_2 b i ltac:(lia)) as [y Hy].
      rewrite Hx, Hy. f_equal.
      apply (f_equal length) in H1. apply (f_equal length) in H2. rewrite length_join in H1. rewrite length_join in H2. cbn in H1, H2.
      rewrite sumn_zero_iff in H1, H2. specialize (H1 i C). specialize (H2 i C).
      pose proof (adds_length _ _ (R_disjoint a b (X []) i)) as K. unfold adds_at in H1. unfold subs_at in H2.
      rewrite H1, H2 in K. unfold RA, RB, OA, OB, at_ in K. rewrite Hx, Hy, X_nil in K. cbn [default from_option] in K. unfold id in K.
      rewrite (difference_empty_L (x ∖ y)), (difference_empty_L (y ∖ x)) in K.
      assert (K1 : size (x ∖ y) = 0%nat) by lia. assert (K2 : size (y ∖ x) = 0%nat) by lia.
      apply size_empty_inv in K1, K2. apply set_eq. intros d.
      destruct (decide (d ∈ x)), (decide (d ∈ y)); set_solver.
    + rewrite !lookup_ge_None_2 by lia. reflexivity.
  - intros <-. unfold ts. rewrite run_equal by assumption.
    assert (K : forall i, RA a a (X []) i = ∅ /\ RB a a (X []) i = ∅).
    { intros i. unfold RA, RB, OA, OB. split; apply set_eq; set_solver. }
    do 2 f_equal.
    + apply nil_length_inv. rewrite length_join. apply sumn_zero_iff. intros i _. unfold adds_at.
      destruct (K i) as [-> ->]. rewrite adds_empty. reflexivity.
    + apply nil_length_inv. rewrite length_join. apply sumn_zero_iff. intros i _. unfold subs_at.
      destruct (K i) as [-> ->]. rewrite best_empty. reflexivity.
Qed.

(** ** C10 *)

Theorem bed_transpositions E a b n_t e : env_ok E -> small_types a b -> length a = length b ->
  boundary_edit_distance E a b n_t = Ok e ->
  (forall t, t ∈ e_transp e ->
     (t_start t < t_end t < length a)%nat /\
     Z.of_nat (t_end t) - Z.of_nat (t_start t) <= n_t - 1 /\
     swaps a b (t_start t) (t_end t) (t_type t)) /\
  (forall k1 k2 t u, e_transp e !! k1 = Some t -> e_transp e !! k2 = Some u -> k1 <> k2 ->
     t_type t = t_type u ->
     t_start t <> t_start u /\ t_start t <> t_end u /\ t_end t <> t_start u /\ t_end t <> t_end u).
Proof.
  intros HE Hs Hl Hb. rewrite bed_ok in Hb by (assumption || lia). injection Hb as <-. cbn [e_transp].
  pose proof (ts_packed E a b n_t HE Hs) as HP. split.
  - intros t Ht. apply packed_Forall in HP. rewrite Forall_forall in HP. destruct (HP t Ht) as [(H1 & H2 & H3) H4].
    apply cand_swaps in H3. repeat split; try lia; assumption.
  - eapply packed_no_overlap, HP.
Qed.

(** ** Blocks: order independence and symmetry *)

Lemma sub_pos_mono a b out out' i : (forall d, d ∈ X out i -> d ∈ X out' i) ->
  sub_pos a b (X out') i -> sub_pos a b (X out) i.
Proof.
  unfold sub_pos, RA, RB. intros H [H1 H2].
  apply set_choose_L in H1 as [x Hx]. apply set_choose_L in H2 as [y Hy]. set_solver.
Qed.

Definition fresh (out : list transposition) (i j : nat) (d : Z) : Prop := d ∉ X out i /\ d ∉ X out j.
Global Instance fresh_dec out i j d : Decision (fresh out i j d).
Proof. unfold fresh. apply _. Defined.

Lemma filter_id {A} (P : A -> Prop) `{!forall x, Decision (P x)} (l : list A) : (forall x, x ∈ l -> P x) -> filter P l = l.
Proof.
  induction l as [|x l IH]; intros K; [reflexivity|]. rewrite filter_cons, decide_True by (apply K; left).
  f_equal. apply IH. intros; apply K; right; assumption.
Qed.

Lemma filter_ext_in {A} (P Q : A -> Prop) `{!forall x, Decision (P x)} `{!forall x, Decision (Q x)} (l : list A) :
  (forall x, x ∈ l -> P x <-> Q x) -> filter P l = filter Q l.
Proof.
  induction l as [|x l IH]; intros K; [reflexivity|]. rewrite !filter_cons.
  assert (HP : P x <-> Q x) by (apply K; left). specialize (IH ltac:(intros; apply K; right; assumption)).
  destruct (decide (P x)), (decide (Q x)); try tauto; rewrite IH; reflexivity.
Qed.

Lemma accept_small E a b out i j d : env_ok E -> -5 <= d <= 256 ->
  accept E a b out (Transp i j d) = bool_decide (fresh out i j d /\ ~ (sub_pos a b (X out) i /\ sub_pos a b (X out) j)).
Proof.
  intros HE Hd. unfold accept. rewrite clash_small by assumption. cbn [t_start t_end t_type].
  rewrite <- !bool_decide_not, <- bool_decide_and. apply bool_decide_ext.
  unfold blocked, fresh. cbn [t_start t_end t_type].
  destruct (decide (d ∈ X out i)), (decide (d ∈ X out j)), (decide (sub_pos a b (X out) i)), (decide (sub_pos a b (X out) j)); tauto.
Qed.

Lemma fold_block E a b i j l out : env_ok E -> i <> j -> NoDup l -> (forall d, d ∈ l -> -5 <= d <= 256) ->
  foldl (tstep E a b) out (Transp i j <$> l) =
    if decide (sub_pos a b (X out) i /\ sub_pos a b (X out) j) then out
    else out ++ (Transp i j <$> filter (fresh out i j) l).
Proof.
  intros HE Hij. revert out. induction l as [|d l IH]; intros out Hnd Hsm.
  - cbn. rewrite app_nil_r. destruct (decide _); reflexivity.
  - apply NoDup_cons in Hnd as [Hd Hnd]. cbn [fmap list_fmap foldl].
    specialize (fun out => IH out Hnd ltac:(intros; apply Hsm; right; assumption)).
    rewrite IH. clear IH.
    assert (HT : tstep E a b out (Transp i j d) =
      if decide (fresh out i j d /\ ~ (sub_pos a b (X out) i /\ sub_pos a b (X out) j)) then out ++ [Transp i j d] else out).
    { unfold tstep. rewrite accept_small by (try assumption; apply Hsm; left). case_bool_decide as Q; [rewrite decide_True by exact Q|rewrite decide_False by exact Q]; reflexivity. }
    destruct (decide (sub_pos a b (X out) i /\ sub_pos a b (X out) j)) as [B|B].
    + rewrite decide_False in HT by tauto. rewrite HT, decide_True by assumption. reflexivity.
    + rewrite filter_cons. destruct (decide (fresh out i j d)) as [F|F].
      * rewrite decide_True in HT by tauto. rewrite HT, decide_False.
        -- rewrite <- app_assoc. cbn [fmap list_fmap app]. do 3 f_equal. apply filter_ext_in.
           intros x Hx. unfold fresh. rewrite !X_snoc. cbn [t_type].
           rewrite !decide_True by (unfold covers_pos; cbn; auto).
           assert (x <> d) by (intros ->; contradiction). set_solver.
        -- intros [B1 B2]. apply B. split; eapply sub_pos_mono; try eassumption; intros x Hx; rewrite X_snoc; destruct (decide _); set_solver.
      * rewrite decide_False in HT by tauto. rewrite HT, decide_False by assumption. reflexivity.
Qed.

(** The two runs agree on everything the loop looks at. *)
Record alike (a b a' b' : bstring) : Prop := Alike {
  alike_len : length a = length a';
  alike_cand : forall i j, cand a b i j = cand a' b' i j;
  alike_sub : forall Y i, sub_pos a b Y i <-> sub_pos a' b' Y i
}.

Lemma alike_refl a b : alike a b a b.
Proof. constructor; reflexivity. Qed.

Lemma alike_swap a b : length a = length b -> alike a b b a.
Proof.
  intros H. constructor; [assumption| |].
  - intros i j. apply set_eq. intros d. unfold cand. rewrite !elem_of_candidates. tauto.
  - intros Y i. unfold sub_pos, RA, RB, OA, OB. tauto.
Qed.

Lemma NoDup_ord E i j s : env_ok E -> NoDup (ord E i j s).
Proof. intros HE. rewrite (ord_perm E HE). apply NoDup_elements. Qed.

Lemma block_perm E E' a b a' b' out out' i j : env_ok E -> env_ok E' -> small_types a b ->
  alike a b a' b' -> (i <> j i)%nat -> out ≡ₚ out' ->
  block E a b j out i ≡ₚ block E' a' b' j out' i.
Proof.
  intros HE HE' Hs [Hl Hc Hsub] Hij Hp. unfold block.
  rewrite !fold_block; try assumption.
  - assert (HX : forall k, X out k = X out' k) by (intros; apply X_perm, Hp).
    assert (HB : forall k, sub_pos a b (X out) k <-> sub_pos a' b' (X out') k).
    { intros k. rewrite Hsub. unfold sub_pos, RA, RB. rewrite HX. reflexivity. }
    pose proof (HB i) as HB1. pose proof (HB (j i)) as HB2.
    destruct (decide (sub_pos a b (X out) i /\ sub_pos a b (X out) (j i))) as [B|B].
    + rewrite decide_True by tauto. exact Hp.
    + rewrite decide_False by tauto. apply Permutation_app; [exact Hp|]. apply Permutation_map.
      rewrite (filter_ext_in (fresh out i (j i)) (fresh out' i (j i))).
      * rewrite (ord_perm E HE), (ord_perm E' HE'), Hc. reflexivity.
      * intros d _. unfold fresh. rewrite !HX. reflexivity.
  - apply NoDup_ord, HE'.
  - intros d Hd. apply elem_of_ord in Hd; [|exact HE']. rewrite <- Hc in Hd. eapply cand_small; eassumption.
  - apply NoDup_ord, HE.
  - intros d Hd. apply elem_of_ord in Hd; [|exact HE]. eapply cand_small; eassumption.
Qed.

Lemma run_perm E E' a b a' b' ns : env_ok E -> env_ok E' -> small_types a b -> alike a b a' b' ->
  Forall (fun n => 2 <= n)%nat ns -> run E a b ns ≡ₚ run E' a' b' ns.
Proof.
  intros HE HE' Hs HA Hns. unfold run.
  assert (G : forall out out', out ≡ₚ out' -> foldl (span E a b) out ns ≡ₚ foldl (span E' a' b') out' ns); [|apply G; reflexivity].
  induction ns as [|n ns IH]; intros out out' Hp; [exact Hp|]. apply Forall_cons in Hns as [Hn Hns].
  cbn [foldl]. apply IH; [assumption|]. unfold span. rewrite <- (alike_len _ _ _ _ HA).
  generalize (seq 0 (length a - (n - 1))). intros l. revert out out' Hp.
  induction l as [|i l IHl]; intros out out' Hp; [exact Hp|]. cbn [foldl]. apply IHl.
  apply block_perm; try assumption. lia.
Qed.

Lemma sumn_fmap_sum_Z (f g : nat -> Z) n : (forall i, (i < n)%nat -> f i = g i) ->
  zsum (f <$> seq 0 n) = zsum (g <$> seq 0 n).
Proof.
  intros H. f_equal. apply list_fmap_ext. intros k i Hk. apply H. apply elem_of_list_lookup_2, elem_of_seq in Hk. lia.
Qed.

Lemma pair_cost_app l k : pair_cost (l ++ k) = pair_cost l + pair_cost k.
Proof. unfold pair_cost. rewrite fmap_app, zsum_app. reflexivity. Qed.

Lemma pair_cost_join (f : nat -> list substitution) n :
  pair_cost (mjoin (f <$> seq 0 n)) = zsum ((fun i => pair_cost (f i)) <$> seq 0 n).
Proof.
  induction n as [|n IH]; [reflexivity|]. rewrite seq_S, !fmap_app, join_app, pair_cost_app, IH, zsum_app.
  cbn [fmap list_fmap mjoin list_join]. rewrite app_nil_r, zsum_cons. change (zsum []) with 0. cbn [Nat.add]. lia.
Qed.

Theorem bed_symmetric E E' a b n_t e e' : env_ok E -> env_ok E' -> small_types a b -> length a = length b ->
  boundary_edit_distance E a b n_t = Ok e -> boundary_edit_distance E' b a n_t = Ok e' ->
  e_transp e ≡ₚ e_transp e' /\
  countP (fun x => a_side x = SideA) (e_add e) = countP (fun x => a_side x = SideB) (e_add e') /\
  countP (fun x => a_side x = SideB) (e_add e) = countP (fun x => a_side x = SideA) (e_add e') /\
  length (e_add e) = length (e_add e') /\
  length (e_sub e) = length (e_sub e') /\
  pair_cost (e_sub e) = pair_cost (e_sub e').
Proof.
  intros HE HE' Hs Hl H1 H2. rewrite bed_ok in H1, H2 by (assumption || lia).
  injection H1 as <-. injection H2 as <-. cbn [e_add e_sub e_transp]. rewrite <- Hl.
  assert (HP : ts E a b n_t ≡ₚ ts E' b a n_t).
  { apply run_perm; try assumption; [apply alike_swap, Hl|apply spans_ge]. }
  set (out := ts E a b n_t) in *. set (out' := ts E' b a n_t) in *.
  assert (HX : forall k, X out k = X out' k) by (intros; apply X_perm, HP).
  assert (HR1 : forall k, RA b a (X out') k = RB a b (X out) k) by (intros; unfold RA, RB; rewrite HX; reflexivity).
  assert (HR2 : forall k, RB b a (X out') k = RA a b (X out) k) by (intros; unfold RA, RB; rewrite HX; reflexivity).
  assert (HD : forall k, RB a b (X out) k ## RA a b (X out) k) by (intros k; symmetry; apply R_disjoint).
  split; [assumption|]. rewrite !countP_join, !length_join, !pair_cost_join.
  unfold adds_at, subs_at.
  repeat split.
  - apply sumn_ext. intros i _. rewrite HR1, HR2.
    pose proof (adds_side_A _ _ (R_disjoint a b (X out) i)). pose proof (adds_side_B _ _ (HD i)). lia.
  - apply sumn_ext. intros i _. rewrite HR1, HR2.
    pose proof (adds_side_B _ _ (R_disjoint a b (X out) i)). pose proof (adds_side_A _ _ (HD i)). lia.
  - apply sumn_ext. intros i _. rewrite HR1, HR2.
    pose proof (adds_length _ _ (R_disjoint a b (X out) i)). pose proof (adds_length _ _ (HD i)).
    pose proof (best_length_sym (RA a b (X out) i) (RB a b (X out) i)). lia.
  - apply sumn_ext. intros i _. rewrite HR1, HR2. apply best_length_sym.
  - apply sumn_fmap_sum_Z. intros i _. rewrite HR1, HR2. apply best_cost_sym.
Qed.

Theorem bed_order_independent E E' a b n_t e e' : env_ok E -> env_ok E' -> small_types a b -> length a = length b ->
  boundary_edit_distance E a b n_t = Ok e -> boundary_edit_distance E' a b n_t = Ok e' ->
  e_transp e ≡ₚ e_transp e' /\ e_add e = e_add e' /\ e_sub e = e_sub e'.
Proof.
  intros HE HE' Hs Hl H1 H2. rewrite bed_ok in H1, H2 by (assumption || lia).
  injection H1 as <-. injection H2 as <-. cbn [e_add e_sub e_transp].
  assert (HP : ts E a b n_t ≡ₚ ts E' a b n_t).
  { apply run_perm; try assumption; [apply alike_refl|apply spans_ge]. }
  split; [assumption|].
  assert (HX : forall k, X (ts E a b n_t) k = X (ts E' a b n_t) k) by (intros; apply X_perm, HP).
  split; f_equal; apply list_fmap_ext; intros k i _; unfold adds_at, subs_at, RA, RB; rewrite HX; reflexivity.
Qed.

(** ** C14 *)

Lemma block_prefix E a b j out i : out `prefix_of` block E a b j out i.
Proof.
  unfold block. apply (foldl_inv (fun o => out `prefix_of` o)); [reflexivity|].
  intros o t _ Ho. unfold tstep. destruct (accept _ _ _ _ _); [|exact Ho].
  etransitivity; [exact Ho|]. apply prefix_app_r. reflexivity.
Qed.

Lemma spans_prefix E a b out ns : out `prefix_of` foldl (span E a b) out ns.
Proof.
  apply (foldl_inv (fun o => out `prefix_of` o)); [reflexivity|]. intros o n _ Ho.
  unfold span. apply (foldl_inv (fun o => out `prefix_of` o)); [exact Ho|]. intros o' i _ Ho'.
  etransitivity; [exact Ho'|apply block_prefix].
Qed.

Theorem bed_monotone E a b n_t n_t' e e' : env_ok E -> (length a <= length b)%nat -> n_t <= n_t' ->
  boundary_edit_distance E a b n_t = Ok e -> boundary_edit_distance E a b n_t' = Ok e' ->
  e_transp e `prefix_of` e_transp e'.
Proof.
  intros HE Hl Hn H1 H2. rewrite bed_ok in H1, H2 by assumption. injection H1 as <-. injection H2 as <-.
  cbn [e_transp]. unfold ts, run, spans.
  replace (Z.to_nat (n_t' - 1)) with (Z.to_nat (n_t - 1) + (Z.to_nat (n_t' - 1) - Z.to_nat (n_t - 1)))%nat by lia.
  rewrite seq_app, foldl_app. apply spans_prefix.
Qed.

Theorem bed_no_transposition E a b n_t e : env_ok E -> (length a <= length b)%nat -> n_t <= 1 ->
  boundary_edit_distance E a b n_t = Ok e -> e_transp e = [].
Proof.
  intros HE Hl Hn H. rewrite bed_ok in H by assumption. injection H as <-. cbn [e_transp].
  unfold ts, spans. replace (Z.to_nat (n_t - 1)) with 0%nat by lia. reflexivity.
Qed.

(** ** C17 *)

Theorem bed_returns E a b n_t : env_ok E -> (length a <= length b)%nat ->
  exists e, boundary_edit_distance E a b n_t = Ok e.
Proof. intros HE Hl. rewrite bed_ok by assumption. eauto. Qed.

Theorem bed_index_error E a b n_t : env_ok E -> (length b < length a)%nat -> (2 <= length a)%nat -> 2 <= n_t ->
  boundary_edit_distance E a b n_t = Err IndexError.
Proof.
  intros HE Hl Ha Hn. unfold boundary_edit_distance, boundary_edit_distance_n, transpositions.
  replace (Z.to_nat (n_t - 1)) with (S (Z.to_nat (n_t - 2))) by lia. cbn [seq foldM].
  assert (K : transp_span E a b (TState (optional_set_edits a b) ∅ []) 2 = Err IndexError).
  { unfold transp_span. cbn [Nat.sub].
    replace (length a - 1)%nat with ((length b - 1) + S (length a - 2 - (length b - 1)))%nat by lia.
    rewrite seq_app. cbn [Nat.add seq].
    destruct (transp_poss_refine E a b HE 1 (seq 0 (length b - 1)) _ (inv_init a b)) as (st & E1 & H1 & _); [lia| | |].
    { intros i Hi. apply elem_of_seq in Hi. lia. }
    { intros i Hi. apply elem_of_seq in Hi. lia. }
    assert (FA : forall {S X} (f : S -> X -> res S) l k s, foldM f (l ++ k) s = let* s' := foldM f l s in foldM f k s').
    { clear. intros S X f l. induction l as [|x l IH]; intros k s; [reflexivity|]. cbn. destruct (f s x); [cbn; apply IH|reflexivity]. }
    rewrite FA, E1. cbn [bind foldM]. unfold transp_pos at 1, lookup_or.
    destruct (lookup_lt_is_Some_2 a (length b - 1)) as [x Hx]; [lia|].
    destruct (lookup_lt_is_Some_2 a (length b - 1 + 1)) as [y Hy]; [lia|].
    rewrite Hx, Hy. cbn [bind].
    destruct (decide (length b = 0)%nat) as [C|C].
    - rewrite (lookup_ge_None_2 b) by lia. reflexivity.
    - destruct (lookup_lt_is_Some_2 b (length b - 1)) as [z Hz]; [lia|]. rewrite Hz. cbn [bind].
      rewrite (lookup_ge_None_2 b (length b - 1 + 1)) by lia. reflexivity. }
  rewrite K. reflexivity.
Qed.
