(** Boundary edit distance: what the whole computation returns. *)
From Verif Require Import Spec FormatProofs Bed BedProofs BedSubs.
Open Scope Z_scope.

Definition adds_at (a b : bstring) (out : list transposition) (i : nat) : list addition :=
  adds_of (RA a b (X out) i) (RB a b (X out) i).
Definition subs_at (a b : bstring) (out : list transposition) (i : nat) : list substitution :=
  best_substitutions (RA a b (X out) i) (RB a b (X out) i).

Lemma R_disjoint a b Y i : RA a b Y i ## RB a b Y i.
Proof. unfold RA, RB, OA, OB. set_solver. Qed.

Lemma best_empty : best_substitutions ∅ ∅ = [].
Proof. destruct (best_is_pairing ∅ ∅) as (_ & _ & _ & H). rewrite size_empty in H. apply nil_length_inv, H. Qed.

Lemma adds_empty : adds_of ∅ ∅ = [].
Proof.
  pose proof (adds_length ∅ ∅ ltac:(set_solver)) as H. rewrite size_empty in H. apply nil_length_inv. lia.
Qed.

Lemma collect_fold a b out l acc : (forall i, i ∈ l -> (i < length a)%nat /\ (i < length b)%nat) ->
  foldM collect_edits (omap (opt a b (X out)) l) acc =
    Ok (fst acc ++ mjoin (adds_at a b out <$> l), snd acc ++ mjoin (subs_at a b out <$> l)).
Proof.
  revert acc. induction l as [|i l IH]; intros acc Hl.
  - cbn. rewrite !app_nil_r. destruct acc; reflexivity.
  - destruct (Hl i) as [Hia Hib]; [left|].
    destruct (lookup_lt_is_Some_2 a i Hia) as [x Hx]. destruct (lookup_lt_is_Some_2 b i Hib) as [y Hy].
    specialize (fun acc => IH acc ltac:(intros; apply Hl; right; assumption)).
    cbn [omap list_omap fmap list_fmap mjoin list_join].
    unfold opt at 1. rewrite Hx, Hy.
    assert (EA : RA a b (X out) i = x ∖ y ∖ X out i) by (unfold RA, OA, at_; rewrite Hx, Hy; reflexivity).
    assert (EB : RB a b (X out) i = y ∖ x ∖ X out i) by (unfold RB, OB, at_; rewrite Hx, Hy; reflexivity).
    destruct (decide (symdiff x y = ∅)) as [C|C].
    + rewrite symdiff_empty in C. subst y.
      assert (Z0 : x ∖ x ∖ X out i = ∅) by (apply set_eq; set_solver).
      rewrite IH. unfold adds_at at 2, subs_at at 2. rewrite EA, EB, Z0, best_empty, adds_empty. reflexivity.
    + cbn [foldM]. unfold collect_edits at 1. cbn [d_sim d_ab d_ba]. rewrite sets_ok.
      * cbn [bind]. rewrite IH. cbn [fst snd]. rewrite <- !app_assoc. unfold adds_at at 2, subs_at at 2. rewrite EA, EB. reflexivity.
      * apply set_eq. unfold symdiff. set_solver.
      * set_solver.
Qed.

Lemma bed_refine E a b ns : env_ok E -> Forall (fun n => 2 <= n)%nat ns -> (length a <= length b)%nat ->
  boundary_edit_distance_n E a b ns =
    Ok (Edits (mjoin (adds_at a b (run E a b ns) <$> seq 0 (length a)))
              (mjoin (subs_at a b (run E a b ns) <$> seq 0 (length a)))
              (run E a b ns)).
Proof.
  intros HE Hns Hl. unfold boundary_edit_distance_n.
  destruct (transpositions_refine E a b HE ns Hns Hl) as (opts & E1 & H1). rewrite E1. cbn [bind].
  assert (EO : option_values (length a) opts = omap (opt a b (X (run E a b ns))) (seq 0 (length a))).
  { unfold option_values. apply list_omap_ext. apply Forall_Forall2_diag, Forall_forall. intros i _. apply H1. }
  rewrite EO, collect_fold; [reflexivity|]. intros i Hi. apply elem_of_seq in Hi. lia.
Qed.

Definition spans (n_t : Z) : list nat := seq 2 (Z.to_nat (n_t - 1)).

Lemma spans_ge n_t : Forall (fun n => 2 <= n)%nat (spans n_t).
Proof. apply Forall_forall. intros n Hn. apply elem_of_seq in Hn. lia. Qed.

Lemma elem_of_spans n_t n : n ∈ spans n_t <-> (2 <= n)%nat /\ Z.of_nat n <= n_t.
Proof. unfold spans. rewrite elem_of_seq. lia. Qed.

Definition ts (E : env) (a b : bstring) (n_t : Z) : list transposition := run E a b (spans n_t).

Lemma bed_ok E a b n_t : env_ok E -> (length a <= length b)%nat ->
  boundary_edit_distance E a b n_t =
    Ok (Edits (mjoin (adds_at a b (ts E a b n_t) <$> seq 0 (length a)))
              (mjoin (subs_at a b (ts E a b n_t) <$> seq 0 (length a)))
              (ts E a b n_t)).
Proof. intros HE Hl. apply bed_refine; [assumption|apply spans_ge|assumption]. Qed.

(** ** Entries *)

Lemma at_has s i d : d ∈ at_ s i <-> has s i d.
Proof.
  unfold at_, has. destruct (s !! i) as [t|]; cbn.
  - split; [eauto|]. intros (t' & H & Hd). injection H as ->. exact Hd.
  - split; [set_solver|]. intros (t' & H & _). discriminate.
Qed.

Lemma cand_swaps a b i j d : d ∈ cand a b i j <-> swaps a b i j d.
Proof. unfold cand, swaps. rewrite elem_of_candidates, !at_has. reflexivity. Qed.

Lemma at_small a b i d : small_types a b -> d ∈ at_ a i \/ d ∈ at_ b i -> -5 <= d <= 256.
Proof.
  intros H Hd. unfold at_ in Hd. destruct Hd as [Hd|Hd].
  - destruct (a !! i) as [t|] eqn:E; cbn in Hd; [|set_solver]. eapply H; [left; eapply elem_of_list_lookup_2, E|exact Hd].
  - destruct (b !! i) as [t|] eqn:E; cbn in Hd; [|set_solver]. eapply H; [right; eapply elem_of_list_lookup_2, E|exact Hd].
Qed.

Lemma cand_small a b i j d : small_types a b -> d ∈ cand a b i j -> -5 <= d <= 256.
Proof.
  intros H Hd. unfold cand in Hd. apply elem_of_candidates in Hd.
  destruct Hd as [(H1 & _)|(_ & _ & H1 & _)]; eapply (at_small a b i); eauto.
Qed.

Lemma small_spec d : small d = true <-> -5 <= d <= 256.
Proof. unfold small. rewrite andb_true_iff, !Z.leb_le. lia. Qed.

(** Types in the cache: overlap is decided by the type. *)
Lemma clash_small E out t : env_ok E -> -5 <= t_type t <= 256 ->
  clash E out t = bool_decide (t_type t ∈ X out (t_start t) \/ t_type t ∈ X out (t_end t)).
Proof.
  intros HE Hs. unfold clash.
  assert (K : forall i, existsb (fun u => same E u t) (filter (covers_pos i) out) = bool_decide (t_type t ∈ X out i)).
  { intros i. apply eq_true_iff_eq. rewrite existsb_exists, bool_decide_eq_true, elem_of_X. split.
    - intros (u & Hu & Hsm). apply elem_of_list_In, elem_of_list_filter in Hu as [H1 H2].
      exists u. split; [assumption|]. split; [assumption|]. apply (same_eq E HE), Hsm.
    - intros (u & Hu & Hc & Ht). exists u. split; [apply elem_of_list_In, elem_of_list_filter; auto|].
      apply (same_small E HE); [congruence|]. apply small_spec. lia. }
  rewrite !K, <- bool_decide_or. reflexivity.
Qed.

(** ** Greedy packing *)

Inductive packed (P : transposition -> Prop) : list transposition -> Prop :=
| packed_nil : packed P []
| packed_snoc out t : packed P out -> P t ->
    t_type t ∉ X out (t_start t) -> t_type t ∉ X out (t_end t) -> packed P (out ++ [t]).

Lemma packed_Forall P out : packed P out -> Forall P out.
Proof. induction 1; [constructor|]. apply Forall_app. auto. Qed.

Lemma packed_impl (P Q : transposition -> Prop) out : (forall t, P t -> Q t) -> packed P out -> packed Q out.
Proof. intros H. induction 1; constructor; auto. Qed.

Lemma foldl_inv {A B} (P : A -> Prop) (f : A -> B -> A) l x :
  P x -> (forall x y, y ∈ l -> P x -> P (f x y)) -> P (foldl f x l).
Proof.
  revert x. induction l as [|y l IH]; intros x Hx Hf; [exact Hx|]. cbn. apply IH.
  - apply Hf; [left|exact Hx].
  - intros; apply Hf; [right; assumption|assumption].
Qed.

Definition valid (a b : bstring) (t : transposition) : Prop :=
  (t_start t < t_end t)%nat /\ (t_end t < length a)%nat /\ t_type t ∈ cand a b (t_start t) (t_end t).

Lemma run_packed E a b ns : env_ok E -> small_types a b -> Forall (fun n => 2 <= n)%nat ns ->
  packed (fun t => valid a b t /\ exists n, n ∈ ns /\ (t_end t = t_start t + (n - 1))%nat) (run E a b ns).
Proof.
  intros HE Hs Hns. unfold run. apply foldl_inv; [constructor|]. intros out n Hn Hout.
  unfold span. apply foldl_inv; [exact Hout|]. clear out Hout. intros out i Hi Hout.
  unfold block. apply foldl_inv; [exact Hout|]. clear out Hout. intros out t Ht Hout.
  apply elem_of_list_fmap in Ht as (d & -> & Hd). apply elem_of_ord in Hd; [|exact HE].
  unfold tstep, accept. destruct (clash E out _) eqn:Ec; [exact Hout|]. cbn [negb andb].
  destruct (negb _); [|exact Hout].
  rewrite clash_small in Ec; [|assumption|eapply cand_small; eassumption].
  apply bool_decide_eq_false in Ec. apply Decidable.not_or in Ec as [E1 E2]. cbn in E1, E2.
  rewrite Forall_forall in Hns. specialize (Hns n Hn). apply elem_of_seq in Hi.
  constructor; [assumption| |assumption|assumption]. unfold valid. cbn. split; [|exists n; split; [assumption|reflexivity]].
  split; [lia|]. split; [lia|assumption].
Qed.

Lemma packed_no_overlap P out : packed P out ->
  forall k1 k2 t u, out !! k1 = Some t -> out !! k2 = Some u -> k1 <> k2 -> t_type t = t_type u ->
    t_start t <> t_start u /\ t_start t <> t_end u /\ t_end t <> t_start u /\ t_end t <> t_end u.
Proof.
  assert (W : forall out : list transposition, packed P out ->
    forall k1 k2 t u, out !! k1 = Some t -> out !! k2 = Some u -> (k1 < k2)%nat -> t_type t = t_type u ->
    t_start t <> t_start u /\ t_start t <> t_end u /\ t_end t <> t_start u /\ t_end t <> t_end u).
  { induction 1 as [|out' v H IH HP H1 H2]; intros k1 k2 t u Hk1 Hk2 Hlt Ht; [discriminate|].
    destruct (decide (k2 < length out')%nat) as [C|C].
    - rewrite lookup_app_l in Hk1 by lia. rewrite lookup_app_l in Hk2 by lia. eapply IH; eauto.
    - assert (k2 = length out').
      { apply lookup_lt_Some in Hk2. rewrite app_length in Hk2. cbn in Hk2. lia. }
      subst k2. rewrite lookup_app_r in Hk2 by lia. rewrite Nat.sub_diag in Hk2. cbn in Hk2. injection Hk2 as ->.
      rewrite lookup_app_l in Hk1 by lia. apply elem_of_list_lookup_2 in Hk1.
      rewrite elem_of_X in H1, H2.
      repeat split; intros HX; first [apply H1; exists t; repeat split; [assumption|unfold covers_pos; lia|assumption]
                                    |apply H2; exists t; repeat split; [assumption|unfold covers_pos; lia|assumption]]. }
  intros H k1 k2 t u H1 H2 Hne Ht. destruct (decide (k1 < k2)%nat) as [C|C].
  - eapply W; eauto.
  - destruct (W out H k2 k1 u t H2 H1 ltac:(lia) ltac:(congruence)) as (A1 & A2 & A3 & A4). repeat split; congruence.
Qed.

(** ** Sums over gaps *)

Definition sumn (f : nat -> nat) (n : nat) : nat := sum_list (f <$> seq 0 n).

Lemma sum_list_app l k : sum_list (l ++ k) = (sum_list l + sum_list k)%nat.
Proof. induction l; cbn; lia. Qed.

Lemma sumn_S f n : sumn f (S n) = (sumn f n + f n)%nat.
Proof. unfold sumn. rewrite seq_S, fmap_app, sum_list_app. cbn. lia. Qed.

Lemma sumn_ext f g n : (forall i, (i < n)%nat -> f i = g i) -> sumn f n = sumn g n.
Proof. induction n as [|n IH]; intros H; [reflexivity|]. rewrite !sumn_S, IH, H; auto. Qed.

Lemma sumn_add f g n : sumn (fun i => f i + g i)%nat n = (sumn f n + sumn g n)%nat.
Proof. induction n as [|n IH]; [reflexivity|]. rewrite !sumn_S, IH. lia. Qed.

Lemma sumn_0 n : sumn (fun _ => 0%nat) n = 0%nat.
Proof. induction n as [|n IH]; [reflexivity|]. rewrite sumn_S, IH. reflexivity. Qed.

Lemma sumn_ind k n : (k < n)%nat -> sumn (fun i => ind (i = k)) n = 1%nat.
Proof.
  induction n as [|n IH]; intros H; [lia|]. rewrite sumn_S. unfold ind at 2. destruct (decide (n = k)) as [->|C].
  - rewrite (sumn_ext _ (fun _ => 0%nat)); [rewrite sumn_0; reflexivity|].
    intros i Hi. unfold ind. rewrite decide_False by lia. reflexivity.
  - rewrite IH by lia. reflexivity.
Qed.

Lemma sumn_zero_iff f n : sumn f n = 0%nat <-> forall i, (i < n)%nat -> f i = 0%nat.
Proof.
  induction n as [|n IH].
  - split; [intros; lia|reflexivity].
  - rewrite sumn_S. split.
    + intros H i Hi. destruct (decide (i = n)) as [->|C]; [lia|]. apply IH; lia.
    + intros H. rewrite (proj2 IH); [rewrite H by lia; reflexivity|]. intros; apply H; lia.
Qed.

Lemma sumn_le f g n : (forall i, (i < n)%nat -> f i <= g i)%nat -> (sumn f n <= sumn g n)%nat.
Proof.
  induction n as [|n IH]; intros H; [reflexivity|]. rewrite !sumn_S. specialize (IH ltac:(intros; apply H; lia)).
  specialize (H n ltac:(lia)). lia.
Qed.

Lemma join_app {A} (l k : list (list A)) : mjoin (l ++ k) = mjoin l ++ mjoin k.
Proof. induction l as [|x l IH]; [reflexivity|]. cbn. rewrite <- app_assoc. f_equal. exact IH. Qed.

Lemma countP_join {A} (P : A -> Prop) `{!forall x, Decision (P x)} (f : nat -> list A) n :
  countP P (mjoin (f <$> seq 0 n)) = sumn (fun i => countP P (f i)) n.
Proof.
  induction n as [|n IH]; [reflexivity|]. rewrite seq_S, fmap_app, join_app, countP_app, IH, sumn_S. cbn.
  rewrite app_nil_r. reflexivity.
Qed.

Lemma length_join {A} (f : nat -> list A) n : length (mjoin (f <$> seq 0 n)) = sumn (fun i => length (f i)) n.
Proof.
  induction n as [|n IH]; [reflexivity|]. rewrite seq_S, fmap_app, join_app, app_length, IH, sumn_S. cbn.
  rewrite app_nil_r. reflexivity.
Qed.

Lemma only_in_sum x y d : length x = length y -> only_in x y d = sumn (fun i => ind (d ∈ at_ x i ∖ at_ y i)) (length x).
Proof.
  unfold only_in, sumn. revert y. induction x as [|s x IH]; intros [|t y] H; try discriminate; [reflexivity|].
  injection H as H. cbn [zip zip_with length seq]. rewrite filter_cons, fmap_cons. cbn [sum_list].
  rewrite <- fmap_S_seq, <- list_fmap_compose.
  unfold ind at 1. cbn. specialize (IH y H). cbn in IH.
  change (at_ (s :: x) 0) with s. change (at_ (t :: y) 0) with t.
  assert (EQ : ((λ i : nat, ind (d ∈ at_ (s :: x) i ∖ at_ (t :: y) i)) ∘ S) <$> seq 0 (length x) =
               (λ i : nat, ind (d ∈ at_ x i ∖ at_ y i)) <$> seq 0 (length x)) by reflexivity.
  unfold compose in *. cbn [length] in *.
  destruct (decide (d ∈ s ∧ d ∉ t)) as [C|C].
  - rewrite decide_True by set_solver. cbn [length]. rewrite IH. f_equal.
  - rewrite decide_False by set_solver. rewrite IH. reflexivity.
Qed.

Lemma ndiffs_sum x y : length x = length y ->
  ndiffs x y = sumn (fun i => size (at_ x i ∖ at_ y i) + size (at_ y i ∖ at_ x i))%nat (length x).
Proof.
  unfold ndiffs, sumn. revert y. induction x as [|s x IH]; intros [|t y] H; try discriminate; [reflexivity|].
  injection H as H. cbn [zip_with length seq]. rewrite fmap_cons. cbn [sum_list].
  rewrite <- fmap_S_seq, <- list_fmap_compose. rewrite (IH y H). reflexivity.
Qed.
