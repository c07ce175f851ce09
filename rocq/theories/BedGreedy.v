(** The transpositions are the greedy ones, and there is only one greedy set. *)
From Verif Require Import SpecGreedy BedProofs BedSubs BedMain BedTheory.
Open Scope Z_scope.

(** ** Uniqueness *)

Lemma before_wf : well_founded before.
Proof.
  assert (G : forall s k t, (t_end t - t_start t < s \/ (t_end t - t_start t = s /\ t_start t < k))%nat -> Acc before t).
  { induction s as [s IHs] using lt_wf_ind. induction k as [|k IHk]; intros t Ht.
    - constructor. intros u [Hu|[Hu1 Hu2]].
      + apply (IHs (t_end t - t_start t)%nat ltac:(lia) 0%nat). lia.
      + apply (IHs (t_end t - t_start t)%nat ltac:(lia) (t_start t)). lia.
    - constructor. intros u Hu. unfold before in Hu. destruct (decide (t_end t - t_start t < s)%nat) as [L|L].
      + destruct Hu as [Hu|[Hu1 Hu2]]; [apply (IHs (t_end t - t_start t)%nat L 0%nat); lia|apply (IHs (t_end t - t_start t)%nat L (t_start t)); lia].
      + apply IHk. lia. }
  intros t. apply (G (t_end t - t_start t)%nat (S (t_start t))). lia.
Qed.

Lemma settled_ext T T' t i d : (forall u, before u t -> (u ∈ T <-> u ∈ T')) -> settled T t i d <-> settled T' t i d.
Proof. intros H. split; intros (u & K1 & K2 & K3); exists u; (split; [apply H; assumption|]); auto. Qed.

Lemma taken_ext a b n_t T T' t : (forall u, before u t -> (u ∈ T <-> u ∈ T')) -> taken a b n_t T t -> taken a b n_t T' t.
Proof.
  intros H [H1 H2 H3 H4 H5]. pose proof (fun i d => settled_ext T T' t i d H) as S. split; [exact H1|exact H2|exact H3| |].
  - rewrite <- !S. exact H4.
  - intros K. apply H5. unfold both_sides in *. setoid_rewrite S. exact K.
Qed.

Theorem greedy_unique a b n_t T T' : greedy a b n_t T -> greedy a b n_t T' -> T ≡ₚ T'.
Proof.
  intros [N1 G1] [N2 G2]. apply NoDup_Permutation; [exact N1|exact N2|]. intros t. induction t as [t IH] using (well_founded_induction before_wf).
  rewrite G1, G2. split; apply taken_ext; [exact IH|]. intros u Hu. symmetry. exact (IH u Hu).
Qed.

(** ** The loop as one list of pairs of gaps *)

Lemma foldl_bind {A B C} (f : A -> C -> A) (g : B -> list C) l : forall x, foldl (fun x y => foldl f x (g y)) x l = foldl f x (l ≫= g).
Proof. induction l as [|y l IH]; intros x; [reflexivity|]. cbn [foldl mbind list_bind]. rewrite foldl_app. apply IH. Qed.

Definition gaps (len : nat) (ns : list nat) : list (nat * nat) := ns ≫= fun n => (fun i => (i, i + (n - 1))%nat) <$> seq 0 (len - (n - 1)).

Section Loop.
Context (E : env) (a b : bstring) (HE : env_ok E) (Hs : small_types a b).

Definition blk (out : list transposition) (p : nat * nat) : list transposition :=
  foldl (tstep E a b) out (Transp p.1 p.2 <$> ord E p.1 p.2 (cand a b p.1 p.2)).

Lemma run_gaps ns : run E a b ns = foldl blk [] (gaps (length a) ns).
Proof.
  unfold run, gaps. rewrite <- foldl_bind. generalize (@nil transposition). induction ns as [|n ns IH]; intros out; [reflexivity|]. cbn [foldl]. rewrite IH. f_equal.
  unfold span. generalize (seq 0 (length a - (n - 1))). clear. intros l. revert out. induction l as [|i l IH]; intros out; [reflexivity|]. cbn [foldl fmap list_fmap]. apply IH.
Qed.

Lemma blk_eq out p : p.1 <> p.2 -> blk out p =
  if decide (sub_pos a b (X out) p.1 /\ sub_pos a b (X out) p.2) then out
  else out ++ (Transp p.1 p.2 <$> filter (fresh out p.1 p.2) (ord E p.1 p.2 (cand a b p.1 p.2))).
Proof.
  intros Hp. apply fold_block; [exact HE|exact Hp|apply NoDup_ord, HE|]. intros d Hd. apply elem_of_ord in Hd; [|exact HE]. eapply cand_small; eassumption.
Qed.

Definition pair_before (p q : nat * nat) : Prop := (p.2 - p.1 < q.2 - q.1)%nat \/ ((p.2 - p.1 = q.2 - q.1)%nat /\ (p.1 < q.1)%nat).
Definition ends (t : transposition) : nat * nat := (t_start t, t_end t).

Lemma settled_X T t i d : (forall u, u ∈ T -> before u t) -> settled T t i d <-> d ∈ X T i.
Proof.
  intros H. rewrite elem_of_X. unfold settled, covers_pos. split; intros (u & K); [exists u; tauto|]. exists u. destruct K as (K1 & K2 & K3). auto.
Qed.

Lemma both_sides_pos T t i : (forall u, u ∈ T -> before u t) -> both_sides a b T t i <-> sub_pos a b (X T) i.
Proof.
  intros H. unfold both_sides, sub_pos, RA, RB, OA, OB. setoid_rewrite (settled_X T t i _ H). setoid_rewrite <- at_has.
  split; intros [K1 K2]; (split; [clear K2|clear K1]).
  - destruct K1 as (d & K). set_solver.
  - destruct K2 as (d & K). set_solver.
  - apply set_choose_L in K1 as [d K]. exists d. set_solver.
  - apply set_choose_L in K2 as [d K]. exists d. set_solver.
Qed.

Record good (B : list (nat * nat)) (out : list transposition) : Prop := Good {
  good_once : NoDup out;
  good_all : forall t, t ∈ out <-> ends t ∈ B /\ swaps a b (t_start t) (t_end t) (t_type t) /\
    (~ settled out t (t_start t) (t_type t) /\ ~ settled out t (t_end t) (t_type t)) /\
    ~ (both_sides a b out t (t_start t) /\ both_sides a b out t (t_end t));
  good_order : forall k1 k2 t u, (k1 < k2)%nat -> out !! k1 = Some t -> out !! k2 = Some u -> ~ before u t
}.

Lemma good_step B out p : good B out -> p.1 <> p.2 -> (forall q, q ∈ B -> pair_before q p) -> good (B ++ [p]) (blk out p).
Proof.
  intros [G1 G2 G3] Hp HB.
  assert (P : forall u, u ∈ out -> pair_before (ends u) p) by (intros u Hu; apply HB, G2, Hu).
  assert (Pb : forall u t, u ∈ out -> ends t = p -> before u t) by (intros u t Hu <-; exact (P u Hu)).
  (* what the loop adds *)
  assert (A : exists new, blk out p = out ++ new /\ NoDup new /\
    forall t, t ∈ new <-> ends t = p /\ swaps a b (t_start t) (t_end t) (t_type t) /\ fresh out p.1 p.2 (t_type t) /\ ~ (sub_pos a b (X out) p.1 /\ sub_pos a b (X out) p.2)).
  { rewrite blk_eq by exact Hp. destruct (decide _) as [D|D].
    - exists []. rewrite app_nil_r. split; [reflexivity|]. split; [constructor|]. intros t. split; [intros K; inversion K|tauto].
    - eexists. split; [reflexivity|]. split.
      + apply NoDup_fmap_2; [intros x y K; congruence|]. apply NoDup_filter, NoDup_ord, HE.
      + intros t. rewrite elem_of_list_fmap. setoid_rewrite elem_of_list_filter. split.
        * intros (d & -> & F & K). apply elem_of_ord in K; [|exact HE]. apply cand_swaps in K. cbn. split; [destruct p; reflexivity|]. tauto.
        * intros (<- & K1 & K2 & _). exists (t_type t). split; [destruct t; reflexivity|]. split; [exact K2|]. apply elem_of_ord; [exact HE|]. apply cand_swaps, K1. }
  destruct A as (new & -> & N & M).
  assert (NB : forall u t, u ∈ new -> ends t = p \/ pair_before (ends t) p -> ~ before u t).
  { intros u t Hu Ht K. apply M in Hu as [<- _]. unfold before in K. unfold pair_before, ends in Ht. cbn in Ht. destruct Ht as [Ht|Ht]; [injection Ht as H1 H2|]; lia. }
  assert (S : forall t, ends t = p \/ pair_before (ends t) p -> forall i d, settled (out ++ new) t i d <-> settled out t i d).
  { intros t Ht i d. unfold settled. split; intros (u & K1 & K2 & K3); exists u; (split; [|auto]).
    - apply elem_of_app in K1 as [K1|K1]; [exact K1|]. destruct (NB u t K1 Ht K2).
    - apply elem_of_app. left. exact K1. }
  assert (S2 : forall t, ends t = p \/ pair_before (ends t) p -> forall i, both_sides a b (out ++ new) t i <-> both_sides a b out t i).
  { intros t Ht i. unfold both_sides. setoid_rewrite (S t Ht). reflexivity. }
  split.
  - apply NoDup_app. split; [exact G1|]. split; [|exact N]. intros t K1 K2. apply M in K2 as [K2 _]. apply P in K1. rewrite K2 in K1. unfold pair_before in K1. lia.
  - intros t. rewrite !elem_of_app, elem_of_list_singleton. split.
    + intros [K|K].
      * pose proof (P t K) as Q. apply G2 in K as (K1 & K2 & K3 & K4). rewrite !S, !S2 by (right; exact Q). auto.
      * apply M in K as (K1 & K2 & K3 & K4). rewrite !S, !S2 by (left; exact K1). rewrite !settled_X, !both_sides_pos by (intros u Hu; exact (Pb u t Hu K1)).
        rewrite <- K1 in K3, K4. cbn in K3, K4. split; [auto|]. split; [exact K2|]. split; [exact K3|exact K4].
    + intros ([K1|K1] & K2 & K3 & K4).
      * rewrite !S in K3 by (right; apply HB, K1). rewrite !S2 in K4 by (right; apply HB, K1). left. apply G2. auto.
      * rewrite !S in K3 by (left; exact K1). rewrite !S2 in K4 by (left; exact K1). rewrite !settled_X in K3 by (intros u Hu; exact (Pb u t Hu K1)).
        rewrite !both_sides_pos in K4 by (intros u Hu; exact (Pb u t Hu K1)). right. apply M. split; [exact K1|]. split; [exact K2|]. rewrite <- K1. split; [exact K3|exact K4].
  - intros k1 k2 t u L K1 K2. apply lookup_app_Some in K1 as [K1|[L1 K1]]; apply lookup_app_Some in K2 as [K2|[L2 K2]].
    + exact (G3 _ _ _ _ L K1 K2).
    + apply elem_of_list_lookup_2 in K1, K2. apply NB; [exact K2|]. right. apply P, K1.
    + apply lookup_lt_Some in K2. lia.
    + apply elem_of_list_lookup_2 in K1, K2. apply NB; [exact K2|]. left. apply M in K1 as [K1 _]. exact K1.
Qed.

Lemma good_run B : forall B0 out, good B0 out -> StronglySorted pair_before B -> Forall (fun p => p.1 <> p.2) B ->
  (forall q p, q ∈ B0 -> p ∈ B -> pair_before q p) -> good (B0 ++ B) (foldl blk out B).
Proof.
  induction B as [|p B IH]; intros B0 out G SS F H; [rewrite app_nil_r; exact G|]. cbn [foldl]. rewrite cons_middle, app_assoc.
  apply StronglySorted_inv in SS as [SS1 SS2]. apply Forall_cons in F as [F1 F2]. rewrite Forall_forall in SS2. apply IH; [|exact SS1|exact F2|].
  - apply good_step; [exact G|exact F1|]. intros q Hq. apply H; [exact Hq|left].
  - intros q r Hq Hr. apply elem_of_app in Hq as [Hq|Hq]; [apply H; [exact Hq|right; exact Hr]|]. apply elem_of_list_singleton in Hq as ->. apply SS2, Hr.
Qed.
End Loop.

Lemma gaps_spec len n_t i j : (i, j) ∈ gaps len (spans n_t) <-> (i < j < len)%nat /\ Z.of_nat j - Z.of_nat i <= n_t - 1.
Proof.
  unfold gaps. rewrite elem_of_list_bind. setoid_rewrite elem_of_list_fmap. split.
  - intros (n & (k & K & H1) & H2). injection K as -> ->. apply elem_of_spans in H2. apply elem_of_seq in H1. lia.
  - intros H. exists (S (j - i)). split; [|apply elem_of_spans; lia]. exists i. split; [f_equal; lia|]. apply elem_of_seq. lia.
Qed.

Lemma sorted_app {A} (R : A -> A -> Prop) l k : StronglySorted R l -> StronglySorted R k -> (forall x y, x ∈ l -> y ∈ k -> R x y) -> StronglySorted R (l ++ k).
Proof.
  induction l as [|x l IH]; intros Hl Hk H; [exact Hk|]. apply StronglySorted_inv in Hl as [H1 H2]. cbn. constructor.
  - apply IH; [exact H1|exact Hk|]. intros y z Hy. apply H. right. exact Hy.
  - apply Forall_app. split; [exact H2|]. apply Forall_forall. intros y Hy. apply H; [left|exact Hy].
Qed.

Lemma gaps_sorted len n k : StronglySorted pair_before (gaps len (seq (2 + n) k)).
Proof.
  revert n. induction k as [|k IH]; intros n; [constructor|]. cbn [seq gaps mbind list_bind]. apply sorted_app.
  - generalize (len - (2 + n - 1))%nat. generalize (2 + n - 1)%nat. intros w m. generalize 0%nat. induction m as [|m IHm]; intros s; [constructor|]. cbn [seq fmap list_fmap]. constructor; [apply IHm|].
    apply Forall_forall. intros q Hq. apply elem_of_list_fmap in Hq as (i & -> & Hi). apply elem_of_seq in Hi. unfold pair_before. cbn. lia.
  - change (S (2 + n)) with (2 + S n)%nat. apply IH.
  - intros p q Hp Hq. apply elem_of_list_fmap in Hp as (i & -> & _). apply elem_of_list_bind in Hq as (m & Hq & Hm). apply elem_of_list_fmap in Hq as (i' & -> & _). apply elem_of_seq in Hm.
    unfold pair_before. cbn. lia.
Qed.

Lemma ts_good E a b n_t : env_ok E -> small_types a b -> good a b (gaps (length a) (spans n_t)) (ts E a b n_t).
Proof.
  intros HE Hs. unfold ts. rewrite run_gaps. apply (good_run E a b HE Hs _ [] []).
  - split; [constructor| |intros k1 k2 t u _ K; discriminate K]. intros t. split; [intros K; inversion K|]. intros [K _]. inversion K.
  - apply (gaps_sorted _ 0).
  - apply Forall_forall. intros [i j] Hp. apply gaps_spec in Hp. cbn. lia.
  - intros q p Hq. inversion Hq.
Qed.

Theorem bed_greedy E a b n_t e : env_ok E -> small_types a b -> length a = length b -> boundary_edit_distance E a b n_t = Ok e ->
  greedy a b n_t (e_transp e).
Proof.
  intros HE Hs Hl Hb. rewrite bed_ok in Hb by (assumption || lia). injection Hb as <-. cbn [e_transp]. destruct (ts_good E a b n_t HE Hs) as [G1 G2 _].
  split; [exact G1|]. intros t. rewrite G2. unfold ends. rewrite gaps_spec. split; [intros ((K1 & K2) & K3 & K4 & K5); split; assumption|].
  intros [K1 K2 K3 K4 K5]. auto.
Qed.

Theorem bed_transp_order E a b n_t e : env_ok E -> small_types a b -> length a = length b -> boundary_edit_distance E a b n_t = Ok e ->
  forall k1 k2 t u, (k1 < k2)%nat -> e_transp e !! k1 = Some t -> e_transp e !! k2 = Some u -> ~ before u t.
Proof.
  intros HE Hs Hl Hb. rewrite bed_ok in Hb by (assumption || lia). injection Hb as <-. cbn [e_transp]. exact (good_order _ _ _ _ (ts_good E a b n_t HE Hs)).
Qed.

(** Nothing is overlooked. *)
Theorem bed_overlooks_nothing E a b n_t e : env_ok E -> small_types a b -> length a = length b -> boundary_edit_distance E a b n_t = Ok e ->
  forall i j d, (i < j < length a)%nat -> Z.of_nat j - Z.of_nat i <= n_t - 1 -> swaps a b i j d ->
  (forall t, t ∈ e_transp e -> t_type t = d -> t_start t <> i /\ t_start t <> j /\ t_end t <> i /\ t_end t <> j) ->
  exists x y x' y', (has a i x /\ ~ has b i x) /\ (has b i y /\ ~ has a i y) /\ (has a j x' /\ ~ has b j x') /\ (has b j y' /\ ~ has a j y').
Proof.
  intros HE Hs Hl Hb i j d H1 H2 H3 H4. destruct (bed_greedy _ _ _ _ _ HE Hs Hl Hb) as [_ G]. specialize (G (Transp i j d)).
  destruct (decide (Transp i j d ∈ e_transp e)) as [K|K]; [destruct (H4 _ K eq_refl) as [Q _]; cbn in Q; congruence|].
  assert (F : forall k, k = i \/ k = j -> ~ settled (e_transp e) (Transp i j d) k d).
  { intros k Hk (u & U1 & _ & U2 & U3). destruct (H4 u U1 U2) as (Q1 & Q2 & Q3 & Q4). destruct Hk, U3; congruence. }
  destruct (decide (sub_pos a b (fun _ => ∅) i /\ sub_pos a b (fun _ => ∅) j)) as [D|D].
  - destruct D as [[D1 D2] [D3 D4]]. apply set_choose_L in D1 as [x D1], D2 as [y D2], D3 as [x' D3], D4 as [y' D4]. exists x, y, x', y'.
    unfold RA, RB, OA, OB in *. rewrite <- !at_has. set_solver.
  - exfalso. apply K, G. split; cbn; [exact H1|exact H2|exact H3|split; apply F; auto|]. intros [B1 B2]. apply D.
    assert (W : forall k, both_sides a b (e_transp e) (Transp i j d) k -> sub_pos a b (fun _ => ∅) k).
    { intros k [(x & X1 & X2 & _) (y & Y1 & Y2 & _)]. rewrite <- !at_has in *. split; unfold RA, RB, OA, OB; set_solver. }
    split; apply W; assumption.
Qed.
