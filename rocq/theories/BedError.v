(** What single errors amount to. *)
From Verif Require Import SpecError SpecGreedy Round RoundProofs SimRound BedProofs BedSubs BedMain BedTheory BedExtra BedGreedy
  SimStats SimProofs SimTheory SimMain SimContext BedMetric.
From Coq Require Import Lqa.
Open Scope Z_scope.

Lemma join_none {A} (f : nat -> list A) n : (forall k, (k < n)%nat -> f k = []) -> mjoin (f <$> seq 0 n) = [].
Proof.
  intros H. induction n as [|n IH]; [reflexivity|]. rewrite seq_S, fmap_app, join_app, IH by (intros; apply H; lia). cbn. rewrite H by lia. reflexivity.
Qed.

Lemma join_one {A} (f : nat -> list A) n i : (i < n)%nat -> (forall k, (k < n)%nat -> k <> i -> f k = []) -> mjoin (f <$> seq 0 n) = f i.
Proof.
  intros Hi H. induction n as [|n IH]; [lia|]. rewrite seq_S, fmap_app, join_app. cbn. rewrite app_nil_r. destruct (decide (i = n)) as [->|D].
  - rewrite join_none by (intros; apply H; lia). reflexivity.
  - rewrite IH by (try (intros; apply H); lia). rewrite (H n) by lia. apply app_nil_r.
Qed.

Lemma sumn_one f n i : (i < n)%nat -> (forall k, (k < n)%nat -> k <> i -> f k = 0%nat) -> sumn f n = f i.
Proof.
  intros Hi H. induction n as [|n IH]; [lia|]. rewrite sumn_S. destruct (decide (i = n)) as [->|D].
  - rewrite (proj2 (sumn_zero_iff f n)) by (intros; apply H; lia). reflexivity.
  - rewrite IH by (try (intros; apply H); lia). rewrite (H n) by lia. lia.
Qed.

(** A list without repetitions whose only element is [x]. *)
Lemma only_element {A} (l : list A) x : NoDup l -> (forall y, y ∈ l <-> y = x) -> l = [x].
Proof.
  intros N H. apply Permutation_singleton_r. apply NoDup_Permutation; [exact N|apply NoDup_singleton|]. intros y. rewrite elem_of_list_singleton. apply H.
Qed.

Lemma bounds_split a : forall b, length a = length b ->
  nbounds a = (nmatches a b + sumn (fun i => size (at_ a i ∖ at_ b i)) (length a))%nat.
Proof.
  unfold nbounds, nmatches, sumn. induction a as [|s a IH]; intros [|t b] Hl; try discriminate; [reflexivity|].
  cbn [fmap list_fmap zip_with sum_list length seq]. rewrite <- fmap_S_seq, <- list_fmap_compose. rewrite (IH b ltac:(cbn in Hl; lia)). unfold id.
  change (at_ (s :: a) 0) with s. change (at_ (t :: b) 0) with t.
  change ((λ i : nat, size (at_ (s :: a) i ∖ at_ (t :: b) i)) ∘ S) with (λ i : nat, size (at_ a i ∖ at_ b i)).
  assert (size s = size (s ∩ t) + size (s ∖ t))%nat.
  { rewrite <- size_union by set_solver. f_equal. apply set_eq. intros d. destruct (decide (d ∈ t)); set_solver. }
  lia.
Qed.

(** Membership in sets of at most one element. *)
Local Ltac sets := cbn [fmap list_fmap]; rewrite ?elem_of_empty, ?elem_of_singleton, ?elem_of_nil; first [tauto | intuition congruence].

Section Gaps.
Context (E : env) (a b : bstring) (n_t : Z) (e : edits) (HE : env_ok E) (Hl : length a = length b)
  (He : boundary_edit_distance E a b n_t = Ok e).

Definition left_at (a b : bstring) (k : nat) (d : Z) : Prop :=
  has a k d /\ ~ has b k d /\ ~ exists t, t ∈ e_transp e /\ t_type t = d /\ (t_start t = k \/ t_end t = k).

Lemma gap_lists : exists (adds : nat -> list addition) (subs : nat -> list substitution),
  e_add e = mjoin (adds <$> seq 0 (length a)) /\ e_sub e = mjoin (subs <$> seq 0 (length a)) /\
  forall k (A B : tyset), (k < length a)%nat -> (forall d, d ∈ A <-> left_at a b k d) -> (forall d, d ∈ B <-> left_at b a k d) ->
    cheapest_pairing A B (subs k) /\ NoDup (adds k) /\
    (forall d, Addition d SideA ∈ adds k <-> d ∈ A /\ d ∉ (subs k).*1) /\ (forall d, Addition d SideB ∈ adds k <-> d ∈ B /\ d ∉ (subs k).*2).
Proof. exact (bed_gapwise E a b n_t e HE Hl He). Qed.

Lemma pairing_nil A B l : cheapest_pairing A B l -> A = ∅ \/ B = ∅ -> l = [].
Proof. intros [(_ & _ & _ & H) _] [->| ->]; rewrite size_empty in H; apply nil_length_inv; lia. Qed.

Lemma no_element {A} (l : list A) : (forall x, x ∉ l) -> l = [].
Proof. intros H. destruct l as [|x l]; [reflexivity|]. destruct (H x). left. Qed.

Lemma only_tr (t : Z) (i : nat) : (forall k d, left_at a b k d <-> k = i /\ d = t) -> (forall k d, ~ left_at b a k d) -> (i < length a)%nat ->
  e_add e = [Addition t SideA] /\ e_sub e = [].
Proof.
  intros HA HB Hi. destruct gap_lists as (adds & subs & -> & -> & G).
  assert (Z : forall k, (k < length a)%nat -> k <> i -> subs k = [] /\ adds k = []).
  { intros k Hk D. destruct (G k ∅ ∅ Hk) as (P & _ & Q1 & Q2); [intros d; rewrite HA; sets|intros d; specialize (HB k d); sets|].
    split; [exact (pairing_nil _ _ _ P (or_introl eq_refl))|]. apply no_element. intros [d []] K; [apply Q1 in K as [K _]|apply Q2 in K as [K _]]; exact (not_elem_of_empty _ K). }
  destruct (G i {[t]} ∅ Hi) as (P & N & Q1 & Q2); [intros d; rewrite HA; sets|intros d; specialize (HB i d); sets|].
  pose proof (pairing_nil _ _ _ P (or_intror eq_refl)) as S0. rewrite S0 in Q1, Q2. split.
  - rewrite (join_one adds _ i Hi) by (intros k Hk D; apply (Z k Hk D)). apply only_element; [exact N|]. intros [d []].
    + rewrite Q1. cbn. split; [intros [K _]; apply elem_of_singleton in K as ->; reflexivity|]. intros K. injection K as ->. sets.
    + rewrite Q2. split; [intros [K _]; destruct (not_elem_of_empty _ K)|discriminate].
  - rewrite (join_one subs _ i Hi) by (intros k Hk D; apply (Z k Hk D)). exact S0.
Qed.

Lemma no_left : (forall k d, ~ left_at a b k d) -> (forall k d, ~ left_at b a k d) -> e_add e = [] /\ e_sub e = [].
Proof.
  intros HA HB. destruct gap_lists as (adds & subs & -> & -> & G).
  assert (Z : forall k, (k < length a)%nat -> subs k = [] /\ adds k = []).
  { intros k Hk. destruct (G k ∅ ∅ Hk) as (P & _ & Q1 & Q2); [intros d; specialize (HA k d); sets|intros d; specialize (HB k d); sets|].
    split; [exact (pairing_nil _ _ _ P (or_introl eq_refl))|]. apply no_element. intros [d []] K; [apply Q1 in K as [K _]|apply Q2 in K as [K _]]; exact (not_elem_of_empty _ K). }
  split; apply join_none; intros k Hk; apply (Z k Hk).
Qed.

Lemma one_sub (t u : Z) (i : nat) : (forall k d, left_at a b k d <-> k = i /\ d = t) -> (forall k d, left_at b a k d <-> k = i /\ d = u) -> (i < length a)%nat ->
  e_add e = [] /\ e_sub e = [(t, u)].
Proof.
  intros HA HB Hi. destruct gap_lists as (adds & subs & -> & -> & G).
  assert (Z : forall k, (k < length a)%nat -> k <> i -> subs k = [] /\ adds k = []).
  { intros k Hk D. destruct (G k ∅ ∅ Hk) as (P & _ & Q1 & Q2); [intros d; rewrite HA; sets|intros d; rewrite HB; sets|].
    split; [exact (pairing_nil _ _ _ P (or_introl eq_refl))|]. apply no_element. intros [d []] K; [apply Q1 in K as [K _]|apply Q2 in K as [K _]]; exact (not_elem_of_empty _ K). }
  destruct (G i {[t]} {[u]} Hi) as (P & N & Q1 & Q2); [intros d; rewrite HA; sets|intros d; rewrite HB; sets|].
  destruct P as [(_ & _ & P1 & P2) _]. rewrite !size_singleton in P2. cbn in P2.
  assert (S0 : subs i = [(t, u)]).
  { destruct (subs i) as [|[x y] [|? ?]]; cbn in P2; try lia. destruct (P1 x y ltac:(left)) as [K1 K2]. apply elem_of_singleton in K1 as ->, K2 as ->. reflexivity. }
  rewrite S0 in Q1, Q2. cbn in Q1, Q2. split.
  - rewrite (join_one adds _ i Hi) by (intros k Hk D; apply (Z k Hk D)). apply no_element. intros [d []]; [rewrite Q1|rewrite Q2]; rewrite elem_of_list_singleton, elem_of_singleton; tauto.
  - rewrite (join_one subs _ i Hi) by (intros k Hk D; apply (Z k Hk D)). exact S0.
Qed.

Lemma two_adds (t : Z) (i j : nat) : (forall k d, left_at a b k d <-> k = i /\ d = t) -> (forall k d, left_at b a k d <-> k = j /\ d = t) -> i <> j -> (i < length a)%nat -> (j < length a)%nat ->
  e_add e ≡ₚ [Addition t SideA; Addition t SideB] /\ e_sub e = [].
Proof.
  intros HA HB D Hi Hj. destruct gap_lists as (adds & subs & Ea & Es & G).
  assert (Z : forall k, (k < length a)%nat -> subs k = [] /\ NoDup (adds k) /\ (forall d, Addition d SideA ∈ adds k <-> k = i /\ d = t) /\ (forall d, Addition d SideB ∈ adds k <-> k = j /\ d = t)).
  { intros k Hk. destruct (G k (if decide (k = i) then {[t]} else ∅) (if decide (k = j) then {[t]} else ∅) Hk) as (P & N & Q1 & Q2);
      [intros d; rewrite HA; case_decide; rewrite ?elem_of_singleton, ?elem_of_empty; tauto|intros d; rewrite HB; case_decide; rewrite ?elem_of_singleton, ?elem_of_empty; tauto|].
    assert (S0 : subs k = []) by (eapply pairing_nil; [exact P|]; destruct (decide (k = i)); [right; rewrite decide_False by congruence; reflexivity|left; reflexivity]).
    rewrite S0 in Q1, Q2. split; [exact S0|]. split; [exact N|]. split; intros d; [rewrite Q1|rewrite Q2]; clear Q1 Q2; cbn [fmap list_fmap]; rewrite elem_of_nil; clear P HA HB G; case_decide; rewrite ?elem_of_singleton, ?elem_of_empty; tauto. }
  split.
  - rewrite Ea. apply NoDup_Permutation.
    + clear - Z. assert (W : forall n, (n <= length a)%nat -> NoDup (mjoin (adds <$> seq 0 n)) /\ forall x, x ∈ mjoin (adds <$> seq 0 n) -> exists k, (k < n)%nat /\ x ∈ adds k).
      { induction n as [|n IH]; intros L; [split; [constructor|intros x K; inversion K]|]. destruct (IH ltac:(lia)) as [I1 I2]. rewrite seq_S, fmap_app, join_app. cbn. rewrite app_nil_r.
        destruct (Z n L) as (_ & N & Q1 & Q2). split.
        - apply NoDup_app. split; [exact I1|]. split; [|exact N]. intros x K1 K2. destruct (I2 x K1) as (k & L1 & K3). destruct (Z k ltac:(lia)) as (_ & _ & Q3 & Q4).
          destruct x as [d []]; [apply Q1 in K2; apply Q3 in K3|apply Q2 in K2; apply Q4 in K3]; lia.
        - intros x K. apply elem_of_app in K as [K|K]; [destruct (I2 x K) as (k & L1 & K3); exists k; auto|exists n; auto]. }
      apply W. reflexivity.
    + apply NoDup_cons. split; [rewrite elem_of_list_singleton; discriminate|apply NoDup_singleton].
    + intros x. rewrite elem_of_list_join. setoid_rewrite elem_of_list_fmap. setoid_rewrite elem_of_seq. rewrite elem_of_cons, elem_of_list_singleton. split.
      * intros (l & K & k & -> & L). destruct (Z k ltac:(lia)) as (_ & _ & Q1 & Q2). destruct x as [d []]; [apply Q1 in K as [_ ->]|apply Q2 in K as [_ ->]]; auto.
      * intros [-> | ->]; eexists; (split; [|eexists; split; [reflexivity|split; [lia|]]]).
        -- apply (Z i Hi). auto.
        -- exact Hi.
        -- apply (Z j Hj). auto.
        -- exact Hj.
  - rewrite Es. apply join_none. intros k Hk. apply (Z k Hk).
Qed.
End Gaps.

Lemma has_lt s i d : has s i d -> (i < length s)%nat.
Proof. intros (x & H & _). eapply lookup_lt_Some, H. Qed.

Section Errors.
Context (E : env) (a b : bstring) (n_t : Z) (e : edits) (HE : env_ok E) (Hs : small_types a b)
  (He : boundary_edit_distance E a b n_t = Ok e).

(** What agreement outside [P] leaves for transpositions. *)
Lemma transp_within P t : agree_but P a b -> t ∈ e_transp e ->
  (t_start t, t_type t) ∈ P /\ (t_end t, t_type t) ∈ P /\ (t_start t < t_end t)%nat /\ Z.of_nat (t_end t) - Z.of_nat (t_start t) <= n_t - 1.
Proof.
  intros [Hl H] Ht. destruct (bed_transpositions E a b n_t e HE Hs Hl He) as [T _]. destruct (T t Ht) as (T1 & T2 & T3).
  split; [|split; [|split; [lia|exact T2]]].
  - destruct (decide ((t_start t, t_type t) ∈ P)) as [K|K]; [exact K|]. specialize (H _ _ K). unfold swaps in T3. tauto.
  - destruct (decide ((t_end t, t_type t) ∈ P)) as [K|K]; [exact K|]. specialize (H _ _ K). unfold swaps in T3. tauto.
Qed.

Theorem missing_edits i t : missing a b i t -> e = Edits [Addition t SideA] [] [].
Proof.
  intros (Ag & H1 & H2). pose proof Ag as [Hl HA].
  assert (T : e_transp e = []).
  { apply no_element. intros u Hu. destruct (transp_within _ u Ag Hu) as (K1 & K2 & K3 & _). apply elem_of_list_singleton in K1, K2. injection K1 as K1 _. injection K2 as K2 _. lia. }
  destruct (only_tr E a b n_t e HE Hl He t i) as [E1 E2].
  - intros k d. unfold left_at. rewrite T. split.
    + intros (K1 & K2 & _). destruct (decide ((k, d) ∈ [(i, t)])) as [K|K]; [apply elem_of_list_singleton in K; injection K as -> ->; auto|]. apply HA in K. tauto.
    + intros [-> ->]. split; [exact H1|]. split; [exact H2|]. intros (u & K & _). inversion K.
  - intros k d (K1 & K2 & _). destruct (decide ((k, d) ∈ [(i, t)])) as [K|K]; [apply elem_of_list_singleton in K; injection K as -> ->; tauto|]. apply HA in K. tauto.
  - exact (has_lt _ _ _ H1).
  - destruct e. cbn in *. congruence.
Qed.

Lemma pair_cases (i j : nat) (t : Z) k d : (k, d) ∈ [(i, t); (j, t)] -> d = t /\ (k = i \/ k = j).
Proof. intros K. apply elem_of_cons in K as [K|K]; [|apply elem_of_list_singleton in K]; injection K as -> ->; auto. Qed.

Theorem displaced_near i j t : displaced a b i j t -> Z.of_nat j - Z.of_nat i < n_t -> e = Edits [] [] [Transp i j t].
Proof.
  intros (Ag & Hij & Sw) Hn. pose proof Ag as [Hl HA].
  assert (Hj : (j < length a)%nat) by (destruct Sw as [(_ & _ & _ & K)|(_ & K & _)]; apply has_lt in K; congruence).
  assert (T0 : forall u, u ∈ e_transp e -> u = Transp i j t).
  { intros [s f d] Hu. destruct (transp_within _ _ Ag Hu) as (K1 & K2 & K3 & _). cbn in *. apply pair_cases in K1 as [-> K1], K2 as [_ K2]. f_equal; lia. }
  destruct (bed_greedy E a b n_t e HE Hs Hl He) as [N G].
  assert (T1 : Transp i j t ∈ e_transp e).
  { assert (F : forall k d, ~ settled (e_transp e) (Transp i j t) k d) by (intros k d (u & U1 & U2 & _); rewrite (T0 u U1) in U2; unfold before in U2; cbn in U2; lia).
    apply G. split; cbn; [lia|lia|exact Sw|split; apply F|]. intros [[(x & X1 & X2 & _) (y & Y1 & Y2 & _)] _].
    assert (D : forall d, has a i d -> ~ has b i d -> d = t) by (intros d K1 K2; destruct (decide ((i, d) ∈ [(i, t); (j, t)])) as [K|K]; [apply pair_cases in K; tauto|apply HA in K; tauto]).
    assert (D' : forall d, has b i d -> ~ has a i d -> d = t) by (intros d K1 K2; destruct (decide ((i, d) ∈ [(i, t); (j, t)])) as [K|K]; [apply pair_cases in K; tauto|apply HA in K; tauto]).
    rewrite (D x X1 X2) in X1. rewrite (D' y Y1 Y2) in Y2. tauto. }
  assert (T : e_transp e = [Transp i j t]) by (apply only_element; [exact N|]; intros u; split; [apply T0|intros ->; exact T1]).
  destruct (no_left E a b n_t e HE Hl He) as [E1 E2].
  - intros k d (K1 & K2 & K3). destruct (decide ((k, d) ∈ [(i, t); (j, t)])) as [K|K]; [|apply HA in K; tauto]. apply pair_cases in K as [-> K]. apply K3. exists (Transp i j t). cbn. split; [exact T1|]. split; [reflexivity|]. destruct K; auto.
  - intros k d (K1 & K2 & K3). destruct (decide ((k, d) ∈ [(i, t); (j, t)])) as [K|K]; [|apply HA in K; tauto]. apply pair_cases in K as [-> K]. apply K3. exists (Transp i j t). cbn. split; [exact T1|]. split; [reflexivity|]. destruct K; auto.
  - destruct e. cbn in *. congruence.
Qed.

Theorem displaced_far i j t : displaced a b i j t -> n_t <= Z.of_nat j - Z.of_nat i ->
  e_add e ≡ₚ [Addition t SideA; Addition t SideB] /\ e_sub e = [] /\ e_transp e = [].
Proof.
  intros (Ag & Hij & Sw) Hn. pose proof Ag as [Hl HA].
  assert (Hj : (j < length a)%nat) by (destruct Sw as [(_ & _ & _ & K)|(_ & K & _)]; apply has_lt in K; congruence).
  assert (T : e_transp e = []).
  { apply no_element. intros [s f d] Hu. destruct (transp_within _ _ Ag Hu) as (K1 & K2 & K3 & K4). cbn in *. apply pair_cases in K1 as [-> K1], K2 as [_ K2]. lia. }
  assert (NT : forall k d, ~ exists u, u ∈ e_transp e /\ t_type u = d /\ (t_start u = k \/ t_end u = k)) by (intros k d (u & K & _); rewrite T in K; inversion K).
  assert (C : forall k d, (has a k d <-> ~ has b k d) -> d = t /\ (k = i \/ k = j)).
  { intros k d Q. destruct (decide ((k, d) ∈ [(i, t); (j, t)])) as [K|K]; [exact (pair_cases _ _ _ _ _ K)|]. apply HA in K. tauto. }
  destruct Sw as [(S1 & S2 & S3 & S4)|(S1 & S2 & S3 & S4)].
  - destruct (two_adds E a b n_t e HE Hl He t i j) as [E1 E2]; [| |lia|lia|exact Hj|auto].
    + intros k d. unfold left_at. specialize (NT k d). split; [intros (K1 & K2 & _)|intros [-> ->]; auto]. destruct (C k d ltac:(tauto)) as [-> [-> | ->]]; [auto|tauto].
    + intros k d. unfold left_at. specialize (NT k d). split; [intros (K1 & K2 & _)|intros [-> ->]; auto]. destruct (C k d ltac:(tauto)) as [-> [-> | ->]]; [tauto|auto].
  - destruct (two_adds E a b n_t e HE Hl He t j i) as [E1 E2]; [| |lia|exact Hj|lia|auto].
    + intros k d. unfold left_at. specialize (NT k d). split; [intros (K1 & K2 & _)|intros [-> ->]; auto]. destruct (C k d ltac:(tauto)) as [-> [-> | ->]]; [tauto|auto].
    + intros k d. unfold left_at. specialize (NT k d). split; [intros (K1 & K2 & _)|intros [-> ->]; auto]. destruct (C k d ltac:(tauto)) as [-> [-> | ->]]; [auto|tauto].
Qed.

Theorem mistyped_edits i t u : mistyped a b i t u -> e = Edits [] [(t, u)] [].
Proof.
  intros (Ag & H1 & H2 & H3 & H4). pose proof Ag as [Hl HA].
  assert (T : e_transp e = []).
  { apply no_element. intros [s f d] Hu. destruct (transp_within _ _ Ag Hu) as (K1 & K2 & K3 & _). cbn in *.
    apply elem_of_cons in K1 as [K1|K1]; apply elem_of_cons in K2 as [K2|K2]; rewrite ?elem_of_list_singleton in *; injection K1 as K1 _; injection K2 as K2 _; lia. }
  assert (NT : forall k d, ~ exists u, u ∈ e_transp e /\ t_type u = d /\ (t_start u = k \/ t_end u = k)) by (intros k d (v & K & _); rewrite T in K; inversion K).
  assert (C : forall k d, (has a k d <-> ~ has b k d) -> k = i /\ (d = t \/ d = u)).
  { intros k d Q. destruct (decide ((k, d) ∈ [(i, t); (i, u)])) as [K|K]; [|apply HA in K; tauto]. apply elem_of_cons in K as [K|K]; [|apply elem_of_list_singleton in K]; injection K as -> ->; auto. }
  destruct (one_sub E a b n_t e HE Hl He t u i) as [E1 E2]; [| |exact (has_lt _ _ _ H1)|].
  - intros k d. unfold left_at. specialize (NT k d). split; [intros (K1 & K2 & _)|intros [-> ->]; auto]. destruct (C k d ltac:(tauto)) as [-> [-> | ->]]; [auto|tauto].
  - intros k d. unfold left_at. specialize (NT k d). split; [intros (K1 & K2 & _)|intros [-> ->]; auto]. destruct (C k d ltac:(tauto)) as [-> [-> | ->]]; [tauto|auto].
  - destruct e. cbn in *. congruence.
Qed.
End Errors.

(** ** The values of B and S *)

Lemma dcount_cost e sp n_t : (dcount exactA e sp n_t == edit_cost e sp n_t)%Q.
Proof. unfold dcount, edit_cost. cbn [rd exactA]. rewrite !Qred_correct. reflexivity. Qed.

Lemma quot_cost d c : 0 < d -> (quot exactA d c == 1 - c / inject_Z d)%Q.
Proof.
  intros Hd. unfold quot. rewrite !exact_rd. assert (0 < inject_Z d)%Q by (change 0%Q with (inject_Z 0); rewrite <- Zlt_Qlt; exact Hd). field. lra.
Qed.

Lemma extent_exists a b : (exists d, used a b d) -> exists lo hi, extent a b lo hi.
Proof.
  intros (d & Hd). destruct (extent_ok a b) as (lo & hi & H); [|exists lo, hi; apply H]. intros K. apply elem_of_types in Hd. rewrite K in Hd. set_solver.
Qed.

Section Values.
Context (E : env) (f : fmt) (n_t : Z) (sa sb : seg) (a b : bstring) (HE : env_ok E) (Hn : n_t <> 0)
  (Hb : to_bstrings f sa sb = Ok (a, b)).

Lemma values lo hi e : extent a b lo hi -> boundary_edit_distance E a b n_t = Ok e ->
  B_is E f n_t sa sb (1 - edit_cost e (hi - lo + 1) n_t / inject_Z (edit_count e + Z.of_nat (nmatches a b))) /\
  S_is E f n_t sa sb (1 - edit_cost e (hi - lo + 1) n_t / inject_Z (zlen a * zsize (identify_types a b) * zsize (identify_types a b))).
Proof.
  intros Hx He. pose proof (to_bstrings_length _ _ _ _ _ Hb) as Hl. assert (Hu : exists d, used a b d) by (exists lo; apply Hx).
  pose proof (denominator_pos E a b n_t e HE Hl He Hu) as Hd. pose proof (types_size_pos _ _ _ _ Hx) as H1. pose proof (gaps_pos _ _ _ _ Hl Hx) as H2. split.
  - eexists. rewrite (B_eq _ E f n_t sa sb a b lo hi e) by assumption. cbn zeta iota. split; [reflexivity|]. rewrite (quot_cost _ _ Hd), dcount_cost. reflexivity.
  - eexists. rewrite (S_eq _ E f n_t sa sb a b lo hi e) by assumption. cbn zeta iota. split; [reflexivity|].
    assert (0 < zlen a * zsize (identify_types a b) * zsize (identify_types a b)) as K by (unfold zlen, zsize; nia). rewrite (quot_cost _ _ K), dcount_cost. reflexivity.
Qed.
End Values.

Lemma B_is_ext E f n_t sa sb v w : B_is E f n_t sa sb v -> (v == w)%Q -> B_is E f n_t sa sb w.
Proof. intros (q & H1 & H2) H. exists q. split; [exact H1|]. rewrite H2. exact H. Qed.
Lemma S_is_ext E f n_t sa sb v w : S_is E f n_t sa sb v -> (v == w)%Q -> S_is E f n_t sa sb w.
Proof. intros (q & H1 & H2) H. exists q. split; [exact H1|]. rewrite H2. exact H. Qed.

(** One boundary of [a] is not in [b]. *)
Lemma one_lost a b i t : length a = length b -> has a i t -> (forall k d, has a k d -> ~ has b k d -> k = i /\ d = t) -> ~ has b i t ->
  nbounds a = S (nmatches a b).
Proof.
  intros Hl Hi H Hb. rewrite (bounds_split a b Hl). rewrite (sumn_one _ _ i).
  - replace (at_ a i ∖ at_ b i) with ({[t]} : tyset); [rewrite size_singleton; lia|]. apply set_eq. intros d. rewrite elem_of_singleton, elem_of_difference, !at_has.
    split; [intros ->; auto|]. intros [K1 K2]. destruct (H i d K1 K2). auto.
  - exact (has_lt _ _ _ Hi).
  - intros k _ D. replace (at_ a k ∖ at_ b k) with (∅ : tyset); [apply size_empty|]. apply set_eq. intros d. rewrite elem_of_difference, !at_has.
    split; [set_solver|]. intros [K1 K2]. destruct (H k d K1 K2). congruence.
Qed.

Section Costs.
Context (E : env) (f : fmt) (n_t : Z) (sa sb : seg) (a b : bstring) (HE : env_ok E) (Hs : small_types a b) (Hn : n_t <> 0)
  (Hb : to_bstrings f sa sb = Ok (a, b)).
Let N : Q := inject_Z (Z.of_nat (nbounds a)).
Let M : Q := inject_Z (zlen a * zsize (identify_types a b) * zsize (identify_types a b)).

Lemma Hl : length a = length b.
Proof. exact (to_bstrings_length _ _ _ _ _ Hb). Qed.

Lemma pos_N : nbounds a <> 0%nat -> (0 < N)%Q.
Proof. intros H. unfold N. change 0%Q with (inject_Z 0). rewrite <- Zlt_Qlt. lia. Qed.

Theorem missing_cost i t : missing a b i t -> B_is E f n_t sa sb (1 - 1 / N) /\ S_is E f n_t sa sb (1 - 1 / M).
Proof.
  intros H. destruct (bed_returns E a b n_t HE ltac:(rewrite Hl; lia)) as [e He]. pose proof (missing_edits E a b n_t e HE Hs He i t H) as ->.
  destruct H as ((_ & HA) & H1 & H2). destruct (extent_exists a b) as (lo & hi & Hx); [exists t, i; auto|].
  pose proof (one_lost a b i t Hl H1) as L. destruct (values E f n_t sa sb a b HE Hn Hb lo hi _ Hx He) as [VB VS].
  assert (nbounds a = S (nmatches a b)) as L'.
  { apply L; [|exact H2]. intros k d K1 K2. destruct (decide ((k, d) ∈ [(i, t)])) as [K|K]; [apply elem_of_list_singleton in K; injection K as -> ->; auto|]. apply HA in K. tauto. }
  assert (C : (edit_cost (Edits [Addition t SideA] [] []) (hi - lo + 1) n_t == 1)%Q) by (unfold edit_cost, zlen; cbn; unfold Qdiv; ring).
  split; [eapply B_is_ext; [exact VB|]|eapply S_is_ext; [exact VS|]]; rewrite C; [|reflexivity].
  unfold N. rewrite L'. unfold edit_count, zlen. cbn [e_add e_sub e_transp length]. replace (Z.of_nat 1 + Z.of_nat 0 + Z.of_nat 0 + Z.of_nat (nmatches a b)) with (Z.of_nat (S (nmatches a b))) by lia. reflexivity.
Qed.

Lemma displaced_lost i j t : displaced a b i j t -> nbounds a = S (nmatches a b) /\ exists lo hi, extent a b lo hi.
Proof.
  intros ((_ & HA) & Hij & Sw).
  assert (C : forall k d, has a k d -> ~ has b k d -> d = t /\ (k = i \/ k = j)).
  { intros k d K1 K2. destruct (decide ((k, d) ∈ [(i, t); (j, t)])) as [K|K]; [exact (pair_cases _ _ _ _ _ K)|]. apply HA in K. tauto. }
  destruct Sw as [(S1 & S2 & S3 & S4)|(S1 & S2 & S3 & S4)]; (split; [|apply extent_exists; exists t; eauto using ex_intro; [..]]).
  - apply (one_lost a b i t Hl S1); [|exact S3]. intros k d K1 K2. destruct (C k d K1 K2) as [-> [-> | ->]]; tauto.
  - exists i. auto.
  - apply (one_lost a b j t Hl S2); [|exact S4]. intros k d K1 K2. destruct (C k d K1 K2) as [-> [-> | ->]]; tauto.
  - exists j. auto.
Qed.

Theorem displaced_near_cost i j t : displaced a b i j t -> Z.of_nat j - Z.of_nat i < n_t ->
  let c := (inject_Z (Z.of_nat j - Z.of_nat i) / inject_Z n_t)%Q in
  B_is E f n_t sa sb (1 - c / N) /\ S_is E f n_t sa sb (1 - c / M).
Proof.
  intros H Hd c. destruct (bed_returns E a b n_t HE ltac:(rewrite Hl; lia)) as [e He]. pose proof (displaced_near E a b n_t e HE Hs He i j t H Hd) as ->.
  destruct (displaced_lost i j t H) as [L (lo & hi & Hx)]. destruct (values E f n_t sa sb a b HE Hn Hb lo hi _ Hx He) as [VB VS].
  assert (C : (edit_cost (Edits [] [] [Transp i j t]) (hi - lo + 1) n_t == c)%Q).
  { unfold edit_cost, c, zlen, spanned. cbn [e_add e_sub e_transp length fmap list_fmap t_start t_end]. unfold zsum. cbn [foldr]. rewrite Z.add_0_r. cbn. unfold Qdiv. ring. }
  split; [eapply B_is_ext; [exact VB|]|eapply S_is_ext; [exact VS|]]; rewrite C; [|reflexivity].
  unfold N. rewrite L. unfold edit_count, zlen. cbn [e_add e_sub e_transp length]. replace (Z.of_nat 0 + Z.of_nat 0 + Z.of_nat 1 + Z.of_nat (nmatches a b)) with (Z.of_nat (S (nmatches a b))) by lia. reflexivity.
Qed.

Theorem displaced_far_cost i j t : displaced a b i j t -> n_t <= Z.of_nat j - Z.of_nat i ->
  B_is E f n_t sa sb (1 - 2 / (N + 1)) /\ S_is E f n_t sa sb (1 - 2 / M).
Proof.
  intros H Hd. destruct (bed_returns E a b n_t HE ltac:(rewrite Hl; lia)) as [e He]. destruct (displaced_far E a b n_t e HE Hs He i j t H Hd) as (E1 & E2 & E3).
  destruct (displaced_lost i j t H) as [L (lo & hi & Hx)]. destruct (values E f n_t sa sb a b HE Hn Hb lo hi _ Hx He) as [VB VS].
  apply Permutation_length in E1. cbn in E1.
  assert (C : (edit_cost e (hi - lo + 1) n_t == 2)%Q).
  { unfold edit_cost, zlen. rewrite E1, E2, E3. cbn. unfold Qdiv. ring. }
  split; [eapply B_is_ext; [exact VB|]|eapply S_is_ext; [exact VS|]]; rewrite C; [|reflexivity].
  unfold edit_count, zlen. rewrite E1, E2, E3. cbn [length]. unfold N. rewrite L. replace (Z.of_nat 2 + Z.of_nat 0 + Z.of_nat 0 + Z.of_nat (nmatches a b)) with (Z.of_nat (S (nmatches a b)) + 1) by lia. rewrite inject_Z_plus. reflexivity.
Qed.

Theorem mistyped_cost i t u lo hi : mistyped a b i t u -> extent a b lo hi ->
  let c := (inject_Z (Z.abs (t - u)) / inject_Z (hi - lo + 1))%Q in
  B_is E f n_t sa sb (1 - c / N) /\ S_is E f n_t sa sb (1 - c / M).
Proof.
  intros H Hx c. destruct (bed_returns E a b n_t HE ltac:(rewrite Hl; lia)) as [e He]. pose proof (mistyped_edits E a b n_t e HE Hs He i t u H) as ->.
  destruct H as ((_ & HA) & H1 & H2 & H3 & H4). destruct (values E f n_t sa sb a b HE Hn Hb lo hi _ Hx He) as [VB VS].
  assert (L : nbounds a = S (nmatches a b)).
  { apply (one_lost a b i t Hl H1); [|exact H2]. intros k d K1 K2. destruct (decide ((k, d) ∈ [(i, t); (i, u)])) as [K|K]; [|apply HA in K; tauto].
    apply elem_of_cons in K as [K|K]; [|apply elem_of_list_singleton in K]; injection K as -> ->; tauto. }
  assert (C : (edit_cost (Edits [] [(t, u)] []) (hi - lo + 1) n_t == c)%Q).
  { unfold edit_cost, c, zlen, distance. cbn [e_add e_sub e_transp length fmap list_fmap]. unfold zsum. cbn [foldr]. rewrite Z.add_0_r. cbn. unfold Qdiv. ring. }
  split; [eapply B_is_ext; [exact VB|]|eapply S_is_ext; [exact VS|]]; rewrite C; [|reflexivity].
  unfold N. rewrite L. unfold edit_count, zlen. cbn [e_add e_sub e_transp length]. replace (Z.of_nat 0 + Z.of_nat 1 + Z.of_nat 0 + Z.of_nat (nmatches a b)) with (Z.of_nat (S (nmatches a b))) by lia. reflexivity.
Qed.
End Costs.

(** Better a near miss than a miss, and better a miss than a boundary far off. *)
Theorem error_ranking E f n_t sa sn sm sf a bn bm bf i j t k u p q w : env_ok E -> n_t <> 0 ->
  to_bstrings f sa sn = Ok (a, bn) -> to_bstrings f sa sm = Ok (a, bm) -> to_bstrings f sa sf = Ok (a, bf) ->
  small_types a bn -> small_types a bm -> small_types a bf ->
  displaced a bn i j t -> Z.of_nat j - Z.of_nat i < n_t -> missing a bm k u -> displaced a bf p q w -> n_t <= Z.of_nat q - Z.of_nat p ->
  exists x y z, B_is E f n_t sa sn x /\ B_is E f n_t sa sm y /\ B_is E f n_t sa sf z /\ (z <= y)%Q /\ (y < x)%Q /\ ((1 < nbounds a)%nat -> z < y)%Q.
Proof.
  intros HE Hn T1 T2 T3 S1 S2 S3 D1 N1 D2 D3 N3. destruct (displaced_near_cost E f n_t sa sn a bn HE S1 Hn T1 i j t D1 N1) as [V1 _].
  destruct (missing_cost E f n_t sa sm a bm HE S2 Hn T2 k u D2) as [V2 _]. destruct (displaced_far_cost E f n_t sa sf a bf HE S3 Hn T3 p q w D3 N3) as [V3 _].
  eexists _, _, _. split; [exact V1|]. split; [exact V2|]. split; [exact V3|].
  destruct (displaced_lost f sa sn a bn T1 i j t D1) as [L _]. set (N := inject_Z (Z.of_nat (nbounds a))).
  assert (HN : (1 <= N)%Q) by (unfold N; change 1%Q with (inject_Z 1); rewrite <- Zle_Qle; lia).
  assert (Hnt : 0 < n_t) by (destruct D1 as (_ & D & _); lia).
  assert (H1 : (1 / N * N == 1)%Q) by (field; lra). assert (H2 : (2 / (N + 1) * (N + 1) == 2)%Q) by (field; lra).
  assert (G : (1 / N <= 2 / (N + 1))%Q) by (apply Qdiv_le_cross; lra). split; [lra|]. split.
  - assert (inject_Z (Z.of_nat j - Z.of_nat i) / inject_Z n_t < 1)%Q as C.
    { assert (0 < inject_Z n_t)%Q by (change 0%Q with (inject_Z 0); rewrite <- Zlt_Qlt; exact Hnt). apply Qlt_shift_div_r; [assumption|]. rewrite Qmult_1_l, <- Zlt_Qlt. exact N1. }
    set (c := (inject_Z (Z.of_nat j - Z.of_nat i) / inject_Z n_t)%Q) in *. assert (c / N < 1 / N)%Q; [|lra]. apply Qlt_shift_div_r; [lra|]. rewrite H1. exact C.
  - intros K. assert (1 < N)%Q as K' by (unfold N; change 1%Q with (inject_Z 1); rewrite <- Zlt_Qlt; lia). assert (1 / N < 2 / (N + 1))%Q; [|lra].
    apply Qlt_shift_div_l; [lra|]. setoid_replace (1 / N * (N + 1))%Q with (1 + 1 / N)%Q by (field; lra). assert (1 / N < 1)%Q; [|lra]. apply Qlt_shift_div_r; lra.
Qed.
