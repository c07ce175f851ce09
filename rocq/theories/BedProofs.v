(** Proofs about boundary edit distance: the loop of [__transpositions__] is
    refined to a pure greedy fold, from which everything else follows. *)
From Verif Require Import Spec FormatProofs Bed.
Open Scope Z_scope.

(** ** Sets *)

Lemma elem_of_symdiff d x y : d ∈ symdiff x y <-> (d ∈ x /\ d ∉ y) \/ (d ∉ x /\ d ∈ y).
Proof. unfold symdiff. set_solver. Qed.

Lemma symdiff_comm x y : symdiff x y = symdiff y x.
Proof. apply set_eq. intros d. rewrite !elem_of_symdiff. tauto. Qed.

Lemma symdiff_empty x y : symdiff x y = ∅ <-> x = y.
Proof.
  split.
  - intros H. apply set_eq. intros d.
    assert (d ∉ symdiff x y) by (rewrite H; set_solver). rewrite elem_of_symdiff in H0.
    destruct (decide (d ∈ x)), (decide (d ∈ y)); tauto.
  - intros ->. apply set_eq. intros d. rewrite elem_of_symdiff. set_solver.
Qed.

Lemma elem_of_candidates d ai aj bi bj :
  d ∈ candidates_at ai aj bi bj <->
  (d ∈ ai /\ d ∉ aj /\ d ∉ bi /\ d ∈ bj) \/ (d ∉ ai /\ d ∈ aj /\ d ∈ bi /\ d ∉ bj).
Proof.
  unfold candidates_at. rewrite !elem_of_intersection, !elem_of_symdiff.
  destruct (decide (d ∈ ai)), (decide (d ∈ aj)), (decide (d ∈ bi)), (decide (d ∈ bj)); tauto.
Qed.

(** ** The transposition loop, purely *)

(** Entry [i] of a string, empty when out of range. *)
Definition at_ (s : bstring) (i : nat) : tyset := default ∅ (s !! i).

Definition covers_pos (i : nat) (t : transposition) : Prop := t_start t = i \/ t_end t = i.
Global Instance covers_pos_dec i t : Decision (covers_pos i t).
Proof. unfold covers_pos. apply _. Defined.

(** Types of accepted transpositions touching gap [i]. *)
Definition X (out : list transposition) (i : nat) : tyset :=
  list_to_set (t_type <$> filter (covers_pos i) out).

Lemma elem_of_X out i d : d ∈ X out i <-> exists t, t ∈ out /\ covers_pos i t /\ t_type t = d.
Proof.
  unfold X. rewrite elem_of_list_to_set, elem_of_list_fmap. split.
  - intros (t & -> & H). apply elem_of_list_filter in H as [? ?]. eauto.
  - intros (t & H1 & H2 & <-). exists t. split; [reflexivity|]. apply elem_of_list_filter. auto.
Qed.

Lemma X_nil i : X [] i = ∅.
Proof. reflexivity. Qed.

Lemma X_snoc out t i :
  X (out ++ [t]) i = if decide (covers_pos i t) then {[t_type t]} ∪ X out i else X out i.
Proof.
  apply set_eq. intros d. rewrite elem_of_X. setoid_rewrite elem_of_app. setoid_rewrite elem_of_list_singleton.
  destruct (decide (covers_pos i t)) as [C|C].
  - rewrite elem_of_union, elem_of_singleton, elem_of_X. split.
    + intros (u & [H| ->] & H1 & H2); eauto.
    + intros [->|(u & H & H1 & H2)]; eauto.
  - rewrite elem_of_X. split.
    + intros (u & [H| ->] & H1 & H2); [eauto|contradiction].
    + intros (u & H & H1 & H2); eauto.
Qed.

Lemma X_perm out out' i : out ≡ₚ out' -> X out i = X out' i.
Proof.
  intros H. apply set_eq. intros d. rewrite !elem_of_X.
  split; intros (t & Ht & K); exists t; (split; [|exact K]).
  - rewrite <- H. exact Ht.
  - rewrite H. exact Ht.
Qed.

Section Loop.
Context (E : env) (a b : bstring).

(** Types only in [a], only in [b], at gap [i]. *)
Definition OA (i : nat) : tyset := at_ a i ∖ at_ b i.
Definition OB (i : nat) : tyset := at_ b i ∖ at_ a i.
(** What is left of them after removing [Y]. *)
Definition RA (Y : nat -> tyset) (i : nat) : tyset := OA i ∖ Y i.
Definition RB (Y : nat -> tyset) (i : nat) : tyset := OB i ∖ Y i.

(** A substitution is possible at gap [i]. *)
Definition sub_pos (Y : nat -> tyset) (i : nat) : Prop := RA Y i <> ∅ /\ RB Y i <> ∅.
Global Instance sub_pos_dec Y i : Decision (sub_pos Y i).
Proof. unfold sub_pos. apply _. Defined.

(** The entry of [options_set] after removing [Y]. *)
Definition opt (Y : nat -> tyset) (i : nat) : option difference :=
  match a !! i, b !! i with
  | Some x, Some y =>
    if decide (symdiff x y = ∅) then None
    else Some (Diff (symdiff x y ∖ Y i) (x ∖ y ∖ Y i) (y ∖ x ∖ Y i))
  | _, _ => None
  end.

Definition clash (out : list transposition) (t : transposition) : bool :=
  existsb (fun u => same E u t) (filter (covers_pos (t_start t)) out) ||
  existsb (fun u => same E u t) (filter (covers_pos (t_end t)) out).

Definition blocked (out : list transposition) (t : transposition) : Prop :=
  t_type t ∉ X out (t_start t) /\ t_type t ∉ X out (t_end t) /\
  sub_pos (X out) (t_start t) /\ sub_pos (X out) (t_end t).
Global Instance blocked_dec out t : Decision (blocked out t).
Proof. unfold blocked. apply _. Defined.

Definition accept (out : list transposition) (t : transposition) : bool :=
  negb (clash out t) && negb (bool_decide (blocked out t)).

Definition tstep (out : list transposition) (t : transposition) : list transposition :=
  if accept out t then out ++ [t] else out.

Definition cand (i j : nat) : tyset := candidates_at (at_ a i) (at_ a j) (at_ b i) (at_ b j).

Definition block (j : nat -> nat) (out : list transposition) (i : nat) : list transposition :=
  foldl tstep out (Transp i (j i) <$> ord E i (j i) (cand i (j i))).

Definition span (out : list transposition) (n : nat) : list transposition :=
  foldl (block (fun i => i + (n - 1))%nat) out (seq 0 (length a - (n - 1))).

Definition run (ns : list nat) : list transposition := foldl span [] ns.

(** ** Refinement *)

Record inv (st : tstate) : Prop := Inv {
  inv_cov : forall i, default [] (s_cov st !! i) = filter (covers_pos i) (s_out st);
  inv_opts : forall i, s_opts st !! i = opt (X (s_out st)) i
}.

Lemma check_cov st t pos : inv st ->
  check_position E t (s_cov st) pos = existsb (fun u => same E u t) (filter (covers_pos pos) (s_out st)).
Proof.
  intros H. unfold check_position. rewrite <- (inv_cov st H pos).
  destruct (s_cov st !! pos); reflexivity.
Qed.

Lemma qhalf_pos z : negb (Qle_bool (inject_Z z / 2)%Q 0) = (0 <? z).
Proof. unfold Qle_bool. cbn. destruct z; reflexivity. Qed.

Lemma size_symdiff (x y z : tyset) :
  Z.of_nat (size (symdiff x y ∖ z)) = Z.of_nat (size (x ∖ y ∖ z)) + Z.of_nat (size (y ∖ x ∖ z)).
Proof.
  replace (symdiff x y ∖ z) with ((x ∖ y ∖ z) ∪ (y ∖ x ∖ z)).
  - rewrite size_union by set_solver. lia.
  - apply set_eq. unfold symdiff. set_solver.
Qed.

Lemma size_pos (x : tyset) : (0 < Z.of_nat (size x)) <-> x <> ∅.
Proof.
  split.
  - intros H ->. rewrite size_empty in H. lia.
  - intros H. destruct (size x) eqn:Es; [|lia]. apply size_empty_inv in Es. exfalso. apply H, leibniz_equiv, Es.
Qed.

Lemma size_ge0 (x : tyset) : 0 <= Z.of_nat (size x).
Proof. lia. Qed.

Lemma subs_positive (x y z : tyset) :
  negb (Qle_bool (snd (additions_substitutions (symdiff x y ∖ z) (x ∖ y ∖ z) (y ∖ x ∖ z))) 0)
  = bool_decide (x ∖ y ∖ z <> ∅ /\ y ∖ x ∖ z <> ∅).
Proof.
  unfold additions_substitutions. cbn [snd]. rewrite qhalf_pos. unfold zsize. rewrite size_symdiff.
  pose proof (size_pos (x ∖ y ∖ z)) as H1. pose proof (size_pos (y ∖ x ∖ z)) as H2.
  pose proof (size_ge0 (x ∖ y ∖ z)). pose proof (size_ge0 (y ∖ x ∖ z)).
  revert H1 H2 H H0. generalize (Z.of_nat (size (x ∖ y ∖ z))), (Z.of_nat (size (y ∖ x ∖ z))).
  intros u v H1 H2 H3 H4. case_bool_decide as C.
  - destruct C as [C1 C2]. apply H1 in C1. apply H2 in C2. lia.
  - destruct (0 <? u + v - Z.abs (u - v)) eqn:Ec; [|reflexivity].
    exfalso. apply C. split; [apply H1|apply H2]; lia.
Qed.

Lemma has_subs st i j d : inv st -> d ∈ cand i j ->
  (i < length a)%nat -> (i < length b)%nat -> (j < length a)%nat -> (j < length b)%nat ->
  has_substitutions i j d (s_opts st) = bool_decide (blocked (s_out st) (Transp i j d)).
Proof.
  intros H Hd Hia Hib Hja Hjb. unfold has_substitutions. rewrite !(inv_opts st H).
  destruct (lookup_lt_is_Some_2 a i Hia) as [ai Hai]. destruct (lookup_lt_is_Some_2 b i Hib) as [bi Hbi].
  destruct (lookup_lt_is_Some_2 a j Hja) as [aj Haj]. destruct (lookup_lt_is_Some_2 b j Hjb) as [bj Hbj].
  unfold opt. rewrite Hai, Hbi, Haj, Hbj.
  unfold cand, at_ in Hd. rewrite Hai, Hbi, Haj, Hbj in Hd. cbn [default] in Hd. apply elem_of_candidates in Hd.
  assert (Hdi : d ∈ symdiff ai bi) by (rewrite elem_of_symdiff; tauto).
  assert (Hdj : d ∈ symdiff aj bj) by (rewrite elem_of_symdiff; tauto).
  rewrite !decide_False by (intros K; rewrite K in *; set_solver).
  cbn [d_sim d_ab d_ba]. rewrite !subs_positive.
  rewrite <- !bool_decide_and. apply bool_decide_ext. unfold blocked. cbn [t_start t_end t_type].
  unfold sub_pos, RA, RB, OA, OB, at_. rewrite Hai, Hbi, Haj, Hbj. cbn [default].
  rewrite !elem_of_difference. tauto.
Qed.

Lemma opt_snoc out t i :
  opt (X (out ++ [t])) i =
    if decide (covers_pos i t) then discard (t_type t) <$> opt (X out) i else opt (X out) i.
Proof.
  unfold opt. destruct (a !! i) as [x|]; [|destruct (decide _); reflexivity].
  destruct (b !! i) as [y|]; [|destruct (decide _); reflexivity].
  destruct (decide (symdiff x y = ∅)); [destruct (decide _); reflexivity|].
  rewrite X_snoc. destruct (decide (covers_pos i t)); [|reflexivity].
  cbn. unfold discard. cbn [d_sim d_ab d_ba]. do 2 f_equal; apply set_eq; set_solver.
Qed.

Lemma default_opt_cov (cov : covers) t i j k : i <> j ->
  t_start t = i -> t_end t = j ->
  default [] (record_cover t j (record_cover t i cov) !! k) =
    default [] (cov !! k) ++ (if decide (covers_pos k t) then [t] else []).
Proof.
  intros Hij Hs He. unfold record_cover.
  destruct (decide (k = j)) as [->|Hkj].
  - rewrite lookup_insert. cbn. rewrite lookup_insert_ne by congruence.
    rewrite decide_True by (right; assumption). reflexivity.
  - rewrite lookup_insert_ne by congruence. destruct (decide (k = i)) as [->|Hki].
    + rewrite lookup_insert. cbn. rewrite decide_True by (left; assumption). reflexivity.
    + rewrite lookup_insert_ne by congruence. rewrite decide_False by (intros [?|?]; congruence).
      rewrite app_nil_r. reflexivity.
Qed.

Lemma transp_type_refine st i j d : inv st -> d ∈ cand i j -> i <> j ->
  (i < length a)%nat -> (i < length b)%nat -> (j < length a)%nat -> (j < length b)%nat ->
  exists st', transp_type E i j st d = Ok st' /\ inv st' /\ s_out st' = tstep (s_out st) (Transp i j d).
Proof.
  intros H Hd Hij Hia Hib Hja Hjb. unfold transp_type.
  unfold overlaps_existing. rewrite !check_cov by assumption. cbn [t_start t_end].
  rewrite has_subs by assumption.
  unfold tstep, accept, clash. cbn [t_start t_end].
  set (c := existsb _ _ || existsb _ _). set (bl := bool_decide _).
  destruct (negb c && negb bl); [|eauto].
  assert (Hopt : forall k, (k = i \/ k = j) -> exists o, opt (X (s_out st)) k = Some o).
  { intros k Hk. unfold opt.
    destruct (lookup_lt_is_Some_2 a k) as [ak Hak]; [destruct Hk as [->| ->]; assumption|].
    destruct (lookup_lt_is_Some_2 b k) as [bk Hbk]; [destruct Hk as [->| ->]; assumption|].
    rewrite Hak, Hbk. assert (d ∈ symdiff ak bk).
    { unfold cand, at_ in Hd. apply elem_of_candidates in Hd. rewrite elem_of_symdiff.
      destruct Hk as [->| ->]; rewrite Hak, Hbk in Hd; cbn [default] in Hd; tauto. }
    rewrite decide_False by (intros K; rewrite K in *; set_solver). eauto. }
  rewrite (inv_opts st H i). destruct (Hopt i) as [oi Hoi]; [auto|]. rewrite Hoi.
  rewrite lookup_alter_ne by congruence. rewrite (inv_opts st H j).
  destruct (Hopt j) as [oj Hoj]; [auto|]. rewrite Hoj.
  eexists. split; [reflexivity|]. split; [|reflexivity]. constructor; cbn [s_cov s_opts s_out].
  - intros k. rewrite (default_opt_cov _ (Transp i j d) i j k Hij eq_refl eq_refl).
    rewrite (inv_cov st H k), filter_app. f_equal.
  - intros k. rewrite opt_snoc. cbn [t_type].
    destruct (decide (k = j)) as [->|Hkj].
    + rewrite lookup_alter, lookup_alter_ne by congruence. rewrite (inv_opts st H j).
      rewrite decide_True by (unfold covers_pos; auto). reflexivity.
    + rewrite lookup_alter_ne by congruence. destruct (decide (k = i)) as [->|Hki].
      * rewrite lookup_alter, (inv_opts st H i). rewrite decide_True by (unfold covers_pos; auto). reflexivity.
      * rewrite lookup_alter_ne by congruence. rewrite (inv_opts st H k).
        rewrite decide_False by (unfold covers_pos; cbn; intros [?|?]; congruence). reflexivity.
Qed.

Context (HE : env_ok E).

Lemma transp_types_refine i j l st : inv st -> (forall d, d ∈ l -> d ∈ cand i j) -> i <> j ->
  (i < length a)%nat -> (i < length b)%nat -> (j < length a)%nat -> (j < length b)%nat ->
  exists st', foldM (transp_type E i j) l st = Ok st' /\ inv st' /\
    s_out st' = foldl tstep (s_out st) (Transp i j <$> l).
Proof.
  intros H Hl Hij Hia Hib Hja Hjb. revert st H. induction l as [|d l IH]; intros st H.
  - exists st. auto.
  - destruct (transp_type_refine st i j d H) as (st1 & E1 & H1 & O1); try assumption.
    { apply Hl. left. }
    destruct (IH ltac:(intros; apply Hl; right; assumption) st1 H1) as (st2 & E2 & H2 & O2).
    exists st2. cbn [foldM]. rewrite E1. cbn [bind]. rewrite E2. split; [reflexivity|]. split; [assumption|].
    rewrite O2, O1. reflexivity.
Qed.

Lemma elem_of_ord i j s d : d ∈ ord E i j s <-> d ∈ s.
Proof. rewrite (ord_perm E HE). apply elem_of_elements. Qed.

Lemma transp_pos_refine n_i i st : inv st -> (0 < n_i)%nat -> (i + n_i < length a)%nat -> (i + n_i < length b)%nat ->
  exists st', transp_pos E a b n_i st i = Ok st' /\ inv st' /\
    s_out st' = block (fun i => i + n_i)%nat (s_out st) i.
Proof.
  intros H Hn Hi Hl. unfold transp_pos, lookup_or.
  destruct (lookup_lt_is_Some_2 a i) as [ai Hai]; [lia|].
  destruct (lookup_lt_is_Some_2 b i) as [bi Hbi]; [lia|].
  destruct (lookup_lt_is_Some_2 a (i + n_i)) as [aj Haj]; [lia|].
  destruct (lookup_lt_is_Some_2 b (i + n_i)) as [bj Hbj]; [lia|].
  rewrite Hai, Hbi, Haj, Hbj. cbn [bind].
  assert (EC : candidates_at ai aj bi bj = cand i (i + n_i)) by (unfold cand, at_; rewrite Hai, Hbi, Haj, Hbj; reflexivity).
  rewrite EC.
  destruct (transp_types_refine i (i + n_i) (ord E i (i + n_i) (cand i (i + n_i))) st H) as (st' & E1 & H1 & O1); try lia.
  { intros d Hd. apply elem_of_ord in Hd. exact Hd. }
  exists st'. auto.
Qed.

Lemma transp_poss_refine n_i l st : inv st -> (0 < n_i)%nat -> (forall i, i ∈ l -> i + n_i < length a)%nat ->
  (forall i, i ∈ l -> i + n_i < length b)%nat ->
  exists st', foldM (transp_pos E a b n_i) l st = Ok st' /\ inv st' /\
    s_out st' = foldl (block (fun i => i + n_i)%nat) (s_out st) l.
Proof.
  intros H Hn Hi Hl. revert st H. induction l as [|i l IH]; intros st H; [exists st; auto|].
  destruct (transp_pos_refine n_i i st H Hn) as (st1 & E1 & H1 & O1); [apply Hi; left|apply Hl; left|].
  destruct (IH ltac:(intros; apply Hi; right; assumption) ltac:(intros; apply Hl; right; assumption) st1 H1) as (st2 & E2 & H2 & O2).
  exists st2. cbn [foldM]. rewrite E1. cbn [bind]. rewrite E2. split; [reflexivity|]. split; [assumption|].
  rewrite O2, O1. reflexivity.
Qed.

Lemma transp_spans_refine ns st : inv st -> Forall (fun n => 2 <= n)%nat ns -> (length a <= length b)%nat ->
  exists st', foldM (transp_span E a b) ns st = Ok st' /\ inv st' /\ s_out st' = foldl span (s_out st) ns.
Proof.
  intros H Hns Hl. revert st H. induction ns as [|n ns IH]; intros st H; [exists st; auto|].
  apply Forall_cons in Hns as [Hn Hns].
  destruct (transp_poss_refine (n - 1) (seq 0 (length a - (n - 1))) st H) as (st1 & E1 & H1 & O1); [lia| | |].
  { intros i Hi. apply elem_of_seq in Hi. lia. }
  { intros i Hi. apply elem_of_seq in Hi. lia. }
  destruct (IH Hns st1 H1) as (st2 & E2 & H2 & O2).
  exists st2. cbn [foldM]. unfold transp_span at 1. rewrite E1. cbn [bind]. rewrite E2.
  split; [reflexivity|]. split; [assumption|]. rewrite O2, O1. reflexivity.
Qed.

(** [options_set] by position. *)
Lemma optional_lookup i : optional_set_edits a b !! i = opt (fun _ => ∅) i.
Proof.
  unfold optional_set_edits, opt. clear HE.
  assert (K : forall (l : list (tyset * tyset)) k i,
    (list_to_map (omap (fun '(i, (a_i, b_i)) =>
      let d := symdiff a_i b_i in
      if decide (d = ∅) then None else Some (i, Diff d (a_i ∖ b_i) (b_i ∖ a_i)))
      (imap (fun i p => (k + i, p)%nat) l)) : gmap nat difference) !! i =
    (if decide (k <= i)%nat then
       match l !! (i - k)%nat with
       | Some (x, y) => if decide (symdiff x y = ∅) then None
                       else Some (Diff (symdiff x y) (x ∖ y) (y ∖ x))
       | None => None end
     else None)).
  { induction l as [|[x y] l IH]; intros k i'.
    - cbn. rewrite lookup_empty. destruct (decide _); reflexivity.
    - rewrite imap_cons. cbn [omap list_omap].
      replace (imap ((λ (i : nat) (p : tyset * tyset), ((k + i)%nat, p)) ∘ S) l)
        with (imap (λ (i : nat) (p : tyset * tyset), ((S k + i)%nat, p)) l).
      2: { apply imap_ext. intros j p _. cbn. f_equal. lia. }
      specialize (IH (S k) i'). cbn zeta in IH |- *. replace (k + 0)%nat with k by lia.
      destruct (decide (symdiff x y = ∅)) as [C|C].
      + rewrite IH. destruct (decide (S k <= i')%nat).
        * rewrite decide_True by lia. replace (i' - k)%nat with (S (i' - S k)) by lia. reflexivity.
        * destruct (decide (k <= i')%nat); [|reflexivity]. replace (i' - k)%nat with O by lia. cbn.
          rewrite decide_True by assumption. reflexivity.
      + cbn [list_to_map foldr curry uncurry fst snd]. destruct (decide (i' = k)) as [->|Hk].
        * rewrite lookup_insert. rewrite decide_True by lia. replace (k - k)%nat with O by lia. cbn.
          rewrite decide_False by assumption. reflexivity.
        * rewrite lookup_insert_ne by congruence. rewrite IH. destruct (decide (S k <= i')%nat).
          -- rewrite decide_True by lia. replace (i' - k)%nat with (S (i' - S k)) by lia. reflexivity.
          -- rewrite decide_False by lia. reflexivity. }
  specialize (K (zip a b) 0%nat i). cbn [Nat.add] in K. rewrite decide_True in K by lia.
  replace (i - 0)%nat with i in K by lia. etransitivity; [exact K|].
  rewrite lookup_zip_with. destruct (a !! i) as [x|]; [|reflexivity]. cbn.
  destruct (b !! i) as [y|]; [|reflexivity]. cbn.
  destruct (decide (symdiff x y = ∅)); [reflexivity|].
  do 2 f_equal; apply set_eq; set_solver.
Qed.

Lemma inv_init : inv (TState (optional_set_edits a b) ∅ []).
Proof.
  constructor; cbn [s_cov s_opts s_out].
  - intros i. rewrite lookup_empty. reflexivity.
  - intros i. rewrite optional_lookup. reflexivity.
Qed.

Lemma transpositions_refine ns : Forall (fun n => 2 <= n)%nat ns -> (length a <= length b)%nat ->
  exists opts, transpositions E a b ns (optional_set_edits a b) = Ok (run ns, opts) /\
    forall i, opts !! i = opt (X (run ns)) i.
Proof.
  intros Hns Hl. destruct (transp_spans_refine ns _ inv_init Hns Hl) as (st & E1 & H1 & O1).
  exists (s_opts st). unfold transpositions. rewrite E1. cbn [bind]. rewrite O1. cbn [s_out].
  split; [reflexivity|]. intros i. rewrite (inv_opts st H1), O1. reflexivity.
Qed.
End Loop.
