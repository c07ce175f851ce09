(** The default window size, and the flags of the window metrics. *)
From Coq Require Import Lqa.
From Verif Require Import SpecWindow FormatProofs Round RoundProofs SimRound SimProofs SimMain WindowProofs WindowMain WindowSym.
Open Scope Z_scope.

(** ** C41 *)

Theorem pk_flags A rnd f w sh sr :
  (exists e, forall om rp, pk A rnd f w om rp sh sr = Err e) \/
  (exists n d v, 0 <= d /\ pk A rnd f w false false sh sr = Ok (WVal v) /\
    (forall om, pk A rnd f w om true sh sr = Ok (WParts n d)) /\
    pk A rnd f w true false sh sr = Ok (WVal (NDec (rd A (1 - nval v)))) /\
    v = (if 0 <? d then NDec (rd A (inject_Z n / inject_Z d)) else NInt 0)).
Proof.
  unfold pk. destruct (to_positions2 f sh sr) as [[h r]|e]; [|left; exists e; reflexivity]. cbn [bind].
  destruct (effective_window A rnd w r) as [k|e]; [|left; exists e; reflexivity]. cbn [bind]. unfold pk_positions.
  assert (HD : forall l s s', foldM (pk_step h r k) l s = Ok s' -> snd s <= snd s').
  { induction l as [|i l IH]; intros s s' H; [injection H as <-; lia|]. cbn [foldM] in H. unfold pk_step in H at 1.
    destruct (ends_agree (pyslice r i (i + k + 1))); [|discriminate H]. destruct (ends_agree (pyslice h i (i + k + 1))); [|discriminate H]. cbn [bind] in H.
    apply IH in H. cbn [snd] in H. lia. }
  destruct (foldM (pk_step h r k) (pyrange 0 (zlen r - k)) (0, 0)) as [[n d]|e] eqn:E; [|left; exists e; reflexivity]. apply HD in E. cbn [snd] in E.
  right. exists n, d. cbn [bind]. destruct (Z.ltb_spec 0 d) as [C|C].
  - cbn [ndiv]. rewrite qzero_inject by lia. cbn [bind]. eexists. repeat split; try assumption; intros []; reflexivity.
  - cbn [bind]. eexists. repeat split; try assumption; intros []; reflexivity.
Qed.

Theorem wd_flags A rnd f w lam sh sr :
  (exists e, forall om rp, window_diff A rnd f w lam om rp sh sr = Err e) \/
  (exists n d v, d <> 0 /\ window_diff A rnd f w lam false false sh sr = Ok (WVal (NDec v)) /\
    window_diff A rnd f w lam false true sh sr = Ok (WParts n d) /\
    (forall rp, window_diff A rnd f w lam true rp sh sr = Ok (WVal (NDec (rd A (1 - v))))) /\
    v = rd A (inject_Z n / inject_Z d)).
Proof.
  unfold window_diff. destruct (to_positions2 f sh sr) as [[h r]|e]; [|left; exists e; reflexivity]. cbn [bind].
  destruct (effective_window A rnd w r) as [k|e]; [|left; exists e; reflexivity]. cbn [bind].
  destruct (lam && negb _); [left; eexists; reflexivity|]. unfold wd_positions.
  set (u := paired_units h r k lam). destruct (foldM (wd_step u k) (pyrange 0 (zlen u - k)) 0) as [n|e]; [|left; exists e; reflexivity]. cbn [bind].
  set (d := if lam then _ else _). cbn [ndiv]. destruct (Z.eq_dec d 0) as [C|C].
  - left. rewrite C. destruct (qzero (inject_Z n)); eexists; reflexivity.
  - rewrite qzero_inject by assumption. cbn [bind]. destruct (negb (_ || lam)); [left; eexists; reflexivity|].
    destruct (negb (nleb _ _)); [left; eexists; reflexivity|].
    right. exists n, d. eexists. repeat split; assumption.
Qed.

(** ** C33 *)

Lemma collects_list t l : collects t l -> list_coder_masses t = Ok (Some <$> l).
Proof.
  induction 1 as [l| | |name t l x y H1 IH1 H2 IH2].
  - cbn [list_coder_masses]. rewrite <- list_fmap_compose. reflexivity.
  - reflexivity.
  - reflexivity.
  - cbn [list_coder_masses] in *. rewrite IH1. cbn [bind]. rewrite IH2. cbn [bind]. rewrite fmap_app. reflexivity.
Qed.

Lemma mapM_some (l : list Z) :
  mapM (fun m => match m with Some z => Ok (NDec (inject_Z z)) | None => Err TypeError end) (Some <$> l) = Ok ((fun z => NDec (inject_Z z)) <$> l).
Proof. induction l as [|z l IH]; [reflexivity|]. cbn [fmap list_fmap mapM bind]. cbn [fmap] in IH. rewrite IH. reflexivity. Qed.

Lemma sum_decimals A eps M l : prec A eps M -> Forall (fun z => 0 <= z) l -> forall x s, (x == inject_Z s)%Q -> 0 <= s -> s + zsum l <= M ->
  exists q, foldM (nadd A) ((fun z => NDec (inject_Z z)) <$> l) (NDec x) = Ok (NDec q) /\ (q == inject_Z (s + zsum l))%Q.
Proof.
  intros HP. induction 1 as [|z l Hz Hl IH]; intros x s Hx Hs HM.
  - exists x. split; [reflexivity|]. rewrite Hx. cbn [zsum foldr]. rewrite Z.add_0_r. reflexivity.
  - rewrite zsum_cons in *. assert (0 <= zsum l). { clear -Hl. induction Hl as [|y l Hy _ IH]; [cbn; lia|]. rewrite zsum_cons. lia. }
    cbn [fmap list_fmap foldM]. cbn [nadd bind].
    destruct (IH (rd A (x + inject_Z z)) (s + z)) as (q & E & Hq).
    + apply (rd_z A _ _ HP); [rewrite Hx, <- inject_Z_plus; reflexivity|lia].
    + lia.
    + lia.
    + exists q. split; [exact E|]. rewrite Hq. rewrite Z.add_assoc. reflexivity.
Qed.

(** For non-negative masses whose sum the decimal context can represent. *)
Lemma window_of_masses_ok A eps M rnd l : prec A eps M -> Forall (fun z => 0 <= z) l -> zsum l <= M -> l <> [] ->
  window_of_masses A rnd (Some <$> l) = Ok (Z.max 2 (rnd (rd A (rd A (inject_Z (zsum l) / inject_Z (zlen l)) / 2)))).
Proof.
  intros HP Hl HM Hne. unfold window_of_masses. rewrite mapM_some. cbn [bind]. unfold mean.
  destruct (sum_decimals A eps M l HP Hl 0%Q 0 ltac:(reflexivity) ltac:(lia) ltac:(lia)) as (q & E & Hq). rewrite E. cbn [bind].
  assert (HN : 0 < zlen l) by (destruct l; [congruence|]; unfold zlen; cbn [length]; lia).
  replace (zlen ((fun z => NDec (inject_Z z)) <$> l)) with (zlen l) by (unfold zlen; rewrite fmap_length; reflexivity).
  rewrite (proj2 (Z.ltb_lt _ _)) by assumption. cbn [ndiv]. rewrite qzero_inject by lia. cbn [bind ndiv].
  change (qzero 2) with false. cbv iota. cbn [bind nval].
  rewrite (p_ext _ _ _ HP (q / inject_Z (zlen l))%Q (inject_Z (zsum l) / inject_Z (zlen l))%Q) by (rewrite Hq; reflexivity).
  set (x := rnd _). destruct (Z.ltb_spec 1 x); f_equal; lia.
Qed.

Theorem window_size_masses A eps M rnd f t l : prec A eps M -> f <> FPosition -> collects t l -> Forall (fun z => 0 <= z) l -> zsum l <= M -> l <> [] ->
  compute_window_size A rnd f t = Ok (Z.max 2 (rnd (rd A (rd A (inject_Z (zsum l) / inject_Z (zlen l)) / 2)))).
Proof.
  intros HP Hf HC Hl HM Hne. unfold compute_window_size.
  replace (match f with FPosition => _ | _ => _ end) with (list_coder_masses t) by (destruct f; [reflexivity|reflexivity|congruence|reflexivity|reflexivity] || (destruct f; congruence || reflexivity)).
  rewrite (collects_list t l HC). cbn [bind]. eapply window_of_masses_ok; eassumption.
Qed.

(** In position format, for one segmentation whose adjacent segments carry different labels. *)
Theorem window_size_position A eps M rnd m s : prec A eps M -> Spec.positive m -> m <> [] -> encodes FPosition m s -> zsum m <= M ->
  compute_window_size A rnd FPosition (WSeg s) = Ok (Z.max 2 (rnd (rd A (rd A (inject_Z (zsum m) / inject_Z (zlen m)) / 2)))).
Proof.
  intros HP Hm Hne HE HM. destruct s as [p|b|str]; try contradiction. unfold compute_window_size. cbn [tree_runs bind].
  replace (convert_positions_to_masses p) with m.
  - eapply window_of_masses_ok; try eassumption. eapply Forall_impl; [exact Hm|]. intros z Hz. cbn in Hz |- *. lia.
  - pose proof (to_bstring_encodes FPosition m (Ints p) Hm Hne HE) as H.
    cbn [to_bstring as_positions bind] in H. pose proof (group_lengths_positive (pval <$> p)) as HP'. unfold convert_positions_to_masses in *.
    rewrite bstring_of_masses in H by assumption. injection H as H. symmetry. apply bs_of_inj; try assumption.
    pose proof (group_lengths_sum (pval <$> p)) as HS. destruct HE as [HL _]. pose proof (positive_sum_pos m Hm Hne).
    intros E. rewrite E in HS. unfold zlen in *. rewrite fmap_length in HS. cbn in HS. lia.
Qed.

Theorem window_size_ge_2 A rnd f t k : compute_window_size A rnd f t = Ok k -> 2 <= k.
Proof.
  unfold compute_window_size. destruct (match f with FPosition => _ | _ => _ end) as [ms|]; [|discriminate]. cbn [bind]. unfold window_of_masses.
  destruct (mapM _ ms) as [l|]; [|discriminate]. cbn [bind]. destruct (mean A l) as [mu|]; [|discriminate]. cbn [bind].
  destruct (ndiv A mu (NDec 2)) as [avg|]; [|discriminate]. cbn [bind]. intros H. injection H as <-.
  destruct (Z.ltb_spec 1 (rnd (nval avg))); lia.
Qed.

(** Without masses the mean is 0. *)
Theorem window_size_empty A rnd f t : sane A -> f <> FPosition -> collects t [] -> (forall x, (x == 0)%Q -> rnd x <= 1) ->
  compute_window_size A rnd f t = Ok 2.
Proof.
  intros HA Hf HC HR. unfold compute_window_size.
  replace (match f with FPosition => _ | _ => _ end) with (list_coder_masses t) by (destruct f; congruence || reflexivity).
  rewrite (collects_list t [] HC). cbn [bind fmap list_fmap]. unfold window_of_masses. cbn [mapM bind]. unfold mean. cbn [foldM bind].
  change (0 <? zlen (@nil num)) with false. cbn [bind ndiv]. change (qzero 2) with false. cbv iota. cbn [bind nval].
  destruct (Z.ltb_spec 1 (rnd (rd A (inject_Z 0 / 2)))) as [C|C]; [|reflexivity]. exfalso.
  assert (rd A (inject_Z 0 / 2) == 0)%Q as E by (apply (rd_0 A _ _ (prec_sane A HA)); reflexivity). apply HR in E. lia.
Qed.

Lemma group_lengths_distinct {X} `{!EqDecision X} (l : list X) : NoDup l -> group_lengths l = replicate (length l) 1.
Proof.
  induction l as [|x l IH]; intros H; [reflexivity|]. apply NoDup_cons in H as [H1 H2]. specialize (IH H2).
  destruct l as [|y l]; [reflexivity|].
  change (group_lengths (x :: y :: l)) with
    (match group_lengths (y :: l) with [] => [1] | c :: cs => if decide (x = y) then (c + 1) :: cs else 1 :: group_lengths (y :: l) end).
  rewrite IH. cbn [length replicate]. rewrite decide_False; [reflexivity|]. intros ->. apply H1. left.
Qed.

(** In position format a dict is read as the sequence of its keys: the result
    does not depend on the segmentations. *)
Theorem window_size_position_dict A l : sane A -> NoDup l.*1 -> l <> [] -> zlen l <= 10 ^ 28 ->
  compute_window_size A default_round FPosition (WDict l) = Ok 2.
Proof.
  intros HA HN Hne HM. unfold compute_window_size. cbn [tree_runs bind]. rewrite group_lengths_distinct by assumption. rewrite fmap_length.
  assert (HS : zsum (replicate (length l) 1) = zlen l).
  { unfold zlen. clear. induction (length l) as [|n IH]; [reflexivity|]. cbn [replicate]. rewrite zsum_cons, IH. lia. }
  rewrite (window_of_masses_ok A eps28 (10 ^ 28)).
  - f_equal. rewrite HS. replace (zlen (replicate (length l) 1)) with (zlen l) by (unfold zlen; rewrite replicate_length; reflexivity).
    assert (HL : 0 < zlen l) by (destruct l; [congruence|]; unfold zlen; cbn [length]; lia).
    assert (E1 : (rd A (inject_Z (zlen l) / inject_Z (zlen l)) == 1)%Q).
    { apply (rd_1 A _ _ (prec_sane A HA)). apply Qmult_inv_r. pose proof (inj_pos (zlen l) HL). lra. }
    assert (E2 : (rd A (rd A (inject_Z (zlen l) / inject_Z (zlen l)) / 2) <= inject_Z 1)%Q).
    { apply (rd_le A _ _ (prec_sane A HA)); [|lia]. rewrite E1. discriminate. }
    apply hround_mono in E2. rewrite hround_Z in E2. unfold default_round. lia.
  - apply prec_sane, HA.
  - apply Forall_replicate. lia.
  - rewrite HS. exact HM.
  - destruct l; [congruence|discriminate].
Qed.

(** A leaf that is not a collection. *)
Theorem window_size_bad A rnd f : f <> FPosition ->
  (forall z, compute_window_size A rnd f (WInt z) = Err SegmentationMetricError) /\
  (forall s, compute_window_size A rnd f (WSeg (Str s)) = Err SegmentationMetricError).
Proof. intros Hf. destruct f; try congruence; split; reflexivity. Qed.

Fixpoint wtree_size (t : wtree) : nat :=
  match t with
  | WDict l => S ((fix go l := match l with [] => O | (_, t) :: l' => (S (wtree_size t) + go l')%nat end) l)
  | _ => O
  end.

Lemma wtree_ind2 (P : wtree -> Prop) : (forall z, P (WInt z)) -> (forall s, P (WSeg s)) -> P (WDict []) ->
  (forall name t l, P t -> P (WDict l) -> P (WDict ((name, t) :: l))) -> forall t, P t.
Proof.
  intros H1 H2 H3 H4 t. remember (wtree_size t) as n eqn:E. assert (L : (wtree_size t <= n)%nat) by lia. clear E. revert t L.
  induction n as [|n IH]; intros t L.
  - destruct t as [z|s|l]; [apply H1|apply H2|cbn in L; lia].
  - destruct t as [z|s|l]; [apply H1|apply H2|]. induction l as [|[k u] l IHl]; [exact H3|]. cbn in L. apply H4; [apply IH; lia|]. apply IHl. cbn. lia.
Qed.

Lemma holds_nil P : holds P (WDict []) -> P (WDict []).
Proof. inversion 1 as [|? ? ? K]; [assumption|inversion K]. Qed.
Lemma holds_cons P name t l : (forall l, ~ P (WDict l)) -> holds P (WDict ((name, t) :: l)) <-> holds P t \/ holds P (WDict l).
Proof.
  intros N. split.
  - inversion 1 as [u K|n' u l' K1 K2]; subst; [destruct (N _ K)|]. apply elem_of_cons in K1 as [K1|K1]; [injection K1 as -> ->; left; exact K2|]. right. eapply Holds_in; eassumption.
  - intros [K|K]; [apply (Holds_in P name t); [left|exact K]|]. inversion K as [u K'|n' u l' K1 K2]; subst; [destruct (N _ K')|]. eapply Holds_in; [right; exact K1|exact K2].
Qed.

Lemma no_collection_dict l : ~ no_collection (WDict l).
Proof. intros [[? K]|[? K]]; discriminate K. Qed.
Lemma of_sets_dict l : ~ of_sets (WDict l).
Proof. intros (? & ? & K). discriminate K. Qed.

(** The list exists unless a number or a string occurs; it has a [None] if sets occur. *)
Lemma coder_masses_cases t :
  (holds no_collection t /\ list_coder_masses t = Err SegmentationMetricError) \/
  (~ holds no_collection t /\ exists l, list_coder_masses t = Ok l /\ ((holds of_sets t /\ None ∈ l) \/ (~ holds of_sets t /\ exists m, collects t m))).
Proof.
  induction t as [z|s| |name t l IH1 IH2] using wtree_ind2.
  - left. split; [apply Holds_here; left; eauto|reflexivity].
  - destruct s as [p|b|str].
    + right. split; [inversion 1 as [? K|]; subst; destruct K as [[? K]|[? K]]; discriminate K|]. eexists. split; [reflexivity|]. right.
      split; [inversion 1 as [? K|]; subst; destruct K as (? & ? & K); discriminate K|]. eexists. apply Col_seg.
    + right. split; [inversion 1 as [? K|]; subst; destruct K as [[? K]|[? K]]; discriminate K|]. eexists. split; [reflexivity|].
      destruct b as [|x b]; [right|left].
      * split; [inversion 1 as [? K|]; subst; destruct K as (? & ? & K); discriminate K|]. exists []. constructor.
      * split; [apply Holds_here; exists x, b; reflexivity|left].
    + left. split; [apply Holds_here; right; eauto|reflexivity].
  - right. split; [intros K; apply holds_nil in K; exact (no_collection_dict _ K)|]. exists []. split; [reflexivity|]. right.
    split; [intros K; apply holds_nil in K; exact (of_sets_dict _ K)|]. exists []. constructor.
  - rewrite !holds_cons by apply no_collection_dict. cbn [list_coder_masses] in *.
    destruct IH1 as [[K1 E1]|(K1 & l1 & E1 & C1)]; [left; rewrite E1; auto|]. rewrite E1. cbn [bind].
    destruct IH2 as [[K2 E2]|(K2 & l2 & E2 & C2)]; [left; rewrite E2; auto|]. rewrite E2. cbn [bind]. right. split; [tauto|].
    eexists. split; [reflexivity|]. rewrite holds_cons, elem_of_app by apply of_sets_dict. destruct C1 as [C1|[C1 [m1 D1]]]; [left; tauto|]. destruct C2 as [C2|[C2 [m2 D2]]]; [left; tauto|].
    right. split; [tauto|]. eexists. constructor; eassumption.
Qed.

Lemma mapM_none (l : list (option Z)) : None ∈ l ->
  mapM (fun m => match m with Some z => Ok (NDec (inject_Z z)) | None => Err TypeError end) l = Err TypeError.
Proof.
  induction l as [|[z|] l IH]; intros H; [inversion H| |reflexivity]. cbn [mapM bind]. apply elem_of_cons in H as [H|H]; [discriminate H|]. rewrite (IH H). reflexivity.
Qed.

Theorem window_size_rejects A rnd f t : f <> FPosition ->
  (holds no_collection t -> compute_window_size A rnd f t = Err SegmentationMetricError) /\
  (~ holds no_collection t -> holds of_sets t -> compute_window_size A rnd f t = Err TypeError) /\
  (~ holds no_collection t -> ~ holds of_sets t -> exists l, collects t l).
Proof.
  intros Hf. assert (E : compute_window_size A rnd f t = bind (list_coder_masses t) (window_of_masses A rnd)) by (destruct f; try congruence; reflexivity).
  rewrite E. destruct (coder_masses_cases t) as [[K Q]|(K & l & Q & [[C1 C2]|[C1 C2]])]; rewrite Q; cbn [bind]; (split; [|split]); intros; try contradiction.
  - reflexivity.
  - unfold window_of_masses. rewrite mapM_none by assumption. reflexivity.
  - exact C2.
Qed.

Theorem window_size_position_int A rnd z : compute_window_size A rnd FPosition (WInt z) = Err TypeError.
Proof. reflexivity. Qed.

(** ** Half-even rounding is not disturbed by the decimal roundings. *)

Lemma hround_near x y : (Qabs (inject_Z (hround x) - y) < 1 # 2)%Q -> hround y = hround x.
Proof.
  intros H. apply Qabs_Qlt_condition in H. pose proof (hround_error y) as E.
  assert (H1 : (inject_Z (hround x) < inject_Z (hround y + 1))%Q) by (rewrite inject_Z_plus; change (inject_Z 1) with 1%Q; lra).
  assert (H2 : (inject_Z (hround y) < inject_Z (hround x + 1))%Q) by (rewrite inject_Z_plus; change (inject_Z 1) with 1%Q; lra).
  rewrite <- Zlt_Qlt in H1, H2. lia.
Qed.

Lemma half_exact (z : Z) : (Z.abs z <= 10 ^ 27)%Z -> (dec28 (inject_Z z / 2) == inject_Z z / 2)%Q.
Proof.
  intros H. apply (rnd_exact 10 28 ltac:(lia) ltac:(lia) _ (5 * z) (-1)); [|lia].
  rewrite inject_Z_mult. change (qpow 10 (-1)) with (/ inject_Z 10)%Q. field.
Qed.

Theorem default_window_exact f t l : f <> FPosition -> collects t l -> Spec.positive l -> l <> [] -> zsum l <= 10 ^ 13 ->
  compute_window_size pyA default_round f t = Ok (Z.max 2 (hround (inject_Z (zsum l) / (2 * inject_Z (zlen l))))).
Proof.
  intros Hf HC Hl Hne HM. pose proof (prec_sane pyA sane_pyA) as HP.
  rewrite (window_size_masses pyA eps28 (10 ^ 28) default_round f t l HP Hf HC); [|eapply Forall_impl; [exact Hl|]; intros z Hz; cbn in Hz |- *; lia|lia|assumption].
  do 2 f_equal. unfold default_round.
  assert (HN : 0 < zlen l <= zsum l).
  { split; [destruct l; [congruence|]; unfold zlen; cbn [length]; lia|]. clear -Hl. induction Hl as [|z l Hz _ IH]; [reflexivity|].
    rewrite zsum_cons. unfold zlen in *. cbn [length]. lia. }
  set (S := zsum l) in *. set (n := zlen l) in *. clearbody S n. clear Hf HC Hl Hne t l.
  assert (Hn : (0 < inject_Z n)%Q) by (apply inj_pos; lia).
  set (x := (inject_Z S / (2 * inject_Z n))%Q). set (y := (inject_Z S / inject_Z n)%Q).
  assert (Exy : (y == 2 * x)%Q) by (unfold x, y; field; lra).
  assert (EX : (x * (2 * inject_Z n) == inject_Z S)%Q) by (unfold x; field; lra).
  assert (Hx0 : (0 <= x)%Q).
  { apply Qdiv_bounds_l; [lra|]. rewrite Qmult_0_l. change 0%Q with (inject_Z 0). apply inj_le. lia. }
  set (h := hround x). pose proof (hround_error x) as HE. fold h in HE.
  (* is 2x an odd integer? *)
  destruct (Z.eq_dec (Z.abs (2 * n * h - S)) n) as [T|T].
  - (* exact half *)
    assert (exists z, S = n * z /\ 0 <= z) as (z & Ez & Hz).
    { destruct (Z.abs_eq_or_opp (2 * n * h - S)) as [A1|A1].
      - assert (E : S = n * (2 * h - 1)) by lia. exists (2 * h - 1). split; [assumption|]. nia.
      - assert (E : S = n * (2 * h + 1)) by lia. exists (2 * h + 1). split; [assumption|]. nia. }
    assert (Hy : (y == inject_Z z)%Q).
    { unfold y. rewrite Ez, inject_Z_mult. field. lra. }
    assert (Hzb : z <= 10 ^ 13) by nia.
    assert (E1 : (rd pyA y == inject_Z z)%Q) by (apply (rd_z pyA _ _ HP); [exact Hy|lia]).
    apply hround_ext. rewrite (p_ext _ _ _ HP _ (inject_Z z / 2)%Q) by (rewrite E1; reflexivity).
    cbn [pyA rd]. rewrite half_exact by lia. rewrite <- Hy, Exy. field.
  - (* at least 1/(2n) away from a half *)
    apply hround_near. fold h.
    assert (D : (Qabs (inject_Z h - x) * (2 * inject_Z n) <= inject_Z n - 1)%Q).
    { assert (HZ : Z.abs (2 * n * h - S) <= n - 1).
      { assert (Z.abs (2 * n * h - S) <= n); [|lia].
        assert (A1 : (inject_Z (2 * n * h - S) <= inject_Z n)%Q).
        { replace (2 * n * h - S) with (2 * n * h + - S) by lia. rewrite inject_Z_plus, inject_Z_opp, !inject_Z_mult, <- EX. change (inject_Z 2) with 2%Q. nra. }
        assert (A2 : (inject_Z (- n) <= inject_Z (2 * n * h - S))%Q).
        { replace (2 * n * h - S) with (2 * n * h + - S) by lia. rewrite inject_Z_plus, !inject_Z_opp, !inject_Z_mult, <- EX. change (inject_Z 2) with 2%Q. nra. }
        rewrite <- Zle_Qle in A1, A2. lia. }
      assert (A1 : (Qabs (inject_Z h - x) * (2 * inject_Z n) == Qabs (inject_Z (2 * n * h - S)))%Q).
      { rewrite <- (Qabs_pos (2 * inject_Z n)) at 1 by lra. rewrite <- Qabs_Qmult. apply Qabs_wd.
        replace (2 * n * h - S) with (2 * n * h + - S) by lia. rewrite inject_Z_plus, inject_Z_opp, !inject_Z_mult, <- EX. change (inject_Z 2) with 2%Q. ring. }
      rewrite A1, <- inject_Z_abs || rewrite A1.
      rewrite <- Zabs_Qabs || idtac.
      change 1%Q with (inject_Z 1). unfold Qminus. rewrite <- inject_Z_opp, <- inject_Z_plus. 
      apply Qabs_Qle_condition. rewrite <- inject_Z_opp. rewrite <- !Zle_Qle. lia. }
    set (y' := rd pyA y). set (x' := rd pyA (y' / 2)).
    assert (Hy0 : (0 <= y)%Q) by lra.
    destruct (rd_rel pyA _ _ HP y Hy0) as [Y1 Y2]. fold y' in Y1, Y2.
    assert (Hy0' : (0 <= y' / 2)%Q).
    { pose proof (rd_nonneg pyA _ _ HP y Hy0) as K. fold y' in K. apply Qdiv_bounds_l; lra. }
    destruct (rd_rel pyA _ _ HP (y' / 2) Hy0') as [X1 X2]. fold x' in X1, X2.
    assert (Ey : (y' / 2 == y' * (1 # 2))%Q) by reflexivity. rewrite Ey in X1, X2.
    pose proof eps28_val as EE. rewrite EE in *.
    assert (HS : (inject_Z S <= inject_Z (10 ^ 13))%Q) by (apply inj_le; lia). change (inject_Z (10 ^ 13)) with (10000000000000 # 1)%Q in HS.
    assert (XX : (Qabs (x' - x) <= (3 # 2000000000000000000000000000) * x)%Q) by (apply Qabs_Qle_condition; lra).
    assert (XN : (Qabs (x' - x) * (2 * inject_Z n) <= 1 # 10)%Q).
    { apply Qle_trans with ((3 # 2000000000000000000000000000) * x * (2 * inject_Z n))%Q.
      - apply Qmult_le_compat_r; [exact XX|lra].
      - rewrite <- Qmult_assoc, EX. lra. }
    pose proof (Qabs_tri (inject_Z h - x) (x - x')) as TR.
    assert (E3 : (inject_Z h - x + (x - x') == inject_Z h - x')%Q) by ring. rewrite E3 in TR.
    assert (E4 : (Qabs (x - x') == Qabs (x' - x))%Q).
    { rewrite <- Qabs_opp. apply Qabs_wd. ring. }
    rewrite E4 in TR. set (a := Qabs (inject_Z h - x')) in *. set (b := Qabs (inject_Z h - x)) in *. set (c := Qabs (x' - x)) in *.
    assert (HF : (a * (2 * inject_Z n) < (1 # 2) * (2 * inject_Z n))%Q) by nra.
    apply Qmult_lt_r in HF; [exact HF|lra].
Qed.

(** ** C38: the default window *)

Theorem default_window A eps M rnd f mh mr sh sr : prec A eps M -> Spec.positive mh -> Spec.positive mr -> mh <> [] -> mr <> [] ->
  wencodes f mh sh -> wencodes f mr sr -> zsum mr <= M ->
  let k := Z.max 2 (rnd (rd A (rd A (inject_Z (zsum mr) / inject_Z (zlen mr)) / 2))) in forall om rp,
  pk A rnd f None om rp sh sr = pk A rnd f (Some k) om rp sh sr /\
  forall lam, window_diff A rnd f None lam om rp sh sr = window_diff A rnd f (Some k) lam om rp sh sr.
Proof.
  intros HP Hh Hr Nh Nr Eh Er HM k om rp. destruct (to_positions2_ok f mh mr sh sr) as (h & r & Ch & Cr & _ & _ & H2); try assumption.
  unfold pk, window_diff. rewrite H2. destruct (zsum mh =? zsum mr); cbn [bind]; [|auto].
  assert (W : effective_window A rnd None r = Ok k); [|rewrite W; auto].
  apply (window_size_position A eps M rnd mr (Ints r)); try assumption. apply canonical_encodes; assumption.
Qed.
