(** Keywords of the window size and of the agreement functions, a second dataset by
    keyword, and the flag of WindowDiff. *)
From Verif Require Import Keywords SpecDispatch SpecKeywords DictProofs DispatchMain KeywordsProofs KeywordsMain FormatProofs WindowMain.
Open Scope string_scope.
Open Scope Z_scope.

(** * A second dataset *)
Lemma second_dataset A E lord fn kws d b : dict_ok kws -> only ("dataset_b" :: takes fn) kws -> dget kws "dataset_b" = Some (KArg (AData b)) ->
  ds_items d <> [] -> ds_items b <> [] ->
  call_metric A E lord fn [AData d] kws =
  call_metric A E lord fn [AData d; AData (read_as b (ds_format d))] (ddel kws "dataset_b").
Proof.
  intros H0 H1 HB Hd Hb. rewrite (dataset_b_settings A E lord fn kws d b) by assumption.
  assert (H0' := ddel_ok kws "dataset_b" H0).
  assert (H1' : only (takes fn) (ddel kws "dataset_b")).
  { intros k K. assert (K' := ddel_keys _ _ _ K). apply H1 in K'. apply elem_of_cons in K' as [->|K']; [|exact K']. exfalso.
    apply dget_is_Some in K as [v K]. rewrite dget_ddel in K by assumption. cbn in K. discriminate. }
  unfold call_metric. cbn [parse_kw bind fst snd ktrue fix_kval fix_int].
  assert (truthy (AData d) = true) as -> by (apply truthy_nothing; exact Hd).
  assert (truthy (AData (read_as b (ds_format d))) = true) as -> by (apply truthy_nothing; exact Hb). cbn [andb].
  cbn [read_as ds_format]. destruct (decide (ds_format d = ds_format d)); [|contradiction].
  fold (full A fn (ddel kws "dataset_b")). rewrite pairwise_settings by assumption. cbn [fmap option_fmap option_map read_as ds_items].
  unfold on, setting. rewrite dget_ddel by assumption. reflexivity.
Qed.

(** * WindowDiff's flag *)
Lemma to_positions2_len f sh sr h r : to_positions2 f sh sr = Ok (h, r) -> length h = length r.
Proof.
  unfold to_positions2. destruct (to_positions f sr) as [r'|]; cbn [bind]; [|discriminate]. destruct (to_positions f sh) as [h'|]; cbn [bind]; [|discriminate].
  destruct (zlen r' =? zlen h') eqn:Q; cbn [negb]; [|discriminate]. intros K. injection K as <- <-. unfold zlen in Q. lia.
Qed.

Lemma flag_never A rnd f ws l om rp h r v : ktrue l = false -> l <> KBool false -> window_diff_flag A rnd f ws l om rp h r <> Ok v.
Proof.
  intros H1 H2. unfold window_diff_flag. destruct (to_positions2 f h r) as [[h' r']|] eqn:HP; cbn [bind]; [|discriminate].
  apply to_positions2_len in HP. destruct (effective_window _ _ _ _) as [k|]; cbn [bind]; [|discriminate].
  assert (is_false l = false) as ->. { destruct l as [|[]| | | | | |]; try reflexivity. contradiction. }
  rewrite H1. cbn [negb]. destruct (_ && negb _); [discriminate|]. unfold wd_positions_flag. destruct (foldM _ _ _) as [sd|]; cbn [bind]; [|discriminate].
  destruct (ndiv _ _ _) as [w|]; cbn [bind]; [|discriminate].
  rewrite runs_sum. rewrite orb_false_r.
  assert (zlen r' - k =? zlen (paired_units h' r' k true) - k = false) as ->; [|discriminate].
  apply Z.eqb_neq. intros Q. assert (Q' : zlen r' = zlen (paired_units h' r' k true)) by lia. clear Q.
  unfold paired_units, zlen in Q'. rewrite zip_with_length, !app_length, !replicate_length in Q'.
  destruct (k <=? 0) eqn:Hk; lia.
Qed.

(** * The window size *)
Section Window.
Context (A : arith).

Lemma window_size_settings ref kws f rnd : dict_ok kws -> only (takes Pk) kws -> format_of kws f ->
  setting kws "fnc_round" (KRound default_round) = KRound rnd ->
  compute_window_size_kw A ref kws = compute_window_size A rnd f ref.
Proof.
  intros H0 H1 HF HR. unfold compute_window_size_kw.
  assert (dmem kws "reference" = false) as ->.
  { apply dmem_false. intros K. apply H1 in K. revert K. cbn [takes]. rewrite !elem_of_cons, elem_of_nil. clear. naive_solver. }
  change window_defaults with (fn_defaults A Pk). fold (full A Pk kws).
  assert (K0 := full_ok A Pk kws). assert (T : forall k, k ∈ takes Pk -> is_Some (dget (full A Pk kws) k)) by (intros; apply full_is_Some; auto).
  assert (K1 := ddel_ok _ "one_minus" K0). assert (K2 := ddel_ok _ "permuted" K1). assert (K3 := ddel_ok _ "window_size" K2).
  assert (K4 := ddel_ok _ "return_parts" K3). cbn [takes] in T.
  rewrite kdel_ok by (apply T; set_solver). cbn [bind].
  rewrite kdel_ok by (rewrite dget_ddel by assumption; apply T; set_solver). cbn [bind].
  rewrite kdel_ok by (rewrite !dget_ddel by assumption; apply T; set_solver). cbn [bind].
  rewrite kdel_ok by (rewrite !dget_ddel by assumption; apply T; set_solver). cbn [bind].
  rewrite bind_call_ok.
  2: { intros k. rewrite !dget_ddel by assumption.
       destruct (decide (k = "return_parts")) as [->|]; [split; [intros [? ?]; discriminate|rewrite !elem_of_cons, elem_of_nil; clear; naive_solver]|].
       destruct (decide (k = "window_size")) as [->|]; [split; [intros [? ?]; discriminate|rewrite !elem_of_cons, elem_of_nil; clear; naive_solver]|].
       destruct (decide (k = "permuted")) as [->|]; [split; [intros [? ?]; discriminate|rewrite !elem_of_cons, elem_of_nil; clear; naive_solver]|].
       destruct (decide (k = "one_minus")) as [->|]; [split; [intros [? ?]; discriminate|rewrite !elem_of_cons, elem_of_nil; clear; naive_solver]|].
       rewrite full_is_Some. specialize (H1 k). cbn [takes] in *. rewrite !elem_of_cons, elem_of_nil in *. clear - H1 n n0 n1 n2. naive_solver. }
  cbn [bind]. unfold dlookup. rewrite !dget_ddel by assumption.
  assert (R : dget (full A Pk kws) "fnc_round" = Some (KRound rnd)). { rewrite <- HR. apply full_setting; [assumption|reflexivity]. }
  assert (F := format_setting A Pk kws f H0 HF). cbn in R, F |- *. rewrite R. cbn [bind as_round]. rewrite F. reflexivity.
Qed.

Lemma window_size_refused ref kws k : dict_ok kws -> k ∈ kws.*1 -> k ∉ takes Pk -> compute_window_size_kw A ref kws = Err TypeError.
Proof.
  intros H0 HK HN. unfold compute_window_size_kw. destruct (dmem kws "reference"); [reflexivity|].
  change window_defaults with (fn_defaults A Pk). fold (full A Pk kws).
  assert (K0 := full_ok A Pk kws). assert (T : forall k, k ∈ takes Pk -> is_Some (dget (full A Pk kws) k)) by (intros; apply full_is_Some; auto).
  assert (K1 := ddel_ok _ "one_minus" K0). assert (K2 := ddel_ok _ "permuted" K1). assert (K3 := ddel_ok _ "window_size" K2).
  assert (K4 := ddel_ok _ "return_parts" K3). cbn [takes] in T.
  rewrite kdel_ok by (apply T; set_solver). cbn [bind].
  rewrite kdel_ok by (rewrite dget_ddel by assumption; apply T; set_solver). cbn [bind].
  rewrite kdel_ok by (rewrite !dget_ddel by assumption; apply T; set_solver). cbn [bind].
  rewrite kdel_ok by (rewrite !dget_ddel by assumption; apply T; set_solver). cbn [bind].
  cbn [takes] in HN. rewrite !elem_of_cons, elem_of_nil in HN.
  rewrite (bind_call_bad _ _ k); [reflexivity| |rewrite !elem_of_cons, elem_of_nil; clear - HN; naive_solver].
  rewrite !dget_ddel by assumption. repeat (destruct (decide _) as [->|]; [exfalso; clear - HN; naive_solver|]).
  apply full_is_Some. auto.
Qed.
End Window.

(** * Agreement *)
Section Agree.
Context (A : arith) (E : env) (lord cord : gset string -> list string).

(** The defaults and what was given. *)
Definition agreed (c : container) (kws : dict kval) : dict kval :=
  let mk := dupdate (agreement_defaults A) kws in
  match c with
  | CDataset d => dset (dset mk "boundary_types" KOther) "boundary_format" (KFmt (ds_format d))
  | CDict _ => mk
  end.

Definition agreed_inner (c : container) (kws : dict kval) : dict kval :=
  dset (ddel (agreed c kws) "fnc_compare") "return_parts" (KBool true).

Lemma agreement_keys : (agreement_defaults A).*1 = agreement_takes.
Proof. reflexivity. Qed.
Lemma agreement_defaults_ok : dict_ok (agreement_defaults A).
Proof. unfold dict_ok. rewrite agreement_keys. apply (bool_decide_unpack _). vm_compute. exact I. Qed.

Lemma agreed_ok c kws : dict_ok (agreed c kws).
Proof. unfold agreed. destruct c; [apply dset_ok, dset_ok|]; apply dupdate_ok, agreement_defaults_ok. Qed.

Lemma agreed_inner_ok c kws : dict_ok (agreed_inner c kws).
Proof. apply dset_ok, ddel_ok, agreed_ok. Qed.

Lemma agreed_get c kws k v : dict_ok kws -> dget (agreement_defaults A) k = Some v -> k <> "boundary_types" -> k <> "boundary_format" ->
  dget (agreed c kws) k = Some (setting kws k v).
Proof.
  intros H0 K N1 N2. unfold agreed. assert (dget (dupdate (agreement_defaults A) kws) k = Some (setting kws k v)) as Q.
  { rewrite dget_update by assumption. unfold setting. rewrite K. destruct (dget kws k); reflexivity. }
  destruct c; [|exact Q]. rewrite !dget_dset. destruct (decide _); [contradiction|]. destruct (decide _); [contradiction|]. exact Q.
Qed.

Lemma agreed_format c kws f : dict_ok kws -> (forall i, c = CDict i -> format_of kws f) ->
  dget (agreed c kws) "boundary_format" = Some (KFmt (c_format c f)).
Proof.
  intros H0 HF. unfold agreed. destruct c as [d|i]; cbn [c_format].
  - rewrite dget_dset. reflexivity.
  - specialize (HF i eq_refl). unfold format_of in HF. rewrite <- HF. rewrite dget_update by assumption. unfold setting.
    destruct (dget kws "boundary_format"); reflexivity.
Qed.

Lemma agreed_keys c kws k : is_Some (dget (agreed c kws) k) <-> k ∈ agreement_takes \/ k ∈ kws.*1.
Proof.
  rewrite dget_is_Some. assert (Q : k ∈ (dupdate (agreement_defaults A) kws).*1 <-> k ∈ agreement_takes \/ k ∈ kws.*1).
  { rewrite dupdate_elem, agreement_keys. reflexivity. }
  unfold agreed. destruct c; [|exact Q]. rewrite !dset_elem, Q. unfold agreement_takes. set_solver.
Qed.

Lemma inner_agree_get c kws k : dget (agreed_inner c kws) k =
  if decide (k = "return_parts") then Some (KBool true) else if decide (k = "fnc_compare") then None else dget (agreed c kws) k.
Proof. unfold agreed_inner. rewrite dget_dset. rewrite dget_ddel by apply agreed_ok. reflexivity. Qed.

Lemma inner_agree_keys c kws k : k <> "fnc_compare" -> k ∈ agreement_takes \/ k ∈ kws.*1 -> k ∈ (agreed_inner c kws).*1.
Proof.
  intros N H. apply dget_is_Some. rewrite inner_agree_get. destruct (decide _); [eauto|]. destruct (decide _); [contradiction|]. apply agreed_keys, H.
Qed.

Lemma inner_agree_only c kws : only agreement_takes kws -> only (takes BoundarySim) (agreed_inner c kws).
Proof.
  intros H k K. apply dget_is_Some in K. rewrite inner_agree_get in K. destruct (decide (k = "return_parts")) as [->|]; [cbn [takes]; set_solver|].
  destruct (decide (k = "fnc_compare")); [destruct K; discriminate|]. apply agreed_keys in K.
  assert (k ∈ agreement_takes) as K' by (destruct K; auto). unfold agreement_takes in K'. cbn [takes]. set_solver.
Qed.

(** The comparison that is used. *)
Lemma compare_is c kws f W n_t a b fn : fn = BoundarySim \/ fn = SegmentationSim -> dict_ok kws -> only agreement_takes kws ->
  (forall i, c = CDict i -> format_of kws f) -> edits_of A kws W n_t ->
  kw_compare A E lord (KMetric fn) (agreed_inner c kws) a b =
  (match fn with BoundarySim => compare_B | _ => compare_S end) A E W n_t (on kws "one_minus" false) (c_format c f) a b.
Proof.
  intros Hfn H0 H1 HF [HW Ht].
  assert (K1 : only (takes fn) (agreed_inner c kws)).
  { assert (Q := inner_agree_only c kws H1). destruct Hfn as [->| ->]; exact Q. }
  assert (K2 : format_of (agreed_inner c kws) (c_format c f)).
  { unfold format_of, setting. rewrite inner_agree_get. cbn. rewrite (agreed_format c kws f) by assumption. reflexivity. }
  assert (K3 : edits_of A (agreed_inner c kws) W n_t).
  { unfold edits_of. rewrite <- HW, <- Ht. unfold setting at 1 3. rewrite !inner_agree_get. cbn [decide]. split.
    - destruct (decide _); [discriminate|]. destruct (decide _); [discriminate|]. rewrite (agreed_get c kws "weight" (KWeights (default_weights A))); [reflexivity|assumption|reflexivity|discriminate..].
    - destruct (decide _); [discriminate|]. destruct (decide _); [discriminate|]. rewrite (agreed_get c kws "n_t" (KArg (AInt 2))); [reflexivity|assumption|reflexivity|discriminate..]. }
  assert (K4 : on (agreed_inner c kws) "one_minus" false = on kws "one_minus" false).
  { unfold on. f_equal. unfold setting at 1. rewrite inner_agree_get. cbn. rewrite (agreed_get c kws "one_minus" (KBool false)); [reflexivity|assumption|reflexivity|discriminate..]. }
  assert (K5 : on (agreed_inner c kws) "return_parts" false = true).
  { unfold on, setting. rewrite inner_agree_get. reflexivity. }
  unfold kw_compare. destruct Hfn as [->| ->].
  - rewrite (B_settings A E lord _ _ (c_format c f) W n_t) by (try apply agreed_inner_ok; assumption). rewrite K4, K5.
    unfold fnc_metric, compare_B, compare_of. cbn [parse_call bind fst snd option_map fix_int stray truthy].
    destruct (negb (seg_len a =? 0) && negb (seg_len b =? 0)); [|reflexivity].
    destruct (boundary_similarity _ _ _ _ _ _ _ _ _) as [[v|n d e]|]; reflexivity.
  - rewrite (S_settings A E lord _ _ (c_format c f) W n_t) by (try apply agreed_inner_ok; assumption). rewrite K4, K5.
    unfold fnc_metric, compare_S, compare_of. cbn [parse_call bind fst snd option_map fix_int stray truthy].
    destruct (negb (seg_len a =? 0) && negb (seg_len b =? 0)); [|reflexivity].
    destruct (segmentation_similarity _ _ _ _ _ _ _ _ _) as [[v|n d]|]; reflexivity.
Qed.

(** Comparisons that agree. *)
Lemma parts_same (cmp cmp' : Agreement.compare) f coders items : (forall a b, cmp f a b = cmp' f a b) ->
  agreement_parts cmp f coders items = agreement_parts cmp' f coders items.
Proof.
  intros H. unfold agreement_parts. apply foldM_same. intros s [m n]. unfold agree_pair. apply foldM_same. intros s' ic. unfold agree_item.
  destruct (dlookup (snd ic) _); cbn [bind]; [|reflexivity]. destruct (dlookup (snd ic) _); cbn [bind]; [|reflexivity]. rewrite H. reflexivity.
Qed.

Lemma actual_same (cmp cmp' : Agreement.compare) f coders items : (forall a b, cmp f a b = cmp' f a b) ->
  actual_agreement A cmp f coders items = actual_agreement A cmp' f coders items /\
  pi_full A cmp f coders items = pi_full A cmp' f coders items /\
  kappa_full A cmp f coders items = kappa_full A cmp' f coders items /\
  bias_full A cmp f coders items = bias_full A cmp' f coders items.
Proof.
  intros H. assert (P := parts_same cmp cmp' f coders items H).
  assert (K1 : pi_full A cmp f coders items = pi_full A cmp' f coders items) by (unfold pi_full; rewrite P; reflexivity).
  assert (K2 : kappa_full A cmp f coders items = kappa_full A cmp' f coders items) by (unfold kappa_full; rewrite P; reflexivity).
  split; [unfold actual_agreement; rewrite P; reflexivity|]. split; [exact K1|]. split; [exact K2|]. unfold bias_full. rewrite K1, K2. reflexivity.
Qed.

Lemma agree_unfold fn c kws cmpv f : dict_ok kws -> only agreement_takes kws -> (forall i, c = CDict i -> format_of kws f) ->
  setting kws "fnc_compare" (KMetric BoundarySim) = cmpv ->
  agree_kw A E lord cord fn c kws =
    let cmp : Agreement.compare := fun _ => kw_compare A E lord cmpv (agreed_inner c kws) in
    let rp := on kws "return_parts" false in
    let coders := cord (c_coders c) in
    let three r := let* (va, e) := r in Ok (if rp : bool then AParts (snd va) e else AVal (fst va)) in
    match fn with
    | Actual =>
      if rp then rmap ALists (agreement_parts cmp (c_format c f) coders (c_items c))
      else rmap AVal (actual_agreement A cmp (c_format c f) coders (c_items c))
    | FleissPi => three (pi_full A cmp (c_format c f) coders (c_items c))
    | FleissKappa => three (kappa_full A cmp (c_format c f) coders (c_items c))
    | Bias => three (bias_full A cmp (c_format c f) coders (c_items c))
    end.
Proof.
  intros H0 H1 HF HC. unfold agree_kw.
  assert (dmem kws "dataset" = false) as ->.
  { apply dmem_false. intros K. apply H1 in K. revert K. unfold agreement_takes. rewrite !elem_of_cons, elem_of_nil. clear. naive_solver. }
  assert (dmem kws "fnc_metric" = false) as ->.
  { apply dmem_false. intros K. apply H1 in K. revert K. unfold agreement_takes. rewrite !elem_of_cons, elem_of_nil. clear. naive_solver. }
  cbn [orb]. fold (agreed c kws).
  assert (dlookup (agreed c kws) "fnc_compare" = Ok cmpv) as ->.
  { apply dlookup_is. rewrite <- HC. apply agreed_get; [assumption|reflexivity|discriminate..]. }
  assert (dlookup (agreed c kws) "return_parts" = Ok (setting kws "return_parts" (KBool false))) as ->.
  { apply dlookup_is. apply agreed_get; [assumption|reflexivity|discriminate..]. }
  assert (dlookup (agreed c kws) "boundary_format" = Ok (KFmt (c_format c f))) as ->.
  { apply dlookup_is, agreed_format; assumption. }
  cbn [bind as_fmt]. reflexivity.
Qed.

Lemma agree_settings c kws f W n_t fn : fn = BoundarySim \/ fn = SegmentationSim -> dict_ok kws -> only agreement_takes kws ->
  (forall i, c = CDict i -> format_of kws f) -> edits_of A kws W n_t ->
  setting kws "fnc_compare" (KMetric BoundarySim) = KMetric fn ->
  let cmp := (match fn with BoundarySim => compare_B | _ => compare_S end) A E W n_t (on kws "one_minus" false) in
  let rp := on kws "return_parts" false in
  agree_kw A E lord cord Actual c kws =
    (if rp then rmap ALists (agreement_parts cmp (c_format c f) (cord (c_coders c)) (c_items c))
     else rmap AVal (actual_agreement_linear A cmp f cord c)) /\
  agree_kw A E lord cord FleissPi c kws = rmap as_aval (fleiss_pi_linear A cmp f cord rp c) /\
  agree_kw A E lord cord FleissKappa c kws = rmap as_aval (fleiss_kappa_linear A cmp f cord rp c) /\
  agree_kw A E lord cord Bias c kws = rmap as_aval (artstein_poesio_bias_linear A cmp f cord rp c).
Proof.
  intros Hfn H0 H1 HF HW HC. cbv zeta.
  set (cmp := (match fn with BoundarySim => compare_B | _ => compare_S end) A E W n_t (on kws "one_minus" false)).
  assert (S : forall a b, (fun _ => kw_compare A E lord (KMetric fn) (agreed_inner c kws) : seg -> seg -> res (num * num)) (c_format c f) a b = cmp (c_format c f) a b).
  { intros a b. unfold cmp. rewrite (compare_is c kws f W n_t a b fn) by assumption. destruct Hfn as [->| ->]; reflexivity. }
  destruct (actual_same (fun _ => kw_compare A E lord (KMetric fn) (agreed_inner c kws)) cmp (c_format c f) (cord (c_coders c)) (c_items c) S) as (S1 & S2 & S3 & S4).
  assert (S0 := parts_same (fun _ => kw_compare A E lord (KMetric fn) (agreed_inner c kws)) cmp (c_format c f) (cord (c_coders c)) (c_items c) S).
  rewrite !(agree_unfold _ c kws (KMetric fn) f) by assumption. cbv zeta. rewrite S0, S1, S2, S3, S4. clear S0 S1 S2 S3 S4.
  unfold actual_agreement_linear, fleiss_pi_linear, fleiss_kappa_linear, artstein_poesio_bias_linear, three.
  split; [reflexivity|]. repeat split.
  - destruct (pi_full _ _ _ _ _) as [[[? ?] ?]|]; [|reflexivity]. cbn. destruct (on kws "return_parts" false); reflexivity.
  - destruct (kappa_full _ _ _ _ _) as [[[? ?] ?]|]; [|reflexivity]. cbn. destruct (on kws "return_parts" false); reflexivity.
  - destruct (bias_full _ _ _ _ _) as [[[? ?] ?]|]; [|reflexivity]. cbn. destruct (on kws "return_parts" false); reflexivity.
Qed.

(** Comparisons that are never made. *)
Lemma parts_never (cmp : Agreement.compare) f coders items a : (forall x y p, cmp f x y <> Ok p) ->
  agreement_parts cmp f coders items = Ok a -> a = Acc [] [] [] [].
Proof.
  intros H. unfold agreement_parts. generalize (Acc [] [] [] []). induction (pairs2 coders) as [|[m n] P IH]; intros s; cbn [foldM]; [congruence|].
  destruct (agree_pair cmp f items s (m, n)) as [s'|] eqn:Q; cbn [bind]; [|discriminate].
  intros K. assert (s' = s) as ->; [|apply IH; exact K]. clear K IH. revert Q. unfold agree_pair.
  destruct items as [|ic items]; cbn [foldM]; [congruence|].
  destruct (agree_item cmp f _ _ s ic) as [t|] eqn:Q; cbn [bind]; [|discriminate]. exfalso. revert Q. unfold agree_item.
  destruct (dlookup (snd ic) _) as [x|]; cbn [bind]; [|discriminate]. destruct (dlookup (snd ic) _) as [y|]; cbn [bind]; [|discriminate].
  destruct (cmp f x y) eqn:Q; cbn [bind]; [|discriminate]. exfalso. exact (H _ _ _ Q).
Qed.

Lemma agree_never fn c kws v : dict_ok kws ->
  (forall x y p, kw_compare A E lord (setting kws "fnc_compare" (KMetric BoundarySim)) (agreed_inner c kws) x y <> Ok p) ->
  agree_kw A E lord cord fn c kws = Ok v -> fn = Actual /\ v = ALists (Acc [] [] [] []).
Proof.
  intros H0 HC. unfold agree_kw. destruct (_ || _); [discriminate|]. fold (agreed c kws).
  assert (dlookup (agreed c kws) "fnc_compare" = Ok (setting kws "fnc_compare" (KMetric BoundarySim))) as ->.
  { apply dlookup_is. apply agreed_get; [assumption|reflexivity|discriminate..]. }
  cbn [bind]. destruct (dlookup (agreed c kws) "return_parts") as [rp|]; cbn [bind]; [|discriminate].
  destruct (dlookup (agreed c kws) "boundary_format") as [f|]; cbn [bind]; [|discriminate]. fold (agreed_inner c kws).
  set (cmp := fun _ : fmt => kw_compare A E lord (setting kws "fnc_compare" (KMetric BoundarySim)) (agreed_inner c kws)).
  assert (P := parts_never cmp (as_fmt f) (cord (c_coders c)) (c_items c)).
  assert (PI : forall r, pi_full A cmp (as_fmt f) (cord (c_coders c)) (c_items c) <> Ok r).
  { intros r. unfold pi_full. destruct (negb _); [discriminate|]. destruct (agreement_parts _ _ _ _) as [a|] eqn:Q; cbn [bind]; [|discriminate].
    rewrite (P a); [|exact HC|reflexivity]. discriminate. }
  assert (KA : forall r, kappa_full A cmp (as_fmt f) (cord (c_coders c)) (c_items c) <> Ok r).
  { intros r. unfold kappa_full. destruct (existsb _ _); [discriminate|]. destruct (negb _); [discriminate|].
    destruct (agreement_parts _ _ _ _) as [a|] eqn:Q; cbn [bind]; [|discriminate]. rewrite (P a); [|exact HC|reflexivity]. discriminate. }
  destruct fn.
  - destruct (ktrue rp).
    + destruct (agreement_parts _ _ _ _) as [a|]; cbn [rmap bind]; [|discriminate]. intros K. injection K as <-. rewrite (P a HC eq_refl). auto.
    + unfold actual_agreement. destruct (agreement_parts _ _ _ _) as [a|]; cbn [rmap bind]; [|discriminate]. rewrite (P a HC eq_refl). discriminate.
  - destruct (pi_full _ _ _ _ _) as [r|] eqn:Q; cbn [bind]; [|discriminate]. exfalso. exact (PI r eq_refl).
  - destruct (kappa_full _ _ _ _ _) as [r|] eqn:Q; cbn [bind]; [|discriminate]. exfalso. exact (KA r eq_refl).
  - unfold bias_full. destruct (pi_full _ _ _ _ _) as [r|] eqn:Q; cbn [bind]; [|discriminate]. exfalso. exact (PI r eq_refl).
Qed.

Lemma call_never m kws k a b v : dict_ok kws -> k ∈ kws.*1 -> k ∉ takes m -> call_metric A E lord m [ASeg a; ASeg b] kws <> Ok v.
Proof.
  intros H0 HK HN. destruct (decide (seg_len a = 0)) as [La|La].
  { unfold call_metric. cbn [parse_kw bind fst snd ktrue fix_kval fix_int truthy]. rewrite La. discriminate. }
  destruct (decide (seg_len b = 0)) as [Lb|Lb].
  { unfold call_metric. cbn [parse_kw bind fst snd ktrue fix_kval fix_int truthy]. rewrite Lb. rewrite andb_comm. discriminate. }
  rewrite (pair_refused A E lord m kws k); [discriminate|assumption..|exists a; split; [reflexivity|assumption]|exists b; split; [reflexivity|assumption]].
Qed.

Lemma compare_never c kws : dict_ok kws ->
  (exists k, k ∈ kws.*1 /\ k ∉ agreement_takes) \/
  (forall m, setting kws "fnc_compare" (KMetric BoundarySim) = KMetric m -> m <> BoundarySim /\ m <> SegmentationSim) ->
  forall x y p, kw_compare A E lord (setting kws "fnc_compare" (KMetric BoundarySim)) (agreed_inner c kws) x y <> Ok p.
Proof.
  intros H0 H x y p. unfold kw_compare. destruct (setting kws "fnc_compare" (KMetric BoundarySim)) as [| | | | | |m|] eqn:HS; try discriminate.
  assert (OK := agreed_inner_ok c kws).
  assert (N : (exists k, k ∈ (agreed_inner c kws).*1 /\ k ∉ takes m) \/ m = ConfusionMatrix).
  { assert (K : forall k, k ∈ agreement_takes -> k <> "fnc_compare" -> k ∉ takes m -> exists k, k ∈ (agreed_inner c kws).*1 /\ k ∉ takes m).
    { intros k K1 K2 K3. exists k. split; [|exact K3]. apply inner_agree_keys; auto. }
    destruct m.
    - left. apply (K "n_t"); [unfold agreement_takes; set_solver|discriminate|]. cbn [takes]. rewrite !elem_of_cons, elem_of_nil. clear. naive_solver.
    - left. apply (K "n_t"); [unfold agreement_takes; set_solver|discriminate|]. cbn [takes]. rewrite !elem_of_cons, elem_of_nil. clear. naive_solver.
    - destruct H as [(k & K1 & K2)|H]; [|destruct (H _ eq_refl); contradiction]. left. exists k. split.
      + apply inner_agree_keys; [|auto]. intros ->. apply K2. unfold agreement_takes. set_solver.
      + intros L. apply K2. cbn [takes] in L. unfold agreement_takes. set_solver.
    - destruct H as [(k & K1 & K2)|H]; [|destruct (H _ eq_refl); contradiction]. left. exists k. split.
      + apply inner_agree_keys; [|auto]. intros ->. apply K2. unfold agreement_takes. set_solver.
      + intros L. apply K2. cbn [takes] in L. unfold agreement_takes. set_solver.
    - auto.
    - left. apply (K "one_minus"); [unfold agreement_takes; set_solver|discriminate|]. cbn [takes]. rewrite !elem_of_cons, elem_of_nil. clear. naive_solver. }
  destruct N as [(k & K1 & K2)| ->].
  - destruct (call_metric _ _ _ _ _ _) as [v|] eqn:Q; cbn [bind]; [|discriminate]. exfalso. exact (call_never m _ k x y v OK K1 K2 Q).
  - unfold call_metric. cbn [parse_kw bind fst snd ktrue fix_kval fix_int]. destruct (_ && _); [|discriminate].
    destruct (kdel _ _) as [mk|]; cbn [bind]; [|discriminate]. unfold call_fn. destruct (trimmed mk) as [t|]; cbn [rmap bind]; [|discriminate].
    destruct (stats_settings t) as [[[W f] n]|]; cbn [rmap bind]; [|discriminate]. destruct (boundary_confusion_matrix _ _ _ _ _ _ _); cbn [rmap bind]; discriminate.
Qed.

Lemma agree_refused fn c kws v : dict_ok kws ->
  (exists k, k ∈ kws.*1 /\ k ∉ agreement_takes) \/
  (forall m, setting kws "fnc_compare" (KMetric BoundarySim) = KMetric m -> m <> BoundarySim /\ m <> SegmentationSim) ->
  agree_kw A E lord cord fn c kws = Ok v -> fn = Actual /\ v = ALists (Acc [] [] [] []).
Proof. intros H0 H. apply agree_never; [exact H0|]. apply compare_never; assumption. Qed.
End Agree.

Lemma flag_never_call A E lord kws f ws rnd l a b v : dict_ok kws -> only (takes WindowDiff) kws -> format_of kws f -> window_of kws ws rnd ->
  dget kws "lamprier_et_al_2007_fix" = Some l -> ktrue l = false -> l <> KBool false ->
  call_metric A E lord WindowDiff [ASeg a; ASeg b] kws <> Ok v.
Proof.
  intros H0 H1 HF HW HL T N. rewrite (wd_settings A E lord _ kws f ws rnd) by assumption. unfold setting. rewrite HL. cbn [default from_option id].
  unfold fnc_metric. cbn [parse_call bind fst snd option_map fix_int stray]. destruct (_ && _); [|discriminate].
  destruct (window_diff_flag _ _ _ _ _ _ _ _ _) eqn:Q; cbn [rmap bind]; [|discriminate]. exfalso. exact (flag_never _ _ _ _ _ _ _ _ _ _ T N Q).
Qed.
