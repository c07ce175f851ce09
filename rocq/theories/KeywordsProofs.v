(** Proofs about keyword arguments. *)
From Verif Require Import Keywords SpecDispatch SpecKeywords DictProofs DispatchMain.
Open Scope string_scope.
Open Scope Z_scope.

Lemma ddel_keys {V} (d : dict V) k k' : k' ∈ (ddel d k).*1 -> k' ∈ d.*1.
Proof.
  induction d as [|[x v] d IH]; cbn [ddel]; [auto|]. destruct (decide (k = x)); cbn [fmap list_fmap fst]; rewrite !elem_of_cons; tauto.
Qed.

Lemma dget_ddel {V} (d : dict V) k k' : dict_ok d -> dget (ddel d k) k' = if decide (k' = k) then None else dget d k'.
Proof.
  unfold dict_ok. induction d as [|[x v] d IH]; cbn [ddel dget fmap list_fmap fst].
  - intros _. destruct (decide _); reflexivity.
  - rewrite NoDup_cons. intros [H1 H2]. destruct (decide (k = x)) as [->|Hx].
    + destruct (decide (k' = x)) as [->|]; [|reflexivity]. apply dget_None. exact H1.
    + cbn [dget]. rewrite IH by assumption. destruct (decide (k' = k)) as [->|]; [|reflexivity].
      destruct (decide (k = x)); [congruence|reflexivity].
Qed.

Lemma ddel_ok {V} (d : dict V) k : dict_ok d -> dict_ok (ddel d k).
Proof.
  unfold dict_ok. induction d as [|[x v] d IH]; cbn [ddel fmap list_fmap fst]; [auto|].
  rewrite NoDup_cons. intros [H1 H2]. destruct (decide (k = x)); [exact H2|]. cbn [fmap list_fmap fst].
  apply NoDup_cons. split; [|apply IH, H2]. intros K. apply H1. eapply ddel_keys, K.
Qed.

Lemma dget_update {V} (d e : dict V) k : dict_ok e ->
  dget (dupdate d e) k = match dget e k with Some v => Some v | None => dget d k end.
Proof.
  intros H. rewrite dget_dupdate. rewrite (dget_perm (reverse e) e); [reflexivity|apply reverse_Permutation|].
  eapply dict_ok_perm; [|exact H]. symmetry. apply reverse_Permutation.
Qed.

Lemma dmem_get {V} (d : dict V) k : dmem d k = true <-> is_Some (dget d k).
Proof. unfold dmem. destruct (dget d k); split; intros H; eauto; try discriminate. destruct H; discriminate. Qed.

Lemma bind_call_ok params kws : (forall k, is_Some (dget kws k) <-> k ∈ params) -> bind_call params kws = Ok tt.
Proof.
  intros H. unfold bind_call.
  assert (forallb (fun k => bool_decide (k ∈ params)) kws.*1 = true) as ->.
  { apply forallb_forall. intros k Hk. apply bool_decide_eq_true, H, dget_is_Some. apply elem_of_list_In, Hk. }
  assert (forallb (dmem kws) params = true) as ->; [|reflexivity].
  apply forallb_forall. intros k Hk. apply dmem_get, H. apply elem_of_list_In, Hk.
Qed.

Lemma bind_call_bad params kws k : is_Some (dget kws k) -> k ∉ params -> bind_call params kws = Err TypeError.
Proof.
  intros H1 H2. unfold bind_call.
  assert (forallb (fun k => bool_decide (k ∈ params)) kws.*1 = false) as ->; [|reflexivity].
  apply not_true_iff_false. rewrite forallb_forall. intros F. apply H2. apply dget_is_Some in H1.
  apply elem_of_list_In in H1. apply F in H1. apply bool_decide_eq_true in H1. exact H1.
Qed.

Lemma kdel_ok d k : is_Some (dget d k) -> kdel d k = Ok (ddel d k).
Proof. intros H. unfold kdel. apply dmem_get in H. rewrite H. reflexivity. Qed.

Lemma dlookup_is {V} (d : dict V) k v : dget d k = Some v -> dlookup d k = Ok v.
Proof. apply dlookup_Ok. Qed.

(** The metrics with their settings. *)
Section Fn.
Context (A : arith) (E : env).

Lemma call_pk kws w om f rp r a b : (forall k, is_Some (dget kws k) <-> k ∈ pk_params) ->
  dget kws "window_size" = Some w -> dget kws "one_minus" = Some om -> dget kws "boundary_format" = Some f ->
  dget kws "return_parts" = Some rp -> dget kws "fnc_round" = Some r ->
  call_fn A E Pk kws a b =
    let* ws := as_window w in
    let* rnd := as_round ws r in
    rmap VWindow (pk A rnd (as_fmt f) ws (ktrue om) (ktrue rp) a b).
Proof.
  intros HK H1 H2 H3 H4 H5. unfold call_fn. rewrite (bind_call_ok _ _ HK). cbn [bind].
  rewrite (dlookup_is _ _ _ H1), (dlookup_is _ _ _ H2), (dlookup_is _ _ _ H3), (dlookup_is _ _ _ H4), (dlookup_is _ _ _ H5). reflexivity.
Qed.

Lemma call_wd kws w om f rp r l a b : (forall k, is_Some (dget kws k) <-> k ∈ wd_params) ->
  dget kws "window_size" = Some w -> dget kws "one_minus" = Some om -> dget kws "boundary_format" = Some f ->
  dget kws "return_parts" = Some rp -> dget kws "fnc_round" = Some r -> dget kws "lamprier_et_al_2007_fix" = Some l ->
  call_fn A E WindowDiff kws a b =
    let* ws := as_window w in
    let* rnd := as_round ws r in
    rmap VWindow (window_diff_flag A rnd (as_fmt f) ws l (ktrue om) (ktrue rp) a b).
Proof.
  intros HK H1 H2 H3 H4 H5 H6. unfold call_fn. rewrite (bind_call_ok _ _ HK). cbn [bind].
  rewrite (dlookup_is _ _ _ H1), (dlookup_is _ _ _ H2), (dlookup_is _ _ _ H3), (dlookup_is _ _ _ H4), (dlookup_is _ _ _ H5), (dlookup_is _ _ _ H6). reflexivity.
Qed.

Lemma settings_are kws W f t : (forall k, is_Some (dget kws k) <-> k ∈ stats_params) ->
  dget kws "weight" = Some (KWeights W) -> dget kws "boundary_format" = Some f -> dget kws "n_t" = Some (KArg (AInt t)) ->
  stats_settings kws = Ok (W, as_fmt f, t).
Proof.
  intros HK H1 H2 H3. unfold stats_settings. rewrite (bind_call_ok _ _ HK). cbn [bind].
  rewrite (dlookup_is _ _ _ H1), (dlookup_is _ _ _ H2), (dlookup_is _ _ _ H3). reflexivity.
Qed.

Lemma settings_bad kws k : is_Some (dget kws k) -> k ∉ stats_params -> stats_settings kws = Err TypeError.
Proof. intros H1 H2. unfold stats_settings. rewrite (bind_call_bad _ _ _ H1 H2). reflexivity. Qed.

Lemma trimmed_is kws : dict_ok kws -> is_Some (dget kws "return_parts") -> is_Some (dget kws "one_minus") ->
  trimmed kws = Ok (ddel (ddel kws "return_parts") "one_minus").
Proof.
  intros H0 H1 H2. unfold trimmed. rewrite (kdel_ok _ _ H1). cbn [bind]. rewrite kdel_ok; [reflexivity|].
  rewrite dget_ddel by assumption. exact H2.
Qed.

Definition sim_params : list string := ["return_parts"; "one_minus"; "boundary_types"; "boundary_format"; "n_t"; "weight"].

Lemma trimmed_settings kws W f t : dict_ok kws -> (forall k, is_Some (dget kws k) <-> k ∈ sim_params) ->
  dget kws "weight" = Some (KWeights W) -> dget kws "boundary_format" = Some f -> dget kws "n_t" = Some (KArg (AInt t)) ->
  (let* trim := trimmed kws in stats_settings trim) = Ok (W, as_fmt f, t).
Proof.
  intros H0 HK H1 H2 H3.
  rewrite trimmed_is; [|assumption|apply HK; unfold sim_params; set_solver..]. cbn [bind].
  assert (H0' := ddel_ok kws "return_parts" H0).
  apply settings_are; [|rewrite !dget_ddel by assumption; assumption..].
  intros k. rewrite !dget_ddel by assumption. unfold sim_params, stats_params in *. specialize (HK k).
  destruct (decide (k = "one_minus")) as [->|].
  { split; [intros [? ?]; discriminate|]. intros K. exfalso. revert K. rewrite !elem_of_cons, elem_of_nil. clear. naive_solver. }
  destruct (decide (k = "return_parts")) as [->|].
  { split; [intros [? ?]; discriminate|]. intros K. exfalso. revert K. rewrite !elem_of_cons, elem_of_nil. clear. naive_solver. }
  rewrite HK. rewrite !elem_of_cons. naive_solver.
Qed.
End Fn.

(** * Dicts *)
Lemma dset_id {V} (d : dict V) k v : dget d k = Some v -> dset d k v = d.
Proof.
  induction d as [|[x u] d IH]; cbn [dget dset]; [discriminate|]. destruct (decide (k = x)) as [->|]; [congruence|].
  intros H. rewrite IH by assumption. reflexivity.
Qed.

Lemma ddel_id {V} (d : dict V) k : dget d k = None -> ddel d k = d.
Proof.
  induction d as [|[x u] d IH]; cbn [dget ddel]; [reflexivity|]. destruct (decide (k = x)) as [->|]; [discriminate|].
  intros H. rewrite IH by assumption. reflexivity.
Qed.

Lemma ddel_dset_ne {V} (d : dict V) k k' v : k <> k' -> ddel (dset d k' v) k = dset (ddel d k) k' v.
Proof.
  intros N. induction d as [|[x u] d IH]; cbn [dset ddel].
  - destruct (decide (k = k')); [contradiction|reflexivity].
  - destruct (decide (k' = x)) as [<-|].
    + cbn [ddel dset]. destruct (decide (k = k')); [contradiction|]. cbn [dset]. destruct (decide (k' = k')); [reflexivity|contradiction].
    + cbn [ddel]. destruct (decide (k = x)) as [<-|]; [reflexivity|]. cbn [dset]. destruct (decide (k' = x)); [contradiction|].
      rewrite IH. reflexivity.
Qed.

Lemma ddel_dset {V} (d : dict V) k v : ddel (dset d k v) k = ddel d k.
Proof.
  induction d as [|[x u] d IH]; cbn [dset ddel].
  - destruct (decide (k = k)); [reflexivity|contradiction].
  - destruct (decide (k = x)) as [<-|]; cbn [ddel].
    + destruct (decide (k = k)); [reflexivity|contradiction].
    + destruct (decide (k = x)); [contradiction|]. rewrite IH. reflexivity.
Qed.

Lemma ddel_dupdate {V} (d e : dict V) k : dict_ok e -> ddel (dupdate d e) k = dupdate (ddel d k) (ddel e k).
Proof.
  unfold dict_ok. revert d. induction e as [|[x u] e IH]; intros d; [reflexivity|].
  cbn [fmap list_fmap fst]. rewrite NoDup_cons. intros [H1 H2].
  change (dupdate d ((x, u) :: e)) with (dupdate (dset d x u) e). rewrite IH by assumption. cbn [ddel].
  destruct (decide (k = x)) as [->|N].
  - rewrite ddel_dset. rewrite (ddel_id e); [reflexivity|]. apply dget_None, H1.
  - rewrite ddel_dset_ne by assumption. reflexivity.
Qed.

Lemma foldM_refused {X S} (step : S -> X -> res S) x l s e : (forall s, step s x = Err e) -> foldM step (x :: l) s = Err e.
Proof. intros H. cbn [foldM]. rewrite H. reflexivity. Qed.

(** * A metric that refuses all *)
Section Refuse.
Context {R : Type} (metric : seg -> seg -> res R) (e : exn) (HM : forall a b, metric a b = Err e).

Lemma pair_entry_refused label p two cm cn st m n : m ∈ cm.*1 -> n ∈ cn.*1 ->
  pair_entry metric label p two cm cn st (m, n) = Err e.
Proof.
  intros H1 H2. unfold pair_entry. apply dget_is_Some in H1 as [a H1]. apply dget_is_Some in H2 as [b H2].
  unfold dlookup. rewrite H1, H2. cbn [bind]. rewrite HM. reflexivity.
Qed.

Lemma pairs2_members (l : list string) x y : (x, y) ∈ pairs2 l -> x ∈ l /\ y ∈ l.
Proof.
  induction l as [|z l IH]; cbn [pairs2]; [set_solver|]. rewrite elem_of_app, elem_of_list_fmap.
  intros [(w & E & H)|H]; [injection E as -> ->|]; set_solver.
Qed.

Lemma entries_refused label p two cm cn P st : (forall m n, (m, n) ∈ P -> m ∈ cm.*1 /\ n ∈ cn.*1) ->
  foldM (pair_entry metric label p two cm cn) P st = match P with [] => Ok st | _ => Err e end.
Proof.
  intros H. destruct P as [|[m n] P]; [reflexivity|]. apply foldM_refused. intros s.
  apply pair_entry_refused; apply (H m n); set_solver.
Qed.

Lemma label_refused p ma mb st l : l ∈ (list_to_set ma.*1 ∪ match mb with Some d => list_to_set d.*1 | None => ∅ end : gset string) ->
  label_entries metric p ma mb st l =
    match mb with
    | None => match dget ma l with Some (_ :: _ :: _) => Err e | _ => Ok (fst st, snd st) end
    | Some d => match dget ma l, dget d l with Some (_ :: _), Some (_ :: _) => Err e | _, _ => Ok (fst st, snd st) end
    end.
Proof.
  intros Hl. unfold label_entries. destruct mb as [d|].
  - destruct (dget ma l) as [cm|]; [|destruct st; reflexivity]. destruct (dget d l) as [cn|]; [|destruct st, cm; reflexivity].
    rewrite entries_refused.
    2: { intros m n H. unfold cross in H. apply elem_of_list_bind in H as (x & H & Hx). apply elem_of_list_fmap in H as (y & Q & Hy).
         injection Q as -> ->. auto. }
    destruct cm as [|[c1 s1] cm]; [reflexivity|]. destruct cn as [|[c2 s2] cn].
    + assert (cross ((c1, s1) :: cm).*1 ([] : list (string * seg)).*1 = []) as ->; [|reflexivity].
      unfold cross. cbn. induction (cm.*1); [reflexivity|]. cbn. assumption.
    + reflexivity.
  - destruct (dget ma l) as [cm|] eqn:H.
    + rewrite entries_refused by apply pairs2_members. destruct cm as [|[c1 s1] [|[c2 s2] cm]]; reflexivity.
    + exfalso. apply dget_None in H. set_solver.
Qed.

Lemma refused_fold p ma mb ls st : (forall l, l ∈ ls -> l ∈ (list_to_set ma.*1 ∪ match mb with Some d => list_to_set d.*1 | None => ∅ end : gset string)) ->
  (exists l, l ∈ ls /\ match mb with
    | None => exists cs, dget ma l = Some cs /\ (2 <= length cs)%nat
    | Some d => exists ca cb, dget ma l = Some ca /\ dget d l = Some cb /\ ca <> [] /\ cb <> []
    end) /\ foldM (label_entries metric p ma mb) ls st = Err e \/
  ~ (exists l, l ∈ ls /\ match mb with
    | None => exists cs, dget ma l = Some cs /\ (2 <= length cs)%nat
    | Some d => exists ca cb, dget ma l = Some ca /\ dget d l = Some cb /\ ca <> [] /\ cb <> []
    end) /\ foldM (label_entries metric p ma mb) ls st = Ok st.
Proof.
  revert st. induction ls as [|l ls IH]; intros st Hl.
  { right. split; [|reflexivity]. intros (l & H & _). set_solver. }
  cbn [foldM]. assert (LR := label_refused p ma mb st l (Hl l (elem_of_list_here _ _))).
  assert (IH' := IH st (fun l' H => Hl l' (elem_of_list_further _ _ _ H))).
  assert (ST : (fst st, snd st) = st) by (destruct st; reflexivity).
  destruct mb as [d|].
  - assert (D : (exists ca cb, dget ma l = Some ca /\ dget d l = Some cb /\ ca <> [] /\ cb <> []) /\
      label_entries metric p ma (Some d) st l = Err e \/
      ~ (exists ca cb, dget ma l = Some ca /\ dget d l = Some cb /\ ca <> [] /\ cb <> []) /\
      label_entries metric p ma (Some d) st l = Ok st).
    { rewrite LR, ST. destruct (dget ma l) as [[|c ca]|]; [right; split; [naive_solver|reflexivity]| |right; split; [naive_solver|reflexivity]].
      destruct (dget d l) as [[|c' cb]|]; [right; split; [naive_solver|reflexivity]| |right; split; [naive_solver|reflexivity]].
      left. split; [|reflexivity]. do 2 eexists. repeat split; discriminate. }
    destruct D as [[D1 ->]|[D1 ->]]; cbn [bind].
    + left. split; [|reflexivity]. exists l. split; [set_solver|exact D1].
    + destruct IH' as [[I1 ->]|[I1 ->]]; [left|right]; split; auto.
      * destruct I1 as (l' & ? & ?). exists l'. split; [set_solver|assumption].
      * intros (l' & H & K). apply elem_of_cons in H as [->|H]; [tauto|]. apply I1. eauto.
  - assert (D : (exists cs, dget ma l = Some cs /\ (2 <= length cs)%nat) /\
      label_entries metric p ma None st l = Err e \/
      ~ (exists cs, dget ma l = Some cs /\ (2 <= length cs)%nat) /\
      label_entries metric p ma None st l = Ok st).
    { rewrite LR, ST. destruct (dget ma l) as [[|c1 [|c2 ca]]|].
      1,2,4: right; split; [intros (cs & Q & K); try discriminate; injection Q as <-; cbn in K; lia|reflexivity].
      left. split; [|reflexivity]. eexists. split; [reflexivity|]. cbn. lia. }
    destruct D as [[D1 ->]|[D1 ->]]; cbn [bind].
    + left. split; [|reflexivity]. exists l. split; [set_solver|exact D1].
    + destruct IH' as [[I1 ->]|[I1 ->]]; [left|right]; split; auto.
      * destruct I1 as (l' & ? & ?). exists l'. split; [set_solver|assumption].
      * intros (l' & H & K). apply elem_of_cons in H as [->|H]; [tauto|]. apply I1. eauto.
Qed.

Lemma compute_refused lord p ma mb : lord_ok lord -> dict_ok ma ->
  match mb with None => True | Some d => dict_ok d end ->
  match mb with None => some_pair ma | Some d => some_cross ma d end /\ compute_pairwise_values metric lord p ma mb = Err e \/
  ~ match mb with None => some_pair ma | Some d => some_cross ma d end /\ compute_pairwise_values metric lord p ma mb = Ok [].
Proof.
  intros HL Hma Hmb. unfold compute_pairwise_values, compute_pairwise.
  set (S := list_to_set ma.*1 ∪ match mb with Some d => list_to_set d.*1 | None => ∅ end : gset string).
  assert (HS : forall l, l ∈ lord S <-> l ∈ S) by (intros l; rewrite (HL S), elem_of_elements; reflexivity).
  destruct (refused_fold p ma mb (lord S) ([], []) (fun l H => proj1 (HS l) H)) as [[H ->]|[H ->]]; [left|right]; split; try reflexivity.
  - destruct H as (l & _ & H). destruct mb as [d|].
    + destruct H as (ca & cb & H1 & H2 & H3). exists l, ca, cb. split; [apply dget_elem, H1|]. split; [apply dget_elem, H2|]. exact H3.
    + destruct H as (cs & H1 & H2). exists l, cs. split; [apply dget_elem, H1|exact H2].
  - intros K. apply H. destruct mb as [d|].
    + destruct K as (l & ca & cb & H1 & H2 & H3). apply dget_Some in H1, H2; try assumption.
      exists l. split; [|exists ca, cb; auto]. apply HS. unfold S. apply elem_of_union_l, elem_of_list_to_set, dget_is_Some. eauto.
    + destruct K as (l & cs & H1 & H2). apply dget_Some in H1; try assumption.
      exists l. split; [|exists cs; auto]. apply HS. unfold S. apply elem_of_union_l, elem_of_list_to_set, dget_is_Some. eauto.
Qed.
End Refuse.
