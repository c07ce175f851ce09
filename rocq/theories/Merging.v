(** Property C91: adding datasets one after the other, and evaluating the sum. *)
From Verif Require Import SpecData SpecDispatch SpecAgreement DictProofs DataProofs DataPublic DispatchProofs DispatchMain
  MLSums AgreementProofs AgreementMain AgreementExact AgreementPublic AgreementRepeat AgreementPerm.
From Coq Require Import Lqa.
Open Scope Z_scope.

(** ** The sum as a value *)

Section Value.
Context {C : Type}.
Implicit Types a b c d : dataset C.
Implicit Types items : dict (dict C).

Definition put items (ic : string * dict C) : dict (dict C) := dset items (fst ic) (default [] (dget items (fst ic)) ++ snd ic).

Lemma put_twice items i o cs : put (put items (i, o)) (i, cs) = put items (i, o ++ cs).
Proof. unfold put. cbn [fst snd]. rewrite dget_dset, decide_True by reflexivity. cbn. rewrite dset_twice, app_assoc. reflexivity. Qed.

Lemma put_keys items ic k : k ∈ (put items ic).*1 <-> k = fst ic \/ k ∈ items.*1.
Proof. apply dset_elem. Qed.

Lemma put_comm items i cs jc : i <> fst jc -> i ∈ items.*1 -> put (put items jc) (i, cs) = put (put items (i, cs)) jc.
Proof.
  intros Hne Hi. destruct jc as [j js]. unfold put. cbn [fst snd] in *. rewrite !dget_dset, !decide_False by congruence.
  apply dset_comm; assumption.
Qed.

Lemma puts_keys l : forall items k, k ∈ items.*1 -> k ∈ (foldl put items l).*1.
Proof. induction l as [|ic l IH]; intros items k H; [exact H|]. apply IH. rewrite put_keys. auto. Qed.

Lemma puts_comm l : forall items i cs, i ∉ l.*1 -> i ∈ items.*1 -> put (foldl put items l) (i, cs) = foldl put (put items (i, cs)) l.
Proof.
  induction l as [|jc l IH]; intros items i cs Hl Hi; [reflexivity|]. rewrite fmap_cons, not_elem_of_cons in Hl. destruct Hl as [Hne Hl].
  cbn [foldl]. rewrite IH; [|exact Hl|rewrite put_keys; auto]. rewrite put_comm by assumption. reflexivity.
Qed.

Lemma dset_split (y : dict (dict C)) i v : dict_ok y -> i ∈ y.*1 -> exists y1 o y2, y = y1 ++ (i, o) :: y2 /\ i ∉ y2.*1 /\ dget y i = Some o /\ dset y i v = y1 ++ (i, v) :: y2.
Proof.
  induction y as [|[k w] y IH]; intros Hok Hi; [apply elem_of_nil in Hi; contradiction|].
  unfold dict_ok in Hok. rewrite fmap_cons in Hok, Hi. apply NoDup_cons in Hok as [Hk Hok]. cbn [fst] in *. cbn [dget dset].
  destruct (decide (i = k)) as [->|Hne].
  - exists [], w, y. auto.
  - apply elem_of_cons in Hi as [Hi|Hi]; [contradiction|]. destruct (IH Hok Hi) as (y1 & o & y2 & -> & H2 & H3 & H4).
    exists ((k, w) :: y1), o, y2. split; [reflexivity|]. split; [exact H2|]. split; [exact H3|]. rewrite H4. reflexivity.
Qed.

Lemma puts_put y items ic : dict_ok y -> foldl put items (put y ic) = put (foldl put items y) ic.
Proof.
  intros Hok. destruct ic as [i cs]. destruct (decide (i ∈ y.*1)) as [Hi|Hi].
  - destruct (dset_split y i (default [] (dget y i) ++ cs) Hok Hi) as (y1 & o & y2 & E & H2 & H3 & H4).
    unfold put at 2. cbn [fst snd]. rewrite H4, H3, E, !foldl_app. cbn [foldl default].
    rewrite (puts_comm y2 _ i cs H2) by (apply put_keys; left; reflexivity). rewrite put_twice. reflexivity.
  - unfold put at 2. cbn [fst snd]. assert (dget y i = None) as -> by (apply dget_None, Hi). rewrite dset_fresh by exact Hi.
    rewrite foldl_app. reflexivity.
Qed.

Lemma puts_ok l : forall items, dict_ok items -> dict_ok (foldl put items l).
Proof. induction l as [|ic l IH]; intros items H; [exact H|]. apply IH, dset_ok, H. Qed.

Lemma puts_assoc items l l' : dict_ok l -> foldl put (foldl put items l) l' = foldl put items (foldl put l l').
Proof.
  intros Hok. induction l' as [|ic l' IH] using rev_ind; [reflexivity|]. rewrite !foldl_app. cbn [foldl].
  rewrite IH, puts_put by (apply puts_ok, Hok). reflexivity.
Qed.

(** The coders of [l]. *)
Definition names (l : dict (dict C)) : gset string := list_to_set (l ≫= (fun ic => (snd ic).*1)).

Lemma names_app l l' : names (l ++ l') = names l ∪ names l'.
Proof. unfold names. rewrite bind_app, list_to_set_app_L. reflexivity. Qed.

Lemma names_put l ic : dict_ok l -> names (put l ic) = names l ∪ list_to_set (snd ic).*1.
Proof.
  intros Hok. destruct ic as [i cs]. unfold put. cbn [fst snd]. destruct (decide (i ∈ l.*1)) as [Hi|Hi].
  - destruct (dset_split l i (default [] (dget l i) ++ cs) Hok Hi) as (y1 & o & y2 & E & H2 & H3 & H4). rewrite H4, H3, E.
    cbn [default]. unfold names. rewrite !bind_app, !bind_cons. cbn [snd]. rewrite fmap_app, !list_to_set_app_L. set_solver.
  - assert (dget l i = None) as -> by (apply dget_None, Hi). rewrite dset_fresh, names_app by exact Hi. f_equal.
    unfold names. rewrite bind_cons. cbn. rewrite app_nil_r. reflexivity.
Qed.

Lemma names_puts l l' : dict_ok l -> names (foldl put l l') = names l ∪ names l'.
Proof.
  intros Hok. induction l' as [|ic l' IH] using rev_ind; [cbn [foldl]; assert (names ([] : dict (dict C)) = ∅) as -> by reflexivity; set_solver|].
  rewrite foldl_app. cbn [foldl]. rewrite names_put by (apply puts_ok, Hok). rewrite IH, names_app.
  assert (names [ic] = list_to_set (snd ic).*1) as -> by (unfold names; rewrite bind_cons; cbn; rewrite app_nil_r; reflexivity). set_solver.
Qed.

Definition sum a b : dataset C := Dataset (foldl put (ds_items a) (ds_items b)) (ds_props a) (ds_types a) (ds_format a) (names (ds_items b) ∪ ds_coders a).

Lemma iadd_sum (items : dict (dict C)) : SpecData.items_ok items -> forall a r, foldl (iadd_item None) (a, None) items = (r, None) ->
  r = Dataset (foldl put (ds_items a) items) (ds_props a) (ds_types a) (ds_format a) (names items ∪ ds_coders a).
Proof.
  induction items as [|[i cs] items IH]; intros Hok a r H.
  - injection H as <-. destruct a. cbn. f_equal. unfold names. cbn. set_solver.
  - destruct (items_ok_cons _ _ _ Hok) as (Hi & Hcs & Hok'). cbn [foldl] in H.
    destruct (decide (Forall (fun y : string => y ∉ (old_codings a (prefixed None i)).*1) cs.*1)) as [HF|HF].
    + rewrite Forall_forall in HF. rewrite (iadd_item_ok None a i cs Hcs HF) in H. apply IH in H; [|exact Hok'].
      rewrite H. cbn [merged ds_items ds_props ds_types ds_format ds_coders prefixed]. f_equal.
      rewrite (names_app [(i, cs)] items : names ((i, cs) :: items) = _).
      assert (names [(i, cs)] = list_to_set cs.*1) as -> by (unfold names; rewrite bind_cons; cbn; rewrite app_nil_r; reflexivity). set_solver.
    + exfalso. apply not_Forall_Exists in HF; [|intros x; apply _]. apply Exists_exists in HF as (x & Hx & Hn).
      apply dec_stable in Hn. destruct (iadd_item_dup None a i cs Hcs) as (d & E); [eauto|]. rewrite E, items_stuck in H. discriminate H.
Qed.

Lemma add_sum a b r : SpecData.items_ok (ds_items b) -> ds_add a b = Ok r -> r = sum a b.
Proof.
  intros Hok H. unfold ds_add, iadd in H. destruct (foldl _ _ _) as [d [e|]] eqn:E; [discriminate|]. injection H as <-.
  apply (iadd_sum _ Hok) in E. exact E.
Qed.

Lemma add_result a b : SpecData.items_ok (ds_items b) ->
  (ds_add a b = Ok (sum a b) /\ ~ clash None (ds_items a) (ds_items b)) \/ (ds_add a b = Err DataIOError /\ clash None (ds_items a) (ds_items b)).
Proof.
  intros Hok. destruct (ds_add a b) as [r|e] eqn:H.
  - left. pose proof (add_sum _ _ _ Hok H) as ->. split; [reflexivity|]. apply (iadd_success None a b Hok).
    unfold ds_add in H. destruct (iadd a b None) as [d [e|]]; [discriminate|reflexivity].
  - right. unfold ds_add in H. pose proof (iadd_success None a b Hok) as S1. pose proof (iadd_failure None a b Hok) as S2.
    destruct (iadd a b None) as [d [e'|]] eqn:E; [|discriminate]. injection H as ->. cbn [snd] in *.
    destruct (clash_dec None (ds_items a) (ds_items b) Hok) as [K|K].
    + assert (~ clash None (ds_items a) (ds_items b)) as N.
      { rewrite clash_prefixed. intros (i & x & H1 & H2). rewrite (K i x H1) in H2. destruct H2; discriminate. }
      apply S1 in N. discriminate.
    + apply clash_prefixed in K. pose proof (proj2 S2 K) as E'. injection E' as ->. auto.
Qed.

Lemma add_codings a b : SpecData.items_ok (ds_items b) -> ~ clash None (ds_items a) (ds_items b) -> merge_result None a (ds_items b) (sum a b).
Proof.
  intros Hok N. destruct (add_result a b Hok) as [[H _]|[_ K]]; [|contradiction]. apply iadd_result; [exact Hok|].
  unfold ds_add in H. destruct (iadd a b None) as [d [e|]]; [discriminate|]. injection H as ->. reflexivity.
Qed.

Lemma clash_none (x y : dict (dict C)) : clash None x y <-> exists i (n : string), is_Some (coding_at y i n) /\ is_Some (coding_at x i n).
Proof.
  split; [intros (i & j & c & F & H1 & H2); cbn in F; subst j; eauto|].
  intros (i & c & H1 & H2). exists i, i, c. split; [reflexivity|]. auto.
Qed.

Lemma sum_at a b i x : SpecData.items_ok (ds_items b) -> ~ clash None (ds_items a) (ds_items b) ->
  is_Some (coding_at (ds_items (sum a b)) i x) <-> is_Some (coding_at (ds_items a) i x) \/ is_Some (coding_at (ds_items b) i x).
Proof.
  intros Hok N. destruct (add_codings a b Hok N) as [R _ _ _ _]. split.
  - intros [v H]. apply R in H as [H|(i' & E & H)]; [left; eauto|]. cbn in E. subst i'. right. eauto.
  - intros [[v H]|[v H]]; exists v; apply R; [left; exact H|right; exists i; auto].
Qed.

Lemma sum_ok a b : SpecData.items_ok (ds_items a) -> SpecData.items_ok (ds_items b) -> ~ clash None (ds_items a) (ds_items b) -> SpecData.items_ok (ds_items (sum a b)).
Proof. intros Ha Hb N. destruct (add_codings a b Hb N) as [_ _ _ _ R]. apply R, Ha. Qed.

Lemma sum_assoc a b c : SpecData.items_ok (ds_items b) -> sum (sum a b) c = sum a (sum b c).
Proof.
  intros [Hb _]. unfold sum. cbn [ds_items ds_props ds_types ds_format ds_coders]. f_equal.
  - apply puts_assoc, Hb.
  - rewrite names_puts by exact Hb. set_solver.
Qed.

Theorem add_assoc a b c : SpecData.items_ok (ds_items a) -> SpecData.items_ok (ds_items b) -> SpecData.items_ok (ds_items c) ->
  (let* x := ds_add a b in ds_add x c) = (let* y := ds_add b c in ds_add a y).
Proof.
  intros Ha Hb Hc. destruct (add_result a b Hb) as [[-> Nab]|[-> Kab]]; destruct (add_result b c Hc) as [[-> Nbc]|[-> Kbc]]; cbn [bind].
  - destruct (add_result (sum a b) c Hc) as [[-> N]|[-> K]]; destruct (add_result a (sum b c) (sum_ok _ _ Hb Hc Nbc)) as [[-> N']|[-> K']].
    + rewrite sum_assoc by exact Hb. reflexivity.
    + exfalso. rewrite clash_none in *. destruct K' as (i & x & H1 & H2). apply sum_at in H1 as [H1|H1]; [apply Nab; eauto| |exact Hc|rewrite clash_none; exact Nbc].
      apply N. exists i, x. split; [exact H1|]. apply sum_at; [exact Hb|rewrite clash_none; exact Nab|auto].
    + exfalso. rewrite clash_none in *. destruct K as (i & x & H1 & H2). apply sum_at in H2 as [H2|H2]; [|apply Nbc; eauto|exact Hb|rewrite clash_none; exact Nab].
      apply N'. exists i, x. split; [|exact H2]. apply sum_at; [exact Hc|rewrite clash_none; exact Nbc|auto].
    + reflexivity.
  - destruct (add_result (sum a b) c Hc) as [[-> N]|[-> K]]; [|reflexivity]. exfalso. rewrite clash_none in *.
    destruct Kbc as (i & x & H1 & H2). apply N. exists i, x. split; [exact H1|]. apply sum_at; [exact Hb|rewrite clash_none; exact Nab|auto].
  - destruct (add_result a (sum b c) (sum_ok _ _ Hb Hc Nbc)) as [[-> N]|[-> K]]; [|reflexivity]. exfalso. rewrite clash_none in *.
    destruct Kab as (i & x & H1 & H2). apply N. exists i, x. split; [|exact H2]. apply sum_at; [exact Hc|rewrite clash_none; exact Nbc|auto].
  - reflexivity.
Qed.

(** Nothing in common: the items of both, one after the other. *)
Lemma puts_disjoint (l : dict (dict C)) : dict_ok l -> forall items, (forall i, i ∈ items.*1 -> i ∉ l.*1) -> foldl put items l = items ++ l.
Proof.
  induction l as [|[i cs] l IH]; intros Hok items HD; [rewrite app_nil_r; reflexivity|].
  unfold dict_ok in Hok. rewrite fmap_cons in Hok, HD. apply NoDup_cons in Hok as [Hi Hok]. cbn [foldl fst] in *.
  assert (put items (i, cs) = items ++ [(i, cs)]) as ->.
  { assert (i ∉ items.*1) as Hn by (intros K; apply (HD i K); left). unfold put. cbn [fst snd].
    assert (dget items i = None) as -> by (apply dget_None, Hn). apply dset_fresh, Hn. }
  rewrite IH; [rewrite <- app_assoc; reflexivity|exact Hok|]. intros j Hj. rewrite fmap_app, elem_of_app in Hj. destruct Hj as [Hj|Hj].
  - specialize (HD j Hj). rewrite not_elem_of_cons in HD. apply HD.
  - cbn in Hj. apply elem_of_list_singleton in Hj as ->. exact Hi.
Qed.

Lemma add_disjoint a b r : SpecData.items_ok (ds_items b) -> (forall i, i ∈ (ds_items a).*1 -> i ∉ (ds_items b).*1) ->
  ds_add a b = Ok r -> ds_items r = ds_items a ++ ds_items b.
Proof. intros Hok HD H. rewrite (add_sum _ _ _ Hok H). apply puts_disjoint; [apply Hok|exact HD]. Qed.
End Value.

(** ** Pairwise values *)

Section Pairwise.
Context {R : Type} (metric : seg -> seg -> res R) (lord : gset string -> list string) (HL : lord_ok lord).
Implicit Types x y : dict (dict seg).

Lemma before_app x y item c1 c2 s t : before (x ++ y) item c1 c2 s t <-> before x item c1 c2 s t \/ before y item c1 c2 s t.
Proof.
  unfold before. setoid_rewrite elem_of_app. split.
  - intros (cs & i & j & [H|H] & K); [left|right]; eauto.
  - intros [(cs & i & j & H & K)|(cs & i & j & H & K)]; eauto 10.
Qed.

Lemma before_item x item c1 c2 s t : before x item c1 c2 s t -> item ∈ x.*1.
Proof. intros (cs & i & j & H & _). apply elem_of_list_fmap. exists (item, cs). auto. Qed.

Lemma before_plain x item c1 c2 s t : plain_coders x -> before x item c1 c2 s t -> comma_free c1 /\ comma_free c2.
Proof.
  intros HP (cs & i & j & H & _ & H1 & H2). apply elem_of_list_lookup_2 in H1, H2. split; eapply HP; eauto.
Qed.

Lemma returns_iff permuted x : items_ok x ->
  (exists d, compute_pairwise_values metric lord permuted x None = Ok d) <->
  forall item c1 c2 s t, before x item c1 c2 s t -> (exists v, metric s t = Ok v) /\ (permuted = true -> exists v, metric t s = Ok v).
Proof.
  intros HO. destruct (values_returns metric lord HL permuted x None (conj HO I)) as [-> _]. split.
  - intros H item c1 c2 s t K. split; [apply (H (name3 item c1 c2)); exists item, c1, c2; auto|].
    intros Hp. apply (H (name3 item c2 c1)). exists item, c2, c1. auto.
  - intros H k s t (item & c1 & c2 & [[K _]|(Hp & K & _)]).
    + apply (H item c1 c2 s t K).
    + apply (H item c2 c1 t s); assumption.
Qed.

Theorem pairwise_sum permuted (a b r : dataset seg) : items_ok (ds_items a) -> items_ok (ds_items b) ->
  plain_coders (ds_items a) -> plain_coders (ds_items b) ->
  (forall i, i ∈ (ds_items a).*1 -> i ∉ (ds_items b).*1) -> ds_add a b = Ok r ->
  ((exists d, compute_pairwise_values metric lord permuted (ds_items r) None = Ok d) <->
    (exists d, compute_pairwise_values metric lord permuted (ds_items a) None = Ok d) /\
    (exists d, compute_pairwise_values metric lord permuted (ds_items b) None = Ok d)) /\
  (forall d da db, compute_pairwise_values metric lord permuted (ds_items r) None = Ok d ->
    compute_pairwise_values metric lord permuted (ds_items a) None = Ok da ->
    compute_pairwise_values metric lord permuted (ds_items b) None = Ok db -> d ≡ₚ da ++ db).
Proof.
  intros Ha Hb Pa Pb HD H. pose proof (add_disjoint a b r Hb HD H) as E. rewrite E.
  assert (Hr : items_ok (ds_items a ++ ds_items b)).
  { destruct Ha as [A1 A2], Hb as [B1 B2]. split.
    - unfold dict_ok. rewrite fmap_app. apply NoDup_app. auto.
    - intros item cs [K|K]%elem_of_app; eauto. }
  assert (Pr : plain_coders (ds_items a ++ ds_items b)) by (intros item cs c s [K|K]%elem_of_app; eauto).
  split.
  - rewrite !returns_iff by assumption. setoid_rewrite before_app. split.
    + intros K. split; intros item c1 c2 s t B; apply (K item c1 c2 s t); auto.
    + intros [K1 K2] item c1 c2 s t [B|B]; eauto.
  - intros d da db Hd Hda Hdb.
    destruct (one_dataset metric lord permuted _ d HL Hr Pr Hd) as (D & S & _).
    destruct (one_dataset metric lord permuted _ da HL Ha Pa Hda) as (Da & Sa & _).
    destruct (one_dataset metric lord permuted _ db HL Hb Pb Hdb) as (Db & Sb & _).
    assert (NoDup da /\ NoDup db) as [Na Nb] by (split; apply (NoDup_fmap_1 fst); assumption).
    apply NoDup_Permutation; [apply (NoDup_fmap_1 fst); exact D|apply NoDup_app; split; [exact Na|split; [|exact Nb]]|].
    + intros [k v] Ka Kb. apply Sa in Ka as (i & c1 & c2 & s & t & -> & _ & Ka). apply Sb in Kb as (i' & c1' & c2' & s' & t' & Ek & _ & Kb).
      assert (i ∈ (ds_items a).*1 /\ comma_free c1 /\ comma_free c2) as (Ia & F1 & F2).
      { destruct Ka as [Ka|[_ Ka]]; (split; [eapply before_item, Ka|]); apply before_plain in Ka; tauto. }
      assert (i' ∈ (ds_items b).*1 /\ comma_free c1' /\ comma_free c2') as (Ib & F1' & F2').
      { destruct Kb as [Kb|[_ Kb]]; (split; [eapply before_item, Kb|]); apply before_plain in Kb; tauto. }
      apply (key3_inj i i' c1 c1' c2 c2') in Ek as (-> & _ & _); try assumption. exact (HD _ Ia Ib).
    + intros [k v]. rewrite elem_of_app, S, Sa, Sb. setoid_rewrite before_app. split.
      * intros (i & c1 & c2 & s & t & -> & Hv & [[K|K]|[Hp [K|K]]]); [left|right|left|right]; exists i, c1, c2, s, t; auto.
      * intros [(i & c1 & c2 & s & t & -> & Hv & [K|[Hp K]])|(i & c1 & c2 & s & t & -> & Hv & [K|[Hp K]])]; exists i, c1, c2, s, t; auto 8.
Qed.

(** Two coders of an item, whatever their order. *)
Lemma before_either x item c1 c2 s t : items_ok x ->
  before x item c1 c2 s t \/ before x item c2 c1 t s <-> c1 <> c2 /\ coding_at x item c1 = Some s /\ coding_at x item c2 = Some t.
Proof.
  intros [H1 H2]. unfold before, coding_at. split.
  - assert (G : forall c1 c2 s t, before x item c1 c2 s t -> c1 <> c2 /\ coding_at x item c1 = Some s /\ coding_at x item c2 = Some t).
    { clear c1 c2 s t. intros c1 c2 s t (cs & i & j & K & Hij & Ki & Kj). pose proof (H2 _ _ K) as Hcs. unfold coding_at.
      rewrite (proj2 (dget_Some x item cs H1) K). split; [|split; apply dget_Some; try exact Hcs; eapply elem_of_list_lookup_2; eassumption].
      intros ->. assert (i = j); [|lia]. eapply (NoDup_lookup cs.*1); [exact Hcs| |]; rewrite list_lookup_fmap, ?Ki, ?Kj; reflexivity. }
    intros [K|K]; apply G in K; unfold coding_at in K; intuition congruence.
  - intros (Hne & K1 & K2). destruct (dget x item) as [cs|] eqn:Ex; [|discriminate]. apply dget_Some in Ex; [|exact H1].
    apply dget_elem in K1, K2. apply elem_of_list_lookup in K1 as [i K1], K2 as [j K2].
    destruct (Nat.lt_trichotomy i j) as [L|[->|L]]; [left|congruence|right]; eexists cs, _, _; eauto.
Qed.

Theorem pairwise_swap (a b r r' : dataset seg) : items_ok (ds_items a) -> items_ok (ds_items b) ->
  plain_coders (ds_items a) -> plain_coders (ds_items b) -> ds_add a b = Ok r -> ds_add b a = Ok r' ->
  ((exists d, compute_pairwise_values metric lord true (ds_items r) None = Ok d) <->
   (exists d, compute_pairwise_values metric lord true (ds_items r') None = Ok d)) /\
  (forall d d', compute_pairwise_values metric lord true (ds_items r) None = Ok d ->
    compute_pairwise_values metric lord true (ds_items r') None = Ok d' -> d ≡ₚ d').
Proof.
  intros Ha Hb Pa Pb H H'.
  destruct (add_result a b Hb) as [[E N]|[E _]]; [|congruence]. destruct (add_result b a Ha) as [[E' N']|[E' _]]; [|congruence].
  rewrite E in H. rewrite E' in H'. injection H as <-. injection H' as <-.
  pose proof (sum_ok a b Ha Hb N) as Hr. pose proof (sum_ok b a Hb Ha N') as Hr'.
  assert (HC : forall item c s, coding_at (ds_items (sum a b)) item c = Some s <-> coding_at (ds_items (sum b a)) item c = Some s).
  { intros item c s. destruct (add_codings a b Hb N) as [R1 _ _ _ _]. destruct (add_codings b a Ha N') as [R2 _ _ _ _].
    rewrite R1, R2. cbn [prefixed]. split.
    - intros [K|(i & -> & K)]; [right; exists item; auto|left; exact K].
    - intros [K|(i & -> & K)]; [right; exists item; auto|left; exact K]. }
  assert (HE : forall item c1 c2 s t, before (ds_items (sum a b)) item c1 c2 s t \/ before (ds_items (sum a b)) item c2 c1 t s <->
    before (ds_items (sum b a)) item c1 c2 s t \/ before (ds_items (sum b a)) item c2 c1 t s).
  { intros item c1 c2 s t. rewrite !before_either, !HC by assumption. reflexivity. }
  assert (HP : forall x : dataset seg, x = sum a b \/ x = sum b a -> plain_coders (ds_items x)).
  { assert (G : forall x : dataset seg, items_ok (ds_items x) -> (forall item c s, coding_at (ds_items x) item c = Some s -> coding_at (ds_items a) item c = Some s \/ coding_at (ds_items b) item c = Some s) -> plain_coders (ds_items x)).
    { intros x [X1 X2] HX item cs c s K1 K2. assert (coding_at (ds_items x) item c = Some s) as K.
      { unfold coding_at. rewrite (proj2 (dget_Some _ _ _ X1) K1). apply dget_Some; [eapply X2, K1|exact K2]. }
      apply HX in K as [K|K]; unfold coding_at in K.
      - destruct (dget (ds_items a) item) eqn:Ea; [|discriminate]. apply dget_elem in Ea, K. eapply Pa; eassumption.
      - destruct (dget (ds_items b) item) eqn:Ea; [|discriminate]. apply dget_elem in Ea, K. eapply Pb; eassumption. }
    destruct (add_codings a b Hb N) as [R1 _ _ _ _].
    intros x [->| ->]; apply G; try assumption; intros item c s K; [|apply HC in K]; apply R1 in K as [K|(i & Ei & K)]; cbn in *; subst; auto. }
  split.
  - rewrite !returns_iff by assumption. split; intros K item c1 c2 s t B.
    + destruct (proj2 (HE item c1 c2 s t) (or_introl B)) as [B'|B']; apply K in B' as [K1 K2]; auto.
    + destruct (proj1 (HE item c1 c2 s t) (or_introl B)) as [B'|B']; apply K in B' as [K1 K2]; auto.
  - intros d d' Hd Hd'.
    destruct (permuted_dataset metric lord _ d HL Hr (HP _ (or_introl eq_refl)) Hd) as (D & S & _).
    destruct (permuted_dataset metric lord _ d' HL Hr' (HP _ (or_intror eq_refl)) Hd') as (D' & S' & _).
    apply NoDup_Permutation; [apply (NoDup_fmap_1 fst); exact D|apply (NoDup_fmap_1 fst); exact D'|].
    intros [k v]. rewrite S, S'. setoid_rewrite HE. reflexivity.
Qed.
End Pairwise.

(** ** Agreement *)

Section Agreement.
Context (E : env) (n_t : Z) (f : fmt) (coders : list string) (x y : dict (dict seg)) (cmp : Agreement.compare) (HE : env_ok E) (Hn : n_t <> 0).

Lemma coded_app : coded f coders x -> coded f coders y -> coded f coders (x ++ y).
Proof.
  intros [H1 H2 H3 H4 H5 H6] [_ _ _ K4 K5 K6]. constructor; try assumption.
  - destruct x; [contradiction|discriminate].
  - intros ic c [Hi|Hi]%elem_of_app; auto.
  - intros ic c c' [Hi|Hi]%elem_of_app; auto.
  - intros ic c c' [Hi|Hi]%elem_of_app; auto.
Qed.

Lemma cached_app : cached f coders (x ++ y) -> cached f coders x /\ cached f coders y.
Proof. intros H. split; intros ic c c' Hi; apply H, elem_of_app; auto. Qed.

Lemma over_app {C} (h : string -> string -> string * dict seg -> C) :
  over h <$> jobs_of coders (x ++ y) ≡ₚ (over h <$> jobs_of coders x) ++ (over h <$> jobs_of coders y).
Proof.
  rewrite !over_spread, !spread_cons, <- bind_split. apply bind_perm_r. intros [m n] _. cbn [fst snd]. rewrite bind_app. reflexivity.
Qed.

Lemma Aa_app : coded f coders x -> coded f coders y -> comparison exactA E n_t (cached f coders (x ++ y)) cmp ->
  exists w, (0 < w < 1)%Q /\ (exact_Aa f coders (x ++ y) cmp == w * exact_Aa f coders x cmp + (1 - w) * exact_Aa f coders y cmp)%Q.
Proof using HE Hn.
  intros Hx Hy Hc.
  assert (Cx : comparison exactA E n_t (cached f coders x) cmp) by (destruct Hc; constructor; apply cached_app; assumption).
  assert (Cy : comparison exactA E n_t (cached f coders y) cmp) by (destruct Hc; constructor; apply cached_app; assumption).
  pose proof (dsum_pos exactA E n_t f coders x cmp HE Hn Hx Cx) as [_ Dx].
  pose proof (dsum_pos exactA E n_t f coders y cmp HE Hn Hy Cy) as [_ Dy].
  unfold exact_Aa. assert (ED : dsum f coders (x ++ y) cmp = dsum f coders x cmp + dsum f coders y cmp).
  { unfold dsum. rewrite (AgreementPerm.zsum_perm _ _ (over_app _)), FormatProofs.zsum_app. reflexivity. }
  rewrite ED.
  assert (0 < inject_Z (dsum f coders x cmp))%Q as Px by (change 0%Q with (inject_Z 0); rewrite <- Zlt_Qlt; exact Dx).
  assert (0 < inject_Z (dsum f coders y cmp))%Q as Py by (change 0%Q with (inject_Z 0); rewrite <- Zlt_Qlt; exact Dy).
  set (p := inject_Z (dsum f coders x cmp)) in *. set (q := inject_Z (dsum f coders y cmp)) in *.
  exists (p / (p + q))%Q. split.
  - split; [apply Qlt_shift_div_l; lra|apply Qlt_shift_div_r; lra].
  - rewrite !Qred_correct, (qsum_perm _ _ (over_app _)), qsum_app, inject_Z_plus. fold p q. field. repeat split; lra.
Qed.
End Agreement.

Theorem agreement_sum E n_t f cord (a b r : dataset seg) cmp : env_ok E -> n_t <> 0 ->
  SpecData.items_ok (ds_items b) -> (forall i, i ∈ (ds_items a).*1 -> i ∉ (ds_items b).*1) -> ds_add a b = Ok r ->
  ds_format a = ds_format b -> ds_coders a = ds_coders b -> (forall c, codes (ds_items b) c -> c ∈ ds_coders b) ->
  coded (ds_format a) (cord (ds_coders a)) (ds_items a) -> coded (ds_format b) (cord (ds_coders b)) (ds_items b) ->
  comparison exactA E n_t (cached (ds_format r) (cord (ds_coders r)) (ds_items r)) cmp ->
  exists va vb v w, actual_agreement_linear exactA cmp f cord (CDataset a) = Ok (NDec va) /\
    actual_agreement_linear exactA cmp f cord (CDataset b) = Ok (NDec vb) /\
    actual_agreement_linear exactA cmp f cord (CDataset r) = Ok (NDec v) /\
    (0 < w < 1)%Q /\ (v == w * va + (1 - w) * vb)%Q.
Proof.
  intros HE Hn Hb HD H EF EC HS Ca Cb Hc. pose proof (add_disjoint a b r Hb HD H) as EI.
  destruct (add_result a b Hb) as [[E1 N]|[E1 _]]; [|congruence]. assert (r = sum a b) as Er by congruence.
  destruct (add_codings a b Hb N) as [_ _ R3 (_ & _ & RF) _]. rewrite <- Er in R3, RF.
  assert (ER : ds_coders r = ds_coders b).
  { apply set_eq. intros c. rewrite R3, EC. split; [intros [K|K]; auto|auto]. }
  unfold actual_agreement_linear. cbn [c_format c_coders c_items]. rewrite ER, EI, RF, EF, EC in *.
  set (F := ds_format b) in *. set (coders := cord (ds_coders b)) in *. set (x := ds_items a) in *. set (y := ds_items b) in *.
  destruct (Aa_app E n_t F coders x y cmp HE Hn Ca Cb Hc) as (w & Hw & Hv).
  assert (Cx : comparison exactA E n_t (cached F coders x) cmp) by (destruct Hc; constructor; eapply (cached_app F coders x y); assumption).
  assert (Cy : comparison exactA E n_t (cached F coders y) cmp) by (destruct Hc; constructor; eapply (cached_app F coders x y); assumption).
  exists (exact_Aa F coders x cmp), (exact_Aa F coders y cmp), (exact_Aa F coders (x ++ y) cmp), w.
  split; [apply (actual_value E n_t F coders x cmp HE Hn Ca Cx)|]. split; [apply (actual_value E n_t F coders y cmp HE Hn Cb Cy)|].
  split; [apply (actual_value E n_t F coders (x ++ y) cmp HE Hn (coded_app F coders x y Ca Cb) Hc)|]. split; assumption.
Qed.

(** ** The sum *)

Theorem sum_outcome {C} (a b : dataset C) : SpecData.items_ok (ds_items b) ->
  ((exists r, ds_add a b = Ok r) <-> ~ clash None (ds_items a) (ds_items b)) /\
  (ds_add a b = Err DataIOError <-> clash None (ds_items a) (ds_items b)).
Proof.
  intros Hb. destruct (merge_outcome None a b Hb) as [H1 H2]. unfold ds_add. destruct (iadd a b None) as [d [e|]]; cbn [snd] in *.
  - split; split; intros H.
    + destruct H as [r H]. discriminate H.
    + apply H1 in H. discriminate H.
    + apply H2. congruence.
    + apply H2 in H. congruence.
  - split; split; intros H.
    + apply H1. reflexivity.
    + exists d. reflexivity.
    + discriminate H.
    + apply H2 in H. discriminate H.
Qed.

Theorem sum_content {C} (a b r : dataset C) : SpecData.items_ok (ds_items b) -> ds_add a b = Ok r ->
  (forall i c v, coding_at (ds_items r) i c = Some v <-> coding_at (ds_items a) i c = Some v \/ coding_at (ds_items b) i c = Some v) /\
  (forall i, i ∈ (ds_items r).*1 <-> i ∈ (ds_items a).*1 \/ i ∈ (ds_items b).*1) /\
  (forall c, c ∈ ds_coders r <-> c ∈ ds_coders a \/ codes (ds_items b) c) /\
  ds_props r = ds_props a /\ ds_types r = ds_types a /\ ds_format r = ds_format a.
Proof.
  intros Hb H. unfold ds_add in H. destruct (iadd a b None) as [d [e|]] eqn:E; [discriminate H|]. injection H as ->.
  destruct (merge_union None a b r Hb E) as (H1 & H2 & H3 & H4 & H5 & H6 & _).
  split; [|split; [|split; [exact H3|auto]]].
  - intros i c v. rewrite H1. split; (intros [K|K]; [left; exact K|right]).
    + destruct K as (j & <- & K). exact K.
    + exists i. split; [reflexivity|exact K].
  - intros i. rewrite H2. split; (intros [K|K]; [left; exact K|right]).
    + destruct K as (j & <- & K). exact K.
    + exists i. split; [reflexivity|exact K].
Qed.
