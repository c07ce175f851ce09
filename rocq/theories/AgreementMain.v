(** The agreement functions on coded datasets. *)
From Coq Require Import Lqa.
From Verif Require Import SpecAgreement SpecML FormatProofs Round RoundProofs BedProofs BedTheory SimStats SimRound SimProofs SimTheory SimMain SimSym
  MLProofs MLSums DictProofs DispatchProofs DispatchMain AgreementProofs.
Open Scope Z_scope.

Notation types_in x y := (⋃ x ∪ ⋃ y : gset Z).

Lemma comparison_impl A E n_t (P P' : Prop) cmp : (P -> P') -> comparison A E n_t P cmp -> comparison A E n_t P' cmp.
Proof. intros H [om|om HP]; [apply by_B|apply by_S; auto]. Qed.

Section One.
Context (A : arith) (E : env) (n_t : Z) (cmp : Agreement.compare) (f : fmt) (sa sb : seg).
Context (HE : env_ok E).

Lemma compare_ok x y : comparison A E n_t (small_types x y) cmp -> n_t <> 0 -> seg_len sa <> 0 -> seg_len sb <> 0 ->
  to_bstring f sa = Ok x -> to_bstring f sb = Ok y -> length x = length y -> (exists d, used x y d) ->
  exists n d, cmp f sa sb = Ok (NDec n, NInt d) /\ 0 < d /\
    (small_types x y -> d <= room x y * Z.of_nat (size (types_in x y))) /\
    (forall eps M, prec A eps M -> d <= M -> below n d /\ (x = y -> (n == inject_Z d)%Q)) /\
    (A = exactA -> (n == inject_Z d)%Q -> x = y).
Proof.
  intros HC Hn Ha Hb Hx Hy Hl Hu.
  assert (Hbs : to_bstrings f sa sb = Ok (x, y)).
  { rewrite (to_bstrings_eq f sa sb x y Hx Hy). destruct (Z.eqb_spec (zlen x) (zlen y)) as [C|C]; [reflexivity|unfold zlen in C; lia]. }
  destruct (setup E f n_t sa sb x y HE Hbs Hu) as (e & lo & hi & He & Hext).
  set (d := edit_count e + Z.of_nat (nmatches x y)). set (c := dcount A e (hi - lo + 1) n_t).
  set (D := zlen x * zsize (identify_types x y) * zsize (identify_types x y)).
  assert (Hd : 0 < d) by (eapply d_pos; eassumption).
  assert (HD : small_types x y -> d <= D) by (intros Hs; apply (den_le E f n_t sa sb x y HE Hbs Hu e Hs He)).
  assert (R : forall K, 0 < K -> edit_count e <= K -> 
    (forall eps M, prec A eps M -> K <= M -> below (rd A (inject_Z K - c)) K /\ (x = y -> (rd A (inject_Z K - c) == inject_Z K)%Q)) /\
    (A = exactA -> (rd A (inject_Z K - c) == inject_Z K)%Q -> x = y)).
  { intros K HK0 HK. split.
    - intros eps M HP HM.
      destruct (c_bounds A eps M HP E f n_t sa sb x y lo hi e HE Hbs Hext Hn He K HK HM) as (C1 & C2 & C3 & C4). fold c in C1, C2, C3, C4.
      split; [split|].
      + apply (rd_nonneg A _ _ HP). lra.
      + apply (rd_le A _ _ HP); [lra|lia].
      + intros Hxy. apply (rd_z A _ _ HP); [|lia].
        assert (H0 : edit_count e = 0) by (apply (edits_none_iff E x y n_t e); assumption).
        destruct (q_bounds E f n_t sa sb x y lo hi e HE Hbs Hext Hn He) as [Q1 Q2]. rewrite H0 in Q2. change (inject_Z 0) with 0%Q in Q2.
        assert (Q0 : (edit_cost e (hi - lo + 1) n_t == 0)%Q) by lra. rewrite Q0 in C3, C4. lra.
    - intros EA Heq. unfold c in Heq. rewrite EA in Heq. fold (quot exactA) in Heq. pose proof (prec_exact K ltac:(lia)) as HP.
      apply (is_one exactA 0 K HP E f n_t sa sb x y lo hi e HE Hbs Hext Hn He K (Z.max 1 (Z.max (hi - lo + 1) n_t))); try lia.
      + setoid_replace (8 * 0 * inject_Z K * inject_Z (Z.max 1 (Z.max (hi - lo + 1) n_t)))%Q with 0%Q by ring. lra.
      + unfold quot. apply (rd_1 exactA _ _ HP). rewrite Heq. field. pose proof (inj_pos K HK0). lra. }
  assert (Ha' : (seg_len sa =? 0) = false) by (apply Z.eqb_neq, Ha). assert (Hb' : (seg_len sb =? 0) = false) by (apply Z.eqb_neq, Hb).
  assert (HR : room x y * Z.of_nat (size (types_in x y)) = D) by (unfold room, D, zsize, identify_types; reflexivity).
  destruct HC as [om|om Hs]; [exists (rd A (inject_Z d - c)), d|exists (rd A (inject_Z D - c)), D].
  - split.
    + unfold compare_B, compare_of. rewrite Ha', Hb'. cbn [negb andb]. rewrite (B_eq _ E f n_t sa sb x y lo hi e) by assumption. reflexivity.
    + split; [exact Hd|]. split; [intros Hs; rewrite HR; apply HD, Hs|]. apply R; [exact Hd|unfold d; lia].
  - specialize (HD Hs). split.
    + unfold compare_S, compare_of. rewrite Ha', Hb'. cbn [negb andb]. rewrite (S_eq _ E f n_t sa sb x y lo hi e) by assumption. reflexivity.
    + split; [lia|]. split; [intros _; lia|]. apply R; [lia|unfold d in HD; lia].
Qed.

(** A comparison that returns. *)
Lemma compare_inv P r : comparison A E n_t P cmp -> cmp f sa sb = Ok r ->
  seg_len sa <> 0 /\ seg_len sb <> 0 /\ n_t <> 0 /\
  exists x y, to_bstring f sa = Ok x /\ to_bstring f sb = Ok y /\ length x = length y /\ exists d, used x y d.
Proof.
  intros HC HR.
  assert (G : (seg_len sa <> 0 /\ seg_len sb <> 0) /\ forall e, ~ bed_fails A E (default_weights A) f n_t sa sb e).
  { destruct HC as [om|om _]; [unfold compare_B, compare_of in HR|unfold compare_S, compare_of in HR];
      destruct (Z.eqb_spec (seg_len sa) 0), (Z.eqb_spec (seg_len sb) 0); cbn [negb andb] in HR; try discriminate;
      (split; [split; assumption|]); intros e (_ & HB & HS & _); [rewrite HB in HR|rewrite HS in HR]; discriminate. }
  destruct G as [[H1 H2] G]. split; [exact H1|]. split; [exact H2|].
  destruct (to_bstrings f sa sb) as [[x y]|e] eqn:Hbs; [|exfalso; eapply G, to_bstrings_fails, Hbs].
  pose proof (to_bstrings_length _ _ _ _ _ Hbs) as Hl.
  assert (Hu : exists d, used x y d).
  { destruct (decide (identify_types x y = ∅)) as [C|C].
    - exfalso. apply (G ValueError). eapply (no_boundaries_error A E (default_weights A) f n_t sa sb x y); [exact HE|exact Hbs| |reflexivity].
      intros d Hd. apply elem_of_types in Hd. rewrite C in Hd. set_solver.
    - apply set_choose_L in C as [d Hd]. exists d. apply elem_of_types, Hd. }
  split; [intros ->; eapply G; apply (zero_n_t A E f sa sb x y HE Hbs), Hu|].
  exists x, y. assert (HT : to_bstring f sa = Ok x /\ to_bstring f sb = Ok y); [|destruct HT; auto].
  unfold to_bstrings in Hbs. destruct f.
  all: try (destruct (to_bstring _ sa); [|discriminate]; destruct (to_bstring _ sb); [|discriminate]; cbn [bind] in Hbs;
    destruct (negb _); [discriminate|]; injection Hbs as -> ->; auto).
  destruct (negb _); [discriminate|]. cbn [to_bstring]. destruct (as_sets sa); [|discriminate]. destruct (as_sets sb); [|discriminate].
  cbn [bind] in Hbs. injection Hbs as -> ->. auto.
Qed.
End One.

(** ** One comparison of a dataset *)

Definition seg_of (c : string) (ic : string * dict seg) : seg := default (Ints []) (dget (snd ic) c).
Definition num_of (cmp : Agreement.compare) (f : fmt) (m n : string) (ic : string * dict seg) : Q :=
  match cmp f (seg_of m ic) (seg_of n ic) with Ok (p, _) => nval p | Err _ => 0%Q end.
Definition den_of (cmp : Agreement.compare) (f : fmt) (m n : string) (ic : string * dict seg) : Z :=
  match cmp f (seg_of m ic) (seg_of n ic) with Ok (_, NInt d) => d | _ => 0 end.
Definition room_of (f : fmt) (m n : string) (ic : string * dict seg) : Z := room (coding f m ic) (coding f n ic).
Definition marks_of (f : fmt) (c : string) (ic : string * dict seg) : Z := marks (coding f c ic).
Definition size_of (f : fmt) (m n : string) (ic : string * dict seg) : Z :=
  2 * (room_of f m n ic * Z.of_nat (size (types_in (coding f m ic) (coding f n ic)))).

Lemma coding_seg f coders items ic c : coded f coders items -> ic ∈ items -> c ∈ coders ->
  dlookup (snd ic) c = Ok (seg_of c ic) /\ seg_len (seg_of c ic) <> 0 /\ to_bstring f (seg_of c ic) = Ok (coding f c ic).
Proof.
  intros H Hic Hc. destruct (coded_seg _ _ _ H ic c Hic Hc) as (s & x & H1 & H2 & H3).
  unfold seg_of, coding. rewrite H1. cbn [default id]. rewrite H3. split; [apply dlookup_Ok, H1|]. auto.
Qed.

Lemma marks_eq x : zsum (zsize <$> x) = marks x.
Proof.
  unfold marks, zsize. induction x as [|t x IH]; [reflexivity|]. rewrite !fmap_cons. unfold zsum in *. cbn [foldr sum_list fold_right] in *.
  rewrite IH. cbn [id]. lia.
Qed.

Lemma marks_room x y : 0 <= marks x <= room x y.
Proof.
  unfold marks, room, zlen. split; [lia|]. rewrite <- Nat2Z.inj_mul. apply inj_le.
  assert (G : forall x (U : gset Z), (forall t, t ∈ x -> t ⊆ U) -> (sum_list (size <$> x) <= length x * size U)%nat).
  { clear. induction x as [|t x IH]; intros U HU; [cbn; lia|]. rewrite fmap_cons.
    pose proof (subseteq_size t U (HU t ltac:(left))) as Ht. specialize (IH U ltac:(intros s Hs; apply HU; right; exact Hs)).
    change (sum_list (size t :: ?l)) with (size t + sum_list l)%nat. change (length (t :: x)) with (S (length x)). cbn [Nat.mul].
    generalize dependent (sum_list (size <$> x)). generalize dependent (size U). intros k Ht q IH. lia. }
  apply G. intros t Ht d Hd. apply elem_of_union_l, elem_of_union_list. eauto.
Qed.

Lemma room_sym x y : length x = length y -> room x y = room y x.
Proof. intros Hl. unfold room, zlen. rewrite Hl. do 3 f_equal. set_solver. Qed.

Lemma room_pos x y : length x = length y -> (exists d, used x y d) -> 0 < room x y /\ 0 < Z.of_nat (size (types_in x y)).
Proof.
  intros Hl [d Hd]. assert (HT : d ∈ types_in x y) by (apply (elem_of_types x y), Hd).
  assert (size (types_in x y) <> 0%nat) as Hs by (intros C; apply size_empty_inv in C; rewrite C in HT; set_solver).
  assert (Hx : (0 < length x)%nat).
  { destruct Hd as [i [(t & Ht & _)|(t & Ht & _)]]; apply lookup_lt_Some in Ht; lia. }
  unfold room, zlen. set (k := size (types_in x y)) in *. clearbody k. split; nia.
Qed.

Lemma job_ok A E n_t f coders items cmp m n ic : env_ok E -> n_t <> 0 -> coded f coders items ->
  comparison A E n_t (cached f coders items) cmp -> (m, n) ∈ pairs2 coders -> ic ∈ items ->
  job cmp f ((m, n), ic) = Ok ((NDec (num_of cmp f m n ic), NInt (den_of cmp f m n ic)), (room_of f m n ic, marks_of f m ic, marks_of f n ic)) /\
  0 < den_of cmp f m n ic /\
  (cached f coders items -> 2 * den_of cmp f m n ic <= size_of f m n ic) /\
  (forall eps M, prec A eps M -> den_of cmp f m n ic <= M -> below (num_of cmp f m n ic) (den_of cmp f m n ic) /\
    (coding f m ic = coding f n ic -> (num_of cmp f m n ic == inject_Z (den_of cmp f m n ic))%Q)) /\
  (A = exactA -> (num_of cmp f m n ic == inject_Z (den_of cmp f m n ic))%Q -> coding f m ic = coding f n ic).
Proof.
  intros HE Hn HC Hcmp Hp Hic. apply pairs2_distinct in Hp as (Hm & Hn' & Hne); [|exact (coded_coders _ _ _ HC)].
  destruct (coding_seg _ _ _ ic m HC Hic Hm) as (Lm & Sm & Bm). destruct (coding_seg _ _ _ ic n HC Hic Hn') as (Ln & Sn & Bn).
  pose proof (coded_len _ _ _ HC ic m n Hic Hm Hn') as Hl. pose proof (coded_used _ _ _ HC ic m n Hic Hm Hn' Hne) as Hu.
  destruct (compare_ok A E n_t cmp f (seg_of m ic) (seg_of n ic) HE (coding f m ic) (coding f n ic)) as (p & d & Hcd & Hd & Hsz & Hrng & Hex); try assumption.
  { eapply comparison_impl; [|exact Hcmp]. intros Hca. apply Hca; assumption. }
  assert (num_of cmp f m n ic = p) as -> by (unfold num_of; rewrite Hcd; reflexivity).
  assert (den_of cmp f m n ic = d) as -> by (unfold den_of; rewrite Hcd; reflexivity).
  split; [|split; [exact Hd|split; [|split; assumption]]].
  - unfold job. rewrite Lm, Ln. cbn [bind]. rewrite Hcd. cbn [bind]. unfold potential_boundaries, boundaries. rewrite Bm, Bn. cbn [bind].
    rewrite !marks_eq. reflexivity.
  - intros Hca. unfold size_of, room_of. specialize (Hsz (Hca ic m n Hic Hm Hn')). lia.
Qed.

(** ** The parts *)

Section Parts.
Context (A : arith) (E : env) (n_t : Z) (f : fmt) (coders : list string) (items : dict (dict seg)) (cmp : Agreement.compare).
Context (HE : env_ok E) (Hn : n_t <> 0) (HC : coded f coders items) (Hcmp : comparison A E n_t (cached f coders items) cmp).

Notation J := (jobs_of coders items).
Notation Es := (J ≫= entry2 (marks_of f) (room_of f)).

Lemma parts_coded : agreement_parts cmp f coders items =
  Ok (Acc (NDec <$> (over (num_of cmp f) <$> J)) (NInt <$> (over (den_of cmp f) <$> J)) (over (room_of f) <$> J) (group Es)).
Proof.
  rewrite (parts_closed cmp f coders items (fun m n ic => NDec (num_of cmp f m n ic)) (fun m n ic => NInt (den_of cmp f m n ic)) (room_of f) (marks_of f)).
  - rewrite <- !list_fmap_compose. f_equal. f_equal; apply list_fmap_ext; intros i [[m n] ic] _; reflexivity.
  - intros m n ic Hp Hic. eapply job_ok; eassumption.
Qed.

Lemma two_coders : pairs2 coders <> [].
Proof.
  pose proof (coded_two _ _ _ HC) as H. pose proof (pairs2_length coders) as HL. intros E0. rewrite E0 in HL. cbn [length] in HL.
  destruct (length coders) as [|[|k]]; lia.
Qed.

Lemma jobs_nonempty : J <> [].
Proof using HC.
  clear A E n_t cmp HE Hn Hcmp.
  pose proof two_coders as H1. pose proof (coded_items _ _ _ HC) as H2. unfold jobs_of.
  destruct (pairs2 coders) as [|p P]; [contradiction|]. destruct items as [|ic I]; [contradiction|]. discriminate.
Qed.

Lemma over_elem {C} (g : string -> string -> string * dict seg -> C) (Q : C -> Prop) :
  (forall m n ic, (m, n) ∈ pairs2 coders -> ic ∈ items -> Q (g m n ic)) -> forall j, j ∈ J -> Q (over g j).
Proof. intros H [[m n] ic] Hj. apply elem_of_jobs_of in Hj as [Hp Hic]. apply H; assumption. Qed.

Lemma den_pos : forall j, j ∈ J -> 0 < over (den_of cmp f) j.
Proof. apply over_elem. intros m n ic Hp Hic. eapply job_ok; eassumption. Qed.

Lemma zsum_pos {X} (g : X -> Z) l : (forall x, x ∈ l -> 0 < g x) -> Z.of_nat (length l) <= zsum (g <$> l).
Proof.
  induction l as [|x l IH]; intros H; [reflexivity|]. rewrite fmap_cons. unfold zsum in *. cbn [foldr length].
  pose proof (H x ltac:(left)). specialize (IH ltac:(intros y Hy; apply H; right; exact Hy)). lia.
Qed.

Lemma zsum_le {X} (g h : X -> Z) l : (forall x, x ∈ l -> g x <= h x) -> zsum (g <$> l) <= zsum (h <$> l).
Proof.
  induction l as [|x l IH]; intros H; [reflexivity|]. rewrite !fmap_cons. unfold zsum in *. cbn [foldr].
  pose proof (H x ltac:(left)). specialize (IH ltac:(intros y Hy; apply H; right; exact Hy)). lia.
Qed.

Lemma zsum_elem {X} (g : X -> Z) l x : (forall y, y ∈ l -> 0 <= g y) -> x ∈ l -> g x <= zsum (g <$> l).
Proof.
  induction l as [|y l IH]; intros H Hx; [apply elem_of_nil in Hx; contradiction|]. rewrite fmap_cons. unfold zsum in *. cbn [foldr].
  assert (0 <= foldr Z.add 0 (g <$> l)).
  { clear IH Hx. assert (H' : forall z, z ∈ l -> 0 <= g z) by (intros z Hz; apply H; right; exact Hz). clear H.
    induction l as [|z l IH]; [reflexivity|]. rewrite fmap_cons. cbn [foldr]. pose proof (H' z ltac:(left)).
    specialize (IH ltac:(intros w Hw; apply H'; right; exact Hw)). lia. }
  pose proof (H y ltac:(left)). apply elem_of_cons in Hx as [->|Hx]; [lia|].
  specialize (IH ltac:(intros z Hz; apply H; right; exact Hz) Hx). lia.
Qed.

Definition dsum : Z := zsum (over (den_of cmp f) <$> J).

Lemma dsum_pos : Z.of_nat (length J) <= dsum /\ 0 < dsum.
Proof.
  pose proof (zsum_pos _ J den_pos) as H. fold dsum in H. split; [exact H|]. pose proof jobs_nonempty as Hne. destruct J; [contradiction|]. cbn [length] in H. lia.
Qed.

Lemma dsum_workload : cached f coders items -> 2 * dsum <= workload f coders items.
Proof.
  intros Hca. unfold workload, gather, comparisons. rewrite two_of_pairs2. fold (jobs_of coders items).
  assert (H : zsum ((fun j => 2 * over (den_of cmp f) j) <$> J) = 2 * dsum).
  { unfold dsum. generalize (over (den_of cmp f)). intros g. induction J as [|j l IH]; [reflexivity|].
    rewrite !fmap_cons. unfold zsum in *. cbn [foldr]. lia. }
  rewrite <- H. apply zsum_le. intros [[m n] ic] Hj. apply elem_of_jobs_of in Hj as [Hp Hic]. cbn [over].
  eapply job_ok; eassumption.
Qed.

Lemma nums_below eps M : prec A eps M -> dsum <= M -> Forall2 below (over (num_of cmp f) <$> J) (over (den_of cmp f) <$> J).
Proof.
  intros HP HM. apply Forall2_fmap2. intros j Hj.
  assert (Hle : over (den_of cmp f) j <= dsum).
  { apply zsum_elem; [|exact Hj]. intros j' Hj'. pose proof (den_pos j' Hj'). lia. }
  destruct j as [[m n] ic]. apply elem_of_jobs_of in Hj as [Hp Hic]. cbn [over] in *.
  eapply job_ok; try eassumption. lia.
Qed.

Lemma nums_agree eps M : prec A eps M -> dsum <= M -> unanimous f coders items ->
  Forall2 (fun q d => (q == inject_Z d)%Q) (over (num_of cmp f) <$> J) (over (den_of cmp f) <$> J).
Proof.
  intros HP HM HU. apply Forall2_fmap2. intros j Hj.
  assert (Hle : over (den_of cmp f) j <= dsum).
  { apply zsum_elem; [|exact Hj]. intros j' Hj'. pose proof (den_pos j' Hj'). lia. }
  destruct j as [[m n] ic]. apply elem_of_jobs_of in Hj as [Hp Hic]. cbn [over] in *.
  destruct (job_ok A E n_t f coders items cmp m n ic HE Hn HC Hcmp Hp Hic) as (_ & _ & _ & H & _).
  apply (H eps M HP ltac:(lia)). apply pairs2_distinct in Hp as (Hm & Hn' & _); [|exact (coded_coders _ _ _ HC)]. apply HU; assumption.
Qed.

Lemma parts_Aa a : agreement_parts cmp f coders items = Ok a ->
  agreement_Aa A a = agreement_Aa A (Acc (NDec <$> (over (num_of cmp f) <$> J)) (NInt <$> (over (den_of cmp f) <$> J)) [] []).
Proof. rewrite parts_coded. intros [= <-]. reflexivity. Qed.

(** *** Entries *)

Lemma elem_of_entries c e : (c, e) ∈ Es <-> exists m n ic, (m, n) ∈ pairs2 coders /\ ic ∈ items /\
  ((c = m /\ e = (marks_of f m ic, room_of f m n ic)) \/ (c = n /\ e = (marks_of f n ic, room_of f m n ic))).
Proof.
  rewrite elem_of_list_bind. split.
  - intros ([[m n] ic] & He & Hj). apply elem_of_jobs_of in Hj as [Hp Hic]. exists m, n, ic. split; [exact Hp|]. split; [exact Hic|].
    cbn [entry2] in He. rewrite !elem_of_cons, elem_of_nil in He. destruct He as [He|[He|[]]]; injection He as -> ->; auto.
  - intros (m & n & ic & Hp & Hic & He). exists ((m, n), ic). rewrite elem_of_jobs_of. split; [|auto]. cbn [entry2].
    destruct He as [[-> ->]|[-> ->]]; [left|right; left].
Qed.

Lemma entries_share e : e ∈ Es.*2 -> share e.
Proof.
  intros He. apply elem_of_list_fmap in He as ([c e'] & -> & He). cbn [snd]. apply elem_of_entries in He as (m & n & ic & Hp & Hic & He).
  apply pairs2_distinct in Hp as (Hm & Hn' & Hne); [|exact (coded_coders _ _ _ HC)].
  pose proof (coded_len _ _ _ HC ic m n Hic Hm Hn') as Hl. pose proof (coded_used _ _ _ HC ic m n Hic Hm Hn' Hne) as Hu.
  destruct (room_pos _ _ Hl Hu) as [Hr _]. unfold share, marks_of, room_of in *.
  destruct He as [[-> ->]|[-> ->]]; cbn [fst snd]; (split; [|exact Hr]); [apply marks_room|].
  rewrite room_sym by exact Hl. apply marks_room.
Qed.

Lemma entries_keys c : c ∈ Es.*1 <-> c ∈ coders.
Proof using HC.
  clear A E n_t cmp HE Hn Hcmp.
  split.
  - intros H. apply elem_of_list_fmap in H as ([c' e] & -> & H). apply elem_of_entries in H as (m & n & ic & Hp & _ & H).
    apply pairs2_distinct in Hp as (Hm & Hn' & _); [|exact (coded_coders _ _ _ HC)]. cbn [fst]. destruct H as [[-> _]|[-> _]]; assumption.
  - intros Hc. pose proof (coded_two _ _ _ HC) as H2. pose proof (coded_coders _ _ _ HC) as HN. pose proof (coded_items _ _ _ HC) as HI.
    destruct items as [|ic I] eqn:EI; [contradiction|]. rewrite <- EI in *.
    assert (Hic : ic ∈ items) by (rewrite EI; left).
    apply elem_of_list_lookup in Hc as [i Hi]. pose proof (lookup_lt_Some _ _ _ Hi) as Hlt.
    assert (exists j c', i <> j /\ coders !! j = Some c') as (j & c' & Hij & Hj).
    { destruct (decide (i = 0%nat)) as [->|Hne].
      - destruct (lookup_lt_is_Some_2 coders 1%nat ltac:(lia)) as [c' Hc']. exists 1%nat, c'. auto.
      - destruct (lookup_lt_is_Some_2 coders 0%nat ltac:(lia)) as [c' Hc']. exists 0%nat, c'. auto. }
    destruct (decide (i < j)%nat) as [C|C].
    + apply elem_of_list_fmap. exists (c, (marks_of f c ic, room_of f c c' ic)). split; [reflexivity|]. apply elem_of_entries. exists c, c', ic.
      split; [apply elem_of_pairs2; exists i, j; auto|]. auto.
    + apply elem_of_list_fmap. exists (c, (marks_of f c ic, room_of f c' c ic)). split; [reflexivity|]. apply elem_of_entries. exists c', c, ic.
      split; [apply elem_of_pairs2; exists j, i; split; [lia|auto]|]. auto.
Qed.

Lemma group_keys : (group Es).*1 ≡ₚ coders.
Proof using HC.
  clear A E n_t cmp HE Hn Hcmp.
  apply NoDup_Permutation; [apply pushes_ok, NoDup_nil_2|exact (coded_coders _ _ _ HC)|].
  intros c. rewrite pushes_keys, entries_keys. cbn. set_solver.
Qed.

Lemma group_values : mjoin (group Es).*2 ≡ₚ Es.*2.
Proof. rewrite pushes_values. reflexivity. Qed.

Lemma group_elem k l : (k, l) ∈ group Es -> l <> [] /\ l = (filter (fun e => fst e = k) Es).*2.
Proof.
  intros H. apply dget_Some in H; [|apply pushes_ok, NoDup_nil_2]. rewrite dget_pushes in H.
  destruct (decide (k ∈ Es.*1)) as [C|C]; [|discriminate]. cbn [dget default app] in H. injection H as <-. split; [|reflexivity].
  apply elem_of_list_fmap in C as ([k' e] & -> & C). cbn [fst].
  intros E0. assert (e ∈ (filter (fun e0 => e0.1 = k') Es).*2) as Hin.
  { apply elem_of_list_fmap. exists (k', e). split; [reflexivity|]. apply elem_of_list_filter. auto. }
  rewrite E0 in Hin. apply elem_of_nil in Hin. exact Hin.
Qed.

Lemma group_share k l : (k, l) ∈ group Es -> l <> [] /\ Forall share l.
Proof.
  intros H. apply group_elem in H as [H1 ->]. split; [exact H1|]. apply Forall_forall. intros e He. apply entries_share.
  apply elem_of_list_fmap in He as ([k' e'] & -> & He). apply elem_of_list_filter in He as [_ He]. apply elem_of_list_fmap. eauto.
Qed.

Lemma entries_length : zlen Es = 2 * Z.of_nat (length J).
Proof. unfold zlen. induction J as [|[[m n] ic] l IH]; [reflexivity|]. cbn [mbind list_bind entry2 length app]. lia. Qed.
End Parts.
