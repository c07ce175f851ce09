(** Tests of the model, not properties: the values asserted by the test suite of
    the repository, recomputed with the model under CPython's arithmetic.  The
    checks are evaluated when this file is compiled and leave no terms behind. *)
From stdpp Require Import gmap strings.
From Verif Require Import Spec Agreement Round.
Open Scope Z_scope.

Definition chars (s : string) : list Ascii.ascii := String.list_ascii_of_string s.
Definition mass (l : list Z) : seg := Ints (ints l).
Definition nltk (s : string) : seg := Str (chars s).

(** [assertAlmostEqual] to [k] places, and [assertEqual]. *)
Definition near (k : Z) (q : Q) (r : res num) : bool :=
  match r with Ok v => Qle_bool (Qabs (nval v - q)) (1 # 2 * Z.to_pos (10 ^ k)) | Err _ => false end.
Definition is (q : Q) (r : res num) : bool :=
  match r with Ok v => Qeq_bool (nval v) q | Err _ => false end.
Definition raises {A} (e : exn) (r : res A) : bool :=
  match r with Ok _ => false | Err e' => bool_decide (e = e') end.

(** data/samples.py. *)
Definition kazantseva2012_g5 : dict (dict seg) :=
  ([("ch1", [("an4", (mass [2; 8; 2; 1]));
     ("an1", (mass [11; 2]));
     ("an2", (mass [2; 1; 7; 2; 1]));
     ("an3", (mass [9; 4]))]);
   ("ch11", [("an4", (mass [10; 4; 3; 2; 1; 8; 3; 2; 6; 1; 2; 8; 10; 9; 4; 10; 4; 8; 4; 3; 5; 4]));
     ("an1", (mass [20; 22; 8; 11; 11; 11; 13; 11; 4]));
     ("an2", (mass [1; 7; 2; 4; 3; 3; 10; 1; 1; 5; 3; 2; 8; 3; 3; 3; 14; 4; 1; 1; 4; 4; 2; 7; 3; 2; 3; 3; 2; 1; 1]));
     ("an3", (mass [10; 10; 15; 11; 4; 10; 13; 5; 4; 23; 6]))]);
   ("ch4", [("an4", (mass [2; 9; 2; 5; 2; 19; 1; 6]));
     ("an1", (mass [17; 25; 4]));
     ("an2", (mass [1; 10; 2; 4; 1; 2; 3; 10; 6; 6; 1]));
     ("an3", (mass [12; 5; 29]))]);
   ("ch3", [("an4", (mass [2; 3; 4; 2; 5; 17; 4; 1]));
     ("an1", (mass [6; 5; 27]));
     ("an2", (mass [3; 8; 2; 3; 17; 2; 2; 1]));
     ("an3", (mass [3; 15; 15; 5]))])])%string.

Definition kazantseva2012_g2 : dict (dict seg) :=
  ([("ch8", [("an5", (mass [9; 7; 5; 12; 4; 2]));
     ("an6", (mass [3; 5; 4; 3; 6; 7; 5; 4; 2]));
     ("an7", (mass [2; 6; 2; 2; 2; 8; 8; 3; 4; 1; 1]));
     ("an10", (mass [2; 6; 4; 3; 6; 7; 5; 4; 1; 1]));
     ("an8", (mass [8; 4; 21; 4; 2]));
     ("an9", (mass [3; 5; 4; 10; 9; 6; 2]))]);
   ("ch10", [("an5", (mass [24; 6; 45; 6; 2]));
     ("an6", (mass [3; 3; 2; 3; 8; 1; 4; 6; 11; 22; 10; 6; 4]));
     ("an7", (mass [3; 3; 2; 16; 6; 45; 4; 1; 1; 1; 1]));
     ("an10", (mass [3; 5; 16; 5; 8; 2; 23; 13; 4; 4]));
     ("an8", (mass [8; 16; 6; 32; 11; 6; 1; 3]));
     ("an9", (mass [3; 3; 2; 11; 5; 6; 45; 4; 4]))]);
   ("ch2", [("an5", (mass [4; 7; 3; 1]));
     ("an6", (mass [4; 7; 3; 1]));
     ("an7", (mass [5; 6; 3; 1]));
     ("an10", (mass [5; 5; 4; 1]));
     ("an8", (mass [14; 1]));
     ("an9", (mass [14; 1]))]);
   ("ch5", [("an5", (mass [9; 4; 5; 9; 8; 7]));
     ("an6", (mass [2; 1; 6; 3; 2; 4; 17; 7]));
     ("an7", (mass [19; 15; 8]));
     ("an10", (mass [4; 10; 5; 1; 14; 4; 4]));
     ("an8", (mass [9; 4; 6; 16; 3; 4]));
     ("an9", (mass [13; 6; 15; 8]))])])%string.

Definition hearst_1997_stargazer : dict (dict seg) :=
  ([("stargazer", [("1", (mass [2; 3; 3; 1; 3; 6; 3]));
     ("2", (mass [2; 8; 2; 4; 2; 3]));
     ("3", (mass [2; 1; 2; 3; 1; 3; 1; 3; 2; 2; 1]));
     ("4", (mass [2; 1; 4; 1; 1; 3; 1; 4; 3; 1]));
     ("5", (mass [3; 2; 4; 3; 5; 4]));
     ("6", (mass [2; 3; 4; 2; 2; 5; 3]));
     ("7", (mass [2; 3; 2; 2; 3; 1; 3; 2; 3]))])])%string.

Definition hypothesis_stargazer : dict (dict seg) :=
  ([("stargazer", [("h1", (mass [2; 6; 4; 2; 4; 3]));
     ("h2", (mass [2; 1; 1; 1; 5; 8; 2; 1]))])])%string.

Definition complete_agreement : dict (dict seg) :=
  ([("item1", [("an4", (mass [2; 8; 2; 1]));
     ("an1", (mass [2; 8; 2; 1]));
     ("an2", (mass [2; 8; 2; 1]));
     ("an3", (mass [2; 8; 2; 1]))]);
   ("item2", [("an4", (mass [20; 22; 8; 11; 11; 11; 13; 11; 4]));
     ("an1", (mass [20; 22; 8; 11; 11; 11; 13; 11; 4]));
     ("an2", (mass [20; 22; 8; 11; 11; 11; 13; 11; 4]));
     ("an3", (mass [20; 22; 8; 11; 11; 11; 13; 11; 4]))]);
   ("item3", [("an4", (mass [2; 9; 2; 5; 2; 19; 1; 6]));
     ("an1", (mass [2; 9; 2; 5; 2; 19; 1; 6]));
     ("an2", (mass [2; 9; 2; 5; 2; 19; 1; 6]));
     ("an3", (mass [2; 9; 2; 5; 2; 19; 1; 6]))]);
   ("item4", [("an4", (mass [6; 5; 27]));
     ("an1", (mass [6; 5; 27]));
     ("an2", (mass [6; 5; 27]));
     ("an3", (mass [6; 5; 27]))])])%string.

Definition large_disagreement : dict (dict seg) :=
  ([("item1", [("an5", (mass [12]));
     ("an6", (mass [1; 1; 1; 1; 1; 1; 1; 1; 1; 1; 1; 1]))]);
   ("item2", [("an5", (mass [20]));
     ("an6", (mass [1; 1; 1; 1; 1; 1; 1; 1; 1; 1; 1; 1; 1; 1; 1; 1; 1; 1; 1; 1]))]);
   ("item3", [("an5", (mass [5]));
     ("an6", (mass [1; 1; 1; 1; 1]))]);
   ("item4", [("an5", (mass [42]));
     ("an6", (mass [1; 1; 1; 1; 1; 1; 1; 1; 1; 1; 1; 1; 1; 1; 1; 1; 1; 1; 1; 1; 1; 1; 1; 1; 1; 1; 1; 1; 1; 1; 1; 1; 1; 1; 1; 1; 1; 1; 1; 1; 1; 1]))])])%string.

Definition multiple_boundary_types : dict (dict seg) :=
  ([("item1", [("an5", (Sets [{[1]}; ∅; ∅; ∅; {[1]}]));
     ("an6", (Sets [{[1]}; ∅; ∅; ∅; {[2]}]))]);
   ("item2", [("an5", (Sets [{[1]}; ∅; ∅; ∅; {[1]}]));
     ("an6", (Sets [∅; ∅; ∅; {[1]}; ∅]))])])%string.

(** The public functions with their default arguments. *)
Definition get_b (r : res bres) : res num :=
  match r with Ok (BVal v) => Ok v | Ok _ => Err TypeError | Err e => Err e end.
Definition get_s (r : res sres) : res num :=
  match r with Ok (SVal v) => Ok v | Ok _ => Err TypeError | Err e => Err e end.
Definition get_w (r : res wres) : res num :=
  match r with Ok (WVal v) => Ok v | Ok _ => Err TypeError | Err e => Err e end.
Definition get_g (r : res agres) : res num :=
  match r with Ok (GVal v) => Ok v | Ok _ => Err TypeError | Err e => Err e end.
Definition t_b f a b := get_b (boundary_similarity pyA env0 (default_weights pyA) f 2 false false a b).
Definition t_s f a b := get_s (segmentation_similarity pyA env0 (default_weights pyA) f 2 false false a b).
Definition t_pk f w a b := get_w (pk pyA default_round f w false false a b).
Definition t_wd f w l a b := get_w (window_diff pyA default_round f w l false false a b).
Definition t_cmp := compare_B pyA env0 (default_weights pyA) 2 false.
Definition t_ord : gset string -> list string := elements.
Definition t_aa f d := actual_agreement_linear pyA t_cmp f t_ord (CDict d).
Definition t_pi f d := get_g (fleiss_pi_linear pyA t_cmp f t_ord false (CDict d)).
Definition t_kappa f d := get_g (fleiss_kappa_linear pyA t_cmp f t_ord false (CDict d)).
Definition t_bias f d := get_g (artstein_poesio_bias_linear pyA t_cmp f t_ord false (CDict d)).
Definition only (k : string) (d : dict (dict seg)) := filter (fun x => x.1 = k) d.
Definition t_sum (metric : seg -> seg -> res num) (permuted : bool) (d : dict (dict seg)) :=
  let* v := compute_pairwise_values metric t_ord permuted d None in summarize pyA v.
Definition sums_to (k : Z) (a b c d : Q) (n : Z) (r : res (num * num * num * num * Z)) : bool :=
  match r with
  | Ok (x, y, z, e, m) => near k a (Ok x) && near k b (Ok y) && near k c (Ok z) && near k d (Ok e) && (m =? n)
  | Err _ => false
  end.

(** similarity/boundary_test.py. *)
Definition tests_b : list bool := ([is (1 # 2) (t_b FMass (mass [2; 3; 6]) (mass [5; 6]));
   is (3 # 4) (t_b FMass (mass [2; 3; 6]) (mass [2; 2; 7]));
   is (1 # 2) (t_b FMass (mass [2; 3; 6]) (mass [1; 1; 3; 1; 5]));
   near 4 (33333 # 50000) (t_b FMass (mass [2; 3; 6]) (mass [2; 3; 3; 3]));
   is (1 # 4) (get_b (boundary_similarity pyA env0 (default_weights pyA) FMass 2 true false (mass [2; 3; 6]) (mass [2; 2; 7])));
   is (3 # 4) (t_b FNltk (nltk "01001000000") (nltk "01010000000"));
   is 0 (t_b FPosition (mass [1; 1; 1; 1; 1; 1; 1; 1; 1; 1; 1; 1; 1]) (mass [1; 1; 1; 1; 2; 2; 2; 2; 3; 3; 3; 3; 3]));
   is 0 (t_b FMass (mass [11]) (mass [5; 6]));
   is 0 (t_b FMass (mass [5; 6]) (mass [11]));
   raises SegmentationMetricError (t_b FOther (mass [1; 1; 1; 1; 1; 1; 1; 1; 1; 1; 1; 1; 1]) (mass [1; 1; 1; 1; 2; 2; 2; 2; 3; 3; 3; 3; 3]));
   match boundary_similarity pyA env0 plain_weights FMass 2 false false (mass [2; 3; 6]) (mass [5; 6]) with Ok (BVal (NFlt x)) => Qeq_bool x (1 # 2) | _ => false end;
   sums_to 28 (1 # 2) (1 # 4) (1 # 16) (883883476483184405501055453 # 5000000000000000000000000000) 2 (t_sum (t_b FSets) false multiple_boundary_types);
   near 7 (57142857 # 100000000) (t_b FMass (mass [2; 6; 4; 2; 4; 3]) (mass [2; 3; 3; 1; 3; 6; 3]));
   near 7 (4861111 # 12500000) (t_b FMass (mass [2; 1; 1; 1; 5; 8; 2; 1]) (mass [2; 3; 3; 1; 3; 6; 3]));
   near 7 (21428571 # 50000000) (t_b FMass (mass [2; 6; 4; 2; 4; 3]) (mass [2; 8; 2; 4; 2; 3]));
   near 7 (33333333 # 100000000) (t_b FMass (mass [2; 1; 1; 1; 5; 8; 2; 1]) (mass [2; 8; 2; 4; 2; 3]))])%string.
Check (eq_refl true <: true = forallb id tests_b).

(** similarity/segmentation_test.py. *)
Definition tests_s : list bool := ([is (9 # 10) (t_s FMass (mass [2; 3; 6]) (mass [5; 6]));
   is (9 # 10) (t_s FMass (mass [2; 3; 6]) (mass [2; 3; 3; 3]));
   is (19 # 20) (t_s FMass (mass [2; 3; 6]) (mass [2; 2; 7]));
   is (4 # 5) (t_s FMass (mass [2; 3; 6]) (mass [1; 1; 3; 1; 5]));
   is (1 # 20) (get_s (segmentation_similarity pyA env0 (default_weights pyA) FMass 2 true false (mass [2; 3; 6]) (mass [2; 2; 7])));
   is (19 # 20) (t_s FNltk (nltk "0100100000") (nltk "0101000000"));
   match segmentation_similarity pyA env0 (default_weights pyA) FMass 2 false true (mass [2; 3; 6]) (mass [5; 6]) with Ok (SParts n d) => is 9 (Ok n) && is 10 (Ok d) | _ => false end;
   raises SegmentationMetricError (t_s FOther (mass [2; 3; 6]) (mass [2; 2; 7]));
   raises SegmentationMetricError (t_s FMass (mass [2; 2; 7]) (mass [2; 2; 8]));
   near 7 (17 # 20) (t_s FMass (mass [2; 6; 4; 2; 4; 3]) (mass [2; 3; 3; 1; 3; 6; 3]));
   near 7 (29 # 40) (t_s FMass (mass [2; 1; 1; 1; 5; 8; 2; 1]) (mass [2; 3; 3; 1; 3; 6; 3]));
   near 7 (4 # 5) (t_s FMass (mass [2; 6; 4; 2; 4; 3]) (mass [2; 8; 2; 4; 2; 3]));
   near 7 (7 # 10) (t_s FMass (mass [2; 1; 1; 1; 5; 8; 2; 1]) (mass [2; 8; 2; 4; 2; 3]))])%string.
Check (eq_refl true <: true = forallb id tests_s).

Definition bed_is (adds : list (Z * side)) (subs : list (Z * Z)) (ts : list (nat * nat * Z)) (n_t : Z) (a b : bstring) : bool :=
  match boundary_edit_distance env0 a b n_t with
  | Ok e => bool_decide ((fun x => (a_type x, a_side x)) <$> e_add e = adds) && bool_decide (e_sub e = subs) &&
            bool_decide ((fun t => (t_start t, t_end t, t_type t)) <$> e_transp e = ts)
  | Err _ => false
  end.

(** similarity/distance/multipleboundary_test.py. *)
Definition tests_bed : list bool := ([bed_is [] [] [] 2 [∅; {[1]}; ∅; ∅; {[1]}; ∅; ∅; ∅; ∅; ∅] [∅; {[1]}; ∅; ∅; {[1]}; ∅; ∅; ∅; ∅; ∅];
   bed_is [(1, SideB); (1, SideB); (1, SideB); (1, SideB); (1, SideB); (1, SideB); (1, SideB); (1, SideB); (1, SideB); (1, SideB)] [] [] 2 [∅; ∅; ∅; ∅; ∅; ∅; ∅; ∅; ∅; ∅] [{[1]}; {[1]}; {[1]}; {[1]}; {[1]}; {[1]}; {[1]}; {[1]}; {[1]}; {[1]}];
   bed_is [(3, SideB); (3, SideB)] [(1, 2)] [(4%nat, 5%nat, 1)] 2 [∅; {[1]}; ∅; ∅; {[1]}; ∅; ∅; ∅; ∅; ∅] [∅; {[2; 3]}; ∅; ∅; ∅; {[1]}; ∅; ∅; {[3]}; ∅];
   bed_is [(2, SideA)] [] [(5%nat, 6%nat, 2)] 2 [∅; ∅; ∅; {[2]}; ∅; ∅; {[2]}; ∅; ∅; ∅] [∅; ∅; ∅; ∅; ∅; {[2]}; ∅; ∅; ∅; ∅];
   bed_is [(2, SideA)] [] [] 2 [∅; ∅; {[2]}; ∅; ∅; {[2]}; {[2]}; ∅; ∅; ∅] [∅; ∅; ∅; ∅; ∅; {[2]}; {[2]}; ∅; ∅; ∅];
   bed_is [(2, SideA)] [] [(4%nat, 5%nat, 2)] 2 [∅; ∅; ∅; ∅; {[2]}; ∅; {[2]}; ∅; ∅; ∅] [∅; ∅; ∅; ∅; ∅; {[2]}; ∅; ∅; ∅; ∅];
   bed_is [] [(2, 1); (1, 2)] [] 3 [∅; ∅; ∅; {[2]}; ∅; {[1]}; ∅; ∅; ∅; ∅] [∅; ∅; ∅; {[1]}; ∅; {[2]}; ∅; ∅; ∅; ∅];
   bed_is [] [(2, 1); (3, 2)] [] 3 [∅; ∅; ∅; {[2]}; ∅; {[3]}; ∅; ∅; ∅; ∅] [∅; ∅; ∅; {[1]}; ∅; {[2]}; ∅; ∅; ∅; ∅];
   bed_is [(4, SideA)] [(2, 1); (3, 2)] [] 3 [∅; ∅; ∅; {[2; 4]}; ∅; {[3]}; ∅; ∅; ∅; ∅] [∅; ∅; ∅; {[1]}; ∅; {[2]}; ∅; ∅; ∅; ∅];
   bed_is [(4, SideB)] [(2, 1); (3, 2)] [] 3 [∅; ∅; ∅; {[2]}; ∅; {[3]}; ∅; ∅; ∅; ∅] [∅; ∅; ∅; {[1; 4]}; ∅; {[2]}; ∅; ∅; ∅; ∅];
   bed_is [] [] [(3%nat, 4%nat, 3); (3%nat, 5%nat, 1); (3%nat, 5%nat, 2)] 3 [∅; ∅; ∅; {[1; 2; 3]}; ∅; ∅; ∅; ∅; ∅; ∅] [∅; ∅; ∅; ∅; {[3]}; {[1; 2]}; ∅; ∅; ∅; ∅];
   Qeq_bool (snd (additions_substitutions {[2; 3; 4; 6]} {[2; 3; 4]} {[6]})) 1;
   match additions_substitutions_sets {[2; 3; 4; 6]} {[2; 3; 4]} {[6]} with Ok (x, y) => bool_decide (x = [Addition 2 SideA; Addition 3 SideA]) && bool_decide (y = [(4, 6)]) | _ => false end])%string.
Check (eq_refl true <: true = forallb id tests_bed).

(** similarity/weight_test.py. *)
Definition tests_weight : list bool := ([is (3 # 2) (weight_t_scale pyA [Transp 1 2 1; Transp 1 3 1; Transp 1 4 1] 4);
   is (3 # 2) (weight_s_scale pyA [(1, 2); (1, 3); (1, 4)] 4 1);
   is (3 # 2) (weight_s_scale pyA [(1, 2); (1, 3); (1, 4)] 5 2)])%string.
Check (eq_refl true <: true = forallb id tests_weight).

Definition stats_are (c : Q) (adds : list addition) (fm : list Z) (all : Z) (ms : list Z) (pbs : Z) (tys : tyset) (r : res stats) : bool :=
  match r with
  | Ok s => is c (Ok (st_count s)) && bool_decide (e_add (st_edits s) = adds) && bool_decide (e_sub (st_edits s) = []) &&
            bool_decide (e_transp (st_edits s) = []) && bool_decide (st_full_misses s = fm) && (st_all s =? all) &&
            bool_decide (st_matches s = ms) && (st_pbs s =? pbs) && bool_decide (st_types s = tys)
  | Err _ => false
  end.
Definition t_classes : cord := elements.
Definition cell (p a : label) (q : Q) (r : res cmatrix) : bool :=
  match r with Ok m => Qeq_bool (nval (fst (cm_get m p a))) q | Err _ => false end.
Definition query (f : cmatrix -> res (num * cmatrix)) (r : res cmatrix) : res num :=
  let* m := r in let* (v, _) := f m in Ok v.
Definition t_prec := query (fun m => precision pyA t_classes m None AvgMicro).
Definition t_rec := query (fun m => recall pyA t_classes m None AvgMicro).
Definition t_f := query (fun m => fmeasure pyA t_classes 1 m None AvgMicro).
Definition t_matrix f a b := boundary_confusion_matrix pyA env0 (default_weights pyA) f 2 a b.
Definition t_mixed := t_matrix FSets (Sets [∅; {[2]}; ∅; ∅; {[1]}; {[1]}; {[1]}; {[1]}])
  (Sets [{[1]}; {[1]}; ∅; {[1]}; ∅; {[1]}; ∅; ∅]).

(** similarity/test.py: the confusion matrix and the statistics. *)
Definition tests_similarity : list bool := ([cell None (Some 1) (2 # 1) t_mixed;
   cell (Some 1) None (1 # 1) t_mixed;
   cell None (Some 2) (0 # 1) t_mixed;
   cell (Some 2) None (0 # 1) t_mixed;
   cell (Some 2) (Some 1) (1 # 1) t_mixed;
   cell (Some 1) (Some 2) (0 # 1) t_mixed;
   cell (Some 1) (Some 1) (3 # 2) t_mixed;
   cell (Some 2) (Some 2) (0 # 1) t_mixed;
   stats_are 1 [Addition 1 SideA] [1] 3 [1] 10 {[1]} (boundary_statistics pyA env0 (default_weights pyA) FMass 2 (mass [2; 3; 6]) (mass [5; 6]));
   near 7 (23076923 # 100000000) (t_prec (t_matrix FMass (mass [5; 5; 5; 5; 1]) (mass [2; 8; 2; 4; 2; 3])));
   near 7 (23076923 # 100000000) (t_rec (t_matrix FMass (mass [5; 5; 5; 5; 1]) (mass [2; 8; 2; 4; 2; 3])));
   near 7 (3 # 8) (t_f (t_matrix FMass (mass [5; 5; 5; 5; 1]) (mass [2; 8; 2; 4; 2; 3])));
   near 7 (57142857 # 100000000) (t_prec (t_matrix FMass (mass [2; 6; 4; 2; 4; 3]) (mass [2; 3; 3; 1; 3; 6; 3])));
   near 7 (57142857 # 100000000) (t_rec (t_matrix FMass (mass [2; 6; 4; 2; 4; 3]) (mass [2; 3; 3; 1; 3; 6; 3])));
   near 7 (9090909 # 12500000) (t_f (t_matrix FMass (mass [2; 6; 4; 2; 4; 3]) (mass [2; 3; 3; 1; 3; 6; 3])));
   near 7 (4117647 # 10000000) (t_prec (t_matrix FMass (mass [2; 1; 1; 1; 5; 8; 2; 1]) (mass [2; 3; 3; 1; 3; 6; 3])));
   near 7 (4117647 # 10000000) (t_rec (t_matrix FMass (mass [2; 1; 1; 1; 5; 8; 2; 1]) (mass [2; 3; 3; 1; 3; 6; 3])));
   near 7 (58333333 # 100000000) (t_f (t_matrix FMass (mass [2; 1; 1; 1; 5; 8; 2; 1]) (mass [2; 3; 3; 1; 3; 6; 3])));
   near 7 (21428571 # 50000000) (t_prec (t_matrix FMass (mass [2; 6; 4; 2; 4; 3]) (mass [2; 8; 2; 4; 2; 3])));
   near 7 (21428571 # 50000000) (t_rec (t_matrix FMass (mass [2; 6; 4; 2; 4; 3]) (mass [2; 8; 2; 4; 2; 3])));
   near 7 (3 # 5) (t_f (t_matrix FMass (mass [2; 6; 4; 2; 4; 3]) (mass [2; 8; 2; 4; 2; 3])));
   near 7 (33333333 # 100000000) (t_prec (t_matrix FMass (mass [2; 1; 1; 1; 5; 8; 2; 1]) (mass [2; 8; 2; 4; 2; 3])));
   near 7 (33333333 # 100000000) (t_rec (t_matrix FMass (mass [2; 1; 1; 1; 5; 8; 2; 1]) (mass [2; 8; 2; 4; 2; 3])));
   near 7 (1 # 2) (t_f (t_matrix FMass (mass [2; 1; 1; 1; 5; 8; 2; 1]) (mass [2; 8; 2; 4; 2; 3])))])%string.
Check (eq_refl true <: true = forallb id tests_similarity).

Definition build (l : list (label * label * Z)) : res cmatrix :=
  foldM (fun m '(p, a, v) => cm_add pyA m p a (NInt v)) l cm_empty.
Definition t_cp c := query (fun m => precision_class pyA t_classes m (Some c)).
Definition t_cr c := query (fun m => recall_class pyA t_classes m (Some c)).
Definition t_cf c := query (fun m => fmeasure_class pyA t_classes 1 m (Some c)).
Definition t_pv v := query (fun m => precision pyA t_classes m None v).
Definition t_rv v := query (fun m => recall pyA t_classes m None v).
Definition t_fv v := query (fun m => fmeasure pyA t_classes 1 m None v).

(** ml/test.py, with [Some 1] and [Some 2] for the classes p and f. *)
Definition tests_ml : list bool := ([near 4 (1 # 2) (t_cp 1 (build [(Some 1, Some 1, 1); (Some 1, Some 2, 1)]));
   near 4 (0 # 1) (t_cp 2 (build [(Some 1, Some 1, 1); (Some 1, Some 2, 1)]));
   near 4 (1 # 2) (t_pv AvgMicro (build [(Some 1, Some 1, 1); (Some 1, Some 2, 1)]));
   near 4 (1 # 4) (t_pv AvgMacro (build [(Some 1, Some 1, 1); (Some 1, Some 2, 1)]));
   near 4 (1 # 1) (t_cr 1 (build [(Some 1, Some 1, 1); (Some 1, Some 2, 1)]));
   near 4 (0 # 1) (t_cr 2 (build [(Some 1, Some 1, 1); (Some 1, Some 2, 1)]));
   near 4 (1 # 2) (t_rv AvgMicro (build [(Some 1, Some 1, 1); (Some 1, Some 2, 1)]));
   near 4 (1 # 2) (t_rv AvgMacro (build [(Some 1, Some 1, 1); (Some 1, Some 2, 1)]));
   near 4 (2 # 3) (t_cf 1 (build [(Some 1, Some 1, 1); (Some 1, Some 2, 1)]));
   near 4 (0 # 1) (t_cf 2 (build [(Some 1, Some 1, 1); (Some 1, Some 2, 1)]));
   near 4 (2 # 3) (t_fv AvgMicro (build [(Some 1, Some 1, 1); (Some 1, Some 2, 1)]));
   near 4 (1 # 3) (t_fv AvgMacro (build [(Some 1, Some 1, 1); (Some 1, Some 2, 1)]));
   near 4 (1 # 5) (t_pv AvgMicro (build [(Some 1, Some 1, 1); (Some 1, Some 2, 3); (Some 2, Some 1, 1)]));
   near 4 (1 # 8) (t_pv AvgMacro (build [(Some 1, Some 1, 1); (Some 1, Some 2, 3); (Some 2, Some 1, 1)]));
   near 4 (1 # 4) (t_cp 1 (build [(Some 1, Some 1, 1); (Some 1, Some 2, 3); (Some 2, Some 1, 1)]));
   near 4 (0 # 1) (t_cp 2 (build [(Some 1, Some 1, 1); (Some 1, Some 2, 3); (Some 2, Some 1, 1)]));
   near 4 (1 # 5) (t_rv AvgMicro (build [(Some 1, Some 1, 1); (Some 1, Some 2, 3); (Some 2, Some 1, 1)]));
   near 4 (1 # 4) (t_rv AvgMacro (build [(Some 1, Some 1, 1); (Some 1, Some 2, 3); (Some 2, Some 1, 1)]));
   near 4 (1 # 2) (t_cr 1 (build [(Some 1, Some 1, 1); (Some 1, Some 2, 3); (Some 2, Some 1, 1)]));
   near 4 (0 # 1) (t_cr 2 (build [(Some 1, Some 1, 1); (Some 1, Some 2, 3); (Some 2, Some 1, 1)]));
   near 4 (1 # 3) (t_fv AvgMicro (build [(Some 1, Some 1, 1); (Some 1, Some 2, 3); (Some 2, Some 1, 1)]));
   near 4 (1 # 6) (t_fv AvgMacro (build [(Some 1, Some 1, 1); (Some 1, Some 2, 3); (Some 2, Some 1, 1)]));
   near 4 (1 # 3) (t_cf 1 (build [(Some 1, Some 1, 1); (Some 1, Some 2, 3); (Some 2, Some 1, 1)]));
   near 4 (0 # 1) (t_cf 2 (build [(Some 1, Some 1, 1); (Some 1, Some 2, 3); (Some 2, Some 1, 1)]));
   near 4 (7 # 10) (t_pv AvgMicro (build [(Some 1, Some 1, 5); (Some 1, Some 2, 2); (Some 2, Some 1, 1); (Some 2, Some 2, 2)]));
   near 4 (27619 # 40000) (t_pv AvgMacro (build [(Some 1, Some 1, 5); (Some 1, Some 2, 2); (Some 2, Some 1, 1); (Some 2, Some 2, 2)]));
   near 4 (142857 # 200000) (t_cp 1 (build [(Some 1, Some 1, 5); (Some 1, Some 2, 2); (Some 2, Some 1, 1); (Some 2, Some 2, 2)]));
   near 4 (2 # 3) (t_cp 2 (build [(Some 1, Some 1, 5); (Some 1, Some 2, 2); (Some 2, Some 1, 1); (Some 2, Some 2, 2)]));
   near 4 (7 # 10) (t_rv AvgMicro (build [(Some 1, Some 1, 5); (Some 1, Some 2, 2); (Some 2, Some 1, 1); (Some 2, Some 2, 2)]));
   near 4 (33333 # 50000) (t_rv AvgMacro (build [(Some 1, Some 1, 5); (Some 1, Some 2, 2); (Some 2, Some 1, 1); (Some 2, Some 2, 2)]));
   near 4 (83333 # 100000) (t_cr 1 (build [(Some 1, Some 1, 5); (Some 1, Some 2, 2); (Some 2, Some 1, 1); (Some 2, Some 2, 2)]));
   near 4 (1 # 2) (t_cr 2 (build [(Some 1, Some 1, 5); (Some 1, Some 2, 2); (Some 2, Some 1, 1); (Some 2, Some 2, 2)]));
   near 4 (68421 # 100000) (t_fv AvgMicro (build [(Some 1, Some 1, 5); (Some 1, Some 2, 2); (Some 2, Some 1, 1); (Some 2, Some 2, 2)]));
   near 4 (8379 # 12500) (t_fv AvgMacro (build [(Some 1, Some 1, 5); (Some 1, Some 2, 2); (Some 2, Some 1, 1); (Some 2, Some 2, 2)]));
   near 4 (76923 # 100000) (t_cf 1 (build [(Some 1, Some 1, 5); (Some 1, Some 2, 2); (Some 2, Some 1, 1); (Some 2, Some 2, 2)]));
   near 4 (28571 # 50000) (t_cf 2 (build [(Some 1, Some 1, 5); (Some 1, Some 2, 2); (Some 2, Some 1, 1); (Some 2, Some 2, 2)]));
   near 4 (0 # 1) (t_pv AvgMicro (build [(Some 1, Some 2, 2)]));
   near 4 (0 # 1) (t_cp 1 (build [(Some 1, Some 2, 2)]));
   near 4 (0 # 1) (t_cp 2 (build [(Some 1, Some 2, 2)]));
   near 4 (0 # 1) (t_rv AvgMicro (build [(Some 1, Some 2, 2)]));
   near 4 (0 # 1) (t_cr 1 (build [(Some 1, Some 2, 2)]));
   near 4 (0 # 1) (t_cr 2 (build [(Some 1, Some 2, 2)]));
   near 4 (0 # 1) (t_fv AvgMicro (build [(Some 1, Some 2, 2)]));
   near 4 (0 # 1) (t_cf 1 (build [(Some 1, Some 2, 2)]));
   near 4 (0 # 1) (t_cf 2 (build [(Some 1, Some 2, 2)]));
   near 4 (1 # 1) (t_pv AvgMicro (build [(Some 1, Some 1, 2)]));
   near 4 (1 # 1) (t_cp 1 (build [(Some 1, Some 1, 2)]));
   near 4 (0 # 1) (t_cp 2 (build [(Some 1, Some 1, 2)]));
   near 4 (1 # 1) (t_rv AvgMicro (build [(Some 1, Some 1, 2)]));
   near 4 (1 # 1) (t_cr 1 (build [(Some 1, Some 1, 2)]));
   near 4 (0 # 1) (t_cr 2 (build [(Some 1, Some 1, 2)]));
   near 4 (1 # 1) (t_fv AvgMicro (build [(Some 1, Some 1, 2)]));
   near 4 (1 # 1) (t_cf 1 (build [(Some 1, Some 1, 2)]));
   near 4 (0 # 1) (t_cf 2 (build [(Some 1, Some 1, 2)]));
   near 4 (0 # 1) (t_pv AvgMicro (build []));
   near 4 (0 # 1) (t_cp 1 (build []));
   near 4 (0 # 1) (t_cp 2 (build []));
   near 4 (0 # 1) (t_rv AvgMicro (build []));
   near 4 (0 # 1) (t_cr 1 (build []));
   near 4 (0 # 1) (t_cr 2 (build []));
   near 4 (0 # 1) (t_fv AvgMicro (build []));
   near 4 (0 # 1) (t_cf 1 (build []));
   near 4 (0 # 1) (t_cf 2 (build []));
   raises SegmentationMetricError (t_fv AvgOther (build [(Some 1, Some 1, 1); (Some 1, Some 2, 1)]))])%string.
Check (eq_refl true <: true = forallb id tests_ml).

(** window/pk_test.py. *)
Definition tests_pk : list bool := ([near 7 (77777777 # 100000000) (get_w (pk pyA default_round FMass None true false (mass [2; 3; 6]) (mass [2; 2; 7])));
   match pk pyA default_round FMass None false true (mass [2; 3; 6]) (mass [2; 2; 7]) with Ok (WParts 2 9) => true | _ => false end;
   is (0 # 1) (t_pk FPosition None (mass [1; 1; 1; 1; 1; 2; 2; 2; 3; 3; 3; 3; 3]) (mass [1; 1; 1; 1; 1; 2; 2; 2; 3; 3; 3; 3; 3]));
   is (1 # 1) (t_pk FPosition None (mass [1; 1; 1; 1; 2; 2; 2; 2; 3; 3; 3; 3; 3]) (mass [1; 1; 1; 1; 1; 1; 1; 1; 1; 1; 1; 1; 1]));
   is (909090909090909090909090909 # 2500000000000000000000000000) (t_pk FPosition None (mass [1; 1; 1; 1; 1; 1; 1; 1; 1; 1; 1; 1; 1]) (mass [1; 1; 1; 1; 2; 2; 2; 2; 3; 3; 3; 3; 3]));
   is (1590909090909090909090909091 # 2500000000000000000000000000) (t_pk FPosition None (mass [1; 2; 3; 4; 5; 6; 7; 8; 9; 10; 11; 12; 13]) (mass [1; 1; 1; 1; 2; 2; 2; 2; 3; 3; 3; 3; 3]));
   is (1590909090909090909090909091 # 2500000000000000000000000000) (t_pk FPosition None (mass [1; 1; 1; 1; 2; 2; 2; 2; 3; 3; 3; 3; 3]) (mass [1; 2; 3; 4; 5; 6; 7; 8; 9; 10; 11; 12; 13]));
   is (1 # 1) (t_pk FPosition None (mass [1; 2; 3; 4; 5; 6; 7; 8; 9; 10; 11; 12; 13]) (mass [1; 1; 1; 1; 1; 1; 1; 1; 1; 1; 1; 1; 1]));
   is (1 # 1) (t_pk FPosition None (mass [1; 1; 1; 1; 1; 1; 1; 1; 1; 1; 1; 1; 1]) (mass [1; 2; 3; 4; 5; 6; 7; 8; 9; 10; 11; 12; 13]));
   is (909090909090909090909090909 # 5000000000000000000000000000) (t_pk FPosition None (mass [1; 1; 1; 1; 1; 2; 2; 2; 3; 3; 3; 3; 3]) (mass [1; 1; 1; 1; 2; 2; 2; 2; 3; 3; 3; 3; 3]));
   is (909090909090909090909090909 # 5000000000000000000000000000) (t_pk FPosition None (mass [1; 1; 1; 1; 2; 2; 2; 2; 3; 3; 3; 3; 3]) (mass [1; 1; 1; 1; 1; 2; 2; 2; 3; 3; 3; 3; 3]));
   is (9090909090909090909090909091 # 100000000000000000000000000000) (t_pk FPosition None (mass [1; 1; 1; 1; 1; 2; 2; 2; 3; 3; 3; 3; 3]) (mass [1; 1; 1; 1; 1; 2; 3; 3; 4; 4; 4; 4; 4]));
   is (9090909090909090909090909091 # 100000000000000000000000000000) (t_pk FPosition None (mass [1; 1; 1; 1; 1; 2; 3; 3; 4; 4; 4; 4; 4]) (mass [1; 1; 1; 1; 1; 2; 2; 2; 3; 3; 3; 3; 3]));
   is (2727272727272727272727272727 # 10000000000000000000000000000) (t_pk FPosition None (mass [1; 1; 1; 1; 2; 2; 2; 2; 3; 3; 3; 3; 3]) (mass [1; 1; 1; 1; 1; 2; 3; 3; 4; 4; 4; 4; 4]));
   is (2727272727272727272727272727 # 10000000000000000000000000000) (t_pk FPosition None (mass [1; 1; 1; 1; 1; 2; 3; 3; 4; 4; 4; 4; 4]) (mass [1; 1; 1; 1; 2; 2; 2; 2; 3; 3; 3; 3; 3]));
   match pk pyA default_round FPosition None false true (mass [1; 2; 3; 4; 5; 6; 7; 8; 9; 10; 11; 12; 13]) (mass [1; 1; 1; 1; 2; 2; 2; 2; 3; 3; 3; 3; 3]) with Ok (WParts 7 11) => true | _ => false end;
   raises SegmentationMetricError (t_pk FSets None (mass [2; 3; 6]) (mass [2; 2; 7]));
   raises SegmentationMetricError (t_pk FMass None (mass [2; 2; 7]) (mass [2; 2; 8]));
   near 7 (0 # 1) (t_pk FNltk (Some 3) (nltk "1000100") (nltk "1000100"));
   near 7 (1 # 2) (t_pk FNltk (Some 2) (nltk "010") (nltk "100"));
   near 7 (2 # 5) (t_pk FNltk (Some 2) (nltk "111111") (nltk "100100"));
   near 7 (3 # 5) (t_pk FNltk (Some 2) (nltk "000000") (nltk "100100"));
   near 7 (0 # 1) (t_pk FNltk (Some 3) (nltk "111111") (nltk "100100"));
   near 7 (1 # 1) (t_pk FNltk (Some 3) (nltk "000000") (nltk "100100"));
   near 7 (2 # 9) (t_pk FNltk (Some 2) (nltk "0100100000") (nltk "0101000000"));
   is (38314176245210727969348659 # 250000000000000000000000000) (t_pk FMass None (mass [2; 31; 4; 1; 1; 3; 11; 5; 21; 4; 2; 1; 17; 26; 16; 1; 17; 4; 3; 7; 7; 6; 12; 1; 6; 25; 2; 4; 3; 16; 8]) (mass [2; 36; 1; 3; 10; 1; 5; 21; 4; 3; 59; 8; 10; 4; 3; 7; 13; 12; 7; 27; 4; 3; 24]));
   near 7 (26315789 # 100000000) (t_pk FMass None (mass [2; 6; 4; 2; 4; 3]) (mass [2; 3; 3; 1; 3; 6; 3]));
   near 7 (7368421 # 20000000) (t_pk FMass None (mass [2; 1; 1; 1; 5; 8; 2; 1]) (mass [2; 3; 3; 1; 3; 6; 3]));
   near 7 (42105263 # 100000000) (t_pk FMass None (mass [2; 6; 4; 2; 4; 3]) (mass [2; 8; 2; 4; 2; 3]));
   near 7 (42105263 # 100000000) (t_pk FMass None (mass [2; 1; 1; 1; 5; 8; 2; 1]) (mass [2; 8; 2; 4; 2; 3]));
   sums_to 4 (35530058282396693 # 100000000000000000) (2200352169219843 # 20000000000000000) (3025968542869043 # 250000000000000000) (1984959245642271 # 125000000000000000) 48 (t_sum (t_pk FMass None) true kazantseva2012_g5);
   sums_to 4 (2882256923776327507173609771 # 10000000000000000000000000000) (290879131357593233816838289 # 2000000000000000000000000000) (1057633363241849741701454877 # 50000000000000000000000000000) (1327675514600517730547602481 # 100000000000000000000000000000) 120 (t_sum (t_pk FMass None) true kazantseva2012_g2);
   sums_to 4 (1 # 1) (0 # 1) (0 # 1) (0 # 1) 8 (t_sum (t_pk FMass None) true large_disagreement);
   sums_to 4 (0 # 1) (0 # 1) (0 # 1) (0 # 1) 48 (t_sum (t_pk FMass None) true complete_agreement)])%string.
Check (eq_refl true <: true = forallb id tests_pk).

(** window/windowdiff_test.py and window/test.py. *)
Definition tests_wd : list bool := ([is (0 # 1) (t_wd FPosition None false (mass [1; 1; 1; 1; 1; 2; 2; 2; 3; 3; 3; 3; 3]) (mass [1; 1; 1; 1; 1; 2; 2; 2; 3; 3; 3; 3; 3]));
   is (909090909090909090909090909 # 2500000000000000000000000000) (t_wd FPosition None false (mass [1; 1; 1; 1; 1; 1; 1; 1; 1; 1; 1; 1; 1]) (mass [1; 1; 1; 1; 2; 2; 2; 2; 3; 3; 3; 3; 3]));
   is (1 # 1) (t_wd FPosition None false (mass [1; 1; 1; 1; 2; 2; 2; 2; 3; 3; 3; 3; 3]) (mass [1; 1; 1; 1; 1; 1; 1; 1; 1; 1; 1; 1; 1]));
   is (1 # 1) (t_wd FPosition None false (mass [1; 2; 3; 4; 5; 6; 7; 8; 9; 10; 11; 12; 13]) (mass [1; 1; 1; 1; 2; 2; 2; 2; 3; 3; 3; 3; 3]));
   is (1 # 1) (t_wd FPosition None false (mass [1; 1; 1; 1; 2; 2; 2; 2; 3; 3; 3; 3; 3]) (mass [1; 2; 3; 4; 5; 6; 7; 8; 9; 10; 11; 12; 13]));
   is (1 # 1) (t_wd FPosition None false (mass [1; 2; 3; 4; 5; 6; 7; 8; 9; 10; 11; 12; 13]) (mass [1; 1; 1; 1; 1; 1; 1; 1; 1; 1; 1; 1; 1]));
   is (1 # 1) (t_wd FPosition None false (mass [1; 1; 1; 1; 1; 1; 1; 1; 1; 1; 1; 1; 1]) (mass [1; 2; 3; 4; 5; 6; 7; 8; 9; 10; 11; 12; 13]));
   is (909090909090909090909090909 # 5000000000000000000000000000) (t_wd FPosition None false (mass [1; 1; 1; 1; 1; 2; 2; 2; 3; 3; 3; 3; 3]) (mass [1; 1; 1; 1; 2; 2; 2; 2; 3; 3; 3; 3; 3]));
   is (909090909090909090909090909 # 5000000000000000000000000000) (t_wd FPosition None false (mass [1; 1; 1; 1; 2; 2; 2; 2; 3; 3; 3; 3; 3]) (mass [1; 1; 1; 1; 1; 2; 2; 2; 3; 3; 3; 3; 3]));
   is (909090909090909090909090909 # 5000000000000000000000000000) (t_wd FPosition None false (mass [1; 1; 1; 1; 1; 2; 2; 2; 3; 3; 3; 3; 3]) (mass [1; 1; 1; 1; 1; 2; 3; 3; 4; 4; 4; 4; 4]));
   is (909090909090909090909090909 # 5000000000000000000000000000) (t_wd FPosition None false (mass [1; 1; 1; 1; 1; 2; 3; 3; 4; 4; 4; 4; 4]) (mass [1; 1; 1; 1; 1; 2; 2; 2; 3; 3; 3; 3; 3]));
   is (2727272727272727272727272727 # 10000000000000000000000000000) (t_wd FPosition None false (mass [1; 1; 1; 1; 2; 2; 2; 2; 3; 3; 3; 3; 3]) (mass [1; 1; 1; 1; 1; 2; 3; 3; 4; 4; 4; 4; 4]));
   is (2727272727272727272727272727 # 10000000000000000000000000000) (t_wd FPosition None false (mass [1; 1; 1; 1; 1; 2; 3; 3; 4; 4; 4; 4; 4]) (mass [1; 1; 1; 1; 2; 2; 2; 2; 3; 3; 3; 3; 3]));
   match window_diff pyA default_round FPosition None false false true (mass [1; 2; 3; 4; 5; 6; 7; 8; 9; 10; 11; 12; 13]) (mass [1; 1; 1; 1; 2; 2; 2; 2; 3; 3; 3; 3; 3]) with Ok (WParts 11 11) => true | _ => false end;
   is (1590909090909090909090909091 # 2500000000000000000000000000) (get_w (window_diff pyA default_round FPosition None false true false (mass [1; 1; 1; 1; 1; 1; 1; 1; 1; 1; 1; 1; 1]) (mass [1; 1; 1; 1; 2; 2; 2; 2; 3; 3; 3; 3; 3])));
   raises SegmentationMetricError (t_wd FSets None false (mass [2; 3; 6]) (mass [2; 2; 7]));
   raises SegmentationMetricError (t_wd FMass None false (mass [2; 2; 7]) (mass [2; 2; 8]));
   near 7 (1 # 1) (t_wd FMass None false (mass [1; 1; 1; 1; 1; 1; 1; 1; 1; 1; 1]) (mass [11]));
   near 7 (1 # 3) (t_wd FMass None false (mass [12]) (mass [6; 6]));
   near 7 (2 # 9) (t_wd FMass None false (mass [5; 7]) (mass [6; 6]));
   near 7 (1 # 9) (t_wd FMass None false (mass [1; 5; 6]) (mass [6; 6]));
   near 7 (5 # 9) (t_wd FMass None false (mass [5; 1; 1; 5]) (mass [6; 6]));
   is (0 # 1) (t_wd FNltk (Some 3) false (nltk "000100000010") (nltk "000100000010"));
   is (3 # 10) (t_wd FNltk (Some 3) false (nltk "000010000100") (nltk "000100000010"));
   is (4 # 5) (t_wd FNltk (Some 3) false (nltk "100000010000") (nltk "000010000100"));
   is (268199233716475095785440613 # 1000000000000000000000000000) (t_wd FMass None false (mass [2; 31; 4; 1; 1; 3; 11; 5; 21; 4; 2; 1; 17; 26; 16; 1; 17; 4; 3; 7; 7; 6; 12; 1; 6; 25; 2; 4; 3; 16; 8]) (mass [2; 36; 1; 3; 10; 1; 5; 21; 4; 3; 59; 8; 10; 4; 3; 7; 13; 12; 7; 27; 4; 3; 24]));
   near 7 (31578947 # 100000000) (t_wd FMass None false (mass [2; 6; 4; 2; 4; 3]) (mass [2; 3; 3; 1; 3; 6; 3]));
   near 7 (47368421 # 100000000) (t_wd FMass None false (mass [2; 1; 1; 1; 5; 8; 2; 1]) (mass [2; 3; 3; 1; 3; 6; 3]));
   near 7 (42105263 # 100000000) (t_wd FMass None false (mass [2; 6; 4; 2; 4; 3]) (mass [2; 8; 2; 4; 2; 3]));
   near 7 (47368421 # 100000000) (t_wd FMass None false (mass [2; 1; 1; 1; 5; 8; 2; 1]) (mass [2; 8; 2; 4; 2; 3]));
   near 7 (19090909 # 25000000) (t_wd FMass None true (mass [1; 10; 2; 4; 1; 2; 3; 10; 6; 6; 1]) (mass [17; 25; 4]));
   sums_to 4 (8502995446544227 # 20000000000000000) (14960495739111837 # 100000000000000000) (1119082163799917 # 50000000000000000) (2159361560546617 # 100000000000000000) 48 (t_sum (t_wd FMass None false) true kazantseva2012_g5);
   sums_to 4 (796324897767439 # 2000000000000000) (1499358110615409 # 10000000000000000) (22480747438682093 # 1000000000000000000) (21641370219386377 # 1000000000000000000) 48 (t_sum (t_wd FMass None true) true kazantseva2012_g5);
   sums_to 4 (686259415811579528182190107 # 2500000000000000000000000000) (109394015862828274872197101 # 1000000000000000000000000000) (598352535329836211602956871 # 50000000000000000000000000000) (1248282711336437787370285517 # 125000000000000000000000000000) 120 (t_sum (t_wd FMass None true) true kazantseva2012_g2);
   sums_to 4 (1 # 1) (0 # 1) (0 # 1) (0 # 1) 8 (t_sum (t_wd FMass None false) true large_disagreement);
   sums_to 4 (0 # 1) (0 # 1) (0 # 1) (0 # 1) 48 (t_sum (t_wd FMass None true) true complete_agreement);
   match compute_window_size pyA default_round FMass (WSeg (mass [1; 2; 3])) with Ok 2 => true | _ => false end;
   match compute_window_size pyA default_round FMass (WDict ((fun ic => (ic.1, WDict ((fun c => (c.1, WSeg c.2)) <$> ic.2))) <$> kazantseva2012_g5)) with Ok 3 => true | _ => false end;
   raises SegmentationMetricError (compute_window_size pyA default_round FMass (WSeg (nltk "incorrect type")))])%string.
Check (eq_refl true <: true = forallb id tests_wd).

(** format_test.py. *)
Definition tests_format : list bool := ([bool_decide (convert_positions_to_masses (ints [1; 1; 1; 1; 1; 2; 2; 2; 3; 3; 3; 3; 3]) = [5; 3; 5]);
   bool_decide (pval <$> convert_masses_to_positions [5; 3; 5] = [1; 1; 1; 1; 1; 2; 2; 2; 3; 3; 3; 3; 3]);
   bool_decide (convert_positions_to_masses (ints [1; 1; 1; 1; 1; 1; 1; 1; 1; 1; 1]) = [11]);
   bool_decide (pval <$> convert_masses_to_positions [11] = [1; 1; 1; 1; 1; 1; 1; 1; 1; 1; 1]);
   bool_decide (convert_positions_to_masses (ints [1; 2; 3; 4; 5; 6; 7; 8; 9; 10; 11]) = [1; 1; 1; 1; 1; 1; 1; 1; 1; 1; 1]);
   bool_decide (pval <$> convert_masses_to_positions [1; 1; 1; 1; 1; 1; 1; 1; 1; 1; 1] = [1; 2; 3; 4; 5; 6; 7; 8; 9; 10; 11]);
   match boundary_string_from_masses [3] with Ok s => bool_decide (s = [∅; ∅]) | _ => false end;
   match boundary_string_from_masses [1; 1; 1; 1] with Ok s => bool_decide (s = [{[1]}; {[1]}; {[1]}]) | _ => false end;
   match boundary_string_from_masses [2; 3] with Ok s => bool_decide (s = [∅; {[1]}; ∅; ∅]) | _ => false end;
   match convert_nltk_to_masses (chars "100") sym1 with Ok l => bool_decide (l = [1; 3]) | _ => false end;
   match convert_nltk_to_masses (chars "010") sym1 with Ok l => bool_decide (l = [2; 2]) | _ => false end;
   match convert_nltk_to_masses (chars "0100100000") sym1 with Ok l => bool_decide (l = [2; 3; 6]) | _ => false end;
   match convert_nltk_to_masses (chars "0101000000") sym1 with Ok l => bool_decide (l = [2; 2; 7]) | _ => false end])%string.
Check (eq_refl true <: true = forallb id tests_format).

(** agreement/*_test.py. *)
Definition tests_agreement : list bool := ([is (641143911439114391143911439 # 2500000000000000000000000000) (t_aa FMass kazantseva2012_g5);
   is (1 # 4) (t_aa FMass (only "ch1" kazantseva2012_g5));
   is (2100886917960088691796008869 # 5000000000000000000000000000) (t_aa FMass kazantseva2012_g2);
   is (1366279069767441860465116279 # 2500000000000000000000000000) (t_aa FMass (only "ch2" kazantseva2012_g2));
   is (1 # 1) (t_aa FMass complete_agreement);
   is (0 # 1) (t_aa FMass large_disagreement);
   near 26 (149973478262324779513267809 # 625000000000000000000000000) (t_pi FMass kazantseva2012_g5);
   near 26 (2226720647773279352226720649 # 10000000000000000000000000000) (t_pi FMass (only "ch1" kazantseva2012_g5));
   near 26 (2041584882956464711021276587 # 5000000000000000000000000000) (t_pi FMass kazantseva2012_g2);
   near 26 (1067109634551495016611295681 # 2000000000000000000000000000) (t_pi FMass (only "ch2" kazantseva2012_g2));
   near 26 (-3333333333333333333333333333 # 10000000000000000000000000000) (t_pi FMass large_disagreement);
   is (1 # 1) (t_pi FMass complete_agreement);
   near 26 (2421099324579046442791865267 # 10000000000000000000000000000) (t_kappa FMass kazantseva2012_g5);
   near 26 (2258064516129032258064516129 # 10000000000000000000000000000) (t_kappa FMass (only "ch1" kazantseva2012_g5));
   near 26 (513355234215341414234079083 # 1250000000000000000000000000) (t_kappa FMass kazantseva2012_g2);
   near 26 (2669947895921900782780455687 # 5000000000000000000000000000) (t_kappa FMass (only "ch2" kazantseva2012_g2));
   near 26 (0 # 1) (t_kappa FMass large_disagreement);
   is (1 # 1) (t_kappa FMass complete_agreement);
   near 26 (277829320319822615823397979 # 100000000000000000000000000000) (t_bias FMass kazantseva2012_g5);
   near 26 (390625000000000000000000011 # 100000000000000000000000000000) (t_bias FMass (only "ch1" kazantseva2012_g5));
   near 26 (393636062003502686364542151 # 100000000000000000000000000000) (t_bias FMass kazantseva2012_g2);
   near 26 (11337868480725623582766441 # 12500000000000000000000000000) (t_bias FMass (only "ch2" kazantseva2012_g2));
   is (1 # 4) (t_bias FMass large_disagreement);
   is (1012465244516203494606244639 # 125000000000000000000000000000) (t_bias FMass complete_agreement);
   near 7 (4666666666666666666666666667 # 10000000000000000000000000000) (t_pi FSets multiple_boundary_types);
   near 7 (4718309859154929577464788733 # 10000000000000000000000000000) (t_kappa FSets multiple_boundary_types);
   near 7 (458333333 # 50000000000) (t_bias FSets multiple_boundary_types);
   near 26 (7267552182163187855787476281 # 10000000000000000000000000000) (t_pi FMass [("i1", [("c1", mass [2; 8; 2; 1]); ("c2", mass [2; 1; 7; 2; 1])])]);
   near 26 (1428571428571428571428571429 # 10000000000000000000000000000) (t_pi FMass [("i1", [("c1", mass [2; 8; 2; 1]); ("c2", mass [11; 2])])]);
   near 26 (7272727272727272727272727273 # 10000000000000000000000000000) (t_kappa FMass [("i1", [("c1", mass [2; 8; 2; 1]); ("c2", mass [2; 1; 7; 2; 1])])]);
   near 26 (1489361702127659574468085107 # 10000000000000000000000000000) (t_kappa FMass [("i1", [("c1", mass [2; 8; 2; 1]); ("c2", mass [11; 2])])]);
   raises PlainException (t_kappa FMass [("i1", [("c1", mass [2; 8; 2; 1])])]);
   raises InvalidOperation (t_bias FMass [("i1", [("c1", mass [2; 8; 2; 1])])]);
   raises InvalidOperation (t_pi FMass [("i1", [("c1", mass [2; 8; 2; 1])])]);
   raises PlainException (t_pi FMass [("i1", [("c1", mass [2; 8; 2; 1]); ("c2", mass [2; 8; 2; 1])]); ("i2", [("c1", mass [2; 1; 7; 2; 1]); ("c2", mass [2; 8; 2; 1]); ("c3", mass [2; 8; 2; 1])])]);
   raises PlainException (t_kappa FMass [("i1", [("c1", mass [2; 8; 2; 1]); ("c2", mass [2; 8; 2; 1])]); ("i2", [("c1", mass [2; 1; 7; 2; 1]); ("c2", mass [2; 8; 2; 1]); ("c3", mass [2; 8; 2; 1])])]);
   raises PlainException (t_bias FMass [("i1", [("c1", mass [2; 8; 2; 1]); ("c2", mass [2; 8; 2; 1])]); ("i2", [("c1", mass [2; 1; 7; 2; 1]); ("c2", mass [2; 8; 2; 1]); ("c3", mass [2; 8; 2; 1])])])])%string.
Check (eq_refl true <: true = forallb id tests_agreement).

(** util/math_test.py. *)
Definition tests_math : list bool := ([is (5 # 1) (mean pyA (NInt <$> [2; 4; 4; 4; 5; 5; 7; 9]));
   is (2 # 1) (std pyA (NInt <$> [2; 4; 4; 4; 5; 5; 7; 9]));
   is (4 # 1) (var pyA (NInt <$> [2; 4; 4; 4; 5; 5; 7; 9]));
   is (3535533905932737622004221811 # 5000000000000000000000000000) (stderr pyA (NInt <$> [2; 4; 4; 4; 5; 5; 7; 9]));
   is 0 (mean pyA [])])%string.
Check (eq_refl true <: true = forallb id tests_math).
