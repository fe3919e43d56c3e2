(** * RepoTestsAxis: the repository's own tests of the axes, run on the model.

    The code could not be run here, but its test-suite records what it computes.
    Every assertion on values in the files of /repo/ndhistogram/tests named below
    is restated about the model and evaluated, for every build (overflow checks on
    or off; 16, 32 and 64 bit targets) and, where a search is involved, for both
    implementations of [binary_search_by].  These are tests of the model (evidence
    that it computes what the code computes), not proofs of properties.  Tests that
    only print ([{:?}], [println!]) or check types are left out. *)
From Coq Require Import List NArith ZArith Bool String.
From stdpp Require Import base strings.
From Flocq Require Import Core IEEE754.BinarySingleNaN.
From Verif Require Import Base Num Float Axis Uniform StdAlgo VarAxis Category Axes DisplayCat Display.
Import ListNotations.
Open Scope list_scope.
Open Scope N_scope.

(** [r.unwrap()]. *)
Definition unwrap {A E} (r : outcome (result A E)) : outcome A :=
  let! r := r in match r with Ok a => Val a | Err _ => Panic end.

(** The decimal literal [m / 10^k], correctly rounded (for |m| and 10^k below 2^53
    resp. 2^24, so that both are exact). *)
Definition f32_lit (m e : Z) : f32 := binary_normalize 24 128 prec32 emax32 mode_NE m e false.
Definition dec64 (m : Z) (k : Z) : f64 := f64_quot m (10 ^ k).
Definition dec32 (m : Z) (k : Z) : f32 := Bdiv mode_NE (f32_lit m 0) (f32_lit (10 ^ k) 0).
Definition i64 (m : Z) : f64 := f64_lit m 0.

(** [==] on floats, intervals, options and lists. *)
Definition feq {p e} (a b : binary_float p e) : bool := match Bcompare a b with Some Eq => true | _ => false end.
Definition bi_eq {T} (eq : T -> T -> bool) (a b : BinInterval T) : bool :=
  match a, b with
  | Underflow x, Underflow y | Overflow x, Overflow y => eq x y
  | Bin x x', Bin y y' => eq x y && eq x' y'
  | _, _ => false
  end.
Definition opt_eq {T} (eq : T -> T -> bool) (a b : option T) : bool :=
  match a, b with Some x, Some y => eq x y | None, None => true | _, _ => false end.
Fixpoint list_eq {T} (eq : T -> T -> bool) (a b : list T) : bool :=
  match a, b with [], [] => true | x :: xs, y :: ys => eq x y && list_eq eq xs ys | _, _ => false end.
Definition pair_eq {X Y} (eqx : X -> X -> bool) (eqy : Y -> Y -> bool) (a b : X * Y) : bool :=
  eqx (fst a) (fst b) && eqy (snd a) (snd b).
(** A test passes if it does not panic and its assertion is true. *)
Definition passes (t : outcome bool) : Prop := t = Val true.

Ltac run_test := intros B; destruct B as [[] []]; vm_compute; reflexivity.

Section Tests.
Context (B : Build).
Notation U64 := (uniform_axis f64_ops).
Notation F64 := f64_ops.
Notation I32 := (int_ops (signed 32)).

(** ** tests/test_uniform_axis.rs *)
Definition uniform_num_bins_t := let! ax := unwrap (uniform_new F64 5 (i64 0) (i64 1)) in
  let! n := @num_bins _ U64 ax in Val (n =? 5 + 2).
Definition uniform_get_index_t := let! ax := unwrap (uniform_new F64 5 (i64 0) (i64 1)) in
  let! actual := mapo (fun x => let! x := @n_add _ F64 (i64 x) (dec64 1 6) in let! x := @n_div _ F64 x (i64 5) in @index _ U64 ax x)
                      [-2; -1; 0; 1; 2; 3; 4; 5; 6]%Z in
  Val (list_eq (opt_eq N.eqb) actual (map Some [0; 0; 1; 2; 3; 4; 5; 6; 6])).
Definition uniform_get_bin_t := let! ax := unwrap (uniform_new F64 1 (i64 0) (i64 1)) in
  let! actual := mapo (@bin _ U64 ax) [0; 1; 2; 3] in
  Val (list_eq (opt_eq (bi_eq feq)) actual [Some (Underflow (i64 0)); Some (Bin (i64 0) (i64 1)); Some (Overflow (i64 1)); None]).
(** The assertion of the test: the five inner edges within 1e-6 of 0.0, 0.2, .. 1.0 (here: indices 0..6; those of negative [x as usize]
    are far above the number of bins and give [None] there). *)
Definition uniform_get_edges_t := let! ax := unwrap (uniform_new F64 5 (i64 0) (i64 1)) in
  let! bins := mapo (@bin _ U64 ax) [0; 1; 2; 3; 4; 5; 6] in
  let actual := flat_map (fun b => match b with Some b => match range_try_from b with Ok r => [r] | Err _ => [] end | None => [] end) bins in
  let edges := map (fun m => dec64 m 1) [0; 2; 4; 6; 8; 10]%Z in
  let close a b := Bltb (Babs (Bminus mode_NE a b)) (dec64 1 6) in
  Val ((List.length actual =? 5)%nat &&
       forallb (fun re => close (range_start (fst re)) (fst (snd re)) && close (range_end (fst re)) (snd (snd re)))
               (combine actual (combine edges (tl edges)))).
Definition uniform_clone_t := let! ax := unwrap (uniform_new F64 5 (i64 0) (i64 1)) in Val (uniform_eqb F64 ax ax).
Definition uniform_iterate_indices_t := let! ax := unwrap (uniform_new F64 5 (i64 0) (i64 1)) in
  let! is := @indices _ U64 ax in Val (list_eq N.eqb is [0; 1; 2; 3; 4; 5; 6]).
Definition uniform_iterate_items_t := let! ax := unwrap (uniform_new F64 2 (i64 0) (i64 2)) in
  let! its := @axis_iter _ U64 ax in
  Val (list_eq (pair_eq N.eqb (bi_eq feq)) its
    [(0, Underflow (i64 0)); (1, Bin (i64 0) (i64 1)); (2, Bin (i64 1) (i64 2)); (3, Overflow (i64 2))]).
Definition uniform_iterate_bin_t := let! ax := unwrap (uniform_new F64 1 (i64 0) (i64 1)) in
  let! bs := @axis_bins _ U64 ax in
  Val (list_eq (bi_eq feq) bs [Underflow (i64 0); Bin (i64 0) (i64 1); Overflow (i64 1)]).
Definition uniform_negative_axis_t := let! ax := unwrap (uniform_new F64 10 (i64 (-5)) (i64 5)) in
  let! bs := mapo (@bin _ U64 ax) [0; 1; 11] in
  Val (list_eq (opt_eq (bi_eq feq)) bs [Some (Underflow (i64 (-5))); Some (Bin (i64 (-5)) (i64 (-4))); Some (Overflow (i64 5))]).

(** ** tests/test_uniform_axis_integer.rs *)
Notation UI := (uniform_axis I32).
Definition uniform_integer_num_bins_t := let! ax := unwrap (uniform_with_step_size I32 3 0%Z 2%Z) in
  let! n := @num_bins _ UI ax in Val (n =? 3 + 2).
Definition uniform_integer_get_index_t := let! ax := unwrap (uniform_with_step_size I32 3 (-2)%Z 2%Z) in
  let! is := mapo (@index _ UI ax) [-3; -2; -1; 0; 1; 2; 3; 4]%Z in
  Val (list_eq (opt_eq N.eqb) is (map Some [0; 1; 1; 2; 2; 3; 3; 4])).
Definition uniform_integer_get_bin_t := let! ax := unwrap (uniform_with_step_size I32 3 (-2)%Z 2%Z) in
  let! bs := mapo (@bin _ UI ax) [0; 1; 2; 3; 4; 5] in
  Val (list_eq (opt_eq (bi_eq Z.eqb)) bs
    [Some (Underflow (-2)); Some (Bin (-2) 0); Some (Bin 0 2); Some (Bin 2 4); Some (Overflow 4); None]%Z).
Definition uniform_negative_step_t := let! r := uniform_with_step_size F64 10 (i64 20) (i64 (-1)) in
  Val (match r with Err InvalidStepSize => true | _ => false end).
Definition uniform_zero_step_t := let! r := uniform_with_step_size F64 10 (i64 20) (i64 0) in
  Val (match r with Err InvalidStepSize => true | _ => false end).

(** ** tests/test_noflow_axis.rs *)
Notation UN := (uniformnoflow_axis f64_ops).
Definition uniformnoflow_t (k : UniformNoFlow f64 -> outcome bool) := let! ax := unwrap (uniformnoflow_new F64 2 (i64 0) (i64 2)) in k ax.
Definition uniformnoflow_num_bins_t := uniformnoflow_t (fun ax => let! n := @num_bins _ UN ax in Val (n =? 2)).
Definition uniformnoflow_get_index_t := uniformnoflow_t (fun ax =>
  let! is := mapo (@index _ UN ax) (map i64 [-1; 0; 1; 2]%Z) in Val (list_eq (opt_eq N.eqb) is [None; Some 0; Some 1; None])).
Definition uniformnoflow_get_bin_t := uniformnoflow_t (fun ax =>
  let! bs := mapo (@bin _ UN ax) [0; 1; 2] in
  Val (list_eq (opt_eq (bi_eq feq)) bs [Some (Bin (i64 0) (i64 1)); Some (Bin (i64 1) (i64 2)); None])).
Definition uniformnoflow_indices_t := uniformnoflow_t (fun ax => let! is := @indices _ UN ax in Val (list_eq N.eqb is [0; 1])).
Definition uniformnoflow_bins_t := uniformnoflow_t (fun ax => let! bs := @axis_bins _ UN ax in
  Val (list_eq (bi_eq feq) bs [Bin (i64 0) (i64 1); Bin (i64 1) (i64 2)])).
Definition uniformnoflow_iter_t := uniformnoflow_t (fun ax => let! its := @axis_iter _ UN ax in
  Val (list_eq (pair_eq N.eqb (bi_eq feq)) its [(0, Bin (i64 0) (i64 1)); (1, Bin (i64 1) (i64 2))])).
Definition uniformnoflow_clone_t := uniformnoflow_t (fun ax => Val (uniformnoflow_eqb F64 ax ax)).

(** ** tests/test_uniformcyclic_axis.rs *)
Notation UC32 := (uniformcyclic_axis f32_ops).
Definition uniformcyclic_bin_t := let! ax := unwrap (uniformcyclic_new f32_ops 4 (dec32 0 0) (dec32 1 0)) in
  let! bs := mapo (@bin _ UC32 ax) [0; 1; 2; 3] in
  Val (list_eq (opt_eq (bi_eq feq)) bs
    [Some (Bin (dec32 0 2) (dec32 25 2)); Some (Bin (dec32 25 2) (dec32 50 2)); Some (Bin (dec32 50 2) (dec32 75 2)); Some (Bin (dec32 75 2) (dec32 100 2))]).
Definition uniformcyclic_float_index_t := let! ax := unwrap (uniformcyclic_new f32_ops 10 (dec32 0 0) (dec32 1 0)) in
  let! is := mapo (@index _ UC32 ax) (map (fun m => dec32 m 2)
    [0; 9; 10; 19; 20; 1000; 2033; 5099; -10; -19; -20; -90; -95; -1000; -1005; -1010]%Z) in
  Val (list_eq (opt_eq N.eqb) is (map Some [0; 0; 1; 1; 2; 0; 3; 9; 9; 8; 8; 1; 0; 0; 9; 8])).
Notation UCI := (uniformcyclic_axis I32).
Definition uniformcyclic_integer_index_t :=
  let! ax := unwrap (uniformcyclic_with_step_size I32 2 0%Z 10%Z) in
  let! is := mapo (@index _ UCI ax) [0; 5; 15; 20; 29; 30; -1; -10; -11]%Z in
  let! ax' := unwrap (uniformcyclic_with_step_size I32 10 10%Z 9%Z) in
  let! is' := mapo (@index _ UCI ax') [10; 18; 19; 27; 28; 99; 100]%Z in
  Val (list_eq (opt_eq N.eqb) is (map Some [0; 0; 1; 0; 0; 1; 1; 1; 0])
       && list_eq (opt_eq N.eqb) is' (map Some [0; 0; 1; 1; 2; 9; 0])).
Definition uniformcyclic_indices_t := let! ax := unwrap (uniformcyclic_new F64 7 (dec64 234 1) (dec64 973 1)) in
  let! is := @indices _ (uniformcyclic_axis f64_ops) ax in Val (list_eq N.eqb is [0; 1; 2; 3; 4; 5; 6]).
Definition uniformcyclic_into_iter_t := let! ax := unwrap (uniformcyclic_with_step_size I32 3 15%Z 10%Z) in
  let! its := @axis_iter _ UCI ax in
  Val (list_eq (pair_eq N.eqb (bi_eq Z.eqb)) its (combine [0; 1; 2] [Bin 15 25; Bin 25 35; Bin 35 45]%Z)).

(** ** tests/test_variable_axis.rs, for each implementation of the search *)
Section Search.
Context (search : searcher).
Notation VI := (variable_axis search (H0 := @num_ord _ I32)).
Notation VF := (variable_axis search (H0 := @num_ord _ F64)).
Notation new_i l := (unwrap (variable_new insertion_sort (H0 := @num_ord _ I32) l%Z)).
Notation new_f l := (unwrap (variable_new insertion_sort (H0 := @num_ord _ F64) l)).
Definition is_err {A} (e : AxisError) (eq : AxisError -> AxisError -> bool) (r : outcome (result A AxisError)) : outcome bool :=
  let! r := r in Val (match r with Err e' => eq e e' | Ok _ => false end).
Definition axis_error_eq (a b : AxisError) : bool :=
  match a, b with
  | InvalidNumberOfBins, InvalidNumberOfBins | InvalidAxisRange, InvalidAxisRange | InvalidStepSize, InvalidStepSize
  | InvalidNumberOfBinEdges, InvalidNumberOfBinEdges | FailedToSortBinEdges, FailedToSortBinEdges => true
  | _, _ => false
  end.
Definition variable_num_bins_t := let! ax := new_f (map i64 [0; 1; 4; 8]%Z) in let! n := @num_bins _ VF ax in Val (n =? 3 + 2).
Definition variable_errors_t :=
  let new l := variable_new insertion_sort (H0 := @num_ord _ F64) l in
  let! a := is_err InvalidNumberOfBinEdges axis_error_eq (new []) in
  let! b := is_err InvalidNumberOfBinEdges axis_error_eq (new [i64 1]) in
  let! c := is_err FailedToSortBinEdges axis_error_eq (new [i64 1; B754_nan; i64 2]) in
  Val (a && b && c).
Definition variable_low_high_t := let! ax := new_i [0; 1; 4; 8] in
  let! l := variable_low ax in let! h := variable_high ax in Val (Z.eqb l 0 && Z.eqb h 8).
Definition variable_get_index_t := let! ax := new_i [0; 1; 4; 8] in
  let! is := mapo (@index _ VI ax) [-1; 0; 1; 2; 3; 4; 5; 6; 7; 8; 9]%Z in
  Val (list_eq (opt_eq N.eqb) is (map Some [0; 1; 2; 2; 2; 3; 3; 3; 3; 4; 4])).
Definition variable_get_bin_t := let! ax := new_i [0; 1; 4; 8] in
  let! bs := mapo (@bin _ VI ax) [0; 1; 2; 3; 4; 5] in
  Val (list_eq (opt_eq (bi_eq Z.eqb)) bs
    [Some (Underflow 0); Some (Bin 0 1); Some (Bin 1 4); Some (Bin 4 8); Some (Overflow 8); None]%Z).
Definition variable_clone_t := let! ax := new_i [0; 1; 4; 8] in Val (variable_eqb (H0 := @num_ord _ I32) ax ax).
Definition variable_iterate_indices_t := let! ax := new_i [0; 1; 4; 8] in
  let! is := @indices _ VI ax in Val (list_eq N.eqb is [0; 1; 2; 3; 4]).
Definition variable_iterate_bins_t := let! ax := new_i [0; 1; 4; 8] in let! bs := @axis_bins _ VI ax in
  Val (list_eq (bi_eq Z.eqb) bs [Underflow 0; Bin 0 1; Bin 1 4; Bin 4 8; Overflow 8]%Z).
Definition variable_iterate_items_t := let! ax := new_i [0; 1; 4; 8] in
  let! its := @axis_iter _ VI ax in let! is := @indices _ VI ax in let! bs := @axis_bins _ VI ax in
  Val (list_eq (pair_eq N.eqb (bi_eq Z.eqb)) its (combine is bs)).
Definition variable_negative_axis_t := let! ax := new_i [-3; -1; 0; 1] in
  let! is := mapo (@index _ VI ax) [-4; -3; -2; -1; 0; 1; 2]%Z in
  let! bs := mapo (@bin _ VI ax) [0; 1; 2; 3; 4; 5] in
  Val (list_eq (opt_eq N.eqb) is (map Some [0; 1; 1; 2; 3; 4; 4])
       && list_eq (opt_eq (bi_eq Z.eqb)) bs
            [Some (Underflow (-3)); Some (Bin (-3) (-1)); Some (Bin (-1) 0); Some (Bin 0 1); Some (Overflow 1); None]%Z).
Definition variable_floatingpoint_axis_t := let! ax := new_f (map i64 [-3; -1; 0; 1]%Z) in
  let! is := mapo (@index _ VF ax) (map i64 [-4; -3; -2; -1; 0; 1; 2]%Z) in
  let! bs := mapo (@bin _ VF ax) [0; 1; 2; 3; 4; 5] in
  Val (list_eq (opt_eq N.eqb) is (map Some [0; 1; 1; 2; 3; 4; 4])
       && list_eq (opt_eq (bi_eq feq)) bs
            [Some (Underflow (i64 (-3))); Some (Bin (i64 (-3)) (i64 (-1))); Some (Bin (i64 (-1)) (i64 0));
             Some (Bin (i64 0) (i64 1)); Some (Overflow (i64 1)); None]).

(** ** tests/test_variablenoflow_axis.rs *)
Notation VN := (variablenoflow_axis search (H0 := @num_ord _ I32)).
Notation new_n l := (unwrap (variablenoflow_new insertion_sort (H0 := @num_ord _ I32) l%Z)).
Definition variablenoflow_num_bins_t := let! ax := unwrap (variablenoflow_new insertion_sort (H0 := @num_ord _ F64) (map i64 [0; 1; 4; 8]%Z)) in
  let! n := @num_bins _ (variablenoflow_axis search (H0 := @num_ord _ F64)) ax in Val (n =? 3).
Definition variablenoflow_errors_t :=
  let new l := variablenoflow_new insertion_sort (H0 := @num_ord _ F64) l in
  let! a := is_err InvalidNumberOfBinEdges axis_error_eq (new []) in
  let! b := is_err InvalidNumberOfBinEdges axis_error_eq (new [i64 1]) in
  let! c := is_err FailedToSortBinEdges axis_error_eq (new [i64 1; B754_nan; i64 2]) in
  Val (a && b && c).
Definition variablenoflow_get_index_t := let! ax := new_n [0; 1; 4; 8] in
  let! is := mapo (@index _ VN ax) [-1; 0; 1; 2; 3; 4; 5; 6; 7; 8; 9]%Z in
  Val (list_eq N.eqb (flat_map (fun o => match o with Some i => [i] | None => [] end) is) [0; 1; 1; 1; 2; 2; 2; 2]).
Definition variablenoflow_get_bin_t := let! ax := new_n [0; 1; 4; 8] in
  let! bs := mapo (@bin _ VN ax) [0; 1; 2; 3] in
  Val (list_eq (opt_eq (bi_eq Z.eqb)) bs [Some (Bin 0 1); Some (Bin 1 4); Some (Bin 4 8); None]%Z).
Definition variablenoflow_iterate_t := let! ax := new_n [0; 1; 4; 8] in
  let! its := @axis_iter _ VN ax in let! is := @indices _ VN ax in let! bs := @axis_bins _ VN ax in
  Val (list_eq N.eqb is [0; 1; 2] && list_eq (bi_eq Z.eqb) bs [Bin 0 1; Bin 1 4; Bin 4 8]%Z
       && list_eq (pair_eq N.eqb (bi_eq Z.eqb)) its (combine is bs)).
Definition variablenoflow_negative_axis_t := let! ax := new_n [-3; -1; 0; 1] in
  let! is := mapo (@index _ VN ax) [-4; -3; -2; -1; 0; 1; 2]%Z in
  let! bs := mapo (@bin _ VN ax) [0; 1; 2; 3] in
  Val (list_eq N.eqb (flat_map (fun o => match o with Some i => [i] | None => [] end) is) [0; 0; 1; 2]
       && list_eq (opt_eq (bi_eq Z.eqb)) bs [Some (Bin (-3) (-1)); Some (Bin (-1) 0); Some (Bin 0 1); None]%Z).

(** ** tests/test_variablecyclic_axis.rs *)
Notation VC32 := (variablecyclic_axis search f32_ops).
Notation VCI := (variablecyclic_axis search I32).
Definition variablecyclic_bin_float_t :=
  let! rs := mapo (fun edges => let! ax := unwrap (variablecyclic_new insertion_sort f32_ops (map (fun m => dec32 m 1) edges)) in
      mapo (@bin _ VC32 ax) [0; 1]) [[0; 5; 20]; [5; 20; 0]]%Z in
  let e := [Some (Bin (dec32 0 1) (dec32 5 1)); Some (Bin (dec32 5 1) (dec32 20 1))] in
  Val (list_eq (list_eq (opt_eq (bi_eq feq))) rs [e; e]).
Definition variablecyclic_bin_int_t :=
  let! rs := mapo (fun edges => let! ax := unwrap (variablecyclic_new insertion_sort I32 edges) in
      mapo (@bin _ VCI ax) [0; 1]) [[0; 5; 20]; [5; 20; 0]]%Z in
  let e := [Some (Bin 0 5); Some (Bin 5 20)]%Z in
  Val (list_eq (list_eq (opt_eq (bi_eq Z.eqb))) rs [e; e]).
Definition variablecyclic_float_index_t :=
  let! ax := unwrap (variablecyclic_new insertion_sort f32_ops (map (fun m => dec32 m 0) [0; 1; 2; 4; 8]%Z)) in
  let! is := mapo (@index _ VC32 ax) (map (fun m => dec32 m 1) [5; 15; 30; 60; 85; 95; 110; 140; -75; -65; -50; -20]%Z) in
  Val (list_eq (opt_eq N.eqb) is (map Some [0; 1; 2; 3; 0; 1; 2; 3; 0; 1; 2; 3])).
Definition variablecyclic_int_index_t :=
  let! ax := unwrap (variablecyclic_new insertion_sort I32 [0; 10; 20; 40; 80]%Z) in
  let! is := mapo (@index _ VCI ax) [5; 15; 30; 60; 85; 95; 110; 140; -75; -65; -50; -20]%Z in
  Val (list_eq (opt_eq N.eqb) is (map Some [0; 1; 2; 3; 0; 1; 2; 3; 0; 1; 2; 3])).
Definition variablecyclic_indices_t :=
  let! is := mapo (fun edges => let! ax := unwrap (variablecyclic_new insertion_sort f32_ops (map (fun m => dec32 m 1) edges)) in
      @indices _ VC32 ax) [[10; 20]; [85; 23; 94; -234]]%Z in
  Val (list_eq (list_eq N.eqb) is [[0]; [0; 1; 2]]).
Definition variablecyclic_into_iter_t := let! ax := unwrap (variablecyclic_new insertion_sort I32 [0; 1; 10; 100]%Z) in
  let! its := @axis_iter _ VCI ax in
  Val (list_eq (pair_eq N.eqb (bi_eq Z.eqb)) its (combine [0; 1; 2] [Bin 0 1; Bin 1 10; Bin 10 100]%Z)).

(** ** tests/test_axis_nan_and_inf_value.rs: the index of NaN, +inf and -inf. *)
Definition nan_and_inf_t :=
  let xs := [B754_nan; B754_infinity false; B754_infinity true] : list f64 in
  let! u := unwrap (uniform_new F64 5 (i64 0) (i64 1)) in let! u := mapo (@index _ U64 u) xs in
  let! un := unwrap (uniformnoflow_new F64 5 (i64 0) (i64 1)) in let! un := mapo (@index _ UN un) xs in
  let! uc := unwrap (uniformcyclic_new F64 5 (i64 0) (i64 1)) in let! uc := mapo (@index _ (uniformcyclic_axis f64_ops) uc) xs in
  let! v := new_f [i64 0; i64 1] in let! v := mapo (@index _ VF v) xs in
  let! vn := unwrap (variablenoflow_new insertion_sort (H0 := @num_ord _ F64) [i64 0; i64 1]) in
  let! vn := mapo (@index _ (variablenoflow_axis search (H0 := @num_ord _ F64)) vn) xs in
  let! vc := unwrap (variablecyclic_new insertion_sort F64 [i64 0; i64 1]) in let! vc := mapo (@index _ (variablecyclic_axis search f64_ops) vc) xs in
  Val (list_eq (list_eq (opt_eq N.eqb)) [u; un; uc; v; vn; vc]
    [[Some 6; Some 6; Some 0]; [None; None; None]; [None; None; None]; [Some 2; Some 2; Some 0]; [None; None; None]; [None; None; None]]).
End Search.

(** ** tests/test_category_axis.rs, tests/test_categorynoflow_axis.rs *)
Notation C := (@category_axis _ string _).
Notation CN := (@categorynoflow_axis _ string _).
Definition sv_eq (a b : SingleValueBinInterval string) : bool :=
  match a, b with SVOverflow, SVOverflow => true | SVBin x, SVBin y => String.eqb x y | _, _ => false end.
Notation "'cat' l" := (category_new l%string) (at level 10).
Notation "'catn' l" := (categorynoflow_new l%string) (at level 10).
Definition category_num_bins_t := let! n := @num_bins _ C (cat ["A"; "B"; "C"]) in Val (n =? 3 + 1).
Definition category_get_index_t := let! is := mapo (@index _ C (cat ["A"; "B"])) ["A"; "B"; "D"]%string in
  Val (list_eq (opt_eq N.eqb) is [Some 0; Some 1; Some 2]).
Definition category_get_bin_t := let! bs := mapo (@bin _ C (cat ["A"; "B"; "C"])) [0; 1; 2; 3; 4] in
  Val (list_eq (opt_eq sv_eq) bs [Some (SVBin "A"); Some (SVBin "B"); Some (SVBin "C"); Some SVOverflow; None]%string).
Definition category_clone_t := Val (category_eqb (cat ["A"; "B"; "C"]) (cat ["A"; "B"; "C"])).
(** [Display for &str] with no options is the string itself. *)
Definition category_display_t := let! t := category_display (fun _ s => s) (cat ["A"; "B"; "C"]) in
  Val (String.eqb t "{{A}, {B}, {C}, {overflow}}").
Definition category_iterate_t := let ax := cat ["A"; "B"] in
  let! is := @indices _ C (cat ["A"; "B"; "C"]) in
  let! its := @axis_iter _ C ax in let! bs := @axis_bins _ C ax in
  Val (list_eq N.eqb is [0; 1; 2; 3]
       && list_eq (pair_eq N.eqb sv_eq) its [(0, SVBin "A"); (1, SVBin "B"); (2, SVOverflow)]%string
       && list_eq sv_eq bs [SVBin "A"; SVBin "B"; SVOverflow]%string).
Definition categorynoflow_num_bins_t := let! n := @num_bins _ CN (catn ["A"; "B"; "C"]) in Val (n =? 3).
Definition categorynoflow_get_index_t := let! is := mapo (@index _ CN (catn ["A"; "B"])) ["A"; "B"; "D"]%string in
  Val (list_eq (opt_eq N.eqb) is [Some 0; Some 1; None]).
Definition categorynoflow_get_bin_t := let! bs := mapo (@bin _ CN (catn ["A"; "B"; "C"])) [0; 1; 2; 3] in
  Val (list_eq (opt_eq sv_eq) bs [Some (SVBin "A"); Some (SVBin "B"); Some (SVBin "C"); None]%string).
Definition categorynoflow_clone_t := Val (categorynoflow_eqb (catn ["A"; "B"; "C"]) (catn ["A"; "B"; "C"])).
Definition categorynoflow_display_t := let! t := categorynoflow_display (fun _ s => s) (catn ["A"; "B"; "C"]) in
  Val (String.eqb t "{{A}, {B}, {C}, {overflow}}").
Definition categorynoflow_iterate_t := let ax := catn ["A"; "B"] in
  let! is := @indices _ CN (catn ["A"; "B"; "C"]) in
  let! its := @axis_iter _ CN ax in let! bs := @axis_bins _ CN ax in
  Val (list_eq N.eqb is [0; 1; 2]
       && list_eq (pair_eq N.eqb sv_eq) its [(0, SVBin "A"); (1, SVBin "B")]%string
       && list_eq sv_eq bs [SVBin "A"; SVBin "B"]%string).

(** ** tests/test_axes.rs *)
Definition uf : axis_type := {| at_type := Uniform f64; at_axis := U64; at_eq := {| axis_eqb := uniform_eqb f64_ops |} |}.
Definition ct : axis_type := {| at_type := Category string; at_axis := C; at_eq := {| axis_eqb := category_eqb |} |}.
Definition cn : axis_type := {| at_type := CategoryNoFlow string; at_axis := CN; at_eq := {| axis_eqb := categorynoflow_eqb |} |}.
Notation N2 := [cn; cn].
Notation N3 := [cn; cn; cn].
Definition axes_2d_num_bins_t :=
  let! x := unwrap (uniform_new F64 5 (i64 0) (i64 1)) in let! y := unwrap (uniform_new F64 4 (i64 0) (i64 1)) in
  let! xy := axes_from (ts := [uf; uf]) (x, (y, tt)) in
  let! n := @num_bins _ (axes_axis [uf; uf]) xy in Val (n =? (5 + 2) * (4 + 2)).
Definition axes_3d_num_bins_t :=
  let! x := unwrap (uniform_new F64 5 (i64 0) (i64 1)) in let! y := unwrap (uniform_new F64 4 (i64 0) (i64 1)) in
  let! z := unwrap (uniform_new F64 3 (i64 0) (i64 1)) in
  let! xyz := axes_from (ts := [uf; uf; uf]) (x, (y, (z, tt))) in
  let! n := @num_bins _ (axes_axis [uf; uf; uf]) xyz in Val (n =? (5 + 2) * (4 + 2) * (3 + 2)).
Definition sv2_eq (a b : SingleValueBinInterval string * (SingleValueBinInterval string * unit)) : bool :=
  sv_eq (fst a) (fst b) && sv_eq (fst (snd a)) (fst (snd b)).
Definition sv3_eq (a b : SingleValueBinInterval string * (SingleValueBinInterval string * (SingleValueBinInterval string * unit))) : bool :=
  sv_eq (fst a) (fst b) && sv2_eq (snd a) (snd b).
Notation new2 x y := (SVBin x%string, (SVBin y%string, tt)).
Notation new3 x y z := (SVBin x%string, (SVBin y%string, (SVBin z%string, tt))).
Definition axes_2d_iter_t :=
  let! xy := axes_from (ts := [ct; ct]) (cat ["A"; "B"], (cat ["C"; "D"], tt)) in
  let! its := @axis_iter _ (axes_axis [ct; ct]) xy in
  let o := @SVOverflow string in
  Val (list_eq (pair_eq N.eqb sv2_eq) its
    [(0, new2 "A" "C"); (1, new2 "B" "C"); (2, (o, (SVBin "C"%string, tt)));
     (3, new2 "A" "D"); (4, new2 "B" "D"); (5, (o, (SVBin "D"%string, tt)));
     (6, (SVBin "A"%string, (o, tt))); (7, (SVBin "B"%string, (o, tt))); (8, (o, (o, tt)))]).
Definition xy2 : outcome (AxesTuple N2) := axes_from (ts := N2) (catn ["A"; "B"], (catn ["C"; "D"], tt)).
Definition axes_2d_index_t := let! xy := xy2 in
  let! is := mapo (@index _ (axes_axis N2) xy) [("A", ("C", tt)); ("B", ("C", tt)); ("A", ("D", tt)); ("B", ("D", tt))]%string in
  Val (list_eq (opt_eq N.eqb) is (map Some [0; 1; 2; 3])).
Definition axes_2d_bin_t := let! xy := xy2 in
  let! bs := mapo (@bin _ (axes_axis N2) xy) [0; 1; 2; 3] in
  Val (list_eq (opt_eq sv2_eq) bs (map Some [new2 "A" "C"; new2 "B" "C"; new2 "A" "D"; new2 "B" "D"])).
Definition xyz3 : outcome (AxesTuple N3) := axes_from (ts := N3) (catn ["x0"; "x1"], (catn ["y0"; "y1"], (catn ["z0"; "z1"], tt))).
Definition cells3 := [("x0", ("y0", ("z0", tt))); ("x1", ("y0", ("z0", tt))); ("x0", ("y1", ("z0", tt))); ("x1", ("y1", ("z0", tt)));
                      ("x0", ("y0", ("z1", tt))); ("x1", ("y0", ("z1", tt))); ("x0", ("y1", ("z1", tt))); ("x1", ("y1", ("z1", tt)))]%string.
Definition bins3 := map (fun c => (SVBin (fst c), (SVBin (fst (snd c)), (SVBin (fst (snd (snd c))), tt)))) cells3.
Definition axes_3d_iter_t := let! xyz := xyz3 in
  let! its := @axis_iter _ (axes_axis N3) xyz in
  Val (list_eq (pair_eq N.eqb sv3_eq) its (combine [0; 1; 2; 3; 4; 5; 6; 7] bins3)).
Definition axes_3d_index_t := let! xyz := xyz3 in
  let! is := mapo (@index _ (axes_axis N3) xyz) cells3 in
  Val (list_eq (opt_eq N.eqb) is (map Some [0; 1; 2; 3; 4; 5; 6; 7])).
Definition axes_3d_bin_t := let! xyz := xyz3 in
  let! bs := mapo (@bin _ (axes_axis N3) xyz) [0; 1; 2; 3; 4; 5; 6; 7] in
  Val (list_eq (opt_eq sv3_eq) bs (map Some bins3)).

(** ** tests/test_binrange.rs, tests/test_category_binrange.rs *)
Definition binrange_equality_t :=
  let e := bi_eq (feq (p := 53) (e := 1024)) in
  let u x := Underflow (i64 x) in let o x := Overflow (i64 x) in let b x y := Bin (i64 x) (i64 y) in
  Val (e (u 0) (u 0) && e (o 0) (o 0) && e (b 0 1) (b 0 1)
       && negb (e (u 0) (u 1)) && negb (e (o 0) (o 1)) && negb (e (b 0 1) (b 1 2))
       && negb (e (u 0) (o 0)) && negb (e (u 0) (b 0 1)) && negb (e (b 0 1) (o 0)))%Z.
Definition binrange_conversion_t :=
  let! r := unwrap (Val (range_try_from (Bin (i64 0) (i64 1)))) in
  let! t := unwrap (Val (rangeto_try_from (Underflow (i64 1)))) in
  let! f := unwrap (Val (rangefrom_try_from (Overflow (i64 1)))) in
  Val (feq (range_start r) (i64 0) && feq (range_end r) (i64 1) && bi_eq feq (bi_from_range r) (Bin (i64 0) (i64 1))
       && feq (rangeto_end t) (i64 1) && bi_eq feq (bi_from_rangeto t) (Underflow (i64 1))
       && feq (rangefrom_start f) (i64 1) && bi_eq feq (bi_from_rangefrom f) (Overflow (i64 1))).
Definition binrange_start_end_t :=
  Val (list_eq (opt_eq feq) (map bi_start [Bin (i64 0) (i64 1); Underflow (i64 0); Overflow (i64 1)]) [Some (i64 0); None; Some (i64 1)]
       && list_eq (opt_eq feq) (map bi_end [Bin (i64 0) (i64 1); Underflow (i64 0); Overflow (i64 1)]) [Some (i64 1); Some (i64 0); None]).
Definition categorybinrange_t :=
  Val (sv_eq SVOverflow SVOverflow && sv_eq (SVBin "Zero"%string) (SVBin "Zero"%string)
       && negb (sv_eq (SVBin "Zero"%string) (SVBin "One"%string)) && negb (sv_eq (SVBin "Zero"%string) SVOverflow)
       && opt_eq String.eqb (sv_value (SVBin "One"%string)) (Some "One"%string) && opt_eq String.eqb (sv_value SVOverflow) None).

(** ** Documentation tests (the examples in the crate's documentation). *)
Definition doc_uniform_t := (* axis/uniform.rs:22-31 *) uniform_negative_axis_t.
Definition doc_uniformnoflow_t := (* axis/uniformnoflow.rs:20-28 *)
  let! ax := unwrap (uniformnoflow_new F64 10 (i64 (-5)) (i64 5)) in
  let! bs := mapo (@bin _ UN ax) [0; 10] in
  Val (list_eq (opt_eq (bi_eq feq)) bs [Some (Bin (i64 (-5)) (i64 (-4))); None]).
Definition colours := ["red"; "blue"; "pink"; "yellow"; "black"]%string.
Definition doc_category_t := (* axis/category.rs:18-26 *)
  let! is := mapo (@index _ C (category_new colours)) ["red"; "green"]%string in
  let! bs := mapo (@bin _ C (category_new colours)) [1; 5] in
  Val (list_eq (opt_eq N.eqb) is [Some 0; Some 5] && list_eq (opt_eq sv_eq) bs [Some (SVBin "blue"%string); Some SVOverflow]).
Definition doc_categorynoflow_t := (* axis/categorynoflow.rs:10-18 *)
  let! is := mapo (@index _ CN (categorynoflow_new colours)) ["red"; "green"]%string in
  let! bs := mapo (@bin _ CN (categorynoflow_new colours)) [1; 5] in
  Val (list_eq (opt_eq N.eqb) is [Some 0; None] && list_eq (opt_eq sv_eq) bs [Some (SVBin "blue"%string); None]).

End Tests.

(** All of the above pass in every build. *)
Definition all_pass (ts : list (outcome bool)) : bool := forallb (fun t => match t with Val b => b | Panic => false end) ts.

Example repo_tests_axes : forall B : Build,
  all_pass [uniform_num_bins_t B; uniform_get_index_t B; uniform_get_bin_t B; uniform_get_edges_t B; uniform_clone_t B;
    uniform_iterate_indices_t B; uniform_iterate_items_t B; uniform_iterate_bin_t B; uniform_negative_axis_t B;
    uniform_integer_num_bins_t B; uniform_integer_get_index_t B; uniform_integer_get_bin_t B; uniform_negative_step_t B; uniform_zero_step_t B;
    uniformnoflow_num_bins_t B; uniformnoflow_get_index_t B; uniformnoflow_get_bin_t B; uniformnoflow_indices_t B;
    uniformnoflow_bins_t B; uniformnoflow_iter_t B; uniformnoflow_clone_t B;
    uniformcyclic_bin_t B; uniformcyclic_float_index_t B; uniformcyclic_integer_index_t B; uniformcyclic_indices_t B; uniformcyclic_into_iter_t B]
  = true.
Proof. run_test. Qed.

Example repo_tests_variable : forall B : Build, forall search, In search [bsearch_early; bsearch_branchless] ->
  all_pass [variable_num_bins_t B search; variable_errors_t B; variable_low_high_t B; variable_get_index_t B search;
    variable_get_bin_t B search; variable_clone_t B; variable_iterate_indices_t B search; variable_iterate_bins_t B search;
    variable_iterate_items_t B search; variable_negative_axis_t B search; variable_floatingpoint_axis_t B search;
    variablenoflow_num_bins_t B search; variablenoflow_errors_t B; variablenoflow_get_index_t B search;
    variablenoflow_get_bin_t B search; variablenoflow_iterate_t B search; variablenoflow_negative_axis_t B search;
    variablecyclic_bin_float_t B search; variablecyclic_bin_int_t B search; variablecyclic_float_index_t B search;
    variablecyclic_int_index_t B search; variablecyclic_indices_t B search; variablecyclic_into_iter_t B search;
    nan_and_inf_t B search]
  = true.
Proof. intros B search [<-|[<-|[]]]; revert B; run_test. Qed.

Example repo_tests_category_axes : forall B : Build,
  all_pass [category_num_bins_t B; category_get_index_t B; category_get_bin_t B; category_clone_t; category_display_t B; category_iterate_t B;
    categorynoflow_num_bins_t B; categorynoflow_get_index_t B; categorynoflow_get_bin_t B; categorynoflow_clone_t;
    categorynoflow_display_t B; categorynoflow_iterate_t B;
    axes_2d_num_bins_t B; axes_3d_num_bins_t B; axes_2d_iter_t B; axes_2d_index_t B; axes_2d_bin_t B;
    axes_3d_iter_t B; axes_3d_index_t B; axes_3d_bin_t B;
    binrange_equality_t; binrange_conversion_t; binrange_start_end_t; categorybinrange_t;
    doc_uniform_t B; doc_uniformnoflow_t B; doc_category_t B; doc_categorynoflow_t B]
  = true.
Proof. run_test. Qed.
