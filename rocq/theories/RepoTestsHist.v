(** * RepoTestsHist: the repository's own tests of histograms and bin values, and
    the examples in its documentation, run on the model (continues
    [RepoTestsAxis]; again tests of the model, not proofs of properties).

    Tests that draw random numbers are left out (the generator is not modelled),
    as are tests that only print or only check types. *)
From Coq Require Import List NArith ZArith Bool String.
From stdpp Require Import base strings gmap.
From Flocq Require Import Core IEEE754.BinarySingleNaN.
From Verif Require Import Base Num Float Axis Uniform StdAlgo VarAxis Category Axes Value ValueFloat VecHist HashHist
  Macros DisplayCat Display RepoTestsAxis.
Import ListNotations.
Open Scope list_scope.
Open Scope N_scope.

(** ** Printing a float, concretely (enough for the numbers in the tests). *)
(** [|x| * 10^k], to the nearest integer, ties to even. *)
Definition scaled (x : f64) (k : Z) : Z :=
  match x with
  | B754_finite _ m e _ =>
      let n := (Zpos m * 10 ^ k)%Z in
      if (0 <=? e)%Z then (n * 2 ^ e)%Z
      else let d := (2 ^ (- e))%Z in
           let q := (n / d)%Z in let r := (n mod d)%Z in
           if (2 * r <? d)%Z then q else if (d <? 2 * r)%Z then (q + 1)%Z else if Z.even q then q else (q + 1)%Z
  | _ => 0%Z
  end.
Fixpoint zeros (n : nat) : string := match n with O => ""%string | S n => String (Ascii.ascii_of_nat 48) (zeros n) end.
(** The decimal [n / 10^k] with exactly [k] decimals. *)
Definition fixed (n : Z) (k : nat) : string :=
  let p := (10 ^ Z.of_nat k)%Z in
  let whole := fmt_usize (Z.to_N (n / p)) in
  let frac := fmt_usize (Z.to_N (n mod p)) in
  match k with O => whole | _ => (whole ++ "." ++ zeros (k - String.length frac) ++ frac)%string end.
Definition sign_of (x : f64) : string := if Bsign x then "-"%string else ""%string.
(** [{:.p}]: correctly rounded; [{}]: the fewest decimals that read back as [x]. *)
Definition fmt_float : formatter f64 := fun p x =>
  match p with
  | Some p => (sign_of x ++ fixed (scaled x (Z.of_N p)) (N.to_nat p))%string
  | None =>
      let fits k := feq (Babs x) (f64_quot (scaled x (Z.of_nat k)) (10 ^ Z.of_nat k)) in
      match List.filter fits (seq 0 18) with
      | k :: _ => (sign_of x ++ fixed (scaled x (Z.of_nat k)) k)%string
      | [] => "?"%string
      end
  end.

Section Tests.
Context (B : Build).
Notation F64 := (@f64_ops B).
Notation I32 := (@int_ops B (signed 32)).
Notation U64 := (uniform_axis f64_ops).
Notation UC := (uniformcyclic_axis f64_ops).

(** Values of type f64, i32, ... *)
#[local] Instance f64_fill : Fill f64 := num_fill F64.
#[local] Instance f64_fill_with : FillWith f64 f64 := num_fill_with F64.
#[local] Instance f64_default : Default f64 := num_default F64.

Definition of_option (o : option f64) (x : f64) : bool := opt_eq feq o (Some x).
Definition all_of (l : list (outcome bool)) : outcome bool := foldo (fun a t => let! b := t in Val (a && b)) l true.

(** *** One f64 histogram over one [Uniform] axis. *)
Section Dense.
Notation AX := (@axes1_axis _ U64).
Notation H := (VecHistogram (AxesTuple1 (Uniform f64)) f64).
Definition hist1 (n : N) (low high : f64) : outcome H :=
  let! ax := unwrap (uniform_new F64 n low high) in ndhistogram1 (AX := U64) ax.
Notation fill h x := (vec_fill (AX := AX) h x).
Notation fill_with h x w := (vec_fill_with (AX := AX) (D := f64) h x w).
Notation value h x := (vec_value (AX := AX) h x).
Definition fills (h : H) (l : list (f64 * f64)) : outcome H := foldo (fun h xw => fill_with h (fst xw) (snd xw)) l h.
Definition values_are (h : H) (l : list Z) : bool := list_eq feq (vec_values h) (map i64 l).
Definition at_is (h : H) (i : N) (o : option Z) : bool := opt_eq feq (vec_value_at_index h i) (option_map i64 o).

(** tests/test_ndhistogram_1d.rs *)
Definition h1_unweighted_fill_once_t := let! h := hist1 5 (i64 0) (dec64 5 1) in
  let! h := fill h (dec64 1 1) in let! v := value h (dec64 1 1) in Val (of_option v (i64 1)).
Definition h1_unfilled_is_empty_t := let! h := hist1 5 (i64 0) (dec64 5 1) in Val (values_are h [0; 0; 0; 0; 0; 0; 0]%Z).
Definition h1_weighted_fill_once_t := let! h := hist1 5 (i64 0) (dec64 5 1) in
  let! h := fill_with h (dec64 1 1) (i64 2) in let! v := value h (dec64 1 1) in Val (of_option v (i64 2)).
Definition h1_fill_nan_t := let! h := hist1 5 (i64 0) (dec64 5 1) in
  let! h := fill h B754_nan in let! v := value h (dec64 1 1) in Val (of_option v (i64 0)).
Definition h1_fill_bin_edges_t := let! h := hist1 2 (i64 0) (i64 2) in
  let! h := fill h (i64 (-1)) in
  let! h := fills h [(i64 0, i64 20); (dec64 5 1, i64 300); (i64 1, i64 4000); (dec64 15 1, i64 50000); (i64 2, i64 600000); (dec64 25 1, i64 7000000)] in
  Val (values_are h [1; 320; 54000; 7600000]%Z).
Definition h1_get_axes_t := let! ax := unwrap (uniform_new F64 2 (i64 0) (i64 2)) in
  let! h := ndhistogram1 (AX := U64) (V := f64) ax in Val (uniform_eqb F64 ax (ax1_axis (vh_axes h))).
Definition h1_value_at_index_t := let! h := hist1 2 (i64 0) (i64 2) in let! h := fill h (i64 0) in
  Val (at_is h 0 (Some 0%Z) && at_is h 1 (Some 1%Z) && at_is h 2 (Some 0%Z) && at_is h 3 (Some 0%Z) && at_is h 4 None).
Definition h1_value_at_coordinate_t := let! h := hist1 2 (i64 0) (i64 2) in let! h := fill h (i64 0) in
  let! vs := mapo (fun x => value h (i64 x)) [0; 1; -1; 2]%Z in
  Val (list_eq (opt_eq feq) vs (map (fun x => Some (i64 x)) [1; 0; 0; 0]%Z)).
Definition through (h : H) (r : option (mut_ref f64 H)) (x : f64) : outcome H :=
  match r with Some r => Val (assign r x) | None => Panic end.
Definition h1_value_at_index_mut_t := let! h := hist1 2 (i64 0) (i64 2) in
  let! h := through h (vec_value_at_index_mut h 1) (i64 2) in
  Val (at_is h 0 (Some 0%Z) && at_is h 1 (Some 2%Z) && at_is h 2 (Some 0%Z) && at_is h 3 (Some 0%Z) && at_is h 4 None).
Definition h1_value_mut_t := let! h := hist1 2 (i64 0) (i64 2) in
  let! r := vec_value_mut (AX := AX) h (i64 0) in let! h := through h r (i64 2) in
  Val (at_is h 0 (Some 0%Z) && at_is h 1 (Some 2%Z) && at_is h 2 (Some 0%Z) && at_is h 3 (Some 0%Z) && at_is h 4 None).
Definition h1_iter_mut_t := let! h := hist1 2 (i64 0) (i64 2) in
  let! h := vec_iter_mut (AX := AX) h (fun i _ _ => Val (i64 (Z.of_N i))) in
  Val (at_is h 0 (Some 0%Z) && at_is h 1 (Some 1%Z) && at_is h 2 (Some 2%Z) && at_is h 3 (Some 3%Z) && at_is h 4 None).

(** tests/test_ndhistogram_display.rs *)
Definition render (h : H) : outcome string :=
  let! r := vec_display (AX := AX) (fun x => x) fmt_float (fmt_bin_interval fmt_float) (fun _ => true) None h in
  if snd r then Val (String.concat "" (fst r)) else Panic.
Definition nl : string := String (Ascii.ascii_of_nat 10) "".
Definition display_blank_t := let! h := hist1 4 (i64 0) (i64 2) in let! actual := render h in
  Val (String.eqb actual ("VecHistogram1D(6 bins, sum=0)" ++ nl ++
"    (-inf, 0.00) | " ++ nl ++
"    [0.00, 0.50) | " ++ nl ++
"    [0.50, 1.00) | " ++ nl ++
"    [1.00, 1.50) | " ++ nl ++
"    [1.50, 2.00) | " ++ nl ++
"     [2.00, inf) | ")%string).
Definition display_filled_positive_t := let! h := hist1 4 (i64 0) (i64 2) in
  let! h := fills h [(dec64 (-10) 1, dec64 20 1); (dec64 1 1, dec64 9 1); (dec64 6 1, dec64 40 1); (dec64 11 1, dec64 60 1);
                     (dec64 16 1, dec64 1000 1); (dec64 21 1, dec64 500 1)] in
  let! actual := render h in
  Val (String.eqb actual ("VecHistogram1D(6 bins, sum=162.9)" ++ nl ++
"    (-inf, 0.00) | #" ++ nl ++
"    [0.00, 0.50) | " ++ nl ++
"    [0.50, 1.00) | ##" ++ nl ++
"    [1.00, 1.50) | ###" ++ nl ++
"    [1.50, 2.00) | ##################################################" ++ nl ++
"     [2.00, inf) | #########################")%string).

(** tests/test_from_and_into_methods.rs *)
Definition h1_as_vec_t := let! h := hist1 1 (i64 0) (i64 1) in let! h := fill h (dec64 5 1) in
  let e := map i64 [0; 1; 0]%Z in
  Val (list_eq feq (vec_as_vec h) e && list_eq feq (vec_as_slice h) e && list_eq feq (vec_into_vec h) e).
Definition axes_1 : outcome (AxesTuple1 (Uniform f64)) := let! ax := unwrap (uniform_new F64 1 (i64 0) (i64 1)) in axes1_from (AX := U64) ax.
Definition is_invalid_bins {A} (r : result A Error) : bool :=
  match r with Err (ErrAxis InvalidNumberOfBins) => true | _ => false end.
Definition h1_from_vec_t := let! a := axes_1 in
  let! good := vec_from_vec (AX := AX) a (map i64 [0; 1; 0]%Z) in
  let! bad := vec_from_vec (AX := AX) a [i64 0] in
  Val (match good with Ok _ => true | Err _ => false end && is_invalid_bins bad).

(** tests/test_ndhistogram_binary_ops.rs: mismatched axes; and the examples of
    src/histogram/vechistogram.rs:166-304. *)
Notation AE := (axes1_eq (X := Uniform f64) (EX := {| axis_eqb := uniform_eqb F64 |})).
Definition op_list : list ((f64 -> f64 -> outcome f64) * Z) :=
  [(@n_add _ F64, 3%Z); (@n_sub _ F64, 1%Z); (@n_mul _ F64, 2%Z); (@n_div _ F64, 2%Z)].
Definition is_err1 {A E} (r : outcome (result A E)) : outcome bool := let! r := r in Val (match r with Err _ => true | Ok _ => false end).
Definition h1_ops_mismatch_t := let! l := hist1 10 (i64 (-5)) (i64 5) in let! r := hist1 10 (i64 (-5)) (i64 6) in
  all_of (flat_map (fun o => [is_err1 (vec_binop_borrowed (AE := AE) (fst o) l r); is_err1 (vec_binop_owned (AE := AE) (fst o) l r)]) op_list).
Definition h1_ops_examples_t :=
  let! l := hist1 10 (i64 (-5)) (i64 5) in let! r := hist1 10 (i64 (-5)) (i64 5) in
  let! l := fill_with l (i64 0) (i64 2) in let! r := fill r (i64 0) in
  let is x h := let! v := value h (i64 0) in Val (of_option v (i64 x)) in
  all_of (flat_map (fun o =>
    [(let! h := unwrap (vec_binop_borrowed (AE := AE) (fst o) l r) in is (snd o) h);
     (let! h := unwrap (vec_binop_owned (AE := AE) (fst o) l r) in is (snd o) h);
     (let! h := vec_binop_assign (AE := AE) (fst o) l r in is (snd o) h)]) op_list).
(** src/lib.rs:50-71 and 238-263 *)
Definition doc_quick_start_t := let! h := hist1 10 (i64 (-5)) (i64 5) in
  let! h := fill h (i64 1) in let! h := fill_with h (i64 2) (i64 4) in
  let! x1 := value h (i64 1) in Val (opt_eq feq x1 (vec_value_at_index h 7) && of_option x1 (i64 1)).
Definition doc_merge_t := let! l := hist1 10 (i64 (-5)) (i64 5) in let! r := hist1 10 (i64 (-5)) (i64 5) in
  let! l := fill_with l (i64 0) (i64 2) in let! r := fill_with r (i64 0) (i64 3) in
  let! h := unwrap (vec_binop_owned (AE := AE) (@n_add _ F64) l r) in let! v := value h (i64 0) in Val (of_option v (i64 5)).
(** tests/test_parallel_iterators.rs (the order-preserving collections; the mutating ones are sequentialised here) *)
Definition par_example_t := let! h := hist1 100 (i64 0) (i64 100) in
  let! h := foldo (fun h k => let x := i64 (Z.of_N k - 1) in fill_with h x x) (range 103) h in
  let! items := vec_par_iter (AX := AX) h in
  let! h2 := vec_values_mut h (fun v => @n_mul _ F64 v (i64 2)) in
  let! h3 := vec_iter_mut (AX := AX) h (fun _ _ v => @n_mul _ F64 v (i64 2)) in
  let! doubled := mapo (fun v => @n_mul _ F64 v (i64 2)) (vec_values h) in
  Val (list_eq feq (vec_par_values h) (vec_values h) && list_eq feq (map it_value items) (vec_values h)
       && list_eq feq (vec_values h2) doubled && list_eq feq (vec_values h3) doubled
       && list_eq feq (vec_values h) (map i64 ([-1] ++ map Z.of_N (range 100) ++ [201])%Z)).
End Dense.

(** *** Two dimensions: tests/test_ndhistogram_2d.rs and src/lib.rs:153-164. *)
Section Dense2.
Definition ut : axis_type := {| at_type := Uniform f64; at_axis := U64; at_eq := {| axis_eqb := uniform_eqb F64 |} |}.
Notation TS := [ut; ut].
Notation AX := (axes_axis TS).
Notation fill h x y := (vec_fill (AX := AX) h (x, (y, tt))).
Notation fill_with h x y w := (vec_fill_with (AX := AX) (D := f64) h (x, (y, tt)) w).
Notation value h x y := (vec_value (AX := AX) h (x, (y, tt))).
Definition hist2 n a b m c d : outcome (VecHistogram (AxesTuple TS) f64) :=
  let! x := unwrap (uniform_new F64 n a b) in let! y := unwrap (uniform_new F64 m c d) in ndhistogram TS (x, (y, tt)).
Definition h2_small := hist2 5 (i64 0) (dec64 5 1) 5 (dec64 5 1) (i64 1).
Definition h2_fill_once_t := let! h := h2_small in
  let! h1 := fill h (dec64 1 1) (dec64 6 1) in let! v := value h1 (dec64 1 1) (dec64 6 1) in
  let! h2 := fill_with h (dec64 1 1) (dec64 6 1) (i64 2) in let! w := value h2 (dec64 1 1) (dec64 6 1) in
  Val (of_option v (i64 1) && of_option w (i64 2) && list_eq feq (vec_values h) (repeat (i64 0) 49)).
Definition or_minus_one (o : option f64) : f64 := match o with Some x => x | None => i64 (-1) end.
Definition h2_fill_bin_edges_t := let! h := hist2 2 (i64 0) (i64 2) 2 (i64 0) (i64 2) in
  let! h := fill h (i64 (-1)) (i64 (-1)) in
  let! h := fill_with h (i64 0) (i64 0) (i64 20) in
  let! h := fill_with h (i64 1) (i64 0) (i64 300) in
  let! h := fill_with h (i64 0) (i64 1) (i64 4000) in
  let! h := fill_with h (i64 1) (i64 1) (i64 50000) in
  let! bs := @axis_bins _ AX (vh_axes h) in
  let! actual := mapo (fun b : BinInterval f64 * (BinInterval f64 * unit) =>
      let x := or_minus_one (bi_start (fst b)) in let y := or_minus_one (bi_start (fst (snd b))) in
      let! i := @index _ U64 (fst (ax_axes (vh_axes h))) x in
      let! j := @index _ U64 (fst (snd (ax_axes (vh_axes h)))) y in
      let! v := value h x y in Val (i, j, v)) bs in
  let expected := [(0, 0, 1); (1, 0, 0); (2, 0, 0); (3, 0, 0); (0, 1, 0); (1, 1, 20); (2, 1, 300); (3, 1, 0);
                   (0, 2, 0); (1, 2, 4000); (2, 2, 50000); (3, 2, 0); (0, 3, 0); (1, 3, 0); (2, 3, 0); (3, 3, 0)] in
  Val (list_eq (pair_eq (pair_eq (opt_eq N.eqb) (opt_eq N.eqb)) (opt_eq feq)) actual
         (map (fun e => (Some (fst (fst e)), Some (snd (fst e)), Some (i64 (Z.of_N (snd e))))) expected)).
(** src/macros.rs:23-32 and 98-106: each axis has 10+2 bins *)
Definition doc_macros_num_bins_t := let! h := hist2 10 (i64 (-5)) (i64 5) 10 (i64 (-5)) (i64 5) in
  let! x := unwrap (uniform_new F64 10 (i64 (-5)) (i64 5)) in
  let! s := sparsehistogram TS (V := f64) (x, (x, tt)) in
  let! n := @num_bins _ AX (vh_axes h) in let! m := @num_bins _ AX (hh_axes s) in Val ((n =? 12 * 12) && (m =? 12 * 12)).
End Dense2.

(** *** tests/test_ndhistogram_1d_category.rs (values i32) and src/lib.rs:168-185. *)
Section Cat.
Notation C := (@category_axis _ string _).
Notation AX := (@axes1_axis _ C).
#[local] Instance i32_fill : Fill Z := num_fill I32.
#[local] Instance i32_fill_with : FillWith Z Z := num_fill_with I32.
#[local] Instance i32_default : Default Z := num_default I32.
Notation H := (VecHistogram (AxesTuple1 (Category string)) Z).
Definition hcat : outcome H := ndhistogram1 (AX := C) (category_new ["A"; "B"]%string).
Notation fill h x := (vec_fill (AX := AX) h x%string).
Notation fill_with h x w := (vec_fill_with (AX := AX) (D := Z) h x%string w).
Notation value h x := (vec_value (AX := AX) h x%string).
Definition zat (h : H) (i : N) (o : option Z) : bool := opt_eq Z.eqb (vec_value_at_index h i) o.
Definition cat_fill_t := let! h := hcat in
  let! h1 := fill h "A" in let! v := value h1 "A" in let! vb := value h1 "B" in let! vc := value h1 "C" in
  let! h2 := fill_with h "A" 2%Z in let! w := value h2 "A" in
  let! h3 := fill_with h1 "B" 2%Z in let! h3 := fill_with h3 "C" 3%Z in
  let! items := vec_iter (AX := AX) h3 in
  Val (opt_eq Z.eqb v (Some 1%Z) && opt_eq Z.eqb vb (Some 0%Z) && opt_eq Z.eqb vc (Some 0%Z) && opt_eq Z.eqb w (Some 2%Z)
       && list_eq Z.eqb (vec_values h) [0; 0; 0]%Z && list_eq Z.eqb (vec_values h3) [1; 2; 3]%Z
       && zat h1 0 (Some 1%Z) && zat h1 1 (Some 0%Z) && zat h1 2 (Some 0%Z) && zat h1 3 None
       && list_eq (pair_eq N.eqb Z.eqb) (map (fun it => (it_index it, it_value it)) items) (combine [0; 1; 2] [1; 2; 3]%Z)
       && list_eq sv_eq (map it_bin items) [SVBin "A"; SVBin "B"; SVOverflow]%string).
Definition zthrough (h : H) (r : option (mut_ref Z H)) (x : Z) : outcome H :=
  match r with Some r => Val (assign r x) | None => Panic end.
Definition cat_mut_t := let! h := hcat in
  let! h1 := zthrough h (vec_value_at_index_mut h 1) 2%Z in
  let! r := vec_value_mut (AX := AX) h "B"%string in let! h2 := zthrough h r 2%Z in
  let! h3 := vec_iter_mut (AX := AX) h (fun i _ _ => Val (Z.of_N i)) in
  Val (list_eq Z.eqb (vec_values h1) [0; 2; 0]%Z && list_eq Z.eqb (vec_values h2) [0; 2; 0]%Z && list_eq Z.eqb (vec_values h3) [0; 1; 2]%Z).
Notation CI := (@category_axis _ Z _).
Definition doc_discrete_t := let! h := ndhistogram1 (AX := CI) (V := f64) (category_new [0; 2; 4]%Z) in
  let AXI := @axes1_axis _ CI in
  let! h := vec_fill_with (AX := AXI) (D := f64) h 2%Z (i64 42) in
  let! h := vec_fill_with (AX := AXI) (D := f64) h 1%Z (i64 128) in
  let! vs := mapo (fun c => vec_value (AX := AXI) h c) [2; 1; 3]%Z in
  Val (list_eq (opt_eq feq) vs (map (fun x => Some (i64 x)) [42; 128; 128]%Z)).
End Cat.

(** *** Cyclic and variable axes with u8, i32 or f64 bins. *)
Section Others.
Notation U8 := (@int_ops B (unsigned 8)).
#[local] Instance u8_fill : Fill Z := num_fill U8.
#[local] Instance u8_default : Default Z := num_default U8.
(** Fill a fresh histogram at the coordinates [cs] and read the value at [qs]. *)
Definition filled {X V} (AX : Axis X) (DV : Default V) (FV : Fill V) (x : outcome X) (cs : list (@Coordinate _ AX))
  : outcome (VecHistogram (AxesTuple1 X) V) :=
  let! x := x in let! h := ndhistogram1 (AX := AX) x in foldo (fun h c => vec_fill (AX := @axes1_axis _ AX) h c) cs h.
Definition read {X V} (AX : Axis X) (qs : list (@Coordinate _ AX)) (h : VecHistogram (AxesTuple1 X) V) : outcome (list (option V)) :=
  mapo (fun c => vec_value (AX := @axes1_axis _ AX) h c) qs.
(** tests/test_uniformcyclic_axis.rs:77-111, axis/uniformcyclic.rs:16-47 *)
Definition turns := [i64 45; i64 (45 + 360); i64 (45 - 360)].
Definition uniformcyclic_fill_t :=
  let ax := unwrap (uniformcyclic_new F64 4 (i64 0) (i64 360)) in
  let! h := filled UC u8_default u8_fill ax turns in let! vs := read UC turns h in
  let! h' := filled UC u8_default u8_fill ax [i64 45] in let! vs' := read UC turns h' in
  let! g := filled UC f64_default f64_fill ax turns in let! ws := read UC turns g in
  Val (list_eq (opt_eq Z.eqb) vs [Some 3; Some 3; Some 3]%Z && opt_eq Z.eqb (vec_value_at_index h 0) (Some 3%Z)
       && list_eq (opt_eq Z.eqb) vs' [Some 1; Some 1; Some 1]%Z
       && list_eq (opt_eq feq) ws (repeat (Some (i64 3)) 3)).
Notation UCI := (uniformcyclic_axis I32).
Definition uniformcyclic_int_fill_t :=
  let! h := filled UCI f64_default f64_fill (unwrap (uniformcyclic_with_step_size I32 24 0%Z 1%Z)) [40%Z] in
  let! vs := read UCI [16%Z] h in Val (list_eq (opt_eq feq) vs [Some (i64 1)]).
(** src/lib.rs:204-215 *)
Definition pi64 : f64 := f64_lit 7074237752028440 (-51).
Definition doc_cyclic_t :=
  let! two_pi := @n_mul _ F64 (i64 2) pi64 in
  let! h := filled UC f64_default f64_fill (unwrap (uniformcyclic_new F64 10 (i64 0) two_pi)) [pi64; Bopp pi64] in
  let! vs := read UC [Bopp pi64; pi64] h in Val (list_eq (opt_eq feq) vs (repeat (Some (i64 2)) 2)).
(** axis/mod.rs:51-84: a user-defined axis *)
Definition parity_axis : Axis unit := {| Coordinate := Z; Interval := bool;
  index := fun _ c => Val (if Z.eqb (Z.rem c 2) 0 then Some 0 else Some 1);
  num_bins := fun _ => Val 2; num_dim := fun _ => 1; bin := fun _ i => Val (Some (i =? 0)) |}.
Definition doc_parity_t := let! h := filled parity_axis (num_default I32) (num_fill I32) (Val tt) [1%Z] in
  let! h := vec_fill_with (AX := @axes1_axis _ parity_axis) (H := num_fill_with I32) h 2%Z 4%Z in
  let! vs := read parity_axis [1; 2]%Z h in Val (list_eq (opt_eq Z.eqb) vs [Some 1; Some 4]%Z).
(** tests/test_fill_overflow.rs *)
Definition wrapping (a b : Z) : outcome Z := Val ((a + b) mod 2 ^ 32)%Z.
Definition wrapping_fill_t := let! ax := unwrap (uniform_new F64 1 (i64 0) (i64 1)) in
  let! h := ndhistogram1 (AX := U64) (DV := {| default_v := 0%Z |}) ax in
  let! h := vec_fill_with (AX := @axes1_axis _ U64) (H := {| fill_with_v := wrapping |}) h (i64 0) (2 ^ 32 - 1)%Z in
  let! h := vec_fill (AX := @axes1_axis _ U64) (H := {| fill_v := fun v => wrapping v 1%Z |}) h (i64 0) in
  let! v := vec_value (AX := @axes1_axis _ U64) h (i64 0) in Val (opt_eq Z.eqb v (Some 0%Z)).

Section Search.
Context (search : searcher).
Notation VC := (variablecyclic_axis search f64_ops).
Notation VCI := (variablecyclic_axis search I32).
Notation V64 := (variable_axis search (H0 := @num_ord _ F64)).
Notation VN := (variablenoflow_axis search (H0 := @num_ord _ F64)).
(** tests/test_variablecyclic_axis.rs:82-117, axis/variablecyclic.rs:17-27 *)
Definition variablecyclic_fill_t :=
  let! h := filled VC u8_default u8_fill (unwrap (variablecyclic_new insertion_sort F64 (map i64 [8; 0; 4; 2]%Z))) (map i64 [5; 13; -3]%Z) in
  let! vs := read VC [i64 5] h in
  let! h' := filled VCI u8_default u8_fill (unwrap (variablecyclic_new insertion_sort I32 [8; 0; 4; 2]%Z)) [5; 13; -3]%Z in
  let! vs' := read VCI [5%Z] h' in
  let! plus := @n_add _ F64 (dec64 23 1) (i64 7) in let! minus := @n_sub _ F64 (dec64 23 1) (i64 7) in
  let! g := filled VC u8_default u8_fill (unwrap (variablecyclic_new insertion_sort F64 (map i64 [4; 8; 2; 1]%Z))) [dec64 23 1] in
  let! ws := read VC [dec64 23 1; minus; plus] g in
  Val (list_eq (opt_eq Z.eqb) vs [Some 3%Z] && opt_eq Z.eqb (vec_value_at_index h 2) (Some 3%Z)
       && list_eq (opt_eq Z.eqb) vs' [Some 3%Z] && opt_eq Z.eqb (vec_value_at_index h' 2) (Some 3%Z)
       && list_eq (opt_eq Z.eqb) ws [Some 1; Some 1; Some 1]%Z).
Definition doc_variablecyclic_t :=
  let! two_pi := @n_mul _ F64 (i64 2) pi64 in let! half := @n_div _ F64 pi64 (i64 2) in
  let! more := @n_add _ F64 (dec64 1 1) two_pi in
  let! h := filled VC (num_default I32) (num_fill I32) (unwrap (variablecyclic_new insertion_sort F64 [i64 0; half; pi64; two_pi])) [dec64 1 1; more] in
  let! vs := read VC [dec64 1 1] h in Val (list_eq (opt_eq Z.eqb) vs [Some 2%Z]).
(** axis/variable.rs:19-32, axis/variablenoflow.rs:16-29, src/lib.rs:189-200 *)
Definition doc_variable_t :=
  let! h := filled V64 (num_default I32) (num_fill I32) (unwrap (variable_new insertion_sort (H0 := @num_ord _ F64) (map i64 [0; 1; 3; 7]%Z))) (map i64 [0; 1; 2]%Z) in
  let! g := filled VN (num_default I32) (num_fill I32) (unwrap (variablenoflow_new insertion_sort (H0 := @num_ord _ F64) (map i64 [0; 1; 3; 7]%Z))) (map i64 [-1; 1; 2]%Z) in
  let! k := filled V64 f64_default f64_fill (unwrap (variable_new insertion_sort (H0 := @num_ord _ F64) (map i64 [0; 1; 3; 6]%Z))) (map i64 [0; 1; 2; 3; 4; 5]%Z) in
  let! vs := read V64 (map i64 [0; 1; 3]%Z) k in
  Val (list_eq Z.eqb (vec_values h) [0; 1; 2; 0; 0]%Z && list_eq Z.eqb (vec_values g) [0; 2; 0]%Z
       && list_eq (opt_eq feq) vs (map (fun x => Some (i64 x)) [1; 2; 3]%Z)).
End Search.
End Others.

(** *** Values: tests/test_value_*.rs, in a one-bin histogram filled at 0.0; the
    doc examples of mean.rs, weightedmean.rs, lib.rs:128-149, macros.rs:36-47. *)
Section Values.
Notation AX := (@axes1_axis _ U64).
Notation U32 := (@int_ops B (unsigned 32)).
#[local] Instance f64_sqrt : SqrtOps f64 := float_sqrt 53 1024 prec64 emax64.
#[local] Instance f64_signed : SignedOps f64 := float_signed 53 1024.
Notation of_i := (float_of_int 53 1024 prec64 emax64).
Definition one_bin {V} (d : V) : outcome (VecHistogram (AxesTuple1 (Uniform f64)) V) :=
  let! ax := unwrap (uniform_new F64 1 (i64 0) (i64 1)) in ndhistogram1 (AX := U64) (DV := {| default_v := d |}) ax.
Definition bin_of {V} (h : VecHistogram (AxesTuple1 (Uniform f64)) V) : outcome V :=
  let! v := vec_value (AX := AX) h (i64 0) in expect v.
(** [assert_float_eq] of these tests. *)
Definition near (l r : f64) : bool :=
  Bltb (Babs (Bminus mode_NE l r)) (Bmult mode_NE (dec64 1 6) (Bplus mode_NE l r)).
Definition near_o (l : outcome f64) (r : f64) : outcome bool := let! l := l in Val (near l r).
(** 2.0 / 3.0 and (2.0 / 3.0) / 3.0 *)
Definition two_thirds := f64_quot 2 3.
Definition two_ninths := Bdiv mode_NE two_thirds (i64 3).
Definition mean_hist {T} (ops : NumOps T) (of_T : T -> f64) (data : list T) : outcome (Mean T Z) :=
  let! h := one_bin (mean_default ops U32) in
  let! h := foldo (fun h d => vec_fill_with (AX := AX) (H := {| fill_with_v := mean_fill_with ops U32 |}) h (i64 0) d) data h in
  bin_of h.
Definition mean_checks {T} (ops : NumOps T) (of_T : T -> f64) (data : list T) : outcome bool :=
  let! m := mean_hist ops of_T data in
  all_of [near_o (mean_mean F64 of_T of_i m) (i64 2); Val (Z.eqb (mean_num_samples m) 3);
          near_o (mean_variance_of_samples F64 of_T of_i m) two_thirds;
          near_o (mean_standard_deviation_of_samples F64 of_T of_i m) (Bsqrt mode_NE two_thirds);
          near_o (mean_variance_of_mean F64 of_T of_i m) two_ninths;
          near_o (mean_standard_error_of_mean F64 of_T of_i m) (Bsqrt mode_NE two_ninths)].
Definition value_mean_t := mean_checks F64 (fun x => x) (map i64 [1; 2; 3]%Z).
Definition value_mean_int_t := mean_checks I32 of_i [1; 2; 3]%Z.
(** exact equality in the documentation examples *)
Definition doc_mean_t := let! m := mean_hist I32 of_i [1; 2; 3]%Z in let! x := mean_mean F64 of_i of_i m in
  let! m' := mean_hist F64 (fun x => x) (map i64 [1; 3]%Z) in let! x' := mean_mean F64 (fun x => x) of_i m' in
  Val (feq x (i64 2) && feq x' (i64 2)).

Definition wm_hist {T} (ops : NumOps T) (of_T : T -> f64) (data : list (T * T)) : outcome (WeightedMean T T Z) :=
  let! h := one_bin (weightedmean_default ops U32) in
  let! h := foldo (fun h d => vec_fill_with_weighted (AX := AX) (H := {| fill_with_weighted_v := weightedmean_fill ops U32 |}) h (i64 0) (fst d) (snd d)) data h in
  bin_of h.
Definition wm_checks {T} (ops : NumOps T) (of_T : T -> f64) (data : list (T * T)) (mean var varmean : f64) : outcome bool :=
  let! m := wm_hist ops of_T data in
  all_of [near_o (weightedmean_mean F64 of_T m) mean; Val (Z.eqb (weightedmean_num_samples m) 3);
          near_o (weightedmean_variance_of_samples F64 of_T m) var;
          near_o (weightedmean_standard_deviation_of_samples F64 of_T m) (Bsqrt mode_NE var);
          near_o (weightedmean_variance_of_mean F64 of_T m) varmean;
          near_o (weightedmean_standard_error_of_mean F64 of_T m) (Bsqrt mode_NE varmean)].
Definition value_weightedmean_t := wm_checks F64 (fun x => x) (map (fun z => (i64 z, i64 1)) [1; 2; 3]%Z) (i64 2) two_thirds two_ninths.
Definition value_weightedmean_int_t := wm_checks I32 of_i [(1, 1); (2, 1); (3, 1)]%Z (i64 2) two_thirds two_ninths.
Definition value_weightedmean_weights_t := wm_checks F64 (fun x => x) (map (fun z => (i64 z, i64 z)) [1; 2; 3]%Z)
  (f64_quot 14 6) (dec64 5555555555555555 16) (f64_lit 7783999355948989 (-55)).
Definition doc_weightedmean_t := let! m := wm_hist I32 of_i [(2, 1); (2, 2); (4, 3)]%Z in let! x := weightedmean_mean F64 of_i m in
  Val (feq x (i64 3)).

Definition value_sum_t :=
  let! h := one_bin (sum_new I32) in
  let! h := vec_fill (AX := AX) (H := {| fill_v := sum_fill I32 |}) h (i64 0) in let! s := bin_of h in
  let! g := one_bin (sum_new F64) in
  let! g := vec_fill (AX := AX) (H := {| fill_v := sum_fill F64 |}) g (i64 0) in
  let! g := vec_fill (AX := AX) (H := {| fill_v := sum_fill F64 |}) g (i64 0) in let! t := bin_of g in
  let! u := sum_fill_with F64 (sum_new F64) (dec64 12345678 3) in
  let close a b := Bltb (Babs (Bminus mode_NE a b)) (f64_lit 1 (-52)) in
  Val (Z.eqb (sum_get s) 1 && close (sum_get t) (i64 2) && close (sum_variance t) (i64 2)
       && close (sum_standard_deviation (fun x => x) t) (Bsqrt mode_NE (i64 2)) && close (sum_get u) (dec64 12345678 3)).
Definition value_weightedsum_t :=
  let! h := one_bin (weightedsum_new F64) in
  let! h1 := vec_fill (AX := AX) (H := {| fill_v := weightedsum_fill F64 |}) h (i64 0) in let! s := bin_of h1 in
  let! h2 := vec_fill_with (AX := AX) (H := {| fill_with_v := weightedsum_fill_with F64 |}) h (i64 0) (i64 2) in let! t := bin_of h2 in
  Val (near (weightedsum_get s) (i64 1) && near (weightedsum_get t) (i64 2) && near (weightedsum_variance t) (i64 4)
       && near (weightedsum_standard_deviation (fun x => x) t) (i64 2)).

(** *** Sparse histograms: tests/test_hashhistogram.rs, test_from_and_into_methods.rs,
    the examples of src/histogram/hashhistogram.rs and src/lib.rs:219-234. *)
Notation HH := (HashHistogram (AxesTuple1 (Uniform f64)) f64).
Notation I64 := (@int_ops B (signed 64)).
Definition shist (n : N) (low high : f64) : outcome HH :=
  let! ax := unwrap (uniform_new F64 n low high) in sparsehistogram1 (AX := U64) ax.
Definition hash_fill_t := let! ax := unwrap (uniform_new F64 10 (i64 0) (i64 10)) in
  let! h := sparsehistogram1 (AX := U64) (V := Z) ax in
  let DV := num_default I64 in
  let! h := hash_fill (AX := AX) (H := DV) (H0 := num_fill I64) h (dec64 5 1) in
  let! h := hash_fill_with (AX := AX) (H := DV) (H0 := num_fill_with I64) h (dec64 5 1) 2%Z in
  let! v := hash_value (AX := AX) h (dec64 5 1) in Val (opt_eq Z.eqb v (Some 3%Z)).
Definition hash_fill_with_weighted_t := let! ax := unwrap (uniform_new F64 10 (i64 0) (i64 10)) in
  let! h := sparsehistogram1 (AX := U64) (V := WeightedMean Z Z Z) ax in
  let! h := foldo (fun h k => hash_fill_with_weighted (AX := AX) (H := {| default_v := weightedmean_default I32 U32 |})
                                (H0 := {| fill_with_weighted_v := weightedmean_fill I32 U32 |}) h (dec64 5 1) k k) [1; 2; 3]%Z h in
  let! v := hash_value (AX := AX) h (dec64 5 1) in let! m := expect v in near_o (weightedmean_mean F64 of_i m) (f64_quot 14 6).
Definition same_map (a b : gmap N f64) : bool :=
  list_eq (pair_eq N.eqb feq) (map_to_list a) (map_to_list b).
Definition hash_as_map_t := let! h := shist 1 (i64 0) (i64 1) in
  let! h := hash_fill (AX := AX) h (dec64 5 1) in
  Val (same_map (hash_as_map h) {[ 1 := i64 1 ]} && same_map (hash_into_map h) {[ 1 := i64 1 ]}).
Definition hash_from_map_t := let! a := axes_1 in
  let! good := hash_from_map (AX := AX) a {[ 1 := i64 1 ]} in
  let! bad := hash_from_map (AX := AX) a {[ 3 := i64 1 ]} in
  Val (match good with Ok _ => true | Err _ => false end && is_invalid_bins bad).
Notation AE := (axes1_eq (X := Uniform f64) (EX := {| axis_eqb := uniform_eqb F64 |})).
Definition keys2 (l r : HH) : list N := map fst (map_to_list (hh_values l ∪ hh_values r)).
Definition hash_ops_mismatch_t := let! l := shist 10 (i64 (-5)) (i64 5) in let! r := shist 10 (i64 (-5)) (i64 6) in
  all_of (map (fun o => is_err1 (hash_binop_borrowed (AE := AE) (fst o) l r (keys2 l r))) op_list).
Definition hash_ops_examples_t :=
  let! l := shist 10 (i64 (-5)) (i64 5) in let! r := shist 10 (i64 (-5)) (i64 5) in
  let! l := hash_fill_with (AX := AX) (D := f64) l (i64 0) (i64 2) in let! r := hash_fill (AX := AX) r (i64 0) in
  let is x h := let! v := hash_value (AX := AX) h (i64 0) in Val (of_option v (i64 x)) in
  let order := map_to_list (hh_values r) in
  all_of (flat_map (fun o =>
    [(let! h := unwrap (hash_binop_borrowed (AE := AE) (fst o) l r (keys2 l r)) in is (snd o) h);
     (let! h := unwrap (hash_binop_owned (AE := AE) (fst o) l r order) in is (snd o) h);
     (let! h := hash_binop_assign (AE := AE) (fst o) l r order in is (snd o) h)]) op_list).
(** The example that fills a 1e18-bin histogram; only on 64 bit targets do that many bins have a number. *)
Definition doc_sparse_t := let! x := unwrap (uniform_new F64 1000000 (i64 (-5)) (i64 5)) in
  let TS := [ut; ut; ut] in
  let! h := sparsehistogram TS (V := f64) (x, (x, (x, tt))) in
  let! h := hash_fill (AX := axes_axis TS) h (i64 1, (i64 2, (i64 3, tt))) in
  let! v := hash_value (AX := axes_axis TS) h (i64 1, (i64 2, (i64 3, tt))) in
  let! w := hash_value (AX := axes_axis TS) h (i64 0, (i64 0, (i64 0, tt))) in
  Val (of_option v (i64 1) && match w with None => true | Some _ => false end).
End Values.
End Tests.

Example repo_tests_dense : forall B : Build,
  all_pass [h1_unweighted_fill_once_t B; h1_unfilled_is_empty_t B; h1_weighted_fill_once_t B; h1_fill_nan_t B; h1_fill_bin_edges_t B;
    h1_get_axes_t B; h1_value_at_index_t B; h1_value_at_coordinate_t B; h1_value_at_index_mut_t B; h1_value_mut_t B; h1_iter_mut_t B;
    display_blank_t B; display_filled_positive_t B; h1_as_vec_t B; h1_from_vec_t B; h1_ops_mismatch_t B; h1_ops_examples_t B;
    doc_quick_start_t B; doc_merge_t B; par_example_t B; h2_fill_once_t B; h2_fill_bin_edges_t B; doc_macros_num_bins_t B;
    cat_fill_t B; cat_mut_t B; doc_discrete_t B; uniformcyclic_fill_t B; uniformcyclic_int_fill_t B; doc_cyclic_t B; doc_parity_t B;
    wrapping_fill_t B]
  = true.
Proof. run_test. Qed.

Example repo_tests_values_sparse : forall B : Build,
  all_pass [value_mean_t B; value_mean_int_t B; doc_mean_t B; value_weightedmean_t B; value_weightedmean_int_t B;
    value_weightedmean_weights_t B; doc_weightedmean_t B; value_sum_t B; value_weightedsum_t B;
    hash_fill_t B; hash_fill_with_weighted_t B; hash_as_map_t B; hash_from_map_t B; hash_ops_mismatch_t B; hash_ops_examples_t B]
  = true.
Proof. run_test. Qed.

Example repo_tests_searching : forall B : Build, forall search, In search [bsearch_early; bsearch_branchless] ->
  all_pass [variablecyclic_fill_t B search; doc_variablecyclic_t B search; doc_variable_t B search] = true.
Proof. intros B search [<-|[<-|[]]]; revert B; run_test. Qed.

Example repo_tests_sparse_large : forall B : Build, target_width = P64 -> all_pass [doc_sparse_t B] = true.
Proof. intros B; destruct B as [[] []]; intros H; try discriminate H; vm_compute; reflexivity. Qed.
