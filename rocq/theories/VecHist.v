(** * VecHist: histogram/histogram.rs (trait defaults) and histogram/vechistogram.rs. *)
From Coq Require Import List NArith ZArith Bool.
From Verif Require Import Base Num Axis Value.
Import ListNotations.
Open Scope N_scope.

(** histogram/histogram.rs:103-110 [struct Item<T, V>]. *)
Record Item (B V : Type) := mkItem { it_index : N; it_bin : B; it_value : V }.
Arguments mkItem {B V} _ _ _.
Arguments it_index {B V} _. Arguments it_bin {B V} _. Arguments it_value {B V} _.

(** A [&mut V] borrowed out of a histogram [H]: the current value and what the
    histogram becomes when a new value is written through the reference. *)
Record mut_ref (V H : Type) := mkRef { deref : V; assign : V -> H }.
Arguments mkRef {V H} _ _. Arguments deref {V H} _. Arguments assign {V H} _ _.

(** Apply an in-place update through an optional reference; nothing happens on
    [None] ([if let Some(value) = ... { value.fill() }], histogram/histogram.rs:66-68). *)
Definition update_through {V H : Type} (h : H) (r : option (mut_ref V H)) (f : V -> outcome V) : outcome H :=
  match r with
  | None => Val h
  | Some p => let! v := f (deref p) in Val (assign p v)
  end.

(** Replace element [i] of a list ([slice[i] = v]); no change out of bounds. *)
Fixpoint set_nth {V : Type} (i : nat) (v : V) (l : list V) : list V :=
  match l, i with
  | [], _ => []
  | _ :: xs, O => v :: xs
  | x :: xs, S i' => x :: set_nth i' v xs
  end.

(** histogram/vechistogram.rs:16-19 [struct VecHistogram<A, V>]. *)
Record VecHistogram (A V : Type) := mkVecHist { vh_axes : A; vh_values : list V }.
Arguments mkVecHist {A V} _ _. Arguments vh_axes {A V} _. Arguments vh_values {A V} _.

Section VecHistogram.
Context {A V : Type} `{AX : Axis A}.

(** histogram/vechistogram.rs:24-30 [new]. *)
Definition vec_new `{Default V} (axes : A) : outcome (VecHistogram A V) :=
  let! size := num_bins axes in
  Val (mkVecHist axes (repeat default_v (N.to_nat size))).

(** histogram/vechistogram.rs:44-46 [value_at_index]. *)
Definition vec_value_at_index (h : VecHistogram A V) (i : N) : option V :=
  nth_error (vh_values h) (N.to_nat i).

(** histogram/vechistogram.rs:34-37 [value]. *)
Definition vec_value (h : VecHistogram A V) (c : Coordinate) : outcome (option V) :=
  let! oi := index (vh_axes h) c in
  match oi with
  | None => Val None
  | Some i => Val (vec_value_at_index h i)
  end.

(** histogram/vechistogram.rs:48-50 [values]. *)
Definition vec_values (h : VecHistogram A V) : list V := vh_values h.

(** histogram/vechistogram.rs:52-62 [iter], fully consumed. *)
Definition vec_iter (h : VecHistogram A V) : outcome (list (Item Interval V)) :=
  let! bs := axis_iter (vh_axes h) in
  mapo (fun (p : N * Interval) =>
          let! v := expect (vec_value_at_index h (fst p)) in
          Val (mkItem (fst p) (snd p) v)) bs.

(** histogram/vechistogram.rs:64-66 [value_at_index_mut]. *)
Definition vec_value_at_index_mut (h : VecHistogram A V) (i : N) : option (mut_ref V (VecHistogram A V)) :=
  match nth_error (vh_values h) (N.to_nat i) with
  | None => None
  | Some v => Some (mkRef v (fun v' => mkVecHist (vh_axes h) (set_nth (N.to_nat i) v' (vh_values h))))
  end.

(** histogram/histogram.rs:48-51 [value_mut] (trait default). *)
Definition vec_value_mut (h : VecHistogram A V) (c : Coordinate)
  : outcome (option (mut_ref V (VecHistogram A V))) :=
  let! oi := index (vh_axes h) c in
  match oi with
  | None => Val None
  | Some i => Val (vec_value_at_index_mut h i)
  end.

(** histogram/vechistogram.rs:68-70 [values_mut], consumed with an update [f]
    of every value, left to right. *)
Definition vec_values_mut (h : VecHistogram A V) (f : V -> outcome V) : outcome (VecHistogram A V) :=
  let! vs := mapo f (vh_values h) in
  Val (mkVecHist (vh_axes h) vs).

(** Helper for [iter_mut]: update the values zipped with the axis items; values
    beyond the shorter of the two sequences are untouched ([Iterator::zip]). *)
Fixpoint zip_update {B : Type} (f : N -> B -> V -> outcome V) (bs : list (N * B)) (vs : list V)
  : outcome (list V) :=
  match bs, vs with
  | (i, b) :: bs', v :: vs' =>
      let! v' := f i b v in
      let! r := zip_update f bs' vs' in
      Val (v' :: r)
  | _, _ => Val vs
  end.

(** histogram/vechistogram.rs:72-79 [iter_mut], consumed with an update [f] of
    every item. *)
Definition vec_iter_mut (h : VecHistogram A V) (f : N -> Interval -> V -> outcome V)
  : outcome (VecHistogram A V) :=
  let! bs := axis_iter (vh_axes h) in
  let! vs := zip_update f bs (vh_values h) in
  Val (mkVecHist (vh_axes h) vs).

(** histogram/histogram.rs:62-69 [fill] (trait default). *)
Definition vec_fill `{Fill V} (h : VecHistogram A V) (c : Coordinate) : outcome (VecHistogram A V) :=
  let! r := vec_value_mut h c in update_through h r fill_v.

(** histogram/histogram.rs:75-83 [fill_with] (trait default). *)
Definition vec_fill_with {D} `{FillWith V D} (h : VecHistogram A V) (c : Coordinate) (d : D)
  : outcome (VecHistogram A V) :=
  let! r := vec_value_mut h c in update_through h r (fun v => fill_with_v v d).

(** histogram/histogram.rs:89-97 [fill_with_weighted] (trait default). *)
Definition vec_fill_with_weighted {D W} `{FillWithWeighted V D W} (h : VecHistogram A V)
  (c : Coordinate) (d : D) (w : W) : outcome (VecHistogram A V) :=
  let! r := vec_value_mut h c in update_through h r (fun v => fill_with_weighted_v v d w).

(** histogram/vechistogram.rs:352-361 [from_vec]. *)
Definition vec_from_vec (axes : A) (values : list V) : outcome (result (VecHistogram A V) Error) :=
  let! n := num_bins axes in
  if n =? N.of_nat (length values) then Val (Ok (mkVecHist axes values))
  else Val (Err (ErrAxis InvalidNumberOfBins)).

(** histogram/vechistogram.rs:364-371 [as_vec] / [as_slice]; 441-445 [From<VecHistogram> for Vec]. *)
Definition vec_as_vec (h : VecHistogram A V) : list V := vh_values h.
Definition vec_as_slice (h : VecHistogram A V) : list V := vh_values h.
Definition vec_into_vec (h : VecHistogram A V) : list V := vh_values h.

(** ** Operators.  [op] is the value type's operator ([+], [-], [*] or [/]). *)
Context `{AE : AxisEq A}.

(** histogram/vechistogram.rs:177-191 [&lhs op &rhs]. *)
Definition vec_binop_borrowed (op : V -> V -> outcome V) (l r : VecHistogram A V)
  : outcome (result (VecHistogram A V) BinaryOperationError) :=
  if negb (axis_eqb (vh_axes l) (vh_axes r)) then Val (Err BinaryOperationFailed)
  else
    let! values := mapo (fun p : V * V => op (fst p) (snd p)) (combine (vh_values l) (vh_values r)) in
    Val (Ok (mkVecHist (vh_axes l) values)).

(** [iter_mut().zip(rhs.iter()).for_each(|(l, r)| *l op= r)]: values of [l]
    beyond the length of [r] are untouched. *)
Fixpoint zip_assign (op : V -> V -> outcome V) (l r : list V) : outcome (list V) :=
  match l, r with
  | x :: xs, y :: ys =>
      let! z := op x y in
      let! zs := zip_assign op xs ys in
      Val (z :: zs)
  | _, _ => Val l
  end.

(** histogram/vechistogram.rs:258-267 [lhs op &rhs] (consuming). *)
Definition vec_binop_owned (op : V -> V -> outcome V) (l r : VecHistogram A V)
  : outcome (result (VecHistogram A V) BinaryOperationError) :=
  if negb (axis_eqb (vh_axes l) (vh_axes r)) then Val (Err BinaryOperationFailed)
  else
    let! values := zip_assign op (vh_values l) (vh_values r) in
    Val (Ok (mkVecHist (vh_axes l) values)).

(** histogram/vechistogram.rs:305-313 [lhs op= &rhs]: panics on different axes. *)
Definition vec_binop_assign (op : V -> V -> outcome V) (l r : VecHistogram A V)
  : outcome (VecHistogram A V) :=
  if negb (axis_eqb (vh_axes l) (vh_axes r)) then Panic
  else
    let! values := zip_assign op (vh_values l) (vh_values r) in
    Val (mkVecHist (vh_axes l) values).

(** histogram/vechistogram.rs:209-219 [&lhs op &scalar]. *)
Definition vec_scalar_op (op : V -> V -> outcome V) (l : VecHistogram A V) (rhs : V)
  : outcome (VecHistogram A V) :=
  let! values := mapo (fun v => op v rhs) (vh_values l) in
  Val (mkVecHist (vh_axes l) values).

(** ** rayon (feature "rayon") *)

(** histogram/vechistogram.rs:377-382 [par_values]: items in index order
    (IndexedParallelIterator); scheduling is modelled in Par.v. *)
Definition vec_par_values (h : VecHistogram A V) : list V := vh_values h.

(** histogram/vechistogram.rs:399-418 [par_iter]: enumerate the values, compute
    each bin. *)
Definition vec_par_iter (h : VecHistogram A V) : outcome (list (Item Interval V)) :=
  mapo (fun p : N * V =>
          let! ob := bin (vh_axes h) (fst p) in
          let! b := expect ob in
          Val (mkItem (fst p) b (snd p)))
       (combine (range (N.of_nat (length (vh_values h)))) (vh_values h)).

End VecHistogram.

(** histogram/vechistogram.rs:14 derived [Default] (empty vector). *)
Definition vec_default {A V} (default_axes : A) : VecHistogram A V := mkVecHist default_axes [].
