(** * Axis: bin intervals and the [Axis] trait with its default methods. *)
From Coq Require Import List NArith ZArith Bool.
From Verif Require Import Base Num.
Import ListNotations.
Open Scope N_scope.

(** ** axis/bininterval/bininterval.rs *)

(** axis/bininterval/bininterval.rs:10-32 [enum BinInterval<T>]. *)
Inductive BinInterval (T : Type) : Type :=
| Underflow (iv_end : T)
| Overflow (iv_start : T)
| Bin (iv_start iv_end : T).
Arguments Underflow {T} iv_end.
Arguments Overflow {T} iv_start.
Arguments Bin {T} iv_start iv_end.

(** axis/bininterval/bininterval.rs:53-59 [start]. *)
Definition bi_start {T} (b : BinInterval T) : option T :=
  match b with
  | Underflow _ => None
  | Overflow s => Some s
  | Bin s _ => Some s
  end.

(** axis/bininterval/bininterval.rs:64-70 [end]. *)
Definition bi_end {T} (b : BinInterval T) : option T :=
  match b with
  | Underflow e => Some e
  | Overflow _ => None
  | Bin _ e => Some e
  end.

(** std::ops::Range / RangeTo / RangeFrom: plain pairs / single bounds. *)
Record Range (T : Type) := mkRange { range_start : T; range_end : T }.
Record RangeTo (T : Type) := mkRangeTo { rangeto_end : T }.
Record RangeFrom (T : Type) := mkRangeFrom { rangefrom_start : T }.
Arguments mkRange {T} _ _. Arguments range_start {T} _. Arguments range_end {T} _.
Arguments mkRangeTo {T} _. Arguments rangeto_end {T} _.
Arguments mkRangeFrom {T} _. Arguments rangefrom_start {T} _.

(** axis/bininterval/bininterval.rs:163-164 [BinIntervalConversionError]. *)
Inductive BinIntervalConversionError : Type := ConversionFailed.

(** axis/bininterval/bininterval.rs:73-80 [From<Range<T>>]. *)
Definition bi_from_range {T} (r : Range T) : BinInterval T := Bin (range_start r) (range_end r).
(** axis/bininterval/bininterval.rs:82-86 [From<RangeTo<T>>]. *)
Definition bi_from_rangeto {T} (r : RangeTo T) : BinInterval T := Underflow (rangeto_end r).
(** axis/bininterval/bininterval.rs:88-92 [From<RangeFrom<T>>]. *)
Definition bi_from_rangefrom {T} (r : RangeFrom T) : BinInterval T := Overflow (rangefrom_start r).

(** axis/bininterval/bininterval.rs:94-103 [TryFrom<BinInterval<T>> for Range<T>]. *)
Definition range_try_from {T} (b : BinInterval T) : result (Range T) BinIntervalConversionError :=
  match b with Bin s e => Ok (mkRange s e) | _ => Err ConversionFailed end.
(** axis/bininterval/bininterval.rs:105-114 [TryFrom<BinInterval<T>> for RangeTo<T>]. *)
Definition rangeto_try_from {T} (b : BinInterval T) : result (RangeTo T) BinIntervalConversionError :=
  match b with Underflow e => Ok (mkRangeTo e) | _ => Err ConversionFailed end.
(** axis/bininterval/bininterval.rs:116-125 [TryFrom<BinInterval<T>> for RangeFrom<T>]. *)
Definition rangefrom_try_from {T} (b : BinInterval T) : result (RangeFrom T) BinIntervalConversionError :=
  match b with Overflow s => Ok (mkRangeFrom s) | _ => Err ConversionFailed end.

(** ** axis/bininterval/singlevaluebininterval.rs *)

(** axis/bininterval/singlevaluebininterval.rs:8-16 [enum SingleValueBinInterval<T>]. *)
Inductive SingleValueBinInterval (T : Type) : Type :=
| SVOverflow
| SVBin (value : T).
Arguments SVOverflow {T}.
Arguments SVBin {T} value.

(** axis/bininterval/singlevaluebininterval.rs:32-37 [value]. *)
Definition sv_value {T} (b : SingleValueBinInterval T) : option T :=
  match b with SVOverflow => None | SVBin v => Some v end.

(** ** axis/mod.rs *)

(** axis/mod.rs:86-133 [trait Axis].  [&self] methods become functions of the
    axis value; arithmetic inside them may panic. *)
Class Axis (A : Type) := {
  Coordinate : Type;
  Interval : Type;                                 (* associated type BinInterval *)
  index : A -> Coordinate -> outcome (option N);   (* axis/mod.rs:94 *)
  num_bins : A -> outcome N;                       (* axis/mod.rs:96 *)
  bin : A -> N -> outcome (option Interval);       (* axis/mod.rs:100 *)
  num_dim : A -> N                                 (* axis/mod.rs:130-132, default 1 *)
}.

Section AxisDefaults.
Context {A : Type} `{Axis A}.

(** axis/mod.rs:103-105 [indices]: the range [0..num_bins]. *)
Definition indices (a : A) : outcome (list N) :=
  let! n := num_bins a in Val (range n).

(** axis/mod.rs:108-116 [iter], fully consumed (the Rust iterator is lazy; the
    [expect] panic then happens when the offending item is reached). *)
Definition axis_iter (a : A) : outcome (list (N * Interval)) :=
  let! is := indices a in
  mapo (fun it => let! b := bin a it in let! b' := expect b in Val (it, b')) is.

(** axis/mod.rs:119-124 [bins], fully consumed. *)
Definition axis_bins (a : A) : outcome (list Interval) :=
  let! is := indices a in
  mapo (fun it => let! b := bin a it in expect b) is.
End AxisDefaults.

(** Derived [PartialEq] of an axis type. *)
Class AxisEq (A : Type) := { axis_eqb : A -> A -> bool }.
