(** * Errors: error.rs and axis/bininterval/bininterval.rs:163-172 — conversions,
    messages and derived comparisons of the crate's error types. *)
From Coq Require Import List NArith ZArith Bool String.
From Verif Require Import Base Axis Derived.
Import ListNotations.
Open Scope N_scope.

(** error.rs:12 [#[from]]: [From<BinaryOperationError> for Error]. *)
Definition error_from_binary (e : BinaryOperationError) : Error := ErrBinary e.
(** error.rs:15 [#[from]]: [From<AxisError> for Error]. *)
Definition error_from_axis (e : AxisError) : Error := ErrAxis e.

(** The operator [?] in a function returning [Result<B, E2>]: return early with the
    converted error, or go on with the value. *)
Definition question {A B E1 E2 : Type} (from : E1 -> E2) (r : result A E1)
  (k : A -> outcome (result B E2)) : outcome (result B E2) :=
  match r with Ok a => k a | Err e => Val (Err (from e)) end.

(** error.rs:21 [#[error("...")]]. *)
Definition binary_error_text (e : BinaryOperationError) : string :=
  "histogram binary operation failed (check binning?)".

(** error.rs:28-42 [#[error("...")]]. *)
Definition axis_error_text (e : AxisError) : string :=
  match e with
  | InvalidNumberOfBins => "number of bins should be positive and non-zero and must be convertible to the coordinate type"
  | InvalidAxisRange => "Invalid axis range. Low edge should not equal high edge."
  | InvalidStepSize => "axis step size should be non-zero and positive"
  | InvalidNumberOfBinEdges => "the number of bin edges must be at >= 2."
  | FailedToSortBinEdges => "failed to sort bin_edges. The list of axis bin edges must be sortable."
  end.

(** error.rs:11,14 [#[error(transparent)]]: the text of the wrapped error. *)
Definition error_text (e : Error) : string :=
  match e with
  | ErrBinary e => binary_error_text e
  | ErrAxis e => axis_error_text e
  end.

(** axis/bininterval/bininterval.rs:166-170. *)
Definition conversion_error_text (e : BinIntervalConversionError) : string :=
  "invalid range to bin interval conversion".

(** error.rs:6, 18, 25: derived [PartialEq, PartialOrd, Ord, Hash]; a unit struct has
    one value and feeds nothing to the hasher, an enum feeds its variant number. *)
Definition cmp_binary_error : Cmp BinaryOperationError :=
  mkCmp (fun _ _ => true) (fun _ _ => Some Eq) (fun _ => []).
Definition axis_error_tag (e : AxisError) : N :=
  match e with
  | InvalidNumberOfBins => 0 | InvalidAxisRange => 1 | InvalidStepSize => 2
  | InvalidNumberOfBinEdges => 3 | FailedToSortBinEdges => 4
  end.
Definition cmp_axis_error : Cmp AxisError :=
  mkCmp (fun a b => axis_error_tag a =? axis_error_tag b)
        (fun a b => Some (N.compare (axis_error_tag a) (axis_error_tag b)))
        (fun a => [axis_error_tag a]).
Definition cmp_error : Cmp Error :=
  mkCmp (fun a b => match a, b with
                    | ErrBinary x, ErrBinary y => c_eqb cmp_binary_error x y
                    | ErrAxis x, ErrAxis y => c_eqb cmp_axis_error x y
                    | _, _ => false end)
        (fun a b => match a, b with
                    | ErrBinary x, ErrBinary y => c_cmp cmp_binary_error x y
                    | ErrAxis x, ErrAxis y => c_cmp cmp_axis_error x y
                    | ErrBinary _, ErrAxis _ => Some Lt
                    | ErrAxis _, ErrBinary _ => Some Gt end)
        (fun a => match a with
                  | ErrBinary x => 0 :: c_hash cmp_binary_error x
                  | ErrAxis x => 1 :: c_hash cmp_axis_error x end).
