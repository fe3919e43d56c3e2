(** * Base: panics, results and machine [usize] arithmetic.

    Paths cited in comments are relative to /repo/ndhistogram/src. *)
From Coq Require Import List NArith ZArith Bool.
Import ListNotations.
Open Scope N_scope.

(** A Rust computation either returns or panics.  (All of the crate; a panic is
    an explicit value, what happens after [catch_unwind] is not modelled.) *)
Inductive outcome (A : Type) : Type :=
| Val (a : A)
| Panic.
Arguments Val {A} a.
Arguments Panic {A}.

(** Sequencing of Rust statements: a panic stops everything that follows. *)
Definition obind {A B : Type} (x : outcome A) (k : A -> outcome B) : outcome B :=
  match x with
  | Val a => k a
  | Panic => Panic
  end.

Notation "'let!' x ':=' e 'in' k" := (obind e (fun x => k))
  (at level 200, x pattern, e at level 100, k at level 200, right associativity).

(** [Result<A, E>]. *)
Inductive result (A E : Type) : Type :=
| Ok (a : A)
| Err (e : E).
Arguments Ok {A E} a.
Arguments Err {A E} e.

(** error.rs:27-43 [enum AxisError]. *)
Inductive AxisError : Type :=
| InvalidNumberOfBins
| InvalidAxisRange
| InvalidStepSize
| InvalidNumberOfBinEdges
| FailedToSortBinEdges.

(** error.rs:17-22 [struct BinaryOperationError]. *)
Inductive BinaryOperationError : Type := BinaryOperationFailed.

(** error.rs:8-15 [enum Error]: the crate-wide error that either of the above
    converts into. *)
Inductive Error : Type :=
| ErrBinary (e : BinaryOperationError)
| ErrAxis (e : AxisError).

(** rustc's [target_pointer_width]. *)
Inductive pointer_width : Type := P16 | P32 | P64.

(** Build configuration: whether arithmetic overflow panics (debug profile)
    or wraps (release profile), and the width of [usize].  Not a definition of
    the crate; these are the rustc flag [overflow-checks] and the target. *)
Class Build := { overflow_checks : bool; target_width : pointer_width }.

(** [usize] on the target: an [N] below 2^16, 2^32 or 2^64. *)
Definition usize_mod `{Build} : N :=
  match target_width with
  | P16 => 65536
  | P32 => 4294967296
  | P64 => 18446744073709551616
  end.

Section Usize.
Context `{Build}.

(** Rust [usize + usize]. *)
Definition uadd (a b : N) : outcome N :=
  let s := a + b in
  if s <? usize_mod then Val s
  else if overflow_checks then Panic else Val (s mod usize_mod).

(** Rust [usize - usize]. *)
Definition usub (a b : N) : outcome N :=
  if b <=? a then Val (a - b)
  else if overflow_checks then Panic else Val (a + usize_mod - b).

(** Rust [usize * usize]. *)
Definition umul (a b : N) : outcome N :=
  let s := a * b in
  if s <? usize_mod then Val s
  else if overflow_checks then Panic else Val (s mod usize_mod).

(** Rust [usize / usize]; division by zero always panics. *)
Definition udiv (a b : N) : outcome N :=
  if b =? 0 then Panic else Val (a / b).

(** Rust [usize % usize]; division by zero always panics. *)
Definition urem (a b : N) : outcome N :=
  if b =? 0 then Panic else Val (a mod b).

End Usize.

(** The Rust range [0..n] of [usize] as the list of its elements. *)
Definition range (n : N) : list N := map N.of_nat (seq 0 (N.to_nat n)).

(** Evaluate a panicking function on every element, left to right
    (a fully consumed [iter().map(f)]). *)
Fixpoint mapo {A B : Type} (f : A -> outcome B) (l : list A) : outcome (list B) :=
  match l with
  | [] => Val []
  | x :: xs => let! y := f x in let! ys := mapo f xs in Val (y :: ys)
  end.

(** A [for] loop / [fold] whose body may panic. *)
Fixpoint foldo {A S : Type} (f : S -> A -> outcome S) (l : list A) (s : S) : outcome S :=
  match l with
  | [] => Val s
  | x :: xs => let! s' := f s x in foldo f xs s'
  end.

(** [Option::expect]: panic on [None]. *)
Definition expect {A : Type} (o : option A) : outcome A :=
  match o with Some a => Val a | None => Panic end.
