(** * Num: the numeric interface used by the crate, and machine integers.

    The crate is generic over [T: PartialOrd + Num + NumCast + NumOps + Copy]
    (axis/uniform.rs:40-42, 103; axis/variablecyclic.rs:62-64).  [NumOps] is the
    dictionary of the operations the crate actually calls. *)
From Coq Require Import List NArith ZArith Bool.
From Verif Require Import Base.
Import ListNotations.

(** [std::cmp::PartialOrd]. *)
Class PartialOrdOps (T : Type) := { partial_cmp : T -> T -> option comparison }.

Section PartialOrd.
Context {T : Type} `{PartialOrdOps T}.

(** [a < b] of PartialOrd (std: [partial_cmp == Some(Less)]). *)
Definition lt_ (a b : T) : bool :=
  match partial_cmp a b with Some Lt => true | _ => false end.
(** [a <= b] (std: [Some(Less | Equal)]). *)
Definition le_ (a b : T) : bool :=
  match partial_cmp a b with Some Lt | Some Eq => true | _ => false end.
(** [a > b]. *)
Definition gt_ (a b : T) : bool :=
  match partial_cmp a b with Some Gt => true | _ => false end.
(** [a >= b]. *)
Definition ge_ (a b : T) : bool :=
  match partial_cmp a b with Some Gt | Some Eq => true | _ => false end.
(** [a == b] (PartialEq, consistent with PartialOrd for every primitive type). *)
Definition eq_ (a b : T) : bool :=
  match partial_cmp a b with Some Eq => true | _ => false end.
End PartialOrd.

(** num_traits::{Num, NumOps, NumCast, ToPrimitive, One, Zero} as used by
    axis/uniform.rs:48-134, axis/uniformcyclic.rs:102-111, histogram/fill.rs:17-54,
    value/*.rs.  Arithmetic may panic (integer overflow, division by zero). *)
Class NumOps (T : Type) := {
  num_ord :> PartialOrdOps T;
  n_zero : T;
  n_one : T;
  n_add : T -> T -> outcome T;
  n_sub : T -> T -> outcome T;
  n_mul : T -> T -> outcome T;
  n_div : T -> T -> outcome T;
  n_rem : T -> T -> outcome T;
  n_from_usize : N -> option T;   (* <T as NumCast>::from(usize) *)
  n_to_usize : T -> option N      (* ToPrimitive::to_usize *)
}.

(** ** Machine integers (i8..i128, u8..u128, isize, usize) *)

(** The value range of a primitive integer type. *)
Record int_type := { int_min : Z; int_max : Z }.

(** [iW]. *)
Definition signed (w : Z) : int_type :=
  {| int_min := - 2 ^ (w - 1); int_max := 2 ^ (w - 1) - 1 |}.
(** [uW]. *)
Definition unsigned (w : Z) : int_type :=
  {| int_min := 0; int_max := 2 ^ w - 1 |}.

Definition in_range (t : int_type) (z : Z) : bool :=
  ((int_min t <=? z) && (z <=? int_max t))%Z.

(** Two's complement wrap-around into the range of the type. *)
Definition wrap (t : int_type) (z : Z) : Z :=
  (int_min t + (z - int_min t) mod (int_max t - int_min t + 1))%Z.

Section IntOps.
Context `{Build}.
Variable t : int_type.

(** Result of integer [+ - *] given its mathematical value. *)
Definition int_result (z : Z) : outcome Z :=
  if in_range t z then Val z
  else if overflow_checks then Panic else Val (wrap t z).

(** Integer [/]: truncates; panics on zero divisor and on [MIN / -1] in every build. *)
Definition int_div (a b : Z) : outcome Z :=
  if (b =? 0)%Z then Panic
  else if in_range t (Z.quot a b) then Val (Z.quot a b) else Panic.

(** Integer [%]: sign of the dividend; panics on zero divisor and on [MIN % -1]. *)
Definition int_rem (a b : Z) : outcome Z :=
  if (b =? 0)%Z then Panic
  else if in_range t (Z.quot a b) then Val (Z.rem a b) else Panic.

(** num_traits dictionary of a primitive integer type; a value of the type is
    a [Z] within [in_range t]. *)
Definition int_ops : NumOps Z := {|
  num_ord := {| partial_cmp := fun a b => Some (Z.compare a b) |};
  n_zero := 0%Z;
  n_one := 1%Z;
  n_add := fun a b => int_result (a + b);
  n_sub := fun a b => int_result (a - b);
  n_mul := fun a b => int_result (a * b);
  n_div := int_div;
  n_rem := int_rem;
  n_from_usize := fun n => if in_range t (Z.of_N n) then Some (Z.of_N n) else None;
  n_to_usize := fun z => if (0 <=? z)%Z && (z <? Z.of_N usize_mod)%Z
                         then Some (Z.to_N z) else None
|}.
End IntOps.
