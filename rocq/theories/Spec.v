(** * Spec: the small vocabulary the property theorems are stated in.

    Nothing here mentions how the crate computes anything. *)
From Coq Require Import List NArith ZArith Bool.
From Verif Require Import Base Num Axis.
Import ListNotations.

(** ** Integer types *)

(** [t] is one of Rust's primitive integer types (8 bits or more, so i8 ... u128,
    isize, usize). *)
Definition primitive_int (t : int_type) : Prop :=
  exists w : Z, (8 <= w)%Z /\ (t = signed w \/ t = unsigned w).

(** [z] is a value of type [t]. *)
Definition fits (t : int_type) (z : Z) : Prop := (int_min t <= z <= int_max t)%Z.

(** ** Intervals over the integers *)

(** The set of integers a [BinInterval] denotes: underflow is open to the left,
    overflow is closed to the right of its start, a bin is half open. *)
Definition containsZ (b : BinInterval Z) (x : Z) : Prop :=
  match b with
  | Underflow e => (x < e)%Z
  | Overflow s => (s <= x)%Z
  | Bin s e => (s <= x < e)%Z
  end.

(** ** Intervals over any ordered type *)

Definition contains {T : Type} `{PartialOrdOps T} (b : BinInterval T) (x : T) : Prop :=
  match b with
  | Underflow e => lt_ x e = true
  | Overflow s => ge_ x s = true
  | Bin s e => ge_ x s = true /\ lt_ x e = true
  end.

(** ** Numbers of bins *)

(** Fits a [usize]. *)
Definition fits_usize `{Build} (n : N) : Prop := (n < usize_mod)%N.

(** ** Integer uniform axes *)

(** Parameters of an integer axis of [num] bins of width [step] from [low] whose
    extent stays within the coordinate type and whose bin count fits a [usize]. *)
Record valid_int_params `{Build} (t : int_type) (num : N) (low step : Z) : Prop := {
  vp_type : primitive_int t;
  vp_num : (1 <= num)%N;
  vp_num_usize : (num + 2 < usize_mod)%N;
  vp_num_fits : fits t (Z.of_N num);
  vp_low : fits t low;
  vp_step : (0 < step)%Z;
  vp_width : fits t (Z.of_N num * step)%Z;
  vp_high : fits t (low + Z.of_N num * step)%Z
}.

