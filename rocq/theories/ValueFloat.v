(** * ValueFloat: the value types over f32/f64, and the standard deviation of sums. *)
From Coq Require Import ZArith NArith.
From Flocq Require Import Core IEEE754.BinarySingleNaN.
From Verif Require Import Base Num Float Value.

Section Float.
Context (prec emax : Z) (P : Prec_gt_0 prec) (E : Prec_lt_emax prec emax).

(** num_traits [Signed::abs] on floats (value/mean.rs:88). *)
Definition float_signed : SignedOps (binary_float prec emax) := {| n_abs := fun x => Val (Babs x) |}.
(** num_traits [Float::sqrt] (value/mean.rs:96, 109, value/weightedmean.rs:104, 117,
    value/sum.rs:45, value/weightedsum.rs:51): correctly rounded; NaN for a
    negative argument. *)
Definition float_sqrt : SqrtOps (binary_float prec emax) := {| n_sqrt := Bsqrt mode_NE |}.
(** [From<u8 | u16 | u32> for f64] and the like (value/mean.rs:50, value/weightedmean.rs:55):
    a count as a float. *)
Definition float_of_count (c : Z) : binary_float prec emax := float_of_N prec emax P E (Z.to_N c).
End Float.

Section Std.
Context {T O : Type} `{SqrtOps O} (of_T : T -> O).
(** value/sum.rs:40-46 [standard_deviation]. *)
Definition sum_standard_deviation (s : Sum T) : O := n_sqrt (of_T (sum_variance s)).
(** value/weightedsum.rs:46-52 [standard_deviation]. *)
Definition weightedsum_standard_deviation (s : WeightedSum T) : O := n_sqrt (of_T (weightedsum_variance s)).
End Std.

Section Int.
Context (prec emax : Z) (P : Prec_gt_0 prec) (E : Prec_lt_emax prec emax).
(** [From<i8 | i16 | i32 | u8 | u16 | u32> for f64] and the like (value/mean.rs:50,
    value/weightedmean.rs:55): an integer as a float. *)
Definition float_of_int (z : Z) : binary_float prec emax := binary_normalize prec emax P E mode_NE z 0 false.
End Int.
