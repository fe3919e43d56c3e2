(** * FloatSpec: vocabulary of the floating-point property theorems.

    The theorems quantify over every binary IEEE-754 format with [prec] bits of
    significand and largest exponent [emax]; f32 is (24, 128) and f64 is
    (53, 1024).  [B2R] is the real value of a finite float. *)
From Coq Require Import ZArith NArith Reals Lra.
From Flocq Require Import Core IEEE754.BinarySingleNaN.
From Verif Require Import Base Num Float.
Open Scope R_scope.

(** The formats covered: f32, f64, and every format in between. *)
Definition covered_format (prec emax : Z) : Prop := (8 <= prec <= 63)%Z /\ (64 < emax)%Z.

Lemma f64_covered : covered_format 53 1024. Proof. split; [split|]; discriminate || reflexivity. Qed.
Lemma f32_covered : covered_format 24 128. Proof. split; [split|]; discriminate || reflexivity. Qed.

(** Half the machine epsilon: 2^-53 for f64, 2^-24 for f32. *)
Definition unit_roundoff (prec : Z) : R := bpow radix2 (- prec).

(** The smallest normal number ([f64::MIN_POSITIVE]): 2^-1022, 2^-126. *)
Definition smallest_normal (emax : Z) : R := bpow radix2 (2 - emax).

(** The ideal, real-valued bin width. *)
Definition ideal_width (num : N) (low high : R) : R := (high - low) / IZR (Z.of_N num).

(** Largest magnitude in a range. *)
Definition magnitude (low high : R) : R := Rmax (Rabs low) (Rabs high).

(** Rust's [<], [>=], [<=], [==] on floats. *)
Definition flt_lt {prec emax} {P : Prec_gt_0 prec} {E : Prec_lt_emax prec emax} (x y : binary_float prec emax) : Prop :=
  Bcompare x y = Some Lt.
Definition flt_eq {prec emax} {P : Prec_gt_0 prec} {E : Prec_lt_emax prec emax} (x y : binary_float prec emax) : Prop :=
  Bcompare x y = Some Eq.
Definition flt_le {prec emax} {P : Prec_gt_0 prec} {E : Prec_lt_emax prec emax} (x y : binary_float prec emax) : Prop :=
  flt_lt x y \/ flt_eq x y.
