(** * Float: IEEE-754 binary floating point (f32, f64) as a [NumOps] dictionary.

    The operations are Flocq's executable, correctly rounded ones
    (round to nearest even, the only mode Rust uses).  NaN payloads are not
    distinguished (the crate never inspects them). *)
From Coq Require Import ZArith NArith Bool Lia.
From Flocq Require Import Core IEEE754.BinarySingleNaN.
From Verif Require Import Base Num.

Section Float.
Variable prec emax : Z.
Context (prec_gt_0_ : Prec_gt_0 prec).
Context (prec_lt_emax_ : Prec_lt_emax prec emax).

Notation flt := (binary_float prec emax).

Context `{Build}.

(** Rust [%] on floats (C fmod): the exact truncated remainder, with the sign of
    the dividend.  Finite operands are brought to a common exponent; the integer
    remainder is exact and representable. *)
Definition Bfmod (x y : flt) : flt :=
  match x, y with
  | B754_nan, _ | _, B754_nan => B754_nan
  | B754_infinity _, _ => B754_nan
  | _, B754_zero _ => B754_nan
  | _, B754_infinity _ => x
  | B754_zero _, _ => x
  | B754_finite sx mx ex _, B754_finite sy my ey _ =>
      let e := Z.min ex ey in
      let X := (Zpos mx * 2 ^ (ex - e))%Z in
      let Y := (Zpos my * 2 ^ (ey - e))%Z in
      binary_normalize prec emax _ _ mode_NE (cond_Zopp sx (X mod Y)) e sx
  end.

(** [n as f64] for [n: usize] (num_traits: [NumCast::from] is always [Some]). *)
Definition float_of_N (n : N) : flt :=
  binary_normalize prec emax _ _ mode_NE (Z.of_N n) 0 false.

(** The base 2 logarithm of [usize_mod]. *)
Definition usize_bits : Z := match target_width with P16 => 16 | P32 => 32 | P64 => 64 end.

(** 2^16, 2^32 or 2^64: [usize::MAX as f64 + 1.0] where that is exact, otherwise
    the value [usize::MAX as f64] rounds to. *)
Definition float_usize_end : flt :=
  binary_normalize prec emax _ _ mode_NE 1 usize_bits false.

(** num_traits [ToPrimitive::to_usize] for floats (macro
    [float_to_int_unsigned]): truncation if [-1 < x < usize::MAX + 1], else [None]. *)
Definition float_to_usize (x : flt) : option N :=
  if Bltb (Bopp Bone) x && Bltb x float_usize_end
  then Some (Z.to_N (Btrunc x)) else None.

(** The dictionary of [f32]/[f64]; no float operation panics. *)
Definition float_ops : NumOps flt := {|
  num_ord := {| partial_cmp := fun a b => Bcompare a b |};
  n_zero := B754_zero false;
  n_one := Bone;
  n_add := fun a b => Val (Bplus mode_NE a b);
  n_sub := fun a b => Val (Bminus mode_NE a b);
  n_mul := fun a b => Val (Bmult mode_NE a b);
  n_div := fun a b => Val (Bdiv mode_NE a b);
  n_rem := fun a b => Val (Bfmod a b);
  n_from_usize := fun n => Some (float_of_N n);
  n_to_usize := float_to_usize
|}.

End Float.

(** ** f64 and f32 *)

#[global] Instance prec64 : Prec_gt_0 53 := eq_refl.
#[global] Instance emax64 : Prec_lt_emax 53 1024 := eq_refl.
#[global] Instance prec32 : Prec_gt_0 24 := eq_refl.
#[global] Instance emax32 : Prec_lt_emax 24 128 := eq_refl.

Definition f64 : Type := binary_float 53 1024.
Definition f32 : Type := binary_float 24 128.
Definition f64_ops `{Build} : NumOps f64 := float_ops 53 1024 prec64 emax64.
Definition f32_ops `{Build} : NumOps f32 := float_ops 24 128 prec32 emax32.

(** Decimal-free literals: the f64 nearest to [m * 2^e]. *)
Definition f64_lit (m e : Z) : f64 := binary_normalize 53 1024 prec64 emax64 mode_NE m e false.
(** The f64 nearest to the rational [p / q] (quotient of two exact integers). *)
Definition f64_quot (p : Z) (q : Z) : f64 := Bdiv mode_NE (f64_lit p 0) (f64_lit q 0).
