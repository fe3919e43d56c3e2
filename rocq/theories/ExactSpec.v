(** * ExactSpec: exact arithmetic and sample statistics (C42-C44, C51). *)
From Coq Require Import List NArith ZArith Reals Lra Bool.
From Verif Require Import Base Num Value.
Import ListNotations.
Open Scope R_scope.

(** Idealised (unrounded) arithmetic as a number type.  Division by zero is
    unspecified (Coq's [Rinv 0]); no theorem divides by zero. *)
Definition real_ops : NumOps R := {|
  num_ord := {| partial_cmp := fun a b =>
      if Rlt_dec a b then Some Lt else if Rlt_dec b a then Some Gt else Some Eq |};
  n_zero := 0; n_one := 1;
  n_add := fun a b => Val (a + b);
  n_sub := fun a b => Val (a - b);
  n_mul := fun a b => Val (a * b);
  n_div := fun a b => Val (a / b);
  n_rem := fun a b => Val (a - b * IZR (if Rle_dec 0 (a / b) then Int_part (a / b) else - Int_part (- (a / b))));
  n_from_usize := fun n => Some (IZR (Z.of_N n));
  n_to_usize := fun x => if Rle_dec 0 x then Some (Z.to_N (Int_part x)) else None
|}.
#[global] Instance real_signed : SignedOps R := {| n_abs := fun x => Val (Rabs x) |}.
#[global] Instance real_sqrt : SqrtOps R := {| n_sqrt := sqrt |}.

(** A number type whose [+] and [*], whenever they return, are exact: [value]
    gives the mathematical value. *)
Record exact_arithmetic {T : Type} (ops : NumOps T) (value : T -> R) : Prop := {
  ex_zero : value n_zero = 0;
  ex_one : value n_one = 1;
  ex_add : forall a b c, n_add a b = Val c -> value c = value a + value b;
  ex_mul : forall a b c, n_mul a b = Val c -> value c = value a * value b
}.

(** Sum of a list of reals. *)
Definition sumR (l : list R) : R := fold_right Rplus 0 l.

(** Mean and (population) variance of a sample, textbook definitions. *)
Definition sample_mean (xs : list R) : R := sumR xs / INR (length xs).
Definition sample_variance (xs : list R) : R :=
  sumR (map (fun x => (x - sample_mean xs) ^ 2) xs) / INR (length xs).

(** Weighted mean and variance of a list of (x, w). *)
Definition total_weight (xs : list (R * R)) : R := sumR (map snd xs).
Definition weighted_mean (xs : list (R * R)) : R := sumR (map (fun p => snd p * fst p) xs) / total_weight xs.
Definition weighted_variance (xs : list (R * R)) : R :=
  sumR (map (fun p => snd p * (fst p - weighted_mean xs) ^ 2) xs) / total_weight xs.
