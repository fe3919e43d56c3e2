(** * GridSpec: floats that are multiples of a power of two (C80).

    Integers are the grid of exponent 0, halves that of exponent -1, 1024ths that of
    exponent -10, and so on. *)
From Coq Require Import ZArith NArith Reals.
From Flocq Require Import Core IEEE754.BinarySingleNaN.
From Verif Require Import Base Axis.
Open Scope R_scope.

(** [x] is the number [n * 2^e]. *)
Definition grid_value {prec emax : Z} (e : Z) (x : binary_float prec emax) (n : Z) : Prop :=
  is_finite x = true /\ B2R x = IZR n * bpow radix2 e.

(** [x] lies on the grid (or is not a finite number at all). *)
Definition on_grid {prec emax : Z} (e : Z) (x : binary_float prec emax) : Prop :=
  is_finite x = true -> exists n, B2R x = IZR n * bpow radix2 e.

(** The grid lies within the exponent range of the format: every multiple up to
    [2^prec] of [2^e] is a number of the format. *)
Definition grid_exponent (prec emax e : Z) : Prop := (3 - emax - prec <= e)%Z /\ (prec + e < emax)%Z.

(** The parameters of an axis over [num] bins of width [S] grid units each, from [L]
    grid units on: they fit the format. *)
Record grid_params {Bd : Build} (prec emax e : Z) (num : N) (L S : Z) : Prop := {
  gp_exponent : grid_exponent prec emax e;
  gp_num : (1 <= num)%N;
  gp_usize : (num + 2 < usize_mod)%N;
  gp_step : (1 <= S)%Z;
  gp_width : (Z.of_N num * S <= 2 ^ prec)%Z;
  gp_low : (Z.abs L <= 2 ^ prec)%Z;
  gp_high : (Z.abs (L + Z.of_N num * S) <= 2 ^ prec)%Z
}.

(** [index] is exact for every coordinate on the grid: underflow strictly below
    [low], overflow from [high] on, and bin [i + 1] from the edge [i] (included) to
    the edge [i + 1] (excluded), with the edges at [L + i S] grid units. *)
Definition indexes_grid {prec emax : Z} (index : binary_float prec emax -> outcome (option N)) (e : Z) (num : N) (L S : Z) : Prop :=
  forall x X, grid_value e x X ->
    ((X < L)%Z -> index x = Val (Some 0%N))
    /\ ((L + Z.of_N num * S <= X)%Z -> index x = Val (Some (num + 1)%N))
    /\ forall i, (i < num)%N -> (L + Z.of_N i * S <= X < L + (Z.of_N i + 1) * S)%Z -> index x = Val (Some (i + 1)%N).

(** Containment modulo a period, for a bin [s, t) of a cyclic axis. *)
Definition in_interval_wrapped {prec emax : Z} (period : R) (b : BinInterval (binary_float prec emax)) (x : binary_float prec emax) : bool :=
  match b with
  | Bin s t => let d := B2R x - B2R s in Rlt_bool (d - IZR (Zfloor (d / period)) * period) (B2R t - B2R s)
  | _ => false
  end.
