(** * Display: the text output of axes, intervals and histograms.

    Text is a Coq [string], one [ascii] per character (multi-byte characters are
    not modelled).  How Rust prints a number or a user type is a parameter. *)
From Coq Require Import List NArith ZArith Bool String Ascii DecimalString DecimalN.
From Flocq Require Import IEEE754.BinarySingleNaN.
From Verif Require Import Base Num Axis Uniform StdAlgo VarAxis Value VecHist Float.
Import ListNotations.
Open Scope string_scope.
Open Scope list_scope.
Open Scope N_scope.

(** Rust [Display for usize]: decimal digits. *)
Definition fmt_usize (n : N) : string := NilZero.string_of_uint (N.to_uint n).

(** [Display::fmt(&self, f)] of a type: the text for a formatter whose
    precision option is given ([f.precision()]). *)
Definition formatter (T : Type) : Type := option N -> T -> string.

(** axis/bininterval/bininterval.rs:127-156 [impl_display!]: the bounds are
    printed with the options of the outer formatter. *)
Definition fmt_bin_interval {T} (fmt : formatter T) : formatter (BinInterval T) :=
  fun p b =>
  match b with
  | Underflow e => ("(-inf, " ++ fmt p e ++ ")")%string
  | Overflow s => ("[" ++ fmt p s ++ ", inf)")%string
  | Bin s e => ("[" ++ fmt p s ++ ", " ++ fmt p e ++ ")")%string
  end.

(** axis/bininterval/singlevaluebininterval.rs:40-47: [write!] with a fresh [{}],
    the outer options are dropped. *)
Definition fmt_single_value {T} (fmt : formatter T) : formatter (SingleValueBinInterval T) :=
  fun _ b =>
  match b with
  | SVOverflow => "{overflow}"%string
  | SVBin v => ("{" ++ fmt None v ++ "}")%string
  end.

(** The text of the [write!] in axis/uniform.rs:144-151 and its five copies. *)
Definition axis_text (bins low high class : string) : string :=
  ("Axis{# bins=" ++ bins ++ ", range=[" ++ low ++ ", " ++ high ++ "), class=" ++ class ++ "}")%string.

Section AxisText.
Context `{Build} {T : Type} (fmt : formatter T).

(** axis/uniform.rs:142-153. *)
Definition uniform_display (a : Uniform T) : outcome string :=
  Val (axis_text (fmt_usize (u_num a)) (fmt None (u_low a)) (fmt None (u_high a)) "Uniform").
(** axis/uniformnoflow.rs:117-131. *)
Definition uniformnoflow_display (a : UniformNoFlow T) : outcome string :=
  let! n := uniformnoflow_num_bins a in
  Val (axis_text (fmt_usize n) (fmt None (u_low (unf_axis a))) (fmt None (u_high (unf_axis a))) "UniformNoFlow").
(** axis/uniformcyclic.rs:124-138. *)
Definition uniformcyclic_display (a : UniformCyclic T) : outcome string :=
  let! n := uniformnoflow_num_bins (uc_axis a) in
  Val (axis_text (fmt_usize n) (fmt None (u_low (unf_axis (uc_axis a))))
         (fmt None (u_high (unf_axis (uc_axis a)))) "UniformCyclic").

(** axis/variable.rs:120-131. *)
Definition variable_display (a : Variable_ T) : outcome string :=
  let! n := usub (N.of_nat (List.length (v_edges a))) 1 in
  let! l := variable_low a in
  let! h := variable_high a in
  Val (axis_text (fmt_usize n) (fmt None l) (fmt None h) "Variable").
(** axis/variablenoflow.rs:94-108. *)
Definition variablenoflow_display (a : VariableNoFlow T) : outcome string :=
  let! n := variablenoflow_num_bins a in
  let! l := variable_low (vnf_axis a) in
  let! h := variable_high (vnf_axis a) in
  Val (axis_text (fmt_usize n) (fmt None l) (fmt None h) "VariableNoFlow").
(** axis/variablecyclic.rs:92-106. *)
Definition variablecyclic_display (a : VariableCyclic T) : outcome string :=
  let! n := variablenoflow_num_bins (vc_axis a) in
  let! l := variable_low (vnf_axis (vc_axis a)) in
  let! h := variable_high (vnf_axis (vc_axis a)) in
  Val (axis_text (fmt_usize n) (fmt None l) (fmt None h) "VariableCyclic").
End AxisText.

(** ** Histograms *)

(** Rust [value as usize] for [f64]: truncates towards zero and saturates; NaN
    gives 0. *)
Definition f64_as_usize `{Build} (x : f64) : N :=
  match x with
  | B754_nan => 0
  | B754_infinity s => if s then 0 else usize_mod - 1
  | _ => N.min (Z.to_N (Btrunc x)) (usize_mod - 1)
  end.

(** [Iterator::max_by] (std): a fold that keeps the left element only when it
    compares [Greater]. *)
Definition max_by {B : Type} (cmp : B -> B -> comparison) (l : list B) : option B :=
  match l with
  | [] => None
  | x :: xs => Some (fold_left (fun a b => match cmp a b with Gt => a | _ => b end) xs x)
  end.

(** The closure of histogram/vechistogram.rs:133:
    [l.partial_cmp(&r).unwrap_or(Less)]. *)
Definition cmp_or_less (l r : f64) : comparison :=
  match Bcompare l r with Some c => c | None => Lt end.

(** ["#".repeat(n)]. *)
Fixpoint hashes (n : nat) : string :=
  match n with O => EmptyString | S n' => String "#" (hashes n') end.

(** [str::repeat]: panics ("capacity overflow") beyond [isize::MAX] bytes.
    Running out of memory below that is not modelled. *)
Definition repeat_hash `{Build} (n : N) : outcome string :=
  if n <? usize_mod / 2 then Val (hashes (N.to_nat n)) else Panic.

(** [{bin:>16}]: pad with spaces on the left to 16 characters. *)
Fixpoint spaces (n : nat) : string :=
  match n with O => EmptyString | S n' => String " " (spaces n') end.
Definition pad16 (s : string) : string := (spaces (16 - String.length s) ++ s)%string.

(** One row of histogram/vechistogram.rs:140: [write!(f, "\n{bin:>16} | {value}")]. *)
Definition row_text (bin bar : string) : string :=
  (String "010" (pad16 bin) ++ " | " ++ bar)%string.

Section Histograms.
Context `{Build} {A V : Type} `{AX : Axis A}.
(** [V: Into<f64>], [Display for f64] and [Display for A::BinInterval]. *)
Context (to_f64 : V -> f64) (fmt_f64 : formatter f64) (fmt_bin : formatter Interval).

(** [fold(0.0, |it, value| it + value)], histogram/vechistogram.rs:110-116 and
    histogram/hashhistogram.rs:218-224. *)
Definition sum_f64 (vs : list f64) : f64 := fold_left (fun a b => Bplus mode_NE a b) vs (f64_lit 0 0).

(** The header, histogram/vechistogram.rs:117-123 / histogram/hashhistogram.rs:225-231. *)
Definition header_text (kind : string) (dim bins : N) (sum : f64) : string :=
  (kind ++ fmt_usize dim ++ "D(" ++ fmt_usize bins ++ " bins, sum=" ++ fmt_f64 None sum ++ ")")%string.

(** [self.iter().take(k)], fully consumed: only the first [k] items are
    evaluated. *)
Definition vec_iter_take (h : VecHistogram A V) (k : nat) : outcome (list (Item Interval V)) :=
  let! is := indices (vh_axes h) in
  mapo (fun i => let! ob := bin (vh_axes h) i in
                 let! b := expect ob in
                 let! v := expect (vec_value_at_index h i) in
                 Val (mkItem i b v)) (firstn k is).

(** histogram/vechistogram.rs:107-145 [Display for VecHistogram].  [accepts k]
    says whether the output sink accepts the [k]-th [write!] (the header is
    number 0); the result is what was written and whether [fmt] returned [Ok].
    A [write!] is one write (no partial writes within it). *)
Definition vec_display (accepts : nat -> bool) (precision : option N) (h : VecHistogram A V)
  : outcome (list string * bool) :=
  let precision := match precision with Some p => p | None => 2 end in
  let sum := sum_f64 (map to_f64 (vec_values h)) in
  let! bins := num_bins (vh_axes h) in
  if negb (accepts 0%nat) then Val ([], false)
  else
    let! items := vec_iter_take h 50 in
    let values := map (fun it => (it_bin it, to_f64 (it_value it))) items in
    let scale :=
      match max_by (fun l r : Interval * f64 => cmp_or_less (snd l) (snd r)) values with
      | Some it => snd it
      | None => B754_infinity false
      end in
    let! rows := mapo (fun bv : Interval * f64 =>
        let len := Bmult mode_NE (f64_lit 50 0) (Bdiv mode_NE (snd bv) scale) in
        let! bar := repeat_hash (f64_as_usize len) in
        Val (row_text (fmt_bin (Some precision) (fst bv)) bar)) values in
    let written := map snd (filter (fun kr => accepts (S (fst kr))) (combine (seq 0 (List.length rows)) rows)) in
    Val (header_text "VecHistogram" (num_dim (vh_axes h)) bins sum :: written, true).

(** histogram/hashhistogram.rs:211-234 [Display for HashHistogram]; [values] are
    the stored values in hash order. *)
Definition hash_display (accepts : bool) (axes : A) (values : list V) : outcome (list string * bool) :=
  let sum := sum_f64 (map to_f64 values) in
  let! bins := num_bins axes in
  if accepts then Val ([header_text "HashHistogram" (num_dim axes) bins sum], true) else Val ([], false).
End Histograms.
