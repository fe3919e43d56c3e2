(** * Alloc: the size limit of [Vec] (C86).

    No allocation may exceed [isize::MAX] bytes: [vec![x; n]], [clone] and [collect]
    panic with "capacity overflow" instead. [size] is [size_of::<V>()]. (That the allocator
    may refuse smaller requests too, which aborts the process, is not modelled.) *)
From Coq Require Import List NArith.
From Verif Require Import Base Num Axis Axes Value VecHist HistSpec Macros Program.
Import ListNotations.
Open Scope N_scope.

(** [isize::MAX] on the target. *)
Definition isize_max `{Build} : N := usize_mod / 2 - 1.

(** std: a [Vec] with room for the elements [l] (TrustedLen iterators, [clone], [from_elem]:
    the capacity requested is the length). *)
Definition vec_alloc `{Build} {V : Type} (size : N) (l : list V) : outcome (list V) :=
  if size * N.of_nat (length l) <=? isize_max then Val l else Panic.

Section Alloc.
Context `{Build} {A V D W : Type} {AX : Axis A} {AE : AxisEq A} {FV : Fill V} {FD : FillWith V D} {FW : FillWithWeighted V D W}
        {DV : Default V} (size : N).

(** histogram/vechistogram.rs:24-30 [new]: [vec![V::default(); size]] checks the size before
    it fills the vector. *)
Definition vec_new_in (axes : A) : outcome (VecHistogram A V) :=
  let! n := num_bins axes in
  if size * n <=? isize_max then Val (mkVecHist axes (repeat default_v (N.to_nat n))) else Panic.

(** histogram/vechistogram.rs:14 derived [Clone]; 177-191 and 209-219 [collect]. *)
Definition vec_alloc_values (h : VecHistogram A V) : outcome (VecHistogram A V) :=
  let! values := vec_alloc size (vh_values h) in Val (mkVecHist (vh_axes h) values).

(** histogram/vechistogram.rs:209-219 [&lhs op &scalar]. *)
Definition vec_scalar_op_in (op : V -> V -> outcome V) (l : VecHistogram A V) (rhs : V) : outcome (VecHistogram A V) :=
  let! h := vec_scalar_op op l rhs in vec_alloc_values h.

(** The statements of a client program ([Program.v]) with the size limit: those which make a
    new vector can fail. (Whether the limit or a panicking bin operation comes first makes
    no difference here: both are a panic.) *)
Definition dense_command_in (c : command (AX := AX) V D W) (st : store (VecHistogram A V)) : outcome (answer A V * store (VecHistogram A V)) :=
  match c with
  | New x a => let! h := vec_new_in a in Val (NoAnswer, write st x h)
  | Clone x y => let! h := read st y in let! h' := vec_alloc_values h in Val (NoAnswer, write st x h')
  | Borrowed op x y z => let! l := read st y in let! r := read st z in let! res := vec_binop_borrowed op l r in
      match res with
      | Ok h => let! h' := vec_alloc_values h in Val (Answer true, write st x h')
      | Err _ => Val (Answer false, st)
      end
  | Owned op x y z => let! l := read st y in let! l' := vec_alloc_values l in let! r := read st z in
      let! res := vec_binop_owned op l' r in
      Val (match res with Ok h => (Answer true, write st x h) | Err _ => (Answer false, st) end)
  | _ => dense_command c st
  end.
Fixpoint dense_run_in {R} (p : program (AX := AX) V D W R) (st : store (VecHistogram A V)) : outcome (R * store (VecHistogram A V)) :=
  match p with
  | Return r => Val (r, st)
  | Do c k => let! q := dense_command_in c st in dense_run_in (k (fst q)) (snd q)
  end.
End Alloc.

(** macros.rs:48-74 [ndhistogram!] with two or more axes. *)
Definition ndhistogram_in `{Build} {V : Type} {DV : Default V} (size : N) (ts : list axis_type) (axes : axes_tuple ts)
  : outcome (VecHistogram (AxesTuple ts) V) :=
  let! a := axes_from axes in vec_new_in (AX := axes_axis ts) size a.
