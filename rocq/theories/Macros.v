(** * Macros: macros.rs, the constructors users are told to call. *)
From stdpp Require Import gmap.
From Verif Require Import Base Num Axis Axes Value VecHist HashHist.
Open Scope N_scope.

Section Macros.
Context `{Build} {V : Type} {DV : Default V}.

(** macros.rs:48-74 [ndhistogram!(x, y, ...; V)] with two or more axes: build the
    Rust tuple, [.into()] an [AxesTuple] (axes.rs:77-82), then
    [VecHistogram::new].  (The form without [; V] is [V = f64]; the two arms are
    otherwise identical.  The model's tuples may have any length.) *)
Definition ndhistogram (ts : list axis_type) (axes : axes_tuple ts)
  : outcome (VecHistogram (AxesTuple ts) V) :=
  let! a := axes_from axes in vec_new (AX := axes_axis ts) a.

(** macros.rs:48-74 with one axis: [From<(X,)>] (axes.rs:44-49). *)
Definition ndhistogram1 {X : Type} {AX : Axis X} (x : X) : outcome (VecHistogram (AxesTuple1 X) V) :=
  let! a := axes1_from x in vec_new (AX := axes1_axis) a.

(** macros.rs:122-148 [sparsehistogram!(x, y, ...; V)]. *)
Definition sparsehistogram (ts : list axis_type) (axes : axes_tuple ts)
  : outcome (HashHistogram (AxesTuple ts) V) :=
  let! a := axes_from axes in Val (hash_new a).

(** macros.rs:122-148 with one axis. *)
Definition sparsehistogram1 {X : Type} {AX : Axis X} (x : X) : outcome (HashHistogram (AxesTuple1 X) V) :=
  let! a := axes1_from x in Val (hash_new a).
End Macros.
