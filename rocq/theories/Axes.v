(** * Axes: axes.rs, tuples of axes. *)
From Coq Require Import List NArith ZArith Bool.
From Verif Require Import Base Num Axis.
Import ListNotations.
Open Scope N_scope.

(** One component type of an axes tuple: a Rust type with [Axis] and [PartialEq]. *)
Record axis_type := {
  at_type : Type;
  at_axis : Axis at_type;
  at_eq : AxisEq at_type
}.

(** Coordinate / interval type of a component. *)
Definition at_coord (t : axis_type) : Type := @Coordinate _ (at_axis t).
Definition at_interval (t : axis_type) : Type := @Interval _ (at_axis t).

(** The Rust tuple types [(X, Y, ...)] of axes, of their coordinates and of
    their intervals (axes.rs:84-86).  The macro axes.rs:153-175 instantiates
    dimensions 1 to 21; the model is for any number. *)
Fixpoint axes_tuple (ts : list axis_type) : Type :=
  match ts with [] => unit | t :: ts' => (at_type t * axes_tuple ts')%type end.
Fixpoint coords (ts : list axis_type) : Type :=
  match ts with [] => unit | t :: ts' => (at_coord t * coords ts')%type end.
Fixpoint intervals (ts : list axis_type) : Type :=
  match ts with [] => unit | t :: ts' => (at_interval t * intervals ts')%type end.

(** axes.rs:10-13 [struct AxesTuple<T>]. *)
Record AxesTuple (ts : list axis_type) := mkAxes {
  ax_axes : axes_tuple ts;
  ax_shape : list N
}.
Arguments mkAxes {ts} _ _. Arguments ax_axes {ts} _. Arguments ax_shape {ts} _.

(** ** One dimension: axes.rs:38-71 *)

(** axes.rs:10-13 at [T = (X,)]. *)
Record AxesTuple1 (X : Type) := mkAxes1 { ax1_axis : X; ax1_shape : list N }.
Arguments mkAxes1 {X} _ _. Arguments ax1_axis {X} _. Arguments ax1_shape {X} _.

Section OneDim.
Context `{Build} {X : Type} `{AX : Axis X} `{EX : AxisEq X}.

(** axes.rs:44-49 [From<(X,)>]. *)
Definition axes1_from (x : X) : outcome (AxesTuple1 X) :=
  let! n := num_bins x in Val (mkAxes1 x [n]).

(** axes.rs:51-68 [impl Axis for AxesTuple<(X,)>]. *)
Definition axes1_axis : Axis (AxesTuple1 X) := {|
  Coordinate := @Coordinate X AX;
  Interval := @Interval X AX;
  index := fun a c => index (ax1_axis a) c;
  num_bins := fun a => num_bins (ax1_axis a);
  bin := fun a i => bin (ax1_axis a) i;
  num_dim := fun _ => 1
|}.

(** axes.rs:8 derived [PartialEq]. *)
Fixpoint shape_eqb (l l' : list N) : bool :=
  match l, l' with
  | [], [] => true
  | x :: xs, y :: ys => (x =? y) && shape_eqb xs ys
  | _, _ => false
  end.
Definition axes1_eqb (a b : AxesTuple1 X) : bool :=
  axis_eqb (ax1_axis a) (ax1_axis b) && shape_eqb (ax1_shape a) (ax1_shape b).
Definition axes1_eq : AxisEq (AxesTuple1 X) := {| axis_eqb := axes1_eqb |}.
End OneDim.

(** ** Several dimensions: axes.rs:72-127 *)

Section NDim.
Context `{Build}.

(** The array [[self.axes.0.num_bins(), ...]] of axes.rs:79 and 110. *)
Fixpoint all_num_bins (ts : list axis_type) : axes_tuple ts -> outcome (list N) :=
  match ts return axes_tuple ts -> outcome (list N) with
  | [] => fun _ => Val []
  | t :: ts' => fun a =>
      let! n := @num_bins _ (at_axis t) (fst a) in
      let! ns := all_num_bins ts' (snd a) in
      Val (n :: ns)
  end.

(** [.iter().scan(1, |acc, nbin| { *acc *= *nbin; Some( *acc) })], axes.rs:79. *)
Fixpoint scan_products (acc : N) (ns : list N) : outcome (list N) :=
  match ns with
  | [] => Val []
  | n :: ns' =>
      let! acc' := umul acc n in
      let! r := scan_products acc' ns' in
      Val (acc' :: r)
  end.

(** axes.rs:77-82 [From<(X, Y, ...)>]. *)
Definition axes_from {ts} (item : axes_tuple ts) : outcome (AxesTuple ts) :=
  let! ns := all_num_bins ts item in
  let! shape := scan_products 1 ns in
  Val (mkAxes item shape).

(** The array [[self.axes.0.index(&coordinate.0)?, ...]] of axes.rs:90; [?]
    returns at the first [None]. *)
Fixpoint all_indices (ts : list axis_type) : axes_tuple ts -> coords ts -> outcome (option (list N)) :=
  match ts return axes_tuple ts -> coords ts -> outcome (option (list N)) with
  | [] => fun _ _ => Val (Some [])
  | t :: ts' => fun a c =>
      let! oi := @index _ (at_axis t) (fst a) (fst c) in
      match oi with
      | None => Val None
      | Some i =>
          let! ois := all_indices ts' (snd a) (snd c) in
          match ois with
          | None => Val None
          | Some is => Val (Some (i :: is))
          end
      end
  end.

(** axes.rs:92-96: [shape.iter().rev().skip(1).zip(indices.iter().rev())
    .fold(indices[0], |acc, (nbin, idx)| acc + nbin*idx)]. *)
Definition flat_index (shape idxs : list N) : outcome N :=
  match idxs with
  | [] => Panic   (* indices[0] on an empty array; no 0-dimensional instance exists *)
  | i0 :: _ =>
      foldo (fun acc (p : N * N) => let! m := umul (fst p) (snd p) in uadd acc m)
            (combine (tl (rev shape)) (rev idxs)) i0
  end.

(** axes.rs:89-98 [index]. *)
Definition axes_index {ts} (a : AxesTuple ts) (c : coords ts) : outcome (option N) :=
  let! ois := all_indices ts (ax_axes a) c in
  match ois with
  | None => Val None
  | Some idxs => let! i := flat_index (ax_shape a) idxs in Val (Some i)
  end.

(** axes.rs:100-103 [num_bins]: [n0 * n1 * ... * 1], associated to the left. *)
Definition axes_num_bins {ts} (a : AxesTuple ts) : outcome N :=
  let! ns := all_num_bins ts (ax_axes a) in
  match ns with
  | [] => Val 1
  | n0 :: ns' =>
      let! p := foldo umul ns' n0 in
      umul p 1
  end.

(** axes.rs:111-117: the remainders of [index] by the bin counts.  (The [scan]
    at axes.rs:111 never updates its accumulator, so it yields the bin counts.) *)
Fixpoint digits (i : N) (ns : list N) : outcome (list N) :=
  match ns with
  | [] => Val []
  | nb :: ns' =>
      let! nb1 := umul 1 nb in
      let! v := urem i nb1 in
      let! i' := udiv i nb1 in
      let! r := digits i' ns' in
      Val (v :: r)
  end.

(** axes.rs:118-122: [Some((self.axes.0.bin(index[0])?, ...))]. *)
Fixpoint all_bins (ts : list axis_type) : axes_tuple ts -> list N -> outcome (option (intervals ts)) :=
  match ts return axes_tuple ts -> list N -> outcome (option (intervals ts)) with
  | [] => fun _ _ => Val (Some tt)
  | t :: ts' => fun a ds =>
      match ds with
      | [] => Panic   (* index[k] out of bounds: unreachable, lengths agree *)
      | d :: ds' =>
          let! ob := @bin _ (at_axis t) (fst a) d in
          match ob with
          | None => Val None
          | Some b =>
              let! obs := all_bins ts' (snd a) ds' in
              match obs with
              | None => Val None
              | Some bs => Val (Some (b, bs))
              end
          end
      end
  end.

(** axes.rs:109-123 [bin]. *)
Definition axes_bin {ts} (a : AxesTuple ts) (i : N) : outcome (option (intervals ts)) :=
  let! ns := all_num_bins ts (ax_axes a) in
  let! ds := digits i ns in
  all_bins ts (ax_axes a) ds.

(** axes.rs:84-124 [impl Axis for AxesTuple<(X, Y, ...)>]. *)
Definition axes_axis (ts : list axis_type) : Axis (AxesTuple ts) := {|
  Coordinate := coords ts;
  Interval := intervals ts;
  index := axes_index;
  num_bins := axes_num_bins;
  bin := axes_bin;
  num_dim := fun _ => N.of_nat (length ts)
|}.

(** axes.rs:8 derived [PartialEq]: component-wise, then the shape. *)
Fixpoint tuple_eqb (ts : list axis_type) : axes_tuple ts -> axes_tuple ts -> bool :=
  match ts return axes_tuple ts -> axes_tuple ts -> bool with
  | [] => fun _ _ => true
  | t :: ts' => fun a b =>
      @axis_eqb _ (at_eq t) (fst a) (fst b) && tuple_eqb ts' (snd a) (snd b)
  end.
Definition axes_eqb {ts} (a b : AxesTuple ts) : bool :=
  tuple_eqb ts (ax_axes a) (ax_axes b) && shape_eqb (ax_shape a) (ax_shape b).
Definition axes_eq (ts : list axis_type) : AxisEq (AxesTuple ts) := {| axis_eqb := axes_eqb |}.

End NDim.
