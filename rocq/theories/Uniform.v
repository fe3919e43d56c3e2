(** * Uniform axes: axis/uniform.rs, axis/uniformnoflow.rs, axis/uniformcyclic.rs. *)
From Coq Require Import List NArith ZArith Bool.
From Verif Require Import Base Num Axis.
Import ListNotations.
Open Scope N_scope.

(** axis/uniform.rs:33-38 [struct Uniform<T>]. *)
Record Uniform (T : Type) := mkUniform {
  u_num : N;
  u_low : T;
  u_high : T;
  u_step : T
}.
Arguments mkUniform {T} _ _ _ _.
Arguments u_num {T} _. Arguments u_low {T} _. Arguments u_high {T} _. Arguments u_step {T} _.

(** axis/uniformnoflow.rs:30-32 [struct UniformNoFlow<T>]. *)
Record UniformNoFlow (T : Type) := mkUniformNoFlow { unf_axis : Uniform T }.
Arguments mkUniformNoFlow {T} _. Arguments unf_axis {T} _.

(** axis/uniformcyclic.rs:50-53 [struct UniformCyclic<T>]. *)
Record UniformCyclic (T : Type) := mkUniformCyclic { uc_axis : UniformNoFlow T }.
Arguments mkUniformCyclic {T} _. Arguments uc_axis {T} _.

Section Uniform.
Context `{Build} {T : Type} (ops : NumOps T).
Existing Instance ops.

(** axis/uniform.rs:48-66 [Uniform::new] (T: Float). *)
Definition uniform_new (num : N) (low high : T) : outcome (result (Uniform T) AxisError) :=
  if num =? 0 then Val (Err InvalidNumberOfBins)
  else if eq_ low high then Val (Err InvalidAxisRange)
  else
    let '(low, high) := if gt_ low high then (high, low) else (low, high) in
    let! d := n_sub high low in
    match n_from_usize num with
    | None => Val (Err InvalidNumberOfBins)
    | Some n => let! step := n_div d n in Val (Ok (mkUniform num low high step))
    end.

(** axis/uniform.rs:72-87 [Uniform::with_step_size].  The upper edge is computed
    before the parameters are validated, as in the code. *)
Definition uniform_with_step_size (num : N) (low step : T)
  : outcome (result (Uniform T) AxisError) :=
  match n_from_usize num with
  | None => Val (Err InvalidNumberOfBins)
  | Some n =>
      let! p := n_mul n step in
      let! high := n_add p low in
      if num =? 0 then Val (Err InvalidNumberOfBins)
      else if le_ step n_zero then Val (Err InvalidStepSize)
      else
        let '(low, high) := if gt_ low high then (high, low) else (low, high) in
        Val (Ok (mkUniform num low high step))
  end.

(** axis/uniform.rs:108-117 [index]. *)
Definition uniform_index (a : Uniform T) (x : T) : outcome (option N) :=
  if lt_ x (u_low a) then Val (Some 0)
  else if ge_ x (u_high a) then let! i := uadd (u_num a) 1 in Val (Some i)
  else
    let! d := n_sub x (u_low a) in
    let! steps := n_div d (u_step a) in
    let k := match n_to_usize steps with Some k => k | None => u_num a end in
    let! i := uadd k 1 in Val (Some i).

(** axis/uniform.rs:119-121 [num_bins]. *)
Definition uniform_num_bins (a : Uniform T) : outcome N := uadd (u_num a) 2.

(** Edge [i] as computed in axis/uniform.rs:131-133:
    [low + T::from(i)? * (high - low) / T::from(num)?], evaluated left to right. *)
Definition uniform_edge (a : Uniform T) (i : N) : outcome (option T) :=
  match n_from_usize i with
  | None => Val None
  | Some k =>
      let! w := n_sub (u_high a) (u_low a) in
      let! p := n_mul k w in
      match n_from_usize (u_num a) with
      | None => Val None
      | Some n =>
          let! q := n_div p n in
          let! e := n_add (u_low a) q in
          Val (Some e)
      end
  end.

(** axis/uniform.rs:123-135 [bin]. *)
Definition uniform_bin (a : Uniform T) (i : N) : outcome (option (BinInterval T)) :=
  if i =? 0 then Val (Some (Underflow (u_low a)))
  else
    let! n1 := uadd (u_num a) 1 in
    if i =? n1 then Val (Some (Overflow (u_high a)))
    else if n1 <? i then Val None
    else
      let! i1 := usub i 1 in
      let! s := uniform_edge a i1 in
      match s with
      | None => Val None
      | Some start =>
          let! e := uniform_edge a i in
          match e with
          | None => Val None
          | Some end_ => Val (Some (Bin start end_))
          end
      end.

(** axis/uniform.rs:103-140 [impl Axis for Uniform<T>]. *)
Definition uniform_axis : Axis (Uniform T) := {|
  Coordinate := T;
  Interval := BinInterval T;
  index := uniform_index;
  num_bins := uniform_num_bins;
  bin := uniform_bin;
  num_dim := fun _ => 1
|}.

(** axis/uniform.rs:31 derived [PartialEq]: field by field. *)
Definition uniform_eqb (a b : Uniform T) : bool :=
  (u_num a =? u_num b) && eq_ (u_low a) (u_low b)
  && eq_ (u_high a) (u_high b) && eq_ (u_step a) (u_step b).

(** ** axis/uniformnoflow.rs *)

(** axis/uniformnoflow.rs:41-48 [new]. *)
Definition uniformnoflow_new (num : N) (low high : T) : outcome (result (UniformNoFlow T) AxisError) :=
  let! r := uniform_new num low high in
  match r with
  | Ok a => Val (Ok (mkUniformNoFlow a))
  | Err e => Val (Err e)
  end.

(** axis/uniformnoflow.rs:53-60 [with_step_size]. *)
Definition uniformnoflow_with_step_size (num : N) (low step : T)
  : outcome (result (UniformNoFlow T) AxisError) :=
  let! r := uniform_with_step_size num low step in
  match r with
  | Ok a => Val (Ok (mkUniformNoFlow a))
  | Err e => Val (Err e)
  end.

(** axis/uniformnoflow.rs:83-89 [index]; the [||] short-circuits. *)
Definition uniformnoflow_index (a : UniformNoFlow T) (x : T) : outcome (option N) :=
  let! oi := uniform_index (unf_axis a) x in
  match oi with
  | None => Val None
  | Some i =>
      if i =? 0 then Val None
      else
        let! i1 := uadd i 1 in
        let! n := uniform_num_bins (unf_axis a) in
        if i1 =? n then Val None
        else let! j := usub i 1 in Val (Some j)
  end.

(** axis/uniformnoflow.rs:91-93 [num_bins]. *)
Definition uniformnoflow_num_bins (a : UniformNoFlow T) : outcome N :=
  let! n := uniform_num_bins (unf_axis a) in usub n 2.

(** axis/uniformnoflow.rs:95-102 [bin]. *)
Definition uniformnoflow_bin (a : UniformNoFlow T) (i : N) : outcome (option (BinInterval T)) :=
  let! i1 := uadd i 1 in
  let! ob := uniform_bin (unf_axis a) i1 in
  match ob with
  | None => Val None
  | Some (Underflow _) => Val None
  | Some (Overflow _) => Val None
  | Some (Bin s e) => Val (Some (Bin s e))
  end.

(** axis/uniformnoflow.rs:75-103 [impl Axis for UniformNoFlow<T>]. *)
Definition uniformnoflow_axis : Axis (UniformNoFlow T) := {|
  Coordinate := T;
  Interval := BinInterval T;
  index := uniformnoflow_index;
  num_bins := uniformnoflow_num_bins;
  bin := uniformnoflow_bin;
  num_dim := fun _ => 1
|}.

(** ** axis/uniformcyclic.rs *)

(** axis/uniformcyclic.rs:66-73 [new]. *)
Definition uniformcyclic_new (num : N) (low high : T) : outcome (result (UniformCyclic T) AxisError) :=
  let! r := uniformnoflow_new num low high in
  match r with
  | Ok a => Val (Ok (mkUniformCyclic a))
  | Err e => Val (Err e)
  end.

(** axis/uniformcyclic.rs:77-81 [with_step_size]. *)
Definition uniformcyclic_with_step_size (num : N) (low step : T)
  : outcome (result (UniformCyclic T) AxisError) :=
  let! r := uniformnoflow_with_step_size num low step in
  match r with
  | Ok a => Val (Ok (mkUniformCyclic a))
  | Err e => Val (Err e)
  end.

(** axis/uniformcyclic.rs:103-109 and axis/variablecyclic.rs:71-77: map a
    coordinate into [lo, hi) (identical code in both axes). *)
Definition wrap_coordinate (lo hi x : T) : outcome T :=
  let! range := n_sub hi lo in
  let! d := n_sub x lo in
  let! r := n_rem d range in
  let! r' := (if lt_ r n_zero then n_add range r else Val r) in
  n_add r' lo.

(** axis/uniformcyclic.rs:102-111 [index]. *)
Definition uniformcyclic_index (a : UniformCyclic T) (x : T) : outcome (option N) :=
  let! y := wrap_coordinate (u_low (unf_axis (uc_axis a))) (u_high (unf_axis (uc_axis a))) x in
  uniformnoflow_index (uc_axis a) y.

(** axis/uniformcyclic.rs:97-122 [impl Axis for UniformCyclic<T>]. *)
Definition uniformcyclic_axis : Axis (UniformCyclic T) := {|
  Coordinate := T;
  Interval := BinInterval T;
  index := uniformcyclic_index;
  num_bins := fun a => uniformnoflow_num_bins (uc_axis a);
  bin := fun a i => uniformnoflow_bin (uc_axis a) i;
  num_dim := fun _ => 1
|}.

(** axis/uniformnoflow.rs:28, axis/uniformcyclic.rs:48 derived [PartialEq]. *)
Definition uniformnoflow_eqb (a b : UniformNoFlow T) : bool := uniform_eqb (unf_axis a) (unf_axis b).
Definition uniformcyclic_eqb (a b : UniformCyclic T) : bool := uniformnoflow_eqb (uc_axis a) (uc_axis b).

End Uniform.

(** axis/uniform.rs:31 derived [Default]. *)
Definition uniform_default {T} (ops : NumOps T) : Uniform T :=
  mkUniform 0 n_zero n_zero n_zero.
