(** * Variable axes: axis/variable.rs, axis/variablenoflow.rs, axis/variablecyclic.rs. *)
From Coq Require Import List NArith ZArith Bool.
From Verif Require Import Base Num Axis StdAlgo Uniform.
Import ListNotations.
Open Scope N_scope.

(** axis/variable.rs:35-37 [struct Variable<T>]. *)
Record Variable_ (T : Type) := mkVariable { v_edges : list T }.
Arguments mkVariable {T} _. Arguments v_edges {T} _.

(** axis/variablenoflow.rs:32-34 [struct VariableNoFlow<T>]. *)
Record VariableNoFlow (T : Type) := mkVariableNoFlow { vnf_axis : Variable_ T }.
Arguments mkVariableNoFlow {T} _. Arguments vnf_axis {T} _.

(** axis/variablecyclic.rs:30-33 [struct VariableCyclic<T>]. *)
Record VariableCyclic (T : Type) := mkVariableCyclic { vc_axis : VariableNoFlow T }.
Arguments mkVariableCyclic {T} _. Arguments vc_axis {T} _.

Section VariableAxis.
Context `{Build} (sort : sorter) (search : searcher) {T : Type} `{PartialOrdOps T}.

(** The sort closure's ordering, axis/variable.rs:53-58:
    [a.partial_cmp(b).unwrap_or_else(|| { sort_failed = true; Less })]. *)
Definition sort_cmp (a b : T) : comparison :=
  match partial_cmp a b with Some c => c | None => Lt end.

(** Whether one call of the closure sets [sort_failed]. *)
Definition cmp_fails (ab : T * T) : bool :=
  match partial_cmp (fst ab) (snd ab) with Some _ => false | None => true end.

(** axis/variable.rs:47-63 [Variable::new]. *)
Definition variable_new (bin_edges : list T) : outcome (result (Variable_ T) AxisError) :=
  if N.of_nat (length bin_edges) <? 2 then Val (Err InvalidNumberOfBinEdges)
  else
    let! (sorted, calls) := sort T bin_edges sort_cmp in
    let sort_failed := existsb cmp_fails calls in
    if sort_failed then Val (Err FailedToSortBinEdges)
    else Val (Ok (mkVariable sorted)).

(** axis/variable.rs:66-70 [low]: [first().expect(..)]. *)
Definition variable_low (a : Variable_ T) : outcome T := expect (nth_error (v_edges a) 0).

(** axis/variable.rs:73-77 [high]: [last().expect(..)]. *)
Definition variable_high (a : Variable_ T) : outcome T :=
  expect (nth_error (rev (v_edges a)) 0).

(** The search closure, axis/variable.rs:89-93:
    [probe.partial_cmp(coordinate).unwrap_or(Less)]. *)
Definition probe_cmp (x probe : T) : comparison :=
  match partial_cmp probe x with Some c => c | None => Lt end.

(** axis/variable.rs:88-98 [index]. *)
Definition variable_index (a : Variable_ T) (x : T) : outcome (option N) :=
  match search T (v_edges a) (probe_cmp x) with
  | Found i => let! k := uadd (N.of_nat i) 1 in Val (Some k)
  | NotFound i => Val (Some (N.of_nat i))
  end.

(** axis/variable.rs:100-102 [num_bins]. *)
Definition variable_num_bins (a : Variable_ T) : outcome N :=
  uadd (N.of_nat (length (v_edges a))) 1.

(** axis/variable.rs:104-117 [bin]; slice indexing panics out of bounds. *)
Definition variable_bin (a : Variable_ T) (i : N) : outcome (option (BinInterval T)) :=
  let len := N.of_nat (length (v_edges a)) in
  if i =? 0 then let! l := variable_low a in Val (Some (Underflow l))
  else if i =? len then let! h := variable_high a in Val (Some (Overflow h))
  else if i <? len then
    let! i1 := usub i 1 in
    let! s := expect (nth_error (v_edges a) (N.to_nat i1)) in
    let! e := expect (nth_error (v_edges a) (N.to_nat i)) in
    Val (Some (Bin s e))
  else Val None.

(** axis/variable.rs:80-118 [impl Axis for Variable<T>]. *)
Definition variable_axis : Axis (Variable_ T) := {|
  Coordinate := T;
  Interval := BinInterval T;
  index := variable_index;
  num_bins := variable_num_bins;
  bin := variable_bin;
  num_dim := fun _ => 1
|}.

(** axis/variable.rs:33 derived [PartialEq] ([Vec<T>] equality). *)
Fixpoint list_eqb (l l' : list T) : bool :=
  match l, l' with
  | [], [] => true
  | x :: xs, y :: ys => eq_ x y && list_eqb xs ys
  | _, _ => false
  end.
Definition variable_eqb (a b : Variable_ T) : bool := list_eqb (v_edges a) (v_edges b).

(** ** axis/variablenoflow.rs *)

(** axis/variablenoflow.rs:41-45 [new]. *)
Definition variablenoflow_new (bin_edges : list T) : outcome (result (VariableNoFlow T) AxisError) :=
  let! r := variable_new bin_edges in
  match r with
  | Ok a => Val (Ok (mkVariableNoFlow a))
  | Err e => Val (Err e)
  end.

(** axis/variablenoflow.rs:63-69 [index]. *)
Definition variablenoflow_index (a : VariableNoFlow T) (x : T) : outcome (option N) :=
  let! oi := variable_index (vnf_axis a) x in
  match oi with
  | None => Val None
  | Some i =>
      if i =? 0 then Val None
      else
        let! i1 := uadd i 1 in
        let! n := variable_num_bins (vnf_axis a) in
        if i1 =? n then Val None
        else let! j := usub i 1 in Val (Some j)
  end.

(** axis/variablenoflow.rs:71-73 [num_bins]. *)
Definition variablenoflow_num_bins (a : VariableNoFlow T) : outcome N :=
  let! n := variable_num_bins (vnf_axis a) in usub n 2.

(** axis/variablenoflow.rs:75-82 [bin]. *)
Definition variablenoflow_bin (a : VariableNoFlow T) (i : N) : outcome (option (BinInterval T)) :=
  let! i1 := uadd i 1 in
  let! ob := variable_bin (vnf_axis a) i1 in
  match ob with
  | None => Val None
  | Some (Underflow _) => Val None
  | Some (Overflow _) => Val None
  | Some (Bin s e) => Val (Some (Bin s e))
  end.

(** axis/variablenoflow.rs:58-83 [impl Axis for VariableNoFlow<T>]. *)
Definition variablenoflow_axis : Axis (VariableNoFlow T) := {|
  Coordinate := T;
  Interval := BinInterval T;
  index := variablenoflow_index;
  num_bins := variablenoflow_num_bins;
  bin := variablenoflow_bin;
  num_dim := fun _ => 1
|}.

(** axis/variablenoflow.rs:30 derived [PartialEq]. *)
Definition variablenoflow_eqb (a b : VariableNoFlow T) : bool := variable_eqb (vnf_axis a) (vnf_axis b).

End VariableAxis.

Section VariableCyclic.
Context `{Build} (sort : sorter) (search : searcher) {T : Type} (ops : NumOps T).
Existing Instance ops.

(** axis/variablecyclic.rs:43-47 [new]. *)
Definition variablecyclic_new (bin_edges : list T) : outcome (result (VariableCyclic T) AxisError) :=
  let! r := variablenoflow_new sort bin_edges in
  match r with
  | Ok a => Val (Ok (mkVariableCyclic a))
  | Err e => Val (Err e)
  end.

(** axis/variablecyclic.rs:70-79 [index]. *)
Definition variablecyclic_index (a : VariableCyclic T) (x : T) : outcome (option N) :=
  let! hi := variable_high (vnf_axis (vc_axis a)) in
  let! lo := variable_low (vnf_axis (vc_axis a)) in
  let! y := wrap_coordinate ops lo hi x in
  variablenoflow_index search (vc_axis a) y.

(** axis/variablecyclic.rs:62-90 [impl Axis for VariableCyclic<T>]. *)
Definition variablecyclic_axis : Axis (VariableCyclic T) := {|
  Coordinate := T;
  Interval := BinInterval T;
  index := variablecyclic_index;
  num_bins := fun a => variablenoflow_num_bins (vc_axis a);
  bin := fun a i => variablenoflow_bin (vc_axis a) i;
  num_dim := fun _ => 1
|}.

(** axis/variablecyclic.rs:28 derived [PartialEq]. *)
Definition variablecyclic_eqb (a b : VariableCyclic T) : bool :=
  variablenoflow_eqb (vc_axis a) (vc_axis b).
End VariableCyclic.

(** axis/variable.rs:33 derived [Default]: an empty edge vector. *)
Definition variable_default {T} : Variable_ T := mkVariable [].
