(** * HistSpec: specification vocabulary for histogram histories (C26-C41).

    The types of operations are those of the public API (trait [Histogram] and
    the operators); what a history means is described by filtering and folding
    the list of fills, never by looking at how a histogram stores its bins. *)
From stdpp Require Import gmap.
From Verif Require Import Base Num Axis Value VecHist HashHist.
Open Scope N_scope.

Section Fills.
Context {A V D W : Type} {AX : Axis A} {FV : Fill V} {FD : FillWith V D} {FW : FillWithWeighted V D W}.

(** One call of a filling method. *)
Inductive fill_op : Type :=
| CallFill (c : Coordinate)                                  (* hist.fill(&c) *)
| CallFillWith (c : Coordinate) (d : D)                      (* hist.fill_with(&c, d) *)
| CallFillWithWeighted (c : Coordinate) (d : D) (w : W).     (* hist.fill_with_weighted(&c, d, w) *)

Definition op_coordinate (o : fill_op) : Coordinate :=
  match o with CallFill c | CallFillWith c _ | CallFillWithWeighted c _ _ => c end.

(** What the call does to the bin value it reaches: the bin value's own method. *)
Definition op_effect (o : fill_op) (v : V) : outcome V :=
  match o with
  | CallFill _ => fill_v v
  | CallFillWith _ d => fill_with_v v d
  | CallFillWithWeighted _ d w => fill_with_weighted_v v d w
  end.

(** The axes put the call's coordinate into bin [i]. *)
Definition lands_in (a : A) (i : N) (o : fill_op) : bool :=
  match index a (op_coordinate o) with Val (Some j) => j =? i | _ => false end.

(** The calls of a history that reach bin [i], in order. *)
Definition reaching (a : A) (i : N) (ops : list fill_op) : list fill_op :=
  List.filter (lands_in a i) ops.

(** Apply the calls in order to one value. *)
Definition apply_all (ops : list fill_op) (v : V) : outcome V :=
  foldo (fun v o => op_effect o v) ops v.

(** Perform calls on a dense histogram, on a sparse histogram. *)
Definition vec_call (h : VecHistogram A V) (o : fill_op) : outcome (VecHistogram A V) :=
  match o with
  | CallFill c => vec_fill h c
  | CallFillWith c d => vec_fill_with h c d
  | CallFillWithWeighted c d w => vec_fill_with_weighted h c d w
  end.
Definition vec_calls (h : VecHistogram A V) (ops : list fill_op) : outcome (VecHistogram A V) :=
  foldo vec_call ops h.

Context {DV : Default V}.
Definition hash_call (h : HashHistogram A V) (o : fill_op) : outcome (HashHistogram A V) :=
  match o with
  | CallFill c => hash_fill h c
  | CallFillWith c d => hash_fill_with h c d
  | CallFillWithWeighted c d w => hash_fill_with_weighted h c d w
  end.
Definition hash_calls (h : HashHistogram A V) (ops : list fill_op) : outcome (HashHistogram A V) :=
  foldo hash_call ops h.
End Fills.
Arguments fill_op {A} D W {AX}.

(** The theorems take an instance of each of the three fill traits; for a bin
    value type that lacks one, any instance will do (e.g. with [D] or [W] empty),
    since a program cannot make that call.

    Axes that compare equal have the same number of bins. *)
Definition eq_same_bins {A : Type} (AX : Axis A) (AE : AxisEq A) : Prop :=
  forall a b : A, axis_eqb a b = true -> num_bins a = num_bins b.

(** [order] lists the entries of a hash map in some iteration order. *)
Definition an_order {V : Type} (m : gmap N V) (order : list (N * V)) : Prop :=
  Permutation order (map_to_list m).

(** ** Everything one can do with a dense histogram *)
Section Reachable.
Context {A V D W : Type} {AX : Axis A} {AE : AxisEq A} {FV : Fill V} {FD : FillWith V D}
        {FW : FillWithWeighted V D W} {DV : Default V}.

(** The axes a histogram may be created with (for instance: those returned by
    the axis constructors). *)
Context (ok : A -> Prop).

(** Dense histograms obtainable through the public API from [new]/[from_vec]. *)
Inductive vec_reachable : VecHistogram A V -> Prop :=
| vr_new axes h : ok axes -> vec_new axes = Val h -> vec_reachable h
| vr_from_vec axes vs h : ok axes -> vec_from_vec axes vs = Val (Ok h) -> vec_reachable h
| vr_call h (o : fill_op D W) h' : vec_reachable h -> vec_call h o = Val h' -> vec_reachable h'
| vr_value_at_index_mut h i r v :      (* *hist.value_at_index_mut(i).unwrap() = v *)
    vec_reachable h -> vec_value_at_index_mut h i = Some r -> vec_reachable (assign r v)
| vr_value_mut h c r v :               (* *hist.value_mut(&c).unwrap() = v *)
    vec_reachable h -> vec_value_mut h c = Val (Some r) -> vec_reachable (assign r v)
| vr_values_mut h f h' : vec_reachable h -> vec_values_mut h f = Val h' -> vec_reachable h'
| vr_iter_mut h f h' : vec_reachable h -> vec_iter_mut h f = Val h' -> vec_reachable h'
| vr_borrowed op l r h' :              (* &l op &r *)
    vec_reachable l -> vec_reachable r -> vec_binop_borrowed op l r = Val (Ok h') -> vec_reachable h'
| vr_owned op l r h' :                 (* l op &r *)
    vec_reachable l -> vec_reachable r -> vec_binop_owned op l r = Val (Ok h') -> vec_reachable h'
| vr_assign op l r h' :                (* l op= &r *)
    vec_reachable l -> vec_reachable r -> vec_binop_assign op l r = Val h' -> vec_reachable h'
| vr_scalar op l s h' :                (* &l op &s *)
    vec_reachable l -> vec_scalar_op op l s = Val h' -> vec_reachable h'.

(** Sparse histograms obtainable through the public API from [new]/[from_map];
    the hash iteration orders are arbitrary. *)
Inductive hash_reachable : HashHistogram A V -> Prop :=
| hr_new axes : ok axes -> hash_reachable (hash_new axes)
| hr_from_map axes m h : ok axes -> hash_from_map axes m = Val (Ok h) -> hash_reachable h
| hr_call h (o : fill_op D W) h' : hash_reachable h -> hash_call h o = Val h' -> hash_reachable h'
| hr_value_at_index_mut h i r v :
    hash_reachable h -> hash_value_at_index_mut h i = Some r -> hash_reachable (assign r v)
| hr_value_mut h c r v :
    hash_reachable h -> hash_value_mut h c = Val (Some r) -> hash_reachable (assign r v)
| hr_values_mut h order f h' : hash_reachable h -> an_order (hh_values h) order ->
    hash_values_mut h order f = Val h' -> hash_reachable h'
| hr_iter_mut h order f h' : hash_reachable h -> an_order (hh_values h) order ->
    hash_iter_mut h order f = Val h' -> hash_reachable h'
| hr_borrowed op l r keys h' :
    hash_reachable l -> hash_reachable r ->
    (forall i, i ∈ keys <-> is_Some (hh_values l !! i) \/ is_Some (hh_values r !! i)) ->
    hash_binop_borrowed op l r keys = Val (Ok h') -> hash_reachable h'
| hr_owned op l r order h' :
    hash_reachable l -> hash_reachable r -> an_order (hh_values r) order ->
    hash_binop_owned op l r order = Val (Ok h') -> hash_reachable h'
| hr_assign op l r order h' :
    hash_reachable l -> hash_reachable r -> an_order (hh_values r) order ->
    hash_binop_assign op l r order = Val h' -> hash_reachable h'.
End Reachable.
