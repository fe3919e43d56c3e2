(** * SimSpec: when one compilation of a program does what another does (C73, C74).

    The same Rust source compiled twice (for instance with and without overflow
    checks) gives two models of every method. [refines] says that the second
    compilation returns a related result whenever the first returns at all; the
    rest lifts this to axes and to whole client programs ([Program.v]). *)
From stdpp Require Import gmap.
From Verif Require Import Base Num Axis Axes Value VecHist HashHist HistSpec Program.
Open Scope N_scope.

(** If [x] returns, [y] returns a related value (a panic of [x] promises nothing). *)
Definition refines {X Y : Type} (R : X -> Y -> Prop) (x : outcome X) (y : outcome Y) : Prop :=
  forall v, x = Val v -> exists w, y = Val w /\ R v w.

Definition option_rel {X Y : Type} (R : X -> Y -> Prop) (x : option X) (y : option Y) : Prop :=
  match x, y with Some v, Some w => R v w | None, None => True | _, _ => False end.

Definition result_rel {X Y E : Type} (R : X -> Y -> Prop) (x : result X E) (y : result Y E) : Prop :=
  match x, y with Ok v, Ok w => R v w | Err e, Err f => e = f | _, _ => False end.

(** All methods of an axis type and of its other compilation, on related axes
    ([RA]), coordinates ([RC]) and bins ([RI]). *)
Record axis_refines {A1 A2 : Type} (AX1 : Axis A1) (AE1 : AxisEq A1) (AX2 : Axis A2) (AE2 : AxisEq A2)
    (RA : A1 -> A2 -> Prop) (RC : @Coordinate A1 AX1 -> @Coordinate A2 AX2 -> Prop)
    (RI : @Interval A1 AX1 -> @Interval A2 AX2 -> Prop) : Prop := {
  ar_index a1 a2 c1 c2 : RA a1 a2 -> RC c1 c2 -> refines eq (index a1 c1) (index a2 c2);
  ar_num_bins a1 a2 : RA a1 a2 -> refines eq (num_bins a1) (num_bins a2);
  ar_bin a1 a2 i : RA a1 a2 -> refines (option_rel RI) (bin a1 i) (bin a2 i);
  ar_num_dim a1 a2 : RA a1 a2 -> num_dim a1 = num_dim a2;
  ar_eqb a1 a2 b1 b2 : RA a1 a2 -> RA b1 b2 -> axis_eqb a1 b1 = axis_eqb a2 b2
}.

(** The same for the methods a histogram uses (all but [num_dim]). *)
Record methods_refine {A1 A2 : Type} (AX1 : Axis A1) (AE1 : AxisEq A1) (AX2 : Axis A2) (AE2 : AxisEq A2)
    (RA : A1 -> A2 -> Prop) (RC : @Coordinate A1 AX1 -> @Coordinate A2 AX2 -> Prop)
    (RI : @Interval A1 AX1 -> @Interval A2 AX2 -> Prop) : Prop := {
  mr_index a1 a2 c1 c2 : RA a1 a2 -> RC c1 c2 -> refines eq (index a1 c1) (index a2 c2);
  mr_num_bins a1 a2 : RA a1 a2 -> refines eq (num_bins a1) (num_bins a2);
  mr_bin a1 a2 i : RA a1 a2 -> refines (option_rel RI) (bin a1 i) (bin a2 i);
  mr_eqb a1 a2 b1 b2 : RA a1 a2 -> RA b1 b2 -> axis_eqb a1 b1 = axis_eqb a2 b2
}.

(** The fill methods of the bin values. *)
Record fills_refine {V D W : Type} (FV1 : Fill V) (FD1 : FillWith V D) (FW1 : FillWithWeighted V D W)
    (FV2 : Fill V) (FD2 : FillWith V D) (FW2 : FillWithWeighted V D W) : Prop := {
  fr_fill v : refines eq (@fill_v V FV1 v) (@fill_v V FV2 v);
  fr_fill_with v d : refines eq (@fill_with_v V D FD1 v d) (@fill_with_v V D FD2 v d);
  fr_fill_with_weighted v d w : refines eq (@fill_with_weighted_v V D W FW1 v d w) (@fill_with_weighted_v V D W FW2 v d w)
}.

Section Programs.
Context {A1 A2 V D W R : Type} (AX1 : Axis A1) (AX2 : Axis A2)
        (RA : A1 -> A2 -> Prop) (RC : @Coordinate A1 AX1 -> @Coordinate A2 AX2 -> Prop)
        (RI : @Interval A1 AX1 -> @Interval A2 AX2 -> Prop).

(** One statement compiled twice: the same variables, related axes and
    coordinates, the same data; the closures passed by the client are themselves
    compiled twice. *)
Inductive same_call : fill_op (AX := AX1) D W -> fill_op (AX := AX2) D W -> Prop :=
| same_fill c1 c2 : RC c1 c2 -> same_call (CallFill c1) (CallFill c2)
| same_fill_with c1 c2 d : RC c1 c2 -> same_call (CallFillWith c1 d) (CallFillWith c2 d)
| same_fill_with_weighted c1 c2 d w : RC c1 c2 -> same_call (CallFillWithWeighted c1 d w) (CallFillWithWeighted c2 d w).

Definition op_refines (op1 op2 : V -> V -> outcome V) : Prop := forall v w, refines eq (op1 v w) (op2 v w).

Inductive same_command : command (AX := AX1) V D W -> command (AX := AX2) V D W -> Prop :=
| same_new x a1 a2 : RA a1 a2 -> same_command (New x a1) (New x a2)
| same_Call x o1 o2 : same_call o1 o2 -> same_command (Call x o1) (Call x o2)
| same_values_mut x f1 f2 : (forall v, refines eq (f1 v) (f2 v)) -> same_command (ValuesMut x f1) (ValuesMut x f2)
| same_iter_mut x f1 f2 : (forall i b1 b2 v, RI b1 b2 -> refines eq (f1 i b1 v) (f2 i b2 v)) ->
    same_command (IterMut x f1) (IterMut x f2)
| same_clone x y : same_command (Clone x y) (Clone x y)
| same_borrowed op1 op2 x y z : op_refines op1 op2 -> same_command (Borrowed op1 x y z) (Borrowed op2 x y z)
| same_owned op1 op2 x y z : op_refines op1 op2 -> same_command (Owned op1 x y z) (Owned op2 x y z)
| same_assign op1 op2 x y : op_refines op1 op2 -> same_command (Assign op1 x y) (Assign op2 x y)
| same_value_at_index x i : same_command (ValueAtIndex x i) (ValueAtIndex x i)
| same_value x c1 c2 : RC c1 c2 -> same_command (Value x c1) (Value x c2)
| same_axes x : same_command (Axes x) (Axes x).

Inductive same_answer : answer A1 V -> answer A2 V -> Prop :=
| same_no_answer : same_answer NoAnswer NoAnswer
| same_bool b : same_answer (Answer b) (Answer b)
| same_answer_value v : same_answer (AnswerValue v) (AnswerValue v)
| same_answer_axes a1 a2 : RA a1 a2 -> same_answer (AnswerAxes a1) (AnswerAxes a2).

(** The same program compiled twice: on related answers it continues with the
    same program, and it returns the same results. *)
Inductive same_program : program (AX := AX1) V D W R -> program (AX := AX2) V D W R -> Prop :=
| same_return r : same_program (Return r) (Return r)
| same_do c1 c2 k1 k2 : same_command c1 c2 -> (forall q1 q2, same_answer q1 q2 -> same_program (k1 q1) (k2 q2)) ->
    same_program (Do c1 k1) (Do c2 k2).

(** Variables holding related axes and identical bin values. *)
Definition same_dense (h1 : VecHistogram A1 V) (h2 : VecHistogram A2 V) : Prop :=
  RA (vh_axes h1) (vh_axes h2) /\ vh_values h1 = vh_values h2.
Definition same_sparse (h1 : HashHistogram A1 V) (h2 : HashHistogram A2 V) : Prop :=
  RA (hh_axes h1) (hh_axes h2) /\ hh_values h1 = hh_values h2.
Definition same_store {H1 H2} (RH : H1 -> H2 -> Prop) (st1 : store H1) (st2 : store H2) : Prop :=
  forall x, option_rel RH (st1 x) (st2 x).
End Programs.

(** ** Two compilations of the same source *)

(** Compiled with overflow checks, and compiled in any way for a target whose
    pointers are at least as wide (or twice the same build). *)
Definition checked_then_any (Bd Br : Build) : Prop :=
  Bd = Br \/ @overflow_checks Bd = true /\ @usize_mod Bd <= @usize_mod Br.

(** A numeric type under the two compilations: arithmetic that returns in the first
    returns the same in the second; everything else agrees. *)
Record ops_refine {T : Type} (o1 o2 : NumOps T) : Prop := {
  or_ord : @num_ord T o1 = @num_ord T o2;
  or_zero : @n_zero T o1 = @n_zero T o2;
  or_one : @n_one T o1 = @n_one T o2;
  or_add a b : refines eq (@n_add T o1 a b) (@n_add T o2 a b);
  or_sub a b : refines eq (@n_sub T o1 a b) (@n_sub T o2 a b);
  or_mul a b : refines eq (@n_mul T o1 a b) (@n_mul T o2 a b);
  or_div a b : refines eq (@n_div T o1 a b) (@n_div T o2 a b);
  or_rem a b : refines eq (@n_rem T o1 a b) (@n_rem T o2 a b);
  or_from_usize n : @n_from_usize T o1 n = @n_from_usize T o2 n;
  or_to_usize a b q : @n_div T o1 a b = Val q -> @n_to_usize T o1 q = @n_to_usize T o2 q   (* only quotients are converted *)
}.

(** ** Tuples of axes *)

(** An axis type under the two compilations. *)
Record axis_pair := {
  ap_1 : axis_type; ap_2 : axis_type;
  ap_axis : at_type ap_1 -> at_type ap_2 -> Prop;
  ap_coord : at_coord ap_1 -> at_coord ap_2 -> Prop;
  ap_interval : at_interval ap_1 -> at_interval ap_2 -> Prop;
  ap_refines : axis_refines (at_axis ap_1) (at_eq ap_1) (at_axis ap_2) (at_eq ap_2) ap_axis ap_coord ap_interval
}.
Fixpoint tuple_rel (ps : list axis_pair) : axes_tuple (map ap_1 ps) -> axes_tuple (map ap_2 ps) -> Prop :=
  match ps with
  | [] => fun _ _ => True
  | p :: ps' => fun a1 a2 => ap_axis p (fst a1) (fst a2) /\ tuple_rel ps' (snd a1) (snd a2)
  end.
Fixpoint coords_rel (ps : list axis_pair) : coords (map ap_1 ps) -> coords (map ap_2 ps) -> Prop :=
  match ps with
  | [] => fun _ _ => True
  | p :: ps' => fun a1 a2 => ap_coord p (fst a1) (fst a2) /\ coords_rel ps' (snd a1) (snd a2)
  end.
Fixpoint intervals_rel (ps : list axis_pair) : intervals (map ap_1 ps) -> intervals (map ap_2 ps) -> Prop :=
  match ps with
  | [] => fun _ _ => True
  | p :: ps' => fun a1 a2 => ap_interval p (fst a1) (fst a2) /\ intervals_rel ps' (snd a1) (snd a2)
  end.
Definition axes_rel (ps : list axis_pair) (a1 : AxesTuple (map ap_1 ps)) (a2 : AxesTuple (map ap_2 ps)) : Prop :=
  tuple_rel ps (ax_axes a1) (ax_axes a2) /\ ax_shape a1 = ax_shape a2.
