(** * Program: client programs over histogram variables (C64).

    A program is a tree of calls of the public API; what it does next may depend
    in any way on the answers it got ([Do c k]). It can be run with the variables
    holding dense histograms or sparse ones. *)
From stdpp Require Import gmap.
From Verif Require Import Base Num Axis Value VecHist HashHist HistSpec.
Open Scope N_scope.

Section Program.
Context {A V D W : Type} {AX : Axis A} {AE : AxisEq A} {FV : Fill V} {FD : FillWith V D} {FW : FillWithWeighted V D W}
        {DV : Default V}.

(** One statement of the client program; [x], [y], [z] name variables. *)
Inductive command : Type :=
| New (x : nat) (a : A)                                   (* x = ...Histogram::new(a) *)
| Call (x : nat) (o : fill_op (AX := AX) D W)             (* x.fill / fill_with / fill_with_weighted *)
| ValuesMut (x : nat) (f : V -> outcome V)                (* replace every v of x.values_mut() by f v *)
| IterMut (x : nat) (f : N -> Interval -> V -> outcome V) (* replace the value of every item of x.iter_mut() by f index bin value *)
| Clone (x y : nat)                                       (* x = y.clone() *)
| Borrowed (op : V -> V -> outcome V) (x y z : nat)       (* match &y op &z { Ok(h) => { x = h; true }, Err(_) => false } *)
| Owned (op : V -> V -> outcome V) (x y z : nat)          (* the same with y.clone() op &z *)
| Assign (op : V -> V -> outcome V) (x y : nat)           (* x op= &y *)
| ValueAtIndex (x : nat) (i : N)                          (* x.value_at_index(i).cloned().unwrap_or_default() *)
| Value (x : nat) (c : @Coordinate A AX)                  (* x.value(&c).cloned().unwrap_or_default() *)
| Axes (x : nat).                                         (* x.axes().clone() *)

(** The answer to a call. *)
Inductive answer : Type := NoAnswer | Answer (b : bool) | AnswerValue (v : V) | AnswerAxes (a : A).

Inductive program (R : Type) : Type :=
| Return (r : R)
| Do (c : command) (k : answer -> program R).

(** Variables; reading an uninitialised one does not compile in Rust, here it panics. *)
Definition store (H : Type) : Type := nat -> option H.
Definition write {H} (st : store H) (x : nat) (h : H) : store H := fun y => if Nat.eqb x y then Some h else st y.
Definition read {H} (st : store H) (x : nat) : outcome H := match st x with Some h => Val h | None => Panic end.

Definition unwrap_or_default (o : option V) : V := match o with Some v => v | None => default_v end.

(** With dense histograms. *)
Definition dense_command (c : command) (st : store (VecHistogram A V)) : outcome (answer * store (VecHistogram A V)) :=
  match c with
  | New x a => let! h := vec_new a in Val (NoAnswer, write st x h)
  | Call x o => let! h := read st x in let! h' := vec_call h o in Val (NoAnswer, write st x h')
  | ValuesMut x f => let! h := read st x in let! h' := vec_values_mut h f in Val (NoAnswer, write st x h')
  | IterMut x f => let! h := read st x in let! h' := vec_iter_mut h f in Val (NoAnswer, write st x h')
  | Clone x y => let! h := read st y in Val (NoAnswer, write st x h)
  | Borrowed op x y z => let! l := read st y in let! r := read st z in let! res := vec_binop_borrowed op l r in
      Val (match res with Ok h => (Answer true, write st x h) | Err _ => (Answer false, st) end)
  | Owned op x y z => let! l := read st y in let! r := read st z in let! res := vec_binop_owned op l r in
      Val (match res with Ok h => (Answer true, write st x h) | Err _ => (Answer false, st) end)
  | Assign op x y => let! l := read st x in let! r := read st y in let! h := vec_binop_assign op l r in Val (NoAnswer, write st x h)
  | ValueAtIndex x i => let! h := read st x in Val (AnswerValue (unwrap_or_default (vec_value_at_index h i)), st)
  | Value x c => let! h := read st x in let! v := vec_value h c in Val (AnswerValue (unwrap_or_default v), st)
  | Axes x => let! h := read st x in Val (AnswerAxes (vh_axes h), st)
  end.

(** With sparse histograms: the hash maps may iterate in any order. *)
Inductive sparse_command (st : store (HashHistogram A V)) : command -> outcome (answer * store (HashHistogram A V)) -> Prop :=
| sc_new x a : sparse_command st (New x a) (Val (NoAnswer, write st x (hash_new a)))
| sc_call x o : sparse_command st (Call x o) (let! h := read st x in let! h' := hash_call h o in Val (NoAnswer, write st x h'))
| sc_values_mut x f order : (forall h, st x = Some h -> an_order (hh_values h) order) ->
    sparse_command st (ValuesMut x f) (let! h := read st x in let! h' := hash_values_mut h order f in Val (NoAnswer, write st x h'))
| sc_iter_mut x f order : (forall h, st x = Some h -> an_order (hh_values h) order) ->
    sparse_command st (IterMut x f) (let! h := read st x in let! h' := hash_iter_mut h order f in Val (NoAnswer, write st x h'))
| sc_clone x y : sparse_command st (Clone x y) (let! h := read st y in Val (NoAnswer, write st x h))
| sc_borrowed op x y z keys : NoDup keys ->
    (forall l r, st y = Some l -> st z = Some r -> forall i, i ∈ keys <-> is_Some (hash_value_at_index l i) \/ is_Some (hash_value_at_index r i)) ->
    sparse_command st (Borrowed op x y z) (let! l := read st y in let! r := read st z in let! res := hash_binop_borrowed op l r keys in
      Val (match res with Ok h => (Answer true, write st x h) | Err _ => (Answer false, st) end))
| sc_owned op x y z order : (forall r, st z = Some r -> an_order (hh_values r) order) ->
    sparse_command st (Owned op x y z) (let! l := read st y in let! r := read st z in let! res := hash_binop_owned op l r order in
      Val (match res with Ok h => (Answer true, write st x h) | Err _ => (Answer false, st) end))
| sc_assign op x y order : (forall r, st y = Some r -> an_order (hh_values r) order) ->
    sparse_command st (Assign op x y) (let! l := read st x in let! r := read st y in let! h := hash_binop_assign op l r order in Val (NoAnswer, write st x h))
| sc_value_at_index x i :
    sparse_command st (ValueAtIndex x i) (let! h := read st x in Val (AnswerValue (unwrap_or_default (hash_value_at_index h i)), st))
| sc_value x c :
    sparse_command st (Value x c) (let! h := read st x in let! v := hash_value h c in Val (AnswerValue (unwrap_or_default v), st))
| sc_axes x : sparse_command st (Axes x) (let! h := read st x in Val (AnswerAxes (hh_axes h), st)).

(** Running a program; the result is its return value and the final variables, or a panic. *)
Fixpoint dense_run {R} (p : program R) (st : store (VecHistogram A V)) : outcome (R * store (VecHistogram A V)) :=
  match p with
  | Return _ r => Val (r, st)
  | Do _ c k => let! q := dense_command c st in dense_run (k (fst q)) (snd q)
  end.
Inductive sparse_run {R} : program R -> store (HashHistogram A V) -> outcome (R * store (HashHistogram A V)) -> Prop :=
| sr_return r st : sparse_run (Return R r) st (Val (r, st))
| sr_panic c k st : sparse_command st c Panic -> sparse_run (Do R c k) st Panic
| sr_step c k st a st' o : sparse_command st c (Val (a, st')) -> sparse_run (k a) st' o -> sparse_run (Do R c k) st o.

(** ** Which commands are covered *)

(** The axes describe [n] bins and index only those. *)
Definition good_axes (a : A) : Prop :=
  exists n, num_bins a = Val n /\ (forall i, i < n -> exists b, bin a i = Val (Some b)) /\ forall c i, index a c = Val (Some i) -> i < n.

(** [P] is a property of bin values that all commands maintain (for integers: being
    a value of the type). In-place updates must leave the default value alone;
    operators must map two defaults to the default, and the owning and assigning
    forms must have the default as right neutral element. *)
Definition keeps1 (P : V -> Prop) (f : V -> outcome V) : Prop := forall v v', P v -> f v = Val v' -> P v'.
Definition keeps2 (P : V -> Prop) (op : V -> V -> outcome V) : Prop := forall v w u, P v -> P w -> op v w = Val u -> P u.
Definition allowed (P : V -> Prop) (c : command) : Prop :=
  match c with
  | New _ a => good_axes a
  | Call _ o => keeps1 P (op_effect o)
  | ValuesMut _ f => f default_v = Val default_v /\ keeps1 P f
  | IterMut _ f => forall i b, f i b default_v = Val default_v /\ keeps1 P (f i b)
  | Borrowed op _ _ _ => op default_v default_v = Val default_v /\ keeps2 P op
  | Owned op _ _ _ | Assign op _ _ => op default_v default_v = Val default_v /\ keeps2 P op /\ forall v, P v -> op v default_v = Val v
  | Clone _ _ | ValueAtIndex _ _ | Value _ _ | Axes _ => True
  end.
Inductive all_allowed {R} (P : V -> Prop) : program R -> Prop :=
| aa_return r : all_allowed P (Return R r)
| aa_do c k : allowed P c -> (forall a, all_allowed P (k a)) -> all_allowed P (Do R c k).
End Program.
Arguments command {A} V D W {AX}.
Arguments program {A} V D W {AX} R.
Arguments answer : clear implicits.
Arguments Return {A V D W AX R} r. Arguments Do {A V D W AX R} c k.
