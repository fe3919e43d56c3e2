(** * C66: what can go wrong, and how it is reported. *)
From stdpp Require Import gmap.
From Coq Require Import String.
From Flocq Require Import IEEE754.BinarySingleNaN.
From Verif Require Import Base Num Float Axis StdAlgo Uniform VarAxis Category Axes Value VecHist HashHist Derived PropDerived Errors HistSpec StdContract.
Open Scope N_scope.

(** ** Specification *)

(** Whatever the call returns, an error is one of [es]. *)
Definition only_errors {A E : Type} (es : list E) (r : outcome (result A E)) : Prop :=
  forall e, r = Val (Err e) -> In e es.

(** A sequence of fallible steps, each producing the input of the next. *)
Inductive steps (S : Type) : Type :=
| Finished
| AxisStep (f : S -> outcome (result S AxisError)) (rest : steps S)             (* let s = f(s)?; *)
| BinaryStep (f : S -> outcome (result S BinaryOperationError)) (rest : steps S).
Arguments Finished {S}. Arguments AxisStep {S} _ _. Arguments BinaryStep {S} _ _.

(** The function body [let s = f1(s)?; let s = f2(s)?; ...; Ok(s)] returning
    [Result<S, ndhistogram::Error>]. *)
Fixpoint body {S : Type} (p : steps S) (s : S) : outcome (result S Error) :=
  match p with
  | Finished => Val (Ok s)
  | AxisStep f rest => let! r := f s in question error_from_axis r (body rest)
  | BinaryStep f rest => let! r := f s in question error_from_binary r (body rest)
  end.

(** The steps up to the first that fails return the states [s]; the failing one
    returns an error, remembered together with which kind of step it was. *)
Inductive first_failure {S : Type} : steps S -> S -> AxisError + BinaryOperationError -> Prop :=
| ff_axis f rest s e : f s = Val (Err e) -> first_failure (AxisStep f rest) s (inl e)
| ff_binary f rest s e : f s = Val (Err e) -> first_failure (BinaryStep f rest) s (inr e)
| ff_axis_next f rest s s' e : f s = Val (Ok s') -> first_failure rest s' e -> first_failure (AxisStep f rest) s e
| ff_binary_next f rest s s' e : f s = Val (Ok s') -> first_failure rest s' e -> first_failure (BinaryStep f rest) s e.

(** ** Theorems *)

(** Different failures print different messages, also after conversion into
    [Error] (so the message identifies the cause), and converting loses nothing; the errors
    are totally ordered, equal exactly when identical, and hash accordingly. *)
Theorem C66_messages_and_conversions :
  (forall e, error_text (error_from_axis e) = axis_error_text e)
  /\ (forall e, error_text (error_from_binary e) = binary_error_text e)
  /\ (forall e e', error_text e = error_text e' -> e = e')
  /\ (forall e e', error_from_axis e = error_from_axis e' -> e = e')
  /\ (forall e, error_text e <> conversion_error_text ConversionFailed)
  /\ (lawful cmp_error /\ total cmp_error /\ hash_agrees cmp_error)
  /\ (lawful cmp_axis_error /\ total cmp_axis_error /\ hash_agrees cmp_axis_error)
  /\ (forall e e', c_eqb cmp_error e e' = true <-> e = e').
Proof.
  assert (Hinj : forall e e', error_text e = error_text e' -> e = e').
  { intros [[]|[]] [[]|[]]; simpl; intros H; first [reflexivity|discriminate H]. }
  split; [reflexivity|]. split; [reflexivity|]. split; [exact Hinj|].
  split; [intros e e' H; inversion H; reflexivity|].
  split; [intros [[]|[]]; vm_compute; discriminate|].
  split; [split; [|split]|split; [split; [|split]|]].
  - constructor.
    + intros [[]|[]] [[]|[]]; vm_compute; split; congruence.
    + intros [[]|[]] [[]|[]]; reflexivity.
    + intros [[]|[]] [[]|[]] [[]|[]]; vm_compute; congruence.
    + intros [[]|[]] [[]|[]]; vm_compute; try discriminate; reflexivity.
  - intros [[]|[]] [[]|[]]; vm_compute; discriminate.
  - intros [[]|[]] [[]|[]]; vm_compute; try discriminate; reflexivity.
  - constructor.
    + intros [] []; vm_compute; split; congruence.
    + intros [] []; reflexivity.
    + intros [] [] []; vm_compute; congruence.
    + intros [] []; vm_compute; try discriminate; reflexivity.
  - intros [] []; vm_compute; discriminate.
  - intros [] []; vm_compute; try discriminate; reflexivity.
  - intros [[]|[]] [[]|[]]; vm_compute; split; congruence.
Qed.
Print Assumptions C66_messages_and_conversions.

(** A function that builds axes and combines histograms with [?] returns the
    error of the first step that fails, as [Error::AxisError] or
    [Error::BinaryOperationError] according to the kind of step, and returns an
    error only in that case. *)
Theorem C66_question_mark : forall S (p : steps S) (s : S),
  forall e, body p s = Val (Err e) <->
    exists e0, first_failure p s e0 /\ e = match e0 with inl a => ErrAxis a | inr b => ErrBinary b end.
Proof.
  induction p as [|f rest IH|f rest IH]; intros s e; cbn [body].
  - split; [discriminate|]. intros (e0 & H & _); inversion H.
  - destruct (f s) as [[s'|x]|] eqn:E; cbn [obind question].
    + rewrite IH. split; intros (e0 & H & ->); exists e0; (split; [|reflexivity]).
      * eapply ff_axis_next; eassumption.
      * inversion H; subst; [congruence|]. rewrite E in *. match goal with X : Val (Ok _) = Val (Ok _) |- _ => inversion X; subst end. assumption.
    + split.
      * intros X; inversion X; subst. exists (inl x). split; [apply ff_axis; exact E|reflexivity].
      * intros (e0 & H & ->). unfold error_from_axis, error_from_binary in *. inversion H; subst; congruence.
    + split; [discriminate|]. intros (e0 & H & ->). unfold error_from_axis, error_from_binary in *. inversion H; subst; congruence.
  - destruct (f s) as [[s'|x]|] eqn:E; cbn [obind question].
    + rewrite IH. split; intros (e0 & H & ->); exists e0; (split; [|reflexivity]).
      * eapply ff_binary_next; eassumption.
      * inversion H; subst; [congruence|]. rewrite E in *. match goal with X : Val (Ok _) = Val (Ok _) |- _ => inversion X; subst end. assumption.
    + split.
      * intros X; inversion X; subst. exists (inr x). split; [apply ff_binary; exact E|reflexivity].
      * intros (e0 & H & ->). unfold error_from_axis, error_from_binary in *. inversion H; subst; congruence.
    + split; [discriminate|]. intros (e0 & H & ->). unfold error_from_axis, error_from_binary in *. inversion H; subst; congruence.
Qed.
Print Assumptions C66_question_mark.

Ltac crush := intros e; repeat
  match goal with
  | |- context [obind ?x _] => destruct x; cbn [obind]
  | |- context [match ?x with _ => _ end] => destruct x
  end; intros X; inversion X; subst; simpl; auto.

(** The errors each constructor can return, whatever the coordinate type (user
    number types included), parameters and build; any other error variant can be
    dismissed when handling its result. *)
Theorem C66_constructor_errors : forall (B : Build) T (ops : NumOps T),
  (forall num low high,
     only_errors [InvalidNumberOfBins; InvalidAxisRange] (uniform_new ops num low high)
     /\ only_errors [InvalidNumberOfBins; InvalidAxisRange] (uniformnoflow_new ops num low high)
     /\ only_errors [InvalidNumberOfBins; InvalidAxisRange] (uniformcyclic_new ops num low high))
  /\ (forall num low step,
     only_errors [InvalidNumberOfBins; InvalidStepSize] (uniform_with_step_size ops num low step)
     /\ only_errors [InvalidNumberOfBins; InvalidStepSize] (uniformnoflow_with_step_size ops num low step)
     /\ only_errors [InvalidNumberOfBins; InvalidStepSize] (uniformcyclic_with_step_size ops num low step))
  /\ (forall (sort : sorter) edges,
     only_errors [InvalidNumberOfBinEdges; FailedToSortBinEdges] (variable_new sort edges)
     /\ only_errors [InvalidNumberOfBinEdges; FailedToSortBinEdges] (variablenoflow_new sort edges)
     /\ only_errors [InvalidNumberOfBinEdges; FailedToSortBinEdges] (variablecyclic_new sort ops edges))
  /\ (forall A V (AX : Axis A) (axes : A) (vs : list V) (m : gmap N V),
     only_errors [ErrAxis InvalidNumberOfBins] (vec_from_vec axes vs)
     /\ only_errors [ErrAxis InvalidNumberOfBins] (hash_from_map axes m)).
Proof.
  intros B T ops.
  assert (H1 : forall num low high, only_errors [InvalidNumberOfBins; InvalidAxisRange] (uniform_new ops num low high))
    by (intros; unfold uniform_new; crush).
  assert (H2 : forall num low high, only_errors [InvalidNumberOfBins; InvalidStepSize] (uniform_with_step_size ops num low high))
    by (intros; unfold uniform_with_step_size; crush).
  assert (H3 : forall (sort : sorter) (edges : list T), only_errors [InvalidNumberOfBinEdges; FailedToSortBinEdges] (variable_new sort edges))
    by (intros; unfold variable_new; crush).
  split; [|split; [|split]].
  - intros num low high. specialize (H1 num low high).
    assert (H1' : only_errors [InvalidNumberOfBins; InvalidAxisRange] (uniformnoflow_new ops num low high)).
    { unfold uniformnoflow_new. destruct (uniform_new ops num low high) as [[a|x]|]; cbn [obind]; intros e X; inversion X; subst. auto. }
    split; [exact H1|]. split; [exact H1'|].
    unfold uniformcyclic_new. destruct (uniformnoflow_new ops num low high) as [[a|x]|]; cbn [obind]; intros e X; inversion X; subst. auto.
  - intros num low high. specialize (H2 num low high).
    assert (H2' : only_errors [InvalidNumberOfBins; InvalidStepSize] (uniformnoflow_with_step_size ops num low high)).
    { unfold uniformnoflow_with_step_size. destruct (uniform_with_step_size ops num low high) as [[a|x]|]; cbn [obind]; intros e X; inversion X; subst. auto. }
    split; [exact H2|]. split; [exact H2'|].
    unfold uniformcyclic_with_step_size. destruct (uniformnoflow_with_step_size ops num low high) as [[a|x]|]; cbn [obind]; intros e X; inversion X; subst. auto.
  - intros sort edges. specialize (H3 sort edges).
    assert (H3' : only_errors [InvalidNumberOfBinEdges; FailedToSortBinEdges] (variablenoflow_new sort edges)).
    { unfold variablenoflow_new. destruct (variable_new sort edges) as [[a|x]|]; cbn [obind]; intros e X; inversion X; subst. auto. }
    split; [exact H3|]. split; [exact H3'|].
    unfold variablecyclic_new. destruct (variablenoflow_new sort edges) as [[a|x]|]; cbn [obind]; intros e X; inversion X; subst. auto.
  - intros A V AX axes vs m. split.
    + unfold vec_from_vec. crush.
    + unfold hash_from_map. crush.
Qed.
Print Assumptions C66_constructor_errors.

(** Each of those errors does occur: an i32 example per constructor and error, and
    a [?] chain stopped by its second step. *)
Example C66_nonvacuous : forall B : Build,
  let ops := int_ops (signed 32) in
  uniform_new ops 0 0%Z 1%Z = Val (Err InvalidNumberOfBins)
  /\ uniform_new ops 3 1%Z 1%Z = Val (Err InvalidAxisRange)
  /\ uniform_with_step_size ops 0 0%Z 1%Z = Val (Err InvalidNumberOfBins)
  /\ uniform_with_step_size ops 3 0%Z (-1)%Z = Val (Err InvalidStepSize)
  /\ variable_new insertion_sort [1%Z] = Val (Err InvalidNumberOfBinEdges)
  /\ @variable_new insertion_sort f64 (@num_ord _ f64_ops) [B754_nan; B754_nan] = Val (Err FailedToSortBinEdges)
  /\ first_failure (AxisStep (fun n => Val (Ok (n + 1))) (BinaryStep (fun _ => Val (Err BinaryOperationFailed)) (AxisStep (fun n => Val (Err InvalidStepSize)) Finished))) 0 (inr BinaryOperationFailed).
Proof.
  intros B ops. repeat split; try (destruct B as [[] []]; reflexivity).
  eapply ff_axis_next; [reflexivity|]. apply ff_binary. reflexivity.
Qed.
