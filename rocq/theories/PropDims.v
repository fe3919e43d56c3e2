(** * PropDims: the dimension of an axis (C70). *)
From stdpp Require Import gmap.
From Verif Require Import Base BaseFacts Num Axis Uniform StdAlgo VarAxis Category CategoryEq Axes.
Open Scope N_scope.

(** Every one-dimensional axis reports 1, whatever its type and contents. *)
Theorem C70_one_dimensional : forall (B : Build) (search : searcher) T (ops : NumOps T) (eqb : T -> T -> bool) (eqd : EqDecision T),
  (forall a, @num_dim _ (uniform_axis ops) a = 1)
  /\ (forall a, @num_dim _ (uniformnoflow_axis ops) a = 1)
  /\ (forall a, @num_dim _ (uniformcyclic_axis ops) a = 1)
  /\ (forall a, @num_dim _ (variable_axis search) a = 1)
  /\ (forall a, @num_dim _ (variablenoflow_axis search) a = 1)
  /\ (forall a, @num_dim _ (variablecyclic_axis search ops) a = 1)
  /\ (forall a : Category T, @num_dim _ category_axis a = 1)
  /\ (forall a : CategoryNoFlow T, @num_dim _ categorynoflow_axis a = 1)
  /\ (forall a, @num_dim _ (gcategory_axis eqb) a = 1)
  /\ (forall a, @num_dim _ (gcategorynoflow_axis eqb) a = 1)
  /\ (forall (AX : Axis T) (a : AxesTuple1 T), @num_dim _ axes1_axis a = 1).
Proof. intros. repeat split. Qed.
Print Assumptions C70_one_dimensional.

(** A tuple of axes reports how many axes it has. *)
Theorem C70_tuple : forall (B : Build) (ts : list axis_type) (a : AxesTuple ts),
  @num_dim _ (axes_axis ts) a = N.of_nat (length ts).
Proof. reflexivity. Qed.
Print Assumptions C70_tuple.

(** A two-dimensional axis over i32 reports 2. *)
Example C70_nonvacuous : forall B : Build,
  let t := {| at_type := Uniform Z; at_axis := uniform_axis (int_ops (signed 32)); at_eq := {| axis_eqb := uniform_eqb (int_ops (signed 32)) |} |} in
  @num_dim _ (axes_axis [t; t]) (mkAxes (ts := [t; t]) ((mkUniform 2 0 10 5)%Z, ((mkUniform 3 0 3 1)%Z, tt)) [1; 4]) = 2.
Proof. intros B t. reflexivity. Qed.
