(** * Defaults: the derived [Default] implementations. *)
From stdpp Require Import gmap.
From Verif Require Import Base Num Axis Uniform VarAxis Category Axes Value VecHist HashHist.
Open Scope N_scope.

(** axis/uniformnoflow.rs:28, axis/uniformcyclic.rs:48 derived [Default]
    (axis/uniform.rs:31 is [uniform_default] in Uniform.v). *)
Definition uniformnoflow_default {T} (ops : NumOps T) : UniformNoFlow T := mkUniformNoFlow (uniform_default ops).
Definition uniformcyclic_default {T} (ops : NumOps T) : UniformCyclic T := mkUniformCyclic (uniformnoflow_default ops).

(** axis/variablenoflow.rs:30, axis/variablecyclic.rs:28 derived [Default]
    (axis/variable.rs:33 is [variable_default] in VarAxis.v). *)
Definition variablenoflow_default {T} : VariableNoFlow T := mkVariableNoFlow variable_default.
Definition variablecyclic_default {T} : VariableCyclic T := mkVariableCyclic variablenoflow_default.

(** axis/category.rs:27, axis/categorynoflow.rs:19 derived [Default]: empty maps. *)
Definition category_default {T} : Category T := mkCategory [] ∅.
Definition categorynoflow_default {T} : CategoryNoFlow T := mkCategoryNoFlow category_default.

(** axes.rs:8 derived [Default]: default axes (given here as [a]) and an empty
    [shape] vector. *)
Definition axes_default {ts} (a : axes_tuple ts) : AxesTuple ts := mkAxes a [].
Definition axes1_default {X} (x : X) : AxesTuple1 X := mkAxes1 x [].

(** histogram/vechistogram.rs:14 derived [Default]: default axes (given as [a])
    and an empty value vector. *)
Definition vec_default {A V} (a : A) : VecHistogram A V := mkVecHist a [].

(** histogram/hashhistogram.rs:50 derived [Default]: default axes (given as [a])
    and an empty map. *)
Definition hash_default {A V} (a : A) : HashHistogram A V := mkHashHist a ∅.
