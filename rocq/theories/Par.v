(** * Par: the rayon iterators (feature "rayon") under arbitrary schedules.

    histogram/vechistogram.rs:377-438 and histogram/hashhistogram.rs:428-490.
    Rayon runs the items of a parallel iterator as tasks on several threads.  A
    task handles one item: it reads the item's slot, runs the user's closure and
    writes the slot back; these steps of different tasks interleave arbitrarily
    (which thread runs a task, and work stealing, only affect the interleaving).
    Rayon itself is outside the crate: this is the model of it we assume. *)
From stdpp Require Import gmap.
From Verif Require Import Base Num Axis Value VecHist HashHist.
Open Scope N_scope.

(** Progress of one task. *)
Inductive task_state (V : Type) : Type :=
| Todo                (* not started *)
| Loaded (v : V)      (* has read its slot *)
| Done                (* has written its slot *)
| Panicked.           (* the closure panicked *)
Arguments Todo {V}. Arguments Loaded {V} v. Arguments Done {V}. Arguments Panicked {V}.

(** Shared memory made of slots [N -> V]: the histogram's values. *)
Record slots (M V : Type) := { slot_get : M -> N -> option V; slot_set : M -> N -> V -> M }.
Arguments slot_get {M V} _ _ _. Arguments slot_set {M V} _ _ _ _.

(** The slots of a [Vec] and of a [HashMap]. *)
Definition vec_slots {V} : slots (list V) V :=
  {| slot_get := fun l i => nth_error l (N.to_nat i); slot_set := fun l i v => set_nth (N.to_nat i) v l |}.
Definition hash_slots {V} : slots (gmap N V) V :=
  {| slot_get := fun m i => m !! i; slot_set := fun m i v => <[i := v]> m |}.

Section Machine.
Context {M V : Type} (S : slots M V).
(** The closure run on each item. *)
Context (body : N -> V -> outcome V).

(** Memory, and the tasks: each with the key of its slot. *)
Record par_state := mkPar { par_mem : M; par_tasks : list (N * task_state V) }.

(** One step of one task, any task at any time. *)
Inductive par_step : par_state -> par_state -> Prop :=
| step_load m pre k post v :
    slot_get S m k = Some v ->
    par_step (mkPar m (pre ++ (k, Todo) :: post)) (mkPar m (pre ++ (k, Loaded v) :: post))
| step_store m pre k post v v' :
    body k v = Val v' ->
    par_step (mkPar m (pre ++ (k, Loaded v) :: post)) (mkPar (slot_set S m k v') (pre ++ (k, Done) :: post))
| step_panic m pre k post v :
    body k v = Panic ->
    par_step (mkPar m (pre ++ (k, Loaded v) :: post)) (mkPar m (pre ++ (k, Panicked) :: post)).

(** Start: one task per item. *)
Definition par_start (m : M) (keys : list N) : par_state := mkPar m (map (fun k => (k, Todo)) keys).

(** All tasks have finished normally, with memory [m]. *)
Definition par_finished (s : par_state) (m : M) : Prop :=
  par_mem s = m /\ Forall (fun t => snd t = Done) (par_tasks s).

(** Some task has panicked (rayon then resumes the panic in the caller). *)
Definition par_panicked (s : par_state) : Prop := Exists (fun t => snd t = Panicked) (par_tasks s).

(** No task can take a step. *)
Definition par_stuck (s : par_state) : Prop := forall s', ~ par_step s s'.
End Machine.
Arguments par_state M V : clear implicits.

Section Histograms.
Context {A V : Type} `{AX : Axis A}.

(** [hist.par_values_mut().for_each(|v| *v = f(v))], vechistogram.rs:388-393. *)
Definition vec_par_start (h : VecHistogram A V) : par_state (list V) V :=
  par_start (vh_values h) (range (N.of_nat (length (vh_values h)))).
(** [hist.par_iter_mut().for_each(|it| *it.value = f(it.index, it.bin, it.value))],
    vechistogram.rs:424-438: the closure first computes the bin. *)
Definition item_body (a : A) (f : N -> Interval -> V -> outcome V) : N -> V -> outcome V :=
  fun i v => let! ob := bin a i in let! b := expect ob in f i b v.
(** The same over the entries of a sparse histogram, hashhistogram.rs:439-444, 473-490
    ([order]: the order in which rayon takes the entries out of the map). *)
Definition hash_par_start (h : HashHistogram A V) (order : list (N * V)) : par_state (gmap N V) V :=
  par_start (hh_values h) (map fst order).
End Histograms.

(** ** Parallel reductions ([sum], [reduce], [fold] + [reduce]) *)

(** How rayon splits a sequence: consecutive chunks, recursively. *)
Inductive split_tree (X : Type) : Type :=
| Chunk (l : list X)
| Join (a b : split_tree X).
Arguments Chunk {X} l. Arguments Join {X} a b.

Fixpoint tree_items {X} (t : split_tree X) : list X :=
  match t with Chunk l => l | Join a b => tree_items a ++ tree_items b end.

(** [reduce(|| id, op)]: each chunk is folded from [id], joins combine. *)
Fixpoint tree_reduce {X} (op : X -> X -> X) (id : X) (t : split_tree X) : X :=
  match t with
  | Chunk l => fold_left op l id
  | Join a b => op (tree_reduce op id a) (tree_reduce op id b)
  end.
