(** * AxesSpec: specification vocabulary for axes and tuples of axes. *)
From Coq Require Import List NArith ZArith Bool.
From Verif Require Import Base Num Axis Axes.
Import ListNotations.
Open Scope N_scope.

(** ** A well-behaved axis *)

(** The axis has [n] bins: [num_bins] returns [n] and [bin(i)] exists for each
    [i < n]. *)
Definition has_bins {A : Type} (AX : Axis A) (a : A) (n : N) : Prop :=
  num_bins a = Val n /\ forall i, i < n -> exists b, bin a i = Val (Some b).

(** [index] returns on coordinate [c], either no bin or one of the [n] bins. *)
Definition indexes_within {A : Type} (AX : Axis A) (a : A) (n : N) (c : @Coordinate A AX) : Prop :=
  exists r, index a c = Val r /\ forall i, r = Some i -> i < n.

(** ** Tuples of axes, component by component *)

(** The [k]-th axis has [ns_k] bins. *)
Fixpoint tuple_has_bins (ts : list axis_type) : axes_tuple ts -> list N -> Prop :=
  match ts return axes_tuple ts -> list N -> Prop with
  | [] => fun _ ns => ns = []
  | t :: ts' => fun a ns =>
      match ns with
      | [] => False
      | n :: ns' => has_bins (at_axis t) (fst a) n /\ tuple_has_bins ts' (snd a) ns'
      end
  end.

(** The [k]-th axis puts the [k]-th coordinate into bin [is_k]. *)
Fixpoint component_indices (ts : list axis_type) : axes_tuple ts -> coords ts -> list N -> Prop :=
  match ts return axes_tuple ts -> coords ts -> list N -> Prop with
  | [] => fun _ _ is => is = []
  | t :: ts' => fun a c is =>
      match is with
      | [] => False
      | i :: is' => @index _ (at_axis t) (fst a) (fst c) = Val (Some i)
                    /\ component_indices ts' (snd a) (snd c) is'
      end
  end.

(** Some axis gives no bin to its coordinate. *)
Fixpoint some_component_uncovered (ts : list axis_type) : axes_tuple ts -> coords ts -> Prop :=
  match ts return axes_tuple ts -> coords ts -> Prop with
  | [] => fun _ _ => False
  | t :: ts' => fun a c =>
      @index _ (at_axis t) (fst a) (fst c) = Val None \/ some_component_uncovered ts' (snd a) (snd c)
  end.

(** Every axis' [index] returns, with a bin number in range if any. *)
Fixpoint components_index_within (ts : list axis_type) : axes_tuple ts -> list N -> coords ts -> Prop :=
  match ts return axes_tuple ts -> list N -> coords ts -> Prop with
  | [] => fun _ ns _ => ns = []
  | t :: ts' => fun a ns c =>
      match ns with
      | [] => False
      | n :: ns' => indexes_within (at_axis t) (fst a) n (fst c)
                    /\ components_index_within ts' (snd a) ns' (snd c)
      end
  end.

(** [bs_k] is bin number [is_k] of the [k]-th axis. *)
Fixpoint component_bins (ts : list axis_type) : axes_tuple ts -> list N -> intervals ts -> Prop :=
  match ts return axes_tuple ts -> list N -> intervals ts -> Prop with
  | [] => fun _ is _ => is = []
  | t :: ts' => fun a is bs =>
      match is with
      | [] => False
      | i :: is' => @bin _ (at_axis t) (fst a) i = Val (Some (fst bs))
                    /\ component_bins ts' (snd a) is' (snd bs)
      end
  end.

(** ** Mixed radix numbers *)

(** [i_1 + n_1 * (i_2 + n_2 * (...))]: the first axis varies fastest. *)
Fixpoint radix (ns is : list N) : N :=
  match ns, is with
  | n :: ns', i :: is' => i + n * radix ns' is'
  | _, _ => 0
  end.

(** The number of cells. *)
Definition product (ns : list N) : N := fold_right N.mul 1 ns.

(** [is] is a cell of the grid [ns]. *)
Definition cell (ns is : list N) : Prop := Forall2 (fun i n => i < n) is ns.

(** Every partial product of bin counts fits a [usize]. *)
Definition products_fit `{Build} (ns : list N) : Prop :=
  forall k, product (firstn k ns) < usize_mod.
