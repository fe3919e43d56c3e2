(** * FillSpec: what it means that an axis bins exactly (C53).

    [mem b x] is a test for "interval [b] contains coordinate [x]"; an axis is
    exact when [index] finds the bin that contains the coordinate. *)
From Coq Require Import List NArith ZArith Bool.
From Verif Require Import Base Num Axis Axes AxesSpec Spec.
Import ListNotations.
Open Scope N_scope.

Record exact_axis {A : Type} (AX : Axis A) (a : A) (n : N)
  (ok : @Coordinate A AX -> Prop) (mem : @Interval A AX -> @Coordinate A AX -> bool) : Prop := {
  (* the axis has [n] bins *)
  ex_bins : has_bins AX a n;
  (* every coordinate in [ok] gets no bin, or one of the [n] bins *)
  ex_index : forall x, ok x -> indexes_within AX a n x;
  (* and it is put into bin [i] iff the interval of bin [i] contains it *)
  ex_iff : forall x i b, ok x -> i < n -> bin a i = Val (Some b) ->
             (index a x = Val (Some i) <-> mem b x = true)
}.

(** Interval tests. *)

(** Ordered types: half open bins; the overflow bin also holds what cannot be
    compared (NaN). *)
Definition in_interval {T : Type} (ord : PartialOrdOps T) (b : BinInterval T) (x : T) : bool :=
  match b with
  | Underflow e => lt_ x e
  | Overflow s => negb (lt_ x s)
  | Bin s e => ge_ x s && lt_ x e
  end.

(** Integers modulo a period. *)
Definition in_interval_mod (period : Z) (b : BinInterval Z) (x : Z) : bool :=
  match b with
  | Bin s e => ((x - s) mod period <? e - s)%Z
  | _ => false
  end.

(** Tuples: a test per component, and all must hold. *)
Fixpoint component_tests (ts : list axis_type) : Type :=
  match ts with [] => unit | t :: ts' => ((at_interval t -> at_coord t -> bool) * component_tests ts')%type end.
Fixpoint component_oks (ts : list axis_type) : Type :=
  match ts with [] => unit | t :: ts' => ((at_coord t -> Prop) * component_oks ts')%type end.

Fixpoint all_tests (ts : list axis_type) : component_tests ts -> intervals ts -> coords ts -> bool :=
  match ts return component_tests ts -> intervals ts -> coords ts -> bool with
  | [] => fun _ _ _ => true
  | t :: ts' => fun m b c => fst m (fst b) (fst c) && all_tests ts' (snd m) (snd b) (snd c)
  end.
Fixpoint all_ok (ts : list axis_type) : component_oks ts -> coords ts -> Prop :=
  match ts return component_oks ts -> coords ts -> Prop with
  | [] => fun _ _ => True
  | t :: ts' => fun o c => fst o (fst c) /\ all_ok ts' (snd o) (snd c)
  end.

(** Each component axis is exact. *)
Fixpoint exact_components (ts : list axis_type)
  : axes_tuple ts -> list N -> component_oks ts -> component_tests ts -> Prop :=
  match ts return axes_tuple ts -> list N -> component_oks ts -> component_tests ts -> Prop with
  | [] => fun _ ns _ _ => ns = []
  | t :: ts' => fun a ns o m =>
      match ns with
      | [] => False
      | n :: ns' => exact_axis (at_axis t) (fst a) n (fst o) (fst m)
                    /\ exact_components ts' (snd a) ns' (snd o) (snd m)
      end
  end.
