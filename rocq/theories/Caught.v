(** * Caught: mutable iteration interrupted by a panic, and everything a program
    can do to histograms if it may also catch panics (C71). *)
From stdpp Require Import gmap.
From Verif Require Import Base Num Axis Value VecHist HashHist HistSpec Unwind.
Open Scope N_scope.

Section IterMut.
Context {A V : Type} {AX : Axis A}.

(** axis/mod.rs:108-116: the bin of one item of the axis iterator. *)
Definition item_bin (a : A) (i : N) : outcome Interval := let! b := bin a i in expect b.

(** histogram/vechistogram.rs:72-79 [iter_mut], consumed by a loop body that may
    panic: [zip] first takes an item of the axis iterator (whose bin is computed
    then), next a slot of the values. *)
Fixpoint zip_update_u (a : A) (f : N -> Interval -> V -> after V) (is : list N) (vs : list V) : after (list V) :=
  match is with
  | [] => Returned vs
  | i :: is' =>
      match item_bin a i with
      | Panic => Unwound vs
      | Val b =>
          match vs with
          | [] => Returned vs
          | v :: vs' => match f i b v with
                        | Unwound v' => Unwound (v' :: vs')
                        | Returned v' => in_part (fun vs'' => v' :: vs'') (zip_update_u a f is' vs')
                        end
          end
      end
  end.
Definition vec_iter_mut_u (h : VecHistogram A V) (f : N -> Interval -> V -> after V) : after (VecHistogram A V) :=
  match indices (vh_axes h) with
  | Panic => Unwound h
  | Val is => in_part (mkVecHist (vh_axes h)) (zip_update_u (vh_axes h) f is (vh_values h))
  end.

(** histogram/hashhistogram.rs:138-149 [iter_mut], likewise, in hash order. *)
Definition hash_iter_mut_u (h : HashHistogram A V) (order : list (N * V)) (f : N -> Interval -> V -> after V)
  : after (HashHistogram A V) :=
  in_part (mkHashHist (hh_axes h))
    (loop (fun (m : gmap N V) (p : N * V) =>
             match item_bin (hh_axes h) (fst p) with
             | Panic => Unwound m
             | Val b => in_part (fun v' => <[fst p := v']> m) (f (fst p) b (snd p))
             end) order (hh_values h)).
End IterMut.

(** ** Histories with caught panics

    [contents r] is what the histogram holds after the call, whether it returned
    or a panic unwound through it. Constructors and the operators that make a new
    histogram leave nothing behind when they panic ([l op &r] drops [l]). *)
Section Survives.
Context {A V D W : Type} {AX : Axis A} {AE : AxisEq A} {FU : FillU V} {FDU : FillWithU V D}
        {FWU : FillWithWeightedU V D W} {DV : Default V}.
Context (ok : A -> Prop).

Inductive vec_survives : VecHistogram A V -> Prop :=
| vs_new axes h : ok axes -> vec_new axes = Val h -> vec_survives h
| vs_from_vec axes vs h : ok axes -> vec_from_vec axes vs = Val (Ok h) -> vec_survives h
| vs_call h (o : fill_op D W) : vec_survives h -> vec_survives (contents (vec_call_u h o))
| vs_value_at_index_mut h i r v : vec_survives h -> vec_value_at_index_mut h i = Some r -> vec_survives (assign r v)
| vs_value_mut h c r v : vec_survives h -> vec_value_mut h c = Val (Some r) -> vec_survives (assign r v)
| vs_values_mut h f : vec_survives h -> vec_survives (contents (vec_values_mut_u h f))
| vs_iter_mut h f : vec_survives h -> vec_survives (contents (vec_iter_mut_u h f))
| vs_borrowed op l r h' : vec_survives l -> vec_survives r -> vec_binop_borrowed op l r = Val (Ok h') -> vec_survives h'
| vs_owned op l r h' : vec_survives l -> vec_survives r -> vec_binop_owned op l r = Val (Ok h') -> vec_survives h'
| vs_assign op l r : vec_survives l -> vec_survives r -> vec_survives (contents (vec_binop_assign_u op l r))
| vs_scalar op l s h' : vec_survives l -> vec_scalar_op op l s = Val h' -> vec_survives h'.

Inductive hash_survives : HashHistogram A V -> Prop :=
| hs_new axes : ok axes -> hash_survives (hash_new axes)
| hs_from_map axes m h : ok axes -> hash_from_map axes m = Val (Ok h) -> hash_survives h
| hs_call h (o : fill_op D W) : hash_survives h -> hash_survives (contents (hash_call_u h o))
| hs_value_at_index_mut h i r v : hash_survives h -> hash_value_at_index_mut h i = Some r -> hash_survives (assign r v)
| hs_value_mut h c r v : hash_survives h -> hash_value_mut h c = Val (Some r) -> hash_survives (assign r v)
| hs_values_mut h order f : hash_survives h -> an_order (hh_values h) order ->
    hash_survives (contents (hash_values_mut_u h order f))
| hs_iter_mut h order f : hash_survives h -> an_order (hh_values h) order ->
    hash_survives (contents (hash_iter_mut_u h order f))
| hs_borrowed op l r keys h' : hash_survives l -> hash_survives r ->
    (forall i, i ∈ keys <-> is_Some (hh_values l !! i) \/ is_Some (hh_values r !! i)) ->
    hash_binop_borrowed op l r keys = Val (Ok h') -> hash_survives h'
| hs_owned op l r order h' : hash_survives l -> hash_survives r -> an_order (hh_values r) order ->
    hash_binop_owned op l r order = Val (Ok h') -> hash_survives h'
| hs_assign op l r order : hash_survives l -> hash_survives r -> an_order (hh_values r) order ->
    hash_survives (contents (hash_binop_assign_u op l r order)).
End Survives.
