(** * Unwind: what is left behind when a call panics.

    The other model files give a panicking call the single result [Panic].  Here
    the same functions are modelled again statement by statement, keeping the
    contents of [&mut self] at the moment a panic starts unwinding; that is what
    a program sees that catches the panic ([std::panic::catch_unwind], a joined
    thread, a [Drop]).  Theorem C56_unwinding_model_agrees ties the two.

    Compound assignment [x op= e] evaluates [e], then the operator, and only
    then stores: a panic in either leaves [x] as it was.  Aborts (allocation
    failure, double panics) leave nothing to observe and are not modelled. *)
From stdpp Require Import gmap.
From Verif Require Import Base Num Axis Value VecHist HashHist HistSpec.
Open Scope N_scope.

(** A mutation of a place of type [S]: it returned, or a panic unwound through it. *)
Inductive after (S : Type) : Type :=
| Returned (s : S)
| Unwound (s : S).
Arguments Returned {S} _. Arguments Unwound {S} _.

(** The contents of the place in either case. *)
Definition contents {S} (r : after S) : S := match r with Returned s | Unwound s => s end.
Definition returned {S} (r : after S) : bool := match r with Returned _ => true | Unwound _ => false end.

(** Statement sequence [s1; s2]. *)
Definition then_ {S} (r : after S) (k : S -> after S) : after S :=
  match r with Returned s => k s | Unwound s => Unwound s end.

(** One store: [s] before, [o] the computation of the new contents. *)
Definition store {S} (s : S) (o : outcome S) : after S :=
  match o with Val s' => Returned s' | Panic => Unwound s end.

(** A mutation of a part of [S] (a field, an element), written back by [put]. *)
Definition in_part {S P} (put : P -> S) (r : after P) : after S :=
  match r with Returned p => Returned (put p) | Unwound p => Unwound (put p) end.

(** A [for] loop mutating [S]. *)
Fixpoint loop {S X} (f : S -> X -> after S) (l : list X) (s : S) : after S :=
  match l with [] => Returned s | x :: xs => then_ (f s x) (loop f xs) end.

(** histogram/fill.rs:11-63, the three traits. *)
Class FillU (V : Type) := { fill_u : V -> after V }.
Class FillWithU (V D : Type) := { fill_with_u : V -> D -> after V }.
Class FillWithWeightedU (V D W : Type) := { fill_with_weighted_u : V -> D -> W -> after V }.

(** ** Bin values *)
Section Values.
Context {T : Type} (ops : NumOps T).

(** histogram/fill.rs:17-22 [*self += Self::one()]. *)
Definition num_fill_u : FillU T := {| fill_u := fun v => store v (n_add v n_one) |}.
(** histogram/fill.rs:36-54 [*self += data]. *)
Definition num_fill_with_u : FillWithU T T := {| fill_with_u := fun v d => store v (n_add v d) |}.

(** value/sum.rs:49-54 [self.sum.fill()]. *)
Definition sum_fill_u (s : Sum T) : after (Sum T) := in_part mkSum (@fill_u _ num_fill_u (s_sum s)).
(** value/sum.rs:56-65 [self.sum.fill_with(weight)]. *)
Definition sum_fill_with_u (s : Sum T) (w : T) : after (Sum T) :=
  in_part mkSum (@fill_with_u _ _ num_fill_with_u (s_sum s) w).

(** value/weightedsum.rs:55-61: [self.sumw.fill(); self.sumw2.fill();]. *)
Definition weightedsum_fill_u (s : WeightedSum T) : after (WeightedSum T) :=
  then_ (in_part (fun a => mkWeightedSum a (ws_sumw2 s)) (@fill_u _ num_fill_u (ws_sumw s))) (fun s =>
         in_part (fun b => mkWeightedSum (ws_sumw s) b) (@fill_u _ num_fill_u (ws_sumw2 s))).
(** value/weightedsum.rs:63-73: [self.sumw.fill_with(weight);
    self.sumw2.fill_with(weight * weight);] - the product is evaluated after the
    first store. *)
Definition weightedsum_fill_with_u (s : WeightedSum T) (w : T) : after (WeightedSum T) :=
  then_ (in_part (fun a => mkWeightedSum a (ws_sumw2 s)) (@fill_with_u _ _ num_fill_with_u (ws_sumw s) w)) (fun s =>
         match n_mul w w with
         | Panic => Unwound s
         | Val w2 => in_part (fun b => mkWeightedSum (ws_sumw s) b) (@fill_with_u _ _ num_fill_with_u (ws_sumw2 s) w2)
         end).
End Values.

Section Means.
Context {T C : Type} (opsT : NumOps T) (opsC : NumOps C).

(** value/mean.rs:113-124: [self.sumw += data; self.sumw2 += data * data;
    self.count += C::one();]. *)
Definition mean_fill_with_u (m : Mean T C) (data : T) : after (Mean T C) :=
  then_ (store m (let! a := @n_add _ opsT (m_sumw m) data in Val (mkMean a (m_sumw2 m) (m_count m)))) (fun m =>
  then_ (store m (let! d2 := @n_mul _ opsT data data in
                  let! b := @n_add _ opsT (m_sumw2 m) d2 in Val (mkMean (m_sumw m) b (m_count m)))) (fun m =>
         store m (let! c := @n_add _ opsC (m_count m) (@n_one _ opsC) in Val (mkMean (m_sumw m) (m_sumw2 m) c)))).

(** value/weightedmean.rs:121-135, five statements. *)
Definition weightedmean_fill_u (m : WeightedMean T T C) (value weight : T) : after (WeightedMean T T C) :=
  then_ (store m (let! p := @n_mul _ opsT value weight in
                  let! x := @n_add _ opsT (wm_sumwt m) p in
                  Val (mkWeightedMean x (wm_sumwt2 m) (wm_sumw m) (wm_sumw2 m) (wm_count m)))) (fun m =>
  then_ (store m (let! v2 := @n_mul _ opsT value value in
                  let! p := @n_mul _ opsT v2 weight in
                  let! x := @n_add _ opsT (wm_sumwt2 m) p in
                  Val (mkWeightedMean (wm_sumwt m) x (wm_sumw m) (wm_sumw2 m) (wm_count m)))) (fun m =>
  then_ (store m (let! x := @n_add _ opsT (wm_sumw m) weight in
                  Val (mkWeightedMean (wm_sumwt m) (wm_sumwt2 m) x (wm_sumw2 m) (wm_count m)))) (fun m =>
  then_ (store m (let! w2 := @n_mul _ opsT weight weight in
                  let! x := @n_add _ opsT (wm_sumw2 m) w2 in
                  Val (mkWeightedMean (wm_sumwt m) (wm_sumwt2 m) (wm_sumw m) x (wm_count m)))) (fun m =>
         store m (let! c := @n_add _ opsC (wm_count m) (@n_one _ opsC) in
                  Val (mkWeightedMean (wm_sumwt m) (wm_sumwt2 m) (wm_sumw m) (wm_sumw2 m) c)))))).
End Means.

(** ** Histograms *)
Section Histograms.
Context {A V : Type} {AX : Axis A}.

(** histogram/histogram.rs:66-68, 80-82, 94-96: an update through an optional
    reference. *)
Definition update_through_u {H : Type} (h : H) (r : option (mut_ref V H)) (f : V -> after V) : after H :=
  match r with
  | None => Returned h
  | Some p => in_part (assign p) (f (deref p))
  end.

(** The rest of a dense fill after [self.value_mut(coordinate)], which takes the
    axis index and may panic there, before anything is written. *)
Definition vec_update_u (h : VecHistogram A V) (c : Coordinate) (f : V -> after V) : after (VecHistogram A V) :=
  match vec_value_mut h c with
  | Panic => Unwound h
  | Val r => update_through_u h r f
  end.

(** histogram/histogram.rs:62-69, 75-83, 89-97 (trait defaults, used by VecHistogram). *)
Definition vec_fill_u {F : FillU V} (h : VecHistogram A V) (c : Coordinate) := vec_update_u h c fill_u.
Definition vec_fill_with_u {D} {F : FillWithU V D} (h : VecHistogram A V) (c : Coordinate) (d : D) :=
  vec_update_u h c (fun v => fill_with_u v d).
Definition vec_fill_with_weighted_u {D W} {F : FillWithWeightedU V D W} (h : VecHistogram A V) (c : Coordinate) (d : D) (w : W) :=
  vec_update_u h c (fun v => fill_with_weighted_u v d w).

(** [self.values.entry(index).or_default()] inserts the default value before the
    update runs. *)
Definition entry_or_default_u {DV : Default V} (m : gmap N V) (i : N) (f : V -> after V) : after (gmap N V) :=
  let v := match m !! i with Some v => v | None => default_v end in
  let m' := <[i := v]> m in
  in_part (fun v' => <[i := v']> m') (f v).

(** Common body of histogram/hashhistogram.rs:152-182. *)
Definition hash_update_u {DV : Default V} (h : HashHistogram A V) (c : Coordinate) (f : V -> after V)
  : after (HashHistogram A V) :=
  match index (hh_axes h) c with
  | Panic => Unwound h
  | Val None => Returned h
  | Val (Some i) => in_part (mkHashHist (hh_axes h)) (entry_or_default_u (hh_values h) i f)
  end.
Definition hash_fill_u {DV : Default V} {F : FillU V} (h : HashHistogram A V) (c : Coordinate) := hash_update_u h c fill_u.
Definition hash_fill_with_u {DV : Default V} {D} {F : FillWithU V D} (h : HashHistogram A V) (c : Coordinate) (d : D) :=
  hash_update_u h c (fun v => fill_with_u v d).
Definition hash_fill_with_weighted_u {DV : Default V} {D W} {F : FillWithWeightedU V D W}
  (h : HashHistogram A V) (c : Coordinate) (d : D) (w : W) := hash_update_u h c (fun v => fill_with_weighted_u v d w).

(** histogram/vechistogram.rs:309-312: the zipped loop [*l op= r]. *)
Fixpoint zip_assign_u (op : V -> V -> after V) (l r : list V) : after (list V) :=
  match l, r with
  | x :: xs, y :: ys => match op x y with
                        | Returned z => in_part (fun zs => z :: zs) (zip_assign_u op xs ys)
                        | Unwound z => Unwound (z :: xs)
                        end
  | _, _ => Returned l
  end.

(** histogram/vechistogram.rs:68-70 [values_mut], consumed by a loop body [f]
    that may panic half way. *)
Fixpoint each_u (f : V -> after V) (l : list V) : after (list V) :=
  match l with
  | [] => Returned []
  | x :: xs => match f x with
               | Returned x' => in_part (fun xs' => x' :: xs') (each_u f xs)
               | Unwound x' => Unwound (x' :: xs)
               end
  end.
Definition vec_values_mut_u (h : VecHistogram A V) (f : V -> after V) : after (VecHistogram A V) :=
  in_part (mkVecHist (vh_axes h)) (each_u f (vh_values h)).

(** histogram/hashhistogram.rs:134-136 [values_mut], consumed in hash order. *)
Definition hash_values_mut_u (h : HashHistogram A V) (order : list (N * V)) (f : V -> after V)
  : after (HashHistogram A V) :=
  in_part (mkHashHist (hh_axes h))
    (loop (fun (m : gmap N V) (p : N * V) => in_part (fun v' => <[fst p := v']> m) (f (snd p))) order (hh_values h)).

Context {AE : AxisEq A}.

(** histogram/vechistogram.rs:305-313 [lhs op= &rhs]. *)
Definition vec_binop_assign_u (op : V -> V -> after V) (l r : VecHistogram A V) : after (VecHistogram A V) :=
  if negb (axis_eqb (vh_axes l) (vh_axes r)) then Unwound l
  else in_part (mkVecHist (vh_axes l)) (zip_assign_u op (vh_values l) (vh_values r)).

(** histogram/hashhistogram.rs:379-387 [lhs op= &rhs]. *)
Definition hash_binop_assign_u {DV : Default V} (op : V -> V -> after V) (l r : HashHistogram A V)
  (rhs_order : list (N * V)) : after (HashHistogram A V) :=
  if negb (axis_eqb (hh_axes l) (hh_axes r)) then Unwound l
  else in_part (mkHashHist (hh_axes l))
         (loop (fun m (p : N * V) => entry_or_default_u m (fst p) (fun v => op v (snd p))) rhs_order (hh_values l)).
End Histograms.

(** The calls of a history ([fill_op] of HistSpec). *)
Section Calls.
Context {A V D W : Type} {AX : Axis A} {FU : FillU V} {FDU : FillWithU V D} {FWU : FillWithWeightedU V D W}.

Definition op_effect_u (o : fill_op D W) (v : V) : after V :=
  match o with
  | CallFill _ => fill_u v
  | CallFillWith _ d => fill_with_u v d
  | CallFillWithWeighted _ d w => fill_with_weighted_u v d w
  end.

Definition vec_call_u (h : VecHistogram A V) (o : fill_op D W) : after (VecHistogram A V) :=
  match o with
  | CallFill c => vec_fill_u h c
  | CallFillWith c d => vec_fill_with_u h c d
  | CallFillWithWeighted c d w => vec_fill_with_weighted_u h c d w
  end.

Definition hash_call_u {DV : Default V} (h : HashHistogram A V) (o : fill_op D W) : after (HashHistogram A V) :=
  match o with
  | CallFill c => hash_fill_u h c
  | CallFillWith c d => hash_fill_with_u h c d
  | CallFillWithWeighted c d w => hash_fill_with_weighted_u h c d w
  end.

(** A program that makes the calls one after the other and carries on after
    every panic it catches. *)
Definition vec_calls_caught (h : VecHistogram A V) (ops : list (fill_op D W)) : VecHistogram A V :=
  fold_left (fun h o => contents (vec_call_u h o)) ops h.
Definition hash_calls_caught {DV : Default V} (h : HashHistogram A V) (ops : list (fill_op D W)) : HashHistogram A V :=
  fold_left (fun h o => contents (hash_call_u h o)) ops h.

(** The calls of that run that returned. *)
Fixpoint vec_returned (h : VecHistogram A V) (ops : list (fill_op D W)) : list (fill_op D W) :=
  match ops with
  | [] => []
  | o :: os => let r := vec_call_u h o in
               (if returned r then [o] else []) ++ vec_returned (contents r) os
  end.
Fixpoint hash_returned {DV : Default V} (h : HashHistogram A V) (ops : list (fill_op D W)) : list (fill_op D W) :=
  match ops with
  | [] => []
  | o :: os => let r := hash_call_u h o in
               (if returned r then [o] else []) ++ hash_returned (contents r) os
  end.
End Calls.
