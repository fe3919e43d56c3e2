(** * Value: fill traits and bin value types (histogram/fill.rs, value/*.rs). *)
From Coq Require Import List NArith ZArith Bool.
From Verif Require Import Base Num.
Import ListNotations.

(** histogram/fill.rs:11-15 [trait Fill]. *)
Class Fill (V : Type) := { fill_v : V -> outcome V }.
(** histogram/fill.rs:30-34 [trait FillWith<D>]. *)
Class FillWith (V D : Type) := { fill_with_v : V -> D -> outcome V }.
(** histogram/fill.rs:60-63 [trait FillWithWeighted<D, W>]. *)
Class FillWithWeighted (V D W : Type) := { fill_with_weighted_v : V -> D -> W -> outcome V }.
(** [std::default::Default]. *)
Class Default (V : Type) := { default_v : V }.

Section Numbers.
Context {T : Type} (ops : NumOps T).
Existing Instance ops.

(** histogram/fill.rs:17-22: blanket [impl<T: One + AddAssign> Fill for T]. *)
Definition num_fill : Fill T := {| fill_v := fun v => n_add v n_one |}.
(** histogram/fill.rs:36-54: blanket [impl FillWith<D> for D] (and for [&D]). *)
Definition num_fill_with : FillWith T T := {| fill_with_v := fun v d => n_add v d |}.
(** Default of a number is zero. *)
Definition num_default : Default T := {| default_v := n_zero |}.
End Numbers.

(** ** value/sum.rs *)

(** value/sum.rs:11-13 [struct Sum<T>]. *)
Record Sum (T : Type) := mkSum { s_sum : T }.
Arguments mkSum {T} _. Arguments s_sum {T} _.

Section Sum.
Context {T : Type} (ops : NumOps T).
Existing Instance ops.

(** value/sum.rs:17-22 [new] (= derived Default). *)
Definition sum_new : Sum T := mkSum n_zero.
(** value/sum.rs:49-54 [Fill for Sum<T>]. *)
Definition sum_fill (s : Sum T) : outcome (Sum T) :=
  let! v := @fill_v _ (num_fill ops) (s_sum s) in Val (mkSum v).
(** value/sum.rs:56-65 [FillWith<W> for Sum<T>] (W = T). *)
Definition sum_fill_with (s : Sum T) (w : T) : outcome (Sum T) :=
  let! v := @fill_with_v _ _ (num_fill_with ops) (s_sum s) w in Val (mkSum v).
(** value/sum.rs:25-32 [get] / [sum]. *)
Definition sum_get (s : Sum T) : T := s_sum s.
(** value/sum.rs:35-37 [variance]. *)
Definition sum_variance (s : Sum T) : T := s_sum s.
End Sum.

(** ** value/weightedsum.rs *)

(** value/weightedsum.rs:15-18 [struct WeightedSum<T>]. *)
Record WeightedSum (T : Type) := mkWeightedSum { ws_sumw : T; ws_sumw2 : T }.
Arguments mkWeightedSum {T} _ _. Arguments ws_sumw {T} _. Arguments ws_sumw2 {T} _.

Section WeightedSum.
Context {T : Type} (ops : NumOps T).
Existing Instance ops.

(** value/weightedsum.rs:22-27 [new] (= derived Default). *)
Definition weightedsum_new : WeightedSum T := mkWeightedSum n_zero n_zero.
(** value/weightedsum.rs:55-61 [Fill for WeightedSum<T>]. *)
Definition weightedsum_fill (s : WeightedSum T) : outcome (WeightedSum T) :=
  let! a := n_add (ws_sumw s) n_one in
  let! b := n_add (ws_sumw2 s) n_one in
  Val (mkWeightedSum a b).
(** value/weightedsum.rs:63-73 [FillWith<W> for WeightedSum<T>] (W = T). *)
Definition weightedsum_fill_with (s : WeightedSum T) (w : T) : outcome (WeightedSum T) :=
  let! a := n_add (ws_sumw s) w in
  let! w2 := n_mul w w in
  let! b := n_add (ws_sumw2 s) w2 in
  Val (mkWeightedSum a b).
(** value/weightedsum.rs:30-37 [get] / [sum]. *)
Definition weightedsum_get (s : WeightedSum T) : T := ws_sumw s.
(** value/weightedsum.rs:41-43 [variance]. *)
Definition weightedsum_variance (s : WeightedSum T) : T := ws_sumw2 s.
End WeightedSum.

(** ** value/mean.rs *)

(** num_traits::{Signed::abs, Float::sqrt} used by the means. *)
Class SignedOps (T : Type) := { n_abs : T -> outcome T }.
Class SqrtOps (T : Type) := { n_sqrt : T -> T }.

(** value/mean.rs:41-46 [struct Mean<T, O, C>] (PhantomData dropped). *)
Record Mean (T C : Type) := mkMean { m_sumw : T; m_sumw2 : T; m_count : C }.
Arguments mkMean {T C} _ _ _.
Arguments m_sumw {T C} _. Arguments m_sumw2 {T C} _. Arguments m_count {T C} _.

Section Mean.
Context {T O C : Type} (opsT : NumOps T) (opsO : NumOps O) (opsC : NumOps C) `{SignedOps O} `{SqrtOps O}.
(** [O: From<T> + From<C>]. *)
Context (of_T : T -> O) (of_C : C -> O).

(** value/mean.rs:39 derived Default. *)
Definition mean_default : Mean T C := mkMean (@n_zero _ opsT) (@n_zero _ opsT) (@n_zero _ opsC).
(** value/mean.rs:113-124 [FillWith<T> for Mean]. *)
Definition mean_fill_with (m : Mean T C) (data : T) : outcome (Mean T C) :=
  let! a := @n_add _ opsT (m_sumw m) data in
  let! d2 := @n_mul _ opsT data data in
  let! b := @n_add _ opsT (m_sumw2 m) d2 in
  let! c := @n_add _ opsC (m_count m) (@n_one _ opsC) in
  Val (mkMean a b c).
(** value/mean.rs:58-66 [new]. *)
Definition mean_new (values : list T) : outcome (Mean T C) :=
  foldo mean_fill_with values mean_default.
(** value/mean.rs:69-76 [get] / [mean]. *)
Definition mean_mean (m : Mean T C) : outcome O :=
  @n_div _ opsO (of_T (m_sumw m)) (of_C (m_count m)).
(** value/mean.rs:79-81 [num_samples]. *)
Definition mean_num_samples (m : Mean T C) : C := m_count m.
(** value/mean.rs:84-89 [variance_of_samples]. *)
Definition mean_variance_of_samples (m : Mean T C) : outcome O :=
  let! mean := mean_mean m in
  let! mean2 := @n_mul _ opsO mean mean in
  let! avgsum2 := @n_div _ opsO (of_T (m_sumw2 m)) (of_C (m_count m)) in
  let! d := @n_sub _ opsO avgsum2 mean2 in
  n_abs d.
(** value/mean.rs:92-97 [standard_deviation_of_samples]. *)
Definition mean_standard_deviation_of_samples (m : Mean T C) : outcome O :=
  let! v := mean_variance_of_samples m in Val (n_sqrt v).
(** value/mean.rs:100-102 [variance_of_mean]. *)
Definition mean_variance_of_mean (m : Mean T C) : outcome O :=
  let! v := mean_variance_of_samples m in
  @n_div _ opsO v (of_C (m_count m)).
(** value/mean.rs:105-110 [standard_error_of_mean]. *)
Definition mean_standard_error_of_mean (m : Mean T C) : outcome O :=
  let! v := mean_variance_of_mean m in Val (n_sqrt v).
End Mean.

(** ** value/weightedmean.rs *)

(** value/weightedmean.rs:42-49 [struct WeightedMean<T, W, O, C>]. *)
Record WeightedMean (T W C : Type) := mkWeightedMean {
  wm_sumwt : T; wm_sumwt2 : T; wm_sumw : W; wm_sumw2 : W; wm_count : C }.
Arguments mkWeightedMean {T W C} _ _ _ _ _.
Arguments wm_sumwt {T W C} _. Arguments wm_sumwt2 {T W C} _. Arguments wm_sumw {T W C} _.
Arguments wm_sumw2 {T W C} _. Arguments wm_count {T W C} _.

Section WeightedMean.
Context {T O C : Type} (opsT : NumOps T) (opsO : NumOps O) (opsC : NumOps C) `{SqrtOps O}.
(** Modelled with W = T: the code needs [T: Mul<W, Output = T>], which among
    primitive types only holds for W = T. *)
Context (of_T : T -> O).

(** value/weightedmean.rs:40 derived Default. *)
Definition weightedmean_default : WeightedMean T T C :=
  mkWeightedMean (@n_zero _ opsT) (@n_zero _ opsT) (@n_zero _ opsT) (@n_zero _ opsT) (@n_zero _ opsC).
(** value/weightedmean.rs:121-135 [FillWithWeighted<T, W> for WeightedMean]. *)
Definition weightedmean_fill (m : WeightedMean T T C) (value weight : T) : outcome (WeightedMean T T C) :=
  let! p1 := @n_mul _ opsT value weight in
  let! a := @n_add _ opsT (wm_sumwt m) p1 in
  let! v2 := @n_mul _ opsT value value in
  let! p2 := @n_mul _ opsT v2 weight in
  let! b := @n_add _ opsT (wm_sumwt2 m) p2 in
  let! c := @n_add _ opsT (wm_sumw m) weight in
  let! w2 := @n_mul _ opsT weight weight in
  let! d := @n_add _ opsT (wm_sumw2 m) w2 in
  let! e := @n_add _ opsC (wm_count m) (@n_one _ opsC) in
  Val (mkWeightedMean a b c d e).
(** value/weightedmean.rs:62-72 [new]. *)
Definition weightedmean_new (values : list (T * T)) : outcome (WeightedMean T T C) :=
  foldo (fun m (it : T * T) => weightedmean_fill m (fst it) (snd it)) values weightedmean_default.
(** value/weightedmean.rs:75-82 [get] / [mean]. *)
Definition weightedmean_mean (m : WeightedMean T T C) : outcome O :=
  @n_div _ opsO (of_T (wm_sumwt m)) (of_T (wm_sumw m)).
(** value/weightedmean.rs:85-87 [num_samples]. *)
Definition weightedmean_num_samples (m : WeightedMean T T C) : C := wm_count m.
(** value/weightedmean.rs:90-97 [variance_of_samples]:
    [mu2 + (sumwt2 - (1+1) * sumwt * mu) / sumw]. *)
Definition weightedmean_variance_of_samples (m : WeightedMean T T C) : outcome O :=
  let! mu := weightedmean_mean m in
  let! mu2 := @n_mul _ opsO mu mu in
  let! two := @n_add _ opsO (@n_one _ opsO) (@n_one _ opsO) in
  let! p := @n_mul _ opsO two (of_T (wm_sumwt m)) in
  let! p' := @n_mul _ opsO p mu in
  let! d := @n_sub _ opsO (of_T (wm_sumwt2 m)) p' in
  let! q := @n_div _ opsO d (of_T (wm_sumw m)) in
  @n_add _ opsO mu2 q.
(** value/weightedmean.rs:100-105 [standard_deviation_of_samples]. *)
Definition weightedmean_standard_deviation_of_samples (m : WeightedMean T T C) : outcome O :=
  let! v := weightedmean_variance_of_samples m in Val (n_sqrt v).
(** value/weightedmean.rs:108-110 [variance_of_mean]. *)
Definition weightedmean_variance_of_mean (m : WeightedMean T T C) : outcome O :=
  let! v := weightedmean_variance_of_samples m in
  let! p := @n_mul _ opsO v (of_T (wm_sumw2 m)) in
  let! s := @n_mul _ opsO (of_T (wm_sumw m)) (of_T (wm_sumw m)) in
  @n_div _ opsO p s.
(** value/weightedmean.rs:113-118 [standard_error_of_mean]. *)
Definition weightedmean_standard_error_of_mean (m : WeightedMean T T C) : outcome O :=
  let! v := weightedmean_variance_of_mean m in Val (n_sqrt v).
End WeightedMean.
