(** * ValueGeneric: the bin value types over arbitrary (user-defined) component types.

    [Value.v] models [Sum<T>], [WeightedSum<T>], [Mean<T, O, C>] and
    [WeightedMean<T, W, O, C>] for number types with [W = T].  The source is generic:
    [Sum<T>] needs only the fill traits of [T] (so [Sum<Sum<f64>>] or [Sum<Mean>] are
    bin values as well), and [WeightedMean] allows a [T] that is multiplied by
    weights of another type (vectors weighted by scalars).  These definitions follow
    the trait bounds of the source; each operator is a function that may panic. *)
From Coq Require Import List NArith ZArith Bool.
From Verif Require Import Base Num Value.
Import ListNotations.

(** value/sum.rs:49-54 [impl<T: Copy + Fill> Fill for Sum<T>]. *)
Definition sum_of_fill {T : Type} (FT : Fill T) : Fill (Sum T) :=
  {| fill_v := fun s => let! v := fill_v (s_sum s) in Val (mkSum v) |}.
(** value/sum.rs:56-65 [impl<T: FillWith<W>, W> FillWith<W> for Sum<T>]. *)
Definition sum_of_fill_with {T W : Type} (FT : FillWith T W) : FillWith (Sum T) W :=
  {| fill_with_v := fun s w => let! v := fill_with_v (s_sum s) w in Val (mkSum v) |}.
(** value/sum.rs:9 derived [Default]. *)
Definition sum_of_default {T : Type} (DT : Default T) : Default (Sum T) := {| default_v := mkSum default_v |}.

(** value/weightedsum.rs:55-61 [impl<T: Copy + Fill> Fill for WeightedSum<T>]. *)
Definition weightedsum_of_fill {T : Type} (FT : Fill T) : Fill (WeightedSum T) :=
  {| fill_v := fun s =>
       let! a := fill_v (ws_sumw s) in
       let! b := fill_v (ws_sumw2 s) in
       Val (mkWeightedSum a b) |}.
(** value/weightedsum.rs:63-73 [impl<T: FillWith<W>, W: Mul<Output = W>> FillWith<W> for WeightedSum<T>]. *)
Definition weightedsum_of_fill_with {T W : Type} (FT : FillWith T W) (mul : W -> W -> outcome W) : FillWith (WeightedSum T) W :=
  {| fill_with_v := fun s w =>
       let! a := fill_with_v (ws_sumw s) w in
       let! w2 := mul w w in
       let! b := fill_with_v (ws_sumw2 s) w2 in
       Val (mkWeightedSum a b) |}.
(** value/weightedsum.rs:13 derived [Default]. *)
Definition weightedsum_of_default {T : Type} (DT : Default T) : Default (WeightedSum T) :=
  {| default_v := mkWeightedSum default_v default_v |}.

Section Mean.
Context {T C : Type}.
(** [T: AddAssign + Mul<Output = T>], [C: AddAssign + One]. *)
Context (add_T mul_T : T -> T -> outcome T) (add_C : C -> C -> outcome C) (one_C : C).
(** value/mean.rs:113-124 [FillWith<T> for Mean<T, O, C>]. *)
Definition mean_of_fill_with : FillWith (Mean T C) T :=
  {| fill_with_v := fun m data =>
       let! a := add_T (m_sumw m) data in
       let! d2 := mul_T data data in
       let! b := add_T (m_sumw2 m) d2 in
       let! c := add_C (m_count m) one_C in
       Val (mkMean a b c) |}.
(** value/mean.rs:39 derived [Default]. *)
Definition mean_of_default (DT : Default T) (DC : Default C) : Default (Mean T C) :=
  {| default_v := mkMean default_v default_v default_v |}.
End Mean.

Section WeightedMean.
Context {T W C : Type}.
(** [T: AddAssign + Mul<W, Output = T> + Mul<T, Output = T>], [W: AddAssign +
    Mul<W, Output = W>], [C: AddAssign + One]. *)
Context (add_T mul_TT : T -> T -> outcome T) (mul_TW : T -> W -> outcome T)
        (add_W mul_WW : W -> W -> outcome W) (add_C : C -> C -> outcome C) (one_C : C).
(** value/weightedmean.rs:121-135 [FillWithWeighted<T, W> for WeightedMean<T, W, O, C>];
    [value * value * weight] associates to the left. *)
Definition weightedmean_of_fill : FillWithWeighted (WeightedMean T W C) T W :=
  {| fill_with_weighted_v := fun m value weight =>
       let! p1 := mul_TW value weight in
       let! a := add_T (wm_sumwt m) p1 in
       let! v2 := mul_TT value value in
       let! p2 := mul_TW v2 weight in
       let! b := add_T (wm_sumwt2 m) p2 in
       let! c := add_W (wm_sumw m) weight in
       let! w2 := mul_WW weight weight in
       let! d := add_W (wm_sumw2 m) w2 in
       let! e := add_C (wm_count m) one_C in
       Val (mkWeightedMean a b c d e) |}.
(** value/weightedmean.rs:40 derived [Default]. *)
Definition weightedmean_of_default (DT : Default T) (DW : Default W) (DC : Default C) : Default (WeightedMean T W C) :=
  {| default_v := mkWeightedMean default_v default_v default_v default_v default_v |}.

(** value/weightedmean.rs:85-87 [num_samples]. *)
Definition weightedmean_of_num_samples (m : WeightedMean T W C) : C := wm_count m.

(** The accessors: [O: From<T> + From<W> + From<C> + NumOps + Signed]. *)
Context {O : Type} (opsO : NumOps O) (of_T : T -> O) (of_W : W -> O).
(** value/weightedmean.rs:75-82 [get] / [mean]. *)
Definition weightedmean_of_mean (m : WeightedMean T W C) : outcome O :=
  @n_div _ opsO (of_T (wm_sumwt m)) (of_W (wm_sumw m)).
(** value/weightedmean.rs:90-97 [variance_of_samples]. *)
Definition weightedmean_of_variance_of_samples (m : WeightedMean T W C) : outcome O :=
  let! mu := weightedmean_of_mean m in
  let! mu2 := @n_mul _ opsO mu mu in
  let! two := @n_add _ opsO (@n_one _ opsO) (@n_one _ opsO) in
  let! p := @n_mul _ opsO two (of_T (wm_sumwt m)) in
  let! p' := @n_mul _ opsO p mu in
  let! d := @n_sub _ opsO (of_T (wm_sumwt2 m)) p' in
  let! q := @n_div _ opsO d (of_W (wm_sumw m)) in
  @n_add _ opsO mu2 q.
(** value/weightedmean.rs:108-110 [variance_of_mean]. *)
Definition weightedmean_of_variance_of_mean (m : WeightedMean T W C) : outcome O :=
  let! v := weightedmean_of_variance_of_samples m in
  let! p := @n_mul _ opsO v (of_W (wm_sumw2 m)) in
  let! s := @n_mul _ opsO (of_W (wm_sumw m)) (of_W (wm_sumw m)) in
  @n_div _ opsO p s.
End WeightedMean.
