(** * PropTargets: float axes on targets of different pointer width (C73). *)
From Coq Require Import List ZArith NArith Bool Lia Reals Lra ZifyN.
From Flocq Require Import Core IEEE754.BinarySingleNaN.
From Verif Require Import Base BaseFacts Num Float Axis Axes Spec FloatFacts FloatSpec FloatUniform Uniform
  VarAxis StdAlgo Value PropUniformFloat PropUniformFloatEx PropCyclicFloat SimSpec SimFacts PropBuilds.
Import ListNotations.
Open Scope N_scope.

Lemma made_any_target (prec emax : Z) (P : Prec_gt_0 prec) (E : Prec_lt_emax prec emax) (B1 B2 : Build) num a :
  @made_axis prec emax P E B1 num a -> @made_axis prec emax P E B2 num a.
Proof.
  intros [low high H1 H2|low step H1]; [exact (@made_by_new prec emax P E B2 num a low high H1 H2)
  | exact (@made_by_step prec emax P E B2 num a low step H1)].
Qed.

Lemma to_usize_beyond (prec emax : Z) (P : Prec_gt_0 prec) (E : Prec_lt_emax prec emax) (B1 B2 : Build) x :
  covered_format prec emax -> is_finite x = true ->
  Bltb x (@float_usize_end prec emax P E B1) = true -> Bltb x (@float_usize_end prec emax P E B2) = false ->
  exists k, @float_to_usize prec emax P E B1 x = Some k /\ @usize_mod B2 <= k.
Proof.
  intros [Hp He] Fx H1 H2.
  destruct (@usize_end prec emax P E B1 ltac:(lia) ltac:(lia)) as [T1 F1]. destruct (@usize_end prec emax P E B2 ltac:(lia) ltac:(lia)) as [T2 F2].
  rewrite Bltb_correct in H1, H2 by assumption. rewrite T1 in H1. rewrite T2 in H2.
  destruct (Rlt_bool_spec (B2R x) (bpow radix2 (@usize_bits B1))) as [L1|]; [|discriminate].
  destruct (Rlt_bool_spec (B2R x) (bpow radix2 (@usize_bits B2))) as [|L2]; [discriminate|].
  pose proof (bpow_ge_0 radix2 (@usize_bits B2)).
  exists (Z.to_N (Zfloor (B2R x))). split; [apply to_usize_floor; [lia | lia | exact Fx | split; lra]|].
  rewrite usize_bpow in L2. apply Zfloor_lub in L2. lia.
Qed.

(** In range, the number of steps is never more than the number of bins, in any build. *)
Lemma steps_small (prec emax : Z) (P : Prec_gt_0 prec) (E : Prec_lt_emax prec emax) (B : Build) num a x :
  covered_format prec emax -> (Z.of_N num < 2 ^ (prec - 1))%Z -> num + 2 < @usize_mod B ->
  @made_axis prec emax P E B num a ->
  u_num a = num
  /\ (@lt_ _ (@num_ord _ (@float_ops prec emax P E B)) x (u_low a) = false ->
      @ge_ _ (@num_ord _ (@float_ops prec emax P E B)) x (u_high a) = false ->
      forall k, @float_to_usize prec emax P E B (Bdiv mode_NE (Bminus mode_NE x (u_low a)) (u_step a)) = Some k -> k <= num).
Proof.
  intros Hf Hn Hu M. destruct (@made_disposition prec emax P E B num a Hf Hn Hu M) as [Enum _].
  split; [exact Enum|]. intros L G k Hk.
  set (Bc := {| overflow_checks := true; target_width := @target_width B |}).
  assert (Mc : @made_axis prec emax P E Bc num a) by exact (made_any_target prec emax P E B Bc num a M).
  destruct (C09_noflow_float prec emax P E Bc num a x Hf Hn Hu Mc) as [_ [i [Ei Ci]]].
  assert (I : i < num + 2) by (destruct Ci as [[_ ?]|[j [_ ?]]]; lia). clear Ci.
  revert Ei. unfold uniform_index. cbn [n_sub n_div n_to_usize float_ops num_ord].
  change (@lt_ _ (@num_ord _ (@float_ops prec emax P E Bc)) x (u_low a)) with (@lt_ _ (@num_ord _ (@float_ops prec emax P E B)) x (u_low a)).
  change (@ge_ _ (@num_ord _ (@float_ops prec emax P E Bc)) x (u_high a)) with (@ge_ _ (@num_ord _ (@float_ops prec emax P E B)) x (u_high a)).
  cbn [num_ord float_ops] in L, G. rewrite L, G. cbn [obind].
  change (@float_to_usize prec emax P E Bc) with (@float_to_usize prec emax P E B). rewrite Hk.
  unfold uadd. destruct (N.ltb_spec (k + 1) (@usize_mod Bc)) as [H|H]; cbn [obind overflow_checks Bc].
  - intros [= <-]. lia.
  - discriminate.
Qed.

(** The index does not depend on the build, as long as the bins can be numbered. *)
Lemma uniform_index_any_target (prec emax : Z) (P : Prec_gt_0 prec) (E : Prec_lt_emax prec emax) (B1 B2 : Build) num a x :
  covered_format prec emax -> (Z.of_N num < 2 ^ (prec - 1))%Z -> num + 2 < @usize_mod B1 -> num + 2 < @usize_mod B2 ->
  @made_axis prec emax P E B1 num a ->
  @uniform_index B1 _ (@float_ops prec emax P E B1) a x = @uniform_index B2 _ (@float_ops prec emax P E B2) a x.
Proof.
  intros Hf Hn Hu1 Hu2 M1. pose proof (made_any_target prec emax P E B1 B2 num a M1) as M2.
  destruct (steps_small prec emax P E B1 num a x Hf Hn Hu1 M1) as [Enum K1].
  destruct (steps_small prec emax P E B2 num a x Hf Hn Hu2 M2) as [_ K2].
  unfold uniform_index. cbn [n_sub n_div n_to_usize float_ops num_ord] in *.
  destruct (lt_ x (u_low a)); [reflexivity|]. destruct (ge_ x (u_high a)); [rewrite !uadd_ok by lia; reflexivity|].
  specialize (K1 eq_refl eq_refl). specialize (K2 eq_refl eq_refl). cbn [obind].
  set (q := Bdiv mode_NE (Bminus mode_NE x (u_low a)) (u_step a)) in *.
  assert (Hq : @float_to_usize prec emax P E B1 q = @float_to_usize prec emax P E B2 q).
  { pose proof Hf as [Hp He]. destruct (is_finite q) eqn:Fq; [|rewrite !to_usize_not_finite by (assumption || lia); reflexivity].
    destruct (Bltb q (@float_usize_end prec emax P E B1)) eqn:L1, (Bltb q (@float_usize_end prec emax P E B2)) eqn:L2.
    - unfold float_to_usize. rewrite L1, L2. reflexivity.
    - destruct (to_usize_beyond prec emax P E B1 B2 q Hf Fq L1 L2) as [k [Hk Hb]]. specialize (K1 k Hk). lia.
    - destruct (to_usize_beyond prec emax P E B2 B1 q Hf Fq L2 L1) as [k [Hk Hb]]. specialize (K2 k Hk). lia.
    - unfold float_to_usize. rewrite L1, L2. reflexivity. }
  rewrite <- Hq. destruct (@float_to_usize prec emax P E B1 q) as [k|].
  - specialize (K1 k eq_refl). rewrite !uadd_ok by lia. reflexivity.
  - rewrite !uadd_ok by lia. reflexivity.
Qed.

(** ** C73 across pointer widths, for float axes

    [float_axis num a]: [a] was returned by [Uniform::new] or [Uniform::with_step_size]
    (see [made_axis]) with [num] bins, which the narrower target can number. *)
Definition float_axis {prec emax : Z} {P : Prec_gt_0 prec} {E : Prec_lt_emax prec emax} {Bd : Build} (a : Uniform (binary_float prec emax)) : Prop :=
  exists num, (Z.of_N num < 2 ^ (prec - 1))%Z /\ num + 2 < @usize_mod Bd /\ @made_axis prec emax P E Bd num a.

(** Every coordinate has the same index in every build, whatever its checks and
    pointer width. *)
Theorem C73_float_index (prec emax : Z) (P : Prec_gt_0 prec) (E : Prec_lt_emax prec emax) (B1 B2 : Build)
    (a : Uniform (binary_float prec emax)) (x : binary_float prec emax) :
  covered_format prec emax -> @float_axis prec emax P E B1 a -> u_num a + 2 < @usize_mod B2 ->
  let o1 := @float_ops prec emax P E B1 in let o2 := @float_ops prec emax P E B2 in
  @uniform_index B1 _ o1 a x = @uniform_index B2 _ o2 a x
  /\ @uniformnoflow_index B1 _ o1 (mkUniformNoFlow a) x = @uniformnoflow_index B2 _ o2 (mkUniformNoFlow a) x
  /\ @uniformcyclic_index B1 _ o1 (mkUniformCyclic (mkUniformNoFlow a)) x
     = @uniformcyclic_index B2 _ o2 (mkUniformCyclic (mkUniformNoFlow a)) x.
Proof.
  intros Hf [num [Hn [Hu1 M]]] Hu2 o1 o2.
  destruct (@made_disposition prec emax P E B1 num a Hf Hn Hu1 M) as [Enum _]. rewrite Enum in Hu2.
  pose proof (fun x => uniform_index_any_target prec emax P E B1 B2 num a x Hf Hn Hu1 Hu2 M) as Hix.
  assert (Hnf : forall x, @uniformnoflow_index B1 _ o1 (mkUniformNoFlow a) x = @uniformnoflow_index B2 _ o2 (mkUniformNoFlow a) x).
  { intros y. unfold uniformnoflow_index. cbn [unf_axis].
    destruct (C09_noflow_float prec emax P E B1 num a y Hf Hn Hu1 M) as [_ [i [Ei C]]].
    assert (I : i < num + 2) by (destruct C as [[_ ?]|[j [_ ?]]]; lia).
    pose proof (Hix y) as Hy. fold o1 in Hy, Ei. fold o2 in Hy. rewrite <- Hy, Ei. cbn [obind].
    destruct (i =? 0) eqn:E0; [reflexivity|]. unfold uniform_num_bins. rewrite Enum, !uadd_ok by lia. cbn [obind].
    destruct (i + 1 =? num + 2); [reflexivity|]. unfold usub. apply N.eqb_neq in E0.
    replace (1 <=? i) with true by (symmetry; apply N.leb_le; lia). reflexivity. }
  split; [apply Hix|]. split; [apply Hnf|].
  unfold uniformcyclic_index. cbn [uc_axis unf_axis].
  change (wrap_coordinate o2 (u_low a) (u_high a) x) with (wrap_coordinate o1 (u_low a) (u_high a) x).
  destruct (wrap_coordinate o1 (u_low a) (u_high a) x) as [y|]; [apply Hnf | reflexivity].
Qed.
Print Assumptions C73_float_index.

(** All methods: the axis types satisfy the premise of [C73_programs] between a
    checked build and any build with pointers at least as wide. *)
Theorem C73_float_axes_targets (prec emax : Z) (P : Prec_gt_0 prec) (E : Prec_lt_emax prec emax) (Bd Br : Build) :
  covered_format prec emax -> checked_then_any Bd Br ->
  let o1 := @float_ops prec emax P E Bd in let o2 := @float_ops prec emax P E Br in
  let ok := @float_axis prec emax P E Bd in
  axis_refines (@uniform_axis Bd _ o1) {| axis_eqb := uniform_eqb o1 |} (@uniform_axis Br _ o2) {| axis_eqb := uniform_eqb o2 |}
    (fun a b => a = b /\ ok a) eq eq
  /\ axis_refines (@uniformnoflow_axis Bd _ o1) {| axis_eqb := uniformnoflow_eqb o1 |} (@uniformnoflow_axis Br _ o2) {| axis_eqb := uniformnoflow_eqb o2 |}
    (fun a b => a = b /\ ok (unf_axis a)) eq eq
  /\ axis_refines (@uniformcyclic_axis Bd _ o1) {| axis_eqb := uniformcyclic_eqb o1 |} (@uniformcyclic_axis Br _ o2) {| axis_eqb := uniformcyclic_eqb o2 |}
    (fun a b => a = b /\ ok (unf_axis (uc_axis a))) eq eq.
Proof.
  intros Hf HB o1 o2 ok.
  (* [bin] and [num_bins] do not convert to [usize] *)
  set (o' := {| num_ord := @num_ord _ o2; n_zero := @n_zero _ o2; n_one := @n_one _ o2; n_add := @n_add _ o2; n_sub := @n_sub _ o2;
                n_mul := @n_mul _ o2; n_div := @n_div _ o2; n_rem := @n_rem _ o2; n_from_usize := @n_from_usize _ o2;
                n_to_usize := @n_to_usize _ o1 |}).
  assert (HO : ops_refine o1 o') by (split; try (intros; apply refines_refl); reflexivity).
  assert (Hle : @usize_mod Bd <= @usize_mod Br) by (destruct HB as [->|[_ H]]; [lia | exact H]).
  assert (Hix : forall a x, ok a -> 
     @uniform_index Bd _ o1 a x = @uniform_index Br _ o2 a x
     /\ @uniformnoflow_index Bd _ o1 (mkUniformNoFlow a) x = @uniformnoflow_index Br _ o2 (mkUniformNoFlow a) x
     /\ @uniformcyclic_index Bd _ o1 (mkUniformCyclic (mkUniformNoFlow a)) x
        = @uniformcyclic_index Br _ o2 (mkUniformCyclic (mkUniformNoFlow a)) x).
  { intros a x Ha. apply C73_float_index; [exact Hf | exact Ha|]. destruct Ha as [num [Hn [Hu M]]].
    destruct (@made_disposition prec emax P E Bd num a Hf Hn Hu M) as [Enum _]. lia. }
  destruct (C73_numeric_axes Bd Br StdAlgo.bsearch_branchless o1 o' HB HO) as [Ru [Rn [Rc _]]].
  split; [|split]; split; try (intros; reflexivity).
  - intros a ? x ? [<- Ha] <-. cbn [index uniform_axis]. rewrite (proj1 (Hix a x Ha)). apply refines_refl.
  - intros a ? [<- Ha]. exact (ar_num_bins _ _ _ _ _ _ _ Ru a a eq_refl).
  - intros a ? i [<- Ha]. exact (ar_bin _ _ _ _ _ _ _ Ru a a i eq_refl).
  - intros a ? b ? [<- _] [<- _]. reflexivity.
  - intros [a] ? x ? [<- Ha] <-. cbn [index uniformnoflow_axis]. rewrite (proj1 (proj2 (Hix a x Ha))). apply refines_refl.
  - intros a ? [<- Ha]. exact (ar_num_bins _ _ _ _ _ _ _ Rn a a eq_refl).
  - intros a ? i [<- Ha]. exact (ar_bin _ _ _ _ _ _ _ Rn a a i eq_refl).
  - intros a ? b ? [<- _] [<- _]. reflexivity.
  - intros [[a]] ? x ? [<- Ha] <-. cbn [index uniformcyclic_axis]. rewrite (proj2 (proj2 (Hix a x Ha))). apply refines_refl.
  - intros a ? [<- Ha]. exact (ar_num_bins _ _ _ _ _ _ _ Rc a a eq_refl).
  - intros a ? i [<- Ha]. exact (ar_bin _ _ _ _ _ _ _ Rc a a i eq_refl).
  - intros a ? b ? [<- _] [<- _]. reflexivity.
Qed.
Print Assumptions C73_float_axes_targets.

(** The constructors return the same axis or error in every build. *)
Theorem C73_float_constructors (prec emax : Z) (P : Prec_gt_0 prec) (E : Prec_lt_emax prec emax) (B1 B2 : Build) num
    (low high step : binary_float prec emax) :
  let o1 := @float_ops prec emax P E B1 in let o2 := @float_ops prec emax P E B2 in
  uniform_new o1 num low high = uniform_new o2 num low high
  /\ uniform_with_step_size o1 num low step = uniform_with_step_size o2 num low step
  /\ uniformnoflow_new o1 num low high = uniformnoflow_new o2 num low high
  /\ uniformnoflow_with_step_size o1 num low step = uniformnoflow_with_step_size o2 num low step
  /\ uniformcyclic_new o1 num low high = uniformcyclic_new o2 num low high
  /\ uniformcyclic_with_step_size o1 num low step = uniformcyclic_with_step_size o2 num low step.
Proof. intros. split; [|split; [|split; [|split; [|split]]]]; reflexivity. Qed.
Print Assumptions C73_float_constructors.

(** ** Integers wider than the narrower [usize], and everything that is not an index

    A primitive numeric type in the two builds. *)
Inductive primitive_pair (Bd Br : Build) : forall T : Type, NumOps T -> NumOps T -> Prop :=
| pair_int (t : int_type) : primitive_pair Bd Br Z (@int_ops Bd t) (@int_ops Br t)
| pair_float (prec emax : Z) (P : Prec_gt_0 prec) (E : Prec_lt_emax prec emax) :
    primitive_pair Bd Br (binary_float prec emax) (@float_ops prec emax P E Bd) (@float_ops prec emax P E Br).

(** [o] with another conversion to [usize]. *)
Definition converting {T : Type} (o : NumOps T) (f : T -> option N) : NumOps T :=
  {| num_ord := @num_ord _ o; n_zero := @n_zero _ o; n_one := @n_one _ o; n_add := @n_add _ o; n_sub := @n_sub _ o;
     n_mul := @n_mul _ o; n_div := @n_div _ o; n_rem := @n_rem _ o; n_from_usize := @n_from_usize _ o; n_to_usize := f |}.

Lemma converting_refines (Bd Br : Build) T (o1 o2 : NumOps T) : checked_then_any Bd Br -> primitive_pair Bd Br T o1 o2 ->
  ops_refine o1 (converting o2 (@n_to_usize _ o1)).
Proof.
  intros HB [t|prec emax P E].
  - destruct HB as [<-|[Hc Hm]]; [split; intros; try reflexivity; apply refines_refl|].
    assert (Hres : forall z, refines eq (@int_result Bd t z) (@int_result Br t z)).
    { intros z v. unfold int_result. rewrite Hc. destruct (in_range t z); [eauto | discriminate]. }
    split; cbn [converting num_ord n_zero n_one n_add n_sub n_mul n_div n_rem n_from_usize n_to_usize int_ops]; intros; try reflexivity;
      try apply Hres; apply refines_refl.
  - split; intros; try reflexivity; apply refines_refl.
Qed.

(** Bin values of any primitive type, whatever the pointer widths. *)
Theorem C73_values_targets (Bd Br : Build) T C (o1 o2 : NumOps T) (c1 c2 : NumOps C) :
  checked_then_any Bd Br -> primitive_pair Bd Br T o1 o2 -> primitive_pair Bd Br C c1 c2 ->
  (forall v, refines eq (@fill_v T (num_fill o1) v) (@fill_v T (num_fill o2) v))
  /\ (forall v d, refines eq (@fill_with_v T T (num_fill_with o1) v d) (@fill_with_v T T (num_fill_with o2) v d))
  /\ (forall s, refines eq (sum_fill o1 s) (sum_fill o2 s)) /\ (forall s w, refines eq (sum_fill_with o1 s w) (sum_fill_with o2 s w))
  /\ (forall s, refines eq (weightedsum_fill o1 s) (weightedsum_fill o2 s))
  /\ (forall s w, refines eq (weightedsum_fill_with o1 s w) (weightedsum_fill_with o2 s w))
  /\ (forall m d, refines eq (mean_fill_with o1 c1 m d) (mean_fill_with o2 c2 m d))
  /\ (forall m d w, refines eq (weightedmean_fill o1 c1 m d w) (weightedmean_fill o2 c2 m d w)).
Proof.
  intros HB HO HC. apply (converting_refines Bd Br _ _ _ HB) in HO. apply (converting_refines Bd Br _ _ _ HB) in HC.
  exact (C73_values _ _ _ _ HO HC).
Qed.
Print Assumptions C73_values_targets.

(** The constructors, and the axes that never convert a coordinate to [usize]. *)
Theorem C73_constructors_targets (Bd Br : Build) (sort : sorter) T (o1 o2 : NumOps T) :
  checked_then_any Bd Br -> primitive_pair Bd Br T o1 o2 ->
  (forall num low high, refines eq (uniform_new o1 num low high) (uniform_new o2 num low high)
     /\ refines eq (uniformnoflow_new o1 num low high) (uniformnoflow_new o2 num low high)
     /\ refines eq (uniformcyclic_new o1 num low high) (uniformcyclic_new o2 num low high))
  /\ (forall num low step, refines eq (uniform_with_step_size o1 num low step) (uniform_with_step_size o2 num low step)
     /\ refines eq (uniformnoflow_with_step_size o1 num low step) (uniformnoflow_with_step_size o2 num low step)
     /\ refines eq (uniformcyclic_with_step_size o1 num low step) (uniformcyclic_with_step_size o2 num low step))
  /\ (forall edges, refines eq (@variable_new sort T (@num_ord T o1) edges) (@variable_new sort T (@num_ord T o2) edges)
     /\ refines eq (@variablenoflow_new sort T (@num_ord T o1) edges) (@variablenoflow_new sort T (@num_ord T o2) edges)
     /\ refines eq (variablecyclic_new sort o1 edges) (variablecyclic_new sort o2 edges)).
Proof. intros HB HO. apply (converting_refines Bd Br _ _ _ HB) in HO. exact (C73_constructors sort _ _ HO). Qed.
Print Assumptions C73_constructors_targets.

Theorem C73_variable_axes_targets (Bd Br : Build) (search : searcher) T (o1 o2 : NumOps T) :
  checked_then_any Bd Br -> primitive_pair Bd Br T o1 o2 ->
  let ord1 := @num_ord T o1 in let ord2 := @num_ord T o2 in
  same_axes_refine (@variable_axis Bd search T ord1) {| axis_eqb := @variable_eqb T ord1 |} (@variable_axis Br search T ord2) {| axis_eqb := @variable_eqb T ord2 |}
  /\ same_axes_refine (@variablenoflow_axis Bd search T ord1) {| axis_eqb := @variablenoflow_eqb T ord1 |} (@variablenoflow_axis Br search T ord2) {| axis_eqb := @variablenoflow_eqb T ord2 |}
  /\ same_axes_refine (@variablecyclic_axis Bd search T o1) {| axis_eqb := variablecyclic_eqb o1 |} (@variablecyclic_axis Br search T o2) {| axis_eqb := variablecyclic_eqb o2 |}.
Proof.
  intros HB HO. apply (converting_refines Bd Br _ _ _ HB) in HO.
  destruct (C73_numeric_axes Bd Br search _ _ HB HO) as [_ [_ [_ [R1 [R2 R3]]]]]. split; [exact R1|]. split; [exact R2 | exact R3].
Qed.
Print Assumptions C73_variable_axes_targets.

(** Uniform axes over integers of any width: it is enough that the steps between
    [low] and [high] can be counted in the narrower [usize] (no steps, if the width
    is zero: then [index] panics in range). *)
Definition int_axis (Bd : Build) (a : Uniform Z) : Prop :=
  (0 <= u_step a)%Z /\ ((u_high a - u_low a) / u_step a < Z.of_N (@usize_mod Bd))%Z.

Theorem C73_integer_axes_targets (Bd Br : Build) (t : int_type) : checked_then_any Bd Br ->
  let o1 := @int_ops Bd t in let o2 := @int_ops Br t in let ok := int_axis Bd in
  axis_refines (@uniform_axis Bd _ o1) {| axis_eqb := uniform_eqb o1 |} (@uniform_axis Br _ o2) {| axis_eqb := uniform_eqb o2 |}
    (fun a b => a = b /\ ok a) eq eq
  /\ axis_refines (@uniformnoflow_axis Bd _ o1) {| axis_eqb := uniformnoflow_eqb o1 |} (@uniformnoflow_axis Br _ o2) {| axis_eqb := uniformnoflow_eqb o2 |}
    (fun a b => a = b /\ ok (unf_axis a)) eq eq
  /\ axis_refines (@uniformcyclic_axis Bd _ o1) {| axis_eqb := uniformcyclic_eqb o1 |} (@uniformcyclic_axis Br _ o2) {| axis_eqb := uniformcyclic_eqb o2 |}
    (fun a b => a = b /\ ok (unf_axis (uc_axis a))) eq eq.
Proof.
  intros HB o1 o2 ok. pose proof (converting_refines Bd Br _ _ _ HB (pair_int Bd Br t)) as HO. fold o1 o2 in HO.
  set (o' := converting o2 (@n_to_usize _ o1)) in HO.
  destruct (C73_numeric_axes Bd Br StdAlgo.bsearch_branchless o1 o' HB HO) as [Ru [Rn [Rc _]]].
  assert (Hle : @usize_mod Bd <= @usize_mod Br) by (destruct HB as [->|[_ H]]; [lia | exact H]).
  assert (Hix : forall a x, ok a -> refines eq (@uniform_index Bd _ o1 a x) (@uniform_index Br _ o2 a x)).
  { intros a x [Hs Hq]. destruct HB as [<-|[Hc _]]; [apply refines_refl|].
    unfold uniform_index. cbn [num_ord n_sub n_div n_to_usize o1 o2 int_ops].
    destruct (lt_ x (u_low a)) eqn:L; [apply refines_refl|]. destruct (ge_ x (u_high a)) eqn:G.
    { apply (refines_bind eq); [apply refines_uadd; right; split; assumption|]. intros ? ? _ _ <-. apply refines_refl. }
    assert (Hx : (u_low a <= x < u_high a)%Z).
    { unfold lt_, ge_, partial_cmp in L, G. destruct (Z.compare_spec x (u_low a)), (Z.compare_spec x (u_high a)); try discriminate; lia. }
    apply (refines_bind eq); [apply (or_sub _ _ HO)|]. intros d ? Hd _ <-.
    apply (refines_bind eq); [apply (or_div _ _ HO)|]. intros q ? Hdiv _ <-.
    apply (refines_bind eq); [|intros ? ? _ _ <-; apply refines_refl].
    assert (Eq : (q < Z.of_N (@usize_mod Bd))%Z).
    { unfold int_result in Hd. rewrite Hc in Hd. destruct (in_range t (x - u_low a)); [|discriminate]. injection Hd as <-.
      unfold int_div in Hdiv. destruct (Z.eqb_spec (u_step a) 0); [discriminate|].
      assert (q = Z.quot (x - u_low a) (u_step a)) by (destruct (in_range t _); congruence). subst q.
      rewrite Z.quot_div_nonneg by lia. apply Z.le_lt_trans with ((u_high a - u_low a) / u_step a)%Z; [|exact Hq]. apply Z.div_le_mono; lia. }
    replace (q <? Z.of_N (@usize_mod Bd))%Z with true by (symmetry; apply Z.ltb_lt; exact Eq).
    replace (q <? Z.of_N (@usize_mod Br))%Z with true by (symmetry; apply Z.ltb_lt; lia).
    apply refines_uadd. right. split; assumption. }
  assert (Hnf : forall a x, ok a -> refines eq (@uniformnoflow_index Bd _ o1 (mkUniformNoFlow a) x) (@uniformnoflow_index Br _ o2 (mkUniformNoFlow a) x)).
  { intros a x Ha. unfold uniformnoflow_index. cbn [unf_axis]. apply (refines_bind eq); [apply Hix; exact Ha|]. intros [i|] ? _ _ <-; [|apply refines_refl].
    destruct (i =? 0); [apply refines_refl|]. apply (refines_bind eq); [apply refines_uadd; exact HB|]. intros ? ? _ _ <-.
    apply (refines_bind eq); [apply refines_uadd; exact HB|]. intros n ? _ _ <-. destruct (_ =? n); [apply refines_refl|].
    apply (refines_bind eq); [apply refines_usub; exact HB|]. intros ? ? _ _ <-. apply refines_refl. }
  split; [|split]; split; try (intros; reflexivity).
  - intros a ? x ? [<- Ha] <-. exact (Hix a x Ha).
  - intros a ? [<- Ha]. exact (ar_num_bins _ _ _ _ _ _ _ Ru a a eq_refl).
  - intros a ? i [<- Ha]. exact (ar_bin _ _ _ _ _ _ _ Ru a a i eq_refl).
  - intros a ? b ? [<- _] [<- _]. reflexivity.
  - intros [a] ? x ? [<- Ha] <-. exact (Hnf a x Ha).
  - intros a ? [<- Ha]. exact (ar_num_bins _ _ _ _ _ _ _ Rn a a eq_refl).
  - intros a ? i [<- Ha]. exact (ar_bin _ _ _ _ _ _ _ Rn a a i eq_refl).
  - intros a ? b ? [<- _] [<- _]. reflexivity.
  - intros [[a]] ? x ? [<- Ha] <-. cbn [index uniformcyclic_axis]. unfold uniformcyclic_index. cbn [uc_axis unf_axis].
    apply (refines_bind eq); [exact (wrap_coordinate_refines o1 o' HO _ _ _)|]. intros y ? _ _ <-. exact (Hnf a y Ha).
  - intros a ? [<- Ha]. exact (ar_num_bins _ _ _ _ _ _ _ Rc a a eq_refl).
  - intros a ? i [<- Ha]. exact (ar_bin _ _ _ _ _ _ _ Rc a a i eq_refl).
  - intros a ? b ? [<- _] [<- _]. reflexivity.
Qed.
Print Assumptions C73_integer_axes_targets.

(** Every axis the constructors return in the checked build is one of these, if twice
    its number of bins can be counted; so is [Uniform<i64>] with 1000 bins of width
    10^12 on a 16-bit target. *)
Theorem C73_int_axis_made (Bd : Build) (t : int_type) num a :
  @overflow_checks Bd = true -> 2 * num <= @usize_mod Bd ->
  (exists low step, uniform_with_step_size (@int_ops Bd t) num low step = Val (Ok a))
  \/ (exists low high, uniform_new (@int_ops Bd t) num low high = Val (Ok a)) ->
  int_axis Bd a.
Proof.
  intros Hc Hn [[low [step H]]|[low [high H]]]; revert H.
  - unfold uniform_with_step_size. cbn [n_from_usize n_mul n_add n_zero num_ord int_ops].
    destruct (in_range t (Z.of_N num)); [|discriminate]. unfold int_result. rewrite Hc.
    destruct (in_range t (Z.of_N num * step)); [|discriminate]. cbn [obind].
    destruct (in_range t (Z.of_N num * step + low)); [|discriminate]. cbn [obind].
    destruct (N.eqb_spec num 0) as [->|H0]; [discriminate|].
    destruct (le_ step 0%Z) eqn:Hs; [discriminate|].
    assert (0 < step)%Z by (unfold le_, partial_cmp in Hs; destruct (Z.compare_spec step 0); try discriminate; lia).
    destruct (gt_ low _) eqn:Hg.
    { unfold gt_, partial_cmp in Hg. destruct (Z.compare_spec low (Z.of_N num * step + low)); try discriminate. nia. }
    intros [= <-]. split; cbn [u_step u_high u_low]; [lia|].
    replace (Z.of_N num * step + low - low)%Z with (Z.of_N num * step)%Z by ring. rewrite Z.div_mul by lia. lia.
  - unfold uniform_new. cbn [n_from_usize n_sub n_div n_zero num_ord int_ops].
    destruct (N.eqb_spec num 0) as [->|H0]; [discriminate|]. destruct (eq_ low high) eqn:He; [discriminate|].
    assert (Hmade : forall lo hi, (lo < hi)%Z ->
      (let! d := @int_result Bd t (hi - lo) in
       match (if in_range t (Z.of_N num) then Some (Z.of_N num) else None) with
       | Some n => let! step := int_div t d n in Val (Ok (mkUniform num lo hi step))
       | None => Val (Err InvalidNumberOfBins)
       end) = Val (Ok a) -> int_axis Bd a).
    { intros lo hi Hlt. unfold int_result. rewrite Hc. destruct (in_range t (hi - lo)); [|discriminate]. cbn [obind].
      destruct (in_range t (Z.of_N num)); [|discriminate]. unfold int_div. destruct (Z.eqb_spec (Z.of_N num) 0) as [?|Hnz]; [lia|].
      destruct (in_range t (Z.quot (hi - lo) (Z.of_N num))); [|discriminate]. cbn [obind]. intros [= <-].
      unfold int_axis. cbn [u_step u_high u_low]. rewrite Z.quot_div_nonneg by lia.
      set (n := Z.of_N num) in *. set (d := (hi - lo)%Z). assert (0 < d)%Z by lia.
      pose proof (Z.div_mod d n ltac:(lia)) as Hdm. pose proof (Z.mod_pos_bound d n ltac:(lia)) as Hr.
      pose proof (Z.div_pos d n ltac:(lia) ltac:(lia)) as Hs. split; [exact Hs|].
      destruct (Z.eq_dec (d / n) 0) as [->|Hne]; [rewrite Zdiv_0_r; lia|].
      apply Z.lt_le_trans with (2 * n)%Z; [|lia]. apply Z.div_lt_upper_bound; [lia|]. nia. }
    destruct (gt_ low high) eqn:Hg; unfold gt_, eq_, partial_cmp in Hg, He; destruct (Z.compare_spec low high); try discriminate; apply Hmade; lia.
Qed.
Print Assumptions C73_int_axis_made.

(** Non-vacuity: ten bins on [0, 1), from a checked 16-bit build to an unchecked
    64-bit one. *)
Example C73_float_nonvacuous :
  let Bd := {| overflow_checks := true; target_width := P16 |} in
  let Br := {| overflow_checks := false; target_width := P64 |} in
  covered_format 53 1024 /\ checked_then_any Bd Br /\ (exists a, @float_axis 53 1024 prec64 emax64 Bd a)
  /\ exists a, uniform_with_step_size (@int_ops Bd (signed 64)) 1000 0%Z 1000000000000%Z = Val (Ok a) /\ int_axis Bd a.
Proof.
  intros Bd Br. destruct float_params_nonvacuous as [H1 [H2 [_ [_ [_ [_ [_ [_ H]]]]]]]].
  split; [exact H1|]. split; [right; split; [reflexivity | vm_compute; discriminate]|].
  split.
  - destruct (H Bd) as [a Ha]. exists a, 10. split; [lia|]. split; [vm_compute; reflexivity | exact Ha].
  - exists (mkUniform 1000 0 1000000000000000 1000000000000)%Z. split; [vm_compute; reflexivity|]. split; [vm_compute; discriminate | vm_compute; reflexivity].
Qed.
