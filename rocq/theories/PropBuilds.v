(** * PropBuilds: what a build with overflow checks computes, every other build computes (C73). *)
From stdpp Require Import gmap.
From Coq Require Import ZifyN ZifyNat ZifyBool.
From Flocq Require Import Core IEEE754.BinarySingleNaN.
From Verif Require Import Base BaseFacts Num Float Axis StdAlgo Uniform VarAxis Category Axes Value VecHist HashHist HistSpec Program SimSpec SimFacts.
Open Scope N_scope.

(** ** Arithmetic *)
Section Usize.
Context (Bd Br : Build) (HB : checked_then_any Bd Br).

Lemma refines_uadd a b : refines eq (@uadd Bd a b) (@uadd Br a b).
Proof using HB.
  destruct HB as [<-|[Hc Hw]]; [apply refines_refl|]. intros v. unfold uadd. rewrite Hc.
  destruct (N.ltb_spec (a + b) (@usize_mod Bd)); [|discriminate]. intros [= <-].
  destruct (N.ltb_spec (a + b) (@usize_mod Br)); [|lia]. eauto.
Qed.
Lemma refines_umul a b : refines eq (@umul Bd a b) (@umul Br a b).
Proof using HB.
  destruct HB as [<-|[Hc Hw]]; [apply refines_refl|]. intros v. unfold umul. rewrite Hc.
  destruct (N.ltb_spec (a * b) (@usize_mod Bd)); [|discriminate]. intros [= <-].
  destruct (N.ltb_spec (a * b) (@usize_mod Br)); [|lia]. eauto.
Qed.
Lemma refines_usub a b : refines eq (@usub Bd a b) (@usub Br a b).
Proof using HB.
  destruct HB as [<-|[Hc Hw]]; [apply refines_refl|]. intros v. unfold usub. rewrite Hc. destruct (b <=? a); [eauto | discriminate].
Qed.
End Usize.

Ltac step := match goal with
  | |- refines _ (obind _ _) (obind _ _) => apply (refines_bind eq); [| intros ? ? _ _ <-]
  | |- refines eq (Val _) (Val _) => apply refines_refl
  end.

Section Numeric.
Context (Bd Br : Build) (HB : checked_then_any Bd Br) {T : Type} (o1 o2 : NumOps T) (HO : ops_refine o1 o2)
        (sort : sorter) (search : searcher).

Notation ua := (refines_uadd Bd Br HB). Notation us := (refines_usub Bd Br HB). Notation um := (refines_umul Bd Br HB).
Ltac cmps := repeat match goal with
  | |- context [@lt_ T (@num_ord T o1)] => rewrite (or_ord _ _ HO)
  | |- context [@le_ T (@num_ord T o1)] => rewrite (or_ord _ _ HO)
  | |- context [@gt_ T (@num_ord T o1)] => rewrite (or_ord _ _ HO)
  | |- context [@ge_ T (@num_ord T o1)] => rewrite (or_ord _ _ HO)
  | |- context [@eq_ T (@num_ord T o1)] => rewrite (or_ord _ _ HO)
  end.
Ltac ops := first [apply ua | apply us | apply um | apply (or_add _ _ HO) | apply (or_sub _ _ HO) | apply (or_mul _ _ HO) | apply (or_div _ _ HO) | apply (or_rem _ _ HO)].
Ltac go := cmps; repeat match goal with
  | |- refines _ (obind _ _) (obind _ _) => apply (refines_bind eq); [first [ops | apply refines_refl | idtac] | intros ? ? _ _ <-]
  | |- refines _ (if ?b then _ else _) (if ?b then _ else _) => destruct b
  | |- refines _ (match ?b with _ => _ end) (match ?b with _ => _ end) => destruct b
  | |- refines eq (Val _) (Val _) => apply refines_refl
  | |- refines _ Panic _ => apply refines_panic
  | _ => ops
  end.

Lemma uniform_new_refines num low high : refines eq (uniform_new o1 num low high) (uniform_new o2 num low high).
Proof using HO. unfold uniform_new. rewrite <- (or_from_usize _ _ HO). go. Qed.
Lemma uniform_with_step_size_refines num low st : refines eq (uniform_with_step_size o1 num low st) (uniform_with_step_size o2 num low st).
Proof using HO. unfold uniform_with_step_size. rewrite <- (or_from_usize _ _ HO), (or_zero _ _ HO). go. Qed.
Lemma uniform_index_refines a x : refines eq (@uniform_index Bd T o1 a x) (@uniform_index Br T o2 a x).
Proof using HO HB.
  unfold uniform_index. cmps. destruct (lt_ x _); [apply refines_refl|]. destruct (ge_ x _); [go|].
  apply (refines_bind eq); [apply (or_sub _ _ HO)|]. intros d ? _ _ <-.
  apply (refines_bind eq); [apply (or_div _ _ HO)|]. intros q ? Hq _ <-. rewrite <- (or_to_usize _ _ HO _ _ _ Hq). go.
Qed.
Lemma uniform_edge_refines a i : refines eq (uniform_edge o1 a i) (uniform_edge o2 a i).
Proof using HO. unfold uniform_edge. rewrite <- !(or_from_usize _ _ HO). go. Qed.
Lemma uniform_num_bins_refines (a : Uniform T) : refines eq (@uniform_num_bins Bd T a) (@uniform_num_bins Br T a).
Proof using HB. apply ua. Qed.
Lemma uniform_bin_refines a i : refines eq (@uniform_bin Bd T o1 a i) (@uniform_bin Br T o2 a i).
Proof using HO HB.
  unfold uniform_bin. go; try apply uniform_edge_refines; go; try apply uniform_edge_refines; go.
Qed.
Lemma uniformnoflow_index_refines a x : refines eq (@uniformnoflow_index Bd T o1 a x) (@uniformnoflow_index Br T o2 a x).
Proof using HO HB.
  unfold uniformnoflow_index. apply (refines_bind eq); [apply uniform_index_refines|]. intros ? ? _ _ <-. go.
Qed.
Lemma uniformnoflow_num_bins_refines (a : UniformNoFlow T) : refines eq (@uniformnoflow_num_bins Bd T a) (@uniformnoflow_num_bins Br T a).
Proof using HB. unfold uniformnoflow_num_bins, uniform_num_bins. go. Qed.
Lemma uniformnoflow_bin_refines a i : refines eq (@uniformnoflow_bin Bd T o1 a i) (@uniformnoflow_bin Br T o2 a i).
Proof using HO HB.
  unfold uniformnoflow_bin. apply (refines_bind eq); [apply ua|]. intros ? ? _ _ <-.
  apply (refines_bind eq); [apply uniform_bin_refines|]. intros ? ? _ _ <-. go.
Qed.
Lemma wrap_coordinate_refines lo hi x : refines eq (wrap_coordinate o1 lo hi x) (wrap_coordinate o2 lo hi x).
Proof using HO. unfold wrap_coordinate. rewrite (or_zero _ _ HO). go. Qed.
Lemma uniformcyclic_index_refines a x : refines eq (@uniformcyclic_index Bd T o1 a x) (@uniformcyclic_index Br T o2 a x).
Proof using HO HB.
  unfold uniformcyclic_index. apply (refines_bind eq); [apply wrap_coordinate_refines|]. intros ? ? _ _ <-. apply uniformnoflow_index_refines.
Qed.
End Numeric.

Section Ordered.
Context (Bd Br : Build) (HB : checked_then_any Bd Br) {T : Type} (ord : PartialOrdOps T) (search : searcher).
Notation ua := (refines_uadd Bd Br HB). Notation us := (refines_usub Bd Br HB).
Ltac go := repeat match goal with
  | |- refines _ (obind _ _) (obind _ _) => apply (refines_bind eq); [first [apply ua | apply us | apply refines_refl | idtac] | intros ? ? _ _ <-]
  | |- refines _ (if ?b then _ else _) (if ?b then _ else _) => destruct b
  | |- refines _ (match ?b with _ => _ end) (match ?b with _ => _ end) => destruct b
  | |- refines eq (Val _) (Val _) => apply refines_refl
  | |- refines _ Panic _ => apply refines_panic
  | _ => first [apply ua | apply us]
  end.

Lemma variable_index_refines (a : Variable_ T) x : refines eq (@variable_index Bd search T ord a x) (@variable_index Br search T ord a x).
Proof using HB. unfold variable_index. go. Qed.
Lemma variable_num_bins_refines (a : Variable_ T) : refines eq (@variable_num_bins Bd T a) (@variable_num_bins Br T a).
Proof using HB. unfold variable_num_bins. go. Qed.
Lemma variable_bin_refines (a : Variable_ T) i : refines eq (@variable_bin Bd T a i) (@variable_bin Br T a i).
Proof using HB. unfold variable_bin. go. Qed.
Lemma variablenoflow_index_refines (a : VariableNoFlow T) x : refines eq (@variablenoflow_index Bd search T ord a x) (@variablenoflow_index Br search T ord a x).
Proof using HB.
  unfold variablenoflow_index. apply (refines_bind eq); [apply variable_index_refines|]. intros ? ? _ _ <-.
  unfold variable_num_bins. go.
Qed.
Lemma variablenoflow_num_bins_refines (a : VariableNoFlow T) : refines eq (@variablenoflow_num_bins Bd T a) (@variablenoflow_num_bins Br T a).
Proof using HB. unfold variablenoflow_num_bins, variable_num_bins. go. Qed.
Lemma variablenoflow_bin_refines (a : VariableNoFlow T) i : refines eq (@variablenoflow_bin Bd T a i) (@variablenoflow_bin Br T a i).
Proof using HB.
  unfold variablenoflow_bin. apply (refines_bind eq); [apply ua|]. intros ? ? _ _ <-.
  apply (refines_bind eq); [apply variable_bin_refines|]. intros ? ? _ _ <-. go.
Qed.
End Ordered.

Lemma refines_option_eq {X} (x y : outcome (option X)) : refines eq x y -> refines (option_rel eq) x y.
Proof. apply refines_mono. intros o ? <-. apply option_rel_refl. Qed.

(** ** The theorem *)

(** Axes of either compilation that are literally the same value. *)
Notation same_axes_refine AX1 AE1 AX2 AE2 := (axis_refines AX1 AE1 AX2 AE2 eq eq eq).

(** C73. Take a client program compiled with overflow checks (the debug profile)
    and the same program compiled in any other way for a target whose pointers
    are at least as wide. If the first runs to its end without panicking, the
    second runs to its end, gives the same answers all along, returns the same
    result and leaves the same axes and bin values in every variable. *)
Theorem C73_programs {A1 A2 V D W R : Type} {AX1 : Axis A1} {AE1 : AxisEq A1} {AX2 : Axis A2} {AE2 : AxisEq A2}
    {FV1 : Fill V} {FD1 : FillWith V D} {FW1 : FillWithWeighted V D W} {FV2 : Fill V} {FD2 : FillWith V D} {FW2 : FillWithWeighted V D W}
    {DV : Default V} RA RC RI (p1 : program (AX := AX1) V D W R) (p2 : program (AX := AX2) V D W R) :
  axis_refines AX1 AE1 AX2 AE2 RA RC RI -> fills_refine FV1 FD1 FW1 FV2 FD2 FW2 -> same_program AX1 AX2 RA RC RI p1 p2 ->
  (forall r st1, dense_run (FV := FV1) (FD := FD1) (FW := FW1) p1 (fun _ => None) = Val (r, st1) ->
     exists st2, dense_run (FV := FV2) (FD := FD2) (FW := FW2) p2 (fun _ => None) = Val (r, st2) /\ same_store (same_dense RA) st1 st2)
  /\ (forall r st1, sparse_run (FV := FV1) (FD := FD1) (FW := FW1) p1 (fun _ => None) (Val (r, st1)) ->
     exists st2, sparse_run (FV := FV2) (FD := FD2) (FW := FW2) p2 (fun _ => None) (Val (r, st2)) /\ same_store (same_sparse RA) st1 st2).
Proof.
  intros HA HF Hp. apply axis_methods_refine in HA. split; intros r st1 Hrun.
  - destruct (refines_dense_run RA RC RI HA HF p1 p2 (fun _ => None) (fun _ => None) Hp ltac:(intros ?; exact I) _ Hrun) as [[r2 st2] [Hr2 [Heq Hst]]].
    cbn [fst snd] in Heq, Hst. subst r2. eauto.
  - exact (refines_sparse_run RA RC RI HA HF p1 p2 (fun _ => None) (fun _ => None) r st1 Hp ltac:(intros ?; exact I) Hrun).
Qed.
Print Assumptions C73_programs.

(** The axis types over a numeric type whose arithmetic refines. *)
Theorem C73_numeric_axes (Bd Br : Build) (search : searcher) {T : Type} (o1 o2 : NumOps T) :
  checked_then_any Bd Br -> ops_refine o1 o2 ->
  let ord1 := @num_ord T o1 in let ord2 := @num_ord T o2 in
  same_axes_refine (@uniform_axis Bd T o1) {| axis_eqb := uniform_eqb o1 |} (@uniform_axis Br T o2) {| axis_eqb := uniform_eqb o2 |}
  /\ same_axes_refine (@uniformnoflow_axis Bd T o1) {| axis_eqb := uniformnoflow_eqb o1 |} (@uniformnoflow_axis Br T o2) {| axis_eqb := uniformnoflow_eqb o2 |}
  /\ same_axes_refine (@uniformcyclic_axis Bd T o1) {| axis_eqb := uniformcyclic_eqb o1 |} (@uniformcyclic_axis Br T o2) {| axis_eqb := uniformcyclic_eqb o2 |}
  /\ same_axes_refine (@variable_axis Bd search T ord1) {| axis_eqb := @variable_eqb T ord1 |} (@variable_axis Br search T ord2) {| axis_eqb := @variable_eqb T ord2 |}
  /\ same_axes_refine (@variablenoflow_axis Bd search T ord1) {| axis_eqb := @variablenoflow_eqb T ord1 |} (@variablenoflow_axis Br search T ord2) {| axis_eqb := @variablenoflow_eqb T ord2 |}
  /\ same_axes_refine (@variablecyclic_axis Bd search T o1) {| axis_eqb := variablecyclic_eqb o1 |} (@variablecyclic_axis Br search T o2) {| axis_eqb := variablecyclic_eqb o2 |}.
Proof.
  intros HB HO ord1 ord2. pose proof (or_ord _ _ HO) as Hord.
  assert (Hu : forall a b, uniform_eqb o1 a b = uniform_eqb o2 a b) by (intros; unfold uniform_eqb; rewrite Hord; reflexivity).
  assert (Hv : forall a b, @variable_eqb T ord1 a b = @variable_eqb T ord2 a b) by (intros; unfold ord1, ord2; rewrite Hord; reflexivity).
  split; [|split; [|split; [|split; [|split]]]]; split; try (intros; reflexivity).
  - intros a ? x ? <- <-. now apply uniform_index_refines.
  - intros a ? <-. now apply uniform_num_bins_refines.
  - intros a ? i <-. apply refines_option_eq. now apply uniform_bin_refines.
  - intros a ? b ? <- <-. apply Hu.
  - intros a ? x ? <- <-. now apply uniformnoflow_index_refines.
  - intros a ? <-. now apply uniformnoflow_num_bins_refines.
  - intros a ? i <-. apply refines_option_eq. now apply uniformnoflow_bin_refines.
  - intros a ? b ? <- <-. apply Hu.
  - intros a ? x ? <- <-. now apply uniformcyclic_index_refines.
  - intros a ? <-. now apply uniformnoflow_num_bins_refines.
  - intros a ? i <-. apply refines_option_eq. now apply uniformnoflow_bin_refines.
  - intros a ? b ? <- <-. apply Hu.
  - intros a ? x ? <- <-. unfold ord1. rewrite Hord. now apply variable_index_refines.
  - intros a ? <-. now apply variable_num_bins_refines.
  - intros a ? i <-. apply refines_option_eq. now apply variable_bin_refines.
  - intros a ? b ? <- <-. apply Hv.
  - intros a ? x ? <- <-. unfold ord1. rewrite Hord. now apply variablenoflow_index_refines.
  - intros a ? <-. now apply variablenoflow_num_bins_refines.
  - intros a ? i <-. apply refines_option_eq. now apply variablenoflow_bin_refines.
  - intros a ? b ? <- <-. apply Hv.
  - intros a ? x ? <- <-. cbn [index variablecyclic_axis]. unfold variablecyclic_index.
    apply (refines_bind eq); [apply refines_refl|]. intros ? ? _ _ <-.
    apply (refines_bind eq); [apply refines_refl|]. intros ? ? _ _ <-.
    apply (refines_bind eq); [now apply wrap_coordinate_refines|]. intros ? ? _ _ <-. rewrite Hord. now apply variablenoflow_index_refines.
  - intros a ? <-. now apply variablenoflow_num_bins_refines.
  - intros a ? i <-. apply refines_option_eq. now apply variablenoflow_bin_refines.
  - intros a ? b ? <- <-. apply Hv.
Qed.
Print Assumptions C73_numeric_axes.

(** The constructors, over the same. *)
Theorem C73_constructors (sort : sorter) {T : Type} (o1 o2 : NumOps T) : ops_refine o1 o2 ->
  (forall num low high, refines eq (uniform_new o1 num low high) (uniform_new o2 num low high)
     /\ refines eq (uniformnoflow_new o1 num low high) (uniformnoflow_new o2 num low high)
     /\ refines eq (uniformcyclic_new o1 num low high) (uniformcyclic_new o2 num low high))
  /\ (forall num low step, refines eq (uniform_with_step_size o1 num low step) (uniform_with_step_size o2 num low step)
     /\ refines eq (uniformnoflow_with_step_size o1 num low step) (uniformnoflow_with_step_size o2 num low step)
     /\ refines eq (uniformcyclic_with_step_size o1 num low step) (uniformcyclic_with_step_size o2 num low step))
  /\ (forall edges, refines eq (@variable_new sort T (@num_ord T o1) edges) (@variable_new sort T (@num_ord T o2) edges)
     /\ refines eq (@variablenoflow_new sort T (@num_ord T o1) edges) (@variablenoflow_new sort T (@num_ord T o2) edges)
     /\ refines eq (variablecyclic_new sort o1 edges) (variablecyclic_new sort o2 edges)).
Proof.
  intros HO. pose proof (or_ord _ _ HO) as Hord.
  split; [|split].
  - intros num low high.
    assert (Hnf : refines eq (uniformnoflow_new o1 num low high) (uniformnoflow_new o2 num low high)).
    { unfold uniformnoflow_new. apply (refines_bind eq); [now apply uniform_new_refines|]. intros ? ? _ _ <-. apply refines_refl. }
    split; [now apply uniform_new_refines | split; [exact Hnf|]].
    unfold uniformcyclic_new. apply (refines_bind eq); [exact Hnf|]. intros ? ? _ _ <-. apply refines_refl.
  - intros num low high.
    assert (Hnf : refines eq (uniformnoflow_with_step_size o1 num low high) (uniformnoflow_with_step_size o2 num low high)).
    { unfold uniformnoflow_with_step_size. apply (refines_bind eq); [now apply uniform_with_step_size_refines|]. intros ? ? _ _ <-. apply refines_refl. }
    split; [now apply uniform_with_step_size_refines | split; [exact Hnf|]].
    unfold uniformcyclic_with_step_size. apply (refines_bind eq); [exact Hnf|]. intros ? ? _ _ <-. apply refines_refl.
  - intros edges. unfold variablecyclic_new. rewrite Hord. split; [|split]; apply refines_refl.
Qed.
Print Assumptions C73_constructors.

(** Integers: overflow either panics in the first build or does not happen. The
    conversion to [usize] agrees if the targets do, or if the type fits. *)
Theorem C73_integers (Bd Br : Build) (t : int_type) : checked_then_any Bd Br ->
  @target_width Bd = @target_width Br \/ (int_max t < Z.of_N (@usize_mod Bd))%Z -> ops_refine (@int_ops Bd t) (@int_ops Br t).
Proof.
  intros [<-|[Hc Hm]] Hw; [split; intros; try reflexivity; apply refines_refl|].
  assert (Hres : forall z, refines eq (@int_result Bd t z) (@int_result Br t z)).
  { intros z v. unfold int_result. rewrite Hc. destruct (in_range t z); [eauto | discriminate]. }
  split; cbn [num_ord n_zero n_one n_add n_sub n_mul n_div n_rem n_from_usize n_to_usize int_ops]; intros; try reflexivity;
    try apply Hres; try apply refines_refl.
  destruct Hw as [Hw|Hw]; [unfold usize_mod; rewrite Hw; reflexivity|].
  assert (Hq : in_range t q = true).
  { unfold int_div in H. destruct (b =? 0)%Z; [discriminate|]. destruct (in_range t (Z.quot a b)) eqn:Hr; congruence. }
  unfold in_range in Hq. replace (q <? Z.of_N (@usize_mod Bd))%Z with true by lia. replace (q <? Z.of_N (@usize_mod Br))%Z with true by lia.
  reflexivity.
Qed.
Print Assumptions C73_integers.

(** Floats never panic, so with the same pointer width nothing differs at all. *)
Theorem C73_floats (Bd Br : Build) prec emax (P : Prec_gt_0 prec) (E : Prec_lt_emax prec emax) :
  @target_width Bd = @target_width Br -> ops_refine (@float_ops prec emax P E Bd) (@float_ops prec emax P E Br).
Proof.
  intros Hw. split; intros; try reflexivity; try apply refines_refl.
  cbn [n_to_usize float_ops]. unfold float_to_usize, float_usize_end, usize_bits. rewrite Hw. reflexivity.
Qed.
Print Assumptions C73_floats.

Theorem C73_category_axes (Bd Br : Build) {T : Type} (eqd : EqDecision T) : checked_then_any Bd Br ->
  same_axes_refine (@category_axis Bd T eqd) {| axis_eqb := category_eqb |} (@category_axis Br T eqd) {| axis_eqb := category_eqb |}
  /\ same_axes_refine (@categorynoflow_axis Bd T eqd) {| axis_eqb := categorynoflow_eqb |} (@categorynoflow_axis Br T eqd) {| axis_eqb := categorynoflow_eqb |}.
Proof.
  intros HB. split; split; try (intros; reflexivity).
  - intros a ? x ? <- <-. apply refines_refl.
  - intros a ? <-. now apply refines_uadd.
  - intros a ? i <-. apply refines_option_eq, refines_refl.
  - intros a ? b ? <- <-. reflexivity.
  - intros a ? x ? <- <-. cbn [index categorynoflow_axis]. unfold categorynoflow_index.
    apply (refines_bind eq); [apply refines_refl|]. intros [i|] ? _ _ <-; [|apply refines_refl].
    apply (refines_bind eq); [now apply refines_uadd|]. intros n ? _ _ <-.
    apply (refines_bind eq); [now apply refines_usub|]. intros m ? _ _ <-. apply refines_refl.
  - intros a ? <-. apply (refines_bind eq); [now apply refines_uadd|]. intros n ? _ _ <-. now apply refines_usub.
  - intros a ? i <-. apply refines_option_eq, refines_refl.
  - intros a ? b ? <- <-. reflexivity.
Qed.
Print Assumptions C73_category_axes.

Theorem C73_one_dim {X1 X2} (AX1 : Axis X1) (AE1 : AxisEq X1) (AX2 : Axis X2) (AE2 : AxisEq X2) RA RC RI :
  axis_refines AX1 AE1 AX2 AE2 RA RC RI ->
  axis_refines (@axes1_axis X1 AX1) (@axes1_eq X1 AE1) (@axes1_axis X2 AX2) (@axes1_eq X2 AE2)
    (fun a1 a2 => RA (ax1_axis a1) (ax1_axis a2) /\ ax1_shape a1 = ax1_shape a2) RC RI
  /\ forall x1 x2, RA x1 x2 ->
     refines (fun a1 a2 => RA (ax1_axis a1) (ax1_axis a2) /\ ax1_shape a1 = ax1_shape a2) (axes1_from x1) (axes1_from x2).
Proof.
  intros HA. split.
  - split.
    + intros a1 a2 c1 c2 [Ha _] Hc. exact (ar_index _ _ _ _ _ _ _ HA _ _ _ _ Ha Hc).
    + intros a1 a2 [Ha _]. exact (ar_num_bins _ _ _ _ _ _ _ HA _ _ Ha).
    + intros a1 a2 i [Ha _]. exact (ar_bin _ _ _ _ _ _ _ HA _ _ i Ha).
    + reflexivity.
    + intros a1 a2 b1 b2 [Ha Hs] [Hb Ht]. cbn [axis_eqb axes1_eq]. unfold axes1_eqb.
      rewrite (ar_eqb _ _ _ _ _ _ _ HA _ _ _ _ Ha Hb), Hs, Ht. reflexivity.
  - intros x1 x2 Hx. unfold axes1_from. apply (refines_bind eq); [exact (ar_num_bins _ _ _ _ _ _ _ HA _ _ Hx)|].
    intros n ? _ _ <-. apply refines_val. now split.
Qed.
Print Assumptions C73_one_dim.

Section Tuples.
Context (Bd Br : Build) (HB : checked_then_any Bd Br).

Lemma all_num_bins_refines ps a1 a2 : tuple_rel ps a1 a2 -> refines eq (all_num_bins (map ap_1 ps) a1) (all_num_bins (map ap_2 ps) a2).
Proof.
  induction ps as [|p ps IH]; cbn [map all_num_bins tuple_rel]; [intros _; apply refines_refl|]. intros [Hx Ha].
  apply (refines_bind eq); [exact (ar_num_bins _ _ _ _ _ _ _ (ap_refines p) _ _ Hx)|]. intros n ? _ _ <-.
  apply (refines_bind eq); [exact (IH _ _ Ha)|]. intros ns ? _ _ <-. apply refines_refl.
Qed.
Lemma scan_products_refines acc ns : refines eq (@scan_products Bd acc ns) (@scan_products Br acc ns).
Proof using HB.
  revert acc. induction ns as [|n ns IH]; intros acc; cbn [scan_products]; [apply refines_refl|].
  apply (refines_bind eq); [now apply refines_umul|]. intros m ? _ _ <-.
  apply (refines_bind eq); [apply IH|]. intros r ? _ _ <-. apply refines_refl.
Qed.
Lemma all_indices_refines ps a1 a2 c1 c2 : tuple_rel ps a1 a2 -> coords_rel ps c1 c2 ->
  refines eq (all_indices (map ap_1 ps) a1 c1) (all_indices (map ap_2 ps) a2 c2).
Proof.
  induction ps as [|p ps IH]; cbn [map all_indices tuple_rel coords_rel]; [intros _ _; apply refines_refl|]. intros [Hx Ha] [Hy Hc].
  apply (refines_bind eq); [exact (ar_index _ _ _ _ _ _ _ (ap_refines p) _ _ _ _ Hx Hy)|]. intros [i|] ? _ _ <-; [|apply refines_refl].
  apply (refines_bind eq); [exact (IH _ _ _ _ Ha Hc)|]. intros is ? _ _ <-. apply refines_refl.
Qed.
Lemma flat_index_refines shape is : refines eq (@flat_index Bd shape is) (@flat_index Br shape is).
Proof using HB.
  unfold flat_index. destruct is as [|i is]; [apply refines_refl|]. apply refines_foldo. intros acc p.
  apply (refines_bind eq); [now apply refines_umul|]. intros m ? _ _ <-. now apply refines_uadd.
Qed.
Lemma digits_refines i ns : refines eq (@digits Bd i ns) (@digits Br i ns).
Proof using HB.
  revert i. induction ns as [|n ns IH]; intros i; cbn [digits]; [apply refines_refl|].
  apply (refines_bind eq); [now apply refines_umul|]. intros m ? _ _ <-.
  apply (refines_bind eq); [apply refines_refl|]. intros v ? _ _ <-.
  apply (refines_bind eq); [apply refines_refl|]. intros j ? _ _ <-.
  apply (refines_bind eq); [apply IH|]. intros r ? _ _ <-. apply refines_refl.
Qed.
Lemma all_bins_refines ps a1 a2 ds : tuple_rel ps a1 a2 ->
  refines (option_rel (intervals_rel ps)) (all_bins (map ap_1 ps) a1 ds) (all_bins (map ap_2 ps) a2 ds).
Proof.
  revert ds. induction ps as [|p ps IH]; intros ds; cbn [map all_bins tuple_rel intervals_rel]; [intros _; now apply refines_val|].
  intros [Hx Ha]. destruct ds as [|d ds]; [apply refines_panic|].
  eapply (refines_bind (option_rel (ap_interval p))); [exact (ar_bin _ _ _ _ _ _ _ (ap_refines p) _ _ d Hx)|].
  intros [b1|] [b2|] _ _ Hb; cbn in Hb; try contradiction; [|now apply refines_val].
  eapply (refines_bind (option_rel (intervals_rel ps))); [exact (IH _ _ ds Ha)|].
  intros [r1|] [r2|] _ _ Hr; cbn in Hr; try contradiction; [|now apply refines_val]. apply refines_val. split; assumption.
Qed.
Lemma tuple_eqb_refines ps a1 a2 b1 b2 : tuple_rel ps a1 a2 -> tuple_rel ps b1 b2 ->
  tuple_eqb (map ap_1 ps) a1 b1 = tuple_eqb (map ap_2 ps) a2 b2.
Proof.
  induction ps as [|p ps IH]; cbn [map tuple_eqb tuple_rel]; [reflexivity|]. intros [Hx Ha] [Hy Hb].
  exact (f_equal2 andb (ar_eqb _ _ _ _ _ _ _ (ap_refines p) _ _ _ _ Hx Hy) (IH _ _ _ _ Ha Hb)).
Qed.

(** Tuples of any number of axes, and their constructor. *)
Theorem C73_tuples (ps : list axis_pair) :
  axis_refines (@axes_axis Bd (map ap_1 ps)) (axes_eq (map ap_1 ps)) (@axes_axis Br (map ap_2 ps)) (axes_eq (map ap_2 ps))
    (axes_rel ps) (coords_rel ps) (intervals_rel ps)
  /\ forall a1 a2, tuple_rel ps a1 a2 -> refines (axes_rel ps) (@axes_from Bd (map ap_1 ps) a1) (@axes_from Br (map ap_2 ps) a2).
Proof using HB.
  split; [split|].
  - intros [a1 s1] [a2 s2] c1 c2 [Ha Hs] Hc. cbn [ax_axes ax_shape] in Ha, Hs. subst s2. cbn [index axes_axis]. unfold axes_index. cbn [ax_axes ax_shape].
    apply (refines_bind eq); [exact (all_indices_refines ps _ _ _ _ Ha Hc)|]. intros [is|] ? _ _ <-; [|apply refines_refl].
    apply (refines_bind eq); [apply flat_index_refines|]. intros i ? _ _ <-. apply refines_refl.
  - intros [a1 s1] [a2 s2] [Ha Hs]. cbn [ax_axes] in Ha. cbn [num_bins axes_axis]. unfold axes_num_bins. cbn [ax_axes].
    apply (refines_bind eq); [exact (all_num_bins_refines ps _ _ Ha)|]. intros [|n ns] ? _ _ <-; [apply refines_refl|].
    apply (refines_bind eq); [apply refines_foldo; intros; now apply refines_umul|]. intros m ? _ _ <-. now apply refines_umul.
  - intros [a1 s1] [a2 s2] i [Ha Hs]. cbn [ax_axes] in Ha. cbn [bin axes_axis]. unfold axes_bin. cbn [ax_axes].
    apply (refines_bind eq); [exact (all_num_bins_refines ps _ _ Ha)|]. intros ns ? _ _ <-.
    apply (refines_bind eq); [apply digits_refines|]. intros ds ? _ _ <-. exact (all_bins_refines ps _ _ ds Ha).
  - intros a1 a2 _. cbn [num_dim axes_axis]. rewrite !map_length. reflexivity.
  - intros [a1 s1] [a2 s2] [b1 t1] [b2 t2] [Ha Hs] [Hb Ht]. cbn [ax_axes ax_shape] in *. subst s2 t2. cbn [axis_eqb axes_eq]. unfold axes_eqb. cbn [ax_axes ax_shape].
    rewrite (tuple_eqb_refines ps _ _ _ _ Ha Hb). reflexivity.
  - intros a1 a2 Ha. unfold axes_from. apply (refines_bind eq); [exact (all_num_bins_refines ps _ _ Ha)|]. intros ns ? _ _ <-.
    apply (refines_bind eq); [apply scan_products_refines|]. intros shape ? _ _ <-. apply refines_val. now split.
Qed.
Print Assumptions C73_tuples.
End Tuples.

(** The bin values: plain numbers, sums, weighted sums, means and weighted means
    (whatever stands in for the fill methods a type does not have). *)
Theorem C73_values {T C : Type} (o1 o2 : NumOps T) (c1 c2 : NumOps C) : ops_refine o1 o2 -> ops_refine c1 c2 ->
  (forall v, refines eq (@fill_v T (num_fill o1) v) (@fill_v T (num_fill o2) v))
  /\ (forall v d, refines eq (@fill_with_v T T (num_fill_with o1) v d) (@fill_with_v T T (num_fill_with o2) v d))
  /\ (forall s, refines eq (sum_fill o1 s) (sum_fill o2 s)) /\ (forall s w, refines eq (sum_fill_with o1 s w) (sum_fill_with o2 s w))
  /\ (forall s, refines eq (weightedsum_fill o1 s) (weightedsum_fill o2 s))
  /\ (forall s w, refines eq (weightedsum_fill_with o1 s w) (weightedsum_fill_with o2 s w))
  /\ (forall m d, refines eq (mean_fill_with o1 c1 m d) (mean_fill_with o2 c2 m d))
  /\ (forall m d w, refines eq (weightedmean_fill o1 c1 m d w) (weightedmean_fill o2 c2 m d w)).
Proof.
  intros HO HC.
  assert (Hadd := or_add _ _ HO). assert (Hmul := or_mul _ _ HO). assert (Hcadd := or_add _ _ HC).
  assert (Hsum : forall s w, refines eq (sum_fill_with o1 s w) (sum_fill_with o2 s w)).
  { intros s w. unfold sum_fill_with. apply (refines_bind eq); [apply Hadd|]. intros ? ? _ _ <-. apply refines_refl. }
  split; [intros v; cbn [fill_v num_fill]; rewrite (or_one _ _ HO); apply Hadd|].
  split; [intros; apply Hadd|].
  split; [intros s; unfold sum_fill; cbn [fill_v num_fill]; rewrite (or_one _ _ HO); apply (refines_bind eq); [apply Hadd|]; intros ? ? _ _ <-; apply refines_refl|].
  split; [exact Hsum|].
  split; [intros s; unfold weightedsum_fill; rewrite (or_one _ _ HO)
         |split; [intros s w; unfold weightedsum_fill_with
                 |split; [intros m d; unfold mean_fill_with; rewrite (or_one _ _ HC) | intros m d w; unfold weightedmean_fill; rewrite (or_one _ _ HC)]]];
    repeat (apply (refines_bind eq); [first [apply Hadd | apply Hmul | apply Hcadd] | intros ? ? _ _ <-]); apply refines_refl.
Qed.
Print Assumptions C73_values.

(** ** The hypotheses are met: a program over [Uniform<i16>] axes with u8 bin values *)
Section Example.
Notation u8 := (unsigned 8). Notation i16 := (signed 16).
#[local] Instance ex73_axis {B : Build} : Axis (Uniform Z) := uniform_axis (int_ops i16).
#[local] Instance ex73_eq {B : Build} : AxisEq (Uniform Z) := {| axis_eqb := uniform_eqb (int_ops i16) |}.
#[local] Instance ex73_fill {B : Build} : Fill Z := num_fill (int_ops u8).
#[local] Instance ex73_fill_with {B : Build} : FillWith Z Z := num_fill_with (int_ops u8).
#[local] Instance ex73_weighted : FillWithWeighted Z Z Empty_set := {| fill_with_weighted_v := fun v _ (w : Empty_set) => match w with end |}.
#[local] Instance ex73_default : Default Z := {| default_v := 0%Z |}.

(** [a.fill_with(&3, n); b = a.clone(); b.iter_mut(): *v += index; b += &a; b.fill(&3); b.value(&3)] *)
Definition ex73_program {B : Build} (n : Z) : program Z Z Empty_set (option Z) :=
  Do (New 0 (mkUniform 5 0 10 2)%Z) (fun _ =>
  Do (Call 0 (CallFillWith 3%Z n)) (fun _ =>
  Do (Clone 1 0) (fun _ =>
  Do (IterMut 1 (fun i _ v => @n_add Z (int_ops u8) v (Z.of_N i))) (fun _ =>
  Do (Assign (@n_add Z (int_ops u8)) 1 0) (fun _ =>
  Do (Call 1 (CallFill 3%Z)) (fun _ =>
  Do (Value 1 3%Z) (fun a => Return match a with AnswerValue v => Some v | _ => None end))))))).

Definition result73 {R H} (o : outcome (R * store H)) : option R := match o with Val (r, _) => Some r | Panic => None end.

Example C73_nonvacuous (Bd Br : Build) (n : Z) : checked_then_any Bd Br ->
  axis_refines (@ex73_axis Bd) (@ex73_eq Bd) (@ex73_axis Br) (@ex73_eq Br) eq eq eq
  /\ fills_refine (@ex73_fill Bd) (@ex73_fill_with Bd) ex73_weighted (@ex73_fill Br) (@ex73_fill_with Br) ex73_weighted
  /\ same_program (@ex73_axis Bd) (@ex73_axis Br) eq eq eq (@ex73_program Bd n) (@ex73_program Br n).
Proof.
  intros HB. pose proof (@usize_mod_large Bd) as Hlarge.
  assert (H8 : ops_refine (@int_ops Bd u8) (@int_ops Br u8)).
  { apply C73_integers; [exact HB|]. right. cbn [int_max unsigned]. change (2 ^ 8)%Z with 256%Z. lia. }
  destruct (C73_values _ _ _ _ H8 H8) as (Hfill & Hwith & _).
  split; [|split].
  - refine (proj1 (C73_numeric_axes Bd Br bsearch_early (@int_ops Bd i16) (@int_ops Br i16) HB _)). apply C73_integers; [exact HB|].
    right. cbn [int_max signed]. change (2 ^ (16 - 1))%Z with 32768%Z. lia.
  - split; [exact Hfill | exact Hwith | intros v d []].
  - unfold ex73_program.
    apply same_do; [constructor; reflexivity|]. intros _ _ _.
    apply same_do; [constructor; constructor; reflexivity|]. intros _ _ _.
    apply same_do; [constructor|]. intros _ _ _.
    apply same_do; [constructor; intros i b1 b2 v _; apply (or_add _ _ H8)|]. intros _ _ _.
    apply same_do; [constructor; intros v w; apply (or_add _ _ H8)|]. intros _ _ _.
    apply same_do; [constructor; constructor; reflexivity|]. intros _ _ _.
    apply same_do; [constructor; reflexivity|]. intros q1 q2 Hq. destruct Hq; apply same_return.
Qed.

(** With 100 the program runs to its end in every build; with 130 the checked
    builds panic, and there the unchecked ones return a wrapped result: nothing is
    promised after a panic. *)
Example C73_runs (B : Build) : result73 (dense_run (@ex73_program B 100%Z) (fun _ => None)) = Some (Some 203%Z).
Proof. destruct B as [[] []]; vm_compute; reflexivity. Qed.

Theorem C73_panic_promises_nothing_refuted (Bd Br : Build) : @overflow_checks Bd = true -> @overflow_checks Br = false ->
  dense_run (@ex73_program Bd 130%Z) (fun _ => None) = Panic
  /\ result73 (dense_run (@ex73_program Br 130%Z) (fun _ => None)) = Some (Some 7%Z).
Proof.
  destruct Bd as [? wd], Br as [? wr]. cbn. intros -> ->. split; [destruct wd | destruct wr]; vm_compute; reflexivity.
Qed.
Print Assumptions C73_panic_promises_nothing_refuted.
End Example.
