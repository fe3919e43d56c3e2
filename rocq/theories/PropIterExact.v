(** * Property theorems: iterating over integer uniform axes at the limits of the type (C20). *)
From Coq Require Import List NArith ZArith Bool Lia ZifyBool ZifyN.
From Verif Require Import Base BaseFacts Num Axis Spec IntFacts Uniform UniformInt UniformMore PropUniformIntLemmas
  AxesSpec PropAxes PropIntExact PropUniformInt.
Import ListNotations.
Open Scope N_scope.

(** If consuming [iter] returns then so did [bin] of every bin. *)
Lemma axis_iter_all_bins A (AX : Axis A) (a : A) n l : num_bins a = Val n -> axis_iter a = Val l ->
  forall i, i < n -> exists b, bin a i = Val (Some b).
Proof.
  intros Hn Hl i Hi. unfold axis_iter, indices in Hl. rewrite Hn in Hl. cbn [obind] in Hl.
  apply mapo_inv in Hl.
  assert (Hin : In i (range n)).
  { unfold range. apply in_map_iff. exists (N.to_nat i). split; [lia|]. apply in_seq. lia. }
  revert Hin. induction Hl as [|x y xs ys Hxy Hl IH]; intros Hin; [destruct Hin|]. destruct Hin as [->|Hin]; [|exact (IH Hin)].
  destruct (bin a i) as [[b|]|] eqn:Eb; try discriminate Hxy. eauto.
Qed.

(** C20, integer uniform axes, every build: iterating over the bins of an axis the constructor
    accepts panics exactly when overflow checks are on and [num * (high - low)] does not fit
    the coordinate type; otherwise every bin is there. *)
Theorem C20_uniform_int_exact : forall (B : Build) (t : int_type) num low step,
  valid_int_params t num low step ->
  let extent := (Z.of_N num * (Z.of_N num * step))%Z in
  exists a, uniform_with_step_size (int_ops t) num low step = Val (Ok a)
  /\ let noflow := mkUniformNoFlow a in
     let cyclic := mkUniformCyclic noflow in
  (overflow_checks = false \/ fits t extent ->
     has_bins (uniform_axis (int_ops t)) a (num + 2)
     /\ has_bins (uniformnoflow_axis (int_ops t)) noflow num
     /\ has_bins (uniformcyclic_axis (int_ops t)) cyclic num)
  /\ (overflow_checks = true -> ~ fits t extent ->
     @axis_iter _ (uniform_axis (int_ops t)) a = Panic
     /\ @axis_iter _ (uniformnoflow_axis (int_ops t)) noflow = Panic
     /\ @axis_iter _ (uniformcyclic_axis (int_ops t)) cyclic = Panic).
Proof.
  intros B t num low step HV extent.
  destruct (C02_uniform_int_bin_exact B t num low step HV) as [a [Ha [H0 [Ho [Hx Hi]]]]].
  exists a. split; [exact Ha|]. intros noflow cyclic.
  pose proof (with_step_size_ok t num low step HV) as Ha'. rewrite Ha' in Ha. injection Ha as <-.
  pose proof (vp_num_usize _ _ _ _ HV) as Hu. pose proof (vp_num _ _ _ _ HV) as Hn1.
  set (a := mkUniform num low (low + Z.of_N num * step)%Z step) in *.
  assert (Hnb : uniform_num_bins a = Val (num + 2)) by (apply uadd_ok; exact Hu).
  assert (Hnnb : uniformnoflow_num_bins noflow = Val num) by (apply noflow_num_bins; exact Hu).
  split.
  - intros Hok.
    assert (Hin : forall i, 1 <= i <= num -> exists b, uniform_bin (int_ops t) a i = Val (Some b)).
    { intros i Hr. destruct (Hi i Hr) as [Hf Hnf].
      destruct (in_range t (Z.of_N i * (Z.of_N num * step))) eqn:Er.
      - apply in_range_fits in Er. rewrite (Hf Er). eauto.
      - assert (Hno : ~ fits t (Z.of_N i * (Z.of_N num * step))) by (intros Hc; apply in_range_fits in Hc; congruence).
        destruct Hok as [Hc|Hext]; [rewrite (proj2 (Hnf Hno) Hc); eauto|]. exfalso. apply Hno.
        destruct HV as []. unfold fits, extent in *. nia. }
    assert (Hnfb : has_bins (uniformnoflow_axis (int_ops t)) noflow num).
    { split; [exact Hnnb|]. intros i Hlt. cbn [bin uniformnoflow_axis]. unfold noflow.
      rewrite noflow_bin_in by (cbn; lia). apply Hin. lia. }
    split; [|split; exact Hnfb].
    split; [exact Hnb|]. intros i Hlt. cbn [bin uniform_axis].
    destruct (N.eq_dec i 0) as [->|]; [rewrite H0; eauto|].
    destruct (N.eq_dec i (num + 1)) as [->|]; [rewrite Ho; eauto|]. apply Hin. lia.
  - intros Hc Hno. destruct (Hi num ltac:(lia)) as [_ Hnf]. destruct (Hnf Hno) as [Hp _]. specialize (Hp Hc).
    assert (Hnp : uniformnoflow_bin (int_ops t) noflow (num - 1) = Panic).
    { unfold noflow. rewrite noflow_bin_in by (cbn; lia). replace (num - 1 + 1) with num by lia. exact Hp. }
    assert (H1 : @axis_iter _ (uniformnoflow_axis (int_ops t)) noflow = Panic).
    { destruct (@axis_iter _ (uniformnoflow_axis (int_ops t)) noflow) as [l|] eqn:El; [|reflexivity]. exfalso.
      destruct (axis_iter_all_bins _ _ _ num l Hnnb El (num - 1) ltac:(lia)) as [b Hb]. cbn in Hb. congruence. }
    split; [|split; [exact H1|exact H1]].
    destruct (@axis_iter _ (uniform_axis (int_ops t)) a) as [l|] eqn:El; [|reflexivity]. exfalso.
    destruct (axis_iter_all_bins _ _ _ (num + 2) l Hnb El num ltac:(lia)) as [b Hb]. cbn [bin uniform_axis] in Hb. congruence.
Qed.
Print Assumptions C20_uniform_int_exact.

(** Both cases happen: an [i8] axis of 20 bins of width 5 from -50, and one of 4 bins of width 2. *)
Example C20_int_exact_nonvacuous : forall B : Build,
  valid_int_params (signed 8) 20 (-50) 5 /\ ~ fits (signed 8) (20 * (20 * 5))
  /\ valid_int_params (signed 8) 4 (-4) 2 /\ fits (signed 8) (4 * (4 * 2)).
Proof.
  intros B. assert (Hp : primitive_int (signed 8)) by (exists 8%Z; split; [lia | tauto]). pose proof usize_mod_large.
  split; [constructor; try exact Hp; unfold fits, signed; cbn; lia|].
  split; [unfold fits, signed; cbn; lia|].
  split; [constructor; try exact Hp; unfold fits, signed; cbn; lia | unfold fits, signed; cbn; lia].
Qed.
