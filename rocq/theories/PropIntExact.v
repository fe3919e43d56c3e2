(** * Property theorems: integer uniform axes at and beyond the limits of the
      coordinate type (C02, C10). *)
From Coq Require Import List NArith ZArith Bool Lia ZifyBool ZifyN.
From Verif Require Import Base BaseFacts Num Axis Spec IntFacts Uniform UniformInt UniformMore PropUniformIntLemmas.
Import ListNotations.
Open Scope Z_scope.

Lemma primitive_min_max t : primitive_int t -> int_min t <= int_max t.
Proof. intros Ht. pose proof (primitive_bounds t Ht). lia. Qed.

Lemma wrap_range t z : int_min t <= int_max t -> fits t (wrap t z).
Proof.
  intros Hb. unfold fits, wrap. pose proof (Z.mod_pos_bound (z - int_min t) (int_max t - int_min t + 1) ltac:(lia)). lia.
Qed.

Lemma wrap_id t z : int_min t <= int_max t -> fits t z -> wrap t z = z.
Proof. intros Hb Hf. unfold fits in Hf. unfold wrap. rewrite Z.mod_small by lia. lia. Qed.

Lemma int_result_wraps `{Build} t z : int_min t <= int_max t -> overflow_checks = false -> int_result t z = Val (wrap t z).
Proof.
  intros Hb Hc. unfold int_result. destruct (in_range t z) eqn:E; [|rewrite Hc; reflexivity].
  rewrite wrap_id; [reflexivity | exact Hb | apply in_range_fits; exact E].
Qed.

Lemma quot_fits t p n : primitive_int t -> 1 <= n -> fits t p -> fits t (Z.quot p n).
Proof.
  intros Ht Hn Hp. pose proof (primitive_bounds t Ht) as [Hmin Hmax]. unfold fits in *.
  destruct (Z_le_gt_dec 0 p) as [H0|H0].
  - pose proof (Z.quot_pos p n H0 ltac:(lia)). pose proof (Z.quot_le_upper_bound p n p ltac:(lia) ltac:(nia)). lia.
  - pose proof (Z.quot_le_lower_bound p n p ltac:(lia) ltac:(nia)).
    assert (Z.quot p n <= 0) by (apply Z.quot_le_upper_bound; lia). lia.
Qed.

(** Edge number [k] of the axis as the code computes it: exact while
    [k * (high - low)] fits the coordinate type; beyond that a checked build
    panics and an unchecked build wraps around. *)
Lemma edge_exact `{Build} t num low step k :
  valid_int_params t num low step -> (k <= num)%N ->
  let width := Z.of_N num * step in
  uniform_edge (int_ops t) (mkUniform num low (low + width) step) k
  = if in_range t (Z.of_N k * width) then Val (Some (low + Z.of_N k * step))
    else if overflow_checks then Panic
    else Val (Some (wrap t (low + Z.quot (wrap t (Z.of_N k * width)) (Z.of_N num)))).
Proof.
  intros [Ht Hn Hu Hf Hl Hs Hw Hh] Hk width.
  pose proof (primitive_bounds t Ht) as [Hmin Hmax].
  unfold uniform_edge. cbn [u_low u_high u_num u_step].
  rewrite int_from_usize_ok by (unfold fits in *; lia).
  cbn [n_sub n_mul n_div n_add int_ops].
  replace (low + width - low) with width by lia.
  rewrite int_result_ok by exact Hw. cbn [obind].
  destruct (in_range t (Z.of_N k * width)) eqn:Ein.
  - rewrite int_result_ok by (apply in_range_fits; exact Ein). cbn [obind].
    rewrite int_from_usize_ok by exact Hf.
    assert (Hq : Z.quot (Z.of_N k * width) (Z.of_N num) = Z.of_N k * step).
    { subst width. replace (Z.of_N k * (Z.of_N num * step)) with (Z.of_N k * step * Z.of_N num) by ring.
      apply Z.quot_mul. lia. }
    rewrite int_div_ok; [| lia | rewrite Hq; unfold fits in *; nia].
    cbn [obind]. rewrite Hq. rewrite int_result_ok; [reflexivity|].
    subst width. unfold fits in *. assert (0 <= Z.of_N k * step <= Z.of_N num * step) by nia. lia.
  - unfold int_result at 1. rewrite Ein. destruct overflow_checks eqn:Hc; [reflexivity|]. cbn [obind].
    rewrite int_from_usize_ok by exact Hf.
    pose proof (wrap_range t (Z.of_N k * width) (primitive_min_max t Ht)) as Hwr.
    rewrite int_div_ok; [| lia | apply quot_fits; [exact Ht | lia | exact Hwr]]. cbn [obind].
    rewrite int_result_wraps by (try exact Hc; apply primitive_min_max; exact Ht). reflexivity.
Qed.

(** C02: exactly which bins of a valid integer axis [bin] reports correctly: bin
    [i] if and only if [i * (high - low)] fits the coordinate type. Otherwise a
    checked build panics, and an unchecked build returns a [Bin] both of whose edges
    went through the wrap-around (which leaves what fits as it is). *)
Theorem C02_uniform_int_bin_exact : forall (B : Build) (t : int_type) num low step,
  valid_int_params t num low step ->
  let width := Z.of_N num * step in
  exists a, uniform_with_step_size (int_ops t) num low step = Val (Ok a)
  /\ uniform_bin (int_ops t) a 0 = Val (Some (Underflow low))
  /\ uniform_bin (int_ops t) a (num + 1) = Val (Some (Overflow (low + width)))
  /\ (forall i, (num + 2 <= i)%N -> uniform_bin (int_ops t) a i = Val None)
  /\ forall i, (1 <= i <= num)%N ->
     (fits t (Z.of_N i * width) ->
        uniform_bin (int_ops t) a i = Val (Some (Bin (low + (Z.of_N i - 1) * step) (low + Z.of_N i * step))))
     /\ (~ fits t (Z.of_N i * width) ->
        (overflow_checks = true -> uniform_bin (int_ops t) a i = Panic)
        /\ (overflow_checks = false ->
              let computed_edge k := wrap t (low + Z.quot (wrap t (k * width)) (Z.of_N num)) in
              uniform_bin (int_ops t) a i = Val (Some (Bin (computed_edge (Z.of_N i - 1)) (computed_edge (Z.of_N i)))))).
Proof.
  intros B t num low step HV width. pose proof HV as [Ht Hn Hu Hf Hl Hs Hw Hh].
  exists (mkUniform num low (low + width) step). split; [apply with_step_size_ok; exact HV|].
  assert (H1 : (num + 1 <> 0)%N) by lia.
  split; [reflexivity|]. split.
  { unfold uniform_bin. cbn [u_num]. destruct (N.eqb_spec (num + 1) 0); [lia|]. rewrite uadd_ok by lia. cbn [obind].
    rewrite N.eqb_refl. reflexivity. }
  split.
  { intros i Hi. unfold uniform_bin. cbn [u_num]. destruct (N.eqb_spec i 0); [lia|]. rewrite uadd_ok by lia. cbn [obind].
    destruct (N.eqb_spec i (num + 1)); [lia|]. destruct (N.ltb_spec (num + 1) i); [reflexivity | lia]. }
  intros i Hi.
  assert (Hb : uniform_bin (int_ops t) (mkUniform num low (low + width) step) i
    = let! s := uniform_edge (int_ops t) (mkUniform num low (low + width) step) (i - 1)%N in
      match s with None => Val None | Some start =>
        let! e := uniform_edge (int_ops t) (mkUniform num low (low + width) step) i in
        match e with None => Val None | Some e => Val (Some (Bin start e)) end end).
  { unfold uniform_bin. cbn [u_num]. destruct (N.eqb_spec i 0); [lia|]. rewrite uadd_ok by lia. cbn [obind].
    destruct (N.eqb_spec i (num + 1)); [lia|]. destruct (N.ltb_spec (num + 1) i); [lia|].
    rewrite usub_ok by lia. reflexivity. }
  rewrite Hb. unfold width. rewrite !edge_exact by (try exact HV; lia). fold width. clear Hb.
  pose proof (primitive_bounds t Ht) as [Hmin Hmax].
  assert (Hw0 : 0 <= width) by (subst width; nia).
  split.
  - intros Hfi. rewrite (in_range_true t (Z.of_N i * width) Hfi).
    rewrite in_range_true by (unfold fits in *; nia). cbn [obind].
    replace (Z.of_N (i - 1)) with (Z.of_N i - 1) by lia. reflexivity.
  - intros Hfi. rewrite (in_range_false t (Z.of_N i * width) Hfi). split; intros Hc; rewrite Hc.
    + destruct (in_range t (Z.of_N (i - 1) * width)); reflexivity.
    + cbv zeta. replace (Z.of_N (i - 1)) with (Z.of_N i - 1) by lia.
      destruct (in_range t ((Z.of_N i - 1) * width)) eqn:Ein; cbn [obind]; [|reflexivity]. apply in_range_fits in Ein.
      rewrite (wrap_id t ((Z.of_N i - 1) * width)) by (try exact Ein; lia).
      assert (Hq : Z.quot ((Z.of_N i - 1) * width) (Z.of_N num) = (Z.of_N i - 1) * step).
      { unfold width. replace ((Z.of_N i - 1) * (Z.of_N num * step)) with ((Z.of_N i - 1) * step * Z.of_N num) by ring. apply Z.quot_mul. lia. }
      rewrite Hq. rewrite (wrap_id t (low + (Z.of_N i - 1) * step)); [reflexivity | lia|]. fold width in Hh. unfold fits in *.
      assert (0 <= (Z.of_N i - 1) * step <= width) by (subst width; nia). lia.
Qed.
Print Assumptions C02_uniform_int_bin_exact.

(** i16, 300 unit bins from 0: bins up to 109 are reported exactly, bin 110 is not. *)
Example C02_exact_nonvacuous : forall B : Build,
  valid_int_params (signed 16) 300 0 1
  /\ fits (signed 16) (109 * (300 * 1)) /\ ~ fits (signed 16) (110 * (300 * 1)).
Proof.
  intros [c []]; (split; [|split; [split; discriminate | intros [_ H]; vm_compute in H; contradiction H; reflexivity]];
  constructor; try (vm_compute; reflexivity || (split; discriminate)); try discriminate;
  exists 16; split; [discriminate | left; reflexivity]).
Qed.

(** C10: every coordinate of the type, whether or not [x - low] fits. A checked
    build panics exactly when it does not fit; an unchecked build always returns
    a valid bin, the one of [x - low] wrapped to the type and then to the range
    (so for signed types it is the bin of [x] unless [x - low] overflows). *)
Theorem C10_cyclic_int_exact : forall (B : Build) (t : int_type) num low step,
  valid_int_params t num low step ->
  let width := Z.of_N num * step in
  exists a, uniformcyclic_with_step_size (int_ops t) num low step = Val (Ok a) /\
  forall x, fits t x ->
  (overflow_checks = true -> (uniformcyclic_index (int_ops t) a x = Panic <-> ~ fits t (x - low)))
  /\ (overflow_checks = false \/ fits t (x - low) ->
      exists i, uniformcyclic_index (int_ops t) a x = Val (Some i) /\ (i < num)%N
        /\ Z.of_N i * step <= wrap t (x - low) mod width < (Z.of_N i + 1) * step).
Proof.
  intros B t num low step HV width. pose proof HV as [Ht Hn Hu Hf Hl Hs Hw Hh].
  eexists. split; [apply cyclic_with_step_size_ok; exact HV|]. intros x Hx. fold width in Hw, Hh.
  pose proof (primitive_min_max t Ht) as Hmm.
  assert (Hw0 : 0 < width) by (subst width; nia).
  assert (Hgood : forall y, fits t (y - low) -> exists i,
      uniformcyclic_index (int_ops t) (mkUniformCyclic (mkUniformNoFlow (mkUniform num low (low + Z.of_N num * step) step))) y
      = Val (Some i) /\ (i < num)%N /\ Z.of_N i * step <= (y - low) mod width < (Z.of_N i + 1) * step).
  { intros y Hy. eexists. split; [apply cyclic_index; assumption|]. fold width.
    pose proof (Z.mod_pos_bound (y - low) width Hw0) as Hm. set (r := (y - low) mod width) in *.
    assert (0 <= r / step) by (apply Z.div_pos; lia).
    assert (r / step < Z.of_N num) by (apply Z.div_lt_upper_bound; subst width; lia).
    rewrite Z2N.id by lia. split; [lia|].
    pose proof (Z.div_mod r step ltac:(lia)). pose proof (Z.mod_pos_bound r step Hs). nia. }
  split.
  - intros Hc. split.
    + intros Hp Hfit. destruct (Hgood x Hfit) as [i [Hi _]]. rewrite Hp in Hi. discriminate Hi.
    + intros Hnf. unfold uniformcyclic_index. cbn [uc_axis unf_axis u_low u_high].
      rewrite wrap_int_panics; [reflexivity | exact Hc | | exact Hnf].
      fold width. replace (low + width - low) with width by lia. exact Hw.
  - intros Hor. destruct (Hgood (low + wrap t (x - low))) as [i [Hi [Hlt Hr]]].
    { replace (low + wrap t (x - low) - low) with (wrap t (x - low)) by lia. apply wrap_range. exact Hmm. }
    replace (low + wrap t (x - low) - low) with (wrap t (x - low)) in Hr by lia.
    exists i. split; [|split; assumption].
    rewrite <- Hi. unfold uniformcyclic_index. cbn [uc_axis unf_axis u_low u_high]. f_equal.
    unfold wrap_coordinate. cbn [n_sub int_ops].
    replace (low + wrap t (x - low) - low) with (wrap t (x - low)) by lia.
    rewrite (int_result_ok t (wrap t (x - low))) by (apply wrap_range; exact Hmm).
    assert (int_result t (x - low) = Val (wrap t (x - low))) as ->; [|reflexivity].
    destruct Hor as [Hc|Hfit]; [apply int_result_wraps; assumption|].
    rewrite wrap_id by assumption. apply int_result_ok. exact Hfit.
Qed.
Print Assumptions C10_cyclic_int_exact.

(** u8 axis [10, 25): 9 is below low and does not subtract; 250 does. *)
Example C10_exact_nonvacuous : forall B : Build,
  valid_int_params (unsigned 8) 3 10 5 /\ fits (unsigned 8) 9 /\ ~ fits (unsigned 8) (9 - 10) /\ fits (unsigned 8) (250 - 10).
Proof.
  intros [c []]; (split; [|split; [split; discriminate | split; [intros [H _]; vm_compute in H; contradiction H; reflexivity | split; discriminate]]];
  constructor; try (vm_compute; reflexivity || (split; discriminate)); try discriminate;
  exists 8; split; [discriminate | right; reflexivity]).
Qed.

Lemma wrap_add t x y : int_min t <= int_max t -> wrap t (wrap t x + y) = wrap t (x + y).
Proof.
  intros Hb. unfold wrap. set (m := int_max t - int_min t + 1). f_equal.
  replace (int_min t + (x - int_min t) mod m + y - int_min t) with ((x - int_min t) mod m + y) by lia.
  rewrite Z.add_mod_idemp_l by (subst m; lia). f_equal. lia.
Qed.

(** C08, [with_step_size] over integers without overflow checks: every outcome. The upper
    edge is computed modulo the range of the type, and the two edges are put in order. *)
Theorem C08_with_step_size_int_unchecked : forall (B : Build) (t : int_type) num low step,
  primitive_int t -> fits t low -> fits t step -> overflow_checks = false ->
  let high := wrap t (low + Z.of_N num * step) in
  uniform_with_step_size (int_ops t) num low step =
    (if (num =? 0)%N || (int_max t <? Z.of_N num) then Val (Err InvalidNumberOfBins)
     else if step <=? 0 then Val (Err InvalidStepSize)
     else Val (Ok (mkUniform num (Z.min low high) (Z.max low high) step))).
Proof.
  intros B t num low step Ht Hl Hs Hc high. pose proof (primitive_min_max t Ht) as Hmm. pose proof (primitive_bounds t Ht) as [Hmin Hmax].
  unfold uniform_with_step_size. destruct (Z.ltb_spec (int_max t) (Z.of_N num)) as [Hn|Hn].
  - rewrite orb_true_r. cbn [n_from_usize int_ops]. destruct (in_range t (Z.of_N num)) eqn:E; [|reflexivity].
    apply in_range_fits in E. unfold fits in E. lia.
  - rewrite orb_false_r. rewrite int_from_usize_ok by (unfold fits; lia). cbn [n_mul n_add int_ops]. rewrite int_result_wraps by assumption. cbn [obind].
    rewrite int_result_wraps by assumption. cbn [obind]. rewrite wrap_add by exact Hmm. rewrite (Z.add_comm (Z.of_N num * step) low). fold high.
    destruct (num =? 0)%N; [reflexivity|]. rewrite int_le, int_gt. cbn [n_zero int_ops]. destruct (step <=? 0); [reflexivity|].
    destruct (Z.ltb_spec high low) as [Hg|Hg]; [rewrite Z.min_r, Z.max_l by lia | rewrite Z.min_l, Z.max_r by lia]; reflexivity.
Qed.
Print Assumptions C08_with_step_size_int_unchecked.
