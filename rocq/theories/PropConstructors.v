(** * PropConstructors: [Uniform::new] and [Uniform::with_step_size] (C85). *)
From Coq Require Import List ZArith NArith Bool Lia Reals Lra ZifyN ZifyNat.
From Flocq Require Import Core IEEE754.BinarySingleNaN.
From Verif Require Import Base BaseFacts Num Float Axis OrdLaws FloatOrd FloatFacts FloatSpec Uniform FloatUniform FloatUniformNew FloatUniformAcc
  PropUniformFloat PropUniformFloatEx PropCyclicStep GridSpec FloatGrid PropFloatGrid StdAlgo EqFacts PropEq.
Import ListNotations.
Open Scope R_scope.

Section Constructors.
Context (prec emax : Z) (P : Prec_gt_0 prec) (E : Prec_lt_emax prec emax) {B : Build}.
Notation flt := (binary_float prec emax).
Notation ops := (float_ops prec emax P E).
Notation of_N := (float_of_N prec emax P E).

(** The step that [new] computes, and the upper edge that [with_step_size] computes. *)
Notation step_of num low high := (Bdiv mode_NE (Bminus mode_NE high low) (of_N num)).
Notation top_of num low step := (Bplus mode_NE (Bmult mode_NE (of_N num) step) low).

(** C85. Take the axis [new(num, low, high)] and the axis [with_step_size(num, low, step)]
    for the step [(high - low) / num], computed in floating point. Both are accepted, and
    their upper edges differ by rounding only; a coordinate gets different bin
    numbers only if it lies between the two upper edges, and if these are equal the two axes
    are the same. *)
Theorem C85_step_of_new (num : N) (low high : flt) :
  covered_format prec emax -> (1 <= Z.of_N num < 2 ^ (prec - 1))%Z -> (num + 2 < usize_mod)%N ->
  is_finite (Bminus mode_NE high low) = true -> B2R low < B2R high ->
  IZR (Z.of_N num) * smallest_normal emax <= B2R high - B2R low ->
  let step := step_of num low high in
  let high' := top_of num low step in
  let u := unit_roundoff prec in
  exists a b, uniform_new ops num low high = Val (Ok a) /\ uniform_with_step_size ops num low step = Val (Ok b)
  /\ uniform_num_bins a = uniform_num_bins b
  /\ (high' = high -> a = b)
  /\ (forall x, (flt_le high x <-> flt_le high' x) -> uniform_index ops a x = uniform_index ops b x)
  /\ (is_finite high' = true -> Rabs (B2R high' - B2R high) <= 4 * u * (B2R high - B2R low) + u * Rabs (B2R high)).
Proof.
  intros [Hp He] Hn Hus Fw Hlt Hw step high' u. pose proof (minus_finite prec emax P E _ _ Fw) as [Fh Fl].
  assert (Hp2 : (2 <= prec <= 63)%Z) by lia.
  assert (Emn : smallest_normal emax = bpow radix2 (SpecFloat.emin prec emax + prec - 1)).
  { unfold smallest_normal. f_equal. unfold SpecFloat.emin. lia. }
  rewrite Emn in Hw.
  destruct (width_normal prec emax P E Hp num low high Hn Fl Fh Hlt Fw Hw) as [_ Hnorm].
  pose proof (bpow_gt_0 radix2 (SpecFloat.emin prec emax + prec - 1)) as Hm0.
  destruct (new_step prec emax P E Hp2 num _ Hn Fw) as [Fs Vs]. fold step in Hnorm, Fs, Vs.
  destruct (regular_step prec emax P E Hp2 num low step Hn Hus Fl Fs ltac:(lra)) as [_ Hgt]. fold high' in Hgt.
  exists (mkUniform num low high step), (mkUniform num low high' step).
  destruct (fin_trichotomy prec emax P E low high Fl Fh) as [(_&T2&T3&_)|[(_&_&_&T4)|(_&_&_&T4)]]; [|lra|lra].
  assert (Hn0 : (num =? 0)%N = false) by (apply N.eqb_neq; lia).
  split. { unfold uniform_new. rewrite Hn0, T3, T2. reflexivity. }
  split. { unfold uniform_with_step_size. cbn [n_from_usize n_mul n_add n_zero float_ops obind]. rewrite Hn0.
    assert (Hle : @le_ _ (@num_ord _ ops) step (B754_zero false) = false) by (rewrite le_fin by (assumption || reflexivity); apply Rle_bool_false; cbn; lra).
    rewrite Hle. fold high'. rewrite Hgt. reflexivity. }
  split; [reflexivity|]. split; [intros ->; reflexivity|]. split.
  - intros x Hx. unfold uniform_index. cbn [u_num u_low u_high u_step].
    assert (Hge : @ge_ _ (@num_ord _ ops) x high = @ge_ _ (@num_ord _ ops) x high').
    { pose proof (float_ord_laws prec emax P E) as HL. rewrite !(ge_le _ _ HL). apply eq_true_iff_eq. rewrite !flt_le_iff in Hx. exact Hx. }
    rewrite Hge. reflexivity.
  - intros Fh'. destruct (plus_finite prec emax P E _ _ Fh') as [Fp _].
    destruct (num_float prec emax P E Hp2 num Hn) as [N1 [N2 [N3 N4]]].
    assert (Vp : B2R (Bmult mode_NE (of_N num) step) = round radix2 (SpecFloat.fexp prec emax) (round_mode mode_NE) (IZR (Z.of_N num) * B2R step)).
    { pose proof (Bmult_correct prec emax P E mode_NE (of_N num) step) as HM. rewrite N1 in HM.
      destruct (Rlt_bool _ _); [apply HM|]. exfalso. clear - HM Fp. destruct (Bmult mode_NE (of_N num) step); discriminate || (cbn in HM; destruct (xorb _ _); discriminate). }
    assert (Vh : B2R high' = round radix2 (SpecFloat.fexp prec emax) (round_mode mode_NE) (B2R (Bmult mode_NE (of_N num) step) + B2R low)).
    { pose proof (Bplus_correct prec emax P E mode_NE _ low Fp Fl) as HS. fold high' in HS. destruct (Rlt_bool _ _); [apply HS|].
      exfalso. clear - HS Fh'. destruct HS as [HS _]. destruct high'; discriminate || (cbn in HS; destruct (Bsign _); discriminate). }
    pose proof (step_accuracy_new prec emax P E Hp num low high Hn Fl Fh Hlt Fw Hw) as HS. cbv zeta in HS. fold step in HS.
    pose proof (rnd_mul_int_rel prec emax P (Z.of_N num) step) as HM. rewrite <- Vp in HM.
    pose proof (rnd_add_rel prec emax P _ _ (B2R_format prec emax (Bmult mode_NE (of_N num) step)) (B2R_format prec emax low)) as HA. rewrite <- Vh in HA.
    pose proof (u_pos prec) as Hu0. pose proof (u_tiny prec Hp) as Hu1. change (bpow radix2 (- prec)) with u in *.
    set (p := B2R (Bmult mode_NE (of_N num) step)) in *. set (n := IZR (Z.of_N num)) in *. set (W := B2R high - B2R low) in *.
    assert (HW : 0 < W) by (unfold W; lra).
    assert (Hns : W * ((1 - u) * (1 - u)) <= n * B2R step <= W * ((1 + u) * (1 + u))).
    { assert (Ew : W = n * (W / n)) by (field; lra). split; rewrite Ew at 1; rewrite (Rmult_assoc n); apply Rmult_le_compat_l; lra. }
    set (q := n * B2R step) in *. assert (Hq : 0 < q) by (unfold q; apply Rmult_lt_0_compat; lra).
    rewrite (Rabs_pos_eq q) in HM by lra. apply Rabs_le_inv in HM.
    assert (HpW : Rabs (p - W) <= (3 * u + 4 * (u * u)) * W).
    { assert (u * u <= u / 256) by nra. assert (0 < u * u) by nra. apply Rabs_le. split; nra. }
    assert (Hph : p + B2R low = B2R high + (p - W)) by (unfold W; ring). rewrite Hph in HA.
    replace (B2R high' - B2R high) with ((B2R high' - (B2R high + (p - W))) + (p - W)) by ring.
    eapply Rle_trans; [apply Rabs_triang|].
    assert (HT : Rabs (B2R high + (p - W)) <= Rabs (B2R high) + Rabs (p - W)) by apply Rabs_triang.
    assert (HuT : u * Rabs (B2R high + (p - W)) <= u * (Rabs (B2R high) + Rabs (p - W))) by (apply Rmult_le_compat_l; lra).
    set (D := Rabs (p - W)) in *. assert (HD0 : 0 <= D) by apply Rabs_pos.
    assert (HD : D + u * D <= 4 * u * W).
    { assert (Hu2 : u * u <= u / 256) by nra. assert (HD1 : D <= 3 * u * W + u / 64 * W) by nra. nra. }
    lra.
Qed.

(** The other way round: [new] for the upper edge that [with_step_size] computes gives
    an axis with exactly the same bins, and the same coordinates in the flow bins
    by the edges. *)
Theorem C85_new_of_step (num : N) (low step : flt) :
  covered_format prec emax -> (1 <= Z.of_N num < 2 ^ (prec - 1))%Z -> (num + 2 < usize_mod)%N ->
  is_finite low = true -> is_finite step = true -> 0 < B2R step ->
  let high := top_of num low step in
  ~ flt_eq low high ->
  exists a b, uniform_with_step_size ops num low step = Val (Ok a) /\ uniform_new ops num low high = Val (Ok b)
  /\ uniform_num_bins a = uniform_num_bins b
  /\ (forall i, uniform_bin ops a i = uniform_bin ops b i)
  /\ (forall i, uniformnoflow_bin ops (mkUniformNoFlow a) i = uniformnoflow_bin ops (mkUniformNoFlow b) i)
  /\ (forall x, flt_lt x low \/ flt_le high x -> uniform_index ops a x = uniform_index ops b x).
Proof.
  intros [Hp He] Hn Hus Fl Fs Hs high Hne. assert (Hp2 : (2 <= prec <= 63)%Z) by lia.
  destruct (regular_step prec emax P E Hp2 num low step Hn Hus Fl Fs Hs) as [_ Hgt]. fold high in Hgt.
  exists (mkUniform num low high step), (mkUniform num low high (step_of num low high)).
  assert (Hn0 : (num =? 0)%N = false) by (apply N.eqb_neq; lia).
  split. { unfold uniform_with_step_size. cbn [n_from_usize n_mul n_add n_zero float_ops obind]. rewrite Hn0.
    assert (Hle : @le_ _ (@num_ord _ ops) step (B754_zero false) = false) by (rewrite le_fin by (assumption || reflexivity); apply Rle_bool_false; cbn; lra).
    rewrite Hle. fold high. rewrite Hgt. reflexivity. }
  split. { unfold uniform_new. rewrite Hn0, Hgt.
    assert (Heq : @eq_ _ (@num_ord _ ops) low high = false).
    { unfold flt_eq in Hne. unfold eq_. cbn [partial_cmp num_ord float_ops]. destruct (Bcompare low high) as [[]|]; reflexivity || congruence. }
    rewrite Heq. reflexivity. }
  split; [reflexivity|]. split; [reflexivity|]. split; [reflexivity|].
  intros x Hx. unfold uniform_index. cbn [u_num u_low u_high]. destruct Hx as [Hx|Hx].
  - apply flt_lt_iff in Hx. rewrite Hx. reflexivity.
  - apply flt_le_iff in Hx. pose proof (float_ord_laws prec emax P E) as HL. rewrite !(ge_le _ _ HL), Hx. reflexivity.
Qed.

End Constructors.
Print Assumptions C85_step_of_new.
Print Assumptions C85_new_of_step.

(** On a grid the two constructors give equal axes ([==]), which are interchangeable:
    the same bin number for EVERY coordinate, on the grid or not. *)
Theorem C85_grid : forall (prec emax : Z) (P : Prec_gt_0 prec) (E : Prec_lt_emax prec emax) (B : Build) (e : Z)
  (num : N) (low high step : binary_float prec emax) (L S : Z),
  covered_format prec emax -> grid_params prec emax e num L S ->
  grid_value e low L -> grid_value e high (L + Z.of_N num * S) -> grid_value e step S ->
  let ops := float_ops prec emax P E in
  exists a b, uniform_new ops num low high = Val (Ok a) /\ uniform_with_step_size ops num low step = Val (Ok b)
  /\ uniform_eqb ops a b = true
  /\ interchangeable (uniform_axis ops) (@same_interval _ (@num_ord _ ops)) a b
  /\ interchangeable (uniformnoflow_axis ops) (@same_interval _ (@num_ord _ ops)) (mkUniformNoFlow a) (mkUniformNoFlow b)
  /\ interchangeable (uniformcyclic_axis ops) (@same_interval _ (@num_ord _ ops))
       (mkUniformCyclic (mkUniformNoFlow a)) (mkUniformCyclic (mkUniformNoFlow b)).
Proof.
  intros prec emax P E B e num low high step L S HF HG Hl Hh Hs ops.
  pose proof HF as [Hp He]. pose proof HG as [G1 G2 G3 G4 G5 G6 G7].
  destruct (grid_new prec emax P E Hp He e G1 num low high L S Hl Hh ltac:(lia) G4 G5) as [a [Ha [An [Al [Ah As]]]]].
  destruct (grid_step prec emax P E Hp He e G1 num low step L S Hl Hs ltac:(lia) G4 G5 G7) as [b [Hb [Bn [Bl [Bh Bs]]]]].
  assert (Heq : forall (x y : binary_float prec emax) X, grid_value e x X -> grid_value e y X -> @eq_ _ (@num_ord _ ops) x y = true).
  { intros x y X [Fx Vx] [Fy Vy]. unfold eq_. cbn [partial_cmp num_ord float_ops ops].
    rewrite (Bcompare_correct _ _ x y Fx Fy), Vx, Vy, Rcompare_Eq by reflexivity. reflexivity. }
  assert (Heqb : uniform_eqb ops a b = true).
  { unfold uniform_eqb. rewrite An, Bn, N.eqb_refl. cbn [andb].
    rewrite (Heq (u_low a) (u_low b) L) by (rewrite ?Al, ?Bl; exact Hl).
    rewrite (Heq (u_high a) (u_high b) (L + Z.of_N num * S)%Z) by (rewrite ?Ah; assumption).
    rewrite (Heq (u_step a) (u_step b) S) by (rewrite ?Bs; assumption). reflexivity. }
  destruct (C52_float_axes prec emax P E B bsearch_early bsearch_early_ext) as [Q1 [Q2 [Q3 _]]].
  exists a, b. split; [exact Ha|]. split; [exact Hb|]. split; [exact Heqb|].
  split; [apply Q1; exact Heqb|]. split; [apply Q2; exact Heqb | apply Q3; exact Heqb].
Qed.
Print Assumptions C85_grid.

(** In general they are not interchangeable: for [f64], 11 bins over [0, 100) the computed
    step gives the upper edge 100.00000000000001, so 100.0 is in the overflow bin of the axis
    made by [new] and in the last inner bin of the one made by [with_step_size]. *)
Theorem C85_interchangeable_refuted : forall B : Build,
  let low := f64_lit 0 0 in let high := f64_lit 100 0 in
  let step := Bdiv mode_NE (Bminus mode_NE high low) (float_of_N 53 1024 prec64 emax64 11) in
  exists a b, uniform_new f64_ops 11 low high = Val (Ok a) /\ uniform_with_step_size f64_ops 11 low step = Val (Ok b)
  /\ uniform_index f64_ops a high = Val (Some 12%N)
  /\ uniform_index f64_ops b high = Val (Some 11%N)
  /\ uniform_eqb f64_ops a b = false.
Proof.
  intros B low high step.
  pose (top := Bplus mode_NE (Bmult mode_NE (float_of_N 53 1024 prec64 emax64 11) step) low).
  exists (mkUniform 11 low high step), (mkUniform 11 low top step).
  split. { unfold uniform_new. change (11 =? 0)%N with false.
    assert (H1 : @eq_ _ (@num_ord _ f64_ops) low high = false) by (vm_compute; reflexivity).
    assert (H2 : @gt_ _ (@num_ord _ f64_ops) low high = false) by (vm_compute; reflexivity).
    rewrite H1, H2. reflexivity. }
  split. { unfold uniform_with_step_size. change (11 =? 0)%N with false. cbn [n_from_usize n_mul n_add n_zero float_ops f64_ops obind].
    assert (H1 : @le_ _ (@num_ord _ f64_ops) step (B754_zero false) = false) by (vm_compute; reflexivity).
    assert (H2 : @gt_ _ (@num_ord _ f64_ops) low top = false) by (vm_compute; reflexivity).
    rewrite H1. fold top. rewrite H2. reflexivity. }
  split; [destruct B as [? []]; vm_compute; reflexivity|].
  split; [destruct B as [? []]; vm_compute; reflexivity|].
  vm_compute; reflexivity.
Qed.
Print Assumptions C85_interchangeable_refuted.

(** Cases: [Uniform::new(10, 0.0, 1.0)], whose step is 0.1 rounded; [with_step_size(10, 0.0, 1.0)];
    the grid of eighths with [new(8, -1.0, 2.0)] and [with_step_size(8, -1.0, 0.375)]. *)
Example C85_nonvacuous : forall B : Build,
  (covered_format 53 1024 /\ (1 <= Z.of_N 10 < 2 ^ (53 - 1))%Z /\ (10 + 2 < usize_mod)%N
   /\ is_finite (Bminus mode_NE (f64_lit 1 0) (f64_lit 0 0)) = true /\ B2R (f64_lit 0 0) < B2R (f64_lit 1 0)
   /\ IZR (Z.of_N 10) * smallest_normal 1024 <= B2R (f64_lit 1 0) - B2R (f64_lit 0 0))
  /\ (is_finite (f64_lit 0 0) = true /\ is_finite (f64_lit 1 0) = true /\ 0 < B2R (f64_lit 1 0)
   /\ ~ flt_eq (f64_lit 0 0) (Bplus mode_NE (Bmult mode_NE (float_of_N 53 1024 prec64 emax64 10) (f64_lit 1 0)) (f64_lit 0 0)))
  /\ (grid_params 53 1024 (-3) 8 (-8) 3
   /\ grid_value (-3) (f64_lit (-8) (-3)) (-8) /\ grid_value (-3) (f64_lit 16 (-3)) (-8 + Z.of_N 8 * 3) /\ grid_value (-3) (f64_lit 3 (-3)) 3).
Proof.
  intros B. destruct float_params_nonvacuous as (F1 & F2 & F3 & F4 & F5 & F6 & F7 & _).
  destruct float_step_params_nonvacuous as (S1 & S2 & S3 & _). destruct (C80_nonvacuous B) as (_ & (G1 & _ & G2) & _).
  split.
  - split; [exact F1|]. split; [exact F2|]. split; [destruct B as [? []]; vm_compute; reflexivity|].
    split; [exact F6|]. split; [exact F5 | exact F7].
  - split; [|split; [exact G1 | exact G2]]. split; [exact S1|]. split; [exact S2|]. split; [exact S3|].
    vm_compute. discriminate.
Qed.
