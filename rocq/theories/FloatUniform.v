(** * FloatUniform: lemmas about the Uniform axis over IEEE floats. *)
From Coq Require Import List ZArith NArith Bool Lia Reals Lra ZifyN ZifyNat.
From Flocq Require Import Core IEEE754.BinarySingleNaN Relative Plus_error.
From Verif Require Import Base BaseFacts Num Float Axis Spec OrdLaws FloatOrd FloatFacts Uniform.
Open Scope R_scope.

Section FloatUniform.
Variable prec emax : Z.
Context (prec_gt_0_ : Prec_gt_0 prec).
Context (prec_lt_emax_ : Prec_lt_emax prec emax).
Context {Bd : Build}.
Context (Hp : (2 <= prec <= 63)%Z) (He : (64 < emax)%Z).
Notation flt := (binary_float prec emax).
Notation ops := (float_ops prec emax prec_gt_0_ prec_lt_emax_).
Notation fexp := (SpecFloat.fexp prec emax).
Notation emin := (SpecFloat.emin prec emax).
Notation rnd := (round radix2 fexp (round_mode mode_NE)).
Notation u := (bpow radix2 (- prec)).
Notation top := (bpow radix2 emax).
Notation min_normal := (bpow radix2 (emin + prec - 1)).

#[local] Instance fexp_valid : Valid_exp fexp.
Proof. apply fexp_correct. exact prec_gt_0_. Qed.

Lemma rnd_le x y : x <= y -> rnd x <= rnd y.
Proof. apply round_le; [apply fexp_valid | apply valid_rnd_N]. Qed.
Lemma rnd_format x : generic_format radix2 fexp x -> rnd x = x.
Proof. intros H. apply round_generic; [apply valid_rnd_N | exact H]. Qed.
Lemma B2R_format (x : flt) : generic_format radix2 fexp (B2R x).
Proof. apply generic_format_B2R. Qed.
Lemma rnd_B2R (x : flt) : rnd (B2R x) = B2R x.
Proof. apply rnd_format, B2R_format. Qed.
Lemma rnd_0 : rnd 0 = 0.
Proof. apply round_0. apply valid_rnd_N. Qed.
Lemma rnd_pos x : 0 <= x -> 0 <= rnd x.
Proof. intros H. rewrite <- rnd_0. apply rnd_le. exact H. Qed.
Lemma u_half : / 2 * bpow radix2 (- prec + 1) = u.
Proof. rewrite bpow_plus. change (bpow radix2 1) with 2. lra. Qed.
Lemma u_pos : 0 < u. Proof. apply bpow_gt_0. Qed.
Lemma u_small : u <= / 4.
Proof. change (/ 4) with (bpow radix2 (-2)). apply bpow_le. lia. Qed.

Lemma rnd_rel x : min_normal <= Rabs x -> Rabs (rnd x - x) <= u * Rabs x.
Proof. intros H. rewrite <- u_half. apply relative_error_N_FLT; [exact prec_gt_0_ | exact H]. Qed.

Lemma rnd_add_rel x y : generic_format radix2 fexp x -> generic_format radix2 fexp y ->
  Rabs (rnd (x + y) - (x + y)) <= u * Rabs (x + y).
Proof.
  intros Fx Fy.
  destruct (FLT_plus_error_N_ex radix2 emin prec (fun x => negb (Z.even x)) x y Fx Fy) as [eps [H1 H2]].
  change (round radix2 (FLT_exp emin prec) (Znearest (fun x => negb (Z.even x))) (x + y)) with (rnd (x + y)) in H2.
  rewrite H2. replace ((x + y) * (1 + eps) - (x + y)) with (eps * (x + y)) by ring.
  rewrite Rabs_mult. apply Rmult_le_compat_r; [apply Rabs_pos|].
  eapply Rle_trans; [exact H1|]. eapply Rle_trans; [apply u_rod1pu_ro_le_u_ro|]. unfold u_ro. rewrite u_half. lra.
Qed.

Lemma rnd_sub_rel (x y : flt) : Rabs (rnd (B2R x - B2R y) - (B2R x - B2R y)) <= u * Rabs (B2R x - B2R y).
Proof. apply (rnd_add_rel (B2R x) (- B2R y)); [apply B2R_format | apply generic_format_opp, B2R_format]. Qed.

(** An integer times a float never suffers from underflow. *)
Lemma rnd_mul_int_rel z (s : flt) : Rabs (rnd (IZR z * B2R s) - IZR z * B2R s) <= u * Rabs (IZR z * B2R s).
Proof.
  destruct (Rle_or_lt min_normal (Rabs (IZR z * B2R s))) as [H|H]; [apply rnd_rel; exact H|].
  assert (Hf : generic_format radix2 fexp (IZR z * B2R s)).
  { rewrite fexp_FLT. apply generic_format_FLT_FIX; [exact prec_gt_0_ | |].
    - apply Rlt_le. eapply Rlt_le_trans; [exact H|]. apply bpow_le. lia.
    - pose proof (B2R_format s) as Fs. rewrite fexp_FLT in Fs. apply generic_format_FIX_FLT, FIX_format_generic in Fs.
      destruct Fs as [ns H1 H2]. apply generic_format_FIX. exists (Float radix2 (z * Fnum ns) emin); [|reflexivity].
      rewrite H1. unfold F2R. cbn [Fnum Fexp]. rewrite H2, mult_IZR. ring. }
  rewrite (rnd_format _ Hf). replace (IZR z * B2R s - IZR z * B2R s) with 0 by ring. rewrite Rabs_R0.
  apply Rmult_le_pos; [apply Rlt_le, u_pos | apply Rabs_pos].
Qed.

(** ** Conversions *)
Lemma bits_range : (16 <= usize_bits <= 64)%Z.
Proof. unfold usize_bits. destruct target_width; lia. Qed.
Lemma usize_mod_bits : Z.of_N usize_mod = (2 ^ usize_bits)%Z.
Proof. unfold usize_mod, usize_bits. destruct target_width; reflexivity. Qed.
Lemma usize_bpow : bpow radix2 usize_bits = IZR (Z.of_N usize_mod).
Proof. rewrite usize_mod_bits, <- IZR_Zpower by (pose proof bits_range; lia). reflexivity. Qed.

Lemma usize_end : B2R (float_usize_end prec emax _ _) = bpow radix2 usize_bits
  /\ is_finite (float_usize_end prec emax prec_gt_0_ prec_lt_emax_) = true.
Proof.
  pose proof bits_range as HB.
  unfold float_usize_end. pose proof (binary_normalize_correct prec emax _ _ mode_NE 1 usize_bits false) as H. cbv zeta in H.
  replace (F2R (Float radix2 1 usize_bits)) with (bpow radix2 usize_bits) in H by (unfold F2R; cbn [Fnum Fexp]; ring).
  rewrite rnd_format in H.
  2: { apply generic_format_bpow. rewrite fexp_FLT. unfold FLT_exp.
       pose proof (emin_le prec emax _ _). lia. }
  rewrite Rlt_bool_true in H. 2: { rewrite Rabs_pos_eq by apply bpow_ge_0. apply bpow_lt. lia. }
  destruct H as [H1 [H2 _]]. split; [exact H1 | exact H2].
Qed.

Lemma to_usize_floor (z : flt) : is_finite z = true -> 0 <= B2R z < bpow radix2 usize_bits ->
  float_to_usize prec emax _ _ z = Some (Z.to_N (Zfloor (B2R z))).
Proof.
  intros Fz Hz. destruct usize_end as [T1 T2]. unfold float_to_usize.
  assert (Fo : is_finite (Bopp (Bone : flt)) = true) by (rewrite is_finite_Bopp; apply is_finite_Bone).
  rewrite !Bltb_correct by assumption. rewrite B2R_Bopp, Bone_correct, T1.
  rewrite !Rlt_bool_true by lra. cbn [andb]. do 2 f_equal.
  apply eq_IZR. rewrite Btrunc_correct by exact prec_lt_emax_.
  unfold round, F2R, scaled_mantissa, cexp, FIX_exp. cbn [Fnum Fexp]. change (bpow radix2 0) with 1.
  change (bpow radix2 (- 0)) with 1. rewrite !Rmult_1_r. f_equal. apply Ztrunc_floor. apply Hz.
Qed.

Lemma to_usize_not_finite (z : flt) : is_finite z = false -> float_to_usize prec emax _ _ z = None.
Proof.
  intros Fz. unfold float_to_usize. destruct usize_end as [T1 T2].
  destruct z as [s|[]| |s m e H]; try discriminate.
  - destruct (Bopp (Bone : flt)) as [|[]| |[]] eqn:E; try reflexivity.
  - replace (Bltb (B754_infinity false) (float_usize_end prec emax _ _)) with false; [rewrite andb_false_r; reflexivity|].
    destruct (float_usize_end prec emax _ _) as [|[]| |[]]; try discriminate T2; reflexivity.
  - replace (Bltb (Bopp Bone) (B754_nan : flt)) with false; [reflexivity|].
    destruct (Bopp (Bone : flt)) as [|[]| |[]]; reflexivity.
Qed.

(** ** Comparisons *)
Lemma lt_fin (x y : flt) : is_finite x = true -> is_finite y = true -> @lt_ _ (@num_ord _ ops) x y = Rlt_bool (B2R x) (B2R y).
Proof.
  intros Fx Fy. unfold lt_. cbn [partial_cmp num_ord float_ops]. rewrite Bcompare_correct by assumption.
  unfold Rlt_bool. destruct (Rcompare (B2R x) (B2R y)); reflexivity.
Qed.
Lemma ge_fin (x y : flt) : is_finite x = true -> is_finite y = true -> @ge_ _ (@num_ord _ ops) x y = Rle_bool (B2R y) (B2R x).
Proof.
  intros Fx Fy. unfold ge_. cbn [partial_cmp num_ord float_ops]. rewrite Bcompare_correct by assumption.
  unfold Rle_bool. rewrite (Rcompare_sym (B2R y)). destruct (Rcompare (B2R x) (B2R y)); reflexivity.
Qed.
Lemma le_fin (x y : flt) : is_finite x = true -> is_finite y = true -> @le_ _ (@num_ord _ ops) x y = Rle_bool (B2R x) (B2R y).
Proof.
  intros Fx Fy. unfold le_. cbn [partial_cmp num_ord float_ops]. rewrite Bcompare_correct by assumption.
  unfold Rle_bool. destruct (Rcompare (B2R x) (B2R y)); reflexivity.
Qed.
Lemma lt_fin_false (x y : flt) : is_finite x = true -> is_finite y = true -> @lt_ _ (@num_ord _ ops) x y = false -> B2R y <= B2R x.
Proof. intros Fx Fy. rewrite lt_fin by assumption. destruct (Rlt_bool_spec (B2R x) (B2R y)); [discriminate | auto]. Qed.
Lemma ge_fin_false (x y : flt) : is_finite x = true -> is_finite y = true -> @ge_ _ (@num_ord _ ops) x y = false -> B2R x < B2R y.
Proof. intros Fx Fy. rewrite ge_fin by assumption. destruct (Rle_bool_spec (B2R y) (B2R x)); [discriminate | auto]. Qed.

(** ** The index of a coordinate inside the range *)

Notation index := (uniform_index ops).

Lemma num_fits (n : N) : (Z.of_N n < 2 ^ (prec - 1))%Z -> (Z.of_N n < 2 ^ prec)%Z.
Proof.
  intros Hn. assert (H2 : (2 ^ (prec - 1) <= 2 ^ prec)%Z) by (apply Z.pow_le_mono_r; lia).
  lia.
Qed.

(** A NaN goes to the overflow bin, whatever the axis. *)
Lemma index_nan (a : Uniform flt) : (u_num a + 1 < usize_mod)%N -> index a B754_nan = Val (Some (u_num a + 1)%N).
Proof.
  intros Hn. unfold uniform_index. 
  assert (E1 : @lt_ _ (@num_ord _ ops) B754_nan (u_low a) = false) by reflexivity.
  assert (E2 : @ge_ _ (@num_ord _ ops) B754_nan (u_high a) = false) by reflexivity.
  rewrite E1, E2. cbn [n_sub n_div n_to_usize float_ops obind].
  replace (Bminus mode_NE B754_nan (u_low a)) with (B754_nan : flt) by (destruct (u_low a); reflexivity).
  replace (Bdiv mode_NE B754_nan (u_step a)) with (B754_nan : flt) by (destruct (u_step a); reflexivity).
  rewrite to_usize_not_finite by reflexivity. rewrite uadd_ok by exact Hn. reflexivity.
Qed.

(** Axes on which the computation of the index is well behaved. *)
Record regular (a : Uniform flt) : Prop := {
  rg_num : (1 <= Z.of_N (u_num a) < 2 ^ (prec - 1))%Z;
  rg_usize : (u_num a + 2 < usize_mod)%N;
  rg_low : is_finite (u_low a) = true;
  rg_high : is_nan (u_high a) = false;
  rg_step : is_finite (u_step a) = true;
  rg_pos : 0 < B2R (u_step a);
  rg_bound : forall x : flt, is_finite x = true -> B2R (u_low a) <= B2R x ->
    @ge_ _ (@num_ord _ ops) x (u_high a) = false ->
    rnd (B2R x - B2R (u_low a)) < top ->
    rnd (B2R x - B2R (u_low a)) <= (IZR (Z.of_N (u_num a)) + / 2) * B2R (u_step a)
}.

Lemma half_format z : (0 <= z < 2 ^ (prec - 1))%Z -> generic_format radix2 fexp (IZR z + / 2).
Proof.
  intros Hz. replace (IZR z + / 2) with (F2R (Float radix2 (2 * z + 1) (-1))).
  - rewrite fexp_FLT. apply generic_format_FLT. exists (Float radix2 (2 * z + 1) (-1)); [reflexivity | |].
    + cbn [Fnum]. change (Zpower radix2 prec) with (2 ^ prec)%Z.
      replace prec with (1 + (prec - 1))%Z by lia. rewrite Z.pow_add_r by lia. lia.
    + cbn [Fexp]. unfold SpecFloat.emin. lia.
  - unfold F2R. cbn [Fnum Fexp]. change (bpow radix2 (-1)) with (/ 2). rewrite plus_IZR, mult_IZR. lra.
Qed.

(** [steps] as computed, for a finite distance [d]. *)
Lemma steps_computed (d s : flt) (z : Z) : (1 <= z < 2 ^ (prec - 1))%Z ->
  is_finite d = true -> is_finite s = true -> 0 < B2R s -> 0 <= B2R d <= (IZR z + / 2) * B2R s ->
  is_finite (Bdiv mode_NE d s) = true /\ B2R (Bdiv mode_NE d s) = rnd (B2R d / B2R s)
  /\ 0 <= rnd (B2R d / B2R s) <= IZR z + / 2.
Proof.
  intros Hz Fd Fs Hs Hd.
  assert (Hq : 0 <= rnd (B2R d / B2R s) <= IZR z + / 2).
  { split.
    - apply rnd_pos. apply Rmult_le_pos; [lra|]. apply Rlt_le, Rinv_0_lt_compat, Hs.
    - rewrite <- (rnd_format (IZR z + / 2)) by (apply half_format; lia). apply rnd_le.
      apply Rmult_le_reg_r with (B2R s); [exact Hs|]. replace (B2R d / B2R s * B2R s) with (B2R d) by (field; lra). apply Hd. }
  pose proof (Bdiv_correct prec emax _ _ mode_NE d s) as H. specialize (H ltac:(lra)).
  rewrite Rlt_bool_true in H.
  - destruct H as [H1 [H2 _]]. rewrite Fd in H2. auto.
  - rewrite Rabs_pos_eq by apply Hq. apply Rle_lt_trans with (1 := proj2 Hq).
    apply Rlt_trans with (bpow radix2 prec); [|apply bpow_lt; exact prec_lt_emax_].
    rewrite <- IZR_Zpower by lia. change (Zpower radix2 prec) with (2 ^ prec)%Z.
    assert (H2 : (z + 1 <= 2 ^ prec)%Z).
    { assert (2 ^ (prec - 1) < 2 ^ prec)%Z by (apply Z.pow_lt_mono_r; lia). lia. }
    apply IZR_le in H2. rewrite plus_IZR in H2. lra.
Qed.

Lemma floor_half x z : 0 <= x <= IZR z + / 2 -> (0 <= Zfloor x <= z)%Z.
Proof.
  intros [H1 H2]. split.
  - apply Zfloor_lub. exact H1.
  - assert (H3 : (Zfloor x < z + 1)%Z); [|lia]. apply lt_IZR. rewrite plus_IZR. pose proof (Zfloor_lb x). lra.
Qed.

(** Subtraction of the lower edge. *)
Lemma distance_computed (x low : flt) : is_finite x = true -> is_finite low = true -> B2R low <= B2R x ->
  0 <= rnd (B2R x - B2R low)
  /\ (rnd (B2R x - B2R low) < top -> is_finite (Bminus mode_NE x low) = true
        /\ B2R (Bminus mode_NE x low) = rnd (B2R x - B2R low))
  /\ (top <= rnd (B2R x - B2R low) -> Bminus mode_NE x low = B754_infinity false).
Proof.
  intros Fx Fl Hle. assert (H0 : 0 <= rnd (B2R x - B2R low)) by (apply rnd_pos; lra).
  split; [exact H0|]. pose proof (Bminus_correct prec emax _ _ mode_NE x low Fx Fl) as H.
  rewrite (Rabs_pos_eq _ H0) in H. split.
  - intros Ht. rewrite Rlt_bool_true in H by exact Ht. destruct H as [H1 [H2 _]]. auto.
  - intros Ht. rewrite Rlt_bool_false in H by exact Ht. destruct H as [H1 H2].
    assert (Hs : Bsign x = false).
    { destruct (Bsign x) eqn:E; [|reflexivity]. exfalso. symmetry in H2. apply negb_true_iff in H2.
      (* x <= 0 <= low contradicts low <= x unless both are zero *)
      assert (Hx : B2R x <= 0) by (destruct x as [s|s| |s m e Hb]; cbn in E |- *; try lra; subst s; apply F2R_le_0; cbn; lia).
      assert (Hl : 0 <= B2R low) by (destruct low as [s|s| |s m e Hb]; cbn in H2 |- *; try lra; subst s; apply F2R_ge_0; cbn; lia).
      assert (Hz : B2R x - B2R low = 0) by lra. rewrite Hz, rnd_0 in Ht. pose proof (bpow_gt_0 radix2 emax). lra. }
    rewrite Hs in H1. apply B2SF_inj. rewrite H1. reflexivity.
Qed.

Section Index.

Lemma regular_index (a : Uniform flt) (x : flt) : regular a -> is_finite x = true ->
  @lt_ _ (@num_ord _ ops) x (u_low a) = false -> @ge_ _ (@num_ord _ ops) x (u_high a) = false ->
  let d := rnd (B2R x - B2R (u_low a)) in
  (d < top /\ 0 <= rnd (d / B2R (u_step a)) <= IZR (Z.of_N (u_num a)) + / 2
     /\ index a x = Val (Some (Z.to_N (Zfloor (rnd (d / B2R (u_step a)))) + 1)%N))
  \/ (top <= d /\ index a x = Val (Some (u_num a + 1)%N)).
Proof.
  intros [Rn Hn Rl Rh Rs Rp Rb] Fx E1 E2 d. pose proof (lt_fin_false _ _ Fx Rl E1) as Hle.
  destruct (distance_computed x (u_low a) Fx Rl Hle) as [D0 [D1 D2]]. fold d in D0, D1, D2.
  unfold uniform_index. rewrite E1, E2. cbn [n_sub n_div n_to_usize float_ops obind].
  destruct (Rlt_or_le d top) as [Ht|Ht].
  - left. destruct (D1 Ht) as [Fd Hd].
    destruct (steps_computed (Bminus mode_NE x (u_low a)) (u_step a) (Z.of_N (u_num a)) Rn Fd Rs Rp) as [S1 [S2 S3]].
    { rewrite Hd. split; [exact D0|]. apply Rb; assumption. }
    rewrite Hd in S2, S3. split; [exact Ht|]. split; [exact S3|].
    rewrite to_usize_floor; [|exact S1|].
    + rewrite S2. pose proof (floor_half _ _ S3) as Hfl. rewrite uadd_ok by lia. reflexivity.
    + rewrite S2. split; [apply S3|]. eapply Rle_lt_trans; [apply S3|].
      rewrite usize_bpow.
      assert (Hz : (Z.of_N (u_num a) + 1 <= Z.of_N usize_mod)%Z) by lia.
      apply IZR_le in Hz. rewrite plus_IZR in Hz. lra.
  - right. split; [exact Ht|]. rewrite (D2 Ht).
    assert (Hinf : Bdiv mode_NE (B754_infinity false) (u_step a) = B754_infinity (xorb false (Bsign (u_step a)))).
    { destruct (u_step a) as [| | |s m e Hb]; try discriminate Rs; reflexivity. }
    rewrite Hinf, to_usize_not_finite by reflexivity. rewrite uadd_ok by lia. reflexivity.
Qed.

(** The three regions, for a regular axis. *)
Lemma regular_cases (a : Uniform flt) (x : flt) : regular a ->
  (@lt_ _ (@num_ord _ ops) x (u_low a) = true /\ index a x = Val (Some 0%N))
  \/ (@lt_ _ (@num_ord _ ops) x (u_low a) = false /\ @ge_ _ (@num_ord _ ops) x (u_high a) = true
      /\ index a x = Val (Some (u_num a + 1)%N))
  \/ (x = B754_nan /\ index a x = Val (Some (u_num a + 1)%N))
  \/ (@lt_ _ (@num_ord _ ops) x (u_low a) = false /\ @ge_ _ (@num_ord _ ops) x (u_high a) = false /\ is_finite x = true).
Proof.
  intros R. pose proof (rg_num a R) as Rn. pose proof (rg_usize a R) as Hn.
  destruct (is_nan x) eqn:Nx.
  { right. right. left. destruct x; try discriminate. split; [reflexivity|]. apply index_nan. lia. }
  destruct (lt_ x (u_low a)) eqn:E1.
  { left. split; [reflexivity|]. unfold uniform_index. rewrite E1. reflexivity. }
  right. destruct (ge_ x (u_high a)) eqn:E2.
  { left. split; [reflexivity|]. split; [reflexivity|]. unfold uniform_index. rewrite E1, E2. rewrite uadd_ok by lia. reflexivity. }
  right. right. split; [reflexivity|]. split; [reflexivity|].
  pose proof (rg_low a R) as Rl. pose proof (rg_high a R) as Rh.
  destruct x as [s|[]| |s m e Hb]; try discriminate; try reflexivity; exfalso.
  - unfold lt_ in E1. cbn in E1. destruct (u_low a) as [|[]| |[]]; try discriminate.
  - unfold ge_ in E2. cbn in E2. destruct (u_high a) as [|[]| |[]]; try discriminate.
Qed.

Lemma regular_valid (a : Uniform flt) (x : flt) : regular a ->
  exists i, index a x = Val (Some i) /\ (i <= u_num a + 1)%N.
Proof.
  intros R. destruct (regular_cases a x R) as [[_ E]|[[_ [_ E]]|[[_ E]|[E1 [E2 Fx]]]]]; try (eexists; split; [exact E | lia]).
  destruct (regular_index a x R Fx E1 E2) as [[_ [Hs E]]|[_ E]]; eexists; (split; [exact E|]); [|lia].
  pose proof (floor_half _ _ Hs). lia.
Qed.

Lemma regular_monotone (a : Uniform flt) (x y : flt) i j : regular a ->
  @le_ _ (@num_ord _ ops) x y = true -> index a x = Val (Some i) -> index a y = Val (Some j) -> (i <= j)%N.
Proof.
  intros R Hxy Hi Hj. pose proof (float_ord_laws prec emax prec_gt_0_ prec_lt_emax_) as L.
  destruct (le_num _ _ L x y Hxy) as [Nx Ny].
  assert (Hmax : forall z k, index a z = Val (Some k) -> (k <= u_num a + 1)%N).
  { intros z k Hk. destruct (regular_valid a z R) as [k' [E Hk']]. rewrite Hk in E. injection E as <-. exact Hk'. }
  destruct (regular_cases a x R) as [[_ E]|[[Ex1 [Ex2 E]]|[[E _]|[Ex1 [Ex2 Fx]]]]].
  - rewrite Hi in E. injection E as ->. lia.
  - (* x >= high *)
    rewrite (ge_le _ _ L) in Ex2. pose proof (law_trans _ _ L _ _ _ Ex2 Hxy) as Hhy.
    destruct (regular_cases a y R) as [[Ey _]|[[_ [_ Ey]]|[[Ey _]|[_ [Ey _]]]]].
    + exfalso. pose proof (le_lt_trans _ _ L _ _ _ Hxy Ey) as Hlt. congruence.
    + rewrite Hj in Ey. injection Ey as ->. apply Hmax in Hi. exact Hi.
    + subst y. discriminate Ny.
    + rewrite (ge_le _ _ L) in Ey. congruence.
  - subst x. discriminate Nx.
  - destruct (regular_cases a y R) as [[Ey _]|[[_ [_ Ey]]|[[Ey _]|[Ey1 [Ey2 Fy]]]]].
    + exfalso. pose proof (le_lt_trans _ _ L _ _ _ Hxy Ey) as Hlt. congruence.
    + rewrite Hj in Ey. injection Ey as ->. apply Hmax in Hi. exact Hi.
    + subst y. discriminate Ny.
    + assert (HR : B2R x <= B2R y).
      { rewrite le_fin in Hxy by assumption. destruct (Rle_bool_spec (B2R x) (B2R y)); [assumption | discriminate]. }
      assert (Hd : rnd (B2R x - B2R (u_low a)) <= rnd (B2R y - B2R (u_low a))) by (apply rnd_le; lra).
      destruct (regular_index a y R Fy Ey1 Ey2) as [[Hty [Hsy Ey]]|[Hty Ey]]; rewrite Hj in Ey; injection Ey as ->.
      2: { apply Hmax in Hi. exact Hi. }
      destruct (regular_index a x R Fx Ex1 Ex2) as [[Htx [Hsx Ex]]|[Htx Ex]]; rewrite Hi in Ex; injection Ex as ->; [|lra].
      pose proof (floor_half _ _ Hsx). pose proof (floor_half _ _ Hsy).
      assert (Hf : (Zfloor (rnd (rnd (B2R x - B2R (u_low a)) / B2R (u_step a)))
                    <= Zfloor (rnd (rnd (B2R y - B2R (u_low a)) / B2R (u_step a))))%Z).
      { apply Zfloor_le, rnd_le. apply Rmult_le_compat_r; [|exact Hd].
        apply Rlt_le, Rinv_0_lt_compat, (rg_pos a R). }
      apply N.add_le_mono_r. apply Z2N.inj_le; [apply (floor_half _ _ Hsx) | apply (floor_half _ _ Hsy) | exact Hf].
Qed.
End Index.
End FloatUniform.
