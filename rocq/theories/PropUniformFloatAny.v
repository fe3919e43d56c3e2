(** * Property theorems: float Uniform axes of any width and number of bins (C04, C08). *)
From Coq Require Import List ZArith NArith Bool Lia Reals Lra ZifyN ZifyNat.
From Flocq Require Import Core IEEE754.BinarySingleNaN.
From Verif Require Import Base BaseFacts Num Float Axis Spec OrdLaws FloatOrd FloatFacts FloatSpec Uniform
  FloatUniform FloatUniformNew FloatUniformAcc FloatUniformEdge PropUniformFloat.
Open Scope R_scope.

Section Flt.
Context (prec emax : Z) (P : Prec_gt_0 prec) (E : Prec_lt_emax prec emax) {Bd : Build} (Hf : covered_format prec emax).
Notation flt := (binary_float prec emax).
Notation ops := (float_ops prec emax P E).
Notation fexp := (SpecFloat.fexp prec emax).
Notation rnd := (round radix2 fexp (round_mode mode_NE)).

(** Truncating a float with fewer mantissa bits than [usize] has bits never gives
    the largest [usize]. *)
Lemma to_usize_bound (z : flt) k : (prec < usize_bits)%Z -> float_to_usize prec emax P E z = Some k -> (k + 1 < usize_mod)%N.
Proof.
  pose proof Hf as [Hp He]. destruct (usize_end prec emax P E ltac:(lia) He) as [T1 T2]. intros Hb Hz. pose proof bits_range as HB.
  destruct (is_finite z) eqn:Fz; [|rewrite (to_usize_not_finite prec emax P E ltac:(lia) He z Fz) in Hz; discriminate].
  assert (Fo : is_finite (Bopp (Bone : flt)) = true) by (rewrite is_finite_Bopp; apply is_finite_Bone).
  pose proof Hz as Hz'. unfold float_to_usize in Hz'. rewrite !Bltb_correct in Hz' by assumption.
  rewrite B2R_Bopp, Bone_correct, T1 in Hz'.
  destruct (Rlt_bool_spec (- (1)) (B2R z)) as [H1|]; [|discriminate].
  destruct (Rlt_bool_spec (B2R z) (bpow radix2 usize_bits)) as [H2|]; [|discriminate].
  cbn [andb] in Hz'. injection Hz' as Hk.
  assert (Ht : Btrunc z = Ztrunc (B2R z)).
  { apply eq_IZR. rewrite Btrunc_correct by exact E.
    unfold round, F2R, scaled_mantissa, cexp, FIX_exp. cbn [Fnum Fexp]. change (bpow radix2 0) with 1.
    change (bpow radix2 (- 0)) with 1. rewrite !Rmult_1_r. reflexivity. }
  assert (Hle : B2R z <= bpow radix2 usize_bits - 2).
  { assert (Hpr : B2R z <= pred radix2 fexp (bpow radix2 usize_bits)).
    { apply (pred_ge_gt radix2 fexp); [apply generic_format_B2R | | exact H2].
      apply generic_format_bpow. unfold SpecFloat.fexp, SpecFloat.emin. lia. }
    rewrite pred_bpow in Hpr. eapply Rle_trans; [exact Hpr|].
    apply Rplus_le_compat_l, Ropp_le_contravar. change 2 with (bpow radix2 1). apply bpow_le.
    unfold SpecFloat.fexp, SpecFloat.emin. lia. }
  assert (Hz0 : (Btrunc z <= Z.of_N usize_mod - 2)%Z).
  { rewrite Ht. replace (Z.of_N usize_mod - 2)%Z with (Ztrunc (IZR (Z.of_N usize_mod - 2))) by apply Ztrunc_IZR.
    apply Ztrunc_le. rewrite minus_IZR, <- usize_bpow. exact Hle. }
  pose proof usize_mod_large. subst k. lia.
Qed.

Lemma index_returns (a : Uniform flt) x : (prec < usize_bits)%Z -> (u_num a + 1 < usize_mod)%N ->
  exists i, uniform_index ops a x = Val (Some i).
Proof.
  intros Hb Hn. unfold uniform_index. destruct (lt_ x (u_low a)); [eexists; reflexivity|].
  destruct (ge_ x (u_high a)); [rewrite uadd_ok by exact Hn; eexists; reflexivity|].
  cbn [n_sub n_div n_to_usize float_ops obind].
  destruct (float_to_usize _ _ _ _ _) as [k|] eqn:Ek; [rewrite uadd_ok by (eapply to_usize_bound; [exact Hb | exact Ek]) | rewrite uadd_ok by exact Hn];
    eexists; reflexivity.
Qed.

(** [num as T]: positive. *)
Lemma of_N_positive n : (1 <= n < usize_mod)%N ->
  is_finite (float_of_N prec emax P E n) = true /\ 1 <= B2R (float_of_N prec emax P E n).
Proof.
  pose proof Hf as [Hp He]. intros Hn. unfold float_of_N.
  pose proof (binary_normalize_correct prec emax P E mode_NE (Z.of_N n) 0 false) as H. cbv zeta in H.
  replace (F2R (Float radix2 (Z.of_N n) 0)) with (IZR (Z.of_N n)) in H by (unfold F2R; cbn; ring).
  assert (H1 : 1 <= rnd (IZR (Z.of_N n))).
  { apply round_ge_generic; [apply fexp_correct; exact P | apply valid_rnd_N | | apply IZR_le; lia].
    change 1 with (bpow radix2 0). apply generic_format_bpow. unfold SpecFloat.fexp, SpecFloat.emin. lia. }
  assert (H2 : rnd (IZR (Z.of_N n)) <= bpow radix2 64).
  { apply round_le_generic; [apply fexp_correct; exact P | apply valid_rnd_N | |].
    - apply generic_format_bpow. unfold SpecFloat.fexp, SpecFloat.emin. lia.
    - change (bpow radix2 64) with (IZR (2 ^ 64)). apply IZR_le. pose proof usize_mod_bits as HU. pose proof bits_range as HB.
      assert (2 ^ usize_bits <= 2 ^ 64)%Z by (apply Z.pow_le_mono_r; lia). lia. }
  rewrite Rlt_bool_true in H.
  - destruct H as [-> [F _]]. auto.
  - rewrite Rabs_pos_eq by lra. eapply Rle_lt_trans; [exact H2|]. apply bpow_lt. lia.
Qed.

(** Adding something that is not negative does not decrease. *)
Lemma plus_not_below (p low : flt) : Bsign p = false \/ is_nan p = true ->
  @gt_ _ (@num_ord _ ops) low (Bplus mode_NE p low) = false.
Proof.
  intros Hs. unfold gt_. cbn [partial_cmp num_ord float_ops].
  destruct (is_finite p) eqn:Fp; [destruct (is_finite low) eqn:Fl|].
  - assert (Hs' : Bsign p = false) by (destruct Hs as [Hs|Hs]; [exact Hs | destruct p; discriminate]).
    assert (Hpos : 0 <= B2R p).
    { destruct p as [s|s| |s m e Hb]; try discriminate; cbn in Hs'; subst s; cbn [B2R]; [lra|]. apply F2R_ge_0. cbn. lia. }
    pose proof (Bplus_correct prec emax P E mode_NE p low Fp Fl) as H.
    destruct (Rlt_bool _ _) in H.
    + destruct H as [HR [HF _]]. rewrite Bcompare_correct by assumption. rewrite HR.
      assert (Hle : B2R low <= rnd (B2R p + B2R low)).
      { apply round_ge_generic; [apply fexp_correct; exact P | apply valid_rnd_N | apply generic_format_B2R | lra]. }
      destruct (Rcompare_spec (B2R low) (rnd (B2R p + B2R low))) as [Hc|Hc|Hc]; try reflexivity. lra.
    + destruct H as [HS _]. rewrite Hs' in HS.
      destruct (Bplus mode_NE p low) as [|[]| |] eqn:Eb; try (cbn in HS; discriminate HS).
      destruct low as [|[]| |[]]; try discriminate Fl; reflexivity.
  - destruct low as [|[]| |]; try discriminate Fl; destruct p as [|[]| |]; try discriminate Fp; reflexivity.
  - destruct p as [s|s| |s m e Hb]; try discriminate Fp.
    + destruct Hs as [Hs|Hs]; [cbn in Hs; subst s | discriminate]. destruct low as [|[]| |[]]; reflexivity.
    + destruct low as [|[]| |[]]; reflexivity.
Qed.

Lemma mult_sign (n step : flt) : is_finite n = true -> 1 <= B2R n ->
  @le_ _ (@num_ord _ ops) step (B754_zero false) = false ->
  Bsign (Bmult mode_NE n step) = false \/ is_nan (Bmult mode_NE n step) = true.
Proof.
  intros Fn Hn Hs. destruct n as [s|s| |s m e Hb]; try discriminate; [cbn in Hn; lra|].
  destruct s. { exfalso. cbn [B2R] in Hn. pose proof (F2R_lt_0 radix2 (Float radix2 (Z.neg m) e) ltac:(cbn; lia)) as Hneg. cbn [cond_Zopp] in Hn. change (Z.neg m) with (- Z.pos m)%Z in Hneg. lra. }
  destruct step as [s|s| |s m' e' Hb'].
  - destruct s; discriminate.
  - destruct s; [discriminate | left; reflexivity].
  - right. reflexivity.
  - destruct s; [discriminate|]. left.
    pose proof (Bmult_correct prec emax P E mode_NE (B754_finite false m e Hb) (B754_finite false m' e' Hb')) as H.
    destruct (Rlt_bool _ _) in H.
    + destruct H as [_ [HF HS]]. rewrite HS; [reflexivity|].
      destruct (Bmult mode_NE _ _) eqn:Eb; try reflexivity; discriminate.
    + destruct (Bmult mode_NE _ _) as [sx|sx| |sx mx ex Hx]; cbn in H; try discriminate H. injection H as ->. reflexivity.
Qed.
End Flt.

(** C04, whatever the width and the number of bins, and whatever the axis' fields:
    [index] never panics and always answers [Some], if [usize] has more bits than the
    mantissa (f64 and f32 on a 64-bit target, f32 on a 32-bit target). *)
Theorem C04_float_index_never_panics : forall (prec emax : Z) (P : Prec_gt_0 prec) (E : Prec_lt_emax prec emax) (B : Build)
  (a : Uniform (binary_float prec emax)) x,
  covered_format prec emax -> (prec < usize_bits)%Z -> (u_num a + 2 < usize_mod)%N ->
  exists i, uniform_index (float_ops prec emax P E) a x = Val (Some i).
Proof. intros prec emax P E B a x Hf Hb Hn. apply index_returns; [exact Hf | exact Hb | lia]. Qed.
Print Assumptions C04_float_index_never_panics.

(** On narrower targets that bound is needed.  An accepted f64 axis whose bins are narrower
    than the smallest normal number, on a 16 or 32-bit target: the index of a coordinate in
    range panics with overflow checks, and without them is 0, the underflow bin. *)
Theorem C04_float_index_narrow_refuted : forall B : Build, target_width <> P64 ->
  exists num low high x a,
    (num + 2 < usize_mod)%N
    /\ uniform_new f64_ops num low high = Val (Ok a)
    /\ flt_le low x /\ flt_lt x high
    /\ uniform_index f64_ops a x = (if overflow_checks then Panic else Val (Some 0%N)).
Proof.
  intros B Hw.
  exists (usize_mod / 4 * 3)%N, (f64_lit 0 0), (f64_lit (Z.of_N usize_mod) (-1074)), (f64_lit (Z.of_N usize_mod - 1) (-1074)).
  destruct B as [c []]; [| | contradiction]; (eexists; split; [vm_compute; reflexivity|]; split; [reflexivity|];
    split; [left; vm_compute; reflexivity|]; split; [vm_compute; reflexivity|]; destruct c; vm_compute; reflexivity).
Qed.
Print Assumptions C04_float_index_narrow_refuted.

(** C08: every outcome of [with_step_size] over floats, for every number of bins. *)
Theorem C08_with_step_size_float_any_num : forall (prec emax : Z) (P : Prec_gt_0 prec) (E : Prec_lt_emax prec emax) (B : Build)
  (num : N) (low step : binary_float prec emax),
  covered_format prec emax -> (num + 2 < usize_mod)%N ->
  let ops := float_ops prec emax P E in
  let r := uniform_with_step_size ops num low step in
  (r = Val (Err InvalidNumberOfBins) <-> num = 0%N)
  /\ (r = Val (Err InvalidStepSize) <-> num <> 0%N /\ flt_le step (B754_zero false))
  /\ (num <> 0%N -> ~ flt_le step (B754_zero false) ->
        exists a, r = Val (Ok a)
        /\ uniform_num_bins a = Val (num + 2)%N
        /\ uniform_bin ops a 0 = Val (Some (Underflow low))
        /\ uniform_bin ops a (num + 1)
           = Val (Some (Overflow (Bplus mode_NE (Bmult mode_NE (float_of_N prec emax P E num) step) low)))).
Proof.
  intros prec emax P E B num low step Hf Hn ops r.
  assert (H0 : num = 0%N -> r = Val (Err InvalidNumberOfBins)) by (intros ->; reflexivity).
  assert (H1 : num <> 0%N -> flt_le step (B754_zero false) -> r = Val (Err InvalidStepSize)).
  { intros Hnz Hle. unfold r, uniform_with_step_size. cbn [n_from_usize n_mul n_add n_zero float_ops obind ops].
    destruct (N.eqb_spec num 0); [contradiction|]. apply flt_le_iff in Hle. fold ops in Hle. rewrite Hle. reflexivity. }
  assert (H2 : num <> 0%N -> ~ flt_le step (B754_zero false) ->
        exists a, r = Val (Ok a)
        /\ uniform_num_bins a = Val (num + 2)%N
        /\ uniform_bin ops a 0 = Val (Some (Underflow low))
        /\ uniform_bin ops a (num + 1)
           = Val (Some (Overflow (Bplus mode_NE (Bmult mode_NE (float_of_N prec emax P E num) step) low)))).
  { intros Hnz Hle. unfold r, uniform_with_step_size. cbn [n_from_usize n_mul n_add n_zero float_ops obind ops].
    destruct (N.eqb_spec num 0); [contradiction|].
    destruct (le_ step (B754_zero false)) eqn:El; [exfalso; apply Hle, flt_le_iff; exact El|].
    destruct (of_N_positive prec emax P E Hf num ltac:(lia)) as [Fn Pn].
    pose proof (plus_not_below prec emax P E _ low (mult_sign prec emax P E _ step Fn Pn El)) as Hg. fold ops in Hg. rewrite Hg.
    eexists; split; [reflexivity|]. split; [apply uadd_ok; exact Hn|]. split; [reflexivity|].
    unfold uniform_bin. cbn [u_num u_high]. rewrite uadd_ok by lia. cbn [obind]. rewrite N.eqb_refl.
    destruct (N.eqb_spec (num + 1) 0); [lia | reflexivity]. }
  assert (Hdec : flt_le step (B754_zero false) \/ ~ flt_le step (B754_zero false)).
  { destruct (@le_ _ (@num_ord _ ops) step (B754_zero false)) eqn:El; [left; apply flt_le_iff; exact El|].
    right. intros Hc. apply (flt_le_iff (P := P) (E := E)) in Hc. fold ops in Hc. congruence. }
  split; [|split; [|exact H2]].
  - split; [|exact H0]. intros Hr. destruct (N.eq_dec num 0) as [Hz|Hnz]; [exact Hz|]. exfalso.
    destruct Hdec as [Hle|Hle]; [rewrite (H1 Hnz Hle) in Hr; discriminate|].
    destruct (H2 Hnz Hle) as [a [Ha _]]. rewrite Ha in Hr. discriminate.
  - split; [|intros [Hnz Hle]; exact (H1 Hnz Hle)]. intros Hr. destruct (N.eq_dec num 0) as [Hz|Hnz].
    + rewrite (H0 Hz) in Hr. discriminate.
    + split; [exact Hnz|]. destruct Hdec as [Hle|Hle]; [exact Hle|]. exfalso.
      destruct (H2 Hnz Hle) as [a [Ha _]]. rewrite Ha in Hr. discriminate.
Qed.
Print Assumptions C08_with_step_size_float_any_num.

(** 2^60 bins of f64. *)
Example C08_any_num_nonvacuous : forall B : Build, target_width = P64 ->
  (2 ^ 60 + 2 < usize_mod)%N /\ covered_format 53 1024 /\ (53 < usize_bits)%Z
  /\ exists a, uniform_with_step_size f64_ops (2 ^ 60) (f64_lit 0 0) (f64_lit 1 0) = Val (Ok a).
Proof.
  intros [c w] Hw. cbn in Hw. subst w. split; [reflexivity|]. split; [exact f64_covered|]. split; [reflexivity|].
  eexists. reflexivity.
Qed.
