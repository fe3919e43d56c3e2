(** * FloatCyclic: wrapping a float coordinate into the range of a cyclic axis. *)
From Coq Require Import List ZArith NArith Bool Lia Reals Lra ZifyN ZifyNat.
From Flocq Require Import Core IEEE754.BinarySingleNaN Relative Plus_error.
From Verif Require Import Base BaseFacts Num Float Axis Spec OrdLaws FloatOrd FloatFacts Uniform FloatUniform FloatUniformNew FloatUniformAcc FloatUniformEdge.
Open Scope R_scope.

Section Cyclic.
Variable prec emax : Z.
Context (prec_gt_0_ : Prec_gt_0 prec).
Context (prec_lt_emax_ : Prec_lt_emax prec emax).
Context {Bd : Build}.
Context (Hp : (8 <= prec <= 63)%Z) (He : (64 < emax)%Z).
Notation flt := (binary_float prec emax).
Notation ops := (float_ops prec emax prec_gt_0_ prec_lt_emax_).
Notation fexp := (SpecFloat.fexp prec emax).
Notation emin := (SpecFloat.emin prec emax).
Notation rnd := (round radix2 fexp (round_mode mode_NE)).
Notation u := (bpow radix2 (- prec)).
Notation top := (bpow radix2 emax).
Notation fmod := (Bfmod prec emax prec_gt_0_ prec_lt_emax_).

Lemma mant_lt (m : positive) (e : Z) : SpecFloat.bounded prec emax m e = true -> (Zpos m < 2 ^ prec)%Z /\ (emin <= e)%Z.
Proof.
  intros Hb. unfold SpecFloat.bounded in Hb. apply andb_prop in Hb. destruct Hb as [H1 _].
  apply (canonical_canonical_mantissa prec emax false) in H1. unfold canonical in H1. cbn [Fexp] in H1. cbn [SpecFloat.cond_Zopp] in H1.
  assert (He1 : (emin <= e)%Z) by (rewrite H1; unfold cexp, SpecFloat.fexp; lia).
  split; [|exact He1].
  assert (Hm : mag radix2 (F2R (Float radix2 (Zpos m) e)) = (mag radix2 (IZR (Zpos m)) + e)%Z :> Z) by (apply mag_F2R; discriminate).
  unfold cexp in H1. rewrite Hm in H1. unfold SpecFloat.fexp in H1.
  assert (Hmag : (mag radix2 (IZR (Zpos m)) <= prec)%Z) by lia.
  apply lt_IZR. change (2 ^ prec)%Z with (Zpower radix2 prec). rewrite IZR_Zpower by lia.
  apply Rlt_le_trans with (bpow radix2 (mag radix2 (IZR (Zpos m)))); [|apply bpow_le; exact Hmag].
  rewrite <- (Rabs_pos_eq (IZR (Zpos m))) at 1 by (apply IZR_le; lia). apply bpow_mag_gt.
Qed.

Lemma fmod_correct (x y : flt) : is_finite x = true -> is_finite y = true -> 0 < B2R y ->
  is_finite (fmod x y) = true
  /\ exists q : Z, B2R (fmod x y) = B2R x - IZR q * B2R y
     /\ Rabs (B2R (fmod x y)) < B2R y /\ Rabs (IZR q) * B2R y <= Rabs (B2R x).
Proof.
  intros Fx Fy Hy.
  destruct y as [sy|sy| |sy my ey Hby]; try discriminate Fy; [cbn in Hy; lra|].
  destruct sy.
  { exfalso. cbn in Hy. pose proof (F2R_lt_0 radix2 (Float radix2 (Zneg my) ey) ltac:(cbn; lia)). cbn in Hy. lra. }
  destruct x as [sx|sx| |sx mx ex Hbx]; try discriminate Fx.
  { split; [reflexivity|]. exists 0%Z. cbn [Bfmod B2R]. rewrite Rabs_R0, Rmult_0_l. split; [ring|]. split; [exact Hy|].
    lra. }
  cbn [Bfmod]. set (e := Z.min ex ey). set (X := (Zpos mx * 2 ^ (ex - e))%Z). set (Y := (Zpos my * 2 ^ (ey - e))%Z).
  destruct (mant_lt mx ex Hbx) as [Mx Ex]. destruct (mant_lt my ey Hby) as [My Ey].
  assert (HY : (0 < Y)%Z) by (unfold Y; apply Z.mul_pos_pos; [lia | apply Z.pow_pos_nonneg; lia]).
  assert (HX : (0 < X)%Z) by (unfold X; apply Z.mul_pos_pos; [lia | apply Z.pow_pos_nonneg; lia]).
  assert (Hscale : forall m e', (e <= e')%Z -> IZR (Zpos m * 2 ^ (e' - e)) * bpow radix2 e = IZR (Zpos m) * bpow radix2 e').
  { intros m e' Hle. rewrite mult_IZR. change (2 ^ (e' - e))%Z with (Zpower radix2 (e' - e)). rewrite IZR_Zpower by lia.
    rewrite Rmult_assoc, <- bpow_plus. do 2 f_equal. lia. }
  assert (VY : B2R (B754_finite false my ey Hby) = IZR Y * bpow radix2 e).
  { cbn [B2R SpecFloat.cond_Zopp cond_Zopp]. unfold F2R. cbn [Fnum Fexp]. symmetry. apply Hscale. unfold e. lia. }
  assert (VX : B2R (B754_finite sx mx ex Hbx) = IZR (cond_Zopp sx X) * bpow radix2 e).
  { cbn [B2R]. unfold F2R. cbn [Fnum Fexp]. pose proof (Hscale mx ex ltac:(unfold e; lia)) as Hs. fold X in Hs.
    destruct sx; cbn [cond_Zopp SpecFloat.cond_Zopp]; [|symmetry; exact Hs].
    change (Zneg mx) with (- Zpos mx)%Z. rewrite !opp_IZR. rewrite <- !Ropp_mult_distr_l. rewrite <- Hs. reflexivity. }
  set (R := (X mod Y)%Z). pose proof (Z.mod_pos_bound X Y HY) as HR. fold R in HR.
  assert (HRX : (R <= X)%Z) by (apply Z.mod_le; lia).
  assert (HRp : (R < 2 ^ prec)%Z).
  { destruct (Z.le_ge_cases ex ey) as [Hle|Hle].
    - replace X with (Zpos mx) in HRX; [lia|]. unfold X, e. rewrite Z.min_l by lia. rewrite Z.sub_diag, Z.pow_0_r. lia.
    - assert (HYm : Y = Zpos my). { unfold Y, e. rewrite Z.min_r by lia. rewrite Z.sub_diag, Z.pow_0_r. lia. } lia. }
  pose proof (binary_normalize_correct prec emax prec_gt_0_ prec_lt_emax_ mode_NE (cond_Zopp sx R) e sx) as HN. cbv zeta in HN.
  assert (Hfmt : generic_format radix2 fexp (F2R (Float radix2 (cond_Zopp sx R) e))).
  { rewrite fexp_FLT. apply generic_format_FLT. exists (Float radix2 (cond_Zopp sx R) e); [reflexivity | |].
    - cbn [Fnum]. change (Zpower radix2 prec) with (2 ^ prec)%Z. destruct sx; cbn [cond_Zopp]; lia.
    - cbn [Fexp]. unfold e. lia. }
  rewrite rnd_format in HN by exact Hfmt.
  assert (HRabs : Rabs (F2R (Float radix2 (cond_Zopp sx R) e)) = IZR R * bpow radix2 e).
  { unfold F2R. cbn [Fnum Fexp]. rewrite Rabs_mult, (Rabs_pos_eq (bpow radix2 e)) by apply bpow_ge_0. f_equal.
    rewrite <- abs_IZR. f_equal. destruct sx; cbn [cond_Zopp]; lia. }
  assert (Hlt : IZR R * bpow radix2 e < IZR Y * bpow radix2 e) by (apply Rmult_lt_compat_r; [apply bpow_gt_0 | apply IZR_lt; lia]).
  rewrite Rlt_bool_true in HN.
  2: { rewrite HRabs. eapply Rlt_trans; [exact Hlt|]. rewrite <- VY. rewrite <- (Rabs_pos_eq (B2R _)) by lra. apply abs_B2R_lt_emax. }
  destruct HN as [N1 [N2 _]]. split; [exact N2|].
  assert (HXd : X = (Y * (X / Y) + R)%Z) by (apply Z.div_mod; lia).
  exists (cond_Zopp sx (X / Y)). rewrite N1. rewrite VY, VX. split; [|split].
  - unfold F2R. cbn [Fnum Fexp]. rewrite <- Rmult_assoc, <- mult_IZR, <- Rmult_minus_distr_r, <- minus_IZR. do 2 f_equal.
    destruct sx; cbn [cond_Zopp]; lia.
  - rewrite HRabs. exact Hlt.
  - rewrite Rabs_mult, (Rabs_pos_eq (bpow radix2 e)) by apply bpow_ge_0. rewrite <- Rmult_assoc.
    apply Rmult_le_compat_r; [apply bpow_ge_0|]. rewrite <- !abs_IZR, <- mult_IZR. apply IZR_le.
    assert (0 <= X / Y)%Z by (apply Z.div_pos; lia). destruct sx; cbn [cond_Zopp]; nia.
Qed.

(** ** The wrapped coordinate *)
Section Wrap.
Variables (low high x : flt).
Let L := B2R low.
Let H := B2R high.
Let X := B2R x.
Let W := H - L.
Let S := Rabs X + Rabs L + Rabs H.
Hypothesis Fl : is_finite low = true.
Hypothesis Fh : is_finite high = true.
Hypothesis Fx : is_finite x = true.
Hypothesis Hlt : L < H.
Hypothesis Fw : is_finite (Bminus mode_NE high low) = true.
Hypothesis Fd : is_finite (Bminus mode_NE x low) = true.

Lemma minus_value (a b : flt) : is_finite a = true -> is_finite b = true -> is_finite (Bminus mode_NE a b) = true ->
  B2R (Bminus mode_NE a b) = rnd (B2R a - B2R b).
Proof.
  intros Fa Fb Fab. pose proof (Bminus_correct prec emax _ _ mode_NE a b Fa Fb) as HM.
  destruct (Rlt_bool_spec (Rabs (rnd (B2R a - B2R b))) top) as [Hb|Hb]; [apply HM|].
  destruct HM as [HM _]. exfalso. destruct (Bminus mode_NE a b); try discriminate Fab; destruct (Bsign a); discriminate HM.
Qed.

(** [wrap_coordinate] is [rnd (r' + L)] for a representative [r'] of [X - L] modulo
    the range, up to rounding. *)
Lemma wrap_value : exists (y : flt) (r' : R) (m : Z),
  wrap_coordinate ops low high x = Val y
  /\ generic_format radix2 fexp r' /\ 0 <= r' <= rnd W
  /\ Rabs (r' + L - (X - IZR m * W)) <= 3 * u * Rabs (X - L) + 3 * u * W
  /\ ((Rabs (rnd (r' + L)) < top /\ is_finite y = true /\ B2R y = rnd (r' + L))
      \/ (top <= Rabs (rnd (r' + L)) /\ is_finite y = false)).
Proof.
  pose proof (u_pos prec) as Hu0. pose proof (u_tiny prec Hp) as Hu1.
  pose proof (minus_value high low Fh Fl Fw) as VW. pose proof (minus_value x low Fx Fl Fd) as VD. fold H L X in VW, VD.
  set (range := Bminus mode_NE high low) in *. set (d := Bminus mode_NE x low) in *.
  assert (HW0 : 0 < W) by (unfold W; lra).
  pose proof (rnd_sub_rel prec emax prec_gt_0_ high low) as HwE. fold H L in HwE. fold W in HwE, VW.
  rewrite (Rabs_pos_eq W) in HwE by lra. apply Rabs_le_inv in HwE.
  pose proof (rnd_sub_rel prec emax prec_gt_0_ x low) as HdE. fold X L in HdE.
  set (W' := rnd W) in *. set (D := X - L) in *. set (D' := rnd D) in *.
  assert (HW' : 0 < W') by nra.
  destruct (fmod_correct d range Fd Fw ltac:(rewrite VW; exact HW')) as [Fr [q [Vr [Hr1 Hr2]]]].
  rewrite VD, VW in Vr. rewrite VW in Hr1, Hr2. rewrite VD in Hr2.
  set (r := fmod d range) in *.
  (* |q| W is of the order of |D| *)
  assert (HaD : Rabs D' <= Rabs D * (1 + u)).
  { replace D' with (D + (D' - D)) by ring. eapply Rle_trans; [apply Rabs_triang|]. lra. }
  assert (HqW : Rabs (IZR q) * W <= Rabs D * (1 + 3 * u)).
  { assert (H1 : Rabs (IZR q) * W * (1 - u) <= Rabs D * (1 + u)).
    { apply Rle_trans with (Rabs (IZR q) * W'); [|lra]. rewrite Rmult_assoc. apply Rmult_le_compat_l; [apply Rabs_pos | lra]. }
    apply Rmult_le_reg_r with (1 - u); [lra|]. eapply Rle_trans; [exact H1|]. rewrite Rmult_assoc.
    apply Rmult_le_compat_l; [apply Rabs_pos | nra]. }
  assert (HrE : Rabs (B2R r - (D - IZR q * W)) <= 3 * u * Rabs D).
  { rewrite Vr. replace (D' - IZR q * W' - (D - IZR q * W)) with ((D' - D) - IZR q * (W' - W)) by ring.
    eapply Rle_trans; [apply Rabs_triang|]. rewrite Rabs_Ropp, Rabs_mult.
    assert (HwA : Rabs (W' - W) <= u * W) by (apply Rabs_le; lra).
    assert (H1 : Rabs (IZR q) * Rabs (W' - W) <= u * (Rabs (IZR q) * W)).
    { replace (u * (Rabs (IZR q) * W)) with (Rabs (IZR q) * (u * W)) by ring. apply Rmult_le_compat_l; [apply Rabs_pos | exact HwA]. }
    assert (H2 : u * (Rabs (IZR q) * W) <= u * (Rabs D * (1 + 3 * u))) by (apply Rmult_le_compat_l; lra).
    assert (H3 : u * (Rabs D * (1 + 3 * u)) <= 2 * u * Rabs D).
    { replace (2 * u * Rabs D) with (u * (Rabs D * 2)) by ring. apply Rmult_le_compat_l; [lra|].
      apply Rmult_le_compat_l; [apply Rabs_pos | lra]. }
    lra. }
  apply Rabs_lt_inv in Hr1.
  assert (Hplus : forall r' : flt, is_finite r' = true ->
     (Rabs (rnd (B2R r' + L)) < top /\ is_finite (Bplus mode_NE r' low) = true /\ B2R (Bplus mode_NE r' low) = rnd (B2R r' + L))
     \/ (top <= Rabs (rnd (B2R r' + L)) /\ is_finite (Bplus mode_NE r' low) = false)).
  { intros r' Fr'. pose proof (Bplus_correct prec emax _ _ mode_NE r' low Fr' Fl) as HA. fold L in HA.
    destruct (Rlt_bool_spec (Rabs (rnd (B2R r' + L))) top) as [Hb|Hb]; [left|right].
    - destruct HA as [A1 [A2 _]]. auto.
    - destruct HA as [A1 _]. split; [exact Hb|].
      destruct (Bplus mode_NE r' low); try reflexivity; destruct (Bsign r'); discriminate A1. }
  unfold wrap_coordinate. cbn [n_sub n_rem n_add n_zero float_ops obind]. fold range d. fold r.
  rewrite lt_fin by (reflexivity || exact Fr).
  destruct (Rlt_bool_spec (B2R r) (B2R (B754_zero false : flt))) as [Hneg|Hneg]; change (B2R (B754_zero false : flt)) with 0 in Hneg; cbn [obind].
  - (* negative remainder *)
    assert (HrW : 0 <= rnd (W' + B2R r) <= W').
    { split; [apply rnd_pos; [exact prec_gt_0_ | lra]|]. rewrite <- (rnd_format prec emax W') at 2.
      - apply rnd_le; [exact prec_gt_0_ | lra].
      - apply generic_format_round; [apply fexp_correct; exact prec_gt_0_ | apply valid_rnd_N]. }
    assert (HWtop : W' < top).
    { rewrite <- VW. rewrite <- (Rabs_pos_eq (B2R range)) by lra. apply abs_B2R_lt_emax. }
    pose proof (Bplus_correct prec emax _ _ mode_NE range r Fw Fr) as HA. rewrite VW in HA.
    rewrite Rlt_bool_true in HA by (rewrite Rabs_pos_eq; lra).
    destruct HA as [A1 [A2 _]].
    exists (Bplus mode_NE (Bplus mode_NE range r) low), (rnd (W' + B2R r)), (q - 1)%Z.
    split; [reflexivity|].
    split; [apply generic_format_round; [apply fexp_correct; exact prec_gt_0_ | apply valid_rnd_N]|]. split; [exact HrW|]. split.
    + assert (HS : Rabs (rnd (W' + B2R r) - (W' + B2R r)) <= u * Rabs (W' + B2R r)).
      { apply (rnd_add_rel prec emax prec_gt_0_); [|apply B2R_format].
        apply generic_format_round; [apply fexp_correct; exact prec_gt_0_ | apply valid_rnd_N]. }
      rewrite (Rabs_pos_eq (W' + B2R r)) in HS by lra.
      rewrite minus_IZR. 
      replace (rnd (W' + B2R r) + L - (X - (IZR q - 1) * W))
        with ((rnd (W' + B2R r) - (W' + B2R r)) + ((W' - W) + (B2R r - (D - IZR q * W)))) by (unfold D; ring).
      eapply Rle_trans; [apply Rabs_triang|].
      assert (Rabs ((W' - W) + (B2R r - (D - IZR q * W))) <= u * W + 3 * u * Rabs D).
      { eapply Rle_trans; [apply Rabs_triang|]. assert (Rabs (W' - W) <= u * W) by (apply Rabs_le; lra). lra. }
      assert (u * (W' + B2R r) <= u * (2 * W)) by (apply Rmult_le_compat_l; nra). lra.
    + rewrite <- A1. apply Hplus. exact A2.
  - exists (Bplus mode_NE r low), (B2R r), q. split; [reflexivity|]. split; [apply B2R_format|]. split; [lra|]. split.
    + replace (B2R r + L - (X - IZR q * W)) with (B2R r - (D - IZR q * W)) by (unfold D; ring).
      assert (0 <= u * W) by nra. lra.
    + apply Hplus. exact Fr.
Qed.
End Wrap.
End Cyclic.
