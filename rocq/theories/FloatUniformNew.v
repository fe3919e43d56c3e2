(** * FloatUniformNew: the axes returned by the float constructors. *)
From Coq Require Import List ZArith NArith Bool Lia Reals Lra ZifyN ZifyNat.
From Flocq Require Import Core IEEE754.BinarySingleNaN Relative Plus_error.
From Verif Require Import Base BaseFacts Num Float Axis Spec OrdLaws FloatOrd FloatFacts Uniform FloatUniform.
Open Scope R_scope.

Section New.
Variable prec emax : Z.
Context (prec_gt_0_ : Prec_gt_0 prec).
Context (prec_lt_emax_ : Prec_lt_emax prec emax).
Context {Bd : Build}.
Context (Hp : (2 <= prec <= 63)%Z) (He : (64 < emax)%Z).
Notation flt := (binary_float prec emax).
Notation ops := (float_ops prec emax prec_gt_0_ prec_lt_emax_).
Notation fexp := (SpecFloat.fexp prec emax).
Notation emin := (SpecFloat.emin prec emax).
Notation rnd := (round radix2 fexp (round_mode mode_NE)).
Notation u := (bpow radix2 (- prec)).
Notation top := (bpow radix2 emax).
Notation min_normal := (bpow radix2 (emin + prec - 1)).
Notation of_N := (float_of_N prec emax prec_gt_0_ prec_lt_emax_).
Notation regular := (regular prec emax prec_gt_0_ prec_lt_emax_).
Notation index := (uniform_index ops).

Lemma u_2p : u * IZR (2 ^ prec) = 1.
Proof.
  change (2 ^ prec)%Z with (Zpower radix2 prec). rewrite IZR_Zpower by lia. rewrite <- bpow_plus.
  replace (- prec + prec)%Z with 0%Z by lia. reflexivity.
Qed.

Lemma u_num_small (z : Z) : (1 <= z < 2 ^ (prec - 1))%Z -> (2 * IZR z + 1) * u <= 1 - u.
Proof.
  intros Hz. pose proof u_2p as H2. pose proof (u_pos prec) as H0.
  assert (H1 : (2 * z + 2 <= 2 ^ prec)%Z).
  { replace prec with (1 + (prec - 1))%Z at 1 by lia. rewrite Z.pow_add_r by lia. lia. }
  apply IZR_le in H1. rewrite plus_IZR, mult_IZR in H1. nra.
Qed.

Lemma num_float (n : N) : (1 <= Z.of_N n < 2 ^ (prec - 1))%Z ->
  B2R (of_N n) = IZR (Z.of_N n) /\ is_finite (of_N n) = true /\ Bsign (of_N n) = false /\ 1 <= IZR (Z.of_N n).
Proof.
  intros Hn. pose proof (num_fits prec Hp n ltac:(lia)) as H2.
  destruct (float_of_N_exact prec emax prec_gt_0_ prec_lt_emax_ n ltac:(lia)) as [E1 [E2 E3]].
  repeat split; try assumption. apply IZR_le. lia.
Qed.

(** ** [Uniform::new] *)

Lemma minus_finite (x y : flt) : is_finite (Bminus mode_NE x y) = true -> is_finite x = true /\ is_finite y = true.
Proof. destruct x as [sx|sx| |sx mx ex Hx], y as [sy|sy| |sy my ey Hy]; cbn; auto; destruct sx, sy; cbn; discriminate. Qed.

(** For an ordered, non-overflowing range: the computed width. *)
Lemma width_computed (low high : flt) : is_finite low = true -> is_finite high = true -> B2R low < B2R high ->
  is_finite (Bminus mode_NE high low) = true ->
  B2R (Bminus mode_NE high low) = rnd (B2R high - B2R low) /\ rnd (B2R high - B2R low) < top.
Proof.
  intros Fl Fh Hlt Fw. destruct (distance_computed prec emax prec_gt_0_ prec_lt_emax_ high low Fh Fl ltac:(lra)) as [D0 [D1 D2]].
  destruct (Rlt_or_le (rnd (B2R high - B2R low)) top) as [Ht|Ht].
  - destruct (D1 Ht) as [_ H]. auto.
  - rewrite (D2 Ht) in Fw. discriminate.
Qed.

Lemma new_step (n : N) (w : flt) : (1 <= Z.of_N n < 2 ^ (prec - 1))%Z -> is_finite w = true ->
  is_finite (Bdiv mode_NE w (of_N n)) = true /\ B2R (Bdiv mode_NE w (of_N n)) = rnd (B2R w / IZR (Z.of_N n)).
Proof.
  intros Hn Fw. destruct (num_float n Hn) as [N1 [N2 [N3 N4]]].
  pose proof (Bdiv_correct prec emax _ _ mode_NE w (of_N n)) as H. rewrite N1 in H. specialize (H ltac:(lra)).
  rewrite Rlt_bool_true in H.
  - destruct H as [H1 [H2 _]]. rewrite Fw in H2. auto.
  - apply Rle_lt_trans with (Rabs (B2R w)); [|apply abs_B2R_lt_emax].
    rewrite <- (rnd_B2R prec emax w) at 2. rewrite <- !round_NE_abs; [|apply fexp_correct; exact prec_gt_0_..].
    apply rnd_le; [exact prec_gt_0_ |]. unfold Rdiv. rewrite Rabs_mult, Rabs_inv.
    rewrite (Rabs_pos_eq (IZR (Z.of_N n))) by lra.
    rewrite <- (Rmult_1_r (Rabs (B2R w))) at 2. apply Rmult_le_compat_l; [apply Rabs_pos|].
    rewrite <- Rinv_1. apply Rinv_le_contravar; lra.
Qed.

Lemma regular_new (n : N) (low high : flt) : (1 <= Z.of_N n < 2 ^ (prec - 1))%Z -> (n + 2 < usize_mod)%N ->
  is_finite low = true -> is_finite high = true -> B2R low < B2R high -> is_finite (Bminus mode_NE high low) = true ->
  let step := Bdiv mode_NE (Bminus mode_NE high low) (of_N n) in
  min_normal <= B2R step -> regular (mkUniform n low high step).
Proof.
  intros Hn Hus Fl Fh Hlt Fw step Hnorm. destruct (width_computed low high Fl Fh Hlt Fw) as [W1 W2].
  destruct (new_step n _ Hn Fw) as [S1 S2]. fold step in S1, S2. destruct (num_float n Hn) as [_ [_ [_ N4]]].
  pose proof (bpow_gt_0 radix2 (emin + prec - 1)) as Hmin.
  constructor; cbn [u_num u_low u_high u_step]; auto; try lra.
  - destruct high; try discriminate; reflexivity.
  - intros x Fx Hlx Hge _.
    pose proof (ge_fin_false prec emax prec_gt_0_ prec_lt_emax_ x high Fx Fh Hge) as Hxh.
    apply Rle_trans with (B2R (Bminus mode_NE high low)).
    { rewrite W1. apply rnd_le; [exact prec_gt_0_ | lra]. }
    set (w := B2R (Bminus mode_NE high low)) in *. set (m := IZR (Z.of_N n)) in *.
    destruct (Rle_or_lt min_normal (w / m)) as [Hq|Hq].
    + assert (Hwm : 0 < w / m) by lra.
      pose proof (rnd_rel prec emax prec_gt_0_ (w / m)) as Hr.
      rewrite (Rabs_pos_eq (w / m)) in Hr by lra. specialize (Hr Hq). rewrite <- S2 in Hr.
      apply Rabs_le_inv in Hr. pose proof (u_num_small (Z.of_N n) Hn) as Hu. fold m in Hu.
      pose proof (u_pos prec) as Hu0.
      assert (Hw : w = w / m * m) by (field; lra). set (q := w / m) in *. rewrite Hw. nra.
    + assert (Hw : w = w / m * m) by (field; lra). set (q := w / m) in *. rewrite Hw. nra.
Qed.

(** ** [Uniform::with_step_size] *)
Lemma regular_step (n : N) (low step : flt) : (1 <= Z.of_N n < 2 ^ (prec - 1))%Z -> (n + 2 < usize_mod)%N ->
  is_finite low = true -> is_finite step = true -> 0 < B2R step ->
  let high := Bplus mode_NE (Bmult mode_NE (of_N n) step) low in
  regular (mkUniform n low high step) /\ @gt_ _ (@num_ord _ ops) low high = false.
Proof.
  intros Hn Hus Fl Fs Hs high. destruct (num_float n Hn) as [N1 [N2 [N3 N4]]]. set (m := IZR (Z.of_N n)) in *.
  pose proof (Bmult_correct prec emax _ _ mode_NE (of_N n) step) as HM. rewrite N1 in HM.
  assert (HP0 : 0 <= rnd (m * B2R step)) by (apply rnd_pos; [exact prec_gt_0_ |]; nra).
  rewrite (Rabs_pos_eq _ HP0) in HM.
  assert (Hsgn : Bsign step = false).
  { destruct step as [s|s| |s sm se Hb]; try discriminate Fs; [cbn in Hs; lra|]. destruct s; [|reflexivity].
    exfalso. cbn in Hs. pose proof (F2R_lt_0 radix2 (Float radix2 (Zneg sm) se) ltac:(cbn; lia)). unfold cond_Zopp in Hs. cbn in Hs. lra. }
  assert (Hmul : (rnd (m * B2R step) < top /\ is_finite (Bmult mode_NE (of_N n) step) = true
                  /\ B2R (Bmult mode_NE (of_N n) step) = rnd (m * B2R step))
                 \/ (top <= rnd (m * B2R step) /\ Bmult mode_NE (of_N n) step = B754_infinity false)).
  { destruct (Rlt_or_le (rnd (m * B2R step)) top) as [Ht|Ht].
    - left. rewrite Rlt_bool_true in HM by exact Ht. destruct HM as [H1 [H2 _]]. rewrite N2, Fs in H2. auto.
    - right. split; [exact Ht|]. rewrite Rlt_bool_false in HM by exact Ht. rewrite N3, Hsgn in HM. apply B2SF_inj. rewrite HM. reflexivity. }
  (* the upper edge *)
  assert (Hhigh : is_nan high = false /\ @gt_ _ (@num_ord _ ops) low high = false
    /\ forall x : flt, is_finite x = true -> @ge_ _ (@num_ord _ ops) x high = false ->
         top <= rnd (m * B2R step) \/ B2R x - B2R low <= rnd (m * B2R step)).
  { destruct Hmul as [[Ht [Fm Em]]|[Ht Em]].
    - pose proof (Bplus_correct prec emax _ _ mode_NE (Bmult mode_NE (of_N n) step) low Fm Fl) as HA. rewrite Em in HA. fold high in HA.
      set (P := rnd (m * B2R step)) in *.
      assert (Hlow : B2R low <= rnd (P + B2R low)).
      { rewrite <- (rnd_B2R prec emax low) at 1. apply rnd_le; [exact prec_gt_0_ | lra]. }
      assert (Hx : forall x : flt, B2R x < rnd (P + B2R low) -> B2R x - B2R low <= P).
      { intros x Hx. destruct (Rle_or_lt (B2R x - B2R low) P) as [Hle|Hgt]; [exact Hle|]. exfalso.
        assert (Hr : rnd (P + B2R low) <= rnd (B2R x)) by (apply rnd_le; [exact prec_gt_0_ | lra]).
        rewrite rnd_B2R in Hr; lra. }
      destruct (Rlt_or_le (Rabs (rnd (P + B2R low))) top) as [Hb|Hb].
      + rewrite Rlt_bool_true in HA by exact Hb. destruct HA as [A1 [A2 _]].
        split; [destruct high; try discriminate; reflexivity|]. split.
        * unfold gt_. cbn [partial_cmp num_ord float_ops]. rewrite Bcompare_correct by assumption. rewrite A1.
          destruct (Rcompare_spec (B2R low) (rnd (P + B2R low))); try reflexivity. lra.
        * intros x Fx Hge. right. apply Hx. rewrite <- A1.
          exact (ge_fin_false prec emax prec_gt_0_ prec_lt_emax_ x high Fx A2 Hge).
      + rewrite Rlt_bool_false in HA by exact Hb. destruct HA as [A1 A2].
        assert (Hsl : Bsign low = false).
        { rewrite <- A2. destruct (Bsign (Bmult mode_NE (of_N n) step)) eqn:E; [|reflexivity]. exfalso.
          assert (Hle : B2R (Bmult mode_NE (of_N n) step) <= 0).
          { destruct (Bmult mode_NE (of_N n) step) as [s|s| |s mm ee Hbb]; cbn in E |- *; try lra. subst s. apply F2R_le_0. cbn. lia. }
          assert (Hl0 : B2R low <= 0).
          { clear - A2. destruct low as [s|s| |s mm ee Hbb]; cbn in A2 |- *; try lra. subst s. apply F2R_le_0. cbn. lia. }
          rewrite Em in Hle. assert (HPz : P = 0) by lra. rewrite HPz, Rplus_0_l, rnd_B2R in Hb.
          pose proof (abs_B2R_lt_emax prec emax low). lra. }
        assert (Hinf : high = B754_infinity false).
        { apply B2SF_inj. rewrite A1. rewrite A2, Hsl. reflexivity. }
        rewrite Hinf. split; [reflexivity|]. split; [destruct low as [|[]| |[]]; try discriminate Fl; reflexivity|].
        intros x Fx _. right. apply Hx.
        assert (Hpos : 0 <= B2R low).
        { destruct low as [s|s| |s mm ee Hbb]; cbn in Hsl |- *; try lra. subst s. apply F2R_ge_0. cbn. lia. }
        rewrite Rabs_pos_eq in Hb by lra. pose proof (abs_B2R_lt_emax prec emax x) as Hxe. apply Rabs_lt_inv in Hxe. lra.
    - assert (Hinf : high = B754_infinity false).
      { unfold high. rewrite Em. destruct low as [| | |]; try discriminate Fl; reflexivity. }
      rewrite Hinf. split; [reflexivity|]. split; [destruct low as [|[]| |[]]; try discriminate Fl; reflexivity|].
      intros x _ _. left. exact Ht. }
  destruct Hhigh as [Hh1 [Hh2 Hh3]]. split; [|exact Hh2].
  constructor; cbn [u_num u_low u_high u_step]; auto.
  intros x Fx Hlx Hge Hd.
  assert (Hle : rnd (B2R x - B2R low) <= rnd (m * B2R step)).
  { destruct (Hh3 x Fx Hge) as [Ht|Hle]; [lra|].
    rewrite <- (rnd_format prec emax (rnd (m * B2R step))).
    - apply rnd_le; [exact prec_gt_0_ | exact Hle].
    - apply generic_format_round; [apply fexp_correct; exact prec_gt_0_ | apply valid_rnd_N]. }
  eapply Rle_trans; [exact Hle|].
  pose proof (rnd_mul_int_rel prec emax prec_gt_0_ (Z.of_N n) step) as Hr. fold m in Hr.
  rewrite (Rabs_pos_eq (m * B2R step)) in Hr by nra. apply Rabs_le_inv in Hr.
  pose proof (u_num_small (Z.of_N n) Hn) as Hu. fold m in Hu. pose proof (u_pos prec) as Hu0.
  assert (Hum : u * m <= / 2) by lra.
  assert (Hums : u * m * B2R step <= / 2 * B2R step) by (apply Rmult_le_compat_r; lra). fold m. lra.
Qed.

(** ** Degenerate axes: the index is still a valid bin number, and monotone *)
Section Degenerate.

Definition degenerate (a : Uniform flt) : Prop :=
  (u_num a + 2 < usize_mod)%N /\ (1 <= u_num a)%N
  /\ (is_finite_strict (u_step a) = false \/ is_finite (u_low a) = false).

Lemma degenerate_cases (a : Uniform flt) (x : flt) : degenerate a ->
  (@lt_ _ (@num_ord _ ops) x (u_low a) = true /\ index a x = Val (Some 0%N))
  \/ (@lt_ _ (@num_ord _ ops) x (u_low a) = false /\ @ge_ _ (@num_ord _ ops) x (u_high a) = true
      /\ index a x = Val (Some (u_num a + 1)%N))
  \/ (@lt_ _ (@num_ord _ ops) x (u_low a) = false /\ @ge_ _ (@num_ord _ ops) x (u_high a) = false
      /\ ((is_finite (Bminus mode_NE x (u_low a)) = true /\ is_finite (u_step a) = false /\ is_nan (u_step a) = false
           /\ index a x = Val (Some 1%N))
          \/ ((is_finite (Bminus mode_NE x (u_low a)) = false \/ is_finite (u_step a) = true \/ is_nan (u_step a) = true)
              /\ index a x = Val (Some (u_num a + 1)%N)))).
Proof.
  intros [Hn [H1 Hs]]. unfold uniform_index. destruct (lt_ x (u_low a)) eqn:E1; [left; split; reflexivity|]. right.
  destruct (ge_ x (u_high a)) eqn:E2. { left. rewrite uadd_ok by lia. auto. }
  right. split; [reflexivity|]. split; [reflexivity|].
  cbn [n_sub n_div n_to_usize float_ops obind]. set (d := Bminus mode_NE x (u_low a)) in *.
  assert (Hd : is_finite (u_low a) = false -> is_finite d = false).
  { intros Hl. destruct (is_finite d) eqn:E; [|reflexivity]. apply minus_finite in E. destruct E. congruence. }
  assert (Hz : forall s, Bdiv mode_NE d (u_step a) = B754_zero s ->
    obind (uadd match float_to_usize prec emax _ _ (Bdiv mode_NE d (u_step a)) with Some k => k | None => u_num a end 1)
      (fun i => Val (Some i)) = Val (Some 1%N)).
  { intros s Hq. rewrite Hq. rewrite (to_usize_floor prec emax prec_gt_0_ prec_lt_emax_ Hp He); [|reflexivity|cbn [B2R]; split; [apply Rle_refl | apply bpow_gt_0]].
    cbn [B2R]. rewrite Zfloor_IZR. cbn [Z.to_N]. rewrite uadd_ok by (pose proof usize_mod_large; lia). reflexivity. }
  assert (Hi : is_finite (Bdiv mode_NE d (u_step a)) = false ->
    obind (uadd match float_to_usize prec emax _ _ (Bdiv mode_NE d (u_step a)) with Some k => k | None => u_num a end 1)
      (fun i => Val (Some i)) = Val (Some (u_num a + 1)%N)).
  { intros Hq. rewrite to_usize_not_finite by assumption. rewrite uadd_ok by lia. reflexivity. }
  destruct (is_finite d) eqn:Ed.
  - assert (Hs' : is_finite_strict (u_step a) = false) by (destruct Hs as [Hs|Hs]; [exact Hs | specialize (Hd Hs); discriminate]).
    destruct (u_step a) as [s|s| |s m e Hb] eqn:Es; [| | |discriminate Hs'].
    + right. split; [right; left; reflexivity|]. apply Hi. destruct d as [sd|sd| |sd md ed Hb']; reflexivity.
    + left. split; [reflexivity|]. split; [reflexivity|]. split; [reflexivity|].
      destruct d as [sd|sd| |sd md ed Hb']; try discriminate Ed; eapply Hz; reflexivity.
    + right. split; [right; right; reflexivity|]. apply Hi. destruct d as [sd|sd| |sd md ed Hb']; reflexivity.
  - right. split; [left; reflexivity|]. apply Hi.
    destruct d as [sd|sd| |sd md ed Hb']; try discriminate Ed; destruct (u_step a) as [s|s| |s m e Hb]; reflexivity.
Qed.

Lemma degenerate_valid (a : Uniform flt) (x : flt) : degenerate a ->
  exists i, index a x = Val (Some i) /\ (i <= u_num a + 1)%N.
Proof.
  intros D. destruct (degenerate_cases a x D) as [[_ E]|[[_ [_ E]]|[_ [_ [[_ [_ [_ E]]]|[_ E]]]]]]; rewrite E;
    eexists; (split; [reflexivity | destruct D as [_ [? _]]; lia]).
Qed.

Lemma degenerate_monotone (a : Uniform flt) (x y : flt) i j : degenerate a ->
  @le_ _ (@num_ord _ ops) x y = true -> index a x = Val (Some i) -> index a y = Val (Some j) -> (i <= j)%N.
Proof.
  intros D Hxy Hi Hj. pose proof (float_ord_laws prec emax prec_gt_0_ prec_lt_emax_) as L.
  assert (Hmax : (i <= u_num a + 1)%N).
  { destruct (degenerate_valid a x D) as [k' [E Hk']]. rewrite Hi in E. injection E as <-. exact Hk'. }
  pose proof D as [_ [Hn1 _]].
  destruct (degenerate_cases a y D) as [[Y1 E]|[[_ [_ E]]|[Y1 [Y2 [[Y3 [Y4 [Y5 E]]]|[_ E]]]]]]; rewrite Hj in E; injection E as ->;
    try exact Hmax.
  - pose proof (le_lt_trans _ _ L _ _ _ Hxy Y1) as Hlt. unfold uniform_index in Hi. rewrite Hlt in Hi. injection Hi as <-. lia.
  - destruct (degenerate_cases a x D) as [[_ E]|[[X1 [X2 E]]|[X1 [X2 [[_ [_ [_ E]]]|[X3 E]]]]]]; rewrite Hi in E; injection E as ->; try lia.
    + exfalso. rewrite (ge_le _ _ L) in X2. pose proof (law_trans _ _ L _ _ _ X2 Hxy) as Hhy. rewrite (ge_le _ _ L) in Y2. congruence.
    + exfalso. destruct X3 as [X3|[X3|X3]]; [|congruence|congruence].
      destruct (minus_finite _ _ Y3) as [Fy Fl].
      assert (Fx : is_finite x = true).
      { destruct (le_num _ _ L x y Hxy) as [Nx _].
        destruct x as [s|s| |s m e Hb]; try reflexivity; [|discriminate Nx]. exfalso. destruct s.
        - unfold lt_ in X1. cbn in X1. destruct (u_low a) as [|[]| |[]]; try discriminate.
        - unfold le_ in Hxy. cbn in Hxy. destruct y as [|[]| |[]]; try discriminate. }
      pose proof (lt_fin_false prec emax prec_gt_0_ prec_lt_emax_ _ _ Fx Fl X1) as Hlx.
      pose proof (lt_fin_false prec emax prec_gt_0_ prec_lt_emax_ _ _ Fy Fl Y1) as Hly.
      assert (HR : B2R x <= B2R y).
      { rewrite le_fin in Hxy by assumption. destruct (Rle_bool_spec (B2R x) (B2R y)); [assumption | discriminate]. }
      destruct (distance_computed prec emax prec_gt_0_ prec_lt_emax_ x (u_low a) Fx Fl Hlx) as [_ [DX1 _]].
      destruct (distance_computed prec emax prec_gt_0_ prec_lt_emax_ y (u_low a) Fy Fl Hly) as [_ [_ DY2]].
      destruct (Rlt_or_le (rnd (B2R y - B2R (u_low a))) top) as [Ht|Ht]; [|rewrite (DY2 Ht) in Y3; discriminate].
      destruct DX1 as [DX _]; [|congruence].
      eapply Rle_lt_trans; [|exact Ht]. apply rnd_le; [exact prec_gt_0_ | lra].
Qed.
End Degenerate.
End New.
