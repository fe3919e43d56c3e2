(** * FloatGrid: float arithmetic on a grid of multiples of a power of two (C80). *)
From Coq Require Import List ZArith NArith Bool Lia Reals Lra ZifyN ZifyNat.
From Flocq Require Import Core IEEE754.BinarySingleNaN Relative Plus_error.
From Verif Require Import Base BaseFacts Num Float Axis Spec OrdLaws FloatOrd FloatFacts FloatSpec Uniform FloatUniform FloatUniformAcc FloatCyclic
  GridSpec.
Open Scope R_scope.

Section Grid.
Variable prec emax : Z.
Context (prec_gt_0_ : Prec_gt_0 prec).
Context (prec_lt_emax_ : Prec_lt_emax prec emax).
Context {Bd : Build}.
Context (Hp : (8 <= prec <= 63)%Z) (He : (64 < emax)%Z).
Notation flt := (binary_float prec emax).
Notation ops := (float_ops prec emax prec_gt_0_ prec_lt_emax_).
Notation fexp := (SpecFloat.fexp prec emax).
Notation emin := (SpecFloat.emin prec emax).
Notation rnd := (round radix2 fexp (round_mode mode_NE)).
Notation u := (bpow radix2 (- prec)).
Notation top := (bpow radix2 emax).
Notation min_normal := (bpow radix2 (emin + prec - 1)).
Notation of_N := (float_of_N prec emax prec_gt_0_ prec_lt_emax_).
Notation index := (uniform_index ops).
Notation lt := (@lt_ _ (@num_ord _ ops)).
Notation gt := (@gt_ _ (@num_ord _ ops)).
Notation ge := (@ge_ _ (@num_ord _ ops)).
Notation eqf := (@eq_ _ (@num_ord _ ops)).
Notation max := (2 ^ prec)%Z.

Let Hp2 : (2 <= prec <= 63)%Z. Proof. lia. Qed.

(** The key fact: a quotient of two integers that fit the mantissa is rounded to
    something with the same integer part. *)
Lemma quotient_floor (D S : Z) : (0 <= D < max)%Z -> (1 <= S <= max)%Z ->
  Zfloor (rnd (IZR D / IZR S)) = (D / S)%Z /\ 0 <= rnd (IZR D / IZR S) < IZR (D / S) + 1.
Proof.
  intros HD HS. pose proof (Z.div_mod D S ltac:(lia)) as Hdm. pose proof (Z.mod_pos_bound D S ltac:(lia)) as Hm.
  set (k := (D / S)%Z) in *. assert (Hk : (0 <= k <= D)%Z) by (split; [apply Z.div_pos; lia | unfold k; apply Z.div_le_upper_bound; nia]).
  assert (HSr : 1 <= IZR S) by (apply IZR_le; lia).
  assert (Hlo : IZR k <= rnd (IZR D / IZR S)).
  { rewrite <- (rnd_int prec emax prec_gt_0_ prec_lt_emax_ k) by lia. apply rnd_le; [exact prec_gt_0_|].
    apply Rmult_le_reg_r with (IZR S); [lra|]. replace (IZR D / IZR S * IZR S) with (IZR D) by (field; lra).
    rewrite <- mult_IZR. apply IZR_le. nia. }
  assert (Hhi : rnd (IZR D / IZR S) < IZR k + 1).
  { destruct (Z.eq_dec D 0) as [D0|D0].
    - rewrite D0. unfold Rdiv. rewrite Rmult_0_l, (rnd_0 prec emax). pose proof (IZR_le 0 k ltac:(lia)). lra.
    - assert (Hb : bpow radix2 prec = IZR max) by (rewrite <- IZR_Zpower by lia; reflexivity).
      assert (Hub : u * IZR max = 1) by (rewrite <- Hb, <- bpow_plus; replace (- prec + prec)%Z with 0%Z by lia; reflexivity).
      pose proof (bpow_gt_0 radix2 (- prec)) as Hu0. pose proof (IZR_lt 0 D ltac:(lia)) as HD0.
      pose proof (IZR_lt D max ltac:(lia)) as HDm. pose proof (IZR_le S max ltac:(lia)) as HSm.
      assert (Hy0 : 0 < IZR D / IZR S) by (apply Rmult_lt_0_compat; [lra | apply Rinv_0_lt_compat; lra]).
      assert (Hmn : min_normal <= Rabs (IZR D / IZR S)).
      { rewrite Rabs_pos_eq by lra. apply Rle_trans with u.
        - apply bpow_le. unfold SpecFloat.emin. assert (prec < emax)%Z by exact prec_lt_emax_. lia.
        - apply Rmult_le_reg_r with (IZR S); [lra|]. replace (IZR D / IZR S * IZR S) with (IZR D) by (field; lra).
          apply Rle_trans with (u * IZR max); [apply Rmult_le_compat_l; lra|]. rewrite Hub. apply IZR_le. lia. }
      pose proof (rnd_rel prec emax prec_gt_0_ _ Hmn) as Hrel. rewrite (Rabs_pos_eq (IZR D / IZR S)) in Hrel by lra.
      apply Rabs_le_inv in Hrel.
      assert (HDS : (D + 1 <= (k + 1) * S)%Z) by nia. apply IZR_le in HDS. rewrite plus_IZR, mult_IZR, plus_IZR in HDS.
      assert (Hlt : u * (IZR D / IZR S) * IZR S < 1).
      { replace (u * (IZR D / IZR S) * IZR S) with (u * IZR D) by (field; lra). rewrite <- Hub.
        apply Rmult_lt_compat_l; lra. }
      apply Rmult_lt_reg_r with (IZR S); [lra|].
      apply Rle_lt_trans with ((IZR D / IZR S + u * (IZR D / IZR S)) * IZR S); [apply Rmult_le_compat_r; lra|].
      rewrite Rmult_plus_distr_r. replace (IZR D / IZR S * IZR S) with (IZR D) by (field; lra). lra. }
  pose proof (IZR_le 0 k ltac:(lia)) as Hk0. split; [|lra].
  apply Zfloor_imp. rewrite plus_IZR. lra.
Qed.

Context (e : Z) (Hge : grid_exponent prec emax e).
Notation val := (grid_value e).
Notation b := (bpow radix2 e).

Let Hb0 : 0 < b. Proof. apply bpow_gt_0. Qed.

Lemma grid_format (z : Z) : (Z.abs z <= max)%Z -> generic_format radix2 fexp (IZR z * b).
Proof.
  intros Hz. destruct Hge as [G1 G2].
  destruct (Z.eq_dec (Z.abs z) max) as [E|E].
  - assert (Hb : generic_format radix2 fexp (bpow radix2 (prec + e))).
    { apply generic_format_bpow. rewrite fexp_FLT. unfold FLT_exp. unfold SpecFloat.emin in *. lia. }
    assert (Hz2 : IZR z * b = bpow radix2 (prec + e) \/ IZR z * b = - bpow radix2 (prec + e)).
    { rewrite bpow_plus. assert (Hm : bpow radix2 prec = IZR max) by (rewrite <- IZR_Zpower by lia; reflexivity). rewrite Hm.
      destruct (Z.abs_eq_or_opp z) as [H|H]; [left | right].
      - f_equal. f_equal. lia.
      - rewrite Ropp_mult_distr_l, <- opp_IZR. f_equal. f_equal. lia. }
    destruct Hz2 as [-> | ->]; [exact Hb | apply generic_format_opp; exact Hb].
  - rewrite fexp_FLT. apply generic_format_FLT. exists (Float radix2 z e); [reflexivity | |].
    + change (Zpower radix2 prec) with (2 ^ prec)%Z. cbn [Fnum]. lia.
    + cbn [Fexp]. unfold SpecFloat.emin. lia.
Qed.

Lemma grid_top (z : Z) : (Z.abs z <= max)%Z -> Rabs (IZR z * b) < top.
Proof.
  intros Hz. rewrite Rabs_mult, (Rabs_pos_eq b) by lra. rewrite <- abs_IZR.
  apply Rle_lt_trans with (bpow radix2 (prec + e)); [|apply bpow_lt; apply Hge].
  rewrite bpow_plus. apply Rmult_le_compat_r; [lra|]. rewrite <- IZR_Zpower by lia. apply IZR_le. exact Hz.
Qed.

Lemma grid_rnd (z : Z) : (Z.abs z <= max)%Z -> rnd (IZR z * b) = IZR z * b.
Proof. intros Hz. apply rnd_format. apply grid_format. exact Hz. Qed.

Lemma grid_lt (x y : flt) X Y : val x X -> val y Y -> lt x y = (X <? Y)%Z.
Proof.
  intros [Fx Vx] [Fy Vy]. rewrite lt_fin by assumption. rewrite Vx, Vy.
  destruct (Z.ltb_spec X Y) as [H|H]; [apply Rlt_bool_true | apply Rlt_bool_false].
  - apply Rmult_lt_compat_r; [exact Hb0 | apply IZR_lt; exact H].
  - apply Rmult_le_compat_r; [lra | apply IZR_le; exact H].
Qed.
Lemma grid_ge (x y : flt) X Y : val x X -> val y Y -> ge x y = (Y <=? X)%Z.
Proof.
  intros [Fx Vx] [Fy Vy]. rewrite ge_fin by assumption. rewrite Vx, Vy.
  destruct (Z.leb_spec Y X) as [H|H]; [apply Rle_bool_true | apply Rle_bool_false].
  - apply Rmult_le_compat_r; [lra | apply IZR_le; exact H].
  - apply Rmult_lt_compat_r; [exact Hb0 | apply IZR_lt; exact H].
Qed.
Lemma grid_gt (x y : flt) X Y : val x X -> val y Y -> gt x y = (Y <? X)%Z.
Proof.
  intros Hx Hy. pose proof (grid_lt y x Y X Hy Hx) as H. rewrite <- H. symmetry.
  unfold lt_, gt_. cbn [partial_cmp num_ord float_ops]. destruct Hx as [Fx _], Hy as [Fy _]. rewrite !Bcompare_correct by assumption.
  rewrite (Rcompare_sym (B2R x) (B2R y)). destruct (Rcompare (B2R y) (B2R x)); reflexivity.
Qed.
Lemma grid_eqf (x y : flt) X Y : val x X -> val y Y -> eqf x y = (X =? Y)%Z.
Proof.
  intros [Fx Vx] [Fy Vy]. unfold eq_. cbn [partial_cmp num_ord float_ops]. rewrite Bcompare_correct by assumption.
  rewrite Vx, Vy. rewrite Rcompare_mult_r by exact Hb0. rewrite Rcompare_IZR.
  destruct (Z.compare_spec X Y); symmetry; [apply Z.eqb_eq | apply Z.eqb_neq | apply Z.eqb_neq]; lia.
Qed.

Lemma grid_minus (x y : flt) X Y : val x X -> val y Y -> (Z.abs (X - Y) <= max)%Z -> val (Bminus mode_NE x y) (X - Y).
Proof.
  intros [Fx Vx] [Fy Vy] Hr. pose proof (Bminus_correct prec emax _ _ mode_NE x y Fx Fy) as H.
  rewrite Vx, Vy, <- Rmult_minus_distr_r, <- minus_IZR in H. rewrite grid_rnd in H by exact Hr.
  rewrite Rlt_bool_true in H by (apply grid_top; exact Hr). destruct H as [H1 [H2 _]]. split; assumption.
Qed.
Lemma grid_plus (x y : flt) X Y : val x X -> val y Y -> (Z.abs (X + Y) <= max)%Z -> val (Bplus mode_NE x y) (X + Y).
Proof.
  intros [Fx Vx] [Fy Vy] Hr. pose proof (Bplus_correct prec emax _ _ mode_NE x y Fx Fy) as H.
  rewrite Vx, Vy, <- Rmult_plus_distr_r, <- plus_IZR in H. rewrite grid_rnd in H by exact Hr.
  rewrite Rlt_bool_true in H by (apply grid_top; exact Hr). destruct H as [H1 [H2 _]]. split; assumption.
Qed.
Lemma grid_mult (k : N) (y : flt) Y : val y Y -> (Z.of_N k <= max)%Z -> (Z.abs (Z.of_N k * Y) <= max)%Z ->
  val (Bmult mode_NE (of_N k) y) (Z.of_N k * Y).
Proof.
  intros [Fy Vy] Hk Hr. destruct (float_of_N_exact prec emax prec_gt_0_ prec_lt_emax_ k Hk) as [K1 [K2 _]].
  pose proof (Bmult_correct prec emax _ _ mode_NE (of_N k) y) as H.
  rewrite K1, Vy, <- Rmult_assoc, <- mult_IZR in H. rewrite grid_rnd in H by exact Hr.
  rewrite Rlt_bool_true in H by (apply grid_top; exact Hr). destruct H as [H1 [H2 _]]. rewrite K2, Fy in H2. split; assumption.
Qed.
Lemma grid_div (x : flt) (n : N) Q : val x (Z.of_N n * Q) -> (0 < Z.of_N n <= max)%Z -> (Z.abs Q <= max)%Z ->
  val (Bdiv mode_NE x (of_N n)) Q.
Proof.
  intros [Fx Vx] Hn Hr. destruct (float_of_N_exact prec emax prec_gt_0_ prec_lt_emax_ n ltac:(lia)) as [K1 [K2 _]].
  pose proof (Bdiv_correct prec emax _ _ mode_NE x (of_N n)) as H.
  assert (Hn0 : 0 < IZR (Z.of_N n)) by (apply IZR_lt; lia). specialize (H ltac:(lra)).
  rewrite K1, Vx in H. rewrite mult_IZR in H.
  replace (IZR (Z.of_N n) * IZR Q * b / IZR (Z.of_N n)) with (IZR Q * b) in H by (field; lra).
  rewrite grid_rnd in H by exact Hr.
  rewrite Rlt_bool_true in H by (apply grid_top; exact Hr). destruct H as [H1 [H2 _]]. rewrite Fx in H2. split; assumption.
Qed.
(** [a % b] for a positive divisor: the truncated remainder, exactly. *)
Lemma grid_rem (x y : flt) X Y : val x X -> val y Y -> (0 < Y)%Z ->
  val (Bfmod prec emax prec_gt_0_ prec_lt_emax_ x y) (Z.rem X Y).
Proof.
  intros [Fx Vx] [Fy Vy] HY.
  destruct (fmod_correct prec emax prec_gt_0_ prec_lt_emax_ Hp He x y Fx Fy) as [F1 [q [Q1 [Q2 Q3]]]].
  { rewrite Vy. apply Rmult_lt_0_compat; [apply IZR_lt; exact HY | exact Hb0]. }
  split; [exact F1|]. rewrite Vx, Vy, <- Rmult_assoc, <- mult_IZR, <- Rmult_minus_distr_r, <- minus_IZR in Q1.
  rewrite Q1 in Q2 |- *. rewrite Vy in Q2, Q3. rewrite Vx in Q3. rewrite <- Rmult_assoc in Q3.
  rewrite !Rabs_mult, (Rabs_pos_eq b) in Q3 by lra. rewrite Rabs_mult, (Rabs_pos_eq b) in Q2 by lra.
  apply Rmult_lt_reg_r in Q2; [|exact Hb0]. apply Rmult_le_reg_r in Q3; [|exact Hb0].
  rewrite <- abs_IZR in Q2. rewrite <- !abs_IZR, <- mult_IZR in Q3. apply lt_IZR in Q2. apply le_IZR in Q3.
  do 2 f_equal.
  pose proof (Z.quot_rem' X Y) as Hqr.
  destruct (Z.le_ge_cases 0 X) as [HX|HX].
  - pose proof (Z.rem_bound_pos X Y HX HY) as Hrb. set (r := Z.rem X Y) in *. set (p := Z.quot X Y) in *. clearbody r p.
    clear - Q2 Q3 HX HY Hqr Hrb. assert (q = p); [|subst; lia]. nia.
  -
    assert (Hrb2 : (- Y < Z.rem X Y <= 0)%Z).
    { pose proof (Z.rem_opp_l X Y ltac:(lia)) as Ho. pose proof (Z.rem_bound_pos (- X) Y ltac:(lia) HY). lia. }
    set (r := Z.rem X Y) in *. set (p := Z.quot X Y) in *. clearbody r p.
    clear - Q2 Q3 HX HY Hqr Hrb2. assert (q = p); [|subst; lia]. nia.
Qed.

(** ** The axis *)
Section TheAxis.
Context (a : Uniform flt) (L S : Z).
Context (Hlow : val (u_low a) L) (Hhigh : val (u_high a) (L + Z.of_N (u_num a) * S)) (Hstep : val (u_step a) S).
Context (Hnum : (1 <= Z.of_N (u_num a))%Z) (HS : (1 <= S)%Z) (HW : (Z.of_N (u_num a) * S <= max)%Z)
        (Hus : (u_num a + 2 < usize_mod)%N).

Lemma grid_index_inside (x : flt) X : val x X -> (L <= X < L + Z.of_N (u_num a) * S)%Z ->
  index a x = Val (Some (Z.to_N ((X - L) / S) + 1)%N).
Proof.
  intros Hx HX. unfold uniform_index. rewrite (grid_lt x _ X L Hx Hlow), (grid_ge x _ X _ Hx Hhigh).
  replace (X <? L)%Z with false by (symmetry; apply Z.ltb_ge; lia).
  replace (_ <=? X)%Z with false by (symmetry; apply Z.leb_gt; lia).
  cbn [n_sub n_div n_to_usize float_ops obind].
  destruct (grid_minus x (u_low a) X L Hx Hlow ltac:(lia)) as [Fd Vd]. set (d := Bminus mode_NE x (u_low a)) in *.
  destruct Hstep as [Fs Vs].
  assert (HSm : (S <= max)%Z) by nia.
  destruct (quotient_floor (X - L) S ltac:(lia) ltac:(lia)) as [Q1 Q2].
  assert (Hk : (0 <= (X - L) / S < Z.of_N (u_num a))%Z).
  { split; [apply Z.div_pos; lia | apply Z.div_lt_upper_bound; lia]. }
  set (k := ((X - L) / S)%Z) in *. pose proof (IZR_le (k + 1) (Z.of_N (u_num a)) ltac:(lia)) as Hkr. rewrite plus_IZR in Hkr.
  pose proof (IZR_lt 0 S ltac:(lia)) as HS0.
  pose proof (Bdiv_correct prec emax _ _ mode_NE d (u_step a)) as H.
  rewrite Vd, Vs in H. specialize (H ltac:(apply Rgt_not_eq, Rmult_lt_0_compat; lra)).
  replace (IZR (X - L) * b / (IZR S * b)) with (IZR (X - L) / IZR S) in H by (field; lra).
  assert (Hnm : (Z.of_N (u_num a) <= max)%Z) by nia.
  rewrite Rlt_bool_true in H.
  2: { rewrite Rabs_pos_eq by lra. apply Rlt_le_trans with (IZR (Z.of_N (u_num a))); [lra|].
       pose proof (int_lt_emax prec emax prec_gt_0_ prec_lt_emax_ (Z.of_N (u_num a)) ltac:(lia)) as Ht.
       rewrite Rabs_pos_eq in Ht by (apply IZR_le; lia). lra. }
  destruct H as [H1 [H2 _]]. rewrite Fd in H2.
  rewrite to_usize_floor; [|exact Hp2|exact He|exact H2|].
  - rewrite H1, Q1. rewrite uadd_ok by lia. reflexivity.
  - rewrite H1, usize_bpow. split; [lra|].
    assert (Hlt : (Z.of_N (u_num a) < Z.of_N usize_mod)%Z) by (clear - Hus; lia). apply IZR_lt in Hlt. lra.
Qed.

Lemma grid_index_below (x : flt) X : val x X -> (X < L)%Z -> index a x = Val (Some 0%N).
Proof. intros Hx HX. unfold uniform_index. rewrite (grid_lt x _ X L Hx Hlow). apply Z.ltb_lt in HX. rewrite HX. reflexivity. Qed.

Lemma grid_index_above (x : flt) X : val x X -> (L + Z.of_N (u_num a) * S <= X)%Z -> index a x = Val (Some (u_num a + 1)%N).
Proof.
  intros Hx HX. unfold uniform_index. rewrite (grid_lt x _ X L Hx Hlow), (grid_ge x _ X _ Hx Hhigh).
  replace (X <? L)%Z with false by (symmetry; apply Z.ltb_ge; lia).
  replace (_ <=? X)%Z with true by (symmetry; apply Z.leb_le; lia). rewrite uadd_ok by lia. reflexivity.
Qed.

Context (HWW : (Z.of_N (u_num a) * (Z.of_N (u_num a) * S) <= max)%Z) (HL : (Z.abs L <= max)%Z)
        (HH : (Z.abs (L + Z.of_N (u_num a) * S) <= max)%Z).

Lemma grid_edge (k : N) : (k <= u_num a)%N ->
  exists v, uniform_edge ops a k = Val (Some v) /\ val v (L + Z.of_N k * S).
Proof.
  intros Hk. unfold uniform_edge. cbn [n_from_usize n_sub n_mul n_div n_add float_ops obind].
  assert (Hw : val (Bminus mode_NE (u_high a) (u_low a)) (Z.of_N (u_num a) * S)).
  { pose proof (grid_minus _ _ _ _ Hhigh Hlow) as H. replace (L + Z.of_N (u_num a) * S - L)%Z with (Z.of_N (u_num a) * S)%Z in H by lia.
    apply H. nia. }
  assert (Hkm : (Z.of_N k <= max)%Z) by nia.
  assert (Hkw : (0 <= Z.of_N k * (Z.of_N (u_num a) * S) <= max)%Z) by nia.
  pose proof (grid_mult k _ _ Hw Hkm ltac:(lia)) as Hm.
  replace (Z.of_N k * (Z.of_N (u_num a) * S))%Z with (Z.of_N (u_num a) * (Z.of_N k * S))%Z in Hm by lia.
  assert (HkS : (0 <= Z.of_N k * S <= Z.of_N (u_num a) * S)%Z) by nia.
  pose proof (grid_div _ (u_num a) (Z.of_N k * S) Hm ltac:(nia) ltac:(lia)) as Hd.
  pose proof (grid_plus _ _ _ _ Hlow Hd ltac:(lia)) as Hs.
  eexists. split; [reflexivity | exact Hs].
Qed.

Lemma grid_bin (i : N) : (i < u_num a)%N ->
  exists s t, uniform_bin ops a (i + 1) = Val (Some (Bin s t))
    /\ val s (L + Z.of_N i * S) /\ val t (L + (Z.of_N i + 1) * S).
Proof.
  intros Hi. destruct (grid_edge i ltac:(lia)) as [s [Es Vs]]. destruct (grid_edge (i + 1) ltac:(lia)) as [t [Et Vt]].
  exists s, t. unfold uniform_bin. rewrite uadd_ok by lia. cbn [obind].
  replace (i + 1 =? 0)%N with false by (symmetry; apply N.eqb_neq; lia).
  replace (i + 1 =? u_num a + 1)%N with false by (symmetry; apply N.eqb_neq; lia).
  replace (u_num a + 1 <? i + 1)%N with false by (symmetry; apply N.ltb_ge; lia).
  rewrite usub_ok by lia. cbn [obind]. replace (i + 1 - 1)%N with i by lia. rewrite Es. cbn [obind]. rewrite Et. cbn [obind].
  split; [reflexivity|]. split; [exact Vs|]. replace (Z.of_N (i + 1)) with (Z.of_N i + 1)%Z in Vt by lia. exact Vt.
Qed.

(** ** Wrapping *)
Lemma grid_wrap (x : flt) X : val x X -> (Z.abs (X - L) <= max)%Z ->
  exists y, wrap_coordinate ops (u_low a) (u_high a) x = Val y /\ val y (L + (X - L) mod (Z.of_N (u_num a) * S)).
Proof.
  intros Hx HX. clear HWW Hus. set (W := (Z.of_N (u_num a) * S)%Z) in *. assert (HW0 : (0 < W)%Z) by (unfold W; nia).
  unfold wrap_coordinate. cbn [n_sub n_rem float_ops obind].
  assert (Hw : val (Bminus mode_NE (u_high a) (u_low a)) W).
  { pose proof (grid_minus _ _ _ _ Hhigh Hlow) as H. replace (L + W - L)%Z with W in H by lia. apply H. lia. }
  pose proof (grid_minus _ _ _ _ Hx Hlow HX) as Hd.
  pose proof (grid_rem _ _ _ _ Hd Hw HW0) as Hr. set (r := Bfmod _ _ _ _ _ _) in *.
  assert (H0 : val (@n_zero _ ops) 0) by (split; [reflexivity | cbn; ring]).
  rewrite (grid_lt _ _ _ _ Hr H0).
  assert (Hmb := Z.mod_pos_bound (X - L) W HW0).
  destruct (Z.ltb_spec (Z.rem (X - L) W) 0) as [Hn|Hn].
  - cbn [n_add float_ops obind].
    assert (HXn : (X - L < 0)%Z).
    { destruct (Z.le_gt_cases 0 (X - L)) as [Hc|Hc]; [|lia]. pose proof (Z.rem_bound_pos (X - L) W Hc HW0). lia. }
    pose proof (Z.rem_bound_pos (- (X - L)) W ltac:(lia) HW0) as Hrb. rewrite Z.rem_opp_l in Hrb by lia.
    assert (Em : (W + Z.rem (X - L) W = (X - L) mod W)%Z).
    { apply (Z.mod_unique _ _ (Z.quot (X - L) W - 1)); [left; lia|]. pose proof (Z.quot_rem' (X - L) W). lia. }
    pose proof (grid_plus _ _ _ _ Hw Hr ltac:(lia)) as Hs. rewrite Em in Hs.
    pose proof (grid_plus _ _ _ _ Hs Hlow ltac:(lia)) as Hs2. rewrite Z.add_comm in Hs2.
    eexists. split; [reflexivity | exact Hs2].
  - cbn [n_add float_ops obind].
    assert (Em : (Z.rem (X - L) W = (X - L) mod W)%Z).
    { destruct (Z.le_gt_cases 0 (X - L)) as [Hc|Hc]; [apply Z.rem_mod_nonneg; lia|].
      pose proof (Z.rem_opp_l (X - L) W ltac:(lia)) as Ho. pose proof (Z.rem_bound_pos (- (X - L)) W ltac:(lia) HW0) as Hrb.
      assert (Hz : Z.rem (X - L) W = 0%Z) by lia. rewrite Hz. symmetry. pose proof (Z.quot_rem' (X - L) W) as Hq. rewrite Hz in Hq.
      replace (X - L)%Z with (Z.quot (X - L) W * W)%Z by lia. apply Z.mod_mul. lia. }
    rewrite Em in Hr. pose proof (grid_plus _ _ _ _ Hr Hlow ltac:(lia)) as Hs2. rewrite Z.add_comm in Hs2.
    eexists. split; [reflexivity | exact Hs2].
Qed.

End TheAxis.

(** ** The constructors *)
Lemma grid_new (num : N) (low high : flt) L S : val low L -> val high (L + Z.of_N num * S) ->
  (1 <= Z.of_N num)%Z -> (1 <= S)%Z -> (Z.of_N num * S <= max)%Z ->
  exists a, uniform_new ops num low high = Val (Ok a)
    /\ u_num a = num /\ u_low a = low /\ u_high a = high /\ val (u_step a) S.
Proof.
  intros Hl Hh Hn HS HW. unfold uniform_new.
  replace (num =? 0)%N with false by (symmetry; apply N.eqb_neq; lia).
  rewrite (grid_eqf _ _ _ _ Hl Hh). replace (L =? _)%Z with false by (symmetry; apply Z.eqb_neq; nia).
  rewrite (grid_gt _ _ _ _ Hl Hh). replace (_ <? L)%Z with false by (symmetry; apply Z.ltb_ge; nia).
  cbn [n_sub n_div n_from_usize float_ops obind].
  assert (Hw : val (Bminus mode_NE high low) (Z.of_N num * S)).
  { pose proof (grid_minus _ _ _ _ Hh Hl) as H. replace (L + Z.of_N num * S - L)%Z with (Z.of_N num * S)%Z in H by lia. apply H. lia. }
  pose proof (grid_div _ num S Hw ltac:(nia) ltac:(nia)) as Hd.
  eexists. split; [reflexivity|]. cbn [u_num u_low u_high u_step]. auto.
Qed.

(** The bounds the other way round: they are swapped. *)
Lemma grid_new_swapped (num : N) (low high : flt) L S : val high L -> val low (L + Z.of_N num * S) ->
  (1 <= Z.of_N num)%Z -> (1 <= S)%Z ->
  uniform_new ops num low high = uniform_new ops num high low.
Proof.
  intros Hl Hh Hn HS. unfold uniform_new.
  replace (num =? 0)%N with false by (symmetry; apply N.eqb_neq; lia).
  rewrite (grid_eqf _ _ _ _ Hl Hh), (grid_eqf _ _ _ _ Hh Hl). replace (_ =? L)%Z with false by (symmetry; apply Z.eqb_neq; nia).
  replace (L =? _)%Z with false by (symmetry; apply Z.eqb_neq; nia).
  rewrite (grid_gt _ _ _ _ Hl Hh), (grid_gt _ _ _ _ Hh Hl). replace (_ <? L)%Z with false by (symmetry; apply Z.ltb_ge; nia).
  replace (L <? _)%Z with true by (symmetry; apply Z.ltb_lt; nia). reflexivity.
Qed.

Lemma grid_step (num : N) (low step : flt) L S : val low L -> val step S ->
  (1 <= Z.of_N num)%Z -> (1 <= S)%Z -> (Z.of_N num * S <= max)%Z -> (Z.abs (L + Z.of_N num * S) <= max)%Z ->
  exists a, uniform_with_step_size ops num low step = Val (Ok a)
    /\ u_num a = num /\ u_low a = low /\ val (u_high a) (L + Z.of_N num * S) /\ u_step a = step.
Proof.
  intros Hl Hs Hn HS HW HH. unfold uniform_with_step_size. cbn [n_mul n_add n_from_usize float_ops obind].
  replace (num =? 0)%N with false by (symmetry; apply N.eqb_neq; lia).
  pose proof (grid_mult num _ _ Hs ltac:(nia) ltac:(lia)) as Hm.
  pose proof (grid_plus _ _ _ _ Hm Hl ltac:(lia)) as Hh. rewrite Z.add_comm in Hh.
  assert (H0 : val (@n_zero _ ops) 0) by (split; [reflexivity | cbn; ring]).
  assert (Hle : @le_ _ (@num_ord _ ops) step (@n_zero _ ops) = false).
  { destruct Hs as [Fs Vs]. rewrite le_fin by (assumption || reflexivity). apply Rle_bool_false. cbn [n_zero B2R]. rewrite Vs.
    apply Rmult_lt_0_compat; [apply IZR_lt; lia | exact Hb0]. }
  change (@le_ _ (@num_ord _ ops) step (@n_zero _ ops) = false) in Hle. rewrite Hle.
  rewrite (grid_gt _ _ _ _ Hl Hh). replace (_ <? L)%Z with false by (symmetry; apply Z.ltb_ge; nia).
  eexists. split; [reflexivity|]. cbn [u_num u_low u_high u_step]. auto.
Qed.

End Grid.
