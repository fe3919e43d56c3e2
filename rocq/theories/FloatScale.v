(** * FloatScale: float arithmetic and a change of units by a power of two (C82). *)
From Coq Require Import List ZArith NArith Bool Lia Reals Lra ZifyN ZifyNat ZifyBool.
From Flocq Require Import Core IEEE754.BinarySingleNaN Relative Plus_error.
From Verif Require Import Base BaseFacts Num Float Axis Spec OrdLaws FloatOrd FloatFacts FloatSpec Uniform FloatUniform FloatUniformNew FloatUniformAcc FloatCyclic.
Open Scope R_scope.

Section Scale.
Variable prec emax : Z.
Context (prec_gt_0_ : Prec_gt_0 prec).
Context (prec_lt_emax_ : Prec_lt_emax prec emax).
Context {Bd : Build}.
Context (Hp : (8 <= prec <= 63)%Z) (He : (64 < emax)%Z).
Notation flt := (binary_float prec emax).
Notation ops := (float_ops prec emax prec_gt_0_ prec_lt_emax_).
Notation fexp := (SpecFloat.fexp prec emax).
Notation emin := (SpecFloat.emin prec emax).
Notation rnd := (round radix2 fexp (round_mode mode_NE)).
Notation top := (bpow radix2 emax).
Notation min_normal := (bpow radix2 (emin + prec - 1)).
Notation of_N := (float_of_N prec emax prec_gt_0_ prec_lt_emax_).
Notation index := (uniform_index ops).
Notation lt := (@lt_ _ (@num_ord _ ops)).
Notation ge := (@ge_ _ (@num_ord _ ops)).

Let Hp2 : (2 <= prec <= 63)%Z. Proof. lia. Qed.

Context (k : Z) (Hk : (0 <= k)%Z).
Notation b := (bpow radix2 k).
Let Hb0 : 0 < b. Proof. apply bpow_gt_0. Qed.
Let Hb1 : 1 <= b. Proof. change 1 with (bpow radix2 0). apply bpow_le. exact Hk. Qed.

Lemma scale_format z : generic_format radix2 fexp z -> generic_format radix2 fexp (z * b).
Proof.
  intros Hz. rewrite fexp_FLT in *. apply FLT_format_generic in Hz; [|exact prec_gt_0_]. destruct Hz as [[m e] H1 H2 H3].
  apply generic_format_FLT. exists (Float radix2 m (e + k)); cbn [Fnum Fexp] in *; [|exact H2|lia].
  rewrite H1. unfold F2R. cbn [Fnum Fexp]. rewrite bpow_plus. ring.
Qed.

Lemma rnd_scale_normal z : min_normal <= Rabs z -> rnd (z * b) = rnd z * b.
Proof.
  intros Hz. assert (Hz0 : z <> 0).
  { intros ->. rewrite Rabs_R0 in Hz. pose proof (bpow_gt_0 radix2 (emin + prec - 1)). lra. }
  assert (Hc : cexp radix2 fexp (z * b) = (cexp radix2 fexp z + k)%Z).
  { unfold cexp. rewrite mag_mult_bpow by exact Hz0. rewrite fexp_FLT. unfold FLT_exp.
    pose proof (mag_ge_bpow radix2 z (emin + prec) ltac:(replace (emin + prec - 1)%Z with (emin + prec - 1)%Z by lia; exact Hz)). lia. }
  unfold round, scaled_mantissa, F2R. cbn [Fnum Fexp]. rewrite Hc. rewrite Rmult_assoc, <- bpow_plus.
  replace (k + - (cexp radix2 fexp z + k))%Z with (- cexp radix2 fexp z)%Z by lia. rewrite bpow_plus. ring.
Qed.

Lemma rnd_scale_format z : generic_format radix2 fexp z -> rnd (z * b) = rnd z * b.
Proof. intros Hz. rewrite (rnd_format prec emax z Hz). apply rnd_format. apply scale_format. exact Hz. Qed.

Lemma rnd_scale_sum x y : generic_format radix2 fexp x -> generic_format radix2 fexp y -> rnd ((x + y) * b) = rnd (x + y) * b.
Proof.
  intros Fx Fy. destruct (Rle_or_lt min_normal (Rabs (x + y))) as [H|H]; [apply rnd_scale_normal; exact H|].
  apply rnd_scale_format. rewrite fexp_FLT in *. apply FLT_format_plus_small; [exact prec_gt_0_ | exact Fx | exact Fy |].
  apply Rlt_le, Rlt_le_trans with (1 := H). apply bpow_le. lia.
Qed.

Lemma rnd_scale_int z (s : flt) : rnd (IZR z * B2R s * b) = rnd (IZR z * B2R s) * b.
Proof.
  destruct (Rle_or_lt min_normal (Rabs (IZR z * B2R s))) as [H|H]; [apply rnd_scale_normal; exact H|].
  apply rnd_scale_format. rewrite fexp_FLT. apply generic_format_FLT_FIX; [exact prec_gt_0_ | |].
  - apply Rlt_le. eapply Rlt_le_trans; [exact H|]. apply bpow_le. lia.
  - pose proof (B2R_format prec emax s) as Fs. rewrite fexp_FLT in Fs. apply generic_format_FIX_FLT, FIX_format_generic in Fs.
    destruct Fs as [ns H1 H2]. apply generic_format_FIX. exists (Float radix2 (z * Fnum ns) emin); [|reflexivity].
    rewrite H1. unfold F2R. cbn [Fnum Fexp]. rewrite H2, mult_IZR. ring.
Qed.

(** Both finite, and the second is the first in other units. *)
Definition scaled (x x' : flt) : Prop := is_finite x = true /\ is_finite x' = true /\ B2R x' = B2R x * b.

Lemma smaller_top z : Rabs (z * b) < top -> Rabs z < top.
Proof. rewrite Rabs_mult, (Rabs_pos_eq b) by lra. intros H. pose proof (Rabs_pos z). nra. Qed.

Lemma plus_value (a c : flt) : is_finite a = true -> is_finite c = true -> is_finite (Bplus mode_NE a c) = true ->
  B2R (Bplus mode_NE a c) = rnd (B2R a + B2R c) /\ Rabs (rnd (B2R a + B2R c)) < top.
Proof.
  intros Fa Fb Fab. pose proof (Bplus_correct prec emax _ _ mode_NE a c Fa Fb) as HM.
  destruct (Rlt_bool_spec (Rabs (rnd (B2R a + B2R c))) top) as [Hb|Hb]; [split; [apply HM | exact Hb]|].
  destruct HM as [HM _]. exfalso. destruct (Bplus mode_NE a c); try discriminate Fab; destruct (Bsign a); discriminate HM.
Qed.
Lemma minus_value_top (a c : flt) : is_finite a = true -> is_finite c = true -> is_finite (Bminus mode_NE a c) = true ->
  B2R (Bminus mode_NE a c) = rnd (B2R a - B2R c) /\ Rabs (rnd (B2R a - B2R c)) < top.
Proof.
  intros Fa Fb Fab. pose proof (Bminus_correct prec emax _ _ mode_NE a c Fa Fb) as HM.
  destruct (Rlt_bool_spec (Rabs (rnd (B2R a - B2R c))) top) as [Hb|Hb]; [split; [apply HM | exact Hb]|].
  destruct HM as [HM _]. exfalso. destruct (Bminus mode_NE a c); try discriminate Fab; destruct (Bsign a); discriminate HM.
Qed.

Lemma scaled_minus x x' y y' : scaled x x' -> scaled y y' -> is_finite (Bminus mode_NE x' y') = true ->
  scaled (Bminus mode_NE x y) (Bminus mode_NE x' y').
Proof.
  intros [Fx [Fx' Vx]] [Fy [Fy' Vy]] F. destruct (minus_value_top x' y' Fx' Fy' F) as [V T].
  assert (E : rnd (B2R x' - B2R y') = rnd (B2R x - B2R y) * b).
  { rewrite Vx, Vy, <- Rmult_minus_distr_r. apply (rnd_scale_sum (B2R x) (- B2R y)); [apply B2R_format | apply generic_format_opp, B2R_format]. }
  rewrite E in T, V. pose proof (Bminus_correct prec emax _ _ mode_NE x y Fx Fy) as H. rewrite Rlt_bool_true in H by (apply smaller_top; exact T).
  destruct H as [H1 [H2 _]]. split; [exact H2|]. split; [exact F|]. rewrite V, H1. reflexivity.
Qed.

Lemma scaled_plus x x' y y' : scaled x x' -> scaled y y' -> is_finite (Bplus mode_NE x' y') = true ->
  scaled (Bplus mode_NE x y) (Bplus mode_NE x' y').
Proof.
  intros [Fx [Fx' Vx]] [Fy [Fy' Vy]] F. destruct (plus_value x' y' Fx' Fy' F) as [V T].
  assert (E : rnd (B2R x' + B2R y') = rnd (B2R x + B2R y) * b).
  { rewrite Vx, Vy, <- Rmult_plus_distr_r. apply (rnd_scale_sum (B2R x) (B2R y)); apply B2R_format. }
  rewrite E in T, V. pose proof (Bplus_correct prec emax _ _ mode_NE x y Fx Fy) as H. rewrite Rlt_bool_true in H by (apply smaller_top; exact T).
  destruct H as [H1 [H2 _]]. split; [exact H2|]. split; [exact F|]. rewrite V, H1. reflexivity.
Qed.

Lemma scaled_mult (n : N) y y' : (Z.of_N n <= 2 ^ prec)%Z -> scaled y y' -> is_finite (Bmult mode_NE (of_N n) y') = true ->
  scaled (Bmult mode_NE (of_N n) y) (Bmult mode_NE (of_N n) y').
Proof.
  intros Hn [Fy [Fy' Vy]] F. destruct (float_of_N_exact prec emax prec_gt_0_ prec_lt_emax_ n Hn) as [K1 [K2 _]].
  assert (E : rnd (IZR (Z.of_N n) * B2R y') = rnd (IZR (Z.of_N n) * B2R y) * b).
  { rewrite Vy, <- Rmult_assoc. apply rnd_scale_int. }
  pose proof (Bmult_correct prec emax _ _ mode_NE (of_N n) y') as H'. rewrite K1 in H'. rewrite E in H'.
  destruct (Rlt_bool_spec (Rabs (rnd (IZR (Z.of_N n) * B2R y) * b)) top) as [T|T].
  - destruct H' as [V' _]. pose proof (Bmult_correct prec emax _ _ mode_NE (of_N n) y) as H. rewrite K1 in H.
    rewrite Rlt_bool_true in H by (apply smaller_top; exact T). destruct H as [H1 [H2 _]]. rewrite K2, Fy in H2.
    split; [exact H2|]. split; [exact F|]. rewrite V', H1. reflexivity.
  - exfalso. destruct (Bmult mode_NE (of_N n) y'); try discriminate F; destruct (xorb _ _); discriminate H'.
Qed.

Lemma scaled_div_int (n : N) w w' : (1 <= Z.of_N n < 2 ^ (prec - 1))%Z -> scaled w w' ->
  (B2R w = 0 \/ min_normal <= Rabs (B2R w / IZR (Z.of_N n))) -> scaled (Bdiv mode_NE w (of_N n)) (Bdiv mode_NE w' (of_N n)).
Proof.
  intros Hn [Fw [Fw' Vw]] Hnorm. destruct (new_step prec emax prec_gt_0_ prec_lt_emax_ Hp2 n w Hn Fw) as [S1 S2].
  destruct (new_step prec emax prec_gt_0_ prec_lt_emax_ Hp2 n w' Hn Fw') as [S1' S2'].
  split; [exact S1|]. split; [exact S1'|]. rewrite S2, S2', Vw.
  replace (B2R w * b / IZR (Z.of_N n)) with (B2R w / IZR (Z.of_N n) * b) by (unfold Rdiv; ring).
  destruct Hnorm as [H0|H]; [|apply rnd_scale_normal; exact H]. rewrite H0. unfold Rdiv. rewrite !Rmult_0_l, (rnd_0 prec emax). ring.
Qed.

Lemma scaled_lt x x' y y' : scaled x x' -> scaled y y' -> lt x' y' = lt x y.
Proof.
  intros [Fx [Fx' Vx]] [Fy [Fy' Vy]]. rewrite !lt_fin by assumption. rewrite Vx, Vy.
  destruct (Rlt_bool_spec (B2R x) (B2R y)); [apply Rlt_bool_true | apply Rlt_bool_false]; nra.
Qed.
Lemma scaled_ge x x' y y' : scaled x x' -> scaled y y' -> ge x' y' = ge x y.
Proof.
  intros [Fx [Fx' Vx]] [Fy [Fy' Vy]]. rewrite !ge_fin by assumption. rewrite Vx, Vy.
  destruct (Rle_bool_spec (B2R y) (B2R x)); [apply Rle_bool_true | apply Rle_bool_false]; nra.
Qed.

(** [fmod] is determined by its specification. *)
Lemma fmod_unique (D W r1 r2 : R) (q1 q2 : Z) : 0 < W ->
  D = IZR q1 * W + r1 -> D = IZR q2 * W + r2 -> Rabs r1 < W -> Rabs r2 < W ->
  Rabs (IZR q1) * W <= Rabs D -> Rabs (IZR q2) * W <= Rabs D -> r1 = r2.
Proof.
  intros HW H1 H2 A1 A2 B1 B2.
  assert (Hgen : forall (s1 s2 : R) (p1 p2 : Z), D = IZR p1 * W + s1 -> D = IZR p2 * W + s2 -> Rabs s1 < W -> Rabs s2 < W ->
     Rabs (IZR p1) * W <= Rabs D -> Rabs (IZR p2) * W <= Rabs D -> (p2 < p1)%Z -> False).
  { clear. intros s1 s2 p1 p2 H1 H2 A1 A2 B1 B2 Hlt. apply Rabs_def2 in A1, A2.
    assert (Hd : (p1 - p2 < 2)%Z).
    { apply lt_IZR. rewrite minus_IZR. apply Rmult_lt_reg_r with W; [lra|]. nra. }
    assert (E : p1 = (p2 + 1)%Z) by lia. subst p1. rewrite plus_IZR in *.
    assert (Hs : s2 = s1 + W) by lra.
    destruct (Z_lt_le_dec p2 0) as [Hneg|Hpos].
    - assert (Hz : IZR p2 <= -1) by (apply IZR_le; lia).
      assert (HD : D < 0 \/ 0 <= D) by lra. destruct HD as [HD|HD]; [|nra].
      rewrite (Rabs_left D), (Rabs_left (IZR p2)) in B2 by lra. nra.
    - assert (Hz : 0 <= IZR p2) by (apply IZR_le; lia).
      assert (HD : D < 0 \/ 0 <= D) by lra. destruct HD as [HD|HD]; [nra|].
      rewrite (Rabs_pos_eq D), (Rabs_pos_eq (IZR p2 + 1)) in B1 by lra. nra. }
  destruct (Z.lt_trichotomy q1 q2) as [H|[H|H]].
  - exfalso. exact (Hgen r2 r1 q2 q1 H2 H1 A2 A1 B2 B1 H).
  - subst q2. lra.
  - exfalso. exact (Hgen r1 r2 q1 q2 H1 H2 A1 A2 B1 B2 H).
Qed.

Notation fmod := (Bfmod prec emax prec_gt_0_ prec_lt_emax_).
Lemma scaled_fmod x x' y y' : scaled x x' -> scaled y y' -> 0 < B2R y -> scaled (fmod x y) (fmod x' y').
Proof.
  intros [Fx [Fx' Vx]] [Fy [Fy' Vy]] Hy. assert (Hy' : 0 < B2R y') by (rewrite Vy; nra).
  destruct (fmod_correct prec emax prec_gt_0_ prec_lt_emax_ Hp He x y Fx Fy Hy) as [F [q [V [A B]]]].
  destruct (fmod_correct prec emax prec_gt_0_ prec_lt_emax_ Hp He x' y' Fx' Fy' Hy') as [F' [q' [V' [A' B']]]].
  split; [exact F|]. split; [exact F'|].
  apply (fmod_unique (B2R x') (B2R y') (B2R (fmod x' y')) (B2R (fmod x y) * b) q' q Hy').
  - lra.
  - rewrite V, Vx, Vy. ring.
  - exact A'.
  - rewrite Rabs_mult, (Rabs_pos_eq b), Vy by lra. apply Rmult_lt_compat_r; [exact Hb0 | exact A].
  - exact B'.
  - rewrite Vx, Vy, Rabs_mult, (Rabs_pos_eq b), <- Rmult_assoc by lra. apply Rmult_le_compat_r; [lra | exact B].
Qed.

Section Axes.
Context (a a' : Uniform flt) (Ra : regular prec emax prec_gt_0_ prec_lt_emax_ a) (Ra' : regular prec emax prec_gt_0_ prec_lt_emax_ a')
        (En : u_num a' = u_num a) (Sl : scaled (u_low a) (u_low a')) (Sh : scaled (u_high a) (u_high a')) (Ss : scaled (u_step a) (u_step a'))
        (Hlt : B2R (u_low a) < B2R (u_high a)) (Fw : is_finite (Bminus mode_NE (u_high a') (u_low a')) = true).

Lemma scaled_index x x' : scaled x x' -> index a' x' = index a x.
Proof.
  intros Sx. pose proof (scaled_lt _ _ _ _ Sx Sl) as E1. pose proof (scaled_ge _ _ _ _ Sx Sh) as E2.
  pose proof Sx as [Fx [Fx' Vx]]. pose proof Sl as [Fl [Fl' Vl]]. pose proof Sh as [Fh [Fh' Vh]]. pose proof Ss as [Fs [Fs' Vs]].
  destruct (lt x (u_low a)) eqn:L.
  { unfold uniform_index. rewrite E1, L. reflexivity. }
  destruct (ge x (u_high a)) eqn:G.
  { unfold uniform_index. rewrite E1, L, E2, G, En. reflexivity. }
  pose proof (lt_fin_false prec emax prec_gt_0_ prec_lt_emax_ _ _ Fx Fl L) as Hx1.
  pose proof (ge_fin_false prec emax prec_gt_0_ prec_lt_emax_ _ _ Fx Fh G) as Hx2.
  assert (Fd : is_finite (Bminus mode_NE x' (u_low a')) = true).
  { assert (Hx1' : B2R (u_low a') <= B2R x') by (rewrite Vx, Vl; nra).
    destruct (distance_computed prec emax prec_gt_0_ prec_lt_emax_ x' (u_low a') Fx' Fl' Hx1') as [_ [D1 _]]. apply D1.
    apply Rle_lt_trans with (rnd (B2R (u_high a') - B2R (u_low a'))).
    - apply rnd_le; [exact prec_gt_0_|]. rewrite Vx, Vh. nra.
    - destruct (minus_value_top _ _ Fh' Fl' Fw) as [_ T]. apply Rle_lt_trans with (2 := T). apply Rle_abs. }
  pose proof (scaled_minus _ _ _ _ Sx Sl Fd) as [Gd [_ Vd]].
  assert (Hdiv : B2R (Bminus mode_NE x' (u_low a')) / B2R (u_step a') = B2R (Bminus mode_NE x (u_low a)) / B2R (u_step a)).
  { rewrite Vd, Vs. pose proof (rg_pos _ _ _ _ _ Ra). field. lra. }
  destruct (minus_value_top _ _ Fx Fl Gd) as [Vm _]. destruct (minus_value_top _ _ Fx' Fl' Fd) as [Vm' _].
  rewrite Vm, Vm' in Hdiv.
  destruct (minus_value_top _ _ Fx Fl Gd) as [_ Tm]. destruct (minus_value_top _ _ Fx' Fl' Fd) as [_ Tm'].
  destruct (regular_index prec emax prec_gt_0_ prec_lt_emax_ Hp2 He a x Ra Fx L G) as [[_ [_ ->]]|[H _]];
    [|pose proof (Rle_abs (rnd (B2R x - B2R (u_low a)))); lra].
  destruct (regular_index prec emax prec_gt_0_ prec_lt_emax_ Hp2 He a' x' Ra' Fx' ltac:(congruence) ltac:(congruence)) as [[_ [_ ->]]|[H _]];
    [|pose proof (Rle_abs (rnd (B2R x' - B2R (u_low a')))); lra].
  rewrite Hdiv. reflexivity.
Qed.

(** NaN and infinities. *)
Lemma special_index (x : flt) : is_finite x = false -> index a' x = index a x.
Proof.
  intros Fx. pose proof Sl as [Fl [Fl' Vl]]. pose proof Sh as [Fh [Fh' Vh]]. pose proof (rg_usize _ _ _ _ _ Ra) as U. pose proof (rg_usize _ _ _ _ _ Ra') as U'.
  destruct x as [s|s| |s m e Hbb]; try discriminate Fx.
  - assert (HL : forall y : flt, is_finite y = true -> lt (B754_infinity s) y = s) by (intros [?|?| |? ? ? ?]; try discriminate; intros _; destruct s; reflexivity).
    assert (HG : forall y : flt, is_finite y = true -> ge (B754_infinity s) y = negb s) by (intros [?|?| |? ? ? ?]; try discriminate; intros _; destruct s; reflexivity).
    unfold uniform_index. rewrite !HL, !HG by assumption. destruct s; cbn [negb]; [reflexivity|]. rewrite En. reflexivity.
  - rewrite !index_nan by lia. rewrite En. reflexivity.
Qed.

Notation noflow_index := (uniformnoflow_index ops).
Notation wrap := (wrap_coordinate ops).

Lemma noflow_same x x' : index a' x' = index a x -> noflow_index (mkUniformNoFlow a') x' = noflow_index (mkUniformNoFlow a) x.
Proof. intros H. unfold uniformnoflow_index, uniform_num_bins. cbn [unf_axis]. rewrite H, En. reflexivity. Qed.

(** Outside the range there is no bin without flow. *)
Lemma noflow_outside (c : Uniform flt) x : regular prec emax prec_gt_0_ prec_lt_emax_ c -> is_finite (u_high c) = true ->
  (is_finite x = false \/ B2R x < B2R (u_low c) \/ B2R (u_high c) <= B2R x) -> noflow_index (mkUniformNoFlow c) x = Val None.
Proof.
  clear En Sl Sh Ss Hlt Fw Ra Ra'.
  intros Rc Fh Hx. pose proof (rg_usize _ _ _ _ _ Rc) as U. pose proof (rg_low _ _ _ _ _ Rc) as Fl.
  assert (HI : index c x = Val (Some 0%N) \/ index c x = Val (Some (u_num c + 1)%N)).
  { destruct (is_finite x) eqn:Fx.
    - unfold uniform_index. destruct (lt x (u_low c)) eqn:L; [left; reflexivity|]. right.
      pose proof (lt_fin_false prec emax prec_gt_0_ prec_lt_emax_ _ _ Fx Fl L) as H1.
      assert (G : ge x (u_high c) = true).
      { rewrite ge_fin by assumption. apply Rle_bool_true. destruct Hx as [H|[H|H]]; [discriminate | lra | exact H]. }
      rewrite G, uadd_ok by lia. reflexivity.
    - destruct x as [s|s| |s m e Hbb]; try discriminate Fx.
      + assert (HL : forall y : flt, is_finite y = true -> lt (B754_infinity s) y = s) by (intros [?|?| |? ? ? ?]; try discriminate; intros _; destruct s; reflexivity).
        assert (HG : forall y : flt, is_finite y = true -> ge (B754_infinity s) y = negb s) by (intros [?|?| |? ? ? ?]; try discriminate; intros _; destruct s; reflexivity).
        unfold uniform_index. rewrite !HL, !HG by assumption. destruct s; cbn [negb]; [left; reflexivity|]. right. rewrite uadd_ok by lia. reflexivity.
      + right. rewrite index_nan by lia. reflexivity. }
  unfold uniformnoflow_index, uniform_num_bins. cbn [unf_axis]. destruct HI as [-> | ->]; cbn [obind]; [reflexivity|].
  replace (u_num c + 1 =? 0)%N with false by lia. rewrite uadd_ok by lia. cbn [obind]. rewrite uadd_ok by lia. cbn [obind].
  replace (u_num c + 1 + 1 =? u_num c + 2)%N with true by lia. reflexivity.
Qed.

Notation zero := (B754_zero false : flt).
Lemma scaled_zero : scaled zero zero.
Proof. split; [reflexivity|]. split; [reflexivity|]. cbn. ring. Qed.

Lemma scaled_cyclic x x' : scaled x x' -> is_finite (Bminus mode_NE x' (u_low a')) = true ->
  uniformcyclic_index ops (mkUniformCyclic (mkUniformNoFlow a')) x' = uniformcyclic_index ops (mkUniformCyclic (mkUniformNoFlow a)) x.
Proof.
  intros Sx Fd. unfold uniformcyclic_index, wrap_coordinate. cbn [uc_axis unf_axis n_sub n_rem n_add n_zero float_ops obind].
  pose proof (scaled_minus _ _ _ _ Sh Sl Fw) as Sw. pose proof (scaled_minus _ _ _ _ Sx Sl Fd) as Sd.
  set (w := Bminus mode_NE (u_high a) (u_low a)) in *. set (w' := Bminus mode_NE (u_high a') (u_low a')) in *.
  set (d := Bminus mode_NE x (u_low a)) in *. set (d' := Bminus mode_NE x' (u_low a')) in *.
  assert (Hw : 0 < B2R w).
  { pose proof Sl as [Fl [Fl' Vl]]. pose proof Sh as [Fh [Fh' Vh]]. pose proof Sw as [Gw _].
    destruct (minus_value_top _ _ Fh Fl Gw) as [V _]. unfold w. rewrite V.
    pose proof (rnd_sub_rel prec emax prec_gt_0_ (u_high a) (u_low a)) as Hr.
    pose proof (u_tiny prec Hp) as Hu. rewrite (Rabs_pos_eq (B2R (u_high a) - B2R (u_low a))) in Hr by lra. apply Rabs_le_inv in Hr. pose proof (bpow_gt_0 radix2 (- prec)). nra. }
  pose proof (scaled_fmod _ _ _ _ Sd Sw Hw) as Sr. set (r := fmod d w) in *. set (r' := fmod d' w') in *.
  assert (Hr : Rabs (B2R r') < B2R w').
  { destruct Sd as [_ [Fd' _]]. destruct Sw as [_ [Fw' Vw]].
    destruct (fmod_correct prec emax prec_gt_0_ prec_lt_emax_ Hp He d' w' Fd' Fw' ltac:(rewrite Vw; nra)) as [_ [q [_ [A _]]]]. exact A. }
  pose proof (scaled_lt _ _ _ _ Sr scaled_zero) as EL. rewrite EL.
  assert (Hs : exists s s' : flt, (if lt r zero then Val (Bplus mode_NE w r) else Val r) = Val s
            /\ (if lt r zero then Val (Bplus mode_NE w' r') else Val r') = Val s' /\ scaled s s').
  { destruct (lt r zero) eqn:L; [|eexists; eexists; split; [reflexivity|]; split; [reflexivity | exact Sr]].
    eexists; eexists; split; [reflexivity|]; split; [reflexivity|]. apply scaled_plus; [exact Sw | exact Sr |].
    destruct Sw as [_ [Fw' Vw]]. destruct Sr as [_ [Fr' Vr]].
    pose proof (Bplus_correct prec emax _ _ mode_NE w' r' Fw' Fr') as H. rewrite Rlt_bool_true in H; [apply H|].
    assert (Hneg : B2R r' < 0).
    { rewrite lt_fin in EL by (assumption || reflexivity). destruct (Rlt_bool_spec (B2R r') (B2R zero)) as [H0|H0]; [exact H0 | congruence]. }
    rewrite Rabs_left in Hr by exact Hneg.
    assert (H1 : 0 <= rnd (B2R w' + B2R r')) by (apply rnd_pos; [exact prec_gt_0_ | lra]).
    rewrite Rabs_pos_eq by exact H1. apply Rle_lt_trans with (rnd (B2R w')); [apply rnd_le; [exact prec_gt_0_ | lra]|].
    rewrite (rnd_B2R prec emax). apply Rle_lt_trans with (1 := Rle_abs _). apply abs_B2R_lt_emax. }
  destruct Hs as [s [s' [-> [-> Ss']]]]. cbn [obind].
  pose proof Ss' as [Fs1 [Fs1' Vs1]]. pose proof Sl as [Fl [Fl' Vl]]. pose proof Sh as [Fh [Fh' Vh]].
  destruct (is_finite (Bplus mode_NE s' (u_low a'))) eqn:Fy.
  - apply noflow_same. apply scaled_index. apply scaled_plus; assumption.
  - rewrite (noflow_outside a' _ Ra' Fh' (or_introl Fy)). symmetry. apply noflow_outside; [exact Ra | exact Fh |].
    pose proof (Bplus_correct prec emax _ _ mode_NE s (u_low a) Fs1 Fl) as H.
    destruct (Rlt_bool_spec (Rabs (rnd (B2R s + B2R (u_low a)))) top) as [T|T].
    + destruct H as [V [F _]]. right. rewrite V.
      pose proof (Bplus_correct prec emax _ _ mode_NE s' (u_low a') Fs1' Fl') as H'.
      destruct (Rlt_bool_spec (Rabs (rnd (B2R s' + B2R (u_low a')))) top) as [T'|T']; [destruct H' as [_ [H' _]]; congruence|].
      rewrite Vs1, Vl, <- Rmult_plus_distr_r, rnd_scale_sum in T' by apply B2R_format.
      set (y := rnd (B2R s + B2R (u_low a))) in *.
      pose proof (abs_B2R_lt_emax prec emax (u_low a')) as TL. pose proof (abs_B2R_lt_emax prec emax (u_high a')) as TH.
      rewrite Vl in TL. rewrite Vh in TH. apply Rabs_def2 in TL, TH.
      destruct (Rle_or_lt 0 y) as [H0|H0].
      * right. rewrite Rabs_pos_eq in T' by nra. nra.
      * left. rewrite Rabs_left in T' by nra. nra.
    + left. destruct H as [H _]. destruct (Bplus mode_NE s (u_low a)); try reflexivity; destruct (Bsign s); discriminate H.
Qed.

(** Bin edges, where they do not overflow. *)
Lemma scaled_edge (i : N) e e' : (i <= u_num a)%N -> (B2R (Bminus mode_NE (u_high a) (u_low a)) = 0 \/
    min_normal <= B2R (Bminus mode_NE (u_high a) (u_low a)) / IZR (Z.of_N (u_num a))) ->
  uniform_edge ops a i = Val (Some e) -> uniform_edge ops a' i = Val (Some e') -> is_finite e' = true -> scaled e e'.
Proof.
  intros Hi Hnorm. unfold uniform_edge. cbn [n_from_usize n_sub n_mul n_div n_add float_ops obind]. rewrite En.
  pose proof (scaled_minus _ _ _ _ Sh Sl Fw) as Sw.
  set (w := Bminus mode_NE (u_high a) (u_low a)) in *. set (w' := Bminus mode_NE (u_high a') (u_low a')) in *.
  intros E E' F. injection E as <-. injection E' as <-.
  pose proof (rg_num _ _ _ _ _ Ra) as Rn. pose proof (num_fits prec Hp2 (u_num a) ltac:(lia)) as Hn2.
  assert (Fq : is_finite (Bdiv mode_NE (Bmult mode_NE (of_N i) w') (of_N (u_num a))) = true).
  { destruct (u_low a') as [s1|s1| |s1 m1 e1 h1]; destruct (Bdiv mode_NE _ _) as [s2|s2| |s2 m2 e2 h2]; try reflexivity; try discriminate F;
      destruct s1, s2; discriminate F. }
  destruct (num_float prec emax prec_gt_0_ prec_lt_emax_ Hp2 (u_num a) Rn) as [N1 [N2 [N3 N4]]].
  assert (Fp : is_finite (Bmult mode_NE (of_N i) w') = true).
  { destruct (of_N (u_num a)) as [s1|s1| |s1 m1 e1 h1]; try discriminate N2; [cbn in N1; lra|].
    destruct (Bmult mode_NE (of_N i) w') as [s2|s2| |s2 m2 e2 h2]; try reflexivity; discriminate Fq. }
  assert (Hi2 : (Z.of_N i <= 2 ^ prec)%Z) by lia.
  pose proof (scaled_mult i w w' Hi2 Sw Fp) as Sp.
  assert (Sq : scaled (Bdiv mode_NE (Bmult mode_NE (of_N i) w) (of_N (u_num a))) (Bdiv mode_NE (Bmult mode_NE (of_N i) w') (of_N (u_num a)))).
  { apply scaled_div_int; [exact Rn | exact Sp |].
    destruct (float_of_N_exact prec emax prec_gt_0_ prec_lt_emax_ i Hi2) as [K1 [K2 _]].
    pose proof Sp as [Fp0 _]. pose proof Sw as [Fw0 _].
    assert (Vp : B2R (Bmult mode_NE (of_N i) w) = rnd (IZR (Z.of_N i) * B2R w)).
    { pose proof (Bmult_correct prec emax _ _ mode_NE (of_N i) w) as H. rewrite K1 in H.
      destruct (Rlt_bool_spec (Rabs (rnd (IZR (Z.of_N i) * B2R w))) top) as [T|T]; [apply H|].
      exfalso. destruct (Bmult mode_NE (of_N i) w); try discriminate Fp0; destruct (xorb _ _); discriminate H. }
    rewrite Vp. destruct (N.eq_dec i 0) as [->|Hi0].
    - left. cbn. rewrite Rmult_0_l. apply (rnd_0 prec emax).
    - destruct Hnorm as [H0|Hnorm]; [left; rewrite H0, Rmult_0_r; apply (rnd_0 prec emax)|]. right.
      assert (Hiz : 1 <= IZR (Z.of_N i)) by (apply IZR_le; lia).
      pose proof (bpow_gt_0 radix2 (emin + prec - 1)) as Hmn0.
      assert (Hwp : 0 < B2R w).
      { apply Rmult_lt_reg_r with (/ IZR (Z.of_N (u_num a))); [apply Rinv_0_lt_compat; lra|]. unfold Rdiv in Hnorm. lra. }
      assert (Hge : B2R w <= rnd (IZR (Z.of_N i) * B2R w)).
      { rewrite <- (rnd_B2R prec emax w) at 1. apply rnd_le; [exact prec_gt_0_ | nra]. }
      rewrite Rabs_pos_eq; [|apply Rmult_le_pos; [lra | apply Rlt_le, Rinv_0_lt_compat; lra]].
      apply Rle_trans with (1 := Hnorm). apply Rmult_le_compat_r; [apply Rlt_le, Rinv_0_lt_compat; lra | exact Hge]. }
  apply scaled_plus; [exact Sl | exact Sq | exact F].
Qed.
End Axes.
End Scale.
