(** * FloatApprox: how rounding errors accumulate through float expressions. *)
From Coq Require Import List ZArith Bool Lia Reals Lra Psatz.
From Flocq Require Import Core IEEE754.BinarySingleNaN Relative.
From Verif Require Import Base Num Float FloatFacts FloatSpec FloatUniform.
Import ListNotations.
Open Scope R_scope.

(** [v] is within the error of [k] roundings of relative error [u] of [V], on a scale [M]. *)
Definition near (u : R) (k : nat) (v V M : R) : Prop :=
  Rabs (v - V) <= ((1 + u) ^ k - 1) * M /\ Rabs V <= M.

Section Near.
Context (u : R) (u0 : 0 <= u).

Lemma pow1 k : 1 <= (1 + u) ^ k.
Proof. apply pow_R1_Rle. lra. Qed.
Lemma pow_le' k k' : (k <= k')%nat -> (1 + u) ^ k <= (1 + u) ^ k'.
Proof. intros. apply Rle_pow; [lra | assumption]. Qed.

Lemma near_nonneg k v V M : near u k v V M -> 0 <= M.
Proof. intros [_ H]. pose proof (Rabs_pos V). lra. Qed.

Lemma near_exact v : near u 0 v v (Rabs v).
Proof. split; [|lra]. rewrite Rminus_diag_eq by reflexivity. rewrite Rabs_R0. cbn. lra. Qed.

Lemma near_mono k k' M M' v V : (k <= k')%nat -> M <= M' -> near u k v V M -> near u k' v V M'.
Proof.
  intros Hk HM H. pose proof (near_nonneg _ _ _ _ H). destruct H as [H1 H2]. split; [|lra].
  pose proof (pow_le' k k' Hk). pose proof (pow1 k).
  eapply Rle_trans; [exact H1|]. apply Rmult_le_compat; lra.
Qed.

Lemma near_bound k v V M : near u k v V M -> Rabs v <= (1 + u) ^ k * M.
Proof.
  intros [H1 H2]. replace v with ((v - V) + V) by ring. eapply Rle_trans; [apply Rabs_triang|]. lra.
Qed.

(** Adding without rounding. *)
Lemma near_plus k k' v w V W M M' : near u k v V M -> near u k' w W M' ->
  near u (Nat.max k k') (v + w) (V + W) (M + M').
Proof.
  intros H H'. apply (near_mono k (Nat.max k k') M M) in H; [|lia|lra]. apply (near_mono k' (Nat.max k k') M' M') in H'; [|lia|lra].
  destruct H as [H1 H2], H' as [H1' H2']. split.
  - replace (v + w - (V + W)) with ((v - V) + (w - W)) by ring. eapply Rle_trans; [apply Rabs_triang|]. lra.
  - eapply Rle_trans; [apply Rabs_triang|]. lra.
Qed.

Lemma near_opp k v V M : near u k v V M -> near u k (- v) (- V) M.
Proof. intros [H1 H2]. split; [replace (- v - - V) with (- (v - V)) by ring|]; rewrite Rabs_Ropp; assumption. Qed.

(** Multiplying without rounding. *)
Lemma near_mult k k' v w V W M M' : near u k v V M -> near u k' w W M' ->
  near u (k + k') (v * w) (V * W) (M * M').
Proof.
  intros H H'. pose proof (near_bound _ _ _ _ H) as Bv. pose proof (near_nonneg _ _ _ _ H) as M0. pose proof (near_nonneg _ _ _ _ H') as M0'.
  destruct H as [H1 H2], H' as [H1' H2']. split.
  - replace (v * w - V * W) with (v * (w - W) + (v - V) * W) by ring. eapply Rle_trans; [apply Rabs_triang|].
    rewrite !Rabs_mult. rewrite pow_add. set (a := (1 + u) ^ k) in *. set (b := (1 + u) ^ k') in *.
    assert (T1 : Rabs v * Rabs (w - W) <= (a * M) * ((b - 1) * M')) by (apply Rmult_le_compat; try apply Rabs_pos; assumption).
    assert (T2 : Rabs (v - V) * Rabs W <= ((a - 1) * M) * M') by (apply Rmult_le_compat; try apply Rabs_pos; assumption).
    replace ((a * b - 1) * (M * M')) with ((a * M) * ((b - 1) * M') + ((a - 1) * M) * M') by ring. lra.
  - rewrite Rabs_mult. apply Rmult_le_compat; try apply Rabs_pos; assumption.
Qed.

(** One rounding, with gradual underflow below [tiny]. *)
Lemma near_round k z v V M tiny : 0 <= tiny -> near u k v V M -> Rabs (z - v) <= u * Rabs v + u * tiny ->
  near u (S k) z V (M + tiny).
Proof.
  intros Ht H Hz. pose proof (near_bound _ _ _ _ H) as Bv. pose proof (near_nonneg _ _ _ _ H) as M0. destruct H as [H1 H2].
  split; [|lra]. replace (z - V) with ((z - v) + (v - V)) by ring. eapply Rle_trans; [apply Rabs_triang|].
  cbn [pow]. set (a := (1 + u) ^ k) in *. pose proof (pow1 k) as Ha. fold a in Ha.
  assert (Hu : u * Rabs v <= u * (a * M)) by (apply Rmult_le_compat_l; assumption).
  assert (Hx : 0 <= (a - 1) * tiny) by (apply Rmult_le_pos; lra).
  assert (Hy : 0 <= u * (a - 1) * tiny) by (apply Rmult_le_pos; [apply Rmult_le_pos|]; lra).
  replace (((1 + u) * a - 1) * (M + tiny)) with (u * (a * M) + (a - 1) * M + ((a - 1) * tiny + u * (a - 1) * tiny + u * tiny)) by ring.
  lra.
Qed.

(** The same where underflow does not lose accuracy. *)
Lemma near_round0 k z v V M : near u k v V M -> Rabs (z - v) <= u * Rabs v -> near u (S k) z V M.
Proof.
  intros H Hz. replace M with (M + 0) by ring. apply (near_round k z v); [lra | exact H|]. lra.
Qed.

(** Dividing by a positive quantity known up to relative error. *)
Lemma near_div k k' v w V W M : near u k v V M -> 0 < W -> W <= (1 + u) ^ k' * w -> w <= (1 + u) ^ k' * W ->
  near u (k + k') (v / w) (V / W) (M / W).
Proof.
  intros H HW Hlo Hhi. pose proof (pow1 k') as Hb.
  assert (Hw : 0 < w).
  { destruct (Rlt_le_dec 0 w) as [|Hn]; [assumption|]. exfalso.
    assert ((1 + u) ^ k' * w <= 0) by (apply Rmult_le_0_l || (rewrite <- (Rmult_0_r ((1 + u) ^ k')); apply Rmult_le_compat_l; lra)). lra. }
  unfold Rdiv. apply near_mult; [exact H|]. set (b := (1 + u) ^ k') in *. split.
  - assert (H1 : / w <= b * / W).
    { apply (Rmult_le_reg_r w); [exact Hw|]. rewrite Rinv_l by lra. apply (Rmult_le_reg_r W); [exact HW|].
      replace (b * / W * w * W) with (b * w * (/ W * W)) by ring. rewrite Rinv_l by lra. lra. }
    assert (H2 : / W <= b * / w).
    { apply (Rmult_le_reg_r W); [exact HW|]. rewrite Rinv_l by lra. apply (Rmult_le_reg_r w); [exact Hw|].
      replace (b * / w * W * w) with (b * W * (/ w * w)) by ring. rewrite Rinv_l by lra. lra. }
    pose proof (Rinv_0_lt_compat _ HW) as IW. pose proof (Rinv_0_lt_compat _ Hw) as Iw.
    fold b. apply Rabs_le. split; [|lra].
    (* / w >= / W / b >= (2 - b) / W *)
    assert (H3 : (2 - b) * / W <= / w).
    { destruct (Rle_lt_dec (2 - b) 0) as [Hneg|Hpos].
      - apply Rle_trans with 0; [|lra]. rewrite <- (Rmult_0_l (/ W)). apply Rmult_le_compat_r; lra.
      - apply Rle_trans with ((2 - b) * (b * / w)); [apply Rmult_le_compat_l; lra|].
        rewrite <- Rmult_assoc. rewrite <- (Rmult_1_l (/ w)) at 2. apply Rmult_le_compat_r; [lra|]. nra. }
    lra.
  - rewrite Rabs_pos_eq; [lra|]. apply Rlt_le, Rinv_0_lt_compat, HW.
Qed.
End Near.

Section Flt.
Context (prec emax : Z) (P : Prec_gt_0 prec) (E : Prec_lt_emax prec emax).
Notation flt := (binary_float prec emax).
Notation fexp := (SpecFloat.fexp prec emax).
Notation rnd := (round radix2 fexp (round_mode mode_NE)).
Notation u := (unit_roundoff prec).
Notation tiny := (smallest_normal emax).

Lemma u_nonneg : 0 <= u. Proof. apply Rlt_le, bpow_gt_0. Qed.
Lemma tiny_nonneg : 0 <= tiny. Proof. apply Rlt_le, bpow_gt_0. Qed.

(** A result that is finite comes from finite operands, and is the rounded exact result. *)
Lemma add_finite (x y : flt) : is_finite (Bplus mode_NE x y) = true ->
  is_finite x = true /\ is_finite y = true /\ B2R (Bplus mode_NE x y) = rnd (B2R x + B2R y).
Proof.
  intros Fz.
  assert (Hf : is_finite x = true /\ is_finite y = true)
    by (destruct x as [sx|sx| |sx mx ex Hx], y as [sy|sy| |sy my ey Hy]; cbn in Fz |- *; auto; destruct sx, sy; discriminate).
  destruct Hf as [Fx Fy]. split; [exact Fx|]. split; [exact Fy|].
  pose proof (Bplus_correct prec emax P E mode_NE x y Fx Fy) as H. destruct (Rlt_bool _ _) in H; [apply H|].
  destruct H as [H _]. exfalso. revert H Fz. destruct (Bplus mode_NE x y) as [|s| |]; cbn; try discriminate; destruct (Bsign x); discriminate.
Qed.
Lemma sub_finite (x y : flt) : is_finite (Bminus mode_NE x y) = true ->
  is_finite x = true /\ is_finite y = true /\ B2R (Bminus mode_NE x y) = rnd (B2R x - B2R y).
Proof.
  intros Fz.
  assert (Hf : is_finite x = true /\ is_finite y = true)
    by (destruct x as [sx|sx| |sx mx ex Hx], y as [sy|sy| |sy my ey Hy]; cbn in Fz |- *; auto; destruct sx, sy; discriminate).
  destruct Hf as [Fx Fy]. split; [exact Fx|]. split; [exact Fy|].
  pose proof (Bminus_correct prec emax P E mode_NE x y Fx Fy) as H. destruct (Rlt_bool _ _) in H; [apply H|].
  destruct H as [H _]. exfalso. revert H Fz. destruct (Bminus mode_NE x y) as [|s| |]; cbn; try discriminate; destruct (Bsign x); discriminate.
Qed.
Lemma mul_finite (x y : flt) : is_finite (Bmult mode_NE x y) = true ->
  is_finite x = true /\ is_finite y = true /\ B2R (Bmult mode_NE x y) = rnd (B2R x * B2R y).
Proof.
  intros Fz.
  assert (Hf : is_finite x = true /\ is_finite y = true)
    by (destruct x as [sx|sx| |sx mx ex Hx], y as [sy|sy| |sy my ey Hy]; cbn in Fz |- *; auto; discriminate).
  destruct Hf as [Fx Fy]. split; [exact Fx|]. split; [exact Fy|].
  pose proof (Bmult_correct prec emax P E mode_NE x y) as H. destruct (Rlt_bool _ _) in H; [apply H|].
  exfalso. revert H Fz. destruct (Bmult mode_NE x y) as [|s| |]; cbn; try discriminate; destruct (xorb (Bsign x) (Bsign y)); discriminate.
Qed.
Lemma div_finite (x y : flt) : is_finite (Bdiv mode_NE x y) = true -> is_finite y = true ->
  is_finite x = true /\ B2R y <> 0 /\ B2R (Bdiv mode_NE x y) = rnd (B2R x / B2R y).
Proof.
  intros Fz Fy.
  assert (Fx : is_finite x = true)
    by (destruct x as [sx|sx| |sx mx ex Hx], y as [sy|sy| |sy my ey Hy]; cbn in Fz, Fy |- *; auto; discriminate).
  split; [exact Fx|].
  assert (Hy : B2R y <> 0).
  { destruct y as [sy|sy| |sy my ey Hy]; try discriminate Fy.
    - destruct x; discriminate.
    - cbn [B2R]. intros H0. apply eq_0_F2R in H0. destruct sy; discriminate. }
  split; [exact Hy|].
  pose proof (Bdiv_correct prec emax P E mode_NE x y Hy) as H. destruct (Rlt_bool _ _) in H; [apply H|].
  exfalso. revert H Fz. destruct (Bdiv mode_NE x y) as [|s| |]; cbn; try discriminate; destruct (xorb (Bsign x) (Bsign y)); discriminate.
Qed.

(** Rounding with gradual underflow. *)
Lemma rnd_near x : Rabs (rnd x - x) <= u * Rabs x + u * tiny.
Proof.
  pose proof u_nonneg as Hu. pose proof tiny_nonneg as Ht.
  assert (Etiny : tiny = bpow radix2 (SpecFloat.emin prec emax + prec - 1)).
  { unfold smallest_normal, SpecFloat.emin. f_equal. ring. }
  destruct (Rle_or_lt tiny (Rabs x)) as [H|H].
  - pose proof (rnd_rel prec emax P x) as HR. rewrite <- Etiny in HR. specialize (HR H). unfold unit_roundoff in *.
    assert (0 <= bpow radix2 (- prec) * tiny) by (apply Rmult_le_pos; assumption). lra.
  - assert (Hulp : Rabs (rnd x - x) <= / 2 * ulp radix2 fexp x).
    { apply error_le_half_ulp. apply fexp_correct. exact P. }
    assert (Hv : Valid_exp fexp) by (apply fexp_correct; exact P).
    assert (Hu2 : / 2 * ulp radix2 fexp x <= u * tiny).
    { assert (Hb : ulp radix2 fexp x <= bpow radix2 (SpecFloat.emin prec emax)).
      { assert (Hx : ulp radix2 fexp x <= ulp radix2 fexp (bpow radix2 (SpecFloat.emin prec emax + prec - 1))).
        { apply ulp_le; [exact Hv | | rewrite (Rabs_pos_eq (bpow _ _)) by apply bpow_ge_0; rewrite <- Etiny; apply Rlt_le; exact H].
          rewrite (fexp_FLT prec emax). apply FLT_exp_monotone. }
        rewrite ulp_bpow in Hx. eapply Rle_trans; [exact Hx|]. apply bpow_le.
        unfold SpecFloat.fexp. unfold Prec_gt_0 in P. lia. }
      rewrite Etiny. unfold unit_roundoff. rewrite <- bpow_plus.
      replace (- prec + (SpecFloat.emin prec emax + prec - 1))%Z with (-1 + SpecFloat.emin prec emax)%Z by ring.
      rewrite bpow_plus. change (bpow radix2 (-1)) with (/ 2). lra. }
    assert (0 <= u * Rabs x) by (apply Rmult_le_pos; [exact Hu | apply Rabs_pos]). lra.
Qed.

(** The four operations. *)
Lemma near_Bplus k k' x y V W M M' : is_finite (Bplus mode_NE x y) = true ->
  near u k (B2R x) V M -> near u k' (B2R y) W M' ->
  near u (S (Nat.max k k')) (B2R (Bplus mode_NE x y)) (V + W) (M + M').
Proof.
  intros Fz Hx Hy. destruct (add_finite x y Fz) as [_ [_ ->]].
  apply (near_round0 u u_nonneg _ _ (B2R x + B2R y)); [apply near_plus; [apply u_nonneg | assumption | assumption]|].
  apply (rnd_add_rel prec emax P); apply generic_format_B2R.
Qed.
Lemma near_Bminus k k' x y V W M M' : is_finite (Bminus mode_NE x y) = true ->
  near u k (B2R x) V M -> near u k' (B2R y) W M' ->
  near u (S (Nat.max k k')) (B2R (Bminus mode_NE x y)) (V - W) (M + M').
Proof.
  intros Fz Hx Hy. destruct (sub_finite x y Fz) as [_ [_ ->]].
  apply (near_round0 u u_nonneg _ _ (B2R x - B2R y)).
  - apply (near_plus u u_nonneg _ _ (B2R x) (- B2R y) V (- W)); [assumption | apply near_opp; assumption].
  - apply (rnd_sub_rel prec emax P).
Qed.
Lemma near_Bmult k k' x y V W M M' : is_finite (Bmult mode_NE x y) = true ->
  near u k (B2R x) V M -> near u k' (B2R y) W M' ->
  near u (S (k + k')) (B2R (Bmult mode_NE x y)) (V * W) (M * M' + tiny).
Proof.
  intros Fz Hx Hy. destruct (mul_finite x y Fz) as [_ [_ ->]].
  apply (near_round u u_nonneg _ _ (B2R x * B2R y)); [apply tiny_nonneg | apply near_mult; assumption |].
  apply rnd_near.
Qed.
Lemma near_Bdiv k k' x y V W M : is_finite (Bdiv mode_NE x y) = true -> is_finite y = true ->
  near u k (B2R x) V M -> 0 < W -> W <= (1 + u) ^ k' * B2R y -> B2R y <= (1 + u) ^ k' * W ->
  near u (S (k + k')) (B2R (Bdiv mode_NE x y)) (V / W) (M / W + tiny).
Proof.
  intros Fz Fy Hx HW Hlo Hhi. destruct (div_finite x y Fz Fy) as [_ [_ ->]].
  apply (near_round u u_nonneg _ _ (B2R x / B2R y)); [apply tiny_nonneg | apply near_div; [apply u_nonneg | assumption..] |].
  apply rnd_near.
Qed.
End Flt.
