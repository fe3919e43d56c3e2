(** * FloatUniformEdge: the bin edges of a float Uniform axis. *)
From Coq Require Import List ZArith NArith Bool Lia Reals Lra ZifyN ZifyNat.
From Flocq Require Import Core IEEE754.BinarySingleNaN Relative Plus_error.
From Verif Require Import Base BaseFacts Num Float Axis Spec OrdLaws FloatOrd FloatFacts Uniform FloatUniform FloatUniformNew FloatUniformAcc.
Open Scope R_scope.

Section Edge.
Variable prec emax : Z.
Context (prec_gt_0_ : Prec_gt_0 prec).
Context (prec_lt_emax_ : Prec_lt_emax prec emax).
Context {Bd : Build}.
Context (Hp : (8 <= prec <= 63)%Z) (He : (64 < emax)%Z).
Notation flt := (binary_float prec emax).
Notation ops := (float_ops prec emax prec_gt_0_ prec_lt_emax_).
Notation fexp := (SpecFloat.fexp prec emax).
Notation emin := (SpecFloat.emin prec emax).
Notation rnd := (round radix2 fexp (round_mode mode_NE)).
Notation u := (bpow radix2 (- prec)).
Notation top := (bpow radix2 emax).
Notation min_normal := (bpow radix2 (emin + prec - 1)).
Notation of_N := (float_of_N prec emax prec_gt_0_ prec_lt_emax_).
Notation regular := (regular prec emax prec_gt_0_ prec_lt_emax_).

Let Hp2 : (2 <= prec <= 63)%Z. Proof. lia. Qed.

Lemma bpow_fmt e : (emin <= e)%Z -> rnd (bpow radix2 e) = bpow radix2 e.
Proof.
  intros H. apply rnd_format. apply generic_format_bpow. rewrite fexp_FLT. unfold FLT_exp. lia.
Qed.

Lemma top_half : rnd (bpow radix2 (emax - 1)) < top.
Proof. rewrite bpow_fmt; [apply bpow_lt; lia | unfold SpecFloat.emin; lia]. Qed.

Lemma mul_int_computed (k : N) (w : flt) : (Z.of_N k < 2 ^ prec)%Z -> is_finite w = true -> 0 <= B2R w ->
  IZR (Z.of_N k) * B2R w <= bpow radix2 (emax - 1) ->
  is_finite (Bmult mode_NE (of_N k) w) = true /\ B2R (Bmult mode_NE (of_N k) w) = rnd (IZR (Z.of_N k) * B2R w).
Proof.
  intros Hk Fw Hw Hb. destruct (float_of_N_exact prec emax prec_gt_0_ prec_lt_emax_ k ltac:(lia)) as [E1 [E2 E3]].
  pose proof (Bmult_correct prec emax _ _ mode_NE (of_N k) w) as HM. rewrite E1 in HM.
  assert (H0 : 0 <= IZR (Z.of_N k) * B2R w) by (apply Rmult_le_pos; [apply IZR_le; lia | exact Hw]).
  rewrite Rlt_bool_true in HM.
  - destruct HM as [H1 [H2 _]]. rewrite E2, Fw in H2. auto.
  - rewrite Rabs_pos_eq by (apply rnd_pos; [exact prec_gt_0_ | exact H0]).
    eapply Rle_lt_trans; [apply (rnd_le prec emax prec_gt_0_ _ _ Hb)|]. apply top_half.
Qed.

Section Params.
Variables (n : N) (low high : flt) (step : flt).
Let a := mkUniform n low high step.
Let L := B2R low.
Let H := B2R high.
Let m := IZR (Z.of_N n).
Let M := Rmax (Rabs L) (Rabs H).
Hypothesis Hn : (1 <= Z.of_N n < 2 ^ (prec - 1))%Z.
Hypothesis Fl : is_finite low = true.
Hypothesis Fh : is_finite high = true.
Hypothesis Hlt : L < H.
Hypothesis HM : m * M < bpow radix2 (emax - 3).

Let m1 : 1 <= m. Proof. apply IZR_le. lia. Qed.
Let M_L : Rabs L <= M. Proof. apply Rmax_l. Qed.
Let M_H : Rabs H <= M. Proof. apply Rmax_r. Qed.
Let M0 : 0 < M.
Proof.
  pose proof M_L as HL. pose proof M_H as HH. apply Rabs_le_inv in HL. apply Rabs_le_inv in HH. lra.
Qed.
Let W_M : H - L <= 2 * M.
Proof. pose proof M_L as HL. pose proof M_H as HH. apply Rabs_le_inv in HL. apply Rabs_le_inv in HH. lra. Qed.

Let top8 : bpow radix2 (emax - 1) = 4 * bpow radix2 (emax - 3).
Proof. replace (emax - 1)%Z with (2 + (emax - 3))%Z by lia. rewrite bpow_plus. reflexivity. Qed.
Let toptop : bpow radix2 emax = 8 * bpow radix2 (emax - 3).
Proof. replace emax with (3 + (emax - 3))%Z at 1 by lia. rewrite bpow_plus. reflexivity. Qed.

Lemma edge_width : is_finite (Bminus mode_NE high low) = true
  /\ B2R (Bminus mode_NE high low) = rnd (H - L)
  /\ (H - L) * (1 - u) <= rnd (H - L) <= (H - L) * (1 + u).
Proof.
  pose proof (u_pos prec) as Hu0. pose proof (u_tiny prec Hp) as Hu1.
  destruct (distance_computed prec emax prec_gt_0_ prec_lt_emax_ high low Fh Fl ltac:(fold L H; lra)) as [D0 [D1 _]].
  fold L H in D0, D1.
  pose proof (rnd_sub_rel prec emax prec_gt_0_ high low) as Hd. fold L H in Hd.
  rewrite (Rabs_pos_eq (H - L)) in Hd by lra. apply Rabs_le_inv in Hd.
  assert (Hb : (H - L) * (1 - u) <= rnd (H - L) <= (H - L) * (1 + u)) by lra.
  destruct D1 as [D1 D2].
  { eapply Rle_lt_trans; [apply Hb|]. rewrite toptop. assert (M <= m * M) by nra. nra. }
  auto.
Qed.

Definition edge_real (k : N) : R := rnd (L + rnd (rnd (IZR (Z.of_N k) * rnd (H - L)) / m)).

Lemma edge_product k : (k <= n)%N ->
  0 <= IZR (Z.of_N k) * rnd (H - L) <= IZR (Z.of_N k) * (H - L) * (1 + u)
  /\ IZR (Z.of_N k) * (H - L) * (1 - u) <= IZR (Z.of_N k) * rnd (H - L)
  /\ IZR (Z.of_N k) * rnd (H - L) <= bpow radix2 (emax - 1)
  /\ 0 <= rnd (IZR (Z.of_N k) * rnd (H - L)) <= 2 * (m * M) * ((1 + u) * (1 + u)).
Proof.
  intros Hk. destruct edge_width as [Fw [W1 W2]]. pose proof (u_pos prec) as Hu0. pose proof (u_tiny prec Hp) as Hu1.
  assert (Hk0 : 0 <= IZR (Z.of_N k) <= m) by (split; apply IZR_le; lia).
  set (kk := IZR (Z.of_N k)) in *. set (W' := rnd (H - L)) in *.
  assert (HW0 : 0 <= W') by (apply rnd_pos; [exact prec_gt_0_ | lra]).
  assert (HkW : kk * W' <= kk * (H - L) * (1 + u)) by (rewrite Rmult_assoc; apply Rmult_le_compat_l; lra).
  assert (HkM : kk * (H - L) <= 2 * (m * M)).
  { apply Rle_trans with (m * (H - L)); [apply Rmult_le_compat_r; lra|].
    replace (2 * (m * M)) with (m * (2 * M)) by ring. apply Rmult_le_compat_l; lra. }
  assert (HmM : 0 <= m * M) by (apply Rmult_le_pos; lra).
  assert (HkW0 : 0 <= kk * W') by (apply Rmult_le_pos; lra).
  assert (Hle : kk * W' <= 2 * (m * M) * (1 + u)).
  { eapply Rle_trans; [exact HkW|]. apply Rmult_le_compat_r; lra. }
  split; [split; assumption|]. split; [rewrite Rmult_assoc; apply Rmult_le_compat_l; lra|]. split.
  - rewrite top8. nra.
  - split; [apply rnd_pos; [exact prec_gt_0_ | exact HkW0]|].
    pose proof (rnd_mul_int_rel prec emax prec_gt_0_ (Z.of_N k) (Bminus mode_NE high low)) as Hr.
    rewrite W1 in Hr. fold kk in Hr. fold W' in Hr. rewrite (Rabs_pos_eq _ HkW0) in Hr. apply Rabs_le_inv in Hr.
    apply Rle_trans with (kk * W' * (1 + u)); [lra|].
    rewrite <- Rmult_assoc. apply Rmult_le_compat_r; lra.
Qed.

Lemma edge_value k : (k <= n)%N ->
  exists e, uniform_edge ops a k = Val (Some e) /\ is_finite e = true /\ B2R e = edge_real k.
Proof.
  intros Hk. destruct edge_width as [Fw [W1 W2]]. pose proof (u_pos prec) as Hu0. pose proof (u_tiny prec Hp) as Hu1.
  destruct (edge_product k Hk) as [P1 [P2 [P3 P4]]].
  pose proof (num_fits prec Hp2 n ltac:(lia)) as Hn2.
  destruct (mul_int_computed k (Bminus mode_NE high low)) as [M1 M2]; [lia | exact Fw | rewrite W1; apply rnd_pos; [exact prec_gt_0_ | lra] | rewrite W1; exact P3 |].
  rewrite W1 in M2. set (p := Bmult mode_NE (of_N k) (Bminus mode_NE high low)) in *.
  destruct (new_step prec emax prec_gt_0_ prec_lt_emax_ Hp2 n p Hn M1) as [Q1 Q2]. fold m in Q2. rewrite M2 in Q2.
  set (q := Bdiv mode_NE p (of_N n)) in *.
  assert (Hq0 : 0 <= rnd (B2R p / m)).
  { apply rnd_pos; [exact prec_gt_0_|]. apply Rmult_le_pos; [rewrite M2; apply P4|]. apply Rlt_le, Rinv_0_lt_compat. lra. }
  assert (Hqp : rnd (B2R p / m) <= B2R p).
  { rewrite <- (rnd_B2R prec emax p) at 2. apply rnd_le; [exact prec_gt_0_|].
    apply Rmult_le_reg_r with m; [lra|]. unfold Rdiv. rewrite Rmult_assoc, Rinv_l by lra.
    pose proof (proj1 P4) as HP0. rewrite <- M2 in HP0. nra. }
  rewrite M2 in Hq0, Hqp.
  pose proof (Bplus_correct prec emax _ _ mode_NE low q Fl Q1) as HA. rewrite Q2 in HA. fold L in HA. fold (edge_real k) in HA.
  assert (Hbound : Rabs (edge_real k) < top).
  { unfold edge_real. set (z := rnd (rnd (IZR (Z.of_N k) * rnd (H - L)) / m)) in *.
    eapply Rle_lt_trans; [|apply top_half]. rewrite <- round_NE_abs by (apply fexp_correct; exact prec_gt_0_).
    apply rnd_le; [exact prec_gt_0_|]. rewrite top8.
    eapply Rle_trans; [apply Rabs_triang|]. rewrite (Rabs_pos_eq z Hq0).
    assert (M <= m * M) by nra. assert (0 < m * M) by nra.
    assert ((1 + u) * (1 + u) <= 5 / 4) by nra. nra. }
  rewrite Rlt_bool_true in HA by exact Hbound. destruct HA as [A1 [A2 _]].
  exists (Bplus mode_NE low q). split; [|split; assumption].
  unfold uniform_edge. cbn [n_from_usize n_sub n_mul n_div n_add float_ops obind a u_num u_low u_high]. reflexivity.
Qed.

Lemma edge_first e : uniform_edge ops a 0 = Val (Some e) -> B2R e = L.
Proof.
  intros E. destruct (edge_value 0 ltac:(lia)) as [e' [E' [_ V]]]. rewrite E in E'. injection E' as <-. rewrite V.
  unfold edge_real. cbn [Z.of_N]. rewrite Rmult_0_l. rewrite !rnd_0. unfold Rdiv. rewrite Rmult_0_l, rnd_0, Rplus_0_r.
  apply rnd_B2R.
Qed.

Lemma edge_mono j k : (j <= k)%N -> (k <= n)%N -> edge_real j <= edge_real k.
Proof.
  intros Hjk Hk. unfold edge_real. apply rnd_le; [exact prec_gt_0_|]. apply Rplus_le_compat_l.
  apply rnd_le; [exact prec_gt_0_|]. apply Rmult_le_compat_r; [apply Rlt_le, Rinv_0_lt_compat; lra|].
  apply rnd_le; [exact prec_gt_0_|]. apply Rmult_le_compat_r; [apply rnd_pos; [exact prec_gt_0_ | lra]|]. apply IZR_le. lia.
Qed.

Lemma edge_accuracy k : m * min_normal <= H - L -> (k <= n)%N ->
  Rabs (edge_real k - (L + IZR (Z.of_N k) * ((H - L) / m))) <= 10 * u * M.
Proof.
  intros Hnorm Hk. pose proof (u_pos prec) as Hu0. pose proof (u_tiny prec Hp) as Hu1.
  destruct edge_width as [Fw [W1 W2]]. destruct (edge_product k Hk) as [P1 [P2 [P3 P4]]].
  pose proof (num_fits prec Hp2 n ltac:(lia)) as Hn2.
  assert (Hk0 : 0 <= IZR (Z.of_N k) <= m) by (split; apply IZR_le; lia).
  set (kk := IZR (Z.of_N k)) in *. set (W := H - L) in *. set (W' := rnd W) in *.
  assert (HW : 0 < W) by (unfold W; lra). assert (Hin : 0 < / m) by (apply Rinv_0_lt_compat; lra).
  set (w := W / m). assert (Hw : 0 < w) by (apply Rmult_lt_0_compat; assumption).
  assert (Hwm : W = w * m) by (unfold w; field; lra).
  (* the product *)
  pose proof (rnd_mul_int_rel prec emax prec_gt_0_ (Z.of_N k) (Bminus mode_NE high low)) as Hr.
  rewrite W1 in Hr. fold kk W W' in Hr. rewrite (Rabs_pos_eq (kk * W')) in Hr by apply P1. apply Rabs_le_inv in Hr.
  set (p := rnd (kk * W')) in *.
  assert (Hpl : kk * W * ((1 - u) * (1 - u)) <= p <= kk * W * ((1 + u) * (1 + u))).
  { split.
    - apply Rle_trans with (kk * W' * (1 - u)); [|lra]. rewrite <- Rmult_assoc. apply Rmult_le_compat_r; lra.
    - apply Rle_trans with (kk * W' * (1 + u)); [lra|]. rewrite <- Rmult_assoc. apply Rmult_le_compat_r; lra. }
  (* the quotient *)
  set (q := rnd (p / m)) in *.
  assert (Hq : Rabs (q - kk * w) <= 4 * u * (kk * w)).
  { destruct (N.eq_dec k 0) as [Hz|Hz].
    - assert (Hkz : kk = 0) by (unfold kk; rewrite Hz; reflexivity).
      assert (Hpz : p = 0) by (rewrite Hkz, !Rmult_0_l in Hpl; lra).
      unfold q. rewrite Hpz, Hkz. unfold Rdiv. rewrite Rmult_0_l, rnd_0, Rmult_0_l, Rmult_0_r. rewrite Rminus_0_r, Rabs_R0. lra.
    - assert (Hk1 : 1 <= kk) by (apply IZR_le; lia).
      assert (Hpn : min_normal <= p / m).
      { apply Rmult_le_reg_r with m; [lra|]. unfold Rdiv. rewrite Rmult_assoc, Rinv_l by lra. rewrite Rmult_1_r.
        unfold p. rewrite (Rmult_comm min_normal), <- (rnd_format prec emax (m * min_normal)) by (apply num_min_normal_format; lia).
        apply rnd_le; [exact prec_gt_0_|]. apply Rle_trans with W'.
        - unfold W'. rewrite <- (rnd_format prec emax (m * min_normal)) by (apply num_min_normal_format; lia).
          apply rnd_le; [exact prec_gt_0_ | exact Hnorm].
        - assert (0 <= W') by (apply rnd_pos; [exact prec_gt_0_ | lra]). nra. }
      pose proof (min_normal_pos prec emax) as Hmn.
      pose proof (rnd_rel prec emax prec_gt_0_ (p / m)) as Hq. rewrite Rabs_pos_eq in Hq by lra. specialize (Hq Hpn). fold q in Hq.
      apply Rabs_le_inv in Hq.
      assert (Hpm : kk * w * ((1 - u) * (1 - u)) <= p / m <= kk * w * ((1 + u) * (1 + u))).
      { assert (Hkw : kk * w = kk * W * / m) by (unfold w, Rdiv; ring). rewrite Hkw. unfold Rdiv.
        split; rewrite (Rmult_assoc (kk * W)), (Rmult_comm (/ m)), <- Rmult_assoc; apply Rmult_le_compat_r; lra. }
      assert (Hkw0 : 0 <= kk * w) by nra.
      apply Rabs_le. split.
      + apply Rle_trans with (kk * w * ((1 - u) * (1 - u)) * (1 - u) - kk * w).
        * assert (1 - 4 * u <= (1 - u) * (1 - u) * (1 - u)) by nra. nra.
        * assert (kk * w * ((1 - u) * (1 - u)) * (1 - u) <= p / m * (1 - u)) by (apply Rmult_le_compat_r; lra). lra.
      + apply Rle_trans with (kk * w * ((1 + u) * (1 + u)) * (1 + u) - kk * w).
        * assert (p / m * (1 + u) <= kk * w * ((1 + u) * (1 + u)) * (1 + u)) by (apply Rmult_le_compat_r; lra). lra.
        * assert ((1 + u) * (1 + u) * (1 + u) <= 1 + 4 * u) by nra. nra. }
  (* the sum *)
  unfold edge_real. fold W W' kk p q.
  assert (HS : Rabs (rnd (L + q) - (L + q)) <= u * Rabs (L + q)).
  { apply (rnd_add_rel prec emax prec_gt_0_).
    - apply B2R_format.
    - apply generic_format_round; [apply fexp_correct; exact prec_gt_0_ | apply valid_rnd_N]. }
  assert (Hkw : 0 <= kk * w <= W) by (split; [apply Rmult_le_pos; lra | rewrite Hwm; rewrite Rmult_comm; apply Rmult_le_compat_l; lra]).
  assert (HI : Rabs (L + kk * w) <= M).
  { apply Rabs_le. pose proof M_L as HL. pose proof M_H as HH. apply Rabs_le_inv in HL. apply Rabs_le_inv in HH. unfold W in Hkw. lra. }
  assert (Hq8 : Rabs (q - kk * w) <= 8 * u * M).
  { eapply Rle_trans; [exact Hq|]. assert (4 * u * (kk * w) <= 4 * u * (2 * M)) by (apply Rmult_le_compat_l; lra). lra. }
  assert (HLq : Rabs (L + q) <= M + 8 * u * M).
  { replace (L + q) with ((L + kk * w) + (q - kk * w)) by ring. eapply Rle_trans; [apply Rabs_triang|]. lra. }
  replace (rnd (L + q) - (L + kk * w)) with ((rnd (L + q) - (L + q)) + (q - kk * w)) by ring.
  eapply Rle_trans; [apply Rabs_triang|].
  assert (u * Rabs (L + q) <= u * (M + 8 * u * M)) by (apply Rmult_le_compat_l; lra).
  assert (H8 : 8 * u * M <= M) by (pose proof M0; nra).
  assert (u * (8 * u * M) <= u * M) by (apply Rmult_le_compat_l; lra). lra.
Qed.
End Params.
End Edge.
