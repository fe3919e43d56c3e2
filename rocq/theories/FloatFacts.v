(** * FloatFacts: IEEE-754 lemmas (integers, counting, exactness). *)
From Coq Require Import List ZArith NArith Bool Lia Reals Lra.
From Flocq Require Import Core IEEE754.BinarySingleNaN.
From Verif Require Import Base Num Float.
Open Scope R_scope.

Section FloatFacts.
Variable prec emax : Z.
Context (prec_gt_0_ : Prec_gt_0 prec).
Context (prec_lt_emax_ : Prec_lt_emax prec emax).
Notation flt := (binary_float prec emax).
Notation fexp := (SpecFloat.fexp prec emax).
Notation rnd := (round radix2 fexp (round_mode mode_NE)).

Lemma fexp_FLT : fexp = FLT_exp (SpecFloat.emin prec emax) prec.
Proof. reflexivity. Qed.

Lemma emin_le : (SpecFloat.emin prec emax <= 0)%Z.
Proof. unfold SpecFloat.emin, Prec_gt_0, Prec_lt_emax in *. lia. Qed.

(** Integers up to 2^prec are representable. *)
Lemma int_format z : (Z.abs z <= 2 ^ prec)%Z -> generic_format radix2 fexp (IZR z).
Proof.
  intros Hz. assert (Hp : (0 < prec)%Z) by exact prec_gt_0_.
  destruct (Z.eq_dec (Z.abs z) (2 ^ prec)) as [E|E].
  - assert (Hb : generic_format radix2 fexp (bpow radix2 prec)).
    { apply generic_format_bpow. rewrite fexp_FLT. unfold FLT_exp. pose proof emin_le. lia. }
    assert (Hz2 : IZR z = bpow radix2 prec \/ IZR z = - bpow radix2 prec).
    { rewrite <- IZR_Zpower by lia. rewrite <- opp_IZR. change (Zpower radix2 prec) with (2 ^ prec)%Z.
      destruct (Z.abs_eq_or_opp z) as [H|H]; [left | right]; f_equal; lia. }
    destruct Hz2 as [-> | ->]; [exact Hb | apply generic_format_opp; exact Hb].
  - replace (IZR z) with (F2R (Float radix2 z 0)) by (unfold F2R; cbn; ring).
    rewrite fexp_FLT. apply generic_format_FLT. exists (Float radix2 z 0); [reflexivity | | exact emin_le].
    change (Zpower radix2 prec) with (2 ^ prec)%Z. cbn [Fnum]. lia.
Qed.

Lemma rnd_int z : (Z.abs z <= 2 ^ prec)%Z -> rnd (IZR z) = IZR z.
Proof. intros Hz. apply round_generic; [apply valid_rnd_N|]. apply int_format. exact Hz. Qed.

Lemma int_lt_emax z : (Z.abs z <= 2 ^ prec)%Z -> Rabs (IZR z) < bpow radix2 emax.
Proof.
  intros Hz. rewrite <- abs_IZR. apply Rle_lt_trans with (bpow radix2 prec).
  - rewrite <- IZR_Zpower by (pose proof prec_gt_0_; unfold Prec_gt_0 in *; lia). apply IZR_le. exact Hz.
  - apply bpow_lt. exact prec_lt_emax_.
Qed.

(** [n as f64] is exact up to 2^prec. *)
Lemma float_of_N_exact n : (Z.of_N n <= 2 ^ prec)%Z ->
  B2R (float_of_N prec emax _ _ n) = IZR (Z.of_N n) /\ is_finite (float_of_N prec emax _ _ n) = true
  /\ Bsign (float_of_N prec emax _ _ n) = false.
Proof.
  intros Hn. unfold float_of_N.
  pose proof (binary_normalize_correct prec emax _ _ mode_NE (Z.of_N n) 0 false) as H. cbv zeta in H.
  replace (F2R (Float radix2 (Z.of_N n) 0)) with (IZR (Z.of_N n)) in H by (unfold F2R; cbn; ring).
  rewrite rnd_int in H by lia. rewrite Rlt_bool_true in H by (apply int_lt_emax; lia).
  destruct H as [H1 [H2 H3]]. split; [exact H1|]. split; [exact H2|]. rewrite H3.
  destruct (Rcompare_spec (IZR (Z.of_N n)) 0) as [Hc|Hc|Hc]; try reflexivity. apply lt_IZR in Hc. lia.
Qed.

(** A finite float is determined by its value, except the sign of zero. *)
Lemma B2R_sign_inj (x y : flt) : is_finite x = true -> is_finite y = true -> B2R x = B2R y -> Bsign x = Bsign y -> x = y.
Proof. intros Hx Hy HR Hs. apply (B2R_Bsign_inj _ _ x y Hx Hy HR Hs). Qed.

Lemma Bplus_int (x y : flt) (a b : Z) : (0 <= a)%Z -> (0 <= b)%Z -> (a + b <= 2 ^ prec)%Z ->
  is_finite x = true -> is_finite y = true -> B2R x = IZR a -> B2R y = IZR b ->
  Bsign x = false -> Bsign y = false ->
  B2R (Bplus mode_NE x y) = IZR (a + b) /\ is_finite (Bplus mode_NE x y) = true /\ Bsign (Bplus mode_NE x y) = false.
Proof.
  intros Ha Hb Hab Fx Fy Hx Hy Sx Sy.
  pose proof (Bplus_correct prec emax _ _ mode_NE x y Fx Fy) as H. rewrite Hx, Hy, <- plus_IZR in H.
  rewrite rnd_int in H by lia. rewrite Rlt_bool_true in H by (apply int_lt_emax; lia).
  destruct H as [H1 [H2 H3]]. split; [exact H1|]. split; [exact H2|]. rewrite H3, Sx, Sy.
  destruct (Rcompare_spec (IZR (a + b)) 0) as [Hc|Hc|Hc]; try reflexivity. apply lt_IZR in Hc. lia.
Qed.

(** Addition of counts is exact up to 2^prec. *)
Lemma count_add a b : (Z.of_N (a + b) <= 2 ^ prec)%Z ->
  Bplus mode_NE (float_of_N prec emax _ _ a) (float_of_N prec emax _ _ b) = float_of_N prec emax _ _ (a + b).
Proof.
  intros Hab. destruct (float_of_N_exact a) as [A1 [A2 A3]]; [lia|]. destruct (float_of_N_exact b) as [B1 [B2 B3]]; [lia|].
  destruct (float_of_N_exact (a + b)) as [C1 [C2 C3]]; [exact Hab|].
  destruct (Bplus_int _ _ (Z.of_N a) (Z.of_N b) ltac:(lia) ltac:(lia) ltac:(lia) A2 B2 A1 B1 A3 B3) as [D1 [D2 D3]].
  apply B2R_sign_inj; try congruence. rewrite D1, C1. f_equal. lia.
Qed.

Lemma one_is_count : Bone = float_of_N prec emax _ _ 1.
Proof.
  assert (H1 : (1 <= 2 ^ prec)%Z). { pose proof (Z.pow_le_mono_r 2 0 prec). unfold Prec_gt_0 in *. lia. }
  destruct (float_of_N_exact 1) as [A1 [A2 A3]]; [exact H1|].
  apply B2R_sign_inj; [apply is_finite_Bone | exact A2 | rewrite A1; apply Bone_correct |].
  rewrite A3. apply Bsign_Bone.
Qed.

Lemma zero_is_count : B754_zero false = float_of_N prec emax _ _ 0.
Proof.
  assert (H1 : (0 <= 2 ^ prec)%Z) by (apply Z.pow_nonneg; lia).
  destruct (float_of_N_exact 0) as [A1 [A2 A3]]; [exact H1|].
  apply B2R_sign_inj; [reflexivity | exact A2 | rewrite A1; reflexivity | rewrite A3; reflexivity].
Qed.

(** At 2^prec adding one changes nothing (the tie rounds to even). *)
Lemma count_sticks : (1 < prec)%Z ->
  Bplus mode_NE (float_of_N prec emax _ _ (Z.to_N (2 ^ prec))) Bone = float_of_N prec emax _ _ (Z.to_N (2 ^ prec)).
Proof.
  intros Hp1. set (m := (2 ^ prec)%Z). assert (Hm : (0 < m)%Z) by (apply Z.pow_pos_nonneg; lia).
  destruct (float_of_N_exact (Z.to_N m)) as [A1 [A2 A3]]; [lia|]. rewrite Z2N.id in A1 by lia.
  assert (Hb : IZR m = bpow radix2 prec).
  { rewrite <- IZR_Zpower by lia. reflexivity. }
  assert (Hr : rnd (IZR m + 1) = IZR m).
  { (* the neighbours are 2^p and 2^p + 2 *)
    assert (Hmag : mag radix2 (IZR m + 1) = (prec + 1)%Z :> Z).
    { apply mag_unique. rewrite Rabs_pos_eq by (pose proof (IZR_lt 0 m Hm); lra).
      replace (prec + 1 - 1)%Z with prec by lia. rewrite <- Hb. split; [lra|].
      rewrite bpow_plus, <- Hb. change (bpow radix2 1) with 2.
      assert (Hm1 : (1 < m)%Z) by (apply Z.pow_gt_1; lia). apply IZR_lt in Hm1. lra. }
    unfold round, scaled_mantissa, cexp. rewrite Hmag.
    replace (fexp (prec + 1)) with 1%Z.
    2: { rewrite fexp_FLT. unfold FLT_exp. pose proof emin_le. lia. }
    replace (bpow radix2 (- (1))) with (/ 2) by reflexivity. change (bpow radix2 1) with 2.
    replace ((IZR m + 1) * / 2) with (IZR (2 ^ (prec - 1)) + / 2).
    2: { unfold m. replace prec with (prec - 1 + 1)%Z at 2 by lia. rewrite Z.pow_add_r, mult_IZR by lia.
         change (IZR (2 ^ 1)) with 2. lra. }
    assert (Hn : round_mode mode_NE (IZR (2 ^ (prec - 1)) + / 2) = (2 ^ (prec - 1))%Z).
    { cbn [round_mode]. unfold ZnearestE, Znearest.
      assert (Hf : Zfloor (IZR (2 ^ (prec - 1)) + / 2) = (2 ^ (prec - 1))%Z).
      { apply Zfloor_imp. rewrite plus_IZR. lra. }
      rewrite Hf. replace (IZR (2 ^ (prec - 1)) + / 2 - IZR (2 ^ (prec - 1))) with (/ 2) by lra.
      rewrite Rcompare_Eq by reflexivity.
      replace (negb (Z.even (2 ^ (prec - 1)))) with false; [reflexivity|].
      rewrite Z.even_pow by lia. reflexivity. }
    rewrite Hn. unfold F2R. cbn [Fnum Fexp]. change (bpow radix2 1) with 2. unfold m.
    replace prec with (prec - 1 + 1)%Z at 2 by lia. rewrite Z.pow_add_r, mult_IZR by lia. reflexivity. }
  pose proof (Bplus_correct prec emax _ _ mode_NE (float_of_N prec emax _ _ (Z.to_N m)) Bone A2 (is_finite_Bone _ _ _ _)) as H.
  rewrite A1, Bone_correct, Hr in H. rewrite Rlt_bool_true in H by (apply int_lt_emax; lia).
  destruct H as [H1 [H2 H3]]. apply B2R_sign_inj; [exact H2 | exact A2 | congruence|]. rewrite H3, A3.
  destruct (Rcompare_spec (IZR m + 1) 0) as [Hc|Hc|Hc]; [|rewrite Bsign_Bone; reflexivity|reflexivity].
  pose proof (IZR_lt 0 m Hm). lra.
Qed.
End FloatFacts.
