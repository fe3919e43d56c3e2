(** * DisplayFacts: the length of a displayed bar. *)
From Coq Require Import List NArith ZArith Bool Lia Reals Lra.
From Flocq Require Import Core IEEE754.BinarySingleNaN.
From Verif Require Import Base BaseFacts Num Float FloatFacts FloatUniform FloatOrd Display.
Import ListNotations.
Open Scope R_scope.

Notation fexp64 := (SpecFloat.fexp 53 1024).
Notation rnd64 := (round radix2 fexp64 (round_mode mode_NE)).

(** The number of [#] printed for a value [v] when the scale is [m]. *)
Definition bar_length {Bd : Build} (v m : f64) : N :=
  f64_as_usize (Bmult mode_NE (f64_lit 50 0) (Bdiv mode_NE v m)).

Lemma fifty : B2R (f64_lit 50 0) = 50 /\ is_finite (f64_lit 50 0) = true /\ Bsign (f64_lit 50 0) = false.
Proof.
  unfold f64_lit. pose proof (binary_normalize_correct 53 1024 prec64 emax64 mode_NE 50 0 false) as H. cbv zeta in H.
  replace (F2R (Float radix2 50 0)) with (IZR 50) in H by (unfold F2R; cbn; ring).
  rewrite (rnd_int 53 1024 prec64 emax64) in H by (vm_compute; discriminate).
  rewrite Rlt_bool_true in H by (apply (int_lt_emax 53 1024 prec64 emax64); vm_compute; discriminate).
  destruct H as [H1 [H2 H3]]. split; [exact H1|]. split; [exact H2|]. rewrite H3.
  rewrite Rcompare_Gt by lra. reflexivity.
Qed.

Lemma overflow_sign (x : f64) s : B2SF x = binary_overflow 53 1024 mode_NE s -> x = B754_infinity s.
Proof.
  unfold binary_overflow, f64 in *. cbn. intros H. apply B2SF_inj. rewrite H. reflexivity.
Qed.

Lemma Bdiv_sign (x y : f64) : is_nan (Bdiv mode_NE x y) = true \/ Bsign (Bdiv mode_NE x y) = xorb (Bsign x) (Bsign y).
Proof.
  unfold f64 in *.
  destruct x as [sx|sx| |sx mx ex Hx], y as [sy|sy| |sy my ey Hy]; try (left; reflexivity); try (right; reflexivity).
  pose proof (Bdiv_correct 53 1024 prec64 emax64 mode_NE (B754_finite sx mx ex Hx) (B754_finite sy my ey Hy)) as H.
  assert (Hne : B2R (B754_finite sy my ey Hy) <> 0).
  { cbn. apply F2R_neq_0. cbn. destruct sy; discriminate. }
  specialize (H Hne). destruct Rlt_bool.
  - destruct H as [_ [_ H]]. destruct (is_nan (Bdiv mode_NE (B754_finite sx mx ex Hx) (B754_finite sy my ey Hy))) eqn:E.
    + left. reflexivity.
    + right. apply H. reflexivity.
  - right. apply overflow_sign in H. unfold f64 in H. rewrite H. reflexivity.
Qed.

Lemma Bmult_sign (x y : f64) : is_nan (Bmult mode_NE x y) = true \/ Bsign (Bmult mode_NE x y) = xorb (Bsign x) (Bsign y).
Proof.
  unfold f64 in *.
  destruct x as [sx|sx| |sx mx ex Hx], y as [sy|sy| |sy my ey Hy]; try (left; reflexivity); try (right; reflexivity).
  pose proof (Bmult_correct 53 1024 prec64 emax64 mode_NE (B754_finite sx mx ex Hx) (B754_finite sy my ey Hy)) as H.
  destruct Rlt_bool.
  - destruct H as [_ [_ H]]. destruct (is_nan (Bmult mode_NE (B754_finite sx mx ex Hx) (B754_finite sy my ey Hy))) eqn:E.
    + left. reflexivity.
    + right. apply H. reflexivity.
  - right. apply overflow_sign in H. unfold f64 in H. rewrite H. reflexivity.
Qed.

Lemma Bmult_nan_r (x y : f64) : is_nan y = true -> is_nan (Bmult mode_NE x y) = true.
Proof. unfold f64 in *. destruct y; try discriminate. now destruct x. Qed.

Lemma as_usize_nan {Bd : Build} (x : f64) : is_nan x = true -> f64_as_usize x = 0%N.
Proof. unfold f64 in *. destruct x; try discriminate. reflexivity. Qed.

Lemma as_usize_finite {Bd : Build} (x : f64) : is_finite x = true ->
  f64_as_usize x = N.min (Z.to_N (Ztrunc (B2R x))) (usize_mod - 1).
Proof. unfold f64 in *. intros F. destruct x as [s| | |s m e H]; try discriminate; unfold f64_as_usize; do 2 f_equal;
  apply eq_IZR; rewrite (Btrunc_correct 53 1024 emax64); rewrite round_FIX_IZR; reflexivity. Qed.

Lemma as_usize_negative {Bd : Build} (x : f64) : Bsign x = true -> f64_as_usize x = 0%N.
Proof.
  unfold f64 in *. intros S. destruct x as [s|s| |s m e Hb]; cbn in S; try discriminate S; subst s; [destruct Bd as [? []]; reflexivity | reflexivity |].
  rewrite as_usize_finite by reflexivity.
  assert (Hneg : (Ztrunc (B2R (B754_finite true m e Hb)) <= 0)%Z).
  { rewrite <- (Ztrunc_IZR 0). apply Ztrunc_le. cbn. left. apply F2R_lt_0. cbn. lia. }
  destruct (Ztrunc (B2R (B754_finite true m e Hb))); try lia; destruct Bd as [? []]; reflexivity.
Qed.

(** A negative value (including -0.0 and -inf) has no bar. *)
Lemma bar_negative {Bd : Build} v m : Bsign v = true -> Bsign m = false -> bar_length v m = 0%N.
Proof.
  intros Sv Sm. unfold bar_length. destruct (Bdiv_sign v m) as [Hn|Hs].
  - apply as_usize_nan, Bmult_nan_r. exact Hn.
  - destruct (Bmult_sign (f64_lit 50 0) (Bdiv mode_NE v m)) as [Hn|Hs2]; [apply as_usize_nan; exact Hn|].
    apply as_usize_negative. rewrite Hs2, Hs, Sv, Sm. destruct fifty as [_ [_ ->]]. reflexivity.
Qed.

Lemma bar_nan_quotient {Bd : Build} v m : is_nan (Bdiv mode_NE v m) = true -> bar_length v m = 0%N.
Proof. intros Hn. apply as_usize_nan, Bmult_nan_r. exact Hn. Qed.

(** Values and scale finite, [0 <= v <= m], [m > 0]. *)
Definition bar_real (v m : R) : R := rnd64 (50 * rnd64 (v / m)).

Lemma rnd64_le {Bd : Build} x y : x <= y -> rnd64 x <= rnd64 y.
Proof. exact (rnd_le 53 1024 prec64 x y). Qed.
Lemma rnd64_int {Bd : Build} z : (Z.abs z <= 2 ^ 53)%Z -> rnd64 (IZR z) = IZR z.
Proof. exact (rnd_int 53 1024 prec64 emax64 z). Qed.

Lemma quotient_range {Bd : Build} v m : 0 <= v <= m -> 0 < m -> 0 <= v / m <= 1.
Proof.
  intros [H0 H1] Hm. split.
  - apply Rmult_le_pos; [exact H0|]. left. apply Rinv_0_lt_compat. exact Hm.
  - apply Rmult_le_reg_r with m; [exact Hm|]. unfold Rdiv. rewrite Rmult_assoc, Rinv_l by lra. lra.
Qed.

Lemma rnd64_unit {Bd : Build} q : 0 <= q <= 1 -> 0 <= rnd64 q <= 1.
Proof.
  intros [H0 H1]. split.
  - rewrite <- (rnd64_int 0) by (vm_compute; discriminate). apply rnd64_le. exact H0.
  - apply Rle_trans with (rnd64 1); [apply rnd64_le; exact H1|]. rewrite rnd64_int by (vm_compute; discriminate). lra.
Qed.

Lemma rnd64_fifty {Bd : Build} q : 0 <= q <= 1 -> 0 <= rnd64 (50 * q) <= 50.
Proof.
  intros [H0 H1]. split.
  - rewrite <- (rnd64_int 0) by (vm_compute; discriminate). apply rnd64_le. lra.
  - apply Rle_trans with (rnd64 50); [apply rnd64_le; lra|]. rewrite rnd64_int by (vm_compute; discriminate). lra.
Qed.

Lemma small_lt_top {Bd : Build} x : Rabs x <= 50 -> Rlt_bool (Rabs x) (bpow radix2 1024) = true.
Proof.
  intros H. apply Rlt_bool_true. apply Rle_lt_trans with (1 := H).
  apply Rlt_trans with (bpow radix2 6); [|apply bpow_lt; reflexivity]. cbn. lra.
Qed.

Lemma bar_computed {Bd : Build} (v m : f64) : is_finite v = true -> is_finite m = true -> 0 <= B2R v <= B2R m -> 0 < B2R m ->
  let t := Bmult mode_NE (f64_lit 50 0) (Bdiv mode_NE v m) in
  is_finite t = true /\ B2R t = bar_real (B2R v) (B2R m).
Proof.
  intros Fv Fm Hv Hm t. unfold f64 in *.
  pose proof (Bdiv_correct 53 1024 prec64 emax64 mode_NE v m ltac:(lra)) as HD.
  pose proof (quotient_range _ _ Hv Hm) as Hq. pose proof (rnd64_unit _ Hq) as Hr.
  rewrite small_lt_top in HD by (rewrite Rabs_pos_eq; lra). destruct HD as [D1 [D2 _]]. rewrite Fv in D2.
  destruct fifty as [F1 [F2 F3]].
  pose proof (Bmult_correct 53 1024 prec64 emax64 mode_NE (f64_lit 50 0) (Bdiv mode_NE v m)) as HM.
  rewrite F1, D1, F2, D2 in HM. pose proof (rnd64_fifty _ Hr) as H50.
  rewrite small_lt_top in HM by (rewrite Rabs_pos_eq; lra). destruct HM as [M1 [M2 _]].
  split; [exact M2 | exact M1].
Qed.

Lemma bar_real_range {Bd : Build} v m : 0 <= v <= m -> 0 < m -> 0 <= bar_real v m <= 50.
Proof. intros Hv Hm. apply rnd64_fifty, rnd64_unit, quotient_range; assumption. Qed.

Lemma bar_finite {Bd : Build} (v m : f64) : is_finite v = true -> is_finite m = true -> 0 <= B2R v <= B2R m -> 0 < B2R m ->
  bar_length v m = Z.to_N (Zfloor (bar_real (B2R v) (B2R m))) /\ (0 <= Zfloor (bar_real (B2R v) (B2R m)) <= 50)%Z.
Proof.
  intros Fv Fm Hv Hm. destruct (bar_computed v m Fv Fm Hv Hm) as [Ft Et]. cbv zeta in *.
  pose proof (bar_real_range _ _ Hv Hm) as Hb. unfold bar_length. rewrite as_usize_finite by exact Ft. rewrite Et.
  rewrite Ztrunc_floor by lra.
  assert (Hz : (0 <= Zfloor (bar_real (B2R v) (B2R m)) <= 50)%Z).
  { split; [apply Zfloor_lub; lra|]. apply le_IZR. apply Rle_trans with (1 := Zfloor_lb _). lra. }
  split; [|exact Hz]. rewrite N.min_l; [reflexivity|]. pose proof usize_mod_large. lia.
Qed.

Lemma bar_monotone {Bd : Build} v w m : 0 <= v -> v <= w -> w <= m -> 0 < m ->
  (Z.to_N (Zfloor (bar_real v m)) <= Z.to_N (Zfloor (bar_real w m)))%N.
Proof.
  intros H0 H1 H2 Hm. apply Z2N.inj_le.
  - apply Zfloor_lub. apply bar_real_range; lra.
  - apply Zfloor_lub. apply bar_real_range; lra.
  - apply Zfloor_le. apply rnd64_le. apply Rmult_le_compat_l; [lra|]. apply rnd64_le.
    apply Rmult_le_compat_r; [left; apply Rinv_0_lt_compat; exact Hm | exact H1].
Qed.

Lemma bar_full {Bd : Build} m : 0 < m -> bar_real m m = 50.
Proof.
  intros Hm. unfold bar_real. replace (m / m) with (IZR 1) by (field; lra).
  rewrite rnd64_int by (vm_compute; discriminate). replace (50 * 1) with (IZR 50) by ring. apply rnd64_int. vm_compute. discriminate.
Qed.

Lemma rnd64_error {Bd : Build} x k : (0 <= x) -> x <= bpow radix2 k -> (-1000 < k)%Z -> Rabs (rnd64 x - x) <= bpow radix2 (k - 53).
Proof.
  intros H0 H1 Hk. apply Rle_trans with (/ 2 * ulp radix2 fexp64 x).
  - apply error_le_half_ulp. apply (FLT_exp_valid (SpecFloat.emin 53 1024) 53).
  - apply Rle_trans with (/ 2 * ulp radix2 fexp64 (bpow radix2 k)).
    + apply Rmult_le_compat_l; [lra|]. apply ulp_le.
      * apply (FLT_exp_valid (SpecFloat.emin 53 1024) 53).
      * apply (FLT_exp_monotone (SpecFloat.emin 53 1024) 53).
      * rewrite !Rabs_pos_eq; [exact H1 | apply bpow_ge_0 | exact H0].
    + rewrite ulp_bpow. change fexp64 with (FLT_exp (SpecFloat.emin 53 1024) 53). unfold FLT_exp.
      rewrite Z.max_l by (unfold SpecFloat.emin; lia). change (/ 2) with (bpow radix2 (- (1))). rewrite <- bpow_plus.
      apply bpow_le. lia.
Qed.

Lemma bar_accurate {Bd : Build} v m : 0 <= v <= m -> 0 < m -> Rabs (bar_real v m - 50 * (v / m)) <= bpow radix2 (-40).
Proof.
  intros Hv Hm. pose proof (quotient_range _ _ Hv Hm) as Hq. pose proof (rnd64_unit _ Hq) as Hr.
  pose proof (rnd64_error (v / m) 0 ltac:(lra) ltac:(change (bpow radix2 0) with 1; lra) ltac:(lia)) as E1.
  pose proof (rnd64_error (50 * rnd64 (v / m)) 6 ltac:(lra) ltac:(change (bpow radix2 6) with 64; lra) ltac:(lia)) as E2.
  unfold bar_real. replace (rnd64 (50 * rnd64 (v / m)) - 50 * (v / m))
    with ((rnd64 (50 * rnd64 (v / m)) - 50 * rnd64 (v / m)) + 50 * (rnd64 (v / m) - v / m)) by ring.
  apply Rle_trans with (1 := Rabs_triang _ _). rewrite Rabs_mult, (Rabs_pos_eq 50) by lra.
  apply Rle_trans with (bpow radix2 (6 - 53) + 50 * bpow radix2 (0 - 53)).
  - apply Rplus_le_compat; [exact E2|]. apply Rmult_le_compat_l; [lra | exact E1].
  - change (6 - 53)%Z with (-47)%Z. change (0 - 53)%Z with (-53)%Z.
    apply Rle_trans with (2 * bpow radix2 (-47)).
    + replace (bpow radix2 (-47)) with (64 * bpow radix2 (-53)).
      * pose proof (bpow_gt_0 radix2 (-53)). lra.
      * change 64 with (bpow radix2 6). rewrite <- bpow_plus. reflexivity.
    + change 2 with (bpow radix2 1). rewrite <- bpow_plus. apply bpow_le. lia.
Qed.

(** The largest of a list without NaN, as [max_by] computes it. *)
Section MaxBy.
Context {B : Type} (f : B -> f64).
Let cmp (l r : B) := cmp_or_less (f l) (f r).

Lemma le_or_gt {Bd : Build} (x y : f64) : is_nan x = false -> is_nan y = false ->
  (exists c, Bcompare x y = Some c) .
Proof. intros Hx Hy. rewrite (Bcompare_key 53 1024) by assumption. eauto. Qed.

(** [a <= b] (non-NaN). *)
Definition fle (a b : f64) : Prop := Bcompare a b = Some Lt \/ Bcompare a b = Some Eq.

Lemma fle_refl {Bd : Build} x : is_nan x = false -> fle x x.
Proof. intros H. right. rewrite (Bcompare_key 53 1024) by assumption. rewrite Z.compare_refl, Rcompare_Eq; reflexivity. Qed.

Lemma fle_le_ {Bd : Build} x y : fle x y <-> @le_ _ (@num_ord _ f64_ops) x y = true.
Proof.
  unfold fle, le_. simpl. destruct (Bcompare x y) as [[]|]; intuition congruence.
Qed.

Lemma fle_trans {Bd : Build} x y z : fle x y -> fle y z -> fle x z.
Proof. rewrite !fle_le_. apply (OrdLaws.law_trans _ _ f64_ord_laws). Qed.

Lemma max_by_spec {Bd : Build} (l : list B) : l <> [] -> (forall b, In b l -> is_nan (f b) = false) ->
  exists m, max_by cmp l = Some m /\ In m l /\ forall b, In b l -> fle (f b) (f m).
Proof.
  destruct l as [|x l]; [congruence|]. intros _ Hn. unfold max_by. eexists. split; [reflexivity|].
  revert x Hn. induction l as [|y l IH]; intros x Hn.
  - cbn. split; [left; reflexivity|]. intros b [->|[]]. apply fle_refl. apply Hn. left. reflexivity.
  - cbn [fold_left]. destruct (le_or_gt (f x) (f y)) as [c Hc]; [apply Hn; left; reflexivity | apply Hn; right; left; reflexivity|].
    assert (Hcmp : cmp x y = c) by (unfold cmp, cmp_or_less; rewrite Hc; reflexivity). rewrite Hcmp.
    destruct c.
    + destruct (IH y) as [Hin Hmax]; [intros b Hb; apply Hn; right; exact Hb|].
      split; [right; exact Hin|]. intros b [<-|Hb]; [|apply Hmax; exact Hb].
      apply fle_trans with (f y); [right; exact Hc | apply Hmax; left; reflexivity].
    + destruct (IH y) as [Hin Hmax]; [intros b Hb; apply Hn; right; exact Hb|].
      split; [right; exact Hin|]. intros b [<-|Hb]; [|apply Hmax; exact Hb].
      apply fle_trans with (f y); [left; exact Hc | apply Hmax; left; reflexivity].
    + destruct (IH x) as [Hin Hmax]; [intros b [->|Hb]; apply Hn; [left; reflexivity | right; right; exact Hb]|].
      assert (Hyx : fle (f y) (f x)).
      { left. rewrite Bcompare_swap, Hc. reflexivity. }
      split; [destruct Hin as [Hin|Hin]; [left; exact Hin | right; right; exact Hin]|].
      intros b [<-|[<-|Hb]].
      * apply Hmax. left. reflexivity.
      * apply fle_trans with (f x); [exact Hyx | apply Hmax; left; reflexivity].
      * apply Hmax. right. exact Hb.
Qed.
End MaxBy.
