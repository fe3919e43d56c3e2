(** * FloatUniformAcc: which axes the float constructors return, accuracy of the
    index, and the bin edges. *)
From Coq Require Import List ZArith NArith Bool Lia Reals Lra ZifyN ZifyNat.
From Flocq Require Import Core IEEE754.BinarySingleNaN Relative Plus_error.
From Verif Require Import Base BaseFacts Num Float Axis Spec OrdLaws FloatOrd FloatFacts Uniform FloatUniform FloatUniformNew.
Open Scope R_scope.

Section Acc.
Variable prec emax : Z.
Context (prec_gt_0_ : Prec_gt_0 prec).
Context (prec_lt_emax_ : Prec_lt_emax prec emax).
Context {Bd : Build}.
Context (Hp : (8 <= prec <= 63)%Z) (He : (64 < emax)%Z).
Notation flt := (binary_float prec emax).
Notation ops := (float_ops prec emax prec_gt_0_ prec_lt_emax_).
Notation fexp := (SpecFloat.fexp prec emax).
Notation emin := (SpecFloat.emin prec emax).
Notation rnd := (round radix2 fexp (round_mode mode_NE)).
Notation u := (bpow radix2 (- prec)).
Notation top := (bpow radix2 emax).
Notation min_normal := (bpow radix2 (emin + prec - 1)).
Notation of_N := (float_of_N prec emax prec_gt_0_ prec_lt_emax_).
Notation regular := (regular prec emax prec_gt_0_ prec_lt_emax_).
Notation degenerate := (degenerate prec emax).
Notation index := (uniform_index ops).
Notation lt := (@lt_ _ (@num_ord _ ops)).
Notation gt := (@gt_ _ (@num_ord _ ops)).
Notation ge := (@ge_ _ (@num_ord _ ops)).
Notation eqf := (@eq_ _ (@num_ord _ ops)).

Let Hp2 : (2 <= prec <= 63)%Z. Proof. lia. Qed.

Lemma u_tiny : u <= / 256.
Proof. change (/ 256) with (bpow radix2 (-8)). apply bpow_le. lia. Qed.

Lemma num_min_normal_format (n : Z) : (1 <= n < 2 ^ prec)%Z -> generic_format radix2 fexp (IZR n * min_normal).
Proof.
  intros Hn. rewrite fexp_FLT. apply generic_format_FLT. exists (Float radix2 n (emin + prec - 1)).
  - unfold F2R. cbn [Fnum Fexp]. reflexivity.
  - cbn [Fnum]. change (Zpower radix2 prec) with (2 ^ prec)%Z. lia.
  - cbn [Fexp]. lia.
Qed.

(** The ordered edges of an accepted range. *)
Lemma min_normal_pos : 0 < min_normal. Proof. apply bpow_gt_0. Qed.

Lemma width_normal (n : N) (low high : flt) : (1 <= Z.of_N n < 2 ^ (prec - 1))%Z ->
  is_finite low = true -> is_finite high = true -> B2R low < B2R high ->
  is_finite (Bminus mode_NE high low) = true -> IZR (Z.of_N n) * min_normal <= B2R high - B2R low ->
  min_normal <= B2R (Bminus mode_NE high low) / IZR (Z.of_N n)
  /\ min_normal <= B2R (Bdiv mode_NE (Bminus mode_NE high low) (of_N n)).
Proof.
  intros Hn Fl Fh Hlt Fw Hw. destruct (num_float prec emax prec_gt_0_ prec_lt_emax_ Hp2 n Hn) as [_ [_ [_ N4]]].
  destruct (width_computed prec emax prec_gt_0_ prec_lt_emax_ low high Fl Fh Hlt Fw) as [W1 W2].
  destruct (new_step prec emax prec_gt_0_ prec_lt_emax_ Hp2 n _ Hn Fw) as [S1 S2].
  pose proof (num_fits prec Hp2 n ltac:(lia)) as Hn2.
  assert (H1 : IZR (Z.of_N n) * min_normal <= B2R (Bminus mode_NE high low)).
  { rewrite W1. rewrite <- (rnd_format prec emax (IZR (Z.of_N n) * min_normal)) by (apply num_min_normal_format; lia).
    apply rnd_le; [exact prec_gt_0_ | exact Hw]. }
  assert (H2 : min_normal <= B2R (Bminus mode_NE high low) / IZR (Z.of_N n)).
  { apply Rmult_le_reg_r with (IZR (Z.of_N n)); [lra|]. unfold Rdiv. rewrite Rmult_assoc, Rinv_l by lra. lra. }
  split; [exact H2|]. rewrite S2.
  rewrite <- (rnd_format prec emax min_normal).
  - apply rnd_le; [exact prec_gt_0_ | exact H2].
  - replace min_normal with (IZR 1 * min_normal) by lra. apply num_min_normal_format.
    split; [lia|]. apply Z.pow_gt_1; lia.
Qed.

Section Ctor.

Lemma new_ok (num : N) (low high : flt) a : uniform_new ops num low high = Val (Ok a) ->
  num <> 0%N /\ eqf low high = false
  /\ exists lo hi, (lo, hi) = (if gt low high then (high, low) else (low, high))
     /\ a = mkUniform num lo hi (Bdiv mode_NE (Bminus mode_NE hi lo) (of_N num)).
Proof.
  unfold uniform_new. destruct (N.eqb_spec num 0) as [->|Hn]; [discriminate|].
  destruct (eqf low high) eqn:Ee; [discriminate|].
  destruct (gt low high) eqn:Eg; cbn [n_sub n_div n_from_usize float_ops obind]; intros E; injection E as <-;
    (split; [exact Hn|]); (split; [reflexivity|]); eexists; eexists; (split; reflexivity).
Qed.

Lemma fin_trichotomy (x y : flt) : is_finite x = true -> is_finite y = true ->
  (lt x y = true /\ gt x y = false /\ eqf x y = false /\ B2R x < B2R y)
  \/ (lt x y = false /\ gt x y = true /\ eqf x y = false /\ B2R y < B2R x)
  \/ (lt x y = false /\ gt x y = false /\ eqf x y = true /\ B2R x = B2R y).
Proof.
  intros Fx Fy. unfold lt_, gt_, eq_. cbn [partial_cmp num_ord float_ops]. rewrite Bcompare_correct by assumption.
  destruct (Rcompare_spec (B2R x) (B2R y)); auto 6.
Qed.

(** Every accepted axis whose bins are not subnormal is regular or degenerate. *)
Lemma new_disposition (num : N) (low high : flt) a : uniform_new ops num low high = Val (Ok a) ->
  (Z.of_N num < 2 ^ (prec - 1))%Z -> (num + 2 < usize_mod)%N ->
  (is_finite low = true -> is_finite high = true -> IZR (Z.of_N num) * min_normal <= Rabs (B2R high - B2R low)) ->
  u_num a = num /\ (regular a \/ degenerate a).
Proof.
  intros Ha Hn Hu Hw. destruct (new_ok _ _ _ _ Ha) as [Hnz [Ene [lo [hi [Elh ->]]]]]. split; [reflexivity|].
  assert (Hn1 : (1 <= Z.of_N num < 2 ^ (prec - 1))%Z) by lia.
  destruct (is_finite (Bminus mode_NE hi lo)) eqn:Fw.
  - left. destruct (minus_finite _ _ _ _ _ _ Fw) as [Fhi Flo].
    assert (Hlh : B2R lo < B2R hi /\ IZR (Z.of_N num) * min_normal <= B2R hi - B2R lo).
    { destruct (gt low high) eqn:Eg; injection Elh as -> ->;
        specialize (Hw ltac:(assumption) ltac:(assumption));
        (destruct (fin_trichotomy low high ltac:(assumption) ltac:(assumption)) as [(_&T2&T3&T4)|[(_&T2&T3&T4)|(_&T2&T3&T4)]]; try congruence).
      - split; [exact T4|]. rewrite Rabs_left1 in Hw by lra. lra.
      - split; [exact T4|]. rewrite Rabs_pos_eq in Hw by lra. lra. }
    destruct Hlh as [Hlh Hw'].
    apply (regular_new prec emax prec_gt_0_ prec_lt_emax_ Hp2); auto.
    apply width_normal; assumption.
  - right. split; [exact Hu|]. split; [cbn [u_num]; lia|]. left. cbn [u_step].
    assert (Hfn : is_finite_strict (Bdiv mode_NE (Bminus mode_NE hi lo) (of_N num)) = false).
    { destruct (num_float prec emax prec_gt_0_ prec_lt_emax_ Hp2 num Hn1) as [_ [Fn _]].
      destruct (Bminus mode_NE hi lo); try discriminate Fw; destruct (of_N num); try discriminate Fn; reflexivity. }
    exact Hfn.
Qed.

Lemma step_ok (num : N) (low step : flt) a : uniform_with_step_size ops num low step = Val (Ok a) ->
  num <> 0%N /\ @le_ _ (@num_ord _ ops) step (B754_zero false) = false
  /\ let high := Bplus mode_NE (Bmult mode_NE (of_N num) step) low in
     exists lo hi, (lo, hi) = (if gt low high then (high, low) else (low, high)) /\ a = mkUniform num lo hi step.
Proof.
  unfold uniform_with_step_size. cbn [n_sub n_div n_from_usize n_mul n_add n_zero float_ops obind].
  destruct (N.eqb_spec num 0) as [->|Hn]; [discriminate|].
  destruct (le_ step (B754_zero false)) eqn:Ee; [discriminate|].
  destruct (gt low (Bplus mode_NE (Bmult mode_NE (of_N num) step) low)) eqn:Eg; intros E; injection E as <-;
    (split; [exact Hn|]); (split; [reflexivity|]); eexists; eexists; (split; reflexivity).
Qed.

Lemma step_positive (step : flt) : @le_ _ (@num_ord _ ops) step (B754_zero false) = false ->
  is_finite_strict step = false \/ (is_finite step = true /\ 0 < B2R step).
Proof.
  intros Hle. destruct step as [s|s| |s m e Hb]; auto. right. split; [reflexivity|]. destruct s; [discriminate Hle|].
  cbn. apply F2R_gt_0. cbn. lia.
Qed.

Lemma step_disposition (num : N) (low step : flt) a : uniform_with_step_size ops num low step = Val (Ok a) ->
  (Z.of_N num < 2 ^ (prec - 1))%Z -> (num + 2 < usize_mod)%N ->
  u_num a = num /\ (regular a \/ degenerate a).
Proof.
  intros Ha Hn Hu. destruct (step_ok _ _ _ _ Ha) as [Hnz [Hle [lo [hi [Elh ->]]]]]. split; [reflexivity|].
  assert (Hn1 : (1 <= Z.of_N num < 2 ^ (prec - 1))%Z) by lia.
  destruct (step_positive _ Hle) as [Hs|[Fs Hs]].
  { right. split; [exact Hu|]. split; [cbn [u_num]; lia|]. left. exact Hs. }
  destruct (is_finite low) eqn:Fl.
  - left. destruct (regular_step prec emax prec_gt_0_ prec_lt_emax_ Hp2 num low step Hn1 Hu Fl Fs Hs) as [R G].
    rewrite G in Elh. injection Elh as -> ->. exact R.
  - right. split; [exact Hu|]. split; [cbn [u_num]; lia|]. right. cbn [u_low].
    destruct (gt low (Bplus mode_NE (Bmult mode_NE (of_N num) step) low)); injection Elh as -> ->; [|exact Fl].
    destruct low as [| [] | |]; try discriminate Fl; destruct (Bmult mode_NE (of_N num) step) as [| [] | |]; reflexivity.
Qed.

(** ** Accuracy *)
Lemma min_normal_le_1 : min_normal <= 1.
Proof. change 1 with (bpow radix2 0). apply bpow_le. unfold SpecFloat.emin. lia. Qed.

Lemma int_half_format z : (0 <= z <= 2 ^ prec)%Z -> rnd (IZR z) = IZR z.
Proof. intros Hz. apply rnd_format. apply int_format; [exact prec_gt_0_ | exact prec_lt_emax_ | lia]. Qed.

Lemma regular_accuracy (a : Uniform flt) (x : flt) : regular a -> is_finite x = true ->
  lt x (u_low a) = false -> ge x (u_high a) = false ->
  let D := B2R x - B2R (u_low a) in
  let s := B2R (u_step a) in
  (rnd D < top /\ exists k, (k <= u_num a)%N /\ index a x = Val (Some (k + 1)%N)
     /\ IZR (Z.of_N k) * s <= D * ((1 + u) * (1 + u)) /\ D * (1 - u) < (IZR (Z.of_N k) + 1) * s)
  \/ (top <= rnd D /\ index a x = Val (Some (u_num a + 1)%N)).
Proof.
  intros R Fx E1 E2 D s. pose proof (rg_pos _ _ _ _ _ R) as Rp. fold s in Rp. pose proof (rg_num _ _ _ _ _ R) as Rn.
  pose proof (lt_fin_false prec emax prec_gt_0_ prec_lt_emax_ _ _ Fx (rg_low _ _ _ _ _ R) E1) as HD.
  destruct (regular_index prec emax prec_gt_0_ prec_lt_emax_ Hp2 He a x R Fx E1 E2) as [[Ht [Hq E]]|[Ht E]]; fold D in Ht; [left|right; auto].
  fold D s in Hq, E. split; [exact Ht|]. pose proof (floor_half _ _ Hq) as Hf.
  set (d := rnd D) in *. set (q := rnd (d / s)) in *.
  exists (Z.to_N (Zfloor q)). split; [lia|]. split; [exact E|].
  rewrite Z2N.id by lia.
  assert (HD0 : 0 <= D) by (unfold D; lra).
  pose proof (rnd_sub_rel prec emax prec_gt_0_ x (u_low a)) as Hd. fold D in Hd. fold d in Hd.
  rewrite (Rabs_pos_eq D HD0) in Hd. apply Rabs_le_inv in Hd.
  pose proof (u_pos prec) as Hu0. pose proof u_tiny as Hu1.
  assert (Hd0 : 0 <= d) by (apply rnd_pos; [exact prec_gt_0_ | exact HD0]).
  assert (Hds : d = d / s * s) by (field; lra).
  assert (Hds0 : 0 <= d / s) by (apply Rmult_le_pos; [exact Hd0 | apply Rlt_le, Rinv_0_lt_compat, Rp]).
  assert (Hp1 : (2 ^ (prec - 1) <= 2 ^ prec)%Z) by (apply Z.pow_le_mono_r; lia).
  split.
  - destruct (Z.eq_dec (Zfloor q) 0) as [->|Hk]; [rewrite Rmult_0_l; apply Rmult_le_pos; [lra | nra]|].
    assert (Hk1 : 1 <= IZR (Zfloor q)) by (apply IZR_le; lia).
    pose proof (Zfloor_lb q) as Hlb.
    assert (Hnorm : min_normal <= d / s).
    { destruct (Rle_or_lt min_normal (d / s)) as [|Hlt]; [assumption|]. exfalso.
      assert (Hlt1 : (d / s) < 1 / 2).
      { eapply Rlt_le_trans; [exact Hlt|]. replace (1 / 2) with (bpow radix2 (-1)) by (change (bpow radix2 (-1)) with (/ 2); lra).
        apply bpow_le. unfold SpecFloat.emin. lia. }
      assert (Hh : q <= IZR 0 + / 2).
      { unfold q. rewrite <- (rnd_format prec emax (IZR 0 + / 2)).
        - apply rnd_le; [exact prec_gt_0_ | lra].
        - apply half_format; try assumption. pose proof (Z.pow_pos_nonneg 2 (prec - 1)). lia. }
      lra. }
    pose proof (rnd_rel prec emax prec_gt_0_ (d / s)) as Hr. rewrite (Rabs_pos_eq _ Hds0) in Hr. specialize (Hr Hnorm).
    fold q in Hr. apply Rabs_le_inv in Hr.
    assert (H1 : IZR (Zfloor q) <= d / s * (1 + u)) by lra.
    apply Rle_trans with (d / s * (1 + u) * s); [apply Rmult_le_compat_r; lra|].
    replace (d / s * (1 + u) * s) with (d / s * s * (1 + u)) by ring. rewrite <- Hds.
    replace (D * ((1 + u) * (1 + u))) with (D * (1 + u) * (1 + u)) by ring. apply Rmult_le_compat_r; lra.
  - assert (Hqk : q < IZR (Zfloor q) + 1) by apply Zfloor_ub.
    assert (Hlt : d / s < IZR (Zfloor q) + 1).
    { destruct (Rlt_or_le (d / s) (IZR (Zfloor q) + 1)) as [|Hge]; [assumption|]. exfalso.
      apply (rnd_le prec emax prec_gt_0_) in Hge. rewrite <- plus_IZR in Hge. rewrite int_half_format in Hge by lia.
      rewrite plus_IZR in Hge. fold q in Hge. lra. }
    apply Rle_lt_trans with d; [lra|]. rewrite Hds. apply Rmult_lt_compat_r; assumption.
Qed.

Lemma step_accuracy_new (n : N) (low high : flt) : (1 <= Z.of_N n < 2 ^ (prec - 1))%Z ->
  is_finite low = true -> is_finite high = true -> B2R low < B2R high ->
  is_finite (Bminus mode_NE high low) = true -> IZR (Z.of_N n) * min_normal <= B2R high - B2R low ->
  let w := (B2R high - B2R low) / IZR (Z.of_N n) in
  let s := B2R (Bdiv mode_NE (Bminus mode_NE high low) (of_N n)) in
  w * ((1 - u) * (1 - u)) <= s <= w * ((1 + u) * (1 + u)).
Proof.
  intros Hn Fl Fh Hlt Fw Hw w s. destruct (num_float prec emax prec_gt_0_ prec_lt_emax_ Hp2 n Hn) as [_ [_ [_ N4]]].
  destruct (width_computed prec emax prec_gt_0_ prec_lt_emax_ low high Fl Fh Hlt Fw) as [W1 W2].
  destruct (new_step prec emax prec_gt_0_ prec_lt_emax_ Hp2 n _ Hn Fw) as [S1 S2].
  destruct (width_normal n low high Hn Fl Fh Hlt Fw Hw) as [Q1 Q2]. pose proof min_normal_pos as Hm.
  pose proof (rnd_sub_rel prec emax prec_gt_0_ high low) as Hd. rewrite <- W1 in Hd.
  set (W := B2R high - B2R low) in *. assert (HW : 0 < W) by (unfold W; lra).
  rewrite (Rabs_pos_eq W) in Hd by lra. apply Rabs_le_inv in Hd.
  set (W' := B2R (Bminus mode_NE high low)) in *.
  pose proof (rnd_rel prec emax prec_gt_0_ (W' / IZR (Z.of_N n))) as Hr. rewrite Rabs_pos_eq in Hr by lra. specialize (Hr Q1).
  fold s in S2. rewrite <- S2 in Hr. apply Rabs_le_inv in Hr.
  pose proof (u_pos prec) as Hu0. pose proof u_tiny as Hu1.
  assert (Hin : 0 < / IZR (Z.of_N n)) by (apply Rinv_0_lt_compat; lra).
  assert (H1 : w * (1 - u) <= W' / IZR (Z.of_N n)).
  { unfold w, Rdiv. rewrite Rmult_assoc, (Rmult_comm _ (1 - u)), <- Rmult_assoc. apply Rmult_le_compat_r; lra. }
  assert (H2 : W' / IZR (Z.of_N n) <= w * (1 + u)).
  { unfold w, Rdiv. rewrite Rmult_assoc, (Rmult_comm _ (1 + u)), <- Rmult_assoc. apply Rmult_le_compat_r; lra. }
  split.
  - apply Rle_trans with (W' / IZR (Z.of_N n) * (1 - u)); [|lra].
    rewrite <- Rmult_assoc. apply Rmult_le_compat_r; lra.
  - apply Rle_trans with (W' / IZR (Z.of_N n) * (1 + u)); [lra|].
    rewrite <- Rmult_assoc. apply Rmult_le_compat_r; lra.
Qed.

(** From the step-relative bounds to [4u]-relative bounds in the ideal width [w]. *)
Lemma combine_bounds (D k s w : R) : 0 <= D -> 0 <= k -> 0 < w ->
  w * ((1 - u) * (1 - u)) <= s <= w * ((1 + u) * (1 + u)) ->
  k * s <= D * ((1 + u) * (1 + u)) -> D * (1 - u) < (k + 1) * s ->
  k * w * (1 - 4 * u) <= D /\ D < (k + 1) * w * (1 + 4 * u).
Proof.
  intros HD Hk Hw [Hs1 Hs2] H1 H2. pose proof (u_pos prec) as Hu0. pose proof u_tiny as Hu1.
  assert (Hkw : 0 <= k * w) by (apply Rmult_le_pos; lra).
  split.
  - apply Rmult_le_reg_r with ((1 + u) * (1 + u)); [nra|].
    apply Rle_trans with (k * s); [|exact H1].
    apply Rle_trans with (k * (w * ((1 - u) * (1 - u)))); [|apply Rmult_le_compat_l; lra].
    replace (k * (w * ((1 - u) * (1 - u)))) with (k * w * ((1 - u) * (1 - u))) by ring.
    rewrite (Rmult_assoc (k * w)). apply Rmult_le_compat_l; [exact Hkw|]. nra.
  - apply Rmult_lt_reg_r with (1 - u); [lra|].
    apply Rlt_le_trans with ((k + 1) * s); [exact H2|].
    apply Rle_trans with ((k + 1) * (w * ((1 + u) * (1 + u)))); [apply Rmult_le_compat_l; lra|].
    replace ((k + 1) * (w * ((1 + u) * (1 + u)))) with ((k + 1) * w * ((1 + u) * (1 + u))) by ring.
    rewrite (Rmult_assoc ((k + 1) * w) (1 + 4 * u)). apply Rmult_le_compat_l; [nra|]. nra.
Qed.
End Ctor.
End Acc.

Section Both.
Variable prec emax : Z.
Context (prec_gt_0_ : Prec_gt_0 prec).
Context (prec_lt_emax_ : Prec_lt_emax prec emax).
Context (Hp : (8 <= prec <= 63)%Z) (He : (64 < emax)%Z).
Context {B : Build}.
Notation flt := (binary_float prec emax).
Notation ops := (float_ops prec emax prec_gt_0_ prec_lt_emax_).
Notation rnd := (round radix2 (SpecFloat.fexp prec emax) (round_mode mode_NE)).
Notation u := (bpow radix2 (- prec)).
Notation top := (bpow radix2 emax).
Notation regular := (regular prec emax prec_gt_0_ prec_lt_emax_).
Notation index := (uniform_index ops).
Notation lt := (@lt_ _ (@num_ord _ ops)).
Notation ge := (@ge_ _ (@num_ord _ ops)).
Variables (a : Uniform flt) (w : R).
Hypothesis R : regular a.
Hypothesis Hw : 0 < w.
Hypothesis Hws : w * ((1 - u) * (1 - u)) <= B2R (u_step a) <= w * ((1 + u) * (1 + u)).

(** The index of a float in range, with the error bound relative to [w]. *)
Lemma in_range_index (x : flt) : is_finite x = true -> lt x (u_low a) = false -> ge x (u_high a) = false ->
  rnd (B2R x - B2R (u_low a)) < top ->
  exists k, (k <= u_num a)%N /\ index a x = Val (Some (k + 1)%N)
    /\ IZR (Z.of_N k) * w * (1 - 4 * u) <= B2R x - B2R (u_low a)
    /\ B2R x - B2R (u_low a) < (IZR (Z.of_N k) + 1) * w * (1 + 4 * u).
Proof.
  intros Fx E1 E2 Ht.
  pose proof (lt_fin_false prec emax prec_gt_0_ prec_lt_emax_ _ _ Fx (rg_low _ _ _ _ _ R) E1) as HD.
  destruct (regular_accuracy prec emax prec_gt_0_ prec_lt_emax_ Hp He a x R Fx E1 E2) as [[_ [k [Hk [Ek [B1 B2]]]]]|[Hc _]]; [|lra].
  exists k. split; [exact Hk|]. split; [exact Ek|].
  apply (combine_bounds prec Hp _ _ (B2R (u_step a)) w); auto; [lra | apply IZR_le; lia].
Qed.

Lemma bin_bounds (x : flt) i : index a x = Val (Some i) -> (1 <= i <= u_num a)%N ->
  is_finite x = true /\ lt x (u_low a) = false /\ ge x (u_high a) = false
  /\ (IZR (Z.of_N i) - 1) * w * (1 - 4 * u) <= B2R x - B2R (u_low a)
  /\ B2R x - B2R (u_low a) < IZR (Z.of_N i) * w * (1 + 4 * u).
Proof.
  intros Hi Hr.
  destruct (regular_cases prec emax prec_gt_0_ prec_lt_emax_ ltac:(lia) He a x R) as [[_ Ei]|[[_ [_ Ei]]|[[_ Ei]|[E1 [E2 Fx]]]]];
    try (rewrite Hi in Ei; injection Ei as Ei; lia).
  split; [exact Fx|]. split; [exact E1|]. split; [exact E2|].
  destruct (Rlt_or_le (rnd (B2R x - B2R (u_low a))) top) as [Ht|Ht].
  - destruct (in_range_index x Fx E1 E2 Ht) as [k [Hk [Ei [B1 B2]]]]. rewrite Hi in Ei. injection Ei as ->.
    rewrite N2Z.inj_add, plus_IZR. change (IZR (Z.of_N 1)) with 1.
    replace (IZR (Z.of_N k) + 1 - 1) with (IZR (Z.of_N k)) by ring. auto.
  - destruct (regular_accuracy prec emax prec_gt_0_ prec_lt_emax_ Hp He a x R Fx E1 E2) as [[Hc _]|[_ Ei]]; [lra|].
    rewrite Hi in Ei. injection Ei as Ei. lia.
Qed.

Lemma bin_found (x : flt) k : is_finite x = true -> lt x (u_low a) = false -> ge x (u_high a) = false ->
  rnd (B2R x - B2R (u_low a)) < top ->
  IZR (Z.of_N k) * w * (1 + 4 * u) <= B2R x - B2R (u_low a) < (IZR (Z.of_N k) + 1) * w * (1 - 4 * u) ->
  index a x = Val (Some (k + 1)%N).
Proof.
  intros Fx E1 E2 Ht [H1 H2]. destruct (in_range_index x Fx E1 E2 Ht) as [j [Hj [Ei [B1 B2]]]].
  rewrite Ei. do 3 f_equal. pose proof (u_pos prec) as Hu0. pose proof (u_tiny prec Hp) as Hu1.
  destruct (N.lt_trichotomy j k) as [Hlt|[->|Hgt]]; [|reflexivity|]; exfalso.
  - assert (Hjk : IZR (Z.of_N j) + 1 <= IZR (Z.of_N k)) by (rewrite <- plus_IZR; apply IZR_le; lia).
    assert ((IZR (Z.of_N j) + 1) * w * (1 + 4 * u) <= IZR (Z.of_N k) * w * (1 + 4 * u)).
    { apply Rmult_le_compat_r; [lra|]. apply Rmult_le_compat_r; lra. }
    lra.
  - assert (Hjk : IZR (Z.of_N k) + 1 <= IZR (Z.of_N j)) by (rewrite <- plus_IZR; apply IZR_le; lia).
    assert ((IZR (Z.of_N k) + 1) * w * (1 - 4 * u) <= IZR (Z.of_N j) * w * (1 - 4 * u)).
    { apply Rmult_le_compat_r; [lra|]. apply Rmult_le_compat_r; lra. }
    lra.
Qed.

Lemma overflow_bound (x : flt) : is_finite x = true -> lt x (u_low a) = false -> ge x (u_high a) = false ->
  rnd (B2R x - B2R (u_low a)) < top -> index a x = Val (Some (u_num a + 1)%N) ->
  IZR (Z.of_N (u_num a)) * w * (1 - 4 * u) <= B2R x - B2R (u_low a).
Proof.
  intros Fx E1 E2 Ht Hi. destruct (in_range_index x Fx E1 E2 Ht) as [j [Hj [Ei [B1 B2]]]].
  rewrite Hi in Ei. injection Ei as Ei. replace (u_num a) with j by lia. exact B1.
Qed.
End Both.
