(** * Property theorems: means of integers (C60). *)
From Coq Require Import List ZArith NArith Bool Lia Reals Lra ZifyN ZifyNat ZifyBool.
From Flocq Require Import Core IEEE754.BinarySingleNaN.
From Verif Require Import Base BaseFacts Num Float Spec IntFacts FloatFacts FloatSpec FloatUniform FloatApprox Value ValueFloat ExactSpec PropValue.
Import ListNotations.
Open Scope Z_scope.

(** ** Specification *)
Definition Zsum (l : list Z) : Z := fold_right Z.add 0 l.
Definition squares (xs : list Z) : list Z := map (fun x => x * x) xs.

(** ** Integer facts *)
Lemma Zsum_app a b : Zsum (a ++ b) = Zsum a + Zsum b.
Proof. unfold Zsum. induction a; cbn in *; lia. Qed.
Lemma Zsum_snoc a x : Zsum (a ++ [x]) = Zsum a + x.
Proof. rewrite Zsum_app. cbn. lia. Qed.
Lemma Zsum_map_snoc {X} (f : X -> Z) a x : Zsum (map f (a ++ [x])) = Zsum (map f a) + f x.
Proof. rewrite map_app, Zsum_app. cbn. lia. Qed.
Lemma Zsum_nonneg {X} (f : X -> Z) l : (forall x, In x l -> 0 <= f x) -> 0 <= Zsum (map f l).
Proof.
  intros H. induction l as [|x l IH]; cbn; [lia|]. pose proof (H x (or_introl eq_refl)).
  specialize (IH (fun y Hy => H y (or_intror Hy))). unfold Zsum in IH. lia.
Qed.
Lemma Zsum_le {X} (f g : X -> Z) l : (forall x, In x l -> f x <= g x) -> Zsum (map f l) <= Zsum (map g l).
Proof.
  intros H. induction l as [|x l IH]; cbn; [lia|]. pose proof (H x (or_introl eq_refl)).
  specialize (IH (fun y Hy => H y (or_intror Hy))). unfold Zsum in IH. lia.
Qed.
Lemma Zsum_opp {X} (f : X -> Z) l : Zsum (map (fun x => - f x) l) = - Zsum (map f l).
Proof. induction l as [|x l IH]; cbn in *; [lia|]. unfold Zsum in *. lia. Qed.
Lemma sq_abs x : Z.abs x <= x * x.
Proof. destruct (Z.eq_dec x 0) as [->|H]; [lia|]. nia. Qed.

Section IntMean.
Context {B : Build} (t c : int_type) (Ht : primitive_int t) (Hc : primitive_int c).

Lemma prim_sym z : int_min t = 0 /\ 0 <= z <= int_max t \/ Z.abs z <= int_max t /\ int_min t = - int_max t - 1 -> fits t z.
Proof. unfold fits. lia. Qed.
Lemma prim_cases : int_min t = 0 \/ int_min t = - int_max t - 1.
Proof. destruct Ht as [w [Hw [-> | ->]]]; unfold signed, unsigned; cbn; lia. Qed.

Lemma sum_fits (xs : list Z) : (forall x, In x xs -> fits t x) -> Zsum (squares xs) <= int_max t -> fits t (Zsum xs).
Proof.
  intros Hx Hs. unfold squares in Hs.
  assert (H1 : Zsum (map (fun x => x) xs) <= Zsum (map (fun x => x * x) xs)) by (apply Zsum_le; intros x _; pose proof (sq_abs x); lia).
  assert (H2 : Zsum (map (fun x => - x) xs) <= Zsum (map (fun x => x * x) xs)) by (apply Zsum_le; intros x _; pose proof (sq_abs x); lia).
  rewrite Zsum_opp, map_id in H2. rewrite map_id in H1. apply prim_sym. destruct prim_cases as [H0|H0]; [left | right].
  - split; [exact H0|]. split; [|lia]. rewrite <- (map_id xs). apply Zsum_nonneg. intros x Hin. apply Hx in Hin. unfold fits in Hin. lia.
  - split; [lia | exact H0].
Qed.
Lemma squares_nonneg xs : 0 <= Zsum (squares xs).
Proof. apply Zsum_nonneg. intros x _. nia. Qed.
Lemma fits_pos z : 0 <= z <= int_max t -> fits t z.
Proof. pose proof (primitive_bounds t Ht). unfold fits. lia. Qed.

Lemma mean_int_ok xs : (forall x, In x xs -> fits t x) -> Zsum (squares xs) <= int_max t -> Z.of_nat (length xs) <= int_max c ->
  mean_new (int_ops t) (int_ops c) xs = Val (mkMean (Zsum xs) (Zsum (squares xs)) (Z.of_nat (length xs))).
Proof.
  induction xs as [|x xs IH] using rev_ind; intros Hx Hs Hn; [reflexivity|].
  unfold squares in *. rewrite Zsum_map_snoc in *. rewrite app_length in *. cbn [length] in *.
  pose proof (squares_nonneg xs) as Hp. unfold squares in Hp.
  assert (Hx' : forall y, In y xs -> fits t y) by (intros y Hy; apply Hx, in_or_app; left; exact Hy).
  unfold mean_new in *. rewrite foldo_app, IH by (assumption || nia || lia).
  cbn [obind foldo]. unfold mean_fill_with. cbn [m_sumw m_sumw2 m_count n_add n_mul n_one int_ops].
  pose proof (primitive_bounds c Hc) as Hbc.
  assert (F1 : fits t (Zsum xs + x)).
  { rewrite <- Zsum_snoc. apply sum_fits; [exact Hx|]. unfold squares. rewrite Zsum_map_snoc. exact Hs. }
  rewrite (int_result_ok t _ F1). cbn [obind].
  rewrite (int_result_ok t (x * x)) by (apply fits_pos; nia). cbn [obind]. rewrite int_result_ok by (apply fits_pos; nia). cbn [obind].
  rewrite int_result_ok by (unfold fits; lia). cbn [obind]. rewrite Zsum_snoc. repeat f_equal. lia.
Qed.

Lemma mean_int_checked xs : overflow_checks = true -> (forall x, In x xs -> fits t x) ->
  (exists m, mean_new (int_ops t) (int_ops c) xs = Val m) -> Zsum (squares xs) <= int_max t /\ Z.of_nat (length xs) <= int_max c.
Proof.
  intros Hb. pose proof (primitive_bounds c Hc) as Hbc. pose proof (primitive_bounds t Ht) as Hbt.
  induction xs as [|x xs IH] using rev_ind; intros Hx [m Hm]; [cbn; lia|].
  assert (Hx' : forall y, In y xs -> fits t y) by (intros y Hy; apply Hx, in_or_app; left; exact Hy).
  unfold mean_new in *. rewrite foldo_app in Hm. destruct (foldo _ xs _) as [m'|] eqn:Hm'; [|discriminate Hm].
  destruct (IH Hx' (ex_intro _ m' eq_refl)) as [I1 I2]. pose proof (mean_int_ok xs Hx' I1 I2) as H.
  unfold mean_new in H. rewrite Hm' in H. injection H as ->. cbn [obind foldo] in Hm. unfold mean_fill_with in Hm.
  cbn [m_sumw m_sumw2 m_count n_add n_mul n_one int_ops] in Hm. unfold int_result in Hm. rewrite Hb in Hm.
  destruct (in_range t (Zsum xs + x)); [|discriminate Hm]. cbn [obind] in Hm.
  destruct (in_range t (x * x)); [|discriminate Hm]. cbn [obind] in Hm.
  destruct (in_range t (Zsum (squares xs) + x * x)) eqn:R1; [|discriminate Hm]. cbn [obind] in Hm.
  destruct (in_range c (Z.of_nat (length xs) + 1)) eqn:R2; [|discriminate Hm].
  apply in_range_fits in R1, R2. unfold fits in R1, R2. unfold squares in *. rewrite Zsum_map_snoc, app_length. cbn [length]. lia.
Qed.

Lemma int_result_wrap (k : int_type) z : int_min k <= int_max k -> overflow_checks = false -> int_result k z = Val (wrap k z).
Proof.
  intros Hk Hb. unfold int_result. rewrite Hb. destruct (in_range k z) eqn:R; [|reflexivity].
  apply in_range_fits in R. f_equal. unfold wrap, fits in *. rewrite Z.mod_small by lia. lia.
Qed.
Lemma wrap_plus (k : int_type) a b : int_min k <= int_max k -> wrap k (wrap k a + wrap k b) = wrap k (a + b).
Proof.
  intros Hk. unfold wrap. set (mn := int_min k). set (M := (int_max k - mn + 1)). assert (HM : M <> 0) by (unfold M, mn; lia).
  f_equal. replace (mn + (a - mn) mod M + (mn + (b - mn) mod M) - mn) with ((a - mn) mod M + (b - mn) mod M + mn) by ring.
  rewrite Z.add_mod by exact HM. rewrite <- (Z.add_mod (a - mn) (b - mn)) by exact HM. rewrite <- Z.add_mod by exact HM. f_equal. ring.
Qed.
Lemma wrap_plus1 (k : int_type) a b : int_min k <= int_max k -> fits k b -> wrap k (wrap k a + b) = wrap k (a + b).
Proof.
  intros Hk Hb. rewrite <- (wrap_plus k a b Hk). f_equal. f_equal. unfold wrap, fits in *. rewrite Z.mod_small by lia. lia.
Qed.

Lemma mean_int_unchecked xs : overflow_checks = false -> (forall x, In x xs -> fits t x) ->
  mean_new (int_ops t) (int_ops c) xs = Val (mkMean (wrap t (Zsum xs)) (wrap t (Zsum (squares xs))) (wrap c (Z.of_nat (length xs)))).
Proof.
  intros Hb. pose proof (primitive_bounds c Hc) as Hbc. pose proof (primitive_bounds t Ht) as Hbt.
  assert (W0 : forall k, primitive_int k -> wrap k 0 = 0).
  { intros k Hk. pose proof (primitive_bounds k Hk). unfold wrap. rewrite Z.mod_small by lia. lia. }
  induction xs as [|x xs IH] using rev_ind; intros Hx.
  - cbn. unfold mean_default. cbn. unfold Zsum. cbn. rewrite !W0 by assumption. reflexivity.
  - unfold mean_new in *. rewrite foldo_app, IH by (intros y Hy; apply Hx, in_or_app; left; exact Hy).
    cbn [obind foldo]. unfold mean_fill_with. cbn [m_sumw m_sumw2 m_count n_add n_mul n_one int_ops].
    rewrite int_result_wrap by (lia || assumption). cbn [obind]. rewrite int_result_wrap by (lia || assumption). cbn [obind].
    rewrite int_result_wrap by (lia || assumption). cbn [obind]. rewrite int_result_wrap by (lia || assumption). cbn [obind].
    rewrite wrap_plus by lia. rewrite !wrap_plus1; [| lia | unfold fits; lia | lia | apply Hx, in_or_app; right; left; reflexivity].
    unfold squares. rewrite Zsum_map_snoc, Zsum_snoc, app_length. cbn [length]. repeat f_equal. lia.
Qed.
End IntMean.

(** ** Float facts: operations that cannot overflow *)
Section Flt.
Local Open Scope R_scope.
Context (prec emax : Z) (P : Prec_gt_0 prec) (E : Prec_lt_emax prec emax).
Notation flt := (binary_float prec emax).
Notation fexp := (SpecFloat.fexp prec emax).
Notation rnd := (round radix2 fexp (round_mode mode_NE)).

Lemma rnd_bound (e : Z) x : (0 <= e < emax)%Z -> Rabs x <= bpow radix2 e ->
  Rabs (rnd x) <= bpow radix2 e /\ Rlt_bool (Rabs (rnd x)) (bpow radix2 emax) = true.
Proof.
  intros He Hx. assert (Hv : Valid_exp fexp) by (apply fexp_correct; exact P).
  assert (H : Rabs (rnd x) <= bpow radix2 e).
  { apply abs_round_le_generic; [exact Hv | apply valid_rnd_N | | exact Hx]. apply generic_format_bpow.
    unfold SpecFloat.fexp. pose proof (emin_le prec emax P E). unfold Prec_gt_0 in P. lia. }
  split; [exact H|]. apply Rlt_bool_true. eapply Rle_lt_trans; [exact H|]. apply bpow_lt. lia.
Qed.
Lemma div_bounded (e : Z) (x y : flt) : (0 <= e < emax)%Z -> is_finite x = true -> B2R y <> 0 -> Rabs (B2R x / B2R y) <= bpow radix2 e ->
  is_finite (Bdiv mode_NE x y) = true /\ B2R (Bdiv mode_NE x y) = rnd (B2R x / B2R y) /\ Rabs (B2R (Bdiv mode_NE x y)) <= bpow radix2 e.
Proof.
  intros He Fx Hy Hb. destruct (rnd_bound e _ He Hb) as [H1 H2]. pose proof (Bdiv_correct prec emax P E mode_NE x y Hy) as H.
  rewrite H2 in H. destruct H as [HR [HF _]]. rewrite HR, HF. split; [exact Fx | split; [reflexivity | exact H1]].
Qed.
Lemma mul_bounded (e : Z) (x y : flt) : (0 <= e < emax)%Z -> is_finite x = true -> is_finite y = true -> Rabs (B2R x * B2R y) <= bpow radix2 e ->
  is_finite (Bmult mode_NE x y) = true /\ B2R (Bmult mode_NE x y) = rnd (B2R x * B2R y) /\ Rabs (B2R (Bmult mode_NE x y)) <= bpow radix2 e.
Proof.
  intros He Fx Fy Hb. destruct (rnd_bound e _ He Hb) as [H1 H2]. pose proof (Bmult_correct prec emax P E mode_NE x y) as H.
  rewrite H2 in H. destruct H as [HR [HF _]]. rewrite HR, HF, Fx, Fy. split; [reflexivity | split; [reflexivity | exact H1]].
Qed.
Lemma sub_bounded (e : Z) (x y : flt) : (0 <= e < emax)%Z -> is_finite x = true -> is_finite y = true -> Rabs (B2R x - B2R y) <= bpow radix2 e ->
  is_finite (Bminus mode_NE x y) = true /\ B2R (Bminus mode_NE x y) = rnd (B2R x - B2R y) /\ Rabs (B2R (Bminus mode_NE x y)) <= bpow radix2 e.
Proof.
  intros He Fx Fy Hb. destruct (rnd_bound e _ He Hb) as [H1 H2]. pose proof (Bminus_correct prec emax P E mode_NE x y Fx Fy) as H.
  rewrite H2 in H. destruct H as [HR [HF _]]. rewrite HR, HF. split; [reflexivity | split; [reflexivity | exact H1]].
Qed.
Lemma add_bounded (e : Z) (x y : flt) : (0 <= e < emax)%Z -> is_finite x = true -> is_finite y = true -> Rabs (B2R x + B2R y) <= bpow radix2 e ->
  is_finite (Bplus mode_NE x y) = true /\ B2R (Bplus mode_NE x y) = rnd (B2R x + B2R y) /\ Rabs (B2R (Bplus mode_NE x y)) <= bpow radix2 e.
Proof.
  intros He Fx Fy Hb. destruct (rnd_bound e _ He Hb) as [H1 H2]. pose proof (Bplus_correct prec emax P E mode_NE x y Fx Fy) as H.
  rewrite H2 in H. destruct H as [HR [HF _]]. rewrite HR, HF. split; [reflexivity | split; [reflexivity | exact H1]].
Qed.

Lemma of_int_exact z : (Z.abs z <= 2 ^ prec)%Z ->
  is_finite (float_of_int prec emax P E z) = true /\ B2R (float_of_int prec emax P E z) = IZR z.
Proof.
  intros Hz. unfold float_of_int. pose proof (binary_normalize_correct prec emax P E mode_NE z 0 false) as H. cbv zeta in H.
  replace (F2R (Float radix2 z 0)) with (IZR z) in H by (unfold F2R; cbn; ring).
  rewrite (rnd_int prec emax P E z Hz) in H. rewrite Rlt_bool_true in H by (apply (int_lt_emax prec emax P E); exact Hz).
  destruct H as [H1 [H2 _]]. split; [exact H2 | exact H1].
Qed.
Lemma int_bpow z : (Z.abs z <= 2 ^ prec)%Z -> Rabs (IZR z) <= bpow radix2 prec.
Proof.
  intros Hz. rewrite <- abs_IZR, <- IZR_Zpower by (unfold Prec_gt_0 in P; lia). apply IZR_le. exact Hz.
Qed.
Lemma div_ge1 x n b : 1 <= n -> Rabs x <= b -> Rabs (x / n) <= b.
Proof.
  intros Hn Hx. unfold Rdiv. rewrite Rabs_mult, Rabs_inv, (Rabs_pos_eq n) by lra.
  apply Rle_trans with (Rabs x * 1); [|lra]. apply Rmult_le_compat_l; [apply Rabs_pos|].
  rewrite <- Rinv_1. apply Rinv_le; lra.
Qed.
End Flt.

Lemma sumR_IZR {X} (f : X -> Z) l : sumR (map (fun x => IZR (f x)) l) = IZR (Zsum (map f l)).
Proof. induction l as [|x l IH]; [reflexivity|]. unfold sumR, Zsum in *. cbn [map fold_right]. rewrite IH, plus_IZR. reflexivity. Qed.

(** ** C60 *)

(** Checked builds: building a [Mean] of integers returns exactly when the sum of
    the squares fits the sample type and the number of samples fits the counter
    type; otherwise it panics. *)
Theorem C60_mean_integer_overflow : forall (B : Build) (t c : int_type) (xs : list Z),
  primitive_int t -> primitive_int c -> overflow_checks = true -> (forall x, In x xs -> fits t x) ->
  ((exists m, mean_new (int_ops t) (int_ops c) xs = Val m)
   <-> Zsum (squares xs) <= int_max t /\ Z.of_nat (length xs) <= int_max c).
Proof.
  intros B t c xs Ht Hc Hb Hx. split.
  - apply mean_int_checked; assumption.
  - intros [H1 H2]. eexists. apply mean_int_ok; assumption.
Qed.
Print Assumptions C60_mean_integer_overflow.

(** Unchecked builds: it never panics, and the statistics are those of the wrapped
    sums and the wrapped counter. *)
Theorem C60_mean_integer_wraps : forall (prec emax : Z) (P : Prec_gt_0 prec) (E : Prec_lt_emax prec emax) (B : Build)
  (t c : int_type) (xs : list Z),
  primitive_int t -> primitive_int c -> overflow_checks = false -> (forall x, In x xs -> fits t x) ->
  let ops := float_ops prec emax P E in let of_int := float_of_int prec emax P E in
  let S1 := wrap t (Zsum xs) in let S2 := wrap t (Zsum (squares xs)) in let n := wrap c (Z.of_nat (length xs)) in
  let mean := Bdiv mode_NE (of_int S1) (of_int n) in
  exists m, mean_new (int_ops t) (int_ops c) xs = Val m
  /\ mean_num_samples m = n
  /\ mean_mean ops of_int of_int m = Val mean
  /\ @mean_variance_of_samples _ _ _ ops (float_signed prec emax) of_int of_int m
     = Val (Babs (Bminus mode_NE (Bdiv mode_NE (of_int S2) (of_int n)) (Bmult mode_NE mean mean))).
Proof.
  intros prec emax P E B t c xs Ht Hc Hb Hx ops of_int S1 S2 n mean. eexists.
  split; [apply mean_int_unchecked; assumption|]. split; [reflexivity|]. split; reflexivity.
Qed.
Print Assumptions C60_mean_integer_wraps.

(** Without overflow, in either build, the mean is the exact mean correctly
    rounded, and the variance is accurate to four roundings however many samples
    there are. *)
Theorem C60_mean_integer_accuracy : forall (prec emax : Z) (P : Prec_gt_0 prec) (E : Prec_lt_emax prec emax) (B : Build)
  (t c : int_type) (xs : list Z),
  2 * prec + 2 <= emax -> primitive_int t -> primitive_int c -> int_max t < 2 ^ prec -> int_max c < 2 ^ prec ->
  (forall x, In x xs -> fits t x) -> xs <> [] -> Zsum (squares xs) <= int_max t -> Z.of_nat (length xs) <= int_max c ->
  (let ops := float_ops prec emax P E in let of_int := float_of_int prec emax P E in
   let u := unit_roundoff prec in let tiny := smallest_normal emax in
   let sample := map IZR xs in let n := INR (length xs) in
   let mean_square := sumR (map (fun x => x ^ 2) sample) / n in
   let scale := mean_square + (Rabs (sample_mean sample) + tiny) ^ 2 + 3 * tiny in
   exists m mean var varm,
     mean_new (int_ops t) (int_ops c) xs = Val m
  /\ mean_num_samples m = Z.of_nat (length xs)
  /\ mean_mean ops of_int of_int m = Val mean
  /\ @mean_variance_of_samples _ _ _ ops (float_signed prec emax) of_int of_int m = Val var
  /\ @mean_variance_of_mean _ _ _ ops (float_signed prec emax) of_int of_int m = Val varm
  /\ is_finite mean = true
  /\ B2R mean = round radix2 (SpecFloat.fexp prec emax) (round_mode mode_NE) (sample_mean sample)
  /\ is_finite var = true /\ 0 <= B2R var
  /\ Rabs (B2R var - sample_variance sample) <= ((1 + u) ^ 4 - 1) * scale
  /\ is_finite varm = true /\ 0 <= B2R varm
  /\ Rabs (B2R varm - sample_variance sample / n) <= ((1 + u) ^ 5 - 1) * (scale / n + tiny))%R.
Proof.
  intros prec emax P E B t c xs Hfmt Ht Hc Mt Mc Hx Hne Hs Hn. cbv zeta. Local Open Scope R_scope.
  set (ops := float_ops prec emax P E). set (of_int := float_of_int prec emax P E).
  set (sample := map IZR xs). set (n := INR (length xs)). set (u := unit_roundoff prec). set (tiny := smallest_normal emax).
  pose proof (u_nonneg prec) as Hu. pose proof (tiny_nonneg emax) as Htiny. fold u in Hu. fold tiny in Htiny.
  pose proof (primitive_bounds t Ht) as Hbt. pose proof (primitive_bounds c Hc) as Hbc. pose proof (squares_nonneg xs) as Hs0.
  pose proof (sum_fits t Ht xs Hx Hs) as Hf1.
  assert (Hlen : (1 <= Z.of_nat (length xs))%Z) by (destruct xs; [congruence | cbn; lia]).
  set (s1 := of_int (Zsum xs)). set (s2 := of_int (Zsum (squares xs))). set (cf := of_int (Z.of_nat (length xs))).
  set (mu := Bdiv mode_NE s1 cf). set (a := Bdiv mode_NE s2 cf). set (mm := Bmult mode_NE mu mu). set (d := Bminus mode_NE a mm).
  exists (mkMean (Zsum xs) (Zsum (squares xs)) (Z.of_nat (length xs))), mu, (Babs d), (Bdiv mode_NE (Babs d) cf).
  assert (Hpp : (0 < prec)%Z) by exact P.
  assert (A1 : (Z.abs (Zsum xs) <= 2 ^ prec)%Z) by (pose proof (prim_cases t Ht); unfold fits in Hf1; lia).
  assert (A2 : (Z.abs (Zsum (squares xs)) <= 2 ^ prec)%Z) by lia.
  assert (A3 : (Z.abs (Z.of_nat (length xs)) <= 2 ^ prec)%Z) by lia.
  destruct (of_int_exact prec emax P E _ A1) as [F1 R1]. destruct (of_int_exact prec emax P E _ A2) as [F2 R2].
  destruct (of_int_exact prec emax P E _ A3) as [F3 R3]. fold of_int in F1, R1, F2, R2, F3, R3. fold s1 in F1, R1. fold s2 in F2, R2. fold cf in F3, R3.
  assert (Rn : B2R cf = n) by (rewrite R3; unfold n; symmetry; apply INR_IZR_INZ).
  assert (Hn1 : 1 <= n) by (unfold n; rewrite INR_IZR_INZ; apply IZR_le; lia).
  assert (Hcf : B2R cf <> 0) by lra.
  assert (E1 : sumR sample = IZR (Zsum xs)) by (unfold sample; pose proof (sumR_IZR (fun x => x) xs) as H; rewrite map_id in H; exact H).
  assert (E2 : sumR (map (fun x => x ^ 2) sample) = IZR (Zsum (squares xs))).
  { unfold sample, squares. rewrite map_map, <- sumR_IZR. f_equal. apply map_ext. intros x. rewrite mult_IZR. ring. }
  assert (Hl : length sample = length xs) by (unfold sample; apply map_length).
  destruct (div_bounded prec emax P E prec s1 cf) as [Fmu [Rmu Bmu]];
    [lia | exact F1 | exact Hcf | rewrite R1, Rn; apply div_ge1; [exact Hn1 | apply int_bpow; assumption] |].
  destruct (div_bounded prec emax P E prec s2 cf) as [Fa [Ra Ba]];
    [lia | exact F2 | exact Hcf | rewrite R2, Rn; apply div_ge1; [exact Hn1 | apply int_bpow; assumption] |].
  fold mu in Fmu, Rmu, Bmu. fold a in Fa, Ra, Ba.
  destruct (mul_bounded prec emax P E (2 * prec) mu mu) as [Fm [Rm Bm]]; [lia | exact Fmu | exact Fmu | |].
  { rewrite Rabs_mult. replace (2 * prec)%Z with (prec + prec)%Z by ring. rewrite bpow_plus.
    apply Rmult_le_compat; try apply Rabs_pos; exact Bmu. }
  fold mm in Fm, Rm, Bm.
  assert (Hd : Rabs (B2R a - B2R mm) <= bpow radix2 (2 * prec + 1)).
  { rewrite bpow_plus. change (bpow radix2 1) with 2. assert (bpow radix2 prec <= bpow radix2 (2 * prec)) by (apply bpow_le; lia).
    eapply Rle_trans; [apply Rabs_triang|]. rewrite Rabs_Ropp. lra. }
  destruct (sub_bounded prec emax P E (2 * prec + 1) a mm) as [Fd [Rd Bd]]; [lia | exact Fa | exact Fm | exact Hd |]. fold d in Fd, Rd, Bd.
  assert (Fad : is_finite (Babs d) = true) by (rewrite is_finite_Babs; exact Fd).
  destruct (div_bounded prec emax P E (2 * prec + 1) (Babs d) cf) as [Fv [Rv Bv]];
    [lia | exact Fad | exact Hcf | rewrite Rn; apply div_ge1; [exact Hn1 | rewrite B2R_Babs, Rabs_Rabsolu; exact Bd] |].
  assert (Hdiv : forall k x V M, is_finite (Bdiv mode_NE x cf) = true -> near u k (B2R x) V M ->
            near u (S k) (B2R (Bdiv mode_NE x cf)) (V / n) (M / n + tiny)).
  { intros k x V M Hf H. pose proof (near_Bdiv prec emax P E k 0 x cf V n M Hf F3 H ltac:(lra)) as HD.
    rewrite Nat.add_0_r in HD. apply HD; rewrite Rn; cbn; lra. }
  assert (N1 : near u 1 (B2R mu) (sample_mean sample) (Rabs (sample_mean sample) + tiny)).
  { unfold sample_mean. rewrite Hl. fold n. rewrite E1. unfold Rdiv at 2. rewrite Rabs_mult, Rabs_inv, (Rabs_pos_eq n) by lra.
    apply Hdiv; [exact Fmu|]. rewrite R1. apply near_exact. }
  assert (N2 : near u 1 (B2R a) (sumR (map (fun x => x ^ 2) sample) / n) (sumR (map (fun x => x ^ 2) sample) / n + tiny)).
  { apply Hdiv; [exact Fa|]. rewrite R2, E2. rewrite <- (Rabs_pos_eq (IZR _)) at 3 by (apply IZR_le; exact Hs0). apply near_exact. }
  pose proof (near_Bmult prec emax P E _ _ mu mu _ _ _ _ Fm N1 N1) as N3.
  pose proof (near_Bminus prec emax P E _ _ a mm _ _ _ _ Fd N2 N3) as N4. fold d u tiny in N4.
  assert (Hnes : sample <> []) by (unfold sample; destruct xs; [congruence | discriminate]).
  pose proof (sample_variance_alt sample Hnes) as Hv. rewrite Hl in Hv. fold n in Hv.
  replace (sumR (map (fun x => x ^ 2) sample) / n - sample_mean sample * sample_mean sample) with (sample_variance sample) in N4
    by (rewrite <- Hv; ring).
  set (scale := sumR (map (fun x => x ^ 2) sample) / n + (Rabs (sample_mean sample) + tiny) ^ 2 + 3 * tiny).
  assert (N5 : near u 4 (B2R d) (sample_variance sample) scale).
  { apply (near_mono u Hu _ 4 _ scale) in N4; [exact N4 | cbn; lia |]. unfold scale. lra. }
  pose proof (sample_variance_nonneg sample Hnes) as Hvp.
  assert (N6 : near u 4 (B2R (Babs d)) (sample_variance sample) scale).
  { destruct N5 as [Q1 Q2]. split; [|exact Q2]. rewrite B2R_Babs. rewrite <- (Rabs_pos_eq (sample_variance sample) Hvp) at 1.
    eapply Rle_trans; [apply Rabs_triang_inv2 | exact Q1]. }
  pose proof (Hdiv _ _ _ _ Fv N6) as N7.
  split; [apply mean_int_ok; assumption|]. split; [reflexivity|]. split; [reflexivity|]. split; [reflexivity|]. split; [reflexivity|].
  split; [exact Fmu|]. split; [rewrite Rmu, R1, Rn; unfold sample_mean; rewrite Hl, E1; reflexivity|].
  split; [exact Fad|]. split; [rewrite B2R_Babs; apply Rabs_pos|]. split; [exact (proj1 N6)|].
  split; [exact Fv|]. split; [|exact (proj1 N7)].
  rewrite Rv. apply round_ge_generic; [apply fexp_correct; exact P | apply valid_rnd_N | apply generic_format_0 |].
  rewrite B2R_Babs, Rn. apply Rmult_le_pos; [apply Rabs_pos | apply Rlt_le, Rinv_0_lt_compat; lra].
Qed.
Print Assumptions C60_mean_integer_accuracy.

(** ** Weighted means of integers *)
Local Open Scope Z_scope.
Section IntWeighted.
Context {B : Build} (t c : int_type) (Ht : primitive_int t) (Hc : primitive_int c).
Notation xw := (fun p : Z * Z => fst p * snd p).
Notation xxw := (fun p : Z * Z => fst p * fst p * snd p).
Notation ww := (fun p : Z * Z => snd p * snd p).

(** A sample and its weight: values of the type, the weight not negative. *)
Definition good_sample (p : Z * Z) : Prop := fits t (fst p) /\ fits t (snd p) /\ 0 <= snd p.

Lemma xw_abs (p : Z * Z) : 0 <= snd p -> Z.abs (fst p * snd p) <= fst p * fst p * snd p.
Proof. intros H. rewrite Z.abs_mul, (Z.abs_eq (snd p)) by exact H. apply Z.mul_le_mono_nonneg_r; [exact H | apply sq_abs]. Qed.

Lemma wsum_fits xs : (forall p, In p xs -> good_sample p) -> Zsum (map xxw xs) <= int_max t -> fits t (Zsum (map xw xs)).
Proof.
  intros Hx Hs.
  assert (H1 : Zsum (map xw xs) <= Zsum (map xxw xs)).
  { apply Zsum_le. intros p Hp. destruct (Hx p Hp) as [_ [_ H]]. pose proof (xw_abs p H). lia. }
  assert (H2 : Zsum (map (fun p => - (fst p * snd p)) xs) <= Zsum (map xxw xs)).
  { apply Zsum_le. intros p Hp. destruct (Hx p Hp) as [_ [_ H]]. pose proof (xw_abs p H). lia. }
  rewrite (Zsum_opp xw) in H2. apply prim_sym. destruct (prim_cases t Ht) as [H0|H0]; [left | right].
  - split; [exact H0|]. split; [|lia]. apply Zsum_nonneg. intros p Hp. destruct (Hx p Hp) as [H3 [_ H4]]. unfold fits in H3. nia.
  - split; [lia | exact H0].
Qed.
Lemma xxw_nonneg xs : (forall p, In p xs -> good_sample p) -> 0 <= Zsum (map xxw xs).
Proof. intros Hx. apply Zsum_nonneg. intros p Hp. destruct (Hx p Hp) as [_ [_ H]]. nia. Qed.
Lemma ww_nonneg xs : 0 <= Zsum (map ww xs).
Proof. apply Zsum_nonneg. intros p Hp. nia. Qed.
Lemma w_le_ww xs : (forall p, In p xs -> good_sample p) -> 0 <= Zsum (map snd xs) <= Zsum (map ww xs).
Proof.
  intros Hx. split; [apply Zsum_nonneg; intros p Hp; apply Hx, Hp|]. apply Zsum_le. intros p Hp. pose proof (sq_abs (snd p)). lia.
Qed.

Definition wm_fits (xs : list (Z * Z)) : Prop :=
  (forall p, In p xs -> fst p * fst p <= int_max t) /\ Zsum (map xxw xs) <= int_max t /\ Zsum (map ww xs) <= int_max t
  /\ Z.of_nat (length xs) <= int_max c.

Lemma wm_int_ok xs : (forall p, In p xs -> good_sample p) -> wm_fits xs ->
  weightedmean_new (int_ops t) (int_ops c) xs
  = Val (mkWeightedMean (Zsum (map xw xs)) (Zsum (map xxw xs)) (Zsum (map snd xs)) (Zsum (map ww xs)) (Z.of_nat (length xs))).
Proof.
  unfold wm_fits. pose proof (primitive_bounds c Hc) as Hbc. pose proof (primitive_bounds t Ht) as Hbt.
  induction xs as [|p xs IH] using rev_ind; intros Hx [Hq [Hs [Hw Hn]]]; [reflexivity|].
  assert (Hx' : forall q, In q xs -> good_sample q) by (intros q Hp; apply Hx, in_or_app; left; exact Hp).
  pose proof (Hx p ltac:(apply in_or_app; right; left; reflexivity)) as [P1 [P2 P3]].
  pose proof (Hq p ltac:(apply in_or_app; right; left; reflexivity)) as Pq.
  pose proof (wsum_fits _ Hx Hs) as F1. pose proof (w_le_ww _ Hx) as F2. pose proof (xw_abs p P3) as Pa.
  pose proof (xxw_nonneg xs Hx') as Hp1. pose proof (ww_nonneg xs) as Hp2.
  rewrite !Zsum_map_snoc in *. rewrite app_length in *. cbn [length] in *.
  set (X := fst p) in *. set (W := snd p) in *. set (A := Zsum (map xw xs)) in *. set (A2 := Zsum (map xxw xs)) in *.
  set (C := Zsum (map snd xs)) in *. set (C2 := Zsum (map ww xs)) in *.
  assert (0 <= X * X * W) by nia. assert (0 <= W * W) by nia. assert (0 <= X * X) by nia.
  unfold weightedmean_new in *. rewrite foldo_app, IH;
    [|exact Hx' | split; [intros q Hp; apply Hq, in_or_app; left; exact Hp | split; [lia | split; lia]]].
  cbn [obind foldo]. unfold weightedmean_fill. cbn [wm_sumwt wm_sumwt2 wm_sumw wm_sumw2 wm_count n_add n_mul n_one int_ops].
  fold X W. fold A A2 C C2.
  assert (FXW : fits t (X * W)).
  { destruct (prim_cases t Ht) as [Hz0|Hz0]; unfold fits in *; [split; [|lia]; nia | lia]. }
  rewrite (int_result_ok t _ FXW). cbn [obind]. rewrite (int_result_ok t _ F1). cbn [obind].
  rewrite (int_result_ok t (X * X)) by (apply fits_pos; [exact Ht | lia]). cbn [obind].
  rewrite (int_result_ok t (X * X * W)) by (apply fits_pos; [exact Ht | lia]). cbn [obind].
  rewrite (int_result_ok t (A2 + X * X * W)) by (apply fits_pos; [exact Ht | lia]). cbn [obind].
  rewrite (int_result_ok t (C + W)) by (apply fits_pos; [exact Ht | lia]). cbn [obind].
  rewrite (int_result_ok t (W * W)) by (apply fits_pos; [exact Ht | lia]). cbn [obind].
  rewrite (int_result_ok t (C2 + W * W)) by (apply fits_pos; [exact Ht | lia]). cbn [obind].
  rewrite (int_result_ok c) by (unfold fits; lia). cbn [obind]. repeat f_equal. lia.
Qed.

Lemma wm_int_checked xs : overflow_checks = true -> (forall p, In p xs -> good_sample p) ->
  (exists m, weightedmean_new (int_ops t) (int_ops c) xs = Val m) -> wm_fits xs.
Proof.
  intros Hb. pose proof (primitive_bounds c Hc) as Hbc. pose proof (primitive_bounds t Ht) as Hbt. unfold wm_fits.
  induction xs as [|p xs IH] using rev_ind; intros Hx [m Hm]; [cbn; split; [intros p [] | lia]|].
  assert (Hx' : forall q, In q xs -> good_sample q) by (intros q Hp; apply Hx, in_or_app; left; exact Hp).
  unfold weightedmean_new in *. rewrite foldo_app in Hm. destruct (foldo _ xs _) as [m'|] eqn:Hm'; [|discriminate Hm].
  pose proof (IH Hx' (ex_intro _ m' eq_refl)) as [I0 [I1 [I2 I3]]]. pose proof (wm_int_ok xs Hx' (conj I0 (conj I1 (conj I2 I3)))) as H.
  unfold weightedmean_new in H. rewrite Hm' in H. injection H as ->. cbn [obind foldo] in Hm. unfold weightedmean_fill in Hm.
  cbn [wm_sumwt wm_sumwt2 wm_sumw wm_sumw2 wm_count n_add n_mul n_one int_ops] in Hm.
  rewrite !Zsum_map_snoc, app_length. cbn [length].
  set (X := fst p) in *. set (W := snd p) in *. set (A := Zsum (map xw xs)) in *. set (A2 := Zsum (map xxw xs)) in *.
  set (C := Zsum (map snd xs)) in *. set (C2 := Zsum (map ww xs)) in *. unfold int_result in Hm. rewrite Hb in Hm.
  destruct (in_range t (X * W)); [|discriminate Hm]. cbn [obind] in Hm.
  destruct (in_range t (A + X * W)); [|discriminate Hm]. cbn [obind] in Hm.
  destruct (in_range t (X * X)) eqn:R0; [|discriminate Hm]. cbn [obind] in Hm.
  destruct (in_range t (X * X * W)); [|discriminate Hm]. cbn [obind] in Hm.
  destruct (in_range t (A2 + X * X * W)) eqn:R1; [|discriminate Hm]. cbn [obind] in Hm.
  destruct (in_range t (C + W)); [|discriminate Hm]. cbn [obind] in Hm.
  destruct (in_range t (W * W)); [|discriminate Hm]. cbn [obind] in Hm.
  destruct (in_range t (C2 + W * W)) eqn:R2; [|discriminate Hm]. cbn [obind] in Hm.
  destruct (in_range c (Z.of_nat (length xs) + 1)) eqn:R3; [|discriminate Hm].
  apply in_range_fits in R0, R1, R2, R3. unfold fits in R0, R1, R2, R3.
  split; [|split; [lia | split; lia]]. intros q Hq. apply in_app_or in Hq as [Hq|[<-|[]]]; [apply I0, Hq | fold X; lia].
Qed.
End IntWeighted.

(** Checked builds, weights that are not negative: building a [WeightedMean] of
    integers returns exactly when every squared sample, the weighted sum of squares, the sum
    of squared weights and the number of samples fit their types. *)
Theorem C60_weighted_mean_integer_overflow : forall (B : Build) (t c : int_type) (xs : list (Z * Z)),
  primitive_int t -> primitive_int c -> overflow_checks = true ->
  (forall x w, In (x, w) xs -> fits t x /\ fits t w /\ 0 <= w) ->
  ((exists m, weightedmean_new (int_ops t) (int_ops c) xs = Val m)
   <-> (forall x w, In (x, w) xs -> x * x <= int_max t)
       /\ Zsum (map (fun p => fst p * fst p * snd p) xs) <= int_max t
       /\ Zsum (map (fun p => snd p * snd p) xs) <= int_max t
       /\ Z.of_nat (length xs) <= int_max c).
Proof.
  intros B t c xs Ht Hc Hb Hx.
  assert (Hg : forall p, In p xs -> good_sample t p) by (intros [x w] Hp; apply (Hx x w Hp)).
  split.
  - intros H. destruct (wm_int_checked t c Ht Hc xs Hb Hg H) as [H0 H1]. split; [|exact H1]. intros x w Hp. exact (H0 (x, w) Hp).
  - intros [H0 H1]. eexists. apply (wm_int_ok t c Ht Hc xs Hg). split; [|exact H1]. intros [x w] Hp. exact (H0 x w Hp).
Qed.
Print Assumptions C60_weighted_mean_integer_overflow.

(** Without overflow and with a positive total weight, in either build, the mean is the
    exact weighted mean correctly rounded, and the variance is accurate to six roundings. *)
Theorem C60_weighted_mean_integer_accuracy : forall (prec emax : Z) (P : Prec_gt_0 prec) (E : Prec_lt_emax prec emax) (B : Build)
  (t c : int_type) (xs : list (Z * Z)),
  2 * prec + 4 <= emax -> primitive_int t -> primitive_int c -> int_max t < 2 ^ prec -> int_max c < 2 ^ prec ->
  (forall x w, In (x, w) xs -> fits t x /\ fits t w /\ 0 <= w) ->
  (forall x w, In (x, w) xs -> x * x <= int_max t) ->
  Zsum (map (fun p => fst p * fst p * snd p) xs) <= int_max t ->
  Zsum (map (fun p => snd p * snd p) xs) <= int_max t ->
  Z.of_nat (length xs) <= int_max c ->
  (let ops := float_ops prec emax P E in let of_int := float_of_int prec emax P E in
   let u := unit_roundoff prec in let tiny := smallest_normal emax in
   let sample := map (fun p => (IZR (fst p), IZR (snd p))) xs in let W := total_weight sample in
   let sum_wx := sumR (map (fun p => snd p * fst p) sample) in
   let sum_wxx := sumR (map (fun p => snd p * fst p ^ 2) sample) in
   let mean_scale := Rabs (weighted_mean sample) + tiny in
   let scale := mean_scale ^ 2 + (sum_wxx + (2 * Rabs sum_wx + tiny) * mean_scale + tiny) / W + 2 * tiny in
   0 < W ->
   exists m mean var,
     weightedmean_new (int_ops t) (int_ops c) xs = Val m
  /\ weightedmean_num_samples m = Z.of_nat (length xs)
  /\ weightedmean_mean ops of_int m = Val mean
  /\ weightedmean_variance_of_samples ops of_int m = Val var
  /\ is_finite mean = true
  /\ B2R mean = round radix2 (SpecFloat.fexp prec emax) (round_mode mode_NE) (weighted_mean sample)
  /\ is_finite var = true
  /\ Rabs (B2R var - weighted_variance sample) <= ((1 + u) ^ 6 - 1) * scale)%R.
Proof.
  intros prec emax P E B t c xs Hfmt Ht Hc Mt Mc Hx Hq Hs Hw Hn. cbv zeta. Local Open Scope R_scope.
  assert (Hg : forall p, In p xs -> good_sample t p) by (intros [x w] Hp; apply (Hx x w Hp)).
  assert (Hfit : wm_fits t c xs) by (split; [intros [x w] Hp; exact (Hq x w Hp) | split; [exact Hs | split; assumption]]).
  set (ops := float_ops prec emax P E). set (of_int := float_of_int prec emax P E).
  set (sample := map (fun p : Z * Z => (IZR (fst p), IZR (snd p))) xs). set (u := unit_roundoff prec). set (tiny := smallest_normal emax).
  set (W := total_weight sample). intros HW.
  pose proof (u_nonneg prec) as Hu. pose proof (tiny_nonneg emax) as Htiny. fold u in Hu. fold tiny in Htiny.
  pose proof (primitive_bounds t Ht) as Hbt. pose proof (xxw_nonneg t xs Hg) as Hs0. pose proof (w_le_ww t xs Hg) as Hw0.
  pose proof (wsum_fits t Ht xs Hg Hs) as Hf1.
  set (S1 := Zsum (map (fun p => (fst p * snd p)%Z) xs)) in *. set (S2 := Zsum (map (fun p => (fst p * fst p * snd p)%Z) xs)) in *.
  set (SW := Zsum (map snd xs)) in *.
  set (s1 := of_int S1). set (s2 := of_int S2). set (w := of_int SW). set (mu := Bdiv mode_NE s1 w). set (mm := Bmult mode_NE mu mu).
  set (two := Bplus mode_NE (Bone : binary_float prec emax) Bone). set (p1 := Bmult mode_NE two s1). set (p2 := Bmult mode_NE p1 mu).
  set (d := Bminus mode_NE s2 p2). set (q := Bdiv mode_NE d w). set (v := Bplus mode_NE mm q).
  eexists. exists mu, v.
  assert (Hpp : (0 < prec)%Z) by exact P.
  assert (A1 : (Z.abs S1 <= 2 ^ prec)%Z) by (pose proof (prim_cases t Ht); unfold fits in Hf1; lia).
  assert (A2 : (Z.abs S2 <= 2 ^ prec)%Z) by lia. assert (A3 : (Z.abs SW <= 2 ^ prec)%Z) by lia.
  destruct (of_int_exact prec emax P E _ A1) as [F1 R1]. destruct (of_int_exact prec emax P E _ A2) as [F2 R2].
  destruct (of_int_exact prec emax P E _ A3) as [F3 R3]. fold of_int in F1, R1, F2, R2, F3, R3. fold s1 in F1, R1. fold s2 in F2, R2. fold w in F3, R3.
  assert (EW : W = IZR SW) by (unfold W, total_weight, sample; rewrite map_map; cbn [snd]; apply (sumR_IZR snd xs)).
  assert (E1 : sumR (map (fun p => snd p * fst p) sample) = IZR S1).
  { unfold sample, S1. rewrite map_map, <- sumR_IZR. f_equal. apply map_ext. intros x. cbn [fst snd]. rewrite mult_IZR. ring. }
  assert (E2 : sumR (map (fun p => snd p * fst p ^ 2) sample) = IZR S2).
  { unfold sample, S2. rewrite map_map, <- sumR_IZR. f_equal. apply map_ext. intros x. cbn [fst snd]. rewrite !mult_IZR. ring. }
  assert (Rw : B2R w = W) by (rewrite R3, EW; reflexivity).
  assert (HW1 : 1 <= W) by (rewrite EW in *; apply IZR_le; apply lt_IZR in HW; lia).
  assert (Hwz : B2R w <> 0) by lra.
  assert (Emu : weighted_mean sample = IZR S1 / W) by (unfold weighted_mean; rewrite E1; reflexivity).
  destruct (div_bounded prec emax P E prec s1 w) as [Fmu [Rmu Bmu]];
    [lia | exact F1 | exact Hwz | rewrite R1, Rw; apply div_ge1; [exact HW1 | apply int_bpow; assumption] |]. fold mu in Fmu, Rmu, Bmu.
  pose proof (bpow_gt_0 radix2 prec) as Bp.
  assert (B2p : bpow radix2 (2 * prec) = bpow radix2 prec * bpow radix2 prec) by (rewrite <- bpow_plus; f_equal; ring).
  destruct (mul_bounded prec emax P E (2 * prec) mu mu) as [Fm [Rm Bm]]; [lia | exact Fmu | exact Fmu | |].
  { rewrite Rabs_mult, B2p. apply Rmult_le_compat; try apply Rabs_pos; exact Bmu. }
  fold mm in Fm, Rm, Bm.
  assert (Htwo : is_finite two = true /\ B2R two = 2).
  { pose proof (Bplus_correct prec emax P E mode_NE Bone Bone (is_finite_Bone prec emax P E) (is_finite_Bone prec emax P E)) as H.
    rewrite Bone_correct in H. replace (1 + 1) with (bpow radix2 1) in H by (cbn; lra).
    rewrite round_generic in H; [| apply valid_rnd_N | apply generic_format_bpow; unfold SpecFloat.fexp, SpecFloat.emin; lia].
    rewrite Rlt_bool_true in H; [destruct H as [H1 [H2 _]]; split; [exact H2 | exact (eq_trans H1 eq_refl)]|].
    rewrite Rabs_pos_eq by apply bpow_ge_0. apply bpow_lt. lia. }
  destruct Htwo as [Ft Rt].
  assert (Bs1 : Rabs (B2R s1) <= bpow radix2 prec) by (rewrite R1; apply int_bpow; assumption).
  assert (Bs2 : Rabs (B2R s2) <= bpow radix2 prec) by (rewrite R2; apply int_bpow; assumption).
  destruct (mul_bounded prec emax P E (prec + 1) two s1) as [Fp1 [Rp1 Bp1]]; [lia | exact Ft | exact F1 | |].
  { rewrite Rabs_mult, Rt, (Rabs_pos_eq 2) by lra. rewrite bpow_plus. change (bpow radix2 1) with 2. lra. }
  fold p1 in Fp1, Rp1, Bp1.
  destruct (mul_bounded prec emax P E (2 * prec + 1) p1 mu) as [Fp2 [Rp2 Bp2]]; [lia | exact Fp1 | exact Fmu | |].
  { rewrite Rabs_mult. replace (2 * prec + 1)%Z with ((prec + 1) + prec)%Z by ring. rewrite (bpow_plus radix2 (prec + 1) prec).
    apply Rmult_le_compat; try apply Rabs_pos; assumption. }
  fold p2 in Fp2, Rp2, Bp2.
  assert (L1 : bpow radix2 prec <= bpow radix2 (2 * prec + 1)) by (apply bpow_le; lia).
  destruct (sub_bounded prec emax P E (2 * prec + 2) s2 p2) as [Fd [Rd Bd]]; [lia | exact F2 | exact Fp2 | |].
  { replace (2 * prec + 2)%Z with (2 * prec + 1 + 1)%Z by ring. rewrite (bpow_plus radix2 (2 * prec + 1) 1). change (bpow radix2 1) with 2.
    eapply Rle_trans; [apply Rabs_triang|]. rewrite Rabs_Ropp. lra. }
  fold d in Fd, Rd, Bd.
  destruct (div_bounded prec emax P E (2 * prec + 2) d w) as [Fq [Rq Bq]];
    [lia | exact Fd | exact Hwz | rewrite Rw; apply div_ge1; [exact HW1 | exact Bd] |]. fold q in Fq, Rq, Bq.
  assert (L2 : bpow radix2 (2 * prec) <= bpow radix2 (2 * prec + 2)) by (apply bpow_le; lia).
  destruct (add_bounded prec emax P E (2 * prec + 3) mm q) as [Fv [Rv Bv]]; [lia | exact Fm | exact Fq | |].
  { replace (2 * prec + 3)%Z with (2 * prec + 2 + 1)%Z by ring. rewrite (bpow_plus radix2 (2 * prec + 2) 1). change (bpow radix2 1) with 2.
    eapply Rle_trans; [apply Rabs_triang|]. lra. }
  fold v in Fv, Rv, Bv.
  assert (Hdiv : forall k x V M, is_finite (Bdiv mode_NE x w) = true -> near u k (B2R x) V M ->
            near u (S k) (B2R (Bdiv mode_NE x w)) (V / W) (M / W + tiny)).
  { intros k x V M Hf H. pose proof (near_Bdiv prec emax P E k 0 x w V W M Hf F3 H HW) as HD.
    rewrite Nat.add_0_r in HD. apply HD; rewrite Rw; cbn; lra. }
  assert (N0 : near u 0 (B2R s1) (IZR S1) (Rabs (IZR S1))) by (rewrite R1; apply near_exact).
  assert (N1 : near u 1 (B2R mu) (weighted_mean sample) (Rabs (weighted_mean sample) + tiny)).
  { rewrite Emu. unfold Rdiv at 2. rewrite Rabs_mult, Rabs_inv, (Rabs_pos_eq W) by lra. apply Hdiv; [exact Fmu | exact N0]. }
  assert (N2 : near u 0 (B2R s2) (IZR S2) (IZR S2)).
  { rewrite R2. rewrite <- (Rabs_pos_eq (IZR S2)) at 3 by (apply IZR_le; exact Hs0). apply near_exact. }
  assert (Nt : near u 0 (B2R two) 2 2) by (rewrite Rt; rewrite <- (Rabs_pos_eq 2) at 3 by lra; apply near_exact).
  pose proof (near_Bmult prec emax P E _ _ mu mu _ _ _ _ Fm N1 N1) as N3.
  pose proof (near_Bmult prec emax P E _ _ two s1 _ _ _ _ Fp1 Nt N0) as N4.
  pose proof (near_Bmult prec emax P E _ _ p1 mu _ _ _ _ Fp2 N4 N1) as N5.
  pose proof (near_Bminus prec emax P E _ _ s2 p2 _ _ _ _ Fd N2 N5) as N6. fold d u tiny in N6.
  pose proof (Hdiv _ d _ _ Fq N6) as N7. fold q in N7.
  pose proof (near_Bplus prec emax P E _ _ mm q _ _ _ _ Fv N3 N7) as N8. fold v u tiny in N8.
  assert (Hv : weighted_mean sample * weighted_mean sample + (IZR S2 - 2 * IZR S1 * weighted_mean sample) / W = weighted_variance sample).
  { rewrite <- E1, <- E2. unfold weighted_variance. fold W. set (mw := weighted_mean sample).
    rewrite (sumR_ext (fun p => snd p * (fst p - mw) ^ 2) (fun p => (snd p * fst p ^ 2 + (-2 * mw) * (snd p * fst p)) + mw ^ 2 * snd p)) by (intros x; ring).
    rewrite (sumR_plus (fun p => snd p * fst p ^ 2 + (-2 * mw) * (snd p * fst p)) (fun p => mw ^ 2 * snd p)).
    rewrite (sumR_plus (fun p => snd p * fst p ^ 2) (fun p => (-2 * mw) * (snd p * fst p))).
    rewrite !sumR_scale_map. fold (total_weight sample). fold W. field. lra. }
  rewrite Hv in N8. cbn [Nat.max Nat.add] in N8.
  split; [apply wm_int_ok; assumption|]. split; [reflexivity|]. split; [reflexivity|]. split; [reflexivity|].
  split; [exact Fmu|]. split; [rewrite Rmu, R1, Rw, Emu; reflexivity|]. split; [exact Fv|].
  rewrite E1, E2. destruct N8 as [Q _].
  replace ((Rabs (weighted_mean sample) + tiny) ^ 2
            + (IZR S2 + (2 * Rabs (IZR S1) + tiny) * (Rabs (weighted_mean sample) + tiny) + tiny) / W + 2 * tiny)
    with ((Rabs (weighted_mean sample) + tiny) * (Rabs (weighted_mean sample) + tiny) + tiny
          + ((IZR S2 + ((2 * Rabs (IZR S1) + tiny) * (Rabs (weighted_mean sample) + tiny) + tiny)) / W + tiny)) by (field; lra).
  exact Q.
Qed.
Print Assumptions C60_weighted_mean_integer_accuracy.

(** ** The sample counter *)
Local Open Scope Z_scope.
Lemma counter_checked {B : Build} (c : int_type) (k : nat) : primitive_int c -> overflow_checks = true -> Z.of_nat k <= int_max c ->
  int_result c (Z.of_nat k + 1) = if Z.of_nat (k + 1) <=? int_max c then Val (Z.of_nat (k + 1)) else Panic.
Proof.
  intros Hc Hb Hk. pose proof (primitive_bounds c Hc). unfold int_result, in_range. rewrite Hb. replace (Z.of_nat k + 1) with (Z.of_nat (k + 1)) by lia.
  replace (int_min c <=? Z.of_nat (k + 1)) with true by (symmetry; lia). reflexivity.
Qed.

(** Float samples: whatever the samples are, filling returns in a checked build
    exactly when the number of samples fits the counter, and in an unchecked
    build always, with [num_samples] reduced modulo the counter's range. *)
Theorem C60_sample_counter : forall (prec emax : Z) (P : Prec_gt_0 prec) (E : Prec_lt_emax prec emax) (B : Build) (c : int_type)
  (xs : list (binary_float prec emax)) (ws : list (binary_float prec emax * binary_float prec emax)),
  primitive_int c -> let ops := float_ops prec emax P E in
  (overflow_checks = true ->
     ((exists m, mean_new ops (int_ops c) xs = Val m) <-> Z.of_nat (length xs) <= int_max c)
     /\ ((exists m, weightedmean_new ops (int_ops c) ws = Val m) <-> Z.of_nat (length ws) <= int_max c)
     /\ (forall m, mean_new ops (int_ops c) xs = Val m -> mean_num_samples m = Z.of_nat (length xs))
     /\ (forall m, weightedmean_new ops (int_ops c) ws = Val m -> weightedmean_num_samples m = Z.of_nat (length ws)))
  /\ (overflow_checks = false ->
     (exists m, mean_new ops (int_ops c) xs = Val m /\ mean_num_samples m = wrap c (Z.of_nat (length xs)))
     /\ (exists m, weightedmean_new ops (int_ops c) ws = Val m /\ weightedmean_num_samples m = wrap c (Z.of_nat (length ws)))).
Proof.
  intros prec emax P E B c xs ws Hc ops. pose proof (primitive_bounds c Hc) as Hbc.
  assert (G : forall (M X : Type) (fill : M -> X -> outcome M) (m0 : M) (cnt : M -> Z) (set : M -> X -> Z -> M) (l : list X),
    cnt m0 = 0 -> (forall m x z, cnt (set m x z) = z) ->
    (forall m x, fill m x = obind (int_result c (cnt m + 1)) (fun z => Val (set m x z))) ->
    (overflow_checks = true -> if Z.of_nat (length l) <=? int_max c
        then exists m, foldo fill l m0 = Val m /\ cnt m = Z.of_nat (length l) else foldo fill l m0 = Panic)
    /\ (overflow_checks = false -> exists m, foldo fill l m0 = Val m /\ cnt m = wrap c (Z.of_nat (length l)))).
  { intros M X fill m0 cnt set l H0 Hset Hfill. split; intros Hb.
    - induction l as [|x l IH] using rev_ind.
      + cbn. replace (0 <=? int_max c) with true by (symmetry; lia). exists m0. split; [reflexivity | exact H0].
      + rewrite foldo_app, app_length. cbn [length]. destruct (Z.of_nat (length l) <=? int_max c) eqn:L.
        * destruct IH as [m [-> Hm]]. cbn [obind foldo]. rewrite Hfill, Hm, (counter_checked c (length l) Hc Hb) by lia.
          destruct (Z.of_nat (length l + 1) <=? int_max c); [|reflexivity]. cbn [obind]. eexists. split; [reflexivity | apply Hset].
        * rewrite IH. replace (Z.of_nat (length l + 1) <=? int_max c) with false by (symmetry; lia). reflexivity.
    - induction l as [|x l IH] using rev_ind.
      + exists m0. split; [reflexivity|]. rewrite H0. unfold wrap. cbn [length Z.of_nat]. rewrite Z.mod_small by lia. lia.
      + rewrite foldo_app, app_length. cbn [length]. destruct IH as [m [-> Hm]]. cbn [obind foldo].
        rewrite Hfill, Hm, int_result_wrap by (lia || assumption). cbn [obind]. eexists. split; [reflexivity|].
        rewrite Hset, wrap_plus1 by (lia || (unfold fits; lia)). f_equal. lia. }
  pose proof (G (Mean (binary_float prec emax) Z) _ (mean_fill_with ops (int_ops c)) (mean_default ops (int_ops c)) m_count
     (fun m x z => mkMean (Bplus mode_NE (m_sumw m) x) (Bplus mode_NE (m_sumw2 m) (Bmult mode_NE x x)) z) xs eq_refl
     (fun _ _ _ => eq_refl) (fun _ _ => eq_refl)) as [G1 G2].
  pose proof (G (WeightedMean (binary_float prec emax) (binary_float prec emax) Z) _
     (fun m it => weightedmean_fill ops (int_ops c) m (fst it) (snd it)) (weightedmean_default ops (int_ops c)) wm_count
     (fun m p z => mkWeightedMean (Bplus mode_NE (wm_sumwt m) (Bmult mode_NE (fst p) (snd p)))
        (Bplus mode_NE (wm_sumwt2 m) (Bmult mode_NE (Bmult mode_NE (fst p) (fst p)) (snd p)))
        (Bplus mode_NE (wm_sumw m) (snd p)) (Bplus mode_NE (wm_sumw2 m) (Bmult mode_NE (snd p) (snd p))) z) ws eq_refl
     (fun _ _ _ => eq_refl) (fun _ _ => eq_refl)) as [G3 G4].
  unfold mean_new, weightedmean_new, mean_num_samples, weightedmean_num_samples. split; intros Hb.
  - specialize (G1 Hb). specialize (G3 Hb). split; [|split; [|split]].
    + destruct (Z.of_nat (length xs) <=? int_max c) eqn:L; split; intros H; try lia; try (destruct G1 as [m [-> _]]; eexists; reflexivity).
      rewrite G1 in H. destruct H as [m H]. discriminate H.
    + destruct (Z.of_nat (length ws) <=? int_max c) eqn:L; split; intros H; try lia; try (destruct G3 as [m [-> _]]; eexists; reflexivity).
      rewrite G3 in H. destruct H as [m H]. discriminate H.
    + intros m Hm. rewrite Hm in G1. destruct (Z.of_nat (length xs) <=? int_max c); [|discriminate G1].
      destruct G1 as [m' [H1 H2]]. injection H1 as ->. exact H2.
    + intros m Hm. rewrite Hm in G3. destruct (Z.of_nat (length ws) <=? int_max c); [|discriminate G3].
      destruct G3 as [m' [H1 H2]]. injection H1 as ->. exact H2.
  - split; [exact (G2 Hb) | exact (G4 Hb)].
Qed.
Print Assumptions C60_sample_counter.

(** The bounds are real: a [Mean<i32>] of the single sample 46341 panics in a checked
    build, and in an unchecked build the variance of the single sample 50000 is
    4294967296 instead of 0. *)
Theorem C60_mean_i32_overflow_refuted :
  (forall B : Build, overflow_checks = true -> mean_new (int_ops (signed 32)) (int_ops (unsigned 32)) [46341] = Panic)
  /\ (forall B : Build, overflow_checks = false -> exists m (var : f64),
        mean_new (int_ops (signed 32)) (int_ops (unsigned 32)) [50000] = Val m
        /\ @mean_variance_of_samples Z f64 Z f64_ops (float_signed 53 1024) (float_of_int 53 1024 _ _) (float_of_int 53 1024 _ _) m = Val var
        /\ B2R var = IZR 4294967296).
Proof.
  split; intros [[] []] H; try discriminate H.
  1-3: reflexivity.
  all: do 2 eexists; split; [reflexivity|]; split; [reflexivity|].
    all: match goal with |- B2R ?v = _ => rewrite <- (SF2R_B2SF 53 1024 v);
      replace (B2SF v) with (SpecFloat.S754_finite false 4503599627370496 (-20)) by (vm_compute; reflexivity) end.
    all: unfold SF2R, F2R; cbn; lra.
Qed.
Print Assumptions C60_mean_i32_overflow_refuted.

(** Samples of type i32 with u32 counters meet the hypotheses for f64 output. *)
Example C60_nonvacuous :
  2 * 53 + 4 <= 1024 /\ primitive_int (signed 32) /\ primitive_int (unsigned 32)
  /\ int_max (signed 32) < 2 ^ 53 /\ int_max (unsigned 32) < 2 ^ 53
  /\ (forall x, In x [-3; 7; 20000]%Z -> fits (signed 32) x)
  /\ Zsum (squares [-3; 7; 20000]) = 400000058 /\ 400000058 <= int_max (signed 32)
  /\ (forall x w, In (x, w) [(-3, 2); (7, 0); (20000, 5)]%Z -> fits (signed 32) x /\ fits (signed 32) w /\ 0 <= w /\ x * x <= int_max (signed 32))
  /\ Zsum (map (fun p => fst p * fst p * snd p) [(-3, 2); (7, 0); (20000, 5)]) <= int_max (signed 32)
  /\ (0 < total_weight (map (fun p => (IZR (fst p), IZR (snd p))) [(-3, 2); (7, 0); (20000, 5)]%Z))%R.
Proof.
  split; [lia|]. split; [exists 32; split; [lia | left; reflexivity]|]. split; [exists 32; split; [lia | right; reflexivity]|].
  split; [cbn; lia|]. split; [cbn; lia|].
  split; [intros x [<-|[<-|[<-|[]]]]; unfold fits; cbn; lia|]. split; [reflexivity|]. split; [cbn; lia|].
  split; [intros x w [H|[H|[H|[]]]]; injection H as <- <-; unfold fits; cbn; lia|]. split; [cbn; lia|].
  unfold total_weight, sumR. cbn. lra.
Qed.
