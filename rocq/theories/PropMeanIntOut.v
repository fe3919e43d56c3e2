(** * Property theorems: means of integers with an integer output type (C60). *)
From Coq Require Import List ZArith NArith Bool Lia Reals Lra ZifyN ZifyNat ZifyBool.
From Verif Require Import Base BaseFacts Num Spec IntFacts Value ExactSpec PropValue PropMeanInt.
Import ListNotations.
Open Scope Z_scope.

(** num_traits 0.2 [Signed::abs] of an integer type: [if x < 0 { -x } else { x }];
    negating the smallest value overflows. *)
Definition int_signed `{Build} (o : int_type) : SignedOps Z := {| n_abs := fun x => int_result o (Z.abs x) |}.

Lemma sumR_IZR xs : sumR (map IZR xs) = IZR (Zsum xs).
Proof. unfold sumR, Zsum. induction xs as [|x xs IH]; cbn; [reflexivity|]. rewrite plus_IZR. now rewrite <- IH. Qed.
Lemma sumR_squares xs : sumR (map (fun x => x ^ 2)%R (map IZR xs)) = IZR (Zsum (squares xs)).
Proof.
  rewrite <- sumR_IZR. unfold squares. rewrite !map_map. f_equal. apply map_ext. intros x. rewrite mult_IZR. ring.
Qed.
Lemma variance_IZR xs : xs <> [] ->
  let n := IZR (Z.of_nat (length xs)) in
  (sample_variance (map IZR xs) = IZR (Zsum (squares xs)) / n - (IZR (Zsum xs) / n) ^ 2)%R
  /\ (sample_mean (map IZR xs) = IZR (Zsum xs) / n)%R /\ (0 < n)%R.
Proof.
  intros Hne n. assert (Hn : (0 < n)%R) by (unfold n; apply IZR_lt; destruct xs; [congruence | cbn; lia]).
  assert (Hm : (sample_mean (map IZR xs) = IZR (Zsum xs) / n)%R).
  { unfold sample_mean. rewrite sumR_IZR, map_length, INR_IZR_INZ. reflexivity. }
  split; [|split; [exact Hm | exact Hn]]. rewrite <- sample_variance_alt by (destruct xs; [congruence | discriminate]).
  rewrite sumR_squares, Hm, map_length, INR_IZR_INZ. reflexivity.
Qed.
(** Cauchy-Schwarz. *)
Lemma square_of_sum xs : Zsum xs * Zsum xs <= Z.of_nat (length xs) * Zsum (squares xs).
Proof.
  destruct xs as [|x0 l]; [cbn; lia|]. set (xs := x0 :: l). assert (Hne : xs <> []) by discriminate.
  destruct (variance_IZR xs Hne) as (Hv & _ & Hn).
  assert (Hp : (0 <= sample_variance (map IZR xs))%R) by (apply sample_variance_nonneg; discriminate).
  rewrite Hv in Hp. set (n := IZR (Z.of_nat (length xs))) in *. apply le_IZR. rewrite !mult_IZR. fold n.
  apply Rmult_le_compat_l with (r := (n * n)%R) in Hp; [|nra]. rewrite Rmult_0_r in Hp.
  replace (n * n * (IZR (Zsum (squares xs)) / n - (IZR (Zsum xs) / n) ^ 2))%R with (n * IZR (Zsum (squares xs)) - IZR (Zsum xs) * IZR (Zsum xs))%R in Hp by (field; lra).
  lra.
Qed.

Lemma quot_facts a n : 0 < n -> let q := Z.quot a n in
  Z.abs (a - n * q) < n /\ n * Z.abs q <= Z.abs a /\ 0 <= q * a.
Proof.
  intros Hn q. unfold q. destruct (Z_le_gt_dec 0 a) as [Ha|Ha].
  - rewrite Z.quot_div_nonneg by lia. pose proof (Z.div_mod a n ltac:(lia)). pose proof (Z.mod_pos_bound a n Hn).
    pose proof (Z.div_pos a n Ha Hn). nia.
  - replace a with (- (- a)) by lia. set (b := - a). rewrite Z.quot_opp_l by lia. rewrite Z.quot_div_nonneg by lia.
    pose proof (Z.div_mod b n ltac:(lia)). pose proof (Z.mod_pos_bound b n Hn). pose proof (Z.div_pos b n ltac:(lia) Hn). nia.
Qed.

(** An integer output type [o] into which sample and counter type convert ([From]
    exists only when every value fits): if filling does not overflow, nothing that
    is computed afterwards does either, in any build. The mean is the exact mean rounded
    towards zero; [variance_of_samples] is never negative, and is between 1 below
    and 2|mean| above the true variance (rounding the mean before squaring it
    inflates it); [variance_of_mean] divides that by the number of samples. A bin
    that was never filled panics (division by zero) instead of returning NaN. *)
Theorem C60_integer_output : forall (B : Build) (t c o : int_type) (xs : list Z),
  primitive_int t -> primitive_int c -> primitive_int o ->
  (forall z, fits t z -> fits o z) -> (forall z, fits c z -> fits o z) ->
  (forall x, In x xs -> fits t x) -> Zsum (squares xs) <= int_max t -> Z.of_nat (length xs) <= int_max c ->
  let n := Z.of_nat (length xs) in let sample := map IZR xs in
  let mean := mean_mean (int_ops o) (fun z => z) (fun z => z) in
  let variance_of_samples := @mean_variance_of_samples _ _ _ (int_ops o) (int_signed o) (fun z => z) (fun z => z) in
  let variance_of_mean := @mean_variance_of_mean _ _ _ (int_ops o) (int_signed o) (fun z => z) (fun z => z) in
  exists m, mean_new (int_ops t) (int_ops c) xs = Val m
  /\ (xs = [] -> mean m = Panic /\ variance_of_samples m = Panic /\ variance_of_mean m = Panic)
  /\ (xs <> [] -> exists mu var, mean m = Val mu /\ variance_of_samples m = Val var /\ variance_of_mean m = Val (var / n)
       /\ (Rabs (IZR mu) <= Rabs (sample_mean sample))%R /\ (0 <= IZR mu * sample_mean sample)%R
       /\ (Rabs (IZR mu - sample_mean sample) < 1)%R
       /\ 0 <= var
       /\ (-1 < IZR var - sample_variance sample <= 2 * Rabs (sample_mean sample))%R).
Proof.
  intros B t c o xs Ht Hc Ho To Co Hx Hs Hn n sample mean vs vm.
  exists (mkMean (Zsum xs) (Zsum (squares xs)) n). split; [now apply mean_int_ok|].
  pose proof (primitive_bounds o Ho) as Hbo. pose proof (primitive_bounds t Ht) as Hbt.
  pose proof (squares_nonneg xs) as Hp. pose proof (square_of_sum xs) as CS. fold n in CS.
  assert (Hmax : int_max t <= int_max o) by (specialize (To (int_max t)); unfold fits in To; lia).
  split.
  - intros ->. now repeat split.
  - intros Hne. assert (Hn0 : 0 < n) by (unfold n; destruct xs; [congruence | cbn; lia]).
    destruct (variance_IZR xs Hne) as (Hv & Hm & HnR). fold n in Hv, Hm, HnR. fold sample in Hv, Hm.
    set (S := Zsum xs) in *. set (S2 := Zsum (squares xs)) in *. set (q := Z.quot S n).
    assert (Fs : fits o S) by (apply To; apply sum_fits; assumption).
    destruct (quot_facts S n Hn0) as (Q1 & Q2 & Q3). fold q in Q1, Q2, Q3.
    assert (Qf : fits o q) by (unfold fits in *; nia).
    assert (Hqq : n * (q * q) <= S2) by nia.
    assert (D0 : 0 <= S2 / n) by (apply Z.div_pos; lia).
    assert (D1 : q * q <= S2 / n) by (apply Z.div_le_lower_bound; lia).
    assert (D2 : S2 / n <= S2) by (apply Z.div_le_upper_bound; nia).
    set (var := S2 / n - q * q).
    assert (Em : mean (mkMean S S2 n) = Val q).
    { unfold mean, mean_mean. cbn [m_sumw m_count n_div int_ops]. apply int_div_ok; [lia | exact Qf]. }
    assert (Ev : vs (mkMean S S2 n) = Val var).
    { unfold vs, mean_variance_of_samples. unfold mean in Em. rewrite Em. cbn [obind n_mul n_div n_sub int_ops m_sumw2 m_count].
      rewrite int_result_ok by (unfold fits; nia). cbn [obind].
      rewrite int_div_ok; [| lia | rewrite Z.quot_div_nonneg by lia; unfold fits; lia]. cbn [obind]. rewrite Z.quot_div_nonneg by lia.
      rewrite int_result_ok by (unfold fits; nia). cbn [obind n_abs int_signed]. fold var. rewrite Z.abs_eq by (unfold var; lia).
      apply int_result_ok. unfold fits, var. nia. }
    assert (V0 : 0 <= var <= int_max o) by (unfold var; assert (0 <= q * q) by apply Z.square_nonneg; lia).
    exists q, var. split; [exact Em|]. split; [exact Ev|]. split.
    { unfold vm, mean_variance_of_mean. unfold vs in Ev. rewrite Ev. cbn [obind n_div int_ops m_count].
      assert (Hvn : 0 <= var / n <= var) by (split; [apply Z.div_pos; lia | apply Z.div_le_upper_bound; [lia|]; clear - V0 Hn0; nia]).
      clearbody var. rewrite int_div_ok; [| lia | rewrite Z.quot_div_nonneg by lia; unfold fits; lia].
      rewrite Z.quot_div_nonneg by lia. reflexivity. }
    rewrite Hv, Hm. pose proof (IZR_lt _ _ Q1) as R1. rewrite abs_IZR, minus_IZR, mult_IZR in R1. set (nr := IZR n) in *.
    pose proof (IZR_le _ _ Q2) as R2. rewrite mult_IZR, !abs_IZR in R2. pose proof (IZR_le _ _ Q3) as R3. rewrite mult_IZR in R3. fold nr in R2.
    set (mu := (IZR S / nr)%R). assert (ES : IZR S = (nr * mu)%R) by (unfold mu; field; lra).
    assert (R1' : (Rabs (IZR q - mu) < 1)%R).
    { rewrite ES in R1. replace (nr * mu - nr * IZR q)%R with (nr * (mu - IZR q))%R in R1 by ring. rewrite Rabs_mult, (Rabs_pos_eq nr), (Rabs_minus_sym mu) in R1 by lra. nra. }
    assert (R2' : (Rabs (IZR q) <= Rabs mu)%R).
    { rewrite ES, Rabs_mult, (Rabs_pos_eq nr) in R2 by lra. nra. }
    assert (R3' : (0 <= IZR q * mu)%R) by (rewrite ES in R3; nra).
    split; [exact R2'|]. split; [exact R3'|]. split; [exact R1'|]. split; [unfold var; lia|].
    assert (E1 : (IZR S2 / nr - 1 < IZR (S2 / n) <= IZR S2 / nr)%R).
    { pose proof (Z.div_mod S2 n ltac:(lia)) as Hd. pose proof (Z.mod_pos_bound S2 n Hn0) as Hr.
      pose proof (f_equal IZR Hd) as Hd'. rewrite plus_IZR, mult_IZR in Hd'. fold nr in Hd'.
      pose proof (IZR_le _ _ (proj1 Hr)) as Hr1. pose proof (IZR_lt _ _ (proj2 Hr)) as Hr2. fold nr in Hr2.
      rewrite Hd'. replace ((nr * IZR (S2 / n) + IZR (S2 mod n)) / nr)%R with (IZR (S2 / n) + IZR (S2 mod n) / nr)%R by (field; lra).
      assert (0 <= IZR (S2 mod n) / nr < 1)%R; [|lra]. split; [apply Rmult_le_pos; [lra | left; now apply Rinv_0_lt_compat]|].
      apply Rmult_lt_reg_r with nr; [lra|]. unfold Rdiv. rewrite Rmult_assoc, Rinv_l by lra. lra. }
    unfold var. rewrite minus_IZR, mult_IZR. split.
    + assert (IZR q * IZR q <= mu ^ 2)%R; [|lra].
      assert (H2 : (Rabs (IZR q) * Rabs (IZR q) <= Rabs mu * Rabs mu)%R) by (apply Rmult_le_compat; auto using Rabs_pos).
      rewrite <- !Rabs_mult, (Rabs_pos_eq (IZR q * IZR q)), (Rabs_pos_eq (mu * mu)) in H2 by apply Rle_0_sqr. lra.
    + assert (mu ^ 2 - IZR q * IZR q <= 2 * Rabs mu)%R; [|lra].
      replace (mu ^ 2 - IZR q * IZR q)%R with ((mu - IZR q) * (mu + IZR q))%R by ring.
      eapply Rle_trans; [apply Rle_abs|]. rewrite Rabs_mult, Rabs_minus_sym.
      assert (Rabs (mu + IZR q) <= 2 * Rabs mu)%R by (eapply Rle_trans; [apply Rabs_triang | lra]).
      pose proof (Rabs_pos (mu + IZR q)). pose proof (Rabs_pos (IZR q - mu)). nra.
Qed.
Print Assumptions C60_integer_output.

(** Mean<i32, i64, u32> of -3, 8 and 12: mean 17/3 rounded to 5, variance 72 - 25 = 47
    (the true one is 40.2), variance of the mean 47 / 3 rounded to 15. *)
Example C60_integer_output_nonvacuous : forall B : Build,
  let m := mkMean 17 217 3 in
  mean_new (int_ops (signed 32)) (int_ops (unsigned 32)) [-3; 8; 12] = Val m
  /\ mean_mean (int_ops (signed 64)) (fun z => z) (fun z => z) m = Val 5
  /\ @mean_variance_of_samples _ _ _ (int_ops (signed 64)) (int_signed (signed 64)) (fun z => z) (fun z => z) m = Val 47
  /\ @mean_variance_of_mean _ _ _ (int_ops (signed 64)) (int_signed (signed 64)) (fun z => z) (fun z => z) m = Val 15
  /\ primitive_int (signed 32) /\ primitive_int (unsigned 32) /\ primitive_int (signed 64)
  /\ (forall z, fits (signed 32) z -> fits (signed 64) z) /\ (forall z, fits (unsigned 32) z -> fits (signed 64) z)
  /\ (forall x, In x [-3; 8; 12] -> fits (signed 32) x) /\ Zsum (squares [-3; 8; 12]) <= int_max (signed 32).
Proof.
  intros B m. split; [reflexivity|]. split; [reflexivity|]. split; [reflexivity|]. split; [reflexivity|].
  split; [exists 32; split; [lia | tauto]|]. split; [exists 32; split; [lia | tauto]|]. split; [exists 64; split; [lia | tauto]|].
  unfold fits. cbn [int_min int_max signed unsigned].
  change (2 ^ (32 - 1)) with 2147483648. change (2 ^ 32) with 4294967296. change (2 ^ (64 - 1)) with 9223372036854775808.
  split; [lia|]. split; [lia|]. split; [|vm_compute; discriminate]. intros x [<-|[<-|[<-|[]]]]; lia.
Qed.
