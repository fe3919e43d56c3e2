(** * Property theorems: bin statistics over floats (C59). *)
From Coq Require Import List ZArith NArith Bool Lia Reals Lra ZifyN ZifyNat.
From Flocq Require Import Core IEEE754.BinarySingleNaN.
From Verif Require Import Base BaseFacts Num Float Spec FloatFacts FloatSpec FloatUniform FloatApprox Value ValueFloat ExactSpec PropValue.
Import ListNotations.
Open Scope R_scope.

Section Flt.
Context (prec emax : Z) (P : Prec_gt_0 prec) (E : Prec_lt_emax prec emax) {Bd : Build}.
Notation flt := (binary_float prec emax).
Notation ops := (float_ops prec emax P E).
Notation u := (unit_roundoff prec).
Notation tiny := (smallest_normal emax).
Notation zero := (B754_zero false : flt).
Notation plus := (fun a b : flt => Bplus mode_NE a b).
Notation times := (fun a b : flt => Bmult mode_NE a b).

(** Sums in filling order. *)
Definition fsum {X} (f : X -> flt) (xs : list X) : flt := fold_left (fun a x => Bplus mode_NE a (f x)) xs (zero).

Lemma fsum_snoc {X} (f : X -> flt) xs x : fsum f (xs ++ [x]) = Bplus mode_NE (fsum f xs) (f x).
Proof. unfold fsum. rewrite fold_left_app. reflexivity. Qed.

Lemma sumR_snoc {X} (f : X -> R) xs x : sumR (map f (xs ++ [x])) = sumR (map f xs) + f x.
Proof. rewrite map_app, sumR_app. unfold sumR. cbn. lra. Qed.

Lemma sumR_affine' {X} (f : X -> R) c l : sumR (map (fun x => f x + c) l) = sumR (map f l) + INR (length l) * c.
Proof.
  unfold sumR. induction l as [|x l IH]; cbn [map fold_right length]; [cbn; lra|].
  rewrite IH, S_INR. lra.
Qed.

Lemma fsum_finite {X} (f : X -> flt) xs : is_finite (fsum f xs) = true -> forall x, In x xs -> is_finite (f x) = true.
Proof.
  induction xs as [|x xs IH] using rev_ind; intros Hf y Hy; [destruct Hy|]. rewrite fsum_snoc in Hf.
  destruct (add_finite _ _ _ _ _ _ Hf) as [F1 [F2 _]]. apply in_app_or in Hy as [Hy|[<-|[]]]; [apply IH; assumption | exact F2].
Qed.

Lemma near_fsum {X} (f : X -> flt) (V M : X -> R) j xs : is_finite (fsum f xs) = true ->
  (forall x, In x xs -> is_finite (f x) = true -> near u j (B2R (f x)) (V x) (M x)) ->
  near u (length xs + j) (B2R (fsum f xs)) (sumR (map V xs)) (sumR (map M xs)).
Proof.
  induction xs as [|x xs IH] using rev_ind; intros Hf Hn.
  - cbn. unfold sumR. cbn. split; [|rewrite Rabs_R0; lra]. rewrite Rminus_0_r, Rabs_R0. lra.
  - rewrite fsum_snoc in *. destruct (add_finite _ _ _ _ _ _ Hf) as [F1 [F2 _]].
    rewrite !sumR_snoc, app_length. cbn [length].
    apply (near_mono u (u_nonneg prec) (S (Nat.max (length xs + j) j)) _ (sumR (map M xs) + M x)); [lia | lra |].
    apply near_Bplus; [exact Hf | | apply Hn; [apply in_or_app; right; left; reflexivity | exact F2]].
    apply IH; [exact F1|]. intros y Hy. apply Hn. apply in_or_app. left. exact Hy.
Qed.

(** Sums of non-negative floats: relative accuracy, both ways. *)
Lemma fsum_positive {X} (f : X -> flt) xs : u <= / 4 -> is_finite (fsum f xs) = true -> (forall x, In x xs -> 0 <= B2R (f x)) ->
  sumR (map (fun x => B2R (f x)) xs) <= (1 + u) ^ (2 * length xs) * B2R (fsum f xs)
  /\ B2R (fsum f xs) <= (1 + u) ^ (2 * length xs) * sumR (map (fun x => B2R (f x)) xs)
  /\ 0 <= B2R (fsum f xs) /\ 0 <= sumR (map (fun x => B2R (f x)) xs).
Proof.
  intros Hu. pose proof (u_nonneg prec) as U0.
  induction xs as [|x xs IH] using rev_ind; intros Hf Hpos; [unfold fsum, sumR; cbn; lra|].
  rewrite fsum_snoc in *. destruct (add_finite _ _ _ _ _ _ Hf) as [F1 [F2 HR]].
  destruct (IH F1 (fun y Hy => Hpos y (in_or_app _ _ _ (or_introl Hy)))) as [I1 [I2 [I3 I4]]].
  assert (Hx : 0 <= B2R (f x)) by (apply Hpos, in_or_app; right; left; reflexivity).
  pose proof (rnd_add_rel prec emax P (B2R (fsum f xs)) (B2R (f x)) (generic_format_B2R _ _ _) (generic_format_B2R _ _ _)) as Hr.
  rewrite <- HR in Hr. rewrite sumR_snoc, app_length. cbn [length].
  replace (2 * (length xs + 1))%nat with (2 * length xs + 2)%nat by lia. rewrite pow_add.
  fold (unit_roundoff prec) in Hr.
  pose proof (pow1 u U0 (2 * length xs)) as Hq. set (q := (1 + u) ^ (2 * length xs)) in *.
  set (z := B2R (Bplus mode_NE (fsum f xs) (f x))) in *. set (s := B2R (fsum f xs)) in *. set (y := B2R (f x)) in *.
  set (S' := sumR (map (fun x0 => B2R (f x0)) xs)) in *.
  rewrite (Rabs_pos_eq (s + y)) in Hr by lra. apply Rabs_le_inv in Hr. destruct Hr as [Hr1 Hr2].
  cbn [pow]. rewrite Rmult_1_r. set (v := u) in *.
  assert (Hz1 : (s + y) * (1 - v) <= z) by lra. assert (Hz2 : z <= (s + y) * (1 + v)) by lra.
  assert (Hzy : s + y <= (1 + v) * (1 + v) * z).
  { apply Rle_trans with ((1 + v) * (1 + v) * ((s + y) * (1 - v))); [|apply Rmult_le_compat_l; [nra | exact Hz1]].
    replace ((1 + v) * (1 + v) * ((s + y) * (1 - v))) with ((s + y) * ((1 + v) * (1 - v * v))) by ring.
    rewrite <- (Rmult_1_r (s + y)) at 1. apply Rmult_le_compat_l; [lra|]. nra. }
  assert (Hz0 : 0 <= z) by (apply Rle_trans with ((s + y) * (1 - v)); [apply Rmult_le_pos; lra | exact Hz1]).
  split; [|split; [|split; [exact Hz0 | lra]]].
  - apply Rle_trans with (q * (s + y)).
    + assert (y <= q * y) by (rewrite <- (Rmult_1_l y) at 1; apply Rmult_le_compat_r; lra). lra.
    + rewrite Rmult_assoc. apply Rmult_le_compat_l; [lra | exact Hzy].
  - apply Rle_trans with ((s + y) * (1 + v)); [exact Hz2|].
    assert (s + y <= q * (S' + y)) by (assert (y <= q * y) by (rewrite <- (Rmult_1_l y) at 1; apply Rmult_le_compat_r; lra); lra).
    apply Rle_trans with (q * (S' + y) * ((1 + v) * (1 + v))); [apply Rmult_le_compat; nra | right; ring].
Qed.

(** ** What the calls leave in the bin *)
Definition fw (c : weight_call flt) : flt := match c with Unit => Bone | Weight w => w end.
Definition fw2 (c : weight_call flt) : flt := match c with Unit => Bone | Weight w => Bmult mode_NE w w end.

Lemma sum_calls calls : foldo (sum_call ops) calls (sum_new ops) = Val (mkSum (fsum fw calls)).
Proof.
  unfold fsum, sum_new. cbn [n_zero float_ops]. generalize (zero) as a. induction calls as [|c calls IH]; intros a; [reflexivity|].
  cbn [foldo fold_left]. destruct c as [|w]; cbn [sum_call]; unfold sum_fill, sum_fill_with;
    cbn [fill_v fill_with_v num_fill num_fill_with n_add n_one float_ops obind s_sum fw]; apply IH.
Qed.
Lemma weightedsum_calls calls :
  foldo (weightedsum_call ops) calls (weightedsum_new ops) = Val (mkWeightedSum (fsum fw calls) (fsum fw2 calls)).
Proof.
  unfold fsum, weightedsum_new. cbn [n_zero float_ops]. generalize (zero) at 1 3 as a. generalize (zero) as b.
  induction calls as [|c calls IH]; intros b a; [reflexivity|].
  cbn [foldo fold_left]. destruct c as [|w]; cbn [weightedsum_call]; unfold weightedsum_fill, weightedsum_fill_with;
    cbn [n_add n_mul n_one float_ops obind ws_sumw ws_sumw2 fw fw2]; apply IH.
Qed.

Lemma count_fill {B : Build} (t : int_type) : primitive_int t -> forall c, (0 <= c)%Z -> fits t (c + 1) -> @n_add Z (int_ops t) c (@n_one Z (int_ops t)) = Val (c + 1)%Z.
Proof.
  intros _ c Hc Hf. cbn. unfold int_result. replace (in_range t (c + 1)) with true; [reflexivity|].
  symmetry. unfold in_range, fits in *. lia.
Qed.

Lemma mean_calls {B : Build} (t : int_type) xs : primitive_int t -> fits t (Z.of_nat (length xs)) ->
  mean_new ops (int_ops t) xs = Val (mkMean (fsum (fun x => x) xs) (fsum (fun x => Bmult mode_NE x x) xs) (Z.of_nat (length xs))).
Proof.
  intros Ht. induction xs as [|x xs IH] using rev_ind; intros Hf; [reflexivity|].
  rewrite app_length in *. cbn [length] in *. replace (Z.of_nat (length xs + 1)) with (Z.of_nat (length xs) + 1)%Z in * by lia.
  assert (Hf' : fits t (Z.of_nat (length xs))).
  { destruct Ht as [w [Hw [-> | ->]]]; unfold fits, signed, unsigned in *; cbn in *;
      pose proof (Z.pow_nonneg 2 (w - 1) ltac:(lia)); lia. }
  unfold mean_new in *. rewrite foldo_app, (IH Hf'). cbn [obind foldo]. unfold mean_fill_with.
  cbn [m_sumw m_sumw2 m_count n_add n_mul float_ops obind].
  rewrite (count_fill t Ht) by (lia || exact Hf). cbn [obind]. rewrite !fsum_snoc. reflexivity.
Qed.

Lemma weightedmean_calls {B : Build} (t : int_type) (xs : list (flt * flt)) : primitive_int t -> fits t (Z.of_nat (length xs)) ->
  weightedmean_new ops (int_ops t) xs =
  Val (mkWeightedMean (fsum (fun p => Bmult mode_NE (fst p) (snd p)) xs)
        (fsum (fun p => Bmult mode_NE (Bmult mode_NE (fst p) (fst p)) (snd p)) xs)
        (fsum snd xs) (fsum (fun p => Bmult mode_NE (snd p) (snd p)) xs) (Z.of_nat (length xs))).
Proof.
  intros Ht. induction xs as [|x xs IH] using rev_ind; intros Hf; [reflexivity|].
  rewrite app_length in *. cbn [length] in *. replace (Z.of_nat (length xs + 1)) with (Z.of_nat (length xs) + 1)%Z in * by lia.
  assert (Hf' : fits t (Z.of_nat (length xs))).
  { destruct Ht as [w [Hw [-> | ->]]]; unfold fits, signed, unsigned in *; cbn in *;
      pose proof (Z.pow_nonneg 2 (w - 1) ltac:(lia)); lia. }
  unfold weightedmean_new in *. rewrite foldo_app, (IH Hf'). cbn [obind foldo]. unfold weightedmean_fill.
  cbn [wm_sumwt wm_sumwt2 wm_sumw wm_sumw2 wm_count n_add n_mul float_ops obind].
  rewrite (count_fill t Ht) by (lia || exact Hf). cbn [obind]. rewrite !fsum_snoc. reflexivity.
Qed.

(** ** Signs and NaN *)
Lemma plus_nonneg (x y : flt) : is_nan x = false -> is_nan y = false -> Bsign x = false -> Bsign y = false ->
  is_nan (Bplus mode_NE x y) = false /\ Bsign (Bplus mode_NE x y) = false.
Proof.
  intros Nx Ny Sx Sy. destruct (is_finite x) eqn:Fx; [destruct (is_finite y) eqn:Fy|].
  - pose proof (Bplus_correct prec emax P E mode_NE x y Fx Fy) as H. rewrite Sx, Sy in H.
    assert (Hx : 0 <= B2R x) by (destruct x as [[]|[]| |[] m e Hb]; try discriminate; cbn [B2R]; [lra | apply F2R_ge_0; cbn; lia]).
    assert (Hy : 0 <= B2R y) by (destruct y as [[]|[]| |[] m e Hb]; try discriminate; cbn [B2R]; [lra | apply F2R_ge_0; cbn; lia]).
    destruct (Rlt_bool _ _) in H.
    + destruct H as [_ [HF HS]]. split; [destruct (Bplus mode_NE x y); try reflexivity; discriminate|]. rewrite HS.
      destruct (Rcompare_spec (B2R x + B2R y) 0); [lra | reflexivity | reflexivity].
    + destruct H as [H _]. destruct (Bplus mode_NE x y) as [s|s| |s m e Hb]; cbn in H; try discriminate H. injection H as ->. split; reflexivity.
  - destruct y as [[]|[]| |[]]; try discriminate; destruct x as [[]|[]| |[]]; try discriminate; split; reflexivity.
  - destruct x as [[]|[]| |[]]; try discriminate; destruct y as [[]|[]| |[]]; try discriminate; split; reflexivity.
Qed.
Lemma plus_nan_l (y : flt) : Bplus mode_NE (B754_nan : flt) y = B754_nan.
Proof. destruct y; reflexivity. Qed.
Lemma plus_nan_r (x : flt) : Bplus mode_NE x (B754_nan : flt) = B754_nan.
Proof. destruct x; reflexivity. Qed.
Lemma square_nonneg (w : flt) : is_nan w = false -> is_nan (Bmult mode_NE w w) = false /\ Bsign (Bmult mode_NE w w) = false.
Proof.
  intros Nw. destruct w as [s|s| |s m e Hb]; try discriminate; [destruct s; split; reflexivity..|].
  pose proof (Bmult_correct prec emax P E mode_NE (B754_finite s m e Hb) (B754_finite s m e Hb)) as H.
  destruct (Rlt_bool _ _) in H.
  - destruct H as [_ [HF HS]]. cbn [is_finite andb] in HF.
    assert (Nn : is_nan (Bmult mode_NE (B754_finite s m e Hb) (B754_finite s m e Hb)) = false)
      by (destruct (Bmult mode_NE _ _); try reflexivity; discriminate).
    split; [exact Nn|]. rewrite (HS Nn). destruct s; reflexivity.
  - cbn [Bsign] in H. rewrite xorb_nilpotent in H. destruct (Bmult mode_NE _ _) as [s'|s'| |s' m' e' Hb']; cbn in H; try discriminate H.
    injection H as ->. split; reflexivity.
Qed.

Lemma fsum_nonneg {X} (f : X -> flt) xs : (forall x, In x xs -> is_nan (f x) = false -> Bsign (f x) = false) ->
  (is_nan (fsum f xs) = true <-> exists x, In x xs /\ is_nan (f x) = true)
  /\ (is_nan (fsum f xs) = false -> Bsign (fsum f xs) = false).
Proof.
  induction xs as [|x xs IH] using rev_ind; intros Hs.
  - cbn. split; [split; [discriminate | intros [x [[] _]]] | reflexivity].
  - rewrite fsum_snoc. destruct (IH (fun y Hy => Hs y (in_or_app _ _ _ (or_introl Hy)))) as [I1 I2].
    assert (Hx : is_nan (f x) = false -> Bsign (f x) = false) by (apply Hs, in_or_app; right; left; reflexivity).
    destruct (is_nan (fsum f xs)) eqn:N1.
    + assert (Hz : fsum f xs = B754_nan) by (destruct (fsum f xs); try discriminate; reflexivity). rewrite Hz, plus_nan_l.
      split; [|discriminate]. split; [|reflexivity]. intros _. destruct (proj1 I1 eq_refl) as [y [Hy Ny]].
      exists y. split; [apply in_or_app; left|]; assumption.
    + destruct (is_nan (f x)) eqn:N2.
      * assert (Hz : f x = B754_nan) by (destruct (f x); try discriminate; reflexivity). rewrite Hz, plus_nan_r.
        split; [|discriminate]. split; [|reflexivity]. intros _. exists x. split; [apply in_or_app; right; left; reflexivity | exact N2].
      * destruct (plus_nonneg _ _ N1 N2 (I2 eq_refl) (Hx eq_refl)) as [Q1 Q2]. rewrite Q1. split; [|intros _; exact Q2].
        split; [discriminate|]. intros [y [Hy Ny]]. apply in_app_or in Hy as [Hy|[<-|[]]]; [|congruence].
        apply I1. exists y. split; assumption.
Qed.

Lemma sqrt_nan (x : flt) : is_nan (Bsqrt mode_NE x) = true <-> is_nan x = true \/ (Bsign x = true /\ x <> B754_zero true).
Proof.
  destruct x as [s|s| |s m e Hb].
  - cbn. split; [discriminate|]. intros [H|[-> H]]; [discriminate | congruence].
  - destruct s; cbn; split; try discriminate; try reflexivity.
    + intros _. right. split; [reflexivity | discriminate].
    + intros [H|[H _]]; discriminate.
  - cbn. split; [left; reflexivity | reflexivity].
  - pose proof (Bsqrt_correct prec emax P E mode_NE (B754_finite s m e Hb)) as [_ [H _]]. destruct s.
    + cbn. split; [right; split; [reflexivity | discriminate] | reflexivity].
    + split; [|intros [H'|[H' _]]; discriminate]. intros Hn. destruct (Bsqrt mode_NE _); discriminate.
Qed.
End Flt.

(** ** C59: sums *)

(** [Sum]: never panics; a finite content is the sum of the weights up to one
    rounding per call; the standard deviation is NaN exactly for a NaN or
    negative content. *)
Theorem C59_sum : forall (B : Build) (prec emax : Z) (P : Prec_gt_0 prec) (E : Prec_lt_emax prec emax)
  (calls : list (weight_call (binary_float prec emax))),
  let n := length calls in let u := unit_roundoff prec in
  exists s, foldo (sum_call (float_ops prec emax P E)) calls (sum_new (float_ops prec emax P E)) = Val s
  /\ (is_finite (sum_get s) = true ->
      Rabs (B2R (sum_get s) - sumR (map (weight_of B2R) calls))
        <= ((1 + u) ^ n - 1) * sumR (map (fun c => Rabs (weight_of B2R c)) calls))
  /\ (is_nan (@sum_standard_deviation _ _ (float_sqrt prec emax P E) (fun x => x) s) = true
      <-> is_nan (sum_get s) = true \/ flt_lt (sum_get s) (B754_zero false)).
Proof.
  intros B prec emax P E calls n u. eexists. split; [apply sum_calls|]. unfold sum_get, sum_standard_deviation, sum_variance. cbn [s_sum n_sqrt float_sqrt].
  split.
  - intros Hf. pose proof (near_fsum prec emax P E (fw prec emax P E) (weight_of B2R) (fun c => Rabs (weight_of B2R c)) 0 calls Hf) as H.
    rewrite Nat.add_0_r in H. apply H. intros c _ _. destruct c as [|w]; cbn [fw weight_of].
    + rewrite Bone_correct. apply near_exact.
    + apply near_exact.
  - rewrite sqrt_nan. set (x := fsum _ _ _ _ _ _). unfold flt_lt. clearbody x.
    destruct x as [[]|[]| |[] m e Hb]; cbn; split; intros [H|H]; try discriminate H; auto; try (destruct H; congruence);
      right; (reflexivity || (split; [reflexivity | discriminate])).
Qed.
Print Assumptions C59_sum.

(** [WeightedSum]: the same for the content; a finite variance is the sum of the
    squared weights up to rounding; the variance is never negative, and it and
    the standard deviation are NaN exactly when a weight was NaN. *)
Theorem C59_weighted_sum : forall (B : Build) (prec emax : Z) (P : Prec_gt_0 prec) (E : Prec_lt_emax prec emax)
  (calls : list (weight_call (binary_float prec emax))),
  let n := length calls in let u := unit_roundoff prec in
  exists s, foldo (weightedsum_call (float_ops prec emax P E)) calls (weightedsum_new (float_ops prec emax P E)) = Val s
  /\ (is_finite (weightedsum_get s) = true ->
      Rabs (B2R (weightedsum_get s) - sumR (map (weight_of B2R) calls))
        <= ((1 + u) ^ n - 1) * sumR (map (fun c => Rabs (weight_of B2R c)) calls))
  /\ (is_finite (weightedsum_variance s) = true ->
      Rabs (B2R (weightedsum_variance s) - sumR (map (fun c => weight_of B2R c ^ 2) calls))
        <= ((1 + u) ^ (n + 1) - 1) * (sumR (map (fun c => weight_of B2R c ^ 2) calls) + INR n * smallest_normal emax))
  /\ (is_nan (weightedsum_variance s) = true <-> exists w, In (Weight w) calls /\ is_nan w = true)
  /\ (is_nan (weightedsum_variance s) = false -> Bsign (weightedsum_variance s) = false)
  /\ (is_nan (@weightedsum_standard_deviation _ _ (float_sqrt prec emax P E) (fun x => x) s) = true
      <-> exists w, In (Weight w) calls /\ is_nan w = true).
Proof.
  intros B prec emax P E calls n u. eexists. split; [apply weightedsum_calls|].
  unfold weightedsum_get, weightedsum_standard_deviation, weightedsum_variance. cbn [ws_sumw ws_sumw2 n_sqrt float_sqrt].
  assert (Hs : forall c, In c calls -> is_nan (fw2 prec emax P E c) = false -> Bsign (fw2 prec emax P E c) = false).
  { intros c _ Hn. destruct c as [|w]; cbn [fw2] in *; [apply Bsign_Bone|].
    apply square_nonneg. destruct w; try reflexivity; discriminate Hn. }
  destruct (fsum_nonneg prec emax P E (fw2 prec emax P E) calls Hs) as [N1 N2].
  assert (N3 : is_nan (fsum prec emax P E (fw2 prec emax P E) calls) = true <-> exists w, In (Weight w) calls /\ is_nan w = true).
  { rewrite N1. split.
    - intros [c [Hc Hn]]. destruct c as [|w]; cbn [fw2] in Hn.
      + pose proof (is_finite_Bone prec emax P E) as Hf1. destruct (Bone : binary_float prec emax); discriminate.
      + exists w. split; [exact Hc|]. destruct (is_nan w) eqn:Nw; [reflexivity|]. rewrite (proj1 (square_nonneg prec emax P E w Nw)) in Hn. discriminate.
    - intros [w [Hc Hn]]. exists (Weight w). split; [exact Hc|]. cbn [fw2]. destruct w; try discriminate. reflexivity. }
  split; [|split; [|split; [exact N3 | split; [exact N2|]]]].
  - intros Hf. pose proof (near_fsum prec emax P E (fw prec emax P E) (weight_of B2R) (fun c => Rabs (weight_of B2R c)) 0 calls Hf) as H.
    rewrite Nat.add_0_r in H. apply H. intros c _ _. destruct c as [|w]; cbn [fw weight_of].
    + rewrite Bone_correct. apply near_exact.
    + apply near_exact.
  - intros Hf. pose proof (near_fsum prec emax P E (fw2 prec emax P E) (fun c => weight_of B2R c ^ 2)
       (fun c => weight_of B2R c ^ 2 + smallest_normal emax) 1 calls Hf) as H.
    rewrite (sumR_affine' _ (smallest_normal emax)) in H. fold n u in H. apply H. intros c _ Hc. pose proof (tiny_nonneg emax) as Ht.
    pose proof (u_nonneg prec) as Hu.
    destruct c as [|w]; cbn [fw2 weight_of] in *.
    + rewrite Bone_correct. apply (near_mono _ Hu 0 _ (Rabs 1)); [lia | rewrite Rabs_R1; lra |]. replace (1 ^ 2) with 1 by ring. apply near_exact.
    + replace (B2R w ^ 2) with (B2R w * B2R w) by ring.
      pose proof (near_Bmult prec emax P E 0 0 w w _ _ _ _ Hc (near_exact _ _) (near_exact _ _)) as Hm.
      rewrite <- Rabs_mult, (Rabs_pos_eq (B2R w * B2R w)) in Hm by apply Rle_0_sqr. exact Hm.
  - rewrite sqrt_nan, <- N3. split; [|left; assumption]. intros [H|[H1 H2]]; [exact H|].
    destruct (is_nan _) eqn:Nn; [reflexivity|]. rewrite (N2 eq_refl) in H1. discriminate.
Qed.
Print Assumptions C59_weighted_sum.

(** ** C59: means *)

(** Mean absolute value and mean square of a sample: the scale of the errors. *)
Definition mean_abs (xs : list R) : R := sumR (map Rabs xs) / INR (length xs).
Definition mean_square (xs : list R) : R := sumR (map (fun x => x ^ 2) xs) / INR (length xs).

(** [Mean]: filling panics only if the sample count overflows its type; every
    finite statistic is the textbook one up to the stated rounding error; the variance
    is never negative, and the standard deviation is the square root of the
    variance, rounded. *)
Theorem C59_mean : forall (prec emax : Z) (P : Prec_gt_0 prec) (E : Prec_lt_emax prec emax) (B : Build) (t : int_type)
  (xs : list (binary_float prec emax)),
  primitive_int t -> fits t (Z.of_nat (length xs)) -> (1 <= Z.of_nat (length xs) <= 2 ^ prec)%Z ->
  let ops := float_ops prec emax P E in
  let n := length xs in let u := unit_roundoff prec in let tiny := smallest_normal emax in
  let sample := map B2R xs in
  let scale := mean_square sample + (mean_abs sample + tiny) ^ 2 + 3 * tiny in
  let value := fun x : binary_float prec emax => x in let count := float_of_count prec emax P E in
  exists m mean var varm,
     mean_new ops (int_ops t) xs = Val m
  /\ mean_num_samples m = Z.of_nat n
  /\ mean_mean ops value count m = Val mean
  /\ @mean_variance_of_samples _ _ _ ops (float_signed prec emax) value count m = Val var
  /\ @mean_variance_of_mean _ _ _ ops (float_signed prec emax) value count m = Val varm
  /\ (is_finite mean = true -> Rabs (B2R mean - sample_mean sample) <= ((1 + u) ^ (n + 1) - 1) * (mean_abs sample + tiny))
  /\ (is_finite var = true -> Rabs (B2R var - sample_variance sample) <= ((1 + u) ^ (2 * n + 4) - 1) * scale)
  /\ (is_finite varm = true ->
      Rabs (B2R varm - sample_variance sample / INR n) <= ((1 + u) ^ (2 * n + 5) - 1) * (scale / INR n + tiny))
  /\ (is_nan var = false -> Bsign var = false)
  /\ (is_finite var = true -> exists sd,
        @mean_standard_deviation_of_samples _ _ _ ops (float_signed prec emax) (float_sqrt prec emax P E) value count m = Val sd
        /\ is_finite sd = true
        /\ B2R sd = round radix2 (SpecFloat.fexp prec emax) (round_mode mode_NE) (sqrt (B2R var))).
Proof.
  intros prec emax P E B t xs Ht Hfit Hlen ops n u tiny sample scale value count.
  pose proof (u_nonneg prec) as Hu. pose proof (tiny_nonneg emax) as Htiny. fold u in Hu. fold tiny in Htiny.
  set (s1 := fsum prec emax P E (fun x => x) xs). set (s2 := fsum prec emax P E (fun x => Bmult mode_NE x x) xs).
  set (c := count (Z.of_nat n)). set (mu := Bdiv mode_NE s1 c). set (a := Bdiv mode_NE s2 c).
  set (d := Bminus mode_NE a (Bmult mode_NE mu mu)).
  exists (mkMean s1 s2 (Z.of_nat n)), mu, (Babs d), (Bdiv mode_NE (Babs d) c).
  assert (Hc : is_finite c = true /\ B2R c = INR n).
  { unfold c, count, float_of_count. destruct (float_of_N_exact prec emax P E (Z.to_N (Z.of_nat n))) as [H1 H2]; [lia|].
    split; [apply H2|]. rewrite H1. rewrite INR_IZR_INZ. f_equal. lia. }
  destruct Hc as [Fc Hc].
  assert (Hn : 0 < INR n) by (rewrite INR_IZR_INZ; apply IZR_lt; lia).
  assert (Hdiv : forall k x V M, is_finite (Bdiv mode_NE x c) = true -> near u k (B2R x) V M ->
            near u (S k) (B2R (Bdiv mode_NE x c)) (V / INR n) (M / INR n + tiny)).
  { intros k x V M Hf H. pose proof (near_Bdiv prec emax P E k 0 x c V (INR n) M Hf Fc H Hn) as HD.
    rewrite Nat.add_0_r in HD. apply HD; rewrite Hc; cbn; lra. }
  assert (Hlen' : length sample = n) by (unfold sample; apply map_length).
  assert (Hs1 : is_finite s1 = true -> near u n (B2R s1) (sumR sample) (sumR (map Rabs sample))).
  { intros Hf. pose proof (near_fsum prec emax P E (fun x => x) B2R (fun x => Rabs (B2R x)) 0 xs Hf (fun x _ _ => near_exact _ _)) as H.
    rewrite Nat.add_0_r in H. unfold sample. rewrite map_map. exact H. }
  assert (Hs2 : is_finite s2 = true -> near u (n + 1) (B2R s2) (sumR (map (fun x => x ^ 2) sample)) (sumR (map (fun x => x ^ 2) sample) + INR n * tiny)).
  { intros Hf. pose proof (near_fsum prec emax P E (fun x => Bmult mode_NE x x) (fun x => B2R x ^ 2) (fun x => B2R x ^ 2 + tiny) 1 xs Hf) as H.
    rewrite (sumR_affine' _ tiny) in H. unfold sample. rewrite !map_map. apply H. intros x _ Hx.
    replace (B2R x ^ 2) with (B2R x * B2R x) by ring.
    pose proof (near_Bmult prec emax P E 0 0 x x _ _ _ _ Hx (near_exact _ _) (near_exact _ _)) as Hm.
    rewrite <- Rabs_mult, (Rabs_pos_eq (B2R x * B2R x)) in Hm by apply Rle_0_sqr. exact Hm. }
  assert (Hmu : is_finite mu = true -> near u (S n) (B2R mu) (sample_mean sample) (mean_abs sample + tiny)).
  { intros Hf. destruct (div_finite prec emax P E s1 c Hf Fc) as [F1 _]. pose proof (Hdiv n s1 _ _ Hf (Hs1 F1)) as H.
    unfold sample_mean, mean_abs. rewrite Hlen'. exact H. }
  assert (Hd : is_finite d = true -> near u (2 * n + 4) (B2R d) (sample_variance sample) scale).
  { intros Hf. destruct (sub_finite prec emax P E _ _ Hf) as [Fa [Fm _]]. destruct (mul_finite prec emax P E _ _ Fm) as [Fmu _].
    destruct (div_finite prec emax P E s2 c Fa Fc) as [F2 _].
    pose proof (near_Bmult prec emax P E _ _ mu mu _ _ _ _ Fm (Hmu Fmu) (Hmu Fmu)) as HM.
    pose proof (Hdiv _ s2 _ _ Fa (Hs2 F2)) as HA.
    pose proof (near_Bminus prec emax P E _ _ a _ _ _ _ _ Hf HA HM) as HD.
    assert (Hne : sample <> []) by (intros H0; rewrite H0 in Hlen'; cbn in Hlen'; lia).
    pose proof (sample_variance_alt sample Hne) as Hv. rewrite Hlen' in Hv.
    replace (sumR (map (fun x => x ^ 2) sample) / INR n - sample_mean sample * sample_mean sample) with (sample_variance sample) in HD
      by (rewrite <- Hv; ring).
    apply (near_mono u Hu _ (2 * n + 4) _ scale) in HD; [exact HD | lia |].
    unfold scale, mean_square. rewrite Hlen'. right. fold tiny. field. lra. }
  assert (Habs : is_finite d = true -> near u (2 * n + 4) (B2R (Babs d)) (sample_variance sample) scale).
  { intros Hf. destruct (Hd Hf) as [H1 H2]. split; [|exact H2]. rewrite B2R_Babs.
    assert (Hne : sample <> []) by (intros H0; rewrite H0 in Hlen'; cbn in Hlen'; lia).
    rewrite <- (Rabs_pos_eq (sample_variance sample) (sample_variance_nonneg sample Hne)) at 1.
    eapply Rle_trans; [apply Rabs_triang_inv2 | exact H1]. }
  assert (Hfd : is_finite (Babs d) = true -> is_finite d = true) by (rewrite is_finite_Babs; auto).
  split; [apply mean_calls; assumption|]. split; [reflexivity|]. split; [reflexivity|]. split; [reflexivity|]. split; [reflexivity|].
  split; [intros Hf; destruct (Hmu Hf) as [H _]; replace (n + 1)%nat with (S n) by lia; exact H|].
  split; [intros Hf; destruct (Habs (Hfd Hf)) as [H _]; exact H|].
  split.
  { intros Hf. destruct (div_finite prec emax P E _ c Hf Fc) as [F1 _]. destruct (Hdiv _ _ _ _ Hf (Habs (Hfd F1))) as [H _].
    replace (2 * n + 5)%nat with (S (2 * n + 4)) by lia. exact H. }
  split; [intros _; destruct d; reflexivity|].
  intros Hf. exists (Bsqrt mode_NE (Babs d)). split; [reflexivity|].
  pose proof (Bsqrt_correct prec emax P E mode_NE (Babs d)) as [H1 [H2 _]]. split; [|exact H1].
  rewrite H2. destruct d; try discriminate Hf; reflexivity.
Qed.
Print Assumptions C59_mean.

Lemma fsum_no_overflow (prec emax : Z) (P : Prec_gt_0 prec) (E : Prec_lt_emax prec emax) {X} (f : X -> binary_float prec emax) xs :
  unit_roundoff prec <= / 4 ->
  (forall x, In x xs -> is_finite (f x) = true /\ 0 <= B2R (f x)) ->
  (1 + unit_roundoff prec) ^ (2 * length xs) * sumR (map (fun x => B2R (f x)) xs) < bpow radix2 emax ->
  is_finite (fsum prec emax P E f xs) = true.
Proof.
  intros Hu4. pose proof (u_nonneg prec) as Hu. induction xs as [|x xs IH] using rev_ind; intros Hx Hb; [reflexivity|].
  rewrite fsum_snoc. rewrite sumR_snoc, app_length in Hb. cbn [length] in Hb.
  assert (Hx' : forall y, In y xs -> is_finite (f y) = true /\ 0 <= B2R (f y)) by (intros y Hy; apply Hx, in_or_app; left; exact Hy).
  destruct (Hx x ltac:(apply in_or_app; right; left; reflexivity)) as [Fx Px].
  assert (S0 : 0 <= sumR (map (fun x => B2R (f x)) xs)).
  { apply sumR_nonneg. intros r Hr. apply in_map_iff in Hr as [y [<- Hy]]. apply Hx', Hy. }
  replace (2 * (length xs + 1))%nat with (2 * length xs + 2)%nat in Hb by lia. rewrite pow_add in Hb. cbn [pow] in Hb. rewrite Rmult_1_r in Hb.
  pose proof (pow1 _ Hu (2 * length xs)) as Hq. set (q := (1 + unit_roundoff prec) ^ (2 * length xs)) in *.
  set (T := sumR (map (fun x => B2R (f x)) xs)) in *. set (v := unit_roundoff prec) in *. set (y := B2R (f x)) in *.
  assert (Hq2 : 0 <= q * (T + y)) by (apply Rmult_le_pos; lra).
  assert (Hle : q * (T + y) * (1 + v) <= q * ((1 + v) * (1 + v)) * (T + y)).
  { replace (q * ((1 + v) * (1 + v)) * (T + y)) with (q * (T + y) * (1 + v) * (1 + v)) by ring.
    rewrite <- (Rmult_1_r (q * (T + y) * (1 + v))) at 1. apply Rmult_le_compat_l; [apply Rmult_le_pos; lra | lra]. }
  assert (Hle1 : q * (T + y) <= q * (T + y) * (1 + v)).
  { rewrite <- (Rmult_1_r (q * (T + y))) at 1. apply Rmult_le_compat_l; lra. }
  assert (HqT : q * T <= q * (T + y)) by (apply Rmult_le_compat_l; lra).
  assert (Fs : is_finite (fsum prec emax P E f xs) = true) by (apply IH; [exact Hx' | lra]).
  destruct (fsum_positive prec emax P E f xs Hu4 Fs (fun y Hy => proj2 (Hx' y Hy))) as [I1 [I2 [I3 I4]]]. fold v q T in I1, I2, I3, I4.
  pose proof (Bplus_correct prec emax P E mode_NE _ _ Fs Fx) as H. fold y in H. set (s := B2R (fsum prec emax P E f xs)) in *.
  pose proof (rnd_add_rel prec emax P s y (generic_format_B2R _ _ _) (generic_format_B2R _ _ _)) as Hr. fold (unit_roundoff prec) in Hr. fold v in Hr.
  rewrite (Rabs_pos_eq (s + y)) in Hr by lra. apply Rabs_le_inv in Hr.
  rewrite Rlt_bool_true in H; [apply H|].
  set (z := round radix2 (SpecFloat.fexp prec emax) (round_mode mode_NE) (s + y)) in *.
  assert (Hsy : s + y <= q * (T + y)).
  { assert (y <= q * y) by (rewrite <- (Rmult_1_l y) at 1; apply Rmult_le_compat_r; lra). lra. }
  assert (Hz : z <= q * (T + y) * (1 + v)) by (apply Rle_trans with ((s + y) * (1 + v)); [lra | apply Rmult_le_compat_r; lra]).
  assert (Hz0 : 0 <= z) by (apply Rle_trans with ((s + y) * (1 - v)); [apply Rmult_le_pos; lra | lra]).
  rewrite Rabs_pos_eq by exact Hz0. lra.
Qed.

(** [WeightedMean], for weights that are not negative with a positive total that
    does not overflow. *)
Theorem C59_weighted_mean : forall (prec emax : Z) (P : Prec_gt_0 prec) (E : Prec_lt_emax prec emax) (B : Build) (t : int_type)
  (xs : list (binary_float prec emax * binary_float prec emax)),
  covered_format prec emax -> primitive_int t -> fits t (Z.of_nat (length xs)) ->
  let ops := float_ops prec emax P E in
  let n := length xs in let u := unit_roundoff prec in let tiny := smallest_normal emax in
  let sample := map (fun p => (B2R (fst p), B2R (snd p))) xs in
  let W := total_weight sample in
  (forall p, In p xs -> is_finite (snd p) = true /\ 0 <= B2R (snd p)) -> 0 < W -> (1 + u) ^ (2 * n) * W < bpow radix2 emax ->
  let abs_sum := sumR (map (fun p => snd p * Rabs (fst p)) sample) + INR n * tiny in
  let square_sum := sumR (map (fun p => (fst p ^ 2 + tiny) * snd p) sample) + INR n * tiny in
  let mean_scale := abs_sum / W + tiny in
  let cross_scale := (2 * abs_sum + tiny) * mean_scale + tiny in
  let scale := mean_scale ^ 2 + (square_sum + cross_scale) / W + 2 * tiny in
  let value := fun x : binary_float prec emax => x in
  exists m mean var,
     weightedmean_new ops (int_ops t) xs = Val m
  /\ weightedmean_num_samples m = Z.of_nat n
  /\ weightedmean_mean ops value m = Val mean
  /\ weightedmean_variance_of_samples ops value m = Val var
  /\ (is_finite mean = true -> Rabs (B2R mean - weighted_mean sample) <= ((1 + u) ^ (3 * n + 2) - 1) * mean_scale)
  /\ (is_finite var = true -> Rabs (B2R var - weighted_variance sample) <= ((1 + u) ^ (6 * n + 9) - 1) * scale).
Proof.
  intros prec emax P E B t xs Hcf Ht Hfit ops n u tiny sample W Hpos HW Hover abs_sum square_sum mean_scale cross_scale scale value.
  pose proof (u_nonneg prec) as Hu. pose proof (tiny_nonneg emax) as Htiny. fold u in Hu. fold tiny in Htiny.
  assert (Hu4 : u <= / 4).
  { unfold u, unit_roundoff. change (/ 4) with (bpow radix2 (-2)). apply bpow_le. destruct Hcf. lia. }
  set (s1 := fsum prec emax P E (fun p => Bmult mode_NE (fst p) (snd p)) xs).
  set (s2 := fsum prec emax P E (fun p => Bmult mode_NE (Bmult mode_NE (fst p) (fst p)) (snd p)) xs).
  set (w := fsum prec emax P E snd xs).
  set (mu := Bdiv mode_NE s1 w).
  set (two := Bplus mode_NE (Bone : binary_float prec emax) Bone).
  set (d := Bminus mode_NE s2 (Bmult mode_NE (Bmult mode_NE two s1) mu)).
  set (v := Bplus mode_NE (Bmult mode_NE mu mu) (Bdiv mode_NE d w)).
  eexists. exists mu, v.
  assert (HWs : W = sumR (map (fun p => B2R (snd p)) xs)).
  { unfold W, total_weight, sample. rewrite map_map. reflexivity. }
  assert (Fw : is_finite w = true) by (apply fsum_no_overflow; [exact Hu4 | exact Hpos | fold u n; rewrite <- HWs; exact Hover]).
  destruct (fsum_positive prec emax P E snd xs Hu4 Fw (fun p Hp => proj2 (Hpos p Hp))) as [W1 [W2 _]].
  rewrite <- HWs in W1, W2. fold u n w in W1, W2.
  assert (Hdiv : forall k x V M, is_finite (Bdiv mode_NE x w) = true -> near u k (B2R x) V M ->
            near u (S (k + 2 * n)) (B2R (Bdiv mode_NE x w)) (V / W) (M / W + tiny)).
  { intros k x V M Hf H. exact (near_Bdiv prec emax P E k (2 * n) x w V W M Hf Fw H HW W1 W2). }
  assert (Hs1 : is_finite s1 = true -> near u (n + 1) (B2R s1) (sumR (map (fun p => snd p * fst p) sample)) abs_sum).
  { intros Hf. pose proof (near_fsum prec emax P E (fun p => Bmult mode_NE (fst p) (snd p)) (fun p => B2R (snd p) * B2R (fst p))
      (fun p => B2R (snd p) * Rabs (B2R (fst p)) + tiny) 1 xs Hf) as H.
    rewrite (sumR_affine' _ tiny) in H. unfold abs_sum, sample. rewrite !map_map. apply H. intros p Hp Fp.
    pose proof (near_Bmult prec emax P E 0 0 (fst p) (snd p) _ _ _ _ Fp (near_exact _ _) (near_exact _ _)) as Hm.
    rewrite (Rabs_pos_eq (B2R (snd p))) in Hm by apply Hpos, Hp.
    rewrite (Rmult_comm (B2R (snd p)) (B2R (fst p))), (Rmult_comm (B2R (snd p)) (Rabs (B2R (fst p)))). exact Hm. }
  assert (Hs2 : is_finite s2 = true -> near u (n + 2) (B2R s2) (sumR (map (fun p => snd p * fst p ^ 2) sample)) square_sum).
  { intros Hf. pose proof (near_fsum prec emax P E (fun p => Bmult mode_NE (Bmult mode_NE (fst p) (fst p)) (snd p)) (fun p => B2R (snd p) * B2R (fst p) ^ 2)
      (fun p => (B2R (fst p) ^ 2 + tiny) * B2R (snd p) + tiny) 2 xs Hf) as H.
    rewrite (sumR_affine' _ tiny) in H. unfold square_sum, sample. rewrite !map_map. apply H. intros p Hp Fp.
    destruct (mul_finite prec emax P E _ _ Fp) as [Fx _].
    pose proof (near_Bmult prec emax P E 0 0 (fst p) (fst p) _ _ _ _ Fx (near_exact _ _) (near_exact _ _)) as Hm1.
    rewrite <- Rabs_mult, (Rabs_pos_eq (B2R (fst p) * B2R (fst p))) in Hm1 by apply Rle_0_sqr.
    pose proof (near_Bmult prec emax P E _ 0 _ (snd p) _ _ _ _ Fp Hm1 (near_exact _ _)) as Hm.
    rewrite (Rabs_pos_eq (B2R (snd p))) in Hm by apply Hpos, Hp. fold u tiny in Hm.
    replace (B2R (snd p) * B2R (fst p) ^ 2) with (B2R (fst p) * B2R (fst p) * B2R (snd p)) by ring.
    replace (B2R (fst p) ^ 2) with (B2R (fst p) * B2R (fst p)) by ring. exact Hm. }
  assert (Hmu : is_finite mu = true -> near u (3 * n + 2) (B2R mu) (weighted_mean sample) mean_scale).
  { intros Hf. destruct (div_finite prec emax P E s1 w Hf Fw) as [F1 _]. pose proof (Hdiv _ s1 _ _ Hf (Hs1 F1)) as H.
    replace (3 * n + 2)%nat with (S (n + 1 + 2 * n)) by lia. exact H. }
  assert (Htwo : near u 1 (B2R two) 2 2).
  { assert (Ftwo : is_finite two = true).
    { pose proof (Bplus_correct prec emax P E mode_NE Bone Bone (is_finite_Bone prec emax P E) (is_finite_Bone prec emax P E)) as H.
      rewrite Bone_correct in H. replace (1 + 1) with (bpow radix2 1) in H by (cbn; lra).
      destruct Hcf as [Hp He]. rewrite round_generic in H; [| apply valid_rnd_N | apply generic_format_bpow; unfold SpecFloat.fexp, SpecFloat.emin; lia].
      rewrite Rlt_bool_true in H; [apply H|]. rewrite Rabs_pos_eq by apply bpow_ge_0. apply bpow_lt. lia. }
    pose proof (near_Bplus prec emax P E 0 0 Bone Bone _ _ _ _ Ftwo (near_exact _ _) (near_exact _ _)) as H.
    rewrite Bone_correct, Rabs_R1 in H. fold two u in H. replace 2 with (1 + 1) by ring. exact H. }
  assert (Hvar : is_finite v = true -> near u (6 * n + 9) (B2R v) (weighted_variance sample) scale).
  { intros Hf. destruct (add_finite prec emax P E _ _ Hf) as [Fm [Fq _]]. destruct (mul_finite prec emax P E _ _ Fm) as [Fmu _].
    destruct (div_finite prec emax P E d w Fq Fw) as [Fd _]. destruct (sub_finite prec emax P E _ _ Fd) as [F2 [Fpp _]].
    destruct (mul_finite prec emax P E _ _ Fpp) as [Fp _]. destruct (mul_finite prec emax P E _ _ Fp) as [_ [F1 _]].
    pose proof (near_Bmult prec emax P E _ _ mu mu _ _ _ _ Fm (Hmu Fmu) (Hmu Fmu)) as HM.
    pose proof (near_Bmult prec emax P E _ _ two s1 _ _ _ _ Fp Htwo (Hs1 F1)) as HP.
    pose proof (near_Bmult prec emax P E _ _ _ mu _ _ _ _ Fpp HP (Hmu Fmu)) as HPP.
    pose proof (near_Bminus prec emax P E _ _ s2 _ _ _ _ _ Fd (Hs2 F2) HPP) as HD. fold d u tiny in HD.
    pose proof (Hdiv _ d _ _ Fq HD) as HQ.
    pose proof (near_Bplus prec emax P E _ _ _ _ _ _ _ _ Hf HM HQ) as HV. fold v u tiny in HV.
    assert (Hv : weighted_mean sample * weighted_mean sample
              + (sumR (map (fun p => snd p * fst p ^ 2) sample) - 2 * sumR (map (fun p => snd p * fst p) sample) * weighted_mean sample) / W
              = weighted_variance sample).
    { unfold weighted_variance. fold W. set (mm := weighted_mean sample).
      rewrite (sumR_ext (fun p => snd p * (fst p - mm) ^ 2) (fun p => (snd p * fst p ^ 2 + (-2 * mm) * (snd p * fst p)) + mm ^ 2 * snd p)) by (intros x; ring).
      rewrite (sumR_plus (fun p => snd p * fst p ^ 2 + (-2 * mm) * (snd p * fst p)) (fun p => mm ^ 2 * snd p)).
      rewrite (sumR_plus (fun p => snd p * fst p ^ 2) (fun p => (-2 * mm) * (snd p * fst p))).
      rewrite !sumR_scale_map. fold (total_weight sample). fold W. field. lra. }
    rewrite Hv in HV. apply (near_mono u Hu _ (6 * n + 9) _ scale) in HV; [exact HV | lia |].
    unfold scale, cross_scale. right. field. lra. }
  split; [apply weightedmean_calls; assumption|]. split; [reflexivity|]. split; [reflexivity|]. split; [reflexivity|].
  split; intros Hf; [destruct (Hmu Hf) as [H _] | destruct (Hvar Hf) as [H _]]; exact H.
Qed.
Print Assumptions C59_weighted_mean.

(** The sign of the variance of a [WeightedMean] is not guaranteed: a single sample 0.1
    with weight 0.1 (true variance 0) has a negative variance, and its standard
    deviation is NaN. *)
Theorem C59_weighted_mean_negative_variance_refuted : forall B : Build,
  let ops := float_ops 53 1024 _ _ in let value := fun x : f64 => x in
  let x := f64_quot 1 10 in
  exists m (var sd : f64),
     weightedmean_new ops (int_ops (unsigned 32)) [(x, x)] = Val m
  /\ weightedmean_variance_of_samples ops value m = Val var
  /\ flt_lt var (B754_zero false)
  /\ @weightedmean_standard_deviation_of_samples f64 f64 Z ops (float_sqrt 53 1024 _ _) value m = Val sd
  /\ is_nan sd = true.
Proof.
  intros B ops value x. do 3 eexists. split; [destruct B as [[] []]; reflexivity|]. split; [reflexivity|].
  split; [vm_compute; reflexivity|]. split; [reflexivity|]. vm_compute. reflexivity.
Qed.
Print Assumptions C59_weighted_mean_negative_variance_refuted.

(** The error scale of the [Mean] variance is the mean square, not the variance: the samples
    1e8 and 1e8 + 1 (variance 1/4) get variance zero. *)
Theorem C59_mean_cancellation_refuted : forall B : Build,
  let ops := float_ops 53 1024 _ _ in let value := fun x : f64 => x in let count := float_of_count 53 1024 _ _ in
  let xs := [f64_lit 100000000 0; f64_lit 100000001 0] in
  exists m (var : f64),
     mean_new ops (int_ops (unsigned 32)) xs = Val m
  /\ @mean_variance_of_samples f64 f64 Z ops (float_signed 53 1024) value count m = Val var
  /\ B2R var = 0 /\ sample_variance (map B2R xs) = / 4.
Proof.
  intros B ops value count xs. do 2 eexists. split; [destruct B as [[] []]; reflexivity|]. split; [reflexivity|].
  split.
  - match goal with |- B2R ?v = 0 => assert (H : B2SF v = SpecFloat.S754_zero false) by (vm_compute; reflexivity); destruct v; try discriminate H end.
    reflexivity.
  - assert (H1 : B2R (f64_lit 100000000 0) = 100000000).
    { rewrite <- SF2R_B2SF. replace (B2SF (f64_lit 100000000 0)) with (SpecFloat.S754_finite false (100000000 * 2 ^ 26)%positive (-26)) by (vm_compute; reflexivity).
      cbn [SF2R cond_Zopp]. unfold F2R. cbn. lra. }
    assert (H2 : B2R (f64_lit 100000001 0) = 100000001).
    { rewrite <- SF2R_B2SF. replace (B2SF (f64_lit 100000001 0)) with (SpecFloat.S754_finite false (100000001 * 2 ^ 26)%positive (-26)) by (vm_compute; reflexivity).
      cbn [SF2R cond_Zopp]. unfold F2R. cbn. lra. }
    unfold xs. cbn [map]. rewrite H1, H2. unfold sample_variance, sample_mean, sumR. cbn. lra.
Qed.
Print Assumptions C59_mean_cancellation_refuted.

(** Three samples 1, 2, 4 (weights 1, 1, 2) meet the hypotheses, with finite statistics. *)
Example C59_nonvacuous : forall B : Build,
  let ops := float_ops 53 1024 _ _ in let value := fun x : f64 => x in let count := float_of_count 53 1024 _ _ in
  let xs := [f64_lit 1 0; f64_lit 2 0; f64_lit 4 0] in
  let ws := [(f64_lit 1 0, f64_lit 1 0); (f64_lit 2 0, f64_lit 1 0); (f64_lit 4 0, f64_lit 2 0)] in
  let W := total_weight (map (fun p : f64 * f64 => (B2R (fst p), B2R (snd p))) ws) in
  covered_format 53 1024 /\ primitive_int (unsigned 32) /\ fits (unsigned 32) 3 /\ (1 <= 3 <= 2 ^ 53)%Z
  /\ (forall p, In p ws -> is_finite (snd p) = true /\ 0 <= B2R (snd p))
  /\ W = 4 /\ (1 + unit_roundoff 53) ^ 6 * W < bpow radix2 1024
  /\ (exists m (var : f64), mean_new ops (int_ops (unsigned 32)) xs = Val m
        /\ @mean_variance_of_samples f64 f64 Z ops (float_signed 53 1024) value count m = Val var /\ is_finite var = true)
  /\ (exists m (var : f64), weightedmean_new ops (int_ops (unsigned 32)) ws = Val m
        /\ @weightedmean_variance_of_samples f64 f64 Z ops value m = Val var /\ is_finite var = true).
Proof.
  intros B ops value count xs ws W.
  assert (H1 : B2R (f64_lit 1 0) = 1).
  { rewrite <- SF2R_B2SF. replace (B2SF (f64_lit 1 0)) with (SpecFloat.S754_finite false (2 ^ 52)%positive (-52)) by (vm_compute; reflexivity).
    cbn [SF2R cond_Zopp]. unfold F2R. cbn. lra. }
  assert (H2 : B2R (f64_lit 2 0) = 2).
  { rewrite <- SF2R_B2SF. replace (B2SF (f64_lit 2 0)) with (SpecFloat.S754_finite false (2 ^ 52)%positive (-51)) by (vm_compute; reflexivity).
    cbn [SF2R cond_Zopp]. unfold F2R. cbn. lra. }
  assert (HW : W = 4) by (unfold W, ws, total_weight, sumR; cbn [map fst snd fold_right]; rewrite H1, H2; lra).
  split; [exact f64_covered|]. split; [exists 32%Z; split; [lia | right; reflexivity]|]. split; [unfold fits; cbn; lia|]. split; [lia|].
  split.
  { intros p [<-|[<-|[<-|[]]]]; cbn [snd]; (split; [vm_compute; reflexivity|]); rewrite ?H1, ?H2; lra. }
  split; [exact HW|]. split.
  { rewrite HW. apply Rle_lt_trans with ((1 + 1) ^ 6 * 4).
    - apply Rmult_le_compat_r; [lra|]. apply pow_incr. pose proof (u_nonneg 53). split; [lra|]. apply Rplus_le_compat_l.
      unfold unit_roundoff. change 1 with (bpow radix2 0). apply bpow_le. lia.
    - replace ((1 + 1) ^ 6 * 4) with (bpow radix2 8) by (cbn; lra). apply bpow_lt. lia. }
  split; (do 2 eexists; split; [destruct B as [[] []]; reflexivity|]; split; [reflexivity|]; vm_compute; reflexivity).
Qed.
