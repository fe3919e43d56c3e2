(** * Property theorems: bin value types (C42-C44, C51). *)
From Coq Require Import List NArith ZArith Reals Lra Lia Bool Permutation.
From Verif Require Import Base BaseFacts Num Spec IntFacts Value ExactSpec.
Import ListNotations.
Open Scope R_scope.

Lemma real_ops_exact : exact_arithmetic real_ops (fun x => x).
Proof. constructor; cbn; try reflexivity; intros a b c [= <-]; reflexivity. Qed.

(** Machine integers are exact in builds with overflow checks. *)
Lemma int_ops_exact (B : Build) (t : int_type) : overflow_checks = true -> exact_arithmetic (int_ops t) IZR.
Proof.
  intros Hc. constructor; cbn; try reflexivity; intros a b c; unfold int_result; rewrite Hc;
    destruct (in_range t _); try discriminate; intros [= <-]; [apply plus_IZR | apply mult_IZR].
Qed.

Lemma sumR_app l l' : sumR (l ++ l') = sumR l + sumR l'.
Proof. unfold sumR. induction l as [|x l IH]; cbn [app fold_right]; lra. Qed.

(** ** C42 *)

(** A call on a bin of type [Sum] or [WeightedSum]: [fill()] or [fill_with(w)]. *)
Inductive weight_call (T : Type) : Type := Unit | Weight (w : T).
Arguments Unit {T}. Arguments Weight {T} w.

(** The weight of the call: 1 for [fill]. *)
Definition weight_of {T} (value : T -> R) (c : weight_call T) : R :=
  match c with Unit => 1 | Weight w => value w end.

Definition sum_call {T} (ops : NumOps T) (s : Sum T) (c : weight_call T) : outcome (Sum T) :=
  match c with Unit => sum_fill ops s | Weight w => sum_fill_with ops s w end.
Definition weightedsum_call {T} (ops : NumOps T) (s : WeightedSum T) (c : weight_call T) : outcome (WeightedSum T) :=
  match c with Unit => weightedsum_fill ops s | Weight w => weightedsum_fill_with ops s w end.

Theorem C42_sum :
  forall T (ops : NumOps T) (value : T -> R), exact_arithmetic ops value ->
  forall (calls : list (weight_call T)) (s : Sum T),
  foldo (sum_call ops) calls (sum_new ops) = Val s ->
  value (sum_get s) = sumR (map (weight_of value) calls)
  /\ value (sum_variance s) = sumR (map (weight_of value) calls).
Proof.
  intros T ops value [H0 H1 Hadd Hmul] calls s Hs. unfold sum_get, sum_variance.
  assert (Hgen : forall calls s0, foldo (sum_call ops) calls s0 = Val s ->
            value (s_sum s) = value (s_sum s0) + sumR (map (weight_of value) calls)).
  { clear calls Hs. induction calls as [|c calls IH]; intros s0 Hs; cbn [foldo] in Hs.
    - injection Hs as <-. unfold sumR. cbn. lra.
    - apply obind_val in Hs as [s1 [Hc Hs]]. rewrite (IH _ Hs). unfold sumR. cbn [map fold_right].
      destruct c as [|w]; cbn [sum_call] in Hc; unfold sum_fill, sum_fill_with in Hc;
        apply obind_val in Hc as [v [Hv Hc]]; injection Hc as <-; cbn in Hv |- *; apply Hadd in Hv; rewrite Hv, ?H1; lra. }
  rewrite (Hgen _ _ Hs). unfold sum_new. cbn [s_sum]. rewrite H0. split; lra.
Qed.
Print Assumptions C42_sum.

Theorem C42_weighted_sum :
  forall T (ops : NumOps T) (value : T -> R), exact_arithmetic ops value ->
  forall (calls : list (weight_call T)) (s : WeightedSum T),
  foldo (weightedsum_call ops) calls (weightedsum_new ops) = Val s ->
  value (weightedsum_get s) = sumR (map (weight_of value) calls)
  /\ value (weightedsum_variance s) = sumR (map (fun c => weight_of value c ^ 2) calls).
Proof.
  intros T ops value [H0 H1 Hadd Hmul] calls s Hs. unfold weightedsum_get, weightedsum_variance.
  assert (Hgen : forall calls s0, foldo (weightedsum_call ops) calls s0 = Val s ->
            value (ws_sumw s) = value (ws_sumw s0) + sumR (map (weight_of value) calls)
            /\ value (ws_sumw2 s) = value (ws_sumw2 s0) + sumR (map (fun c => weight_of value c ^ 2) calls)).
  { clear calls Hs. induction calls as [|c calls IH]; intros s0 Hs; cbn [foldo] in Hs.
    - injection Hs as <-. unfold sumR. cbn. lra.
    - apply obind_val in Hs as [s1 [Hc Hs]]. destruct (IH _ Hs) as [E1 E2]. rewrite E1, E2. unfold sumR. cbn [map fold_right].
      destruct c as [|w]; cbn [weightedsum_call] in Hc; unfold weightedsum_fill, weightedsum_fill_with in Hc.
      + apply obind_val in Hc as [a [Ha Hc]]. apply obind_val in Hc as [b [Hb Hc]]. injection Hc as <-.
        cbn [ws_sumw ws_sumw2 weight_of]. apply Hadd in Ha, Hb. rewrite Ha, Hb, H1. split; lra.
      + apply obind_val in Hc as [a [Ha Hc]]. apply obind_val in Hc as [w2 [Hw Hc]]. apply obind_val in Hc as [b [Hb Hc]].
        injection Hc as <-. cbn [ws_sumw ws_sumw2 weight_of]. apply Hadd in Ha, Hb. apply Hmul in Hw. rewrite Ha, Hb, Hw.
        split; lra. }
  destruct (Hgen _ _ Hs) as [E1 E2]. rewrite E1, E2. unfold weightedsum_new. cbn [ws_sumw ws_sumw2]. rewrite H0. split; lra.
Qed.
Print Assumptions C42_weighted_sum.

(** ** C43 *)

Lemma sumR_affine (f : R -> R) c l : sumR (map (fun x => f x + c) l) = sumR (map f l) + INR (length l) * c.
Proof.
  unfold sumR. induction l as [|x l IH]; cbn [map fold_right length]; [cbn; lra|].
  rewrite IH, S_INR. lra.
Qed.
Lemma sumR_scale c l : sumR (map (fun x => c * x) l) = c * sumR l.
Proof. unfold sumR. induction l as [|x l IH]; cbn [map fold_right]; lra. Qed.
Lemma sumR_plus {X} (f g : X -> R) l : sumR (map (fun x => f x + g x) l) = sumR (map f l) + sumR (map g l).
Proof. unfold sumR. induction l as [|x l IH]; cbn [map fold_right]; lra. Qed.
Lemma sumR_ext {X} (f g : X -> R) l : (forall x, f x = g x) -> sumR (map f l) = sumR (map g l).
Proof. intros H. f_equal. apply map_ext. exact H. Qed.
Lemma sumR_scale_map {X} c (f : X -> R) l : sumR (map (fun x => c * f x) l) = c * sumR (map f l).
Proof. unfold sumR. induction l as [|x l IH]; cbn [map fold_right]; lra. Qed.
Lemma sumR_nonneg l : (forall x, In x l -> 0 <= x) -> 0 <= sumR l.
Proof.
  unfold sumR. induction l as [|x l IH]; intros H; cbn [fold_right]; [lra|].
  pose proof (H x (or_introl eq_refl)). specialize (IH (fun y Hy => H y (or_intror Hy))). lra.
Qed.

Lemma INR_pos {X} (l : list X) : l <> [] -> 0 < INR (length l).
Proof. destruct l; [congruence|]. intros _. cbn [length]. rewrite S_INR. pose proof (pos_INR (length l)). lra. Qed.

(** mean of squares minus square of mean *)
Lemma sample_variance_alt xs : xs <> [] ->
  sumR (map (fun x => x ^ 2) xs) / INR (length xs) - sample_mean xs ^ 2 = sample_variance xs.
Proof.
  intros Hne. pose proof (INR_pos xs Hne) as Hn. unfold sample_variance. set (mu := sample_mean xs).
  rewrite (sumR_ext (fun x => (x - mu) ^ 2) (fun x => (x ^ 2 + (-2 * mu) * x) + mu ^ 2)) by (intros x; ring).
  rewrite (sumR_affine (fun x => x ^ 2 + (-2 * mu) * x)).
  rewrite (sumR_plus (fun x => x ^ 2) (fun x => (-2 * mu) * x)).
  rewrite sumR_scale.
  assert (Hs : sumR xs = INR (length xs) * mu) by (unfold mu, sample_mean; field; lra).
  rewrite Hs. field. lra.
Qed.

Lemma sample_variance_nonneg xs : xs <> [] -> 0 <= sample_variance xs.
Proof.
  intros Hne. pose proof (INR_pos xs Hne) as Hn. unfold sample_variance. apply Rmult_le_pos.
  - apply sumR_nonneg. intros x Hx. apply in_map_iff in Hx as [y [<- _]]. apply pow2_ge_0.
  - left. apply Rinv_0_lt_compat. exact Hn.
Qed.

(** [T] is the data type, [C] the counter type; outputs are idealised reals. *)
Theorem C43_mean :
  forall T C (opsT : NumOps T) (opsC : NumOps C) (value : T -> R) (count : C -> R),
  exact_arithmetic opsT value -> exact_arithmetic opsC count ->
  forall (xs : list T) (m : Mean T C), xs <> [] -> mean_new opsT opsC xs = Val m ->
  let sample := map value xs in
  let n := INR (length xs) in
  count (mean_num_samples m) = n
  /\ mean_mean real_ops value count m = Val (sample_mean sample)
  /\ mean_variance_of_samples real_ops value count m = Val (sample_variance sample)
  /\ mean_standard_deviation_of_samples real_ops value count m = Val (sqrt (sample_variance sample))
  /\ mean_variance_of_mean real_ops value count m = Val (sample_variance sample / n)
  /\ mean_standard_error_of_mean real_ops value count m = Val (sqrt (sample_variance sample / n)).
Proof.
  intros T C opsT opsC value count [H0 H1 Hadd Hmul] [C0 C1 Cadd Cmul] xs m Hne Hm sample n.
  assert (Hgen : forall xs m0, foldo (mean_fill_with opsT opsC) xs m0 = Val m ->
     value (m_sumw m) = value (m_sumw m0) + sumR (map value xs)
     /\ value (m_sumw2 m) = value (m_sumw2 m0) + sumR (map (fun x => x ^ 2) (map value xs))
     /\ count (m_count m) = count (m_count m0) + INR (length xs)).
  { clear xs Hne Hm sample n. induction xs as [|x xs IH]; intros m0 Hm; cbn [foldo] in Hm.
    - injection Hm as <-. unfold sumR. cbn. lra.
    - apply obind_val in Hm as [m1 [Hf Hm]]. destruct (IH _ Hm) as [E1 [E2 E3]]. rewrite E1, E2, E3.
      unfold mean_fill_with in Hf. apply obind_val in Hf as [a [Ha Hf]]. apply obind_val in Hf as [d [Hd Hf]].
      apply obind_val in Hf as [b [Hb Hf]]. apply obind_val in Hf as [c [Hc Hf]]. injection Hf as <-.
      cbn [m_sumw m_sumw2 m_count length]. apply Hadd in Ha, Hb. apply Hmul in Hd. apply Cadd in Hc.
      rewrite Ha, Hb, Hd, Hc, C1, S_INR. unfold sumR. cbn [map fold_right]. repeat split; lra. }
  destruct (Hgen xs _ Hm) as [E1 [E2 E3]]. unfold mean_default in E1, E2, E3. cbn [m_sumw m_sumw2 m_count] in *.
  rewrite H0 in E1, E2. rewrite C0 in E3. rewrite Rplus_0_l in E1, E2, E3.
  assert (Hs : sample <> []) by (unfold sample; destruct xs; [congruence | discriminate]).
  assert (Hlen : length sample = length xs) by (unfold sample; apply map_length).
  pose proof (INR_pos xs Hne) as Hn. fold n in Hn. fold n in E3.
  assert (Hmean : mean_mean real_ops value count m = Val (sample_mean sample)).
  { unfold mean_mean, sample_mean. cbn. rewrite E1, E3, Hlen. reflexivity. }
  assert (Hvar : mean_variance_of_samples real_ops value count m = Val (sample_variance sample)).
  { unfold mean_variance_of_samples. rewrite Hmean. cbn. rewrite E2, E3. f_equal.
    pose proof (sample_variance_alt sample Hs) as Ha. rewrite Hlen in Ha. fold n in Ha.
    pose proof (sample_variance_nonneg sample Hs) as Hp.
    replace (sumR (map (fun x => x ^ 2) (map value xs)) / n - sample_mean sample * sample_mean sample)
      with (sample_variance sample); [apply Rabs_pos_eq; exact Hp|]. rewrite <- Ha. fold sample. ring. }
  split; [exact E3|]. split; [exact Hmean|]. split; [exact Hvar|].
  split; [unfold mean_standard_deviation_of_samples; rewrite Hvar; reflexivity|].
  assert (Hvm : mean_variance_of_mean real_ops value count m = Val (sample_variance sample / n)).
  { unfold mean_variance_of_mean. rewrite Hvar. cbn. rewrite E3. reflexivity. }
  split; [exact Hvm|]. unfold mean_standard_error_of_mean. rewrite Hvm. reflexivity.
Qed.
Print Assumptions C43_mean.

(** The [abs()] in the code is only a rounding guard: before it the variance is
    already non-negative (it does not change the exact result). *)
Theorem C43_variance_nonnegative : forall xs, xs <> [] -> 0 <= sample_variance xs.
Proof. exact sample_variance_nonneg. Qed.
Print Assumptions C43_variance_nonnegative.

(** ** C44 *)
Theorem C44_weighted_mean :
  forall T C (opsT : NumOps T) (opsC : NumOps C) (value : T -> R) (count : C -> R),
  exact_arithmetic opsT value -> exact_arithmetic opsC count ->
  forall (xs : list (T * T)) (m : WeightedMean T T C), weightedmean_new opsT opsC xs = Val m ->
  let sample := map (fun p => (value (fst p), value (snd p))) xs in
  total_weight sample <> 0 ->
  let variance := weighted_variance sample in
  let variance_of_mean := variance * sumR (map (fun p => snd p ^ 2) sample) / total_weight sample ^ 2 in
  count (weightedmean_num_samples m) = INR (length xs)
  /\ weightedmean_mean real_ops value m = Val (weighted_mean sample)
  /\ weightedmean_variance_of_samples real_ops value m = Val variance
  /\ weightedmean_standard_deviation_of_samples real_ops value m = Val (sqrt variance)
  /\ weightedmean_variance_of_mean real_ops value m = Val variance_of_mean
  /\ weightedmean_standard_error_of_mean real_ops value m = Val (sqrt variance_of_mean).
Proof.
  intros T C opsT opsC value count [H0 H1 Hadd Hmul] [C0 C1 Cadd Cmul] xs m Hm sample Hw variance variance_of_mean.
  assert (Hgen : forall xs m0, foldo (fun m (it : T * T) => weightedmean_fill opsT opsC m (fst it) (snd it)) xs m0 = Val m ->
     let s := map (fun p => (value (fst p), value (snd p))) xs in
     value (wm_sumwt m) = value (wm_sumwt m0) + sumR (map (fun p => snd p * fst p) s)
     /\ value (wm_sumwt2 m) = value (wm_sumwt2 m0) + sumR (map (fun p => snd p * fst p ^ 2) s)
     /\ value (wm_sumw m) = value (wm_sumw m0) + sumR (map snd s)
     /\ value (wm_sumw2 m) = value (wm_sumw2 m0) + sumR (map (fun p => snd p ^ 2) s)
     /\ count (wm_count m) = count (wm_count m0) + INR (length xs)).
  { clear xs Hm sample Hw variance variance_of_mean. induction xs as [|[x w] xs IH]; intros m0 Hm; cbn [foldo] in Hm.
    - injection Hm as <-. unfold sumR. cbn. repeat split; lra.
    - apply obind_val in Hm as [m1 [Hf Hm]]. cbn zeta in IH. destruct (IH _ Hm) as [E1 [E2 [E3 [E4 E5]]]].
      cbn zeta. rewrite E1, E2, E3, E4, E5. cbn [fst snd] in Hf.
      unfold weightedmean_fill in Hf. apply obind_val in Hf as [p1 [Hp1 Hf]]. apply obind_val in Hf as [a [Ha Hf]].
      apply obind_val in Hf as [v2 [Hv2 Hf]]. apply obind_val in Hf as [p2 [Hp2 Hf]]. apply obind_val in Hf as [b [Hb Hf]].
      apply obind_val in Hf as [c [Hc Hf]]. apply obind_val in Hf as [w2 [Hw2 Hf]]. apply obind_val in Hf as [d [Hd Hf]].
      apply obind_val in Hf as [e [He Hf]]. injection Hf as <-.
      cbn [wm_sumwt wm_sumwt2 wm_sumw wm_sumw2 wm_count length].
      apply Hadd in Ha, Hb, Hc, Hd. apply Hmul in Hp1, Hv2, Hp2, Hw2. apply Cadd in He.
      rewrite Ha, Hb, Hc, Hd, Hp1, Hp2, Hv2, Hw2, He, C1, S_INR. unfold sumR. cbn [map fold_right fst snd]. repeat split; lra. }
  destruct (Hgen xs _ Hm) as [E1 [E2 [E3 [E4 E5]]]]. fold sample in E1, E2, E3, E4.
  unfold weightedmean_default in *. cbn [wm_sumwt wm_sumwt2 wm_sumw wm_sumw2 wm_count] in *.
  rewrite H0 in E1, E2, E3, E4. rewrite C0 in E5. rewrite Rplus_0_l in E1, E2, E3, E4, E5.
  fold (total_weight sample) in E3.
  split; [exact E5|].
  assert (Hmean : weightedmean_mean real_ops value m = Val (weighted_mean sample)).
  { unfold weightedmean_mean, weighted_mean. cbn. rewrite E1, E3. reflexivity. }
  assert (Hvar : weightedmean_variance_of_samples real_ops value m = Val variance).
  { unfold weightedmean_variance_of_samples. rewrite Hmean. cbn. rewrite E1, E2, E3. f_equal.
    unfold variance, weighted_variance. set (mu := weighted_mean sample).
    rewrite (sumR_ext (fun p : R * R => snd p * (fst p - mu) ^ 2)
               (fun p => (snd p * fst p ^ 2 + (-2 * mu) * (snd p * fst p)) + mu ^ 2 * snd p)) by (intros p; ring).
    rewrite (sumR_plus (fun p : R * R => snd p * fst p ^ 2 + (-2 * mu) * (snd p * fst p)) (fun p => mu ^ 2 * snd p)).
    rewrite (sumR_plus (fun p : R * R => snd p * fst p ^ 2) (fun p => (-2 * mu) * (snd p * fst p))).
    rewrite !sumR_scale_map. fold (total_weight sample).
    assert (Hs : sumR (map (fun p => snd p * fst p) sample) = total_weight sample * mu)
      by (unfold mu, weighted_mean; field; exact Hw).
    change (sumR (map (fun p : R * R => snd p * (fst p * (fst p * 1))) sample))
      with (sumR (map (fun p : R * R => snd p * fst p ^ 2) sample)).
    rewrite Hs. field. exact Hw. }
  split; [exact Hmean|]. split; [exact Hvar|].
  split; [unfold weightedmean_standard_deviation_of_samples; rewrite Hvar; reflexivity|].
  assert (Hvm : weightedmean_variance_of_mean real_ops value m = Val variance_of_mean).
  { unfold weightedmean_variance_of_mean. rewrite Hvar. cbn. rewrite E3, E4. unfold variance_of_mean. f_equal.
    change (sumR (map (fun p : R * R => snd p * (snd p * 1)) sample)) with (sumR (map (fun p : R * R => snd p ^ 2) sample)).
    field. exact Hw. }
  split; [exact Hvm|]. unfold weightedmean_standard_error_of_mean. rewrite Hvm. reflexivity.
Qed.
Print Assumptions C44_weighted_mean.

(** With unit weights the weighted statistics are the plain ones. *)
Theorem C44_unit_weights : forall xs : list R, xs <> [] ->
  let sample := map (fun x => (x, 1)) xs in
  total_weight sample = INR (length xs)
  /\ weighted_mean sample = sample_mean xs
  /\ weighted_variance sample = sample_variance xs
  /\ weighted_variance sample * sumR (map (fun p => snd p ^ 2) sample) / total_weight sample ^ 2
     = sample_variance xs / INR (length xs).
Proof.
  intros xs Hne sample. pose proof (INR_pos xs Hne) as Hn.
  assert (Hsum : forall (f : R -> R), sumR (map (fun p : R * R => snd p * f (fst p)) sample) = sumR (map f xs)).
  { intros f. unfold sample. rewrite map_map. apply sumR_ext. intros x. cbn. lra. }
  assert (Hone : forall k : nat, sumR (map (fun p : R * R => snd p ^ k) sample) = INR (length xs)).
  { intros k. unfold sample. clear. induction xs as [|x l IH]; [reflexivity|]. cbn [map length]. rewrite S_INR, <- IH.
    unfold sumR. cbn [fold_right snd fst]. rewrite pow1. rewrite map_map. lra. }
  assert (Ht : total_weight sample = INR (length xs)).
  { unfold total_weight. rewrite <- (Hone 1%nat). apply sumR_ext. intros p. ring. }
  assert (Hm : weighted_mean sample = sample_mean xs).
  { unfold weighted_mean, sample_mean. rewrite Ht, (Hsum (fun x => x)), map_id. reflexivity. }
  assert (Hv : weighted_variance sample = sample_variance xs).
  { unfold weighted_variance, sample_variance. rewrite Ht, Hm, (Hsum (fun x => (x - sample_mean xs) ^ 2)). reflexivity. }
  split; [exact Ht|]. split; [exact Hm|]. split; [exact Hv|]. rewrite Hv, Ht, (Hone 2%nat). field. lra.
Qed.
Print Assumptions C44_unit_weights.

(** Non-negative weights give a non-negative variance (so the square root makes sense). *)
Theorem C44_variance_nonnegative : forall xs : list (R * R),
  (forall p, In p xs -> 0 <= snd p) -> 0 < total_weight xs -> 0 <= weighted_variance xs.
Proof.
  intros xs Hw Ht. unfold weighted_variance. apply Rmult_le_pos; [|left; apply Rinv_0_lt_compat; exact Ht].
  apply sumR_nonneg. intros x Hx. apply in_map_iff in Hx as [p [<- Hp]]. apply Rmult_le_pos; [apply Hw; exact Hp | apply pow2_ge_0].
Qed.
Print Assumptions C44_variance_nonnegative.

(** ** Concrete instances: i32 data with a u64 counter (checked build), and reals *)
Example C42_C44_nonvacuous :
  let B := {| overflow_checks := true; target_width := P64 |} in
  exact_arithmetic (int_ops (signed 32)) IZR /\ exact_arithmetic (int_ops (unsigned 64)) IZR
  /\ exact_arithmetic real_ops (fun x => x)
  /\ foldo (sum_call (int_ops (signed 32))) [Unit; Weight 5; Weight (-2)]%Z (sum_new (int_ops (signed 32))) = Val (mkSum 4%Z)
  /\ foldo (weightedsum_call (int_ops (signed 32))) [Unit; Weight 5; Weight (-2)]%Z (weightedsum_new (int_ops (signed 32)))
     = Val (mkWeightedSum 4%Z 30%Z)
  /\ mean_new (int_ops (signed 32)) (int_ops (unsigned 64)) [1; 2; 6]%Z = Val (mkMean 9%Z 41%Z 3%Z)
  /\ weightedmean_new (int_ops (signed 32)) (int_ops (unsigned 64)) [(1, 2); (6, 3)]%Z
     = Val (mkWeightedMean 20%Z 110%Z 5%Z 13%Z 2%Z)
  /\ total_weight [(1, 2); (6, 3)] <> 0.
Proof.
  intros B. split; [apply int_ops_exact; reflexivity|]. split; [apply int_ops_exact; reflexivity|].
  split; [exact real_ops_exact|]. split; [vm_compute; reflexivity|]. split; [vm_compute; reflexivity|].
  split; [vm_compute; reflexivity|]. split; [vm_compute; reflexivity|].
  unfold total_weight, sumR. cbn. lra.
Qed.
