(** * PropBinDataMean: negated samples give negated means and the same spreads (C92). *)
From Coq Require Import List ZArith NArith Bool Lia Reals Lra.
From Flocq Require Import Core IEEE754.BinarySingleNaN.
From stdpp Require Import gmap.
From Verif Require Import Base BaseFacts Num Float Axis Category Value ValueFloat VecHist HashHist HistSpec SimSpec SimFacts FloatSpec FloatOrd FloatFacts PropCount PropBinData PropBinDataFloat.
Import ListNotations.
Open Scope R_scope.

Section Statistics.
Context {prec emax : Z} {P : Prec_gt_0 prec} {E : Prec_lt_emax prec emax} {B : Build} {C : Type}.
Notation flt := (binary_float prec emax).
Notation ops := (float_ops prec emax P E).
Notation same := (signed_copy false).
Notation negative := (signed_copy true).
Context (count : C -> flt).
Let value (x : flt) : flt := x.
Let SG : SignedOps flt := float_signed prec emax.
Let SQ : SqrtOps flt := float_sqrt prec emax P E.

(** Every statistic that a [Mean] bin reports: the same number of samples, the negated
    mean, the same variance and standard deviation of the samples, the same variance and standard
    error of the mean. *)
Record mean_negated (m m' : Mean flt C) : Prop := {
  mn_samples : mean_num_samples m' = mean_num_samples m;
  mn_mean : refines negative (mean_mean ops value count m) (mean_mean ops value count m');
  mn_variance : refines same (@mean_variance_of_samples _ _ _ ops SG value count m) (@mean_variance_of_samples _ _ _ ops SG value count m');
  mn_deviation : refines same (@mean_standard_deviation_of_samples _ _ _ ops SG SQ value count m) (@mean_standard_deviation_of_samples _ _ _ ops SG SQ value count m');
  mn_variance_of_mean : refines same (@mean_variance_of_mean _ _ _ ops SG value count m) (@mean_variance_of_mean _ _ _ ops SG value count m');
  mn_error : refines same (@mean_standard_error_of_mean _ _ _ ops SG SQ value count m) (@mean_standard_error_of_mean _ _ _ ops SG SQ value count m')
}.

(** The same for [WeightedMean]. *)
Record weightedmean_negated (m m' : WeightedMean flt flt C) : Prop := {
  wn_samples : weightedmean_num_samples m' = weightedmean_num_samples m;
  wn_mean : refines negative (weightedmean_mean ops value m) (weightedmean_mean ops value m');
  wn_variance : refines same (weightedmean_variance_of_samples ops value m) (weightedmean_variance_of_samples ops value m');
  wn_deviation : refines same (@weightedmean_standard_deviation_of_samples _ _ _ ops SQ value m) (@weightedmean_standard_deviation_of_samples _ _ _ ops SQ value m');
  wn_variance_of_mean : refines same (weightedmean_variance_of_mean ops value m) (weightedmean_variance_of_mean ops value m');
  wn_error : refines same (@weightedmean_standard_error_of_mean _ _ _ ops SQ value m) (@weightedmean_standard_error_of_mean _ _ _ ops SQ value m')
}.

(** [WeightedSum]: the negated sum, the same variance. *)
Definition weightedsum_negated (s s' : WeightedSum flt) : Prop :=
  negative (weightedsum_get s) (weightedsum_get s') /\ same (weightedsum_variance s) (weightedsum_variance s').

Let mean_fields (m m' : Mean flt C) : Prop :=
  negative (m_sumw m) (m_sumw m') /\ same (m_sumw2 m) (m_sumw2 m') /\ m_count m' = m_count m.
Let weightedmean_fields (m m' : WeightedMean flt flt C) : Prop :=
  negative (wm_sumwt m) (wm_sumwt m') /\ same (wm_sumwt2 m) (wm_sumwt2 m') /\ wm_sumw m' = wm_sumw m /\ wm_sumw2 m' = wm_sumw2 m /\ wm_count m' = wm_count m.

Lemma mean_of_fields m m' : mean_fields m m' -> mean_negated m m'.
Proof.
  intros [H1 [H2 H3]].
  pose proof (copy_div prec emax P E true _ _ (count (m_count m)) H1) as Hm.
  pose proof (copy_mult prec emax P E _ _ _ _ _ _ Hm Hm) as Hm2. cbn [xorb] in Hm2.
  pose proof (copy_div prec emax P E false _ _ (count (m_count m)) H2) as Ha.
  pose proof (copy_abs prec emax _ _ _ (copy_minus prec emax P E _ _ _ _ _ Ha Hm2)) as Hv.
  pose proof (copy_div prec emax P E _ _ _ (count (m_count m)) Hv) as Hvm.
  split; unfold mean_num_samples, mean_standard_deviation_of_samples, mean_standard_error_of_mean, mean_variance_of_mean, mean_variance_of_samples, mean_mean;
    rewrite H3; [reflexivity | | | | |]; cbn [obind n_div n_mul n_sub float_ops n_abs SG float_signed]; apply refines_val.
  - exact Hm.
  - exact Hv.
  - apply copy_sqrt. exact Hv.
  - exact Hvm.
  - apply copy_sqrt. exact Hvm.
Qed.

Lemma copy_refl f (x : flt) : f = false -> signed_copy f x x.
Proof. intros ->. destruct x as [s|s| |s m e H]; [apply copy_finite | apply (copy_infinity _ _ _ s) | apply copy_nan | apply copy_finite]; destruct s || idtac; reflexivity. Qed.

Lemma weightedmean_of_fields m m' : weightedmean_fields m m' -> weightedmean_negated m m'.
Proof.
  intros [H1 [H2 [H3 [H4 H5]]]].
  pose proof (copy_div prec emax P E true _ _ (wm_sumw m) H1) as Hm.
  pose proof (copy_mult prec emax P E _ _ _ _ _ _ Hm Hm) as Hm2. cbn [xorb] in Hm2.
  pose proof (copy_mult prec emax P E _ _ _ _ _ _ (copy_refl false (Bplus mode_NE Bone Bone) eq_refl) H1) as Hp. cbn [xorb] in Hp.
  pose proof (copy_mult prec emax P E _ _ _ _ _ _ Hp Hm) as Hp'. cbn [xorb] in Hp'.
  pose proof (copy_div prec emax P E _ _ _ (wm_sumw m) (copy_minus prec emax P E _ _ _ _ _ H2 Hp')) as Hq.
  pose proof (copy_plus prec emax P E _ _ _ _ _ Hm2 Hq) as Hv.
  pose proof (copy_mult prec emax P E _ _ _ _ _ _ Hv (copy_refl false (wm_sumw2 m) eq_refl)) as Hw. cbn [xorb] in Hw.
  pose proof (copy_div prec emax P E _ _ _ (Bmult mode_NE (wm_sumw m) (wm_sumw m)) Hw) as Hvm.
  split; unfold weightedmean_num_samples, weightedmean_standard_deviation_of_samples, weightedmean_standard_error_of_mean, weightedmean_variance_of_mean,
    weightedmean_variance_of_samples, weightedmean_mean; rewrite ?H3, ?H4, ?H5; [reflexivity | | | | |]; cbn [obind n_div n_mul n_sub n_add n_one float_ops]; apply refines_val.
  - exact Hm.
  - exact Hv.
  - apply copy_sqrt. exact Hv.
  - exact Hvm.
  - apply copy_sqrt. exact Hvm.
Qed.

Lemma mean_step (opsC : NumOps C) m m' d d' : mean_fields m m' -> negative d d' -> refines mean_fields (mean_fill_with ops opsC m d) (mean_fill_with ops opsC m' d').
Proof.
  intros [H1 [H2 H3]] Hd. unfold mean_fill_with. rewrite H3. cbn [obind n_add n_mul float_ops].
  apply (refines_bind eq); [apply refines_refl|]. intros c ? _ _ <-. apply refines_val. split; [|split]; cbn [m_sumw m_sumw2 m_count].
  - now apply copy_plus.
  - apply copy_plus; [exact H2|]. exact (copy_mult prec emax P E _ _ _ _ _ _ Hd Hd).
  - reflexivity.
Qed.

Lemma weightedmean_step (opsC : NumOps C) m m' d d' w : weightedmean_fields m m' -> negative d d' ->
  refines weightedmean_fields (weightedmean_fill ops opsC m d w) (weightedmean_fill ops opsC m' d' w).
Proof.
  intros [H1 [H2 [H3 [H4 H5]]]] Hd. unfold weightedmean_fill. rewrite H3, H4, H5. cbn [obind n_add n_mul float_ops].
  apply (refines_bind eq); [apply refines_refl|]. intros c ? _ _ <-. apply refines_val.
  split; [|split; [|split; [|split]]]; cbn [wm_sumwt wm_sumwt2 wm_sumw wm_sumw2 wm_count]; try reflexivity.
  - apply copy_plus; [exact H1|]. exact (copy_mult prec emax P E _ _ _ _ _ _ Hd (copy_refl false w eq_refl)).
  - apply copy_plus; [exact H2|]. exact (copy_mult prec emax P E _ _ _ _ _ _ (copy_mult prec emax P E _ _ _ _ _ _ Hd Hd) (copy_refl false w eq_refl)).
Qed.

Lemma weightedsum_step s s' w w' : weightedsum_negated s s' -> negative w w' -> refines weightedsum_negated (weightedsum_fill_with ops s w) (weightedsum_fill_with ops s' w').
Proof.
  intros [H1 H2] Hw. unfold weightedsum_fill_with. cbn [obind n_add n_mul float_ops]. apply refines_val. split; cbn [weightedsum_get weightedsum_variance ws_sumw ws_sumw2].
  - now apply copy_plus.
  - apply copy_plus; [exact H2|]. exact (copy_mult prec emax P E _ _ _ _ _ _ Hw Hw).
Qed.

Lemma mean_new_fields (opsC : NumOps C) : mean_fields (mean_default ops opsC) (mean_default ops opsC).
Proof. split; [|split]; cbn; [apply copy_finite; cbn; lra || reflexivity | now apply copy_refl | reflexivity]. Qed.
Lemma weightedmean_new_fields (opsC : NumOps C) : weightedmean_fields (weightedmean_default ops opsC) (weightedmean_default ops opsC).
Proof. split; [|split; [|split; [|split]]]; cbn; [apply copy_finite; cbn; lra || reflexivity | now apply copy_refl | reflexivity | reflexivity | reflexivity]. Qed.
Lemma weightedsum_new_fields : weightedsum_negated (weightedsum_new ops) (weightedsum_new ops).
Proof. split; cbn; [apply copy_finite; cbn; lra || reflexivity | now apply copy_refl]. Qed.

Context {A : Type} {AX : Axis A}.
(** Histograms of [Mean], [WeightedMean] and [WeightedSum] bins, from new. *)
Definition statistics_related {V D W} {FV : Fill V} {FD : FillWith V D} {FW : FillWithWeighted V D W} {DV : Default V} (RV : V -> V -> Prop) (a : A)
    (ops ops' : list (fill_op (AX := AX) D W)) : Prop :=
  (forall h0 h, vec_new a = Val h0 -> vec_calls h0 ops = Val h -> exists h', vec_calls h0 ops' = Val h' /\ dense_related RV h h')
  /\ (forall h, hash_calls (hash_new a) ops = Val h -> exists h', hash_calls (hash_new a) ops' = Val h' /\ sparse_related RV h h').

Lemma statistics_from_new {V D W} (FV : Fill V) (FD : FillWith V D) (FW : FillWithWeighted V D W) (DV : Default V) (RV RS : V -> V -> Prop) (a : A) calls calls' :
  RV default_v default_v -> (forall v v', RV v v' -> RS v v') -> Forall2 (related_call RV) calls calls' -> statistics_related RS a calls calls'.
Proof.
  intros H0 HS Ho. destruct (C92_new A _ _ AX DV DV RV a H0) as [Nd Ns].
  destruct (C92_fills _ _ _ _ _ _ _ AX FV FD FW DV FV FD FW DV RV calls calls' Ho) as [Kd Ks].
  split.
  - intros h0 h E0 Eh. destruct (Nd h0 E0) as [h1 [E1 R0]]. pose proof (eq_trans (eq_sym E0) E1) as Q. injection Q as <-.
    destruct (Kd _ _ R0 h Eh) as [h' [E' [Ra Rv]]]. exists h'. split; [exact E'|]. split; [exact Ra|]. eapply Forall2_impl; [exact Rv | exact HS].
  - intros h Eh. destruct (Ks H0 _ _ Ns h Eh) as [h' [E' [Ra Rv]]]. exists h'. split; [exact E'|]. split; [exact Ra|].
    intros i. specialize (Rv i). destruct (hash_value_at_index h i), (hash_value_at_index h' i); cbn [option_rel] in *; auto.
Qed.
End Statistics.

(** The same calls with negated samples (and the same weights). *)
Inductive negated_sample {A prec emax} {AX : Axis A} : fill_op (AX := AX) (binary_float prec emax) (binary_float prec emax) -> fill_op (AX := AX) (binary_float prec emax) (binary_float prec emax) -> Prop :=
| negated_weighted c d d' w : signed_copy true d d' -> negated_sample (CallFillWithWeighted c d w) (CallFillWithWeighted c d' w).

(** C92. Negating every sample of a histogram of [Mean]s, [WeightedMean]s or [WeightedSum]s. The
    sample counter is of any type; the instances of methods that the bin type does not have are arbitrary. *)
Theorem C92_negated_samples : forall (prec emax : Z) (P : Prec_gt_0 prec) (E : Prec_lt_emax prec emax) (B : Build) (C : Type) (opsC : NumOps C) (count : C -> binary_float prec emax)
  A (AX : Axis A) (a : A) (calls calls' : list (fill_op (binary_float prec emax) Empty_set)) (wcalls wcalls' : list (fill_op (binary_float prec emax) (binary_float prec emax))),
  let flt := binary_float prec emax in let ops := float_ops prec emax P E in
  Forall2 (other_amount (signed_copy true)) calls calls' -> Forall2 negated_sample wcalls wcalls' ->
  (forall (FV : Fill (WeightedSum flt)) (FW : FillWithWeighted (WeightedSum flt) flt Empty_set),
     let FD := {| fill_with_v := weightedsum_fill_with ops |} in let DV := {| default_v := weightedsum_new ops |} in
     statistics_related weightedsum_negated a calls calls')
  /\ (forall (FV : Fill (Mean flt C)) (FW : FillWithWeighted (Mean flt C) flt Empty_set),
     let FD := {| fill_with_v := mean_fill_with ops opsC |} in let DV := {| default_v := mean_default ops opsC |} in
     statistics_related (mean_negated (P := P) (E := E) count) a calls calls')
  /\ (forall (FV : Fill (WeightedMean flt flt C)) (FD : FillWith (WeightedMean flt flt C) flt),
     let FW := {| fill_with_weighted_v := weightedmean_fill ops opsC |} in let DV := {| default_v := weightedmean_default ops opsC |} in
     statistics_related (weightedmean_negated (P := P) (E := E)) a wcalls wcalls').
Proof.
  intros prec emax P E B C opsC count A AX a calls calls' wcalls wcalls' flt ops Ho Hw. split; [|split].
  - intros FV FW FD DV. apply (statistics_from_new _ _ _ _ weightedsum_negated); [apply weightedsum_new_fields | auto|].
    eapply Forall2_impl; [exact Ho|]. intros o o' [c d d' Hd]. split; [reflexivity|]. intros v v' Hv. now apply weightedsum_step.
  - intros FV FW FD DV.
    refine (statistics_from_new _ _ _ _ _ _ _ _ _ (mean_new_fields opsC) (mean_of_fields count) _).
    eapply Forall2_impl; [exact Ho|]. intros o o' [c d d' Hd]. split; [reflexivity|]. intros v v' Hv. now apply mean_step.
  - intros FV FD FW DV.
    refine (statistics_from_new _ _ _ _ _ _ _ _ _ (weightedmean_new_fields opsC) weightedmean_of_fields _).
    eapply Forall2_impl; [exact Hw|]. intros o o' [c d d' w Hd]. split; [reflexivity|]. intros v v' Hv. now apply weightedmean_step.
Qed.
Print Assumptions C92_negated_samples.

(** The samples 1/2, 3, NaN and their negatives, in [Mean] bins with a [u32] counter and, with weight
    2, in [WeightedMean] bins: the hypotheses hold and both runs return. *)
Example C92_samples_nonvacuous : forall B : Build,
  let AX := @category_axis B Z _ in
  let call c d : @fill_op _ f64 Empty_set AX := CallFillWith c d in
  let wcall c d : @fill_op _ f64 f64 AX := CallFillWithWeighted c d (f64_lit 1 1) in
  let calls := [call 5%Z (f64_lit 1 (-1)); call 5%Z (f64_lit 3 0); call 7%Z B754_nan] in
  let wcalls := [wcall 5%Z (f64_lit 1 (-1)); wcall 5%Z (f64_lit 3 0); wcall 7%Z B754_nan] in
  Forall2 (other_amount (signed_copy true)) calls [call 5%Z (f64_lit (-1) (-1)); call 5%Z (f64_lit (-3) 0); call 7%Z B754_nan]
  /\ Forall2 negated_sample wcalls [wcall 5%Z (f64_lit (-1) (-1)); wcall 5%Z (f64_lit (-3) 0); wcall 7%Z B754_nan]
  /\ (forall (FV : Fill (Mean f64 Z)) (FW : FillWithWeighted (Mean f64 Z) f64 Empty_set),
       let FD := {| fill_with_v := mean_fill_with (float_ops 53 1024 prec64 emax64) (int_ops (unsigned 32)) |} in
       let DV := {| default_v := mean_default (float_ops 53 1024 prec64 emax64) (int_ops (unsigned 32)) |} in
       exists h0 h, vec_new (category_new [5; 7]%Z) = Val h0 /\ vec_calls h0 calls = Val h)
  /\ (forall (FV : Fill (WeightedMean f64 f64 Z)) (FD : FillWith (WeightedMean f64 f64 Z) f64),
       let FW := {| fill_with_weighted_v := weightedmean_fill (float_ops 53 1024 prec64 emax64) (int_ops (unsigned 32)) |} in
       let DV := {| default_v := weightedmean_default (float_ops 53 1024 prec64 emax64) (int_ops (unsigned 32)) |} in
       exists h, hash_calls (hash_new (category_new [5; 7]%Z)) wcalls = Val h).
Proof.
  intros B AX call wcall calls wcalls.
  assert (N1 : signed_copy true (f64_lit 1 (-1)) (f64_lit (-1) (-1))).
  { apply copy_finite; [reflexivity | reflexivity|]. rewrite <- B2R_Bopp. apply f_equal, B2SF_inj. vm_compute. reflexivity. }
  assert (N3 : signed_copy true (f64_lit 3 0) (f64_lit (-3) 0)).
  { apply copy_finite; [reflexivity | reflexivity|]. rewrite <- B2R_Bopp. apply f_equal, B2SF_inj. vm_compute. reflexivity. }
  assert (NN : signed_copy true (B754_nan : f64) B754_nan) by now apply copy_nan.
  split; [|split; [|split]].
  - constructor; [apply other_fill_with, N1 | constructor; [apply other_fill_with, N3 | constructor; [apply other_fill_with, NN | constructor]]].
  - constructor; [apply negated_weighted, N1 | constructor; [apply negated_weighted, N3 | constructor; [apply negated_weighted, NN | constructor]]].
  - intros FV FW FD DV. destruct B as [[] []]; eexists _, _; (split; [reflexivity|]); reflexivity.
  - intros FV FD FW DV. destruct B as [[] []]; eexists _; reflexivity.
Qed.
