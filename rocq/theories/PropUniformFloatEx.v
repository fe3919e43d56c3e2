(** * Concrete f64 axes: the hypotheses of PropUniformFloat are met, and where the
    documented behaviour fails. *)
From Coq Require Import List ZArith NArith Bool Lia Reals Lra ZifyN ZifyNat.
From Flocq Require Import Core IEEE754.BinarySingleNaN.
From Verif Require Import Base BaseFacts Num Float Axis Spec OrdLaws FloatOrd FloatFacts FloatSpec Uniform PropUniformFloat.
Open Scope R_scope.

Lemma f64_int (z : Z) : (0 <= z <= 2 ^ 53)%Z -> B2R (f64_lit z 0) = IZR z /\ is_finite (f64_lit z 0) = true.
Proof.
  intros Hz. pose proof (float_of_N_exact 53 1024 prec64 emax64 (Z.to_N z)) as H. rewrite Z2N.id in H by lia.
  destruct (H ltac:(lia)) as [H1 [H2 _]]. unfold float_of_N in H1, H2. rewrite Z2N.id in H1, H2 by lia. auto.
Qed.

Lemma tiny_le_1 (e : Z) (z : Z) : (e <= -4)%Z -> (0 <= z <= 16)%Z -> IZR z * bpow radix2 e <= 1.
Proof.
  intros He Hz. apply Rle_trans with (16 * bpow radix2 (-4)).
  - apply Rmult_le_compat; [apply IZR_le; lia | apply bpow_ge_0 | apply IZR_le; lia | apply bpow_le; exact He].
  - change (bpow radix2 (-4)) with (/ 16). lra.
Qed.

(** The parameters [Uniform::new(10, 0.0, 1.0)] meet every hypothesis of C04-C07. *)
Example float_params_nonvacuous :
  let low := f64_lit 0 0 in let high := f64_lit 1 0 in
  covered_format 53 1024 /\ (1 <= Z.of_N 10 < 2 ^ (53 - 1))%Z
  /\ is_finite low = true /\ is_finite high = true /\ B2R low < B2R high
  /\ is_finite (Bminus mode_NE high low) = true
  /\ IZR (Z.of_N 10) * smallest_normal 1024 <= B2R high - B2R low
  /\ IZR (Z.of_N 10) * magnitude (B2R low) (B2R high) < bpow radix2 (1024 - 3)
  /\ (forall B : Build, exists a : Uniform (binary_float 53 1024), made_axis (P := prec64) (E := emax64) 10 a).
Proof.
  destruct (f64_int 0 ltac:(lia)) as [Z1 Z2]. destruct (f64_int 1 ltac:(lia)) as [O1 O2]. unfold f64 in *.
  cbv zeta. rewrite Z1, O1.
  assert (Hn : IZR (Z.of_N 10) * smallest_normal 1024 <= IZR 1 - IZR 0).
  { replace (IZR 1 - IZR 0) with 1 by lra. apply (tiny_le_1 _ 10); lia. }
  split; [apply f64_covered|]. split; [lia|]. split; [exact Z2|]. split; [exact O2|]. split; [lra|].
  split; [vm_compute; reflexivity|]. split; [exact Hn|]. split.
  - unfold magnitude. rewrite Rabs_R0, Rabs_pos_eq by lra. rewrite Rmax_right by lra.
    apply Rlt_le_trans with (bpow radix2 4); [change (bpow radix2 4) with 16; cbn [Z.of_N]; lra | apply bpow_le; lia].
  - intros B. eexists. eapply (made_by_new (P := prec64) (E := emax64) 10 _ (f64_lit 0 0) (f64_lit 1 0)); [reflexivity|].
    intros _ _. unfold f64 in *. rewrite Z1, O1. rewrite Rabs_pos_eq by lra. exact Hn.
Qed.

(** Parameters of [with_step_size(10, 0.0, 1.0)]. *)
Example float_step_params_nonvacuous :
  let low := f64_lit 0 0 in let step := f64_lit 1 0 in
  let high := Bplus mode_NE (Bmult mode_NE (float_of_N 53 1024 prec64 emax64 10) step) low in
  is_finite low = true /\ is_finite step = true /\ 0 < B2R step /\ is_finite high = true /\ B2R low < B2R high
  /\ IZR (Z.of_N 10) * magnitude (B2R low) (B2R high) < bpow radix2 (1024 - 3)
  /\ forall B : Build, exists a, uniform_with_step_size f64_ops 10 low step = Val (Ok a).
Proof.
  destruct (f64_int 0 ltac:(lia)) as [Z1 Z2]. destruct (f64_int 1 ltac:(lia)) as [O1 O2]. destruct (f64_int 10 ltac:(lia)) as [T1 T2].
  unfold f64 in *. cbv zeta.
  replace (Bplus mode_NE (Bmult mode_NE (float_of_N 53 1024 prec64 emax64 10) (f64_lit 1 0)) (f64_lit 0 0)) with (f64_lit 10 0)
    by (symmetry; apply B2SF_inj; vm_compute; reflexivity).
  unfold f64 in *. rewrite Z1, O1, T1.
  split; [exact Z2|]. split; [exact O2|]. split; [lra|]. split; [exact T2|]. split; [lra|]. split.
  - unfold magnitude. rewrite Rabs_R0, Rabs_pos_eq by lra. rewrite Rmax_right by lra.
    apply Rlt_le_trans with (bpow radix2 7); [change (bpow radix2 7) with 128; cbn [Z.of_N]; lra | apply bpow_le; lia].
  - intros B. eexists. reflexivity.
Qed.

(** ** Where the documented behaviour fails *)

(** C03, converse: 7.999999999999999 (the float below 8) is inside the range of
    [Uniform::new(2, -1.1, 8.0)] and is counted as overflow. *)
Theorem C03_float_overflow_only_refuted : forall B : Build,
  exists low high x a,
    B2SF low = B2SF (f64_quot (-11) 10) /\ B2SF high = B2SF (f64_lit 8 0)
    /\ uniform_new f64_ops 2 low high = Val (Ok a)
    /\ flt_le low x /\ flt_lt x high
    /\ uniform_index f64_ops a x = Val (Some 3%N).
Proof.
  intros B. exists (f64_quot (-11) 10), (f64_lit 8 0), (f64_lit (2 ^ 53 - 1) (-50)). eexists.
  split; [reflexivity|]. split; [reflexivity|]. split; [reflexivity|].
  split; [left; vm_compute; reflexivity|]. split; [vm_compute; reflexivity|].
  destruct B as [[] []]; vm_compute; reflexivity.
Qed.
Print Assumptions C03_float_overflow_only_refuted.

(** C04 and C05 without the bound on the width: five bins on [0, 7 * 2^-1074). The
    index of [6 * 2^-1074] is not a bin number, and is greater than the index of
    the larger number [7 * 2^-1074]. *)
Theorem C04_float_subnormal_width_refuted : forall B : Build,
  exists low high x a,
    uniform_new f64_ops 5 low high = Val (Ok a)
    /\ flt_le low x /\ flt_lt x high
    /\ uniform_num_bins a = Val 7%N
    /\ uniform_index f64_ops a x = Val (Some 7%N)
    /\ uniform_index f64_ops a high = Val (Some 6%N).
Proof.
  intros B. exists (f64_lit 0 0), (f64_lit 7 (-1074)), (f64_lit 6 (-1074)). eexists.
  split; [reflexivity|]. split; [left; vm_compute; reflexivity|]. split; [vm_compute; reflexivity|].
  destruct B as [[] []]; (split; [vm_compute; reflexivity|]; split; vm_compute; reflexivity).
Qed.
Print Assumptions C04_float_subnormal_width_refuted.

(** C04 without the bound on the number of bins: [2^53 + 3] bins on [0, 1), on a 64-bit target. *)
Theorem C04_float_num_refuted : forall B : Build, target_width = P64 ->
  exists low high x a,
    let num := (2 ^ 53 + 3)%N in
    uniform_new f64_ops num low high = Val (Ok a)
    /\ flt_le low x /\ flt_lt x high
    /\ uniform_num_bins a = Val (num + 2)%N
    /\ uniform_index f64_ops a x = Val (Some (num + 2)%N).
Proof.
  intros [c w] Hw. cbn in Hw. subst w. exists (f64_lit 0 0), (f64_lit 1 0), (f64_lit (2 ^ 53 - 1) (-53)). eexists. cbv zeta.
  split; [reflexivity|]. split; [left; vm_compute; reflexivity|]. split; [vm_compute; reflexivity|].
  destruct c; (split; vm_compute; reflexivity).
Qed.
Print Assumptions C04_float_num_refuted.

(** C06, exact agreement of [index] and [bin]: on [Uniform::new(10, 0.0, 1.0)] the
    index of 0.3 is 3, and [bin(3)] is [0.2, 0.3). *)
Theorem C06_float_bin_contains_refuted : forall B : Build,
  exists x a s e,
    uniform_new f64_ops 10 (f64_lit 0 0) (f64_lit 1 0) = Val (Ok a)
    /\ B2SF x = B2SF (f64_quot 3 10)
    /\ uniform_index f64_ops a x = Val (Some 3%N)
    /\ uniform_bin f64_ops a 3 = Val (Some (Bin s e))
    /\ flt_eq e x.
Proof.
  intros B. exists (f64_quot 3 10). do 3 eexists.
  split; [reflexivity|]. split; [reflexivity|].
  split; [destruct B as [[] []]; vm_compute; reflexivity|].
  split.
  - unfold uniform_bin. cbn [u_num]. rewrite uadd_ok by (destruct B as [? []]; reflexivity). rewrite usub_ok by discriminate. reflexivity.
  - vm_compute. reflexivity.
Qed.
Print Assumptions C06_float_bin_contains_refuted.

(** C07: the last finite bin need not end where the overflow bin starts: on
    [Uniform::new(1, -1.0, 0.3)] it ends at 0.30000000000000004. *)
Theorem C07_float_last_edge_refuted : forall B : Build,
  exists high a s e,
    B2SF high = B2SF (f64_quot 3 10)
    /\ uniform_new f64_ops 1 (f64_lit (-1) 0) high = Val (Ok a)
    /\ uniform_bin f64_ops a 1 = Val (Some (Bin s e))
    /\ uniform_bin f64_ops a 2 = Val (Some (Overflow high))
    /\ flt_lt high e.
Proof.
  intros B. exists (f64_quot 3 10). do 3 eexists.
  split; [reflexivity|]. split; [reflexivity|].
  split.
  - unfold uniform_bin. cbn [u_num]. rewrite uadd_ok by (destruct B as [? []]; reflexivity). rewrite usub_ok by discriminate. reflexivity.
  - split; [unfold uniform_bin; cbn [u_num]; rewrite uadd_ok by (destruct B as [? []]; reflexivity); reflexivity|]. vm_compute. reflexivity.
Qed.
Print Assumptions C07_float_last_edge_refuted.

(** C07: near the largest float an edge overflows: on [Uniform::new(3, 0.0, 2^1023)]
    bin 2 ends, and bin 3 starts, at infinity. *)
Theorem C07_float_edge_overflow_refuted : forall B : Build,
  exists a s e,
    uniform_new f64_ops 3 (f64_lit 0 0) (f64_lit 1 1023) = Val (Ok a)
    /\ uniform_bin f64_ops a 2 = Val (Some (Bin s e))
    /\ B2SF e = SpecFloat.S754_infinity false.
Proof.
  intros B. do 3 eexists. split; [reflexivity|]. split.
  - unfold uniform_bin. cbn [u_num]. rewrite uadd_ok by (destruct B as [? []]; reflexivity). rewrite usub_ok by discriminate. reflexivity.
  - vm_compute. reflexivity.
Qed.
Print Assumptions C07_float_edge_overflow_refuted.
