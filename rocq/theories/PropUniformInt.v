(** * Property theorems: integer uniform axes (C01, C02, C08, C09, C10). *)
From Coq Require Import List NArith ZArith Bool Lia ZifyBool ZifyN.
From Verif Require Import Base BaseFacts Num Axis Spec IntFacts Uniform UniformInt UniformMore PropUniformIntLemmas.
Import ListNotations.
Open Scope Z_scope.

(** C01. *)
Theorem C01_uniform_int_index_partitions : forall (B : Build) (t : int_type) num low step,
  valid_int_params t num low step ->
  exists a, uniform_with_step_size (int_ops t) num low step = Val (Ok a) /\
  forall x, fits t x ->
  exists i, uniform_index (int_ops t) a x = Val (Some i)
    /\ (i <= num + 1)%N
    /\ (i = 0%N <-> x < low)
    /\ (i = (num + 1)%N <-> low + Z.of_N num * step <= x)
    /\ (forall k : N, (1 <= k <= num)%N ->
          (i = k <-> low + (Z.of_N k - 1) * step <= x < low + Z.of_N k * step)).
Proof. exact c01. Qed.
Print Assumptions C01_uniform_int_index_partitions.

Example C01_nonvacuous : forall B : Build, valid_int_params (signed 8) 5 (-100) 25 /\ fits (signed 8) 24.
Proof. exact c01_example. Qed.

(** C02: what [bin] returns. *)
Theorem C02_uniform_int_bins : forall (B : Build) (t : int_type) num low step,
  valid_int_params t num low step ->
  fits t (Z.of_N num * (Z.of_N num * step)) ->
  exists a, uniform_with_step_size (int_ops t) num low step = Val (Ok a)
  /\ uniform_num_bins a = Val (num + 2)%N
  /\ uniform_bin (int_ops t) a 0 = Val (Some (Underflow low))
  /\ (forall i, (1 <= i <= num)%N -> uniform_bin (int_ops t) a i
        = Val (Some (Bin (low + (Z.of_N i - 1) * step) (low + Z.of_N i * step))))
  /\ uniform_bin (int_ops t) a (num + 1) = Val (Some (Overflow (low + Z.of_N num * step)))
  /\ (forall i, (num + 2 <= i)%N -> uniform_bin (int_ops t) a i = Val None).
Proof. exact c02_bins. Qed.
Print Assumptions C02_uniform_int_bins.

(** C02: [bin(index(x))] contains [x], [x] is in no other bin, and the start of
    bin [i] is indexed to [i]. *)
Theorem C02_uniform_int_bin_index_agree : forall (B : Build) (t : int_type) num low step,
  valid_int_params t num low step ->
  fits t (Z.of_N num * (Z.of_N num * step)) ->
  exists a, uniform_with_step_size (int_ops t) num low step = Val (Ok a)
  /\ (forall x, fits t x -> exists i b,
        uniform_index (int_ops t) a x = Val (Some i)
        /\ uniform_bin (int_ops t) a i = Val (Some b)
        /\ containsZ b x
        /\ forall j b', uniform_bin (int_ops t) a j = Val (Some b') -> containsZ b' x -> j = i)
  /\ (forall i b s, uniform_bin (int_ops t) a i = Val (Some b) -> bi_start b = Some s ->
        uniform_index (int_ops t) a s = Val (Some i)).
Proof. exact c02_agree. Qed.
Print Assumptions C02_uniform_int_bin_index_agree.

Example C02_nonvacuous : forall B : Build, valid_int_params (signed 16) 5 (-100) 25
  /\ fits (signed 16) (Z.of_N 5 * (Z.of_N 5 * 25)).
Proof. exact c02_example. Qed.

(** C02 fails without the last hypothesis: an accepted i32 axis of 100000 unit
    bins, index 50000 is valid, and [bin(50000)] panics (checked build) or
    returns an interval that is not the one [index] uses (unchecked build). *)
Theorem C02_bin_overflow_refuted :
  exists num low step a x, forall B : Build,
    valid_int_params (signed 32) num low step
    /\ uniform_with_step_size (int_ops (signed 32)) num low step = Val (Ok a)
    /\ uniform_index (int_ops (signed 32)) a x = Val (Some 50000%N)
    /\ (overflow_checks = true -> uniform_bin (int_ops (signed 32)) a 50000 = Panic)
    /\ (overflow_checks = false -> exists b, uniform_bin (int_ops (signed 32)) a 50000 = Val (Some b) /\ ~ containsZ b x).
Proof. exact c02_refuted. Qed.
Print Assumptions C02_bin_overflow_refuted.

(** An axis with more bins than its number type can count (no constructor makes
    one, but deserialisation can): [bin] answers None for the bins it cannot
    compute, and does not panic unless the product of bin number and range overflows first. *)
Theorem C02_uncountable_bins : forall (B : Build) (t : int_type) (a : Uniform Z) i,
  int_min t <= 0 <= int_max t -> int_max t < Z.of_N (u_num a) -> (u_num a + 2 < usize_mod)%N ->
  (1 <= i <= u_num a)%N ->
  (int_max t < Z.of_N i - 1 -> uniform_bin (int_ops t) a i = Val None)
  /\ (Z.of_N i - 1 <= int_max t -> fits t (u_high a - u_low a) -> fits t ((Z.of_N i - 1) * (u_high a - u_low a)) ->
      uniform_bin (int_ops t) a i = Val None).
Proof.
  intros B t a i Ht Hn Hu Hi.
  assert (Hb : uniform_edge (int_ops t) a (i - 1) = Val None -> uniform_bin (int_ops t) a i = Val None).
  { intros He. unfold uniform_bin. destruct (N.eqb_spec i 0); [lia|]. rewrite uadd_ok by lia. cbn [obind].
    destruct (N.eqb_spec i (u_num a + 1)); [lia|]. destruct (N.ltb_spec (u_num a + 1) i); [lia|].
    rewrite usub_ok by lia. cbn [obind]. rewrite He. reflexivity. }
  assert (Hout : forall k, int_max t < Z.of_N k -> in_range t (Z.of_N k) = false).
  { intros k Hk. unfold in_range. apply andb_false_iff. right. apply Z.leb_gt. lia. }
  split.
  - intros Hbig. apply Hb. unfold uniform_edge. cbn [n_from_usize int_ops].
    rewrite Hout by lia. reflexivity.
  - intros Hsmall Hw Hp. apply Hb. unfold uniform_edge. cbn [n_from_usize n_sub n_mul int_ops].
    rewrite (Hout (u_num a)) by lia.
    assert (Hin : in_range t (Z.of_N (i - 1)) = true).
    { unfold in_range. apply andb_true_iff. split; apply Z.leb_le; lia. }
    rewrite Hin. rewrite (int_result_ok t _ Hw). cbn [obind].
    replace (Z.of_N (i - 1)) with (Z.of_N i - 1) by lia. rewrite (int_result_ok t _ Hp). reflexivity.
Qed.
Print Assumptions C02_uncountable_bins.

(** Such a u8 axis: 300 bins. *)
Example C02_uncountable_nonvacuous : forall B : Build,
  let a := mkUniform 300 0 200 1 in
  int_max (unsigned 8) < Z.of_N (u_num a) /\ (u_num a + 2 < usize_mod)%N
  /\ uniform_bin (int_ops (unsigned 8)) a 1 = Val None /\ uniform_bin (int_ops (unsigned 8)) a 300 = Val None
  /\ (overflow_checks = true -> uniform_bin (int_ops (unsigned 8)) a 3 = Panic).
Proof. intros [[] []] a; (split; [|split; [|split; [|split]]]; [vm_compute; reflexivity .. | intros Hc; first [discriminate Hc | vm_compute; reflexivity]]). Qed.

(** C08, [with_step_size] over integers: every outcome. *)
Theorem C08_with_step_size_int : forall (B : Build) (t : int_type) num low step,
  primitive_int t -> fits t low -> fits t step ->
  let r := uniform_with_step_size (int_ops t) num low step in
  let width := Z.of_N num * step in
  (~ fits t (Z.of_N num) -> r = Val (Err InvalidNumberOfBins))
  /\ (fits t (Z.of_N num) -> overflow_checks = true ->
        (r = Panic <-> ~ (fits t width /\ fits t (low + width))))
  /\ (fits t (Z.of_N num) -> fits t width -> fits t (low + width) ->
        (r = Val (Err InvalidNumberOfBins) <-> num = 0%N)
        /\ (r = Val (Err InvalidStepSize) <-> num <> 0%N /\ step <= 0)
        /\ ((exists a, r = Val (Ok a)) <-> num <> 0%N /\ 0 < step)
        /\ (forall a, r = Val (Ok a) ->
              u_num a = num /\ u_low a = low /\ u_high a = low + width /\ u_step a = step)).
Proof. exact c08_int. Qed.
Print Assumptions C08_with_step_size_int.

Example C08_with_step_size_int_nonvacuous :
  primitive_int (unsigned 8) /\ fits (unsigned 8) 5 /\ fits (unsigned 8) 10
  /\ fits (unsigned 8) (Z.of_N 20) /\ fits (unsigned 8) (Z.of_N 20 * 10)
  /\ fits (unsigned 8) (5 + Z.of_N 20 * 10).
Proof. exact c08_example. Qed.

(** C08 fails in unchecked builds when the range does not fit: the constructor
    accepts and silently uses another range. *)
Theorem C08_with_step_size_wraps_refuted :
  forall w, let B := {| overflow_checks := false; target_width := w |} in
  exists a, @uniform_with_step_size Z (@int_ops B (signed 8)) 3 100 20 = Val (Ok a)
    /\ u_low a = -96 /\ u_high a = 100 /\ u_step a = 20.
Proof. exact c08_wraps. Qed.
Print Assumptions C08_with_step_size_wraps_refuted.

(** C09, any numeric type (integers and floats alike): the NoFlow axis against
    the flow axis with the same parameters. *)
Theorem C09_noflow_index : forall (B : Build) T (ops : NumOps T) (a : Uniform T) x i,
  (u_num a + 2 < usize_mod)%N ->
  uniform_index ops a x = Val (Some i) -> (i <= u_num a + 1)%N ->
  forall r, uniformnoflow_index ops (mkUniformNoFlow a) x = Val r <->
    (r = None /\ (i = 0%N \/ i = (u_num a + 1)%N))
    \/ (exists j, r = Some j /\ i = (j + 1)%N /\ (j < u_num a)%N).
Proof. exact c09_index. Qed.
Print Assumptions C09_noflow_index.

Theorem C09_noflow_bins : forall (B : Build) T (ops : NumOps T) (a : Uniform T),
  (u_num a + 2 < usize_mod)%N ->
  uniformnoflow_num_bins (mkUniformNoFlow a) = Val (u_num a)
  /\ (forall i, (i < u_num a)%N ->
        uniformnoflow_bin ops (mkUniformNoFlow a) i = uniform_bin ops a (i + 1))
  /\ (forall i, (u_num a <= i)%N -> (i + 1 < usize_mod)%N ->
        uniformnoflow_bin ops (mkUniformNoFlow a) i = Val None).
Proof. exact c09_bins. Qed.
Print Assumptions C09_noflow_bins.

(** C09 for integers, end to end: constructor, index, bins. *)
Theorem C09_noflow_int : forall (B : Build) (t : int_type) num low step,
  valid_int_params t num low step ->
  exists a, uniformnoflow_with_step_size (int_ops t) num low step = Val (Ok a)
  /\ uniformnoflow_num_bins a = Val num
  /\ forall x, fits t x ->
     (uniformnoflow_index (int_ops t) a x = Val None /\ (x < low \/ low + Z.of_N num * step <= x))
     \/ (exists j, uniformnoflow_index (int_ops t) a x = Val (Some j) /\ (j < num)%N
          /\ low + Z.of_N j * step <= x < low + (Z.of_N j + 1) * step).
Proof. exact c09_int. Qed.
Print Assumptions C09_noflow_int.

(** C10. *)
Theorem C10_cyclic_int_total : forall (B : Build) (t : int_type) num low step,
  valid_int_params t num low step ->
  exists a, uniformcyclic_with_step_size (int_ops t) num low step = Val (Ok a) /\
  forall x, fits t x -> fits t (x - low) ->
  exists i k, uniformcyclic_index (int_ops t) a x = Val (Some i) /\ (i < num)%N
    /\ low + Z.of_N i * step <= x + k * (Z.of_N num * step) < low + (Z.of_N i + 1) * step.
Proof. exact c10_total. Qed.
Print Assumptions C10_cyclic_int_total.

Theorem C10_cyclic_int_periodic : forall (B : Build) (t : int_type) num low step,
  valid_int_params t num low step ->
  exists a, uniformcyclic_with_step_size (int_ops t) num low step = Val (Ok a) /\
  forall x k, fits t (x - low) -> fits t (x + k * (Z.of_N num * step) - low) ->
  uniformcyclic_index (int_ops t) a (x + k * (Z.of_N num * step)) = uniformcyclic_index (int_ops t) a x.
Proof. exact c10_periodic. Qed.
Print Assumptions C10_cyclic_int_periodic.

(** Inside the range the cyclic axis and the NoFlow axis agree. *)
Theorem C10_cyclic_int_inside : forall (B : Build) (t : int_type) num low step,
  valid_int_params t num low step ->
  exists a b, uniformcyclic_with_step_size (int_ops t) num low step = Val (Ok a)
  /\ uniformnoflow_with_step_size (int_ops t) num low step = Val (Ok b)
  /\ uniformnoflow_num_bins (uc_axis a) = Val num
  /\ forall x, low <= x < low + Z.of_N num * step ->
       uniformcyclic_index (int_ops t) a x = uniformnoflow_index (int_ops t) b x.
Proof. exact c10_inside. Qed.
Print Assumptions C10_cyclic_int_inside.

Example C10_nonvacuous : forall B : Build, valid_int_params (signed 32) 12 (-6) 30
  /\ fits (signed 32) 100000 /\ fits (signed 32) (100000 - -6)
  /\ fits (signed 32) (100000 + (-500) * (Z.of_N 12 * 30) - -6).
Proof. exact c10_example. Qed.

(** C10 fails when [x - low] leaves the type, which for unsigned types is every
    [x < low]: a checked build panics ... *)
Theorem C10_unsigned_below_low_panics_refuted : forall w t num low step,
  let B := {| overflow_checks := true; target_width := w |} in
  valid_int_params t num low step ->
  exists a, @uniformcyclic_with_step_size Z (@int_ops B t) num low step = Val (Ok a) /\
  forall x, fits t x -> ~ fits t (x - low) -> @uniformcyclic_index B Z (@int_ops B t) a x = Panic.
Proof. exact c10_panics. Qed.
Print Assumptions C10_unsigned_below_low_panics_refuted.

(** ... and an unchecked build picks a wrong bin: u8 axis [10, 25) of three bins
    of width 5, x = 9 is 24 modulo 15 and belongs in bin 2, the code says bin 0. *)
Theorem C10_unsigned_below_low_wrong_bin_refuted :
  forall w, let B := {| overflow_checks := false; target_width := w |} in
  exists a, @uniformcyclic_with_step_size Z (@int_ops B (unsigned 8)) 3 10 5 = Val (Ok a)
  /\ @uniformcyclic_index B Z (@int_ops B (unsigned 8)) a 9 = Val (Some 0%N)
  /\ @uniformcyclic_index B Z (@int_ops B (unsigned 8)) a (9 + 15) = Val (Some 2%N).
Proof. exact c10_wrong. Qed.
Print Assumptions C10_unsigned_below_low_wrong_bin_refuted.
