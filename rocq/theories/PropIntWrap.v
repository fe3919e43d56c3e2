(** * PropIntWrap: integer axes in builds without overflow checks, whatever the range (C01). *)
From Coq Require Import List NArith ZArith Bool Lia ZifyBool ZifyN.
From Verif Require Import Base BaseFacts Num Axis Spec IntFacts Uniform UniformInt UniformMore PropUniformIntLemmas PropIntExact
  Value VecHist.
Import ListNotations.
Open Scope Z_scope.

(** C01, without overflow checks and for every accepted axis, even one whose upper edge
    wrapped around the type: the bin of every coordinate. The distance to the lower edge is
    computed modulo the range of the type, so an in-range coordinate may end up in the
    overflow bin or beyond all bins. *)
Theorem C01_uniform_int_index_unchecked : forall (B : Build) (t : int_type) num low step,
  primitive_int t -> fits t low -> fits t step -> overflow_checks = false ->
  (num <> 0)%N -> Z.of_N num <= int_max t -> 0 < step ->
  let high := wrap t (low + Z.of_N num * step) in
  let lower := Z.min low high in let upper := Z.max low high in
  let overflow_bin := ((num + 1) mod usize_mod)%N in
  exists a, uniform_with_step_size (int_ops t) num low step = Val (Ok a) /\
  forall x, fits t x ->
  let steps := Z.quot (wrap t (x - lower)) step in
  uniform_index (int_ops t) a x = Val (Some
    (if x <? lower then 0%N
     else if upper <=? x then overflow_bin
     else if (0 <=? steps) && (steps <? Z.of_N usize_mod) then ((Z.to_N steps + 1) mod usize_mod)%N
     else overflow_bin)).
Proof.
  intros B t num low step Ht Hl Hs Hc Hn Hnm Hs0 high lower upper overflow_bin.
  pose proof (C08_with_step_size_int_unchecked B t num low step Ht Hl Hs Hc) as H8. cbv zeta in H8.
  replace ((num =? 0)%N || (int_max t <? Z.of_N num)) with false in H8 by lia.
  replace (step <=? 0) with false in H8 by lia.
  eexists. split; [exact H8|]. intros x Hx steps.
  unfold uniform_index. cbn [u_low u_high u_step u_num].
  rewrite int_lt, int_ge. fold high. fold lower. fold upper.
  destruct (x <? lower) eqn:E1; [reflexivity|].
  assert (Hu : forall a b, uadd a b = Val ((a + b) mod usize_mod)%N).
  { intros a b. unfold uadd. rewrite Hc. destruct (a + b <? usize_mod)%N eqn:E; [|reflexivity].
    rewrite N.mod_small by lia. reflexivity. }
  destruct (upper <=? x) eqn:E2. { rewrite Hu. reflexivity. }
  cbn [n_sub n_div int_ops n_to_usize].
  pose proof (primitive_min_max t Ht) as Hb.
  rewrite int_result_wraps by assumption. cbn [obind].
  pose proof (wrap_range t (x - lower) Hb) as Hw.
  unfold int_div. replace (step =? 0) with false by lia. fold steps.
  replace (in_range t steps) with true.
  2: { symmetry. apply in_range_fits. apply quot_fits; [exact Ht | lia | exact Hw]. }
  cbn [obind]. destruct ((0 <=? steps) && (steps <? Z.of_N usize_mod)); rewrite Hu; reflexivity.
Qed.
Print Assumptions C01_uniform_int_index_unchecked.

(** C01 fails in such builds when the range does not fit the type. [i8], 20 bins of 10 from
    -100: the range [-100, 100) is accepted but 50 is put in the overflow bin 21. [u8], one bin of 60
    from 200: accepted as the range [4, 200), and 190 is put in bin 4 of an axis of 3 bins:
    a dense histogram drops the entry. *)
Theorem C01_uniform_int_wrapped_range_refuted :
  forall w, let B := {| overflow_checks := false; target_width := w |} in
  (exists a, @uniform_with_step_size Z (@int_ops B (signed 8)) 20 (-100) 10 = Val (Ok a)
     /\ @uniform_bin B Z (@int_ops B (signed 8)) a 0 = Val (Some (Underflow (-100)))
     /\ @uniform_bin B Z (@int_ops B (signed 8)) a 21 = Val (Some (Overflow 100))
     /\ @uniform_index B Z (@int_ops B (signed 8)) a 50 = Val (Some 21%N))
  /\ (exists a h, @uniform_with_step_size Z (@int_ops B (unsigned 8)) 1 200 60 = Val (Ok a)
     /\ @uniform_num_bins B Z a = Val 3%N
     /\ @uniform_index B Z (@int_ops B (unsigned 8)) a 190 = Val (Some 4%N)
     /\ @vec_new _ _ (@uniform_axis B Z (@int_ops B (unsigned 8))) {| default_v := 0 |} a = Val h
     /\ @vec_fill _ _ (@uniform_axis B Z (@int_ops B (unsigned 8))) {| fill_v := fun v => Val (v + 1) |} h 190 = Val h).
Proof.
  intros w B. split.
  - eexists. split; [destruct w; reflexivity|]. split; [destruct w; reflexivity|]. split; [destruct w; reflexivity|]. destruct w; vm_compute; reflexivity.
  - eexists. eexists. split; [destruct w; reflexivity|]. split; [destruct w; reflexivity|]. split; [destruct w; vm_compute; reflexivity|].
    split; [destruct w; reflexivity|]. destruct w; vm_compute; reflexivity.
Qed.
Print Assumptions C01_uniform_int_wrapped_range_refuted.

(** The hypotheses of the first theorem, for that [i8] axis. *)
Example C01_unchecked_nonvacuous :
  primitive_int (signed 8) /\ fits (signed 8) (-100) /\ fits (signed 8) 10 /\ Z.of_N 20 <= int_max (signed 8)
  /\ wrap (signed 8) (-100 + Z.of_N 20 * 10) = 100 /\ wrap (signed 8) (50 - -100) = -106.
Proof.
  split; [exists 8%Z; split; [lia | tauto]|]. unfold fits. repeat split; vm_compute; congruence.
Qed.
