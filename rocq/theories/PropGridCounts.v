(** * PropGridCounts: exact contents of [Hist1D] over float data on a grid (C80). *)
From stdpp Require Import gmap.
From Flocq Require Import Core IEEE754.BinarySingleNaN.
From Coq Require Import Reals Lra.
From Verif Require Import Base BaseFacts Num Float FloatFacts Axis Axes Spec AxesSpec Value VecHist HashHist HistSpec
  HistFacts PropHist Macros FillSpec PropCount PropEndToEnd PropExactAxes PropAxes ExactSpec PropFlagship FloatSpec Uniform GridSpec PropFloatGrid.
Import ListNotations.
Open Scope N_scope.

(** [ndhistogram!(Uniform::new(num, low, high)?)] over [f64] coordinates on a grid:
    after any sequence of [fill] calls the value of each bin is exactly the number of
    coordinates that lie in it (it sticks at 2^53), with the edges of the inner bins
    at the exact multiples of the bin width. *)
Theorem C80_counts : forall (B : Build) (e : Z) (num : N) (low high step : f64) (L S : Z),
  grid_params 53 1024 e num L S -> (Z.of_N num * (Z.of_N num * S) <= 2 ^ 53)%Z ->
  grid_value e low L -> grid_value e high (L + Z.of_N num * S) -> grid_value e step S ->
  forall a, uniform_new f64_ops num low high = Val (Ok a) \/ uniform_with_step_size f64_ops num low step = Val (Ok a) ->
  let AX := @axes1_axis _ (uniform_axis f64_ops) in
  exists h0, ndhistogram1 (V := f64) (DV := f64_default) (AX := uniform_axis f64_ops) a = Val h0
  /\ forall cs : list f64, Forall (on_grid e) cs ->
     exists h items, @vec_calls _ f64 f64 Empty_set AX f64_fill f64_fill_with f64_no_weighted h0 (fills cs) = Val h
       /\ vec_iter h = Val items
       /\ N.of_nat (length items) = num + 2
       /\ forall k it, nth_error items k = Some it ->
            let hits := List.filter (in_interval (@num_ord _ f64_ops) (it_bin it)) cs in
            it_index it = N.of_nat k
            /\ uniform_bin f64_ops a (N.of_nat k) = Val (Some (it_bin it))
            /\ is_finite (it_value it) = true
            /\ B2R (it_value it) = IZR (Z.of_N (N.min (N.of_nat (length hits)) (2 ^ 53))).
Proof.
  intros B e num low high step L S HG HWW Hl Hh Hs a Ha AX.
  assert (Hex : exact_axis (uniform_axis f64_ops) a (num + 2) (on_grid e) (in_interval (@num_ord _ f64_ops))).
  { destruct (C80_grid_exact 53 1024 prec64 emax64 B e num low high step L S f64_covered HG HWW Hl Hh Hs)
      as [[a1 [_ [_ [H1 [_ [_ [E1 _]]]]]]] [a2 [_ [_ [H2 [_ [_ [E2 _]]]]]]]].
    destruct Ha as [Ha|Ha].
    - assert (Heq : a1 = a). { pose proof (eq_trans (eq_sym H1) Ha) as Hq. injection Hq as ->. reflexivity. } subst a1. exact E1.
    - assert (Heq : a2 = a). { pose proof (eq_trans (eq_sym H2) Ha) as Hq. injection Hq as ->. reflexivity. } subst a2. exact E2. }
  destruct (C53_tuple1_exact _ _ a _ _ _ Hex) as [t [Ht Het]].
  assert (Hx : ax1_axis t = a).
  { unfold axes1_from in Ht. apply obind_val in Ht as [s [_ Ht]]. injection Ht as <-. reflexivity. }
  destruct (C53_f64_counts B _ _ t _ _ _ Het) as [h0 [H0 Hall]].
  exists h0. split; [unfold ndhistogram1; rewrite Ht; exact H0|].
  intros cs Hcs. destruct (Hall cs Hcs) as [h [items [E1 [E2 [E3 E4]]]]].
  exists h, items. split; [exact E1|]. split; [exact E2|]. split; [exact E3|].
  intros k it Hk hits. destruct (E4 k it Hk) as [I1 [I2 [I3 I4]]].
  split; [exact I1|]. split; [cbn [bin axes1_axis uniform_axis] in I2; rewrite Hx in I2; exact I2|].
  split; [exact I3 | exact I4].
Qed.
Print Assumptions C80_counts.

(** Case: [Uniform::new(8, -1.0, 2.0)] filled with multiples of 1/8 and NaN. *)
Example C80_counts_nonvacuous : forall B : Build,
  grid_params 53 1024 (-3) 8 (-8) 3 /\ (Z.of_N 8 * (Z.of_N 8 * 3) <= 2 ^ 53)%Z
  /\ (exists a, uniform_new f64_ops 8 (f64_lit (-8) (-3)) (f64_lit 16 (-3)) = Val (Ok a))
  /\ Forall (on_grid (-3)) [f64_lit 1 (-3); f64_lit 4 (-3); f64_lit (-9) (-3); B754_nan; B754_infinity false].
Proof.
  intros B. destruct (C80_nonvacuous B) as [_ [[H1 [H2 _]] [_ [a [Ha _]]]]].
  split; [exact H1|]. split; [exact H2|]. split; [exists a; exact Ha|].
  assert (Hg : forall m, (Z.abs m <= 2 ^ 53)%Z -> on_grid (-3) (f64_lit m (-3))).
  { intros m Hm _. destruct (f64_grid m (-3) Hm (gp_exponent _ _ _ _ _ _ H1)) as [_ Hv]. exists m. exact Hv. }
  repeat (apply Forall_cons_2; [first [apply Hg; vm_compute; discriminate | intros Hf; discriminate Hf]|]). apply Forall_nil_2.
Qed.
