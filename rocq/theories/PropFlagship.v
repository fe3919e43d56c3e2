(** * PropFlagship: the default f64 histogram counts (C53, concluded). *)
From stdpp Require Import gmap.
From Coq Require Import ZifyN ZifyNat Lia Reals.
From Flocq Require Import Core IEEE754.BinarySingleNaN.
From Verif Require Import Base BaseFacts Num Float FloatFacts Axis Axes Spec AxesSpec Value VecHist HashHist HistSpec
  HistFacts PropHist Macros FillSpec PropCount PropEndToEnd PropExactAxes PropAxes ExactSpec.
Open Scope N_scope.

(** A default (f64) histogram over exact axes, filled at the coordinates [cs]:
    every fill returns, and iteration yields each bin with the number of
    coordinates in its interval (as an f64: exactly that number, as long as it
    does not exceed 2^53).  By C53_tuples_exact and the exactness theorems of
    PropExactAxes this covers [ndhistogram!(x, y, ...)]. *)
Theorem C53_f64_counts : forall (B : Build) A (AX : Axis A) (a : A) n ok mem, exact_axis AX a n ok mem ->
  exists h0, @vec_new A f64 AX f64_default a = Val h0
  /\ forall cs, Forall ok cs ->
     exists h items, f64_vec_calls h0 (fills cs) = Val h
       /\ vec_iter h = Val items
       /\ N.of_nat (length items) = n
       /\ forall k it, nth_error items k = Some it ->
            let hits := N.of_nat (length (List.filter (mem (it_bin it)) cs)) in
            it_index it = N.of_nat k
            /\ bin a (N.of_nat k) = Val (Some (it_bin it))
            /\ is_finite (it_value it) = true
            /\ B2R (it_value it) = IZR (Z.of_N (N.min hits (2 ^ 53))).
Proof.
  intros B A AX a n ok mem He.
  destruct (C53_dense_contents A f64 f64 Empty_set AX f64_fill f64_fill_with f64_no_weighted f64_default
              a n ok mem He) as [h0 [H0 Hall]].
  exists h0. split; [exact H0|]. intros cs Hcs.
  assert (Hok : Forall (fun o => ok (op_coordinate o)) (fills (D := f64) (W := Empty_set) cs)).
  { unfold fills. rewrite List.Forall_forall in *. intros o Ho. apply in_map_iff in Ho as [c [<- Hc]]. cbn. auto. }
  assert (Hret : exists h, f64_vec_calls h0 (fills cs) = Val h).
  { apply (C28_vec_history_returns_iff _ _ _ _ _ _ _ _ _ _ _ _ _ (proj1 (ex_bins _ _ _ _ _ He)) H0). split.
    - intros o Ho. rewrite List.Forall_forall in Hok. destruct (ex_index _ _ _ _ _ He _ (Hok o Ho)) as [r [Hr _]]. eauto.
    - intros i _. pose proof (reaching_fills 53 1024 a i cs) as Hrf.
      eexists. eapply eq_trans; [|exact (all_count0 53 1024 prec64 emax64 ltac:(lia) (AX := AX)
        (List.filter (fun c => match index a c with Val (Some j) => j =? i | _ => false end) cs))].
      exact (f_equal (fun l => @apply_all A f64 f64 Empty_set AX f64_fill f64_fill_with f64_no_weighted l (B754_zero false)) Hrf). }
  destruct Hret as [h Hh]. destruct (Hall _ _ Hok Hh) as [items [E1 [E2 E3]]].
  exists h, items. split; [exact Hh|]. split; [exact E1|]. split; [exact E2|].
  intros k it Hk hits. destruct (E3 k it Hk) as [I1 [I2 I3]]. split; [exact I1|]. split; [exact I2|].
  assert (Hin : inside mem (it_bin it) (fills cs) = fills (D := f64) (W := Empty_set) (List.filter (mem (it_bin it)) cs)).
  { unfold inside, fills. clear. induction cs as [|c cs IH]; [reflexivity|]. cbn [map List.filter op_coordinate].
    rewrite IH. destruct (mem (it_bin it) c); reflexivity. }
  rewrite Hin in I3. pose proof (all_count0 53 1024 prec64 emax64 ltac:(lia) (List.filter (mem (it_bin it)) cs)) as Hc.
  pose proof (eq_trans (eq_sym I3) Hc) as Hv. injection Hv as Hv.
  destruct (float_of_N_exact 53 1024 prec64 emax64 (N.min hits (Z.to_N (2 ^ 53)))) as [F1 [F2 F3]]; [lia|].
  rewrite Hv. split; [exact F2 | exact F1].
Qed.
Print Assumptions C53_f64_counts.

Example C53_f64_counts_nonvacuous : forall B : Build,
  exists a, axes_from (example_axes B) = Val a
  /\ exact_axis (axes_axis [uni_i32 B; cat_Z B]) a 15 (all_ok _ (example_oks B)) (all_tests _ (example_tests B)).
Proof.
  intros B. destruct (C53_nonvacuous B) as [He [Hf _]].
  destruct (C53_tuples_exact B [uni_i32 B; cat_Z B] (example_axes B) _ _ _ ltac:(congruence) He Hf) as [a [Ha Hx]].
  exists a. split; [exact Ha | exact Hx].
Qed.
