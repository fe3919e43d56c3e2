(** * Property theorems: Uniform axes over floats (C03, C04, C05, C06, C07, C08). *)
From Coq Require Import List ZArith NArith Bool Lia Reals Lra ZifyN ZifyNat.
From Flocq Require Import Core IEEE754.BinarySingleNaN.
From Verif Require Import Base BaseFacts Num Float Axis Spec OrdLaws FloatOrd FloatFacts FloatSpec Uniform
  FloatUniform FloatUniformNew FloatUniformAcc FloatUniformEdge.
Open Scope R_scope.

Section Flt.
Context {prec emax : Z} {P : Prec_gt_0 prec} {E : Prec_lt_emax prec emax} {Bd : Build}.
Notation flt := (binary_float prec emax).
Notation ops := (float_ops prec emax P E).

Lemma flt_lt_iff (x y : flt) : flt_lt x y <-> @lt_ _ (@num_ord _ ops) x y = true.
Proof. unfold flt_lt, lt_. cbn [partial_cmp num_ord float_ops]. destruct (Bcompare x y) as [[]|]; split; congruence. Qed.
Lemma flt_eq_iff (x y : flt) : flt_eq x y <-> @eq_ _ (@num_ord _ ops) x y = true.
Proof. unfold flt_eq, eq_. cbn [partial_cmp num_ord float_ops]. destruct (Bcompare x y) as [[]|]; split; congruence. Qed.
Lemma flt_le_iff (x y : flt) : flt_le x y <-> @le_ _ (@num_ord _ ops) x y = true.
Proof.
  unfold flt_le, flt_lt, flt_eq, le_. cbn [partial_cmp num_ord float_ops].
  destruct (Bcompare x y) as [[]|]; split; intuition congruence.
Qed.
Lemma flt_gt_iff (x y : flt) : flt_lt y x <-> @gt_ _ (@num_ord _ ops) x y = true.
Proof. rewrite flt_lt_iff. rewrite (gt_lt _ _ (float_ord_laws prec emax P E)). reflexivity. Qed.
Lemma flt_ge_iff (x y : flt) : flt_le y x <-> @ge_ _ (@num_ord _ ops) x y = true.
Proof. rewrite flt_le_iff. rewrite (ge_le _ _ (float_ord_laws prec emax P E)). reflexivity. Qed.
Lemma flt_lt_R (x y : flt) : is_finite x = true -> is_finite y = true -> B2R x < B2R y -> flt_lt x y.
Proof. intros Fx Fy Hlt. apply flt_lt_iff. rewrite lt_fin by assumption. apply Rlt_bool_true. exact Hlt. Qed.
Lemma flt_le_R (x y : flt) : is_finite x = true -> is_finite y = true -> flt_le x y -> B2R x <= B2R y.
Proof.
  intros Fx Fy Hle. apply flt_le_iff in Hle. rewrite le_fin in Hle by assumption.
  destruct (Rle_bool_spec (B2R x) (B2R y)); [assumption | discriminate].
Qed.
Lemma smallest_normal_eq : smallest_normal emax = bpow radix2 (SpecFloat.emin prec emax + prec - 1).
Proof. unfold smallest_normal, SpecFloat.emin. f_equal. lia. Qed.
End Flt.

(** ** C08: the float constructors *)

(** C08: every outcome of [Uniform::new]: an error for no bins or an empty range,
    otherwise the axis whose underflow bin ends at the smaller and whose overflow
    bin starts at the larger of the two edges; exchanging two ordered edges makes
    no difference. *)
Theorem C08_new_float : forall (prec emax : Z) (P : Prec_gt_0 prec) (E : Prec_lt_emax prec emax) (B : Build)
  (num : N) (low high : binary_float prec emax),
  (num + 2 < usize_mod)%N ->
  let ops := float_ops prec emax P E in
  let r := uniform_new ops num low high in
  (num = 0%N -> r = Val (Err InvalidNumberOfBins))
  /\ (num <> 0%N -> flt_eq low high -> r = Val (Err InvalidAxisRange))
  /\ (num <> 0%N -> ~ flt_eq low high ->
        exists a, r = Val (Ok a)
        /\ uniform_num_bins a = Val (num + 2)%N
        /\ (~ flt_lt high low -> uniform_bin ops a 0 = Val (Some (Underflow low))
                                 /\ uniform_bin ops a (num + 1) = Val (Some (Overflow high)))
        /\ (flt_lt high low -> uniform_bin ops a 0 = Val (Some (Underflow high))
                               /\ uniform_bin ops a (num + 1) = Val (Some (Overflow low))))
  /\ (flt_lt high low -> r = uniform_new ops num high low).
Proof.
  intros prec emax P E B num low high Hn ops r.
  assert (Hov : forall a : Uniform (binary_float prec emax), u_num a = num ->
    uniform_bin ops a 0 = Val (Some (Underflow (u_low a)))
    /\ uniform_bin ops a (num + 1) = Val (Some (Overflow (u_high a)))).
  { intros a <-. split; [reflexivity|]. unfold uniform_bin. rewrite uadd_ok by lia. cbn [obind].
    rewrite N.eqb_refl. destruct (N.eqb_spec (u_num a + 1) 0); [lia | reflexivity]. }
  split; [intros ->; reflexivity|]. split; [|split].
  - intros Hnz He. unfold r, uniform_new. destruct (N.eqb_spec num 0); [contradiction|].
    apply flt_eq_iff in He. fold ops in He. rewrite He. reflexivity.
  - intros Hnz Hne. unfold r, uniform_new. destruct (N.eqb_spec num 0); [contradiction|].
    destruct (eq_ low high) eqn:Ee; [exfalso; apply Hne; apply flt_eq_iff; exact Ee|].
    destruct (gt_ low high) eqn:Eg; cbn [n_sub n_div n_from_usize float_ops obind ops];
      (eexists; split; [reflexivity|]); (split; [apply uadd_ok; exact Hn|]).
    + split; [intros Hc; exfalso; apply Hc, flt_gt_iff; exact Eg|]. intros _. apply (Hov (mkUniform _ _ _ _)). reflexivity.
    + split; [intros _; apply (Hov (mkUniform _ _ _ _)); reflexivity|].
      intros Hc. apply flt_gt_iff in Hc. fold ops in Hc. congruence.
  - intros Hc. unfold r, uniform_new. pose proof (float_ord_laws prec emax P E) as L. fold ops in L.
    pose proof Hc as Hg. apply flt_gt_iff in Hg. fold ops in Hg. apply flt_lt_iff in Hc. fold ops in Hc.
    rewrite Hg. rewrite (eq_sym_ _ _ L low high).
    assert (Hg' : gt_ high low = false).
    { rewrite (gt_lt _ _ L). destruct (lt_ low high) eqn:El; [|reflexivity]. exfalso.
      apply (lt_not_le _ _ L _ _ El). apply lt_le. exact Hc. }
    rewrite Hg'. reflexivity.
Qed.
Print Assumptions C08_new_float.

(** The upper edge [with_step_size] computes. *)
Lemma step_no_swap {prec emax : Z} {Bd : Build} (P : Prec_gt_0 prec) (E : Prec_lt_emax prec emax) (num : N) (low step : binary_float prec emax) :
  covered_format prec emax -> (1 <= Z.of_N num < 2 ^ (prec - 1))%Z -> (num + 2 < usize_mod)%N -> ~ flt_le step (B754_zero false) ->
  @gt_ _ (@num_ord _ (float_ops prec emax P E)) low
     (Bplus mode_NE (Bmult mode_NE (float_of_N prec emax P E num) step) low) = false.
Proof.
  intros [Hp He] Hn Hus Hs.
  assert (Hs' : @le_ _ (@num_ord _ (float_ops prec emax P E)) step (B754_zero false) = false).
  { destruct (le_ step (B754_zero false)) eqn:El; [|reflexivity]. exfalso. apply Hs, flt_le_iff. exact El. }
  destruct (num_float prec emax P E ltac:(lia) num Hn) as [N1 [N2 [N3 N4]]].
  assert (Hmul : is_finite_strict step = false ->
     Bmult mode_NE (float_of_N prec emax P E num) step = B754_nan
     \/ Bmult mode_NE (float_of_N prec emax P E num) step = B754_infinity false).
  { intros Hf. destruct step as [s|[]| |s m e Hb]; try discriminate; try (destruct s; discriminate);
      destruct (float_of_N prec emax P E num) as [|[]| |[] ? ? ?] eqn:En; try discriminate; cbn in N1; try lra; auto. }
  destruct (step_positive prec emax P E _ Hs') as [Hf|[Fs Hpos]].
  - destruct (Hmul Hf) as [-> | ->]; destruct low as [|[]| |[]]; reflexivity.
  - destruct (is_finite low) eqn:Fl.
    + apply (regular_step prec emax P E ltac:(lia) num low step Hn Hus Fl Fs Hpos).
    + destruct low as [|[]| |[]]; try discriminate; unfold gt_; cbn [partial_cmp num_ord float_ops];
        destruct (Bmult mode_NE (float_of_N prec emax P E num) step) as [|[]| |[]]; reflexivity.
Qed.

(** C08: every outcome of [with_step_size]: an error for no bins or a step that is
    zero or negative, otherwise the axis from [low] to [num * step + low] as
    computed in floating point. *)
Theorem C08_with_step_size_float : forall (prec emax : Z) (P : Prec_gt_0 prec) (E : Prec_lt_emax prec emax) (B : Build)
  (num : N) (low step : binary_float prec emax),
  covered_format prec emax -> (Z.of_N num < 2 ^ (prec - 1))%Z -> (num + 2 < usize_mod)%N ->
  let ops := float_ops prec emax P E in
  let r := uniform_with_step_size ops num low step in
  (num = 0%N -> r = Val (Err InvalidNumberOfBins))
  /\ (num <> 0%N -> flt_le step (B754_zero false) -> r = Val (Err InvalidStepSize))
  /\ (num <> 0%N -> ~ flt_le step (B754_zero false) ->
        exists a, r = Val (Ok a)
        /\ uniform_num_bins a = Val (num + 2)%N
        /\ uniform_bin ops a 0 = Val (Some (Underflow low))
        /\ uniform_bin ops a (num + 1)
           = Val (Some (Overflow (Bplus mode_NE (Bmult mode_NE (float_of_N prec emax P E num) step) low)))).
Proof.
  intros prec emax P E B num low step Hf Hn Hus ops r. pose proof Hf as [Hp He].
  pose proof Hus as Hu.
  split; [intros ->; reflexivity|]. split.
  - intros Hnz Hle. unfold r, uniform_with_step_size. cbn [n_from_usize n_mul n_add n_zero float_ops obind ops].
    destruct (N.eqb_spec num 0); [contradiction|]. apply flt_le_iff in Hle. fold ops in Hle. rewrite Hle. reflexivity.
  - intros Hnz Hle. unfold r, uniform_with_step_size. cbn [n_from_usize n_mul n_add n_zero float_ops obind ops].
    destruct (N.eqb_spec num 0); [contradiction|].
    destruct (le_ step (B754_zero false)) eqn:El; [exfalso; apply Hle, flt_le_iff; exact El|].
    pose proof (step_no_swap P E num low step Hf ltac:(lia) Hus Hle) as Hg. fold ops in Hg. rewrite Hg.
    eexists; split; [reflexivity|]. split; [apply uadd_ok; exact Hu|]. split; [reflexivity|].
    unfold uniform_bin. cbn [u_num u_high]. rewrite uadd_ok by lia. cbn [obind]. rewrite N.eqb_refl.
    destruct (N.eqb_spec (num + 1) 0); [lia | reflexivity].
Qed.
Print Assumptions C08_with_step_size_float.

(** C08, as documented, fails: a NaN step is accepted, and so is a step too small
    to move the upper edge away from the lower one (an empty range). *)
Theorem C08_step_validation_refuted : forall B : Build,
  (exists a, uniform_with_step_size f64_ops 4 (f64_lit 0 0) B754_nan = Val (Ok a))
  /\ (exists a low step, uniform_with_step_size f64_ops 4 low step = Val (Ok a)
        /\ B2SF low = B2SF (f64_lit 1 60) /\ B2SF step = B2SF (f64_lit 1 0)
        /\ uniform_bin f64_ops a 0 = Val (Some (Underflow low))
        /\ uniform_bin f64_ops a 5 = Val (Some (Overflow low))).
Proof.
  intros B. split.
  - eexists. reflexivity.
  - exists (mkUniform 4 (f64_lit 1 60) (f64_lit 1 60) (f64_lit 1 0)), (f64_lit 1 60), (f64_lit 1 0).
    assert (Hh : Bplus mode_NE (Bmult mode_NE (float_of_N 53 1024 prec64 emax64 4) (f64_lit 1 0)) (f64_lit 1 60) = f64_lit 1 60)
      by (apply B2SF_inj; vm_compute; reflexivity).
    split; [|split; [reflexivity|split; [reflexivity|]]].
    + unfold uniform_with_step_size. cbn [n_from_usize n_mul n_add n_zero float_ops f64_ops obind]. rewrite Hh.
      replace (4 =? 0)%N with false by reflexivity.
      replace (le_ (f64_lit 1 0) (B754_zero false)) with false by (vm_compute; reflexivity).
      replace (gt_ (f64_lit 1 60) (f64_lit 1 60)) with false by (vm_compute; reflexivity). reflexivity.
    + split; [reflexivity|]. unfold uniform_bin. cbn [u_num u_high]. rewrite uadd_ok by (destruct B as [? []]; reflexivity). reflexivity.
Qed.
Print Assumptions C08_step_validation_refuted.

(** ** Accepted axes *)

(** [a] was returned by [Uniform::new(num, low, high)], for bins that are not
    narrower than the smallest normal number, or by [with_step_size(num, low, step)]
    (any accepted arguments, infinities and NaN included). *)
Inductive made_axis {prec emax : Z} {P : Prec_gt_0 prec} {E : Prec_lt_emax prec emax} {B : Build}
  (num : N) (a : Uniform (binary_float prec emax)) : Prop :=
| made_by_new (low high : binary_float prec emax) :
    uniform_new (float_ops prec emax P E) num low high = Val (Ok a) ->
    (is_finite low = true -> is_finite high = true ->
       IZR (Z.of_N num) * smallest_normal emax <= Rabs (B2R high - B2R low)) ->
    made_axis num a
| made_by_step (low step : binary_float prec emax) :
    uniform_with_step_size (float_ops prec emax P E) num low step = Val (Ok a) ->
    made_axis num a.

Lemma made_disposition {prec emax : Z} {P : Prec_gt_0 prec} {E : Prec_lt_emax prec emax} {B : Build} num
  (a : Uniform (binary_float prec emax)) : covered_format prec emax -> (Z.of_N num < 2 ^ (prec - 1))%Z -> (num + 2 < usize_mod)%N -> made_axis num a ->
  u_num a = num /\ (regular prec emax P E a \/ degenerate prec emax a).
Proof.
  intros [Hp He] Hn Hus [low high Ha Hw | low step Ha].
  - rewrite (@smallest_normal_eq prec emax) in Hw. eapply new_disposition; eassumption.
  - eapply step_disposition; eassumption.
Qed.

(** ** C03: flow bins and special values *)

(** C03, [Uniform::new]: coordinates below both edges are in bin 0, coordinates at or above
    both edges and NaN in bin [num + 1]. *)
Theorem C03_new_float_flow : forall (prec emax : Z) (P : Prec_gt_0 prec) (E : Prec_lt_emax prec emax) (B : Build)
  (num : N) (low high : binary_float prec emax) a,
  covered_format prec emax -> (num + 1 < usize_mod)%N ->
  uniform_new (float_ops prec emax P E) num low high = Val (Ok a) ->
  (forall x, flt_lt x low -> flt_lt x high -> uniform_index (float_ops prec emax P E) a x = Val (Some 0%N))
  /\ (forall x, flt_le low x -> flt_le high x -> uniform_index (float_ops prec emax P E) a x = Val (Some (num + 1)%N))
  /\ uniform_index (float_ops prec emax P E) a B754_nan = Val (Some (num + 1)%N).
Proof.
  intros prec emax P E B num low high a [Hp He] Hn Ha. destruct (new_ok _ _ _ _ _ _ _ _ Ha) as [Hnz [Ene [lo [hi [Elh ->]]]]].
  pose proof (float_ord_laws prec emax P E) as L.
  split; [|split].
  - intros x Hl Hh. apply flt_lt_iff in Hl, Hh. unfold uniform_index. cbn [u_low].
    replace (lt_ x lo) with true; [reflexivity|]. destruct (gt_ low high); injection Elh as -> ->; symmetry; assumption.
  - intros x Hl Hh. apply flt_le_iff in Hl, Hh. unfold uniform_index. cbn [u_low u_high u_num].
    pose (I := @num_ord _ (float_ops prec emax P E)).
    assert (Hlx : @lt_ _ I x lo = false /\ @ge_ _ I x hi = true).
    { unfold I. rewrite (ge_le _ _ L). destruct (gt_ low high); injection Elh as -> ->; (split; [|assumption]);
        (destruct (lt_ x _) eqn:El; [exfalso; eapply (lt_not_le _ _ L); eassumption | reflexivity]). }
    unfold I in Hlx. destruct Hlx as [-> ->]. rewrite uadd_ok by exact Hn. reflexivity.
  - apply index_nan; [lia | exact He | exact Hn].
Qed.
Print Assumptions C03_new_float_flow.

(** C03, [with_step_size], where the upper edge is [num * step + low] in floating point. *)
Theorem C03_with_step_size_float_flow : forall (prec emax : Z) (P : Prec_gt_0 prec) (E : Prec_lt_emax prec emax) (B : Build)
  (num : N) (low step : binary_float prec emax) a,
  covered_format prec emax -> (Z.of_N num < 2 ^ (prec - 1))%Z -> (num + 2 < usize_mod)%N ->
  uniform_with_step_size (float_ops prec emax P E) num low step = Val (Ok a) ->
  let high := Bplus mode_NE (Bmult mode_NE (float_of_N prec emax P E num) step) low in
  (forall x, flt_lt x low -> uniform_index (float_ops prec emax P E) a x = Val (Some 0%N))
  /\ (forall x, flt_le high x -> uniform_index (float_ops prec emax P E) a x = Val (Some (num + 1)%N))
  /\ uniform_index (float_ops prec emax P E) a B754_nan = Val (Some (num + 1)%N).
Proof.
  intros prec emax P E B num low step a Hf Hn Hus Ha high. pose proof Hf as [Hp He].
  pose proof Hus as Hu.
  destruct (step_ok _ _ _ _ _ _ _ _ Ha) as [Hnz [Hle [lo [hi [Elh ->]]]]].
  pose proof (float_ord_laws prec emax P E) as L.
  assert (Hs : ~ flt_le step (B754_zero false)) by (intros Hc; apply flt_le_iff in Hc; congruence).
  pose proof (step_no_swap P E num low step Hf ltac:(lia) Hus Hs) as Hg. rewrite Hg in Elh. injection Elh as -> ->. fold high in Hg |- *.
  split; [|split].
  - intros x Hl. apply flt_lt_iff in Hl. unfold uniform_index. cbn [u_low]. rewrite Hl. reflexivity.
  - intros x Hh. apply flt_le_iff in Hh. unfold uniform_index. cbn [u_low u_high u_num].
    pose (I := @num_ord _ (float_ops prec emax P E)).
    assert (Hlx : @lt_ _ I x low = false /\ @ge_ _ I x high = true).
    { unfold I. rewrite (ge_le _ _ L). split; [|exact Hh]. destruct (lt_ x low) eqn:El; [|reflexivity].
      pose proof (le_lt_trans _ _ L _ _ _ Hh El) as Hc. rewrite (gt_lt _ _ L) in Hg. congruence. }
    unfold I in Hlx. destruct Hlx as [-> ->]. rewrite uadd_ok by lia. reflexivity.
  - apply index_nan; [lia | exact He | cbn [u_num]; lia].
Qed.
Print Assumptions C03_with_step_size_float_flow.

(** C03: bin 0 holds nothing else. *)
Theorem C03_float_underflow_only : forall (prec emax : Z) (P : Prec_gt_0 prec) (E : Prec_lt_emax prec emax) (B : Build)
  (num : N) (a : Uniform (binary_float prec emax)) x low,
  covered_format prec emax -> (Z.of_N num < 2 ^ (prec - 1))%Z -> (num + 2 < usize_mod)%N -> made_axis num a ->
  uniform_bin (float_ops prec emax P E) a 0 = Val (Some (Underflow low)) ->
  (uniform_index (float_ops prec emax P E) a x = Val (Some 0%N) <-> flt_lt x low).
Proof.
  intros prec emax P E B num a x low Hf Hn Hus Ha Hb. injection Hb as <-.
  destruct (made_disposition num a Hf Hn Hus Ha) as [Hnum D]. destruct Hf as [Hp He].
  rewrite flt_lt_iff. split.
  - intros Hi. destruct D as [R|D].
    + destruct (regular_cases prec emax P E ltac:(lia) He a x R) as [[Ex _]|[[_ [_ Ei]]|[[_ Ei]|[E1 [E2 Fx]]]]];
        [exact Ex | rewrite Hi in Ei; injection Ei as Ei; lia.. |].
      destruct (regular_accuracy prec emax P E Hp He a x R Fx E1 E2) as [[_ [k [_ [Ei _]]]]|[_ Ei]];
        rewrite Hi in Ei; injection Ei as Ei; lia.
    + destruct (degenerate_cases prec emax P E ltac:(lia) He a x D) as [[Ex _]|[[_ [_ Ei]]|[_ [_ [[_ [_ [_ Ei]]]|[_ Ei]]]]]];
        [exact Ex | rewrite Hi in Ei; injection Ei as Ei; lia..].
  - intros Hl. unfold uniform_index. rewrite Hl. reflexivity.
Qed.
Print Assumptions C03_float_underflow_only.

(** ** C04: every index is a valid bin number *)
Theorem C04_float_index_valid : forall (prec emax : Z) (P : Prec_gt_0 prec) (E : Prec_lt_emax prec emax) (B : Build)
  (num : N) (a : Uniform (binary_float prec emax)),
  covered_format prec emax -> (Z.of_N num < 2 ^ (prec - 1))%Z -> (num + 2 < usize_mod)%N -> made_axis num a ->
  uniform_num_bins a = Val (num + 2)%N
  /\ forall x, exists i, uniform_index (float_ops prec emax P E) a x = Val (Some i) /\ (i < num + 2)%N.
Proof.
  intros prec emax P E B num a Hf Hn Hus Ha. destruct (made_disposition num a Hf Hn Hus Ha) as [Hnum D]. destruct Hf as [Hp He].
  pose proof Hus as Hu.
  split; [unfold uniform_num_bins; rewrite Hnum; apply uadd_ok; exact Hu|]. intros x. destruct D as [R|D].
  - destruct (regular_valid prec emax P E ltac:(lia) He a x R) as [i [Ei Hi]]. exists i. split; [exact Ei | lia].
  - destruct (degenerate_valid prec emax P E ltac:(lia) He a x D) as [i [Ei Hi]]. exists i. split; [exact Ei | lia].
Qed.
Print Assumptions C04_float_index_valid.

(** ** C05: the index is monotone *)
Theorem C05_float_index_monotone : forall (prec emax : Z) (P : Prec_gt_0 prec) (E : Prec_lt_emax prec emax) (B : Build)
  (num : N) (a : Uniform (binary_float prec emax)) x y i j,
  covered_format prec emax -> (Z.of_N num < 2 ^ (prec - 1))%Z -> (num + 2 < usize_mod)%N -> made_axis num a ->
  flt_le x y ->
  uniform_index (float_ops prec emax P E) a x = Val (Some i) ->
  uniform_index (float_ops prec emax P E) a y = Val (Some j) ->
  (i <= j)%N.
Proof.
  intros prec emax P E B num a x y i j Hf Hn Hus Ha Hxy. destruct (made_disposition num a Hf Hn Hus Ha) as [Hnum D]. destruct Hf as [Hp He].
  apply flt_le_iff in Hxy. destruct D as [R|D].
  - apply (regular_monotone prec emax P E ltac:(lia) He a x y i j R Hxy).
  - apply (degenerate_monotone prec emax P E ltac:(lia) He a x y i j D Hxy).
Qed.
Print Assumptions C05_float_index_monotone.

(** ** C06: accuracy of the index *)

Lemma new_normal {prec emax : Z} {P : Prec_gt_0 prec} {E : Prec_lt_emax prec emax} {B : Build}
  (num : N) (low high : binary_float prec emax) :
  covered_format prec emax -> (1 <= Z.of_N num < 2 ^ (prec - 1))%Z -> (num + 2 < usize_mod)%N ->
  is_finite low = true -> is_finite high = true -> B2R low < B2R high ->
  let s := Bdiv mode_NE (Bminus mode_NE high low) (float_of_N prec emax P E num) in
  let a := mkUniform num low high s in
  uniform_new (float_ops prec emax P E) num low high = Val (Ok a)
  /\ (is_finite (Bminus mode_NE high low) = true ->
      IZR (Z.of_N num) * smallest_normal emax <= B2R high - B2R low ->
      regular prec emax P E a
      /\ let w := ideal_width num (B2R low) (B2R high) in
         0 < w /\ w * ((1 - bpow radix2 (- prec)) * (1 - bpow radix2 (- prec))) <= B2R s
                  <= w * ((1 + bpow radix2 (- prec)) * (1 + bpow radix2 (- prec)))).
Proof.
  intros [Hp He] Hn Hus Fl Fh Hlt s a.
  split.
  - unfold uniform_new. destruct (N.eqb_spec num 0); [lia|].
    destruct (fin_trichotomy prec emax P E low high Fl Fh) as [(_&T2&T3&_)|[(_&_&_&T4)|(_&_&_&T4)]]; [|lra|lra].
    rewrite T3, T2. reflexivity.
  - intros Fw Hw. rewrite (@smallest_normal_eq prec emax) in Hw.
    destruct (width_normal prec emax P E Hp num low high Hn Fl Fh Hlt Fw Hw) as [_ Hs].
    destruct (num_float prec emax P E ltac:(lia) num Hn) as [_ [_ [_ N4]]].
    split; [apply regular_new; auto; lia|]. split.
    + apply Rmult_lt_0_compat; [lra | apply Rinv_0_lt_compat; lra].
    + apply step_accuracy_new; assumption.
Qed.

(** C06, [Uniform::new].  With [w] the ideal width and [u] half the machine
    epsilon: a float in bin [i] is within the relative error [4 u] of the [i]-th ideal bin; a
    float at least that far inside the [i]-th ideal bin is in bin [i]; and a float
    below [high] counted as overflow is within the error of [high]. *)
Theorem C06_new_float_accuracy : forall (prec emax : Z) (P : Prec_gt_0 prec) (E : Prec_lt_emax prec emax) (B : Build)
  (num : N) (low high : binary_float prec emax),
  covered_format prec emax -> (1 <= Z.of_N num < 2 ^ (prec - 1))%Z -> (num + 2 < usize_mod)%N ->
  is_finite low = true -> is_finite high = true -> B2R low < B2R high ->
  is_finite (Bminus mode_NE high low) = true ->
  IZR (Z.of_N num) * smallest_normal emax <= B2R high - B2R low ->
  let w := ideal_width num (B2R low) (B2R high) in
  let u := unit_roundoff prec in
  exists a, uniform_new (float_ops prec emax P E) num low high = Val (Ok a)
  /\ (forall x i, uniform_index (float_ops prec emax P E) a x = Val (Some i) -> (1 <= i <= num)%N ->
        is_finite x = true /\ B2R low <= B2R x < B2R high
        /\ (IZR (Z.of_N i) - 1) * w * (1 - 4 * u) <= B2R x - B2R low < IZR (Z.of_N i) * w * (1 + 4 * u))
  /\ (forall x i, is_finite x = true -> (1 <= i <= num)%N ->
        (IZR (Z.of_N i) - 1) * w * (1 + 4 * u) <= B2R x - B2R low < IZR (Z.of_N i) * w * (1 - 4 * u) ->
        uniform_index (float_ops prec emax P E) a x = Val (Some i))
  /\ (forall x, is_finite x = true -> B2R x < B2R high ->
        uniform_index (float_ops prec emax P E) a x = Val (Some (num + 1)%N) ->
        (B2R high - B2R low) * (1 - 4 * u) <= B2R x - B2R low).
Proof.
  intros prec emax P E B num low high Hf Hn Hus Fl Fh Hlt Fw Hw w u.
  destruct (new_normal (P := P) (E := E) num low high Hf Hn Hus Fl Fh Hlt) as [Ea Hr]. destruct (Hr Fw Hw) as [R [Hw0 Hws]]. clear Hr.
  pose proof Hf as [Hp He]. fold w in Hw0, Hws. set (s := Bdiv mode_NE _ _) in *.
  exists (mkUniform num low high s). set (a := mkUniform num low high s) in *.
  split; [exact Ea|].
  destruct (num_float prec emax P E ltac:(lia) num Hn) as [_ [_ [_ N4]]].
  assert (HW : IZR (Z.of_N num) * w = B2R high - B2R low) by (unfold w, ideal_width; field; lra).
  assert (Hrnd : forall x : binary_float prec emax, is_finite x = true -> @ge_ _ (@num_ord _ (float_ops prec emax P E)) x high = false ->
    round radix2 (SpecFloat.fexp prec emax) (round_mode mode_NE) (B2R x - B2R low) < bpow radix2 emax).
  { intros x Fx Hge. destruct (width_computed prec emax P E low high Fl Fh Hlt Fw) as [W1 W2].
    eapply Rle_lt_trans; [|exact W2]. apply rnd_le; [exact P|].
    pose proof (ge_fin_false prec emax P E x high Fx Fh Hge). lra. }
  split; [|split].
  - intros x i Hi Hr. destruct (bin_bounds prec emax P E Hp He a w R Hw0 Hws x i Hi Hr) as [Fx [E1 [E2 B1]]].
    split; [exact Fx|]. split; [|exact B1].
    split; [apply (lt_fin_false prec emax P E _ _ Fx Fl E1) | apply (ge_fin_false prec emax P E _ _ Fx Fh E2)].
  - intros x i Fx Hi Hb. pose proof (u_pos prec) as Hu0. pose proof (u_tiny prec Hp) as Hu1. fold (unit_roundoff prec) in Hu0, Hu1. fold u in Hu0, Hu1.
    assert (Hi1 : 0 <= IZR (Z.of_N i) - 1) by (assert (1 <= IZR (Z.of_N i)) by (apply IZR_le; lia); lra).
    assert (Hi2 : IZR (Z.of_N i) <= IZR (Z.of_N num)) by (apply IZR_le; lia).
    assert (Hlx : B2R low <= B2R x).
    { assert (0 <= (IZR (Z.of_N i) - 1) * w * (1 + 4 * u)); [|lra]. apply Rmult_le_pos; [apply Rmult_le_pos; lra | lra]. }
    assert (Hxh : B2R x < B2R high).
    { assert (Hiw : 0 < IZR (Z.of_N i) * w) by (apply Rmult_lt_0_compat; lra).
      assert (IZR (Z.of_N i) * w * (1 - 4 * u) <= IZR (Z.of_N i) * w) by nra.
      assert (IZR (Z.of_N i) * w <= IZR (Z.of_N num) * w) by (apply Rmult_le_compat_r; lra). lra. }
    assert (E1 : @lt_ _ (@num_ord _ (float_ops prec emax P E)) x low = false) by (rewrite lt_fin by assumption; apply Rlt_bool_false; exact Hlx).
    assert (E2 : @ge_ _ (@num_ord _ (float_ops prec emax P E)) x high = false) by (rewrite ge_fin by assumption; apply Rle_bool_false; exact Hxh).
    replace i with ((i - 1) + 1)%N by lia.
    apply (bin_found prec emax P E Hp He a w R Hw0 Hws); [exact Fx | exact E1 | exact E2 | apply Hrnd; assumption |].
    rewrite N2Z.inj_sub by lia. rewrite minus_IZR. change (IZR (Z.of_N 1)) with 1.
    replace (IZR (Z.of_N i) - 1 + 1) with (IZR (Z.of_N i)) by ring. exact Hb.
  - intros x Fx Hxh Hi.
    assert (E2 : @ge_ _ (@num_ord _ (float_ops prec emax P E)) x high = false) by (rewrite ge_fin by assumption; apply Rle_bool_false; exact Hxh).
    destruct (@lt_ _ (@num_ord _ (float_ops prec emax P E)) x low) eqn:E1.
    { exfalso. unfold uniform_index in Hi. cbn [u_low a] in Hi. rewrite E1 in Hi. injection Hi as Hi. lia. }
    rewrite <- HW. apply (overflow_bound prec emax P E Hp He a w R Hw0 Hws); auto. 
Qed.
Print Assumptions C06_new_float_accuracy.

(** C06, [with_step_size]: the same bounds relative to the given step. *)
Theorem C06_with_step_size_float_accuracy : forall (prec emax : Z) (P : Prec_gt_0 prec) (E : Prec_lt_emax prec emax) (B : Build)
  (num : N) (low step : binary_float prec emax),
  covered_format prec emax -> (1 <= Z.of_N num < 2 ^ (prec - 1))%Z -> (num + 2 < usize_mod)%N ->
  is_finite low = true -> is_finite step = true -> 0 < B2R step ->
  let u := unit_roundoff prec in
  let high := Bplus mode_NE (Bmult mode_NE (float_of_N prec emax P E num) step) low in
  exists a, uniform_with_step_size (float_ops prec emax P E) num low step = Val (Ok a)
  /\ (forall x i, uniform_index (float_ops prec emax P E) a x = Val (Some i) -> (1 <= i <= num)%N ->
        is_finite x = true /\ flt_le low x /\ flt_lt x high
        /\ (IZR (Z.of_N i) - 1) * B2R step * (1 - 4 * u) <= B2R x - B2R low < IZR (Z.of_N i) * B2R step * (1 + 4 * u))
  /\ (forall x i, is_finite x = true -> (1 <= i <= num)%N -> flt_lt x high -> is_finite (Bminus mode_NE x low) = true ->
        (IZR (Z.of_N i) - 1) * B2R step * (1 + 4 * u) <= B2R x - B2R low < IZR (Z.of_N i) * B2R step * (1 - 4 * u) ->
        uniform_index (float_ops prec emax P E) a x = Val (Some i)).
Proof.
  intros prec emax P E B num low step Hf Hn Hus Fl Fs Hs u high. pose proof Hf as [Hp He].
  pose proof (u_pos prec) as Hu0. pose proof (u_tiny prec Hp) as Hu1.
  destruct (regular_step prec emax P E ltac:(lia) num low step Hn Hus Fl Fs Hs) as [R G]. fold high in R, G.
  set (a := mkUniform num low high step) in *. exists a.
  assert (Hle0 : @le_ _ (@num_ord _ (float_ops prec emax P E)) step (B754_zero false) = false).
  { rewrite le_fin by (reflexivity || assumption). apply Rle_bool_false. exact Hs. }
  split.
  { unfold uniform_with_step_size. cbn [n_from_usize n_mul n_add n_zero float_ops obind].
    destruct (N.eqb_spec num 0); [lia|]. rewrite Hle0. fold high. rewrite G. reflexivity. }
  assert (Hws : B2R step * ((1 - bpow radix2 (- prec)) * (1 - bpow radix2 (- prec))) <= B2R (u_step a)
                <= B2R step * ((1 + bpow radix2 (- prec)) * (1 + bpow radix2 (- prec)))).
  { cbn [u_step a]. assert (H1 : (1 - bpow radix2 (- prec)) * (1 - bpow radix2 (- prec)) <= 1) by nra.
    assert (H2 : 1 <= (1 + bpow radix2 (- prec)) * (1 + bpow radix2 (- prec))) by nra.
    split; [apply Rle_trans with (B2R step * 1) | apply Rle_trans with (B2R step * 1)]; try lra; apply Rmult_le_compat_l; lra. }
  pose proof (float_ord_laws prec emax P E) as L. split.
  - intros x i Hi Hr. destruct (bin_bounds prec emax P E Hp He a (B2R step) R Hs Hws x i Hi Hr) as [Fx [E1 [E2 B1]]].
    split; [exact Fx|]. cbn [u_low u_high a] in E1, E2.
    assert (Nx : float_is_num prec emax x = true) by (unfold float_is_num; destruct x; try discriminate Fx; reflexivity).
    assert (Nl : float_is_num prec emax low = true) by (unfold float_is_num; destruct low; try discriminate Fl; reflexivity).
    assert (Nh : float_is_num prec emax high = true) by (unfold float_is_num; pose proof (rg_high _ _ _ _ _ R) as Rh; cbn [u_high a] in Rh; rewrite Rh; reflexivity).
    split; [|split; [|exact B1]].
    + apply flt_le_iff. destruct (total_cases _ _ L x low Nx Nl); [congruence | assumption].
    + apply flt_lt_iff. rewrite (ge_le _ _ L) in E2. destruct (total_cases _ _ L x high Nx Nh); [assumption | congruence].
  - intros x i Fx Hi Hxh Fd Hb.
    assert (Hi1 : 0 <= IZR (Z.of_N i) - 1) by (assert (1 <= IZR (Z.of_N i)) by (apply IZR_le; lia); lra).
    assert (Hlx : B2R low <= B2R x).
    { assert (0 <= (IZR (Z.of_N i) - 1) * B2R step * (1 + 4 * u)); [|lra]. unfold u, unit_roundoff.
      apply Rmult_le_pos; [apply Rmult_le_pos; lra | lra]. }
    assert (E1 : @lt_ _ (@num_ord _ (float_ops prec emax P E)) x low = false) by (rewrite lt_fin by assumption; apply Rlt_bool_false; exact Hlx).
    assert (E2 : @ge_ _ (@num_ord _ (float_ops prec emax P E)) x high = false).
    { rewrite (ge_le _ _ L). apply flt_lt_iff in Hxh. destruct (le_ high x) eqn:El; [|reflexivity].
      exfalso. eapply (lt_not_le _ _ L); eassumption. }
    replace i with ((i - 1) + 1)%N by lia.
    apply (bin_found prec emax P E Hp He a (B2R step) R Hs Hws); [exact Fx | exact E1 | exact E2 | |].
    + destruct (distance_computed prec emax P E x low Fx Fl Hlx) as [_ [_ D2]]. cbn [u_low a].
      destruct (Rlt_or_le (round radix2 (SpecFloat.fexp prec emax) (round_mode mode_NE) (B2R x - B2R low)) (bpow radix2 emax)) as [Ht|Ht];
        [exact Ht | rewrite (D2 Ht) in Fd; discriminate].
    + rewrite N2Z.inj_sub by lia. rewrite minus_IZR. change (IZR (Z.of_N 1)) with 1.
      replace (IZR (Z.of_N i) - 1 + 1) with (IZR (Z.of_N i)) by ring. exact Hb.
Qed.
Print Assumptions C06_with_step_size_float_accuracy.

(** ** C07: the bins of a float axis *)

Lemma bins_from_edges {prec emax : Z} {P : Prec_gt_0 prec} {E : Prec_lt_emax prec emax} {B : Build}
  (num : N) (low high step : binary_float prec emax) :
  covered_format prec emax -> (1 <= Z.of_N num < 2 ^ (prec - 1))%Z -> (num + 2 < usize_mod)%N ->
  is_finite low = true -> is_finite high = true -> B2R low < B2R high ->
  IZR (Z.of_N num) * magnitude (B2R low) (B2R high) < bpow radix2 (emax - 3) ->
  let a := mkUniform num low high step in
  exists edge : N -> binary_float prec emax,
     uniform_bin (float_ops prec emax P E) a 0 = Val (Some (Underflow low))
  /\ (forall i, (1 <= i <= num)%N -> uniform_bin (float_ops prec emax P E) a i = Val (Some (Bin (edge (i - 1)%N) (edge i))))
  /\ uniform_bin (float_ops prec emax P E) a (num + 1) = Val (Some (Overflow high))
  /\ (forall i, (num + 2 <= i)%N -> uniform_bin (float_ops prec emax P E) a i = Val None)
  /\ (forall k, (k <= num)%N -> is_finite (edge k) = true)
  /\ B2R (edge 0%N) = B2R low
  /\ (forall j k, (j <= k <= num)%N -> B2R (edge j) <= B2R (edge k))
  /\ (IZR (Z.of_N num) * smallest_normal emax <= B2R high - B2R low ->
      forall k, (k <= num)%N ->
      Rabs (B2R (edge k) - (B2R low + IZR (Z.of_N k) * ideal_width num (B2R low) (B2R high)))
        <= 10 * unit_roundoff prec * magnitude (B2R low) (B2R high)).
Proof.
  intros [Hp He] Hn Hus Fl Fh Hlt HM a. pose proof Hus as Hu.
  exists (fun k => match uniform_edge (float_ops prec emax P E) a k with Val (Some e) => e | _ => B754_nan end).
  assert (He' : forall k, (k <= num)%N -> exists e, uniform_edge (float_ops prec emax P E) a k = Val (Some e)
     /\ is_finite e = true /\ B2R e = edge_real prec emax num low high k).
  { intros k Hk. apply (edge_value prec emax P E Hp He num low high step); assumption. }
  unfold uniform_bin. cbn [u_num u_low u_high a]. rewrite uadd_ok by lia. cbn [obind].
  split; [reflexivity|]. split; [|split; [|split; [|split; [|split; [|split]]]]].
  - intros i Hi. destruct (N.eqb_spec i 0); [lia|]. destruct (N.eqb_spec i (num + 1)); [lia|].
    destruct (N.ltb_spec (num + 1) i); [lia|]. rewrite usub_ok by lia. cbn [obind].
    destruct (He' (i - 1)%N ltac:(lia)) as [e1 [-> _]]. destruct (He' i ltac:(lia)) as [e2 [-> _]]. reflexivity.
  - destruct (N.eqb_spec (num + 1) 0); [lia|]. rewrite N.eqb_refl. reflexivity.
  - intros i Hi. destruct (N.eqb_spec i 0); [lia|]. destruct (N.eqb_spec i (num + 1)); [lia|].
    destruct (N.ltb_spec (num + 1) i); [reflexivity | lia].
  - intros k Hk. destruct (He' k Hk) as [e [-> [Fe _]]]. exact Fe.
  - destruct (He' 0%N ltac:(lia)) as [e [Ee [Fe _]]]. rewrite Ee.
    apply (edge_first prec emax P E Hp He num low high step Hn Fl Fh Hlt HM e Ee).
  - intros j k Hjk. destruct (He' j ltac:(lia)) as [e1 [-> [_ V1]]]. destruct (He' k ltac:(lia)) as [e2 [-> [_ V2]]].
    rewrite V1, V2. apply (edge_mono prec emax P num low high Hn Hlt); lia.
  - intros Hw k Hk. destruct (He' k Hk) as [e [-> [_ V]]]. rewrite V. rewrite (@smallest_normal_eq prec emax) in Hw.
    apply (edge_accuracy prec emax P E Hp num low high Hn Fl Fh Hlt HM k Hw Hk).
Qed.

(** C07.  The finite bins share their edges exactly; the edges are finite, start at
    [low], never decrease, and edge [k] is [low + k w] up to [10 u] times the
    largest magnitude in the range; in particular the last edge is that close to
    the start of the overflow bin. *)
Theorem C07_new_float_bins : forall (prec emax : Z) (P : Prec_gt_0 prec) (E : Prec_lt_emax prec emax) (B : Build)
  (num : N) (low high : binary_float prec emax),
  covered_format prec emax -> (1 <= Z.of_N num < 2 ^ (prec - 1))%Z -> (num + 2 < usize_mod)%N ->
  is_finite low = true -> is_finite high = true -> B2R low < B2R high ->
  IZR (Z.of_N num) * magnitude (B2R low) (B2R high) < bpow radix2 (emax - 3) ->
  exists a, uniform_new (float_ops prec emax P E) num low high = Val (Ok a)
  /\ exists edge : N -> binary_float prec emax,
     uniform_bin (float_ops prec emax P E) a 0 = Val (Some (Underflow low))
  /\ (forall i, (1 <= i <= num)%N -> uniform_bin (float_ops prec emax P E) a i = Val (Some (Bin (edge (i - 1)%N) (edge i))))
  /\ uniform_bin (float_ops prec emax P E) a (num + 1) = Val (Some (Overflow high))
  /\ (forall i, (num + 2 <= i)%N -> uniform_bin (float_ops prec emax P E) a i = Val None)
  /\ (forall k, (k <= num)%N -> is_finite (edge k) = true)
  /\ B2R (edge 0%N) = B2R low
  /\ (forall j k, (j <= k <= num)%N -> B2R (edge j) <= B2R (edge k))
  /\ (IZR (Z.of_N num) * smallest_normal emax <= B2R high - B2R low ->
      forall k, (k <= num)%N ->
      Rabs (B2R (edge k) - (B2R low + IZR (Z.of_N k) * ideal_width num (B2R low) (B2R high)))
        <= 10 * unit_roundoff prec * magnitude (B2R low) (B2R high)).
Proof.
  intros prec emax P E B num low high Hf Hn Hus Fl Fh Hlt HM.
  destruct (new_normal (P := P) (E := E) num low high Hf Hn Hus Fl Fh Hlt) as [Ea _].
  eexists. split; [exact Ea|]. apply bins_from_edges; assumption.
Qed.
Print Assumptions C07_new_float_bins.

(** C07, [with_step_size]: the same, between [low] and the computed upper edge. *)
Theorem C07_with_step_size_float_bins : forall (prec emax : Z) (P : Prec_gt_0 prec) (E : Prec_lt_emax prec emax) (B : Build)
  (num : N) (low step : binary_float prec emax),
  covered_format prec emax -> (1 <= Z.of_N num < 2 ^ (prec - 1))%Z -> (num + 2 < usize_mod)%N ->
  let high := Bplus mode_NE (Bmult mode_NE (float_of_N prec emax P E num) step) low in
  is_finite low = true -> is_finite high = true -> B2R low < B2R high -> is_finite step = true -> 0 < B2R step ->
  IZR (Z.of_N num) * magnitude (B2R low) (B2R high) < bpow radix2 (emax - 3) ->
  exists a, uniform_with_step_size (float_ops prec emax P E) num low step = Val (Ok a)
  /\ exists edge : N -> binary_float prec emax,
     uniform_bin (float_ops prec emax P E) a 0 = Val (Some (Underflow low))
  /\ (forall i, (1 <= i <= num)%N -> uniform_bin (float_ops prec emax P E) a i = Val (Some (Bin (edge (i - 1)%N) (edge i))))
  /\ uniform_bin (float_ops prec emax P E) a (num + 1) = Val (Some (Overflow high))
  /\ (forall i, (num + 2 <= i)%N -> uniform_bin (float_ops prec emax P E) a i = Val None)
  /\ (forall k, (k <= num)%N -> is_finite (edge k) = true)
  /\ B2R (edge 0%N) = B2R low
  /\ (forall j k, (j <= k <= num)%N -> B2R (edge j) <= B2R (edge k))
  /\ (IZR (Z.of_N num) * smallest_normal emax <= B2R high - B2R low ->
      forall k, (k <= num)%N ->
      Rabs (B2R (edge k) - (B2R low + IZR (Z.of_N k) * ideal_width num (B2R low) (B2R high)))
        <= 10 * unit_roundoff prec * magnitude (B2R low) (B2R high)).
Proof.
  intros prec emax P E B num low step Hf Hn Hus high Fl Fh Hlt Fs Hs HM. pose proof Hf as [Hp He].
  destruct (regular_step prec emax P E ltac:(lia) num low step Hn Hus Fl Fs Hs) as [R G]. fold high in R, G.
  exists (mkUniform num low high step). split; [|apply bins_from_edges; assumption].
  unfold uniform_with_step_size. cbn [n_from_usize n_mul n_add n_zero float_ops obind].
  destruct (N.eqb_spec num 0); [lia|].
  replace (@le_ _ (@num_ord _ (float_ops prec emax P E)) step (B754_zero false)) with false.
  - fold high. rewrite G. reflexivity.
  - symmetry. rewrite le_fin by (reflexivity || assumption). apply Rle_bool_false. exact Hs.
Qed.
Print Assumptions C07_with_step_size_float_bins.

(** C06 and C07 together: the interval [bin] reports for the index of [x] contains
    [x] up to rounding. *)
Theorem C06_new_float_bin_contains : forall (prec emax : Z) (P : Prec_gt_0 prec) (E : Prec_lt_emax prec emax) (B : Build)
  (num : N) (low high : binary_float prec emax),
  covered_format prec emax -> (1 <= Z.of_N num < 2 ^ (prec - 1))%Z -> (num + 2 < usize_mod)%N ->
  is_finite low = true -> is_finite high = true -> B2R low < B2R high ->
  IZR (Z.of_N num) * magnitude (B2R low) (B2R high) < bpow radix2 (emax - 3) ->
  IZR (Z.of_N num) * smallest_normal emax <= B2R high - B2R low ->
  exists a, uniform_new (float_ops prec emax P E) num low high = Val (Ok a)
  /\ forall x i s e, uniform_index (float_ops prec emax P E) a x = Val (Some i) ->
     uniform_bin (float_ops prec emax P E) a i = Val (Some (Bin s e)) ->
     let tolerance := 18 * unit_roundoff prec * magnitude (B2R low) (B2R high) in
     B2R s - tolerance <= B2R x < B2R e + tolerance.
Proof.
  intros prec emax P E B num low high Hf Hn Hus Fl Fh Hlt HM Hw. pose proof Hf as [Hp He].
  destruct (edge_width prec emax P E Hp num low high Hn Fl Fh Hlt HM) as [Fw _].
  destruct (C06_new_float_accuracy prec emax P E B num low high Hf Hn Hus Fl Fh Hlt Fw Hw) as [a [Ea [HA _]]].
  destruct (C07_new_float_bins prec emax P E B num low high Hf Hn Hus Fl Fh Hlt HM) as [a' [Ea' [edge [B0 [Bi [Bo [Bn [_ [_ [_ Hacc]]]]]]]]]].
  rewrite Ea in Ea'. injection Ea' as <-. exists a. split; [exact Ea|].
  intros x i s e Hi Hb tol. specialize (Hacc Hw).
  assert (Hr : (1 <= i <= num)%N).
  { destruct (N.eq_dec i 0) as [->|]; [rewrite B0 in Hb; discriminate|].
    destruct (N.eq_dec i (num + 1)) as [->|]; [rewrite Bo in Hb; discriminate|].
    destruct (N.lt_ge_cases (num + 1) i) as [Hc|Hc]; [rewrite Bn in Hb by lia; discriminate | lia]. }
  rewrite (Bi i Hr) in Hb. injection Hb as <- <-.
  destruct (HA x i Hi Hr) as [Fx [Hx [H1 H2]]].
  pose proof (Hacc (i - 1)%N ltac:(lia)) as A1. pose proof (Hacc i ltac:(lia)) as A2.
  rewrite N2Z.inj_sub in A1 by lia. rewrite minus_IZR in A1. change (IZR (Z.of_N 1)) with 1 in A1.
  apply Rabs_le_inv in A1, A2.
  set (w := ideal_width num (B2R low) (B2R high)) in *. set (u := unit_roundoff prec) in *.
  set (M := magnitude (B2R low) (B2R high)) in *.
  assert (Hu0 : 0 < u) by apply (u_pos prec).
  assert (HI : 1 <= IZR (Z.of_N i) <= IZR (Z.of_N num)) by (split; apply IZR_le; lia).
  assert (HW : IZR (Z.of_N num) * w = B2R high - B2R low) by (unfold w, ideal_width; field; lra).
  assert (Hw0 : 0 < w) by (apply Rmult_lt_0_compat; [lra | apply Rinv_0_lt_compat; lra]).
  assert (HWM : B2R high - B2R low <= 2 * M).
  { pose proof (Rmax_l (Rabs (B2R low)) (Rabs (B2R high))) as M1. pose proof (Rmax_r (Rabs (B2R low)) (Rabs (B2R high))) as M2.
    fold (magnitude (B2R low) (B2R high)) in M1, M2. fold M in M1, M2. apply Rabs_le_inv in M1, M2. lra. }
  assert (Hiw : IZR (Z.of_N i) * w <= 2 * M).
  { apply Rle_trans with (IZR (Z.of_N num) * w); [apply Rmult_le_compat_r; lra | lra]. }
  assert (Hiu : u * (IZR (Z.of_N i) * w) <= u * (2 * M)) by (apply Rmult_le_compat_l; lra).
  assert (Hiu' : u * ((IZR (Z.of_N i) - 1) * w) <= u * (2 * M)) by (apply Rmult_le_compat_l; nra).
  unfold tol. split; lra.
Qed.
Print Assumptions C06_new_float_bin_contains.
