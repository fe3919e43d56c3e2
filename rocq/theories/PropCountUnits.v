(** * PropCountUnits: uniform axes over a grid count grid units, whatever the number type (C91). *)
From stdpp Require Import gmap.
From Coq Require Import ZifyBool ZifyN ZifyNat Lia Reals.
From Flocq Require Import Core IEEE754.BinarySingleNaN.
From Verif Require Import Base BaseFacts Num Float FloatSpec FloatUniform Uniform Axis Spec FillSpec IntFacts UniformInt UniformMore Axes AxesSpec AxesFacts
  AxesMacro Value VecHist HashHist HistSpec HistFacts PropUniformInt PropAxes PropHist PropHistIter PropOrder PropExactAxes SimSpec SimFacts PropRelabel PropRebin PropRebinAxes
  PropEmbed PropMove Program PropBuilds GridSpec FloatGrid PropFloatGrid.
Open Scope N_scope.

(** ** Specification *)

(** The bin of the integer [X] among [num] bins of width [S] from [L] on: underflow 0, then the
    inner bins, overflow [num + 1]; and on the axis closed into a circle. *)
Definition unit_bin (num : N) (L S X : Z) : N :=
  if (X <? L)%Z then 0 else if (L + Z.of_N num * S <=? X)%Z then num + 1 else Z.to_N ((X - L) / S) + 1.
Definition unit_bin_cyclic (num : N) (L S X : Z) : N := Z.to_N ((X - L) mod (Z.of_N num * S) / S).

(** The edges of those bins. *)
Definition unit_interval (num : N) (L S : Z) (i : N) : option (BinInterval Z) :=
  if i =? 0 then Some (Underflow L) else if i =? num + 1 then Some (Overflow (L + Z.of_N num * S)%Z)
  else if i <=? num then Some (Bin (L + (Z.of_N i - 1) * S)%Z (L + Z.of_N i * S)%Z) else None.

(** The axis [a], over numbers of any type [T], counts units: reading its numbers as integers
    ([value x X]: "the number [x] is [X] units"), it has [num] bins of [S] units each from
    [L] units on, and puts each coordinate that is a whole number of units where the integers say.
    [near]: the distances from the lower edge for which the cyclic axis does so. *)
Record counts_units {B : Build} {T} (ops : NumOps T) (value : T -> Z -> Prop) (near : Z -> Prop) (a : Uniform T) (num : N) (L S : Z) : Prop := {
  cu_num : 1 <= num;
  cu_usize : num + 2 < usize_mod;
  cu_step : (1 <= S)%Z;
  cu_num_bins : u_num a = num;
  cu_low : value (u_low a) L;
  cu_high : value (u_high a) (L + Z.of_N num * S)%Z;
  cu_width : value (u_step a) S;
  cu_bin i : exists b, uniform_bin ops a i = Val b /\ option_rel (interval_rel value) b (unit_interval num L S i);
  cu_index x X : value x X -> uniform_index ops a x = Val (Some (unit_bin num L S X));
  cu_cyclic x X : value x X -> near (X - L)%Z ->
    uniformcyclic_index ops (mkUniformCyclic (mkUniformNoFlow a)) x = Val (Some (unit_bin_cyclic num L S X))
}.

(** ** Arithmetic of the specification *)
Lemma unit_bin_inner num L S X : (1 <= S)%Z -> (L <= X < L + Z.of_N num * S)%Z -> unit_bin num L S X = Z.to_N ((X - L) / S) + 1 /\ (0 <= (X - L) / S < Z.of_N num)%Z.
Proof.
  intros HS HX. unfold unit_bin. replace (X <? L)%Z with false by lia. replace (_ <=? X)%Z with false by lia. split; [reflexivity|].
  split; [apply Z.div_pos; lia | apply Z.div_lt_upper_bound; lia].
Qed.
Lemma unit_bin_cases num L S X : (1 <= S)%Z ->
  ((X < L)%Z /\ unit_bin num L S X = 0) \/ ((L + Z.of_N num * S <= X)%Z /\ (L <= X)%Z /\ unit_bin num L S X = num + 1)
  \/ ((L <= X < L + Z.of_N num * S)%Z /\ (0 <= (X - L) / S < Z.of_N num)%Z /\ unit_bin num L S X = Z.to_N ((X - L) / S) + 1).
Proof.
  intros HS. destruct (Z.lt_ge_cases X L) as [H|H]; [left; unfold unit_bin; replace (X <? L)%Z with true by lia; auto|].
  destruct (Z.lt_ge_cases X (L + Z.of_N num * S)) as [H'|H'].
  - right. right. destruct (unit_bin_inner num L S X HS ltac:(lia)). auto.
  - right. left. unfold unit_bin. replace (X <? L)%Z with false by lia. replace (_ <=? X)%Z with true by lia. auto.
Qed.
Lemma unit_bin_le num L S X : (1 <= S)%Z -> unit_bin num L S X < num + 2.
Proof. intros HS. destruct (unit_bin_cases num L S X HS) as [[_ ->]|[[_ [_ ->]]|[_ [H ->]]]]; lia. Qed.
Lemma unit_bin_cyclic_div num L S X : (1 <= S)%Z -> 1 <= num -> unit_bin_cyclic num L S X = Z.to_N (((X - L) / S) mod Z.of_N num).
Proof.
  intros HS Hn. unfold unit_bin_cyclic. f_equal. rewrite Z.mul_comm. rewrite Z.rem_mul_r by lia.
  rewrite Z.mul_comm, Z.div_add by lia. rewrite (Z.div_small (_ mod S)%Z S) by (apply Z.mod_pos_bound; lia). lia.
Qed.
Lemma unit_bin_cyclic_lt num L S X : (1 <= S)%Z -> 1 <= num -> unit_bin_cyclic num L S X < num.
Proof. intros HS Hn. rewrite unit_bin_cyclic_div by assumption. pose proof (Z.mod_pos_bound ((X - L) / S) (Z.of_N num) ltac:(lia)). lia. Qed.

(** ** Which axes count units *)

(** C91. Integer axes, in units of 1. *)
Theorem C91_integer_axes : forall (B : Build) (t : int_type) (num : N) (L S : Z),
  valid_int_params t num L S -> fits t (Z.of_N num * (Z.of_N num * S))%Z ->
  exists a, uniform_with_step_size (int_ops t) num L S = Val (Ok a) /\ uniform_new (int_ops t) num L (L + Z.of_N num * S)%Z = Val (Ok a)
  /\ counts_units (int_ops t) (fun x X => x = X /\ fits t X) (fits t) a num L S.
Proof.
  intros B t num L S HV HW. pose proof (with_step_size_ok t num L S HV) as Ea. exists (mkUniform num L (L + Z.of_N num * S)%Z S). split; [exact Ea|].
  pose proof HV as [V1 V2 V3 V4 V5 V6 V7 V8].
  split.
  { unfold uniform_new. replace (num =? 0) with false by lia. rewrite int_eq, int_gt. replace (L =? _)%Z with false by nia. replace (_ <? L)%Z with false by nia.
    cbn [n_sub int_ops]. rewrite int_result_ok by (replace (L + Z.of_N num * S - L)%Z with (Z.of_N num * S)%Z by lia; exact V7). cbn [obind].
    pose proof (int_from_usize_ok t num V4) as Ef. cbn [n_from_usize int_ops] in Ef |- *. rewrite Ef. cbn [n_div int_ops].
    assert (EQ : Z.quot (L + Z.of_N num * S - L) (Z.of_N num) = S) by (replace (L + Z.of_N num * S - L)%Z with (S * Z.of_N num)%Z by lia; apply Z.quot_mul; lia).
    rewrite int_div_ok; rewrite ?EQ; [reflexivity | lia|]. pose proof (primitive_bounds t V1). unfold fits in *. nia. }
  unfold fits in V5, V7, V8.
  pose proof (primitive_bounds t V1) as PB.
  constructor; [exact V2 | exact V3 | lia | reflexivity | | | | | |]; [cbn; unfold fits; split; [reflexivity | nia] .. | | |].
  - intros i. destruct (C02_uniform_int_bins B t num L S HV HW) as (a' & Ea' & _ & U & M & O & Z0). rewrite Ea in Ea'. injection Ea' as <-.
    unfold unit_interval. destruct (i =? 0) eqn:I0; [replace i with 0 by lia; eexists; split; [exact U | cbn; auto]|].
    destruct (i =? num + 1) eqn:I1; [replace i with (num + 1) by lia; eexists; split; [exact O | cbn; auto]|].
    destruct (i <=? num) eqn:I2; [|eexists; split; [apply Z0; lia | exact I]].
    eexists. split; [apply M; lia|]. cbn. unfold fits. split; (split; [reflexivity|]); nia.
  - intros x X [-> HX]. destruct (C01_uniform_int_index_partitions B t num L S HV) as (a' & Ea' & H). rewrite Ea in Ea'. injection Ea' as <-.
    destruct (H X HX) as (i & Ei & Hi & H0 & H1 & Hk). rewrite Ei. f_equal. f_equal.
    destruct (unit_bin_cases num L S X ltac:(lia)) as [[Hx ->]|[[Hx [_ ->]]|[Hx [Hd ->]]]]; [apply H0; lia | apply H1; lia|].
    apply Hk; [lia|]. pose proof (Z.div_mod (X - L) S ltac:(lia)). pose proof (Z.mod_pos_bound (X - L) S ltac:(lia)). nia.
  - intros x X [-> HX] Hn. destruct (C10_cyclic_int_total B t num L S HV) as (a' & Ea' & H).
    unfold uniformcyclic_with_step_size, uniformnoflow_with_step_size in Ea'. rewrite Ea in Ea'. injection Ea' as <-.
    destruct (H X HX Hn) as (i & k & Ei & Hi & Hk). rewrite Ei. f_equal. f_equal. unfold unit_bin_cyclic.
    replace ((X - L) mod (Z.of_N num * S))%Z with (X + k * (Z.of_N num * S) - L)%Z by (apply (Z.mod_unique _ _ (- k)%Z); [left; nia | lia]).
    replace ((X + k * (Z.of_N num * S) - L) / S)%Z with (Z.of_N i); [lia|]. apply (Z.div_unique _ _ _ (X + k * (Z.of_N num * S) - L - S * Z.of_N i)%Z); lia.
Qed.
Print Assumptions C91_integer_axes.

(** Float axes of any format, in units of any power of two, made with either constructor. *)
Theorem C91_float_axes : forall (prec emax : Z) (P : Prec_gt_0 prec) (E : Prec_lt_emax prec emax) (B : Build) (e : Z)
  (num : N) (low high step : binary_float prec emax) (L S : Z),
  covered_format prec emax -> grid_params prec emax e num L S -> (Z.of_N num * (Z.of_N num * S) <= 2 ^ prec)%Z ->
  grid_value e low L -> grid_value e high (L + Z.of_N num * S) -> grid_value e step S ->
  let ops := float_ops prec emax P E in
  let near d := (Z.abs d <= 2 ^ prec)%Z in
  (exists a, uniform_new ops num low high = Val (Ok a) /\ counts_units ops (grid_value e) near a num L S)
  /\ (exists a, uniform_with_step_size ops num low step = Val (Ok a) /\ counts_units ops (grid_value e) near a num L S).
Proof.
  intros prec emax P E B e num low high step L S HF HG HWW Hl Hh Hs ops near.
  pose proof HF as [Hp He]. pose proof HG as [G1 G2 G3 G4 G5 G6 G7].
  assert (Hall : forall a : Uniform (binary_float prec emax), (uniform_new ops num low high = Val (Ok a) \/ uniform_with_step_size ops num low step = Val (Ok a)) ->
    u_num a = num -> grid_value e (u_low a) L ->
    grid_value e (u_high a) (L + Z.of_N num * S) -> grid_value e (u_step a) S -> counts_units ops (grid_value e) near a num L S).
  { intros a Ha An Al Ah As. destruct (C80_grid_bins prec emax P E B e num low high step L S HF HG HWW Hl Hh Hs a Ha) as (U & O & M).
    constructor; [exact G2 | exact G3 | exact G4 | exact An | exact Al | exact Ah | exact As | | |].
    - intros i. unfold unit_interval.
      destruct (i =? 0) eqn:I0; [replace i with 0 by lia; destruct U as (l & U & V); eexists; split; [exact U | exact V]|].
      destruct (i =? num + 1) eqn:I1; [replace i with (num + 1) by lia; destruct O as (l & O & V); eexists; split; [exact O | exact V]|].
      destruct (i <=? num) eqn:I2.
      + destruct (M (i - 1) ltac:(lia)) as (s & t & Hb & Vs & Vt). replace (i - 1 + 1) with i in Hb by lia. eexists. split; [exact Hb|]. cbn.
        replace (Z.of_N i - 1)%Z with (Z.of_N (i - 1)) by lia. split; [exact Vs|]. replace (Z.of_N i) with (Z.of_N (i - 1) + 1)%Z by lia. exact Vt.
      + exists None. split; [|exact I]. unfold uniform_bin. rewrite I0, An. rewrite uadd_ok by lia. cbn [obind]. rewrite I1. replace (num + 1 <? i) with true by lia. reflexivity.
    - intros x X Hx. subst num. destruct (unit_bin_cases (u_num a) L S X G4) as [[HX ->]|[[HX [_ ->]]|[HX [Hd ->]]]].
      + eapply grid_index_below; eassumption.
      + eapply grid_index_above; eassumption || lia.
      + exact (grid_index_inside prec emax P E Hp He e G1 a L S Al Ah As ltac:(lia) G4 G5 G3 x X Hx HX).
    - intros x X Hx HX. subst num. exact (proj1 (grid_cyclic_index prec emax P E HF e a L S HG Al Ah As x X Hx HX)). }
  split.
  - destruct (grid_new prec emax P E Hp He e G1 num low high L S Hl Hh ltac:(lia) G4 G5) as [a [Ha [An [Al [Ah As]]]]].
    exists a. split; [exact Ha|]. apply Hall; rewrite ?Al, ?Ah; auto.
  - destruct (grid_step prec emax P E Hp He e G1 num low step L S Hl Hs ltac:(lia) G4 G5 G7) as [a [Ha [An [Al [Ah As]]]]].
    exists a. split; [exact Ha|]. apply Hall; rewrite ?Al, ?As; auto.
Qed.
Print Assumptions C91_float_axes.

(** ** What follows for any two axes that count units *)

(** Two numbers, two intervals, that are related when read as integers. *)
Definition both {T1 T2} (v1 : T1 -> Z -> Prop) (v2 : T2 -> Z -> Prop) (R : Z -> Z -> Prop) (x : T1) (y : T2) : Prop := exists X Y, v1 x X /\ v2 y Y /\ R X Y.
Definition both_intervals {T1 T2} (v1 : T1 -> Z -> Prop) (v2 : T2 -> Z -> Prop) (R : BinInterval Z -> BinInterval Z -> Prop) (b : BinInterval T1) (b' : BinInterval T2) : Prop :=
  exists c c', interval_rel v1 b c /\ interval_rel v2 b' c' /\ R c c'.
(** One interval lies in the other. *)
Definition lies_in (c c' : BinInterval Z) : Prop := forall X, containsZ c X -> containsZ c' X.

Section OneAxis.
Context {B : Build} {T} {ops : NumOps T} {value : T -> Z -> Prop} {near : Z -> Prop} {a : Uniform T} {num : N} {L S : Z} (H : counts_units ops value near a num L S).

Lemma cu_has_bins : has_bins (uniform_axis ops) a (num + 2).
Proof using H.
  destruct H as [H1 H2 H3 H4 _ _ _ H5 H6 H7]. split.
  - change (uniform_num_bins a = Val (num + 2)). unfold uniform_num_bins. rewrite H4. apply uadd_ok. lia.
  - intros i Hi. destruct (H5 i) as (b & Hb & Hr). change (exists b, uniform_bin ops a i = Val (Some b)). destruct b as [b|]; [eauto|].
    unfold unit_interval in Hr. destruct (i =? 0); [contradiction|]. destruct (i =? num + 1) eqn:I1; [contradiction|]. replace (i <=? num) with true in Hr by lia. contradiction.
Qed.
Lemma cu_some_bin i : i < num + 2 -> exists b c, uniform_bin ops a i = Val (Some b) /\ unit_interval num L S i = Some c /\ interval_rel value b c.
Proof using H.
  intros Hi. destruct (proj2 cu_has_bins i Hi) as [b Hb]. change (uniform_bin ops a i = Val (Some b)) in Hb. destruct (cu_bin _ _ _ _ _ _ _ H i) as (b' & Hb' & Hr).
  rewrite Hb in Hb'. injection Hb' as <-. destruct (unit_interval num L S i) as [c|]; [|contradiction]. eauto.
Qed.
Lemma cu_noflow_bin i : i < num -> exists s t, uniformnoflow_bin ops (mkUniformNoFlow a) i = Val (Some (Bin s t)) /\ value s (L + Z.of_N i * S)%Z /\ value t (L + (Z.of_N i + 1) * S)%Z.
Proof using H.
  intros Hi. pose proof (cu_usize _ _ _ _ _ _ _ H) as Hu. pose proof (cu_num_bins _ _ _ _ _ _ _ H) as En.
  destruct (C09_noflow_bins B T ops a ltac:(rewrite En; exact Hu)) as [_ [Hn _]]. rewrite Hn by (rewrite En; exact Hi).
  destruct (cu_some_bin (i + 1) ltac:(lia)) as (b & c & -> & Hc & Hr). unfold unit_interval in Hc. replace (i + 1 =? 0) with false in Hc by lia.
  replace (i + 1 =? num + 1) with false in Hc by lia. replace (i + 1 <=? num) with true in Hc by lia. injection Hc as <-. destruct b as [?|?|s t]; try contradiction.
  destruct Hr as [Hs Ht]. exists s, t. split; [reflexivity|]. replace (Z.of_N i) with (Z.of_N (i + 1) - 1)%Z by lia. replace (Z.of_N (i + 1) - 1 + 1)%Z with (Z.of_N (i + 1)) by lia. auto.
Qed.
Lemma cu_noflow_has_bins : has_bins (uniformnoflow_axis ops) (mkUniformNoFlow a) num.
Proof using H.
  pose proof (cu_usize _ _ _ _ _ _ _ H) as Hu. pose proof (cu_num_bins _ _ _ _ _ _ _ H) as En.
  destruct (C09_noflow_bins B T ops a ltac:(rewrite En; exact Hu)) as [Hn _]. rewrite En in Hn. split; [exact Hn|].
  intros i Hi. destruct (cu_noflow_bin i Hi) as (s & t & Hb & _). eexists. exact Hb.
Qed.
Lemma cu_cyclic_has_bins : has_bins (uniformcyclic_axis ops) (mkUniformCyclic (mkUniformNoFlow a)) num.
Proof using H. exact cu_noflow_has_bins. Qed.

(** Without flow bins. *)
Definition unit_bin_noflow (num : N) (L S X : Z) : option N :=
  if (L <=? X)%Z && (X <? L + Z.of_N num * S)%Z then Some (Z.to_N ((X - L) / S)) else None.
Lemma cu_noflow_index x X : value x X -> uniformnoflow_index ops (mkUniformNoFlow a) x = Val (unit_bin_noflow num L S X).
Proof using H.
  intros Hx. pose proof (cu_usize _ _ _ _ _ _ _ H) as Hu. pose proof (cu_num_bins _ _ _ _ _ _ _ H) as En. pose proof (cu_step _ _ _ _ _ _ _ H) as HS.
  pose proof (cu_index _ _ _ _ _ _ _ H x X Hx) as Hi.
  apply (C09_noflow_index B T ops a x _ ltac:(rewrite En; exact Hu) Hi); [pose proof (unit_bin_le num L S X HS); lia|]. rewrite En. unfold unit_bin_noflow.
  destruct (unit_bin_cases num L S X HS) as [[HX ->]|[[HX [HX' ->]]|[HX [Hd ->]]]].
  - replace (L <=? X)%Z with false by lia. left. auto.
  - replace (X <? L + Z.of_N num * S)%Z with false by lia. rewrite andb_false_r. left. auto.
  - replace (L <=? X)%Z with true by lia. replace (X <? L + Z.of_N num * S)%Z with true by lia. right. eexists. split; [reflexivity|]. lia.
Qed.
Lemma unit_bin_noflow_lt X i : unit_bin_noflow num L S X = Some i -> i < num.
Proof using H.
  unfold unit_bin_noflow. destruct (_ && _) eqn:E; [|discriminate]. intros [= <-]. pose proof (cu_step _ _ _ _ _ _ _ H) as HS.
  destruct (unit_bin_inner num L S X HS ltac:(lia)) as [_ Hd]. lia.
Qed.
End OneAxis.

Section TwoAxes.
Context {B : Build} {T1 T2} {ops1 : NumOps T1} {ops2 : NumOps T2} {v1 : T1 -> Z -> Prop} {v2 : T2 -> Z -> Prop} {near1 near2 : Z -> Prop} {a : Uniform T1} {b : Uniform T2}.

(** C91. Lower edge and coordinates moved by [d] units. With [d = 0]: the number type, and the unit,
    do not matter at all. *)
Theorem C91_shift num L S d : counts_units ops1 v1 near1 a num L S -> counts_units ops2 v2 near2 b num (L + d) S ->
  let moved X Y := Y = (X + d)%Z in
  relabels (uniform_axis ops1) (uniform_axis ops2) (both v1 v2 moved) (both_intervals v1 v2 (shifted d)) a b (num + 2) (num + 2) (fun i => i)
  /\ relabels (uniformnoflow_axis ops1) (uniformnoflow_axis ops2) (both v1 v2 moved) (both_intervals v1 v2 (shifted d))
       (mkUniformNoFlow a) (mkUniformNoFlow b) num num (fun i => i)
  /\ relabels (uniformcyclic_axis ops1) (uniformcyclic_axis ops2) (both v1 v2 (fun X Y => moved X Y /\ near1 (X - L)%Z /\ near2 (X - L)%Z)) (both_intervals v1 v2 (shifted d))
       (mkUniformCyclic (mkUniformNoFlow a)) (mkUniformCyclic (mkUniformNoFlow b)) num num (fun i => i).
Proof.
  intros H1 H2 moved. pose proof (cu_step _ _ _ _ _ _ _ H1) as HS. pose proof (cu_num _ _ _ _ _ _ _ H1) as Hn.
  assert (HN : forall i, i < num -> exists b1 b2, uniformnoflow_bin ops1 (mkUniformNoFlow a) i = Val (Some b1) /\ uniformnoflow_bin ops2 (mkUniformNoFlow b) i = Val (Some b2)
     /\ both_intervals v1 v2 (shifted d) b1 b2).
  { intros i Hi. destruct (cu_noflow_bin H1 i Hi) as (s & t & E1 & Vs & Vt). destruct (cu_noflow_bin H2 i Hi) as (s' & t' & E2 & Vs' & Vt').
    eexists _, _. split; [exact E1|]. split; [exact E2|]. eexists (Bin _ _), (Bin _ _). split; [split; [exact Vs | exact Vt]|]. split; [split; [exact Vs' | exact Vt']|]. cbn. lia. }
  split; [|split]; constructor; try exact (cu_has_bins H1); try exact (cu_has_bins H2); try exact (cu_noflow_has_bins H1); try exact (cu_noflow_has_bins H2);
    try (intros i Hi; split; [exact Hi|]; exact (HN i Hi)).
  - intros i Hi. split; [exact Hi|]. destruct (cu_some_bin H1 i Hi) as (b1 & c1 & E1 & U1 & R1). destruct (cu_some_bin H2 i Hi) as (b2 & c2 & E2 & U2 & R2).
    exists b1, b2. split; [exact E1|]. split; [exact E2|]. exists c1, c2. split; [exact R1|]. split; [exact R2|]. unfold unit_interval in U1, U2.
    destruct (i =? 0); [injection U1 as <-; injection U2 as <-; cbn; lia|]. destruct (i =? num + 1); [injection U1 as <-; injection U2 as <-; cbn; lia|].
    destruct (i <=? num); [|discriminate]. injection U1 as <-. injection U2 as <-. cbn. lia.
  - intros x y (X & Y & Hx & Hy & ->). pose proof (cu_index _ _ _ _ _ _ _ H1 x X Hx) as I1. pose proof (cu_index _ _ _ _ _ _ _ H2 y _ Hy) as I2.
    assert (EQ : unit_bin num (L + d) S (X + d) = unit_bin num L S X).
    { unfold unit_bin. replace (X + d - (L + d))%Z with (X - L)%Z by lia. replace (X + d <? L + d)%Z with (X <? L)%Z by lia.
      replace (L + d + Z.of_N num * S <=? X + d)%Z with (L + Z.of_N num * S <=? X)%Z by lia. reflexivity. }
    rewrite EQ in I2. pose proof (unit_bin_le num L S X HS). eexists _, _. split; [exact I1|]. split; [exact I2|].
    split; [intros i [= <-]; assumption|]. split; [intros i [= <-]; assumption|]. reflexivity.
  - intros x y (X & Y & Hx & Hy & ->). pose proof (cu_noflow_index H1 x X Hx) as I1. pose proof (cu_noflow_index H2 y _ Hy) as I2.
    assert (EQ : unit_bin_noflow num (L + d) S (X + d) = unit_bin_noflow num L S X).
    { unfold unit_bin_noflow. replace (X + d - (L + d))%Z with (X - L)%Z by lia. replace (L + d <=? X + d)%Z with (L <=? X)%Z by lia.
      replace (X + d <? L + d + Z.of_N num * S)%Z with (X <? L + Z.of_N num * S)%Z by lia. reflexivity. }
    rewrite EQ in I2. eexists _, _. split; [exact I1|]. split; [exact I2|].
    split; [exact (unit_bin_noflow_lt H1 X)|]. split; [exact (unit_bin_noflow_lt H1 X)|]. reflexivity.
  - intros x y (X & Y & Hx & Hy & -> & N1 & N2). pose proof (cu_cyclic _ _ _ _ _ _ _ H1 x X Hx N1) as I1.
    pose proof (cu_cyclic _ _ _ _ _ _ _ H2 y _ Hy ltac:(replace (X + d - (L + d))%Z with (X - L)%Z by lia; exact N2)) as I2.
    unfold unit_bin_cyclic in I2. replace (X + d - (L + d))%Z with (X - L)%Z in I2 by lia. fold (unit_bin_cyclic num L S X) in I2.
    pose proof (unit_bin_cyclic_lt num L S X HS Hn). eexists _, _. split; [exact I1|]. split; [exact I2|].
    split; [intros i [= <-]; assumption|]. split; [intros i [= <-]; assumption|]. reflexivity.
Qed.
Print Assumptions C91_shift.

(** Mirrored. *)
Theorem C91_mirror num L S c : counts_units ops1 v1 near1 a num L S -> counts_units ops2 v2 near2 b num (c - (L + Z.of_N num * S)) S ->
  let reflected X Y := Y = (c - 1 - X)%Z in
  relabels (uniform_axis ops1) (uniform_axis ops2) (both v1 v2 reflected) (both_intervals v1 v2 (mirrored c)) a b (num + 2) (num + 2) (fun i => num + 1 - i)
  /\ relabels (uniformnoflow_axis ops1) (uniformnoflow_axis ops2) (both v1 v2 reflected) (both_intervals v1 v2 (mirrored c))
       (mkUniformNoFlow a) (mkUniformNoFlow b) num num (fun i => num - 1 - i).
Proof.
  intros H1 H2 reflected. set (L' := (c - (L + Z.of_N num * S))%Z) in *. pose proof (cu_step _ _ _ _ _ _ _ H1) as HS. pose proof (cu_num _ _ _ _ _ _ _ H1) as Hn.
  assert (HD : forall X, (L <= X < L + Z.of_N num * S)%Z -> ((c - 1 - X - L') / S = Z.of_N num - 1 - (X - L) / S)%Z).
  { intros X HX. pose proof (Z.div_mod (X - L) S ltac:(lia)) as Q. pose proof (Z.mod_pos_bound (X - L) S ltac:(lia)) as Hm. symmetry.
    apply (Z.div_unique _ _ _ (S - 1 - (X - L) mod S)%Z); [left; lia|]. unfold L'. set (q := ((X - L) / S)%Z) in *. set (r := ((X - L) mod S)%Z) in *. clearbody q r. nia. }
  split; constructor; try exact (cu_has_bins H1); try exact (cu_has_bins H2); try exact (cu_noflow_has_bins H1); try exact (cu_noflow_has_bins H2).
  - intros i Hi. split; [lia|]. destruct (cu_some_bin H1 i Hi) as (b1 & c1 & E1 & U1 & R1). destruct (cu_some_bin H2 (num + 1 - i) ltac:(lia)) as (b2 & c2 & E2 & U2 & R2).
    exists b1, b2. split; [exact E1|]. split; [exact E2|]. exists c1, c2. split; [exact R1|]. split; [exact R2|]. unfold unit_interval in U1, U2.
    destruct (i =? 0) eqn:I0.
    { replace (num + 1 - i =? 0) with false in U2 by lia. replace (num + 1 - i =? num + 1) with true in U2 by lia. injection U1 as <-. injection U2 as <-. unfold L'. cbn. lia. }
    destruct (i =? num + 1) eqn:I1; [replace (num + 1 - i =? 0) with true in U2 by lia; injection U1 as <-; injection U2 as <-; unfold L'; cbn; lia|].
    destruct (i <=? num) eqn:I2; [|discriminate]. replace (num + 1 - i =? 0) with false in U2 by lia. replace (num + 1 - i =? num + 1) with false in U2 by lia.
    replace (num + 1 - i <=? num) with true in U2 by lia. injection U1 as <-. injection U2 as <-. unfold L'. cbn. replace (Z.of_N (num + 1 - i)) with (Z.of_N num + 1 - Z.of_N i)%Z by lia. lia.
  - intros x y (X & Y & Hx & Hy & ->). pose proof (cu_index _ _ _ _ _ _ _ H1 x X Hx) as I1. pose proof (cu_index _ _ _ _ _ _ _ H2 y _ Hy) as I2.
    eexists _, _. split; [exact I1|]. split; [exact I2|]. pose proof (unit_bin_le num L S X HS). pose proof (unit_bin_le num L' S (c - 1 - X) HS).
    split; [intros i [= <-]; assumption|]. split; [intros i [= <-]; assumption|].
    assert (EQ : unit_bin num L' S (c - 1 - X) = num + 1 - unit_bin num L S X).
    { destruct (unit_bin_cases num L S X HS) as [[HX ->]|[[HX [_ ->]]|[HX [Hd ->]]]].
      - unfold unit_bin. replace (c - 1 - X <? L')%Z with false by (unfold L'; lia). replace (_ <=? c - 1 - X)%Z with true by (unfold L'; lia). lia.
      - unfold unit_bin. replace (c - 1 - X <? L')%Z with true by (unfold L'; lia). lia.
      - rewrite (proj1 (unit_bin_inner num L' S (c - 1 - X) HS ltac:(unfold L'; lia))). rewrite (HD X HX). lia. }
    rewrite EQ. intros i Hi. split; intros [= Q]; f_equal; lia.
  - intros i Hi. split; [lia|]. destruct (cu_noflow_bin H1 i Hi) as (s & t & E1 & Vs & Vt). destruct (cu_noflow_bin H2 (num - 1 - i) ltac:(lia)) as (s' & t' & E2 & Vs' & Vt').
    eexists _, _. split; [exact E1|]. split; [exact E2|]. eexists (Bin _ _), (Bin _ _). split; [split; [exact Vs | exact Vt]|]. split; [split; [exact Vs' | exact Vt']|].
    unfold L'. cbn. replace (Z.of_N (num - 1 - i)) with (Z.of_N num - 1 - Z.of_N i)%Z by lia. lia.
  - intros x y (X & Y & Hx & Hy & ->). pose proof (cu_noflow_index H1 x X Hx) as I1. pose proof (cu_noflow_index H2 y _ Hy) as I2.
    eexists _, _. split; [exact I1|]. split; [exact I2|]. split; [exact (unit_bin_noflow_lt H1 X)|]. split; [exact (unit_bin_noflow_lt H2 (c - 1 - X))|].
    intros i Hi. unfold unit_bin_noflow. destruct ((L <=? X)%Z && _) eqn:E.
    + replace ((L' <=? c - 1 - X)%Z && (c - 1 - X <? L' + Z.of_N num * S)%Z) with true by (unfold L'; lia). rewrite HD by lia.
      pose proof (proj2 (unit_bin_inner num L S X HS ltac:(lia))). split; intros [= Q]; f_equal; lia.
    + replace ((L' <=? c - 1 - X)%Z && (c - 1 - X <? L' + Z.of_N num * S)%Z) with false by (unfold L'; lia). split; discriminate.
Qed.
Print Assumptions C91_mirror.

(** Cyclic axes that start [k] bins apart. *)
Theorem C91_rotate num L L' S d k : (L + d = L' + k * S)%Z -> counts_units ops1 v1 near1 a num L S -> counts_units ops2 v2 near2 b num L' S ->
  let rotate i := Z.to_N ((Z.of_N i + k) mod Z.of_N num) in
  relabels (uniformcyclic_axis ops1) (uniformcyclic_axis ops2) (both v1 v2 (fun X Y => Y = (X + d)%Z /\ near1 (X - L)%Z /\ near2 (Y - L')%Z))
    (both_intervals v1 v2 (shifted_modulo (Z.of_N num * S) d)) (mkUniformCyclic (mkUniformNoFlow a)) (mkUniformCyclic (mkUniformNoFlow b)) num num rotate
  /\ onto num num rotate.
Proof.
  intros HL H1 H2 rotate. pose proof (cu_step _ _ _ _ _ _ _ H1) as HS. pose proof (cu_num _ _ _ _ _ _ _ H1) as Hn.
  assert (Hr : forall i, rotate i < num) by (intros i; unfold rotate; pose proof (Z.mod_pos_bound (Z.of_N i + k) (Z.of_N num) ltac:(lia)); lia).
  assert (Hinj : forall i j, i < num -> j < num -> rotate i = rotate j -> i = j).
  { intros i j Hi Hj E. unfold rotate in E. pose proof (Z.mod_pos_bound (Z.of_N i + k) (Z.of_N num) ltac:(lia)). pose proof (Z.mod_pos_bound (Z.of_N j + k) (Z.of_N num) ltac:(lia)).
    pose proof (Z.div_mod (Z.of_N i + k) (Z.of_N num) ltac:(lia)). pose proof (Z.div_mod (Z.of_N j + k) (Z.of_N num) ltac:(lia)).
    assert (Z.of_N i - Z.of_N j = Z.of_N num * ((Z.of_N i + k) / Z.of_N num - (Z.of_N j + k) / Z.of_N num))%Z by lia.
    set (q := ((Z.of_N i + k) / Z.of_N num - (Z.of_N j + k) / Z.of_N num)%Z) in *. assert (q = 0)%Z by nia. lia. }
  split.
  - constructor; [exact (cu_cyclic_has_bins H1) | exact (cu_cyclic_has_bins H2)| |].
    + intros i Hi. split; [apply Hr|]. destruct (cu_noflow_bin H1 i Hi) as (s & t & E1 & Vs & Vt). destruct (cu_noflow_bin H2 (rotate i) (Hr i)) as (s' & t' & E2 & Vs' & Vt').
      eexists _, _. split; [exact E1|]. split; [exact E2|]. eexists (Bin _ _), (Bin _ _). split; [split; [exact Vs | exact Vt]|]. split; [split; [exact Vs' | exact Vt']|].
      exists (- ((Z.of_N i + k) / Z.of_N num))%Z. cbn. pose proof (Z.div_mod (Z.of_N i + k) (Z.of_N num) ltac:(lia)) as Q. pose proof (Z.mod_pos_bound (Z.of_N i + k) (Z.of_N num) ltac:(lia)).
      unfold rotate. rewrite Z2N.id by lia. set (q := ((Z.of_N i + k) / Z.of_N num)%Z) in *. set (r := ((Z.of_N i + k) mod Z.of_N num)%Z) in *. clearbody q r.
      assert (Er : r = (Z.of_N i + k - Z.of_N num * q)%Z) by lia. rewrite Er. split; lia.
    + intros x y (X & Y & Hx & Hy & -> & N1 & N2). pose proof (cu_cyclic _ _ _ _ _ _ _ H1 x X Hx N1) as I1. pose proof (cu_cyclic _ _ _ _ _ _ _ H2 y _ Hy N2) as I2.
      pose proof (unit_bin_cyclic_lt num L S X HS Hn) as Hlt. pose proof (unit_bin_cyclic_lt num L' S (X + d) HS Hn).
      eexists _, _. split; [exact I1|]. split; [exact I2|]. split; [intros i [= <-]; assumption|]. split; [intros i [= <-]; assumption|].
      assert (EQ : unit_bin_cyclic num L' S (X + d) = rotate (unit_bin_cyclic num L S X)).
      { rewrite !unit_bin_cyclic_div by assumption. unfold rotate. replace (X + d - L')%Z with (X - L + k * S)%Z by lia. rewrite Z.div_add by lia.
        pose proof (Z.mod_pos_bound ((X - L) / S) (Z.of_N num) ltac:(lia)). rewrite Z2N.id by lia. rewrite Z.add_mod_idemp_l by lia. reflexivity. }
      rewrite EQ. intros i Hi. split; [intros [= <-]; reflexivity|]. intros [= Q]. f_equal. apply Hinj; assumption.
  - intros j Hj. exists (Z.to_N ((Z.of_N j - k) mod Z.of_N num)). pose proof (Z.mod_pos_bound (Z.of_N j - k) (Z.of_N num) ltac:(lia)). split; [lia|].
    unfold rotate. rewrite Z2N.id by lia. rewrite Z.add_mod_idemp_l by lia. replace (Z.of_N j - k + k)%Z with (Z.of_N j) by lia. rewrite Z.mod_small by lia. lia.
Qed.
Print Assumptions C91_rotate.

(** Only the [m] bins after the first [k]. *)
Theorem C91_cut num L S k m : k + m <= num -> counts_units ops1 v1 near1 a num L S -> counts_units ops2 v2 near2 b m (L + Z.of_N k * S) S ->
  coarsens (uniform_axis ops1) (uniform_axis ops2) (both v1 v2 eq) (both_intervals v1 v2 lies_in) a b (num + 2) (m + 2) (cut_to k m)
  /\ relabels (uniformnoflow_axis ops2) (uniformnoflow_axis ops1) (fun y x => both v1 v2 eq x y) (fun c' c => both_intervals v1 v2 eq c c')
       (mkUniformNoFlow b) (mkUniformNoFlow a) m num (fun i => i + k).
Proof.
  intros Hk H1 H2. pose proof (cu_step _ _ _ _ _ _ _ H1) as HS. pose proof (cu_num _ _ _ _ _ _ _ H1) as Hn. pose proof (cu_num _ _ _ _ _ _ _ H2) as Hm.
  assert (HD : forall X, ((X - (L + Z.of_N k * S)) / S = (X - L) / S - Z.of_N k)%Z).
  { intros X. replace (X - (L + Z.of_N k * S))%Z with (X - L + (- Z.of_N k) * S)%Z by lia. rewrite Z.div_add by lia. lia. }
  assert (HB : forall X, (X - L = S * ((X - L) / S) + (X - L) mod S)%Z /\ (0 <= (X - L) mod S < S)%Z).
  { intros X. split; [apply Z.div_mod; lia | apply Z.mod_pos_bound; lia]. }
  split.
  - constructor; [exact (cu_has_bins H1) | exact (cu_has_bins H2)| |].
    + intros i Hi. unfold cut_to. assert (Hc : N.min (i - k) (m + 1) < m + 2) by lia. split; [exact Hc|].
      destruct (cu_some_bin H1 i Hi) as (b1 & c1 & E1 & U1 & R1). destruct (cu_some_bin H2 _ Hc) as (b2 & c2 & E2 & U2 & R2).
      exists b1, b2. split; [exact E1|]. split; [exact E2|]. exists c1, c2. split; [exact R1|]. split; [exact R2|]. intros X HX. unfold unit_interval in U1, U2.
      destruct (N.le_gt_cases i k) as [Hik|Hik]; [|destruct (N.le_gt_cases i (k + m)) as [Hikm|Hikm]].
      * replace (N.min (i - k) (m + 1)) with 0 in U2 by lia. change (0 =? 0) with true in U2. cbn match in U2. injection U2 as <-. cbn.
        destruct (i =? 0) eqn:I0; [injection U1 as <-; cbn in HX; nia|]. replace (i =? num + 1) with false in U1 by lia. replace (i <=? num) with true in U1 by lia.
        injection U1 as <-. cbn in HX. assert (Z.of_N i * S <= Z.of_N k * S)%Z by nia. lia.
      * replace (N.min (i - k) (m + 1)) with (i - k) in U2 by lia. replace (i - k =? 0) with false in U2 by lia. replace (i - k =? m + 1) with false in U2 by lia.
        replace (i - k <=? m) with true in U2 by lia. injection U2 as <-. replace (i =? 0) with false in U1 by lia. replace (i =? num + 1) with false in U1 by lia.
        replace (i <=? num) with true in U1 by lia. injection U1 as <-. cbn in *. replace (Z.of_N (i - k)) with (Z.of_N i - Z.of_N k)%Z by lia. lia.
      * replace (N.min (i - k) (m + 1)) with (m + 1) in U2 by lia. replace (m + 1 =? 0) with false in U2 by lia. rewrite N.eqb_refl in U2. injection U2 as <-. cbn.
        replace (i =? 0) with false in U1 by lia. assert (Z.of_N k * S + Z.of_N m * S <= (Z.of_N i - 1) * S)%Z by nia.
        destruct (i =? num + 1); [injection U1 as <-; cbn in HX; assert (Z.of_N k * S + Z.of_N m * S <= Z.of_N num * S)%Z by nia; lia|].
        destruct (i <=? num); [|discriminate]. injection U1 as <-. cbn in HX. lia.
    + intros x y (X & Y & Hx & Hy & <-). exists (Some (unit_bin num L S X)). split; [exact (cu_index _ _ _ _ _ _ _ H1 x X Hx)|].
      split; [intros i [= <-]; apply unit_bin_le; exact HS|]. refine (eq_trans (cu_index _ _ _ _ _ _ _ H2 y X Hy) _). cbn [option_map]. f_equal. f_equal. unfold cut_to.
      destruct (HB X) as [Q Hr]. unfold unit_bin. rewrite HD. set (q := ((X - L) / S)%Z) in *. set (r := ((X - L) mod S)%Z) in *. clearbody q r.
      destruct (X <? L + Z.of_N k * S)%Z eqn:C1.
      { destruct (X <? L)%Z eqn:C2; [lia|]. assert (q < Z.of_N k)%Z by nia. assert (S * (q + 1) <= S * Z.of_N num)%Z by (apply Z.mul_le_mono_nonneg_l; lia). assert (0 <= q)%Z by nia.
        replace (_ <=? X)%Z with false by (symmetry; apply Z.leb_gt; lia). lia. }
      assert (Z.of_N k <= q)%Z by nia. replace (X <? L)%Z with false by nia. destruct (L + Z.of_N k * S + Z.of_N m * S <=? X)%Z eqn:C2.
      { assert (Z.of_N k + Z.of_N m <= q)%Z by nia. destruct (L + Z.of_N num * S <=? X)%Z; lia. }
      assert (q < Z.of_N k + Z.of_N m)%Z by nia. assert (S * (q + 1) <= S * Z.of_N num)%Z by (apply Z.mul_le_mono_nonneg_l; lia).
      replace (L + Z.of_N num * S <=? X)%Z with false by (symmetry; apply Z.leb_gt; lia). lia.
  - constructor; [exact (cu_noflow_has_bins H2) | exact (cu_noflow_has_bins H1)| |].
    + intros i Hi. split; [lia|]. destruct (cu_noflow_bin H2 i Hi) as (s' & t' & E2 & Vs' & Vt'). destruct (cu_noflow_bin H1 (i + k) ltac:(lia)) as (s & t & E1 & Vs & Vt).
      eexists _, _. split; [exact E2|]. split; [exact E1|]. eexists (Bin _ _), (Bin _ _). split; [split; [exact Vs | exact Vt]|]. split; [split; [exact Vs' | exact Vt']|].
      f_equal; lia.
    + intros y x (X & Y & Hx & Hy & <-). pose proof (cu_noflow_index H2 y X Hy) as I1. pose proof (cu_noflow_index H1 x X Hx) as I2.
      eexists _, _. split; [exact I1|]. split; [exact I2|]. split; [exact (unit_bin_noflow_lt H2 X)|]. split; [exact (unit_bin_noflow_lt H1 X)|].
      intros i Hi. unfold unit_bin_noflow. rewrite HD. destruct (HB X) as [Q Hr]. set (q := ((X - L) / S)%Z) in *. set (r := ((X - L) mod S)%Z) in *. clearbody q r.
      destruct ((L + Z.of_N k * S <=? X)%Z && _) eqn:C1.
      * assert (Z.of_N k <= q < Z.of_N k + Z.of_N m)%Z by nia. assert (S * (q + 1) <= S * Z.of_N num)%Z by (apply Z.mul_le_mono_nonneg_l; lia). assert (0 <= S * q)%Z by nia.
        replace ((L <=? X)%Z && (X <? L + Z.of_N num * S)%Z) with true by lia.
        split; intros [= Q']; f_equal; lia.
      * split; [discriminate|]. destruct ((L <=? X)%Z && _) eqn:C2; [|discriminate]. intros [= Q']. exfalso. assert (0 <= q)%Z by nia. assert (Hq : (Z.of_N k <= q < Z.of_N k + Z.of_N m)%Z) by lia.
        apply not_true_iff_false in C1. apply C1. clear - Q Hr Hq HS. apply andb_true_intro. split; [apply Z.leb_le | apply Z.ltb_lt]; nia.
Qed.
Print Assumptions C91_cut.

(** Bins [k] times as wide. *)
Theorem C91_rebin num k L S : 1 <= k -> counts_units ops1 v1 near1 a (num * k) L S -> counts_units ops2 v2 near2 b num L (S * Z.of_N k) ->
  coarsens (uniform_axis ops1) (uniform_axis ops2) (both v1 v2 eq) (both_intervals v1 v2 lies_in) a b (num * k + 2) (num + 2) (join_inner k)
  /\ coarsens (uniformnoflow_axis ops1) (uniformnoflow_axis ops2) (both v1 v2 eq) (both_intervals v1 v2 lies_in) (mkUniformNoFlow a) (mkUniformNoFlow b) (num * k) num (join k)
  /\ coarsens (uniformcyclic_axis ops1) (uniformcyclic_axis ops2) (both v1 v2 (fun X Y => X = Y /\ near1 (X - L)%Z /\ near2 (X - L)%Z)) (both_intervals v1 v2 lies_in)
       (mkUniformCyclic (mkUniformNoFlow a)) (mkUniformCyclic (mkUniformNoFlow b)) (num * k) num (join k).
Proof.
  intros Hk H1 H2. pose proof (cu_step _ _ _ _ _ _ _ H1) as HS. pose proof (cu_num _ _ _ _ _ _ _ H1) as Hn. pose proof (cu_num _ _ _ _ _ _ _ H2) as Hm. pose proof (cu_step _ _ _ _ _ _ _ H2) as HS'.
  assert (HD : forall X, ((X - L) / (S * Z.of_N k) = (X - L) / S / Z.of_N k)%Z) by (intros X; rewrite Z.div_div by lia; reflexivity).
  assert (HW : (Z.of_N (num * k) * S = Z.of_N num * (S * Z.of_N k))%Z) by (rewrite N2Z.inj_mul; ring).
  assert (Hj : forall i, i < num * k -> i / k < num) by (intros i Hi; apply N.div_lt_upper_bound; [lia | rewrite N.mul_comm; exact Hi]).
  assert (HN : forall i, i < num * k -> exists b1 b2, uniformnoflow_bin ops1 (mkUniformNoFlow a) i = Val (Some b1) /\ uniformnoflow_bin ops2 (mkUniformNoFlow b) (i / k) = Val (Some b2)
     /\ both_intervals v1 v2 lies_in b1 b2).
  { intros i Hi. destruct (cu_noflow_bin H1 i Hi) as (s & t & E1 & Vs & Vt). destruct (cu_noflow_bin H2 (i / k) (Hj i Hi)) as (s' & t' & E2 & Vs' & Vt').
    eexists _, _. split; [exact E1|]. split; [exact E2|]. eexists (Bin _ _), (Bin _ _). split; [split; [exact Vs | exact Vt]|]. split; [split; [exact Vs' | exact Vt']|].
    intros X HX. cbn in *. pose proof (N.div_mod i k ltac:(lia)) as Q. pose proof (N.mod_lt i k ltac:(lia)) as Hr. set (q := i / k) in *. set (r := i mod k) in *. clearbody q r.
    assert (EL : (Z.of_N q * (S * Z.of_N k) = Z.of_N q * Z.of_N k * S)%Z) by ring. assert (EU : ((Z.of_N q + 1) * (S * Z.of_N k) = (Z.of_N q + 1) * Z.of_N k * S)%Z) by ring.
    assert (Z.of_N q * Z.of_N k <= Z.of_N i /\ Z.of_N i + 1 <= (Z.of_N q + 1) * Z.of_N k)%Z by lia. rewrite EL, EU. nia. }
  split; [|split]; constructor; try exact (cu_has_bins H1); try exact (cu_has_bins H2); try exact (cu_noflow_has_bins H1); try exact (cu_noflow_has_bins H2);
    try (intros i Hi; split; [exact (Hj i Hi) | exact (HN i Hi)]).
  - intros i Hi. unfold join_inner. assert (Hc : (i + (k - 1)) / k < num + 2) by (apply N.div_lt_upper_bound; [lia|]; nia). split; [exact Hc|].
    destruct (cu_some_bin H1 i Hi) as (b1 & c1 & E1 & U1 & R1). destruct (cu_some_bin H2 _ Hc) as (b2 & c2 & E2 & U2 & R2).
    exists b1, b2. split; [exact E1|]. split; [exact E2|]. exists c1, c2. split; [exact R1|]. split; [exact R2|]. intros X HX. unfold unit_interval in U1, U2.
    destruct (i =? 0) eqn:I0.
    { replace ((i + (k - 1)) / k) with 0 in U2 by (symmetry; apply N.div_small; lia). injection U1 as <-. injection U2 as <-. exact HX. }
    destruct (i =? num * k + 1) eqn:I1.
    { replace ((i + (k - 1)) / k) with (num + 1) in U2 by (apply (N.div_unique _ _ _ 0); lia). replace (num + 1 =? 0) with false in U2 by lia. rewrite N.eqb_refl in U2.
      injection U1 as <-. injection U2 as <-. cbn in *. lia. }
    destruct (i <=? num * k) eqn:I2; [|discriminate]. injection U1 as <-.
    pose proof (N.div_mod (i + (k - 1)) k ltac:(lia)) as Q. pose proof (N.mod_lt (i + (k - 1)) k ltac:(lia)) as Hr. set (q := (i + (k - 1)) / k) in *. set (r := (i + (k - 1)) mod k) in *. clearbody q r.
    assert (1 <= q) by nia. assert (q <= num) by nia. replace (q =? 0) with false in U2 by lia. replace (q =? num + 1) with false in U2 by lia. replace (q <=? num) with true in U2 by lia.
    injection U2 as <-. cbn in *. assert (EL : ((Z.of_N q - 1) * (S * Z.of_N k) = (Z.of_N q - 1) * Z.of_N k * S)%Z) by ring. assert (EU : (Z.of_N q * (S * Z.of_N k) = Z.of_N q * Z.of_N k * S)%Z) by ring.
    assert ((Z.of_N q - 1) * Z.of_N k <= Z.of_N i - 1 /\ Z.of_N i <= Z.of_N q * Z.of_N k)%Z by lia. rewrite EL, EU. nia.
  - intros x y (X & Y & Hx & Hy & <-). exists (Some (unit_bin (num * k) L S X)). split; [exact (cu_index _ _ _ _ _ _ _ H1 x X Hx)|].
    split; [intros i [= <-]; apply unit_bin_le; exact HS|]. refine (eq_trans (cu_index _ _ _ _ _ _ _ H2 y X Hy) _). cbn [option_map]. f_equal. f_equal. unfold join_inner.
    unfold unit_bin. rewrite HD, HW. destruct (X <? L)%Z eqn:C1; [symmetry; apply N.div_small; lia|].
    destruct (_ <=? X)%Z eqn:C2; [apply (N.div_unique _ _ _ 0); lia|]. assert (0 <= (X - L) / S)%Z by (apply Z.div_pos; lia).
    replace (Z.to_N ((X - L) / S) + 1 + (k - 1)) with (Z.to_N ((X - L) / S) + 1 * k) by lia. rewrite N.div_add by lia. f_equal. rewrite Z2N.inj_div by lia. rewrite N2Z.id. reflexivity.
  - intros x y (X & Y & Hx & Hy & <-). exists (unit_bin_noflow (num * k) L S X). split; [exact (cu_noflow_index H1 x X Hx)|]. split; [exact (unit_bin_noflow_lt H1 X)|].
    refine (eq_trans (cu_noflow_index H2 y X Hy) _). f_equal. unfold unit_bin_noflow. rewrite HD, HW. destruct (_ && _) eqn:C; [|reflexivity]. cbn [option_map]. f_equal. unfold join.
    assert (0 <= (X - L) / S)%Z by (apply Z.div_pos; lia). rewrite Z2N.inj_div by lia. rewrite N2Z.id. reflexivity.
  - intros x y (X & Y & Hx & Hy & <- & N1 & N2). exists (Some (unit_bin_cyclic (num * k) L S X)). split; [exact (cu_cyclic _ _ _ _ _ _ _ H1 x X Hx N1)|].
    split; [intros i [= <-]; apply unit_bin_cyclic_lt; [exact HS | exact Hn]|]. refine (eq_trans (cu_cyclic _ _ _ _ _ _ _ H2 y X Hy N2) _). cbn [option_map]. f_equal. f_equal. unfold join.
    unfold unit_bin_cyclic. rewrite HW. set (M := ((X - L) mod (Z.of_N num * (S * Z.of_N k)))%Z). assert (0 <= M)%Z by (apply Z.mod_pos_bound; nia).
    rewrite <- Z.div_div by lia. assert (0 <= M / S)%Z by (apply Z.div_pos; lia). rewrite Z2N.inj_div by lia. rewrite N2Z.id. reflexivity.
Qed.
Print Assumptions C91_rebin.

(** Programs. The two axes answer all calls alike, [==] included, so a client program over the one
    type of numbers gets the same answers as over the other. [C]: the coordinates, in units, that
    the program uses; on cyclic axes they must be near enough to the lower edge. *)
Definition same_units (C : Z -> Prop) (a : Uniform T1) (b : Uniform T2) : Prop :=
  exists num L S, counts_units ops1 v1 near1 a num L S /\ counts_units ops2 v2 near2 b num L S /\ forall X, C X -> near1 (X - L)%Z /\ near2 (X - L)%Z.
Definition equal_as_integers {T} (ops : NumOps T) (v : T -> Z -> Prop) : Prop := forall x y X Y, v x X -> v y Y -> @eq_ _ (@num_ord _ ops) x y = (X =? Y)%Z.

Theorem C91_axes (C : Z -> Prop) : equal_as_integers ops1 v1 -> equal_as_integers ops2 v2 ->
  let RC := both v1 v2 (fun X Y => X = Y /\ C X) in let RI := both_intervals v1 v2 eq in
  axis_refines (uniform_axis ops1) {| axis_eqb := uniform_eqb ops1 |} (uniform_axis ops2) {| axis_eqb := uniform_eqb ops2 |} (same_units C) RC RI
  /\ axis_refines (uniformnoflow_axis ops1) {| axis_eqb := uniformnoflow_eqb ops1 |} (uniformnoflow_axis ops2) {| axis_eqb := uniformnoflow_eqb ops2 |}
       (fun a b => same_units C (unf_axis a) (unf_axis b)) RC RI
  /\ axis_refines (uniformcyclic_axis ops1) {| axis_eqb := uniformcyclic_eqb ops1 |} (uniformcyclic_axis ops2) {| axis_eqb := uniformcyclic_eqb ops2 |}
       (fun a b => same_units C (unf_axis (uc_axis a)) (unf_axis (uc_axis b))) RC RI.
Proof.
  intros Q1 Q2 RC RI.
  assert (HQ : forall c c' d d', same_units C c c' -> same_units C d d' -> uniform_eqb ops1 c d = uniform_eqb ops2 c' d').
  { intros c c' d d' (n & l & s & H1 & H2 & _) (n' & l' & s' & H1' & H2' & _). unfold uniform_eqb.
    rewrite (Q1 _ _ _ _ (cu_low _ _ _ _ _ _ _ H1) (cu_low _ _ _ _ _ _ _ H1')), (Q1 _ _ _ _ (cu_high _ _ _ _ _ _ _ H1) (cu_high _ _ _ _ _ _ _ H1')), (Q1 _ _ _ _ (cu_width _ _ _ _ _ _ _ H1) (cu_width _ _ _ _ _ _ _ H1')).
    rewrite (Q2 _ _ _ _ (cu_low _ _ _ _ _ _ _ H2) (cu_low _ _ _ _ _ _ _ H2')), (Q2 _ _ _ _ (cu_high _ _ _ _ _ _ _ H2) (cu_high _ _ _ _ _ _ _ H2')), (Q2 _ _ _ _ (cu_width _ _ _ _ _ _ _ H2) (cu_width _ _ _ _ _ _ _ H2')).
    rewrite (cu_num_bins _ _ _ _ _ _ _ H1), (cu_num_bins _ _ _ _ _ _ _ H1'), (cu_num_bins _ _ _ _ _ _ _ H2), (cu_num_bins _ _ _ _ _ _ _ H2'). reflexivity. }
  assert (HB : forall c c' i, same_units C c c' -> exists x y, uniform_bin ops1 c i = Val x /\ uniform_bin ops2 c' i = Val y /\ option_rel RI x y).
  { intros c c' i (n & l & s & H1 & H2 & _). destruct (cu_bin _ _ _ _ _ _ _ H1 i) as (x & Ex & Rx). destruct (cu_bin _ _ _ _ _ _ _ H2 i) as (y & Ey & Ry).
    exists x, y. split; [exact Ex|]. split; [exact Ey|]. destruct (unit_interval n l s i) as [w|], x as [x|], y as [y|]; cbn in *; try contradiction; [|exact I].
    exists w, w. auto. }
  assert (HK : forall (x : BinInterval T1) (y : BinInterval T2), RI x y -> match x, y with Underflow _, Underflow _ | Overflow _, Overflow _ | Bin _ _, Bin _ _ => True | _, _ => False end).
  { intros x y (w & w' & Hx & Hy & <-). destruct x, w; try contradiction; destruct y; try contradiction; exact I. }
  assert (HNB : forall c c' i, same_units C c c' -> refines (option_rel RI) (uniformnoflow_bin ops1 (mkUniformNoFlow c) i) (uniformnoflow_bin ops2 (mkUniformNoFlow c') i)).
  { intros c c' i Hc. unfold uniformnoflow_bin. cbn [unf_axis]. apply (refines_bind eq); [apply refines_refl|]. intros j ? _ _ <-. destruct (HB c c' j Hc) as (x & y & -> & -> & Hr). cbn [obind].
    destruct x as [x|], y as [y|]; cbn in Hr; try contradiction; [|apply refines_val; exact I]. pose proof (HK x y Hr) as Hk.
    destruct x, y; try contradiction; apply refines_val; cbn; try exact I. exact Hr. }
  assert (HN : forall c c', same_units C c c' -> u_num c = u_num c').
  { intros c c' (n & l & s & H1 & H2 & _). rewrite (cu_num_bins _ _ _ _ _ _ _ H1), (cu_num_bins _ _ _ _ _ _ _ H2). reflexivity. }
  assert (HNN : forall c c', same_units C c c' -> refines eq (uniformnoflow_num_bins (mkUniformNoFlow c)) (uniformnoflow_num_bins (mkUniformNoFlow c'))).
  { intros c c' Hc. apply refines_eq. unfold uniformnoflow_num_bins, uniform_num_bins. cbn [unf_axis]. rewrite (HN c c' Hc). reflexivity. }
  split; [|split]; constructor.
  - intros c c' x y (n & l & s & H1 & H2 & _) (X & Y & Hx & Hy & <- & _). apply refines_eq.
    exact (eq_trans (cu_index _ _ _ _ _ _ _ H1 x X Hx) (eq_sym (cu_index _ _ _ _ _ _ _ H2 y X Hy))).
  - intros c c' Hc. apply refines_eq. cbn [num_bins uniform_axis]. unfold uniform_num_bins. rewrite (HN c c' Hc). reflexivity.
  - intros c c' i Hc. cbn [bin uniform_axis]. destruct (HB c c' i Hc) as (x & y & -> & -> & Hr). apply refines_val. exact Hr.
  - reflexivity.
  - exact HQ.
  - intros [c] [c'] x y (n & l & s & H1 & H2 & _) (X & Y & Hx & Hy & <- & _). apply refines_eq.
    exact (eq_trans (cu_noflow_index H1 x X Hx) (eq_sym (cu_noflow_index H2 y X Hy))).
  - intros [c] [c'] Hc. exact (HNN c c' Hc).
  - intros [c] [c'] i Hc. exact (HNB c c' i Hc).
  - reflexivity.
  - intros [c] [c'] [d] [d'] Hc Hd. exact (HQ _ _ _ _ Hc Hd).
  - intros [[c]] [[c']] x y (n & l & s & H1 & H2 & HC) (X & Y & Hx & Hy & <- & HX). destruct (HC X HX) as [N1 N2]. apply refines_eq.
    exact (eq_trans (cu_cyclic _ _ _ _ _ _ _ H1 x X Hx N1) (eq_sym (cu_cyclic _ _ _ _ _ _ _ H2 y X Hy N2))).
  - intros [[c]] [[c']] Hc. exact (HNN c c' Hc).
  - intros [[c]] [[c']] i Hc. exact (HNB c c' i Hc).
  - reflexivity.
  - intros [[c]] [[c']] [[d]] [[d']] Hc Hd. exact (HQ _ _ _ _ Hc Hd).
Qed.
Print Assumptions C91_axes.
End TwoAxes.

(** The numbers of both kinds compare as the integers they are read as. *)
Theorem C91_equal_as_integers :
  (forall (B : Build) t, equal_as_integers (int_ops t) (fun x X => x = X /\ fits t X))
  /\ (forall prec emax P E (B : Build) e, covered_format prec emax -> equal_as_integers (float_ops prec emax P E) (grid_value e)).
Proof.
  split.
  - intros B t x y X Y [-> _] [-> _]. apply int_eq.
  - intros prec emax P E B e HF x y X Y Hx Hy. destruct HF as [Hp He]. eapply grid_eqf; eassumption.
Qed.
Print Assumptions C91_equal_as_integers.

(** C91, spelled out for client programs over one-dimensional histograms: over [f64] (or any other
    float format) on a grid, and over integers counting grid units. *)
Theorem C91_programs (prec emax : Z) (P : Prec_gt_0 prec) (E : Prec_lt_emax prec emax) {B : Build} (t : int_type) (e : Z) (C : Z -> Prop)
    {V D W R : Type} {FV : Fill V} {FD : FillWith V D} {FW : FillWithWeighted V D W} {DV : Default V}
    (p : program (AX := @axes1_axis _ (uniform_axis (float_ops prec emax P E))) V D W R) (p' : program (AX := @axes1_axis _ (uniform_axis (int_ops t))) V D W R) :
  covered_format prec emax ->
  let fops := float_ops prec emax P E in let iops := int_ops t in
  let is_int x X := x = X /\ fits t X in
  let RA a a' := same_units (ops1 := fops) (ops2 := iops) (v1 := grid_value e) (v2 := is_int) (near1 := fun d => (Z.abs d <= 2 ^ prec)%Z) (near2 := fits t) C (ax1_axis a) (ax1_axis a')
                 /\ ax1_shape a = ax1_shape a' in
  let RC x y := both (grid_value e) is_int (fun X Y => X = Y /\ C X) x y in let RI b b' := both_intervals (grid_value e) is_int eq b b' in
  let AX1 := @axes1_axis _ (uniform_axis fops) in let AE1 := @axes1_eq _ {| axis_eqb := uniform_eqb fops |} in
  let AX2 := @axes1_axis _ (uniform_axis iops) in let AE2 := @axes1_eq _ {| axis_eqb := uniform_eqb iops |} in
  same_program AX1 AX2 RA RC RI p p' ->
  (forall r st, dense_run (AX := AX1) (AE := AE1) p (fun _ => None) = Val (r, st) ->
     exists st', dense_run (AX := AX2) (AE := AE2) p' (fun _ => None) = Val (r, st') /\ same_store (same_dense RA) st st')
  /\ (forall r st, sparse_run (AX := AX1) (AE := AE1) p (fun _ => None) (Val (r, st)) ->
     exists st', sparse_run (AX := AX2) (AE := AE2) p' (fun _ => None) (Val (r, st')) /\ same_store (same_sparse RA) st st').
Proof.
  intros HF fops iops is_int RA RC RI AX1 AE1 AX2 AE2 Hp.
  refine (C73_programs (AX1 := AX1) (AE1 := AE1) (AX2 := AX2) (AE2 := AE2) RA (RC : @Coordinate _ AX1 -> @Coordinate _ AX2 -> Prop)
    (RI : @Interval _ AX1 -> @Interval _ AX2 -> Prop) p p' _ _ Hp).
  - refine (proj1 (C73_one_dim _ _ _ _ _ _ _ (proj1 (C91_axes C _ _)))).
    + exact (proj2 C91_equal_as_integers prec emax P E B e HF).
    + exact (proj1 C91_equal_as_integers B t).
  - split; intros; apply refines_refl.
Qed.
Print Assumptions C91_programs.

(** Case: [Uniform::new(8, -1.0, 2.0)] over [f64], whose bins are 3/8 wide, counts eighths; so does
    [Uniform::new(8, -1.0, 2.0)] over [f32] and [Uniform::with_step_size(8, -8, 3)] over [i32]. All put
    1/8 in bin 4. [Uniform::with_step_size(4, -8, 6)] over [i32] is the same with bins twice as wide;
    moved by 5 eighths, the axis over [f64] starts at -3/8. *)
Lemma f32_grid (m e : Z) : (Z.abs m <= 2 ^ 24)%Z -> grid_exponent 24 128 e -> grid_value e (binary_normalize 24 128 prec32 emax32 mode_NE m e false : f32) m.
Proof.
  intros Hm He. pose proof (binary_normalize_correct 24 128 prec32 emax32 mode_NE m e false) as H. cbv zeta in H.
  change (F2R (Float radix2 m e)) with (IZR m * bpow radix2 e)%R in H.
  rewrite (grid_rnd 24 128 ltac:(lia) e He m Hm) in H.
  rewrite Rlt_bool_true in H by (apply (grid_top 24 128 ltac:(lia) e He m Hm)).
  destruct H as [H1 [H2 _]]. split; assumption.
Qed.
Example C91_nonvacuous : forall B : Build,
  let is_int x X := x = X /\ fits (signed 32) X in
  let f32_of m := (binary_normalize 24 128 prec32 emax32 mode_NE m (-3) false : f32) in
  (exists a, uniform_new f64_ops 8 (f64_lit (-8) (-3)) (f64_lit 16 (-3)) = Val (Ok a)
     /\ counts_units f64_ops (grid_value (-3)) (fun d => (Z.abs d <= 2 ^ 53)%Z) a 8 (-8) 3)
  /\ (exists a, uniform_new f64_ops 8 (f64_lit (-3) (-3)) (f64_lit 21 (-3)) = Val (Ok a)
     /\ counts_units f64_ops (grid_value (-3)) (fun d => (Z.abs d <= 2 ^ 53)%Z) a 8 (-8 + 5) 3)
  /\ (exists a, uniform_new f32_ops 8 (f32_of (-8)%Z) (f32_of 16%Z) = Val (Ok a)
     /\ counts_units f32_ops (grid_value (-3)) (fun d => (Z.abs d <= 2 ^ 24)%Z) a 8 (-8) 3)
  /\ (exists a, uniform_with_step_size (int_ops (signed 32)) 8 (-8)%Z 3%Z = Val (Ok a) /\ counts_units (int_ops (signed 32)) is_int (fits (signed 32)) a 8 (-8) 3)
  /\ (exists a, uniform_with_step_size (int_ops (signed 32)) 4 (-8)%Z 6%Z = Val (Ok a) /\ counts_units (int_ops (signed 32)) is_int (fits (signed 32)) a 4 (-8) (3 * Z.of_N 2))
  /\ unit_bin 8 (-8) 3 1 = 4 /\ unit_bin 4 (-8) 6 1 = join_inner 2 4 /\ is_int 1%Z 1%Z.
Proof.
  intros B is_int f32_of. assert (Hu : (20 < usize_mod)%N) by (pose proof usize_mod_large; lia).
  assert (H64 : grid_exponent 53 1024 (-3)) by (split; lia). assert (H32 : grid_exponent 24 128 (-3)) by (split; lia).
  assert (HV : valid_int_params (signed 32) 8 (-8) 3).
  { constructor; unfold fits, signed; cbn [int_min int_max]; try lia. exists 32%Z. split; [lia | left; reflexivity]. }
  assert (HV' : valid_int_params (signed 32) 4 (-8) 6).
  { constructor; unfold fits, signed; cbn [int_min int_max]; try lia. exists 32%Z. split; [lia | left; reflexivity]. }
  split; [|split; [|split; [|split; [|split]]]].
  - refine (proj1 (C91_float_axes 53 1024 prec64 emax64 B (-3) 8 (f64_lit (-8) (-3)) (f64_lit 16 (-3)) (f64_lit 3 (-3)) (-8) 3 _ _ _ _ _ _));
      [split; lia | constructor; try exact H64; cbn; lia | cbn; lia | apply f64_grid; [cbn; lia | exact H64] ..].
  - refine (proj1 (C91_float_axes 53 1024 prec64 emax64 B (-3) 8 (f64_lit (-3) (-3)) (f64_lit 21 (-3)) (f64_lit 3 (-3)) (-8 + 5) 3 _ _ _ _ _ _));
      [split; lia | constructor; try exact H64; cbn; lia | cbn; lia | apply f64_grid; [cbn; lia | exact H64] ..].
  - refine (proj1 (C91_float_axes 24 128 prec32 emax32 B (-3) 8 (f32_of (-8)%Z) (f32_of 16%Z) (f32_of 3%Z) (-8) 3 _ _ _ _ _ _));
      [split; lia | constructor; try exact H32; cbn; lia | cbn; lia | apply f32_grid; [cbn; lia | exact H32] ..].
  - destruct (C91_integer_axes B (signed 32) 8 (-8) 3 HV ltac:(unfold fits, signed; cbn [int_min int_max]; lia)) as (a & H1 & _ & H2). eauto.
  - destruct (C91_integer_axes B (signed 32) 4 (-8) 6 HV' ltac:(unfold fits, signed; cbn [int_min int_max]; lia)) as (a & H1 & _ & H2). eauto.
  - split; [reflexivity|]. split; [reflexivity|]. split; [reflexivity|]. unfold fits, signed. cbn [int_min int_max]. lia.
Qed.
