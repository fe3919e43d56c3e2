(** * PropMove: shifting, mirroring, rotating and cutting axes (C89). *)
From stdpp Require Import gmap.
From Coq Require Import ZifyBool ZifyN ZifyNat Lia Sorted.
From Verif Require Import Base BaseFacts Num Uniform Axis Spec FillSpec IntFacts OrdLaws StdAlgo StdContract VarAxis VariableFacts UniformInt UniformMore Axes AxesSpec AxesFacts
  AxesMacro Category Value VecHist HashHist HistSpec HistFacts PropUniformInt PropVariable PropCategory PropAxes PropHist PropHistIter PropOrder PropExactAxes Macros SimSpec PropRelabel PropRebin PropRebinAxes PropEmbed.
Open Scope N_scope.

(** ** Specification *)

(** The same interval, moved by [d]; mirrored at [c] ([x] becomes [c - 1 - x]: what is in
    [s, e) is then in [c - e, c - s)); and moved by [d] up to whole periods. *)
Definition shifted (d : Z) : BinInterval Z -> BinInterval Z -> Prop := interval_rel (fun x y => y = (x + d)%Z).
Definition mirrored (c : Z) (b b' : BinInterval Z) : Prop :=
  match b, b' with
  | Underflow x, Overflow y | Overflow x, Underflow y => y = (c - x)%Z
  | Bin s e, Bin s' e' => s' = (c - e)%Z /\ e' = (c - s)%Z
  | _, _ => False
  end.
Definition shifted_modulo (period d : Z) (b b' : BinInterval Z) : Prop := exists q, shifted (d + q * period)%Z b b'.

(** [move] reaches all of the [n] bins. *)
Definition onto (n1 n2 : N) (move : N -> N) : Prop := forall j, j < n2 -> exists i, i < n1 /\ move i = j.

(** Cutting off all but the [m] inner bins after the first [k]. *)
Definition cut_to (k m i : N) : N := N.min (i - k) (m + 1).

(** ** Reading it off the bins *)

(** Two axes that place coordinates exactly: if bins [i] and [move i] always contain corresponding
    coordinates, the one is a renumbering of (a part of) the other. *)
Theorem C89_by_bins {A1 A2} (AX1 : Axis A1) (AX2 : Axis A2) (a1 : A1) (a2 : A2) n1 n2 ok1 ok2 mem1 mem2 move
    (RC : @Coordinate A1 AX1 -> @Coordinate A2 AX2 -> Prop) (RI : @Interval A1 AX1 -> @Interval A2 AX2 -> Prop) :
  exact_axis AX1 a1 n1 ok1 mem1 -> exact_axis AX2 a2 n2 ok2 mem2 ->
  (forall i, i < n1 -> move i < n2) ->
  (forall c1 c2, RC c1 c2 -> ok1 c1 /\ ok2 c2) ->
  (forall i b1 b2, i < n1 -> bin a1 i = Val (Some b1) -> bin a2 (move i) = Val (Some b2) ->
     RI b1 b2 /\ forall c1 c2, RC c1 c2 -> mem1 b1 c1 = mem2 b2 c2) ->
  relabels AX1 AX2 RC RI a1 a2 n1 n2 move.
Proof.
  intros E1 E2 Hm Hok Hb. constructor; [exact (ex_bins _ _ _ _ _ E1) | exact (ex_bins _ _ _ _ _ E2)| |].
  - intros i Hi. split; [exact (Hm i Hi)|]. destruct (proj2 (ex_bins _ _ _ _ _ E1) i Hi) as [b1 B1]. destruct (proj2 (ex_bins _ _ _ _ _ E2) _ (Hm i Hi)) as [b2 B2].
    exists b1, b2. split; [exact B1|]. split; [exact B2|]. exact (proj1 (Hb i b1 b2 Hi B1 B2)).
  - intros c1 c2 Hc. destruct (Hok c1 c2 Hc) as [O1 O2]. destruct (ex_index _ _ _ _ _ E1 c1 O1) as (r1 & R1 & L1). destruct (ex_index _ _ _ _ _ E2 c2 O2) as (r2 & R2 & L2).
    exists r1, r2. split; [exact R1|]. split; [exact R2|]. split; [exact L1|]. split; [exact L2|].
    intros i Hi. destruct (proj2 (ex_bins _ _ _ _ _ E1) i Hi) as [b1 B1]. destruct (proj2 (ex_bins _ _ _ _ _ E2) _ (Hm i Hi)) as [b2 B2].
    pose proof (ex_iff _ _ _ _ _ E1 c1 i b1 O1 Hi B1) as I1. pose proof (ex_iff _ _ _ _ _ E2 c2 _ b2 O2 (Hm i Hi) B2) as I2.
    rewrite (proj2 (Hb i b1 b2 Hi B1 B2) c1 c2 Hc) in I1. rewrite R1 in I1. rewrite R2 in I2.
    split; intros ->; [assert (X : Val r2 = Val (Some (move i))) by (apply I2, I1; reflexivity) | assert (X : Val r1 = Val (Some i)) by (apply I1, I2; reflexivity)];
      injection X as ->; reflexivity.
Qed.
Print Assumptions C89_by_bins.

(** ** Integer uniform axes *)

(** All bins of the three axis types. *)
Lemma int_bins {B : Build} t num low step : valid_int_params t num low step -> fits t (Z.of_N num * (Z.of_N num * step))%Z ->
  let a := mkUniform num low (low + Z.of_N num * step)%Z step in
  uniform_with_step_size (int_ops t) num low step = Val (Ok a)
  /\ (forall i, i < num + 2 -> uniform_bin (int_ops t) a i = Val (Some (
        if i =? 0 then Underflow low else if i =? num + 1 then Overflow (low + Z.of_N num * step)%Z
        else Bin (low + (Z.of_N i - 1) * step)%Z (low + Z.of_N i * step)%Z)))
  /\ (forall i, i < num -> uniformnoflow_bin (int_ops t) (mkUniformNoFlow a) i = Val (Some (Bin (low + Z.of_N i * step)%Z (low + (Z.of_N i + 1) * step)%Z))).
Proof.
  intros HV HW a. pose proof (with_step_size_ok t num low step HV) as Ea. fold a in Ea. split; [exact Ea|].
  destruct (C02_uniform_int_bins B t num low step HV HW) as (a' & Ea' & _ & U & M & O & _). rewrite Ea in Ea'. injection Ea' as <-.
  split.
  - intros i Hi. destruct (i =? 0) eqn:E0; [replace i with 0 by lia; exact U|]. destruct (i =? num + 1) eqn:E1; [replace i with (num + 1) by lia; exact O|]. apply M. lia.
  - intros i Hi. destruct (C09_noflow_bins B Z (int_ops t) a (vp_num_usize _ _ _ _ HV)) as [_ [Hnf _]].
    rewrite Hnf by exact Hi. rewrite M by lia. f_equal. f_equal. f_equal; lia.
Qed.

Lemma exact_three {B : Build} t num low step : valid_int_params t num low step -> fits t (Z.of_N num * (Z.of_N num * step))%Z ->
  let a := mkUniform num low (low + Z.of_N num * step)%Z step in
  exact_axis (uniform_axis (int_ops t)) a (num + 2) (fits t) (in_interval (@num_ord _ (int_ops t)))
  /\ exact_axis (uniformnoflow_axis (int_ops t)) (mkUniformNoFlow a) num (fits t) (in_interval (@num_ord _ (int_ops t)))
  /\ exact_axis (uniformcyclic_axis (int_ops t)) (mkUniformCyclic (mkUniformNoFlow a)) num
       (fun x => fits t x /\ fits t (x - low)%Z) (in_interval_mod (Z.of_N num * step)).
Proof.
  intros HV HW a. destruct (C53_uniform_int_exact B t num low step HV HW) as (a' & Ea' & _ & _ & X).
  rewrite (with_step_size_ok t num low step HV) in Ea'. injection Ea' as <-. exact X.
Qed.

(** A boolean form of [in_interval] over the integers. *)
Definition memZ (b : BinInterval Z) (x : Z) : bool :=
  match b with Underflow e => (x <? e)%Z | Overflow s => (s <=? x)%Z | Bin s e => (s <=? x)%Z && (x <? e)%Z end.
Lemma memZ_ok {B : Build} t b x : in_interval (@num_ord _ (int_ops t)) b x = memZ b x.
Proof.
  apply eq_true_iff_eq. rewrite in_interval_int. destruct b; cbn [containsZ memZ]; lia.
Qed.

(** C89. The lower edge and all coordinates moved by [d]. *)
Theorem C89_shift_uniform_int : forall (B : Build) (t : int_type) (num : N) (low step d : Z),
  valid_int_params t num low step -> valid_int_params t num (low + d) step -> fits t (Z.of_N num * (Z.of_N num * step))%Z ->
  exists a b, uniform_with_step_size (int_ops t) num low step = Val (Ok a) /\ uniform_with_step_size (int_ops t) num (low + d)%Z step = Val (Ok b)
  /\ relabels (uniform_axis (int_ops t)) (uniform_axis (int_ops t)) (fun x y => y = (x + d)%Z /\ fits t x /\ fits t y) (shifted d)
       a b (num + 2) (num + 2) (fun i => i)
  /\ relabels (uniformnoflow_axis (int_ops t)) (uniformnoflow_axis (int_ops t)) (fun x y => y = (x + d)%Z /\ fits t x /\ fits t y) (shifted d)
       (mkUniformNoFlow a) (mkUniformNoFlow b) num num (fun i => i).
Proof.
  intros B t num low step d HV HV' HW. destruct (int_bins t num low step HV HW) as (Ea & Ba & Na). destruct (int_bins t num (low + d)%Z step HV' HW) as (Eb & Bb & Nb).
  destruct (exact_three t num low step HV HW) as (X1 & X2 & _). destruct (exact_three t num (low + d)%Z step HV' HW) as (Y1 & Y2 & _).
  eexists _, _. split; [exact Ea|]. split; [exact Eb|]. split.
  - apply (C89_by_bins _ _ _ _ _ _ _ _ _ _ _ _ _ X1 Y1); [intros; assumption | tauto|].
    intros i b1 b2 Hi E1 E2. change (uniform_bin (int_ops t) (mkUniform num low (low + Z.of_N num * step)%Z step) i = Val (Some b1)) in E1.
    change (uniform_bin (int_ops t) (mkUniform num (low + d)%Z (low + d + Z.of_N num * step)%Z step) i = Val (Some b2)) in E2.
    rewrite Ba in E1 by exact Hi. rewrite Bb in E2 by exact Hi. injection E1 as <-. injection E2 as <-. split.
    + destruct (i =? 0); [reflexivity|]. destruct (i =? num + 1); cbn; lia.
    + intros x y (-> & _). rewrite !memZ_ok. destruct (i =? 0); [cbn [memZ]; lia|]. destruct (i =? num + 1); cbn [memZ]; lia.
  - apply (C89_by_bins _ _ _ _ _ _ _ _ _ _ _ _ _ X2 Y2); [intros; assumption | tauto|].
    intros i b1 b2 Hi E1 E2. change (uniformnoflow_bin (int_ops t) (mkUniformNoFlow (mkUniform num low (low + Z.of_N num * step)%Z step)) i = Val (Some b1)) in E1.
    change (uniformnoflow_bin (int_ops t) (mkUniformNoFlow (mkUniform num (low + d)%Z (low + d + Z.of_N num * step)%Z step)) i = Val (Some b2)) in E2.
    rewrite Na in E1 by exact Hi. rewrite Nb in E2 by exact Hi. injection E1 as <-. injection E2 as <-.
    split; [cbn; lia|]. intros x y (-> & _). rewrite !memZ_ok. cbn [memZ]. lia.
Qed.
Print Assumptions C89_shift_uniform_int.

(** Coordinates and range mirrored: the bins are numbered the other way round. *)
Theorem C89_mirror_uniform_int : forall (B : Build) (t : int_type) (num : N) (low step c : Z),
  let low' := (c - (low + Z.of_N num * step))%Z in
  valid_int_params t num low step -> valid_int_params t num low' step -> fits t (Z.of_N num * (Z.of_N num * step))%Z ->
  exists a b, uniform_with_step_size (int_ops t) num low step = Val (Ok a) /\ uniform_with_step_size (int_ops t) num low' step = Val (Ok b)
  /\ relabels (uniform_axis (int_ops t)) (uniform_axis (int_ops t)) (fun x y => y = (c - 1 - x)%Z /\ fits t x /\ fits t y) (mirrored c)
       a b (num + 2) (num + 2) (fun i => num + 1 - i)
  /\ onto (num + 2) (num + 2) (fun i => num + 1 - i)
  /\ relabels (uniformnoflow_axis (int_ops t)) (uniformnoflow_axis (int_ops t)) (fun x y => y = (c - 1 - x)%Z /\ fits t x /\ fits t y) (mirrored c)
       (mkUniformNoFlow a) (mkUniformNoFlow b) num num (fun i => num - 1 - i)
  /\ onto num num (fun i => num - 1 - i).
Proof.
  intros B t num low step c low' HV HV' HW. destruct (int_bins t num low step HV HW) as (Ea & Ba & Na). destruct (int_bins t num low' step HV' HW) as (Eb & Bb & Nb).
  destruct (exact_three t num low step HV HW) as (X1 & X2 & _). destruct (exact_three t num low' step HV' HW) as (Y1 & Y2 & _).
  pose proof (vp_num _ _ _ _ HV) as Hn. pose proof (vp_step _ _ _ _ HV) as Hs.
  eexists _, _. split; [exact Ea|]. split; [exact Eb|]. split; [|split; [|split]].
  - apply (C89_by_bins _ _ _ _ _ _ _ _ _ _ _ _ _ X1 Y1); [intros; lia | tauto|].
    intros i b1 b2 Hi E1 E2. change (uniform_bin (int_ops t) (mkUniform num low (low + Z.of_N num * step)%Z step) i = Val (Some b1)) in E1.
    change (uniform_bin (int_ops t) (mkUniform num low' (low' + Z.of_N num * step)%Z step) (num + 1 - i) = Val (Some b2)) in E2.
    rewrite Ba in E1 by exact Hi. rewrite Bb in E2 by lia. injection E1 as <-. injection E2 as <-.
    destruct (i =? 0) eqn:I0; [|destruct (i =? num + 1) eqn:I1].
    + replace (num + 1 - i =? 0) with false by lia. replace (num + 1 - i =? num + 1) with true by lia.
      split; [cbn; unfold low'; lia|]. intros x y (-> & _). rewrite !memZ_ok. cbn [memZ]. unfold low'. lia.
    + replace (num + 1 - i =? 0) with true by lia.
      split; [cbn; unfold low'; lia|]. intros x y (-> & _). rewrite !memZ_ok. cbn [memZ]. unfold low'. lia.
    + replace (num + 1 - i =? 0) with false by lia. replace (num + 1 - i =? num + 1) with false by lia.
      replace (Z.of_N (num + 1 - i)) with (Z.of_N num + 1 - Z.of_N i)%Z by lia.
      split; [cbn; unfold low'; lia|]. intros x y (-> & _). rewrite !memZ_ok. cbn [memZ]. unfold low'. lia.
  - intros j Hj. exists (num + 1 - j). lia.
  - apply (C89_by_bins _ _ _ _ _ _ _ _ _ _ _ _ _ X2 Y2); [intros; lia | tauto|].
    intros i b1 b2 Hi E1 E2. change (uniformnoflow_bin (int_ops t) (mkUniformNoFlow (mkUniform num low (low + Z.of_N num * step)%Z step)) i = Val (Some b1)) in E1.
    change (uniformnoflow_bin (int_ops t) (mkUniformNoFlow (mkUniform num low' (low' + Z.of_N num * step)%Z step)) (num - 1 - i) = Val (Some b2)) in E2.
    rewrite Na in E1 by exact Hi. rewrite Nb in E2 by lia. injection E1 as <-. injection E2 as <-.
    replace (Z.of_N (num - 1 - i)) with (Z.of_N num - 1 - Z.of_N i)%Z by lia.
    split; [cbn; unfold low'; lia|]. intros x y (-> & _). rewrite !memZ_ok. cbn [memZ]. unfold low'. lia.
  - intros j Hj. exists (num - 1 - j). lia.
Qed.
Print Assumptions C89_mirror_uniform_int.

(** Cyclic axes. The second one starts at [low'], the coordinates are moved by [d]; when
    [low + d] is [k] bins after [low'] the bins are rotated by [k]. [d = 0]: the same data
    seen on an axis that starts elsewhere; [low' = low]: moved data on the same axis. *)
Theorem C89_rotate_uniform_cyclic : forall (B : Build) (t : int_type) (num : N) (low low' step d k : Z),
  (low + d = low' + k * step)%Z ->
  valid_int_params t num low step -> valid_int_params t num low' step -> fits t (Z.of_N num * (Z.of_N num * step))%Z ->
  let rotate i := Z.to_N ((Z.of_N i + k) mod Z.of_N num) in
  exists a b, uniformcyclic_with_step_size (int_ops t) num low step = Val (Ok a) /\ uniformcyclic_with_step_size (int_ops t) num low' step = Val (Ok b)
  /\ relabels (uniformcyclic_axis (int_ops t)) (uniformcyclic_axis (int_ops t))
       (fun x y => y = (x + d)%Z /\ (fits t x /\ fits t (x - low)%Z) /\ (fits t y /\ fits t (y - low')%Z)) (shifted_modulo (Z.of_N num * step) d)
       a b num num rotate
  /\ onto num num rotate.
Proof.
  intros B t num low low' step d k Hd HV HV' HW rotate. destruct (int_bins t num low step HV HW) as (Ea & _ & Na). destruct (int_bins t num low' step HV' HW) as (Eb & _ & Nb).
  destruct (exact_three t num low step HV HW) as (_ & _ & X3). destruct (exact_three t num low' step HV' HW) as (_ & _ & Y3).
  pose proof (vp_num _ _ _ _ HV) as Hn. pose proof (vp_step _ _ _ _ HV) as Hs.
  destruct (C53_uniform_int_exact B t num low step HV HW) as (a' & Ea' & _ & Ca & _). rewrite Ea in Ea'. injection Ea' as <-.
  destruct (C53_uniform_int_exact B t num low' step HV' HW) as (b' & Eb' & _ & Cb & _). rewrite Eb in Eb'. injection Eb' as <-.
  assert (Hrot : forall i, (0 <= (Z.of_N i + k) mod Z.of_N num < Z.of_N num)%Z) by (intros i; apply Z.mod_pos_bound; lia).
  assert (Hlt : forall i, rotate i < num) by (intros i; unfold rotate; pose proof (Hrot i); lia).
  eexists _, _. split; [exact Ca|]. split; [exact Cb|]. split.
  - apply (C89_by_bins _ _ _ _ _ _ _ _ _ _ _ _ _ X3 Y3); [intros; apply Hlt | tauto|].
    intros i b1 b2 Hi E1 E2. change (uniformnoflow_bin (int_ops t) (mkUniformNoFlow (mkUniform num low (low + Z.of_N num * step)%Z step)) i = Val (Some b1)) in E1.
    change (uniformnoflow_bin (int_ops t) (mkUniformNoFlow (mkUniform num low' (low' + Z.of_N num * step)%Z step)) (rotate i) = Val (Some b2)) in E2.
    rewrite Na in E1 by exact Hi. rewrite Nb in E2 by apply Hlt. injection E1 as <-. injection E2 as <-.
    assert (Er : Z.of_N (rotate i) = ((Z.of_N i + k) - Z.of_N num * ((Z.of_N i + k) / Z.of_N num))%Z).
    { unfold rotate. rewrite Z2N.id by apply Hrot. rewrite Z.mod_eq by lia. reflexivity. }
    rewrite Er. remember ((Z.of_N i + k) / Z.of_N num)%Z as q eqn:Eq. clear Eq.
    split.
    + exists (- q)%Z. unfold shifted. cbn [interval_rel]. split; lia.
    + intros x y (-> & _). cbn [in_interval_mod].
      replace (x + d - (low' + (Z.of_N i + k - Z.of_N num * q) * step))%Z with (x - (low + Z.of_N i * step) + q * (Z.of_N num * step))%Z by lia.
      rewrite Z.mod_add by nia. f_equal. lia.
  - intros j Hj. exists (Z.to_N ((Z.of_N j - k) mod Z.of_N num)).
    assert (0 <= (Z.of_N j - k) mod Z.of_N num < Z.of_N num)%Z by (apply Z.mod_pos_bound; lia).
    split; [lia|]. unfold rotate. rewrite Z2N.id by lia. rewrite Zplus_mod_idemp_l. replace (Z.of_N j - k + k)%Z with (Z.of_N j) by lia.
    rewrite Z.mod_small by lia. lia.
Qed.
Print Assumptions C89_rotate_uniform_cyclic.

(** Keeping only the [m] bins after the first [k]: without flow bins these are the bins of the
    longer axis; with flow bins, all others are joined into the flow bins. *)
Theorem C89_cut_uniform_int : forall (B : Build) (t : int_type) (num k m : N) (low step : Z),
  1 <= m -> k + m <= num ->
  valid_int_params t num low step -> fits t (Z.of_N num * (Z.of_N num * step))%Z ->
  exists a b, uniform_with_step_size (int_ops t) num low step = Val (Ok a) /\ uniform_with_step_size (int_ops t) m (low + Z.of_N k * step)%Z step = Val (Ok b)
  /\ coarsens (uniform_axis (int_ops t)) (uniform_axis (int_ops t)) (fun x y => x = y /\ fits t x) (within (fits t) (in_interval (@num_ord _ (int_ops t))))
       a b (num + 2) (m + 2) (cut_to k m)
  /\ relabels (uniformnoflow_axis (int_ops t)) (uniformnoflow_axis (int_ops t)) (fun x y => x = y /\ fits t x) eq
       (mkUniformNoFlow b) (mkUniformNoFlow a) m num (fun i => i + k).
Proof.
  intros B t num k m low step Hm Hkm HV HW.
  assert (HB : valid_int_params t m (low + Z.of_N k * step) step /\ fits t (Z.of_N m * (Z.of_N m * step))%Z).
  { destruct HV as []. pose proof (primitive_bounds t vp_type) as [Hmin Hmax]. unfold fits in *.
    assert (Z.of_N k * step + Z.of_N m * step <= Z.of_N num * step)%Z by nia. assert (0 <= Z.of_N k * step)%Z by nia. assert (0 <= Z.of_N m * step)%Z by nia.
    split; [constructor; unfold fits; try assumption; lia|].
    assert (Z.of_N m * (Z.of_N m * step) <= Z.of_N num * (Z.of_N num * step))%Z by (apply Z.mul_le_mono_nonneg; lia). nia. }
  destruct HB as [HV' HW'].
  destruct (int_bins t num low step HV HW) as (Ea & Ba & Na). destruct (int_bins t m (low + Z.of_N k * step)%Z step HV' HW') as (Eb & Bb & Nb).
  destruct (exact_three t num low step HV HW) as (X1 & X2 & _). destruct (exact_three t m (low + Z.of_N k * step)%Z step HV' HW') as (Y1 & Y2 & _).
  pose proof (vp_step _ _ _ _ HV) as Hs.
  eexists _, _. split; [exact Ea|]. split; [exact Eb|]. split.
  - refine (coarsens_mono _ _ _ _ _ _ _ _ _ _ _ (C87_by_bins _ _ _ _ _ _ _ _ _ _ (cut_to k m) (fun x y => x = y) X1 Y1 _ _ _) _ _).
    + intros i Hi. unfold cut_to. lia.
    + intros i b1 b2 Hi E1 E2 x y (<- & _) Hx. change (uniform_bin (int_ops t) (mkUniform num low (low + Z.of_N num * step)%Z step) i = Val (Some b1)) in E1.
      change (uniform_bin (int_ops t) (mkUniform m (low + Z.of_N k * step)%Z (low + Z.of_N k * step + Z.of_N m * step)%Z step) (cut_to k m i) = Val (Some b2)) in E2.
      rewrite Ba in E1 by exact Hi. rewrite Bb in E2 by (unfold cut_to; lia). injection E1 as <-. injection E2 as <-. rewrite memZ_ok in *. unfold cut_to.
      destruct (N.le_gt_cases i k) as [Hlo|Hlo]; [|destruct (N.le_gt_cases i (k + m)) as [Hmid|Hhi]].
      * replace (N.min (i - k) (m + 1) =? 0) with true by lia. cbn [memZ]. destruct (i =? 0); [cbn [memZ] in Hx; nia|].
        replace (i =? num + 1) with false in Hx by lia. cbn [memZ] in Hx. assert (Z.of_N i * step <= Z.of_N k * step)%Z by nia. lia.
      * replace (N.min (i - k) (m + 1)) with (i - k) by lia. replace (i - k =? 0) with false by lia. replace (i - k =? m + 1) with false by lia.
        replace (i =? 0) with false in Hx by lia. replace (i =? num + 1) with false in Hx by lia. cbn [memZ] in *.
        replace (Z.of_N (i - k)) with (Z.of_N i - Z.of_N k)%Z by lia. lia.
      * replace (N.min (i - k) (m + 1)) with (m + 1) by lia. replace (m + 1 =? 0) with false by lia. rewrite N.eqb_refl. cbn [memZ].
        replace (i =? 0) with false in Hx by lia. assert (Z.of_N k * step + Z.of_N m * step <= (Z.of_N i - 1) * step)%Z by nia.
        destruct (i =? num + 1) eqn:I1; cbn [memZ] in Hx; [|lia]. assert (Z.of_N k * step + Z.of_N m * step <= Z.of_N num * step)%Z by nia. lia.
    + intros j b2 x y Hj E2 (<- & Hf & _) _. destruct (C02_uniform_int_bin_index_agree B t num low step HV HW) as (a' & Ha' & Hag & _).
      rewrite Ea in Ha'. injection Ha' as <-. destruct (Hag x Hf) as (i & b1 & H1 & H2 & H3 & _). exists i, b1.
      split; [|split; [exact H2 | now apply in_interval_int]].
      destruct (ex_index _ _ _ _ _ X1 x Hf) as (r & Er & Lr). apply Lr. change (uniform_index (int_ops t) (mkUniform num low (low + Z.of_N num * step)%Z step) x = Val r) in Er. congruence.
    + intros x y [-> H]. split; [reflexivity | split; assumption].
    + intros c c' H x Hx. apply H. split; [reflexivity | split; assumption].
  - apply (C89_by_bins _ _ _ _ _ _ _ _ _ _ _ _ _ Y2 X2); [intros; lia | intros x y [<- H]; split; exact H|].
    intros i b1 b2 Hi E1 E2. change (uniformnoflow_bin (int_ops t) (mkUniformNoFlow (mkUniform m (low + Z.of_N k * step)%Z (low + Z.of_N k * step + Z.of_N m * step)%Z step)) i = Val (Some b1)) in E1.
    change (uniformnoflow_bin (int_ops t) (mkUniformNoFlow (mkUniform num low (low + Z.of_N num * step)%Z step)) (i + k) = Val (Some b2)) in E2.
    rewrite Nb in E1 by exact Hi. rewrite Na in E2 by lia. injection E1 as <-. injection E2 as <-.
    assert (Eb' : Bin (low + Z.of_N k * step + Z.of_N i * step)%Z (low + Z.of_N k * step + (Z.of_N i + 1) * step)%Z
            = Bin (low + Z.of_N (i + k) * step)%Z (low + (Z.of_N (i + k) + 1) * step)%Z) by (f_equal; lia).
    rewrite Eb'. split; [reflexivity|]. intros x y [<- _]. reflexivity.
Qed.
Print Assumptions C89_cut_uniform_int.

(** ** Variable-width axes *)

(** All bins of the axes without flow bins and cyclic. *)
Lemma var_bins {B : Build} T (edges : list T) i s e : 2 <= N.of_nat (length edges) -> N.of_nat (length edges) + 1 < usize_mod ->
  nth_error edges (N.to_nat i) = Some s -> nth_error edges (S (N.to_nat i)) = Some e ->
  variablenoflow_bin (mkVariableNoFlow (mkVariable edges)) i = Val (Some (Bin s e)).
Proof.
  intros H2 Hu Hs He. destruct (C13_variable_bins B T edges H2 Hu) as (_ & _ & Hm & _).
  assert (Hl : (S (N.to_nat i) < length edges)%nat) by (apply nth_error_Some; rewrite He; discriminate).
  destruct (Hm (i + 1) ltac:(lia)) as (s' & e' & Es & Ee & Hb). unfold variablenoflow_bin. cbn [vnf_axis]. rewrite uadd_ok by lia. cbn [obind].
  rewrite Hb. cbn [obind]. replace (N.to_nat (i + 1) - 1)%nat with (N.to_nat i) in Es by lia. replace (N.to_nat (i + 1)) with (S (N.to_nat i)) in Ee by lia.
  rewrite Hs in Es. rewrite He in Ee. injection Es as <-. injection Ee as <-. reflexivity.
Qed.

Lemma nth_error_some {X} (l : list X) i : (i < length l)%nat -> exists x, nth_error l i = Some x.
Proof. intros H. destruct (nth_error l i) eqn:E; [eauto|]. apply nth_error_None in E. lia. Qed.

(** C89. Over any ordered type: some consecutive edges. *)
Theorem C89_cut_variable : forall (B : Build) (search : searcher), search_contract search ->
  forall T (ord : PartialOrdOps T) is_num, ord_laws ord is_num ->
  forall before kept after : list T,
  let edges := before ++ kept ++ after in
  (forall e, In e edges -> is_num e = true) -> StronglySorted (fun x y => lt_ x y = true) edges ->
  2 <= N.of_nat (length kept) -> N.of_nat (length edges) + 1 < usize_mod ->
  relabels (variablenoflow_axis search) (variablenoflow_axis search) eq eq (mkVariableNoFlow (mkVariable kept)) (mkVariableNoFlow (mkVariable edges))
    (N.of_nat (length kept) - 1) (N.of_nat (length edges) - 1) (fun i => i + N.of_nat (length before)).
Proof.
  intros B search HS T ord is_num HL before kept after edges Hnum Hsort H2 Hu.
  assert (Hlen : length edges = (length before + (length kept + length after))%nat) by (unfold edges; rewrite !app_length; reflexivity).
  assert (Hsub : StronglySorted (fun x y => lt_ x y = true) kept).
  { unfold edges in Hsort. clear -Hsort. induction before as [|b bs IH]; cbn [app] in Hsort; [|inversion Hsort; subst; auto].
    induction kept as [|x xs IH]; cbn [app] in Hsort; [constructor|]. inversion Hsort as [|? ? H1 H2]; subst. constructor; [auto|]. apply Forall_app in H2. tauto. }
  destruct (C53_variable_exact B search HS T ord is_num HL kept ltac:(intros e He; apply Hnum; unfold edges; rewrite !in_app_iff; tauto) Hsub H2 ltac:(lia)) as [_ X].
  destruct (C53_variable_exact B search HS T ord is_num HL edges Hnum Hsort ltac:(lia) Hu) as [_ Y].
  apply (C89_by_bins _ _ _ _ _ _ _ _ _ _ _ _ _ X Y); [intros; lia | tauto|].
  intros i b1 b2 Hi E1 E2. change (variablenoflow_bin (mkVariableNoFlow (mkVariable kept)) i = Val (Some b1)) in E1.
  change (variablenoflow_bin (mkVariableNoFlow (mkVariable edges)) (i + N.of_nat (length before)) = Val (Some b2)) in E2.
  destruct (nth_error_some kept (N.to_nat i) ltac:(lia)) as [s Hs]. destruct (nth_error_some kept (S (N.to_nat i)) ltac:(lia)) as [e He].
  rewrite (var_bins T kept i s e H2 ltac:(lia) Hs He) in E1. injection E1 as <-.
  rewrite (var_bins T edges _ s e ltac:(lia) Hu) in E2.
  - injection E2 as <-. split; [reflexivity|]. intros x y <-. reflexivity.
  - unfold edges. rewrite nth_error_app2 by lia. rewrite nth_error_app1 by lia. rewrite <- Hs. f_equal. lia.
  - unfold edges. rewrite nth_error_app2 by lia. rewrite nth_error_app1 by lia. rewrite <- He. f_equal. lia.
Qed.
Print Assumptions C89_cut_variable.

(** Integers moved by [d] compare as before, so (C83) a Variable or VariableNoFlow axis over
    moved edges treats moved coordinates alike. *)
Theorem C89_shift_compares : forall (B : Build) (t : int_type) (d : Z),
  compare_alike (@num_ord _ (int_ops t)) (@num_ord _ (int_ops t)) (fun x y => y = (x + d)%Z).
Proof. intros B t d x x' y y' -> ->. cbn. f_equal. rewrite !(Z.add_comm _ d). symmetry. apply Zcompare_plus_compat. Qed.
Print Assumptions C89_shift_compares.

Lemma in_bin_mod (P s e x k : Z) : (0 < P)%Z -> (s < e)%Z -> (e - s <= P)%Z -> (s <= x + k * P < e)%Z -> ((x - s) mod P <? e - s)%Z = true.
Proof.
  intros HP Hse Hw Hx. apply Z.ltb_lt. replace ((x - s) mod P)%Z with (x + k * P - s)%Z; [lia|].
  apply (Z.mod_unique _ _ (- k)%Z); [left; lia | lia].
Qed.

(** C53 for VariableCyclic over the integers: a coordinate is put into bin [i] if and only if
    bin [i] contains it, or a whole number of periods away from it. *)
Theorem C53_variable_cyclic_int_exact : forall (B : Build) (search : searcher), search_contract search ->
  forall (t : int_type), primitive_int t ->
  forall (edges : list Z) lo hi,
  Forall (fits t) edges -> StronglySorted Z.lt edges -> N.of_nat (length edges) + 1 < usize_mod ->
  (2 <= length edges)%nat -> nth_error edges 0 = Some lo -> nth_error edges (length edges - 1) = Some hi -> fits t (hi - lo)%Z ->
  exact_axis (variablecyclic_axis search (int_ops t)) (mkVariableCyclic (mkVariableNoFlow (mkVariable edges))) (N.of_nat (length edges) - 1)
    (fun x => fits t (x - lo)%Z) (in_interval_mod (hi - lo)).
Proof.
  intros B search HS t Ht edges lo hi Hf Hst Hu H2 Hlo Hhi Hw.
  destruct (C16_variable_cyclic_int B search HS t Ht edges lo hi Hf Hst Hu H2 Hlo Hhi Hw) as [Hi _].
  assert (HP : (lo < hi)%Z) by (eapply (sorted_nth edges Hst 0%nat (length edges - 1)%nat); eauto; lia).
  constructor.
  - exact (proj2 (proj2 (C20_variable_has_bins B search Z (int_ops t) edges ltac:(lia) Hu))).
  - intros x Hx. destruct (Hi x Hx) as (i & k & s & e & Ei & Li & _). exists (Some i). split; [exact Ei|]. intros j [= <-]. exact Li.
  - intros x j b Hx Hj Hb. change (variablenoflow_bin (mkVariableNoFlow (mkVariable edges)) j = Val (Some b)) in Hb.
    destruct (Hi x Hx) as (i & k & s & e & Ei & Li & Hs & He & Hk).
    change (variablecyclic_index search (int_ops t) (mkVariableCyclic (mkVariableNoFlow (mkVariable edges))) x = Val (Some j) <-> in_interval_mod (hi - lo) b x = true).
    rewrite Ei.
    destruct (nth_error_some edges (N.to_nat j) ltac:(lia)) as [s' Hs']. destruct (nth_error_some edges (S (N.to_nat j)) ltac:(lia)) as [e' He'].
    rewrite (var_bins Z edges j s' e' ltac:(lia) Hu Hs' He') in Hb. injection Hb as <-. cbn [in_interval_mod].
    assert (Hin : forall p v, nth_error edges p = Some v -> (lo <= v <= hi)%Z).
    { intros p v Hp. assert (p < length edges)%nat by (apply nth_error_Some; rewrite Hp; discriminate). split.
      - destruct p as [|p]; [rewrite Hlo in Hp; injection Hp as ->; lia|]. pose proof (sorted_nth edges Hst 0%nat (S p) lo v ltac:(lia) Hlo Hp). lia.
      - destruct (Nat.eq_dec p (length edges - 1)%nat) as [->|]; [rewrite Hhi in Hp; injection Hp as ->; lia|].
        pose proof (sorted_nth edges Hst p (length edges - 1)%nat v hi ltac:(lia) Hp Hhi). lia. }
    pose proof (Hin _ _ Hs) as Bs. pose proof (Hin _ _ He) as Be. pose proof (Hin _ _ Hs') as Bs'. pose proof (Hin _ _ He') as Be'.
    pose proof (sorted_nth edges Hst _ _ s' e' (Nat.lt_succ_diag_r _) Hs' He') as L'.
    split.
    + intros [= ->]. rewrite Hs in Hs'. rewrite He in He'. injection Hs' as <-. injection He' as <-. apply (in_bin_mod _ _ _ _ k); lia.
    + intros Hm. apply Z.ltb_lt in Hm. pose proof (Z.mod_pos_bound (x - s') (hi - lo) ltac:(lia)) as Hb0. pose proof (Z.div_mod (x - s') (hi - lo) ltac:(lia)) as Hdm.
      remember ((x - s') mod (hi - lo))%Z as r. remember ((x - s') / (hi - lo))%Z as q. remember (hi - lo)%Z as P.
      assert (HE : (x + k * P = s' + r)%Z).
      { assert (HD : (x + k * P - (s' + r) = (k + q) * P)%Z) by (rewrite Z.mul_add_distr_r, (Z.mul_comm q); lia).
        assert (Hlow : (- P < (k + q) * P)%Z) by lia. assert (Hup : ((k + q) * P < P)%Z) by lia.
        assert (HP0 : (0 < P)%Z) by lia. assert (k + q = 0)%Z as E0 by (clear - Hlow Hup HP0; nia). rewrite E0 in HD. lia. }
      assert (i = j) as ->; [|reflexivity].
      destruct (N.lt_trichotomy i j) as [Hlt|[Heq|Hgt]]; [exfalso | exact Heq | exfalso].
      * assert (e <= s')%Z; [|lia]. destruct (Nat.eq_dec (S (N.to_nat i)) (N.to_nat j)) as [Eij|Nij]; [rewrite Eij, Hs' in He; injection He as ->; lia|].
        pose proof (sorted_nth edges Hst (S (N.to_nat i)) (N.to_nat j) e s' ltac:(lia) He Hs'). lia.
      * assert (e' <= s)%Z; [|lia]. destruct (Nat.eq_dec (S (N.to_nat j)) (N.to_nat i)) as [Eij|Nij]; [rewrite Eij, Hs in He'; injection He' as ->; lia|].
        pose proof (sorted_nth edges Hst (S (N.to_nat j)) (N.to_nat i) e' s ltac:(lia) He' Hs). lia.
Qed.
Print Assumptions C53_variable_cyclic_int_exact.

(** The edges of a cyclic axis that starts at edge [k] instead, all moved by [d]. *)
Definition turned (k : nat) (period d : Z) (edges : list Z) : list Z :=
  map (fun x => (x + d)%Z) (skipn k edges ++ map (fun x => (x + period)%Z) (firstn k (tl edges))).

Section Turned.
Context (k : nat) (d : Z) (edges : list Z) (lo hi : Z).
Context (H2 : (2 <= length edges)%nat) (Hk : (k < length edges)%nat) (Hlo : nth_error edges 0 = Some lo) (Hhi : nth_error edges (length edges - 1) = Some hi).

Lemma turned_length : length (turned k (hi - lo) d edges) = length edges.
Proof using H2 Hk. unfold turned. rewrite map_length, app_length, map_length, skipn_length, firstn_length. clear Hlo Hhi. destruct edges; cbn [tl length] in *; lia. Qed.
Lemma tl_nth {X} (l : list X) i : nth_error (tl l) i = nth_error l (S i).
Proof. destruct l; [destruct i; reflexivity | reflexivity]. Qed.
Lemma turned_low j x : nth_error edges (j + k) = Some x -> nth_error (turned k (hi - lo) d edges) j = Some (x + d)%Z.
Proof using H2 Hk.
  intros Hx. assert (j + k < length edges)%nat by (apply nth_error_Some; rewrite Hx; discriminate).
  unfold turned. apply (map_nth_error (fun x => (x + d)%Z)). rewrite nth_error_app1 by (rewrite skipn_length; lia). rewrite nth_error_skipn'. rewrite <- Hx. f_equal. lia.
Qed.
Lemma turned_high j x : (length edges <= j + k + 1)%nat -> (j < length edges)%nat -> nth_error edges (j + k + 1 - length edges) = Some x ->
  nth_error (turned k (hi - lo) d edges) j = Some (x + (hi - lo) + d)%Z.
Proof using H2 Hk Hlo Hhi.
  intros Hj Hj' Hx. destruct (Nat.eq_dec (j + k + 1)%nat (length edges)) as [E|E].
  - replace (j + k + 1 - length edges)%nat with 0%nat in Hx by lia. rewrite Hlo in Hx. injection Hx as <-.
    replace (lo + (hi - lo) + d)%Z with (hi + d)%Z by lia. apply turned_low. rewrite <- Hhi. f_equal. lia.
  - unfold turned. replace (x + (hi - lo) + d)%Z with ((x + (hi - lo)) + d)%Z by lia. apply (map_nth_error (fun x => (x + d)%Z)).
    rewrite nth_error_app2 by (rewrite skipn_length; lia). rewrite skipn_length. apply (map_nth_error (fun x => (x + (hi - lo))%Z)).
    assert (Hfn : forall (m : nat) (l : list Z) i, (i < m)%nat -> nth_error (firstn m l) i = nth_error l i).
    { clear. induction m; intros [|y l] [|i] Hi; cbn; try reflexivity; try lia. apply IHm. lia. }
    rewrite Hfn by lia. rewrite tl_nth. rewrite <- Hx. f_equal. lia.
Qed.
Lemma turned_sorted : StronglySorted Z.lt edges -> StronglySorted Z.lt (turned k (hi - lo) d edges).
Proof using H2 Hk Hlo Hhi.
  intros Hst.
  assert (Hgen : forall l, (forall j x y, nth_error l j = Some x -> nth_error l (S j) = Some y -> (x < y)%Z) -> StronglySorted Z.lt l).
  { clear. intros l H. apply Sorted_StronglySorted; [intros x y z; lia|]. induction l as [|x l IH]; [constructor|].
    constructor; [apply IH; intros j; exact (H (S j))|]. destruct l as [|y l]; constructor. exact (H 0%nat x y eq_refl eq_refl). }
  apply Hgen. intros j x y Hx Hy.
  assert (Hj : (S j < length edges)%nat) by (rewrite <- turned_length; apply nth_error_Some; rewrite Hy; discriminate).
  destruct (Nat.lt_ge_cases (S j + k)%nat (length edges)) as [Hl|Hg].
  - destruct (nth_error_some edges (j + k)%nat ltac:(lia)) as [x0 E0]. destruct (nth_error_some edges (S j + k)%nat ltac:(lia)) as [y0 E1].
    rewrite (turned_low _ _ E0) in Hx. rewrite (turned_low _ _ E1) in Hy. injection Hx as <-. injection Hy as <-.
    pose proof (sorted_nth edges Hst (j + k)%nat (S j + k)%nat x0 y0 ltac:(lia) E0 E1). lia.
  - destruct (nth_error_some edges (j + k + 1 - length edges)%nat ltac:(lia)) as [x0 E0]. destruct (nth_error_some edges (S j + k + 1 - length edges)%nat ltac:(lia)) as [y0 E1].
    rewrite (turned_high j x0 ltac:(lia) ltac:(lia) E0) in Hx. rewrite (turned_high (S j) y0 ltac:(lia) ltac:(lia) E1) in Hy. injection Hx as <-. injection Hy as <-.
    pose proof (sorted_nth edges Hst (j + k + 1 - length edges)%nat (S j + k + 1 - length edges)%nat x0 y0 ltac:(lia) E0 E1). lia.
Qed.
End Turned.

(** A VariableCyclic axis that starts at its edge [k] instead, with all edges and coordinates
    moved by [d]: the same bins, the numbering starts at bin [k]. *)
Theorem C89_rotate_variable_cyclic : forall (B : Build) (search : searcher), search_contract search ->
  forall (t : int_type), primitive_int t ->
  forall (edges : list Z) lo hi (k : nat) (d start : Z),
  StronglySorted Z.lt edges -> N.of_nat (length edges) + 1 < usize_mod ->
  (2 <= length edges)%nat -> nth_error edges 0 = Some lo -> nth_error edges (length edges - 1) = Some hi -> fits t (hi - lo)%Z ->
  (k < length edges)%nat -> nth_error edges k = Some start ->
  let edges' := turned k (hi - lo) d edges in
  Forall (fits t) edges -> Forall (fits t) edges' ->
  let n := N.of_nat (length edges) - 1 in
  let move i := (i + (n - N.of_nat k)) mod n in
  relabels (variablecyclic_axis search (int_ops t)) (variablecyclic_axis search (int_ops t))
    (fun x y => y = (x + d)%Z /\ fits t (x - lo)%Z /\ fits t (x - start)%Z) (shifted_modulo (hi - lo) d)
    (mkVariableCyclic (mkVariableNoFlow (mkVariable edges))) (mkVariableCyclic (mkVariableNoFlow (mkVariable edges'))) n n move
  /\ onto n n move.
Proof.
  intros B search HS t Ht edges lo hi k d start Hst Hu H2 Hlo Hhi Hw Hk Hstart edges' Hf Hf' n move.
  pose proof (turned_length k d edges lo hi H2 Hk) as Hlen'. fold edges' in Hlen'.
  pose proof (turned_sorted k d edges lo hi H2 Hk Hlo Hhi Hst) as Hst'. fold edges' in Hst'.
  assert (HP : (lo < hi)%Z) by (eapply (sorted_nth edges Hst 0%nat (length edges - 1)%nat); eauto; lia).
  assert (Hlo' : nth_error edges' 0 = Some (start + d)%Z) by (apply turned_low; [exact H2 | exact Hk|]; exact Hstart).
  assert (Hhi' : nth_error edges' (length edges' - 1) = Some (start + (hi - lo) + d)%Z).
  { rewrite Hlen'. unfold edges'. apply turned_high; try assumption; try lia. rewrite <- Hstart. f_equal. lia. }
  pose proof (C53_variable_cyclic_int_exact B search HS t Ht edges lo hi Hf Hst Hu H2 Hlo Hhi Hw) as X.
  assert (Y := C53_variable_cyclic_int_exact B search HS t Ht edges' _ _ Hf' Hst' ltac:(rewrite Hlen'; exact Hu) ltac:(rewrite Hlen'; exact H2) Hlo' Hhi').
  replace (start + (hi - lo) + d - (start + d))%Z with (hi - lo)%Z in Y by lia. specialize (Y Hw). rewrite Hlen' in Y. fold n in X, Y.
  assert (Hn : 1 <= n) by (unfold n; lia).
  assert (Hmove : forall i, i < n -> move i = if i <? N.of_nat k then i + (n - N.of_nat k) else i - N.of_nat k).
  { intros i Hi. unfold move. destruct (i <? N.of_nat k) eqn:E; [apply N.mod_small; unfold n in *; lia|].
    replace (i + (n - N.of_nat k)) with (i - N.of_nat k + 1 * n) by (unfold n in *; lia). rewrite N.mod_add by lia. apply N.mod_small. lia. }
  split.
  - apply (C89_by_bins _ _ _ _ _ _ _ _ _ _ _ _ _ X Y).
    + intros i Hi. apply N.mod_lt. lia.
    + intros x y (-> & H1 & H3). split; [exact H1|]. replace (x + d - (start + d))%Z with (x - start)%Z by lia. exact H3.
    + intros i b1 b2 Hi E1 E2. change (variablenoflow_bin (mkVariableNoFlow (mkVariable edges)) i = Val (Some b1)) in E1.
      change (variablenoflow_bin (mkVariableNoFlow (mkVariable edges')) (move i) = Val (Some b2)) in E2.
      destruct (nth_error_some edges (N.to_nat i) ltac:(unfold n in *; lia)) as [s Hs]. destruct (nth_error_some edges (S (N.to_nat i)) ltac:(unfold n in *; lia)) as [e He].
      rewrite (var_bins Z edges i s e ltac:(lia) Hu Hs He) in E1. injection E1 as <-.
      rewrite (Hmove i Hi) in E2. destruct (i <? N.of_nat k) eqn:E.
      * rewrite (var_bins Z edges' _ (s + (hi - lo) + d)%Z (e + (hi - lo) + d)%Z ltac:(lia) ltac:(rewrite Hlen'; exact Hu)) in E2.
        -- injection E2 as <-. split; [exists 1%Z; unfold shifted; cbn [interval_rel]; lia|]. intros x y (-> & _). cbn [in_interval_mod].
           replace (x + d - (s + (hi - lo) + d))%Z with (x - s + (-1) * (hi - lo))%Z by lia. rewrite Z.mod_add by lia. f_equal. lia.
        -- unfold edges'. apply turned_high; try assumption; [unfold n in *; lia | unfold n in *; lia|]. rewrite <- Hs. f_equal. unfold n in *. lia.
        -- unfold edges'. apply turned_high; try assumption; [unfold n in *; lia | unfold n in *; lia|]. rewrite <- He. f_equal. unfold n in *. lia.
      * rewrite (var_bins Z edges' _ (s + d)%Z (e + d)%Z ltac:(lia) ltac:(rewrite Hlen'; exact Hu)) in E2.
        -- injection E2 as <-. split; [exists 0%Z; unfold shifted; cbn [interval_rel]; lia|]. intros x y (-> & _). cbn [in_interval_mod].
           replace (x + d - (s + d))%Z with (x - s)%Z by lia. f_equal. lia.
        -- unfold edges'. apply turned_low; try assumption. rewrite <- Hs. f_equal. lia.
        -- unfold edges'. apply turned_low; try assumption. rewrite <- He. f_equal. lia.
  - intros j Hj. exists ((j + N.of_nat k) mod n). split; [apply N.mod_lt; lia|]. unfold move. rewrite N.add_mod_idemp_l by lia.
    replace (j + N.of_nat k + (n - N.of_nat k)) with (j + 1 * n) by (unfold n in *; lia). rewrite N.mod_add by lia. apply N.mod_small. exact Hj.
Qed.
Print Assumptions C89_rotate_variable_cyclic.

(** Cases, over [i32]: 3 bins of width 10 from 0 and from 100; mirrored at 50, the range becomes [20, 50);
    the cyclic axes from 0 and from -10 (rotated by one bin); the second and third of 3 bins;
    cyclic edges 0, 1, 3, 10 starting at 3 instead, moved by 100. *)
Example C89_nonvacuous : forall B : Build,
  let t := signed 32 in let ops := int_ops t in
  let AX : Axis (Uniform Z) := uniform_axis ops in
  let filled (a : Uniform Z) (l : list Z) := (let! g := @vec_new _ Z AX (int_default t) a in
      @vec_calls _ Z Z Empty_set AX (int_fill t) (int_fill_with t) no_weighted g (map (fun x => CallFill x) l)) in
  let AXC : Axis (UniformCyclic Z) := uniformcyclic_axis ops in
  let filled_cyclic (a : UniformCyclic Z) (l : list Z) := (let! g := @vec_new _ Z AXC (int_default t) a in
      @vec_calls _ Z Z Empty_set AXC (int_fill t) (int_fill_with t) no_weighted g (map (fun x => CallFill x) l)) in
  let a := mkUniform 3 0%Z 30%Z 10%Z in
  (valid_int_params t 3 0 10 /\ valid_int_params t 3 (0 + 100) 10 /\ valid_int_params t 3 (50 - (0 + 3 * 10)) 10 /\ valid_int_params t 3 (-10) 10
   /\ fits t (3 * (3 * 10)))
  /\ filled a [-5; 9; 10; 25; 29; 30]%Z = Val (mkVecHist a [1; 1; 1; 2; 1]%Z)
  /\ (let b := mkUniform 3 100%Z 130%Z 10%Z in filled b [95; 109; 110; 125; 129; 130]%Z = Val (mkVecHist b [1; 1; 1; 2; 1]%Z))
  /\ (let b := mkUniform 3 20%Z 50%Z 10%Z in filled b [54; 40; 39; 24; 20; 19]%Z = Val (mkVecHist b [1; 2; 1; 1; 1]%Z))
  /\ (let b := mkUniform 2 10%Z 30%Z 10%Z in filled b [-5; 9; 10; 25; 29; 30]%Z = Val (mkVecHist b [2; 1; 2; 1]%Z) /\ map (cut_to 1 2) (range 5) = [0; 0; 1; 2; 3])
  /\ (let c := mkUniformCyclic (mkUniformNoFlow a) in let c' := mkUniformCyclic (mkUniformNoFlow (mkUniform 3 (-10)%Z 20%Z 10%Z)) in
      filled_cyclic c [-5; 9; 10; 25; 29; 30]%Z = Val (mkVecHist c [2; 1; 3]%Z)
      /\ filled_cyclic c' [-5; 9; 10; 25; 29; 30]%Z = Val (mkVecHist c' [3; 2; 1]%Z)
      /\ (0 + 0 = -10 + 1 * 10)%Z /\ map (fun i => Z.to_N ((Z.of_N i + 1) mod 3)) (range 3) = [1; 2; 0])
  /\ (turned 2 (10 - 0) 100 [0; 1; 3; 10] = [103; 110; 111; 113])%Z
  /\ StronglySorted Z.lt [0; 1; 3; 10]%Z /\ Forall (fits t) [0; 1; 3; 10]%Z /\ Forall (fits t) [103; 110; 111; 113]%Z
  /\ map (fun i => (i + (3 - 2)) mod 3) (range 3) = [1; 2; 0].
Proof.
  intros B t ops AX filled AXC filled_cyclic a. split; [|split; [|split; [|split; [|split; [|split; [|split; [|split; [|split; [|split]]]]]]]]].
  - assert (HV : forall low, (-1000 < low < 1000)%Z -> valid_int_params t 3 low 10).
    { intros low Hl. constructor; unfold t, fits, signed; cbn [int_min int_max].
      - exists 32%Z. split; [lia | tauto].
      - lia.
      - destruct B as [? []]; reflexivity.
      - lia.
      - lia.
      - lia.
      - lia.
      - lia. }
    split; [apply HV; lia|]. split; [apply HV; lia|]. split; [apply HV; lia|]. split; [apply HV; lia|]. unfold t, fits, signed. cbn [int_min int_max]. lia.
  - destruct B as [[] []]; vm_compute; reflexivity.
  - destruct B as [[] []]; vm_compute; reflexivity.
  - destruct B as [[] []]; vm_compute; reflexivity.
  - split; [destruct B as [[] []]; vm_compute; reflexivity | reflexivity].
  - split; [destruct B as [[] []]; vm_compute; reflexivity|]. split; [destruct B as [[] []]; vm_compute; reflexivity|]. split; reflexivity.
  - reflexivity.
  - repeat constructor; lia.
  - repeat constructor; unfold t, fits, signed; cbn [int_min int_max]; lia.
  - repeat constructor; unfold t, fits, signed; cbn [int_min int_max]; lia.
  - reflexivity.
Qed.
