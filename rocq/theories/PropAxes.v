(** * Property theorems: iteration over axes and tuples of axes (C20-C25). *)
From stdpp Require Import base decidable.
From Coq Require Import List NArith ZArith Bool Lia ZifyBool ZifyN ZifyNat Sorted.
From Flocq Require Import IEEE754.BinarySingleNaN.
From Verif Require Import Base BaseFacts Num Float Axis Spec OrdLaws IntFacts StdAlgo StdContract
  Uniform UniformInt UniformMore PropUniformInt VarAxis VariableFacts PropVariable
  Category PropCategory Axes AxesSpec AxesFacts.
Import ListNotations.
Open Scope N_scope.

(** ** C20: iteration *)

(** On an axis with [n] bins the iterators return, [iter] gives exactly the pairs
    [(i, bin(i))] for [i = 0, 1, ..., n-1] in that order, [bins] the second
    components and [indices] the first. *)
Theorem C20_axis_iteration : forall A (AX : Axis A) (a : A) n, has_bins AX a n ->
  exists l, axis_iter a = Val l
    /\ map fst l = map N.of_nat (seq 0 (N.to_nat n))
    /\ (forall i b, In (i, b) l -> bin a i = Val (Some b))
    /\ axis_bins a = Val (map snd l)
    /\ indices a = Val (map fst l).
Proof.
  intros A AX a n Hb. destruct (axis_iter_spec AX a n Hb) as [l [H1 [H2 [H3 H4]]]].
  exists l. split; [exact H1|]. split; [exact H3|]. split; [exact H4|]. split; [exact H2|].
  unfold indices. destruct Hb as [-> _]. cbn [obind]. now rewrite H3.
Qed.
Print Assumptions C20_axis_iteration.

(** Every built-in axis is well behaved in this sense.  Integer uniform axes: *)
Theorem C20_uniform_int_has_bins : forall (B : Build) (t : int_type) num low step,
  valid_int_params t num low step ->
  fits t (Z.of_N num * (Z.of_N num * step))%Z ->
  exists a, uniform_with_step_size (int_ops t) num low step = Val (Ok a)
  /\ has_bins (uniform_axis (int_ops t)) a (num + 2)
  /\ has_bins (uniformnoflow_axis (int_ops t)) (mkUniformNoFlow a) num
  /\ has_bins (uniformcyclic_axis (int_ops t)) (mkUniformCyclic (mkUniformNoFlow a)) num.
Proof.
  intros B t num low step HV Hf.
  destruct (C02_uniform_int_bins B t num low step HV Hf) as [a [Ha [Hn [H0 [Hi [Ho Hx]]]]]].
  exists a. split; [exact Ha|].
  pose proof (with_step_size_ok t num low step HV) as Ha'. rewrite Ha' in Ha. injection Ha as <-.
  pose proof (vp_num_usize _ _ _ _ HV) as Hu.
  assert (Hnf : has_bins (uniformnoflow_axis (int_ops t))
            (mkUniformNoFlow (mkUniform num low (low + Z.of_N num * step)%Z step)) num).
  { split; [apply noflow_num_bins; exact Hu|]. intros i Hlt. cbn [bin uniformnoflow_axis].
    rewrite noflow_bin_in by (cbn; lia). rewrite Hi by lia. eauto. }
  split; [|split; exact Hnf].
  split; [exact Hn|]. intros i Hlt. cbn [bin uniform_axis].
  destruct (N.eq_dec i 0) as [->|]; [rewrite H0; eauto|].
  destruct (N.eq_dec i (num + 1)) as [->|]; [rewrite Ho; eauto|].
  rewrite Hi by lia. eauto.
Qed.
Print Assumptions C20_uniform_int_has_bins.

(** Float uniform axes, whatever the parameters (even non-finite ones): *)
Theorem C20_uniform_float_has_bins : forall (B : Build) prec emax (Hp : FLX.Prec_gt_0 prec)
  (He : Prec_lt_emax prec emax) (a : Uniform (binary_float prec emax)),
  let ops := float_ops prec emax Hp He in
  u_num a + 2 < usize_mod ->
  has_bins (uniform_axis ops) a (u_num a + 2)
  /\ has_bins (uniformnoflow_axis ops) (mkUniformNoFlow a) (u_num a)
  /\ has_bins (uniformcyclic_axis ops) (mkUniformCyclic (mkUniformNoFlow a)) (u_num a).
Proof.
  intros B prec emax Hp He a ops Hu.
  assert (Hbin : forall i, i < u_num a + 2 -> exists b, uniform_bin ops a i = Val (Some b)).
  { intros i Hi. unfold uniform_bin. destruct (N.eqb_spec i 0); [eauto|].
    rewrite uadd_ok by lia. cbn [obind].
    destruct (N.eqb_spec i (u_num a + 1)); [eauto|].
    destruct (N.ltb_spec (u_num a + 1) i); [lia|].
    rewrite usub_ok by lia. cbn [obind]. unfold uniform_edge.
    cbn [n_from_usize n_sub n_mul n_div n_add ops float_ops obind]. eauto. }
  assert (Hnf : has_bins (uniformnoflow_axis ops) (mkUniformNoFlow a) (u_num a)).
  { split; [now apply noflow_num_bins|]. intros i Hlt. cbn [bin uniformnoflow_axis].
    rewrite noflow_bin_in by lia. apply Hbin. lia. }
  split; [|split; exact Hnf].
  split; [now apply uadd_ok | exact Hbin].
Qed.
Print Assumptions C20_uniform_float_has_bins.

(** Variable-width axes over any coordinate type: *)
Theorem C20_variable_has_bins : forall (B : Build) (search : searcher) T (ops : NumOps T) (edges : list T),
  2 <= N.of_nat (length edges) -> N.of_nat (length edges) + 1 < usize_mod ->
  let a := mkVariable edges in
  has_bins (variable_axis (H0 := num_ord) search) a (N.of_nat (length edges) + 1)
  /\ has_bins (variablenoflow_axis (H0 := num_ord) search) (mkVariableNoFlow a) (N.of_nat (length edges) - 1)
  /\ has_bins (variablecyclic_axis search ops) (mkVariableCyclic (mkVariableNoFlow a))
       (N.of_nat (length edges) - 1).
Proof.
  intros B search T ops edges H2 Hu a.
  destruct (C13_variable_bins B T edges H2 Hu) as [Hn [[e0 [_ H0]] [Hm [[en [_ Ho]] Hx]]]].
  assert (Hnf : has_bins (variablenoflow_axis (H0 := num_ord) search) (mkVariableNoFlow a)
                  (N.of_nat (length edges) - 1)).
  { split; [now apply noflow_num_bins_var|]. intros i Hi. cbn [bin variablenoflow_axis].
    unfold variablenoflow_bin. cbn [vnf_axis]. rewrite uadd_ok by lia. cbn [obind].
    destruct (Hm (i + 1) ltac:(lia)) as [s [e [_ [_ Hb]]]]. unfold a. rewrite Hb. cbn [obind]. eauto. }
  split; [|split; exact Hnf].
  split; [exact Hn|]. intros i Hi. cbn [bin variable_axis].
  destruct (N.eq_dec i 0) as [->|]; [unfold a; rewrite H0; eauto|].
  destruct (N.eq_dec i (N.of_nat (length edges))) as [->|]; [unfold a; rewrite Ho; eauto|].
  destruct (Hm i ltac:(lia)) as [s [e [_ [_ Hb]]]]. unfold a. rewrite Hb. eauto.
Qed.
Print Assumptions C20_variable_has_bins.

(** Category axes (any list of categories, also empty or with repetitions): *)
Theorem C20_category_has_bins : forall (B : Build) T (eqd : EqDecision T) (values : list T),
  N.of_nat (length values) + 1 < usize_mod ->
  has_bins category_axis (category_new values) (N.of_nat (length values) + 1)
  /\ has_bins categorynoflow_axis (categorynoflow_new values) (N.of_nat (length values)).
Proof.
  intros B T eqd values Hu.
  destruct (C17_category_bins B T eqd values Hu) as [Hn [Hb [Ho _]]].
  destruct (C18_category_noflow B T eqd values Hu) as [Hn' [_ [_ [Hb' _]]]].
  assert (Hnth : forall i, i < N.of_nat (length values) -> exists v, nth_error values (N.to_nat i) = Some v).
  { intros i Hi. destruct (nth_error values (N.to_nat i)) eqn:E; [eauto|].
    apply nth_error_None in E. lia. }
  split; (split; [assumption|]); intros i Hi; cbn [bin category_axis categorynoflow_axis].
  - destruct (N.eq_dec i (N.of_nat (length values))) as [->|]; [eauto|].
    destruct (Hnth i ltac:(lia)) as [v Hv]. specialize (Hb _ _ Hv). rewrite N2Nat.id in Hb. eauto.
  - destruct (Hnth i ltac:(lia)) as [v Hv]. specialize (Hb' _ _ Hv). rewrite N2Nat.id in Hb'. eauto.
Qed.
Print Assumptions C20_category_has_bins.

(** One-dimensional axes tuples, and tuples of any dimension: *)
Theorem C20_axes1_has_bins : forall A (AX : Axis A) (a : A) n, has_bins AX a n ->
  exists t, axes1_from a = Val t /\ ax1_axis t = a /\ has_bins axes1_axis t n.
Proof.
  intros A AX a n Hb. pose proof Hb as [Hn _]. exists (mkAxes1 a [n]).
  split; [unfold axes1_from; now rewrite Hn|]. split; [reflexivity | exact Hb].
Qed.
Print Assumptions C20_axes1_has_bins.

Theorem C20_axes_tuple_has_bins : forall (B : Build) (ts : list axis_type) (axes : axes_tuple ts) ns,
  ts <> [] -> tuple_has_bins ts axes ns -> products_fit ns ->
  exists a, axes_from axes = Val a /\ has_bins (axes_axis ts) a (product ns).
Proof.
  intros B ts axes ns Hne Hb Hf. pose proof (tuple_length _ _ _ Hb) as Hl.
  exists (mkAxes axes (prefix_products 1 ns)). split; [now apply axes_from_ok|]. split.
  - cbn [num_bins axes_axis]. unfold axes_num_bins. cbn [ax_axes].
    rewrite (all_num_bins_ok _ _ _ Hb). cbn [obind].
    destruct ns as [|n ns]; [destruct ts; [congruence | discriminate]|].
    apply num_bins_ok. exact Hf.
  - intros i Hi. cbn [bin axes_axis].
    destruct (product_zero_or_pos ns) as [Hz|Hp]; [lia|].
    rewrite (axes_bin_digits _ _ _ _ _ Hb Hp Hf).
    destruct (component_bins_exist _ _ _ _ Hb (digits_cell ns i Hp)) as [bs Hbs].
    rewrite (all_bins_ok _ _ _ _ Hbs). eauto.
Qed.
Print Assumptions C20_axes_tuple_has_bins.

(** ** C21 *)

(** [index] of an axes tuple is the mixed radix number of the component bins. *)
Theorem C21_axes_index_value : forall (B : Build) (ts : list axis_type) (axes : axes_tuple ts) ns,
  ts <> [] -> tuple_has_bins ts axes ns -> products_fit ns ->
  exists a, axes_from axes = Val a
  /\ axes_num_bins a = Val (product ns)
  /\ forall c is, component_indices ts axes c is -> cell ns is ->
       axes_index a c = Val (Some (radix ns is)) /\ radix ns is < product ns.
Proof.
  intros B ts axes ns Hne Hb Hf.
  destruct (C20_axes_tuple_has_bins B ts axes ns Hne Hb Hf) as [a [Ha [Hn _]]].
  exists a. split; [exact Ha|]. split; [exact Hn|]. intros c is Hi Hc.
  rewrite (axes_from_ok _ _ _ Hb Hf) in Ha. injection Ha as <-.
  split; [|now apply radix_lt].
  unfold axes_index. cbn [ax_axes ax_shape]. rewrite (all_indices_some _ _ _ _ Hi). cbn [obind].
  rewrite flat_index_ok; [reflexivity | | exact Hc | now apply products_fit_total].
  intros ->. destruct ts; [congruence|]. contradiction.
Qed.
Print Assumptions C21_axes_index_value.

(** Two coordinates share an index iff every axis puts them in the same bin. *)
Theorem C21_axes_index_injective : forall (B : Build) (ts : list axis_type) (axes : axes_tuple ts) ns,
  ts <> [] -> tuple_has_bins ts axes ns -> products_fit ns ->
  exists a, axes_from axes = Val a
  /\ forall c d is js, component_indices ts axes c is -> component_indices ts axes d js ->
       cell ns is -> cell ns js ->
       (axes_index a c = axes_index a d <-> is = js).
Proof.
  intros B ts axes ns Hne Hb Hf.
  destruct (C21_axes_index_value B ts axes ns Hne Hb Hf) as [a [Ha [_ Hi]]].
  exists a. split; [exact Ha|]. intros c d is js Hc Hd Hci Hdj.
  destruct (Hi c is Hc Hci) as [Ec _]. destruct (Hi d js Hd Hdj) as [Ed _].
  rewrite Ec, Ed. split; [|now intros ->].
  intros Heq. injection Heq as Heq. eapply radix_inj; eauto.
Qed.
Print Assumptions C21_axes_index_injective.

(** Every number below the number of bins is the number of exactly one cell. *)
Theorem C21_cells_bijection : forall ns i, i < product ns ->
  exists is, cell ns is /\ radix ns is = i /\ forall js, cell ns js -> radix ns js = i -> js = is.
Proof.
  intros ns i Hi. destruct (product_zero_or_pos ns) as [Hz|Hp]; [lia|].
  exists (digits_of i ns). split; [now apply digits_cell|].
  assert (Hr : radix ns (digits_of i ns) = i) by (rewrite radix_digits by exact Hp; now apply N.mod_small).
  split; [exact Hr|]. intros js Hc Hj. apply (radix_inj ns); [exact Hc | now apply digits_cell |].
  congruence.
Qed.
Print Assumptions C21_cells_bijection.

(** ** C22 *)
Theorem C22_axes_index_none : forall (B : Build) (ts : list axis_type) (axes : axes_tuple ts) ns,
  ts <> [] -> tuple_has_bins ts axes ns -> products_fit ns ->
  exists a, axes_from axes = Val a
  /\ forall c, components_index_within ts axes ns c ->
       (axes_index a c = Val None <-> some_component_uncovered ts axes c)
       /\ (exists r, axes_index a c = Val r /\ forall i, r = Some i -> i < product ns).
Proof.
  intros B ts axes ns Hne Hb Hf.
  destruct (C21_axes_index_value B ts axes ns Hne Hb Hf) as [a [Ha [_ Hi]]].
  exists a. split; [exact Ha|]. intros c Hw.
  destruct (all_indices_cases _ _ _ _ Hw) as [[is [H1 [H2 [H3 H4]]]] | [H1 H2]].
  - destruct (Hi c is H2 H3) as [E Hlt]. rewrite E. split.
    + split; [discriminate | tauto].
    + eexists. split; [reflexivity|]. intros i [= <-]. exact Hlt.
  - rewrite (axes_from_ok _ _ _ Hb Hf) in Ha. injection Ha as <-.
    unfold axes_index. cbn [ax_axes]. rewrite H1. cbn [obind]. split; [tauto|].
    exists None. split; [reflexivity | discriminate].
Qed.
Print Assumptions C22_axes_index_none.

(** ** C23 *)
Theorem C23_axes_bin_of_index : forall (B : Build) (ts : list axis_type) (axes : axes_tuple ts) ns,
  ts <> [] -> tuple_has_bins ts axes ns -> products_fit ns ->
  exists a, axes_from axes = Val a
  /\ forall c is, component_indices ts axes c is -> cell ns is ->
       exists i bs, axes_index a c = Val (Some i) /\ axes_bin a i = Val (Some bs)
                    /\ component_bins ts axes is bs.
Proof.
  intros B ts axes ns Hne Hb Hf.
  destruct (C21_axes_index_value B ts axes ns Hne Hb Hf) as [a [Ha [_ Hi]]].
  exists a. split; [exact Ha|]. intros c is Hc Hcell.
  destruct (Hi c is Hc Hcell) as [E _]. exists (radix ns is).
  rewrite (axes_from_ok _ _ _ Hb Hf) in Ha. injection Ha as <-.
  destruct (component_bins_exist _ _ _ _ Hb Hcell) as [bs Hbs]. exists bs.
  split; [exact E|]. split; [|exact Hbs].
  rewrite (axes_bin_digits _ _ _ _ _ Hb (cell_pos _ _ Hcell) Hf), digits_radix by exact Hcell.
  now apply all_bins_ok.
Qed.
Print Assumptions C23_axes_bin_of_index.

Theorem C23_axes_bin_of_cell : forall (B : Build) (ts : list axis_type) (axes : axes_tuple ts) ns,
  ts <> [] -> tuple_has_bins ts axes ns -> products_fit ns ->
  exists a, axes_from axes = Val a
  /\ forall is, cell ns is -> exists bs, axes_bin a (radix ns is) = Val (Some bs) /\ component_bins ts axes is bs.
Proof.
  intros B ts axes ns Hne Hb Hf. eexists. split; [eapply axes_from_ok; eassumption|]. intros is Hcell.
  destruct (component_bins_exist _ _ _ _ Hb Hcell) as [bs Hbs]. exists bs. split; [|exact Hbs].
  rewrite (axes_bin_digits _ _ _ _ _ Hb (cell_pos _ _ Hcell) Hf), digits_radix by exact Hcell.
  now apply all_bins_ok.
Qed.
Print Assumptions C23_axes_bin_of_cell.

(** ** C24: what really happens above [num_bins] *)

(** In one dimension the axis' own [None] is passed on. *)
Theorem C24_axes1_bin_out_of_range : forall A (AX : Axis A) (a : A) t i,
  axes1_from a = Val t -> bin a i = Val None -> @bin _ axes1_axis t i = Val None.
Proof.
  intros A AX a t i Ht Hb. unfold axes1_from in Ht. apply obind_val in Ht as [n [_ Ht]].
  injection Ht as <-. exact Hb.
Qed.
Print Assumptions C24_axes1_bin_out_of_range.

(** With two or more axes the claim is false for every tuple: [bin] is never
    [None], it repeats with period [num_bins]. *)
Theorem C24_axes_bin_out_of_range_refuted : forall (B : Build) (ts : list axis_type) (axes : axes_tuple ts) ns,
  tuple_has_bins ts axes ns -> products_fit ns -> 0 < product ns ->
  exists a, axes_from axes = Val a
  /\ forall i, axes_bin a i = axes_bin a (i mod product ns)
               /\ exists bs, axes_bin a i = Val (Some bs).
Proof.
  intros B ts axes ns Hb Hf Hpos. eexists. split; [eapply axes_from_ok; eassumption|]. intros i.
  destruct (product_zero_or_pos ns) as [Hz|Hp]; [lia|].
  rewrite !(axes_bin_digits _ _ _ _ _ Hb Hp Hf), digits_periodic by exact Hp. split; [reflexivity|].
  destruct (component_bins_exist _ _ _ _ Hb (digits_cell ns i Hp)) as [bs Hbs].
  rewrite (all_bins_ok _ _ _ _ Hbs). eauto.
Qed.
Print Assumptions C24_axes_bin_out_of_range_refuted.

(** ** Concrete tuples *)

(** Component types used below. *)
Definition uni_i32 (B : Build) : axis_type := {|
  at_type := Uniform Z; at_axis := uniform_axis (int_ops (signed 32));
  at_eq := {| axis_eqb := uniform_eqb (int_ops (signed 32)) |} |}.
Definition cat_Z (B : Build) : axis_type := {|
  at_type := Category Z; at_axis := category_axis; at_eq := {| axis_eqb := category_eqb |} |}.
Definition catnf_Z (B : Build) : axis_type := {|
  at_type := CategoryNoFlow Z; at_axis := categorynoflow_axis; at_eq := {| axis_eqb := categorynoflow_eqb |} |}.
Definition uninf_usize (B : Build) : axis_type := {|
  at_type := UniformNoFlow Z; at_axis := uniformnoflow_axis (int_ops (unsigned 64));
  at_eq := {| axis_eqb := uniformnoflow_eqb (int_ops (unsigned 64)) |} |}.

(** Uniform(3 bins from 0 in steps of 10) x Category(5, 7): 5 * 3 cells. *)
Definition example_axes (B : Build) : axes_tuple [uni_i32 B; cat_Z B] :=
  (mkUniform 3 0 30 10, (category_new [5; 7], tt))%Z.

Example C21_nonvacuous : forall B : Build,
  tuple_has_bins [uni_i32 B; cat_Z B] (example_axes B) [5; 3]
  /\ products_fit [5; 3]
  /\ component_indices [uni_i32 B; cat_Z B] (example_axes B) (25, (7, tt))%Z [3; 1]
  /\ cell [5; 3] [3; 1] /\ radix [5; 3] [3; 1] = 8
  /\ components_index_within [uni_i32 B; cat_Z B] (example_axes B) [5; 3] (25, (7, tt))%Z.
Proof.
  intros B.
  assert (HV : valid_int_params (signed 32) 3 0 10).
  { destruct B as [c []]; (constructor; try (vm_compute; congruence); try (vm_compute; split; congruence);
    exists 32%Z; split; [lia | now left]). }
  split.
  { cbn [tuple_has_bins example_axes fst snd]. split; [|split; [|reflexivity]].
    - destruct (C20_uniform_int_has_bins B (signed 32) 3 0 10 HV) as [a [Ha [Hb _]]].
      + vm_compute; split; congruence.
      + rewrite (with_step_size_ok _ _ _ _ HV) in Ha. injection Ha as <-. exact Hb.
    - apply (C20_category_has_bins B Z _ [5; 7]%Z). destruct B as [? []]; vm_compute; reflexivity. }
  split.
  { intros k. destruct k as [|[|[|k]]]; destruct B as [? []]; vm_compute; reflexivity. }
  split.
  { cbn [component_indices example_axes fst snd]. split; [|split; [|reflexivity]].
    - destruct B as [[] []]; vm_compute; reflexivity.
    - vm_compute; reflexivity. }
  split; [repeat constructor|]. split; [reflexivity|].
  cbn [components_index_within example_axes fst snd]. split; [|split; [|reflexivity]].
  - exists (Some 3). split; [destruct B as [[] []]; vm_compute; reflexivity|]. intros i [= <-]. reflexivity.
  - exists (Some 1). split; [destruct B as [? []]; vm_compute; reflexivity|]. intros i [= <-]. reflexivity.
Qed.

(** A category axis without overflow and with no category makes a tuple [bin]
    divide by zero in every build, although the tuple has zero bins. *)
Theorem C24_empty_axis_bin_panics_refuted : forall B : Build,
  let axes := (mkUniform 3 0 30 10, (categorynoflow_new [], tt))%Z : axes_tuple [uni_i32 B; catnf_Z B] in
  exists a, axes_from axes = Val a /\ axes_num_bins a = Val 0 /\ axes_bin a 0 = Panic.
Proof.
  intros B axes. exists (mkAxes axes [5; 0]).
  split; [destruct B as [[] []]; reflexivity|]. split; destruct B as [[] []]; reflexivity.
Qed.
Print Assumptions C24_empty_axis_bin_panics_refuted.

(** ** C25 *)

(** With overflow checks, a tuple that can be built has a number of cells that
    fits (so C21-C23 apply); if some partial product does not fit, building
    panics. *)
Theorem C25_overflow_detected : forall (B : Build) (ts : list axis_type) (axes : axes_tuple ts) ns,
  overflow_checks = true -> tuple_has_bins ts axes ns ->
  ((exists a, axes_from axes = Val a) <-> products_fit ns)
  /\ (axes_from axes = Panic <-> exists k, usize_mod <= product (firstn k ns)).
Proof.
  intros B ts axes ns Hc Hb.
  assert (Hiff : (exists a, axes_from axes = Val a) <-> products_fit ns).
  { split.
    - intros [a Ha]. unfold axes_from in Ha. rewrite (all_num_bins_ok _ _ _ Hb) in Ha. cbn [obind] in Ha.
      apply obind_val in Ha as [r [Hr _]].
      intros k. pose proof usize_mod_large. pose proof (scan_checked 1 ns r Hc ltac:(lia) Hr k). lia.
    - intros Hf. eexists. eapply axes_from_ok; eassumption. }
  split; [exact Hiff|]. split.
  - intros Hp.
    destruct (List.existsb (fun k => usize_mod <=? product (firstn k ns)) (seq 0 (S (length ns)))) eqn:E.
    + apply existsb_exists in E as [k [_ Hk]]. exists k. lia.
    + exfalso. assert (Hf : products_fit ns).
      { intros k. destruct (N.lt_ge_cases (product (firstn k ns)) usize_mod) as [|Hge]; [assumption|].
        exfalso.
        assert (Hk : existsb (fun k => usize_mod <=? product (firstn k ns)) (seq 0 (S (length ns))) = true).
        { apply existsb_exists. exists (Nat.min k (length ns)). split; [apply in_seq; lia|].
          destruct (Nat.le_ge_cases k (length ns)).
          - rewrite Nat.min_l by lia. lia.
          - rewrite Nat.min_r by lia. rewrite firstn_all2 in Hge by lia. rewrite firstn_all. lia. }
        congruence. }
      apply Hiff in Hf as [a Ha]. congruence.
  - intros [k Hk]. destruct (axes_from axes) as [a|] eqn:E; [|reflexivity]. exfalso.
    assert (Hf : products_fit ns) by (apply Hiff; eauto). specialize (Hf k). lia.
Qed.
Print Assumptions C25_overflow_detected.

(** Without overflow checks (cargo's release profile) different cells can share
    an index: two axes of 2^40 bins, cells (2^24, 0) and (0, ...). *)
Definition big_axes (B : Build) : axes_tuple [uninf_usize B; uninf_usize B] :=
  (mkUniformNoFlow (mkUniform (2 ^ 40) 0 (2 ^ 40) 1),
   (mkUniformNoFlow (mkUniform (2 ^ 40) 0 (2 ^ 40) 1), tt))%Z.

Theorem C25_overflow_release_aliases_refuted :
  let B := {| overflow_checks := false; target_width := P64 |} in
  exists a, @axes_from B _ (big_axes B) = Val a
  /\ @axes_index B _ a (0, (2 ^ 24, tt))%Z = Val (Some 0)
  /\ @axes_index B _ a (0, (0, tt))%Z = Val (Some 0)
  /\ @index _ (at_axis (uninf_usize B)) (fst (snd (big_axes B))) (2 ^ 24)%Z = Val (Some (2 ^ 24))
  /\ @index _ (at_axis (uninf_usize B)) (fst (snd (big_axes B))) 0%Z = Val (Some 0).
Proof.
  intros B. exists (mkAxes (big_axes B) [2 ^ 40; 0]).
  split; [reflexivity|]. repeat split; vm_compute; reflexivity.
Qed.
Print Assumptions C25_overflow_release_aliases_refuted.
