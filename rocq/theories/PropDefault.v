(** * Property theorems: default-constructed axes and histograms (C48). *)
From stdpp Require Import gmap.
From Coq Require Import ZArith NArith.
From Flocq Require Import Core.FLX IEEE754.BinarySingleNaN.
From Verif Require Import Base BaseFacts Num Axis Spec Uniform StdAlgo StdContract VarAxis Category PropCategory Axes AxesSpec AxesFacts PropAxes
  Value VecHist HistFacts HashHist HistSpec Float FloatSpec FloatUniform Defaults.
Open Scope N_scope.

(** ** Defaults that are usable *)

(** Category axes: the default is the axis without categories. *)
Theorem C48_category : forall (B : Build) T (eqd : EqDecision T),
  category_default = category_new ([] : list T) /\ categorynoflow_default = categorynoflow_new ([] : list T)
  /\ has_bins category_axis (category_default : Category T) 1
  /\ (forall x : T, category_index category_default x = Val (Some 0))
  /\ has_bins categorynoflow_axis (categorynoflow_default : CategoryNoFlow T) 0
  /\ (forall x : T, categorynoflow_index categorynoflow_default x = Val None).
Proof.
  intros B T eqd. split; [reflexivity|]. split; [reflexivity|]. split; [|split; [|split]].
  - split; [destruct B as [[] []]; reflexivity|]. intros i Hi. assert (i = 0) as -> by lia. eexists. reflexivity.
  - reflexivity.
  - split; [destruct B as [[] []]; reflexivity|]. intros i Hi. lia.
  - intros x. destruct B as [[] []]; reflexivity.
Qed.
Print Assumptions C48_category.

(** Uniform axes over an integer type: no in-range bins, underflow below 0 and
    overflow from 0 up; without flow bins the axis covers nothing. *)
Theorem C48_uniform_int : forall (B : Build) (t : int_type),
  let ops := int_ops t in
  has_bins (uniform_axis ops) (uniform_default ops) 2
  /\ uniform_bin ops (uniform_default ops) 0 = Val (Some (Underflow 0%Z))
  /\ uniform_bin ops (uniform_default ops) 1 = Val (Some (Overflow 0%Z))
  /\ (forall x : Z, uniform_index ops (uniform_default ops) x = Val (Some (if (x <? 0)%Z then 0 else 1)))
  /\ has_bins (uniformnoflow_axis ops) (uniformnoflow_default ops) 0
  /\ (forall x : Z, uniformnoflow_index ops (uniformnoflow_default ops) x = Val None).
Proof.
  intros B t ops.
  assert (Hix : forall x : Z, uniform_index ops (uniform_default ops) x = Val (Some (if (x <? 0)%Z then 0 else 1))).
  { intros x. unfold uniform_index, lt_, ge_. cbn.
    destruct (Z.compare_spec x 0) as [E|E|E]; destruct (Z.ltb_spec x 0); try lia; destruct B as [[] []]; reflexivity. }
  split; [|split; [|split; [|split; [exact Hix|split]]]].
  - split; [destruct B as [[] []]; reflexivity|]. intros i Hi. assert (H01 : i = 0 \/ i = 1) by lia.
    destruct H01 as [-> | ->]; eexists; destruct B as [[] []]; reflexivity.
  - destruct B as [[] []]; reflexivity.
  - destruct B as [[] []]; reflexivity.
  - split; [destruct B as [[] []]; reflexivity|]. intros i Hi. lia.
  - intros x. unfold uniformnoflow_index. cbn [unf_axis uniformnoflow_default]. rewrite Hix. cbn [obind].
    destruct (x <? 0)%Z; destruct B as [[] []]; reflexivity.
Qed.
Print Assumptions C48_uniform_int.

(** All numbers in a default axis are zero: reading it with [num] and the three numbers
    all zero from serialised data gives an equal axis. *)
Theorem C48_default_is_zero : forall (B : Build) (t : int_type), let zero := mkUniform 0 0%Z 0%Z 0%Z in
  uniform_eqb (int_ops t) (uniform_default (int_ops t)) zero = true
  /\ uniformnoflow_eqb (int_ops t) (uniformnoflow_default (int_ops t)) (mkUniformNoFlow zero) = true
  /\ uniformcyclic_eqb (int_ops t) (uniformcyclic_default (int_ops t)) (mkUniformCyclic (mkUniformNoFlow zero)) = true.
Proof. intros B t zero. split; [reflexivity|]. split; reflexivity. Qed.
Print Assumptions C48_default_is_zero.

(** The same over floats; NaN goes to the overflow bin. *)
Theorem C48_uniform_float : forall (B : Build) prec emax (P : Prec_gt_0 prec) (E : Prec_lt_emax prec emax),
  covered_format prec emax ->
  let ops := float_ops prec emax P E in
  let zero : binary_float prec emax := B754_zero false in
  has_bins (uniform_axis ops) (uniform_default ops) 2
  /\ uniform_bin ops (uniform_default ops) 0 = Val (Some (Underflow zero))
  /\ uniform_bin ops (uniform_default ops) 1 = Val (Some (Overflow zero))
  /\ (forall x, uniform_index ops (uniform_default ops) x =
        Val (Some (match Bcompare x zero with Some Lt => 0 | _ => 1 end)))
  /\ has_bins (uniformnoflow_axis ops) (uniformnoflow_default ops) 0
  /\ (forall x, uniformnoflow_index ops (uniformnoflow_default ops) x = Val None)
  /\ (forall x, uniformcyclic_index ops (uniformcyclic_default ops) x = Val None).
Proof.
  intros B prec emax P E [Hcp Hce] ops zero.
  assert (Hix : forall x, uniform_index ops (uniform_default ops) x =
        Val (Some (match Bcompare x zero with Some Lt => 0 | _ => 1 end))).
  { intros x. destruct x as [[]|[]| |[] m e Hb]; try (destruct B as [[] []]; reflexivity).
    exact (index_nan prec emax P E ltac:(lia) Hce (uniform_default ops) ltac:(destruct B as [? []]; reflexivity)). }
  assert (Hnf : forall x, uniformnoflow_index ops (uniformnoflow_default ops) x = Val None).
  { intros x. unfold uniformnoflow_index. cbn [unf_axis uniformnoflow_default]. rewrite Hix. cbn [obind].
    destruct (Bcompare x zero) as [[]|]; destruct B as [[] []]; reflexivity. }
  split; [|split; [|split; [|split; [exact Hix|split; [|split; [exact Hnf|]]]]]].
  - split; [destruct B as [[] []]; reflexivity|]. intros i Hi. assert (H01 : i = 0 \/ i = 1) by lia.
    destruct H01 as [-> | ->]; eexists; destruct B as [[] []]; reflexivity.
  - destruct B as [[] []]; reflexivity.
  - destruct B as [[] []]; reflexivity.
  - split; [destruct B as [[] []]; reflexivity|]. intros i Hi. lia.
  - intros x. unfold uniformcyclic_index.
    assert (Hw : exists y, wrap_coordinate ops (u_low (unf_axis (uc_axis (uniformcyclic_default ops))))
                   (u_high (unf_axis (uc_axis (uniformcyclic_default ops)))) x = Val y).
    { unfold wrap_coordinate. cbn [n_sub ops float_ops obind n_rem]. destruct (lt_ _ _); cbn [obind n_add]; eauto. }
    destruct Hw as [y ->]. cbn [obind uc_axis uniformcyclic_default]. apply Hnf.
Qed.
Print Assumptions C48_uniform_float.

(** A default sparse histogram is the empty histogram over its default axes. *)
Theorem C48_hash : forall A V (a : A), (hash_default a : HashHistogram A V) = hash_new a.
Proof. reflexivity. Qed.
Print Assumptions C48_hash.

(** A default one-dimensional axes object behaves as the one built from the same
    axis. *)
Theorem C48_axes_one_dim : forall (B : Build) X (AX : Axis X) (x : X) a,
  axes1_from x = Val a ->
  (forall c, @index _ axes1_axis (axes1_default x) c = @index _ axes1_axis a c)
  /\ @num_bins _ axes1_axis (axes1_default x) = @num_bins _ axes1_axis a
  /\ (forall i, @bin _ axes1_axis (axes1_default x) i = @bin _ axes1_axis a i).
Proof.
  intros B X AX x a Ha. unfold axes1_from in Ha. apply obind_val in Ha as [n [_ Ha]]. injection Ha as <-.
  split; [|split]; reflexivity.
Qed.
Print Assumptions C48_axes_one_dim.

(** ** Defaults that are not *)

(** Cyclic integer axes: every [index] panics (remainder by zero). *)
Theorem C48_uniform_cyclic_int : forall (B : Build) (t : int_type) (x : Z),
  primitive_int t -> fits t x ->
  uniformcyclic_index (int_ops t) (uniformcyclic_default (int_ops t)) x = Panic.
Proof.
  intros B t x Ht Hx. unfold uniformcyclic_index, wrap_coordinate.
  cbn [uc_axis unf_axis uniformcyclic_default uniformnoflow_default uniform_default u_low u_high n_zero int_ops n_sub n_rem].
  unfold int_result. rewrite Z.sub_diag, Z.sub_0_r.
  assert (E0 : in_range t 0 = true).
  { destruct Ht as [w [Hw [-> | ->]]]; unfold in_range, signed, unsigned; cbn [int_min int_max].
    - pose proof (Z.pow_pos_nonneg 2 (w - 1) ltac:(lia) ltac:(lia)). apply andb_true_intro. split; apply Z.leb_le; lia.
    - pose proof (Z.pow_pos_nonneg 2 w ltac:(lia) ltac:(lia)). apply andb_true_intro. split; apply Z.leb_le; lia. }
  rewrite E0. cbn [obind]. unfold fits in Hx.
  assert (Ex : in_range t x = true) by (unfold in_range; apply andb_true_intro; split; apply Z.leb_le; lia).
  rewrite Ex. reflexivity.
Qed.
Print Assumptions C48_uniform_cyclic_int.

(** Variable axes: a default axis reports one bin, which [index] returns for
    every coordinate but [bin] and iteration panic on; the number of bins of the
    no-flow axis underflows; [index] of the cyclic axis panics. *)
Theorem C48_variable : forall (B : Build) (search : searcher) T (ops : NumOps T),
  search_contract search ->
  (variable_num_bins (variable_default : Variable_ T) = Val 1)
  /\ (forall x : T, variable_index search variable_default x = Val (Some 0))
  /\ variable_bin (variable_default : Variable_ T) 0 = Panic
  /\ @axis_iter _ (variable_axis search) (variable_default : Variable_ T) = Panic
  /\ (forall x : T, variablenoflow_index search variablenoflow_default x = Val None)
  /\ variablenoflow_num_bins (variablenoflow_default : VariableNoFlow T)
     = (if overflow_checks then Panic else Val (usize_mod - 1))
  /\ (forall x : T, variablecyclic_index search ops variablecyclic_default x = Panic).
Proof.
  intros B search T ops Hs.
  assert (Hix : forall x : T, variable_index search variable_default x = Val (Some 0)).
  { intros x. unfold variable_index. cbn [v_edges variable_default].
    assert (Hp : probe_sorted (probe_cmp x) []) by (intros i j u v Hij Hu; destruct i; discriminate).
    specialize (Hs T [] (probe_cmp x) Hp). destruct (search T [] (probe_cmp x)) as [i|i].
    - destruct Hs as [v [Hv _]]. destruct i; discriminate.
    - destruct Hs as [Hle _]. simpl in Hle. assert (i = 0%nat) as -> by lia. reflexivity. }
  split; [destruct B as [[] []]; reflexivity|]. split; [exact Hix|]. split; [reflexivity|].
  split; [destruct B as [[] []]; reflexivity|]. split; [|split].
  - intros x. unfold variablenoflow_index. cbn [vnf_axis variablenoflow_default]. rewrite Hix. reflexivity.
  - destruct B as [[] []]; reflexivity.
  - reflexivity.
Qed.
Print Assumptions C48_variable.

(** A default multi-dimensional axes object has no shape: [index] looks at the
    first coordinate only (after checking that all are covered), while [num_bins]
    and [bin] see all dimensions. *)
Theorem C48_axes_tuple : forall (B : Build) ts (a : axes_tuple ts) (c : coords ts) i is,
  component_indices ts a c (i :: is) ->
  axes_index (axes_default a) c = Val (Some i).
Proof.
  intros B ts a c i is Hc. unfold axes_index. cbn [axes_default ax_axes ax_shape].
  assert (Hall : forall ts (a : axes_tuple ts) (c : coords ts) is, component_indices ts a c is ->
     all_indices ts a c = Val (Some is)).
  { clear. induction ts as [|t ts IH]; intros a c is Hc; cbn in *.
    - subst is. reflexivity.
    - destruct is as [|i is]; [contradiction|]. destruct Hc as [H1 H2]. rewrite H1. cbn [obind].
      rewrite (IH _ _ _ H2). reflexivity. }
  rewrite (Hall _ _ _ _ Hc). reflexivity.
Qed.
Print Assumptions C48_axes_tuple.

(** Two default f64 axes: four bins, but (1.0, 1.0), which belongs to the last
    bin, is counted in bin 1. *)
Definition def_axis (B : Build) : axis_type :=
  {| at_type := Uniform f64; at_axis := uniform_axis f64_ops; at_eq := {| axis_eqb := uniform_eqb f64_ops |} |}.
Definition def_pair (B : Build) : axes_tuple [def_axis B; def_axis B] :=
  (uniform_default f64_ops, (uniform_default f64_ops, tt)).
Example C48_axes_tuple_example : forall B : Build,
  axes_num_bins (axes_default (def_pair B)) = Val 4
  /\ axes_index (axes_default (def_pair B)) (f64_lit 1 0, (f64_lit 1 0, tt)) = Val (Some 1)
  /\ axes_bin (axes_default (def_pair B)) 3 = Val (Some (Overflow (B754_zero false : f64), (Overflow (B754_zero false : f64), tt)))
  /\ (let! a := axes_from (def_pair B) in axes_index a (f64_lit 1 0, (f64_lit 1 0, tt))) = Val (Some 3).
Proof.
  intros B. split; [destruct B as [[] []]; vm_compute; reflexivity|].
  split; [destruct B as [[] []]; vm_compute; reflexivity|].
  split; [destruct B as [[] []]; reflexivity|]. destruct B as [[] []]; vm_compute; reflexivity.
Qed.

(** A default dense histogram has no storage: nothing is readable, fills are
    silently dropped, and iterating panics as soon as the axes have a bin. *)
Theorem C48_vec :
  forall A V D W (AX : Axis A) (FV : Fill V) (FD : FillWith V D) (FW : FillWithWeighted V D W) (a : A) n,
  has_bins AX a n ->
  let h : VecHistogram A V := vec_default a in
  (forall i, vec_value_at_index h i = None)
  /\ (forall (o : fill_op D W) r, index a (op_coordinate o) = Val r -> vec_call h o = Val h)
  /\ (0 < n -> vec_iter h = Panic).
Proof.
  intros A V D W AX FV FD FW a n [Hn Hb] h. split; [|split].
  - intros i. unfold vec_value_at_index, h. cbn. destruct (N.to_nat i); reflexivity.
  - intros o r Hr. destruct o as [c|c d|c d w]; cbn [vec_call op_coordinate] in *;
      unfold vec_fill, vec_fill_with, vec_fill_with_weighted, vec_value_mut; cbn [vh_axes h vec_default] in *;
      rewrite Hr; cbn [obind]; destruct r as [i|]; cbn [obind update_through]; try reflexivity;
      unfold vec_value_at_index_mut; cbn [vh_values vec_default h]; destruct (N.to_nat i); reflexivity.
  - intros Hpos. unfold vec_iter, axis_iter, indices. cbn [vh_axes h vec_default]. rewrite Hn. cbn [obind].
    assert (Hr : exists l, range n = 0 :: l).
    { unfold range. destruct (N.to_nat n) as [|m] eqn:E; [lia|]. cbn. eauto. }
    destruct Hr as [l Hr].
    assert (Hm : exists bs, mapo (fun it => let! b := bin a it in let! b' := expect b in Val (it, b')) (range n) = Val bs).
    { assert (Hin : forall i, In i (range n) -> exists b, bin a i = Val (Some b)) by (intros i Hi; apply Hb, in_range_iff, Hi).
      clear - Hin. induction (range n) as [|i l IH]; cbn [mapo]; [eauto|].
      destruct (Hin i (or_introl eq_refl)) as [b ->]. cbn [obind expect].
      destruct IH as [bs ->]; [intros j Hj; apply Hin; right; exact Hj|]. cbn [obind]. eauto. }
    destruct Hm as [bs Hm]. rewrite Hm. cbn [obind]. rewrite Hr in Hm. cbn [mapo] in Hm.
    apply obind_val in Hm as [p [Hp Hm]]. apply obind_val in Hm as [ps [_ Hm]]. injection Hm as <-.
    apply obind_val in Hp as [ob [_ Hp]]. apply obind_val in Hp as [b [_ Hp]]. injection Hp as <-.
    reflexivity.
Qed.
Print Assumptions C48_vec.

Example C48_vec_example : forall B : Build, has_bins (uniform_axis (int_ops (signed 32))) (uniform_default (int_ops (signed 32))) 2.
Proof. intros B. apply (C48_uniform_int B (signed 32)). Qed.

(** A default axes object is never equal to one made from axes, not even from the same ones: so
    the operators refuse to combine histograms over the two. *)
Theorem C48_default_never_equal :
  (forall (B : Build) X (AX : Axis X) (AE : AxisEq X) (x y : X) a, axes1_from y = Val a ->
     axes1_eqb (axes1_default x) a = false /\ axes1_eqb a (axes1_default x) = false)
  /\ (forall (B : Build) ts (x y : axes_tuple ts) a, ts <> [] -> axes_from y = Val a ->
     axes_eqb (axes_default x) a = false /\ axes_eqb a (axes_default x) = false).
Proof.
  split.
  - intros B X AX AE x y a Ha. unfold axes1_from in Ha. apply obind_val in Ha as [n [_ Ha]]. injection Ha as <-.
    unfold axes1_eqb. cbn [ax1_shape axes1_default shape_eqb]. rewrite !andb_false_r. split; reflexivity.
  - intros B ts x y a Hts Ha. unfold axes_from in Ha. apply obind_val in Ha as [ns [Hns Ha]]. apply obind_val in Ha as [sh [Hsh Ha]]. injection Ha as <-.
    assert (Hne : sh <> []).
    { destruct ts as [|t ts]; [congruence|]. cbn [all_num_bins] in Hns. apply obind_val in Hns as [n [_ Hns]]. apply obind_val in Hns as [ns' [_ Hns]]. injection Hns as <-.
      cbn [scan_products] in Hsh. apply obind_val in Hsh as [p [_ Hsh]]. apply obind_val in Hsh as [q [_ Hsh]]. injection Hsh as <-. discriminate. }
    unfold axes_eqb. cbn [ax_shape axes_default]. destruct sh as [|s sh]; [congruence|]. cbn [shape_eqb]. rewrite !andb_false_r. split; reflexivity.
Qed.
Print Assumptions C48_default_never_equal.

Example C48_default_never_equal_example : forall B : Build,
  exists a, axes_from (def_pair B) = Val a /\ ax_shape a = [2; 4].
Proof. intros B. eexists. split; destruct B as [[] []]; reflexivity. Qed.
