(** * PropAsVariable: an axis is determined by its bins; Uniform axes as Variable axes (C84). *)
From Coq Require Import List ZArith NArith Bool Lia Sorted Permutation ZifyN ZifyNat ZifyBool.
From Verif Require Import Base BaseFacts Num IntFacts Axis StdAlgo StdContract OrdLaws Uniform VarAxis Spec Axes AxesSpec FillSpec Value VecHist HashHist HistSpec
  Program SimSpec SimFacts UniformInt PropUniformIntLemmas PropOrder PropIntExact PropUniformInt PropVariable PropExactAxes PropBuilds PropEmbed.
Import ListNotations.
Open Scope N_scope.

(** C84. Two axes, of whatever types, that have the same number of bins, put every
    coordinate exactly into the bins that contain it, and whose bins contain the same
    coordinates, number every coordinate alike. *)
Theorem C84_determined_by_bins {A1 A2} (AX1 : Axis A1) (AX2 : Axis A2) (a1 : A1) (a2 : A2) n ok1 ok2 mem1 mem2
    (RC : @Coordinate A1 AX1 -> @Coordinate A2 AX2 -> Prop) :
  exact_axis AX1 a1 n ok1 mem1 -> exact_axis AX2 a2 n ok2 mem2 ->
  (forall i b1 b2 x1 x2, i < n -> bin a1 i = Val (Some b1) -> bin a2 i = Val (Some b2) -> RC x1 x2 -> ok1 x1 -> ok2 x2 -> mem1 b1 x1 = mem2 b2 x2) ->
  forall x1 x2, RC x1 x2 -> ok1 x1 -> ok2 x2 -> index a1 x1 = index a2 x2.
Proof.
  intros [[N1 H1] I1 E1] [[N2 H2] I2 E2] HM x1 x2 HR O1 O2.
  destruct (I1 x1 O1) as [r1 [Hr1 B1]]. destruct (I2 x2 O2) as [r2 [Hr2 B2]].
  assert (HS : forall i, i < n -> index a1 x1 = Val (Some i) <-> index a2 x2 = Val (Some i)).
  { intros i Hi. destruct (H1 i Hi) as [b1 Hb1]. destruct (H2 i Hi) as [b2 Hb2].
    rewrite (E1 x1 i b1 O1 Hi Hb1), (E2 x2 i b2 O2 Hi Hb2), (HM i b1 b2 x1 x2 Hi Hb1 Hb2 HR O1 O2). reflexivity. }
  destruct r1 as [i|].
  - rewrite Hr1. symmetry. apply HS; [exact (B1 i eq_refl) | exact Hr1].
  - destruct r2 as [i|]; [|congruence]. exfalso. apply (HS i (B2 i eq_refl)) in Hr2. congruence.
Qed.
Print Assumptions C84_determined_by_bins.

(** A strictly increasing list is the only way to sort its elements. *)
Lemma sorted_unique {T} (ord : PartialOrdOps T) is_num (HL : ord_laws ord is_num) (l l' : list T) :
  StronglySorted (fun x y => lt_ x y = true) l -> Permutation l l' -> StronglySorted (fun x y => le_ x y = true) l' -> l = l'.
Proof.
  intros Hs. revert l'. induction Hs as [|x l Hs IH Hx]; intros l' Hp Hs'.
  - apply Permutation_nil in Hp. symmetry. exact Hp.
  - destruct l' as [|y l']; [apply Permutation_sym, Permutation_nil_cons in Hp; contradiction|].
    apply StronglySorted_inv in Hs' as [Hs' Hy]. rewrite Forall_forall in Hx, Hy.
    assert (Hin : In y (x :: l)) by (apply (Permutation_in y (Permutation_sym Hp)); left; reflexivity).
    assert (Hin' : In x (y :: l')) by (apply (Permutation_in x Hp); left; reflexivity).
    assert (Exy : x = y).
    { destruct Hin as [H|H]; [exact H|]. destruct Hin' as [H'|H']; [symmetry; exact H'|]. exfalso. exact (lt_not_le ord is_num HL x y (Hx _ H) (Hy _ H')). }
    subst y. f_equal. apply IH; [exact (Permutation_cons_inv Hp) | exact Hs'].
Qed.

(** The edges of [num] bins of width [step] from [low] on. *)
Definition uniform_edges (num : N) (low step : Z) : list Z := map (fun i => low + Z.of_nat i * step)%Z (seq 0 (N.to_nat num + 1)).

Lemma edges_length num low step : length (uniform_edges num low step) = (N.to_nat num + 1)%nat.
Proof. unfold uniform_edges. rewrite map_length, seq_length. reflexivity. Qed.
Lemma edges_nth num low step k : (k <= N.to_nat num)%nat -> nth_error (uniform_edges num low step) k = Some (low + Z.of_nat k * step)%Z.
Proof.
  intros Hk. unfold uniform_edges. rewrite nth_error_map. 
  assert (H : nth_error (seq 0 (N.to_nat num + 1)) k = Some k).
  { rewrite (nth_error_nth' _ 0%nat) by (rewrite seq_length; lia). rewrite seq_nth by lia. reflexivity. }
  rewrite H. reflexivity.
Qed.
Lemma edges_sorted num low step : (0 < step)%Z -> StronglySorted Z.lt (uniform_edges num low step).
Proof.
  intros Hs. unfold uniform_edges. enough (H : forall n k, StronglySorted Z.lt (map (fun i => low + Z.of_nat i * step)%Z (seq k n))) by apply H.
  induction n as [|n IH]; intros k; cbn [seq map]; [constructor|]. constructor; [apply IH|].
  apply Forall_forall. intros y Hy. apply in_map_iff in Hy as [j [<- Hj]]. apply in_seq in Hj. nia.
Qed.

Section Integers.
Context {B : Build} (sort : sorter) (search : searcher) (HSort : sort_contract sort) (HSearch : search_contract search).
Context (t : int_type) (num : N) (low step : Z) (HV : valid_int_params t num low step) (HW : fits t (Z.of_N num * (Z.of_N num * step))%Z).
Notation ops := (int_ops t).
Notation ord := (@num_ord Z ops).
Notation edges := (uniform_edges num low step).
Notation u := (mkUniform num low (low + Z.of_N num * step)%Z step).
Notation v := (mkVariable edges).


Lemma edges_params : 2 <= N.of_nat (length edges) /\ N.of_nat (length edges) + 1 < usize_mod /\ N.of_nat (length edges) = num + 1.
Proof using HV. destruct HV as []. rewrite edges_length. lia. Qed.
Lemma edges_lt_sorted : StronglySorted (fun x y => @lt_ _ ord x y = true) edges.
Proof using HV.
  destruct HV as []. pose proof (edges_sorted num low step vp_step) as H. clear - H. induction H as [|x l Hs IH Hx]; [constructor|]. constructor; [exact IH|].
  eapply Forall_impl; [|exact Hx]. intros y Hy. cbv beta in *. rewrite int_lt. lia.
Qed.
Lemma v_exact : exact_axis (variable_axis search (H0 := ord)) v (num + 2) (fun _ => True) (in_interval ord)
  /\ exact_axis (variablenoflow_axis search (H0 := ord)) (mkVariableNoFlow v) num (fun _ => True) (in_interval ord).
Proof using HV HSearch.
  destruct edges_params as [H1 [H2 H3]].
  pose proof (C53_variable_exact B search HSearch Z ord (fun _ => true) (int_ord_laws t) edges (fun _ _ => eq_refl) edges_lt_sorted H1 H2) as H.
  rewrite H3 in H. replace (num + 1 + 1) with (num + 2) in H by lia. replace (num + 1 - 1) with num in H by lia. exact H.
Qed.

(** The constructors of Variable axes return these edges, in whatever order they are given. *)
Lemma v_made input : Permutation input edges -> variable_new sort (H0 := ord) input = Val (Ok v).
Proof using HV HSort.
  intros HP. destruct edges_params as [H1 _].
  destruct (C12_variable_new B sort HSort Z ord (fun _ => true) (int_ord_laws t) input) as [_ [H _]].
  destruct H as [[l] [Ha [Hp Hs]]]; [rewrite (Permutation_length HP); lia | reflexivity |]. cbn [v_edges] in *.
  rewrite Ha. do 3 f_equal. symmetry. apply (sorted_unique ord (fun _ => true) (int_ord_laws t)); [exact edges_lt_sorted | | exact Hs].
  exact (Permutation_trans (Permutation_sym HP) Hp).
Qed.
Lemma same_bin i : uniform_bin ops u i = variable_bin v i.
Proof using HV HW.
  destruct (C02_uniform_int_bins B t num low step HV HW) as [a [Ha [_ [B0 [B1 [B2 B3]]]]]].
  rewrite (with_step_size_ok t num low step HV) in Ha. injection Ha as <-.
  destruct edges_params as [H1 [H2 H3]]. destruct (C13_variable_bins B Z edges H1 H2) as [_ [V0 [V1 [V2 V3]]]]. rewrite H3 in *.
  destruct HV as [].
  destruct (N.eq_dec i 0) as [->|N0].
  { destruct V0 as [e [He V0]]. rewrite B0, V0. rewrite edges_nth in He by lia. injection He as <-. do 3 f_equal. lia. }
  destruct (N.eq_dec i (num + 1)) as [->|N1].
  { destruct V2 as [e [He V2]]. rewrite B2, V2. rewrite edges_length, edges_nth in He by lia. injection He as <-. do 3 f_equal. lia. }
  destruct (N.le_gt_cases (num + 2) i) as [Hi|Hi].
  { rewrite B3, V3 by lia. reflexivity. }
  destruct (V1 i) as [s [e [Hs [He V]]]]; [lia|]. rewrite B1, V by lia. rewrite edges_nth in Hs, He by lia. injection Hs as <-. injection He as <-.
  replace (Z.of_nat (N.to_nat i - 1)) with (Z.of_N i - 1)%Z by lia. replace (Z.of_nat (N.to_nat i)) with (Z.of_N i) by lia. reflexivity.
Qed.
Lemma same_index x : fits t x -> uniform_index ops u x = variable_index search (H0 := ord) v x.
Proof using HV HW HSearch.
  intros Hx. destruct (C53_uniform_int_exact B t num low step HV HW) as [a [Ha [_ [_ [HE _]]]]].
  rewrite (with_step_size_ok t num low step HV) in Ha. injection Ha as <-.
  refine (C84_determined_by_bins (uniform_axis ops) (variable_axis search (H0 := ord)) u v (num + 2) _ _ _ _ eq HE (proj1 v_exact) _ x x eq_refl Hx I).
  intros i b1 b2 x1 x2 Hi E1 E2 Hr _ _. cbn in E1, E2. rewrite same_bin in E1. pose proof (eq_trans (eq_sym E1) E2) as Eb. injection Eb as <-. rewrite Hr. reflexivity.
Qed.
Lemma same_num_bins : uniform_num_bins u = variable_num_bins v.
Proof using HV.
  destruct edges_params as [_ [_ H3]]. unfold uniform_num_bins, variable_num_bins. cbn [u_num v_edges]. rewrite H3. destruct HV as []. rewrite !uadd_ok by lia. f_equal. lia.
Qed.

Lemma same_noflow_index x : fits t x -> uniformnoflow_index ops (mkUniformNoFlow u) x = variablenoflow_index search (H0 := ord) (mkVariableNoFlow v) x.
Proof using HV HW HSearch.
  intros Hx. unfold uniformnoflow_index, variablenoflow_index. cbn [unf_axis vnf_axis]. rewrite (same_index x Hx), same_num_bins. reflexivity.
Qed.
Lemma same_noflow_num_bins : uniformnoflow_num_bins (mkUniformNoFlow u) = variablenoflow_num_bins (mkVariableNoFlow v).
Proof using HV. unfold uniformnoflow_num_bins, variablenoflow_num_bins. cbn [unf_axis vnf_axis]. rewrite same_num_bins. reflexivity. Qed.
Lemma same_noflow_bin i : uniformnoflow_bin ops (mkUniformNoFlow u) i = variablenoflow_bin (mkVariableNoFlow v) i.
Proof using HV HW. unfold uniformnoflow_bin, variablenoflow_bin. cbn [unf_axis vnf_axis]. destruct (uadd i 1) as [j|]; [|reflexivity]. cbn [obind]. rewrite same_bin. reflexivity. Qed.
Lemma v_ends : variable_low v = Val low /\ variable_high v = Val (low + Z.of_N num * step)%Z.
Proof using.
  clear. unfold variable_low, variable_high. cbn [v_edges]. split.
  - rewrite edges_nth by lia. cbn [expect]. f_equal. lia.
  - unfold uniform_edges. rewrite Nat.add_1_r, seq_S, map_app, rev_app_distr. cbn. f_equal. lia.
Qed.
Lemma wrapped_fits lo hi x y : wrap_coordinate ops lo hi x = Val y -> fits t y.
Proof using HV.
  destruct HV as []. pose proof (primitive_bounds t vp_type). unfold wrap_coordinate. intros H1.
  apply obind_val in H1 as [r [_ H1]]. apply obind_val in H1 as [d [_ H1]]. apply obind_val in H1 as [q [_ H1]]. apply obind_val in H1 as [w [_ H1]].
  exact (int_result_fits t _ y ltac:(lia) H1).
Qed.
Lemma same_cyclic_index x : uniformcyclic_index ops (mkUniformCyclic (mkUniformNoFlow u)) x = variablecyclic_index search ops (mkVariableCyclic (mkVariableNoFlow v)) x.
Proof using HV HW HSearch.
  unfold uniformcyclic_index, variablecyclic_index. cbn [uc_axis vc_axis unf_axis vnf_axis u_low u_high]. destruct v_ends as [-> ->]. cbn [obind].
  destruct (wrap_coordinate ops low (low + Z.of_N num * step)%Z x) as [y|] eqn:Hy; [|reflexivity]. cbn [obind]. apply same_noflow_index. exact (wrapped_fits _ _ _ _ Hy).
Qed.
End Integers.

(** C84. Over integer coordinates, a Uniform axis of [num] bins of width [step] from
    [low] on and the Variable axis whose edges are [low], [low + step], ...,
    [low + num * step] (given in any order) have the same bins and number every
    coordinate alike; so do the axes without flow bins and the cyclic ones. *)
Theorem C84_integers (B : Build) (sort : sorter) (search : searcher) (t : int_type) (num : N) (low step : Z) :
  sort_contract sort -> search_contract search ->
  valid_int_params t num low step -> fits t (Z.of_N num * (Z.of_N num * step))%Z ->
  forall input, Permutation input (uniform_edges num low step) ->
  let ops := int_ops t in
  (exists u v, uniform_with_step_size ops num low step = Val (Ok u) /\ variable_new sort (H0 := @num_ord _ ops) input = Val (Ok v)
     /\ uniform_num_bins u = variable_num_bins v
     /\ (forall i, uniform_bin ops u i = variable_bin v i)
     /\ (forall x, fits t x -> uniform_index ops u x = variable_index search (H0 := @num_ord _ ops) v x))
  /\ (exists u v, uniformnoflow_with_step_size ops num low step = Val (Ok u) /\ variablenoflow_new sort (H0 := @num_ord _ ops) input = Val (Ok v)
     /\ uniformnoflow_num_bins u = variablenoflow_num_bins v
     /\ (forall i, uniformnoflow_bin ops u i = variablenoflow_bin v i)
     /\ (forall x, fits t x -> uniformnoflow_index ops u x = variablenoflow_index search (H0 := @num_ord _ ops) v x))
  /\ (exists u v, uniformcyclic_with_step_size ops num low step = Val (Ok u) /\ variablecyclic_new sort ops input = Val (Ok v)
     /\ uniformnoflow_num_bins (uc_axis u) = variablenoflow_num_bins (vc_axis v)
     /\ (forall i, uniformnoflow_bin ops (uc_axis u) i = variablenoflow_bin (vc_axis v) i)
     /\ (forall x, uniformcyclic_index ops u x = variablecyclic_index search ops v x)).
Proof.
  intros HSort HSearch HV HW input HP. cbv zeta. pose proof (v_made sort HSort t num low step HV input HP) as Hv.
  split; [|split]; eexists; eexists.
  - split; [exact (with_step_size_ok t num low step HV)|]. split; [exact Hv|]. split; [exact (same_num_bins t num low step HV)|].
    split; [exact (same_bin t num low step HV HW) | exact (same_index search HSearch t num low step HV HW)].
  - split; [exact (noflow_with_step_size_ok t num low step HV)|]. split; [unfold variablenoflow_new; rewrite Hv; reflexivity|]. split; [exact (same_noflow_num_bins t num low step HV)|].
    split; [exact (same_noflow_bin t num low step HV HW) | exact (same_noflow_index search HSearch t num low step HV HW)].
  - split; [exact (cyclic_with_step_size_ok t num low step HV)|]. split; [unfold variablecyclic_new, variablenoflow_new; rewrite Hv; reflexivity|].
    split; [exact (same_noflow_num_bins t num low step HV)|]. 
    split; [exact (same_noflow_bin t num low step HV HW) | exact (same_cyclic_index search HSearch t num low step HV HW)].
Qed.
Print Assumptions C84_integers.

(** The pairs of axes of that theorem. *)
Inductive same_bins_as (t : int_type) {B : Build} : Uniform Z -> Variable_ Z -> Prop :=
| same_bins num low step u :
    valid_int_params t num low step -> fits t (Z.of_N num * (Z.of_N num * step))%Z ->
    uniform_with_step_size (int_ops t) num low step = Val (Ok u) -> same_bins_as t u (mkVariable (uniform_edges num low step)).

Lemma uniform_eq_edges n1 l1 s1 n2 l2 s2 : 1 <= n1 -> 1 <= n2 ->
  uniform_edges n1 l1 s1 = uniform_edges n2 l2 s2 <-> n1 = n2 /\ l1 = l2 /\ s1 = s2.
Proof.
  intros H1 H2. split; [|intros [-> [-> ->]]; reflexivity]. intros HE.
  pose proof (f_equal (@length Z) HE) as HL. rewrite !edges_length in HL. assert (n1 = n2) by lia. subst n2. split; [reflexivity|].
  pose proof (f_equal (fun l => nth_error l 0%nat) HE) as E0. pose proof (f_equal (fun l => nth_error l 1%nat) HE) as E1. cbv beta in E0, E1.
  rewrite !edges_nth in E0, E1 by lia. injection E0 as E0. injection E1 as E1. lia.
Qed.
Lemma int_list_eqb {B : Build} t (l l' : list Z) : @list_eqb Z (@num_ord _ (int_ops t)) l l' = true <-> l = l'.
Proof.
  revert l'. induction l as [|x l IH]; intros [|y l']; cbn [list_eqb]; try (split; [discriminate | discriminate]); [tauto|].
  rewrite andb_true_iff, IH. rewrite int_eq. rewrite Z.eqb_eq. split; [intros [-> ->]; reflexivity | intros H; injection H; auto].
Qed.

(** The two axes answer alike in every method, [==] included. *)
Theorem C84_integer_axes (B : Build) (search : searcher) (t : int_type) : search_contract search ->
  let ops := int_ops t in let ord := @num_ord _ ops in
  axis_refines (uniform_axis ops) {| axis_eqb := uniform_eqb ops |} (variable_axis search (H0 := ord)) {| axis_eqb := variable_eqb (H0 := ord) |}
    (same_bins_as t) (fun x y => x = y /\ fits t x) eq
  /\ axis_refines (uniformnoflow_axis ops) {| axis_eqb := uniformnoflow_eqb ops |} (variablenoflow_axis search (H0 := ord)) {| axis_eqb := variablenoflow_eqb (H0 := ord) |}
    (fun u v => same_bins_as t (unf_axis u) (vnf_axis v)) (fun x y => x = y /\ fits t x) eq
  /\ axis_refines (uniformcyclic_axis ops) {| axis_eqb := uniformcyclic_eqb ops |} (variablecyclic_axis search ops) {| axis_eqb := variablecyclic_eqb ops |}
    (fun u v => same_bins_as t (unf_axis (uc_axis u)) (vnf_axis (vc_axis v))) eq eq.
Proof.
  intros HS. cbv zeta.
  assert (HQ : forall a1 a2 b1 b2, same_bins_as t a1 a2 -> same_bins_as t b1 b2 -> uniform_eqb (int_ops t) a1 b1 = variable_eqb (H0 := @num_ord _ (int_ops t)) a2 b2).
  { intros a1 a2 b1 b2 [n1 l1 s1 u1 V1 W1 E1] [n2 l2 s2 u2 V2 W2 E2].
    rewrite (with_step_size_ok t n1 l1 s1 V1) in E1. injection E1 as <-. rewrite (with_step_size_ok t n2 l2 s2 V2) in E2. injection E2 as <-.
    apply eq_true_iff_eq. unfold variable_eqb. cbn [v_edges]. rewrite int_list_eqb. destruct V1 as [], V2 as [].
    rewrite uniform_eq_edges by assumption. unfold uniform_eqb. cbn [u_num u_low u_high u_step]. rewrite !int_eq, !andb_true_iff, !Z.eqb_eq, N.eqb_eq.
    split; [intros [[[-> ->] _] ->]; auto | intros [-> [-> ->]]; auto]. }
  assert (HO : forall T (x y : outcome (option T)), x = y -> refines (option_rel eq) x y).
  { intros T x y <-. destruct x as [[z|]|]; try apply refines_panic; apply refines_val; constructor. }
  split; [|split]; constructor.
  - intros a1 a2 c1 c2 [num low step u HV HW HE] [<- Hc]. rewrite (with_step_size_ok t num low step HV) in HE. injection HE as <-.
    cbn [index uniform_axis variable_axis]. rewrite (same_index search HS t num low step HV HW c1 Hc). apply refines_refl.
  - intros a1 a2 [num low step u HV HW HE]. rewrite (with_step_size_ok t num low step HV) in HE. injection HE as <-.
    cbn [num_bins uniform_axis variable_axis]. rewrite (same_num_bins t num low step HV). apply refines_refl.
  - intros a1 a2 i [num low step u HV HW HE]. rewrite (with_step_size_ok t num low step HV) in HE. injection HE as <-.
    apply HO. exact (same_bin t num low step HV HW i).
  - reflexivity.
  - exact HQ.
  - intros [a1] [a2] c1 c2 H [<- Hc]. cbn [unf_axis vnf_axis] in H. destruct H as [num low step u HV HW HE]. rewrite (with_step_size_ok t num low step HV) in HE. injection HE as <-.
    cbn [index uniformnoflow_axis variablenoflow_axis]. rewrite (same_noflow_index search HS t num low step HV HW c1 Hc). apply refines_refl.
  - intros [a1] [a2] H. cbn [unf_axis vnf_axis] in H. destruct H as [num low step u HV HW HE]. rewrite (with_step_size_ok t num low step HV) in HE. injection HE as <-.
    cbn [num_bins uniformnoflow_axis variablenoflow_axis]. rewrite (same_noflow_num_bins t num low step HV). apply refines_refl.
  - intros [a1] [a2] i H. cbn [unf_axis vnf_axis] in H. destruct H as [num low step u HV HW HE]. rewrite (with_step_size_ok t num low step HV) in HE. injection HE as <-.
    apply HO. exact (same_noflow_bin t num low step HV HW i).
  - reflexivity.
  - intros [a1] [a2] [b1] [b2] H1 H2. exact (HQ _ _ _ _ H1 H2).
  - intros [[a1]] [[a2]] c1 c2 H <-. cbn [uc_axis vc_axis unf_axis vnf_axis] in H. destruct H as [num low step u HV HW HE]. rewrite (with_step_size_ok t num low step HV) in HE. injection HE as <-.
    cbn [index uniformcyclic_axis variablecyclic_axis]. rewrite (same_cyclic_index search HS t num low step HV HW c1). apply refines_refl.
  - intros [[a1]] [[a2]] H. cbn [uc_axis vc_axis unf_axis vnf_axis] in H. destruct H as [num low step u HV HW HE]. rewrite (with_step_size_ok t num low step HV) in HE. injection HE as <-.
    cbn [num_bins uniformcyclic_axis variablecyclic_axis uc_axis vc_axis]. rewrite (same_noflow_num_bins t num low step HV). apply refines_refl.
  - intros [[a1]] [[a2]] i H. cbn [uc_axis vc_axis unf_axis vnf_axis] in H. destruct H as [num low step u HV HW HE]. rewrite (with_step_size_ok t num low step HV) in HE. injection HE as <-.
    apply HO. exact (same_noflow_bin t num low step HV HW i).
  - reflexivity.
  - intros [[a1]] [[a2]] [[b1]] [[b2]] H1 H2. exact (HQ _ _ _ _ H1 H2).
Qed.
Print Assumptions C84_integer_axes.

(** Client programs: replacing the Uniform axes of one-dimensional histograms by
    Variable axes over the same edges changes no answer. *)
Theorem C84_programs {B : Build} (search : searcher) (t : int_type) {V D W R : Type} {FV : Fill V} {FD : FillWith V D} {FW : FillWithWeighted V D W} {DV : Default V}
    (p : program (AX := @axes1_axis _ (uniform_axis (int_ops t))) V D W R)
    (p' : program (AX := @axes1_axis _ (variable_axis search (H0 := @num_ord _ (int_ops t)))) V D W R) :
  search_contract search ->
  let ops := int_ops t in let ord := @num_ord _ ops in
  let RA a a' := same_bins_as t (ax1_axis a) (ax1_axis a') /\ ax1_shape a = ax1_shape a' in
  let RC x y := x = y /\ fits t x in
  let AX1 := @axes1_axis _ (uniform_axis ops) in let AE1 := @axes1_eq _ {| axis_eqb := uniform_eqb ops |} in
  let AX2 := @axes1_axis _ (variable_axis search (H0 := ord)) in let AE2 := @axes1_eq _ {| axis_eqb := variable_eqb (H0 := ord) |} in
  same_program AX1 AX2 RA RC eq p p' ->
  (forall r st, dense_run (AX := AX1) (AE := AE1) p (fun _ => None) = Val (r, st) ->
     exists st', dense_run (AX := AX2) (AE := AE2) p' (fun _ => None) = Val (r, st') /\ same_store (same_dense RA) st st')
  /\ (forall r st, sparse_run (AX := AX1) (AE := AE1) p (fun _ => None) (Val (r, st)) ->
     exists st', sparse_run (AX := AX2) (AE := AE2) p' (fun _ => None) (Val (r, st')) /\ same_store (same_sparse RA) st st').
Proof.
  intros HS ops ord RA RC AX1 AE1 AX2 AE2 Hp.
  refine (C73_programs (AX1 := AX1) (AE1 := AE1) (AX2 := AX2) (AE2 := AE2) RA (RC : @Coordinate _ AX1 -> @Coordinate _ AX2 -> Prop)
    (eq : @Interval _ AX1 -> @Interval _ AX2 -> Prop) p p' _ _ Hp).
  - exact (proj1 (C73_one_dim _ _ _ _ _ _ _ (proj1 (C84_integer_axes B search t HS)))).
  - split; intros; apply refines_refl.
Qed.
Print Assumptions C84_programs.

(** Case: five bins of width 25 from -100 on, edges given in decreasing order. *)
Example C84_nonvacuous : forall B : Build,
  valid_int_params (signed 16) 5 (-100) 25 /\ fits (signed 16) (Z.of_N 5 * (Z.of_N 5 * 25))%Z
  /\ uniform_edges 5 (-100) 25 = [-100; -75; -50; -25; 0; 25]%Z
  /\ Permutation [25; 0; -25; -50; -75; -100]%Z (uniform_edges 5 (-100) 25).
Proof.
  intros B. destruct (C02_nonvacuous B) as [HV HW]. split; [exact HV|]. split; [exact HW|]. split; [reflexivity|].
  apply Permutation_sym. apply (Permutation_rev [-100; -75; -50; -25; 0; 25]%Z).
Qed.
