(** * PropExactAxes: the built-in axes that bin exactly (C53). *)
From stdpp Require Import gmap.
From Coq Require Import Sorting.Sorted.
From Verif Require Import Base BaseFacts Num Axis Spec IntFacts UniformInt Uniform PropUniformInt StdAlgo StdContract OrdLaws VarAxis
  VariableFacts PropVariable Category CategoryFacts PropCategory Axes AxesSpec PropAxes FillSpec.
Open Scope N_scope.

Lemma exact_intro {A} (AX : Axis A) (a : A) n (ok : Coordinate -> Prop) (mem : Interval -> Coordinate -> bool) :
  has_bins AX a n ->
  (forall x, ok x ->
     (exists i b, index a x = Val (Some i) /\ i < n /\ bin a i = Val (Some b) /\ mem b x = true
        /\ forall j b', j < n -> bin a j = Val (Some b') -> mem b' x = true -> j = i)
     \/ (index a x = Val None /\ forall j b', j < n -> bin a j = Val (Some b') -> mem b' x = false)) ->
  exact_axis AX a n ok mem.
Proof.
  intros Hb Hx. constructor; [exact Hb| |].
  - intros x Ho. destruct (Hx x Ho) as [[i [b [Hi [Hlt _]]]]|[Hi _]].
    + exists (Some i). split; [exact Hi|]. intros j [= <-]. exact Hlt.
    + exists None. split; [exact Hi|]. discriminate.
  - intros x i b Ho Hlt Hbi. destruct (Hx x Ho) as [[i' [b' [Hi [Hlt' [Hb' [Hm Hu]]]]]]|[Hi Hn]].
    + rewrite Hi. split.
      * intros [= <-]. congruence.
      * intros Hm'. rewrite (Hu i b Hlt Hbi Hm'). reflexivity.
    + rewrite Hi, (Hn i b Hlt Hbi). split; discriminate.
Qed.

Lemma in_interval_int (B : Build) t b x : in_interval (@num_ord _ (int_ops t)) b x = true <-> containsZ b x.
Proof.
  destruct b as [e|s|s e]; cbn [in_interval containsZ].
  - rewrite int_lt. apply Z.ltb_lt.
  - rewrite int_lt. rewrite negb_true_iff. rewrite Z.ltb_ge. reflexivity.
  - rewrite andb_true_iff, int_lt, int_ge, Z.ltb_lt, Z.leb_le. reflexivity.
Qed.

(** Integer uniform axes: [Uniform], [UniformNoFlow] and [UniformCyclic], for
    every coordinate of the type (cyclic: whose distance from [low] fits it). *)
Lemma exact_uniform_int (B : Build) t num low step :
  valid_int_params t num low step -> fits t (Z.of_N num * (Z.of_N num * step))%Z ->
  let a := mkUniform num low (low + Z.of_N num * step)%Z step in
  exact_axis (uniform_axis (int_ops t)) a (num + 2) (fits t) (in_interval (@num_ord _ (int_ops t)))
  /\ exact_axis (uniformnoflow_axis (int_ops t)) (mkUniformNoFlow a) num (fits t) (in_interval (@num_ord _ (int_ops t)))
  /\ exact_axis (uniformcyclic_axis (int_ops t)) (mkUniformCyclic (mkUniformNoFlow a)) num
       (fun x => fits t x /\ fits t (x - low)%Z) (in_interval_mod (Z.of_N num * step)).
Proof.
  intros HV Hf a. pose proof (with_step_size_ok t num low step HV) as Hnew. fold a in Hnew.
  pose proof (vp_num_usize _ _ _ _ HV) as Hu. pose proof (vp_step _ _ _ _ HV) as Hs. pose proof (vp_num _ _ _ _ HV) as Hn1.
  destruct (C20_uniform_int_has_bins B t num low step HV Hf) as [a' [Ha' [HB1 [HB2 HB3]]]].
  rewrite Hnew in Ha'. injection Ha' as <-.
  destruct (C02_uniform_int_bins B t num low step HV Hf) as [a' [Ha' [_ [_ [Hmid [_ Hnone]]]]]].
  rewrite Hnew in Ha'. injection Ha' as <-.
  destruct (C09_noflow_bins B Z (int_ops t) a Hu) as [_ [Hnfb _]].
  assert (Hnfbin : forall j b, j < num -> uniformnoflow_bin (int_ops t) (mkUniformNoFlow a) j = Val (Some b) ->
            b = Bin (low + Z.of_N j * step)%Z (low + (Z.of_N j + 1) * step)%Z).
  { intros j b Hj Hb. rewrite Hnfb in Hb by exact Hj. rewrite Hmid in Hb by lia.
    injection Hb as <-. f_equal; f_equal; f_equal; lia. }
  split; [|split].
  - apply exact_intro; [exact HB1|]. intros x Hx. left.
    destruct (C02_uniform_int_bin_index_agree B t num low step HV Hf) as [a' [Ha' [Hag _]]].
    rewrite Hnew in Ha'. injection Ha' as <-.
    destruct (Hag x Hx) as [i [b [H1 [H2 [H3 H4]]]]]. exists i, b.
    split; [exact H1|]. split.
    { destruct (N.lt_ge_cases i (num + 2)) as [|Hge]; [assumption|]. rewrite Hnone in H2 by exact Hge. discriminate. }
    split; [exact H2|]. split; [now apply in_interval_int|].
    intros j b' Hj Hb' Hm. apply (H4 j b' Hb'). now apply in_interval_int in Hm.
  - apply exact_intro; [exact HB2|]. intros x Hx.
    destruct (C09_noflow_int B t num low step HV) as [a' [Ha' [_ Hag]]].
    assert (Ea : a' = mkUniformNoFlow a).
    { unfold uniformnoflow_with_step_size in Ha'. rewrite Hnew in Ha'. cbn in Ha'. injection Ha' as <-. reflexivity. }
    subst a'. destruct (Hag x Hx) as [[H1 H2]|[j [H1 [H2 H3]]]].
    + right. split; [exact H1|]. intros j b Hj Hb. rewrite (Hnfbin j b Hj Hb). apply not_true_iff_false.
      rewrite in_interval_int. cbn. nia.
    + left. destruct (proj2 HB2 j H2) as [b Hb]. exists j, b. split; [exact H1|]. split; [exact H2|].
      split; [exact Hb|]. cbn [bin uniformnoflow_axis] in Hb. rewrite (Hnfbin j b H2 Hb). split; [apply in_interval_int; exact H3|].
      intros k b' Hk Hb' Hm. rewrite (Hnfbin k b' Hk Hb') in Hm. apply in_interval_int in Hm. cbn in Hm.
      assert (Z.of_N k = Z.of_N j) by nia. lia.
  - apply exact_intro; [exact HB3|]. intros x [Hx Hxl]. left.
    destruct (C10_cyclic_int_total B t num low step HV) as [a' [Ha' Hag]].
    assert (Ea : a' = mkUniformCyclic (mkUniformNoFlow a)).
    { unfold uniformcyclic_with_step_size, uniformnoflow_with_step_size in Ha'. rewrite Hnew in Ha'. cbn in Ha'.
      injection Ha' as <-. reflexivity. }
    subst a'. destruct (Hag x Hx Hxl) as [i [k [H1 [H2 H3]]]].
    set (P := (Z.of_N num * step)%Z) in *. assert (HP : (0 < P)%Z) by nia.
    assert (Hmod : forall j k', (low + Z.of_N j * step <= x + k' * P < low + (Z.of_N j + 1) * step)%Z ->
              j < num -> ((x - (low + Z.of_N j * step)) mod P = x + k' * P - (low + Z.of_N j * step))%Z).
    { intros j k' Hj Hjn. symmetry. apply (Z.mod_unique _ _ (- k')); [left; nia | lia]. }
    destruct (proj2 HB3 i H2) as [b Hb]. exists i, b. split; [exact H1|]. split; [exact H2|]. split; [exact Hb|].
    change (uniformnoflow_bin (int_ops t) (mkUniformNoFlow a) i = Val (Some b)) in Hb.
    rewrite (Hnfbin i b H2 Hb). cbn [in_interval_mod].
    split; [rewrite (Hmod i k H3 H2); apply Z.ltb_lt; lia|].
    intros j b' Hj Hb' Hm. change (uniformnoflow_bin (int_ops t) (mkUniformNoFlow a) j = Val (Some b')) in Hb'.
    rewrite (Hnfbin j b' Hj Hb') in Hm. cbn [in_interval_mod] in Hm. apply Z.ltb_lt in Hm.
    pose proof (Z.mod_pos_bound (x - (low + Z.of_N j * step)) P HP) as Hb0.
    pose proof (Z.div_mod (x - (low + Z.of_N j * step)) P ltac:(lia)) as Hdm.
    set (q := ((x - (low + Z.of_N j * step)) / P)%Z) in *. set (r := ((x - (low + Z.of_N j * step)) mod P)%Z) in *.
    (* x - q P in bin j, x + k P in bin i *)
    assert (Hqk : (q = - k)%Z).
    { assert (Hd : (- P < (q + k) * P < P)%Z) by nia. nia. }
    assert (Z.of_N j = Z.of_N i) by nia. lia.
Qed.

Theorem C53_uniform_int_exact : forall (B : Build) t num low step,
  valid_int_params t num low step -> fits t (Z.of_N num * (Z.of_N num * step))%Z ->
  exists a, uniform_with_step_size (int_ops t) num low step = Val (Ok a)
  /\ uniformnoflow_with_step_size (int_ops t) num low step = Val (Ok (mkUniformNoFlow a))
  /\ uniformcyclic_with_step_size (int_ops t) num low step = Val (Ok (mkUniformCyclic (mkUniformNoFlow a)))
  /\ exact_axis (uniform_axis (int_ops t)) a (num + 2) (fits t) (in_interval (@num_ord _ (int_ops t)))
  /\ exact_axis (uniformnoflow_axis (int_ops t)) (mkUniformNoFlow a) num (fits t) (in_interval (@num_ord _ (int_ops t)))
  /\ exact_axis (uniformcyclic_axis (int_ops t)) (mkUniformCyclic (mkUniformNoFlow a)) num
       (fun x => fits t x /\ fits t (x - low)%Z) (in_interval_mod (Z.of_N num * step)).
Proof.
  intros B t num low step HV Hf. pose proof (with_step_size_ok t num low step HV) as Hnew.
  eexists. split; [exact Hnew|]. split; [unfold uniformnoflow_with_step_size; rewrite Hnew; reflexivity|].
  split; [unfold uniformcyclic_with_step_size, uniformnoflow_with_step_size; rewrite Hnew; reflexivity|].
  exact (exact_uniform_int B t num low step HV Hf).
Qed.
Print Assumptions C53_uniform_int_exact.

(** Variable width axes over any ordered coordinate type (floats included), for
    strictly increasing edges, for every coordinate (NaN counts as overflow). *)
Theorem C53_variable_exact : forall (B : Build) (search : searcher), search_contract search ->
  forall T (ord : PartialOrdOps T) is_num, ord_laws ord is_num ->
  forall edges : list T,
  (forall e, In e edges -> is_num e = true) ->
  StronglySorted (fun x y => lt_ x y = true) edges ->
  2 <= N.of_nat (length edges) -> N.of_nat (length edges) + 1 < usize_mod ->
  exact_axis (variable_axis search) (mkVariable edges) (N.of_nat (length edges) + 1) (fun _ => True) (in_interval ord)
  /\ exact_axis (variablenoflow_axis search) (mkVariableNoFlow (mkVariable edges)) (N.of_nat (length edges) - 1)
       (fun _ => True) (in_interval ord).
Proof.
  intros B search HC T ord is_num L edges Hn Hst H2 Hu.
  assert (Hsl : StronglySorted (fun x y => le_ x y = true) edges).
  { clear -Hst. induction Hst as [|x xs Hs IH Ha]; constructor; [exact IH|].
    eapply List.Forall_impl; [|exact Ha]. intros z. apply lt_le. }
  assert (Hb1 : has_bins (variable_axis search) (mkVariable edges) (N.of_nat (length edges) + 1)).
  { destruct (C13_variable_bins B T edges H2 Hu) as [N1 [N2 [N3 [N4 N5]]]]. split; [exact N1|].
    intros i Hi. destruct (N.eq_dec i 0) as [->|]; [destruct N2 as [e [_ E]]; eauto|].
    destruct (N.eq_dec i (N.of_nat (length edges))) as [->|]; [destruct N4 as [e [_ E]]; eauto|].
    destruct (N3 i ltac:(lia)) as [s [e [_ [_ E]]]]. eauto. }
  assert (Hb2 : has_bins (variablenoflow_axis search) (mkVariableNoFlow (mkVariable edges)) (N.of_nat (length edges) - 1)).
  { destruct (C15_variable_noflow B search HC T ord is_num L edges Hn Hst H2 Hu) as [N1 [N2 _]]. split; [exact N1|].
    intros i Hi. destruct (N2 i Hi) as [s [e [_ [_ E]]]]. eauto. }
  assert (Hnan : forall b x, is_num x = false -> (exists j, variable_bin (mkVariable edges) j = Val (Some b)) ->
           in_interval ord b x = true <-> exists e, b = Overflow e).
  { intros b x Hx _. assert (Hlt : forall y, lt_ x y = false).
    { intros y. unfold lt_. rewrite (law_nan_l _ _ L x y Hx). reflexivity. }
    destruct b as [e|s|s e]; cbn [in_interval]; rewrite Hlt.
    - split; [discriminate | intros [? [=]]].
    - split; [eauto | reflexivity].
    - rewrite andb_false_r. split; [discriminate | intros [? [=]]]. }
  assert (Hnum : forall b x, is_num x = true -> (forall s, b = Overflow s -> is_num s = true) ->
           in_interval ord b x = true <-> contains b x).
  { intros b x Hx Hs. destruct b as [e|s|s e]; cbn [in_interval contains].
    - reflexivity.
    - rewrite (ge_le _ _ L), negb_true_iff. split.
      + intros Hf. destruct (total_cases _ _ L x s Hx (Hs s eq_refl)) as [Ht|Ht]; [congruence | exact Ht].
      + intros Hle. apply not_true_iff_false. intros Hlt. exact (lt_not_le _ _ L _ _ Hlt Hle).
    - apply andb_true_iff. }
  assert (Hov : forall j s, variable_bin (mkVariable edges) j = Val (Some (Overflow s)) ->
            j = N.of_nat (length edges) /\ is_num s = true).
  { intros j s Hj. destruct (C13_variable_bins B T edges H2 Hu) as [N1 [N2 [N3 [N4 N5]]]].
    destruct (N.lt_ge_cases (N.of_nat (length edges)) j) as [Hgt|Hle]; [rewrite N5 in Hj by exact Hgt; discriminate|].
    destruct (N.eq_dec j 0) as [->|]; [destruct N2 as [e [_ E]]; rewrite E in Hj; discriminate|].
    destruct (N.eq_dec j (N.of_nat (length edges))) as [->|].
    - destruct N4 as [e [E0 E]]. rewrite E in Hj. injection Hj as ->. split; [reflexivity|].
      apply Hn. eapply nth_error_In. exact E0.
    - destruct (N3 j ltac:(lia)) as [s' [e [_ [_ E]]]]. rewrite E in Hj. discriminate. }
  destruct (C13_variable_index_partitions B search HC T ord is_num L edges Hn Hst H2 Hu) as [Hpart _].
  split.
  - apply exact_intro; [exact Hb1|]. intros x _. left. cbn [index bin variable_axis].
    destruct (is_num x) eqn:Ex.
    + destruct (Hpart x Ex) as [i [b [I1 [I2 [I3 I4]]]]]. exists i, b. split; [exact I1|]. split.
      { destruct (C13_variable_bins B T edges H2 Hu) as [_ [_ [_ [_ N5]]]].
        destruct (N.lt_ge_cases (N.of_nat (length edges)) i) as [Hgt|]; [|lia].
        rewrite N5 in I2 by exact Hgt. discriminate. }
      split; [exact I2|]. split.
      { apply Hnum; [exact Ex | | exact I3]. intros s ->. exact (proj2 (Hov _ _ I2)). }
      intros j b' Hj Hb' Hm. apply (I4 j b' Hb'). apply Hnum; [exact Ex | | exact Hm].
      intros s ->. exact (proj2 (Hov _ _ Hb')).
    + destruct (C14_variable_index_in_range B search HC T ord is_num L edges Hn Hsl H2 Hu x) as [_ Hx].
      destruct (Hx Ex) as [I1 [[e I2] _]]. exists (N.of_nat (length edges)), (Overflow e).
      split; [exact I1|]. split; [lia|]. split; [exact I2|]. split.
      { apply Hnan; [exact Ex | eauto | eauto]. }
      intros j b' Hj Hb' Hm. apply Hnan in Hm; [|exact Ex | eauto]. destruct Hm as [s ->].
      exact (proj1 (Hov _ _ Hb')).
  - destruct (C15_variable_noflow B search HC T ord is_num L edges Hn Hst H2 Hu) as [_ [Nb [_ Ni]]].
    apply exact_intro; [exact Hb2|]. intros x _. cbn [index bin variablenoflow_axis].
    destruct (Ni x) as [r [Hr Hri]].
    assert (Hiff : forall j s e, nth_error edges (N.to_nat j) = Some s -> nth_error edges (S (N.to_nat j)) = Some e ->
              in_interval ord (Bin s e) x = true -> r = Some j).
    { intros j s e Hs He Hm. apply Hri. exists s, e. cbn [in_interval] in Hm. apply andb_true_iff in Hm. tauto. }
    destruct r as [i|].
    + left. destruct (proj1 (Hri i) eq_refl) as [s [e [Hs [He Hc]]]].
      assert (Hlt : i < N.of_nat (length edges) - 1).
      { assert (S (N.to_nat i) < length edges)%nat by (apply nth_error_Some; rewrite He; discriminate). lia. }
      destruct (Nb i Hlt) as [s' [e' [Hs' [He' Hb]]]]. rewrite Hs in Hs'. rewrite He in He'.
      injection Hs' as <-. injection He' as <-.
      exists i, (Bin s e). split; [exact Hr|]. split; [exact Hlt|]. split; [exact Hb|].
      split; [cbn [in_interval]; apply andb_true_iff; tauto|].
      intros j b' Hj Hb' Hm. destruct (Nb j Hj) as [s2 [e2 [Hs2 [He2 Hb2']]]]. rewrite Hb2' in Hb'. injection Hb' as <-.
      pose proof (Hiff j s2 e2 Hs2 He2 Hm) as Hij. injection Hij as ->. reflexivity.
    + right. split; [exact Hr|]. intros j b' Hj Hb'. destruct (Nb j Hj) as [s2 [e2 [Hs2 [He2 Hb2']]]].
      rewrite Hb2' in Hb'. injection Hb' as <-. apply not_true_iff_false. intros Hm.
      discriminate (Hiff j s2 e2 Hs2 He2 Hm).
Qed.
Print Assumptions C53_variable_exact.

(** Category axes: a category bin holds that category, the overflow bin all else. *)
Definition in_category {T : Type} `{EqDecision T} (values : list T) (b : SingleValueBinInterval T) (x : T) : bool :=
  match b with
  | SVBin v => bool_decide (x = v)
  | SVOverflow => negb (existsb (fun v => bool_decide (x = v)) values)
  end.

Theorem C53_category_exact : forall (B : Build) T (eqd : EqDecision T) (values : list T),
  List.NoDup values -> N.of_nat (length values) + 1 < usize_mod ->
  exact_axis category_axis (category_new values) (N.of_nat (length values) + 1) (fun _ => True) (in_category values)
  /\ exact_axis categorynoflow_axis (categorynoflow_new values) (N.of_nat (length values)) (fun _ => True)
       (in_category values).
Proof.
  intros B T eqd values Hnd Hu.
  destruct (C20_category_has_bins B T eqd values Hu) as [HB1 HB2].
  destruct (C17_category_bins B T eqd values Hu) as [_ [Hb [Hbo _]]].
  destruct (C18_category_noflow B T eqd values Hu) as [_ [Hnf1 [Hnf2 [Hnb _]]]].
  assert (Hex : forall x, existsb (fun v => bool_decide (x = v)) values = true <-> In x values).
  { intros x. rewrite existsb_exists. split.
    - intros [v [Hv Hd]]. apply bool_decide_eq_true in Hd. subst. exact Hv.
    - intros Hin. exists x. split; [exact Hin|]. now apply bool_decide_eq_true. }
  assert (Hsome : forall j, j < N.of_nat (length values) -> exists v, nth_error values (N.to_nat j) = Some v).
  { intros j Hj. destruct (nth_error values (N.to_nat j)) eqn:E; [eauto|]. apply nth_error_None in E. lia. }
  assert (Huniq : forall j k v, nth_error values (N.to_nat j) = Some v -> nth_error values (N.to_nat k) = Some v -> j = k).
  { intros j k v Hj Hk. apply N2Nat.inj. eapply (proj1 (List.NoDup_nth_error values) Hnd).
    - apply nth_error_Some. rewrite Hj. discriminate.
    - congruence. }
  split; (apply exact_intro; [assumption|]); intros x _;
    cbn [index bin category_axis categorynoflow_axis Coordinate Interval].
  - left. destruct (C17_category_index B T eqd values x) as [i [Hi [Hle [Hin [Hnin Hk]]]]].
    destruct (in_dec (fun a b => eqd a b) x values) as [Hx|Hx].
    + exists i, (SVBin x). split; [exact Hi|]. split; [lia|]. split; [exact (Hin Hx)|].
      split; [cbn; now apply bool_decide_eq_true|].
      intros j b' Hj Hb' Hm. destruct (N.eq_dec j (N.of_nat (length values))) as [->|Hne].
      * rewrite Hbo in Hb'. injection Hb' as <-. cbn [in_category] in Hm.
        apply negb_true_iff in Hm. rewrite (proj2 (Hex x) Hx) in Hm. discriminate.
      * destruct (Hsome j ltac:(lia)) as [v Hv]. pose proof (Hb _ _ Hv) as Hbv. rewrite N2Nat.id, Hb' in Hbv.
        injection Hbv as ->. cbn [in_category] in Hm. apply bool_decide_eq_true in Hm. subst v.
        rewrite (Hk Hnd _ Hv). lia.
    + specialize (Hnin Hx). subst i. exists (N.of_nat (length values)), SVOverflow.
      split; [exact Hi|]. split; [lia|]. split; [exact Hbo|]. split.
      { cbn [in_category]. apply negb_true_iff, not_true_iff_false. rewrite Hex. exact Hx. }
      intros j b' Hj Hb' Hm. destruct (N.eq_dec j (N.of_nat (length values))) as [->|Hne]; [reflexivity|].
      destruct (Hsome j ltac:(lia)) as [v Hv]. pose proof (Hb _ _ Hv) as Hbv. rewrite N2Nat.id, Hb' in Hbv.
      injection Hbv as ->. cbn [in_category] in Hm. apply bool_decide_eq_true in Hm. subst v.
      exfalso. apply Hx. eapply nth_error_In. exact Hv.
  - assert (Hbin : forall j b', j < N.of_nat (length values) -> categorynoflow_bin (categorynoflow_new values) j = Val (Some b') ->
       exists v, nth_error values (N.to_nat j) = Some v /\ b' = SVBin v).
    { intros j b' Hj Hb'. destruct (Hsome j Hj) as [v Hv]. pose proof (Hnb _ _ Hv) as Hbv.
      rewrite N2Nat.id, Hb' in Hbv. injection Hbv as ->. eauto. }
    destruct (in_dec (fun a b => eqd a b) x values) as [Hx|Hx].
    + left. destruct (Hnf2 x Hx) as [i [H1 [H2 [H3 H4]]]]. exists i, (SVBin x).
      split; [exact H1|]. split; [exact H2|]. split; [exact H3|]. split; [cbn; now apply bool_decide_eq_true|].
      intros j b' Hj Hb' Hm. destruct (Hbin j b' Hj Hb') as [v [Hv ->]]. cbn in Hm. apply bool_decide_eq_true in Hm. subst v.
      destruct (Hbin i _ H2 H3) as [v [Hv' [= <-]]]. eapply Huniq; eassumption.
    + right. split; [exact (Hnf1 x Hx)|]. intros j b' Hj Hb'. destruct (Hbin j b' Hj Hb') as [v [Hv ->]].
      cbn. apply bool_decide_eq_false. intros ->. apply Hx. eapply nth_error_In. exact Hv.
Qed.
Print Assumptions C53_category_exact.

(** ** The hypotheses are met, and a whole run *)
From Verif Require Import Value VecHist HashHist HistSpec Macros.

Definition example_tests (B : Build) : component_tests [uni_i32 B; cat_Z B] :=
  (in_interval (@num_ord _ (int_ops (signed 32))), (in_category [5; 7]%Z, tt)).
Definition example_oks (B : Build) : component_oks [uni_i32 B; cat_Z B] :=
  (fits (signed 32), ((fun _ => True), tt)).

Example C53_nonvacuous : forall B : Build,
  let ts := [uni_i32 B; cat_Z B] in
  let AX := axes_axis ts in
  let FV := num_fill (int_ops (signed 64)) in
  let FD := num_fill_with (int_ops (signed 64)) in
  let FW : FillWithWeighted Z Z Empty_set := {| fill_with_weighted_v := fun v _ (e : Empty_set) => match e with end |} in
  let DV := num_default (int_ops (signed 64)) in
  let calls : list (fill_op Z Empty_set) :=
    [CallFill (25, (7, tt)); CallFillWith (3, (5, tt)) 10; CallFill (29, (7, tt)); CallFill (-1, (9, tt))]%Z in
  exact_components ts (example_axes B) [5; 3] (example_oks B) (example_tests B)
  /\ products_fit [5; 3]
  /\ Forall (fun o => all_ok ts (example_oks B) (op_coordinate o)) calls
  /\ (let! h0 := ndhistogram ts (example_axes B) in
      let! h := vec_calls (V := Z) h0 calls in
      let! items := vec_iter h in
      Val (map it_value items)) = Val [0; 10; 0; 0; 0;  0; 0; 0; 2; 0;  1; 0; 0; 0; 0]%Z.
Proof.
  intros B ts AX FV FD FW DV calls.
  assert (HV : valid_int_params (signed 32) 3 0 10).
  { destruct B as [c []]; (constructor; try (vm_compute; congruence); try (vm_compute; split; congruence);
    exists 32%Z; split; [lia | left; reflexivity]). }
  split; [|split; [|split]].
  - cbn [exact_components ts]. split; [|split; [|reflexivity]].
    + exact (proj1 (exact_uniform_int B (signed 32) 3 0 10 HV ltac:(vm_compute; split; congruence))).
    + refine (proj1 (C53_category_exact B Z _ [5; 7]%Z _ _)); [|destruct B as [? []]; vm_compute; reflexivity].
      repeat constructor; cbn; intuition congruence.
  - intros k. destruct k as [|[|[|k]]]; destruct B as [? []]; vm_compute; reflexivity.
  - repeat constructor; vm_compute; congruence.
  - destruct B as [[] []]; vm_compute; reflexivity.
Qed.
