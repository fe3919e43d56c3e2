(** * Property theorems: integer bin values (C51). *)
From stdpp Require Import gmap.
From Coq Require Import ZifyN ZifyNat Lia.
From Verif Require Import Base BaseFacts Num Axis Spec IntFacts AxesSpec Category Value VecHist HashHist HistSpec
  HistFacts HashFacts PropCategory PropHist PropHistIter PropOrder PropMerge.
Open Scope N_scope.

(** ** C51 *)

(** The exact total of a list of calls. *)
Definition total {A : Type} {AX : Axis A} (ops : list (fill_op Z Empty_set)) : Z := sumZ (map amount ops).

(** At some point while performing the calls on a bin starting at [v] the exact
    running total leaves the range of the type. *)
Definition overflows {A : Type} {AX : Axis A} (t : int_type) (v : Z) (ops : list (fill_op Z Empty_set)) : Prop :=
  exists k, (k <= length ops)%nat /\ ~ fits t (v + total (firstn k ops)).

(** Some call's coordinate makes the axes themselves panic. *)
Definition axis_panics {A : Type} {AX : Axis A} (a : A) (ops : list (fill_op Z Empty_set)) : Prop :=
  exists o, In o ops /\ index a (op_coordinate o) = Panic.

Section Bins.
Context {B : Build} (t : int_type) {A : Type} {AX : Axis A}.
Notation op := (fill_op (AX := AX) Z Empty_set).
Notation all := (@apply_all A Z Z Empty_set AX (int_fill t) (int_fill_with t) no_weighted).

Lemma total_cons (o : op) ops : total (o :: ops) = (amount o + total ops)%Z.
Proof. reflexivity. Qed.

Lemma checked_bin (ops : list op) v v' : overflow_checks = true -> all ops v = Val v' -> v' = (v + total ops)%Z.
Proof.
  intros Hc. revert v. induction ops as [|o ops IH]; intros v Hr; unfold apply_all in *; cbn [foldo] in Hr.
  - injection Hr as <-. unfold total, sumZ. cbn. lia.
  - apply obind_val in Hr as [w [Hw Hr]]. rewrite int_effect in Hw. apply int_result_checked in Hw as [-> _]; [|exact Hc].
    rewrite (IH _ Hr), total_cons. lia.
Qed.

Lemma checked_bin_panic (ops : list op) v : overflow_checks = true -> fits t v -> all ops v = Panic <-> overflows t v ops.
Proof.
  intros Hc. revert v. induction ops as [|o ops IH]; intros v Hv; unfold apply_all in *; cbn [foldo].
  - split; [discriminate|]. intros [k [Hk Hn]]. exfalso. apply Hn. cbn in Hk. assert (k = 0)%nat as -> by lia.
    cbn [firstn]. unfold total, sumZ. cbn. unfold fits in *. lia.
  - rewrite int_effect. unfold int_result. rewrite Hc. destruct (in_range t (v + amount o)) eqn:E; cbn [obind].
    + apply in_range_fits in E. rewrite (IH _ E). split; intros [k [Hk Hn]].
      * exists (S k). cbn [length firstn]. split; [lia|]. rewrite total_cons, Z.add_assoc. exact Hn.
      * destruct k as [|k].
        -- exfalso. apply Hn. cbn [firstn]. unfold total, sumZ. cbn. unfold fits in *. lia.
        -- exists k. cbn [length firstn] in *. split; [lia|]. rewrite total_cons, Z.add_assoc in Hn. exact Hn.
    + split; [intros _ | reflexivity]. exists 1%nat. cbn [length firstn]. split; [lia|].
      intros Hf. rewrite total_cons in Hf. unfold total, sumZ in Hf. cbn in Hf. rewrite Z.add_0_r in Hf.
      apply in_range_fits in Hf. congruence.
Qed.

Lemma unchecked_bin (ops : list op) v : (int_min t <= int_max t)%Z -> overflow_checks = false -> fits t v ->
  all ops v = Val (wrap t (v + total ops)).
Proof.
  intros Hb Hc. revert v. induction ops as [|o ops IH]; intros v Hv; unfold apply_all in *; cbn [foldo].
  - unfold total, sumZ. cbn. rewrite Z.add_0_r, wrap_fits by assumption. reflexivity.
  - rewrite int_effect, int_result_unchecked by assumption. cbn [obind]. rewrite IH by (apply wrap_in; assumption).
    rewrite wrap_add by assumption. rewrite total_cons. do 2 f_equal. lia.
Qed.
End Bins.

(** Builds with overflow checks, dense histograms: whatever was filled, every
    bin reads the exact total of the calls that reached it; and the calls panic
    exactly when some bin's exact running total leaves the range of the bin type
    (or the axes themselves panic). *)
Theorem C51_checked_dense :
  forall (B : Build) (t : int_type) A (AX : Axis A) (a : A) (h0 : VecHistogram A Z) (ops : list (fill_op Z Empty_set)),
  primitive_int t -> overflow_checks = true ->
  @vec_new A Z AX (int_default t) a = Val h0 ->
  (forall h i, int_vec_calls t h0 ops = Val h -> vec_value_at_index h0 i <> None ->
     vec_value_at_index h i = Some (total (reaching a i ops)))
  /\ (int_vec_calls t h0 ops = Panic <->
      axis_panics a ops
      \/ exists i, vec_value_at_index h0 i <> None /\ overflows t 0 (reaching a i ops)).
Proof.
  intros B t A AX a h0 ops Ht Hc Hnew. pose proof (primitive_bounds t Ht) as Hb.
  unfold vec_new in Hnew. apply obind_val in Hnew as [n [Hn E]]. injection E as <-.
  assert (H0 : forall i v, nth_error (repeat 0%Z (N.to_nat n)) i = Some v -> v = 0%Z).
  { intros i v Hv. apply nth_error_In in Hv. apply repeat_spec in Hv. exact Hv. }
  assert (Hf0 : fits t 0) by (unfold fits; lia).
  unfold vec_value_at_index. cbn [vh_values vh_axes default_v int_default num_default n_zero int_ops].
  split.
  - intros h i Hr Hi. destruct (nth_error (repeat 0%Z (N.to_nat n)) (N.to_nat i)) as [v|] eqn:Ev; [|congruence].
    destruct (vec_calls_inv _ _ _ Hr) as [_ [_ [_ Hv]]]. destruct (Hv i v Ev) as [v' [E1 E2]].
    rewrite (H0 _ _ Ev) in E2. apply checked_bin in E2; [|exact Hc]. cbn [vh_axes] in E2. rewrite E1. subst v'. reflexivity.
  - split.
    + intros Hp. destruct (List.Exists_dec (fun o => index a (op_coordinate o) = Panic) ops) as [He|He].
      { intros o. destruct (index a (op_coordinate o)); [right; discriminate | left; reflexivity]. }
      * left. apply List.Exists_exists in He. exact He.
      * right.
        assert (Hd : forall m, (forall i, i < m -> ~ (nth_error (repeat 0%Z (N.to_nat n)) (N.to_nat i) <> None
                        /\ @apply_all A Z Z Empty_set AX (int_fill t) (int_fill_with t) no_weighted (reaching a i ops) 0%Z = Panic))
                     \/ exists i, nth_error (repeat 0%Z (N.to_nat n)) (N.to_nat i) <> None
                        /\ @apply_all A Z Z Empty_set AX (int_fill t) (int_fill_with t) no_weighted (reaching a i ops) 0%Z = Panic).
        { intros m. induction m as [|m IH] using N.peano_ind; [left; intros i Hi; lia|].
          destruct IH as [IH|IH]; [|right; exact IH].
          destruct (nth_error (repeat 0%Z (N.to_nat n)) (N.to_nat m)) as [v|] eqn:E1;
            destruct (@apply_all A Z Z Empty_set AX (int_fill t) (int_fill_with t) no_weighted (reaching a m ops) 0%Z) eqn:E2.
          - left. intros i Hi [Hi1 Hi2]. destruct (N.eq_dec i m) as [->|Hne]; [congruence|]. apply (IH i); [lia | auto].
          - right. exists m. split; [congruence | exact E2].
          - left. intros i Hi [Hi1 Hi2]. destruct (N.eq_dec i m) as [->|Hne]; [congruence|]. apply (IH i); [lia | auto].
          - left. intros i Hi [Hi1 Hi2]. destruct (N.eq_dec i m) as [->|Hne]; [congruence|]. apply (IH i); [lia | auto]. }
        destruct (Hd n) as [Hno|[i [Hi1 Hi2]]].
        -- exfalso.
           destruct (@vec_calls_total A Z Z Empty_set AX (int_fill t) (int_fill_with t) no_weighted
                       (mkVecHist a (repeat 0%Z (N.to_nat n))) ops) as [h' Hr'].
           ++ intros o Ho. cbn [vh_axes]. destruct (index a (op_coordinate o)) as [r|] eqn:E; [eauto|].
              exfalso. apply He. apply List.Exists_exists. exists o. auto.
           ++ intros i v Hv. cbn [vh_axes vh_values] in *. rewrite (H0 _ _ Hv).
              destruct (apply_all (reaching a i ops) 0%Z) as [v'|] eqn:E; [eauto|].
              exfalso. apply (Hno i); [|split; [congruence | exact E]].
              apply nth_error_some_lt in Hv. rewrite repeat_length in Hv. lia.
           ++ cbn in Hp, Hr'. congruence.
        -- exists i. split; [exact Hi1|]. apply checked_bin_panic in Hi2; assumption.
    + intros Hor. destruct (int_vec_calls t (mkVecHist a (repeat 0%Z (N.to_nat n))) ops) as [h|] eqn:Hr; [|reflexivity].
      exfalso. destruct (vec_calls_inv _ _ _ Hr) as [_ [_ [Hix Hv]]]. destruct Hor as [[o [Ho Hp]]|[i [Hi Hov]]].
      * destruct (Hix o Ho) as [r Hr']. cbn [vh_axes] in Hr'. congruence.
      * destruct (nth_error (repeat 0%Z (N.to_nat n)) (N.to_nat i)) as [v|] eqn:Ev; [|congruence].
        destruct (Hv i v Ev) as [v' [E1 E2]]. rewrite (H0 _ _ Ev) in E2. cbn [vh_axes] in E2.
        apply (proj2 (checked_bin_panic t (reaching a i ops) 0%Z Hc Hf0)) in Hov. congruence.
Qed.
Print Assumptions C51_checked_dense.

(** The same for sparse histograms (an absent bin counts as 0). *)
Theorem C51_checked_sparse :
  forall (B : Build) (t : int_type) A (AX : Axis A) (a : A) (ops : list (fill_op Z Empty_set)),
  primitive_int t -> overflow_checks = true ->
  (forall h i, int_hash_calls t (hash_new a) ops = Val h ->
     hash_value_at_index h i = if decide (reaching a i ops = []) then None else Some (total (reaching a i ops)))
  /\ (int_hash_calls t (hash_new a) ops = Panic <->
      axis_panics a ops \/ exists i, overflows t 0 (reaching a i ops)).
Proof.
  intros B t A AX a ops Ht Hc. pose proof (primitive_bounds t Ht) as Hb.
  assert (Hf0 : fits t 0) by (unfold fits; lia).
  split.
  - intros h i Hr. destruct (hash_calls_inv _ _ _ Hr) as [_ [_ Hv]]. destruct (Hv i) as [H1 H2].
    unfold hash_value_at_index. cbn [hash_new hh_axes hh_values] in *. destruct (decide (reaching a i ops = [])) as [E|E].
    + rewrite (H1 E). apply lookup_empty.
    + destruct (H2 E) as [v' [E1 E2]]. rewrite lookup_empty in E1. apply checked_bin in E1; [|exact Hc]. rewrite E2, E1.
      reflexivity.
  - split.
    + intros Hp. destruct (List.Exists_dec (fun o => index a (op_coordinate o) = Panic) ops) as [He|He].
      { intros o. destruct (index a (op_coordinate o)); [right; discriminate | left; reflexivity]. }
      * left. apply List.Exists_exists in He. exact He.
      * right.
        set (bad := fun o : fill_op Z Empty_set => match index a (op_coordinate o) with
           | Val (Some i) => @apply_all A Z Z Empty_set AX (int_fill t) (int_fill_with t) no_weighted (reaching a i ops) 0%Z = Panic
           | _ => False end).
        destruct (List.Exists_dec bad ops) as [Hb1|Hb1].
        { intros o. unfold bad. destruct (index a (op_coordinate o)) as [[i|]|]; [|right; tauto|right; tauto].
          destruct (apply_all (reaching a i ops) 0%Z); [right; discriminate | left; reflexivity]. }
        -- apply List.Exists_exists in Hb1 as [o [_ Ho]]. unfold bad in Ho.
           destruct (index a (op_coordinate o)) as [[i|]|]; [|tauto|tauto].
           exists i. apply checked_bin_panic in Ho; assumption.
        -- exfalso.
           destruct (@hash_calls_total A Z Z Empty_set AX (int_fill t) (int_fill_with t) no_weighted (int_default t)
                       (hash_new a) ops) as [h' Hr'].
           ++ intros o Ho. cbn [hash_new hh_axes]. destruct (index a (op_coordinate o)) as [r|] eqn:E; [eauto|].
              exfalso. apply He. apply List.Exists_exists. exists o. auto.
           ++ intros i. cbn [hash_new hh_axes hh_values]. rewrite lookup_empty.
              change (or_default (DV := int_default t) None) with 0%Z.
              destruct (apply_all (reaching a i ops) 0%Z) as [v'|] eqn:E; [eauto|]. exfalso.
              destruct (reaching a i ops) as [|o l] eqn:Er; [discriminate|].
              assert (Ho : In o (reaching a i ops)) by (rewrite Er; left; reflexivity).
              unfold reaching in Ho. apply filter_In in Ho as [Ho1 Ho2]. unfold lands_in in Ho2.
              apply Hb1. apply List.Exists_exists. exists o. split; [exact Ho1|]. unfold bad.
              destruct (index a (op_coordinate o)) as [[j|]|]; [|discriminate|discriminate].
              apply N.eqb_eq in Ho2 as ->. rewrite Er. exact E.
           ++ congruence.
    + intros Hor. destruct (int_hash_calls t (hash_new a) ops) as [h|] eqn:Hr; [|reflexivity].
      exfalso. destruct (hash_calls_inv _ _ _ Hr) as [_ [Hix Hv]]. destruct Hor as [[o [Ho Hp]]|[i Hov]].
      * destruct (Hix o Ho) as [r Hr']. cbn [hash_new hh_axes] in Hr'. congruence.
      * apply (proj2 (checked_bin_panic t (reaching a i ops) 0%Z Hc Hf0)) in Hov.
        destruct (Hv i) as [_ H2]. cbn [hash_new hh_axes hh_values] in H2.
        destruct H2 as [v' [E1 _]]; [intros E; rewrite E in Hov; discriminate|]. rewrite lookup_empty in E1.
        change (or_default (DV := int_default t) None) with 0%Z in E1. congruence.
Qed.
Print Assumptions C51_checked_sparse.

(** Builds without overflow checks: filling panics only if the axes panic, and
    every bin reads the exact total modulo 2^w (the representative in the range
    of the type). *)
Theorem C51_unchecked :
  forall (B : Build) (t : int_type) A (AX : Axis A) (a : A) (ops : list (fill_op Z Empty_set)),
  primitive_int t -> overflow_checks = false ->
  (forall h0 : VecHistogram A Z, @vec_new A Z AX (int_default t) a = Val h0 ->
     (int_vec_calls t h0 ops = Panic <-> axis_panics a ops)
     /\ forall h i, int_vec_calls t h0 ops = Val h -> vec_value_at_index h0 i <> None ->
        exists v, vec_value_at_index h i = Some v /\ fits t v
                  /\ exists k, total (reaching a i ops) = (v + k * (int_max t - int_min t + 1))%Z)
  /\ (int_hash_calls t (hash_new a) ops = Panic <-> axis_panics a ops)
  /\ forall h i, int_hash_calls t (hash_new a) ops = Val h -> reaching a i ops <> [] ->
        exists v, hash_value_at_index h i = Some v /\ fits t v
                  /\ exists k, total (reaching a i ops) = (v + k * (int_max t - int_min t + 1))%Z.
Proof.
  intros B t A AX a ops Ht Hc. pose proof (primitive_bounds t Ht) as Hb.
  assert (Hle : (int_min t <= int_max t)%Z) by lia.
  assert (Hf0 : fits t 0) by (unfold fits; lia).
  assert (Hwrap : forall z, fits t (wrap t z) /\ exists k, z = (wrap t z + k * (int_max t - int_min t + 1))%Z).
  { intros z. split; [apply wrap_in; exact Hle|]. unfold wrap.
    exists ((z - int_min t) / (int_max t - int_min t + 1))%Z.
    pose proof (Z.div_mod (z - int_min t) (int_max t - int_min t + 1)). nia. }
  assert (Hdec : forall o : fill_op Z Empty_set, {index a (op_coordinate o) = Panic} + {index a (op_coordinate o) <> Panic}).
  { intros o. destruct (index a (op_coordinate o)); [right; discriminate | left; reflexivity]. }
  split; [|split].
  - intros h0 Hnew. unfold vec_new in Hnew. apply obind_val in Hnew as [n [Hn E]]. injection E as <-.
    assert (H0 : forall i v, nth_error (repeat 0%Z (N.to_nat n)) i = Some v -> v = 0%Z).
    { intros i v Hv. apply nth_error_In in Hv. apply repeat_spec in Hv. exact Hv. }
    unfold vec_value_at_index. cbn [vh_values vh_axes default_v int_default num_default n_zero int_ops].
    split; [split|].
    + intros Hp. destruct (List.Exists_dec (fun o => index a (op_coordinate o) = Panic) ops Hdec) as [He|He];
        [apply List.Exists_exists in He; exact He|]. exfalso.
      destruct (@vec_calls_total A Z Z Empty_set AX (int_fill t) (int_fill_with t) no_weighted
                  (mkVecHist a (repeat 0%Z (N.to_nat n))) ops) as [h' Hr'].
      * intros o Ho. cbn [vh_axes]. destruct (index a (op_coordinate o)) as [r|] eqn:E; [eauto|].
        exfalso. apply He. apply List.Exists_exists. exists o. auto.
      * intros i v Hv. cbn [vh_axes vh_values] in *. rewrite (H0 _ _ Hv). rewrite unchecked_bin by assumption. eauto.
      * cbn in Hp, Hr'. congruence.
    + intros [o [Ho Hp]]. destruct (int_vec_calls t (mkVecHist a (repeat 0%Z (N.to_nat n))) ops) as [h|] eqn:Hr; [|reflexivity].
      destruct (vec_calls_inv _ _ _ Hr) as [_ [_ [Hix _]]]. destruct (Hix o Ho) as [r Hr']. cbn [vh_axes] in Hr'. congruence.
    + intros h i Hr Hi. destruct (nth_error (repeat 0%Z (N.to_nat n)) (N.to_nat i)) as [v|] eqn:Ev; [|congruence].
      destruct (vec_calls_inv _ _ _ Hr) as [_ [_ [_ Hv]]]. destruct (Hv i v Ev) as [v' [E1 E2]].
      rewrite (H0 _ _ Ev), unchecked_bin in E2 by assumption. injection E2 as <-. cbn [vh_axes] in *.
      destruct (Hwrap (0 + total (reaching a i ops))%Z) as [W1 W2]. eexists. split; [exact E1|]. split; [exact W1|].
      destruct W2 as [k W2]. exists k. lia.
  - split.
    + intros Hp. destruct (List.Exists_dec (fun o => index a (op_coordinate o) = Panic) ops Hdec) as [He|He];
        [apply List.Exists_exists in He; exact He|]. exfalso.
      destruct (@hash_calls_total A Z Z Empty_set AX (int_fill t) (int_fill_with t) no_weighted (int_default t)
                  (hash_new a) ops) as [h' Hr'].
      * intros o Ho. cbn [hash_new hh_axes]. destruct (index a (op_coordinate o)) as [r|] eqn:E; [eauto|].
        exfalso. apply He. apply List.Exists_exists. exists o. auto.
      * intros i. cbn [hash_new hh_axes hh_values]. rewrite lookup_empty. change (or_default (DV := int_default t) None) with 0%Z. rewrite unchecked_bin by assumption. eauto.
      * congruence.
    + intros [o [Ho Hp]]. destruct (int_hash_calls t (hash_new a) ops) as [h|] eqn:Hr; [|reflexivity].
      destruct (hash_calls_inv _ _ _ Hr) as [_ [Hix _]]. destruct (Hix o Ho) as [r Hr']. cbn [hash_new hh_axes] in Hr'. congruence.
  - intros h i Hr Hne. destruct (hash_calls_inv _ _ _ Hr) as [_ [_ Hv]]. destruct (Hv i) as [_ H2].
    cbn [hash_new hh_axes hh_values] in *. destruct (H2 Hne) as [v' [E1 E2]]. rewrite lookup_empty in E1.
    change (or_default (DV := int_default t) None) with 0%Z in E1. rewrite unchecked_bin in E1 by assumption. injection E1 as <-.
    destruct (Hwrap (0 + total (reaching a i ops))%Z) as [W1 W2]. eexists. split; [exact E2|]. split; [exact W1|].
    destruct W2 as [k W2]. exists k. lia.
Qed.
Print Assumptions C51_unchecked.

(** i8 bins over Category(5): 100 then 100 panics with checks on and reads -56
    with checks off (200 = -56 + 1 * 256); 100 then -100 then 100 is fine. *)
Example C51_nonvacuous : forall B : Build,
  let a := category_new [5]%Z in
  let w := fun d => @CallFillWith (Category Z) Z Empty_set (ex_axis B) 5%Z d in
  primitive_int (signed 8)
  /\ @vec_new _ _ (ex_axis B) (int_default (signed 8)) a = Val (mkVecHist a [0; 0]%Z)
  /\ overflows (signed 8) 0 (reaching a 0 [w 100; w 100]%Z)
  /\ @vec_calls _ _ _ _ (ex_axis B) (int_fill (signed 8)) (int_fill_with (signed 8)) no_weighted (mkVecHist a [0; 0]%Z)
       [w 100; w 100]%Z = (if overflow_checks then Panic else Val (mkVecHist a [-56; 0]%Z))
  /\ @vec_calls _ _ _ _ (ex_axis B) (int_fill (signed 8)) (int_fill_with (signed 8)) no_weighted (mkVecHist a [0; 0]%Z)
       [w 100; w (-100); w 100]%Z = Val (mkVecHist a [100; 0]%Z).
Proof.
  intros B a w. split; [exists 8%Z; split; [lia | left; reflexivity]|]. split; [destruct B as [? []]; reflexivity|].
  split. { exists 2%nat. destruct B as [[] []]; vm_compute; (split; [lia|]); intros [H1 H2]; apply H2; reflexivity. }
  destruct B as [[] []]; vm_compute; split; reflexivity.
Qed.
