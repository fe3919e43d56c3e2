(** * Property theorems: order of fills, conservation, merging (C34-C36). *)
From stdpp Require Import gmap.
From Coq Require Import ZifyN ZifyNat Lia.
From Verif Require Import Base BaseFacts Num Axis Spec IntFacts AxesSpec Category Value VecHist HashHist HistSpec
  HistFacts HashFacts PropHistIter.
Open Scope N_scope.

(** ** C34 *)
Section Commute.
Context {A V D W : Type} {AX : Axis A} {FV : Fill V} {FD : FillWith V D} {FW : FillWithWeighted V D W}
        {DV : Default V}.

(** The two calls may be exchanged on any bin value satisfying [P] (including
    whether they panic). *)
Definition calls_commute (P : V -> Prop) (o1 o2 : fill_op D W) : Prop :=
  forall v : V, P v -> (let! w := op_effect o1 v in op_effect o2 w) = (let! w := op_effect o2 v in op_effect o1 w).

(** The call keeps bin values within [P]. *)
Definition call_keeps (P : V -> Prop) (o : fill_op D W) : Prop :=
  forall v v' : V, P v -> op_effect o v = Val v' -> P v'.

Lemma perm_foldo {S X} (P : S -> Prop) (f : S -> X -> outcome S) (l l' : list X) :
  (forall x y, In x l -> In y l -> forall s, P s -> (let! t := f s x in f t y) = (let! t := f s y in f t x)) ->
  (forall x s t, In x l -> P s -> f s x = Val t -> P t) ->
  Permutation l l' -> forall s, P s -> foldo f l s = foldo f l' s.
Proof.
  intros Hc Hk Hp. induction Hp as [|x l l' Hp IH|x y l|l l' l'' Hp1 IH1 Hp2 IH2]; intros s HP; cbn [foldo].
  - reflexivity.
  - destruct (f s x) as [t|] eqn:Ef; [|reflexivity]. cbn [obind].
    apply IH; [intros a b Ha Hb; apply Hc; right; assumption | intros a u v Ha; apply Hk; right; assumption |].
    eapply Hk; [left; reflexivity | exact HP | exact Ef].
  - specialize (Hc y x (or_introl eq_refl) (or_intror (or_introl eq_refl)) s HP).
    destruct (f s y) as [t|] eqn:E1; destruct (f s x) as [t'|] eqn:E2; cbn [obind] in *; rewrite ?Hc; try reflexivity.
    rewrite <- Hc. reflexivity.
  - assert (Hin : forall x, In x l' -> In x l).
    { intros x Hx. eapply Permutation_in; [apply Permutation_sym; exact Hp1 | exact Hx]. }
    rewrite IH1 by assumption. apply IH2; [intros a b Ha Hb; apply Hc; auto | intros a u v Ha; apply Hk; auto | exact HP].
Qed.

(** Two histories of calls that have the same effect on every bin give the same histogram. *)
Lemma vec_calls_determined (h : VecHistogram A V) (ops ops' : list (fill_op D W)) :
  (forall o, In o ops <-> In o ops') ->
  (forall i v, nth_error (vh_values h) (N.to_nat i) = Some v ->
     apply_all (reaching (vh_axes h) i ops) v = apply_all (reaching (vh_axes h) i ops') v) ->
  vec_calls h ops = vec_calls h ops'.
Proof.
  assert (Hgen : forall ops ops' h', (forall o, In o ops <-> In o ops') ->
    (forall i v, nth_error (vh_values h) (N.to_nat i) = Some v ->
     apply_all (reaching (vh_axes h) i ops) v = apply_all (reaching (vh_axes h) i ops') v) ->
    vec_calls h ops = Val h' -> vec_calls h ops' = Val h').
  { clear ops ops'. intros ops ops' h' Hin Hbin Hr.
    destruct (vec_calls_inv _ _ _ Hr) as [Ha [Hl [Hix Hv]]].
    destruct (vec_calls_total h ops') as [h'' Hr'].
    - intros o Ho. apply Hix. apply Hin. exact Ho.
    - intros i v Hiv. destruct (Hv i v Hiv) as [v' [_ He]]. exists v'. rewrite <- Hbin by exact Hiv. exact He.
    - rewrite Hr'. f_equal. destruct (vec_calls_inv _ _ _ Hr') as [Ha' [Hl' [_ Hv']]].
      destruct h' as [a1 l1], h'' as [a2 l2]. cbn [vh_axes vh_values] in *. subst a1 a2. f_equal.
      apply nth_error_ext_len; [congruence|]. intros i w Hw.
      destruct (nth_error_lt (vh_values h) i) as [v Hv0].
      { apply nth_error_some_lt in Hw. lia. }
      rewrite <- (Nat2N.id i) in Hv0. destruct (Hv _ v Hv0) as [v1 [E1 E2]]. destruct (Hv' _ v Hv0) as [v2 [E3 E4]].
      rewrite Nat2N.id in E1, E3. rewrite Hbin in E2 by exact Hv0. congruence. }
  intros Hin Hbin. destruct (vec_calls h ops) as [h'|] eqn:E1.
  - symmetry. eapply Hgen; eassumption.
  - destruct (vec_calls h ops') as [h'|] eqn:E2; [|reflexivity].
    rewrite <- E1. eapply Hgen; [| |exact E2].
    + intros o. symmetry. apply Hin.
    + intros i v Hv. symmetry. apply Hbin. exact Hv.
Qed.

Lemma hash_calls_determined (h : HashHistogram A V) (ops ops' : list (fill_op D W)) :
  (forall o, In o ops <-> In o ops') ->
  (forall i, apply_all (reaching (hh_axes h) i ops) (or_default (hh_values h !! i))
             = apply_all (reaching (hh_axes h) i ops') (or_default (hh_values h !! i))) ->
  hash_calls h ops = hash_calls h ops'.
Proof.
  assert (Hempty : forall ops ops' : list (fill_op D W), (forall o, In o ops <-> In o ops') ->
            forall i, reaching (hh_axes h) i ops = [] -> reaching (hh_axes h) i ops' = []).
  { clear ops ops'. intros ops ops' Hin i He. unfold reaching in *.
    destruct (List.filter (lands_in (hh_axes h) i) ops') as [|o l] eqn:E; [reflexivity|].
    assert (Ho : In o (List.filter (lands_in (hh_axes h) i) ops')) by (rewrite E; left; reflexivity).
    apply filter_In in Ho as [Ho1 Ho2]. apply Hin in Ho1.
    assert (Ho : In o (List.filter (lands_in (hh_axes h) i) ops)) by (apply filter_In; split; assumption).
    rewrite He in Ho. destruct Ho. }
  assert (Hgen : forall ops ops' h', (forall o, In o ops <-> In o ops') ->
    (forall i, apply_all (reaching (hh_axes h) i ops) (or_default (hh_values h !! i))
             = apply_all (reaching (hh_axes h) i ops') (or_default (hh_values h !! i))) ->
    hash_calls h ops = Val h' -> hash_calls h ops' = Val h').
  { clear ops ops'. intros ops ops' h' Hin Hbin Hr.
    destruct (hash_calls_inv _ _ _ Hr) as [Ha [Hix Hv]].
    destruct (hash_calls_total h ops') as [h'' Hr'].
    - intros o Ho. apply Hix. apply Hin. exact Ho.
    - intros i. rewrite <- Hbin. destruct (reaching (hh_axes h) i ops) as [|o l] eqn:E.
      + eexists. reflexivity.
      + destruct (Hv i) as [_ Hs]. destruct Hs as [v' [Hv' _]]; [rewrite E; discriminate|].
        rewrite E in Hv'. eauto.
    - rewrite Hr'. f_equal. destruct (hash_calls_inv _ _ _ Hr') as [Ha' [_ Hv']].
      destruct h' as [a1 l1], h'' as [a2 l2]. cbn [hh_axes hh_values] in *. subst a1 a2. f_equal.
      apply map_eq. intros i. destruct (Hv i) as [Hn Hs]. destruct (Hv' i) as [Hn' Hs'].
      destruct (reaching (hh_axes h) i ops) as [|o l] eqn:E.
      + rewrite (Hn eq_refl). apply Hn'. eapply Hempty; eassumption.
      + destruct Hs as [v1 [E1 E2]]; [discriminate|]. rewrite <- E in E1.
        destruct Hs' as [v2 [E3 E4]].
        { intros E'. assert (reaching (hh_axes h) i ops = []); [|congruence].
          eapply (Hempty ops'); [|exact E']. intros x. symmetry. apply Hin. }
        specialize (Hbin i). congruence. }
  intros Hin Hbin. destruct (hash_calls h ops) as [h'|] eqn:E1.
  - symmetry. eapply Hgen; eassumption.
  - destruct (hash_calls h ops') as [h'|] eqn:E2; [|reflexivity].
    rewrite <- E1. eapply Hgen; [| |exact E2].
    + intros o. symmetry. apply Hin.
    + intros i. symmetry. apply Hbin.
Qed.

Lemma reaching_perm (a : A) i (ops ops' : list (fill_op D W)) :
  Permutation ops ops' -> Permutation (reaching a i ops) (reaching a i ops').
Proof.
  unfold reaching. induction 1 as [|x l l' Hp IH|x y l|l l' l'' Hp1 IH1 Hp2 IH2]; cbn [List.filter].
  - constructor.
  - destruct (lands_in a i x); [constructor|]; exact IH.
  - destruct (lands_in a i x), (lands_in a i y); try apply Permutation_refl. apply perm_swap.
  - eapply Permutation_trans; eassumption.
Qed.
End Commute.

(** Exchangeable calls in any order give the same dense histogram, and the same
    sparse histogram (and panic in the same cases).  [P] is any property of bin
    values that the calls preserve and on which they commute. *)
Theorem C34_fill_order_irrelevant :
  forall A V D W (AX : Axis A) (FV : Fill V) (FD : FillWith V D) (FW : FillWithWeighted V D W)
         (DV : Default V) (P : V -> Prop) (ops ops' : list (fill_op D W)),
  (forall o1 o2, In o1 ops -> In o2 ops -> calls_commute P o1 o2) ->
  (forall o, In o ops -> call_keeps P o) ->
  Permutation ops ops' ->
  (forall h : VecHistogram A V, (forall i v, vec_value_at_index h i = Some v -> P v) ->
     vec_calls h ops = vec_calls h ops')
  /\ (forall h : HashHistogram A V, P default_v -> (forall i v, hash_value_at_index h i = Some v -> P v) ->
     hash_calls h ops = hash_calls h ops').
Proof.
  intros A V D W AX FV FD FW DV P ops ops' Hc Hk Hp.
  assert (Hin : forall o, In o ops <-> In o ops').
  { intros o. split; apply Permutation_in; [exact Hp | apply Permutation_sym; exact Hp]. }
  assert (Hv : forall a i v, P v -> apply_all (reaching a i ops) v = apply_all (reaching a i ops') v).
  { intros a i v HP. apply (perm_foldo P); [| | apply reaching_perm; exact Hp | exact HP].
    - intros x y Hx Hy s Hs. apply Hc; [| | exact Hs]; [apply filter_In in Hx as [Hx _] | apply filter_In in Hy as [Hy _]]; assumption.
    - intros x s t Hx Hs. apply Hk; [|exact Hs]. apply filter_In in Hx as [Hx _]. exact Hx. }
  split; intros h; [intros HP | intros HD HP].
  - apply vec_calls_determined; [exact Hin|]. intros i v Hiv. apply Hv. eapply HP. exact Hiv.
  - apply hash_calls_determined; [exact Hin|]. intros i. apply Hv. unfold hash_value_at_index in HP.
    destruct (hh_values h !! i) as [v|] eqn:E; [exact (HP i v E) | exact HD].
Qed.
Print Assumptions C34_fill_order_irrelevant.

(** Calls of [fill] always commute, whatever the bin value type. *)
Theorem C34_counting_order_irrelevant :
  forall A V D W (AX : Axis A) (FV : Fill V) (FD : FillWith V D) (FW : FillWithWeighted V D W)
         (DV : Default V) (cs cs' : list Coordinate),
  Permutation cs cs' ->
  (forall h : VecHistogram A V,
      vec_calls h (map (CallFill (D := D) (W := W)) cs) = vec_calls h (map (CallFill (D := D) (W := W)) cs'))
  /\ (forall h : HashHistogram A V,
      hash_calls h (map (CallFill (D := D) (W := W)) cs) = hash_calls h (map (CallFill (D := D) (W := W)) cs')).
Proof.
  intros A V D W AX FV FD FW DV cs cs' Hp.
  destruct (C34_fill_order_irrelevant A V D W AX FV FD FW DV (fun _ => True)
              (map (CallFill (D := D) (W := W)) cs) (map (CallFill (D := D) (W := W)) cs')) as [H1 H2].
  - intros o1 o2 Ho1 Ho2. apply in_map_iff in Ho1 as [c1 [<- _]], Ho2 as [c2 [<- _]]. intros v _. reflexivity.
  - intros o _ v v' _ _. exact I.
  - apply Permutation_map. exact Hp.
  - split; intros h; [apply H1 | apply H2]; auto.
Qed.
Print Assumptions C34_counting_order_irrelevant.

(** ** Integer bins *)
Section IntBins.
Context {B : Build} (t : int_type).
Definition int_fill : Fill Z := num_fill (int_ops t).
Definition int_fill_with : FillWith Z Z := num_fill_with (int_ops t).
Definition int_default : Default Z := num_default (int_ops t).
(** Integers have no weighted fill. *)
Definition no_weighted : FillWithWeighted Z Z Empty_set :=
  {| fill_with_weighted_v := fun (_ _ : Z) (w : Empty_set) => match w return outcome Z with end |}.
End IntBins.

(** The amount a call adds to an integer bin. *)
Definition amount {A : Type} {AX : Axis A} (o : fill_op Z Empty_set) : Z :=
  match o with CallFill _ => 1 | CallFillWith _ d => d | CallFillWithWeighted _ _ w => match w with end end.

(** Fill calls on integer histograms. *)
Notation int_vec_calls t := (@vec_calls _ Z Z Empty_set _ (int_fill t) (int_fill_with t) no_weighted).
Notation int_hash_calls t :=
  (@hash_calls _ Z Z Empty_set _ (int_fill t) (int_fill_with t) no_weighted (int_default t)).

Section IntLemmas.
Context {B : Build} (t : int_type) {A : Type} {AX : Axis A}.
Notation op := (fill_op (AX := AX) Z Empty_set).
Notation effect := (@op_effect A Z Z Empty_set AX (int_fill t) (int_fill_with t) no_weighted).

Lemma int_effect (o : op) v : effect o v = int_result t (v + amount o).
Proof. destruct o as [c|c d|c d []]; reflexivity. Qed.

(** In a checked build the result is exact. *)
Lemma int_result_checked z v : overflow_checks = true -> int_result t z = Val v -> v = z /\ fits t z.
Proof.
  intros Hc. unfold int_result. rewrite Hc. destruct (in_range t z) eqn:E; [|discriminate].
  intros [= <-]. split; [reflexivity|]. apply in_range_fits. exact E.
Qed.

Lemma wrap_fits z : (int_min t <= int_max t)%Z -> fits t z -> wrap t z = z.
Proof. unfold fits, wrap. intros Hb Hz. rewrite Z.mod_small; lia. Qed.

Lemma int_result_unchecked z : (int_min t <= int_max t)%Z -> overflow_checks = false -> int_result t z = Val (wrap t z).
Proof.
  intros Hb Hc. unfold int_result. rewrite Hc. destruct (in_range t z) eqn:E; [|reflexivity].
  apply in_range_fits in E. rewrite wrap_fits; auto.
Qed.

Lemma wrap_in z : (int_min t <= int_max t)%Z -> fits t (wrap t z).
Proof. intros Hb. unfold fits, wrap. pose proof (Z.mod_pos_bound (z - int_min t) (int_max t - int_min t + 1)). lia. Qed.

Lemma wrap_add z d : (int_min t <= int_max t)%Z -> wrap t (wrap t z + d) = wrap t (z + d).
Proof.
  intros Hb. unfold wrap. f_equal.
  replace (int_min t + (z - int_min t) mod (int_max t - int_min t + 1) + d - int_min t)%Z
    with ((z - int_min t) mod (int_max t - int_min t + 1) + d)%Z by lia.
  rewrite Zplus_mod_idemp_l. f_equal. lia.
Qed.

Lemma primitive_nonempty : primitive_int t -> (int_min t <= int_max t)%Z.
Proof. intros Hp. apply primitive_bounds in Hp. lia. Qed.

Lemma int_result_fits z v : (int_min t <= int_max t)%Z -> int_result t z = Val v -> fits t v.
Proof.
  intros Hb. unfold int_result. destruct (in_range t z) eqn:E.
  - intros [= <-]. apply in_range_fits. exact E.
  - destruct overflow_checks; [discriminate|]. intros [= <-]. apply wrap_in. exact Hb.
Qed.
End IntLemmas.

(** Integer sums: in builds that wrap, or when all the weights are non-negative,
    the order of the fills does not matter, not even for whether they panic. *)
Theorem C34_int_sums_order_irrelevant :
  forall (B : Build) (t : int_type) A (AX : Axis A) (ops ops' : list (fill_op Z Empty_set)),
  primitive_int t ->
  overflow_checks = false \/ (forall o, In o ops -> (0 <= amount o)%Z) ->
  Permutation ops ops' ->
  (forall h : VecHistogram A Z, (forall i v, vec_value_at_index h i = Some v -> fits t v) ->
     int_vec_calls t h ops = int_vec_calls t h ops')
  /\ (forall h : HashHistogram A Z, (forall i v, hash_value_at_index h i = Some v -> fits t v) ->
     int_hash_calls t h ops = int_hash_calls t h ops').
Proof.
  intros B t A AX ops ops' Ht Hor Hp. pose proof (primitive_nonempty t Ht) as Hb.
  pose proof (primitive_bounds t Ht) as H0.
  destruct (@C34_fill_order_irrelevant A Z Z Empty_set AX (int_fill t) (int_fill_with t) no_weighted (int_default t)
              (fits t) ops ops') as [H1 H2].
  - intros o1 o2 Ho1 Ho2 v Hv. rewrite !int_effect. destruct Hor as [Hc|Hn].
    + rewrite !int_result_unchecked by assumption. cbn [obind]. rewrite !int_effect.
      rewrite !int_result_unchecked by assumption. rewrite !wrap_add by assumption. do 2 f_equal. lia.
    + destruct (@overflow_checks B) eqn:Hc.
      * pose proof (Hn _ Ho1). pose proof (Hn _ Ho2). unfold int_result. rewrite Hc.
        assert (Hiff : forall z, (int_min t <= z)%Z -> in_range t z = (z <=? int_max t)%Z).
        { intros z Hz. unfold in_range. apply Z.leb_le in Hz. rewrite Hz. reflexivity. }
        unfold fits in Hv. rewrite !Hiff by lia.
        destruct (Z.leb_spec (v + amount o1) (int_max t)); destruct (Z.leb_spec (v + amount o2) (int_max t)); cbn [obind];
          rewrite ?int_effect; unfold int_result; rewrite ?Hc, ?Hiff by lia;
          repeat match goal with |- context [(?a <=? ?b)%Z] => destruct (Z.leb_spec a b) end; try lia; try reflexivity.
        f_equal. lia.
      * rewrite !int_result_unchecked by assumption. cbn [obind]. rewrite !int_effect.
        rewrite !int_result_unchecked by assumption. rewrite !wrap_add by assumption. do 2 f_equal. lia.
  - intros o _ v v' _. rewrite int_effect. apply int_result_fits. exact Hb.
  - exact Hp.
  - split; intros h; [apply H1 | apply H2]. unfold fits. cbn. lia.
Qed.
Print Assumptions C34_int_sums_order_irrelevant.

(** With overflow checks and weights of both signs one order may panic and
    another not: i8 weights 100, 100, -100 into one bin. *)
Theorem C34_signed_checked_order_refuted :
  exists (B : Build) (A : Type) (AX : Axis A) (a : A) (h : VecHistogram A Z) (ops ops' : list (fill_op Z Empty_set)),
  @vec_new A Z AX (int_default (signed 8)) a = Val h /\ Permutation ops ops'
  /\ int_vec_calls (signed 8) h ops = Panic
  /\ exists h', int_vec_calls (signed 8) h ops' = Val h'.
Proof.
  set (chk := {| overflow_checks := true; target_width := P64 |}). exists chk, (Category Z), (ex_axis chk), (category_new [5]%Z).
  exists (mkVecHist (category_new [5]%Z) [0; 0]%Z).
  exists [@CallFillWith (Category Z) Z Empty_set (ex_axis chk) 5%Z 100%Z; @CallFillWith (Category Z) Z Empty_set (ex_axis chk) 5%Z 100%Z;
          @CallFillWith (Category Z) Z Empty_set (ex_axis chk) 5%Z (-100)%Z].
  exists [@CallFillWith (Category Z) Z Empty_set (ex_axis chk) 5%Z 100%Z; @CallFillWith (Category Z) Z Empty_set (ex_axis chk) 5%Z (-100)%Z;
          @CallFillWith (Category Z) Z Empty_set (ex_axis chk) 5%Z 100%Z].
  split; [reflexivity|]. split; [apply perm_skip, perm_swap|]. split; [vm_compute; reflexivity|].
  eexists. vm_compute. reflexivity.
Qed.
Print Assumptions C34_signed_checked_order_refuted.

(** ... but two orders that both return give the same contents. *)
Theorem C34_int_sums_agree_when_no_panic :
  forall (B : Build) (t : int_type) A (AX : Axis A) (ops ops' : list (fill_op Z Empty_set)),
  primitive_int t -> Permutation ops ops' ->
  (forall (h h1 h2 : VecHistogram A Z),
     int_vec_calls t h ops = Val h1 -> int_vec_calls t h ops' = Val h2 -> h1 = h2)
  /\ (forall (h h1 h2 : HashHistogram A Z),
     int_hash_calls t h ops = Val h1 -> int_hash_calls t h ops' = Val h2 -> h1 = h2).
Proof.
  intros B t A AX ops ops' Ht Hp. pose proof (primitive_nonempty t Ht) as Hb.
  set (total := fun l : list (fill_op Z Empty_set) => fold_right Z.add 0%Z (map amount l)).
  assert (Htot : forall l l' : list (fill_op Z Empty_set), Permutation l l' -> total l = total l').
  { induction 1 as [|x l l' Hq IH|x y l|l l' l'' Hq1 IH1 Hq2 IH2]; unfold total in *; cbn [map fold_right] in *; lia. }
  assert (Hval : forall (l : list (fill_op Z Empty_set)) v v',
     @apply_all A Z Z Empty_set AX (int_fill t) (int_fill_with t) no_weighted l v = Val v' -> l <> [] ->
     if overflow_checks then v' = (v + total l)%Z else v' = wrap t (v + total l)).
  { unfold apply_all, total. intros l. induction l as [|o l IH]; intros v v' Hr Hne; [congruence|].
    cbn [foldo] in Hr. apply obind_val in Hr as [w [Hw Hr]]. rewrite int_effect in Hw.
    destruct (@overflow_checks B) eqn:Hc.
    - apply (int_result_checked t) in Hw as [-> _]; [|exact Hc]. destruct l as [|o' l].
      + injection Hr as <-. cbn. lia.
      + specialize (IH _ _ Hr ltac:(discriminate)). rewrite IH. cbn [map fold_right]. lia.
    - rewrite int_result_unchecked in Hw by assumption. injection Hw as <-. destruct l as [|o' l].
      + injection Hr as <-. cbn. f_equal. lia.
      + specialize (IH _ _ Hr ltac:(discriminate)). rewrite IH. cbn [map fold_right]. rewrite wrap_add by assumption. f_equal. lia. }
  assert (Heq : forall (a : A) i v v1 v2,
     @apply_all A Z Z Empty_set AX (int_fill t) (int_fill_with t) no_weighted (reaching a i ops) v = Val v1 ->
     @apply_all A Z Z Empty_set AX (int_fill t) (int_fill_with t) no_weighted (reaching a i ops') v = Val v2 -> v1 = v2).
  { intros a i v v1 v2 H1 H2. pose proof (reaching_perm a i ops ops' Hp) as Hq.
    destruct (reaching a i ops) as [|o l].
    - apply Permutation_nil in Hq. rewrite Hq in H2. injection H1 as <-. injection H2 as <-. reflexivity.
    - assert (Hne : reaching a i ops' <> []).
      { intros He. rewrite He in Hq. apply Permutation_sym, Permutation_nil in Hq. discriminate. }
      apply Hval in H1; [|discriminate]. apply Hval in H2; [|exact Hne]. rewrite <- (Htot _ _ Hq) in H2.
      destruct (@overflow_checks B); congruence. }
  split; intros h h1 h2 H1 H2.
  - destruct (vec_calls_inv _ _ _ H1) as [Ha [Hl [_ Hv]]], (vec_calls_inv _ _ _ H2) as [Ha' [Hl' [_ Hv']]].
    destruct h1 as [a1 l1], h2 as [a2 l2]. cbn [vh_axes vh_values] in *. subst a1 a2. f_equal.
    apply nth_error_ext_len; [congruence|]. intros i w Hw.
    destruct (nth_error_lt (vh_values h) i) as [v Hv0]; [apply nth_error_some_lt in Hw; lia|].
    rewrite <- (Nat2N.id i) in Hv0. destruct (Hv _ v Hv0) as [v1 [E1 E2]]. destruct (Hv' _ v Hv0) as [v2 [E3 E4]].
    rewrite Nat2N.id in E1, E3. rewrite (Heq _ _ _ _ _ E2 E4) in *. congruence.
  - destruct (hash_calls_inv _ _ _ H1) as [Ha [_ Hv]], (hash_calls_inv _ _ _ H2) as [Ha' [_ Hv']].
    destruct h1 as [a1 l1], h2 as [a2 l2]. cbn [hh_axes hh_values] in *. subst a1 a2. f_equal.
    apply map_eq. intros i. destruct (Hv i) as [Hn Hs], (Hv' i) as [Hn' Hs'].
    pose proof (reaching_perm (hh_axes h) i ops ops' Hp) as Hq.
    destruct (reaching (hh_axes h) i ops) as [|o l] eqn:E.
    + apply Permutation_nil in Hq. rewrite (Hn eq_refl). symmetry. apply Hn'. exact Hq.
    + destruct Hs as [v1 [E1 E2]]; [discriminate|]. destruct Hs' as [v2 [E3 E4]].
      { intros He. rewrite He in Hq. apply Permutation_sym, Permutation_nil in Hq. discriminate. }
      rewrite <- E in E1. rewrite (Heq _ _ _ _ _ E1 E3) in *. congruence.
Qed.
Print Assumptions C34_int_sums_agree_when_no_panic.

(** A permuted history of i8 fills (weights 3, 1, 100) over Category(5, 7). *)
Example C34_nonvacuous : forall B : Build,
  let ops := [@CallFillWith (Category Z) Z Empty_set (ex_axis B) 5%Z 3%Z; @CallFill _ Z Empty_set (ex_axis B) 7%Z;
              @CallFillWith (Category Z) Z Empty_set (ex_axis B) 5%Z 100%Z] in
  let ops' := [@CallFillWith (Category Z) Z Empty_set (ex_axis B) 5%Z 100%Z;
               @CallFillWith (Category Z) Z Empty_set (ex_axis B) 5%Z 3%Z; @CallFill _ Z Empty_set (ex_axis B) 7%Z] in
  primitive_int (signed 8) /\ Permutation ops ops' /\ (forall o, In o ops -> (0 <= amount o)%Z)
  /\ let h := mkVecHist (category_new [5; 7]%Z) [0; 0; 0]%Z in
     (forall i v, vec_value_at_index h i = Some v -> fits (signed 8) v)
     /\ @vec_calls _ Z Z Empty_set (ex_axis B) (int_fill (signed 8)) (int_fill_with (signed 8)) no_weighted h ops
        = Val (mkVecHist (category_new [5; 7]%Z) [103; 1; 0]%Z).
Proof.
  intros B ops ops'. split; [exists 8%Z; split; [lia | left; reflexivity]|].
  split; [eapply Permutation_trans; [apply perm_skip, perm_swap | apply perm_swap]|].
  split; [intros o [<-|[<-|[<-|[]]]]; vm_compute; discriminate|].
  split; [|destruct B as [[] []]; vm_compute; reflexivity].
  intros i v. unfold vec_value_at_index. cbn [vh_values].
  destruct (N.to_nat i) as [|[|[|[|n]]]]; cbn; intros [= <-]; vm_compute; split; discriminate.
Qed.
