(** * Property theorems: totals in builds that wrap (C35), exactly when the sparse operators panic (C38). *)
From stdpp Require Import gmap.
From Coq Require Import ZifyN ZifyNat Lia.
From Verif Require Import Base BaseFacts Num Axis Spec IntFacts AxesSpec Category Value VecHist HashHist HistSpec
  HistFacts HashFacts OpsFacts PropCategory PropHist PropHistIter PropOrder PropMerge PropOps.
Open Scope N_scope.

(** ** C38: panics *)
Lemma all_return_or_panic {X Y} (f : X -> outcome Y) (l : list X) :
  (forall x, x ∈ l -> exists y, f x = Val y) \/ (exists x, x ∈ l /\ f x = Panic).
Proof.
  induction l as [|x l [IH|[x' [Hx' Hp]]]].
  - left. intros x Hx. inversion Hx.
  - destruct (f x) as [y|] eqn:E.
    + left. intros z Hz. apply elem_of_cons in Hz as [->|Hz]; eauto.
    + right. exists x. split; [apply elem_of_cons; left; reflexivity | exact E].
  - right. exists x'. split; [apply elem_of_cons; right; exact Hx' | exact Hp].
Qed.

(** The value a histogram's bin counts for in an operation: the default if it is missing. *)
Definition counts_for {A V} {DV : Default V} (h : HashHistogram A V) (i : N) : V :=
  match hash_value_at_index h i with Some v => v | None => default_v end.

(** C38: over equal axes the borrowing form panics exactly when the operation panics on some
    bin that either side holds; the owning and the assigning form exactly when it panics on
    some bin that the right side holds. *)
Theorem C38_sparse_operators_panic :
  forall A V (AX : Axis A) (AE : AxisEq A) (DV : Default V) (op : V -> V -> outcome V) (l r : HashHistogram A V) keys order,
  NoDup keys ->
  (forall i, i ∈ keys <-> is_Some (hash_value_at_index l i) \/ is_Some (hash_value_at_index r i)) ->
  an_order (hash_as_map r) order ->
  axis_eqb (hh_axes l) (hh_axes r) = true ->
  (hash_binop_borrowed op l r keys = Panic <->
     exists i, (is_Some (hash_value_at_index l i) \/ is_Some (hash_value_at_index r i))
               /\ op (counts_for l i) (counts_for r i) = Panic)
  /\ (hash_binop_owned op l r order = Panic <->
     exists i, is_Some (hash_value_at_index r i) /\ op (counts_for l i) (counts_for r i) = Panic)
  /\ (hash_binop_assign op l r order = Panic <->
     exists i, is_Some (hash_value_at_index r i) /\ op (counts_for l i) (counts_for r i) = Panic).
Proof.
  intros A V AX AE DV op l r keys order Hnd Hk Ho Hax.
  destruct (C38_sparse_operators A V AX AE DV op l r keys order Hnd Hk Ho) as [_ [Has H]]. destruct (H Hax) as [Hb [Hw _]]. clear H.
  assert (Hown : hash_binop_owned op l r order = Panic <->
     exists i, is_Some (hash_value_at_index r i) /\ op (counts_for l i) (counts_for r i) = Panic).
  { split.
    - intros Hp. destruct (all_return_or_panic (fun p : N * V => op (counts_for l (fst p)) (snd p)) order) as [Hall|[[i y] [Hiv Hop]]].
      + exfalso. destruct (merge_loop_total op order (hh_values l) (order_NoDup _ _ Ho)) as [m Hm].
        { intros i v Hiv. exact (Hall (i, v) Hiv). }
        revert Hp. unfold hash_binop_owned. rewrite Hax. cbn [negb]. rewrite Hm. discriminate.
      + cbn [fst snd] in Hop. apply (order_elem _ order _ _ Ho) in Hiv. change (hash_value_at_index r i = Some y) in Hiv.
        exists i. split; [rewrite Hiv; eauto|]. unfold counts_for at 2. rewrite Hiv. exact Hop.
    - intros [i [[y Hy] Hop]]. unfold counts_for in Hop. rewrite Hy in Hop.
      destruct (hash_binop_owned op l r order) as [[h|e]|] eqn:E; [| |reflexivity]; exfalso.
      + destruct (Hw h eq_refl) as [_ Hi]. specialize (Hi i). rewrite Hy in Hi.
        destruct (hash_value_at_index l i); destruct Hi as [z [Hz _]]; congruence.
      + revert E. unfold hash_binop_owned. rewrite Hax. cbn [negb]. destruct (hash_merge_loop _ _ _); discriminate. }
  split; [|split; [exact Hown|]].
  - split.
    + intros Hp. destruct (all_return_or_panic (fun i => op (counts_for l i) (counts_for r i)) keys) as [Hall|[i [Hi Hop]]].
      * exfalso.
        destruct (foldo_insert_total (fun i => i) (pair_op op (hh_values l) (hh_values r)) keys ∅) as [m' Hm'].
        { intros i Hi. destruct (Hall i Hi) as [v Hv]. apply Hk in Hi. unfold pair_op. unfold counts_for in Hv.
          change (hh_values l !! i) with (hash_value_at_index l i). change (hh_values r !! i) with (hash_value_at_index r i).
          destruct (hash_value_at_index l i), (hash_value_at_index r i); eauto. destruct Hi as [[? Hi]|[? Hi]]; discriminate. }
        revert Hp. unfold hash_binop_borrowed. rewrite Hax. cbn [negb]. unfold pair_op in Hm'. rewrite Hm'. discriminate.
      * exists i. split; [apply Hk; exact Hi | exact Hop].
    + intros [i [Hi Hop]]. unfold counts_for in Hop.
      destruct (hash_binop_borrowed op l r keys) as [[h|e]|] eqn:E; [| |reflexivity]; exfalso.
      * destruct (Hb h eq_refl) as [_ Hx]. specialize (Hx i).
        destruct (hash_value_at_index l i), (hash_value_at_index r i); first [destruct Hx as [z [Hz _]]; congruence | idtac].
        destruct Hi as [[? Hi]|[? Hi]]; discriminate.
      * revert E. unfold hash_binop_borrowed. rewrite Hax. cbn [negb]. destruct (foldo _ _ _); discriminate.
  - rewrite Has, <- Hown. unfold assigned. destruct (hash_binop_owned op l r order) as [[h|e]|] eqn:E; split; try discriminate; try reflexivity.
    intros _. exfalso. revert E. unfold hash_binop_owned. rewrite Hax. cbn [negb]. destruct (hash_merge_loop _ _ _); discriminate.
Qed.
Print Assumptions C38_sparse_operators_panic.

(** ** C35: totals in every build *)

(** The number of values of an integer type: 2^8 for [u8] and [i8], ... *)
Definition int_span (t : int_type) : Z := (int_max t - int_min t + 1)%Z.

Section Conserve.
Context {B : Build} (t : int_type) {A : Type} {AX : Axis A}.
Notation op := (fill_op (AX := AX) Z Empty_set).
Notation call := (@vec_call A Z Z Empty_set AX (int_fill t) (int_fill_with t) no_weighted).
Notation hcall := (@hash_call A Z Z Empty_set AX (int_fill t) (int_fill_with t) no_weighted (int_default t)).

Lemma int_result_mod z v : int_result t z = Val v -> exists k, v = (z + k * int_span t)%Z.
Proof.
  unfold int_result. destruct (in_range t z); [intros [= <-]; exists 0%Z; lia|].
  destruct overflow_checks; [discriminate|]. intros [= <-]. unfold wrap, int_span.
  exists (- ((z - int_min t) / (int_max t - int_min t + 1)))%Z.
  destruct (Z.eq_dec (int_max t - int_min t + 1)%Z 0%Z) as [E|E]; [rewrite E, Zmod_0_r; lia|].
  pose proof (Z.div_mod (z - int_min t)%Z (int_max t - int_min t + 1)%Z E). lia.
Qed.

Lemma vec_call_sum_mod (h h' : VecHistogram A Z) (o : op) :
  (forall c i, index (vh_axes h) c = Val (Some i) -> i < N.of_nat (length (vh_values h))) ->
  call h o = Val h' ->
  exists k, sumZ (vh_values h') = (sumZ (vh_values h) + covered_amount (vh_axes h) o + k * int_span t)%Z.
Proof.
  intros Hix Hc. rewrite vec_call_spec in Hc. unfold covered_amount, covered.
  destruct (index (vh_axes h) (op_coordinate o)) as [[i|]|] eqn:E; [| |discriminate].
  - destruct (nth_error (vh_values h) (N.to_nat i)) as [v|] eqn:Ev.
    + apply obind_val in Hc as [v' [Hv Hc]]. injection Hc as <-. cbn [vh_values].
      rewrite int_effect in Hv. rewrite (sumZ_set_nth _ _ _ _ Ev).
      destruct (int_result_mod _ _ Hv) as [k ->]. exists k. lia.
    + apply nth_error_None in Ev. specialize (Hix _ _ E). lia.
  - injection Hc as <-. exists 0%Z. lia.
Qed.

Lemma hash_call_sum_mod (h h' : HashHistogram A Z) (o : op) : hcall h o = Val h' ->
  exists k, map_sum (hh_values h') = (map_sum (hh_values h) + covered_amount (hh_axes h) o + k * int_span t)%Z.
Proof.
  intros Hc. rewrite hash_call_spec in Hc. unfold covered_amount, covered.
  destruct (index (hh_axes h) (op_coordinate o)) as [[i|]|] eqn:E; [| |discriminate].
  - apply obind_val in Hc as [v' [Hv Hc]]. injection Hc as <-. cbn [hh_values].
    rewrite int_effect in Hv. rewrite map_sum_insert. destruct (int_result_mod _ _ Hv) as [k ->]. exists k.
    unfold or_default. destruct (hh_values h !! i); cbn [default_v int_default num_default n_zero int_ops]; lia.
  - injection Hc as <-. exists 0%Z. lia.
Qed.
End Conserve.

(** C35, every build and any weights: the bins add up to the total weight of the calls the
    axes cover, modulo the number of values of the bin type.  (With overflow checks exactly:
    [C35_no_entry_lost].) *)
Theorem C35_no_entry_lost_modular :
  forall (B : Build) (t : int_type) A (AX : Axis A) (a : A) (n : N) (ops : list (fill_op Z Empty_set)),
  num_bins a = Val n -> (forall c i, index a c = Val (Some i) -> i < n) ->
  let total := sumZ (map amount (List.filter (covered a) ops)) in
  (forall h0 h : VecHistogram A Z, @vec_new A Z AX (int_default t) a = Val h0 ->
     @vec_calls A Z Z Empty_set AX (int_fill t) (int_fill_with t) no_weighted h0 ops = Val h ->
     exists k, sumZ (vec_values h) = (total + k * int_span t)%Z)
  /\ (forall (h : HashHistogram A Z) order,
     @hash_calls A Z Z Empty_set AX (int_fill t) (int_fill_with t) no_weighted (int_default t) (hash_new a) ops = Val h ->
     an_order (hh_values h) order ->
     exists k, sumZ (hash_values order) = (total + k * int_span t)%Z).
Proof.
  intros B t A AX a n ops Hn Hix total.
  assert (Hfilter : forall l : list (fill_op Z Empty_set),
     sumZ (map amount (List.filter (covered a) l)) = sumZ (map (covered_amount a) l)).
  { unfold sumZ, covered_amount. induction l as [|o l IH]; [reflexivity|]. cbn [List.filter map fold_right].
    destruct (covered a o); cbn [map fold_right]; lia. }
  unfold total. rewrite Hfilter. clear total.
  split.
  - intros h0 h Hnew Hcalls. unfold vec_new in Hnew. rewrite Hn in Hnew. cbn [obind] in Hnew. injection Hnew as <-.
    assert (Hgen : forall l (h0 : VecHistogram A Z), vh_axes h0 = a -> length (vh_values h0) = N.to_nat n ->
      @vec_calls A Z Z Empty_set AX (int_fill t) (int_fill_with t) no_weighted h0 l = Val h ->
      exists k, sumZ (vh_values h) = (sumZ (vh_values h0) + sumZ (map (covered_amount a) l) + k * int_span t)%Z).
    { clear Hcalls. induction l as [|o l IH]; intros h0 Ha Hl Hr; unfold vec_calls in Hr; cbn [foldo] in Hr.
      - injection Hr as <-. exists 0%Z. unfold sumZ at 3. cbn. lia.
      - apply obind_val in Hr as [h1 [H1 Hr]]. destruct (vec_call_axes _ _ _ H1) as [Ha1 Hl1].
        destruct (IH h1 ltac:(congruence) ltac:(congruence) Hr) as [k1 Hk1].
        destruct (vec_call_sum_mod t h0 h1 o) as [k2 Hk2]; [|exact H1|].
        { rewrite Ha, Hl. intros c i Hi. specialize (Hix c i Hi). lia. }
        exists (k1 + k2)%Z. rewrite Hk1, Hk2, Ha. cbn [map].
        change (sumZ (covered_amount a o :: map (covered_amount a) l)) with (covered_amount a o + sumZ (map (covered_amount a) l))%Z. lia. }
    destruct (Hgen ops _ (eq_refl : vh_axes (mkVecHist a (repeat 0%Z (N.to_nat n))) = a)
                  (repeat_length 0%Z (N.to_nat n)) Hcalls) as [k Hk].
    exists k. unfold vec_values. rewrite Hk. cbn [vh_values]. rewrite sumZ_repeat. lia.
  - intros h order Hcalls Ho. rewrite (map_sum_order _ _ Ho).
    assert (Hgen : forall l (h0 : HashHistogram A Z), hh_axes h0 = a ->
      @hash_calls A Z Z Empty_set AX (int_fill t) (int_fill_with t) no_weighted (int_default t) h0 l = Val h ->
      exists k, map_sum (hh_values h) = (map_sum (hh_values h0) + sumZ (map (covered_amount a) l) + k * int_span t)%Z).
    { clear Hcalls. induction l as [|o l IH]; intros h0 Ha Hr; unfold hash_calls in Hr; cbn [foldo] in Hr.
      - injection Hr as <-. exists 0%Z. unfold sumZ. cbn. lia.
      - apply obind_val in Hr as [h1 [H1 Hr]]. pose proof (hash_call_axes _ _ _ H1) as Ha1.
        destruct (IH h1 ltac:(congruence) Hr) as [k1 Hk1]. destruct (hash_call_sum_mod t h0 h1 o H1) as [k2 Hk2].
        exists (k1 + k2)%Z. rewrite Hk1, Hk2, Ha. cbn [map].
        change (sumZ (covered_amount a o :: map (covered_amount a) l)) with (covered_amount a o + sumZ (map (covered_amount a) l))%Z. lia. }
    destruct (Hgen ops (hash_new a) eq_refl Hcalls) as [k Hk]. exists k. rewrite Hk. cbn [hh_values hash_new]. rewrite map_sum_empty. lia.
Qed.
Print Assumptions C35_no_entry_lost_modular.

(** Non-vacuity: an [i8] bin filled with 100 twice reads -56 = 200 - 256 where overflow wraps. *)
Example C35_modular_nonvacuous : forall B : Build, overflow_checks = false ->
  exists h0 h, @vec_new _ Z (ex_axis B) (int_default (signed 8)) (category_new [7%Z]) = Val h0
  /\ @vec_calls _ Z Z Empty_set (ex_axis B) (int_fill (signed 8)) (int_fill_with (signed 8)) no_weighted h0
       [CallFillWith (AX := ex_axis B) (7%Z : @Coordinate _ (ex_axis B)) 100%Z; CallFillWith (AX := ex_axis B) (7%Z : @Coordinate _ (ex_axis B)) 100%Z] = Val h
  /\ vec_values h = [-56; 0]%Z /\ int_span (signed 8) = 256%Z.
Proof.
  intros B HB. destruct B as [oc w]. cbn in HB. subst oc. eexists. eexists.
  split; [destruct w; vm_compute; reflexivity|]. split; [destruct w; vm_compute; reflexivity|]. split; vm_compute; reflexivity.
Qed.
