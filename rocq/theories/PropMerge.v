(** * Property theorems: conservation and merging (C35, C36). *)
From stdpp Require Import gmap.
From Coq Require Import ZifyN ZifyNat Lia.
From Verif Require Import Base BaseFacts Num Axis Spec IntFacts AxesSpec Category Value VecHist HashHist HistSpec
  HistFacts HashFacts OpsFacts PropCategory PropHist PropHistIter PropOrder.
Open Scope N_scope.

(** ** C35 *)

(** The sum of a list of integers. *)
Definition sumZ (l : list Z) : Z := fold_right Z.add 0%Z l.

(** The axes have a bin for the call's coordinate. *)
Definition covered {A D W} {AX : Axis A} (a : A) (o : fill_op D W) : bool :=
  match index a (op_coordinate o) with Val (Some _) => true | _ => false end.

Lemma sumZ_app l l' : sumZ (l ++ l') = (sumZ l + sumZ l')%Z.
Proof. unfold sumZ. induction l as [|x l IH]; cbn [app fold_right]; lia. Qed.

Lemma sumZ_perm l l' : Permutation l l' -> sumZ l = sumZ l'.
Proof. induction 1 as [|x l l' Hp IH|x y l|l l' l'' Hp1 IH1 Hp2 IH2]; unfold sumZ in *; cbn [fold_right]; lia. Qed.

Lemma sumZ_set_nth l i v v' : nth_error l i = Some v -> sumZ (set_nth i v' l) = (sumZ l - v + v')%Z.
Proof.
  revert i. induction l as [|x l IH]; intros [|i] Hi; try discriminate; cbn [set_nth]; unfold sumZ in *; cbn [fold_right].
  - injection Hi as ->. lia.
  - cbn in Hi. rewrite (IH i Hi). lia.
Qed.

Lemma sumZ_nonneg l : (forall v, In v l -> (0 <= v)%Z) -> forall v, In v l -> (v <= sumZ l)%Z.
Proof.
  unfold sumZ. induction l as [|x l IH]; intros Hn v Hv; [destruct Hv|]. cbn [fold_right].
  assert (H0 : forall l, (forall v, In v l -> (0 <= v)%Z) -> (0 <= fold_right Z.add 0 l)%Z).
  { clear. induction l as [|y l IH]; intros Hn; cbn [fold_right]; [lia|].
    pose proof (Hn y (or_introl eq_refl)). specialize (IH (fun v Hv => Hn v (or_intror Hv))). lia. }
  pose proof (Hn x (or_introl eq_refl)).
  specialize (H0 l (fun v Hv => Hn v (or_intror Hv))).
  destruct Hv as [->|Hv]; [lia|]. specialize (IH (fun v Hv => Hn v (or_intror Hv)) v Hv). lia.
Qed.

Lemma sumZ_repeat n : sumZ (repeat 0%Z n) = 0%Z.
Proof. unfold sumZ. induction n; cbn [repeat fold_right]; lia. Qed.

(** Sum of the values of a finite map. *)
Definition map_sum (m : gmap N Z) : Z := sumZ (map snd (map_to_list m)).

Lemma map_sum_order m order : an_order m order -> sumZ (hash_values order) = map_sum m.
Proof. intros Ho. unfold map_sum, hash_values. apply sumZ_perm. apply Permutation_map. exact Ho. Qed.

Lemma map_sum_empty : map_sum ∅ = 0%Z.
Proof. reflexivity. Qed.

Lemma map_sum_insert_new (m : gmap N Z) i v : m !! i = None -> map_sum (<[i := v]> m) = (map_sum m + v)%Z.
Proof.
  intros Hi. unfold map_sum. rewrite (sumZ_perm _ (map snd ((i, v) :: map_to_list m))).
  - cbn [map snd]. unfold sumZ. cbn [fold_right]. lia.
  - apply Permutation_map. apply map_to_list_insert. exact Hi.
Qed.

Lemma map_sum_insert (m : gmap N Z) i v : map_sum (<[i := v]> m) = (map_sum m - match m !! i with Some x => x | None => 0 end + v)%Z.
Proof.
  destruct (m !! i) as [x|] eqn:E.
  - rewrite <- (insert_id m i x E) at 2. rewrite <- insert_delete_insert.
    rewrite <- (insert_delete_insert m i x).
    rewrite !map_sum_insert_new by apply lookup_delete. lia.
  - rewrite map_sum_insert_new by exact E. lia.
Qed.

Lemma map_value_in (m : gmap N Z) i v : m !! i = Some v -> In v (map snd (map_to_list m)).
Proof.
  intros Hm. apply elem_of_list_In. apply elem_of_list_fmap. exists (i, v). split; [reflexivity|].
  apply elem_of_map_to_list. exact Hm.
Qed.

Section Conserve.
Context {B : Build} (t : int_type) {A : Type} {AX : Axis A}.
Notation op := (fill_op (AX := AX) Z Empty_set).
Notation call := (@vec_call A Z Z Empty_set AX (int_fill t) (int_fill_with t) no_weighted).
Notation hcall := (@hash_call A Z Z Empty_set AX (int_fill t) (int_fill_with t) no_weighted (int_default t)).

Definition covered_amount (a : A) (o : op) : Z := if covered a o then amount o else 0%Z.

Lemma vec_call_sum (h h' : VecHistogram A Z) (o : op) :
  (forall c i, index (vh_axes h) c = Val (Some i) -> i < N.of_nat (length (vh_values h))) ->
  (forall v v', In v (vh_values h) -> int_result t (v + amount o) = Val v' -> v' = (v + amount o)%Z) ->
  call h o = Val h' ->
  sumZ (vh_values h') = (sumZ (vh_values h) + covered_amount (vh_axes h) o)%Z.
Proof.
  intros Hix Hex Hc. rewrite vec_call_spec in Hc. unfold covered_amount, covered.
  destruct (index (vh_axes h) (op_coordinate o)) as [[i|]|] eqn:E; [| |discriminate].
  - destruct (nth_error (vh_values h) (N.to_nat i)) as [v|] eqn:Ev.
    + apply obind_val in Hc as [v' [Hv Hc]]. injection Hc as <-. cbn [vh_values].
      rewrite int_effect in Hv. rewrite (sumZ_set_nth _ _ _ _ Ev).
      rewrite (Hex v v' (nth_error_In _ _ Ev) Hv). lia.
    + apply nth_error_None in Ev. specialize (Hix _ _ E). lia.
  - injection Hc as <-. lia.
Qed.

Lemma hash_call_sum (h h' : HashHistogram A Z) (o : op) :
  (forall v v', v = 0%Z \/ In v (map snd (map_to_list (hh_values h))) -> int_result t (v + amount o) = Val v' ->
     v' = (v + amount o)%Z) ->
  hcall h o = Val h' ->
  map_sum (hh_values h') = (map_sum (hh_values h) + covered_amount (hh_axes h) o)%Z.
Proof.
  intros Hex Hc. rewrite hash_call_spec in Hc. unfold covered_amount, covered.
  destruct (index (hh_axes h) (op_coordinate o)) as [[i|]|] eqn:E; [| |discriminate].
  - apply obind_val in Hc as [v' [Hv Hc]]. injection Hc as <-. cbn [hh_values].
    rewrite int_effect in Hv. rewrite map_sum_insert.
    assert (Hv' : v' = (or_default (DV := int_default t) (hh_values h !! i) + amount o)%Z).
    { apply Hex; [|exact Hv]. destruct (hh_values h !! i) as [x|] eqn:Ex; [right; exact (map_value_in _ _ _ Ex) | left; reflexivity]. }
    rewrite Hv'. unfold or_default. destruct (hh_values h !! i); cbn [default_v int_default num_default n_zero int_ops]; lia.
  - injection Hc as <-. lia.
Qed.
End Conserve.

(** In builds with overflow checks: whatever was filled, the bins add up to the
    total weight of the calls the axes cover (flow bins included). *)
Theorem C35_no_entry_lost :
  forall (B : Build) (t : int_type) A (AX : Axis A) (a : A) (n : N) (ops : list (fill_op Z Empty_set)),
  overflow_checks = true ->
  num_bins a = Val n -> (forall c i, index a c = Val (Some i) -> i < n) ->
  (forall h0 h : VecHistogram A Z, @vec_new A Z AX (int_default t) a = Val h0 ->
     @vec_calls A Z Z Empty_set AX (int_fill t) (int_fill_with t) no_weighted h0 ops = Val h ->
     sumZ (vec_values h) = sumZ (map amount (List.filter (covered a) ops)))
  /\ (forall (h : HashHistogram A Z) order,
     @hash_calls A Z Z Empty_set AX (int_fill t) (int_fill_with t) no_weighted (int_default t) (hash_new a) ops = Val h ->
     an_order (hh_values h) order ->
     sumZ (hash_values order) = sumZ (map amount (List.filter (covered a) ops))).
Proof.
  intros B t A AX a n ops Hc Hn Hix.
  assert (Hfilter : forall l : list (fill_op Z Empty_set),
     sumZ (map amount (List.filter (covered a) l)) = sumZ (map (covered_amount a) l)).
  { unfold sumZ, covered_amount. induction l as [|o l IH]; [reflexivity|]. cbn [List.filter map fold_right].
    destruct (covered a o); cbn [map fold_right]; lia. }
  rewrite Hfilter.
  assert (Hex : forall z v', int_result t z = Val v' -> v' = z).
  { intros z v' Hr. apply int_result_checked in Hr as [-> _]; [reflexivity | exact Hc]. }
  split.
  - intros h0 h Hnew Hcalls. unfold vec_new in Hnew. rewrite Hn in Hnew. cbn [obind] in Hnew. injection Hnew as <-.
    assert (Hgen : forall l (h0 : VecHistogram A Z), vh_axes h0 = a -> length (vh_values h0) = N.to_nat n ->
      @vec_calls A Z Z Empty_set AX (int_fill t) (int_fill_with t) no_weighted h0 l = Val h ->
      sumZ (vh_values h) = (sumZ (vh_values h0) + sumZ (map (covered_amount a) l))%Z).
    { clear Hcalls. induction l as [|o l IH]; intros h0 Ha Hl Hr; unfold vec_calls in Hr; cbn [foldo] in Hr.
      - injection Hr as <-. unfold sumZ at 3. cbn. lia.
      - apply obind_val in Hr as [h1 [H1 Hr]]. destruct (vec_call_axes _ _ _ H1) as [Ha1 Hl1].
        rewrite (IH h1) by (congruence || exact Hr).
        rewrite (vec_call_sum t h0 h1 o).
        + rewrite Ha. cbn [map]. unfold sumZ at 4. cbn [fold_right]. unfold sumZ. lia.
        + rewrite Ha, Hl. intros c i Hi. specialize (Hix c i Hi). lia.
        + intros v v' _ Hv. apply Hex. exact Hv.
        + exact H1. }
    specialize (Hgen ops _ (eq_refl : vh_axes (mkVecHist a (repeat 0%Z (N.to_nat n))) = a)
                  (repeat_length 0%Z (N.to_nat n)) Hcalls).
    unfold vec_values. rewrite Hgen. cbn [vh_values]. rewrite sumZ_repeat. lia.
  - intros h order Hcalls Ho. rewrite (map_sum_order _ _ Ho).
    assert (Hgen : forall l (h0 : HashHistogram A Z), hh_axes h0 = a ->
      @hash_calls A Z Z Empty_set AX (int_fill t) (int_fill_with t) no_weighted (int_default t) h0 l = Val h ->
      map_sum (hh_values h) = (map_sum (hh_values h0) + sumZ (map (covered_amount a) l))%Z).
    { clear Hcalls. induction l as [|o l IH]; intros h0 Ha Hr; unfold hash_calls in Hr; cbn [foldo] in Hr.
      - injection Hr as <-. unfold sumZ. cbn. lia.
      - apply obind_val in Hr as [h1 [H1 Hr]]. pose proof (hash_call_axes _ _ _ H1) as Ha1.
        rewrite (IH h1) by (congruence || exact Hr).
        rewrite (hash_call_sum t h0 h1 o).
        + rewrite Ha. cbn [map]. unfold sumZ. cbn [fold_right]. lia.
        + intros v v' _ Hv. apply Hex. exact Hv.
        + exact H1. }
    rewrite (Hgen ops (hash_new a) eq_refl Hcalls). cbn [hh_values hash_new]. rewrite map_sum_empty. lia.
Qed.
Print Assumptions C35_no_entry_lost.

(** In any build, for counting: as long as the number of fills fits the bin
    type, the bins add up to the number of covered fills (and filling never
    panics in the bin value, see C51). *)
Theorem C35_counts_conserved :
  forall (B : Build) (t : int_type) A (AX : Axis A) (a : A) (n : N) (cs : list (@Coordinate A AX)),
  primitive_int t -> (Z.of_nat (length cs) <= int_max t)%Z ->
  num_bins a = Val n -> (forall c i, index a c = Val (Some i) -> i < n) ->
  let ops := map (CallFill (D := Z) (W := Empty_set)) cs in
  let count := Z.of_nat (length (List.filter (covered a) ops)) in
  (forall h0 h : VecHistogram A Z, @vec_new A Z AX (int_default t) a = Val h0 ->
     @vec_calls A Z Z Empty_set AX (int_fill t) (int_fill_with t) no_weighted h0 ops = Val h ->
     sumZ (vec_values h) = count)
  /\ (forall (h : HashHistogram A Z) order,
     @hash_calls A Z Z Empty_set AX (int_fill t) (int_fill_with t) no_weighted (int_default t) (hash_new a) ops = Val h ->
     an_order (hh_values h) order ->
     sumZ (hash_values order) = count).
Proof.
  intros B t A AX a n cs Ht Hmax Hn Hix ops count. pose proof (primitive_bounds t Ht) as Hb.
  assert (Hcov : forall (c : @Coordinate A AX), covered_amount a (CallFill (D := Z) (W := Empty_set) c)
                  = if covered a (CallFill (D := Z) (W := Empty_set) c) then 1%Z else 0%Z).
  { intros c. unfold covered_amount. reflexivity. }
  assert (Hfilter : forall l : list (@Coordinate A AX),
     Z.of_nat (length (List.filter (covered a) (map (CallFill (D := Z) (W := Empty_set)) l)))
     = sumZ (map (fun c => covered_amount a (CallFill (D := Z) (W := Empty_set) c)) l)).
  { unfold sumZ. induction l as [|o l IH]; [reflexivity|]. cbn [List.filter map fold_right]. rewrite Hcov.
    destruct (covered a (CallFill o)); cbn [length]; lia. }
  split.
  - intros h0 h Hnew Hcalls. unfold vec_new in Hnew. rewrite Hn in Hnew. cbn [obind] in Hnew. injection Hnew as <-.
    assert (Hgen : forall l (h0 : VecHistogram A Z), vh_axes h0 = a -> length (vh_values h0) = N.to_nat n ->
      (forall v, In v (vh_values h0) -> (0 <= v)%Z) ->
      (sumZ (vh_values h0) + Z.of_nat (length l) <= int_max t)%Z ->
      @vec_calls A Z Z Empty_set AX (int_fill t) (int_fill_with t) no_weighted h0 (map (CallFill (D := Z) (W := Empty_set)) l) = Val h ->
      sumZ (vh_values h) = (sumZ (vh_values h0) + sumZ (map (fun c => covered_amount a (CallFill (D := Z) (W := Empty_set) c)) l))%Z).
    { clear Hcalls. induction l as [|o l IH]; intros h0 Ha Hl Hpos Hle Hr; unfold vec_calls in Hr; cbn [foldo map] in Hr.
      - injection Hr as <-. unfold sumZ at 3. cbn. lia.
      - apply obind_val in Hr as [h1 [H1 Hr]]. destruct (vec_call_axes _ _ _ H1) as [Ha1 Hl1].
        assert (Hex : forall v v', In v (vh_values h0) -> int_result t (v + 1) = Val v' -> v' = (v + 1)%Z).
        { intros v v' Hv Hr'. pose proof (sumZ_nonneg _ Hpos v Hv). pose proof (Hpos v Hv). cbn [length] in Hle.
          rewrite int_result_ok in Hr'; [congruence|]. unfold fits. lia. }
        assert (Hs1 : sumZ (vh_values h1) = (sumZ (vh_values h0) + covered_amount a (CallFill (D := Z) (W := Empty_set) o))%Z).
        { rewrite <- Ha. apply (vec_call_sum t h0 h1 (CallFill o)); [|exact Hex | exact H1].
          rewrite Ha, Hl. intros c i Hi. specialize (Hix c i Hi). lia. }
        rewrite (IH h1); [| congruence | congruence | | |exact Hr].
        + rewrite Hs1. cbn [map]. unfold sumZ. cbn [fold_right]. lia.
        + intros v Hv. apply In_nth_error in Hv as [k Hk].
          destruct (nth_error_lt (vh_values h0) k) as [v0 Hv0]; [apply nth_error_some_lt in Hk; lia|].
          pose proof (vec_call_value h0 h1 (CallFill o) (N.of_nat k) v0 H1) as Hcv. rewrite Nat2N.id in Hcv.
          destruct (Hcv Hv0) as [v' [Hk' He]]. rewrite Hk in Hk'. injection Hk' as <-.
          pose proof (Hpos v0 (nth_error_In _ _ Hv0)).
          destruct (lands_in (vh_axes h0) (N.of_nat k) (CallFill o)).
          * rewrite int_effect in He. cbn [amount] in He. apply Hex in He; [lia | exact (nth_error_In _ _ Hv0)].
          * injection He as <-. assumption.
        + rewrite Hs1. rewrite Hcov. cbn [length] in Hle. destruct (covered a (CallFill o)); lia. }
    unfold vec_values. unfold count, ops. rewrite Hfilter.
    specialize (Hgen cs _ (eq_refl : vh_axes (mkVecHist a (repeat 0%Z (N.to_nat n))) = a)
                  (repeat_length 0%Z (N.to_nat n))).
    cbn [vh_values] in Hgen. rewrite sumZ_repeat in Hgen.
    apply Hgen; [|lia | exact Hcalls]. intros v Hv. apply repeat_spec in Hv. lia.
  - intros h order Hcalls Ho. rewrite (map_sum_order _ _ Ho).
    assert (Hgen : forall l (h0 : HashHistogram A Z), hh_axes h0 = a ->
      (forall i v, hh_values h0 !! i = Some v -> (0 <= v)%Z) ->
      (map_sum (hh_values h0) + Z.of_nat (length l) <= int_max t)%Z ->
      @hash_calls A Z Z Empty_set AX (int_fill t) (int_fill_with t) no_weighted (int_default t) h0 (map (CallFill (D := Z) (W := Empty_set)) l) = Val h ->
      map_sum (hh_values h) = (map_sum (hh_values h0) + sumZ (map (fun c => covered_amount a (CallFill (D := Z) (W := Empty_set) c)) l))%Z).
    { clear Hcalls. induction l as [|o l IH]; intros h0 Ha Hpos Hle Hr; unfold hash_calls in Hr; cbn [foldo map] in Hr.
      - injection Hr as <-. unfold sumZ. cbn. lia.
      - apply obind_val in Hr as [h1 [H1 Hr]]. pose proof (hash_call_axes _ _ _ H1) as Ha1.
        assert (Hpos' : forall v, In v (map snd (map_to_list (hh_values h0))) -> (0 <= v)%Z).
        { intros v Hv. apply in_map_iff in Hv as [[i w] [<- Hv]]. apply elem_of_list_In, elem_of_map_to_list in Hv.
          exact (Hpos _ _ Hv). }
        assert (H0 : (0 <= map_sum (hh_values h0))%Z).
        { unfold map_sum. clear - Hpos'. induction (map snd (map_to_list (hh_values h0))) as [|x l IH]; [cbn; lia|].
          pose proof (Hpos' x (or_introl eq_refl)). specialize (IH (fun v Hv => Hpos' v (or_intror Hv))).
          unfold sumZ in *. cbn [fold_right]. lia. }
        assert (Hex : forall v v', v = 0%Z \/ In v (map snd (map_to_list (hh_values h0))) -> int_result t (v + 1) = Val v' -> v' = (v + 1)%Z).
        { intros v v' Hv Hr'. cbn [length] in Hle. rewrite int_result_ok in Hr'; [congruence|]. unfold fits.
          destruct Hv as [->|Hv]; [lia|]. pose proof (sumZ_nonneg _ Hpos' v Hv). pose proof (Hpos' v Hv).
          unfold map_sum in Hle. lia. }
        assert (Hs1 : map_sum (hh_values h1) = (map_sum (hh_values h0) + covered_amount a (CallFill (D := Z) (W := Empty_set) o))%Z).
        { rewrite <- Ha. apply (hash_call_sum t h0 h1 (CallFill o)); [exact Hex | exact H1]. }
        rewrite (IH h1); [| congruence | | |exact Hr].
        + rewrite Hs1. cbn [map]. unfold sumZ. cbn [fold_right]. lia.
        + intros i v Hv. pose proof (hash_call_value h0 h1 (CallFill o) i H1) as Hcv.
          destruct (lands_in (hh_axes h0) i (CallFill o)).
          * destruct Hcv as [v' [He Hl]]. rewrite Hv in Hl. injection Hl as <-.
            rewrite int_effect in He. cbn [amount] in He. unfold or_default in He.
            destruct (hh_values h0 !! i) as [x|] eqn:Ex.
            -- pose proof (Hpos i x Ex). apply Hex in He; [lia | right; exact (map_value_in _ _ _ Ex)].
            -- apply Hex in He; [cbn in He; lia | left; reflexivity].
          * rewrite Hcv in Hv. exact (Hpos i v Hv).
        + rewrite Hs1. rewrite Hcov. cbn [length] in Hle. destruct (covered a (CallFill o)); lia. }
    unfold count, ops. rewrite Hfilter.
    rewrite (Hgen cs (hash_new a) eq_refl); [cbn [hh_values hash_new]; rewrite map_sum_empty; lia | | | exact Hcalls].
    + intros i v Hv. cbn [hh_values hash_new] in Hv. rewrite lookup_empty in Hv. discriminate.
    + cbn [hh_values hash_new]. rewrite map_sum_empty. lia.
Qed.
Print Assumptions C35_counts_conserved.

(** ** C36 *)

(** What is asked of the bin value's addition: adding the default changes
    nothing and additions may be regrouped (when none of them panics); [P]
    describes the bin values that can occur. *)
Record additive {A V D W} {AX : Axis A} {FV : Fill V} {FD : FillWith V D} {FW : FillWithWeighted V D W}
  {DV : Default V} (add : V -> V -> outcome V) (contribution : fill_op D W -> V) (P : V -> Prop) : Prop := {
  ad_effect : forall o v, op_effect o v = add v (contribution o);
  ad_default : P default_v;
  ad_keeps : forall o v v', P v -> add v (contribution o) = Val v' -> P v';
  ad_zero_r : forall v, P v -> add v default_v = Val v;
  ad_zero_l : forall v, P v -> add default_v v = Val v;
  ad_assoc : forall x y o xy yz r, P x -> P y -> add x y = Val xy -> add y (contribution o) = Val yz ->
               add xy (contribution o) = Val r -> add x yz = Val r
}.

(** The heart of the matter: it is enough that, bin by bin, adding the two
    filled values gives the value filled with both. *)
Lemma merge_core
  A V D W (AX : Axis A) (AE : AxisEq A) (FV : Fill V) (FD : FillWith V D) (FW : FillWithWeighted V D W)
         (DV : Default V) (add : V -> V -> outcome V)
         (a a2 : A) (opsA opsB : list (fill_op D W)) :
  (forall i va vb r,
     apply_all (reaching a i opsA) default_v = Val va -> apply_all (reaching a i opsB) default_v = Val vb ->
     apply_all (reaching a i opsA ++ reaching a i opsB) default_v = Val r -> add va vb = Val r) ->
  axis_eqb a a2 = true -> num_bins a = num_bins a2 -> (forall c, index a c = index a2 c) ->
  (forall h0 h0' h1 h2 h : VecHistogram A V,
     vec_new a = Val h0 -> vec_calls h0 opsA = Val h1 ->
     vec_new a2 = Val h0' -> vec_calls h0' opsB = Val h2 ->
     vec_calls h0 (opsA ++ opsB) = Val h ->
     vec_binop_borrowed add h1 h2 = Val (Ok h) /\ vec_binop_owned add h1 h2 = Val (Ok h)
     /\ vec_binop_assign add h1 h2 = Val h)
  /\ (forall (h1 h2 h : HashHistogram A V) keys order,
     hash_calls (hash_new a) opsA = Val h1 -> hash_calls (hash_new a2) opsB = Val h2 ->
     hash_calls (hash_new a) (opsA ++ opsB) = Val h ->
     NoDup keys -> (forall i, i ∈ keys <-> is_Some (hash_value_at_index h1 i) \/ is_Some (hash_value_at_index h2 i)) ->
     an_order (hash_as_map h2) order ->
     hash_binop_borrowed add h1 h2 keys = Val (Ok h) /\ hash_binop_owned add h1 h2 order = Val (Ok h)
     /\ hash_binop_assign add h1 h2 order = Val h).
Proof.
  intros Hsum Hax Hnb Hix.
  assert (Hreach : forall i l, reaching a2 i l = reaching (D := D) (W := W) a i l).
  { intros i l. unfold reaching. apply List.filter_ext. intros o. unfold lands_in. rewrite Hix. reflexivity. }
  assert (Happ : forall i, reaching a i (opsA ++ opsB) = reaching a i opsA ++ reaching a i opsB).
  { intros i. unfold reaching. apply List.filter_app. }
  split.
  - intros h0 h0' h1 h2 h Hn HA Hn' HB HAB.
    unfold vec_new in Hn, Hn'. apply obind_val in Hn as [n [Hn E]]. injection E as <-.
    rewrite <- Hnb, Hn in Hn'. cbn [obind] in Hn'. injection Hn' as <-.
    destruct (vec_calls_inv _ _ _ HA) as [A1 [A2 [_ A3]]], (vec_calls_inv _ _ _ HB) as [B1 [B2 [_ B3]]],
      (vec_calls_inv _ _ _ HAB) as [C1 [C2 [_ C3]]]. cbn [vh_axes vh_values] in *.
    rewrite repeat_length in A2, B2, C2.
    assert (Hz : zip_assign add (vh_values h1) (vh_values h2) = Val (vh_values h)).
    { apply zip_assign_intro; [congruence | congruence |]. intros i x y Hx Hy.
      assert (Hi : nth_error (repeat (default_v (V := V)) (N.to_nat n)) (N.to_nat (N.of_nat i)) = Some default_v).
      { apply nth_error_repeat_lt. rewrite Nat2N.id. apply nth_error_some_lt in Hx. lia. }
      destruct (A3 _ _ Hi) as [va [Ea1 Ea2]], (B3 _ _ Hi) as [vb [Eb1 Eb2]], (C3 _ _ Hi) as [r [Er1 Er2]].
      rewrite Nat2N.id in Ea1, Eb1, Er1. rewrite Hx in Ea1. rewrite Hy in Eb1. injection Ea1 as <-. injection Eb1 as <-.
      exists r. split; [|exact Er1]. rewrite Hreach in Eb2. rewrite Happ in Er2. eapply Hsum; eassumption. }
    unfold vec_binop_borrowed, vec_binop_owned, vec_binop_assign. rewrite A1, B1, Hax. cbn [negb].
    rewrite <- zip_assign_combine by congruence. rewrite Hz. cbn [obind].
    destruct h as [ah vh]. cbn [vh_axes vh_values] in *. subst ah. auto.
  - intros h1 h2 h keys order HA HB HAB Hnd Hkeys Ho.
    destruct (hash_calls_inv _ _ _ HA) as [A1 [_ A3]], (hash_calls_inv _ _ _ HB) as [B1 [_ B3]],
      (hash_calls_inv _ _ _ HAB) as [C1 [_ C3]]. cbn [hh_axes hh_values hash_new] in *.
    unfold hash_value_at_index, hash_as_map in *.
    assert (Hbin : forall i,
       match hh_values h1 !! i, hh_values h2 !! i with
       | None, None => hh_values h !! i = None
       | x, y => exists r, add (or_default x) (or_default y) = Val r /\ hh_values h !! i = Some r
       end).
    { intros i. destruct (A3 i) as [An As], (B3 i) as [Bn Bs], (C3 i) as [Cn Cs].
      rewrite !lookup_empty in *. rewrite Hreach in Bn, Bs. rewrite Happ in Cn, Cs. cbn [or_default] in *.
      destruct (reaching a i opsA) as [|oA lA] eqn:EA; destruct (reaching a i opsB) as [|oB lB] eqn:EB.
      - rewrite (An eq_refl), (Bn eq_refl). apply Cn. reflexivity.
      - rewrite (An eq_refl). destruct Bs as [vb [Eb1 Eb2]]; [discriminate|]. rewrite Eb2.
        destruct Cs as [r [Er1 Er2]]; [discriminate|]. exists r. split; [|exact Er2].
        apply (Hsum i); rewrite ?EA, ?EB; [reflexivity | exact Eb1 | exact Er1].
      - rewrite (Bn eq_refl). destruct As as [va [Ea1 Ea2]]; [discriminate|]. rewrite Ea2.
        destruct Cs as [r [Er1 Er2]]; [discriminate|]. exists r. split; [|exact Er2].
        apply (Hsum i); rewrite ?EA, ?EB; [exact Ea1 | reflexivity | exact Er1].
      - destruct As as [va [Ea1 Ea2]]; [discriminate|]. destruct Bs as [vb [Eb1 Eb2]]; [discriminate|].
        rewrite Ea2, Eb2. destruct Cs as [r [Er1 Er2]]; [discriminate|]. exists r. split; [|exact Er2].
        apply (Hsum i); rewrite ?EA, ?EB; [exact Ea1 | exact Eb1 | exact Er1]. }
    destruct h as [ah mh]. cbn [hh_axes hh_values] in *. subst ah.
    assert (Hm : hash_merge_loop add (hh_values h1) order = Val mh).
    { eapply merge_loop_intro; [exact Ho| |].
      - intros i v Hv. specialize (Hbin i). rewrite Hv in Hbin. destruct (hh_values h1 !! i); exact Hbin.
      - intros i Hi. specialize (Hbin i). rewrite Hi in Hbin. destruct (hh_values h1 !! i) as [x|] eqn:E; [|exact Hbin].
        destruct Hbin as [r [Er1 Er2]].
        destruct (A3 i) as [An As], (B3 i) as [Bn Bs], (C3 i) as [Cn Cs].
        rewrite lookup_empty in *. rewrite Hreach in Bs. rewrite Happ in Cn, Cs. cbn [or_default] in *.
        destruct (reaching a i opsB) as [|oB lB]; [|destruct Bs as [vb [_ Eb]]; [discriminate | congruence]].
        rewrite app_nil_r in Cn, Cs. destruct (reaching a i opsA) as [|oA lA]; [rewrite (An eq_refl) in E; discriminate|].
        destruct As as [va [Ea1 Ea2]]; [discriminate|]. destruct Cs as [r' [Er3 Er4]]; [discriminate|]. congruence. }
    rewrite <- A1. split; [|split].
    + apply borrowed_intro; [exact Hnd | congruence | |].
      * intros i Hi. apply Hkeys in Hi. specialize (Hbin i). unfold pair_op.
        destruct (hh_values h1 !! i); destruct (hh_values h2 !! i); try exact Hbin.
        destruct Hi as [[? Hi]|[? Hi]]; discriminate.
      * intros i Hi. rewrite Hkeys in Hi. specialize (Hbin i).
        destruct (hh_values h1 !! i); [exfalso; apply Hi; left; eauto|].
        destruct (hh_values h2 !! i); [exfalso; apply Hi; right; eauto|]. exact Hbin.
    + unfold hash_binop_owned. rewrite A1, B1, Hax. cbn [negb]. rewrite Hm. reflexivity.
    + unfold hash_binop_assign. rewrite A1, B1, Hax. cbn [negb]. rewrite Hm. reflexivity.
Qed.

(** If one histogram holds history [opsA] and another, over equal axes, holds
    [opsB], all three forms of addition give the histogram holding [opsA]
    followed by [opsB]; for sparse histograms whatever the hash orders. *)
Theorem C36_merge_is_combined_history :
  forall A V D W (AX : Axis A) (AE : AxisEq A) (FV : Fill V) (FD : FillWith V D) (FW : FillWithWeighted V D W)
         (DV : Default V) (add : V -> V -> outcome V) (contribution : fill_op D W -> V) (P : V -> Prop)
         (a a2 : A) (opsA opsB : list (fill_op D W)),
  additive add contribution P ->
  axis_eqb a a2 = true -> num_bins a = num_bins a2 -> (forall c, index a c = index a2 c) ->
  (forall h0 h0' h1 h2 h : VecHistogram A V,
     vec_new a = Val h0 -> vec_calls h0 opsA = Val h1 ->
     vec_new a2 = Val h0' -> vec_calls h0' opsB = Val h2 ->
     vec_calls h0 (opsA ++ opsB) = Val h ->
     vec_binop_borrowed add h1 h2 = Val (Ok h) /\ vec_binop_owned add h1 h2 = Val (Ok h)
     /\ vec_binop_assign add h1 h2 = Val h)
  /\ (forall (h1 h2 h : HashHistogram A V) keys order,
     hash_calls (hash_new a) opsA = Val h1 -> hash_calls (hash_new a2) opsB = Val h2 ->
     hash_calls (hash_new a) (opsA ++ opsB) = Val h ->
     NoDup keys -> (forall i, i ∈ keys <-> is_Some (hash_value_at_index h1 i) \/ is_Some (hash_value_at_index h2 i)) ->
     an_order (hash_as_map h2) order ->
     hash_binop_borrowed add h1 h2 keys = Val (Ok h) /\ hash_binop_owned add h1 h2 order = Val (Ok h)
     /\ hash_binop_assign add h1 h2 order = Val h).
Proof.
  intros A V D W AX AE FV FD FW DV add contribution P a a2 opsA opsB [Heff Hdef Hkeep Hzr Hzl Hassoc] Hax Hnb Hix.
  assert (HP : forall (l : list (fill_op D W)) v v', P v -> apply_all l v = Val v' -> P v').
  { induction l as [|o l IH]; intros v v' Hv Hr; unfold apply_all in *; cbn [foldo] in Hr; [congruence|].
    apply obind_val in Hr as [w [Hw Hr]]. rewrite Heff in Hw. eapply IH; [|exact Hr]. eapply Hkeep; eassumption. }
  assert (Hsum : forall (lA lB : list (fill_op D W)) va vb r,
     apply_all lA default_v = Val va -> apply_all lB default_v = Val vb -> apply_all (lA ++ lB) default_v = Val r ->
     add va vb = Val r).
  { intros lA lB. induction lB as [|o lB IH] using rev_ind; intros va vb r HA HB HR.
    - rewrite app_nil_r in HR. injection HB as <-. rewrite HA in HR. injection HR as <-.
      apply Hzr. eapply HP; eassumption.
    - rewrite app_assoc, apply_all_app in HR. apply obind_val in HR as [r0 [HR0 HR]].
      rewrite apply_all_app in HB. apply obind_val in HB as [vb0 [HB0 HB]].
      specialize (IH va vb0 r0 HA HB0 HR0).
      unfold apply_all in HR, HB. cbn [foldo] in HR, HB.
      apply obind_val in HR as [r1 [HR E1]]. injection E1 as ->. apply obind_val in HB as [vb1 [HB E1]]. injection E1 as ->.
      rewrite Heff in HR, HB. eapply Hassoc; [| | exact IH | exact HB | exact HR].
      + eapply HP; [exact Hdef | exact HA].
      + eapply HP; [exact Hdef | exact HB0]. }
  apply merge_core; [|assumption..]. intros i. apply Hsum.
Qed.
Print Assumptions C36_merge_is_combined_history.

(** Integer addition satisfies the laws in every build, so integer histograms
    merge exactly. *)
Theorem C36_integer_addition_merges :
  forall (B : Build) (t : int_type) A (AX : Axis A), primitive_int t ->
  @additive A Z Z Empty_set AX (int_fill t) (int_fill_with t) no_weighted (int_default t)
    (@n_add Z (int_ops t)) amount (fits t).
Proof.
  intros B t A AX Ht. pose proof (primitive_nonempty t Ht) as Hb. pose proof (primitive_bounds t Ht) as H0.
  constructor.
  - intros o v. rewrite int_effect. reflexivity.
  - unfold fits. cbn. lia.
  - intros o v v' _. cbn [n_add int_ops]. apply int_result_fits. exact Hb.
  - intros v Hv. cbn [n_add int_ops default_v int_default num_default n_zero]. rewrite Z.add_0_r. apply int_result_ok. exact Hv.
  - intros v Hv. cbn [n_add int_ops default_v int_default num_default n_zero]. rewrite Z.add_0_l. apply int_result_ok. exact Hv.
  - intros x y o xy yz r _ _. cbn [n_add int_ops]. destruct (@overflow_checks B) eqn:Hc.
    + intros H1 H2 H3. apply int_result_checked in H1 as [-> _], H2 as [-> _], H3 as [-> Hf]; try exact Hc.
      rewrite Z.add_assoc. apply int_result_ok. exact Hf.
    + rewrite !int_result_unchecked by assumption. intros [= <-] [= <-] [= <-].
      f_equal. rewrite (Z.add_comm x), !wrap_add by assumption. f_equal. lia.
Qed.
Print Assumptions C36_integer_addition_merges.

(** Two i32 histograms over Category(5, 7, 9): history A is two fills, history B
    two more, one of which hits the overflow bin. *)
Example C36_nonvacuous : forall B : Build,
  let opsA := [@CallFill _ Z Empty_set (ex_axis B) 7%Z; @CallFillWith _ Z Empty_set (ex_axis B) 5%Z 10%Z] in
  let opsB := [@CallFill _ Z Empty_set (ex_axis B) 7%Z; @CallFill _ Z Empty_set (ex_axis B) 1000%Z] in
  @axis_eqb _ ex_eq ex_cat ex_cat = true
  /\ exists h0 h1 h2,
     @vec_new _ _ (ex_axis B) (int_default (signed 32)) ex_cat = Val h0
     /\ @vec_calls _ _ _ _ (ex_axis B) (int_fill (signed 32)) (int_fill_with (signed 32)) no_weighted h0 opsA = Val h1
     /\ @vec_calls _ _ _ _ (ex_axis B) (int_fill (signed 32)) (int_fill_with (signed 32)) no_weighted h0 opsB = Val h2
     /\ @vec_calls _ _ _ _ (ex_axis B) (int_fill (signed 32)) (int_fill_with (signed 32)) no_weighted h0 (opsA ++ opsB)
        = Val (mkVecHist ex_cat [10; 2; 0; 1]%Z).
Proof.
  intros B opsA opsB. split; [reflexivity|].
  exists (mkVecHist ex_cat [0; 0; 0; 0]%Z), (mkVecHist ex_cat [10; 1; 0; 0]%Z), (mkVecHist ex_cat [0; 1; 0; 1]%Z).
  destruct B as [[] []]; vm_compute; repeat split.
Qed.

Example C35_nonvacuous : forall B : Build,
  num_bins (Axis := ex_axis B) ex_cat = Val 4
  /\ (forall c i, @index _ (ex_axis B) ex_cat c = Val (Some i) -> i < 4)
  /\ sumZ (vec_values (mkVecHist ex_cat [10; 2; 0; 1]%Z)) = sumZ (map amount (List.filter (covered ex_cat) (ex_ops B))).
Proof.
  intros B. destruct (C26_C33_nonvacuous B) as [H1 [_ [_ [_ [_ H2]]]]]. split; [exact H1|]. split; [exact H2|].
  destruct B as [[] []]; vm_compute; reflexivity.
Qed.
