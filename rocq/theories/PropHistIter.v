(** * Property theorems: iterating histograms (C31-C33), examples for C26-C33. *)
From stdpp Require Import gmap.
From Coq Require Import ZifyN ZifyNat.
From Verif Require Import Base BaseFacts Num Axis Uniform Category Axes AxesSpec AxesFacts
  PropAxes PropCategory Value VecHist HashHist HistSpec HistFacts HashFacts PropHist.
Open Scope N_scope.

(** ** C31 *)
Theorem C31_hash_keys_in_range :
  forall A V D W (AX : Axis A) (AE : AxisEq A) (FV : Fill V) (FD : FillWith V D)
         (FW : FillWithWeighted V D W) (DV : Default V) (ok : A -> Prop),
  eq_same_bins AX AE ->
  (forall a c i, ok a -> index a c = Val (Some i) -> exists n, num_bins a = Val n /\ i < n) ->
  forall h : HashHistogram A V, @hash_reachable A V D W AX AE FV FD FW DV ok h ->
  forall i v, hash_value_at_index h i = Some v -> exists n, num_bins (hh_axes h) = Val n /\ i < n.
Proof.
  intros A V D W AX AE FV FD FW DV ok Heq Hix h Hr.
  assert (HI : ok (hh_axes h) /\ forall i, is_Some (hh_values h !! i) -> exists n, num_bins (hh_axes h) = Val n /\ i < n).
  2:{ intros i v Hv. destruct HI as [_ HI]. apply HI. exists v. exact Hv. }
  induction Hr as [axes Hok | axes m h Hok Hn | h o h' _ IH Hc | h i r v _ IH Hm | h c r v _ IH Hm
    | h order f h' _ IH Ho Hm | h order f h' _ IH Ho Hm | op l r keys h' _ IHl _ IHr Hk Hb
    | op l r order h' _ IHl _ IHr Ho Hb | op l r order h' _ IHl _ IHr Ho Hb].
  - split; [exact Hok|]. cbn [hash_new hh_values]. intros i [v Hv]. rewrite lookup_empty in Hv. discriminate.
  - unfold hash_from_map in Hn. apply obind_val in Hn as [valid [Ef Hn]].
    destruct valid; [|discriminate].
    injection Hn as <-. split; [exact Hok|]. cbn [hh_axes hh_values]. intros i [v Hv].
    assert (Hi : In i (map fst (map_to_list m))).
    { apply in_map_iff. exists (i, v). split; [reflexivity|]. apply elem_of_list_In. now apply elem_of_map_to_list. }
    apply (proj1 (allo_true _ _) Ef) in Hi. apply obind_val in Hi as [n [En Hi]]. exists n. split; [exact En|].
    apply N.ltb_lt. injection Hi as Hi. exact Hi.
  - destruct IH as [Hok IH]. pose proof (hash_call_axes _ _ _ Hc) as Ha. rewrite Ha. split; [exact Hok|].
    intros i Hi. pose proof (hash_call_value _ _ _ i Hc) as Hv. destruct (lands_in (hh_axes h) i o) eqn:El.
    + apply lands_in_iff in El. eapply Hix; eauto.
    + rewrite Hv in Hi. auto.
  - destruct IH as [Hok IH]. unfold hash_value_at_index_mut in Hm.
    destruct (hh_values h !! i) as [w|] eqn:Ew; [|discriminate]. injection Hm as <-.
    cbn [assign hh_axes hh_values]. split; [exact Hok|]. intros j Hj.
    destruct (decide (i = j)) as [->|Hne]; [apply IH; eauto|]. rewrite lookup_insert_ne in Hj by exact Hne. auto.
  - destruct IH as [Hok IH]. unfold hash_value_mut in Hm. apply obind_val in Hm as [[i|] [_ Hm]]; [|discriminate].
    injection Hm as Hm. unfold hash_value_at_index_mut in Hm.
    destruct (hh_values h !! i) as [w|] eqn:Ew; [|discriminate]. injection Hm as <-.
    cbn [assign hh_axes hh_values]. split; [exact Hok|]. intros j Hj.
    destruct (decide (i = j)) as [->|Hne]; [apply IH; eauto|]. rewrite lookup_insert_ne in Hj by exact Hne. auto.
  - destruct IH as [Hok IH]. unfold hash_values_mut in Hm. apply obind_val in Hm as [m [Hf Hm]]. injection Hm as <-.
    cbn [hh_axes hh_values]. split; [exact Hok|].
    pose proof (foldo_insert fst (fun p : N * V => f (snd p)) order (hh_values h) m (order_NoDup _ _ Ho) Hf) as [_ Hout].
    intros i Hi. destruct (decide (i ∈ map fst order)) as [Hin|Hnin].
    + apply IH. now apply (order_key _ order _ Ho).
    + rewrite (Hout i Hnin) in Hi. auto.
  - destruct IH as [Hok IH]. unfold hash_iter_mut in Hm. apply obind_val in Hm as [m [Hf Hm]]. injection Hm as <-.
    cbn [hh_axes hh_values]. split; [exact Hok|].
    rewrite (foldo_ext _ (fun (m : gmap N V) p =>
      let! v' := (let! ob := bin (hh_axes h) (fst p) in let! b := expect ob in f (fst p) b (snd p)) in
      Val (<[fst p := v']> m))) in Hf.
    2:{ intros s p. destruct (bin (hh_axes h) (fst p)) as [ob|]; [|reflexivity]. cbn [obind].
        destruct ob; reflexivity. }
    apply foldo_insert in Hf as [_ Hout]; [|exact (order_NoDup _ _ Ho)].
    intros i Hi. destruct (decide (i ∈ map fst order)) as [Hin|Hnin].
    + apply IH. now apply (order_key _ order _ Ho).
    + rewrite (Hout i Hnin) in Hi. auto.
  - destruct IHl as [Hok IHl], IHr as [_ IHr]. destruct (borrowed_keys _ _ _ _ _ Hb) as [Ha [Hax Hks]].
    rewrite Ha. split; [exact Hok|]. intros i Hi. apply Hks in Hi. apply Hk in Hi as [Hi|Hi]; [auto|].
    rewrite (Heq _ _ Hax). auto.
  - destruct IHl as [Hok IHl], IHr as [_ IHr]. unfold hash_binop_owned in Hb.
    destruct (axis_eqb (hh_axes l) (hh_axes r)) eqn:E; [|discriminate]. cbn [negb] in Hb.
    apply obind_val in Hb as [m [Hm Hb]]. injection Hb as <-. cbn [hh_axes hh_values]. split; [exact Hok|].
    destruct (merge_loop_spec _ _ _ _ (order_NoDup _ _ Ho) Hm) as [_ Hout].
    intros i Hi. destruct (decide (i ∈ map fst order)) as [Hin|Hnin].
    + rewrite (Heq _ _ E). apply IHr. now apply (order_key _ order _ Ho).
    + rewrite (Hout i Hnin) in Hi. auto.
  - destruct IHl as [Hok IHl], IHr as [_ IHr]. unfold hash_binop_assign in Hb.
    destruct (axis_eqb (hh_axes l) (hh_axes r)) eqn:E; [|discriminate]. cbn [negb] in Hb.
    apply obind_val in Hb as [m [Hm Hb]]. injection Hb as <-. cbn [hh_axes hh_values]. split; [exact Hok|].
    destruct (merge_loop_spec _ _ _ _ (order_NoDup _ _ Ho) Hm) as [_ Hout].
    intros i Hi. destruct (decide (i ∈ map fst order)) as [Hin|Hnin].
    + rewrite (Heq _ _ E). apply IHr. now apply (order_key _ order _ Ho).
    + rewrite (Hout i Hnin) in Hi. auto.
Qed.
Print Assumptions C31_hash_keys_in_range.

(** The iterators: every filled bin exactly once, with its bin and its value,
    whatever the hash order. *)
Theorem C31_hash_iter :
  forall A V (AX : Axis A) (h : HashHistogram A V) n order,
  has_bins AX (hh_axes h) n ->
  (forall i v, hash_value_at_index h i = Some v -> i < n) ->
  an_order (hh_values h) order ->
  exists items, hash_iter h order = Val items
    /\ NoDup (map it_index items)
    /\ (forall it, In it items -> bin (hh_axes h) (it_index it) = Val (Some (it_bin it))
                   /\ hash_value_at_index h (it_index it) = Some (it_value it))
    /\ (forall i v, hash_value_at_index h i = Some v -> exists b, In (mkItem i b v) items)
    /\ map it_value items = hash_values order.
Proof.
  intros A V AX h n order [_ Hb] Hk Ho.
  assert (Hgen : forall l : list (N * V), (forall p, p ∈ l -> p ∈ order) ->
    exists items, hash_iter h l = Val items /\ map it_index items = map fst l /\ map it_value items = map snd l
     /\ forall it, In it items -> (it_index it, it_value it) ∈ l /\ bin (hh_axes h) (it_index it) = Val (Some (it_bin it))).
  { induction l as [|[i v] l IH]; intros Hl.
    - exists []. split; [reflexivity|]. split; [reflexivity|]. split; [reflexivity|]. intros it [].
    - destruct IH as [items [E [E1 [E2 E3]]]]; [intros p Hp; apply Hl; now apply elem_of_list_further|].
      assert (Hi : i < n).
      { apply (Hk i v). apply (order_elem _ order _ _ Ho), Hl, elem_of_list_here. }
      destruct (Hb i Hi) as [b Hbi]. exists (mkItem i b v :: items).
      unfold hash_iter in *. cbn [mapo fst snd]. rewrite Hbi. cbn [obind expect]. rewrite E. cbn [obind].
      split; [reflexivity|]. cbn [map it_index it_value fst snd]. rewrite E1, E2. split; [reflexivity|].
      split; [reflexivity|]. intros it [<-|Hin].
      + split; [apply elem_of_list_here | exact Hbi].
      + destruct (E3 it Hin). split; [now apply elem_of_list_further | assumption]. }
  destruct (Hgen order (fun p Hp => Hp)) as [items [E [E1 [E2 E3]]]]. exists items.
  split; [exact E|]. split; [rewrite E1; exact (order_NoDup _ _ Ho)|]. split.
  - intros it Hin. destruct (E3 it Hin) as [Hel Hbin]. split; [exact Hbin|]. now apply (order_elem _ order _ _ Ho).
  - split; [|exact E2]. intros i v Hv. apply (order_elem _ order _ _ Ho) in Hv.
    assert (Hcomb : exists k, nth_error order k = Some (i, v)).
    { apply elem_of_list_In in Hv. now apply In_nth_error. }
    destruct Hcomb as [k Hkk].
    assert (H1 : nth_error (map it_index items) k = Some i) by (rewrite E1; rewrite nth_error_map, Hkk; reflexivity).
    assert (H2 : nth_error (map it_value items) k = Some v) by (rewrite E2; rewrite nth_error_map, Hkk; reflexivity).
    rewrite nth_error_map in H1, H2. destruct (nth_error items k) as [[i' b' v']|] eqn:Ei; [|discriminate].
    cbn in H1, H2. injection H1 as ->. injection H2 as ->. exists b'. eapply nth_error_In; eauto.
Qed.
Print Assumptions C31_hash_iter.

(** ** C32 *)
Theorem C32_vec_iter :
  forall A V (AX : Axis A) (h : VecHistogram A V) n,
  has_bins AX (vh_axes h) n -> N.of_nat (length (vec_values h)) = n ->
  exists items, vec_iter h = Val items
    /\ N.of_nat (length items) = n
    /\ (forall k it, nth_error items k = Some it ->
          it_index it = N.of_nat k
          /\ bin (vh_axes h) (N.of_nat k) = Val (Some (it_bin it))
          /\ vec_value_at_index h (N.of_nat k) = Some (it_value it))
    /\ map it_value items = vec_values h.
Proof.
  intros A V AX h n Hb Hl. unfold vec_values in *.
  destruct (vec_iter_spec h n Hb ltac:(lia)) as [items [E [E1 [E2 E3]]]]. exists items.
  split; [exact E|].
  assert (Hlen : length items = N.to_nat n) by (rewrite <- (map_length it_index), E1; apply range_length).
  split; [lia|]. split; [|exact E2]. intros k it Hk.
  assert (Hik : it_index it = N.of_nat k).
  { pose proof (nth_error_some_lt _ _ _ Hk) as Hlt.
    assert (H1 : nth_error (map it_index items) k = Some (it_index it)) by (rewrite nth_error_map, Hk; reflexivity).
    rewrite E1 in H1. pose proof (range_nth n (N.of_nat k) ltac:(lia)) as H2. rewrite Nat2N.id in H2. congruence. }
  split; [exact Hik|]. rewrite <- Hik. apply E3. eapply nth_error_In; eauto.
Qed.
Print Assumptions C32_vec_iter.

(** ** C33 *)

(** Dense [iter_mut]: returns iff every callback does; each bin value [v] becomes
    [f i bin v] of its original, once; nothing else changes. *)
Theorem C33_vec_iter_mut :
  forall A V (AX : Axis A) (h : VecHistogram A V) n f,
  has_bins AX (vh_axes h) n -> N.of_nat (length (vec_values h)) = n ->
  ((exists h', vec_iter_mut h f = Val h') <->
     forall i b v, bin (vh_axes h) i = Val (Some b) -> vec_value_at_index h i = Some v -> exists v', f i b v = Val v')
  /\ forall h', vec_iter_mut h f = Val h' ->
     vh_axes h' = vh_axes h /\ length (vec_values h') = length (vec_values h)
     /\ forall i b v, bin (vh_axes h) i = Val (Some b) -> vec_value_at_index h i = Some v ->
          exists v', f i b v = Val v' /\ vec_value_at_index h' i = Some v'.
Proof.
  intros A V AX h n f Hb Hl. unfold vec_values in *.
  destruct (axis_iter_spec AX _ _ Hb) as [l [H1 [_ [H3 H4]]]].
  assert (Hll : length l = N.to_nat n) by (rewrite <- (map_length fst), H3; apply range_length).
  assert (Hnth : forall k i b, nth_error l k = Some (i, b) -> i = N.of_nat k).
  { intros k i b Hk. assert (Hf : nth_error (map fst l) k = Some i) by (rewrite nth_error_map, Hk; reflexivity).
    pose proof (nth_error_some_lt _ _ _ Hk) as Hlt. rewrite H3 in Hf.
    pose proof (range_nth n (N.of_nat k) ltac:(lia)) as H2. rewrite Nat2N.id in H2. congruence. }
  assert (Hpos : forall i b v, bin (vh_axes h) i = Val (Some b) -> vec_value_at_index h i = Some v ->
             nth_error l (N.to_nat i) = Some (i, b)).
  { intros i b v Hbi Hv. unfold vec_value_at_index in Hv. pose proof (nth_error_some_lt _ _ _ Hv) as Hlt.
    destruct (nth_error_lt l (N.to_nat i) ltac:(lia)) as [[i' b'] Hk]. pose proof (Hnth _ _ _ Hk) as Hi'.
    rewrite N2Nat.id in Hi'. subst i'. pose proof (H4 i b' (nth_error_In _ _ Hk)). congruence. }
  unfold vec_iter_mut. rewrite H1. cbn [obind].
  assert (Hfwd : forall vs', zip_update f l (vh_values h) = Val vs' ->
     forall i b v, bin (vh_axes h) i = Val (Some b) -> vec_value_at_index h i = Some v ->
          exists v', f i b v = Val v' /\ nth_error vs' (N.to_nat i) = Some v').
  { intros vs' Hz i b v Hbi Hv. destruct (zip_update_spec _ _ _ _ Hz) as [_ Hz'].
    eapply Hz'; [eapply Hpos; eauto | exact Hv]. }
  split; [split|].
  - intros [h' Hm] i b v Hbi Hv. apply obind_val in Hm as [vs [Hz _]].
    destruct (Hfwd _ Hz i b v Hbi Hv) as [v' [Hf _]]. eauto.
  - intros Hf. destruct (zip_update_total f l (vh_values h)) as [vs ->]; [|cbn [obind]; eauto].
    intros k i b v Hk Hv. apply Hf; [apply H4; eapply nth_error_In; eauto|].
    rewrite (Hnth _ _ _ Hk). unfold vec_value_at_index. now rewrite Nat2N.id.
  - intros h' Hm. apply obind_val in Hm as [vs [Hz Hm]]. injection Hm as <-. cbn [vh_axes vh_values].
    split; [reflexivity|]. split; [exact (proj1 (zip_update_spec _ _ _ _ Hz))|]. exact (Hfwd _ Hz).
Qed.
Print Assumptions C33_vec_iter_mut.

Theorem C33_vec_values_mut :
  forall A V (AX : Axis A) (h : VecHistogram A V) f,
  ((exists h', vec_values_mut h f = Val h') <->
     forall i v, vec_value_at_index h i = Some v -> exists v', f v = Val v')
  /\ forall h', vec_values_mut h f = Val h' ->
     vh_axes h' = vh_axes h /\ length (vec_values h') = length (vec_values h)
     /\ forall i v, vec_value_at_index h i = Some v ->
          exists v', f v = Val v' /\ vec_value_at_index h' i = Some v'.
Proof.
  intros A V AX h f. unfold vec_values_mut, vec_value_at_index, vec_values.
  assert (Hfwd : forall vs', mapo f (vh_values h) = Val vs' -> forall i v, nth_error (vh_values h) i = Some v ->
            exists v', f v = Val v' /\ nth_error vs' i = Some v').
  { intros vs' Hm. apply mapo_inv in Hm. clear - Hm. induction Hm as [|x y l l' Hxy Hm IH]; intros [|i] v Hv; simpl in *; try discriminate.
    - injection Hv as <-. eauto.
    - eauto. }
  split; [split|].
  - intros [h' Hm] i v Hv. apply obind_val in Hm as [vs [Hz _]]. destruct (Hfwd _ Hz _ _ Hv) as [v' [Hf _]]. eauto.
  - intros Hf. assert (Hex : exists vs, mapo f (vh_values h) = Val vs).
    { assert (Hin : forall v, In v (vh_values h) -> exists v', f v = Val v').
      { intros v Hv. apply In_nth_error in Hv as [k Hk]. apply (Hf (N.of_nat k)). now rewrite Nat2N.id. }
      clear -Hin. induction (vh_values h) as [|x l IH]; [exists []; reflexivity|]. cbn [mapo].
      destruct (Hin x (or_introl eq_refl)) as [y ->]. cbn [obind].
      destruct IH as [ys ->]; [intros v Hv; apply Hin; now right|]. cbn [obind]. eauto. }
    destruct Hex as [vs ->]. cbn [obind]. eauto.
  - intros h' Hm. apply obind_val in Hm as [vs [Hz Hm]]. injection Hm as <-. cbn [vh_axes vh_values].
    split; [reflexivity|]. split; [exact (mapo_length _ _ _ Hz)|]. intros i v. exact (Hfwd _ Hz _ v).
Qed.
Print Assumptions C33_vec_values_mut.

(** Sparse, for every hash iteration order. *)
Theorem C33_hash_iter_mut :
  forall A V (AX : Axis A) (h : HashHistogram A V) n order f,
  has_bins AX (hh_axes h) n -> (forall i v, hash_value_at_index h i = Some v -> i < n) ->
  an_order (hh_values h) order ->
  ((exists h', hash_iter_mut h order f = Val h') <->
     forall i b v, bin (hh_axes h) i = Val (Some b) -> hash_value_at_index h i = Some v -> exists v', f i b v = Val v')
  /\ forall h', hash_iter_mut h order f = Val h' ->
     hh_axes h' = hh_axes h
     /\ (forall i, hash_value_at_index h i = None -> hash_value_at_index h' i = None)
     /\ forall i v, hash_value_at_index h i = Some v ->
          exists b v', bin (hh_axes h) i = Val (Some b) /\ f i b v = Val v' /\ hash_value_at_index h' i = Some v'.
Proof.
  intros A V AX h n order f [_ Hb] Hk Ho. unfold hash_value_at_index in *.
  set (g := fun p : N * V => let! ob := bin (hh_axes h) (fst p) in let! b := expect ob in f (fst p) b (snd p)).
  assert (Hext : hash_iter_mut h order f =
     let! m := foldo (fun (m : gmap N V) p => let! v' := g p in Val (<[fst p := v']> m)) order (hh_values h) in
     Val (mkHashHist (hh_axes h) m)).
  { unfold hash_iter_mut. f_equal. apply foldo_ext. intros s p. unfold g.
    destruct (bin (hh_axes h) (fst p)) as [ob|]; [|reflexivity]. cbn [obind]. destruct ob; reflexivity. }
  assert (Hg : forall i v, hh_values h !! i = Some v -> exists b, bin (hh_axes h) i = Val (Some b) /\ g (i, v) = f i b v).
  { intros i v Hv. destruct (Hb i (Hk i v Hv)) as [b Hbi]. exists b. split; [exact Hbi|].
    unfold g. cbn [fst snd]. rewrite Hbi. reflexivity. }
  pose proof (order_NoDup _ _ Ho) as Hnd.
  assert (Hfwd : forall m, foldo (fun (m : gmap N V) p => let! v' := g p in Val (<[fst p := v']> m)) order (hh_values h) = Val m ->
     forall i v, hh_values h !! i = Some v ->
     exists b v', bin (hh_axes h) i = Val (Some b) /\ f i b v = Val v' /\ m !! i = Some v').
  { intros m Hm i v Hv. destruct (foldo_insert fst g order _ m Hnd Hm) as [Hin _].
    destruct (Hin (i, v)) as [v' [Hg' Hl]]; [now apply (order_elem _ order _ _ Ho)|].
    destruct (Hg i v Hv) as [b [Hbi Hgb]]. cbn [fst] in Hl. exists b, v'. repeat split; congruence. }
  rewrite Hext. split; [split|].
  - intros [h' Hm] i b v Hbi Hv. apply obind_val in Hm as [m [Hm _]].
    destruct (Hfwd m Hm i v Hv) as [b' [v' [Hb' [Hf _]]]]. exists v'. congruence.
  - intros Hf. destruct (foldo_insert_total fst g order (hh_values h)) as [m ->]; [|cbn [obind]; eauto].
    intros [i v] Hp. apply (order_elem _ order _ _ Ho) in Hp. destruct (Hg i v Hp) as [b [Hbi ->]]. eauto.
  - intros h' Hm. apply obind_val in Hm as [m [Hm Hh]]. injection Hh as <-. cbn [hh_axes hh_values].
    split; [reflexivity|]. split; [|exact (Hfwd m Hm)].
    intros i Hi. destruct (foldo_insert fst g order _ m Hnd Hm) as [_ Hout]. rewrite Hout; [exact Hi|].
    rewrite (order_key _ order i Ho). rewrite Hi. intros [v Hv]. discriminate.
Qed.
Print Assumptions C33_hash_iter_mut.

Theorem C33_hash_values_mut :
  forall A V (AX : Axis A) (h : HashHistogram A V) order f,
  an_order (hh_values h) order ->
  ((exists h', hash_values_mut h order f = Val h') <->
     forall i v, hash_value_at_index h i = Some v -> exists v', f v = Val v')
  /\ forall h', hash_values_mut h order f = Val h' ->
     hh_axes h' = hh_axes h
     /\ (forall i, hash_value_at_index h i = None -> hash_value_at_index h' i = None)
     /\ forall i v, hash_value_at_index h i = Some v ->
          exists v', f v = Val v' /\ hash_value_at_index h' i = Some v'.
Proof.
  intros A V AX h order f Ho. unfold hash_value_at_index, hash_values_mut in *.
  pose proof (order_NoDup _ _ Ho) as Hnd. set (g := fun p : N * V => f (snd p)).
  assert (Hfwd : forall m, foldo (fun (m : gmap N V) p => let! v' := g p in Val (<[fst p := v']> m)) order (hh_values h) = Val m ->
     forall i v, hh_values h !! i = Some v -> exists v', f v = Val v' /\ m !! i = Some v').
  { intros m Hm i v Hv. destruct (foldo_insert fst g order _ m Hnd Hm) as [Hin _].
    apply (Hin (i, v)). now apply (order_elem _ order _ _ Ho). }
  split; [split|].
  - intros [h' Hm] i v Hv. apply obind_val in Hm as [m [Hm _]]. destruct (Hfwd m Hm i v Hv) as [v' [Hf _]]. eauto.
  - intros Hf. destruct (foldo_insert_total fst g order (hh_values h)) as [m Hm].
    + intros [i v] Hp. apply (order_elem _ order _ _ Ho) in Hp. unfold g. cbn [snd]. eauto.
    + unfold g in Hm. rewrite Hm. cbn [obind]. eauto.
  - intros h' Hm. apply obind_val in Hm as [m [Hm Hh]]. injection Hh as <-. cbn [hh_axes hh_values].
    split; [reflexivity|]. split; [|exact (Hfwd m Hm)].
    intros i Hi. destruct (foldo_insert fst g order _ m Hnd Hm) as [_ Hout]. rewrite Hout; [exact Hi|].
    rewrite (order_key _ order i Ho). rewrite Hi. intros [v Hv]. discriminate.
Qed.
Print Assumptions C33_hash_values_mut.

(** ** Concrete instances: i32 counts over Category(5, 7, 9) *)
Section Examples.
Definition ex_axis (B : Build) : Axis (Category Z) := category_axis.
Definition ex_eq : AxisEq (Category Z) := {| axis_eqb := category_eqb |}.
Definition ex_fill (B : Build) : Fill Z := num_fill (int_ops (signed 32)).
Definition ex_fill_with (B : Build) : FillWith Z Z := num_fill_with (int_ops (signed 32)).
Definition ex_weighted : FillWithWeighted Z Z Empty_set :=
  {| fill_with_weighted_v := fun (_ _ : Z) (w : Empty_set) => match w return outcome Z with end |}.
Definition ex_default : Default Z := {| default_v := 0%Z |}.
Definition ex_cat : Category Z := category_new [5; 7; 9]%Z.
Definition ex_ops (B : Build) : list (@fill_op (Category Z) Z Empty_set (ex_axis B)) :=
  [@CallFill _ Z Empty_set (ex_axis B) 7%Z;
   @CallFillWith _ Z Empty_set (ex_axis B) 5%Z 10%Z;
   @CallFill _ Z Empty_set (ex_axis B) 7%Z;
   @CallFill _ Z Empty_set (ex_axis B) 1000%Z].

Example C26_C33_nonvacuous : forall B : Build,
  num_bins (Axis := ex_axis B) ex_cat = Val 4
  /\ has_bins (ex_axis B) ex_cat 4
  /\ eq_same_bins (ex_axis B) ex_eq
  /\ (exists h0, @vec_new _ _ (ex_axis B) ex_default ex_cat = Val h0
      /\ @vec_calls _ _ _ _ (ex_axis B) (ex_fill B) (ex_fill_with B) ex_weighted h0 (ex_ops B)
         = Val (mkVecHist ex_cat [10; 2; 0; 1]%Z))
  /\ (exists h, @hash_calls _ _ _ _ (ex_axis B) (ex_fill B) (ex_fill_with B) ex_weighted ex_default
                 (hash_new ex_cat) (ex_ops B) = Val h
      /\ hash_value_at_index h 1 = Some 2%Z /\ hash_value_at_index h 2 = None
      /\ an_order (hh_values h) (map_to_list (hh_values h)))
  /\ (forall c i, @index _ (ex_axis B) ex_cat c = Val (Some i) -> i < 4).
Proof.
  intros B. split; [destruct B as [? []]; reflexivity|].
  split; [apply (C20_category_has_bins B Z _ [5; 7; 9]%Z); destruct B as [? []]; reflexivity|].
  split; [apply (eq_same_bins_category B Z _)|].
  split; [eexists; split; [destruct B as [? []]; reflexivity|]; destruct B as [[] []]; vm_compute; reflexivity|].
  split.
  { eexists. split; [destruct B as [[] []]; vm_compute; reflexivity|].
    split; [reflexivity|]. split; [reflexivity|]. apply Permutation_refl. }
  intros c i Hi. destruct (C17_category_index B Z _ [5; 7; 9]%Z c) as [j [Hj [Hle _]]].
  unfold ex_cat in Hi. cbn [index ex_axis category_axis] in Hi. rewrite Hj in Hi. injection Hi as <-.
  simpl in Hle. lia.
Qed.
End Examples.
