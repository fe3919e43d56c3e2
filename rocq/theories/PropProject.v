(** * C67: sums over groups of bins; projections of N-dimensional histograms. *)
From stdpp Require Import gmap.
From Coq Require Import ZifyN ZifyNat Lia Reals.
From Flocq Require Import Core IEEE754.BinarySingleNaN.
From Verif Require Import Base BaseFacts Num Uniform Axis Spec IntFacts Axes AxesSpec AxesFacts AxesMacro Category Value VecHist HashHist
  HistSpec HistFacts HashFacts OpsFacts PropCategory PropAxes PropHist PropHistIter PropOrder PropMerge PropIntBins Macros Float ExactSpec PropCount.
Open Scope N_scope.

(** ** Specification *)

(** The call's coordinate is in one of the chosen bins. *)
Definition lands_among {A D W} {AX : Axis A} (a : A) (chosen : N -> bool) (o : fill_op D W) : bool :=
  match index a (op_coordinate o) with Val (Some i) => chosen i | _ => false end.

(** Bin number [k] of a grid with [ns] bins per axis lies in slice [j] of axis [p]:
    the digit of [k] at position [p] of the mixed radix is [j]. *)
Definition in_slice (ns : list N) (p : nat) (j k : N) : bool :=
  match nth_error ns p with
  | Some n => (k / product (firstn p ns)) mod n =? j
  | None => false
  end.

(** The call with only part of its coordinate. *)
Definition project {A A' D W} {AX : Axis A} {AX' : Axis A'} (proj : @Coordinate A AX -> @Coordinate A' AX')
  (o : @fill_op A D W AX) : @fill_op A' D W AX' :=
  match o with
  | CallFill c => CallFill (proj c)
  | CallFillWith c d => CallFillWith (proj c) d
  | CallFillWithWeighted c d w => CallFillWithWeighted (proj c) d w
  end.

(** ** Any group of bins *)

Lemma sumZ_zero {X} (l : list X) : sumZ (map (fun _ => 0%Z) l) = 0%Z.
Proof. unfold sumZ. induction l; cbn [map fold_right]; lia. Qed.

Lemma sumZ_pick (keys : list N) j w : NoDup keys ->
  sumZ (map (fun i => if j =? i then w else 0%Z) keys) = (if decide (j ∈ keys) then w else 0)%Z.
Proof.
  induction keys as [|k keys IH]; intros Hnd; [reflexivity|]. apply NoDup_cons in Hnd as [Hk Hnd].
  cbn [map]. unfold sumZ in *. cbn [fold_right]. rewrite (IH Hnd).
  destruct (N.eqb_spec j k) as [->|Hne].
  - destruct (decide (k ∈ keys)); [contradiction|]. destruct (decide (k ∈ k :: keys)) as [|Hn]; [lia|].
    exfalso. apply Hn. left.
  - destruct (decide (j ∈ keys)) as [i|n], (decide (j ∈ k :: keys)) as [i'|n']; try lia.
    + exfalso. apply n'. right. exact i.
    + exfalso. apply n. apply elem_of_cons in i' as [->|i']; [congruence|exact i'].
Qed.

Section Groups.
Context {A : Type} {AX : Axis A} (a : A).
Notation op := (@fill_op A Z Empty_set AX).

(** Adding up what reached each key, over a duplicate-free list of keys holding the
    chosen bins that were reached and no other bin that was reached. *)
Lemma group_total (keys : list N) (chosen : N -> bool) (ops : list op) : NoDup keys ->
  (forall o i, In o ops -> index a (op_coordinate o) = Val (Some i) -> (i ∈ keys <-> chosen i = true)) ->
  sumZ (map (fun i => PropIntBins.total (reaching a i ops)) keys) = sumZ (map amount (List.filter (lands_among a chosen) ops)).
Proof.
  intros Hnd. induction ops as [|o ops IH]; intros Hin.
  - unfold reaching, PropIntBins.total. cbn. apply sumZ_zero.
  - assert (Hstep : sumZ (map (fun i => PropIntBins.total (reaching a i (o :: ops))) keys)
       = (sumZ (map (fun i => PropIntBins.total (reaching a i ops)) keys)
          + sumZ (map (fun i => if lands_in a i o then amount o else 0) keys))%Z).
    { clear. induction keys as [|k keys IH]; [reflexivity|]. cbn [map]. unfold sumZ in *. cbn [fold_right]. rewrite IH.
      unfold reaching, PropIntBins.total. cbn [List.filter]. destruct (lands_in a k o); unfold sumZ; cbn [map fold_right]; lia. }
    rewrite Hstep, IH by (intros; eapply Hin; [right; eassumption | eassumption]).
    cbn [List.filter]. specialize (Hin o). unfold lands_in, lands_among at 2.
    destruct (index a (op_coordinate o)) as [[j|]|] eqn:E; [|rewrite sumZ_zero; lia|rewrite sumZ_zero; lia].
    rewrite sumZ_pick by exact Hnd. specialize (Hin j (or_introl eq_refl) eq_refl).
    destruct (decide (j ∈ keys)) as [i|n]; destruct (chosen j); unfold sumZ; cbn [map fold_right]; try lia.
    + apply Hin in i. discriminate.
    + exfalso. apply n, Hin. reflexivity.
Qed.
End Groups.

Lemma filter_map_comm {X Y} (f : X -> Y) (p : Y -> bool) l : List.filter p (map f l) = map f (List.filter (fun x => p (f x)) l).
Proof. induction l as [|x l IH]; [reflexivity|]. cbn [map List.filter]. rewrite IH. destruct (p (f x)); reflexivity. Qed.
Lemma NoDup_filter {X} (p : X -> bool) (l : list X) : NoDup l -> NoDup (List.filter p l).
Proof.
  induction 1 as [|x l Hx Hl IH]; cbn [List.filter]; [constructor|]. destruct (p x); [|exact IH]. constructor; [|exact IH].
  intros H. apply Hx. apply elem_of_list_In, filter_In in H as [H _]. apply elem_of_list_In. exact H.
Qed.

(** Take any set of bins.  The values that iteration reports for those bins add up
    to the total of the calls whose coordinate is in one of them: dense and sparse
    (where bins that were never reached do not appear at all). *)
Theorem C67_groups_of_bins :
  forall (B : Build) (t : int_type) A (AX : Axis A) (a : A) (n : N) (ops : list (fill_op Z Empty_set)) (chosen : N -> bool),
  primitive_int t -> overflow_checks = true ->
  has_bins AX a n -> (forall o i, In o ops -> index a (op_coordinate o) = Val (Some i) -> i < n) ->
  (forall h0 h : VecHistogram A Z, @vec_new A Z AX (int_default t) a = Val h0 -> int_vec_calls t h0 ops = Val h ->
     exists items, vec_iter h = Val items
     /\ sumZ (map it_value (List.filter (fun it => chosen (it_index it)) items))
        = sumZ (map amount (List.filter (lands_among a chosen) ops)))
  /\ (forall (h : HashHistogram A Z) order, int_hash_calls t (hash_new a) ops = Val h -> an_order (hh_values h) order ->
     exists items, hash_iter h order = Val items
     /\ sumZ (map it_value (List.filter (fun it => chosen (it_index it)) items))
        = sumZ (map amount (List.filter (lands_among a chosen) ops))).
Proof.
  intros B t A AX a n ops chosen Ht Hc Hb Hix. split.
  - intros h0 h Hnew Hr.
    destruct (C51_checked_dense B t A AX a h0 ops Ht Hc Hnew) as [Hv _].
    destruct (vec_calls_inv _ _ _ Hr) as [Ha [Hl _]].
    unfold vec_new in Hnew. rewrite (proj1 Hb) in Hnew. cbn [obind] in Hnew. injection Hnew as <-. cbn [vh_values vh_axes] in *.
    rewrite repeat_length in Hl.
    destruct (C32_vec_iter A Z AX h n) as (items & Hit & Hlen & Hk & _).
    { rewrite Ha. exact Hb. }
    { unfold vec_values. lia. }
    exists items. split; [exact Hit|].
    assert (Hval : forall it, In it items -> it_value it = PropIntBins.total (reaching a (it_index it) ops)).
    { intros it Hin. apply In_nth_error in Hin as [k Hn]. destruct (Hk k it Hn) as (-> & _ & Hvk).
      specialize (Hv h (N.of_nat k) Hr). rewrite Hvk in Hv. injection (Hv ltac:(unfold vec_value_at_index; cbn [vh_values];
        rewrite Nat2N.id, nth_error_repeat_lt; [discriminate|apply nth_error_some_lt in Hn; lia])) as ->. reflexivity. }
    assert (Hidx : map it_index items = range n).
    { apply nth_error_ext_len.
      - unfold range. rewrite !map_length, seq_length. lia.
      - intros k x Hx. rewrite nth_error_map in Hx. destruct (nth_error items k) as [it|] eqn:En; [|discriminate].
        injection Hx as <-. destruct (Hk k it En) as (-> & _). apply nth_error_some_lt in En. unfold range.
        rewrite nth_error_map, (nth_error_nth' _ 0%nat) by (rewrite seq_length; lia). rewrite seq_nth by lia. reflexivity. }
    rewrite (map_ext_in it_value (fun it => PropIntBins.total (reaching a (it_index it) ops))).
    2:{ intros it Hin. apply filter_In in Hin as [Hin _]. apply Hval. exact Hin. }
    rewrite <- (map_map it_index (fun i => PropIntBins.total (reaching a i ops))).
    rewrite <- filter_map_comm, Hidx. apply group_total.
    + apply NoDup_filter. unfold range. apply NoDup_ListNoDup, FinFun.Injective_map_NoDup; [intros x y; apply Nat2N.inj|]. apply seq_NoDup.
    + intros o i Hino Hi. apply (Hix o i Hino) in Hi. rewrite elem_of_list_In, filter_In. split; [tauto|]. intros Hch. split; [|exact Hch].
      unfold range. apply in_map_iff. exists (N.to_nat i). split; [apply N2Nat.id|]. apply in_seq. lia.
  - intros h order Hr Ho.
    destruct (C51_checked_sparse B t A AX a ops Ht Hc) as [Hv _].
    assert (Ha : hh_axes h = a).
    { clear -Hr. assert (G : forall l h0, int_hash_calls t h0 l = Val h -> hh_axes h = hh_axes h0).
      { induction l as [|o l IH]; intros h0 H; unfold hash_calls in H; cbn [foldo] in H; [injection H as <-; reflexivity|].
        apply obind_val in H as [h1 [H1 H2]]. rewrite (IH _ H2). exact (hash_call_axes _ _ _ H1). }
      exact (G _ _ Hr). }
    assert (Hreach : forall i, reaching a i ops <> [] -> i < n).
    { intros i Hne. destruct (reaching a i ops) as [|o l] eqn:E; [congruence|].
      assert (Hin : In o (reaching a i ops)) by (rewrite E; left; reflexivity).
      apply filter_In in Hin as [Hin Hl]. unfold lands_in in Hl.
      destruct (index a (op_coordinate o)) as [[j|]|] eqn:Ei; try discriminate. apply N.eqb_eq in Hl as ->. exact (Hix _ _ Hin Ei). }
    destruct (C31_hash_iter A Z AX h n order) as (items & Hit & Hnd & Hin & Hex & _).
    { rewrite Ha. exact Hb. }
    { intros i v Hi. rewrite (Hv h i Hr) in Hi. destruct (decide (reaching a i ops = [])) as [|Hne]; [discriminate|]. exact (Hreach i Hne). }
    { exact Ho. }
    exists items. split; [exact Hit|].
    assert (Hval : forall it, In it items -> it_value it = PropIntBins.total (reaching a (it_index it) ops)).
    { intros it Hi. destruct (Hin it Hi) as [_ Hvi]. rewrite (Hv h _ Hr) in Hvi.
      destruct (decide (reaching a (it_index it) ops = [])); [discriminate|]. congruence. }
    rewrite (map_ext_in it_value (fun it => PropIntBins.total (reaching a (it_index it) ops))).
    2:{ intros it Hi. apply filter_In in Hi as [Hi _]. apply Hval. exact Hi. }
    rewrite <- (map_map it_index (fun i => PropIntBins.total (reaching a i ops))).
    rewrite <- filter_map_comm. apply group_total.
    + apply NoDup_filter. exact Hnd.
    + intros o i Ho' Hi. rewrite elem_of_list_In, filter_In. split; [tauto|]. intros Hch. split; [|exact Hch].
      assert (Hne : reaching a i ops <> []).
      { intros E. assert (Hf : In o (reaching a i ops)). { apply filter_In. split; [exact Ho'|]. unfold lands_in. rewrite Hi. apply N.eqb_refl. }
        rewrite E in Hf. destruct Hf. }
      specialize (Hv h i Hr). destruct (decide (reaching a i ops = [])); [contradiction|].
      destruct (Hex i _ Hv) as [b Hbi]. apply in_map_iff. exists (mkItem i b (PropIntBins.total (reaching a i ops))). split; [reflexivity|exact Hbi].
Qed.
Print Assumptions C67_groups_of_bins.

(** ** Projections *)

Lemma slice_radix ns p j n is : cell ns is -> nth_error ns p = Some n ->
  (in_slice ns p j (radix ns is) = true <-> nth_error is p = Some j).
Proof.
  unfold in_slice. intros Hcell Hp. rewrite Hp. rewrite N.eqb_eq.
  assert (G : nth_error is p = Some ((radix ns is / product (firstn p ns)) mod n)).
  { revert p n Hp. induction Hcell as [|i m is ns Hlt Hcell IH]; intros p n Hp; [destruct p; discriminate|].
    destruct p as [|p]; cbn [nth_error firstn radix] in *.
    - injection Hp as ->. unfold product. cbn [fold_right]. rewrite N.div_1_r, (N.mul_comm n), N.mod_add, N.mod_small by lia. reflexivity.
    - rewrite (IH p n Hp). f_equal. change (product (m :: firstn p ns)) with (m * product (firstn p ns)).
      f_equal. pose proof (cell_pos _ _ Hcell) as Hpos.
      assert (Hpp : 0 < product (firstn p ns)).
      { apply product_pos. rewrite List.Forall_forall in *. intros x Hx. apply Hpos.
        rewrite <- (firstn_skipn p ns). apply in_or_app. left. exact Hx. }
      assert (Hm : m <> 0) by lia. assert (Hpp' : product (firstn p ns) <> 0) by lia.
      rewrite <- (N.div_div _ _ _ Hm Hpp'). rewrite (N.mul_comm m), (N.div_add _ _ _ Hm), (N.div_small _ _ Hlt). reflexivity. }
  rewrite G. split; [intros ->; reflexivity|congruence].
Qed.

Lemma component_field ts : forall (axes : axes_tuple ts) c is p i,
  component_indices ts axes c is -> nth_error is p = Some i -> field_index ts p axes c = Val (Some i).
Proof.
  induction ts as [|t ts IH]; intros axes c is p i Hc Hp; cbn [component_indices] in Hc.
  - subst. destruct p; discriminate.
  - destruct is as [|i0 is]; [contradiction|]. destruct Hc as [H0 Hc]. destruct p as [|p]; cbn [nth_error field_index] in *.
    + injection Hp as ->. exact H0.
    + eapply IH; eassumption.
Qed.

Lemma amounts_project {A A'} {AX : Axis A} {AX' : Axis A'} (proj : @Coordinate A AX -> @Coordinate A' AX')
  (q : @fill_op A' Z Empty_set AX' -> bool) (r s : @fill_op A Z Empty_set AX -> bool) ops :
  (forall o, In o ops -> r o && q (project proj o) = s o) ->
  map amount (List.filter q (map (project proj) (List.filter r ops))) = map amount (List.filter s ops).
Proof.
  induction ops as [|o ops IH]; intros Hq; [reflexivity|]. cbn [List.filter]. rewrite <- (Hq o (or_introl eq_refl)).
  specialize (IH (fun o' Ho => Hq o' (or_intror Ho))).
  destruct (r o) eqn:Er; cbn [map List.filter andb]; [|exact IH].
  destruct (q (project proj o)) eqn:Eq; cbn [map]; [|exact IH]. rewrite IH. f_equal. destruct o; reflexivity.
Qed.

(** Fill a histogram over any number of axes with any calls.  Adding up its bins
    over all axes but one (axis [p]) gives, for each bin [j] of that axis, what a
    one-dimensional histogram over that axis alone holds after the same calls with
    only their [p]-th coordinate - restricted to the calls that all axes cover (all
    of them, if no axis drops coordinates).  [x] is the [p]-th axis and [proj] takes
    the [p]-th coordinate. *)
Theorem C67_projection :
  forall (B : Build) (t : int_type) ts (axes : axes_tuple ts) ns p n X (AX1 : Axis X) (x : X)
         (proj : coords ts -> @Coordinate X AX1) (ops : list (@fill_op _ Z Empty_set (axes_axis ts))),
  primitive_int t -> overflow_checks = true ->
  ts <> [] -> tuple_has_bins ts axes ns -> products_fit ns ->
  (forall o, In o ops -> components_index_within ts axes ns (op_coordinate o)) ->
  nth_error ns p = Some n -> num_bins x = Val n -> (forall c, index x (proj c) = field_index ts p axes c) ->
  let AX := axes_axis ts in
  exists (h0 : VecHistogram (AxesTuple ts) Z) (g0 : VecHistogram (AxesTuple1 X) Z),
    ndhistogram (DV := int_default t) ts axes = Val h0 /\ ndhistogram1 (DV := int_default t) x = Val g0
  /\ forall h g,
     @vec_calls (AxesTuple ts) Z Z Empty_set AX (int_fill t) (int_fill_with t) no_weighted h0 ops = Val h ->
     @vec_calls (AxesTuple1 X) Z Z Empty_set axes1_axis (int_fill t) (int_fill_with t) no_weighted g0
       (map (@project (AxesTuple ts) (AxesTuple1 X) Z Empty_set AX axes1_axis proj)
          (List.filter (covered (vh_axes h0)) ops)) = Val g ->
     exists items, @vec_iter (AxesTuple ts) Z AX h = Val items
     /\ (forall it, In it items -> exists is, cell ns is /\ component_bins ts axes is (it_bin it)
           /\ forall j, in_slice ns p j (it_index it) = true <-> nth_error is p = Some j)
     /\ forall j, j < n ->
        vec_value_at_index g j
        = Some (sumZ (map it_value (List.filter (fun it => in_slice ns p j (it_index it)) items))).
Proof.
  intros B t ts axes ns p n X AX1 x proj ops Ht Hc Hne Hb Hf Hw Hp Hn Hproj AX.
  destruct (C20_axes_tuple_has_bins B ts axes ns Hne Hb Hf) as (a & Ha & Hbins).
  destruct (C22_axes_index_none B ts axes ns Hne Hb Hf) as (a' & Ha' & Hidx).
  destruct (C23_axes_bin_of_cell B ts axes ns Hne Hb Hf) as (a'' & Ha'' & Hcells).
  destruct (C21_axes_index_value B ts axes ns Hne Hb Hf) as (a3 & Ha3 & _ & Hval).
  assert (a' = a) by congruence. assert (a'' = a) by congruence. assert (a3 = a) by congruence. subst a' a'' a3.
  pose (h0 := @mkVecHist (AxesTuple ts) Z a (repeat 0%Z (N.to_nat (product ns)))).
  assert (Hh0 : @vec_new (AxesTuple ts) Z AX (int_default t) a = Val h0).
  { unfold vec_new. change (@num_bins _ AX a) with (@num_bins _ (axes_axis ts) a). 
    rewrite (proj1 Hbins). reflexivity. }
  pose (g0 := @mkVecHist (AxesTuple1 X) Z (mkAxes1 x [n]) (repeat 0%Z (N.to_nat n))).
  assert (Hg0 : @vec_new (AxesTuple1 X) Z axes1_axis (int_default t) (mkAxes1 x [n]) = Val g0).
  { unfold vec_new. cbn [num_bins axes1_axis ax1_axis]. rewrite Hn. reflexivity. }
  exists h0, g0. split; [|split].
  { unfold ndhistogram. rewrite Ha. exact Hh0. }
  { unfold ndhistogram1, axes1_from. rewrite Hn. exact Hg0. }
  intros h g Hh Hg.
  assert (Hlt : forall o i, In o ops -> @index _ AX a (@op_coordinate _ _ _ AX o) = Val (Some i) -> i < product ns).
  { intros o i Ho Hi. set (c := @op_coordinate _ _ _ AX o) in *. destruct (Hidx c (Hw o Ho)) as [_ (r & Hr & Hlt)]. apply (Hlt i). change (axes_index a c = Val (Some i)) in Hi. congruence. }
  destruct (vec_calls_inv _ _ _ Hh) as [Hax [Hlen _]].
  destruct (C32_vec_iter (AxesTuple ts) Z AX h (product ns)) as (items & Hit & Hilen & Hk & _).
  { rewrite Hax. exact Hbins. }
  { unfold vec_values. rewrite Hlen. unfold h0. cbn [vh_values]. rewrite repeat_length. lia. }
  exists items. split; [exact Hit|]. split.
  - intros it Hin. apply In_nth_error in Hin as [k Hk']. destruct (Hk k it Hk') as (Hi & Hbin & _).
    apply nth_error_some_lt in Hk'. destruct (C21_cells_bijection ns (it_index it)) as (is & Hcell & Hr & _); [lia|].
    exists is. split; [exact Hcell|]. split.
    + destruct (Hcells is Hcell) as (bs & Hbs & Hcb). rewrite Hr in Hbs. rewrite Hax, <- Hi in Hbin.
      change (axes_bin a (it_index it) = Val (Some (it_bin it))) in Hbin.
      assert (bs = it_bin it) by congruence. subst bs. exact Hcb.
    + intros j. rewrite <- Hr. exact (slice_radix ns p j n is Hcell Hp).
  - intros j Hj.
    destruct (C67_groups_of_bins B t (AxesTuple ts) AX a (product ns) ops (in_slice ns p j) Ht Hc Hbins Hlt) as [Hgroup _].
    destruct (Hgroup h0 h Hh0 Hh) as (items' & Hit' & Hsum).
    assert (items' = items) by congruence. subst items'. refine (eq_trans _ (f_equal Some (eq_sym Hsum))).
    destruct (C51_checked_dense B t (AxesTuple1 X) axes1_axis (mkAxes1 x [n]) g0
      (map (@project (AxesTuple ts) (AxesTuple1 X) Z Empty_set AX axes1_axis proj) (List.filter (covered a) ops)) Ht Hc Hg0) as [Hv _].
    rewrite (Hv g j Hg).
    2:{ unfold vec_value_at_index, g0. cbn [vh_values]. rewrite nth_error_repeat_lt; [discriminate|lia]. }
    f_equal. unfold PropIntBins.total, reaching. f_equal. apply amounts_project.
    intros o Ho. unfold lands_in, lands_among.
    assert (Eo : @op_coordinate _ _ _ axes1_axis (@project (AxesTuple ts) (AxesTuple1 X) Z Empty_set AX axes1_axis proj o)
                 = proj (@op_coordinate _ _ _ AX o)) by (destruct o; reflexivity).
    rewrite Eo. cbn [index axes1_axis ax1_axis]. rewrite Hproj.
    assert (Hwo : components_index_within ts axes ns (@op_coordinate _ _ _ AX o)) by exact (Hw o Ho).
    destruct (all_indices_cases _ _ _ _ Hwo) as [(is & _ & Hci & Hcell & _)|(_ & Hun)].
    + destruct (Hval _ is Hci Hcell) as [Ei _].
      assert (Ei' : @index _ AX a (@op_coordinate _ _ _ AX o) = Val (Some (radix ns is))) by exact Ei.
      assert (Hcov : @covered _ Z Empty_set AX a o = true).
      { unfold covered. exact (eq_trans (f_equal (fun z : outcome (option N) => match z with Val (Some _) => true | _ => false end) Ei') eq_refl). }
      refine (eq_trans (f_equal (fun b => andb b _) Hcov) _). rewrite Ei'. destruct (nth_error is p) as [i|] eqn:En.
      * rewrite (component_field _ _ _ _ _ _ Hci En). cbn [andb].
        apply eq_true_iff_eq. rewrite (slice_radix ns p j n is Hcell Hp), En. rewrite N.eqb_eq. split; congruence.
      * exfalso. apply nth_error_None in En. apply nth_error_some_lt in Hp. apply Forall2_length in Hcell. lia.
    + destruct (Hidx _ Hwo) as [[_ Hnone] _].
      assert (Ei' : @index _ AX a (@op_coordinate _ _ _ AX o) = Val None) by exact (Hnone Hun).
      assert (Hcov : @covered _ Z Empty_set AX a o = false).
      { unfold covered. exact (eq_trans (f_equal (fun z : outcome (option N) => match z with Val (Some _) => true | _ => false end) Ei') eq_refl). }
      refine (eq_trans (f_equal (fun b => andb b _) Hcov) _). rewrite Ei'. reflexivity.
Qed.
Print Assumptions C67_projection.

(** ** The default bin type *)

Lemma hits_total {A} {AX : Axis A} (a : A) i (cs : list (@Coordinate A AX)) :
  Z.of_nat (hits a i cs) = PropIntBins.total (reaching a i (fills (D := Z) (W := Empty_set) cs)).
Proof.
  unfold hits, reaching, fills, PropIntBins.total. induction cs as [|c cs IH]; [reflexivity|].
  cbn [map List.filter]. unfold lands_in at 1. cbn [op_coordinate].
  destruct (index a c) as [[j|]|]; [destruct (j =? i)| |]; unfold sumZ in *; cbn [map fold_right length amount]; lia.
Qed.
Lemma among_count {A} {AX : Axis A} (a : A) chosen (cs : list (@Coordinate A AX)) :
  sumZ (map amount (List.filter (lands_among a chosen) (fills (D := Z) (W := Empty_set) cs)))
  = Z.of_nat (length (List.filter (fun c => match index a c with Val (Some i) => chosen i | _ => false end) cs)).
Proof.
  unfold fills. induction cs as [|c cs IH]; [reflexivity|].
  cbn [map List.filter]. unfold lands_among at 1. cbn [op_coordinate].
  destruct (index a c) as [[j|]|]; [destruct (chosen j)| |]; unfold sumZ in *; cbn [map fold_right length amount]; lia.
Qed.

(** With f64 bins (the default) and up to 2^53 fills: the exact sum of the reported
    values of any set of bins is the number of fills with a coordinate in one of
    them. *)
Theorem C67_f64_groups_of_bins :
  forall (B : Build) A (AX : Axis A) (a : A) (n : N) (cs : list Coordinate) (chosen : N -> bool),
  (Z.of_nat (length cs) <= 2 ^ 53)%Z ->
  has_bins AX a n -> (forall c i, In c cs -> index a c = Val (Some i) -> i < n) ->
  let count := length (List.filter (fun c => match index a c with Val (Some i) => chosen i | _ => false end) cs) in
  (forall h0 h : VecHistogram A f64, @vec_new A f64 AX f64_default a = Val h0 -> f64_vec_calls h0 (fills cs) = Val h ->
     exists items, vec_iter h = Val items
     /\ sumR (map (fun it => B2R (it_value it)) (List.filter (fun it => chosen (it_index it)) items)) = INR count)
  /\ (forall (h : HashHistogram A f64) order, f64_hash_calls (hash_new a) (fills cs) = Val h ->
     an_order (hh_values h) order ->
     exists items, hash_iter h order = Val items
     /\ sumR (map (fun it => B2R (it_value it)) (List.filter (fun it => chosen (it_index it)) items)) = INR count).
Proof.
  intros B A AX a n cs chosen Hcs Hb Hix count.
  assert (Hhits : forall i, (Z.min (Z.of_nat (hits a i cs)) (2 ^ 53) = Z.of_nat (hits a i cs))%Z).
  { intros i. apply Z.min_l. etransitivity; [|exact Hcs]. apply Nat2Z.inj_le, hits_le. }
  assert (Hsum : forall (I : Type) (items : list (Item I f64)), NoDup (map it_index items) ->
     (forall it, In it items -> B2R (it_value it) = IZR (Z.of_nat (hits a (it_index it) cs))) ->
     (forall i, hits a i cs <> 0%nat -> In i (map it_index items)) ->
     sumR (map (fun it => B2R (it_value it)) (List.filter (fun it => chosen (it_index it)) items)) = INR count).
  { intros I items Hnd Hval Hall.
    rewrite (map_ext_in _ (fun it => IZR (Z.of_nat (hits a (it_index it) cs)))).
    2:{ intros it Hin. apply filter_In in Hin as [Hin _]. exact (Hval it Hin). }
    rewrite <- (map_map it_index (fun i => IZR (Z.of_nat (hits a i cs)))).
    rewrite <- filter_map_comm. 
    rewrite (map_ext _ (fun i => IZR (PropIntBins.total (reaching a i (fills (D := Z) (W := Empty_set) cs))))).
    2:{ intros i. f_equal. apply hits_total. }
    rewrite sumR_IZR, group_total with (chosen := chosen).
    - rewrite among_count. fold count. apply eq_sym, INR_IZR_INZ.
    - apply NoDup_filter. exact Hnd.
    - intros o i Ho Hi. rewrite elem_of_list_In, filter_In. split; [tauto|]. intros Hch. split; [|exact Hch].
      apply Hall. intros E. apply (f_equal Z.of_nat) in E. rewrite hits_total in E.
      assert (Hf : In o (reaching a i (fills (D := Z) (W := Empty_set) cs))).
      { apply filter_In. split; [exact Ho|]. unfold lands_in. rewrite Hi. apply N.eqb_refl. }
      rewrite <- hits_total in E. unfold hits in E. unfold fills in Ho. apply in_map_iff in Ho as (c & <- & Hc). cbn [op_coordinate] in Hi.
      assert (Hcf : In c (List.filter (fun c => match index a c with Val (Some j) => j =? i | _ => false end) cs)).
      { apply filter_In. split; [exact Hc|]. rewrite Hi. apply N.eqb_refl. }
      apply (Nat2Z.inj _ 0) in E. apply length_zero_iff_nil in E. rewrite E in Hcf. destruct Hcf. }
  assert (Hhit : forall i, hits a i cs <> 0%nat -> i < n).
  { intros i Hne. unfold hits in Hne.
    destruct (List.filter (fun c => match index a c with Val (Some j) => j =? i | _ => false end) cs) as [|c l] eqn:E; [cbn in Hne; lia|].
    assert (Hin : In c (c :: l)) by (left; reflexivity). rewrite <- E in Hin. apply filter_In in Hin as [Hin Hl].
    destruct (index a c) as [[j|]|] eqn:Ei; try discriminate. apply N.eqb_eq in Hl as ->. exact (Hix _ _ Hin Ei). }
  split.
  - intros h0 h Hnew Hr. pose proof (fun i => proj1 (C45_f64_counts B A AX a cs i) h0 h Hnew Hr) as Hv. cbv zeta in Hv.
    destruct (vec_calls_inv _ _ _ Hr) as [Ha [Hl _]].
    unfold vec_new in Hnew. rewrite (proj1 Hb) in Hnew. cbn [obind] in Hnew. injection Hnew as <-. cbn [vh_values vh_axes] in *.
    rewrite repeat_length in Hl.
    destruct (C32_vec_iter A f64 AX h n) as (items & Hit & Hlen & Hk & _).
    { rewrite Ha. exact Hb. }
    { unfold vec_values. lia. }
    exists items. split; [exact Hit|].
    assert (Hidx : map it_index items = range n).
    { apply nth_error_ext_len.
      - unfold range. rewrite !map_length, seq_length. lia.
      - intros k x Hx. rewrite nth_error_map in Hx. destruct (nth_error items k) as [it|] eqn:En; [|discriminate].
        injection Hx as <-. destruct (Hk k it En) as (-> & _). apply nth_error_some_lt in En. unfold range.
        rewrite nth_error_map, (nth_error_nth' _ 0%nat) by (rewrite seq_length; lia). rewrite seq_nth by lia. reflexivity. }
    apply Hsum.
    + rewrite Hidx. unfold range. apply NoDup_ListNoDup, FinFun.Injective_map_NoDup; [intros x y; apply Nat2N.inj|]. apply seq_NoDup.
    + intros it Hin. apply In_nth_error in Hin as [k Hn]. destruct (Hk k it Hn) as (-> & _ & Hvk).
      destruct (Hv (N.of_nat k)) as (v & Hvv & _ & _ & Hread).
      { unfold vec_value_at_index; cbn [vh_values]. rewrite Nat2N.id, nth_error_repeat_lt; [discriminate|]. apply nth_error_some_lt in Hn. lia. }
      rewrite Hhits in Hread. assert (v = it_value it) by congruence. subst v. exact Hread.
    + intros i Hi. rewrite Hidx. unfold range. apply in_map_iff. exists (N.to_nat i). split; [apply N2Nat.id|]. apply in_seq.
      specialize (Hhit i Hi). lia.
  - intros h order Hr Ho. pose proof (fun i => proj2 (C45_f64_counts B A AX a cs i) h Hr) as Hv. cbv zeta in Hv.
    assert (Ha : hh_axes h = a) by (destruct (hash_calls_inv _ _ _ Hr) as [E _]; exact E).
    destruct (C31_hash_iter A f64 AX h n order) as (items & Hit & Hnd & Hin & Hex & _).
    { rewrite Ha. exact Hb. }
    { intros i v Hi. destruct (Hv i) as [[_ Hn]|(v' & Hk & _)]; [congruence|]. apply Hhit. lia. }
    { exact Ho. }
    exists items. split; [exact Hit|]. apply Hsum; [exact Hnd| |].
    + intros it Hi. destruct (Hin it Hi) as [_ Hvi]. destruct (Hv (it_index it)) as [[_ Hn]|(v & _ & Hvv & _ & _ & Hread)]; [congruence|].
      rewrite Hhits in Hread. assert (v = it_value it) by congruence. subst v. exact Hread.
    + intros i Hi. destruct (Hv i) as [[Hz _]|(v & _ & Hvv & _)]; [lia|]. destruct (Hex i v Hvv) as [b Hbi].
      apply in_map_iff. exists (mkItem i b v). split; [reflexivity|exact Hbi].
Qed.
Print Assumptions C67_f64_groups_of_bins.

(** ** How much a sparse histogram stores *)

(** A sparse histogram never stores more bins than calls were made that its axes
    cover, whatever the number of bins of its axes. *)
Theorem C67_sparse_storage :
  forall A V D W (AX : Axis A) (FV : Fill V) (FD : FillWith V D) (FW : FillWithWeighted V D W)
         (DV : Default V) (a : A) (h : HashHistogram A V) (ops : list (fill_op D W)),
  hash_calls (hash_new a) ops = Val h ->
  forall order, an_order (hash_as_map h) order ->
  (length order <= length (List.filter (covered a) ops))%nat
  /\ forall n, (forall o i, In o ops -> index a (op_coordinate o) = Val (Some i) -> i < n) ->
     N.of_nat (length order) <= n.
Proof.
  intros A V D W AX FV FD FW DV a h ops Hr order Ho.
  destruct (C29_hash_contents_are_tally A V D W AX FV FD FW DV a h ops Hr) as (_ & Hnone & _).
  assert (Hkey : forall i, In i (map fst order) -> exists o, In o ops /\ index a (op_coordinate o) = Val (Some i)).
  { intros i Hi. apply elem_of_list_In, (order_key _ _ _ Ho) in Hi as [v Hv].
    destruct (reaching a i ops) as [|o l] eqn:E; [specialize (Hnone i E); unfold hash_value_at_index, hash_as_map in *; congruence|].
    assert (Hin : In o (reaching a i ops)) by (rewrite E; left; reflexivity).
    apply filter_In in Hin as [Hin Hl]. exists o. split; [exact Hin|]. unfold lands_in in Hl.
    destruct (index a (op_coordinate o)) as [[j|]|]; try discriminate. apply N.eqb_eq in Hl as ->. reflexivity. }
  assert (Hnd : List.NoDup (map fst order)) by (apply NoDup_ListNoDup; exact (order_NoDup _ _ Ho)).
  split.
  - rewrite <- (map_length fst order).
    rewrite <- (map_length (fun o => match index a (op_coordinate o) with Val (Some i) => i | _ => 0 end) (List.filter (covered a) ops)).
    apply NoDup_incl_length; [exact Hnd|]. intros i Hi. destruct (Hkey i Hi) as (o & Hin & Hix).
    apply in_map_iff. exists o. rewrite Hix. split; [reflexivity|]. apply filter_In. split; [exact Hin|]. unfold covered. rewrite Hix. reflexivity.
  - intros n Hn. rewrite <- (map_length fst order).
    assert (Hle : (length (map fst order) <= length (range n))%nat).
    { apply NoDup_incl_length; [exact Hnd|]. intros i Hi. destruct (Hkey i Hi) as (o & Hin & Hix). apply (Hn o i Hin) in Hix.
      unfold range. apply in_map_iff. exists (N.to_nat i). split; [apply N2Nat.id|]. apply in_seq. lia. }
    unfold range in Hle. rewrite (map_length N.of_nat), seq_length in Hle. lia.
Qed.
Print Assumptions C67_sparse_storage.

(** ** The hypotheses are met *)

(** The 5 x 3 cells of [example_axes], five calls; the sums over either axis. *)
Example C67_nonvacuous : forall B : Build,
  let ts := [uni_i32 B; cat_Z B] in
  let AX := axes_axis ts in
  let t := signed 64 in
  let calls : list (fill_op Z Empty_set) :=
    [CallFill (25, (7, tt)); CallFillWith (3, (5, tt)) 10; CallFill (29, (7, tt)); CallFillWith (3, (9, tt)) 100;
     CallFillWith (-1, (7, tt)) 1000]%Z in
  let AU : Axis (Uniform Z) := uniform_axis (int_ops (signed 32)) in
  let AC : Axis (Category Z) := category_axis in
  let slice p j := (let! h0 := ndhistogram (DV := int_default t) ts (example_axes B) in
      let! h := @vec_calls _ Z Z Empty_set AX (int_fill t) (int_fill_with t) no_weighted h0 calls in
      let! items := vec_iter h in
      Val (sumZ (map it_value (List.filter (fun it => in_slice [5; 3] p j (it_index it)) items)))) in
  primitive_int t
  /\ tuple_has_bins ts (example_axes B) [5; 3] /\ products_fit [5; 3]
  /\ (forall o, In o calls -> components_index_within ts (example_axes B) [5; 3] (op_coordinate o))
  /\ num_bins (mkUniform 3 0 30 10)%Z = Val 5 /\ num_bins (category_new [5; 7]%Z) = Val 3
  /\ (forall c : coords ts, index (mkUniform 3 0 30 10)%Z (fst c) = field_index ts 0 (example_axes B) c)
  /\ (forall c : coords ts, index (category_new [5; 7]%Z) (fst (snd c)) = field_index ts 1 (example_axes B) c)
  /\ map (slice 0%nat) (range 5) = map Val [1000; 110; 0; 2; 0]%Z
  /\ map (slice 1%nat) (range 3) = map Val [10; 1002; 100]%Z.
Proof.
  intros B ts AX t calls AU AC slice. destruct (C21_nonvacuous B) as (H1 & H2 & _).
  split; [exists 64%Z; split; [lia | tauto]|]. split; [exact H1|]. split; [exact H2|].
  split; [|split; [|split; [|split; [|split; [|split]]]]].
  2: destruct B as [[] []]; vm_compute; reflexivity.
  2: destruct B as [[] []]; vm_compute; reflexivity.
  2: intros c; reflexivity.
  2: intros c; reflexivity.
  2: destruct B as [[] []]; vm_compute; reflexivity.
  2: destruct B as [[] []]; vm_compute; reflexivity.
  intros o Ho. subst calls. cbn [In] in Ho.
  assert (G : forall x y i j, index (mkUniform 3 0 30 10)%Z x = Val (Some i) -> index (category_new [5; 7]%Z) y = Val (Some j) ->
     i < 5 -> j < 3 -> components_index_within ts (example_axes B) [5; 3] (x, (y, tt))).
  { intros x y i j Hi Hj Hi5 Hj3. cbn [components_index_within ts example_axes fst snd]. split; [|split; [|reflexivity]].
    - exists (Some i). split; [exact Hi|]. intros i' [= <-]. exact Hi5.
    - exists (Some j). split; [exact Hj|]. intros i' [= <-]. exact Hj3. }
  destruct Ho as [<-|[<-|[<-|[<-|[<-|[]]]]]]; cbn [op_coordinate].
  - apply (G 25%Z 7%Z 3 1); [destruct B as [[] []]; vm_compute; reflexivity|destruct B as [[] []]; vm_compute; reflexivity|lia|lia].
  - apply (G 3%Z 5%Z 1 0); [destruct B as [[] []]; vm_compute; reflexivity|destruct B as [[] []]; vm_compute; reflexivity|lia|lia].
  - apply (G 29%Z 7%Z 3 1); [destruct B as [[] []]; vm_compute; reflexivity|destruct B as [[] []]; vm_compute; reflexivity|lia|lia].
  - apply (G 3%Z 9%Z 1 2); [destruct B as [[] []]; vm_compute; reflexivity|destruct B as [[] []]; vm_compute; reflexivity|lia|lia].
  - apply (G (-1)%Z 7%Z 0 1); [destruct B as [[] []]; vm_compute; reflexivity|destruct B as [[] []]; vm_compute; reflexivity|lia|lia].
Qed.
