(** * PropMarginal: marginal histograms, and composing coarsenings (C88, C87). *)
From stdpp Require Import gmap.
From Coq Require Import ZifyBool ZifyN ZifyNat Lia Reals.
From Flocq Require Import Core IEEE754.BinarySingleNaN.
From Verif Require Import Base BaseFacts Num Uniform Axis Spec FillSpec IntFacts Axes AxesSpec AxesFacts AxesMacro Category Value VecHist HashHist
  HistSpec HistFacts HashFacts OpsFacts PropCategory PropAxes PropHist PropHistIter PropOrder PropMerge PropIntBins Macros Float ExactSpec PropCount
  PropProject SimSpec PropNested PropRelabel PropFloatCounts PropOpsMore PropAlgebraMore PropRebin PropRebinAxes.
Open Scope N_scope.

(** ** Specification *)

(** The axes, coordinates and intervals of the marked positions of a tuple. *)
Fixpoint pick_axes (keep : list bool) (ts : list axis_type) : axes_tuple ts -> axes_tuple (select keep ts) :=
  match keep, ts return axes_tuple ts -> axes_tuple (select keep ts) with
  | true :: keep', t :: ts' => fun a => (fst a, pick_axes keep' ts' (snd a))
  | false :: keep', t :: ts' => fun a => pick_axes keep' ts' (snd a)
  | _, _ => fun _ => tt
  end.
Fixpoint pick_coords (keep : list bool) (ts : list axis_type) : coords ts -> coords (select keep ts) :=
  match keep, ts return coords ts -> coords (select keep ts) with
  | true :: keep', t :: ts' => fun c => (fst c, pick_coords keep' ts' (snd c))
  | false :: keep', t :: ts' => fun c => pick_coords keep' ts' (snd c)
  | _, _ => fun _ => tt
  end.
Fixpoint pick_intervals (keep : list bool) (ts : list axis_type) : intervals ts -> intervals (select keep ts) :=
  match keep, ts return intervals ts -> intervals (select keep ts) with
  | true :: keep', t :: ts' => fun b => (fst b, pick_intervals keep' ts' (snd b))
  | false :: keep', t :: ts' => fun b => pick_intervals keep' ts' (snd b)
  | _, _ => fun _ => tt
  end.

(** Every axis that is summed over has a bin for its coordinate. *)
Fixpoint dropped_covered (keep : list bool) (ts : list axis_type) : axes_tuple ts -> coords ts -> Prop :=
  match keep, ts return axes_tuple ts -> coords ts -> Prop with
  | true :: keep', t :: ts' => fun a c => dropped_covered keep' ts' (snd a) (snd c)
  | false :: keep', t :: ts' => fun a c => (exists i, @index _ (at_axis t) (fst a) (fst c) = Val (Some i)) /\ dropped_covered keep' ts' (snd a) (snd c)
  | _, _ => fun _ _ => True
  end.

(** The cell of the marginal histogram that cell [i] is added to. *)
Definition marginal_bin (keep : list bool) (ns : list N) (i : N) : N := radix (select keep ns) (select keep (digits_of i ns)).

(** ** Proofs *)
Lemma pick_bins keep ts : forall (a : axes_tuple ts) ns, tuple_has_bins ts a ns -> length keep = length ts ->
  tuple_has_bins (select keep ts) (pick_axes keep ts a) (select keep ns).
Proof.
  revert ts. induction keep as [|k keep IH]; intros [|t ts] a ns Hb Hl; try discriminate; [reflexivity|].
  destruct ns as [|n ns]; [destruct Hb|]. destruct Hb as [H1 H2]. injection Hl as Hl. specialize (IH ts (snd a) ns H2 Hl).
  destruct k; [split; assumption | exact IH].
Qed.
Lemma select_cell keep : forall ns is, cell ns is -> cell (select keep ns) (select keep is).
Proof.
  induction keep as [|k keep IH]; intros ns is H; [constructor|]. inversion H as [|i n is' ns' Hi H' E1 E2]; subst; [constructor|].
  cbn [select]. destruct k; [constructor; [exact Hi|]|]; now apply IH.
Qed.
Lemma pick_component_bins keep ts : forall (a : axes_tuple ts) is bs, component_bins ts a is bs -> length keep = length ts ->
  component_bins (select keep ts) (pick_axes keep ts a) (select keep is) (pick_intervals keep ts bs).
Proof.
  revert ts. induction keep as [|k keep IH]; intros [|t ts] a is bs Hb Hl; try discriminate; [reflexivity|].
  destruct is as [|i is]; [destruct Hb|]. destruct Hb as [H1 H2]. injection Hl as Hl. specialize (IH ts (snd a) is (snd bs) H2 Hl).
  destruct k; [split; assumption | exact IH].
Qed.
Lemma pick_component_indices keep ts : forall (a : axes_tuple ts) c is, component_indices ts a c is -> length keep = length ts ->
  component_indices (select keep ts) (pick_axes keep ts a) (pick_coords keep ts c) (select keep is).
Proof.
  revert ts. induction keep as [|k keep IH]; intros [|t ts] a c is Hb Hl; try discriminate; [reflexivity|].
  destruct is as [|i is]; [destruct Hb|]. destruct Hb as [H1 H2]. injection Hl as Hl. specialize (IH ts (snd a) (snd c) is H2 Hl).
  destruct k; [split; assumption | exact IH].
Qed.
Lemma pick_within keep ts : forall (a : axes_tuple ts) ns c, components_index_within ts a ns c -> length keep = length ts ->
  components_index_within (select keep ts) (pick_axes keep ts a) (select keep ns) (pick_coords keep ts c).
Proof.
  revert ts. induction keep as [|k keep IH]; intros [|t ts] a ns c Hb Hl; try discriminate; [reflexivity|].
  destruct ns as [|n ns]; [destruct Hb|]. destruct Hb as [H1 H2]. injection Hl as Hl. specialize (IH ts (snd a) ns (snd c) H2 Hl).
  destruct k; [split; assumption | exact IH].
Qed.
Lemma pick_uncovered keep ts : forall (a : axes_tuple ts) c, some_component_uncovered ts a c -> dropped_covered keep ts a c -> length keep = length ts ->
  some_component_uncovered (select keep ts) (pick_axes keep ts a) (pick_coords keep ts c).
Proof.
  revert ts. induction keep as [|k keep IH]; intros [|t ts] a c Hu Hd Hl; try discriminate; [exact Hu|]. injection Hl as Hl. destruct k.
  - destruct Hu as [Hu|Hu]; [left; exact Hu | right; exact (IH ts _ _ Hu Hd Hl)].
  - destruct Hd as [[i Hi] Hd]. destruct Hu as [Hu|Hu]; [congruence | exact (IH ts _ _ Hu Hd Hl)].
Qed.
Lemma indices_dropped_covered keep ts : forall (a : axes_tuple ts) c is, component_indices ts a c is -> dropped_covered keep ts a c.
Proof.
  revert ts. induction keep as [|k keep IH]; intros [|t ts] a c is Hi; try exact I; [destruct k; exact I|].
  destruct is as [|i is]; [destruct Hi|]. destruct Hi as [H1 H2]. destruct k; [exact (IH ts _ _ _ H2)|]. split; [exists i; exact H1 | exact (IH ts _ _ _ H2)].
Qed.

(** C88. Summing over some of the axes is a coarsening: the histogram over the marked
    axes (at least one) has, for each of its bins, the group of all cells with those
    bins on the marked axes, and a coordinate that the other axes cover lies in
    the bin of its marked components. *)
Theorem C88_marginal_coarsens : forall (B : Build) (keep : list bool) ts (axes : axes_tuple ts) ns,
  length keep = length ts -> select keep ts <> [] -> tuple_has_bins ts axes ns -> products_fit ns -> products_fit (select keep ns) ->
  exists (a : AxesTuple ts) (b : AxesTuple (select keep ts)),
    axes_from axes = Val a /\ axes_from (pick_axes keep ts axes) = Val b
  /\ coarsens (axes_axis ts) (axes_axis (select keep ts))
       (fun c d => d = pick_coords keep ts c /\ components_index_within ts axes ns c /\ dropped_covered keep ts axes c)
       (fun i j => j = pick_intervals keep ts i) a b (product ns) (product (select keep ns)) (marginal_bin keep ns)
  /\ forall is, cell ns is -> marginal_bin keep ns (radix ns is) = radix (select keep ns) (select keep is).
Proof.
  intros B keep ts axes ns Hl Hu Hx Fn Fm.
  assert (Ht : ts <> []). { intros ->. destruct keep; [|discriminate]. apply Hu. reflexivity. }
  pose proof (pick_bins keep ts axes ns Hx Hl) as Hy.
  set (us := select keep ts) in *. set (ys := pick_axes keep ts axes) in *. set (ms := select keep ns) in *.
  destruct (C20_axes_tuple_has_bins B ts axes ns Ht Hx Fn) as (a1 & A1 & Q1).
  destruct (C20_axes_tuple_has_bins B us ys ms Hu Hy Fm) as (a2 & A2 & Q2).
  destruct (C23_axes_bin_of_cell B ts axes ns Ht Hx Fn) as (a & Ea & B1). rewrite A1 in Ea. injection Ea as <-.
  destruct (C23_axes_bin_of_cell B us ys ms Hu Hy Fm) as (a & Ea & B2). rewrite A2 in Ea. injection Ea as <-.
  destruct (C21_axes_index_value B ts axes ns Ht Hx Fn) as (a & Ea & _ & I1). rewrite A1 in Ea. injection Ea as <-.
  destruct (C21_axes_index_value B us ys ms Hu Hy Fm) as (a & Ea & _ & I2). rewrite A2 in Ea. injection Ea as <-.
  destruct (C22_axes_index_none B ts axes ns Ht Hx Fn) as (a & Ea & N1). rewrite A1 in Ea. injection Ea as <-.
  destruct (C22_axes_index_none B us ys ms Hu Hy Fm) as (a & Ea & N2). rewrite A2 in Ea. injection Ea as <-.
  assert (Hpos : forall i, i < product ns -> cell ns (digits_of i ns) /\ radix ns (digits_of i ns) = i).
  { intros i Hi. destruct (product_zero_or_pos ns) as [Hz|Hp]; [lia|]. split; [now apply digits_cell|]. rewrite radix_digits by exact Hp. apply N.mod_small. exact Hi. }
  assert (Hrad : forall is, cell ns is -> marginal_bin keep ns (radix ns is) = radix ms (select keep is)).
  { intros is Hc. unfold marginal_bin. fold ms. f_equal. f_equal. destruct (Hpos (radix ns is) (radix_lt ns is Hc)) as [Hc' Hr']. apply (radix_inj ns); assumption. }
  exists a1, a2. split; [exact A1|]. split; [exact A2|]. split; [|exact Hrad].
  constructor; [exact Q1 | exact Q2| |].
  - intros i Hi. destruct (Hpos i Hi) as [Hc Hr]. rewrite <- Hr, (Hrad _ Hc). pose proof (select_cell keep _ _ Hc) as Hc2. fold ms in Hc2.
    split; [now apply radix_lt|]. destruct (B1 _ Hc) as (b & Eb & Cb). destruct (B2 _ Hc2) as (d & Ed & Cd).
    exists b, d. split; [exact Eb|]. split; [exact Ed|].
    pose proof (pick_component_bins keep ts axes _ b Cb Hl) as Cd'. apply all_bins_ok in Cd, Cd'.
    pose proof (eq_trans (eq_sym Cd) Cd') as E. injection E as E. exact E.
  - intros c d (-> & W1 & Hd). pose proof (pick_within keep ts axes ns c W1 Hl) as W2.
    destruct (N1 c W1) as [Hn1 _]. destruct (N2 _ W2) as [Hn2 _].
    destruct (all_indices_cases ts axes ns c W1) as [(is & _ & Hci & Hcell & _)|[_ Hu1]].
    + destruct (I1 c is Hci Hcell) as [E Lt]. exists (Some (radix ns is)). split; [exact E|]. split; [intros i [= <-]; exact Lt|].
      cbn [option_map]. rewrite (Hrad _ Hcell). exact (proj1 (I2 _ _ (pick_component_indices keep ts axes c is Hci Hl) (select_cell keep _ _ Hcell))).
    + exists None. split; [exact (proj2 Hn1 Hu1)|]. split; [discriminate|]. exact (proj2 Hn2 (pick_uncovered keep ts axes c Hu1 Hd Hl)).
Qed.
Print Assumptions C88_marginal_coarsens.

(** The size premise on the marginal holds whenever no axis is empty. *)
Theorem C88_marginal_fits : forall (B : Build) (keep : list bool) (ns : list N),
  Forall (fun n => 0 < n) ns -> products_fit ns -> products_fit (select keep ns).
Proof.
  intros B keep ns Hp Hf.
  assert (Hpos : forall l, Forall (fun n => 0 < n) l -> 0 < product l).
  { intros l H. induction H; [reflexivity|]. change (product (x :: l)) with (x * product l). nia. }
  assert (H : forall keep ns, Forall (fun n => 0 < n) ns -> forall k, exists j, product (firstn k (select keep ns)) <= product (firstn j ns)).
  { clear - Hpos. induction keep as [|b keep IH]; intros ns Hp k.
    - exists 0%nat. cbn [select]. rewrite firstn_nil. apply N.le_refl.
    - destruct Hp as [|n ns Hn Hp]; [exists 0%nat; cbn [select]; rewrite firstn_nil; apply N.le_refl|]. cbn [select]. destruct b.
      + destruct k as [|k]; [exists 0%nat; apply N.le_refl|]. destruct (IH ns Hp k) as [j Hj]. exists (S j).
        cbn [firstn]. change (n * product (firstn k (select keep ns)) <= n * product (firstn j ns)). nia.
      + destruct (IH ns Hp k) as [j Hj]. exists (S j). cbn [firstn]. change (product (firstn k (select keep ns)) <= n * product (firstn j ns)). nia. }
  intros k. destruct (H keep ns Hp k) as [j Hj]. eapply N.le_lt_trans; [exact Hj | apply Hf].
Qed.
Print Assumptions C88_marginal_fits.

(** C87: coarsening twice is coarsening. *)
Theorem C87_compose : forall A1 A2 A3 (AX1 : Axis A1) (AX2 : Axis A2) (AX3 : Axis A3) RC RI RC' RI' (a1 : A1) (a2 : A2) (a3 : A3) n1 n2 n3 group group',
  coarsens AX1 AX2 RC RI a1 a2 n1 n2 group -> coarsens AX2 AX3 RC' RI' a2 a3 n2 n3 group' ->
  coarsens AX1 AX3 (fun x z => exists y, RC x y /\ RC' y z) (fun x z => exists y, RI x y /\ RI' y z) a1 a3 n1 n3 (fun i => group' (group i)).
Proof.
  intros A1 A2 A3 AX1 AX2 AX3 RC RI RC' RI' a1 a2 a3 n1 n2 n3 group group' [B1 B2 Hb Hi] [B2' B3 Hb' Hi'].
  constructor; [exact B1 | exact B3| |].
  - intros i Hl. destruct (Hb i Hl) as (Hl2 & b1 & b2 & E1 & E2 & R). destruct (Hb' _ Hl2) as (Hl3 & b2' & b3 & E2' & E3 & R').
    split; [exact Hl3|]. exists b1, b3. split; [exact E1|]. split; [exact E3|]. exists b2. split; [exact R|]. rewrite E2 in E2'. injection E2' as <-. exact R'.
  - intros x z (y & R & R'). destruct (Hi _ _ R) as (r & E1 & L & E2). destruct (Hi' _ _ R') as (r' & E2' & L' & E3).
    exists r. split; [exact E1|]. split; [exact L|]. rewrite E2 in E2'. injection E2' as <-. rewrite E3. destruct r; reflexivity.
Qed.
Print Assumptions C87_compose.

(** Calls at coordinates that the axes do not cover change nothing, so they can be left out. *)
Lemma uncovered_left_out {A V D W} {AX : Axis A} {FV : Fill V} {FD : FillWith V D} {FW : FillWithWeighted V D W} {DV : Default V} (a : A) (ops : list (fill_op D W)) :
  (forall o, In o ops -> exists r, index a (op_coordinate o) = Val r) ->
  (forall h : VecHistogram A V, vh_axes h = a -> vec_calls h ops = vec_calls h (List.filter (covered a) ops))
  /\ (forall h : HashHistogram A V, hh_axes h = a -> hash_calls h ops = hash_calls h (List.filter (covered a) ops)).
Proof.
  unfold vec_calls, hash_calls. induction ops as [|o ops IH]; intros Hr; [split; reflexivity|].
  destruct (IH (fun o' H => Hr o' (or_intror H))) as [IHv IHh]. destruct (Hr o (or_introl eq_refl)) as [r Er].
  assert (Hc : covered a o = match r with Some _ => true | None => false end) by (unfold covered; rewrite Er; reflexivity).
  cbn [List.filter foldo]. rewrite Hc. split; intros h Ha.
  - destruct r as [i|].
    + cbn [foldo]. destruct (vec_call h o) as [h'|] eqn:E; [|reflexivity]. cbn [obind]. apply IHv. rewrite <- Ha. exact (proj1 (vec_call_axes _ _ _ E)).
    + rewrite vec_call_spec, Ha, Er. cbn [obind]. now apply IHv.
  - destruct r as [i|].
    + cbn [foldo]. destruct (hash_call h o) as [h'|] eqn:E; [|reflexivity]. cbn [obind]. apply IHh.
      rewrite hash_call_spec, Ha, Er in E. apply obind_val in E as [m [_ E]]. injection E as <-. reflexivity.
    + rewrite hash_call_spec, Ha, Er. cbn [obind]. now apply IHh.
Qed.

Section Histograms.
Context {B : Build} (keep : list bool) (ts : list axis_type) (axes : axes_tuple ts) (ns : list N).
Let AX := axes_axis ts.
Let AX' := axes_axis (select keep ts).
Notation RC := (fun c d => d = pick_coords keep ts c /\ components_index_within ts axes ns c /\ dropped_covered keep ts axes c).

Lemma kept_calls {D W} (a : AxesTuple ts) (ops : list (@fill_op (AxesTuple ts) D W AX)) :
  ts <> [] -> tuple_has_bins ts axes ns -> products_fit ns -> axes_from axes = Val a ->
  (forall o, In o ops -> components_index_within ts axes ns (op_coordinate o)) ->
  (forall o, In o ops -> exists r, @index _ AX a (op_coordinate o) = Val r)
  /\ Forall2 (same_call AX AX' RC) (List.filter (covered a) ops)
       (map (@project (AxesTuple ts) (AxesTuple (select keep ts)) D W AX AX' (pick_coords keep ts)) (List.filter (covered a) ops)).
Proof.
  intros Ht Hx Fn A1 Hw.
  destruct (C21_axes_index_value B ts axes ns Ht Hx Fn) as (a' & Ea & _ & I1). rewrite A1 in Ea. injection Ea as <-.
  destruct (C22_axes_index_none B ts axes ns Ht Hx Fn) as (a' & Ea & N1). rewrite A1 in Ea. injection Ea as <-.
  split.
  - intros o Ho. destruct (N1 _ (Hw o Ho)) as [_ (r & Hr & _)]. exists r. exact Hr.
  - assert (Hall : forall o, In o (List.filter (covered a) ops) -> RC (op_coordinate o) (pick_coords keep ts (op_coordinate o))).
    { intros o Ho. apply filter_In in Ho as [Ho Hc]. split; [reflexivity|]. split; [exact (Hw o Ho)|].
      destruct (all_indices_cases ts axes ns _ (Hw o Ho)) as [(is & _ & Hci & _)|[_ Hu]]; [exact (indices_dropped_covered keep ts _ _ _ Hci)|].
      exfalso. destruct (N1 _ (Hw o Ho)) as [Hn _]. unfold covered in Hc. pose proof (proj2 Hn Hu) as Hn'.
      change (@index (AxesTuple ts) AX a (op_coordinate o) = Val None) in Hn'. rewrite Hn' in Hc. discriminate. }
    revert Hall. induction (List.filter (covered a) ops) as [|o l IH]; intros Hall; [constructor|]. cbn [map]. constructor.
    + specialize (Hall o (or_introl eq_refl)). destruct o; constructor; exact Hall.
    + apply IH. intros o' Ho'. apply Hall. right. exact Ho'.
Qed.
End Histograms.

(** C88. Fill a histogram over the tuple [axes] with any calls, and a histogram over some of
    the axes (those marked in [keep], at least one) with the same calls, each with only the
    marked components of its coordinate, leaving out those that some axis does not cover.
    Then bin [j] of the second holds the sum over all bins of the first that lie in it, and
    "lie in it" is what the intervals say: the marked components of the interval of such
    a bin are the interval of bin [j]. Dense and sparse, integer bins, overflow checked. *)
Theorem C88_integer_bins :
  forall (B : Build) (t : int_type) (keep : list bool) ts (axes : axes_tuple ts) ns (ops : list (@fill_op _ Z Empty_set (axes_axis ts))),
  primitive_int t -> overflow_checks = true ->
  length keep = length ts -> select keep ts <> [] -> tuple_has_bins ts axes ns -> products_fit ns -> products_fit (select keep ns) ->
  (forall o, In o ops -> components_index_within ts axes ns (op_coordinate o)) ->
  let AX := axes_axis ts in let AX' := axes_axis (select keep ts) in
  let DV := int_default t in
  exists a b, axes_from axes = Val a /\ axes_from (pick_axes keep ts axes) = Val b
  /\ let kept := map (@project (AxesTuple ts) (AxesTuple (select keep ts)) Z Empty_set AX AX' (pick_coords keep ts)) (List.filter (covered a) ops) in
  (forall i, i < product ns -> exists bs bs', bin a i = Val (Some bs) /\ bin b (marginal_bin keep ns i) = Val (Some bs') /\ bs' = pick_intervals keep ts bs)
  /\ (exists h0 g0, ndhistogram ts axes = Val h0 /\ ndhistogram (select keep ts) (pick_axes keep ts axes) = Val g0
     /\ forall h g, int_vec_calls t h0 ops = Val h -> int_vec_calls t g0 kept = Val g ->
        exists items, vec_iter h = Val items
        /\ forall j, j < product (select keep ns) -> vec_value_at_index g j = Some (group_sum (AX := AX) (marginal_bin keep ns) j items))
  /\ (exists h0 g0 : HashHistogram _ Z, sparsehistogram ts axes = Val h0 /\ sparsehistogram (select keep ts) (pick_axes keep ts axes) = Val g0
     /\ forall h g order, int_hash_calls t h0 ops = Val h -> int_hash_calls t g0 kept = Val g -> an_order (hash_as_map h) order ->
        exists items, hash_iter h order = Val items
        /\ forall j, j < product (select keep ns) ->
           match hash_value_at_index g j with Some v => v | None => 0%Z end = group_sum (AX := AX) (marginal_bin keep ns) j items).
Proof.
  intros B t keep ts axes ns ops Ht Hc Hl Hu Hx Fn Fm Hw AX AX' DV.
  destruct (C88_marginal_coarsens B keep ts axes ns Hl Hu Hx Fn Fm) as (a & b & Ea & Eb & HC & _).
  assert (Hne : ts <> []). { intros ->. destruct keep; [|discriminate]. apply Hu. reflexivity. }
  exists a, b. split; [exact Ea|]. split; [exact Eb|]. cbv zeta.
  destruct (kept_calls keep ts axes ns a ops Hne Hx Fn Ea Hw) as [Hr Hk].
  destruct (C87_integer_bins B t _ _ _ _ _ _ _ _ _ _ _ _ _ Ht Hc HC Hk) as [Hd Hs].
  destruct (uncovered_left_out (V := Z) (FV := int_fill t) (FD := int_fill_with t) (FW := no_weighted) (DV := int_default t) a ops Hr) as [Ud Us].
  split.
  { intros i Hi. destruct (co_bin _ _ _ _ _ _ _ _ _ HC i Hi) as (_ & bs & bs' & E1 & E2 & E3). exists bs, bs'. split; [exact E1|]. split; [exact E2|exact E3]. }
  split.
  - destruct (co_bins_1 _ _ _ _ _ _ _ _ _ HC) as [Hn1 _]. destruct (co_bins_2 _ _ _ _ _ _ _ _ _ HC) as [Hn2 _].
    pose (h0 := @mkVecHist (AxesTuple ts) Z a (repeat 0%Z (N.to_nat (product ns)))).
    pose (g0 := @mkVecHist (AxesTuple (select keep ts)) Z b (repeat 0%Z (N.to_nat (product (select keep ns))))).
    assert (E1 : @vec_new _ Z AX (int_default t) a = Val h0) by (unfold vec_new; fold AX in Hn1; rewrite Hn1; reflexivity).
    assert (E2 : @vec_new _ Z AX' (int_default t) b = Val g0) by (unfold vec_new; fold AX' in Hn2; rewrite Hn2; reflexivity).
    exists h0, g0. split; [unfold ndhistogram; rewrite Ea; exact E1|]. split; [unfold ndhistogram; rewrite Eb; exact E2|].
    intros h g Hh Hg. rewrite (Ud h0 eq_refl) in Hh. exact (Hd h0 g0 h g E1 E2 Hh Hg).
  - exists (hash_new a), (hash_new b). split; [unfold sparsehistogram; rewrite Ea; reflexivity|]. split; [unfold sparsehistogram; rewrite Eb; reflexivity|].
    intros h g order Hh Hg Ho. rewrite (Us (hash_new a) eq_refl) in Hh. exact (Hs h g order Hh Hg Ho).
Qed.
Print Assumptions C88_integer_bins.

(** In builds without overflow checks: up to a multiple of 2^w. *)
Theorem C88_integer_bins_modular :
  forall (B : Build) (t : int_type) (keep : list bool) ts (axes : axes_tuple ts) ns (ops : list (@fill_op _ Z Empty_set (axes_axis ts))),
  primitive_int t -> overflow_checks = false ->
  length keep = length ts -> select keep ts <> [] -> tuple_has_bins ts axes ns -> products_fit ns -> products_fit (select keep ns) ->
  (forall o, In o ops -> components_index_within ts axes ns (op_coordinate o)) ->
  let AX := axes_axis ts in let AX' := axes_axis (select keep ts) in
  let DV := int_default t in
  exists a b, axes_from axes = Val a /\ axes_from (pick_axes keep ts axes) = Val b
  /\ let kept := map (@project (AxesTuple ts) (AxesTuple (select keep ts)) Z Empty_set AX AX' (pick_coords keep ts)) (List.filter (covered a) ops) in
  (exists h0 g0, ndhistogram ts axes = Val h0 /\ ndhistogram (select keep ts) (pick_axes keep ts axes) = Val g0
     /\ forall h g, int_vec_calls t h0 ops = Val h -> int_vec_calls t g0 kept = Val g ->
        exists items, vec_iter h = Val items
        /\ forall j, j < product (select keep ns) -> exists v k, vec_value_at_index g j = Some v /\ fits t v
           /\ v = (group_sum (AX := AX) (marginal_bin keep ns) j items + k * int_span t)%Z)
  /\ (exists h0 g0 : HashHistogram _ Z, sparsehistogram ts axes = Val h0 /\ sparsehistogram (select keep ts) (pick_axes keep ts axes) = Val g0
     /\ forall h g order, int_hash_calls t h0 ops = Val h -> int_hash_calls t g0 kept = Val g -> an_order (hash_as_map h) order ->
        exists items, hash_iter h order = Val items
        /\ forall j, j < product (select keep ns) -> exists k,
           match hash_value_at_index g j with Some v => v | None => 0%Z end = (group_sum (AX := AX) (marginal_bin keep ns) j items + k * int_span t)%Z).
Proof.
  intros B t keep ts axes ns ops Ht Hc Hl Hu Hx Fn Fm Hw AX AX' DV.
  destruct (C88_marginal_coarsens B keep ts axes ns Hl Hu Hx Fn Fm) as (a & b & Ea & Eb & HC & _).
  assert (Hne : ts <> []). { intros ->. destruct keep; [|discriminate]. apply Hu. reflexivity. }
  exists a, b. split; [exact Ea|]. split; [exact Eb|]. cbv zeta.
  destruct (kept_calls keep ts axes ns a ops Hne Hx Fn Ea Hw) as [Hr Hk].
  destruct (C87_integer_bins_modular B t _ _ _ _ _ _ _ _ _ _ _ _ _ Ht Hc HC Hk) as [Hd Hs].
  destruct (uncovered_left_out (V := Z) (FV := int_fill t) (FD := int_fill_with t) (FW := no_weighted) (DV := int_default t) a ops Hr) as [Ud Us].
  split.
  - destruct (co_bins_1 _ _ _ _ _ _ _ _ _ HC) as [Hn1 _]. destruct (co_bins_2 _ _ _ _ _ _ _ _ _ HC) as [Hn2 _].
    pose (h0 := @mkVecHist (AxesTuple ts) Z a (repeat 0%Z (N.to_nat (product ns)))).
    pose (g0 := @mkVecHist (AxesTuple (select keep ts)) Z b (repeat 0%Z (N.to_nat (product (select keep ns))))).
    assert (E1 : @vec_new _ Z AX (int_default t) a = Val h0) by (unfold vec_new; fold AX in Hn1; rewrite Hn1; reflexivity).
    assert (E2 : @vec_new _ Z AX' (int_default t) b = Val g0) by (unfold vec_new; fold AX' in Hn2; rewrite Hn2; reflexivity).
    exists h0, g0. split; [unfold ndhistogram; rewrite Ea; exact E1|]. split; [unfold ndhistogram; rewrite Eb; exact E2|].
    intros h g Hh Hg. rewrite (Ud h0 eq_refl) in Hh. exact (Hd h0 g0 h g E1 E2 Hh Hg).
  - exists (hash_new a), (hash_new b). split; [unfold sparsehistogram; rewrite Ea; reflexivity|]. split; [unfold sparsehistogram; rewrite Eb; reflexivity|].
    intros h g order Hh Hg Ho. rewrite (Us (hash_new a) eq_refl) in Hh. exact (Hs h g order Hh Hg Ho).
Qed.
Print Assumptions C88_integer_bins_modular.

(** With the default bin type, [f64], and up to 2^53 [fill] calls: exactly the sums (and no call panics). *)
Theorem C88_f64_counts :
  forall (B : Build) (keep : list bool) ts (axes : axes_tuple ts) ns (cs : list (coords ts)),
  (Z.of_nat (length cs) <= 2 ^ 53)%Z ->
  length keep = length ts -> select keep ts <> [] -> tuple_has_bins ts axes ns -> products_fit ns -> products_fit (select keep ns) ->
  (forall c, In c cs -> components_index_within ts axes ns c) ->
  let AX := axes_axis ts in let AX' := axes_axis (select keep ts) in
  let DV := f64_default in
  let exact_sum j (items : list (@Item (intervals ts) f64)) :=
    sumR (map (fun it => B2R (it_value it)) (List.filter (fun it => marginal_bin keep ns (it_index it) =? j) items)) in
  exists a b, axes_from axes = Val a /\ axes_from (pick_axes keep ts axes) = Val b
  /\ let kept := map (pick_coords keep ts) (List.filter (fun c => match axes_index a c with Val (Some _) => true | _ => false end) cs) in
  (exists h0 g0 h g items, ndhistogram ts axes = Val h0 /\ ndhistogram (select keep ts) (pick_axes keep ts axes) = Val g0
     /\ @vec_calls _ f64 f64 Empty_set AX f64_fill f64_fill_with f64_no_weighted h0 (@fills _ AX f64 Empty_set cs) = Val h
     /\ @vec_calls _ f64 f64 Empty_set AX' f64_fill f64_fill_with f64_no_weighted g0 (@fills _ AX' f64 Empty_set kept) = Val g
     /\ vec_iter h = Val items
     /\ forall j, j < product (select keep ns) -> exists v, vec_value_at_index g j = Some v /\ is_finite v = true /\ B2R v = exact_sum j items)
  /\ (exists h0 g0 h g, sparsehistogram ts axes = Val h0 /\ sparsehistogram (select keep ts) (pick_axes keep ts axes) = Val g0
     /\ @hash_calls _ f64 f64 Empty_set AX f64_fill f64_fill_with f64_no_weighted f64_default h0 (@fills _ AX f64 Empty_set cs) = Val h
     /\ @hash_calls _ f64 f64 Empty_set AX' f64_fill f64_fill_with f64_no_weighted f64_default g0 (@fills _ AX' f64 Empty_set kept) = Val g
     /\ forall order, an_order (hash_as_map h) order -> exists items, hash_iter h order = Val items
     /\ forall j, j < product (select keep ns) ->
        match hash_value_at_index g j with Some v => is_finite v = true /\ B2R v = exact_sum j items | None => exact_sum j items = 0%R end).
Proof.
  intros B keep ts axes ns cs Hcs Hl Hu Hx Fn Fm Hw AX AX' DV exact_sum. subst AX AX' DV.
  destruct (C88_marginal_coarsens B keep ts axes ns Hl Hu Hx Fn Fm) as (a & b & Ea & Eb & HC & _).
  assert (Hne : ts <> []). { intros ->. destruct keep; [|discriminate]. apply Hu. reflexivity. }
  exists a, b. split; [exact Ea|]. split; [exact Eb|]. intros kept.
  set (cov := fun c => match axes_index a c with Val (Some _) => true | _ => false end) in *.
  assert (Hw' : forall o, In o (@fills _ (axes_axis ts) f64 Empty_set cs) -> components_index_within ts axes ns (op_coordinate o)).
  { intros o Ho. unfold fills in Ho. apply in_map_iff in Ho as (c & <- & Hc). exact (Hw c Hc). }
  destruct (kept_calls keep ts axes ns a (@fills _ (axes_axis ts) f64 Empty_set cs) Hne Hx Fn Ea Hw') as [Hr Hk].
  assert (Hfl : List.filter (covered a) (@fills _ (axes_axis ts) f64 Empty_set cs) = @fills _ (axes_axis ts) f64 Empty_set (List.filter cov cs)).
  { clear. unfold fills. induction cs as [|c cs IH]; [reflexivity|]. cbn [map List.filter]. rewrite IH.
    change (covered a (@CallFill _ f64 Empty_set (axes_axis ts) c)) with (cov c). destruct (cov c); reflexivity. }
  assert (HF : Forall2 (fun c d => d = pick_coords keep ts c /\ components_index_within ts axes ns c /\ dropped_covered keep ts axes c) (List.filter cov cs) kept).
  { rewrite Hfl in Hk. unfold kept. revert Hk. clear. intros Hk. induction (List.filter cov cs) as [|c l IH]; [constructor|].
    unfold fills in Hk. cbn [map] in *. inversion Hk as [|x y l1 l2 Hxy Hk' E1 E2]; subst. constructor; [|apply IH; exact Hk'].
    inversion Hxy; subst. assumption. }
  assert (Hlen : (Z.of_nat (length (List.filter cov cs)) <= 2 ^ 53)%Z).
  { pose proof (filter_le cov cs). lia. }
  destruct (C87_f64_counts B _ _ (axes_axis ts) (axes_axis (select keep ts)) _ _ a b _ _ _ (List.filter cov cs) kept Hlen HC HF) as [Hd Hs].
  destruct (uncovered_left_out (V := f64) (FV := f64_fill) (FD := f64_fill_with) (FW := f64_no_weighted) (DV := f64_default) a (@fills _ (axes_axis ts) f64 Empty_set cs) Hr) as [Ud Us].
  split.
  - destruct Hd as (h0 & g0 & h & g & items & E1 & E2 & Hh & Hg & Hit & Hv). exists h0, g0, h, g, items.
    split; [unfold ndhistogram; rewrite Ea; exact E1|]. split; [unfold ndhistogram; rewrite Eb; exact E2|].
    split; [|split; [exact Hg|]; split; [exact Hit | exact Hv]]. refine (eq_trans (Ud h0 _) (eq_trans (f_equal _ Hfl) Hh)).
    unfold vec_new in E1. apply obind_val in E1 as [n [_ E1]]. injection E1 as <-. reflexivity.
  - destruct Hs as (h & g & Hh & Hg & Hv). exists (hash_new a), (hash_new b), h, g.
    split; [unfold sparsehistogram; rewrite Ea; reflexivity|]. split; [unfold sparsehistogram; rewrite Eb; reflexivity|].
    split; [exact (eq_trans (Us (hash_new a) eq_refl) (eq_trans (f_equal _ Hfl) Hh))|]. split; [exact Hg | exact Hv].
Qed.
Print Assumptions C88_f64_counts.

Lemma cell_component ns is p n : cell ns is -> nth_error ns p = Some n -> exists j, nth_error is p = Some j /\ j < n.
Proof.
  intros Hc. revert p. induction Hc as [|i m is' ms Hi Hc IH]; intros [|p] Hp; try discriminate; cbn [nth_error] in *.
  - injection Hp as <-. eauto.
  - now apply IH.
Qed.

(** C67/C88 for one axis, with the code's separate implementation for one-axis histograms:
    projecting onto axis [p] is a coarsening, so that C87_integer_bins, C87_integer_bins_modular
    and C87_f64_counts apply to it (as C67_projection says for checked integer bins).
    [x] is the [p]-th axis and [proj] takes the [p]-th coordinate. *)
Theorem C88_one_axis :
  forall (B : Build) ts (axes : axes_tuple ts) ns p n X (AX1 : Axis X) (x : X) (proj : coords ts -> @Coordinate X AX1),
  ts <> [] -> tuple_has_bins ts axes ns -> products_fit ns ->
  nth_error ns p = Some n -> has_bins AX1 x n -> (forall c, index x (proj c) = field_index ts p axes c) ->
  exists a, axes_from axes = Val a /\ axes1_from x = Val (mkAxes1 x [n])
  /\ coarsens (axes_axis ts) (@axes1_axis X AX1)
       (fun c d => d = proj c /\ exists is, cell ns is /\ component_indices ts axes c is)
       (fun bs b => exists is j, cell ns is /\ component_bins ts axes is bs /\ nth_error is p = Some j /\ bin x j = Val (Some b))
       a (mkAxes1 x [n]) (product ns) n (fun i => nth p (digits_of i ns) 0).
Proof.
  intros B ts axes ns p n X AX1 x proj Ht Hx Fn Hp [Hn Hb] Hproj.
  destruct (C20_axes_tuple_has_bins B ts axes ns Ht Hx Fn) as (a1 & A1 & Q1).
  destruct (C23_axes_bin_of_cell B ts axes ns Ht Hx Fn) as (a & Ea & B1). rewrite A1 in Ea. injection Ea as <-.
  destruct (C21_axes_index_value B ts axes ns Ht Hx Fn) as (a & Ea & _ & I1). rewrite A1 in Ea. injection Ea as <-.
  exists a1. split; [exact A1|]. split; [unfold axes1_from; rewrite Hn; reflexivity|].
  assert (Hpos : forall i, i < product ns -> cell ns (digits_of i ns) /\ radix ns (digits_of i ns) = i).
  { intros i Hi. destruct (product_zero_or_pos ns) as [Hz|Hq]; [lia|]. split; [now apply digits_cell|]. rewrite radix_digits by exact Hq. apply N.mod_small. exact Hi. }
  assert (Hdig : forall is, cell ns is -> exists j, nth_error is p = Some j /\ j < n).
  { intros is Hc. exact (cell_component ns is p n Hc Hp). }
  constructor; [exact Q1| | |].
  - split; [exact Hn | exact Hb].
  - intros i Hi. destruct (Hpos i Hi) as [Hc Hr]. destruct (Hdig _ Hc) as (j & Hj & Hjn).
    rewrite (nth_error_nth _ _ 0 Hj). split; [exact Hjn|]. destruct (B1 _ Hc) as (bs & E & Cb). rewrite Hr in E. destruct (Hb j Hjn) as [b Eb].
    exists bs, b. split; [exact E|]. split; [exact Eb|]. exists (digits_of i ns), j. auto.
  - intros c d (-> & is & Hc & Hi). destruct (I1 c is Hi Hc) as [E Lt]. exists (Some (radix ns is)). split; [exact E|]. split; [intros i [= <-]; exact Lt|].
    cbn [option_map]. destruct (Hpos _ Lt) as [Hc' Hr'].
    assert (digits_of (radix ns is) ns = is) as -> by (apply (radix_inj ns); assumption).
    destruct (Hdig is Hc) as (j & Hj & _). rewrite (nth_error_nth _ _ 0 Hj). cbn [index axes1_axis ax1_axis]. rewrite Hproj. exact (component_field ts axes c is p j Hi Hj).
Qed.
Print Assumptions C88_one_axis.

(** Case: three axes (a uniform one with flow bins, and two of categories) with 5 x 3 x 4 bins, summed over the
    middle one. Six calls, the last with a coordinate in overflow bins. *)
Example C88_nonvacuous : forall B : Build,
  let ts := [uni_i32 B; cat_Z B; cat_Z B] in
  let keep := [true; false; true] in
  let axes : axes_tuple ts := (fst (example_axes B), (fst (snd (example_axes B)), (category_new [1; 2; 3]%Z, tt))) in
  let ns := [5; 3; 4] in
  let t := signed 64 in
  let AX := axes_axis ts in
  let calls : list (fill_op Z Empty_set) :=
    [CallFill (25, (7, (1, tt))); CallFillWith (3, (5, (2, tt))) 10; CallFill (29, (7, (3, tt))); CallFillWith (3, (9, (2, tt))) 100;
     CallFill (29, (5, (3, tt))); CallFillWith (-1, (7, (8, tt))) 1000]%Z in
  let AX' := axes_axis (select keep ts) in
  tuple_has_bins ts axes ns /\ products_fit ns /\ products_fit (select keep ns) /\ select keep ns = [5; 4]
  /\ (forall o, In o calls -> components_index_within ts axes ns (@op_coordinate _ _ _ AX o))
  /\ map (marginal_bin keep ns) [0; 5; 14; 15; 59] = [0; 0; 4; 5; 19]
  /\ (let! g0 := ndhistogram (DV := int_default t) (select keep ts) (pick_axes keep ts axes) in
      let! g := @vec_calls _ Z Z Empty_set AX' (int_fill t) (int_fill_with t) no_weighted g0
         (map (@project (AxesTuple ts) (AxesTuple (select keep ts)) Z Empty_set AX AX' (pick_coords keep ts)) calls) in Val (vec_values g))
     = Val [0; 0; 0; 1; 0;  0; 110; 0; 0; 0;  0; 0; 0; 2; 0;  1000; 0; 0; 0; 0]%Z
  /\ (let! h0 := ndhistogram (DV := int_default t) ts axes in
      let! h := @vec_calls _ Z Z Empty_set AX (int_fill t) (int_fill_with t) no_weighted h0 calls in
      let! items := vec_iter h in Val (map (fun j => group_sum (AX := AX) (marginal_bin keep ns) j items) (range 20)))
     = Val [0; 0; 0; 1; 0;  0; 110; 0; 0; 0;  0; 0; 0; 2; 0;  1000; 0; 0; 0; 0]%Z.
Proof.
  intros B ts keep axes ns t AX calls AX'. destruct (C21_nonvacuous B) as (H1 & H2 & H3).
  split.
  { destruct H1 as (Ha & Hb & _). split; [exact Ha|]. split; [exact Hb|]. split; [|reflexivity].
    apply (C20_category_has_bins B Z _ [1; 2; 3]%Z). destruct B as [? []]; vm_compute; reflexivity. }
  assert (Hf : products_fit ns).
  { intros k. assert (Hlt : product (firstn k ns) <= 60) by (destruct k as [|[|[|[|k]]]]; vm_compute; discriminate). pose proof usize_mod_large. lia. }
  split; [exact Hf|]. split; [apply C88_marginal_fits; [repeat constructor | exact Hf]|]. split; [reflexivity|].
  split.
  { intros o Ho. unfold calls in Ho. cbn [In] in Ho.
    assert (G : forall x y z i j k, @index _ (at_axis (uni_i32 B)) (fst axes) x = Val (Some i) -> @index _ (at_axis (cat_Z B)) (fst (snd axes)) y = Val (Some j) ->
       @index _ (at_axis (cat_Z B)) (fst (snd (snd axes))) z = Val (Some k) -> i < 5 -> j < 3 -> k < 4 -> components_index_within ts axes ns (x, (y, (z, tt)))).
    { intros x y z i j k Hi Hj Hk Hi5 Hj3 Hk4. split; [|split; [|split; [|reflexivity]]].
      - exists (Some i). split; [exact Hi|]. intros i' [= <-]. exact Hi5.
      - exists (Some j). split; [exact Hj|]. intros i' [= <-]. exact Hj3.
      - exists (Some k). split; [exact Hk|]. intros i' [= <-]. exact Hk4. }
    destruct Ho as [<-|[<-|[<-|[<-|[<-|[<-|[]]]]]]]; cbn [op_coordinate].
    - apply (G 25%Z 7%Z 1%Z 3 1 0); first [lia | destruct B as [[] []]; vm_compute; reflexivity].
    - apply (G 3%Z 5%Z 2%Z 1 0 1); first [lia | destruct B as [[] []]; vm_compute; reflexivity].
    - apply (G 29%Z 7%Z 3%Z 3 1 2); first [lia | destruct B as [[] []]; vm_compute; reflexivity].
    - apply (G 3%Z 9%Z 2%Z 1 2 1); first [lia | destruct B as [[] []]; vm_compute; reflexivity].
    - apply (G 29%Z 5%Z 3%Z 3 0 2); first [lia | destruct B as [[] []]; vm_compute; reflexivity].
    - apply (G (-1)%Z 7%Z 8%Z 0 1 3); first [lia | destruct B as [[] []]; vm_compute; reflexivity]. }
  split; [vm_compute; reflexivity|].
  split; destruct B as [[] []]; vm_compute; reflexivity.
Qed.
