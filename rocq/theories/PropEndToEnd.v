(** * PropEndToEnd: from the [ndhistogram!] / [sparsehistogram!] macros to the
    numbers read back (C53). *)
From stdpp Require Import gmap.
From Coq Require Import Sorting.Sorted.
From Verif Require Import Base BaseFacts Num Axis Axes AxesSpec AxesFacts Spec FillSpec FillFacts PropAxes
  Value VecHist HashHist HistSpec HistFacts HashFacts PropHist PropHistIter Macros.
Open Scope N_scope.

(** The calls of a history whose coordinate lies in interval [b]. *)
Definition inside {A D W : Type} {AX : Axis A} (mem : Interval -> Coordinate -> bool) (b : Interval)
  (ops : list (fill_op D W)) : list (fill_op D W) :=
  List.filter (fun o => mem b (op_coordinate o)) ops.

Section EndToEnd.
Context {A V D W : Type} {AX : Axis A} {FV : Fill V} {FD : FillWith V D} {FW : FillWithWeighted V D W}
        {DV : Default V}.

Lemma reaching_inside (a : A) n ok mem (ops : list (fill_op D W)) i b :
  exact_axis AX a n ok mem -> Forall (fun o => ok (op_coordinate o)) ops ->
  i < n -> bin a i = Val (Some b) -> reaching a i ops = inside mem b ops.
Proof.
  intros He Ho Hi Hb. induction Ho as [|o ops Ho Hops IH]; [reflexivity|].
  unfold reaching, inside in *. cbn [List.filter].
  assert (Hl : lands_in a i o = mem b (op_coordinate o)).
  { apply eq_true_iff_eq. rewrite lands_in_iff. exact (ex_iff _ _ _ _ _ He _ _ _ Ho Hi Hb). }
  rewrite Hl, IH. reflexivity.
Qed.
End EndToEnd.

(** Dense: create a histogram, make any sequence of filling calls, iterate.  If
    the calls return, iteration returns one item for each of the [n] bins, in
    order, with its interval, and the item's value is what the calls whose
    coordinate lies in that interval (and no others) make of the default value. *)
Theorem C53_dense_contents :
  forall A V D W (AX : Axis A) (FV : Fill V) (FD : FillWith V D) (FW : FillWithWeighted V D W) (DV : Default V)
         (a : A) n ok mem, exact_axis AX a n ok mem ->
  exists h0, vec_new a = Val h0
  /\ forall (ops : list (fill_op D W)) h,
       Forall (fun o => ok (op_coordinate o)) ops -> vec_calls h0 ops = Val h ->
       exists items, vec_iter h = Val items
       /\ N.of_nat (length items) = n
       /\ forall k it, nth_error items k = Some it ->
            it_index it = N.of_nat k
            /\ bin a (N.of_nat k) = Val (Some (it_bin it))
            /\ apply_all (V := V) (inside mem (it_bin it) ops) default_v = Val (it_value it).
Proof.
  intros A V D W AX FV FD FW DV a n ok mem He. pose proof (ex_bins _ _ _ _ _ He) as Hb.
  pose proof (proj1 Hb) as Hn.
  exists (mkVecHist a (repeat default_v (N.to_nat n))).
  assert (H0 : vec_new (V := V) a = Val (mkVecHist a (repeat default_v (N.to_nat n)))).
  { unfold vec_new. rewrite Hn. reflexivity. }
  split; [exact H0|]. intros ops h Ho Hc.
  destruct (C28_vec_contents_are_tally _ _ _ _ _ _ _ _ _ _ _ _ _ _ Hn H0 Hc) as [Ha [Hv [Hv' _]]].
  assert (Hl : N.of_nat (length (vec_values h)) = n).
  { unfold vec_value_at_index, vec_values in *.
    assert (~ (N.of_nat (length (vh_values h)) < n)).
    { intros Hlt. destruct (Hv _ Hlt) as [v [E _]]. rewrite Nat2N.id in E.
      assert (length (vh_values h) < length (vh_values h))%nat; [|lia].
      apply nth_error_Some. rewrite E. discriminate. }
    assert (~ (n < N.of_nat (length (vh_values h)))).
    { intros Hlt. specialize (Hv' n (N.le_refl _)). apply nth_error_None in Hv'. lia. }
    lia. }
  rewrite <- Ha in Hb. destruct (C32_vec_iter _ _ _ _ _ Hb Hl) as [items [E [E1 [E2 _]]]].
  exists items. split; [exact E|]. split; [exact E1|]. intros k it Hk.
  destruct (E2 k it Hk) as [I1 [I2 I3]]. rewrite Ha in I2. split; [exact I1|]. split; [exact I2|].
  assert (Hlt : N.of_nat k < n).
  { assert (k < length items)%nat by (apply nth_error_Some; rewrite Hk; discriminate). lia. }
  rewrite <- (reaching_inside _ _ _ _ _ _ _ He Ho Hlt I2).
  destruct (Hv _ Hlt) as [v [Ev1 Ev2]]. rewrite I3 in Ev1. injection Ev1 as <-. exact Ev2.
Qed.
Print Assumptions C53_dense_contents.

(** Sparse: iteration, in whatever order, returns an item for exactly those bins
    whose interval contains the coordinate of some call, with the same value. *)
Theorem C53_sparse_contents :
  forall A V D W (AX : Axis A) (FV : Fill V) (FD : FillWith V D) (FW : FillWithWeighted V D W) (DV : Default V)
         (a : A) n ok mem, exact_axis AX a n ok mem ->
  forall (ops : list (fill_op D W)) h order,
       Forall (fun o => ok (op_coordinate o)) ops -> hash_calls (hash_new a) ops = Val h ->
       an_order (hh_values h) order ->
       exists items, hash_iter h order = Val items
       /\ NoDup (map it_index items)
       /\ (forall it, In it items ->
            it_index it < n
            /\ bin a (it_index it) = Val (Some (it_bin it))
            /\ inside mem (it_bin it) ops <> []
            /\ apply_all (V := V) (inside mem (it_bin it) ops) default_v = Val (it_value it))
       /\ (forall i b, i < n -> bin a i = Val (Some b) -> inside mem b ops <> [] ->
             exists v, In (mkItem i b v) items).
Proof.
  intros A V D W AX FV FD FW DV a n ok mem He ops h order Ho Hc Hor. pose proof (ex_bins _ _ _ _ _ He) as Hb.
  destruct (C29_hash_contents_are_tally _ _ _ _ _ _ _ _ _ _ _ _ Hc) as [Ha [Hv0 [Hv1 _]]].
  assert (Hr : forall i, reaching a i ops <> [] -> i < n).
  { intros i Hne. destruct (reaching a i ops) as [|o l] eqn:E; [congruence|].
    assert (Hin : In o (reaching a i ops)) by (rewrite E; left; reflexivity).
    unfold reaching in Hin. apply filter_In in Hin as [Hin Hl]. apply lands_in_iff in Hl.
    rewrite List.Forall_forall in Ho. destruct (ex_index _ _ _ _ _ He _ (Ho o Hin)) as [r [Hr Hlt]].
    apply Hlt. congruence. }
  assert (Hk : forall i v, hash_value_at_index h i = Some v -> i < n).
  { intros i v Hi. apply Hr. intros E. rewrite (Hv0 i E) in Hi. discriminate. }
  pose proof Hb as Hb'. rewrite <- Ha in Hb'.
  destruct (C31_hash_iter _ _ _ _ _ _ Hb' Hk Hor) as [items [E [E1 [E2 [E3 _]]]]].
  exists items. split; [exact E|]. split; [exact E1|]. split.
  - intros it Hin. destruct (E2 it Hin) as [I1 I2]. rewrite Ha in I1. pose proof (Hk _ _ I2) as Hlt.
    split; [exact Hlt|]. split; [exact I1|].
    rewrite <- (reaching_inside _ _ _ _ _ _ _ He Ho Hlt I1).
    destruct (reaching a (it_index it) ops) as [|o l] eqn:Er.
    + rewrite (Hv0 _ Er) in I2. discriminate.
    + split; [discriminate|]. destruct (Hv1 (it_index it)) as [v [W1 W2]]; [rewrite Er; discriminate|].
      rewrite I2 in W1. injection W1 as <-. rewrite Er in W2. exact W2.
  - intros i b Hi Hbi Hne. rewrite <- (reaching_inside _ _ _ _ _ _ _ He Ho Hi Hbi) in Hne.
    destruct (Hv1 i Hne) as [v [W1 _]]. destruct (E3 i v W1) as [b' Hin].
    destruct (E2 _ Hin) as [I1 _]. cbn [it_index it_bin] in I1. rewrite Ha, Hbi in I1. injection I1 as ->. eauto.
Qed.
Print Assumptions C53_sparse_contents.

(** Tuples of exact axes are exact; the interval of a cell is the product of the
    component intervals. *)
Theorem C53_tuples_exact : forall (B : Build) ts (axes : axes_tuple ts) ns oks tests,
  ts <> [] -> exact_components ts axes ns oks tests -> products_fit ns ->
  exists a, axes_from axes = Val a
    /\ exact_axis (axes_axis ts) a (product ns) (all_ok ts oks) (all_tests ts tests).
Proof. intros B ts axes ns oks tests. apply exact_tuple. Qed.
Print Assumptions C53_tuples_exact.

Theorem C53_tuple1_exact : forall X (AX : Axis X) (x : X) n ok mem, exact_axis AX x n ok mem ->
  exists a, axes1_from x = Val a /\ exact_axis axes1_axis a n ok mem.
Proof.
  intros X AX x n ok mem He. exists (mkAxes1 x [n]). split.
  - unfold axes1_from. rewrite (proj1 (ex_bins _ _ _ _ _ He)). reflexivity.
  - destruct He as [H1 H2 H3]. constructor; [exact H1 | exact H2 | exact H3].
Qed.
Print Assumptions C53_tuple1_exact.

(** [ndhistogram!(x, y, ...; V)], any number of axes. *)
Theorem C53_ndhistogram : forall (B : Build) V D W (FV : Fill V) (FD : FillWith V D)
  (FW : FillWithWeighted V D W) (DV : Default V) ts (axes : axes_tuple ts) ns oks tests,
  ts <> [] -> exact_components ts axes ns oks tests -> products_fit ns ->
  let AX := axes_axis ts in
  exists h0 : VecHistogram (AxesTuple ts) V, ndhistogram ts axes = Val h0
  /\ num_dim (vh_axes h0) = N.of_nat (length ts)
  /\ num_bins (vh_axes h0) = Val (product ns)
  /\ forall (ops : list (fill_op D W)) h,
       Forall (fun o => all_ok ts oks (op_coordinate o)) ops -> vec_calls h0 ops = Val h ->
       exists items, vec_iter h = Val items
       /\ N.of_nat (length items) = product ns
       /\ forall k it, nth_error items k = Some it ->
            it_index it = N.of_nat k
            /\ (exists is, cell ns is /\ radix ns is = N.of_nat k /\ component_bins ts axes is (it_bin it))
            /\ apply_all (V := V) (List.filter (fun o => all_tests ts tests (it_bin it) (op_coordinate o)) ops)
                 default_v = Val (it_value it).
Proof.
  intros B V D W FV FD FW DV ts axes ns oks tests Hts He Hf AX.
  destruct (exact_tuple B ts axes ns oks tests Hts He Hf) as [a [Ha Hea]].
  destruct (C53_dense_contents _ V D W _ FV FD FW DV a _ _ _ Hea) as [h0 [H0 Hall]].
  exists h0. split; [unfold ndhistogram; rewrite Ha; exact H0|].
  assert (Hax : vh_axes h0 = a).
  { unfold vec_new in H0. apply obind_val in H0 as [s [_ H0]]. injection H0 as <-. reflexivity. }
  rewrite Hax. split; [reflexivity|]. split; [exact (proj1 (ex_bins _ _ _ _ _ Hea))|].
  intros ops h Ho Hc. destruct (Hall ops h Ho Hc) as [items [E1 [E2 E3]]].
  exists items. split; [exact E1|]. split; [exact E2|]. intros k it Hk.
  destruct (E3 k it Hk) as [I1 [I2 I3]]. split; [exact I1|]. split; [|exact I3].
  assert (Hlt : N.of_nat k < product ns).
  { assert (k < length items)%nat by (apply nth_error_Some; intros Hno; discriminate (eq_trans (eq_sym Hk) Hno)). lia. }
  destruct (C21_cells_bijection ns _ Hlt) as [is [Hcell [Hr _]]]. exists is.
  split; [exact Hcell|]. split; [exact Hr|].
  destruct (C23_axes_bin_of_cell B ts axes ns Hts (exact_tuple_has_bins B _ _ _ _ _ He) Hf) as [a' [Ha' Hb]].
  rewrite Ha in Ha'. injection Ha' as <-. destruct (Hb is Hcell) as [bs [Hbs Hcb]].
  rewrite Hr in Hbs. cbn [bin axes_axis] in I2. rewrite I2 in Hbs. injection Hbs as Hbs.
    exact (eq_ind_r (fun z => component_bins ts axes is z) Hcb Hbs).
Qed.
Print Assumptions C53_ndhistogram.

(** [ndhistogram!(x; V)]. *)
Theorem C53_ndhistogram1 : forall V D W (FV : Fill V) (FD : FillWith V D)
  (FW : FillWithWeighted V D W) (DV : Default V) X (AX : Axis X) (x : X) n ok mem,
  exact_axis AX x n ok mem ->
  let AX1 := @axes1_axis X AX in
  exists h0 : VecHistogram (AxesTuple1 X) V, ndhistogram1 x = Val h0
  /\ num_dim (vh_axes h0) = 1
  /\ num_bins (vh_axes h0) = Val n
  /\ forall (ops : list (@fill_op (AxesTuple1 X) D W AX1)) h,
       Forall (fun o => ok (op_coordinate (AX := AX1) o)) ops -> vec_calls h0 ops = Val h ->
       exists items, vec_iter h = Val items
       /\ N.of_nat (length items) = n
       /\ forall k it, nth_error items k = Some it ->
            it_index it = N.of_nat k
            /\ @bin X AX x (N.of_nat k) = Val (Some (it_bin it))
            /\ apply_all (V := V) (List.filter (fun o => mem (it_bin it) (op_coordinate (AX := AX1) o)) ops)
                 default_v = Val (it_value it).
Proof.
  intros V D W FV FD FW DV X AX x n ok mem He AX1.
  destruct (C53_tuple1_exact X AX x n ok mem He) as [a [Ha Hea]].
  destruct (C53_dense_contents _ V D W _ FV FD FW DV a _ _ _ Hea) as [h0 [H0 Hall]].
  exists h0. split; [unfold ndhistogram1; rewrite Ha; exact H0|].
  assert (Hax : vh_axes h0 = a).
  { unfold vec_new in H0. apply obind_val in H0 as [s [_ H0]]. injection H0 as <-. reflexivity. }
  rewrite Hax. split; [reflexivity|]. split; [exact (proj1 (ex_bins _ _ _ _ _ Hea))|].
  assert (Hx : ax1_axis a = x).
  { unfold axes1_from in Ha. apply obind_val in Ha as [s [_ Ha]]. injection Ha as <-. reflexivity. }
  intros ops h Ho Hc. destruct (Hall ops h Ho Hc) as [items [E1 [E2 E3]]].
  exists items. split; [exact E1|]. split; [exact E2|]. intros k it Hk.
  destruct (E3 k it Hk) as [I1 [I2 I3]]. split; [exact I1|]. split; [|exact I3].
  cbn [bin axes1_axis] in I2. rewrite Hx in I2. exact I2.
Qed.
Print Assumptions C53_ndhistogram1.

(** [sparsehistogram!]: one and several axes. *)
Theorem C53_sparsehistogram : forall (B : Build) V D W (FV : Fill V) (FD : FillWith V D)
  (FW : FillWithWeighted V D W) (DV : Default V) ts (axes : axes_tuple ts) ns oks tests,
  ts <> [] -> exact_components ts axes ns oks tests -> products_fit ns ->
  let AX := axes_axis ts in
  exists h0 : HashHistogram (AxesTuple ts) V, sparsehistogram ts axes = Val h0
  /\ forall (ops : list (fill_op D W)) h order,
       Forall (fun o => all_ok ts oks (op_coordinate o)) ops -> hash_calls h0 ops = Val h ->
       an_order (hh_values h) order ->
       exists items, hash_iter h order = Val items
       /\ NoDup (map it_index items)
       /\ (forall it, In it items ->
            (exists is, cell ns is /\ radix ns is = it_index it /\ component_bins ts axes is (it_bin it))
            /\ let fills := List.filter (fun o => all_tests ts tests (it_bin it) (op_coordinate o)) ops in
               fills <> [] /\ apply_all (V := V) fills default_v = Val (it_value it))
       /\ (forall o, In o ops -> ~ some_component_uncovered ts axes (op_coordinate o) ->
             exists it, In it items /\ all_tests ts tests (it_bin it) (op_coordinate o) = true).
Proof.
  intros B V D W FV FD FW DV ts axes ns oks tests Hts He Hf AX.
  destruct (exact_tuple B ts axes ns oks tests Hts He Hf) as [a [Ha Hea]].
  exists (hash_new a). split; [unfold sparsehistogram; rewrite Ha; reflexivity|].
  intros ops h order Ho Hc Hor.
  destruct (C53_sparse_contents _ V D W _ FV FD FW DV a _ _ _ Hea ops h order Ho Hc Hor)
    as [items [E1 [E2 [E3 E4]]]].
  exists items. split; [exact E1|]. split; [exact E2|].
  pose proof (exact_tuple_has_bins B _ _ _ _ _ He) as Htb.
  destruct (C23_axes_bin_of_cell B ts axes ns Hts Htb Hf) as [a' [Ha' Hb]].
  rewrite Ha in Ha'. injection Ha' as <-. split.
  - intros it Hin. destruct (E3 it Hin) as [I1 [I2 [I3 I4]]]. split; [|split; [exact I3 | exact I4]].
    destruct (C21_cells_bijection ns _ I1) as [is [Hcell [Hr _]]]. exists is.
    split; [exact Hcell|]. split; [exact Hr|]. destruct (Hb is Hcell) as [bs [Hbs Hcb]].
    rewrite Hr in Hbs. cbn [bin axes_axis] in I2. rewrite I2 in Hbs. injection Hbs as Hbs.
    exact (eq_ind_r (fun z => component_bins ts axes is z) Hcb Hbs).
  - intros o Hin Hcov. rewrite List.Forall_forall in Ho. specialize (Ho o Hin).
    destruct (C22_axes_index_none B ts axes ns Hts Htb Hf) as [a' [Ha' Hn]].
    rewrite Ha in Ha'. injection Ha' as <-.
    destruct (Hn _ (exact_index_within _ _ _ _ _ _ He Ho)) as [Hn1 [r [Hr1 Hr2]]].
    destruct r as [i|]; [|apply Hn1 in Hr1; contradiction]. specialize (Hr2 i eq_refl).
    destruct (proj2 (ex_bins _ _ _ _ _ Hea) i Hr2) as [b Hbi].
    assert (Ht : all_tests ts tests b (op_coordinate o) = true).
    { apply (ex_iff _ _ _ _ _ Hea _ _ _ Ho Hr2 Hbi). exact Hr1. }
    destruct (E4 i b Hr2 Hbi) as [v Hv].
    + intros Hnil. exact (eq_ind _ (fun l => In o l) (proj2 (filter_In _ o ops) (conj Hin Ht)) _ Hnil).
    + exists (mkItem i b v). split; [exact Hv | exact Ht].
Qed.
Print Assumptions C53_sparsehistogram.

Theorem C53_sparsehistogram1 : forall V D W (FV : Fill V) (FD : FillWith V D)
  (FW : FillWithWeighted V D W) (DV : Default V) X (AX : Axis X) (x : X) n ok mem,
  exact_axis AX x n ok mem ->
  let AX1 := @axes1_axis X AX in
  exists h0 : HashHistogram (AxesTuple1 X) V, sparsehistogram1 x = Val h0
  /\ forall (ops : list (@fill_op (AxesTuple1 X) D W AX1)) h order,
       Forall (fun o => ok (op_coordinate (AX := AX1) o)) ops -> hash_calls h0 ops = Val h ->
       an_order (hh_values h) order ->
       exists items, hash_iter h order = Val items
       /\ NoDup (map it_index items)
       /\ (forall it, In it items ->
            it_index it < n
            /\ @bin X AX x (it_index it) = Val (Some (it_bin it))
            /\ let fills := List.filter (fun o => mem (it_bin it) (op_coordinate (AX := AX1) o)) ops in
               fills <> [] /\ apply_all (V := V) fills default_v = Val (it_value it))
       /\ (forall i b, i < n -> @bin X AX x i = Val (Some b) ->
             List.filter (fun o => mem b (op_coordinate (AX := AX1) o)) ops <> [] -> exists v, In (mkItem i b v) items).
Proof.
  intros V D W FV FD FW DV X AX x n ok mem He AX1.
  destruct (C53_tuple1_exact X AX x n ok mem He) as [a [Ha Hea]].
  assert (Hx : ax1_axis a = x).
  { unfold axes1_from in Ha. apply obind_val in Ha as [s [_ Ha]]. injection Ha as <-. reflexivity. }
  exists (hash_new a). split; [unfold sparsehistogram1; rewrite Ha; reflexivity|].
  intros ops h order Ho Hc Hor.
  destruct (C53_sparse_contents _ V D W _ FV FD FW DV a _ _ _ Hea ops h order Ho Hc Hor)
    as [items [E1 [E2 [E3 E4]]]].
  cbn [bin axes1_axis] in E3, E4. rewrite Hx in E3, E4.
  exists items. split; [exact E1|]. split; [exact E2|]. split; [|exact E4].
  intros it Hin. destruct (E3 it Hin) as [I1 [I2 [I3 I4]]]. repeat (split; [assumption|]). exact I4.
Qed.
Print Assumptions C53_sparsehistogram1.

(** For any axes at all (floating point ones included), in terms of [index] of
    the component axes: the value of a cell is what the calls all of whose
    components land in that cell make of the default. *)
Theorem C53_cells_any_axes : forall (B : Build) V D W (FV : Fill V) (FD : FillWith V D)
  (FW : FillWithWeighted V D W) (DV : Default V) ts (axes : axes_tuple ts) ns,
  ts <> [] -> tuple_has_bins ts axes ns -> products_fit ns ->
  let AX := axes_axis ts in
  exists h0 : VecHistogram (AxesTuple ts) V, ndhistogram ts axes = Val h0
  /\ forall (ops : list (fill_op D W)) h,
       Forall (fun o => components_index_within ts axes ns (op_coordinate o)) ops -> vec_calls h0 ops = Val h ->
       forall is, cell ns is ->
       forall sel : fill_op D W -> bool,
         (forall o, In o ops -> (sel o = true <-> component_indices ts axes (op_coordinate o) is)) ->
         exists v, vec_value_at_index h (radix ns is) = Some v
                   /\ apply_all (V := V) (List.filter sel ops) default_v = Val v.
Proof.
  intros B V D W FV FD FW DV ts axes ns Hts Hb Hf AX.
  destruct (C20_axes_tuple_has_bins B ts axes ns Hts Hb Hf) as [a [Ha [Hn _]]].
  destruct (C22_axes_index_none B ts axes ns Hts Hb Hf) as [a' [Ha' Hno]].
  rewrite Ha in Ha'. injection Ha' as <-.
  destruct (C21_axes_index_value B ts axes ns Hts Hb Hf) as [a' [Ha' [_ Hi]]].
  rewrite Ha in Ha'. injection Ha' as <-.
  assert (H0 : vec_new (AX := axes_axis ts) (V := V) a = Val (mkVecHist a (repeat default_v (N.to_nat (product ns))))).
  { unfold vec_new. rewrite Hn. reflexivity. }
  eexists. split; [unfold ndhistogram; rewrite Ha; exact H0|].
  intros ops h Ho Hc is Hcell sel Hsel.
  destruct (C28_vec_contents_are_tally _ _ _ _ _ _ _ _ _ _ _ _ _ _ Hn H0 Hc) as [_ [Hv _]].
  destruct (Hv (radix ns is) (radix_lt ns is Hcell)) as [v [Hv1 Hv2]]. exists v. split; [exact Hv1|].
  rewrite <- Hv2. f_equal. unfold reaching. apply List.filter_ext_in. intros o Hin. apply eq_true_iff_eq.
  rewrite (Hsel o Hin), lands_in_iff. cbn [index axes_axis AX].
  rewrite List.Forall_forall in Ho. specialize (Ho o Hin). split.
  - intros Hci. exact (proj1 (Hi _ _ Hci Hcell)).
  - intros Hix. destruct (all_indices_cases _ _ _ _ Ho) as [[js [H1 [H2 [H3 _]]]]|[H1 H2]].
    + destruct (Hi _ js H2 H3) as [E _]. assert (Hr : radix ns js = radix ns is) by (pose proof (eq_trans (eq_sym E) Hix) as Hr; injection Hr as Hr; exact Hr).
      apply radix_inj in Hr; [subst; exact H2 | exact H3 | exact Hcell].
    + apply (proj1 (Hno _ Ho)) in H2. discriminate (eq_trans (eq_sym H2) Hix).
Qed.
Print Assumptions C53_cells_any_axes.
