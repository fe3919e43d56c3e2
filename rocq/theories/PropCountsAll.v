(** * PropCountsAll: exact counts for every bin type, dense and sparse (C53, C80). *)
From stdpp Require Import gmap.
From Coq Require Import ZifyN ZifyNat ZifyBool Lia Reals.
From Flocq Require Import Core IEEE754.BinarySingleNaN.
From Verif Require Import Base BaseFacts Num Float FloatFacts Axis Axes Spec AxesSpec Uniform Category Value VecHist HashHist HistSpec
  HistFacts PropHist PropHistIter PropOrder PropIntBins Macros FillSpec PropCount PropEndToEnd PropExactAxes PropAxes ExactSpec FloatSpec GridSpec PropFloatGrid.
Open Scope N_scope.

(** C53. When a sequence of fill calls returns at all: exactly when, for every bin, the calls whose
    coordinates lie in its interval can be applied to the default value. *)
Theorem C53_returns_iff : forall A V D W (AX : Axis A) (FV : Fill V) (FD : FillWith V D) (FW : FillWithWeighted V D W) (DV : Default V)
  (a : A) n ok mem, exact_axis AX a n ok mem ->
  forall ops : list (fill_op D W), Forall (fun o => ok (op_coordinate o)) ops ->
  let each_bin_returns := forall i b, i < n -> bin a i = Val (Some b) -> exists v, apply_all (V := V) (inside mem b ops) default_v = Val v in
  (forall h0, vec_new a = Val h0 -> (exists h, vec_calls h0 ops = Val h) <-> each_bin_returns)
  /\ ((exists h, hash_calls (V := V) (hash_new a) ops = Val h) <-> each_bin_returns).
Proof.
  intros A V D W AX FV FD FW DV a n ok mem He ops Ho each.
  pose proof (ex_bins _ _ _ _ _ He) as Hb.
  assert (Hix : forall o, In o ops -> exists r, index a (op_coordinate o) = Val r).
  { intros o Hin. rewrite List.Forall_forall in Ho. destruct (ex_index _ _ _ _ _ He _ (Ho o Hin)) as [r [Hr _]]. eauto. }
  assert (Hr : forall i, n <= i -> reaching a i ops = []).
  { intros i Hi. destruct (reaching a i ops) as [|o l] eqn:E; [reflexivity|]. exfalso.
    assert (Hin : In o (reaching a i ops)) by (rewrite E; left; reflexivity).
    unfold reaching in Hin. apply filter_In in Hin as [Hin Hl]. apply lands_in_iff in Hl.
    rewrite List.Forall_forall in Ho. destruct (ex_index _ _ _ _ _ He _ (Ho o Hin)) as [r [Hr Hlt]].
    assert (i < n) by (apply Hlt; congruence). lia. }
  assert (Heach : each <-> forall i, i < n -> exists v, apply_all (V := V) (reaching a i ops) default_v = Val v).
  { split.
    - intros H i Hi. destruct (proj2 Hb i Hi) as [b Eb]. rewrite (reaching_inside _ _ _ _ _ _ _ He Ho Hi Eb). eauto.
    - intros H i b Hi Eb. rewrite <- (reaching_inside _ _ _ _ _ _ _ He Ho Hi Eb). eauto. }
  split.
  - intros h0 H0. rewrite Heach. rewrite (C28_vec_history_returns_iff _ _ _ _ _ _ _ _ _ _ _ _ _ (proj1 Hb) H0). tauto.
  - rewrite Heach, C29_hash_history_returns_iff. split; [intros [_ H] i _; apply H|]. intros H. split; [exact Hix|]. intros i.
    destruct (N.lt_ge_cases i n) as [Hi|Hi]; [auto|]. rewrite (Hr i Hi). eexists. reflexivity.
Qed.
Print Assumptions C53_returns_iff.

(** Filling at [cs] gives the right counts: every call returns, iteration shows each bin of
    the dense histogram and each bin of the sparse one that contains some coordinate, and
    each value reads as the number of coordinates in the interval of its bin. *)
Definition in_bin {I X} (mem : I -> X -> bool) (b : I) (cs : list X) : N := N.of_nat (length (List.filter (mem b) cs)).
Definition counts_correctly {A V D W} {AX : Axis A} {FV : Fill V} {FD : FillWith V D} {FW : FillWithWeighted V D W} {DV : Default V}
    (a : A) (n : N) (mem : Interval -> Coordinate -> bool) (cs : list Coordinate) (reads : V -> N -> Prop) : Prop :=
  (exists h0 h items, vec_new a = Val h0 /\ vec_calls h0 (fills (D := D) (W := W) cs) = Val h /\ vec_iter h = Val items
     /\ N.of_nat (length items) = n
     /\ forall k it, nth_error items k = Some it ->
          it_index it = N.of_nat k /\ bin a (N.of_nat k) = Val (Some (it_bin it)) /\ reads (it_value it) (in_bin mem (it_bin it) cs))
  /\ (exists h, hash_calls (V := V) (hash_new a) (fills (D := D) (W := W) cs) = Val h
     /\ forall order, an_order (hash_as_map h) order ->
        exists items, hash_iter h order = Val items /\ NoDup (map it_index items)
        /\ (forall it, In it items -> it_index it < n /\ bin a (it_index it) = Val (Some (it_bin it))
              /\ 0 < in_bin mem (it_bin it) cs /\ reads (it_value it) (in_bin mem (it_bin it) cs))
        /\ (forall i b, i < n -> bin a i = Val (Some b) -> 0 < in_bin mem b cs -> exists v, In (mkItem i b v) items)).

Lemma inside_fills {A D W} {AX : Axis A} mem b (cs : list Coordinate) :
  inside mem b (fills cs) = fills (D := D) (W := W) (List.filter (mem b) cs).
Proof.
  unfold inside, fills. induction cs as [|c cs IH]; [reflexivity|]. cbn [map List.filter op_coordinate].
  rewrite IH. destruct (mem b c); reflexivity.
Qed.

Lemma counts_by_length A V D W (AX : Axis A) (FV : Fill V) (FD : FillWith V D) (FW : FillWithWeighted V D W) (DV : Default V)
  (a : A) n ok mem cs (reads : V -> N -> Prop) : exact_axis AX a n ok mem -> Forall ok cs ->
  (forall i b, i < n -> bin a i = Val (Some b) -> exists v, apply_all (V := V) (fills (D := D) (W := W) (List.filter (mem b) cs)) default_v = Val v /\ reads v (in_bin mem b cs)) ->
  counts_correctly (D := D) (W := W) a n mem cs reads.
Proof.
  intros He Hcs Hv.
  assert (Hok : Forall (fun o => ok (op_coordinate o)) (fills (D := D) (W := W) cs)).
  { unfold fills. rewrite List.Forall_forall in *. intros o Ho. apply in_map_iff in Ho as [c [<- Hc]]. cbn. auto. }
  destruct (C53_returns_iff _ _ _ _ AX FV FD FW DV a n ok mem He _ Hok) as [Rd Rs].
  assert (Hall : forall i b, i < n -> bin a i = Val (Some b) -> exists v, apply_all (V := V) (inside mem b (fills (D := D) (W := W) cs)) default_v = Val v).
  { intros i b Hi Hb. rewrite inside_fills. destruct (Hv i b Hi Hb) as [v [E _]]. eauto. }
  split.
  - destruct (C53_dense_contents _ _ _ _ AX FV FD FW DV a n ok mem He) as [h0 [H0 Hc]].
    destruct (proj2 (Rd h0 H0) Hall) as [h Hh]. destruct (Hc _ _ Hok Hh) as [items [E1 [E2 E3]]].
    exists h0, h, items. do 4 (split; [assumption|]). intros k it Hk. destruct (E3 k it Hk) as [I1 [I2 I3]].
    split; [exact I1|]. split; [exact I2|]. rewrite inside_fills in I3.
    assert (Hlt : N.of_nat k < n). { assert (k < length items)%nat by (apply nth_error_Some; rewrite Hk; discriminate). lia. }
    destruct (Hv _ _ Hlt I2) as [v [E R]]. rewrite I3 in E. injection E as ->. exact R.
  - destruct (proj2 Rs Hall) as [h Hh]. exists h. split; [exact Hh|]. intros order Hor.
    destruct (C53_sparse_contents _ _ _ _ AX FV FD FW DV a n ok mem He _ _ order Hok Hh Hor) as [items [E1 [E2 [E3 E4]]]].
    exists items. split; [exact E1|]. split; [exact E2|]. split.
    + intros it Hin. destruct (E3 it Hin) as [I1 [I2 [I3 I4]]]. rewrite inside_fills in I3, I4.
      split; [exact I1|]. split; [exact I2|]. destruct (Hv _ _ I1 I2) as [v [E R]]. rewrite I4 in E. injection E as ->. split; [|exact R].
      unfold in_bin. destruct (List.filter (mem (it_bin it)) cs); [contradiction I3; reflexivity | cbn [length]; lia].
    + intros i b Hi Hb Hpos. apply (E4 i b Hi Hb). rewrite inside_fills. unfold in_bin in Hpos.
      destruct (List.filter (mem b) cs); [cbn in Hpos; lia | discriminate].
Qed.

(** C53. Float bins of any format: each value is exactly the number of coordinates in the bin,
    as long as that is at most [2^prec] (2^53 for f64, 2^24 for f32), where it sticks. *)
Theorem C53_float_counts : forall (prec emax : Z) (P : Prec_gt_0 prec) (E : Prec_lt_emax prec emax) (B : Build) A (AX : Axis A) (a : A) n ok mem cs,
  (1 < prec)%Z -> exact_axis AX a n ok mem -> Forall ok cs ->
  let FV := float_fill prec emax P E in let FD := float_fill_with prec emax P E in let FW := float_no_weighted prec emax in let DV := float_default prec emax P E in
  counts_correctly (D := binary_float prec emax) (W := Empty_set) a n mem cs (fun v k => is_finite v = true /\ B2R v = IZR (Z.min (Z.of_N k) (2 ^ prec))).
Proof.
  intros prec emax P E B A AX a n ok mem cs Hp He Hcs FV FD FW DV. apply (counts_by_length _ _ _ _ _ _ _ _ _ _ _ ok); [exact He | exact Hcs|].
  intros i b Hi Hb. eexists. split; [exact (all_count0 prec emax P E Hp (List.filter (mem b) cs))|].
  assert (Hpos : (0 < 2 ^ prec)%Z) by (apply Z.pow_pos_nonneg; lia).
  destruct (float_of_N_exact prec emax P E (N.min (in_bin mem b cs) (Z.to_N (2 ^ prec)))) as [F1 [F2 F3]]; [lia|].
  unfold in_bin in *. split; [exact F2|]. rewrite F1. f_equal. lia.
Qed.
Print Assumptions C53_float_counts.

Lemma int_fills {B : Build} (t : int_type) {A} {AX : Axis A} (cs : list Coordinate) : primitive_int t -> forall v, fits t v -> (0 <= v)%Z ->
  @apply_all A Z Z Empty_set AX (int_fill t) (int_fill_with t) no_weighted (fills cs) v
  = let r := (v + Z.of_nat (length cs))%Z in if overflow_checks then if (r <=? int_max t)%Z then Val r else Panic else Val (wrap t r).
Proof.
  intros Hp. assert (Hb : (int_min t <= int_max t)%Z) by (destruct Hp as [w [Hw [-> | ->]]]; cbn; pose proof (Z.pow_pos_nonneg 2 (w - 1)); pose proof (Z.pow_pos_nonneg 2 w); lia).
  destruct overflow_checks eqn:Ec.
  - induction cs as [|c cs IH]; intros v Hv H0; unfold apply_all, fills; cbn [map foldo length].
    + unfold fits in Hv. replace (v + Z.of_nat 0)%Z with v by lia. destruct (Z.leb_spec v (int_max t)); [reflexivity | lia].
    + rewrite int_effect. cbn [amount]. unfold int_result. rewrite Ec. unfold apply_all, fills in IH.
      destruct (in_range t (v + 1)) eqn:Er; cbn [obind].
      * rewrite IH; [|unfold in_range in Er; unfold fits; lia | lia].
        replace (v + 1 + Z.of_nat (length cs))%Z with (v + Z.of_nat (S (length cs)))%Z by lia. reflexivity.
      * unfold in_range in Er. unfold fits in Hv. destruct (Z.leb_spec (v + Z.of_nat (S (length cs))) (int_max t)); [lia | reflexivity].
  - enough (H : forall v, foldo (fun w o => @op_effect A Z Z Empty_set AX (int_fill t) (int_fill_with t) no_weighted o w) (fills cs) (wrap t v) = Val (wrap t (v + Z.of_nat (length cs)))).
    { intros v Hv H0. cbv zeta. rewrite <- (H v), (wrap_fits t v Hb Hv). reflexivity. }
    induction cs as [|c cs IH]; intros v; unfold fills; cbn [map foldo length].
    + replace (v + Z.of_nat 0)%Z with v by lia. reflexivity.
    + rewrite int_effect. cbn [amount]. rewrite int_result_unchecked, wrap_add by assumption. cbn [obind]. unfold fills in IH. rewrite IH. do 2 f_equal. lia.
Qed.

(** C53. Integer bins: with overflow checks the calls return exactly when no bin contains more
    coordinates than the type can count, and then each value is the number of coordinates; without, each value is that
    number wrapped around. *)
Theorem C53_int_counts : forall (B : Build) (t : int_type) A (AX : Axis A) (a : A) n ok mem cs,
  primitive_int t -> exact_axis AX a n ok mem -> Forall ok cs ->
  let FV := int_fill t in let FD := int_fill_with t in let FW := no_weighted in let DV := int_default t in
  let fits_each := forall i b, i < n -> bin a i = Val (Some b) -> (Z.of_N (in_bin mem b cs) <= int_max t)%Z in
  (overflow_checks = false -> counts_correctly (D := Z) (W := Empty_set) a n mem cs (fun v k => v = wrap t (Z.of_N k)))
  /\ (fits_each -> counts_correctly (D := Z) (W := Empty_set) a n mem cs (fun v k => v = Z.of_N k))
  /\ (overflow_checks = true -> ~ fits_each ->
      (forall h0, vec_new a = Val h0 -> vec_calls h0 (fills (D := Z) (W := Empty_set) cs) = Panic)
      /\ hash_calls (hash_new a) (fills (D := Z) (W := Empty_set) cs) = Panic).
Proof.
  intros B t A AX a n ok mem cs Hp He Hcs FV FD FW DV fits_each.
  assert (Hb : (int_min t <= 0 < int_max t)%Z).
  { destruct Hp as [w [Hw [-> | ->]]]; cbn; [pose proof (Z.pow_le_mono_r 2 1 (w - 1)) | pose proof (Z.pow_le_mono_r 2 1 w)]; lia. }
  assert (H0 : fits t 0) by (unfold fits; lia).
  assert (Hz : (@default_v Z DV) = 0%Z) by reflexivity.
  split; [|split].
  - intros Hc. apply (counts_by_length _ _ _ _ _ _ _ _ _ _ _ ok); [exact He | exact Hcs|]. intros i b Hi Hbi.
    rewrite Hz.
    pose proof (int_fills t (List.filter (mem b) cs) Hp 0%Z H0 ltac:(lia)) as K. cbv zeta in K. rewrite Hc in K.
    eexists. split; [exact K|]. unfold in_bin. f_equal. lia.
  - intros Hf. apply (counts_by_length _ _ _ _ _ _ _ _ _ _ _ ok); [exact He | exact Hcs|]. intros i b Hi Hbi. specialize (Hf i b Hi Hbi).
    pose proof (int_fills t (List.filter (mem b) cs) Hp 0%Z H0 ltac:(lia)) as K. cbv zeta in K. unfold in_bin in *.
    exists (Z.of_N (N.of_nat (length (List.filter (mem b) cs)))). split; [|reflexivity]. rewrite Hz. eapply eq_trans; [exact K|].
    destruct overflow_checks.
    + destruct (Z.leb_spec (0 + Z.of_nat (length (List.filter (mem b) cs))) (int_max t)); [f_equal; lia | lia].
    + rewrite wrap_fits; [f_equal; lia | lia | unfold fits; lia].
  - intros Hc Hn.
    assert (Hok : Forall (fun o => ok (op_coordinate o)) (fills (D := Z) (W := Empty_set) cs)).
    { unfold fills. rewrite List.Forall_forall in *. intros o Ho. apply in_map_iff in Ho as [c [<- Hx]]. cbn. auto. }
    destruct (C53_returns_iff _ _ _ _ AX FV FD FW DV a n ok mem He _ Hok) as [Rd Rs].
    assert (Hno : ~ (forall i b, i < n -> bin a i = Val (Some b) -> exists v, apply_all (V := Z) (inside mem b (fills (D := Z) (W := Empty_set) cs)) default_v = Val v)).
    { intros Hall. apply Hn. intros i b Hi Hbi. destruct (Hall i b Hi Hbi) as [v Ev]. rewrite inside_fills, Hz in Ev.
      pose proof (eq_trans (eq_sym Ev) (int_fills t (List.filter (mem b) cs) Hp 0%Z H0 ltac:(lia))) as K. cbv zeta in K. rewrite Hc in K.
      unfold in_bin. destruct (Z.leb_spec (0 + Z.of_nat (length (List.filter (mem b) cs))) (int_max t)); [lia | discriminate]. }
    split.
    + intros h0 E0. destruct (vec_calls h0 (fills cs)) as [h|] eqn:Eh; [|reflexivity]. exfalso. apply Hno. apply (Rd h0 E0). eauto.
    + destruct (hash_calls (hash_new a) (fills cs)) as [h|] eqn:Eh; [|reflexivity]. exfalso. apply Hno. apply Rs. eauto.
Qed.
Print Assumptions C53_int_counts.

(** One-dimensional histograms over the axis [a] count correctly, whatever the bin type: floats of any
    format (exactly up to [2^prec]) and integers of any type (exactly as long as every bin's count fits). *)
Definition counted_exactly {B : Build} {X} (AX : Axis X) (x : X) (n : N) (ok : @Coordinate X AX -> Prop) (mem : @Interval X AX -> @Coordinate X AX -> bool) : Prop :=
  exists a, axes1_from x = Val a /\ forall cs : list (@Coordinate X AX), Forall ok cs ->
  let AX1 := @axes1_axis X AX in
  (forall (prec emax : Z) (P : Prec_gt_0 prec) (E : Prec_lt_emax prec emax), (1 < prec)%Z ->
     let FV := float_fill prec emax P E in let FD := float_fill_with prec emax P E in let FW := float_no_weighted prec emax in let DV := float_default prec emax P E in
     counts_correctly (AX := AX1) (D := binary_float prec emax) (W := Empty_set) a n mem cs (fun v k => is_finite v = true /\ B2R v = IZR (Z.min (Z.of_N k) (2 ^ prec))))
  /\ (forall t, primitive_int t ->
     (forall i b, i < n -> @bin X AX x i = Val (Some b) -> (Z.of_N (in_bin mem b cs) <= int_max t)%Z) ->
     let FV := int_fill t in let FD := int_fill_with t in let FW := no_weighted in let DV := int_default t in
     counts_correctly (AX := AX1) (D := Z) (W := Empty_set) a n mem cs (fun v k => v = Z.of_N k)).

Theorem C53_counted_exactly : forall (B : Build) X (AX : Axis X) (x : X) n ok mem, exact_axis AX x n ok mem -> counted_exactly AX x n ok mem.
Proof.
  intros B X AX x n ok mem He. destruct (C53_tuple1_exact _ _ x _ _ _ He) as [a [Ha Hx]]. exists a. split; [exact Ha|].
  assert (Hax : ax1_axis a = x). { unfold axes1_from in Ha. apply obind_val in Ha as [s [_ Ha]]. injection Ha as <-. reflexivity. }
  intros cs Hcs AX1. split.
  - intros prec emax P E Hp. exact (C53_float_counts prec emax P E B _ AX1 a n ok mem cs Hp Hx Hcs).
  - intros t Ht Hf. apply (C53_int_counts B t _ AX1 a n ok mem cs Ht Hx Hcs). intros i b Hi Hb. apply (Hf i b Hi). rewrite <- Hax. exact Hb.
Qed.
Print Assumptions C53_counted_exactly.

(** C80. Uniform axes over float data of any format on a grid, with flow bins, without, and cyclic, made with
    either constructor: every bin counts exactly the coordinates that lie in it. *)
Theorem C80_counts_all : forall (prec emax : Z) (P : Prec_gt_0 prec) (E : Prec_lt_emax prec emax) (B : Build) (e : Z)
  (num : N) (low high step : binary_float prec emax) (L S : Z),
  let ops := float_ops prec emax P E in
  let period := (IZR (Z.of_N num * S) * bpow radix2 e)%R in
  let near x := exists X, grid_value e x X /\ (Z.abs (X - L) <= 2 ^ prec)%Z in
  covered_format prec emax -> grid_params prec emax e num L S -> (Z.of_N num * (Z.of_N num * S) <= 2 ^ prec)%Z ->
  grid_value e low L -> grid_value e high (L + Z.of_N num * S) -> grid_value e step S ->
  (forall a, uniform_new ops num low high = Val (Ok a) \/ uniform_with_step_size ops num low step = Val (Ok a) ->
     counted_exactly (uniform_axis ops) a (num + 2) (on_grid e) (in_interval (@num_ord _ ops)))
  /\ (forall a, uniformnoflow_new ops num low high = Val (Ok a) \/ uniformnoflow_with_step_size ops num low step = Val (Ok a) ->
     counted_exactly (uniformnoflow_axis ops) a num (on_grid e) (in_interval (@num_ord _ ops)))
  /\ (forall a, uniformcyclic_new ops num low high = Val (Ok a) \/ uniformcyclic_with_step_size ops num low step = Val (Ok a) ->
     counted_exactly (uniformcyclic_axis ops) a num near (in_interval_wrapped period)).
Proof.
  intros prec emax P E B e num low high step L S ops period near HF HG HWW Hl Hh Hs.
  destruct (C80_grid_exact prec emax P E B e num low high step L S HF HG HWW Hl Hh Hs)
    as [[a1 [b1 [c1 [Ha1 [Hb1 [Hc1 [Ea1 [Eb1 Ec1]]]]]]]] [a2 [b2 [c2 [Ha2 [Hb2 [Hc2 [Ea2 [Eb2 Ec2]]]]]]]]].
  split; [|split]; intros a Ha; apply C53_counted_exactly.
  - destruct Ha as [Ha|Ha]; [pose proof (eq_trans (eq_sym Ha1) Ha) as Q | pose proof (eq_trans (eq_sym Ha2) Ha) as Q]; injection Q as Q; rewrite <- Q; assumption.
  - destruct Ha as [Ha|Ha]; [pose proof (eq_trans (eq_sym Hb1) Ha) as Q | pose proof (eq_trans (eq_sym Hb2) Ha) as Q]; injection Q as Q; rewrite <- Q; assumption.
  - destruct Ha as [Ha|Ha]; [pose proof (eq_trans (eq_sym Hc1) Ha) as Q | pose proof (eq_trans (eq_sym Hc2) Ha) as Q]; injection Q as Q; rewrite <- Q; assumption.
Qed.
Print Assumptions C80_counts_all.

(** 255 fills of one category fit a [u8] bin; one more panics (overflow checked) or wraps to 0. *)
Example C53_int_counts_nonvacuous : forall B : Build,
  let AX := @category_axis B Z _ in let a := category_new [5; 7]%Z in let DV := int_default (unsigned 8) in
  primitive_int (unsigned 8)
  /\ exact_axis AX a 3 (fun _ => True) (in_category [5; 7]%Z)
  /\ (forall i b, i < 3 -> bin a i = Val (Some b) -> (Z.of_N (in_bin (in_category [5; 7]) b (9 :: repeat 5 255)) <= int_max (unsigned 8))%Z)
  /\ (exists h0, vec_new a = Val h0
      /\ int_vec_calls (unsigned 8) h0 (fills (9 :: repeat 5 255)%Z) = Val (mkVecHist a [255; 0; 1]%Z)
      /\ int_vec_calls (unsigned 8) h0 (fills (9 :: repeat 5 256)%Z) = if overflow_checks then Panic else Val (mkVecHist a [0; 0; 1]%Z)).
Proof.
  intros B AX a DV. split; [exists 8%Z; split; [lia | right; reflexivity]|].
  split. { apply (C53_category_exact B Z _ [5; 7]%Z); [repeat constructor; cbn; lia|]. change (N.of_nat (length [5; 7]%Z) + 1) with 3. destruct B as [? []]; vm_compute; reflexivity. }
  split.
  - intros i b Hi Hb. assert (Hcs : i = 0 \/ i = 1 \/ i = 2) by lia. clear Hi.
    destruct Hcs as [-> | [-> | ->]]; vm_compute in Hb; injection Hb as <-; vm_compute; discriminate.
  - destruct B as [[] []]; eexists; (split; [reflexivity|]); split; vm_compute; reflexivity.
Qed.
