(** * PropFloatCounts: counting float coordinates with a uniform axis (C75). *)
From stdpp Require Import gmap.
From Coq Require Import ZifyN ZifyNat Lia Reals Lra.
From Flocq Require Import Core IEEE754.BinarySingleNaN.
From Verif Require Import Base BaseFacts Num Float FloatFacts FloatSpec FloatUniform Axis Axes Spec AxesSpec Uniform
  Value VecHist HashHist HistSpec HistFacts PropHist PropHistIter Macros FillSpec PropCount PropAxes PropProject ExactSpec
  PropUniformFloat OrdLaws FloatOrd FloatUniformAcc PropUniformFloatEx.
Open Scope N_scope.

(** ** Specification: counting coordinates by their exact position on the real line *)

Section position.
  Context {prec emax : Z}.

  (** [x < r]; -inf is below and +inf and NaN are not below any real number. *)
  Definition below (r : R) (x : binary_float prec emax) : bool :=
    match x with
    | B754_nan => false
    | B754_infinity s => s
    | _ => Rlt_bool (B2R x) r
    end.

  Definition how_many (p : binary_float prec emax -> bool) (cs : list (binary_float prec emax)) : R :=
    INR (length (List.filter p cs)).

  (** [l <= x < r] *)
  Definition between (l r : R) (x : binary_float prec emax) : bool := negb (below l x) && below r x.
End position.

(** The values of the bins with numbers in a set, added up exactly. *)
Definition sum_of_bins {I : Type} (chosen : N -> bool) (items : list (Item I f64)) : R :=
  sumR (map (fun it => B2R (it_value it)) (List.filter (fun it => chosen (it_index it)) items)).

Lemma how_many_le : forall prec emax (p q : binary_float prec emax -> bool) cs,
  (forall x, In x cs -> p x = true -> q x = true) -> (how_many p cs <= how_many q cs)%R.
Proof.
  intros prec emax p q cs H. unfold how_many. apply le_INR. induction cs as [|x cs IH]; [reflexivity|].
  specialize (IH (fun y Hy => H y (or_intror Hy))). pose proof (H x (or_introl eq_refl)) as Hx. cbn [List.filter].
  destruct (p x); [rewrite Hx by reflexivity; cbn [length]; lia|]. destruct (q x); cbn [length]; lia.
Qed.

Lemma below_finite : forall prec emax (x : binary_float prec emax) r, is_finite x = true ->
  (below r x = true <-> (B2R x < r)%R).
Proof.
  intros prec emax x r Hf. assert (E : below r x = Rlt_bool (B2R x) r) by (destruct x; try discriminate Hf; reflexivity).
  rewrite E. destruct (Rlt_bool_spec (B2R x) r) as [H|H]; split; intros H'; try reflexivity; try discriminate; lra.
Qed.

(** Counting on any axis: every set of bins adds up to the number of coordinates
    whose index is in it. *)
Lemma counts_on_any_axis : forall (B : Build) A (AX : Axis A) (a : A) n (cs : list Coordinate),
  (Z.of_nat (length cs) <= 2 ^ 53)%Z -> has_bins AX a n ->
  (forall c, In c cs -> indexes_within AX a n c) ->
  let counted chosen := INR (length (List.filter (fun c => match index a c with Val (Some i) => chosen i | _ => false end) cs)) in
  (exists h0 h items, @vec_new A f64 AX f64_default a = Val h0 /\ f64_vec_calls h0 (fills cs) = Val h /\ vec_iter h = Val items
     /\ N.of_nat (length items) = n /\ forall chosen, sum_of_bins chosen items = counted chosen)
  /\ (exists h, f64_hash_calls (hash_new a) (fills cs) = Val h /\ forall order, an_order (hh_values h) order ->
        exists items, hash_iter h order = Val items /\ forall chosen, sum_of_bins chosen items = counted chosen).
Proof.
  intros B A AX a n cs Hlen Hb Hi counted. pose proof Hb as [Hn _].
  assert (Hall : forall i, exists v, @apply_all A f64 f64 Empty_set AX f64_fill f64_fill_with f64_no_weighted (reaching a i (fills cs)) (@default_v _ f64_default) = Val v).
  { intros i. pose proof (reaching_fills 53 1024 a i cs) as Hrf. eexists. eapply eq_trans;
      [|exact (all_count0 53 1024 prec64 emax64 ltac:(lia) (AX := AX)
        (List.filter (fun c => match index a c with Val (Some j) => j =? i | _ => false end) cs))].
    exact (f_equal (fun l => @apply_all A f64 f64 Empty_set AX f64_fill f64_fill_with f64_no_weighted l (B754_zero false)) Hrf). }
  assert (Hidx : forall o : fill_op f64 Empty_set, In o (fills cs) -> exists r, index a (op_coordinate o) = Val r).
  { intros o Ho. unfold fills in Ho. apply in_map_iff in Ho as [c [<- Hc]]. destruct (Hi c Hc) as [r [Hr _]]. exists r. exact Hr. }
  split.
  - assert (H0 : exists h0, @vec_new A f64 AX f64_default a = Val h0) by (unfold vec_new; rewrite Hn; cbn; eauto).
    destruct H0 as [h0 H0].
    destruct (proj2 (C28_vec_history_returns_iff _ _ _ _ _ _ _ _ _ _ _ _ (fills cs) Hn H0)
                (conj Hidx (fun i _ => Hall i))) as [h Hh].
    assert (Hinv : forall c i, In c cs -> index a c = Val (Some i) -> i < n).
    { intros c i Hin Hc. destruct (Hi c Hin) as [r [E1 E2]]. apply E2. rewrite Hc in E1. injection E1 as <-. reflexivity. }
    destruct (proj1 (C67_f64_groups_of_bins B A AX a n cs (fun _ => true) Hlen Hb Hinv) h0 h H0 Hh) as [items [Hit _]].
    exists h0, h, items. split; [exact H0|]. split; [exact Hh|]. split; [exact Hit|]. split.
    + assert (Hax : vh_axes h = a /\ N.of_nat (length (vec_values h)) = n).
      { destruct (C28_vec_contents_are_tally _ _ _ _ _ _ _ _ _ _ _ _ _ _ Hn H0 Hh) as [T1 [T2 [T3 _]]]. split; [exact T1|].
        unfold vec_value_at_index in *. fold (vec_values h) in *.
        assert (L1 : n <= N.of_nat (length (vec_values h))).
        { destruct (N.eq_dec n 0) as [->|Hne]; [lia|]. destruct (T2 (n - 1) ltac:(lia)) as [v [Hv _]].
          assert (N.to_nat (n - 1) < length (vec_values h))%nat by (apply nth_error_Some; congruence). lia. }
        pose proof (T3 n ltac:(lia)) as Hnone. apply nth_error_None in Hnone. lia. }
      destruct Hax as [Hax Hlenv]. rewrite <- Hax in Hb.
      destruct (C32_vec_iter A f64 AX h n Hb Hlenv) as [items' [Hit' [Hl _]]]. rewrite Hit in Hit'. injection Hit' as <-. exact Hl.
    + intros chosen.
      destruct (proj1 (C67_f64_groups_of_bins B A AX a n cs chosen Hlen Hb Hinv) h0 h H0 Hh) as [items' [Hit' Hs]].
      rewrite Hit in Hit'. injection Hit' as <-. exact Hs.
  - destruct (proj2 (C29_hash_history_returns_iff A f64 f64 Empty_set AX f64_fill f64_fill_with f64_no_weighted f64_default a (fills cs))
                (conj Hidx Hall)) as [h Hh].
    assert (Hinv : forall c i, In c cs -> index a c = Val (Some i) -> i < n).
    { intros c i Hin Hc. destruct (Hi c Hin) as [r [E1 E2]]. apply E2. rewrite Hc in E1. injection E1 as <-. reflexivity. }
    exists h. split; [exact Hh|]. intros order Ho.
    destruct (proj2 (C67_f64_groups_of_bins B A AX a n cs (fun _ => true) Hlen Hb Hinv) h order Hh Ho) as [items [Hit _]].
    exists items. split; [exact Hit|]. intros chosen.
    destruct (proj2 (C67_f64_groups_of_bins B A AX a n cs chosen Hlen Hb Hinv) h order Hh Ho) as [items' [Hit' Hs]].
    rewrite Hit in Hit'. injection Hit' as <-. exact Hs.
Qed.

Lemma below_lt : forall prec emax (P : Prec_gt_0 prec) (E : Prec_lt_emax prec emax) (x y : binary_float prec emax),
  is_finite y = true -> (below (B2R y) x = true <-> flt_lt x y).
Proof.
  intros prec emax P E x y Hy. unfold flt_lt. destruct (is_finite x) eqn:Hx.
  - rewrite below_finite by exact Hx. rewrite Bcompare_correct by assumption. split.
    + intros H. rewrite Rcompare_Lt by exact H. reflexivity.
    + intros H. injection H as H. apply Rcompare_Lt_inv. exact H.
  - destruct x as [s|s| |s m e Hb]; try discriminate Hx; destruct y as [s'|s'| |s' m' e' Hb']; try discriminate Hy;
      try destruct s; cbn; split; intros H; try reflexivity; discriminate H.
Qed.

Lemma not_below_le : forall prec emax (P : Prec_gt_0 prec) (E : Prec_lt_emax prec emax) (x y : binary_float prec emax),
  is_finite y = true -> is_nan x = false -> below (B2R y) x = false -> flt_le y x.
Proof.
  intros prec emax P E x y Hy Hn H. unfold flt_le, flt_lt, flt_eq. destruct (is_finite x) eqn:Hx.
  - rewrite Bcompare_correct by assumption. assert (~ (B2R x < B2R y)%R).
    { intros C. apply (below_finite _ _ x _ Hx) in C. congruence. }
    destruct (Rcompare_spec (B2R y) (B2R x)); [left; reflexivity | right; reflexivity | lra].
  - destruct x as [s|s| |s m e Hb]; try discriminate Hx; try discriminate Hn. cbn in H. subst s. left.
    destruct y as [s'|s'| |s' m' e' Hb']; try discriminate Hy; reflexivity.
Qed.

(** What the bins (iterated as [items]) of a histogram over [Uniform::new(num, low, high)],
    filled once at each of [cs], must hold: with [w] the ideal bin width and [u] half
    the machine epsilon, *)
Definition right_counts {prec emax : Z} {I : Type} (num : N) (low high : binary_float prec emax)
  (cs : list (binary_float prec emax)) (items : list (Item I f64)) : Prop :=
  let w := ideal_width num (B2R low) (B2R high) in
  let u := unit_roundoff prec in
  (* the k-th ideal edge, its distance from [low] scaled by c *)
  let edge (k : N) (c : R) := (B2R low + IZR (Z.of_N k) * w * c)%R in
  (* nothing is lost *)
  sum_of_bins (fun _ => true) items = INR (length cs)
  (* cumulative counts *)
  /\ (forall k, k <= num ->
        (how_many (below (edge k (1 - 4 * u))) cs <= sum_of_bins (fun i => (i <=? k)%N) items
         <= how_many (below (edge k (1 + 4 * u))) cs)%R)
  (* each finite bin *)
  /\ (forall i, 1 <= i <= num ->
        (how_many (between (edge (i - 1)%N (1 + 4 * u)) (edge i (1 - 4 * u))) cs
         <= sum_of_bins (fun j => (j =? i)%N) items
         <= how_many (between (edge (i - 1)%N (1 - 4 * u)) (edge i (1 + 4 * u))) cs)%R)
  (* the underflow bin is exact; NaN is counted in the overflow bin *)
  /\ sum_of_bins (fun j => j =? 0) items = how_many (below (B2R low)) cs
  /\ (how_many (fun x => negb (below (B2R high) x)) cs <= sum_of_bins (fun j => (j =? num + 1)%N) items
      <= how_many (fun x => negb (below (edge num (1 - 4 * u)) x)) cs)%R.

Lemma float_positions : forall (prec emax : Z) (P : Prec_gt_0 prec) (E : Prec_lt_emax prec emax) (B : Build)
  (num : N) (low high : binary_float prec emax),
  covered_format prec emax -> (1 <= Z.of_N num < 2 ^ (prec - 1))%Z -> (num + 2 < usize_mod)%N ->
  is_finite low = true -> is_finite high = true -> (B2R low < B2R high)%R ->
  is_finite (Bminus mode_NE high low) = true ->
  (IZR (Z.of_N num) * smallest_normal emax <= B2R high - B2R low)%R ->
  let ops := float_ops prec emax P E in let w := ideal_width num (B2R low) (B2R high) in let u := unit_roundoff prec in
  let edge (k : N) (c : R) := (B2R low + IZR (Z.of_N k) * w * c)%R in
  exists a, uniform_new ops num low high = Val (Ok a) /\ made_axis (P := P) (E := E) num a /\ u_num a = num
  /\ has_bins (uniform_axis ops) a (num + 2)
  /\ (forall x, exists i, uniform_index ops a x = Val (Some i) /\ i < num + 2)
  /\ (forall x, uniform_index ops a x = Val (Some 0) <-> below (B2R low) x = true)
  /\ (forall x i k, uniform_index ops a x = Val (Some i) -> i <= k -> k <= num -> below (edge k (1 + 4 * u)%R) x = true)
  /\ (forall x i k, uniform_index ops a x = Val (Some i) -> k < i -> k <= num -> below (edge k (1 - 4 * u)%R) x = false)
  /\ (forall x i, 1 <= i <= num -> between (edge (i - 1)%N (1 + 4 * u)%R) (edge i (1 - 4 * u)%R) x = true ->
                 uniform_index ops a x = Val (Some i))
  /\ (forall x, below (B2R high) x = false -> uniform_index ops a x = Val (Some (num + 1))).
Proof.
  intros prec emax P E B num low high Hf Hn Hus Fl Fh Hlh Fd Hw ops.
  destruct (C06_new_float_accuracy prec emax P E B num low high Hf Hn Hus Fl Fh Hlh Fd Hw) as [a [Ha [A1 [A2 A3]]]].
  cbv zeta. remember (unit_roundoff prec) as u eqn:Hu.
  assert (Hu0 : (0 < u /\ 8 * u < 1)%R).
  { rewrite Hu. unfold unit_roundoff. split; [apply bpow_gt_0|]. destruct Hf as [Hp _].
    assert (H : (bpow radix2 (- prec) <= bpow radix2 (- 4))%R) by (apply bpow_le; clear - Hp; lia). change (bpow radix2 (-4)) with (/ 16)%R in H. lra. }
  assert (Hwpos : (0 < ideal_width num (B2R low) (B2R high) /\ IZR (Z.of_N num) * ideal_width num (B2R low) (B2R high) = B2R high - B2R low)%R).
  { unfold ideal_width. assert (1 <= IZR (Z.of_N num))%R by (apply IZR_le; lia). split; [apply Rdiv_lt_0_compat; lra | field; lra]. }
  remember (ideal_width num (B2R low) (B2R high)) as w eqn:Hwdef. destruct Hwpos as [Hw0 Hwn].
  exists a. split; [exact Ha|].
  assert (Hmade : made_axis (P := P) (E := E) num a).
  { apply (made_by_new num a low high Ha). intros _ _. rewrite Rabs_pos_eq by lra. exact Hw. }
  destruct (C04_float_index_valid prec emax P E B num a Hf ltac:(lia) Hus Hmade) as [Hnb Hvalid].
  destruct (C03_new_float_flow prec emax P E B num low high a Hf ltac:(lia) Ha) as [_ [Fover Fnan]].
  assert (Hfields : u_num a = num /\ u_low a = low).
  { destruct (new_ok _ _ _ _ _ _ _ _ Ha) as [_ [_ [lo [hi [Elh ->]]]]]. cbn [u_num u_low]. split; [reflexivity|].
    destruct (gt_ low high) eqn:Eg; injection Elh as -> ->; [|reflexivity]. exfalso.
    rewrite (gt_lt _ _ (float_ord_laws prec emax P E)) in Eg. apply flt_lt_iff in Eg. unfold flt_lt in Eg.
    rewrite Bcompare_correct in Eg by assumption. injection Eg as Eg. apply Rcompare_Lt_inv in Eg. lra. }
  destruct Hfields as [Enum Elow].
  assert (Funder : forall x, uniform_index ops a x = Val (Some 0) <-> below (B2R low) x = true).
  { intros x. rewrite (below_lt _ _ P E) by exact Fl. apply (C03_float_underflow_only prec emax P E B num a x low Hf ltac:(lia) Hus Hmade).
    unfold uniform_bin. rewrite Elow. reflexivity. }
  assert (Hb : has_bins (uniform_axis ops) a (num + 2)).
  { rewrite <- Enum. apply (C20_uniform_float_has_bins B prec emax P E a). rewrite Enum. exact Hus. }
  fold ops in A1, A2, A3, Hvalid, Fover, Fnan.
  set (edge := fun (k : N) (c : R) => (B2R low + IZR (Z.of_N k) * w * c)%R).
  (* the position of the coordinates of each index *)
  assert (Hsome : forall k, (0 <= IZR (Z.of_N k) * w)%R).
  { intros k. apply Rmult_le_pos; [apply IZR_le; lia | lra]. }
  assert (Hmono : forall j k, j <= k -> (IZR (Z.of_N j) * w <= IZR (Z.of_N k) * w)%R).
  { intros j k Hjk. apply Rmult_le_compat_r; [lra|]. apply IZR_le. lia. }
  assert (Hup : forall x i k, uniform_index ops a x = Val (Some i) -> i <= k -> k <= num -> below (edge k (1 + 4 * u)%R) x = true).
  { intros x i k Hi Hik Hk. destruct (N.eq_dec i 0) as [->|Hi0].
    - apply Funder in Hi. destruct x as [s|s| |s m e Hbd] eqn:Ex; try exact Hi;
        (apply below_finite; [reflexivity|]; apply below_finite in Hi; [|reflexivity]; unfold edge; pose proof (Hsome k); nra).
    - destruct (A1 x i Hi ltac:(lia)) as [Fx [_ [_ Hx]]]. apply below_finite; [exact Fx|]. unfold edge.
      pose proof (Hmono i k Hik). nra. }
  assert (Hlo : forall x i k, uniform_index ops a x = Val (Some i) -> k < i -> k <= num -> below (edge k (1 - 4 * u)%R) x = false).
  { intros x i k Hi Hik Hk. destruct (below (edge k (1 - 4 * u)%R) x) eqn:Hbel; [exfalso | reflexivity].
    destruct (Hvalid x) as [i' [Ei' Hi']]. rewrite Hi in Ei'. injection Ei' as <-.
    destruct (is_finite x) eqn:Fx.
    - apply below_finite in Hbel; [|exact Fx]. unfold edge in Hbel.
      destruct (N.eq_dec i (num + 1)) as [->|Hne].
      + pose proof (Hmono k num Hk) as HM.
        destruct (Rlt_le_dec (B2R x) (B2R high)) as [Hxh|Hxh]; [pose proof (A3 x Fx Hxh Hi); nra | nra].
      + destruct (A1 x i Hi ltac:(lia)) as [_ [_ [Hx _]]]. pose proof (Hmono k (i - 1) ltac:(lia)) as HM.
        replace (IZR (Z.of_N (i - 1))) with (IZR (Z.of_N i) - 1)%R in HM by (rewrite <- minus_IZR; f_equal; lia). nra.
    - destruct x as [s|s| |s m e Hbd]; try discriminate Fx; [|discriminate Hbel]. cbn in Hbel. subst s.
      assert (H0 : uniform_index ops a (B754_infinity true) = Val (Some 0)) by (apply Funder; reflexivity).
      rewrite Hi in H0. injection H0 as H0. lia. }
  assert (Hin : forall x i, 1 <= i <= num -> between (edge (i - 1)%N (1 + 4 * u)%R) (edge i (1 - 4 * u)%R) x = true ->
                 uniform_index ops a x = Val (Some i)).
  { intros x i Hi Hx. unfold between in Hx. apply andb_true_iff in Hx as [Hx1 Hx2]. apply negb_true_iff in Hx1.
    destruct (is_finite x) eqn:Fx; [|destruct x as [s|s| |s m e Hbd]; try discriminate Fx; [cbn in *; congruence | discriminate Hx2]].
    apply (A2 x i Fx ltac:(lia)). apply below_finite in Hx2; [|exact Fx].
    assert (~ (B2R x < edge (i - 1)%N (1 + 4 * u)%R)%R) by (intros C; apply (below_finite _ _ x _ Fx) in C; congruence).
    unfold edge in *. replace (IZR (Z.of_N (i - 1))) with (IZR (Z.of_N i) - 1)%R in H by (rewrite <- minus_IZR; f_equal; lia). lra. }
  assert (Hover : forall x, below (B2R high) x = false -> uniform_index ops a x = Val (Some (num + 1))).
  { intros x Hx. destruct (is_nan x) eqn:Nx; [destruct x; try discriminate Nx; exact Fnan|].
    assert (Hl : flt_le high x) by (apply (not_below_le _ _ P E); assumption).
    apply Fover; [|exact Hl]. apply (not_below_le _ _ P E); [assumption..|].
    destruct (below (B2R low) x) eqn:Hbl; [exfalso | reflexivity]. destruct (is_finite x) eqn:Fx.
    - apply below_finite in Hbl; [|exact Fx]. assert (~ (B2R x < B2R high)%R) by (intros C; apply (below_finite _ _ x _ Fx) in C; congruence). lra.
    - destruct x as [s|s| |s m e Hbd]; try discriminate Fx; try discriminate Nx. cbn in *. congruence. }
  split; [exact Hmade|]. split; [exact Enum|]. split; [exact Hb|]. split; [exact Hvalid|]. split; [exact Funder|].
  split; [exact Hup|]. split; [exact Hlo|]. split; [exact Hin | exact Hover].
Qed.

(** ** C75

    [Uniform::new(num, low, high)] with a default (f64) histogram, dense or sparse,
    filled once at each of up to 2^53 arbitrary floats [cs] (NaN and infinities
    included). *)
Theorem C75_float_counts : forall (prec emax : Z) (P : Prec_gt_0 prec) (E : Prec_lt_emax prec emax) (B : Build)
  (num : N) (low high : binary_float prec emax) (cs : list (binary_float prec emax)),
  covered_format prec emax -> (1 <= Z.of_N num < 2 ^ (prec - 1))%Z -> (num + 2 < usize_mod)%N ->
  is_finite low = true -> is_finite high = true -> (B2R low < B2R high)%R ->
  is_finite (Bminus mode_NE high low) = true ->
  (IZR (Z.of_N num) * smallest_normal emax <= B2R high - B2R low)%R ->
  (Z.of_nat (length cs) <= 2 ^ 53)%Z ->
  let ops := float_ops prec emax P E in let AX := @axes1_axis _ (uniform_axis ops) in
  exists a, uniform_new ops num low high = Val (Ok a)
  /\ (exists h0 h items, @ndhistogram1 f64 f64_default _ (uniform_axis ops) a = Val h0
        /\ @vec_calls _ f64 f64 Empty_set AX f64_fill f64_fill_with f64_no_weighted h0 (fills (AX := AX) cs) = Val h
        /\ vec_iter (AX := AX) h = Val items /\ N.of_nat (length items) = num + 2 /\ right_counts num low high cs items)
  /\ (exists h0 h, @sparsehistogram1 f64 _ (uniform_axis ops) a = Val h0
        /\ @hash_calls _ f64 f64 Empty_set AX f64_fill f64_fill_with f64_no_weighted f64_default h0 (fills (AX := AX) cs) = Val h
        /\ forall order, an_order (hh_values h) order ->
           exists items, hash_iter (AX := AX) h order = Val items /\ right_counts num low high cs items).
Proof.
  intros prec emax P E B num low high cs Hf Hn Hus Fl Fh Hlh Fd Hw Hlen ops AX.
  destruct (float_positions prec emax P E B num low high Hf Hn Hus Fl Fh Hlh Fd Hw)
    as [a [Ha [_ [_ [Hb [Hvalid [Funder [Hup [Hlo [Hin Hover]]]]]]]]]].
  fold ops in Ha, Hb, Hvalid, Funder, Hup, Hlo, Hin, Hover.
  unfold right_counts. remember (unit_roundoff prec) as u eqn:Hu. remember (ideal_width num (B2R low) (B2R high)) as w eqn:Hwdef.
  exists a. split; [exact Ha|].
  set (edge := fun (k : N) (c : R) => (B2R low + IZR (Z.of_N k) * w * c)%R).
  change (forall x i k, uniform_index ops a x = Val (Some i) -> i <= k -> k <= num -> below (edge k (1 + 4 * u)%R) x = true) in Hup.
  change (forall x i k, uniform_index ops a x = Val (Some i) -> k < i -> k <= num -> below (edge k (1 - 4 * u)%R) x = false) in Hlo.
  change (forall x i, 1 <= i <= num -> between (edge (i - 1)%N (1 + 4 * u)%R) (edge i (1 - 4 * u)%R) x = true ->
            uniform_index ops a x = Val (Some i)) in Hin.
  (* what the sums of bins then are *)
  assert (Hright : forall I (items : list (Item I f64)),
    (forall chosen, sum_of_bins chosen items
       = how_many (fun x => match uniform_index ops a x with Val (Some i) => chosen i | _ => false end) cs) ->
    sum_of_bins (fun _ => true) items = INR (length cs)
    /\ (forall k, k <= num -> (how_many (below (edge k (1 - 4 * u)%R)) cs <= sum_of_bins (fun i => (i <=? k)%N) items
         <= how_many (below (edge k (1 + 4 * u)%R)) cs)%R)
    /\ (forall i, 1 <= i <= num -> (how_many (between (edge (i - 1)%N (1 + 4 * u)%R) (edge i (1 - 4 * u)%R)) cs
         <= sum_of_bins (fun j => (j =? i)%N) items
         <= how_many (between (edge (i - 1)%N (1 - 4 * u)%R) (edge i (1 + 4 * u)%R)) cs)%R)
    /\ sum_of_bins (fun j => j =? 0) items = how_many (below (B2R low)) cs
    /\ (how_many (fun x => negb (below (B2R high) x)) cs <= sum_of_bins (fun j => (j =? num + 1)%N) items
      <= how_many (fun x => negb (below (edge num (1 - 4 * u)%R) x)) cs)%R).
  { intros I items Hs. split; [|split; [|split; [|split]]].
    - rewrite Hs. unfold how_many. f_equal. rewrite (List.filter_ext _ (fun _ => true)); [clear; induction cs as [|c cs IH]; [reflexivity | cbn; rewrite IH; reflexivity] |].
      intros x. destruct (Hvalid x) as [i [Ei _]]. rewrite Ei. reflexivity.
    - intros k Hk. rewrite Hs. split; apply how_many_le; intros x _ Hx; destruct (Hvalid x) as [i [Ei _]]; rewrite Ei in *.
      + destruct (N.leb_spec i k) as [H|H]; [reflexivity|]. rewrite (Hlo x i k Ei H Hk) in Hx. discriminate.
      + apply N.leb_le in Hx. exact (Hup x i k Ei Hx Hk).
    - intros i Hi. rewrite Hs. split; apply how_many_le; intros x _ Hx.
      + rewrite (Hin x i Hi Hx). apply N.eqb_refl.
      + destruct (Hvalid x) as [i' [Ei _]]. rewrite Ei in Hx. apply N.eqb_eq in Hx as ->. unfold between.
        rewrite (Hlo x i (i - 1) Ei ltac:(lia) ltac:(lia)), (Hup x i i Ei ltac:(lia) ltac:(lia)). reflexivity.
    - rewrite Hs. unfold how_many. f_equal. f_equal. apply List.filter_ext. intros x.
      destruct (Hvalid x) as [i [Ei _]]. rewrite Ei. destruct (N.eqb_spec i 0) as [->|Hne].
      + symmetry. apply Funder. exact Ei.
      + destruct (below (B2R low) x) eqn:Hbl; [exfalso | reflexivity]. apply Funder in Hbl. congruence.
    - rewrite Hs. split; apply how_many_le; intros x _ Hx.
      + apply negb_true_iff in Hx. rewrite (Hover x Hx). apply N.eqb_refl.
      + destruct (Hvalid x) as [i [Ei _]]. rewrite Ei in Hx. apply N.eqb_eq in Hx as ->.
        rewrite (Hlo x (num + 1) num Ei ltac:(lia) ltac:(lia)). reflexivity. }
  destruct (C20_axes1_has_bins _ (uniform_axis ops) a (num + 2) Hb) as [a1 [Ha1 [Eax1 Hb1]]].
  assert (Hv1 : forall c, In c cs -> indexes_within AX a1 (num + 2) c).
  { intros c _. unfold indexes_within. cbn [index axes1_axis AX]. rewrite Eax1. destruct (Hvalid c) as [i [Ei Hi]].
    exists (Some i). split; [exact Ei|]. intros j Hj. injection Hj as <-. exact Hi. }
  destruct (counts_on_any_axis B _ AX a1 (num + 2) cs Hlen Hb1 Hv1) as [[h0 [h [items [D1 [D2 [D3 [D4 D5]]]]]]] [h' [S1 S2]]].
  assert (Hidx : @index _ AX a1 = uniform_index ops a) by (cbn; rewrite Eax1; reflexivity).
  split.
  - exists h0, h, items. split; [unfold ndhistogram1; rewrite Ha1; exact D1|]. split; [exact D2|]. split; [exact D3|].
    split; [exact D4|]. apply Hright. intros chosen. rewrite D5. rewrite Hidx. reflexivity.
  - exists (hash_new a1), h'. split; [unfold sparsehistogram1; rewrite Ha1; reflexivity|]. split; [exact S1|].
    intros order Ho. destruct (S2 order Ho) as [items' [I1 I2]]. exists items'. split; [exact I1|]. apply Hright.
    intros chosen. rewrite I2. rewrite Hidx. reflexivity.
Qed.
Print Assumptions C75_float_counts.

(** Ten bins on [0, 1), filled at 0.3, NaN, -inf and 2. *)
Example C75_nonvacuous : forall B : Build,
  let low := f64_lit 0 0 in let high := f64_lit 1 0 in
  let cs := [f64_quot 3 10; B754_nan; B754_infinity true; f64_lit 2 0] in
  covered_format 53 1024 /\ (1 <= Z.of_N 10 < 2 ^ (53 - 1))%Z /\ 10 + 2 < usize_mod
  /\ is_finite low = true /\ is_finite high = true /\ (B2R low < B2R high)%R
  /\ is_finite (Bminus mode_NE high low) = true
  /\ (IZR (Z.of_N 10) * smallest_normal 1024 <= B2R high - B2R low)%R
  /\ (Z.of_nat (length cs) <= 2 ^ 53)%Z
  /\ how_many (below (B2R low)) cs = 1%R /\ how_many (fun x => negb (below (B2R high) x)) cs = 2%R.
Proof.
  intros B low high cs. destruct float_params_nonvacuous as [H1 [H2 [H3 [H4 [H5 [H6 [H7 _]]]]]]].
  split; [exact H1|]. split; [exact H2|]. split; [pose proof usize_mod_large; lia|]. split; [exact H3|]. split; [exact H4|].
  split; [exact H5|]. split; [exact H6|]. split; [exact H7|]. split; [vm_compute; discriminate|].
  destruct (f64_int 0 ltac:(lia)) as [Z1 Z2]. destruct (f64_int 1 ltac:(lia)) as [O1 O2]. destruct (f64_int 2 ltac:(lia)) as [T1 T2].
  unfold f64 in *. fold low in Z1. fold high in O1.
  assert (Hq : is_finite (f64_quot 3 10) = true) by (vm_compute; reflexivity).
  assert (Q0 : below (B2R low) (f64_quot 3 10) = false).
  { destruct (below (B2R low) (f64_quot 3 10)) eqn:Hb; [|reflexivity].
    apply (below_lt _ _ prec64 emax64 _ low Z2) in Hb. exfalso. revert Hb. unfold flt_lt. vm_compute. discriminate. }
  assert (Q1 : below (B2R high) (f64_quot 3 10) = true).
  { apply (below_lt _ _ prec64 emax64 _ high O2). vm_compute. reflexivity. }
  assert (W0 : below (B2R low) (f64_lit 2 0) = false).
  { destruct (below (B2R low) (f64_lit 2 0)) eqn:Hb; [|reflexivity].
    apply (below_lt _ _ prec64 emax64 _ low Z2) in Hb. exfalso. revert Hb. unfold flt_lt. vm_compute. discriminate. }
  assert (W1 : below (B2R high) (f64_lit 2 0) = false).
  { destruct (below (B2R high) (f64_lit 2 0)) eqn:Hb; [|reflexivity].
    apply (below_lt _ _ prec64 emax64 _ high O2) in Hb. exfalso. revert Hb. unfold flt_lt. vm_compute. discriminate. }
  unfold how_many, cs. cbn [List.filter]. unfold f64 in *. rewrite Q0, Q1, W0, W1. cbn. split; lra.
Qed.
