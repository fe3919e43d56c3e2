(** * PropAlgebraMore: sparse histograms in full — commutativity and the group laws of
      [Wrapping] bins (C62), projections (C67). *)
From stdpp Require Import gmap.
From Coq Require Import ZifyN ZifyNat Lia.
From Verif Require Import Base BaseFacts Num Uniform Axis Spec IntFacts Axes AxesSpec AxesFacts AxesMacro Category Value VecHist HashHist
  HistSpec HistFacts HashFacts OpsFacts PropCategory PropAxes PropHist PropHistIter PropOps PropOrder PropMerge PropIntBins PropMapReduce
  Macros PropProject PropWrapping PropOpsMore.
Open Scope N_scope.

(** ** C62 *)

(** [keys] enumerates the bins that [l] or [r] store, in some order. *)
Definition union_order {A V} (l r : HashHistogram A V) (keys : list N) : Prop :=
  NoDup keys /\ forall i, i ∈ keys <-> is_Some (hash_value_at_index l i) \/ is_Some (hash_value_at_index r i).

(** The bins and contents of a sparse result, an error, or a panic. *)
Definition contents_of {A V E} (r : outcome (result (HashHistogram A V) E)) : outcome (option (gmap N V)) :=
  match r with Val (Ok h) => Val (Some (hash_as_map h)) | Val (Err _) => Val None | Panic => Panic end.

(** C62: a commutative operator on bin values gives a commutative operator on sparse
    histograms: same panics, same errors, same bins and values, in every hash order. *)
Theorem C62_commutative_sparse :
  forall A V (AX : Axis A) (AE : AxisEq A) (DV : Default V) (op : V -> V -> outcome V),
  (forall x y, op x y = op y x) ->
  forall (l r : HashHistogram A V) keys keys', axis_eqb (hh_axes l) (hh_axes r) = axis_eqb (hh_axes r) (hh_axes l) ->
  union_order l r keys -> union_order l r keys' ->
  contents_of (hash_binop_borrowed op l r keys) = contents_of (hash_binop_borrowed op r l keys').
Proof.
  intros A V AX AE DV op Hop l r keys keys' Hax [Hn Hk] [Hn' Hk'].
  assert (Ho : forall h : HashHistogram A V, an_order (hash_as_map h) (map_to_list (hash_as_map h))) by (intros; unfold an_order; reflexivity).
  assert (Hkr : forall i, i ∈ keys' <-> is_Some (hash_value_at_index r i) \/ is_Some (hash_value_at_index l i)).
  { intros i. rewrite Hk'. tauto. }
  destruct (axis_eqb (hh_axes l) (hh_axes r)) eqn:E.
  2: { unfold hash_binop_borrowed. rewrite <- Hax, E. reflexivity. }
  symmetry in Hax.
  destruct (C38_sparse_operators_panic A V AX AE DV op l r keys _ Hn Hk (Ho r) E) as [Hp _].
  destruct (C38_sparse_operators_panic A V AX AE DV op r l keys' _ Hn' Hkr (Ho l) Hax) as [Hp' _].
  assert (Hpp : hash_binop_borrowed op l r keys = Panic <-> hash_binop_borrowed op r l keys' = Panic).
  { rewrite Hp, Hp'. split; intros [i [Hi Hb]]; exists i; (split; [tauto | rewrite Hop; exact Hb]). }
  destruct (hash_binop_borrowed op l r keys) as [[h|e]|] eqn:E1.
  - rewrite (proj2 (C62_commutative A V AX AE DV op Hop) l r h keys keys' Hn Hn' Hk Hk' Hax E1). reflexivity.
  - exfalso. revert E1. unfold hash_binop_borrowed. rewrite E. cbn [negb]. destruct (foldo _ _ _); discriminate.
  - rewrite (proj1 Hpp eq_refl). reflexivity.
Qed.
Print Assumptions C62_commutative_sparse.

Section Group.
Context (t : int_type) {A : Type} {AX : Axis A} {AE : AxisEq A} (Ht : primitive_int t).
Notation add := (@n_add Z (wrapping_ops t)).
Notation sub := (@n_sub Z (wrapping_ops t)).
Existing Instance wrapping_default.

Lemma wrapping_total (op : Z -> Z -> outcome Z) (l r : HashHistogram A Z) keys :
  (forall x y, op x y <> Panic) -> axis_eqb (hh_axes l) (hh_axes r) = true -> union_order l r keys ->
  exists h, hash_binop_borrowed (DV := wrapping_default t) op l r keys = Val (Ok h) /\ hh_axes h = hh_axes l.
Proof.
  intros Hop E [Hn Hk].
  assert (Ho : an_order (hash_as_map r) (map_to_list (hash_as_map r))) by (unfold an_order; reflexivity).
  destruct (C38_sparse_operators_panic A Z AX AE (wrapping_default t) op l r keys _ Hn Hk Ho E) as [Hp _].
  destruct (hash_binop_borrowed op l r keys) as [[h|e]|] eqn:E1.
  - exists h. split; [reflexivity|].
    destruct (C38_sparse_operators A Z AX AE (wrapping_default t) op l r keys _ Hn Hk Ho) as [_ [_ H]].
    destruct (H E) as [Hb _]. exact (proj1 (Hb h E1)).
  - exfalso. revert E1. unfold hash_binop_borrowed. rewrite E. cbn [negb]. destruct (foldo _ _ _); discriminate.
  - destruct (proj1 Hp eq_refl) as [i [_ Hx]]. exfalso. exact (Hop _ _ Hx).
Qed.

Lemma binop_axes (op : Z -> Z -> outcome Z) (l r h : HashHistogram A Z) keys :
  hash_binop_borrowed (DV := wrapping_default t) op l r keys = Val (Ok h) -> hh_axes h = hh_axes l.
Proof.
  unfold hash_binop_borrowed. destruct (negb _); [discriminate|]. intros H. apply obind_val in H as [m [_ H]]. injection H as <-. reflexivity.
Qed.

(** Bin by bin, with the missing side reading 0. *)
Lemma add_bins (l r h : HashHistogram A Z) keys : axis_eqb (hh_axes l) (hh_axes r) = true -> union_order l r keys ->
  hash_binop_borrowed (DV := wrapping_default t) add l r keys = Val (Ok h) ->
  forall i, hash_value_at_index h i =
    match hash_value_at_index l i, hash_value_at_index r i with
    | None, None => None
    | x, y => Some (wrap t (default 0%Z x + default 0%Z y))
    end.
Proof.
  intros E [Hn Hk] H i. pose proof (primitive_bounds t Ht) as Hb.
  assert (Ho : an_order (hash_as_map r) (map_to_list (hash_as_map r))) by (unfold an_order; reflexivity).
  assert (Hadd : forall x y, add x y = Val (wrap t (x + y))) by (intros; apply int_result_unchecked; [lia|reflexivity]).
  destruct (C38_sparse_operators A Z AX AE (wrapping_default t) add l r keys _ Hn Hk Ho) as [_ [_ HE]].
  destruct (HE E) as [Hx _]. destruct (Hx h H) as [_ Hi]. specialize (Hi i).
  destruct (hash_value_at_index l i) as [x|], (hash_value_at_index r i) as [y|]; cbn [from_option id];
    [destruct Hi as [z [Hz ->]]; rewrite Hadd in Hz; injection Hz as <-; reflexivity ..| exact Hi].
Qed.
End Group.

(** C62: with [Wrapping] bins sparse addition and subtraction of histograms over equal axes always
    succeed, and [(l + m) + r] and [l + (m + r)] are the same histogram. *)
Theorem C62_wrapping_group_sparse_full :
  forall (t : int_type) A (AX : Axis A) (AE : AxisEq A), primitive_int t ->
  let add := @n_add Z (wrapping_ops t) in let sub := @n_sub Z (wrapping_ops t) in let DV := wrapping_default t in
  forall l m r : HashHistogram A Z,
  (forall x y, x = hh_axes l \/ x = hh_axes m \/ x = hh_axes r -> y = hh_axes l \/ y = hh_axes m \/ y = hh_axes r -> axis_eqb x y = true) ->
  (forall keys, union_order l m keys ->
     (exists s, hash_binop_borrowed add l m keys = Val (Ok s)) /\ (exists d, hash_binop_borrowed sub l m keys = Val (Ok d)))
  /\ (forall lm mr keys1 keys2 keys3 keys4 s s',
     union_order l m keys1 -> hash_binop_borrowed add l m keys1 = Val (Ok lm) ->
     union_order m r keys2 -> hash_binop_borrowed add m r keys2 = Val (Ok mr) ->
     union_order lm r keys3 -> hash_binop_borrowed add lm r keys3 = Val (Ok s) ->
     union_order l mr keys4 -> hash_binop_borrowed add l mr keys4 = Val (Ok s') ->
     s = s').
Proof.
  intros t A AX AE Ht add sub DV l m r Hax. pose proof (primitive_bounds t Ht) as Hb.
  split.
  - intros keys Hk.
    assert (E : axis_eqb (hh_axes l) (hh_axes m) = true) by (apply Hax; tauto).
    split.
    + destruct (wrapping_total t add l m keys) as [s [Hs _]]; [|exact E|exact Hk|exists s; exact Hs].
      intros x y. unfold add. cbn. rewrite int_result_unchecked by (try reflexivity; lia). discriminate.
    + destruct (wrapping_total t sub l m keys) as [s [Hs _]]; [|exact E|exact Hk|exists s; exact Hs].
      intros x y. unfold sub. cbn. rewrite int_result_unchecked by (try reflexivity; lia). discriminate.
  - intros lm mr k1 k2 k3 k4 s s' U1 H1 U2 H2 U3 H3 U4 H4.
    assert (Hno : forall x y, add x y <> Panic).
    { intros x y. unfold add. cbn. rewrite int_result_unchecked by (try reflexivity; lia). discriminate. }
    assert (E1 : axis_eqb (hh_axes l) (hh_axes m) = true) by (apply Hax; tauto).
    assert (E2 : axis_eqb (hh_axes m) (hh_axes r) = true) by (apply Hax; tauto).
    assert (Alm : hh_axes lm = hh_axes l) by exact (binop_axes t _ _ _ _ _ H1).
    assert (Amr : hh_axes mr = hh_axes m) by exact (binop_axes t _ _ _ _ _ H2).
    assert (E3 : axis_eqb (hh_axes lm) (hh_axes r) = true) by (rewrite Alm; apply Hax; tauto).
    assert (E4 : axis_eqb (hh_axes l) (hh_axes mr) = true) by (rewrite Amr; apply Hax; tauto).
    assert (As : hh_axes s = hh_axes l) by (rewrite <- Alm; exact (binop_axes t _ _ _ _ _ H3)).
    assert (As' : hh_axes s' = hh_axes l) by exact (binop_axes t _ _ _ _ _ H4).
    pose proof (add_bins t Ht l m lm k1 E1 U1 H1) as B1. pose proof (add_bins t Ht m r mr k2 E2 U2 H2) as B2.
    pose proof (add_bins t Ht lm r s k3 E3 U3 H3) as B3. pose proof (add_bins t Ht l mr s' k4 E4 U4 H4) as B4.
    assert (Hv : hh_values s = hh_values s').
    { apply map_eq. intros i. change (hash_value_at_index s i = hash_value_at_index s' i).
      assert (Wl : forall x y, wrap t (wrap t x + y) = wrap t (x + y)) by (intros; apply wrap_add; lia).
      assert (Wr : forall x y, wrap t (x + wrap t y) = wrap t (x + y)) by (intros x y; rewrite Z.add_comm, Wl, Z.add_comm; reflexivity).
      rewrite B3, B4, B1, B2.
      destruct (hash_value_at_index l i) as [x|], (hash_value_at_index m i) as [y|], (hash_value_at_index r i) as [z|]; cbn [from_option id];
        try reflexivity; unfold id; apply f_equal; rewrite ?Wl, ?Wr; apply (f_equal (wrap t)); lia. }
    destruct s, s'. cbn in *. congruence.
Qed.
Print Assumptions C62_wrapping_group_sparse_full.

(** Wrapping<u8>, bins {0: 200} + {0: 100, 2: 7} + {2: 250}. *)
Example C62_sparse_nonvacuous : forall B : Build,
  let AX := ex_axis B in let AE := ex_eq in let DV := wrapping_default (unsigned 8) in
  let add := @n_add Z (wrapping_ops (unsigned 8)) in
  let l := mkHashHist ex_cat (<[0%N := 200%Z]> ∅) in let m := mkHashHist ex_cat (<[0%N := 100%Z]> (<[2%N := 7%Z]> ∅)) in
  let r := mkHashHist ex_cat (<[2%N := 250%Z]> ∅) in
  axis_eqb ex_cat ex_cat = true /\ union_order l m [2; 0]
  /\ exists lm, hash_binop_borrowed add l m [2; 0] = Val (Ok lm) /\ hash_value_at_index lm 0 = Some 44%Z
     /\ union_order lm r [0; 2]
     /\ exists s, hash_binop_borrowed add lm r [0; 2] = Val (Ok s) /\ hash_value_at_index s 2 = Some 1%Z.
Proof.
  intros B AX AE DV add l m r. split; [reflexivity|].
  assert (U : forall (a b : HashHistogram (Category Z) Z) keys, NoDup keys -> (forall i, i ∉ keys -> hash_value_at_index a i = None /\ hash_value_at_index b i = None) ->
     (forall i, i ∈ keys -> is_Some (hash_value_at_index a i) \/ is_Some (hash_value_at_index b i)) -> union_order a b keys).
  { intros a b keys Hn H1 H2. split; [exact Hn|]. intros i. split; [apply H2|]. intros Hs.
    destruct (decide (i ∈ keys)) as [|Hi]; [assumption|]. destruct (H1 i Hi) as [E1 E2]. rewrite E1, E2 in Hs. destruct Hs as [[? Hs]|[? Hs]]; discriminate. }
  assert (Hnone : forall i, i ∉ [2; 0] -> i <> 0 /\ i <> 2).
  { intros i Hi. split; intros ->; apply Hi; repeat (first [left | right]). }
  split.
  - apply U; [repeat constructor; rewrite ?elem_of_cons, ?elem_of_nil; intuition discriminate| |].
    + intros i Hi. apply Hnone in Hi as [H0 H2]. unfold hash_value_at_index, l, m. cbn [hh_values].
      rewrite !lookup_insert_ne by congruence. rewrite !lookup_empty. split; reflexivity.
    + intros i Hi. repeat (apply elem_of_cons in Hi as [->|Hi]); [right; eexists; reflexivity | left; eexists; reflexivity | apply elem_of_nil in Hi; destruct Hi].
  - exists (mkHashHist ex_cat (<[0%N := 44%Z]> (<[2%N := 7%Z]> ∅))). split; [vm_compute; reflexivity|]. split; [reflexivity|]. split.
    + apply U; [repeat constructor; rewrite ?elem_of_cons, ?elem_of_nil; intuition discriminate| |].
      * intros i Hi. assert (H0 : i <> 0) by (intros ->; apply Hi; left). assert (H2 : i <> 2) by (intros ->; apply Hi; right; left).
        unfold hash_value_at_index, r. cbn [hh_values]. rewrite !lookup_insert_ne by congruence. rewrite !lookup_empty. split; reflexivity.
      * intros i Hi. repeat (apply elem_of_cons in Hi as [->|Hi]); [left; eexists; reflexivity | left; eexists; reflexivity | apply elem_of_nil in Hi; destruct Hi].
    + eexists. split; [vm_compute; reflexivity|]. reflexivity.
Qed.

(** ** C67 *)

(** A history that returns on a sparse histogram returns on a dense one. *)
Lemma sparse_to_dense {A V D W} {AX : Axis A} {FV : Fill V} {FD : FillWith V D} {FW : FillWithWeighted V D W} {DV : Default V}
  (a : A) n (h0 : VecHistogram A V) (ops : list (fill_op D W)) hs :
  num_bins a = Val n -> vec_new a = Val h0 -> hash_calls (V := V) (hash_new a) ops = Val hs ->
  exists hd, vec_calls h0 ops = Val hd
  /\ forall i, i < n -> vec_value_at_index hd i = Some (match hash_value_at_index hs i with Some v => v | None => default_v end).
Proof.
  intros Hn H0 Hs.
  destruct (proj1 (C29_hash_history_returns_iff A V D W AX FV FD FW DV a ops) (ex_intro _ hs Hs)) as [Hi Hv].
  destruct (proj2 (C28_vec_history_returns_iff A V D W AX FV FD FW DV a n h0 ops Hn H0)) as [hd Hd].
  { split; [exact Hi|]. intros i _. apply Hv. }
  exists hd. split; [exact Hd|]. intros i Hlt.
  destruct (C28_vec_contents_are_tally _ _ _ _ _ _ _ _ _ _ _ _ _ _ Hn H0 Hd) as [_ [Hc _]].
  destruct (C29_hash_contents_are_tally _ _ _ _ _ _ _ _ _ _ _ _ Hs) as [_ [Hnone [Hsome _]]].
  destruct (Hc i Hlt) as [v [-> Hv']]. destruct (reaching a i ops) as [|o l] eqn:E.
  - rewrite (Hnone i E). injection Hv' as <-. reflexivity.
  - destruct (Hsome i ltac:(congruence)) as [v' [-> Hv'']]. rewrite E in Hv''. congruence.
Qed.

(** C67: the projection theorem with sparse histograms on both sides: adding up the stored
    bins of the N-dimensional histogram over all axes but axis [p] gives what the
    one-dimensional sparse histogram of that axis holds, a bin it does not store counting 0. *)
Theorem C67_projection_sparse :
  forall (B : Build) (t : int_type) ts (axes : axes_tuple ts) ns p n X (AX1 : Axis X) (x : X)
         (proj : coords ts -> @Coordinate X AX1) (ops : list (@fill_op _ Z Empty_set (axes_axis ts))),
  primitive_int t -> overflow_checks = true ->
  ts <> [] -> tuple_has_bins ts axes ns -> products_fit ns ->
  (forall o, In o ops -> components_index_within ts axes ns (op_coordinate o)) ->
  nth_error ns p = Some n -> num_bins x = Val n -> (forall c, index x (proj c) = field_index ts p axes c) ->
  let AX := axes_axis ts in
  exists (h0 : HashHistogram (AxesTuple ts) Z) (g0 : HashHistogram (AxesTuple1 X) Z),
    sparsehistogram ts axes = Val h0 /\ sparsehistogram1 x = Val g0
  /\ forall h g order,
     @hash_calls (AxesTuple ts) Z Z Empty_set AX (int_fill t) (int_fill_with t) no_weighted (int_default t) h0 ops = Val h ->
     @hash_calls (AxesTuple1 X) Z Z Empty_set axes1_axis (int_fill t) (int_fill_with t) no_weighted (int_default t) g0
       (map (@project (AxesTuple ts) (AxesTuple1 X) Z Empty_set AX axes1_axis proj)
          (List.filter (covered (hh_axes h0)) ops)) = Val g ->
     an_order (hash_as_map h) order ->
     exists items, @hash_iter (AxesTuple ts) Z AX h order = Val items
     /\ (forall it, In it items -> exists is, cell ns is /\ component_bins ts axes is (it_bin it)
           /\ forall j, in_slice ns p j (it_index it) = true <-> nth_error is p = Some j)
     /\ forall j, j < n ->
        match hash_value_at_index g j with Some v => v | None => 0%Z end
        = sumZ (map it_value (List.filter (fun it => in_slice ns p j (it_index it)) items)).
Proof.
  intros B t ts axes ns p n X AX1 x proj ops Ht Hc Hne Hb Hf Hw Hp Hn Hproj AX.
  destruct (C67_projection B t ts axes ns p n X AX1 x proj ops Ht Hc Hne Hb Hf Hw Hp Hn Hproj) as (d0 & e0 & Hd0 & He0 & HP).
  unfold ndhistogram in Hd0. apply obind_val in Hd0 as [a [Ha Hd0]].
  unfold ndhistogram1 in He0. apply obind_val in He0 as [a1 [Ha1 He0]].
  exists (hash_new a), (hash_new a1). split; [unfold sparsehistogram; rewrite Ha; reflexivity|].
  split; [unfold sparsehistogram1; rewrite Ha1; reflexivity|].
  intros h g order Hh Hg Ho.
  destruct (C20_axes_tuple_has_bins B ts axes ns Hne Hb Hf) as (a' & Ha' & Hbins).
  assert (a' = a) by congruence. subst a'.
  destruct (C22_axes_index_none B ts axes ns Hne Hb Hf) as (a'' & Ha'' & Hidx).
  assert (a'' = a) by congruence. subst a''.
  assert (Hlt : forall o i, In o ops -> @index _ AX a (@op_coordinate _ _ _ AX o) = Val (Some i) -> i < product ns).
  { intros o i Ho' Hi. set (c := @op_coordinate _ _ _ AX o) in *. destruct (Hidx c (Hw o Ho')) as [_ (r & Hr & Hlt)]. apply (Hlt i).
    change (axes_index a c = Val (Some i)) in Hi. congruence. }
  destruct (sparse_to_dense (AX := AX) (FV := int_fill t) (FD := int_fill_with t) (FW := no_weighted) (DV := int_default t)
              a (product ns) d0 ops h (proj1 Hbins) Hd0 Hh) as [hd [Hhd _]].
  assert (Hn1 : @num_bins _ axes1_axis a1 = Val n).
  { unfold axes1_from in Ha1. rewrite Hn in Ha1. injection Ha1 as <-. exact Hn. }
  assert (Ad0 : vh_axes d0 = a). { unfold vec_new in Hd0. apply obind_val in Hd0 as [k [_ Hd0]]. injection Hd0 as <-. reflexivity. }
  destruct (sparse_to_dense (AX := axes1_axis) (FV := int_fill t) (FD := int_fill_with t) (FW := no_weighted) (DV := int_default t)
              a1 n e0 _ g Hn1 He0 Hg) as [gd [Hgd Hgv]].
  rewrite <- Ad0 in Hgd.
  destruct (HP hd gd Hhd Hgd) as (ditems & Hdit & _ & Hsum).
  destruct (C67_groups_of_bins B t (AxesTuple ts) AX a (product ns) ops (fun _ => true) Ht Hc Hbins Hlt) as [_ HS].
  destruct (HS h order Hh Ho) as [items [Hit _]].
  exists items. split; [exact Hit|]. split.
  - intros it Hin.
    assert (Hax : hh_axes h = a) by (destruct (hash_calls_inv _ _ _ Hh) as [Hax _]; exact Hax).
    assert (Hib : @bin _ AX a (it_index it) = Val (Some (it_bin it)) /\ it_index it < product ns).
    { pose proof (mapo_inv _ _ _ Hit) as Hf2. destruct (In_nth_error _ _ Hin) as [k Hk].
      destruct (nth_error order k) as [q|] eqn:Eq.
      2: { apply nth_error_None in Eq. apply Forall2_length in Hf2. assert (k < length items)%nat by (apply nth_error_Some; congruence). lia. }
      assert (Hq : (let! ob := @bin _ AX (hh_axes h) (fst q) in let! b := expect ob in Val (mkItem (fst q) b (snd q))) = Val it).
      { clear - Hf2 Hk Eq. revert k Hk Eq. induction Hf2 as [|x0 y0 l0 l0' Hx Hf IH]; intros [|k] Hk Eq; try discriminate; cbn in Hk, Eq.
        - injection Hk as <-. injection Eq as <-. exact Hx.
        - exact (IH k Hk Eq). }
      apply obind_val in Hq as [[b|] [Hb1 Hq]]; cbn in Hq; [|discriminate]. injection Hq as <-. cbn [it_index it_bin].
      rewrite Hax in Hb1. split; [exact Hb1|].
      apply nth_error_In, elem_of_list_In in Eq. destruct q as [i v]. cbn [fst snd] in *.
      apply (order_elem _ order _ _ Ho) in Eq. change (hash_value_at_index h i = Some v) in Eq.
      destruct (C29_hash_contents_are_tally _ _ _ _ _ _ _ _ _ _ _ _ Hh) as [_ [Hnone _]].
      destruct (@reaching _ _ _ AX a i ops) as [|o l] eqn:Er; [rewrite (Hnone i Er) in Eq; discriminate|].
      assert (Hino : In o (@reaching _ _ _ AX a i ops)) by (rewrite Er; left; reflexivity).
      unfold reaching in Hino. apply filter_In in Hino as [Hino Hland]. apply lands_in_iff in Hland. exact (Hlt o i Hino Hland). }
    destruct Hib as [Hbin Hltit].
    destruct (C21_cells_bijection ns (it_index it) Hltit) as (is & Hcl & Hr & _).
    exists is. split; [exact Hcl|]. split; [|intros j; rewrite <- Hr; exact (slice_radix ns p j n is Hcl Hp)].
    destruct (C23_axes_bin_of_cell B ts axes ns Hne Hb Hf) as (a3 & Ha3 & Hcells). assert (a3 = a) by congruence. subst a3.
    destruct (Hcells is Hcl) as (bs & Hbs & Hcb).
    rewrite Hr in Hbs. change (axes_bin a (it_index it) = Val (Some (it_bin it))) in Hbin.
    assert (bs = it_bin it) by congruence. subst bs. exact Hcb.
  - intros j Hj. specialize (Hsum j Hj). rewrite (Hgv j Hj) in Hsum. injection Hsum as Hsum.
    refine (eq_trans Hsum _).
    destruct (C67_groups_of_bins B t (AxesTuple ts) AX a (product ns) ops (in_slice ns p j) Ht Hc Hbins Hlt) as [GD GS].
    destruct (GD d0 hd Hd0 Hhd) as (i1 & E1 & S1). destruct (GS h order Hh Ho) as (i2 & E2 & S2).
    pose proof (eq_trans (eq_sym E1) Hdit) as Q1. injection Q1 as ->. pose proof (eq_trans (eq_sym E2) Hit) as Q2. injection Q2 as ->.
    exact (eq_trans S1 (eq_sym S2)).
Qed.
Print Assumptions C67_projection_sparse.

(** The calls of C67_nonvacuous (whose premises are the same) on a sparse histogram, iterated
    in the order of [map_to_list]: four bins are stored, and the sums over the columns are those
    of the dense histogram. *)
Example C67_sparse_nonvacuous : forall B : Build,
  let ts := [uni_i32 B; cat_Z B] in
  let AX := axes_axis ts in
  let t := signed 64 in
  let calls : list (fill_op Z Empty_set) :=
    [CallFill (25, (7, tt)); CallFillWith (3, (5, tt)) 10; CallFill (29, (7, tt)); CallFillWith (3, (9, tt)) 100;
     CallFillWith (-1, (7, tt)) 1000]%Z in
  let slice p j := (let! h0 := sparsehistogram ts (example_axes B) in
      let! h := @hash_calls _ Z Z Empty_set AX (int_fill t) (int_fill_with t) no_weighted (int_default t) h0 calls in
      let! items := hash_iter h (map_to_list (hash_as_map h)) in
      Val (List.length items, sumZ (map it_value (List.filter (fun it => in_slice [5; 3] p j (it_index it)) items)))) in
  map (slice 0%nat) (range 5) = map (fun v => Val (4%nat, v)) [1000; 110; 0; 2; 0]%Z
  /\ map (slice 1%nat) (range 3) = map (fun v => Val (4%nat, v)) [10; 1002; 100]%Z.
Proof. intros B. split; destruct B as [[] []]; vm_compute; reflexivity. Qed.

Lemma sum_modulo {X} (f g : X -> Z) (m : Z) (l : list X) : (forall x, In x l -> exists k, g x = (f x + k * m)%Z) ->
  exists k, sumZ (map g l) = (sumZ (map f l) + k * m)%Z.
Proof.
  induction l as [|x l IH]; intros H; [exists 0%Z; reflexivity|].
  destruct IH as [k Hk]; [intros y Hy; apply H; right; exact Hy|]. destruct (H x (or_introl eq_refl)) as [k' Hk'].
  exists (k + k')%Z. unfold sumZ in *. cbn [map fold_right]. rewrite Hk, Hk'. ring.
Qed.

(** C67 in builds without overflow checks (and for [Wrapping] bins): the values reported for any set of
    bins add up to the total of the calls in one of them, up to a multiple of 2^w. *)
Theorem C67_groups_of_bins_modular :
  forall (B : Build) (t : int_type) A (AX : Axis A) (a : A) (n : N) (ops : list (fill_op Z Empty_set)) (chosen : N -> bool),
  primitive_int t -> overflow_checks = false ->
  has_bins AX a n -> (forall o i, In o ops -> index a (op_coordinate o) = Val (Some i) -> i < n) ->
  (forall h0 h : VecHistogram A Z, @vec_new A Z AX (int_default t) a = Val h0 -> int_vec_calls t h0 ops = Val h ->
     exists items k, vec_iter h = Val items
     /\ sumZ (map amount (List.filter (lands_among a chosen) ops))
        = (sumZ (map it_value (List.filter (fun it => chosen (it_index it)) items)) + k * int_span t)%Z)
  /\ (forall (h : HashHistogram A Z) order, int_hash_calls t (hash_new a) ops = Val h -> an_order (hh_values h) order ->
     exists items k, hash_iter h order = Val items
     /\ sumZ (map amount (List.filter (lands_among a chosen) ops))
        = (sumZ (map it_value (List.filter (fun it => chosen (it_index it)) items)) + k * int_span t)%Z).
Proof.
  intros B t A AX a n ops chosen Ht Hc Hb Hix.
  destruct (C51_unchecked B t A AX a ops Ht Hc) as [HD [_ HS]]. split.
  - intros h0 h Hnew Hr. destruct (HD h0 Hnew) as [_ Hv].
    destruct (vec_calls_inv _ _ _ Hr) as [Ha [Hl _]].
    unfold vec_new in Hnew. rewrite (proj1 Hb) in Hnew. cbn [obind] in Hnew. injection Hnew as <-. cbn [vh_values vh_axes] in *.
    rewrite repeat_length in Hl.
    destruct (C32_vec_iter A Z AX h n) as (items & Hit & Hlen & Hk & _).
    { rewrite Ha. exact Hb. }
    { unfold vec_values. lia. }
    assert (Hval : forall it, In it items -> exists k, PropIntBins.total (reaching a (it_index it) ops) = (it_value it + k * int_span t)%Z).
    { intros it Hin. apply In_nth_error in Hin as [k Hn]. destruct (Hk k it Hn) as (-> & _ & Hvk).
      destruct (Hv h (N.of_nat k) Hr) as [v [Hv1 [_ Hv2]]].
      { unfold vec_value_at_index; cbn [vh_values]. rewrite Nat2N.id, nth_error_repeat_lt; [discriminate|apply nth_error_some_lt in Hn; lia]. }
      rewrite Hvk in Hv1. injection Hv1 as ->. exact Hv2. }
    assert (Hidx : map it_index items = range n).
    { apply nth_error_ext_len.
      - unfold range. rewrite !map_length, seq_length. lia.
      - intros k x Hx. rewrite nth_error_map in Hx. destruct (nth_error items k) as [it|] eqn:En; [|discriminate].
        injection Hx as <-. destruct (Hk k it En) as (-> & _). apply nth_error_some_lt in En. unfold range.
        rewrite nth_error_map, (nth_error_nth' _ 0%nat) by (rewrite seq_length; lia). rewrite seq_nth by lia. reflexivity. }
    destruct (sum_modulo it_value (fun it => PropIntBins.total (reaching a (it_index it) ops)) (int_span t)
                (List.filter (fun it => chosen (it_index it)) items)) as [k Hsum].
    { intros it Hin. apply filter_In in Hin as [Hin _]. exact (Hval it Hin). }
    exists items, k. split; [exact Hit|]. rewrite <- Hsum. symmetry.
    rewrite <- (map_map it_index (fun i => PropIntBins.total (reaching a i ops))).
    rewrite <- filter_map_comm, Hidx. apply group_total.
    + apply PropProject.NoDup_filter. unfold range. apply NoDup_ListNoDup, FinFun.Injective_map_NoDup; [intros x y; apply Nat2N.inj|]. apply seq_NoDup.
    + intros o i Hino Hi. apply (Hix o i Hino) in Hi. rewrite elem_of_list_In, filter_In. split; [tauto|]. intros Hch. split; [|exact Hch].
      unfold range. apply in_map_iff. exists (N.to_nat i). split; [apply N2Nat.id|]. apply in_seq. lia.
  - intros h order Hr Ho.
    destruct (C29_hash_contents_are_tally _ _ _ _ _ _ _ _ _ _ _ _ Hr) as [Ha [Hnone _]].
    assert (Hreach : forall i, reaching a i ops <> [] -> i < n).
    { intros i Hne. destruct (reaching a i ops) as [|o l] eqn:E; [congruence|].
      assert (Hin : In o (reaching a i ops)) by (rewrite E; left; reflexivity).
      apply filter_In in Hin as [Hin Hl]. apply lands_in_iff in Hl. exact (Hix _ _ Hin Hl). }
    assert (Hstored : forall i v, hash_value_at_index h i = Some v -> reaching a i ops <> []).
    { intros i v Hi E. rewrite (Hnone i E) in Hi. discriminate. }
    destruct (C31_hash_iter A Z AX h n order) as (items & Hit & Hnd & Hin & Hex & _).
    { rewrite Ha. exact Hb. }
    { intros i v Hi. exact (Hreach i (Hstored i v Hi)). }
    { exact Ho. }
    assert (Hval : forall it, In it items -> exists k, PropIntBins.total (reaching a (it_index it) ops) = (it_value it + k * int_span t)%Z).
    { intros it Hi. destruct (Hin it Hi) as [_ Hvi]. destruct (HS h (it_index it) Hr (Hstored _ _ Hvi)) as [v [Hv1 [_ Hv2]]].
      rewrite Hvi in Hv1. injection Hv1 as ->. exact Hv2. }
    destruct (sum_modulo it_value (fun it => PropIntBins.total (reaching a (it_index it) ops)) (int_span t)
                (List.filter (fun it => chosen (it_index it)) items)) as [k Hsum].
    { intros it Hi. apply filter_In in Hi as [Hi _]. exact (Hval it Hi). }
    exists items, k. split; [exact Hit|]. rewrite <- Hsum. symmetry.
    rewrite <- (map_map it_index (fun i => PropIntBins.total (reaching a i ops))).
    rewrite <- filter_map_comm. apply group_total.
    + apply PropProject.NoDup_filter. exact Hnd.
    + intros o i Ho' Hi. rewrite elem_of_list_In, filter_In. split; [tauto|]. intros Hch. split; [|exact Hch].
      assert (Hne : reaching a i ops <> []).
      { intros E. assert (Hf : In o (reaching a i ops)). { apply filter_In. split; [exact Ho'|]. apply lands_in_iff. exact Hi. }
        rewrite E in Hf. destruct Hf. }
      destruct (HS h i Hr Hne) as [v [Hv1 _]]. destruct (Hex i v Hv1) as [b Hbi]. apply in_map_iff. exists (mkItem i b v). split; [reflexivity|exact Hbi].
Qed.
Print Assumptions C67_groups_of_bins_modular.

(** [u8] bins without overflow checks: 200 and 100 in bin 1, 7 in bin 0: the two bins read 44 and 7,
    and 307 = 51 + 256. *)
Example C67_modular_nonvacuous : forall w,
  let B := {| overflow_checks := false; target_width := w |} in let t := unsigned 8 in
  let calls := [@CallFillWith _ Z Empty_set (ex_axis B) 7 200; @CallFillWith _ Z Empty_set (ex_axis B) 5 7; @CallFillWith _ Z Empty_set (ex_axis B) 7 100]%Z in
  primitive_int t /\ int_span t = 256%Z /\ @num_bins _ (ex_axis B) ex_cat = Val 4
  /\ sumZ (map amount (List.filter (@lands_among _ _ _ (ex_axis B) ex_cat (fun i => i <? 3)) calls)) = 307%Z
  /\ @vec_calls _ Z Z Empty_set (ex_axis B) (int_fill t) (int_fill_with t) no_weighted (mkVecHist ex_cat [0; 0; 0; 0]%Z) calls
     = Val (mkVecHist ex_cat [7; 44; 0; 0]%Z).
Proof. intros w B t calls. split; [exists 8%Z; split; [lia | tauto]|]. split; [reflexivity|]. split; [destruct w; reflexivity|]. split; [reflexivity|]. destruct w; vm_compute; reflexivity. Qed.
