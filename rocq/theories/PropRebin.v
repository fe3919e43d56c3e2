(** * PropRebin: coarser axes and rebinning (C87). *)
From stdpp Require Import gmap.
From Coq Require Import ZifyBool ZifyN ZifyNat Lia Reals.
From Flocq Require Import Core IEEE754.BinarySingleNaN.
From Verif Require Import Base BaseFacts Num Uniform Axis Spec FillSpec IntFacts Axes AxesSpec AxesFacts AxesMacro Category Value VecHist HashHist
  HistSpec HistFacts HashFacts OpsFacts PropCategory PropAxes PropHist PropHistIter PropOrder PropMerge PropIntBins Macros Float ExactSpec PropCount
  PropProject SimSpec PropNested PropRelabel PropFloatCounts PropOpsMore PropAlgebraMore.
Open Scope N_scope.

(** ** Specification *)

(** The axis [a2] with [n2] bins is coarser than [a1] with [n1] bins: bin [i] of [a1]
    is a part of bin [group i] of [a2] (the two are related by [RI]), and of related
    coordinates the one is in the group of the bin the other is in; a coordinate is in
    no bin of [a2] when it is in no bin of [a1]. *)
Record coarsens {A1 A2 : Type} (AX1 : Axis A1) (AX2 : Axis A2) (RC : @Coordinate A1 AX1 -> @Coordinate A2 AX2 -> Prop)
    (RI : @Interval A1 AX1 -> @Interval A2 AX2 -> Prop) (a1 : A1) (a2 : A2) (n1 n2 : N) (group : N -> N) : Prop := {
  co_bins_1 : has_bins AX1 a1 n1;
  co_bins_2 : has_bins AX2 a2 n2;
  co_bin i : i < n1 -> group i < n2 /\ exists b1 b2, bin a1 i = Val (Some b1) /\ bin a2 (group i) = Val (Some b2) /\ RI b1 b2;
  co_index c1 c2 : RC c1 c2 -> exists r, index a1 c1 = Val r /\ (forall i, r = Some i -> i < n1) /\ index a2 c2 = Val (option_map group r)
}.

(** Component by component. *)
Inductive tuple_coarsens : forall ts us : list axis_type, axes_tuple ts -> axes_tuple us -> (coords ts -> coords us -> Prop) ->
    (intervals ts -> intervals us -> Prop) -> list N -> list N -> list (N -> N) -> Prop :=
| tuple_coarsens_nil : tuple_coarsens [] [] tt tt (fun _ _ => True) (fun _ _ => True) [] [] []
| tuple_coarsens_cons t u ts us x y xs ys RC RI RCs RIs n m ns ms group groups :
    coarsens (at_axis t) (at_axis u) RC RI x y n m group -> tuple_coarsens ts us xs ys RCs RIs ns ms groups ->
    tuple_coarsens (t :: ts) (u :: us) (x, xs) (y, ys) (fun c d => RC (fst c) (fst d) /\ RCs (snd c) (snd d))
      (fun b d => RI (fst b) (fst d) /\ RIs (snd b) (snd d)) (n :: ns) (m :: ms) (group :: groups).

(** The sum of the values that iteration reports for the bins of one group. *)
Definition group_sum {A} {AX : Axis A} (group : N -> N) (j : N) (items : list (@Item (@Interval A AX) Z)) : Z :=
  sumZ (map it_value (List.filter (fun it => group (it_index it) =? j) items)).

(** ** Proofs *)
Lemma filter_le {X} (f : X -> bool) (l : list X) : (length (List.filter f l) <= length l)%nat.
Proof. induction l as [|x l IH]; cbn [List.filter length]; [lia|]. destruct (f x); cbn [length]; lia. Qed.
Section Contents.
Context {A1 A2 D W : Type} {AX1 : Axis A1} {AX2 : Axis A2}
        {RC : @Coordinate A1 AX1 -> @Coordinate A2 AX2 -> Prop} {RI : @Interval A1 AX1 -> @Interval A2 AX2 -> Prop}
        {a1 : A1} {a2 : A2} {n1 n2 : N} {group : N -> N} (HR : coarsens AX1 AX2 RC RI a1 a2 n1 n2 group).

Lemma coarse_lands j (o1 : fill_op (AX := AX1) D W) (o2 : fill_op (AX := AX2) D W) : same_call AX1 AX2 RC o1 o2 ->
  lands_in a2 j o2 = lands_among a1 (fun i => group i =? j) o1.
Proof using HR.
  intros Ho. unfold lands_in, lands_among. destruct (co_index _ _ _ _ _ _ _ _ _ HR _ _ (same_call_coordinate _ _ Ho)) as (r & -> & _ & ->).
  destruct r; reflexivity.
Qed.
Lemma coarse_reaching j ops1 ops2 : Forall2 (same_call AX1 AX2 RC) ops1 ops2 ->
  Forall2 (same_call AX1 AX2 RC) (List.filter (lands_among a1 (fun i => group i =? j)) ops1) (reaching (D := D) (W := W) a2 j ops2).
Proof using HR.
  intros Ho. induction Ho as [|o1 o2 l1 l2 Hs Ho IH]; [constructor|]. unfold reaching in *. cbn [List.filter].
  rewrite (coarse_lands j o1 o2 Hs). destruct (lands_among _ _ o1); [constructor; assumption | exact IH].
Qed.
Lemma coarse_in_range ops1 ops2 : Forall2 (same_call AX1 AX2 RC) ops1 ops2 ->
  forall (o : fill_op (AX := AX1) D W) i, In o ops1 -> index a1 (op_coordinate o) = Val (Some i) -> i < n1.
Proof using HR.
  intros Ho. induction Ho as [|o1 o2 l1 l2 Hs Ho IH]; [intros o i []|]. intros o i [<-|Hin]; [|now apply IH].
  destruct (co_index _ _ _ _ _ _ _ _ _ HR _ _ (same_call_coordinate _ _ Hs)) as (r & -> & Hr & _). intros [= ->]. now apply Hr.
Qed.
End Contents.

Lemma same_amounts {A1 A2} {AX1 : Axis A1} {AX2 : Axis A2} (RC : @Coordinate A1 AX1 -> @Coordinate A2 AX2 -> Prop)
  (ops1 : list (fill_op (AX := AX1) Z Empty_set)) (ops2 : list (fill_op (AX := AX2) Z Empty_set)) : Forall2 (same_call AX1 AX2 RC) ops1 ops2 ->
  map amount ops1 = map amount ops2.
Proof. intros H. induction H as [|o1 o2 l1 l2 Hs H IH]; [reflexivity|]. cbn [map]. rewrite IH. f_equal. now destruct Hs. Qed.

(** C87. Fill a histogram over [a1] and one over a coarser axis [a2] with the same
    calls (integer bins, overflow checked): every bin of the coarse histogram holds the
    sum of the bins of its group in the fine one, dense and sparse (a bin that a sparse
    histogram does not store counting 0). *)
Theorem C87_integer_bins :
  forall (B : Build) (t : int_type) A1 A2 (AX1 : Axis A1) (AX2 : Axis A2) RC RI (a1 : A1) (a2 : A2) n1 n2 group
         (ops1 : list (fill_op (AX := AX1) Z Empty_set)) (ops2 : list (fill_op (AX := AX2) Z Empty_set)),
  primitive_int t -> overflow_checks = true ->
  coarsens AX1 AX2 RC RI a1 a2 n1 n2 group -> Forall2 (same_call AX1 AX2 RC) ops1 ops2 ->
  (forall g1 g2 h1 h2, @vec_new A1 Z AX1 (int_default t) a1 = Val g1 -> @vec_new A2 Z AX2 (int_default t) a2 = Val g2 ->
     int_vec_calls t g1 ops1 = Val h1 -> int_vec_calls t g2 ops2 = Val h2 ->
     exists items, vec_iter h1 = Val items
     /\ forall j, j < n2 -> vec_value_at_index h2 j = Some (group_sum (AX := AX1) group j items))
  /\ (forall h1 h2 order, int_hash_calls t (hash_new a1) ops1 = Val h1 -> int_hash_calls t (hash_new a2) ops2 = Val h2 ->
     an_order (hash_as_map h1) order ->
     exists items, hash_iter h1 order = Val items
     /\ forall j, j < n2 -> match hash_value_at_index h2 j with Some v => v | None => 0%Z end = group_sum (AX := AX1) group j items).
Proof.
  intros B t A1 A2 AX1 AX2 RC RI a1 a2 n1 n2 group ops1 ops2 Ht Hc HR Ho.
  assert (Hlt := coarse_in_range HR ops1 ops2 Ho).
  assert (HT : forall j, PropIntBins.total (reaching a2 j ops2) = sumZ (map amount (List.filter (lands_among a1 (fun i => group i =? j)) ops1))).
  { intros j. unfold PropIntBins.total. f_equal. symmetry. apply (same_amounts RC). exact (coarse_reaching HR j ops1 ops2 Ho). }
  assert (HB1 := co_bins_1 _ _ _ _ _ _ _ _ _ HR). destruct (co_bins_2 _ _ _ _ _ _ _ _ _ HR) as [N2 _].
  split.
  - intros g1 g2 h1 h2 G1 G2 H1 H2.
    destruct (C67_groups_of_bins B t A1 AX1 a1 n1 ops1 (fun _ => true) Ht Hc HB1 Hlt) as [GD _].
    destruct (GD g1 h1 G1 H1) as (items & Hit & _). exists items. split; [exact Hit|]. intros j Hj.
    destruct (C51_checked_dense B t A2 AX2 a2 g2 ops2 Ht Hc G2) as [Hv _]. rewrite (Hv h2 j H2).
    2:{ unfold vec_new in G2. rewrite N2 in G2. injection G2 as <-. unfold vec_value_at_index. cbn [vh_values]. rewrite nth_error_repeat_lt; [discriminate|lia]. }
    destruct (C67_groups_of_bins B t A1 AX1 a1 n1 ops1 (fun i => group i =? j) Ht Hc HB1 Hlt) as [GD' _].
    destruct (GD' g1 h1 G1 H1) as (items' & Hit' & Hs). pose proof (eq_trans (eq_sym Hit') Hit) as Q. injection Q as ->.
    unfold group_sum. rewrite Hs, HT. reflexivity.
  - intros h1 h2 order H1 H2 Hor.
    destruct (C67_groups_of_bins B t A1 AX1 a1 n1 ops1 (fun _ => true) Ht Hc HB1 Hlt) as [_ GS].
    destruct (GS h1 order H1 Hor) as (items & Hit & _). exists items. split; [exact Hit|]. intros j Hj.
    destruct (C51_checked_sparse B t A2 AX2 a2 ops2 Ht Hc) as [Hv _]. rewrite (Hv h2 j H2).
    destruct (C67_groups_of_bins B t A1 AX1 a1 n1 ops1 (fun i => group i =? j) Ht Hc HB1 Hlt) as [_ GS'].
    destruct (GS' h1 order H1 Hor) as (items' & Hit' & Hs). pose proof (eq_trans (eq_sym Hit') Hit) as Q. injection Q as ->.
    unfold group_sum. rewrite Hs, <- HT. destruct (decide (reaching a2 j ops2 = [])) as [E|E]; [rewrite E|]; reflexivity.
Qed.
Print Assumptions C87_integer_bins.

(** In builds without overflow checks the same holds up to a multiple of 2^w. *)
Theorem C87_integer_bins_modular :
  forall (B : Build) (t : int_type) A1 A2 (AX1 : Axis A1) (AX2 : Axis A2) RC RI (a1 : A1) (a2 : A2) n1 n2 group
         (ops1 : list (fill_op (AX := AX1) Z Empty_set)) (ops2 : list (fill_op (AX := AX2) Z Empty_set)),
  primitive_int t -> overflow_checks = false ->
  coarsens AX1 AX2 RC RI a1 a2 n1 n2 group -> Forall2 (same_call AX1 AX2 RC) ops1 ops2 ->
  (forall g1 g2 h1 h2, @vec_new A1 Z AX1 (int_default t) a1 = Val g1 -> @vec_new A2 Z AX2 (int_default t) a2 = Val g2 ->
     int_vec_calls t g1 ops1 = Val h1 -> int_vec_calls t g2 ops2 = Val h2 ->
     exists items, vec_iter h1 = Val items
     /\ forall j, j < n2 -> exists v k, vec_value_at_index h2 j = Some v /\ fits t v
          /\ v = (group_sum (AX := AX1) group j items + k * int_span t)%Z)
  /\ (forall h1 h2 order, int_hash_calls t (hash_new a1) ops1 = Val h1 -> int_hash_calls t (hash_new a2) ops2 = Val h2 ->
     an_order (hash_as_map h1) order ->
     exists items, hash_iter h1 order = Val items
     /\ forall j, j < n2 -> exists k, match hash_value_at_index h2 j with Some v => v | None => 0%Z end
          = (group_sum (AX := AX1) group j items + k * int_span t)%Z).
Proof.
  intros B t A1 A2 AX1 AX2 RC RI a1 a2 n1 n2 group ops1 ops2 Ht Hc HR Ho.
  assert (Hlt := coarse_in_range HR ops1 ops2 Ho).
  assert (HT : forall j, PropIntBins.total (reaching a2 j ops2) = sumZ (map amount (List.filter (lands_among a1 (fun i => group i =? j)) ops1))).
  { intros j. unfold PropIntBins.total. f_equal. symmetry. apply (same_amounts RC). exact (coarse_reaching HR j ops1 ops2 Ho). }
  assert (HB1 := co_bins_1 _ _ _ _ _ _ _ _ _ HR). destruct (co_bins_2 _ _ _ _ _ _ _ _ _ HR) as [N2 _].
  assert (Hsp : int_span t = (int_max t - int_min t + 1)%Z) by reflexivity.
  destruct (C51_unchecked B t A2 AX2 a2 ops2 Ht Hc) as (UD & _ & US).
  split.
  - intros g1 g2 h1 h2 G1 G2 H1 H2.
    destruct (C67_groups_of_bins_modular B t A1 AX1 a1 n1 ops1 (fun _ => true) Ht Hc HB1 Hlt) as [GD _].
    destruct (GD g1 h1 G1 H1) as (items & _ & Hit & _). exists items. split; [exact Hit|]. intros j Hj.
    destruct (UD g2 G2) as [_ Hv]. destruct (Hv h2 j H2) as (v & Ev & Fv & k & Ek).
    { unfold vec_new in G2. rewrite N2 in G2. injection G2 as <-. unfold vec_value_at_index. cbn [vh_values]. rewrite nth_error_repeat_lt; [discriminate|lia]. }
    destruct (C67_groups_of_bins_modular B t A1 AX1 a1 n1 ops1 (fun i => group i =? j) Ht Hc HB1 Hlt) as [GD' _].
    destruct (GD' g1 h1 G1 H1) as (items' & k' & Hit' & Hs). pose proof (eq_trans (eq_sym Hit') Hit) as Q. injection Q as ->.
    exists v, (k' - k)%Z. split; [exact Ev|]. split; [exact Fv|]. unfold group_sum. rewrite HT, Hs, <- Hsp in Ek. lia.
  - intros h1 h2 order H1 H2 Hor.
    destruct (C67_groups_of_bins_modular B t A1 AX1 a1 n1 ops1 (fun _ => true) Ht Hc HB1 Hlt) as [_ GS].
    destruct (GS h1 order H1 Hor) as (items & _ & Hit & _). exists items. split; [exact Hit|]. intros j Hj.
    destruct (C67_groups_of_bins_modular B t A1 AX1 a1 n1 ops1 (fun i => group i =? j) Ht Hc HB1 Hlt) as [_ GS'].
    destruct (GS' h1 order H1 Hor) as (items' & k' & Hit' & Hs). pose proof (eq_trans (eq_sym Hit') Hit) as Q. injection Q as ->.
    unfold group_sum. specialize (HT j).
    destruct (C29_hash_contents_are_tally _ _ _ _ _ _ _ _ _ _ _ _ H2) as [_ [Hnone _]].
    destruct (reaching a2 j ops2) as [|o l] eqn:E.
    + rewrite (Hnone j E). exists k'. rewrite <- Hs, <- HT. reflexivity.
    + destruct (US h2 j H2) as (v & Ev & Fv & k & Ek); [congruence|]. rewrite Ev. exists (k' - k)%Z. rewrite E, HT, Hs, <- Hsp in Ek. lia.
Qed.
Print Assumptions C87_integer_bins_modular.

(** With the default bin type, [f64], and up to 2^53 [fill] calls: exactly the sum. *)
Theorem C87_f64_counts :
  forall (B : Build) A1 A2 (AX1 : Axis A1) (AX2 : Axis A2) RC RI (a1 : A1) (a2 : A2) n1 n2 group
         (cs1 : list (@Coordinate A1 AX1)) (cs2 : list (@Coordinate A2 AX2)),
  (Z.of_nat (length cs1) <= 2 ^ 53)%Z ->
  coarsens AX1 AX2 RC RI a1 a2 n1 n2 group -> Forall2 RC cs1 cs2 ->
  let exact_sum j (items : list (@Item (@Interval A1 AX1) f64)) :=
    sumR (map (fun it => B2R (it_value it)) (List.filter (fun it => group (it_index it) =? j) items)) in
  (exists g1 g2 h1 h2 items, @vec_new A1 f64 AX1 f64_default a1 = Val g1 /\ @vec_new A2 f64 AX2 f64_default a2 = Val g2
     /\ f64_vec_calls g1 (fills cs1) = Val h1 /\ f64_vec_calls g2 (fills cs2) = Val h2
     /\ vec_iter h1 = Val items
     /\ forall j, j < n2 -> exists v, vec_value_at_index h2 j = Some v /\ is_finite v = true /\ B2R v = exact_sum j items)
  /\ (exists h1 h2, f64_hash_calls (hash_new a1) (fills cs1) = Val h1 /\ f64_hash_calls (hash_new a2) (fills cs2) = Val h2
     /\ forall order, an_order (hash_as_map h1) order ->
     exists items, hash_iter h1 order = Val items
     /\ forall j, j < n2 -> match hash_value_at_index h2 j with Some v => is_finite v = true /\ B2R v = exact_sum j items | None => exact_sum j items = 0%R end).
Proof.
  intros B A1 A2 AX1 AX2 RC RI a1 a2 n1 n2 group cs1 cs2 Hl HR Hcs exact_sum.
  assert (HB1 := co_bins_1 _ _ _ _ _ _ _ _ _ HR). assert (HB2 := co_bins_2 _ _ _ _ _ _ _ _ _ HR).
  assert (W1 : forall c, In c cs1 -> indexes_within AX1 a1 n1 c).
  { clear Hl. induction Hcs as [|c1 c2 l1 l2 H Hcs IH]; [intros c []|]. intros c [<-|Hin]; [|now apply IH].
    destruct (co_index _ _ _ _ _ _ _ _ _ HR _ _ H) as (r & E & Hr & _). exists r. auto. }
  assert (W2 : forall c, In c cs2 -> indexes_within AX2 a2 n2 c).
  { clear Hl W1. induction Hcs as [|c1 c2 l1 l2 H Hcs IH]; [intros c []|]. intros c [<-|Hin]; [|now apply IH].
    destruct (co_index _ _ _ _ _ _ _ _ _ HR _ _ H) as (r & E & Hr & E2). exists (option_map group r). split; [exact E2|]. intros i Hi.
    destruct r as [k|]; [|discriminate]. injection Hi as <-. exact (proj1 (co_bin _ _ _ _ _ _ _ _ _ HR k (Hr k eq_refl))). }
  assert (HH : forall j, hits a2 j cs2 = length (List.filter (fun c => match index a1 c with Val (Some i) => group i =? j | _ => false end) cs1)).
  { intros j. clear Hl W1 W2. unfold hits. induction Hcs as [|c1 c2 l1 l2 H Hcs IH]; [reflexivity|]. cbn [List.filter].
    destruct (co_index _ _ _ _ _ _ _ _ _ HR _ _ H) as (r & -> & _ & ->). destruct r as [k|]; cbn [option_map]; [destruct (group k =? j); cbn [length]; now rewrite IH | exact IH]. }
  assert (Hl2 : (Z.of_nat (length cs2) <= 2 ^ 53)%Z) by (rewrite <- (Forall2_length _ _ _ Hcs); exact Hl).
  assert (Hle : forall j, (Z.of_nat (hits a2 j cs2) <= 2 ^ 53)%Z).
  { intros j. unfold hits. pose proof (filter_le (fun c => match index a2 c with Val (Some k) => k =? j | _ => false end) cs2). lia. }
  destruct (counts_on_any_axis B A1 AX1 a1 n1 cs1 Hl HB1 W1) as [(g1 & h1 & items & G1 & H1 & I1 & _ & S1) (s1 & Hs1 & SS1)].
  destruct (counts_on_any_axis B A2 AX2 a2 n2 cs2 Hl2 HB2 W2) as [(g2 & h2 & items2 & G2 & H2 & I2 & _ & _) (s2 & Hs2 & _)].
  split.
  - exists g1, g2, h1, h2, items. split; [exact G1|]. split; [exact G2|]. split; [exact H1|]. split; [exact H2|]. split; [exact I1|].
    intros j Hj. destruct (C45_f64_counts B A2 AX2 a2 cs2 j) as [HD _]. destruct (HD g2 h2 G2 H2) as (v & Ev & Fv & _ & Rv).
    { destruct HB2 as [N2 _]. unfold vec_new in G2. rewrite N2 in G2. injection G2 as <-. unfold vec_value_at_index. cbn [vh_values]. rewrite nth_error_repeat_lt; [discriminate|lia]. }
    exists v. split; [exact Ev|]. split; [exact Fv|]. rewrite Rv, Z.min_l by apply Hle. rewrite HH, <- INR_IZR_INZ. symmetry. apply (S1 (fun i => group i =? j)).
  - exists s1, s2. split; [exact Hs1|]. split; [exact Hs2|]. intros order Ho. destruct (SS1 order Ho) as (its & Hit & Ss). exists its. split; [exact Hit|].
    intros j Hj. specialize (Ss (fun i => group i =? j)). destruct (C45_f64_counts B A2 AX2 a2 cs2 j) as [_ HS].
    destruct (HS s2 Hs2) as [[Hk ->]|(v & Hk & -> & Fv & _ & Rv)].
    + refine (eq_trans Ss _). rewrite HH in Hk. match goal with |- INR ?l = _ => assert (l = 0%nat) as -> by (clear - Hk; lia) end. reflexivity.
    + split; [exact Fv|]. rewrite Rv, Z.min_l by apply Hle. rewrite HH, <- INR_IZR_INZ. symmetry. exact Ss.
Qed.
Print Assumptions C87_f64_counts.

(** Which axes are coarser than which can be read off their bins: if both axes put
    every coordinate exactly into the bin that contains it, every bin of the fine axis
    lies inside a bin of the coarse one, and the coarse axis covers no coordinate that
    the fine one does not, then the axis is coarser. *)
Theorem C87_by_bins {A1 A2} (AX1 : Axis A1) (AX2 : Axis A2) (a1 : A1) (a2 : A2) n1 n2 ok1 ok2 mem1 mem2 group
    (RC : @Coordinate A1 AX1 -> @Coordinate A2 AX2 -> Prop) :
  exact_axis AX1 a1 n1 ok1 mem1 -> exact_axis AX2 a2 n2 ok2 mem2 ->
  let RC' c1 c2 := RC c1 c2 /\ ok1 c1 /\ ok2 c2 in
  let RI b1 b2 := forall c1 c2, RC' c1 c2 -> mem1 b1 c1 = true -> mem2 b2 c2 = true in
  (forall i, i < n1 -> group i < n2) ->
  (forall i b1 b2, i < n1 -> bin a1 i = Val (Some b1) -> bin a2 (group i) = Val (Some b2) -> RI b1 b2) ->
  (forall j b2 c1 c2, j < n2 -> bin a2 j = Val (Some b2) -> RC' c1 c2 -> mem2 b2 c2 = true ->
     exists i b1, i < n1 /\ bin a1 i = Val (Some b1) /\ mem1 b1 c1 = true) ->
  coarsens AX1 AX2 RC' RI a1 a2 n1 n2 group.
Proof.
  intros E1 E2 RC' RI Hgr Hin Hcov. pose proof (ex_bins _ _ _ _ _ E1) as [N1 B1]. pose proof (ex_bins _ _ _ _ _ E2) as [N2 B2].
  assert (Hg : forall i, i < n1 -> group i < n2 /\ exists b1 b2, bin a1 i = Val (Some b1) /\ bin a2 (group i) = Val (Some b2) /\ RI b1 b2).
  { intros i Hi. destruct (B1 i Hi) as [b1 Eb1]. split; [exact (Hgr i Hi)|]. destruct (B2 _ (Hgr i Hi)) as [b2 Eb2].
    exists b1, b2. split; [exact Eb1|]. split; [exact Eb2|]. exact (Hin i b1 b2 Hi Eb1 Eb2). }
  constructor; [split; assumption | split; assumption | exact Hg|].
  intros c1 c2 (Hr & O1 & O2). destruct (ex_index _ _ _ _ _ E1 c1 O1) as (r & Er & Lr). exists r. split; [exact Er|]. split; [exact Lr|].
  destruct r as [i|]; cbn [option_map].
  - specialize (Lr i eq_refl). destruct (Hg i Lr) as (Hgi & b1 & b2 & Eb1 & Eb2 & HI).
    apply (ex_iff _ _ _ _ _ E2 c2 (group i) b2 O2 Hgi Eb2). apply (HI c1 c2); [split; [|split]; assumption|].
    apply (ex_iff _ _ _ _ _ E1 c1 i b1 O1 Lr Eb1). exact Er.
  - destruct (ex_index _ _ _ _ _ E2 c2 O2) as (r2 & Er2 & Lr2). rewrite Er2. destruct r2 as [j|]; [|reflexivity]. exfalso.
    specialize (Lr2 j eq_refl). destruct (B2 j Lr2) as [b2 Eb2]. pose proof (proj1 (ex_iff _ _ _ _ _ E2 c2 j b2 O2 Lr2 Eb2) Er2) as Hm.
    destruct (Hcov j b2 c1 c2 Lr2 Eb2 (conj Hr (conj O1 O2)) Hm) as (i & b1 & Hi & Eb1 & Hm1).
    apply (ex_iff _ _ _ _ _ E1 c1 i b1 O1 Hi Eb1) in Hm1. congruence.
Qed.
Print Assumptions C87_by_bins.

(** ** Tuples *)
Section Tuples.
Context {B : Build}.
Lemma tuple_coarsens_bins ts us xs ys RC RI ns ms groups : tuple_coarsens ts us xs ys RC RI ns ms groups -> tuple_has_bins ts xs ns /\ tuple_has_bins us ys ms.
Proof.
  intros H. induction H as [|t u ts us x y xs ys RC RI RCs RIs n m ns ms group groups H1 H2 [IH1 IH2]]; [now split|]. split; (split; [|assumption]).
  - exact (co_bins_1 _ _ _ _ _ _ _ _ _ H1).
  - exact (co_bins_2 _ _ _ _ _ _ _ _ _ H1).
Qed.
Lemma tuple_coarsens_cell ts us xs ys RC RI ns ms groups : tuple_coarsens ts us xs ys RC RI ns ms groups ->
  forall is, cell ns is -> cell ms (move_each groups is) /\ exists b d, component_bins ts xs is b /\ component_bins us ys (move_each groups is) d /\ RI b d.
Proof.
  intros H. induction H as [|t u ts us x y xs ys RC RI RCs RIs n m ns ms group groups H1 H2 IH]; intros is Hc.
  - inversion Hc; subst. split; [constructor|]. exists tt, tt. cbn. auto.
  - inversion Hc as [|i n' is' ns' Hi Hc' E1 E2]; subst. destruct (IH is' Hc') as (Hc2 & b & d & Eb & Ed & HR).
    destruct (co_bin _ _ _ _ _ _ _ _ _ H1 i Hi) as (Hm & b0 & d0 & Eb0 & Ed0 & HR0). split; [constructor; assumption|].
    exists (b0, b), (d0, d). cbn [component_bins move_each fst snd]. tauto.
Qed.
Lemma tuple_coarsens_index ts us xs ys RC RI ns ms groups : tuple_coarsens ts us xs ys RC RI ns ms groups ->
  forall c d, RC c d -> components_index_within ts xs ns c /\ components_index_within us ys ms d
     /\ (forall is, cell ns is -> component_indices ts xs c is -> component_indices us ys d (move_each groups is))
     /\ (some_component_uncovered ts xs c -> some_component_uncovered us ys d).
Proof.
  intros H. induction H as [|t u ts us x y xs ys RC RI RCs RIs n m ns ms group groups H1 H2 IH]; intros c d Hr.
  - split; [reflexivity|]. split; [reflexivity|]. split; [|intros []]. intros is Hc _. inversion Hc; subst. reflexivity.
  - destruct Hr as [Hr Hrs]. destruct (IH _ _ Hrs) as (W1 & W2 & Hi & Hu). destruct (co_index _ _ _ _ _ _ _ _ _ H1 _ _ Hr) as (r & E1 & L1 & E2).
    split; [cbn [components_index_within fst snd]; split; [exists r; split; assumption | exact W1]|].
    split.
    { cbn [components_index_within fst snd]; split; [exists (option_map group r); split; [exact E2|] | exact W2].
      intros i Ei. destruct r as [k|]; [|discriminate]. injection Ei as <-. exact (proj1 (co_bin _ _ _ _ _ _ _ _ _ H1 k (L1 k eq_refl))). }
    split.
    + intros is Hc. inversion Hc as [|i n' is' ns' Hin Hc' F1 F2]; subst. cbn [component_indices move_each fst snd]. rewrite E1, E2.
      intros [Ha Hb]. injection Ha as ->. split; [reflexivity|]. exact (Hi is' Hc' Hb).
    + cbn [some_component_uncovered fst snd]. rewrite E1, E2. intros [Ha|Ha]; [left|right; tauto]. injection Ha as ->. reflexivity.
Qed.
End Tuples.

(** In any number of dimensions: a tuple of axes that are each coarser than the
    corresponding axis of another tuple is coarser than that tuple. *)
Theorem C87_tuples : forall (B : Build) ts us xs ys RC RI ns ms groups (a1 : AxesTuple ts) (a2 : AxesTuple us),
  tuple_coarsens ts us xs ys RC RI ns ms groups -> ts <> [] -> products_fit ns -> products_fit ms ->
  axes_from xs = Val a1 -> axes_from ys = Val a2 ->
  coarsens (axes_axis ts) (axes_axis us) RC RI a1 a2 (product ns) (product ms) (fun i => radix ms (move_each groups (digits_of i ns))).
Proof.
  intros B ts us xs ys RC RI ns ms groups a1 a2 H Ht Fn Fm A1 A2. destruct (tuple_coarsens_bins _ _ _ _ _ _ _ _ _ H) as [Hx Hy].
  assert (Hu : us <> []). { intros ->. now inversion H; subst. }
  destruct (C20_axes_tuple_has_bins B ts xs ns Ht Hx Fn) as (a & Ea & Q1). rewrite A1 in Ea. injection Ea as <-.
  destruct (C20_axes_tuple_has_bins B us ys ms Hu Hy Fm) as (a & Ea & Q2). rewrite A2 in Ea. injection Ea as <-.
  destruct (C23_axes_bin_of_cell B ts xs ns Ht Hx Fn) as (a & Ea & B1). rewrite A1 in Ea. injection Ea as <-.
  destruct (C23_axes_bin_of_cell B us ys ms Hu Hy Fm) as (a & Ea & B2). rewrite A2 in Ea. injection Ea as <-.
  destruct (C21_axes_index_value B ts xs ns Ht Hx Fn) as (a & Ea & _ & I1). rewrite A1 in Ea. injection Ea as <-.
  destruct (C21_axes_index_value B us ys ms Hu Hy Fm) as (a & Ea & _ & I2). rewrite A2 in Ea. injection Ea as <-.
  destruct (C22_axes_index_none B ts xs ns Ht Hx Fn) as (a & Ea & N1). rewrite A1 in Ea. injection Ea as <-.
  destruct (C22_axes_index_none B us ys ms Hu Hy Fm) as (a & Ea & N2). rewrite A2 in Ea. injection Ea as <-.
  assert (Hpos : forall i, i < product ns -> cell ns (digits_of i ns) /\ radix ns (digits_of i ns) = i).
  { intros i Hl. destruct (product_zero_or_pos ns) as [Hz|Hp]; [lia|]. split; [now apply digits_cell|]. rewrite radix_digits by exact Hp. apply N.mod_small. exact Hl. }
  constructor; [exact Q1 | exact Q2| |].
  - intros i Hl. destruct (Hpos i Hl) as [Hc Hr]. destruct (tuple_coarsens_cell _ _ _ _ _ _ _ _ _ H _ Hc) as (Hc2 & b & d & Eb & Ed & HR).
    split; [now apply radix_lt|]. exists b, d. split; [|split; [|exact HR]].
    + destruct (B1 _ Hc) as (b' & E & Eb'). rewrite Hr in E. rewrite (E : @bin _ (axes_axis ts) a1 i = _). f_equal. f_equal.
      apply all_bins_ok in Eb, Eb'. congruence.
    + destruct (B2 _ Hc2) as (d' & E & Ed'). rewrite (E : @bin _ (axes_axis us) a2 _ = _). f_equal. f_equal.
      apply all_bins_ok in Ed, Ed'. congruence.
  - intros c d HR. destruct (tuple_coarsens_index _ _ _ _ _ _ _ _ _ H c d HR) as (W1 & W2 & Hi & Hun).
    destruct (N1 c W1) as [Hn1 _]. destruct (N2 d W2) as [Hn2 _].
    destruct (all_indices_cases ts xs ns c W1) as [(is & _ & Hci & Hcell & _)|[_ Hu1]].
    + destruct (I1 c is Hci Hcell) as [E Lt]. exists (Some (radix ns is)). split; [exact E|]. split; [intros i [= <-]; exact Lt|].
      destruct (Hpos _ Lt) as [Hc' Hr']. cbn [option_map]. assert (digits_of (radix ns is) ns = is) as -> by (apply (radix_inj ns); assumption).
      destruct (tuple_coarsens_cell _ _ _ _ _ _ _ _ _ H _ Hcell) as (Hc2 & _). exact (proj1 (I2 d _ (Hi is Hcell Hci) Hc2)).
    + exists None. split; [exact (proj2 Hn1 Hu1)|]. split; [discriminate|]. exact (proj2 Hn2 (Hun Hu1)).
Qed.
Print Assumptions C87_tuples.
