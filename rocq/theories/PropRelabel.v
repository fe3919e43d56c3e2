(** * PropRelabel: flow bins, the order of axes and the order of categories only
    rename bins (C78). *)
From stdpp Require Import gmap.
From Coq Require Import Sorted Permutation.
From Flocq Require Import Core.FLX IEEE754.BinarySingleNaN.
From Verif Require Import Base BaseFacts Num Float Spec Axis Uniform UniformInt StdAlgo StdContract OrdLaws VarAxis Category CategoryFacts Axes AxesSpec AxesFacts PropAxes
  Value VecHist HashHist HistSpec PropHist SimSpec SimFacts IntFacts PropUniformInt PropVariable PropCategory FloatSpec FloatUniform PropUniformFloat PropNested.
Open Scope N_scope.

(** ** Specification *)

(** The axis [a1] with [n1] bins is, bin by bin, part of the axis [a2] with [n2]
    bins: bin [i] of [a1] corresponds to bin [move i] of [a2] (the two are related
    by [RI]), and for related coordinates both [index] calls return, the one giving
    bin [i] exactly when the other gives bin [move i]. *)
Record relabels {A1 A2 : Type} (AX1 : Axis A1) (AX2 : Axis A2) (RC : @Coordinate A1 AX1 -> @Coordinate A2 AX2 -> Prop)
    (RI : @Interval A1 AX1 -> @Interval A2 AX2 -> Prop) (a1 : A1) (a2 : A2) (n1 n2 : N) (move : N -> N) : Prop := {
  rl_bins_1 : has_bins AX1 a1 n1;
  rl_bins_2 : has_bins AX2 a2 n2;
  rl_bin i : i < n1 -> move i < n2 /\ exists b1 b2, bin a1 i = Val (Some b1) /\ bin a2 (move i) = Val (Some b2) /\ RI b1 b2;
  rl_index c1 c2 : RC c1 c2 -> exists r1 r2, index a1 c1 = Val r1 /\ index a2 c2 = Val r2
     /\ (forall i, r1 = Some i -> i < n1) /\ (forall i, r2 = Some i -> i < n2)
     /\ forall i, i < n1 -> (r1 = Some i <-> r2 = Some (move i))
}.

(** [l] with the elements at positions [k] and [k + 1] exchanged. *)
Definition swap_at {X} (k : nat) (l : list X) : list X :=
  firstn k l ++ match skipn k l with x :: y :: r => y :: x :: r | r => r end.

(** Two tuples of axes related component by component: related coordinates have all
    components related, related bins too. *)
Inductive tuple_relabels : forall ts us : list axis_type, axes_tuple ts -> axes_tuple us -> (coords ts -> coords us -> Prop) ->
    (intervals ts -> intervals us -> Prop) -> list N -> list N -> list (N -> N) -> Prop :=
| tuple_relabels_nil : tuple_relabels [] [] tt tt (fun _ _ => True) (fun _ _ => True) [] [] []
| tuple_relabels_cons t u ts us x y xs ys RC RI RCs RIs n m ns ms move moves :
    relabels (at_axis t) (at_axis u) RC RI x y n m move -> tuple_relabels ts us xs ys RCs RIs ns ms moves ->
    tuple_relabels (t :: ts) (u :: us) (x, xs) (y, ys) (fun c d => RC (fst c) (fst d) /\ RCs (snd c) (snd d))
      (fun b d => RI (fst b) (fst d) /\ RIs (snd b) (snd d)) (n :: ns) (m :: ms) (move :: moves).

(** Apply each function to the element at its place. *)
Fixpoint move_each (moves : list (N -> N)) (is : list N) : list N :=
  match moves, is with move :: moves', i :: is' => move i :: move_each moves' is' | _, _ => [] end.

(** ** Proofs *)
Section Contents.
Context {A1 A2 V D W : Type} {AX1 : Axis A1} {AX2 : Axis A2} {FV : Fill V} {FD : FillWith V D} {FW : FillWithWeighted V D W} {DV : Default V}
        {RC : @Coordinate A1 AX1 -> @Coordinate A2 AX2 -> Prop} {RI : @Interval A1 AX1 -> @Interval A2 AX2 -> Prop}
        {a1 : A1} {a2 : A2} {n1 n2 : N} {move : N -> N} (HR : relabels AX1 AX2 RC RI a1 a2 n1 n2 move).

Lemma same_call_coordinate (o1 : fill_op (AX := AX1) D W) (o2 : fill_op (AX := AX2) D W) : same_call AX1 AX2 RC o1 o2 -> RC (op_coordinate o1) (op_coordinate o2).
Proof. now intros []. Qed.
Lemma same_call_effect (o1 : fill_op (AX := AX1) D W) (o2 : fill_op (AX := AX2) D W) : same_call AX1 AX2 RC o1 o2 -> forall v : V, op_effect o1 v = op_effect o2 v.
Proof. now intros []. Qed.

Lemma relabel_lands i o1 o2 : i < n1 -> same_call AX1 AX2 RC o1 o2 -> lands_in (D := D) (W := W) a1 i o1 = lands_in (D := D) (W := W) a2 (move i) o2.
Proof using HR.
  intros Hi Ho. unfold lands_in. destruct (rl_index _ _ _ _ _ _ _ _ _ HR _ _ (same_call_coordinate _ _ Ho)) as (r1 & r2 & -> & -> & _ & _ & H).
  specialize (H i Hi). destruct r1 as [j|], r2 as [k|].
  - destruct (N.eqb_spec j i) as [->|Hji], (N.eqb_spec k (move i)) as [->|Hk]; try reflexivity.
    + pose proof (proj1 H eq_refl); congruence.
    + pose proof (proj2 H eq_refl); congruence.
  - destruct (N.eqb_spec j i) as [->|]; [|reflexivity]. discriminate (proj1 H eq_refl).
  - destruct (N.eqb_spec k (move i)) as [->|]; [|reflexivity]. discriminate (proj2 H eq_refl).
  - reflexivity.
Qed.
Lemma relabel_reaching i ops1 ops2 : i < n1 -> Forall2 (same_call AX1 AX2 RC) ops1 ops2 ->
  Forall2 (same_call AX1 AX2 RC) (reaching a1 i ops1) (reaching (D := D) (W := W) a2 (move i) ops2).
Proof using HR.
  intros Hi Ho. induction Ho as [|o1 o2 l1 l2 Hs Ho IH]; [constructor|]. unfold reaching in *. cbn [List.filter].
  rewrite (relabel_lands i o1 o2 Hi Hs). destruct (lands_in a2 (move i) o2); [constructor; assumption | exact IH].
Qed.
Lemma apply_same ops1 ops2 (v : V) : Forall2 (same_call AX1 AX2 RC) ops1 ops2 -> apply_all (D := D) (W := W) ops1 v = apply_all ops2 v.
Proof.
  intros Ho. revert v. induction Ho as [|o1 o2 l1 l2 Hs Ho IH]; intros v; [reflexivity|]. unfold apply_all in *. cbn [foldo].
  rewrite (same_call_effect _ _ Hs). destruct (op_effect o2 v); [apply IH | reflexivity].
Qed.
Lemma relabel_apply i ops1 ops2 (v : V) : i < n1 -> Forall2 (same_call AX1 AX2 RC) ops1 ops2 ->
  apply_all (D := D) (W := W) (reaching a1 i ops1) v = apply_all (reaching a2 (move i) ops2) v.
Proof using HR. intros Hi Ho. apply apply_same. now apply relabel_reaching. Qed.
Lemma relabel_index_returns_1 ops1 ops2 : Forall2 (same_call AX1 AX2 RC) ops1 ops2 ->
  forall o : fill_op (AX := AX1) D W, In o ops1 -> exists r, index a1 (op_coordinate o) = Val r.
Proof using HR.
  intros Ho. induction Ho as [|o1 o2 l1 l2 Hs Ho IH]; [intros o []|]. intros o [<-|Hin]; [|now apply IH].
  destruct (rl_index _ _ _ _ _ _ _ _ _ HR _ _ (same_call_coordinate _ _ Hs)) as (r1 & r2 & H & _). eauto.
Qed.
Lemma relabel_index_returns_2 ops1 ops2 : Forall2 (same_call AX1 AX2 RC) ops1 ops2 ->
  forall o : fill_op (AX := AX2) D W, In o ops2 -> exists r, index a2 (op_coordinate o) = Val r.
Proof using HR.
  intros Ho. induction Ho as [|o1 o2 l1 l2 Hs Ho IH]; [intros o []|]. intros o [<-|Hin]; [|now apply IH].
  destruct (rl_index _ _ _ _ _ _ _ _ _ HR _ _ (same_call_coordinate _ _ Hs)) as (r1 & r2 & _ & H & _). eauto.
Qed.
Lemma reaching_in_range_1 ops1 ops2 i : Forall2 (same_call AX1 AX2 RC) ops1 ops2 -> n1 <= i -> reaching (D := D) (W := W) a1 i ops1 = [].
Proof using HR.
  intros Ho Hi. induction Ho as [|o1 o2 l1 l2 Hs Ho IH]; [reflexivity|]. unfold reaching in *. cbn [List.filter]. rewrite IH. unfold lands_in.
  destruct (rl_index _ _ _ _ _ _ _ _ _ HR _ _ (same_call_coordinate _ _ Hs)) as (r1 & r2 & -> & _ & Hr & _).
  destruct r1 as [j|]; [|reflexivity]. specialize (Hr j eq_refl). destruct (N.eqb_spec j i); [lia | reflexivity].
Qed.
Lemma reaching_in_range_2 ops1 ops2 i : Forall2 (same_call AX1 AX2 RC) ops1 ops2 -> n2 <= i -> reaching (D := D) (W := W) a2 i ops2 = [].
Proof using HR.
  intros Ho Hi. induction Ho as [|o1 o2 l1 l2 Hs Ho IH]; [reflexivity|]. unfold reaching in *. cbn [List.filter]. rewrite IH. unfold lands_in.
  destruct (rl_index _ _ _ _ _ _ _ _ _ HR _ _ (same_call_coordinate _ _ Hs)) as (r1 & r2 & _ & -> & _ & Hr & _).
  destruct r2 as [j|]; [|reflexivity]. specialize (Hr j eq_refl). destruct (N.eqb_spec j i); [lia | reflexivity].
Qed.
End Contents.

(** C78. Fill a histogram over [a1] and one over [a2], of which [a1] is a part, with
    the same calls. If all calls on the second return, so do those on the first, and
    then every bin of the first holds exactly what the corresponding bin of the
    second holds; what [value] finds in the first, it finds in the second. If every
    bin of [a2] corresponds to one of [a1], the calls on the second return exactly
    when those on the first do. *)
Theorem C78_dense_contents : forall A1 A2 V D W (AX1 : Axis A1) (AX2 : Axis A2) (FV : Fill V) (FD : FillWith V D) (FW : FillWithWeighted V D W) (DV : Default V)
  RC RI (a1 : A1) (a2 : A2) n1 n2 move (g1 : VecHistogram A1 V) (g2 : VecHistogram A2 V) (ops1 : list (fill_op (AX := AX1) D W)) (ops2 : list (fill_op (AX := AX2) D W)),
  relabels AX1 AX2 RC RI a1 a2 n1 n2 move -> vec_new a1 = Val g1 -> vec_new a2 = Val g2 -> Forall2 (same_call AX1 AX2 RC) ops1 ops2 ->
  (forall h2, vec_calls g2 ops2 = Val h2 -> exists h1, vec_calls g1 ops1 = Val h1
     /\ (forall i, i < n1 -> vec_value_at_index h1 i = vec_value_at_index h2 (move i))
     /\ (forall c1 c2 v, RC c1 c2 -> vec_value h1 c1 = Val (Some v) -> vec_value h2 c2 = Val (Some v)))
  /\ ((forall j, j < n2 -> exists i, i < n1 /\ move i = j) -> (exists h1, vec_calls g1 ops1 = Val h1) -> exists h2, vec_calls g2 ops2 = Val h2).
Proof.
  intros A1 A2 V D W AX1 AX2 FV FD FW DV RC RI a1 a2 n1 n2 move g1 g2 ops1 ops2 HR G1 G2 Ho.
  destruct (rl_bins_1 _ _ _ _ _ _ _ _ _ HR) as [N1 _]. destruct (rl_bins_2 _ _ _ _ _ _ _ _ _ HR) as [N2 _].
  split.
  - intros h2 H2.
    destruct (proj1 (C28_vec_history_returns_iff _ _ _ _ AX2 FV FD FW DV a2 n2 g2 ops2 N2 G2) (ex_intro _ h2 H2)) as [_ R2].
    destruct (proj2 (C28_vec_history_returns_iff _ _ _ _ AX1 FV FD FW DV a1 n1 g1 ops1 N1 G1)) as [h1 H1].
    { split; [exact (relabel_index_returns_1 HR ops1 ops2 Ho)|]. intros i Hi. rewrite (relabel_apply HR i ops1 ops2 default_v Hi Ho).
      apply R2. apply (rl_bin _ _ _ _ _ _ _ _ _ HR i Hi). }
    exists h1. split; [exact H1|].
    destruct (C28_vec_contents_are_tally _ _ _ _ AX1 FV FD FW DV a1 n1 g1 h1 ops1 N1 G1 H1) as (X1 & T1 & _ & C1).
    destruct (C28_vec_contents_are_tally _ _ _ _ AX2 FV FD FW DV a2 n2 g2 h2 ops2 N2 G2 H2) as (X2 & T2 & _ & C2).
    assert (Hc : forall i, i < n1 -> vec_value_at_index h1 i = vec_value_at_index h2 (move i)).
    { intros i Hi. destruct (T1 i Hi) as (v & -> & E1). destruct (T2 (move i) (proj1 (rl_bin _ _ _ _ _ _ _ _ _ HR i Hi))) as (w & -> & E2).
      rewrite (relabel_apply HR i ops1 ops2 default_v Hi Ho) in E1. congruence. }
    split; [exact Hc|]. intros c1 c2 v Hr Hv. rewrite C1 in Hv. rewrite C2.
    destruct (rl_index _ _ _ _ _ _ _ _ _ HR _ _ Hr) as (r1 & r2 & E1 & E2 & B1 & _ & Hi). rewrite E1 in Hv. rewrite E2.
    destruct r1 as [i|]; [|discriminate]. specialize (B1 i eq_refl). rewrite (proj1 (Hi i B1) eq_refl). rewrite <- (Hc i B1). exact Hv.
  - intros Hon H1. destruct (proj1 (C28_vec_history_returns_iff _ _ _ _ AX1 FV FD FW DV a1 n1 g1 ops1 N1 G1) H1) as [_ R1].
    apply (C28_vec_history_returns_iff _ _ _ _ AX2 FV FD FW DV a2 n2 g2 ops2 N2 G2). split; [exact (relabel_index_returns_2 HR ops1 ops2 Ho)|].
    intros j Hj. destruct (Hon j Hj) as (i & Hi & <-). rewrite <- (relabel_apply HR i ops1 ops2 default_v Hi Ho). now apply R1.
Qed.
Print Assumptions C78_dense_contents.

(** The same for sparse histograms. *)
Theorem C78_sparse_contents : forall A1 A2 V D W (AX1 : Axis A1) (AX2 : Axis A2) (FV : Fill V) (FD : FillWith V D) (FW : FillWithWeighted V D W) (DV : Default V)
  RC RI (a1 : A1) (a2 : A2) n1 n2 move (ops1 : list (fill_op (AX := AX1) D W)) (ops2 : list (fill_op (AX := AX2) D W)),
  relabels AX1 AX2 RC RI a1 a2 n1 n2 move -> Forall2 (same_call AX1 AX2 RC) ops1 ops2 ->
  (forall h2, hash_calls (V := V) (hash_new a2) ops2 = Val h2 -> exists h1, hash_calls (V := V) (hash_new a1) ops1 = Val h1
     /\ (forall i, i < n1 -> hash_value_at_index h1 i = hash_value_at_index h2 (move i))
     /\ (forall c1 c2 v, RC c1 c2 -> hash_value h1 c1 = Val (Some v) -> hash_value h2 c2 = Val (Some v)))
  /\ ((forall j, j < n2 -> exists i, i < n1 /\ move i = j) ->
      (exists h1, hash_calls (V := V) (hash_new a1) ops1 = Val h1) -> exists h2, hash_calls (V := V) (hash_new a2) ops2 = Val h2).
Proof.
  intros A1 A2 V D W AX1 AX2 FV FD FW DV RC RI a1 a2 n1 n2 move ops1 ops2 HR Ho.
  split.
  - intros h2 H2.
    destruct (proj1 (C29_hash_history_returns_iff _ _ _ _ AX2 FV FD FW DV a2 ops2) (ex_intro _ h2 H2)) as [_ R2].
    destruct (proj2 (C29_hash_history_returns_iff _ _ _ _ AX1 FV FD FW DV a1 ops1)) as [h1 H1].
    { split; [exact (relabel_index_returns_1 HR ops1 ops2 Ho)|]. intros i. destruct (N.lt_ge_cases i n1) as [Hi|Hi].
      - rewrite (relabel_apply HR i ops1 ops2 default_v Hi Ho). apply R2.
      - rewrite (reaching_in_range_1 HR ops1 ops2 i Ho Hi). now exists default_v. }
    exists h1. split; [exact H1|].
    destruct (C29_hash_contents_are_tally _ _ _ _ AX1 FV FD FW DV a1 h1 ops1 H1) as (X1 & T1 & U1 & C1).
    destruct (C29_hash_contents_are_tally _ _ _ _ AX2 FV FD FW DV a2 h2 ops2 H2) as (X2 & T2 & U2 & C2).
    assert (Hc : forall i, i < n1 -> hash_value_at_index h1 i = hash_value_at_index h2 (move i)).
    { intros i Hi. pose proof (relabel_reaching HR i ops1 ops2 Hi Ho) as Hf. pose proof (relabel_apply (V := V) HR i ops1 ops2 default_v Hi Ho) as Ha.
      destruct (reaching a1 i ops1) as [|o l] eqn:E.
      - inversion Hf as [Hnil|]. rewrite (T1 i E). symmetry. apply T2. congruence.
      - inversion Hf as [|? o2 ? l2 Hs Hl E1 E2]. destruct (U1 i) as (v & -> & V1); [congruence|].
        destruct (U2 (move i)) as (w & -> & V2); [congruence|]. rewrite E in V1. congruence. }
    split; [exact Hc|]. intros c1 c2 v Hr Hv. rewrite C1 in Hv. rewrite C2.
    destruct (rl_index _ _ _ _ _ _ _ _ _ HR _ _ Hr) as (r1 & r2 & E1 & E2 & B1 & _ & Hi). rewrite E1 in Hv. rewrite E2.
    destruct r1 as [i|]; [|discriminate]. specialize (B1 i eq_refl). rewrite (proj1 (Hi i B1) eq_refl). rewrite <- (Hc i B1). exact Hv.
  - intros Hon H1. destruct (proj1 (C29_hash_history_returns_iff _ _ _ _ AX1 FV FD FW DV a1 ops1) H1) as [_ R1].
    apply (C29_hash_history_returns_iff _ _ _ _ AX2 FV FD FW DV a2 ops2). split; [exact (relabel_index_returns_2 HR ops1 ops2 Ho)|].
    intros j. destruct (N.lt_ge_cases j n2) as [Hj|Hj].
    + destruct (Hon j Hj) as (i & Hi & <-). rewrite <- (relabel_apply HR i ops1 ops2 default_v Hi Ho). apply R1.
    + rewrite (reaching_in_range_2 HR ops1 ops2 j Ho Hj). now exists default_v.
Qed.
Print Assumptions C78_sparse_contents.

(** The relation composes (so adjacent swaps give every order of the axes). *)
Theorem C78_compose : forall A1 A2 A3 (AX1 : Axis A1) (AX2 : Axis A2) (AX3 : Axis A3) RC1 RC2 RI1 RI2 (a1 : A1) (a2 : A2) (a3 : A3) n1 n2 n3 move1 move2,
  relabels AX1 AX2 RC1 RI1 a1 a2 n1 n2 move1 -> relabels AX2 AX3 RC2 RI2 a2 a3 n2 n3 move2 ->
  relabels AX1 AX3 (fun c e => exists d, RC1 c d /\ RC2 d e) (fun b f => exists d, RI1 b d /\ RI2 d f) a1 a3 n1 n3 (fun i => move2 (move1 i)).
Proof.
  intros A1 A2 A3 AX1 AX2 AX3 RC1 RC2 RI1 RI2 a1 a2 a3 n1 n2 n3 move1 move2 [B1 B2 Hb1 Hi1] [B2' B3 Hb2 Hi2]. constructor; [exact B1 | exact B3| |].
  - intros i Hi. destruct (Hb1 i Hi) as (Hm & b1 & b2 & E1 & E2 & R1). destruct (Hb2 _ Hm) as (Hm2 & b2' & b3 & E2' & E3 & R2).
    split; [exact Hm2|]. exists b1, b3. split; [exact E1|]. split; [exact E3|]. exists b2. split; [exact R1|]. congruence.
  - intros c e (d & H1 & H2). destruct (Hi1 _ _ H1) as (r1 & r2 & E1 & E2 & L1 & L2 & Hr1). destruct (Hi2 _ _ H2) as (r2' & r3 & E2' & E3 & L2' & L3 & Hr2).
    assert (r2' = r2) as -> by congruence. exists r1, r3. split; [exact E1|]. split; [exact E3|]. split; [exact L1|]. split; [exact L3|].
    intros i Hi. rewrite (Hr1 i Hi). apply Hr2. apply (Hb1 i Hi).
Qed.
Print Assumptions C78_compose.

(** ** Flow bins *)

(** A uniform axis without flow bins is the part of the one with flow bins made of
    bins 1 to [num]. *)
Theorem C78_uniform_noflow : forall (B : Build) T (ops : NumOps T) (u : Uniform T),
  u_num u + 2 < usize_mod -> has_bins (uniform_axis ops) u (u_num u + 2) -> has_bins (uniformnoflow_axis ops) (mkUniformNoFlow u) (u_num u) ->
  relabels (uniformnoflow_axis ops) (uniform_axis ops) (fun x y => x = y /\ exists i, uniform_index ops u x = Val (Some i) /\ i <= u_num u + 1) eq
    (mkUniformNoFlow u) u (u_num u) (u_num u + 2) (fun i => i + 1).
Proof.
  intros B T ops u Hn Hb2 Hb1. destruct (C09_noflow_bins B T ops u Hn) as (_ & Hbin & _). constructor; [exact Hb1 | exact Hb2| |].
  - intros i Hi. split; [lia|]. destruct Hb1 as [_ Hb1]. destruct (Hb1 i Hi) as [b Eb]. exists b, b. split; [exact Eb|]. split; [|reflexivity].
    change (uniform_bin ops u (i + 1) = Val (Some b)). rewrite <- (Hbin i Hi). exact Eb.
  - intros x y [<- (i & Ei & Hi)]. pose proof (C09_noflow_index B T ops u x i Hn Ei Hi) as H.
    destruct (N.eq_dec i 0) as [->|H0]; [|destruct (N.eq_dec i (u_num u + 1)) as [->|H1]].
    + exists None, (Some 0). split; [apply H; tauto|]. split; [exact Ei|]. split; [discriminate|]. split; [intros j [= <-]; lia|].
      intros j Hj. split; [discriminate | intros [= E]; lia].
    + exists None, (Some (u_num u + 1)). split; [apply H; tauto|]. split; [exact Ei|]. split; [discriminate|]. split; [intros j [= <-]; lia|].
      intros j Hj. split; [discriminate | intros [= E]; lia].
    + exists (Some (i - 1)), (Some i). split; [apply H; right; exists (i - 1); split; [reflexivity|lia]|]. split; [exact Ei|].
      split; [intros j [= <-]; lia|]. split; [intros j [= <-]; lia|]. intros j Hj. split; intros [= E]; f_equal; lia.
Qed.
Print Assumptions C78_uniform_noflow.

(** In particular over the integers, for every coordinate of the type, ... *)
Theorem C78_uniform_noflow_int : forall (B : Build) (t : int_type) num low step,
  valid_int_params t num low step -> fits t (Z.of_N num * (Z.of_N num * step))%Z ->
  exists a, uniform_with_step_size (int_ops t) num low step = Val (Ok a)
  /\ uniformnoflow_with_step_size (int_ops t) num low step = Val (Ok (mkUniformNoFlow a))
  /\ relabels (uniformnoflow_axis (int_ops t)) (uniform_axis (int_ops t)) (fun x y => x = y /\ fits t x) eq (mkUniformNoFlow a) a num (num + 2) (fun i => i + 1).
Proof.
  intros B t num low step Hv Hf. destruct (C20_uniform_int_has_bins B t num low step Hv Hf) as (a & Ha & H2 & H1 & _).
  destruct (C01_uniform_int_index_partitions B t num low step Hv) as (a' & Ha' & Hi). rewrite Ha in Ha'. injection Ha' as <-.
  exists a. split; [exact Ha|]. split; [unfold uniformnoflow_with_step_size; rewrite Ha; reflexivity|].
  assert (Hn : u_num a = num).
  { clear - Ha. unfold uniform_with_step_size in Ha. destruct (n_from_usize num) as [k|]; [|discriminate].
    destruct (n_mul k step) as [p|]; [|discriminate]. cbn [obind] in Ha. destruct (n_add p low) as [q|]; [|discriminate]. cbn [obind] in Ha.
    destruct (num =? 0); [discriminate|]. destruct (le_ step n_zero); [discriminate|]. destruct (gt_ low q); now injection Ha as <-. }
  assert (Hm : u_num a + 2 < usize_mod).
  { rewrite Hn. destruct Hv as []. lia. }
  rewrite <- Hn in H1, H2 |- *. pose proof (C78_uniform_noflow B Z (int_ops t) a Hm H2 H1) as [Q1 Q2 Q3 Q4]. constructor; try assumption.
  intros x y [<- Hx]. apply Q4. split; [reflexivity|]. destruct (Hi x Hx) as (i & Ei & Hle & _). exists i. split; [exact Ei | lia].
Qed.
Print Assumptions C78_uniform_noflow_int.

(** ... and over the floats, for every coordinate including NaN. *)
Theorem C78_uniform_noflow_float : forall (prec emax : Z) (P : Prec_gt_0 prec) (E : Prec_lt_emax prec emax) (B : Build)
  (num : N) (a : Uniform (binary_float prec emax)),
  covered_format prec emax -> (Z.of_N num < 2 ^ (prec - 1))%Z -> num + 2 < usize_mod -> made_axis num a ->
  relabels (uniformnoflow_axis (float_ops prec emax P E)) (uniform_axis (float_ops prec emax P E)) eq eq (mkUniformNoFlow a) a num (num + 2) (fun i => i + 1).
Proof.
  intros prec emax P E B num a Hf Hp Hn Ha. destruct (C04_float_index_valid prec emax P E B num a Hf Hp Hn Ha) as [Hb Hi].
  assert (Hnum : u_num a = num).
  { apply (made_disposition num a Hf Hp Hn Ha). }
  subst num. destruct (C20_uniform_float_has_bins B prec emax P E a Hn) as (H2 & H1 & _).
  pose proof (C78_uniform_noflow B _ (float_ops prec emax P E) a Hn H2 H1) as [Q1 Q2 Q3 Q4]. constructor; try assumption.
  intros x y <-. apply Q4. split; [reflexivity|]. destruct (Hi x) as (i & Ei & Hle). exists i. split; [exact Ei | lia].
Qed.
Print Assumptions C78_uniform_noflow_float.

(** Variable-width axes. *)
Theorem C78_variable_noflow : forall (B : Build) (search : searcher), search_contract search ->
  forall T (ops : NumOps T) is_num, ord_laws num_ord is_num ->
  forall edges : list T, (forall e, In e edges -> is_num e = true) -> StronglySorted (fun x y => le_ x y = true) edges ->
  2 <= N.of_nat (length edges) -> N.of_nat (length edges) + 1 < usize_mod ->
  relabels (variablenoflow_axis (H0 := num_ord) search) (variable_axis (H0 := num_ord) search) eq eq (mkVariableNoFlow (mkVariable edges)) (mkVariable edges)
    (N.of_nat (length edges) - 1) (N.of_nat (length edges) + 1) (fun i => i + 1).
Proof.
  intros B search Hs T ops is_num HL edges Hnum Hsort H2 Hl. set (n := N.of_nat (length edges)) in *.
  destruct (C20_variable_has_bins B search T ops edges H2 Hl) as (Q2 & Q1 & _). fold n in Q1, Q2. constructor; [exact Q1 | exact Q2| |].
  - intros i Hi. split; [lia|]. destruct Q2 as [_ Q2]. destruct (Q2 (i + 1) ltac:(lia)) as [b Eb]. exists b, b. split; [|split; [exact Eb | reflexivity]].
    change (variablenoflow_bin (mkVariableNoFlow (mkVariable edges)) i = Val (Some b)). change (variable_bin (mkVariable edges) (i + 1) = Val (Some b)) in Eb.
    destruct (C13_variable_bins B T edges H2 Hl) as (_ & _ & Hb & _). fold n in Hb. destruct (Hb (i + 1) ltac:(lia)) as (s & e & _ & _ & Ev).
    unfold variablenoflow_bin. rewrite uadd_ok by lia. cbn [obind vnf_axis]. rewrite Ev in *. cbn [obind]. exact Eb.
  - intros x y <-. destruct (C14_variable_index_in_range B search Hs T num_ord is_num HL edges Hnum Hsort H2 Hl x) as [(i & m & Ei & Em & Him) _].
    assert (m = n + 1) as ->. { destruct Q2 as [Q2 _]. change (variable_num_bins (mkVariable edges) = Val (n + 1)) in Q2. congruence. }
    assert (Enf : variablenoflow_index search (mkVariableNoFlow (mkVariable edges)) x = Val (if (i =? 0) || (i =? n) then None else Some (i - 1))).
    { unfold variablenoflow_index. cbn [vnf_axis]. rewrite Ei. cbn [obind]. destruct (N.eqb_spec i 0); [reflexivity|]. rewrite uadd_ok by lia. cbn [obind].
      rewrite Em. cbn [obind orb]. destruct (N.eqb_spec (i + 1) (n + 1)), (N.eqb_spec i n); try lia; [reflexivity|]. rewrite usub_ok by lia. reflexivity. }
    eexists _, (Some i). split; [exact Enf|]. split; [exact Ei|].
    destruct (N.eqb_spec i 0), (N.eqb_spec i n); cbn [orb]; (split; [intros j Hj; try discriminate; injection Hj as <-; lia|]);
      (split; [intros j [= <-]; lia|]); intros j Hj; split; intros Hq; try discriminate; injection Hq as Hq; try lia; f_equal; lia.
Qed.
Print Assumptions C78_variable_noflow.

(** Category axes: the bins keep their numbers, only the overflow bin is missing. *)
Theorem C78_category_noflow : forall (B : Build) T (eqd : EqDecision T) (values : list T),
  N.of_nat (length values) + 1 < usize_mod ->
  relabels categorynoflow_axis category_axis eq eq (categorynoflow_new values) (category_new values)
    (N.of_nat (length values)) (N.of_nat (length values) + 1) (fun i => i).
Proof.
  intros B T eqd values Hl. destruct (C20_category_has_bins B T eqd values Hl) as [Q2 Q1].
  destruct (C18_category_noflow B T eqd values Hl) as (_ & Hout & Hin & Hbin & _). destruct (C17_category_bins B T eqd values Hl) as (_ & Hbin2 & _).
  constructor; [exact Q1 | exact Q2| |].
  - intros i Hi. split; [lia|]. destruct (nth_error values (N.to_nat i)) as [v|] eqn:E; [|apply nth_error_None in E; lia].
    exists (SVBin v), (SVBin v). specialize (Hbin _ _ E). specialize (Hbin2 _ _ E). rewrite N2Nat.id in Hbin, Hbin2. split; [exact Hbin|]. split; [exact Hbin2 | reflexivity].
  - intros x y <-. destruct (ListDec.In_dec eqd x values) as [Hx|Hx].
    + destruct (Hin x Hx) as (i & E1 & Hi & _ & E2). exists (Some i), (Some i). split; [exact E1|]. split; [exact E2|].
      split; [intros j [= <-]; lia|]. split; [intros j [= <-]; lia|]. reflexivity.
    + destruct (C17_category_index B T eqd values x) as (i & Ei & Hi & _ & Ho & _). exists None, (Some i). split; [exact (Hout x Hx)|]. split; [exact Ei|].
      split; [discriminate|]. split; [intros j [= <-]; lia|]. intros j Hj. split; [discriminate|]. intros [= <-]. rewrite (Ho Hx) in Hj. lia.
Qed.
Print Assumptions C78_category_noflow.

(** ** The order of the categories *)

(** Listing the same categories in another order only renumbers the bins. *)
Theorem C78_category_order : forall (B : Build) T (eqd : EqDecision T) (values values' : list T),
  N.of_nat (length values) + 1 < usize_mod -> List.NoDup values -> Permutation values values' ->
  let n := N.of_nat (length values) in
  exists move : N -> N,
    (forall i v, nth_error values (N.to_nat i) = Some v -> nth_error values' (N.to_nat (move i)) = Some v) /\ move n = n
    /\ relabels category_axis category_axis eq eq (category_new values) (category_new values') (n + 1) (n + 1) move
    /\ (forall j, j < n + 1 -> exists i, i < n + 1 /\ move i = j)
    /\ relabels categorynoflow_axis categorynoflow_axis eq eq (categorynoflow_new values) (categorynoflow_new values') n n move
    /\ (forall j, j < n -> exists i, i < n /\ move i = j).
Proof.
  intros B T eqd values values' Hl Hnd Hp n. pose proof (Permutation_length Hp) as Hlen. pose proof (Permutation_NoDup Hp Hnd) as Hnd'.
  assert (Hl' : N.of_nat (length values') + 1 < usize_mod) by now rewrite <- Hlen.
  set (move := fun i => match nth_error values (N.to_nat i) with
                        | Some v => match category_index (category_new values') v with Val (Some j) => j | _ => 0 end
                        | None => n end).
  assert (Hmv : forall i v, nth_error values (N.to_nat i) = Some v -> nth_error values' (N.to_nat (move i)) = Some v
                /\ category_index (category_new values') v = Val (Some (move i)) /\ category_index (category_new values) v = Val (Some i)).
  { intros i v E. pose proof (nth_error_In _ _ E) as Hin. pose proof (Permutation_in v Hp Hin) as Hin'.
    destruct (C17_category_index B T eqd values' v) as (j & Ej & _). pose proof (C17_category_duplicates B T eqd values' v j Hin' Ej) as [Hj _].
    unfold move. rewrite E, Ej. split; [exact Hj|]. split; [reflexivity|].
    destruct (C17_category_index B T eqd values v) as (k & Ek & _ & _ & _ & Hu). rewrite Ek. do 2 f_equal. rewrite (Hu Hnd _ E). apply N2Nat.id. }
  assert (Hmn : move n = n).
  { unfold move. destruct (nth_error values (N.to_nat n)) as [v|] eqn:E; [|reflexivity]. assert (N.to_nat n < length values)%nat by (apply nth_error_Some; congruence). lia. }
  assert (Hml : forall i, i < n -> move i < n).
  { intros i Hi. destruct (nth_error values (N.to_nat i)) as [v|] eqn:E; [|apply nth_error_None in E; lia].
    destruct (Hmv i v E) as (Hv & _). assert (N.to_nat (move i) < length values')%nat by (apply nth_error_Some; congruence). lia. }
  assert (Hon : forall j, j < n -> exists i, i < n /\ move i = j).
  { intros j Hj. destruct (nth_error values' (N.to_nat j)) as [v|] eqn:E; [|apply nth_error_None in E; lia].
    assert (Hin : In v values) by (apply Permutation_in with values'; [now symmetry | now apply nth_error_In in E]).
    apply In_nth_error in Hin as [k Ek]. exists (N.of_nat k). assert (k < length values)%nat by (apply nth_error_Some; congruence). split; [lia|].
    destruct (Hmv (N.of_nat k) v) as (Hv & _); [now rewrite Nat2N.id|].
    apply N2Nat.inj. apply (proj1 (NoDup_nth_error values') Hnd'); [apply nth_error_Some; congruence | congruence]. }
  exists move. split; [intros i v E; apply (Hmv i v E)|]. split; [exact Hmn|].
  assert (Hidx : forall x, (exists i, i < n /\ category_index (category_new values) x = Val (Some i) /\ category_index (category_new values') x = Val (Some (move i)) /\ In x values)
                 \/ (~ In x values /\ ~ In x values' /\ category_index (category_new values) x = Val (Some n) /\ category_index (category_new values') x = Val (Some n))).
  { intros x. destruct (ListDec.In_dec eqd x values) as [Hx|Hx].
    - left. apply In_nth_error in Hx as Hk. destruct Hk as [k Ek]. exists (N.of_nat k). assert (k < length values)%nat by (apply nth_error_Some; congruence). split; [lia|].
      destruct (Hmv (N.of_nat k) x) as (_ & H1 & H2); [now rewrite Nat2N.id|]. tauto.
    - right. assert (Hx' : ~ In x values') by (intros H; apply Hx; apply Permutation_in with values'; [now symmetry | exact H]).
      destruct (C17_category_index B T eqd values x) as (i & Ei & _ & _ & Hi & _). destruct (C17_category_index B T eqd values' x) as (j & Ej & _ & _ & Hj & _).
      rewrite Ei, Ej, (Hi Hx), (Hj Hx'), <- Hlen. tauto. }
  assert (Hinj : forall i j, i < n -> j < n -> move i = move j -> i = j).
  { intros i j Hi Hj E. destruct (nth_error values (N.to_nat i)) as [v|] eqn:Ei; [|apply nth_error_None in Ei; lia].
    destruct (nth_error values (N.to_nat j)) as [w|] eqn:Ej; [|apply nth_error_None in Ej; lia].
    destruct (Hmv i v Ei) as (H1 & _ & H3). destruct (Hmv j w Ej) as (H4 & _ & H6). rewrite E in H1. congruence. }
  destruct (C20_category_has_bins B T eqd values Hl) as [Q1 Q1']. destruct (C20_category_has_bins B T eqd values' Hl') as [Q2 Q2']. rewrite <- Hlen in Q2, Q2'.
  split; [|split; [|split; [|exact Hon]]].
  - constructor; [exact Q1 | exact Q2| |].
    + intros i Hi. destruct (C17_category_bins B T eqd values Hl) as (_ & H1 & H2 & _). destruct (C17_category_bins B T eqd values' Hl') as (_ & H1' & H2' & _).
      rewrite <- Hlen in H2'. destruct (N.eq_dec i n) as [->|Hne].
      * rewrite Hmn. split; [lia|]. exists SVOverflow, SVOverflow. split; [exact H2|]. split; [exact H2' | reflexivity].
      * assert (Hi' : i < n) by lia. split; [specialize (Hml i Hi'); lia|]. destruct (nth_error values (N.to_nat i)) as [v|] eqn:E; [|apply nth_error_None in E; lia].
        exists (SVBin v), (SVBin v). destruct (Hmv i v E) as (Ev & _). specialize (H1 _ _ E). specialize (H1' _ _ Ev). rewrite N2Nat.id in H1, H1'.
        split; [exact H1|]. split; [exact H1' | reflexivity].
    + intros x y <-. destruct (Hidx x) as [(i & Hi & E1 & E2 & _)|(_ & _ & E1 & E2)].
      * exists (Some i), (Some (move i)). split; [exact E1|]. split; [exact E2|]. pose proof (Hml i Hi). split; [intros j [= <-]; lia|]. split; [intros j [= <-]; lia|].
        intros j Hj. split; [now intros [= ->]|]. intros [= E]. f_equal. destruct (N.eq_dec j n) as [->|]; [lia|]. apply Hinj; [exact Hi | lia | exact E].
      * exists (Some n), (Some n). split; [exact E1|]. split; [exact E2|]. split; [intros j [= <-]; lia|]. split; [intros j [= <-]; lia|].
        intros j Hj. split; [intros [= <-]; now rewrite Hmn|]. intros [= E]. destruct (N.eq_dec j n) as [->|]; [reflexivity|]. specialize (Hml j ltac:(lia)). lia.
  - intros j Hj. destruct (N.eq_dec j n) as [->|]; [exists n; split; [lia | exact Hmn]|]. destruct (Hon j ltac:(lia)) as (i & Hi & E). exists i. split; [lia | exact E].
  - destruct (C18_category_noflow B T eqd values Hl) as (_ & Ho1 & Hi1 & Hb1 & _). destruct (C18_category_noflow B T eqd values' Hl') as (_ & Ho2 & Hi2 & Hb2 & _).
    constructor; [exact Q1' | exact Q2'| |].
    + intros i Hi. split; [now apply Hml|]. destruct (nth_error values (N.to_nat i)) as [v|] eqn:E; [|apply nth_error_None in E; lia].
      exists (SVBin v), (SVBin v). destruct (Hmv i v E) as (Ev & _). specialize (Hb1 _ _ E). specialize (Hb2 _ _ Ev). rewrite N2Nat.id in Hb1, Hb2.
      split; [exact Hb1|]. split; [exact Hb2 | reflexivity].
    + intros x y <-. destruct (Hidx x) as [(i & Hi & E1 & E2 & Hx)|(Hx & Hx' & _ & _)].
      * destruct (Hi1 x Hx) as (i' & F1 & _ & _ & F1'). destruct (Hi2 x (Permutation_in x Hp Hx)) as (j' & F2 & _ & _ & F2'). rewrite E1 in F1'. rewrite E2 in F2'.
        injection F1' as <-. injection F2' as <-. exists (Some i), (Some (move i)). split; [exact F1|]. split; [exact F2|]. pose proof (Hml i Hi).
        split; [intros j [= <-]; lia|]. split; [intros j [= <-]; lia|]. intros j Hj. split; [now intros [= ->]|]. intros [= E]. f_equal. now apply Hinj.
      * exists None, None. split; [exact (Ho1 x Hx)|]. split; [exact (Ho2 x Hx')|]. split; [discriminate|]. split; [discriminate|]. intros j Hj. split; discriminate.
Qed.
Print Assumptions C78_category_order.

(** ** Tuples *)
Section Tuples.
Context {B : Build}.
Lemma tuple_relabel_general ts us (xs : axes_tuple ts) (ys : axes_tuple us) ns ms a1 a2 (f : list N -> list N)
    (RC : coords ts -> coords us -> Prop) (RI : intervals ts -> intervals us -> Prop) :
  ts <> [] -> us <> [] -> tuple_has_bins ts xs ns -> tuple_has_bins us ys ms -> products_fit ns -> products_fit ms ->
  axes_from xs = Val a1 -> axes_from ys = Val a2 ->
  (forall is, cell ns is -> cell ms (f is) /\ exists b d, component_bins ts xs is b /\ component_bins us ys (f is) d /\ RI b d) ->
  (forall c d, RC c d -> components_index_within ts xs ns c /\ components_index_within us ys ms d
     /\ forall is, cell ns is -> (component_indices ts xs c is <-> component_indices us ys d (f is))) ->
  relabels (axes_axis ts) (axes_axis us) RC RI a1 a2 (product ns) (product ms) (fun i => radix ms (f (digits_of i ns))).
Proof.
  intros Ht Hu Hx Hy Fn Fm A1 A2 Hb Hi.
  destruct (C20_axes_tuple_has_bins B ts xs ns Ht Hx Fn) as (a & Ea & Q1). rewrite A1 in Ea. injection Ea as <-.
  destruct (C20_axes_tuple_has_bins B us ys ms Hu Hy Fm) as (a & Ea & Q2). rewrite A2 in Ea. injection Ea as <-.
  destruct (C23_axes_bin_of_cell B ts xs ns Ht Hx Fn) as (a & Ea & B1). rewrite A1 in Ea. injection Ea as <-.
  destruct (C23_axes_bin_of_cell B us ys ms Hu Hy Fm) as (a & Ea & B2). rewrite A2 in Ea. injection Ea as <-.
  destruct (C21_axes_index_value B ts xs ns Ht Hx Fn) as (a & Ea & _ & I1). rewrite A1 in Ea. injection Ea as <-.
  destruct (C21_axes_index_value B us ys ms Hu Hy Fm) as (a & Ea & _ & I2). rewrite A2 in Ea. injection Ea as <-.
  destruct (C22_axes_index_none B ts xs ns Ht Hx Fn) as (a & Ea & N1). rewrite A1 in Ea. injection Ea as <-.
  destruct (C22_axes_index_none B us ys ms Hu Hy Fm) as (a & Ea & N2). rewrite A2 in Ea. injection Ea as <-.
  assert (Hpos : forall i, i < product ns -> cell ns (digits_of i ns) /\ radix ns (digits_of i ns) = i).
  { intros i Hl. destruct (product_zero_or_pos ns) as [Hz|Hp]; [lia|]. split; [now apply digits_cell|]. rewrite radix_digits by exact Hp. apply N.mod_small. exact Hl. }
  constructor; [exact Q1 | exact Q2| |].
  - intros i Hl. destruct (Hpos i Hl) as [Hc Hr]. destruct (Hb _ Hc) as (Hc2 & b & d & Eb & Ed & HR). split; [now apply radix_lt|].
    exists b, d. split; [|split; [|exact HR]].
    + destruct (B1 _ Hc) as (b' & E & Eb'). rewrite Hr in E. rewrite (E : @bin _ (axes_axis ts) a1 i = _). f_equal. f_equal.
      apply all_bins_ok in Eb, Eb'. congruence.
    + destruct (B2 _ Hc2) as (d' & E & Ed'). rewrite (E : @bin _ (axes_axis us) a2 _ = _). f_equal. f_equal.
      apply all_bins_ok in Ed, Ed'. congruence.
  - intros c d HR. destruct (Hi c d HR) as (W1 & W2 & Hiff). destruct (N1 c W1) as (_ & r1 & E1 & L1). destruct (N2 d W2) as (_ & r2 & E2 & L2).
    exists r1, r2. split; [exact E1|]. split; [exact E2|]. split; [exact L1|]. split; [exact L2|].
    intros i Hl. destruct (Hpos i Hl) as [Hc Hr]. destruct (Hb _ Hc) as (Hc2 & _). specialize (Hiff _ Hc). split.
    + intros ->. destruct (all_indices_cases ts xs ns c W1) as [(is & _ & Hci & Hcell & _)|[_ Hun]].
      * destruct (I1 c is Hci Hcell) as [E _]. rewrite E1 in E. injection E as E. assert (is = digits_of i ns) as ->.
        { apply (radix_inj ns); [exact Hcell | exact Hc | congruence]. }
        destruct (I2 d _ (proj1 Hiff Hci) Hc2) as [E' _]. rewrite E2 in E'. now injection E' as <-.
      * destruct (N1 c W1) as [[_ H] _]. specialize (H Hun). congruence.
    + intros ->. destruct (all_indices_cases us ys ms d W2) as [(js & _ & Hcj & Hcell & _)|[_ Hun]].
      * destruct (I2 d js Hcj Hcell) as [E _]. rewrite E2 in E. injection E as E. assert (js = f (digits_of i ns)) as ->.
        { apply (radix_inj ms); [exact Hcell | exact Hc2 | congruence]. }
        destruct (I1 c _ (proj2 Hiff Hcj) Hc) as [E' _]. rewrite E1 in E'. injection E' as ->. f_equal. exact Hr.
      * destruct (N2 d W2) as [[_ H] _]. specialize (H Hun). congruence.
Qed.

Lemma tuple_relabels_bins ts us xs ys RC RI ns ms moves : tuple_relabels ts us xs ys RC RI ns ms moves -> tuple_has_bins ts xs ns /\ tuple_has_bins us ys ms.
Proof.
  intros H. induction H as [|t u ts us x y xs ys RC RI RCs RIs n m ns ms move moves H1 H2 [IH1 IH2]]; [now split|]. split; (split; [|assumption]).
  - exact (rl_bins_1 _ _ _ _ _ _ _ _ _ H1).
  - exact (rl_bins_2 _ _ _ _ _ _ _ _ _ H1).
Qed.
Lemma tuple_relabels_cell ts us xs ys RC RI ns ms moves : tuple_relabels ts us xs ys RC RI ns ms moves ->
  forall is, cell ns is -> cell ms (move_each moves is) /\ exists b d, component_bins ts xs is b /\ component_bins us ys (move_each moves is) d /\ RI b d.
Proof.
  intros H. induction H as [|t u ts us x y xs ys RC RI RCs RIs n m ns ms move moves H1 H2 IH]; intros is Hc.
  - inversion Hc; subst. split; [constructor|]. exists tt, tt. cbn. auto.
  - inversion Hc as [|i n' is' ns' Hi Hc' E1 E2]; subst. destruct (IH is' Hc') as (Hc2 & b & d & Eb & Ed & HR).
    destruct (rl_bin _ _ _ _ _ _ _ _ _ H1 i Hi) as (Hm & b0 & d0 & Eb0 & Ed0 & HR0). split; [constructor; assumption|].
    exists (b0, b), (d0, d). cbn [component_bins move_each fst snd]. tauto.
Qed.
Lemma tuple_relabels_index ts us xs ys RC RI ns ms moves : tuple_relabels ts us xs ys RC RI ns ms moves ->
  forall c d, RC c d -> components_index_within ts xs ns c /\ components_index_within us ys ms d
     /\ forall is, cell ns is -> (component_indices ts xs c is <-> component_indices us ys d (move_each moves is)).
Proof.
  intros H. induction H as [|t u ts us x y xs ys RC RI RCs RIs n m ns ms move moves H1 H2 IH]; intros c d Hr.
  - split; [reflexivity|]. split; [reflexivity|]. intros is Hc. inversion Hc; subst. cbn. tauto.
  - destruct Hr as [Hr Hrs]. destruct (IH _ _ Hrs) as (W1 & W2 & Hiff). destruct (rl_index _ _ _ _ _ _ _ _ _ H1 _ _ Hr) as (r1 & r2 & E1 & E2 & L1 & L2 & Hi).
    split; [cbn [components_index_within fst snd]; split; [exists r1; split; assumption | exact W1]|].
    split; [cbn [components_index_within fst snd]; split; [exists r2; split; assumption | exact W2]|].
    intros is Hc. inversion Hc as [|i n' is' ns' Hin Hc' F1 F2]; subst. cbn [component_indices move_each fst snd]. rewrite E1, E2.
    specialize (Hiff is' Hc'). specialize (Hi i Hin). split; intros [Ha Hb]; (split; [|tauto]); injection Ha as Ha; f_equal; tauto.
Qed.

Lemma components_app ts us x y ns ms c d : List.length ns = List.length ts ->
  components_index_within (ts ++ us) (app_axes ts us x y) (ns ++ ms) (app_coords ts us c d) <-> components_index_within ts x ns c /\ components_index_within us y ms d.
Proof.
  revert x ns c. induction ts as [|t ts IH]; intros x ns c Hl.
  - destruct ns; [|discriminate]. cbn. tauto.
  - destruct ns as [|n ns]; [discriminate|]. cbn [app app_axes app_coords components_index_within fst snd].
    specialize (IH (snd x) ns (snd c) ltac:(cbn in Hl; lia)). tauto.
Qed.
Lemma component_indices_app ts us x y is js c d : List.length is = List.length ts ->
  component_indices (ts ++ us) (app_axes ts us x y) (app_coords ts us c d) (is ++ js) <-> component_indices ts x c is /\ component_indices us y d js.
Proof.
  revert x is c. induction ts as [|t ts IH]; intros x is c Hl.
  - destruct is; [|discriminate]. cbn. tauto.
  - destruct is as [|i is]; [discriminate|]. cbn [app app_axes app_coords component_indices fst snd].
    specialize (IH (snd x) is (snd c) ltac:(cbn in Hl; lia)). tauto.
Qed.
Lemma swap_at_app {X} (l : list X) x y r : swap_at (List.length l) (l ++ x :: y :: r) = l ++ y :: x :: r.
Proof. unfold swap_at. rewrite firstn_app, Nat.sub_diag, firstn_all, skipn_app, Nat.sub_diag, skipn_all. cbn. now rewrite app_nil_r. Qed.
Lemma cell_split np n m nq is : cell (np ++ n :: m :: nq) is ->
  exists ip i j iq, is = ip ++ i :: j :: iq /\ List.length ip = List.length np /\ cell np ip /\ i < n /\ j < m /\ cell nq iq.
Proof.
  intros Hc. apply Forall2_app_inv_r in Hc as (ip & rest & Hp & Hr & ->). inversion Hr as [|i n' r1 l1 Hi Hr1 E1 E2]; subst.
  inversion Hr1 as [|j m' iq l2 Hj Hq E1 E2]; subst. exists ip, i, j, iq. pose proof (Forall2_length _ _ _ Hp). repeat (split; [assumption || reflexivity|]). exact Hq.
Qed.
End Tuples.

(** A tuple whose axes are parts of other axes is, bin by bin, part of the tuple of
    those: e.g. in any number of dimensions, the histogram without flow bins on some
    axes is the inner part of the one with flow bins. *)
Theorem C78_tuples : forall (B : Build) ts us xs ys RC RI ns ms moves (a1 : AxesTuple ts) (a2 : AxesTuple us),
  tuple_relabels ts us xs ys RC RI ns ms moves -> ts <> [] -> products_fit ns -> products_fit ms ->
  axes_from xs = Val a1 -> axes_from ys = Val a2 ->
  relabels (axes_axis ts) (axes_axis us) RC RI a1 a2 (product ns) (product ms) (fun i => radix ms (move_each moves (digits_of i ns))).
Proof.
  intros B ts us xs ys RC RI ns ms moves a1 a2 H Ht Fn Fm A1 A2. destruct (tuple_relabels_bins _ _ _ _ _ _ _ _ _ H) as [Hx Hy].
  apply (tuple_relabel_general ts us xs ys ns ms a1 a2 (move_each moves) RC RI); try assumption.
  - intros ->. now inversion H; subst.
  - exact (tuple_relabels_cell _ _ _ _ _ _ _ _ _ H).
  - exact (tuple_relabels_index _ _ _ _ _ _ _ _ _ H).
Qed.
Print Assumptions C78_tuples.

(** ** The order of the axes *)

(** Exchanging two neighbouring axes of a tuple, and the corresponding components of
    the coordinates, exchanges the corresponding components of the bins: bin number
    [i] becomes the number of the cell with the exchanged components. Both tuples
    have the same number of bins and the renumbering is onto. *)
Theorem C78_axis_order : forall (B : Build) pre t u post xp (x : at_type t) (y : at_type u) xq np n m nq
  (a1 : AxesTuple (pre ++ t :: u :: post)) (a2 : AxesTuple (pre ++ u :: t :: post)),
  tuple_has_bins pre xp np -> has_bins (at_axis t) x n -> has_bins (at_axis u) y m -> tuple_has_bins post xq nq ->
  products_fit (np ++ n :: m :: nq) -> products_fit (np ++ m :: n :: nq) ->
  axes_from (app_axes pre (t :: u :: post) xp (x, (y, xq))) = Val a1 -> axes_from (app_axes pre (u :: t :: post) xp (y, (x, xq))) = Val a2 ->
  let ns := np ++ n :: m :: nq in let ms := np ++ m :: n :: nq in
  let move := fun i => radix ms (swap_at (List.length np) (digits_of i ns)) in
  relabels (axes_axis (pre ++ t :: u :: post)) (axes_axis (pre ++ u :: t :: post))
    (fun c d => exists cp ct cu cq, c = app_coords pre (t :: u :: post) cp (ct, (cu, cq)) /\ d = app_coords pre (u :: t :: post) cp (cu, (ct, cq))
        /\ components_index_within (pre ++ t :: u :: post) (app_axes pre (t :: u :: post) xp (x, (y, xq))) ns c)
    (fun b d => exists bp bt bu bq, b = app_intervals pre (t :: u :: post) bp (bt, (bu, bq)) /\ d = app_intervals pre (u :: t :: post) bp (bu, (bt, bq)))
    a1 a2 (product ns) (product ms) move
  /\ product ms = product ns
  /\ (forall j, j < product ms -> exists i, i < product ns /\ move i = j).
Proof.
  intros B pre t u post xp x y xq np n m nq a1 a2 Hp Hx Hy Hq Fn Fm A1 A2 ns ms move.
  assert (Hlp : List.length np = List.length pre) by now apply tuple_length in Hp.
  assert (Hprod : product ms = product ns).
  { unfold ms, ns. rewrite !product_app. change (product (m :: n :: nq)) with (m * (n * product nq)). change (product (n :: m :: nq)) with (n * (m * product nq)).
    f_equal. rewrite !N.mul_assoc. now rewrite (N.mul_comm m n). }
  split; [|split; [exact Hprod|]].
  - apply (tuple_relabel_general _ _ (app_axes pre (t :: u :: post) xp (x, (y, xq))) (app_axes pre (u :: t :: post) xp (y, (x, xq))) ns ms a1 a2 (swap_at (List.length np)));
      try assumption; try apply nonempty_app.
    + apply app_has_bins; [exact Hp|]. cbn. tauto.
    + apply app_has_bins; [exact Hp|]. cbn. tauto.
    + intros is Hc. destruct (cell_split _ _ _ _ _ Hc) as (ip & i & j & iq & -> & Hl & Hcp & Hi & Hj & Hcq). rewrite <- Hl, swap_at_app.
      split; [apply cell_app; [exact Hcp|]; constructor; [exact Hj|]; constructor; [exact Hi | exact Hcq]|].
      destruct (component_bins_exist _ _ _ _ Hp Hcp) as [bp Ep]. destruct (component_bins_exist _ _ _ _ Hq Hcq) as [bq Eq].
      destruct Hx as [_ Hx]. destruct (Hx i Hi) as [bt Et]. destruct Hy as [_ Hy]. destruct (Hy j Hj) as [bu Eu].
      exists (app_intervals pre (t :: u :: post) bp (bt, (bu, bq))), (app_intervals pre (u :: t :: post) bp (bu, (bt, bq))).
      split; [apply component_bins_app; [congruence|]; cbn; tauto|]. split; [apply component_bins_app; [congruence|]; cbn; tauto|].
      exists bp, bt, bu, bq. tauto.
    + intros c d (cp & ct & cu & cq & -> & -> & Hw). split; [exact Hw|]. apply components_app in Hw; [|exact Hlp]. destruct Hw as [Wp W].
      cbn [components_index_within fst snd] in W. destruct W as (Wt & Wu & Wq). split; [apply components_app; [exact Hlp|]; cbn [components_index_within fst snd]; tauto|].
      intros is Hc. destruct (cell_split _ _ _ _ _ Hc) as (ip & i & j & iq & -> & Hl & Hcp & Hi & Hj & Hcq). rewrite <- Hl, swap_at_app.
      rewrite !component_indices_app by congruence. cbn [component_indices fst snd]. tauto.
  - intros j Hj. assert (Hjp : Forall (fun k => 0 < k) ms) by (destruct (product_zero_or_pos ms); [lia | assumption]).
    destruct (cell_split np m n nq (digits_of j ms)) as (ip & i1 & i2 & iq & E & Hl & Hcp & Hi1 & Hi2 & Hcq); [now apply digits_cell|].
    assert (Hc : cell ns (ip ++ i2 :: i1 :: iq)) by (apply cell_app; [exact Hcp|]; constructor; [exact Hi2|]; constructor; [exact Hi1 | exact Hcq]).
    exists (radix ns (ip ++ i2 :: i1 :: iq)). split; [now apply radix_lt|]. unfold move. rewrite digits_radix by exact Hc. rewrite <- Hl, swap_at_app, <- E.
    rewrite radix_digits by exact Hjp. now apply N.mod_small.
Qed.
Print Assumptions C78_axis_order.

(** Every permutation of a list is a chain of exchanges of neighbours, so with
    [C78_compose] the previous theorem covers every order of the axes. *)
Theorem C78_orders_are_swaps : forall X (l l' : list X), Permutation l l' ->
  exists ks, (forall k, In k ks -> (k + 1 < List.length l)%nat) /\ l' = fold_left (fun acc k => swap_at k acc) ks l.
Proof.
  intros X l l' H.
  assert (Hcons : forall (x : X) ks (m : list X), fold_left (fun acc k => swap_at k acc) (map S ks) (x :: m) = x :: fold_left (fun acc k => swap_at k acc) ks m).
  { intros x ks. induction ks as [|k ks IH]; intros m; [reflexivity|]. cbn [map fold_left]. rewrite <- IH. reflexivity. }
  induction H as [|x l l' H IH|x y l|l l' l'' H1 IH1 H2 IH2].
  - exists []. split; [intros k []|reflexivity].
  - destruct IH as (ks & Hk & ->). exists (map S ks). split; [|now rewrite Hcons].
    intros k Hin. apply in_map_iff in Hin as (k' & <- & Hin). specialize (Hk _ Hin). cbn. lia.
  - exists [0%nat]. split; [intros k [<-|[]]; cbn; lia | reflexivity].
  - destruct IH1 as (ks & Hk & ->), IH2 as (ks' & Hk' & ->). exists (ks ++ ks'). split; [|now rewrite fold_left_app].
    intros k Hin. apply in_app_iff in Hin as [Hin|Hin]; [now apply Hk|]. specialize (Hk' k Hin). apply Permutation_length in H1. lia.
Qed.
Print Assumptions C78_orders_are_swaps.

(** ** Concrete cases *)

Definition uninf_i32 (B : Build) : axis_type := {|
  at_type := UniformNoFlow Z; at_axis := uniformnoflow_axis (int_ops (signed 32));
  at_eq := {| axis_eqb := uniformnoflow_eqb (int_ops (signed 32)) |} |}.
(** The axes of [example_axes], without flow bins. *)
Definition inner_axes (B : Build) : axes_tuple [uninf_i32 B; catnf_Z B] :=
  (mkUniformNoFlow (mkUniform 3 0 30 10)%Z, (categorynoflow_new [5; 7]%Z, tt)).

(** Three bins of width 10 from 0, and the categories 5 and 7: the six bins without
    flow bins are bins 1, 2, 3, 6, 7 and 8 of the fifteen with flow bins; the two
    relabelled tuples, the swapped tuples and the coordinate (25, 7) meet the
    hypotheses. *)
Example C78_nonvacuous : forall B : Build,
  (exists a1 a2 RC RI move,
     axes_from (inner_axes B) = Val a1 /\ axes_from (example_axes B) = Val a2
     /\ relabels (axes_axis [uninf_i32 B; catnf_Z B]) (axes_axis [uni_i32 B; cat_Z B]) RC RI a1 a2 6 15 move
     /\ map move [0; 1; 2; 3; 4; 5] = [1; 2; 3; 6; 7; 8]
     /\ RC (25, (7, tt))%Z (25, (7, tt))%Z)
  /\ (exists a1 a2 RC RI move,
     axes_from (example_axes B) = Val a1 /\ axes_from (ts := [cat_Z B; uni_i32 B]) (category_new [5; 7], (mkUniform 3 0 30 10, tt))%Z = Val a2
     /\ relabels (axes_axis [uni_i32 B; cat_Z B]) (axes_axis [cat_Z B; uni_i32 B]) RC RI a1 a2 15 15 move
     /\ map move [0; 1; 2; 5; 14] = [0; 3; 6; 1; 14]
     /\ RC (25, (7, tt))%Z (7, (25, tt))%Z)
  /\ Permutation [5; 7; 9]%Z [9; 5; 7]%Z.
Proof.
  intros B. destruct (C21_nonvacuous B) as (Hb & Hf & _ & _ & _ & Hw).
  assert (HV : valid_int_params (signed 32) 3 0 10).
  { destruct B as [c []]; (constructor; try (vm_compute; congruence); try (vm_compute; split; congruence);
    exists 32%Z; split; [lia | now left]). }
  split; [|split].
  - destruct (C78_uniform_noflow_int B (signed 32) 3 0 10 HV) as (a & Ha & _ & Hu); [vm_compute; split; congruence|].
    rewrite (with_step_size_ok _ _ _ _ HV) in Ha. injection Ha as <-.
    pose proof (C78_category_noflow B Z _ [5; 7]%Z ltac:(destruct B as [? []]; vm_compute; reflexivity)) as Hk.
    pose proof (tuple_relabels_cons (uninf_i32 B) (uni_i32 B) _ _ _ _ _ _ _ _ _ _ _ _ _ _ _ _ Hu
                 (tuple_relabels_cons (catnf_Z B) (cat_Z B) _ _ _ _ _ _ _ _ _ _ _ _ _ _ _ _ Hk tuple_relabels_nil)) as Ht.
    destruct (tuple_relabels_bins _ _ _ _ _ _ _ _ _ Ht) as [Hb1 Hb2].
    assert (Hf1 : products_fit [3; 2]) by (intros k; destruct k as [|[|[|k]]]; destruct B as [? []]; vm_compute; reflexivity).
    destruct (C20_axes_tuple_has_bins B _ _ _ (nonempty_app [] _ _) Hb1 Hf1) as (a1 & A1 & _).
    destruct (C20_axes_tuple_has_bins B _ _ _ (nonempty_app [] _ _) Hb2 Hf) as (a2 & A2 & _).
    exists a1, a2. eexists _, _, _. split; [exact A1|]. split; [exact A2|].
    split; [exact (C78_tuples B _ _ _ _ _ _ _ _ _ a1 a2 Ht (nonempty_app [] _ _) Hf1 Hf A1 A2)|]. split; [reflexivity|].
    cbn [fst snd]. split; [|split; [reflexivity | exact I]]. split; [reflexivity|]. vm_compute; split; congruence.
  - cbn [tuple_has_bins example_axes fst snd] in Hb. destruct Hb as (Hu & Hk & _).
    assert (Hf1 : products_fit [3; 5]) by (intros k; destruct k as [|[|[|k]]]; destruct B as [? []]; vm_compute; reflexivity).
    assert (Hb2 : tuple_has_bins [cat_Z B; uni_i32 B] (category_new [5; 7], (mkUniform 3 0 30 10, tt))%Z [3; 5]) by (cbn [tuple_has_bins fst snd]; tauto).
    assert (Hb1 : tuple_has_bins [uni_i32 B; cat_Z B] (example_axes B) [5; 3]) by (cbn [tuple_has_bins example_axes fst snd]; tauto).
    destruct (C20_axes_tuple_has_bins B _ _ _ (nonempty_app [] _ _) Hb1 Hf) as (a1 & A1 & _).
    destruct (C20_axes_tuple_has_bins B _ _ _ (nonempty_app [] _ _) Hb2 Hf1) as (a2 & A2 & _).
    exists a1, a2. eexists _, _, _. split; [exact A1|]. split; [exact A2|].
    pose proof (C78_axis_order B [] (uni_i32 B) (cat_Z B) [] tt _ _ tt [] 5 3 [] a1 a2 eq_refl Hu Hk eq_refl Hf Hf1 A1 A2) as (HR & _).
    split; [exact HR|]. split; [reflexivity|]. exists tt, 25%Z, 7%Z, tt. split; [reflexivity|]. split; [reflexivity | exact Hw].
  - apply Permutation_sym. apply (Permutation_cons_append [5; 7]%Z 9%Z).
Qed.
