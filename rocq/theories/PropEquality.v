(** * PropEquality: what [==] and [<] of histograms, items and bin values mean (C98). *)
From stdpp Require Import gmap.
From Coq Require Import List ZArith NArith Bool Lia ZifyN ZifyNat ZifyBool.
From Flocq Require Import Core.Raux Core.FLX IEEE754.BinarySingleNaN.
From Verif Require Import Base BaseFacts Num Float Axis Spec OrdLaws FloatOrd Uniform StdAlgo VarAxis Axes AxesSpec Category
  Value ValueFloat VecHist HashHist HistSpec HistFacts HashFacts OpsFacts PropHist PropHistIter PropOps PropCount PropMerge PropProfile PropOrder Derived PropDerived.
Import ListNotations.
Open Scope N_scope.

(** ** Specification *)

(** Two optional bins are both there and equal, or both absent. *)
Definition same_bin {V} (veq : V -> V -> bool) (x y : option V) : Prop :=
  match x, y with Some v, Some w => veq v w = true | None, None => True | _, _ => False end.

(** ** Lemmas *)
Lemma list_eqb_spec {X} (C : Cmp X) : forall l l', vec_list_eqb C l l' = true <-> forall k, same_bin (c_eqb C) (nth_error l k) (nth_error l' k).
Proof.
  induction l as [|x l IH]; intros [|y l']; cbn [vec_list_eqb].
  - split; [intros _ [|k]; exact I | reflexivity].
  - split; [discriminate|]. intros H. destruct (H 0%nat).
  - split; [discriminate|]. intros H. destruct (H 0%nat).
  - rewrite andb_true_iff, IH. split.
    + intros [H1 H2] [|k]; [exact H1 | exact (H2 k)].
    + intros H. split; [exact (H 0%nat) | intros k; exact (H (S k))].
Qed.

Lemma list_cmp_lt {X} (C : Cmp X) : forall l l', vec_list_cmp C l l' = Some Lt <->
  exists k, (forall j, (j < k)%nat -> exists x y, nth_error l j = Some x /\ nth_error l' j = Some y /\ c_cmp C x y = Some Eq)
    /\ exists y, nth_error l' k = Some y /\ match nth_error l k with Some x => c_cmp C x y = Some Lt | None => True end.
Proof.
  induction l as [|x l IH]; intros [|y l']; cbn [vec_list_cmp].
  - split; [discriminate|]. intros [k [_ [y [H _]]]]. destruct k; discriminate.
  - split; [|reflexivity]. intros _. exists 0%nat. split; [intros j Hj; lia|]. exists y. split; [reflexivity | exact I].
  - split; [discriminate|]. intros [k [_ [z [H _]]]]. destruct k; discriminate.
  - rewrite lex_lt, IH. split.
    + intros [H|[H [k [H1 [z [H2 H3]]]]]].
      * exists 0%nat. split; [intros j Hj; lia|]. exists y. split; [reflexivity | exact H].
      * exists (S k). split; [|exists z; split; [exact H2 | exact H3]]. intros [|j] Hj; [exists x, y; repeat split; exact H | apply (H1 j); lia].
    + intros [[|k] [H1 [z [H2 H3]]]].
      * left. injection H2 as <-. exact H3.
      * right. destruct (H1 0%nat ltac:(lia)) as [x' [y' [E1 [E2 E3]]]]. injection E1 as <-. injection E2 as <-. split; [exact E3|].
        exists k. split; [intros j Hj; exact (H1 (S j) ltac:(lia)) | exists z; split; [exact H2 | exact H3]].
Qed.

(** ** C98 *)

(** Two dense histograms are [==] exactly if their axes are and all their bins are (the counterpart of C46 for sparse ones);
    [a < b] exactly if the axes are less, or the axes are equal and, in the first bin where the histograms differ, [a] has
    the smaller value (or no bin any more). *)
Theorem C98_dense_equality : forall A V (AX : Axis A) (CA : Cmp A) (CV : Cmp V) (a b : VecHistogram A V),
  (c_eqb (cmp_vechistogram CA CV) a b = true <->
     c_eqb CA (vh_axes a) (vh_axes b) = true /\ forall i, same_bin (c_eqb CV) (vec_value_at_index a i) (vec_value_at_index b i))
  /\ (c_cmp (cmp_vechistogram CA CV) a b = Some Lt <->
     c_cmp CA (vh_axes a) (vh_axes b) = Some Lt
     \/ (c_cmp CA (vh_axes a) (vh_axes b) = Some Eq
         /\ exists i, (forall j, j < i -> exists x y, vec_value_at_index a j = Some x /\ vec_value_at_index b j = Some y /\ c_cmp CV x y = Some Eq)
              /\ exists y, vec_value_at_index b i = Some y /\ match vec_value_at_index a i with Some x => c_cmp CV x y = Some Lt | None => True end)).
Proof.
  intros A V AX CA CV a b. split.
  - cbn [c_eqb cmp_vechistogram cmp_vec]. rewrite andb_true_iff, list_eqb_spec. unfold vec_value_at_index. split; intros [H1 H2]; (split; [exact H1|]).
    + intros i. apply H2.
    + intros k. specialize (H2 (N.of_nat k)). rewrite Nat2N.id in H2. exact H2.
  - cbn [c_cmp cmp_vechistogram cmp_vec]. rewrite lex_lt, list_cmp_lt. unfold vec_value_at_index. split; (intros [H|[H1 [k [H2 H3]]]]; [left; exact H|right; split; [exact H1|]]).
    + exists (N.of_nat k). rewrite Nat2N.id. split; [|exact H3]. intros j Hj. apply H2. lia.
    + exists (N.to_nat k). split; [|exact H3]. intros j Hj. specialize (H2 (N.of_nat j) ltac:(lia)). rewrite Nat2N.id in H2. exact H2.
Qed.
Print Assumptions C98_dense_equality.

(** Items, bins and bin values are [==] exactly if all their parts are. *)
Theorem C98_parts : forall T W C I V (CT : Cmp T) (CW : Cmp W) (CC : Cmp C) (CI : Cmp I) (CV : Cmp V),
  (forall a b : Item I V, c_eqb (cmp_item CI CV) a b = true <-> it_index a = it_index b /\ c_eqb CI (it_bin a) (it_bin b) = true /\ c_eqb CV (it_value a) (it_value b) = true)
  /\ (forall a b : BinInterval T, c_eqb (cmp_interval CT) a b = true <-> same_bin (c_eqb CT) (bi_start a) (bi_start b) /\ same_bin (c_eqb CT) (bi_end a) (bi_end b))
  /\ (forall a b : SingleValueBinInterval T, c_eqb (cmp_single CT) a b = true <-> same_bin (c_eqb CT) (sv_value a) (sv_value b))
  /\ (forall a b : Sum T, c_eqb (cmp_sum CT) a b = true <-> c_eqb CT (s_sum a) (s_sum b) = true)
  /\ (forall a b : WeightedSum T, c_eqb (cmp_weightedsum CT) a b = true <-> c_eqb CT (ws_sumw a) (ws_sumw b) = true /\ c_eqb CT (ws_sumw2 a) (ws_sumw2 b) = true)
  /\ (forall a b : Mean T C, c_eqb (cmp_mean CT CC) a b = true <->
        c_eqb CT (m_sumw a) (m_sumw b) = true /\ c_eqb CT (m_sumw2 a) (m_sumw2 b) = true /\ c_eqb CC (m_count a) (m_count b) = true)
  /\ (forall a b : WeightedMean T W C, c_eqb (cmp_weightedmean CT CW CC) a b = true <->
        c_eqb CT (wm_sumwt a) (wm_sumwt b) = true /\ c_eqb CT (wm_sumwt2 a) (wm_sumwt2 b) = true /\ c_eqb CW (wm_sumw a) (wm_sumw b) = true
        /\ c_eqb CW (wm_sumw2 a) (wm_sumw2 b) = true /\ c_eqb CC (wm_count a) (wm_count b) = true).
Proof.
  intros T W C I V CT CW CC CI CV.
  split; [intros a b; cbn [c_eqb cmp_item cmp_usize]; rewrite !andb_true_iff, N.eqb_eq; tauto|].
  split; [intros [e|s|s e] [e'|s'|s' e']; cbn; rewrite ?andb_true_iff; intuition discriminate|].
  split; [intros [|x] [|y]; cbn; intuition discriminate|].
  split; [intros a b; reflexivity|].
  split; [intros a b; cbn [c_eqb cmp_weightedsum]; rewrite !andb_true_iff; tauto|].
  split; intros a b; cbn [c_eqb cmp_mean cmp_weightedmean]; rewrite !andb_true_iff; tauto.
Qed.
Print Assumptions C98_parts.

(** Their order is that of the first part in which they differ, in the order in which the parts are listed here; of two bins of
    different kinds an underflow bin is less than an overflow bin, and both are less than a finite bin. *)
Theorem C98_order_of_parts : forall T W C I V (CT : Cmp T) (CW : Cmp W) (CC : Cmp C) (CI : Cmp I) (CV : Cmp V),
  let less {X} (D : Cmp X) x y := c_cmp D x y = Some Lt in let same {X} (D : Cmp X) x y := c_cmp D x y = Some Eq in
  (forall a b : Item I V, less (cmp_item CI CV) a b <-> it_index a < it_index b \/ it_index a = it_index b /\
        (less CI (it_bin a) (it_bin b) \/ same CI (it_bin a) (it_bin b) /\ less CV (it_value a) (it_value b)))
  /\ (forall s e s' e' x : T, (less (cmp_interval CT) (Bin s e) (Bin s' e') <-> less CT s s' \/ same CT s s' /\ less CT e e')
        /\ (less (cmp_interval CT) (Underflow e) (Underflow e') <-> less CT e e') /\ (less (cmp_interval CT) (Overflow s) (Overflow s') <-> less CT s s')
        /\ less (cmp_interval CT) (Underflow x) (Overflow s) /\ less (cmp_interval CT) (Underflow x) (Bin s e) /\ less (cmp_interval CT) (Overflow x) (Bin s e))
  /\ (forall x y : T, (less (cmp_single CT) (SVBin x) (SVBin y) <-> less CT x y) /\ less (cmp_single CT) SVOverflow (SVBin x))
  /\ (forall a b : Sum T, less (cmp_sum CT) a b <-> less CT (s_sum a) (s_sum b))
  /\ (forall a b : WeightedSum T, less (cmp_weightedsum CT) a b <-> less CT (ws_sumw a) (ws_sumw b) \/ same CT (ws_sumw a) (ws_sumw b) /\ less CT (ws_sumw2 a) (ws_sumw2 b))
  /\ (forall a b : Mean T C, less (cmp_mean CT CC) a b <-> less CT (m_sumw a) (m_sumw b) \/ same CT (m_sumw a) (m_sumw b) /\
        (less CT (m_sumw2 a) (m_sumw2 b) \/ same CT (m_sumw2 a) (m_sumw2 b) /\ less CC (m_count a) (m_count b)))
  /\ (forall a b : WeightedMean T W C, less (cmp_weightedmean CT CW CC) a b <-> less CT (wm_sumwt a) (wm_sumwt b) \/ same CT (wm_sumwt a) (wm_sumwt b) /\
        (less CT (wm_sumwt2 a) (wm_sumwt2 b) \/ same CT (wm_sumwt2 a) (wm_sumwt2 b) /\
        (less CW (wm_sumw a) (wm_sumw b) \/ same CW (wm_sumw a) (wm_sumw b) /\
        (less CW (wm_sumw2 a) (wm_sumw2 b) \/ same CW (wm_sumw2 a) (wm_sumw2 b) /\ less CC (wm_count a) (wm_count b))))).
Proof.
  intros T W C I V CT CW CC CI CV less same. subst less same. cbv beta.
  assert (U : forall x y : N, (c_cmp cmp_usize x y = Some Lt <-> x < y) /\ (c_cmp cmp_usize x y = Some Eq <-> x = y)).
  { intros x y. cbn [c_cmp cmp_usize]. destruct (N.compare_spec x y); split; split; intros; try reflexivity; try discriminate; lia. }
  split; [intros a b; change (c_cmp (cmp_item CI CV) a b) with (lex (c_cmp cmp_usize (it_index a) (it_index b)) (lex (c_cmp CI (it_bin a) (it_bin b)) (c_cmp CV (it_value a) (it_value b))));
    rewrite !lex_lt, (proj1 (U _ _)), (proj2 (U _ _)); reflexivity|].
  split; [intros s e s' e' x; repeat split; try reflexivity; try (intros H; exact H); apply lex_lt|].
  split; [intros x y; split; reflexivity|].
  split; [intros a b; reflexivity|].
  split; [intros a b; cbn [c_cmp cmp_weightedsum]; apply lex_lt|].
  split; intros a b; cbn [c_cmp cmp_mean cmp_weightedmean]; rewrite !lex_lt; reflexivity.
Qed.
Print Assumptions C98_order_of_parts.

(** Axes are ordered likewise: uniform axes by number of bins, lower edge, upper edge, step; variable axes by the first edge in which
    they differ (or the shorter list); wrappers as the axes within; tuples by the first axis in which they differ. *)
Theorem C98_order_of_axes : forall T (CT : Cmp T),
  let less {X} (D : Cmp X) x y := c_cmp D x y = Some Lt in let same {X} (D : Cmp X) x y := c_cmp D x y = Some Eq in
  (forall a b : Uniform T, less (cmp_uniform CT) a b <-> u_num a < u_num b \/ u_num a = u_num b /\
        (less CT (u_low a) (u_low b) \/ same CT (u_low a) (u_low b) /\ (less CT (u_high a) (u_high b) \/ same CT (u_high a) (u_high b) /\ less CT (u_step a) (u_step b))))
  /\ (forall a b : Uniform T, (less (cmp_uniformnoflow CT) (mkUniformNoFlow a) (mkUniformNoFlow b) <-> less (cmp_uniform CT) a b)
        /\ (less (cmp_uniformcyclic CT) (mkUniformCyclic (mkUniformNoFlow a)) (mkUniformCyclic (mkUniformNoFlow b)) <-> less (cmp_uniform CT) a b))
  /\ (forall l l' : list T, (less (cmp_variable CT) (mkVariable l) (mkVariable l') <->
        exists k, (forall j, (j < k)%nat -> exists x y, nth_error l j = Some x /\ nth_error l' j = Some y /\ same CT x y)
          /\ exists y, nth_error l' k = Some y /\ match nth_error l k with Some x => less CT x y | None => True end)
        /\ (less (cmp_variablenoflow CT) (mkVariableNoFlow (mkVariable l)) (mkVariableNoFlow (mkVariable l')) <-> less (cmp_variable CT) (mkVariable l) (mkVariable l'))
        /\ (less (cmp_variablecyclic CT) (mkVariableCyclic (mkVariableNoFlow (mkVariable l))) (mkVariableCyclic (mkVariableNoFlow (mkVariable l'))) <-> less (cmp_variable CT) (mkVariable l) (mkVariable l')))
  /\ (forall (CA : forall t : axis_type, Cmp (at_type t)) t ts (a1 b1 : at_type t) (a2 b2 : axes_tuple ts) shape,
        less (cmp_axes CA (t :: ts)) (mkAxes (ts := t :: ts) (a1, a2) shape) (mkAxes (ts := t :: ts) (b1, b2) shape)
        <-> less (CA t) a1 b1 \/ same (CA t) a1 b1 /\ less (cmp_axes CA ts) (mkAxes a2 shape) (mkAxes b2 shape)).
Proof.
  intros T CT less same. subst less same. cbv beta.
  split.
  { intros a b. change (c_cmp (cmp_uniform CT) a b) with (lex (c_cmp cmp_usize (u_num a) (u_num b)) (lex (c_cmp CT (u_low a) (u_low b)) (lex (c_cmp CT (u_high a) (u_high b)) (c_cmp CT (u_step a) (u_step b))))).
    rewrite !lex_lt. cbn [c_cmp cmp_usize]. destruct (N.compare_spec (u_num a) (u_num b)) as [Q|Q|Q]; intuition (try discriminate; try lia). }
  split; [intros a b; split; reflexivity|].
  split; [intros l l'; split; [apply list_cmp_lt | split; reflexivity]|].
  intros CA t ts a1 b1 a2 b2 shape. cbn [c_cmp cmp_axes tuple_cmp ax_axes ax_shape fst snd]. rewrite lex_assoc, lex_lt. reflexivity.
Qed.
Print Assumptions C98_order_of_axes.

(** Two filled dense histograms are [==] exactly if their axes are and every bin has got equal tallies; two filled sparse ones
    exactly if moreover the same bins have been hit. So [==] of the sparse histograms implies [==] of the dense ones
    with the same calls, and they are equivalent if the same bins have been hit. *)
Theorem C98_filled : forall A V D W (AX : Axis A) (AE : AxisEq A) (FV : Fill V) (FD : FillWith V D) (FW : FillWithWeighted V D W) (DV : Default V) (CA : Cmp A) (CV : Cmp V)
  (a1 a2 : A) n (ops1 ops2 : list (fill_op D W)) (h1 h2 : VecHistogram A V) (s1 s2 : HashHistogram A V),
  (forall x y, c_eqb CA x y = axis_eqb x y) -> num_bins a1 = Val n -> num_bins a2 = Val n ->
  dense_filled a1 ops1 = Val h1 -> dense_filled a2 ops2 = Val h2 -> sparse_filled a1 ops1 = Val s1 -> sparse_filled a2 ops2 = Val s2 ->
  let equal_tally i := exists v1 v2, apply_all (reaching a1 i ops1) default_v = Val v1 /\ apply_all (reaching a2 i ops2) default_v = Val v2 /\ c_eqb CV v1 v2 = true in
  (c_eqb (cmp_vechistogram CA CV) h1 h2 = true <-> axis_eqb a1 a2 = true /\ forall i, i < n -> equal_tally i)
  /\ (hash_eqb (c_eqb CV) s1 s2 = true <-> axis_eqb a1 a2 = true /\ forall i, (reaching a1 i ops1 = [] /\ reaching a2 i ops2 = []) \/ (reaching a1 i ops1 <> [] /\ reaching a2 i ops2 <> [] /\ equal_tally i))
  /\ (c_eqb CV default_v default_v = true -> hash_eqb (c_eqb CV) s1 s2 = true -> c_eqb (cmp_vechistogram CA CV) h1 h2 = true)
  /\ ((forall i, reaching a1 i ops1 = [] <-> reaching a2 i ops2 = []) -> (forall i, n <= i -> reaching a1 i ops1 = []) ->
      c_eqb (cmp_vechistogram CA CV) h1 h2 = true -> hash_eqb (c_eqb CV) s1 s2 = true).
Proof.
  intros A V D W AX AE FV FD FW DV CA CV a1 a2 n ops1 ops2 h1 h2 s1 s2 HC N1 N2 D1 D2 S1 S2 equal_tally.
  unfold dense_filled in D1, D2. destruct (vec_new a1) as [z1|] eqn:Z1; [|discriminate D1]. destruct (vec_new a2) as [z2|] eqn:Z2; [|discriminate D2]. cbn [obind] in D1, D2.
  destruct (C28_vec_contents_are_tally A V D W AX FV FD FW DV a1 n z1 h1 ops1 N1 Z1 D1) as [A1 [B1 [C1 _]]]. destruct (C28_vec_contents_are_tally A V D W AX FV FD FW DV a2 n z2 h2 ops2 N2 Z2 D2) as [A2 [B2 [C2 _]]].
  destruct (C29_hash_contents_are_tally A V D W AX FV FD FW DV a1 s1 ops1 S1) as [E1 [F1 [G1 _]]]. destruct (C29_hash_contents_are_tally A V D W AX FV FD FW DV a2 s2 ops2 S2) as [E2 [F2 [G2 _]]].
  assert (KD : c_eqb (cmp_vechistogram CA CV) h1 h2 = true <-> axis_eqb a1 a2 = true /\ forall i, i < n -> equal_tally i).
  { rewrite (proj1 (C98_dense_equality A V AX CA CV h1 h2)), A1, A2, HC. split; intros [Q1 Q2]; (split; [exact Q1|]).
    - intros i Hi. destruct (B1 i Hi) as [v1 [V1 T1]], (B2 i Hi) as [v2 [V2 T2]]. specialize (Q2 i). rewrite V1, V2 in Q2. exists v1, v2. repeat split; assumption.
    - intros i. destruct (N.lt_ge_cases i n) as [Hi|Hi]; [|rewrite (C1 i Hi), (C2 i Hi); exact I]. destruct (B1 i Hi) as [v1 [V1 T1]], (B2 i Hi) as [v2 [V2 T2]].
      destruct (Q2 i Hi) as [w1 [w2 [U1 [U2 U3]]]]. rewrite V1, V2. cbn [same_bin]. congruence. }
  assert (KS : hash_eqb (c_eqb CV) s1 s2 = true <-> axis_eqb a1 a2 = true /\ forall i, (reaching a1 i ops1 = [] /\ reaching a2 i ops2 = []) \/ (reaching a1 i ops1 <> [] /\ reaching a2 i ops2 <> [] /\ equal_tally i)).
  { rewrite (C46_sparse_equality A V AX AE (c_eqb CV) s1 s2), E1, E2. assert (Dec : forall l : list (fill_op D W), l = [] \/ l <> []) by (intros [|]; [left | right]; congruence).
    split; intros [Q1 Q2]; (split; [exact Q1|]); intros i; specialize (Q2 i).
    - destruct (Dec (reaching a1 i ops1)) as [R1|R1], (Dec (reaching a2 i ops2)) as [R2|R2].
      + left. split; assumption.
      + rewrite (F1 i R1) in Q2. destruct (G2 i R2) as [v [V2 _]]. rewrite V2 in Q2. destruct Q2.
      + rewrite (F2 i R2) in Q2. destruct (G1 i R1) as [v [V1 _]]. rewrite V1 in Q2. destruct Q2.
      + right. destruct (G1 i R1) as [v1 [V1 T1]], (G2 i R2) as [v2 [V2 T2]]. rewrite V1, V2 in Q2. split; [exact R1|]. split; [exact R2|]. exists v1, v2. repeat split; assumption.
    - destruct Q2 as [[R1 R2]|[R1 [R2 [w1 [w2 [U1 [U2 U3]]]]]]]; [rewrite (F1 i R1), (F2 i R2); exact I|].
      destruct (G1 i R1) as [v1 [V1 T1]], (G2 i R2) as [v2 [V2 T2]]. rewrite V1, V2. congruence. }
  split; [exact KD|]. split; [exact KS|]. split.
  - intros Hd Hs. apply KD. apply KS in Hs as [Q1 Q2]. split; [exact Q1|]. intros i _. destruct (Q2 i) as [[R1 R2]|[_ [_ Q]]]; [|exact Q]. exists default_v, default_v. rewrite R1, R2. repeat split. exact Hd.
  - intros Hr Hn Hd. apply KS. apply KD in Hd as [Q1 Q2]. split; [exact Q1|]. intros i. destruct (reaching a1 i ops1) as [|o l] eqn:R1.
    + left. split; [reflexivity|]. apply Hr. exact R1.
    + right. split; [discriminate|]. split; [intros R2; apply Hr in R2; congruence|]. destruct (N.lt_ge_cases i n) as [Hi|Hi]; [exact (Q2 i Hi)|]. rewrite (Hn i Hi) in R1. discriminate.
Qed.
Print Assumptions C98_filled.

(** A histogram of floats is [==] to itself exactly if its axes are and none of its bins is NaN; dense and sparse. *)
Theorem C98_float_reflexive : forall (prec emax : Z) (P : Prec_gt_0 prec) (E : Prec_lt_emax prec emax) (B : Build) A (AX : Axis A) (AE : AxisEq A) (CA : Cmp A) hash,
  let CV := num_cmp (@num_ord _ (float_ops prec emax P E)) hash in
  (forall h : VecHistogram A (binary_float prec emax), c_eqb (cmp_vechistogram CA CV) h h = true <-> c_eqb CA (vh_axes h) (vh_axes h) = true /\ Forall (fun v => is_nan v = false) (vec_values h))
  /\ (forall h : HashHistogram A (binary_float prec emax), hash_eqb (c_eqb CV) h h = true <-> axis_eqb (hh_axes h) (hh_axes h) = true /\ forall i v, hash_value_at_index h i = Some v -> is_nan v = false).
Proof.
  intros prec emax P E B A AX AE CA hash CV.
  assert (K : forall v : binary_float prec emax, c_eqb CV v v = true <-> is_nan v = false).
  { intros v. unfold CV. cbn [c_eqb num_cmp]. unfold eq_. cbn [partial_cmp num_ord float_ops]. destruct (is_nan v) eqn:Nv.
    - rewrite (Bcompare_nan_l prec emax v v Nv). split; discriminate.
    - rewrite (Bcompare_key prec emax v v Nv Nv), Z.compare_refl, Raux.Rcompare_Eq by reflexivity. split; reflexivity. }
  split.
  - intros h. rewrite (proj1 (C98_dense_equality A _ AX CA CV h h)). split; intros [Q1 Q2]; (split; [exact Q1|]).
    + apply List.Forall_forall. intros v Hv. apply In_nth_error in Hv as [k Hk]. specialize (Q2 (N.of_nat k)). unfold vec_value_at_index in Q2. rewrite Nat2N.id in Q2. unfold vec_values in Hk. rewrite Hk in Q2. apply K. exact Q2.
    + intros i. destruct (vec_value_at_index h i) as [v|] eqn:Hv; [|exact I]. apply K. apply (proj1 (List.Forall_forall _ _) Q2). apply (nth_error_In _ _ Hv).
  - intros h. rewrite (C46_sparse_equality A _ AX AE (c_eqb CV) h h). split; intros [Q1 Q2]; (split; [exact Q1|]).
    + intros i v Hv. specialize (Q2 i). rewrite Hv in Q2. apply K. exact Q2.
    + intros i. specialize (Q2 i). destruct (hash_value_at_index h i) as [v|]; [|exact I]. apply K, Q2. reflexivity.
Qed.
Print Assumptions C98_float_reflexive.

(** Category bins [5], [7] and overflow, integer bins: fills that give equal histograms, dense and sparse; and the converse of
    the third part of [C98_filled] fails: adding 0 creates a sparse bin, so the dense histograms are equal and the sparse ones not. *)
Example C98_nonvacuous : forall B : Build,
  let AX := @category_axis B Z _ in let AE : AxisEq (Category Z) := {| axis_eqb := category_eqb |} in let a := category_new [5; 7]%Z in
  let t := signed 32 in let CA : Cmp (Category Z) := mkCmp category_eqb (fun _ _ => None) (fun _ => []) in let CV := num_cmp (@num_ord _ (int_ops t)) (fun _ => []) in
  let run := @dense_filled _ Z Z Empty_set AX (int_fill t) (int_fill_with t) no_weighted (int_default t) a in
  let run_sparse := @sparse_filled _ Z Z Empty_set AX (int_fill t) (int_fill_with t) no_weighted (int_default t) a in
  let ops1 : list (@fill_op _ Z Empty_set AX) := [CallFill 5%Z; CallFillWith 9%Z 2%Z] in let ops2 : list (@fill_op _ Z Empty_set AX) := [CallFillWith 3%Z 2%Z; CallFill 5%Z] in
  let ops3 : list (@fill_op _ Z Empty_set AX) := ops2 ++ [CallFillWith 7%Z 0%Z] in
  num_bins a = Val 3 /\ (forall x y, c_eqb CA x y = axis_eqb x y)
  /\ exists h1 h2 h3 s1 s2 s3, run ops1 = Val h1 /\ run ops2 = Val h2 /\ run ops3 = Val h3 /\ run_sparse ops1 = Val s1 /\ run_sparse ops2 = Val s2 /\ run_sparse ops3 = Val s3
     /\ c_eqb (cmp_vechistogram CA CV) h1 h2 = true /\ hash_eqb (c_eqb CV) s1 s2 = true
     /\ c_eqb (cmp_vechistogram CA CV) h1 h3 = true /\ hash_eqb (c_eqb CV) s1 s3 = false.
Proof.
  intros B. cbv zeta. split; [destruct B as [[] []]; reflexivity|]. split; [reflexivity|].
  destruct B as [[] []]; (do 6 eexists); (split; [vm_compute; reflexivity|]); (split; [vm_compute; reflexivity|]); (split; [vm_compute; reflexivity|]); (split; [vm_compute; reflexivity|]);
    (split; [vm_compute; reflexivity|]); (split; [vm_compute; reflexivity|]); repeat split; vm_compute; reflexivity.
Qed.
