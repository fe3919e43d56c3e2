(** * PropRebinAxes: which axes are coarser than which (C87): integer uniform axes with
      [k] times fewer bins, variable-width axes with some of the edges. *)
From stdpp Require Import gmap.
From Coq Require Import ZifyBool ZifyN ZifyNat Lia Sorted.
From Verif Require Import Base BaseFacts Num Uniform Axis Spec FillSpec IntFacts OrdLaws StdAlgo StdContract VarAxis VariableFacts UniformInt UniformMore Axes AxesSpec AxesFacts
  AxesMacro Category Value VecHist HashHist HistSpec HistFacts PropUniformInt PropVariable PropCategory PropAxes PropHist PropHistIter PropOrder PropExactAxes Macros SimSpec PropRelabel PropRebin.
Open Scope N_scope.

(** ** Specification *)

(** Interval [b1] lies within [b2], for the coordinates considered. *)
Definition within {T I : Type} (ok : T -> Prop) (mem : I -> T -> bool) (b1 b2 : I) : Prop :=
  forall x, ok x -> mem b1 x = true -> mem b2 x = true.

(** Joining bins in [k]s from the first inner bin on; the flow bins stay. *)
Definition join_inner (k i : N) : N := (i + (k - 1)) / k.
(** The same without flow bins. *)
Definition join (k i : N) : N := i / k.

(** The members of [l] that [keep] marks. *)
Fixpoint select {T} (keep : list bool) (l : list T) : list T :=
  match keep, l with
  | b :: keep', x :: l' => if b then x :: select keep' l' else select keep' l'
  | _, _ => []
  end.
(** How many of the first [i] are marked. *)
Definition marked (keep : list bool) (i : N) : N := N.of_nat (length (List.filter id (firstn (N.to_nat i) keep))).

(** ** Integer uniform axes *)
Section Integers.
Context {B : Build} (t : int_type) (num k : N) (low step : Z) (Hk : 1 <= k).
Context (HV : valid_int_params t (num * k) low step) (HW : fits t (Z.of_N (num * k) * (Z.of_N (num * k) * step))%Z).

Lemma coarse_valid : valid_int_params t num low (step * Z.of_N k) /\ fits t (Z.of_N num * (Z.of_N num * (step * Z.of_N k)))%Z.
Proof using Hk HV HW.
  destruct HV as []. pose proof (primitive_bounds t vp_type) as [Hmin Hmax]. unfold fits in *.
  assert (Hn : 1 <= num) by nia. assert (Hle : (Z.of_N num <= Z.of_N (num * k))%Z) by nia.
  replace (Z.of_N (num * k) * step)%Z with (Z.of_N num * (step * Z.of_N k))%Z in * by lia.
  split; [constructor; unfold fits; try assumption; try lia; nia|].
  remember (Z.of_N num * (step * Z.of_N k))%Z as w eqn:Ew. assert (0 < w)%Z by nia. clear Ew. split; nia.
Qed.

Lemma fine_coarse : (1 <= num)%N /\ (0 < step)%Z /\ (1 <= Z.of_N k)%Z.
Proof using Hk HV. destruct HV as []. nia. Qed.

(** The inner bins of the two axes. *)
Lemma fine_inner i b : i < num * k ->
  uniformnoflow_bin (int_ops t) (mkUniformNoFlow (mkUniform (num * k) low (low + Z.of_N (num * k) * step)%Z step)) i = Val (Some b) ->
  b = Bin (low + Z.of_N i * step)%Z (low + (Z.of_N i + 1) * step)%Z.
Proof using Hk HV HW.
  destruct (C02_uniform_int_bins B t (num * k) low step HV HW) as (a & Ha & _ & _ & Hm & _).
  rewrite (with_step_size_ok t (num * k) low step HV) in Ha. injection Ha as <-.
  destruct (C09_noflow_bins B Z (int_ops t) (mkUniform (num * k) low (low + Z.of_N (num * k) * step)%Z step) (vp_num_usize _ _ _ _ HV)) as [_ [Hnf _]].
  intros Hi Hb. rewrite Hnf in Hb by exact Hi. rewrite Hm in Hb by lia. injection Hb as <-. f_equal; f_equal; f_equal; lia.
Qed.
Lemma coarse_inner i b : i < num ->
  uniformnoflow_bin (int_ops t) (mkUniformNoFlow (mkUniform num low (low + Z.of_N num * (step * Z.of_N k))%Z (step * Z.of_N k)%Z)) i = Val (Some b) ->
  b = Bin (low + Z.of_N i * (step * Z.of_N k))%Z (low + (Z.of_N i + 1) * (step * Z.of_N k))%Z.
Proof using Hk HV HW.
  destruct coarse_valid as [HV' HW'].
  destruct (C02_uniform_int_bins B t num low (step * Z.of_N k)%Z HV' HW') as (a & Ha & _ & _ & Hm & _).
  rewrite (with_step_size_ok t num low (step * Z.of_N k)%Z HV') in Ha. injection Ha as <-.
  destruct (C09_noflow_bins B Z (int_ops t) (mkUniform num low (low + Z.of_N num * (step * Z.of_N k))%Z (step * Z.of_N k)%Z) (vp_num_usize _ _ _ _ HV')) as [_ [Hnf _]].
  intros Hi Hb. rewrite Hnf in Hb by exact Hi. rewrite Hm in Hb by lia. injection Hb as <-. f_equal; f_equal; f_equal; lia.
Qed.
End Integers.

Lemma coarsens_mono {A1 A2} (AX1 : Axis A1) (AX2 : Axis A2) (RC RC' : @Coordinate A1 AX1 -> @Coordinate A2 AX2 -> Prop)
    (RI RI' : @Interval A1 AX1 -> @Interval A2 AX2 -> Prop) a1 a2 n1 n2 group :
  coarsens AX1 AX2 RC RI a1 a2 n1 n2 group -> (forall x y, RC' x y -> RC x y) -> (forall b d, RI b d -> RI' b d) ->
  coarsens AX1 AX2 RC' RI' a1 a2 n1 n2 group.
Proof.
  intros [H1 H2 H3 H4] HC HI. constructor; [exact H1 | exact H2| |].
  - intros i Hi. destruct (H3 i Hi) as (Hg & b & d & Eb & Ed & HR). split; [exact Hg|]. exists b, d. auto.
  - intros x y Hx. apply H4. auto.
Qed.

Lemma div_bounds (i k q : N) : 1 <= k -> q = i / k -> q * k <= i < (q + 1) * k.
Proof. intros Hk ->. pose proof (N.div_mod i k ltac:(lia)). pose proof (N.mod_lt i k ltac:(lia)). nia. Qed.

(** C87. An integer axis with [num * k] bins of width [step] and the one with [num]
    bins of width [step * k]: with, without flow bins, and cyclic. *)
Theorem C87_uniform_int : forall (B : Build) (t : int_type) (num k : N) (low step : Z),
  1 <= k -> valid_int_params t (num * k) low step -> fits t (Z.of_N (num * k) * (Z.of_N (num * k) * step))%Z ->
  let ok := fits t in
  let ok_cyclic x := fits t x /\ fits t (x - low)%Z in
  let mem := in_interval (@num_ord _ (int_ops t)) in
  let mem_cyclic := in_interval_mod (Z.of_N (num * k) * step)%Z in
  exists a b, uniform_with_step_size (int_ops t) (num * k) low step = Val (Ok a)
  /\ uniform_with_step_size (int_ops t) num low (step * Z.of_N k)%Z = Val (Ok b)
  /\ coarsens (uniform_axis (int_ops t)) (uniform_axis (int_ops t)) (fun x y => x = y /\ ok x) (within ok mem) a b (num * k + 2) (num + 2) (join_inner k)
  /\ coarsens (uniformnoflow_axis (int_ops t)) (uniformnoflow_axis (int_ops t)) (fun x y => x = y /\ ok x) (within ok mem)
       (mkUniformNoFlow a) (mkUniformNoFlow b) (num * k) num (join k)
  /\ coarsens (uniformcyclic_axis (int_ops t)) (uniformcyclic_axis (int_ops t)) (fun x y => x = y /\ ok_cyclic x) (within ok_cyclic mem_cyclic)
       (mkUniformCyclic (mkUniformNoFlow a)) (mkUniformCyclic (mkUniformNoFlow b)) (num * k) num (join k).
Proof.
  intros B t num k low step Hk HV HW ok ok_cyclic mem mem_cyclic. destruct (coarse_valid t num k low step Hk HV HW) as [HV' HW'].
  destruct (fine_coarse t num k low step Hk HV) as (Hn & Hs & HkZ).
  pose proof (with_step_size_ok t (num * k) low step HV) as Ea. pose proof (with_step_size_ok t num low (step * Z.of_N k)%Z HV') as Eb.
  destruct (C53_uniform_int_exact B t (num * k) low step HV HW) as (a & Ea' & _ & _ & X1 & X2 & X3).
  rewrite Ea in Ea'. injection Ea' as <-.
  destruct (C53_uniform_int_exact B t num low (step * Z.of_N k)%Z HV' HW') as (b & Eb' & _ & _ & Y1 & Y2 & Y3).
  rewrite Eb in Eb'. injection Eb' as <-.
  pose proof (fine_inner t num k low step Hk HV HW) as HF. pose proof (coarse_inner t num k low step Hk HV HW) as HC.
  assert (HK : forall i j : N, i < num * k -> j = i / k -> j < num /\ (Z.of_N j * (step * Z.of_N k) <= Z.of_N i * step)%Z
              /\ ((Z.of_N i + 1) * step <= (Z.of_N j + 1) * (step * Z.of_N k))%Z).
  { intros i j Hi Hj. pose proof (div_bounds i k j Hk Hj) as [D1 D2]. clear - D1 D2 Hi Hk Hs HkZ. split; [nia|]. split; nia. }
  assert (HX : forall x, (low <= x < low + Z.of_N num * (step * Z.of_N k))%Z ->
              exists i, i < num * k /\ (low + Z.of_N i * step <= x < low + (Z.of_N i + 1) * step)%Z).
  { intros x Hx. exists (Z.to_N ((x - low) / step)%Z). pose proof (Z.div_mod (x - low) step ltac:(lia)). pose proof (Z.mod_pos_bound (x - low) step Hs).
    assert (0 <= (x - low) / step)%Z by (apply Z.div_pos; lia). remember ((x - low) / step)%Z as q. remember ((x - low) mod step)%Z as r.
    rewrite Z2N.id by assumption. split; [|nia]. assert (q < Z.of_N (num * k))%Z by (clear - H H0 H1 Hx Hs HkZ; nia). lia. }
  remember (mkUniform (num * k) low (low + Z.of_N (num * k) * step)%Z step) as a eqn:Hda.
  remember (mkUniform num low (low + Z.of_N num * (step * Z.of_N k))%Z (step * Z.of_N k)%Z) as b eqn:Hdb.
  exists a, b. split; [exact Ea|]. split; [exact Eb|]. split; [|split].
  - refine (coarsens_mono _ _ _ _ _ _ _ _ _ _ _ (C87_by_bins (uniform_axis (int_ops t)) (uniform_axis (int_ops t)) a b (num * k + 2) (num + 2) ok ok mem mem (join_inner k) (fun x y => x = y) X1 Y1 _ _ _) _ _).
    + intros i Hi. unfold join_inner. pose proof (div_bounds (i + (k - 1)) k _ Hk eq_refl) as [D1 D2]. clear - D1 D2 Hi Hk. nia.
    + intros i b1 b2 Hi E1 E2 c c' (<- & Hc & _) Hm.
      destruct (C02_uniform_int_bins B t (num * k) low step HV HW) as (a' & Ha' & _ & U1 & M1 & O1 & _). rewrite Ea in Ha'. injection Ha' as <-.
      destruct (C02_uniform_int_bins B t num low (step * Z.of_N k)%Z HV' HW') as (b' & Hb' & _ & U2 & M2 & O2 & _). rewrite Eb in Hb'. injection Hb' as <-.
      change (uniform_bin (int_ops t) a i = Val (Some b1)) in E1. change (uniform_bin (int_ops t) b (join_inner k i) = Val (Some b2)) in E2.
      unfold join_inner in E2. apply in_interval_int in Hm. apply in_interval_int.
      destruct (N.eq_dec i 0) as [->|N0].
      { rewrite U1 in E1. injection E1 as <-. rewrite N.div_small in E2 by lia. rewrite U2 in E2. injection E2 as <-. exact Hm. }
      destruct (N.eq_dec i (num * k + 1)) as [->|N1].
      { rewrite O1 in E1. injection E1 as <-. replace (num * k + 1 + (k - 1)) with ((num + 1) * k) in E2 by lia. rewrite N.div_mul in E2 by lia.
        rewrite O2 in E2. injection E2 as <-. cbn [containsZ] in *. lia. }
      assert (Hj : (i + (k - 1)) / k = (i - 1) / k + 1).
      { replace (i + (k - 1)) with (i - 1 + 1 * k) by lia. rewrite N.div_add by lia. reflexivity. }
      rewrite Hj in E2. destruct (HK (i - 1) _ ltac:(lia) eq_refl) as (K1 & K2 & K3). remember ((i - 1) / k) as j.
      rewrite M1 in E1 by lia. injection E1 as <-. rewrite M2 in E2 by lia. injection E2 as <-. cbn [containsZ] in *.
      replace (Z.of_N (i - 1)) with (Z.of_N i - 1)%Z in * by lia. replace (Z.of_N (j + 1)) with (Z.of_N j + 1)%Z by lia.
      clear - Hm K2 K3. lia.
    + intros j b2 c c' Hj E2 (<- & Hc & _) Hm. destruct (C02_uniform_int_bin_index_agree B t (num * k) low step HV HW) as (a' & Ha' & Hag & _).
      rewrite Ea in Ha'. injection Ha' as <-. destruct (Hag c Hc) as (i & b1 & H1 & H2 & H3 & _). exists i, b1.
      split; [|split; [exact H2 | now apply in_interval_int]].
      destruct (ex_index _ _ _ _ _ X1 c Hc) as (r & Er & Lr). apply Lr. change (uniform_index (int_ops t) a c = Val r) in Er. congruence.
    + intros x y [-> H]. split; [reflexivity | split; assumption].
    + intros d d' H x Hx. apply H. split; [reflexivity | split; assumption].
  - refine (coarsens_mono _ _ _ _ _ _ _ _ _ _ _ (C87_by_bins (uniformnoflow_axis (int_ops t)) (uniformnoflow_axis (int_ops t)) (mkUniformNoFlow a) (mkUniformNoFlow b) (num * k) num ok ok mem mem (join k) (fun x y => x = y) X2 Y2 _ _ _) _ _).
    + intros i Hi. apply (HK i _ Hi eq_refl).
    + intros i b1 b2 Hi E1 E2 c c' (<- & Hc & _) Hm. destruct (HK i _ Hi eq_refl) as (K1 & K2 & K3).
      rewrite (HF i b1 Hi E1) in Hm. rewrite (HC _ b2 K1 E2). apply in_interval_int in Hm. apply in_interval_int. cbn [containsZ] in *. unfold join. lia.
    + intros j b2 c c' Hj E2 (<- & Hc & _) Hm. rewrite (HC j b2 Hj E2) in Hm. apply in_interval_int in Hm. cbn [containsZ] in Hm.
      destruct (HX c) as (i & Hi & Hci); [clear - Hm Hj Hs HkZ; nia|]. destruct (proj2 (ex_bins _ _ _ _ _ X2) i Hi) as [b1 Eb1]. exists i, b1. split; [exact Hi|]. split; [exact Eb1|].
      rewrite (HF i b1 Hi Eb1). apply in_interval_int. exact Hci.
    + intros x y [-> H]. split; [reflexivity | split; assumption].
    + intros d d' H x Hx. apply H. split; [reflexivity | split; assumption].
  - replace (Z.of_N num * (step * Z.of_N k))%Z with (Z.of_N (num * k) * step)%Z in Y3 by lia.
    refine (coarsens_mono _ _ _ _ _ _ _ _ _ _ _ (C87_by_bins (uniformcyclic_axis (int_ops t)) (uniformcyclic_axis (int_ops t)) (mkUniformCyclic (mkUniformNoFlow a)) (mkUniformCyclic (mkUniformNoFlow b)) (num * k) num
              ok_cyclic ok_cyclic mem_cyclic mem_cyclic (join k) (fun x y => x = y) X3 Y3 _ _ _) _ _).
    + intros i Hi. apply (HK i _ Hi eq_refl).
    + intros i b1 b2 Hi E1 E2 c c' (<- & Hc & _) Hm. destruct (HK i _ Hi eq_refl) as (K1 & K2 & K3).
      unfold mem_cyclic in *. rewrite (HF i b1 Hi E1) in Hm. rewrite (HC _ b2 K1 E2). cbn [in_interval_mod] in *. fold (join k i) in *.
      assert (Hi' : (Z.of_N i + 1 <= Z.of_N num * Z.of_N k)%Z) by lia.
      remember (Z.of_N (num * k) * step)%Z as P eqn:HP. assert (HP' : (P = Z.of_N num * (step * Z.of_N k))%Z) by lia.
      remember (low + Z.of_N i * step)%Z as s1. remember (low + Z.of_N (join k i) * (step * Z.of_N k))%Z as s2. apply Z.ltb_lt in Hm. apply Z.ltb_lt.
      assert (HPp : (0 < P)%Z) by (clear - HP' Hn Hs HkZ; nia).
      assert (Hmod : ((c - s2) mod P = (c - s1) mod P + (s1 - s2))%Z).
      { symmetry. pose proof (Z.div_mod (c - s1) P ltac:(lia)). pose proof (Z.mod_pos_bound (c - s1) P HPp).
        apply (Z.mod_unique _ _ ((c - s1) / P)%Z); [left|lia].
        split; [lia|]. assert (((Z.of_N (join k i) + 1) * (step * Z.of_N k)) <= P)%Z by (rewrite HP'; apply Z.mul_le_mono_nonneg_r; [apply Z.mul_nonneg_nonneg; lia | unfold join in *; lia]).
        assert (0 <= Z.of_N (join k i) * (step * Z.of_N k))%Z by (clear - Hs HkZ; nia). unfold join in *. lia. }
      rewrite Hmod. unfold join in *. lia.
    + intros j b2 c c' Hj E2 (<- & Hc & _) Hm.
      destruct (C10_cyclic_int_total B t (num * k) low step HV) as (a' & Ha' & Htot).
      assert (a' = mkUniformCyclic (mkUniformNoFlow a)) as ->.
      { unfold uniformcyclic_with_step_size, uniformnoflow_with_step_size in Ha'. rewrite Ea in Ha'. cbn in Ha'. now injection Ha' as <-. }
      destruct (Htot c (proj1 Hc) (proj2 Hc)) as (i & _ & Ei & Hi & _). destruct (proj2 (ex_bins _ _ _ _ _ X3) i Hi) as [b1 Eb1]. exists i, b1. split; [exact Hi|]. split; [exact Eb1|].
      apply (ex_iff _ _ _ _ _ X3 c i b1 Hc Hi Eb1). exact Ei.
    + intros x y [-> H]. split; [reflexivity | split; assumption].
    + intros d d' H x Hx. apply H. split; [reflexivity | split; assumption].
Qed.
Print Assumptions C87_uniform_int.

(** ** Variable-width axes *)
Section Select.
Context {T : Type}.
Implicit Types (l : list T) (keep : list bool).
Lemma select_split (i : nat) keep l : select keep l = select (firstn i keep) (firstn i l) ++ select (skipn i keep) (skipn i l).
Proof.
  revert keep l. induction i as [|i IH]; intros keep l; [reflexivity|]. destruct keep as [|b keep], l as [|x l]; cbn [firstn skipn select]; [reflexivity | reflexivity | |].
  - destruct (skipn i keep); reflexivity.
  - rewrite (IH keep l). destruct b; reflexivity.
Qed.
Lemma select_app (k1 k2 : list bool) (l1 l2 : list T) : length k1 = length l1 -> select (k1 ++ k2) (l1 ++ l2) = select k1 l1 ++ select k2 l2.
Proof.
  revert l1. induction k1 as [|b k1 IH]; intros [|x l1] H; try discriminate; [reflexivity|]. injection H as H. cbn [app select]. rewrite (IH l1 H). destruct b; reflexivity.
Qed.
Lemma select_rev keep l : length keep = length l -> select (rev keep) (rev l) = rev (select keep l).
Proof.
  revert l. induction keep as [|b keep IH]; intros [|x l] H; try discriminate; [reflexivity|]. injection H as H. cbn [rev select].
  rewrite select_app by (rewrite !rev_length; exact H). rewrite (IH l H). destruct b; cbn [select rev]; [reflexivity | apply app_nil_r].
Qed.
Lemma select_head keep l : length keep = length l -> nth_error keep 0 = Some true -> nth_error (select keep l) 0 = nth_error l 0.
Proof. intros H Hf. destruct keep as [|b keep], l as [|x l]; try discriminate. injection Hf as ->. reflexivity. Qed.
Lemma nth_error_skipn' {X} (n m : nat) (l : list X) : nth_error (skipn n l) m = nth_error l (n + m).
Proof. revert l. induction n as [|n IH]; intros [|x l]; cbn [skipn]; [reflexivity | reflexivity | destruct m; reflexivity | apply IH]. Qed.
Lemma nth_error_rev_0 {X} (l : list X) : nth_error (rev l) 0 = nth_error l (length l - 1).
Proof.
  destruct l as [|x l]; [reflexivity|]. destruct (exists_last (l := x :: l) ltac:(discriminate)) as (l' & y & ->). rewrite rev_app_distr, app_length. cbn [rev app length].
  replace (length l' + 1 - 1)%nat with (length l') by lia. rewrite nth_error_app2, Nat.sub_diag by lia. reflexivity.
Qed.
Lemma select_length keep l : length keep = length l -> length (select keep l) = length (List.filter id keep).
Proof.
  revert l. induction keep as [|b keep IH]; intros [|x l] H; try discriminate; [reflexivity|]. injection H as H. cbn [select List.filter]. unfold id at 1.
  destruct b; cbn [length]; rewrite (IH l H); reflexivity.
Qed.
Lemma select_in keep l x : In x (select keep l) -> In x l.
Proof.
  revert l. induction keep as [|b keep IH]; intros [|y l] H; try contradiction. cbn [select] in H. destruct b; [destruct H as [->|H]; [left; reflexivity|]|]; right; now apply IH.
Qed.
Lemma select_sorted (R : T -> T -> Prop) keep l : StronglySorted R l -> StronglySorted R (select keep l).
Proof.
  intros H. revert keep. induction H as [|x l Hs IH Hx]; intros [|b keep]; cbn [select]; try constructor. destruct b; [|apply IH].
  constructor; [apply IH|]. apply List.Forall_forall. intros y Hy. rewrite List.Forall_forall in Hx. apply Hx. now apply select_in in Hy.
Qed.
End Select.

Lemma marked_le keep i : marked keep i <= N.of_nat (length (List.filter id keep)).
Proof.
  unfold marked. generalize (N.to_nat i) as j. induction keep as [|b keep IH]; intros [|j]; cbn [firstn List.filter length]; [lia | lia | lia |].
  specialize (IH j). destruct b; cbn [id length]; lia.
Qed.
Lemma marked_all keep : marked keep (N.of_nat (length keep)) = N.of_nat (length (List.filter id keep)).
Proof. unfold marked. rewrite Nat2N.id, firstn_all. reflexivity. Qed.
Lemma marked_first keep i : 1 <= i -> nth_error keep 0 = Some true -> 1 <= marked keep i.
Proof.
  intros Hi H. unfold marked. destruct keep as [|b keep]; [discriminate|]. injection H as ->. destruct (N.to_nat i) as [|j] eqn:E; [lia|]. cbn [firstn List.filter id length]. lia.
Qed.
Lemma marked_last keep i : i < N.of_nat (length keep) -> nth_error keep (length keep - 1) = Some true -> marked keep i < N.of_nat (length (List.filter id keep)).
Proof.
  intros Hi H. unfold marked. assert (Hi' : (N.to_nat i < length keep)%nat) by lia. clear Hi. revert Hi'. generalize (N.to_nat i) as j. clear i. intros j Hj.
  rewrite <- (firstn_skipn j keep) at 2. rewrite List.filter_app, app_length.
  enough (0 < length (List.filter id (skipn j keep)))%nat by lia.
  assert (Hin : In true (skipn j keep)).
  { apply (nth_error_In _ (length keep - 1 - j)). rewrite nth_error_skipn'. replace (j + (length keep - 1 - j))%nat with (length keep - 1)%nat by lia. exact H. }
  destruct (List.filter id (skipn j keep)) as [|b r] eqn:E; [|cbn; lia]. exfalso.
  assert (Hf : In true (List.filter id (skipn j keep))) by (apply filter_In; split; [exact Hin | reflexivity]). rewrite E in Hf. exact Hf.
Qed.

(** Exact axes that number every coordinate as the groups say. *)
Lemma coarsens_by_index {A1 A2} (AX1 : Axis A1) (AX2 : Axis A2) (a1 : A1) (a2 : A2) n1 n2 ok1 ok2 mem1 mem2 group
    (RC : @Coordinate A1 AX1 -> @Coordinate A2 AX2 -> Prop) :
  exact_axis AX1 a1 n1 ok1 mem1 -> exact_axis AX2 a2 n2 ok2 mem2 -> (forall i, i < n1 -> group i < n2) ->
  (forall c1 c2, RC c1 c2 -> ok1 c1 /\ ok2 c2) ->
  (forall c1 c2 r, RC c1 c2 -> index a1 c1 = Val r -> index a2 c2 = Val (option_map group r)) ->
  coarsens AX1 AX2 RC (fun b1 b2 => forall c1 c2, RC c1 c2 -> mem1 b1 c1 = true -> mem2 b2 c2 = true) a1 a2 n1 n2 group.
Proof.
  intros E1 E2 Hg Hok Hi. constructor; [exact (ex_bins _ _ _ _ _ E1) | exact (ex_bins _ _ _ _ _ E2)| |].
  - intros i Hl. split; [exact (Hg i Hl)|]. destruct (proj2 (ex_bins _ _ _ _ _ E1) i Hl) as [b1 B1]. destruct (proj2 (ex_bins _ _ _ _ _ E2) _ (Hg i Hl)) as [b2 B2].
    exists b1, b2. split; [exact B1|]. split; [exact B2|]. intros c1 c2 Hr Hm. destruct (Hok c1 c2 Hr) as [O1 O2].
    apply (ex_iff _ _ _ _ _ E2 c2 _ b2 O2 (Hg i Hl) B2). apply (ex_iff _ _ _ _ _ E1 c1 i b1 O1 Hl B1) in Hm. exact (Hi c1 c2 _ Hr Hm).
  - intros c1 c2 Hr. destruct (Hok c1 c2 Hr) as [O1 O2]. destruct (ex_index _ _ _ _ _ E1 c1 O1) as (r & Er & Lr). exists r.
    split; [exact Er|]. split; [exact Lr|]. exact (Hi c1 c2 r Hr Er).
Qed.

Section Variable_axes.
Context {B : Build} (search : searcher) (HS : search_contract search) {T : Type} (ops : NumOps T) (is_num : T -> bool) (HL : ord_laws num_ord is_num).
Context (edges : list T) (keep : list bool) (Hnum : forall e, In e edges -> is_num e = true) (Hsort : StronglySorted (fun x y => @lt_ _ num_ord x y = true) edges)
        (Hlen : N.of_nat (length edges) + 1 < usize_mod) (Hkeep : length keep = length edges) (H2 : 2 <= N.of_nat (length (select keep edges))).
Notation coarse := (select keep edges).
Notation ord := (@num_ord T ops).

Lemma kept : length coarse = length (List.filter id keep). Proof using Hkeep. now apply select_length. Qed.
Lemma kept_le : (length coarse <= length edges)%nat.
Proof using Hkeep. rewrite kept, <- Hkeep. apply PropRebin.filter_le. Qed.

Lemma sorted_le (l : list T) : StronglySorted (fun x y => @lt_ _ ord x y = true) l -> StronglySorted (fun x y => @le_ _ ord x y = true) l.
Proof using.
  intros H. induction H as [|x xs Hs IH Ha]; constructor; [exact IH|]. eapply Forall_impl; [exact Ha|]. intros y Hy. now apply lt_le.
Qed.

Lemma variable_coarse_index x i : variable_index search (H0 := ord) (mkVariable edges) x = Val (Some i) ->
  variable_index search (H0 := ord) (mkVariable coarse) x = Val (Some (marked keep i)).
Proof using HS HL Hnum Hsort Hlen Hkeep H2.
  intros Hi. pose proof kept as HK. pose proof kept_le as Hle.
  assert (Hn1 : Forall (fun e => is_num e = true) edges) by now apply List.Forall_forall.
  assert (Hn2 : Forall (fun e => is_num e = true) coarse) by (apply List.Forall_forall; intros e He; apply Hnum; now apply select_in in He).
  pose proof (select_sorted _ keep _ Hsort) as Hsort2.
  assert (Hl2 : N.of_nat (length coarse) + 1 < usize_mod) by lia.
  destruct (is_num x) eqn:Ex.
  - destruct (index_char ord is_num HL search HS edges Hn1 (sorted_le _ Hsort) Hlen x (or_introl Hsort) Ex) as (k & Ek & Hk & L1 & G1).
    destruct (index_char ord is_num HL search HS coarse Hn2 (sorted_le _ Hsort2) Hl2 x (or_introl Hsort2) Ex) as (m & Em & Hm & L2 & G2).
    rewrite Ek in Hi. injection Hi as <-. rewrite Em. do 2 f_equal. unfold marked. rewrite Nat2N.id. f_equal.
    assert (Hfl : length (firstn k keep) = length (firstn k edges)) by (rewrite !firstn_length; lia).
    assert (Hsl : length (select (firstn k keep) (firstn k edges)) = length (List.filter id (firstn k keep))) by now apply select_length.
    assert (F1 : forall e, In e (select (firstn k keep) (firstn k edges)) -> @le_ _ ord e x = true).
    { intros e He. apply select_in in He. apply In_nth_error in He as [j Hj]. assert (j < k)%nat.
      { assert (j < length (firstn k edges))%nat by (apply nth_error_Some; congruence). rewrite firstn_length in *. lia. }
      apply (L1 j e H). rewrite <- (firstn_skipn k edges). rewrite nth_error_app1; [exact Hj|]. apply nth_error_Some. congruence. }
    assert (F2 : forall e, In e (select (skipn k keep) (skipn k edges)) -> @lt_ _ ord x e = true).
    { intros e He. apply select_in in He. apply In_nth_error in He as [j Hj]. rewrite nth_error_skipn' in Hj. apply (G1 (k + j)%nat e); [lia | exact Hj]. }
    pose proof (select_split k keep edges) as Hsp. remember (select (firstn k keep) (firstn k edges)) as p. remember (select (skipn k keep) (skipn k edges)) as q.
    rewrite <- Hsl. destruct (Nat.lt_trichotomy m (length p)) as [Hlt|[->|Hgt]]; [exfalso|reflexivity|exfalso].
    + destruct (nth_error p m) as [e|] eqn:Ee; [|apply nth_error_None in Ee; lia].
      eapply (lt_not_le _ _ HL); [apply (G2 m e (le_n _)); rewrite Hsp, nth_error_app1 by lia; exact Ee|]. apply F1. eapply nth_error_In; exact Ee.
    + destruct (nth_error coarse (length p)) as [e|] eqn:Ee; [|apply nth_error_None in Ee; lia].
      eapply (lt_not_le _ _ HL); [|apply (L2 (length p) e Hgt Ee)]. apply F2. rewrite Hsp, nth_error_app2, Nat.sub_diag in Ee by lia. eapply nth_error_In; exact Ee.
  - rewrite (index_nan ord is_num HL search HS edges Hn1 (sorted_le _ Hsort) Hlen x Ex) in Hi. injection Hi as <-.
    rewrite (index_nan ord is_num HL search HS coarse Hn2 (sorted_le _ Hsort2) Hl2 x Ex). rewrite <- Hkeep, marked_all, HK. reflexivity.
Qed.

Lemma variable_exacts :
  (exact_axis (variable_axis search (H0 := ord)) (mkVariable edges) (N.of_nat (length edges) + 1) (fun _ => True) (in_interval ord)
  /\ exact_axis (variablenoflow_axis search (H0 := ord)) (mkVariableNoFlow (mkVariable edges)) (N.of_nat (length edges) - 1) (fun _ => True) (in_interval ord))
  /\ exact_axis (variable_axis search (H0 := ord)) (mkVariable coarse) (N.of_nat (length coarse) + 1) (fun _ => True) (in_interval ord)
  /\ exact_axis (variablenoflow_axis search (H0 := ord)) (mkVariableNoFlow (mkVariable coarse)) (N.of_nat (length coarse) - 1) (fun _ => True) (in_interval ord).
Proof using HS HL Hnum Hsort Hlen Hkeep H2.
  pose proof kept_le as Hle. split; apply (C53_variable_exact B search HS T ord is_num HL); try assumption; try lia.
  - intros e He. apply Hnum. now apply select_in in He.
  - now apply select_sorted.
Qed.
Lemma variable_index_some x r : variable_index search (H0 := ord) (mkVariable edges) x = Val r -> exists i, r = Some i /\ i <= N.of_nat (length edges).
Proof using HS HL Hnum Hsort Hlen Hkeep H2.
  intros Hi. pose proof kept_le as Hle.
  destruct (C14_variable_index_in_range B search HS T ord is_num HL edges Hnum (sorted_le _ Hsort) ltac:(lia) Hlen x) as [(i & m & Ei & Em & Him) _].
  destruct variable_exacts as ((E1 & _) & _). rewrite (proj1 (ex_bins _ _ _ _ _ E1) : variable_num_bins (mkVariable edges) = _) in Em. injection Em as <-.
  rewrite Ei in Hi. injection Hi as <-. exists i. split; [reflexivity | lia].
Qed.

(** The first and the last edge are kept. *)
Context (Hfirst : nth_error keep 0 = Some true) (Hlast : nth_error keep (length keep - 1) = Some true).
Notation group' := (fun i => marked keep (i + 1) - 1).

Lemma variable_coarse_noflow_index x r : variablenoflow_index search (H0 := ord) (mkVariableNoFlow (mkVariable edges)) x = Val r ->
  variablenoflow_index search (H0 := ord) (mkVariableNoFlow (mkVariable coarse)) x = Val (option_map group' r).
Proof using HS HL Hnum Hsort Hlen Hkeep H2 Hfirst Hlast.
  intros Hr. pose proof kept as HK. pose proof kept_le as Hle.
  destruct (C14_variable_index_in_range B search HS T ord is_num HL edges Hnum (sorted_le _ Hsort) ltac:(lia) Hlen x) as [(i & _ & Ei & _ & _) _].
  destruct (variable_index_some x _ Ei) as (i' & [= <-] & Hil). pose proof (variable_coarse_index x i Ei) as Ei2.
  erewrite noflow_index_var in Hr; [| exact Hlen | lia | exact Ei | exact Hil]. injection Hr as <-.
  pose proof (marked_le keep i) as Hm.
  erewrite noflow_index_var; [| lia | lia | exact Ei2 | rewrite HK; exact Hm].
  destruct (N.eqb_spec i 0) as [->|N0]; [reflexivity|]. pose proof (marked_first keep i ltac:(lia) Hfirst) as M1.
  destruct (N.eqb_spec (marked keep i) 0); [lia|]. destruct (N.eqb_spec i (N.of_nat (length edges))) as [->|N1].
  - rewrite <- Hkeep, marked_all, HK, N.eqb_refl. reflexivity.
  - pose proof (marked_last keep i ltac:(lia) Hlast) as M2. destruct (N.eqb_spec (marked keep i) (N.of_nat (length coarse))); [lia|].
    cbn [option_map]. replace (i - 1 + 1) with i by lia. reflexivity.
Qed.
End Variable_axes.

(** C87. A variable-width axis with some of the edges (at least two), over any ordered
    coordinate type, floats included, for every coordinate (also NaN and infinities):
    bin [i] becomes part of the bin whose number is the number of edges kept among the
    first [i].  Without flow bins, and cyclic, when the two outermost edges are kept. *)
Theorem C87_variable : forall (B : Build) (search : searcher), search_contract search ->
  forall T (ops : NumOps T) is_num, ord_laws num_ord is_num ->
  forall (edges : list T) (keep : list bool), (forall e, In e edges -> is_num e = true) -> StronglySorted (fun x y => @lt_ _ num_ord x y = true) edges ->
  N.of_nat (length edges) + 1 < usize_mod -> length keep = length edges ->
  let coarse := select keep edges in
  let n := N.of_nat (length edges) in let m := N.of_nat (length coarse) in
  2 <= m ->
  coarsens (variable_axis search (H0 := num_ord)) (variable_axis search (H0 := num_ord)) eq (within (fun _ => True) (in_interval num_ord))
    (mkVariable edges) (mkVariable coarse) (n + 1) (m + 1) (marked keep)
  /\ (nth_error keep 0 = Some true -> nth_error keep (length keep - 1) = Some true ->
      coarsens (variablenoflow_axis search (H0 := num_ord)) (variablenoflow_axis search (H0 := num_ord)) eq (within (fun _ => True) (in_interval num_ord))
        (mkVariableNoFlow (mkVariable edges)) (mkVariableNoFlow (mkVariable coarse)) (n - 1) (m - 1) (fun i => marked keep (i + 1) - 1)
      /\ let fine_cyclic := mkVariableCyclic (mkVariableNoFlow (mkVariable edges)) in
         let RC (x y : T) := x = y /\ exists r, variablecyclic_index search ops fine_cyclic x = Val r in
         coarsens (variablecyclic_axis search ops) (variablecyclic_axis search ops) RC (within (fun _ => True) (in_interval num_ord))
           fine_cyclic (mkVariableCyclic (mkVariableNoFlow (mkVariable coarse))) (n - 1) (m - 1) (fun i => marked keep (i + 1) - 1)).
Proof.
  intros B search HS T ops is_num HL edges keep Hnum Hsort Hlen Hkeep coarse n m H2.
  destruct (variable_exacts search HS ops is_num HL edges keep Hnum Hsort Hlen Hkeep H2) as ((E1 & E2) & E3 & E4). fold coarse n m in E1, E2, E3, E4.
  pose proof (kept edges keep Hkeep) as HK. fold coarse in HK. split.
  - refine (coarsens_mono _ _ _ _ _ _ _ _ _ _ _ (coarsens_by_index (variable_axis search (H0 := num_ord)) (variable_axis search (H0 := num_ord)) _ _ _ _ _ _ _ _ (marked keep) eq E1 E3 _ _ _) _ _).
    + intros i _. pose proof (marked_le keep i). unfold m. rewrite HK. lia.
    + intros; split; exact I.
    + intros c c' r <- Hr. destruct (variable_index_some search HS ops is_num HL edges keep Hnum Hsort Hlen Hkeep H2 c r Hr) as (i & -> & _).
      exact (variable_coarse_index search HS ops is_num HL edges keep Hnum Hsort Hlen Hkeep H2 c i Hr).
    + intros x y H. exact H.
    + intros b d H x _. exact (H x x eq_refl).
  - intros Hf Hla.
    assert (Hg : forall i, i < n - 1 -> marked keep (i + 1) - 1 < m - 1).
    { intros i Hi. pose proof (marked_last keep (i + 1) ltac:(lia) Hla). pose proof (marked_first keep (i + 1) ltac:(lia) Hf). unfold m. rewrite HK. lia. }
    pose proof (variable_coarse_noflow_index search HS ops is_num HL edges keep Hnum Hsort Hlen Hkeep H2 Hf Hla) as HN. fold coarse in HN.
    assert (HC : coarsens (variablenoflow_axis search (H0 := num_ord)) (variablenoflow_axis search (H0 := num_ord)) eq (within (fun _ => True) (in_interval num_ord))
        (mkVariableNoFlow (mkVariable edges)) (mkVariableNoFlow (mkVariable coarse)) (n - 1) (m - 1) (fun i => marked keep (i + 1) - 1)).
    { refine (coarsens_mono _ _ _ _ _ _ _ _ _ _ _ (coarsens_by_index (variablenoflow_axis search (H0 := num_ord)) (variablenoflow_axis search (H0 := num_ord)) _ _ _ _ _ _ _ _ _ eq E2 E4 Hg _ _) _ _).
      + intros; split; exact I.
      + intros c c' r <- Hr. exact (HN c r Hr).
      + intros x y H. exact H.
      + intros b d H x _. exact (H x x eq_refl). }
    split; [exact HC|]. intros fine_cyclic RC. destruct HC as [C1 C2 C3 C4]. constructor; [exact C1 | exact C2 | exact C3|].
    intros x y [<- [r Hr]]. exists r. split; [exact Hr|].
    assert (Hends : variable_high (mkVariable coarse) = variable_high (mkVariable edges) /\ variable_low (mkVariable coarse) = variable_low (mkVariable edges)).
    { unfold variable_high, variable_low. cbn [v_edges]. unfold coarse. rewrite <- (select_rev keep edges Hkeep).
      rewrite (select_head keep edges Hkeep Hf). rewrite select_head; [split; reflexivity | rewrite !rev_length; exact Hkeep | rewrite nth_error_rev_0; exact Hla]. }
    unfold fine_cyclic, variablecyclic_index in Hr. cbn [vc_axis vnf_axis] in Hr. apply obind_val in Hr as (hi & Ehi & Hr). apply obind_val in Hr as (lo & Elo & Hr).
    apply obind_val in Hr as (w & Ew & Hr). destruct (C4 w w eq_refl) as (r' & Er' & Lr' & Er2). change (variablenoflow_index search (H0 := num_ord) (mkVariableNoFlow (mkVariable edges)) w = Val r') in Er'.
    rewrite Hr in Er'. injection Er' as <-. split; [exact Lr'|].
    cbn [index variablecyclic_axis]. unfold variablecyclic_index. cbn [vc_axis vnf_axis]. rewrite (proj1 Hends), (proj2 Hends), Ehi, Elo. cbn [obind]. rewrite Ew. cbn [obind]. exact Er2.
Qed.
Print Assumptions C87_variable.

(** Case: [Uniform::with_step_size(6, 0, 10)] over [i32] and three times coarser
    [Uniform::with_step_size(2, 0, 30)], both filled with the same five values; the
    8 bins of the fine histogram, joined, give the 4 bins of the coarse one. Edges
    0, 1, 2, 4, 8 of which 0, 2, 8 are kept. *)
Example C87_nonvacuous : forall B : Build,
  let t := signed 64 in let ops := int_ops (signed 32) in
  let AX : Axis (Uniform Z) := uniform_axis ops in
  let fine := mkUniform 6 0%Z 60%Z 10%Z in let coarse := mkUniform 2 0%Z 60%Z 30%Z in
  let calls := [@CallFill _ Z Empty_set AX 25; CallFillWith 31 10; CallFill 29; CallFillWith 59 100; CallFillWith (-4) 1000]%Z in
  let filled (a : Uniform Z) := (let! g := @vec_new _ Z AX (int_default t) a in
      @vec_calls _ Z Z Empty_set AX (int_fill t) (int_fill_with t) no_weighted g calls) in
  (valid_int_params (signed 32) (2 * 3) 0 10 /\ fits (signed 32) (Z.of_N (2 * 3) * (Z.of_N (2 * 3) * 10)))
  /\ uniform_with_step_size ops 6 0%Z 10%Z = Val (Ok fine) /\ uniform_with_step_size ops 2 0%Z 30%Z = Val (Ok coarse)
  /\ Forall2 (same_call AX AX (fun x y => x = y /\ fits (signed 32) x)) calls calls
  /\ filled fine = Val (mkVecHist fine [1000; 0; 0; 2; 10; 0; 100; 0]%Z)
  /\ filled coarse = Val (mkVecHist coarse [1000; 2; 110; 0]%Z)
  /\ map (join_inner 3) (range 8) = [0; 1; 1; 1; 2; 2; 2; 3]
  /\ select [true; false; true; false; true] [0; 1; 2; 4; 8]%Z = [0; 2; 8]%Z
  /\ map (marked [true; false; true; false; true]) (range 6) = [0; 1; 1; 2; 2; 3]
  /\ StronglySorted (fun x y => @lt_ _ (@num_ord _ ops) x y = true) [0; 1; 2; 4; 8]%Z.
Proof.
  intros B t ops AX fine coarse calls filled.
  split. { split; [constructor|]; unfold fits; try (destruct B as [? []]; vm_compute; intuition discriminate). exists 32%Z. split; [lia | tauto]. }
  split; [destruct B as [[] []]; vm_compute; reflexivity|]. split; [destruct B as [[] []]; vm_compute; reflexivity|].
  split. { repeat (constructor; [constructor; split; [reflexivity | split; vm_compute; discriminate]|]). constructor. }
  split; [destruct B as [[] []]; vm_compute; reflexivity|]. split; [destruct B as [[] []]; vm_compute; reflexivity|].
  split; [vm_compute; reflexivity|]. split; [reflexivity|]. split; [vm_compute; reflexivity|].
  repeat constructor.
Qed.
