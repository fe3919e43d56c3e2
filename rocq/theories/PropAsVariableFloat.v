(** * PropAsVariableFloat: Uniform axes over a grid of floats as Variable axes (C84). *)
From Coq Require Import List ZArith NArith Bool Lia Reals Lra Sorted Permutation ZifyN ZifyNat.
From Flocq Require Import Core IEEE754.BinarySingleNaN.
From Verif Require Import Base BaseFacts Num Float Axis StdAlgo StdContract OrdLaws FloatOrd FloatFacts FloatSpec Uniform FloatUniform VarAxis Spec Axes AxesSpec FillSpec
  Value VecHist HashHist HistSpec Program SimSpec SimFacts PropUniformInt PropUniformFloatEx PropAxes PropVariable PropExactAxes PropBuilds GridSpec FloatGrid PropFloatGrid
  PropEmbed PropEmbedFloat PropAsVariable.
Import ListNotations.
Open Scope N_scope.

Lemma forall2_length {X Y} {R : X -> Y -> Prop} {l l'} : Forall2 R l l' -> length l = length l'.
Proof. induction 1; cbn; congruence. Qed.

Lemma forall2_nth {X Y} {R : X -> Y -> Prop} {l l'} : Forall2 R l l' -> forall k x y, nth_error l k = Some x -> nth_error l' k = Some y -> R x y.
Proof.
  intros H. induction H as [|a b l l' Ha H IH]; intros [|k] x y Hx Hy; try discriminate.
  - cbn in Hx, Hy. injection Hx as <-. injection Hy as <-. exact Ha.
  - exact (IH k x y Hx Hy).
Qed.

Section Floats.
Context (prec emax : Z) (P : Prec_gt_0 prec) (E : Prec_lt_emax prec emax) {B : Build}.
Context (sort : sorter) (search : searcher) (HSort : sort_contract sort) (HSearch : search_contract search).
Context (HF : covered_format prec emax) (e : Z).
Notation flt := (binary_float prec emax).
Notation ops := (float_ops prec emax P E).
Notation ord := (@num_ord flt ops).

Lemma on_same x y n : grid_value e (x : flt) n -> grid_value e (y : flt) n -> same_number x y.
Proof using. clear. intros [Fx Vx] [Fy Vy]. left. split; [exact Fx|]. split; [exact Fy | congruence]. Qed.

Lemma number_num (x : flt) n : grid_value e x n -> is_nan x = false.
Proof using. clear. intros [F _]. destruct x; try discriminate; reflexivity. Qed.

Lemma in_interval_same (b b' : BinInterval flt) x x' : interval_rel same_number b b' -> same_number x x' -> in_interval ord b x = in_interval ord b' x'.
Proof using.
  intros Hb Hx. pose proof (proj1 C83_comparisons prec emax P E prec emax P E B) as HC. unfold compare_alike in HC.
  destruct b as [s|s|s t], b' as [s'|s'|s' t']; cbn [interval_rel] in Hb; try contradiction; cbn [in_interval]; unfold lt_, ge_.
  - rewrite (HC _ _ _ _ Hx Hb). reflexivity.
  - rewrite (HC _ _ _ _ Hx Hb). reflexivity.
  - destruct Hb as [Hs Ht]. rewrite (HC _ _ _ _ Hx Hs), (HC _ _ _ _ Hx Ht). reflexivity.
Qed.

Lemma edges_lt (l : list flt) zs : Forall2 (grid_value e) l zs -> StronglySorted Z.lt zs -> StronglySorted (fun x y => @lt_ _ ord x y = true) l.
Proof using.
  clear - P E B. intros HL. induction HL as [|x z l zs Hx HL IH]; intros Hs; [constructor|]. apply StronglySorted_inv in Hs as [Hs Hz].
  constructor; [exact (IH Hs)|]. clear IH Hs. induction HL as [|y z' l zs Hy HL IH]; [constructor|]. inversion Hz as [|? ? Hz0 Hzs]; subst.
  constructor; [|exact (IH Hzs)]. rewrite (grid_lt prec emax P E e x y z z' Hx Hy). apply Z.ltb_lt. exact Hz0.
Qed.

Context (u : Uniform flt) (L S : Z) (edges : list flt).
Context (HG : grid_params prec emax e (u_num u) L S) (HWW : (Z.of_N (u_num u) * (Z.of_N (u_num u) * S) <= 2 ^ prec)%Z).
Context (Al : grid_value e (u_low u) L) (Ah : grid_value e (u_high u) (L + Z.of_N (u_num u) * S)) (As : grid_value e (u_step u) S).
Context (HE : Forall2 (grid_value e) edges (uniform_edges (u_num u) L S)).
Notation num := (u_num u).
Notation v := (mkVariable edges).

Lemma f_length : N.of_nat (length edges) = num + 1.
Proof using HE. clear - HE. rewrite (forall2_length HE), edges_length. lia. Qed.
Lemma f_nth k x : nth_error edges k = Some x -> grid_value e x (L + Z.of_nat k * S).
Proof using HE.
  clear - HE. intros Hk. assert (Hl : (k < length edges)%nat) by (apply nth_error_Some; congruence).
  rewrite (forall2_length HE), edges_length in Hl. pose proof (edges_nth num L S k ltac:(lia)) as Hz.
  exact (forall2_nth HE k x _ Hk Hz).
Qed.
Lemma f_sorted : StronglySorted (fun x y => @lt_ _ ord x y = true) edges.
Proof using HE HG. destruct HG as []. exact (edges_lt edges _ HE (edges_sorted num L S ltac:(lia))). Qed.
Lemma f_params : 2 <= N.of_nat (length edges) /\ N.of_nat (length edges) + 1 < usize_mod.
Proof using HE HG. destruct HG as []. rewrite f_length. lia. Qed.
Lemma f_num x : In x edges -> float_is_num prec emax x = true.
Proof using HE.
  clear - HE. intros Hx. apply In_nth_error in Hx as [k Hk]. pose proof (number_num x _ (f_nth k x Hk)) as H. destruct x; try discriminate H; reflexivity.
Qed.
Lemma f_made input : Permutation input edges -> variable_new sort (H0 := ord) input = Val (Ok v).
Proof using HE HG HSort.
  intros HP. destruct f_params as [H1 _].
  destruct (C12_variable_new B sort HSort flt ord (float_is_num prec emax) (float_ord_laws prec emax P E) input) as [_ [H _]].
  destruct H as [[l] [Ha [Hp Hs]]]; [rewrite (Permutation_length HP); lia | intros x Hx; apply f_num; exact (Permutation_in x HP Hx) |]. cbn [v_edges] in *.
  rewrite Ha. do 3 f_equal. symmetry. apply (sorted_unique ord (float_is_num prec emax) (float_ord_laws prec emax P E)); [exact f_sorted | | exact Hs].
  exact (Permutation_trans (Permutation_sym HP) Hp).
Qed.
Lemma f_exact : exact_axis (variable_axis search (H0 := ord)) v (num + 2) (fun _ => True) (in_interval ord)
  /\ exact_axis (variablenoflow_axis search (H0 := ord)) (mkVariableNoFlow v) num (fun _ => True) (in_interval ord).
Proof using HE HG HSearch.
  destruct f_params as [H1 H2].
  pose proof (C53_variable_exact B search HSearch flt ord _ (float_ord_laws prec emax P E) edges f_num f_sorted H1 H2) as H.
  rewrite f_length in H. replace (num + 1 + 1) with (num + 2) in H by lia. replace (num + 1 - 1) with num in H by lia. exact H.
Qed.

(** The bins that the two axes report are the same numbers. *)
Lemma f_bin i : exists b b', uniform_bin ops u i = Val b /\ variable_bin v i = Val b' /\ option_rel (interval_rel same_number) b b'.
Proof using HE HG HWW HF Al Ah.
  pose proof HG as [G1 G2 G3 G4 G5 G6 G7]. pose proof HF as [Hp He].
  destruct f_params as [H1 H2]. destruct (C13_variable_bins B flt edges H1 H2) as [_ [V0 [V1 [V2 V3]]]]. rewrite f_length in *.
  destruct (N.eq_dec i 0) as [->|N0].
  { destruct V0 as [x [Hx V0]]. exists (Some (Underflow (u_low u))), (Some (Underflow x)). split; [reflexivity|]. split; [exact V0|].
    cbn. apply (on_same _ _ L Al). pose proof (f_nth 0 x Hx) as H. replace (L + Z.of_nat 0 * S)%Z with L in H by lia. exact H. }
  destruct (N.eq_dec i (num + 1)) as [->|N1].
  { destruct V2 as [x [Hx V2]]. exists (Some (Overflow (u_high u))), (Some (Overflow x)).
    split; [unfold uniform_bin; rewrite uadd_ok by lia; cbn [obind]; rewrite N.eqb_refl; destruct (N.eqb_spec (num + 1) 0); [lia | reflexivity]|]. split; [exact V2|].
    cbn. apply (on_same _ _ _ Ah). pose proof (f_nth _ x Hx) as H. pose proof f_length as Hl.
    replace (Z.of_nat (length edges - 1)) with (Z.of_N num) in H by lia. exact H. }
  destruct (N.le_gt_cases (num + 2) i) as [Hi|Hi].
  { exists None, None. split; [|split; [apply V3; lia | exact I]]. unfold uniform_bin. rewrite uadd_ok by lia. cbn [obind].
    destruct (N.eqb_spec i 0); [lia|]. destruct (N.eqb_spec i (num + 1)); [lia|]. destruct (N.ltb_spec (num + 1) i); [reflexivity | lia]. }
  destruct (V1 i) as [x [y [Hx [Hy V]]]]; [lia|].
  destruct (grid_bin prec emax P E Hp He e G1 u L S Al Ah ltac:(lia) G4 G5 G3 HWW G6 G7 (i - 1) ltac:(lia)) as [x' [y' [Eb [Vx Vy]]]].
  replace (i - 1 + 1) with i in Eb by lia. exists (Some (Bin x' y')), (Some (Bin x y)). split; [exact Eb|]. split; [exact V|]. cbn.
  pose proof (f_nth _ x Hx) as Gx. pose proof (f_nth _ y Hy) as Gy.
  split; eapply on_same; [exact Vx | | exact Vy |].
  - replace (Z.of_N (i - 1)) with (Z.of_nat (N.to_nat i - 1)) by lia. exact Gx.
  - replace (Z.of_N (i - 1) + 1)%Z with (Z.of_nat (N.to_nat i)) by lia. exact Gy.
Qed.
Lemma f_num_bins : uniform_num_bins u = variable_num_bins v.
Proof using HE HG.
  unfold uniform_num_bins, variable_num_bins. cbn [v_edges]. rewrite f_length. destruct HG as []. rewrite !uadd_ok by lia. f_equal. lia.
Qed.

(** Coordinates for which the Uniform axis is exact. *)
Lemma f_index_where ok : exact_axis (uniform_axis ops) u (num + 2) ok (in_interval ord) ->
  forall x x', same_number x x' -> ok x -> uniform_index ops u x = variable_index search (H0 := ord) v x'.
Proof using HE HG HWW HF Al Ah HSearch.
  intros HX x x' Hxx Hx.
  refine (C84_determined_by_bins (uniform_axis ops) (variable_axis search (H0 := ord)) u v (num + 2) _ _ _ _
    (same_number : @Coordinate _ (uniform_axis ops) -> @Coordinate _ (variable_axis search (H0 := ord)) -> Prop) HX (proj1 f_exact) _ x x' Hxx Hx I).
  intros i b1 b2 x1 x2 Hi E1 E2 Hr _ _. destruct (f_bin i) as [b [b' [F1 [F2 HR]]]].
  pose proof (eq_trans (eq_sym E1) F1) as Q1. pose proof (eq_trans (eq_sym E2) F2) as Q2. injection Q1 as <-. injection Q2 as <-.
  exact (in_interval_same b1 b2 x1 x2 HR Hr).
Qed.
Lemma f_index x x' : same_number x x' -> on_grid e x -> uniform_index ops u x = variable_index search (H0 := ord) v x'.
Proof using HE HG HWW HF Al Ah As HSearch.
  intros Hxx Hx. refine (f_index_where (on_grid e) _ x x' Hxx Hx).
  exact (exact_grid_uniform prec emax P E HF e u L S HG Al Ah HWW _ (on_grid_binned prec emax P E HF e u L S HG Al Ah As)).
Qed.
Lemma f_noflow_index x x' : uniform_index ops u x = variable_index search (H0 := ord) v x' ->
  uniformnoflow_index ops (mkUniformNoFlow u) x = variablenoflow_index search (H0 := ord) (mkVariableNoFlow v) x'.
Proof using HE HG. intros Hx. unfold uniformnoflow_index, variablenoflow_index. cbn [unf_axis vnf_axis]. rewrite Hx, f_num_bins. reflexivity. Qed.
Lemma f_noflow_num_bins : uniformnoflow_num_bins (mkUniformNoFlow u) = variablenoflow_num_bins (mkVariableNoFlow v).
Proof using HE HG. unfold uniformnoflow_num_bins, variablenoflow_num_bins. cbn [unf_axis vnf_axis]. rewrite f_num_bins. reflexivity. Qed.
Lemma f_noflow_bin i : i < num -> exists b b', uniformnoflow_bin ops (mkUniformNoFlow u) i = Val b /\ variablenoflow_bin (mkVariableNoFlow v) i = Val b' /\ option_rel (interval_rel same_number) b b'.
Proof using HE HG HWW HF Al Ah.
  intros Hi. destruct HG as []. destruct (f_bin (i + 1)) as [b [b' [E1 [E2 HR]]]]. unfold uniformnoflow_bin, variablenoflow_bin. cbn [unf_axis vnf_axis].
  rewrite !uadd_ok by lia. cbn [obind]. rewrite E1, E2. cbn [obind].
  destruct b as [[s|s|s t]|], b' as [[s'|s'|s' t']|]; cbn in HR; try contradiction; (eexists; eexists; split; [reflexivity|]; split; [reflexivity|]; cbn; auto).
Qed.
Lemma f_noflow_bin_refines i : refines (option_rel (interval_rel same_number)) (uniformnoflow_bin ops (mkUniformNoFlow u) i) (variablenoflow_bin (mkVariableNoFlow v) i).
Proof using HE HG HWW HF Al Ah.
  unfold uniformnoflow_bin, variablenoflow_bin. cbn [unf_axis vnf_axis]. apply (refines_bind eq); [apply refines_refl|]. intros j ? _ _ <-.
  destruct (f_bin j) as [b [b' [E1 [E2 HR]]]]. rewrite E1, E2. cbn [obind].
  destruct b as [[s|s|s t]|], b' as [[s'|s'|s' t']|]; cbn in HR; try contradiction; apply refines_val; cbn; auto.
Qed.
Lemma f_ends : exists lo hi, variable_low v = Val lo /\ variable_high v = Val hi /\ grid_value e lo L /\ grid_value e hi (L + Z.of_N num * S).
Proof using HE.
  clear - HE. pose proof f_length as Hl. unfold variable_low, variable_high. cbn [v_edges].
  destruct (nth_error edges 0) as [lo|] eqn:Hlo; [|apply nth_error_None in Hlo; lia].
  destruct (nth_error (rev edges) 0) as [hi|] eqn:Hhi; [|apply nth_error_None in Hhi; rewrite rev_length in Hhi; lia].
  exists lo, hi. split; [reflexivity|]. split; [reflexivity|]. split.
  - pose proof (f_nth 0 lo Hlo) as H. replace (L + Z.of_nat 0 * S)%Z with L in H by lia. exact H.
  - assert (Hn : nth_error edges (length edges - 1) = Some hi).
    { clear - Hhi. destruct edges as [|x l] using rev_ind; [discriminate|]. rewrite rev_app_distr in Hhi. cbn in Hhi. injection Hhi as <-.
      rewrite app_length. cbn. rewrite nth_error_app2 by lia. replace (length l + 1 - 1 - length l)%nat with 0%nat by lia. reflexivity. }
    pose proof (f_nth _ hi Hn) as H. replace (Z.of_nat (length edges - 1)) with (Z.of_N num) in H by lia. exact H.
Qed.
Lemma f_cyclic_index x x' X : grid_value e x X -> grid_value e x' X -> (Z.abs (X - L) <= 2 ^ prec)%Z ->
  uniformcyclic_index ops (mkUniformCyclic (mkUniformNoFlow u)) x = variablecyclic_index search ops (mkVariableCyclic (mkVariableNoFlow v)) x'.
Proof using HE HG HWW HF Al Ah As HSearch.
  intros Hx Hx' HX. pose proof HG as [G1 G2 G3 G4 G5 G6 G7]. pose proof HF as [Hp He].
  destruct f_ends as [lo [hi [El [Eh [Gl Gh]]]]].
  unfold uniformcyclic_index, variablecyclic_index. cbn [uc_axis vc_axis unf_axis vnf_axis]. rewrite El, Eh. cbn [obind].
  destruct (grid_wrap prec emax P E Hp He e G1 u L S Al Ah ltac:(lia) G4 G5 G6 G7 x X Hx HX) as [y [Ey Vy]].
  destruct (grid_wrap prec emax P E Hp He e G1 (mkUniform num lo hi (u_step u)) L S Gl Gh ltac:(cbn; lia) G4 G5 G6 G7 x' X Hx' HX) as [y' [Ey' Vy']].
  cbn [u_low u_high u_num] in Ey', Vy'. rewrite Ey, Ey'. cbn [obind]. apply f_noflow_index. apply f_index; [exact (on_same _ _ _ Vy Vy')|].
  intros _. destruct Vy as [_ Vy]. eauto.
Qed.
End Floats.

(** The bins [0 .. n-1] of two axes are the same numbers. *)
Definition bins_agree {T1 T2} (R : T1 -> T2 -> Prop) (n : N) (bin1 : N -> outcome (option (BinInterval T1))) (bin2 : N -> outcome (option (BinInterval T2))) : Prop :=
  forall i, i < n -> exists b b', bin1 i = Val (Some b) /\ bin2 i = Val (Some b') /\ interval_rel R b b'.

(** C84. Over a grid of floats (low, bin width and coordinates multiples of a power of
    two, within the mantissa): the Uniform axis, made with either constructor, and the
    Variable axis over its edges have the same bins and number every coordinate on
    the grid alike, and every infinity and NaN; so do the axes without flow bins, and the
    cyclic ones for coordinates at most [2^prec] grid units away from [low]. *)
Theorem C84_floats : forall (prec emax : Z) (P : Prec_gt_0 prec) (E : Prec_lt_emax prec emax) (B : Build) (sort : sorter) (search : searcher)
  (e : Z) (num : N) (low high step : binary_float prec emax) (L S : Z) (edges input : list (binary_float prec emax)),
  let ops := float_ops prec emax P E in let ord := @num_ord _ ops in
  sort_contract sort -> search_contract search ->
  covered_format prec emax -> grid_params prec emax e num L S -> (Z.of_N num * (Z.of_N num * S) <= 2 ^ prec)%Z ->
  grid_value e low L -> grid_value e high (L + Z.of_N num * S) -> grid_value e step S ->
  Forall2 (grid_value e) edges (uniform_edges num L S) -> Permutation input edges ->
  forall u, uniform_new ops num low high = Val (Ok u) \/ uniform_with_step_size ops num low step = Val (Ok u) ->
  exists v, variable_new sort (H0 := ord) input = Val (Ok v) /\ v_edges v = edges
  /\ (uniform_num_bins u = variable_num_bins v
      /\ bins_agree same_number (num + 2) (uniform_bin ops u) (variable_bin v)
      /\ forall x, on_grid e x -> uniform_index ops u x = variable_index search (H0 := ord) v x)
  /\ (let u := mkUniformNoFlow u in let v := mkVariableNoFlow v in
      variablenoflow_new sort (H0 := ord) input = Val (Ok v)
      /\ uniformnoflow_num_bins u = variablenoflow_num_bins v
      /\ bins_agree same_number num (uniformnoflow_bin ops u) (variablenoflow_bin v)
      /\ forall x, on_grid e x -> uniformnoflow_index ops u x = variablenoflow_index search (H0 := ord) v x)
  /\ (let u := mkUniformCyclic (mkUniformNoFlow u) in let v := mkVariableCyclic (mkVariableNoFlow v) in
      variablecyclic_new sort ops input = Val (Ok v)
      /\ forall x X, grid_value e x X -> (Z.abs (X - L) <= 2 ^ prec)%Z -> uniformcyclic_index ops u x = variablecyclic_index search ops v x).
Proof.
  intros prec emax P E B sort search e num low high step L S edges input. cbv zeta. intros HSort HSearch HF HG HWW Hl Hh Hs HE HP u Hu.
  pose proof HF as [Hp He]. pose proof HG as [G1 G2 G3 G4 G5 G6 G7].
  assert (Hfields : u_num u = num /\ grid_value e (u_low u) L /\ grid_value e (u_high u) (L + Z.of_N num * S) /\ grid_value e (u_step u) S).
  { destruct Hu as [Hu|Hu].
    - destruct (grid_new prec emax P E Hp He e G1 num low high L S Hl Hh ltac:(lia) G4 G5) as [a [Ha [An [Al [Ah As]]]]].
      pose proof (eq_trans (eq_sym Ha) Hu) as Q. injection Q as <-. rewrite Al, Ah. auto.
    - destruct (grid_step prec emax P E Hp He e G1 num low step L S Hl Hs ltac:(lia) G4 G5 G7) as [a [Ha [An [Al [Ah As]]]]].
      pose proof (eq_trans (eq_sym Ha) Hu) as Q. injection Q as <-. rewrite Al, As. auto. }
  destruct Hfields as [<- [Al [Ah As]]].
  pose proof (f_made prec emax P E sort HSort e u L S edges HG HE input HP) as Hv.
  assert (HB : forall x, same_number (x : binary_float prec emax) x).
  { intros [s|s| |s m ex Hb]; unfold same_number; [left; auto | right; right; eauto | right; left; auto | left; auto]. }
  exists (mkVariable edges). split; [exact Hv|]. split; [reflexivity|]. split; [|split].
  - split; [exact (f_num_bins prec emax e u L S edges HG HE)|]. split.
    + intros i Hi. destruct (f_bin prec emax P E HF e u L S edges HG HWW Al Ah HE i) as [b [b' [E1 [E2 HR]]]].
      destruct (C20_uniform_float_has_bins B prec emax P E u G3) as [[_ HB2] _]. destruct (HB2 i Hi) as [b0 Hb0]. cbn [bin uniform_axis] in Hb0.
      rewrite E1 in Hb0. injection Hb0 as ->. destruct b' as [b'|]; [|contradiction]. exists b0, b'. auto.
    + intros x Hx. exact (f_index prec emax P E search HSearch HF e u L S edges HG HWW Al Ah As HE x x (HB x) Hx).
  - split; [unfold variablenoflow_new; rewrite Hv; reflexivity|]. split; [exact (f_noflow_num_bins prec emax e u L S edges HG HE)|]. split.
    + intros i Hi. destruct (f_noflow_bin prec emax P E HF e u L S edges HG HWW Al Ah HE i Hi) as [b [b' [E1 [E2 HR]]]].
      destruct (C20_uniform_float_has_bins B prec emax P E u G3) as [_ [[_ HB2] _]]. destruct (HB2 i Hi) as [b0 Hb0]. cbn [bin uniformnoflow_axis] in Hb0.
      rewrite E1 in Hb0. injection Hb0 as ->. destruct b' as [b'|]; [|contradiction]. exists b0, b'. auto.
    + intros x Hx. apply (f_noflow_index prec emax P E search e u L S edges HG HE).
      exact (f_index prec emax P E search HSearch HF e u L S edges HG HWW Al Ah As HE x x (HB x) Hx).
  - split; [unfold variablecyclic_new, variablenoflow_new; rewrite Hv; reflexivity|]. intros x X Hx HX.
    exact (f_cyclic_index prec emax P E search HSearch HF e u L S edges HG HWW Al Ah As HE x x X Hx Hx HX).
Qed.
Print Assumptions C84_floats.

(** From zero on, with a power of two as bin width: the two axes number EVERY float
    alike, on the grid or not. *)
Theorem C84_floats_from_zero : forall (prec emax : Z) (P : Prec_gt_0 prec) (E : Prec_lt_emax prec emax) (B : Build) (sort : sorter) (search : searcher)
  (e : Z) (num : N) (low high step : binary_float prec emax) (edges input : list (binary_float prec emax)),
  let ops := float_ops prec emax P E in let ord := @num_ord _ ops in
  sort_contract sort -> search_contract search ->
  covered_format prec emax -> grid_exponent prec emax e -> (1 <= num)%N -> (num + 2 < usize_mod)%N -> (Z.of_N num * Z.of_N num <= 2 ^ prec)%Z ->
  grid_value e low 0 -> grid_value e high (Z.of_N num) -> grid_value e step 1 ->
  Forall2 (grid_value e) edges (uniform_edges num 0 1) -> Permutation input edges ->
  forall u, uniform_new ops num low high = Val (Ok u) \/ uniform_with_step_size ops num low step = Val (Ok u) ->
  exists v, variable_new sort (H0 := ord) input = Val (Ok v)
  /\ (forall x, uniform_index ops u x = variable_index search (H0 := ord) v x)
  /\ (forall x, uniformnoflow_index ops (mkUniformNoFlow u) x = variablenoflow_index search (H0 := ord) (mkVariableNoFlow v) x).
Proof.
  intros prec emax P E B sort search e num low high step edges input. cbv zeta. intros HSort HSearch HF G1 G2 G3 Hsq Hl Hh Hs HE HP u Hu.
  pose proof HF as [Hp He].
  assert (HnN : (Z.of_N num <= 2 ^ prec)%Z) by nia.
  assert (HG : grid_params prec emax e num 0 1).
  { constructor; try assumption; try lia. }
  assert (Hh' : grid_value e high (0 + Z.of_N num * 1)) by (replace (0 + Z.of_N num * 1)%Z with (Z.of_N num) by lia; exact Hh).
  assert (HWW : (Z.of_N num * (Z.of_N num * 1) <= 2 ^ prec)%Z) by lia.
  destruct (C80_origin_exact prec emax P E B e num low high step HF G1 G2 G3 Hsq Hl Hh Hs) as [[a1 [_ [Q1 [_ [X1 _]]]]] [a2 [_ [Q2 [_ [X2 _]]]]]].
  assert (HX : exact_axis (uniform_axis (float_ops prec emax P E)) u (num + 2) (fun _ => True) (in_interval (@num_ord _ (float_ops prec emax P E)))).
  { destruct Hu as [Hu|Hu]; [pose proof (eq_trans (eq_sym Q1) Hu) as Q | pose proof (eq_trans (eq_sym Q2) Hu) as Q]; injection Q as <-; assumption. }
  assert (Hfields : u_num u = num /\ grid_value e (u_low u) 0 /\ grid_value e (u_high u) (0 + Z.of_N num * 1) /\ grid_value e (u_step u) 1).
  { destruct HG as [_ _ _ G4 G5 G6 G7]. destruct Hu as [Hu|Hu].
    - destruct (grid_new prec emax P E Hp He e G1 num low high 0 1 Hl Hh' ltac:(lia) G4 G5) as [a [Ha [An [Al [Ah As]]]]].
      pose proof (eq_trans (eq_sym Ha) Hu) as Q. injection Q as <-. rewrite Al, Ah. auto.
    - destruct (grid_step prec emax P E Hp He e G1 num low step 0 1 Hl Hs ltac:(lia) G4 G5 G7) as [a [Ha [An [Al [Ah As]]]]].
      pose proof (eq_trans (eq_sym Ha) Hu) as Q. injection Q as <-. rewrite Al, As. auto. }
  destruct Hfields as [<- [Al [Ah As]]].
  assert (HB : forall x, same_number (x : binary_float prec emax) x).
  { intros [s|s| |s m ex Hb]; unfold same_number; [left; auto | right; right; eauto | right; left; auto | left; auto]. }
  exists (mkVariable edges). split; [exact (f_made prec emax P E sort HSort e u 0 1 edges HG HE input HP)|].
  assert (HI : forall x, uniform_index (float_ops prec emax P E) u x = variable_index search (H0 := @num_ord _ (float_ops prec emax P E)) (mkVariable edges) x).
  { intros x. exact (f_index_where prec emax P E search HSearch HF e u 0 1 edges HG HWW Al Ah HE _ HX x x (HB x) I). }
  split; [exact HI|]. intros x. exact (f_noflow_index prec emax P E search e u 0 1 edges HG HE x x (HI x)).
Qed.
Print Assumptions C84_floats_from_zero.

(** Case: [Uniform::new(4, -1.0, 2.0)] and its edges -1, -1/4, 1/2, 5/4, 2 in units of 1/4. *)
Definition ex84_edges : list f64 := [f64_lit (-4) (-2); f64_lit (-1) (-2); f64_lit 2 (-2); f64_lit 5 (-2); f64_lit 8 (-2)].
Example C84_floats_nonvacuous : forall B : Build,
  grid_params 53 1024 (-2) 4 (-4) 3 /\ (Z.of_N 4 * (Z.of_N 4 * 3) <= 2 ^ 53)%Z
  /\ grid_value (-2) (f64_lit (-4) (-2)) (-4) /\ grid_value (-2) (f64_lit 8 (-2)) (-4 + Z.of_N 4 * 3) /\ grid_value (-2) (f64_lit 3 (-2)) 3
  /\ Forall2 (grid_value (-2)) ex84_edges (uniform_edges 4 (-4) 3)
  /\ (exists u, uniform_new f64_ops 4 (f64_lit (-4) (-2)) (f64_lit 8 (-2)) = Val (Ok u) /\ uniform_index f64_ops u (f64_lit 5 (-2)) = Val (Some 4))
  /\ variable_index bsearch_early (H0 := @num_ord _ f64_ops) (mkVariable ex84_edges) (f64_lit 5 (-2)) = Val (Some 4).
Proof.
  intros B.
  assert (HV : forall m : Z, (Z.abs m <= 2 ^ 53)%Z -> grid_value (-2) (f64_lit m (-2)) m).
  { intros m Hm. apply f64_grid; [exact Hm | split; lia]. }
  split. { constructor; try lia; [split; lia | pose proof (usize_mod_large); lia]. }
  split; [lia|]. split; [apply HV; lia|]. split; [apply HV; lia|]. split; [apply HV; lia|].
  split. { cbn [uniform_edges ex84_edges]. repeat (constructor; [apply HV; cbn; lia|]). constructor. }
  split. { eexists. split; [reflexivity|]. destruct B as [? []]; vm_compute; reflexivity. }
  destruct B as [? []]; vm_compute; reflexivity.
Qed.
