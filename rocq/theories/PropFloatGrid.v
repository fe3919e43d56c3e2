(** * PropFloatGrid: float uniform axes bin data on a grid exactly (C80). *)
From Coq Require Import List ZArith NArith Bool Lia Reals Lra ZifyN ZifyNat.
From Flocq Require Import Core IEEE754.BinarySingleNaN.
From Verif Require Import Base BaseFacts Num Float Axis Spec OrdLaws FloatOrd FloatFacts FloatSpec Uniform FloatUniform FloatUniformAcc
  PropUniformInt PropUniformFloatEx PropAxes FillSpec PropExactAxes GridSpec FloatGrid.
Import ListNotations.
Open Scope N_scope.

(** [Uniform::new] on a grid, in either order of the bounds: accepted, and the index
    is exact for every coordinate on the grid (whatever its size). *)
Theorem C80_new_grid : forall (prec emax : Z) (P : Prec_gt_0 prec) (E : Prec_lt_emax prec emax) (B : Build) (e : Z)
  (num : N) (low high : binary_float prec emax) (L S : Z),
  covered_format prec emax -> grid_params prec emax e num L S ->
  grid_value e low L -> grid_value e high (L + Z.of_N num * S) ->
  exists a, uniform_new (float_ops prec emax P E) num low high = Val (Ok a)
    /\ uniform_new (float_ops prec emax P E) num high low = Val (Ok a)
    /\ uniform_num_bins a = Val (num + 2)
    /\ indexes_grid (uniform_index (float_ops prec emax P E) a) e num L S.
Proof.
  intros prec emax P E B e num low high L S [Hp He] [G1 G2 G3 G4 G5 G6 G7] Hl Hh.
  destruct (grid_new prec emax P E Hp He e G1 num low high L S Hl Hh ltac:(lia) G4 G5) as [a [Ha [An [Al [Ah As]]]]].
  exists a. split; [exact Ha|]. split.
  { rewrite (grid_new_swapped prec emax P E Hp He e num high low L S Hl Hh) by lia. exact Ha. }
  split; [unfold uniform_num_bins; rewrite An; apply uadd_ok; exact G3|].
  subst num low high. intros x X Hx. split; [|split].
  - intros HX. exact (grid_index_below prec emax P E e a L Hl x X Hx HX).
  - intros HX. apply (grid_index_above prec emax P E Hp e a L S Hl Hh) with X; assumption || lia.
  - intros i Hi HX. rewrite (grid_index_inside prec emax P E Hp He e G1 a L S Hl Hh As) with (X := X); try assumption; try lia; [|nia].
    replace ((X - L) / S)%Z with (Z.of_N i); [rewrite N2Z.id; reflexivity|]. apply Z.div_unique with (X - L - Z.of_N i * S)%Z; nia.
Qed.
Print Assumptions C80_new_grid.

(** The same for [Uniform::with_step_size]. *)
Theorem C80_step_grid : forall (prec emax : Z) (P : Prec_gt_0 prec) (E : Prec_lt_emax prec emax) (B : Build) (e : Z)
  (num : N) (low step : binary_float prec emax) (L S : Z),
  covered_format prec emax -> grid_params prec emax e num L S ->
  grid_value e low L -> grid_value e step S ->
  exists a, uniform_with_step_size (float_ops prec emax P E) num low step = Val (Ok a)
    /\ uniform_num_bins a = Val (num + 2)
    /\ indexes_grid (uniform_index (float_ops prec emax P E) a) e num L S.
Proof.
  intros prec emax P E B e num low step L S [Hp He] [G1 G2 G3 G4 G5 G6 G7] Hl Hs.
  destruct (grid_step prec emax P E Hp He e G1 num low step L S Hl Hs ltac:(lia) G4 G5 G7) as [a [Ha [An [Al [Ah As]]]]].
  exists a. split; [exact Ha|].
  split; [unfold uniform_num_bins; rewrite An; apply uadd_ok; exact G3|].
  subst num low step. intros x X Hx. split; [|split].
  - intros HX. exact (grid_index_below prec emax P E e a L Hl x X Hx HX).
  - intros HX. apply (grid_index_above prec emax P E Hp e a L S Hl Ah) with X; assumption || lia.
  - intros i Hi HX. rewrite (grid_index_inside prec emax P E Hp He e G1 a L S Hl Ah Hs) with (X := X); try assumption; try lia; [|nia].
    replace ((X - L) / S)%Z with (Z.of_N i); [rewrite N2Z.id; reflexivity|]. apply Z.div_unique with (X - L - Z.of_N i * S)%Z; nia.
Qed.
Print Assumptions C80_step_grid.

(** ** Exactness in the sense of C53: index and bins agree for all data on the grid. *)
Section Exact.
Variable prec emax : Z.
Context (P : Prec_gt_0 prec) (E : Prec_lt_emax prec emax) {B : Build}.
Context (HF : covered_format prec emax).
Notation flt := (binary_float prec emax).
Notation ops := (float_ops prec emax P E).
Notation ord := (@num_ord _ ops).
Context (e : Z) (a : Uniform flt) (L S : Z) (HG : grid_params prec emax e (u_num a) L S).
Context (Hl : grid_value e (u_low a) L) (Hh : grid_value e (u_high a) (L + Z.of_N (u_num a) * S)) (Hs : grid_value e (u_step a) S).
Context (HWW : (Z.of_N (u_num a) * (Z.of_N (u_num a) * S) <= 2 ^ prec)%Z).
Notation num := (u_num a).

(** A coordinate compares with the edges like an integer does. *)
Definition acts_as (x : flt) (X : Z) : Prop :=
  forall y Y, grid_value e y Y -> (Z.abs Y <= 2 ^ prec)%Z ->
    @lt_ _ ord x y = (X <? Y)%Z /\ @ge_ _ ord x y = (Y <=? X)%Z.

(** A coordinate that is binned like the integer [X]. *)
Definition binned_as (x : flt) (X : Z) : Prop :=
  acts_as x X /\ ((L <= X < L + Z.of_N num * S)%Z -> uniform_index ops a x = Val (Some (Z.to_N ((X - L) / S) + 1)%N)).

Lemma infinity_binned (s : bool) : exists X, binned_as (B754_infinity s) X.
Proof.
  destruct HG as [G1 G2 G3 G4 G5 G6 G7]. destruct HF as [Hp He]. destruct s.
  - exists (- 2 ^ prec - 1)%Z. split; [|intros; lia]. intros y Y [Fy Vy] HY.
    replace (_ <? Y)%Z with true by (symmetry; apply Z.ltb_lt; lia). replace (Y <=? _)%Z with false by (symmetry; apply Z.leb_gt; lia).
    destruct y as [sy|sy| |sy my ey Hby]; try discriminate Fy; split; reflexivity.
  - exists (2 ^ prec + 1)%Z. split; [|intros; lia]. intros y Y [Fy Vy] HY.
    replace (_ <? Y)%Z with false by (symmetry; apply Z.ltb_ge; lia). replace (Y <=? _)%Z with true by (symmetry; apply Z.leb_le; lia).
    destruct y as [sy|sy| |sy my ey Hby]; try discriminate Fy; split; reflexivity.
Qed.

Lemma on_grid_binned (x : flt) : on_grid e x -> x = B754_nan \/ exists X, binned_as x X.
Proof.
  intros Hx. pose proof HG as [G1 G2 G3 G4 G5 G6 G7]. pose proof HF as [Hp He].
  assert (Hfin : is_finite x = true -> exists X, binned_as x X).
  { intros Fx. destruct (Hx Fx) as [X HX]. assert (Hv : grid_value e x X) by (split; assumption).
    exists X. split; [intros y Y Hy _; split; [eapply grid_lt | eapply grid_ge]; eassumption|].
    intros HX2. apply (grid_index_inside prec emax P E Hp He e G1 a L S Hl Hh Hs); assumption || lia. }
  destruct x as [s|s| |s m ex Hb]; [right; apply Hfin; reflexivity | right; apply infinity_binned | left; reflexivity | right; apply Hfin; reflexivity].
Qed.

Lemma edge_small (i : N) : (i <= num)%N -> (Z.abs (L + Z.of_N i * S) <= 2 ^ prec)%Z.
Proof. destruct HG as [G1 G2 G3 G4 G5 G6 G7]. intros Hi. assert (0 <= Z.of_N i * S <= Z.of_N num * S)%Z by nia. lia. Qed.

(** The bins, read off. *)
Lemma bins_are (j : N) b : (j < num + 2)%N -> uniform_bin ops a j = Val (Some b) ->
  (j = 0%N /\ b = Underflow (u_low a)) \/ (j = (num + 1)%N /\ b = Overflow (u_high a))
  \/ exists i s t, j = (i + 1)%N /\ (i < num)%N /\ b = Bin s t
       /\ grid_value e s (L + Z.of_N i * S) /\ grid_value e t (L + (Z.of_N i + 1) * S).
Proof.
  destruct HG as [G1 G2 G3 G4 G5 G6 G7]. destruct HF as [Hp He]. intros Hj Hb.
  destruct (N.eq_dec j 0) as [->|J0]; [left; cbn in Hb; injection Hb as <-; auto|].
  destruct (N.eq_dec j (num + 1)) as [->|J1].
  { right. left. unfold uniform_bin in Hb. replace (num + 1 =? 0) with false in Hb by (symmetry; apply N.eqb_neq; lia).
    rewrite uadd_ok in Hb by lia. cbn [obind] in Hb. rewrite N.eqb_refl in Hb. injection Hb as <-. auto. }
  right. right. exists (j - 1)%N.
  destruct (grid_bin prec emax P E Hp He e G1 a L S Hl Hh ltac:(lia) G4 G5 G3 HWW G6 G7 (j - 1) ltac:(lia)) as [s [t [H1 [H2 H3]]]].
  replace (j - 1 + 1)%N with j in H1 by lia. rewrite H1 in Hb. injection Hb as <-.
  exists s, t. split; [lia|]. split; [lia|]. auto.
Qed.

Lemma mem_nan b : in_interval ord b (B754_nan : flt) = true -> exists s, b = Overflow s.
Proof. destruct b as [s|s|s t]; cbn; intros H; try discriminate H; eauto. Qed.

Lemma mem_acts (x : flt) X (j : N) b : acts_as x X -> (j < num + 2)%N -> uniform_bin ops a j = Val (Some b) ->
  in_interval ord b x =
    (if (j =? 0)%N then X <? L else if (j =? num + 1)%N then L + Z.of_N num * S <=? X
     else (L + (Z.of_N j - 1) * S <=? X) && (X <? L + Z.of_N j * S))%Z.
Proof.
  destruct HG as [G1 G2 G3 G4 G5 G6 G7]. intros HA Hj Hb. destruct (bins_are j b Hj Hb) as [[-> ->]|[[-> ->]|[i [s [t [-> [Hi [-> [Vs Vt]]]]]]]]]; cbn [in_interval].
  - destruct (HA _ _ Hl G6) as [-> _]. reflexivity.
  - destruct (HA _ _ Hh G7) as [-> _]. replace (num + 1 =? 0) with false by (symmetry; apply N.eqb_neq; lia).
    rewrite N.eqb_refl. rewrite Z.ltb_antisym, negb_involutive. reflexivity.
  - replace (i + 1 =? 0) with false by (symmetry; apply N.eqb_neq; lia).
    replace (i + 1 =? num + 1) with false by (symmetry; apply N.eqb_neq; lia).
    pose proof (edge_small i ltac:(lia)) as HB1. pose proof (edge_small (i + 1) ltac:(lia)) as HB2.
    replace (Z.of_N (i + 1)) with (Z.of_N i + 1)%Z in * by lia.
    destruct (HA _ _ Vs HB1) as [_ ->]. destruct (HA _ _ Vt HB2) as [-> _].
    replace (Z.of_N i + 1 - 1)%Z with (Z.of_N i) by lia. reflexivity.
Qed.

Lemma index_acts (x : flt) X : binned_as x X ->
  uniform_index ops a x = Val (Some (if (X <? L)%Z then 0%N else if (L + Z.of_N num * S <=? X)%Z then (num + 1)%N
                                     else (Z.to_N ((X - L) / S) + 1)%N)).
Proof.
  destruct HG as [G1 G2 G3 G4 G5 G6 G7]. destruct HF as [Hp He]. intros [HA Hv].
  destruct (Z.ltb_spec X L) as [H1|H1].
  - unfold uniform_index. destruct (HA _ _ Hl G6) as [-> _]. apply Z.ltb_lt in H1. rewrite H1. reflexivity.
  - destruct (Z.leb_spec (L + Z.of_N num * S) X) as [H2|H2].
    + unfold uniform_index. destruct (HA _ _ Hl G6) as [-> _]. destruct (HA _ _ Hh G7) as [_ ->].
      replace (X <? L)%Z with false by (symmetry; apply Z.ltb_ge; lia). apply Z.leb_le in H2. rewrite H2. rewrite uadd_ok by lia. reflexivity.
    + apply Hv. lia.
Qed.

Lemma place (X : Z) : (L <= X < L + Z.of_N num * S)%Z ->
  let q := ((X - L) / S)%Z in (0 <= q < Z.of_N num)%Z /\ (L + q * S <= X < L + (q + 1) * S)%Z.
Proof.
  destruct HG as [G1 G2 G3 G4 G5 G6 G7]. intros HX q. pose proof (Z.div_mod (X - L) S ltac:(lia)) as H1.
  pose proof (Z.mod_pos_bound (X - L) S ltac:(lia)) as H2. fold q in H1. split.
  - split; [apply Z.div_pos; lia | apply Z.div_lt_upper_bound; lia].
  - nia.
Qed.

(** Bins of the NoFlow axis. *)
Lemma noflow_bins_are (i : N) b : (i < num)%N -> uniformnoflow_bin ops (mkUniformNoFlow a) i = Val (Some b) ->
  exists s t, b = Bin s t /\ uniform_bin ops a (i + 1) = Val (Some b)
    /\ grid_value e s (L + Z.of_N i * S) /\ grid_value e t (L + (Z.of_N i + 1) * S).
Proof.
  pose proof HG as [G1 G2 G3 G4 G5 G6 G7]. intros Hi Hb.
  destruct (C09_noflow_bins B flt ops a G3) as [_ [Hnf _]]. rewrite Hnf in Hb by exact Hi.
  destruct (bins_are (i + 1) b ltac:(lia) Hb) as [[Hc _]|[[Hc _]|[i' [s [t [Hii [_ [-> [Vs Vt]]]]]]]]]; try lia.
  assert (i' = i) by lia. subst i'. exists s, t. auto.
Qed.

(** The cyclic axis. *)
Lemma grid_cyclic_index (x : flt) X : grid_value e x X -> (Z.abs (X - L) <= 2 ^ prec)%Z ->
  uniformcyclic_index ops (mkUniformCyclic (mkUniformNoFlow a)) x
    = Val (Some (Z.to_N (((X - L) mod (Z.of_N num * S)) / S)))
  /\ (Z.to_N (((X - L) mod (Z.of_N num * S)) / S) < num)%N.
Proof.
  clear HWW. pose proof HG as [G1 G2 G3 G4 G5 G6 G7]. pose proof HF as [Hp He]. intros Hx HX.
  assert (HW0 : (0 < Z.of_N num * S)%Z) by nia. pose proof (Z.mod_pos_bound (X - L) _ HW0) as Hm.
  set (M := ((X - L) mod (Z.of_N num * S))%Z) in *.
  assert (Hq : (0 <= M / S < Z.of_N num)%Z) by (split; [apply Z.div_pos; lia | apply Z.div_lt_upper_bound; lia]).
  split; [|lia].
  destruct (grid_wrap prec emax P E Hp He e G1 a L S Hl Hh ltac:(lia) G4 G5 G6 G7 x X Hx HX) as [y [Hy Vy]]. fold M in Vy.
  unfold uniformcyclic_index. cbn [uc_axis unf_axis]. rewrite Hy. cbn [obind].
  assert (Hi : uniform_index ops a y = Val (Some (Z.to_N (M / S) + 1)%N)).
  { rewrite (grid_index_inside prec emax P E Hp He e G1 a L S Hl Hh Hs ltac:(lia) G4 G5 G3 y _ Vy) by lia.
    replace (L + M - L)%Z with M by lia. reflexivity. }
  apply (C09_noflow_index B flt ops a y _ G3 Hi); [lia|]. right. exists (Z.to_N (M / S)). split; [reflexivity|]. lia.
Qed.

Lemma grid_cyclic_exact : exact_axis (uniformcyclic_axis ops) (mkUniformCyclic (mkUniformNoFlow a)) num
  (fun x => exists X, grid_value e x X /\ (Z.abs (X - L) <= 2 ^ prec)%Z) (in_interval_wrapped (IZR (Z.of_N num * S) * bpow radix2 e)).
Proof.
  pose proof HG as [G1 G2 G3 G4 G5 G6 G7]. pose proof HF as [Hp He].
  destruct (C20_uniform_float_has_bins B prec emax P E a G3) as [_ [_ HB]].
  constructor; [exact HB| |].
  - intros x [X [Hx HX]]. destruct (grid_cyclic_index x X Hx HX) as [H1 H2]. eexists. split; [exact H1|]. intros j [= <-]. exact H2.
  - intros x i b [X [Hx HX]] Hi Hb. cbn [bin uniformcyclic_axis uc_axis] in Hb.
    destruct (noflow_bins_are i b Hi Hb) as [s [t [-> [_ [[Fs Vs] [Ft Vt]]]]]].
    cbn [index uniformcyclic_axis]. destruct (grid_cyclic_index x X Hx HX) as [H1 H2]. rewrite H1.
    destruct Hx as [Fx Vx]. cbn [in_interval_wrapped]. rewrite Vx, Vs, Vt.
    set (W := (Z.of_N num * S)%Z) in *. assert (HW0 : (0 < W)%Z) by (unfold W; nia).
    pose proof (bpow_gt_0 radix2 e) as Hb0. pose proof (IZR_lt 0 W HW0) as HWr.
    replace (IZR X * bpow radix2 e - IZR (L + Z.of_N i * S) * bpow radix2 e)%R
      with (IZR (X - (L + Z.of_N i * S)) * bpow radix2 e)%R by (rewrite (minus_IZR X); ring).
    set (d := (X - (L + Z.of_N i * S))%Z).
    replace (IZR d * bpow radix2 e / (IZR W * bpow radix2 e))%R with (IZR d / IZR W)%R by (field; lra).
    rewrite Zfloor_div by lia.
    replace (IZR d * bpow radix2 e - IZR (d / W) * (IZR W * bpow radix2 e))%R with (IZR (d mod W) * bpow radix2 e)%R.
    2: { rewrite Z.mod_eq by lia. rewrite minus_IZR, mult_IZR. ring. }
    replace (IZR (L + (Z.of_N i + 1) * S) * bpow radix2 e - IZR (L + Z.of_N i * S) * bpow radix2 e)%R
      with (IZR S * bpow radix2 e)%R by (rewrite !plus_IZR, !mult_IZR, plus_IZR; ring).
    assert (Hrl : Rlt_bool (IZR (d mod W) * bpow radix2 e) (IZR S * bpow radix2 e) = (d mod W <? S)%Z).
    { destruct (Z.ltb_spec (d mod W) S) as [Hc|Hc]; [apply Rlt_bool_true | apply Rlt_bool_false].
      - apply Rmult_lt_compat_r; [exact Hb0 | apply IZR_lt; exact Hc].
      - apply Rmult_le_compat_r; [lra | apply IZR_le; exact Hc]. }
    rewrite Hrl. clear Hrl H1. pose proof (Z.mod_pos_bound (X - L) W HW0) as Hm. set (M := ((X - L) mod W)%Z) in *.
    assert (Hdm : (d mod W = (M - Z.of_N i * S) mod W)%Z).
    { unfold M. rewrite Zminus_mod_idemp_l. f_equal. unfold d. lia. }
    pose proof (Z.div_mod M S ltac:(lia)) as HMS. pose proof (Z.mod_pos_bound M S ltac:(lia)) as HMr.
    assert (HiW : (Z.of_N i * S + S <= W)%Z) by (unfold W; nia).
    rewrite Hdm, Z.ltb_lt. destruct (Z.le_gt_cases (Z.of_N i * S) M) as [Hc|Hc].
    + rewrite Z.mod_small by nia. split.
      * intros [= Hii]. assert (Hq : (M / S = Z.of_N i)%Z) by (pose proof (Z.div_pos M S ltac:(lia) ltac:(lia)); lia). rewrite Hq in HMS. lia.
      * intros Hlt. do 2 f_equal. assert (Hq : (M / S = Z.of_N i)%Z); [|rewrite Hq; apply N2Z.id].
        symmetry. apply Z.div_unique with (M - Z.of_N i * S)%Z; lia.
    + assert (Hv : ((M - Z.of_N i * S) mod W = M - Z.of_N i * S + W)%Z).
      { symmetry. apply (Z.mod_unique _ _ (-1)); [left; nia | lia]. }
      rewrite Hv. split.
      * intros [= Hii]. assert (Hq : (M / S = Z.of_N i)%Z) by (pose proof (Z.div_pos M S ltac:(lia) ltac:(lia)); lia). rewrite Hq in HMS. nia.
      * intros Hlt. lia.
Qed.

Context (ok : flt -> Prop) (Hok : forall x, ok x -> x = B754_nan \/ exists X, binned_as x X).

Lemma exact_grid_uniform : exact_axis (uniform_axis ops) a (num + 2) ok (in_interval ord).
Proof.
  pose proof HG as [G1 G2 G3 G4 G5 G6 G7]. pose proof HF as [Hp He].
  destruct (C20_uniform_float_has_bins B prec emax P E a G3) as [HB _].
  apply exact_intro; [exact HB|]. intros x Hx. left. destruct (Hok x Hx) as [->|[X HX]].
  - exists (num + 1)%N, (Overflow (u_high a)). cbn [index bin uniform_axis].
    split; [apply index_nan; lia|]. split; [lia|]. split.
    { unfold uniform_bin. replace (num + 1 =? 0) with false by (symmetry; apply N.eqb_neq; lia).
      rewrite uadd_ok by lia. cbn [obind]. rewrite N.eqb_refl. reflexivity. }
    split; [reflexivity|]. intros j b Hj Hb Hm. destruct (mem_nan b Hm) as [s ->].
    destruct (bins_are j _ Hj Hb) as [[_ Hc]|[[-> _]|[i [s' [t [_ [_ [Hc _]]]]]]]]; try discriminate Hc. reflexivity.
  - pose proof (index_acts x X HX) as Hi. destruct HX as [HA _]. set (i := if (X <? L)%Z then _ else _) in Hi.
    assert (Hib : (i < num + 2)%N /\ (if (i =? 0)%N then X < L else if (i =? num + 1)%N then L + Z.of_N num * S <= X
                     else L + (Z.of_N i - 1) * S <= X /\ X < L + Z.of_N i * S)%Z).
    { unfold i. destruct (Z.ltb_spec X L) as [H1|H1]; [split; [lia | exact H1]|].
      destruct (Z.leb_spec (L + Z.of_N num * S) X) as [H2|H2].
      - split; [lia|]. replace (num + 1 =? 0) with false by (symmetry; apply N.eqb_neq; lia). rewrite N.eqb_refl. exact H2.
      - pose proof (place X ltac:(lia)) as [Q1 Q2]. set (q := ((X - L) / S)%Z) in *. split; [lia|].
        replace (Z.to_N q + 1 =? 0) with false by (symmetry; apply N.eqb_neq; lia).
        replace (Z.to_N q + 1 =? num + 1) with false by (symmetry; apply N.eqb_neq; lia).
        replace (Z.of_N (Z.to_N q + 1)) with (q + 1)%Z by lia. replace (q + 1 - 1)%Z with q by lia. exact Q2. }
    destruct Hib as [Hi2 Hi3]. destruct (proj2 HB i Hi2) as [b Hb]. cbn [bin uniform_axis] in Hb.
    exists i, b. cbn [index bin uniform_axis]. split; [exact Hi|]. split; [exact Hi2|]. split; [exact Hb|]. split.
    { rewrite (mem_acts x X i b HA Hi2 Hb). destruct (N.eqb_spec i 0); [apply Z.ltb_lt; exact Hi3|].
      destruct (N.eqb_spec i (num + 1)); [apply Z.leb_le; exact Hi3|].
      apply andb_true_intro. split; [apply Z.leb_le | apply Z.ltb_lt]; apply Hi3. }
    intros j b' Hj Hb' Hm. rewrite (mem_acts x X j b' HA Hj Hb') in Hm.
    assert (Hj3 : (if (j =? 0)%N then X < L else if (j =? num + 1)%N then L + Z.of_N num * S <= X
                     else L + (Z.of_N j - 1) * S <= X /\ X < L + Z.of_N j * S)%Z).
    { destruct (N.eqb_spec j 0); [apply Z.ltb_lt; exact Hm|]. destruct (N.eqb_spec j (num + 1)); [apply Z.leb_le; exact Hm|].
      apply andb_prop in Hm. rewrite Z.leb_le, Z.ltb_lt in Hm. exact Hm. }
    clear - Hi2 Hi3 Hj Hj3 G2 G4. clearbody i.
    destruct (N.eqb_spec i 0), (N.eqb_spec j 0); try lia; destruct (N.eqb_spec i (num + 1)), (N.eqb_spec j (num + 1)); try lia; try nia.
Qed.

Lemma exact_grid_noflow : exact_axis (uniformnoflow_axis ops) (mkUniformNoFlow a) num ok (in_interval ord).
Proof.
  pose proof HG as [G1 G2 G3 G4 G5 G6 G7]. pose proof HF as [Hp He]. pose proof exact_grid_uniform as HE.
  destruct (C20_uniform_float_has_bins B prec emax P E a G3) as [_ [HB _]].
  assert (Hix : forall x, ok x -> exists i, uniform_index ops a x = Val (Some i) /\ (i < num + 2)%N).
  { intros x Hx. destruct (Hok x Hx) as [->|[X HX]].
    - exists (num + 1)%N. split; [apply index_nan; lia | lia].
    - eexists. split; [exact (index_acts x X HX)|]. destruct (ex_index _ _ _ _ _ HE x Hx) as [r [H1 H2]].
      cbn [index uniform_axis] in H1. rewrite (index_acts x X HX) in H1. injection H1 as <-. apply H2. reflexivity. }
  constructor; [exact HB| |].
  - intros x Hx. destruct (Hix x Hx) as [i [Hi Hlt]].
    assert (Hle : (i <= num + 1)%N) by (clear - Hlt; lia).
    pose proof (C09_noflow_index B flt ops a x i G3 Hi Hle) as Hn.
    destruct (N.eq_dec i 0) as [I0|I0]; [|destruct (N.eq_dec i (num + 1)) as [I1|I1]].
    + exists None. split; [apply Hn; auto | discriminate].
    + exists None. split; [apply Hn; auto | discriminate].
    + exists (Some (i - 1)%N). split; [apply Hn; right; exists (i - 1)%N; split; [reflexivity | lia]|]. intros j [= <-]. lia.
  - intros x j b Hx Hj Hb. cbn [bin uniformnoflow_axis] in Hb.
    destruct (noflow_bins_are j b Hj Hb) as [s [t [-> [Hub _]]]].
    destruct (Hix x Hx) as [i [Hi Hlt]]. assert (Hle : (i <= num + 1)%N) by (clear - Hlt; lia).
    pose proof (C09_noflow_index B flt ops a x i G3 Hi Hle (Some j)) as Hn.
    pose proof (ex_iff _ _ _ _ _ HE x (j + 1) _ Hx ltac:(lia) Hub) as Hiff. cbn [index uniform_axis] in Hiff.
    cbn [index uniformnoflow_axis]. rewrite Hn. rewrite <- Hiff. rewrite Hi. split.
    + intros [[Hc _]|[j' [[= <-] [-> _]]]]; [discriminate|]. reflexivity.
    + intros [= Hij]. right. exists j. split; [reflexivity|]. split; [exact Hij | exact Hj].
Qed.

End Exact.

(** The three axis types, made with either constructor: bins and index agree exactly
    on the grid, when also [num] times the range fits the mantissa (the edges are
    computed as [low + i * (high - low) / num]).  Infinities and NaN are covered
    too; on the cyclic axis the coordinate must be finite and at most [2^prec] grid
    units away from [low]. *)
Theorem C80_grid_exact : forall (prec emax : Z) (P : Prec_gt_0 prec) (E : Prec_lt_emax prec emax) (B : Build) (e : Z)
  (num : N) (low high step : binary_float prec emax) (L S : Z),
  let ops := float_ops prec emax P E in
  let period := (IZR (Z.of_N num * S) * bpow radix2 e)%R in
  let near x := exists X, grid_value e x X /\ (Z.abs (X - L) <= 2 ^ prec)%Z in
  covered_format prec emax -> grid_params prec emax e num L S -> (Z.of_N num * (Z.of_N num * S) <= 2 ^ prec)%Z ->
  grid_value e low L -> grid_value e high (L + Z.of_N num * S) -> grid_value e step S ->
  (exists a b c,
     uniform_new ops num low high = Val (Ok a)
     /\ uniformnoflow_new ops num low high = Val (Ok b)
     /\ uniformcyclic_new ops num low high = Val (Ok c)
     /\ exact_axis (uniform_axis ops) a (num + 2) (on_grid e) (in_interval (@num_ord _ ops))
     /\ exact_axis (uniformnoflow_axis ops) b num (on_grid e) (in_interval (@num_ord _ ops))
     /\ exact_axis (uniformcyclic_axis ops) c num near (in_interval_wrapped period))
  /\ (exists a b c,
     uniform_with_step_size ops num low step = Val (Ok a)
     /\ uniformnoflow_with_step_size ops num low step = Val (Ok b)
     /\ uniformcyclic_with_step_size ops num low step = Val (Ok c)
     /\ exact_axis (uniform_axis ops) a (num + 2) (on_grid e) (in_interval (@num_ord _ ops))
     /\ exact_axis (uniformnoflow_axis ops) b num (on_grid e) (in_interval (@num_ord _ ops))
     /\ exact_axis (uniformcyclic_axis ops) c num near (in_interval_wrapped period)).
Proof.
  intros prec emax P E B e num low high step L S ops period near HF HG HWW Hl Hh Hs.
  pose proof HF as [Hp He]. pose proof HG as [G1 G2 G3 G4 G5 G6 G7].
  assert (Hall : forall a : Uniform (binary_float prec emax), u_num a = num -> grid_value e (u_low a) L ->
    grid_value e (u_high a) (L + Z.of_N num * S) -> grid_value e (u_step a) S ->
    exact_axis (uniform_axis ops) a (num + 2) (on_grid e) (in_interval (@num_ord _ ops))
    /\ exact_axis (uniformnoflow_axis ops) (mkUniformNoFlow a) num (on_grid e) (in_interval (@num_ord _ ops))
    /\ exact_axis (uniformcyclic_axis ops) (mkUniformCyclic (mkUniformNoFlow a)) num near (in_interval_wrapped period)).
  { intros a An Al Ah As. unfold ops, near, period. clear Hl Hh Hs. subst num.
    pose proof (on_grid_binned prec emax P E HF e a L S HG Al Ah As) as Hbin. split; [|split].
    - eapply exact_grid_uniform; eassumption.
    - eapply exact_grid_noflow; eassumption.
    - eapply grid_cyclic_exact; eassumption. }
  split.
  - destruct (grid_new prec emax P E Hp He e G1 num low high L S Hl Hh ltac:(lia) G4 G5) as [a [Ha [An [Al [Ah As]]]]].
    exists a, (mkUniformNoFlow a), (mkUniformCyclic (mkUniformNoFlow a)).
    split; [exact Ha|]. unfold uniformcyclic_new, uniformnoflow_new, ops. rewrite Ha. cbn [obind].
    split; [reflexivity|]. split; [reflexivity|]. subst low high. exact (Hall a An Hl Hh As).
  - destruct (grid_step prec emax P E Hp He e G1 num low step L S Hl Hs ltac:(lia) G4 G5 G7) as [a [Ha [An [Al [Ah As]]]]].
    exists a, (mkUniformNoFlow a), (mkUniformCyclic (mkUniformNoFlow a)).
    split; [exact Ha|]. unfold uniformcyclic_with_step_size, uniformnoflow_with_step_size, ops. rewrite Ha. cbn [obind].
    split; [reflexivity|]. split; [reflexivity|]. subst low step. exact (Hall a An Hl Ah Hs).
Qed.
Print Assumptions C80_grid_exact.

(** On the grid the cyclic axis is exactly periodic: the bin is that of any
    representative of the coordinate modulo the range. *)
Theorem C80_cyclic_grid : forall (prec emax : Z) (P : Prec_gt_0 prec) (E : Prec_lt_emax prec emax) (B : Build) (e : Z)
  (num : N) (low high step : binary_float prec emax) (L S : Z),
  let ops := float_ops prec emax P E in
  covered_format prec emax -> grid_params prec emax e num L S ->
  grid_value e low L -> grid_value e high (L + Z.of_N num * S) -> grid_value e step S ->
  exists a b, uniformcyclic_new ops num low high = Val (Ok a)
    /\ uniformcyclic_with_step_size ops num low step = Val (Ok b)
    /\ forall x X, grid_value e x X -> (Z.abs (X - L) <= 2 ^ prec)%Z ->
       forall (i : N) (m : Z), (i < num)%N ->
         (L + Z.of_N i * S <= X + m * (Z.of_N num * S) < L + (Z.of_N i + 1) * S)%Z ->
         uniformcyclic_index ops a x = Val (Some i) /\ uniformcyclic_index ops b x = Val (Some i).
Proof.
  intros prec emax P E B e num low high step L S ops HF HG Hl Hh Hs.
  pose proof HF as [Hp He]. pose proof HG as [G1 G2 G3 G4 G5 G6 G7].
  assert (Hall : forall a : Uniform (binary_float prec emax), u_num a = num -> grid_value e (u_low a) L ->
    grid_value e (u_high a) (L + Z.of_N num * S) -> grid_value e (u_step a) S ->
    forall x X, grid_value e x X -> (Z.abs (X - L) <= 2 ^ prec)%Z -> forall (i : N) (m : Z), (i < num)%N ->
    (L + Z.of_N i * S <= X + m * (Z.of_N num * S) < L + (Z.of_N i + 1) * S)%Z ->
    uniformcyclic_index ops (mkUniformCyclic (mkUniformNoFlow a)) x = Val (Some i)).
  { intros a An Al Ah As x X Hx HX i m Hi Hm. unfold ops. clear Hl Hh Hs. subst num.
    destruct (grid_cyclic_index prec emax P E HF e a L S HG Al Ah As x X Hx HX) as [H1 _]. rewrite H1.
    assert (HiS : (0 <= Z.of_N i * S)%Z) by nia. assert (HiW : (Z.of_N i * S + S <= Z.of_N (u_num a) * S)%Z) by nia.
    replace ((X - L) mod (Z.of_N (u_num a) * S))%Z with (X - L + m * (Z.of_N (u_num a) * S))%Z.
    - replace ((X - L + m * (Z.of_N (u_num a) * S)) / S)%Z with (Z.of_N i); [rewrite N2Z.id; reflexivity|].
      apply Z.div_unique with (X - L + m * (Z.of_N (u_num a) * S) - Z.of_N i * S)%Z; lia.
    - apply (Z.mod_unique _ _ (- m)); [left; lia | lia]. }
  destruct (grid_new prec emax P E Hp He e G1 num low high L S Hl Hh ltac:(lia) G4 G5) as [a [Ha [An [Al [Ah As]]]]].
  destruct (grid_step prec emax P E Hp He e G1 num low step L S Hl Hs ltac:(lia) G4 G5 G7) as [b [Hb [Bn [Bl [Bh Bs]]]]].
  exists (mkUniformCyclic (mkUniformNoFlow a)), (mkUniformCyclic (mkUniformNoFlow b)).
  unfold uniformcyclic_new, uniformnoflow_new, uniformcyclic_with_step_size, uniformnoflow_with_step_size.
  unfold ops at 1 2. rewrite Ha, Hb. cbn [obind]. split; [reflexivity|]. split; [reflexivity|].
  intros x X Hx HX i m Hi Hm. split.
  - apply (Hall a) with X m; try assumption; rewrite ?Al, ?Ah; assumption.
  - apply (Hall b) with X m; try assumption; rewrite ?Bl, ?Bs; assumption.
Qed.
Print Assumptions C80_cyclic_grid.

(** ** Axes that start at zero with a power of two as bin width *)
Section Origin.
Variable prec emax : Z.
Context (P : Prec_gt_0 prec) (E : Prec_lt_emax prec emax) {B : Build}.
Context (HF : covered_format prec emax).
Notation flt := (binary_float prec emax).
Notation ops := (float_ops prec emax P E).
Notation fexp := (SpecFloat.fexp prec emax).
Notation rnd := (round radix2 fexp (round_mode mode_NE)).
Context (e : Z) (a : Uniform flt) (HG : grid_params prec emax e (u_num a) 0 1).
Context (Hl : grid_value e (u_low a) 0) (Hh : grid_value e (u_high a) (0 + Z.of_N (u_num a) * 1)) (Hs : grid_value e (u_step a) 1).

(** Dividing by a power of two does not change the integer part. *)
Lemma scale_floor (x : flt) : (0 <= B2R x)%R ->
  (0 <= rnd (B2R x / bpow radix2 e))%R
  /\ Zfloor (rnd (B2R x / bpow radix2 e)) = Zfloor (B2R x / bpow radix2 e)
  /\ (rnd (B2R x / bpow radix2 e) < IZR (Zfloor (B2R x / bpow radix2 e)) + 1)%R.
Proof.
  intros H0. pose proof HF as [Hp He]. assert (Hpe : (prec < emax)%Z) by exact E.
  pose proof (bpow_gt_0 radix2 e) as Hb0.
  assert (Hy0 : (0 <= B2R x / bpow radix2 e)%R) by (apply Rmult_le_pos; [exact H0 | apply Rlt_le, Rinv_0_lt_compat, Hb0]).
  pose proof (rnd_pos prec emax P _ Hy0) as Hr0. split; [exact Hr0|].
  set (y := (B2R x / bpow radix2 e)%R) in *.
  pose proof (Zfloor_ub y) as Hub.
  destruct (Rle_or_lt (bpow radix2 (SpecFloat.emin prec emax + prec - 1)) y) as [Hn|Hn].
  - assert (Hf : rnd y = y).
    { apply rnd_format. pose proof (B2R_format prec emax x) as Fx. rewrite fexp_FLT in *.
      apply generic_format_FLT_FLX; [rewrite Rabs_pos_eq by exact Hy0; exact Hn|].
      unfold y, Rdiv. rewrite <- bpow_opp. apply generic_format_FLX. apply generic_format_FLX_FLT, FLX_format_generic in Fx; [|exact P].
      destruct Fx as [f F1 F2]. exists (Float radix2 (Fnum f) (Fexp f - e)); [|exact F2].
      rewrite F1. unfold F2R. cbn [Fnum Fexp]. rewrite Rmult_assoc, <- bpow_plus. reflexivity. }
    rewrite Hf. split; [reflexivity | exact Hub].
  - assert (Hlt1 : (bpow radix2 (SpecFloat.emin prec emax + prec - 1) < 1)%R).
    { change 1%R with (bpow radix2 0). apply bpow_lt. unfold SpecFloat.emin. lia. }
    assert (Hr1 : (rnd y <= bpow radix2 (SpecFloat.emin prec emax + prec - 1))%R).
    { rewrite <- (rnd_format prec emax (bpow radix2 (SpecFloat.emin prec emax + prec - 1))).
      - apply rnd_le; [exact P | lra].
      - apply generic_format_bpow. rewrite fexp_FLT. unfold FLT_exp. lia. }
    assert (F0 : Zfloor y = 0%Z) by (apply Zfloor_imp; change (0 + 1)%Z with 1%Z; lra). rewrite F0.
    split; [apply Zfloor_imp; change (0 + 1)%Z with 1%Z; lra | lra].
Qed.

Lemma origin_binned (x : flt) : x = B754_nan \/ exists X, binned_as prec emax P E e a 0 1 x X.
Proof.
  pose proof HF as [Hp He]. pose proof HG as [G1 G2 G3 G4 G5 G6 G7]. pose proof (bpow_gt_0 radix2 e) as Hb0.
  assert (Hfin : is_finite x = true -> exists X, binned_as prec emax P E e a 0 1 x X).
  { intros Fx. set (y := (B2R x / bpow radix2 e)%R). exists (Zfloor y).
    assert (Ex : B2R x = (y * bpow radix2 e)%R) by (unfold y; field; lra).
    assert (HA : acts_as prec emax P E e x (Zfloor y)).
    { intros z Y [Fz Vz] _. rewrite lt_fin, ge_fin by assumption. rewrite Vz, Ex. pose proof (Zfloor_lb y) as H1. pose proof (Zfloor_ub y) as H2.
      split.
      - destruct (Z.ltb_spec (Zfloor y) Y) as [H|H]; [apply Rlt_bool_true | apply Rlt_bool_false].
        + apply Rmult_lt_compat_r; [exact Hb0|]. apply Rlt_le_trans with (1 := H2). rewrite <- plus_IZR. apply IZR_le. lia.
        + apply Rmult_le_compat_r; [lra|]. apply IZR_le in H. lra.
      - destruct (Z.leb_spec Y (Zfloor y)) as [H|H]; [apply Rle_bool_true | apply Rle_bool_false].
        + apply Rmult_le_compat_r; [lra|]. apply IZR_le in H. lra.
        + apply Rmult_lt_compat_r; [exact Hb0|]. apply Rlt_le_trans with (1 := H2). rewrite <- plus_IZR. apply IZR_le. lia. }
    split; [exact HA|]. intros HX. rewrite Z.sub_0_r, Z.div_1_r.
    assert (Hx0 : (0 <= B2R x)%R).
    { rewrite Ex. apply Rmult_le_pos; [|lra]. pose proof (Zfloor_lb y). assert (0 <= IZR (Zfloor y))%R by (apply IZR_le; lia). lra. }
    destruct (scale_floor x Hx0) as [S1 [S2 S3]]. fold y in S1, S2, S3.
    unfold uniform_index. destruct (HA _ _ Hl G6) as [-> _]. destruct (HA _ _ Hh G7) as [_ ->].
    replace (Zfloor y <? 0)%Z with false by (symmetry; apply Z.ltb_ge; lia).
    replace (_ <=? Zfloor y)%Z with false by (symmetry; apply Z.leb_gt; lia).
    cbn [n_sub n_div n_to_usize float_ops obind].
    destruct Hl as [Fl Vl]. destruct Hs as [Fs Vs].
    pose proof (Bminus_correct prec emax P E mode_NE x (u_low a) Fx Fl) as HM. rewrite Vl in HM.
    replace (B2R x - 0 * bpow radix2 e)%R with (B2R x) in HM by ring. rewrite (rnd_B2R prec emax) in HM.
    rewrite Rlt_bool_true in HM by apply abs_B2R_lt_emax. destruct HM as [M1 [M2 _]].
    pose proof (Bdiv_correct prec emax P E mode_NE (Bminus mode_NE x (u_low a)) (u_step a)) as HD. rewrite M1, Vs in HD.
    rewrite Rmult_1_l in HD. specialize (HD ltac:(lra)). fold y in HD.
    assert (Hk : (Zfloor y + 1 <= Z.of_N (u_num a))%Z) by lia. assert (Hkr := Hk). apply IZR_le in Hkr. rewrite plus_IZR in Hkr.
    rewrite Rlt_bool_true in HD.
    2: { rewrite Rabs_pos_eq by exact S1. apply Rlt_le_trans with (IZR (Z.of_N (u_num a))); [lra|].
         pose proof (int_lt_emax prec emax P E (Z.of_N (u_num a)) ltac:(lia)) as Ht.
         rewrite Rabs_pos_eq in Ht by (apply IZR_le; lia). lra. }
    destruct HD as [D1 [D2 _]]. rewrite M2 in D2.
    rewrite to_usize_floor; [|lia|exact He|exact D2|].
    - rewrite D1, S2. rewrite uadd_ok by lia. reflexivity.
    - rewrite D1, usize_bpow. split; [exact S1|].
      assert (Hlt : (Z.of_N (u_num a) < Z.of_N usize_mod)%Z) by (clear - G3; lia). apply IZR_lt in Hlt. lra. }
  destruct x as [s|s| |s m ex Hb]; [right; apply Hfin; reflexivity | right | left; reflexivity | right; apply Hfin; reflexivity].
  apply infinity_binned; assumption.
Qed.

End Origin.

(** [Uniform::new(num, 0, num * 2^e)] and [Uniform::with_step_size(num, 0, 2^e)]
    (and their NoFlow versions) are exact for EVERY float, on a grid or not. *)
Theorem C80_origin_exact : forall (prec emax : Z) (P : Prec_gt_0 prec) (E : Prec_lt_emax prec emax) (B : Build) (e : Z)
  (num : N) (low high step : binary_float prec emax),
  let ops := float_ops prec emax P E in
  covered_format prec emax -> grid_exponent prec emax e -> (1 <= num)%N -> (num + 2 < usize_mod)%N ->
  (Z.of_N num * Z.of_N num <= 2 ^ prec)%Z ->
  grid_value e low 0 -> grid_value e high (Z.of_N num) -> grid_value e step 1 ->
  (exists a b,
     uniform_new ops num low high = Val (Ok a)
     /\ uniformnoflow_new ops num low high = Val (Ok b)
     /\ exact_axis (uniform_axis ops) a (num + 2) (fun _ => True) (in_interval (@num_ord _ ops))
     /\ exact_axis (uniformnoflow_axis ops) b num (fun _ => True) (in_interval (@num_ord _ ops)))
  /\ (exists a b,
     uniform_with_step_size ops num low step = Val (Ok a)
     /\ uniformnoflow_with_step_size ops num low step = Val (Ok b)
     /\ exact_axis (uniform_axis ops) a (num + 2) (fun _ => True) (in_interval (@num_ord _ ops))
     /\ exact_axis (uniformnoflow_axis ops) b num (fun _ => True) (in_interval (@num_ord _ ops))).
Proof.
  intros prec emax P E B e num low high step ops HF G1 G2 G3 HWW Hl Hh Hs.
  pose proof HF as [Hp He].
  assert (HG : grid_params prec emax e num 0 1) by (constructor; try assumption; nia).
  replace (Z.of_N num) with (0 + Z.of_N num * 1)%Z in Hh by lia.
  assert (Hall : forall a : Uniform (binary_float prec emax), u_num a = num -> grid_value e (u_low a) 0 ->
    grid_value e (u_high a) (0 + Z.of_N num * 1) -> grid_value e (u_step a) 1 ->
    exact_axis (uniform_axis ops) a (num + 2) (fun _ => True) (in_interval (@num_ord _ ops))
    /\ exact_axis (uniformnoflow_axis ops) (mkUniformNoFlow a) num (fun _ => True) (in_interval (@num_ord _ ops))).
  { intros a An Al Ah As. unfold ops. clear Hl Hh Hs. subst num.
    pose proof (origin_binned prec emax P E HF e a HG Al Ah As) as Hbin.
    assert (HWW2 : (Z.of_N (u_num a) * (Z.of_N (u_num a) * 1) <= 2 ^ prec)%Z) by lia. split.
    - refine (exact_grid_uniform prec emax P E HF e a 0 1 HG Al Ah HWW2 _ (fun x _ => Hbin x)).
    - refine (exact_grid_noflow prec emax P E HF e a 0 1 HG Al Ah HWW2 _ (fun x _ => Hbin x)). }
  destruct HG as [_ _ _ G4 G5 G6 G7]. split.
  - destruct (grid_new prec emax P E Hp He e G1 num low high 0 1 Hl Hh ltac:(lia) G4 G5) as [a [Ha [An [Al [Ah As]]]]].
    exists a, (mkUniformNoFlow a).
    split; [exact Ha|]. unfold uniformnoflow_new, ops. rewrite Ha. cbn [obind].
    split; [reflexivity|]. subst low high. exact (Hall a An Hl Hh As).
  - destruct (grid_step prec emax P E Hp He e G1 num low step 0 1 Hl Hs ltac:(lia) G4 G5 G7) as [a [Ha [An [Al [Ah As]]]]].
    exists a, (mkUniformNoFlow a).
    split; [exact Ha|]. unfold uniformnoflow_with_step_size, ops. rewrite Ha. cbn [obind].
    split; [reflexivity|]. subst low step. exact (Hall a An Hl Ah Hs).
Qed.
Print Assumptions C80_origin_exact.

(** The bins that [bin] reports have their edges exactly at the multiples of the
    bin width. *)
Theorem C80_grid_bins : forall (prec emax : Z) (P : Prec_gt_0 prec) (E : Prec_lt_emax prec emax) (B : Build) (e : Z)
  (num : N) (low high step : binary_float prec emax) (L S : Z),
  let ops := float_ops prec emax P E in
  covered_format prec emax -> grid_params prec emax e num L S -> (Z.of_N num * (Z.of_N num * S) <= 2 ^ prec)%Z ->
  grid_value e low L -> grid_value e high (L + Z.of_N num * S) -> grid_value e step S ->
  forall a, uniform_new ops num low high = Val (Ok a) \/ uniform_with_step_size ops num low step = Val (Ok a) ->
  (exists l, uniform_bin ops a 0 = Val (Some (Underflow l)) /\ grid_value e l L)
  /\ (exists h, uniform_bin ops a (num + 1) = Val (Some (Overflow h)) /\ grid_value e h (L + Z.of_N num * S))
  /\ forall i, (i < num)%N -> exists s t, uniform_bin ops a (i + 1) = Val (Some (Bin s t))
       /\ grid_value e s (L + Z.of_N i * S) /\ grid_value e t (L + (Z.of_N i + 1) * S).
Proof.
  intros prec emax P E B e num low high step L S ops HF HG HWW Hl Hh Hs a Ha.
  pose proof HF as [Hp He]. pose proof HG as [G1 G2 G3 G4 G5 G6 G7].
  assert (Hc : u_num a = num /\ grid_value e (u_low a) L /\ grid_value e (u_high a) (L + Z.of_N num * S)).
  { destruct Ha as [Ha|Ha].
    - destruct (grid_new prec emax P E Hp He e G1 num low high L S Hl Hh ltac:(lia) G4 G5) as [a' [Ha' [An [Al [Ah As]]]]].
      unfold ops in Ha. rewrite Ha in Ha'. injection Ha' as <-. rewrite Al, Ah. auto.
    - destruct (grid_step prec emax P E Hp He e G1 num low step L S Hl Hs ltac:(lia) G4 G5 G7) as [a' [Ha' [An [Al [Ah As]]]]].
      unfold ops in Ha. rewrite Ha in Ha'. injection Ha' as <-. rewrite Al. auto. }
  destruct Hc as [An [Al Ah]]. split; [|split].
  - exists (u_low a). split; [reflexivity | exact Al].
  - exists (u_high a). split; [|exact Ah]. unfold uniform_bin.
    replace (num + 1 =? 0) with false by (symmetry; apply N.eqb_neq; lia).
    rewrite An, uadd_ok by lia. cbn [obind]. rewrite N.eqb_refl. reflexivity.
  - subst num. intros i Hi. exact (grid_bin prec emax P E Hp He e G1 a L S Al Ah ltac:(lia) G4 G5 G3 HWW G6 G7 i Hi).
Qed.
Print Assumptions C80_grid_bins.

(** ** Concrete cases *)

(** [m * 2^e] as an [f64] literal. *)
Lemma f64_grid (m e : Z) : (Z.abs m <= 2 ^ 53)%Z -> grid_exponent 53 1024 e -> grid_value e (f64_lit m e) m.
Proof.
  intros Hm He. pose proof (binary_normalize_correct 53 1024 prec64 emax64 mode_NE m e false) as H. cbv zeta in H.
  change (F2R (Float radix2 m e)) with (IZR m * bpow radix2 e)%R in H.
  rewrite (grid_rnd 53 1024 ltac:(lia) e He m Hm) in H.
  rewrite Rlt_bool_true in H by (apply (grid_top 53 1024 ltac:(lia) e He m Hm)).
  destruct H as [H1 [H2 _]]. split; assumption.
Qed.

(** [Uniform::new(10, -5.0, 5.0)] with integers; [Uniform::new(8, -1.0, 2.0)] with
    any multiples of 1/8; [Uniform::new(16, 0.0, 4.0)] with any [f64]. *)
Example C80_nonvacuous : forall B : Build,
  (grid_params 53 1024 0 10 (-5) 1 /\ (Z.of_N 10 * (Z.of_N 10 * 1) <= 2 ^ 53)%Z
   /\ grid_value 0 (f64_lit (-5) 0) (-5) /\ grid_value 0 (f64_lit 5 0) (-5 + Z.of_N 10 * 1) /\ grid_value 0 (f64_lit 1 0) 1)
  /\ (grid_params 53 1024 (-3) 8 (-8) 3 /\ (Z.of_N 8 * (Z.of_N 8 * 3) <= 2 ^ 53)%Z
   /\ grid_value (-3) (f64_lit (-8) (-3)) (-8) /\ grid_value (-3) (f64_lit 16 (-3)) (-8 + Z.of_N 8 * 3) /\ grid_value (-3) (f64_lit 3 (-3)) 3)
  /\ (grid_exponent 53 1024 (-2) /\ (16 + 2 < usize_mod)%N /\ grid_value (-2) (f64_lit 0 (-2)) 0
   /\ grid_value (-2) (f64_lit 16 (-2)) (Z.of_N 16) /\ grid_value (-2) (f64_lit 1 (-2)) 1)
  /\ exists a, uniform_new f64_ops 8 (f64_lit (-8) (-3)) (f64_lit 16 (-3)) = Val (Ok a)
     /\ uniform_index f64_ops a (f64_lit 1 (-3)) = Val (Some 4)       (* 0.125 in [0.125, 0.5) *)
     /\ uniform_index f64_ops a (f64_lit 0 (-3)) = Val (Some 3)       (* 0 in [-0.25, 0.125) *)
     /\ uniform_index f64_ops a (f64_lit 16 (-3)) = Val (Some 9).     (* 2 is overflow *)
Proof.
  intros B. assert (Hu : (20 < usize_mod)%N) by (pose proof usize_mod_large; lia).
  assert (HE : forall e, (-100 <= e <= 100)%Z -> grid_exponent 53 1024 e) by (intros e He; split; lia).
  split; [|split; [|split]].
  - split; [constructor; try apply HE; cbn; try lia|]. split; [cbn; lia|].
    split; [apply f64_grid; [cbn; lia | apply HE; lia]|]. split; apply f64_grid; cbn; try lia; apply HE; lia.
  - split; [constructor; try apply HE; cbn; try lia|]. split; [cbn; lia|].
    split; [apply f64_grid; [cbn; lia | apply HE; lia]|]. split; apply f64_grid; cbn; try lia; apply HE; lia.
  - split; [apply HE; lia|]. split; [lia|].
    split; [apply f64_grid; [cbn; lia | apply HE; lia]|]. split; apply f64_grid; cbn; try lia; apply HE; lia.
  - destruct B as [? []]; eexists; (split; [reflexivity|]); (split; [vm_compute; reflexivity|]); (split; vm_compute; reflexivity).
Qed.
