(** * PropRebinFloat: floating-point uniform axes whose bins are joined in [2^j]s (C87). *)
From Coq Require Import List ZArith NArith Bool ZifyBool ZifyN ZifyNat Lia Reals Lra.
From Flocq Require Import Core IEEE754.BinarySingleNaN.
From Verif Require Import Base BaseFacts Num Float Axis Spec FillSpec OrdLaws FloatOrd FloatFacts FloatSpec Uniform AxesSpec FloatUniform FloatUniformNew FloatUniformAcc FloatUniformEdge FloatScale
  PropUniformFloat PropUniformFloatEx GridSpec PropFloatGrid PropAxes PropRebin PropRebinAxes.
Open Scope R_scope.

Section Float.
Variable prec emax : Z.
Context (P : Prec_gt_0 prec) (E : Prec_lt_emax prec emax) {Bd : Build}.
Context (Hp : (8 <= prec <= 63)%Z) (He : (64 < emax)%Z).
Notation flt := (binary_float prec emax).
Notation ops := (float_ops prec emax P E).
Notation fexp := (SpecFloat.fexp prec emax).
Notation emin := (SpecFloat.emin prec emax).
Notation rnd := (round radix2 fexp (round_mode mode_NE)).
Notation min_normal := (bpow radix2 (emin + prec - 1)).
Context (j : Z) (Hj : (0 <= j)%Z).
Notation k := (Z.to_N (2 ^ j)).

Lemma k_pos : (1 <= k)%N.
Proof using Hj. pose proof (Z.pow_pos_nonneg 2 j ltac:(lia) Hj). lia. Qed.
Lemma k_real : IZR (Z.of_N k) = bpow radix2 j.
Proof using Hj. pose proof (Z.pow_pos_nonneg 2 j ltac:(lia) Hj). rewrite Z2N.id by lia. apply (IZR_Zpower radix2). exact Hj. Qed.

Lemma floor_joined (q : R) : 0 <= q -> (Z.to_N (Zfloor (q * bpow radix2 j)) / k = Z.to_N (Zfloor q))%N.
Proof using Hj.
  intros Hq. pose proof k_pos as Hk. pose proof k_real as HkR. pose proof (bpow_gt_0 radix2 j) as Hb.
  assert (Hf : (0 <= Zfloor (q * bpow radix2 j))%Z) by (apply Zfloor_lub; apply Rmult_le_pos; lra).
  assert (Hf0 : (0 <= Zfloor q)%Z) by (apply Zfloor_lub; exact Hq).
  symmetry. apply N2Z.inj. rewrite N2Z.inj_div, !Z2N.id by assumption. set (f := Zfloor (q * bpow radix2 j)) in *.
  assert (HK : (0 < Z.of_N k)%Z) by lia.
  apply Zfloor_imp. rewrite plus_IZR. pose proof (Zfloor_lb (q * bpow radix2 j)) as L1. pose proof (Zfloor_ub (q * bpow radix2 j)) as L2. fold f in L1, L2.
  pose proof (Z.div_mod f (Z.of_N k) ltac:(lia)) as D. pose proof (Z.mod_pos_bound f (Z.of_N k) HK) as M.
  rewrite Z2N.id in D, M by (pose proof k_pos; lia). rewrite <- (Z2N.id (2 ^ j)) in D, M by lia.
  remember (f / Z.of_N k)%Z as n eqn:En. remember (f mod Z.of_N k)%Z as r eqn:Er.
  replace (f / 2 ^ j)%Z with n by (rewrite En; f_equal; lia).
  assert (D' : IZR f = bpow radix2 j * IZR n + IZR r) by (rewrite D, plus_IZR, mult_IZR, HkR; reflexivity).
  assert (Mr : 0 <= IZR r <= bpow radix2 j - 1).
  { split; [apply IZR_le; lia|]. rewrite <- HkR. rewrite <- minus_IZR. apply IZR_le. lia. }
  split; apply Rmult_le_reg_r with (bpow radix2 j) || apply Rmult_lt_reg_r with (bpow radix2 j); lra.
Qed.

(** The quotient the index is computed from. *)
Lemma quotient_joined (d s : R) : 0 <= d -> 0 < s ->
  (Z.to_N (Zfloor (rnd (d / (s * bpow radix2 j)))) = Z.to_N (Zfloor (rnd (d / s))) / k)%N.
Proof using Hj Hp He P.
  intros Hd Hs. pose proof (bpow_gt_0 radix2 j) as Hb. set (q := d / (s * bpow radix2 j)).
  assert (Hq : d / s = q * bpow radix2 j) by (unfold q; field; lra). rewrite Hq.
  assert (Hq0 : 0 <= q) by (apply Rmult_le_pos; [exact Hd | apply Rlt_le, Rinv_0_lt_compat; nra]).
  destruct (Rle_or_lt min_normal q) as [Hn|Hn].
  - rewrite (rnd_scale_normal prec emax j Hj) by (rewrite Rabs_pos_eq by exact Hq0; exact Hn). symmetry. apply floor_joined.
    apply rnd_pos; [exact P | exact Hq0].
  - assert (Hm1 : min_normal < 1) by (change 1 with (bpow radix2 0); apply bpow_lt; unfold SpecFloat.emin; lia).
    assert (Fm : generic_format radix2 fexp min_normal).
    { apply generic_format_bpow. unfold SpecFloat.fexp, SpecFloat.emin. lia. }
    assert (H1 : 0 <= rnd q < 1).
    { split; [apply rnd_pos; [exact P | exact Hq0]|]. eapply Rle_lt_trans; [|exact Hm1]. rewrite <- (rnd_format prec emax _ Fm). apply rnd_le; [exact P | lra]. }
    assert (H2 : 0 <= rnd (q * bpow radix2 j) < bpow radix2 j).
    { split; [apply rnd_pos; [exact P | apply Rmult_le_pos; lra]|].
      apply Rle_lt_trans with (min_normal * bpow radix2 j);
        [|rewrite <- (Rmult_1_l (bpow radix2 j)) at 2; apply Rmult_lt_compat_r; assumption].
      rewrite <- (rnd_format prec emax _ (scale_format prec emax P Hp j Hj _ Fm)). apply rnd_le; [exact P | apply Rmult_le_compat_r; lra]. }
    rewrite (Zfloor_imp 0 (rnd q)) by exact H1. cbn [Z.to_N]. symmetry. apply N.div_small.
    pose proof k_pos as Hk.
    assert (Hf : (0 <= Zfloor (rnd (q * bpow radix2 j)))%Z) by (apply Zfloor_lub; apply H2).
    assert (Hlt : (Zfloor (rnd (q * bpow radix2 j)) < Z.of_N k)%Z).
    { apply lt_IZR. rewrite k_real. eapply Rle_lt_trans; [apply Zfloor_lb | apply H2]. }
    lia.
Qed.

Section Axes.
Context (num : N) (a b : Uniform flt).
Context (Ra : regular prec emax P E a) (Rb : regular prec emax P E b).
Context (Na : u_num a = (num * k)%N) (Nb : u_num b = num) (EL : u_low b = u_low a) (EH : u_high b = u_high a)
        (ES : B2R (u_step b) = B2R (u_step a) * bpow radix2 j).

Lemma joined_index (x : flt) i : uniform_index ops a x = Val (Some i) -> uniform_index ops b x = Val (Some (join_inner k i)).
Proof using All.
  intros Hi. pose proof k_pos as Hk.
  assert (Hover : join_inner k (num * k + 1) = (num + 1)%N).
  { unfold join_inner. replace (num * k + 1 + (k - 1))%N with ((num + 1) * k)%N by lia. apply N.div_mul. lia. }
  destruct (regular_cases prec emax P E ltac:(lia) He a x Ra) as [[H1 H2] | [(H1 & H2 & H3) | [[H1 H2] | (H1 & H2 & H3)]]].
  - rewrite H2 in Hi. injection Hi as <-. unfold uniform_index. rewrite EL, H1. unfold join_inner. rewrite N.div_small by lia. reflexivity.
  - rewrite H3 in Hi. injection Hi as <-. rewrite Na, Hover. unfold uniform_index. rewrite EL, EH, H1, H2. rewrite uadd_ok; [rewrite Nb; reflexivity|].
    pose proof (rg_usize _ _ _ _ _ Rb). lia.
  - rewrite H2 in Hi. injection Hi as <-. rewrite Na, Hover, H1. rewrite (index_nan prec emax P E ltac:(lia) He); [rewrite Nb; reflexivity|]. pose proof (rg_usize _ _ _ _ _ Rb). lia.
  - pose proof H1 as H1b. pose proof H2 as H2b. rewrite <- EL in H1b. rewrite <- EH in H2b.
    pose proof (lt_fin_false prec emax P E x (u_low a) H3 (rg_low _ _ _ _ _ Ra) H1) as Hge.
    destruct (regular_index prec emax P E ltac:(lia) He a x Ra H3 H1 H2) as [(D1 & D2 & D3) | [D1 D2]];
      destruct (regular_index prec emax P E ltac:(lia) He b x Rb H3 H1b H2b) as [(C1 & C2 & C3) | [C1 C2]]; rewrite EL in C1; try lra.
    + rewrite D3 in Hi. injection Hi as <-. rewrite C3. do 2 f_equal. rewrite EL, ES. rewrite quotient_joined.
      * cbn [round_mode]. generalize (Z.to_N (Zfloor (round radix2 fexp ZnearestE (round radix2 fexp ZnearestE (B2R x - B2R (u_low a)) / B2R (u_step a))))). intros f. unfold join_inner.
        replace (f + 1 + (k - 1))%N with (f + 1 * k)%N by lia.
        rewrite N.div_add by lia. reflexivity.
      * apply rnd_pos; [exact P | lra].
      * apply (rg_pos _ _ _ _ _ Ra).
    + rewrite D2 in Hi. injection Hi as <-. rewrite C2, Na, Nb, Hover. reflexivity.
Qed.

Lemma joined_noflow_index (x : flt) r : uniformnoflow_index ops (mkUniformNoFlow a) x = Val r ->
  (forall i, r = Some i -> (i < num * k)%N) /\ uniformnoflow_index ops (mkUniformNoFlow b) x = Val (option_map (join k) r).
Proof using All.
  pose proof k_pos as Hk. destruct (regular_valid prec emax P E ltac:(lia) He a x Ra) as (i & Hi & Hle).
  pose proof (joined_index x i Hi) as Hi'. unfold uniformnoflow_index. cbn [unf_axis]. rewrite Hi, Hi'. cbn [obind].
  pose proof (rg_usize _ _ _ _ _ Ra) as Ua. pose proof (rg_usize _ _ _ _ _ Rb) as Ub. rewrite Na in Ua, Hle. rewrite Nb in Ub.
  unfold uniform_num_bins. rewrite Na, Nb. rewrite !(uadd_ok (num * k)), !(uadd_ok num) by lia.
  assert (Hj1 : i <> 0%N -> join_inner k i = ((i - 1) / k + 1)%N).
  { intros Hi0. unfold join_inner. replace (i + (k - 1))%N with (i - 1 + 1 * k)%N by lia. apply N.div_add. lia. }
  destruct (N.eqb_spec i 0) as [->|N0].
  { assert (join_inner k 0 = 0%N) as -> by (unfold join_inner; apply N.div_small; lia). intros [= <-]. split; [discriminate | reflexivity]. }
  rewrite Hj1 by exact N0. rewrite (uadd_ok i) by lia. cbn [obind].
  assert (Hq : ((i - 1) / k <= num)%N) by (apply N.div_le_upper_bound; lia).
  destruct (N.eqb_spec ((i - 1) / k + 1) 0) as [H0|_]; [lia|]. rewrite (uadd_ok ((i - 1) / k + 1)) by lia. cbn [obind].
  destruct (N.eqb_spec (i + 1) (num * k + 2)) as [N1|N1].
  - intros [= <-]. split; [discriminate|]. replace (i - 1)%N with (num * k)%N by lia. rewrite N.div_mul by lia.
    replace (num + 1 + 1)%N with (num + 2)%N by lia. rewrite N.eqb_refl. reflexivity.
  - rewrite (usub_ok i) by lia. cbn [obind]. intros [= <-]. split; [intros i' [= <-]; lia|].
    assert (Hlt : ((i - 1) / k < num)%N) by (apply N.div_lt_upper_bound; lia).
    destruct (N.eqb_spec ((i - 1) / k + 1 + 1) (num + 2)) as [H0|_]; [lia|]. rewrite usub_ok by lia. cbn [obind option_map]. do 2 f_equal. unfold join. lia.
Qed.

Lemma joined_cyclic_index (x : flt) : exists r, uniformcyclic_index ops (mkUniformCyclic (mkUniformNoFlow a)) x = Val r
  /\ (forall i, r = Some i -> (i < num * k)%N) /\ uniformcyclic_index ops (mkUniformCyclic (mkUniformNoFlow b)) x = Val (option_map (join k) r).
Proof using All.
  unfold uniformcyclic_index. cbn [uc_axis unf_axis]. rewrite EL, EH.
  assert (exists y, wrap_coordinate ops (u_low a) (u_high a) x = Val y) as [y Hy].
  { unfold wrap_coordinate. cbn [n_sub n_rem n_add float_ops obind]. destruct (lt_ _ _); eexists; reflexivity. }
  rewrite Hy. cbn [obind]. destruct (regular_valid prec emax P E ltac:(lia) He a y Ra) as (i & Hi & Hle).
  assert (exists r, uniformnoflow_index ops (mkUniformNoFlow a) y = Val r) as [r Hr].
  { unfold uniformnoflow_index. cbn [unf_axis]. rewrite Hi. cbn [obind]. pose proof (rg_usize _ _ _ _ _ Ra) as Ua.
    destruct (N.eqb_spec i 0); [eexists; reflexivity|]. rewrite uadd_ok by lia. unfold uniform_num_bins. rewrite uadd_ok by lia. cbn [obind].
    destruct (i + 1 =? u_num a + 2)%N; [eexists; reflexivity|]. rewrite usub_ok by lia. eexists. reflexivity. }
  exists r. split; [exact Hr|]. exact (joined_noflow_index y r Hr).
Qed.

(** The bins. *)
Context (Fl : is_finite (u_low a) = true) (Fh : is_finite (u_high a) = true) (Hlt : B2R (u_low a) < B2R (u_high a))
        (HM : IZR (Z.of_N (num * k)) * magnitude (B2R (u_low a)) (B2R (u_high a)) < bpow radix2 (emax - 3)).

Notation edge n := (edge_real prec emax n (u_low a) (u_high a)).

Lemma num_pos : (1 <= num)%N.
Proof using Ra Na. pose proof (rg_num _ _ _ _ _ Ra) as H. rewrite Na in H. clear - H. nia. Qed.
Lemma coarse_magnitude : IZR (Z.of_N num) * magnitude (B2R (u_low a)) (B2R (u_high a)) < bpow radix2 (emax - 3).
Proof using Hj HM.
  eapply Rle_lt_trans; [|exact HM]. apply Rmult_le_compat_r.
  - unfold magnitude. eapply Rle_trans; [apply Rabs_pos | apply Rmax_l].
  - apply IZR_le. pose proof k_pos as Hk. clear - Hk. nia.
Qed.

Lemma fine_bin i : (1 <= i <= num * k)%N -> exists s e, uniform_bin ops a i = Val (Some (Bin s e))
  /\ uniformnoflow_bin ops (mkUniformNoFlow a) (i - 1) = Val (Some (Bin s e))
  /\ is_finite s = true /\ is_finite e = true /\ B2R s = edge (num * k)%N (i - 1)%N /\ B2R e = edge (num * k)%N i.
Proof using All.
  intros Hi. pose proof (rg_num _ _ _ _ _ Ra) as Hn. pose proof (rg_usize _ _ _ _ _ Ra) as Hu. rewrite Na in Hn, Hu.
  assert (Ea : a = mkUniform (num * k) (u_low a) (u_high a) (u_step a)) by (rewrite <- Na; destruct a; reflexivity).
  destruct (edge_value prec emax P E Hp He (num * k) (u_low a) (u_high a) (u_step a) Hn Fl Fh Hlt HM (i - 1) ltac:(lia)) as (s & E1 & F1 & V1).
  destruct (edge_value prec emax P E Hp He (num * k) (u_low a) (u_high a) (u_step a) Hn Fl Fh Hlt HM i ltac:(lia)) as (e & E2 & F2 & V2).
  rewrite <- Ea in E1, E2. exists s, e.
  assert (Hb : uniform_bin ops a i = Val (Some (Bin s e))).
  { unfold uniform_bin. rewrite Na. rewrite uadd_ok by lia. cbn [obind].
    destruct (N.eqb_spec i 0); [lia|]. destruct (N.eqb_spec i (num * k + 1)); [lia|]. destruct (N.ltb_spec (num * k + 1) i); [lia|].
    rewrite usub_ok by lia. cbn [obind]. rewrite E1. cbn [obind]. rewrite E2. reflexivity. }
  split; [exact Hb|]. split; [|auto].
  unfold uniformnoflow_bin. rewrite uadd_ok by lia. cbn [obind unf_axis]. replace (i - 1 + 1)%N with i by lia. rewrite Hb. reflexivity.
Qed.
Lemma coarse_bin i : (1 <= i <= num)%N -> exists s e, uniform_bin ops b i = Val (Some (Bin s e))
  /\ uniformnoflow_bin ops (mkUniformNoFlow b) (i - 1) = Val (Some (Bin s e))
  /\ is_finite s = true /\ is_finite e = true /\ B2R s = edge num (i - 1)%N /\ B2R e = edge num i.
Proof using All.
  intros Hi. pose proof (rg_num _ _ _ _ _ Rb) as Hn. pose proof (rg_usize _ _ _ _ _ Rb) as Hu. rewrite Nb in Hn, Hu.
  assert (Eb : b = mkUniform num (u_low a) (u_high a) (u_step b)) by (rewrite <- EL, <- EH, <- Nb; destruct b; reflexivity).
  destruct (edge_value prec emax P E Hp He num (u_low a) (u_high a) (u_step b) Hn Fl Fh Hlt coarse_magnitude (i - 1) ltac:(lia)) as (s & E1 & F1 & V1).
  destruct (edge_value prec emax P E Hp He num (u_low a) (u_high a) (u_step b) Hn Fl Fh Hlt coarse_magnitude i ltac:(lia)) as (e & E2 & F2 & V2).
  rewrite <- Eb in E1, E2. exists s, e.
  assert (Hb : uniform_bin ops b i = Val (Some (Bin s e))).
  { unfold uniform_bin. rewrite Nb. rewrite uadd_ok by lia. cbn [obind].
    destruct (N.eqb_spec i 0); [lia|]. destruct (N.eqb_spec i (num + 1)); [lia|]. destruct (N.ltb_spec (num + 1) i); [lia|].
    rewrite usub_ok by lia. cbn [obind]. rewrite E1. cbn [obind]. rewrite E2. reflexivity. }
  split; [exact Hb|]. split; [|auto].
  unfold uniformnoflow_bin. rewrite uadd_ok by lia. cbn [obind unf_axis]. replace (i - 1 + 1)%N with i by lia. rewrite Hb. reflexivity.
Qed.

(** Edge [i] of the coarse axis is edge [i * k] of the fine one. *)
Lemma shared_edge i : edge num i = edge (num * k)%N (i * k)%N.
Proof using All.
  pose proof (rg_num _ _ _ _ _ Ra) as Hn. rewrite Na in Hn. pose proof num_pos as Hn1.
  destruct (edge_width prec emax P E Hp (num * k) (u_low a) (u_high a) Hn Fl Fh Hlt HM) as (_ & W & _).
  unfold edge_real. f_equal. f_equal. f_equal. rewrite <- W. rewrite !N2Z.inj_mul, !mult_IZR, k_real.
  replace (IZR (Z.of_N i) * bpow radix2 j * B2R (Bminus mode_NE (u_high a) (u_low a)))
    with (IZR (Z.of_N i) * B2R (Bminus mode_NE (u_high a) (u_low a)) * bpow radix2 j) by ring.
  rewrite (rnd_scale_int prec emax P Hp j Hj). pose proof (bpow_gt_0 radix2 j). assert (0 < IZR (Z.of_N num)) by (apply IZR_lt; lia). field. lra.
Qed.

Lemma edges_ascend i i' : (i <= i')%N -> (i' <= num * k)%N -> edge (num * k)%N i <= edge (num * k)%N i'.
Proof using All.
  intros H1 H2. pose proof (rg_num _ _ _ _ _ Ra) as Hn. rewrite Na in Hn. apply (edge_mono prec emax P (num * k) (u_low a) (u_high a) Hn Hlt i i' H1 H2).
Qed.

Lemma contained i : (i < num * k)%N -> exists d1 d2, uniform_bin ops a (i + 1) = Val (Some d1) /\ uniformnoflow_bin ops (mkUniformNoFlow a) i = Val (Some d1)
  /\ uniform_bin ops b (i / k + 1) = Val (Some d2) /\ uniformnoflow_bin ops (mkUniformNoFlow b) (i / k) = Val (Some d2)
  /\ within (fun _ => True) (in_interval (@num_ord _ ops)) d1 d2.
Proof using All.
  intros Hi. pose proof k_pos as Hk. pose proof (div_bounds i k (i / k)%N Hk eq_refl) as [D1 D2]. remember (i / k)%N as q eqn:Eq.
  assert (Hq : (q < num)%N) by (clear - D1 Hi Hk; nia).
  destruct (fine_bin (i + 1) ltac:(lia)) as (s & e & B1 & B2 & Fs & Fe & Vs & Ve). destruct (coarse_bin (q + 1) ltac:(lia)) as (s' & e' & B1' & B2' & Fs' & Fe' & Vs' & Ve').
  replace (i + 1 - 1)%N with i in * by lia. replace (q + 1 - 1)%N with q in * by lia.
  exists (Bin s e), (Bin s' e'). split; [exact B1|]. split; [exact B2|]. split; [exact B1'|]. split; [exact B2'|].
  rewrite shared_edge in Vs', Ve'.
  assert (L1 : @le_ _ (@num_ord _ ops) s' s = true).
  { rewrite le_fin by assumption. apply Rle_bool_true. rewrite Vs', Vs. apply edges_ascend; lia. }
  assert (L2 : @le_ _ (@num_ord _ ops) e e' = true).
  { rewrite le_fin by assumption. apply Rle_bool_true. rewrite Ve', Ve. apply edges_ascend; [lia | clear - Hq Hk; nia]. }
  pose proof (float_ord_laws prec emax P E) as L. intros x _. cbn [in_interval]. rewrite !(ge_le _ _ L). intros H. apply andb_true_iff in H as [H1 H2].
  apply andb_true_iff. split; [exact (law_trans _ _ L _ _ _ L1 H1) | exact (lt_le_trans _ _ L _ _ _ H2 L2)].
Qed.

Lemma joined_coarsens :
  coarsens (uniform_axis ops) (uniform_axis ops) eq (within (fun _ => True) (in_interval (@num_ord _ ops))) a b (num * k + 2) (num + 2) (join_inner k)
  /\ coarsens (uniformnoflow_axis ops) (uniformnoflow_axis ops) eq (within (fun _ => True) (in_interval (@num_ord _ ops)))
       (mkUniformNoFlow a) (mkUniformNoFlow b) (num * k) num (join k)
  /\ coarsens (uniformcyclic_axis ops) (uniformcyclic_axis ops) eq (within (fun _ => True) (in_interval (@num_ord _ ops)))
       (mkUniformCyclic (mkUniformNoFlow a)) (mkUniformCyclic (mkUniformNoFlow b)) (num * k) num (join k).
Proof using All.
  pose proof k_pos as Hk. pose proof (rg_usize _ _ _ _ _ Ra) as Ua. pose proof (rg_usize _ _ _ _ _ Rb) as Ub.
  destruct (C20_uniform_float_has_bins Bd prec emax P E a Ua) as (HA1 & HA2 & HA3). destruct (C20_uniform_float_has_bins Bd prec emax P E b Ub) as (HB1 & HB2 & HB3).
  rewrite Na in HA1, HA2, HA3, Ua. rewrite Nb in HB1, HB2, HB3, Ub. split; [|split].
  - constructor; [exact HA1 | exact HB1| |].
    + intros i Hi. destruct (N.eq_dec i 0) as [->|N0]; [|destruct (N.eq_dec i (num * k + 1)) as [->|N1]].
      * unfold join_inner. rewrite N.div_small by lia. split; [lia|]. exists (Underflow (u_low a)), (Underflow (u_low a)).
        split; [reflexivity|]. split; [rewrite <- EL; reflexivity|]. intros x _ H. exact H.
      * assert (join_inner k (num * k + 1) = (num + 1)%N) as ->.
        { unfold join_inner. replace (num * k + 1 + (k - 1))%N with ((num + 1) * k)%N by lia. apply N.div_mul. lia. }
        split; [lia|]. exists (Overflow (u_high a)), (Overflow (u_high a)). cbn [bin uniform_axis]. unfold uniform_bin. rewrite Na, Nb, EH.
        rewrite !uadd_ok by lia. cbn [obind]. destruct (N.eqb_spec (num * k + 1) 0); [lia|]. destruct (N.eqb_spec (num + 1) 0); [lia|]. rewrite !N.eqb_refl.
        split; [reflexivity|]. split; [reflexivity|]. intros x _ H. exact H.
      * destruct (contained (i - 1)) as (d1 & d2 & C1 & _ & C2 & _ & C3); [lia|]. replace (i - 1 + 1)%N with i in C1 by lia.
        assert (join_inner k i = ((i - 1) / k + 1)%N) as ->.
        { unfold join_inner. replace (i + (k - 1))%N with (i - 1 + 1 * k)%N by lia. apply N.div_add. lia. }
        split; [assert ((i - 1) / k < num)%N by (apply N.div_lt_upper_bound; lia); lia|]. exists d1, d2. split; [exact C1|]. split; [exact C2 | exact C3].
    + intros x y <-. destruct (regular_valid prec emax P E ltac:(lia) He a x Ra) as (i & Hi & Hle). exists (Some i).
      split; [exact Hi|]. split; [intros i' [= <-]; rewrite Na in Hle; lia|]. exact (joined_index x i Hi).
  - constructor; [exact HA2 | exact HB2| |].
    + intros i Hi. destruct (contained i Hi) as (d1 & d2 & _ & C1 & _ & C2 & C3). split; [unfold join; apply N.div_lt_upper_bound; lia|].
      exists d1, d2. split; [exact C1|]. split; [exact C2 | exact C3].
    + intros x y <-. destruct (regular_valid prec emax P E ltac:(lia) He a x Ra) as (i & Hi & Hle).
      assert (exists r, uniformnoflow_index ops (mkUniformNoFlow a) x = Val r) as [r Hr].
      { unfold uniformnoflow_index. cbn [unf_axis]. rewrite Hi. cbn [obind]. rewrite Na in Hle.
        destruct (N.eqb_spec i 0); [eexists; reflexivity|]. rewrite uadd_ok by lia. unfold uniform_num_bins. rewrite Na. rewrite uadd_ok by lia. cbn [obind].
        destruct (i + 1 =? num * k + 2)%N; [eexists; reflexivity|]. rewrite usub_ok by lia. eexists. reflexivity. }
      exists r. split; [exact Hr|]. exact (joined_noflow_index x r Hr).
  - constructor; [exact HA3 | exact HB3| |].
    + intros i Hi. destruct (contained i Hi) as (d1 & d2 & _ & C1 & _ & C2 & C3). split; [unfold join; apply N.div_lt_upper_bound; lia|].
      exists d1, d2. split; [exact C1|]. split; [exact C2 | exact C3].
    + intros x y <-. exact (joined_cyclic_index x).
Qed.
End Axes.
End Float.

(** The product that [with_step_size] computes the upper edge from is the same float. *)
Lemma same_product prec emax (P : Prec_gt_0 prec) (E : Prec_lt_emax prec emax) (j : Z) (num : N) (step step' : binary_float prec emax) :
  (8 <= prec <= 63)%Z -> (64 < emax)%Z -> (0 <= j)%Z -> (1 <= num)%N -> (Z.of_N (num * Z.to_N (2 ^ j)) < 2 ^ (prec - 1))%Z ->
  is_finite step = true -> is_finite step' = true -> 0 < B2R step -> B2R step' = B2R step * bpow radix2 j ->
  Bmult mode_NE (float_of_N prec emax P E num) step' = Bmult mode_NE (float_of_N prec emax P E (num * Z.to_N (2 ^ j))) step.
Proof.
  intros Hp He Hj Hn Hk Fs Fs' Hs HS. pose proof (k_pos j Hj) as Hk1. pose proof (k_real j Hj) as HkR. pose proof (bpow_gt_0 radix2 j) as Hb.
  assert (R1 : (1 <= Z.of_N num < 2 ^ (prec - 1))%Z) by (clear - Hn Hk Hk1; nia).
  assert (R2 : (1 <= Z.of_N (num * Z.to_N (2 ^ j)) < 2 ^ (prec - 1))%Z) by (clear - Hn Hk Hk1; nia).
  assert (Hp2 : (2 <= prec <= 63)%Z) by lia.
  destruct (num_float prec emax P E Hp2 num R1) as (V1 & F1 & S1 & _). destruct (num_float prec emax P E Hp2 _ R2) as (V2 & F2 & S2 & _).
  assert (sign : forall s : binary_float prec emax, is_finite s = true -> 0 < B2R s -> Bsign s = false).
  { intros s Fx Hx. destruct s as [g|g| |g sm se Hbd]; try discriminate Fx; [cbn in Hx; lra|]. destruct g; [|reflexivity].
    exfalso. change (0 < F2R (Float radix2 (Zneg sm) se)) in Hx. pose proof (F2R_lt_0 radix2 (Float radix2 (Zneg sm) se) ltac:(cbn; lia)) as Hneg.
    exact (Rlt_irrefl _ (Rlt_trans _ _ _ Hx Hneg)). }
  pose proof (sign step Fs Hs) as G. assert (Hs' : 0 < B2R step') by (rewrite HS; apply Rmult_lt_0_compat; lra). pose proof (sign step' Fs' Hs') as G'.
  pose proof (Bmult_correct prec emax _ _ mode_NE (float_of_N prec emax P E num) step') as H1.
  pose proof (Bmult_correct prec emax _ _ mode_NE (float_of_N prec emax P E (num * Z.to_N (2 ^ j))) step) as H2.
  assert (EV : B2R (float_of_N prec emax P E num) * B2R step' = B2R (float_of_N prec emax P E (num * Z.to_N (2 ^ j))) * B2R step).
  { rewrite V1, V2, HS, N2Z.inj_mul, mult_IZR, HkR. ring. }
  rewrite EV in H1. destruct (Rlt_bool _ _).
  - destruct H1 as (A1 & A2 & A3). destruct H2 as (B1 & B2 & B3). rewrite F1, Fs' in A2. rewrite F2, Fs in B2. cbn [andb] in A2, B2.
    apply B2R_Bsign_inj; [exact A2 | exact B2 | rewrite A1, B1; reflexivity|].
    rewrite A3, B3 by (match goal with |- is_nan ?z = false => destruct z; discriminate || reflexivity end). rewrite S1, S2, G, G'. reflexivity.
  - apply B2SF_inj. rewrite H1, H2, S1, S2, G, G'. reflexivity.
Qed.

(** C87, floats. [with_step_size(num * 2^j, low, step)] and [with_step_size(num, low, step * 2^j)]:
    in spite of all rounding, [index] of the coarse axis is [index] of the fine axis with the
    bins joined in [2^j]s, for EVERY float, and every fine bin lies in its coarse bin. *)
Theorem C87_uniform_float_step : forall (prec emax : Z) (P : Prec_gt_0 prec) (E : Prec_lt_emax prec emax) (B : Build)
  (j : Z) (num : N) (low step step' : binary_float prec emax),
  let k := Z.to_N (2 ^ j) in
  covered_format prec emax -> (0 <= j)%Z -> (1 <= num)%N -> (Z.of_N (num * k) < 2 ^ (prec - 1))%Z -> (num * k + 2 < usize_mod)%N ->
  is_finite low = true -> is_finite step = true -> is_finite step' = true -> 0 < B2R step -> B2R step' = B2R step * bpow radix2 j ->
  let high := Bplus mode_NE (Bmult mode_NE (float_of_N prec emax P E (num * k)) step) low in
  is_finite high = true -> B2R low < B2R high -> IZR (Z.of_N (num * k)) * magnitude (B2R low) (B2R high) < bpow radix2 (emax - 3) ->
  let ops := float_ops prec emax P E in
  let inside := within (fun _ => True) (in_interval (@num_ord _ ops)) in
  exists a b, uniform_with_step_size ops (num * k) low step = Val (Ok a) /\ uniform_with_step_size ops num low step' = Val (Ok b)
  /\ coarsens (uniform_axis ops) (uniform_axis ops) eq inside a b (num * k + 2) (num + 2) (join_inner k)
  /\ coarsens (uniformnoflow_axis ops) (uniformnoflow_axis ops) eq inside (mkUniformNoFlow a) (mkUniformNoFlow b) (num * k) num (join k)
  /\ coarsens (uniformcyclic_axis ops) (uniformcyclic_axis ops) eq inside
       (mkUniformCyclic (mkUniformNoFlow a)) (mkUniformCyclic (mkUniformNoFlow b)) (num * k) num (join k).
Proof.
  intros prec emax P E B j num low step step' k Hf Hj Hn Hk Hu Fl Fs Fs' Hs HS high Fh Hlt HM ops inside. pose proof Hf as [Hp He].
  pose proof (k_pos j Hj) as Hk1. pose proof (bpow_gt_0 radix2 j) as Hb. fold k in Hk1.
  assert (R1 : (1 <= Z.of_N num < 2 ^ (prec - 1))%Z) by (clear - Hn Hk Hk1; nia).
  assert (R2 : (1 <= Z.of_N (num * k) < 2 ^ (prec - 1))%Z) by (clear - Hn Hk Hk1; nia).
  assert (U1 : (num + 2 < usize_mod)%N) by (clear - Hu Hk1; nia).
  assert (Hs' : 0 < B2R step') by (rewrite HS; apply Rmult_lt_0_compat; lra).
  pose proof (same_product prec emax P E j num step step' Hp He Hj Hn Hk Fs Fs' Hs HS) as HP. fold k in HP.
  destruct (regular_step prec emax P E ltac:(lia) (num * k) low step R2 Hu Fl Fs Hs) as [Ra Ga]. fold high in Ra, Ga.
  destruct (regular_step prec emax P E ltac:(lia) num low step' R1 U1 Fl Fs' Hs') as [Rb Gb]. rewrite HP in Rb, Gb. fold high in Rb, Gb.
  assert (La : @le_ _ (@num_ord _ ops) step (B754_zero false) = false) by (unfold ops; rewrite le_fin by (reflexivity || assumption); apply Rle_bool_false; exact Hs).
  assert (Lb : @le_ _ (@num_ord _ ops) step' (B754_zero false) = false) by (unfold ops; rewrite le_fin by (reflexivity || assumption); apply Rle_bool_false; exact Hs').
  exists (mkUniform (num * k) low high step), (mkUniform num low high step').
  split. { unfold uniform_with_step_size. unfold ops in *. cbn [n_from_usize n_mul n_add n_zero float_ops obind].
    destruct (N.eqb_spec (num * k) 0); [clear - e Hn Hk1; nia|]. rewrite La. fold high. rewrite Ga. reflexivity. }
  split. { unfold uniform_with_step_size. unfold ops in *. cbn [n_from_usize n_mul n_add n_zero float_ops obind].
    destruct (N.eqb_spec num 0); [lia|]. rewrite Lb, HP. fold high. rewrite Gb. reflexivity. }
  apply (joined_coarsens prec emax P E Hp He j Hj num _ _ Ra Rb); try reflexivity; assumption.
Qed.
Print Assumptions C87_uniform_float_step.

(** [Uniform::new(num * 2^j, low, high)] and [Uniform::new(num, low, high)] likewise. *)
Theorem C87_uniform_float_new : forall (prec emax : Z) (P : Prec_gt_0 prec) (E : Prec_lt_emax prec emax) (B : Build)
  (j : Z) (num : N) (low high : binary_float prec emax),
  let k := Z.to_N (2 ^ j) in
  covered_format prec emax -> (0 <= j)%Z -> (1 <= num)%N -> (Z.of_N (num * k) < 2 ^ (prec - 1))%Z -> (num * k + 2 < usize_mod)%N ->
  is_finite low = true -> is_finite high = true -> B2R low < B2R high ->
  IZR (Z.of_N (num * k)) * smallest_normal emax <= B2R high - B2R low ->
  IZR (Z.of_N (num * k)) * magnitude (B2R low) (B2R high) < bpow radix2 (emax - 3) ->
  let ops := float_ops prec emax P E in
  let inside := within (fun _ => True) (in_interval (@num_ord _ ops)) in
  exists a b, uniform_new ops (num * k) low high = Val (Ok a) /\ uniform_new ops num low high = Val (Ok b)
  /\ coarsens (uniform_axis ops) (uniform_axis ops) eq inside a b (num * k + 2) (num + 2) (join_inner k)
  /\ coarsens (uniformnoflow_axis ops) (uniformnoflow_axis ops) eq inside (mkUniformNoFlow a) (mkUniformNoFlow b) (num * k) num (join k)
  /\ coarsens (uniformcyclic_axis ops) (uniformcyclic_axis ops) eq inside
       (mkUniformCyclic (mkUniformNoFlow a)) (mkUniformCyclic (mkUniformNoFlow b)) (num * k) num (join k).
Proof.
  intros prec emax P E B j num low high k Hf Hj Hn Hk Hu Fl Fh Hlt Hw HM ops inside. pose proof Hf as [Hp He].
  pose proof (k_pos j Hj) as Hk1. pose proof (k_real j Hj) as HkR. pose proof (bpow_gt_0 radix2 j) as Hb. fold k in Hk1, HkR.
  assert (R1 : (1 <= Z.of_N num < 2 ^ (prec - 1))%Z) by (clear - Hn Hk Hk1; nia).
  assert (R2 : (1 <= Z.of_N (num * k) < 2 ^ (prec - 1))%Z) by (clear - Hn Hk Hk1; nia).
  assert (U1 : (num + 2 < usize_mod)%N) by (clear - Hu Hk1; nia).
  destruct (edge_width prec emax P E Hp (num * k) low high R2 Fl Fh Hlt HM) as (Fw & _).
  assert (Hw1 : IZR (Z.of_N num) * smallest_normal emax <= B2R high - B2R low).
  { eapply Rle_trans; [|exact Hw]. apply Rmult_le_compat_r; [apply bpow_ge_0 | apply IZR_le; clear - Hk1; nia]. }
  destruct (new_normal (P := P) (E := E) (B := B) (num * k) low high Hf R2 Hu Fl Fh Hlt) as [Ea Ha]. destruct (Ha Fw Hw) as [Ra _].
  destruct (new_normal (P := P) (E := E) (B := B) num low high Hf R1 U1 Fl Fh Hlt) as [Eb Hb']. destruct (Hb' Fw Hw1) as [Rb _].
  eexists _, _. split; [exact Ea|]. split; [exact Eb|].
  apply (joined_coarsens prec emax P E Hp He j Hj num _ _ Ra Rb); try reflexivity; try assumption.
  cbn [u_step]. assert (Hp2 : (2 <= prec <= 63)%Z) by lia.
  destruct (new_step prec emax P E Hp2 num _ R1 Fw) as [_ V1]. destruct (new_step prec emax P E Hp2 (num * k) _ R2 Fw) as [_ V2]. rewrite V1, V2.
  rewrite (@smallest_normal_eq prec emax) in Hw.
  destruct (width_normal prec emax P E Hp (num * k) low high R2 Fl Fh Hlt Fw Hw) as [W _].
  rewrite <- (rnd_scale_normal prec emax j Hj).
  - f_equal. rewrite N2Z.inj_mul, mult_IZR, HkR. assert (0 < IZR (Z.of_N num)) by (apply IZR_lt; lia). field. lra.
  - eapply Rle_trans; [exact W | apply Rle_abs].
Qed.
Print Assumptions C87_uniform_float_new.

(** Only powers of two: 30 and 10 bins over [0, 1) in [f64]. 0.3 is in bin 10 of the fine axis
    (which should be joined into bin 4), but in bin 3 of the coarse one, so the
    coarse histogram is not the sum of the fine bins. *)
Theorem C87_float_any_factor_refuted : forall B : Build,
  let low := f64_lit 0 0 in let high := f64_lit 1 0 in let x := f64_quot 3 10 in
  exists a b, uniform_new f64_ops 30 low high = Val (Ok a) /\ uniform_new f64_ops 10 low high = Val (Ok b)
  /\ uniform_index f64_ops a x = Val (Some 10%N) /\ uniform_index f64_ops b x = Val (Some 3%N) /\ join_inner 3 10 = 4%N.
Proof.
  intros B low high x.
  exists (mkUniform 30 low high (Bdiv mode_NE (Bminus mode_NE high low) (float_of_N 53 1024 prec64 emax64 30))),
         (mkUniform 10 low high (Bdiv mode_NE (Bminus mode_NE high low) (float_of_N 53 1024 prec64 emax64 10))).
  assert (H1 : @eq_ _ (@num_ord _ f64_ops) low high = false) by (vm_compute; reflexivity).
  assert (H2 : @gt_ _ (@num_ord _ f64_ops) low high = false) by (vm_compute; reflexivity).
  split. { unfold uniform_new. change (30 =? 0)%N with false. rewrite H1, H2. reflexivity. }
  split. { unfold uniform_new. change (10 =? 0)%N with false. rewrite H1, H2. reflexivity. }
  split; [destruct B as [? []]; vm_compute; reflexivity|]. split; [destruct B as [? []]; vm_compute; reflexivity | reflexivity].
Qed.
Print Assumptions C87_float_any_factor_refuted.

(** Cases: 40 bins of 0.1 (rounded) joined in fours; 40 bins over [0, 1). *)
Example C87_float_nonvacuous : forall B : Build,
  let low := f64_lit 0 0 in let high := f64_lit 1 0 in let k := Z.to_N (2 ^ 2) in
  let step := f64_lit 3602879701896397 (-55) in let step' := f64_lit 3602879701896397 (-53) in
  B2SF step = B2SF (f64_quot 1 10) /\ covered_format 53 1024 /\ (Z.of_N (10 * k) < 2 ^ (53 - 1))%Z /\ (10 * k + 2 < usize_mod)%N
  /\ (is_finite step = true /\ is_finite step' = true /\ 0 < B2R step /\ B2R step' = B2R step * bpow radix2 2
      /\ let top := Bplus mode_NE (Bmult mode_NE (float_of_N 53 1024 prec64 emax64 (10 * k)) step) low in
         is_finite top = true /\ B2R low < B2R top /\ IZR (Z.of_N (10 * k)) * magnitude (B2R low) (B2R top) < bpow radix2 (1024 - 3))
  /\ (B2R low < B2R high /\ IZR (Z.of_N (10 * k)) * smallest_normal 1024 <= B2R high - B2R low
      /\ IZR (Z.of_N (10 * k)) * magnitude (B2R low) (B2R high) < bpow radix2 (1024 - 3)).
Proof.
  intros B low high k step step'.
  destruct (f64_int 0 ltac:(lia)) as [Z1 Z2]. destruct (f64_int 1 ltac:(lia)) as [O1 O2]. destruct (f64_int 4 ltac:(lia)) as [T1 T2].
  destruct (f64_grid 3602879701896397 (-55)) as [F1 V1]; [vm_compute; discriminate | unfold grid_exponent; lia|].
  destruct (f64_grid 3602879701896397 (-53)) as [F2 V2]; [vm_compute; discriminate | unfold grid_exponent; lia|].
  fold step in F1, V1. fold step' in F2, V2.
  assert (ET : Bplus mode_NE (Bmult mode_NE (float_of_N 53 1024 prec64 emax64 (10 * k)) step) low = f64_lit 4 0) by (apply B2SF_inj; vm_compute; reflexivity).
  assert (EK : Z.of_N (10 * k) = 40%Z) by reflexivity.
  split; [vm_compute; reflexivity|]. split; [exact f64_covered|]. split; [vm_compute; reflexivity|]. split; [destruct B as [? []]; vm_compute; reflexivity|].
  split.
  - split; [exact F1|]. split; [exact F2|].
    split; [rewrite V1; apply Rmult_lt_0_compat; [apply IZR_lt; reflexivity | apply bpow_gt_0]|].
    split; [rewrite V1, V2; change (-53)%Z with (-55 + 2)%Z; rewrite bpow_plus; ring|].
    rewrite ET, EK. cbv zeta. unfold low, f64 in *. rewrite Z1, T1. split; [exact T2|]. split; [lra|].
    unfold magnitude. rewrite Rabs_R0, Rabs_pos_eq by lra. rewrite Rmax_right by lra.
    apply Rlt_le_trans with (bpow radix2 8); [change (bpow radix2 8) with 256; lra | apply bpow_le; lia].
  - rewrite EK. unfold low, high, f64 in *. rewrite Z1, O1. split; [lra|]. split.
    + apply Rle_trans with (bpow radix2 6 * smallest_normal 1024).
      * apply Rmult_le_compat_r; [apply bpow_ge_0|]. change (bpow radix2 6) with 64. lra.
      * unfold smallest_normal. rewrite <- bpow_plus. rewrite Rminus_0_r. change 1 with (bpow radix2 0). apply bpow_le. lia.
    + unfold magnitude. rewrite Rabs_R0, Rabs_pos_eq by lra. rewrite Rmax_right by lra.
      apply Rlt_le_trans with (bpow radix2 6); [change (bpow radix2 6) with 64; lra | apply bpow_le; lia].
Qed.
