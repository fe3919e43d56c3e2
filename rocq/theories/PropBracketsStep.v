(** * PropBracketsStep: counting on float axes made by [with_step_size] (C06, C76). *)
From stdpp Require Import gmap.
From Coq Require Import ZifyN ZifyNat Lia Reals Lra.
From Flocq Require Import Core IEEE754.BinarySingleNaN.
From Verif Require Import Base BaseFacts Num Float FloatFacts FloatSpec FloatUniform FloatUniformNew FloatUniformAcc Axis Axes Spec AxesSpec Uniform
  OrdLaws FloatOrd PropAxes PropUniformFloat PropUniformFloatEx PropCyclicFloat PropFloatCounts PropBrackets.
Open Scope N_scope.

(** C06, [with_step_size], the overflow bin: a coordinate below the computed upper
    edge is counted as overflow only if it is within the error of [low + num * step]. *)
Theorem C06_with_step_size_float_overflow : forall (prec emax : Z) (P : Prec_gt_0 prec) (E : Prec_lt_emax prec emax) (B : Build)
  (num : N) (low step : binary_float prec emax),
  covered_format prec emax -> (1 <= Z.of_N num < 2 ^ (prec - 1))%Z -> (num + 2 < usize_mod)%N ->
  is_finite low = true -> is_finite step = true -> (0 < B2R step)%R ->
  let u := unit_roundoff prec in
  let high := Bplus mode_NE (Bmult mode_NE (float_of_N prec emax P E num) step) low in
  exists a, uniform_with_step_size (float_ops prec emax P E) num low step = Val (Ok a)
  /\ forall x, is_finite x = true -> flt_lt x high -> is_finite (Bminus mode_NE x low) = true ->
     uniform_index (float_ops prec emax P E) a x = Val (Some (num + 1)) ->
     (IZR (Z.of_N num) * B2R step * (1 - 4 * u) <= B2R x - B2R low)%R.
Proof.
  intros prec emax P E B num low step Hf Hn Hus Fl Fs Hs u high. pose proof Hf as [Hp He].
  pose proof (u_pos prec) as Hu0. pose proof (u_tiny prec Hp) as Hu1.
  destruct (regular_step prec emax P E ltac:(lia) num low step Hn Hus Fl Fs Hs) as [R G]. fold high in R, G.
  set (a := mkUniform num low high step) in *. exists a.
  assert (Hle0 : @le_ _ (@num_ord _ (float_ops prec emax P E)) step (B754_zero false) = false).
  { rewrite le_fin by (reflexivity || assumption). apply Rle_bool_false. exact Hs. }
  split.
  { unfold uniform_with_step_size. cbn [n_from_usize n_mul n_add n_zero float_ops obind].
    destruct (N.eqb_spec num 0); [lia|]. rewrite Hle0. fold high. rewrite G. reflexivity. }
  intros x Fx Hxh Fd Hi. pose proof (float_ord_laws prec emax P E) as L.
  assert (E1 : @lt_ _ (@num_ord _ (float_ops prec emax P E)) x low = false).
  { destruct (lt_ x low) eqn:El; [|reflexivity]. exfalso. revert Hi. unfold uniform_index. cbn [u_low a].
    match goal with |- context [if ?b then _ else _] => replace b with true by (symmetry; exact El) end. intros [= Hi]. lia. }
  assert (E2 : @ge_ _ (@num_ord _ (float_ops prec emax P E)) x high = false).
  { rewrite (ge_le _ _ L). apply flt_lt_iff in Hxh. destruct (le_ high x) eqn:El; [|reflexivity].
    exfalso. eapply (lt_not_le _ _ L); eassumption. }
  assert (Hlx : (B2R low <= B2R x)%R) by (rewrite lt_fin in E1 by assumption; destruct (Rlt_bool_spec (B2R x) (B2R low)); [discriminate | assumption]).
  destruct (regular_accuracy prec emax P E Hp He a x R Fx E1 E2) as [[_ [k [_ [Ei [B1 _]]]]]|[Ht _]].
  - rewrite Hi in Ei. injection Ei as Ei. assert (k = num) by lia. subst k. cbn [u_step u_low a] in B1. fold (unit_roundoff prec) in B1.
    fold u in B1. change (bpow radix2 (- prec)) with u in Hu0, Hu1.
    assert (HD : (0 <= B2R x - B2R low)%R) by lra. set (D := (B2R x - B2R low)%R) in *. set (S := (IZR (Z.of_N num) * B2R step)%R) in *.
    assert (HS : (0 <= S)%R) by (apply Rmult_le_pos; [apply IZR_le; lia | lra]).
    apply Rle_trans with (D * ((1 + u) * (1 + u)) * (1 - 4 * u))%R; [apply Rmult_le_compat_r; lra|].
    assert (((1 + u) * (1 + u)) * (1 - 4 * u) <= 1)%R by nra. nra.
  - exfalso. destruct (distance_computed prec emax P E x low Fx Fl Hlx) as [_ [_ D2]]. cbn [u_low a] in Ht. rewrite (D2 Ht) in Fd. discriminate.
Qed.
Print Assumptions C06_with_step_size_float_overflow.

(** [with_step_size(num, low, step)] as a bracketed axis. [high] is the upper edge
    as computed in floating point; a coordinate below both [high] and the tolerance
    around [low + num * step] is never counted as overflow. *)
Definition surely_in_steps {prec emax : Z} (num : N) (low step high : binary_float prec emax) (i : N) (x : binary_float prec emax) : Prop :=
  let u := unit_roundoff prec in
  let edge (k : N) (c : R) := (B2R low + IZR (Z.of_N k) * B2R step * c)%R in
  if i =? 0 then below (B2R low) x = true
  else if i =? num + 1 then below (B2R high) x = false
  else between (edge (i - 1)%N (1 + 4 * u)%R) (edge i (1 - 4 * u)%R) x = true /\ below (B2R high) x = true.

Definition maybe_in_steps {prec emax : Z} (num : N) (low step high : binary_float prec emax) (i : N) (x : binary_float prec emax) : Prop :=
  let u := unit_roundoff prec in
  let edge (k : N) (c : R) := (B2R low + IZR (Z.of_N k) * B2R step * c)%R in
  if i =? 0 then below (B2R low) x = true
  else if i =? num + 1 then below (B2R high) x = false \/ below (edge num (1 - 4 * u)%R) x = false
  else between (edge (i - 1)%N (1 - 4 * u)%R) (edge i (1 + 4 * u)%R) x = true /\ below (B2R high) x = true.

Theorem C76_step_float : forall (prec emax : Z) (P : Prec_gt_0 prec) (E : Prec_lt_emax prec emax) (B : Build)
  (num : N) (low step : binary_float prec emax),
  covered_format prec emax -> (1 <= Z.of_N num < 2 ^ (prec - 1))%Z -> (num + 2 < usize_mod)%N ->
  is_finite low = true -> is_finite step = true -> (0 < B2R step)%R ->
  let ops := float_ops prec emax P E in
  let high := Bplus mode_NE (Bmult mode_NE (float_of_N prec emax P E num) step) low in
  is_finite high = true -> is_finite (Bminus mode_NE high low) = true ->
  exists a, uniform_with_step_size ops num low step = Val (Ok a)
  /\ uniformnoflow_with_step_size ops num low step = Val (Ok (mkUniformNoFlow a))
  /\ bracketed (uniform_axis ops) a (num + 2) (fun _ => True) (surely_in_steps num low step high) (maybe_in_steps num low step high)
  /\ bracketed (uniformnoflow_axis ops) (mkUniformNoFlow a) num (fun _ => True)
       (fun i => surely_in_steps num low step high (i + 1)) (fun i => maybe_in_steps num low step high (i + 1)).
Proof.
  intros prec emax P E B num low step Hf Hn Hus Fl Fs Hs0 ops high Fh Fd. pose proof Hf as [Hp He].
  destruct (C06_with_step_size_float_accuracy prec emax P E B num low step Hf Hn Hus Fl Fs Hs0) as [a [Ha [A1 A2]]].
  destruct (C06_with_step_size_float_overflow prec emax P E B num low step Hf Hn Hus Fl Fs Hs0) as [a' [Ha' A3]].
  rewrite Ha in Ha'. injection Ha' as <-. fold ops high in Ha, A1, A2, A3.
  assert (Hmade : made_axis (P := P) (E := E) num a) by exact (made_by_step num a low step Ha).
  destruct (C04_float_index_valid prec emax P E B num a Hf ltac:(lia) Hus Hmade) as [Hnb Hvalid].
  destruct (C03_with_step_size_float_flow prec emax P E B num low step a Hf ltac:(lia) Hus Ha) as [_ [Fover Fnan]].
  fold ops high in Hvalid, Fover, Fnan.
  destruct (C08_with_step_size_float prec emax P E B num low step Hf ltac:(lia) Hus) as [_ [_ C8]].
  assert (Hnle : ~ flt_le step (B754_zero false)).
  { intros C. apply flt_le_iff in C. rewrite le_fin in C by (reflexivity || assumption).
    destruct (Rle_bool_spec (B2R step) (B2R (B754_zero false : binary_float prec emax))) as [H|H]; [cbn in H; lra | discriminate]. }
  destruct (C8 ltac:(lia) Hnle) as [a' [Ha' [_ [Hb0 _]]]]. fold ops in Ha', Hb0. rewrite Ha in Ha'. injection Ha' as <-. clear C8.
  destruct (@made_disposition prec emax P E B num a Hf ltac:(lia) Hus Hmade) as [Enum _].
  assert (Funder : forall x, uniform_index ops a x = Val (Some 0) <-> below (B2R low) x = true).
  { intros x. rewrite (below_lt _ _ P E) by exact Fl. exact (C03_float_underflow_only prec emax P E B num a x low Hf ltac:(lia) Hus Hmade Hb0). }
  assert (Hu0 : (0 < unit_roundoff prec /\ 8 * unit_roundoff prec < 1)%R).
  { unfold unit_roundoff. split; [apply bpow_gt_0|].
    assert (H : (bpow radix2 (- prec) <= bpow radix2 (- 4))%R) by (apply bpow_le; clear - Hp; lia). change (bpow radix2 (-4)) with (/ 16)%R in H. lra. }
  remember (unit_roundoff prec) as u eqn:Hu.
  (* distances in range do not overflow *)
  assert (Hdist : forall x, is_finite x = true -> (B2R low <= B2R x)%R -> flt_lt x high -> is_finite (Bminus mode_NE x low) = true).
  { intros x Fx Hlx Hxh. apply (below_lt _ _ P E _ _ Fh) in Hxh. apply below_finite in Hxh; [|exact Fx].
    destruct (distance_computed prec emax P E x low Fx Fl Hlx) as [_ [D1 _]]. apply D1.
    destruct (distance_computed prec emax P E high low Fh Fl ltac:(lra)) as [_ [_ D2]].
    destruct (Rlt_or_le (round radix2 (SpecFloat.fexp prec emax) (round_mode mode_NE) (B2R high - B2R low)) (bpow radix2 emax)) as [Ht|Ht].
    - eapply Rle_lt_trans; [|exact Ht]. apply rnd_le; [exact P | lra].
    - rewrite (D2 Ht) in Fd. discriminate. }
  assert (Hsome : forall k, (0 <= IZR (Z.of_N k) * B2R step)%R) by (intros k; apply Rmult_le_pos; [apply IZR_le; lia | lra]).
  assert (Hover : forall x, below (B2R high) x = false -> uniform_index ops a x = Val (Some (num + 1))).
  { intros x Hx. destruct (is_nan x) eqn:Nx; [destruct x; try discriminate Nx; exact Fnan|].
    apply Fover. apply (not_below_le _ _ P E); assumption. }
  assert (Hs : forall x i, i < num + 2 -> surely_in_steps num low step high i x -> uniform_index ops a x = Val (Some i)).
  { intros x i Hi Hs. unfold surely_in_steps in Hs. rewrite <- Hu in Hs. destruct (N.eqb_spec i 0) as [->|H0]; [apply Funder; exact Hs|].
    destruct (N.eqb_spec i (num + 1)) as [->|H1]; [apply Hover; exact Hs|]. destruct Hs as [Hx Hxh].
    unfold between in Hx. apply andb_true_iff in Hx as [Hx1 Hx2]. apply negb_true_iff in Hx1.
    destruct (is_finite x) eqn:Fx; [|destruct x as [s|s| |s m e Hbd]; try discriminate Fx; [cbn in *; congruence | discriminate Hx2]].
    apply (below_lt _ _ P E _ _ Fh) in Hxh. apply below_finite in Hx2; [|exact Fx].
    assert (Hge : ~ (B2R x < B2R low + IZR (Z.of_N (i - 1)) * B2R step * (1 + 4 * u))%R) by (intros C; apply (below_finite _ _ x _ Fx) in C; congruence).
    pose proof (Hsome (i - 1)) as Hp1.
    assert (Hlx : (B2R low <= B2R x)%R) by nra.
    apply (A2 x i Fx ltac:(lia) Hxh (Hdist x Fx Hlx Hxh)).
    replace (IZR (Z.of_N (i - 1))) with (IZR (Z.of_N i) - 1)%R in Hge by (rewrite <- minus_IZR; f_equal; lia). lra. }
  assert (Hm : forall x i, uniform_index ops a x = Val (Some i) -> maybe_in_steps num low step high i x).
  { intros x i Hi. unfold maybe_in_steps. rewrite <- Hu. destruct (N.eqb_spec i 0) as [->|H0]; [apply Funder; exact Hi|].
    destruct (N.eqb_spec i (num + 1)) as [->|H1].
    - destruct (below (B2R high) x) eqn:Hxh; [right | left; reflexivity].
      apply (below_lt _ _ P E _ _ Fh) in Hxh.
      destruct (is_finite x) eqn:Fx.
      2:{ destruct x as [s|s| |s m e Hbd]; try discriminate Fx; [|reflexivity]. cbn. destruct s; [|reflexivity]. exfalso.
          assert (H : uniform_index ops a (B754_infinity true) = Val (Some 0)) by (apply Funder; reflexivity). rewrite Hi in H. injection H as H. lia. }
      destruct (below _ x) eqn:Hbel; [exfalso | reflexivity]. apply below_finite in Hbel; [|exact Fx].
      assert (Hlx : (B2R low <= B2R x)%R).
      { destruct (Rle_lt_dec (B2R low) (B2R x)) as [H|H]; [exact H|]. apply (below_finite _ _ x _ Fx) in H. apply Funder in H. rewrite Hi in H. injection H as H. lia. }
      pose proof (A3 x Fx Hxh (Hdist x Fx Hlx Hxh) Hi) as H3. lra.
    - destruct (Hvalid x) as [i' [Ei Hi']]. rewrite Hi in Ei. injection Ei as <-.
      destruct (A1 x i Hi ltac:(lia)) as [Fx [_ [Hxh [B1 B2]]]]. split.
      + unfold between. apply andb_true_iff. split.
        * apply negb_true_iff. destruct (below _ x) eqn:Hbel; [exfalso | reflexivity]. apply below_finite in Hbel; [|exact Fx].
          replace (IZR (Z.of_N (i - 1))) with (IZR (Z.of_N i) - 1)%R in Hbel by (rewrite <- minus_IZR; f_equal; lia). lra.
        * apply below_finite; [exact Fx | lra].
      + apply (below_lt _ _ P E _ _ Fh). exact Hxh. }
  exists a. split; [exact Ha|]. split; [unfold uniformnoflow_with_step_size; rewrite Ha; reflexivity|]. split.
  - constructor.
    + rewrite <- Enum. apply (C20_uniform_float_has_bins B prec emax P E a). rewrite Enum. exact Hus.
    + intros c _. destruct (Hvalid c) as [i [Ei Hi]]. exists (Some i). split; [exact Ei|]. intros j Hj. injection Hj as <-. exact Hi.
    + intros c i _ Hi Hc. exact (Hs c i Hi Hc).
    + intros c i _ Hc. exact (Hm c i Hc).
  - pose proof (fun x => C09_noflow_float prec emax P E B num a x Hf (proj2 Hn) Hus Hmade) as H9. fold ops in H9.
    constructor.
    + rewrite <- Enum. apply (C20_uniform_float_has_bins B prec emax P E a). rewrite Enum. exact Hus.
    + intros c _. destruct (H9 c) as [_ [i [_ [[E1 _]|[j [E1 [_ Hj]]]]]]].
      * exists None. split; [exact E1 | discriminate].
      * exists (Some j). split; [exact E1|]. intros k Hk. injection Hk as <-. exact Hj.
    + intros c i _ Hi Hc. apply Hs in Hc; [|lia]. destruct (H9 c) as [_ [i' [Ei [[E1 H1]|[j [E1 [Hj _]]]]]]].
      * rewrite Hc in Ei. injection Ei as <-. lia.
      * rewrite Hc in Ei. injection Ei as Ei. assert (i = j) by lia. subst j. exact E1.
    + intros c i _ Hc. destruct (H9 c) as [_ [i' [Ei [[E1 _]|[j [E1 [Hj _]]]]]]].
      * discriminate (eq_trans (eq_sym Hc) E1).
      * pose proof (eq_trans (eq_sym Hc) E1) as Ej. injection Ej as <-. subst i'. exact (Hm c _ Ei).
Qed.
Print Assumptions C76_step_float.

(** Non-vacuity: four bins of width 2 starting at 1. *)
Example C76_step_nonvacuous : forall B : Build,
  let low := f64_lit 1 0 in let step := f64_lit 2 0 in
  let high := Bplus mode_NE (Bmult mode_NE (float_of_N 53 1024 prec64 emax64 4) step) low in
  covered_format 53 1024 /\ (1 <= Z.of_N 4 < 2 ^ (53 - 1))%Z /\ 4 + 2 < usize_mod
  /\ is_finite low = true /\ is_finite step = true /\ (0 < B2R step)%R
  /\ is_finite high = true /\ is_finite (Bminus mode_NE high low) = true.
Proof.
  intros B low step high. destruct float_params_nonvacuous as [H1 _]. split; [exact H1|]. split; [lia|].
  split; [pose proof usize_mod_large; lia|]. split; [vm_compute; reflexivity|]. split; [vm_compute; reflexivity|].
  split; [|split; vm_compute; reflexivity].
  destruct (f64_int 2 ltac:(lia)) as [T1 _]. unfold f64 in *. fold step in T1. rewrite T1. lra.
Qed.
