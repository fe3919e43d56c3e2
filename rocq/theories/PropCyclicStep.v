(** * Property theorems: UniformCyclic and UniformNoFlow built by [with_step_size], over floats (C09, C11). *)
From Coq Require Import List ZArith NArith Bool Lia Reals Lra ZifyN ZifyNat.
From Flocq Require Import Core IEEE754.BinarySingleNaN.
From Verif Require Import Base BaseFacts Num Float Axis Spec OrdLaws FloatOrd FloatFacts FloatSpec Uniform
  FloatUniform FloatUniformNew FloatUniformAcc FloatUniformEdge FloatCyclic PropUniformInt PropUniformFloat PropUniformFloatEx
  PropCyclicFloat.
Open Scope R_scope.

Lemma plus_finite (prec emax : Z) (P : Prec_gt_0 prec) (E : Prec_lt_emax prec emax) (x y : binary_float prec emax) :
  is_finite (Bplus mode_NE x y) = true -> is_finite x = true /\ is_finite y = true.
Proof. destruct x as [sx|sx| |sx mx ex Hx], y as [sy|sy| |sy my ey Hy]; cbn; auto; destruct sx, sy; cbn; discriminate. Qed.

(** C09 for [with_step_size]: NaN is in no bin of a NoFlow axis, nor is an infinity when
    both edges are finite. *)
Theorem C09_noflow_step_float_special : forall (prec emax : Z) (P : Prec_gt_0 prec) (E : Prec_lt_emax prec emax) (B : Build)
  (num : N) (low step : binary_float prec emax) a,
  covered_format prec emax -> (Z.of_N num < 2 ^ (prec - 1))%Z -> (num + 2 < usize_mod)%N ->
  uniformnoflow_with_step_size (float_ops prec emax P E) num low step = Val (Ok a) ->
  uniformnoflow_index (float_ops prec emax P E) a B754_nan = Val None
  /\ (is_finite (Bplus mode_NE (Bmult mode_NE (float_of_N prec emax P E num) step) low) = true ->
      forall s, uniformnoflow_index (float_ops prec emax P E) a (B754_infinity s) = Val None).
Proof.
  intros prec emax P E B num low step a Hf Hn1 Hn Ha. unfold uniformnoflow_with_step_size in Ha.
  destruct (uniform_with_step_size (float_ops prec emax P E) num low step) as [[u|e]|] eqn:Hu; try discriminate. injection Ha as <-.
  destruct (C03_with_step_size_float_flow prec emax P E B num low step u Hf Hn1 Hn Hu) as [H0 [H1 H2]].
  destruct (step_ok _ _ _ _ _ _ _ _ Hu) as [_ [_ [lo [hi [_ Eu]]]]].
  assert (Hnum : u_num u = num) by (rewrite Eu; reflexivity).
  assert (Hnone : forall x, uniform_index (float_ops prec emax P E) u x = Val (Some 0%N)
     \/ uniform_index (float_ops prec emax P E) u x = Val (Some (num + 1)%N) ->
     uniformnoflow_index (float_ops prec emax P E) (mkUniformNoFlow u) x = Val None).
  { intros x [Hx|Hx].
    - destruct (noflow_of_index (float_ops prec emax P E) u x 0 ltac:(lia) Hx ltac:(lia)) as [[Hr _]|[j [_ [Hj _]]]]; [exact Hr | lia].
    - destruct (noflow_of_index (float_ops prec emax P E) u x (num + 1) ltac:(lia) Hx ltac:(lia)) as [[Hr _]|[j [_ [Hj ?]]]]; [exact Hr | lia]. }
  split; [apply Hnone; right; exact H2|].
  intros Fh s. destruct (plus_finite _ _ _ _ _ _ Fh) as [_ Fl]. apply Hnone. destruct s; [left; apply H0 | right; apply H1].
  - destruct low; try discriminate; reflexivity.
  - left. revert Fh. generalize (Bplus mode_NE (Bmult mode_NE (float_of_N prec emax P E num) step) low). intros h Fh.
    destruct h; try discriminate; reflexivity.
Qed.
Print Assumptions C09_noflow_step_float_special.

(** C11 for [with_step_size]: NaN and the infinities are in no bin of a cyclic axis. *)
Theorem C11_cyclic_step_float_nonfinite : forall (prec emax : Z) (P : Prec_gt_0 prec) (E : Prec_lt_emax prec emax) (B : Build)
  (num : N) (low step : binary_float prec emax) a x,
  covered_format prec emax -> (Z.of_N num < 2 ^ (prec - 1))%Z -> (num + 2 < usize_mod)%N ->
  uniformcyclic_with_step_size (float_ops prec emax P E) num low step = Val (Ok a) ->
  is_finite x = false ->
  uniformcyclic_index (float_ops prec emax P E) a x = Val None.
Proof.
  intros prec emax P E B num low step a x Hf Hn1 Hn Ha Fx. unfold uniformcyclic_with_step_size in Ha.
  destruct (uniformnoflow_with_step_size (float_ops prec emax P E) num low step) as [[u|e]|] eqn:Hu; try discriminate. injection Ha as <-.
  destruct (C09_noflow_step_float_special prec emax P E B num low step u Hf Hn1 Hn Hu) as [Hnan _].
  unfold uniformcyclic_index. cbn [uc_axis]. set (lo := u_low (unf_axis u)). set (hi := u_high (unf_axis u)).
  assert (Hw : wrap_coordinate (float_ops prec emax P E) lo hi x = Val B754_nan).
  { unfold wrap_coordinate. cbn [n_sub n_rem n_add n_zero float_ops obind].
    assert (Hr : Bfmod prec emax P E (Bminus mode_NE x lo) (Bminus mode_NE hi lo) = B754_nan).
    { assert (Fd : is_finite (Bminus mode_NE x lo) = false).
      { destruct (is_finite (Bminus mode_NE x lo)) eqn:Ed; [|reflexivity]. apply minus_finite in Ed. destruct Ed. congruence. }
      destruct (Bminus mode_NE x lo); try discriminate Fd; destruct (Bminus mode_NE hi lo); reflexivity. }
    rewrite Hr. reflexivity. }
  rewrite Hw. exact Hnan.
Qed.
Print Assumptions C11_cyclic_step_float_nonfinite.

(** The upper edge [with_step_size] computes, compared with [num * step + low]. *)
Lemma step_range_error (prec emax : Z) (P : Prec_gt_0 prec) (E : Prec_lt_emax prec emax) (B : Build)
  (num : N) (low step : binary_float prec emax) :
  covered_format prec emax -> (1 <= Z.of_N num < 2 ^ (prec - 1))%Z ->
  is_finite low = true -> 0 < B2R step ->
  let high := Bplus mode_NE (Bmult mode_NE (float_of_N prec emax P E num) step) low in
  is_finite high = true ->
  Rabs (IZR (Z.of_N num) * B2R step - (B2R high - B2R low)) <= 3 * unit_roundoff prec * (Rabs (B2R low) + Rabs (B2R high)).
Proof.
  intros [Hp He] Hn Fl Hs high Fh. destruct (num_float prec emax P E ltac:(lia) num Hn) as [N1 [N2 [N3 N4]]].
  pose proof (u_pos prec) as Hu0. pose proof (u_tiny prec Hp) as Hu1. fold (unit_roundoff prec) in Hu0, Hu1.
  destruct (plus_finite prec emax P E _ _ Fh) as [Fm _].
  set (p := Bmult mode_NE (float_of_N prec emax P E num) step) in *.
  set (rnd := round radix2 (SpecFloat.fexp prec emax) (round_mode mode_NE)) in *.
  assert (Hm : B2R p = rnd (IZR (Z.of_N num) * B2R step)).
  { pose proof (Bmult_correct prec emax _ _ mode_NE (float_of_N prec emax P E num) step) as HM. rewrite N1 in HM. fold p rnd in HM.
    destruct (Rlt_bool _ _); [exact (proj1 HM)|]. exfalso. rewrite <- is_finite_SF_B2SF, HM in Fm.
    cbn in Fm. discriminate. }
  assert (Hh : B2R high = rnd (B2R p + B2R low)).
  { pose proof (Bplus_correct prec emax _ _ mode_NE p low Fm Fl) as HA. fold high rnd in HA.
    destruct (Rlt_bool _ _); [exact (proj1 HA)|]. exfalso. destruct HA as [HA _]. rewrite <- is_finite_SF_B2SF, HA in Fh.
    cbn in Fh. discriminate. }
  pose proof (rnd_mul_int_rel prec emax P (Z.of_N num) step) as R1. fold rnd (unit_roundoff prec) in R1. rewrite <- Hm in R1.
  pose proof (rnd_add_rel prec emax P (B2R p) (B2R low) (B2R_format _ _ _) (B2R_format _ _ _)) as R2.
  fold rnd (unit_roundoff prec) in R2. rewrite <- Hh in R2.
  set (u := unit_roundoff prec) in *. set (L := B2R low) in *. set (H := B2R high) in *. set (p0 := B2R p) in *.
  set (q := IZR (Z.of_N num) * B2R step) in *.
  assert (Hq : 0 < q) by (apply Rmult_lt_0_compat; lra).
  rewrite (Rabs_pos_eq q) in R1 by lra. pose proof (Rabs_pos L) as PL. pose proof (Rabs_pos H) as PH.
  assert (A1 : Rabs (p0 + L) * (1 - u) <= Rabs H).
  { pose proof (Rabs_triang_inv (p0 + L) (- (H - (p0 + L)))) as T. rewrite Rabs_Ropp in T.
    replace (p0 + L - - (H - (p0 + L))) with H in T by ring. lra. }
  assert (A1' : Rabs (p0 + L) <= 256 / 255 * Rabs H).
  { pose proof (Rabs_pos (p0 + L)). assert (Rabs (p0 + L) * (1 - / 256) <= Rabs H); [|lra].
    eapply Rle_trans; [|exact A1]. apply Rmult_le_compat_l; lra. }
  apply Rabs_le_inv in R1. 
  assert (A2 : q * (1 - / 256) <= p0).
  { assert (u * q <= / 256 * q) by (apply Rmult_le_compat_r; lra). lra. }
  assert (A3 : p0 <= Rabs (p0 + L) + Rabs L).
  { pose proof (Rle_abs (p0 + L)). pose proof (Rle_abs (- L)) as Hl. rewrite Rabs_Ropp in Hl. lra. }
  assert (A4 : q <= 256 / 255 * (256 / 255 * Rabs H + Rabs L)) by lra.
  replace (q - (H - L)) with ((q - p0) + ((p0 + L) - H)) by ring.
  eapply Rle_trans; [apply Rabs_triang|]. rewrite (Rabs_minus_sym (p0 + L) H).
  assert (A5 : Rabs (q - p0) <= u * q) by (apply Rabs_le; lra).
  assert (A6 : u * (q + Rabs (p0 + L)) <= u * (3 * (Rabs L + Rabs H))) by (apply Rmult_le_compat_l; lra).
  lra.
Qed.

(** C11 for [with_step_size]: what the cyclic index of a finite coordinate means.  [high] is the
    upper edge the constructor computes, [W] the range, and bins are [step] wide. *)
Theorem C11_cyclic_step_float_accuracy : forall (prec emax : Z) (P : Prec_gt_0 prec) (E : Prec_lt_emax prec emax) (B : Build)
  (num : N) (low step : binary_float prec emax),
  covered_format prec emax -> (1 <= Z.of_N num < 2 ^ (prec - 1))%Z -> (num + 2 < usize_mod)%N ->
  is_finite low = true -> is_finite step = true -> 0 < B2R step ->
  let high := Bplus mode_NE (Bmult mode_NE (float_of_N prec emax P E num) step) low in
  is_finite high = true -> B2R low < B2R high -> is_finite (Bminus mode_NE high low) = true ->
  let W := B2R high - B2R low in
  let w := B2R step in
  exists a, uniformcyclic_with_step_size (float_ops prec emax P E) num low step = Val (Ok a)
  /\ forall x, is_finite x = true -> is_finite (Bminus mode_NE x low) = true ->
     let tolerance := 24 * unit_roundoff prec * (Rabs (B2R x) + Rabs (B2R low) + Rabs (B2R high)) in
     (forall j, uniformcyclic_index (float_ops prec emax P E) a x = Val (Some j) ->
        (j < num)%N /\ exists m : Z,
          B2R low + IZR (Z.of_N j) * w - tolerance <= B2R x - IZR m * W < B2R low + (IZR (Z.of_N j) + 1) * w + tolerance)
     /\ ((forall m : Z, tolerance < Rabs (B2R x - (B2R low + IZR m * W))) ->
         exists j, uniformcyclic_index (float_ops prec emax P E) a x = Val (Some j)).
Proof.
  intros prec emax P E B num low step Hf Hn Hus Fl Fs Hw0 high Fh Hlt Fw W w.
  pose proof (step_range_error prec emax P E B num low step Hf Hn Fl Hw0 Fh) as HWn. fold high in HWn. fold W w in HWn.
  pose proof Hf as [Hp He].
  destruct (regular_step prec emax P E ltac:(lia) num low step Hn Hus Fl Fs Hw0) as [R Hgt]. fold high in R, Hgt.
  fold w in Hw0. remember high as high' eqn:Ehigh. unfold high in Ehigh. clear high. rename high' into high.
  set (ua := mkUniform num low high step) in *. exists (mkUniformCyclic (mkUniformNoFlow ua)).
  assert (Hws : w * ((1 - bpow radix2 (- prec)) * (1 - bpow radix2 (- prec))) <= B2R (u_step ua)
                <= w * ((1 + bpow radix2 (- prec)) * (1 + bpow radix2 (- prec)))).
  { cbn [u_step ua]. fold w. pose proof (u_pos prec) as Q1. pose proof (u_tiny prec Hp) as Q2. set (v := bpow radix2 (- prec)) in *.
    split; [rewrite <- (Rmult_1_r w) at 2 | rewrite <- (Rmult_1_r w) at 1]; apply Rmult_le_compat_l; try lra; nra. }
  split. { unfold uniformcyclic_with_step_size, uniformnoflow_with_step_size, uniform_with_step_size.
    cbn [n_from_usize n_mul n_add n_zero float_ops obind]. destruct (N.eqb_spec num 0); [lia|].
    assert (Hle0 : @le_ _ (@num_ord _ (float_ops prec emax P E)) step (B754_zero false) = false)
      by (rewrite le_fin by (reflexivity || assumption); apply Rle_bool_false; exact Hw0).
    rewrite Hle0. rewrite <- Ehigh, Hgt. reflexivity. }
  assert (Hp2 : (2 <= prec <= 63)%Z) by (clear - Hp; lia).
  clear Ehigh. intros x Fx Fd tol.
  pose proof Hus as Hu.
  destruct (num_float prec emax P E Hp2 num Hn) as [_ [_ [_ N4]]].
  pose proof (u_pos prec) as Hu0. pose proof (u_tiny prec Hp) as Hu1. fold (unit_roundoff prec) in Hu0, Hu1.
  destruct (wrap_value prec emax P E Hp He low high x Fl Fh Fx Hlt Fw Fd) as [y [r' [m [Hy [Hfmt [Hr' [Herr Hval]]]]]]].
  fold W in Hr', Herr. fold (unit_roundoff prec) in Herr.
  set (u := unit_roundoff prec) in *. set (X := B2R x) in *. set (L := B2R low) in *. set (H := B2R high) in *.
  set (rnd := round radix2 (SpecFloat.fexp prec emax) (round_mode mode_NE)) in *.
  unfold uniformcyclic_index. cbn [uc_axis unf_axis ua u_low u_high]. rewrite Hy. cbn [obind]. fold ua.
  (* sizes *)
  set (S := Rabs X + Rabs L + Rabs H) in *.
  pose proof (Rabs_pos X) as PX. pose proof (Rabs_pos L) as PL. pose proof (Rabs_pos H) as PH.
  assert (HWS : W <= Rabs L + Rabs H).
  { unfold W. pose proof (Rle_abs H). pose proof (Rle_abs (- L)) as Hnl. rewrite Rabs_Ropp in Hnl. lra. }
  assert (HDS : Rabs (X - L) <= Rabs X + Rabs L).
  { replace (X - L) with (X + - L) by ring. eapply Rle_trans; [apply Rabs_triang|]. rewrite Rabs_Ropp. lra. }
  assert (HW0 : 0 < W) by (unfold W; lra).
  assert (HS0 : 0 < S) by (unfold S; lra).
  assert (HuS : 0 < u * S) by (apply Rmult_lt_0_compat; lra).
  assert (HuX : u * Rabs (X - L) <= u * S) by (apply Rmult_le_compat_l; unfold S; lra).
  assert (HuW : u * W <= u * S) by (apply Rmult_le_compat_l; unfold S; lra).
  assert (HuL : u * Rabs L <= u * S) by (apply Rmult_le_compat_l; unfold S; lra).
  assert (HW : Rabs (IZR (Z.of_N num) * w - W) <= 3 * (u * S)).
  { eapply Rle_trans; [exact HWn|]. unfold u, S. fold X L H. pose proof (Rmult_le_compat_l u (Rabs L + Rabs H) S ltac:(lra) ltac:(unfold S; lra)). unfold u, S in *. lra. }
  apply Rabs_le_inv in HW.
  assert (HuuS : u * (u * S) <= / 256 * (u * S)) by (apply Rmult_le_compat_r; lra).
  assert (Hunw : u * (IZR (Z.of_N num) * w) <= u * W + u * (3 * (u * S))) by (rewrite <- Rmult_plus_distr_l; apply Rmult_le_compat_l; lra).
  assert (Herr1 : Rabs (r' + L - (X - IZR m * W)) <= 6 * (u * S)) by lra.
  assert (HrndW : rnd W <= W * (1 + u)).
  { pose proof (rnd_sub_rel prec emax P high low) as Hd. fold H L rnd u in Hd. fold W in Hd.
    rewrite (Rabs_pos_eq W) in Hd by lra. apply Rabs_le_inv in Hd. unfold u, unit_roundoff in *. lra. }
  pose proof Herr1 as Herr2. apply Rabs_le_inv in Herr2.
  (* the wrapped value, when finite *)
  assert (HYval : is_finite y = true -> B2R y = rnd (r' + L)) by (intros Fy; destruct Hval as [[_ [_ V]]|[_ Hc]]; [exact V | congruence]).
  assert (HYge : is_finite y = true -> L <= B2R y).
  { intros Fy. rewrite (HYval Fy). apply Rle_trans with (rnd L); [right; symmetry; apply (rnd_B2R prec emax low)|]. apply rnd_le; [exact P | lra]. }
  assert (HYerr : is_finite y = true -> Rabs (B2R y - (X - IZR m * W)) <= 10 * (u * S)).
  { intros Fy. rewrite (HYval Fy).
    assert (HSum : Rabs (rnd (r' + L) - (r' + L)) <= u * Rabs (r' + L)).
    { apply (rnd_add_rel prec emax P); [exact Hfmt | apply B2R_format]. }
    assert (HrL : Rabs (r' + L) <= 2 * W + Rabs L).
    { eapply Rle_trans; [apply Rabs_triang|]. rewrite (Rabs_pos_eq r') by lra. nra. }
    assert (Hu2 : u * Rabs (r' + L) <= u * (2 * W + Rabs L)) by (apply Rmult_le_compat_l; lra).
    replace (rnd (r' + L) - (X - IZR m * W)) with ((rnd (r' + L) - (r' + L)) + (r' + L - (X - IZR m * W))) by ring.
    eapply Rle_trans; [apply Rabs_triang|]. lra. }
  assert (Hlt_false : is_finite y = true -> @lt_ _ (@num_ord _ (float_ops prec emax P E)) y low = false).
  { intros Fy. rewrite lt_fin by assumption. apply Rlt_bool_false. apply HYge. exact Fy. }
  assert (Htol : tol = 24 * (u * S)) by (unfold tol; fold X L H S; ring).
  assert (HuwW : 4 * u * W <= 4 * (u * S)) by lra.
  assert (Hidx : exists i, uniform_index (float_ops prec emax P E) ua y = Val (Some i) /\ (i <= num + 1)%N)
    by (apply (regular_valid prec emax P E Hp2 He ua y R)).
  destruct Hidx as [i [Hi Hile]].
  destruct (noflow_of_index (float_ops prec emax P E) ua y i Hu Hi Hile) as [[Hnone Hi']|[k [Hsome [Hik Hk]]]]; cbn [u_num ua] in *.
  - (* no bin: then x is within the tolerance of a seam *)
    split; [intros j Hj; rewrite Hnone in Hj; discriminate|]. intros Hfar. exfalso.
    specialize (Hfar (m + 1)%Z). rewrite plus_IZR in Hfar. rewrite Htol in Hfar.
    assert (Hnear : Rabs (X - (L + (IZR m + 1) * W)) <= 24 * (u * S)); [|lra].
    replace (X - (L + (IZR m + 1) * W)) with (X - IZR m * W - H) by (unfold W; ring).
    assert (Hup : X - IZR m * W - H <= 24 * (u * S)) by (unfold W in *; lra).
    apply Rabs_le. split; [|exact Hup].
    destruct (is_finite y) eqn:Fy.
    + pose proof (HYerr eq_refl) as HE. apply Rabs_le_inv in HE.
      destruct (@ge_ _ (@num_ord _ (float_ops prec emax P E)) y high) eqn:Eg.
      * rewrite ge_fin in Eg by assumption. destruct (Rle_bool_spec (B2R high) (B2R y)) as [Hge|]; [|discriminate]. fold H in Hge. lra.
      * assert (Hi1 : i = (num + 1)%N).
        { destruct Hi' as [Hz|Hz]; [|exact Hz]. exfalso. subst i.
          destruct (regular_cases prec emax P E Hp2 He ua y R) as [[Ex _]|[[_ [_ Ei]]|[[_ Ei]|[E1 [E2 _]]]]];
            [cbn [u_low ua] in Ex; rewrite (Hlt_false eq_refl) in Ex; discriminate | rewrite Hi in Ei; injection Ei as Ei; clear - Ei; lia.. |].
          destruct (regular_accuracy prec emax P E Hp He ua y R Fy E1 E2) as [[_ [k [_ [Ei _]]]]|[_ Ei]];
            rewrite Hi in Ei; injection Ei as Ei; clear - Ei; lia. }
        subst i.
        assert (Ht : rnd (B2R y - L) < bpow radix2 emax).
        { destruct (width_computed prec emax P E low high Fl Fh Hlt Fw) as [W1 W2]. fold H L rnd in W2.
          eapply Rle_lt_trans; [|exact W2]. apply rnd_le; [exact P|].
          pose proof (ge_fin_false prec emax P E y high Fy Fh Eg) as Hyh. fold H in Hyh. lra. }
        pose proof (overflow_bound prec emax P E Hp He ua w R Hw0 Hws y Fy (Hlt_false eq_refl) Eg Ht Hi) as Hob.
        cbn [u_num u_low ua] in Hob. fold L in Hob. fold (unit_roundoff prec) in Hob. fold u in Hob.
        replace (IZR (Z.of_N num) * w * (1 - 4 * u)) with (IZR (Z.of_N num) * w - 4 * (u * (IZR (Z.of_N num) * w))) in Hob by ring.
        unfold W in *. lra.
    + destruct Hval as [[_ [Hc _]]|[Htop _]]; [congruence|].
      (* the sum overflowed, so it is above high *)
      destruct (Rle_or_lt H (r' + L)) as [Hle|Hlt']; [lra|]. exfalso.
      assert (Hb : Rabs (rnd (r' + L)) <= Rmax (Rabs L) (Rabs H)).
      { assert (H1 : L <= rnd (r' + L)) by (apply Rle_trans with (rnd L); [right; symmetry; apply (rnd_B2R prec emax low) | apply rnd_le; [exact P | lra]]).
        assert (H2 : rnd (r' + L) <= H) by (apply Rle_trans with (rnd H); [apply rnd_le; [exact P | lra] | right; apply (rnd_B2R prec emax high)]).
        apply Rabs_le. pose proof (Rmax_l (Rabs L) (Rabs H)). pose proof (Rmax_r (Rabs L) (Rabs H)).
        pose proof (Rle_abs H). pose proof (Rle_abs (- L)) as Hnl. rewrite Rabs_Ropp in Hnl. lra. }
      pose proof (abs_B2R_lt_emax prec emax low) as B1. pose proof (abs_B2R_lt_emax prec emax high) as B2. fold L in B1. fold H in B2.
      unfold Rmax in Hb. destruct (Rle_dec (Rabs L) (Rabs H)); lra.
  - (* a bin *)
    split; [|intros _; exists k; exact Hsome].
    intros j Hj. rewrite Hsome in Hj. injection Hj as <-. split; [exact Hk|].
    destruct (bin_bounds prec emax P E Hp He ua w R Hw0 Hws y i Hi ltac:(cbn [u_num ua]; clear - Hik Hk; lia)) as [Fy [_ [_ [B1 B2]]]].
    cbn [u_low ua] in B1, B2. fold L in B1, B2. fold (unit_roundoff prec) in B1, B2. fold u in B1, B2.
    subst i. rewrite N2Z.inj_add, plus_IZR in B1, B2. change (IZR (Z.of_N 1)) with 1 in B1, B2.
    replace (IZR (Z.of_N k) + 1 - 1) with (IZR (Z.of_N k)) in B1 by ring.
    pose proof (HYerr Fy) as HE. apply Rabs_le_inv in HE. exists m. rewrite Htol.
    assert (Hk0 : 0 <= IZR (Z.of_N k)) by (apply IZR_le; clear; lia).
    assert (Hk1 : IZR (Z.of_N k) + 1 <= IZR (Z.of_N num)) by (rewrite <- plus_IZR; apply IZR_le; clear - Hk; lia).
    assert (Hkw : 0 <= IZR (Z.of_N k) * w <= IZR (Z.of_N num) * w) by (split; [apply Rmult_le_pos; lra | apply Rmult_le_compat_r; lra]).
    assert (Hkw1 : (IZR (Z.of_N k) + 1) * w <= IZR (Z.of_N num) * w) by (apply Rmult_le_compat_r; lra).
    assert (Hu4 : u * (IZR (Z.of_N k) * w) <= u * (IZR (Z.of_N num) * w)) by (apply Rmult_le_compat_l; lra).
    assert (Hu5 : u * ((IZR (Z.of_N k) + 1) * w) <= u * (IZR (Z.of_N num) * w)) by (apply Rmult_le_compat_l; lra).
    split; lra.
Qed.
Print Assumptions C11_cyclic_step_float_accuracy.

(** C11 for [with_step_size]: a coordinate that is some number [m] of turns away from the inside
    of bin [k] (by more than the tolerance from its ends) is put in bin [k]. *)
Theorem C11_cyclic_step_float_found : forall (prec emax : Z) (P : Prec_gt_0 prec) (E : Prec_lt_emax prec emax) (B : Build)
  (num : N) (low step : binary_float prec emax),
  covered_format prec emax -> (1 <= Z.of_N num < 2 ^ (prec - 1))%Z -> (num + 2 < usize_mod)%N ->
  is_finite low = true -> is_finite step = true -> 0 < B2R step ->
  let high := Bplus mode_NE (Bmult mode_NE (float_of_N prec emax P E num) step) low in
  is_finite high = true -> B2R low < B2R high -> is_finite (Bminus mode_NE high low) = true ->
  let W := B2R high - B2R low in
  let w := B2R step in
  exists a, uniformcyclic_with_step_size (float_ops prec emax P E) num low step = Val (Ok a)
  /\ forall x k (m : Z), is_finite x = true -> is_finite (Bminus mode_NE x low) = true -> (k < num)%N ->
     let tolerance := 32 * unit_roundoff prec * (Rabs (B2R x) + Rabs (B2R low) + Rabs (B2R high)) in
     B2R low + IZR (Z.of_N k) * w + tolerance < B2R x - IZR m * W < B2R low + (IZR (Z.of_N k) + 1) * w - tolerance ->
     uniformcyclic_index (float_ops prec emax P E) a x = Val (Some k).
Proof.
  intros prec emax P E B num low step Hf Hn Hus Fl Fs Hw0 high Fh Hlt Fw W w.
  destruct (C11_cyclic_step_float_accuracy prec emax P E B num low step Hf Hn Hus Fl Fs Hw0 Fh Hlt Fw) as [a [Ea HA]].
  pose proof (step_range_error prec emax P E B num low step Hf Hn Fl Hw0 Fh) as HWn. fold high in HWn, HA. fold W w in HWn.
  exists a. split; [exact Ea|]. intros x k m Fx Fd Hk tol Hin. destruct (HA x Fx Fd) as [Hacc Htot]. fold W w in Hacc, Htot. clear HA.
  set (S := Rabs (B2R x) + Rabs (B2R low) + Rabs (B2R high)) in *.
  pose proof (u_pos prec) as Hu0. fold (unit_roundoff prec) in Hu0.
  pose proof (Rabs_pos (B2R x)) as PX. pose proof (Rabs_pos (B2R low)) as PL. pose proof (Rabs_pos (B2R high)) as PH.
  assert (HuS : 0 <= unit_roundoff prec * S) by (apply Rmult_le_pos; unfold S; lra).
  assert (HW : Rabs (IZR (Z.of_N num) * w - W) <= 3 * (unit_roundoff prec * S)).
  { eapply Rle_trans; [exact HWn|]. rewrite Rmult_assoc. apply Rmult_le_compat_l; [lra|]. apply Rmult_le_compat_l; unfold S; lra. }
  apply Rabs_le_inv in HW.
  assert (Htol : tol = 32 * (unit_roundoff prec * S)) by (unfold tol; ring).
  replace (24 * unit_roundoff prec * S) with (24 * (unit_roundoff prec * S)) in Hacc, Htot by ring.
  rewrite Htol in Hin. clear Htol tol HWn. set (t := unit_roundoff prec * S) in *.
  assert (N4 : 1 <= IZR (Z.of_N num)) by (apply IZR_le; lia).
  assert (HW0 : 0 < W) by (unfold W; lra).
  fold w in Hw0.
  assert (Hk0 : 0 <= IZR (Z.of_N k)) by (apply IZR_le; lia).
  assert (Hk1 : IZR (Z.of_N k) + 1 <= IZR (Z.of_N num)) by (rewrite <- plus_IZR; apply IZR_le; lia).
  assert (Hkw : 0 <= IZR (Z.of_N k) * w) by (apply Rmult_le_pos; lra).
  assert (Hkw1 : (IZR (Z.of_N k) + 1) * w <= W + 3 * t).
  { apply Rle_trans with (IZR (Z.of_N num) * w); [apply Rmult_le_compat_r; lra | lra]. }
  assert (Hfar : forall m' : Z, 24 * t < Rabs (B2R x - (B2R low + IZR m' * W))).
  { intros m'. replace (B2R x - (B2R low + IZR m' * W)) with ((B2R x - IZR m * W - B2R low) + IZR (m - m') * W) by (rewrite minus_IZR; ring).
    destruct (Z.le_gt_cases m' m) as [Hle|Hgt].
    - assert (0 <= IZR (m - m') * W) by (apply Rmult_le_pos; [apply IZR_le; lia | lra]).
      rewrite Rabs_pos_eq; lra.
    - assert (HI : IZR (m - m') <= -1) by (apply IZR_le; lia).
      assert (IZR (m - m') * W <= -1 * W) by (apply Rmult_le_compat_r; lra).
      rewrite Rabs_left1; lra. }
  destruct (Htot Hfar) as [j Hj]. rewrite Hj. do 2 f_equal.
  destruct (Hacc j Hj) as [Hjn [m' Hm']].
  assert (Hj0 : 0 <= IZR (Z.of_N j)) by (apply IZR_le; lia).
  assert (Hj1 : IZR (Z.of_N j) + 1 <= IZR (Z.of_N num)) by (rewrite <- plus_IZR; apply IZR_le; lia).
  assert (Hjw : 0 <= IZR (Z.of_N j) * w) by (apply Rmult_le_pos; lra).
  assert (Hjw1 : (IZR (Z.of_N j) + 1) * w <= W + 3 * t).
  { apply Rle_trans with (IZR (Z.of_N num) * w); [apply Rmult_le_compat_r; lra | lra]. }
  assert (Em : m = m').
  { apply (no_integer_between m m' W HW0). rewrite minus_IZR. split; lra. }
  subst m'.
  assert (A1 : IZR (Z.of_N j) * w < (IZR (Z.of_N k) + 1) * w) by lra.
  assert (A2 : IZR (Z.of_N k) * w < (IZR (Z.of_N j) + 1) * w) by lra.
  apply Rmult_lt_reg_r in A1, A2; try exact Hw0. rewrite <- plus_IZR in A1, A2. apply lt_IZR in A1, A2. lia.
Qed.
Print Assumptions C11_cyclic_step_float_found.

(** Non-vacuity: [UniformCyclic::with_step_size(4, 1.0, 2.0)] meets every hypothesis, and the
    coordinate 20 is two turns (of 8) from the middle of bin 1, [3, 5), clear of the tolerance. *)
Example C11_step_nonvacuous : forall B : Build,
  let low := f64_lit 1 0 in let step := f64_lit 2 0 in let x := f64_lit 20 0 in
  let high := Bplus mode_NE (Bmult mode_NE (float_of_N 53 1024 prec64 emax64 4) step) low in
  covered_format 53 1024 /\ (1 <= Z.of_N 4 < 2 ^ (53 - 1))%Z /\ (4 + 2 < usize_mod)%N
  /\ is_finite low = true /\ is_finite step = true /\ 0 < B2R step
  /\ is_finite high = true /\ B2R low < B2R high /\ is_finite (Bminus mode_NE high low) = true
  /\ is_finite x = true /\ is_finite (Bminus mode_NE x low) = true
  /\ (let tolerance := 32 * unit_roundoff 53 * (Rabs (B2R x) + Rabs (B2R low) + Rabs (B2R high)) in
      B2R low + IZR (Z.of_N 1) * B2R step + tolerance < B2R x - IZR 2 * (B2R high - B2R low)
      < B2R low + (IZR (Z.of_N 1) + 1) * B2R step - tolerance)
  /\ exists a, uniformcyclic_with_step_size f64_ops 4 low step = Val (Ok a) /\ uniformcyclic_index f64_ops a x = Val (Some 1%N).
Proof.
  intros B low step x high.
  assert (Eh : high = f64_lit 9 0) by (apply B2SF_inj; vm_compute; reflexivity).
  destruct float_params_nonvacuous as [H1 _].
  destruct (f64_int 1 ltac:(lia)) as [O1 O2]. destruct (f64_int 2 ltac:(lia)) as [T1 T2]. destruct (f64_int 9 ltac:(lia)) as [N1 N2].
  destruct (f64_int 20 ltac:(lia)) as [X1 X2].
  split; [exact H1|]. split; [lia|]. split; [pose proof usize_mod_large; lia|].
  split; [exact O2|]. split; [exact T2|]. unfold f64 in *. rewrite Eh. unfold f64, low, step, x in *. rewrite O1, T1, N1, X1.
  split; [lra|]. split; [exact N2|]. split; [lra|]. split; [vm_compute; reflexivity|]. split; [exact X2|].
  split; [vm_compute; reflexivity|]. split.
  - cbv zeta. unfold unit_roundoff. change (bpow radix2 (Z.opp 53)) with (/ IZR 9007199254740992). rewrite !Rabs_pos_eq by lra. cbn [Z.of_N]. lra.
  - eexists. split; [reflexivity|]. destruct B as [[] []]; vm_compute; reflexivity.
Qed.
