(** * Property theorems: UniformNoFlow and UniformCyclic over floats (C09, C11). *)
From Coq Require Import List ZArith NArith Bool Lia Reals Lra ZifyN ZifyNat.
From Flocq Require Import Core IEEE754.BinarySingleNaN.
From Verif Require Import Base BaseFacts Num Float Axis Spec OrdLaws FloatOrd FloatFacts FloatSpec Uniform
  FloatUniform FloatUniformNew FloatUniformAcc FloatUniformEdge FloatCyclic PropUniformInt PropUniformFloat PropUniformFloatEx.
Open Scope R_scope.

(** [UniformNoFlow] seen through the [Uniform] axis it wraps. *)
Lemma noflow_of_index {T} (ops : NumOps T) {B : Build} (u : Uniform T) x i :
  (u_num u + 2 < usize_mod)%N -> uniform_index ops u x = Val (Some i) -> (i <= u_num u + 1)%N ->
  (uniformnoflow_index ops (mkUniformNoFlow u) x = Val None /\ (i = 0%N \/ i = (u_num u + 1)%N))
  \/ (exists j, uniformnoflow_index ops (mkUniformNoFlow u) x = Val (Some j) /\ i = (j + 1)%N /\ (j < u_num u)%N).
Proof.
  intros Hn Hi Hle. unfold uniformnoflow_index. cbn [unf_axis]. rewrite Hi. cbn [obind].
  destruct (N.eqb_spec i 0) as [->|Hz]; [left; auto|].
  rewrite uadd_ok by lia. cbn [obind]. unfold uniform_num_bins. rewrite uadd_ok by lia. cbn [obind].
  destruct (N.eqb_spec (i + 1) (u_num u + 2)) as [Hm|Hm]; [left; split; [reflexivity | right; lia]|].
  right. exists (i - 1)%N. rewrite usub_ok by lia. split; [reflexivity | lia].
Qed.

(** C09 over floats, end to end: the index is that of the corresponding [Uniform] axis
    minus one, or [None] where that axis says underflow or overflow. *)
Theorem C09_noflow_float : forall (prec emax : Z) (P : Prec_gt_0 prec) (E : Prec_lt_emax prec emax) (B : Build)
  (num : N) (u : Uniform (binary_float prec emax)) x,
  covered_format prec emax -> (Z.of_N num < 2 ^ (prec - 1))%Z -> (num + 2 < usize_mod)%N -> made_axis num u ->
  uniformnoflow_num_bins (mkUniformNoFlow u) = Val num
  /\ exists i, uniform_index (float_ops prec emax P E) u x = Val (Some i)
  /\ ((uniformnoflow_index (float_ops prec emax P E) (mkUniformNoFlow u) x = Val None /\ (i = 0%N \/ i = (num + 1)%N))
      \/ exists j, uniformnoflow_index (float_ops prec emax P E) (mkUniformNoFlow u) x = Val (Some j)
                   /\ i = (j + 1)%N /\ (j < num)%N).
Proof.
  intros prec emax P E B num u x Hf Hn Hus Hu. destruct (C04_float_index_valid prec emax P E B num u Hf Hn Hus Hu) as [_ Hv].
  destruct (made_disposition num u Hf Hn Hus Hu) as [<- _]. pose proof Hus as Hb.
  split.
  { unfold uniformnoflow_num_bins, uniform_num_bins. cbn [unf_axis]. rewrite uadd_ok by exact Hb. cbn [obind].
    rewrite usub_ok by lia. f_equal. lia. }
  destruct (Hv x) as [i [Hi Hlt]]. exists i. split; [exact Hi|].
  apply noflow_of_index; [exact Hb | exact Hi | lia].
Qed.
Print Assumptions C09_noflow_float.

(** C09: NaN is in no bin of a NoFlow axis, nor is an infinity when the edges are finite. *)
Theorem C09_noflow_float_special : forall (prec emax : Z) (P : Prec_gt_0 prec) (E : Prec_lt_emax prec emax) (B : Build)
  (num : N) (low high : binary_float prec emax) a,
  covered_format prec emax -> (num + 2 < usize_mod)%N ->
  uniformnoflow_new (float_ops prec emax P E) num low high = Val (Ok a) ->
  uniformnoflow_index (float_ops prec emax P E) a B754_nan = Val None
  /\ (is_finite low = true -> is_finite high = true ->
      forall s, uniformnoflow_index (float_ops prec emax P E) a (B754_infinity s) = Val None).
Proof.
  intros prec emax P E B num low high a Hf Hn Ha. unfold uniformnoflow_new in Ha.
  destruct (uniform_new (float_ops prec emax P E) num low high) as [[u|e]|] eqn:Hu; try discriminate. injection Ha as <-.
  destruct (C03_new_float_flow prec emax P E B num low high u Hf ltac:(lia) Hu) as [H0 [H1 H2]].
  destruct (new_ok _ _ _ _ _ _ _ _ Hu) as [_ [_ [lo [hi [_ Eu]]]]].
  assert (Hnum : u_num u = num) by (rewrite Eu; reflexivity).
  assert (Hnone : forall x, uniform_index (float_ops prec emax P E) u x = Val (Some 0%N)
     \/ uniform_index (float_ops prec emax P E) u x = Val (Some (num + 1)%N) ->
     uniformnoflow_index (float_ops prec emax P E) (mkUniformNoFlow u) x = Val None).
  { intros x [Hx|Hx].
    - destruct (noflow_of_index (float_ops prec emax P E) u x 0 ltac:(lia) Hx ltac:(lia)) as [[Hr _]|[j [_ [Hj _]]]]; [exact Hr | lia].
    - destruct (noflow_of_index (float_ops prec emax P E) u x (num + 1) ltac:(lia) Hx ltac:(lia)) as [[Hr _]|[j [_ [Hj ?]]]]; [exact Hr | lia]. }
  split; [apply Hnone; right; exact H2|].
  intros Fl Fh s. apply Hnone. destruct s; [left; apply H0 | right; apply H1]; try (left; destruct low, high; try discriminate; reflexivity);
    destruct low, high; try discriminate; reflexivity.
Qed.
Print Assumptions C09_noflow_float_special.

(** ** C11 *)

(** C11: NaN and the infinities are in no bin of a cyclic axis. *)
Theorem C11_cyclic_float_nonfinite : forall (prec emax : Z) (P : Prec_gt_0 prec) (E : Prec_lt_emax prec emax) (B : Build)
  (num : N) (low high : binary_float prec emax) a x,
  covered_format prec emax -> (num + 2 < usize_mod)%N ->
  uniformcyclic_new (float_ops prec emax P E) num low high = Val (Ok a) ->
  is_finite x = false ->
  uniformcyclic_index (float_ops prec emax P E) a x = Val None.
Proof.
  intros prec emax P E B num low high a x Hf Hn Ha Fx. unfold uniformcyclic_new in Ha.
  destruct (uniformnoflow_new (float_ops prec emax P E) num low high) as [[u|e]|] eqn:Hu; try discriminate. injection Ha as <-.
  destruct (C09_noflow_float_special prec emax P E B num low high u Hf Hn Hu) as [Hnan _].
  unfold uniformcyclic_index. cbn [uc_axis]. set (lo := u_low (unf_axis u)). set (hi := u_high (unf_axis u)).
  assert (Hw : wrap_coordinate (float_ops prec emax P E) lo hi x = Val B754_nan).
  { unfold wrap_coordinate. cbn [n_sub n_rem n_add n_zero float_ops obind].
    assert (Hr : Bfmod prec emax P E (Bminus mode_NE x lo) (Bminus mode_NE hi lo) = B754_nan).
    { assert (Fd : is_finite (Bminus mode_NE x lo) = false).
      { destruct (is_finite (Bminus mode_NE x lo)) eqn:Ed; [|reflexivity]. apply minus_finite in Ed. destruct Ed. congruence. }
      destruct (Bminus mode_NE x lo); try discriminate Fd; destruct (Bminus mode_NE hi lo); reflexivity. }
    rewrite Hr. reflexivity. }
  rewrite Hw. exact Hnan.
Qed.
Print Assumptions C11_cyclic_float_nonfinite.

(** C11: whatever the coordinate, the result is no bin or a valid bin. *)
Theorem C11_cyclic_float_valid : forall (prec emax : Z) (P : Prec_gt_0 prec) (E : Prec_lt_emax prec emax) (B : Build)
  (num : N) (u : Uniform (binary_float prec emax)) x,
  covered_format prec emax -> (Z.of_N num < 2 ^ (prec - 1))%Z -> (num + 2 < usize_mod)%N -> made_axis num u ->
  let a := mkUniformCyclic (mkUniformNoFlow u) in
  uniformcyclic_index (float_ops prec emax P E) a x = Val None
  \/ exists j, uniformcyclic_index (float_ops prec emax P E) a x = Val (Some j) /\ (j < num)%N.
Proof.
  intros prec emax P E B num u x Hf Hn Hus Hu a. unfold uniformcyclic_index. cbn [uc_axis unf_axis a].
  assert (Hw : exists y, wrap_coordinate (float_ops prec emax P E) (u_low u) (u_high u) x = Val y).
  { unfold wrap_coordinate. cbn [n_sub n_rem n_add n_zero float_ops obind].
    destruct (lt_ _ _); cbn [obind]; eexists; reflexivity. }
  destruct Hw as [y Hw]. rewrite Hw. cbn [obind].
  destruct (C09_noflow_float prec emax P E B num u y Hf Hn Hus Hu) as [_ [i [_ [[Hr _]|[j [Hr [_ Hj]]]]]]]; [left; exact Hr | right; eauto].
Qed.
Print Assumptions C11_cyclic_float_valid.

(** C11: what the cyclic index of a finite coordinate means.  With [W] the range,
    [w] the ideal bin width and the tolerance [16 u (|x| + |low| + |high|)]:
    if the coordinate is put in bin [j] then a representative [x - m W] lies within the
    tolerance of the [j]-th ideal bin; and a coordinate farther than the tolerance
    from every seam [low + m W] is put in some bin. *)
Theorem C11_cyclic_float_accuracy : forall (prec emax : Z) (P : Prec_gt_0 prec) (E : Prec_lt_emax prec emax) (B : Build)
  (num : N) (low high : binary_float prec emax),
  covered_format prec emax -> (1 <= Z.of_N num < 2 ^ (prec - 1))%Z -> (num + 2 < usize_mod)%N ->
  is_finite low = true -> is_finite high = true -> B2R low < B2R high ->
  is_finite (Bminus mode_NE high low) = true ->
  IZR (Z.of_N num) * smallest_normal emax <= B2R high - B2R low ->
  let W := B2R high - B2R low in
  let w := ideal_width num (B2R low) (B2R high) in
  exists a, uniformcyclic_new (float_ops prec emax P E) num low high = Val (Ok a)
  /\ forall x, is_finite x = true -> is_finite (Bminus mode_NE x low) = true ->
     let tolerance := 16 * unit_roundoff prec * (Rabs (B2R x) + Rabs (B2R low) + Rabs (B2R high)) in
     (forall j, uniformcyclic_index (float_ops prec emax P E) a x = Val (Some j) ->
        (j < num)%N /\ exists m : Z,
          B2R low + IZR (Z.of_N j) * w - tolerance <= B2R x - IZR m * W < B2R low + (IZR (Z.of_N j) + 1) * w + tolerance)
     /\ ((forall m : Z, tolerance < Rabs (B2R x - (B2R low + IZR m * W))) ->
         exists j, uniformcyclic_index (float_ops prec emax P E) a x = Val (Some j)).
Proof.
  intros prec emax P E B num low high Hf Hn Hus Fl Fh Hlt Fw Hw W w.
  destruct (new_normal (P := P) (E := E) num low high Hf Hn Hus Fl Fh Hlt) as [Ea Hr]. destruct (Hr Fw Hw) as [R [Hw0 Hws]]. clear Hr.
  pose proof Hf as [Hp He]. fold w in Hw0, Hws. set (s := Bdiv mode_NE _ _) in *.
  set (ua := mkUniform num low high s) in *. exists (mkUniformCyclic (mkUniformNoFlow ua)).
  split. { unfold uniformcyclic_new, uniformnoflow_new. rewrite Ea. reflexivity. }
  intros x Fx Fd tol.
  pose proof Hus as Hu.
  destruct (num_float prec emax P E ltac:(lia) num Hn) as [_ [_ [_ N4]]].
  assert (HW : IZR (Z.of_N num) * w = W) by (unfold W, w, ideal_width; field; lra).
  pose proof (u_pos prec) as Hu0. pose proof (u_tiny prec Hp) as Hu1. fold (unit_roundoff prec) in Hu0, Hu1.
  destruct (wrap_value prec emax P E Hp He low high x Fl Fh Fx Hlt Fw Fd) as [y [r' [m [Hy [Hfmt [Hr' [Herr Hval]]]]]]].
  fold W in Hr', Herr. fold (unit_roundoff prec) in Herr.
  set (u := unit_roundoff prec) in *. set (X := B2R x) in *. set (L := B2R low) in *. set (H := B2R high) in *.
  set (rnd := round radix2 (SpecFloat.fexp prec emax) (round_mode mode_NE)) in *.
  unfold uniformcyclic_index. cbn [uc_axis unf_axis ua u_low u_high]. rewrite Hy. cbn [obind]. fold ua.
  (* sizes *)
  set (S := Rabs X + Rabs L + Rabs H) in *.
  pose proof (Rabs_pos X) as PX. pose proof (Rabs_pos L) as PL. pose proof (Rabs_pos H) as PH.
  assert (HWS : W <= Rabs L + Rabs H).
  { unfold W. pose proof (Rle_abs H). pose proof (Rle_abs (- L)) as Hnl. rewrite Rabs_Ropp in Hnl. lra. }
  assert (HDS : Rabs (X - L) <= Rabs X + Rabs L).
  { replace (X - L) with (X + - L) by ring. eapply Rle_trans; [apply Rabs_triang|]. rewrite Rabs_Ropp. lra. }
  assert (HW0 : 0 < W) by (unfold W; lra).
  assert (HS0 : 0 < S) by (unfold S; lra).
  assert (HuS : 0 < u * S) by (apply Rmult_lt_0_compat; lra).
  assert (HuX : u * Rabs (X - L) <= u * S) by (apply Rmult_le_compat_l; unfold S; lra).
  assert (HuW : u * W <= u * S) by (apply Rmult_le_compat_l; unfold S; lra).
  assert (HuL : u * Rabs L <= u * S) by (apply Rmult_le_compat_l; unfold S; lra).
  assert (Herr1 : Rabs (r' + L - (X - IZR m * W)) <= 6 * (u * S)) by lra.
  assert (HrndW : rnd W <= W * (1 + u)).
  { pose proof (rnd_sub_rel prec emax P high low) as Hd. fold H L rnd u in Hd. fold W in Hd.
    rewrite (Rabs_pos_eq W) in Hd by lra. apply Rabs_le_inv in Hd. unfold u, unit_roundoff in *. lra. }
  pose proof Herr1 as Herr2. apply Rabs_le_inv in Herr2.
  (* the wrapped value, when finite *)
  assert (HYval : is_finite y = true -> B2R y = rnd (r' + L)) by (intros Fy; destruct Hval as [[_ [_ V]]|[_ Hc]]; [exact V | congruence]).
  assert (HYge : is_finite y = true -> L <= B2R y).
  { intros Fy. rewrite (HYval Fy). apply Rle_trans with (rnd L); [right; symmetry; apply (rnd_B2R prec emax low)|]. apply rnd_le; [exact P | lra]. }
  assert (HYerr : is_finite y = true -> Rabs (B2R y - (X - IZR m * W)) <= 10 * (u * S)).
  { intros Fy. rewrite (HYval Fy).
    assert (HSum : Rabs (rnd (r' + L) - (r' + L)) <= u * Rabs (r' + L)).
    { apply (rnd_add_rel prec emax P); [exact Hfmt | apply B2R_format]. }
    assert (HrL : Rabs (r' + L) <= 2 * W + Rabs L).
    { eapply Rle_trans; [apply Rabs_triang|]. rewrite (Rabs_pos_eq r') by lra. nra. }
    assert (Hu2 : u * Rabs (r' + L) <= u * (2 * W + Rabs L)) by (apply Rmult_le_compat_l; lra).
    replace (rnd (r' + L) - (X - IZR m * W)) with ((rnd (r' + L) - (r' + L)) + (r' + L - (X - IZR m * W))) by ring.
    eapply Rle_trans; [apply Rabs_triang|]. lra. }
  assert (Hlt_false : is_finite y = true -> @lt_ _ (@num_ord _ (float_ops prec emax P E)) y low = false).
  { intros Fy. rewrite lt_fin by assumption. apply Rlt_bool_false. apply HYge. exact Fy. }
  assert (Htol : tol = 16 * (u * S)) by (unfold tol; fold X L H S; ring).
  assert (HuwW : 4 * u * W <= 4 * (u * S)) by lra.
  assert (Hidx : exists i, uniform_index (float_ops prec emax P E) ua y = Val (Some i) /\ (i <= num + 1)%N)
    by (apply (regular_valid prec emax P E ltac:(lia) He ua y R)).
  destruct Hidx as [i [Hi Hile]].
  destruct (noflow_of_index (float_ops prec emax P E) ua y i Hu Hi Hile) as [[Hnone Hi']|[k [Hsome [Hik Hk]]]]; cbn [u_num ua] in *.
  - (* no bin: then x is within the tolerance of a seam *)
    split; [intros j Hj; rewrite Hnone in Hj; discriminate|]. intros Hfar. exfalso.
    specialize (Hfar (m + 1)%Z). rewrite plus_IZR in Hfar. rewrite Htol in Hfar.
    assert (Hnear : Rabs (X - (L + (IZR m + 1) * W)) <= 16 * (u * S)); [|lra].
    replace (X - (L + (IZR m + 1) * W)) with (X - IZR m * W - H) by (unfold W; ring).
    assert (Hup : X - IZR m * W - H <= 16 * (u * S)) by (unfold W in *; lra).
    apply Rabs_le. split; [|exact Hup].
    destruct (is_finite y) eqn:Fy.
    + pose proof (HYerr eq_refl) as HE. apply Rabs_le_inv in HE.
      destruct (@ge_ _ (@num_ord _ (float_ops prec emax P E)) y high) eqn:Eg.
      * rewrite ge_fin in Eg by assumption. destruct (Rle_bool_spec (B2R high) (B2R y)) as [Hge|]; [|discriminate]. fold H in Hge. lra.
      * assert (Hi1 : i = (num + 1)%N).
        { destruct Hi' as [Hz|Hz]; [|exact Hz]. exfalso. subst i.
          destruct (regular_cases prec emax P E ltac:(lia) He ua y R) as [[Ex _]|[[_ [_ Ei]]|[[_ Ei]|[E1 [E2 _]]]]];
            [cbn [u_low ua] in Ex; rewrite (Hlt_false eq_refl) in Ex; discriminate | rewrite Hi in Ei; injection Ei as Ei; lia.. |].
          destruct (regular_accuracy prec emax P E Hp He ua y R Fy E1 E2) as [[_ [k [_ [Ei _]]]]|[_ Ei]];
            rewrite Hi in Ei; injection Ei as Ei; lia. }
        subst i.
        assert (Ht : rnd (B2R y - L) < bpow radix2 emax).
        { destruct (width_computed prec emax P E low high Fl Fh Hlt Fw) as [W1 W2]. fold H L rnd in W2.
          eapply Rle_lt_trans; [|exact W2]. apply rnd_le; [exact P|].
          pose proof (ge_fin_false prec emax P E y high Fy Fh Eg) as Hyh. fold H in Hyh. lra. }
        pose proof (overflow_bound prec emax P E Hp He ua w R Hw0 Hws y Fy (Hlt_false eq_refl) Eg Ht Hi) as Hob.
        cbn [u_num u_low ua] in Hob. rewrite HW in Hob. fold L in Hob. fold (unit_roundoff prec) in Hob. fold u in Hob.
        unfold W in *. lra.
    + destruct Hval as [[_ [Hc _]]|[Htop _]]; [congruence|].
      (* the sum overflowed, so it is above high *)
      destruct (Rle_or_lt H (r' + L)) as [Hle|Hlt']; [lra|]. exfalso.
      assert (Hb : Rabs (rnd (r' + L)) <= Rmax (Rabs L) (Rabs H)).
      { assert (H1 : L <= rnd (r' + L)) by (apply Rle_trans with (rnd L); [right; symmetry; apply (rnd_B2R prec emax low) | apply rnd_le; [exact P | lra]]).
        assert (H2 : rnd (r' + L) <= H) by (apply Rle_trans with (rnd H); [apply rnd_le; [exact P | lra] | right; apply (rnd_B2R prec emax high)]).
        apply Rabs_le. pose proof (Rmax_l (Rabs L) (Rabs H)). pose proof (Rmax_r (Rabs L) (Rabs H)).
        pose proof (Rle_abs H). pose proof (Rle_abs (- L)) as Hnl. rewrite Rabs_Ropp in Hnl. lra. }
      pose proof (abs_B2R_lt_emax prec emax low) as B1. pose proof (abs_B2R_lt_emax prec emax high) as B2. fold L in B1. fold H in B2.
      unfold Rmax in Hb. destruct (Rle_dec (Rabs L) (Rabs H)); lra.
  - (* a bin *)
    split; [|intros _; exists k; exact Hsome].
    intros j Hj. rewrite Hsome in Hj. injection Hj as <-. split; [exact Hk|].
    destruct (bin_bounds prec emax P E Hp He ua w R Hw0 Hws y i Hi ltac:(cbn [u_num ua]; lia)) as [Fy [_ [_ [B1 B2]]]].
    cbn [u_low ua] in B1, B2. fold L in B1, B2. fold (unit_roundoff prec) in B1, B2. fold u in B1, B2.
    subst i. rewrite N2Z.inj_add, plus_IZR in B1, B2. change (IZR (Z.of_N 1)) with 1 in B1, B2.
    replace (IZR (Z.of_N k) + 1 - 1) with (IZR (Z.of_N k)) in B1 by ring.
    pose proof (HYerr Fy) as HE. apply Rabs_le_inv in HE. exists m. rewrite Htol.
    assert (Hk0 : 0 <= IZR (Z.of_N k)) by (apply IZR_le; lia).
    assert (Hk1 : IZR (Z.of_N k) + 1 <= IZR (Z.of_N num)) by (rewrite <- plus_IZR; apply IZR_le; lia).
    assert (Hkw : 0 <= IZR (Z.of_N k) * w <= W).
    { split; [apply Rmult_le_pos; lra|]. rewrite <- HW. apply Rmult_le_compat_r; lra. }
    assert (Hkw1 : (IZR (Z.of_N k) + 1) * w <= W) by (rewrite <- HW; apply Rmult_le_compat_r; lra).
    assert (Hu4 : u * (IZR (Z.of_N k) * w) <= u * W) by (apply Rmult_le_compat_l; lra).
    assert (Hu5 : u * ((IZR (Z.of_N k) + 1) * w) <= u * W) by (apply Rmult_le_compat_l; lra).
    split; lra.
Qed.
Print Assumptions C11_cyclic_float_accuracy.

(** The documented "every finite coordinate is wrapped into a bin" fails at the
    seam: on [UniformCyclic::new(4, 0.0, 360.0)] the coordinate -2^-70 is in no bin. *)
Theorem C11_cyclic_float_total_refuted : forall B : Build,
  exists a x, uniformcyclic_new f64_ops 4 (f64_lit 0 0) (f64_lit 360 0) = Val (Ok a)
    /\ is_finite x = true /\ B2SF x = B2SF (f64_lit (-1) (-70))
    /\ uniformcyclic_index f64_ops a x = Val None.
Proof.
  intros B. eexists. exists (f64_lit (-1) (-70)). split; [reflexivity|]. split; [vm_compute; reflexivity|]. split; [reflexivity|].
  destruct B as [[] []]; vm_compute; reflexivity.
Qed.
Print Assumptions C11_cyclic_float_total_refuted.

(** Inside the range the cyclic and the NoFlow axis may disagree: on (2, -1.1, 8.0) the
    float below 8 is in bin 0 of the cyclic axis and in no bin of the NoFlow axis. *)
Theorem C11_cyclic_float_inside_refuted : forall B : Build,
  exists a b x low high, B2SF low = B2SF (f64_quot (-11) 10) /\ B2SF high = B2SF (f64_lit 8 0)
    /\ uniformcyclic_new f64_ops 2 low high = Val (Ok a)
    /\ uniformnoflow_new f64_ops 2 low high = Val (Ok b)
    /\ flt_le low x /\ flt_lt x high
    /\ uniformcyclic_index f64_ops a x = Val (Some 0%N)
    /\ uniformnoflow_index f64_ops b x = Val None.
Proof.
  intros B. do 2 eexists. exists (f64_lit (2 ^ 53 - 1) (-50)), (f64_quot (-11) 10), (f64_lit 8 0).
  split; [reflexivity|]. split; [reflexivity|]. split; [reflexivity|]. split; [reflexivity|].
  split; [left; vm_compute; reflexivity|]. split; [vm_compute; reflexivity|].
  destruct B as [[] []]; (split; vm_compute; reflexivity).
Qed.
Print Assumptions C11_cyclic_float_inside_refuted.

(** Non-vacuity of the accuracy theorem: the axis hypotheses are those of
    [float_params_nonvacuous]; and 0.5 is farther than the tolerance from every seam
    of [0, 1). *)
Example C11_nonvacuous : forall m : Z,
  16 * unit_roundoff 53 * (Rabs (/ 2) + Rabs 0 + Rabs 1) < Rabs (/ 2 - (0 + IZR m * (1 - 0))).
Proof.
  intros m. rewrite Rabs_R0, (Rabs_pos_eq (/ 2)), (Rabs_pos_eq 1) by lra.
  assert (Hu : unit_roundoff 53 <= / 256) by (apply (u_tiny 53); lia).
  assert (Hm : / 2 <= Rabs (/ 2 - (0 + IZR m * (1 - 0)))); [|lra].
  replace (/ 2 - (0 + IZR m * (1 - 0))) with (/ 2 - IZR m) by ring.
  destruct (Z.le_gt_cases m 0) as [Hle|Hgt].
  - apply IZR_le in Hle. rewrite Rabs_pos_eq; lra.
  - assert (1 <= IZR m) by (apply IZR_le; lia). rewrite Rabs_left1; lra.
Qed.

Lemma no_integer_between (a b : Z) (W : R) : 0 < W -> - W < IZR (a - b) * W < W -> a = b.
Proof.
  intros HW [H1 H2]. assert (Ha : (a - b < 1)%Z) by (apply lt_IZR; nra). assert (Hb : (-1 < a - b)%Z) by (apply lt_IZR; nra). lia.
Qed.

(** C11: a coordinate that is some number [m] of turns away from the inside of bin [k]
    (by more than the tolerance from its ends) is put in bin [k]. *)
Theorem C11_cyclic_float_found : forall (prec emax : Z) (P : Prec_gt_0 prec) (E : Prec_lt_emax prec emax) (B : Build)
  (num : N) (low high : binary_float prec emax),
  covered_format prec emax -> (1 <= Z.of_N num < 2 ^ (prec - 1))%Z -> (num + 2 < usize_mod)%N ->
  is_finite low = true -> is_finite high = true -> B2R low < B2R high ->
  is_finite (Bminus mode_NE high low) = true ->
  IZR (Z.of_N num) * smallest_normal emax <= B2R high - B2R low ->
  let W := B2R high - B2R low in
  let w := ideal_width num (B2R low) (B2R high) in
  exists a, uniformcyclic_new (float_ops prec emax P E) num low high = Val (Ok a)
  /\ forall x k (m : Z), is_finite x = true -> is_finite (Bminus mode_NE x low) = true -> (k < num)%N ->
     let tolerance := 16 * unit_roundoff prec * (Rabs (B2R x) + Rabs (B2R low) + Rabs (B2R high)) in
     B2R low + IZR (Z.of_N k) * w + tolerance < B2R x - IZR m * W < B2R low + (IZR (Z.of_N k) + 1) * w - tolerance ->
     uniformcyclic_index (float_ops prec emax P E) a x = Val (Some k).
Proof.
  intros prec emax P E B num low high Hf Hn Hus Fl Fh Hlt Fw Hw W w.
  destruct (C11_cyclic_float_accuracy prec emax P E B num low high Hf Hn Hus Fl Fh Hlt Fw Hw) as [a [Ea HA]].
  exists a. split; [exact Ea|]. intros x k m Fx Fd Hk tol Hin. destruct (HA x Fx Fd) as [Hacc Htot]. fold W w tol in Hacc, Htot.
  assert (N4 : 1 <= IZR (Z.of_N num)) by (apply IZR_le; lia).
  assert (HW : IZR (Z.of_N num) * w = W) by (unfold W, w, ideal_width; field; lra).
  assert (HW0 : 0 < W) by (unfold W; lra).
  assert (Hw0 : 0 < w) by (apply Rmult_lt_0_compat; [exact HW0 | apply Rinv_0_lt_compat; lra]).
  assert (Hk0 : 0 <= IZR (Z.of_N k)) by (apply IZR_le; lia).
  assert (Hk1 : IZR (Z.of_N k) + 1 <= IZR (Z.of_N num)) by (rewrite <- plus_IZR; apply IZR_le; lia).
  assert (Hkw : 0 <= IZR (Z.of_N k) * w) by (apply Rmult_le_pos; lra).
  assert (Hkw1 : (IZR (Z.of_N k) + 1) * w <= W) by (rewrite <- HW; apply Rmult_le_compat_r; lra).
  assert (Htol0 : 0 <= tol).
  { unfold tol. pose proof (Rabs_pos (B2R x)). pose proof (Rabs_pos (B2R low)). pose proof (Rabs_pos (B2R high)).
    apply Rmult_le_pos; [|lra]. unfold unit_roundoff. pose proof (bpow_gt_0 radix2 (- prec)). lra. }
  assert (Hfar : forall m' : Z, tol < Rabs (B2R x - (B2R low + IZR m' * W))).
  { intros m'. replace (B2R x - (B2R low + IZR m' * W)) with ((B2R x - IZR m * W - B2R low) + IZR (m - m') * W) by (rewrite minus_IZR; ring).
    destruct (Z.le_gt_cases m' m) as [Hle|Hgt].
    - assert (0 <= IZR (m - m') * W) by (apply Rmult_le_pos; [apply IZR_le; lia | lra]).
      rewrite Rabs_pos_eq; lra.
    - assert (HI : IZR (m - m') <= -1) by (apply IZR_le; lia).
      assert (IZR (m - m') * W <= -1 * W) by (apply Rmult_le_compat_r; lra).
      rewrite Rabs_left1; lra. }
  destruct (Htot Hfar) as [j Hj]. rewrite Hj. do 2 f_equal.
  destruct (Hacc j Hj) as [Hjn [m' Hm']].
  assert (Hj0 : 0 <= IZR (Z.of_N j)) by (apply IZR_le; lia).
  assert (Hj1 : IZR (Z.of_N j) + 1 <= IZR (Z.of_N num)) by (rewrite <- plus_IZR; apply IZR_le; lia).
  assert (Hjw : 0 <= IZR (Z.of_N j) * w) by (apply Rmult_le_pos; lra).
  assert (Hjw1 : (IZR (Z.of_N j) + 1) * w <= W) by (rewrite <- HW; apply Rmult_le_compat_r; lra).
  assert (Em : m = m').
  { apply (no_integer_between m m' W HW0). rewrite minus_IZR. split; lra. }
  subst m'.
  assert (A1 : IZR (Z.of_N j) * w < (IZR (Z.of_N k) + 1) * w) by lra.
  assert (A2 : IZR (Z.of_N k) * w < (IZR (Z.of_N j) + 1) * w) by lra.
  apply Rmult_lt_reg_r in A1, A2; try exact Hw0. rewrite <- plus_IZR in A1, A2. apply lt_IZR in A1, A2. lia.
Qed.
Print Assumptions C11_cyclic_float_found.
