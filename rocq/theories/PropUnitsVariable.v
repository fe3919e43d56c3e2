(** * PropUnitsVariable: Variable axes in other units (C82, continued). *)
From Coq Require Import List ZArith NArith Bool Lia Reals Lra ZifyN ZifyNat ZifyBool.
From Flocq Require Import Core IEEE754.BinarySingleNaN.
From Verif Require Import Base BaseFacts Num Float Axis Axes Value VecHist HashHist HistSpec Program SimSpec SimFacts OrdLaws FloatOrd FloatFacts FloatSpec
  Uniform StdAlgo VarAxis FloatUniform FloatUniformNew FloatUniformAcc FloatCyclic FloatScale GridSpec PropCyclicStep PropUniformFloatEx PropFloatGrid PropBuilds
  EqFacts PropEq PropUnits PropEmbed PropEmbedFloat.
Import ListNotations.
Open Scope R_scope.

Section UnitsVariable.
Context (prec emax : Z) (P : Prec_gt_0 prec) (E : Prec_lt_emax prec emax) {B : Build}.
Context (HF : covered_format prec emax).
Notation flt := (binary_float prec emax).
Notation ops := (float_ops prec emax P E).
Notation ord := (@num_ord _ ops).
Notation fmod := (Bfmod prec emax P E).
Notation lt := (@lt_ _ ord).
Notation zero := (B754_zero false : flt).
Notation rnd := (round radix2 (SpecFloat.fexp prec emax) (round_mode mode_NE)).

Let Hp : (8 <= prec <= 63)%Z. Proof. apply HF. Qed.
Let He : (64 < emax)%Z. Proof. apply HF. Qed.

(** Wrapping a coordinate into the range, in larger units. *)
Lemma wrap_scaled k (lo lo' hi hi' x x' : flt) : (0 <= k)%Z ->
  scaled prec emax k lo lo' -> scaled prec emax k hi hi' -> scaled prec emax k x x' -> B2R lo < B2R hi ->
  modest prec emax lo' -> modest prec emax hi' -> modest prec emax x' ->
  exists y y', wrap_coordinate ops lo hi x = Val y /\ wrap_coordinate ops lo' hi' x' = Val y' /\ scaled prec emax k y y'.
Proof.
  intros Hk Sl Sh Sx Hlt Ml Mh Mx. unfold wrap_coordinate. cbn [n_sub n_rem n_add n_zero float_ops obind].
  pose proof Sl as [Fl [Fl' Vl]]. pose proof Sh as [Fh [Fh' Vh]]. pose proof Sx as [Fx [Fx' Vx]].
  assert (Fw' : is_finite (Bminus mode_NE hi' lo') = true) by (eapply modest_minus; eassumption).
  assert (Fd' : is_finite (Bminus mode_NE x' lo') = true) by (eapply modest_minus; eassumption).
  pose proof (scaled_minus prec emax P E Hp k Hk _ _ _ _ Sh Sl Fw') as Sw. pose proof (scaled_minus prec emax P E Hp k Hk _ _ _ _ Sx Sl Fd') as Sd.
  destruct (minus_value_top prec emax P E _ _ Fh' Fl' Fw') as [Vw' _].
  assert (Hw : 0 < B2R (Bminus mode_NE hi lo)).
  { pose proof Sw as [Gw _]. destruct (minus_value_top prec emax P E _ _ Fh Fl Gw) as [V _]. rewrite V.
    pose proof (rnd_sub_rel prec emax P hi lo) as Hr.
    pose proof (u_tiny prec Hp) as Hu. rewrite (Rabs_pos_eq (B2R hi - B2R lo)) in Hr by lra. apply Rabs_le_inv in Hr. pose proof (bpow_gt_0 radix2 (- prec)). nra. }
  set (w := Bminus mode_NE hi lo) in *. set (w' := Bminus mode_NE hi' lo') in *.
  set (d := Bminus mode_NE x lo) in *. set (d' := Bminus mode_NE x' lo') in *.
  pose proof (scaled_fmod prec emax P E Hp He k Hk _ _ _ _ Sd Sw Hw) as Sr. set (r := fmod d w) in *. set (r' := fmod d' w') in *.
  pose proof (bpow_gt_0 radix2 k) as Hb.
  assert (Hr : Rabs (B2R r') < B2R w').
  { destruct Sw as [_ [_ Vw]].
    destruct (fmod_correct prec emax P E Hp He d' w' Fd' Fw' ltac:(rewrite Vw; nra)) as [_ [q [_ [A _]]]]. exact A. }
  assert (S0 : scaled prec emax k zero zero) by (split; [reflexivity|]; split; [reflexivity|]; cbn; ring).
  pose proof (scaled_lt prec emax P E k Hk _ _ _ _ Sr S0) as EL. rewrite EL.
  assert (Hs : exists s s' : flt, (if lt r zero then Val (Bplus mode_NE w r) else Val r) = Val s
            /\ (if lt r zero then Val (Bplus mode_NE w' r') else Val r') = Val s' /\ scaled prec emax k s s' /\ 0 <= B2R s' <= B2R w').
  { pose proof Sr as [Fr [Fr' Vr]]. rewrite lt_fin in EL by (assumption || reflexivity). cbn [B2R] in EL.
    destruct (lt r zero) eqn:L.
    - destruct (Rlt_bool_spec (B2R r') 0) as [Hneg|Hneg]; [|discriminate].
      eexists; eexists; split; [reflexivity|]; split; [reflexivity|].
      rewrite Rabs_left in Hr by exact Hneg.
      assert (H1 : 0 <= rnd (B2R w' + B2R r')) by (apply rnd_pos; [exact P | lra]).
      assert (H2 : rnd (B2R w' + B2R r') <= B2R w') by (rewrite <- (rnd_B2R prec emax w') at 2; apply rnd_le; [exact P | lra]).
      pose proof (Bplus_correct prec emax P E mode_NE w' r' Fw' Fr') as H. rewrite Rlt_bool_true in H.
      + destruct H as [V [F _]]. split; [apply (scaled_plus prec emax P E Hp k Hk); [exact Sw | exact Sr | exact F]|]. rewrite V. split; [exact H1 | exact H2].
      + rewrite Rabs_pos_eq by exact H1. apply Rle_lt_trans with (1 := H2). apply Rle_lt_trans with (1 := Rle_abs _). apply abs_B2R_lt_emax.
    - destruct (Rlt_bool_spec (B2R r') 0) as [Hneg|Hneg]; [discriminate|].
      eexists; eexists; split; [reflexivity|]; split; [reflexivity|]. split; [exact Sr|].
      rewrite Rabs_pos_eq in Hr by exact Hneg. lra. }
  destruct Hs as [s [s' [-> [-> [Ss Hs']]]]]. cbn [obind].
  eexists; eexists; split; [reflexivity|]; split; [reflexivity|].
  apply (scaled_plus prec emax P E Hp k Hk); [exact Ss | exact Sl |].
  pose proof Ss as [_ [Fs' _]]. pose proof (Bplus_correct prec emax P E mode_NE s' lo' Fs' Fl') as H.
  rewrite Rlt_bool_true in H; [apply H|].
  apply Rle_lt_trans with (bpow radix2 (emax - 1)); [|apply bpow_lt; lia].
  apply abs_round_le_generic; [apply FLT_exp_valid; assumption | apply valid_rnd_N | |].
  - apply generic_format_bpow. unfold SpecFloat.fexp, FLT_exp, SpecFloat.emin. lia.
  - pose proof (rnd_sub_rel prec emax P hi' lo') as Hrel. rewrite <- Vw' in Hrel. apply Rabs_le_inv in Hrel.
    pose proof (u_tiny prec Hp) as Hu. pose proof (bpow_gt_0 radix2 (- prec)) as Hu0.
    specialize (Ml Fl'). specialize (Mh Fh').
    assert (Hlt' : B2R lo' < B2R hi') by (rewrite Vl, Vh; nra).
    rewrite (Rabs_pos_eq (B2R hi' - B2R lo')) in Hrel by lra.
    replace (emax - 1)%Z with (emax - 2 + 1)%Z by lia. rewrite bpow_plus. change (bpow radix2 1) with 2.
    set (m := bpow radix2 (emax - 2)) in *. apply Rabs_le_inv in Ml, Mh. apply Rabs_le. split; nra.
Qed.

(** The distances of NaN and the infinities to the lower edge are not finite, so the wrapped coordinate is NaN. *)
Lemma wrap_nonfinite (lo hi x : flt) : is_finite lo = true -> is_finite (Bminus mode_NE hi lo) = true -> is_finite x = false ->
  wrap_coordinate ops lo hi x = Val B754_nan.
Proof.
  intros Fl Fw Fx. unfold wrap_coordinate. cbn [n_sub n_rem n_add n_zero float_ops obind].
  assert (Hd : is_finite (Bminus mode_NE x lo) = false) by (destruct x; cbn in Fx; try discriminate; destruct lo; reflexivity || discriminate).
  assert (Hr : fmod (Bminus mode_NE x lo) (Bminus mode_NE hi lo) = B754_nan) 
    by (destruct (Bminus mode_NE x lo); cbn in Hd; try discriminate; destruct (Bminus mode_NE hi lo); reflexivity || discriminate).
  rewrite Hr. cbn [obind]. assert (HL : @lt_ _ ord (B754_nan : flt) zero = false) by reflexivity. rewrite HL. cbn [obind]. reflexivity.
Qed.

(** The lower and the upper end of a Variable axis in either units: finite, in order, and no larger
    than a quarter of the format's range. *)
Definition cyclic_ends (v : Variable_ flt) : Prop :=
  exists lo hi, variable_low v = Val lo /\ variable_high v = Val hi
    /\ is_finite lo = true /\ is_finite hi = true /\ B2R lo < B2R hi /\ modest prec emax lo /\ modest prec emax hi.

Lemma low_in_units k (v v' : Variable_ flt) lo : Forall2 (in_units k) (v_edges v) (v_edges v') -> variable_low v = Val lo ->
  exists lo', variable_low v' = Val lo' /\ in_units k lo lo'.
Proof.
  intros Hv H. unfold variable_low in *. pose proof (nth_alike (in_units k) _ _ 0 Hv) as HR. 
  exact (HR _ H).
Qed.

Lemma high_in_units k (v v' : Variable_ flt) hi : Forall2 (in_units k) (v_edges v) (v_edges v') -> variable_high v = Val hi ->
  exists hi', variable_high v' = Val hi' /\ in_units k hi hi'.
Proof.
  intros Hv H. unfold variable_high in *. pose proof (nth_alike (in_units k) _ _ 0 (rev_alike (in_units k) _ _ Hv)) as HR.
  exact (HR _ H).
Qed.

Lemma wrap_in_units k (lo lo' hi hi' x x' : flt) :
  in_units k lo lo' -> in_units k hi hi' -> in_units k x x' ->
  is_finite lo = true -> is_finite lo' = true -> is_finite hi = true -> is_finite hi' = true -> B2R lo < B2R hi -> B2R lo' < B2R hi' ->
  modest prec emax lo -> modest prec emax hi -> modest prec emax x -> modest prec emax lo' -> modest prec emax hi' -> modest prec emax x' ->
  exists y y', wrap_coordinate ops lo hi x = Val y /\ wrap_coordinate ops lo' hi' x' = Val y' /\ in_units k y y'.
Proof using HF.
  intros Hl Hh Hx Fl Fl' Fh Fh' Hlt Hlt' Ml Mh Mx Ml' Mh' Mx'.
  pose proof (in_units_finite _ _ _ _ _ Hx) as Fe.
  destruct (is_finite x) eqn:Fx.
  - destruct (Z_le_dec 0 k) as [Hk|Hk].
    + destruct (wrap_scaled k lo lo' hi hi' x x' Hk) as [y [y' [H1 [H2 H3]]]]; try assumption.
      1,2,3: apply in_units_scaled; assumption.
      exists y, y'. split; [exact H1|]. split; [exact H2|]. apply scaled_in_units. exact H3.
    + destruct (wrap_scaled (- k) lo' lo hi' hi x' x ltac:(lia)) as [y' [y [H1 [H2 H3]]]]; try assumption.
      1,2,3: apply in_units_scaled; [apply in_units_sym|]; assumption.
      exists y, y'. split; [exact H2|]. split; [exact H1|].
      replace k with (- - k)%Z by lia. apply in_units_sym. apply scaled_in_units. exact H3.
  - exists B754_nan, B754_nan.
    split; [apply wrap_nonfinite; [exact Fl | eapply modest_minus; eassumption | exact Fx]|].
    split; [apply wrap_nonfinite; [exact Fl' | eapply modest_minus; eassumption | exact Fe]|]. right. split; reflexivity.
Qed.

(** C82 for the Variable axes: the same edges in other units. *)
Theorem C82_variable_axes (search : searcher) k : search_extensional search ->
  axis_refines (variable_axis (H0 := ord) search) {| axis_eqb := variable_eqb (H0 := ord) |} (variable_axis (H0 := ord) search) {| axis_eqb := variable_eqb (H0 := ord) |}
    (fun a a' => Forall2 (in_units k) (v_edges a) (v_edges a')) (in_units k) (interval_rel (in_units k))
  /\ axis_refines (variablenoflow_axis (H0 := ord) search) {| axis_eqb := variablenoflow_eqb (H0 := ord) |}
       (variablenoflow_axis (H0 := ord) search) {| axis_eqb := variablenoflow_eqb (H0 := ord) |}
    (fun a a' => Forall2 (in_units k) (v_edges (vnf_axis a)) (v_edges (vnf_axis a'))) (in_units k) (interval_rel (in_units k))
  /\ axis_refines (variablecyclic_axis search ops) {| axis_eqb := variablecyclic_eqb ops |} (variablecyclic_axis search ops) {| axis_eqb := variablecyclic_eqb ops |}
    (fun a a' => let v := vnf_axis (vc_axis a) in let v' := vnf_axis (vc_axis a') in
                 Forall2 (in_units k) (v_edges v) (v_edges v') /\ cyclic_ends v /\ cyclic_ends v')
    (fun x x' => in_units k x x' /\ modest prec emax x /\ modest prec emax x') (interval_rel (in_units k)).
Proof using HF.
  intros HS. destruct C83_comparisons as [_ [_ HC]]. pose proof (HC k prec emax P E B) as HR.
  destruct (C83_variable_axes search ord ord (in_units k) HR HS) as [Hv Hn]. split; [exact Hv|]. split; [exact Hn|].
  destruct Hn as [N1 N2 N3 N4 N5]. split.
  - intros [[a]] [[a']] x x' [Ha [Ca Ca']] [Hx [Mx Mx']]. cbn [vc_axis vnf_axis] in *. cbn [index variablecyclic_axis].
    unfold variablecyclic_index. cbn [vc_axis vnf_axis].
    destruct Ca as [lo [hi [Elo [Ehi [Fl [Fh [Hlt [Ml Mh]]]]]]]]. destruct Ca' as [lo' [hi' [Elo' [Ehi' [Fl' [Fh' [Hlt' [Ml' Mh']]]]]]]].
    destruct (low_in_units k _ _ lo Ha Elo) as [l' [El Il]]. pose proof (eq_trans (eq_sym El) Elo') as Q. injection Q as ->.
    destruct (high_in_units k _ _ hi Ha Ehi) as [h' [Eh Ih]]. pose proof (eq_trans (eq_sym Eh) Ehi') as Q. injection Q as ->.
    rewrite Elo, Ehi, Elo', Ehi'. cbn [obind].
    destruct (wrap_in_units k lo lo' hi hi' x x') as [y [y' [E1 [E2 Iy]]]]; try assumption.
    rewrite E1, E2. cbn [obind]. exact (N1 (mkVariableNoFlow a) (mkVariableNoFlow a') y y' Ha Iy).
  - intros [[a]] [[a']] [Ha _]. exact (N2 (mkVariableNoFlow a) (mkVariableNoFlow a') Ha).
  - intros [[a]] [[a']] i [Ha _]. exact (N3 (mkVariableNoFlow a) (mkVariableNoFlow a') i Ha).
  - reflexivity.
  - intros [[a]] [[a']] [[b]] [[b']] [Ha _] [Hb _]. exact (N5 (mkVariableNoFlow a) (mkVariableNoFlow a') (mkVariableNoFlow b) (mkVariableNoFlow b') Ha Hb).
Qed.
Print Assumptions C82_variable_axes.

(** The constructors: edges in other units are accepted or refused alike, and give axes with
    edges in other units. *)
Theorem C82_variable_new (sort : sorter) k (edges edges' : list flt) :
  sort_parametric sort -> Forall2 (in_units k) edges edges' ->
  same_result (fun a a' => Forall2 (in_units k) (v_edges a) (v_edges a')) (variable_new sort (H0 := ord) edges) (variable_new sort (H0 := ord) edges').
Proof.
  intros HS Hed. destruct C83_comparisons as [_ [_ HC]]. exact (C83_variable_new sort ord ord (in_units k) _ _ (HC k prec emax P E B) HS Hed).
Qed.
Print Assumptions C82_variable_new.
End UnitsVariable.

(** [VariableCyclic::new([0.0, 0.1, 0.5])] and the same in units of 1/1024; -0.25 and -256.0
    wrap to 0.25 and 256.0, bin 1. *)
Example C82_variable_nonvacuous (B : Build) :
  let e1 := f64_lit 7205759403792794 (-56) in let e1' := f64_lit 7205759403792794 (-46) in
  let a := mkVariable [f64_lit 0 0; e1; f64_lit 1 (-1)] in
  let a' := mkVariable [f64_lit 0 0; e1'; f64_lit 1 9] in
  Forall2 (in_units 10) (v_edges a) (v_edges a')
  /\ cyclic_ends 53 1024 a /\ cyclic_ends 53 1024 a'
  /\ in_units 10 (f64_lit (-1) (-2)) (f64_lit (-1) 8) /\ modest 53 1024 (f64_lit (-1) (-2)) /\ modest 53 1024 (f64_lit (-1) 8)
  /\ search_extensional bsearch_early
  /\ variablecyclic_index bsearch_early f64_ops (mkVariableCyclic (mkVariableNoFlow a)) (f64_lit (-1) (-2)) = Val (Some 1%N)
  /\ variablecyclic_index bsearch_early f64_ops (mkVariableCyclic (mkVariableNoFlow a')) (f64_lit (-1) 8) = Val (Some 1%N).
Proof.
  assert (HE : forall e : Z, (-100 <= e <= 100)%Z -> grid_exponent 53 1024 e) by (intros e He; split; lia).
  assert (HG : forall m e : Z, (Z.abs m <= 2 ^ 53)%Z -> (-100 <= e <= 100)%Z -> is_finite (f64_lit m e) = true /\ B2R (f64_lit m e) = IZR m * bpow radix2 e).
  { intros m e Hm Hee. exact (f64_grid m e Hm (HE e Hee)). }
  assert (HU : forall m e : Z, (Z.abs m <= 2 ^ 53)%Z -> (-60 <= e <= 60)%Z -> in_units 10 (f64_lit m e) (f64_lit m (e + 10))).
  { intros m e Hm Hee. apply (lit_in_units m e 10); [exact Hm | apply HE; lia | apply HE; lia]. }
  assert (HM : forall m e : Z, (Z.abs m <= 1)%Z -> (-60 <= e <= 60)%Z -> modest 53 1024 (f64_lit m e)).
  { intros m e Hm Hee _. unfold f64 in *. rewrite (proj2 (HG m e ltac:(cbn; lia) ltac:(lia))). rewrite Rabs_mult, (Rabs_pos_eq (bpow radix2 e)) by apply bpow_ge_0.
    rewrite <- abs_IZR. apply Rle_trans with (1 * bpow radix2 e); [apply Rmult_le_compat_r; [apply bpow_ge_0 | apply IZR_le; exact Hm]|].
    rewrite Rmult_1_l. apply bpow_le. lia. }
  intros e1 e1' a a'. split.
  { cbn [v_edges a a']. constructor; [|constructor; [|constructor; [|constructor]]].
    - destruct (HG 0%Z 0%Z ltac:(cbn; lia) ltac:(lia)) as [F V]. left. split; [exact F|]. split; [exact F|]. unfold f64 in *. rewrite V. ring.
    - exact (HU 7205759403792794%Z (-56)%Z ltac:(cbn; lia) ltac:(lia)).
    - exact (HU 1%Z (-1)%Z ltac:(cbn; lia) ltac:(lia)). }
  assert (HEnds : forall (m e : Z) (v : Variable_ f64), m = 1%Z -> (-60 <= e <= 60)%Z -> variable_low v = Val (f64_lit 0 0) -> variable_high v = Val (f64_lit m e) -> cyclic_ends 53 1024 v).
  { intros m e v -> Hee E1 E2. exists (f64_lit 0 0), (f64_lit 1 e). split; [exact E1|]. split; [exact E2|].
    destruct (HG 0%Z 0%Z ltac:(cbn; lia) ltac:(lia)) as [F0 V0]. destruct (HG 1%Z e ltac:(cbn; lia) ltac:(lia)) as [F1 V1].
    split; [exact F0|]. split; [exact F1|]. split; [unfold f64 in *; rewrite V0, V1; pose proof (bpow_gt_0 radix2 e); nra|].
    split; apply HM; lia. }
  split; [apply (HEnds 1%Z (-1)%Z); [reflexivity | lia | reflexivity | reflexivity]|].
  split; [apply (HEnds 1%Z 9%Z); [reflexivity | lia | reflexivity | reflexivity]|].
  split; [exact (HU (-1)%Z (-2)%Z ltac:(cbn; lia) ltac:(lia))|].
  split; [apply HM; lia|]. split; [apply HM; lia|]. split; [exact bsearch_early_ext|].
  split; destruct B as [? []]; vm_compute; reflexivity.
Qed.
