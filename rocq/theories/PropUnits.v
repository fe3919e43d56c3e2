(** * PropUnits: a change of units by a power of two changes nothing (C82). *)
From Coq Require Import List ZArith NArith Bool Lia Reals Lra ZifyN ZifyNat ZifyBool.
From Flocq Require Import Core IEEE754.BinarySingleNaN.
From Verif Require Import Base BaseFacts Num Float Axis Axes Value VecHist HashHist HistSpec Program SimSpec SimFacts OrdLaws FloatOrd FloatFacts FloatSpec
  Uniform FloatUniform FloatUniformNew FloatUniformAcc FloatCyclic FloatScale GridSpec PropCyclicStep PropUniformFloatEx PropFloatGrid PropBuilds.
Import ListNotations.
Open Scope R_scope.

(** The same quantity in units 2^k times smaller: [x' = x * 2^k] exactly; NaN and the
    infinities are the same in all units. *)
Definition in_units {prec emax} (k : Z) (x x' : binary_float prec emax) : Prop :=
  (is_finite x = true /\ is_finite x' = true /\ B2R x' = B2R x * bpow radix2 k)
  \/ (is_finite x = false /\ x' = x).

(** Bin edges in other units, unless one of them overflows. *)
Definition edge_in_units {prec emax} (k : Z) (x x' : binary_float prec emax) : Prop :=
  is_finite x = true -> is_finite x' = true -> B2R x' = B2R x * bpow radix2 k.
Definition interval_in_units {prec emax} (k : Z) (b b' : BinInterval (binary_float prec emax)) : Prop :=
  match b, b' with
  | Underflow h, Underflow h' => edge_in_units k h h'
  | Overflow l, Overflow l' => edge_in_units k l l'
  | Bin s e, Bin s' e' => edge_in_units k s s' /\ edge_in_units k e e'
  | _, _ => False
  end.

(** Two axes made with the same parameters in other units.  The conditions exclude
    overflow and underflow: the range is finite and the bins are at least as wide
    as the smallest normal number (2^-1022 for f64), in both units. *)
Inductive axes_in_units {prec emax} {P : Prec_gt_0 prec} {E : Prec_lt_emax prec emax} {B : Build} (k : Z)
  : Uniform (binary_float prec emax) -> Uniform (binary_float prec emax) -> Prop :=
| units_new num low high low' high' a a' :
    in_units k low low' -> in_units k high high' ->
    (1 <= Z.of_N num < 2 ^ (prec - 1))%Z -> (num + 2 < usize_mod)%N ->
    is_finite (Bminus mode_NE high low) = true -> is_finite (Bminus mode_NE high' low') = true ->
    IZR (Z.of_N num) * smallest_normal emax <= B2R high - B2R low ->
    IZR (Z.of_N num) * smallest_normal emax <= B2R high' - B2R low' ->
    uniform_new (float_ops prec emax P E) num low high = Val (Ok a) ->
    uniform_new (float_ops prec emax P E) num low' high' = Val (Ok a') ->
    axes_in_units k a a'
| units_step num low step low' step' a a' :
    let top_edge l s := Bplus mode_NE (Bmult mode_NE (float_of_N prec emax P E num) s) l in
    in_units k low low' -> in_units k step step' ->
    (1 <= Z.of_N num < 2 ^ (prec - 1))%Z -> (num + 2 < usize_mod)%N ->
    is_finite (Bminus mode_NE (top_edge low step) low) = true ->
    is_finite (Bminus mode_NE (top_edge low' step') low') = true ->
    IZR (Z.of_N num) * smallest_normal emax <= B2R (top_edge low step) - B2R low ->
    IZR (Z.of_N num) * smallest_normal emax <= B2R (top_edge low' step') - B2R low' ->
    uniform_with_step_size (float_ops prec emax P E) num low step = Val (Ok a) ->
    uniform_with_step_size (float_ops prec emax P E) num low' step' = Val (Ok a') ->
    axes_in_units k a a'.

Section Units.
Variable prec emax : Z.
Context (P : Prec_gt_0 prec) (E : Prec_lt_emax prec emax) {B : Build}.
Context (HF : covered_format prec emax).
Notation flt := (binary_float prec emax).
Notation ops := (float_ops prec emax P E).
Notation emin := (SpecFloat.emin prec emax).
Notation of_N := (float_of_N prec emax P E).
Notation regular := (regular prec emax P E).
Notation ord := (@num_ord _ ops).

Let Hp : (8 <= prec <= 63)%Z. Proof. apply HF. Qed.
Let He : (64 < emax)%Z. Proof. apply HF. Qed.
Let Hp2 : (2 <= prec <= 63)%Z. Proof. lia. Qed.

Lemma in_units_sym k (x x' : flt) : in_units k x x' -> in_units (- k) x' x.
Proof.
  intros [[H1 [H2 H3]]|[H1 ->]]; [left|right; auto]. split; [exact H2|]. split; [exact H1|].
  rewrite H3, Rmult_assoc, <- bpow_plus. replace (k + - k)%Z with 0%Z by lia. cbn [bpow]. ring.
Qed.
Lemma edge_in_units_sym k (x x' : flt) : edge_in_units k x x' -> edge_in_units (- k) x' x.
Proof.
  intros H F F'. rewrite (H F' F), Rmult_assoc, <- bpow_plus. replace (k + - k)%Z with 0%Z by lia. cbn [bpow]. ring.
Qed.
Lemma interval_in_units_sym k (b b' : BinInterval flt) : interval_in_units k b b' -> interval_in_units (- k) b' b.
Proof. destruct b, b'; cbn; auto using edge_in_units_sym. intros [H1 H2]; split; apply edge_in_units_sym; assumption. Qed.

Lemma in_units_scaled k (x x' : flt) : in_units k x x' -> is_finite x = true -> scaled prec emax k x x'.
Proof. intros [H|[H _]] F; [exact H | congruence]. Qed.
Lemma scaled_in_units k (x x' : flt) : scaled prec emax k x x' -> in_units k x x'.
Proof. intros H. left. exact H. Qed.
Lemma in_units_finite k (x x' : flt) : in_units k x x' -> is_finite x' = is_finite x.
Proof. intros [[-> [-> _]]|[_ ->]]; reflexivity. Qed.

(** What the constructors guarantee, for [k >= 0]. *)
Record good (k : Z) (a a' : Uniform flt) : Prop := {
  g_reg : regular a; g_reg' : regular a'; g_num : u_num a' = u_num a;
  g_low : scaled prec emax k (u_low a) (u_low a'); g_high : scaled prec emax k (u_high a) (u_high a');
  g_step : scaled prec emax k (u_step a) (u_step a');
  g_lt : B2R (u_low a) < B2R (u_high a); g_width : is_finite (Bminus mode_NE (u_high a') (u_low a')) = true;
  g_normal : bpow radix2 (emin + prec - 1) <= B2R (Bminus mode_NE (u_high a) (u_low a)) / IZR (Z.of_N (u_num a))
}.

Lemma small_normal : smallest_normal emax = bpow radix2 (emin + prec - 1).
Proof. unfold smallest_normal, SpecFloat.emin. f_equal. lia. Qed.

Lemma normal_lt (num : N) (l h : R) : (1 <= Z.of_N num < 2 ^ (prec - 1))%Z -> IZR (Z.of_N num) * smallest_normal emax <= h - l -> l < h.
Proof. intros Hn Hw. pose proof (bpow_gt_0 radix2 (2 - emax)) as H. fold (smallest_normal emax) in H. pose proof (IZR_le 1 _ (proj1 Hn)). nra. Qed.

Lemma lt_scaled k (x x' y y' : flt) : B2R x' = B2R x * bpow radix2 k -> B2R y' = B2R y * bpow radix2 k -> B2R x < B2R y -> B2R x' < B2R y'.
Proof. intros -> -> H. apply Rmult_lt_compat_r; [apply bpow_gt_0 | exact H]. Qed.

Lemma good_new k num (low high low' high' : flt) a a' : (0 <= k)%Z -> in_units k low low' -> in_units k high high' ->
  (1 <= Z.of_N num < 2 ^ (prec - 1))%Z -> (num + 2 < usize_mod)%N ->
  is_finite (Bminus mode_NE high low) = true -> is_finite (Bminus mode_NE high' low') = true ->
  IZR (Z.of_N num) * smallest_normal emax <= B2R high - B2R low ->
  uniform_new ops num low high = Val (Ok a) -> uniform_new ops num low' high' = Val (Ok a') -> good k a a'.
Proof.
  intros Hk Il Ih Hn Hus Fw Fw' Hw Ea Ea'. pose proof (normal_lt _ _ _ Hn Hw) as Hlt. rewrite small_normal in Hw.
  destruct (minus_finite prec emax P E _ _ Fw) as [Fh Fl]. destruct (minus_finite prec emax P E _ _ Fw') as [Fh' Fl'].
  pose proof (in_units_scaled _ _ _ Il Fl) as Sl. pose proof (in_units_scaled _ _ _ Ih Fh) as Sh.
  assert (Hlt' : B2R low' < B2R high') by (destruct Sl as [_ [_ Vl]], Sh as [_ [_ Vh]]; eapply lt_scaled; eassumption).
  assert (Hgt : forall l h : flt, is_finite l = true -> is_finite h = true -> B2R l < B2R h -> @gt_ _ ord l h = false).
  { intros l h F1 F2 H. unfold gt_. cbn [partial_cmp num_ord float_ops]. rewrite Bcompare_correct by assumption. rewrite Rcompare_Lt by exact H. reflexivity. }
  destruct (new_ok prec emax P E num low high a Ea) as [_ [_ [lo [hi [E1 ->]]]]]. rewrite (Hgt _ _ Fl Fh Hlt) in E1. injection E1 as -> ->.
  destruct (new_ok prec emax P E num low' high' a' Ea') as [_ [_ [lo' [hi' [E1' ->]]]]]. rewrite (Hgt _ _ Fl' Fh' Hlt') in E1'. injection E1' as -> ->.
  destruct (width_normal prec emax P E Hp num low high Hn Fl Fh Hlt Fw Hw) as [W1 W2].
  pose proof (scaled_minus prec emax P E Hp k Hk _ _ _ _ Sh Sl Fw') as Sw.
  assert (Ss : scaled prec emax k (Bdiv mode_NE (Bminus mode_NE high low) (of_N num)) (Bdiv mode_NE (Bminus mode_NE high' low') (of_N num))).
  { apply scaled_div_int; [exact Hp | exact Hk | exact Hn | exact Sw |]. right. rewrite Rabs_pos_eq; [exact W1|].
    pose proof (bpow_gt_0 radix2 (emin + prec - 1)). lra. }
  constructor; cbn [u_num u_low u_high u_step]; try assumption; try reflexivity.
  - apply (regular_new prec emax P E Hp2 num low high Hn Hus Fl Fh Hlt Fw W2).
  - apply (regular_new prec emax P E Hp2 num low' high' Hn Hus Fl' Fh' Hlt' Fw').
    destruct Ss as [_ [_ ->]]. pose proof (bpow_gt_0 radix2 (emin + prec - 1)).
    assert (1 <= bpow radix2 k) by (change 1 with (bpow radix2 0); apply bpow_le; exact Hk). nra.
Qed.

Lemma good_step k num (low step low' step' : flt) a a' : 
  let top_edge l s := Bplus mode_NE (Bmult mode_NE (of_N num) s) l in
  (0 <= k)%Z -> in_units k low low' -> in_units k step step' ->
  (1 <= Z.of_N num < 2 ^ (prec - 1))%Z -> (num + 2 < usize_mod)%N ->
  is_finite (Bminus mode_NE (top_edge low step) low) = true ->
  is_finite (Bminus mode_NE (top_edge low' step') low') = true ->
  IZR (Z.of_N num) * smallest_normal emax <= B2R (top_edge low step) - B2R low ->
  uniform_with_step_size ops num low step = Val (Ok a) ->
  uniform_with_step_size ops num low' step' = Val (Ok a') -> good k a a'.
Proof.
  intros top_edge Hk Il Is Hn Hus Fw Fw' Hw Ea Ea'. pose proof (normal_lt _ _ _ Hn Hw) as Hlt. rewrite small_normal in Hw.
  destruct (minus_finite prec emax P E _ _ Fw) as [Fh Fl]. destruct (minus_finite prec emax P E _ _ Fw') as [Fh' Fl'].
  destruct (plus_finite prec emax P E _ _ Fh) as [Fm _]. destruct (plus_finite prec emax P E _ _ Fh') as [Fm' _].
  destruct (num_float prec emax P E Hp2 num Hn) as [N1 [N2 [N3 N4]]].
  assert (Fs : forall s : flt, is_finite (Bmult mode_NE (of_N num) s) = true -> is_finite s = true).
  { intros s F. destruct (of_N num) as [s1|s1| |s1 m1 e1 h1]; try discriminate N2; [cbn in N1; lra|].
    destruct s as [s2|s2| |s2 m2 e2 h2]; try reflexivity; discriminate F. }
  pose proof (Fs _ Fm) as F1. pose proof (Fs _ Fm') as F1'.
  pose proof (in_units_scaled _ _ _ Il Fl) as Sl. pose proof (in_units_scaled _ _ _ Is F1) as Ss.
  pose proof (num_fits prec Hp2 num ltac:(lia)) as Hn2.
  assert (Sh : scaled prec emax k (top_edge low step) (top_edge low' step')).
  { apply scaled_plus; [exact Hp | exact Hk | | exact Sl | exact Fh']. apply scaled_mult; [exact Hp | exact Hk | lia | exact Ss | exact Fm']. }
  destruct (step_ok prec emax P E num low step a Ea) as [_ [Lz [lo [hi [E1 ->]]]]].
  destruct (step_ok prec emax P E num low' step' a' Ea') as [_ [Lz' [lo' [hi' [E1' ->]]]]].
  pose proof (step_positive prec emax P E step Lz) as Hpos. pose proof (step_positive prec emax P E step' Lz') as Hpos'.
  assert (Pos : 0 < B2R step).
  { rewrite le_fin in Lz by (exact F1 || reflexivity). destruct (Rle_bool_spec (B2R step) (B2R (B754_zero false : flt))) as [|H]; [discriminate | exact H]. }
  assert (Pos' : 0 < B2R step') by (destruct Ss as [_ [_ ->]]; pose proof (bpow_gt_0 radix2 k); nra).
  destruct (regular_step prec emax P E Hp2 num low step Hn Hus Fl F1 Pos) as [R1 G1].
  destruct (regular_step prec emax P E Hp2 num low' step' Hn Hus Fl' F1' Pos') as [R1' G1'].
  fold (top_edge low step) in *. fold (top_edge low' step') in *. cbv zeta in E1, E1'. fold (top_edge low step) in E1. fold (top_edge low' step') in E1'.
  rewrite G1 in E1. rewrite G1' in E1'. injection E1 as -> ->. injection E1' as -> ->.
  destruct (width_normal prec emax P E Hp num low _ Hn Fl Fh Hlt Fw Hw) as [W1 _].
  constructor; cbn [u_num u_low u_high u_step]; try assumption; reflexivity.
Qed.

Lemma good_axes k (a a' : Uniform flt) : (0 <= k)%Z -> axes_in_units k a a' -> good k a a'.
Proof.
  intros Hk H. destruct H as [num low high low' high' a a' Il Ih Hn Hus Fw Fw' Hw Hw' Ea Ea'
                            |num low step low' step' a a' te Il Is Hn Hus Fw Fw' Hw Hw' Ea Ea'].
  - exact (good_new k num low high low' high' a a' Hk Il Ih Hn Hus Fw Fw' Hw Ea Ea').
  - exact (good_step k num low step low' step' a a' Hk Il Is Hn Hus Fw Fw' Hw Ea Ea').
Qed.

Lemma axes_in_units_sym k (a a' : Uniform flt) : axes_in_units k a a' -> axes_in_units (- k) a' a.
Proof.
  intros H. destruct H as [num low high low' high' a a' Il Ih Hn Hus Fw Fw' Hw Hw' Ea Ea'
                          |num low step low' step' a a' te Il Is Hn Hus Fw Fw' Hw Hw' Ea Ea'].
  - apply (units_new (- k) num low' high' low high a' a); try assumption; apply in_units_sym; assumption.
  - apply (units_step (- k) num low' step' low step a' a); try assumption; apply in_units_sym; assumption.
Qed.

(** ** The methods *)
Record same_methods k (a a' : Uniform flt) : Prop := {
  sm_index x x' : in_units k x x' -> uniform_index ops a' x' = uniform_index ops a x;
  sm_noflow x x' : in_units k x x' -> uniformnoflow_index ops (mkUniformNoFlow a') x' = uniformnoflow_index ops (mkUniformNoFlow a) x;
  sm_cyclic x x' : in_units k x x' -> (is_finite x = true -> is_finite (Bminus mode_NE x (u_low a)) = true /\ is_finite (Bminus mode_NE x' (u_low a')) = true) ->
    uniformcyclic_index ops (mkUniformCyclic (mkUniformNoFlow a')) x' = uniformcyclic_index ops (mkUniformCyclic (mkUniformNoFlow a)) x;
  sm_num : u_num a' = u_num a;
  sm_bin i : refines (option_rel (interval_in_units k)) (uniform_bin ops a i) (uniform_bin ops a' i);
  sm_fields : in_units k (u_low a) (u_low a') /\ in_units k (u_high a) (u_high a') /\ in_units k (u_step a) (u_step a')
}.

Lemma cyclic_special (a : Uniform flt) x : regular a -> is_finite (u_high a) = true -> is_finite x = false ->
  uniformcyclic_index ops (mkUniformCyclic (mkUniformNoFlow a)) x = Val None.
Proof.
  intros Ra Fh Fx. unfold uniformcyclic_index, wrap_coordinate. cbn [uc_axis unf_axis n_sub n_rem n_add n_zero float_ops obind].
  assert (Hs : exists y : flt, (let! r' := (if @lt_ _ ord (Bfmod prec emax P E (Bminus mode_NE x (u_low a)) (Bminus mode_NE (u_high a) (u_low a))) (B754_zero false) then
      Val (Bplus mode_NE (Bminus mode_NE (u_high a) (u_low a)) (Bfmod prec emax P E (Bminus mode_NE x (u_low a)) (Bminus mode_NE (u_high a) (u_low a))))
      else Val (Bfmod prec emax P E (Bminus mode_NE x (u_low a)) (Bminus mode_NE (u_high a) (u_low a)))) in Val (Bplus mode_NE r' (u_low a))) = Val y
      /\ is_finite y = false).
  { assert (Hn : Bfmod prec emax P E (Bminus mode_NE x (u_low a)) (Bminus mode_NE (u_high a) (u_low a)) = B754_nan).
    { assert (Hd : is_finite (Bminus mode_NE x (u_low a)) = false).
      { destruct x as [|s| |]; try discriminate Fx; [|destruct (u_low a); reflexivity].
        pose proof (rg_low _ _ _ _ _ Ra) as Fl. destruct (u_low a); try discriminate Fl; reflexivity. }
      destruct (Bminus mode_NE x (u_low a)) as [|?| |]; try discriminate Hd; destruct (Bminus mode_NE (u_high a) (u_low a)); reflexivity. }
    rewrite Hn. cbn. eexists. split; [reflexivity|]. destruct (u_low a); reflexivity. }
  destruct Hs as [y [Hy Fy]]. rewrite Hy. cbn [obind]. apply (noflow_outside prec emax P E); auto.
Qed.

Lemma good_methods k a a' : (0 <= k)%Z -> good k a a' -> same_methods k a a'.
Proof.
  intros Hk [R R' En Sl Sh Ss Hlt Fw Hnorm].
  assert (HI : forall x x', in_units k x x' -> uniform_index ops a' x' = uniform_index ops a x).
  { intros x x' [Sx|[Fx ->]].
    - exact (scaled_index prec emax P E Hp He k Hk a a' R R' En Sl Sh Ss Fw x x' Sx).
    - exact (special_index prec emax P E Hp He k a a' R R' En Sl Sh Fw x Fx). }
  constructor.
  - exact HI.
  - intros x x' Hx. apply noflow_same; [exact En | apply HI; exact Hx].
  - intros x x' [Sx|[Fx ->]] Fd.
    + destruct (Fd (proj1 Sx)) as [_ Fd']. exact (scaled_cyclic prec emax P E Hp He k Hk a a' R R' En Sl Sh Ss Hlt Fw x x' Sx Fd').
    + rewrite !cyclic_special; [reflexivity | exact R | apply Sh | exact Fx | exact R' | apply Sh | exact Fx].
  - exact En.
  - intros i. unfold uniform_bin. rewrite En. destruct (N.eqb_spec i 0) as [->|Hi0].
    { apply refines_val. cbn. intros _ _. apply Sl. }
    apply (refines_bind eq); [apply refines_refl|]. intros n1 ? Hn1 _ <-.
    assert (Hn1v : n1 = (u_num a + 1)%N).
    { pose proof (rg_usize _ _ _ _ _ R). rewrite uadd_ok in Hn1 by lia. injection Hn1 as <-. reflexivity. }
    destruct (N.eqb_spec i n1) as [->|Hi1]; [apply refines_val; cbn; intros _ _; apply Sh|].
    destruct (N.ltb_spec n1 i) as [Hlt1|Hle]; [apply refines_val; exact I|].
    apply (refines_bind eq); [apply refines_refl|]. intros i1 ? Hi1v _ <-.
    assert (Hi1' : (i1 <= u_num a)%N).
    { rewrite usub_ok in Hi1v by lia. injection Hi1v as <-. lia. }
    assert (HE : forall j, (j <= u_num a)%N -> refines (option_rel (edge_in_units k)) (uniform_edge ops a j) (uniform_edge ops a' j)).
    { intros j Hj v Hv. assert (Hv' : exists e', uniform_edge ops a' j = Val (Some e')) by (eexists; reflexivity).
      assert (Hv2 : exists e, uniform_edge ops a j = Val (Some e)) by (eexists; reflexivity).
      destruct Hv' as [e' He']. destruct Hv2 as [e He2]. rewrite He2 in Hv. injection Hv as <-. exists (Some e'). split; [exact He'|].
      cbn. intros _ F'.
      apply (scaled_edge prec emax P E Hp k Hk a a' R En Sl Sh Fw j e e' Hj (or_intror Hnorm) He2 He' F'). }
    eapply (refines_bind (option_rel (edge_in_units k))); [apply HE; exact Hi1'|].
    intros [s|] [s'|] _ _ Hs; cbn in Hs; try contradiction; [|apply refines_val; exact I].
    eapply (refines_bind (option_rel (edge_in_units k))); [apply HE; lia|].
    intros [e|] [e'|] _ _ Hee; cbn in Hee; try contradiction; [|apply refines_val; exact I].
    apply refines_val. cbn. split; assumption.
  - split; [|split]; left; assumption.
Qed.

Lemma methods_sym k a a' : same_methods (- k) a' a -> same_methods k a a'.
Proof.
  assert (Hs : forall x x' : flt, in_units k x x' -> in_units (- k) x' x) by (intros; apply in_units_sym; assumption).
  assert (Hs' : forall x x' : flt, in_units (- k) x' x -> in_units k x x').
  { intros x x' H. apply in_units_sym in H. rewrite Z.opp_involutive in H. exact H. }
  intros [H1 H2 H3 H4 H5 H6]. constructor.
  - intros x x' Hx. symmetry. apply H1, Hs, Hx.
  - intros x x' Hx. symmetry. apply H2, Hs, Hx.
  - intros x x' Hx HF'. symmetry. apply H3; [apply Hs, Hx|]. intros F. rewrite <- (in_units_finite _ _ _ (Hs _ _ Hx)) in F. destruct (HF' F). auto.
  - symmetry. exact H4.
  - intros i v Hv.
    assert (Hb' : exists w, uniform_bin ops a' i = Val w).
    { destruct (uniform_bin ops a' i) as [w|] eqn:Eb; [eauto|]. exfalso.
      revert Hv Eb. unfold uniform_bin. rewrite H4. destruct (i =? 0)%N; [discriminate|].
      destruct (uadd (u_num a') 1) as [n1|]; cbn [obind]; [|discriminate].
      destruct (i =? n1)%N; [discriminate|]. destruct (n1 <? i)%N; [discriminate|].
      destruct (usub i 1) as [i1|]; cbn [obind]; [|discriminate].
      intros _. cbn [uniform_edge n_from_usize n_sub n_mul n_div n_add float_ops obind]. discriminate. }
    destruct Hb' as [w Hw]. destruct (H5 i w Hw) as [v' [Hv' Hr]]. rewrite Hv in Hv'. injection Hv' as <-.
    exists w. split; [exact Hw|]. destruct v as [b|], w as [b'|]; cbn in Hr |- *; try contradiction; [|exact I].
    apply interval_in_units_sym in Hr. rewrite Z.opp_involutive in Hr. exact Hr.
  - destruct H6 as [A1 [A2 A3]]. split; [|split]; apply Hs'; assumption.
Qed.

Lemma units_methods k a a' : axes_in_units k a a' -> same_methods k a a'.
Proof.
  intros H. destruct (Z_le_dec 0 k) as [Hk|Hk].
  - apply good_methods; [exact Hk | apply good_axes; assumption].
  - apply methods_sym. apply good_methods; [lia|]. apply good_axes; [lia|]. apply axes_in_units_sym. exact H.
Qed.

Lemma eq_in_units k (x x' y y' : flt) : in_units k x x' -> in_units k y y' -> @eq_ _ ord x y = @eq_ _ ord x' y'.
Proof.
  intros [[Fx [Fx' Vx]]|[Fx ->]] [[Fy [Fy' Vy]]|[Fy ->]]; [| | |reflexivity].
  - unfold eq_. cbn [partial_cmp num_ord float_ops]. rewrite !Bcompare_correct by assumption. rewrite Vx, Vy, Rcompare_mult_r by apply bpow_gt_0. reflexivity.
  - destruct y as [|[]| |]; try discriminate Fy; destruct x as [|?| |]; try discriminate Fx; destruct x' as [|?| |]; try discriminate Fx'; reflexivity.
  - destruct x as [|[]| |]; try discriminate Fx; destruct y as [|?| |]; try discriminate Fy; destruct y' as [|?| |]; try discriminate Fy'; reflexivity.
Qed.
Lemma eqb_in_units k a a' b b' : axes_in_units k a a' -> axes_in_units k b b' -> uniform_eqb ops a b = uniform_eqb ops a' b'.
Proof.
  intros Ha Hb. destruct (units_methods k a a' Ha) as [_ _ _ Na _ [A1 [A2 A3]]]. destruct (units_methods k b b' Hb) as [_ _ _ Nb _ [B1 [B2 B3]]].
  unfold uniform_eqb. rewrite Na, Nb, (eq_in_units k _ _ _ _ A1 B1), (eq_in_units k _ _ _ _ A2 B2), (eq_in_units k _ _ _ _ A3 B3). reflexivity.
Qed.

(** ** The theorems *)

(** C82. Parameters that are the same in other units are accepted in both, and give
    axes that are the same in other units. *)
Theorem C82_new k num (low high low' high' : flt) :
  in_units k low low' -> in_units k high high' -> (1 <= Z.of_N num < 2 ^ (prec - 1))%Z -> (num + 2 < usize_mod)%N ->
  is_finite (Bminus mode_NE high low) = true -> is_finite (Bminus mode_NE high' low') = true ->
  IZR (Z.of_N num) * smallest_normal emax <= B2R high - B2R low ->
  IZR (Z.of_N num) * smallest_normal emax <= B2R high' - B2R low' ->
  exists a a', uniform_new ops num low high = Val (Ok a) /\ uniform_new ops num low' high' = Val (Ok a') /\ axes_in_units k a a'.
Proof using HF.
  intros Il Ih Hn Hus Fw Fw' Hw Hw'.
  assert (Acc : forall l h : flt, is_finite (Bminus mode_NE h l) = true -> B2R l < B2R h -> exists a, uniform_new ops num l h = Val (Ok a)).
  { intros l h F H. destruct (minus_finite prec emax P E _ _ F) as [Fh Fl]. unfold uniform_new.
    destruct (N.eqb_spec num 0) as [->|_]; [lia|]. 
    assert (Heq : @eq_ _ ord l h = false).
    { unfold eq_. cbn [partial_cmp num_ord float_ops]. rewrite Bcompare_correct by assumption. rewrite Rcompare_Lt by exact H. reflexivity. }
    rewrite Heq. destruct (@gt_ _ ord l h); cbn [n_sub n_div n_from_usize float_ops obind]; eexists; reflexivity. }
  destruct (Acc low high Fw (normal_lt _ _ _ Hn Hw)) as [a Ea]. destruct (Acc low' high' Fw' (normal_lt _ _ _ Hn Hw')) as [a' Ea'].
  exists a, a'. split; [exact Ea|]. split; [exact Ea'|]. exact (units_new k num low high low' high' a a' Il Ih Hn Hus Fw Fw' Hw Hw' Ea Ea').
Qed.
Print Assumptions C82_new.

Theorem C82_with_step_size k num (low step low' step' : flt) :
  let top_edge l s := Bplus mode_NE (Bmult mode_NE (of_N num) s) l in
  in_units k low low' -> in_units k step step' -> 0 < B2R step -> (1 <= Z.of_N num < 2 ^ (prec - 1))%Z -> (num + 2 < usize_mod)%N ->
  is_finite (Bminus mode_NE (top_edge low step) low) = true -> is_finite (Bminus mode_NE (top_edge low' step') low') = true ->
  IZR (Z.of_N num) * smallest_normal emax <= B2R (top_edge low step) - B2R low ->
  IZR (Z.of_N num) * smallest_normal emax <= B2R (top_edge low' step') - B2R low' ->
  exists a a', uniform_with_step_size ops num low step = Val (Ok a) /\ uniform_with_step_size ops num low' step' = Val (Ok a') /\ axes_in_units k a a'.
Proof using HF.
  intros top_edge Il Is Hpos Hn Hus Fw Fw' Hw Hw'.
  assert (Acc : forall l s : flt, is_finite s = true -> 0 < B2R s -> exists a, uniform_with_step_size ops num l s = Val (Ok a)).
  { intros l s F H. unfold uniform_with_step_size. cbn [n_sub n_div n_from_usize n_mul n_add n_zero float_ops obind].
    destruct (N.eqb_spec num 0) as [->|_]; [lia|].
    assert (Hle : @le_ _ ord s (B754_zero false) = false).
    { rewrite le_fin by (exact F || reflexivity). apply Rle_bool_false. exact H. }
    rewrite Hle. destruct (@gt_ _ ord l _); eexists; reflexivity. }
  assert (Fs : is_finite step = true).
  { destruct step as [|?| |]; try reflexivity; cbn in Hpos; lra. }
  destruct (in_units_scaled _ _ _ Is Fs) as [_ [Fs' Vs]].
  assert (Hpos' : 0 < B2R step') by (rewrite Vs; pose proof (bpow_gt_0 radix2 k); nra).
  destruct (Acc low step Fs Hpos) as [a Ea]. destruct (Acc low' step' Fs' Hpos') as [a' Ea'].
  exists a, a'. split; [exact Ea|]. split; [exact Ea'|]. exact (units_step k num low step low' step' a a' Il Is Hn Hus Fw Fw' Hw Hw' Ea Ea').
Qed.
Print Assumptions C82_with_step_size.

(** Every coordinate, NaN and the infinities included, falls in the same bin. *)
Theorem C82_index k a a' (x x' : flt) : axes_in_units k a a' -> in_units k x x' ->
  uniform_index ops a' x' = uniform_index ops a x
  /\ uniformnoflow_index ops (mkUniformNoFlow a') x' = uniformnoflow_index ops (mkUniformNoFlow a) x
  /\ ((is_finite x = true -> is_finite (Bminus mode_NE x (u_low a)) = true /\ is_finite (Bminus mode_NE x' (u_low a')) = true) ->
      uniformcyclic_index ops (mkUniformCyclic (mkUniformNoFlow a')) x' = uniformcyclic_index ops (mkUniformCyclic (mkUniformNoFlow a)) x).
Proof using HF.
  intros Ha Hx. destruct (units_methods k a a' Ha) as [H1 H2 H3 _ _ _]. split; [exact (H1 _ _ Hx)|]. split; [exact (H2 _ _ Hx) | exact (H3 _ _ Hx)].
Qed.
Print Assumptions C82_index.

Lemma noflow_bin_in_units k (a a' : Uniform flt) i : same_methods k a a' ->
  refines (option_rel (interval_in_units k)) (uniformnoflow_bin ops (mkUniformNoFlow a) i) (uniformnoflow_bin ops (mkUniformNoFlow a') i).
Proof.
  intros [_ _ _ Hn Hb _]. unfold uniformnoflow_bin. cbn [unf_axis].
  apply (refines_bind eq); [apply refines_refl|]. intros j ? _ _ <-.
  eapply (refines_bind (option_rel (interval_in_units k))); [apply Hb|].
  intros [[h|l|s e]|] [[h'|l'|s' e']|] _ _ Hr; cbn in Hr; try contradiction; apply refines_val; cbn; auto.
Qed.

(** All methods of the axes. *)
Theorem C82_uniform_axes k :
  axis_refines (uniform_axis ops) {| axis_eqb := uniform_eqb ops |} (uniform_axis ops) {| axis_eqb := uniform_eqb ops |}
    (axes_in_units k) (in_units k) (interval_in_units k)
  /\ axis_refines (uniformnoflow_axis ops) {| axis_eqb := uniformnoflow_eqb ops |} (uniformnoflow_axis ops) {| axis_eqb := uniformnoflow_eqb ops |}
    (fun a a' => axes_in_units k (unf_axis a) (unf_axis a')) (in_units k) (interval_in_units k).
Proof using HF.
  split; split.
  - intros a a' x x' Ha Hx. cbn [index uniform_axis]. rewrite (sm_index _ _ _ (units_methods k a a' Ha) _ _ Hx). apply refines_refl.
  - intros a a' Ha. cbn [num_bins uniform_axis]. unfold uniform_num_bins. rewrite (sm_num _ _ _ (units_methods k a a' Ha)). apply refines_refl.
  - intros a a' i Ha. exact (sm_bin _ _ _ (units_methods k a a' Ha) i).
  - reflexivity.
  - intros a a' b b' Ha Hb. exact (eqb_in_units k a a' b b' Ha Hb).
  - intros [a] [a'] x x' Ha Hx. cbn [index uniformnoflow_axis]. rewrite (sm_noflow _ _ _ (units_methods k a a' Ha) _ _ Hx). apply refines_refl.
  - intros [a] [a'] Ha. cbn [num_bins uniformnoflow_axis]. unfold uniformnoflow_num_bins, uniform_num_bins. cbn [unf_axis] in *.
    rewrite (sm_num _ _ _ (units_methods k a a' Ha)). apply refines_refl.
  - intros [a] [a'] i Ha. exact (noflow_bin_in_units k a a' i (units_methods k a a' Ha)).
  - reflexivity.
  - intros [a] [a'] [b] [b'] Ha Hb. exact (eqb_in_units k a a' b b' Ha Hb).
Qed.
Print Assumptions C82_uniform_axes.

(** Cyclic axes, where no number exceeds a quarter of the format's range (2^1022 for f64),
    so that the distance to the lower edge does not overflow. *)
Definition modest (x : flt) : Prop := is_finite x = true -> Rabs (B2R x) <= bpow radix2 (emax - 2).

Lemma modest_minus (x y : flt) : is_finite x = true -> is_finite y = true -> modest x -> modest y -> is_finite (Bminus mode_NE x y) = true.
Proof.
  intros Fx Fy Mx My. specialize (Mx Fx). specialize (My Fy).
  pose proof (Bminus_correct prec emax P E mode_NE x y Fx Fy) as H. rewrite Rlt_bool_true in H; [apply H|].
  apply Rle_lt_trans with (bpow radix2 (emax - 1)); [|apply bpow_lt; lia].
  apply abs_round_le_generic; [apply FLT_exp_valid; assumption | apply valid_rnd_N | |].
  - apply generic_format_bpow. unfold SpecFloat.fexp, FLT_exp, SpecFloat.emin. lia.
  - replace (emax - 1)%Z with (emax - 2 + 1)%Z by lia. rewrite bpow_plus. change (bpow radix2 1) with 2.
    revert Mx My. unfold Rabs. repeat destruct (Rcase_abs _); lra.
Qed.

Theorem C82_cyclic_axes k :
  axis_refines (uniformcyclic_axis ops) {| axis_eqb := uniformcyclic_eqb ops |} (uniformcyclic_axis ops) {| axis_eqb := uniformcyclic_eqb ops |}
    (fun a a' => let u := unf_axis (uc_axis a) in let u' := unf_axis (uc_axis a') in axes_in_units k u u' /\ modest (u_low u) /\ modest (u_low u'))
    (fun x x' => in_units k x x' /\ modest x /\ modest x') (interval_in_units k).
Proof using HF.
  split.
  - intros [[a]] [[a']] x x' [Ha [Ml Ml']] [Hx [Mx Mx']]. cbn [uc_axis unf_axis] in *. cbn [index uniformcyclic_axis].
    pose proof (units_methods k a a' Ha) as SM.
    rewrite (sm_cyclic _ _ _ SM _ _ Hx); [apply refines_refl|]. intros Fx.
    assert (Fl : is_finite (u_low a) = true /\ is_finite (u_low a') = true).
    { destruct (Z_le_dec 0 k) as [Hk|Hk].
      - destruct (good_axes k a a' Hk Ha) as [_ _ _ [F1 [F2 _]] _ _ _ _ _]. auto.
      - destruct (good_axes (- k) a' a ltac:(lia) (axes_in_units_sym _ _ _ Ha)) as [_ _ _ [F1 [F2 _]] _ _ _ _ _]. auto. }
    destruct Fl as [F1 F2]. pose proof (in_units_finite _ _ _ Hx) as Fx'. rewrite Fx in Fx'.
    split; apply modest_minus; assumption.
  - intros [[a]] [[a']] [Ha _]. cbn [uc_axis unf_axis] in *. cbn [num_bins uniformcyclic_axis]. unfold uniformnoflow_num_bins, uniform_num_bins.
    cbn [uc_axis unf_axis]. rewrite (sm_num _ _ _ (units_methods k a a' Ha)). apply refines_refl.
  - intros [[a]] [[a']] i [Ha _]. exact (noflow_bin_in_units k a a' i (units_methods k a a' Ha)).
  - reflexivity.
  - intros [[a]] [[a']] [[b]] [[b']] [Ha _] [Hb _]. exact (eqb_in_units k a a' b b' Ha Hb).
Qed.
Print Assumptions C82_cyclic_axes.

(** Client programs: written in other units, a program over one-dimensional histograms,
    dense or sparse, with any bin value type, gives the same answers and the same result and
    leaves the same bin values. (The statement for [-k] is the converse.) Programs
    over tuples of such axes: [C73_tuples] and [C73_programs] with the pairs above. *)
Theorem C82_programs {V D W R : Type} {FV : Fill V} {FD : FillWith V D} {FW : FillWithWeighted V D W} {DV : Default V} k
    (p p' : program (AX := @axes1_axis _ (uniform_axis ops)) V D W R) :
  let RA a a' := axes_in_units k (ax1_axis a) (ax1_axis a') /\ ax1_shape a = ax1_shape a' in
  let AX := @axes1_axis _ (uniform_axis ops) in let AE := @axes1_eq _ {| axis_eqb := uniform_eqb ops |} in
  same_program AX AX RA (in_units k) (interval_in_units k) p p' ->
  (forall r st, dense_run (AX := AX) (AE := AE) p (fun _ => None) = Val (r, st) ->
     exists st', dense_run (AX := AX) (AE := AE) p' (fun _ => None) = Val (r, st') /\ same_store (same_dense RA) st st')
  /\ (forall r st, sparse_run (AX := AX) (AE := AE) p (fun _ => None) (Val (r, st)) ->
     exists st', sparse_run (AX := AX) (AE := AE) p' (fun _ => None) (Val (r, st')) /\ same_store (same_sparse RA) st st').
Proof using HF.
  intros RA AX AE Hp'. refine (C73_programs (AX1 := AX) (AE1 := AE) (AX2 := AX) (AE2 := AE) RA (in_units k : @Coordinate _ AX -> @Coordinate _ AX -> Prop) (interval_in_units k : @Interval _ AX -> @Interval _ AX -> Prop) p p' _ _ Hp').
  - exact (proj1 (C73_one_dim _ _ _ _ _ _ _ (proj1 (C82_uniform_axes k)))).
  - split; intros; apply refines_refl.
Qed.
Print Assumptions C82_programs.
End Units.

(** ** The hypotheses are met: metres in [0, 1) and 1/1024 m in [0, 1024) *)
Section Example.
Notation ops := f64_ops.

Lemma lit_in_units (m e k : Z) : (Z.abs m <= 2 ^ 53)%Z -> grid_exponent 53 1024 e -> grid_exponent 53 1024 (e + k) -> in_units k (f64_lit m e) (f64_lit m (e + k)).
Proof.
  intros Hm He Hk. destruct (f64_grid m e Hm He) as [F1 V1]. destruct (f64_grid m (e + k) Hm Hk) as [F2 V2]. left.
  split; [|split]; [assumption..|]. unfold f64 in *. rewrite V1, V2, bpow_plus. ring.
Qed.

(** [Uniform::new(10, 0.0, 1.0)] and [Uniform::new(10, 0.0, 1024.0)]; 0.1 (as a literal) is
    in bin 2 of both (as 102.4). *)
Example C82_nonvacuous (B : Build) :
  let x := f64_lit 7205759403792794 (-56) in let x' := f64_lit 7205759403792794 (-46) in
  in_units 10 x x' /\ B2R x <> B2R x'
  /\ exists a a', uniform_new ops 10 (f64_lit 0 0) (f64_lit 1 0) = Val (Ok a) /\ uniform_new ops 10 (f64_lit 0 10) (f64_lit 1 10) = Val (Ok a')
     /\ axes_in_units 10 a a' /\ uniform_index ops a x = Val (Some 2%N) /\ uniform_index ops a' x' = Val (Some 2%N).
Proof.
  assert (HE : forall e : Z, (-100 <= e <= 100)%Z -> grid_exponent 53 1024 e) by (intros e He; split; lia).
  assert (Hx : in_units 10 (f64_lit 7205759403792794 (-56)) (f64_lit 7205759403792794 (-46))) by (apply (lit_in_units _ (-56) 10); [cbn; lia | apply HE; lia | apply HE; lia]).
  cbv zeta. split; [exact Hx|].
  assert (Ex : exists a a' : Uniform (binary_float 53 1024), uniform_new ops 10 (f64_lit 0 0) (f64_lit 1 0) = Val (Ok a)
     /\ uniform_new ops 10 (f64_lit 0 10) (f64_lit 1 10) = Val (Ok a') /\ axes_in_units 10 a a').
  { pose proof (@usize_mod_large B) as Hl.
    apply (C82_new 53 1024 prec64 emax64 f64_covered 10 10).
    - apply (lit_in_units 0 0 10); [cbn; lia | apply HE; lia | apply HE; lia].
    - apply (lit_in_units 1 0 10); [cbn; lia | apply HE; lia | apply HE; lia].
    - cbn; lia.
    - lia.
    - vm_compute; reflexivity.
    - vm_compute; reflexivity.
    - destruct (f64_grid 0 0) as [_ ->]; [cbn; lia | apply HE; lia|]. destruct (f64_grid 1 0) as [_ ->]; [cbn; lia | apply HE; lia|].
      cbn [bpow]. replace (IZR 1 * 1 - IZR 0 * 1) with 1 by ring. apply (tiny_le_1 _ 10); lia.
    - destruct (f64_grid 0 10) as [_ ->]; [cbn; lia | apply HE; lia|]. destruct (f64_grid 1 10) as [_ ->]; [cbn; lia | apply HE; lia|].
      apply Rle_trans with 1; [apply (tiny_le_1 _ 10); lia|]. change (bpow radix2 10) with 1024. lra. }
  split.
  { destruct Hx as [[F1 [F2 V]]|[F _]]; [|vm_compute in F; discriminate F]. rewrite V.
    destruct (f64_grid 7205759403792794 (-56)) as [_ ->]; [cbn; lia | apply HE; lia|].
    pose proof (bpow_gt_0 radix2 (-56)). change (bpow radix2 10) with 1024. nra. }
  destruct Ex as (a & a' & Ea & Ea' & Ha). exists a, a'. split; [exact Ea|]. split; [exact Ea'|]. split; [exact Ha|].
  assert (I1 : uniform_index ops a (f64_lit 7205759403792794 (-56)) = Val (Some 2%N)).
  { assert (H : (let! r := uniform_new ops 10 (f64_lit 0 0) (f64_lit 1 0) in match r with Ok a => uniform_index ops a (f64_lit 7205759403792794 (-56)) | Err _ => Panic end) = Val (Some 2%N))
      by (destruct B as [? []]; vm_compute; reflexivity).
    rewrite Ea in H. exact H. }
  split; [exact I1|]. rewrite <- I1. exact (proj1 (C82_index 53 1024 prec64 emax64 f64_covered 10 a a' _ _ Ha Hx)).
Qed.

(** A program in both units: fill, then read. *)
#[local] Instance ex82_axis {B : Build} : Axis (AxesTuple1 (Uniform f64)) := @axes1_axis _ (uniform_axis ops).
#[local] Instance ex82_eq {B : Build} : AxisEq (AxesTuple1 (Uniform f64)) := @axes1_eq _ {| axis_eqb := uniform_eqb ops |}.
#[local] Instance ex82_fill {B : Build} : Fill Z := num_fill (int_ops (signed 32)).
#[local] Instance ex82_fill_with {B : Build} : FillWith Z Z := num_fill_with (int_ops (signed 32)).
#[local] Instance ex82_weighted : FillWithWeighted Z Z Empty_set := {| fill_with_weighted_v := fun v _ (w : Empty_set) => match w with end |}.
#[local] Instance ex82_default : Default Z := {| default_v := 0%Z |}.
Definition ex82_program {B : Build} (a : AxesTuple1 (Uniform f64)) (x y : f64) : program (AX := ex82_axis) Z Z Empty_set (option Z) :=
  Do (New 0 a) (fun _ =>
  Do (Call 0 (CallFillWith (x : @Coordinate _ ex82_axis) 5%Z)) (fun _ =>
  Do (Call 0 (CallFill (y : @Coordinate _ ex82_axis))) (fun _ =>
  Do (Value 0 (x : @Coordinate _ ex82_axis)) (fun q => Return match q with AnswerValue v => Some v | _ => None end)))).
Example C82_programs_nonvacuous (B : Build) k (a a' : AxesTuple1 (Uniform f64)) (x x' y y' : f64) :
  axes_in_units (P := prec64) (E := emax64) k (ax1_axis a) (ax1_axis a') -> ax1_shape a = ax1_shape a' -> in_units k x x' -> in_units k y y' ->
  same_program ex82_axis ex82_axis (fun a a' => axes_in_units (P := prec64) (E := emax64) k (ax1_axis a) (ax1_axis a') /\ ax1_shape a = ax1_shape a')
    (in_units k) (interval_in_units k) (ex82_program a x y) (ex82_program a' x' y').
Proof.
  intros Ha Hs Hx Hy. unfold ex82_program.
  apply same_do; [constructor; split; assumption|]. intros _ _ _.
  apply same_do; [constructor; constructor; exact Hx|]. intros _ _ _.
  apply same_do; [constructor; constructor; exact Hy|]. intros _ _ _.
  apply same_do; [constructor; exact Hx|]. intros q1 q2 Hq. destruct Hq; apply same_return.
Qed.
End Example.
