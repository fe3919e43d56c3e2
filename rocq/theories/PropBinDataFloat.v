(** * PropBinDataFloat: negating, scaling and increasing the amounts filled into float bins (C92). *)
From Coq Require Import List ZArith NArith Bool Lia Reals Lra.
From Flocq Require Import Core IEEE754.BinarySingleNaN.
From stdpp Require Import gmap.
From Verif Require Import Base BaseFacts Num Float Axis Category Value VecHist HashHist HistSpec SimSpec SimFacts FloatSpec FloatOrd FloatFacts FloatScale PropCount GridSpec PropUnits PropViews PropOpsMore PropBinData.
Import ListNotations.
Open Scope R_scope.

(** ** Relations between floats *)

(** [x'] is [x] ([flip = false]) or its negative ([flip = true]), apart from the sign of a zero;
    an infinity or NaN corresponds to an infinity or NaN. *)
Inductive signed_copy {prec emax} (flip : bool) (x x' : binary_float prec emax) : Prop :=
| copy_nan : is_nan x = true -> is_nan x' = true -> signed_copy flip x x'
| copy_infinity s : x = B754_infinity s -> x' = B754_infinity (xorb flip s) -> signed_copy flip x x'
| copy_finite : is_finite x = true -> is_finite x' = true -> B2R x' = (if flip then - B2R x else B2R x) -> signed_copy flip x x'.

(** [x'] is [2^k] times [x], or overflowed. *)
Definition scaled_or_overflow {prec emax} (k : Z) (x x' : binary_float prec emax) : Prop :=
  is_finite x' = true -> is_finite x = true /\ B2R x' = B2R x * bpow radix2 k.

(** [x <= x'], as long as neither is NaN. *)
Definition at_most {prec emax} {P : Prec_gt_0 prec} {E : Prec_lt_emax prec emax} (x x' : binary_float prec emax) : Prop :=
  is_nan x = false -> is_nan x' = false -> flt_le x x'.

Section Facts.
Variable prec emax : Z.
Context (prec_gt_0_ : Prec_gt_0 prec) (prec_lt_emax_ : Prec_lt_emax prec emax).
Notation flt := (binary_float prec emax).
Notation fexp := (SpecFloat.fexp prec emax).
Notation rnd := (round radix2 fexp (round_mode mode_NE)).
Notation top := (bpow radix2 emax).

(** [r] is the rounded result of an operation whose exact result is [z]. *)
Inductive rounds_to (r : flt) (z : R) : Prop :=
| to_finite : is_finite r = true -> B2R r = rnd z -> Rabs (rnd z) < top -> rounds_to r z
| to_minus : r = B754_infinity true -> rnd z <= - top -> rounds_to r z
| to_plus : r = B754_infinity false -> top <= rnd z -> rounds_to r z.

Lemma sf_infinity (x : flt) s : B2SF x = binary_overflow prec emax mode_NE s -> x = B754_infinity s.
Proof. destruct x; cbn; intros H; try discriminate. injection H as ->. reflexivity. Qed.

Lemma sign_value (x : flt) : is_finite x = true -> if Bsign x then B2R x <= 0 else 0 <= B2R x.
Proof.
  destruct x as [s| | |s m e H]; cbn; intros F; try discriminate; [destruct s; lra|].
  destruct s; [apply F2R_le_0 | apply F2R_ge_0]; cbn; lia.
Qed.

Lemma rnd_neg z : rnd (- z) = - rnd z.
Proof. apply round_NE_opp. Qed.

Lemma rnd_0' : rnd 0 = 0.
Proof. apply round_0. apply valid_rnd_round_mode. Qed.

Lemma rnd_le x y : x <= y -> rnd x <= rnd y.
Proof. apply round_le; [apply fexp_correct; exact prec_gt_0_ | apply valid_rnd_round_mode]. Qed.

Lemma rounds_overflow r z (s : bool) : r = B754_infinity s -> top <= Rabs (rnd z) -> (if s then rnd z <= 0 else 0 <= rnd z) -> rounds_to r z.
Proof.
  intros -> H Hs. destruct s.
  - apply to_minus; [reflexivity|]. rewrite Rabs_left1 in H by exact Hs. lra.
  - apply to_plus; [reflexivity|]. rewrite Rabs_pos_eq in H by exact Hs. exact H.
Qed.

Lemma plus_rounds (x y : flt) : is_finite x = true -> is_finite y = true -> rounds_to (Bplus mode_NE x y) (B2R x + B2R y).
Proof.
  intros Fx Fy. pose proof (Bplus_correct prec emax _ _ mode_NE x y Fx Fy) as H.
  destruct (Rlt_bool_spec (Rabs (rnd (B2R x + B2R y))) top) as [L|L].
  - destruct H as [H1 [H2 _]]. now apply to_finite.
  - destruct H as [H Hs]. apply (rounds_overflow _ _ (Bsign x)); [now apply sf_infinity | exact L|].
    pose proof (sign_value x Fx) as Sx. pose proof (sign_value y Fy) as Sy. rewrite <- Hs in Sy. rewrite <- rnd_0'.
    destruct (Bsign x); apply rnd_le; lra.
Qed.

Lemma minus_rounds (x y : flt) : is_finite x = true -> is_finite y = true -> rounds_to (Bminus mode_NE x y) (B2R x - B2R y).
Proof.
  intros Fx Fy. pose proof (Bminus_correct prec emax _ _ mode_NE x y Fx Fy) as H.
  destruct (Rlt_bool_spec (Rabs (rnd (B2R x - B2R y))) top) as [L|L].
  - destruct H as [H1 [H2 _]]. now apply to_finite.
  - destruct H as [H Hs]. apply (rounds_overflow _ _ (Bsign x)); [now apply sf_infinity | exact L|].
    pose proof (sign_value x Fx) as Sx. pose proof (sign_value y Fy) as Sy. rewrite <- rnd_0'. rewrite Hs in *.
    destruct (Bsign y); cbn [negb] in *; apply rnd_le; lra.
Qed.

Lemma mult_rounds (x y : flt) : is_finite x = true -> is_finite y = true -> rounds_to (Bmult mode_NE x y) (B2R x * B2R y).
Proof.
  intros Fx Fy. pose proof (Bmult_correct prec emax _ _ mode_NE x y) as H.
  destruct (Rlt_bool_spec (Rabs (rnd (B2R x * B2R y))) top) as [L|L].
  - destruct H as [H1 [H2 _]]. rewrite Fx, Fy in H2. now apply to_finite.
  - apply (rounds_overflow _ _ (xorb (Bsign x) (Bsign y))); [now apply sf_infinity | exact L|].
    pose proof (sign_value x Fx) as Sx. pose proof (sign_value y Fy) as Sy. rewrite <- rnd_0'.
    destruct (Bsign x), (Bsign y); cbn [xorb]; apply rnd_le; nra.
Qed.

Lemma div_rounds (x y : flt) : is_finite x = true -> is_finite y = true -> B2R y <> 0 -> rounds_to (Bdiv mode_NE x y) (B2R x / B2R y).
Proof.
  intros Fx Fy Hy. pose proof (Bdiv_correct prec emax _ _ mode_NE x y Hy) as H.
  destruct (Rlt_bool_spec (Rabs (rnd (B2R x / B2R y))) top) as [L|L].
  - destruct H as [H1 [H2 _]]. rewrite Fx in H2. now apply to_finite.
  - apply (rounds_overflow _ _ (xorb (Bsign x) (Bsign y))); [now apply sf_infinity | exact L|].
    pose proof (sign_value x Fx) as Sx. pose proof (sign_value y Fy) as Sy. rewrite <- rnd_0'. unfold Rdiv.
    destruct (Bsign x), (Bsign y); cbn [xorb]; apply rnd_le.
    + assert (/ B2R y < 0) by (apply Rinv_lt_0_compat; lra). nra.
    + assert (0 < / B2R y) by (apply Rinv_0_lt_compat; lra). nra.
    + assert (/ B2R y < 0) by (apply Rinv_lt_0_compat; lra). nra.
    + assert (0 < / B2R y) by (apply Rinv_0_lt_compat; lra). nra.
Qed.

Lemma top_pos : 0 < top.
Proof. apply bpow_gt_0. Qed.

Lemma rounds_copy (flip : bool) (r r' : flt) z : rounds_to r z -> rounds_to r' (if flip then - z else z) -> signed_copy flip r r'.
Proof.
  intros H H'. assert (E : rnd (if flip then - z else z) = if flip then - rnd z else rnd z) by (destruct flip; [apply rnd_neg | reflexivity]).
  pose proof top_pos as T.
  destruct H as [F1 F2 F3|F1 F2|F1 F2], H' as [G1 G2 G3|G1 G2|G1 G2]; rewrite E in *.
  - apply copy_finite; [exact F1 | exact G1|]. rewrite G2, F2. reflexivity.
  - exfalso. apply Rabs_def2 in F3. destruct flip; lra.
  - exfalso. apply Rabs_def2 in F3. destruct flip; lra.
  - exfalso. destruct flip; [rewrite Rabs_Ropp in G3|]; apply Rabs_def2 in G3; lra.
  - apply (copy_infinity _ _ _ true); [exact F1|]. destruct flip; [exfalso; lra | exact G1].
  - apply (copy_infinity _ _ _ true); [exact F1|]. destruct flip; [exact G1 | exfalso; lra].
  - exfalso. destruct flip; [rewrite Rabs_Ropp in G3|]; apply Rabs_def2 in G3; lra.
  - apply (copy_infinity _ _ _ false); [exact F1|]. destruct flip; [exact G1 | exfalso; lra].
  - apply (copy_infinity _ _ _ false); [exact F1|]. destruct flip; [exfalso; lra | exact G1].
Qed.

Lemma is_nan_B754 (x : flt) : is_nan x = true -> x = B754_nan.
Proof. destruct x; cbn; congruence. Qed.

Lemma copy_plus flip (v v' d d' : flt) : signed_copy flip v v' -> signed_copy flip d d' ->
  signed_copy flip (Bplus mode_NE v d) (Bplus mode_NE v' d').
Proof.
  intros [Nv Nv'|s Hv Hv'|Fv Fv' Vv] [Nd Nd'|t Hd Hd'|Fd Fd' Vd].
  - apply is_nan_B754 in Nv, Nv'. subst. now apply copy_nan.
  - apply is_nan_B754 in Nv, Nv'. subst. now apply copy_nan.
  - apply is_nan_B754 in Nv, Nv'. subst. now apply copy_nan.
  - apply is_nan_B754 in Nd, Nd'. subst. now apply copy_nan.
  - subst. cbn. destruct flip, s, t; cbn; try (now apply copy_nan); (eapply copy_infinity; reflexivity).
  - subst v v'. apply (copy_infinity _ _ _ s); [destruct d; try discriminate; reflexivity | destruct d'; try discriminate; reflexivity].
  - apply is_nan_B754 in Nd, Nd'. subst. apply copy_nan; [destruct v; try discriminate; reflexivity | destruct v'; try discriminate; reflexivity].
  - subst d d'. apply (copy_infinity _ _ _ t); [destruct v; try discriminate; reflexivity | destruct v'; try discriminate; reflexivity].
  - apply (rounds_copy _ _ _ (B2R v + B2R d)); [now apply plus_rounds|].
    pose proof (plus_rounds v' d' Fv' Fd') as H. rewrite Vv, Vd in H. destruct flip; [|exact H].
    replace (- (B2R v + B2R d)) with (- B2R v + - B2R d) by ring. exact H.
Qed.

Lemma copy_minus flip (v v' d d' : flt) : signed_copy flip v v' -> signed_copy flip d d' ->
  signed_copy flip (Bminus mode_NE v d) (Bminus mode_NE v' d').
Proof.
  intros [Nv Nv'|s Hv Hv'|Fv Fv' Vv] [Nd Nd'|t Hd Hd'|Fd Fd' Vd].
  - apply is_nan_B754 in Nv, Nv'. subst. now apply copy_nan.
  - apply is_nan_B754 in Nv, Nv'. subst. now apply copy_nan.
  - apply is_nan_B754 in Nv, Nv'. subst. now apply copy_nan.
  - apply is_nan_B754 in Nd, Nd'. subst. now apply copy_nan.
  - subst. cbn. destruct flip, s, t; cbn; try (now apply copy_nan); (eapply copy_infinity; reflexivity).
  - subst v v'. apply (copy_infinity _ _ _ s); [destruct d; try discriminate; reflexivity | destruct d'; try discriminate; reflexivity].
  - apply is_nan_B754 in Nd, Nd'. subst. apply copy_nan; [destruct v; try discriminate; reflexivity | destruct v'; try discriminate; reflexivity].
  - subst d d'. apply (copy_infinity _ _ _ (negb t)); [destruct v; try discriminate; reflexivity|].
    destruct v'; try discriminate; cbn; destruct flip, t; reflexivity.
  - apply (rounds_copy _ _ _ (B2R v - B2R d)); [now apply minus_rounds|].
    pose proof (minus_rounds v' d' Fv' Fd') as H. rewrite Vv, Vd in H. destruct flip; [|exact H].
    replace (- (B2R v - B2R d)) with (- B2R v - - B2R d) by ring. exact H.
Qed.

(** ** Order *)
Definition key (x : flt) : R := match x with B754_infinity s => if s then - top else top | _ => B2R x end.

Lemma key_compare (x y : flt) : is_nan x = false -> is_nan y = false -> Bcompare x y = Some (Rcompare (key x) (key y)).
Proof.
  intros Nx Ny. pose proof top_pos as T.
  destruct (is_finite x) eqn:Fx, (is_finite y) eqn:Fy.
  - rewrite Bcompare_correct by assumption. destruct x, y; try discriminate; reflexivity.
  - destruct y as [|s| |]; try discriminate. pose proof (abs_B2R_lt_emax prec emax x) as B. apply Rabs_def2 in B.
    assert (K : key x = B2R x) by (destruct x; try discriminate; reflexivity). rewrite K. unfold key.
    destruct s; [rewrite Rcompare_Gt by lra | rewrite Rcompare_Lt by lra]; destruct x as [| | |[]]; try discriminate; reflexivity.
  - destruct x as [|s| |]; try discriminate. pose proof (abs_B2R_lt_emax prec emax y) as B. apply Rabs_def2 in B.
    assert (K : key y = B2R y) by (destruct y; try discriminate; reflexivity). rewrite K. unfold key.
    destruct s; [rewrite Rcompare_Lt by lra | rewrite Rcompare_Gt by lra]; destruct y as [| | |[]]; try discriminate; reflexivity.
  - destruct x as [|s| |], y as [|t| |]; try discriminate. unfold key.
    destruct s, t; [rewrite Rcompare_Eq by lra | rewrite Rcompare_Lt by lra | rewrite Rcompare_Gt by lra | rewrite Rcompare_Eq by lra]; reflexivity.
Qed.

Lemma le_key (x y : flt) : is_nan x = false -> is_nan y = false -> (flt_le x y <-> key x <= key y).
Proof.
  intros Nx Ny. unfold flt_le, flt_lt, flt_eq. rewrite (key_compare x y Nx Ny).
  destruct (Rcompare_spec (key x) (key y)) as [H|H|H]; split; intros K; try lra; auto.
  - destruct K; discriminate.
Qed.

Lemma le_not_nan (x y : flt) : flt_le x y -> is_nan x = false /\ is_nan y = false.
Proof. intros [H|H]; destruct x, y; try discriminate H; split; reflexivity. Qed.

Lemma key_range (x : flt) : - top <= key x <= top.
Proof.
  pose proof top_pos. pose proof (abs_B2R_lt_emax prec emax x) as B. apply Rabs_def2 in B.
  destruct x as [|s| |]; unfold key; try lra. destruct s; lra.
Qed.

Lemma rounds_le r r' z z' : rounds_to r z -> rounds_to r' z' -> z <= z' -> flt_le r r'.
Proof.
  intros H H' L. apply rnd_le in L. pose proof top_pos as T.
  assert (K : forall q w, rounds_to q w -> is_nan q = false /\ (key q = rnd w \/ (key q = - top /\ rnd w <= - top) \/ (key q = top /\ top <= rnd w))).
  { intros q w [F1 F2 F3|F1 F2|F1 F2].
    - split; [destruct q; try discriminate; reflexivity|]. left. rewrite <- F2. destruct q; try discriminate; reflexivity.
    - subst q. split; [reflexivity|]. right. left. split; [reflexivity | exact F2].
    - subst q. split; [reflexivity|]. right. right. split; [reflexivity | exact F2]. }
  pose proof (key_range r). pose proof (key_range r').
  destruct (K r z H) as [N1 K1]. destruct (K r' z' H') as [N2 K2]. apply le_key; [exact N1 | exact N2|]. lra.
Qed.

Lemma plus_le (v v' d d' : flt) : at_most v v' -> flt_le d d' -> at_most (Bplus mode_NE v d) (Bplus mode_NE v' d').
Proof.
  intros Hv Hd N1 N2. destruct (le_not_nan _ _ Hd) as [Nd Nd'].
  assert (Nv : is_nan v = false) by (destruct v, d; try reflexivity; discriminate).
  assert (Nv' : is_nan v' = false) by (destruct v', d'; try reflexivity; discriminate).
  specialize (Hv Nv Nv'). apply (le_key _ _ Nv Nv') in Hv. apply (le_key _ _ Nd Nd') in Hd. pose proof top_pos as T.
  assert (Kf : forall x : flt, is_nan x = false -> x = B754_infinity true \/ x = B754_infinity false \/ (is_finite x = true /\ key x = B2R x /\ - top < key x < top)).
  { intros x Nx. destruct x as [|[]| |] eqn:Ex; auto; try discriminate; right; right; split; try reflexivity; (split; [reflexivity|]).
    - cbn. lra.
    - pose proof (abs_B2R_lt_emax prec emax x) as Bx. apply Rabs_def2 in Bx. rewrite Ex in Bx. exact (conj (proj2 Bx) (proj1 Bx)). }
  assert (Low : (v = B754_infinity true \/ d = B754_infinity true) -> Bplus mode_NE v d = B754_infinity true).
  { intros [->| ->]; [destruct d as [|[]| |] | destruct v as [|[]| |]]; try discriminate; reflexivity. }
  assert (High : (v' = B754_infinity false \/ d' = B754_infinity false) -> Bplus mode_NE v' d' = B754_infinity false).
  { intros [->| ->]; [destruct d' as [|[]| |] | destruct v' as [|[]| |]]; try discriminate; reflexivity. }
  assert (L1 : Bplus mode_NE v d = B754_infinity true -> flt_le (Bplus mode_NE v d) (Bplus mode_NE v' d')).
  { intros E. apply le_key; [exact N1 | exact N2|]. rewrite E. apply key_range. }
  assert (L2 : Bplus mode_NE v' d' = B754_infinity false -> flt_le (Bplus mode_NE v d) (Bplus mode_NE v' d')).
  { intros E. apply le_key; [exact N1 | exact N2|]. rewrite E. apply key_range. }
  destruct (Kf v Nv) as [E|[E|[Fv [Kv Bv]]]]; [apply L1, Low; auto | |].
  { subst v. destruct (Kf v' Nv') as [E|[E|[Fv' [Kv' Bv']]]]; [subst v'; cbn in Hv; lra | apply L2, High; auto | cbn [key] in Hv; lra]. }
  destruct (Kf d Nd) as [E|[E|[Fd [Kd Bd]]]]; [apply L1, Low; auto | |].
  { subst d. destruct (Kf d' Nd') as [E|[E|[Fd' [Kd' Bd']]]]; [subst d'; cbn in Hd; lra | apply L2, High; auto | cbn [key] in Hd; lra]. }
  destruct (Kf v' Nv') as [E|[E|[Fv' [Kv' Bv']]]]; [subst v'; cbn [key] in Hv; lra | apply L2, High; auto |].
  destruct (Kf d' Nd') as [E|[E|[Fd' [Kd' Bd']]]]; [subst d'; cbn [key] in Hd; lra | apply L2, High; auto |].
  apply (rounds_le _ _ (B2R v + B2R d) (B2R v' + B2R d')); [now apply plus_rounds | now apply plus_rounds | lra].
Qed.

Lemma plus_grows (v d : flt) : flt_le (B754_zero false) d -> at_most v (Bplus mode_NE v d).
Proof.
  intros Hd Nv N. destruct (le_not_nan _ _ Hd) as [_ Nd]. apply (le_key (B754_zero false) d eq_refl Nd) in Hd. cbn [key B2R] in Hd. pose proof top_pos as T.
  destruct (is_finite v) eqn:Fv, (is_finite d) eqn:Fd.
  - apply le_key; [exact Nv | exact N|]. assert (Kv : key v = B2R v) by (destruct v; try discriminate; reflexivity).
    assert (Kd : key d = B2R d) by (destruct d; try discriminate; reflexivity).
    pose proof (plus_rounds v d Fv Fd) as H. assert (L : B2R v <= rnd (B2R v + B2R d)).
    { rewrite <- (round_generic radix2 fexp (round_mode mode_NE) (B2R v)) at 1; [apply rnd_le; lra | apply generic_format_B2R]. }
    pose proof (abs_B2R_lt_emax prec emax v) as Bv. apply Rabs_def2 in Bv.
    destruct H as [F1 F2 F3|F1 F2|F1 F2].
    + assert (Kr : key (Bplus mode_NE v d) = B2R (Bplus mode_NE v d)) by (destruct (Bplus mode_NE v d); try discriminate; reflexivity). lra.
    + lra.
    + rewrite F1. cbn [key]. lra.
  - destruct d as [|s| |]; try discriminate. destruct s; [cbn [key] in Hd; lra|].
    assert (E : Bplus mode_NE v (B754_infinity false) = B754_infinity false) by (destruct v; try discriminate; reflexivity).
    rewrite E. apply le_key; [exact Nv | reflexivity|]. apply key_range.
  - destruct v as [|s| |]; try discriminate. assert (E : Bplus mode_NE (B754_infinity s) d = B754_infinity s) by (destruct d; try discriminate; reflexivity).
    rewrite E. apply le_key; [reflexivity | reflexivity | lra].
  - destruct v as [|s| |]; try discriminate. destruct d as [|t| |]; try discriminate. destruct t; [cbn [key] in Hd; lra|].
    destruct s; [discriminate N|]. apply le_key; [reflexivity | reflexivity|]. cbn. lra.
Qed.
(** ** Products, quotients, roots *)
Lemma nonzero_sign (x : flt) : is_finite x = true -> B2R x <> 0 -> Bsign x = Rlt_bool (B2R x) 0.
Proof.
  intros F H. pose proof (sign_value x F) as S. destruct (Bsign x); symmetry; [apply Rlt_bool_true | apply Rlt_bool_false]; lra.
Qed.

Lemma zero_or_not (x : flt) : is_finite x = true -> (exists s, x = B754_zero s) \/ (exists m e H, x = B754_finite (Rlt_bool (B2R x) 0) m e H /\ B2R x <> 0).
Proof.
  intros F. destruct (Req_dec (B2R x) 0) as [E|E].
  - left. destruct x as [s| | |s m e H]; try discriminate; [eauto|]. exfalso. cbn in E. apply eq_0_F2R in E. cbn in E. destruct s; discriminate.
  - right. pose proof (nonzero_sign x F E) as S. destruct x as [s| | |s m e H]; try discriminate; [cbn in E; lra|].
    cbn [Bsign] in S. rewrite <- S. eauto.
Qed.

Lemma copy_nonzero (f : bool) (x x' : flt) : is_finite x = true -> is_finite x' = true -> B2R x' = (if f then - B2R x else B2R x) -> B2R x <> 0 ->
  Rlt_bool (B2R x') 0 = xorb f (Rlt_bool (B2R x) 0).
Proof.
  intros F F' E H. rewrite E. destruct f; cbn [xorb]; [|now destruct (Rlt_bool (B2R x) 0)].
  destruct (Rlt_bool_spec (B2R x) 0) as [L|L]; cbn [negb]; [apply Rlt_bool_false | apply Rlt_bool_true]; lra.
Qed.

Lemma infinity_times s (y : flt) : is_finite y = true ->
  (B2R y = 0 -> Bmult mode_NE (B754_infinity s) y = B754_nan /\ Bmult mode_NE y (B754_infinity s) = B754_nan)
  /\ (B2R y <> 0 -> Bmult mode_NE (B754_infinity s) y = B754_infinity (xorb s (Rlt_bool (B2R y) 0))
                   /\ Bmult mode_NE y (B754_infinity s) = B754_infinity (xorb s (Rlt_bool (B2R y) 0))).
Proof.
  intros F. destruct (zero_or_not y F) as [[t ->]|[m [e [H [E N]]]]].
  - split; intros K; [split; reflexivity | cbn in K; lra].
  - split; intros K; [contradiction|]. revert K. set (b := Rlt_bool (B2R y) 0) in *. clearbody b. subst y. intros _.
    split; [reflexivity|]. cbn. now rewrite xorb_comm.
Qed.

Lemma copy_mult f g (x x' y y' : flt) : signed_copy f x x' -> signed_copy g y y' ->
  signed_copy (xorb f g) (Bmult mode_NE x y) (Bmult mode_NE x' y').
Proof.
  intros [Nx Nx'|s Hx Hx'|Fx Fx' Vx] [Ny Ny'|t Hy Hy'|Fy Fy' Vy].
  - apply is_nan_B754 in Nx, Nx'. subst. now apply copy_nan.
  - apply is_nan_B754 in Nx, Nx'. subst. now apply copy_nan.
  - apply is_nan_B754 in Nx, Nx'. subst. now apply copy_nan.
  - apply is_nan_B754 in Ny, Ny'. subst. now apply copy_nan.
  - subst. apply (copy_infinity _ _ _ (xorb s t)); [reflexivity|]. cbn. f_equal. destruct f, g, s, t; reflexivity.
  - subst x x'. destruct (infinity_times s y Fy) as [Z1 N1]. destruct (infinity_times (xorb f s) y' Fy') as [Z2 N2].
    destruct (Req_dec (B2R y) 0) as [E|E].
    + rewrite (proj1 (Z1 E)). assert (E' : B2R y' = 0) by (rewrite Vy, E; destruct g; lra). rewrite (proj1 (Z2 E')). now apply copy_nan.
    + rewrite (proj1 (N1 E)). assert (E' : B2R y' <> 0) by (rewrite Vy; destruct g; lra). rewrite (proj1 (N2 E')).
      eapply copy_infinity; [reflexivity|]. rewrite (copy_nonzero g y y' Fy Fy' Vy E). f_equal. destruct f, g, s, (Rlt_bool (B2R y) 0); reflexivity.
  - apply is_nan_B754 in Ny, Ny'. subst. apply copy_nan; [destruct x | destruct x']; try discriminate; reflexivity.
  - subst y y'. destruct (infinity_times t x Fx) as [Z1 N1]. destruct (infinity_times (xorb g t) x' Fx') as [Z2 N2].
    destruct (Req_dec (B2R x) 0) as [E|E].
    + rewrite (proj2 (Z1 E)). assert (E' : B2R x' = 0) by (rewrite Vx, E; destruct f; lra). rewrite (proj2 (Z2 E')). now apply copy_nan.
    + rewrite (proj2 (N1 E)). assert (E' : B2R x' <> 0) by (rewrite Vx; destruct f; lra). rewrite (proj2 (N2 E')).
      eapply copy_infinity; [reflexivity|]. rewrite (copy_nonzero f x x' Fx Fx' Vx E). f_equal. destruct f, g, t, (Rlt_bool (B2R x) 0); reflexivity.
  - apply (rounds_copy _ _ _ (B2R x * B2R y)); [now apply mult_rounds|].
    pose proof (mult_rounds x' y' Fx' Fy') as H. rewrite Vx, Vy in H. destruct f, g; cbn [xorb];
      [replace (B2R x * B2R y) with (- B2R x * - B2R y) by ring | replace (- (B2R x * B2R y)) with (- B2R x * B2R y) by ring
      | replace (- (B2R x * B2R y)) with (B2R x * - B2R y) by ring |]; exact H.
Qed.

(** The divisor is the same number on both sides. *)
Lemma copy_div f (x x' y : flt) : signed_copy f x x' -> signed_copy f (Bdiv mode_NE x y) (Bdiv mode_NE x' y).
Proof.
  intros H. destruct (is_finite y) eqn:Fy.
  - destruct (zero_or_not y Fy) as [[t ->]|[m [e [K [E N]]]]].
    + destruct H as [Nx Nx'|s Hx Hx'|Fx Fx' Vx].
      * apply is_nan_B754 in Nx, Nx'. subst. now apply copy_nan.
      * subst. apply (copy_infinity _ _ _ (xorb s t)); [reflexivity|]. cbn. f_equal. destruct f, s, t; reflexivity.
      * destruct (Req_dec (B2R x) 0) as [E|E].
        -- assert (E' : B2R x' = 0) by (rewrite Vx, E; destruct f; lra).
           destruct (zero_or_not x Fx) as [[s ->]|[? [? [? [_ ?]]]]]; [|contradiction]. destruct (zero_or_not x' Fx') as [[s' ->]|[? [? [? [_ ?]]]]]; [|contradiction].
           now apply copy_nan.
        -- assert (E' : B2R x' <> 0) by (rewrite Vx; destruct f; lra). pose proof (copy_nonzero f x x' Fx Fx' Vx E) as S.
           destruct (zero_or_not x Fx) as [[s ->]|[m [e [H [Hx _]]]]]; [cbn in E; lra|].
           destruct (zero_or_not x' Fx') as [[s' ->]|[m' [e' [H' [Hx' _]]]]]; [cbn in E'; lra|].
           rewrite Hx, Hx'. apply (copy_infinity _ _ _ (xorb (Rlt_bool (B2R x) 0) t)); [reflexivity|].
           change (B754_infinity (xorb (Rlt_bool (B2R x') 0) t) = B754_infinity (xorb f (xorb (Rlt_bool (B2R x) 0) t)) :> flt).
           rewrite S. now rewrite xorb_assoc.
    + destruct H as [Nx Nx'|s Hx Hx'|Fx Fx' Vx].
      * apply is_nan_B754 in Nx, Nx'. subst x x'. rewrite E. now apply copy_nan.
      * subst x x'. rewrite E. apply (copy_infinity _ _ _ (xorb s (Rlt_bool (B2R y) 0))); [reflexivity|]. cbn. f_equal. now rewrite xorb_assoc.
      * apply (rounds_copy _ _ _ (B2R x / B2R y)); [now apply div_rounds|].
        pose proof (div_rounds x' y Fx' Fy N) as R. rewrite Vx in R. destruct f; [|exact R].
        replace (- (B2R x / B2R y)) with (- B2R x / B2R y) by (unfold Rdiv; ring). exact R.
  - destruct y as [|t| |]; try discriminate.
    + destruct H as [Nx Nx'|s Hx Hx'|Fx Fx' Vx].
      * apply is_nan_B754 in Nx, Nx'. subst. now apply copy_nan.
      * subst. now apply copy_nan.
      * assert (Z : forall z : flt, is_finite z = true -> exists s, Bdiv mode_NE z (B754_infinity t) = B754_zero s) by (intros [| | |] F; try discriminate; eexists; reflexivity).
        destruct (Z x Fx) as [s ->]. destruct (Z x' Fx') as [s' ->]. apply copy_finite; try reflexivity. destruct f; cbn; lra.
    + apply copy_nan; [destruct x | destruct x']; reflexivity.
Qed.

Lemma copy_abs f (x x' : flt) : signed_copy f x x' -> signed_copy false (Babs x) (Babs x').
Proof.
  intros [Nx Nx'|s Hx Hx'|Fx Fx' Vx].
  - apply is_nan_B754 in Nx, Nx'. subst. now apply copy_nan.
  - subst. now apply (copy_infinity _ _ _ false).
  - apply copy_finite; [now rewrite is_finite_Babs | now rewrite is_finite_Babs|]. rewrite !B2R_Babs, Vx. destruct f; [apply Rabs_Ropp | reflexivity].
Qed.

Lemma copy_sqrt (x x' : flt) : signed_copy false x x' -> signed_copy false (Bsqrt mode_NE x) (Bsqrt mode_NE x').
Proof.
  intros [Nx Nx'|s Hx Hx'|Fx Fx' Vx].
  - apply is_nan_B754 in Nx, Nx'. subst. now apply copy_nan.
  - subst. destruct s; [now apply copy_nan | now apply (copy_infinity _ _ _ false)].
  - destruct (Bsqrt_correct prec emax _ _ mode_NE x) as [V [F _]]. destruct (Bsqrt_correct prec emax _ _ mode_NE x') as [V' [F' _]].
    destruct (zero_or_not x Fx) as [[s ->]|[m [e [H [Hx N]]]]].
    + destruct (zero_or_not x' Fx') as [[s' ->]|[? [? [? [_ K]]]]]; [|cbn in Vx; lra]. apply copy_finite; reflexivity.
    + destruct (zero_or_not x' Fx') as [[s' ->]|[m' [e' [H' [Hx' N']]]]]; [cbn in Vx; lra|].
      assert (S : Rlt_bool (B2R x') 0 = Rlt_bool (B2R x) 0) by now rewrite Vx.
      rewrite S in Hx'. destruct (Rlt_bool (B2R x) 0).
      * rewrite Hx, Hx'. now apply copy_nan.
      * assert (G : is_finite (Bsqrt mode_NE x) = true) by (rewrite F, Hx; reflexivity).
        assert (G' : is_finite (Bsqrt mode_NE x') = true) by (rewrite F', Hx'; reflexivity).
        apply copy_finite; [exact G | exact G'|]. rewrite V, V', Vx. reflexivity.
Qed.
End Facts.

(** ** Histograms *)

(** Two sequences of calls, started on a new histogram, dense or sparse: if the first returns so
    does the second, and the contents are related bin by bin (by [RV]); sparse histograms hold
    the same bins. *)
Definition contents_related {prec emax} {P : Prec_gt_0 prec} {E : Prec_lt_emax prec emax} {B : Build} {A} {AX : Axis A} (RV : binary_float prec emax -> binary_float prec emax -> Prop) (a : A)
    (ops ops' : list (fill_op (AX := AX) (binary_float prec emax) Empty_set)) : Prop :=
  let FV := float_fill prec emax P E in let FD := float_fill_with prec emax P E in let FW := float_no_weighted prec emax in let DV := float_default prec emax P E in
  (forall h0 h, vec_new a = Val h0 -> vec_calls h0 ops = Val h -> exists h', vec_calls h0 ops' = Val h' /\ dense_related RV h h')
  /\ (forall h, hash_calls (hash_new a) ops = Val h -> exists h', hash_calls (hash_new a) ops' = Val h' /\ sparse_related RV h h').

(** The same calls, [fill_with] with other amounts. *)
Inductive other_amount {A D W} {AX : Axis A} (RD : D -> D -> Prop) : fill_op (AX := AX) D W -> fill_op (AX := AX) D W -> Prop :=
| other_fill_with c d d' : RD d d' -> other_amount RD (CallFillWith c d) (CallFillWith c d').

Lemma from_new {prec emax} (P : Prec_gt_0 prec) (E : Prec_lt_emax prec emax) (B : Build) {A} (AX : Axis A) (RV : binary_float prec emax -> binary_float prec emax -> Prop) (a : A) ops ops' :
  let FV := float_fill prec emax P E in let FD := float_fill_with prec emax P E in let FW := float_no_weighted prec emax in
  RV (B754_zero false) (B754_zero false) -> Forall2 (related_call RV) ops ops' -> contents_related RV a ops ops'.
Proof.
  intros FV FD FW H0 Ho. set (DV := float_default prec emax P E).
  destruct (C92_new A _ _ AX DV DV RV a H0) as [Nd Ns].
  destruct (C92_fills _ _ _ _ _ _ _ AX FV FD FW DV FV FD FW DV RV ops ops' Ho) as [Kd Ks].
  split.
  - intros h0 h E0 Eh. destruct (Nd h0 E0) as [h1 [E1 R0]]. pose proof (eq_trans (eq_sym E0) E1) as Q. injection Q as <-. exact (Kd _ _ R0 h Eh).
  - intros h Eh. exact (Ks H0 _ _ Ns h Eh).
Qed.

(** C92. Negating every amount negates every bin (and swaps the infinities). *)
Theorem C92_negated_amounts : forall (prec emax : Z) (P : Prec_gt_0 prec) (E : Prec_lt_emax prec emax) (B : Build) A (AX : Axis A) (a : A)
  (ops ops' : list (fill_op (binary_float prec emax) Empty_set)),
  Forall2 (other_amount (signed_copy true)) ops ops' -> contents_related (signed_copy true) a ops ops'.
Proof.
  intros prec emax P E B A AX a ops ops' Ho. apply from_new; [apply copy_finite; cbn; lra || reflexivity|].
  eapply Forall2_impl; [exact Ho|]. intros o o' [c d d' Hd]. split; [reflexivity|]. intros v v' Hv.
  apply refines_val. now apply copy_plus.
Qed.
Print Assumptions C92_negated_amounts.

(** C92. Multiplying every amount by [2^k] multiplies every bin by [2^k], exactly, unless the
    larger content overflows. *)
Theorem C92_scaled_amounts : forall (prec emax : Z) (P : Prec_gt_0 prec) (E : Prec_lt_emax prec emax) (B : Build) A (AX : Axis A) (a : A) (k : Z)
  (ops ops' : list (fill_op (binary_float prec emax) Empty_set)),
  covered_format prec emax -> (0 <= k)%Z ->
  Forall2 (other_amount (fun d d' => is_finite d = true /\ is_finite d' = true /\ B2R d' = B2R d * bpow radix2 k)) ops ops' ->
  contents_related (scaled_or_overflow k) a ops ops'.
Proof.
  intros prec emax P E B A AX a k ops ops' HF Hk Ho. destruct HF as [Hp He].
  apply from_new; [intros _; split; [reflexivity | cbn; ring]|].
  eapply Forall2_impl; [exact Ho|]. intros o o' [c d d' Hd]. split; [reflexivity|]. intros v v' Hv.
  apply refines_val. intros F.
  assert (Fv' : is_finite v' = true). { destruct Hd as [_ [Fd' _]]. destruct v', d'; try reflexivity; try discriminate; cbn in F; try discriminate. }
  destruct (Hv Fv') as [Fv Vv].
  destruct (scaled_plus prec emax P E Hp k Hk v v' d d' (conj Fv (conj Fv' Vv)) Hd F) as [G1 [_ G2]]. split; [exact G1 | exact G2].
Qed.
Print Assumptions C92_scaled_amounts.

(** C92. Larger amounts give larger contents: if no amount is smaller, no bin is smaller
    (unless it is NaN). *)
Inductive no_smaller_amount {A prec emax} {P : Prec_gt_0 prec} {E : Prec_lt_emax prec emax} {AX : Axis A}
  : fill_op (AX := AX) (binary_float prec emax) Empty_set -> fill_op (AX := AX) (binary_float prec emax) Empty_set -> Prop :=
| same_fill c : no_smaller_amount (CallFill c) (CallFill c)
| larger_fill_with c d d' : flt_le d d' -> no_smaller_amount (CallFillWith c d) (CallFillWith c d').

Theorem C92_larger_amounts : forall (prec emax : Z) (P : Prec_gt_0 prec) (E : Prec_lt_emax prec emax) (B : Build) A (AX : Axis A) (a : A)
  (ops ops' : list (fill_op (binary_float prec emax) Empty_set)),
  Forall2 no_smaller_amount ops ops' -> contents_related at_most a ops ops'.
Proof.
  intros prec emax P E B A AX a ops ops' Ho. apply from_new; [intros _ _; right; reflexivity|].
  eapply Forall2_impl; [exact Ho|]. intros o o' [c|c d d' Hd]; (split; [reflexivity|]); intros v v' Hv; apply refines_val.
  - apply plus_le; [exact Hv|]. assert (N : is_nan (Bone : binary_float prec emax) = false) by (pose proof (is_finite_Bone prec emax P E) as F; destruct (Bone : binary_float prec emax); try discriminate; reflexivity).
    apply le_key; [exact N | exact N | lra].
  - now apply plus_le.
Qed.
Print Assumptions C92_larger_amounts.

(** C92. Filling with amounts that are not negative never lowers a bin, and never removes one: each content
    is at least what it was before (unless it is NaN); a bin missing from a sparse histogram counts as zero. *)
Definition not_negative {A prec emax} {P : Prec_gt_0 prec} {E : Prec_lt_emax prec emax} {AX : Axis A} (o : fill_op (AX := AX) (binary_float prec emax) Empty_set) : Prop :=
  match o with CallFill _ => True | CallFillWith _ d => flt_le (B754_zero false) d | CallFillWithWeighted _ _ w => match w with end end.
Definition grown {prec emax} {P : Prec_gt_0 prec} {E : Prec_lt_emax prec emax} (v v' : binary_float prec emax) : Prop := is_nan v' = false -> flt_le v v'.

Lemma grown_refl {prec emax} {P : Prec_gt_0 prec} {E : Prec_lt_emax prec emax} (v : binary_float prec emax) : grown v v.
Proof. intros N. apply le_key; [exact N | exact N | lra]. Qed.

Lemma grown_trans {prec emax} {P : Prec_gt_0 prec} {E : Prec_lt_emax prec emax} (u v w : binary_float prec emax) : grown u v -> grown v w -> grown u w.
Proof.
  intros H1 H2 N. pose proof (H2 N) as K. destruct (le_not_nan _ _ _ _ _ _ K) as [N2 _]. pose proof (H1 N2) as J.
  destruct (le_not_nan _ _ _ _ _ _ J) as [N1 _]. apply (le_key _ _ _ _ _ _ N1 N2) in J. apply (le_key _ _ _ _ _ _ N2 N) in K.
  apply le_key; [exact N1 | exact N | lra].
Qed.

Lemma Forall2_set_nth_l {X} (R : X -> X -> Prop) (l : list X) i v r : (forall x, R x x) -> nth_error l i = Some v -> R v r -> Forall2 R l (set_nth i r l).
Proof.
  intros Hr. revert i. induction l as [|x l IH]; intros [|i]; cbn; try discriminate.
  - intros [= ->] H. constructor; [exact H|]. clear IH. induction l; constructor; auto.
  - intros H1 H2. constructor; auto.
Qed.

Theorem C92_never_lowers : forall (prec emax : Z) (P : Prec_gt_0 prec) (E : Prec_lt_emax prec emax) (B : Build) A (AX : Axis A)
  (ops : list (fill_op (binary_float prec emax) Empty_set)),
  let FV := float_fill prec emax P E in let FD := float_fill_with prec emax P E in let FW := float_no_weighted prec emax in let DV := float_default prec emax P E in
  Forall not_negative ops ->
  (forall h h', vec_calls h ops = Val h' -> vh_axes h' = vh_axes h /\ Forall2 grown (vec_values h) (vec_values h'))
  /\ (forall h h', hash_calls h ops = Val h' -> hh_axes h' = hh_axes h
       /\ forall i, (is_Some (hash_value_at_index h i) -> is_Some (hash_value_at_index h' i)) /\ grown (counts_for h i) (counts_for h' i)).
Proof.
  intros prec emax P E B A AX ops FV FD FW DV Ho.
  assert (Step : forall o v r, not_negative o -> op_effect (FV := FV) (FD := FD) (FW := FW) o v = Val r -> grown v r).
  { intros o v r Hn Hr Nr.
    assert (K : exists d, flt_le (B754_zero false) d /\ r = Bplus mode_NE v d).
    { destruct o as [c|c d|c d w]; [| |destruct w]; injection Hr as <-; eexists; (split; [|reflexivity]); [|exact Hn].
      pose proof (is_finite_Bone prec emax P E) as F. pose proof (Bone_correct prec emax P E) as V.
      apply le_key; [reflexivity | destruct (Bone : binary_float prec emax); try discriminate; reflexivity|].
      assert (Kb : key prec emax Bone = 1) by (rewrite <- V; destruct (Bone : binary_float prec emax); try discriminate; reflexivity). rewrite Kb. cbn. lra. }
    destruct K as [d [Hd ->]]. apply plus_grows; [exact Hd | | exact Nr]. destruct v, d; try reflexivity; discriminate. }
  split.
  - induction Ho as [|o ops Hn _ IH]; intros h h' H.
    + injection H as <-. split; [reflexivity|]. induction (vec_values h); constructor; auto using grown_refl.
    + unfold vec_calls in *. cbn [foldo] in H. apply obind_val in H as [h1 [H1 H]]. destruct (IH _ _ H) as [Ia Iv].
      assert (G : vh_axes h1 = vh_axes h /\ Forall2 grown (vec_values h) (vec_values h1)).
      { assert (Same : vh_axes h = vh_axes h /\ Forall2 grown (vec_values h) (vec_values h))
          by (split; [reflexivity|]; induction (vec_values h); constructor; auto using grown_refl).
        rewrite PropViews.vec_call_effect in H1. unfold vec_value_mut in H1. destruct (index (vh_axes h) (op_coordinate o)) as [[i|]|]; cbn [obind update_through] in H1; try discriminate.
        2: { injection H1 as <-. exact Same. }
        unfold vec_value_at_index_mut in H1. destruct (nth_error (vh_values h) (N.to_nat i)) as [v|] eqn:Ev; cbn [update_through deref assign] in H1.
        2: { injection H1 as <-. exact Same. }
        apply obind_val in H1 as [r [Hr H1]]. injection H1 as <-. split; [reflexivity|]. unfold vec_values. cbn [vh_values].
        apply (Forall2_set_nth_l grown _ _ v r grown_refl Ev). exact (Step o v r Hn Hr). }
      destruct G as [Ga Gv]. split; [congruence|]. clear - Gv Iv. revert Gv Iv. generalize (vec_values h) (vec_values h1) (vec_values h'). intros x y z Hx. revert z.
      induction Hx as [|u v x y Hu Hx IH]; intros z Hz; inversion Hz; subst; constructor; [eapply grown_trans; eauto | auto].
  - induction Ho as [|o ops Hn _ IH]; intros h h' H.
    + injection H as <-. split; [reflexivity|]. intros i. split; [auto | apply grown_refl].
    + unfold hash_calls in *. cbn [foldo] in H. apply obind_val in H as [h1 [H1 H]]. destruct (IH _ _ H) as [Ia Iv].
      assert (G : hh_axes h1 = hh_axes h /\ forall i, (is_Some (hash_value_at_index h i) -> is_Some (hash_value_at_index h1 i)) /\ grown (counts_for h i) (counts_for h1 i)).
      { rewrite PropViews.hash_call_effect in H1. unfold hash_update_at in H1. destruct (index (hh_axes h) (op_coordinate o)) as [[i|]|]; cbn [obind] in H1; try discriminate.
        2: { injection H1 as <-. split; [reflexivity|]. intros j. split; [auto | apply grown_refl]. }
        unfold entry_or_default_update in H1. apply obind_val in H1 as [m [Hm H1]]. apply obind_val in Hm as [r [Hr Hm]]. injection Hm as <-. injection H1 as <-.
        split; [reflexivity|]. intros j. unfold counts_for, hash_value_at_index. cbn [hh_values]. destruct (decide (i = j)) as [->|Hne].
        - rewrite lookup_insert. split; [eauto|]. exact (Step o _ r Hn Hr).
        - rewrite lookup_insert_ne by exact Hne. split; [auto | apply grown_refl]. }
      destruct G as [Ga Gv]. split; [congruence|]. intros i. destruct (Gv i) as [G1 G2]. destruct (Iv i) as [I1 I2]. split; [auto | eapply grown_trans; eauto].
Qed.
Print Assumptions C92_never_lowers.

(** C92. Merging with [+] (and [-]) keeps these relations, by [C92_merging]. *)
Theorem C92_float_operators : forall (prec emax : Z) (P : Prec_gt_0 prec) (E : Prec_lt_emax prec emax) (B : Build) (v v' w w' : binary_float prec emax),
  let ops := float_ops prec emax P E in
  (forall flip, signed_copy flip v v' -> signed_copy flip w w' ->
     refines (signed_copy flip) (@n_add _ ops v w) (@n_add _ ops v' w') /\ refines (signed_copy flip) (@n_sub _ ops v w) (@n_sub _ ops v' w'))
  /\ (forall k, covered_format prec emax -> (0 <= k)%Z -> scaled_or_overflow k v v' -> scaled_or_overflow k w w' ->
     refines (scaled_or_overflow k) (@n_add _ ops v w) (@n_add _ ops v' w') /\ refines (scaled_or_overflow k) (@n_sub _ ops v w) (@n_sub _ ops v' w'))
  /\ (at_most v v' -> at_most w w' -> refines at_most (@n_add _ ops v w) (@n_add _ ops v' w')).
Proof.
  intros prec emax P E B v v' w w' ops. split; [|split].
  - intros flip Hv Hw. split; apply refines_val; [now apply copy_plus | now apply copy_minus].
  - intros k [Hp He] Hk Hv Hw. split; apply refines_val; intros F.
    + assert (Fv' : is_finite v' = true) by (destruct v' as [|[]| |], w' as [|[]| |]; try reflexivity; discriminate F).
      assert (Fw' : is_finite w' = true) by (destruct v' as [|[]| |], w' as [|[]| |]; try reflexivity; discriminate F).
      destruct (Hv Fv') as [Fv Vv]. destruct (Hw Fw') as [Fw Vw].
      destruct (scaled_plus prec emax P E Hp k Hk v v' w w' (conj Fv (conj Fv' Vv)) (conj Fw (conj Fw' Vw)) F) as [G1 [_ G2]]. exact (conj G1 G2).
    + assert (Fv' : is_finite v' = true) by (destruct v' as [|[]| |], w' as [|[]| |]; try reflexivity; discriminate F).
      assert (Fw' : is_finite w' = true) by (destruct v' as [|[]| |], w' as [|[]| |]; try reflexivity; discriminate F).
      destruct (Hv Fv') as [Fv Vv]. destruct (Hw Fw') as [Fw Vw].
      destruct (scaled_minus prec emax P E Hp k Hk v v' w w' (conj Fv (conj Fv' Vv)) (conj Fw (conj Fw' Vw)) F) as [G1 [_ G2]]. exact (conj G1 G2).
  - intros Hv Hw. apply refines_val. intros N1 N2.
    assert (Nw : is_nan w = false) by (destruct v as [|[]| |], w as [|[]| |]; try reflexivity; discriminate N1).
    assert (Nw' : is_nan w' = false) by (destruct v' as [|[]| |], w' as [|[]| |]; try reflexivity; discriminate N2).
    exact (plus_le prec emax P E v v' w w' Hv (Hw Nw Nw') N1 N2).
Qed.
Print Assumptions C92_float_operators.

(** Case: [f64] bins over Category(5, 7); the amounts 0.1 (rounded), 3 and a NaN, their negatives, eight times them, and larger ones. *)
Definition ex92_tenth : f64 := f64_lit 3602879701896397 (-55).
Example C92_float_nonvacuous : forall B : Build,
  let AX := @category_axis B Z _ in let call c d : @fill_op _ f64 Empty_set AX := CallFillWith c d in
  Forall2 (other_amount (signed_copy true)) [call 5%Z (f64_lit 1 (-1)); call 9%Z (f64_lit 3 0); call 7%Z B754_nan]
                                            [call 5%Z (f64_lit (-1) (-1)); call 9%Z (f64_lit (-3) 0); call 7%Z B754_nan]
  /\ Forall2 (other_amount (fun d d' => is_finite d = true /\ is_finite d' = true /\ B2R d' = B2R d * bpow radix2 3))
       [call 5%Z ex92_tenth; call 5%Z (f64_lit 3 0)] [call 5%Z (f64_lit 3602879701896397 (-52)); call 5%Z (f64_lit 3 3)]
  /\ Forall2 (no_smaller_amount (prec := 53) (emax := 1024) (P := prec64) (E := emax64) (AX := AX)) [CallFill 5%Z; call 5%Z (f64_lit (-3) 0)] [CallFill 5%Z; call 5%Z ex92_tenth]
  /\ Forall (not_negative (prec := 53) (emax := 1024) (P := prec64) (E := emax64) (AX := AX)) [CallFill 5%Z; call 5%Z ex92_tenth; call 7%Z (B754_infinity false)]
  /\ (exists h0 h : VecHistogram (Category Z) f64, @vec_new _ f64 AX f64_default (category_new [5; 7]%Z) = Val h0
       /\ f64_vec_calls h0 [call 5%Z ex92_tenth; call 5%Z (f64_lit 3 0)] = Val h).
Proof.
  intros B AX call. split; [|split; [|split; [|split]]].
  - constructor; [apply other_fill_with | constructor; [apply other_fill_with | constructor; [apply other_fill_with | constructor]]].
    + apply copy_finite; [reflexivity | reflexivity|]. rewrite <- B2R_Bopp. apply f_equal, B2SF_inj. vm_compute. reflexivity.
    + apply copy_finite; [reflexivity | reflexivity|]. rewrite <- B2R_Bopp. apply f_equal, B2SF_inj. vm_compute. reflexivity.
    + now apply copy_nan.
  - constructor; [apply other_fill_with | constructor; [apply other_fill_with | constructor]].
    + destruct (lit_in_units 3602879701896397 (-55) 3) as [H|[H _]]; [lia | split; lia | split; lia | exact H | vm_compute in H; discriminate].
    + destruct (lit_in_units 3 0 3) as [H|[H _]]; [lia | split; lia | split; lia | exact H | vm_compute in H; discriminate].
  - constructor; [apply same_fill | constructor; [apply larger_fill_with | constructor]]. left. vm_compute. reflexivity.
  - constructor; [exact I | constructor; [|constructor; [|constructor]]]; left; vm_compute; reflexivity.
  - destruct B as [[] []]; eexists _, _; (split; [reflexivity|]); reflexivity.
Qed.
