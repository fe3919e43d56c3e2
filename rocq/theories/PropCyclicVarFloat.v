(** * Property theorems: VariableCyclic over floats (C57). *)
From Coq Require Import List ZArith NArith Bool Lia Reals Lra ZifyN ZifyNat Sorted.
From Flocq Require Import Core IEEE754.BinarySingleNaN.
From Verif Require Import Base BaseFacts Num Float Axis Spec OrdLaws FloatOrd FloatFacts FloatSpec Uniform
  FloatUniform FloatUniformNew FloatUniformAcc FloatUniformEdge FloatCyclic StdAlgo StdContract VarAxis VariableFacts
  PropVariable PropCyclicFloat.
Import ListNotations.
Open Scope R_scope.

Lemma sorted_R_nth {T} (f : T -> R) (l : list T) :
  StronglySorted (fun a b => f a < f b) l ->
  forall i j a b, (i < j)%nat -> nth_error l i = Some a -> nth_error l j = Some b -> f a < f b.
Proof.
  induction 1 as [|x xs Hs IH Ha]; intros i j a b Hij Hi Hj; [destruct i; discriminate|].
  destruct j as [|j]; [lia|]. cbn in Hj. destruct i as [|i].
  - cbn in Hi. injection Hi as <-. rewrite Forall_forall in Ha. apply Ha. eapply nth_error_In; exact Hj.
  - cbn in Hi. apply (IH i j a b); [lia | exact Hi | exact Hj].
Qed.

(** Consecutive edges cover everything between the first and the last. *)
Lemma edges_cover {T} (f : T -> R) (l : list T) (y : R) lo hi :
  nth_error l 0 = Some lo -> f lo <= y -> forall n, nth_error l n = Some hi -> y < f hi ->
  exists k s e, (S k <= n)%nat /\ nth_error l k = Some s /\ nth_error l (S k) = Some e /\ f s <= y < f e.
Proof.
  intros H0 Hlo n. revert hi. induction n as [|n IH]; intros hi Hn Hy.
  - rewrite H0 in Hn. injection Hn as <-. lra.
  - destruct (nth_error l n) as [s|] eqn:Es.
    + destruct (Rlt_or_le y (f s)) as [Hlt|Hle].
      * destruct (IH s eq_refl Hlt) as [k [s' [e [Hk R]]]]. exists k, s', e. split; [lia | exact R].
      * exists n, s, hi. split; [lia|]. split; [exact Es|]. split; [exact Hn | split; assumption].
    + apply nth_error_None in Es. assert (S n < length l)%nat by (apply nth_error_Some; congruence). lia.
Qed.

(** C57: the cyclic index of a finite coordinate on an axis with finite, strictly
    increasing edges.  [W] is the range; the tolerance is
    [16 u (|x| + |low| + |high|)].  (1) The bin returned contains a representative
    [x - m W] up to the tolerance; (2) a coordinate farther than the tolerance from
    every seam [low + m W] is put in some bin; (3) a coordinate [m] turns away from
    the inside of bin [k], by more than the tolerance from its ends, is put in bin [k]. *)
Theorem C57_variable_cyclic_float_accuracy :
  forall (prec emax : Z) (P : Prec_gt_0 prec) (E : Prec_lt_emax prec emax) (B : Build)
  (search : searcher), search_contract search ->
  forall (edges : list (binary_float prec emax)) low high,
  covered_format prec emax ->
  (forall e, In e edges -> is_finite e = true) ->
  StronglySorted (fun a b => B2R a < B2R b) edges ->
  (2 <= length edges)%nat -> (N.of_nat (length edges) + 1 < usize_mod)%N ->
  nth_error edges 0 = Some low -> nth_error edges (length edges - 1) = Some high ->
  is_finite (Bminus mode_NE high low) = true ->
  let a := mkVariableCyclic (mkVariableNoFlow (mkVariable edges)) in
  let index := variablecyclic_index search (float_ops prec emax P E) a in
  let W := B2R high - B2R low in
  forall x, is_finite x = true -> is_finite (Bminus mode_NE x low) = true ->
  let tolerance := 16 * unit_roundoff prec * (Rabs (B2R x) + Rabs (B2R low) + Rabs (B2R high)) in
  (forall j, index x = Val (Some j) -> exists s e (m : Z),
      nth_error edges (N.to_nat j) = Some s /\ nth_error edges (S (N.to_nat j)) = Some e
      /\ B2R s - tolerance <= B2R x - IZR m * W < B2R e + tolerance)
  /\ ((forall m : Z, tolerance < Rabs (B2R x - (B2R low + IZR m * W))) -> exists j, index x = Val (Some j))
  /\ (forall k s e (m : Z),
        nth_error edges (N.to_nat k) = Some s -> nth_error edges (S (N.to_nat k)) = Some e ->
        B2R s + tolerance < B2R x - IZR m * W < B2R e - tolerance ->
        index x = Val (Some k)).
Proof.
  intros prec emax P E B search HC edges low high Hf Hfin Hst H2 Hu Hlo Hhi Fw a index W x Fx Fd tol.
  pose proof Hf as [Hp He].
  pose proof (nth_error_In _ _ Hlo) as Inlo. pose proof (nth_error_In _ _ Hhi) as Inhi.
  pose proof (Hfin _ Inlo) as Fl. pose proof (Hfin _ Inhi) as Fh.
  assert (Hlt : B2R low < B2R high) by (apply (sorted_R_nth B2R edges Hst 0 (length edges - 1)); auto; lia).
  assert (Hnum : forall e, In e edges -> float_is_num prec emax e = true).
  { intros e He'. apply Hfin in He'. unfold float_is_num. destruct e; try discriminate; reflexivity. }
  assert (Hst' : StronglySorted (fun a b => @lt_ _ (@num_ord _ (float_ops prec emax P E)) a b = true) edges).
  { clear -Hst Hfin. induction Hst as [|z zs Hs IH Ha]; constructor.
    - apply IH. intros e He. apply Hfin. right. exact He.
    - rewrite Forall_forall in Ha |- *. intros y Hy. rewrite lt_fin; [apply Rlt_bool_true; auto| |];
        apply Hfin; [left; reflexivity | right; exact Hy]. }
  destruct (C15_variable_noflow B search HC _ _ _ (float_ord_laws prec emax P E) edges Hnum Hst' ltac:(lia) Hu) as [_ [_ [_ Hidx]]].
  pose proof (u_pos prec) as Hu0. pose proof (u_tiny prec Hp) as Hu1. fold (unit_roundoff prec) in Hu0, Hu1.
  destruct (wrap_value prec emax P E Hp He low high x Fl Fh Fx Hlt Fw Fd) as [y [r' [m [Hy [Hfmt [Hr' [Herr Hval]]]]]]].
  fold W in Hr', Herr. fold (unit_roundoff prec) in Herr.
  assert (Hi : exists r, index x = Val r /\ forall i, r = Some i <->
             exists s e, nth_error edges (N.to_nat i) = Some s /\ nth_error edges (S (N.to_nat i)) = Some e
                         /\ @ge_ _ (@num_ord _ (float_ops prec emax P E)) y s = true /\ @lt_ _ (@num_ord _ (float_ops prec emax P E)) y e = true).
  { destruct (Hidx y) as [r [Hr Hr2]]. exists r. split; [|exact Hr2]. unfold index, variablecyclic_index. cbn [vc_axis vnf_axis a].
    destruct (high_var edges ltac:(lia)) as [hi' [Hhi' ->]]. rewrite Hhi in Hhi'. injection Hhi' as <-.
    destruct (low_var edges ltac:(lia)) as [lo' [Hlo' ->]]. rewrite Hlo in Hlo'. injection Hlo' as <-.
    cbn [obind]. rewrite Hy. exact Hr. }
  clear Hidx. destruct Hi as [r [Hr Hri]].
  set (u := unit_roundoff prec) in *. set (X := B2R x) in *. set (L := B2R low) in *. set (H := B2R high) in *.
  set (rnd := round radix2 (SpecFloat.fexp prec emax) (round_mode mode_NE)) in *.
  set (S := Rabs X + Rabs L + Rabs H) in *.
  pose proof (Rabs_pos X) as PX. pose proof (Rabs_pos L) as PL. pose proof (Rabs_pos H) as PH.
  assert (HWS : W <= Rabs L + Rabs H).
  { unfold W. pose proof (Rle_abs H). pose proof (Rle_abs (- L)) as Hnl. rewrite Rabs_Ropp in Hnl. lra. }
  assert (HDS : Rabs (X - L) <= Rabs X + Rabs L).
  { replace (X - L) with (X + - L) by ring. eapply Rle_trans; [apply Rabs_triang|]. rewrite Rabs_Ropp. lra. }
  assert (HW0 : 0 < W) by (unfold W; lra).
  assert (HS0 : 0 < S) by (unfold S; lra).
  assert (HuS : 0 < u * S) by (apply Rmult_lt_0_compat; lra).
  assert (HuX : u * Rabs (X - L) <= u * S) by (apply Rmult_le_compat_l; unfold S; lra).
  assert (HuW : u * W <= u * S) by (apply Rmult_le_compat_l; unfold S; lra).
  assert (HuL : u * Rabs L <= u * S) by (apply Rmult_le_compat_l; unfold S; lra).
  assert (Herr1 : Rabs (r' + L - (X - IZR m * W)) <= 6 * (u * S)) by lra.
  assert (HrndW : rnd W <= W * (1 + u)).
  { pose proof (rnd_sub_rel prec emax P high low) as Hd. fold H L rnd u in Hd. fold W in Hd.
    rewrite (Rabs_pos_eq W) in Hd by lra. apply Rabs_le_inv in Hd. unfold u, unit_roundoff in *. lra. }
  pose proof Herr1 as Herr2. apply Rabs_le_inv in Herr2.
  assert (HYval : is_finite y = true -> B2R y = rnd (r' + L)) by (intros Fy; destruct Hval as [[_ [_ V]]|[_ Hc]]; [exact V | congruence]).
  assert (HYge : is_finite y = true -> L <= B2R y).
  { intros Fy. rewrite (HYval Fy). apply Rle_trans with (rnd L); [right; symmetry; apply (rnd_B2R prec emax low)|]. apply rnd_le; [exact P | lra]. }
  assert (HYerr : is_finite y = true -> Rabs (B2R y - (X - IZR m * W)) <= 10 * (u * S)).
  { intros Fy. rewrite (HYval Fy).
    assert (HSum : Rabs (rnd (r' + L) - (r' + L)) <= u * Rabs (r' + L)).
    { apply (rnd_add_rel prec emax P); [exact Hfmt | apply B2R_format]. }
    assert (HrL : Rabs (r' + L) <= 2 * W + Rabs L).
    { eapply Rle_trans; [apply Rabs_triang|]. rewrite (Rabs_pos_eq r') by lra. nra. }
    assert (Hu2 : u * Rabs (r' + L) <= u * (2 * W + Rabs L)) by (apply Rmult_le_compat_l; lra).
    replace (rnd (r' + L) - (X - IZR m * W)) with ((rnd (r' + L) - (r' + L)) + (r' + L - (X - IZR m * W))) by ring.
    eapply Rle_trans; [apply Rabs_triang|]. lra. }
  assert (Htol : tol = 16 * (u * S)) by (unfold tol; fold X L H S; ring).
  (* a coordinate in no bin is within the tolerance of a seam *)
  assert (Hnone : r = None -> Rabs (X - (L + IZR (m + 1) * W)) <= 16 * (u * S)).
  { intros En. rewrite plus_IZR.
    replace (X - (L + (IZR m + 1) * W)) with (X - IZR m * W - H) by (unfold W; ring).
    assert (Hup : X - IZR m * W - H <= 16 * (u * S)) by (unfold W in *; lra).
    apply Rabs_le. split; [|exact Hup].
    destruct (is_finite y) eqn:Fy.
    - pose proof (HYerr eq_refl) as HE. apply Rabs_le_inv in HE.
      destruct (Rlt_or_le (B2R y) H) as [HyH|HyH]; [exfalso|lra].
      destruct (edges_cover B2R edges (B2R y) low high Hlo (HYge eq_refl) _ Hhi HyH) as [k [s [e [_ [Es [Ee [H1 H3]]]]]]].
      assert (Hc : r = Some (N.of_nat k)).
      { apply Hri. exists s, e. rewrite Nat2N.id. split; [exact Es|]. split; [exact Ee|].
        pose proof (Hfin _ (nth_error_In _ _ Es)) as Fs. pose proof (Hfin _ (nth_error_In _ _ Ee)) as Fe.
        split; [rewrite ge_fin by assumption; apply Rle_bool_true; exact H1 | rewrite lt_fin by assumption; apply Rlt_bool_true; exact H3]. }
      congruence.
    - destruct Hval as [[_ [Hc _]]|[Htop _]]; [congruence|].
      destruct (Rle_or_lt H (r' + L)) as [Hle|Hlt']; [lra|]. exfalso.
      assert (Hb : Rabs (rnd (r' + L)) <= Rmax (Rabs L) (Rabs H)).
      { assert (H1 : L <= rnd (r' + L)) by (apply Rle_trans with (rnd L); [right; symmetry; apply (rnd_B2R prec emax low) | apply rnd_le; [exact P | lra]]).
        assert (H3 : rnd (r' + L) <= H) by (apply Rle_trans with (rnd H); [apply rnd_le; [exact P | lra] | right; apply (rnd_B2R prec emax high)]).
        apply Rabs_le. pose proof (Rmax_l (Rabs L) (Rabs H)). pose proof (Rmax_r (Rabs L) (Rabs H)).
        pose proof (Rle_abs H). pose proof (Rle_abs (- L)) as Hnl. rewrite Rabs_Ropp in Hnl. lra. }
      pose proof (abs_B2R_lt_emax prec emax low) as B1. pose proof (abs_B2R_lt_emax prec emax high) as B2. fold L in B1. fold H in B2.
      unfold Rmax in Hb. destruct (Rle_dec (Rabs L) (Rabs H)); lra. }
  (* a bin contains the coordinate, with this [m], up to the tolerance *)
  assert (Hsome : forall j, r = Some j -> exists s e,
      nth_error edges (N.to_nat j) = Some s /\ nth_error edges (Datatypes.S (N.to_nat j)) = Some e
      /\ B2R s - tol <= X - IZR m * W < B2R e + tol).
  { intros j Ej. apply Hri in Ej. destruct Ej as [s [e [Es [Ee [H1 H3]]]]]. exists s, e.
    split; [exact Es|]. split; [exact Ee|].
    pose proof (Hfin _ (nth_error_In _ _ Es)) as Fs. pose proof (Hfin _ (nth_error_In _ _ Ee)) as Fe.
    assert (Fy : is_finite y = true).
    { destruct (is_finite y) eqn:Ef; [reflexivity|]. exfalso. unfold ge_, lt_ in H1, H3. cbn [partial_cmp num_ord float_ops] in H1, H3.
      destruct y as [| [] | |], s as [| [] | |], e as [| [] | |]; try discriminate. }
    rewrite ge_fin in H1 by assumption. rewrite lt_fin in H3 by assumption.
    destruct (Rle_bool_spec (B2R s) (B2R y)) as [H1'|]; [|discriminate].
    destruct (Rlt_bool_spec (B2R y) (B2R e)) as [H3'|]; [|discriminate].
    pose proof (HYerr Fy) as HE. apply Rabs_le_inv in HE. rewrite Htol. lra. }
  assert (Hnear : forall k s, nth_error edges k = Some s -> L <= B2R s <= H).
  { intros k s Ek. assert (k < length edges)%nat by (apply nth_error_Some; congruence). split.
    - destruct k as [|k]; [rewrite Hlo in Ek; injection Ek as Ek; unfold L; rewrite Ek; apply Rle_refl|]. left. apply (sorted_R_nth B2R edges Hst 0 (Datatypes.S k)); auto; lia.
    - destruct (Nat.eq_dec k (length edges - 1)) as [->|]; [rewrite Hhi in Ek; injection Ek as Ek; unfold H; rewrite Ek; apply Rle_refl|].
      left. apply (sorted_R_nth B2R edges Hst k (length edges - 1)); auto; lia. }
  split; [|split].
  - intros j Hj. rewrite Hr in Hj. injection Hj as Hj. destruct (Hsome j Hj) as [s [e [Es [Ee Hb]]]]. exists s, e, m. auto.
  - intros Hfar. destruct r as [j|]; [exists j; exact Hr|]. exfalso.
    specialize (Hfar (m + 1)%Z). specialize (Hnone eq_refl). rewrite Htol in Hfar. lra.
  - intros k s e m' Es Ee [K1 K2]. rewrite Htol in K1, K2.
    pose proof (Hnear _ _ Es) as Ns. pose proof (Hnear _ _ Ee) as Ne.
    destruct r as [j|].
    + destruct (Hsome j eq_refl) as [s' [e' [Es' [Ee' [J1 J2]]]]]. rewrite Htol in J1, J2.
      pose proof (Hnear _ _ Es') as Ns'. pose proof (Hnear _ _ Ee') as Ne'.
      assert (Em : m = m').
      { apply (no_integer_between m m' W HW0). rewrite minus_IZR. assert (EW : H = L + W) by (unfold W; ring).
        clearbody W H. subst H. split; lra. }
      subst m'.
      assert (A1 : B2R s' < B2R e) by lra. assert (A2 : B2R s < B2R e') by lra.
      assert (Ejk : N.to_nat j = N.to_nat k).
      { destruct (Nat.lt_trichotomy (N.to_nat j) (N.to_nat k)) as [Hlt'|[Heq|Hgt]]; [exfalso|exact Heq|exfalso].
        - destruct (Nat.eq_dec (Datatypes.S (N.to_nat j)) (N.to_nat k)) as [Eq|Ne0].
          + rewrite Eq in Ee'. rewrite Es in Ee'. injection Ee' as <-. lra.
          + pose proof (sorted_R_nth B2R edges Hst _ _ _ _ (ltac:(lia) : (Datatypes.S (N.to_nat j) < N.to_nat k)%nat) Ee' Es). lra.
        - destruct (Nat.eq_dec (Datatypes.S (N.to_nat k)) (N.to_nat j)) as [Eq|Ne0].
          + rewrite Eq in Ee. rewrite Es' in Ee. injection Ee as <-. lra.
          + pose proof (sorted_R_nth B2R edges Hst _ _ _ _ (ltac:(lia) : (Datatypes.S (N.to_nat k) < N.to_nat j)%nat) Ee Es'). lra. }
      rewrite Hr. do 2 f_equal. lia.
    + exfalso. specialize (Hnone eq_refl). apply Rabs_le_inv in Hnone. rewrite plus_IZR in Hnone.
      (* a point well inside a bin is not near a seam *)
      assert (Q : - W < (IZR (m + 1) - IZR m') * W < W).
      { rewrite plus_IZR. unfold W in *. split; lra. }
      rewrite <- minus_IZR in Q. pose proof (no_integer_between _ _ W HW0 Q) as Em.
      rewrite <- Em in K1, K2. rewrite plus_IZR in K1, K2. lra.
Qed.
Print Assumptions C57_variable_cyclic_float_accuracy.

(** The wrapped coordinate decides: what [index] returns is the bin of the wrapped value, or nothing. *)
Lemma variable_cyclic_of_wrapped {prec emax : Z} (P : Prec_gt_0 prec) (E : Prec_lt_emax prec emax) (B : Build)
  (search : searcher) (edges : list (binary_float prec emax)) low high x y :
  search_contract search ->
  (forall e, In e edges -> is_finite e = true) ->
  StronglySorted (fun a b => B2R a < B2R b) edges ->
  (2 <= length edges)%nat -> (N.of_nat (length edges) + 1 < usize_mod)%N ->
  nth_error edges 0 = Some low -> nth_error edges (length edges - 1) = Some high ->
  wrap_coordinate (float_ops prec emax P E) low high x = Val y ->
  (forall s e, In e edges -> In s edges -> @ge_ _ (@num_ord _ (float_ops prec emax P E)) y s = true ->
     @lt_ _ (@num_ord _ (float_ops prec emax P E)) y e = true -> False) ->
  variablecyclic_index search (float_ops prec emax P E) (mkVariableCyclic (mkVariableNoFlow (mkVariable edges))) x = Val None.
Proof.
  intros HC Hfin Hst H2 Hu Hlo Hhi Hy Hno.
  assert (Hnum : forall e, In e edges -> float_is_num prec emax e = true).
  { intros e He'. apply Hfin in He'. unfold float_is_num. destruct e; try discriminate; reflexivity. }
  assert (Hst' : StronglySorted (fun a b => @lt_ _ (@num_ord _ (float_ops prec emax P E)) a b = true) edges).
  { clear -Hst Hfin. induction Hst as [|z zs Hs IH Ha]; constructor.
    - apply IH. intros e He. apply Hfin. right. exact He.
    - rewrite Forall_forall in Ha |- *. intros y Hy. rewrite lt_fin; [apply Rlt_bool_true; auto| |];
        apply Hfin; [left; reflexivity | right; exact Hy]. }
  destruct (C15_variable_noflow B search HC _ _ _ (float_ord_laws prec emax P E) edges Hnum Hst' ltac:(lia) Hu) as [_ [_ [_ Hidx]]].
  destruct (Hidx y) as [r [Hr Hr2]]. unfold variablecyclic_index. cbn [vc_axis vnf_axis].
  destruct (high_var edges ltac:(lia)) as [hi' [Hhi' ->]]. rewrite Hhi in Hhi'. injection Hhi' as <-.
  destruct (low_var edges ltac:(lia)) as [lo' [Hlo' ->]]. rewrite Hlo in Hlo'. injection Hlo' as <-.
  cbn [obind]. rewrite Hy. cbn [obind]. rewrite Hr. f_equal. destruct r as [j|]; [exfalso|reflexivity].
  destruct (proj1 (Hr2 j) eq_refl) as [s [e [Es [Ee [H1 H3]]]]].
  apply (Hno s e); try assumption; eapply nth_error_In; eassumption.
Qed.

(** C57: NaN and the infinities are in no bin. *)
Theorem C57_variable_cyclic_float_nonfinite :
  forall (prec emax : Z) (P : Prec_gt_0 prec) (E : Prec_lt_emax prec emax) (B : Build)
  (search : searcher), search_contract search ->
  forall (edges : list (binary_float prec emax)),
  (forall e, In e edges -> is_finite e = true) ->
  StronglySorted (fun a b => B2R a < B2R b) edges ->
  (2 <= length edges)%nat -> (N.of_nat (length edges) + 1 < usize_mod)%N ->
  forall x, is_finite x = false ->
  variablecyclic_index search (float_ops prec emax P E) (mkVariableCyclic (mkVariableNoFlow (mkVariable edges))) x = Val None.
Proof.
  intros prec emax P E B search HC edges Hfin Hst H2 Hu x Fx.
  destruct (nth_error edges 0) as [lo|] eqn:Hlo; [|apply nth_error_None in Hlo; lia].
  destruct (nth_error edges (length edges - 1)) as [hi|] eqn:Hhi; [|apply nth_error_None in Hhi; lia].
  apply (variable_cyclic_of_wrapped P E B search edges lo hi x B754_nan HC Hfin Hst H2 Hu Hlo Hhi).
  - unfold wrap_coordinate. cbn [n_sub n_rem n_add n_zero float_ops obind].
    assert (Hr : Bfmod prec emax P E (Bminus mode_NE x lo) (Bminus mode_NE hi lo) = B754_nan).
    { assert (Fd : is_finite (Bminus mode_NE x lo) = false).
      { destruct (is_finite (Bminus mode_NE x lo)) eqn:Ed; [|reflexivity]. apply minus_finite in Ed. destruct Ed. congruence. }
      destruct (Bminus mode_NE x lo); try discriminate Fd; destruct (Bminus mode_NE hi lo); reflexivity. }
    rewrite Hr. reflexivity.
  - intros s e _ _ H1 _. destruct s; discriminate H1.
Qed.
Print Assumptions C57_variable_cyclic_float_nonfinite.

(** C57, the exception is real: on the axis with edges 0, 90, 360 the coordinate
    [-2^-70] is in no bin, although the documentation says every value is wrapped into range. *)
Definition seam_edges : list f64 := [f64_lit 0 0; f64_lit 90 0; f64_lit 360 0].

Lemma lit_lt {Bd : Build} (a b : f64) : is_finite a = true -> is_finite b = true -> @lt_ _ (@num_ord _ f64_ops) a b = true -> B2R a < B2R b.
Proof.
  intros Fa Fb H. pose proof (lt_fin 53 1024 prec64 emax64 a b Fa Fb) as H'. pose proof (eq_trans (eq_sym H') H) as H2. clear H H'. revert H2.
  destruct (Rlt_bool_spec (B2R a) (B2R b)); [auto | discriminate].
Qed.

Lemma seam_edges_ok : (forall e, In e seam_edges -> is_finite e = true)
  /\ StronglySorted (fun a b => B2R a < B2R b) seam_edges.
Proof.
  split.
  - intros e [<-|[<-|[<-|[]]]]; vm_compute; reflexivity.
  - unfold seam_edges. apply SSorted_cons; [apply SSorted_cons; [apply SSorted_cons; [apply SSorted_nil | apply Forall_nil]|]|];
    repeat (apply Forall_cons; [apply (lit_lt (Bd := {| overflow_checks := true; target_width := P64 |})); vm_compute; reflexivity|]); apply Forall_nil.
Qed.

Theorem C57_variable_cyclic_seam_unbinned : forall (B : Build) (search : searcher), search_contract search ->
  exists x, is_finite x = true /\ B2SF x = B2SF (f64_lit (-1) (-70))
  /\ variablecyclic_index search f64_ops (mkVariableCyclic (mkVariableNoFlow (mkVariable seam_edges))) x = Val None.
Proof.
  intros B search HC. exists (f64_lit (-1) (-70)). split; [vm_compute; reflexivity|]. split; [reflexivity|].
  destruct seam_edges_ok as [Hfin Hst].
  assert (Hw : exists y, wrap_coordinate f64_ops (f64_lit 0 0) (f64_lit 360 0) (f64_lit (-1) (-70)) = Val y
     /\ is_finite y = true /\ @lt_ _ (@num_ord _ f64_ops) y (f64_lit 0 0) = false /\ @lt_ _ (@num_ord _ f64_ops) y (f64_lit 90 0) = false
     /\ @lt_ _ (@num_ord _ f64_ops) y (f64_lit 360 0) = false).
  { assert (Hy : match wrap_coordinate f64_ops (f64_lit 0 0) (f64_lit 360 0) (f64_lit (-1) (-70)) with
       | Val y => is_finite y && negb (@lt_ _ (@num_ord _ f64_ops) y (f64_lit 0 0)) && negb (@lt_ _ (@num_ord _ f64_ops) y (f64_lit 90 0))
                  && negb (@lt_ _ (@num_ord _ f64_ops) y (f64_lit 360 0)) | Panic => false end = true) by (vm_compute; reflexivity).
    destruct (wrap_coordinate f64_ops (f64_lit 0 0) (f64_lit 360 0) (f64_lit (-1) (-70))) as [y|]; [|discriminate Hy].
    exists y. split; [reflexivity|]. apply andb_prop in Hy. destruct Hy as [Hy H4]. apply andb_prop in Hy. destruct Hy as [Hy H3].
    apply andb_prop in Hy. destruct Hy as [Hy H5]. apply negb_true_iff in H3, H4, H5. auto. }
  destruct Hw as [y [Hy [Fy [L1 [L2 L3]]]]].
  apply (variable_cyclic_of_wrapped prec64 emax64 B search seam_edges (f64_lit 0 0) (f64_lit 360 0) _ y HC Hfin Hst);
    [unfold seam_edges; cbn [length]; lia | destruct B as [? []]; vm_compute; reflexivity | reflexivity | reflexivity | exact Hy |].
  intros s e [<-|[<-|[<-|[]]]] _ _ H; [exact (eq_true_false_abs _ H L1) | exact (eq_true_false_abs _ H L2) | exact (eq_true_false_abs _ H L3)].
Qed.
Print Assumptions C57_variable_cyclic_seam_unbinned.

(** Non-vacuity: the axis 0, 90, 360 meets every hypothesis, with search the standard
    library's algorithm and coordinate 450 = 90 + one turn. *)
Example C57_nonvacuous : search_contract bsearch_branchless
  /\ covered_format 53 1024
  /\ (forall e, In e seam_edges -> is_finite e = true)
  /\ StronglySorted (fun a b => B2R a < B2R b) seam_edges
  /\ is_finite (Bminus mode_NE (f64_lit 360 0) (f64_lit 0 0)) = true
  /\ is_finite (f64_lit 450 0) = true /\ is_finite (Bminus mode_NE (f64_lit 450 0) (f64_lit 0 0)) = true
  /\ (forall B : Build, variablecyclic_index bsearch_branchless f64_ops (mkVariableCyclic (mkVariableNoFlow (mkVariable seam_edges))) (f64_lit 451 0) = Val (Some 1%N)).
Proof.
  split; [exact bsearch_branchless_contract|]. split; [split; lia|].
  split; [apply seam_edges_ok|]. split; [apply seam_edges_ok|].
  split; [vm_compute; reflexivity|]. split; [vm_compute; reflexivity|]. split; [vm_compute; reflexivity|].
  intros [[] []]; vm_compute; reflexivity.
Qed.
