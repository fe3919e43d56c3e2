(** * PropNormalise: normalising float histograms (C97). *)
From Coq Require Import List ZArith NArith Bool Lia ZifyN ZifyNat ZifyBool Reals Lra Permutation.
From Flocq Require Import Core IEEE754.BinarySingleNaN.
From stdpp Require Import gmap.
From Verif Require Import Base BaseFacts Num Float FloatFacts FloatSpec FloatUniform FloatApprox GridSpec FloatGrid Axis Spec IntFacts AxesSpec Category Value ValueFloat VecHist HashHist HistSpec
  HistFacts HashFacts OpsFacts PropHist PropHistIter PropOrder PropCount PropMerge PropPar ExactSpec PropProject PropFloatGrid PropValue PropValueFloat PropMeanInt PropProfile PropBinDataFloat
  PropExactWeights PropGridStats PropGridOps.
Import ListNotations.
Open Scope N_scope.

(** ** Specification *)

(** The sum of the values as a program computes it, one after the other from 0.0. *)
Definition sum_of {prec emax : Z} {P : Prec_gt_0 prec} {E : Prec_lt_emax prec emax} (l : list (binary_float prec emax)) : binary_float prec emax :=
  fold_left (Bplus mode_NE) l (B754_zero false).

(** Dividing every bin by [t]: [&h / &t] on a dense histogram, or over [values_mut] on either. *)
Definition divide_dense {B : Build} {prec emax : Z} {P : Prec_gt_0 prec} {E : Prec_lt_emax prec emax} {A} {AX : Axis A} (h : VecHistogram A (binary_float prec emax)) (t : binary_float prec emax)
  (h' : VecHistogram A (binary_float prec emax)) : Prop :=
  vec_scalar_op (@n_div _ (float_ops prec emax P E)) h t = Val h' /\ vec_values_mut h (fun v => @n_div _ (float_ops prec emax P E) v t) = Val h'.
Definition divide_sparse {B : Build} {prec emax : Z} {P : Prec_gt_0 prec} {E : Prec_lt_emax prec emax} {A} {AX : Axis A} (h : HashHistogram A (binary_float prec emax)) (t : binary_float prec emax)
  (h' : HashHistogram A (binary_float prec emax)) : Prop :=
  forall order, an_order (hash_as_map h) order -> hash_values_mut h order (fun v => @n_div _ (float_ops prec emax P E) v t) = Val h'.

(** ** Lemmas *)
Section Divide.
Context (prec emax : Z) (P : Prec_gt_0 prec) (E : Prec_lt_emax prec emax).
Notation flt := (binary_float prec emax).
Notation zero := (B754_zero false : flt).

Lemma sum_grows (l : list flt) : Forall (flt_le zero) l -> forall s, flt_le zero s -> flt_le s (fold_left (Bplus mode_NE) l s) /\ forall v, In v l -> flt_le v (fold_left (Bplus mode_NE) l s).
Proof.
  induction l as [|x l IH]; intros Hl s Hs.
  - cbn [fold_left]. split; [|intros v []]. destruct (le_not_nan _ _ _ _ _ _ Hs) as [_ N]. apply le_key; [exact N | exact N | lra].
  - inversion Hl as [|? ? Hx Hl']; subst. cbn [fold_left]. destruct (plus_nonneg prec emax P E s x Hs Hx) as [N G].
    destruct (IH Hl' (Bplus mode_NE s x) (le_transitive _ _ _ _ _ _ _ Hs G)) as [I1 I2].
    split; [exact (le_transitive _ _ _ _ _ _ _ G I1)|]. intros v [<-|Hv]; [|exact (I2 v Hv)].
    assert (Gx : flt_le x (Bplus mode_NE s x)).
    { destruct (le_not_nan _ _ _ _ _ _ Hx) as [_ Nx]. assert (Rx : flt_le x x) by (apply le_key; [exact Nx | exact Nx | lra]).
      assert (Z : flt_le x (Bplus mode_NE zero x)). { destruct x as [[]|sx| |sx m k H]; try discriminate; try exact Rx; right; reflexivity. }
      apply (le_transitive _ _ _ _ _ _ _ Z). destruct (le_not_nan _ _ _ _ _ _ Z) as [_ Nz]. apply (plus_le prec emax P E zero s x x); [intros _ _; exact Hs | exact Rx | exact Nz | exact N]. }
    exact (le_transitive _ _ _ _ _ _ _ Gx I1).
Qed.

Lemma divide_dense_map {B : Build} {A} {AX : Axis A} (h : VecHistogram A flt) (t : flt) : divide_dense (P := P) (E := E) h t (mkVecHist (vh_axes h) (map (fun v => Bdiv mode_NE v t) (vec_values h))).
Proof.
  unfold divide_dense, vec_scalar_op, vec_values_mut, vec_values. rewrite (mapo_val _ (fun v => Bdiv mode_NE v t)) by reflexivity. cbn [obind]. split; reflexivity.
Qed.

Lemma divide_sparse_map {B : Build} {A} {AX : Axis A} (h : HashHistogram A flt) (t : flt) : divide_sparse (P := P) (E := E) h t (mkHashHist (hh_axes h) ((fun v => Bdiv mode_NE v t) <$> hash_as_map h)).
Proof.
  intros order Ho. destruct (C33_hash_values_mut A flt AX h order (fun v => @n_div _ (float_ops prec emax P E) v t) Ho) as [H1 H2].
  destruct (proj2 H1) as [h' Hh']; [intros i v _; eexists; reflexivity|]. destruct (H2 h' Hh') as [Ha [Hn Hs]]. rewrite Hh'. f_equal.
  destruct h' as [a' m']. cbn [hh_axes hh_values] in *. unfold hash_value_at_index in *. cbn [hh_values] in *. subst a'. f_equal. apply map_eq. intros i. rewrite lookup_fmap. unfold hash_as_map.
  specialize (Hn i). specialize (Hs i). destruct (hh_values h !! i) as [v|]; [|exact (Hn eq_refl)]. destruct (Hs v eq_refl) as [v' [E1 E2]]. injection E1 as <-. exact E2.
Qed.

Lemma fraction (l : list flt) v : (0 < emax)%Z -> Forall (flt_le zero) l -> In v l -> is_efficiency v (sum_of (P := P) (E := E) l) (Bdiv mode_NE v (sum_of (P := P) (E := E) l)).
Proof.
  intros He Hl Hv. apply div_efficiency; [exact He | exact (proj1 (List.Forall_forall _ _) Hl v Hv)|]. apply (proj2 (sum_grows l Hl zero (or_intror eq_refl)) v Hv).
Qed.
End Divide.

(** C97. Dividing a histogram whose bins are not negative by the sum of its bins, added up one after the other in floating point,
    gives fractions: every bin is a number from 0 to 1 (unless the sum is zero or infinite), and exactly 1 for a bin that holds
    everything. A sparse histogram may be summed and divided in any two orders of its bins. *)
Theorem C97_fractions : forall (prec emax : Z) (P : Prec_gt_0 prec) (E : Prec_lt_emax prec emax) (B : Build) A (AX : Axis A),
  let flt := binary_float prec emax in (0 < emax)%Z ->
  (forall h : VecHistogram A flt, Forall (flt_le (B754_zero false)) (vec_values h) ->
     let t := sum_of (vec_values h) in
     exists h', divide_dense h t h' /\ vh_axes h' = vh_axes h /\ Forall2 (fun v q => is_efficiency v t q) (vec_values h) (vec_values h'))
  /\ (forall (h : HashHistogram A flt) order, an_order (hash_as_map h) order -> (forall i v, hash_value_at_index h i = Some v -> flt_le (B754_zero false) v) ->
     let t := sum_of (hash_values order) in
     exists h', divide_sparse h t h' /\ hh_axes h' = hh_axes h
       /\ forall i, match hash_value_at_index h i with Some v => exists q, hash_value_at_index h' i = Some q /\ is_efficiency v t q | None => hash_value_at_index h' i = None end).
Proof.
  intros prec emax P E B A AX flt He. subst flt. split.
  - intros h Hl t. eexists. split; [apply divide_dense_map|]. split; [reflexivity|]. unfold vec_values at 2. cbn [vh_values].
    assert (K : forall v, In v (vec_values h) -> is_efficiency v t (Bdiv mode_NE v t)) by (intros v Hv; apply fraction; assumption).
    clearbody t. clear Hl. induction (vec_values h) as [|v l IH]; cbn [map]; [constructor|]. constructor; [apply K; left; reflexivity | apply IH; intros w Hw; apply K; right; exact Hw].
  - intros h order Ho Hl t. eexists. split; [apply divide_sparse_map|]. split; [reflexivity|]. intros i. unfold hash_value_at_index. cbn [hh_values]. rewrite lookup_fmap. unfold hash_as_map.
    destruct (hh_values h !! i) as [v|] eqn:Ei; [|reflexivity]. eexists. split; [reflexivity|]. apply fraction; [exact He | |].
    + apply List.Forall_forall. intros w Hw. unfold hash_values in Hw. apply in_map_iff in Hw as [[j w'] [<- Hj]]. cbn [snd]. apply (Hl j). apply (order_elem _ order _ _ Ho). apply elem_of_list_In. exact Hj.
    + unfold hash_values. apply in_map_iff. exists (i, v). split; [reflexivity|]. apply elem_of_list_In. apply (order_elem _ order _ _ Ho). exact Ei.
Qed.
Print Assumptions C97_fractions.

Section Grid.
Context (prec emax : Z) (P : Prec_gt_0 prec) (E : Prec_lt_emax prec emax) (Hcov : covered_format prec emax) (e : Z) (Hge : grid_exponent prec emax e).
Notation flt := (binary_float prec emax).
Notation units := (in_units prec emax P E e).

Lemma in_sum us u : (forall u, In u us -> 0 <= u)%Z -> In u us -> (0 <= u <= sumZ us)%Z.
Proof.
  induction us as [|x l IH]; intros H0 Hu; [destruct Hu|]. rewrite sumZ_cons. pose proof (H0 x (or_introl eq_refl)) as Hx.
  assert (Hl : (0 <= sumZ l)%Z). { clear -H0. induction l as [|y l IH]; [reflexivity|]. rewrite sumZ_cons. pose proof (H0 y (or_intror (or_introl eq_refl))). enough (0 <= sumZ l)%Z by lia. apply IH. intros w [->|Hw]; apply H0; [left; reflexivity | right; right; exact Hw]. }
  destruct Hu as [<-|Hu]; [lia|]. specialize (IH (fun w Hw => H0 w (or_intror Hw)) Hu). lia.
Qed.

Lemma units_sum us : (forall u, In u us -> 0 <= u)%Z -> (sumZ us <= 2 ^ prec)%Z -> sum_of (P := P) (E := E) (map units us) = units (sumZ us).
Proof.
  intros H0 HS. assert (Hin : forall u, In u us -> (0 <= u <= sumZ us)%Z) by (intros u; apply in_sum; exact H0).
  assert (St : stays_within (- 2 ^ prec) (2 ^ prec) (map (fun u => u) us)).
  { clear -H0 HS. unfold stays_within. rewrite map_id. assert (K1 : sumZ (map (Z.min 0) us) = 0%Z).
    { clear HS. induction us as [|x l IH]; [reflexivity|]. cbn [map]. rewrite sumZ_cons, IH by (intros w Hw; apply H0; right; exact Hw). pose proof (H0 x (or_introl eq_refl)). lia. }
    assert (K2 : sumZ (map (Z.max 0) us) = sumZ us).
    { clear HS K1. induction us as [|x l IH]; [reflexivity|]. cbn [map]. rewrite !sumZ_cons, IH by (intros w Hw; apply H0; right; exact Hw). pose proof (H0 x (or_introl eq_refl)). lia. }
    rewrite K1, K2. pose proof (Z.pow_nonneg 2 prec). lia. }
  refine (eq_trans (grid_total prec emax P E Hcov e units (fun u => u) us Hge _ St) _).
  - intros u Hu. apply (proj1 (in_units_value prec emax P E Hcov e Hge u ltac:(pose proof (Hin u Hu); lia))).
  - rewrite map_id. reflexivity.
Qed.

Lemma part_error u S : (0 <= u <= S)%Z -> (0 < S <= 2 ^ prec)%Z ->
  (Rabs (B2R (Bdiv mode_NE (units u) (units S)) - IZR u / IZR S) <= unit_roundoff prec * (IZR u / IZR S))%R.
Proof.
  intros Hu HS. destruct (units_ratio prec emax P E Hcov e Hge u S) as [H _]; [unfold small; lia | unfold small; lia|]. destruct (H ltac:(lia)) as [_ R]. rewrite R.
  assert (HS1 : (0 < IZR S)%R) by (apply (IZR_lt 0); lia).
  destruct (Z.eq_dec u 0%Z) as [->|Hn].
  - unfold Rdiv. rewrite Rmult_0_l, round_0 by apply valid_rnd_round_mode. rewrite Rminus_0_r, Rabs_R0. lra.
  - assert (Hq : (bpow radix2 (- prec) <= IZR u / IZR S)%R).
    { apply Rmult_le_reg_r with (IZR S); [exact HS1|]. unfold Rdiv. rewrite Rmult_assoc, Rinv_l, Rmult_1_r by lra. apply Rle_trans with 1%R; [|apply (IZR_le 1); lia].
      assert (HB : (IZR S <= bpow radix2 prec)%R) by (rewrite <- IZR_Zpower by (destruct Hcov; lia); apply IZR_le; cbn [radix_val radix2]; lia).
      apply Rle_trans with (bpow radix2 (- prec) * bpow radix2 prec)%R; [apply Rmult_le_compat_l; [apply bpow_ge_0 | exact HB]|]. rewrite <- bpow_plus. replace (- prec + prec)%Z with 0%Z by lia. apply Rle_refl. }
    assert (Hp : (0 <= IZR u / IZR S)%R) by (eapply Rle_trans; [apply bpow_ge_0 | exact Hq]).
    rewrite <- (Rabs_pos_eq _ Hp) at 3. unfold unit_roundoff. apply FloatUniform.rnd_rel; [exact P|]. rewrite (Rabs_pos_eq _ Hp). eapply Rle_trans; [|exact Hq]. apply bpow_le. destruct Hcov. unfold SpecFloat.emin. lia.
Qed.

Lemma parts_error us S : (0 < S <= 2 ^ prec)%Z -> (forall u, In u us -> 0 <= u <= S)%Z ->
  (Rabs (sumR (map (fun u => B2R (Bdiv mode_NE (units u) (units S))) us) - IZR (sumZ us) / IZR S) <= unit_roundoff prec * (IZR (sumZ us) / IZR S))%R.
Proof.
  intros HS. assert (HS1 : (0 < IZR S)%R) by (apply (IZR_lt 0); lia). induction us as [|u l IH]; intros Hl.
  - cbn [map]. change (sumR []) with 0%R. change (sumZ []) with 0%Z. unfold Rdiv. rewrite Rmult_0_l, Rminus_0_r, Rabs_R0. lra.
  - cbn [map]. rewrite sumZ_cons, plus_IZR. unfold sumR in *. cbn [fold_right]. specialize (IH (fun w Hw => Hl w (or_intror Hw))). pose proof (part_error u S (Hl u (or_introl eq_refl)) HS) as K.
    set (q := B2R _) in *. set (s := fold_right _ _ _) in *. replace ((IZR u + IZR (sumZ l)) / IZR S)%R with (IZR u / IZR S + IZR (sumZ l) / IZR S)%R by (field; lra).
    replace (q + s - (IZR u / IZR S + IZR (sumZ l) / IZR S))%R with ((q - IZR u / IZR S) + (s - IZR (sumZ l) / IZR S))%R by ring.
    eapply Rle_trans; [apply Rabs_triang|]. lra.
Qed.

(** All of it for a list of bins. *)
Lemma normalise_list us : (forall u, In u us -> 0 <= u)%Z -> (0 < sumZ us <= 2 ^ prec)%Z ->
  let t := sum_of (P := P) (E := E) (map units us) in
  exactly t (IZR (sumZ us) * bpow radix2 e) /\ (forall u, In u us -> nearest (Bdiv mode_NE (units u) t) (IZR u / IZR (sumZ us)))
  /\ (Rabs (sumR (map (fun u => B2R (Bdiv mode_NE (units u) t)) us) - 1) <= unit_roundoff prec)%R.
Proof.
  intros H0 HS t. assert (Ht : t = units (sumZ us)) by (apply units_sum; [exact H0 | lia]). rewrite Ht. clear t Ht.
  assert (Hin := in_sum us). split; [|split].
  - apply (in_units_value prec emax P E Hcov e Hge (sumZ us) ltac:(lia)).
  - intros u Hu. specialize (Hin u H0 Hu). apply (units_ratio prec emax P E Hcov e Hge u (sumZ us)); [unfold small; lia | unfold small; lia | lia].
  - pose proof (parts_error us (sumZ us) HS (fun u Hu => Hin u H0 Hu)) as K. assert (HS1 : (0 < IZR (sumZ us))%R) by (apply (IZR_lt 0); lia).
    unfold Rdiv in K. rewrite Rinv_r, Rmult_1_r in K by lra. exact K.
Qed.
End Grid.

(** C97. If the bins are whole multiples of a power of two and make at most [2^prec] units in total, normalising is as exact as the
    format allows: the sum is exact, each bin becomes the float nearest to its exact fraction of the total, and the fractions add up
    to 1 within one rounding error, however many bins there are. *)
Theorem C97_normalised : forall (prec emax : Z) (P : Prec_gt_0 prec) (E : Prec_lt_emax prec emax) (B : Build) A (AX : Axis A) (e : Z),
  let flt := binary_float prec emax in covered_format prec emax -> grid_exponent prec emax e ->
  (forall (h : VecHistogram A flt) (us : list Z), vec_values h = map (in_units prec emax P E e) us -> Forall (fun u => 0 <= u)%Z us -> (0 < sumZ us <= 2 ^ prec)%Z ->
     let t := sum_of (vec_values h) in
     exactly t (IZR (sumZ us) * bpow radix2 e)
     /\ exists h', divide_dense h t h' /\ Forall2 (fun u q => nearest q (IZR u / IZR (sumZ us))) us (vec_values h')
        /\ (Rabs (sumR (map B2R (vec_values h')) - 1) <= unit_roundoff prec)%R)
  /\ (forall (h : HashHistogram A flt) (us : N -> Z) order, sparse_units (P := P) (E := E) e h us -> an_order (hash_as_map h) order -> (forall i, 0 <= us i)%Z ->
     let n := sumZ (map us (map fst order)) in (0 < n <= 2 ^ prec)%Z ->
     let t := sum_of (hash_values order) in
     exactly t (IZR n * bpow radix2 e)
     /\ exists h', divide_sparse h t h'
        /\ (forall i, match hash_value_at_index h i with Some _ => exists q, hash_value_at_index h' i = Some q /\ nearest q (IZR (us i) / IZR n) | None => hash_value_at_index h' i = None end)
        /\ (forall order', an_order (hash_as_map h') order' -> (Rabs (sumR (map B2R (hash_values order')) - 1) <= unit_roundoff prec)%R)).
Proof.
  intros prec emax P E B A AX e flt Hcov Hge. subst flt. split.
  - intros h us Hh H0 HS t. assert (H0' : forall u, In u us -> (0 <= u)%Z) by (intros u; apply (proj1 (List.Forall_forall _ _) H0)).
    destruct (normalise_list prec emax P E Hcov e Hge us H0' HS) as [K1 [K2 K3]]. rewrite <- Hh in K1, K2, K3. fold t in K1, K2, K3. split; [exact K1|].
    eexists. split; [apply divide_dense_map|]. clearbody t. assert (Hv : vec_values (mkVecHist (vh_axes h) (map (fun v => Bdiv mode_NE v t) (vec_values h))) = map (fun u => Bdiv mode_NE (in_units prec emax P E e u) t) us).
    { transitivity (map (fun v => Bdiv mode_NE v t) (vec_values h)); [reflexivity|]. rewrite Hh, map_map. reflexivity. }
    rewrite Hv, map_map. split; [|exact K3].
    clear -K2. revert K2. generalize (sumZ us). intros n K2. induction us as [|u l IH]; cbn [map]; constructor; [apply K2; left; reflexivity | apply IH; intros w Hw; apply K2; right; exact Hw].
  - intros h us order Hu Ho H0 n HS t.
    assert (Hv : hash_values order = map (in_units prec emax P E e) (map us (map fst order))).
    { unfold hash_values. rewrite !map_map. apply map_ext_in. intros [i v] Hi. cbn [fst snd]. apply elem_of_list_In in Hi. apply (order_elem _ order _ _ Ho) in Hi. specialize (Hu i). unfold hash_value_at_index in Hu. unfold hash_as_map in Hi. rewrite Hi in Hu. exact Hu. }
    assert (H0' : forall u, In u (map us (map fst order)) -> (0 <= u)%Z) by (intros u Hu'; apply in_map_iff in Hu' as [i [<- _]]; apply H0).
    destruct (normalise_list prec emax P E Hcov e Hge _ H0' HS) as [K1 [K2 K3]]. rewrite <- Hv in K1, K2, K3. fold t n in K1, K2, K3. split; [exact K1|].
    eexists. split; [apply divide_sparse_map|]. split.
    + intros i. specialize (Hu i). unfold hash_value_at_index in *. cbn [hh_values]. rewrite lookup_fmap. unfold hash_as_map. destruct (hh_values h !! i) as [v|] eqn:Ei; [|reflexivity].
      eexists. split; [reflexivity|]. rewrite Hu. apply K2. apply in_map, in_map_iff. exists (i, v). split; [reflexivity|]. apply elem_of_list_In. apply (order_elem _ order _ _ Ho). exact Ei.
    + intros order' Ho'. replace (sumR (map B2R (hash_values order'))) with (sumR (map (fun u => B2R (Bdiv mode_NE (in_units prec emax P E e u) t)) (map us (map fst order)))); [exact K3|].
      apply sumR_perm. rewrite <- (map_map (fun u => Bdiv mode_NE (in_units prec emax P E e u) t) B2R). apply Permutation_map.
      rewrite <- (map_map (in_units prec emax P E e) (fun v => Bdiv mode_NE v t)), <- Hv. unfold an_order in Ho, Ho'. unfold hash_as_map in Ho' at 1. cbn [hh_values] in Ho'. rewrite map_to_list_fmap in Ho'.
      unfold hash_values. rewrite Ho', Ho. generalize (map_to_list (hash_as_map h)). intros l. apply Permutation_refl'. induction l as [|[i v] l IHl]; [reflexivity|]. cbn [map snd]. refine (f_equal2 cons eq_refl _). exact IHl.
Qed.
Print Assumptions C97_normalised.

(** C97 for filled histograms: whatever was filled, as long as no weight was negative (NaN counts as negative here), the histogram of
    fractions exists and its bins are fractions. *)
Theorem C97_filled : forall (prec emax : Z) (P : Prec_gt_0 prec) (E : Prec_lt_emax prec emax) (B : Build) A (AX : Axis A) (a : A) (n : N) (calls : list (fill_op (binary_float prec emax) Empty_set)),
  let FV := float_fill prec emax P E in let FD := float_fill_with prec emax P E in let FW := float_no_weighted prec emax in let DV := float_default prec emax P E in
  (0 < emax)%Z -> Forall not_negative calls -> num_bins a = Val n -> (forall o, In o calls -> exists r, index a (op_coordinate o) = Val r) ->
  (exists h h', dense_filled a calls = Val h /\ divide_dense h (sum_of (vec_values h)) h' /\ vh_axes h' = a
     /\ Forall2 (fun v q => is_efficiency v (sum_of (vec_values h)) q) (vec_values h) (vec_values h'))
  /\ (exists h, sparse_filled a calls = Val h /\ forall order, an_order (hash_as_map h) order -> exists h', divide_sparse h (sum_of (hash_values order)) h' /\ hh_axes h' = a
     /\ forall i, match hash_value_at_index h i with Some v => exists q, hash_value_at_index h' i = Some q /\ is_efficiency v (sum_of (hash_values order)) q | None => hash_value_at_index h' i = None end).
Proof.
  intros prec emax P E B A AX a n calls FV FD FW DV He Hnn Hn Hix.
  set (zero := B754_zero false : binary_float prec emax). set (F := fun i => total_of prec emax P E (reaching a i calls) zero).
  assert (HF : forall i, apply_all (V := binary_float prec emax) (reaching a i calls) default_v = Val (F i)) by (intros i; apply apply_total).
  assert (Hz : flt_le zero zero) by (right; reflexivity).
  assert (Hp : forall i, flt_le zero (F i)).
  { intros i. refine (proj1 (sublist_total prec emax P E (reaching a i calls) (reaching a i calls) _ _ zero zero Hz Hz)); [reflexivity|].
    apply List.Forall_forall. intros o Ho. unfold reaching in Ho. apply filter_In in Ho as [Ho _]. revert o Ho. apply List.Forall_forall. exact Hnn. }
  destruct (C97_fractions prec emax P E B A AX He) as [Dn Sp]. split.
  - destruct (known_dense FV FD FW DV a calls F Hix HF n Hn) as [h [T1 [T2 T3]]]. destruct (Dn h) as [h' [K1 [K2 K3]]].
    { rewrite T3. apply List.Forall_forall. intros v Hv. apply in_map_iff in Hv as [k [<- _]]. apply Hp. }
    exists h, h'. split; [exact T1|]. split; [exact K1|]. split; [congruence | exact K3].
  - destruct (known_sparse FV FD FW DV a calls F Hix HF) as [h [T1 [T2 T3]]]. exists h. split; [exact T1|]. intros order Ho. destruct (Sp h order Ho) as [h' [K1 [K2 K3]]].
    { intros i v Hv. rewrite T3 in Hv. destruct (reaching a i calls); [discriminate|]. injection Hv as <-. apply Hp. }
    exists h'. split; [exact K1|]. split; [congruence | exact K3].
Qed.
Print Assumptions C97_filled.

(** C97, cumulative distributions. Adding up the bins of [values()] one after the other in floating point and dividing each partial sum
    by the last one gives a distribution function: it never falls, lies within 0 and 1, and ends at exactly 1. *)
Theorem C97_cumulative : forall (prec emax : Z) (P : Prec_gt_0 prec) (E : Prec_lt_emax prec emax) A (AX : Axis A) (h : VecHistogram A (binary_float prec emax)),
  (0 < emax)%Z -> Forall (flt_le (B754_zero false)) (vec_values h) ->
  let partial k := sum_of (firstn k (vec_values h)) in let t := sum_of (vec_values h) in
  is_finite t = true -> B2R t <> 0%R ->
  (forall k, is_finite (partial k) = true)
  /\ (forall k k', (k <= k')%nat -> (B2R (partial k) <= B2R (partial k'))%R /\ (B2R (Bdiv mode_NE (partial k) t) <= B2R (Bdiv mode_NE (partial k') t))%R)
  /\ (forall k, is_finite (Bdiv mode_NE (partial k) t) = true /\ (0 <= B2R (Bdiv mode_NE (partial k) t) <= 1)%R)
  /\ (forall k, (length (vec_values h) <= k)%nat -> B2R (Bdiv mode_NE (partial k) t) = 1%R).
Proof.
  intros prec emax P E A AX h He Hl partial t Ft Zt. set (zero := B754_zero false : binary_float prec emax). assert (Hz : flt_le zero zero) by (right; reflexivity).
  assert (Split : forall l, Forall (flt_le zero) l -> forall k, flt_le zero (sum_of (P := P) (E := E) (firstn k l)) /\ flt_le (sum_of (P := P) (E := E) (firstn k l)) (sum_of (P := P) (E := E) l)).
  { intros l Hf k. assert (Hf1 : Forall (flt_le zero) (firstn k l)) by (apply Forall_take; exact Hf). assert (Hf2 : Forall (flt_le zero) (skipn k l)) by (apply Forall_drop; exact Hf).
    pose proof (proj1 (sum_grows prec emax P E (firstn k l) Hf1 zero Hz)) as G. split; [exact G|].
    replace (sum_of (P := P) (E := E) l) with (fold_left (Bplus mode_NE) (skipn k l) (sum_of (P := P) (E := E) (firstn k l))) by (unfold sum_of; rewrite <- fold_left_app, firstn_skipn; reflexivity).
    exact (proj1 (sum_grows prec emax P E (skipn k l) Hf2 _ G)). }
  assert (Mono : forall k k', (k <= k')%nat -> flt_le (partial k) (partial k')).
  { intros k k' Hk. unfold partial. replace (firstn k (vec_values h)) with (firstn k (firstn k' (vec_values h))) by (rewrite firstn_firstn, Nat.min_l by exact Hk; reflexivity).
    apply Split. apply Forall_take. exact Hl. }
  assert (Pos : forall k, flt_le zero (partial k)) by (intros k; apply Split; exact Hl). assert (Top : forall k, flt_le (partial k) t) by (intros k; apply Split; exact Hl).
  assert (Fin : forall k, is_finite (partial k) = true).
  { intros k. pose proof (Pos k) as H1. pose proof (Top k) as H2. destruct (le_not_nan _ _ _ _ _ _ H2) as [N1 N2]. apply (le_key _ _ _ _ zero (partial k) eq_refl N1) in H1. apply (le_key _ _ _ _ _ _ N1 N2) in H2.
    assert (Kt : key prec emax t = B2R t) by (destruct t; try discriminate; reflexivity). pose proof (abs_B2R_lt_emax prec emax t) as Bt. apply Rabs_def2 in Bt. pose proof (bpow_gt_0 radix2 emax).
    destruct (partial k) as [|[]| |]; try discriminate; try reflexivity; unfold zero in H1; cbn [key B2R] in H1, H2; exfalso; lra. }
  assert (Val_le : forall x y : binary_float prec emax, is_finite x = true -> is_finite y = true -> flt_le x y -> (B2R x <= B2R y)%R).
  { intros x y Fx Fy Hxy. destruct (le_not_nan _ _ _ _ _ _ Hxy) as [N1 N2]. apply (le_key _ _ _ _ _ _ N1 N2) in Hxy. destruct x, y; try discriminate; exact Hxy. }
  assert (Eff : forall k, is_efficiency (partial k) t (Bdiv mode_NE (partial k) t)) by (intros k; apply div_efficiency; [exact He | apply Pos | apply Top]).
  assert (Tp : (0 < B2R t)%R) by (pose proof (Val_le zero t eq_refl Ft (le_transitive _ _ _ _ _ _ _ (Pos 0%nat) (Top 0%nat))) as Q; change (B2R zero) with 0%R in Q; lra).
  assert (Quot : forall k, B2R (Bdiv mode_NE (partial k) t) = round radix2 (SpecFloat.fexp prec emax) (round_mode mode_NE) (B2R (partial k) / B2R t)).
  { intros k. pose proof (Val_le zero (partial k) eq_refl (Fin k) (Pos k)) as L1. pose proof (Val_le _ _ (Fin k) Ft (Top k)) as L2. change (B2R zero) with 0%R in L1.
    destruct (div_bounded prec emax P E 0 (partial k) t) as [_ [R _]]; [lia | apply Fin | exact Zt | | exact R].
    cbn [bpow]. rewrite Rabs_pos_eq by (apply Rmult_le_pos; [lra | apply Rlt_le, Rinv_0_lt_compat; exact Tp]). apply (Rmult_le_reg_r (B2R t)); [exact Tp|]. unfold Rdiv. rewrite Rmult_assoc, Rinv_l by exact Zt. lra. }
  split; [exact Fin|]. split; [|split].
  - intros k k' Hk. pose proof (Val_le _ _ (Fin k) (Fin k') (Mono k k' Hk)) as L. split; [exact L|]. rewrite !Quot. apply round_le; [apply fexp_correct; exact P | apply valid_rnd_round_mode|].
    apply Rmult_le_compat_r; [apply Rlt_le, Rinv_0_lt_compat; exact Tp | exact L].
  - intros k. apply (proj1 (Eff k) Ft Zt).
  - intros k Hk. apply (proj2 (proj1 (Eff k) Ft Zt)). unfold partial, t. rewrite firstn_all2 by exact Hk. reflexivity.
Qed.
Print Assumptions C97_cumulative.

(** Category bins [5], [7] and the overflow bin: any floats; and four units of 1/2 in two bins. *)
Example C97_nonvacuous : forall B : Build,
  let AX := @category_axis B Z _ in let a := category_new [5; 7]%Z in
  let h := mkVecHist a [ex92_tenth; f64_lit 3 0; Bone : f64] in
  let s : HashHistogram (Category Z) f64 := mkHashHist a (<[0 := in_units 53 1024 prec64 emax64 (-1) 3]> (<[2 := in_units 53 1024 prec64 emax64 (-1) 1]> ∅)) in
  let us := fun i => if i =? 0 then 3%Z else if i =? 2 then 1%Z else 0%Z in
  let calls : list (@fill_op _ f64 Empty_set AX) := [CallFillWith 5%Z ex92_tenth; CallFillWith 9%Z (f64_lit 3 0); CallFill 7%Z] in
  let t := sum_of (P := prec64) (E := emax64) (vec_values h) in
  Forall (not_negative (prec := 53) (emax := 1024) (P := prec64) (E := emax64) (AX := AX)) calls /\ num_bins a = Val 3 /\ (forall o, In o calls -> exists r, index a (op_coordinate o) = Val r)
  /\ is_finite t = true /\ B2R t <> 0%R /\ Forall (flt_le (B754_zero false)) (vec_values h) /\ covered_format 53 1024 /\ grid_exponent 53 1024 (-1)
  /\ Forall (fun u => 0 <= u)%Z [3; 0; 1]%Z /\ sumZ [3; 0; 1]%Z = 4%Z
  /\ sparse_units (P := prec64) (E := emax64) (AX := AX) (-1) s us
  /\ exists order, an_order (hash_as_map s) order /\ sumZ (map us (map fst order)) = 4%Z.
Proof.
  intros B AX a h s us calls t.
  split; [apply List.Forall_cons; [left; vm_compute; reflexivity|]; apply List.Forall_cons; [left; vm_compute; reflexivity|]; apply List.Forall_cons; [exact I | apply List.Forall_nil]|].
  split; [destruct B as [[] []]; reflexivity|]. split; [intros o Ho; repeat (destruct Ho as [<-|Ho]; [cbn [op_coordinate]; destruct B as [[] []]; eexists; reflexivity|]); destruct Ho|].
  split; [vm_compute; reflexivity|]. split.
  { assert (K : match t with B754_finite _ _ _ _ => true | _ => false end = true) by (vm_compute; reflexivity). destruct t as [| | |sg m k H]; try discriminate. cbn [B2R]. intros Q. apply eq_0_F2R in Q. destruct sg; discriminate. }
  split; [apply List.Forall_cons; [left; vm_compute; reflexivity|]; apply List.Forall_cons; [left; vm_compute; reflexivity|]; apply List.Forall_cons; [left; vm_compute; reflexivity | apply List.Forall_nil]|].
  split; [exact f64_covered|]. split; [split; lia|]. split; [repeat constructor; lia|]. split; [reflexivity|]. split.
  - intros i. unfold hash_value_at_index, s, us. cbn [hh_values]. destruct (N.eqb_spec i 0) as [->|H0]; [rewrite lookup_insert; reflexivity|]. rewrite lookup_insert_ne by congruence.
    destruct (N.eqb_spec i 2) as [->|H2]; [rewrite lookup_insert; reflexivity|]. rewrite lookup_insert_ne by congruence. rewrite lookup_empty. reflexivity.
  - exists (map_to_list (hash_as_map s)). split; [apply Permutation_refl|]. unfold hash_as_map, s. cbn [hh_values].
    assert (Hp : Permutation (map_to_list (<[0 := in_units 53 1024 prec64 emax64 (-1) 3]> (<[2 := in_units 53 1024 prec64 emax64 (-1) 1]> (∅ : gmap N f64))))
      [(0, in_units 53 1024 prec64 emax64 (-1) 3); (2, in_units 53 1024 prec64 emax64 (-1) 1)]).
    { rewrite map_to_list_insert by (rewrite lookup_insert_ne by discriminate; apply lookup_empty). rewrite map_to_list_insert by apply lookup_empty. rewrite map_to_list_empty. reflexivity. }
    assert (Hq : forall l l', Permutation l l' -> sumZ l = sumZ l') by (induction 1; unfold sumZ in *; cbn [fold_right]; lia).
    exact (Hq _ _ (Permutation_map us (Permutation_map fst Hp))).
Qed.
