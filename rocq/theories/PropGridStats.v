(** * PropGridStats: statistics of data on a grid (C95). *)
From Coq Require Import List ZArith NArith Bool Lia ZifyN ZifyNat ZifyBool Reals Lra Permutation.
From Flocq Require Import Core IEEE754.BinarySingleNaN.
From stdpp Require Import gmap.
From Verif Require Import Base BaseFacts Num Float FloatFacts FloatSpec FloatApprox GridSpec FloatGrid Axis Spec IntFacts AxesSpec Category Value ValueFloat VecHist HashHist HistSpec
  HistFacts HashFacts PropHist PropHistIter PropOrder PropCount PropMerge PropPar ExactSpec PropProject PropFloatGrid PropValue PropValueFloat PropMeanInt PropProfile PropExactWeights.
Import ListNotations.
Open Scope N_scope.

(** ** Specification *)

(** The float is that real number; it is the float nearest to that real number. *)
Definition exactly {prec emax : Z} (x : binary_float prec emax) (r : R) : Prop := is_finite x = true /\ B2R x = r.
Definition nearest {prec emax : Z} (x : binary_float prec emax) (r : R) : Prop :=
  is_finite x = true /\ B2R x = round radix2 (SpecFloat.fexp prec emax) (round_mode mode_NE) r.

(** ** Histograms whose bins are known *)
Section Runs.
Context {A V D W X : Type} {AX : Axis A} (FV : Fill V) (FD : FillWith V D) (FW : FillWithWeighted V D W) (DV : Default V).
Context (mk : Coordinate * X -> fill_op D W) (Hmk : forall x, op_coordinate (mk x) = fst x) (f : list X -> V) (ok : list X -> Prop).
Context (Hf : forall l, ok (map snd l) -> apply_all (V := V) (map mk l) default_v = Val (f (map snd l))).
Context (Hfilter : forall (l : list (Coordinate * X)) p, ok (map snd l) -> ok (map snd (List.filter p l))).
Context (Hperm : forall l l', Permutation l l' -> ok l -> f l' = f l).
Context (Hokperm : forall l l', Permutation l l' -> ok l -> ok l').

Lemma apply_known (a : A) i xs : ok (map snd xs) -> apply_all (V := V) (reaching a i (map mk xs)) default_v = Val (f (data_in a i xs)).
Proof. intros H. rewrite (reaching_map mk Hmk). apply Hf. apply Hfilter. exact H. Qed.

Lemma ok_data (a : A) i xs : ok (map snd xs) -> ok (data_in a i xs).
Proof. intros H. apply Hfilter. exact H. Qed.

Lemma stats_dense (a : A) n xs : num_bins a = Val n -> (forall x, In x xs -> exists r, index a (fst x) = Val r) -> ok (map snd xs) ->
  exists h, dense_filled a (map mk xs) = Val h /\ vh_axes h = a /\ length (vec_values h) = N.to_nat n
  /\ forall i, i < n -> vec_value_at_index h i = Some (f (data_in a i xs)).
Proof.
  intros Hn Hix Hok. destruct (known_dense FV FD FW DV a (map mk xs) (fun i => f (data_in a i xs))) with (n := n) as [h [H1 [H2 H3]]].
  - intros o Ho. apply in_map_iff in Ho as [x [<- Hx]]. rewrite Hmk. auto.
  - intros i. apply apply_known. exact Hok.
  - exact Hn.
  - exists h. split; [exact H1|]. split; [exact H2|]. rewrite H3. split; [now rewrite map_length, seq_length|].
    intros i Hi. unfold vec_value_at_index. unfold vec_values in H3. rewrite H3, nth_error_map, (nth_error_nth' _ 0%nat), seq_nth by (rewrite ?seq_length; lia).
    cbn [option_map]. do 3 f_equal. lia.
Qed.

Lemma stats_sparse (a : A) xs : (forall x, In x xs -> exists r, index a (fst x) = Val r) -> ok (map snd xs) ->
  exists h, sparse_filled a (map mk xs) = Val h /\ hh_axes h = a
  /\ forall i, hash_value_at_index h i = match data_in a i xs with [] => None | _ => Some (f (data_in a i xs)) end.
Proof.
  intros Hix Hok. destruct (known_sparse FV FD FW DV a (map mk xs) (fun i => f (data_in a i xs))) as [h [H1 [H2 H3]]].
  - intros o Ho. apply in_map_iff in Ho as [x [<- Hx]]. rewrite Hmk. auto.
  - intros i. apply apply_known. exact Hok.
  - exists h. split; [exact H1|]. split; [exact H2|]. intros i. rewrite H3, (reaching_map mk Hmk). unfold data_in.
    destruct (List.filter _ xs) as [|x l]; reflexivity.
Qed.

Lemma data_perm (a : A) i (xs ys : list (Coordinate * X)) : Permutation xs ys -> Permutation (data_in a i xs) (data_in a i ys).
Proof.
  intros H. unfold data_in. apply Permutation_map. induction H as [|x l l' _ IH|x y l|l l' l'' _ IH1 _ IH2]; cbn [List.filter].
  - constructor.
  - destruct (match index a (fst x) with Val (Some j) => j =? i | _ => false end); [now constructor | exact IH].
  - destruct (match index a (fst x) with Val (Some j) => j =? i | _ => false end), (match index a (fst y) with Val (Some j) => j =? i | _ => false end); try reflexivity. constructor.
  - etransitivity; eassumption.
Qed.

Lemma stats_order (a : A) n xs ys : num_bins a = Val n -> (forall x, In x xs -> exists r, index a (fst x) = Val r) -> ok (map snd xs) -> Permutation xs ys ->
  dense_filled a (map mk ys) = dense_filled a (map mk xs) /\ sparse_filled a (map mk ys) = sparse_filled a (map mk xs).
Proof.
  intros Hn Hix Hok Hp.
  assert (Hix' : forall x, In x ys -> exists r, index a (fst x) = Val r) by (intros x Hx; apply Hix; eapply Permutation_in; [apply Permutation_sym, Hp | exact Hx]).
  assert (Hok' : ok (map snd ys)) by (eapply Hokperm; [apply Permutation_map, Hp | exact Hok]).
  destruct (stats_dense a n xs Hn Hix Hok) as [h [H1 [H2 [H3 H4]]]]. destruct (stats_dense a n ys Hn Hix' Hok') as [h' [H1' [H2' [H3' H4']]]].
  destruct (stats_sparse a xs Hix Hok) as [s [S1 [S2 S3]]]. destruct (stats_sparse a ys Hix' Hok') as [s' [S1' [S2' S3']]].
  assert (Hd : forall i, f (data_in a i ys) = f (data_in a i xs)) by (intros i; apply Hperm; [apply data_perm, Hp | apply ok_data; exact Hok]).
  split.
  - rewrite H1, H1'. f_equal. apply same_dense_values; [congruence|]. intros i. destruct (N.lt_ge_cases i n) as [Hi|Hi].
    + rewrite (H4 i Hi), (H4' i Hi), Hd. reflexivity.
    + unfold vec_value_at_index. unfold vec_values in H3, H3'. rewrite !(proj2 (nth_error_None _ _)) by lia. reflexivity.
  - rewrite S1, S1'. f_equal. apply same_sparse_values; [congruence|]. intros i. rewrite S3, S3', Hd. pose proof (data_perm a i xs ys Hp) as Hpi.
    destruct (data_in a i xs) as [|x l]; [apply Permutation_nil in Hpi; rewrite Hpi; reflexivity|].
    destruct (data_in a i ys) as [|y l']; [apply Permutation_sym, Permutation_nil in Hpi; discriminate | reflexivity].
Qed.
End Runs.

Definition sq (k : Z) : Z := (k * k)%Z.

Section Float.
Context (prec emax : Z) (P : Prec_gt_0 prec) (E : Prec_lt_emax prec emax) (Hcov : covered_format prec emax).
Notation flt := (binary_float prec emax).
Notation max := (2 ^ prec)%Z.
Notation plus := (Bplus mode_NE).
Notation mult := (Bmult mode_NE).
Notation total l := (fold_left plus l (B754_zero false : flt)).

Lemma grid_times e f (x y : flt) X Y : grid_exponent prec emax (e + f) -> grid_value e x X -> grid_value f y Y -> (Z.abs (X * Y) <= max)%Z -> grid_value (e + f) (mult x y) (X * Y).
Proof.
  intros Hge [Fx Vx] [Fy Vy] Hr. pose proof (Bmult_correct prec emax P E mode_NE x y) as H. rewrite Vx, Vy in H.
  replace (IZR X * bpow radix2 e * (IZR Y * bpow radix2 f))%R with (IZR (X * Y) * bpow radix2 (e + f))%R in H by (rewrite bpow_plus, mult_IZR; ring).
  rewrite (grid_rnd prec emax (proj1 Hcov) (e + f) Hge _ Hr) in H. rewrite Rlt_bool_true in H by (apply (grid_top prec emax (proj1 Hcov) (e + f) Hge _ Hr)).
  destruct H as [H1 [H2 _]]. rewrite Fx, Fy in H2. split; assumption.
Qed.

Lemma grid_total {X} e (g : X -> flt) (k : X -> Z) l : grid_exponent prec emax e -> (forall x, In x l -> grid_value e (g x) (k x)) -> stays_within (- max) max (map k l) ->
  total (map g l) = in_units prec emax P E e (sumZ (map k l)).
Proof.
  intros Hge Hg [H1 H2]. rewrite <- (units_zero prec emax P E Hcov e Hge).
  enough (K : forall s, (- max <= s + sumZ (map (Z.min 0) (map k l)))%Z -> (s + sumZ (map (Z.max 0) (map k l)) <= max)%Z ->
    fold_left plus (map g l) (in_units prec emax P E e s) = in_units prec emax P E e (s + sumZ (map k l))).
  { rewrite K by lia. f_equal. }
  clear H1 H2. induction l as [|x l IH]; intros s H1 H2; cbn [map fold_left]; [f_equal; cbn; lia|].
  cbn [map] in H1, H2. rewrite sumZ_cons in H1, H2 |- *.
  assert (Hb : (sumZ (map (Z.min 0) (map k l)) <= 0 <= sumZ (map (Z.max 0) (map k l)))%Z) by (clear; induction l as [|y l IH]; [cbn; lia|]; cbn [map]; rewrite !sumZ_cons; pose proof (parts (k y)); lia).
  pose proof (parts (k x)).
  rewrite (units_plus prec emax P E Hcov e Hge s (g x) (k x)) by ((apply Hg; left; reflexivity) || lia). rewrite IH by (lia || intros y Hy; apply Hg; right; exact Hy). f_equal. lia.
Qed.

Lemma grid_sumR {X} e (r : X -> R) (k : X -> Z) l : (forall x, In x l -> r x = (IZR (k x) * bpow radix2 e)%R) -> sumR (map r l) = (IZR (sumZ (map k l)) * bpow radix2 e)%R.
Proof.
  induction l as [|x l IH]; intros H; [cbn; ring|]. cbn [map]. rewrite sumZ_cons, plus_IZR, Rmult_plus_distr_r, <- IH by (intros y Hy; apply H; right; exact Hy).
  rewrite <- (H x (or_introl eq_refl)). reflexivity.
Qed.

Lemma total_exactly {X} e (g : X -> flt) (k : X -> Z) l : grid_exponent prec emax e -> (forall x, In x l -> grid_value e (g x) (k x)) -> stays_within (- max) max (map k l) ->
  exactly (in_units prec emax P E e (sumZ (map k l))) (sumR (map (fun x => B2R (g x)) l)).
Proof.
  intros Hge Hg Hw. rewrite (grid_sumR e _ k l) by (intros x Hx; exact (proj2 (Hg x Hx))).
  apply in_units_value; [exact Hcov | exact Hge|]. pose proof (stays_sum _ _ _ Hw). lia.
Qed.

Lemma stays_permutation (k k' : list Z) : Permutation k k' -> stays_within (- max) max k -> stays_within (- max) max k'.
Proof. intros H [H1 H2]. split; [rewrite <- (sumZ_perm _ _ (Permutation_map (Z.min 0) H)) | rewrite <- (sumZ_perm _ _ (Permutation_map (Z.max 0) H))]; assumption. Qed.
End Float.

(** ** Sums of squares *)
Section Squares.
Context {X : Type} (k : X -> Z) (max : Z).

Lemma squares_stay l : (sumZ (map (fun x => sq (k x)) l) <= max)%Z -> stays_within (- max) max (map k l) /\ stays_within (- max) max (map (fun x => sq (k x)) l).
Proof.
  intros H.
  assert (K : (- sumZ (map (fun x => sq (k x)) l) <= sumZ (map (Z.min 0) (map k l)) /\ sumZ (map (Z.max 0) (map k l)) <= sumZ (map (fun x => sq (k x)) l)
    /\ sumZ (map (Z.min 0) (map (fun x => sq (k x)) l)) = 0 /\ sumZ (map (Z.max 0) (map (fun x => sq (k x)) l)) = sumZ (map (fun x => sq (k x)) l))%Z).
  { clear H. induction l as [|x l IH]; [cbn; lia|]. cbn [map]. rewrite !sumZ_cons. unfold sq in *.
    assert (Ha : (Z.abs (k x) <= k x * k x)%Z) by (pose proof (sq_abs (k x)); assumption).
    rewrite (Z.min_l 0 (k x * k x)), (Z.max_r 0 (k x * k x)) by lia.
    assert (Z.min 0 (k x) = 0 \/ Z.min 0 (k x) = k x)%Z by lia. assert (Z.max 0 (k x) = 0 \/ Z.max 0 (k x) = k x)%Z by lia. lia. }
  assert (H0 : (0 <= sumZ (map (fun x => sq (k x)) l))%Z) by (clear; induction l as [|x l IH]; [cbn; lia|]; cbn [map]; rewrite sumZ_cons; unfold sq at 1; nia).
  unfold stays_within. lia.
Qed.

Lemma nonneg_filter {Y} (g : Y -> Z) p l : (forall x, 0 <= g x)%Z -> (sumZ (map g (List.filter p l)) <= sumZ (map g l))%Z.
Proof. intros Hg. induction l as [|x l IH]; [cbn; lia|]. cbn [List.filter map]. rewrite sumZ_cons. specialize (Hg x). destruct (p x); cbn [map]; rewrite ?sumZ_cons; lia. Qed.
Lemma nonneg_member {Y} (g : Y -> Z) l x : (forall x, 0 <= g x)%Z -> In x l -> (g x <= sumZ (map g l))%Z.
Proof.
  intros Hg. assert (H0 : forall l, (0 <= sumZ (map g l))%Z) by (clear -Hg; induction l as [|y l IH]; [cbn; lia|]; cbn [map]; rewrite sumZ_cons; specialize (Hg y); lia).
  induction l as [|y l IH]; [intros []|]. cbn [map]. rewrite sumZ_cons. intros [->|Hx]; [pose proof (H0 l); lia|]. specialize (IH Hx). specialize (Hg y). lia.
Qed.

End Squares.
Lemma stays_abs {X} (max : Z) (g h : X -> Z) l : (forall x, Z.abs (g x) <= h x)%Z -> (sumZ (map h l) <= max)%Z -> stays_within (- max) max (map g l).
Proof.
  intros Hg H.
  assert (K : (- sumZ (map h l) <= sumZ (map (Z.min 0) (map g l)) /\ sumZ (map (Z.max 0) (map g l)) <= sumZ (map h l))%Z).
  { clear H. induction l as [|x l IH]; [cbn; lia|]. cbn [map]. rewrite !sumZ_cons. specialize (Hg x).
    assert (Z.min 0 (g x) = 0 \/ Z.min 0 (g x) = g x)%Z by lia. assert (Z.max 0 (g x) = 0 \/ Z.max 0 (g x) = g x)%Z by lia. lia. }
  unfold stays_within. lia.
Qed.

Section Stats.
Context (prec emax : Z) (P : Prec_gt_0 prec) (E : Prec_lt_emax prec emax) (Hcov : covered_format prec emax) {B : Build} {A : Type} {AX : Axis A}.
Notation flt := (binary_float prec emax).
Notation ops := (float_ops prec emax P E).
Notation max := (2 ^ prec)%Z.
Notation weight := (fw prec emax P E).
Notation units := (in_units prec emax P E).
Context (e : Z) (He : grid_exponent prec emax e) (He2 : grid_exponent prec emax (e + e)) (k : flt -> Z).

(** Weighted sums. *)
Definition weight_op (x : Coordinate * weight_call flt) : fill_op flt Empty_set := match snd x with Unit => CallFill (fst x) | Weight w => CallFillWith (fst x) w end.
Definition wsum_ok (l : list (weight_call flt)) : Prop := (forall c, In c l -> grid_value e (weight c) (k (weight c))) /\ (sumZ (map (fun c => sq (k (weight c))) l) <= max)%Z.
Definition wsum_value (l : list (weight_call flt)) : WeightedSum flt := mkWeightedSum (units e (sumZ (map (fun c => k (weight c)) l))) (units (e + e) (sumZ (map (fun c => sq (k (weight c))) l))).

Lemma fw2_weight (c : weight_call flt) : fw2 prec emax P E c = Bmult mode_NE (weight c) (weight c).
Proof. destruct c as [|w]; [|reflexivity]. symmetry. apply mult_one. Qed.

Lemma fw2_grid l c : wsum_ok l -> In c l -> grid_value (e + e) (fw2 prec emax P E c) (sq (k (weight c))).
Proof.
  intros [H1 H2] Hc. rewrite fw2_weight. apply (grid_times prec emax P E Hcov); [exact He2 | apply H1; exact Hc | apply H1; exact Hc|].
  pose proof (nonneg_member (fun c => sq (k (weight c))) l c) as K. cbv beta in K. specialize (K (fun x => Z.square_nonneg (k (weight x))) Hc). unfold sq in *. nia.
Qed.

Lemma wsum_data (FW : FillWithWeighted (WeightedSum flt) flt Empty_set) (l : list (Coordinate * weight_call flt)) : wsum_ok (map snd l) ->
  @apply_all A (WeightedSum flt) flt Empty_set AX {| fill_v := weightedsum_fill ops |} {| fill_with_v := weightedsum_fill_with ops |} FW (map weight_op l) (weightedsum_new ops)
  = Val (wsum_value (map snd l)).
Proof.
  intros Hok. destruct (squares_stay (fun c => k (weight c)) max (map snd l) (proj2 Hok)) as [S1 S2]. unfold wsum_value.
  rewrite <- (grid_total prec emax P E Hcov e weight (fun c => k (weight c)) (map snd l) He (proj1 Hok) S1).
  rewrite <- (grid_total prec emax P E Hcov (e + e) (fw2 prec emax P E) (fun c => sq (k (weight c))) (map snd l) He2 (fun c Hc => fw2_grid _ c Hok Hc) S2).
  clear Hok S1 S2. unfold weightedsum_new. cbn [n_zero float_ops]. generalize (B754_zero false : flt) at 1 3. generalize (B754_zero false : flt).
  induction l as [|[c [|w]] l IH]; intros s2 s1; unfold apply_all in *; cbn [map foldo]; [reflexivity| |];
    cbn [weight_op fst snd op_effect fill_v fill_with_v]; unfold weightedsum_fill, weightedsum_fill_with; cbn [n_add n_mul n_one float_ops obind ws_sumw ws_sumw2]; rewrite IH; reflexivity.
Qed.

Lemma wsum_filter l (p : Coordinate * weight_call flt -> bool) : wsum_ok (map snd l) -> wsum_ok (map snd (List.filter p l)).
Proof.
  intros [H1 H2]. split.
  - intros c Hc. apply H1. apply in_map_iff in Hc as [x [<- Hx]]. apply filter_In in Hx as [Hx _]. apply in_map. exact Hx.
  - rewrite map_map in *. pose proof (nonneg_filter (fun x : Coordinate * weight_call flt => sq (k (weight (snd x)))) p l (fun x => Z.square_nonneg (k (weight (snd x))))). lia.
Qed.
Lemma wsum_perm l l' : Permutation l l' -> wsum_ok l -> wsum_value l' = wsum_value l.
Proof. intros H _. unfold wsum_value. f_equal; f_equal; apply sumZ_perm, Permutation_map, Permutation_sym, H. Qed.
Lemma wsum_ok_perm l l' : Permutation l l' -> wsum_ok l -> wsum_ok l'.
Proof.
  intros H [H1 H2]. split; [intros c Hc; apply H1; eapply Permutation_in; [apply Permutation_sym, H | exact Hc]|].
  rewrite <- (sumZ_perm _ _ (Permutation_map (fun c => sq (k (weight c))) H)). exact H2.
Qed.

(** Means. *)
Context (t : int_type) (Ht : primitive_int t).
Definition mean_ok (l : list flt) : Prop :=
  (forall x, In x l -> grid_value e x (k x)) /\ (sumZ (map (fun x => sq (k x)) l) <= max)%Z /\ (Z.of_nat (length l) <= int_max t)%Z /\ (Z.of_nat (length l) <= max)%Z.
Definition mean_value (l : list flt) : Mean flt Z := mkMean (units e (sumZ (map k l))) (units (e + e) (sumZ (map (fun x => sq (k x)) l))) (Z.of_nat (length l)).

Lemma square_grid l x : (forall x, In x l -> grid_value e x (k x)) -> (sumZ (map (fun x => sq (k x)) l) <= max)%Z -> In x l -> grid_value (e + e) (Bmult mode_NE x x) (sq (k x)).
Proof.
  intros H1 H2 Hc. apply (grid_times prec emax P E Hcov); [exact He2 | apply H1; exact Hc | apply H1; exact Hc|].
  pose proof (nonneg_member (fun x => sq (k x)) l x (fun x => Z.square_nonneg (k x)) Hc) as K. unfold sq in *. nia.
Qed.

Lemma mean_stats (FV : Fill (Mean flt Z)) (FW : FillWithWeighted (Mean flt Z) flt Empty_set) (l : list (Coordinate * flt)) : mean_ok (map snd l) ->
  @apply_all A (Mean flt Z) flt Empty_set AX FV {| fill_with_v := mean_fill_with ops (int_ops t) |} FW (map (fun x => CallFillWith (fst x) (snd x)) l) (mean_default ops (int_ops t))
  = Val (mean_value (map snd l)).
Proof.
  intros [H1 [H2 [H3 _]]]. rewrite map_length in H3. pose proof (primitive_bounds t Ht) as Hb.
  rewrite (mean_data prec emax P E t FV FW l) by lia. f_equal. unfold mean_fields, mean_value.
  destruct (squares_stay k max (map snd l) H2) as [S1 S2].
  rewrite <- (grid_total prec emax P E Hcov e (fun x => x) k (map snd l) He H1 S1), map_id.
  rewrite <- (grid_total prec emax P E Hcov (e + e) (fun x => Bmult mode_NE x x) (fun x => sq (k x)) (map snd l) He2 (fun x Hx => square_grid _ x H1 H2 Hx) S2). reflexivity.
Qed.
Lemma mean_filter l (p : Coordinate * flt -> bool) : mean_ok (map snd l) -> mean_ok (map snd (List.filter p l)).
Proof.
  intros [H1 [H2 [H3 H4]]]. rewrite map_length in H3, H4. pose proof (filter_length_le' p l). split; [|split].
  - intros c Hc. apply H1. apply in_map_iff in Hc as [x [<- Hx]]. apply filter_In in Hx as [Hx _]. apply in_map. exact Hx.
  - rewrite map_map in *. pose proof (nonneg_filter (fun x : Coordinate * flt => sq (k (snd x))) p l (fun x => Z.square_nonneg (k (snd x)))). lia.
  - rewrite map_length. lia.
Qed.
Lemma mean_perm l l' : Permutation l l' -> mean_ok l -> mean_value l' = mean_value l.
Proof. intros H _. unfold mean_value. f_equal; [f_equal; apply sumZ_perm, Permutation_map, Permutation_sym, H .. | rewrite (Permutation_length H); reflexivity]. Qed.
Lemma mean_ok_perm l l' : Permutation l l' -> mean_ok l -> mean_ok l'.
Proof.
  intros H [H1 [H2 H3]]. split; [intros c Hc; apply H1; eapply Permutation_in; [apply Permutation_sym, H | exact Hc]|].
  rewrite <- (sumZ_perm _ _ (Permutation_map (fun c => sq (k c)) H)), <- (Permutation_length H). split; assumption.
Qed.

(** Weighted means: samples in units of [2^e], weights in units of [2^g]. *)
Context (g : Z) (Hg : grid_exponent prec emax g) (Hg2 : grid_exponent prec emax (g + g)) (Heg : grid_exponent prec emax (e + g)) (Heeg : grid_exponent prec emax (e + e + g)) (q : flt -> Z).
Definition wmean_ok (l : list (flt * flt)) : Prop :=
  (forall x, In x l -> grid_value e (fst x) (k (fst x)) /\ grid_value g (snd x) (q (snd x)) /\ (sq (k (fst x)) <= max)%Z)
  /\ (sumZ (map (fun x => sq (k (fst x)) * Z.abs (q (snd x)))%Z l) <= max)%Z /\ (sumZ (map (fun x => sq (q (snd x))) l) <= max)%Z /\ (Z.of_nat (length l) <= int_max t)%Z.
Definition wmean_value (l : list (flt * flt)) : WeightedMean flt flt Z :=
  mkWeightedMean (units (e + g) (sumZ (map (fun x => k (fst x) * q (snd x))%Z l))) (units (e + e + g) (sumZ (map (fun x => sq (k (fst x)) * q (snd x))%Z l)))
    (units g (sumZ (map (fun x => q (snd x)) l))) (units (g + g) (sumZ (map (fun x => sq (q (snd x))) l))) (Z.of_nat (length l)).

Lemma wm_nonneg x : (0 <= sq (k (fst x)) * Z.abs (q (snd x : flt)))%Z.
Proof. unfold sq. nia. Qed.

Lemma wmean_facts l : wmean_ok l ->
  (forall x, In x l -> grid_value (e + g) (Bmult mode_NE (fst x) (snd x)) (k (fst x) * q (snd x)))
  /\ (forall x, In x l -> grid_value (e + e + g) (Bmult mode_NE (Bmult mode_NE (fst x) (fst x)) (snd x)) (sq (k (fst x)) * q (snd x)))
  /\ (forall x, In x l -> grid_value (g + g) (Bmult mode_NE (snd x) (snd x)) (sq (q (snd x))))
  /\ stays_within (- max) max (map (fun x => k (fst x) * q (snd x))%Z l) /\ stays_within (- max) max (map (fun x => sq (k (fst x)) * q (snd x))%Z l)
  /\ stays_within (- max) max (map (fun x => q (snd x)) l) /\ stays_within (- max) max (map (fun x => sq (q (snd x))) l).
Proof.
  intros [H1 [H2 [H3 _]]]. destruct (squares_stay (fun x : flt * flt => q (snd x)) max l H3) as [S3 S4].
  assert (Hkq : forall x : flt * flt, (Z.abs (k (fst x) * q (snd x)) <= sq (k (fst x)) * Z.abs (q (snd x)))%Z).
  { intros x. rewrite Z.abs_mul. pose proof (sq_abs (k (fst x))) as K. unfold sq. apply Z.mul_le_mono_nonneg_r; [lia | exact K]. }
  assert (Hkkq : forall x : flt * flt, (Z.abs (sq (k (fst x)) * q (snd x)) <= sq (k (fst x)) * Z.abs (q (snd x)))%Z).
  { intros x. rewrite Z.abs_mul, (Z.abs_eq (sq _)) by (unfold sq; nia). lia. }
  assert (Hm : forall x, In x l -> (sq (k (fst x)) * Z.abs (q (snd x)) <= max)%Z).
  { intros x Hx. pose proof (nonneg_member (fun x : flt * flt => sq (k (fst x)) * Z.abs (q (snd x)))%Z l x wm_nonneg Hx). cbv beta in H. lia. }
  split; [|split; [|split; [|split; [|split; [|split]]]]].
  - intros x Hx. destruct (H1 x Hx) as [G1 [G2 _]]. apply (grid_times prec emax P E Hcov); [exact Heg | exact G1 | exact G2|]. specialize (Hkq x). specialize (Hm x Hx). lia.
  - intros x Hx. destruct (H1 x Hx) as [G1 [G2 G3]]. apply (grid_times prec emax P E Hcov); [exact Heeg | | exact G2|].
    + apply (grid_times prec emax P E Hcov); [exact He2 | exact G1 | exact G1|]. unfold sq in G3. nia.
    + specialize (Hkkq x). specialize (Hm x Hx). lia.
  - intros x Hx. destruct (H1 x Hx) as [_ [G2 _]]. apply (grid_times prec emax P E Hcov); [exact Hg2 | exact G2 | exact G2|].
    pose proof (nonneg_member (fun x : flt * flt => sq (q (snd x))) l x (fun x => Z.square_nonneg (q (snd x))) Hx) as K. cbv beta in K. unfold sq in *. nia.
  - exact (stays_abs max _ _ l Hkq H2).
  - exact (stays_abs max _ _ l Hkkq H2).
  - exact S3.
  - exact S4.
Qed.

Lemma wmean_stats (FV : Fill (WeightedMean flt flt Z)) (FD : FillWith (WeightedMean flt flt Z) flt) (l : list (Coordinate * (flt * flt))) : wmean_ok (map snd l) ->
  @apply_all A (WeightedMean flt flt Z) flt flt AX FV FD {| fill_with_weighted_v := weightedmean_fill ops (int_ops t) |}
    (map (fun x => CallFillWithWeighted (fst x) (fst (snd x)) (snd (snd x))) l) (weightedmean_default ops (int_ops t)) = Val (wmean_value (map snd l)).
Proof.
  intros Hok. destruct (wmean_facts _ Hok) as [G1 [G2 [G3 [S1 [S2 [S3 S4]]]]]]. destruct Hok as [H1 [_ [_ H3]]]. rewrite map_length in H3. pose proof (primitive_bounds t Ht) as Hb.
  rewrite (weightedmean_data prec emax P E t FV FD l) by lia. f_equal. unfold weighted_fields, wmean_value.
  rewrite <- (grid_total prec emax P E Hcov (e + g) _ _ (map snd l) Heg G1 S1), <- (grid_total prec emax P E Hcov (e + e + g) _ _ (map snd l) Heeg G2 S2).
  rewrite <- (grid_total prec emax P E Hcov g snd (fun x => q (snd x)) (map snd l) Hg (fun x Hx => proj1 (proj2 (H1 x Hx))) S3).
  rewrite <- (grid_total prec emax P E Hcov (g + g) _ _ (map snd l) Hg2 G3 S4). reflexivity.
Qed.
Lemma wmean_filter l (p : Coordinate * (flt * flt) -> bool) : wmean_ok (map snd l) -> wmean_ok (map snd (List.filter p l)).
Proof.
  intros [H1 [H2 [H3 H4]]]. rewrite map_length in H4. pose proof (filter_length_le' p l). split; [|split; [|split]].
  - intros c Hc. apply H1. apply in_map_iff in Hc as [x [<- Hx]]. apply filter_In in Hx as [Hx _]. apply in_map. exact Hx.
  - rewrite map_map in *. pose proof (nonneg_filter (fun x : Coordinate * (flt * flt) => (sq (k (fst (snd x))) * Z.abs (q (snd (snd x))))%Z) p l (fun x => wm_nonneg (snd x))). lia.
  - rewrite map_map in *. pose proof (nonneg_filter (fun x : Coordinate * (flt * flt) => sq (q (snd (snd x)))) p l (fun x => Z.square_nonneg (q (snd (snd x))))). lia.
  - rewrite map_length. lia.
Qed.
Lemma wmean_perm l l' : Permutation l l' -> wmean_ok l -> wmean_value l' = wmean_value l.
Proof. intros H _. unfold wmean_value. f_equal; [f_equal; apply sumZ_perm, Permutation_map, Permutation_sym, H .. | rewrite (Permutation_length H); reflexivity]. Qed.
Lemma wmean_ok_perm l l' : Permutation l l' -> wmean_ok l -> wmean_ok l'.
Proof.
  intros H [H1 [H2 [H3 H4]]]. split; [intros c Hc; apply H1; eapply Permutation_in; [apply Permutation_sym, H | exact Hc]|].
  rewrite <- (sumZ_perm _ _ (Permutation_map (fun x : flt * flt => (sq (k (fst x)) * Z.abs (q (snd x)))%Z) H)),
    <- (sumZ_perm _ _ (Permutation_map (fun x : flt * flt => sq (q (snd x))) H)), <- (Permutation_length H). repeat split; assumption.
Qed.
End Stats.

(** ** What the values are *)
Section Read.
Context (prec emax : Z) (P : Prec_gt_0 prec) (E : Prec_lt_emax prec emax) (Hcov : covered_format prec emax) {B : Build}.
Notation flt := (binary_float prec emax).
Notation ops := (float_ops prec emax P E).
Notation max := (2 ^ prec)%Z.
Notation weight := (fw prec emax P E).
Context (e : Z) (He : grid_exponent prec emax e) (He2 : grid_exponent prec emax (e + e)) (k : flt -> Z).

Lemma weight_value (c : weight_call flt) : weight_of B2R c = B2R (weight c).
Proof. destruct c; [symmetry; apply Bone_correct | reflexivity]. Qed.

Lemma square_value (x : flt) n : grid_value e x n -> (B2R x ^ 2 = IZR (sq n) * bpow radix2 (e + e))%R.
Proof. intros [_ V]. rewrite V. unfold sq. rewrite bpow_plus, mult_IZR. ring. Qed.

Lemma exact_units e' n r : grid_exponent prec emax e' -> (Z.abs n <= max)%Z -> r = (IZR n * bpow radix2 e')%R -> exactly (in_units prec emax P E e' n) r.
Proof. intros Hge Hn ->. apply in_units_value; assumption. Qed.

Lemma sqrt_exact (x : flt) r : exactly x r -> (0 <= r)%R -> nearest (Bsqrt mode_NE x) (R_sqrt.sqrt r).
Proof.
  intros [F <-] Hr. destruct (Bsqrt_correct prec emax P E mode_NE x) as [K1 [K2 _]]. split; [|exact K1]. rewrite K2.
  destruct x as [s|s| |[] m ex H]; try discriminate; try reflexivity. exfalso.
  assert (B2R (B754_finite true m ex H : flt) < 0)%R by (apply F2R_lt_0; reflexivity). lra.
Qed.

Lemma sumR_squares_nonneg l : (0 <= sumR (map (fun w => w ^ 2)%R l))%R.
Proof. induction l as [|x l IH]; [apply Rle_refl|]. unfold sumR in *. cbn [map fold_right]. nra. Qed.

Lemma wsum_read l : wsum_ok prec emax P E e k l ->
  let s := wsum_value prec emax P E e k l in let ws := map (weight_of B2R) l in
  exactly (weightedsum_get s) (sumR ws) /\ exactly (weightedsum_variance s) (sumR (map (fun w => w ^ 2)%R ws))
  /\ nearest (@weightedsum_standard_deviation _ _ (float_sqrt prec emax P E) (fun x => x) s) (R_sqrt.sqrt (sumR (map (fun w => w ^ 2)%R ws))).
Proof.
  intros [H1 H2] s ws. destruct (squares_stay (fun c => k (weight c)) max l H2) as [S1 S2].
  assert (Hv : exactly (weightedsum_variance s) (sumR (map (fun w => w ^ 2)%R ws))).
  { apply exact_units; [exact He2 | pose proof (stays_sum _ _ _ S2); lia|]. unfold ws. rewrite map_map. apply grid_sumR. intros c Hc. rewrite weight_value. apply square_value. apply H1. exact Hc. }
  split; [|split; [exact Hv|]].
  - apply exact_units; [exact He | pose proof (stays_sum _ _ _ S1); lia|]. apply grid_sumR. intros c Hc. rewrite weight_value. exact (proj2 (H1 c Hc)).
  - unfold weightedsum_standard_deviation. apply sqrt_exact; [exact Hv | apply sumR_squares_nonneg].
Qed.

Context (t : int_type).
Lemma mean_read l : (2 * prec + 2 * e + 2 <= emax)%Z -> mean_ok prec emax e k t l -> l <> [] ->
  let m := mean_value prec emax P E e k l in let sample := map B2R l in let n := INR (length l) in let u := unit_roundoff prec in let tiny := smallest_normal emax in
  let scale := (sumR (map (fun x => x ^ 2) sample) / n + (Rabs (sample_mean sample) + tiny) ^ 2 + 3 * tiny)%R in
  exists mean var, mean_mean ops (fun x => x) (float_of_count prec emax P E) m = Val mean /\ nearest mean (sample_mean sample)
  /\ @mean_variance_of_samples _ _ _ ops (float_signed prec emax) (fun x => x) (float_of_count prec emax P E) m = Val var
  /\ is_finite var = true /\ (0 <= B2R var)%R /\ (Rabs (B2R var - sample_variance sample) <= ((1 + u) ^ 4 - 1) * scale)%R.
Proof.
  intros Hr [H1 [H2 [H3 H4]]] Hne m sample n u tiny scale.
  pose proof (u_nonneg prec) as Hu. pose proof (tiny_nonneg emax) as Htiny. fold u in Hu. fold tiny in Htiny.
  destruct (squares_stay k max l H2) as [S1 S2]. pose proof (stays_sum _ _ _ S1) as B1. pose proof (stays_sum _ _ _ S2) as B2.
  set (s1 := in_units prec emax P E e (sumZ (map k l))). set (s2 := in_units prec emax P E (e + e) (sumZ (map (fun x => sq (k x)) l))).
  set (cf := float_of_count prec emax P E (Z.of_nat (length l))).
  assert (E1 : exactly s1 (sumR sample)) by (apply exact_units; [exact He | lia | apply grid_sumR; intros x Hx; exact (proj2 (H1 x Hx))]).
  assert (E2 : exactly s2 (sumR (map (fun x => x ^ 2)%R sample))).
  { apply exact_units; [exact He2 | lia|]. unfold sample. rewrite map_map. apply grid_sumR. intros x Hx. apply square_value. exact (H1 x Hx). }
  destruct (float_of_N_exact prec emax P E (Z.to_N (Z.of_nat (length l))) ltac:(lia)) as [K1 [K2 _]].
  assert (Rn : B2R cf = n) by (unfold cf, float_of_count; rewrite K1; unfold n; rewrite INR_IZR_INZ; f_equal; lia).
  assert (F3 : is_finite cf = true) by exact K2.
  assert (Hlen : (1 <= Z.of_nat (length l))%Z) by (destruct l; [congruence | cbn; lia]).
  assert (Hn1 : (1 <= n)%R) by (unfold n; rewrite INR_IZR_INZ; apply IZR_le; lia).
  assert (Hcf : (B2R cf <> 0)%R) by lra.
  assert (Hl : length sample = length l) by (unfold sample; apply map_length).
  destruct E1 as [F1 R1]. destruct E2 as [F2 R2]. pose proof (proj2 Hcov) as Hem. unfold grid_exponent in He, He2. destruct (proj1 Hcov) as [Hp _].
  assert (Bs1 : (Rabs (sumR sample) <= bpow radix2 (Z.max 0 (prec + e)))%R).
  { rewrite <- R1. destruct (in_units_value prec emax P E Hcov e He (sumZ (map k l)) ltac:(lia)) as [[_ V] _]. fold s1 in V. rewrite V, Rabs_mult, (Rabs_pos_eq (bpow _ _)) by apply bpow_ge_0.
    apply Rle_trans with (bpow radix2 prec * bpow radix2 e)%R; [apply Rmult_le_compat_r; [apply bpow_ge_0|]; apply int_bpow; [exact P | lia]|]. rewrite <- bpow_plus. apply bpow_le. lia. }
  assert (Bs2 : (Rabs (sumR (map (fun x => x ^ 2)%R sample)) <= bpow radix2 (Z.max 0 (2 * prec + 2 * e)))%R).
  { rewrite <- R2. destruct (in_units_value prec emax P E Hcov (e + e) He2 (sumZ (map (fun x => sq (k x)) l)) ltac:(lia)) as [[_ V] _]. fold s2 in V. rewrite V, Rabs_mult, (Rabs_pos_eq (bpow _ _)) by apply bpow_ge_0.
    apply Rle_trans with (bpow radix2 prec * bpow radix2 (e + e))%R; [apply Rmult_le_compat_r; [apply bpow_ge_0|]; apply int_bpow; [exact P | lia]|]. rewrite <- bpow_plus. apply bpow_le. lia. }
  set (mu := Bdiv mode_NE s1 cf). set (a := Bdiv mode_NE s2 cf). set (mm := Bmult mode_NE mu mu). set (d := Bminus mode_NE a mm).
  destruct (div_bounded prec emax P E (Z.max 0 (prec + e)) s1 cf) as [Fmu [Rmu Bmu]];
    [lia | exact F1 | exact Hcf | rewrite R1, Rn; apply div_ge1; [exact Hn1 | exact Bs1] |].
  destruct (div_bounded prec emax P E (Z.max 0 (2 * prec + 2 * e)) s2 cf) as [Fa [Ra Ba]];
    [lia | exact F2 | exact Hcf | rewrite R2, Rn; apply div_ge1; [exact Hn1 | exact Bs2] |].
  fold mu in Fmu, Rmu, Bmu. fold a in Fa, Ra, Ba.
  destruct (mul_bounded prec emax P E (Z.max 0 (2 * prec + 2 * e)) mu mu) as [Fm [Rm Bm]]; [lia | exact Fmu | exact Fmu | |].
  { rewrite Rabs_mult. replace (Z.max 0 (2 * prec + 2 * e)) with (Z.max 0 (prec + e) + Z.max 0 (prec + e))%Z by lia. rewrite bpow_plus.
    apply Rmult_le_compat; try apply Rabs_pos; exact Bmu. }
  fold mm in Fm, Rm, Bm.
  assert (Hd : (Rabs (B2R a - B2R mm) <= bpow radix2 (Z.max 0 (2 * prec + 2 * e) + 1))%R).
  { rewrite bpow_plus. change (bpow radix2 1) with 2%R. eapply Rle_trans; [apply Rabs_triang|]. rewrite Rabs_Ropp. lra. }
  destruct (sub_bounded prec emax P E (Z.max 0 (2 * prec + 2 * e) + 1) a mm) as [Fd [Rd Bd]]; [lia | exact Fa | exact Fm | exact Hd |]. fold d in Fd, Rd, Bd.
  assert (Hdiv : forall j x V M, is_finite (Bdiv mode_NE x cf) = true -> near u j (B2R x) V M ->
            near u (S j) (B2R (Bdiv mode_NE x cf)) (V / n) (M / n + tiny)).
  { intros j x V M Hf H. pose proof (near_Bdiv prec emax P E j 0 x cf V n M Hf F3 H ltac:(lra)) as HD.
    rewrite Nat.add_0_r in HD. apply HD; rewrite Rn; cbn; lra. }
  assert (N1 : near u 1 (B2R mu) (sample_mean sample) (Rabs (sample_mean sample) + tiny)).
  { unfold sample_mean. rewrite Hl. fold n. unfold Rdiv at 2. rewrite Rabs_mult, Rabs_inv, (Rabs_pos_eq n) by lra.
    apply Hdiv; [exact Fmu|]. rewrite R1. apply near_exact. }
  assert (N2 : near u 1 (B2R a) (sumR (map (fun x => x ^ 2)%R sample) / n) (sumR (map (fun x => x ^ 2)%R sample) / n + tiny)).
  { apply Hdiv; [exact Fa|]. rewrite R2. rewrite <- (Rabs_pos_eq (sumR _)) at 3 by apply sumR_squares_nonneg. apply near_exact. }
  pose proof (near_Bmult prec emax P E _ _ mu mu _ _ _ _ Fm N1 N1) as N3.
  pose proof (near_Bminus prec emax P E _ _ a mm _ _ _ _ Fd N2 N3) as N4. fold d u tiny in N4.
  assert (Hnes : sample <> []) by (unfold sample; destruct l; [congruence | discriminate]).
  pose proof (sample_variance_alt sample Hnes) as Hv. rewrite Hl in Hv. fold n in Hv.
  replace (sumR (map (fun x => x ^ 2) sample) / n - sample_mean sample * sample_mean sample)%R with (sample_variance sample) in N4
    by (rewrite <- Hv; ring).
  assert (N5 : near u 4 (B2R d) (sample_variance sample) scale).
  { apply (near_mono u Hu _ 4 _ scale) in N4; [exact N4 | cbn; lia |]. unfold scale. lra. }
  pose proof (sample_variance_nonneg sample Hnes) as Hvp.
  assert (N6 : near u 4 (B2R (Babs d)) (sample_variance sample) scale).
  { destruct N5 as [Q1 Q2]. split; [|exact Q2]. rewrite B2R_Babs. rewrite <- (Rabs_pos_eq (sample_variance sample) Hvp) at 1.
    eapply Rle_trans; [apply Rabs_triang_inv2 | exact Q1]. }
  exists mu, (Babs d). split; [reflexivity|]. split; [split; [exact Fmu | rewrite Rmu, R1, Rn; unfold sample_mean; rewrite Hl; reflexivity]|].
  split; [reflexivity|]. split; [rewrite is_finite_Babs; exact Fd|]. split; [rewrite B2R_Babs; apply Rabs_pos | exact (proj1 N6)].
Qed.

Context (g : Z) (Hg : grid_exponent prec emax g) (Hg2 : grid_exponent prec emax (g + g)) (Heg : grid_exponent prec emax (e + g)) (Heeg : grid_exponent prec emax (e + e + g)) (q : flt -> Z).
Lemma wmean_read l : wmean_ok prec emax e k t g q l -> let sample := map (fun x => (B2R (fst x), B2R (snd x))) l in total_weight sample <> 0%R ->
  exists mean, weightedmean_mean ops (fun x => x) (wmean_value prec emax P E e k g q l) = Val mean /\ nearest mean (weighted_mean sample).
Proof.
  intros Hok sample Hw. destruct (wmean_facts prec emax P E Hcov e He2 k t g Hg2 Heg Heeg q l Hok) as [G1 [_ [_ [S1 [_ [S3 _]]]]]]. destruct Hok as [H1 _].
  pose proof (stays_sum _ _ _ S1) as B1. pose proof (stays_sum _ _ _ S3) as B3.
  set (s1 := in_units prec emax P E (e + g) (sumZ (map (fun x => k (fst x) * q (snd x))%Z l))). set (s3 := in_units prec emax P E g (sumZ (map (fun x => q (snd x)) l))).
  destruct (in_units_value prec emax P E Hcov (e + g) Heg (sumZ (map (fun x => k (fst x) * q (snd x))%Z l)) ltac:(lia)) as [[F1 V1] _]. fold s1 in F1, V1.
  destruct (in_units_value prec emax P E Hcov g Hg (sumZ (map (fun x => q (snd x)) l)) ltac:(lia)) as [[F3 V3] _]. fold s3 in F3, V3.
  assert (R1 : sumR (map (fun p => snd p * fst p)%R sample) = B2R s1).
  { rewrite V1. unfold sample. rewrite map_map. cbn [fst snd]. apply grid_sumR. intros x Hx. destruct (H1 x Hx) as [[_ E1] [[_ E2] _]]. rewrite E1, E2, bpow_plus, mult_IZR. ring. }
  assert (R3 : total_weight sample = B2R s3).
  { rewrite V3. unfold total_weight, sample. rewrite map_map. cbn [fst snd]. apply grid_sumR. intros x Hx. exact (proj2 (proj1 (proj2 (H1 x Hx)))). }
  exists (Bdiv mode_NE s1 s3). split; [reflexivity|]. rewrite R3 in Hw. unfold weighted_mean. rewrite R1, R3.
  pose proof (proj2 Hcov) as Hem. unfold grid_exponent in He.
  destruct (div_bounded prec emax P E (Z.max 0 (prec + e)) s1 s3) as [F [R _]]; [lia | exact F1 | exact Hw | | split; [exact F | exact R]].
  assert (Hq : (1 <= Rabs (IZR (sumZ (map (fun x : flt * flt => q (snd x)) l))))%R).
  { rewrite <- abs_IZR. apply IZR_le. assert (sumZ (map (fun x : flt * flt => q (snd x)) l) <> 0)%Z; [|lia]. intros Ez. apply Hw. rewrite V3, Ez. ring. }
  rewrite V1, V3, bpow_plus. set (N1 := IZR (sumZ (map (fun x : flt * flt => (k (fst x) * q (snd x))%Z) l))) in *. set (D := IZR (sumZ (map (fun x : flt * flt => q (snd x)) l))) in *. pose proof (bpow_gt_0 radix2 g) as Hbg. pose proof (bpow_gt_0 radix2 e) as Hbe.
  assert (HD : (D <> 0)%R) by (intros Ez; rewrite Ez, Rabs_R0 in Hq; lra).
  replace (N1 * (bpow radix2 e * bpow radix2 g) / (D * bpow radix2 g))%R with (N1 * bpow radix2 e / D)%R by (field; split; lra).
  unfold Rdiv. rewrite Rabs_mult, Rabs_inv, Rabs_mult, (Rabs_pos_eq (bpow radix2 e)) by lra.
  assert (HN : (Rabs N1 <= bpow radix2 prec)%R) by (apply int_bpow; [exact P | lia]).
  apply Rle_trans with (bpow radix2 prec * bpow radix2 e * 1)%R.
  - apply Rmult_le_compat.
    + apply Rmult_le_pos; [apply Rabs_pos | lra].
    + apply Rlt_le, Rinv_0_lt_compat. lra.
    + apply Rmult_le_compat_r; lra.
    + rewrite <- Rinv_1. apply Rinv_le; lra.
  - rewrite Rmult_1_r, <- bpow_plus. apply bpow_le. lia.
Qed.
End Read.

(** ** C95 *)

(** Histograms of [WeightedSum]: if every weight is a whole multiple of [2^e] and the sum of the squares of the multiples is at
    most [2^prec], then each bin's sum and variance are exact, its standard deviation is the nearest float to the
    exact one, and the order of the calls does not change a bit. *)
Theorem C95_weighted_sums : forall (prec emax : Z) (P : Prec_gt_0 prec) (E : Prec_lt_emax prec emax) (B : Build) A (AX : Axis A)
  (FW : FillWithWeighted (WeightedSum (binary_float prec emax)) (binary_float prec emax) Empty_set) (a : A) (n : N) (e : Z) (units : binary_float prec emax -> Z)
  (xs : list (Coordinate * weight_call (binary_float prec emax))),
  let flt := binary_float prec emax in let ops := float_ops prec emax P E in
  let FV := {| fill_v := weightedsum_fill ops |} in let FD := {| fill_with_v := weightedsum_fill_with ops |} in let DV := {| default_v := weightedsum_new ops |} in
  let calls (xs : list (Coordinate * weight_call flt)) : list (fill_op flt Empty_set) := map (fun x => match snd x with Unit => CallFill (fst x) | Weight w => CallFillWith (fst x) w end) xs in
  let weight (c : weight_call flt) : flt := match c with Unit => Bone | Weight w => w end in
  covered_format prec emax -> grid_exponent prec emax e -> grid_exponent prec emax (e + e) ->
  (forall x, In x xs -> grid_value e (weight (snd x)) (units (weight (snd x)))) ->
  (sumZ (map (fun x => units (weight (snd x)) * units (weight (snd x))) xs) <= 2 ^ prec)%Z ->
  num_bins a = Val n -> (forall x, In x xs -> exists r, index a (fst x) = Val r) ->
  let holds (s : WeightedSum flt) (data : list (weight_call flt)) :=
    let ws := map (weight_of B2R) data in let squares := sumR (map (fun w => w ^ 2)%R ws) in
    exactly (weightedsum_get s) (sumR ws) /\ exactly (weightedsum_variance s) squares
    /\ nearest (@weightedsum_standard_deviation _ _ (float_sqrt prec emax P E) (fun x => x) s) (R_sqrt.sqrt squares) in
  (exists h, dense_filled a (calls xs) = Val h /\ vh_axes h = a /\ length (vec_values h) = N.to_nat n
     /\ forall i, i < n -> exists s, vec_value_at_index h i = Some s /\ holds s (data_in a i xs))
  /\ (exists h, sparse_filled a (calls xs) = Val h /\ hh_axes h = a
     /\ forall i, match hash_value_at_index h i with Some s => data_in a i xs <> [] /\ holds s (data_in a i xs) | None => data_in a i xs = [] end)
  /\ forall ys, Permutation xs ys -> dense_filled a (calls ys) = dense_filled a (calls xs) /\ sparse_filled a (calls ys) = sparse_filled a (calls xs).
Proof.
  intros prec emax P E B A AX FW a n e k xs flt ops FV FD DV calls weight Hcov He He2 Hgr Hsq Hn Hix holds.
  assert (Hok : wsum_ok prec emax P E e k (map snd xs)).
  { split; [intros c Hc; apply in_map_iff in Hc as [x [<- Hx]]; exact (Hgr x Hx)|]. rewrite map_map. exact Hsq. }
  assert (Hmk : forall x, op_coordinate (weight_op prec emax x) = fst x) by (intros [c [|w]]; reflexivity).
  pose proof (stats_dense FV FD FW DV (weight_op prec emax) Hmk (wsum_value prec emax P E e k) (wsum_ok prec emax P E e k)
    (wsum_data prec emax P E Hcov e He He2 k FW) (wsum_filter prec emax P E e k) a n xs Hn Hix Hok) as (h & D1 & D2 & D3 & D4).
  pose proof (stats_sparse FV FD FW DV (weight_op prec emax) Hmk (wsum_value prec emax P E e k) (wsum_ok prec emax P E e k)
    (wsum_data prec emax P E Hcov e He He2 k FW) (wsum_filter prec emax P E e k) a xs Hix Hok) as (s & S1 & S2 & S3).
  assert (Hr : forall i, holds (wsum_value prec emax P E e k (data_in a i xs)) (data_in a i xs)).
  { intros i. apply (wsum_read prec emax P E Hcov e He He2 k). apply (ok_data (wsum_ok prec emax P E e k) (wsum_filter prec emax P E e k)). exact Hok. }
  split; [|split].
  - exists h. split; [exact D1|]. split; [exact D2|]. split; [exact D3|]. intros i Hi. eexists. split; [exact (D4 i Hi) | apply Hr].
  - exists s. split; [exact S1|]. split; [exact S2|]. intros i. rewrite S3. specialize (Hr i). unfold flt in *. destruct (data_in a i xs) as [|x l]; [reflexivity|]. split; [discriminate | exact Hr].
  - intros ys Hp. exact (stats_order FV FD FW DV (weight_op prec emax) Hmk (wsum_value prec emax P E e k) (wsum_ok prec emax P E e k)
      (wsum_data prec emax P E Hcov e He He2 k FW) (wsum_filter prec emax P E e k) (wsum_perm prec emax P E e k) (wsum_ok_perm prec emax P E e k) a n xs ys Hn Hix Hok Hp).
Qed.
Print Assumptions C95_weighted_sums.

(** Histograms of [Mean]: each bin's mean is the float nearest to the exact mean of its samples, its variance is accurate to four
    roundings whatever the number of samples, and the order of the calls does not change a bit. *)
Theorem C95_means : forall (prec emax : Z) (P : Prec_gt_0 prec) (E : Prec_lt_emax prec emax) (B : Build) (t : int_type) A (AX : Axis A)
  (FV : Fill (Mean (binary_float prec emax) Z)) (FW : FillWithWeighted (Mean (binary_float prec emax) Z) (binary_float prec emax) Empty_set) (a : A) (n : N) (e : Z) (units : binary_float prec emax -> Z)
  (xs : list (Coordinate * binary_float prec emax)),
  let flt := binary_float prec emax in let ops := float_ops prec emax P E in
  let FD := {| fill_with_v := mean_fill_with ops (int_ops t) |} in let DV := {| default_v := mean_default ops (int_ops t) |} in
  let calls (xs : list (Coordinate * flt)) : list (fill_op flt Empty_set) := map (fun x => CallFillWith (fst x) (snd x)) xs in
  covered_format prec emax -> primitive_int t -> grid_exponent prec emax e -> grid_exponent prec emax (e + e) -> (2 * prec + 2 * e + 2 <= emax)%Z ->
  (forall x, In x xs -> grid_value e (snd x) (units (snd x))) -> (sumZ (map (fun x => units (snd x) * units (snd x)) xs) <= 2 ^ prec)%Z ->
  (Z.of_nat (length xs) <= int_max t)%Z -> (Z.of_nat (length xs) <= 2 ^ prec)%Z ->
  num_bins a = Val n -> (forall x, In x xs -> exists r, index a (fst x) = Val r) ->
  let holds (m : Mean flt Z) (data : list flt) :=
    mean_num_samples m = Z.of_nat (length data)
    /\ (data <> [] ->
        let sample := map B2R data in let u := unit_roundoff prec in let tiny := smallest_normal emax in
        let scale := (sumR (map (fun x => x ^ 2) sample) / INR (length data) + (Rabs (sample_mean sample) + tiny) ^ 2 + 3 * tiny)%R in
        exists mean var, mean_mean ops (fun x => x) (float_of_count prec emax P E) m = Val mean /\ nearest mean (sample_mean sample)
        /\ @mean_variance_of_samples _ _ _ ops (float_signed prec emax) (fun x => x) (float_of_count prec emax P E) m = Val var
        /\ is_finite var = true /\ (0 <= B2R var)%R /\ (Rabs (B2R var - sample_variance sample) <= ((1 + u) ^ 4 - 1) * scale)%R) in
  (exists h, dense_filled a (calls xs) = Val h /\ vh_axes h = a /\ length (vec_values h) = N.to_nat n
     /\ forall i, i < n -> exists m, vec_value_at_index h i = Some m /\ holds m (data_in a i xs))
  /\ (exists h, sparse_filled a (calls xs) = Val h /\ hh_axes h = a
     /\ forall i, match hash_value_at_index h i with Some m => data_in a i xs <> [] /\ holds m (data_in a i xs) | None => data_in a i xs = [] end)
  /\ forall ys, Permutation xs ys -> dense_filled a (calls ys) = dense_filled a (calls xs) /\ sparse_filled a (calls ys) = sparse_filled a (calls xs).
Proof.
  intros prec emax P E B t A AX FV FW a n e k xs flt ops FD DV calls Hcov Ht He He2 Hr2 Hgr Hsq Hl1 Hl2 Hn Hix holds.
  assert (Hok : mean_ok prec emax e k t (map snd xs)).
  { split; [intros c Hc; apply in_map_iff in Hc as [x [<- Hx]]; exact (Hgr x Hx)|]. rewrite map_map, map_length. split; [exact Hsq | split; assumption]. }
  set (mk := fun x : Coordinate * flt => CallFillWith (fst x) (snd x) : fill_op flt Empty_set). assert (Hmk : forall x, op_coordinate (mk x) = fst x) by reflexivity.
  pose proof (stats_dense FV FD FW DV mk Hmk (mean_value prec emax P E e k) (mean_ok prec emax e k t)
    (mean_stats prec emax P E Hcov e He He2 k t Ht FV FW) (mean_filter prec emax e k t) a n xs Hn Hix Hok) as (h & D1 & D2 & D3 & D4).
  pose proof (stats_sparse FV FD FW DV mk Hmk (mean_value prec emax P E e k) (mean_ok prec emax e k t)
    (mean_stats prec emax P E Hcov e He He2 k t Ht FV FW) (mean_filter prec emax e k t) a xs Hix Hok) as (s & S1 & S2 & S3).
  assert (Hr : forall i, holds (mean_value prec emax P E e k (data_in a i xs)) (data_in a i xs)).
  { intros i. split; [reflexivity|]. intros Hne. apply (mean_read prec emax P E Hcov e He He2 k t); [exact Hr2 | | exact Hne].
    apply (ok_data (mean_ok prec emax e k t) (mean_filter prec emax e k t)). exact Hok. }
  split; [|split].
  - exists h. split; [exact D1|]. split; [exact D2|]. split; [exact D3|]. intros i Hi. eexists. split; [exact (D4 i Hi) | apply Hr].
  - exists s. split; [exact S1|]. split; [exact S2|]. intros i. rewrite S3. specialize (Hr i). unfold flt in *. destruct (data_in a i xs) as [|x l]; [reflexivity|]. split; [discriminate | exact Hr].
  - intros ys Hp. exact (stats_order FV FD FW DV mk Hmk (mean_value prec emax P E e k) (mean_ok prec emax e k t)
      (mean_stats prec emax P E Hcov e He He2 k t Ht FV FW) (mean_filter prec emax e k t) (mean_perm prec emax P E e k t) (mean_ok_perm prec emax e k t) a n xs ys Hn Hix Hok Hp).
Qed.
Print Assumptions C95_means.

(** Histograms of [WeightedMean], samples on the grid of [2^e] and weights on the grid of [2^g]: each bin's mean is the float nearest
    to the exact weighted mean whenever the weights do not add up to zero; weights may be negative. *)
Theorem C95_weighted_means : forall (prec emax : Z) (P : Prec_gt_0 prec) (E : Prec_lt_emax prec emax) (B : Build) (t : int_type) A (AX : Axis A)
  (FV : Fill (WeightedMean (binary_float prec emax) (binary_float prec emax) Z)) (FD : FillWith (WeightedMean (binary_float prec emax) (binary_float prec emax) Z) (binary_float prec emax))
  (a : A) (n : N) (e g : Z) (units weight_units : binary_float prec emax -> Z) (xs : list (Coordinate * (binary_float prec emax * binary_float prec emax))),
  let flt := binary_float prec emax in let ops := float_ops prec emax P E in
  let FW := {| fill_with_weighted_v := weightedmean_fill ops (int_ops t) |} in let DV := {| default_v := weightedmean_default ops (int_ops t) |} in
  let calls (xs : list (Coordinate * (flt * flt))) : list (fill_op flt flt) := map (fun x => CallFillWithWeighted (fst x) (fst (snd x)) (snd (snd x))) xs in
  covered_format prec emax -> primitive_int t ->
  grid_exponent prec emax e -> grid_exponent prec emax (e + e) -> grid_exponent prec emax g -> grid_exponent prec emax (g + g) -> grid_exponent prec emax (e + g) -> grid_exponent prec emax (e + e + g) ->
  (forall x, In x xs -> let k := units (fst (snd x)) in let q := weight_units (snd (snd x)) in grid_value e (fst (snd x)) k /\ grid_value g (snd (snd x)) q /\ (k * k <= 2 ^ prec)%Z) ->
  (sumZ (map (fun x => let k := units (fst (snd x)) in let q := weight_units (snd (snd x)) in k * k * Z.abs q) xs) <= 2 ^ prec)%Z ->
  (sumZ (map (fun x => let q := weight_units (snd (snd x)) in q * q) xs) <= 2 ^ prec)%Z ->
  (Z.of_nat (length xs) <= int_max t)%Z ->
  num_bins a = Val n -> (forall x, In x xs -> exists r, index a (fst x) = Val r) ->
  let holds (m : WeightedMean flt flt Z) (data : list (flt * flt)) :=
    weightedmean_num_samples m = Z.of_nat (length data)
    /\ (let sample := map (fun x => (B2R (fst x), B2R (snd x))) data in total_weight sample <> 0%R ->
        exists mean, weightedmean_mean ops (fun x => x) m = Val mean /\ nearest mean (weighted_mean sample)) in
  (exists h, dense_filled a (calls xs) = Val h /\ vh_axes h = a /\ length (vec_values h) = N.to_nat n
     /\ forall i, i < n -> exists m, vec_value_at_index h i = Some m /\ holds m (data_in a i xs))
  /\ (exists h, sparse_filled a (calls xs) = Val h /\ hh_axes h = a
     /\ forall i, match hash_value_at_index h i with Some m => data_in a i xs <> [] /\ holds m (data_in a i xs) | None => data_in a i xs = [] end)
  /\ forall ys, Permutation xs ys -> dense_filled a (calls ys) = dense_filled a (calls xs) /\ sparse_filled a (calls ys) = sparse_filled a (calls xs).
Proof.
  intros prec emax P E B t A AX FV FD a n e g k q xs flt ops FW DV calls Hcov Ht He He2 Hg Hg2 Heg Heeg Hgr Hs1 Hs2 Hl1 Hn Hix holds.
  assert (Hok : wmean_ok prec emax e k t g q (map snd xs)).
  { split; [intros c Hc; apply in_map_iff in Hc as [x [<- Hx]]; exact (Hgr x Hx)|]. rewrite !map_map, map_length. split; [exact Hs1 | split; [exact Hs2 | exact Hl1]]. }
  set (mk := fun x : Coordinate * (flt * flt) => CallFillWithWeighted (fst x) (fst (snd x)) (snd (snd x)) : fill_op flt flt). assert (Hmk : forall x, op_coordinate (mk x) = fst x) by reflexivity.
  pose proof (stats_dense FV FD FW DV mk Hmk (wmean_value prec emax P E e k g q) (wmean_ok prec emax e k t g q)
    (wmean_stats prec emax P E Hcov e He2 k t Ht g Hg Hg2 Heg Heeg q FV FD) (wmean_filter prec emax e k t g q) a n xs Hn Hix Hok) as (h & D1 & D2 & D3 & D4).
  pose proof (stats_sparse FV FD FW DV mk Hmk (wmean_value prec emax P E e k g q) (wmean_ok prec emax e k t g q)
    (wmean_stats prec emax P E Hcov e He2 k t Ht g Hg Hg2 Heg Heeg q FV FD) (wmean_filter prec emax e k t g q) a xs Hix Hok) as (s & S1 & S2 & S3).
  assert (Hr : forall i, holds (wmean_value prec emax P E e k g q (data_in a i xs)) (data_in a i xs)).
  { intros i. split; [reflexivity|]. intros sample Hw. refine (wmean_read prec emax P E Hcov e He He2 k t g Hg Hg2 Heg Heeg q (data_in a i xs) _ Hw).
    apply (ok_data (wmean_ok prec emax e k t g q) (wmean_filter prec emax e k t g q)). exact Hok. }
  split; [|split].
  - exists h. split; [exact D1|]. split; [exact D2|]. split; [exact D3|]. intros i Hi. eexists. split; [exact (D4 i Hi) | apply Hr].
  - exists s. split; [exact S1|]. split; [exact S2|]. intros i. rewrite S3. specialize (Hr i). unfold flt in *. destruct (data_in a i xs) as [|x l]; [reflexivity|]. split; [discriminate | exact Hr].
  - intros ys Hp. exact (stats_order FV FD FW DV mk Hmk (wmean_value prec emax P E e k g q) (wmean_ok prec emax e k t g q)
      (wmean_stats prec emax P E Hcov e He2 k t Ht g Hg Hg2 Heg Heeg q FV FD) (wmean_filter prec emax e k t g q) (wmean_perm prec emax P E e k t g q) (wmean_ok_perm prec emax e k t g q) a n xs ys Hn Hix Hok Hp).
Qed.
Print Assumptions C95_weighted_means.

(** Case: categories 5 and 7 in [f64]; the weights 0.5, 3.0 and, by a plain [fill], 1.0 on the grid of halves; the samples 0.5 and
    3.0 with the weights 2.0 and -1.0 on the grid of integers. The second bin stays empty. *)
Definition ex95_units (e : Z) (x : f64) : Z := match x with B754_finite s m ex _ => SpecFloat.cond_Zopp s (Z.shiftl (Z.pos m) (ex - e)) | _ => 0%Z end.
Example C95_nonvacuous : forall B : Build,
  let AX := @category_axis B Z _ in let a := category_new [5; 7]%Z in let weight (c : weight_call f64) : f64 := match c with Unit => Bone | Weight w => w end in
  let half := f64_lit 1 (-1) in let three := f64_lit 6 (-1) in let two := f64_lit 2 0 in let minus_one := f64_lit (-1) 0 in
  let ws : list (@Coordinate _ AX * weight_call f64) := [(5%Z, Weight half); (5%Z, Weight three); (9%Z, Unit)] in
  let xs : list (@Coordinate _ AX * f64) := [(5%Z, half); (5%Z, three)] in
  let xws : list (@Coordinate _ AX * (f64 * f64)) := [(5%Z, (half, two)); (5%Z, (three, minus_one))] in
  let k := ex95_units (-1) in let q := ex95_units 0 in
  covered_format 53 1024 /\ primitive_int (unsigned 32) /\ Forall (grid_exponent 53 1024) [-1; -1 + -1; 0; 0 + 0; -1 + 0; -1 + -1 + 0]%Z /\ (2 * 53 + 2 * -1 + 2 <= 1024)%Z
  /\ num_bins a = Val 3 /\ (forall x, In x ws -> exists r, index a (fst x) = Val r)
  /\ (forall x, In x ws -> grid_value (-1) (weight (snd x)) (k (weight (snd x)))) /\ sumZ (map (fun x => k (weight (snd x)) * k (weight (snd x)))%Z ws) = 41%Z
  /\ (forall x, In x xs -> grid_value (-1) (snd x) (k (snd x))) /\ sumZ (map (fun x => k (snd x) * k (snd x))%Z xs) = 37%Z
  /\ (forall x, In x xws -> grid_value (-1) (fst (snd x)) (k (fst (snd x))) /\ grid_value 0 (snd (snd x)) (q (snd (snd x))) /\ (k (fst (snd x)) * k (fst (snd x)) <= 2 ^ 53)%Z)
  /\ sumZ (map (fun x => k (fst (snd x)) * k (fst (snd x)) * Z.abs (q (snd (snd x))))%Z xws) = 38%Z /\ sumZ (map (fun x => q (snd (snd x)) * q (snd (snd x)))%Z xws) = 5%Z
  /\ data_in a 0 ws = [Weight half; Weight three] /\ data_in a 1 ws = [] /\ data_in a 2 ws = [Unit] /\ data_in a 0 xws = [(half, two); (three, minus_one)].
Proof.
  intros B AX a weight half three two minus_one ws xs xws k q.
  assert (He : grid_exponent 53 1024 (-1)) by (split; lia). assert (H0 : grid_exponent 53 1024 0) by (split; lia).
  assert (K1 : k half = 1%Z) by (vm_compute; reflexivity). assert (K3 : k three = 6%Z) by (vm_compute; reflexivity). assert (KB : k Bone = 2%Z) by (vm_compute; reflexivity).
  assert (Q2 : q two = 2%Z) by (vm_compute; reflexivity). assert (Qm : q minus_one = (-1)%Z) by (vm_compute; reflexivity).
  assert (G1 : grid_value (-1) half (k half)) by (rewrite K1; exact (f64_grid 1 (-1) ltac:(lia) He)). assert (G3 : grid_value (-1) three (k three)) by (rewrite K3; exact (f64_grid 6 (-1) ltac:(lia) He)).
  assert (GB : grid_value (-1) (Bone : f64) (k Bone)).
  { rewrite KB. split; [apply is_finite_Bone|]. refine (eq_trans (Bone_correct 53 1024 prec64 emax64) _). change (bpow radix2 (-1)) with (/ 2)%R. lra. }
  assert (G2 : grid_value 0 two (q two)) by (rewrite Q2; exact (f64_grid 2 0 ltac:(lia) H0)). assert (Gm : grid_value 0 minus_one (q minus_one)) by (rewrite Qm; exact (f64_grid (-1) 0 ltac:(lia) H0)).
  split; [exact f64_covered|]. split; [exists 32%Z; split; [lia | right; reflexivity]|].
  split; [repeat (apply List.Forall_cons; [split; lia|]); apply List.Forall_nil|]. split; [lia|]. split; [destruct B as [[] []]; reflexivity|].
  split; [intros x [<-|[<-|[<-|[]]]]; cbn [fst]; eexists; destruct B as [[] []]; reflexivity|].
  split; [intros x [<-|[<-|[<-|[]]]]; assumption|].
  split; [cbn [ws map snd weight]; rewrite K1, K3, KB; reflexivity|].
  split; [intros x [<-|[<-|[]]]; assumption|].
  split; [cbn [xs map snd]; rewrite K1, K3; reflexivity|].
  split; [intros x [<-|[<-|[]]]; cbn [fst snd]; (split; [assumption|]; split; [assumption|]); rewrite ?K1, ?K3; lia|].
  split; [cbn [xws map fst snd]; rewrite K1, K3, Q2, Qm; reflexivity|]. split; [cbn [xws map fst snd]; rewrite Q2, Qm; reflexivity|].
  clear K1 K3 KB Q2 Qm G1 G3 GB G2 Gm He H0. clearbody half three two minus_one.
  repeat split; destruct B as [[] []]; reflexivity.
Qed.
