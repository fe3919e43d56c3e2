(** * PropExactWeights: float bins add up weights on a grid exactly (C94). *)
From Coq Require Import List ZArith NArith Bool Lia ZifyN ZifyNat ZifyBool Reals Lra Permutation.
From Flocq Require Import Core IEEE754.BinarySingleNaN Plus_error.
From stdpp Require Import gmap.
From Verif Require Import Base BaseFacts Num Float FloatFacts FloatSpec GridSpec FloatGrid Axis Spec IntFacts AxesSpec Category Value VecHist HashHist HistSpec
  HistFacts HashFacts OpsFacts PropHist PropHistIter PropOrder PropCount PropMerge PropPar PropIntBins ExactSpec PropProject SimSpec PropRelabel PropRebin PropRebinAxes PropFloatGrid PropRefill PropProfile Uniform.
Import ListNotations.
Open Scope N_scope.

(** The float that is [n] times [2^e] (zero: the positive zero). *)
Definition in_units (prec emax : Z) (P : Prec_gt_0 prec) (E : Prec_lt_emax prec emax) (e n : Z) : binary_float prec emax :=
  binary_normalize prec emax P E mode_NE n e false.

(** What a call adds to its bin. *)
Definition float_amount {prec emax : Z} {P : Prec_gt_0 prec} {E : Prec_lt_emax prec emax} {A} {AX : Axis A} (o : fill_op (binary_float prec emax) Empty_set) : binary_float prec emax :=
  match o with CallFill _ => Bone | CallFillWith _ d => d | CallFillWithWeighted _ _ w => match w with end end.

(** Calls, each with its amount in units of [2^e]. *)
Definition calls_on_grid {prec emax : Z} {P : Prec_gt_0 prec} {E : Prec_lt_emax prec emax} {A} {AX : Axis A} (e : Z) (calls : list (fill_op (binary_float prec emax) Empty_set * Z)) : Prop :=
  Forall (fun p => grid_value e (float_amount (fst p)) (snd p)) calls.

(** Whatever some of these amounts, in any order, add up to: it lies between [lo] and [hi]. *)
Definition stays_within (lo hi : Z) (ks : list Z) : Prop :=
  (lo <= sumZ (map (Z.min 0) ks))%Z /\ (sumZ (map (Z.max 0) ks) <= hi)%Z.

(** The units that reach bin [i]; and the same call on a histogram of integers. *)
Definition units_in {A X W} {AX : Axis A} (a : A) (i : N) (calls : list (fill_op X W * Z)) : Z :=
  sumZ (map snd (List.filter (fun p => lands_in a i (fst p)) calls)).
Definition as_integer {A X W} {AX : Axis A} (p : fill_op X W * Z) : fill_op Z Empty_set := CallFillWith (op_coordinate (fst p)) (snd p).

Section Known.
Context {A V D W : Type} {AX : Axis A} (FV : Fill V) (FD : FillWith V D) (FW : FillWithWeighted V D W) (DV : Default V).
Context (a : A) (ops : list (fill_op D W)) (F : N -> V).
Context (Hix : forall o, In o ops -> exists r, index a (op_coordinate o) = Val r) (HF : forall i, apply_all (V := V) (reaching a i ops) default_v = Val (F i)).

Lemma known_dense n : num_bins a = Val n ->
  exists h, dense_filled a ops = Val h /\ vh_axes h = a /\ vec_values h = map (fun k => F (N.of_nat k)) (seq 0 (N.to_nat n)).
Proof.
  intros Hn. unfold dense_filled.
  assert (H0 : exists h0, vec_new (V := V) a = Val h0) by (unfold vec_new; rewrite Hn; eexists; reflexivity).
  destruct H0 as [h0 H0]. rewrite H0. cbn [obind].
  assert (Hr : exists h, vec_calls h0 ops = Val h) by (apply (C28_vec_history_returns_iff _ _ _ _ _ _ _ _ _ _ _ _ _ Hn H0); split; [exact Hix | intros i _; eexists; apply HF]).
  destruct Hr as [h Hh]. exists h. split; [exact Hh|].
  destruct (C28_vec_contents_are_tally _ _ _ _ _ _ _ _ _ _ _ _ _ _ Hn H0 Hh) as [Ha [Hv [Hx _]]].
  split; [exact Ha|]. apply nth_error_ext_all. intros k. destruct (Nat.lt_ge_cases k (N.to_nat n)) as [Hk|Hk].
  - destruct (Hv (N.of_nat k) ltac:(lia)) as [v [E1 E2]]. rewrite HF in E2. injection E2 as <-. unfold vec_value_at_index in E1. rewrite Nat2N.id in E1.
    unfold vec_values. rewrite E1. symmetry. rewrite nth_error_map, (nth_error_nth' _ 0%nat), seq_nth by (rewrite ?seq_length; exact Hk). reflexivity.
  - specialize (Hx (N.of_nat k) ltac:(lia)). unfold vec_value_at_index in Hx. rewrite Nat2N.id in Hx. unfold vec_values. rewrite Hx. symmetry.
    apply nth_error_None. rewrite map_length, seq_length. exact Hk.
Qed.

Lemma known_sparse :
  exists h, sparse_filled a ops = Val h /\ hh_axes h = a /\ forall i, hash_value_at_index h i = match reaching a i ops with [] => None | _ => Some (F i) end.
Proof.
  unfold sparse_filled.
  assert (Hr : exists h, hash_calls (V := V) (hash_new a) ops = Val h) by (apply C29_hash_history_returns_iff; split; [exact Hix | intros i; eexists; apply HF]).
  destruct Hr as [h Hh]. exists h. split; [exact Hh|].
  destruct (C29_hash_contents_are_tally _ _ _ _ _ _ _ _ _ _ _ _ Hh) as [Ha [Hv0 [Hv1 _]]].
  split; [exact Ha|]. intros i. specialize (Hv0 i). specialize (Hv1 i). rewrite HF in Hv1. destruct (reaching a i ops) as [|o l]; [now apply Hv0|].
  destruct Hv1 as [v [E1 E2]]; [discriminate|]. injection E2 as <-. exact E1.
Qed.
End Known.

(** ** Totals *)
Lemma sumZ_cons k l : sumZ (k :: l) = (k + sumZ l)%Z. Proof. reflexivity. Qed.
Lemma sumZ_concat l l' : sumZ (l ++ l') = (sumZ l + sumZ l')%Z.
Proof. induction l as [|k l IH]; [reflexivity|]. rewrite <- app_comm_cons, !sumZ_cons. lia. Qed.

Lemma parts k : (Z.min 0 k <= 0 <= Z.max 0 k /\ Z.min 0 k <= k <= Z.max 0 k)%Z. Proof. lia. Qed.

Lemma filter_bounds {X} (f : X -> Z) (p : X -> bool) l :
  (sumZ (map (Z.min 0) (map f l)) <= sumZ (map (Z.min 0) (map f (List.filter p l))))%Z /\ (sumZ (map (Z.max 0) (map f (List.filter p l))) <= sumZ (map (Z.max 0) (map f l)))%Z.
Proof. induction l as [|x l IH]; cbn [map List.filter]; [cbn; lia|]. pose proof (Z.le_min_l 0 (f x)). pose proof (Z.le_max_l 0 (f x)). destruct (p x); cbn [map]; rewrite ?sumZ_cons; lia. Qed.

Lemma stays_filter {X} lo hi (f : X -> Z) (p : X -> bool) l : stays_within lo hi (map f l) -> stays_within lo hi (map f (List.filter p l)).
Proof. unfold stays_within. pose proof (filter_bounds f p l). lia. Qed.

Lemma stays_sum lo hi l : stays_within lo hi l -> (lo <= sumZ l <= hi)%Z.
Proof.
  unfold stays_within. intros [H1 H2].
  enough (sumZ (map (Z.min 0) l) <= sumZ l <= sumZ (map (Z.max 0) l))%Z by lia. clear. induction l as [|k l IH]; [cbn; lia|]. cbn [map]. rewrite !sumZ_cons. pose proof (parts k). lia.
Qed.

Lemma stays_perm lo hi l l' : Permutation l l' -> stays_within lo hi l -> stays_within lo hi l'.
Proof. unfold stays_within. intros H [H1 H2]. rewrite <- (sumZ_perm _ _ (Permutation_map (Z.min 0) H)), <- (sumZ_perm _ _ (Permutation_map (Z.max 0) H)). auto. Qed.

Lemma stays_app lo hi l l' : stays_within lo hi (l ++ l') -> stays_within lo hi l /\ stays_within lo hi l'.
Proof.
  unfold stays_within. rewrite !map_app, !sumZ_concat.
  assert (H : forall l, (sumZ (map (Z.min 0) l) <= 0 <= sumZ (map (Z.max 0) l))%Z) by (clear; intros l; induction l as [|k l IH]; [cbn; lia|]; cbn [map]; rewrite !sumZ_cons; pose proof (parts k); lia).
  pose proof (H l). pose proof (H l'). lia.
Qed.

Lemma reaching_fst {A X W} {AX : Axis A} (a : A) i (calls : list (fill_op X W * Z)) :
  reaching a i (map fst calls) = map fst (List.filter (fun p => lands_in a i (fst p)) calls).
Proof. unfold reaching. induction calls as [|p l IH]; [reflexivity|]. cbn [map List.filter]. destruct (lands_in a i (fst p)); cbn [map]; now rewrite IH. Qed.

Lemma reaching_integer {A X W} {AX : Axis A} (a : A) i (calls : list (fill_op X W * Z)) :
  reaching a i (map as_integer calls) = map as_integer (List.filter (fun p => lands_in a i (fst p)) calls).
Proof.
  unfold reaching. induction calls as [|p l IH]; [reflexivity|]. cbn [map List.filter].
  change (lands_in a i (as_integer p)) with (lands_in a i (fst p)). destruct (lands_in a i (fst p)); cbn [map]; now rewrite IH.
Qed.

(** ** Integer bins *)
Lemma integer_sums {B : Build} (t : int_type) {A X W} {AX : Axis A} (l : list (fill_op X W * Z)) :
  stays_within (int_min t) (int_max t) (map snd l) -> (int_min t <= 0 <= int_max t)%Z ->
  @apply_all A Z Z Empty_set AX (int_fill t) (int_fill_with t) no_weighted (map as_integer l) 0%Z = Val (sumZ (map snd l)).
Proof.
  intros [H1 H2] H0.
  enough (K : forall s, (int_min t <= s + sumZ (map (Z.min 0) (map snd l)))%Z -> (s + sumZ (map (Z.max 0) (map snd l)) <= int_max t)%Z ->
    @apply_all A Z Z Empty_set AX (int_fill t) (int_fill_with t) no_weighted (map as_integer l) s = Val (s + sumZ (map snd l))%Z).
  { rewrite K by lia. f_equal. }
  clear H1 H2. induction l as [|p l IH]; intros s H1 H2; unfold apply_all in *; cbn [map foldo]; [f_equal; cbn; lia|].
  cbn [map] in H1, H2. rewrite sumZ_cons in H1, H2 |- *.
  assert (Hb : (sumZ (map (Z.min 0) (map snd l)) <= 0 <= sumZ (map (Z.max 0) (map snd l)))%Z) by (clear; induction l as [|k l IH]; [cbn; lia|]; cbn [map]; rewrite !sumZ_cons; pose proof (parts (snd k)); lia).
  pose proof (parts (snd p)).
  cbn [op_effect as_integer fill_with_v int_fill_with num_fill_with n_add int_ops]. unfold int_result.
  rewrite (in_range_true t (s + snd p)%Z) by (unfold fits; lia). cbn [obind]. rewrite IH by lia. f_equal. lia.
Qed.

Section Float.
Context (prec emax : Z) (P : Prec_gt_0 prec) (E : Prec_lt_emax prec emax) (Hcov : covered_format prec emax) (e : Z) (Hge : grid_exponent prec emax e).
Notation flt := (binary_float prec emax).
Notation units := (in_units prec emax P E e).
Notation plus := (Bplus mode_NE).
Notation max := (2 ^ prec)%Z.

Lemma in_units_value n : (Z.abs n <= max)%Z -> grid_value e (units n) n /\ units n <> B754_zero true.
Proof.
  intros Hn. unfold in_units. pose proof (binary_normalize_correct prec emax P E mode_NE n e false) as K. cbv zeta in K.
  change (F2R (Float radix2 n e)) with (IZR n * bpow radix2 e)%R in K.
  rewrite (grid_rnd prec emax (proj1 Hcov) e Hge n Hn) in K. rewrite Rlt_bool_true in K by (apply (grid_top prec emax (proj1 Hcov) e Hge n Hn)).
  destruct K as [K1 [K2 K3]]. split; [split; assumption|]. intros Ez. rewrite Ez in K1, K3. cbn [B2R Bsign] in K1, K3.
  assert (Hn0 : n = 0%Z). { pose proof (bpow_gt_0 radix2 e). assert (IZR n = 0%R) by nra. apply eq_IZR. exact H0. }
  subst n. rewrite Rmult_0_l, Rcompare_Eq in K3 by reflexivity. discriminate.
Qed.

Lemma plus_not_negative_zero (x y : flt) : is_finite (plus x y) = true -> x <> B754_zero true -> plus x y <> B754_zero true.
Proof.
  intros Hf Hx Hz. destruct (is_finite x) eqn:Fx; [|destruct x, y; try discriminate; cbn in Hf; try destruct (eqb _ _); discriminate].
  destruct (is_finite y) eqn:Fy; [|destruct x, y; try discriminate; cbn in Hf; discriminate].
  pose proof (Bplus_correct prec emax P E mode_NE x y Fx Fy) as K. destruct (Rlt_bool _ _) eqn:Eo.
  2: { destruct K as [K _]. rewrite Hz in K. unfold binary_overflow in K. cbn in K. discriminate. }
  destruct K as [K1 [_ K3]]. rewrite Hz in K1, K3. cbn [B2R Bsign] in K1, K3.
  destruct (Req_dec (B2R x + B2R y) 0) as [Es|Es].
  - rewrite Es, Rcompare_Eq in K3 by reflexivity. symmetry in K3. apply andb_true_iff in K3 as [Sx Sy].
    assert (H1 : (B2R x < 0)%R).
    { destruct x as [[]|?| |[] m k H]; try discriminate; [contradiction Hx; reflexivity|]. apply F2R_lt_0. reflexivity. }
    assert (H2 : (B2R y <= 0)%R).
    { destruct y as [[]|?| |[] m k H]; try discriminate; [apply Rle_refl|]. apply F2R_le_0. discriminate. }
    lra.
  - symmetry in K1. revert K1. apply (round_plus_neq_0 radix2 (SpecFloat.fexp prec emax) (round_mode mode_NE)); [apply generic_format_B2R | apply generic_format_B2R | exact Es].
Qed.

Lemma same_units_same (x : flt) n : (Z.abs n <= max)%Z -> grid_value e x n -> x <> B754_zero true -> x = units n.
Proof.
  intros Hn [Fx Vx] Zx. destruct (in_units_value n Hn) as [[Fu Vu] Zu]. destruct (Req_dec (B2R x) 0) as [E0|E0].
  - assert (Hz : forall y : flt, is_finite y = true -> B2R y = 0%R -> y <> B754_zero true -> y = B754_zero false).
    { intros [[]|?| |s m k H] F V Z; try discriminate; [contradiction | reflexivity|]. exfalso. cbn [B2R] in V. apply eq_0_F2R in V. destruct s; discriminate. }
    rewrite (Hz x Fx E0 Zx), (Hz _ Fu (eq_trans Vu (eq_trans (eq_sym Vx) E0)) Zu). reflexivity.
  - apply B2R_inj; [| | congruence].
    + destruct x; try discriminate; [contradiction E0; reflexivity | reflexivity].
    + rewrite <- (eq_trans Vu (eq_sym Vx)) in E0. destruct (units n); try discriminate; [contradiction E0; reflexivity | reflexivity].
Qed.

Lemma units_plus S (d : flt) k : grid_value e d k -> (Z.abs S <= max)%Z -> (Z.abs (S + k) <= max)%Z -> plus (units S) d = units (S + k).
Proof.
  intros Hd HS HSk. destruct (in_units_value S HS) as [V Zs]. pose proof (grid_plus prec emax P E (proj1 Hcov) e Hge _ _ _ _ V Hd HSk) as K.
  apply same_units_same; [exact HSk | exact K|]. apply plus_not_negative_zero; [exact (proj1 K) | exact Zs].
Qed.

Lemma units_zero : units 0 = B754_zero false.
Proof. symmetry. apply same_units_same; [cbn; apply Z.pow_nonneg; lia | | discriminate]. split; [reflexivity|]. cbn. ring. Qed.

(** ** Float bins *)
Lemma float_sums {B : Build} {A} {AX : Axis A} (l : list (fill_op flt Empty_set * Z)) : calls_on_grid e l -> stays_within (- max) max (map snd l) ->
  @apply_all A flt flt Empty_set AX (float_fill prec emax P E) (float_fill_with prec emax P E) (float_no_weighted prec emax) (map fst l) (B754_zero false) = Val (units (sumZ (map snd l))).
Proof.
  intros Hg [H1 H2]. rewrite <- units_zero.
  enough (K : forall s, (- max <= s + sumZ (map (Z.min 0) (map snd l)))%Z -> (s + sumZ (map (Z.max 0) (map snd l)) <= max)%Z ->
    @apply_all A flt flt Empty_set AX (float_fill prec emax P E) (float_fill_with prec emax P E) (float_no_weighted prec emax) (map fst l) (units s) = Val (units (s + sumZ (map snd l)))).
  { rewrite K by lia. f_equal. }
  clear H1 H2. induction l as [|p l IH]; intros s H1 H2; unfold apply_all in *; cbn [map foldo]; [do 2 f_equal; cbn; lia|].
  cbn [map] in H1, H2. rewrite sumZ_cons in H1, H2 |- *. inversion Hg as [|? ? Hp Hl]; subst.
  assert (Hb : (sumZ (map (Z.min 0) (map snd l)) <= 0 <= sumZ (map (Z.max 0) (map snd l)))%Z) by (clear; induction l as [|k l IH]; [cbn; lia|]; cbn [map]; rewrite !sumZ_cons; pose proof (parts (snd k)); lia).
  pose proof (parts (snd p)).
  assert (Hs : @op_effect A flt flt Empty_set AX (float_fill prec emax P E) (float_fill_with prec emax P E) (float_no_weighted prec emax) (fst p) (units s) = Val (units (s + snd p))).
  { destruct p as [[c|c d|c d []] k]; cbn [fst snd float_amount] in *; cbn [op_effect fill_v fill_with_v float_fill float_fill_with num_fill num_fill_with n_add n_one float_ops]; f_equal; apply units_plus; (exact Hp || lia). }
  rewrite Hs. cbn [obind]. rewrite IH by (assumption || lia). do 2 f_equal. lia.
Qed.
End Float.

(** What the number [in_units e n] is. *)
Theorem C94_in_units : forall (prec emax : Z) (P : Prec_gt_0 prec) (E : Prec_lt_emax prec emax) (e n : Z),
  covered_format prec emax -> grid_exponent prec emax e -> (Z.abs n <= 2 ^ prec)%Z ->
  let x := in_units prec emax P E e n in is_finite x = true /\ (B2R x = IZR n * bpow radix2 e)%R /\ (n = 0%Z -> x = B754_zero false).
Proof.
  intros prec emax P E e n Hcov Hge Hn x. destruct (in_units_value prec emax P E Hcov e Hge n Hn) as [[F V] _]. split; [exact F|]. split; [exact V|].
  intros ->. apply units_zero; assumption.
Qed.
Print Assumptions C94_in_units.

(** C94. Weights that are whole multiples of a power of two are added up without any rounding: each
    bin of a float histogram holds exactly the sum of the weights that reached it. *)
Theorem C94_exact_sums : forall (prec emax : Z) (P : Prec_gt_0 prec) (E : Prec_lt_emax prec emax) (B : Build) A (AX : Axis A) (a : A) (n : N) (e : Z)
  (calls : list (fill_op (binary_float prec emax) Empty_set * Z)),
  let FV := float_fill prec emax P E in let FD := float_fill_with prec emax P E in let FW := float_no_weighted prec emax in let DV := float_default prec emax P E in
  covered_format prec emax -> grid_exponent prec emax e -> calls_on_grid e calls -> stays_within (- 2 ^ prec) (2 ^ prec) (map snd calls) ->
  num_bins a = Val n -> (forall p, In p calls -> exists r, index a (op_coordinate (fst p)) = Val r) ->
  (exists h, dense_filled a (map fst calls) = Val h /\ vh_axes h = a /\ length (vec_values h) = N.to_nat n
     /\ forall i, i < n -> vec_value_at_index h i = Some (in_units prec emax P E e (units_in a i calls)))
  /\ (exists h, sparse_filled a (map fst calls) = Val h /\ hh_axes h = a
     /\ forall i, hash_value_at_index h i = match reaching a i (map fst calls) with [] => None | _ => Some (in_units prec emax P E e (units_in a i calls)) end).
Proof.
  intros prec emax P E B A AX a n e calls FV FD FW DV Hcov Hge Hg Hw Hn Hix.
  assert (Hix' : forall o, In o (map fst calls) -> exists r, index a (op_coordinate o) = Val r) by (intros o Ho; apply in_map_iff in Ho as [p [<- Hp]]; auto).
  assert (HF : forall i, apply_all (V := binary_float prec emax) (reaching a i (map fst calls)) default_v = Val (in_units prec emax P E e (units_in a i calls))).
  { intros i. rewrite reaching_fst. apply float_sums; [exact Hcov | exact Hge | | apply stays_filter; exact Hw].
    apply Forall_forall. intros p Hp. apply elem_of_list_In, filter_In in Hp as [Hp _]. revert p Hp. apply List.Forall_forall. exact Hg. }
  split.
  - destruct (known_dense FV FD FW DV a _ _ Hix' HF n Hn) as [h [E1 [E2 E3]]]. exists h. split; [exact E1|]. split; [exact E2|].
    split; [rewrite E3, map_length, seq_length; reflexivity|]. intros i Hi. unfold vec_value_at_index. change (vh_values h) with (vec_values h). rewrite E3.
    rewrite nth_error_map, (nth_error_nth' _ 0%nat), seq_nth by (rewrite ?seq_length; lia). cbn [option_map]. do 3 f_equal. lia.
  - exact (known_sparse FV FD FW DV a _ _ Hix' HF).
Qed.
Print Assumptions C94_exact_sums.

(** The float histogram is the histogram of integers that counts the units, in any integer type that
    is large enough and in every build, with each bin read as so many units. *)
Theorem C94_as_integers : forall (prec emax : Z) (P : Prec_gt_0 prec) (E : Prec_lt_emax prec emax) (B : Build) (t : int_type) A (AX : Axis A) (a : A) (n : N) (e : Z)
  (calls : list (fill_op (binary_float prec emax) Empty_set * Z)),
  let FV := float_fill prec emax P E in let FD := float_fill_with prec emax P E in let FW := float_no_weighted prec emax in let DV := float_default prec emax P E in
  covered_format prec emax -> grid_exponent prec emax e -> calls_on_grid e calls -> stays_within (- 2 ^ prec) (2 ^ prec) (map snd calls) ->
  primitive_int t -> stays_within (int_min t) (int_max t) (map snd calls) ->
  num_bins a = Val n -> (forall p, In p calls -> exists r, index a (op_coordinate (fst p)) = Val r) ->
  let integer_dense := @dense_filled A Z Z Empty_set AX (int_fill t) (int_fill_with t) no_weighted (int_default t) a (map as_integer calls) in
  let integer_sparse := @sparse_filled A Z Z Empty_set AX (int_fill t) (int_fill_with t) no_weighted (int_default t) a (map as_integer calls) in
  (exists h hi, dense_filled a (map fst calls) = Val h /\ integer_dense = Val hi
     /\ vh_axes h = vh_axes hi /\ vec_values h = map (in_units prec emax P E e) (vec_values hi))
  /\ (exists h hi, sparse_filled a (map fst calls) = Val h /\ integer_sparse = Val hi
     /\ hh_axes h = hh_axes hi /\ hash_as_map h = in_units prec emax P E e <$> hash_as_map hi).
Proof.
  intros prec emax P E B t A AX a n e calls FV FD FW DV Hcov Hge Hg Hw Ht Hwt Hn Hix integer_dense integer_sparse.
  pose proof (primitive_bounds t Ht) as H0.
  assert (Hix' : forall o, In o (map as_integer calls) -> exists r, index a (op_coordinate o) = Val r) by (intros o Ho; apply in_map_iff in Ho as [p [<- Hp]]; exact (Hix p Hp)).
  assert (HF : forall i, @apply_all A Z Z Empty_set AX (int_fill t) (int_fill_with t) no_weighted (reaching a i (map as_integer calls)) (@default_v _ (int_default t)) = Val (units_in a i calls)).
  { intros i. rewrite reaching_integer. apply integer_sums; [apply stays_filter; exact Hwt | lia]. }
  destruct (C94_exact_sums prec emax P E B A AX a n e calls Hcov Hge Hg Hw Hn Hix) as [[h [D1 [D2 [D3 D4]]]] [s [S1 [S2 S3]]]].
  split.
  - destruct (known_dense (int_fill t) (int_fill_with t) no_weighted (int_default t) a _ _ Hix' HF n Hn) as [hi [E1 [E2 E3]]].
    exists h, hi. split; [exact D1|]. split; [exact E1|]. split; [congruence|]. rewrite E3, map_map. apply nth_error_ext_all. intros k.
    destruct (Nat.lt_ge_cases k (N.to_nat n)) as [Hk|Hk].
    + specialize (D4 (N.of_nat k) ltac:(lia)). unfold vec_value_at_index in D4. rewrite Nat2N.id in D4. unfold vec_values. rewrite D4. symmetry.
      rewrite nth_error_map, (nth_error_nth' _ 0%nat), seq_nth by (rewrite ?seq_length; exact Hk). reflexivity.
    + transitivity (@None (binary_float prec emax)); [|symmetry]; apply nth_error_None; [rewrite D3 | rewrite map_length, seq_length]; exact Hk.
  - destruct (known_sparse (int_fill t) (int_fill_with t) no_weighted (int_default t) a _ _ Hix' HF) as [hi [E1 [E2 E3]]].
    exists s, hi. split; [exact S1|]. split; [exact E1|]. split; [congruence|]. apply map_eq. intros i. rewrite lookup_fmap.
    specialize (S3 i). specialize (E3 i). unfold hash_value_at_index in S3, E3. unfold hash_as_map. rewrite S3, E3.
    rewrite reaching_integer, reaching_fst. destruct (List.filter (fun p => lands_in a i (fst p)) calls); reflexivity.
Qed.
Print Assumptions C94_as_integers.

(** So the order of the calls does not matter: the same histogram, bit for bit. *)
Theorem C94_order : forall (prec emax : Z) (P : Prec_gt_0 prec) (E : Prec_lt_emax prec emax) (B : Build) A (AX : Axis A) (a : A) (n : N) (e : Z)
  (calls calls' : list (fill_op (binary_float prec emax) Empty_set * Z)),
  let FV := float_fill prec emax P E in let FD := float_fill_with prec emax P E in let FW := float_no_weighted prec emax in let DV := float_default prec emax P E in
  covered_format prec emax -> grid_exponent prec emax e -> calls_on_grid e calls -> stays_within (- 2 ^ prec) (2 ^ prec) (map snd calls) ->
  num_bins a = Val n -> (forall p, In p calls -> exists r, index a (op_coordinate (fst p)) = Val r) -> Permutation calls calls' ->
  dense_filled a (map fst calls') = dense_filled a (map fst calls) /\ sparse_filled a (map fst calls') = sparse_filled a (map fst calls).
Proof.
  intros prec emax P E B A AX a n e calls calls' FV FD FW DV Hcov Hge Hg Hw Hn Hix HP.
  assert (Hu : forall i, units_in a i calls' = units_in a i calls).
  { intros i. unfold units_in. apply sumZ_perm, Permutation_map. clear -HP. induction HP as [|x l l' _ IH|x y l|l l' l'' _ IH1 _ IH2]; cbn [List.filter].
    - constructor.
    - destruct (lands_in a i (fst x)); [now constructor | exact IH].
    - destruct (lands_in a i (fst x)), (lands_in a i (fst y)); try reflexivity. constructor.
    - etransitivity; eassumption. }
  destruct (C94_exact_sums prec emax P E B A AX a n e calls Hcov Hge Hg Hw Hn Hix) as [[h [D1 [D2 [D3 D4]]]] [s [S1 [S2 S3]]]].
  destruct (C94_exact_sums prec emax P E B A AX a n e calls' Hcov Hge) as [[h' [D1' [D2' [D3' D4']]]] [s' [S1' [S2' S3']]]].
  { apply List.Forall_forall. intros p Hp. apply (proj1 (List.Forall_forall _ _) Hg). eapply Permutation_in; [apply Permutation_sym, HP | exact Hp]. }
  { eapply stays_perm; [apply Permutation_map, HP | exact Hw]. }
  { exact Hn. } { intros p Hp. apply Hix. eapply Permutation_in; [apply Permutation_sym, HP | exact Hp]. }
  split.
  - refine (eq_trans D1' (eq_trans _ (eq_sym D1))). f_equal. destruct h as [a1 v1], h' as [a2 v2]. cbn [vh_axes] in *. subst a1 a2. f_equal.
    apply nth_error_ext_all. intros k. unfold vec_values, vec_value_at_index in *. cbn [vh_values] in *. destruct (Nat.lt_ge_cases k (N.to_nat n)) as [Hk|Hk].
    + specialize (D4 (N.of_nat k) ltac:(lia)). specialize (D4' (N.of_nat k) ltac:(lia)). rewrite Nat2N.id in D4, D4'. rewrite D4, D4', Hu. reflexivity.
    + transitivity (@None (binary_float prec emax)); [|symmetry]; apply nth_error_None; [rewrite D3' | rewrite D3]; exact Hk.
  - refine (eq_trans S1' (eq_trans _ (eq_sym S1))). f_equal. destruct s as [a1 m1], s' as [a2 m2]. cbn [hh_axes] in *. subst a1 a2. f_equal.
    apply map_eq. intros i. specialize (S3 i). specialize (S3' i). unfold hash_value_at_index in S3, S3'. cbn [hh_values] in S3, S3'. rewrite S3, S3', Hu.
    pose proof (reaching_perm a i _ _ (Permutation_map fst HP)) as Hp.
    destruct (reaching a i (map fst calls)) as [|o l]; [apply Permutation_nil in Hp; rewrite Hp; reflexivity|].
    destruct (reaching a i (map fst calls')) as [|o' l']; [apply Permutation_sym, Permutation_nil in Hp; discriminate | reflexivity].
Qed.
Print Assumptions C94_order.

(** And adding two such histograms, in any of the three forms, is filling one with everything. *)
Theorem C94_merge : forall (prec emax : Z) (P : Prec_gt_0 prec) (E : Prec_lt_emax prec emax) (B : Build) A (AX : Axis A) (AE : AxisEq A) (a a2 : A) (n : N) (e : Z)
  (callsA callsB : list (fill_op (binary_float prec emax) Empty_set * Z)),
  let FV := float_fill prec emax P E in let FD := float_fill_with prec emax P E in let FW := float_no_weighted prec emax in let DV := float_default prec emax P E in
  covered_format prec emax -> grid_exponent prec emax e -> calls_on_grid e (callsA ++ callsB) -> stays_within (- 2 ^ prec) (2 ^ prec) (map snd (callsA ++ callsB)) ->
  num_bins a = Val n -> (forall p, In p (callsA ++ callsB) -> exists r, index a (op_coordinate (fst p)) = Val r) ->
  axis_eqb a a2 = true -> num_bins a = num_bins a2 -> (forall c, index a c = index a2 c) ->
  let add := @n_add _ (float_ops prec emax P E) in
  (exists h1 h2 h, dense_filled a (map fst callsA) = Val h1 /\ dense_filled a2 (map fst callsB) = Val h2 /\ dense_filled a (map fst (callsA ++ callsB)) = Val h
     /\ vec_binop_borrowed add h1 h2 = Val (Ok h) /\ vec_binop_owned add h1 h2 = Val (Ok h) /\ vec_binop_assign add h1 h2 = Val h)
  /\ (exists h1 h2 h, sparse_filled a (map fst callsA) = Val h1 /\ sparse_filled a2 (map fst callsB) = Val h2 /\ sparse_filled a (map fst (callsA ++ callsB)) = Val h
     /\ forall keys order, NoDup keys -> (forall i, i ∈ keys <-> is_Some (hash_value_at_index h1 i) \/ is_Some (hash_value_at_index h2 i)) -> an_order (hash_as_map h2) order ->
        hash_binop_borrowed add h1 h2 keys = Val (Ok h) /\ hash_binop_owned add h1 h2 order = Val (Ok h) /\ hash_binop_assign add h1 h2 order = Val h).
Proof.
  intros prec emax P E B A AX AE a a2 n e callsA callsB FV FD FW DV Hcov Hge Hg Hw Hn Hix Hax Hnb Hixa add.
  apply List.Forall_app in Hg as Hg'. destruct Hg' as [HgA HgB].
  pose proof Hw as Hw'. rewrite map_app in Hw'. destruct (stays_app _ _ _ _ Hw') as [HwA HwB].
  assert (HF : forall i (l : list (fill_op (binary_float prec emax) Empty_set * Z)), calls_on_grid e l -> stays_within (- 2 ^ prec) (2 ^ prec) (map snd l) ->
    apply_all (V := binary_float prec emax) (reaching a i (map fst l)) default_v = Val (in_units prec emax P E e (units_in a i l))).
  { intros i l Hgl Hwl. rewrite reaching_fst. apply float_sums; [exact Hcov | exact Hge | | apply stays_filter; exact Hwl].
    apply List.Forall_forall. intros p Hp. apply filter_In in Hp as [Hp _]. revert p Hp. apply List.Forall_forall. exact Hgl. }
  assert (Hcore : forall (i : N) (va vb r : binary_float prec emax),
     apply_all (reaching a i (map fst callsA)) default_v = Val va -> apply_all (reaching a i (map fst callsB)) default_v = Val vb ->
     apply_all (reaching a i (map fst callsA) ++ reaching a i (map fst callsB)) default_v = Val r -> add va vb = Val r).
  { intros i va vb r. rewrite !(HF i) by assumption.
    replace (reaching a i (map fst callsA) ++ reaching a i (map fst callsB)) with (reaching a i (map fst (callsA ++ callsB))) by (unfold reaching; rewrite map_app; apply List.filter_app).
    rewrite (HF i _ Hg Hw). intros [= <-] [= <-] [= <-]. unfold add. cbn [n_add float_ops]. f_equal.
    assert (HB : (Z.abs (units_in a i callsB) <= 2 ^ prec)%Z) by (pose proof (stays_sum _ _ _ (stays_filter _ _ snd (fun p => lands_in a i (fst p)) callsB HwB)); unfold units_in; lia).
    assert (HA : (Z.abs (units_in a i callsA) <= 2 ^ prec)%Z) by (pose proof (stays_sum _ _ _ (stays_filter _ _ snd (fun p => lands_in a i (fst p)) callsA HwA)); unfold units_in; lia).
    assert (HAB : units_in a i (callsA ++ callsB) = (units_in a i callsA + units_in a i callsB)%Z) by (unfold units_in; rewrite List.filter_app, map_app; apply sumZ_concat).
    assert (HS : (Z.abs (units_in a i callsA + units_in a i callsB) <= 2 ^ prec)%Z).
    { rewrite <- HAB. pose proof (stays_sum _ _ _ (stays_filter _ _ snd (fun p => lands_in a i (fst p)) _ Hw)). unfold units_in. lia. }
    rewrite HAB. apply units_plus; [exact Hcov | exact Hge | | exact HA | exact HS]. exact (proj1 (in_units_value prec emax P E Hcov e Hge _ HB)). }
  destruct (merge_core A (binary_float prec emax) (binary_float prec emax) Empty_set AX AE FV FD FW DV add a a2 _ _ Hcore Hax Hnb Hixa) as [MD MS].
  destruct (C94_exact_sums prec emax P E B A AX a n e callsA Hcov Hge HgA HwA Hn) as [[h1 [D1 _]] [s1 [S1 _]]]; [intros p Hp; apply Hix, in_or_app; auto|].
  destruct (C94_exact_sums prec emax P E B A AX a2 n e callsB Hcov Hge HgB HwB) as [[h2 [D2 _]] [s2 [S2 _]]]; [congruence | intros p Hp; rewrite <- Hixa; apply Hix, in_or_app; auto|].
  destruct (C94_exact_sums prec emax P E B A AX a n e _ Hcov Hge Hg Hw Hn Hix) as [[h [D [_ _]]] [s [S [_ _]]]].
  split.
  - exists h1, h2, h. do 3 (split; [assumption|]). unfold dense_filled in D1, D2, D. rewrite map_app in D.
    apply obind_val in D1 as [g1 [G1 D1]]. apply obind_val in D2 as [g2 [G2 D2]]. apply obind_val in D as [g [G D]].
    pose proof (eq_trans (eq_sym G) G1) as Q. injection Q as ->. exact (MD g1 g2 h1 h2 h G1 D1 G2 D2 D).
  - exists s1, s2, s. do 3 (split; [assumption|]). unfold sparse_filled in S1, S2, S. rewrite map_app in S. intros keys order. exact (MS s1 s2 s keys order S1 S2 S).
Qed.
Print Assumptions C94_merge.

(** ** Rebinning *)
Lemma sum_map_add {X} (f g : X -> Z) l : sumZ (map (fun x => (f x + g x)%Z) l) = (sumZ (map f l) + sumZ (map g l))%Z.
Proof. induction l as [|x l IH]; [reflexivity|]. cbn [map]. rewrite !sumZ_cons. lia. Qed.
Lemma sum_map_le {X} (f g : X -> Z) l : (forall x, In x l -> (f x <= g x)%Z) -> (sumZ (map f l) <= sumZ (map g l))%Z.
Proof. induction l as [|x l IH]; intros H; [cbn; lia|]. cbn [map]. rewrite !sumZ_cons. pose proof (H x (or_introl eq_refl)). specialize (IH (fun y Hy => H y (or_intror Hy))). lia. Qed.

Section Keys.
Context {A X W : Type} {AX : Axis A} (a : A).
Implicit Types (calls : list (fill_op X W * Z)) (keys : list N) (p : fill_op X W * Z).

Lemma units_cons i p calls : units_in a i (p :: calls) = ((if lands_in a i (fst p) then snd p else 0) + units_in a i calls)%Z.
Proof. unfold units_in. cbn [List.filter]. destruct (lands_in a i (fst p)); cbn [map]; rewrite ?sumZ_cons; lia. Qed.

Lemma pick_key keys p k : NoDup keys ->
  sumZ (map (fun i => if lands_in a i (fst p) then k else 0%Z) keys) = (match index a (op_coordinate (fst p)) with Val (Some j) => if decide (j ∈ keys) then k else 0 | _ => 0 end)%Z.
Proof.
  intros Hnd. unfold lands_in. destruct (index a (op_coordinate (fst p))) as [[j|]|].
  - rewrite <- (sumZ_pick keys j k Hnd). f_equal.
  - induction keys as [|i keys IH]; [reflexivity|]. cbn [map]. rewrite sumZ_cons. apply NoDup_cons in Hnd as [_ Hnd]. rewrite (IH Hnd). reflexivity.
  - induction keys as [|i keys IH]; [reflexivity|]. cbn [map]. rewrite sumZ_cons. apply NoDup_cons in Hnd as [_ Hnd]. rewrite (IH Hnd). reflexivity.
Qed.

Lemma keys_stay lo hi calls keys : NoDup keys -> stays_within lo hi (map snd calls) -> stays_within lo hi (map (fun i => units_in a i calls) keys).
Proof.
  intros Hnd [H1 H2].
  enough (H : (sumZ (map (Z.min 0) (map snd calls)) <= sumZ (map (Z.min 0) (map (fun i => units_in a i calls) keys)))%Z
    /\ (sumZ (map (Z.max 0) (map (fun i => units_in a i calls) keys)) <= sumZ (map (Z.max 0) (map snd calls)))%Z) by (unfold stays_within; lia).
  clear H1 H2. rewrite !(map_map (fun i => units_in a i calls)). induction calls as [|p calls IH].
  - cbn [map]. assert (H : forall f : Z -> Z, f 0%Z = 0%Z -> sumZ (map (fun i => f (@units_in A X W AX a i [])) keys) = 0%Z).
    { intros f Hf. clear Hnd. induction keys as [|i keys IH]; [reflexivity|]. cbn [map]. rewrite sumZ_cons, IH. unfold units_in. cbn [List.filter map]. change (sumZ []) with 0%Z. lia. }
    rewrite !H by reflexivity. cbn. lia.
  - cbn [map]. rewrite !sumZ_cons.
    pose proof (pick_key keys p (Z.max 0 (snd p)) Hnd) as K1. pose proof (pick_key keys p (Z.min 0 (snd p)) Hnd) as K2. pose proof (parts (snd p)) as Hp.
    assert (L1 : (sumZ (map (fun i => Z.max 0 (units_in a i (p :: calls))) keys) <= sumZ (map (fun i => (if lands_in a i (fst p) then Z.max 0 (snd p) else 0) + Z.max 0 (units_in a i calls)) keys))%Z).
    { apply sum_map_le. intros i _. rewrite units_cons. destruct (lands_in a i (fst p)); lia. }
    assert (L2 : (sumZ (map (fun i => (if lands_in a i (fst p) then Z.min 0 (snd p) else 0) + Z.min 0 (units_in a i calls)) keys) <= sumZ (map (fun i => Z.min 0 (units_in a i (p :: calls))) keys))%Z).
    { apply sum_map_le. intros i _. rewrite units_cons. destruct (lands_in a i (fst p)); lia. }
    rewrite sum_map_add in L1, L2. rewrite K1 in L1. rewrite K2 in L2.
    destruct (index a (op_coordinate (fst p))) as [[j|]|]; [destruct (decide (j ∈ keys))| |]; lia.
Qed.

Lemma keys_total calls keys chosen : NoDup keys -> (forall p i, In p calls -> index a (op_coordinate (fst p)) = Val (Some i) -> chosen i = true -> i ∈ keys) ->
  sumZ (map (fun i => units_in a i calls) (List.filter chosen keys)) = sumZ (map snd (List.filter (fun p => lands_among a chosen (fst p)) calls)).
Proof.
  intros Hnd. assert (Hnd' : NoDup (List.filter chosen keys)) by (apply NoDup_ListNoDup, List.NoDup_filter, NoDup_ListNoDup; exact Hnd).
  induction calls as [|p calls IH]; intros Hk.
  - cbn [map List.filter]. unfold units_in. cbn [List.filter map]. clear. induction (List.filter chosen keys) as [|i l IH]; [reflexivity|]. cbn [map]. rewrite sumZ_cons, IH. reflexivity.
  - erewrite map_ext by (intros i; apply units_cons). rewrite sum_map_add, IH by (intros q i Hq; apply Hk; right; exact Hq). rewrite (pick_key _ p (snd p) Hnd').
    cbn [List.filter]. unfold lands_among at 2. specialize (Hk p). destruct (index a (op_coordinate (fst p))) as [[j|]|]; [| reflexivity | reflexivity].
    specialize (Hk j (or_introl eq_refl) eq_refl). destruct (chosen j) eqn:Ej; cbn [map].
    + rewrite sumZ_cons. destruct (decide (j ∈ List.filter chosen keys)) as [_|Hn]; [reflexivity|]. contradiction Hn.
      apply elem_of_list_In, filter_In. split; [apply elem_of_list_In; auto | exact Ej].
    + destruct (decide (j ∈ List.filter chosen keys)) as [Hj|_]; [|reflexivity]. apply elem_of_list_In, filter_In in Hj. destruct Hj. congruence.
Qed.
End Keys.

Section Rebin.
Context (prec emax : Z) (P : Prec_gt_0 prec) (E : Prec_lt_emax prec emax) (Hcov : covered_format prec emax) (e : Z) (Hge : grid_exponent prec emax e).
Notation flt := (binary_float prec emax).
Notation units := (in_units prec emax P E e).
Notation max := (2 ^ prec)%Z.
Context {A1 A2 : Type} (AX1 : Axis A1) (AX2 : Axis A2) (RC : @Coordinate A1 AX1 -> @Coordinate A2 AX2 -> Prop) (RI : @Interval A1 AX1 -> @Interval A2 AX2 -> Prop)
  (a1 : A1) (a2 : A2) (n1 n2 : N) (group : N -> N) (HR : coarsens AX1 AX2 RC RI a1 a2 n1 n2 group).
Context (calls : list (@fill_op A1 flt Empty_set AX1 * Z)) (ops2 : list (@fill_op A2 flt Empty_set AX2)).
Context (Hg : calls_on_grid e calls) (Hw : stays_within (- max) max (map snd calls)) (Hs : Forall2 (same_call AX1 AX2 RC) (map fst calls) ops2).

Definition calls2 : list (@fill_op A2 flt Empty_set AX2 * Z) := combine ops2 (map snd calls).

Lemma calls2_facts : map fst calls2 = ops2 /\ map snd calls2 = map snd calls /\ calls_on_grid e calls2
  /\ (forall p, In p calls2 -> exists r, index a2 (op_coordinate (fst p)) = Val r)
  /\ (forall j, units_in a2 j calls2 = sumZ (map snd (List.filter (fun p => lands_among a1 (fun i => group i =? j) (fst p)) calls)))
  /\ (forall j, reaching a2 j ops2 = [] <-> List.filter (fun p => lands_among a1 (fun i => group i =? j) (fst p)) calls = []).
Proof.
  unfold calls2. clear Hw. revert ops2 Hs. induction calls as [|[o k] l IH]; intros ops Ho; cbn [map] in *; inversion Ho as [|o1 o2 l1 l2 H1 H2]; subst; cbn [combine map].
  - split; [reflexivity|]. split; [reflexivity|]. split; [constructor|]. split; [intros p []|]. split; [reflexivity|]. intros j. split; reflexivity.
  - inversion Hg as [|? ? Gp Gl]; subst. destruct (IH Gl l2 H2) as [I1 [I2 [I3 [I4 [I5 I6]]]]]. cbn [fst snd] in *.
    split; [now rewrite I1|]. split; [now rewrite I2|]. split; [|split; [|split]].
    + constructor; [|exact I3]. cbn [fst snd]. destruct H1 as [| |? ? ? []]; exact Gp.
    + intros p [<-|Hp]; [|exact (I4 p Hp)]. destruct (co_index _ _ _ _ _ _ _ _ _ HR _ _ (same_call_coordinate _ _ H1)) as (r & _ & _ & Er). eexists. exact Er.
    + intros j. rewrite units_cons, I5. cbn [fst snd List.filter]. rewrite (coarse_lands HR j _ _ H1). destruct (lands_among a1 (fun i => group i =? j) o); cbn [map]; rewrite ?sumZ_cons; reflexivity.
    + intros j. specialize (I6 j). unfold reaching in *. cbn [List.filter fst]. rewrite (coarse_lands HR j _ _ H1). destruct (lands_among a1 (fun i => group i =? j) o); [split; discriminate | exact I6].
Qed.

Context {I : Type} (items : list (Item I flt)).
Context (Hnd : NoDup (map it_index items)) (Hv : forall it, In it items -> it_value it = units (units_in a1 (it_index it) calls)).
Context (Hall : forall p i, In p calls -> index a1 (op_coordinate (fst p)) = Val (Some i) -> i ∈ map it_index items).

Lemma item_units it : In it items -> grid_value e (it_value it) (units_in a1 (it_index it) calls).
Proof.
  intros Hi. rewrite (Hv it Hi). apply in_units_value; [exact Hcov | exact Hge|].
  pose proof (stays_sum _ _ _ (stays_filter _ _ snd (fun p => lands_in a1 (it_index it) (fst p)) calls Hw)). unfold units_in. lia.
Qed.

Lemma filter_index {X} (c : N -> bool) (f : N -> X) (l : list (Item I flt)) :
  map (fun it => f (it_index it)) (List.filter (fun it => c (it_index it)) l) = map f (List.filter c (map it_index l)).
Proof. induction l as [|it l IH]; [reflexivity|]. cbn [map List.filter]. destruct (c (it_index it)); cbn [map]; now rewrite IH. Qed.

Lemma items_total j : sumZ (map (fun it => units_in a1 (it_index it) calls) (List.filter (fun it => group (it_index it) =? j) items)) = units_in a2 j calls2.
Proof.
  destruct calls2_facts as [_ [_ [_ [_ [K _]]]]]. rewrite K. rewrite (filter_index (fun i => group i =? j) (fun i => units_in a1 i calls)).
  apply (keys_total a1 calls (map it_index items) (fun i => group i =? j) Hnd). intros p i Hp Hi _. exact (Hall p i Hp Hi).
Qed.

Lemma items_exact j : sumR (map (fun it => B2R (it_value it)) (List.filter (fun it => group (it_index it) =? j) items)) = (IZR (units_in a2 j calls2) * bpow radix2 e)%R.
Proof.
  rewrite <- items_total. set (l := List.filter (fun it => group (it_index it) =? j) items).
  assert (Hl : forall it, In it l -> B2R (it_value it) = (IZR (units_in a1 (it_index it) calls) * bpow radix2 e)%R).
  { intros it Hi. apply filter_In in Hi as [Hi _]. exact (proj2 (item_units it Hi)). }
  clearbody l. induction l as [|it l IH]; [cbn; ring|]. cbn [map]. rewrite sumZ_cons, plus_IZR, (Rmult_plus_distr_r _ _ (bpow radix2 e)), <- IH by (intros it' Hi; apply Hl; right; exact Hi).
  cbn [sumR fold_right]. unfold sumR. cbn [fold_right]. rewrite (Hl it (or_introl eq_refl)). reflexivity.
Qed.

Lemma refills_known (refills : list (@fill_op A2 flt Empty_set AX2)) : refill a2 group items refills ->
  exists rcalls : list (@fill_op A2 flt Empty_set AX2 * Z), map fst rcalls = refills /\ calls_on_grid e rcalls /\ stays_within (- max) max (map snd rcalls)
  /\ (forall p, In p rcalls -> exists r, index a2 (op_coordinate (fst p)) = Val r)
  /\ (forall j, units_in a2 j rcalls = units_in a2 j calls2)
  /\ (forall j, reaching a2 j refills = [] <-> List.filter (fun it => group (it_index it) =? j) items = []).
Proof.
  intros (ops0 & H & HP).
  set (rcalls0 := combine ops0 (map (fun it => units_in a1 (it_index it) calls) items)).
  assert (F0 : map fst rcalls0 = ops0 /\ map snd rcalls0 = map (fun it => units_in a1 (it_index it) calls) items /\ calls_on_grid e rcalls0
    /\ (forall p, In p rcalls0 -> exists r, index a2 (op_coordinate (fst p)) = Val r)
    /\ (forall j, units_in a2 j rcalls0 = sumZ (map (fun it => units_in a1 (it_index it) calls) (List.filter (fun it => group (it_index it) =? j) items)))
    /\ (forall j, reaching a2 j ops0 = [] <-> List.filter (fun it => group (it_index it) =? j) items = [])).
  { unfold rcalls0. pose proof item_units as Hu. clear -H Hu. induction H as [|it o l l' (c & -> & Hc) _ IH]; cbn [combine map].
    - split; [reflexivity|]. split; [reflexivity|]. split; [constructor|]. split; [intros p []|]. split; [reflexivity|]. intros j. split; reflexivity.
    - destruct IH as [I1 [I2 [I3 [I4 [I5 I6]]]]]; [intros it' Hi; apply Hu; right; exact Hi|].
      split; [now rewrite I1|]. split; [now rewrite I2|]. split; [|split; [|split]].
      + constructor; [|exact I3]. cbn [fst snd float_amount]. apply Hu. left. reflexivity.
      + intros p [<-|Hp]; [|exact (I4 p Hp)]. eexists. exact Hc.
      + intros j. rewrite units_cons, I5. cbn [fst snd List.filter]. unfold lands_in. cbn [op_coordinate]. rewrite Hc. destruct (group (it_index it) =? j); cbn [map]; rewrite ?sumZ_cons; reflexivity.
      + intros j. specialize (I6 j). unfold reaching in *. cbn [List.filter]. unfold lands_in at 1. cbn [op_coordinate]. rewrite Hc. destruct (group (it_index it) =? j); [split; discriminate | exact I6]. }
  destruct F0 as [F1 [F2 [F3 [F4 [F5 F6]]]]].
  destruct (Permutation_map_inv fst (l1 := refills) rcalls0) as [rcalls [R1 R2]]; [rewrite F1; apply Permutation_sym; exact HP|].
  exists rcalls. split; [auto|]. split; [|split; [|split; [|split]]].
  - apply List.Forall_forall. intros p Hp. apply (proj1 (List.Forall_forall _ _) F3). eapply Permutation_in; [apply Permutation_sym, R2 | exact Hp].
  - eapply stays_perm; [apply Permutation_map, R2|]. rewrite F2, <- (map_map it_index (fun i => units_in a1 i calls)). apply keys_stay; assumption.
  - intros p Hp. apply F4. eapply Permutation_in; [apply Permutation_sym, R2 | exact Hp].
  - intros j. rewrite <- (items_total j), <- F5. unfold units_in. apply sumZ_perm, Permutation_map, Permutation_sym. clear -R2.
    induction R2 as [|x l l' _ IH|x y l|l l' l'' _ IH1 _ IH2]; cbn [List.filter].
    + constructor.
    + destruct (lands_in a2 j (fst x)); [now constructor | exact IH].
    + destruct (lands_in a2 j (fst x)), (lands_in a2 j (fst y)); try reflexivity. constructor.
    + etransitivity; eassumption.
  - intros j. rewrite <- F6. pose proof (reaching_perm a2 j _ _ HP) as Hp. split; intros Er; rewrite Er in Hp; [apply Permutation_sym, Permutation_nil in Hp | apply Permutation_nil in Hp]; exact Hp.
Qed.
End Rebin.

Lemma same_emptiness {X Y} (l l' : list X) (y : Y) : l = [] <-> l' = [] -> match l with [] => None | _ => Some y end = match l' with [] => None | _ => Some y end.
Proof. intros [H1 H2]. destruct l, l'; try reflexivity; [discriminate (H1 eq_refl) | discriminate (H2 eq_refl)]. Qed.
Lemma same_dense_values {A V} (h h' : VecHistogram A V) : vh_axes h = vh_axes h' -> (forall i, vec_value_at_index h i = vec_value_at_index h' i) -> h = h'.
Proof.
  destruct h as [a v], h' as [a' v']. cbn [vh_axes]. intros -> H. f_equal. apply nth_error_ext_all. intros k. specialize (H (N.of_nat k)).
  unfold vec_value_at_index in H. cbn [vh_values] in H. rewrite Nat2N.id in H. exact H.
Qed.
Lemma same_sparse_values {A V} (h h' : HashHistogram A V) : hh_axes h = hh_axes h' -> (forall i, hash_value_at_index h i = hash_value_at_index h' i) -> h = h'.
Proof. destruct h as [a v], h' as [a' v']. cbn [hh_axes]. intros -> H. f_equal. apply map_eq. exact H. Qed.

(** Rebinning (C87, C90) is exact as well: every bin of a coarser histogram is the exact sum of the bins
    of the finer one that lie in it, and filling the items of the finer one into the coarser axes, each
    once and in any order, gives the coarser histogram, bit for bit. *)
Theorem C94_rebin : forall (prec emax : Z) (P : Prec_gt_0 prec) (E : Prec_lt_emax prec emax) (B : Build) A1 A2 (AX1 : Axis A1) (AX2 : Axis A2) RC RI (a1 : A1) (a2 : A2) n1 n2 group (e : Z)
  (calls : list (@fill_op A1 (binary_float prec emax) Empty_set AX1 * Z)) (calls' : list (@fill_op A2 (binary_float prec emax) Empty_set AX2)),
  let flt := binary_float prec emax in
  let FV := float_fill prec emax P E in let FD := float_fill_with prec emax P E in let FW := float_no_weighted prec emax in let DV := float_default prec emax P E in
  covered_format prec emax -> grid_exponent prec emax e -> calls_on_grid e calls -> stays_within (- 2 ^ prec) (2 ^ prec) (map snd calls) ->
  coarsens AX1 AX2 RC RI a1 a2 n1 n2 group -> Forall2 (same_call AX1 AX2 RC) (map fst calls) calls' ->
  let exact_sum j (items : list (@Item (@Interval A1 AX1) flt)) := sumR (map (fun it => B2R (it_value it)) (List.filter (fun it => group (it_index it) =? j) items)) in
  (exists fine coarse items, @dense_filled A1 flt flt Empty_set AX1 FV FD FW DV a1 (map fst calls) = Val fine
     /\ @dense_filled A2 flt flt Empty_set AX2 FV FD FW DV a2 calls' = Val coarse /\ @vec_iter A1 flt AX1 fine = Val items
     /\ (forall j, j < n2 -> exists v, vec_value_at_index coarse j = Some v /\ is_finite v = true /\ B2R v = exact_sum j items)
     /\ forall refills, @refill A2 _ flt Empty_set AX2 a2 group items refills -> @dense_filled A2 flt flt Empty_set AX2 FV FD FW DV a2 refills = Val coarse)
  /\ (exists fine coarse, @sparse_filled A1 flt flt Empty_set AX1 FV FD FW DV a1 (map fst calls) = Val fine
     /\ @sparse_filled A2 flt flt Empty_set AX2 FV FD FW DV a2 calls' = Val coarse
     /\ forall order, an_order (hash_as_map fine) order -> exists items, @hash_iter A1 flt AX1 fine order = Val items
     /\ (forall j, j < n2 -> match hash_value_at_index coarse j with Some v => is_finite v = true /\ B2R v = exact_sum j items | None => exact_sum j items = 0%R end)
     /\ forall refills, @refill A2 _ flt Empty_set AX2 a2 group items refills -> @sparse_filled A2 flt flt Empty_set AX2 FV FD FW DV a2 refills = Val coarse).
Proof.
  intros prec emax P E B A1 A2 AX1 AX2 RC RI a1 a2 n1 n2 group e calls calls' flt FV FD FW DV Hcov Hge Hg Hw HR Hs exact_sum.
  destruct (co_bins_1 _ _ _ _ _ _ _ _ _ HR) as [N1 B1]. destruct (co_bins_2 _ _ _ _ _ _ _ _ _ HR) as [N2 B2].
  destruct (calls2_facts prec emax P E e AX1 AX2 RC RI a1 a2 n1 n2 group HR calls calls' Hg Hs) as [C1 [C2 [C3 [C4 [C5 C6]]]]].
  set (cs2 := calls2 prec emax AX1 AX2 calls calls') in *.
  assert (Hix : forall p, In p calls -> exists r, index a1 (op_coordinate (fst p)) = Val r /\ forall i, r = Some i -> i < n1).
  { intros p Hp. apply (in_map fst) in Hp. clear -HR Hs Hp. induction Hs as [|o1 o2 l1 l2 H _ IH]; [destruct Hp|]. destruct Hp as [<-|Hp]; [|exact (IH Hp)].
    destruct (co_index _ _ _ _ _ _ _ _ _ HR _ _ (same_call_coordinate _ _ H)) as (r & Er & Hr & _). exists r. auto. }
  assert (Hw2 : stays_within (- 2 ^ prec) (2 ^ prec) (map snd cs2)) by (rewrite C2; exact Hw).
  assert (Hv2 : forall j, grid_value e (in_units prec emax P E e (units_in a2 j cs2)) (units_in a2 j cs2)).
  { intros j. apply in_units_value; [exact Hcov | exact Hge|]. pose proof (stays_sum _ _ _ (stays_filter _ _ snd (fun p => lands_in a2 j (fst p)) _ Hw2)). unfold units_in. lia. }
  destruct (C94_exact_sums prec emax P E B A1 AX1 a1 n1 e calls Hcov Hge Hg Hw N1) as [[h1 [D1 [X1 [L1 V1]]]] [s1 [S1 [Y1 W1]]]]; [intros p Hp; destruct (Hix p Hp) as [r [Er _]]; eauto|].
  destruct (C94_exact_sums prec emax P E B A2 AX2 a2 n2 e cs2 Hcov Hge C3 Hw2 N2 C4) as [[h2 [D2 [X2 [L2 V2]]]] [s2 [S2 [Y2 W2]]]].
  rewrite C1 in D2, S2, W2.
  split.
  - destruct (C32_vec_iter A1 flt AX1 h1 n1) as (items & It & Il & Iv & _); [exact (eq_ind_r (fun z => has_bins AX1 z n1) (conj N1 B1) X1) | exact (eq_trans (f_equal N.of_nat L1) (N2Nat.id n1))|].
    exists h1, h2, items. split; [exact D1|]. split; [exact D2|]. split; [exact It|].
    assert (Hkeys : map it_index items = map N.of_nat (seq 0 (N.to_nat n1))).
    { apply nth_error_ext_all. intros k. rewrite !nth_error_map. destruct (nth_error items k) as [it|] eqn:Ek.
      - assert (Hk : (k < N.to_nat n1)%nat) by (assert (k < length items)%nat by (apply nth_error_Some; congruence); lia).
        rewrite (nth_error_nth' _ 0%nat), seq_nth by (rewrite ?seq_length; exact Hk). cbn [option_map]. f_equal. exact (proj1 (Iv k it Ek)).
      - apply nth_error_None in Ek. symmetry. rewrite (proj2 (nth_error_None (seq 0 (N.to_nat n1)) k)) by (rewrite seq_length; lia). reflexivity. }
    assert (Hnd : NoDup (map it_index items)).
    { rewrite Hkeys. apply NoDup_ListNoDup, FinFun.Injective_map_NoDup; [intros x y; lia | apply seq_NoDup]. }
    assert (Hval : forall it, In it items -> it_value it = in_units prec emax P E e (units_in a1 (it_index it) calls)).
    { intros it Hi. apply In_nth_error in Hi as [k Ek]. destruct (Iv k it Ek) as [I1 [_ I3]].
      assert (Hk : N.of_nat k < n1) by (assert (k < length items)%nat by (apply nth_error_Some; congruence); lia).
      pose proof (eq_trans (eq_sym (V1 _ Hk)) I3) as Q. injection Q as <-. rewrite I1. reflexivity. }
    assert (Hall : forall p i, In p calls -> index a1 (op_coordinate (fst p)) = Val (Some i) -> i ∈ map it_index items).
    { intros p i Hp Hi. destruct (Hix p Hp) as [r [Er Hr]]. rewrite Hi in Er. injection Er as <-. specialize (Hr i eq_refl). rewrite Hkeys. apply elem_of_list_In, in_map_iff.
      exists (N.to_nat i). split; [lia|]. apply in_seq. lia. }
    split.
    + intros j Hj. exists (in_units prec emax P E e (units_in a2 j cs2)). split; [exact (V2 j Hj)|]. split; [exact (proj1 (Hv2 j))|].
      refine (eq_trans (proj2 (Hv2 j)) (eq_sym _)). exact (items_exact prec emax P E Hcov e Hge AX1 AX2 RC RI a1 a2 n1 n2 group HR calls calls' Hg Hw Hs items Hnd Hval Hall j).
    + intros refills Hre.
      destruct (refills_known prec emax P E Hcov e Hge AX1 AX2 RC RI a1 a2 n1 n2 group HR calls calls' Hg Hw Hs items Hnd Hval Hall refills Hre) as (rc & R1 & R2 & R3 & R4 & R5 & _).
      destruct (C94_exact_sums prec emax P E B A2 AX2 a2 n2 e rc Hcov Hge R2 R3 N2 R4) as [[h3 [D3 [X3 [L3 V3]]]] _].
      rewrite R1 in D3. refine (eq_trans D3 (f_equal Val _)). apply same_dense_values; [exact (eq_trans X3 (eq_sym X2))|]. intros i. destruct (N.lt_ge_cases i n2) as [Hi|Hi].
      * refine (eq_trans (V3 i Hi) (eq_trans _ (eq_sym (V2 i Hi)))). rewrite R5. reflexivity.
      * unfold vec_value_at_index. rewrite !(proj2 (nth_error_None _ _)); [reflexivity| |]; unfold vec_values in L2, L3; [rewrite L2 | rewrite L3]; lia.
  - exists s1, s2. split; [exact S1|]. split; [exact S2|]. intros order Hor.
    assert (Hst : forall i v, hash_value_at_index s1 i = Some v -> i < n1).
    { intros i v. rewrite W1, reaching_fst. destruct (List.filter (fun p => lands_in a1 i (fst p)) calls) as [|p l] eqn:Ef; [discriminate|]. intros _.
      assert (Hp : In p (p :: l)) by (left; reflexivity). rewrite <- Ef in Hp. apply filter_In in Hp as [Hp Hl]. destruct (Hix p Hp) as [r [Er Hr]].
      unfold lands_in in Hl. rewrite Er in Hl. destruct r as [k|]; [|discriminate]. specialize (Hr k eq_refl). lia. }
    destruct (C31_hash_iter A1 flt AX1 s1 n1 order) as (items & It & Hnd' & Iin & Iall & _); [exact (eq_ind_r (fun z => has_bins AX1 z n1) (conj N1 B1) Y1) | exact Hst | exact Hor|].
    exists items. split; [exact It|].
    assert (Hval : forall it, In it items -> it_value it = in_units prec emax P E e (units_in a1 (it_index it) calls)).
    { intros it Hi. destruct (Iin it Hi) as [_ I3]. rewrite W1 in I3. destruct (reaching a1 (it_index it) (map fst calls)); [discriminate|]. injection I3 as <-. reflexivity. }
    assert (Hall : forall p i, In p calls -> index a1 (op_coordinate (fst p)) = Val (Some i) -> i ∈ map it_index items).
    { intros p i Hp Hi. assert (Hne : In p (List.filter (fun p => lands_in a1 i (fst p)) calls)) by (apply filter_In; split; [exact Hp|]; unfold lands_in; rewrite Hi; apply N.eqb_refl).
      pose proof (W1 i) as Wi. rewrite reaching_fst in Wi. destruct (List.filter (fun p => lands_in a1 i (fst p)) calls) as [|q l]; [destruct Hne|]. cbn [map] in Wi.
      destruct (Iall i _ Wi) as [b Hb]. apply elem_of_list_In, in_map_iff. exists (mkItem i b (in_units prec emax P E e (units_in a1 i calls))). split; [reflexivity | exact Hb]. }
    assert (Hempty : forall j, List.filter (fun it => group (it_index it) =? j) items = [] <-> reaching a2 j calls' = []).
    { intros j. rewrite C6. split; intros Ef.
      - destruct (List.filter (fun p => lands_among a1 (fun i => group i =? j) (fst p)) calls) as [|p l] eqn:E1; [reflexivity|exfalso].
        assert (Hp : In p (p :: l)) by (left; reflexivity). rewrite <- E1 in Hp. apply filter_In in Hp as [Hp Hl]. unfold lands_among in Hl.
        destruct (index a1 (op_coordinate (fst p))) as [[i|]|] eqn:Ei; try discriminate. specialize (Hall p i Hp Ei). apply elem_of_list_In, in_map_iff in Hall as [it [Hi Hit]].
        assert (Hf : In it (List.filter (fun it => group (it_index it) =? j) items)) by (apply filter_In; split; [exact Hit | rewrite Hi; exact Hl]). rewrite Ef in Hf. destruct Hf.
      - destruct (List.filter (fun it => group (it_index it) =? j) items) as [|it l] eqn:E1; [reflexivity|exfalso].
        assert (Hi : In it (it :: l)) by (left; reflexivity). rewrite <- E1 in Hi. apply filter_In in Hi as [Hi Hl]. destruct (Iin it Hi) as [_ I3].
        rewrite W1, reaching_fst in I3. destruct (List.filter (fun p => lands_in a1 (it_index it) (fst p)) calls) as [|p l'] eqn:E2; [discriminate|].
        assert (Hp : In p (p :: l')) by (left; reflexivity). rewrite <- E2 in Hp. apply filter_In in Hp as [Hp Hl'].
        assert (Hf : In p (List.filter (fun p => lands_among a1 (fun i => group i =? j) (fst p)) calls)).
        { apply filter_In. split; [exact Hp|]. unfold lands_in in Hl'. unfold lands_among. destruct (index a1 (op_coordinate (fst p))) as [[k|]|]; try discriminate.
          replace k with (it_index it) by lia. exact Hl. }
        rewrite Ef in Hf. destruct Hf. }
    pose proof (items_exact prec emax P E Hcov e Hge AX1 AX2 RC RI a1 a2 n1 n2 group HR calls calls' Hg Hw Hs items Hnd' Hval Hall) as Hex. fold cs2 in Hex.
    split.
    + intros j Hj. specialize (W2 j). destruct (reaching a2 j calls') as [|o l] eqn:Er.
      * refine (eq_ind_r (fun z => match z with Some v => is_finite v = true /\ B2R v = exact_sum j items | None => exact_sum j items = 0%R end) _ W2).
        unfold exact_sum. rewrite (proj2 (Hempty j) Er). reflexivity.
      * refine (eq_ind_r (fun z => match z with Some v => is_finite v = true /\ B2R v = exact_sum j items | None => exact_sum j items = 0%R end) _ W2). split; [exact (proj1 (Hv2 j))|]. exact (eq_trans (proj2 (Hv2 j)) (eq_sym (Hex j))).
    + intros refills Hre.
      destruct (refills_known prec emax P E Hcov e Hge AX1 AX2 RC RI a1 a2 n1 n2 group HR calls calls' Hg Hw Hs items Hnd' Hval Hall refills Hre) as (rc & R1 & R2 & R3 & R4 & R5 & R6).
      destruct (C94_exact_sums prec emax P E B A2 AX2 a2 n2 e rc Hcov Hge R2 R3 N2 R4) as [_ [h3 [D3 [X3 V3]]]].
      rewrite R1 in D3, V3. refine (eq_trans D3 (f_equal Val _)). apply same_sparse_values; [exact (eq_trans X3 (eq_sym Y2))|]. intros j. refine (eq_trans (V3 j) (eq_trans _ (eq_sym (W2 j)))). rewrite R5.
      exact (same_emptiness _ _ _ (iff_trans (R6 j) (Hempty j))).
Qed.
Print Assumptions C94_rebin.

(** Case: six bins of width 10 over 0..60 with flow bins, and two of width 30, in [f64], filled with
    the weights 0.5, 3.0, 1.0 (a plain [fill]), -2.5 and 1.5: 1, 6, 2, -5 and 3 halves. *)
Example C94_nonvacuous : forall B : Build,
  let ops := int_ops (signed 32) in let AX : Axis (Uniform Z) := uniform_axis ops in
  let fine := mkUniform 6 0%Z 60%Z 10%Z in let coarse := mkUniform 2 0%Z 60%Z 30%Z in
  let calls : list (@fill_op _ f64 Empty_set AX * Z) := [(CallFillWith 25%Z (f64_lit 1 (-1)), 1); (CallFillWith 31%Z (f64_lit 6 (-1)), 6); (CallFill 29%Z, 2);
     (CallFillWith 59%Z (f64_lit (-5) (-1)), -5); (CallFillWith (-4)%Z (f64_lit 3 (-1)), 3)]%Z in
  covered_format 53 1024 /\ grid_exponent 53 1024 (-1) /\ @calls_on_grid 53 1024 prec64 emax64 _ AX (-1) calls /\ stays_within (- 2 ^ 53) (2 ^ 53) (map snd calls)
  /\ primitive_int (signed 64) /\ stays_within (int_min (signed 64)) (int_max (signed 64)) (map snd calls)
  /\ num_bins fine = Val 8 /\ (forall p, In p calls -> exists r, index fine (op_coordinate (fst p)) = Val r)
  /\ (exists RC RI, coarsens AX AX RC RI fine coarse 8 4 (join_inner 3) /\ Forall2 (same_call AX AX RC) (map fst calls) (map fst calls))
  /\ map (fun i => units_in fine i calls) (range 8) = [3; 0; 0; 3; 6; 0; -5; 0]%Z
  /\ map (fun j => units_in coarse j calls) (range 4) = [3; 3; 1; 0]%Z.
Proof.
  intros B ops AX fine coarse calls. assert (He : grid_exponent 53 1024 (-1)) by (split; lia).
  split; [exact f64_covered|]. split; [exact He|].
  split. { assert (H1 : grid_value (-1) (Bone : f64) 2).
    { split; [apply is_finite_Bone|]. refine (eq_trans (Bone_correct 53 1024 prec64 emax64) _). change (bpow radix2 (-1)) with (/ 2)%R. lra. }
    assert (H : forall m, (Z.abs m <= 2 ^ 53)%Z -> grid_value (-1) (f64_lit m (-1)) m) by (intros m Hm; exact (f64_grid m (-1) Hm He)).
    unfold calls_on_grid, calls. apply List.Forall_cons; [exact (H 1%Z ltac:(lia))|]. apply List.Forall_cons; [exact (H 6%Z ltac:(lia))|]. apply List.Forall_cons; [exact H1|].
    apply List.Forall_cons; [exact (H (-5)%Z ltac:(lia))|]. apply List.Forall_cons; [exact (H 3%Z ltac:(lia))|]. apply List.Forall_nil. }
  change (map snd calls) with [1; 6; 2; -5; 3]%Z.
  split; [split; vm_compute; discriminate|]. split; [exists 64%Z; split; [lia | left; reflexivity]|]. split; [split; vm_compute; discriminate|].
  split; [destruct B as [[] []]; vm_compute; reflexivity|].
  split; [intros p Hp; repeat (destruct Hp as [<-|Hp]; [cbn [fst op_coordinate]; destruct B as [[] []]; eexists; reflexivity|]); destruct Hp|].
  split.
  - destruct (C87_uniform_int B (signed 32) 2 3 0 10) as (a & b & H1 & H2 & H3 & _); [lia| | |].
    + constructor; unfold fits; try (destruct B as [? []]; vm_compute; intuition discriminate). exists 32%Z. split; [lia | tauto].
    + unfold fits. vm_compute. intuition discriminate.
    + assert (Ea : uniform_with_step_size ops 6 0%Z 10%Z = Val (Ok fine)) by (destruct B as [[] []]; vm_compute; reflexivity).
      assert (Eb : uniform_with_step_size ops 2 0%Z 30%Z = Val (Ok coarse)) by (destruct B as [[] []]; vm_compute; reflexivity).
      pose proof (eq_trans (eq_sym H1) Ea) as Qa. injection Qa as ->. pose proof (eq_trans (eq_sym H2) Eb) as Qb. injection Qb as ->.
      eexists _, _. split; [exact H3|]. repeat (constructor; [constructor; split; [reflexivity | split; vm_compute; discriminate]|]). constructor.
  - unfold calls. generalize (f64_lit 1 (-1)), (f64_lit 6 (-1)), (f64_lit (-5) (-1)), (f64_lit 3 (-1)). intros x1 x2 x3 x4. split; destruct B as [[] []]; reflexivity.
Qed.
