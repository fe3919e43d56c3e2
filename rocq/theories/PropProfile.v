(** * PropProfile: histograms of means are quotients of histograms (C93). *)
From Coq Require Import List ZArith NArith Bool Lia ZifyN ZifyNat ZifyBool Reals Lra.
From Flocq Require Import Core IEEE754.BinarySingleNaN.
From stdpp Require Import gmap.
From Verif Require Import Base BaseFacts Num Float FloatFacts Axis Spec AxesSpec Category Value ValueFloat VecHist HashHist HistSpec
  HistFacts HashFacts OpsFacts PropHist PropHistIter PropOrder PropCount PropOps PropOpsMore PropPar ExactSpec SimSpec PropBinData.
Import ListNotations.
Open Scope N_scope.

(** A new histogram after the given calls. *)
Definition dense_filled {A V D W} {AX : Axis A} {FV : Fill V} {FD : FillWith V D} {FW : FillWithWeighted V D W} {DV : Default V} (a : A) (ops : list (fill_op D W)) : outcome (VecHistogram A V) :=
  let! h0 := vec_new a in vec_calls h0 ops.
Definition sparse_filled {A V D W} {AX : Axis A} {FV : Fill V} {FD : FillWith V D} {FW : FillWithWeighted V D W} {DV : Default V} (a : A) (ops : list (fill_op D W)) : outcome (HashHistogram A V) :=
  hash_calls (hash_new a) ops.

(** The data of the calls whose coordinates the axes put into bin [i], in call order. *)
Definition data_in {A X} {AX : Axis A} (a : A) (i : N) (xs : list (Coordinate * X)) : list X :=
  map snd (List.filter (fun x => match index a (fst x) with Val (Some j) => j =? i | _ => false end) xs).

Lemma filter_length_le' {X} (p : X -> bool) l : (length (List.filter p l) <= length l)%nat.
Proof. induction l as [|x l IH]; cbn; [lia|]. destruct (p x); cbn; lia. Qed.

Section Runs.
Context {A V D W X : Type} {AX : Axis A} (FV : Fill V) (FD : FillWith V D) (FW : FillWithWeighted V D W) (DV : Default V).
Context (mk : Coordinate * X -> fill_op D W) (Hmk : forall x, op_coordinate (mk x) = fst x) (f : list X -> V) (bound : nat).
Context (Hf : forall l, (length l <= bound)%nat -> apply_all (V := V) (map mk l) default_v = Val (f (map snd l))).

Lemma reaching_map (a : A) i xs : reaching a i (map mk xs) = map mk (List.filter (fun x => match index a (fst x) with Val (Some j) => j =? i | _ => false end) xs).
Proof.
  unfold reaching. induction xs as [|x xs IH]; [reflexivity|]. cbn [map List.filter]. unfold lands_in at 1. rewrite Hmk, IH.
  destruct (index a (fst x)) as [[j|]|]; [destruct (j =? i)| |]; reflexivity.
Qed.

Lemma apply_data (a : A) i xs : (length xs <= bound)%nat -> apply_all (V := V) (reaching a i (map mk xs)) default_v = Val (f (data_in a i xs)).
Proof. intros Hl. rewrite reaching_map. apply Hf. eapply Nat.le_trans; [apply filter_length_le' | exact Hl]. Qed.

Lemma run_dense (a : A) n xs : num_bins a = Val n -> (forall x, In x xs -> exists r, index a (fst x) = Val r) -> (length xs <= bound)%nat ->
  exists h, dense_filled a (map mk xs) = Val h /\ vh_axes h = a /\ length (vec_values h) = N.to_nat n
  /\ forall i, i < n -> vec_value_at_index h i = Some (f (data_in a i xs)).
Proof.
  intros Hn Hix Hl. unfold dense_filled.
  assert (H0 : exists h0, vec_new (V := V) a = Val h0) by (unfold vec_new; rewrite Hn; eexists; reflexivity).
  destruct H0 as [h0 H0]. rewrite H0. cbn [obind].
  assert (Hr : exists h, vec_calls h0 (map mk xs) = Val h).
  { apply (C28_vec_history_returns_iff _ _ _ _ _ _ _ _ _ _ _ _ _ Hn H0). split.
    - intros o Ho. apply in_map_iff in Ho as [x [<- Hx]]. rewrite Hmk. auto.
    - intros i _. eexists. apply apply_data. exact Hl. }
  destruct Hr as [h Hh]. exists h. split; [exact Hh|].
  destruct (C28_vec_contents_are_tally _ _ _ _ _ _ _ _ _ _ _ _ _ _ Hn H0 Hh) as [Ha [Hv _]].
  split; [exact Ha|]. split.
  - destruct (vec_calls_inv _ _ _ Hh) as [_ [Hlen _]]. unfold vec_new in H0. rewrite Hn in H0. cbn [obind] in H0. injection H0 as <-.
    cbn [vh_values] in Hlen. rewrite repeat_length in Hlen. exact Hlen.
  - intros i Hi. destruct (Hv i Hi) as [v [E1 E2]]. rewrite apply_data in E2 by exact Hl. injection E2 as <-. exact E1.
Qed.

Lemma run_sparse (a : A) xs : (forall x, In x xs -> exists r, index a (fst x) = Val r) -> (length xs <= bound)%nat ->
  exists h, sparse_filled a (map mk xs) = Val h /\ hh_axes h = a
  /\ forall i, hash_value_at_index h i = match data_in a i xs with [] => None | _ => Some (f (data_in a i xs)) end.
Proof.
  intros Hix Hl. unfold sparse_filled.
  assert (Hr : exists h, hash_calls (V := V) (hash_new a) (map mk xs) = Val h).
  { apply C29_hash_history_returns_iff. split.
    - intros o Ho. apply in_map_iff in Ho as [x [<- Hx]]. rewrite Hmk. auto.
    - intros i. eexists. apply apply_data. exact Hl. }
  destruct Hr as [h Hh]. exists h. split; [exact Hh|].
  destruct (C29_hash_contents_are_tally _ _ _ _ _ _ _ _ _ _ _ _ Hh) as [Ha [Hv0 [Hv1 _]]].
  split; [exact Ha|]. intros i. specialize (Hv0 i). specialize (Hv1 i). rewrite apply_data in Hv1 by exact Hl. rewrite reaching_map in Hv0, Hv1.
  destruct (data_in a i xs) as [|d l] eqn:Ed; unfold data_in in Ed.
  - apply Hv0. apply map_eq_nil in Ed. rewrite Ed. reflexivity.
  - destruct Hv1 as [v [E1 E2]]; [intros E; apply map_eq_nil in E; rewrite E in Ed; discriminate|]. injection E2 as <-. exact E1.
Qed.
End Runs.

Section Values.
Context (prec emax : Z) (P : Prec_gt_0 prec) (E : Prec_lt_emax prec emax) {B : Build} (t : int_type).
Notation flt := (binary_float prec emax).
Notation ops := (float_ops prec emax P E).
Notation plus := (Bplus mode_NE).
Notation mult := (Bmult mode_NE).
Context {A : Type} {AX : Axis A}.
Notation limit := (Z.to_nat (Z.min (2 ^ prec) (int_max t))).
Notation total l := (fold_left plus l (B754_zero false : flt)).
Notation count l := (float_of_N prec emax P E (N.of_nat (length l))).

Lemma mult_one (x : flt) : mult x Bone = x.
Proof.
  destruct x as [s|s| |s m e H] eqn:Ex; [| | reflexivity |].
  1,2: pose proof (Bsign_Bone prec emax P E) as S1; pose proof (is_finite_Bone prec emax P E) as F1; pose proof (Bone_correct prec emax P E) as V1;
    destruct (Bone : flt) as [s1|s1| |s1 m1 e1 H1]; try discriminate; cbn in S1, V1 |- *; subst s1; try (now rewrite xorb_false_r); exfalso; lra.
  rewrite <- Ex. assert (F : is_finite x = true) by (rewrite Ex; reflexivity).
  pose proof (Bmult_correct prec emax P E mode_NE x Bone) as K. rewrite Bone_correct, Rmult_1_r in K.
  rewrite round_generic in K; [|apply valid_rnd_round_mode | apply generic_format_B2R].
  rewrite Rlt_bool_true in K by apply abs_B2R_lt_emax. destruct K as [K1 [K2 K3]]. rewrite F, is_finite_Bone in K2. cbn in K2.
  apply B2R_sign_inj; [exact K2 | exact F | exact K1|]. rewrite K3, Bsign_Bone by (destruct (Bmult mode_NE x Bone); [reflexivity | discriminate K2 | discriminate K2 | reflexivity]). apply xorb_false_r.
Qed.

(** What the bins hold after the data [l]. *)
Definition sum_fields {X} (g : X -> flt) (l : list X) : flt := total (map g l).
Definition count_fields {X} (l : list X) : flt := count l.
Definition mean_fields (l : list flt) : Mean flt Z := mkMean (total l) (total (map (fun d => mult d d) l)) (Z.of_nat (length l)).
Definition weighted_fields (xs : list (flt * flt)) : WeightedMean flt flt Z :=
  mkWeightedMean (total (map (fun x => mult (fst x) (snd x)) xs)) (total (map (fun x => mult (mult (fst x) (fst x)) (snd x)) xs))
          (total (map snd xs)) (total (map (fun x => mult (snd x) (snd x)) xs)) (Z.of_nat (length xs)).

(** Bins of one number type. *)
Lemma sum_data {X} (g : X -> flt) (l : list (Coordinate * X)) :
  @apply_all A flt flt Empty_set AX (float_fill prec emax P E) (float_fill_with prec emax P E) (float_no_weighted prec emax)
    (map (fun x => CallFillWith (fst x) (g (snd x))) l) (B754_zero false) = Val (sum_fields g (map snd l)).
Proof.
  unfold sum_fields. generalize (B754_zero false : flt). induction l as [|x l IH]; intros s; [reflexivity|]. unfold apply_all in *. cbn [map foldo op_effect].
  cbn [fill_with_v float_fill_with num_fill_with n_add float_ops obind]. rewrite IH. reflexivity.
Qed.

Lemma count_data {X} (l : list (Coordinate * X)) : (1 < prec)%Z -> (Z.of_nat (length l) <= 2 ^ prec)%Z ->
  @apply_all A flt flt Empty_set AX (float_fill prec emax P E) (float_fill_with prec emax P E) (float_no_weighted prec emax)
    (map (fun x => CallFill (fst x)) l) (B754_zero false) = Val (count_fields (map snd l)).
Proof.
  intros Hp Hl. unfold count_fields. pose proof (all_count0 prec emax P E Hp (AX := AX) (map fst l)) as K. unfold fills in K. rewrite map_map in K.
  eapply eq_trans; [exact K|]. do 2 f_equal. rewrite !map_length. lia.
Qed.

Lemma int_step k : (int_min t <= 0)%Z -> (0 <= k < int_max t)%Z -> @n_add _ (int_ops t) k (@n_one _ (int_ops t)) = Val (k + 1)%Z.
Proof. intros H0 Hk. cbn. unfold int_result, in_range. destruct (Z.leb_spec (int_min t) (k + 1)), (Z.leb_spec (k + 1) (int_max t)); try lia. reflexivity. Qed.

Lemma mean_data (FV : Fill (Mean flt Z)) (FW : FillWithWeighted (Mean flt Z) flt Empty_set) (l : list (Coordinate * flt)) :
  (int_min t <= 0)%Z -> (Z.of_nat (length l) <= int_max t)%Z ->
  let FD := {| fill_with_v := mean_fill_with ops (int_ops t) |} in
  @apply_all A (Mean flt Z) flt Empty_set AX FV FD FW (map (fun x => CallFillWith (fst x) (snd x)) l) (mean_default ops (int_ops t))
  = Val (mean_fields (map snd l)).
Proof.
  intros Hm Hl FD. unfold mean_fields. unfold mean_default. cbn [n_zero float_ops int_ops].
  enough (H : forall s s2 k, (0 <= k)%Z -> (k + Z.of_nat (length l) <= int_max t)%Z ->
    @apply_all A (Mean flt Z) flt Empty_set AX FV FD FW (map (fun x => CallFillWith (fst x) (snd x)) l) (mkMean s s2 k)
    = Val (mkMean (fold_left plus (map snd l) s) (fold_left plus (map (fun d => mult d d) (map snd l)) s2) (k + Z.of_nat (length l))%Z)).
  { rewrite H by lia. rewrite map_length. reflexivity. }
  clear Hl. induction l as [|x l IH]; intros s s2 k Hk Hl; unfold apply_all in *; cbn [map foldo op_effect length].
  - cbn [fold_left]. do 2 f_equal. lia.
  - cbn [fill_with_v FD]. unfold mean_fill_with. cbn [m_sumw m_sumw2 m_count n_add n_mul float_ops obind].
    pose proof (int_step k Hm ltac:(cbn [length] in Hl; lia)) as K. cbn [n_add n_one int_ops] in K |- *. rewrite K. cbn [obind]. rewrite IH by (cbn [length] in Hl; lia).
    cbn [fold_left]. do 2 f_equal. lia.
Qed.

Lemma weightedmean_data (FV : Fill (WeightedMean flt flt Z)) (FD : FillWith (WeightedMean flt flt Z) flt) (l : list (Coordinate * (flt * flt))) :
  (int_min t <= 0)%Z -> (Z.of_nat (length l) <= int_max t)%Z ->
  let FW := {| fill_with_weighted_v := weightedmean_fill ops (int_ops t) |} in
  @apply_all A (WeightedMean flt flt Z) flt flt AX FV FD FW (map (fun x => CallFillWithWeighted (fst x) (fst (snd x)) (snd (snd x))) l) (weightedmean_default ops (int_ops t))
  = Val (weighted_fields (map snd l)).
Proof.
  intros Hm Hl FW. unfold weighted_fields. set (xs := map snd l). unfold weightedmean_default. cbn [n_zero float_ops int_ops].
  enough (H : forall s1 s2 s3 s4 k, (0 <= k)%Z -> (k + Z.of_nat (length l) <= int_max t)%Z ->
    @apply_all A (WeightedMean flt flt Z) flt flt AX FV FD FW (map (fun x => CallFillWithWeighted (fst x) (fst (snd x)) (snd (snd x))) l) (mkWeightedMean s1 s2 s3 s4 k)
    = Val (mkWeightedMean (fold_left plus (map (fun x => mult (fst x) (snd x)) xs) s1) (fold_left plus (map (fun x => mult (mult (fst x) (fst x)) (snd x)) xs) s2)
          (fold_left plus (map snd xs) s3) (fold_left plus (map (fun x => mult (snd x) (snd x)) xs) s4) (k + Z.of_nat (length l))%Z)).
  { rewrite H by lia. unfold xs. rewrite map_length. reflexivity. }
  clear Hl. subst xs. induction l as [|x l IH]; intros s1 s2 s3 s4 k Hk Hl; unfold apply_all in *; cbn [map foldo op_effect length].
  - cbn [fold_left]. do 2 f_equal. lia.
  - cbn [fill_with_weighted_v FW]. unfold weightedmean_fill. cbn [wm_sumwt wm_sumwt2 wm_sumw wm_sumw2 wm_count n_add n_mul float_ops obind].
    pose proof (int_step k Hm ltac:(cbn [length] in Hl; lia)) as K. cbn [n_add n_one int_ops] in K |- *. rewrite K. cbn [obind]. rewrite IH by (cbn [length] in Hl; lia).
    cbn [fold_left]. do 2 f_equal. lia.
Qed.
End Values.

(** The quotient of two histograms over the same axes, bin by bin. *)
Lemma quotient_dense {A T} {AX : Axis A} {AE : AxisEq A} (op : T -> T -> outcome T) (l r : VecHistogram A T) n (x y z : N -> T) :
  axis_eqb (vh_axes l) (vh_axes r) = true -> length (vec_values l) = N.to_nat n -> length (vec_values r) = N.to_nat n ->
  (forall i, i < n -> vec_value_at_index l i = Some (x i)) -> (forall i, i < n -> vec_value_at_index r i = Some (y i)) ->
  (forall i, i < n -> op (x i) (y i) = Val (z i)) ->
  exists q, vec_binop_borrowed op l r = Val (Ok q) /\ vh_axes q = vh_axes l /\ length (vec_values q) = N.to_nat n /\ forall i, i < n -> vec_value_at_index q i = Some (z i).
Proof.
  intros Hax Ll Lr Hx Hy Hz. unfold vec_binop_borrowed. rewrite Hax. cbn [negb]. unfold vec_value_at_index, vec_values in *.
  assert (H : exists vs, mapo (fun p : T * T => op (fst p) (snd p)) (combine (vh_values l) (vh_values r)) = Val vs /\ length vs = N.to_nat n
    /\ forall k, (k < N.to_nat n)%nat -> nth_error vs k = Some (z (N.of_nat k))).
  { assert (Hx' : forall k, (k < N.to_nat n)%nat -> nth_error (vh_values l) k = Some (x (N.of_nat k))).
    { intros k Hk. rewrite <- (Hx (N.of_nat k)) by lia. now rewrite Nat2N.id. }
    assert (Hy' : forall k, (k < N.to_nat n)%nat -> nth_error (vh_values r) k = Some (y (N.of_nat k))).
    { intros k Hk. rewrite <- (Hy (N.of_nat k)) by lia. now rewrite Nat2N.id. }
    assert (Hz' : forall k, (k < N.to_nat n)%nat -> op (x (N.of_nat k)) (y (N.of_nat k)) = Val (z (N.of_nat k))) by (intros k Hk; apply Hz; lia).
    clear Hx Hy Hz. set (X := fun k => x (N.of_nat k)) in *. set (Y := fun k => y (N.of_nat k)) in *. set (Z := fun k => z (N.of_nat k)) in *.
    change (forall k, (k < N.to_nat n)%nat -> nth_error (vh_values l) k = Some (X k)) in Hx'.
    change (forall k, (k < N.to_nat n)%nat -> nth_error (vh_values r) k = Some (Y k)) in Hy'.
    change (forall k, (k < N.to_nat n)%nat -> op (X k) (Y k) = Val (Z k)) in Hz'.
    change (exists vs, mapo (fun p : T * T => op (fst p) (snd p)) (combine (vh_values l) (vh_values r)) = Val vs /\ length vs = N.to_nat n
      /\ forall k, (k < N.to_nat n)%nat -> nth_error vs k = Some (Z k)).
    revert Ll Lr Hx' Hy' Hz'. generalize (N.to_nat n) (vh_values l) (vh_values r) X Y Z. clear.
    intros m. induction m as [|m IH]; intros [|u us] [|v vs] X Y Z Ll Lr Hx Hy Hz; try discriminate.
    - exists []. split; [reflexivity|]. split; [reflexivity|]. lia.
    - pose proof (Hx 0%nat ltac:(lia)) as X0. pose proof (Hy 0%nat ltac:(lia)) as Y0. pose proof (Hz 0%nat ltac:(lia)) as Z0. injection X0 as ->. injection Y0 as ->.
      destruct (IH us vs (fun k => X (S k)) (fun k => Y (S k)) (fun k => Z (S k))) as [ws [E1 [E2 E3]]].
      + now injection Ll.
      + now injection Lr.
      + intros k Hk. apply (Hx (S k)). lia.
      + intros k Hk. apply (Hy (S k)). lia.
      + intros k Hk. apply (Hz (S k)). lia.
      + exists (Z 0%nat :: ws). cbn [combine mapo fst snd]. rewrite Z0. cbn [obind]. rewrite E1. split; [reflexivity|]. split; [cbn; lia|].
        intros [|k] Hk; [reflexivity|]. apply E3. lia. }
  destruct H as [vs [E1 [E2 E3]]]. rewrite E1. cbn [obind]. eexists. split; [reflexivity|]. split; [reflexivity|]. split; [exact E2|].
  intros i Hi. cbn [vh_values]. rewrite E3 by lia. now rewrite N2Nat.id.
Qed.

Lemma quotient_sparse {A T X} {AX : Axis A} {AE : AxisEq A} {DV : Default T} (op : T -> T -> outcome T) (l r : HashHistogram A T) keys order (x y z : list X -> T) (d : N -> list X) :
  axis_eqb (hh_axes l) (hh_axes r) = true -> NoDup keys ->
  (forall i, i ∈ keys <-> is_Some (hash_value_at_index l i) \/ is_Some (hash_value_at_index r i)) -> an_order (hash_as_map r) order ->
  (forall i, hash_value_at_index l i = match d i with [] => None | _ => Some (x (d i)) end) ->
  (forall i, hash_value_at_index r i = match d i with [] => None | _ => Some (y (d i)) end) ->
  (forall i, op (x (d i)) (y (d i)) = Val (z (d i))) ->
  exists q, hash_binop_borrowed op l r keys = Val (Ok q) /\ hash_binop_owned op l r order = Val (Ok q) /\ hash_binop_assign op l r order = Val q
  /\ hh_axes q = hh_axes l /\ forall i, hash_value_at_index q i = match d i with [] => None | _ => Some (z (d i)) end.
Proof.
  intros Hax Nk Hk Or Hx Hy Hz.
  assert (Hv : forall i, hash_value_at_index l i = Some (x (d i)) /\ hash_value_at_index r i = Some (y (d i)) /\ d i <> [] \/ hash_value_at_index l i = None /\ hash_value_at_index r i = None /\ d i = []).
  { intros i. rewrite Hx, Hy. destruct (d i); [right; auto | left; repeat split; discriminate]. }
  destruct (C38_sparse_operators A T AX AE DV op l r keys order Nk Hk Or) as [_ [E2 E3]]. destruct (E3 Hax) as [Hb [_ Hsame]]. clear E3.
  destruct (C38_sparse_operators_panic A T AX AE DV op l r keys order Nk Hk Or Hax) as [Pb _].
  assert (Hs : forall i v, hash_value_at_index l i = Some v -> hash_value_at_index r i = None -> op v default_v = Val v).
  { intros i v H1 H2. exfalso. destruct (Hv i) as [[_ [H3 _]]|[H3 _]]; congruence. }
  destruct (Hsame Hs) as [S1 S2].
  assert (Hnp : hash_binop_borrowed op l r keys <> Panic).
  { intros Hp. apply Pb in Hp as [i [Hi Hp]]. unfold counts_for in Hp. destruct (Hv i) as [[H1 [H2 _]]|[H1 [H2 _]]].
    - rewrite H1, H2, Hz in Hp. discriminate.
    - rewrite H1, H2 in Hi. destruct Hi as [[? ?]|[? ?]]; discriminate. }
  destruct (hash_binop_borrowed op l r keys) as [[q|e]|] eqn:Eq; [| |contradiction].
  2: { exfalso. unfold hash_binop_borrowed in Eq. rewrite Hax in Eq. cbn [negb] in Eq. apply obind_val in Eq as [m [_ Eq]]. discriminate. }
  destruct (Hb q eq_refl) as [Qa Qv]. exists q. split; [reflexivity|]. split; [exact S1|]. split; [rewrite S2; reflexivity|]. split; [exact Qa|].
  intros i. specialize (Qv i). destruct (Hv i) as [[H1 [H2 H3]]|[H1 [H2 H3]]]; rewrite ?H1, ?H2 in Qv; [|rewrite H3; exact Qv].
  destruct Qv as [w [W1 W2]]. rewrite Hz in W1. injection W1 as <-. rewrite W2. destruct (d i); [contradiction H3; reflexivity | reflexivity].
Qed.

Lemma pointwise {V V'} (R : V -> V' -> Prop) (l : list V) (l' : list V') n (f : N -> V) (g : N -> V') :
  length l = N.to_nat n -> length l' = N.to_nat n -> (forall i, i < n -> nth_error l (N.to_nat i) = Some (f i)) -> (forall i, i < n -> nth_error l' (N.to_nat i) = Some (g i)) ->
  (forall i, i < n -> R (f i) (g i)) -> Forall2 R l l'.
Proof.
  intros L1 L2 H1 H2 HR.
  enough (K : forall k v v', nth_error l k = Some v -> nth_error l' k = Some v' -> R v v').
  { clear H1 H2. rewrite <- L1 in L2. clear L1 HR. revert l' L2 K. induction l as [|v l IH]; intros [|v' l'] L K; try discriminate; constructor.
    - exact (K 0%nat v v' eq_refl eq_refl).
    - apply IH; [now injection L|]. intros k. exact (K (S k)). }
  intros k v v' E1 E2. assert (Hk : (k < length l)%nat) by (apply nth_error_Some; congruence).
  assert (Hi : N.of_nat k < n) by lia. specialize (H1 _ Hi). specialize (H2 _ Hi). rewrite Nat2N.id in H1, H2. rewrite E1 in H1. rewrite E2 in H2.
  injection H1 as ->. injection H2 as ->. apply HR. exact Hi.
Qed.

(** C93. The histogram of weighted means is the quotient of two plain histograms: the one filled with
    the products of samples and weights by the one filled with the weights. Bit for bit, for each bin (an
    empty bin of a dense histogram is 0/0); sparse histograms hold the same bins. *)
Theorem C93_weighted_means : forall (prec emax : Z) (P : Prec_gt_0 prec) (E : Prec_lt_emax prec emax) (B : Build) (t : int_type) A (AX : Axis A) (AE : AxisEq A)
  (FV' : Fill (WeightedMean (binary_float prec emax) (binary_float prec emax) Z)) (FD' : FillWith (WeightedMean (binary_float prec emax) (binary_float prec emax) Z) (binary_float prec emax))
  (a : A) n (xs : list (Coordinate * (binary_float prec emax * binary_float prec emax))),
  let flt := binary_float prec emax in let ops := float_ops prec emax P E in
  let FV := float_fill prec emax P E in let FD := float_fill_with prec emax P E in let FW := float_no_weighted prec emax in let DV := float_default prec emax P E in
  let FW' := {| fill_with_weighted_v := weightedmean_fill ops (int_ops t) |} in let DV' := {| default_v := weightedmean_default ops (int_ops t) |} in
  primitive_int t -> num_bins a = Val n -> (forall x, In x xs -> exists r, index a (fst x) = Val r) -> axis_eqb a a = true ->
  (Z.of_nat (length xs) <= int_max t)%Z ->
  let samples : list (fill_op flt flt) := map (fun x => CallFillWithWeighted (fst x) (fst (snd x)) (snd (snd x))) xs in
  let products : list (fill_op flt Empty_set) := map (fun x => CallFillWith (fst x) (Bmult mode_NE (fst (snd x)) (snd (snd x)))) xs in
  let weights : list (fill_op flt Empty_set) := map (fun x => CallFillWith (fst x) (snd (snd x))) xs in
  let is_mean (m : WeightedMean flt flt Z) (v : flt) := weightedmean_mean ops (fun x => x) m = Val v in
  (exists (means : VecHistogram A (WeightedMean flt flt Z)) (tops bottoms quotient : VecHistogram A flt),
     dense_filled a samples = Val means /\ dense_filled a products = Val tops /\ dense_filled a weights = Val bottoms
     /\ vec_binop_borrowed (@n_div _ ops) tops bottoms = Val (Ok quotient)
     /\ vh_axes quotient = a /\ Forall2 is_mean (vec_values means) (vec_values quotient))
  /\ (exists (means : HashHistogram A (WeightedMean flt flt Z)) (tops bottoms : HashHistogram A flt),
     sparse_filled a samples = Val means /\ sparse_filled a products = Val tops /\ sparse_filled a weights = Val bottoms
     /\ forall keys order, NoDup keys -> (forall i, i ∈ keys <-> is_Some (hash_value_at_index tops i) \/ is_Some (hash_value_at_index bottoms i)) -> an_order (hash_as_map bottoms) order ->
        exists quotient, hash_binop_borrowed (@n_div _ ops) tops bottoms keys = Val (Ok quotient)
          /\ hash_binop_owned (@n_div _ ops) tops bottoms order = Val (Ok quotient) /\ hash_binop_assign (@n_div _ ops) tops bottoms order = Val quotient
          /\ hh_axes quotient = a /\ forall i, option_rel is_mean (hash_value_at_index means i) (hash_value_at_index quotient i)).
Proof.
  intros prec emax P E B t A AX AE FV' FD' a n xs flt ops FV FD FW DV FW' DV' Ht Hn Hix Hax Hl samples products weights is_mean.
  assert (H0 : (int_min t <= 0)%Z) by (destruct Ht as [w [Hw [-> | ->]]]; cbn [int_min signed unsigned]; [pose proof (Z.pow_nonneg 2 (w - 1)) |]; lia).
  assert (Hlen : forall l : list (Coordinate * (flt * flt)), (length l <= length xs)%nat -> (Z.of_nat (length l) <= int_max t)%Z) by (intros l Hll; lia).
  pose proof (fun l (Hll : (length l <= length xs)%nat) => weightedmean_data prec emax P E t FV' FD' l H0 (Hlen l Hll)) as Km.
  pose proof (fun (l : list (Coordinate * (flt * flt))) (_ : (length l <= length xs)%nat) => sum_data prec emax P E (AX := AX) (fun x : flt * flt => Bmult mode_NE (fst x) (snd x)) l) as Kp.
  pose proof (fun (l : list (Coordinate * (flt * flt))) (_ : (length l <= length xs)%nat) => sum_data prec emax P E (AX := AX) (fun x : flt * flt => snd x) l) as Kw.
  split.
  - destruct (run_dense FV' FD' FW' DV' (fun x : Coordinate * (flt * flt) => CallFillWithWeighted (fst x) (fst (snd x)) (snd (snd x))) (fun _ => eq_refl) (weighted_fields prec emax P E) (length xs) Km a n xs Hn Hix (le_n _)) as [hm [Em [Am [Lm Vm]]]].
    destruct (run_dense FV FD FW DV (fun x : Coordinate * (flt * flt) => CallFillWith (fst x) (Bmult mode_NE (fst (snd x)) (snd (snd x)))) (fun _ => eq_refl) (sum_fields prec emax P E (fun x : flt * flt => Bmult mode_NE (fst x) (snd x))) (length xs) Kp a n xs Hn Hix (le_n _)) as [hp [Ep [Ap [Lp Vp]]]].
    destruct (run_dense FV FD FW DV (fun x : Coordinate * (flt * flt) => CallFillWith (fst x) (snd (snd x))) (fun _ => eq_refl) (sum_fields prec emax P E (fun x : flt * flt => snd x)) (length xs) Kw a n xs Hn Hix (le_n _)) as [hw [Ew [Aw [Lw Vw]]]].
    destruct (quotient_dense (@n_div _ ops) hp hw n _ _ _ (eq_trans (f_equal2 axis_eqb Ap Aw) Hax) Lp Lw Vp Vw (fun i _ => eq_refl)) as [q [Eq [Aq [Lq Vq]]]].
    exists hm, hp, hw, q. do 4 (split; [assumption|]). split; [exact (eq_trans Aq Ap)|].
    apply (pointwise _ _ _ n _ _ Lm Lq Vm Vq). intros i Hi. reflexivity.
  - destruct (run_sparse FV' FD' FW' DV' (fun x : Coordinate * (flt * flt) => CallFillWithWeighted (fst x) (fst (snd x)) (snd (snd x))) (fun _ => eq_refl) (weighted_fields prec emax P E) (length xs) Km a xs Hix (le_n _)) as [hm [Em [Am Vm]]].
    destruct (run_sparse FV FD FW DV (fun x : Coordinate * (flt * flt) => CallFillWith (fst x) (Bmult mode_NE (fst (snd x)) (snd (snd x)))) (fun _ => eq_refl) (sum_fields prec emax P E (fun x : flt * flt => Bmult mode_NE (fst x) (snd x))) (length xs) Kp a xs Hix (le_n _)) as [hp [Ep [Ap Vp]]].
    destruct (run_sparse FV FD FW DV (fun x : Coordinate * (flt * flt) => CallFillWith (fst x) (snd (snd x))) (fun _ => eq_refl) (sum_fields prec emax P E (fun x : flt * flt => snd x)) (length xs) Kw a xs Hix (le_n _)) as [hw [Ew [Aw Vw]]].
    exists hm, hp, hw. do 3 (split; [assumption|]). intros keys order Nk Hk Or.
    destruct (quotient_sparse (@n_div _ ops) hp hw keys order _ _ (fun l => Bdiv mode_NE (sum_fields prec emax P E (fun x : flt * flt => Bmult mode_NE (fst x) (snd x)) l) (sum_fields prec emax P E (fun x : flt * flt => snd x) l))
      (fun i => data_in a i xs) (eq_trans (f_equal2 axis_eqb Ap Aw) Hax) Nk Hk Or Vp Vw (fun i => eq_refl)) as [q [Q1 [Q2 [Q3 [Q4 Q5]]]]].
    exists q. do 3 (split; [assumption|]). split; [exact (eq_trans Q4 Ap)|]. intros i. specialize (Vm i). specialize (Q5 i).
    unfold flt in *. rewrite Vm, Q5. destruct (data_in a i xs) as [|d l]; [exact I | reflexivity].
Qed.
Print Assumptions C93_weighted_means.

(** C93, unweighted: the histogram of means is the quotient of the histogram filled with the samples by
    the histogram that counts them; and weighting every sample by one gives the same means and the same
    numbers of samples. *)
Theorem C93_means : forall (prec emax : Z) (P : Prec_gt_0 prec) (E : Prec_lt_emax prec emax) (B : Build) (t : int_type) A (AX : Axis A) (AE : AxisEq A)
  (FV1 : Fill (Mean (binary_float prec emax) Z)) (FW1 : FillWithWeighted (Mean (binary_float prec emax) Z) (binary_float prec emax) Empty_set)
  (FV2 : Fill (WeightedMean (binary_float prec emax) (binary_float prec emax) Z)) (FD2 : FillWith (WeightedMean (binary_float prec emax) (binary_float prec emax) Z) (binary_float prec emax))
  (a : A) n (xs : list (Coordinate * binary_float prec emax)),
  let flt := binary_float prec emax in let ops := float_ops prec emax P E in
  let FV := float_fill prec emax P E in let FD := float_fill_with prec emax P E in let FW := float_no_weighted prec emax in let DV := float_default prec emax P E in
  let FD1 := {| fill_with_v := mean_fill_with ops (int_ops t) |} in let DV1 := {| default_v := mean_default ops (int_ops t) |} in
  let FW2 := {| fill_with_weighted_v := weightedmean_fill ops (int_ops t) |} in let DV2 := {| default_v := weightedmean_default ops (int_ops t) |} in
  (1 < prec)%Z -> primitive_int t -> num_bins a = Val n -> (forall x, In x xs -> exists r, index a (fst x) = Val r) -> axis_eqb a a = true ->
  (Z.of_nat (length xs) <= 2 ^ prec)%Z -> (Z.of_nat (length xs) <= int_max t)%Z ->
  let samples : list (fill_op flt Empty_set) := map (fun x => CallFillWith (fst x) (snd x)) xs in
  let once_each : list (fill_op flt Empty_set) := map (fun x => CallFill (fst x)) xs in
  let weights_one : list (fill_op flt flt) := map (fun x => CallFillWithWeighted (fst x) (snd x) Bone) xs in
  let same_mean (m : Mean flt Z) (v : flt) := mean_mean ops (fun x => x) (float_of_count prec emax P E) m = Val v in
  let agree (m : Mean flt Z) (m' : WeightedMean flt flt Z) :=
    mean_mean ops (fun x => x) (float_of_count prec emax P E) m = weightedmean_mean ops (fun x => x) m' /\ mean_num_samples m = weightedmean_num_samples m' in
  (exists (means : VecHistogram A (Mean flt Z)) (weighted : VecHistogram A (WeightedMean flt flt Z)) (sums counts quotient : VecHistogram A flt),
     dense_filled a samples = Val means /\ dense_filled a weights_one = Val weighted /\ dense_filled a samples = Val sums /\ dense_filled a once_each = Val counts
     /\ vec_binop_borrowed (@n_div _ ops) sums counts = Val (Ok quotient)
     /\ vh_axes quotient = a /\ Forall2 same_mean (vec_values means) (vec_values quotient) /\ Forall2 agree (vec_values means) (vec_values weighted))
  /\ (exists (means : HashHistogram A (Mean flt Z)) (weighted : HashHistogram A (WeightedMean flt flt Z)) (sums counts : HashHistogram A flt),
     sparse_filled a samples = Val means /\ sparse_filled a weights_one = Val weighted /\ sparse_filled a samples = Val sums /\ sparse_filled a once_each = Val counts
     /\ (forall i, option_rel agree (hash_value_at_index means i) (hash_value_at_index weighted i))
     /\ forall keys order, NoDup keys -> (forall i, i ∈ keys <-> is_Some (hash_value_at_index sums i) \/ is_Some (hash_value_at_index counts i)) -> an_order (hash_as_map counts) order ->
        exists quotient, hash_binop_borrowed (@n_div _ ops) sums counts keys = Val (Ok quotient)
          /\ hash_binop_owned (@n_div _ ops) sums counts order = Val (Ok quotient) /\ hash_binop_assign (@n_div _ ops) sums counts order = Val quotient
          /\ hh_axes quotient = a /\ forall i, option_rel same_mean (hash_value_at_index means i) (hash_value_at_index quotient i)).
Proof.
  intros prec emax P E B t A AX AE FV1 FW1 FV2 FD2 a n xs flt ops FV FD FW DV FD1 DV1 FW2 DV2 Hp Ht Hn Hix Hax Hl2 Hl samples once_each weights_one same_mean agree.
  assert (H0 : (int_min t <= 0)%Z) by (destruct Ht as [w [Hw [-> | ->]]]; cbn [int_min signed unsigned]; [pose proof (Z.pow_nonneg 2 (w - 1)) |]; lia).
  assert (Hlen : forall l : list (Coordinate * flt), (length l <= length xs)%nat -> (Z.of_nat (length l) <= int_max t)%Z) by (intros l Hll; lia).
  assert (Hlen2 : forall l : list (Coordinate * flt), (length l <= length xs)%nat -> (Z.of_nat (length l) <= 2 ^ prec)%Z) by (intros l Hll; lia).
  set (with_one := fun d : flt => (d, Bone : flt)).
  pose proof (fun l (Hll : (length l <= length xs)%nat) => mean_data prec emax P E t FV1 FW1 l H0 (Hlen l Hll)) as Km.
  assert (Kw : forall l : list (Coordinate * flt), (length l <= length xs)%nat ->
    @apply_all A (WeightedMean flt flt Z) flt flt AX FV2 FD2 FW2 (map (fun x => CallFillWithWeighted (fst x) (snd x) Bone) l) (weightedmean_default ops (int_ops t))
    = Val ((fun l => weighted_fields prec emax P E (map with_one l)) (map snd l))).
  { intros l Hll. pose proof (weightedmean_data prec emax P E t (AX := AX) FV2 FD2 (map (fun x : Coordinate * flt => (fst x, with_one (snd x))) l) H0) as K.
    rewrite map_length in K. specialize (K (Hlen l Hll)). cbv zeta in K. rewrite !map_map in K. rewrite map_map. exact K. }
  pose proof (fun (l : list (Coordinate * flt)) (_ : (length l <= length xs)%nat) => sum_data prec emax P E (AX := AX) (fun x : flt => x) l) as Ks.
  pose proof (fun (l : list (Coordinate * flt)) (Hll : (length l <= length xs)%nat) => count_data prec emax P E (AX := AX) l Hp (Hlen2 l Hll)) as Kc.
  assert (Hmean : forall l : list flt, mean_mean ops (fun x => x) (float_of_count prec emax P E) (mean_fields prec emax P E l)
    = Val (Bdiv mode_NE (sum_fields prec emax P E (fun x : flt => x) l) (count_fields prec emax P E l))).
  { intros l. unfold mean_mean, mean_fields, sum_fields, count_fields, float_of_count. cbn [m_sumw m_count n_div float_ops ops]. rewrite map_id.
    assert (K : Z.to_N (Z.of_nat (length l)) = N.of_nat (length l)) by (clear; lia).
    exact (f_equal (fun k => Val (Bdiv mode_NE (fold_left (Bplus mode_NE) l (B754_zero false)) (float_of_N prec emax P E k))) K). }
  assert (Hagree : forall l : list flt, (length l <= length xs)%nat -> agree (mean_fields prec emax P E l) (weighted_fields prec emax P E (map with_one l))).
  { intros l Hll. split; [|unfold mean_num_samples, weightedmean_num_samples; cbn [mean_fields weighted_fields m_count wm_count]; now rewrite map_length].
    eapply eq_trans; [apply Hmean|]. unfold weightedmean_mean, weighted_fields, sum_fields, count_fields. cbn [wm_sumwt wm_sumw n_div float_ops ops].
    rewrite !map_map. cbn [with_one fst snd]. do 2 f_equal.
    - f_equal. apply map_ext. intros x. symmetry. apply mult_one.
    - enough (K : forall k, (Z.of_N k + Z.of_nat (length l) <= 2 ^ prec)%Z ->
        fold_left (Bplus mode_NE) (map (fun _ : flt => Bone) l) (float_of_N prec emax P E k) = float_of_N prec emax P E (k + N.of_nat (length l))).
      { rewrite (zero_is_count prec emax P E), K by lia. reflexivity. }
      clear -Hp. induction l as [|x l IH]; intros k Hk; cbn [map fold_left length] in *; [f_equal; lia|].
      rewrite (one_is_count prec emax P E) at 1. rewrite (count_add prec emax P E) by lia. rewrite IH by lia. f_equal. lia. }
  assert (Hdata : forall i, (length (data_in a i xs) <= length xs)%nat) by (intros i; unfold data_in; rewrite map_length; apply filter_length_le').
  split.
  - destruct (run_dense FV1 FD1 FW1 DV1 (fun x : Coordinate * flt => CallFillWith (fst x) (snd x)) (fun _ => eq_refl) (mean_fields prec emax P E) (length xs) Km a n xs Hn Hix (le_n _)) as [hm [Em [Am [Lm Vm]]]].
    destruct (run_dense FV2 FD2 FW2 DV2 (fun x : Coordinate * flt => CallFillWithWeighted (fst x) (snd x) Bone) (fun _ => eq_refl) (fun l => weighted_fields prec emax P E (map with_one l)) (length xs) Kw a n xs Hn Hix (le_n _)) as [hw [Ew [Aw [Lw Vw]]]].
    destruct (run_dense FV FD FW DV (fun x : Coordinate * flt => CallFillWith (fst x) (snd x)) (fun _ => eq_refl) (sum_fields prec emax P E (fun x : flt => x)) (length xs) Ks a n xs Hn Hix (le_n _)) as [hs [Es [As [Ls Vs]]]].
    destruct (run_dense FV FD FW DV (fun x : Coordinate * flt => CallFill (fst x)) (fun _ => eq_refl) (count_fields prec emax P E) (length xs) Kc a n xs Hn Hix (le_n _)) as [hc [Ec [Ac [Lc Vc]]]].
    destruct (quotient_dense (@n_div _ ops) hs hc n _ _ _ (eq_trans (f_equal2 axis_eqb As Ac) Hax) Ls Lc Vs Vc (fun i _ => eq_refl)) as [q [Eq [Aq [Lq Vq]]]].
    exists hm, hw, hs, hc, q. do 5 (split; [assumption|]). split; [exact (eq_trans Aq As)|]. split.
    + apply (pointwise _ _ _ n _ _ Lm Lq Vm Vq). intros i Hi. apply Hmean.
    + apply (pointwise _ _ _ n _ _ Lm Lw Vm Vw). intros i Hi. apply Hagree. apply Hdata.
  - destruct (run_sparse FV1 FD1 FW1 DV1 (fun x : Coordinate * flt => CallFillWith (fst x) (snd x)) (fun _ => eq_refl) (mean_fields prec emax P E) (length xs) Km a xs Hix (le_n _)) as [hm [Em [Am Vm]]].
    destruct (run_sparse FV2 FD2 FW2 DV2 (fun x : Coordinate * flt => CallFillWithWeighted (fst x) (snd x) Bone) (fun _ => eq_refl) (fun l => weighted_fields prec emax P E (map with_one l)) (length xs) Kw a xs Hix (le_n _)) as [hw [Ew [Aw Vw]]].
    destruct (run_sparse FV FD FW DV (fun x : Coordinate * flt => CallFillWith (fst x) (snd x)) (fun _ => eq_refl) (sum_fields prec emax P E (fun x : flt => x)) (length xs) Ks a xs Hix (le_n _)) as [hs [Es [As Vs]]].
    destruct (run_sparse FV FD FW DV (fun x : Coordinate * flt => CallFill (fst x)) (fun _ => eq_refl) (count_fields prec emax P E) (length xs) Kc a xs Hix (le_n _)) as [hc [Ec [Ac Vc]]].
    exists hm, hw, hs, hc. do 4 (split; [assumption|]). split.
    + intros i. specialize (Vm i). specialize (Vw i). unfold flt in *. rewrite Vm, Vw. pose proof (Hagree _ (Hdata i)) as K.
      destruct (data_in a i xs) as [|d l]; [exact I | exact K].
    + intros keys order Nk Hk Or.
      destruct (quotient_sparse (@n_div _ ops) hs hc keys order _ _ (fun l => Bdiv mode_NE (sum_fields prec emax P E (fun x : flt => x) l) (count_fields prec emax P E l))
        (fun i => data_in a i xs) (eq_trans (f_equal2 axis_eqb As Ac) Hax) Nk Hk Or Vs Vc (fun i => eq_refl)) as [q [Q1 [Q2 [Q3 [Q4 Q5]]]]].
      exists q. do 3 (split; [assumption|]). split; [exact (eq_trans Q4 As)|]. intros i. specialize (Vm i). specialize (Q5 i).
      unfold flt in *. rewrite Vm, Q5. pose proof (Hmean (data_in a i xs)) as K. destruct (data_in a i xs) as [|d l]; [exact I | exact K].
Qed.
Print Assumptions C93_means.

Example C93_nonvacuous : forall B : Build,
  let AX := @category_axis B Z _ in let AE : AxisEq (Category Z) := {| axis_eqb := category_eqb |} in let a := category_new [5; 7]%Z in
  let xs : list (@Coordinate _ AX * f64) := [(5%Z, f64_lit 1 (-1)); (5%Z, f64_lit 3 0); (9%Z, f64_lit (-1) 0)] in
  let wxs : list (@Coordinate _ AX * (f64 * f64)) := [(5%Z, (f64_lit 1 (-1), f64_lit 1 1)); (5%Z, (f64_lit 3 0, f64_lit 1 0)); (9%Z, (f64_lit (-1) 0, f64_lit 0 0))] in
  primitive_int (unsigned 32) /\ num_bins a = Val 3 /\ (forall x, In x xs -> exists r, index a (fst x) = Val r) /\ (forall x, In x wxs -> exists r, index a (fst x) = Val r)
  /\ axis_eqb a a = true /\ data_in a 0 xs = [f64_lit 1 (-1); f64_lit 3 0] /\ data_in a 1 xs = []
  /\ mean_mean (float_ops 53 1024 prec64 emax64) (fun x => x) (float_of_count 53 1024 prec64 emax64) (mean_fields 53 1024 prec64 emax64 (data_in a 0 xs)) = Val (f64_lit 7 (-2))
  /\ weightedmean_mean (float_ops 53 1024 prec64 emax64) (fun x => x) (weighted_fields 53 1024 prec64 emax64 (data_in a 2 wxs)) = Val B754_nan.
Proof.
  intros B AX AE a xs wxs. split; [exists 32%Z; split; [lia | right; reflexivity]|].
  split; [destruct B as [[] []]; reflexivity|].
  split; [intros x Hx; repeat (destruct Hx as [<-|Hx]; [eexists; destruct B as [[] []]; reflexivity|]); destruct Hx|].
  split; [intros x Hx; repeat (destruct Hx as [<-|Hx]; [eexists; destruct B as [[] []]; reflexivity|]); destruct Hx|].
  split; [reflexivity|].
  assert (D0 : data_in a 0 xs = [f64_lit 1 (-1); f64_lit 3 0]) by (destruct B as [[] []]; reflexivity).
  assert (D2 : data_in a 2 wxs = [(f64_lit (-1) 0, f64_lit 0 0)]) by (destruct B as [[] []]; reflexivity).
  split; [exact D0|]. split; [destruct B as [[] []]; reflexivity|]. rewrite D0, D2. split.
  - unfold mean_mean. cbn [n_div float_ops]. f_equal. apply B2SF_inj. vm_compute. reflexivity.
  - reflexivity.
Qed.
