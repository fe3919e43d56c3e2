(** * PropRefillFloat: any histogram of floats that fills produced is rebuilt from its items (C90). *)
From Coq Require Import List ZArith NArith Bool Lia ZifyN ZifyNat ZifyBool Reals Permutation.
From Flocq Require Import Core IEEE754.BinarySingleNaN.
From stdpp Require Import gmap.
From Verif Require Import Base BaseFacts Num Float FloatFacts FloatSpec Axis Spec IntFacts AxesSpec Category Value VecHist HashHist HistSpec
  HistFacts HashFacts PropHist PropHistIter PropCount PropRefill PropProfile PropExactWeights.
Import ListNotations.
Open Scope N_scope.

Section Float.
Context (prec emax : Z) (P : Prec_gt_0 prec) (E : Prec_lt_emax prec emax) {B : Build} {A : Type} {AX : Axis A}.
Notation flt := (binary_float prec emax).
Local Instance FV : Fill flt := float_fill prec emax P E.
Local Instance FD : FillWith flt flt := float_fill_with prec emax P E.
Local Instance FW : FillWithWeighted flt flt Empty_set := float_no_weighted prec emax.
Local Instance DV : Default flt := float_default prec emax P E.

Lemma sum_not_negative_zero (x y : flt) : x <> B754_zero true -> Bplus mode_NE x y <> B754_zero true.
Proof. intros Hx Hz. apply (plus_not_negative_zero prec emax P E x y); [rewrite Hz; reflexivity | exact Hx | exact Hz]. Qed.

Lemma effects_not_negative_zero (ops : list (fill_op flt Empty_set)) : forall v v' : flt, v <> B754_zero true -> apply_all ops v = Val v' -> v' <> B754_zero true.
Proof.
  unfold apply_all. induction ops as [|o ops IH]; intros v v' Hv; cbn [foldo]; [intros [= <-]; exact Hv|].
  destruct o as [c|c d|c d []]; cbn [op_effect fill_v fill_with_v FV FD float_fill float_fill_with num_fill num_fill_with n_add float_ops obind]; apply IH; apply sum_not_negative_zero; exact Hv.
Qed.
End Float.

(** C90. No list of fills, whatever the amounts (NaN, infinities and negative zeros included), leaves a negative
    zero in a bin of a new histogram, dense or sparse. *)
Theorem C90_no_negative_zero : forall (prec emax : Z) (P : Prec_gt_0 prec) (E : Prec_lt_emax prec emax) (B : Build) A (AX : Axis A) (a : A) (n : N) (calls : list (fill_op (binary_float prec emax) Empty_set)),
  let FV := float_fill prec emax P E in let FD := float_fill_with prec emax P E in let FW := float_no_weighted prec emax in let DV := float_default prec emax P E in
  num_bins a = Val n ->
  (forall h, dense_filled a calls = Val h -> forall v, In v (vec_values h) -> v <> B754_zero true)
  /\ (forall h, sparse_filled a calls = Val h -> forall i v, hash_value_at_index h i = Some v -> v <> B754_zero true).
Proof.
  intros prec emax P E B A AX a n calls FV FD FW DV Hn. assert (H0 : default_v <> B754_zero true) by discriminate. split; intros h Hh.
  - unfold dense_filled in Hh. apply obind_val in Hh as [h0 [Hh0 Hh]].
    destruct (C28_vec_contents_are_tally _ _ _ _ _ _ _ _ _ _ _ _ _ _ Hn Hh0 Hh) as [_ [Hv [Hx _]]].
    intros v Hi. apply In_nth_error in Hi as [k Hk]. destruct (N.lt_ge_cases (N.of_nat k) n) as [Hl|Hl].
    + destruct (Hv _ Hl) as [v' [E1 E2]]. unfold vec_value_at_index in E1. rewrite Nat2N.id in E1. unfold vec_values in Hk. rewrite Hk in E1. injection E1 as <-.
      exact (effects_not_negative_zero prec emax P E _ _ _ H0 E2).
    + specialize (Hx _ Hl). unfold vec_value_at_index in Hx. rewrite Nat2N.id in Hx. unfold vec_values in Hk. rewrite Hk in Hx. discriminate.
  - intros i v Hv. destruct (C29_hash_contents_are_tally _ _ _ _ _ _ _ _ _ _ _ _ Hh) as [_ [Hv0 [Hv1 _]]].
    destruct (reaching a i calls) as [|o l] eqn:Er; [rewrite (Hv0 i Er) in Hv; discriminate|].
    destruct (Hv1 i) as [v' [E1 E2]]; [rewrite Er; discriminate|]. rewrite Hv in E1. injection E1 as <-.
    exact (effects_not_negative_zero prec emax P E _ _ _ H0 E2).
Qed.
Print Assumptions C90_no_negative_zero.

(** So every histogram of floats that was filled from new is rebuilt from its items, bit for bit. *)
Theorem C90_refill_floats : forall (prec emax : Z) (P : Prec_gt_0 prec) (E : Prec_lt_emax prec emax) (B : Build) A (AX : Axis A) (a : A) (n : N) (calls : list (fill_op (binary_float prec emax) Empty_set)),
  let FV := float_fill prec emax P E in let FD := float_fill_with prec emax P E in let FW := float_no_weighted prec emax in let DV := float_default prec emax P E in
  has_bins AX a n -> (forall o, In o calls -> indexes_within AX a n (op_coordinate o)) ->
  (exists h items, dense_filled a calls = Val h /\ vec_iter h = Val items
     /\ forall refills, refill a (fun i => i) items refills -> dense_filled a refills = Val h
        /\ exists s, sparse_filled a refills = Val s /\ hh_axes s = a /\ forall i, hash_value_at_index s i = vec_value_at_index h i)
  /\ (exists h, sparse_filled a calls = Val h
     /\ forall order, an_order (hash_as_map h) order -> exists items, hash_iter h order = Val items
     /\ forall refills, refill a (fun i => i) items refills -> sparse_filled a refills = Val h
        /\ exists d, dense_filled a refills = Val d /\ dense_filled a calls = Val d).
Proof.
  intros prec emax P E B A AX a n calls FV FD FW DV [Hn Hb] Hw.
  assert (Hix : forall o, In o calls -> exists r, index a (op_coordinate o) = Val r) by (intros o Ho; destruct (Hw o Ho) as [r [Er _]]; eauto).
  assert (Heff : forall (l : list (fill_op (binary_float prec emax) Empty_set)) (v : binary_float prec emax), exists v', apply_all l v = Val v').
  { unfold apply_all. induction l as [|o l IH]; intros v; cbn [foldo]; [eexists; reflexivity|]. destruct o as [c|c d|c d []]; apply IH. }
  assert (H0 : exists h0, vec_new (V := binary_float prec emax) a = Val h0) by (unfold vec_new; rewrite Hn; eexists; reflexivity). destruct H0 as [h0 H0].
  assert (Hd : exists h, dense_filled a calls = Val h).
  { unfold dense_filled. rewrite H0. cbn [obind]. apply (C28_vec_history_returns_iff _ _ _ _ _ _ _ _ _ _ _ _ _ Hn H0). split; [exact Hix | intros i _; apply Heff]. }
  assert (Hs : exists h, sparse_filled a calls = Val h).
  { unfold sparse_filled. apply C29_hash_history_returns_iff. split; [exact Hix | intros i; apply Heff]. }
  destruct Hd as [h Hh]. destruct Hs as [s Hs]. destruct (C90_no_negative_zero prec emax P E B A AX a n calls Hn) as [Z1 Z2].
  specialize (Z1 h Hh). specialize (Z2 s Hs).
  assert (Hh' : vec_calls h0 calls = Val h) by (unfold dense_filled in Hh; rewrite H0 in Hh; exact Hh).
  destruct (C28_vec_contents_are_tally _ _ _ _ _ _ _ _ _ _ _ _ _ _ Hn H0 Hh') as [Ha [Hv [Hx _]]].
  assert (Hl : N.of_nat (length (vec_values h)) = n).
  { destruct (N.lt_total (N.of_nat (length (vec_values h))) n) as [Hl|[Hl|Hl]]; [|exact Hl|].
    - destruct (Hv _ Hl) as [v [Ev _]]. unfold vec_value_at_index in Ev. rewrite Nat2N.id in Ev. assert (Hne : nth_error (vh_values h) (length (vec_values h)) <> None) by congruence. apply nth_error_Some in Hne. unfold vec_values in *. lia.
    - specialize (Hx n ltac:(lia)). unfold vec_value_at_index in Hx. apply nth_error_None in Hx. unfold vec_values in Hl. lia. }
  destruct (C29_hash_contents_are_tally _ _ _ _ _ _ _ _ _ _ _ _ Hs) as [Sa [Sv0 [Sv1 _]]].
  split.
  - destruct (C32_vec_iter A _ AX h n) as (items & It & _); [exact (eq_ind_r (fun z => has_bins AX z n) (conj Hn Hb) Ha) | exact Hl|].
    exists h, items. split; [exact Hh|]. split; [exact It|]. intros refills Hre.
    destruct (C90_refill_from_dense A _ Empty_set AX FV FD FW DV h n items refills) as [[g [G1 G2]] [s' [S1 [S2 S3]]]]; [exact (eq_ind_r (fun z => has_bins AX z n) (conj Hn Hb) Ha) | exact Hl | exact It | rewrite Ha; exact Hre | |].
    { intros v Hi. apply (proj2 (C90_fill_default B)). exact (Z1 v Hi). }
    rewrite Ha in G1, S1, S2. split.
    + unfold dense_filled. rewrite G1. exact G2.
    + exists s'. split; [exact S1|]. split; [exact S2 | exact S3].
  - exists s. split; [exact Hs|]. intros order Hor.
    assert (Hst : forall i v, hash_value_at_index s i = Some v -> i < n).
    { intros i v Hi. destruct (reaching a i calls) as [|o l] eqn:Er; [rewrite (Sv0 i Er) in Hi; discriminate|].
      assert (Ho : In o (o :: l)) by (left; reflexivity). rewrite <- Er in Ho. apply filter_In in Ho as [Ho Hlo]. destruct (Hw o Ho) as [r [Er' Hr]].
      unfold lands_in in Hlo. rewrite Er' in Hlo. destruct r as [k|]; [|discriminate]. specialize (Hr k eq_refl). lia. }
    destruct (C31_hash_iter A _ AX s n order) as (items & It & _); [exact (eq_ind_r (fun z => has_bins AX z n) (conj Hn Hb) Sa) | exact Hst | exact Hor|].
    exists items. split; [exact It|]. intros refills Hre.
    destruct (C90_refill_from_sparse A _ Empty_set AX FV FD FW DV s n order items refills) as [R1 [g [d [G1 [G2 [G3 [G4 G5]]]]]]];
      [exact (eq_ind_r (fun z => has_bins AX z n) (conj Hn Hb) Sa) | exact Hst | exact Hor | exact It | rewrite Sa; exact Hre | |].
    { intros i v Hi. apply (proj2 (C90_fill_default B)). exact (Z2 i v Hi). }
    rewrite Sa in R1, G1, G3. split; [exact R1|]. exists d.
    split; [unfold dense_filled; rewrite G1; exact G2|]. rewrite Hh. f_equal. apply same_dense_values; [congruence|].
    intros i. destruct (N.lt_ge_cases i n) as [Hi|Hi]; [|rewrite (Hx i Hi), (G5 i Hi); reflexivity].
    rewrite (G4 i Hi). destruct (Hv i Hi) as [v [V1 V2]]. rewrite V1. destruct (reaching a i calls) as [|o l] eqn:Er.
    + rewrite (Sv0 i Er). unfold apply_all in V2. cbn [foldo] in V2. injection V2 as <-. reflexivity.
    + destruct (Sv1 i) as [v' [E1 E2]]; [rewrite Er; discriminate|]. rewrite Er in E2. rewrite E1. rewrite V2 in E2. injection E2 as <-. reflexivity.
Qed.
Print Assumptions C90_refill_floats.

(** Case: categories 5 and 7 filled with a negative zero, with NaN and, in the overflow bin, with 1.0 by a plain [fill]:
    the bins are a positive zero, NaN and 1.0. *)
Example C90_floats_nonvacuous : forall B : Build,
  let AX := @category_axis B Z _ in let a := category_new [5; 7]%Z in
  let FV := f64_fill in let FD := f64_fill_with in let FW := f64_no_weighted in let DV := f64_default in
  let calls : list (@fill_op _ f64 Empty_set AX) := [CallFillWith 5%Z (B754_zero true); CallFillWith 7%Z B754_nan; CallFill 9%Z] in
  has_bins AX a 3 /\ (forall o, In o calls -> indexes_within AX a 3 (op_coordinate o))
  /\ exists h, dense_filled a calls = Val h /\ map (fun v : f64 => B2SF v) (vec_values h) = [SpecFloat.S754_zero false; SpecFloat.S754_nan; B2SF (Bone : f64)].
Proof.
  intros B AX a FV FD FW DV calls. split.
  - split; [destruct B as [[] []]; reflexivity|]. intros i Hi. assert (Hc : i = 0 \/ i = 1 \/ i = 2) by lia.
    destruct Hc as [->|[->| ->]]; eexists; destruct B as [[] []]; reflexivity.
  - split.
    + intros o [<-|[<-|[<-|[]]]]; [exists (Some 0) | exists (Some 1) | exists (Some 2)]; (split; [destruct B as [[] []]; reflexivity | intros i [= <-]; lia]).
    + destruct B as [[] []]; eexists; (split; [reflexivity|]); vm_compute; reflexivity.
Qed.
