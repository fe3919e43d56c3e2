(** * Property theorems: counting with floating-point bins (C45, and C35/C36 for
    the default bin type f64). *)
From stdpp Require Import gmap.
From Coq Require Import ZifyN ZifyNat Lia Reals Lra.
From Flocq Require Import Core IEEE754.BinarySingleNaN.
From Verif Require Import Base BaseFacts Num Float FloatFacts Axis Spec AxesSpec Category Value VecHist HashHist HistSpec
  HistFacts HashFacts OpsFacts PropCategory PropHist PropHistIter PropOrder PropMerge ExactSpec.
Open Scope N_scope.

Section FloatBins.
Context (prec emax : Z) (Hprec : Prec_gt_0 prec) (Hemax : Prec_lt_emax prec emax) {Bd : Build}.
Notation flt := (binary_float prec emax).
Definition float_fill : Fill flt := num_fill (float_ops prec emax Hprec Hemax).
Definition float_fill_with : FillWith flt flt := num_fill_with (float_ops prec emax Hprec Hemax).
Definition float_default : Default flt := num_default (float_ops prec emax Hprec Hemax).
Definition float_no_weighted : FillWithWeighted flt flt Empty_set :=
  {| fill_with_weighted_v := fun (_ _ : flt) (w : Empty_set) => match w return outcome flt with end |}.
End FloatBins.

Notation f64_fill := (float_fill 53 1024 prec64 emax64).
Notation f64_fill_with := (float_fill_with 53 1024 prec64 emax64).
Notation f64_default := (float_default 53 1024 prec64 emax64).
Notation f64_no_weighted := (float_no_weighted 53 1024).

(** Calls on histograms with f64 bins. *)
Notation f64_vec_calls := (@vec_calls _ f64 f64 Empty_set _ f64_fill f64_fill_with f64_no_weighted).
Notation f64_hash_calls := (@hash_calls _ f64 f64 Empty_set _ f64_fill f64_fill_with f64_no_weighted f64_default).

(** A history of plain fills at the given coordinates. *)
Definition fills {A : Type} {AX : Axis A} {D W : Type} (cs : list (@Coordinate A AX)) : list (fill_op D W) :=
  map (CallFill (D := D) (W := W)) cs.

(** How many of the coordinates the axes put into bin [i]; how many into any bin. *)
Definition hits {A : Type} {AX : Axis A} (a : A) (i : N) (cs : list (@Coordinate A AX)) : nat :=
  length (List.filter (fun c => match index a c with Val (Some j) => j =? i | _ => false end) cs).
Definition hits_any {A : Type} {AX : Axis A} (a : A) (cs : list (@Coordinate A AX)) : nat :=
  length (List.filter (fun c => match index a c with Val (Some _) => true | _ => false end) cs).

Section Count.
Context (prec emax : Z) (Hprec : Prec_gt_0 prec) (Hemax : Prec_lt_emax prec emax) {Bd : Build} (Hprec1 : (1 < prec)%Z).
Notation flt := (binary_float prec emax).
Notation count n := (float_of_N prec emax Hprec Hemax n).
Notation limit := (Z.to_N (2 ^ prec)).
Context {A : Type} {AX : Axis A}.
Notation all := (@apply_all A flt flt Empty_set AX (float_fill _ _ _ _) (float_fill_with _ _ _ _) (float_no_weighted _ _)).

Lemma reaching_fills (a : A) i cs : reaching a i (fills cs) = fills (D := flt) (W := Empty_set)
  (List.filter (fun c => match index a c with Val (Some j) => j =? i | _ => false end) cs).
Proof.
  unfold reaching, fills. induction cs as [|c cs IH]; [reflexivity|]. cbn [map List.filter].
  unfold lands_in at 1. cbn [op_coordinate]. rewrite IH.
  destruct (index a c) as [[j|]|]; [destruct (j =? i)| |]; reflexivity.
Qed.

Lemma fill_count k : k <= limit ->
  @fill_v _ (float_fill prec emax Hprec Hemax) (count k) = Val (count (N.min (k + 1) limit)).
Proof.
  intros Hk. cbn. f_equal. assert (Hpos : (0 < 2 ^ prec)%Z) by (apply Z.pow_pos_nonneg; lia).
  destruct (N.eq_dec k limit) as [->|Hne].
  - rewrite count_sticks by exact Hprec1. f_equal. lia.
  - rewrite one_is_count, count_add by lia. f_equal. lia.
Qed.

Lemma all_count cs k : k <= limit ->
  all (fills cs) (count k) = Val (count (N.min (k + N.of_nat (length cs)) limit)).
Proof.
  assert (Hpos : (0 < 2 ^ prec)%Z) by (apply Z.pow_pos_nonneg; lia).
  revert k. induction cs as [|c cs IH]; intros k Hk; unfold apply_all, fills; cbn [map foldo].
  - do 2 f_equal. cbn [length]. lia.
  - cbn [op_effect]. rewrite fill_count by exact Hk. cbn [obind]. unfold apply_all, fills in IH. rewrite IH by lia.
    do 2 f_equal. cbn [length]. lia.
Qed.

Lemma all_count0 cs : all (fills cs) (B754_zero false) = Val (count (N.min (N.of_nat (length cs)) limit)).
Proof. rewrite (zero_is_count prec emax Hprec Hemax), all_count by lia. do 2 f_equal. Qed.
End Count.

(** ** C45 *)

Section C45.
Context (prec emax : Z) (Hprec : Prec_gt_0 prec) (Hemax : Prec_lt_emax prec emax) {Bd : Build} (Hprec1 : (1 < prec)%Z).
Notation flt := (binary_float prec emax).
Notation count n := (float_of_N prec emax Hprec Hemax n).
Notation limit := (Z.to_N (2 ^ prec)).
Notation vcalls := (@vec_calls _ flt flt Empty_set _ (float_fill _ _ _ _) (float_fill_with _ _ _ _) (float_no_weighted _ _)).
Notation hcalls := (@hash_calls _ flt flt Empty_set _ (float_fill _ _ _ _) (float_fill_with _ _ _ _) (float_no_weighted _ _) (float_default _ _ _ _)).

Lemma dense_counts A (AX : Axis A) (a : A) (cs : list Coordinate) (h0 h : VecHistogram A flt) :
  @vec_new A flt AX (float_default _ _ Hprec Hemax) a = Val h0 -> vcalls h0 (fills cs) = Val h ->
  forall i, vec_value_at_index h i = match vec_value_at_index h0 i with
    | Some _ => Some (count (N.min (N.of_nat (hits a i cs)) limit)) | None => None end.
Proof.
  intros Hnew Hr i. unfold vec_new in Hnew. apply obind_val in Hnew as [n [Hn E]]. injection E as <-.
  destruct (vec_calls_inv _ _ _ Hr) as [_ [Hl [_ Hv]]]. unfold vec_value_at_index. cbn [vh_values vh_axes] in *.
  destruct (nth_error (repeat (B754_zero false) (N.to_nat n)) (N.to_nat i)) as [v|] eqn:Ev.
  - destruct (Hv i v Ev) as [v' [E1 E2]]. pose proof (nth_error_In _ _ Ev) as Hin. apply repeat_spec in Hin as ->.
    rewrite reaching_fills in E2. cbn [default_v float_default num_default n_zero float_ops] in E2.
    rewrite all_count0 in E2 by exact Hprec1. injection E2 as <-. exact E1.
  - apply nth_error_None in Ev. apply nth_error_None. lia.
Qed.

Lemma sparse_counts A (AX : Axis A) (a : A) (cs : list Coordinate) (h : HashHistogram A flt) :
  hcalls (hash_new a) (fills cs) = Val h ->
  forall i, hash_value_at_index h i =
    if decide (hits a i cs = 0%nat) then None else Some (count (N.min (N.of_nat (hits a i cs)) limit)).
Proof.
  intros Hr i. destruct (hash_calls_inv _ _ _ Hr) as [_ [_ Hv]]. destruct (Hv i) as [H1 H2].
  unfold hash_value_at_index. cbn [hash_new hh_axes hh_values] in *. rewrite reaching_fills in H1, H2. unfold hits.
  destruct (List.filter _ cs) as [|c l] eqn:E; cbn [length].
  - rewrite decide_True by reflexivity. rewrite H1 by reflexivity. apply lookup_empty.
  - rewrite decide_False by lia. destruct H2 as [v' [E1 E2]]; [discriminate|]. rewrite lookup_empty in E1.
    cbn [or_default default_v float_default num_default n_zero float_ops] in E1. rewrite all_count0 in E1 by exact Hprec1.
    injection E1 as <-. exact E2.
Qed.
End C45.

(** After filling a fresh f64 histogram at the coordinates [cs], the value of a
    bin hit k times is the finite float with exact value min(k, 2^53). *)
Theorem C45_f64_counts :
  forall (B : Build) A (AX : Axis A) (a : A) (cs : list Coordinate) (i : N),
  let k := Z.of_nat (hits a i cs) in
  let reads (v : f64) (z : Z) := is_finite v = true /\ Bsign v = false /\ B2R v = IZR z in
  (forall h0 h : VecHistogram A f64, @vec_new A f64 AX f64_default a = Val h0 -> f64_vec_calls h0 (fills cs) = Val h ->
     vec_value_at_index h0 i <> None ->
     exists v, vec_value_at_index h i = Some v /\ reads v (Z.min k (2 ^ 53)))
  /\ (forall h : HashHistogram A f64, f64_hash_calls (hash_new a) (fills cs) = Val h ->
     (k = 0%Z /\ hash_value_at_index h i = None)
     \/ exists v, (0 < k)%Z /\ hash_value_at_index h i = Some v /\ reads v (Z.min k (2 ^ 53))).
Proof.
  intros B A AX a cs i k reads.
  assert (Hreads : reads (float_of_N 53 1024 prec64 emax64 (N.min (N.of_nat (hits a i cs)) (Z.to_N (2 ^ 53)))) (Z.min k (2 ^ 53))).
  { destruct (float_of_N_exact 53 1024 prec64 emax64 (N.min (N.of_nat (hits a i cs)) (Z.to_N (2 ^ 53)))) as [E1 [E2 E3]].
    { lia. } unfold reads. split; [exact E2|]. split; [exact E3|]. rewrite E1. f_equal. unfold k. lia. }
  split.
  - intros h0 h Hnew Hr Hi. pose proof (dense_counts 53 1024 prec64 emax64 ltac:(lia) A AX a cs h0 h Hnew Hr i) as Hv.
    unfold f64 in *. destruct (vec_value_at_index h0 i); [|congruence]. eexists. split; [exact Hv | exact Hreads].
  - intros h Hr. pose proof (sparse_counts 53 1024 prec64 emax64 ltac:(lia) A AX a cs h Hr i) as Hv.
    destruct (decide (hits a i cs = 0%nat)); [left; split; [lia | exact Hv]|].
    right. eexists. split; [lia|]. split; [exact Hv | exact Hreads].
Qed.
Print Assumptions C45_f64_counts.

(** f32 bins stop at 2^24 = 16777216. *)
Theorem C45_f32_counts :
  forall (B : Build) A (AX : Axis A) (a : A) (cs : list Coordinate) (i : N) (h0 h : VecHistogram A f32),
  @vec_new A f32 AX (float_default 24 128 prec32 emax32) a = Val h0 ->
  @vec_calls A f32 f32 Empty_set AX (float_fill 24 128 prec32 emax32) (float_fill_with 24 128 prec32 emax32)
     (float_no_weighted 24 128) h0 (fills cs) = Val h ->
  vec_value_at_index h0 i <> None ->
  exists v, vec_value_at_index h i = Some v /\ is_finite v = true
            /\ B2R v = IZR (Z.min (Z.of_nat (hits a i cs)) (2 ^ 24)).
Proof.
  intros B A AX a cs i h0 h Hnew Hr Hi.
  pose proof (dense_counts 24 128 prec32 emax32 ltac:(lia) A AX a cs h0 h Hnew Hr i) as Hv.
  unfold f32 in *. destruct (vec_value_at_index h0 i); [|congruence]. eexists. split; [exact Hv|].
  destruct (float_of_N_exact 24 128 prec32 emax32 (N.min (N.of_nat (hits a i cs)) (Z.to_N (2 ^ 24)))) as [E1 [E2 E3]]; [lia|].
  split; [exact E2|]. rewrite E1. f_equal. lia.
Qed.
Print Assumptions C45_f32_counts.

(** ** C35 for f64 bins *)

Lemma sumR_app l l' : sumR (l ++ l') = (sumR l + sumR l')%R.
Proof. unfold sumR. induction l as [|x l IH]; cbn [app fold_right]; lra. Qed.
Lemma sumR_perm l l' : Permutation l l' -> sumR l = sumR l'.
Proof. induction 1; unfold sumR in *; cbn [fold_right]; lra. Qed.

(** Counting the hits key by key, over any duplicate-free set of keys that
    contains every bin hit. *)
Lemma hits_partition {A} {AX : Axis A} (a : A) (keys : list N) (cs : list (@Coordinate A AX)) : NoDup keys ->
  (forall c i, In c cs -> index a c = Val (Some i) -> i ∈ keys) ->
  sumZ (map (fun i => Z.of_nat (hits a i cs)) keys) = Z.of_nat (hits_any a cs).
Proof.
  intros Hnd. induction cs as [|c cs IH]; intros Hin.
  - unfold hits, hits_any. cbn. clear. induction keys as [|k keys IH]; [reflexivity|]. cbn [map]. unfold sumZ in *. cbn [fold_right]. lia.
  - assert (Hstep : sumZ (map (fun i => Z.of_nat (hits a i (c :: cs))) keys)
       = (sumZ (map (fun i => Z.of_nat (hits a i cs)) keys)
          + sumZ (map (fun i => match index a c with Val (Some j) => if (j =? i)%N then 1 else 0 | _ => 0 end) keys))%Z).
    { clear. induction keys as [|k keys IH]; [reflexivity|]. cbn [map]. unfold sumZ in *. cbn [fold_right]. rewrite IH.
      unfold hits. cbn [List.filter]. destruct (index a c) as [[j|]|]; [destruct (j =? k)| |]; cbn [length]; lia. }
    rewrite Hstep, IH by (intros; eapply Hin; [right; eassumption | eassumption]). unfold hits_any. cbn [List.filter].
    assert (Hz : forall l : list N, sumZ (map (fun _ => 0%Z) l) = 0%Z).
    { unfold sumZ. induction l; cbn [map fold_right]; lia. }
    destruct (index a c) as [[j|]|] eqn:E; [|rewrite Hz; lia|rewrite Hz; lia].
    specialize (Hin c j (or_introl eq_refl) E). cbn [length].
    assert (H1 : sumZ (map (fun i => if j =? i then 1%Z else 0%Z) keys) = 1%Z).
    { clear -Hnd Hin. induction Hnd as [|k keys Hk Hnd IH]; [apply elem_of_nil in Hin; destruct Hin|].
      cbn [map]. unfold sumZ in *. cbn [fold_right]. apply elem_of_cons in Hin as [->|Hin].
      - rewrite N.eqb_refl. assert (Hno : fold_right Z.add 0%Z (map (fun i => if k =? i then 1%Z else 0%Z) keys) = 0%Z); [|lia].
        clear -Hk. induction keys as [|x keys IH]; [reflexivity|]. apply not_elem_of_cons in Hk as [H1 H2]. cbn [map fold_right].
        rewrite IH by exact H2. destruct (N.eqb_spec k x); [congruence | reflexivity].
      - rewrite IH by exact Hin. destruct (N.eqb_spec j k) as [->|]; [congruence | reflexivity]. }
    rewrite H1. lia.
Qed.

Lemma hits_le {A} {AX : Axis A} (a : A) i (cs : list (@Coordinate A AX)) : (hits a i cs <= length cs)%nat.
Proof. unfold hits. induction cs as [|c cs IH]; cbn [List.filter length]; [lia|]. destruct (match index a c with Val (Some j) => j =? i | _ => false end); cbn [length]; lia. Qed.

Lemma sumR_IZR {X} (f : X -> Z) (l : list X) : sumR (map (fun x => IZR (f x)) l) = IZR (sumZ (map f l)).
Proof. unfold sumR, sumZ. induction l as [|x l IH]; cbn [map fold_right]; [reflexivity|]. rewrite IH, plus_IZR. reflexivity. Qed.

(** Up to 2^53 fills, the exact sum of all the f64 bins is the number of fills
    the axes cover: no entry is lost and none is counted twice. *)
Theorem C35_f64_counts_conserved :
  forall (B : Build) A (AX : Axis A) (a : A) (n : N) (cs : list Coordinate),
  (Z.of_nat (length cs) <= 2 ^ 53)%Z ->
  num_bins a = Val n -> (forall c i, index a c = Val (Some i) -> i < n) ->
  (forall h0 h : VecHistogram A f64, @vec_new A f64 AX f64_default a = Val h0 -> f64_vec_calls h0 (fills cs) = Val h ->
     sumR (map B2R (vec_values h)) = INR (hits_any a cs))
  /\ (forall (h : HashHistogram A f64) order, f64_hash_calls (hash_new a) (fills cs) = Val h ->
     an_order (hh_values h) order ->
     sumR (map B2R (hash_values order)) = INR (hits_any a cs)).
Proof.
  intros B A AX a n cs Hlen Hn Hix.
  assert (Hread : forall i, B2R (float_of_N 53 1024 prec64 emax64 (N.min (N.of_nat (hits a i cs)) (Z.to_N (2 ^ 53))))
                            = IZR (Z.of_nat (hits a i cs))).
  { intros i. pose proof (hits_le a i cs) as Hle.
    destruct (float_of_N_exact 53 1024 prec64 emax64 (N.min (N.of_nat (hits a i cs)) (Z.to_N (2 ^ 53)))) as [E1 _]; [lia|].
    rewrite E1. f_equal. lia. }
  split.
  - intros h0 h Hnew Hr. pose proof (dense_counts 53 1024 prec64 emax64 ltac:(lia) A AX a cs h0 h Hnew Hr) as Hv.
    destruct (vec_calls_inv _ _ _ Hr) as [_ [Hl _]].
    unfold vec_new in Hnew. rewrite Hn in Hnew. cbn [obind] in Hnew. injection Hnew as <-. cbn [vh_values] in *.
    rewrite repeat_length in Hl. unfold vec_values.
    assert (Hmap : map B2R (vh_values h) = map (fun i => IZR (Z.of_nat (hits a (N.of_nat i) cs))) (seq 0 (length (vh_values h)))).
    { apply nth_error_ext_len; [rewrite !map_length, seq_length; reflexivity|]. intros k x Hx.
      unfold f64 in *. rewrite nth_error_map in Hx. destruct (nth_error (vh_values h) k) as [v|] eqn:Ev; [|discriminate]. injection Hx as <-.
      assert (Hk : (k < length (vh_values h))%nat) by (apply nth_error_some_lt in Ev; exact Ev).
      rewrite nth_error_map, (nth_error_nth' _ 0%nat) by (rewrite seq_length; exact Hk). rewrite seq_nth by exact Hk. cbn [option_map Nat.add].
      f_equal. specialize (Hv (N.of_nat k)). unfold vec_value_at_index in Hv. cbn [vh_values] in Hv. rewrite Nat2N.id in Hv.
      assert (Hrep : nth_error (repeat (B754_zero false : f64) (N.to_nat n)) k = Some (B754_zero false)).
      { apply nth_error_repeat_lt. lia. }
      unfold f64 in *. rewrite Ev, Hrep in Hv. rewrite <- (Hread (N.of_nat k)). f_equal. congruence. }
    rewrite Hmap. rewrite <- (map_map N.of_nat (fun i => IZR (Z.of_nat (hits a i cs)))).
    rewrite sumR_IZR, hits_partition.
    + apply eq_sym, INR_IZR_INZ.
    + apply NoDup_ListNoDup, FinFun.Injective_map_NoDup; [intros x y; apply Nat2N.inj|]. apply seq_NoDup.
    + intros c i _ Hc. specialize (Hix c i Hc). apply elem_of_list_In, in_map_iff. exists (N.to_nat i).
      split; [apply N2Nat.id|]. apply in_seq. lia.
  - intros h order Hr Ho. pose proof (sparse_counts 53 1024 prec64 emax64 ltac:(lia) A AX a cs h Hr) as Hv.
    assert (Hmap : map B2R (hash_values order) = map (fun i => IZR (Z.of_nat (hits a i cs))) (map fst order)).
    { unfold hash_values. rewrite !map_map. apply map_ext_in. intros [i v] Hin. cbn [fst snd].
      apply elem_of_list_In in Hin. apply (order_elem _ order _ _ Ho) in Hin.
      specialize (Hv i). unfold hash_value_at_index in Hv. unfold f64 in *. rewrite Hin in Hv.
      destruct (decide (hits a i cs = 0%nat)); [discriminate|]. injection Hv as ->. apply Hread. }
    rewrite Hmap, sumR_IZR, hits_partition.
    + apply eq_sym, INR_IZR_INZ.
    + rewrite (Permutation_map fst Ho). apply NoDup_fst_map_to_list.
    + intros c i Hc Hi. specialize (Hv i). unfold hash_value_at_index in Hv.
      destruct (decide (hits a i cs = 0%nat)) as [E|E].
      * exfalso. assert (Hin : In c (List.filter (fun c => match index a c with Val (Some j) => j =? i | _ => false end) cs)).
        { apply filter_In. split; [exact Hc|]. rewrite Hi. apply N.eqb_refl. }
        unfold hits in E. apply length_zero_iff_nil in E. rewrite E in Hin. destruct Hin.
      * apply elem_of_list_fmap. eexists (i, _). split; [reflexivity|]. apply (order_elem _ order _ _ Ho). exact Hv.
Qed.
Print Assumptions C35_f64_counts_conserved.

(** ** C36 for f64 bins *)

(** Up to 2^53 fills in total, adding two f64 histograms gives exactly the
    histogram filled with both histories, for all three forms of addition. *)
Theorem C36_f64_counts_merge :
  forall (B : Build) A (AX : Axis A) (AE : AxisEq A) (a a2 : A) (csA csB : list Coordinate),
  (Z.of_nat (length csA + length csB) <= 2 ^ 53)%Z ->
  axis_eqb a a2 = true -> num_bins a = num_bins a2 -> (forall c, index a c = index a2 c) ->
  let add := @n_add f64 f64_ops in
  (forall h0 h0' h1 h2 h : VecHistogram A f64,
     @vec_new A f64 AX f64_default a = Val h0 -> f64_vec_calls h0 (fills csA) = Val h1 ->
     @vec_new A f64 AX f64_default a2 = Val h0' -> f64_vec_calls h0' (fills csB) = Val h2 ->
     f64_vec_calls h0 (fills (csA ++ csB)) = Val h ->
     vec_binop_borrowed add h1 h2 = Val (Ok h) /\ vec_binop_owned add h1 h2 = Val (Ok h)
     /\ vec_binop_assign add h1 h2 = Val h)
  /\ (forall (h1 h2 h : HashHistogram A f64) keys order,
     f64_hash_calls (hash_new a) (fills csA) = Val h1 -> f64_hash_calls (hash_new a2) (fills csB) = Val h2 ->
     f64_hash_calls (hash_new a) (fills (csA ++ csB)) = Val h ->
     NoDup keys -> (forall i, i ∈ keys <-> is_Some (hash_value_at_index h1 i) \/ is_Some (hash_value_at_index h2 i)) ->
     an_order (hash_as_map h2) order ->
     hash_binop_borrowed (DV := f64_default) add h1 h2 keys = Val (Ok h)
     /\ hash_binop_owned (DV := f64_default) add h1 h2 order = Val (Ok h)
     /\ hash_binop_assign (DV := f64_default) add h1 h2 order = Val h).
Proof.
  intros B A AX AE a a2 csA csB Hlen Hax Hnb Hix add.
  assert (Happ : fills (D := f64) (W := Empty_set) (csA ++ csB) = fills csA ++ fills csB) by apply map_app.
  rewrite Happ.
  apply (@merge_core A f64 f64 Empty_set AX AE f64_fill f64_fill_with f64_no_weighted f64_default); [|assumption..].
  intros i va vb r. unfold f64. rewrite !(reaching_fills 53 1024).
  set (f := fun c => match index a c with Val (Some j) => j =? i | _ => false end).
  assert (HlA : (length (List.filter f csA) <= length csA)%nat) by apply (hits_le a i csA).
  assert (HlB : (length (List.filter f csB) <= length csB)%nat) by apply (hits_le a i csB).
  unfold fills. rewrite <- map_app. fold (fills (D := binary_float 53 1024) (W := Empty_set) (List.filter f csA)).
  fold (fills (D := binary_float 53 1024) (W := Empty_set) (List.filter f csB)).
  fold (fills (D := binary_float 53 1024) (W := Empty_set) (List.filter f csA ++ List.filter f csB)).
  cbn [default_v float_default num_default n_zero float_ops].
  rewrite !(all_count0 53 1024 prec64 emax64 ltac:(lia)). intros [= <-] [= <-] [= <-].
  unfold add. cbn [n_add f64_ops float_ops]. f_equal. rewrite app_length. rewrite count_add by lia. f_equal. lia.
Qed.
Print Assumptions C36_f64_counts_merge.

(** Past 2^53 merging f64 counts is no longer the same as filling one
    histogram: a bin filled 2^53 times plus a bin filled twice reads 2^53 + 2,
    but one bin filled 2^53 + 2 times reads 2^53. *)
Theorem C36_f64_counts_refuted : forall B : Build,
  exists va vb : f64,
  B2R va = IZR (2 ^ 53) /\ B2R vb = 2%R
  /\ @n_add f64 f64_ops va vb = Val (f64_lit (2 ^ 53 + 2) 0)
  /\ B2R (f64_lit (2 ^ 53 + 2) 0) = IZR (2 ^ 53 + 2)
  /\ (let! x := @fill_v f64 f64_fill va in @fill_v f64 f64_fill x) = Val va.
Proof.
  intros B. exists (float_of_N 53 1024 prec64 emax64 (Z.to_N (2 ^ 53))), (float_of_N 53 1024 prec64 emax64 2).
  destruct (float_of_N_exact 53 1024 prec64 emax64 (Z.to_N (2 ^ 53))) as [E1 [E2 E3]]; [lia|].
  destruct (float_of_N_exact 53 1024 prec64 emax64 2) as [F1 [F2 F3]]; [lia|].
  split; [exact E1|]. split; [exact F1|]. split; [|split].
  - cbn [n_add f64_ops float_ops]. f_equal. apply B2SF_inj. vm_compute. reflexivity.
  - assert (E : B2SF (f64_lit (2 ^ 53 + 2) 0) = SpecFloat.S754_finite false 4503599627370497 1) by (vm_compute; reflexivity).
    rewrite <- SF2R_B2SF, E. unfold SF2R, F2R. cbn [Fnum Fexp cond_Zopp]. change (bpow radix2 1) with 2%R.
    rewrite <- mult_IZR. reflexivity.
  - cbn [fill_v float_fill num_fill n_add n_one float_ops obind].
    rewrite !count_sticks by lia. reflexivity.
Qed.
Print Assumptions C36_f64_counts_refuted.

(** An f64 histogram over Category(5, 7): three fills, one of them in overflow. *)
Example C45_nonvacuous : forall B : Build,
  let a := category_new [5; 7]%Z in
  let cs : list (@Coordinate _ (ex_axis B)) := [7; 7; 1000]%Z in
  exists h0 h, @vec_new _ _ (ex_axis B) f64_default a = Val h0
  /\ @vec_calls _ _ _ _ (ex_axis B) f64_fill f64_fill_with f64_no_weighted h0 (fills cs) = Val h
  /\ vec_value_at_index h0 1 <> None /\ hits a 1 cs = 2%nat /\ hits_any a cs = 3%nat
  /\ (exists h', @hash_calls _ _ _ _ (ex_axis B) f64_fill f64_fill_with f64_no_weighted f64_default (hash_new a) (fills cs) = Val h')
  /\ num_bins (Axis := ex_axis B) a = Val 3.
Proof.
  intros [c []] a cs; (eexists; eexists; split; [reflexivity|]; split; [reflexivity|]; split; [discriminate|];
  split; [reflexivity|]; split; [reflexivity|]; split; [eexists; reflexivity | reflexivity]).
Qed.
