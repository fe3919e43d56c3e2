(** * PropAccess: reading and writing single bins (C79). *)
From stdpp Require Import gmap.
From Coq Require Import ZifyBool ZifyN ZifyNat Lia.
From Verif Require Import Base BaseFacts Num Axis Spec Category Value VecHist HashHist HistSpec HistFacts PropCategory PropHist PropHistIter.
Open Scope N_scope.

(** [h'] is [h] with bin [i] set to [v] and nothing else changed; [at_] reads a bin. *)
Definition only_bin_changed {H A V : Type} (axes_of : H -> A) (at_ : H -> N -> option V) (h : H) (i : N) (v : V) (h' : H) : Prop :=
  axes_of h' = axes_of h /\ at_ h' i = Some v /\ forall j, j <> i -> at_ h' j = at_ h j.

Lemma set_nth_self {V} i (v : V) l : nth_error l i = Some v -> set_nth i v l = l.
Proof.
  revert i. induction l as [|x l IH]; intros [|i] H; try discriminate H; cbn in *; [congruence|]. f_equal. apply IH. exact H.
Qed.

(** C79, dense histograms: [value] is [value_at_index] of the bin [index] finds;
    [value_at_index_mut] and [value_mut] refer to a bin exactly when [value_at_index] and
    [value] find one, to the same value, and writing through them changes that bin only. *)
Theorem C79_dense_access :
  forall A V (AX : Axis A) (h : VecHistogram A V),
  let at_ := vec_value_at_index in
  (forall c, match index (vh_axes h) c with
             | Panic => vec_value h c = Panic /\ vec_value_mut h c = Panic
             | Val None => vec_value h c = Val None /\ vec_value_mut h c = Val None
             | Val (Some i) => vec_value h c = Val (at_ h i) /\ vec_value_mut h c = Val (vec_value_at_index_mut h i)
             end)
  /\ (forall i, match at_ h i with
                | None => vec_value_at_index_mut h i = None
                | Some old => exists r, vec_value_at_index_mut h i = Some r /\ deref r = old
                    /\ assign r old = h
                    /\ forall v, only_bin_changed vh_axes at_ h i v (assign r v)
                end).
Proof.
  intros A V AX h at_. split.
  - intros c. unfold vec_value, vec_value_mut. destruct (index (vh_axes h) c) as [[i|]|]; split; reflexivity.
  - intros i. subst at_. unfold vec_value_at_index_mut, vec_value_at_index at 1.
    destruct (nth_error (vh_values h) (N.to_nat i)) as [old|] eqn:E; [|reflexivity].
    eexists. split; [reflexivity|]. split; [reflexivity|]. split.
    + cbn [assign]. destruct h as [a vs]. cbn [vh_axes vh_values] in *. f_equal.
      apply set_nth_self. exact E.
    + intros v. cbn [assign]. unfold only_bin_changed, vec_value_at_index. cbn [vh_axes vh_values].
      split; [reflexivity|]. split; [apply set_nth_same, nth_error_Some; congruence|].
      intros j Hj. apply set_nth_other. lia.
Qed.
Print Assumptions C79_dense_access.

(** C79, sparse histograms: the same. In particular [value_mut] does not create the bin of a
    coordinate that has not been filled: it returns [None]. *)
Theorem C79_sparse_access :
  forall A V (AX : Axis A) (h : HashHistogram A V),
  let at_ := hash_value_at_index in
  (forall c, match index (hh_axes h) c with
             | Panic => hash_value h c = Panic /\ hash_value_mut h c = Panic
             | Val None => hash_value h c = Val None /\ hash_value_mut h c = Val None
             | Val (Some i) => hash_value h c = Val (at_ h i) /\ hash_value_mut h c = Val (hash_value_at_index_mut h i)
             end)
  /\ (forall i, match at_ h i with
                | None => hash_value_at_index_mut h i = None
                | Some old => exists r, hash_value_at_index_mut h i = Some r /\ deref r = old
                    /\ assign r old = h
                    /\ forall v, only_bin_changed hh_axes at_ h i v (assign r v)
                end).
Proof.
  intros A V AX h at_. split.
  - intros c. unfold hash_value, hash_value_mut. destruct (index (hh_axes h) c) as [[i|]|]; split; reflexivity.
  - intros i. subst at_. unfold hash_value_at_index_mut, hash_value_at_index at 1.
    destruct (hh_values h !! i) as [old|] eqn:E; [|reflexivity].
    eexists. split; [reflexivity|]. split; [reflexivity|]. split.
    + cbn [assign]. destruct h as [a m]. cbn [hh_axes hh_values] in *. f_equal. apply insert_id. exact E.
    + intros v. cbn [assign]. unfold only_bin_changed, hash_value_at_index. cbn [hh_axes hh_values].
      split; [reflexivity|]. split; [apply lookup_insert|].
      intros j Hj. apply lookup_insert_ne. congruence.
Qed.
Print Assumptions C79_sparse_access.

(** Category(5, 7, 9): 7 is in bin 1; 100 is in the overflow bin 3. The sparse histogram has
    only seen 7. *)
Example C79_nonvacuous : forall B : Build,
  let h := mkVecHist ex_cat [0; 10; 20; 30]%Z in
  let s := mkHashHist ex_cat (<[1%N := 10%Z]> ∅) in
  @index _ (ex_axis B) ex_cat 7%Z = Val (Some 1) /\ @index _ (ex_axis B) ex_cat 100%Z = Val (Some 3)
  /\ vec_value_at_index h 1 = Some 10%Z /\ vec_value_at_index h 4 = None
  /\ (exists r, @vec_value_mut _ _ (ex_axis B) h 7%Z = Val (Some r) /\ vec_values (assign r 11%Z) = [0; 11; 20; 30]%Z)
  /\ hash_value_at_index s 1 = Some 10%Z /\ @hash_value_mut _ _ (ex_axis B) s 9%Z = Val None
  /\ exists r, @hash_value_mut _ _ (ex_axis B) s 7%Z = Val (Some r) /\ hash_value_at_index (assign r 11%Z) 1 = Some 11%Z.
Proof.
  intros B h s. split; [reflexivity|]. split; [reflexivity|]. split; [reflexivity|]. split; [reflexivity|].
  split; [eexists; split; reflexivity|]. split; [reflexivity|]. split; [reflexivity|]. eexists; split; reflexivity.
Qed.
