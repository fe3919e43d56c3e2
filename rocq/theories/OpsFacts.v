(** * OpsFacts: introduction lemmas for the histogram operators. *)
From stdpp Require Import gmap.
From Coq Require Import ZifyN ZifyNat Lia.
From Verif Require Import Base BaseFacts Num Axis Value VecHist HashHist HistSpec HistFacts HashFacts.
Open Scope N_scope.

Section Dense.
Context {A V : Type} {AX : Axis A} {AE : AxisEq A}.

Lemma zip_assign_intro (op : V -> V -> outcome V) l r m :
  length l = length r -> length m = length l ->
  (forall i x y, nth_error l i = Some x -> nth_error r i = Some y -> exists z, op x y = Val z /\ nth_error m i = Some z) ->
  zip_assign op l r = Val m.
Proof.
  revert r m. induction l as [|x l IH]; intros [|y r] [|z m] Hl Hm Hz; try discriminate; [reflexivity|].
  cbn [zip_assign]. destruct (Hz 0%nat x y eq_refl eq_refl) as [z' [Hop Hz']]. injection Hz' as <-.
  rewrite Hop. cbn [obind]. cbn [length] in *. rewrite (IH r m); [reflexivity | lia | lia |].
  intros i a b Ha Hb. exact (Hz (S i) a b Ha Hb).
Qed.

(** With as many values on both sides the in-place loop and the collecting loop agree. *)
Lemma zip_assign_combine (op : V -> V -> outcome V) l r : length l = length r ->
  zip_assign op l r = mapo (fun p : V * V => op (fst p) (snd p)) (combine l r).
Proof.
  revert r. induction l as [|x l IH]; intros [|y r] Hl; try discriminate; [reflexivity|].
  cbn [zip_assign combine mapo fst snd]. destruct (op x y); [|reflexivity]. cbn [obind].
  rewrite IH by (cbn [length] in Hl; lia). reflexivity.
Qed.

Lemma zip_assign_inv (op : V -> V -> outcome V) l r m : zip_assign op l r = Val m ->
  length m = length l /\
  forall i x y, nth_error l i = Some x -> nth_error r i = Some y -> exists z, op x y = Val z /\ nth_error m i = Some z.
Proof.
  revert r m. induction l as [|x l IH]; intros r m Hz.
  - destruct r; cbn in Hz; injection Hz as <-; (split; [reflexivity | intros [|i] a b Ha; discriminate]).
  - destruct r as [|y r]; cbn [zip_assign] in Hz.
    + injection Hz as <-. split; [reflexivity|]. intros [|i] a b _ Hb; discriminate.
    + apply obind_val in Hz as [z [Hop Hz]]. apply obind_val in Hz as [zs [Hzs Hz]]. injection Hz as <-.
      destruct (IH _ _ Hzs) as [H1 H2]. split; [cbn [length]; congruence|].
      intros [|i] a b Ha Hb; cbn [nth_error] in *; [injection Ha as <-; injection Hb as <-; eauto | eauto].
Qed.
End Dense.

Section Sparse.
Context {A V : Type} {AX : Axis A} {AE : AxisEq A} {DV : Default V}.

Lemma borrowed_intro op (l r : HashHistogram A V) keys (m : gmap N V) :
  NoDup keys -> axis_eqb (hh_axes l) (hh_axes r) = true ->
  (forall i, i ∈ keys -> exists v, pair_op op (hh_values l) (hh_values r) i = Val v /\ m !! i = Some v) ->
  (forall i, i ∉ keys -> m !! i = None) ->
  hash_binop_borrowed op l r keys = Val (Ok (mkHashHist (hh_axes l) m)).
Proof.
  intros Hnd Hax Hin Hout.
  destruct (foldo_insert_total (fun i => i) (pair_op op (hh_values l) (hh_values r)) keys ∅) as [m' Hm'].
  { intros i Hi. destruct (Hin i Hi) as [v [Hv _]]. eauto. }
  unfold hash_binop_borrowed. rewrite Hax. cbn [negb]. unfold pair_op in Hm'. rewrite Hm'. cbn [obind].
  do 3 f_equal.
  pose proof (foldo_insert (fun i => i) (pair_op op (hh_values l) (hh_values r)) keys ∅ m') as HF.
  rewrite map_id in HF. destruct (HF Hnd Hm') as [H1 H2].
  apply map_eq. intros i. destruct (decide (i ∈ keys)) as [Hi|Hi].
  - destruct (H1 i Hi) as [v [E1 E2]]. destruct (Hin i Hi) as [v' [E3 E4]]. congruence.
  - rewrite (H2 i Hi), (Hout i Hi). apply lookup_empty.
Qed.

Lemma merge_loop_intro (op : V -> V -> outcome V) (ml mr m : gmap N V) order :
  an_order mr order ->
  (forall i v, mr !! i = Some v -> exists v', op (or_default (ml !! i)) v = Val v' /\ m !! i = Some v') ->
  (forall i, mr !! i = None -> m !! i = ml !! i) ->
  hash_merge_loop op ml order = Val m.
Proof.
  intros Ho Hin Hout. pose proof (order_NoDup _ _ Ho) as Hnd.
  destruct (merge_loop_total op order ml Hnd) as [m' Hm'].
  { intros i v Hiv. apply (order_elem _ order _ _ Ho) in Hiv. destruct (Hin i v Hiv) as [v' [Hv _]]. eauto. }
  rewrite Hm'. f_equal. destruct (merge_loop_spec op order ml m' Hnd Hm') as [H1 H2].
  apply map_eq. intros i. destruct (mr !! i) as [v|] eqn:E.
  - destruct (Hin i v E) as [v' [E3 E4]]. apply (order_elem _ order _ _ Ho) in E.
    destruct (H1 i v E) as [v'' [E5 E6]]. congruence.
  - rewrite (Hout i E). apply H2. intros Hi. apply (order_key _ order i Ho) in Hi. rewrite E in Hi.
    destruct Hi as [? Hi]. discriminate.
Qed.
End Sparse.
