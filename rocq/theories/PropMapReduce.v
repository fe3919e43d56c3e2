(** * PropMapReduce: filling in pieces and adding up the pieces (C55). *)
From stdpp Require Import gmap.
From Coq Require Import ZifyN ZifyNat Lia.
From Verif Require Import Base BaseFacts Num Axis Spec AxesSpec Category Value VecHist HashHist HistSpec HistFacts HashFacts
  OpsFacts PropCategory PropHist PropHistIter PropOrder PropMerge IntFacts.
Open Scope N_scope.

Section MapReduce.
Context {A V D W : Type} {AX : Axis A} {AE : AxisEq A} {FV : Fill V} {FD : FillWith V D} {FW : FillWithWeighted V D W}
        {DV : Default V}.

(** How the work was divided: a piece is filled into a fresh histogram by one
    worker, and results are added pairwise in any bracketing. *)
Inductive plan : Type :=
| Piece (ops : list (fill_op D W))
| Merge (p q : plan).

Fixpoint entries (p : plan) : list (fill_op D W) :=
  match p with Piece ops => ops | Merge p q => entries p ++ entries q end.

Fixpoint subplan (s p : plan) : Prop :=
  s = p \/ match p with Piece _ => False | Merge p1 p2 => subplan s p1 \/ subplan s p2 end.

(** [h] can come out of executing the plan with dense histograms over axes [a];
    each addition may be [&l + &r], [l + &r] or [l += &r]. *)
Inductive dense_result (add : V -> V -> outcome V) (a : A) : plan -> VecHistogram A V -> Prop :=
| dr_piece ops h0 h : vec_new a = Val h0 -> vec_calls h0 ops = Val h -> dense_result add a (Piece ops) h
| dr_borrowed p q l r h : dense_result add a p l -> dense_result add a q r ->
    vec_binop_borrowed add l r = Val (Ok h) -> dense_result add a (Merge p q) h
| dr_owned p q l r h : dense_result add a p l -> dense_result add a q r ->
    vec_binop_owned add l r = Val (Ok h) -> dense_result add a (Merge p q) h
| dr_assign p q l r h : dense_result add a p l -> dense_result add a q r ->
    vec_binop_assign add l r = Val h -> dense_result add a (Merge p q) h.

(** The same with sparse histograms, for any hash iteration orders. *)
Inductive sparse_result (add : V -> V -> outcome V) (a : A) : plan -> HashHistogram A V -> Prop :=
| sr_piece ops h : hash_calls (hash_new a) ops = Val h -> sparse_result add a (Piece ops) h
| sr_borrowed p q l r keys h : sparse_result add a p l -> sparse_result add a q r ->
    NoDup keys -> (forall i, i ∈ keys <-> is_Some (hash_value_at_index l i) \/ is_Some (hash_value_at_index r i)) ->
    hash_binop_borrowed add l r keys = Val (Ok h) -> sparse_result add a (Merge p q) h
| sr_owned p q l r order h : sparse_result add a p l -> sparse_result add a q r ->
    an_order (hash_as_map r) order ->
    hash_binop_owned add l r order = Val (Ok h) -> sparse_result add a (Merge p q) h
| sr_assign p q l r order h : sparse_result add a p l -> sparse_result add a q r ->
    an_order (hash_as_map r) order ->
    hash_binop_assign add l r order = Val h -> sparse_result add a (Merge p q) h.
End MapReduce.
Arguments plan {A} D W {AX}.

(** However the work is divided and bracketed, the result is the histogram that
    one worker gets by making all the calls in order (provided that, and each of
    the intermediate totals, does not overflow). *)
Theorem C55_map_reduce :
  forall A V D W (AX : Axis A) (AE : AxisEq A) (FV : Fill V) (FD : FillWith V D) (FW : FillWithWeighted V D W)
         (DV : Default V) (add : V -> V -> outcome V) (contribution : fill_op D W -> V) (P : V -> Prop)
         (a : A) (p : plan D W),
  additive add contribution P -> axis_eqb a a = true ->
  (forall h0, vec_new a = Val h0 ->
     (forall s, subplan s p -> exists h : VecHistogram A V, vec_calls h0 (entries s) = Val h) ->
     (exists h, dense_result add a p h)
     /\ forall h, dense_result add a p h <-> vec_calls h0 (entries p) = Val h)
  /\ ((forall s, subplan s p -> exists h : HashHistogram A V, hash_calls (hash_new a) (entries s) = Val h) ->
     (exists h, sparse_result add a p h)
     /\ forall h, sparse_result add a p h <-> hash_calls (hash_new a) (entries p) = Val h).
Proof.
  intros A V D W AX AE FV FD FW DV add contribution P a p Hadd Hrefl. split.
  - intros h0 H0. induction p as [ops|p IHp q IHq]; intros Hs.
    + destruct (Hs (Piece ops) (or_introl eq_refl)) as [h Hh]. split.
      * exists h. econstructor; eassumption.
      * intros h'. split; [|intros Hh'; econstructor; eassumption].
        intros Hd. inversion Hd as [? h0' ? H0' Hc| | |]; subst. rewrite H0 in H0'. injection H0' as <-. exact Hc.
    + destruct IHp as [[hp Hp] IHp]. { intros s Hsub. apply Hs. right. left. exact Hsub. }
      destruct IHq as [[hq Hq] IHq]. { intros s Hsub. apply Hs. right. right. exact Hsub. }
      destruct (Hs (Merge p q) (or_introl eq_refl)) as [h Hh].
      destruct (C36_merge_is_combined_history A V D W AX AE FV FD FW DV add contribution P a a (entries p) (entries q)
                  Hadd Hrefl eq_refl (fun c => eq_refl)) as [Hm _].
      assert (Hall : forall l r, dense_result add a p l -> dense_result add a q r ->
         vec_binop_borrowed add l r = Val (Ok h) /\ vec_binop_owned add l r = Val (Ok h) /\ vec_binop_assign add l r = Val h).
      { intros l r Hl Hr. apply (Hm h0 h0 l r h H0); [now apply IHp | exact H0 | now apply IHq | exact Hh]. }
      split.
      * exists h. eapply dr_owned; [exact Hp | exact Hq | exact (proj1 (proj2 (Hall _ _ Hp Hq)))].
      * intros h'. split.
        -- intros Hd. cbn [entries] in *. inversion Hd as [|p' q' l r h'' Hl Hr Hb|p' q' l r h'' Hl Hr Hb|p' q' l r h'' Hl Hr Hb]; subst;
             destruct (Hall l r Hl Hr) as [E1 [E2 E3]]; congruence.
        -- intros Hh'. rewrite Hh in Hh'. injection Hh' as <-.
           eapply dr_owned; [exact Hp | exact Hq | exact (proj1 (proj2 (Hall _ _ Hp Hq)))].
  - induction p as [ops|p IHp q IHq]; intros Hs.
    + destruct (Hs (Piece ops) (or_introl eq_refl)) as [h Hh]. split.
      * exists h. econstructor; eassumption.
      * intros h'. split; [|intros Hh'; econstructor; eassumption].
        intros Hd. inversion Hd; subst. assumption.
    + destruct IHp as [[hp Hp] IHp]. { intros s Hsub. apply Hs. right. left. exact Hsub. }
      destruct IHq as [[hq Hq] IHq]. { intros s Hsub. apply Hs. right. right. exact Hsub. }
      destruct (Hs (Merge p q) (or_introl eq_refl)) as [h Hh].
      destruct (C36_merge_is_combined_history A V D W AX AE FV FD FW DV add contribution P a a (entries p) (entries q)
                  Hadd Hrefl eq_refl (fun c => eq_refl)) as [_ Hm].
      assert (Hall : forall l r keys order, sparse_result add a p l -> sparse_result add a q r ->
         NoDup keys -> (forall i, i ∈ keys <-> is_Some (hash_value_at_index l i) \/ is_Some (hash_value_at_index r i)) ->
         an_order (hash_as_map r) order ->
         hash_binop_borrowed add l r keys = Val (Ok h) /\ hash_binop_owned add l r order = Val (Ok h)
         /\ hash_binop_assign add l r order = Val h).
      { intros l r keys order Hl Hr Hnd Hk Ho.
        apply (Hm l r h keys order); [now apply IHp | now apply IHq | exact Hh | assumption..]. }
      assert (Hkeys : forall l r : HashHistogram A V, exists keys, NoDup keys /\
         forall i, i ∈ keys <-> is_Some (hash_value_at_index l i) \/ is_Some (hash_value_at_index r i)).
      { intros l r. exists (elements (dom (hh_values l) ∪ dom (hh_values r) : gset N)). split; [apply NoDup_elements|].
        intros i. rewrite elem_of_elements, elem_of_union, !elem_of_dom. reflexivity. }
      assert (Hord : forall r : HashHistogram A V, an_order (hash_as_map r) (map_to_list (hash_as_map r))).
      { intros r. unfold an_order. reflexivity. }
      assert (Hex : sparse_result add a (Merge p q) h).
      { destruct (Hkeys hp hq) as [keys [K1 K2]].
        eapply sr_owned; [exact Hp | exact Hq | apply Hord|].
        exact (proj1 (proj2 (Hall _ _ _ _ Hp Hq K1 K2 (Hord hq)))). }
      split; [exists h; exact Hex|]. intros h'. split.
      * intros Hd. cbn [entries] in *.
        inversion Hd as [|p' q' l r keys h'' Hl Hr Hnd Hk Hb|p' q' l r order h'' Hl Hr Ho Hb|p' q' l r order h'' Hl Hr Ho Hb]; subst.
        -- destruct (Hall l r keys _ Hl Hr Hnd Hk (Hord r)) as [E1 _]. congruence.
        -- destruct (Hkeys l r) as [keys [K1 K2]]. destruct (Hall l r keys order Hl Hr K1 K2 Ho) as [_ [E2 _]]. congruence.
        -- destruct (Hkeys l r) as [keys [K1 K2]]. destruct (Hall l r keys order Hl Hr K1 K2 Ho) as [_ [_ E3]]. congruence.
      * intros Hh'. rewrite Hh in Hh'. injection Hh' as <-. exact Hex.
Qed.
Print Assumptions C55_map_reduce.

Lemma subplan_entries {A D W} {AX : Axis A} (s p : plan D W) :
  subplan s p -> exists rest, Permutation (entries p) (entries s ++ rest).
Proof.
  induction p as [ops|p IHp q IHq]; cbn [subplan entries].
  - intros [->|[]]. exists []. rewrite app_nil_r. reflexivity.
  - intros [->|[Hs|Hs]].
    + exists []. rewrite app_nil_r. reflexivity.
    + destruct (IHp Hs) as [rest Hr]. exists (rest ++ entries q). rewrite Hr, app_assoc. reflexivity.
    + destruct (IHq Hs) as [rest Hr]. exists (rest ++ entries p). rewrite Hr, (Permutation_app_comm (entries p)), app_assoc. reflexivity.
Qed.

Lemma foldo_prefix {S X} (f : S -> X -> outcome S) (l l' : list X) (s s' : S) :
  foldo f (l ++ l') s = Val s' -> exists s1, foldo f l s = Val s1.
Proof. rewrite foldo_app. destruct (foldo f l s) as [s1|]; [exists s1; reflexivity | discriminate]. Qed.

(** Integer histograms (in builds that wrap, or with non-negative weights): the
    entries may even be dealt out to the workers in any order. If the single
    worker's run over [ops] returns, then every plan that distributes exactly
    those entries returns too, with the same histogram. *)
Theorem C55_integer_any_distribution :
  forall (B : Build) (t : int_type) A (AX : Axis A) (AE : AxisEq A) (a : A) (ops : list (fill_op Z Empty_set))
         (p : plan Z Empty_set),
  primitive_int t -> axis_eqb a a = true ->
  overflow_checks = false \/ (forall o, In o ops -> (0 <= amount o)%Z) ->
  Permutation ops (entries p) ->
  let fill := int_fill t in let fill_with := int_fill_with t in let weighted := no_weighted in let default := int_default t in
  (forall (h0 h : VecHistogram A Z), vec_new a = Val h0 -> int_vec_calls t h0 ops = Val h ->
     (exists h', dense_result (@n_add Z (int_ops t)) a p h') /\ forall h', dense_result (@n_add Z (int_ops t)) a p h' -> h' = h)
  /\ (forall h : HashHistogram A Z, int_hash_calls t (hash_new a) ops = Val h ->
     (exists h', sparse_result (@n_add Z (int_ops t)) a p h') /\ forall h', sparse_result (@n_add Z (int_ops t)) a p h' -> h' = h).
Proof.
  intros B t A AX AE a ops p Ht Hrefl Hor Hp fill fill_with weighted default.
  pose proof (primitive_bounds t Ht) as H0.
  destruct (@C55_map_reduce A Z Z Empty_set AX AE fill fill_with weighted default _ _ _ a p
              (C36_integer_addition_merges B t A AX Ht) Hrefl) as [HD HS].
  split.
  - intros h0 h Hnew Hops.
    assert (Hfit : forall i v, vec_value_at_index h0 i = Some v -> fits t v).
    { intros i v Hv. unfold vec_new in Hnew. destruct (num_bins a) as [n|]; [|discriminate]. cbn in Hnew. injection Hnew as <-.
      unfold vec_value_at_index in Hv. cbn in Hv. apply nth_error_In, repeat_spec in Hv. subst v. unfold fits. cbn. lia. }
    assert (Hperm : forall ops', Permutation ops ops' -> int_vec_calls t h0 ops' = Val h).
    { intros ops' Hp'. rewrite <- (proj1 (C34_int_sums_order_irrelevant B t A AX ops ops' Ht Hor Hp') h0 Hfit). exact Hops. }
    destruct (HD h0 Hnew) as [Hex Hiff].
    { intros s Hs. destruct (subplan_entries s p Hs) as [rest Hr].
      apply (foldo_prefix _ _ rest _ h). apply Hperm. rewrite Hp. exact Hr. }
    split; [exact Hex|]. intros h' Hh'. apply Hiff in Hh'.
    assert (Val h' = Val h) as [= E]; [|exact E]. rewrite <- Hh'. apply (Hperm _ Hp).
  - intros h Hops.
    assert (Hperm : forall ops', Permutation ops ops' -> int_hash_calls t (hash_new a) ops' = Val h).
    { intros ops' Hp'. rewrite <- (proj2 (C34_int_sums_order_irrelevant B t A AX ops ops' Ht Hor Hp') (hash_new a)); [exact Hops|].
      intros i v Hv. unfold hash_value_at_index, hash_new in Hv. cbn in Hv. rewrite lookup_empty in Hv. discriminate. }
    destruct HS as [Hex Hiff].
    { intros s Hs. destruct (subplan_entries s p Hs) as [rest Hr].
      apply (foldo_prefix _ _ rest _ h). apply Hperm. rewrite Hp. exact Hr. }
    split; [exact Hex|]. intros h' Hh'. apply Hiff in Hh'.
    assert (Val h' = Val h) as [= E]; [|exact E]. rewrite <- Hh'. apply (Hperm _ Hp).
Qed.
Print Assumptions C55_integer_any_distribution.

(** Three workers over i32 / Category(5, 7, 9), the second handling two entries;
    the single worker's run returns and meets the hypotheses. *)
Example C55_nonvacuous : forall B : Build,
  let f := @CallFill _ Z Empty_set (ex_axis B) in
  let ops := [f 7; @CallFillWith _ Z Empty_set (ex_axis B) 5 10; f 7; f 1000]%Z in
  let p := Merge (Merge (Piece [f 7%Z]) (Piece [f 1000%Z; f 7%Z])) (Piece [@CallFillWith _ Z Empty_set (ex_axis B) 5 10]%Z) in
  Permutation ops (entries p)
  /\ (forall o, In o ops -> (0 <= amount o)%Z)
  /\ @axis_eqb _ ex_eq ex_cat ex_cat = true
  /\ exists h0, @vec_new _ _ (ex_axis B) (int_default (signed 32)) ex_cat = Val h0
     /\ int_vec_calls (signed 32) h0 ops = Val (mkVecHist ex_cat [10; 2; 0; 1]%Z).
Proof.
  intros B f ops p. split.
  { subst ops p. cbn [entries app]. apply perm_skip.
    change (Permutation ([@CallFillWith _ Z Empty_set (ex_axis B) 5 10; f 7; f 1000]%Z) ([f 1000; f 7]%Z ++ [@CallFillWith _ Z Empty_set (ex_axis B) 5 10]%Z)).
    rewrite (Permutation_app_comm [f 1000%Z; f 7%Z]). apply perm_skip, perm_swap. }
  split. { intros o [<-|[<-|[<-|[<-|[]]]]]; cbn; lia. }
  split; [reflexivity|]. exists (mkVecHist ex_cat [0; 0; 0; 0]%Z). destruct B as [[] []]; vm_compute; split; reflexivity.
Qed.
