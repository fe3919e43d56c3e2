(** * PropFloatSumSparse: C58 for sparse histograms — two ways of doing the same work, and
      termination without panics. *)
From stdpp Require Import gmap.
From Coq Require Import Reals Lra Permutation.
From Flocq Require Import Core IEEE754.BinarySingleNaN.
From Verif Require Import Base BaseFacts Num Float Axis Spec AxesSpec Category Value VecHist HashHist HistSpec HistFacts HashFacts
  OpsFacts FloatFacts FloatSpec FloatUniform ExactSpec PropCount PropCategory PropHist PropHistIter PropOrder PropMerge PropOps PropMapReduce PropFloatSum PropOpsMore.
Open Scope R_scope.

(** What a bin of a sparse histogram counts for: nothing if it is not stored. *)
Definition content {A} {prec emax : Z} (h : HashHistogram A (binary_float prec emax)) (i : N) : R :=
  match hash_value_at_index h i with Some v => B2R v | None => 0 end.
Definition finite_content {A} {prec emax : Z} (h : HashHistogram A (binary_float prec emax)) (i : N) : Prop :=
  forall v, hash_value_at_index h i = Some v -> is_finite v = true.

Lemma in_reaching {A D W} {AX : Axis A} (a : A) i (l : list (fill_op D W)) o :
  In o (reaching a i l) <-> In o l /\ index a (op_coordinate o) = Val (Some i).
Proof.
  unfold reaching. rewrite filter_In. unfold lands_in. destruct (index a (op_coordinate o)) as [[j|]|]; (split; intros [H1 H2]; split; try exact H1; try discriminate).
  - apply N.eqb_eq in H2. congruence.
  - injection H2 as ->. apply N.eqb_refl.
Qed.

(** Whichever form of operator is used, the result stores the bins either side stores. *)
Lemma operators_store_union :
  forall A V (AX : Axis A) (AE : AxisEq A) (DV : Default V) (op : V -> V -> outcome V) (l r h : HashHistogram A V),
  ((exists keys, NoDup keys /\ (forall i, i ∈ keys <-> is_Some (hash_value_at_index l i) \/ is_Some (hash_value_at_index r i))
                 /\ hash_binop_borrowed op l r keys = Val (Ok h))
   \/ (exists order, an_order (hash_as_map r) order /\ (hash_binop_owned op l r order = Val (Ok h) \/ hash_binop_assign op l r order = Val h))) ->
  forall i, is_Some (hash_value_at_index h i) <-> is_Some (hash_value_at_index l i) \/ is_Some (hash_value_at_index r i).
Proof.
  intros A V AX AE DV op l r h H i.
  assert (Ho0 : an_order (hash_as_map r) (map_to_list (hash_as_map r))) by (unfold an_order; reflexivity).
  set (keys0 := elements ((dom (hash_as_map l) ∪ dom (hash_as_map r)) : gset N)).
  assert (Hk0 : forall i, i ∈ keys0 <-> is_Some (hash_value_at_index l i) \/ is_Some (hash_value_at_index r i)).
  { intros j. unfold keys0. rewrite elem_of_elements, elem_of_union, !elem_of_dom. reflexivity. }
  assert (Hnone : ~ is_Some (@None V)) by (intros [? ?]; discriminate).
  destruct H as [[keys [Hnd [Hk Hb]]]|[order [Ho Hb]]].
  - destruct (C38_sparse_operators A V AX AE DV op l r keys _ Hnd Hk Ho0) as [Hd [_ He]].
    destruct (axis_eqb (hh_axes l) (hh_axes r)).
    2: { destruct (Hd eq_refl) as [Hx _]. congruence. }
    destruct (He eq_refl) as [Hx _]. destruct (Hx h Hb) as [_ Hi]. specialize (Hi i).
    destruct (hash_value_at_index l i), (hash_value_at_index r i); match type of Hi with ex _ => destruct Hi as [z [_ Hi]] | _ => idtac end; rewrite Hi; intuition eauto.
  - assert (Hw : hash_binop_owned op l r order = Val (Ok h)).
    { destruct Hb as [Hb|Hb]; [exact Hb|]. destruct (C38_sparse_operators A V AX AE DV op l r keys0 order (NoDup_elements _) Hk0 Ho) as [_ [Ha _]].
      rewrite Hb in Ha. unfold assigned in Ha. destruct (hash_binop_owned op l r order) as [[x|e]|]; congruence. }
    destruct (C38_sparse_operators A V AX AE DV op l r keys0 order (NoDup_elements _) Hk0 Ho) as [Hd [_ He]].
    destruct (axis_eqb (hh_axes l) (hh_axes r)).
    2: { destruct (Hd eq_refl) as [_ [Hx _]]. congruence. }
    destruct (He eq_refl) as [_ [Hx _]]. destruct (Hx h Hw) as [_ Hi]. specialize (Hi i).
    destruct (hash_value_at_index l i), (hash_value_at_index r i); match type of Hi with ex _ => destruct Hi as [z [_ Hi]] | _ => idtac end; rewrite Hi; intuition eauto.
Qed.

(** C55: for any bin values and any addition, however the work is divided and merged, the
    sparse result stores exactly the bins that some entry reaches. *)
Theorem C55_sparse_stored_bins :
  forall A V D W (AX : Axis A) (AE : AxisEq A) (FV : Fill V) (FD : FillWith V D) (FW : FillWithWeighted V D W) (DV : Default V)
         (add : V -> V -> outcome V) (a : A) (p : plan D W) (h : HashHistogram A V),
  sparse_result add a p h ->
  forall i, is_Some (hash_value_at_index h i) <-> exists o, In o (entries p) /\ index a (op_coordinate o) = Val (Some i).
Proof.
  intros A V D W AX AE FV FD FW DV add a p h H.
  assert (Hmerge : forall (p1 p2 : plan D W) i, (exists o, In o (entries (Merge p1 p2)) /\ index a (op_coordinate o) = Val (Some i)) <->
     (exists o, In o (entries p1) /\ index a (op_coordinate o) = Val (Some i)) \/ (exists o, In o (entries p2) /\ index a (op_coordinate o) = Val (Some i))).
  { intros p1 p2 i. cbn [entries]. split.
    - intros [o [Ho Hi]]. apply in_app_or in Ho as [Ho|Ho]; [left|right]; eauto.
    - intros [[o [Ho Hi]]|[o [Ho Hi]]]; exists o; (split; [apply in_or_app; tauto | exact Hi]). }
  induction H as [ops h Hc|p1 p2 l r keys h Hl IHl Hr IHr Hnd Hk Hb|p1 p2 l r order h Hl IHl Hr IHr Ho Hb|p1 p2 l r order h Hl IHl Hr IHr Ho Hb]; intros i.
  - destruct (C29_hash_contents_are_tally A V D W AX FV FD FW DV a h ops Hc) as [_ [H0 [H1 _]]].
    cbn [entries]. split.
    + intros [v Hv]. destruct (reaching a i ops) as [|o l] eqn:Er.
      * rewrite (H0 i Er) in Hv. discriminate.
      * assert (Hin : In o (reaching a i ops)) by (rewrite Er; left; reflexivity).
        apply in_reaching in Hin as [Hin Hi]. exists o. split; assumption.
    + intros [o [Ho Hi]]. destruct (H1 i) as [v [Hv _]]; [|eauto].
      intros Er. assert (Hin : In o (reaching a i ops)) by (apply in_reaching; split; assumption). rewrite Er in Hin. exact Hin.
  - rewrite Hmerge, <- IHl, <- IHr. apply (operators_store_union A V AX AE DV add). left. eauto.
  - rewrite Hmerge, <- IHl, <- IHr. apply (operators_store_union A V AX AE DV add). right. eauto.
  - rewrite Hmerge, <- IHl, <- IHr. apply (operators_store_union A V AX AE DV add). right. eauto.
Qed.
Print Assumptions C55_sparse_stored_bins.

(** C58: two sparse histograms that received the same entries in whatever order, pieces and
    bracketing store the same bins, and their contents differ by at most the two error bounds. *)
Theorem C58_float_distribution_error_sparse :
  forall (B : Build) (prec emax : Z) (P : Prec_gt_0 prec) (E : Prec_lt_emax prec emax) A (AX : Axis A) (AE : AxisEq A)
         (a : A) (p q : plan (binary_float prec emax) Empty_set) i,
  let fill := float_fill prec emax P E in let fill_with := float_fill_with prec emax P E in
  let weighted := float_no_weighted prec emax in let default := float_default prec emax P E in
  let add := @n_add _ (float_ops prec emax P E) in
  let u := unit_roundoff prec in
  Permutation (entries p) (entries q) ->
  forall h h', sparse_result add a p h -> sparse_result add a q h' ->
  finite_content h i -> finite_content h' i ->
  (is_Some (hash_value_at_index h i) <-> is_Some (hash_value_at_index h' i))
  /\ Rabs (content h i - content h' i) <= ((1 + u) ^ additions a i p + (1 + u) ^ additions a i q - 2) * sumR (map Rabs (sent a i (entries p))).
Proof.
  intros B prec emax P E A AX AE a p q i fill fill_with weighted default add u Hp h h' Hs Hs' Fh Fh'. split.
  { rewrite (C55_sparse_stored_bins _ _ _ _ _ _ _ _ _ _ _ _ _ _ Hs), (C55_sparse_stored_bins _ _ _ _ _ _ _ _ _ _ _ _ _ _ Hs').
    split; intros [o [Ho Hi]]; exists o; (split; [|exact Hi]); [|apply Permutation_sym in Hp]; exact (Permutation_in _ Hp Ho). }
  assert (Hu : 0 <= u) by (apply Rlt_le, bpow_gt_0).
  assert (H : forall p h, sparse_result add a p h -> finite_content h i ->
     Rabs (content h i - sumR (sent a i (entries p))) <= ((1 + u) ^ additions a i p - 1) * sumR (map Rabs (sent a i (entries p)))).
  { intros p0 h0 Hs0 F0.
    pose proof (proj2 (C58_float_contents_accuracy B prec emax P E A AX AE a p0) h0 i Hs0) as H0.
    unfold content. unfold finite_content in F0. destruct (hash_value_at_index h0 i) as [v|].
    - exact (H0 (F0 v eq_refl)).
    - rewrite H0. cbn. rewrite Rminus_0_r, Rabs_R0. lra. }
  pose proof (H p h Hs Fh) as H1. pose proof (H q h' Hs' Fh') as H2.
  assert (Hq : Permutation (sent a i (entries p)) (sent a i (entries q))).
  { unfold sent. apply Permutation_map, reaching_perm. exact Hp. }
  rewrite <- (sumR_perm _ _ Hq), <- (sumR_perm _ _ (Permutation_map Rabs Hq)) in H2.
  replace (content h i - content h' i) with ((content h i - sumR (sent a i (entries p))) - (content h' i - sumR (sent a i (entries p)))) by ring.
  eapply Rle_trans; [apply Rabs_triang|]. rewrite Rabs_Ropp. lra.
Qed.
Print Assumptions C58_float_distribution_error_sparse.

(** C58: adding and merging sparse float histograms never panics either, whichever form of
    addition and whatever order the hash map is iterated in. *)
Theorem C58_float_always_completes_sparse :
  forall (B : Build) (prec emax : Z) (P : Prec_gt_0 prec) (E : Prec_lt_emax prec emax) A (AX : Axis A) (AE : AxisEq A)
         (a : A) (p : plan (binary_float prec emax) Empty_set),
  let fill := float_fill prec emax P E in let fill_with := float_fill_with prec emax P E in
  let weighted := float_no_weighted prec emax in let default := float_default prec emax P E in
  let add := @n_add _ (float_ops prec emax P E) in
  axis_eqb a a = true ->
  (forall o, In o (entries p) -> exists r, index a (op_coordinate o) = Val r) ->
  (exists h, sparse_result add a p h)
  /\ (forall h, sparse_result add a p h -> hh_axes h = a)
  /\ (forall p1 p2 l r keys order, p = Merge p1 p2 -> sparse_result add a p1 l -> sparse_result add a p2 r ->
        NoDup keys -> (forall i, i ∈ keys <-> is_Some (hash_value_at_index l i) \/ is_Some (hash_value_at_index r i)) ->
        an_order (hash_as_map r) order ->
        hash_binop_borrowed add l r keys <> Panic /\ hash_binop_owned add l r order <> Panic
        /\ hash_binop_assign add l r order <> Panic).
Proof.
  intros B prec emax P E A AX AE a p fill fill_with weighted default add Hrefl Hix.
  assert (Hax : forall p h, sparse_result add a p h -> hh_axes h = a).
  { intros p0 h0 H0. induction H0 as [ops h Hc|p1 p2 l r keys h Hl IHl Hr IHr Hnd Hk Hb|p1 p2 l r order h Hl IHl Hr IHr Ho Hb|p1 p2 l r order h Hl IHl Hr IHr Ho Hb].
    - destruct (hash_calls_inv _ _ _ Hc) as [Ha _]. exact Ha.
    - rewrite <- IHl. unfold hash_binop_borrowed in Hb. rewrite IHl, IHr, Hrefl in Hb. cbn [negb] in Hb. apply obind_val in Hb as [m [_ Hb]]. injection Hb as <-. cbn. congruence.
    - rewrite <- IHl. unfold hash_binop_owned in Hb. rewrite IHl, IHr, Hrefl in Hb. cbn [negb] in Hb. apply obind_val in Hb as [m [_ Hb]]. injection Hb as <-. cbn. congruence.
    - rewrite <- IHl. unfold hash_binop_assign in Hb. rewrite IHl, IHr, Hrefl in Hb. cbn [negb] in Hb. apply obind_val in Hb as [m [_ Hb]]. injection Hb as <-. cbn. congruence. }
  assert (Hno : forall x y, add x y <> Panic) by (intros x y; discriminate).
  assert (Hm : forall p1 p2 l r keys order, sparse_result add a p1 l -> sparse_result add a p2 r ->
        NoDup keys -> (forall i, i ∈ keys <-> is_Some (hash_value_at_index l i) \/ is_Some (hash_value_at_index r i)) ->
        an_order (hash_as_map r) order ->
        hash_binop_borrowed add l r keys <> Panic /\ hash_binop_owned add l r order <> Panic
        /\ hash_binop_assign add l r order <> Panic).
  { intros p1 p2 l r keys order Hl Hr Hnd Hk Ho.
    destruct (C38_sparse_operators_panic A _ AX AE default add l r keys order Hnd Hk Ho) as [H1 [H2 H3]].
    { rewrite (Hax p1 l Hl), (Hax p2 r Hr). exact Hrefl. }
    split; [|split]; intros Hp; [apply H1 in Hp|apply H2 in Hp|apply H3 in Hp]; destruct Hp as [i [_ Hp]]; exact (Hno _ _ Hp). }
  split; [|split; [exact (Hax p)|intros p1 p2 l r keys order _; exact (Hm p1 p2 l r keys order)]].
  induction p as [ops|p IHp q IHq].
  - destruct (proj2 (C29_hash_history_returns_iff A _ _ Empty_set AX fill fill_with weighted default a ops)) as [h Hh].
    { split; [exact Hix|]. intros i. apply float_apply_all_returns. }
    exists h. constructor. exact Hh.
  - destruct IHp as [l Hl]. { intros o Ho. apply Hix. cbn [entries]. apply in_or_app. left. exact Ho. }
    destruct IHq as [r Hr]. { intros o Ho. apply Hix. cbn [entries]. apply in_or_app. right. exact Ho. }
    set (order := map_to_list (hash_as_map r)).
    assert (Ho : an_order (hash_as_map r) order) by (unfold an_order; reflexivity).
    set (keys := elements ((dom (hash_as_map l) ∪ dom (hash_as_map r)) : gset N)).
    assert (Hk : forall i, i ∈ keys <-> is_Some (hash_value_at_index l i) \/ is_Some (hash_value_at_index r i)).
    { intros i. unfold keys. rewrite elem_of_elements, elem_of_union, !elem_of_dom. reflexivity. }
    destruct (Hm p q l r keys order Hl Hr (NoDup_elements _) Hk Ho) as [_ [Hw _]].
    destruct (hash_binop_owned add l r order) as [[h|e]|] eqn:Eo; [| |congruence].
    + exists h. eapply sr_owned; eassumption.
    + exfalso. revert Eo. unfold hash_binop_owned. rewrite (Hax p l Hl), (Hax q r Hr), Hrefl. cbn [negb].
      destruct (hash_merge_loop _ _ _); discriminate.
Qed.
Print Assumptions C58_float_always_completes_sparse.

(** The same three workers as for dense histograms; the bins of 7 and of 5 are stored, 9 is not. *)
Example C58_sparse_nonvacuous : forall B : Build,
  let w q := @CallFillWith _ f64 Empty_set (ex_axis B) 7%Z (f64_quot q 10) in
  let p := Merge (Merge (Piece [w 1%Z]) (Piece [w 2%Z])) (Piece [w 3%Z; @CallFill _ f64 Empty_set (ex_axis B) 5%Z]) in
  let q := Piece [@CallFill _ f64 Empty_set (ex_axis B) 5%Z; w 3%Z; w 1%Z; w 2%Z] in
  @axis_eqb _ ex_eq ex_cat ex_cat = true
  /\ (forall o, In o (entries p) -> exists r, @index _ (ex_axis B) ex_cat (op_coordinate o) = Val r)
  /\ Permutation (entries p) (entries q)
  /\ additions ex_cat 1 p = 3%nat /\ additions ex_cat 1 q = 3%nat /\ length (sent ex_cat 1 (entries p)) = 3%nat
  /\ exists h v, @sparse_result _ _ _ _ (ex_axis B) ex_eq f64_fill f64_fill_with f64_no_weighted f64_default (@n_add _ f64_ops) ex_cat q h
     /\ hash_value_at_index h 1 = Some v /\ is_finite v = true /\ hash_value_at_index h 2 = None.
Proof.
  intros B w p q. split; [reflexivity|].
  split. { intros o Ho. cbn [entries p app] in Ho. destruct Ho as [<-|[<-|[<-|[<-|[]]]]]; eexists; reflexivity. }
  split.
  { cbn [entries p q app]. apply (Permutation_trans (l' := [w 1%Z; w 2%Z; @CallFill _ f64 Empty_set (ex_axis B) 5%Z; w 3%Z])).
    - do 2 constructor. constructor.
    - apply (Permutation_app_comm [w 1%Z; w 2%Z] [@CallFill _ f64 Empty_set (ex_axis B) 5%Z; w 3%Z]). }
  split; [reflexivity|]. split; [reflexivity|]. split; [reflexivity|].
  set (z := B754_zero false : f64).
  set (y := Bplus mode_NE z (Bone : f64) : f64).
  set (x := Bplus mode_NE (Bplus mode_NE (Bplus mode_NE z (f64_quot 3 10)) (f64_quot 1 10)) (f64_quot 2 10) : f64).
  exists (mkHashHist ex_cat (<[1%N := x]> (<[1%N := (Bplus mode_NE (Bplus mode_NE z (f64_quot 3 10)) (f64_quot 1 10) : f64)]>
     (<[1%N := (Bplus mode_NE z (f64_quot 3 10) : f64)]> (<[0%N := y]> ∅))))), x.
  split; [constructor; reflexivity|]. split; [reflexivity|]. split; [vm_compute; reflexivity|]. reflexivity.
Qed.
