(** * HistFacts: lemmas about histories of fills and about the iterators. *)
From stdpp Require Import gmap.
From Coq Require Import ZifyN ZifyNat.
From Verif Require Import Base BaseFacts Num Axis AxesSpec AxesFacts Value VecHist HashHist HistSpec.
Open Scope N_scope.

(** ** Lists *)
Section Lists.
Context {V : Type}.
Lemma set_nth_length i (v : V) l : length (set_nth i v l) = length l.
Proof. revert i. induction l as [|x l IH]; intros [|i]; simpl; try reflexivity. f_equal. apply IH. Qed.
Lemma set_nth_same i (v : V) l : (i < length l)%nat -> nth_error (set_nth i v l) i = Some v.
Proof. revert i. induction l as [|x l IH]; intros [|i]; simpl; intros Hi; try lia; [reflexivity|]. apply IH. lia. Qed.
Lemma set_nth_other i j (v : V) l : i <> j -> nth_error (set_nth i v l) j = nth_error l j.
Proof.
  revert i j. induction l as [|x l IH]; intros [|i] [|j] Hij; simpl; try reflexivity; try congruence.
  apply IH. congruence.
Qed.
Lemma set_nth_comm i j (v w : V) l : i <> j -> set_nth i v (set_nth j w l) = set_nth j w (set_nth i v l).
Proof.
  revert i j. induction l as [|x l IH]; intros [|i] [|j] Hij; simpl; try reflexivity; try congruence.
  f_equal. apply IH. congruence.
Qed.
Lemma set_nth_twice i (v w : V) l : set_nth i v (set_nth i w l) = set_nth i v l.
Proof. revert i. induction l as [|x l IH]; intros [|i]; simpl; try reflexivity. f_equal. apply IH. Qed.
Lemma nth_error_ext_len (l l' : list V) :
  length l = length l' -> (forall i v, nth_error l i = Some v -> nth_error l' i = Some v) -> l = l'.
Proof.
  revert l'. induction l as [|x l IH]; intros [|y l'] Hl Hn; simpl in *; try discriminate; [reflexivity|].
  pose proof (Hn O x eq_refl) as Hx. simpl in Hx. injection Hx as ->. f_equal.
  apply IH; [congruence|]. intros i v Hi. exact (Hn (S i) v Hi).
Qed.
Lemma nth_error_lt (l : list V) i : (i < length l)%nat -> exists v, nth_error l i = Some v.
Proof. intros Hi. destruct (nth_error l i) eqn:E; [eauto|]. apply nth_error_None in E. lia. Qed.
Lemma nth_error_some_lt (l : list V) i v : nth_error l i = Some v -> (i < length l)%nat.
Proof. intros Hi. apply nth_error_Some. congruence. Qed.
Lemma nth_error_repeat_lt (v : V) n i : (i < n)%nat -> nth_error (repeat v n) i = Some v.
Proof. revert i. induction n as [|n IH]; intros [|i] Hi; simpl; try lia; [reflexivity|]. apply IH. lia. Qed.
End Lists.

Section Histories.
Context {A V D W : Type} {AX : Axis A} {FV : Fill V} {FD : FillWith V D} {FW : FillWithWeighted V D W}
        {DV : Default V}.
Notation op := (fill_op D W).

(** ** Dense histograms *)

Lemma vec_call_spec (h : VecHistogram A V) (o : op) :
  vec_call h o =
  match index (vh_axes h) (op_coordinate o) with
  | Panic => Panic
  | Val None => Val h
  | Val (Some i) =>
      match nth_error (vh_values h) (N.to_nat i) with
      | None => Val h
      | Some v => let! v' := op_effect o v in
                  Val (mkVecHist (vh_axes h) (set_nth (N.to_nat i) v' (vh_values h)))
      end
  end.
Proof.
  destruct o as [c|c d|c d w]; simpl; unfold vec_fill, vec_fill_with, vec_fill_with_weighted, vec_value_mut;
    destruct (index (vh_axes h) c) as [[i|]|]; cbn [obind]; try reflexivity;
    unfold vec_value_at_index_mut; destruct (nth_error (vh_values h) (N.to_nat i)); reflexivity.
Qed.

Lemma vec_call_axes (h h' : VecHistogram A V) (o : op) : vec_call h o = Val h' ->
  vh_axes h' = vh_axes h /\ length (vh_values h') = length (vh_values h).
Proof.
  rewrite vec_call_spec. destruct (index (vh_axes h) (op_coordinate o)) as [[i|]|]; intros Hc; try discriminate.
  - destruct (nth_error (vh_values h) (N.to_nat i)) as [v|]; [|injection Hc as <-; auto].
    apply obind_val in Hc as [v' [_ Hc]]. injection Hc as <-. simpl. split; [reflexivity|]. apply set_nth_length.
  - injection Hc as <-. auto.
Qed.

Lemma apply_all_app (l1 l2 : list op) (v : V) :
  apply_all (l1 ++ l2) v = let! w := apply_all l1 v in apply_all l2 w.
Proof. apply foldo_app. Qed.

Lemma lands_in_iff (a : A) i (o : op) : lands_in a i o = true <-> index a (op_coordinate o) = Val (Some i).
Proof.
  unfold lands_in. destruct (index a (op_coordinate o)) as [[j|]|]; try (split; discriminate).
  rewrite N.eqb_eq. split; congruence.
Qed.

Lemma vec_call_value (h h' : VecHistogram A V) (o : op) i v : vec_call h o = Val h' ->
  nth_error (vh_values h) (N.to_nat i) = Some v ->
  exists v', nth_error (vh_values h') (N.to_nat i) = Some v'
  /\ (if lands_in (vh_axes h) i o then op_effect o v else Val v) = Val v'.
Proof.
  rewrite vec_call_spec. unfold lands_in.
  destruct (index (vh_axes h) (op_coordinate o)) as [[j|]|]; intros Hc Hv; try discriminate.
  - destruct (N.eqb_spec j i) as [->|Hne].
    + rewrite Hv in Hc. apply obind_val in Hc as [v' [He Hc]]. injection Hc as <-. simpl.
      exists v'. split; [|exact He]. apply set_nth_same. eapply nth_error_some_lt; eauto.
    + destruct (nth_error (vh_values h) (N.to_nat j)) as [w|].
      * apply obind_val in Hc as [v' [He Hc]]. injection Hc as <-. simpl.
        exists v. split; [|reflexivity]. rewrite set_nth_other; [exact Hv | lia].
      * injection Hc as <-. eauto.
  - injection Hc as <-. eauto.
Qed.

Lemma vec_calls_inv (h h' : VecHistogram A V) (ops : list op) : vec_calls h ops = Val h' ->
  vh_axes h' = vh_axes h /\ length (vh_values h') = length (vh_values h)
  /\ (forall o, In o ops -> exists r, index (vh_axes h) (op_coordinate o) = Val r)
  /\ forall i v, nth_error (vh_values h) (N.to_nat i) = Some v ->
       exists v', nth_error (vh_values h') (N.to_nat i) = Some v'
       /\ apply_all (reaching (vh_axes h) i ops) v = Val v'.
Proof.
  revert h. induction ops as [|o ops IH]; intros h Hc; unfold vec_calls in *; cbn [foldo] in Hc.
  - injection Hc as <-. repeat split; [intros o []|]. intros i v Hv. exists v. split; [exact Hv | reflexivity].
  - apply obind_val in Hc as [h1 [H1 Hc]]. destruct (IH _ Hc) as [Ha [Hl [Hix Hv]]].
    destruct (vec_call_axes _ _ _ H1) as [Ha1 Hl1]. rewrite Ha1 in *.
    split; [exact Ha|]. split; [congruence|]. split.
    + intros o' [<-|Hin]; [|exact (Hix o' Hin)].
      rewrite vec_call_spec in H1. destruct (index (vh_axes h) (op_coordinate o)) as [r|]; [eauto | discriminate].
    + intros i v Hi. destruct (vec_call_value _ _ _ _ _ H1 Hi) as [v1 [Hi1 He]].
      destruct (Hv _ _ Hi1) as [v' [Hi' Ht]]. exists v'. split; [exact Hi'|].
      unfold reaching. cbn [List.filter]. destruct (lands_in (vh_axes h) i o).
      * unfold apply_all. cbn [foldo]. rewrite He. exact Ht.
      * injection He as ->. exact Ht.
Qed.

Lemma vec_calls_total (h : VecHistogram A V) (ops : list op) :
  (forall o, In o ops -> exists r, index (vh_axes h) (op_coordinate o) = Val r) ->
  (forall i v, nth_error (vh_values h) (N.to_nat i) = Some v ->
     exists v', apply_all (reaching (vh_axes h) i ops) v = Val v') ->
  exists h', vec_calls h ops = Val h'.
Proof.
  revert h. induction ops as [|o ops IH]; intros h Hix Hv; unfold vec_calls; cbn [foldo]; [eauto|].
  assert (H1 : exists h1, vec_call h o = Val h1).
  { rewrite vec_call_spec. destruct (Hix o (or_introl eq_refl)) as [r Hr]. rewrite Hr.
    destruct r as [i|]; [|eauto]. destruct (nth_error (vh_values h) (N.to_nat i)) as [v|] eqn:Ev; [|eauto].
    destruct (Hv i v Ev) as [v' Hv']. unfold reaching in Hv'. cbn [List.filter] in Hv'.
    rewrite (proj2 (lands_in_iff _ i o) Hr) in Hv'. unfold apply_all in Hv'. cbn [foldo] in Hv'.
    apply obind_val in Hv' as [w [Hw _]]. rewrite Hw. cbn [obind]. eauto. }
  destruct H1 as [h1 H1]. rewrite H1. cbn [obind]. apply (IH h1).
  - destruct (vec_call_axes _ _ _ H1) as [-> _]. intros o' Ho'. apply Hix. now right.
  - destruct (vec_call_axes _ _ _ H1) as [Ha Hl]. rewrite Ha. intros i v Hi.
    destruct (nth_error_lt (vh_values h) (N.to_nat i)) as [v0 Hv0].
    { rewrite <- Hl. eapply nth_error_some_lt; eauto. }
    destruct (vec_call_value _ _ _ _ _ H1 Hv0) as [v1 [Hi1 He]].
    rewrite Hi in Hi1. injection Hi1 as <-.
    destruct (Hv i v0 Hv0) as [v' Hv']. unfold reaching in Hv'. cbn [List.filter] in Hv'.
    destruct (lands_in (vh_axes h) i o).
    + unfold apply_all in Hv'. cbn [foldo] in Hv'. rewrite He in Hv'. cbn [obind] in Hv'. eauto.
    + injection He as ->. eauto.
Qed.

(** ** Sparse histograms *)

Definition or_default (o : option V) : V := match o with Some v => v | None => default_v end.

Lemma hash_call_spec (h : HashHistogram A V) (o : op) :
  hash_call h o =
  match index (hh_axes h) (op_coordinate o) with
  | Panic => Panic
  | Val None => Val h
  | Val (Some i) =>
      let! v' := op_effect o (or_default (hh_values h !! i)) in
      Val (mkHashHist (hh_axes h) (<[i := v']> (hh_values h)))
  end.
Proof.
  destruct o as [c|c d|c d w]; simpl; unfold hash_fill, hash_fill_with, hash_fill_with_weighted, hash_update_at;
    destruct (index (hh_axes h) c) as [[i|]|]; cbn [obind]; try reflexivity;
    unfold entry_or_default_update, or_default; destruct (hh_values h !! i); cbn [op_effect];
    match goal with |- obind (obind ?e _) _ = _ => destruct e; reflexivity end.
Qed.

Lemma hash_call_axes (h h' : HashHistogram A V) (o : op) : hash_call h o = Val h' -> hh_axes h' = hh_axes h.
Proof.
  rewrite hash_call_spec. destruct (index (hh_axes h) (op_coordinate o)) as [[i|]|]; intros Hc; try discriminate.
  - apply obind_val in Hc as [v' [_ Hc]]. injection Hc as <-. reflexivity.
  - injection Hc as <-. reflexivity.
Qed.

Lemma hash_call_value (h h' : HashHistogram A V) (o : op) i : hash_call h o = Val h' ->
  if lands_in (hh_axes h) i o
  then exists v', op_effect o (or_default (hh_values h !! i)) = Val v' /\ hh_values h' !! i = Some v'
  else hh_values h' !! i = hh_values h !! i.
Proof.
  rewrite hash_call_spec. unfold lands_in.
  destruct (index (hh_axes h) (op_coordinate o)) as [[j|]|]; intros Hc; try discriminate.
  - apply obind_val in Hc as [v' [He Hc]]. injection Hc as <-. cbn [hh_values].
    destruct (N.eqb_spec j i) as [->|Hne].
    + exists v'. split; [exact He|]. apply lookup_insert.
    + apply lookup_insert_ne. exact Hne.
  - injection Hc as <-. reflexivity.
Qed.

Lemma hash_calls_inv (h h' : HashHistogram A V) (ops : list op) : hash_calls h ops = Val h' ->
  hh_axes h' = hh_axes h
  /\ (forall o, In o ops -> exists r, index (hh_axes h) (op_coordinate o) = Val r)
  /\ forall i, (reaching (hh_axes h) i ops = [] -> hh_values h' !! i = hh_values h !! i)
       /\ (reaching (hh_axes h) i ops <> [] -> exists v',
             apply_all (reaching (hh_axes h) i ops) (or_default (hh_values h !! i)) = Val v'
             /\ hh_values h' !! i = Some v').
Proof.
  revert h. induction ops as [|o ops IH]; intros h Hc; unfold hash_calls in *; cbn [foldo] in Hc.
  - injection Hc as <-. repeat split; [intros o []|]. simpl. congruence.
  - apply obind_val in Hc as [h1 [H1 Hc]]. destruct (IH _ Hc) as [Ha [Hix Hv]].
    pose proof (hash_call_axes _ _ _ H1) as Ha1. rewrite Ha1 in *.
    split; [exact Ha|]. split.
    + intros o' [<-|Hin]; [|exact (Hix o' Hin)].
      rewrite hash_call_spec in H1. destruct (index (hh_axes h) (op_coordinate o)) as [r|]; [eauto | discriminate].
    + intros i. pose proof (hash_call_value _ _ _ i H1) as H1v. destruct (Hv i) as [Hn Hs].
      unfold reaching in *. cbn [List.filter]. destruct (lands_in (hh_axes h) i o).
      * split; [discriminate|]. intros _. destruct H1v as [v1 [He Hl]].
        unfold apply_all. cbn [foldo]. rewrite He. cbn [obind].
        destruct (List.filter (lands_in (hh_axes h) i) ops) as [|o1 l1] eqn:Ef.
        -- exists v1. split; [reflexivity|]. rewrite (Hn eq_refl). exact Hl.
        -- destruct (Hs ltac:(discriminate)) as [v' [Hv' Hl']]. exists v'. split; [|exact Hl'].
           rewrite Hl in Hv'. exact Hv'.
      * rewrite H1v in Hn, Hs. split; assumption.
Qed.

Lemma hash_calls_total (h : HashHistogram A V) (ops : list op) :
  (forall o, In o ops -> exists r, index (hh_axes h) (op_coordinate o) = Val r) ->
  (forall i, exists v', apply_all (reaching (hh_axes h) i ops) (or_default (hh_values h !! i)) = Val v') ->
  exists h', hash_calls h ops = Val h'.
Proof.
  revert h. induction ops as [|o ops IH]; intros h Hix Hv; unfold hash_calls; cbn [foldo]; [eauto|].
  assert (H1 : exists h1, hash_call h o = Val h1).
  { rewrite hash_call_spec. destruct (Hix o (or_introl eq_refl)) as [r Hr]. rewrite Hr.
    destruct r as [i|]; [|eauto].
    destruct (Hv i) as [v' Hv']. unfold reaching in Hv'. cbn [List.filter] in Hv'.
    rewrite (proj2 (lands_in_iff _ i o) Hr) in Hv'. unfold apply_all in Hv'. cbn [foldo] in Hv'.
    apply obind_val in Hv' as [w [Hw _]]. rewrite Hw. cbn [obind]. eauto. }
  destruct H1 as [h1 H1]. rewrite H1. cbn [obind]. apply (IH h1).
  - rewrite (hash_call_axes _ _ _ H1). intros o' Ho'. apply Hix. now right.
  - rewrite (hash_call_axes _ _ _ H1). intros i.
    pose proof (hash_call_value _ _ _ i H1) as H1v.
    destruct (Hv i) as [v' Hv']. unfold reaching in *. cbn [List.filter] in Hv'.
    destruct (lands_in (hh_axes h) i o).
    + destruct H1v as [v1 [He Hl]]. rewrite Hl. unfold apply_all in *. cbn [foldo or_default] in *.
      rewrite He in Hv'. eauto.
    + rewrite H1v. eauto.
Qed.

(** ** Dense iterators *)

Lemma vec_iter_spec (h : VecHistogram A V) n :
  has_bins AX (vh_axes h) n -> length (vh_values h) = N.to_nat n ->
  exists items, vec_iter h = Val items
    /\ map it_index items = range n
    /\ map it_value items = vh_values h
    /\ forall it, In it items -> bin (vh_axes h) (it_index it) = Val (Some (it_bin it))
                              /\ vec_value_at_index h (it_index it) = Some (it_value it).
Proof.
  intros Hb Hl. destruct (axis_iter_spec AX _ _ Hb) as [l [H1 [_ [H3 H4]]]].
  unfold vec_iter. rewrite H1. cbn [obind].
  assert (Hgen : forall k l, map fst l = map N.of_nat (seq k (length l)) ->
             (k + length l = length (vh_values h))%nat ->
             exists items, mapo (fun p : N * Interval => let! v := expect (vec_value_at_index h (fst p)) in
                                  Val (mkItem (fst p) (snd p) v)) l = Val items
              /\ map it_index items = map fst l /\ map it_bin items = map snd l
              /\ map it_value items = skipn k (vh_values h)
              /\ forall it, In it items -> In (it_index it, it_bin it) l
                                        /\ vec_value_at_index h (it_index it) = Some (it_value it)).
  { clear. intros k l. revert k. induction l as [|[i b] l IH]; intros k Hf Hk.
    - exists []. cbn [mapo]. split; [reflexivity|]. split; [reflexivity|]. split; [reflexivity|].
      split; [|intros it []]. simpl in Hk. rewrite skipn_all2 by lia. reflexivity.
    - cbn [length] in *. cbn [map seq fst] in Hf. injection Hf as Hi Hf. subst i.
      destruct (IH (S k) Hf ltac:(lia)) as [items [E [E1 [E2 [E3 E4]]]]].
      destruct (nth_error_lt (vh_values h) k ltac:(lia)) as [v Hv].
      exists (mkItem (N.of_nat k) b v :: items). cbn [mapo fst snd].
      assert (Hvi : vec_value_at_index h (N.of_nat k) = Some v).
      { unfold vec_value_at_index. rewrite Nat2N.id. exact Hv. }
      rewrite Hvi. cbn [expect obind]. rewrite E. cbn [obind]. split; [reflexivity|].
      cbn [map it_index it_bin it_value fst snd]. rewrite E1, E2, E3. split; [reflexivity|]. split; [reflexivity|].
      split.
      + clear - Hv. revert k Hv. induction (vh_values h) as [|x xs IHx]; intros [|k] Hv; simpl in *; try discriminate.
        * injection Hv as ->; reflexivity.
        * apply IHx. exact Hv.
      + intros it [<-|Hin]; [split; [now left | exact Hvi]|].
        destruct (E4 _ Hin). split; [now right | assumption]. }
  assert (Hll : length l = N.to_nat n).
  { rewrite <- (map_length fst), H3. apply range_length. }
  destruct (Hgen 0%nat l) as [items [E [E1 [E2 [E3 E4]]]]].
  - rewrite H3. unfold range. rewrite Hll. reflexivity.
  - lia.
  - exists items. split; [exact E|]. split; [congruence|]. split; [exact E3|].
    intros it Hin. destruct (E4 it Hin) as [Hin' Hv']. split; [|exact Hv']. now apply H4.
Qed.
End Histories.
