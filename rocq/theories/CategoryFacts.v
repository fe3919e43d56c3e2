(** * CategoryFacts: the invariant of [Category] (lemmas for C17-C19). *)
From stdpp Require Import gmap.
From Coq Require Import ZifyN ZifyNat.
From Verif Require Import Base BaseFacts Num Axis Category.
Open Scope N_scope.

Section Hmap.
Context {K V : Type} `{EqDecision K}.
Lemma hmap_get_insert (m : hmap K V) k v k' :
  hmap_get k' (hmap_insert k v m) = if decide (k' = k) then Some v else hmap_get k' m.
Proof.
  induction m as [|[k0 v0] m IH]; simpl.
  - destruct (decide (k' = k)); reflexivity.
  - destruct (decide (k = k0)) as [->|Hne]; simpl.
    + destruct (decide (k' = k0)); reflexivity.
    + rewrite IH. destruct (decide (k' = k0)) as [->|]; [|reflexivity].
      rewrite decide_False by congruence. reflexivity.
Qed.
Lemma hmap_insert_keys (m : hmap K V) k v x :
  x ∈ map fst (hmap_insert k v m) <-> x = k \/ x ∈ map fst m.
Proof.
  induction m as [|[k0 v0] m IH]; simpl.
  - rewrite elem_of_list_singleton. set_solver.
  - destruct (decide (k = k0)) as [->|]; simpl; rewrite !elem_of_cons; [tauto|]. rewrite IH. tauto.
Qed.
Lemma hmap_insert_NoDup (m : hmap K V) k v : NoDup (map fst m) -> NoDup (map fst (hmap_insert k v m)).
Proof.
  induction m as [|[k0 v0] m IH]; simpl; intros Hn.
  - constructor; [apply not_elem_of_nil | constructor].
  - apply NoDup_cons in Hn as [Hk Hn].
    destruct (decide (k = k0)) as [->|]; simpl; constructor; auto.
    rewrite hmap_insert_keys. intros [->|]; auto.
Qed.
Lemma hmap_get_in (m : hmap K V) k v : NoDup (map fst m) -> (k, v) ∈ m -> hmap_get k m = Some v.
Proof.
  induction m as [|[k0 v0] m IH]; simpl; intros Hn Hin; [now apply elem_of_nil in Hin|].
  apply NoDup_cons in Hn as [Hk Hn]. apply elem_of_cons in Hin as [[= -> ->]|Hin].
  - now rewrite decide_True.
  - destruct (decide (k = k0)) as [->|]; [|auto].
    exfalso. apply Hk. apply elem_of_list_fmap. exists (k0, v). auto.
Qed.
Lemma hmap_eqb_refl `{EqDecision V} (m : hmap K V) : NoDup (map fst m) -> hmap_eqb m m = true.
Proof.
  intros Hn. unfold hmap_eqb. rewrite Nat.eqb_refl. simpl. apply forallb_forall.
  intros [k v] Hin. apply bool_decide_eq_true. simpl. apply hmap_get_in; [exact Hn|].
  now apply elem_of_list_In.
Qed.
End Hmap.

Section Cat.
Context {B : Build} {T : Type} `{EqDecision T}.

(** [c] was built from the values [l]. *)
Record cat_inv (c : Category T) (l : list T) : Prop := {
  ci_bins : forall i, map_index_to_t c !! i = l !! N.to_nat i;
  ci_size : size (map_index_to_t c) = length l;
  ci_index : forall v, match hmap_get v (map_t_to_index c) with
                       | Some i => l !! N.to_nat i = Some v
                                   /\ forall j, (N.to_nat i < j)%nat -> l !! j <> Some v
                       | None => v ∉ l
                       end;
  ci_keys : NoDup (map fst (map_t_to_index c))
}.

Lemma cat_inv_empty : cat_inv (mkCategory [] ∅) [].
Proof.
  constructor; simpl.
  - intros i. now rewrite lookup_empty, lookup_nil.
  - apply map_size_empty.
  - intros v. apply not_elem_of_nil.
  - constructor.
Qed.

Lemma cat_inv_insert c l v : cat_inv c l -> cat_inv (category_insert c v) (l ++ [v]).
Proof.
  intros [Hb Hs Hi Hk]. unfold category_insert, category_len. rewrite Hs.
  assert (Hnone : map_index_to_t c !! N.of_nat (length l) = None).
  { rewrite Hb. apply lookup_ge_None. lia. }
  constructor; simpl.
  - intros i. destruct (decide (i = N.of_nat (length l))) as [->|Hne].
    + rewrite lookup_insert. rewrite lookup_app_r by lia.
      replace (N.to_nat (N.of_nat (length l)) - length l)%nat with 0%nat by lia. reflexivity.
    + rewrite lookup_insert_ne by congruence. rewrite Hb.
      destruct (Nat.lt_ge_cases (N.to_nat i) (length l)).
      * now rewrite lookup_app_l.
      * rewrite (lookup_ge_None_2 l) by lia. symmetry. apply lookup_ge_None.
        rewrite app_length. simpl. lia.
  - rewrite map_size_insert_None by exact Hnone. rewrite Hs, app_length. simpl. lia.
  - intros w. rewrite hmap_get_insert. destruct (decide (w = v)) as [->|Hne].
    + rewrite lookup_app_r by lia.
      replace (N.to_nat (N.of_nat (length l)) - length l)%nat with 0%nat by lia. split; [reflexivity|].
      intros j Hj. rewrite (lookup_ge_None_2 _ j); [congruence|]. rewrite app_length. simpl. lia.
    + specialize (Hi w). destruct (hmap_get w (map_t_to_index c)) as [i|].
      * destruct Hi as [Hl Hlast]. split; [now apply lookup_app_l_Some|].
        intros j Hj. destruct (Nat.lt_ge_cases j (length l)) as [Hlt|Hge].
        -- rewrite lookup_app_l by exact Hlt. now apply Hlast.
        -- rewrite lookup_app_r by exact Hge. destruct (j - length l)%nat; simpl; [congruence|].
           rewrite lookup_nil. congruence.
      * rewrite elem_of_app, elem_of_list_singleton. tauto.
  - now apply hmap_insert_NoDup.
Qed.

Lemma cat_inv_fold vs c l : cat_inv c l -> cat_inv (fold_left category_insert vs c) (l ++ vs).
Proof.
  revert c l; induction vs as [|v vs IH]; simpl; intros c l Hc.
  - now rewrite app_nil_r.
  - replace (l ++ v :: vs) with ((l ++ [v]) ++ vs) by now rewrite <- app_assoc.
    apply IH. now apply cat_inv_insert.
Qed.

Lemma cat_inv_new (vs : list T) : cat_inv (category_new vs) vs.
Proof. exact (cat_inv_fold vs _ [] cat_inv_empty). Qed.

Lemma cat_len_new (vs : list T) : category_len (category_new vs) = N.of_nat (length vs).
Proof. unfold category_len. now rewrite (ci_size _ _ (cat_inv_new vs)). Qed.

Lemma cat_eqb_iff (l1 l2 : list T) : category_eqb (category_new l1) (category_new l2) = true <-> l1 = l2.
Proof.
  split.
  - unfold category_eqb. intros He. apply andb_true_iff in He as [_ He].
    apply bool_decide_eq_true in He. apply list_eq. intros i.
    rewrite <- (Nat2N.id i). rewrite <- (ci_bins _ _ (cat_inv_new l1)), He.
    apply (ci_bins _ _ (cat_inv_new l2)).
  - intros <-. unfold category_eqb. apply andb_true_iff. split.
    + apply hmap_eqb_refl. apply (ci_keys _ _ (cat_inv_new l1)).
    + now apply bool_decide_eq_true.
Qed.
End Cat.
