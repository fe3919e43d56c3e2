(** * Property theorems: category axes (C17-C19). *)
From stdpp Require Import gmap.
From Coq Require Import ZifyN ZifyNat.
From Verif Require Import Base BaseFacts Num Axis Category CategoryFacts.
Open Scope N_scope.

(** ** C17 *)
Theorem C17_category_bins : forall (B : Build) T (eqd : EqDecision T) (values : list T),
  N.of_nat (length values) + 1 < usize_mod ->
  let c := category_new values in
  let n := N.of_nat (length values) in
  category_num_bins c = Val (n + 1)
  /\ (forall i v, nth_error values i = Some v -> category_bin c (N.of_nat i) = Val (Some (SVBin v)))
  /\ category_bin c n = Val (Some SVOverflow)
  /\ (forall i, n < i -> category_bin c i = Val None).
Proof.
  intros B T eqd values Hu c n.
  assert (Hlen : category_len c = n) by apply cat_len_new.
  assert (Hb : forall i, category_get_value c i = nth_error values (N.to_nat i)).
  { intros i. unfold category_get_value. unfold c. rewrite (ci_bins _ _ (cat_inv_new values)).
    generalize (N.to_nat i). clear. induction values as [|x xs IH]; intros [|k]; simpl; auto. }
  split; [unfold category_num_bins; rewrite Hlen; now apply uadd_ok|].
  split; [|split].
  - intros i v Hv. unfold category_bin. rewrite Hb, Nat2N.id, Hv. reflexivity.
  - unfold category_bin. rewrite Hb. unfold n at 1. rewrite Nat2N.id.
    destruct (nth_error values (length values)) eqn:E.
    + assert (Hne : nth_error values (length values) <> None) by congruence.
      apply nth_error_Some in Hne. lia.
    + rewrite Hlen, N.eqb_refl. reflexivity.
  - intros i Hi. unfold category_bin. rewrite Hb, Hlen.
    destruct (nth_error values (N.to_nat i)) eqn:E.
    + assert (Hne : nth_error values (N.to_nat i) <> None) by congruence.
      apply nth_error_Some in Hne. lia.
    + destruct (N.eqb_spec i n); [lia | reflexivity].
Qed.
Print Assumptions C17_category_bins.

Theorem C17_category_index : forall (B : Build) T (eqd : EqDecision T) (values : list T) (x : T),
  let c := category_new values in
  let n := N.of_nat (length values) in
  exists i, category_index c x = Val (Some i) /\ i <= n
  /\ (In x values -> category_bin c i = Val (Some (SVBin x)))
  /\ (~ In x values -> i = n)
  /\ (List.NoDup values -> forall k, nth_error values k = Some x -> i = N.of_nat k).
Proof.
  intros B T eqd values x c n.
  pose proof (cat_inv_new values) as HI. fold c in HI.
  unfold category_index, category_get_index.
  pose proof (ci_index _ _ HI x) as Hx. destruct (hmap_get x (map_t_to_index c)) as [i|].
  - destruct Hx as [Hl Hlast]. exists i. split; [reflexivity|].
    pose proof (lookup_lt_Some _ _ _ Hl) as Hlt. split; [lia|]. split; [|split].
    + intros _. unfold category_bin, category_get_value. rewrite (ci_bins _ _ HI), Hl. reflexivity.
    + intros Hn. exfalso. apply Hn. apply elem_of_list_In. eapply elem_of_list_lookup_2; eauto.
    + intros Hnd k Hk. 
      assert (Hk' : values !! k = Some x).
      { revert Hk. clear. revert k. induction values as [|y ys IH]; intros [|k]; simpl; auto; discriminate. }
      pose proof (proj2 (NoDup_ListNoDup values) Hnd) as Hnd'.
      pose proof (NoDup_lookup _ _ _ _ Hnd' Hl Hk'). lia.
  - exists n. rewrite (cat_len_new values : category_len c = n). split; [reflexivity|].
    assert (Hx' : ~ In x values) by (rewrite <- elem_of_list_In; exact Hx).
    split; [lia|]. split; [tauto|]. split; [tauto|].
    intros _ k Hk. exfalso. apply Hx'. eapply nth_error_In; eauto.
Qed.
Print Assumptions C17_category_index.

Example C17_nonvacuous : forall B : Build, N.of_nat (length [3; 1; 4]%Z) + 1 < usize_mod
  /\ category_index (category_new [3; 1; 4]%Z) 4%Z = Val (Some 2)
  /\ category_index (category_new [3; 1; 4]%Z) 5%Z = Val (Some 3).
Proof. intros [[] []]; repeat split. Qed.

(** What [value()] of the bins says: bin [i] has the [i]-th category, the last bin has
    none; and the bin a coordinate falls into has that coordinate as its value
    exactly when the coordinate is a category. *)
Theorem C17_bin_values : forall (B : Build) T (eqd : EqDecision T) (values : list T),
  N.of_nat (length values) + 1 < usize_mod ->
  let c := category_new values in
  (forall i, i <= N.of_nat (length values) -> exists b, category_bin c i = Val (Some b) /\ sv_value b = nth_error values (N.to_nat i))
  /\ (forall x, exists i b, category_index c x = Val (Some i) /\ category_bin c i = Val (Some b)
        /\ (In x values -> sv_value b = Some x) /\ (~ In x values -> sv_value b = None)).
Proof.
  intros B T eqd values Hl c. destruct (C17_category_bins B T eqd values Hl) as (_ & H1 & H2 & _). split.
  - intros i Hi. destruct (N.eq_dec i (N.of_nat (length values))) as [->|Hne].
    + exists SVOverflow. split; [exact H2|]. rewrite Nat2N.id. symmetry. now apply nth_error_None.
    + destruct (nth_error values (N.to_nat i)) as [v|] eqn:E; [|apply nth_error_None in E; lia].
      exists (SVBin v). split; [|reflexivity]. specialize (H1 _ _ E). now rewrite N2Nat.id in H1.
  - intros x. destruct (C17_category_index B T eqd values x) as (i & Hi & Hle & Hin & Hout & _). fold c in Hi, Hin.
    destruct (ListDec.In_dec eqd x values) as [Hx|Hx].
    + exists i, (SVBin x). split; [exact Hi|]. split; [exact (Hin Hx)|]. split; [reflexivity | contradiction].
    + exists i, SVOverflow. split; [exact Hi|]. split; [rewrite (Hout Hx); exact H2|]. split; [contradiction | reflexivity].
Qed.
Print Assumptions C17_bin_values.

(** With a repeated category both copies keep a bin, the later one receives all
    entries. *)
Theorem C17_category_duplicates : forall (B : Build) T (eqd : EqDecision T) (values : list T) (x : T) i,
  In x values -> category_index (category_new values) x = Val (Some i) ->
  nth_error values (N.to_nat i) = Some x
  /\ forall j, (N.to_nat i < j)%nat -> nth_error values j <> Some x.
Proof.
  intros B T eqd values x i Hin Hi.
  assert (Heq : forall k, nth_error values k = values !! k).
  { clear. induction values as [|y ys IH]; intros [|k]; simpl; auto. }
  pose proof (cat_inv_new values) as HI.
  unfold category_index, category_get_index in Hi. pose proof (ci_index _ _ HI x) as Hx.
  destruct (hmap_get x (map_t_to_index (category_new values))) as [i'|].
  - injection Hi as ->. destruct Hx as [H1 H2]. split; [now rewrite Heq|].
    intros j Hj. rewrite Heq. now apply H2.
  - exfalso. apply Hx. now apply elem_of_list_In.
Qed.
Print Assumptions C17_category_duplicates.

(** ** C18 *)
Theorem C18_category_noflow : forall (B : Build) T (eqd : EqDecision T) (values : list T),
  N.of_nat (length values) + 1 < usize_mod ->
  let c := categorynoflow_new values in
  let n := N.of_nat (length values) in
  categorynoflow_num_bins c = Val n
  /\ (forall x, ~ In x values -> categorynoflow_index c x = Val None)
  /\ (forall x, In x values -> exists i, categorynoflow_index c x = Val (Some i) /\ i < n
        /\ categorynoflow_bin c i = Val (Some (SVBin x))
        /\ category_index (category_new values) x = Val (Some i))
  /\ (forall i v, nth_error values i = Some v -> categorynoflow_bin c (N.of_nat i) = Val (Some (SVBin v)))
  /\ (forall i, n <= i -> categorynoflow_bin c i = Val None).
Proof.
  intros B T eqd values Hu c n.
  destruct (C17_category_bins B T eqd values Hu) as [Hn [Hb [Ho Hnone]]].
  fold n in Hn, Ho, Hnone.
  split; [|split; [|split; [|split]]].
  - unfold categorynoflow_num_bins. unfold c; simpl. rewrite Hn. cbn [obind].
    rewrite usub_ok by lia. f_equal. lia.
  - intros x Hx. destruct (C17_category_index B T eqd values x) as [i [Hi [_ [_ [Hni _]]]]].
    specialize (Hni Hx). unfold categorynoflow_index, c; simpl. rewrite Hi. cbn [obind].
    rewrite Hn. cbn [obind]. rewrite usub_ok by lia. cbn [obind]. rewrite Hni. fold n.
    replace (n + 1 - 1) with n by lia. now rewrite N.eqb_refl.
  - intros x Hx. destruct (C17_category_index B T eqd values x) as [i [Hi [Hle [Hbi _]]]].
    exists i. destruct (C17_category_duplicates B T eqd values x i Hx Hi) as [Hl _].
    assert (Hlt : (N.to_nat i < length values)%nat) by (apply nth_error_Some; congruence).
    split; [|split; [lia | split; [|exact Hi]]].
    + unfold categorynoflow_index, c; simpl. rewrite Hi. cbn [obind]. rewrite Hn. cbn [obind].
      rewrite usub_ok by lia. cbn [obind]. destruct (N.eqb_spec i (n + 1 - 1)); [lia | reflexivity].
    + unfold categorynoflow_bin, c; simpl. rewrite (Hbi Hx). reflexivity.
  - intros i v Hv. unfold categorynoflow_bin, c; simpl. rewrite (Hb i v Hv). reflexivity.
  - intros i Hi. unfold categorynoflow_bin, c; simpl. destruct (N.eq_dec i n) as [->|Hne].
    + rewrite Ho. reflexivity.
    + rewrite Hnone by lia. reflexivity.
Qed.
Print Assumptions C18_category_noflow.

Example C18_nonvacuous :
  categorynoflow_num_bins (H := {| overflow_checks := true; target_width := P64 |}) (categorynoflow_new ([] : list Z)) = Val 0
  /\ categorynoflow_index (H := {| overflow_checks := true; target_width := P64 |}) (categorynoflow_new [7; 8]%Z) 8%Z = Val (Some 1).
Proof. split; reflexivity. Qed.

(** ** C19 *)
Theorem C19_category_equality : forall T (eqd : EqDecision T) (l1 l2 : list T),
  (category_eqb (category_new l1) (category_new l2) = true <-> l1 = l2)
  /\ (categorynoflow_eqb (categorynoflow_new l1) (categorynoflow_new l2) = true <-> l1 = l2).
Proof. intros T eqd l1 l2. split; apply cat_eqb_iff. Qed.
Print Assumptions C19_category_equality.

Example C19_reordered_differ : category_eqb (category_new [1; 2]%Z) (category_new [2; 1]%Z) = false.
Proof. reflexivity. Qed.
