(** * PropEmbed: the coordinate type does not matter (C83). *)
From stdpp Require Import gmap.
From Coq Require Import List ZArith NArith Bool Lia ZifyN ZifyNat ZifyBool.
From Verif Require Import Base BaseFacts Num IntFacts Axis StdAlgo StdContract Uniform VarAxis Category CategoryFacts Axes Value VecHist HashHist HistSpec Program
  SimSpec SimFacts EqFacts PropEq PropBuilds.
Import ListNotations.
Open Scope N_scope.

(** ** Specification *)

(** Coordinates of two types that compare alike, whatever the types are. *)
Definition compare_alike {T1 T2 : Type} (o1 : PartialOrdOps T1) (o2 : PartialOrdOps T2) (R : T1 -> T2 -> Prop) : Prop :=
  forall a a' b b', R a a' -> R b b' -> @partial_cmp T1 o1 a b = @partial_cmp T2 o2 a' b'.
(** Values of two types that are equal or different alike. *)
Definition equal_alike {T1 T2 : Type} (R : T1 -> T2 -> Prop) : Prop :=
  forall a a' b b', R a a' -> R b b' -> (a = b <-> a' = b').

Definition interval_rel {T1 T2 : Type} (R : T1 -> T2 -> Prop) (b : BinInterval T1) (b' : BinInterval T2) : Prop :=
  match b, b' with
  | Underflow x, Underflow x' | Overflow x, Overflow x' => R x x'
  | Bin s e, Bin s' e' => R s s' /\ R e e'
  | _, _ => False
  end.
Definition single_rel {T1 T2 : Type} (R : T1 -> T2 -> Prop) (b : SingleValueBinInterval T1) (b' : SingleValueBinInterval T2) : Prop :=
  match b, b' with SVOverflow, SVOverflow => True | SVBin x, SVBin x' => R x x' | _, _ => False end.

(** Both constructors panic, both report the same error, or both return related axes. *)
Definition same_result {A1 A2 : Type} (RA : A1 -> A2 -> Prop) (r1 : outcome (result A1 AxisError)) (r2 : outcome (result A2 AxisError)) : Prop :=
  match r1, r2 with
  | Panic, Panic => True
  | Val (Err e), Val (Err e') => e = e'
  | Val (Ok a), Val (Ok a') => RA a a'
  | _, _ => False
  end.

(** A generic sort only sees the outcomes of the comparisons: on slices of two types
    whose elements compare alike it does the same thing. *)
Definition sort_parametric (sort : sorter) : Prop :=
  forall (X Y : Type) (R : X -> Y -> Prop) cmp cmp' l l',
  (forall a a' b b', R a a' -> R b b' -> cmp a b = cmp' a' b') -> Forall2 R l l' ->
  match sort X l cmp, sort Y l' cmp' with
  | Panic, Panic => True
  | Val (r, tr), Val (r', tr') => Forall2 R r r' /\ Forall2 (fun p p' => R (fst p) (fst p') /\ R (snd p) (snd p')) tr tr'
  | _, _ => False
  end.

(** ** Variable axes *)
Section Variable_.
Context {Bd : Build} (sort : sorter) (search : searcher) {T1 T2 : Type} (o1 : PartialOrdOps T1) (o2 : PartialOrdOps T2) (R : T1 -> T2 -> Prop)
        (HR : compare_alike o1 o2 R).

Lemma list_eqb_alike l l' m m' : Forall2 R l l' -> Forall2 R m m' -> @list_eqb T1 o1 l m = @list_eqb T2 o2 l' m'.
Proof using HR.
  intros H. revert m m'. induction H as [|x x' l l' Hx Hl IH]; intros m m' Hm; destruct Hm as [|y y' m m' Hy Hm]; cbn; try reflexivity.
  rewrite (IH m m' Hm). unfold eq_. rewrite (HR _ _ _ _ Hx Hy). reflexivity.
Qed.
Lemma nth_alike (l : list T1) (l' : list T2) k : Forall2 R l l' -> refines R (expect (nth_error l k)) (expect (nth_error l' k)).
Proof.
  intros H. revert k. induction H as [|x x' l l' Hx Hl IH]; intros [|k]; cbn [nth_error expect]; try apply refines_panic; [apply refines_val; exact Hx | apply IH].
Qed.
Lemma rev_alike (l : list T1) (l' : list T2) : Forall2 R l l' -> Forall2 R (rev l) (rev l').
Proof. intros H. induction H; cbn; [constructor|]. apply Forall2_app; [assumption | repeat constructor; assumption]. Qed.

Definition edges_rel (a : Variable_ T1) (a' : Variable_ T2) : Prop := Forall2 R (v_edges a) (v_edges a').

Lemma variable_index_alike a a' x x' : search_extensional search -> edges_rel a a' -> R x x' ->
  @variable_index Bd search T1 o1 a x = @variable_index Bd search T2 o2 a' x'.
Proof using HR.
  intros HS Ha Hx. unfold variable_index.
  rewrite (HS T1 T2 (v_edges a) (v_edges a') (probe_cmp x) (probe_cmp x')); [reflexivity|].
  induction Ha as [|e e' l l' He Hl IH]; [reflexivity|]. cbn. rewrite IH. f_equal. unfold probe_cmp. rewrite (HR _ _ _ _ He Hx). reflexivity.
Qed.
Lemma variable_bin_alike a a' i : edges_rel a a' ->
  refines (option_rel (interval_rel R)) (@variable_bin Bd T1 a i) (@variable_bin Bd T2 a' i).
Proof.
  intros Ha. unfold variable_bin, variable_low, variable_high. rewrite (Forall2_length _ _ _ Ha).
  destruct (i =? 0); [eapply (refines_bind R); [apply nth_alike, Ha|]; intros v v' _ _ Hv; apply refines_val; exact Hv|].
  destruct (i =? _); [eapply (refines_bind R); [apply nth_alike, rev_alike, Ha|]; intros v v' _ _ Hv; apply refines_val; exact Hv|].
  destruct (i <? _); [|apply refines_val; exact I].
  apply (refines_bind eq); [apply refines_refl|]. intros i1 ? _ _ <-.
  eapply (refines_bind R); [apply nth_alike, Ha|]. intros s s' _ _ Hs.
  eapply (refines_bind R); [apply nth_alike, Ha|]. intros e e' _ _ He. apply refines_val. split; assumption.
Qed.
End Variable_.

(** C83. A Variable axis only depends on the order of its edges: over edges of another type
    that compare alike, every coordinate that compares alike falls in the same bin, the
    bins have corresponding edges, and a client program gets the same answers. *)
Theorem C83_variable_axes {Bd : Build} (search : searcher) {T1 T2 : Type} (o1 : PartialOrdOps T1) (o2 : PartialOrdOps T2) (R : T1 -> T2 -> Prop) :
  compare_alike o1 o2 R -> search_extensional search ->
  axis_refines (@variable_axis Bd search T1 o1) {| axis_eqb := @variable_eqb T1 o1 |} (@variable_axis Bd search T2 o2) {| axis_eqb := @variable_eqb T2 o2 |}
    (fun a a' => Forall2 R (v_edges a) (v_edges a')) R (interval_rel R)
  /\ axis_refines (@variablenoflow_axis Bd search T1 o1) {| axis_eqb := @variablenoflow_eqb T1 o1 |} (@variablenoflow_axis Bd search T2 o2) {| axis_eqb := @variablenoflow_eqb T2 o2 |}
    (fun a a' => Forall2 R (v_edges (vnf_axis a)) (v_edges (vnf_axis a'))) R (interval_rel R).
Proof.
  intros HR HS. split; split.
  - intros a a' x x' Ha Hx. cbn [index variable_axis]. rewrite (variable_index_alike search o1 o2 R HR a a' x x' HS Ha Hx). apply refines_refl.
  - intros a a' Ha. cbn [num_bins variable_axis]. unfold variable_num_bins. rewrite (Forall2_length _ _ _ Ha). apply refines_refl.
  - intros a a' i Ha. exact (variable_bin_alike R a a' i Ha).
  - reflexivity.
  - intros a a' b b' Ha Hb. exact (list_eqb_alike o1 o2 R HR _ _ _ _ Ha Hb).
  - intros [a] [a'] x x' Ha Hx. cbn [index variablenoflow_axis vnf_axis] in *. unfold variablenoflow_index. cbn [vnf_axis].
    rewrite (variable_index_alike search o1 o2 R HR a a' x x' HS Ha Hx). unfold variable_num_bins. rewrite (Forall2_length _ _ _ Ha). apply refines_refl.
  - intros [a] [a'] Ha. cbn [num_bins variablenoflow_axis vnf_axis] in *. unfold variablenoflow_num_bins, variable_num_bins. cbn [vnf_axis].
    rewrite (Forall2_length _ _ _ Ha). apply refines_refl.
  - intros [a] [a'] i Ha. cbn [bin variablenoflow_axis vnf_axis] in *. unfold variablenoflow_bin. cbn [vnf_axis].
    apply (refines_bind eq); [apply refines_refl|]. intros j ? _ _ <-.
    eapply (refines_bind (option_rel (interval_rel R))); [apply variable_bin_alike; exact Ha|].
    intros [[h|l|s e]|] [[h'|l'|s' e']|] _ _ Hr; cbn in Hr; try contradiction; apply refines_val; cbn; auto.
  - reflexivity.
  - intros [a] [a'] [b] [b'] Ha Hb. exact (list_eqb_alike o1 o2 R HR _ _ _ _ Ha Hb).
Qed.
Print Assumptions C83_variable_axes.

(** The constructor treats both lists of edges alike. *)
Theorem C83_variable_new (sort : sorter) {T1 T2 : Type} (o1 : PartialOrdOps T1) (o2 : PartialOrdOps T2) (R : T1 -> T2 -> Prop) edges edges' :
  compare_alike o1 o2 R -> sort_parametric sort -> Forall2 R edges edges' ->
  same_result (fun a a' => Forall2 R (v_edges a) (v_edges a')) (@variable_new sort T1 o1 edges) (@variable_new sort T2 o2 edges').
Proof.
  intros HR HS He. unfold variable_new. rewrite (Forall2_length _ _ _ He). destruct (_ <? 2); [reflexivity|].
  assert (Hc : forall a a' b b', R a a' -> R b b' -> @sort_cmp T1 o1 a b = @sort_cmp T2 o2 a' b').
  { intros a a' b b' Ha Hb. unfold sort_cmp. rewrite (HR _ _ _ _ Ha Hb). reflexivity. }
  pose proof (HS T1 T2 R _ _ _ _ Hc He) as H.
  destruct (sort T1 edges sort_cmp) as [[r tr]|], (sort T2 edges' sort_cmp) as [[r' tr']|]; try contradiction; [|exact I].
  destruct H as [Hr Htr]. cbn [obind].
  assert (E : existsb (@cmp_fails T1 o1) tr = existsb (@cmp_fails T2 o2) tr').
  { induction Htr as [|[a b] [a' b'] tr tr' [H1 H2] Htr IH]; [reflexivity|]. cbn. rewrite IH. f_equal.
    unfold cmp_fails. cbn [fst snd] in *. rewrite (HR _ _ _ _ H1 H2). reflexivity. }
  rewrite E. destruct (existsb _ tr'); [reflexivity | exact Hr].
Qed.
Print Assumptions C83_variable_new.

Lemma insert_rev_parametric {X Y} (R : X -> Y -> Prop) cmp cmp' x x' l l' :
  (forall a a' b b', R a a' -> R b b' -> cmp a b = cmp' a' b') -> R x x' -> Forall2 R l l' ->
  Forall2 R (fst (insert_rev cmp x l)) (fst (insert_rev cmp' x' l'))
  /\ Forall2 (fun p p' => R (fst p) (fst p') /\ R (snd p) (snd p')) (snd (insert_rev cmp x l)) (snd (insert_rev cmp' x' l')).
Proof.
  intros Hc Hx Hl. induction Hl as [|y y' l l' Hy Hl IH]; cbn; [split; repeat constructor; assumption|].
  rewrite (Hc _ _ _ _ Hx Hy). destruct IH as [IH1 IH2].
  destruct (cmp' x' y'); cbn; try (split; repeat (constructor; auto); fail).
  destruct (insert_rev cmp x l) as [r tr], (insert_rev cmp' x' l') as [r' tr']. cbn in *. split; constructor; auto.
Qed.
Lemma insertion_sort_parametric : sort_parametric insertion_sort.
Proof.
  intros X Y R cmp cmp' l l' Hc Hl. unfold insertion_sort.
  assert (Hgen : forall acc acc', Forall2 R acc acc' -> Forall2 R (fst (insertion_loop cmp l acc)) (fst (insertion_loop cmp' l' acc'))
    /\ Forall2 (fun p p' => R (fst p) (fst p') /\ R (snd p) (snd p')) (snd (insertion_loop cmp l acc)) (snd (insertion_loop cmp' l' acc'))).
  { induction Hl as [|x x' l l' Hx Hl IH]; intros acc acc' Ha; cbn [insertion_loop].
    - split; [apply rev_alike; exact Ha | constructor].
    - destruct (insert_rev_parametric R cmp cmp' x x' acc acc' Hc Hx Ha) as [H1 H2].
      destruct (insert_rev cmp x acc) as [r tr], (insert_rev cmp' x' acc') as [r' tr']. cbn [fst snd] in H1, H2.
      destruct (IH r r' H1) as [H3 H4]. destruct (insertion_loop cmp l r), (insertion_loop cmp' l' r'). cbn [fst snd] in *.
      split; [exact H3 | apply Forall2_app; assumption]. }
  specialize (Hgen [] [] (Forall2_nil _)). destruct (insertion_loop cmp l []), (insertion_loop cmp' l' []). exact Hgen.
Qed.

(** ** Category axes *)
Section Category_.
Context {Bd : Build} {T1 T2 : Type} (e1 : EqDecision T1) (e2 : EqDecision T2) (R : T1 -> T2 -> Prop) (HR : equal_alike R).

Record cats_rel (c : Category T1) (c' : Category T2) : Prop := {
  cr_keys : Forall2 (fun p p' => R (fst p) (fst p') /\ snd p = snd p') (map_t_to_index c) (map_t_to_index c');
  cr_vals i : option_rel R (map_index_to_t c !! i) (map_index_to_t c' !! i);
  cr_len : category_len c = category_len c'
}.
Lemma hget_alike m m' x x' : Forall2 (fun p p' => R (fst p) (fst p') /\ snd p = snd p') m m' -> R x x' ->
  hmap_get (V := N) x m = hmap_get x' m'.
Proof using HR.
  intros Hm Hx. induction Hm as [|[k v] [k' v'] m m' [Hk Hv] Hm IH]; [reflexivity|]. cbn [fst snd] in *. cbn [hmap_get].
  pose proof (HR _ _ _ _ Hx Hk) as HE. subst v'. destruct (decide (x = k)), (decide (x' = k')); first [reflexivity | exact IH | tauto].
Qed.
Lemma hinsert_alike m m' x x' (n : N) : Forall2 (fun p p' => R (fst p) (fst p') /\ snd p = snd p') m m' -> R x x' ->
  Forall2 (fun p p' => R (fst p) (fst p') /\ snd p = snd p') (hmap_insert x n m) (hmap_insert x' n m').
Proof using HR.
  intros Hm Hx. induction Hm as [|[k v] [k' v'] m m' [Hk Hv] Hm IH]; cbn [hmap_insert]; [constructor; [split; [exact Hx | reflexivity] | constructor]|]. cbn [fst snd] in *.
  pose proof (HR _ _ _ _ Hx Hk) as HE. destruct (decide (x = k)), (decide (x' = k')); try tauto; constructor; auto.
Qed.
Lemma cats_new l l' : Forall2 R l l' -> cats_rel (category_new l) (category_new l').
Proof using HR.
  intros Hl.
  assert (Hgen : forall (c : Category T1) (c' : Category T2) p p', cat_inv c p -> cat_inv c' p' -> length p = length p' ->
     Forall2 (fun p p' => R (fst p) (fst p') /\ snd p = snd p') (map_t_to_index c) (map_t_to_index c') ->
     (forall i, option_rel R (map_index_to_t c !! i) (map_index_to_t c' !! i)) -> category_len c = category_len c' ->
     let d := fold_left category_insert l c in let d' := fold_left category_insert l' c' in
     Forall2 (fun p p' => R (fst p) (fst p') /\ snd p = snd p') (map_t_to_index d) (map_t_to_index d')
     /\ (forall i, option_rel R (map_index_to_t d !! i) (map_index_to_t d' !! i))).
  { induction Hl as [|x x' l l' Hx Hl IH]; intros c c' p p' Ic Ic' Hlen Hk Hv Hn; cbn [fold_left]; [split; assumption|].
    apply (IH _ _ (p ++ [x]) (p' ++ [x'])).
    - apply cat_inv_insert, Ic.
    - apply cat_inv_insert, Ic'.
    - rewrite !app_length. cbn. lia.
    - cbn [map_t_to_index category_insert]. rewrite Hn. apply hinsert_alike; assumption.
    - intros i. cbn [map_index_to_t category_insert]. rewrite Hn.
      destruct (decide (category_len c' = i)) as [<-|Hd]; [rewrite !lookup_insert; exact Hx | rewrite !lookup_insert_ne by exact Hd; apply Hv].
    - pose proof (cat_inv_insert _ _ x Ic) as J. pose proof (cat_inv_insert _ _ x' Ic') as J'.
      unfold category_len. rewrite (ci_size _ _ J), (ci_size _ _ J'), !app_length. cbn. lia. }
  destruct (Hgen (mkCategory [] ∅) (mkCategory [] ∅) [] [] cat_inv_empty cat_inv_empty eq_refl (Forall2_nil _)) as [H1 H2].
  - intros i. cbn [map_index_to_t]. rewrite !lookup_empty. exact I.
  - reflexivity.
  - split; [exact H1 | exact H2 | rewrite !cat_len_new, (Forall2_length _ _ _ Hl); reflexivity].
Qed.
End Category_.

(** A Category axis only depends on which values are equal: relabelling the categories and the
    coordinates, into another type even, changes nothing. *)
Theorem C83_category_axes {Bd : Build} {T1 T2 : Type} (e1 : EqDecision T1) (e2 : EqDecision T2) (R : T1 -> T2 -> Prop) : equal_alike R ->
  let made (c : Category T1) (c' : Category T2) := exists l l', Forall2 R l l' /\ c = category_new l /\ c' = category_new l' in
  axis_refines (@category_axis Bd T1 e1) {| axis_eqb := category_eqb |} (@category_axis Bd T2 e2) {| axis_eqb := category_eqb |}
    made R (single_rel R)
  /\ axis_refines (@categorynoflow_axis Bd T1 e1) {| axis_eqb := categorynoflow_eqb |} (@categorynoflow_axis Bd T2 e2) {| axis_eqb := categorynoflow_eqb |}
    (fun c c' => made (cnf_axis c) (cnf_axis c')) R (single_rel R).
Proof.
  intros HR made.
  assert (HC : forall c c', made c c' -> cats_rel R c c') by (intros c c' (l & l' & Hl & -> & ->); apply cats_new; assumption).
  assert (HI : forall c c' x x', made c c' -> R x x' -> @category_index T1 e1 c x = @category_index T2 e2 c' x').
  { intros c c' x x' Hc Hx. destruct (HC _ _ Hc) as [Hk _ Hn]. unfold category_index, category_get_index.
    rewrite (hget_alike e1 e2 R HR _ _ _ _ Hk Hx), Hn. reflexivity. }
  assert (HB : forall c c' i, made c c' -> refines (option_rel (single_rel R)) (@category_bin T1 c i) (@category_bin T2 c' i)).
  { intros c c' i Hc. destruct (HC _ _ Hc) as [_ Hv Hn]. unfold category_bin, category_get_value. rewrite Hn. specialize (Hv i).
    destruct (map_index_to_t c !! i), (map_index_to_t c' !! i); cbn in Hv; try contradiction; [apply refines_val; exact Hv|].
    destruct (i =? _); apply refines_val; exact I. }
  assert (HE : forall a a' b b', made a a' -> made b b' -> category_eqb a b = category_eqb a' b').
  { intros ? ? ? ? (l & l' & Hl & -> & ->) (m & m' & Hm & -> & ->). apply eq_true_iff_eq. rewrite !cat_eqb_iff.
    split; intros <-.
    - revert m' Hm. induction Hl as [|x x' l l' Hx Hl IH]; intros m' Hm; inversion Hm as [|? y' ? ? Hy Hm']; subst; [reflexivity|].
      f_equal; [apply (HR _ _ _ _ Hx Hy); reflexivity | apply IH; assumption].
    - revert m Hm. induction Hl as [|x x' l l' Hx Hl IH]; intros m Hm; inversion Hm as [|y ? ? ? Hy Hm']; subst; [reflexivity|].
      f_equal; [apply (HR _ _ _ _ Hx Hy); reflexivity | apply IH; assumption]. }
  split; split.
  - intros c c' x x' Hc Hx. cbn [index category_axis]. rewrite (HI _ _ _ _ Hc Hx). apply refines_refl.
  - intros c c' Hc. cbn [num_bins category_axis]. unfold category_num_bins. rewrite (cr_len _ _ _ (HC _ _ Hc)). apply refines_refl.
  - intros c c' i Hc. exact (HB c c' i Hc).
  - reflexivity.
  - intros a a' b b' Ha Hb. exact (HE _ _ _ _ Ha Hb).
  - intros [c] [c'] x x' Hc Hx. cbn [index categorynoflow_axis cnf_axis] in *. unfold categorynoflow_index, category_num_bins. cbn [cnf_axis].
    rewrite (HI _ _ _ _ Hc Hx), (cr_len _ _ _ (HC _ _ Hc)). apply refines_refl.
  - intros [c] [c'] Hc. cbn [num_bins categorynoflow_axis cnf_axis] in *. unfold categorynoflow_num_bins, category_num_bins. cbn [cnf_axis].
    rewrite (cr_len _ _ _ (HC _ _ Hc)). apply refines_refl.
  - intros [c] [c'] i Hc. cbn [bin categorynoflow_axis cnf_axis] in *. unfold categorynoflow_bin. cbn [cnf_axis].
    eapply (refines_bind (option_rel (single_rel R))); [apply HB; exact Hc|].
    intros [[|v]|] [[|v']|] _ _ Hr; cbn in Hr; try contradiction; apply refines_val; cbn; auto.
  - reflexivity.
  - intros [a] [a'] [b] [b'] Ha Hb. exact (HE _ _ _ _ Ha Hb).
Qed.
Print Assumptions C83_category_axes.

(** ** Integer types *)
Definition narrower (t1 t2 : int_type) : Prop := (int_min t2 <= int_min t1 /\ int_max t1 <= int_max t2)%Z.

Section Integers.
Context {Bd : Build} (t1 t2 : int_type) (HT : narrower t1 t2) (HC : overflow_checks = true).
Notation o1 := (int_ops t1). Notation o2 := (int_ops t2).

Lemma in_wider z : in_range t1 z = true -> in_range t2 z = true.
Proof using HT. clear HC. unfold in_range. destruct HT. lia. Qed.
Lemma int_result_wider z : refines eq (int_result t1 z) (int_result t2 z).
Proof using HT HC.
  intros v. unfold int_result. rewrite HC. destruct (in_range t1 z) eqn:E1; [|discriminate]. rewrite (in_wider _ E1). eauto.
Qed.
Lemma int_div_wider a b : refines eq (int_div t1 a b) (int_div t2 a b).
Proof using HT.
  intros v. unfold int_div. destruct (b =? 0)%Z; [discriminate|]. destruct (in_range t1 _) eqn:E1; [|discriminate]. rewrite (in_wider _ E1). eauto.
Qed.
Lemma int_rem_wider a b : refines eq (int_rem t1 a b) (int_rem t2 a b).
Proof using HT.
  intros v. unfold int_rem. destruct (b =? 0)%Z; [discriminate|]. destruct (in_range t1 _) eqn:E1; [|discriminate]. rewrite (in_wider _ E1). eauto.
Qed.

(** The narrow arithmetic with the conversion from [usize] of the wide type: what
    [index], [num_bins], [==] and the bin values use is the same. *)
Definition o1' : NumOps Z := {|
  num_ord := @num_ord Z o1; n_zero := @n_zero Z o1; n_one := @n_one Z o1; n_add := @n_add Z o1; n_sub := @n_sub Z o1; n_mul := @n_mul Z o1;
  n_div := @n_div Z o1; n_rem := @n_rem Z o1; n_from_usize := @n_from_usize Z o2; n_to_usize := @n_to_usize Z o1 |}.
Lemma o1'_refine : ops_refine o1' o2.
Proof using HT HC. split; try reflexivity; intros; first [apply int_result_wider | apply int_div_wider | apply int_rem_wider]. Qed.

Lemma from_usize_wider n : in_range t1 (Z.of_N n) = true -> @n_from_usize Z o1 n = Some (Z.of_N n) /\ @n_from_usize Z o2 n = Some (Z.of_N n).
Proof using HT. intros H. cbn [n_from_usize int_ops]. rewrite H, (in_wider _ H). auto. Qed.

Lemma uniform_edge_wider a i : i <= u_num a -> (int_min t1 <= 0)%Z -> in_range t1 (Z.of_N (u_num a)) = true -> refines eq (uniform_edge o1 a i) (uniform_edge o2 a i).
Proof using HT HC.
  intros Hi Hm Hn. unfold uniform_edge. assert (Hi' : in_range t1 (Z.of_N i) = true) by (revert Hn; unfold in_range; lia).
  destruct (from_usize_wider _ Hn) as [-> ->]. destruct (from_usize_wider _ Hi') as [-> ->].
  apply (refines_bind eq); [apply int_result_wider|]. intros w ? _ _ <-.
  apply (refines_bind eq); [apply int_result_wider|]. intros p ? _ _ <-.
  apply (refines_bind eq); [apply int_div_wider|]. intros q ? _ _ <-.
  apply (refines_bind eq); [apply int_result_wider|]. intros e ? _ _ <-. apply refines_refl.
Qed.
Lemma uniform_bin_wider a i : (int_min t1 <= 0)%Z -> in_range t1 (Z.of_N (u_num a)) = true -> refines eq (uniform_bin o1 a i) (uniform_bin o2 a i).
Proof using HT HC.
  intros Hm Hn. unfold uniform_bin. destruct (i =? 0) eqn:Ei0; [apply refines_refl|].
  apply (refines_bind eq); [apply refines_refl|]. intros n1 ? Hn1 _ <-.
  destruct (i =? n1) eqn:Ei1; [apply refines_refl|]. destruct (n1 <? i) eqn:Ei2; [apply refines_refl|].
  assert (Hn1' : n1 = u_num a + 1).
  { unfold uadd in Hn1. rewrite HC in Hn1. destruct (u_num a + 1 <? usize_mod); [|discriminate]. injection Hn1 as <-. reflexivity. }
  apply (refines_bind eq); [apply refines_refl|]. intros i1 ? Hi1 _ <-.
  assert (Hi1' : i1 = i - 1).
  { unfold usub in Hi1. destruct (1 <=? i) eqn:El; [injection Hi1 as <-; reflexivity | lia]. }
  apply (refines_bind eq); [apply uniform_edge_wider; [lia | exact Hm | exact Hn]|]. intros s ? _ _ <-. destruct s; [|apply refines_refl].
  apply (refines_bind eq); [apply uniform_edge_wider; [lia | exact Hm | exact Hn]|]. intros e ? _ _ <-. destruct e; apply refines_refl.
Qed.
End Integers.

(** With overflow checks, coordinates of a wider integer type make no difference unless the
    narrow type panics: all methods of all six numeric axis types. *)
Theorem C83_integer_axes {Bd : Build} (search : searcher) (t1 t2 : int_type) : narrower t1 t2 -> overflow_checks = true -> (int_min t1 <= 0)%Z ->
  let o1 := int_ops t1 in let o2 := int_ops t2 in
  let ord1 := @num_ord Z o1 in let ord2 := @num_ord Z o2 in
  let counted (a a' : Uniform Z) := a = a' /\ in_range t1 (Z.of_N (u_num a)) = true in
  axis_refines (uniform_axis o1) {| axis_eqb := uniform_eqb o1 |} (uniform_axis o2) {| axis_eqb := uniform_eqb o2 |} counted eq eq
  /\ axis_refines (uniformnoflow_axis o1) {| axis_eqb := uniformnoflow_eqb o1 |} (uniformnoflow_axis o2) {| axis_eqb := uniformnoflow_eqb o2 |}
       (fun a a' => counted (unf_axis a) (unf_axis a')) eq eq
  /\ axis_refines (uniformcyclic_axis o1) {| axis_eqb := uniformcyclic_eqb o1 |} (uniformcyclic_axis o2) {| axis_eqb := uniformcyclic_eqb o2 |}
       (fun a a' => counted (unf_axis (uc_axis a)) (unf_axis (uc_axis a'))) eq eq
  /\ axis_refines (@variable_axis Bd search Z ord1) {| axis_eqb := @variable_eqb Z ord1 |} (@variable_axis Bd search Z ord2) {| axis_eqb := @variable_eqb Z ord2 |} eq eq eq
  /\ axis_refines (@variablenoflow_axis Bd search Z ord1) {| axis_eqb := @variablenoflow_eqb Z ord1 |} (@variablenoflow_axis Bd search Z ord2) {| axis_eqb := @variablenoflow_eqb Z ord2 |} eq eq eq
  /\ axis_refines (variablecyclic_axis search o1) {| axis_eqb := variablecyclic_eqb o1 |} (variablecyclic_axis search o2) {| axis_eqb := variablecyclic_eqb o2 |} eq eq eq.
Proof.
  intros HT HC Hm o1 o2 ord1 ord2 counted.
  destruct (C73_numeric_axes Bd Bd search (o1' t1 t2) o2 (or_introl eq_refl) (o1'_refine t1 t2 HT HC)) as (H1 & H2 & H3 & H4 & H5 & H6).
  assert (HNB : forall a i, in_range t1 (Z.of_N (u_num a)) = true ->
    refines (option_rel eq) (uniformnoflow_bin o1 (mkUniformNoFlow a) i) (uniformnoflow_bin o2 (mkUniformNoFlow a) i)).
  { intros a i Hn. unfold uniformnoflow_bin. apply (refines_bind eq); [apply refines_refl|]. intros j ? _ _ <-.
    apply (refines_bind eq); [apply uniform_bin_wider; assumption|]. intros b ? _ _ <-. apply refines_option_eq, refines_refl. }
  split; [|split; [|split; [|split; [|split]]]].
  - split.
    + intros a ? c c' [<- _] Hc. exact (ar_index _ _ _ _ _ _ _ H1 a a c c' eq_refl Hc).
    + intros a ? [<- _]. exact (ar_num_bins _ _ _ _ _ _ _ H1 a a eq_refl).
    + intros a ? i [<- Hn]. apply refines_option_eq. apply uniform_bin_wider; assumption.
    + reflexivity.
    + intros a ? b ? [<- _] [<- _]. reflexivity.
  - split.
    + intros [a] [a'] c c' [Ha _] Hc. cbn [unf_axis] in Ha. subst a'. exact (ar_index _ _ _ _ _ _ _ H2 _ _ c c' eq_refl Hc).
    + intros [a] [a'] [Ha _]. cbn [unf_axis] in Ha. subst a'. exact (ar_num_bins _ _ _ _ _ _ _ H2 _ _ eq_refl).
    + intros [a] [a'] i [Ha Hn]. cbn [unf_axis] in Ha, Hn. subst a'. exact (HNB a i Hn).
    + reflexivity.
    + intros [a] [a'] [b] [b'] [Ha _] [Hb _]. cbn [unf_axis] in Ha, Hb. subst a' b'. reflexivity.
  - split.
    + intros [[a]] [[a']] c c' [Ha _] Hc. cbn [unf_axis uc_axis] in Ha. subst a'. exact (ar_index _ _ _ _ _ _ _ H3 _ _ c c' eq_refl Hc).
    + intros [[a]] [[a']] [Ha _]. cbn [unf_axis uc_axis] in Ha. subst a'. exact (ar_num_bins _ _ _ _ _ _ _ H3 _ _ eq_refl).
    + intros [[a]] [[a']] i [Ha Hn]. cbn [unf_axis uc_axis] in Ha, Hn. subst a'. exact (HNB a i Hn).
    + reflexivity.
    + intros [[a]] [[a']] [[b]] [[b']] [Ha _] [Hb _]. cbn [unf_axis uc_axis] in Ha, Hb. subst a' b'. reflexivity.
  - exact H4.
  - exact H5.
  - exact H6.
Qed.
Print Assumptions C83_integer_axes.

(** What the narrow constructors accept, the wide ones accept as the same axis. *)
Theorem C83_integer_new {Bd : Build} (t1 t2 : int_type) (num : N) (low x : Z) a : narrower t1 t2 -> overflow_checks = true ->
  (uniform_new (int_ops t1) num low x = Val (Ok a) -> uniform_new (int_ops t2) num low x = Val (Ok a) /\ in_range t1 (Z.of_N (u_num a)) = true)
  /\ (uniform_with_step_size (int_ops t1) num low x = Val (Ok a) -> uniform_with_step_size (int_ops t2) num low x = Val (Ok a) /\ in_range t1 (Z.of_N (u_num a)) = true).
Proof.
  intros HT HC. split.
  - unfold uniform_new. destruct (num =? 0); [discriminate|]. change (@eq_ Z (@num_ord Z (int_ops t1))) with (@eq_ Z (@num_ord Z (int_ops t2))).
    destruct (eq_ low x); [discriminate|]. change (@gt_ Z (@num_ord Z (int_ops t1))) with (@gt_ Z (@num_ord Z (int_ops t2))).
    assert (HH : forall lo hi, (let! d := @n_sub Z (int_ops t1) hi lo in match @n_from_usize Z (int_ops t1) num with None => Val (Err InvalidNumberOfBins)
         | Some n => let! step := @n_div Z (int_ops t1) d n in Val (Ok (mkUniform num lo hi step)) end) = Val (Ok a) ->
       (let! d := @n_sub Z (int_ops t2) hi lo in match @n_from_usize Z (int_ops t2) num with None => Val (Err InvalidNumberOfBins)
         | Some n => let! step := @n_div Z (int_ops t2) d n in Val (Ok (mkUniform num lo hi step)) end) = Val (Ok a) /\ in_range t1 (Z.of_N (u_num a)) = true).
    { intros lo hi H. apply obind_val in H as [d [Hd H]]. destruct (int_result_wider t1 t2 HT HC _ _ Hd) as [d' [Hd' <-]].
      cbn [n_sub int_ops]. rewrite Hd'. cbn [obind]. destruct (in_range t1 (Z.of_N num)) eqn:En; [|cbn [n_from_usize int_ops] in H; rewrite En in H; discriminate].
      destruct (from_usize_wider t1 t2 HT num En) as [E1 E2]. rewrite E1 in H. rewrite E2.
      apply obind_val in H as [s [Hs H]]. destruct (int_div_wider t1 t2 HT _ _ _ Hs) as [s' [Hs' <-]]. cbn [n_div int_ops]. rewrite Hs'. cbn [obind].
      injection H as <-. split; [reflexivity | exact En]. }
    destruct (gt_ low x); apply HH.
  - unfold uniform_with_step_size. destruct (in_range t1 (Z.of_N num)) eqn:En; [|cbn [n_from_usize int_ops]; rewrite En; discriminate].
    destruct (from_usize_wider t1 t2 HT num En) as [-> ->]. intros H. apply obind_val in H as [p [Hp H]]. apply obind_val in H as [h [Hh H]].
    destruct (int_result_wider t1 t2 HT HC _ _ Hp) as [p' [Hp' <-]]. cbn [n_mul int_ops]. rewrite Hp'. cbn [obind].
    destruct (int_result_wider t1 t2 HT HC _ _ Hh) as [h' [Hh' <-]]. cbn [n_add int_ops]. rewrite Hh'. cbn [obind].
    split; [exact H|]. revert H. destruct (num =? 0); [discriminate|]. destruct (le_ _ _); [discriminate|].
    destruct (gt_ _ _); intros H; injection H as <-; exact En.
Qed.
Print Assumptions C83_integer_new.

(** Bin values of a wider integer type. *)
Theorem C83_integer_values {Bd : Build} (t1 t2 : int_type) : narrower t1 t2 -> overflow_checks = true ->
  let o1 := int_ops t1 in let o2 := int_ops t2 in
  (forall v, refines eq (@fill_v Z (num_fill o1) v) (@fill_v Z (num_fill o2) v))
  /\ (forall v d, refines eq (@fill_with_v Z Z (num_fill_with o1) v d) (@fill_with_v Z Z (num_fill_with o2) v d))
  /\ (forall s, refines eq (sum_fill o1 s) (sum_fill o2 s)) /\ (forall s w, refines eq (sum_fill_with o1 s w) (sum_fill_with o2 s w))
  /\ (forall s, refines eq (weightedsum_fill o1 s) (weightedsum_fill o2 s))
  /\ (forall s w, refines eq (weightedsum_fill_with o1 s w) (weightedsum_fill_with o2 s w))
  /\ (forall m d, refines eq (mean_fill_with o1 o1 m d) (mean_fill_with o2 o2 m d))
  /\ (forall m d w, refines eq (weightedmean_fill o1 o1 m d w) (weightedmean_fill o2 o2 m d w)).
Proof. intros HT HC o1 o2. exact (C73_values (o1' t1 t2) o2 (o1' t1 t2) o2 (o1'_refine t1 t2 HT HC) (o1'_refine t1 t2 HT HC)). Qed.
Print Assumptions C83_integer_values.

(** ** The hypotheses are met: i8 and i64, and categories named by numbers and by booleans *)
Example C83_integers_nonvacuous (Bd : Build) : overflow_checks = true ->
  narrower (signed 8) (signed 64) /\ narrower (unsigned 8) (signed 16) /\ ~ narrower (unsigned 8) (signed 8)
  /\ uniform_new (int_ops (signed 8)) 5 (-50)%Z 50%Z = Val (Ok (mkUniform 5 (-50) 50 20)%Z)
  /\ uniform_index (int_ops (signed 8)) (mkUniform 5 (-50) 50 20)%Z 49%Z = Val (Some 5%N)
  /\ uniform_index (int_ops (signed 64)) (mkUniform 5 (-50) 50 20)%Z 49%Z = Val (Some 5%N)
  (* a panic in the narrow type: 100 - (-100) does not fit i8 *)
  /\ uniform_new (int_ops (signed 8)) 5 (-100)%Z 100%Z = Panic
  /\ uniform_new (int_ops (signed 64)) 5 (-100)%Z 100%Z = Val (Ok (mkUniform 5 (-100) 100 40)%Z).
Proof.
  intros HC. split; [split; cbn; lia|]. split; [split; cbn; lia|]. split; [intros [_ H]; cbn in H; lia|].
  destruct Bd as [oc tw]. cbn in HC. subst oc. destruct tw; vm_compute; auto 10.
Qed.

Example C83_category_nonvacuous :
  let R (x : Z) (b : bool) := (x = 7%Z /\ b = true) \/ (x = 9%Z /\ b = false) in
  equal_alike R /\ Forall2 R [7; 9; 7]%Z [true; false; true]
  /\ category_index (category_new [7; 9; 7]%Z) 7%Z = Val (Some 2) /\ category_index (category_new [true; false; true]) true = Val (Some 2).
Proof.
  intros R. split; [|split; [|split; vm_compute; reflexivity]].
  - intros a a' b b' [[-> ->]|[-> ->]] [[-> ->]|[-> ->]]; split; intros H; try reflexivity; discriminate.
  - constructor; [left; auto|]. constructor; [right; auto|]. constructor; [left; auto | constructor].
Qed.
