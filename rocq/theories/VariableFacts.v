(** * VariableFacts: lemmas about variable-width axes (C12-C16). *)
From Coq Require Import List NArith ZArith Bool Lia ZifyBool ZifyN ZifyNat Permutation Sorted.
From Verif Require Import Base BaseFacts Num Axis Spec OrdLaws StdAlgo StdContract Uniform VarAxis.
Import ListNotations.
Open Scope N_scope.

Lemma sorted_nth {T : Type} {R : T -> T -> Prop} l : StronglySorted R l ->
  forall i j x y, (i < j)%nat -> nth_error l i = Some x -> nth_error l j = Some y -> R x y.
Proof.
  induction 1 as [|z zs Hs IH Ha]; intros i j x y Hij Hx Hy.
  - destruct i; discriminate.
  - destruct j as [|j]; [lia|]. simpl in Hy. destruct i as [|i]; simpl in Hx.
    + injection Hx as <-. rewrite Forall_forall in Ha. apply Ha. eapply nth_error_In; eauto.
    + eapply (IH i j); eauto. lia.
Qed.

Section VarFacts.
Context {B : Build} {T : Type} (ord : PartialOrdOps T) (is_num : T -> bool) (L : ord_laws ord is_num).

(** ** Construction *)
Section New.
Context (sort : sorter) (HS : sort_contract sort).

Lemma sort_cmp_total l : Forall (fun x => is_num x = true) l -> cmp_total_on l sort_cmp.
Proof.
  intros Hl. rewrite Forall_forall in Hl. split.
  - intros a b Ha Hb. unfold sort_cmp. rewrite (law_anti _ _ L a b).
    destruct (law_total _ _ L a b (Hl _ Ha) (Hl _ Hb)) as [c ->]. reflexivity.
  - intros a b c Ha Hb Hc. unfold sort_cmp.
    destruct (law_total _ _ L a b (Hl _ Ha) (Hl _ Hb)) as [c1 E1].
    destruct (law_total _ _ L b c (Hl _ Hb) (Hl _ Hc)) as [c2 E2].
    destruct (law_total _ _ L a c (Hl _ Ha) (Hl _ Hc)) as [c3 E3].
    pose proof (law_trans _ _ L a b c) as Ht. unfold le_ in Ht. rewrite E1, E2, E3 in *.
    destruct c1, c2, c3; simpl in *; try congruence; intros; exfalso; discriminate Ht; reflexivity.
Qed.

Lemma new_good l :
  Forall (fun x => is_num x = true) l -> 2 <= N.of_nat (length l) ->
  exists a, variable_new sort l = Val (Ok a) /\ Permutation l (v_edges a)
    /\ StronglySorted (fun x y => le_ x y = true) (v_edges a).
Proof.
  intros Hl Hlen. unfold variable_new.
  destruct (N.ltb_spec (N.of_nat (length l)) 2); [lia|].
  destruct (HS T l sort_cmp) as [H1 H2].
  destruct (H2 (sort_cmp_total l Hl)) as [r [calls [Hr Hsorted]]].
  destruct (H1 _ _ Hr) as [Hperm [Hcalls _]].
  rewrite Hr. cbn [obind].
  assert (Hall : forall x, In x r -> is_num x = true).
  { intros x Hx. rewrite Forall_forall in Hl. apply Hl.
    eapply Permutation_in; [apply Permutation_sym; exact Hperm | exact Hx]. }
  assert (Hf : existsb cmp_fails calls = false).
  { apply not_true_is_false. intros Hex. apply existsb_exists in Hex as [[a b] [Hin Hfail]].
    destruct (Hcalls _ _ Hin) as [Ha Hb]. rewrite Forall_forall in Hl.
    unfold cmp_fails in Hfail. simpl in Hfail.
    destruct (law_total _ _ L a b (Hl _ Ha) (Hl _ Hb)) as [c Hc]. rewrite Hc in Hfail. discriminate. }
  rewrite Hf. eexists. split; [reflexivity|]. split; [exact Hperm|]. cbn [v_edges].
  clear - Hsorted Hall L. induction Hsorted as [|x xs Hs IH Ha]; constructor.
  - apply IH. intros y Hy. apply Hall. now right.
  - rewrite Forall_forall in Ha |- *. intros y Hy. specialize (Ha y Hy).
    unfold sort_cmp in Ha. unfold le_.
    destruct (law_total _ _ L x y) as [c Hc]; [apply Hall; now left | apply Hall; now right|].
    rewrite Hc in *. destruct c; congruence.
Qed.

Lemma new_nan l x a : In x l -> is_num x = false -> variable_new sort l <> Val (Ok a).
Proof.
  intros Hin Hx Hn. unfold variable_new in Hn.
  destruct (N.ltb_spec (N.of_nat (length l)) 2); [discriminate|].
  destruct (sort T l sort_cmp) as [[r calls]|] eqn:Er; cbn [obind] in Hn; [|discriminate].
  destruct (HS T l sort_cmp) as [H1 _]. destruct (H1 _ _ Er) as [_ [_ Hcov]].
  destruct (Hcov ltac:(lia) x Hin) as [y Hy].
  assert (Hf : existsb cmp_fails calls = true).
  { apply existsb_exists. destruct Hy as [Hy|Hy].
    - exists (x, y). split; [exact Hy|]. unfold cmp_fails; simpl. now rewrite (law_nan_l _ _ L x y Hx).
    - exists (y, x). split; [exact Hy|]. unfold cmp_fails; simpl. now rewrite (law_nan_r _ _ L y x Hx). }
  rewrite Hf in Hn. discriminate.
Qed.

Lemma new_short l : N.of_nat (length l) < 2 ->
  variable_new sort l = Val (Err InvalidNumberOfBinEdges).
Proof. intros Hl. unfold variable_new. destruct (N.ltb_spec (N.of_nat (length l)) 2); [reflexivity | lia]. Qed.

Lemma new_long l : 2 <= N.of_nat (length l) ->
  variable_new sort l <> Val (Err InvalidNumberOfBinEdges).
Proof.
  intros Hl. unfold variable_new. destruct (N.ltb_spec (N.of_nat (length l)) 2); [lia|].
  destruct (sort T l sort_cmp) as [[r calls]|]; cbn [obind]; [|discriminate].
  destruct (existsb cmp_fails calls); discriminate.
Qed.
End New.

(** ** Indexing *)
Section Index.
Context (search : searcher) (HC : search_contract search).
Context (edges : list T).
Hypothesis Hnum : Forall (fun x => is_num x = true) edges.
Hypothesis Hsorted : StronglySorted (fun x y => le_ x y = true) edges.
Hypothesis Hlen : N.of_nat (length edges) + 1 < usize_mod.

Notation a := (mkVariable edges).

Lemma edge_num i e : nth_error edges i = Some e -> is_num e = true.
Proof. intros He. rewrite Forall_forall in Hnum. apply Hnum. eapply nth_error_In; eauto. Qed.

Lemma edges_le i j x y : (i <= j)%nat -> nth_error edges i = Some x -> nth_error edges j = Some y ->
  le_ x y = true.
Proof.
  intros Hij Hx Hy. destruct (Nat.eq_dec i j) as [->|Hne].
  - rewrite Hx in Hy. injection Hy as <-. apply (le_refl _ _ L). eapply edge_num; eauto.
  - eapply (sorted_nth edges Hsorted i j); eauto. lia.
Qed.

Lemma probe_sorted_edges x : probe_sorted (probe_cmp x) edges.
Proof.
  intros i j e1 e2 Hij H1 H2. pose proof (edges_le i j e1 e2 Hij H1 H2) as Hle.
  unfold probe_cmp. destruct (is_num x) eqn:Ex.
  2:{ rewrite !(law_nan_r _ _ L _ x Ex). split; congruence. }
  pose proof (edge_num _ _ H1) as N1. pose proof (edge_num _ _ H2) as N2.
  destruct (law_total _ _ L e1 x N1 Ex) as [c1 C1]. destruct (law_total _ _ L e2 x N2 Ex) as [c2 C2].
  rewrite C1, C2. split; intros Hc; subst.
  - assert (Hlt : lt_ e2 x = true) by (unfold lt_; now rewrite C2).
    pose proof (le_lt_trans _ _ L _ _ _ Hle Hlt) as Hr. unfold lt_ in Hr. rewrite C1 in Hr.
    destruct c1; congruence.
  - assert (Hlt : lt_ x e1 = true) by (unfold lt_; rewrite (law_anti _ _ L e1 x), C1; reflexivity).
    pose proof (lt_le_trans _ _ L _ _ _ Hlt Hle) as Hr. rewrite <- (gt_lt _ _ L) in Hr.
    unfold gt_ in Hr. rewrite C2 in Hr. destruct c2; congruence.
Qed.

Lemma index_nan x : is_num x = false ->
  variable_index search a x = Val (Some (N.of_nat (length edges))).
Proof.
  intros Hx. unfold variable_index. cbn [v_edges].
  pose proof (HC T edges (probe_cmp x) (probe_sorted_edges x)) as Hsr.
  assert (Hall : forall v, probe_cmp x v = Lt) by (intros v; unfold probe_cmp; now rewrite (law_nan_r _ _ L v x Hx)).
  destruct (search T edges (probe_cmp x)) as [i|i].
  - destruct Hsr as [v [_ Hv]]. rewrite Hall in Hv. discriminate.
  - destruct Hsr as [Hi [_ HG]]. do 3 f_equal.
    destruct (Nat.eq_dec i (length edges)) as [|Hne]; [assumption|].
    destruct (nth_error edges i) as [v|] eqn:Ev.
    + specialize (HG i v (le_n _) Ev). rewrite Hall in HG. discriminate.
    + apply nth_error_None in Ev. lia.
Qed.

Lemma probe_lt x e : probe_cmp x e = Lt -> is_num x = true -> is_num e = true -> lt_ e x = true.
Proof.
  unfold probe_cmp, lt_. intros Hp Hx He. destruct (law_total _ _ L e x He Hx) as [c Hc].
  rewrite Hc in *. now subst.
Qed.
Lemma probe_gt x e : probe_cmp x e = Gt -> lt_ x e = true.
Proof.
  unfold probe_cmp, lt_. rewrite (law_anti _ _ L e x).
  destruct (partial_cmp e x) as [[]|]; simpl; congruence.
Qed.
Lemma probe_eq x e : probe_cmp x e = Eq -> eq_ e x = true.
Proof. unfold probe_cmp, eq_. destruct (partial_cmp e x) as [[]|]; congruence. Qed.

(** Either the edges are strictly increasing, or the search returns the last match. *)
Definition resolves_ties : Prop :=
  StronglySorted (fun x y => lt_ x y = true) edges \/ search_finds_last search.

Lemma index_char x : resolves_ties -> is_num x = true ->
  exists k, variable_index search a x = Val (Some (N.of_nat k)) /\ (k <= length edges)%nat
    /\ (forall j e, (j < k)%nat -> nth_error edges j = Some e -> le_ e x = true)
    /\ (forall j e, (k <= j)%nat -> nth_error edges j = Some e -> lt_ x e = true).
Proof.
  intros HT Hx. unfold variable_index. cbn [v_edges].
  pose proof (HC T edges (probe_cmp x) (probe_sorted_edges x)) as Hsr.
  destruct (search T edges (probe_cmp x)) as [i|i] eqn:Es.
  - destruct Hsr as [v [Hv Hpv]]. apply probe_eq in Hpv.
    assert (Hi : (i < length edges)%nat) by (apply nth_error_Some; congruence).
    exists (S i). rewrite uadd_ok by lia. cbn [obind].
    split; [do 2 f_equal; lia|]. split; [lia|]. split.
    + intros j e Hj He. eapply (law_trans _ _ L); [eapply (edges_le j i e v); eauto; lia|].
      now apply (eq_le ord).
    + intros j e Hj He. destruct HT as [Hstrict|Hlast].
      * pose proof (sorted_nth edges Hstrict i j v e ltac:(lia) Hv He) as Hlt.
        eapply (le_lt_trans _ _ L); [|exact Hlt]. apply (eq_le ord).
        now rewrite (eq_sym_ _ _ L).
      * pose proof (Hlast T edges (probe_cmp x) (probe_sorted_edges x) i Es j e ltac:(lia) He) as HG.
        now apply probe_gt.
  - destruct Hsr as [Hi [HL HG]]. exists i. split; [reflexivity|]. split; [exact Hi|]. split.
    + intros j e Hj He. apply (lt_le ord). apply probe_lt; [eauto | exact Hx | eapply edge_num; eauto].
    + intros j e Hj He. apply probe_gt. eauto.
Qed.

(** The index is in range whatever the ties. *)
Lemma index_in_range x :
  exists k, variable_index search a x = Val (Some k) /\ k <= N.of_nat (length edges).
Proof.
  unfold variable_index. cbn [v_edges].
  pose proof (HC T edges (probe_cmp x) (probe_sorted_edges x)) as Hsr.
  destruct (search T edges (probe_cmp x)) as [i|i] eqn:Es.
  - destruct Hsr as [v [Hv _]].
    assert (Hi : (i < length edges)%nat) by (apply nth_error_Some; congruence).
    rewrite uadd_ok by lia. cbn [obind]. eexists. split; [reflexivity|]. lia.
  - destruct Hsr as [Hi _]. eexists. split; [reflexivity|]. lia.
Qed.

(** ** Bins *)
Hypothesis Hne : 2 <= N.of_nat (length edges).

Lemma num_bins_var : variable_num_bins a = Val (N.of_nat (length edges) + 1).
Proof. unfold variable_num_bins. cbn [v_edges]. now apply uadd_ok. Qed.

Lemma low_var : exists e, nth_error edges 0 = Some e /\ variable_low a = Val e.
Proof.
  clear Hnum Hsorted Hlen.
  unfold variable_low. cbn [v_edges]. destruct (nth_error edges 0) as [e|] eqn:E; [|apply nth_error_None in E; lia].
  exists e. split; reflexivity.
Qed.

Lemma high_var : exists e, nth_error edges (length edges - 1) = Some e /\ variable_high a = Val e.
Proof.
  clear Hnum Hsorted Hlen.
  unfold variable_high. cbn [v_edges].
  destruct (rev edges) as [|e es] eqn:E.
  - apply (f_equal (@length T)) in E. rewrite rev_length in E. simpl in E. lia.
  - exists e. split; [|reflexivity].
    assert (E' : edges = rev es ++ [e]) by (rewrite <- (rev_involutive edges), E; reflexivity).
    rewrite E', app_length. simpl. replace (length (rev es) + 1 - 1)%nat with (length (rev es)) by lia.
    rewrite nth_error_app2 by lia. now rewrite Nat.sub_diag.
Qed.

Lemma bin_under : exists e, nth_error edges 0 = Some e /\ variable_bin a 0 = Val (Some (Underflow e)).
Proof.
  clear Hnum Hsorted Hlen.
  destruct low_var as [e [He Hl]]. exists e. split; [exact He|].
  unfold variable_bin. cbn [N.eqb]. rewrite Hl. reflexivity.
Qed.

Lemma bin_over : exists e, nth_error edges (length edges - 1) = Some e
  /\ variable_bin a (N.of_nat (length edges)) = Val (Some (Overflow e)).
Proof.
  clear Hnum Hsorted Hlen.
  destruct high_var as [e [He Hl]]. exists e. split; [exact He|].
  unfold variable_bin. cbn [v_edges].
  destruct (N.eqb_spec (N.of_nat (length edges)) 0); [lia|].
  rewrite N.eqb_refl. rewrite Hl. reflexivity.
Qed.

Lemma bin_mid i : 1 <= i < N.of_nat (length edges) ->
  exists s e, nth_error edges (N.to_nat i - 1) = Some s /\ nth_error edges (N.to_nat i) = Some e
    /\ variable_bin a i = Val (Some (Bin s e)).
Proof.
  clear Hnum Hsorted Hlen.
  intros Hi. unfold variable_bin. cbn [v_edges].
  destruct (N.eqb_spec i 0); [lia|].
  destruct (N.eqb_spec i (N.of_nat (length edges))); [lia|].
  destruct (N.ltb_spec i (N.of_nat (length edges))); [|lia].
  rewrite usub_ok by lia. cbn [obind].
  replace (N.to_nat (i - 1)) with (N.to_nat i - 1)%nat by lia.
  destruct (nth_error edges (N.to_nat i - 1)) as [s|] eqn:Es; [|apply nth_error_None in Es; lia].
  destruct (nth_error edges (N.to_nat i)) as [e|] eqn:Ee; [|apply nth_error_None in Ee; lia].
  exists s, e. auto.
Qed.

Lemma bin_none i : N.of_nat (length edges) < i -> variable_bin a i = Val None.
Proof.
  clear Hnum Hsorted Hlen.
  intros Hi. unfold variable_bin. cbn [v_edges].
  destruct (N.eqb_spec i 0); [lia|].
  destruct (N.eqb_spec i (N.of_nat (length edges))); [lia|].
  destruct (N.ltb_spec i (N.of_nat (length edges))); [lia | reflexivity].
Qed.

(** If [x] is separated at position [k] then bin [k], and no other, contains it. *)
Lemma bin_contains x k :
  (k <= length edges)%nat ->
  (forall j e, (j < k)%nat -> nth_error edges j = Some e -> le_ e x = true) ->
  (forall j e, (k <= j)%nat -> nth_error edges j = Some e -> lt_ x e = true) ->
  exists b, variable_bin a (N.of_nat k) = Val (Some b) /\ contains b x.
Proof.
  clear Hnum Hsorted Hlen.
  intros Hk HL HG. destruct (Nat.eq_dec k 0) as [->|Hk0]; [|destruct (Nat.eq_dec k (length edges)) as [Hkn|Hkn]].
  - change (N.of_nat 0) with 0. destruct bin_under as [e [He ->]]. eexists. split; [reflexivity|]. cbn. eapply HG; [|exact He]. lia.
  - rewrite Hkn. destruct bin_over as [e [He ->]]. eexists. split; [reflexivity|]. cbn.
    rewrite (ge_le _ _ L). eapply HL; [|exact He]. lia.
  - destruct (bin_mid (N.of_nat k)) as [s [e [Hs [He ->]]]]; [lia|].
    rewrite Nat2N.id in Hs, He.
    eexists. split; [reflexivity|]. cbn. rewrite (ge_le _ _ L). split.
    + eapply HL; [|exact Hs]. lia.
    + eapply HG; [|exact He]. lia.
Qed.

Lemma bin_unique x k j b :
  (k <= length edges)%nat ->
  (forall j e, (j < k)%nat -> nth_error edges j = Some e -> le_ e x = true) ->
  (forall j e, (k <= j)%nat -> nth_error edges j = Some e -> lt_ x e = true) ->
  variable_bin a j = Val (Some b) -> contains b x -> j = N.of_nat k.
Proof.
  clear Hnum Hsorted Hlen.
  intros Hk HL HG Hb Hc.
  assert (Hend : forall e i, nth_error edges i = Some e -> lt_ x e = true -> (k <= i)%nat).
  { intros e i He Hlt. destruct (Nat.le_gt_cases k i) as [|Hgt]; [assumption|exfalso].
    eapply (lt_not_le _ _ L); [exact Hlt|]. eapply HL; eauto. }
  assert (Hstart : forall s i, nth_error edges i = Some s -> le_ s x = true -> (i < k)%nat).
  { intros s i Hs Hle. destruct (Nat.le_gt_cases k i) as [Hle'|]; [exfalso|assumption].
    eapply (lt_not_le _ _ L); [eapply HG; eauto | exact Hle]. }
  destruct (N.lt_ge_cases (N.of_nat (length edges)) j) as [Hj|Hj].
  { rewrite bin_none in Hb by exact Hj. discriminate. }
  destruct (N.eq_dec j 0) as [->|Hj0].
  - destruct bin_under as [e [He Hu]]. rewrite Hu in Hb. injection Hb as <-. cbn in Hc.
    pose proof (Hend _ _ He Hc). lia.
  - destruct (N.eq_dec j (N.of_nat (length edges))) as [->|Hjn].
    + destruct bin_over as [e [He Hu]]. rewrite Hu in Hb. injection Hb as <-. cbn in Hc.
      rewrite (ge_le _ _ L) in Hc. pose proof (Hstart _ _ He Hc). lia.
    + destruct (bin_mid j) as [s [e [Hs [He Hu]]]]; [lia|]. rewrite Hu in Hb. injection Hb as <-.
      cbn in Hc. rewrite (ge_le _ _ L) in Hc. destruct Hc as [Hc1 Hc2].
      pose proof (Hstart _ _ Hs Hc1). pose proof (Hend _ _ He Hc2). lia.
Qed.

Lemma bin_start_index i b s : StronglySorted (fun x y => lt_ x y = true) edges ->
  variable_bin a i = Val (Some b) -> bi_start b = Some s ->
  variable_index search a s = Val (Some i).
Proof.
  intros Hstrict Hb Hs.
  assert (Hx : exists k, nth_error edges k = Some s /\ i = N.of_nat (S k)).
  { destruct (N.lt_ge_cases (N.of_nat (length edges)) i) as [Hj|Hj].
    { rewrite bin_none in Hb by exact Hj. discriminate. }
    destruct (N.eq_dec i 0) as [->|Hj0].
    - destruct bin_under as [e [He Hu]]. rewrite Hu in Hb. injection Hb as <-. discriminate.
    - destruct (N.eq_dec i (N.of_nat (length edges))) as [->|Hjn].
      + destruct bin_over as [e [He Hu]]. rewrite Hu in Hb. injection Hb as <-.
        injection Hs as <-. exists (length edges - 1)%nat. split; [exact He|]. lia.
      + destruct (bin_mid i) as [s' [e [Hs' [He Hu]]]]; [lia|]. rewrite Hu in Hb. injection Hb as <-.
        injection Hs as <-. exists (N.to_nat i - 1)%nat. split; [exact Hs'|]. lia. }
  destruct Hx as [k [Hk ->]].
  pose proof (edge_num _ _ Hk) as Hsn.
  destruct (index_char s (or_introl Hstrict) Hsn) as [k' [Hi [Hk' [HL HG]]]].
  rewrite Hi. do 3 f_equal.
  assert ((k < k')%nat).
  { destruct (Nat.le_gt_cases k' k) as [Hle|]; [exfalso|assumption].
    eapply (lt_irrefl _ _ L). eapply HG; eauto. }
  assert ((k' <= S k)%nat).
  { destruct (Nat.le_gt_cases k' (S k)) as [|Hgt]; [assumption|exfalso].
    destruct (nth_error edges (S k)) as [e|] eqn:Ee; [|apply nth_error_None in Ee; lia].
    pose proof (sorted_nth edges Hstrict k (S k) s e ltac:(lia) Hk Ee) as Hlt.
    eapply (lt_not_le _ _ L); [exact Hlt|]. eapply HL; [|exact Ee]. lia. }
  lia.
Qed.

(** ** VariableNoFlow *)
Lemma noflow_num_bins_var : variablenoflow_num_bins (mkVariableNoFlow a) = Val (N.of_nat (length edges) - 1).
Proof.
  unfold variablenoflow_num_bins. cbn [vnf_axis]. rewrite num_bins_var. cbn [obind].
  rewrite usub_ok by lia. f_equal. lia.
Qed.

Lemma noflow_index_var x i : variable_index search a x = Val (Some i) -> i <= N.of_nat (length edges) ->
  variablenoflow_index search (mkVariableNoFlow a) x
  = Val (if i =? 0 then None else if i =? N.of_nat (length edges) then None else Some (i - 1)).
Proof.
  intros Hi Hle. unfold variablenoflow_index. cbn [vnf_axis]. rewrite Hi. cbn [obind].
  destruct (N.eqb_spec i 0); [reflexivity|].
  rewrite uadd_ok by lia. cbn [obind]. rewrite num_bins_var. cbn [obind].
  destruct (N.eqb_spec (i + 1) (N.of_nat (length edges) + 1)), (N.eqb_spec i (N.of_nat (length edges)));
    try lia; [reflexivity|].
  rewrite usub_ok by lia. reflexivity.
Qed.

Lemma noflow_bin_var i : i < N.of_nat (length edges) - 1 ->
  exists s e, nth_error edges (N.to_nat i) = Some s /\ nth_error edges (S (N.to_nat i)) = Some e
    /\ variablenoflow_bin (mkVariableNoFlow a) i = Val (Some (Bin s e)).
Proof.
  intros Hi. unfold variablenoflow_bin. cbn [vnf_axis]. rewrite uadd_ok by lia. cbn [obind].
  destruct (bin_mid (i + 1)) as [s [e [Hs [He ->]]]]; [lia|].
  exists s, e. replace (N.to_nat (i + 1) - 1)%nat with (N.to_nat i) in Hs by lia.
  replace (N.to_nat (i + 1)) with (S (N.to_nat i)) in He by lia. auto.
Qed.

Lemma noflow_bin_none i : N.of_nat (length edges) - 1 <= i -> i + 1 < usize_mod ->
  variablenoflow_bin (mkVariableNoFlow a) i = Val None.
Proof.
  intros Hi Hov. unfold variablenoflow_bin. cbn [vnf_axis]. rewrite uadd_ok by lia. cbn [obind].
  destruct (N.eq_dec (i + 1) (N.of_nat (length edges))) as [->|Hne'].
  - destruct bin_over as [e [_ ->]]. reflexivity.
  - rewrite bin_none by lia. reflexivity.
Qed.
End Index.
End VarFacts.
