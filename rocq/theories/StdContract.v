(** * StdContract: what the crate may assume of [slice::sort_by] and
    [slice::binary_search_by], and proofs that the implementations of StdAlgo.v
    satisfy it. *)
From Coq Require Import List NArith ZArith Bool Lia Permutation Sorted.
From Verif Require Import Base StdAlgo.
Import ListNotations.
Local Open Scope nat_scope.

(** ** binary_search_by *)

(** The slice is sorted with respect to the probe: Less.. Equal.. Greater.. *)
Definition probe_sorted {T : Type} (f : T -> comparison) (l : list T) : Prop :=
  forall i j a b, i <= j -> nth_error l i = Some a -> nth_error l j = Some b ->
    (f b = Lt -> f a = Lt) /\ (f a = Gt -> f b = Gt).

(** std documentation of [binary_search_by]: on a sorted slice [Ok(i)] names an
    element that compares Equal (any of them), [Err(i)] the unique position where
    a matching element could be inserted, and then there is no Equal element. *)
Definition search_contract (s : searcher) : Prop :=
  forall T (l : list T) (f : T -> comparison), probe_sorted f l ->
  match s T l f with
  | Found i => exists v, nth_error l i = Some v /\ f v = Eq
  | NotFound i => i <= length l
      /\ (forall j v, j < i -> nth_error l j = Some v -> f v = Lt)
      /\ (forall j v, i <= j -> nth_error l j = Some v -> f v = Gt)
  end.

(** Additional guarantee of the implementation in Rust >= 1.82 (not documented):
    among several Equal elements the last one is returned. *)
Definition search_finds_last (s : searcher) : Prop :=
  forall T (l : list T) (f : T -> comparison), probe_sorted f l ->
  forall i, s T l f = Found i -> forall j v, i < j -> nth_error l j = Some v -> f v = Gt.

Lemma early_loop_spec T (l : list T) f fuel left right :
  probe_sorted f l -> right - left < fuel -> left <= right <= length l ->
  (forall j v, j < left -> nth_error l j = Some v -> f v = Lt) ->
  (forall j v, right <= j -> nth_error l j = Some v -> f v = Gt) ->
  match bsearch_early_loop fuel l f left right with
  | Found i => exists v, nth_error l i = Some v /\ f v = Eq
  | NotFound i => i <= length l
      /\ (forall j v, j < i -> nth_error l j = Some v -> f v = Lt)
      /\ (forall j v, i <= j -> nth_error l j = Some v -> f v = Gt)
  end.
Proof.
  intros Hs. revert left right.
  induction fuel as [|fuel IH]; intros left right Hf Hlr HL HG; [lia|].
  cbn [bsearch_early_loop]. destruct (Nat.ltb_spec left right) as [Hlt|Hge].
  - set (mid := left + (right - left) / 2).
    assert (Hmid : left <= mid < right).
    { unfold mid. pose proof (Nat.div_lt (right - left) 2 ltac:(lia) ltac:(lia)). lia. }
    destruct (nth_error l mid) as [v|] eqn:Ev.
    2:{ apply nth_error_None in Ev. lia. }
    destruct (f v) eqn:Efv.
    + eauto.
    + apply IH; try lia.
      * intros j w Hj Hw. destruct (Hs j mid w v ltac:(lia) Hw Ev). auto.
      * exact HG.
    + apply IH; try lia.
      * exact HL.
      * intros j w Hj Hw. destruct (Hs mid j v w ltac:(lia) Ev Hw). auto.
  - assert (left = right) by lia. subst right. repeat split; [lia | exact HL | exact HG].
Qed.

Lemma bsearch_early_contract : search_contract bsearch_early.
Proof.
  intros T l f Hs. apply early_loop_spec; try assumption; try lia.
  intros j v Hj Hv. assert (nth_error l j <> None) by congruence.
  apply nth_error_Some in H. lia.
Qed.

Lemma branchless_loop_spec T (l : list T) f fuel base size :
  probe_sorted f l -> size <= fuel -> 1 <= size -> base + size <= length l ->
  (forall j v, base + size <= j -> nth_error l j = Some v -> f v = Gt) ->
  (base = 0 \/ exists v, nth_error l base = Some v /\ f v <> Gt) ->
  let r := bsearch_branchless_loop fuel l f base size in
  r < length l
  /\ (forall j v, r < j -> nth_error l j = Some v -> f v = Gt)
  /\ (r = 0 \/ exists v, nth_error l r = Some v /\ f v <> Gt).
Proof.
  intros Hs. revert base size.
  induction fuel as [|fuel IH]; intros base size Hf H1 Hl HG Hb; [lia|].
  cbn [bsearch_branchless_loop]. destruct (Nat.ltb_spec 1 size) as [Hlt|Hge].
  - set (half := size / 2). 
    assert (Hhalf : 1 <= half < size).
    { unfold half. pose proof (Nat.div_lt size 2 ltac:(lia) ltac:(lia)).
      pose proof (Nat.div_le_lower_bound size 2 1 ltac:(lia) ltac:(lia)). lia. }
    destruct (nth_error l (base + half)) as [v|] eqn:Ev.
    2:{ apply nth_error_None in Ev. lia. }
    destruct (f v) eqn:Efv.
    1,2: apply IH; try lia;
      [intros j w Hj Hw; apply (HG j w); [lia | exact Hw]
      | right; exists v; split; [exact Ev | congruence]].
    apply IH; try lia.
    + intros j w Hj Hw. destruct (Nat.le_gt_cases (base + half) j).
      * destruct (Hs (base + half) j v w ltac:(lia) Ev Hw). auto.
      * (* half <= size - half leaves no gap *)
        assert (half <= size - half).
        { unfold half. pose proof (Nat.div_mod size 2 ltac:(lia)).
          pose proof (Nat.mod_upper_bound size 2 ltac:(lia)). lia. }
        lia.
    + exact Hb.
  - assert (size = 1) by lia. subst size. split; [lia|]. split; [|exact Hb].
    intros j v Hj Hv. apply (HG j v); [lia | exact Hv].
Qed.

Lemma bsearch_branchless_spec : search_contract bsearch_branchless /\ search_finds_last bsearch_branchless.
Proof.
  assert (Hboth : forall T (l : list T) f, probe_sorted f l ->
    match bsearch_branchless T l f with
    | Found i => (exists v, nth_error l i = Some v /\ f v = Eq)
                 /\ forall j v, i < j -> nth_error l j = Some v -> f v = Gt
    | NotFound i => i <= length l
      /\ (forall j v, j < i -> nth_error l j = Some v -> f v = Lt)
      /\ (forall j v, i <= j -> nth_error l j = Some v -> f v = Gt)
    end).
  { intros T l f Hs. unfold bsearch_branchless. destruct l as [|x l'].
    { split; [lia|]. split; intros j v Hj Hv; [lia | destruct j; discriminate]. }
    set (l := x :: l') in *.
    destruct (branchless_loop_spec T l f (length l) 0 (length l) Hs) as [Hr [HG Hb]]; try lia.
    { subst l; simpl; lia. }
    { intros j v Hj Hv. assert (Hne : nth_error l j <> None) by congruence.
      apply nth_error_Some in Hne. lia. }
    destruct (nth_error l (bsearch_branchless_loop (length l) l f 0 (length l))) as [v|] eqn:Ev.
    2:{ apply nth_error_None in Ev. lia. }
    set (r := bsearch_branchless_loop (length l) l f 0 (length l)) in *.
    destruct (f v) eqn:Efv.
    - split; eauto.
    - split; [lia|]. split.
      + intros j w Hj Hw. destruct (Hs j r w v ltac:(lia) Hw Ev). auto.
      + intros j w Hj Hw. apply (HG j w); [lia | exact Hw].
    - destruct Hb as [Hr0 | [w [Hw Hne]]]; [|congruence].
      split; [lia|]. split.
      + intros j w Hj Hw. lia.
      + intros j w Hj Hw. destruct (Nat.eq_dec j r) as [->|Hjr]; [congruence|].
        apply (HG j w); [lia | exact Hw]. }
  split.
  - intros T l f Hs. specialize (Hboth T l f Hs). destruct (bsearch_branchless T l f); tauto.
  - intros T l f Hs i Hi. specialize (Hboth T l f Hs). rewrite Hi in Hboth. tauto.
Qed.

Lemma bsearch_branchless_contract : search_contract bsearch_branchless.
Proof. exact (proj1 bsearch_branchless_spec). Qed.
Lemma bsearch_branchless_last : search_finds_last bsearch_branchless.
Proof. exact (proj2 bsearch_branchless_spec). Qed.

(** ** sort_by *)

(** [cmp] is a total order on the elements of [l] (ties allowed). *)
Definition cmp_total_on {T : Type} (l : list T) (cmp : T -> T -> comparison) : Prop :=
  (forall a b, In a l -> In b l -> cmp b a = CompOpp (cmp a b))
  /\ (forall a b c, In a l -> In b l -> In c l ->
        cmp a b <> Gt -> cmp b c <> Gt -> cmp a c <> Gt).

(** [sort_by]: whatever the closure does, if the sort returns then the slice is
    a permutation, the closure was called on elements of the slice only and,
    unless there are fewer than two, on each of them at least once (no comparison
    sort can place an element it never looked at).  If the closure is a total
    order, the sort returns and the result is sorted. *)
Definition sort_contract (s : sorter) : Prop :=
  forall T (l : list T) (cmp : T -> T -> comparison),
  (forall r calls, s T l cmp = Val (r, calls) ->
     Permutation l r
     /\ (forall a b, In (a, b) calls -> In a l /\ In b l)
     /\ (2 <= length l -> forall x, In x l -> exists y, In (x, y) calls \/ In (y, x) calls))
  /\ (cmp_total_on l cmp ->
      exists r calls, s T l cmp = Val (r, calls)
        /\ StronglySorted (fun a b => cmp a b <> Gt) r).

Section Insertion.
Context {T : Type} (cmp : T -> T -> comparison).

Lemma insert_rev_perm x acc r tr : insert_rev cmp x acc = (r, tr) -> Permutation (x :: acc) r.
Proof.
  revert r tr; induction acc as [|y ys IH]; simpl; intros r tr Hi.
  - injection Hi as <- <-. reflexivity.
  - destruct (cmp x y); try (injection Hi as <- <-; reflexivity).
    destruct (insert_rev cmp x ys) as [r' tr'] eqn:E. injection Hi as <- <-.
    rewrite perm_swap. constructor. eapply IH; reflexivity.
Qed.

Lemma insert_rev_calls x acc r tr : insert_rev cmp x acc = (r, tr) ->
  (forall a b, In (a, b) tr -> a = x /\ In b acc)
  /\ (forall y ys, acc = y :: ys -> In (x, y) tr).
Proof.
  revert r tr; induction acc as [|y ys IH]; simpl; intros r tr Hi.
  - injection Hi as <- <-. split; [intros a b [] | discriminate].
  - destruct (cmp x y) eqn:Ec.
    1,3: injection Hi as <- <-; split;
      [intros a b [[= <- <-]|[]]; auto | intros y0 ys0 [= <- <-]; now left].
    destruct (insert_rev cmp x ys) as [r' tr'] eqn:E. injection Hi as <- <-.
    destruct (IH _ _ eq_refl) as [H1 H2]. split.
    + intros a b [[= <- <-]|Hin]; [auto|]. destruct (H1 _ _ Hin); auto.
    + intros y0 ys0 [= <- <-]. now left.
Qed.

Lemma insert_rev_sorted x acc r tr :
  cmp_total_on (x :: acc) cmp ->
  StronglySorted (fun a b => cmp b a <> Gt) acc -> insert_rev cmp x acc = (r, tr) ->
  StronglySorted (fun a b => cmp b a <> Gt) r.
Proof.
  revert r tr; induction acc as [|y ys IH]; intros r tr Ht Hs Hi; cbn [insert_rev] in Hi.
  - injection Hi as <- <-. repeat constructor.
  - destruct Ht as [Hanti Htrans].
    inversion Hs as [|? ? Hs' Hall]; subst.
    assert (Hcase : cmp x y <> Lt -> StronglySorted (fun a b => cmp b a <> Gt) (x :: y :: ys)).
    { intros Hn. constructor; [exact Hs|].
      assert (Hyx : cmp y x <> Gt).
      { rewrite (Hanti x y) by (simpl; auto). destruct (cmp x y); simpl; congruence. }
      constructor; [exact Hyx|].
      rewrite Forall_forall in Hall |- *. intros z Hz.
      apply (Htrans z y x); simpl; auto. }
    destruct (cmp x y) eqn:Ec.
    1,3: injection Hi as <- <-; apply Hcase; discriminate.
    destruct (insert_rev cmp x ys) as [r' tr'] eqn:E. injection Hi as <- <-.
    constructor.
    + eapply IH; [|exact Hs'|reflexivity].
      split; [intros a b Ha Hb; apply Hanti | intros a b c Ha Hb Hc; apply (Htrans a b c)];
        simpl in *; tauto.
    + rewrite Forall_forall in Hall |- *. intros z Hz.
      apply (Permutation_in _ (Permutation_sym (insert_rev_perm _ _ _ _ E))) in Hz.
      destruct Hz as [<-|Hz]; [congruence | now apply Hall].
Qed.

Lemma insertion_loop_perm l acc r tr : insertion_loop cmp l acc = (r, tr) -> Permutation (l ++ acc) r.
Proof.
  revert acc r tr; induction l as [|x xs IH]; simpl; intros acc r tr Hi.
  - injection Hi as <- <-. apply Permutation_rev.
  - destruct (insert_rev cmp x acc) as [acc' tr1] eqn:E1.
    destruct (insertion_loop cmp xs acc') as [r' tr2] eqn:E2. injection Hi as <- <-.
    rewrite <- (IH _ _ _ E2). rewrite <- (insert_rev_perm _ _ _ _ E1).
    apply Permutation_middle.
Qed.

Lemma insertion_loop_calls l acc r tr : insertion_loop cmp l acc = (r, tr) ->
  forall a b, In (a, b) tr -> In a (l ++ acc) /\ In b (l ++ acc).
Proof.
  revert acc r tr; induction l as [|x xs IH]; simpl; intros acc r tr Hi a b Hin.
  - injection Hi as <- <-. destruct Hin.
  - destruct (insert_rev cmp x acc) as [acc' tr1] eqn:E1.
    destruct (insertion_loop cmp xs acc') as [r' tr2] eqn:E2. injection Hi as <- <-.
    apply in_app_or in Hin as [Hin|Hin].
    + destruct (proj1 (insert_rev_calls _ _ _ _ E1) _ _ Hin) as [-> Hb].
      split; [now left|]. right. apply in_or_app. now right.
    + destruct (IH _ _ _ E2 _ _ Hin) as [Ha Hb].
      assert (Hsub : forall z, In z (xs ++ acc') -> x = z \/ In z (xs ++ acc)).
      { intros z Hz. apply in_app_or in Hz as [Hz|Hz]; [right; apply in_or_app; now left|].
        apply (Permutation_in _ (Permutation_sym (insert_rev_perm _ _ _ _ E1))) in Hz.
        destruct Hz as [->|Hz]; [now left | right; apply in_or_app; now right]. }
      split; apply Hsub; assumption.
Qed.

Lemma insertion_loop_covers l acc r tr : insertion_loop cmp l acc = (r, tr) -> acc <> [] ->
  forall x, In x l -> exists y, In (x, y) tr.
Proof.
  revert acc r tr; induction l as [|x xs IH]; simpl; intros acc r tr Hi Hne z Hz; [destruct Hz|].
  destruct (insert_rev cmp x acc) as [acc' tr1] eqn:E1.
  destruct (insertion_loop cmp xs acc') as [r' tr2] eqn:E2. injection Hi as <- <-.
  destruct acc as [|y ys]; [congruence|].
  destruct Hz as [<-|Hz].
  - exists y. apply in_or_app. left. eapply (proj2 (insert_rev_calls _ _ _ _ E1)); reflexivity.
  - destruct (IH _ _ _ E2) with (x := z) as [w Hw]; [|exact Hz|].
    + intros ->. apply insert_rev_perm in E1. apply Permutation_sym, Permutation_nil in E1. discriminate.
    + exists w. apply in_or_app. now right.
Qed.

Lemma cmp_total_perm l l' : Permutation l l' -> cmp_total_on l cmp -> cmp_total_on l' cmp.
Proof.
  intros HP [H1 H2]. assert (Hin : forall z, In z l' -> In z l).
  { intros z Hz. eapply Permutation_in; [apply Permutation_sym; exact HP | exact Hz]. }
  split; [intros a b Ha Hb; apply H1; auto | intros a b c Ha Hb Hc; apply H2; auto].
Qed.

Lemma StronglySorted_app_last (R : T -> T -> Prop) l x :
  StronglySorted R l -> Forall (fun y => R y x) l -> StronglySorted R (l ++ [x]).
Proof.
  induction l as [|y ys IH]; simpl; intros Hs Ha; [repeat constructor|].
  inversion Hs; subst. inversion Ha; subst. constructor; [auto|].
  apply Forall_app. split; [assumption | repeat constructor; assumption].
Qed.

Lemma StronglySorted_rev (R : T -> T -> Prop) l :
  StronglySorted (fun a b => R b a) l -> StronglySorted R (rev l).
Proof.
  induction 1 as [|y ys Hs IH Ha]; simpl; [constructor|].
  apply StronglySorted_app_last; [exact IH|].
  rewrite Forall_forall in Ha |- *. intros z Hz. apply Ha. now apply in_rev.
Qed.

Lemma insertion_loop_sorted l acc r tr :
  cmp_total_on (l ++ acc) cmp -> StronglySorted (fun a b => cmp b a <> Gt) acc ->
  insertion_loop cmp l acc = (r, tr) -> StronglySorted (fun a b => cmp a b <> Gt) r.
Proof.
  revert acc r tr; induction l as [|x xs IH]; simpl; intros acc r tr Ht Hs Hi.
  - injection Hi as <- <-. now apply StronglySorted_rev.
  - destruct (insert_rev cmp x acc) as [acc' tr1] eqn:E1.
    destruct (insertion_loop cmp xs acc') as [r' tr2] eqn:E2. injection Hi as <- <-.
    eapply IH; [| |exact E2].
    + eapply cmp_total_perm; [|exact Ht]. rewrite <- (insert_rev_perm _ _ _ _ E1).
      apply Permutation_middle.
    + eapply insert_rev_sorted; [|exact Hs|exact E1].
      destruct Ht as [H1 H2].
      assert (Hin : forall z, In z (x :: acc) -> x = z \/ In z (xs ++ acc)).
      { intros z [<-|Hz]; [now left | right; apply in_or_app; now right]. }
      split; [intros a b Ha Hb; apply H1; apply Hin; assumption
             |intros a b c Ha Hb Hc; apply H2; apply Hin; assumption].
Qed.
End Insertion.

Lemma insertion_sort_contract : sort_contract insertion_sort.
Proof.
  intros T l cmp. split.
  - intros r calls Hr. unfold insertion_sort in Hr. injection Hr as Hr.
    split; [|split].
    + apply insertion_loop_perm in Hr. now rewrite app_nil_r in Hr.
    + intros a b Hin. pose proof (insertion_loop_calls _ _ _ _ _ Hr a b Hin) as Hab.
      now rewrite app_nil_r in Hab.
    + destruct l as [|a [|b l']]; simpl; try lia. intros _ x Hx.
      cbn [insertion_loop] in Hr. cbn [insert_rev] in Hr.
      destruct (match cmp b a with Lt => _ | _ => _ end) as [acc' tr1] eqn:E1.
      assert (E1' : insert_rev cmp b [a] = (acc', tr1)) by exact E1.
      destruct (insertion_loop cmp l' acc') as [r' tr2] eqn:E2.
      injection Hr as <- <-. simpl.
      pose proof (proj2 (insert_rev_calls _ _ _ _ _ E1') a [] eq_refl) as Hba.
      destruct Hx as [<-|[<-|Hx]].
      * exists b. right. apply in_or_app. now left.
      * exists a. left. apply in_or_app. now left.
      * destruct (insertion_loop_covers _ _ _ _ _ E2) with (x := x) as [y Hy]; [|exact Hx|].
        -- intros ->. apply insert_rev_perm in E1'. apply Permutation_sym, Permutation_nil in E1'. discriminate.
        -- exists y. left. apply in_or_app. now right.
  - intros Ht. unfold insertion_sort. destruct (insertion_loop cmp l []) as [r tr] eqn:E.
    exists r, tr. split; [reflexivity|].
    eapply insertion_loop_sorted; [| |exact E]; [now rewrite app_nil_r | constructor].
Qed.
