(** * HashFacts: loops over hash map entries in arbitrary order. *)
From stdpp Require Import gmap.
From Coq Require Import ZifyN ZifyNat.
From Verif Require Import Base BaseFacts Num Axis Value VecHist HashHist HistSpec HistFacts.
Open Scope N_scope.

Lemma foldo_ext {X S} (f g : S -> X -> outcome S) l s :
  (forall s x, f s x = g s x) -> foldo f l s = foldo g l s.
Proof.
  intros Hfg. revert s. induction l as [|x l IH]; intros s; [reflexivity|]. cbn [foldo]. rewrite Hfg.
  destruct (g s x); [apply IH | reflexivity].
Qed.

Section Loop.
Context {X V : Type}.

(** [for x in l { m[key x] = g(x) }] *)
Lemma foldo_insert (key : X -> N) (g : X -> outcome V) (l : list X) (m m' : gmap N V) :
  NoDup (map key l) ->
  foldo (fun (m : gmap N V) x => let! v' := g x in Val (<[key x := v']> m)) l m = Val m' ->
  (forall x, x ∈ l -> exists v', g x = Val v' /\ m' !! key x = Some v')
  /\ (forall i, i ∉ map key l -> m' !! i = m !! i).
Proof.
  revert m. induction l as [|x l IH]; intros m Hnd Hf; cbn [foldo map] in *.
  - injection Hf as <-. split; [intros x Hx; inversion Hx | reflexivity].
  - apply obind_val in Hf as [m1 [H1 Hf]]. apply obind_val in H1 as [v' [Hg H1]]. injection H1 as <-.
    apply NoDup_cons in Hnd as [Hx Hnd]. cbn [fst snd] in *. destruct (IH _ Hnd Hf) as [Hin Hout]. split.
    + intros y Hy. apply elem_of_cons in Hy as [->|Hy]; [|auto].
      exists v'. split; [exact Hg|]. rewrite (Hout _ Hx). apply lookup_insert.
    + intros i Hi. apply not_elem_of_cons in Hi as [Hne Hi]. rewrite (Hout _ Hi).
      apply lookup_insert_ne. congruence.
Qed.

Lemma foldo_insert_total (key : X -> N) (g : X -> outcome V) (l : list X) (m : gmap N V) :
  (forall x, x ∈ l -> exists v', g x = Val v') ->
  exists m', foldo (fun (m : gmap N V) x => let! v' := g x in Val (<[key x := v']> m)) l m = Val m'.
Proof.
  revert m. induction l as [|x l IH]; intros m Hg; cbn [foldo]; [eauto|].
  destruct (Hg x (elem_of_list_here _ _)) as [v' ->]. cbn [obind]. apply IH.
  intros y Hy. apply Hg. now apply elem_of_list_further.
Qed.
End Loop.

Section Orders.
Context {V : Type}.
Lemma order_elem (m : gmap N V) order i v : an_order m order -> (i, v) ∈ order <-> m !! i = Some v.
Proof. intros Ho. rewrite Ho. apply elem_of_map_to_list. Qed.
Lemma order_NoDup (m : gmap N V) order : an_order m order -> NoDup (map fst order).
Proof. intros Ho. unfold an_order in Ho. change (map fst order) with (order.*1). rewrite Ho. apply NoDup_fst_map_to_list. Qed.
Lemma order_key (m : gmap N V) order i : an_order m order -> i ∈ map fst order <-> is_Some (m !! i).
Proof.
  intros Ho. split.
  - intros Hi. apply elem_of_list_fmap in Hi as [[j v] [-> Hi]]. exists v. now apply (order_elem m order).
  - intros [v Hv]. apply elem_of_list_fmap. exists (i, v). split; [reflexivity|]. now apply (order_elem m order).
Qed.
End Orders.

Section Merge.
Context {A V : Type} {AX : Axis A} {AE : AxisEq A} {DV : Default V}.

(** [hash_merge_loop] over distinct keys. *)
Lemma merge_loop_spec (op : V -> V -> outcome V) order (m m' : gmap N V) :
  NoDup (map fst order) -> hash_merge_loop op m order = Val m' ->
  (forall i v, (i, v) ∈ order -> exists v', op (or_default (m !! i)) v = Val v' /\ m' !! i = Some v')
  /\ (forall i, i ∉ map fst order -> m' !! i = m !! i).
Proof.
  unfold hash_merge_loop. revert m. induction order as [|[i v] l IH]; intros m Hnd Hf; cbn [foldo map] in *.
  - injection Hf as <-. split; [intros j w Hx; inversion Hx | reflexivity].
  - apply obind_val in Hf as [m1 [H1 Hf]]. unfold entry_or_default_update in H1. cbn [fst snd] in H1.
    apply obind_val in H1 as [v' [Hg H1]]. injection H1 as <-.
    apply NoDup_cons in Hnd as [Hx Hnd]. cbn [fst snd] in *. destruct (IH _ Hnd Hf) as [Hin Hout]. split.
    + intros j w Hy. apply elem_of_cons in Hy as [[= -> ->]|Hy].
      * exists v'. split; [exact Hg|]. rewrite (Hout _ Hx). apply lookup_insert.
      * destruct (Hin _ _ Hy) as [w' [Hw Hl]]. exists w'. split; [|exact Hl].
        rewrite lookup_insert_ne in Hw; [exact Hw|]. cbn [fst]. intros ->. apply Hx.
        apply elem_of_list_fmap. exists (j, w). auto.
    + intros j Hi. apply not_elem_of_cons in Hi as [Hne Hi]. rewrite (Hout _ Hi).
      apply lookup_insert_ne. cbn [fst] in *. congruence.
Qed.

Lemma merge_loop_total (op : V -> V -> outcome V) order (m : gmap N V) :
  NoDup (map fst order) ->
  (forall i v, (i, v) ∈ order -> exists v', op (or_default (m !! i)) v = Val v') ->
  exists m', hash_merge_loop op m order = Val m'.
Proof.
  unfold hash_merge_loop. revert m. induction order as [|[i v] l IH]; intros m Hnd Hg; cbn [foldo map] in *; [eauto|].
  apply NoDup_cons in Hnd as [Hx Hnd].
  destruct (Hg i v (elem_of_list_here _ _)) as [v' Hv']. unfold entry_or_default_update at 1. cbn [fst snd].
  unfold or_default in Hv'. rewrite Hv'. cbn [obind]. apply IH; [exact Hnd|].
  intros j w Hj. rewrite lookup_insert_ne.
  - apply Hg. now apply elem_of_list_further.
  - intros ->. apply Hx. apply elem_of_list_fmap. exists (j, w). auto.
Qed.

(** [hash_binop_borrowed]'s loop, for keys without repetition. *)
Definition pair_op (op : V -> V -> outcome V) (l r : gmap N V) (i : N) : outcome V :=
  match l !! i, r !! i with
  | Some a, Some b => op a b
  | None, Some b => op default_v b
  | Some a, None => op a default_v
  | None, None => Panic
  end.

Lemma borrowed_inv op (l r h : HashHistogram A V) keys :
  NoDup keys -> hash_binop_borrowed op l r keys = Val (Ok h) ->
  hh_axes h = hh_axes l /\ axis_eqb (hh_axes l) (hh_axes r) = true
  /\ (forall i, i ∈ keys -> exists v, pair_op op (hh_values l) (hh_values r) i = Val v /\ hh_values h !! i = Some v)
  /\ (forall i, i ∉ keys -> hh_values h !! i = None).
Proof.
  intros Hnd Hb. unfold hash_binop_borrowed in Hb.
  destruct (axis_eqb (hh_axes l) (hh_axes r)) eqn:E; [|discriminate]. cbn [negb] in Hb.
  apply obind_val in Hb as [m [Hm Hb]]. injection Hb as <-. cbn [hh_axes hh_values].
  split; [reflexivity|]. split; [reflexivity|].
  pose proof (foldo_insert (fun i => i) (pair_op op (hh_values l) (hh_values r)) keys ∅ m) as HF.
  rewrite map_id in HF. destruct (HF Hnd Hm) as [H1 H2]. split; [exact H1|].
  intros i Hi. rewrite (H2 i Hi). apply lookup_empty.
Qed.

(** The same without assuming distinct keys (a later occurrence writes the same value). *)
Lemma borrowed_keys op (l r h : HashHistogram A V) keys :
  hash_binop_borrowed op l r keys = Val (Ok h) ->
  hh_axes h = hh_axes l /\ axis_eqb (hh_axes l) (hh_axes r) = true
  /\ forall i, is_Some (hh_values h !! i) -> i ∈ keys.
Proof.
  intros Hb. unfold hash_binop_borrowed in Hb.
  destruct (axis_eqb (hh_axes l) (hh_axes r)) eqn:E; [|discriminate]. cbn [negb] in Hb.
  apply obind_val in Hb as [m [Hm Hb]]. injection Hb as <-. cbn [hh_axes hh_values].
  split; [reflexivity|]. split; [reflexivity|].
  assert (Hgen : forall ks (m0 : gmap N V),
     foldo (fun (m : gmap N V) i => let! v := pair_op op (hh_values l) (hh_values r) i in Val (<[i := v]> m)) ks m0 = Val m ->
     forall i, is_Some (m !! i) -> is_Some (m0 !! i) \/ i ∈ ks).
  { clear. induction ks as [|k ks IH]; intros m0 Hf i Hi; cbn [foldo] in Hf.
    - injection Hf as <-. auto.
    - apply obind_val in Hf as [m1 [H1 Hf]]. apply obind_val in H1 as [v' [_ H1]]. injection H1 as <-.
      destruct (IH _ Hf i Hi) as [Hm|Hk]; [|right; now apply elem_of_list_further].
      destruct (decide (k = i)) as [->|Hne]; [right; apply elem_of_list_here|].
      rewrite lookup_insert_ne in Hm by exact Hne. auto. }
  intros i Hi. destruct (Hgen _ _ Hm i Hi) as [[v Hv]|]; [|assumption].
  rewrite lookup_empty in Hv. discriminate.
Qed.
End Merge.

(** ** [Iterator::all] *)
Lemma allo_true {X} (f : X -> outcome bool) l : allo f l = Val true <-> forall x, In x l -> f x = Val true.
Proof.
  induction l as [|y l IH]; cbn [allo].
  - split; [intros _ x [] | reflexivity].
  - split.
    + intros H. apply obind_val in H as [b [Hb H]]. destruct b; [|discriminate]. intros x [<-|Hx]; [exact Hb|]. exact (proj1 IH H x Hx).
    + intros H. rewrite (H y (or_introl eq_refl)). cbn [obind]. apply IH. intros x Hx. apply H. right. exact Hx.
Qed.
Lemma allo_pure {X} (f : X -> bool) (g : X -> outcome bool) l : (forall x, g x = Val (f x)) -> allo g l = Val (forallb f l).
Proof.
  intros Hg. induction l as [|y l IH]; cbn [allo forallb]; [reflexivity|]. rewrite Hg. cbn [obind]. rewrite IH. destruct (f y); reflexivity.
Qed.
