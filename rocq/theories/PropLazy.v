(** * Property theorems: partly consumed iterators (C63). *)
From stdpp Require Import gmap.
From Coq Require Import ZifyN ZifyNat ZifyBool Lia.
From Verif Require Import Base BaseFacts Num Axis Spec Uniform Category AxesSpec AxesFacts PropAxes PropCategory Value VecHist HashHist
  HistSpec HistFacts HashFacts PropHist PropHistIter Unwind Par Lazy.
Open Scope N_scope.

(** ** Specification *)

(** The course of a loop over an iterator of mutable references: [k] iterations were
    completed, [st j] is the program's state before iteration [j]. Iteration [j]
    got the [j]-th item and what its slot held at the start, and its slot now holds
    what the body computed; every iteration but the last went on. All other slots
    are as they were. The loop ended because there were no more items or the last
    iteration broke off; or because the next item or the body panicked. *)
Record loop_course {S X M V : Type} (mem : slots M V) (body : S -> X -> V -> outcome (S * V * bool)) (l : lazy (X * N))
  (s : S) (m : M) (r : after (S * M)) (k : nat) (st : nat -> S) : Prop := {
  lc_le : (k <= length l)%nat;
  lc_start : st 0%nat = s;
  lc_end : st k = fst (contents r);
  lc_done : forall j, (j < k)%nat -> exists x key v v' go,
    nth_error l j = Some (Val (x, key)) /\ slot_get mem m key = Some v
    /\ body (st j) x v = Val (st (Datatypes.S j), v', go) /\ slot_get mem (snd (contents r)) key = Some v'
    /\ (go = false -> Datatypes.S j = k /\ returned r = true);
  lc_rest : forall key, (forall j x, (j < k)%nat -> nth_error l j <> Some (Val (x, key))) ->
    slot_get mem (snd (contents r)) key = slot_get mem m key;
  lc_returned : returned r = true -> k = length l
    \/ exists j x key v v', k = Datatypes.S j /\ nth_error l j = Some (Val (x, key)) /\ slot_get mem m key = Some v
       /\ body (st j) x v = Val (st k, v', false);
  lc_unwound : returned r = false ->
    nth_error l k = Some Panic
    \/ exists x key v, nth_error l k = Some (Val (x, key)) /\ slot_get mem m key = Some v /\ body (st k) x v = Panic
}.

(** ** Proofs *)

Lemma mapo_map {X Y Z} (g : Y -> outcome Z) (f : X -> Y) l : mapo g (map f l) = mapo (fun x => g (f x)) l.
Proof. induction l as [|x l IH]; cbn [map mapo]; [reflexivity|]. rewrite IH. reflexivity. Qed.

Lemma collect_lazy_map {X Y} (f : X -> outcome Y) (l : lazy X) r : lazy_collect l = Val r -> lazy_collect (lazy_map f l) = mapo f r.
Proof.
  unfold lazy_collect, lazy_map. rewrite mapo_map. revert r. induction l as [|o l IH]; intros r Hr; cbn [mapo] in *.
  - injection Hr as <-. reflexivity.
  - apply obind_val in Hr as [x [-> Hr]]. apply obind_val in Hr as [xs [Hxs Hr]]. injection Hr as <-.
    cbn [obind mapo]. rewrite (IH xs Hxs). reflexivity.
Qed.
Lemma collect_lazy_map_panic {X Y} (f : X -> outcome Y) (l : lazy X) : lazy_collect l = Panic -> lazy_collect (lazy_map f l) = Panic.
Proof.
  unfold lazy_collect, lazy_map. rewrite mapo_map. induction l as [|o l IH]; cbn [mapo]; [discriminate|].
  destruct o as [x|]; [|reflexivity]. cbn [obind]. destruct (mapo (fun o => o) l) as [xs|] eqn:E; cbn [obind]; [discriminate|].
  intros _. rewrite (IH eq_refl). destruct (f x); reflexivity.
Qed.

Section Course.
Context {M V : Type} (mem : slots M V).
Context (get_set_eq : forall m k v, slot_get mem m k <> None -> slot_get mem (slot_set mem m k v) k = Some v).
Context (get_set_ne : forall m k k' v, k <> k' -> slot_get mem (slot_set mem m k v) k' = slot_get mem m k').

Fixpoint keys_of {X} (l : lazy (X * N)) : list N :=
  match l with [] => [] | Val (_, k) :: l' => k :: keys_of l' | Panic :: l' => keys_of l' end.
Lemma keys_of_in {X} (l : lazy (X * N)) j x key : nth_error l j = Some (Val (x, key)) -> key ∈ keys_of l.
Proof.
  revert j. induction l as [|[[y k]|] l IH]; intros [|j] Hj; try discriminate; cbn in Hj; cbn [keys_of].
  - injection Hj as -> ->. left.
  - right. eapply IH; eauto.
  - eapply IH; eauto.
Qed.

Lemma course {S X} (body : S -> X -> V -> outcome (S * V * bool)) (l : lazy (X * N)) : forall s m,
  NoDup (keys_of l) -> (forall key, key ∈ keys_of l -> slot_get mem m key <> None) ->
  exists k st, loop_course mem body l s m (for_loop_mut mem body l s m) k st.
Proof.
  induction l as [|[[x key]|] l IH]; intros s m Hnd Hk.
  - exists 0%nat, (fun _ => s). constructor; cbn; try reflexivity; try lia; try discriminate.
  - cbn [for_loop_mut keys_of] in *. apply NoDup_cons in Hnd as [Hnin Hnd].
    destruct (slot_get mem m key) as [v|] eqn:Ev; [|exfalso; apply (Hk key); [left|exact Ev]].
    destruct (body s x v) as [[[s' v'] []]|] eqn:Eb.
    + assert (Hk' : forall key0, key0 ∈ keys_of l -> slot_get mem (slot_set mem m key v') key0 <> None).
      { intros key0 Hin. rewrite get_set_ne by congruence. apply Hk. right. exact Hin. }
      destruct (IH s' (slot_set mem m key v') Hnd Hk') as [k [st [H1 H2 H3 H4 H5 H6 H7]]].
      assert (Hold : forall j x key0, nth_error l j = Some (Val (x, key0)) -> slot_get mem (slot_set mem m key v') key0 = slot_get mem m key0).
      { intros j y key0 Hj. apply get_set_ne. intros ->. apply Hnin. eapply keys_of_in; eauto. }
      exists (Datatypes.S k), (fun j => match j with O => s | Datatypes.S j => st j end). constructor.
      * cbn. lia.
      * reflexivity.
      * exact H3.
      * intros [|j] Hj.
        -- exists x, key, v, v', true. split; [reflexivity|]. split; [exact Ev|]. split; [rewrite H2; exact Eb|].
           split; [|discriminate]. rewrite H5.
           ++ apply get_set_eq. rewrite Ev. discriminate.
           ++ intros j y Hj' Hn. apply Hnin. eapply keys_of_in; eauto.
        -- destruct (H4 j) as [y [key0 [w [w' [go [Hn [Hg [Hb [Hg' Hgo]]]]]]]]]; [lia|].
           exists y, key0, w, w', go. split; [exact Hn|]. split; [rewrite <- (Hold j y key0 Hn); exact Hg|].
           split; [exact Hb|]. split; [exact Hg'|]. intros Hf. destruct (Hgo Hf) as [<- Hr]. auto.
      * intros key0 Hno. rewrite H5.
        -- apply get_set_ne. intros ->. apply (Hno 0%nat x); [lia|reflexivity].
        -- intros j y Hj Hn. apply (Hno (Datatypes.S j) y); [lia|exact Hn].
      * intros Hr. destruct (H6 Hr) as [->|[j [y [key0 [w [w' [-> [Hn [Hg Hb]]]]]]]]]; [left; reflexivity|right].
        exists (Datatypes.S j), y, key0, w, w'. split; [reflexivity|]. split; [exact Hn|]. split; [rewrite <- (Hold j y key0 Hn); exact Hg|exact Hb].
      * intros Hr. destruct (H7 Hr) as [Hn|[y [key0 [w [Hn [Hg Hb]]]]]]; [left; exact Hn|right].
        exists y, key0, w. split; [exact Hn|]. split; [rewrite <- (Hold _ y key0 Hn); exact Hg|exact Hb].
    + exists 1%nat, (fun j => match j with O => s | Datatypes.S _ => s' end). constructor; cbn [contents returned fst snd length nth_error]; try reflexivity; try lia; try discriminate.
      * intros [|j] Hj; [|lia]. exists x, key, v, v', false. split; [reflexivity|]. split; [exact Ev|]. split; [exact Eb|].
        split; [apply get_set_eq; rewrite Ev; discriminate|auto].
      * intros key0 Hno. apply get_set_ne. intros ->. apply (Hno 0%nat x); [lia|reflexivity].
      * intros _. right. exists 0%nat, x, key, v, v'. auto.
    + exists 0%nat, (fun _ => s). constructor; cbn [contents returned fst snd length nth_error]; try reflexivity; try lia; try discriminate.
      intros _. right. exists x, key, v. auto.
  - exists 0%nat, (fun _ => s). constructor; cbn; try reflexivity; try lia; try discriminate. intros _. left. reflexivity.
Qed.
End Course.

Lemma vec_get_set_eq {V} (m : list V) k v : slot_get vec_slots m k <> None -> slot_get vec_slots (slot_set vec_slots m k v) k = Some v.
Proof.
  cbn. generalize (N.to_nat k). clear k. induction m as [|x m IH]; intros [|k] H; cbn in *; try congruence. apply IH. exact H.
Qed.
Lemma vec_get_set_ne {V} (m : list V) k k' v : k <> k' -> slot_get vec_slots (slot_set vec_slots m k v) k' = slot_get vec_slots m k'.
Proof.
  cbn. intros H. assert (N.to_nat k <> N.to_nat k') as H' by lia. clear H. revert H'. generalize (N.to_nat k) (N.to_nat k'). clear k k'.
  induction m as [|x m IH]; intros [|k] [|k'] H; cbn; try reflexivity; try congruence. apply IH. congruence.
Qed.
Lemma hash_get_set_eq {V} (m : gmap N V) k v : slot_get hash_slots m k <> None -> slot_get hash_slots (slot_set hash_slots m k v) k = Some v.
Proof. cbn. intros _. apply lookup_insert. Qed.
Lemma hash_get_set_ne {V} (m : gmap N V) k k' v : k <> k' -> slot_get hash_slots (slot_set hash_slots m k v) k' = slot_get hash_slots m k'.
Proof. cbn. apply lookup_insert_ne. Qed.

Lemma range_nth n j : (j < N.to_nat n)%nat -> nth_error (range n) j = Some (N.of_nat j).
Proof.
  intros Hj. unfold range. rewrite nth_error_map. rewrite (nth_error_nth' _ 0%nat) by (rewrite seq_length; exact Hj).
  rewrite seq_nth by exact Hj. reflexivity.
Qed.
Lemma range_len n : length (range n) = N.to_nat n.
Proof. unfold range. rewrite map_length, seq_length. reflexivity. Qed.

(** The items of the dense mutable iterator. *)
Lemma vec_mut_items A V (AX : Axis A) (h : VecHistogram A V) n :
  has_bins AX (vh_axes h) n -> N.of_nat (length (vec_values h)) = n ->
  exists l, vec_iter_mut_lazy h = Val l /\ length l = length (vec_values h)
    /\ forall j, (j < length (vec_values h))%nat -> exists b, bin (vh_axes h) (N.of_nat j) = Val (Some b)
         /\ nth_error l j = Some (Val ((N.of_nat j, b), N.of_nat j)).
Proof.
  intros [Hn Hb] Hlen. unfold vec_iter_mut_lazy, axis_iter_lazy, indices. rewrite Hn. cbn [obind]. unfold vec_values in *. rewrite Hlen.
  eexists. split; [reflexivity|].
  assert (G : forall is, (forall i, In i is -> i < n) ->
     let L := lazy_zip (map (fun it => let! b := bin (vh_axes h) it in let! b' := expect b in Val (it, b')) is) (map Val is) in
     length L = length is /\ forall j i, nth_error is j = Some i -> exists b, bin (vh_axes h) i = Val (Some b) /\ nth_error L j = Some (Val ((i, b), i))).
  { induction is as [|i is IH]; intros Hi; cbn [map lazy_zip].
    - split; [reflexivity|]. intros [|j] i H; discriminate.
    - destruct (Hb i (Hi i (or_introl eq_refl))) as [b Eb]. rewrite Eb. cbn [obind expect lazy_zip length].
      destruct (IH (fun i' H => Hi i' (or_intror H))) as [H1 H2]. split; [rewrite H1; reflexivity|].
      intros [|j] i' H; cbn in H.
      + injection H as <-. exists b. split; [exact Eb|reflexivity].
      + apply H2. exact H. }
  destruct (G (range n)) as [G1 G2].
  { intros i Hi. unfold range in Hi. apply in_map_iff in Hi as [j [<- Hj]]. apply in_seq in Hj. lia. }
  split; [rewrite G1, range_len; lia|]. intros j Hj. apply G2. apply range_nth. lia.
Qed.

Lemma keys_of_all {X} (l : lazy (X * N)) (f : nat -> N) :
  (forall j, (j < length l)%nat -> exists x, nth_error l j = Some (Val (x, f j))) -> keys_of l = map f (seq 0 (length l)).
Proof.
  revert f. induction l as [|o l IH]; intros f Hf; [reflexivity|].
  destruct (Hf 0%nat) as [x Hx]; [cbn; lia|]. cbn in Hx. injection Hx as ->. cbn [keys_of length seq map].
  f_equal. rewrite (IH (fun j => f (S j))).
  - rewrite <- seq_shift, map_map. reflexivity.
  - intros j Hj. apply (Hf (S j)). cbn. lia.
Qed.

(** ** Theorems *)

(** Consumed to the end, the lazy iterators are the ones of the other properties. *)
Theorem C63_lazy_model_agrees : forall A V (AX : Axis A),
  (forall a : A, (let! l := axis_iter_lazy a in lazy_collect l) = axis_iter a)
  /\ (forall a : A, (let! l := axis_bins_lazy a in lazy_collect l) = axis_bins a)
  /\ (forall h : VecHistogram A V, (let! l := vec_iter_lazy h in lazy_collect l) = vec_iter h)
  /\ (forall (h : HashHistogram A V) order, lazy_collect (hash_iter_lazy h order) = hash_iter h order).
Proof.
  intros A V AX. split; [|split; [|split]].
  - intros a. unfold axis_iter_lazy, axis_iter. destruct (indices a) as [is|]; [|reflexivity]. cbn [obind].
    unfold lazy_collect. apply mapo_map.
  - intros a. unfold axis_bins_lazy, axis_bins. destruct (indices a) as [is|]; [|reflexivity]. cbn [obind].
    unfold lazy_collect. apply mapo_map.
  - intros h. unfold vec_iter_lazy, vec_iter.
    assert (E : (let! l := axis_iter_lazy (vh_axes h) in lazy_collect l) = axis_iter (vh_axes h)).
    { unfold axis_iter_lazy, axis_iter. destruct (indices (vh_axes h)) as [is|]; [|reflexivity]. cbn [obind]. unfold lazy_collect. apply mapo_map. }
    destruct (axis_iter_lazy (vh_axes h)) as [l|]; cbn [obind] in *; [|rewrite <- E; reflexivity].
    rewrite <- E. destruct (lazy_collect l) as [r|] eqn:Er; cbn [obind]; [apply collect_lazy_map; exact Er|apply collect_lazy_map_panic; exact Er].
  - intros h order. unfold lazy_collect, hash_iter_lazy, hash_iter. apply mapo_map.
Qed.
Print Assumptions C63_lazy_model_agrees.

(** [iter().take(k)]: only the first [k] bins are computed. Even if a later bin
    would panic, the first [k] items are the right ones. *)
Theorem C63_take : forall A V (AX : Axis A) (h : VecHistogram A V) n k,
  num_bins (vh_axes h) = Val n -> N.of_nat (length (vec_values h)) = n -> N.of_nat k <= n ->
  (forall i, i < N.of_nat k -> exists b, bin (vh_axes h) i = Val (Some b)) ->
  exists l items, vec_iter_lazy h = Val l /\ length l = N.to_nat n /\ lazy_collect (lazy_take k l) = Val items
  /\ length items = k
  /\ forall j it, nth_error items j = Some it ->
       it_index it = N.of_nat j /\ bin (vh_axes h) (N.of_nat j) = Val (Some (it_bin it))
       /\ vec_value_at_index h (N.of_nat j) = Some (it_value it).
Proof.
  intros A V AX h n k Hn Hlen Hk Hb. unfold vec_iter_lazy, axis_iter_lazy, indices. rewrite Hn. cbn [obind].
  set (l := lazy_map _ _). exists l.
  assert (Hl : length l = N.to_nat n) by (unfold l, lazy_map; rewrite !map_length; apply range_len).
  assert (Hnth : forall j, (j < k)%nat -> exists it, nth_error l j = Some (Val it)
      /\ it_index it = N.of_nat j /\ bin (vh_axes h) (N.of_nat j) = Val (Some (it_bin it)) /\ vec_value_at_index h (N.of_nat j) = Some (it_value it)).
  { intros j Hj. destruct (Hb (N.of_nat j)) as [b Eb]; [lia|].
    assert (exists v, vec_value_at_index h (N.of_nat j) = Some v) as [v Ev].
    { unfold vec_value_at_index, vec_values in *. destruct (nth_error (vh_values h) (N.to_nat (N.of_nat j))) eqn:E; [eauto|].
      apply nth_error_None in E. lia. }
    exists (mkItem (N.of_nat j) b v). split; [|auto].
    unfold l, lazy_map. rewrite !nth_error_map, range_nth by lia. cbn [option_map obind]. rewrite Eb. cbn [obind expect fst snd]. rewrite Ev. reflexivity. }
  assert (G : forall (l : lazy (Item Interval V)) k, (forall j, (j < k)%nat -> exists it, nth_error l j = Some (Val it)) ->
     exists items, lazy_collect (lazy_take k l) = Val items /\ length items = k /\ forall j it, nth_error items j = Some it -> nth_error l j = Some (Val it)).
  { clear. induction l as [|o l IH]; intros k Hk.
    - destruct k; [|destruct (Hk 0%nat) as [? ?]; [lia|discriminate]]. exists []. split; [reflexivity|]. split; [reflexivity|]. intros [|j] it; discriminate.
    - destruct k as [|k]; [exists []; split; [reflexivity|]; split; [reflexivity|]; intros [|j] it; discriminate|].
      destruct (Hk 0%nat) as [it Hit]; [lia|]. cbn in Hit. injection Hit as ->.
      destruct (IH k) as [items [H1 [H2 H3]]]. { intros j Hj. apply (Hk (S j)). lia. }
      exists (it :: items). unfold lazy_collect, lazy_take in *. cbn [firstn mapo obind]. rewrite H1. split; [reflexivity|].
      split; [cbn; lia|]. intros [|j] it' H; cbn in *; [congruence|auto]. }
  destruct (G l k) as [items [H1 [H2 H3]]]. { intros j Hj. destruct (Hnth j Hj) as [it [E _]]. eauto. }
  exists items. split; [reflexivity|]. split; [exact Hl|]. split; [exact H1|]. split; [exact H2|].
  intros j it Hj. assert (j < k)%nat by (rewrite <- H2; apply nth_error_Some; congruence).
  destruct (Hnth j H) as [it' [E P]]. rewrite (H3 j it Hj) in E. injection E as <-. exact P.
Qed.
Print Assumptions C63_take.

(** A [for] loop over a dense histogram, with any body, visits the items in order
    up to the first [break] or panic of the body, and no further. *)
Theorem C63_for_loop : forall A V (AX : Axis A) (h : VecHistogram A V) n,
  has_bins AX (vh_axes h) n -> N.of_nat (length (vec_values h)) = n ->
  exists l items, vec_iter_lazy h = Val l /\ vec_iter h = Val items /\ l = map Val items
  /\ forall S (body : S -> Item Interval V -> outcome (S * bool)) (s : S),
     exists (k : nat) (st : nat -> S),
       st 0%nat = s /\ st k = contents (for_loop body l s)
       /\ (forall j, (j < k)%nat -> exists it go, nth_error items j = Some it /\ body (st j) it = Val (st (Datatypes.S j), go)
             /\ (go = false -> Datatypes.S j = k /\ returned (for_loop body l s) = true))
       /\ (returned (for_loop body l s) = true ->
             k = length items \/ exists j it, k = Datatypes.S j /\ nth_error items j = Some it /\ body (st j) it = Val (st k, false))
       /\ (returned (for_loop body l s) = false -> exists it, nth_error items k = Some it /\ body (st k) it = Panic).
Proof.
  intros A V AX h n Hh Hlen. pose proof Hh as [Hn Hb].
  destruct (C63_take A V AX h n (N.to_nat n) Hn Hlen) as [l [items [Hl [Hll [Hc [Hi _]]]]]]; [lia|intros; apply Hb; lia|].
  exists l, items. unfold lazy_take in Hc. rewrite firstn_all2 in Hc by lia.
  split; [exact Hl|]. split; [|assert (E : l = map Val items); [|split; [exact E|]]].
  - rewrite <- (proj1 (proj2 (proj2 (C63_lazy_model_agrees A V AX))) h), Hl. exact Hc.
  - unfold lazy_collect in Hc. apply mapo_inv in Hc. clear Hl Hll Hi. induction Hc as [|o it l items -> _ IH]; [reflexivity|]. cbn [map]. congruence.
  - rewrite E. clear. intros S body. induction items as [|it items IH]; intros s.
    + exists 0%nat, (fun _ => s). cbn. split; [reflexivity|]. split; [reflexivity|]. split; [intros; lia|]. split; [auto|discriminate].
    + cbn [map for_loop]. destruct (body s it) as [[s' []]|] eqn:Eb.
      * destruct (IH s') as [k [st [H1 [H2 [H3 [H4 H5]]]]]].
        exists (Datatypes.S k), (fun j => match j with O => s | Datatypes.S j => st j end).
        split; [reflexivity|]. split; [exact H2|]. split; [|split].
        -- intros [|j] Hj.
           ++ exists it, true. split; [reflexivity|]. split; [rewrite H1; exact Eb|discriminate].
           ++ destruct (H3 j) as [x [go [Hx [Hy Hz]]]]; [lia|]. exists x, go. split; [exact Hx|]. split; [exact Hy|].
              intros Hg. destruct (Hz Hg) as [<- Hr]. auto.
        -- intros Hr. destruct (H4 Hr) as [->|[j [x [-> [Hx Hy]]]]]; [left; reflexivity|right]. exists (Datatypes.S j), x. auto.
        -- intros Hr. destruct (H5 Hr) as [x [Hx Hy]]. exists x. auto.
      * exists 1%nat, (fun j => match j with O => s | Datatypes.S _ => s' end). cbn [contents returned].
        split; [reflexivity|]. split; [reflexivity|]. split; [|split; [|discriminate]].
        -- intros [|j] Hj; [|lia]. exists it, false. auto.
        -- intros _. right. exists 0%nat, it. auto.
      * exists 0%nat, (fun _ => s). cbn [contents returned]. split; [reflexivity|]. split; [reflexivity|]. split; [intros; lia|].
        split; [discriminate|]. intros _. exists it. auto.
Qed.
Print Assumptions C63_for_loop.

(** A [for] loop over [iter_mut()] of a dense histogram: the bins are visited in
    order, each with its own bin and value; a [break], a panic in the body, or the
    end leave the visited bins updated and the others untouched. *)
Theorem C63_vec_iter_mut_loop : forall A V (AX : Axis A) (h : VecHistogram A V) n,
  has_bins AX (vh_axes h) n -> N.of_nat (length (vec_values h)) = n ->
  exists l, vec_iter_mut_lazy h = Val l /\ length l = N.to_nat n
  /\ (forall j, (j < N.to_nat n)%nat -> exists b, bin (vh_axes h) (N.of_nat j) = Val (Some b)
        /\ nth_error l j = Some (Val ((N.of_nat j, b), N.of_nat j)))
  /\ forall S (body : S -> N * Interval -> V -> outcome (S * V * bool)) (s : S),
     exists k st, loop_course vec_slots body l s (vec_values h) (for_loop_mut vec_slots body l s (vec_values h)) k st
     /\ forall i, N.of_nat k <= i -> nth_error (snd (contents (for_loop_mut vec_slots body l s (vec_values h)))) (N.to_nat i) = vec_value_at_index h i.
Proof.
  intros A V AX h n Hh Hlen. destruct (vec_mut_items A V AX h n Hh Hlen) as [l [Hl [Hll Hnth]]].
  exists l. split; [exact Hl|]. split; [lia|]. split; [intros j Hj; apply Hnth; lia|]. intros S body s.
  assert (Hkeys : keys_of l = map N.of_nat (seq 0 (length l))).
  { apply keys_of_all. intros j Hj. destruct (Hnth j) as [b [_ Hb]]; [lia|]. eauto. }
  destruct (course (V := V) vec_slots vec_get_set_eq vec_get_set_ne body l s (vec_values h)) as [k [st C]].
  - rewrite Hkeys. apply NoDup_fmap_2; [intros a b; apply Nat2N.inj|]. apply NoDup_seq.
  - intros key Hin. rewrite Hkeys in Hin. apply elem_of_list_In, in_map_iff in Hin as [j [<- Hj]]. apply in_seq in Hj.
    cbn. rewrite Nat2N.id. apply nth_error_Some. lia.
  - exists k, st. split; [exact C|]. intros i Hi. apply (lc_rest _ _ _ _ _ _ _ _ C).
    intros j x Hj Hn. destruct (Hnth j) as [b [_ Hb]]; [pose proof (lc_le _ _ _ _ _ _ _ _ C); lia|].
    rewrite Hb in Hn. injection Hn as _ Hn. lia.
Qed.
Print Assumptions C63_vec_iter_mut_loop.

(** The same for sparse histograms, in any iteration order, even if some bins
    panic: filled bins that were not visited, and all unfilled ones, are untouched. *)
Theorem C63_hash_iter_mut_loop : forall A V (AX : Axis A) (h : HashHistogram A V) order,
  an_order (hh_values h) order ->
  forall S (body : S -> N * Interval -> V -> outcome (S * V * bool)) (s : S),
  let l := hash_iter_mut_lazy h order in
  let r := for_loop_mut hash_slots body l s (hash_as_map h) in
  length l = length order
  /\ (forall j x key, nth_error l j = Some (Val (x, key)) -> fst x = key /\ bin (hh_axes h) key = Val (Some (snd x))
        /\ exists v, nth_error order j = Some (key, v))
  /\ (exists k st, loop_course hash_slots body l s (hash_as_map h) r k st)
  /\ (forall i, hash_value_at_index h i = None -> snd (contents r) !! i = None).
Proof.
  intros A V AX h order Ho S body s l r.
  assert (Hitem : forall j x key, nth_error l j = Some (Val (x, key)) -> fst x = key /\ bin (hh_axes h) key = Val (Some (snd x))
        /\ exists v, nth_error order j = Some (key, v)).
  { intros j x key Hj. unfold l, hash_iter_mut_lazy in Hj. rewrite nth_error_map in Hj.
    destruct (nth_error order j) as [[i v]|] eqn:E; [|discriminate]. cbn [option_map fst] in Hj. injection Hj as Hj.
    apply obind_val in Hj as [ob [Hob Hj]]. apply obind_val in Hj as [b [Hb Hj]]. injection Hj as <- <-.
    destruct ob as [b'|]; [|discriminate]. cbn in Hb. injection Hb as <-. cbn. eauto. }
  assert (Hsub : forall key, key ∈ keys_of l -> key ∈ map fst order).
  { unfold l, hash_iter_mut_lazy. clear. induction order as [|[i v] order IH]; intros key Hk; [exact Hk|].
    cbn [map keys_of fst] in *. destruct (bin (hh_axes h) i) as [[b|]|]; cbn [obind expect keys_of] in Hk.
    - apply elem_of_cons in Hk as [->|Hk]; [left|right; auto].
    - right. auto.
    - right. auto. }
  assert (Hnd : NoDup (keys_of l)).
  { pose proof (order_NoDup _ _ Ho) as Hnd. unfold l, hash_iter_mut_lazy. clear -Hnd. induction order as [|[i v] order IH]; [constructor|].
    cbn [map fst] in Hnd. apply NoDup_cons in Hnd as [Hi Hnd]. specialize (IH Hnd).
    cbn [map keys_of fst]. destruct (bin (hh_axes h) i) as [[b|]|]; cbn [obind expect keys_of]; [|exact IH|exact IH].
    apply NoDup_cons. split; [|exact IH]. intros Hin. apply Hi. clear -Hin. induction order as [|[j w] order IH]; [exact Hin|].
    cbn [map keys_of fst] in *. destruct (bin (hh_axes h) j) as [[b'|]|]; cbn [obind expect keys_of] in Hin.
    - apply elem_of_cons in Hin as [->|Hk]; [left|right; auto].
    - right. auto.
    - right. auto. }
  assert (Hin : forall key, key ∈ keys_of l -> is_Some (hh_values h !! key)).
  { intros key Hk. apply (order_key _ order _ Ho). apply Hsub. exact Hk. }
  destruct (course (V := V) hash_slots hash_get_set_eq hash_get_set_ne body l s (hash_as_map h) Hnd) as [k [st C]].
  { intros key Hk. cbn. destruct (Hin key Hk) as [v Hv]. unfold hash_as_map. rewrite Hv. discriminate. }
  split; [unfold l, hash_iter_mut_lazy; apply map_length|]. split; [exact Hitem|]. split; [exists k, st; exact C|].
  intros i Hi. rewrite <- Hi. apply (lc_rest _ _ _ _ _ _ _ _ C i).
  intros j x Hj Hn. destruct (Hitem j x i Hn) as [_ [_ [v Hv]]].
  assert (Hx : is_Some (hh_values h !! i)).
  { apply (order_key _ order _ Ho). apply elem_of_list_In. apply in_map_iff. exists (i, v). split; [reflexivity|]. eapply nth_error_In; eauto. }
  unfold hash_value_at_index in Hi. rewrite Hi in Hx. destruct Hx; discriminate.
Qed.
Print Assumptions C63_hash_iter_mut_loop.

(** Zipping the iterators of two dense histograms with as many bins pairs up the
    same bin numbers. *)
Theorem C63_zip_histograms : forall A A' V V' (AX : Axis A) (AX' : Axis A') (h : VecHistogram A V) (h' : VecHistogram A' V') n,
  has_bins AX (vh_axes h) n -> N.of_nat (length (vec_values h)) = n ->
  has_bins AX' (vh_axes h') n -> N.of_nat (length (vec_values h')) = n ->
  exists l l' pairs, vec_iter_lazy h = Val l /\ vec_iter_lazy h' = Val l' /\ lazy_collect (lazy_zip l l') = Val pairs
  /\ N.of_nat (length pairs) = n
  /\ forall j x y, nth_error pairs j = Some (x, y) ->
       it_index x = N.of_nat j /\ it_index y = N.of_nat j
       /\ vec_value_at_index h (N.of_nat j) = Some (it_value x) /\ vec_value_at_index h' (N.of_nat j) = Some (it_value y).
Proof.
  intros A A' V V' AX AX' h h' n H1 L1 H2 L2.
  destruct (C63_for_loop A V AX h n H1 L1) as [l [items [E1 [I1 [-> _]]]]].
  destruct (C63_for_loop A' V' AX' h' n H2 L2) as [l' [items' [E2 [I2 [-> _]]]]].
  destruct (C32_vec_iter A V AX h n H1 L1) as [items0 [J1 [K1 [N1 _]]]]. rewrite I1 in J1. injection J1 as <-.
  destruct (C32_vec_iter A' V' AX' h' n H2 L2) as [items0' [J2 [K2 [N2 _]]]]. rewrite I2 in J2. injection J2 as <-.
  exists (map Val items), (map Val items'), (combine items items'). split; [exact E1|]. split; [exact E2|]. split; [|split].
  - clear. revert items'. induction items as [|x items IH]; intros [|y items']; try reflexivity.
    cbn [map lazy_zip obind combine]. unfold lazy_collect in *. cbn [mapo obind]. rewrite IH. reflexivity.
  - rewrite combine_length. lia.
  - intros j x y Hj.
    assert (Hx : nth_error items j = Some x /\ nth_error items' j = Some y).
    { clear -Hj. revert items' j Hj. induction items as [|a items IH]; intros [|b items'] [|j] Hj; cbn in *; try discriminate; [injection Hj as -> ->; auto|auto]. }
    destruct Hx as [Hx Hy]. destruct (N1 j x Hx) as [X1 [_ X2]]. destruct (N2 j y Hy) as [Y1 [_ Y2]]. auto.
Qed.
Print Assumptions C63_zip_histograms.

(** An accepted i16 axis of 300 unit bins in a checked build: consuming the iterator
    to the end panics (bin 110 overflows, see C02), [take(100)] does not; and a loop that adds
    10 to every bin of a 4-bin histogram until it has seen bin 1 leaves [10; 11; 2; 3] of [0; 1; 2; 3]. *)
Example C63_nonvacuous :
  let B := {| overflow_checks := true; target_width := P64 |} in
  let AX := @uniform_axis B Z (@int_ops B (signed 16)) in
  let h := mkVecHist (mkUniform 300 0 300 1)%Z (repeat 0%Z 302) in
  num_bins (Axis := AX) (vh_axes h) = Val 302
  /\ (forall i, i < N.of_nat 100 -> exists b, bin (Axis := AX) (vh_axes h) i = Val (Some b))
  /\ vec_iter (AX := AX) h = Panic
  /\ (let a := (mkUniform 2 0 2 1)%Z in
      exists l, vec_iter_mut_lazy (AX := AX) (mkVecHist a [0; 1; 2; 3]%Z) = Val l
      /\ for_loop_mut vec_slots (fun (seen : N) (x : N * BinInterval Z) (v : Z) => Val (fst x, (v + 10)%Z, fst x <? 1)) l 7 [0; 1; 2; 3]%Z
         = Returned (1, [10; 11; 2; 3]%Z)).
Proof.
  split; [vm_compute; reflexivity|]. split; [|split; [vm_compute; reflexivity|]].
  - intros i Hi.
    assert (H : forallb (fun j => match @uniform_bin {| overflow_checks := true; target_width := P64 |} Z (@int_ops {| overflow_checks := true; target_width := P64 |} (signed 16)) (mkUniform 300 0 300 1)%Z j with
                                  | Val (Some _) => true | _ => false end) (range 100) = true) by (vm_compute; reflexivity).
    rewrite forallb_forall in H. specialize (H i). cbn [bin uniform_axis vh_axes].
    destruct (uniform_bin _ _ i) as [[b|]|]; [exists b; reflexivity|exfalso..]; (enough (In i (range 100)) by (specialize (H H0); discriminate));
      unfold range; apply in_map_iff; exists (N.to_nat i); (split; [lia|apply in_seq; lia]).
  - eexists. split; vm_compute; reflexivity.
Qed.
