(** * PropCaughtLoops: what interrupted [values_mut] and [iter_mut] loops and
      interrupted assignments leave behind, for closures and bin value operators with
      arbitrary partial effects (C71), and a [bin] that panics during [iter_mut] (C63). *)
From stdpp Require Import gmap.
From Coq Require Import ZifyN ZifyNat Lia.
From Verif Require Import Base BaseFacts Num IntFacts Axis Uniform Spec AxesSpec AxesFacts Category Value VecHist HashHist HistSpec HistFacts HashFacts
  OpsFacts PropCategory PropHist PropHistIter PropOrder Unwind PropUnwind Caught PropCaught Lazy PropLazy.
Open Scope N_scope.

(** A loop over the slots [old] of which [item] [k] was the one a panic unwound
    through, leaving [new]: slots before it hold what the body stored, its slot
    holds what the body had stored so far, later slots are untouched. *)
Definition interrupted_at {V} (body : nat -> V -> after V) (old new : list V) (k : nat) : Prop :=
  length new = length old
  /\ (forall j, (j < k)%nat -> exists v v', nth_error old j = Some v /\ body j v = Returned v' /\ nth_error new j = Some v')
  /\ (exists v v', nth_error old k = Some v /\ body k v = Unwound v' /\ nth_error new k = Some v')
  /\ (forall j, (k < j)%nat -> nth_error new j = nth_error old j).

(** The same when it was computing the item that panicked, before the body ran. *)
Definition interrupted_before {V} (body : nat -> V -> after V) (old new : list V) (k : nat) : Prop :=
  length new = length old
  /\ (forall j, (j < k)%nat -> exists v v', nth_error old j = Some v /\ body j v = Returned v' /\ nth_error new j = Some v')
  /\ (forall j, (k <= j)%nat -> nth_error new j = nth_error old j).

Lemma interrupted_cons {V} (body : nat -> V -> after V) x x' old new k :
  body 0%nat x = Returned x' -> interrupted_at (fun j => body (S j)) old new k -> interrupted_at body (x :: old) (x' :: new) (S k).
Proof.
  intros Hx (Hl & Hb & Hk & Ha). unfold interrupted_at. cbn [length]. split; [lia|]. split; [|split; [exact Hk|]].
  - intros [|j] Hj; [exists x, x'; auto | apply Hb; lia].
  - intros [|j] Hj; [lia | apply Ha; lia].
Qed.
Lemma interrupted_before_cons {V} (body : nat -> V -> after V) x x' old new k :
  body 0%nat x = Returned x' -> interrupted_before (fun j => body (S j)) old new k -> interrupted_before body (x :: old) (x' :: new) (S k).
Proof.
  intros Hx (Hl & Hb & Ha). unfold interrupted_before. cbn [length]. split; [lia|]. split.
  - intros [|j] Hj; [exists x, x'; auto | apply Hb; lia].
  - intros [|j] Hj; [lia | apply Ha; lia].
Qed.
Lemma interrupted_here {V} (body : nat -> V -> after V) x x' old :
  body 0%nat x = Unwound x' -> interrupted_at body (x :: old) (x' :: old) 0.
Proof.
  intros Hx. split; [reflexivity|]. split; [lia|]. split; [exists x, x'; auto|]. intros [|j] Hj; [lia | reflexivity].
Qed.

Lemma each_u_interrupted {V} (f : V -> after V) l l' : each_u f l = Unwound l' -> exists k, interrupted_at (fun _ => f) l l' k.
Proof.
  revert l'. induction l as [|x l IH]; intros l'; cbn [each_u]; [discriminate|]. destruct (f x) as [x'|x'] eqn:Ex.
  - destruct (each_u f l) as [r|r]; cbn [in_part]; [discriminate|]. intros [= <-]. destruct (IH r eq_refl) as [k Hk].
    exists (S k). exact (interrupted_cons (fun _ => f) x x' l r k Ex Hk).
  - intros [= <-]. exists 0%nat. exact (interrupted_here (fun _ => f) x x' l Ex).
Qed.

Lemma zip_update_interrupted {A V} {AX : Axis A} (a : A) (f : N -> Interval -> V -> after V) is : forall vs vs' : list V,
  (length vs <= length is)%nat -> zip_update_u a f is vs = Unwound vs' ->
  exists k i, nth_error is k = Some i
  /\ let body j v := match nth_error is j with
                     | Some i => match item_bin a i with Val b => f i b v | Panic => Unwound v end
                     | None => Unwound v
                     end in
     (item_bin a i = Panic /\ interrupted_before body vs vs' k)
     \/ (exists b, item_bin a i = Val b /\ interrupted_at body vs vs' k).
Proof.
  induction is as [|i is IH]; intros vs vs' Hlen; cbn [zip_update_u]; [discriminate|].
  destruct (item_bin a i) as [b|] eqn:Ei.
  - destruct vs as [|v vs]; [discriminate|]. cbn [length] in Hlen. destruct (f i b v) as [v'|v'] eqn:Ef.
    + destruct (zip_update_u a f is vs) as [r|r] eqn:Er; cbn [in_part]; [discriminate|]. intros [= <-].
      destruct (IH vs r ltac:(lia) Er) as (k & i' & Hi & H). exists (S k), i'. split; [exact Hi|]. cbv zeta in *.
      destruct H as [[Hp H] | (b' & Hb & H)]; [left; split; [exact Hp|] | right; exists b'; split; [exact Hb|]].
      * apply interrupted_before_cons; [cbn [nth_error]; rewrite Ei; exact Ef | exact H].
      * apply interrupted_cons; [cbn [nth_error]; rewrite Ei; exact Ef | exact H].
    + intros [= <-]. exists 0%nat, i. split; [reflexivity|]. right. exists b. split; [exact Ei|]. apply interrupted_here. cbn [nth_error]. rewrite Ei. exact Ef.
  - intros [= <-]. exists 0%nat, i. split; [reflexivity|]. left. split; [exact Ei|]. split; [reflexivity|]. split; [lia | reflexivity].
Qed.

Lemma zip_assign_interrupted {V} (op : V -> V -> after V) l : forall r l', zip_assign_u op l r = Unwound l' ->
  exists k, interrupted_at (fun j v => match nth_error r j with Some y => op v y | None => Unwound v end) l l' k.
Proof.
  induction l as [|x l IH]; intros [|y r] l'; cbn [zip_assign_u]; try discriminate. destruct (op x y) as [z|z] eqn:Ez.
  - destruct (zip_assign_u op l r) as [q|q] eqn:Eq; cbn [in_part]; [discriminate|]. intros [= <-]. destruct (IH r q Eq) as [k Hk].
    exists (S k). apply interrupted_cons; [exact Ez | exact Hk].
  - intros [= <-]. exists 0%nat. apply interrupted_here. exact Ez.
Qed.

(** C71. Dense histograms, if a panic interrupts [for v in h.values_mut()],
    [for item in h.iter_mut()] or [l op= &r]: axes and number of bins stay, bins before
    the one it struck hold the new values, that bin holds what had been stored
    into it, later bins are untouched. *)
Theorem C71_dense_interrupted : forall A V (AX : Axis A) (AE : AxisEq A) (h : VecHistogram A V),
  (forall f h', vec_values_mut_u h f = Unwound h' ->
     vh_axes h' = vh_axes h /\ exists k, interrupted_at (fun _ => f) (vec_values h) (vec_values h') k)
  /\ (forall n f h', has_bins AX (vh_axes h) n -> N.of_nat (length (vec_values h)) = n -> vec_iter_mut_u h f = Unwound h' ->
     vh_axes h' = vh_axes h
     /\ exists k, interrupted_at (fun j v => match bin (vh_axes h) (N.of_nat j) with Val (Some b) => f (N.of_nat j) b v | _ => Unwound v end)
                   (vec_values h) (vec_values h') k)
  /\ (forall op r h', vec_binop_assign_u op h r = Unwound h' ->
     vh_axes h' = vh_axes h
     /\ ((axis_eqb (vh_axes h) (vh_axes r) = false /\ vec_values h' = vec_values h)
         \/ exists k, interrupted_at (fun j v => match vec_value_at_index r (N.of_nat j) with Some y => op v y | None => Unwound v end)
                       (vec_values h) (vec_values h') k)).
Proof.
  intros A V AX AE h. split; [|split].
  - intros f h'. unfold vec_values_mut_u. destruct (each_u f (vh_values h)) as [l|l] eqn:E; cbn [in_part]; [discriminate|]. intros [= <-].
    split; [reflexivity|]. exact (each_u_interrupted f _ l E).
  - intros n f h' [Hn Hb] Hlen. unfold vec_iter_mut_u, indices. rewrite Hn. cbn [obind].
    destruct (zip_update_u (vh_axes h) f (range n) (vh_values h)) as [l|l] eqn:E; cbn [in_part]; [discriminate|]. intros [= <-].
    split; [reflexivity|]. unfold vec_values in *. cbn [vh_values].
    assert (Hle : (length (vh_values h) <= length (range n))%nat) by (rewrite range_len; lia).
    destruct (zip_update_interrupted _ f _ _ l Hle E) as (k & i & Hi & H).
    assert (Hk : (k < N.to_nat n)%nat) by (rewrite <- range_len; apply nth_error_Some; congruence).
    rewrite range_nth in Hi by exact Hk. injection Hi as <-. cbv zeta in H.
    destruct H as [[Hp _] | (b & Hbk & (H1 & H2 & H3 & H4))].
    { unfold item_bin in Hp. destruct (Hb (N.of_nat k) ltac:(lia)) as [b Eb]. rewrite Eb in Hp. discriminate. }
    exists k. assert (G : forall j v, (j < N.to_nat n)%nat ->
       match nth_error (range n) j with Some i => match item_bin (vh_axes h) i with Val b => f i b v | Panic => Unwound v end | None => Unwound v end
       = match bin (vh_axes h) (N.of_nat j) with Val (Some b) => f (N.of_nat j) b v | _ => Unwound v end).
    { intros j v Hj. rewrite range_nth by exact Hj. unfold item_bin. destruct (Hb (N.of_nat j) ltac:(lia)) as [b' Eb]. rewrite Eb. reflexivity. }
    split; [exact H1|]. split; [|split; [|exact H4]].
    + intros j Hj. destruct (H2 j Hj) as (v & v' & V1 & V2 & V3). rewrite G in V2 by lia. exists v, v'. auto.
    + destruct H3 as (v & v' & V1 & V2 & V3). rewrite G in V2 by lia. exists v, v'. auto.
  - intros op r h'. unfold vec_binop_assign_u. destruct (axis_eqb (vh_axes h) (vh_axes r)) eqn:Ea; cbn [negb].
    + destruct (zip_assign_u op (vh_values h) (vh_values r)) as [q|q] eqn:Eq; cbn [in_part]; [discriminate|]. intros [= <-].
      split; [reflexivity|]. right. destruct (zip_assign_interrupted op _ _ _ Eq) as [k (H1 & H2 & H3 & H4)]. exists k.
      assert (G : forall j v, match nth_error (vh_values r) j with Some y => op v y | None => Unwound v end
                 = match vec_value_at_index r (N.of_nat j) with Some y => op v y | None => Unwound v end).
      { intros j v. unfold vec_value_at_index. rewrite Nat2N.id. reflexivity. }
      split; [exact H1|]. split; [|split; [|exact H4]].
      * intros j Hj. destruct (H2 j Hj) as (v & v' & V1 & V2 & V3). rewrite G in V2. exists v, v'. auto.
      * destruct H3 as (v & v' & V1 & V2 & V3). rewrite G in V2. exists v, v'. auto.
    + intros [= <-]. split; [reflexivity|]. left. split; reflexivity.
Qed.
Print Assumptions C71_dense_interrupted.

(** ** Sparse *)

(** The same over a map, visited in the order [order]; an entry that is not there yet
    starts from [absent]. *)
Definition interrupted_in {V Y} (absent : option V) (body : N -> V -> Y -> after V) (old new : gmap N V) (order : list (N * Y)) : Prop :=
  exists before k y later, order = before ++ (k, y) :: later
  /\ let start i := match old !! i with Some v => Some v | None => absent end in
     (forall i y, In (i, y) before -> exists v v', start i = Some v /\ body i v y = Returned v' /\ new !! i = Some v')
  /\ (exists v v', start k = Some v /\ body k v y = Unwound v' /\ new !! k = Some v')
  /\ (forall i, i <> k -> ~ In i (map fst before) -> new !! i = old !! i).

Lemma loop_interrupted {V Y} (absent : option V) (body : N -> V -> Y -> after V) (step : gmap N V -> N * Y -> after (gmap N V)) order :
  forall m m', List.NoDup (map fst order) ->
  (forall (m' : gmap N V) k y, In (k, y) order -> m' !! k = m !! k -> exists v, match m !! k with Some v => Some v | None => absent end = Some v
     /\ (forall r, body k v y = Returned r -> exists m'', step m' (k, y) = Returned m'' /\ m'' !! k = Some r /\ forall i, i <> k -> m'' !! i = m' !! i)
     /\ (forall r, body k v y = Unwound r -> exists m'', step m' (k, y) = Unwound m'' /\ m'' !! k = Some r /\ forall i, i <> k -> m'' !! i = m' !! i)) ->
  loop step order m = Unwound m' -> interrupted_in absent body m m' order.
Proof.
  induction order as [|[k y] order IH]; intros m m' Hnd Hstep; cbn [loop]; [discriminate|].
  cbn [map fst] in Hnd. inversion Hnd as [|? ? Hnotin Hnd']; subst.
  destruct (Hstep m k y (or_introl eq_refl) eq_refl) as (v & Hv & Hr & Hu). destruct (body k v y) as [r|r] eqn:Eb.
  - destruct (Hr r eq_refl) as (m1 & E1 & Hk & Ho). rewrite E1. cbn [then_]. intros Hl.
    destruct (IH m1 m' Hnd') as (before & k' & y' & later & -> & Hd & Hp & Hrest); [|exact Hl|].
    + intros m2 i z Hin Hi. assert (Hne : i <> k) by (intros ->; apply Hnotin; apply (in_map fst) in Hin; exact Hin).
      rewrite (Ho i Hne). apply (Hstep m2 i z (or_intror Hin)). rewrite Hi. exact (Ho i Hne).
    + rewrite map_app in Hnotin. cbn [map fst] in Hnotin. rewrite in_app_iff in Hnotin. cbv zeta in *.
      assert (Hkk : k' <> k) by (intros ->; apply Hnotin; right; left; reflexivity).
      exists ((k, y) :: before), k', y', later. split; [reflexivity|]. split; [|split].
      * intros i z [Hin|Hin].
        -- injection Hin as <- <-. exists v, r. split; [exact Hv|]. split; [exact Eb|]. rewrite Hrest; [exact Hk | congruence|].
           intros H. apply Hnotin. left. exact H.
        -- assert (Hne : i <> k) by (intros ->; apply Hnotin; left; apply (in_map fst) in Hin; exact Hin).
           destruct (Hd i z Hin) as (u & u' & U1 & U2 & U3). rewrite (Ho i Hne) in U1. exists u, u'. auto.
      * destruct Hp as (u & u' & U1 & U2 & U3). rewrite (Ho k' Hkk) in U1. exists u, u'. auto.
      * intros i Hi Hin. cbn [map fst In] in Hin. rewrite Hrest; [apply Ho; intros ->; apply Hin; left; reflexivity | exact Hi|].
        intros H. apply Hin. right. exact H.
  - destruct (Hu r eq_refl) as (m1 & E1 & Hk & Ho). rewrite E1. cbn [then_]. intros [= <-].
    exists [], k, y, order. split; [reflexivity|]. cbv zeta. split; [intros i z []|]. split; [exists v, r; auto|]. intros i Hi _. exact (Ho i Hi).
Qed.

(** C71. Sparse histograms likewise, in any hash order; an assignment may have added
    bins that only the other histogram had (from the default value). *)
Theorem C71_sparse_interrupted : forall A V (AX : Axis A) (AE : AxisEq A) (DV : Default V) (h : HashHistogram A V) order,
  (forall f h', an_order (hash_as_map h) order -> hash_values_mut_u h order f = Unwound h' ->
     hh_axes h' = hh_axes h /\ interrupted_in None (fun _ v _ => f v) (hash_as_map h) (hash_as_map h') order)
  /\ (forall f h', an_order (hash_as_map h) order -> (forall k v, In (k, v) order -> exists b, bin (hh_axes h) k = Val (Some b)) ->
     hash_iter_mut_u h order f = Unwound h' ->
     hh_axes h' = hh_axes h
     /\ interrupted_in None (fun i v _ => match bin (hh_axes h) i with Val (Some b) => f i b v | _ => Unwound v end) (hash_as_map h) (hash_as_map h') order)
  /\ (forall op r h', an_order (hash_as_map r) order -> hash_binop_assign_u op h r order = Unwound h' ->
     hh_axes h' = hh_axes h
     /\ ((axis_eqb (hh_axes h) (hh_axes r) = false /\ hash_as_map h' = hash_as_map h)
         \/ interrupted_in (Some default_v) (fun _ v y => op v y) (hash_as_map h) (hash_as_map h') order)).
Proof.
  intros A V AX AE DV h order. split; [|split].
  - intros f h' Ho. unfold hash_values_mut_u. destruct (loop _ order (hh_values h)) as [m|m] eqn:E; cbn [in_part]; [discriminate|]. intros [= <-].
    split; [reflexivity|]. unfold hash_as_map. cbn [hh_values].
    refine (loop_interrupted None (fun _ v _ => f v) _ order (hh_values h) m _ _ E); [rewrite <- NoDup_ListNoDup; apply (order_NoDup _ _ Ho)|].
    intros m' k y Hin Hm. pose proof (proj1 (order_elem _ _ k y Ho) (proj2 (elem_of_list_In _ _) Hin)) as Hy. unfold hash_as_map in Hy. rewrite Hy. exists y. split; [reflexivity|]. cbn [fst snd].
    split; intros r Hr; rewrite Hr; cbn [in_part]; eexists; (split; [reflexivity|]); (split; [apply lookup_insert|]); intros i Hi; apply lookup_insert_ne; congruence.
  - intros f h' Ho Hb. unfold hash_iter_mut_u. destruct (loop _ order (hh_values h)) as [m|m] eqn:E; cbn [in_part]; [discriminate|]. intros [= <-].
    split; [reflexivity|]. unfold hash_as_map. cbn [hh_values].
    refine (loop_interrupted None _ _ order (hh_values h) m _ _ E); [rewrite <- NoDup_ListNoDup; apply (order_NoDup _ _ Ho)|].
    intros m' k y Hin Hm. pose proof (proj1 (order_elem _ _ k y Ho) (proj2 (elem_of_list_In _ _) Hin)) as Hy. unfold hash_as_map in Hy. rewrite Hy. exists y. split; [reflexivity|]. cbn [fst snd].
    destruct (Hb k y Hin) as [b Eb]. unfold item_bin. rewrite Eb. cbn [obind expect].
    split; intros r Hr; rewrite Hr; cbn [in_part]; eexists; (split; [reflexivity|]); (split; [apply lookup_insert|]); intros i Hi; apply lookup_insert_ne; congruence.
  - intros op r h' Ho. unfold hash_binop_assign_u. destruct (axis_eqb (hh_axes h) (hh_axes r)) eqn:Ea; cbn [negb].
    + destruct (loop _ order (hh_values h)) as [m|m] eqn:E; cbn [in_part]; [discriminate|]. intros [= <-].
      split; [reflexivity|]. right. unfold hash_as_map. cbn [hh_values].
      refine (loop_interrupted (Some default_v) _ _ order (hh_values h) m _ _ E); [rewrite <- NoDup_ListNoDup; apply (order_NoDup _ _ Ho)|].
      intros m' k y Hin Hm. exists (match hh_values h !! k with Some v => v | None => default_v end). split; [destruct (hh_values h !! k); reflexivity|]. cbn [fst snd].
      unfold entry_or_default_u. cbn [fst snd]. rewrite Hm.
      split; intros q Hq; rewrite Hq; cbn [in_part]; eexists; (split; [reflexivity|]); (split; [apply lookup_insert|]); intros i Hi; rewrite !lookup_insert_ne by congruence; reflexivity.
    + intros [= <-]. split; [reflexivity|]. left. split; reflexivity.
Qed.
Print Assumptions C71_sparse_interrupted.

(** C63. If the bin of number [k] panics, [iter_mut()] yields the items before it, each
    with its own bin and slot, and panics at the next one. *)
Theorem C63_iter_mut_panicking_bin : forall A V (AX : Axis A) (h : VecHistogram A V) n k,
  num_bins (vh_axes h) = Val n -> N.of_nat (length (vec_values h)) = n -> N.of_nat k < n ->
  (forall i, i < N.of_nat k -> exists b, bin (vh_axes h) i = Val (Some b)) -> bin (vh_axes h) (N.of_nat k) = Panic ->
  exists l, vec_iter_mut_lazy h = Val l
  /\ (forall j, (j < k)%nat -> exists b, bin (vh_axes h) (N.of_nat j) = Val (Some b) /\ nth_error l j = Some (Val ((N.of_nat j, b), N.of_nat j)))
  /\ nth_error l k = Some Panic.
Proof.
  intros A V AX h n k Hn Hlen Hk Hb Hp. unfold vec_iter_mut_lazy, axis_iter_lazy, indices. rewrite Hn. cbn [obind]. unfold vec_values in *. rewrite Hlen.
  eexists. split; [reflexivity|].
  assert (G : forall k is, (forall j i, (j < k)%nat -> nth_error is j = Some i -> exists b, bin (vh_axes h) i = Val (Some b)) ->
     (forall i, nth_error is k = Some i -> bin (vh_axes h) i = Panic) -> (k < length is)%nat ->
     let L := lazy_zip (map (fun it => let! b := bin (vh_axes h) it in let! b' := expect b in Val (it, b')) is) (map Val is) in
     (forall j i, (j < k)%nat -> nth_error is j = Some i -> exists b, bin (vh_axes h) i = Val (Some b) /\ nth_error L j = Some (Val ((i, b), i)))
     /\ nth_error L k = Some Panic).
  { clear. intros k. induction k as [|k IH]; intros [|i is] H1 H2 H3; cbn [length] in H3; try lia.
    - cbn [map lazy_zip]. rewrite (H2 i eq_refl). cbn [obind lazy_zip]. split; [lia | reflexivity].
    - destruct (H1 0%nat i ltac:(lia) eq_refl) as [b Eb]. cbn [map]. rewrite Eb. cbn [obind expect lazy_zip].
      destruct (IH is) as [I1 I2]; [intros j x Hj; apply (H1 (S j)); lia | exact H2 | lia|]. cbv zeta. split; [|exact I2].
      intros [|j] x Hj Hx; [cbn in Hx; injection Hx as <-; exists b; split; [exact Eb | reflexivity] | apply (I1 j x ltac:(lia) Hx)]. }
  destruct (G k (range n)) as [G1 G2].
  - intros j i Hj Hi. rewrite range_nth in Hi by lia. injection Hi as <-. apply Hb. lia.
  - intros i Hi. rewrite range_nth in Hi by lia. injection Hi as <-. exact Hp.
  - rewrite range_len. lia.
  - split; [|exact G2]. intros j Hj. apply (G1 j (N.of_nat j) Hj). apply range_nth. lia.
Qed.
Print Assumptions C63_iter_mut_panicking_bin.

(** A body that has already stored 100 into the bin when it panics at the value 2: in
    [values_mut], in [iter_mut] and as an operator; sparse in the order 3, 1, 0. An
    i16 axis of 300 unit bins in a checked build, whose bin 110 panics. *)
Example C71_interrupted_nonvacuous :
  let B := {| overflow_checks := true; target_width := P64 |} in
  let AX := ex_axis B in
  let body (v : Z) := if (v =? 2)%Z then Unwound 100%Z else Returned (v + 1)%Z in
  let h := mkVecHist ex_cat [1; 2; 3; 0]%Z in
  let m := <[0 := 1%Z]> (<[1 := 2%Z]> (<[3 := 7%Z]> ∅)) : gmap N Z in
  let order := [(3, 7%Z); (1, 2%Z); (0, 1%Z)] in
  vec_values_mut_u h body = Unwound (mkVecHist ex_cat [2; 100; 3; 0]%Z)
  /\ vec_iter_mut_u (AX := AX) h (fun _ _ v => body v) = Unwound (mkVecHist ex_cat [2; 100; 3; 0]%Z)
  /\ vec_binop_assign_u (AE := ex_eq) (fun v _ => body v) h h = Unwound (mkVecHist ex_cat [2; 100; 3; 0]%Z)
  /\ an_order m order
  /\ hash_values_mut_u (mkHashHist ex_cat m) order body = Unwound (mkHashHist ex_cat (<[0 := 1%Z]> (<[1 := 100%Z]> (<[3 := 8%Z]> ∅))))
  /\ let AX := @uniform_axis B Z (@int_ops B (signed 16)) in
     let u := mkUniform 300 0%Z 300%Z 1%Z in
     num_bins (Axis := AX) u = Val 302 /\ bin (Axis := AX) u 110 = Panic
     /\ forall i, i < 110 -> exists b, bin (Axis := AX) u i = Val (Some b).
Proof.
  cbv zeta. split; [reflexivity|]. split; [vm_compute; reflexivity|]. split; [vm_compute; reflexivity|]. split; [|split; [|]].
  - unfold an_order. rewrite !map_to_list_insert by (vm_compute; reflexivity). rewrite map_to_list_empty.
    etransitivity; [apply Permutation_rev | reflexivity].
  - unfold hash_values_mut_u. cbn [loop fst snd hh_values hh_axes Z.eqb in_part then_ Pos.eqb]. f_equal. f_equal. apply (bool_decide_unpack _). vm_compute. exact I.
  - split; [vm_compute; reflexivity|]. split; [vm_compute; reflexivity|]. intros i Hi.
    assert (H : forallb (fun j => match @uniform_bin {| overflow_checks := true; target_width := P64 |} Z (@int_ops {| overflow_checks := true; target_width := P64 |} (signed 16)) (mkUniform 300 0 300 1)%Z j with
                                  | Val (Some _) => true | _ => false end) (range 110) = true) by (vm_compute; reflexivity).
    rewrite forallb_forall in H. specialize (H i). cbn [bin uniform_axis vh_axes].
    destruct (uniform_bin _ _ i) as [[b|]|]; [exists b; reflexivity|exfalso..]; (enough (In i (range 110)) by (specialize (H H0); discriminate));
      unfold range; apply in_map_iff; exists (N.to_nat i); (split; [lia|apply in_seq; lia]).
Qed.
