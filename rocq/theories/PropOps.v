(** * Property theorems: operators, conversions, equality (C37-C40, C46, C47). *)
From stdpp Require Import gmap.
From Coq Require Import ZifyN ZifyNat Lia.
From Verif Require Import Base BaseFacts Num Axis Spec IntFacts AxesSpec Category Value VecHist HashHist HistSpec
  HistFacts HashFacts OpsFacts PropCategory PropHist PropHistIter PropOrder.
Open Scope N_scope.

(** The result of [a op= &b] that corresponds to a result of [a op &b]. *)
Definition assigned {H E : Type} (r : outcome (result H E)) : outcome H :=
  match r with Val (Ok h) => Val h | Val (Err _) => Panic | Panic => Panic end.

(** ** C37 *)

(** [op] is any of [+ - * /] on the bin values (it may panic).  Dense histograms
    that went through the public API. *)
Theorem C37_dense_operators :
  forall A V D W (AX : Axis A) (AE : AxisEq A) (FV : Fill V) (FD : FillWith V D)
         (FW : FillWithWeighted V D W) (DV : Default V) (ok : A -> Prop),
  eq_same_bins AX AE ->
  forall (op : V -> V -> outcome V) (l r : VecHistogram A V),
  @vec_reachable A V D W AX AE FV FD FW DV ok l -> @vec_reachable A V D W AX AE FV FD FW DV ok r ->
  (* different axes: an error, a panic in the assigning form *)
  (axis_eqb (vh_axes l) (vh_axes r) = false ->
     vec_binop_borrowed op l r = Val (Err BinaryOperationFailed)
     /\ vec_binop_owned op l r = Val (Err BinaryOperationFailed)
     /\ vec_binop_assign op l r = Panic)
  (* the three forms agree *)
  /\ vec_binop_owned op l r = vec_binop_borrowed op l r
  /\ vec_binop_assign op l r = assigned (vec_binop_borrowed op l r)
  (* equal axes: bin by bin *)
  /\ (axis_eqb (vh_axes l) (vh_axes r) = true ->
      (vec_binop_borrowed op l r = Panic <->
         exists i x y, vec_value_at_index l i = Some x /\ vec_value_at_index r i = Some y /\ op x y = Panic)
      /\ (vec_binop_borrowed op l r <> Panic -> exists h, vec_binop_borrowed op l r = Val (Ok h)
          /\ vh_axes h = vh_axes l /\ length (vec_values h) = length (vec_values l)
          /\ forall i x y, vec_value_at_index l i = Some x -> vec_value_at_index r i = Some y ->
               exists z, op x y = Val z /\ vec_value_at_index h i = Some z)).
Proof.
  intros A V D W AX AE FV FD FW DV ok Heq op l r Hl Hr.
  pose proof (C26_vec_length_invariant A V D W AX AE FV FD FW DV ok Heq l Hl) as Ll.
  pose proof (C26_vec_length_invariant A V D W AX AE FV FD FW DV ok Heq r Hr) as Lr.
  unfold vec_values, vec_value_at_index in *.
  unfold vec_binop_borrowed, vec_binop_owned, vec_binop_assign.
  destruct (axis_eqb (vh_axes l) (vh_axes r)) eqn:E; cbn [negb].
  2:{ split; [auto|]. split; [reflexivity|]. split; [reflexivity|]. intros H; discriminate. }
  assert (Hlen : length (vh_values l) = length (vh_values r)).
  { rewrite (Heq _ _ E) in Ll. rewrite Ll in Lr. injection Lr as Lr. lia. }
  rewrite <- zip_assign_combine by exact Hlen.
  split; [intros H; discriminate|]. split; [reflexivity|].
  split; [destruct (zip_assign op (vh_values l) (vh_values r)); reflexivity|]. intros _.
  split.
  - split.
    + intros Hp.
      assert (Hz : zip_assign op (vh_values l) (vh_values r) = Panic).
      { destruct (zip_assign op (vh_values l) (vh_values r)); [discriminate | reflexivity]. }
      clear Hp Ll Lr. revert Hz Hlen. generalize (vh_values l) as xs, (vh_values r) as ys.
      induction xs as [|x xs IH]; intros [|y ys] Hz Hlen; try discriminate. cbn [zip_assign] in Hz.
      destruct (op x y) as [z|] eqn:Eo.
      * cbn [obind] in Hz. destruct (zip_assign op xs ys) as [zs|] eqn:Ez; [discriminate|].
        destruct (IH ys Ez ltac:(cbn [length] in Hlen; lia)) as [i [a [b [Ha [Hb Hab]]]]].
        exists (N.succ i), a, b. rewrite N2Nat.inj_succ. cbn [nth_error]. auto.
      * exists 0, x, y. cbn. auto.
    + intros [i [x [y [Hx [Hy Hop]]]]].
      destruct (zip_assign op (vh_values l) (vh_values r)) as [m|] eqn:Ez; [|reflexivity].
      apply zip_assign_inv in Ez as [_ Hz]. destruct (Hz _ _ _ Hx Hy) as [z [Hop' _]]. congruence.
  - intros Hnp. destruct (zip_assign op (vh_values l) (vh_values r)) as [m|] eqn:Ez; [|cbn in Hnp; congruence].
    apply zip_assign_inv in Ez as [Hm Hz]. eexists. split; [reflexivity|]. cbn [vh_axes vh_values].
    split; [reflexivity|]. split; [exact Hm|]. intros i x y. apply Hz.
Qed.
Print Assumptions C37_dense_operators.

(** ** C38 *)

(** Sparse operators.  [keys] is the order in which the borrowing form visits the
    union of the bins, [order] the iteration order of the right-hand map. *)
Theorem C38_sparse_operators :
  forall A V (AX : Axis A) (AE : AxisEq A) (DV : Default V) (op : V -> V -> outcome V) (l r : HashHistogram A V) keys order,
  NoDup keys ->
  (forall i, i ∈ keys <-> is_Some (hash_value_at_index l i) \/ is_Some (hash_value_at_index r i)) ->
  an_order (hash_as_map r) order ->
  (* different axes *)
  (axis_eqb (hh_axes l) (hh_axes r) = false ->
     hash_binop_borrowed op l r keys = Val (Err BinaryOperationFailed)
     /\ hash_binop_owned op l r order = Val (Err BinaryOperationFailed)
     /\ hash_binop_assign op l r order = Panic)
  (* the owning and the assigning form always agree *)
  /\ hash_binop_assign op l r order = assigned (hash_binop_owned op l r order)
  /\ (axis_eqb (hh_axes l) (hh_axes r) = true ->
      (* borrowing form: bin by bin, a missing side counts as the default *)
      (forall h, hash_binop_borrowed op l r keys = Val (Ok h) ->
         hh_axes h = hh_axes l
         /\ forall i, match hash_value_at_index l i, hash_value_at_index r i with
                      | Some x, Some y => exists z, op x y = Val z /\ hash_value_at_index h i = Some z
                      | Some x, None => exists z, op x default_v = Val z /\ hash_value_at_index h i = Some z
                      | None, Some y => exists z, op default_v y = Val z /\ hash_value_at_index h i = Some z
                      | None, None => hash_value_at_index h i = None
                      end)
      (* owning form: the same, except that bins missing on the right are kept *)
      /\ (forall h, hash_binop_owned op l r order = Val (Ok h) ->
         hh_axes h = hh_axes l
         /\ forall i, match hash_value_at_index l i, hash_value_at_index r i with
                      | Some x, Some y => exists z, op x y = Val z /\ hash_value_at_index h i = Some z
                      | Some x, None => hash_value_at_index h i = Some x
                      | None, Some y => exists z, op default_v y = Val z /\ hash_value_at_index h i = Some z
                      | None, None => hash_value_at_index h i = None
                      end)
      (* so all three agree when [x op default = x] on the bins only the left side has *)
      /\ ((forall i x, hash_value_at_index l i = Some x -> hash_value_at_index r i = None -> op x default_v = Val x) ->
          hash_binop_owned op l r order = hash_binop_borrowed op l r keys
          /\ hash_binop_assign op l r order = assigned (hash_binop_borrowed op l r keys))).
Proof.
  intros A V AX AE DV op l r keys order Hnd Hkeys Ho. unfold hash_value_at_index, hash_as_map in *.
  split; [|split].
  - intros E. unfold hash_binop_borrowed, hash_binop_owned, hash_binop_assign. rewrite E. auto.
  - unfold hash_binop_owned, hash_binop_assign. destruct (axis_eqb (hh_axes l) (hh_axes r)); [|reflexivity]. cbn [negb].
    destruct (hash_merge_loop op (hh_values l) order); reflexivity.
  - intros E. pose proof (order_NoDup _ _ Ho) as Hndo.
    assert (Hown : forall h, hash_binop_owned op l r order = Val (Ok h) ->
         hh_axes h = hh_axes l
         /\ forall i, match hh_values l !! i, hh_values r !! i with
                      | Some x, Some y => exists z, op x y = Val z /\ hh_values h !! i = Some z
                      | Some x, None => hh_values h !! i = Some x
                      | None, Some y => exists z, op default_v y = Val z /\ hh_values h !! i = Some z
                      | None, None => hh_values h !! i = None
                      end).
    { intros h Hh. unfold hash_binop_owned in Hh. rewrite E in Hh. cbn [negb] in Hh.
      apply obind_val in Hh as [m [Hm Hh]]. injection Hh as <-. cbn [hh_axes hh_values]. split; [reflexivity|].
      destruct (merge_loop_spec op order _ m Hndo Hm) as [H1 H2]. intros i.
      destruct (hh_values r !! i) as [y|] eqn:Er.
      - apply (order_elem _ order _ _ Ho) in Er. specialize (H1 i y Er). unfold or_default in H1.
        destruct (hh_values l !! i); exact H1.
      - assert (Hi : i ∉ map fst order).
        { rewrite (order_key _ order i Ho), Er. intros [? Hx]; discriminate. }
        rewrite (H2 i Hi). destruct (hh_values l !! i); reflexivity. }
    assert (Hbor : forall h, hash_binop_borrowed op l r keys = Val (Ok h) ->
         hh_axes h = hh_axes l
         /\ forall i, match hh_values l !! i, hh_values r !! i with
                      | Some x, Some y => exists z, op x y = Val z /\ hh_values h !! i = Some z
                      | Some x, None => exists z, op x default_v = Val z /\ hh_values h !! i = Some z
                      | None, Some y => exists z, op default_v y = Val z /\ hh_values h !! i = Some z
                      | None, None => hh_values h !! i = None
                      end).
    { intros h Hh. destruct (borrowed_inv op l r h keys Hnd Hh) as [Ha [_ [H1 H2]]]. split; [exact Ha|]. intros i.
      specialize (H1 i). specialize (H2 i). specialize (Hkeys i). unfold pair_op in H1.
      destruct (hh_values l !! i), (hh_values r !! i); try (apply H1; apply Hkeys; eauto; fail).
      apply H2. rewrite Hkeys. intros [[? Hx]|[? Hx]]; discriminate. }
    split; [exact Hbor|]. split; [exact Hown|]. intros Hleft.
    assert (Hsame : hash_binop_owned op l r order = hash_binop_borrowed op l r keys).
    { destruct (hash_binop_owned op l r order) as [[ho|e]|] eqn:Eo.
      - destruct (Hown ho eq_refl) as [Ha Hv]. destruct ho as [ah mh]. cbn [hh_axes hh_values] in *. subst ah. symmetry.
        apply borrowed_intro; [exact Hnd | exact E | |].
        + intros i Hi. specialize (Hv i). specialize (Hleft i). apply Hkeys in Hi. unfold pair_op.
          destruct (hh_values l !! i) as [x|]; destruct (hh_values r !! i) as [y|]; try exact Hv.
          * exists x. auto.
          * destruct Hi as [[? Hi]|[? Hi]]; discriminate.
        + intros i Hi. specialize (Hv i). rewrite Hkeys in Hi.
          destruct (hh_values l !! i); [exfalso; apply Hi; left; eauto|].
          destruct (hh_values r !! i); [exfalso; apply Hi; right; eauto|]. exact Hv.
      - unfold hash_binop_owned in Eo. rewrite E in Eo. cbn [negb] in Eo. apply obind_val in Eo as [m [_ Eo]]. discriminate.
      - destruct (hash_binop_borrowed op l r keys) as [[hb|e]|] eqn:Eb; [| |reflexivity].
        + exfalso. destruct (Hbor hb eq_refl) as [Ha Hv].
          unfold hash_binop_owned in Eo. rewrite E in Eo. cbn [negb] in Eo.
          destruct (merge_loop_total op order (hh_values l) Hndo) as [m Hm]; [|rewrite Hm in Eo; discriminate].
          intros i y Hi. apply (order_elem _ order _ _ Ho) in Hi. specialize (Hv i). rewrite Hi in Hv.
          unfold or_default. destruct (hh_values l !! i); destruct Hv as [z [Hz _]]; eauto.
        + unfold hash_binop_borrowed in Eb. rewrite E in Eb. cbn [negb] in Eb. apply obind_val in Eb as [m [_ Eb]]. discriminate. }
    split; [exact Hsame|]. rewrite <- Hsame.
    unfold hash_binop_owned, hash_binop_assign. rewrite E. cbn [negb].
    destruct (hash_merge_loop op (hh_values l) order); reflexivity.
Qed.
Print Assumptions C38_sparse_operators.

(** Addition and subtraction of integer bins satisfy the condition, in every build. *)
Theorem C38_int_add_sub_forms_agree :
  forall (B : Build) (t : int_type) A (AX : Axis A) (AE : AxisEq A) (l r : HashHistogram A Z) keys order,
  primitive_int t -> (forall i v, hash_value_at_index l i = Some v -> fits t v) ->
  NoDup keys ->
  (forall i, i ∈ keys <-> is_Some (hash_value_at_index l i) \/ is_Some (hash_value_at_index r i)) ->
  an_order (hash_as_map r) order ->
  axis_eqb (hh_axes l) (hh_axes r) = true ->
  forall op, op = @n_add Z (int_ops t) \/ op = @n_sub Z (int_ops t) ->
  @hash_binop_owned A Z AE (int_default t) op l r order = @hash_binop_borrowed A Z AE (int_default t) op l r keys
  /\ @hash_binop_assign A Z AE (int_default t) op l r order
     = assigned (@hash_binop_borrowed A Z AE (int_default t) op l r keys).
Proof.
  intros B t A AX AE l r keys order Ht Hf Hnd Hkeys Ho E op Hop.
  destruct (C38_sparse_operators A Z AX AE (int_default t) op l r keys order Hnd Hkeys Ho) as [_ [_ H]].
  apply (H E). intros i x Hx _. change (@default_v Z (int_default t)) with 0%Z.
  destruct Hop as [-> | ->]; cbn [n_add n_sub int_ops]; rewrite ?Z.add_0_r, ?Z.sub_0_r; apply int_result_ok; eauto.
Qed.
Print Assumptions C38_int_add_sub_forms_agree.

(** For [*] they do not agree: {bin 0: 3} * {} is {bin 0: 0} by reference and
    {bin 0: 3} consumed or assigned. *)
Theorem C38_mul_forms_agree_refuted : forall B : Build,
  exists (l r : HashHistogram (Category Z) Z) h h',
    @hash_reachable _ Z Z Empty_set (ex_axis B) ex_eq (ex_fill B) (ex_fill_with B) ex_weighted ex_default (fun _ => True) l
    /\ @hash_reachable _ Z Z Empty_set (ex_axis B) ex_eq (ex_fill B) (ex_fill_with B) ex_weighted ex_default (fun _ => True) r
    /\ @hash_binop_borrowed _ Z ex_eq ex_default (@n_mul Z (int_ops (signed 32))) l r [0] = Val (Ok h)
    /\ @hash_binop_owned _ Z ex_eq ex_default (@n_mul Z (int_ops (signed 32))) l r [] = Val (Ok h')
    /\ an_order (hash_as_map r) []
    /\ hash_value_at_index h 0 = Some 0%Z /\ hash_value_at_index h' 0 = Some 3%Z.
Proof.
  intros B. exists (mkHashHist ex_cat {[0 := 3%Z]}), (hash_new ex_cat).
  exists (mkHashHist ex_cat {[0 := 0%Z]}), (mkHashHist ex_cat {[0 := 3%Z]}).
  split.
  { eapply (@hr_call _ Z Z Empty_set (ex_axis B) ex_eq (ex_fill B) (ex_fill_with B) ex_weighted ex_default (fun _ => True)
              (hash_new ex_cat) (@CallFillWith _ Z Empty_set (ex_axis B) 5%Z 3%Z)).
    - apply hr_new. exact I.
    - destruct B as [[] []]; vm_compute; reflexivity. }
  split; [apply hr_new; exact I|].
  split; [destruct B as [[] []]; vm_compute; reflexivity|].
  split; [destruct B as [[] []]; vm_compute; reflexivity|].
  split; [apply Permutation_refl|]. split; reflexivity.
Qed.
Print Assumptions C38_mul_forms_agree_refuted.

(** For integer [/] the borrowing form panics (division by the default 0) where
    the owning form returns. *)
Theorem C38_div_forms_agree_refuted : forall B : Build,
  let l : HashHistogram (Category Z) Z := mkHashHist ex_cat {[0 := 3%Z]} in
  let r : HashHistogram (Category Z) Z := hash_new ex_cat in
  an_order (hash_as_map r) []
  /\ @hash_binop_borrowed _ Z ex_eq ex_default (@n_div Z (int_ops (signed 32))) l r [0] = Panic
  /\ @hash_binop_owned _ Z ex_eq ex_default (@n_div Z (int_ops (signed 32))) l r [] = Val (Ok l).
Proof.
  intros B l r. split; [apply Permutation_refl|]. split; destruct B as [[] []]; vm_compute; reflexivity.
Qed.
Print Assumptions C38_div_forms_agree_refuted.

(** ** C39 *)
Theorem C39_scalar_operators :
  forall A V (AX : Axis A) (op : V -> V -> outcome V) (l : VecHistogram A V) (s : V),
  (vec_scalar_op op l s = Panic <-> exists i x, vec_value_at_index l i = Some x /\ op x s = Panic)
  /\ forall h, vec_scalar_op op l s = Val h ->
     vh_axes h = vh_axes l /\ length (vec_values h) = length (vec_values l)
     /\ forall i x, vec_value_at_index l i = Some x -> exists z, op x s = Val z /\ vec_value_at_index h i = Some z.
Proof.
  intros A V AX op l s. unfold vec_scalar_op, vec_value_at_index, vec_values. split; [split|].
  - intros Hp. assert (Hm : mapo (fun v => op v s) (vh_values l) = Panic) by (destruct (mapo _ _); [discriminate | reflexivity]).
    clear Hp. revert Hm. generalize (vh_values l) as xs. induction xs as [|x xs IH]; intros Hm; [discriminate|].
    cbn [mapo] in Hm. destruct (op x s) as [z|] eqn:Eo.
    + cbn [obind] in Hm. destruct (mapo (fun v => op v s) xs) as [zs|] eqn:Ez; [discriminate|].
      destruct (IH eq_refl) as [i [a [Ha Hs]]]. exists (N.succ i), a. rewrite N2Nat.inj_succ. cbn [nth_error]. auto.
    + exists 0, x. cbn. auto.
  - intros [i [x [Hx Hop]]]. destruct (mapo (fun v => op v s) (vh_values l)) as [m|] eqn:Em; [|reflexivity].
    apply mapo_inv in Em. exfalso. revert Em Hx. generalize (N.to_nat i) as k, (vh_values l) as xs. intros k xs Hf. revert k.
    induction Hf as [|a b xs ys Hab _ IH]; intros [|k] Hk; cbn in Hk; try discriminate; [congruence | eauto].
  - intros h Hh. apply obind_val in Hh as [m [Hm Hh]]. injection Hh as <-. cbn [vh_axes vh_values].
    split; [reflexivity|]. split; [exact (mapo_length _ _ _ Hm)|].
    intros i x Hx. apply mapo_inv in Hm. revert Hx. generalize (N.to_nat i) as k. 
    induction Hm as [|a b xs ys Hab _ IH]; intros [|k] Hk; cbn [nth_error] in *; try discriminate; [|eauto].
    injection Hk as <-. eauto.
Qed.
Print Assumptions C39_scalar_operators.

(** ** C40 *)
Theorem C40_from_vec :
  forall A V (AX : Axis A) (a : A) (n : N) (vs : list V), num_bins a = Val n ->
  (N.of_nat (length vs) = n ->
     exists h, vec_from_vec a vs = Val (Ok h) /\ vh_axes h = a
       /\ vec_as_vec h = vs /\ vec_as_slice h = vs /\ vec_into_vec h = vs
       /\ forall i, vec_value_at_index h i = nth_error vs (N.to_nat i))
  /\ (N.of_nat (length vs) <> n -> vec_from_vec a vs = Val (Err (ErrAxis InvalidNumberOfBins))).
Proof.
  intros A V AX a n vs Hn. unfold vec_from_vec. rewrite Hn. cbn [obind]. split.
  - intros <-. rewrite N.eqb_refl. eexists. split; [reflexivity|]. auto.
  - intros Hne. destruct (N.eqb_spec n (N.of_nat (length vs))); [congruence | reflexivity].
Qed.
Print Assumptions C40_from_vec.

Theorem C40_from_map :
  forall A V (AX : Axis A) (a : A) (n : N) (m : gmap N V), num_bins a = Val n ->
  ((forall i, is_Some (m !! i) -> i < n) ->
     exists h, hash_from_map a m = Val (Ok h) /\ hh_axes h = a /\ hash_as_map h = m /\ hash_into_map h = m
       /\ forall i, hash_value_at_index h i = m !! i)
  /\ ((exists i, is_Some (m !! i) /\ n <= i) -> hash_from_map a m = Val (Err (ErrAxis InvalidNumberOfBins))).
Proof.
  intros A V AX a n m Hn. unfold hash_from_map.
  rewrite (allo_pure (fun k => k <? n)) by (intros k; rewrite Hn; reflexivity). cbn [obind].
  assert (Hf : forallb (fun k => k <? n) (map fst (map_to_list m)) = true <-> forall i, is_Some (m !! i) -> i < n).
  { rewrite forallb_forall. split.
    - intros Hall i [v Hv]. apply N.ltb_lt. apply Hall. apply in_map_iff. exists (i, v). split; [reflexivity|].
      apply elem_of_list_In, elem_of_map_to_list. exact Hv.
    - intros Hall k Hk. apply in_map_iff in Hk as [[i v] [<- Hk]]. apply elem_of_list_In, elem_of_map_to_list in Hk.
      apply N.ltb_lt. apply Hall. exists v. exact Hk. }
  split.
  - intros Hall. rewrite (proj2 Hf Hall). eexists. split; [reflexivity|]. auto.
  - intros [i [Hi Hle]]. destruct (forallb (fun k => k <? n) (map fst (map_to_list m))) eqn:E; [|reflexivity].
    pose proof (proj1 Hf eq_refl i Hi). lia.
Qed.
Print Assumptions C40_from_map.

(** An empty map is accepted by every axis, even one whose number of bins does not
    fit a [usize]; with any key, such an axis panics. *)
Theorem C40_from_map_too_many_bins :
  forall A V (AX : Axis A) (a : A),
  hash_from_map a (∅ : gmap N V) = Val (Ok (hash_new a))
  /\ forall m : gmap N V, num_bins a = Panic -> m <> ∅ -> hash_from_map a m = Panic.
Proof.
  intros A V AX a. unfold hash_from_map. split.
  - rewrite map_to_list_empty. reflexivity.
  - intros m Hn Hm. destruct (map_to_list m) as [|p l] eqn:E; [apply map_to_list_empty_iff in E; contradiction|].
    cbn [map allo]. rewrite Hn. reflexivity.
Qed.
Print Assumptions C40_from_map_too_many_bins.

(** ** C46 *)

(** Equal iff equal axes and the same bins with equal values. *)
Theorem C46_sparse_equality :
  forall A V (AX : Axis A) (AE : AxisEq A) (veq : V -> V -> bool) (a b : HashHistogram A V),
  hash_eqb veq a b = true <->
  axis_eqb (hh_axes a) (hh_axes b) = true
  /\ forall i, match hash_value_at_index a i, hash_value_at_index b i with
               | Some x, Some y => veq x y = true
               | None, None => True
               | _, _ => False
               end.
Proof.
  intros A V AX AE veq a b. unfold hash_eqb, hash_value_at_index. rewrite !andb_true_iff, Nat.eqb_eq, forallb_forall.
  split.
  - intros [[Hax Hsz] Hall]. split; [exact Hax|].
    assert (Hsub : dom (D := gset N) (hh_values a) ⊆ dom (D := gset N) (hh_values b)).
    { intros i Hi. apply elem_of_dom in Hi as [x Hx]. apply elem_of_dom.
      assert (Hin : In (i, x) (map_to_list (hh_values a))) by (apply elem_of_list_In, elem_of_map_to_list; exact Hx).
      specialize (Hall _ Hin). cbn [fst snd] in Hall. destruct (hh_values b !! i); [eauto | discriminate]. }
    assert (Hsup : dom (D := gset N) (hh_values b) ⊆ dom (D := gset N) (hh_values a)).
    { assert (Hd : size (dom (D := gset N) (hh_values b) ∖ dom (D := gset N) (hh_values a)) = 0%nat).
      { rewrite size_difference by exact Hsub. rewrite !size_dom, Hsz. lia. }
      apply size_empty_inv in Hd. intros i Hi.
      destruct (decide (i ∈ dom (D := gset N) (hh_values a))) as [Hy|Hn]; [exact Hy|].
      exfalso. apply (not_elem_of_empty (C := gset N) i). rewrite <- Hd. apply elem_of_difference. split; assumption. }
    intros i. destruct (hh_values a !! i) as [x|] eqn:Ea.
    + assert (Hin : In (i, x) (map_to_list (hh_values a))) by (apply elem_of_list_In, elem_of_map_to_list; exact Ea).
      specialize (Hall _ Hin). cbn [fst snd] in Hall. destruct (hh_values b !! i); [exact Hall | discriminate].
    + destruct (hh_values b !! i) as [y|] eqn:Eb; [|exact I].
      assert (Hi : i ∈ dom (D := gset N) (hh_values a)) by (apply Hsup; apply elem_of_dom; eauto).
      apply elem_of_dom in Hi as [x Hx]. congruence.
  - intros [Hax Hall]. split; [split; [exact Hax|]|].
    + rewrite <- (size_dom (D := gset N) (hh_values a)), <- (size_dom (D := gset N) (hh_values b)). apply set_size_proper. intros i. rewrite !elem_of_dom. specialize (Hall i).
      destruct (hh_values a !! i), (hh_values b !! i); try destruct Hall; split; intros [? Hx]; try discriminate; eauto.
    + intros [i x] Hin. apply elem_of_list_In, elem_of_map_to_list in Hin. cbn [fst snd]. specialize (Hall i).
      rewrite Hin in Hall. destruct (hh_values b !! i); [exact Hall | destruct Hall].
Qed.
Print Assumptions C46_sparse_equality.

(** ** C47 *)
Theorem C47_conversions_round_trip : forall (T : Type),
  (forall r : Range T, range_try_from (bi_from_range r) = Ok r)
  /\ (forall r : RangeTo T, rangeto_try_from (bi_from_rangeto r) = Ok r)
  /\ (forall r : RangeFrom T, rangefrom_try_from (bi_from_rangefrom r) = Ok r)
  /\ (forall b r, range_try_from b = Ok r -> bi_from_range (T := T) r = b)
  /\ (forall b r, rangeto_try_from b = Ok r -> bi_from_rangeto (T := T) r = b)
  /\ (forall b r, rangefrom_try_from b = Ok r -> bi_from_rangefrom (T := T) r = b).
Proof.
  intros T. repeat split; intros r; try (destruct r; reflexivity);
    intros r'; destruct r; cbn; intros H; try discriminate; injection H as <-; reflexivity.
Qed.
Print Assumptions C47_conversions_round_trip.

(** Exactly one of the three conversions succeeds on any interval, and the
    bounds are the ones the interval has: membership in [BinInterval] is
    [start <= x < end] with absent bounds dropped. *)
Theorem C47_one_conversion_and_bounds : forall (T : Type) (b : BinInterval T),
  ((exists r, range_try_from b = Ok r) /\ rangeto_try_from b = Err ConversionFailed
      /\ rangefrom_try_from b = Err ConversionFailed
   \/ (exists r, rangeto_try_from b = Ok r) /\ range_try_from b = Err ConversionFailed
      /\ rangefrom_try_from b = Err ConversionFailed
   \/ (exists r, rangefrom_try_from b = Ok r) /\ range_try_from b = Err ConversionFailed
      /\ rangeto_try_from b = Err ConversionFailed)
  /\ (forall r, range_try_from b = Ok r -> bi_start b = Some (range_start r) /\ bi_end b = Some (range_end r))
  /\ (forall r, rangeto_try_from b = Ok r -> bi_start b = None /\ bi_end b = Some (rangeto_end r))
  /\ (forall r, rangefrom_try_from b = Ok r -> bi_start b = Some (rangefrom_start r) /\ bi_end b = None)
  /\ (forall (P : PartialOrdOps T) x, contains b x <->
        (forall s, bi_start b = Some s -> ge_ x s = true) /\ (forall e, bi_end b = Some e -> lt_ x e = true)).
Proof.
  intros T b. destruct b as [e|s|s e]; cbn.
  - split; [right; left; eauto|]. split; [discriminate|]. split; [intros r [= <-]; auto|]. split; [discriminate|].
    intros P x. split; [intros H; split; [discriminate | intros e' [= <-]; exact H] | intros [_ H]; auto].
  - split; [right; right; eauto|]. split; [discriminate|]. split; [discriminate|]. split; [intros r [= <-]; auto|].
    intros P x. split; [intros H; split; [intros e' [= <-]; exact H | discriminate] | intros [H _]; auto].
  - split; [left; eauto|]. split; [intros r [= <-]; auto|]. split; [discriminate|]. split; [discriminate|].
    intros P x. split; [intros [H1 H2]; split; [intros e' [= <-]; exact H1 | intros e' [= <-]; exact H2] | intros [H1 H2]; auto].
Qed.
Print Assumptions C47_one_conversion_and_bounds.

(** ** Concrete instances: i32 bins over Category(5, 7, 9) and Category(7, 5, 9) *)
Example C37_C40_nonvacuous : forall B : Build,
  let reach := @vec_reachable _ Z Z Empty_set (ex_axis B) ex_eq (ex_fill B) (ex_fill_with B) ex_weighted ex_default (fun _ => True) in
  let l := mkVecHist ex_cat [1; 2; 3; 4]%Z in
  let r := mkVecHist ex_cat [10; 20; 30; 0]%Z in
  let other := mkVecHist (category_new [7; 5; 9]%Z) [1; 2; 3; 4]%Z in
  reach l /\ reach r /\ reach other /\ eq_same_bins (ex_axis B) ex_eq
  /\ @axis_eqb _ ex_eq (vh_axes l) (vh_axes r) = true /\ @axis_eqb _ ex_eq (vh_axes l) (vh_axes other) = false
  /\ @vec_binop_borrowed _ Z ex_eq (@n_sub Z (int_ops (signed 32))) l r = Val (Ok (mkVecHist ex_cat [-9; -18; -27; 4]%Z))
  /\ @vec_binop_borrowed _ Z ex_eq (@n_div Z (int_ops (signed 32))) l r = Panic
  /\ vec_scalar_op (@n_mul Z (int_ops (signed 32))) l 3%Z = Val (mkVecHist ex_cat [3; 6; 9; 12]%Z).
Proof.
  intros B reach l r other.
  split; [apply (vr_from_vec _ ex_cat [1; 2; 3; 4]%Z); [exact I | destruct B as [[] []]; vm_compute; reflexivity]|].
  split; [apply (vr_from_vec _ ex_cat [10; 20; 30; 0]%Z); [exact I | destruct B as [[] []]; vm_compute; reflexivity]|].
  split; [apply (vr_from_vec _ (category_new [7; 5; 9]%Z) [1; 2; 3; 4]%Z); [exact I | destruct B as [[] []]; vm_compute; reflexivity]|].
  split; [apply (eq_same_bins_category B Z _)|].
  split; [reflexivity|]. split; [reflexivity|].
  split; [destruct B as [[] []]; vm_compute; reflexivity|].
  split; [destruct B as [[] []]; vm_compute; reflexivity|].
  destruct B as [[] []]; vm_compute; reflexivity.
Qed.

Example C38_C46_nonvacuous : forall B : Build,
  let l : HashHistogram (Category Z) Z := mkHashHist ex_cat {[0 := 3%Z; 1 := 4%Z]} in
  let r : HashHistogram (Category Z) Z := mkHashHist ex_cat {[1 := 5%Z; 3 := 6%Z]} in
  (forall i v, hash_value_at_index l i = Some v -> fits (signed 32) v)
  /\ NoDup [3; 0; 1]
  /\ (forall i, i ∈ [3; 0; 1] <-> is_Some (hash_value_at_index l i) \/ is_Some (hash_value_at_index r i))
  /\ an_order (hash_as_map r) (map_to_list (hash_as_map r))
  /\ (exists h, @hash_binop_borrowed _ Z ex_eq ex_default (@n_sub Z (int_ops (signed 32))) l r [3; 0; 1] = Val (Ok h)
      /\ hash_value_at_index h 0 = Some 3%Z /\ hash_value_at_index h 1 = Some (-1)%Z
      /\ hash_value_at_index h 3 = Some (-6)%Z /\ hash_value_at_index h 2 = None)
  /\ @hash_eqb _ Z ex_eq Z.eqb l (mkHashHist ex_cat (<[0 := 3%Z]> {[1 := 4%Z]})) = true
  /\ @hash_eqb _ Z ex_eq Z.eqb l r = false.
Proof.
  intros B l r.
  assert (Hl : forall i v, hash_value_at_index l i = Some v -> i = 0 /\ v = 3%Z \/ i = 1 /\ v = 4%Z).
  { intros i v Hv. unfold hash_value_at_index, l in Hv. cbn [hh_values] in Hv.
    apply lookup_insert_Some in Hv as [[<- <-]|[_ Hv]]; [left; auto|]. apply lookup_singleton_Some in Hv as [<- <-]. right; auto. }
  assert (Hr : forall i v, hash_value_at_index r i = Some v -> i = 1 /\ v = 5%Z \/ i = 3 /\ v = 6%Z).
  { intros i v Hv. unfold hash_value_at_index, r in Hv. cbn [hh_values] in Hv.
    apply lookup_insert_Some in Hv as [[<- <-]|[_ Hv]]; [left; auto|]. apply lookup_singleton_Some in Hv as [<- <-]. right; auto. }
  split; [intros i v Hv; destruct (Hl i v Hv) as [[_ ->]|[_ ->]]; vm_compute; split; discriminate|].
  split; [repeat constructor; set_solver|].
  split.
  { intros i. rewrite !elem_of_cons. split.
    - intros [->|[->|[->|Hi]]]; [right; vm_compute; eauto | left; vm_compute; eauto | left; vm_compute; eauto | inversion Hi].
    - intros [[v Hv]|[v Hv]]; [destruct (Hl i v Hv) as [[-> _]|[-> _]] | destruct (Hr i v Hv) as [[-> _]|[-> _]]]; auto. }
  split; [apply Permutation_refl|].
  split; [|split; reflexivity].
  destruct B as [[] []]; (eexists; split; [vm_compute; reflexivity|]; split; [reflexivity|]; split; [reflexivity|]; split; reflexivity).
Qed.
