(** * C65: the macro-generated tuple implementations. *)
From Coq Require Import List NArith ZArith Bool String Lia Arith.
From Verif Require Import Base Num Axis Axes AxesMacro AxesSpec PropAxes.
Import ListNotations.
Open Scope N_scope.

(** ** Specification *)

(** The implementation for tuples of [k] axes, made from the first [k] pairs. *)
Definition impl_for (l : list macro_pair) (k : nat) : macro_item :=
  match k with 1%nat => ImplOne | _ => ImplMany (firstn k l) end.

(** One implementation for each number of axes, [n], [n-1], ..., 1. *)
Definition one_impl_per_dimension (l : list macro_pair) : list macro_item :=
  map (impl_for l) (rev (seq 1 (List.length l))).

(** A Rust tuple [(b_0, ..., b_{d-1})] given by its fields is the nested pair that
    [intervals] uses for it: field by field the same. *)
Fixpoint later_fields (t : axis_type) (ts : list axis_type) (n s : nat)
  : interval_tuple (t :: ts) (seq (S s) n) -> interval_tuple ts (seq s n) :=
  match n return interval_tuple (t :: ts) (seq (S s) n) -> interval_tuple ts (seq s n) with
  | O => fun b => b
  | S n' => fun b => (fst b, later_fields t ts n' (S s) (snd b))
  end.
Fixpoint as_intervals (ts : list axis_type) : interval_tuple ts (seq 0 (List.length ts)) -> intervals ts :=
  match ts return interval_tuple ts (seq 0 (List.length ts)) -> intervals ts with
  | [] => fun b => b
  | t :: ts' => fun b => (fst b, as_intervals ts' (later_fields t ts' (List.length ts') 0 (snd b)))
  end.

(** Inside [Val (Some _)]. *)
Definition map_some {A B : Type} (f : A -> B) (x : outcome (option A)) : outcome (option B) :=
  let! o := x in Val (option_map f o).

(** ** The recursion of the macro *)

Lemma expand_sep : forall n moved rest items d,
  (List.length rest <= n)%nat -> moved <> [] -> rest <> [] ->
  expands (Axes_ (moved ++ removelast rest)) items d ->
  exists d', expands (RemoveLastSep moved rest) items d'.
Proof.
  induction n as [|n IH]; intros moved rest items d Hn Hm Hr Hx.
  - destruct rest; [congruence|simpl in Hn; lia].
  - destruct moved as [|m ms]; [congruence|].
    assert (Hne : forall x, (m :: ms) ++ x <> []) by (intros x; simpl; congruence).
    destruct rest as [|a [|b [|c [|d0 [|e r]]]]]; [congruence| | | | |].
    + cbn [removelast] in Hx. rewrite app_nil_r in Hx.
      eexists. change items with ([] ++ items). eapply expands_more; [reflexivity|exact Hx].
    + destruct (IH ((m :: ms) ++ [a]) [b] items d) as [d' H']; [simpl in *; lia|apply Hne|congruence|
        rewrite <- app_assoc; exact Hx|].
      eexists. change items with ([] ++ items). eapply expands_more; [reflexivity|exact H'].
    + destruct (IH ((m :: ms) ++ [a; b]) [c] items d) as [d' H']; [simpl in *; lia|apply Hne|congruence|
        rewrite <- app_assoc; exact Hx|].
      eexists. change items with ([] ++ items). eapply expands_more; [reflexivity|exact H'].
    + destruct (IH ((m :: ms) ++ [a; b]) [c; d0] items d) as [d' H']; [simpl in *; lia|apply Hne|congruence|
        rewrite <- app_assoc; exact Hx|].
      eexists. change items with ([] ++ items). eapply expands_more; [reflexivity|exact H'].
    + destruct (IH ((m :: ms) ++ [a; b; c; d0]) (e :: r) items d) as [d' H']; [simpl in *; lia|apply Hne|congruence|
        rewrite <- app_assoc; exact Hx|].
      eexists. change items with ([] ++ items). eapply expands_more; [reflexivity|exact H'].
Qed.

Lemma expands_det : forall c i1 d1, expands c i1 d1 -> forall i2 d2, expands c i2 d2 -> i1 = i2 /\ d1 = d2.
Proof.
  induction 1 as [c i1 H1|c i1 c' i1' d1 H1 H1' IH]; intros i2 d2 H2; inversion H2; subst;
    match goal with Ha : expand_once c = _, Hb : expand_once c = _ |- _ => rewrite Ha in Hb; inversion Hb; subst end.
  - auto.
  - edestruct IH as [-> ->]; [eassumption|auto].
Qed.

Lemma removelast_length : forall A (l : list A), List.length (removelast l) = Nat.pred (List.length l).
Proof. induction l as [|x [|y l] IH]; simpl in *; [reflexivity|reflexivity|rewrite IH; reflexivity]. Qed.

Lemma removelast_firstn_pred : forall A (l : list A), removelast l = firstn (Nat.pred (List.length l)) l.
Proof. induction l as [|x [|y l] IH]; [reflexivity|reflexivity|]. cbn [removelast List.length Nat.pred firstn] in *. rewrite IH. reflexivity. Qed.

Lemma expand_axes : forall n l, List.length l = S n -> exists d, expands (Axes_ l) (one_impl_per_dimension l) d.
Proof.
  induction n as [|n IH]; intros l Hl.
  - destruct l as [|p [|q l]]; try discriminate.
    exists 2%nat. change (one_impl_per_dimension [p]) with ([ImplOne] ++ []).
    eapply expands_more; [reflexivity|]. apply expands_stop. reflexivity.
  - destruct (IH (removelast l)) as [d Hd]; [rewrite removelast_length, Hl; reflexivity|].
    destruct l as [|p [|q l]]; try discriminate.
    assert (Hone : one_impl_per_dimension (p :: q :: l)
      = [ImplMany (p :: q :: l)] ++ one_impl_per_dimension (removelast (p :: q :: l))).
    { unfold one_impl_per_dimension. rewrite removelast_length, Hl. cbn [Nat.pred].
      rewrite seq_S, rev_app_distr. cbn [rev app map]. f_equal.
      - cbn [Nat.add impl_for]. rewrite <- Hl. rewrite firstn_all. reflexivity.
      - apply map_ext_in. intros k Hk. apply in_rev, in_seq in Hk.
        destruct k as [|[|k]]; [lia|reflexivity|].
        unfold impl_for. f_equal. rewrite removelast_firstn_pred, Hl, firstn_firstn. f_equal. lia. }
    destruct (expand_sep (List.length (q :: l)) [p] (q :: l) _ _ (le_n _) ltac:(congruence) ltac:(congruence)
                ltac:(cbn [app]; exact Hd)) as [d' H'].
    eexists. rewrite Hone.
    eapply expands_more; [reflexivity|].
    change (one_impl_per_dimension (removelast (p :: q :: l)))
      with ([] ++ one_impl_per_dimension (removelast (p :: q :: l))).
    eapply expands_more; [reflexivity|]. exact H'.
Qed.

(** For every list of parameters the macro is invoked with, the expansion ends, no
    step lacks a matching arm, and it writes exactly one implementation for each
    number of axes from 1 to the number of parameters, each for the first
    parameters of the list (whatever the shortcuts that move 4 or 2 at once do). *)
Theorem C65_macro_expansion : forall l, l <> [] ->
  (exists d, expands (Axes_ l) (one_impl_per_dimension l) d)
  /\ (forall items d, expands (Axes_ l) items d -> items = one_impl_per_dimension l).
Proof.
  intros l Hl. destruct (expand_axes (Nat.pred (List.length l)) l) as [d Hd].
  - destruct l; [congruence|reflexivity].
  - split; [eauto|]. intros items d' H'. edestruct expands_det as [E _]; [exact Hd|exact H'|]. congruence.
Qed.
Print Assumptions C65_macro_expansion.

Lemma NoDup_app_l : forall A (l l' : list A), NoDup (l ++ l') -> NoDup l.
Proof.
  induction l as [|x l IH]; intros l' Hn; [constructor|]. inversion Hn as [|? ? Hx Hl]; subst. constructor.
  - intros Hi. apply Hx. apply in_or_app. auto.
  - eapply IH; eassumption.
Qed.

(** Expansion as a computation, to find its depth. *)
Fixpoint expand_fuel (n : nat) (c : macro_call) : option (list macro_item * nat) :=
  match n with
  | O => None
  | S n' =>
      match expand_once c with
      | None => None
      | Some (items, None) => Some (items, 1%nat)
      | Some (items, Some c') =>
          match expand_fuel n' c' with
          | Some (items', d) => Some (items ++ items', S d)
          | None => None
          end
      end
  end.

Lemma expand_fuel_sound : forall n c items d, expand_fuel n c = Some (items, d) -> expands c items d.
Proof.
  induction n as [|n IH]; intros c items d; simpl; [discriminate|].
  destruct (expand_once c) as [[its [c'|]]|] eqn:E; try discriminate.
  - destruct (expand_fuel n c') as [[its' d']|] eqn:E'; [|discriminate]. intros X; inversion X; subst.
    eapply expands_more; eauto.
  - intros X; inversion X; subst. apply expands_stop; exact E.
Qed.

(** The crate's own invocation: tuples of 1 to 21 axes, each exactly once, the one
    for [k] axes accessing the fields 0, ..., k-1 in order under [k] different
    names; and the nesting stays within rustc's default recursion limit. *)
Theorem C65_crate_dimensions :
  exists items d, expands (Axes_ crate_pairs) items d /\ (d <= 128)%nat
  /\ items = map (impl_for crate_pairs) (rev (seq 1 21))
  /\ forall k, (1 < k <= 21)%nat ->
       exists l, impl_for crate_pairs k = ImplMany l /\ map snd l = seq 0 k /\ NoDup (map fst l).
Proof.
  assert (H : exists d, expand_fuel 128 (Axes_ crate_pairs) = Some (one_impl_per_dimension crate_pairs, d)
                        /\ (d <= 128)%nat).
  { eexists. split; [vm_compute; reflexivity|]. vm_compute. lia. }
  destruct H as (d & H & Hd). apply expand_fuel_sound in H.
  exists (one_impl_per_dimension crate_pairs), d. split; [exact H|]. split; [exact Hd|]. split; [reflexivity|].
  intros k Hk. exists (firstn k crate_pairs).
  split; [destruct k as [|[|k]]; [lia|lia|reflexivity]|].
  assert (Hn : NoDup (map fst crate_pairs)).
  { cbn [crate_pairs map fst]. repeat constructor; cbn [In]; intuition discriminate. }
  split.
  - rewrite <- firstn_map. change (map snd crate_pairs) with (seq 0 21).
    replace 21%nat with (k + (21 - k))%nat by lia. rewrite seq_app, firstn_app, seq_length, Nat.sub_diag.
    rewrite firstn_O, app_nil_r. apply firstn_all2. rewrite seq_length. lia.
  - rewrite <- firstn_map. rewrite <- (firstn_skipn k (map fst crate_pairs)) in Hn.
    exact (NoDup_app_l _ _ _ Hn).
Qed.
Print Assumptions C65_crate_dimensions.

(** That is also why there are 21: for any list of 22 parameters the macro nests
    130 deep, more than the default limit of 128. *)
Theorem C65_recursion_limit : forall l items d,
  expands (Axes_ l) items d ->
  (List.length l = 21 -> d = 122)%nat /\ (List.length l = 22 -> d = 130)%nat.
Proof.
  intros l items d Hx. split; intros Hl;
  repeat (destruct l as [|? l]; [discriminate Hl|]; cbn [List.length] in Hl; apply Nat.succ_inj in Hl);
  (destruct l; [clear Hl|discriminate Hl]);
  match type of Hx with expands ?c _ _ =>
    let r := eval vm_compute in (expand_fuel 200 c) in
    match r with Some (?its, ?d') =>
      assert (Hf : expand_fuel 200 c = Some (its, d')) by (vm_compute; reflexivity)
    end
  end;
  apply expand_fuel_sound in Hf; destruct (expands_det _ _ _ Hf _ _ Hx) as [_ <-]; reflexivity.
Qed.
Print Assumptions C65_recursion_limit.

(** ** The body for fields 0, ..., d-1 *)

Lemma mapo_map : forall A B C (f : B -> outcome C) (g : A -> B) l, mapo f (map g l) = mapo (fun x => f (g x)) l.
Proof. induction l as [|x l IH]; simpl; [reflexivity|rewrite IH; reflexivity]. Qed.
Lemma foldo_map : forall A B S0 (f : S0 -> B -> outcome S0) (g : A -> B) l s,
  foldo f (map g l) s = foldo (fun s x => f s (g x)) l s.
Proof. induction l as [|x l IH]; intros s; simpl; [reflexivity|]. destruct (f s (g x)); simpl; [apply IH|reflexivity]. Qed.
Lemma array_q_map : forall f (g : nat -> nat) l, array_q f (map g l) = array_q (fun x => f (g x)) l.
Proof. induction l as [|x l IH]; simpl; [reflexivity|rewrite IH; reflexivity]. Qed.
Lemma seq_1 : forall n, seq 1 n = map S (seq 0 n).
Proof. intros n. symmetry. apply seq_shift. Qed.

Lemma fields_num_bins : forall ts (a : axes_tuple ts),
  mapo (fun k => field_num_bins ts k a) (seq 0 (List.length ts)) = all_num_bins ts a.
Proof.
  induction ts as [|t ts IH]; intros a; [reflexivity|].
  cbn [List.length seq mapo all_num_bins]. rewrite seq_1, mapo_map. cbn [field_num_bins].
  rewrite IH. reflexivity.
Qed.

Lemma fields_index : forall ts (a : axes_tuple ts) c,
  array_q (fun k => field_index ts k a c) (seq 0 (List.length ts)) = all_indices ts a c.
Proof.
  induction ts as [|t ts IH]; intros a c; [reflexivity|].
  cbn [List.length seq array_q all_indices]. rewrite seq_1, array_q_map. cbn [field_index].
  rewrite IH. reflexivity.
Qed.

Section Fold.
Context `{Build}.
Lemma foldo_fields : forall (f : nat -> outcome N) ks n,
  foldo (fun p k => let! m := f k in umul p m) ks n
  = (let! ns := mapo f ks in foldo umul ns n).
Proof.
  induction ks as [|k ks IH]; intros n; [reflexivity|].
  cbn [foldo mapo]. destruct (f k) as [m|]; [|reflexivity]. cbn [obind].
  destruct (umul n m) as [p|] eqn:E; cbn [obind].
  - rewrite IH. destruct (mapo f ks); cbn [obind foldo]; [rewrite E|]; reflexivity.
  - destruct (mapo f ks); cbn [obind foldo]; [rewrite E|]; reflexivity.
Qed.

End Fold.

Lemma later_fields_bin : forall t ts n s (a : axes_tuple (t :: ts)) d ds,
  map_some (later_fields t ts n s) (tuple_q (t :: ts) a (d :: ds) (seq (S s) n))
  = tuple_q ts (snd a) ds (seq s n).
Proof.
  intros t ts n. induction n as [|n IH]; intros s a d ds; [reflexivity|].
  cbn [seq tuple_q nth_error]. destruct (nth_error ds s) as [x|]; [|reflexivity].
  change (field_bin (t :: ts) (S s) a x) with (field_bin ts s (snd a) x).
  destruct (field_bin ts s (snd a) x) as [[b|]|]; [|reflexivity|reflexivity]. cbn [obind].
  rewrite <- (IH (S s) a d ds).
  destruct (tuple_q (t :: ts) a (d :: ds) (seq (S (S s)) n)) as [[bs|]|]; reflexivity.
Qed.

Lemma fields_bin : forall ts (a : axes_tuple ts) ds,
  map_some (as_intervals ts) (tuple_q ts a ds (seq 0 (List.length ts))) = all_bins ts a ds.
Proof.
  induction ts as [|t ts IH]; intros a ds; [reflexivity|].
  destruct ds as [|d ds]; [reflexivity|].
  cbn [List.length seq tuple_q nth_error all_bins].
  change (field_bin (t :: ts) 0 a d) with (@bin _ (at_axis t) (fst a) d).
  destruct (@bin _ (at_axis t) (fst a) d) as [[b|]|]; [|reflexivity|reflexivity]. cbn [obind].
  rewrite <- (IH (snd a) ds), <- (later_fields_bin t ts (List.length ts) 0 a d ds).
  destruct (tuple_q (t :: ts) a (d :: ds) (seq 1 (List.length ts))) as [[bs|]|]; reflexivity.
Qed.

(** What the macro writes for the fields 0, ..., d-1 (by C65_crate_dimensions, what
    it writes for [d] = 2, ..., 21) behaves, for every tuple of [d] axes of any
    types, as the tuple model about which all other theorems speak: same outcome
    (value, None or panic) of construction, [index], [num_bins], [num_dim] and
    [bin]. *)
Theorem C65_macro_body : forall (B : Build) (ts : list axis_type),
  let fields := seq 0 (List.length ts) in
  (forall axes : axes_tuple ts, body_from ts fields axes = axes_from axes)
  /\ (forall (a : AxesTuple ts) c, body_index ts fields a c = @index _ (axes_axis ts) a c)
  /\ (forall a : AxesTuple ts, body_num_bins ts fields a = @num_bins _ (axes_axis ts) a)
  /\ (forall a : AxesTuple ts, body_num_dim fields = @num_dim _ (axes_axis ts) a)
  /\ (forall (a : AxesTuple ts) i, map_some (as_intervals ts) (body_bin ts fields a i) = @bin _ (axes_axis ts) a i).
Proof.
  intros B ts fields. subst fields. split; [|split; [|split; [|split]]].
  - intros axes. unfold body_from, axes_from. rewrite fields_num_bins. reflexivity.
  - intros a c. cbn [index axes_axis]. unfold body_index, axes_index. rewrite fields_index. reflexivity.
  - intros a. cbn [num_bins axes_axis]. unfold body_num_bins, axes_num_bins.
    rewrite <- fields_num_bins. destruct (List.length ts); [reflexivity|]. cbn [seq mapo].
    destruct (field_num_bins ts 0 (ax_axes a)) as [n0|]; [|reflexivity]. cbn [obind].
    rewrite foldo_fields.
    destruct (mapo (fun k0 => field_num_bins ts k0 (ax_axes a)) (seq 1 n)); reflexivity.
  - intros a. unfold body_num_dim. rewrite seq_length. reflexivity.
  - intros a i. cbn [bin axes_axis]. unfold body_bin, axes_bin.
    rewrite fields_num_bins. destruct (all_num_bins ts (ax_axes a)) as [ns|]; [|reflexivity]. cbn [obind].
    destruct (digits i ns) as [ds|]; [|reflexivity]. cbn [obind].
    rewrite <- fields_bin. reflexivity.
Qed.
Print Assumptions C65_macro_body.

(** Three axes: the expansion of [X: 0, Y: 1, Z: 2], and the two-axis body run on
    the axes of the examples of C21. *)
Example C65_nonvacuous : forall B : Build,
  expands (Axes_ [("X", 0); ("Y", 1); ("Z", 2)]%string%nat)
    [ImplMany [("X", 0); ("Y", 1); ("Z", 2)]%string%nat; ImplMany [("X", 0); ("Y", 1)]%string%nat; ImplOne] 9
  /\ (let ts := [uni_i32 B; cat_Z B] in
      match body_from ts [0; 1]%nat (example_axes B) with
      | Val a => ax_shape a = [5; 15] /\ body_num_bins ts [0; 1]%nat a = Val 15
                 /\ body_index ts [0; 1]%nat a (25, (7, tt))%Z = Val (Some 8)
                 /\ (exists b, body_bin ts [0; 1]%nat a 8 = Val (Some (b, (SVBin 7%Z, tt))) /\ b = Bin 20%Z 30%Z)
      | Panic => False
      end).
Proof.
  intros B. split; [apply (expand_fuel_sound 10); reflexivity|].
  destruct B as [[] []]; cbv [body_from uni_i32]; cbn; (split; [reflexivity|split; [reflexivity|split; [reflexivity|]]]); eexists; split; reflexivity.
Qed.
