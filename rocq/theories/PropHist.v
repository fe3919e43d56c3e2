(** * Property theorems: filling and iterating histograms (C26-C33). *)
From stdpp Require Import gmap.
From Coq Require Import ZifyN ZifyNat.
From Verif Require Import Base BaseFacts Num Axis Uniform StdAlgo VarAxis Category Axes AxesSpec AxesFacts
  PropAxes Value VecHist HashHist HistSpec HistFacts.
Open Scope N_scope.

(** ** Equal axes have equally many bins (used by C26, C31) *)

Lemma eq_same_bins_uniform (B : Build) T (ops : NumOps T) :
  eq_same_bins (uniform_axis ops) {| axis_eqb := uniform_eqb ops |}
  /\ eq_same_bins (uniformnoflow_axis ops) {| axis_eqb := uniformnoflow_eqb ops |}
  /\ eq_same_bins (uniformcyclic_axis ops) {| axis_eqb := uniformcyclic_eqb ops |}.
Proof.
  assert (Hu : forall a b : Uniform T, uniform_eqb ops a b = true -> u_num a = u_num b).
  { intros a b. unfold uniform_eqb. destruct (N.eqb_spec (u_num a) (u_num b)); [auto | discriminate]. }
  split; [|split]; intros a b; cbn [axis_eqb num_bins uniform_axis uniformnoflow_axis uniformcyclic_axis];
    unfold uniformcyclic_eqb, uniformnoflow_eqb, uniformnoflow_num_bins, uniform_num_bins;
    intros Heq; rewrite (Hu _ _ Heq); reflexivity.
Qed.

Lemma eq_same_bins_variable (B : Build) (search : searcher) T (ops : NumOps T) :
  eq_same_bins (variable_axis (H0 := num_ord) search) {| axis_eqb := variable_eqb (H0 := num_ord) |}
  /\ eq_same_bins (variablenoflow_axis (H0 := num_ord) search) {| axis_eqb := variablenoflow_eqb (H0 := num_ord) |}
  /\ eq_same_bins (variablecyclic_axis search ops) {| axis_eqb := variablecyclic_eqb ops |}.
Proof.
  assert (Hl : forall l l' : list T, list_eqb (H0 := num_ord) l l' = true -> length l = length l').
  { induction l as [|x l IH]; intros [|y l']; simpl; try discriminate; [reflexivity|].
    intros Heq. apply andb_prop in Heq as [_ Heq]. f_equal. now apply IH. }
  split; [|split]; intros a b;
    cbn [axis_eqb num_bins variable_axis variablenoflow_axis variablecyclic_axis];
    unfold variablecyclic_eqb, variablenoflow_eqb, variable_eqb, variablenoflow_num_bins, variable_num_bins;
    intros Heq; rewrite (Hl _ _ Heq); reflexivity.
Qed.

Lemma eq_same_bins_category (B : Build) T (eqd : EqDecision T) :
  eq_same_bins (category_axis (T := T)) {| axis_eqb := category_eqb |}
  /\ eq_same_bins (categorynoflow_axis (T := T)) {| axis_eqb := categorynoflow_eqb |}.
Proof.
  assert (Hc : forall a b : Category T, category_eqb a b = true -> category_len a = category_len b).
  { intros a b Heq. unfold category_eqb in Heq. apply andb_prop in Heq as [_ Heq].
    apply bool_decide_eq_true in Heq. unfold category_len. now rewrite Heq. }
  split; intros a b; cbn [axis_eqb num_bins category_axis categorynoflow_axis];
    unfold categorynoflow_eqb, categorynoflow_num_bins, category_num_bins;
    intros Heq; rewrite (Hc _ _ Heq); reflexivity.
Qed.

Lemma eq_same_bins_axes1 (X : Type) (AX : Axis X) (EX : AxisEq X) :
  eq_same_bins AX EX -> eq_same_bins axes1_axis axes1_eq.
Proof.
  intros Hx a b Heq. cbn [axis_eqb axes1_eq] in Heq. unfold axes1_eqb in Heq.
  apply andb_prop in Heq as [Heq _]. exact (Hx _ _ Heq).
Qed.

Lemma eq_same_bins_axes (B : Build) (ts : list axis_type) :
  Forall (fun t => eq_same_bins (at_axis t) (at_eq t)) ts -> eq_same_bins (axes_axis ts) (axes_eq ts).
Proof.
  intros Hts a b Heq. cbn [axis_eqb axes_eq] in Heq. unfold axes_eqb in Heq.
  apply andb_prop in Heq as [Heq _]. cbn [num_bins axes_axis]. unfold axes_num_bins.
  assert (Hn : all_num_bins ts (ax_axes a) = all_num_bins ts (ax_axes b)).
  { destruct a as [a sa], b as [b sb]. cbn [ax_axes] in *. clear sa sb.
    induction Hts as [|t ts Ht Hts IH]; [reflexivity|]. cbn [tuple_eqb all_num_bins] in *.
    apply andb_prop in Heq as [H1 H2]. rewrite (Ht _ _ H1), (IH _ _ H2). reflexivity. }
  now rewrite Hn.
Qed.

Section Dense.
Context {A V D W : Type} {AX : Axis A} {AE : AxisEq A} {FV : Fill V} {FD : FillWith V D}
        {FW : FillWithWeighted V D W} {DV : Default V}.

Lemma zip_update_spec {I} (f : N -> I -> V -> outcome V) bs vs vs' : zip_update f bs vs = Val vs' ->
  length vs' = length vs
  /\ forall k i b v, nth_error bs k = Some (i, b) -> nth_error vs k = Some v ->
       exists v', f i b v = Val v' /\ nth_error vs' k = Some v'.
Proof.
  revert vs vs'. induction bs as [|[i b] bs IH]; intros vs vs' Hz.
  - simpl in Hz. injection Hz as <-. split; [reflexivity|]. intros [|k]; discriminate.
  - destruct vs as [|v vs]; simpl in Hz.
    + injection Hz as <-. split; [reflexivity|]. intros [|k]; discriminate.
    + apply obind_val in Hz as [v' [Hf Hz]]. apply obind_val in Hz as [r [Hr Hz]]. injection Hz as <-.
      destruct (IH _ _ Hr) as [Hl Hn]. split; [simpl; congruence|].
      intros [|k] i0 b0 v0 Hb Hv; simpl in *.
      * injection Hb as -> ->. injection Hv as ->. eauto.
      * eauto.
Qed.

Lemma zip_update_total {I} (f : N -> I -> V -> outcome V) bs vs :
  (forall k i b v, nth_error bs k = Some (i, b) -> nth_error vs k = Some v -> exists v', f i b v = Val v') ->
  exists vs', zip_update f bs vs = Val vs'.
Proof.
  revert vs. induction bs as [|[i b] bs IH]; intros vs Hf; [eauto|].
  destruct vs as [|v vs]; [simpl; eauto|]. simpl.
  destruct (Hf 0%nat i b v eq_refl eq_refl) as [v' ->]. cbn [obind].
  destruct (IH vs) as [r ->]; [|cbn [obind]; eauto].
  intros k i0 b0 v0 Hb Hv. exact (Hf (S k) i0 b0 v0 Hb Hv).
Qed.

Lemma zip_assign_length (op : V -> V -> outcome V) l r z : zip_assign op l r = Val z -> length z = length l.
Proof.
  revert r z. induction l as [|x l IH]; intros r z Hz; [injection Hz as <-; reflexivity|].
  destruct r as [|y r]; simpl in Hz; [injection Hz as <-; reflexivity|].
  apply obind_val in Hz as [w [_ Hz]]. apply obind_val in Hz as [ws [Hw Hz]]. injection Hz as <-.
  simpl. f_equal. eauto.
Qed.

(** The axes after each kind of operation are those before it. *)
Lemma vec_iter_mut_axes (h h' : VecHistogram A V) f : vec_iter_mut h f = Val h' ->
  vh_axes h' = vh_axes h /\ length (vh_values h') = length (vh_values h).
Proof.
  unfold vec_iter_mut. intros Hm. apply obind_val in Hm as [bs [_ Hm]].
  apply obind_val in Hm as [vs [Hz Hm]]. injection Hm as <-. split; [reflexivity|].
  exact (proj1 (zip_update_spec _ _ _ _ Hz)).
Qed.

Lemma vec_values_mut_axes (h h' : VecHistogram A V) f : vec_values_mut h f = Val h' ->
  vh_axes h' = vh_axes h /\ length (vh_values h') = length (vh_values h).
Proof.
  unfold vec_values_mut. intros Hm. apply obind_val in Hm as [vs [Hz Hm]]. injection Hm as <-.
  split; [reflexivity|]. now apply mapo_length in Hz.
Qed.
End Dense.

(** ** C26 *)
Theorem C26_vec_length_invariant :
  forall A V D W (AX : Axis A) (AE : AxisEq A) (FV : Fill V) (FD : FillWith V D)
         (FW : FillWithWeighted V D W) (DV : Default V) (ok : A -> Prop),
  eq_same_bins AX AE ->
  forall h : VecHistogram A V, @vec_reachable A V D W AX AE FV FD FW DV ok h ->
  num_bins (vh_axes h) = Val (N.of_nat (length (vec_values h))).
Proof.
  intros A V D W AX AE FV FD FW DV ok Heq h Hr. unfold vec_values.
  induction Hr as [axes h _ Hn | axes vs h _ Hn | h o h' _ IH Hc | h i r v _ IH Hm | h c r v _ IH Hm
    | h f h' _ IH Hm | h f h' _ IH Hm | op l r h' _ IHl _ IHr Hb | op l r h' _ IHl _ IHr Hb
    | op l r h' _ IHl _ IHr Hb | op l s h' _ IH Hb].
  - unfold vec_new in Hn. apply obind_val in Hn as [n [En Hn]]. injection Hn as <-. cbn [vh_axes vh_values].
    rewrite En, repeat_length. f_equal. lia.
  - unfold vec_from_vec in Hn. apply obind_val in Hn as [n [En Hn]].
    destruct (N.eqb_spec n (N.of_nat (length vs))) as [->|]; [|discriminate]. injection Hn as <-. exact En.
  - destruct (vec_call_axes _ _ _ Hc) as [-> ->]. exact IH.
  - unfold vec_value_at_index_mut in Hm. destruct (nth_error (vh_values h) (N.to_nat i)); [|discriminate].
    injection Hm as <-. cbn [assign vh_axes vh_values]. now rewrite set_nth_length.
  - unfold vec_value_mut in Hm. apply obind_val in Hm as [oi [_ Hm]]. destruct oi as [i|]; [|discriminate].
    injection Hm as Hm.
    unfold vec_value_at_index_mut in Hm. destruct (nth_error (vh_values h) (N.to_nat i)); [|discriminate].
    injection Hm as <-. cbn [assign vh_axes vh_values]. now rewrite set_nth_length.
  - destruct (vec_values_mut_axes _ _ _ Hm) as [-> ->]. exact IH.
  - destruct (vec_iter_mut_axes _ _ _ Hm) as [-> ->]. exact IH.
  - unfold vec_binop_borrowed in Hb. destruct (axis_eqb (vh_axes l) (vh_axes r)) eqn:E; [|discriminate].
    cbn [negb] in Hb. apply obind_val in Hb as [vs [Hm Hb]]. injection Hb as <-. cbn [vh_axes vh_values].
    apply mapo_length in Hm. rewrite Hm, combine_length.
    pose proof (Heq _ _ E) as Hn. rewrite IHl, IHr in Hn. injection Hn as Hn. rewrite IHl. f_equal. lia.
  - unfold vec_binop_owned in Hb. destruct (axis_eqb (vh_axes l) (vh_axes r)); [|discriminate].
    cbn [negb] in Hb. apply obind_val in Hb as [vs [Hm Hb]]. injection Hb as <-. cbn [vh_axes vh_values].
    now rewrite (zip_assign_length _ _ _ _ Hm).
  - unfold vec_binop_assign in Hb. destruct (axis_eqb (vh_axes l) (vh_axes r)); [|discriminate].
    cbn [negb] in Hb. apply obind_val in Hb as [vs [Hm Hb]]. injection Hb as <-. cbn [vh_axes vh_values].
    now rewrite (zip_assign_length _ _ _ _ Hm).
  - unfold vec_scalar_op in Hb. apply obind_val in Hb as [vs [Hm Hb]]. injection Hb as <-.
    cbn [vh_axes vh_values]. now rewrite (mapo_length _ _ _ Hm).
Qed.
Print Assumptions C26_vec_length_invariant.

Theorem C26_vec_axes_never_change :
  forall A V D W (AX : Axis A) (AE : AxisEq A) (FV : Fill V) (FD : FillWith V D)
         (FW : FillWithWeighted V D W) (h h' r : VecHistogram A V),
  (forall o : fill_op D W, vec_call h o = Val h' -> vh_axes h' = vh_axes h)
  /\ (forall i p v, vec_value_at_index_mut h i = Some p -> vh_axes (assign p v) = vh_axes h)
  /\ (forall c p v, vec_value_mut h c = Val (Some p) -> vh_axes (assign p v) = vh_axes h)
  /\ (forall f, vec_values_mut h f = Val h' -> vh_axes h' = vh_axes h)
  /\ (forall f, vec_iter_mut h f = Val h' -> vh_axes h' = vh_axes h)
  /\ (forall op, vec_binop_borrowed op h r = Val (Ok h') -> vh_axes h' = vh_axes h)
  /\ (forall op, vec_binop_owned op h r = Val (Ok h') -> vh_axes h' = vh_axes h)
  /\ (forall op, vec_binop_assign op h r = Val h' -> vh_axes h' = vh_axes h)
  /\ (forall op s, vec_scalar_op op h s = Val h' -> vh_axes h' = vh_axes h).
Proof.
  intros A V D W AX AE FV FD FW h h' r.
  split; [intros o Hc; exact (proj1 (vec_call_axes _ _ _ Hc))|].
  split.
  { intros i p v Hm. unfold vec_value_at_index_mut in Hm.
    destruct (nth_error (vh_values h) (N.to_nat i)); [|discriminate]. injection Hm as <-. reflexivity. }
  split.
  { intros c p v Hm. unfold vec_value_mut in Hm. apply obind_val in Hm as [[i|] [_ Hm]]; [|discriminate].
    injection Hm as Hm. unfold vec_value_at_index_mut in Hm.
    destruct (nth_error (vh_values h) (N.to_nat i)); [|discriminate]. injection Hm as <-. reflexivity. }
  split; [intros f Hm; exact (proj1 (vec_values_mut_axes _ _ _ Hm))|].
  split; [intros f Hm; exact (proj1 (vec_iter_mut_axes _ _ _ Hm))|].
  split; [|split; [|split]].
  - intros op Hb. unfold vec_binop_borrowed in Hb.
    destruct (negb (axis_eqb (vh_axes h) (vh_axes r))); [discriminate|].
    apply obind_val in Hb as [vs [_ Hb]]. injection Hb as <-. reflexivity.
  - intros op Hb. unfold vec_binop_owned in Hb.
    destruct (negb (axis_eqb (vh_axes h) (vh_axes r))); [discriminate|].
    apply obind_val in Hb as [vs [_ Hb]]. injection Hb as <-. reflexivity.
  - intros op Hb. unfold vec_binop_assign in Hb.
    destruct (negb (axis_eqb (vh_axes h) (vh_axes r))); [discriminate|].
    apply obind_val in Hb as [vs [_ Hb]]. injection Hb as <-. reflexivity.
  - intros op s Hb. unfold vec_scalar_op in Hb. apply obind_val in Hb as [vs [_ Hb]]. injection Hb as <-. reflexivity.
Qed.
Print Assumptions C26_vec_axes_never_change.

(** ** C27 *)

(** Dense: the one bin the axes name changes by the bin value's own fill; every
    other bin and the axes stay; an uncovered coordinate changes nothing. *)
Theorem C27_vec_fill_changes_one_bin :
  forall A V D W (AX : Axis A) (FV : Fill V) (FD : FillWith V D) (FW : FillWithWeighted V D W)
         (h h' : VecHistogram A V) (o : fill_op D W),
  vec_call h o = Val h' ->
  vh_axes h' = vh_axes h
  /\ (index (vh_axes h) (op_coordinate o) = Val None -> h' = h)
  /\ (forall i, index (vh_axes h) (op_coordinate o) = Val (Some i) ->
        (forall v, vec_value_at_index h i = Some v ->
           exists v', op_effect o v = Val v' /\ vec_value_at_index h' i = Some v')
        /\ (vec_value_at_index h i = None -> h' = h)
        /\ forall j, j <> i -> vec_value_at_index h' j = vec_value_at_index h j).
Proof.
  intros A V D W AX FV FD FW h h' o Hc. split; [exact (proj1 (vec_call_axes _ _ _ Hc))|].
  rewrite vec_call_spec in Hc. unfold vec_value_at_index. split.
  - intros Hi. rewrite Hi in Hc. congruence.
  - intros i Hi. rewrite Hi in Hc.
    destruct (nth_error (vh_values h) (N.to_nat i)) as [v|] eqn:Ev.
    + apply obind_val in Hc as [v' [He Hc]]. injection Hc as <-. cbn [vh_values].
      split; [|split; [discriminate|]].
      * intros v0 [= <-]. exists v'. split; [exact He|]. apply set_nth_same. eapply nth_error_some_lt; eauto.
      * intros j Hj. apply set_nth_other. lia.
    + injection Hc as <-. split; [discriminate|]. split; [reflexivity|]. reflexivity.
Qed.
Print Assumptions C27_vec_fill_changes_one_bin.

(** Sparse: the same, a missing bin counting as the default value. *)
Theorem C27_hash_fill_changes_one_bin :
  forall A V D W (AX : Axis A) (FV : Fill V) (FD : FillWith V D) (FW : FillWithWeighted V D W)
         (DV : Default V) (h h' : HashHistogram A V) (o : fill_op D W),
  hash_call h o = Val h' ->
  hh_axes h' = hh_axes h
  /\ (index (hh_axes h) (op_coordinate o) = Val None -> h' = h)
  /\ (forall i, index (hh_axes h) (op_coordinate o) = Val (Some i) ->
        (exists v', op_effect o (match hash_value_at_index h i with Some v => v | None => default_v end) = Val v'
                    /\ hash_value_at_index h' i = Some v')
        /\ forall j, j <> i -> hash_value_at_index h' j = hash_value_at_index h j).
Proof.
  intros A V D W AX FV FD FW DV h h' o Hc. split; [exact (hash_call_axes _ _ _ Hc)|]. split.
  - intros Hi. rewrite hash_call_spec, Hi in Hc. congruence.
  - intros i Hi. split.
    + pose proof (hash_call_value _ _ _ i Hc) as Hv. rewrite (proj2 (lands_in_iff _ _ _) Hi) in Hv. exact Hv.
    + intros j Hj. pose proof (hash_call_value _ _ _ j Hc) as Hv.
      destruct (lands_in (hh_axes h) j o) eqn:E; [|exact Hv].
      apply lands_in_iff in E. congruence.
Qed.
Print Assumptions C27_hash_fill_changes_one_bin.

(** ** C28 *)
Theorem C28_vec_contents_are_tally :
  forall A V D W (AX : Axis A) (FV : Fill V) (FD : FillWith V D) (FW : FillWithWeighted V D W)
         (DV : Default V) (a : A) n (h0 h : VecHistogram A V) (ops : list (fill_op D W)),
  num_bins a = Val n -> vec_new a = Val h0 -> vec_calls h0 ops = Val h ->
  vh_axes h = a
  /\ (forall i, i < n -> exists v, vec_value_at_index h i = Some v
                          /\ apply_all (reaching a i ops) default_v = Val v)
  /\ (forall i, n <= i -> vec_value_at_index h i = None)
  /\ (forall c, vec_value h c = match index a c with
                                | Val (Some i) => Val (vec_value_at_index h i)
                                | Val None => Val None
                                | Panic => Panic
                                end).
Proof.
  intros A V D W AX FV FD FW DV a n h0 h ops Hn H0 Hc.
  unfold vec_new in H0. rewrite Hn in H0. cbn [obind] in H0. injection H0 as <-.
  destruct (vec_calls_inv _ _ _ Hc) as [Ha [Hl [_ Hv]]]. cbn [vh_axes vh_values] in *.
  rewrite repeat_length in Hl. split; [exact Ha|]. split; [|split].
  - intros i Hi. destruct (Hv i default_v) as [v Hv']; [apply nth_error_repeat_lt; lia|]. eauto.
  - intros i Hi. unfold vec_value_at_index. apply nth_error_None. lia.
  - intros c. unfold vec_value. rewrite Ha. destruct (index a c) as [[i|]|]; reflexivity.
Qed.
Print Assumptions C28_vec_contents_are_tally.

(** The history goes through exactly when every [index] call returns and no
    bin's own fill panics. *)
Theorem C28_vec_history_returns_iff :
  forall A V D W (AX : Axis A) (FV : Fill V) (FD : FillWith V D) (FW : FillWithWeighted V D W)
         (DV : Default V) (a : A) n (h0 : VecHistogram A V) (ops : list (fill_op D W)),
  num_bins a = Val n -> vec_new a = Val h0 ->
  ((exists h, vec_calls h0 ops = Val h) <->
   (forall o, In o ops -> exists r, index a (op_coordinate o) = Val r)
   /\ (forall i, i < n -> exists v, apply_all (V := V) (reaching a i ops) default_v = Val v)).
Proof.
  intros A V D W AX FV FD FW DV a n h0 ops Hn H0.
  pose proof H0 as H0'. unfold vec_new in H0'. rewrite Hn in H0'. cbn [obind] in H0'. injection H0' as <-.
  split.
  - intros [h Hc]. destruct (vec_calls_inv _ _ _ Hc) as [_ [_ [Hix _]]]. split; [exact Hix|].
    intros i Hi. destruct (C28_vec_contents_are_tally _ _ _ _ _ _ _ _ _ _ _ _ _ _ Hn H0 Hc) as [_ [Hv _]].
    destruct (Hv i Hi) as [v [_ Hv']]. eauto.
  - intros [Hix Hv]. apply vec_calls_total; [exact Hix|]. cbn [vh_axes vh_values].
    intros i v Hi. pose proof (nth_error_some_lt _ _ _ Hi) as Hlt. rewrite repeat_length in Hlt.
    rewrite nth_error_repeat_lt in Hi by exact Hlt. injection Hi as <-. apply Hv. lia.
Qed.
Print Assumptions C28_vec_history_returns_iff.

(** ** C29 *)
Theorem C29_hash_contents_are_tally :
  forall A V D W (AX : Axis A) (FV : Fill V) (FD : FillWith V D) (FW : FillWithWeighted V D W)
         (DV : Default V) (a : A) (h : HashHistogram A V) (ops : list (fill_op D W)),
  hash_calls (hash_new a) ops = Val h ->
  hh_axes h = a
  /\ (forall i, reaching a i ops = [] -> hash_value_at_index h i = None)
  /\ (forall i, reaching a i ops <> [] -> exists v, hash_value_at_index h i = Some v
                  /\ apply_all (reaching a i ops) default_v = Val v)
  /\ (forall c, hash_value h c = match index a c with
                                 | Val (Some i) => Val (hash_value_at_index h i)
                                 | Val None => Val None
                                 | Panic => Panic
                                 end).
Proof.
  intros A V D W AX FV FD FW DV a h ops Hc.
  destruct (hash_calls_inv _ _ _ Hc) as [Ha [_ Hv]]. cbn [hash_new hh_axes hh_values] in *.
  split; [exact Ha|]. unfold hash_value_at_index. split; [|split].
  - intros i Hi. destruct (Hv i) as [Hn _]. rewrite (Hn Hi). apply lookup_empty.
  - intros i Hi. destruct (Hv i) as [_ Hs]. destruct (Hs Hi) as [v [Hv' Hl]].
    rewrite lookup_empty in Hv'. eauto.
  - intros c. unfold hash_value. rewrite Ha. destruct (index a c) as [[i|]|]; reflexivity.
Qed.
Print Assumptions C29_hash_contents_are_tally.

Theorem C29_hash_history_returns_iff :
  forall A V D W (AX : Axis A) (FV : Fill V) (FD : FillWith V D) (FW : FillWithWeighted V D W)
         (DV : Default V) (a : A) (ops : list (fill_op D W)),
  ((exists h, hash_calls (V := V) (hash_new a) ops = Val h) <->
   (forall o, In o ops -> exists r, index a (op_coordinate o) = Val r)
   /\ (forall i, exists v, apply_all (V := V) (reaching a i ops) default_v = Val v)).
Proof.
  intros A V D W AX FV FD FW DV a ops. split.
  - intros [h Hc]. destruct (hash_calls_inv _ _ _ Hc) as [_ [Hix Hv]]. split; [exact Hix|].
    intros i. destruct (Hv i) as [_ Hs]. cbn [hash_new hh_axes hh_values] in *.
    destruct (reaching a i ops) as [|o l] eqn:E; [exists default_v; reflexivity|].
    destruct (Hs ltac:(discriminate)) as [v [Hv' _]]. rewrite lookup_empty in Hv'. eauto.
  - intros [Hix Hv]. apply hash_calls_total; [exact Hix|]. intros i. cbn [hash_new hh_values hh_axes].
    rewrite lookup_empty. apply Hv.
Qed.
Print Assumptions C29_hash_history_returns_iff.

(** ** C30 *)
Theorem C30_sparse_dense_agree :
  forall A V D W (AX : Axis A) (FV : Fill V) (FD : FillWith V D) (FW : FillWithWeighted V D W)
         (DV : Default V) (a : A) n (h0 : VecHistogram A V) (ops : list (fill_op D W)),
  num_bins a = Val n -> (forall c i, index a c = Val (Some i) -> i < n) -> vec_new a = Val h0 ->
  (* either both panic or both return *)
  ((exists hd, vec_calls h0 ops = Val hd) <-> (exists hs, hash_calls (V := V) (hash_new a) ops = Val hs))
  /\ forall hd hs, vec_calls h0 ops = Val hd -> hash_calls (hash_new a) ops = Val hs ->
     forall i, i < n ->
       vec_value_at_index hd i
       = Some (match hash_value_at_index hs i with Some v => v | None => default_v end)
       /\ (hash_value_at_index hs i = None <-> reaching a i ops = []).
Proof.
  intros A V D W AX FV FD FW DV a n h0 ops Hn Hr H0. split.
  - rewrite (C28_vec_history_returns_iff _ _ _ _ _ _ _ _ _ _ _ _ _ Hn H0), C29_hash_history_returns_iff.
    split; intros [H1 H2]; (split; [exact H1|]); [|auto].
    intros i. destruct (N.lt_ge_cases i n) as [|Hge]; [auto|].
    exists default_v. replace (reaching a i ops) with (@nil (fill_op (AX := AX) D W)); [reflexivity|].
    unfold reaching. clear -Hr Hge. induction ops as [|o ops IH]; [reflexivity|]. cbn [List.filter].
    destruct (lands_in a i o) eqn:E; [|exact IH]. apply lands_in_iff in E. apply Hr in E. lia.
  - intros hd hs Hd Hs i Hi.
    destruct (C28_vec_contents_are_tally _ _ _ _ _ _ _ _ _ _ _ _ _ _ Hn H0 Hd) as [_ [Hv _]].
    destruct (C29_hash_contents_are_tally _ _ _ _ _ _ _ _ _ _ _ _ Hs) as [_ [Hnone [Hsome _]]].
    destruct (Hv i Hi) as [v [-> Hv']].
    destruct (reaching a i ops) as [|o l] eqn:E.
    + rewrite (Hnone i E). injection Hv' as <-. split; [reflexivity | tauto].
    + destruct (Hsome i ltac:(congruence)) as [v' [-> Hv'']].
      rewrite E in Hv''. split; [congruence|]. split; discriminate.
Qed.
Print Assumptions C30_sparse_dense_agree.
