(** * PropUnwind: what a panic leaves behind (C56). *)
From stdpp Require Import gmap.
From Coq Require Import ZifyN ZifyNat Lia.
From Verif Require Import Base BaseFacts Num IntFacts Axis Spec AxesSpec Category Value VecHist HashHist HistSpec HistFacts HashFacts
  OpsFacts PropCategory PropHist PropHistIter PropOrder Unwind.
Open Scope N_scope.

(** The result a caller that does not catch panics sees. *)
Definition finish {S} (r : after S) : outcome S := match r with Returned s => Val s | Unwound _ => Panic end.

Lemma finish_store {S} (s : S) o : finish (store s o) = o.
Proof. destruct o; reflexivity. Qed.

Lemma finish_in_part {S P} (put : P -> S) r : finish (in_part put r) = let! p := finish r in Val (put p).
Proof. destruct r; reflexivity. Qed.

Lemma finish_then {S} (r : after S) k : finish (then_ r k) = let! s := finish r in finish (k s).
Proof. destruct r; reflexivity. Qed.

Lemma finish_loop {S X} (f : S -> X -> after S) l s :
  finish (loop f l s) = foldo (fun s x => finish (f s x)) l s.
Proof.
  revert s. induction l as [|x l IH]; intros s; cbn [loop foldo]; [reflexivity|].
  rewrite finish_then. destruct (f s x); cbn; [apply IH | reflexivity].
Qed.

Lemma foldo_ext {S X} (f g : S -> X -> outcome S) l s : (forall s x, f s x = g s x) -> foldo f l s = foldo g l s.
Proof.
  intros H. revert s. induction l as [|x l IH]; intros s; cbn [foldo]; [reflexivity|].
  rewrite H. destruct (g s x); cbn; [apply IH | reflexivity].
Qed.

Lemma finish_each {V} (f : V -> after V) l : finish (each_u f l) = mapo (fun v => finish (f v)) l.
Proof.
  induction l as [|x l IH]; cbn [each_u mapo]; [reflexivity|].
  destruct (f x); cbn; [|reflexivity]. rewrite finish_in_part, IH. reflexivity.
Qed.

Lemma finish_zip {V} (op : V -> V -> after V) l r :
  finish (zip_assign_u op l r) = zip_assign (fun x y => finish (op x y)) l r.
Proof.
  revert r. induction l as [|x l IH]; intros [|y r]; cbn [zip_assign_u zip_assign]; try reflexivity.
  destruct (op x y); cbn; [|reflexivity]. rewrite finish_in_part, IH. reflexivity.
Qed.

Lemma zip_assign_ext {V} (f g : V -> V -> outcome V) l r : (forall x y, f x y = g x y) -> zip_assign f l r = zip_assign g l r.
Proof.
  intros H. revert r. induction l as [|x l IH]; intros [|y r]; cbn [zip_assign]; try reflexivity.
  rewrite H, IH. reflexivity.
Qed.

Lemma mapo_ext' {X Y} (f g : X -> outcome Y) l : (forall x, f x = g x) -> mapo f l = mapo g l.
Proof. intros H. induction l as [|x l IH]; cbn [mapo]; [reflexivity|]. rewrite H, IH. reflexivity. Qed.

(** The statement-by-statement model returns exactly when the plain model does,
    with the same contents, and unwinds exactly when the plain model panics. *)
Theorem C56_unwinding_model_agrees :
  (forall T (ops : NumOps T) v d,
     finish (@fill_u _ (num_fill_u ops) v) = @fill_v _ (num_fill ops) v
     /\ finish (@fill_with_u _ _ (num_fill_with_u ops) v d) = @fill_with_v _ _ (num_fill_with ops) v d)
  /\ (forall T (ops : NumOps T) s w,
     finish (sum_fill_u ops s) = sum_fill ops s /\ finish (sum_fill_with_u ops s w) = sum_fill_with ops s w)
  /\ (forall T (ops : NumOps T) s w,
     finish (weightedsum_fill_u ops s) = weightedsum_fill ops s
     /\ finish (weightedsum_fill_with_u ops s w) = weightedsum_fill_with ops s w)
  /\ (forall T C (opsT : NumOps T) (opsC : NumOps C) m d, finish (mean_fill_with_u opsT opsC m d) = mean_fill_with opsT opsC m d)
  /\ (forall T C (opsT : NumOps T) (opsC : NumOps C) m d w,
     finish (weightedmean_fill_u opsT opsC m d w) = weightedmean_fill opsT opsC m d w)
  /\ (forall A V D W (AX : Axis A) (FV : Fill V) (FD : FillWith V D) (FW : FillWithWeighted V D W)
             (FU : FillU V) (FDU : FillWithU V D) (FWU : FillWithWeightedU V D W) (DV : Default V),
       (forall (o : fill_op D W) v, finish (op_effect_u o v) = op_effect o v) ->
       (forall (h : VecHistogram A V) (o : fill_op D W), finish (vec_call_u h o) = vec_call h o)
       /\ (forall (h : HashHistogram A V) (o : fill_op D W), finish (hash_call_u h o) = hash_call h o))
  /\ (forall A V (AX : Axis A) (AE : AxisEq A) (DV : Default V) (op : V -> V -> outcome V) (op_u : V -> V -> after V)
             (f : V -> outcome V) (f_u : V -> after V),
       (forall x y, finish (op_u x y) = op x y) -> (forall x, finish (f_u x) = f x) ->
       (forall l r : VecHistogram A V, finish (vec_binop_assign_u op_u l r) = vec_binop_assign op l r)
       /\ (forall (l r : HashHistogram A V) order, finish (hash_binop_assign_u op_u l r order) = hash_binop_assign op l r order)
       /\ (forall h : VecHistogram A V, finish (vec_values_mut_u h f_u) = vec_values_mut h f)
       /\ (forall (h : HashHistogram A V) order, finish (hash_values_mut_u h order f_u) = hash_values_mut h order f)).
Proof.
  split. { intros T ops v d. split; cbn; apply finish_store. }
  split. { intros T ops s w. split; unfold sum_fill_u, sum_fill_with_u, sum_fill, sum_fill_with; rewrite finish_in_part; cbn;
           rewrite finish_store; reflexivity. }
  split. { intros T ops s w. split; unfold weightedsum_fill_u, weightedsum_fill_with_u, weightedsum_fill, weightedsum_fill_with;
           rewrite finish_then, finish_in_part; cbn; rewrite finish_store;
           match goal with |- context [obind (obind ?x _) _] => destruct x end; try reflexivity; cbn.
           - rewrite finish_in_part, finish_store. reflexivity.
           - destruct (n_mul w w); [|reflexivity]. cbn. rewrite finish_in_part, finish_store. reflexivity. }
  split. { intros T C opsT opsC m d. unfold mean_fill_with_u, mean_fill_with.
           repeat first [ rewrite finish_then | rewrite finish_store
             | progress cbn [obind m_sumw m_sumw2 m_count]
             | match goal with |- context [obind ?x _] => lazymatch x with obind _ _ => fail | Val _ => fail | _ => destruct x end end
             | reflexivity]. }
  split. { intros T C opsT opsC m d w. unfold weightedmean_fill_u, weightedmean_fill.
           repeat first [ rewrite finish_then | rewrite finish_store
             | progress cbn [obind wm_sumwt wm_sumwt2 wm_sumw wm_sumw2 wm_count]
             | match goal with |- context [obind ?x _] => lazymatch x with obind _ _ => fail | Val _ => fail | _ => destruct x end end
             | reflexivity]. }
  split.
  - intros A V D W AX FV FD FW FU FDU FWU DV He.
    assert (Hv : forall (h : VecHistogram A V) (c : Coordinate) f_u f, (forall v, finish (f_u v) = f v) ->
              finish (vec_update_u h c f_u) = let! r := vec_value_mut h c in update_through h r f).
    { intros h c f_u f Hf. unfold vec_update_u. destruct (vec_value_mut h c) as [[r|]|]; cbn; try reflexivity.
      rewrite finish_in_part, Hf. reflexivity. }
    assert (Hh : forall (h : HashHistogram A V) (c : Coordinate) f_u f, (forall v, finish (f_u v) = f v) ->
              finish (hash_update_u h c f_u) = hash_update_at h c f).
    { intros h c f_u f Hf. unfold hash_update_u, hash_update_at. destruct (index (hh_axes h) c) as [[i|]|]; cbn; try reflexivity.
      rewrite finish_in_part. unfold entry_or_default_u, entry_or_default_update. rewrite finish_in_part, Hf.
      destruct (f _); cbn; [|reflexivity]. rewrite insert_insert. reflexivity. }
    split; intros h [c|c d|c d w]; cbn [vec_call_u vec_call hash_call_u hash_call].
    + apply Hv. intros v. exact (He (CallFill c) v).
    + apply Hv. intros v. exact (He (CallFillWith c d) v).
    + apply Hv. intros v. exact (He (CallFillWithWeighted c d w) v).
    + apply Hh. intros v. exact (He (CallFill c) v).
    + apply Hh. intros v. exact (He (CallFillWith c d) v).
    + apply Hh. intros v. exact (He (CallFillWithWeighted c d w) v).
  - intros A V AX AE DV op op_u f f_u Hop Hf.
    assert (Hentry : forall (m : gmap N V) i y, finish (entry_or_default_u m i (fun v => op_u v y)) = entry_or_default_update m i (fun v => op v y)).
    { intros m i y. unfold entry_or_default_u, entry_or_default_update. rewrite finish_in_part, Hop.
      destruct (op _ _); cbn; [|reflexivity]. rewrite insert_insert. reflexivity. }
    split; [|split; [|split]].
    + intros l r. unfold vec_binop_assign_u, vec_binop_assign. destruct (negb _); [reflexivity|].
      rewrite finish_in_part, finish_zip. rewrite (zip_assign_ext _ op _ _ Hop). reflexivity.
    + intros l r order. unfold hash_binop_assign_u, hash_binop_assign. destruct (negb _); [reflexivity|].
      rewrite finish_in_part, finish_loop. unfold hash_merge_loop.
      rewrite (foldo_ext _ (fun m (p : N * V) => entry_or_default_update m (fst p) (fun v => op v (snd p)))); [reflexivity|].
      intros s x. apply Hentry.
    + intros h. unfold vec_values_mut_u, vec_values_mut. rewrite finish_in_part, finish_each, (mapo_ext' _ f _ Hf). reflexivity.
    + intros h order. unfold hash_values_mut_u, hash_values_mut. rewrite finish_in_part, finish_loop.
      rewrite (foldo_ext _ (fun (m : gmap N V) (p : N * V) => let! v' := f (snd p) in Val (<[fst p := v']> m))); [reflexivity|].
      intros s x. rewrite finish_in_part, Hf. reflexivity.
Qed.
Print Assumptions C56_unwinding_model_agrees.

Lemma set_nth_same {V} i (v : V) l : nth_error l i = Some v -> set_nth i v l = l.
Proof.
  revert i. induction l as [|x l IH]; intros [|i]; cbn; intros H; try discriminate.
  - injection H as ->. reflexivity.
  - rewrite IH by exact H. reflexivity.
Qed.

Section Shapes.
Context {A V D W : Type} {AX : Axis A} {FU : FillU V} {FDU : FillWithU V D} {FWU : FillWithWeightedU V D W} {DV : Default V}.

(** The three dense calls have one shape. *)
Lemma vec_call_u_eq (h : VecHistogram A V) (o : fill_op D W) :
  vec_call_u h o = vec_update_u h (op_coordinate o) (op_effect_u o).
Proof. destruct o; reflexivity. Qed.

Lemma hash_call_u_eq (h : HashHistogram A V) (o : fill_op D W) :
  hash_call_u h o = hash_update_u h (op_coordinate o) (op_effect_u o).
Proof. destruct o; reflexivity. Qed.

Lemma vec_call_u_cases (h : VecHistogram A V) (o : fill_op D W) :
  (index (vh_axes h) (op_coordinate o) = Panic /\ vec_call_u h o = Unwound h)
  \/ (index (vh_axes h) (op_coordinate o) = Val None /\ vec_call_u h o = Returned h)
  \/ (exists i, index (vh_axes h) (op_coordinate o) = Val (Some i) /\
       ((vec_value_at_index h i = None /\ vec_call_u h o = Returned h)
        \/ exists v, vec_value_at_index h i = Some v
           /\ vec_call_u h o = in_part (fun v' => mkVecHist (vh_axes h) (set_nth (N.to_nat i) v' (vh_values h))) (op_effect_u o v))).
Proof.
  rewrite vec_call_u_eq. unfold vec_update_u, vec_value_mut. destruct (index (vh_axes h) (op_coordinate o)) as [[i|]|]; cbn [obind].
  - right; right. exists i. split; [reflexivity|]. unfold vec_value_at_index_mut, vec_value_at_index.
    destruct (nth_error (vh_values h) (N.to_nat i)) as [v|]; [right; exists v; split; reflexivity | left; split; reflexivity].
  - right; left. split; reflexivity.
  - left. split; reflexivity.
Qed.

Lemma hash_call_u_cases (h : HashHistogram A V) (o : fill_op D W) :
  (index (hh_axes h) (op_coordinate o) = Panic /\ hash_call_u h o = Unwound h)
  \/ (index (hh_axes h) (op_coordinate o) = Val None /\ hash_call_u h o = Returned h)
  \/ (exists i, index (hh_axes h) (op_coordinate o) = Val (Some i)
       /\ hash_call_u h o = in_part (fun v' => mkHashHist (hh_axes h) (<[i := v']> (hh_values h)))
            (op_effect_u o (match hh_values h !! i with Some v => v | None => default_v end))).
Proof.
  rewrite hash_call_u_eq. unfold hash_update_u. destruct (index (hh_axes h) (op_coordinate o)) as [[i|]|].
  - right; right. exists i. split; [reflexivity|]. unfold entry_or_default_u.
    destruct (op_effect_u o _); cbn; rewrite insert_insert; reflexivity.
  - right; left. split; reflexivity.
  - left. split; reflexivity.
Qed.
End Shapes.

Lemma lands_self {A D W} {AX : Axis A} (a : A) i (o : fill_op D W) :
  index a (op_coordinate o) = Val (Some i) -> forall j, lands_in a j o = (i =? j).
Proof. intros H j. unfold lands_in. rewrite H. reflexivity. Qed.

(** Whatever the bin value type does when it panics, a panicking fill changes
    neither the axes, nor the number of bins, nor any bin but the one the
    coordinate falls into. *)
Theorem C56_panicking_fill_keeps_other_bins :
  forall A V D W (AX : Axis A) (FU : FillU V) (FDU : FillWithU V D) (FWU : FillWithWeightedU V D W) (DV : Default V)
         (o : fill_op D W),
  (forall h h' : VecHistogram A V, vec_call_u h o = Unwound h' ->
     vh_axes h' = vh_axes h /\ length (vec_values h') = length (vec_values h)
     /\ forall j, lands_in (vh_axes h) j o = false -> vec_value_at_index h' j = vec_value_at_index h j)
  /\ (forall h h' : HashHistogram A V, hash_call_u h o = Unwound h' ->
     hh_axes h' = hh_axes h
     /\ forall j, lands_in (hh_axes h) j o = false -> hash_value_at_index h' j = hash_value_at_index h j).
Proof.
  intros A V D W AX FU FDU FWU DV o. split.
  - intros h h' H. destruct (vec_call_u_cases h o) as [[_ E]|[[_ E]|[i [Hi [[_ E]|[v [Hv E]]]]]]]; rewrite E in H; try discriminate H.
    + injection H as <-. repeat split.
    + destruct (op_effect_u o v) as [v'|v']; [discriminate H|]. injection H as <-.
      split; [reflexivity|]. split; [apply set_nth_length|]. intros j Hj. rewrite (lands_self _ i o Hi) in Hj.
      apply N.eqb_neq in Hj. unfold vec_value_at_index. cbn. apply set_nth_other. lia.
  - intros h h' H. destruct (hash_call_u_cases h o) as [[_ E]|[[_ E]|[i [Hi E]]]]; rewrite E in H; try discriminate H.
    + injection H as <-. split; reflexivity.
    + destruct (op_effect_u o _) as [v'|v']; [discriminate H|]. injection H as <-.
      split; [reflexivity|]. intros j Hj. rewrite (lands_self _ i o Hi) in Hj. apply N.eqb_neq in Hj.
      unfold hash_value_at_index. cbn. apply lookup_insert_ne. exact Hj.
Qed.
Print Assumptions C56_panicking_fill_keeps_other_bins.

(** A mutation that is not left half done. *)
Definition all_or_nothing {V} (f : V -> after V) : Prop := forall v v', f v = Unwound v' -> v' = v.

(** The fills of plain numbers and of [Sum]. *)
Theorem C56_number_fills_all_or_nothing :
  forall T (ops : NumOps T),
  all_or_nothing (@fill_u _ (num_fill_u ops)) /\ (forall d, all_or_nothing (fun v => @fill_with_u _ _ (num_fill_with_u ops) v d))
  /\ all_or_nothing (sum_fill_u ops) /\ (forall d, all_or_nothing (fun s => sum_fill_with_u ops s d)).
Proof.
  intros T ops. split; [|split; [|split]].
  - intros v v'. cbn. destruct (n_add v n_one); cbn; [discriminate|]. intros [= <-]. reflexivity.
  - intros d v v'. cbn. destruct (n_add v d); cbn; [discriminate|]. intros [= <-]. reflexivity.
  - intros [v] v'. unfold sum_fill_u. cbn. destruct (n_add v n_one); cbn; [discriminate|]. intros [= <-]. reflexivity.
  - intros d [v] v'. unfold sum_fill_with_u. cbn. destruct (n_add v d); cbn; [discriminate|]. intros [= <-]. reflexivity.
Qed.
Print Assumptions C56_number_fills_all_or_nothing.

(** The histograms [h] and [h'] differ at most in bins that [h] does not have
    and that hold the default value in [h']. *)
Definition same_but_defaults {A V} {DV : Default V} (h h' : HashHistogram A V) : Prop :=
  hh_axes h' = hh_axes h /\
  forall i, hash_value_at_index h' i = hash_value_at_index h i
            \/ (hash_value_at_index h i = None /\ hash_value_at_index h' i = Some default_v).

(** With such contents a panicking fill leaves a dense histogram exactly as it
    was; in a sparse one the bin of the coordinate may appear, with the default
    value, if it was not there. *)
Theorem C56_panicking_number_fill :
  forall A V D W (AX : Axis A) (FU : FillU V) (FDU : FillWithU V D) (FWU : FillWithWeightedU V D W) (DV : Default V)
         (o : fill_op D W),
  all_or_nothing (op_effect_u o) ->
  (forall h h' : VecHistogram A V, vec_call_u h o = Unwound h' -> h' = h)
  /\ (forall h h' : HashHistogram A V, hash_call_u h o = Unwound h' ->
        h' = h \/ exists i, index (hh_axes h) (op_coordinate o) = Val (Some i) /\ hash_value_at_index h i = None
                            /\ hh_axes h' = hh_axes h
                            /\ hash_as_map h' = <[i := default_v]> (hash_as_map h)).
Proof.
  intros A V D W AX FU FDU FWU DV o Hat. split.
  - intros h h' H. destruct (vec_call_u_cases h o) as [[_ E]|[[_ E]|[i [Hi [[_ E]|[v [Hv E]]]]]]]; rewrite E in H; try discriminate H.
    + injection H as <-. reflexivity.
    + destruct (op_effect_u o v) as [v'|v'] eqn:Ev; [discriminate H|]. injection H as <-.
      rewrite (Hat v v' Ev). rewrite set_nth_same by exact Hv. destruct h; reflexivity.
  - intros h h' H. destruct (hash_call_u_cases h o) as [[_ E]|[[_ E]|[i [Hi E]]]]; rewrite E in H; try discriminate H.
    + injection H as <-. left. reflexivity.
    + destruct (op_effect_u o _) as [v'|v'] eqn:Ev; [discriminate H|]. injection H as <-. apply Hat in Ev. subst v'.
      destruct (hh_values h !! i) as [v|] eqn:Hv.
      * left. rewrite insert_id by exact Hv. destruct h; reflexivity.
      * right. exists i. split; [exact Hi|]. split; [exact Hv|]. split; reflexivity.
Qed.
Print Assumptions C56_panicking_number_fill.

(** A program that catches every panic and carries on ends up with the contents
    of just the calls that returned (sparse: plus possibly some bins that hold
    the default value). *)
Theorem C56_caught_panics :
  forall A V D W (AX : Axis A) (FV : Fill V) (FD : FillWith V D) (FW : FillWithWeighted V D W)
         (FU : FillU V) (FDU : FillWithU V D) (FWU : FillWithWeightedU V D W) (DV : Default V),
  (forall (o : fill_op D W) v, finish (op_effect_u o v) = op_effect o v) ->
  forall ops : list (fill_op D W),
  (forall o, In o ops -> all_or_nothing (op_effect_u o)) ->
  (forall h : VecHistogram A V, vec_calls h (vec_returned h ops) = Val (vec_calls_caught h ops))
  /\ (forall h : HashHistogram A V, exists h', hash_calls h (hash_returned h ops) = Val h'
        /\ same_but_defaults h' (hash_calls_caught h ops)).
Proof.
  intros A V D W AX FV FD FW FU FDU FWU DV He ops Hat.
  destruct C56_unwinding_model_agrees as [_ [_ [_ [_ [_ [Hag _]]]]]].
  destruct (Hag A V D W AX FV FD FW FU FDU FWU DV He) as [Hv Hh]. clear Hag.
  split.
  - induction ops as [|o ops IH]; intros h; [reflexivity|].
    cbn [vec_returned]. change (vec_calls_caught h (o :: ops)) with (vec_calls_caught (contents (vec_call_u h o)) ops).
    assert (Hat' : forall o, In o ops -> all_or_nothing (op_effect_u o)) by (intros o' Ho'; apply Hat; right; exact Ho').
    pose proof (Hv h o) as E. destruct (vec_call_u h o) as [h'|h'] eqn:Ec; cbn [returned contents] in *.
    + cbn [app]. unfold vec_calls. cbn [foldo]. rewrite <- E. cbn [finish obind]. apply (IH Hat').
    + cbn [app]. destruct (C56_panicking_number_fill A V D W AX FU FDU FWU DV o (Hat o (or_introl eq_refl))) as [Hd _].
      rewrite (Hd h h' Ec). apply (IH Hat').
  - (* carry the relation [same_but_defaults] along the run *)
    assert (Hgen : forall h1 h2 : HashHistogram A V, same_but_defaults h1 h2 ->
              exists h', hash_calls h1 (hash_returned h2 ops) = Val h' /\ same_but_defaults h' (hash_calls_caught h2 ops)).
    { induction ops as [|o ops IH]; intros h1 h2 Hs; [exists h1; split; [reflexivity | exact Hs]|].
      cbn [hash_returned]. change (hash_calls_caught h2 (o :: ops)) with (hash_calls_caught (contents (hash_call_u h2 o)) ops).
      assert (Hat' : forall o, In o ops -> all_or_nothing (op_effect_u o)) by (intros o' Ho'; apply Hat; right; exact Ho').
      destruct Hs as [Hax Hs].
      destruct (hash_call_u_cases h2 o) as [[Hi E]|[[Hi E]|[i [Hi E]]]].
      - rewrite E. cbn [returned contents app]. apply (IH Hat'). split; assumption.
      - rewrite E. cbn [returned contents app]. unfold hash_calls. cbn [foldo]. rewrite <- Hh, hash_call_u_eq. unfold hash_update_u.
        rewrite <- Hax, Hi. cbn [finish obind]. apply (IH Hat'). split; assumption.
      - set (v := match hh_values h2 !! i with Some v => v | None => default_v end) in *.
        assert (Hvv : match hh_values h1 !! i with Some v => v | None => default_v end = v).
        { subst v. unfold hash_value_at_index in Hs. destruct (Hs i) as [->|[-> ->]]; reflexivity. }
        destruct (op_effect_u o v) as [v'|v'] eqn:Ev.
        + rewrite E. cbn [in_part returned contents app]. unfold hash_calls. cbn [foldo]. rewrite <- Hh.
          assert (E1 : hash_call_u h1 o = Returned (mkHashHist (hh_axes h1) (<[i := v']> (hh_values h1)))).
          { destruct (hash_call_u_cases h1 o) as [[Hi1 _]|[[Hi1 _]|[i1 [Hi1 E1]]]]; rewrite <- Hax, Hi in Hi1; try discriminate Hi1.
            injection Hi1 as <-. rewrite E1, Hvv, Ev. reflexivity. }
          rewrite E1. cbn [finish obind]. apply (IH Hat'). split; [exact Hax|]. intros j. unfold hash_value_at_index. cbn.
          destruct (decide (i = j)) as [->|Hne]; [left; rewrite !lookup_insert; reflexivity|].
          rewrite !lookup_insert_ne by exact Hne. apply Hs.
        + rewrite E. cbn [in_part returned contents app]. apply (IH Hat').
          assert (v' = v) as -> by (exact (Hat o (or_introl eq_refl) _ _ Ev)).
          split; [exact Hax|]. intros j. unfold hash_value_at_index. cbn.
          destruct (decide (i = j)) as [->|Hne]; [|rewrite lookup_insert_ne by exact Hne; apply Hs].
          rewrite lookup_insert. destruct (Hs j) as [Hj|[Hj1 Hj2]].
          * unfold hash_value_at_index in Hj. subst v. rewrite Hj.
            destruct (hh_values h1 !! j) eqn:E1; [left; reflexivity | right; split; reflexivity].
          * right. split; [exact Hj1|]. unfold hash_value_at_index in Hj2. subst v. rewrite Hj2. reflexivity. }
    intros h. apply Hgen. split; [reflexivity|]. intros i. left. reflexivity.
Qed.
Print Assumptions C56_caught_panics.

(** ** Panics inside [l op= &r] *)

Lemma each_u_shape {V} (f : V -> after V) l l' :
  (forall v v', f v = Unwound v' -> v' = v) -> each_u f l = Unwound l' ->
  exists done v rest done', l = done ++ v :: rest /\ f v = Unwound v
    /\ mapo (fun v => finish (f v)) done = Val done' /\ l' = done' ++ v :: rest.
Proof.
  intros Hat. revert l'. induction l as [|x l IH]; intros l'; cbn [each_u]; [discriminate|].
  destruct (f x) as [x'|x'] eqn:Ex.
  - destruct (each_u f l) as [r|r] eqn:Er; cbn [in_part]; [discriminate|]. intros [= <-].
    destruct (IH r eq_refl) as [d [v [rest [d' [-> [Hv [Hd ->]]]]]]].
    exists (x :: d), v, rest, (x' :: d'). split; [reflexivity|]. split; [exact Hv|]. split; [|reflexivity].
    cbn [mapo]. rewrite Ex. cbn. rewrite Hd. reflexivity.
  - intros [= <-]. pose proof (Hat _ _ Ex) as ->. exists [], x, l, []. repeat split; assumption.
Qed.

Lemma zip_assign_u_shape {V} (op : V -> V -> after V) l r l' :
  (forall x y x', op x y = Unwound x' -> x' = x) -> zip_assign_u op l r = Unwound l' ->
  exists k, (k < length l)%nat /\ length l' = length l
    /\ (exists x y, nth_error l k = Some x /\ nth_error r k = Some y /\ op x y = Unwound x)
    /\ (forall j, (j < k)%nat -> exists x y z, nth_error l j = Some x /\ nth_error r j = Some y
                                      /\ op x y = Returned z /\ nth_error l' j = Some z)
    /\ (forall j, (k <= j)%nat -> nth_error l' j = nth_error l j).
Proof.
  intros Hat. revert r l'. induction l as [|x l IH]; intros [|y r] l'; cbn [zip_assign_u]; try discriminate.
  destruct (op x y) as [z|z] eqn:Ez.
  - destruct (zip_assign_u op l r) as [q|q] eqn:Eq; cbn [in_part]; [discriminate|]. intros [= <-].
    destruct (IH r q Eq) as [k [Hk [Hl [Hp [Hlt Hge]]]]]. exists (S k). cbn [length]. split; [lia|]. split; [lia|].
    split; [exact Hp|]. split.
    + intros [|j] Hj; [exists x, y, z; repeat split; exact Ez|]. apply Hlt. lia.
    + intros [|j] Hj; [lia|]. apply Hge. lia.
  - intros [= <-]. pose proof (Hat _ _ _ Ez) as ->. exists 0%nat. cbn [length]. split; [lia|]. split; [reflexivity|].
    split; [exists x, y; repeat split; exact Ez|]. split; [lia|]. reflexivity.
Qed.

Lemma loop_entry_shape {V} {DV : Default V} (op : V -> V -> after V) order (m m' : gmap N V) :
  (forall x y x', op x y = Unwound x' -> x' = x) -> List.NoDup (map fst order) ->
  loop (fun m (p : N * V) => entry_or_default_u m (fst p) (fun v => op v (snd p))) order m = Unwound m' ->
  exists done k y rest, order = done ++ (k, y) :: rest
    /\ op (match m !! k with Some v => v | None => default_v end) y = Unwound (match m !! k with Some v => v | None => default_v end)
    /\ m' !! k = Some (match m !! k with Some v => v | None => default_v end)
    /\ (forall i y, In (i, y) done -> exists z,
           op (match m !! i with Some v => v | None => default_v end) y = Returned z /\ m' !! i = Some z)
    /\ (forall i, ~ In i (map fst done) -> i <> k -> m' !! i = m !! i).
Proof.
  intros Hat. revert m. induction order as [|[k y] order IH]; intros m Hnd; cbn [loop]; [discriminate|].
  unfold entry_or_default_u at 1. cbn [fst snd]. set (v := match m !! k with Some v => v | None => default_v end).
  destruct (op v y) as [z|z] eqn:Ez; cbn [in_part then_].
  - intros Hl. inversion Hnd as [|? ? Hnotin Hnd']; subst.
    destruct (IH _ Hnd' Hl) as [done [k' [y' [rest [-> [Hp [Hk [Hd Ho]]]]]]]].
    rewrite map_app in Hnotin. cbn [map fst] in Hnotin. rewrite in_app_iff in Hnotin.
    assert (Hne : forall i, i <> k -> (<[k := z]> (<[k := v]> m) : gmap N V) !! i = m !! i)
      by (intros i Hi; rewrite !lookup_insert_ne by congruence; reflexivity).
    assert (Hkk : k' <> k). { intros ->. apply Hnotin. right. left. reflexivity. }
    exists ((k, y) :: done), k', y', rest. split; [reflexivity|]. rewrite (Hne k' Hkk) in Hp, Hk. split; [exact Hp|].
    split; [exact Hk|]. split.
    + intros i y0 [Hin|Hin].
      * injection Hin as <- <-. exists z. split; [exact Ez|]. rewrite Ho.
        -- apply lookup_insert.
        -- intros Hin. apply Hnotin. left. exact Hin.
        -- congruence.
      * assert (Hi : i <> k). { intros ->. apply Hnotin. left. apply (in_map fst) in Hin. exact Hin. }
        destruct (Hd i y0 Hin) as [z0 [H1 H2]]. rewrite (Hne i Hi) in H1. exists z0. split; assumption.
    + intros i Hi Hik. cbn [map In] in Hi. rewrite Ho; [apply Hne | |exact Hik].
      * intros ->. apply Hi. left. reflexivity.
      * intros Hin. apply Hi. right. exact Hin.
  - intros [= <-]. pose proof (Hat _ _ _ Ez) as ->. exists [], k, y, order. split; [reflexivity|]. split; [exact Ez|].
    rewrite insert_insert. split; [apply lookup_insert|]. split; [intros i y0 []|].
    intros i _ Hi. rewrite lookup_insert_ne by congruence. reflexivity.
Qed.

(** If [l op= &r] panics, then either the axes differ and [l] is unchanged, or
    the operator panicked on one pair of values: the bins treated before it hold
    the combined value, that bin and the later ones are unchanged (sparse: "before"
    is in the hash order of [r], and the bin of the panic may have appeared with
    the default value). *)
Theorem C56_panicking_assign :
  forall A V (AX : Axis A) (AE : AxisEq A) (DV : Default V) (op : V -> V -> after V),
  (forall y, all_or_nothing (fun x => op x y)) ->
  (forall l r l' : VecHistogram A V, vec_binop_assign_u op l r = Unwound l' ->
     (axis_eqb (vh_axes l) (vh_axes r) = false /\ l' = l)
     \/ (axis_eqb (vh_axes l) (vh_axes r) = true /\ vh_axes l' = vh_axes l /\ length (vec_values l') = length (vec_values l)
         /\ exists k x y, vec_value_at_index l k = Some x /\ vec_value_at_index r k = Some y /\ op x y = Unwound x
            /\ (forall j, j < k -> exists x y z, vec_value_at_index l j = Some x /\ vec_value_at_index r j = Some y
                                     /\ op x y = Returned z /\ vec_value_at_index l' j = Some z)
            /\ (forall j, k <= j -> vec_value_at_index l' j = vec_value_at_index l j)))
  /\ (forall (l r l' : HashHistogram A V) order, an_order (hash_as_map r) order ->
     hash_binop_assign_u op l r order = Unwound l' ->
     (axis_eqb (hh_axes l) (hh_axes r) = false /\ l' = l)
     \/ (axis_eqb (hh_axes l) (hh_axes r) = true /\ hh_axes l' = hh_axes l
         /\ let old i := match hash_value_at_index l i with Some v => v | None => default_v end in
            exists before k y later, order = before ++ (k, y) :: later /\ op (old k) y = Unwound (old k)
            /\ hash_value_at_index l' k = Some (old k)
            /\ (forall i y, In (i, y) before -> exists z, op (old i) y = Returned z /\ hash_value_at_index l' i = Some z)
            /\ (forall i, i <> k -> ~ In i (map fst before) -> hash_value_at_index l' i = hash_value_at_index l i))).
Proof.
  intros A V AX AE DV op Hat. split.
  - intros l r l'. unfold vec_binop_assign_u. destruct (axis_eqb (vh_axes l) (vh_axes r)) eqn:Ea; cbn [negb].
    + destruct (zip_assign_u op (vh_values l) (vh_values r)) as [q|q] eqn:Eq; cbn [in_part]; [discriminate|].
      intros [= <-]. right. split; [reflexivity|]. split; [reflexivity|]. cbn [vh_axes vec_values vh_values].
      destruct (zip_assign_u_shape op _ _ _ (fun x y x' => Hat y x x') Eq) as [k [Hk [Hl [[x [y [Hx [Hy Hp]]]] [Hlt Hge]]]]].
      split; [exact Hl|]. exists (N.of_nat k), x, y. unfold vec_value_at_index. cbn [vh_values]. rewrite Nat2N.id.
      split; [exact Hx|]. split; [exact Hy|]. split; [exact Hp|]. split.
      * intros j Hj. apply Hlt. lia.
      * intros j Hj. apply Hge. lia.
    + intros [= <-]. left. split; reflexivity.
  - intros l r l' order Ho. unfold hash_binop_assign_u. destruct (axis_eqb (hh_axes l) (hh_axes r)) eqn:Ea; cbn [negb].
    + destruct (loop _ order (hh_values l)) as [q|q] eqn:Eq; cbn [in_part]; [discriminate|]. intros [= <-]. right.
      split; [reflexivity|]. split; [reflexivity|].
      assert (Hnd : List.NoDup (map fst order)).
      { rewrite <- NoDup_ListNoDup. apply (order_NoDup _ _ Ho). }
      destruct (loop_entry_shape op _ _ _ (fun x y x' => Hat y x x') Hnd Eq) as [done [k [y [rest [E [Hp [Hk [Hd Hr]]]]]]]].
      exists done, k, y, rest. split; [exact E|]. split; [exact Hp|]. split; [exact Hk|]. split; [exact Hd|].
      intros i Hi Hin. exact (Hr i Hin Hi).
    + intros [= <-]. left. split; reflexivity.
Qed.
Print Assumptions C56_panicking_assign.

(** An operator assignment is not atomic: with overflow checks, u8 contents
    [200, 250] += [10, 10] panics at the second bin and leaves [210, 250]. *)
Theorem C56_assign_atomic_refuted :
  exists (B : Build) (A : Type) (AX : Axis A) (AE : AxisEq A) (l r l' : VecHistogram A Z),
  num_bins (vh_axes l) = Val (N.of_nat (length (vec_values l)))
  /\ vec_binop_assign_u (fun x y => store x (@n_add Z (int_ops (unsigned 8)) x y)) l r = Unwound l' /\ l' <> l.
Proof.
  set (chk := {| overflow_checks := true; target_width := P64 |}). exists chk, (Category Z), (ex_axis chk), ex_eq.
  exists (mkVecHist (category_new [5]%Z) [200; 250]%Z), (mkVecHist (category_new [5]%Z) [10; 10]%Z),
         (mkVecHist (category_new [5]%Z) [210; 250]%Z).
  split; [reflexivity|]. split; [reflexivity|]. discriminate.
Qed.
Print Assumptions C56_assign_atomic_refuted.

(** The fills of WeightedSum, Mean and WeightedMean are not atomic either: with
    overflow checks and i32 data, a sample of 50000 is added to the first sum,
    and the panic in its square leaves the other sums and the count behind. *)
Theorem C56_composite_fill_atomic_refuted :
  exists B : Build,
  ~ all_or_nothing (fun s => weightedsum_fill_with_u (int_ops (signed 32)) s 50000%Z)
  /\ ~ all_or_nothing (fun m => mean_fill_with_u (int_ops (signed 32)) (int_ops (unsigned 32)) m 50000%Z)
  /\ ~ all_or_nothing (fun m => weightedmean_fill_u (int_ops (signed 32)) (int_ops (unsigned 32)) m 50000%Z 1%Z)
  /\ mean_fill_with_u (int_ops (signed 32)) (int_ops (unsigned 32)) (mkMean 7 49 1)%Z 50000%Z = Unwound (mkMean 50007 49 1)%Z.
Proof.
  set (chk := {| overflow_checks := true; target_width := P64 |}). exists chk. split; [|split; [|split]].
  - intros H. specialize (H (mkWeightedSum 7 49)%Z (mkWeightedSum 50007 49)%Z eq_refl). discriminate H.
  - intros H. specialize (H (mkMean 7 49 1)%Z (mkMean 50007 49 1)%Z eq_refl). discriminate H.
  - intros H. specialize (H (mkWeightedMean 7 49 1 1 1)%Z (mkWeightedMean 50007 49 1 1 1)%Z eq_refl). discriminate H.
  - reflexivity.
Qed.
Print Assumptions C56_composite_fill_atomic_refuted.

(** u8 counts: the 256th fill of one bin panics, the other bins keep counting;
    the fills agree between the two models and are all or nothing. *)
Example C56_nonvacuous :
  let B := {| overflow_checks := true; target_width := P64 |} in
  let f := @CallFill _ Z Empty_set (ex_axis B) in
  let FU := num_fill_u (int_ops (unsigned 8)) in
  let FDU := num_fill_with_u (int_ops (unsigned 8)) in
  let FWU := {| fill_with_weighted_u := fun (v d : Z) (w : Empty_set) => match w with end |} in
  let h := mkVecHist ex_cat [254; 0; 0; 0]%Z in
  let ops := [f 5; f 5; f 7; f 5; f 9]%Z in
  vec_calls_caught h ops = mkVecHist ex_cat [255; 1; 1; 0]%Z
  /\ vec_returned h ops = [f 5; f 7; f 9]%Z
  /\ (forall (o : @fill_op (Category Z) Z Empty_set (ex_axis B)) v,
        finish (op_effect_u o v) = @op_effect _ _ _ _ (ex_axis B) (int_fill (unsigned 8)) (int_fill_with (unsigned 8)) no_weighted o v)
  /\ (forall o : @fill_op (Category Z) Z Empty_set (ex_axis B), all_or_nothing (op_effect_u o)).
Proof.
  intros B f FU FDU FWU h ops. split; [reflexivity|]. split; [reflexivity|]. split.
  - intros [c|c d|c d []] v; apply finish_store.
  - intros [c|c d|c d []] v v'; unfold op_effect_u; cbn [fill_u FU FDU fill_with_u num_fill_u num_fill_with_u];
      match goal with |- store _ ?x = _ -> _ => destruct x end; cbn [store]; [discriminate|intros [= <-]; reflexivity | discriminate | intros [= <-]; reflexivity].
Qed.
