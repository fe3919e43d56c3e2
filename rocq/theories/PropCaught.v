(** * PropCaught: histograms survive caught panics (C71). *)
From stdpp Require Import gmap.
From Coq Require Import ZifyN ZifyNat Lia.
From Verif Require Import Base BaseFacts Num IntFacts Axis Spec AxesSpec AxesFacts Category Value VecHist HashHist HistSpec HistFacts HashFacts
  OpsFacts PropCategory PropHist PropHistIter PropOrder Unwind PropUnwind Caught.
Open Scope N_scope.

Lemma contents_in_part {S P} (put : P -> S) r : contents (in_part put r) = put (contents r).
Proof. destruct r; reflexivity. Qed.

Lemma each_u_length {V} (f : V -> after V) l : length (contents (each_u f l)) = length l.
Proof.
  induction l as [|x xs IH]; [reflexivity|]. cbn [each_u].
  destruct (f x); [rewrite contents_in_part; cbn [length]; rewrite IH|]; reflexivity.
Qed.

Lemma zip_assign_u_length {V} (op : V -> V -> after V) l r : length (contents (zip_assign_u op l r)) = length l.
Proof.
  revert r. induction l as [|x xs IH]; intros [|y ys]; try reflexivity. cbn [zip_assign_u].
  destruct (op x y); [rewrite contents_in_part; cbn [length]; rewrite IH|]; reflexivity.
Qed.

Lemma zip_update_u_length {A V} {AX : Axis A} (a : A) f is : forall vs : list V,
  length (contents (zip_update_u a f is vs)) = length vs.
Proof.
  induction is as [|i is IH]; intros vs; [reflexivity|]. cbn [zip_update_u].
  destruct (item_bin a i); [|reflexivity]. destruct vs as [|v vs]; [reflexivity|].
  destruct (f i _ v); [rewrite contents_in_part; cbn [length]; rewrite IH|]; reflexivity.
Qed.

(** Interrupted or not, a loop of insertions only adds the keys it runs through. *)
Lemma loop_insert_keys {V X} (key : X -> N) (f : gmap N V -> X -> after (gmap N V)) (l : list X) :
  (forall m x i, is_Some (contents (f m x) !! i) -> i = key x \/ is_Some (m !! i)) ->
  forall m i, is_Some (contents (loop f l m) !! i) -> i ∈ map key l \/ is_Some (m !! i).
Proof.
  intros Hf. induction l as [|x xs IH]; intros m i Hi; cbn [loop] in Hi; [right; exact Hi|].
  cbn [map]. unfold then_ in Hi. destruct (f m x) as [m'|m'] eqn:E.
  - apply IH in Hi as [Hi|Hi]; [left; right; exact Hi|].
    pose proof (Hf m x i) as H1. rewrite E in H1. destruct (H1 Hi) as [->|H2]; [left; left | right; exact H2].
  - pose proof (Hf m x i) as H1. rewrite E in H1. destruct (H1 Hi) as [->|H2]; [left; left | right; exact H2].
Qed.

Lemma insert_keys {V} (m : gmap N V) k i v : is_Some (<[k := v]> m !! i) -> i = k \/ is_Some (m !! i).
Proof.
  destruct (decide (k = i)) as [->|Hne]; [left; reflexivity|]. rewrite lookup_insert_ne by exact Hne. right. assumption.
Qed.

Lemma entry_keys {V} {DV : Default V} (m : gmap N V) k f i :
  is_Some (contents (entry_or_default_u m k f) !! i) -> i = k \/ is_Some (m !! i).
Proof.
  unfold entry_or_default_u. rewrite contents_in_part. rewrite insert_insert. apply insert_keys.
Qed.

(** ** C71

    A mutable iteration that is not interrupted is the one of the plain model. *)
Theorem C71_iter_mut_agrees : forall A V (AX : Axis A) (f : N -> Interval -> V -> outcome V) (f_u : N -> Interval -> V -> after V),
  (forall i b v, finish (f_u i b v) = f i b v) ->
  (forall (h : VecHistogram A V) n, has_bins AX (vh_axes h) n -> finish (vec_iter_mut_u h f_u) = vec_iter_mut h f)
  /\ (forall (h : HashHistogram A V) order, finish (hash_iter_mut_u h order f_u) = hash_iter_mut h order f).
Proof.
  intros A V AX f f_u Hf. split.
  - intros h n Hb. destruct (axis_iter_spec AX (vh_axes h) n Hb) as [l [Hl [_ [Hfst Hbin]]]].
    unfold vec_iter_mut, vec_iter_mut_u. rewrite Hl. unfold indices. destruct Hb as [Hn _]. rewrite Hn. cbn [obind].
    rewrite finish_in_part. rewrite <- Hfst.
    assert (forall vs, finish (zip_update_u (vh_axes h) f_u (map fst l) vs) = zip_update f l vs) as ->; [|reflexivity].
    clear Hl Hfst. induction l as [|[i b] l IH]; intros vs; [destruct vs; reflexivity|].
    cbn [map fst zip_update_u]. unfold item_bin. rewrite (Hbin i b) by (left; reflexivity). cbn [obind expect].
    destruct vs as [|v vs]; [reflexivity|]. cbn [zip_update]. rewrite <- Hf.
    destruct (f_u i b v) as [v'|v']; [|reflexivity]. cbn [finish obind]. rewrite finish_in_part, IH; [reflexivity|].
    intros j c Hj. apply Hbin. right. exact Hj.
  - intros h order. unfold hash_iter_mut_u, hash_iter_mut. rewrite finish_in_part, finish_loop. f_equal.
    apply foldo_ext. intros m p. unfold item_bin. destruct (bin (hh_axes h) (fst p)) as [[b|]|]; cbn [obind expect]; try reflexivity.
    rewrite <- Hf. destruct (f_u _ b _); reflexivity.
Qed.
Print Assumptions C71_iter_mut_agrees.

(** Whatever a program does with dense histograms, and however many panics it
    catches on the way: the histogram holds one value per bin, over axes it was
    made with, and can be iterated completely. *)
Theorem C71_dense_survives :
  forall A V D W (AX : Axis A) (AE : AxisEq A) (FU : FillU V) (FDU : FillWithU V D) (FWU : FillWithWeightedU V D W)
         (DV : Default V) (ok : A -> Prop),
  eq_same_bins AX AE -> (forall a, ok a -> exists n, has_bins AX a n) ->
  forall h : VecHistogram A V, @vec_survives A V D W AX AE FU FDU FWU DV ok h ->
  ok (vh_axes h) /\ num_bins (vh_axes h) = Val (N.of_nat (length (vec_values h)))
  /\ exists items, vec_iter h = Val items
     /\ map it_index items = range (N.of_nat (length (vec_values h))) /\ map it_value items = vec_values h.
Proof.
  intros A V D W AX AE FU FDU FWU DV ok Heq Hok h Hs.
  assert (HI : ok (vh_axes h) /\ num_bins (vh_axes h) = Val (N.of_nat (length (vh_values h)))).
  { induction Hs as [axes h Ha Hn | axes vs h Ha Hn | h o _ IH | h i r v _ IH Hm | h c r v _ IH Hm
      | h f _ IH | h f _ IH | op l r h' _ IHl _ IHr Hb | op l r h' _ IHl _ IHr Hb | op l r _ IHl _ _ | op l s h' _ IH Hb].
    - unfold vec_new in Hn. apply obind_val in Hn as [n [En Hn]]. injection Hn as <-. cbn [vh_axes vh_values].
      rewrite En, repeat_length. split; [exact Ha|]. f_equal. lia.
    - unfold vec_from_vec in Hn. apply obind_val in Hn as [n [En Hn]].
      destruct (N.eqb_spec n (N.of_nat (length vs))) as [->|]; [|discriminate]. injection Hn as <-. split; [exact Ha | exact En].
    - destruct (vec_call_u_cases h o) as [[_ ->]|[[_ ->]|[i [_ [[_ ->]|[v [_ ->]]]]]]]; try exact IH.
      rewrite contents_in_part. cbn [vh_axes vh_values]. rewrite set_nth_length. exact IH.
    - unfold vec_value_at_index_mut in Hm. destruct (nth_error (vh_values h) (N.to_nat i)); [|discriminate].
      injection Hm as <-. cbn [assign vh_axes vh_values]. rewrite set_nth_length. exact IH.
    - unfold vec_value_mut in Hm. apply obind_val in Hm as [oi [_ Hm]]. destruct oi as [i|]; [|discriminate].
      injection Hm as Hm.
      unfold vec_value_at_index_mut in Hm. destruct (nth_error (vh_values h) (N.to_nat i)); [|discriminate].
      injection Hm as <-. cbn [assign vh_axes vh_values]. rewrite set_nth_length. exact IH.
    - unfold vec_values_mut_u. rewrite contents_in_part. cbn [vh_axes vh_values]. rewrite each_u_length. exact IH.
    - unfold vec_iter_mut_u. destruct (indices (vh_axes h)); [|exact IH].
      rewrite contents_in_part. cbn [vh_axes vh_values]. rewrite zip_update_u_length. exact IH.
    - unfold vec_binop_borrowed in Hb. destruct (axis_eqb (vh_axes l) (vh_axes r)) eqn:E; [|discriminate].
      cbn [negb] in Hb. apply obind_val in Hb as [vs [Hm Hb]]. injection Hb as <-. cbn [vh_axes vh_values].
      apply mapo_length in Hm. rewrite Hm, combine_length. destruct IHl as [Ha IHl], IHr as [_ IHr]. split; [exact Ha|].
      pose proof (Heq _ _ E) as Hn. rewrite IHl, IHr in Hn. injection Hn as Hn. rewrite IHl. f_equal. lia.
    - unfold vec_binop_owned in Hb. destruct (axis_eqb (vh_axes l) (vh_axes r)); [|discriminate].
      cbn [negb] in Hb. apply obind_val in Hb as [vs [Hm Hb]]. injection Hb as <-. cbn [vh_axes vh_values].
      rewrite (zip_assign_length _ _ _ _ Hm). exact IHl.
    - unfold vec_binop_assign_u. destruct (axis_eqb (vh_axes l) (vh_axes r)); [|exact IHl]. cbn [negb].
      rewrite contents_in_part. cbn [vh_axes vh_values]. rewrite zip_assign_u_length. exact IHl.
    - unfold vec_scalar_op in Hb. apply obind_val in Hb as [vs [Hm Hb]]. injection Hb as <-.
      cbn [vh_axes vh_values]. rewrite (mapo_length _ _ _ Hm). exact IH. }
  destruct HI as [Ha Hn]. split; [exact Ha|]. split; [exact Hn|].
  destruct (Hok _ Ha) as [n Hb]. pose proof Hb as [Hn' _]. rewrite Hn in Hn'. injection Hn' as <-.
  destruct (C32_vec_iter A V AX h _ Hb eq_refl) as [items [Hi [Hlen [Hnth Hv]]]].
  exists items. split; [exact Hi|]. split; [|exact Hv].
  apply (nth_ext _ _ 0 0).
  - rewrite map_length. unfold vec_values. rewrite range_length. lia.
  - intros k Hk. rewrite map_length in Hk.
    destruct (nth_error items k) as [it|] eqn:E; [|apply nth_error_None in E; lia].
    destruct (Hnth k it E) as [Hix _].
    rewrite (nth_indep _ 0 (it_index it)) by (rewrite map_length; exact Hk). rewrite map_nth.
    rewrite (nth_error_nth _ _ _ E), Hix. symmetry.
    apply nth_error_nth. rewrite <- (Nat2N.id k) at 1. apply range_nth. unfold vec_values. lia.
Qed.
Print Assumptions C71_dense_survives.

(** The same for sparse histograms, whatever the hash orders: every stored bin is
    a bin of the axes, and iteration returns. *)
Theorem C71_sparse_survives :
  forall A V D W (AX : Axis A) (AE : AxisEq A) (FU : FillU V) (FDU : FillWithU V D) (FWU : FillWithWeightedU V D W)
         (DV : Default V) (ok : A -> Prop),
  eq_same_bins AX AE -> (forall a, ok a -> exists n, has_bins AX a n) ->
  (forall a c i, ok a -> index a c = Val (Some i) -> exists n, num_bins a = Val n /\ i < n) ->
  forall h : HashHistogram A V, @hash_survives A V D W AX AE FU FDU FWU DV ok h ->
  ok (hh_axes h)
  /\ (forall i v, hash_value_at_index h i = Some v -> exists n, num_bins (hh_axes h) = Val n /\ i < n)
  /\ forall order, an_order (hh_values h) order -> exists items, hash_iter h order = Val items
     /\ NoDup (map it_index items)
     /\ forall i v, hash_value_at_index h i = Some v <-> exists b, In (mkItem i b v) items.
Proof.
  intros A V D W AX AE FU FDU FWU DV ok Heq Hbins Hix h Hs.
  assert (HI : ok (hh_axes h) /\ forall i, is_Some (hh_values h !! i) -> exists n, num_bins (hh_axes h) = Val n /\ i < n).
  { induction Hs as [axes Hok | axes m h Hok Hn | h o _ IH | h i r v _ IH Hm | h c r v _ IH Hm
      | h order f _ IH Ho | h order f _ IH Ho | op l r keys h' _ IHl _ IHr Hk Hb
      | op l r order h' _ IHl _ IHr Ho Hb | op l r order _ IHl _ IHr Ho].
    - split; [exact Hok|]. cbn [hash_new hh_values]. intros i [v Hv]. rewrite lookup_empty in Hv. discriminate.
    - unfold hash_from_map in Hn. apply obind_val in Hn as [valid [Ef Hn]].
      destruct valid; [|discriminate].
      injection Hn as <-. split; [exact Hok|]. cbn [hh_axes hh_values]. intros i [v Hv].
      assert (Hi : In i (map fst (map_to_list m))).
      { apply in_map_iff. exists (i, v). split; [reflexivity|]. apply elem_of_list_In. now apply elem_of_map_to_list. }
      apply (proj1 (allo_true _ _) Ef) in Hi. apply obind_val in Hi as [n [En Hi]]. exists n. split; [exact En|].
      apply N.ltb_lt. injection Hi as Hi. exact Hi.
    - destruct IH as [Hok IH].
      destruct (hash_call_u_cases h o) as [[_ ->]|[[_ ->]|[i [Ei ->]]]]; try (split; assumption).
      rewrite contents_in_part. cbn [hh_axes hh_values]. split; [exact Hok|].
      intros j Hj. apply insert_keys in Hj as [->|Hj]; [eapply Hix; eauto | auto].
    - destruct IH as [Hok IH]. unfold hash_value_at_index_mut in Hm.
      destruct (hh_values h !! i) as [w|] eqn:Ew; [|discriminate]. injection Hm as <-.
      cbn [assign hh_axes hh_values]. split; [exact Hok|]. intros j Hj.
      apply insert_keys in Hj as [->|Hj]; [apply IH; eauto | auto].
    - destruct IH as [Hok IH]. unfold hash_value_mut in Hm. apply obind_val in Hm as [[i|] [_ Hm]]; [|discriminate].
      injection Hm as Hm. unfold hash_value_at_index_mut in Hm.
      destruct (hh_values h !! i) as [w|] eqn:Ew; [|discriminate]. injection Hm as <-.
      cbn [assign hh_axes hh_values]. split; [exact Hok|]. intros j Hj.
      apply insert_keys in Hj as [->|Hj]; [apply IH; eauto | auto].
    - destruct IH as [Hok IH]. unfold hash_values_mut_u. rewrite contents_in_part. cbn [hh_axes hh_values]. split; [exact Hok|].
      intros i Hi. apply (loop_insert_keys fst) in Hi.
      + destruct Hi as [Hi|Hi]; [apply IH; now apply (order_key _ order _ Ho) | auto].
      + intros m p j Hj. rewrite contents_in_part in Hj. apply insert_keys in Hj. exact Hj.
    - destruct IH as [Hok IH]. unfold hash_iter_mut_u. rewrite contents_in_part. cbn [hh_axes hh_values]. split; [exact Hok|].
      intros i Hi. apply (loop_insert_keys fst) in Hi.
      + destruct Hi as [Hi|Hi]; [apply IH; now apply (order_key _ order _ Ho) | auto].
      + intros m p j Hj. destruct (item_bin (hh_axes h) (fst p)); [|right; exact Hj].
        rewrite contents_in_part in Hj. apply insert_keys in Hj. exact Hj.
    - destruct IHl as [Hok IHl], IHr as [_ IHr]. destruct (borrowed_keys _ _ _ _ _ Hb) as [Ha [Hax Hks]].
      rewrite Ha. split; [exact Hok|]. intros i Hi. apply Hks in Hi. apply Hk in Hi as [Hi|Hi]; [auto|].
      rewrite (Heq _ _ Hax). auto.
    - destruct IHl as [Hok IHl], IHr as [_ IHr]. unfold hash_binop_owned in Hb.
      destruct (axis_eqb (hh_axes l) (hh_axes r)) eqn:E; [|discriminate]. cbn [negb] in Hb.
      apply obind_val in Hb as [m [Hm Hb]]. injection Hb as <-. cbn [hh_axes hh_values]. split; [exact Hok|].
      destruct (merge_loop_spec _ _ _ _ (order_NoDup _ _ Ho) Hm) as [_ Hout].
      intros i Hi. destruct (decide (i ∈ map fst order)) as [Hin|Hnin].
      + rewrite (Heq _ _ E). apply IHr. now apply (order_key _ order _ Ho).
      + rewrite (Hout i Hnin) in Hi. auto.
    - destruct IHl as [Hok IHl], IHr as [_ IHr]. unfold hash_binop_assign_u.
      destruct (axis_eqb (hh_axes l) (hh_axes r)) eqn:E; [|split; assumption]. cbn [negb].
      rewrite contents_in_part. cbn [hh_axes hh_values]. split; [exact Hok|].
      intros i Hi. apply (loop_insert_keys fst) in Hi.
      + destruct Hi as [Hi|Hi]; [rewrite (Heq _ _ E); apply IHr; now apply (order_key _ order _ Ho) | auto].
      + intros m p j Hj. apply entry_keys in Hj. exact Hj. }
  destruct HI as [Ha HI]. split; [exact Ha|].
  assert (HK : forall i v, hash_value_at_index h i = Some v -> exists n, num_bins (hh_axes h) = Val n /\ i < n).
  { intros i v Hv. apply HI. exists v. exact Hv. }
  split; [exact HK|]. intros order Ho. destruct (Hbins _ Ha) as [n Hb].
  destruct (C31_hash_iter A V AX h n order Hb) as [items [Hi [Hnd [Hsound [Hcomp _]]]]]; [|exact Ho|].
  { intros i v Hv. destruct (HK i v Hv) as [n' [Hn' Hlt]]. destruct Hb as [Hn _]. rewrite Hn in Hn'. injection Hn' as <-. exact Hlt. }
  exists items. split; [exact Hi|]. split; [exact Hnd|]. intros i v. split; [apply Hcomp|].
  intros [b Hin]. apply (Hsound _ Hin).
Qed.
Print Assumptions C71_sparse_survives.

(** u8 counts over a category axis with overflow checks: a values_mut loop that
    overflows half way leaves [254+1, 255, 3, 0]; the histogram survives, and a
    later fill works. *)
Example C71_nonvacuous :
  let B := {| overflow_checks := true; target_width := P64 |} in
  let AX := ex_axis B in
  let FU := num_fill_u (int_ops (unsigned 8)) in
  let FDU := num_fill_with_u (int_ops (unsigned 8)) in
  let FWU := {| fill_with_weighted_u := fun (v d : Z) (w : Empty_set) => match w with end |} in
  let h := mkVecHist ex_cat [254; 255; 3; 0]%Z in
  let step v := store v (@n_add _ (int_ops (unsigned 8)) v 1%Z) in
  let h1 := contents (vec_values_mut_u h step) in
  let h2 := contents (vec_call_u h1 (CallFill (D := Z) (W := Empty_set) 9%Z)) in
  eq_same_bins (ex_axis B) ex_eq
  /\ has_bins (ex_axis B) ex_cat 4
  /\ returned (vec_values_mut_u h step) = false
  /\ vec_values h1 = [255; 255; 3; 0]%Z /\ vec_values h2 = [255; 255; 4; 0]%Z
  /\ @vec_survives _ Z Z Empty_set AX ex_eq FU FDU FWU (int_default (unsigned 8)) (fun a => a = ex_cat) h2.
Proof.
  intros B AX FU FDU FWU h step h1 h2. destruct (C26_C33_nonvacuous B) as [_ [Hb [He _]]].
  split; [exact He|]. split; [exact Hb|]. split; [reflexivity|]. split; [reflexivity|]. split; [vm_compute; reflexivity|].
  unfold h2, h1. apply vs_call. apply vs_values_mut. apply (vs_from_vec _ ex_cat [254; 255; 3; 0]%Z); vm_compute; reflexivity.
Qed.
