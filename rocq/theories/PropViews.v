(** * PropViews: bin values over arbitrary component types, and histograms seen
    through an accessor of their bin values (C81). *)
From stdpp Require Import gmap.
From Verif Require Import Base BaseFacts Num Axis Value ValueGeneric VecHist HashHist HistSpec Uniform Category PropHistIter.
Import ListNotations.
Open Scope N_scope.

(** ** The number types are an instance *)
Theorem C81_numbers : forall T O C (ops : NumOps T) (opsO : NumOps O) (opsC : NumOps C) (of_T : T -> O),
  (forall s, @fill_v _ (sum_of_fill (num_fill ops)) s = sum_fill ops s)
  /\ (forall s w, @fill_with_v _ _ (sum_of_fill_with (num_fill_with ops)) s w = sum_fill_with ops s w)
  /\ (forall s, @fill_v _ (weightedsum_of_fill (num_fill ops)) s = weightedsum_fill ops s)
  /\ (forall s w, @fill_with_v _ _ (weightedsum_of_fill_with (num_fill_with ops) (@n_mul _ ops)) s w = weightedsum_fill_with ops s w)
  /\ (forall m d, @fill_with_v _ _ (mean_of_fill_with (@n_add _ ops) (@n_mul _ ops) (@n_add _ opsC) (@n_one _ opsC)) m d
                  = mean_fill_with ops opsC m d)
  /\ (forall m v w, @fill_with_weighted_v _ _ _ (weightedmean_of_fill (@n_add _ ops) (@n_mul _ ops) (@n_mul _ ops) (@n_add _ ops)
                      (@n_mul _ ops) (@n_add _ opsC) (@n_one _ opsC)) m v w = weightedmean_fill ops opsC m v w)
  /\ (forall m : WeightedMean T T C, weightedmean_of_mean opsO of_T of_T m = weightedmean_mean opsO of_T m
      /\ weightedmean_of_variance_of_samples opsO of_T of_T m = weightedmean_variance_of_samples opsO of_T m
      /\ weightedmean_of_variance_of_mean opsO of_T of_T m = weightedmean_variance_of_mean opsO of_T m)
  /\ (forall m : WeightedMean T T C, weightedmean_of_num_samples m = weightedmean_num_samples m)
  /\ @default_v _ (sum_of_default (num_default ops)) = sum_new ops
  /\ @default_v _ (weightedsum_of_default (num_default ops)) = weightedsum_new ops
  /\ @default_v _ (mean_of_default (num_default ops) (num_default opsC)) = mean_default ops opsC
  /\ @default_v _ (weightedmean_of_default (num_default ops) (num_default ops) (num_default opsC)) = weightedmean_default ops opsC.
Proof. intros. repeat split. Qed.
Print Assumptions C81_numbers.

(** ** Each field accumulates on its own *)

(** [WeightedSum<T>] filled with the weights [ws]: the sum is [T] filled with the
    weights in order, the variance is [T] filled with their squares in order; the
    calls return exactly when all of this does. *)
Theorem C81_weightedsum_fields : forall T W (FT : FillWith T W) (mul : W -> W -> outcome W) (ws : list W) (s r : WeightedSum T),
  foldo (@fill_with_v _ _ (weightedsum_of_fill_with FT mul)) ws s = Val r <->
  exists squares, mapo (fun w => mul w w) ws = Val squares
    /\ foldo fill_with_v ws (ws_sumw s) = Val (ws_sumw r)
    /\ foldo fill_with_v squares (ws_sumw2 s) = Val (ws_sumw2 r).
Proof.
  intros T W FT mul ws. induction ws as [|w ws IH]; intros s r; cbn [foldo mapo].
  - split.
    + intros [= <-]. exists []. auto.
    + intros [sq [[= <-] [[= H1] [= H2]]]]. f_equal. destruct s, r; cbn in *; congruence.
  - split.
    + intros H. apply obind_val in H as [s' [Hs H]]. cbn in Hs.
      apply obind_val in Hs as [a [Ha Hs]]. apply obind_val in Hs as [w2 [Hw Hs]]. apply obind_val in Hs as [b [Hb Hs]].
      injection Hs as <-. apply IH in H as [sq [H1 [H2 H3]]]. cbn in H2, H3.
      exists (w2 :: sq). rewrite Hw, H1. cbn [obind foldo]. rewrite Ha, Hb. cbn [obind]. auto.
    + intros [sq [H1 [H2 H3]]]. apply obind_val in H1 as [w2 [Hw H1]]. apply obind_val in H1 as [sq' [Hsq H1]]. injection H1 as <-.
      apply obind_val in H2 as [a [Ha H2]]. cbn [foldo] in H3. apply obind_val in H3 as [b [Hb H3]].
      cbn. rewrite Ha. cbn. rewrite Hw. cbn. rewrite Hb. cbn. apply IH. exists sq'. auto.
Qed.
Print Assumptions C81_weightedsum_fields.

(** [Mean<T, O, C>] filled with the data [xs]. *)
Theorem C81_mean_fields : forall T C (add_T mul_T : T -> T -> outcome T) (add_C : C -> C -> outcome C) (one_C : C)
  (xs : list T) (m r : Mean T C),
  foldo (@fill_with_v _ _ (mean_of_fill_with add_T mul_T add_C one_C)) xs m = Val r <->
  exists squares, mapo (fun x => mul_T x x) xs = Val squares
    /\ foldo add_T xs (m_sumw m) = Val (m_sumw r)
    /\ foldo add_T squares (m_sumw2 m) = Val (m_sumw2 r)
    /\ foldo (fun c _ => add_C c one_C) xs (m_count m) = Val (m_count r).
Proof.
  intros T C add_T mul_T add_C one_C xs. induction xs as [|x xs IH]; intros m r; cbn [foldo mapo].
  - split.
    + intros [= <-]. exists []. auto.
    + intros [sq [[= <-] [[= H1] [[= H2] [= H3]]]]]. f_equal. destruct m, r; cbn in *; congruence.
  - split.
    + intros H. apply obind_val in H as [m' [Hs H]]. cbn in Hs.
      apply obind_val in Hs as [a [Ha Hs]]. apply obind_val in Hs as [x2 [Hx Hs]]. apply obind_val in Hs as [b [Hb Hs]].
      apply obind_val in Hs as [c [Hc Hs]]. injection Hs as <-. apply IH in H as [sq [H1 [H2 [H3 H4]]]]. cbn in H2, H3, H4.
      exists (x2 :: sq). rewrite Hx, H1. cbn [obind foldo]. rewrite Ha, Hb, Hc. cbn [obind]. auto.
    + intros [sq [H1 [H2 [H3 H4]]]]. apply obind_val in H1 as [x2 [Hx H1]]. apply obind_val in H1 as [sq' [Hsq H1]]. injection H1 as <-.
      apply obind_val in H2 as [a [Ha H2]]. cbn [foldo] in H3. apply obind_val in H3 as [b [Hb H3]]. apply obind_val in H4 as [c [Hc H4]].
      cbn. rewrite Ha. cbn. rewrite Hx. cbn. rewrite Hb. cbn. rewrite Hc. cbn. apply IH. exists sq'. auto.
Qed.
Print Assumptions C81_mean_fields.

(** [WeightedMean<T, W, O, C>] filled with the (value, weight) pairs [xs], where the
    weights may be of another type than the values. *)
Theorem C81_weightedmean_fields : forall T W C (add_T mul_TT : T -> T -> outcome T) (mul_TW : T -> W -> outcome T)
  (add_W mul_WW : W -> W -> outcome W) (add_C : C -> C -> outcome C) (one_C : C) (xs : list (T * W)) (m r : WeightedMean T W C),
  foldo (fun m x => @fill_with_weighted_v _ _ _ (weightedmean_of_fill add_T mul_TT mul_TW add_W mul_WW add_C one_C) m (fst x) (snd x)) xs m = Val r <->
  exists products squares weights2,
    mapo (fun x : T * W => mul_TW (fst x) (snd x)) xs = Val products
    /\ mapo (fun x : T * W => let! v2 := mul_TT (fst x) (fst x) in mul_TW v2 (snd x)) xs = Val squares
    /\ mapo (fun x : T * W => mul_WW (snd x) (snd x)) xs = Val weights2
    /\ foldo add_T products (wm_sumwt m) = Val (wm_sumwt r)
    /\ foldo add_T squares (wm_sumwt2 m) = Val (wm_sumwt2 r)
    /\ foldo add_W (map snd xs) (wm_sumw m) = Val (wm_sumw r)
    /\ foldo add_W weights2 (wm_sumw2 m) = Val (wm_sumw2 r)
    /\ foldo (fun c _ => add_C c one_C) xs (wm_count m) = Val (wm_count r).
Proof.
  intros T W C add_T mul_TT mul_TW add_W mul_WW add_C one_C xs. induction xs as [|[v w] xs IH]; intros m r; cbn [foldo mapo map fst snd].
  - split.
    + intros [= <-]. exists [], [], []. tauto.
    + intros [p [q [w2 [[= <-] [[= <-] [[= <-] [[= H1] [[= H2] [[= H3] [[= H4] [= H5]]]]]]]]]]].
      f_equal. destruct m, r; cbn in *; congruence.
  - split.
    + intros H. apply obind_val in H as [m' [Hs H]]. cbn in Hs.
      apply obind_val in Hs as [p1 [Hp1 Hs]]. apply obind_val in Hs as [a [Ha Hs]].
      apply obind_val in Hs as [v2 [Hv2 Hs]]. apply obind_val in Hs as [p2 [Hp2 Hs]]. apply obind_val in Hs as [b [Hb Hs]].
      apply obind_val in Hs as [c [Hc Hs]]. apply obind_val in Hs as [w2 [Hw2 Hs]]. apply obind_val in Hs as [d [Hd Hs]].
      apply obind_val in Hs as [e [He Hs]]. injection Hs as <-.
      apply IH in H as [ps [qs [ws [H1 [H2 [H3 [H4 [H5 [H6 [H7 H8]]]]]]]]]]. cbn in H4, H5, H6, H7, H8.
      exists (p1 :: ps), (p2 :: qs), (w2 :: ws). rewrite Hp1, H1, Hv2. cbn [obind]. rewrite Hp2. cbn [obind]. rewrite H2, Hw2. cbn [obind].
      rewrite H3. cbn [obind foldo]. rewrite Ha, Hb, Hc, Hd, He. cbn [obind]. tauto.
    + intros [ps [qs [ws [H1 [H2 [H3 [H4 [H5 [H6 [H7 H8]]]]]]]]]].
      apply obind_val in H1 as [p1 [Hp1 H1]]. apply obind_val in H1 as [ps' [Hps H1]]. injection H1 as <-.
      apply obind_val in H2 as [p2 [Hp2 H2]]. apply obind_val in H2 as [qs' [Hqs H2]]. injection H2 as <-. apply obind_val in Hp2 as [v2 [Hv2 Hp2]].
      apply obind_val in H3 as [w2 [Hw2 H3]]. apply obind_val in H3 as [ws' [Hws H3]]. injection H3 as <-.
      cbn [foldo] in H4, H5, H7. apply obind_val in H4 as [a [Ha H4]]. apply obind_val in H5 as [b [Hb H5]]. apply obind_val in H6 as [c [Hc H6]].
      apply obind_val in H7 as [d [Hd H7]]. apply obind_val in H8 as [e [He H8]].
      cbn. rewrite Hp1. cbn. rewrite Ha. cbn. rewrite Hv2. cbn. rewrite Hp2. cbn. rewrite Hb. cbn. rewrite Hc. cbn. rewrite Hw2. cbn.
      rewrite Hd. cbn. rewrite He. cbn. apply IH. exists ps', qs', ws'. tauto.
Qed.
Print Assumptions C81_weightedmean_fields.

(** ** Views of a histogram *)
Section View.
Context {A V V' D W D' W' : Type} {AX : Axis A}.
Context {FV : Fill V} {FD : FillWith V D} {FW : FillWithWeighted V D W} {DV : Default V}.
Context {FV' : Fill V'} {FD' : FillWith V' D'} {FW' : FillWithWeighted V' D' W'} {DV' : Default V'}.
Context (g : V -> V').

(** The call [o'] does to what the accessor [g] shows what [o] does to the bin value. *)
Definition shows (o : fill_op (AX := AX) D W) (o' : fill_op (AX := AX) D' W') : Prop :=
  op_coordinate o' = op_coordinate o
  /\ forall v r, op_effect o v = Val r -> op_effect o' (g v) = Val (g r).

Lemma set_nth_map i v (l : list V) : set_nth i (g v) (map g l) = map g (set_nth i v l).
Proof. revert i. induction l as [|x l IH]; intros [|i]; cbn; try reflexivity. f_equal. apply IH. Qed.

Lemma vec_call_effect (h : VecHistogram A V) o : vec_call h o =
  let! r := vec_value_mut h (op_coordinate o) in update_through h r (op_effect o).
Proof. destruct o; reflexivity. Qed.
Lemma vec_call_effect' (h : VecHistogram A V') (o : fill_op D' W') : vec_call h o =
  let! r := vec_value_mut h (op_coordinate o) in update_through h r (op_effect o).
Proof. destruct o; reflexivity. Qed.
Lemma hash_call_effect (h : HashHistogram A V) o : hash_call h o = hash_update_at h (op_coordinate o) (op_effect o).
Proof. destruct o; reflexivity. Qed.
Lemma hash_call_effect' (h : HashHistogram A V') (o : fill_op D' W') : hash_call h o = hash_update_at h (op_coordinate o) (op_effect o).
Proof. destruct o; reflexivity. Qed.

Lemma view_dense ops ops' : Forall2 shows ops ops' -> forall (h r : VecHistogram A V),
  vec_calls h ops = Val r ->
  vec_calls (mkVecHist (vh_axes h) (map g (vh_values h))) ops' = Val (mkVecHist (vh_axes r) (map g (vh_values r))).
Proof.
  unfold vec_calls. induction 1 as [|o o' ops ops' [Hc Ho] _ IH]; intros h r; cbn [foldo].
  - intros [= <-]. reflexivity.
  - intros H. apply obind_val in H as [h1 [H1 H]]. rewrite vec_call_effect in H1. rewrite vec_call_effect', Hc.
    unfold vec_value_mut in *. cbn [vh_axes] in *. destruct (index (vh_axes h) (op_coordinate o)) as [oi|]; [|discriminate].
    cbn [obind] in *. destruct oi as [i|]; cbn [obind update_through] in *.
    + unfold vec_value_at_index_mut in *. cbn [vh_values vh_axes] in *. rewrite nth_error_map.
      destruct (nth_error (vh_values h) (N.to_nat i)) as [v|] eqn:Ev; cbn [option_map update_through] in *.
      * cbn [deref assign] in *. apply obind_val in H1 as [v' [Hv H1]]. injection H1 as <-. rewrite (Ho _ _ Hv). cbn [obind].
        rewrite set_nth_map. exact (IH _ _ H).
      * injection H1 as <-. exact (IH _ _ H).
    + injection H1 as <-. exact (IH _ _ H).
Qed.

Lemma view_sparse ops ops' : g default_v = default_v -> Forall2 shows ops ops' -> forall (h r : HashHistogram A V),
  hash_calls h ops = Val r ->
  hash_calls (mkHashHist (hh_axes h) (g <$> hh_values h)) ops' = Val (mkHashHist (hh_axes r) (g <$> hh_values r)).
Proof.
  intros Hd. unfold hash_calls. induction 1 as [|o o' ops ops' [Hc Ho] _ IH]; intros h r; cbn [foldo].
  - intros [= <-]. reflexivity.
  - intros H. apply obind_val in H as [h1 [H1 H]]. rewrite hash_call_effect in H1. rewrite hash_call_effect', Hc.
    unfold hash_update_at in *. cbn [hh_axes] in *. destruct (index (hh_axes h) (op_coordinate o)) as [oi|]; [|discriminate].
    cbn [obind] in *. destruct oi as [i|]; cbn [obind] in *; [|injection H1 as <-; exact (IH _ _ H)].
    apply obind_val in H1 as [m [Hm H1]]. injection H1 as <-. unfold entry_or_default_update in *. cbn [hh_values] in *.
    rewrite lookup_fmap. apply obind_val in Hm as [v' [Hv Hm]]. injection Hm as <-.
    assert (Hgv : match g <$> hh_values h !! i with Some v => v | None => default_v end
                  = g (match hh_values h !! i with Some v => v | None => default_v end)).
    { destruct (hh_values h !! i); [reflexivity | symmetry; exact Hd]. }
    rewrite Hgv, (Ho _ _ Hv). cbn [obind]. rewrite <- fmap_insert. exact (IH _ _ H).
Qed.
End View.

Lemma map_repeat {X Y} (g : X -> Y) x n : map g (repeat x n) = repeat (g x) n.
Proof. induction n as [|n IH]; cbn [repeat map]; [reflexivity | now rewrite IH]. Qed.

(** A histogram seen through an accessor [g] of its bin values is the histogram of what
    the accessor shows: same axes, same bins, each value the accessor's. *)
Theorem C81_view : forall A V V' D W D' W' (AX : Axis A) (FV : Fill V) (FD : FillWith V D) (FW : FillWithWeighted V D W) (DV : Default V)
  (FV' : Fill V') (FD' : FillWith V' D') (FW' : FillWithWeighted V' D' W') (DV' : Default V') (g : V -> V')
  (a : A) (ops : list (fill_op D W)) (ops' : list (fill_op D' W')),
  g default_v = default_v -> Forall2 (shows g) ops ops' ->
  (forall h0 h, vec_new a = Val h0 -> vec_calls h0 ops = Val h ->
     exists h0' h', @vec_new A V' AX DV' a = Val h0' /\ vec_calls h0' ops' = Val h'
       /\ vh_axes h' = vh_axes h /\ vec_values h' = map g (vec_values h))
  /\ (forall h, hash_calls (hash_new a) ops = Val h ->
     exists h', hash_calls (@hash_new A V' a) ops' = Val h'
       /\ hh_axes h' = hh_axes h
       /\ forall i, hash_value_at_index h' i = option_map g (hash_value_at_index h i)).
Proof.
  intros A V V' D W D' W' AX FV FD FW DV FV' FD' FW' DV' g a ops ops' Hd Ho. split.
  - intros h0 h H0 H. unfold vec_new in *. apply obind_val in H0 as [n [Hn H0]]. injection H0 as <-. rewrite Hn. cbn [obind].
    pose proof (view_dense g ops ops' Ho _ _ H) as Hv. cbn [vh_axes vh_values] in Hv. rewrite map_repeat, Hd in Hv.
    eexists _, _. split; [reflexivity|]. split; [exact Hv|]. split; reflexivity.
  - intros h H. pose proof (view_sparse g ops ops' Hd Ho _ _ H) as Hv. cbn [hh_axes hh_values hash_new] in Hv. rewrite fmap_empty in Hv.
    eexists. split; [exact Hv|]. split; [reflexivity|]. intros i. unfold hash_value_at_index. cbn [hh_values]. apply lookup_fmap.
Qed.
Print Assumptions C81_view.

(** ** The accessors of the library's bin values *)

(** [Sum<T>], for any [T] that can be filled: the same calls on a histogram of [T]
    give what [get] shows, and the calls return for one exactly when they do for the
    other. *)
Theorem C81_sum_view : forall A T D (AX : Axis A) (FT : Fill T) (FD : FillWith T D) (DT : Default T)
  (FW : FillWithWeighted T D Empty_set) (FWS : FillWithWeighted (Sum T) D Empty_set)
  (a : A) (ops : list (fill_op D Empty_set)),
  let FS := sum_of_fill FT in let FDS := sum_of_fill_with FD in let DS := sum_of_default DT in
  (forall h0 : VecHistogram A (Sum T), vec_new a = Val h0 ->
     exists h0' : VecHistogram A T, vec_new a = Val h0'
       /\ (forall h, vec_calls h0 ops = Val h -> exists h', vec_calls h0' ops = Val h'
             /\ vh_axes h' = vh_axes h /\ vec_values h' = map sum_get (vec_values h))
       /\ (forall h', vec_calls h0' ops = Val h' -> exists h, vec_calls h0 ops = Val h))
  /\ (forall h : HashHistogram A (Sum T), hash_calls (hash_new a) ops = Val h ->
       exists h' : HashHistogram A T, hash_calls (hash_new a) ops = Val h' /\ hh_axes h' = hh_axes h
         /\ forall i, hash_value_at_index h' i = option_map sum_get (hash_value_at_index h i))
  /\ (forall h' : HashHistogram A T, hash_calls (hash_new a) ops = Val h' ->
       exists h : HashHistogram A (Sum T), hash_calls (hash_new a) ops = Val h).
Proof.
  intros A T D AX FT FD DT FW FWS a ops FS FDS DS.
  assert (Hg : Forall2 (shows (@sum_get T)) ops ops).
  { apply Forall_Forall2_diag, Forall_forall. intros o _. split; [reflexivity|]. destruct o as [c|c d|c d []]; cbn; intros v r H.
    all: apply obind_val in H as [x [Hx H]]; injection H as <-; exact Hx. }
  assert (Hm : Forall2 (shows (@mkSum T)) ops ops).
  { apply Forall_Forall2_diag, Forall_forall. intros o _. split; [reflexivity|]. destruct o as [c|c d|c d []]; cbn; intros v r H; rewrite H; reflexivity. }
  destruct (C81_view A (Sum T) T D Empty_set D Empty_set AX FS FDS FWS DS FT FD FW DT (@sum_get T) a ops ops eq_refl Hg) as [HA HB].
  destruct (C81_view A T (Sum T) D Empty_set D Empty_set AX FT FD FW DT FS FDS FWS DS (@mkSum T) a ops ops eq_refl Hm) as [HC HD].
  split; [|split].
  - intros h0 H0. assert (H0' : exists h0' : VecHistogram A T, vec_new a = Val h0').
    { unfold vec_new in *. apply obind_val in H0 as [n [Hn H0]]. rewrite Hn. cbn [obind]. eauto. }
    destruct H0' as [h0' H0']. exists h0'. split; [exact H0'|]. split.
    + intros h H. destruct (HA _ _ H0 H) as [k0 [k [K0 [K [K1 K2]]]]].
      pose proof (eq_trans (eq_sym K0) H0') as E. injection E as ->. exists k. auto.
    + intros h' H. destruct (HC _ _ H0' H) as [k0 [k [K0 [K [K1 K2]]]]].
      pose proof (eq_trans (eq_sym K0) H0) as E. injection E as ->. exists k. exact K.
  - intros h H. destruct (HB _ H) as [h' [H1 [H2 H3]]]. exists h'. auto.
  - intros h' H. destruct (HD _ H) as [h [H1 _]]. exists h. exact H1.
Qed.
Print Assumptions C81_sum_view.

(** Replace each weight by its square. *)
Inductive squared {A W} {AX : Axis A} (mul : W -> W -> outcome W) : fill_op (AX := AX) W Empty_set -> fill_op (AX := AX) W Empty_set -> Prop :=
| squared_fill c : squared mul (CallFill c) (CallFill c)
| squared_fill_with c w w2 : mul w w = Val w2 -> squared mul (CallFillWith c w) (CallFillWith c w2).

(** [WeightedSum<T>]: [get] shows the histogram of [T] under the same calls, and
    [variance] the histogram of [T] under the calls with each weight squared. *)
Theorem C81_weightedsum_views : forall A T W (AX : Axis A) (FT : Fill T) (FD : FillWith T W) (mul : W -> W -> outcome W) (DT : Default T)
  (FW : FillWithWeighted T W Empty_set) (FWS : FillWithWeighted (WeightedSum T) W Empty_set)
  (a : A) (ops ops2 : list (fill_op W Empty_set)),
  let FS := weightedsum_of_fill FT in let FDS := weightedsum_of_fill_with FD mul in let DS := weightedsum_of_default DT in
  Forall2 (squared mul) ops ops2 ->
  (forall (h0 h : VecHistogram A (WeightedSum T)), vec_new a = Val h0 -> vec_calls h0 ops = Val h ->
     exists h0' h1 h2 : VecHistogram A T, vec_new a = Val h0'
       /\ vec_calls h0' ops = Val h1 /\ vec_values h1 = map weightedsum_get (vec_values h)
       /\ vec_calls h0' ops2 = Val h2 /\ vec_values h2 = map weightedsum_variance (vec_values h))
  /\ (forall h : HashHistogram A (WeightedSum T), hash_calls (hash_new a) ops = Val h ->
     exists h1 h2 : HashHistogram A T,
       hash_calls (hash_new a) ops = Val h1
       /\ (forall i, hash_value_at_index h1 i = option_map weightedsum_get (hash_value_at_index h i))
       /\ hash_calls (hash_new a) ops2 = Val h2
       /\ (forall i, hash_value_at_index h2 i = option_map weightedsum_variance (hash_value_at_index h i))).
Proof.
  intros A T W AX FT FD mul DT FW FWS a ops ops2 FS FDS DS Hsq.
  assert (Hg : Forall2 (shows (@weightedsum_get T)) ops ops).
  { apply Forall_Forall2_diag, Forall_forall. intros o _. split; [reflexivity|]. destruct o as [c|c d|c d []]; cbn; intros v r H.
    - apply obind_val in H as [x [Hx H]]. apply obind_val in H as [y [Hy H]]. injection H as <-. exact Hx.
    - apply obind_val in H as [x [Hx H]]. apply obind_val in H as [y [Hy H]]. apply obind_val in H as [z [Hz H]]. injection H as <-. exact Hx. }
  assert (Hv : Forall2 (shows (@weightedsum_variance T)) ops ops2).
  { eapply Forall2_impl; [exact Hsq|]. intros o o' [c|c w w2 Hw]; (split; [reflexivity|]); cbn; intros v r H.
    - apply obind_val in H as [x [Hx H]]. apply obind_val in H as [y [Hy H]]. injection H as <-. exact Hy.
    - apply obind_val in H as [x [Hx H]]. rewrite Hw in H. cbn [obind] in H. apply obind_val in H as [z [Hz H]]. injection H as <-. exact Hz. }
  destruct (C81_view A _ T W Empty_set W Empty_set AX FS FDS FWS DS FT FD FW DT (@weightedsum_get T) a ops ops eq_refl Hg) as [HA HB].
  destruct (C81_view A _ T W Empty_set W Empty_set AX FS FDS FWS DS FT FD FW DT (@weightedsum_variance T) a ops ops2 eq_refl Hv) as [HC HD].
  split.
  - intros h0 h H0 H. destruct (HA _ _ H0 H) as [k0 [k1 [K0 [K1 [_ K2]]]]]. destruct (HC _ _ H0 H) as [j0 [j1 [J0 [J1 [_ J2]]]]].
    pose proof (eq_trans (eq_sym J0) K0) as E. injection E as ->. exists k0, k1, j1. auto.
  - intros h H. destruct (HB _ H) as [k [K1 [_ K2]]]. destruct (HD _ H) as [j [J1 [_ J2]]]. exists k, j. auto.
Qed.
Print Assumptions C81_weightedsum_views.

(** Forget the data: count the call. *)
Definition counted {A D W D' W'} {AX : Axis A} (o : fill_op (AX := AX) D W) : fill_op (AX := AX) D' W' := CallFill (op_coordinate o).

(** [Mean] and [WeightedMean]: [num_samples] shows the histogram of the count type
    [C] under one plain [fill] per call, at the same coordinates. *)
Theorem C81_num_samples_view : forall A T W C (AX : Axis A) (add_T mul_TT : T -> T -> outcome T) (mul_TW : T -> W -> outcome T)
  (add_W mul_WW : W -> W -> outcome W) (opsC : NumOps C) (DT : Default T) (DW : Default W)
  (FM : Fill (Mean T C)) (FWM : FillWithWeighted (Mean T C) T Empty_set)
  (FX : Fill (WeightedMean T W C)) (FDX : FillWith (WeightedMean T W C) T)
  (a : A) (ops : list (fill_op T Empty_set)) (opsw : list (fill_op T W)),
  let FDM := mean_of_fill_with add_T mul_TT (@n_add _ opsC) (@n_one _ opsC) in
  let DM := mean_of_default DT (num_default opsC) in
  let FWX := weightedmean_of_fill add_T mul_TT mul_TW add_W mul_WW (@n_add _ opsC) (@n_one _ opsC) in
  let DX := weightedmean_of_default DT DW (num_default opsC) in
  let FC := num_fill opsC in let FDC := num_fill_with opsC in let DC := num_default opsC in
  let FWC := {| fill_with_weighted_v := fun (v : C) (d : C) (w : Empty_set) => match w with end |} in
  (forall o, In o ops -> exists c d, o = CallFillWith c d) ->
  (forall o, In o opsw -> exists c d w, o = CallFillWithWeighted c d w) ->
  (forall (h0 h : VecHistogram A (Mean T C)), vec_new a = Val h0 -> vec_calls h0 ops = Val h ->
     exists h0' h' : VecHistogram A C, vec_new a = Val h0' /\ vec_calls h0' (map counted ops) = Val h'
       /\ vec_values h' = map mean_num_samples (vec_values h))
  /\ (forall h : HashHistogram A (Mean T C), hash_calls (hash_new a) ops = Val h ->
     exists h' : HashHistogram A C, hash_calls (hash_new a) (map counted ops) = Val h'
       /\ forall i, hash_value_at_index h' i = option_map mean_num_samples (hash_value_at_index h i))
  /\ (forall (h0 h : VecHistogram A (WeightedMean T W C)), vec_new a = Val h0 -> vec_calls h0 opsw = Val h ->
     exists h0' h' : VecHistogram A C, vec_new a = Val h0' /\ vec_calls h0' (map counted opsw) = Val h'
       /\ vec_values h' = map weightedmean_of_num_samples (vec_values h))
  /\ (forall h : HashHistogram A (WeightedMean T W C), hash_calls (hash_new a) opsw = Val h ->
     exists h' : HashHistogram A C, hash_calls (hash_new a) (map counted opsw) = Val h'
       /\ forall i, hash_value_at_index h' i = option_map weightedmean_of_num_samples (hash_value_at_index h i)).
Proof.
  intros A T W C AX add_T mul_TT mul_TW add_W mul_WW opsC DT DW FM FWM FX FDX a ops opsw FDM DM FWX DX FC FDC DC FWC Hops Hopsw.
  assert (Hg : Forall2 (shows (@mean_num_samples T C)) ops (map counted ops)).
  { clear -Hops. induction ops as [|o ops IH]; [constructor|]. cbn [map]. constructor; [|apply IH; intros; apply Hops; right; assumption].
    destruct (Hops o (or_introl eq_refl)) as [c [d ->]]. split; [reflexivity|]. cbn. intros v r H.
    apply obind_val in H as [x [Hx H]]. apply obind_val in H as [y [Hy H]]. apply obind_val in H as [z [Hz H]]. apply obind_val in H as [t [Ht H]].
    injection H as <-. exact Ht. }
  assert (Hw : Forall2 (shows (@weightedmean_of_num_samples T W C)) opsw (map counted opsw)).
  { clear -Hopsw. induction opsw as [|o opsw IH]; [constructor|]. cbn [map]. constructor; [|apply IH; intros; apply Hopsw; right; assumption].
    destruct (Hopsw o (or_introl eq_refl)) as [c [d [w ->]]]. split; [reflexivity|]. cbn. intros v r H.
    do 9 (let x := fresh "x" in let Hx := fresh "Hx" in apply obind_val in H as [x [Hx H]]). injection H as <-. assumption. }
  destruct (C81_view A _ C T Empty_set C Empty_set AX FM FDM FWM DM FC FDC FWC DC (@mean_num_samples T C) a ops _ eq_refl Hg) as [HA HB].
  destruct (C81_view A _ C T W C Empty_set AX FX FDX FWX DX FC FDC FWC DC (@weightedmean_of_num_samples T W C) a opsw _ eq_refl Hw) as [HC HD].
  split; [|split; [|split]].
  - intros h0 h H0 H. destruct (HA _ _ H0 H) as [k0 [k1 [K0 [K1 [_ K2]]]]]. exists k0, k1. auto.
  - intros h H. destruct (HB _ H) as [k [K1 [_ K2]]]. exists k. auto.
  - intros h0 h H0 H. destruct (HC _ _ H0 H) as [k0 [k1 [K0 [K1 [_ K2]]]]]. exists k0, k1. auto.
  - intros h H. destruct (HD _ H) as [k [K1 [_ K2]]]. exists k. auto.
Qed.
Print Assumptions C81_num_samples_view.

(** ** Concrete cases *)

(** Two-component vectors of integers, weighted by an integer. *)
Definition vec2 : Type := (Z * Z)%type.
Definition vec2_add (a b : vec2) : outcome vec2 := Val (fst a + fst b, snd a + snd b)%Z.
Definition vec2_mul (a b : vec2) : outcome vec2 := Val (fst a * fst b, snd a * snd b)%Z.
Definition vec2_scale (a : vec2) (w : Z) : outcome vec2 := Val (w * fst a, w * snd a)%Z.
Definition z_add (a b : Z) : outcome Z := Val (a + b)%Z.
Definition z_mul (a b : Z) : outcome Z := Val (a * b)%Z.

Example C81_weightedmean_fields_nonvacuous :
  foldo (fun m x => @fill_with_weighted_v _ _ _ (weightedmean_of_fill vec2_add vec2_mul vec2_scale z_add z_mul z_add 1%Z) m (fst x) (snd x))
    [((1, 10), 2); ((3, -1), 5)]%Z (mkWeightedMean (0, 0) (0, 0) 0 0 0)%Z
  = Val (mkWeightedMean (17, 15) (47, 205) 7 29 2)%Z.
Proof. reflexivity. Qed.

Example C81_fields_nonvacuous :
  foldo (@fill_with_v _ _ (weightedsum_of_fill_with {| fill_with_v := vec2_scale |} z_mul)) [2; 5]%Z (mkWeightedSum (1, 3) (1, 3))%Z
  = Val (mkWeightedSum (10, 30) (100, 300))%Z
  /\ foldo (@fill_with_v _ _ (mean_of_fill_with vec2_add vec2_mul z_add 1%Z)) [(1, 10); (3, -1)]%Z (mkMean (0, 0) (0, 0) 0)%Z
  = Val (mkMean (4, 9) (10, 101) 2)%Z.
Proof. split; reflexivity. Qed.

(** A weighted sum histogram over a category axis, dense and sparse: the two views. *)
#[local] Instance v_fill : Fill Z := {| fill_v := fun v => Val (v + 1)%Z |}.
#[local] Instance v_fill_with : FillWith Z Z := {| fill_with_v := z_add |}.
#[local] Instance v_default : Default Z := {| default_v := 0%Z |}.
#[local] Instance v_weighted V : FillWithWeighted V Z Empty_set := {| fill_with_weighted_v := fun v d (w : Empty_set) => match w with end |}.

Definition ex_squares (B : Build) : list (@fill_op (Category Z) Z Empty_set (ex_axis B)) :=
  map (fun o : @fill_op (Category Z) Z Empty_set (ex_axis B) => match o with
    | CallFill c => CallFill c
    | CallFillWith c w => CallFillWith c (w * w)%Z
    | CallFillWithWeighted _ _ w => match (w : Empty_set) with end end) (ex_ops B).

Example C81_views_nonvacuous : forall B : Build,
  let FS := weightedsum_of_fill v_fill in let FDS := weightedsum_of_fill_with v_fill_with z_mul in let DS := weightedsum_of_default v_default in
  let AX := ex_axis B in
  Forall2 (squared (AX := ex_axis B) z_mul) (ex_ops B) (ex_squares B)
  /\ (exists h0 h : VecHistogram (Category Z) (WeightedSum Z), vec_new ex_cat = Val h0 /\ vec_calls h0 (ex_ops B) = Val h
       /\ vec_values h = [mkWeightedSum 10 100; mkWeightedSum 2 2; mkWeightedSum 0 0; mkWeightedSum 1 1]%Z)
  /\ (exists h : HashHistogram (Category Z) (WeightedSum Z), hash_calls (hash_new ex_cat) (ex_ops B) = Val h
       /\ hash_value_at_index h 0 = Some (mkWeightedSum 10 100)%Z /\ hash_value_at_index h 2 = None).
Proof.
  intros B FS FDS DS AX. split; [|split].
  - unfold ex_squares, ex_ops. cbn [map]. repeat constructor.
  - assert (H0 : exists h0 : VecHistogram (Category Z) (WeightedSum Z), vec_new ex_cat = Val h0 /\ vh_axes h0 = ex_cat /\ vh_values h0 = repeat (mkWeightedSum 0 0)%Z 4).
    { destruct B as [? []]; eexists; (split; [reflexivity | split; reflexivity]). }
    destruct H0 as [h0 [H0 [Ha Hv]]]. exists h0. destruct h0 as [a0 v0]. cbn in Ha, Hv. subst a0 v0.
    destruct B as [[] []]; eexists; (split; [exact H0 | split; [reflexivity|reflexivity]]).
  - destruct B as [[] []]; eexists; (split; [reflexivity | split; reflexivity]).
Qed.
