(** * Property theorems: serialisation round trips (C50). *)
From stdpp Require Import gmap.
From Coq Require Import String.
From Verif Require Import Base BaseFacts Num Axis Spec Uniform StdAlgo StdContract VarAxis Category CategoryFacts PropCategory Axes AxesSpec PropAxes
  Value VecHist HashHist HistSpec HashFacts Serde.
Open Scope N_scope.

(** ** Specification *)

(** Deserialising what was serialised gives back the value itself. *)
Definition lossless_on {T : Type} (P : T -> Prop) (c : codec T) : Prop :=
  forall x, P x -> de c (ser c x) = Some x.
Definition lossless {T : Type} (c : codec T) : Prop := lossless_on (fun _ => True) c.

(** ** Lemmas *)

Lemma usize_lossless {Bd : Build} n : fits_usize n -> de usize_codec (ser usize_codec n) = Some n.
Proof. intros Hn. simpl. unfold fits_usize in Hn. apply N.ltb_lt in Hn. rewrite Hn. reflexivity. Qed.

Lemma de_all_map {T} (P : T -> Prop) (c : codec T) l :
  lossless_on P c -> Forall P l -> de_all (de c) (map (ser c) l) = Some l.
Proof.
  intros Hc Hl. induction Hl as [|x l Hx Hl IH]; [reflexivity|].
  simpl. rewrite (Hc x Hx), IH. reflexivity.
Qed.

Lemma de_entries_map {K V} (P : K -> Prop) (Q : V -> Prop) (ck : codec K) (cv : codec V) (l : list (K * V)) :
  lossless_on P ck -> lossless_on Q cv -> Forall (fun kv => P (fst kv) /\ Q (snd kv)) l ->
  de_entries ck cv (map (fun kv => (ser ck (fst kv), ser cv (snd kv))) l) = Some l.
Proof.
  intros Hk Hv Hl. induction Hl as [|[k v] l [Hp Hq] Hl IH]; [reflexivity|].
  simpl in *. rewrite (Hk k Hp), (Hv v Hq), IH. reflexivity.
Qed.

(** Inserting the entries of a map one by one, in any order, rebuilds it. *)
Lemma rebuild_gmap {V} (order : list (N * V)) (m0 : gmap N V) i :
  NoDup (map fst order) ->
  fold_left (fun (m : gmap N V) kv => <[fst kv := snd kv]> m) order m0 !! i =
  match list_find (fun kv => fst kv = i) order with Some (_, kv) => Some (snd kv) | None => m0 !! i end.
Proof.
  revert m0. induction order as [|[k v] order IH]; intros m0 Hn; [reflexivity|].
  simpl in Hn. apply NoDup_cons in Hn as [Hk Hn]. simpl. rewrite IH by exact Hn.
  destruct (decide (k = i)) as [->|Hne]; simpl.
  - destruct (list_find (fun kv => fst kv = i) order) as [[j [k' v']]|] eqn:Ef; simpl.
    + apply list_find_Some in Ef as [Hj [Hk' _]]. simpl in Hk'. subst k'. exfalso. apply Hk.
      apply elem_of_list_fmap. exists (i, v'). split; [reflexivity|]. eapply elem_of_list_lookup_2. exact Hj.
    + apply lookup_insert.
  - destruct (list_find (fun kv => fst kv = i) order) as [[j [k' v']]|] eqn:Ef; simpl; [reflexivity|].
    apply lookup_insert_ne. exact Hne.
Qed.

Lemma rebuild_order {V} (m : gmap N V) order : an_order m order ->
  fold_left (fun (m : gmap N V) kv => <[fst kv := snd kv]> m) order ∅ = m.
Proof.
  intros Ho. apply map_eq. intros i. rewrite rebuild_gmap by exact (order_NoDup _ _ Ho).
  destruct (list_find (fun kv => fst kv = i) order) as [[j [k v]]|] eqn:Ef; simpl.
  - apply list_find_Some in Ef as [Hj [Hk _]]. simpl in Hk. subst k.
    symmetry. apply (order_elem _ _ _ _ Ho). eapply elem_of_list_lookup_2. exact Hj.
  - rewrite lookup_empty. destruct (m !! i) as [v|] eqn:E; [|reflexivity].
    apply (order_elem _ _ _ _ Ho) in E. apply list_find_None in Ef.
    rewrite Forall_forall in Ef. exfalso. exact (Ef _ E eq_refl).
Qed.

(** Likewise for the map from categories to indices. *)
Lemma rebuild_hmap_length {K} `{EqDecision K} (order : hmap K N) (m0 : hmap K N) :
  NoDup (map fst order) -> (forall k, k ∈ map fst order -> k ∉ map fst m0) ->
  fold_left (fun m kv => hmap_insert (fst kv) (snd kv) m) order m0 = m0 ++ order.
Proof.
  revert m0. induction order as [|[k0 v0] order IH]; intros m0 Hn Hd; [symmetry; apply app_nil_r|].
  simpl in Hn. apply NoDup_cons in Hn as [Hk Hn]. simpl.
  assert (Hi : hmap_insert k0 v0 m0 = m0 ++ [(k0, v0)]).
  { assert (Hnot : k0 ∉ map fst m0) by (apply Hd; left). clear -Hnot.
    induction m0 as [|[k1 v1] m0 IH]; [reflexivity|]. simpl in *.
    apply not_elem_of_cons in Hnot as [Hne Hnot].
    destruct (decide (k0 = k1)) as [->|]; [contradiction|]. rewrite IH by exact Hnot. reflexivity. }
  rewrite Hi, IH.
  - rewrite <- app_assoc. reflexivity.
  - exact Hn.
  - intros k Hin Hm. rewrite map_app in Hm. apply elem_of_app in Hm as [Hm|Hm].
    + exact (Hd k (elem_of_list_further _ _ _ Hin) Hm).
    + simpl in Hm. apply elem_of_list_singleton in Hm as ->. contradiction.
Qed.

Lemma hmap_get_perm {K V} `{EqDecision K} (m m' : hmap K V) k :
  NoDup (map fst m) -> Permutation m m' -> hmap_get k m = hmap_get k m'.
Proof.
  intros Hn Hp.
  assert (Hn' : NoDup (map fst m')). { change (NoDup (m'.*1)). rewrite <- Hp. exact Hn. }
  assert (Hsome : forall (m : hmap K V) v, hmap_get k m = Some v -> (k, v) ∈ m).
  { intros l v. induction l as [|[k1 v1] l IH]; [discriminate|]. simpl.
    destruct (decide (k = k1)) as [->|]; intros E; [injection E as ->; left|right; auto]. }
  destruct (hmap_get k m) as [v|] eqn:E.
  - symmetry. apply hmap_get_in; [exact Hn'|]. rewrite <- Hp. apply Hsome, E.
  - destruct (hmap_get k m') as [v|] eqn:E'; [|reflexivity].
    rewrite <- E. apply hmap_get_in; [exact Hn|]. rewrite Hp. apply Hsome, E'.
Qed.

(** ** Numeric axes *)

(** Every numeric axis value (not only the ones a constructor can build) is given
    back unchanged, whatever its edges and whatever the coordinate type, as long as
    the coordinate type's own encoding is lossless on the edges of the axis. *)
Theorem C50_numeric_axes : forall (B : Build) T (c : codec T) (P : T -> Prop), lossless_on P c ->
  (let ok := fun a : Uniform T => fits_usize (u_num a) /\ P (u_low a) /\ P (u_high a) /\ P (u_step a) in
   lossless_on ok (uniform_codec c)
   /\ lossless_on (fun a => ok (unf_axis a)) (uniformnoflow_codec c)
   /\ lossless_on (fun a => ok (unf_axis (uc_axis a))) (uniformcyclic_codec c))
  /\ (let ok := fun a : Variable_ T => Forall P (v_edges a) in
      lossless_on ok (variable_codec c)
      /\ lossless_on (fun a => ok (vnf_axis a)) (variablenoflow_codec c)
      /\ lossless_on (fun a => ok (vnf_axis (vc_axis a))) (variablecyclic_codec c)).
Proof.
  intros B T c P Hc. split; intros ok.
  - assert (Hu : lossless_on ok (uniform_codec c)).
    { intros [n l h s] [Hn [Hl [Hh Hs]]]. simpl in *. unfold de_field. simpl.
      rewrite (Hc _ Hl), (Hc _ Hh), (Hc _ Hs). unfold fits_usize in Hn. apply N.ltb_lt in Hn. rewrite Hn. reflexivity. }
    assert (Hnf : lossless_on (fun a => ok (unf_axis a)) (uniformnoflow_codec c)).
    { intros [a] Ha. simpl in Ha. apply Hu in Ha. cbn [ser de uniformnoflow_codec unf_axis].
      unfold de_field. cbn [field List.filter fst String.eqb Ascii.eqb Bool.eqb snd]. rewrite Ha. reflexivity. }
    split; [exact Hu|]. split; [exact Hnf|].
    intros [a] Ha. simpl in Ha. apply Hnf in Ha. cbn [ser de uniformcyclic_codec uc_axis]. rewrite Ha. reflexivity.
  - assert (Hu : lossless_on ok (variable_codec c)).
    { intros [es] He. unfold ok in He. simpl in *. unfold de_field. simpl.
      rewrite (de_all_map P c es Hc He). reflexivity. }
    assert (Hnf : lossless_on (fun a => ok (vnf_axis a)) (variablenoflow_codec c)).
    { intros [a] Ha. simpl in Ha. apply Hu in Ha. cbn [ser de variablenoflow_codec vnf_axis].
      unfold de_field. cbn [field List.filter fst String.eqb Ascii.eqb Bool.eqb snd]. rewrite Ha. reflexivity. }
    split; [exact Hu|]. split; [exact Hnf|].
    intros [a] Ha. simpl in Ha. apply Hnf in Ha. cbn [ser de variablecyclic_codec vc_axis]. rewrite Ha. reflexivity.
Qed.
Print Assumptions C50_numeric_axes.

(** ** Category axes *)

(** Whatever order the two hash maps iterate in, the axis read back equals (==,
    both ways) the one written, and has the same bins and the same index for every
    value. *)
Theorem C50_category : forall (B : Build) T (eqd : EqDecision T) (c : codec T) (P : T -> Prop) (values : list T) order1 order2,
  lossless_on P c -> Forall P values -> N.of_nat (List.length values) <= usize_mod ->
  let a := category_new values in
  Permutation order1 (map_t_to_index a) -> an_order (map_index_to_t a) order2 ->
  exists a', category_de c (category_ser c order1 order2) = Some a'
    /\ category_eqb a a' = true /\ category_eqb a' a = true
    /\ (forall x, category_index a' x = category_index a x)
    /\ (forall i, category_bin a' i = category_bin a i)
    /\ category_num_bins a' = category_num_bins a.
Proof.
  intros B T eqd c P values order1 order2 Hc HP Hlen a Hp Ho.
  pose proof (cat_inv_new values) as Hinv. fold a in Hinv. destruct Hinv as [Hb Hs Hi Hk].
  assert (Hu : lossless_on fits_usize usize_codec) by (intros n Hn; apply usize_lossless, Hn).
  assert (Hn1 : NoDup (map fst order1)). { change (NoDup (order1.*1)). rewrite Hp. exact Hk. }
  assert (Hidx : forall i v, values !! N.to_nat i = Some v -> fits_usize i /\ P v).
  { intros i v Hiv. split.
    - apply lookup_lt_Some in Hiv. unfold fits_usize in *. lia.
    - rewrite Forall_forall in HP. apply HP. eapply elem_of_list_lookup_2. exact Hiv. }
  assert (H1 : Forall (fun kv => P (fst kv) /\ fits_usize (snd kv)) order1).
  { apply Forall_forall. intros [k i] Hin. rewrite Hp in Hin. simpl.
    apply hmap_get_in in Hin; [|exact Hk]. specialize (Hi k). rewrite Hin in Hi.
    destruct Hi as [Hi _]. apply Hidx in Hi. tauto. }
  assert (H2 : Forall (fun kv => fits_usize (fst kv) /\ P (snd kv)) order2).
  { apply Forall_forall. intros [i k] Hin. simpl. apply (order_elem _ _ _ _ Ho) in Hin.
    rewrite Hb in Hin. apply Hidx in Hin. exact Hin. }
  exists (mkCategory order1 (map_index_to_t a)).
  assert (Hget : forall x, hmap_get x order1 = hmap_get x (map_t_to_index a))
    by (intros x; apply hmap_get_perm; [exact Hn1 | exact Hp]).
  split; [|split; [|split; [|split; [|split]]]].
  - unfold category_de, category_ser. cbn [field List.filter fst String.eqb Ascii.eqb Bool.eqb snd].
    unfold de_hmap, de_gmap, ser_entries.
    rewrite (de_entries_map P fits_usize c usize_codec order1 Hc Hu H1).
    rewrite (de_entries_map fits_usize P usize_codec c order2 Hu Hc H2). simpl.
    rewrite (rebuild_order _ _ Ho). rewrite rebuild_hmap_length; [reflexivity | exact Hn1|].
    intros k _ Hin. apply elem_of_nil in Hin. exact Hin.
  - unfold category_eqb. simpl. apply andb_true_iff. split; [|apply bool_decide_eq_true; reflexivity].
    unfold hmap_eqb. apply andb_true_iff. split.
    + apply Nat.eqb_eq. symmetry. apply Permutation_length, Hp.
    + apply forallb_forall. intros [k i] Hin. apply bool_decide_eq_true. simpl. rewrite Hget.
      apply hmap_get_in; [exact Hk | apply elem_of_list_In, Hin].
  - unfold category_eqb. simpl. apply andb_true_iff. split; [|apply bool_decide_eq_true; reflexivity].
    unfold hmap_eqb. apply andb_true_iff. split.
    + apply Nat.eqb_eq. apply Permutation_length, Hp.
    + apply forallb_forall. intros [k i] Hin. apply bool_decide_eq_true. simpl. rewrite <- Hget.
      apply hmap_get_in; [exact Hn1 | apply elem_of_list_In, Hin].
  - intros x. unfold category_index, category_get_index, category_len. simpl. rewrite Hget. reflexivity.
  - reflexivity.
  - reflexivity.
Qed.
Print Assumptions C50_category.

(** The same without the overflow bin. *)
Theorem C50_category_noflow : forall (B : Build) T (eqd : EqDecision T) (c : codec T) (P : T -> Prop) (values : list T) order1 order2,
  lossless_on P c -> Forall P values -> N.of_nat (List.length values) <= usize_mod ->
  let a := categorynoflow_new values in
  Permutation order1 (map_t_to_index (cnf_axis a)) -> an_order (map_index_to_t (cnf_axis a)) order2 ->
  exists a', categorynoflow_de c (categorynoflow_ser c order1 order2) = Some a'
    /\ categorynoflow_eqb a a' = true /\ categorynoflow_eqb a' a = true
    /\ (forall x, categorynoflow_index a' x = categorynoflow_index a x)
    /\ (forall i, categorynoflow_bin a' i = categorynoflow_bin a i)
    /\ categorynoflow_num_bins a' = categorynoflow_num_bins a.
Proof.
  intros B T eqd c P values order1 order2 Hc HP Hlen a Hp Ho.
  destruct (C50_category B T eqd c P values order1 order2 Hc HP Hlen Hp Ho) as [a' [Hd [He1 [He2 [Hi [Hb Hn]]]]]].
  exists (mkCategoryNoFlow a').
  split; [unfold categorynoflow_de, categorynoflow_ser;
          cbn [field List.filter fst String.eqb Ascii.eqb Bool.eqb snd]; rewrite Hd; reflexivity|].
  split; [exact He1|]. split; [exact He2|].
  unfold categorynoflow_index, categorynoflow_bin, categorynoflow_num_bins.
  simpl. repeat split; intros; rewrite ?Hn, ?Hi, ?Hb; reflexivity.
Qed.
Print Assumptions C50_category_noflow.

(** ** Axes tuples *)

(** Every component of the tuple, serialised on its own, is read back as the
    corresponding component of [b]. *)
Fixpoint components_read_back (ts : list axis_type) : codecs ts -> axes_tuple ts -> axes_tuple ts -> Prop :=
  match ts return codecs ts -> axes_tuple ts -> axes_tuple ts -> Prop with
  | [] => fun _ _ _ => True
  | t :: ts' => fun cs a b =>
      de (fst cs) (ser (fst cs) (fst a)) = Some (fst b) /\ components_read_back ts' (snd cs) (snd a) (snd b)
  end.

(** A tuple of any number of axes is read back component by component, with the
    same shape. *)
Theorem C50_axes_tuple : forall (B : Build) ts (cs : codecs ts) (a : AxesTuple ts) (b : axes_tuple ts),
  components_read_back ts cs (ax_axes a) b -> Forall fits_usize (ax_shape a) ->
  de (axes_codec cs) (ser (axes_codec cs) a) = Some (mkAxes b (ax_shape a)).
Proof.
  intros B ts cs [a sh] b Ha Hsh. cbn [ax_axes ax_shape] in *. cbn [ser de axes_codec ax_axes ax_shape].
  unfold de_field. cbn [field List.filter fst String.eqb Ascii.eqb Bool.eqb snd].
  cbn [ser de vec_codec]. rewrite (de_all_map fits_usize usize_codec sh); [|intros n Hn; apply usize_lossless, Hn | exact Hsh].
  enough (Ht : tuple_de ts cs (tuple_ser ts cs a) = Some b) by (rewrite Ht; reflexivity).
  clear Hsh. induction ts as [|t ts IH].
  - destruct b. reflexivity.
  - destruct a as [x xs], b as [y ys]. cbn in Ha. destruct Ha as [Hx Hxs]. cbn. rewrite Hx.
    rewrite (IH (snd cs) xs ys Hxs). reflexivity.
Qed.
Print Assumptions C50_axes_tuple.

(** ** Histograms *)

(** The dense histogram: its axes are read back as the axes alone would be, and
    every bin content is unchanged. *)
Theorem C50_vec_histogram : forall A V (ca : codec A) (cv : codec V) (PV : V -> Prop) (h : VecHistogram A V) a',
  de ca (ser ca (vh_axes h)) = Some a' -> lossless_on PV cv -> Forall PV (vh_values h) ->
  de (vec_hist_codec ca cv) (ser (vec_hist_codec ca cv) h) = Some (mkVecHist a' (vh_values h)).
Proof.
  intros A V ca cv PV [a vs] a' Ha Hv HP. cbn [vh_axes vh_values] in *. cbn [ser de vec_hist_codec vh_axes vh_values].
  unfold de_field. cbn [field List.filter fst String.eqb Ascii.eqb Bool.eqb snd]. rewrite Ha.
  cbn [ser de vec_codec]. rewrite (de_all_map PV cv vs Hv HP). reflexivity.
Qed.
Print Assumptions C50_vec_histogram.

(** The sparse histogram: for every iteration order of its map, the same bins are
    filled with the same contents. *)
Theorem C50_hash_histogram : forall (B : Build) A V (ca : codec A) (cv : codec V) (PV : V -> Prop) (h : HashHistogram A V) order a',
  de ca (ser ca (hh_axes h)) = Some a' -> lossless_on PV cv ->
  (forall i v, hh_values h !! i = Some v -> fits_usize i /\ PV v) -> an_order (hh_values h) order ->
  hash_hist_de ca cv (hash_hist_ser ca cv h order) = Some (mkHashHist a' (hh_values h)).
Proof.
  intros B A V ca cv PV [a m] order a' Ha Hv HP Ho. cbn [hh_axes hh_values] in *.
  unfold hash_hist_ser, hash_hist_de, de_field.
  cbn [field List.filter fst String.eqb Ascii.eqb Bool.eqb snd hh_axes]. rewrite Ha.
  unfold ser_entries, de_gmap.
  rewrite (de_entries_map fits_usize PV usize_codec cv order).
  - simpl. rewrite (rebuild_order m order Ho). reflexivity.
  - intros n Hn. apply usize_lossless, Hn.
  - exact Hv.
  - apply Forall_forall. intros [i v] Hin. apply (order_elem _ _ _ _ Ho) in Hin. apply HP in Hin. exact Hin.
Qed.
Print Assumptions C50_hash_histogram.

(** ** Bin contents, items and errors *)

Theorem C50_values : forall (B : Build) T W C I V (c : codec T) (cw : codec W) (cc : codec C) (ci : codec I) (cv : codec V),
  lossless c -> lossless cw -> lossless cc -> lossless ci -> lossless cv ->
  lossless (sum_codec c) /\ lossless (weightedsum_codec c) /\ lossless (mean_codec c cc)
  /\ lossless (weightedmean_codec c cw cc)
  /\ lossless_on (fun it : Item I V => fits_usize (it_index it)) (item_codec ci cv)
  /\ lossless axis_error_codec /\ lossless binary_error_codec /\ lossless error_codec.
Proof.
  intros B T W C I V c cw cc ci cv Hc Hw Hcc Hi Hv. unfold lossless, lossless_on in *.
  assert (Hba : forall e, de axis_error_codec (ser axis_error_codec e) = Some e) by (intros []; reflexivity).
  repeat split.
  - intros [s] _. cbn. unfold de_field. cbn. rewrite Hc by trivial. reflexivity.
  - intros [s s2] _. cbn. unfold de_field. cbn. rewrite !Hc by trivial. reflexivity.
  - intros [s s2 n] _. cbn. unfold de_field. cbn. rewrite !Hc, Hcc by trivial. reflexivity.
  - intros [s s2 w w2 n] _. cbn. unfold de_field. cbn. rewrite !Hc, !Hw, Hcc by trivial. reflexivity.
  - intros [i b v] Hfit. cbn [it_index] in Hfit. cbn. unfold de_field. cbn.
    unfold fits_usize in Hfit. apply N.ltb_lt in Hfit. rewrite Hfit, Hi, Hv by trivial. reflexivity.
  - intros e _. apply Hba.
  - intros [] _. reflexivity.
  - intros [[]|e] _; [reflexivity|]. cbn. destruct e; reflexivity.
Qed.
Print Assumptions C50_values.

(** ** Order of fields *)

Lemma field_perm name fs fs' : Permutation fs fs' -> field name fs = field name fs'.
Proof.
  intros Hp. unfold field.
  assert (Hf : Permutation (List.filter (fun kv => String.eqb (fst kv) name) fs)
                           (List.filter (fun kv => String.eqb (fst kv) name) fs')).
  { induction Hp as [| x l l' Hp IH | x y l | l l' l'' Hp1 IH1 Hp2 IH2]; simpl.
    - constructor.
    - destruct (String.eqb (fst x) name); [constructor|]; exact IH.
    - destruct (String.eqb (fst x) name), (String.eqb (fst y) name); try reflexivity. constructor.
    - etransitivity; eassumption. }
  destruct (List.filter _ fs) as [|x [|y r]] eqn:E.
  - apply Permutation_nil in Hf. rewrite Hf. reflexivity.
  - apply Permutation_length_1_inv in Hf. rewrite Hf. reflexivity.
  - destruct (List.filter (fun kv => String.eqb (fst kv) name) fs') as [|x' [|y' r']] eqn:E'; try reflexivity.
    apply Permutation_length in Hf. discriminate.
Qed.

(** Data whose fields arrive in another order is read back the same. *)
Theorem C50_field_order : forall (B : Build) T A V (c : codec T) (ca : codec A) (cv : codec V) fs fs', Permutation fs fs' ->
  de (uniform_codec c) (SObj fs) = de (uniform_codec c) (SObj fs')
  /\ de (vec_hist_codec ca cv) (SObj fs) = de (vec_hist_codec ca cv) (SObj fs')
  /\ hash_hist_de ca cv (SObj fs) = hash_hist_de ca cv (SObj fs').
Proof.
  intros B T A V c ca cv fs fs' Hp. cbn [de uniform_codec vec_hist_codec hash_hist_de]. unfold de_field.
  rewrite !(fun n => field_perm n fs fs' Hp). auto.
Qed.
Print Assumptions C50_field_order.

(** ** What is not checked *)

(** Reading back does not re-validate: data describing an axis that no constructor
    builds, or a dense histogram whose number of contents differs from the number of
    bins, is accepted. *)
Theorem C50_no_validation_refuted : forall (B : Build) T (ops : NumOps T) (c : codec T) (x : T), lossless c ->
  (exists v a, de (uniform_codec c) v = Some a
     /\ (forall n lo hi, uniform_new ops n lo hi <> Val (Ok a))
     /\ (forall n lo st, uniform_with_step_size ops n lo st <> Val (Ok a)))
  /\ (exists v a, de (variable_codec c) v = Some a
     /\ forall sort, sort_contract sort -> forall es, variable_new sort es <> Val (Ok a))
  /\ (exists v h n, de (vec_hist_codec (uniform_codec c) c) v = Some h
     /\ uniform_num_bins (vh_axes h) = Val n /\ n <> N.of_nat (List.length (vh_values h))).
Proof.
  intros B T ops c x Hc. unfold lossless, lossless_on in Hc.
  assert (Hd : forall n, fits_usize n -> de (uniform_codec c) (ser (uniform_codec c) (mkUniform n x x x)) = Some (mkUniform n x x x)).
  { intros n Hn. apply (C50_numeric_axes B T c (fun _ => True) Hc). cbn. auto. }
  split; [|split].
  - exists (ser (uniform_codec c) (mkUniform 0 x x x)), (mkUniform 0 x x x).
    split; [apply Hd; destruct B as [? []]; reflexivity|]. split.
    + intros n lo hi. unfold uniform_new. destruct (n =? 0) eqn:En; [discriminate|].
      destruct (eq_ lo hi); [discriminate|].
      destruct (if gt_ lo hi then (hi, lo) else (lo, hi)) as [l h].
      destruct (n_sub h l); cbn; [|discriminate]. destruct (n_from_usize n); [|discriminate].
      destruct (n_div _ _); cbn; [|discriminate]. intros [= -> _ _ _]. discriminate.
    + intros n lo st. unfold uniform_with_step_size. destruct (n_from_usize n); [|discriminate].
      destruct (n_mul _ _); cbn; [|discriminate]. destruct (n_add _ _); cbn; [|discriminate].
      destruct (n =? 0) eqn:En; [discriminate|]. destruct (le_ _ _); [discriminate|].
      destruct (gt_ _ _); intros [= -> _ _ _]; discriminate.
  - exists (ser (variable_codec c) (mkVariable [])), (mkVariable []). split; [reflexivity|].
    intros sort HS es. unfold variable_new. destruct (N.of_nat (List.length es) <? 2) eqn:El; [discriminate|].
    destruct (sort T es sort_cmp) as [[r calls]|] eqn:Es; [|discriminate]. cbn.
    destruct (existsb cmp_fails calls); [discriminate|]. intros [= ->].
    destruct (HS T es sort_cmp) as [Hp _]. destruct (Hp _ _ Es) as [Hpm _].
    apply Permutation_length in Hpm. apply N.ltb_ge in El. simpl in Hpm. rewrite Hpm in El. apply El. reflexivity.
  - set (h := mkVecHist (mkUniform 3 x x x) [x]).
    exists (ser (vec_hist_codec (uniform_codec c) c) h), h, 5. split; [|split].
    + apply (C50_vec_histogram _ _ _ _ (fun _ => True) h); [apply Hd; destruct B as [? []]; reflexivity | exact Hc|].
      repeat constructor.
    + destruct B as [[] []]; reflexivity.
    + discriminate.
Qed.
Print Assumptions C50_no_validation_refuted.

(** ** A concrete round trip *)

(** Integer codec. *)
Definition Z_codec : codec Z := mkCodec SInt (fun v => match v with SInt z => Some z | _ => None end).
Lemma Z_lossless : lossless Z_codec.
Proof. intros z _. reflexivity. Qed.

(** A category codec: some fixed choice of iteration orders. *)
Definition cat_codec {Bd : Build} : codec (Category Z) :=
  mkCodec (fun a => category_ser Z_codec (rev (map_t_to_index a)) (rev (map_to_list (map_index_to_t a)))) (category_de Z_codec).

(** Uniform x Category with 15 bins, dense and sparse, written with the maps in
    reverse order. *)
Example C50_nonvacuous : forall B : Build,
  let ca := axes_codec (ts := [uni_i32 B; cat_Z B]) (uniform_codec Z_codec, (cat_codec, tt)) in
  let axes := mkAxes (example_axes B) [5; 3] in
  exists a', de ca (ser ca axes) = Some a' /\ axes_eqb axes a' = true
    /\ (let h := mkVecHist axes (repeat 7%Z 15) in
        de (vec_hist_codec ca Z_codec) (ser (vec_hist_codec ca Z_codec) h) = Some (mkVecHist a' (repeat 7%Z 15)))
    /\ (let m := <[2 := 9%Z]> (<[11 := (-4)%Z]> ∅) : gmap N Z in
        let h := mkHashHist axes m in
        hash_hist_de ca Z_codec (hash_hist_ser ca Z_codec h (rev (map_to_list m))) = Some (mkHashHist a' m)).
Proof.
  intros B ca axes.
  destruct (C50_category B Z _ Z_codec (fun _ => True) [5; 7]%Z
    (rev (map_t_to_index (category_new [5; 7]%Z))) (rev (map_to_list (map_index_to_t (category_new [5; 7]%Z)))))
    as [k [Hk [Hk1 [Hk2 _]]]].
  { exact Z_lossless. } { repeat constructor. } { destruct B as [? []]; vm_compute; discriminate. }
  { symmetry. apply Permutation_rev. } { unfold an_order. symmetry. apply Permutation_rev. }
  assert (Hu : de (uniform_codec Z_codec) (ser (uniform_codec Z_codec) (mkUniform 3 0 30 10)%Z) = Some (mkUniform 3 0 30 10)%Z)
    by (destruct B as [? []]; reflexivity).
  assert (Ha : de ca (ser ca axes) = Some (mkAxes (ts := [uni_i32 B; cat_Z B]) ((mkUniform 3 0 30 10)%Z, (k, tt)) [5; 3])).
  { apply C50_axes_tuple; [|repeat constructor; destruct B as [? []]; reflexivity].
    cbn [components_read_back]. split; [exact Hu|]. split; [exact Hk | exact I]. }
  eexists. split; [exact Ha|]. split; [|split].
  - change (category_eqb (category_new [5; 7]%Z) k && true && true = true). rewrite Hk1. reflexivity.
  - intros h. apply (C50_vec_histogram _ _ _ _ (fun _ => True) h); [exact Ha | exact Z_lossless|].
    apply Forall_forall. trivial.
  - intros m h. apply (C50_hash_histogram B _ _ _ _ (fun _ => True) h); [exact Ha | exact Z_lossless| |].
    + cbn. unfold m. intros i v Hi. split; [|trivial].
      rewrite lookup_insert_Some in Hi. destruct Hi as [[<- _]|[_ Hi]]; [destruct B as [? []]; reflexivity|].
      rewrite lookup_insert_Some in Hi. destruct Hi as [[<- _]|[_ Hi]]; [destruct B as [? []]; reflexivity|].
      rewrite lookup_empty in Hi. discriminate.
    + unfold an_order. symmetry. apply Permutation_rev.
Qed.
