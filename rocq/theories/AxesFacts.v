(** * AxesFacts: lemmas for C20-C25. *)
From Coq Require Import List NArith ZArith Bool Lia ZifyN ZifyNat.
From Verif Require Import Base BaseFacts Num Axis Axes AxesSpec.
Import ListNotations.
Open Scope N_scope.

(** ** Iteration over an axis *)
Section Iter.
Context {A : Type} (AX : Axis A).

Lemma axis_iter_spec a n : has_bins AX a n ->
  exists l, axis_iter a = Val l /\ axis_bins a = Val (map snd l)
    /\ map fst l = range n
    /\ forall i b, In (i, b) l -> bin a i = Val (Some b).
Proof.
  intros [Hn Hb]. unfold axis_iter, axis_bins, indices. rewrite Hn. cbn [obind].
  assert (Hr : forall i, In i (range n) -> i < n) by (intros i Hi; now apply in_range_iff).
  induction (range n) as [|i is IH].
  - exists []. repeat split. intros i b [].
  - destruct IH as [l [H1 [H2 [H3 H4]]]]; [intros j Hj; apply Hr; now right|].
    destruct (Hb i) as [b Hbi]; [apply Hr; now left|].
    exists ((i, b) :: l). cbn [mapo]. rewrite Hbi. cbn [obind expect]. rewrite H1, H2. cbn [obind].
    repeat split.
    + cbn [map fst]. now rewrite H3.
    + intros j b' [[= <- <-]|Hin]; [exact Hbi | now apply H4].
Qed.
End Iter.

(** ** Mixed radix arithmetic *)

Lemma cell_length ns is : cell ns is -> length is = length ns.
Proof. intros Hc. induction Hc; simpl; congruence. Qed.

Lemma radix_lt ns is : cell ns is -> radix ns is < product ns.
Proof.
  intros Hc. induction Hc as [|i n is' ns' Hi Hc IH]; simpl; [lia|].
  unfold product in *. simpl. nia.
Qed.

Lemma radix_inj ns is js : cell ns is -> cell ns js -> radix ns is = radix ns js -> is = js.
Proof.
  intros Hc. revert js. induction Hc as [|i n is' ns' Hi Hc IH]; intros js Hj He.
  - now inversion Hj.
  - inversion Hj as [|j n' js' ns'' Hjn Hjs]; subst. simpl in He.
    assert (i = j /\ radix ns' is' = radix ns' js') as [-> Hr].
    { assert (Hmod : (i + n * radix ns' is') mod n = (j + n * radix ns' js') mod n) by congruence.
      rewrite !(N.mul_comm n), !N.mod_add, !N.mod_small in Hmod by lia. subst j.
      split; [reflexivity|]. nia. }
    f_equal. now apply IH.
Qed.

(** The digits of a number. *)
Fixpoint digits_of (i : N) (ns : list N) : list N :=
  match ns with
  | [] => []
  | n :: ns' => i mod n :: digits_of (i / n) ns'
  end.

Lemma digits_cell ns i : Forall (fun n => 0 < n) ns -> cell ns (digits_of i ns).
Proof.
  intros Hp. revert i. induction Hp as [|n ns' Hn Hp IH]; intros i; constructor.
  - apply N.mod_lt. lia.
  - apply IH.
Qed.

Lemma radix_digits ns i : Forall (fun n => 0 < n) ns -> radix ns (digits_of i ns) = i mod product ns.
Proof.
  intros Hp. revert i. induction Hp as [|n ns' Hn Hp IH]; intros i; simpl.
  - unfold product; simpl. now rewrite N.mod_1_r.
  - rewrite IH. unfold product. simpl. fold (product ns').
    assert (Hp0 : product ns' <> 0).
    { clear - Hp. induction Hp; unfold product in *; simpl; [lia|]. nia. }
    rewrite N.mod_mul_r by lia. lia.
Qed.

Lemma digits_radix ns is : cell ns is -> digits_of (radix ns is) ns = is.
Proof.
  intros Hc. induction Hc as [|i n is' ns' Hi Hc IH]; simpl; [reflexivity|].
  rewrite (N.mul_comm n). rewrite N.mod_add, N.mod_small by lia.
  rewrite N.div_add by lia. rewrite (N.div_small i n) by lia. simpl. now rewrite IH.
Qed.

Lemma cell_pos ns is : cell ns is -> Forall (fun n => 0 < n) ns.
Proof. intros Hc. induction Hc; constructor; [lia | assumption]. Qed.

Lemma product_pos ns : Forall (fun n => 0 < n) ns -> 0 < product ns.
Proof. intros Hp. induction Hp; unfold product in *; simpl; [lia|]. nia. Qed.

Lemma product_zero_or_pos ns : product ns = 0 \/ Forall (fun n => 0 < n) ns.
Proof.
  induction ns as [|n ns IH]; [right; constructor|].
  unfold product in *. simpl. destruct IH as [->|Hp]; [left; lia|].
  destruct (N.eq_dec n 0) as [->|]; [left; lia|]. right. constructor; [lia | exact Hp].
Qed.

Lemma products_fit_cons {B : Build} n ns : products_fit (n :: ns) ->
  n < usize_mod /\ forall k, n * product (firstn k ns) < usize_mod.
Proof.
  intros Hf. split.
  - specialize (Hf 1%nat). unfold product in Hf. simpl in Hf. lia.
  - intros k. specialize (Hf (S k)). exact Hf.
Qed.

Lemma products_fit_total {B : Build} ns : products_fit ns -> product ns < usize_mod.
Proof. intros Hf. specialize (Hf (length ns)). now rewrite firstn_all in Hf. Qed.

Lemma product_positive_fits {B : Build} ns : Forall (fun n => 0 < n) ns -> product ns < usize_mod -> products_fit ns.
Proof.
  intros Hp Hlt k. assert (Hle : product (firstn k ns) <= product ns).
  { clear Hlt. revert k. induction Hp as [|n ns' Hn Hp IH]; intros k.
    - rewrite firstn_nil. lia.
    - destruct k; unfold product in *; simpl.
      + pose proof (product_pos _ Hp) as Hpp. unfold product in Hpp. nia.
      + specialize (IH k). nia. }
  lia.
Qed.

Section Usize.
Context {B : Build}.

(** The prefix products as stored in [shape]. *)
Fixpoint prefix_products (acc : N) (ns : list N) : list N :=
  match ns with [] => [] | n :: ns' => acc * n :: prefix_products (acc * n) ns' end.

Lemma scan_ok acc ns : (forall k, acc * product (firstn k ns) < usize_mod) ->
  scan_products acc ns = Val (prefix_products acc ns).
Proof.
  revert acc. induction ns as [|n ns IH]; intros acc Hf; [reflexivity|].
  simpl. rewrite umul_ok.
  2:{ specialize (Hf 1%nat). unfold product in Hf. simpl in Hf. lia. }
  cbn [obind]. rewrite IH; [reflexivity|].
  intros k. specialize (Hf (S k)). unfold product in *. simpl in Hf. lia.
Qed.

Lemma scan_checked acc ns r : overflow_checks = true -> acc < usize_mod ->
  scan_products acc ns = Val r -> forall k, acc * product (firstn k ns) < usize_mod.
Proof.
  intros Hc. revert acc r. induction ns as [|n ns IH]; intros acc r Ha Hs k.
  - rewrite firstn_nil. unfold product. simpl. lia.
  - simpl in Hs. apply obind_val in Hs as [p [Hp Hs]]. apply obind_val in Hs as [r' [Hr' _]].
    unfold umul in Hp. rewrite Hc in Hp.
    destruct (N.ltb_spec (acc * n) usize_mod) as [Hlt|]; [|discriminate]. injection Hp as <-.
    destruct k as [|k]; [unfold product; simpl; lia|].
    pose proof (IH _ _ Hlt Hr' k) as Hk. unfold product in *. simpl. lia.
Qed.

Lemma prefix_length acc ns : length (prefix_products acc ns) = length ns.
Proof. revert acc. induction ns; intros acc; simpl; [reflexivity|]. f_equal. apply IHns. Qed.

(** Sum of pairwise products. *)
Fixpoint dot (l : list (N * N)) : N :=
  match l with [] => 0 | p :: l' => fst p * snd p + dot l' end.

Lemma dot_app l1 l2 : dot (l1 ++ l2) = dot l1 + dot l2.
Proof. induction l1; simpl; [reflexivity|]. rewrite IHl1. lia. Qed.
Lemma dot_rev l : dot (rev l) = dot l.
Proof. induction l; simpl; [reflexivity|]. rewrite dot_app, IHl. simpl. lia. Qed.

Lemma foldo_dot l acc : acc + dot l < usize_mod ->
  foldo (fun acc (p : N * N) => let! m := umul (fst p) (snd p) in uadd acc m) l acc = Val (acc + dot l).
Proof.
  revert acc. induction l as [|p l IH]; intros acc Hlt; simpl.
  - f_equal. lia.
  - simpl in Hlt. rewrite umul_ok by lia. cbn [obind]. rewrite uadd_ok by lia. cbn [obind].
    rewrite IH by lia. f_equal. lia.
Qed.

Lemma combine_rev_tl (l : list N) (x : N) (m : list N) : length l = length m ->
  combine (rev l) (rev (x :: m)) = rev (combine l m).
Proof.
  intros Hl. simpl.
  assert (Hgen : forall (a b : list N) y, length a = length b -> combine a (b ++ [y]) = combine a b).
  { induction a as [|a0 a IH]; intros [|b0 b] y Hab; simpl in *; try discriminate; [reflexivity|].
    f_equal. apply IH. congruence. }
  rewrite Hgen by (now rewrite !rev_length).
  revert m Hl. induction l as [|a l IH]; intros [|b m] Hl; simpl in *; try discriminate; [reflexivity|].
  injection Hl as Hl. rewrite <- IH by exact Hl.
  assert (Hcomb : forall (p q r s : list N), length p = length q -> combine (p ++ r) (q ++ s) = combine p q ++ combine r s).
  { induction p as [|p0 p IHp]; intros [|q0 q] r s Hpq; simpl in *; try discriminate; [reflexivity|].
    f_equal. apply IHp. congruence. }
  rewrite Hcomb by (now rewrite !rev_length). reflexivity.
Qed.

Lemma tl_rev (l : list N) : tl (rev l) = rev (removelast l).
Proof.
  destruct l as [|x l] using rev_ind; [reflexivity|].
  rewrite rev_app_distr. simpl. now rewrite removelast_last.
Qed.

Lemma dot_prefix acc n ns is : length is = length ns ->
  dot (combine (removelast (prefix_products acc (n :: ns))) is) = acc * n * radix ns is.
Proof.
  revert acc n is. induction ns as [|m ns IH]; intros acc n is Hl.
  - simpl. destruct is; [simpl; lia | discriminate].
  - destruct is as [|i is]; [discriminate|]. injection Hl as Hl.
    replace (removelast (prefix_products acc (n :: m :: ns)))
      with (acc * n :: removelast (prefix_products (acc * n) (m :: ns))) by reflexivity.
    cbn [combine dot fst snd]. rewrite IH by exact Hl. cbn [radix]. lia.
Qed.

Lemma flat_index_ok ns is : ns <> [] -> cell ns is -> product ns < usize_mod ->
  flat_index (prefix_products 1 ns) is = Val (radix ns is).
Proof.
  intros Hne Hc Hlt. pose proof (radix_lt _ _ Hc) as Hr. pose proof (cell_length _ _ Hc) as Hl.
  destruct ns as [|n ns]; [congruence|]. destruct is as [|i is]; [discriminate|].
  injection Hl as Hl. unfold flat_index. rewrite tl_rev.
  rewrite combine_rev_tl.
  2:{ rewrite Hl. clear. revert n. generalize 1. induction ns as [|m ns IH]; intros k n; [reflexivity|].
      simpl prefix_products. replace (length (m :: ns)) with (S (length ns)) by reflexivity.
      rewrite <- (IH (k * n) m). reflexivity. }
  assert (Hdot : dot (rev (combine (removelast (prefix_products 1 (n :: ns))) is)) = n * radix ns is).
  { rewrite dot_rev, dot_prefix by exact Hl. lia. }
  rewrite foldo_dot; rewrite Hdot; cbn [radix] in *; [reflexivity | lia].
Qed.

Lemma digits_ok ns i : Forall (fun n => 0 < n) ns -> Forall (fun n => n < usize_mod) ns ->
  digits i ns = Val (digits_of i ns).
Proof.
  intros Hp. revert i. induction Hp as [|n ns Hn Hp IH]; intros i Hlt; [reflexivity|].
  inversion Hlt; subst. cbn [digits]. rewrite umul_ok by lia. cbn [obind].
  rewrite N.mul_1_l. rewrite urem_ok, udiv_ok by lia. cbn [obind]. rewrite IH by assumption. reflexivity.
Qed.

Lemma num_bins_ok n ns : (forall k, product (firstn k (n :: ns)) < usize_mod) ->
  (let! p := foldo umul ns n in umul p 1) = Val (product (n :: ns)).
Proof.
  intros Hf.
  assert (Hfold : forall acc, (forall k, acc * product (firstn k ns) < usize_mod) ->
             foldo umul ns acc = Val (acc * product ns)).
  { clear. induction ns as [|m ns IH]; intros acc Hf; simpl.
    - unfold product. simpl. f_equal. lia.
    - rewrite umul_ok.
      2:{ specialize (Hf 1%nat). unfold product in Hf. simpl in Hf. lia. }
      cbn [obind]. rewrite IH.
      + unfold product. simpl. f_equal. lia.
      + intros k. specialize (Hf (S k)). unfold product in *. simpl in Hf. lia. }
  assert (Hn : forall k, n * product (firstn k ns) < usize_mod) by (intros k; exact (Hf (S k))).
  rewrite Hfold by exact Hn. cbn [obind].
  specialize (Hn (length ns)). rewrite firstn_all in Hn.
  rewrite umul_ok by lia. unfold product. simpl. f_equal. lia.
Qed.

(** ** Tuples *)

Lemma all_num_bins_ok ts (a : axes_tuple ts) ns : tuple_has_bins ts a ns ->
  all_num_bins ts a = Val ns.
Proof.
  revert a ns. induction ts as [|t ts IH]; intros a ns Hb; cbn [tuple_has_bins all_num_bins] in *.
  - now subst.
  - destruct ns as [|n ns]; [contradiction|]. destruct Hb as [[Hn _] Hb].
    rewrite Hn. cbn [obind]. rewrite (IH _ _ Hb). reflexivity.
Qed.

Lemma tuple_length ts (a : axes_tuple ts) ns : tuple_has_bins ts a ns -> length ns = length ts.
Proof.
  revert a ns. induction ts as [|t ts IH]; intros a ns Hb; cbn [tuple_has_bins] in *.
  - now subst.
  - destruct ns as [|n ns]; [contradiction|]. destruct Hb as [_ Hb]. simpl. f_equal. eauto.
Qed.

Lemma axes_from_ok ts (a : axes_tuple ts) ns : tuple_has_bins ts a ns -> products_fit ns ->
  axes_from a = Val (mkAxes a (prefix_products 1 ns)).
Proof.
  intros Hb Hf. unfold axes_from. rewrite (all_num_bins_ok _ _ _ Hb). cbn [obind].
  rewrite scan_ok; [reflexivity|]. intros k. rewrite N.mul_1_l. apply Hf.
Qed.

Lemma all_indices_some ts (a : axes_tuple ts) c is : component_indices ts a c is ->
  all_indices ts a c = Val (Some is).
Proof.
  revert a c is. induction ts as [|t ts IH]; intros a c is Hi; cbn [component_indices all_indices] in *.
  - now subst.
  - destruct is as [|i is]; [contradiction|]. destruct Hi as [Hi His].
    rewrite Hi. cbn [obind]. rewrite (IH _ _ _ His). reflexivity.
Qed.

Lemma all_indices_inv ts (a : axes_tuple ts) c is : all_indices ts a c = Val (Some is) ->
  component_indices ts a c is.
Proof.
  revert a c is. induction ts as [|t ts IH]; intros a c is Hi; cbn [component_indices all_indices] in *.
  - now injection Hi as <-.
  - destruct (@index _ (at_axis t) (fst a) (fst c)) as [[i|]|]; cbn [obind] in Hi; try discriminate.
    destruct (all_indices ts (snd a) (snd c)) as [[js|]|] eqn:E; cbn [obind] in Hi; try discriminate.
    injection Hi as <-. split; [reflexivity | auto].
Qed.

Lemma all_indices_cases ts (a : axes_tuple ts) ns c : components_index_within ts a ns c ->
  (exists is, all_indices ts a c = Val (Some is) /\ component_indices ts a c is /\ cell ns is
              /\ ~ some_component_uncovered ts a c)
  \/ (all_indices ts a c = Val None /\ some_component_uncovered ts a c).
Proof.
  revert a ns c. induction ts as [|t ts IH]; intros a ns c Hw;
    cbn [components_index_within component_indices all_indices some_component_uncovered] in *.
  - subst. left. exists []. repeat split; [constructor | tauto].
  - destruct ns as [|n ns]; [contradiction|]. destruct Hw as [[r [Hr Hlt]] Hw].
    rewrite Hr. cbn [obind]. destruct r as [i|].
    2:{ right. split; [reflexivity | left; reflexivity]. }
    destruct (IH _ _ _ Hw) as [[is [H1 [H2 [H3 H4]]]] | [H1 H2]]; rewrite H1; cbn [obind].
    + left. exists (i :: is). repeat split; [exact H2| |].
      * constructor; [now apply Hlt | exact H3].
      * intros [Hf|Hf]; [discriminate | contradiction].
    + right. split; [reflexivity | right; exact H2].
Qed.

Lemma all_bins_ok ts (a : axes_tuple ts) is bs : component_bins ts a is bs ->
  all_bins ts a is = Val (Some bs).
Proof.
  revert a is bs. induction ts as [|t ts IH]; intros a is bs Hb; cbn [component_bins all_bins] in *.
  - destruct bs. now subst.
  - destruct is as [|i is]; [contradiction|]. destruct Hb as [Hb Hbs].
    rewrite Hb. cbn [obind]. rewrite (IH _ _ _ Hbs). cbn [obind]. now destruct bs.
Qed.

Lemma component_bins_exist ts (a : axes_tuple ts) ns is : tuple_has_bins ts a ns -> cell ns is ->
  exists bs, component_bins ts a is bs.
Proof.
  revert a ns is. induction ts as [|t ts IH]; intros a ns is Hb Hc; cbn [tuple_has_bins component_bins] in *.
  - subst. inversion Hc. exists tt. reflexivity.
  - destruct ns as [|n ns]; [contradiction|]. destruct Hb as [[_ Hb] Hbs].
    inversion Hc as [|i n' is' ns' Hi Hc' E1 E2]; subst.
    destruct (Hb i Hi) as [b Hbi]. destruct (IH _ _ _ Hbs Hc') as [bs Hbs'].
    exists (b, bs). split; assumption.
Qed.

Lemma each_fits ns : Forall (fun n => 0 < n) ns -> products_fit ns -> Forall (fun n => n < usize_mod) ns.
Proof.
  intros Hp. induction Hp as [|n ns Hn Hp IH]; intros Hf; constructor.
  - specialize (Hf 1%nat). unfold product in Hf. simpl in Hf. lia.
  - apply IH. intros k. specialize (Hf (S k)). unfold product in *. simpl in Hf. nia.
Qed.

Lemma axes_bin_digits ts (a : axes_tuple ts) shape ns i : tuple_has_bins ts a ns ->
  Forall (fun n => 0 < n) ns -> products_fit ns ->
  axes_bin (mkAxes a shape) i = all_bins ts a (digits_of i ns).
Proof.
  intros Hb Hp Hf. unfold axes_bin. cbn [ax_axes]. rewrite (all_num_bins_ok _ _ _ Hb). cbn [obind].
  rewrite digits_ok by (try assumption; now apply each_fits). reflexivity.
Qed.

Lemma digits_periodic ns i : Forall (fun n => 0 < n) ns -> digits_of (i mod product ns) ns = digits_of i ns.
Proof.
  intros Hp. rewrite <- (radix_digits ns i Hp). apply digits_radix. now apply digits_cell.
Qed.
End Usize.
