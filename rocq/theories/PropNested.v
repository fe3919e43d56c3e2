(** * PropNested: axes tuples nested in axes tuples (C77). *)
From stdpp Require Import gmap.
From Verif Require Import Base BaseFacts Num Axis Uniform Category Axes AxesSpec AxesFacts PropAxes Value VecHist HashHist
  HistSpec PropHist IntFacts PropCategory Program SimSpec SimFacts.
Open Scope N_scope.

(** ** Specification *)

(** [AxesTuple<(X, Y, ...)>] is itself an axis type (axes.rs:84-124), so it can be a
    component of another tuple. *)
Definition tuple_type `{Build} (g : list axis_type) : axis_type :=
  {| at_type := AxesTuple g; at_axis := axes_axis g; at_eq := axes_eq g |}.

(** Writing one tuple (of axes, of coordinates, of bins) after the other. *)
Fixpoint app_axes (ts us : list axis_type) : axes_tuple ts -> axes_tuple us -> axes_tuple (ts ++ us) :=
  match ts with [] => fun _ y => y | t :: ts' => fun x y => (fst x, app_axes ts' us (snd x) y) end.
Fixpoint app_coords (ts us : list axis_type) : coords ts -> coords us -> coords (ts ++ us) :=
  match ts with [] => fun _ y => y | t :: ts' => fun x y => (fst x, app_coords ts' us (snd x) y) end.
Fixpoint app_intervals (ts us : list axis_type) : intervals ts -> intervals us -> intervals (ts ++ us) :=
  match ts with [] => fun _ y => y | t :: ts' => fun x y => (fst x, app_intervals ts' us (snd x) y) end.

(** Every axis only returns bin numbers below its number of bins. *)
Fixpoint indices_in_range (ts : list axis_type) : axes_tuple ts -> list N -> Prop :=
  match ts return axes_tuple ts -> list N -> Prop with
  | [] => fun _ _ => True
  | t :: ts' => fun a ns =>
      match ns with
      | [] => False
      | n :: ns' => (forall c i, @index _ (at_axis t) (fst a) c = Val (Some i) -> i < n) /\ indices_in_range ts' (snd a) ns'
      end
  end.

(** Axes [xp], [xg] and [xq] with [np], [ng] and [nq] bins, all countable. *)
Definition well_formed_parts `{Build} (pre g post : list axis_type) (xp : axes_tuple pre) (xg : axes_tuple g) (xq : axes_tuple post)
    (np ng nq : list N) : Prop :=
  g <> []
  /\ tuple_has_bins pre xp np /\ tuple_has_bins g xg ng /\ tuple_has_bins post xq nq
  /\ indices_in_range pre xp np /\ indices_in_range g xg ng /\ indices_in_range post xq nq
  /\ products_fit (np ++ ng ++ nq) /\ products_fit ng.

(** [nested] is the tuple of the axes [xp], the tuple of the axes [xg], and the axes
    [xq]; [flat] is the tuple of the axes [xp], [xg] and [xq]. *)
Definition nested_and_flat `{Build} (pre g post : list axis_type) (nested : AxesTuple (pre ++ tuple_type g :: post))
    (flat : AxesTuple (pre ++ g ++ post)) : Prop :=
  exists xp xg xq np ng nq ag, well_formed_parts pre g post xp xg xq np ng nq
  /\ axes_from xg = Val ag
  /\ axes_from (app_axes pre (tuple_type g :: post) xp (ag, xq)) = Val nested
  /\ axes_from (app_axes pre (g ++ post) xp (app_axes g post xg xq)) = Val flat.

(** The same for coordinates and bins. *)
Definition nested_and_flat_coords `{Build} (pre g post : list axis_type) (c : coords (pre ++ tuple_type g :: post)) (d : coords (pre ++ g ++ post)) : Prop :=
  exists cp cg cq, c = app_coords pre (tuple_type g :: post) cp (cg, cq) /\ d = app_coords pre (g ++ post) cp (app_coords g post cg cq).
Definition nested_and_flat_bins `{Build} (pre g post : list axis_type) (b : intervals (pre ++ tuple_type g :: post)) (d : intervals (pre ++ g ++ post)) : Prop :=
  exists bp bg bq, b = app_intervals pre (tuple_type g :: post) bp (bg, bq) /\ d = app_intervals pre (g ++ post) bp (app_intervals g post bg bq).

(** The same outcome: both panic, or both return the same result and leave related
    histograms in all variables. *)
Definition same_runs {R H1 H2 : Type} (RH : H1 -> H2 -> Prop) (o1 : outcome (R * store H1)) (o2 : outcome (R * store H2)) : Prop :=
  match o1, o2 with
  | Val (r1, st1), Val (r2, st2) => r1 = r2 /\ same_store RH st1 st2
  | Panic, Panic => True
  | _, _ => False
  end.

(** ** Proofs *)
Lemma product_app l m : product (l ++ m) = product l * product m.
Proof.
  induction l as [|n l IH]; [change (product []) with 1; cbn [app]; lia|].
  cbn [app]. change (product (n :: l ++ m)) with (n * product (l ++ m)). change (product (n :: l)) with (n * product l). rewrite IH. apply N.mul_assoc.
Qed.
Lemma radix_app ns is ms js : List.length is = List.length ns -> radix (ns ++ ms) (is ++ js) = radix ns is + product ns * radix ms js.
Proof.
  revert is. induction ns as [|n ns IH]; intros [|i is] Hl; try discriminate; cbn [app radix].
  - change (product []) with 1. lia.
  - rewrite IH by (cbn in Hl; lia). change (product (n :: ns)) with (n * product ns). nia.
Qed.
Lemma radix_group np ng nq ip ig iq : cell np ip -> cell ng ig ->
  radix (np ++ product ng :: nq) (ip ++ radix ng ig :: iq) = radix (np ++ ng ++ nq) (ip ++ ig ++ iq).
Proof.
  intros Hp Hg. rewrite (radix_app np) by now apply cell_length. rewrite (radix_app np) by now apply cell_length.
  f_equal. f_equal. cbn [radix]. now rewrite (radix_app ng) by now apply cell_length.
Qed.
Lemma cell_app ns ms is js : cell ns is -> cell ms js -> cell (ns ++ ms) (is ++ js).
Proof. apply Forall2_app. Qed.
Lemma digits_app ns ms i : Forall (fun n => 0 < n) ns -> Forall (fun n => 0 < n) ms ->
  digits_of i (ns ++ ms) = digits_of i ns ++ digits_of (i / product ns) ms.
Proof.
  intros Hn Hm. revert i. induction Hn as [|n ns Hn0 Hn IH]; intros i.
  - cbn. change (product []) with 1. now rewrite N.div_1_r.
  - cbn [app digits_of]. rewrite IH. cbn [app]. f_equal. f_equal. f_equal.
    change (product (n :: ns)) with (n * product ns). apply N.div_div; [lia|]. pose proof (product_pos ns Hn). lia.
Qed.

Section Parts.
Context {B : Build}.
Lemma digits_zero ns i : In 0 ns -> digits i ns = Panic.
Proof.
  revert i. induction ns as [|n ns IH]; intros i; [intros []|]. intros [->|Hin]; cbn [digits].
  - unfold umul. cbn. destruct (_ <? _); cbn; [|destruct overflow_checks; [reflexivity|]]; now rewrite ?N.mod_0_l.
  - destruct (umul 1 n) as [m|]; cbn [obind]; [|reflexivity]. destruct (urem i m) as [v|]; cbn [obind]; [|reflexivity].
    destruct (udiv i m) as [j|]; cbn [obind]; [|reflexivity]. now rewrite IH.
Qed.

Lemma app_has_bins ts us x y ns ms : tuple_has_bins ts x ns -> tuple_has_bins us y ms -> tuple_has_bins (ts ++ us) (app_axes ts us x y) (ns ++ ms).
Proof.
  revert x ns. induction ts as [|t ts IH]; intros x ns Hx Hy; cbn [tuple_has_bins] in Hx.
  - now subst ns.
  - destruct ns as [|n ns]; [destruct Hx|]. destruct Hx as [Hn Hx]. cbn. split; [exact Hn | now apply IH].
Qed.

Definition app_all (o : outcome (option (list N))) (p : outcome (option (list N))) : outcome (option (list N)) :=
  let! oi := o in match oi with None => Val None | Some is => let! oj := p in match oj with None => Val None | Some js => Val (Some (is ++ js)) end end.
Lemma all_indices_app ts us x y c d :
  all_indices (ts ++ us) (app_axes ts us x y) (app_coords ts us c d) = app_all (all_indices ts x c) (all_indices us y d).
Proof.
  revert x c. induction ts as [|t ts IH]; intros x c.
  - cbn. destruct (all_indices us y d) as [[js|]|]; reflexivity.
  - cbn [app all_indices app_axes app_coords fst snd]. unfold app_all in *. destruct (@index _ (at_axis t) (fst x) (fst c)) as [[i|]|]; cbn [obind]; try reflexivity.
    rewrite IH. destruct (all_indices ts (snd x) (snd c)) as [[is|]|]; cbn [obind]; try reflexivity.
    destruct (all_indices us y d) as [[js|]|]; reflexivity.
Qed.
Lemma all_indices_cell ts (x : axes_tuple ts) ns c is : tuple_has_bins ts x ns -> indices_in_range ts x ns ->
  all_indices ts x c = Val (Some is) -> cell ns is.
Proof.
  intros Hb Hr Hi. apply all_indices_inv in Hi. revert x ns c is Hb Hr Hi. induction ts as [|t ts IH]; intros x ns c is Hb Hr Hi.
  - cbn in Hb, Hi. subst. constructor.
  - cbn in Hb, Hr, Hi. destruct ns as [|n ns]; [destruct Hb|]. destruct is as [|i is]; [destruct Hi|].
    destruct Hb as [_ Hb], Hr as [Hn Hr], Hi as [Hi0 Hi]. constructor; [exact (Hn _ _ Hi0) | exact (IH _ _ _ _ Hb Hr Hi)].
Qed.

Lemma component_bins_app ts us x y is js b d : List.length is = List.length ts ->
  component_bins (ts ++ us) (app_axes ts us x y) (is ++ js) (app_intervals ts us b d) <-> component_bins ts x is b /\ component_bins us y js d.
Proof.
  revert x is b. induction ts as [|t ts IH]; intros x is b Hl.
  - destruct is; [|discriminate]. cbn. tauto.
  - destruct is as [|i is]; [discriminate|]. cbn [app app_axes app_intervals component_bins fst snd].
    specialize (IH (snd x) is (snd b) ltac:(cbn in Hl; lia)). tauto.
Qed.
Lemma intervals_split ts us (e : intervals (ts ++ us)) : exists b d, e = app_intervals ts us b d.
Proof.
  induction ts as [|t ts IH]; [exists tt; now exists e|]. destruct e as [i e]. destruct (IH e) as (b & d & ->). exists (i, b). now exists d.
Qed.
Lemma all_bins_inv ts (a : axes_tuple ts) is bs : all_bins ts a is = Val (Some bs) -> List.length is = List.length ts -> component_bins ts a is bs.
Proof.
  revert a is bs. induction ts as [|t ts IH]; intros a is bs Hb Hl.
  - now destruct is.
  - destruct is as [|i is]; [discriminate|]. cbn [all_bins] in Hb. cbn [component_bins].
    destruct (@bin _ (at_axis t) (fst a) i) as [[b|]|] eqn:Eb; cbn [obind] in Hb; try discriminate.
    destruct (all_bins ts (snd a) is) as [[bs'|]|] eqn:Ebs; cbn [obind] in Hb; try discriminate.
    injection Hb as <-. split; [reflexivity | apply IH; [exact Ebs | cbn in Hl; lia]].
Qed.
Lemma tuple_eqb_app ts us x y x' y' : tuple_eqb (ts ++ us) (app_axes ts us x y) (app_axes ts us x' y') = tuple_eqb ts x x' && tuple_eqb us y y'.
Proof.
  revert x x'. induction ts as [|t ts IH]; intros x x'; cbn; [reflexivity|]. rewrite IH. now rewrite andb_assoc.
Qed.
Lemma shape_eqb_refl l : shape_eqb l l = true.
Proof. induction l as [|n l IH]; cbn; [reflexivity|]. now rewrite N.eqb_refl, IH. Qed.
Lemma tuple_eqb_bins ts (x y : axes_tuple ts) ns ms : Forall (fun t => eq_same_bins (at_axis t) (at_eq t)) ts ->
  tuple_has_bins ts x ns -> tuple_has_bins ts y ms -> tuple_eqb ts x y = true -> ns = ms.
Proof.
  intros HE. revert x y ns ms. induction HE as [|t ts Ht HE IH]; intros x y ns ms Hx Hy E; cbn in Hx, Hy.
  - congruence.
  - destruct ns as [|n ns]; [destruct Hx|]. destruct ms as [|m ms]; [destruct Hy|]. destruct Hx as [[Hn _] Hx], Hy as [[Hm _] Hy].
    cbn in E. apply andb_true_iff in E as [E1 E2]. f_equal; [|exact (IH _ _ _ _ Hx Hy E2)].
    pose proof (Ht _ _ E1) as H. rewrite Hn, Hm in H. congruence.
Qed.

Context (pre g post : list axis_type) (xp : axes_tuple pre) (xg : axes_tuple g) (xq : axes_tuple post) (np ng nq : list N)
        (W : well_formed_parts pre g post xp xg xq np ng nq).

Lemma product_prefix_0 (l m : list N) k : products_fit (l ++ m) -> product (l ++ firstn k m) < usize_mod.
Proof.
  intros Hf. specialize (Hf (List.length l + k)%nat). rewrite firstn_app_2 in Hf. exact Hf.
Qed.
Lemma nested_fit : products_fit (np ++ product ng :: nq).
Proof using W.
  destruct W as (_ & _ & _ & _ & _ & _ & _ & Hf & _). intros k.
  destruct (Nat.le_gt_cases k (List.length np)) as [Hk|Hk].
  - specialize (Hf k). rewrite firstn_app in *. replace (k - List.length np)%nat with 0%nat in * by lia. exact Hf.
  - replace k with (List.length np + S (k - List.length np - 1))%nat by lia. rewrite firstn_app_2. cbn [firstn].
    set (j := (k - List.length np - 1)%nat). rewrite product_app. change (product (product ng :: firstn j nq)) with (product ng * product (firstn j nq)).
    specialize (Hf (List.length np + (List.length ng + j))%nat). rewrite !firstn_app_2, !product_app in Hf. exact Hf.
Qed.

Lemma flat_has_bins : tuple_has_bins (pre ++ g ++ post) (app_axes pre (g ++ post) xp (app_axes g post xg xq)) (np ++ ng ++ nq).
Proof using W. destruct W as (_ & Hp & Hg & Hq & _). apply app_has_bins; [exact Hp|]. now apply app_has_bins. Qed.

Context (ag : AxesTuple g) (Hag : axes_from xg = Val ag).
Lemma group_has_bins : has_bins (axes_axis g) ag (product ng).
Proof using W Hag.
  destruct W as (Hg0 & _ & Hg & _ & _ & _ & _ & _ & Hf). destruct (C20_axes_tuple_has_bins B g xg ng Hg0 Hg Hf) as (a & Ha & H).
  rewrite Hag in Ha. injection Ha as <-. exact H.
Qed.
Lemma nested_has_bins : tuple_has_bins (pre ++ tuple_type g :: post) (app_axes pre (tuple_type g :: post) xp (ag, xq)) (np ++ product ng :: nq).
Proof using W Hag.
  destruct W as (_ & Hp & _ & Hq & _). apply app_has_bins; [exact Hp|]. cbn. split; [exact group_has_bins | exact Hq].
Qed.
Lemma group_index c is : all_indices g xg c = Val (Some is) -> axes_index ag c = Val (Some (radix ng is)).
Proof using W Hag.
  intros Hi. destruct W as (Hg0 & _ & Hg & _ & _ & Hr & _ & _ & Hf). pose proof (all_indices_cell _ _ _ _ _ Hg Hr Hi) as Hc.
  destruct (C21_axes_index_value B g xg ng Hg0 Hg Hf) as (a & Ha & _ & H). rewrite Hag in Ha. injection Ha as <-.
  apply (H c is); [now apply all_indices_inv | exact Hc].
Qed.
End Parts.

Lemma axes_from_axes {B : Build} ts (x : axes_tuple ts) a : axes_from x = Val a -> ax_axes a = x.
Proof.
  unfold axes_from. destruct (all_num_bins ts x) as [l|]; cbn [obind]; [|discriminate]. destruct (scan_products 1 l) as [m|]; cbn [obind]; [|discriminate].
  intros H. injection H as <-. reflexivity.
Qed.
Lemma nonempty_app {X} (l m : list X) x : l ++ x :: m <> [].
Proof. now destruct l. Qed.
Lemma nonempty_mid {X} (l m n : list X) : m <> [] -> l ++ m ++ n <> [].
Proof. now destruct l, m. Qed.

(** C77. Group some neighbouring axes of a tuple into a tuple of their own: building
    succeeds as before, the number of bins stays, every coordinate keeps its bin
    number (or has none, or makes an axis' [index] panic, as before), every bin
    number keeps its bin; only [num_dim] counts the group once. *)
Theorem C77_grouping : forall (B : Build) (pre g post : list axis_type) xp xg xq np ng nq,
  well_formed_parts pre g post xp xg xq np ng nq ->
  exists ag nested flat, axes_from xg = Val ag
  /\ axes_from (app_axes pre (tuple_type g :: post) xp (ag, xq)) = Val nested
  /\ axes_from (app_axes pre (g ++ post) xp (app_axes g post xg xq)) = Val flat
  /\ @num_bins _ (axes_axis _) nested = Val (product (np ++ ng ++ nq))
  /\ @num_bins _ (axes_axis _) flat = Val (product (np ++ ng ++ nq))
  /\ (forall cp cg cq, @index _ (axes_axis _) nested (app_coords pre (tuple_type g :: post) cp (cg, cq))
                       = @index _ (axes_axis _) flat (app_coords pre (g ++ post) cp (app_coords g post cg cq)))
  /\ (forall i, @bin _ (axes_axis _) nested i = Panic /\ @bin _ (axes_axis _) flat i = Panic
        \/ exists bp bg bq, @bin _ (axes_axis _) nested i = Val (Some (app_intervals pre (tuple_type g :: post) bp (bg, bq)))
                            /\ @bin _ (axes_axis _) flat i = Val (Some (app_intervals pre (g ++ post) bp (app_intervals g post bg bq))))
  /\ @num_dim _ (axes_axis _) nested = N.of_nat (List.length pre) + 1 + N.of_nat (List.length post)
  /\ @num_dim _ (axes_axis _) flat = N.of_nat (List.length pre) + N.of_nat (List.length g) + N.of_nat (List.length post).
Proof.
  intros B pre g post xp xg xq np ng nq W. pose proof W as (Hg0 & Hp & Hg & Hq & Hrp & Hrg & Hrq & Hf & Hfg).
  destruct (C20_axes_tuple_has_bins B g xg ng Hg0 Hg Hfg) as (ag & Hag & _).
  pose proof (nested_has_bins pre g post xp xg xq np ng nq W ag Hag) as Hn.
  pose proof (flat_has_bins pre g post xp xg xq np ng nq W) as Hfl.
  pose proof (nested_fit pre g post xp xg xq np ng nq W) as Hnf.
  assert (Hpr : product (np ++ product ng :: nq) = product (np ++ ng ++ nq)).
  { rewrite !product_app. now change (product (product ng :: nq)) with (product ng * product nq). }
  destruct (C20_axes_tuple_has_bins B _ _ _ (nonempty_app pre post (tuple_type g)) Hn Hnf) as (nested & Hnested & [Hnn _]).
  destruct (C20_axes_tuple_has_bins B _ _ _ (nonempty_mid pre g post Hg0) Hfl Hf) as (flat & Hflat & [Hnfl _]).
  exists ag, nested, flat. split; [exact Hag|]. split; [exact Hnested|]. split; [exact Hflat|].
  split; [now rewrite Hnn, Hpr|]. split; [exact Hnfl|].
  assert (En : nested = mkAxes (app_axes pre (tuple_type g :: post) xp (ag, xq)) (prefix_products 1 (np ++ product ng :: nq))).
  { pose proof (axes_from_ok _ _ _ Hn Hnf) as E. rewrite Hnested in E. congruence. }
  assert (Efl : flat = mkAxes (app_axes pre (g ++ post) xp (app_axes g post xg xq)) (prefix_products 1 (np ++ ng ++ nq))).
  { pose proof (axes_from_ok _ _ _ Hfl Hf) as E. rewrite Hflat in E. congruence. }
  assert (Eag : ax_axes ag = xg) by (apply axes_from_axes; exact Hag).
  split; [|split].
  - intros cp cg cq. change (axes_index nested (app_coords pre (tuple_type g :: post) cp (cg, cq)) = axes_index flat (app_coords pre (g ++ post) cp (app_coords g post cg cq))).
    unfold axes_index. rewrite En, Efl. cbn [ax_axes ax_shape]. rewrite (all_indices_app pre (tuple_type g :: post)), (all_indices_app pre (g ++ post)), (all_indices_app g post).
    unfold app_all. destruct (all_indices pre xp cp) as [[ip|]|] eqn:Ep; cbn [obind]; try reflexivity.
    pose proof (all_indices_cell pre xp np cp ip Hp Hrp Ep) as Hcp.
    cbn [all_indices fst snd tuple_type at_axis].
    change (@index _ (axes_axis g) ag cg) with (axes_index ag cg).
    destruct (all_indices g xg cg) as [[ig|]|] eqn:Eg.
    + rewrite (group_index pre g post xp xg xq np ng nq W ag Hag cg ig Eg). cbn [obind].
      pose proof (all_indices_cell g xg ng cg ig Hg Hrg Eg) as Hcg.
      destruct (all_indices post xq cq) as [[iq|]|] eqn:Eq; cbn [obind]; try reflexivity.
      pose proof (all_indices_cell post xq nq cq iq Hq Hrq Eq) as Hcq.
      rewrite (flat_index_ok (np ++ product ng :: nq)); [| apply nonempty_app | apply cell_app; [exact Hcp|]; constructor; [now apply radix_lt | exact Hcq] | now apply products_fit_total].
      rewrite (flat_index_ok (np ++ ng ++ nq)); [| | apply cell_app; [exact Hcp|]; now apply cell_app | now apply products_fit_total].
      * cbn [obind]. now rewrite radix_group.
      * apply nonempty_mid. intros ->. pose proof (tuple_length _ _ _ Hg) as Hl. now destruct g.
    + unfold axes_index. rewrite Eag, Eg. reflexivity.
    + unfold axes_index. rewrite Eag, Eg. reflexivity.
  - intros i. change (@bin _ (axes_axis _) nested i) with (axes_bin nested i). change (@bin _ (axes_axis _) flat i) with (axes_bin flat i).
    destruct (product_zero_or_pos (np ++ ng ++ nq)) as [Hz|Hpos].
    + left. assert (Hz0 : forall l, product l = 0 -> In 0 l).
      { intros l. induction l as [|n l IH]; [discriminate|]. change (product (n :: l)) with (n * product l). intros H. apply N.eq_mul_0 in H as [->|H]; [now left | right; auto]. }
      rewrite En, Efl. unfold axes_bin. cbn [ax_axes]. rewrite (all_num_bins_ok _ _ _ Hn), (all_num_bins_ok _ _ _ Hfl). cbn [obind].
      rewrite (digits_zero (np ++ product ng :: nq)) by (apply Hz0; now rewrite Hpr). rewrite (digits_zero (np ++ ng ++ nq)) by now apply Hz0. now split.
    + right. pose proof Hpos as Hpos'. apply Forall_app in Hpos' as [Pp Pgq]. apply Forall_app in Pgq as [Pg Pq].
      assert (Pn : Forall (fun n => 0 < n) (product ng :: nq)) by (constructor; [now apply product_pos | exact Pq]).
      assert (Pnn : Forall (fun n => 0 < n) (np ++ product ng :: nq)) by (apply Forall_app; now split).
      rewrite En, Efl. rewrite (axes_bin_digits _ _ _ _ _ Hn Pnn Hnf), (axes_bin_digits _ _ _ _ _ Hfl Hpos Hf).
      destruct (component_bins_exist _ _ _ _ Hn (digits_cell _ i Pnn)) as [bs Hbs].
      rewrite (all_bins_ok _ _ _ _ Hbs). destruct (intervals_split pre (tuple_type g :: post) bs) as (bp & [bg bq] & ->).
      exists bp, bg, bq. split; [reflexivity|]. apply all_bins_ok.
      rewrite (digits_app np (product ng :: nq)) in Hbs by assumption. rewrite (digits_app np (ng ++ nq)) by (try assumption; apply Forall_app; now split).
      assert (Lp : List.length (digits_of i np) = List.length pre).
      { rewrite (cell_length _ _ (digits_cell np i Pp)). exact (tuple_length _ _ _ Hp). }
      apply component_bins_app in Hbs as [Hbp Hbs]; [|exact Lp]. apply component_bins_app; [exact Lp|]. split; [exact Hbp|].
      set (j := i / product np) in *. rewrite (digits_app ng nq) by assumption.
      assert (Lg : List.length (digits_of j ng) = List.length g).
      { rewrite (cell_length _ _ (digits_cell ng j Pg)). exact (tuple_length _ _ _ Hg). }
      cbn [digits_of component_bins fst snd] in Hbs. destruct Hbs as [Hbg Hbq].
      apply component_bins_app; [exact Lg|]. split; [|exact Hbq].
      change (axes_bin ag (j mod product ng) = Val (Some bg)) in Hbg.
      destruct ag as [agx sh]. cbn [ax_axes] in Eag. subst agx.
      rewrite (axes_bin_digits _ _ _ _ _ Hg Pg Hfg), digits_periodic in Hbg by exact Pg. now apply all_bins_inv.
  - cbn [num_dim axes_axis]. rewrite !app_length. cbn [List.length]. split; lia.
Qed.
Print Assumptions C77_grouping.

Section Methods.
Context {B : Build} (pre g post : list axis_type).
Notation RA := (nested_and_flat pre g post).
Notation RC := (nested_and_flat_coords pre g post).
Notation RI := (nested_and_flat_bins pre g post).

Lemma nested_facts nested flat : RA nested flat ->
  axes_num_bins nested = axes_num_bins flat
  /\ (forall c d, RC c d -> axes_index nested c = axes_index flat d)
  /\ (forall i, axes_bin nested i = Panic /\ axes_bin flat i = Panic
        \/ exists b d, axes_bin nested i = Val (Some b) /\ axes_bin flat i = Val (Some d) /\ RI b d).
Proof.
  intros (xp & xg & xq & np & ng & nq & ag & W & Hag & Hn & Hf).
  destruct (C77_grouping B pre g post xp xg xq np ng nq W) as (ag' & n' & f' & Hag' & Hn' & Hf' & N1 & N2 & HI & HB & _).
  assert (ag' = ag) by congruence. subst ag'. assert (n' = nested) by congruence. subst n'. assert (f' = flat) by congruence. subst f'.
  split; [exact (eq_trans N1 (eq_sym N2))|]. split.
  - intros c d (cp & cg & cq & -> & ->). apply HI.
  - intros i. destruct (HB i) as [H|(bp & bg & bq & H1 & H2)]; [left; exact H|]. right. do 2 eexists. split; [exact H1|]. split; [exact H2|].
    exists bp, bg, bq. now split.
Qed.

Lemma nested_eqb (HP : Forall (fun t => eq_same_bins (at_axis t) (at_eq t)) (pre ++ g ++ post)) n1 f1 n2 f2 :
  RA n1 f1 -> RA n2 f2 -> axes_eqb n1 n2 = axes_eqb f1 f2.
Proof.
  apply Forall_app in HP as [HP HGQ]. apply Forall_app in HGQ as [HG HQ].
  intros (xp & xg & xq & np & ng & nq & ag & W & Hag & Hn & Hf) (xp' & xg' & xq' & np' & ng' & nq' & ag' & W' & Hag' & Hn' & Hf').
  pose proof (axes_from_ok _ _ _ (nested_has_bins _ _ _ _ _ _ _ _ _ W ag Hag) (nested_fit _ _ _ _ _ _ _ _ _ W)) as En. rewrite Hn in En.
  pose proof (axes_from_ok _ _ _ (nested_has_bins _ _ _ _ _ _ _ _ _ W' ag' Hag') (nested_fit _ _ _ _ _ _ _ _ _ W')) as En'. rewrite Hn' in En'.
  pose proof W as (Hg0 & Hp & Hg & Hq & _ & _ & _ & Hfit & Hfg). pose proof W' as (_ & Hp' & Hg' & Hq' & _ & _ & _ & Hfit' & Hfg').
  pose proof (axes_from_ok _ _ _ (flat_has_bins _ _ _ _ _ _ _ _ _ W) Hfit) as Ef. rewrite Hf in Ef.
  pose proof (axes_from_ok _ _ _ (flat_has_bins _ _ _ _ _ _ _ _ _ W') Hfit') as Ef'. rewrite Hf' in Ef'.
  pose proof (axes_from_ok _ _ _ Hg Hfg) as Eg. rewrite Hag in Eg. pose proof (axes_from_ok _ _ _ Hg' Hfg') as Eg'. rewrite Hag' in Eg'.
  clear Hn Hn' Hf Hf' Hag Hag'. assert (forall X (a b : X), Val a = Val b -> a = b) as inj by (intros X a b H; congruence).
  apply inj in En, En', Ef, Ef', Eg, Eg'. subst n1 n2 f1 f2. unfold axes_eqb. cbn [ax_axes ax_shape]. rewrite !tuple_eqb_app.
  cbn [tuple_eqb fst snd tuple_type at_eq]. change (@axis_eqb _ (axes_eq g) ag ag') with (axes_eqb ag ag'). unfold axes_eqb. subst ag ag'. cbn [ax_axes ax_shape].
  destruct (tuple_eqb pre xp xp') eqn:E1; [|reflexivity]. destruct (tuple_eqb g xg xg') eqn:E2; [|reflexivity].
  destruct (tuple_eqb post xq xq') eqn:E3; [|now rewrite andb_false_r].
  rewrite (tuple_eqb_bins _ _ _ _ _ HP Hp Hp' E1), (tuple_eqb_bins _ _ _ _ _ HG Hg Hg' E2), (tuple_eqb_bins _ _ _ _ _ HQ Hq Hq' E3).
  now rewrite !shape_eqb_refl.
Qed.
End Methods.

(** Nested and flat tuples of axes with a reasonable [==] (equal axes have as many
    bins) can take each other's place in either direction. *)
Theorem C77_nested_refines : forall (B : Build) (pre g post : list axis_type),
  Forall (fun t => eq_same_bins (at_axis t) (at_eq t)) (pre ++ g ++ post) ->
  let nested := pre ++ tuple_type g :: post in let flat := pre ++ g ++ post in
  methods_refine (axes_axis nested) (axes_eq nested) (axes_axis flat) (axes_eq flat)
    (nested_and_flat pre g post) (nested_and_flat_coords pre g post) (nested_and_flat_bins pre g post)
  /\ methods_refine (axes_axis flat) (axes_eq flat) (axes_axis nested) (axes_eq nested)
    (fun a b => nested_and_flat pre g post b a) (fun a b => nested_and_flat_coords pre g post b a) (fun a b => nested_and_flat_bins pre g post b a).
Proof.
  intros B pre g post HE nested flat. split; split.
  - intros a1 a2 c1 c2 Ha Hc. apply refines_eq. apply (nested_facts _ _ _ _ _ Ha). exact Hc.
  - intros a1 a2 Ha. apply refines_eq. apply (nested_facts _ _ _ _ _ Ha).
  - intros a1 a2 i Ha. destruct (nested_facts _ _ _ _ _ Ha) as (_ & _ & Hb).
    intros v Hv. change (axes_bin a1 i = Val v) in Hv. change (exists w, axes_bin a2 i = Val w /\ option_rel (nested_and_flat_bins pre g post) v w).
    destruct (Hb i) as [[H1 H2]|(b & d & H1 & H2 & H3)]; pose proof (eq_trans (eq_sym H1) Hv) as E; [discriminate|]. injection E as <-. exists (Some d). now split.
  - intros a1 a2 b1 b2. apply nested_eqb. exact HE.
  - intros a1 a2 c1 c2 Ha Hc. apply refines_eq. symmetry. apply (nested_facts _ _ _ _ _ Ha). exact Hc.
  - intros a1 a2 Ha. apply refines_eq. symmetry. apply (nested_facts _ _ _ _ _ Ha).
  - intros a1 a2 i Ha. destruct (nested_facts _ _ _ _ _ Ha) as (_ & _ & Hb).
    intros v Hv. change (axes_bin a1 i = Val v) in Hv. change (exists w, axes_bin a2 i = Val w /\ option_rel (fun a b => nested_and_flat_bins pre g post b a) v w).
    destruct (Hb i) as [[H1 H2]|(b & d & H1 & H2 & H3)]; pose proof (eq_trans (eq_sym H2) Hv) as E; [discriminate|]. injection E as <-. exists (Some b). now split.
  - intros a1 a2 b1 b2 Ha Hb. symmetry. now apply nested_eqb.
Qed.
Print Assumptions C77_nested_refines.

(** So a program may group axes, or stop grouping them, as it likes: it panics in
    the same runs, gives the same answers, returns the same result and leaves the
    same bin values in every histogram, dense or sparse. *)
Theorem C77_programs {V D W R : Type} : forall (B : Build) (FV : Fill V) (FD : FillWith V D) (FW : FillWithWeighted V D W) (DV : Default V)
  (pre g post : list axis_type),
  Forall (fun t => eq_same_bins (at_axis t) (at_eq t)) (pre ++ g ++ post) ->
  let nested := axes_axis (pre ++ tuple_type g :: post) in let flat := axes_axis (pre ++ g ++ post) in
  let RA := nested_and_flat pre g post in let RC := nested_and_flat_coords pre g post in let RI := nested_and_flat_bins pre g post in
  forall (p1 : program (AX := nested) V D W R) (p2 : program (AX := flat) V D W R),
  same_program nested flat RA RC RI p1 p2 ->
  same_program flat nested (fun a b => RA b a) (fun a b => RC b a) (fun a b => RI b a) p2 p1 ->
  same_runs (same_dense RA) (dense_run (AX := nested) (AE := axes_eq _) p1 (fun _ => None)) (dense_run (AX := flat) (AE := axes_eq _) p2 (fun _ => None))
  /\ (forall r st1, sparse_run (AX := nested) (AE := axes_eq _) p1 (fun _ => None) (Val (r, st1)) ->
       exists st2, sparse_run (AX := flat) (AE := axes_eq _) p2 (fun _ => None) (Val (r, st2)) /\ same_store (same_sparse RA) st1 st2)
  /\ (forall r st2, sparse_run (AX := flat) (AE := axes_eq _) p2 (fun _ => None) (Val (r, st2)) ->
       exists st1, sparse_run (AX := nested) (AE := axes_eq _) p1 (fun _ => None) (Val (r, st1)) /\ same_store (same_sparse RA) st1 st2).
Proof.
  intros B FV FD FW DV pre g post HE nested flat RA RC RI p1 p2 H12 H21.
  destruct (C77_nested_refines B pre g post HE) as [M12 M21].
  assert (HF : fills_refine FV FD FW FV FD FW) by (split; intros; apply refines_refl).
  pose proof (refines_dense_run RA RC RI M12 HF p1 p2 (fun _ => None) (fun _ => None) H12 ltac:(intros ?; exact I)) as D12.
  pose proof (refines_dense_run _ _ _ M21 HF p2 p1 (fun _ => None) (fun _ => None) H21 ltac:(intros ?; exact I)) as D21.
  split; [|split].
  - unfold same_runs. destruct (dense_run p1 _) as [[r1 st1]|] eqn:E1.
    + destruct (D12 _ eq_refl) as ([r2 st2] & -> & Hr & Hst). cbn in Hr, Hst. now split.
    + destruct (dense_run p2 _) as [[r2 st2]|] eqn:E2; [|exact I]. destruct (D21 _ E2) as ([r st] & E & _). pose proof (eq_trans (eq_sym E1) E). discriminate.
  - intros r st1 Hr. exact (refines_sparse_run RA RC RI M12 HF p1 p2 (fun _ => None) (fun _ => None) r st1 H12 ltac:(intros ?; exact I) Hr).
  - intros r st2 Hr. destruct (refines_sparse_run _ _ _ M21 HF p2 p1 (fun _ => None) (fun _ => None) r st2 H21 ltac:(intros ?; exact I) Hr) as (st1 & Hr1 & Hst).
    exists st1. split; [exact Hr1|]. intros x. specialize (Hst x). destruct (st1 x) as [h1|], (st2 x) as [h2|]; try exact Hst.
    destruct Hst as [Ha Hv]. now split.
Qed.
Print Assumptions C77_programs.

(** ** Example: (Uniform, (Category, Uniform), Category) and (Uniform, Category, Uniform, Category) *)
Section Example77.
Context (B : Build).
Let U := uni_i32 B. Let K := cat_Z B.
Definition ex77_u : Uniform Z := (mkUniform 3 0 30 10)%Z.
Definition ex77_k : Category Z := category_new [5; 7]%Z.
Let xp : axes_tuple [U] := (ex77_u, tt).
Let xg : axes_tuple [K; U] := (ex77_k, (ex77_u, tt)).
Let xq : axes_tuple [K] := (ex77_k, tt).

#[local] Instance ex77_fill : Fill Z := {| fill_v := fun v => Val (v + 1)%Z |}.
#[local] Instance ex77_fill_with : FillWith Z Z := {| fill_with_v := fun v d => Val (v + d)%Z |}.
#[local] Instance ex77_weighted : FillWithWeighted Z Z Empty_set := {| fill_with_weighted_v := fun v d (w : Empty_set) => match w with end |}.
#[local] Instance ex77_default : Default Z := {| default_v := 0%Z |}.
(** [h = Histogram::new(a); h.fill(&c); h.fill_with(&c, 4); h.value(&c)]. *)
Definition ex77_program {A} (AX : Axis A) (a : A) (c : @Coordinate A AX) : program (AX := AX) Z Z Empty_set (option Z) :=
  Do (New 0 a) (fun _ => Do (Call 0 (CallFill c)) (fun _ => Do (Call 0 (CallFillWith c 4%Z)) (fun _ =>
  Do (Value 0 c) (fun q => Return match q with AnswerValue v => Some v | _ => None end)))).
Definition result77 {R H} (o : outcome (R * store H)) : option R := match o with Val (r, _) => Some r | Panic => None end.

Lemma ex77_in_range c i : @index _ (at_axis U) ex77_u c = Val (Some i) -> i < 5.
Proof.
  unfold U. cbn [index at_axis uni_i32 uniform_axis]. unfold uniform_index, ex77_u. cbn [u_low u_high u_num u_step].
  intros H. rewrite int_lt, int_ge in H.
  destruct (Z.ltb_spec c 0).
  - injection H as <-. lia.
  - destruct (Z.leb_spec 30 c).
    + assert (E : uadd 3 1 = Val 4) by (destruct B as [[] []]; vm_compute; reflexivity). rewrite E in H. cbn in H. injection H as <-. lia.
    + assert (Hc : exists k, (k < 30)%nat /\ c = Z.of_nat k) by (exists (Z.to_nat c); lia). destruct Hc as (k & Hk & ->).
      do 30 (destruct k as [|k]; [destruct B as [[] []]; vm_compute in H; injection H as <-; reflexivity|]). lia.
Qed.

Lemma ex77_parts : well_formed_parts [U] [K; U] [K] xp xg xq [5] [3; 5] [3].
Proof.
  assert (HU : has_bins (at_axis U) ex77_u 5) by exact (proj1 (proj1 (C21_nonvacuous B))).
  assert (HK : has_bins (at_axis K) ex77_k 3) by exact (proj1 (proj2 (proj1 (C21_nonvacuous B)))).
  assert (RK : forall c i, @index _ (at_axis K) ex77_k c = Val (Some i) -> i < 3).
  { intros c i H. destruct (C17_category_index B Z _ [5; 7]%Z c) as (j & Hj & Hle & _). cbn [List.length] in Hle.
    change (@index _ (at_axis K) ex77_k c) with (category_index ex77_k c) in H. unfold ex77_k in H. rewrite Hj in H. injection H as <-. lia. }
  split; [discriminate|]. split; [split; [exact HU | reflexivity]|]. split; [split; [exact HK | split; [exact HU | reflexivity]]|].
  split; [split; [exact HK | reflexivity]|]. split; [split; [exact ex77_in_range | exact I]|].
  split; [split; [exact RK | split; [exact ex77_in_range | exact I]]|]. split; [split; [exact RK | exact I]|].
  split; intros k; [do 5 (destruct k as [|k]; [destruct B as [? []]; vm_compute; reflexivity|])
                   | do 3 (destruct k as [|k]; [destruct B as [? []]; vm_compute; reflexivity|])]; destruct B as [? []]; vm_compute; reflexivity.
Qed.

Definition ex77_nested : AxesTuple ([U] ++ tuple_type [K; U] :: [K]) :=
  mkAxes (ts := [U] ++ tuple_type [K; U] :: [K]) (ex77_u, (mkAxes (ts := [K; U]) xg [3; 15], (ex77_k, tt))) [5; 75; 225].
Definition ex77_flat : AxesTuple ([U] ++ [K; U] ++ [K]) :=
  mkAxes (ts := [U] ++ [K; U] ++ [K]) (ex77_u, (ex77_k, (ex77_u, (ex77_k, tt)))) [5; 15; 75; 225].

Lemma ex77_related : nested_and_flat [U] [K; U] [K] ex77_nested ex77_flat.
Proof.
  exists xp, xg, xq, [5], [3; 5], [3], (mkAxes (ts := [K; U]) xg [3; 15]). split; [exact ex77_parts|].
  split; [|split].
  - refine (axes_from_ok _ _ _ (proj1 (proj2 (proj2 ex77_parts))) _). exact (proj2 (proj2 (proj2 (proj2 (proj2 (proj2 (proj2 (proj2 ex77_parts)))))))).
  - refine (axes_from_ok _ _ _ (nested_has_bins _ _ _ _ _ _ _ _ _ ex77_parts _ _) (nested_fit _ _ _ _ _ _ _ _ _ ex77_parts)).
    refine (axes_from_ok _ _ _ (proj1 (proj2 (proj2 ex77_parts))) _). exact (proj2 (proj2 (proj2 (proj2 (proj2 (proj2 (proj2 (proj2 ex77_parts)))))))).
  - exact (axes_from_ok _ _ _ (flat_has_bins _ _ _ _ _ _ _ _ _ ex77_parts) (proj1 (proj2 (proj2 (proj2 (proj2 (proj2 (proj2 (proj2 ex77_parts))))))))).
Qed.
End Example77.


(** The hypotheses of the three theorems hold; the coordinate (25, (7, 12), 9) and its
    flat form have number 3 + 5 * (1 + 3 * (2 + 5 * 2)) = 188 of 225; and the program
    above is the same program with either, whatever the coordinates. *)
Example C77_nonvacuous (B : Build) :
  let U := uni_i32 B in let K := cat_Z B in
  well_formed_parts [U] [K; U] [K] (ex77_u, tt) (ex77_k, (ex77_u, tt)) (ex77_k, tt) [5] [3; 5] [3]
  /\ Forall (fun t => eq_same_bins (at_axis t) (at_eq t)) ([U] ++ [K; U] ++ [K])
  /\ nested_and_flat [U] [K; U] [K] (ex77_nested B) (ex77_flat B)
  /\ axes_index (ex77_nested B) (25, ((7, (12, tt)), (9, tt)))%Z = Val (Some 188)
  /\ axes_index (ex77_flat B) (25, (7, (12, (9, tt))))%Z = Val (Some 188)
  /\ result77 (dense_run (FV := ex77_fill) (FD := ex77_fill_with) (FW := ex77_weighted) (DV := ex77_default) (AX := axes_axis _) (AE := axes_eq _) (ex77_program (axes_axis ([U] ++ tuple_type [K; U] :: [K])) (ex77_nested B) (25, ((7, (12, tt)), (9, tt)))%Z) (fun _ => None)) = Some (Some 5%Z)
  /\ (forall cp cg cq, let AXn := axes_axis ([U] ++ tuple_type [K; U] :: [K]) in let AXf := axes_axis ([U] ++ [K; U] ++ [K]) in
        same_program AXn AXf (nested_and_flat [U] [K; U] [K]) (nested_and_flat_coords [U] [K; U] [K]) (nested_and_flat_bins [U] [K; U] [K])
          (ex77_program AXn (ex77_nested B) (app_coords [U] (tuple_type [K; U] :: [K]) cp (cg, cq)))
          (ex77_program AXf (ex77_flat B) (app_coords [U] ([K; U] ++ [K]) cp (app_coords [K; U] [K] cg cq)))).
Proof.
  intros U K. split; [exact (ex77_parts B)|]. split.
  { assert (HU : eq_same_bins (at_axis U) (at_eq U)) by apply eq_same_bins_uniform.
    assert (HK : eq_same_bins (at_axis K) (at_eq K)) by apply eq_same_bins_category.
    cbn [app]. repeat (constructor; [assumption|]). constructor. }
  split; [exact (ex77_related B)|]. split; [subst U K; destruct B as [[] []]; vm_compute; reflexivity|]. split; [subst U K; destruct B as [[] []]; vm_compute; reflexivity|].
  split; [subst U K; destruct B as [[] []]; vm_compute; reflexivity|].
  intros cp cg cq AXn AXf. set (c := app_coords [U] (tuple_type [K; U] :: [K]) cp (cg, cq)). set (d := app_coords [U] ([K; U] ++ [K]) cp (app_coords [K; U] [K] cg cq)).
  assert (Hc : nested_and_flat_coords [U] [K; U] [K] c d) by (exists cp, cg, cq; now split).
  unfold ex77_program. apply same_do; [constructor; exact (ex77_related B)|]. intros _ _ _.
  apply same_do; [constructor; constructor; exact Hc|]. intros _ _ _. apply same_do; [constructor; constructor; exact Hc|]. intros _ _ _.
  apply same_do; [constructor; exact Hc|]. intros q1 q2 Hq. destruct Hq; apply same_return.
Qed.
