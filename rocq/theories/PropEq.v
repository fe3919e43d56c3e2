(** * Property theorems: axes that compare equal are interchangeable (C52). *)
From stdpp Require Import gmap.
From Flocq Require Import Core.FLX IEEE754.BinarySingleNaN.
From Verif Require Import Base BaseFacts Num Float Axis Uniform StdAlgo VarAxis Category CategoryFacts
  Axes AxesSpec AxesFacts EqFacts.
Open Scope N_scope.

(** ** Specification *)

(** Two numbers a program cannot tell apart by comparing them: identical, or [==]
    (zeros of opposite sign). *)
Definition same_number {T : Type} `{PartialOrdOps T} (x y : T) : Prop := x = y \/ eq_ x y = true.

(** Intervals of the same kind with the same bounds. *)
Definition same_interval {T : Type} `{PartialOrdOps T} (b b' : BinInterval T) : Prop :=
  match b, b' with
  | Underflow e, Underflow e' => same_number e e'
  | Overflow s, Overflow s' => same_number s s'
  | Bin s e, Bin s' e' => same_number s s' /\ same_number e e'
  | _, _ => False
  end.

(** The two axes have the same number of bins, put every coordinate into the same
    bin, and describe every bin by the same interval (as judged by [RI]); where one
    panics so does the other. *)
Definition interchangeable {A : Type} (AX : Axis A) (RI : Interval -> Interval -> Prop) (a b : A) : Prop :=
  num_bins a = num_bins b
  /\ (forall x, index a x = index b x)
  /\ (forall i, match bin a i, bin b i with
                | Panic, Panic => True
                | Val None, Val None => True
                | Val (Some v), Val (Some v') => RI v v'
                | _, _ => False
                end).

(** [==] implies interchangeable. *)
Definition eq_sound {A : Type} (AX : Axis A) (AE : AxisEq A) (RI : Interval -> Interval -> Prop) : Prop :=
  forall a b : A, axis_eqb a b = true -> interchangeable AX RI a b.

(** ** Proofs *)

Lemma inter_weaken (B : Build) T (ops : NumOps T) (R : T -> T -> Prop) (RI : BinInterval T -> BinInterval T -> Prop) o o' :
  (forall b b', ivrel R b b' -> RI b b') -> orel (optrel (ivrel R)) o o' ->
  match o, o' with
  | Panic, Panic => True | Val None, Val None => True | Val (Some v), Val (Some v') => RI v v' | _, _ => False
  end.
Proof. intros HI. destruct o as [[v|]|], o' as [[v'|]|]; cbn; auto. Qed.

Lemma numeric_eq_sound (B : Build) (search : searcher) T (ops : NumOps T) (R : T -> T -> Prop) (RI : BinInterval T -> BinInterval T -> Prop) :
  search_extensional search -> num_congr ops R -> (forall b b' : BinInterval T, ivrel R b b' -> RI b b') ->
  eq_sound (uniform_axis ops) {| axis_eqb := uniform_eqb ops |} RI
  /\ eq_sound (uniformnoflow_axis ops) {| axis_eqb := uniformnoflow_eqb ops |} RI
  /\ eq_sound (uniformcyclic_axis ops) {| axis_eqb := uniformcyclic_eqb ops |} RI
  /\ eq_sound (variable_axis (H0 := num_ord) search) {| axis_eqb := variable_eqb (H0 := num_ord) |} RI
  /\ eq_sound (variablenoflow_axis (H0 := num_ord) search) {| axis_eqb := variablenoflow_eqb (H0 := num_ord) |} RI
  /\ eq_sound (variablecyclic_axis search ops) {| axis_eqb := variablecyclic_eqb ops |} RI.
Proof.
  intros HS HR HI.
  pose proof (inter_weaken B T ops R RI) as W.
  split; [|split; [|split; [|split; [|split]]]]; intros a b Heq; cbn in Heq.
  all: try (apply (urel_eqb ops R HR) in Heq); try (apply (vrel_eqb ops R HR) in Heq).
  all: split; [|split]; cbn [num_bins index bin uniform_axis uniformnoflow_axis uniformcyclic_axis
                          variable_axis variablenoflow_axis variablecyclic_axis].
  - unfold uniform_num_bins. rewrite (ur_num _ _ _ Heq). reflexivity.
  - intros x. apply (uindex_congr ops R HR); [exact Heq | apply (nc_refl _ _ HR)].
  - intros i. apply W; [exact HI|]. apply (ubin_congr ops R HR), Heq.
  - apply (unfbins_congr R), Heq.
  - intros x. apply (unfindex_congr ops R HR); [exact Heq | apply (nc_refl _ _ HR)].
  - intros i. apply W; [exact HI|]. apply (unfbin_congr ops R HR), Heq.
  - apply (unfbins_congr R), Heq.
  - intros x. apply (ucindex_congr ops R HR), Heq.
  - intros i. apply W; [exact HI|]. apply (unfbin_congr ops R HR), Heq.
  - apply (vbins_congr R), Heq.
  - intros x. apply (vindex_congr ops R HR search HS); [exact Heq | apply (nc_refl _ _ HR)].
  - intros i. apply W; [exact HI|]. apply (vbin_congr R), Heq.
  - unfold variablenoflow_num_bins. rewrite (vbins_congr R _ _ Heq). reflexivity.
  - intros x. apply (vnfindex_congr ops R HR search HS); [exact Heq | apply (nc_refl _ _ HR)].
  - intros i. apply W; [exact HI|]. apply (vnfbin_congr R), Heq.
  - unfold variablenoflow_num_bins. rewrite (vbins_congr R _ _ Heq). reflexivity.
  - intros x. apply (vcindex_congr ops R HR search HS), Heq.
  - intros i. apply W; [exact HI|]. apply (vnfbin_congr R), Heq.
Qed.

(** ** C52 *)

(** The six numeric axes over an integer coordinate type: equal axes are
    indistinguishable. *)
Theorem C52_integer_axes : forall (B : Build) (t : int_type) (search : searcher), search_extensional search ->
  let ops := int_ops t in
  eq_sound (uniform_axis ops) {| axis_eqb := uniform_eqb ops |} eq
  /\ eq_sound (uniformnoflow_axis ops) {| axis_eqb := uniformnoflow_eqb ops |} eq
  /\ eq_sound (uniformcyclic_axis ops) {| axis_eqb := uniformcyclic_eqb ops |} eq
  /\ eq_sound (variable_axis (H0 := num_ord) search) {| axis_eqb := variable_eqb (H0 := num_ord) |} eq
  /\ eq_sound (variablenoflow_axis (H0 := num_ord) search) {| axis_eqb := variablenoflow_eqb (H0 := num_ord) |} eq
  /\ eq_sound (variablecyclic_axis search ops) {| axis_eqb := variablecyclic_eqb ops |} eq.
Proof.
  intros B t search HS ops. apply (numeric_eq_sound B search Z ops eq eq HS (int_congr t)).
  intros [e|s|s e] [e'|s'|s' e']; cbn; try contradiction; intros; repeat match goal with H : _ /\ _ |- _ => destruct H end; subst; reflexivity.
Qed.
Print Assumptions C52_integer_axes.

(** Over floating point, of any precision: equal axes put every coordinate
    (NaN, infinities and zeros of either sign included) into the same bin; the
    bounds of corresponding bins can only differ in the sign of a zero. *)
Theorem C52_float_axes : forall (prec emax : Z) (P : Prec_gt_0 prec) (E : Prec_lt_emax prec emax) (B : Build)
  (search : searcher), search_extensional search ->
  let ops := float_ops prec emax P E in
  let same := @same_interval _ (@num_ord _ ops) in
  eq_sound (uniform_axis ops) {| axis_eqb := uniform_eqb ops |} same
  /\ eq_sound (uniformnoflow_axis ops) {| axis_eqb := uniformnoflow_eqb ops |} same
  /\ eq_sound (uniformcyclic_axis ops) {| axis_eqb := uniformcyclic_eqb ops |} same
  /\ eq_sound (variable_axis (H0 := num_ord) search) {| axis_eqb := variable_eqb (H0 := num_ord) |} same
  /\ eq_sound (variablenoflow_axis (H0 := num_ord) search) {| axis_eqb := variablenoflow_eqb (H0 := num_ord) |} same
  /\ eq_sound (variablecyclic_axis search ops) {| axis_eqb := variablecyclic_eqb ops |} same.
Proof.
  intros prec emax P E B search HS ops same.
  apply (numeric_eq_sound B search _ ops (zero_eq prec emax) same HS (float_congr prec emax P E)).
  assert (Hn : forall x y, zero_eq prec emax x y -> @same_number _ (@num_ord _ ops) x y).
  { intros x y Hxy. apply zero_eq_same in Hxy as [->|Hxy]; [left; reflexivity|].
    right. unfold eq_. cbn. rewrite Hxy. reflexivity. }
  intros [e|s|s e] [e'|s'|s' e']; cbn; try contradiction; auto.
  intros [H1 H2]. split; apply Hn; assumption.
Qed.
Print Assumptions C52_float_axes.

(** Category axes, with and without overflow bin. *)
Theorem C52_category_axes : forall (B : Build) T (eqd : EqDecision T) (l1 l2 : list T),
  category_eqb (category_new l1) (category_new l2) = true ->
  interchangeable category_axis eq (category_new l1) (category_new l2)
  /\ interchangeable categorynoflow_axis eq (categorynoflow_new l1) (categorynoflow_new l2).
Proof.
  intros B T eqd l1 l2 Heq. apply cat_eqb_iff in Heq. subst l2.
  split; (split; [reflexivity | split; [reflexivity|]]); intros i; destruct (bin _ i) as [[]|]; auto.
Qed.
Print Assumptions C52_category_axes.

(** Tuples of interchangeable axes with the same shape are interchangeable. *)
Fixpoint tuple_interval_rel (ts : list axis_type) : (forall t, at_interval t -> at_interval t -> Prop) ->
  intervals ts -> intervals ts -> Prop :=
  match ts return (forall t, at_interval t -> at_interval t -> Prop) -> intervals ts -> intervals ts -> Prop with
  | [] => fun _ _ _ => True
  | t :: ts' => fun RI x y => RI t (fst x) (fst y) /\ tuple_interval_rel ts' RI (snd x) (snd y)
  end.

Lemma shape_eqb_eq l l' : shape_eqb l l' = true -> l = l'.
Proof.
  revert l'. induction l as [|x l IH]; intros [|y l']; cbn; try discriminate; [reflexivity|].
  intros H. apply andb_true_iff in H as [Hx Hl]. apply N.eqb_eq in Hx. f_equal; auto.
Qed.

Theorem C52_axes_tuples : forall (B : Build) (ts : list axis_type) (RI : forall t, at_interval t -> at_interval t -> Prop),
  Forall (fun t => eq_sound (at_axis t) (at_eq t) (RI t)) ts ->
  eq_sound (axes_axis ts) (axes_eq ts) (tuple_interval_rel ts RI).
Proof.
  intros B ts RI Hts [a sa] [b sb] Heq. cbn in Heq. unfold axes_eqb in Heq. cbn in Heq.
  apply andb_true_iff in Heq as [Heq Hsh]. apply shape_eqb_eq in Hsh as ->.
  assert (Hn : all_num_bins ts a = all_num_bins ts b).
  { induction Hts as [|t ts Ht Hts IH]; [reflexivity|].
    destruct a as [x a], b as [y b]. cbn in Heq. apply andb_true_iff in Heq as [Hx Hr]. cbn.
    destruct (Ht x y Hx) as [Hnx _]. rewrite Hnx, (IH a b Hr). reflexivity. }
  split; [|split]; cbn [num_bins index bin axes_axis].
  - unfold axes_num_bins. cbn [ax_axes]. rewrite Hn. reflexivity.
  - intros c. unfold axes_index. cbn [ax_axes ax_shape].
    assert (Hi : all_indices ts a c = all_indices ts b c).
    { clear Hn. induction Hts as [|t ts Ht Hts IH]; [reflexivity|].
      destruct a as [x a], b as [y b], c as [c0 c]. cbn in Heq. apply andb_true_iff in Heq as [Hx Hr]. cbn.
      destruct (Ht x y Hx) as [_ [Hix _]]. rewrite Hix, (IH a b Hr). reflexivity. }
    rewrite Hi. reflexivity.
  - intros i. unfold axes_bin. cbn [ax_axes]. rewrite Hn.
    destruct (all_num_bins ts b) as [ns|]; cbn [obind]; [|exact I].
    destruct (digits i ns) as [ds|]; cbn [obind]; [|exact I]. clear Hn ns i.
    revert ds. induction Hts as [|t ts Ht Hts IH]; intros ds; [exact I|].
    destruct a as [x a], b as [y b]. cbn in Heq. apply andb_true_iff in Heq as [Hx Hr]. cbn.
    destruct ds as [|d ds]; [exact I|].
    destruct (Ht x y Hx) as [_ [_ Hb]]. specialize (Hb d).
    destruct (@bin _ (at_axis t) x d) as [[v|]|], (@bin _ (at_axis t) y d) as [[v'|]|]; cbn [obind]; try contradiction; auto.
    specialize (IH a b Hr ds).
    destruct (all_bins ts a ds) as [[w|]|], (all_bins ts b ds) as [[w'|]|]; cbn [obind]; try contradiction; auto.
Qed.
Print Assumptions C52_axes_tuples.

(** One axis on its own. *)
Theorem C52_axes_one_dim : forall X (AX : Axis X) (EX : AxisEq X) RI,
  eq_sound AX EX RI -> eq_sound axes1_axis axes1_eq RI.
Proof.
  intros X AX EX RI HE [x sx] [y sy] Heq. cbn in Heq. unfold axes1_eqb in Heq. cbn in Heq.
  apply andb_true_iff in Heq as [Hx _]. exact (HE x y Hx).
Qed.
Print Assumptions C52_axes_one_dim.

(** ** The hypotheses are met *)

Lemma bsearch_early_ext : search_extensional bsearch_early.
Proof.
  intros X Y l l' f f' Hm. unfold bsearch_early.
  assert (Hlen : length l = length l') by (apply (f_equal (length (A := comparison))) in Hm; rewrite !map_length in Hm; exact Hm).
  rewrite Hlen. clear Hlen. 
  enough (Hall : forall fuel lo hi, bsearch_early_loop fuel l f lo hi = bsearch_early_loop fuel l' f' lo hi) by apply Hall.
  intros fuel.
  assert (Hnth : forall k, option_map f (nth_error l k) = option_map f' (nth_error l' k)).
  { intros k. rewrite <- !nth_error_map, Hm. reflexivity. }
  induction fuel as [|fuel IH]; intros lo hi; [reflexivity|]. cbn [bsearch_early_loop].
  destruct (Nat.ltb lo hi); [|reflexivity]. specialize (Hnth (lo + (hi - lo) / 2)%nat).
  destruct (nth_error l _), (nth_error l' _); cbn in Hnth; try discriminate; [|reflexivity].
  injection Hnth as ->. destruct (f' y); auto.
Qed.
Lemma bsearch_branchless_ext : search_extensional bsearch_branchless.
Proof.
  intros X Y l l' f f' Hm. unfold bsearch_branchless.
  assert (Hlen : length l = length l') by (apply (f_equal (length (A := comparison))) in Hm; rewrite !map_length in Hm; exact Hm).
  assert (Hnth : forall k, option_map f (nth_error l k) = option_map f' (nth_error l' k)).
  { intros k. rewrite <- !nth_error_map, Hm. reflexivity. }
  assert (Hloop : forall fuel base size, bsearch_branchless_loop fuel l f base size = bsearch_branchless_loop fuel l' f' base size).
  { induction fuel as [|fuel IH]; intros base size; [reflexivity|]. cbn [bsearch_branchless_loop].
    destruct (Nat.ltb 1 size); [|reflexivity]. rewrite IH. f_equal.
    specialize (Hnth (base + size / 2)%nat).
    destruct (nth_error l _), (nth_error l' _); cbn in Hnth; try discriminate; [|reflexivity].
    injection Hnth as ->. reflexivity. }
  rewrite Hlen. 
  assert (Hend : match nth_error l (bsearch_branchless_loop (length l') l f 0 (length l')) with
    | Some v => match f v with Eq => Found (bsearch_branchless_loop (length l') l f 0 (length l'))
                | Lt => NotFound (S (bsearch_branchless_loop (length l') l f 0 (length l')))
                | Gt => NotFound (bsearch_branchless_loop (length l') l f 0 (length l')) end
    | None => NotFound (bsearch_branchless_loop (length l') l f 0 (length l')) end
   = match nth_error l' (bsearch_branchless_loop (length l') l' f' 0 (length l')) with
    | Some v => match f' v with Eq => Found (bsearch_branchless_loop (length l') l' f' 0 (length l'))
                | Lt => NotFound (S (bsearch_branchless_loop (length l') l' f' 0 (length l')))
                | Gt => NotFound (bsearch_branchless_loop (length l') l' f' 0 (length l')) end
    | None => NotFound (bsearch_branchless_loop (length l') l' f' 0 (length l')) end).
  { rewrite Hloop. set (base := bsearch_branchless_loop _ _ _ _ _). specialize (Hnth base).
    destruct (nth_error l base), (nth_error l' base); cbn in Hnth; try discriminate; [|reflexivity].
    injection Hnth as ->. reflexivity. }
  destruct l, l'; try discriminate; [reflexivity|]. exact Hend.
Qed.

(** Two f64 axes that are [==] but not identical: low edge 0.0 and -0.0. *)
Example C52_nonvacuous : forall B : Build,
  let one := f64_lit 1 0 in
  let a := mkUniform 2 (B754_zero false) (f64_lit 2 0) one in
  let b := mkUniform 2 (B754_zero true) (f64_lit 2 0) one in
  uniform_eqb f64_ops a b = true /\ a <> b
  /\ uniform_index f64_ops a (B754_zero true) = uniform_index f64_ops b (B754_zero true)
  /\ search_extensional bsearch_early /\ search_extensional bsearch_branchless.
Proof.
  intros B one a b.
  assert (Heq : uniform_eqb f64_ops a b = true) by (vm_compute; reflexivity).
  split; [exact Heq|]. split; [intros [=]|].
  split; [|split; [exact bsearch_early_ext | exact bsearch_branchless_ext]].
  destruct (C52_float_axes 53 1024 _ _ B bsearch_early bsearch_early_ext) as [Hu _].
  destruct (Hu a b Heq) as [_ [Hi _]]. apply Hi.
Qed.
