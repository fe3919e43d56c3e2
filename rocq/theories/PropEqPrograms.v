(** * PropEqPrograms: replacing axes by equal ones changes nothing in any program (C74). *)
From stdpp Require Import gmap.
From Flocq Require Import Core.FLX IEEE754.BinarySingleNaN.
From Verif Require Import Base BaseFacts Num Float Axis Uniform StdAlgo VarAxis Category CategoryFacts
  Axes AxesSpec AxesFacts EqFacts PropEq Derived PropDerived Value VecHist HashHist HistSpec Program SimSpec SimFacts PropBuilds.
Open Scope N_scope.

(** ** Specification *)

(** [==] on axes is symmetric and transitive (not reflexive: an axis with a NaN
    edge is unequal to itself). *)
Definition symmetric_transitive {A : Type} (eqb : A -> A -> bool) : Prop :=
  (forall a b, eqb a b = true -> eqb b a = true) /\ (forall a b c, eqb a b = true -> eqb b c = true -> eqb a c = true).

(** Same outcome: both panic, or both return the same result and leave equal axes
    and identical bin values in all variables. *)
Definition same_run {R H : Type} (RH : H -> H -> Prop) (o1 o2 : outcome (R * store H)) : Prop :=
  match o1, o2 with
  | Val (r1, st1), Val (r2, st2) => r1 = r2 /\ same_store RH st1 st2
  | Panic, Panic => True
  | _, _ => False
  end.

(** ** Proofs *)
Lemma interchangeable_refines {A : Type} (AX : Axis A) (AE : AxisEq A) (ok : A -> Prop) RI :
  (forall a b, ok a -> ok b -> axis_eqb a b = true -> interchangeable AX RI a b /\ num_dim a = num_dim b) ->
  (forall a b, ok a -> ok b -> axis_eqb a b = true -> axis_eqb b a = true) ->
  (forall a b c, ok a -> ok b -> ok c -> axis_eqb a b = true -> axis_eqb b c = true -> axis_eqb a c = true) ->
  axis_refines AX AE AX AE (fun a b => ok a /\ ok b /\ axis_eqb a b = true) eq RI.
Proof.
  intros Hi Hs Ht. split.
  - intros a b x ? (Ha & Hb & E) <-. apply refines_eq. apply (Hi a b Ha Hb E).
  - intros a b (Ha & Hb & E). apply refines_eq. apply (Hi a b Ha Hb E).
  - intros a b i (Ha & Hb & E). destruct (Hi a b Ha Hb E) as [(_ & _ & Hbin) _]. specialize (Hbin i).
    destruct (bin a i) as [[v|]|], (bin b i) as [[w|]|]; try contradiction; try apply refines_panic; now apply refines_val.
  - intros a b (Ha & Hb & E). apply (Hi a b Ha Hb E).
  - intros a1 a2 b1 b2 (Ha1 & Ha2 & Ea) (Hb1 & Hb2 & Eb). apply eq_true_iff_eq. split; intros E.
    + apply (Ht a2 a1 b2 Ha2 Ha1 Hb2); [apply Hs; assumption|]. apply (Ht a1 b1 b2); assumption.
    + apply (Ht a1 a2 b1 Ha1 Ha2 Hb1); [assumption|]. apply (Ht a2 b2 b1); [assumption..|]. apply Hs; assumption.
Qed.

Lemma lawful_per {X} (C : Cmp X) : lawful C -> symmetric_transitive (c_eqb C).
Proof.
  intros L. split.
  - intros a b E. apply (lw_eq C L). apply (lw_eq_sym C L). apply (lw_eq C L). exact E.
  - intros a b c E1 E2. apply (lw_eq C L) in E1. apply (lw_eq C L) in E2. apply (lw_eq C L). rewrite (lw_same C L a b E1). exact E2.
Qed.

Lemma per_ext {X} (e f : X -> X -> bool) : (forall a b, e a b = f a b) -> symmetric_transitive e -> symmetric_transitive f.
Proof. intros H [Hs Ht]. split; [intros a b | intros a b c]; rewrite <- !H; [apply Hs | apply Ht]. Qed.

Section Numeric.
Context {B : Build} {T : Type} (ops : NumOps T).
Lemma numeric_per : lawful (num_cmp (@num_ord T ops) (fun _ => [])) ->
  symmetric_transitive (uniform_eqb ops) /\ symmetric_transitive (uniformnoflow_eqb ops) /\ symmetric_transitive (uniformcyclic_eqb ops)
  /\ symmetric_transitive (variable_eqb (H0 := num_ord)) /\ symmetric_transitive (variablenoflow_eqb (H0 := num_ord))
  /\ symmetric_transitive (variablecyclic_eqb ops).
Proof.
  intros L.
  destruct (C61_partial_ord_laws T T T T T T _ _ _ _ _ _ (fun t => mkCmp (fun _ _ => false) (fun _ _ => None) (fun _ => [])) [] L L L L L L ltac:(intros t []))
    as (_ & _ & H1 & H2 & H3 & H4 & H5 & H6 & _).
  destruct (C61_same_equality B T ops (fun _ => [])) as (E1 & E2 & E3 & E4 & E5 & E6 & _).
  split; [exact (per_ext _ _ E1 (lawful_per _ H1))|]. split; [exact (per_ext _ _ E2 (lawful_per _ H2))|].
  split; [exact (per_ext _ _ E3 (lawful_per _ H3))|]. split; [exact (per_ext _ _ E4 (lawful_per _ H4))|].
  split; [exact (per_ext _ _ E5 (lawful_per _ H5))|]. exact (per_ext _ _ E6 (lawful_per _ H6)).
Qed.
End Numeric.

(** [==] relates [a] and [b]. *)
Notation equal_axes AE := (fun a b => @axis_eqb _ AE a b = true).

Lemma eq_sound_refines {A} (AX : Axis A) (AE : AxisEq A) RI : eq_sound AX AE RI -> (forall a b, axis_eqb a b = true -> num_dim a = num_dim b) ->
  symmetric_transitive axis_eqb -> axis_refines AX AE AX AE (equal_axes AE) eq RI.
Proof.
  intros HE Hd [Hs Ht].
  assert (H : axis_refines AX AE AX AE (fun a b => True /\ True /\ axis_eqb a b = true) eq RI).
  { apply interchangeable_refines; [intros a b _ _ E; split; [exact (HE a b E) | exact (Hd a b E)] | intros a b _ _; apply Hs | intros a b c _ _ _; apply Ht]. }
  destruct H as [H1 H2 H3 H4 H5]. split; intros; [apply H1 | apply H2 | apply H3 | apply H4 | apply H5]; auto.
Qed.

(** ** The theorems *)

(** C74. Take a program and replace the axes it creates its histograms with by
    axes that compare equal to them (as judged by [RA]). Then it behaves the same:
    it panics in the same runs, gives the same answers, returns the same result and
    leaves the same bin values everywhere. *)
Theorem C74_programs {A V D W R : Type} {AX : Axis A} {AE : AxisEq A} {FV : Fill V} {FD : FillWith V D} {FW : FillWithWeighted V D W}
    {DV : Default V} RA RI (p1 p2 : program V D W R) :
  axis_refines AX AE AX AE RA eq RI ->
  same_program AX AX RA eq RI p1 p2 -> same_program AX AX RA eq RI p2 p1 ->
  same_run (same_dense RA) (dense_run p1 (fun _ => None)) (dense_run p2 (fun _ => None))
  /\ (forall r st1, sparse_run p1 (fun _ => None) (Val (r, st1)) ->
       exists st2, sparse_run p2 (fun _ => None) (Val (r, st2)) /\ same_store (same_sparse RA) st1 st2).
Proof.
  intros HA H12 H21.
  assert (HF : fills_refine FV FD FW FV FD FW) by (split; intros; apply refines_refl).
  destruct (C73_programs RA eq RI p1 p2 HA HF H12) as [D12 S12]. destruct (C73_programs RA eq RI p2 p1 HA HF H21) as [D21 _].
  split; [|exact S12]. unfold same_run. destruct (dense_run p1 _) as [[r1 st1]|] eqn:E1.
  - destruct (D12 r1 st1 eq_refl) as (st2 & -> & Hst). split; [reflexivity | exact Hst].
  - destruct (dense_run p2 _) as [[r2 st2]|] eqn:E2; [|exact I]. destruct (D21 r2 st2 eq_refl) as (st1 & E & _). congruence.
Qed.
Print Assumptions C74_programs.

(** The hypothesis of [C74_programs] for the axis types over integers ... *)
Theorem C74_integer_axes (B : Build) (t : int_type) (search : searcher) : search_extensional search ->
  let ops := int_ops t in let ord := @num_ord Z ops in
  axis_refines (uniform_axis ops) {| axis_eqb := uniform_eqb ops |} (uniform_axis ops) {| axis_eqb := uniform_eqb ops |} (fun a b => uniform_eqb ops a b = true) eq eq
  /\ axis_refines (uniformnoflow_axis ops) {| axis_eqb := uniformnoflow_eqb ops |} (uniformnoflow_axis ops) {| axis_eqb := uniformnoflow_eqb ops |} (fun a b => uniformnoflow_eqb ops a b = true) eq eq
  /\ axis_refines (uniformcyclic_axis ops) {| axis_eqb := uniformcyclic_eqb ops |} (uniformcyclic_axis ops) {| axis_eqb := uniformcyclic_eqb ops |} (fun a b => uniformcyclic_eqb ops a b = true) eq eq
  /\ axis_refines (@variable_axis B search Z ord) {| axis_eqb := @variable_eqb Z ord |} (@variable_axis B search Z ord) {| axis_eqb := @variable_eqb Z ord |} (fun a b => @variable_eqb Z ord a b = true) eq eq
  /\ axis_refines (@variablenoflow_axis B search Z ord) {| axis_eqb := @variablenoflow_eqb Z ord |} (@variablenoflow_axis B search Z ord) {| axis_eqb := @variablenoflow_eqb Z ord |} (fun a b => @variablenoflow_eqb Z ord a b = true) eq eq
  /\ axis_refines (variablecyclic_axis search ops) {| axis_eqb := variablecyclic_eqb ops |} (variablecyclic_axis search ops) {| axis_eqb := variablecyclic_eqb ops |} (fun a b => variablecyclic_eqb ops a b = true) eq eq.
Proof.
  intros HS ops ord.
  destruct (C52_integer_axes B t search HS) as (E1 & E2 & E3 & E4 & E5 & E6).
  destruct (numeric_per ops) as (P1 & P2 & P3 & P4 & P5 & P6); [apply (proj1 C61_numbers)|].
  split; [|split; [|split; [|split; [|split]]]]; apply eq_sound_refines; try assumption; reflexivity.
Qed.
Print Assumptions C74_integer_axes.

(** ... over floats, with bins that are the same up to the sign of a zero ... *)
Theorem C74_float_axes (prec emax : Z) (P : Prec_gt_0 prec) (E : Prec_lt_emax prec emax) (B : Build) (search : searcher) : search_extensional search ->
  let ops := float_ops prec emax P E in let ord := @num_ord _ ops in let same := @same_interval _ ord in
  axis_refines (uniform_axis ops) {| axis_eqb := uniform_eqb ops |} (uniform_axis ops) {| axis_eqb := uniform_eqb ops |} (fun a b => uniform_eqb ops a b = true) eq same
  /\ axis_refines (uniformnoflow_axis ops) {| axis_eqb := uniformnoflow_eqb ops |} (uniformnoflow_axis ops) {| axis_eqb := uniformnoflow_eqb ops |} (fun a b => uniformnoflow_eqb ops a b = true) eq same
  /\ axis_refines (uniformcyclic_axis ops) {| axis_eqb := uniformcyclic_eqb ops |} (uniformcyclic_axis ops) {| axis_eqb := uniformcyclic_eqb ops |} (fun a b => uniformcyclic_eqb ops a b = true) eq same
  /\ axis_refines (@variable_axis B search _ ord) {| axis_eqb := @variable_eqb _ ord |} (@variable_axis B search _ ord) {| axis_eqb := @variable_eqb _ ord |} (fun a b => @variable_eqb _ ord a b = true) eq same
  /\ axis_refines (@variablenoflow_axis B search _ ord) {| axis_eqb := @variablenoflow_eqb _ ord |} (@variablenoflow_axis B search _ ord) {| axis_eqb := @variablenoflow_eqb _ ord |} (fun a b => @variablenoflow_eqb _ ord a b = true) eq same
  /\ axis_refines (variablecyclic_axis search ops) {| axis_eqb := variablecyclic_eqb ops |} (variablecyclic_axis search ops) {| axis_eqb := variablecyclic_eqb ops |} (fun a b => variablecyclic_eqb ops a b = true) eq same.
Proof.
  intros HS ops ord same.
  destruct (C52_float_axes prec emax P E B search HS) as (E1 & E2 & E3 & E4 & E5 & E6).
  destruct (numeric_per ops) as (P1 & P2 & P3 & P4 & P5 & P6); [apply (proj2 C61_numbers)|].
  split; [|split; [|split; [|split; [|split]]]]; apply eq_sound_refines; try assumption; reflexivity.
Qed.
Print Assumptions C74_float_axes.

(** ... and for category axes returned by their constructors. *)
Theorem C74_category_axes (B : Build) {T : Type} (eqd : EqDecision T) :
  let ok (c : Category T) := exists l, c = category_new l in
  axis_refines category_axis {| axis_eqb := category_eqb |} category_axis {| axis_eqb := category_eqb |}
    (fun a b => ok a /\ ok b /\ category_eqb a b = true) eq eq
  /\ axis_refines categorynoflow_axis {| axis_eqb := categorynoflow_eqb |} categorynoflow_axis {| axis_eqb := categorynoflow_eqb |}
    (fun a b => ok (cnf_axis a) /\ ok (cnf_axis b) /\ categorynoflow_eqb a b = true) eq eq.
Proof.
  intros ok. split.
  - apply (interchangeable_refines category_axis {| axis_eqb := category_eqb |} ok eq).
    + intros a b [l1 ->] [l2 ->] E. split; [apply (C52_category_axes B T eqd l1 l2 E) | reflexivity].
    + intros a b [l1 ->] [l2 ->] E. apply cat_eqb_iff in E. apply cat_eqb_iff. congruence.
    + intros a b c [l1 ->] [l2 ->] [l3 ->] E1 E2. apply cat_eqb_iff in E1. apply cat_eqb_iff in E2. apply cat_eqb_iff. congruence.
  - apply (interchangeable_refines categorynoflow_axis {| axis_eqb := categorynoflow_eqb |} (fun c => ok (cnf_axis c)) eq).
    + intros [a] [b] [l1 H1] [l2 H2] E. cbn [cnf_axis] in H1, H2. subst a b. split; [apply (C52_category_axes B T eqd l1 l2 E) | reflexivity].
    + intros [a] [b] [l1 H1] [l2 H2] E. cbn [cnf_axis] in H1, H2. subst a b. apply cat_eqb_iff in E. apply cat_eqb_iff. congruence.
    + intros [a] [b] [c] [l1 H1] [l2 H2] [l3 H3] E1 E2. cbn [cnf_axis] in H1, H2, H3. subst a b c. apply cat_eqb_iff in E1. apply cat_eqb_iff in E2. apply cat_eqb_iff. congruence.
Qed.
Print Assumptions C74_category_axes.

(** Tuples: componentwise equal axes with the same shape -- which is what [==] on
    tuples checks ([C73_tuples] with twice the same build). *)
Theorem C74_tuples (B : Build) (ps : list axis_pair) :
  axis_refines (axes_axis (map ap_1 ps)) (axes_eq (map ap_1 ps)) (axes_axis (map ap_2 ps)) (axes_eq (map ap_2 ps))
    (axes_rel ps) (coords_rel ps) (intervals_rel ps).
Proof. apply (C73_tuples B B (or_introl eq_refl) ps). Qed.
Print Assumptions C74_tuples.

(** ** The hypotheses are met: f64 axes from 0.0 and from -0.0 *)
Section Example.
Notation ops := f64_ops.
#[local] Instance ex74_axis {B : Build} : Axis (Uniform f64) := uniform_axis ops.
#[local] Instance ex74_eq {B : Build} : AxisEq (Uniform f64) := {| axis_eqb := uniform_eqb ops |}.
#[local] Instance ex74_fill {B : Build} : Fill Z := num_fill (int_ops (signed 32)).
#[local] Instance ex74_fill_with {B : Build} : FillWith Z Z := num_fill_with (int_ops (signed 32)).
#[local] Instance ex74_weighted : FillWithWeighted Z Z Empty_set := {| fill_with_weighted_v := fun v _ (w : Empty_set) => match w with end |}.
#[local] Instance ex74_default : Default Z := {| default_v := 0%Z |}.
Definition ex74_pos : Uniform f64 := mkUniform 2 (B754_zero false) (f64_lit 2 0) (f64_lit 1 0).
Definition ex74_neg : Uniform f64 := mkUniform 2 (B754_zero true) (f64_lit 2 0) (f64_lit 1 0).

(** [x.fill_with(&-0.0, 5); y.fill(&0.0); x += &y; x.value(&0.0)] *)
Definition ex74_program {B : Build} (a b : Uniform f64) : program Z Z Empty_set (option Z) :=
  Do (New 0 a) (fun _ => Do (New 1 b) (fun _ =>
  Do (Call 0 (CallFillWith (B754_zero true : @Coordinate _ ex74_axis) 5%Z)) (fun _ =>
  Do (Call 1 (CallFill (B754_zero false : @Coordinate _ ex74_axis))) (fun _ =>
  Do (Assign (@n_add Z (int_ops (signed 32))) 0 1) (fun _ =>
  Do (Value 0 (B754_zero false : @Coordinate _ ex74_axis)) (fun q => Return match q with AnswerValue v => Some v | _ => None end)))))).

Example C74_nonvacuous (B : Build) :
  axis_refines ex74_axis ex74_eq ex74_axis ex74_eq (fun a b => uniform_eqb ops a b = true) eq (@same_interval _ (@num_ord _ ops))
  /\ uniform_eqb ops ex74_pos ex74_neg = true /\ uniform_eqb ops ex74_neg ex74_pos = true /\ ex74_pos <> ex74_neg
  /\ (forall a b c d, uniform_eqb ops a c = true -> uniform_eqb ops b d = true ->
        same_program ex74_axis ex74_axis (fun a b => uniform_eqb ops a b = true) eq (@same_interval _ (@num_ord _ ops)) (ex74_program a b) (ex74_program c d))
  /\ result73 (dense_run (ex74_program ex74_pos ex74_neg) (fun _ => None)) = Some (Some 6%Z).
Proof.
  split; [exact (proj1 (C74_float_axes 53 1024 _ _ B bsearch_early bsearch_early_ext))|].
  split; [vm_compute; reflexivity|]. split; [vm_compute; reflexivity|]. split; [intros [=]|].
  split; [|destruct B as [[] []]; vm_compute; reflexivity].
  intros a b c d Hac Hbd. unfold ex74_program.
  apply same_do; [constructor; exact Hac|]. intros _ _ _. apply same_do; [constructor; exact Hbd|]. intros _ _ _.
  apply same_do; [constructor; constructor; reflexivity|]. intros _ _ _. apply same_do; [constructor; constructor; reflexivity|]. intros _ _ _.
  apply same_do; [constructor; intros v w; apply refines_refl|]. intros _ _ _.
  apply same_do; [constructor; reflexivity|]. intros q1 q2 Hq. destruct Hq; apply same_return.
Qed.
End Example.
