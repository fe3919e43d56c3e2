(** * Property theorems: the derived comparisons and hashes (C61). *)
From stdpp Require Import gmap.
From Coq Require Import ZifyN ZifyNat ZifyBool.
From Coq Require Import Sorting.Sorted.
From Flocq Require Import Core.FLX IEEE754.BinarySingleNaN.
From Verif Require Import Base BaseFacts Num Float Axis Spec OrdLaws FloatOrd Uniform StdAlgo VarAxis Axes AxesSpec
  AxesFacts PropAxes PropUniformInt PropVariable Value VecHist HashHist HistSpec HistFacts HashFacts PropHist PropHistIter Derived.
Open Scope N_scope.

(** ** Specification *)

(** What the documentation of [PartialOrd] demands of every implementation:
    [a.partial_cmp(b) == Some(Equal)] exactly when [a == b]; [a < b] exactly when
    [b > a], and incomparable both ways round; [<] is transitive and equal values
    compare alike with everything. *)
Record lawful {X : Type} (C : Cmp X) : Prop := {
  lw_eq : forall a b, c_cmp C a b = Some Eq <-> c_eqb C a b = true;
  lw_dual : forall a b, c_cmp C b a = option_map CompOpp (c_cmp C a b);
  lw_trans : forall a b c, c_cmp C a b = Some Lt -> c_cmp C b c = Some Lt -> c_cmp C a c = Some Lt;
  lw_same : forall a b, c_cmp C a b = Some Eq -> forall c, c_cmp C a c = c_cmp C b c
}.
(** [Ord]: any two values are comparable. *)
Definition total {X : Type} (C : Cmp X) : Prop := forall a b, c_cmp C a b <> None.
(** [Hash]: [k1 == k2] implies [hash(k1) == hash(k2)], whatever the hasher. *)
Definition hash_agrees {X : Type} (C : Cmp X) : Prop := forall a b, c_eqb C a b = true -> c_hash C a = c_hash C b.

(** The comparisons of a number type, with any hash [h]. *)
Definition num_cmp {T : Type} (ord : PartialOrdOps T) (h : T -> list N) : Cmp T := mkCmp (@eq_ T ord) (@partial_cmp T ord) h.

(** The types the crate derives the comparisons for, built from the comparisons
    of the type parameters. *)
Definition derived_all (P : forall X : Type, Cmp X -> Prop) {T W C B V X : Type} (CT : Cmp T) (CW : Cmp W) (CC : Cmp C)
  (CB : Cmp B) (CV : Cmp V) (CX : Cmp X) (CA : forall t : axis_type, Cmp (at_type t)) (ts : list axis_type) : Prop :=
  P _ (cmp_interval CT) /\ P _ (cmp_single CT)
  /\ P _ (cmp_uniform CT) /\ P _ (cmp_uniformnoflow CT) /\ P _ (cmp_uniformcyclic CT)
  /\ P _ (cmp_variable CT) /\ P _ (cmp_variablenoflow CT) /\ P _ (cmp_variablecyclic CT)
  /\ P _ (cmp_sum CT) /\ P _ (cmp_weightedsum CT) /\ P _ (cmp_mean CT CC) /\ P _ (cmp_weightedmean CT CW CC)
  /\ P _ (cmp_item CB CV) /\ P _ (cmp_axes1 CX) /\ P _ (cmp_axes CA ts)
  /\ P _ (cmp_vechistogram CX CV) /\ P _ (cmp_vechistogram (cmp_axes CA ts) CV).

(** ** Proofs *)
Lemma lex_eq c d : lex c d = Some Eq <-> c = Some Eq /\ d = Some Eq.
Proof. destruct c as [[]|]; cbn; intuition congruence. Qed.
Lemma lex_lt c d : lex c d = Some Lt <-> c = Some Lt \/ (c = Some Eq /\ d = Some Lt).
Proof. destruct c as [[]|]; cbn; intuition congruence. Qed.
Lemma lex_dual c d : option_map CompOpp (lex c d) = lex (option_map CompOpp c) (option_map CompOpp d).
Proof. destruct c as [[]|]; reflexivity. Qed.
Lemma lex_assoc a b c : lex (lex a b) c = lex a (lex b c).
Proof. destruct a as [[]|]; reflexivity. Qed.

Section Lawful.
Context {X : Type} (C : Cmp X) (L : lawful C).
Lemma lw_same_r a b : c_cmp C a b = Some Eq -> forall c, c_cmp C c a = c_cmp C c b.
Proof. intros H c. rewrite (lw_dual C L a c), (lw_dual C L b c), (lw_same C L a b H). reflexivity. Qed.
Lemma lw_eq_sym a b : c_cmp C a b = Some Eq -> c_cmp C b a = Some Eq.
Proof. intros H. rewrite (lw_dual C L a b), H. reflexivity. Qed.
End Lawful.

(** Only the two comparison functions matter. *)
Lemma lawful_ext X (C D : Cmp X) : (forall a b, c_eqb D a b = c_eqb C a b) -> (forall a b, c_cmp D a b = c_cmp C a b) ->
  lawful C -> lawful D.
Proof.
  intros He Hc L. constructor.
  - intros a b. rewrite He, Hc. apply (lw_eq C L).
  - intros a b. rewrite !Hc. apply (lw_dual C L).
  - intros a b c. rewrite !Hc. apply (lw_trans C L).
  - intros a b H c. rewrite !Hc in *. now apply (lw_same C L).
Qed.

Lemma lawful_field {X Y} (f : Y -> X) (C : Cmp X) : lawful C -> lawful (cmp_field f C).
Proof.
  intros L. constructor; cbn; intros.
  - apply (lw_eq C L).
  - apply (lw_dual C L).
  - eapply (lw_trans C L); eauto.
  - now apply (lw_same C L).
Qed.

(** Comparing by one key, then by another. *)
Definition cmp_both {X : Type} (C D : Cmp X) : Cmp X :=
  mkCmp (fun a b => c_eqb C a b && c_eqb D a b) (fun a b => lex (c_cmp C a b) (c_cmp D a b)) (fun a => c_hash C a ++ c_hash D a).
Lemma lawful_both {X} (C D : Cmp X) : lawful C -> lawful D -> lawful (cmp_both C D).
Proof.
  intros LC LD. constructor; cbn.
  - intros a b. rewrite lex_eq, (lw_eq C LC), (lw_eq D LD), andb_true_iff. reflexivity.
  - intros a b. rewrite lex_dual, <- (lw_dual C LC), <- (lw_dual D LD). reflexivity.
  - intros a b c. rewrite !lex_lt. intros [H1|[H1 H1']] [H2|[H2 H2']].
    + left. eapply (lw_trans C LC); eauto.
    + left. rewrite <- (lw_same_r C LC b c H2). exact H1.
    + left. rewrite (lw_same C LC a b H1). exact H2.
    + right. split; [rewrite (lw_same C LC a b H1); exact H2 | eapply (lw_trans D LD); eauto].
  - intros a b H c. apply lex_eq in H as [H H']. rewrite (lw_same C LC a b H), (lw_same D LD a b H'). reflexivity.
Qed.
Lemma total_both {X} (C D : Cmp X) : total C -> total D -> total (cmp_both C D).
Proof. intros HC HD a b. cbn. specialize (HC a b). specialize (HD a b). destruct (c_cmp C a b) as [[]|]; cbn; congruence. Qed.
Lemma hash_both {X} (C D : Cmp X) : hash_agrees C -> hash_agrees D -> hash_agrees (cmp_both C D).
Proof. intros HC HD a b. cbn. intros H. apply andb_true_iff in H as [H1 H2]. rewrite (HC a b H1), (HD a b H2). reflexivity. Qed.
Lemma total_field {X Y} (f : Y -> X) (C : Cmp X) : total C -> total (cmp_field f C).
Proof. intros H a b. apply H. Qed.
Lemma hash_field {X Y} (f : Y -> X) (C : Cmp X) : hash_agrees C -> hash_agrees (cmp_field f C).
Proof. intros H a b. apply H. Qed.
Lemma total_ext X (C D : Cmp X) : (forall a b, c_cmp D a b = c_cmp C a b) -> total C -> total D.
Proof. intros H HC a b. rewrite H. apply HC. Qed.
Lemma hash_ext X (C D : Cmp X) : (forall a b, c_eqb D a b = c_eqb C a b) -> (forall a, c_hash D a = c_hash C a) -> hash_agrees C -> hash_agrees D.
Proof. intros H H' HC a b. rewrite H, !H'. apply HC. Qed.

Lemma lawful_usize : lawful cmp_usize.
Proof.
  constructor; cbn.
  - intros a b. rewrite N.eqb_eq. rewrite <- N.compare_eq_iff. intuition congruence.
  - intros a b. now rewrite N.compare_antisym.
  - intros a b c. intros H1 H2. f_equal. injection H1 as H1. injection H2 as H2. rewrite N.compare_lt_iff in *. lia.
  - intros a b H c. injection H as H. apply N.compare_eq_iff in H. now subst.
Qed.
Lemma total_usize : total cmp_usize. Proof. intros a b. discriminate. Qed.
Lemma hash_usize : hash_agrees cmp_usize. Proof. intros a b H. cbn in H. apply N.eqb_eq in H. now subst. Qed.

Section VecLaws.
Context {X : Type} (C : Cmp X).
Lemma lawful_vec : lawful C -> lawful (cmp_vec C).
Proof.
  intros L. constructor; cbn.
  - induction a as [|x l IH]; destruct b as [|y m]; cbn; try intuition congruence.
    rewrite lex_eq, IH, (lw_eq C L), andb_true_iff. reflexivity.
  - induction a as [|x l IH]; destruct b as [|y m]; cbn; try reflexivity.
    rewrite lex_dual, <- IH, <- (lw_dual C L). reflexivity.
  - induction a as [|x l IH]; destruct b as [|y m]; destruct c as [|z n]; cbn; try congruence.
    rewrite !lex_lt. intros [H1|[H1 H1']] [H2|[H2 H2']].
    + left. eapply (lw_trans C L); eauto.
    + left. rewrite <- (lw_same_r C L y z H2). exact H1.
    + left. rewrite (lw_same C L x y H1). exact H2.
    + right. split; [rewrite (lw_same C L x y H1); exact H2 | eapply IH; eauto].
  - induction a as [|x l IH]; destruct b as [|y m]; cbn; try congruence.
    intros H. apply lex_eq in H as [H H']. destruct c as [|z n]; [reflexivity|].
    rewrite (lw_same C L x y H), (IH m H'). reflexivity.
Qed.
Lemma total_vec : total C -> total (cmp_vec C).
Proof.
  intros H. intros a. cbn. induction a as [|x l IH]; destruct b as [|y m]; cbn; try discriminate.
  specialize (H x y). specialize (IH m). destruct (c_cmp C x y) as [[]|]; cbn; congruence.
Qed.
Lemma hash_vec : hash_agrees C -> hash_agrees (cmp_vec C).
Proof.
  intros H. intros a b Hab. cbn in *.
  enough (length a = length b /\ flat_map (c_hash C) a = flat_map (c_hash C) b) as [-> ->] by reflexivity.
  revert b Hab. induction a as [|x l IH]; intros [|y m]; cbn; try discriminate; [auto|].
  intros Hab. apply andb_true_iff in Hab as [H1 H2]. destruct (IH m H2) as [-> ->]. rewrite (H x y H1). auto.
Qed.
End VecLaws.

Section TypeLaws.
Context {T : Type} (C : Cmp T).
Lemma lawful_interval : lawful C -> lawful (cmp_interval C).
Proof.
  intros L. constructor; cbn.
  - intros [e|s|s e] [e'|s'|s' e']; cbn; try (split; discriminate); try apply (lw_eq C L).
    rewrite lex_eq, !(lw_eq C L), andb_true_iff. reflexivity.
  - intros [e|s|s e] [e'|s'|s' e']; cbn; try reflexivity; try apply (lw_dual C L).
    rewrite lex_dual, <- !(lw_dual C L). reflexivity.
  - intros [e|s|s e] [e'|s'|s' e'] [e''|s''|s'' e'']; cbn; try congruence; try apply (lw_trans C L).
    exact (lw_trans _ (lawful_both (cmp_field fst C) (cmp_field snd C) (lawful_field _ C L) (lawful_field _ C L)) (s, e) (s', e') (s'', e'')).
  - intros [e|s|s e] [e'|s'|s' e'] H; cbn in H; try discriminate; intros [e''|s''|s'' e'']; cbn; try reflexivity;
      try (apply (lw_same C L); exact H).
    apply lex_eq in H as [H1 H2]. rewrite (lw_same C L _ _ H1), (lw_same C L _ _ H2). reflexivity.
Qed.
Lemma total_interval : total C -> total (cmp_interval C).
Proof.
  intros H [e|s|s e] [e'|s'|s' e']; cbn; try discriminate; try apply H.
  generalize (H s s') (H e e'). destruct (c_cmp C s s') as [[]|]; cbn; congruence.
Qed.
Lemma hash_interval : hash_agrees C -> hash_agrees (cmp_interval C).
Proof.
  intros H [e|s|s e] [e'|s'|s' e']; cbn; try discriminate; intros He; try (rewrite (H _ _ He); reflexivity).
  apply andb_true_iff in He as [H1 H2]. rewrite (H _ _ H1), (H _ _ H2). reflexivity.
Qed.
Lemma lawful_single : lawful C -> lawful (cmp_single C).
Proof.
  intros L. constructor; cbn.
  - intros [|x] [|y]; cbn; try (split; discriminate); try (split; reflexivity). apply (lw_eq C L).
  - intros [|x] [|y]; cbn; try reflexivity. apply (lw_dual C L).
  - intros [|x] [|y] [|z]; cbn; try congruence. apply (lw_trans C L).
  - intros [|x] [|y] H; try discriminate; intros [|z]; cbn; try reflexivity. now apply (lw_same C L).
Qed.
Lemma total_single : total C -> total (cmp_single C).
Proof. intros H [|x] [|y]; cbn; try discriminate. apply H. Qed.
Lemma hash_single : hash_agrees C -> hash_agrees (cmp_single C).
Proof. intros H [|x] [|y]; cbn; try discriminate; try reflexivity. intros He. now rewrite (H x y He). Qed.
End TypeLaws.

(** The derived implementations compare structs field by field: closure under field projection and lexicographic pairing. *)
Section Closure.
Context (P : forall X : Type, Cmp X -> Prop).
Context (Pusize : P _ cmp_usize).
Context (Pfield : forall X Y (f : Y -> X) C, P X C -> P Y (cmp_field f C)).
Context (Pboth : forall X (C D : Cmp X), P X C -> P X D -> P X (cmp_both C D)).
Context (Pext : forall X (C D : Cmp X), (forall a b, c_eqb D a b = c_eqb C a b) -> (forall a b, c_cmp D a b = c_cmp C a b) ->
  (forall a, c_hash D a = c_hash C a) -> P X C -> P X D).
Context (Pvec : forall X (C : Cmp X), P X C -> P _ (cmp_vec C)).
Context (Pinterval : forall X (C : Cmp X), P X C -> P _ (cmp_interval C)).
Context (Psingle : forall X (C : Cmp X), P X C -> P _ (cmp_single C)).
Context (Punit : P unit (mkCmp (fun _ _ => true) (fun _ _ => Some Eq) (fun _ => []))).

Ltac ext K := refine (Pext _ K _ _ _ _ _);
  [intros; cbn; rewrite ?andb_assoc; reflexivity|intros; cbn; reflexivity|intros; cbn; reflexivity|].

Lemma closure_uniform T (C : Cmp T) : P _ C -> P _ (cmp_uniform C).
Proof.
  intros H. ext (cmp_both (cmp_field u_num cmp_usize) (cmp_both (cmp_field u_low C) (cmp_both (cmp_field u_high C) (cmp_field u_step C)))).
  auto 10.
Qed.
Lemma closure_tuple (CA : forall t : axis_type, Cmp (at_type t)) ts : (forall t, In t ts -> P _ (CA t)) ->
  P (axes_tuple ts) (mkCmp (tuple_cmp_eqb CA ts) (tuple_cmp CA ts) (tuple_hash CA ts)).
Proof.
  induction ts as [|t ts IH]; intros H; [exact Punit|].
  refine (Pext _ (cmp_both (cmp_field fst (CA t)) (cmp_field snd (mkCmp (tuple_cmp_eqb CA ts) (tuple_cmp CA ts) (tuple_hash CA ts)))) _ _ _ _ _);
    try (intros; reflexivity).
  apply Pboth; apply Pfield; [apply H; left; reflexivity|apply IH; intros t' Ht'; apply H; right; exact Ht'].
Qed.
Lemma closure_axes (CA : forall t : axis_type, Cmp (at_type t)) ts : (forall t, In t ts -> P _ (CA t)) -> P _ (cmp_axes CA ts).
Proof.
  intros H.
  refine (Pext _ (cmp_both (cmp_field ax_axes (mkCmp (tuple_cmp_eqb CA ts) (tuple_cmp CA ts) (tuple_hash CA ts)))
                           (cmp_field ax_shape (cmp_vec cmp_usize))) _ _ _ _ _); try (intros; reflexivity).
  apply Pboth; apply Pfield; [apply closure_tuple; exact H|auto].
Qed.
Lemma closure_vechistogram A V (CA : Cmp A) (CV : Cmp V) : P _ CA -> P _ CV -> P _ (cmp_vechistogram CA CV).
Proof. intros H1 H2. ext (cmp_both (cmp_field vh_axes CA) (cmp_field vh_values (cmp_vec CV))). auto 10. Qed.

Lemma closure_all {T W C B V X : Type} (CT : Cmp T) (CW : Cmp W) (CC : Cmp C) (CB : Cmp B) (CV : Cmp V) (CX : Cmp X)
  (CA : forall t : axis_type, Cmp (at_type t)) (ts : list axis_type) :
  P _ CT -> P _ CW -> P _ CC -> P _ CB -> P _ CV -> P _ CX -> (forall t, In t ts -> P _ (CA t)) ->
  derived_all P CT CW CC CB CV CX CA ts.
Proof.
  intros HT HW HC HB HV HX HA. pose proof (closure_uniform T CT HT) as HU.
  pose proof (closure_axes CA ts HA) as HAX. pose proof (Pvec _ CT HT) as Hvec.
  unfold derived_all.
  split; [auto|]. split; [auto|]. split; [auto|]. split; [unfold cmp_uniformnoflow; auto|].
  split; [unfold cmp_uniformcyclic, cmp_uniformnoflow; auto|].
  split; [unfold cmp_variable; auto|]. split; [unfold cmp_variablenoflow, cmp_variable; auto|].
  split; [unfold cmp_variablecyclic, cmp_variablenoflow, cmp_variable; auto|].
  split; [unfold cmp_sum; auto|].
  split; [ext (cmp_both (cmp_field ws_sumw CT) (cmp_field ws_sumw2 CT)); auto 10|].
  split; [ext (cmp_both (cmp_field (@m_sumw T C) CT) (cmp_both (cmp_field m_sumw2 CT) (cmp_field m_count CC))); auto 10|].
  split; [ext (cmp_both (cmp_field (@wm_sumwt T W C) CT) (cmp_both (cmp_field wm_sumwt2 CT)
            (cmp_both (cmp_field wm_sumw CW) (cmp_both (cmp_field wm_sumw2 CW) (cmp_field wm_count CC))))); auto 15|].
  split; [ext (cmp_both (cmp_field it_index cmp_usize) (cmp_both (cmp_field it_bin CB) (cmp_field it_value CV))); auto 10|].
  split; [ext (cmp_both (cmp_field ax1_axis CX) (cmp_field ax1_shape (cmp_vec cmp_usize))); auto 10|].
  split; [exact HAX|]. split; apply closure_vechistogram; auto.
Qed.
End Closure.

(** ** Theorems *)

(** The number types the crate is used with. *)
Theorem C61_numbers :
  (forall (B : Build) t h, lawful (num_cmp (@num_ord _ (int_ops t)) h) /\ total (num_cmp (@num_ord _ (int_ops t)) h)
      /\ hash_agrees (num_cmp (@num_ord _ (int_ops t)) h))
  /\ (forall (B : Build) prec emax (P : Prec_gt_0 prec) (E : Prec_lt_emax prec emax) h,
        lawful (num_cmp (@num_ord _ (float_ops prec emax P E)) h)).
Proof.
  assert (HL : forall T (ord : PartialOrdOps T) is_num h, ord_laws ord is_num -> lawful (num_cmp ord h)).
  { intros T ord is_num h L.
    assert (Hlt : forall x y, partial_cmp x y = Some Lt <-> lt_ x y = true).
    { intros x y. unfold lt_. destruct (partial_cmp x y) as [[]|]; split; congruence. }
    assert (Hle : forall x y, partial_cmp x y = Some Eq -> le_ x y = true /\ le_ y x = true).
    { intros x y H. split; unfold le_; [rewrite H; reflexivity|]. rewrite (law_anti _ _ L x y), H. reflexivity. }
    constructor; cbn.
    - intros a b. unfold eq_. destruct (partial_cmp a b) as [[]|]; split; congruence.
    - intros a b. apply (law_anti _ _ L).
    - intros a b c. rewrite !Hlt. intros H1 H2. eapply (lt_le_trans _ _ L); [exact H1|]. now apply (lt_le ord).
    - intros a b H c. destruct (Hle a b H) as [Hab Hba].
      destruct (OrdLaws.cmp_num _ _ L a b _ H) as [Na Nb].
      destruct (is_num c) eqn:Nc; [|rewrite (law_nan_r _ _ L a c Nc), (law_nan_r _ _ L b c Nc); reflexivity].
      destruct (law_total _ _ L a c Na Nc) as [x Hx]. destruct (law_total _ _ L b c Nb Nc) as [y Hy].
      assert (Hxy : forall u v o, le_ u v = true -> le_ v u = true -> partial_cmp u c = Some o -> 
                    (le_ v c = true <-> o <> Gt) /\ (le_ c v = true <-> o <> Lt)).
      { intros u v o Huv Hvu Ho.
        assert (E1 : le_ u c = true <-> o <> Gt) by (unfold le_; rewrite Ho; destruct o; split; congruence).
        assert (E2 : le_ c u = true <-> o <> Lt) by (unfold le_; rewrite (law_anti _ _ L u c), Ho; destruct o; cbn; split; congruence).
        split; [rewrite <- E1|rewrite <- E2]; split; intros H'; eapply (law_trans _ _ L); eauto. }
      destruct (Hxy a b x Hab Hba Hx) as [E1 E2]. destruct (Hxy b b y (OrdLaws.le_refl _ _ L b Nb) (OrdLaws.le_refl _ _ L b Nb) Hy) as [E3 E4].
      rewrite Hx, Hy. f_equal.
      destruct x, y; try reflexivity; exfalso; intuition congruence. }
  split.
  - intros B t h. split; [eapply HL; apply int_ord_laws|split].
    + intros a b. cbn. discriminate.
    + intros a b. cbn. unfold eq_. cbn. destruct (Z.compare_spec a b); try discriminate. intros _. now subst.
  - intros. eapply HL. apply float_ord_laws.
Qed.
Print Assumptions C61_numbers.

(** Every derived comparison obeys the documented laws of [PartialOrd] (and
    [==] and [partial_cmp] never contradict each other) as soon as those of the
    type parameters do. *)
Theorem C61_partial_ord_laws : forall T W C B V X (CT : Cmp T) (CW : Cmp W) (CC : Cmp C) (CB : Cmp B) (CV : Cmp V) (CX : Cmp X)
  (CA : forall t : axis_type, Cmp (at_type t)) (ts : list axis_type),
  lawful CT -> lawful CW -> lawful CC -> lawful CB -> lawful CV -> lawful CX -> (forall t, In t ts -> lawful (CA t)) ->
  derived_all (@lawful) CT CW CC CB CV CX CA ts.
Proof.
  intros. apply closure_all; auto.
  - exact lawful_usize.
  - intros; now apply lawful_field.
  - intros; now apply lawful_both.
  - intros X0 C0 D He Hc _. now apply lawful_ext.
  - intros; now apply lawful_vec.
  - intros; now apply lawful_interval.
  - intros; now apply lawful_single.
  - constructor; cbn; intuition congruence.
Qed.
Print Assumptions C61_partial_ord_laws.

(** ... any two values are comparable if that is so for the type parameters ... *)
Theorem C61_ord_total : forall T W C B V X (CT : Cmp T) (CW : Cmp W) (CC : Cmp C) (CB : Cmp B) (CV : Cmp V) (CX : Cmp X)
  (CA : forall t : axis_type, Cmp (at_type t)) (ts : list axis_type),
  total CT -> total CW -> total CC -> total CB -> total CV -> total CX -> (forall t, In t ts -> total (CA t)) ->
  derived_all (@total) CT CW CC CB CV CX CA ts.
Proof.
  intros. apply closure_all; auto.
  - exact total_usize.
  - intros; now apply total_field.
  - intros; now apply total_both.
  - intros X0 C0 D _ Hc _. now apply total_ext.
  - intros; now apply total_vec.
  - intros; now apply total_interval.
  - intros; now apply total_single.
  - intros a b. discriminate.
Qed.
Print Assumptions C61_ord_total.

(** ... and equal values feed the same bytes to any hasher. *)
Theorem C61_hash_agrees : forall T W C B V X (CT : Cmp T) (CW : Cmp W) (CC : Cmp C) (CB : Cmp B) (CV : Cmp V) (CX : Cmp X)
  (CA : forall t : axis_type, Cmp (at_type t)) (ts : list axis_type),
  hash_agrees CT -> hash_agrees CW -> hash_agrees CC -> hash_agrees CB -> hash_agrees CV -> hash_agrees CX ->
  (forall t, In t ts -> hash_agrees (CA t)) ->
  derived_all (@hash_agrees) CT CW CC CB CV CX CA ts.
Proof.
  intros. apply closure_all; auto.
  - exact hash_usize.
  - intros; now apply hash_field.
  - intros; now apply hash_both.
  - intros X0 C0 D He _ Hh. now apply hash_ext.
  - intros; now apply hash_vec.
  - intros; now apply hash_interval.
  - intros; now apply hash_single.
  - intros a b _. reflexivity.
Qed.
Print Assumptions C61_hash_agrees.

(** The equality consistent with these orders is the one histogram arithmetic
    checks. *)
Theorem C61_same_equality : forall (B : Build) T (ops : NumOps T) h,
  let C := num_cmp (@num_ord _ ops) h in
  (forall a b, c_eqb (cmp_uniform C) a b = uniform_eqb ops a b)
  /\ (forall a b, c_eqb (cmp_uniformnoflow C) a b = uniformnoflow_eqb ops a b)
  /\ (forall a b, c_eqb (cmp_uniformcyclic C) a b = uniformcyclic_eqb ops a b)
  /\ (forall a b, c_eqb (cmp_variable C) a b = variable_eqb (H0 := num_ord) a b)
  /\ (forall a b, c_eqb (cmp_variablenoflow C) a b = variablenoflow_eqb (H0 := num_ord) a b)
  /\ (forall a b, c_eqb (cmp_variablecyclic C) a b = variablecyclic_eqb ops a b)
  /\ (forall (CA : forall t : axis_type, Cmp (at_type t)) ts, (forall t a b, In t ts -> c_eqb (CA t) a b = @axis_eqb _ (at_eq t) a b) ->
      forall a b : AxesTuple ts, c_eqb (cmp_axes CA ts) a b = axes_eqb a b)
  /\ (forall X (AE : AxisEq X) (CX : Cmp X), (forall a b, c_eqb CX a b = axis_eqb a b) ->
      forall a b : AxesTuple1 X, c_eqb (cmp_axes1 CX) a b = axes1_eqb a b).
Proof.
  intros B T ops h C.
  assert (Hsh : forall l m, vec_list_eqb cmp_usize l m = shape_eqb l m).
  { induction l as [|x l IH]; intros [|y m]; reflexivity. }
  assert (Hv : forall l m, vec_list_eqb C l m = list_eqb (H0 := num_ord) l m).
  { induction l as [|x l IH]; intros [|y m]; reflexivity. }
  split; [intros; reflexivity|]. split; [intros; reflexivity|]. split; [intros; reflexivity|].
  split; [intros; apply Hv|]. split; [intros; apply Hv|]. split; [intros; apply Hv|]. split.
  - intros CA ts HA a b. cbn. unfold axes_eqb. rewrite Hsh. f_equal.
    destruct a as [a sa], b as [b sb]. cbn. clear sa sb. induction ts as [|t ts IH]; [reflexivity|]. cbn.
    rewrite (HA t) by (left; reflexivity). rewrite IH by (intros; apply HA; right; assumption). reflexivity.
  - intros X AE CX HX a b. cbn. unfold axes1_eqb. now rewrite Hsh, HX.
Qed.
Print Assumptions C61_same_equality.

(** [sort()]ing the items of a sparse histogram puts them in increasing bin
    number, whatever the bins and the values are and whatever order the hash map
    iterated in; so two programs that iterate in different orders sort to the same
    list. *)
Theorem C61_sorted_items : forall A V (AX : Axis A) (CB : Cmp Interval) (CV : Cmp V) (h : HashHistogram A V) n order order',
  has_bins AX (hh_axes h) n ->
  (forall i v, hash_value_at_index h i = Some v -> i < n) ->
  an_order (hh_values h) order -> an_order (hh_values h) order' ->
  exists items items', hash_iter h order = Val items /\ hash_iter h order' = Val items'
  /\ forall s s', Permutation s items -> Permutation s' items' ->
     Sorted (fun x y => c_cmp (cmp_item CB CV) x y <> Some Gt) s ->
     Sorted (fun x y => c_cmp (cmp_item CB CV) x y <> Some Gt) s' ->
     StronglySorted (fun x y => it_index x < it_index y) s /\ s = s'.
Proof.
  intros A V AX CB CV h n order order' Hb Hk Ho Ho'.
  destruct (C31_hash_iter A V AX h n order Hb Hk Ho) as [items [E [ND [Hin [Hall _]]]]].
  destruct (C31_hash_iter A V AX h n order' Hb Hk Ho') as [items' [E' [ND' [Hin' [Hall' _]]]]].
  exists items, items'. split; [exact E|]. split; [exact E'|].
  assert (Hsort : forall l : list (Item Interval V), NoDup (map it_index l) ->
            Sorted (fun x y => c_cmp (cmp_item CB CV) x y <> Some Gt) l ->
            StronglySorted (fun x y => it_index x < it_index y) l).
  { intros l Hnd Hs. apply Sorted_StronglySorted; [intros x y z; lia|].
    induction l as [|x l IH]; [constructor|]. apply Sorted_inv in Hs as [Hs Hh]. cbn in Hnd. apply NoDup_cons in Hnd as [Hx Hnd].
    constructor; [apply IH; assumption|]. destruct l as [|y l]; constructor. inversion_clear Hh as [|? ? Hc].
    cbn in Hc. destruct (N.compare_spec (it_index x) (it_index y)) as [Heq|Hlt|Hgt]; cbn in Hc; [|exact Hlt|congruence].
    exfalso. apply Hx. cbn. rewrite Heq. left. }
  assert (Heq : forall l l' : list (Item Interval V), StronglySorted (fun x y => it_index x < it_index y) l ->
     StronglySorted (fun x y => it_index x < it_index y) l' -> (forall x, In x l <-> In x l') -> l = l').
  { induction l as [|x l IH]; intros [|y l'] Hs Hs' Hx.
    - reflexivity.
    - exfalso. apply (proj2 (Hx y)). now left.
    - exfalso. apply (proj1 (Hx x)). now left.
    - apply StronglySorted_inv in Hs as [Hs Hf]. apply StronglySorted_inv in Hs' as [Hs' Hf'].
      rewrite List.Forall_forall in Hf, Hf'.
      assert (x = y) as <-.
      { destruct (proj1 (Hx x)) as [->|H1]; [now left|reflexivity|].
        destruct (proj2 (Hx y)) as [->|H2]; [now left|reflexivity|].
        specialize (Hf _ H2). specialize (Hf' _ H1). lia. }
      f_equal. apply IH; [assumption..|]. intros z. split; intros Hz.
      + destruct (proj1 (Hx z)) as [->|H]; [now right| |exact H]. specialize (Hf _ Hz). lia.
      + destruct (proj2 (Hx z)) as [->|H]; [now right| |exact H]. specialize (Hf' _ Hz). lia. }
  intros s s' Hp Hp' Hs Hs'.
  assert (S1 : StronglySorted (fun x y => it_index x < it_index y) s).
  { apply Hsort; [|exact Hs]. rewrite (Permutation_map it_index Hp). exact ND. }
  assert (S2 : StronglySorted (fun x y => it_index x < it_index y) s').
  { apply Hsort; [|exact Hs']. rewrite (Permutation_map it_index Hp'). exact ND'. }
  split; [exact S1|]. apply Heq; [exact S1|exact S2|].
  assert (Hsub : forall it, In it items <-> In it items').
  { assert (G : forall l l' : list (Item Interval V),
       (forall it, In it l -> bin (hh_axes h) (it_index it) = Val (Some (it_bin it)) /\ hash_value_at_index h (it_index it) = Some (it_value it)) ->
       (forall it, In it l' -> bin (hh_axes h) (it_index it) = Val (Some (it_bin it)) /\ hash_value_at_index h (it_index it) = Some (it_value it)) ->
       (forall i v, hash_value_at_index h i = Some v -> exists b, In (mkItem i b v) l') -> forall it, In it l -> In it l').
    { intros l l' H1 H2 H3 [i b v] Hi. destruct (H1 _ Hi) as [Hbin Hv]. cbn in Hbin, Hv. destruct (H3 i v Hv) as [b' Hb'].
      destruct (H2 _ Hb') as [Hbin' _]. cbn in Hbin'. rewrite Hbin in Hbin'. injection Hbin' as <-. exact Hb'. }
    intros it. split; apply G; assumption. }
  intros x. split; intros Hx.
  - apply (Permutation_in (l := items') (l' := s')); [symmetry; exact Hp'|]. apply Hsub. apply (Permutation_in _ Hp). exact Hx.
  - apply (Permutation_in (l := items) (l' := s)); [symmetry; exact Hp|]. apply Hsub. apply (Permutation_in _ Hp'). exact Hx.
Qed.
Print Assumptions C61_sorted_items.

(** Bins of one axis compare in the order of the axis, underflow first, as long as
    the overflow bin is left out: integer uniform axes ... *)
Theorem C61_uniform_bins_in_order : forall (B : Build) (t : int_type) num low step h,
  valid_int_params t num low step ->
  fits t (Z.of_N num * (Z.of_N num * step)) ->
  exists a, uniform_with_step_size (int_ops t) num low step = Val (Ok a)
  /\ forall i j, i < j -> j <= num -> exists b b',
     uniform_bin (int_ops t) a i = Val (Some b) /\ uniform_bin (int_ops t) a j = Val (Some b')
     /\ c_cmp (cmp_interval (num_cmp (@num_ord _ (int_ops t)) h)) b b' = Some Lt.
Proof.
  intros B t num low step h Hv Hf. pose proof (vp_step _ _ _ _ Hv) as Hst.
  destruct (C02_uniform_int_bins B t num low step Hv Hf) as [a [Ha [_ [H0 [Hfin _]]]]].
  exists a. split; [exact Ha|]. intros i j Hij Hj.
  destruct (N.eq_dec i 0) as [->|Hi].
  - exists (Underflow low). eexists. split; [exact H0|]. split; [apply Hfin; lia|]. reflexivity.
  - eexists. eexists. split; [apply Hfin; lia|]. split; [apply Hfin; lia|]. cbn.
    destruct (Z.compare_spec (low + (Z.of_N i - 1) * step) (low + (Z.of_N j - 1) * step)) as [E|E|E]; [exfalso|reflexivity|exfalso]; nia.
Qed.
Print Assumptions C61_uniform_bins_in_order.

(** ... and axes with strictly increasing edges, of any number type. *)
Theorem C61_variable_bins_in_order : forall (B : Build) T (ord : PartialOrdOps T) is_num h, ord_laws ord is_num ->
  forall edges : list T,
  StronglySorted (fun x y => lt_ x y = true) edges ->
  2 <= N.of_nat (length edges) -> N.of_nat (length edges) + 1 < usize_mod ->
  forall i j, i < j -> j < N.of_nat (length edges) -> exists b b',
     variable_bin (mkVariable edges) i = Val (Some b) /\ variable_bin (mkVariable edges) j = Val (Some b')
     /\ c_cmp (cmp_interval (num_cmp ord h)) b b' = Some Lt.
Proof.
  intros B T ord is_num h L edges Hs H2 Hu i j Hij Hj.
  destruct (C13_variable_bins B T edges H2 Hu) as [_ [[e [_ H0]] [Hfin _]]].
  assert (Hlt : forall (l : list T) m n x y, StronglySorted (fun x y => lt_ x y = true) l ->
     nth_error l m = Some x -> nth_error l n = Some y -> (m < n)%nat -> lt_ x y = true).
  { induction l as [|z l IH]; intros m n x y Hl Hm Hn Hmn; [destruct m; discriminate|].
    apply StronglySorted_inv in Hl as [Hl Hf]. destruct n as [|n]; [lia|]. cbn in Hn. destruct m as [|m].
    - cbn in Hm. injection Hm as ->. rewrite List.Forall_forall in Hf. apply Hf. eapply nth_error_In; eauto.
    - cbn in Hm. eapply IH; eauto. lia. }
  destruct (Hfin j) as [s' [e' [Hs' [He' Hb']]]]; [lia|].
  destruct (N.eq_dec i 0) as [->|Hi].
  - exists (Underflow e), (Bin s' e'). split; [exact H0|]. split; [exact Hb'|]. reflexivity.
  - destruct (Hfin i) as [s1 [e1 [Hs1 [He1 Hb1]]]]; [lia|].
    exists (Bin s1 e1), (Bin s' e'). split; [exact Hb1|]. split; [exact Hb'|]. cbn.
    assert (lt_ s1 s' = true) as Hl by (eapply (Hlt edges (N.to_nat i - 1)%nat (N.to_nat j - 1)%nat); eauto; lia).
    unfold lt_ in Hl. destruct (partial_cmp s1 s') as [[]|]; cbn; congruence.
Qed.
Print Assumptions C61_variable_bins_in_order.

(** The overflow bin, the last bin of the axis, compares LESS than every finite
    bin (the enum declares Underflow, Overflow, Bin): sorting a list of bins does not
    put it in the order of the axis. *)
Theorem C61_overflow_sorts_before_bins_refuted : forall B : Build,
  exists a : Uniform Z, uniform_with_step_size (int_ops (signed 32)) 3 0%Z 1%Z = Val (Ok a)
  /\ exists last over, uniform_bin (int_ops (signed 32)) a 3 = Val (Some last)
  /\ uniform_bin (int_ops (signed 32)) a 4 = Val (Some over)
  /\ forall h, c_cmp (cmp_interval (num_cmp (@num_ord _ (int_ops (signed 32))) h)) over last = Some Lt.
Proof.
  intros B. eexists. split; [destruct B as [[] []]; vm_compute; reflexivity|].
  exists (Bin 2 3)%Z, (Overflow 3)%Z.
  split; [destruct B as [[] []]; vm_compute; reflexivity|]. split; [destruct B as [[] []]; vm_compute; reflexivity|]. reflexivity.
Qed.
Print Assumptions C61_overflow_sorts_before_bins_refuted.

(** The hypotheses are met by i32 and f64 parameters; a NaN value is unequal to itself and incomparable. *)
Example C61_nonvacuous : forall B : Build,
  let ci := num_cmp (@num_ord _ (int_ops (signed 32))) (fun x => [Z.to_N x]) in
  let cf := num_cmp (@num_ord _ f64_ops) (fun _ => []) in
  lawful ci /\ total ci /\ hash_agrees ci /\ lawful cf
  /\ c_cmp (cmp_item (cmp_interval ci) (cmp_sum cf)) (mkItem 1 (Bin 0 1)%Z (mkSum B754_nan)) (mkItem 1 (Bin 0 1)%Z (mkSum B754_nan)) = None
  /\ c_cmp (cmp_item (cmp_interval ci) (cmp_sum cf)) (mkItem 1 (Bin 0 1)%Z (mkSum B754_nan)) (mkItem 2 (Underflow 0)%Z (mkSum B754_nan)) = Some Lt
  /\ c_cmp (cmp_uniform ci) (mkUniform 3 0 3 1)%Z (mkUniform 2 5 9 2)%Z = Some Gt.
Proof.
  intros B. destruct C61_numbers as [Hi Hf]. cbv zeta.
  destruct (Hi B (signed 32) (fun x => [Z.to_N x])) as [H1 [H2 H3]].
  split; [exact H1|]. split; [exact H2|]. split; [exact H3|]. split; [apply Hf|].
  split; [vm_compute; reflexivity|]. split; vm_compute; reflexivity.
Qed.
