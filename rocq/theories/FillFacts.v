(** * FillFacts: exact axes, lemmas for C53. *)
From Coq Require Import List NArith ZArith Bool Lia.
From Verif Require Import Base BaseFacts Num Axis Axes AxesSpec AxesFacts Spec FillSpec PropAxes.
Import ListNotations.
Open Scope N_scope.

Lemma exact_tuple_has_bins (B : Build) ts (a : axes_tuple ts) ns o m :
  exact_components ts a ns o m -> tuple_has_bins ts a ns.
Proof.
  revert a ns o m. induction ts as [|t ts IH]; intros a ns o m He; [exact He|].
  destruct ns as [|n ns]; [exact He|]. destruct He as [H1 H2]. split; [exact (ex_bins _ _ _ _ _ H1) | eapply IH; exact H2].
Qed.

Lemma exact_index_within ts (a : axes_tuple ts) ns o m c :
  exact_components ts a ns o m -> all_ok ts o c -> components_index_within ts a ns c.
Proof.
  revert a ns o m c. induction ts as [|t ts IH]; intros a ns o m c He Ho; [exact He|].
  destruct ns as [|n ns]; [exact He|]. destruct He as [H1 H2], Ho as [O1 O2].
  split; [exact (ex_index _ _ _ _ _ H1 _ O1) | eapply IH; eassumption].
Qed.

Lemma component_indices_cell ts (a : axes_tuple ts) ns c is :
  components_index_within ts a ns c -> component_indices ts a c is -> cell ns is.
Proof.
  revert a ns c is. induction ts as [|t ts IH]; intros a ns c is Hw Hi.
  - cbn in Hw, Hi. subst. constructor.
  - destruct ns as [|n ns]; [contradiction|]. destruct is as [|i is]; [contradiction|].
    destruct Hw as [[r [Hr1 Hr2]] Hw], Hi as [H1 H2]. constructor; [|eapply IH; eassumption].
    apply Hr2. congruence.
Qed.

Lemma exact_components_iff ts (a : axes_tuple ts) ns o m c is bs :
  exact_components ts a ns o m -> all_ok ts o c -> cell ns is -> component_bins ts a is bs ->
  (component_indices ts a c is <-> all_tests ts m bs c = true).
Proof.
  revert a ns o m c is bs. induction ts as [|t ts IH]; intros a ns o m c is bs He Ho Hc Hb.
  - cbn in *. tauto.
  - destruct ns as [|n ns]; [contradiction|]. destruct is as [|i is]; [contradiction|].
    destruct He as [H1 H2], Ho as [O1 O2], Hb as [B1 B2]. inversion Hc as [|? ? ? ? C1 C2]; subst.
    cbn [component_indices all_tests]. rewrite andb_true_iff.
    rewrite (ex_iff _ _ _ _ _ H1 _ _ _ O1 C1 B1), (IH _ _ _ _ _ _ _ H2 O2 C2 B2). reflexivity.
Qed.

Lemma exact_tuple (B : Build) ts (axes : axes_tuple ts) ns o m :
  ts <> [] -> exact_components ts axes ns o m -> products_fit ns ->
  exists a, axes_from axes = Val a
    /\ exact_axis (axes_axis ts) a (product ns) (all_ok ts o) (all_tests ts m).
Proof.
  intros Hts He Hf. pose proof (exact_tuple_has_bins B _ _ _ _ _ He) as Hb.
  destruct (C20_axes_tuple_has_bins B ts axes ns Hts Hb Hf) as [a [Ha Hab]].
  destruct (C22_axes_index_none B ts axes ns Hts Hb Hf) as [a' [Ha' Hn]].
  rewrite Ha in Ha'. injection Ha' as <-.
  destruct (C21_axes_index_value B ts axes ns Hts Hb Hf) as [a' [Ha' [_ Hi]]].
  rewrite Ha in Ha'. injection Ha' as <-.
  destruct (C23_axes_bin_of_cell B ts axes ns Hts Hb Hf) as [a' [Ha' Hbin]].
  rewrite Ha in Ha'. injection Ha' as <-.
  exists a. split; [exact Ha|]. constructor; [exact Hab| |].
  - intros x Ho. exact (proj2 (Hn x (exact_index_within _ _ _ _ _ _ He Ho))).
  - intros x i bs Ho Hlt Hbs. pose proof (exact_index_within _ _ _ _ _ _ He Ho) as Hw.
    destruct (C21_cells_bijection ns i Hlt) as [is [Hc [<- _]]].
    destruct (Hbin is Hc) as [bs' [Hbs' Hcb]]. cbn [bin axes_axis] in Hbs. rewrite Hbs' in Hbs. injection Hbs as ->.
    rewrite <- (exact_components_iff _ _ _ _ _ _ _ _ He Ho Hc Hcb). cbn [index axes_axis]. split.
    + intros Hix. destruct (all_indices_cases _ _ _ _ Hw) as [[js [H1 [H2 [H3 _]]]]|[H1 H2]].
      * destruct (Hi x js H2 H3) as [E _]. rewrite E in Hix. injection Hix as Hr.
        apply radix_inj in Hr; [subst; exact H2 | exact H3 | exact Hc].
      * apply (proj1 (Hn x Hw)) in H2. congruence.
    + intros Hci. exact (proj1 (Hi x is Hci Hc)).
Qed.
