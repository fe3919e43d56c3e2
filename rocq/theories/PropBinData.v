(** * PropBinData: histograms filled with related data have related contents (C92).

    The contents of two histograms are compared through a relation between their bin
    values, e.g. "is the negative of", "is 2^k times" or "is at most". *)
From stdpp Require Import gmap.
From Verif Require Import Base BaseFacts Num Axis Value VecHist HashHist HistSpec HistFacts SimSpec SimFacts PropViews PropOps PropOpsMore.
Open Scope N_scope.

Section Related.
Context {A V V' : Type} (RV : V -> V' -> Prop).

(** Two histograms over the same axes with related values, bin by bin; sparse ones hold the
    same bins. *)
Definition dense_related (h : VecHistogram A V) (h' : VecHistogram A V') : Prop :=
  vh_axes h' = vh_axes h /\ Forall2 RV (vec_values h) (vec_values h').
Definition sparse_related (h : HashHistogram A V) (h' : HashHistogram A V') : Prop :=
  hh_axes h' = hh_axes h /\ forall i, option_rel RV (hash_value_at_index h i) (hash_value_at_index h' i).

Context {D W D' W' : Type} {AX : Axis A} {FV : Fill V} {FD : FillWith V D} {FW : FillWithWeighted V D W}
  {FV' : Fill V'} {FD' : FillWith V' D'} {FW' : FillWithWeighted V' D' W'}.

(** Two calls at the same coordinate that take related bin values to related bin values. *)
Definition related_call (o : fill_op D W) (o' : fill_op D' W') : Prop :=
  op_coordinate o' = op_coordinate o
  /\ forall v v', RV v v' -> refines RV (op_effect o v) (op_effect o' v').
End Related.

Lemma Forall2_set_nth {X Y} (R : X -> Y -> Prop) i v v' l l' : R v v' -> Forall2 R l l' -> Forall2 R (set_nth i v l) (set_nth i v' l').
Proof.
  intros Hv Hl. revert i. induction Hl as [|x y l l' Hx Hl IH]; intros [|i]; cbn [set_nth]; constructor; auto.
Qed.

Lemma Forall2_nth {X Y} (R : X -> Y -> Prop) l l' : Forall2 R l l' -> forall i, option_rel R (nth_error l i) (nth_error l' i).
Proof. induction 1 as [|x y l l' Hx Hl IH]; intros [|i]; cbn [nth_error]; try exact I; [exact Hx | apply IH]. Qed.

(** C92. Fresh histograms are related if the default values are. *)
Theorem C92_new : forall A V V' (AX : Axis A) (DV : Default V) (DV' : Default V') (RV : V -> V' -> Prop) (a : A),
  RV default_v default_v ->
  refines (dense_related RV) (vec_new a) (vec_new a) /\ sparse_related RV (hash_new a : HashHistogram A V) (hash_new a).
Proof.
  intros A V V' AX DV DV' RV a Hd. split.
  - unfold vec_new. apply (refines_bind eq); [apply refines_refl|]. intros n ? _ _ <-. apply refines_val.
    split; [reflexivity|]. unfold vec_values. cbn [vh_values]. induction (N.to_nat n) as [|m IH]; cbn [repeat]; constructor; auto.
  - split; [reflexivity|]. intros i. unfold hash_value_at_index, hash_new. cbn [hh_values]. rewrite !lookup_empty. exact I.
Qed.
Print Assumptions C92_new.

(** C92. Any sequence of related calls keeps related histograms related. *)
Theorem C92_fills : forall A V V' D W D' W' (AX : Axis A) (FV : Fill V) (FD : FillWith V D) (FW : FillWithWeighted V D W) (DV : Default V)
  (FV' : Fill V') (FD' : FillWith V' D') (FW' : FillWithWeighted V' D' W') (DV' : Default V') (RV : V -> V' -> Prop)
  (ops : list (fill_op D W)) (ops' : list (fill_op D' W')),
  Forall2 (related_call RV) ops ops' ->
  (forall h h', dense_related RV h h' -> refines (dense_related RV) (vec_calls h ops) (vec_calls h' ops'))
  /\ (RV default_v default_v ->
      forall h h', sparse_related RV h h' -> refines (sparse_related RV) (hash_calls h ops) (hash_calls h' ops')).
Proof.
  intros A V V' D W D' W' AX FV FD FW DV FV' FD' FW' DV' RV ops ops' Ho. split.
  - induction Ho as [|o o' ops ops' [Hc Ho] _ IH]; intros h h' Hh; [now apply refines_val|].
    unfold vec_calls in *. cbn [foldo]. apply (refines_bind (dense_related RV)); [|intros ? ? _ _ Hr; apply IH; exact Hr].
    destruct Hh as [Ha Hv]. unfold vec_values in Hv.
    rewrite vec_call_effect, vec_call_effect', Hc. unfold vec_value_mut. rewrite Ha.
    destruct (index (vh_axes h) (op_coordinate o)) as [[i|]|]; cbn [obind update_through]; [| |apply refines_panic].
    + pose proof (Forall2_nth RV _ _ Hv (N.to_nat i)) as Hi. unfold vec_value_at_index_mut.
      destruct (nth_error (vh_values h) (N.to_nat i)) as [v|], (nth_error (vh_values h') (N.to_nat i)) as [v'|];
        cbn [option_rel] in Hi; try contradiction; cbn [update_through deref assign].
      * apply (refines_bind RV); [apply Ho, Hi|]. intros r r' _ _ Hr. apply refines_val. split; [exact Ha|].
        unfold vec_values. cbn [vh_values]. now apply Forall2_set_nth.
      * apply refines_val. now split.
    + apply refines_val. now split.
  - intros Hd. induction Ho as [|o o' ops ops' [Hc Ho] _ IH]; intros h h' Hh; [now apply refines_val|].
    unfold hash_calls in *. cbn [foldo]. apply (refines_bind (sparse_related RV)); [|intros ? ? _ _ Hr; apply IH; exact Hr].
    destruct Hh as [Ha Hv]. unfold hash_value_at_index in Hv.
    rewrite hash_call_effect, hash_call_effect', Hc. unfold hash_update_at. rewrite Ha.
    destruct (index (hh_axes h) (op_coordinate o)) as [[i|]|]; cbn [obind]; [| |apply refines_panic].
    + unfold entry_or_default_update. apply (refines_bind (fun m m' : gmap N _ => forall j, option_rel RV (m !! j) (m' !! j))).
      * apply (refines_bind RV).
        { apply Ho. specialize (Hv i). destruct (hh_values h !! i), (hh_values h' !! i); cbn [option_rel] in Hv; try contradiction; assumption. }
        intros r r' _ _ Hr. apply refines_val. intros j. destruct (decide (i = j)) as [->|Hne].
        -- rewrite !lookup_insert. exact Hr.
        -- rewrite !lookup_insert_ne by exact Hne. apply Hv.
      * intros m m' _ _ Hm. apply refines_val. split; [reflexivity | exact Hm].
    + apply refines_val. now split.
Qed.
Print Assumptions C92_fills.

(** C92. Merging related histograms, in any of the three forms, gives related histograms. *)
Theorem C92_merging : forall A V V' (AX : Axis A) (AE : AxisEq A) (DV : Default V) (DV' : Default V') (RV : V -> V' -> Prop)
  (op : V -> V -> outcome V) (op' : V' -> V' -> outcome V'),
  (forall v v' w w', RV v v' -> RV w w' -> refines RV (op v w) (op' v' w')) ->
  (forall l l' r r', dense_related RV l l' -> dense_related RV r r' ->
     refines (result_rel (dense_related RV)) (vec_binop_borrowed op l r) (vec_binop_borrowed op' l' r')
     /\ refines (result_rel (dense_related RV)) (vec_binop_owned op l r) (vec_binop_owned op' l' r')
     /\ refines (dense_related RV) (vec_binop_assign op l r) (vec_binop_assign op' l' r'))
  /\ (RV default_v default_v ->
      forall l l' r r' keys keys' order order',
      sparse_related RV l l' -> sparse_related RV r r' ->
      NoDup keys -> (forall i, i ∈ keys <-> is_Some (hash_value_at_index l i) \/ is_Some (hash_value_at_index r i)) ->
      NoDup keys' -> (forall i, i ∈ keys' <-> is_Some (hash_value_at_index l' i) \/ is_Some (hash_value_at_index r' i)) ->
      an_order (hash_as_map r) order -> an_order (hash_as_map r') order' ->
      refines (result_rel (sparse_related RV)) (hash_binop_borrowed op l r keys) (hash_binop_borrowed op' l' r' keys')
      /\ refines (result_rel (sparse_related RV)) (hash_binop_owned op l r order) (hash_binop_owned op' l' r' order')
      /\ refines (sparse_related RV) (hash_binop_assign op l r order) (hash_binop_assign op' l' r' order')).
Proof.
  intros A V V' AX AE DV DV' RV op op' Hop. split.
  - intros l l' r r' [La Lv] [Ra Rv]. unfold vec_values in *.
    assert (Hz : refines (Forall2 RV) (zip_assign op (vh_values l) (vh_values r)) (zip_assign op' (vh_values l') (vh_values r'))).
    { revert Lv Rv. generalize (vh_values l) (vh_values l') (vh_values r) (vh_values r'). intros x x' y y' Hx. revert y y'.
      induction Hx as [|v v' x x' Hv Hx IH]; intros y y' Hy; cbn [zip_assign]; [apply refines_val; constructor|].
      destruct Hy as [|w w' y y' Hw Hy]; [apply refines_val; constructor; assumption|].
      apply (refines_bind RV); [now apply Hop|]. intros z z' _ _ Hz. apply (refines_bind (Forall2 RV)); [now apply IH|].
      intros zs zs' _ _ Hzs. apply refines_val. now constructor. }
    unfold vec_binop_borrowed, vec_binop_owned, vec_binop_assign. rewrite La, Ra.
    destruct (axis_eqb (vh_axes l) (vh_axes r)); cbn [negb].
    2: { split; [apply refines_val; reflexivity|]. split; [apply refines_val; reflexivity | apply refines_panic]. }
    split; [|split].
    + apply (refines_bind (Forall2 RV)).
      * apply (refines_mapo (fun p p' => RV (fst p) (fst p') /\ RV (snd p) (snd p'))); [|intros p p' [H1 H2]; now apply Hop].
        revert Lv Rv. generalize (vh_values l) (vh_values l') (vh_values r) (vh_values r'). intros x x' y y' Hx. revert y y'.
        induction Hx as [|v v' x x' Hv Hx IH]; intros y y' Hy; cbn [combine]; [constructor|].
        destruct Hy as [|w w' y y' Hw Hy]; constructor; [split; assumption | now apply IH].
      * intros vs vs' _ _ Hvs. apply refines_val. split; [reflexivity | exact Hvs].
    + apply (refines_bind (Forall2 RV)); [exact Hz|]. intros vs vs' _ _ Hvs. apply refines_val. split; [reflexivity | exact Hvs].
    + apply (refines_bind (Forall2 RV)); [exact Hz|]. intros vs vs' _ _ Hvs. apply refines_val. split; [reflexivity | exact Hvs].
  - intros Hd l l' r r' keys keys' order order' [La Lv] [Ra Rv] Nk Hk Nk' Hk' Or Or'.
    destruct (C38_sparse_operators A V AX AE DV op l r keys order Nk Hk Or) as [E1 [E2 E3]].
    destruct (C38_sparse_operators A V' AX AE DV' op' l' r' keys' order' Nk' Hk' Or') as [E1' [E2' E3']].
    pose proof (C38_sparse_operators_panic A V AX AE DV op l r keys order Nk Hk Or) as P.
    pose proof (C38_sparse_operators_panic A V' AX AE DV' op' l' r' keys' order' Nk' Hk' Or') as P'.
    rewrite La, Ra in E1', E3', P'. destruct (axis_eqb (hh_axes l) (hh_axes r)) eqn:Eax.
    2: { destruct (E1 eq_refl) as [B1 [B2 B3]]. destruct (E1' eq_refl) as [B1' [B2' B3']].
         rewrite B1, B2, B3, B1', B2', B3'. split; [apply refines_val; reflexivity|]. split; [apply refines_val; reflexivity | apply refines_panic]. }
    destruct (E3 eq_refl) as [Fb [Fo _]]. destruct (E3' eq_refl) as [Fb' [Fo' _]].
    destruct (P eq_refl) as [Pb [Po _]]. destruct (P' eq_refl) as [Pb' [Po' _]].
    assert (Hc : forall i, RV (counts_for l i) (counts_for l' i)).
    { intros i. unfold counts_for. specialize (Lv i). destruct (hash_value_at_index l i), (hash_value_at_index l' i); cbn [option_rel] in Lv; try contradiction; assumption. }
    assert (Hc' : forall i, RV (counts_for r i) (counts_for r' i)).
    { intros i. unfold counts_for. specialize (Rv i). destruct (hash_value_at_index r i), (hash_value_at_index r' i); cbn [option_rel] in Rv; try contradiction; assumption. }
    assert (Hp : forall i, op' (counts_for l' i) (counts_for r' i) = Panic -> op (counts_for l i) (counts_for r i) = Panic).
    { intros i Hi. destruct (op (counts_for l i) (counts_for r i)) as [z|] eqn:Ez; [|reflexivity].
      destruct (Hop _ _ _ _ (Hc i) (Hc' i) z Ez) as [z' [Ez' _]]. congruence. }
    assert (Ls : forall i, is_Some (hash_value_at_index l' i) -> is_Some (hash_value_at_index l i)).
    { intros i [x Hx]. specialize (Lv i). rewrite Hx in Lv. destruct (hash_value_at_index l i); [eauto | contradiction]. }
    assert (Rs : forall i, is_Some (hash_value_at_index r' i) -> is_Some (hash_value_at_index r i)).
    { intros i [x Hx]. specialize (Rv i). rewrite Hx in Rv. destruct (hash_value_at_index r i); [eauto | contradiction]. }
    assert (Hv : forall v v' w w' z z', RV v v' -> RV w w' -> op v w = Val z -> op' v' w' = Val z' -> RV z z').
    { intros v v' w w' z z' H1 H2 H3 H4. destruct (Hop _ _ _ _ H1 H2 z H3) as [z2 [H5 H6]]. rewrite H4 in H5. injection H5 as <-. exact H6. }
    assert (Hown : refines (result_rel (sparse_related RV)) (hash_binop_owned op l r order) (hash_binop_owned op' l' r' order')).
    { intros x Hx. destruct (hash_binop_owned op' l' r' order') as [x'|] eqn:Ex'.
      2: { exfalso. destruct (proj1 Po' eq_refl) as [i [Hi1 Hi2]]. rewrite (proj2 Po) in Hx; [discriminate|]. exists i. auto. }
      exists x'. split; [reflexivity|].
      unfold hash_binop_owned in Hx, Ex'. rewrite La, Ra, Eax in Ex'. rewrite Eax in Hx. cbn [negb] in Hx, Ex'.
      apply obind_val in Hx as [m [Hm Hx]]. injection Hx as <-. apply obind_val in Ex' as [m' [Hm' Ex']]. injection Ex' as <-.
      assert (G : hash_binop_owned op l r order = Val (Ok (mkHashHist (hh_axes l) m))) by (unfold hash_binop_owned; rewrite Eax, Hm; reflexivity).
      destruct (Fo _ G) as [_ K]. destruct (Fo' _ eq_refl) as [_ K']. cbn [result_rel]. split; [reflexivity|].
      intros i. specialize (K i). specialize (K' i). specialize (Lv i). specialize (Rv i).
      destruct (hash_value_at_index l i), (hash_value_at_index l' i), (hash_value_at_index r i), (hash_value_at_index r' i);
        cbn [option_rel] in Lv, Rv; try contradiction.
      - destruct K as [z [Z1 Z2]]. destruct K' as [z' [Z1' Z2']]. rewrite Z2, Z2'. cbn [option_rel]. exact (Hv _ _ _ _ _ _ Lv Rv Z1 Z1').
      - rewrite K, K'. exact Lv.
      - destruct K as [z [Z1 Z2]]. destruct K' as [z' [Z1' Z2']]. rewrite Z2, Z2'. cbn [option_rel]. exact (Hv _ _ _ _ _ _ Hd Rv Z1 Z1').
      - rewrite K, K'. exact I. }
    split; [|split].
    + intros x Hx. destruct (hash_binop_borrowed op' l' r' keys') as [x'|] eqn:Ex'.
      2: { exfalso. destruct (proj1 Pb' eq_refl) as [i [Hi1 Hi2]]. rewrite (proj2 Pb) in Hx; [discriminate|]. exists i. split; [|auto].
           destruct Hi1; [left; now apply Ls | right; now apply Rs]. }
      exists x'. split; [reflexivity|].
      pose proof Hx as G.
      unfold hash_binop_borrowed in Hx, Ex'. rewrite La, Ra, Eax in Ex'. rewrite Eax in Hx. cbn [negb] in Hx, Ex'.
      apply obind_val in Hx as [m [Hm Hx]]. injection Hx as <-. apply obind_val in Ex' as [m' [Hm' Ex']]. injection Ex' as <-.
      destruct (Fb _ G) as [_ K]. destruct (Fb' _ eq_refl) as [_ K']. cbn [result_rel]. split; [reflexivity|].
      intros i. specialize (K i). specialize (K' i). specialize (Lv i). specialize (Rv i).
      destruct (hash_value_at_index l i), (hash_value_at_index l' i), (hash_value_at_index r i), (hash_value_at_index r' i);
        cbn [option_rel] in Lv, Rv; try contradiction.
      * destruct K as [z [Z1 Z2]]. destruct K' as [z' [Z1' Z2']]. rewrite Z2, Z2'. cbn [option_rel]. exact (Hv _ _ _ _ _ _ Lv Rv Z1 Z1').
      * destruct K as [z [Z1 Z2]]. destruct K' as [z' [Z1' Z2']]. rewrite Z2, Z2'. cbn [option_rel]. exact (Hv _ _ _ _ _ _ Lv Hd Z1 Z1').
      * destruct K as [z [Z1 Z2]]. destruct K' as [z' [Z1' Z2']]. rewrite Z2, Z2'. cbn [option_rel]. exact (Hv _ _ _ _ _ _ Hd Rv Z1 Z1').
      * rewrite K, K'. exact I.
    + exact Hown.
    + rewrite E2, E2'. intros x Hx. destruct (hash_binop_owned op l r order) as [[y|e]|] eqn:Ey; cbn [assigned] in Hx; try discriminate.
      injection Hx as <-. destruct (Hown _ eq_refl) as [[y'|e'] [Hy' Ry]]; cbn [result_rel] in Ry; [|contradiction].
      rewrite Hy'. cbn [assigned]. exists y'. split; [reflexivity | exact Ry].
Qed.
Print Assumptions C92_merging.
