(** * SimFacts: running a program compiled twice. *)
From stdpp Require Import gmap.
From Verif Require Import Base BaseFacts Num Axis Value VecHist HashHist HistSpec Program SimSpec.
Open Scope N_scope.

Lemma refines_val {X Y} (R : X -> Y -> Prop) v w : R v w -> refines R (Val v) (Val w).
Proof. intros HR u [= <-]. exists w. split; [reflexivity | exact HR]. Qed.

Lemma refines_panic {X Y} (R : X -> Y -> Prop) y : refines R Panic y.
Proof. intros v Hv. discriminate. Qed.

Lemma refines_bind {X Y X' Y'} (R : X -> Y -> Prop) (S : X' -> Y' -> Prop) x y k k' :
  refines R x y -> (forall v w, x = Val v -> y = Val w -> R v w -> refines S (k v) (k' w)) -> refines S (obind x k) (obind y k').
Proof.
  intros Hxy Hk u Hu. apply obind_val in Hu as [v [Hv Hu]]. destruct (Hxy v Hv) as [w [Hw HR]].
  rewrite Hw. cbn [obind]. exact (Hk v w Hv Hw HR u Hu).
Qed.

Lemma refines_refl {X} (x : outcome X) : refines eq x x.
Proof. intros v Hv. exists v. split; [exact Hv | reflexivity]. Qed.

Lemma refines_eq {X} (x y : outcome X) : x = y -> refines eq x y.
Proof. intros ->. apply refines_refl. Qed.

Lemma refines_mono {X Y} (R S : X -> Y -> Prop) x y : (forall v w, R v w -> S v w) -> refines R x y -> refines S x y.
Proof. intros HRS Hxy v Hv. destruct (Hxy v Hv) as [w [Hw HR]]. exists w. split; [exact Hw | apply HRS, HR]. Qed.

Lemma refines_expect {X Y} (R : X -> Y -> Prop) o1 o2 : option_rel R o1 o2 -> refines R (expect o1) (expect o2).
Proof.
  destruct o1 as [v|], o2 as [w|]; cbn; intros HR; try contradiction; [now apply refines_val | apply refines_panic].
Qed.

Lemma option_rel_eq {X} (o1 o2 : option X) : option_rel eq o1 o2 -> o1 = o2.
Proof. destruct o1, o2; cbn; intros HR; try contradiction; congruence. Qed.

Lemma option_rel_refl {X} (o : option X) : option_rel eq o o.
Proof. destruct o; cbn; auto. Qed.

Lemma refines_mapo {X1 X2 Y1 Y2} (RX : X1 -> X2 -> Prop) (RY : Y1 -> Y2 -> Prop) f1 f2 l1 l2 : Forall2 RX l1 l2 ->
  (forall x1 x2, RX x1 x2 -> refines RY (f1 x1) (f2 x2)) -> refines (Forall2 RY) (mapo f1 l1) (mapo f2 l2).
Proof.
  intros Hl Hf. induction Hl as [|x1 x2 l1 l2 Hx Hl IH]; cbn [mapo]; [now apply refines_val|].
  apply (refines_bind RY); [now apply Hf|]. intros y1 y2 _ _ Hy.
  apply (refines_bind (Forall2 RY)); [exact IH|]. intros r1 r2 _ _ Hr. apply refines_val. now constructor.
Qed.

Lemma Forall2_eq_eq {X} (l1 l2 : list X) : Forall2 eq l1 l2 -> l1 = l2.
Proof. induction 1; congruence. Qed.

Lemma Forall2_eq_refl {X} (l : list X) : Forall2 eq l l.
Proof. induction l; constructor; auto. Qed.

Lemma refines_mapo_eq {X Y} (f1 f2 : X -> outcome Y) l :
  (forall x, refines eq (f1 x) (f2 x)) -> refines eq (mapo f1 l) (mapo f2 l).
Proof.
  intros Hf. eapply refines_mono; [apply Forall2_eq_eq|].
  apply (refines_mapo eq eq); [apply Forall2_eq_refl|]. intros x ? <-. apply Hf.
Qed.

Lemma refines_foldo {X S} (f1 f2 : S -> X -> outcome S) l s :
  (forall s x, refines eq (f1 s x) (f2 s x)) -> refines eq (foldo f1 l s) (foldo f2 l s).
Proof.
  intros Hf. revert s. induction l as [|x l IH]; intros s; cbn [foldo]; [apply refines_refl|].
  apply (refines_bind eq); [apply Hf|]. intros s1 ? _ _ <-. apply IH.
Qed.

Lemma axis_methods_refine {A1 A2 : Type} (AX1 : Axis A1) (AE1 : AxisEq A1) (AX2 : Axis A2) (AE2 : AxisEq A2) RA RC RI :
  axis_refines AX1 AE1 AX2 AE2 RA RC RI -> methods_refine AX1 AE1 AX2 AE2 RA RC RI.
Proof. intros [H1 H2 H3 _ H5]. now split. Qed.

Section Runs.
Context {A1 A2 V D W R : Type} {AX1 : Axis A1} {AE1 : AxisEq A1} {AX2 : Axis A2} {AE2 : AxisEq A2}
        {FV1 : Fill V} {FD1 : FillWith V D} {FW1 : FillWithWeighted V D W}
        {FV2 : Fill V} {FD2 : FillWith V D} {FW2 : FillWithWeighted V D W} {DV : Default V}
        (RA : A1 -> A2 -> Prop) (RC : @Coordinate A1 AX1 -> @Coordinate A2 AX2 -> Prop)
        (RI : @Interval A1 AX1 -> @Interval A2 AX2 -> Prop)
        (HA : methods_refine AX1 AE1 AX2 AE2 RA RC RI) (HF : fills_refine FV1 FD1 FW1 FV2 FD2 FW2).

Notation dense := (same_dense (V := V) RA).
Notation sparse := (same_sparse (V := V) RA).

Lemma refines_axis_iter a1 a2 : RA a1 a2 ->
  refines (Forall2 (fun p q => fst p = fst q /\ RI (snd p) (snd q))) (axis_iter a1) (axis_iter a2).
Proof using HA.
  intros Ha. unfold axis_iter, indices.
  apply (refines_bind eq); [apply (refines_bind eq); [now apply (mr_num_bins _ _ _ _ _ _ _ HA)|]; intros n ? _ _ <-; apply refines_refl|].
  intros is ? _ _ <-. apply (refines_mapo eq); [apply Forall2_eq_refl|]. intros i ? <-.
  apply (refines_bind (option_rel RI)); [now apply (mr_bin _ _ _ _ _ _ _ HA)|]. intros o1 o2 _ _ Ho.
  apply (refines_bind RI); [now apply refines_expect|]. intros b1 b2 _ _ Hb. apply refines_val. split; [reflexivity | exact Hb].
Qed.

Lemma refines_update h1 h2 (c1 : @Coordinate A1 AX1) (c2 : @Coordinate A2 AX2) (f1 f2 : V -> outcome V) :
  dense h1 h2 -> RC c1 c2 -> (forall v, refines eq (f1 v) (f2 v)) ->
  refines dense (let! r := vec_value_mut h1 c1 in update_through h1 r f1) (let! r := vec_value_mut h2 c2 in update_through h2 r f2).
Proof using HA.
  destruct h1 as [a1 vs], h2 as [a2 vs0]. intros [Ha Hv] Hc Hf. cbn [vh_axes vh_values] in Ha, Hv. subst vs0.
  unfold vec_value_mut. cbn [vh_axes].
  pose proof (mr_index _ _ _ _ _ _ _ HA a1 a2 c1 c2 Ha Hc) as Hi.
  destruct (index a1 c1) as [oi|]; [|apply refines_panic]. destruct (Hi oi eq_refl) as [w [-> <-]]. cbn [obind].
  destruct oi as [i|]; cbn [obind update_through]; [|apply refines_val; now split].
  unfold vec_value_at_index_mut. cbn [vh_values]. destruct (nth_error vs (N.to_nat i)) as [v|]; cbn [obind update_through].
  - cbn [deref assign vh_axes]. apply (refines_bind eq); [apply Hf|]. intros v1 ? _ _ <-. apply refines_val. now split.
  - apply refines_val. now split.
Qed.

Lemma refines_vec_call h1 h2 o1 o2 : dense h1 h2 -> same_call _ _ RC o1 o2 -> refines dense (vec_call (FV := FV1) (FD := FD1) (FW := FW1) h1 o1) (vec_call (FV := FV2) (FD := FD2) (FW := FW2) h2 o2).
Proof using HA HF.
  intros Hh Ho. destruct Ho as [c1 c2 Hc|c1 c2 d Hc|c1 c2 d w Hc]; cbn [vec_call]; apply refines_update; try assumption; intros v;
    [apply (fr_fill _ _ _ _ _ _ HF) | apply (fr_fill_with _ _ _ _ _ _ HF) | apply (fr_fill_with_weighted _ _ _ _ _ _ HF)].
Qed.

Lemma refines_hash_call h1 h2 o1 o2 : sparse h1 h2 -> same_call _ _ RC o1 o2 -> refines sparse (hash_call (FV := FV1) (FD := FD1) (FW := FW1) h1 o1) (hash_call (FV := FV2) (FD := FD2) (FW := FW2) h2 o2).
Proof using HA HF.
  intros Hh Ho.
  assert (Hu : forall c1 c2 f1 f2, RC c1 c2 -> (forall v, refines eq (f1 v) (f2 v)) ->
                refines sparse (hash_update_at h1 c1 f1) (hash_update_at h2 c2 f2)).
  { intros c1 c2 f1 f2 Hc Hf. destruct h1 as [a1 m], h2 as [a2 vs0], Hh as [Ha Hm]. cbn [hh_axes hh_values] in Ha, Hm. subst.
    unfold hash_update_at. cbn [hh_axes hh_values].
    apply (refines_bind eq); [now apply (mr_index _ _ _ _ _ _ _ HA)|]. intros oi ? _ _ <-.
    destruct oi as [i|]; [|apply refines_val; now split]. unfold entry_or_default_update.
    apply (refines_bind eq); [|intros m ? _ _ <-; apply refines_val; now split].
    apply (refines_bind eq); [apply Hf|]. intros v ? _ _ <-. apply refines_refl. }
  destruct Ho as [c1 c2 Hc|c1 c2 d Hc|c1 c2 d w Hc]; cbn [hash_call]; apply Hu; try assumption; intros v;
    [apply (fr_fill _ _ _ _ _ _ HF) | apply (fr_fill_with _ _ _ _ _ _ HF) | apply (fr_fill_with_weighted _ _ _ _ _ _ HF)].
Qed.

Lemma refines_zip_assign (op1 op2 : V -> V -> outcome V) l r : op_refines op1 op2 ->
  refines eq (zip_assign op1 l r) (zip_assign op2 l r).
Proof.
  intros Hop. revert r. induction l as [|x l IH]; intros [|y r]; cbn [zip_assign]; try apply refines_refl.
  apply (refines_bind eq); [apply Hop|]. intros z ? _ _ <-. apply (refines_bind eq); [apply IH|]. intros zs ? _ _ <-. apply refines_refl.
Qed.

Lemma refines_zip_update {I1 I2} (RJ : I1 -> I2 -> Prop) f1 f2 bs1 bs2 (vs : list V) :
  Forall2 (fun p q => fst p = fst q /\ RJ (snd p) (snd q)) bs1 bs2 ->
  (forall i b1 b2 v, RJ b1 b2 -> refines eq (f1 i b1 v) (f2 i b2 v)) ->
  refines eq (zip_update f1 bs1 vs) (zip_update f2 bs2 vs).
Proof.
  intros Hb Hf. revert vs. induction Hb as [|[i b1] [j b2] bs1 bs2 [Hij Hb] Hbs IH]; intros vs; cbn in *; [apply refines_refl|]. subst j.
  destruct vs as [|v vs]; [apply refines_refl|].
  apply (refines_bind eq); [now apply Hf|]. intros z ? _ _ <-. apply (refines_bind eq); [apply IH|]. intros zs ? _ _ <-. apply refines_refl.
Qed.

Lemma same_store_write {H1 H2} (RH : H1 -> H2 -> Prop) st1 st2 x h1 h2 :
  same_store RH st1 st2 -> RH h1 h2 -> same_store RH (write st1 x h1) (write st2 x h2).
Proof. intros Hst Hh y. unfold write. destruct (Nat.eqb x y); [exact Hh | apply Hst]. Qed.

Lemma refines_read {H1 H2} (RH : H1 -> H2 -> Prop) st1 st2 x : same_store RH st1 st2 -> refines RH (read st1 x) (read st2 x).
Proof.
  intros Hst. specialize (Hst x). unfold read. destruct (st1 x) as [h1|], (st2 x) as [h2|]; cbn in Hst; try contradiction;
    [now apply refines_val | apply refines_panic].
Qed.

Definition same_state {H1 H2} (RH : H1 -> H2 -> Prop) (p : answer A1 V * store H1) (q : answer A2 V * store H2) : Prop :=
  same_answer RA (fst p) (fst q) /\ same_store RH (snd p) (snd q).

Lemma refines_dense_command c1 c2 st1 st2 : same_command _ _ RA RC RI c1 c2 -> same_store dense st1 st2 ->
  refines (same_state dense) (dense_command (FV := FV1) (FD := FD1) (FW := FW1) c1 st1) (dense_command (FV := FV2) (FD := FD2) (FW := FW2) c2 st2).
Proof using HA HF.
  intros Hc Hst.
  assert (Hrd : forall x, refines dense (read st1 x) (read st2 x)) by (intros; now apply refines_read).
  assert (Hw : forall x h1 h2, dense h1 h2 -> refines (same_state dense) (Val (NoAnswer, write st1 x h1)) (Val (NoAnswer, write st2 x h2))).
  { intros x h1 h2 Hh. apply refines_val. split; [constructor | now apply same_store_write]. }
  assert (Hres : forall x (res1 : result (VecHistogram A1 V) BinaryOperationError) res2, result_rel dense res1 res2 ->
            refines (same_state dense)
              (Val (match res1 with Ok h => (Answer true, write st1 x h) | Err _ => (Answer false, st1) end))
              (Val (match res2 with Ok h => (Answer true, write st2 x h) | Err _ => (Answer false, st2) end))).
  { intros x [h1|e1] [h2|e2] Hr; cbn in Hr; try contradiction; apply refines_val; (split; [constructor|]); [now apply same_store_write | exact Hst]. }
  destruct Hc as [x a1 a2 Ha|x o1 o2 Ho|x f1 f2 Hf|x f1 f2 Hf|x y|op1 op2 x y z Hop|op1 op2 x y z Hop|op1 op2 x y Hop|x i|x c1 c2 Hc|x];
    cbn [dense_command].
  - apply (refines_bind dense); [|intros; now apply Hw]. unfold vec_new.
    apply (refines_bind eq); [now apply (mr_num_bins _ _ _ _ _ _ _ HA)|]. intros n ? _ _ <-. apply refines_val. now split.
  - apply (refines_bind dense); [apply Hrd|]. intros h1 h2 _ _ Hh. apply (refines_bind dense); [now apply refines_vec_call|].
    intros; now apply Hw.
  - apply (refines_bind dense); [apply Hrd|]. intros [a1 vs] [a2 vs0] _ _ [Ha Hv]. cbn in Ha, Hv. subst vs0.
    apply (refines_bind dense); [|intros; now apply Hw]. unfold vec_values_mut. cbn [VecHist.vh_axes VecHist.vh_values].
    apply (refines_bind eq); [now apply refines_mapo_eq|]. intros ws ? _ _ <-. apply refines_val. now split.
  - apply (refines_bind dense); [apply Hrd|]. intros [a1 vs] [a2 vs0] _ _ [Ha Hv]. cbn in Ha, Hv. subst vs0.
    apply (refines_bind dense); [|intros; now apply Hw]. unfold vec_iter_mut. cbn [VecHist.vh_axes VecHist.vh_values].
    apply (refines_bind (Forall2 (fun p q => fst p = fst q /\ RI (snd p) (snd q)))); [now apply refines_axis_iter|]. intros bs1 bs2 _ _ Hbs.
    apply (refines_bind eq); [now apply (refines_zip_update RI)|]. intros ws ? _ _ <-. apply refines_val. now split.
  - apply (refines_bind dense); [apply Hrd|]. intros h1 h2 _ _ Hh. now apply Hw.
  - apply (refines_bind dense); [apply Hrd|]. intros [a1 vs] [a2 vs0] _ _ [Ha Hv]. cbn in Ha, Hv. subst vs0.
    apply (refines_bind dense); [apply Hrd|]. intros [b1 ws] [b2 ws0] _ _ [Hb Hv]. cbn in Hb, Hv. subst ws0.
    apply (refines_bind (result_rel dense)); [|intros; now apply Hres]. unfold vec_binop_borrowed. cbn [VecHist.vh_axes VecHist.vh_values].
    rewrite <- (mr_eqb _ _ _ _ _ _ _ HA a1 a2 b1 b2 Ha Hb). destruct (axis_eqb a1 b1); cbn [negb]; [|now apply refines_val].
    apply (refines_bind eq); [apply refines_mapo_eq; intros p; apply Hop|]. intros us ? _ _ <-. apply refines_val. now split.
  - apply (refines_bind dense); [apply Hrd|]. intros [a1 vs] [a2 vs0] _ _ [Ha Hv]. cbn in Ha, Hv. subst vs0.
    apply (refines_bind dense); [apply Hrd|]. intros [b1 ws] [b2 ws0] _ _ [Hb Hv]. cbn in Hb, Hv. subst ws0.
    apply (refines_bind (result_rel dense)); [|intros; now apply Hres]. unfold vec_binop_owned. cbn [VecHist.vh_axes VecHist.vh_values].
    rewrite <- (mr_eqb _ _ _ _ _ _ _ HA a1 a2 b1 b2 Ha Hb). destruct (axis_eqb a1 b1); cbn [negb]; [|now apply refines_val].
    apply (refines_bind eq); [now apply refines_zip_assign|]. intros us ? _ _ <-. apply refines_val. now split.
  - apply (refines_bind dense); [apply Hrd|]. intros [a1 vs] [a2 vs0] _ _ [Ha Hv]. cbn in Ha, Hv. subst vs0.
    apply (refines_bind dense); [apply Hrd|]. intros [b1 ws] [b2 ws0] _ _ [Hb Hv]. cbn in Hb, Hv. subst ws0.
    apply (refines_bind dense); [|intros; now apply Hw]. unfold vec_binop_assign. cbn [VecHist.vh_axes VecHist.vh_values].
    rewrite <- (mr_eqb _ _ _ _ _ _ _ HA a1 a2 b1 b2 Ha Hb). destruct (axis_eqb a1 b1); cbn [negb]; [|apply refines_panic].
    apply (refines_bind eq); [now apply refines_zip_assign|]. intros us ? _ _ <-. apply refines_val. now split.
  - apply (refines_bind dense); [apply Hrd|]. intros [a1 vs] [a2 vs0] _ _ [Ha Hv]. cbn in Ha, Hv. subst vs0.
    apply refines_val. split; [constructor | exact Hst].
  - apply (refines_bind dense); [apply Hrd|]. intros [a1 vs] [a2 vs0] _ _ [Ha Hv]. cbn in Ha, Hv. subst vs0.
    apply (refines_bind eq); [|intros o ? _ _ <-; apply refines_val; split; [constructor | exact Hst]].
    unfold vec_value. cbn [VecHist.vh_axes].
    apply (refines_bind eq); [now apply (mr_index _ _ _ _ _ _ _ HA)|]. intros [i|] ? _ _ <-; apply refines_refl.
  - apply (refines_bind dense); [apply Hrd|]. intros h1 h2 _ _ [Ha _]. apply refines_val. split; [now constructor | exact Hst].
Qed.

Lemma refines_dense_run (p1 : program (AX := AX1) V D W R) (p2 : program (AX := AX2) V D W R) st1 st2 :
  same_program AX1 AX2 RA RC RI p1 p2 -> same_store dense st1 st2 ->
  refines (fun q1 q2 => fst q1 = fst q2 /\ same_store dense (snd q1) (snd q2)) (dense_run (FV := FV1) (FD := FD1) (FW := FW1) p1 st1) (dense_run (FV := FV2) (FD := FD2) (FW := FW2) p2 st2).
Proof using HA HF.
  intros Hp. revert st1 st2. induction Hp as [r|c1 c2 k1 k2 Hc Hk IH]; intros st1 st2 Hst; cbn [dense_run].
  - apply refines_val. split; [reflexivity | exact Hst].
  - apply (refines_bind (same_state dense)); [now apply refines_dense_command|]. intros q1 q2 _ _ [Hq Hs]. now apply IH.
Qed.

Lemma sparse_command_refines c1 c2 st1 st2 q1 st1' : same_command _ _ RA RC RI c1 c2 -> same_store sparse st1 st2 ->
  sparse_command (FV := FV1) (FD := FD1) (FW := FW1) st1 c1 (Val (q1, st1')) -> exists q2 st2', sparse_command (FV := FV2) (FD := FD2) (FW := FW2) st2 c2 (Val (q2, st2')) /\ same_state sparse (q1, st1') (q2, st2').
Proof using HA HF.
  intros Hc Hst Hrun.
  enough (Hgoal : exists o1 o2, o1 = Val (q1, st1') /\ sparse_command (FV := FV2) (FD := FD2) (FW := FW2) st2 c2 o2 /\ refines (same_state sparse) o1 o2).
  { destruct Hgoal as (o1 & o2 & Ho1 & Hr2 & Href). destruct (Href _ Ho1) as [[q2 st2'] [Ho2 Hs]]. subst o2. eauto. }
  assert (Hrd : forall x, refines sparse (read st1 x) (read st2 x)) by (intros; now apply refines_read).
  assert (Hw : forall x h1 h2, sparse h1 h2 -> refines (same_state sparse) (Val (NoAnswer, write st1 x h1)) (Val (NoAnswer, write st2 x h2))).
  { intros x h1 h2 Hh. apply refines_val. split; [constructor | now apply same_store_write]. }
  assert (Hres : forall x (res1 : result (HashHistogram A1 V) BinaryOperationError) res2, result_rel sparse res1 res2 ->
            refines (same_state sparse)
              (Val (match res1 with Ok h => (Answer true, write st1 x h) | Err _ => (Answer false, st1) end))
              (Val (match res2 with Ok h => (Answer true, write st2 x h) | Err _ => (Answer false, st2) end))).
  { intros x [h1|e1] [h2|e2] Hr; cbn in Hr; try contradiction; apply refines_val; (split; [constructor|]); [now apply same_store_write | exact Hst]. }
  assert (Hord : forall x (P : gmap N V -> Prop), (forall h, st1 x = Some h -> P (hh_values h)) -> forall h, st2 x = Some h -> P (hh_values h)).
  { intros x P HP h Hx. specialize (Hst x). rewrite Hx in Hst. destruct (st1 x) as [h1|]; cbn in Hst; [|contradiction].
    destruct Hst as [_ <-]. now apply HP. }
  assert (Hmerge : forall op1 op2 m o, op_refines op1 op2 -> refines eq (hash_merge_loop op1 m o) (hash_merge_loop op2 m o)).
  { intros op1 op2 m o Hop. apply refines_foldo. intros m' p. unfold entry_or_default_update.
    apply (refines_bind eq); [apply Hop|]. intros v ? _ _ <-. apply refines_refl. }
  remember (Val (q1, st1')) as o1 eqn:Ho1. exists o1.
  destruct Hc as [x a1 a2 Ha|x o1' o2 Ho|x f1 f2 Hf|x f1 f2 Hf|x y|op1 op2 x y z Hop|op1 op2 x y z Hop|op1 op2 x y Hop|x i|x c1 c2 Hc|x];
    inversion Hrun as [x0 a0|x0 o0|x0 f0 order Hor|x0 f0 order Hor|x0 y0|op0 x0 y0 z0 keys Hnd Hkeys|op0 x0 y0 z0 order Hor|op0 x0 y0 order Hor|x0 i0|x0 c0|x0];
    subst; eexists; (split; [eassumption || reflexivity || (symmetry; eassumption) || exact Ho1|]).
  all: try (rewrite <- Ho1).
  - split; [apply sc_new|]. apply refines_val. split; [constructor|]. apply same_store_write; [exact Hst|]. now split.
  - split; [apply sc_call|]. apply (refines_bind sparse); [apply Hrd|]. intros h1 h2 _ _ Hh.
    apply (refines_bind sparse); [now apply refines_hash_call|]. intros; now apply Hw.
  - split; [apply (sc_values_mut _ _ _ order), (Hord x (fun m => an_order m order) Hor)|].
    apply (refines_bind sparse); [apply Hrd|]. intros [b1 m] [b2 ws0] _ _ [Ha Hv]. cbn in Ha, Hv. subst ws0.
    apply (refines_bind sparse); [|intros; now apply Hw]. unfold hash_values_mut. cbn [HashHist.hh_axes HashHist.hh_values].
    apply (refines_bind eq); [|intros m' ? _ _ <-; apply refines_val; now split].
    apply refines_foldo. intros m' p. apply (refines_bind eq); [apply Hf|]. intros v ? _ _ <-. apply refines_refl.
  - split; [apply (sc_iter_mut _ _ _ order), (Hord x (fun m => an_order m order) Hor)|].
    apply (refines_bind sparse); [apply Hrd|]. intros [b1 m] [b2 ws0] _ _ [Ha Hv]. cbn in Ha, Hv. subst ws0.
    apply (refines_bind sparse); [|intros; now apply Hw]. unfold hash_iter_mut. cbn [HashHist.hh_axes HashHist.hh_values].
    apply (refines_bind eq); [|intros m' ? _ _ <-; apply refines_val; now split].
    apply refines_foldo. intros m' p. apply (refines_bind (option_rel RI)); [now apply (mr_bin _ _ _ _ _ _ _ HA)|]. intros ob1 ob2 _ _ Hob.
    apply (refines_bind RI); [now apply refines_expect|]. intros i1 i2 _ _ Hi.
    apply (refines_bind eq); [now apply Hf|]. intros v ? _ _ <-. apply refines_refl.
  - split; [apply sc_clone|]. apply (refines_bind sparse); [apply Hrd|]. intros; now apply Hw.
  - split.
    { apply (sc_borrowed _ _ _ _ _ keys Hnd). intros l r Hl Hr i.
      pose proof (Hst y) as Hy. pose proof (Hst z) as Hz. rewrite Hl in Hy. rewrite Hr in Hz.
      destruct (st1 y) as [l1|] eqn:Hl1; cbn in Hy; [|contradiction]. destruct (st1 z) as [r1|] eqn:Hr1; cbn in Hz; [|contradiction].
      destruct Hy as [_ Hy], Hz as [_ Hz]. unfold hash_value_at_index. rewrite <- Hy, <- Hz. exact (Hkeys l1 r1 eq_refl eq_refl i). }
    apply (refines_bind sparse); [apply Hrd|]. intros [b1 m] [b2 ws0] _ _ [Ha Hv]. cbn in Ha, Hv. subst ws0.
    apply (refines_bind sparse); [apply Hrd|]. intros [d1 n] [d2 ws1] _ _ [Hd Hv]. cbn in Hd, Hv. subst ws1.
    apply (refines_bind (result_rel sparse)); [|intros; now apply Hres]. unfold hash_binop_borrowed. cbn [HashHist.hh_axes HashHist.hh_values].
    rewrite <- (mr_eqb _ _ _ _ _ _ _ HA b1 b2 d1 d2 Ha Hd). destruct (axis_eqb b1 d1); cbn [negb]; [|now apply refines_val].
    apply (refines_bind eq); [|intros m' ? _ _ <-; apply refines_val; now split].
    apply refines_foldo. intros m' i. apply (refines_bind eq); [|intros v ? _ _ <-; apply refines_refl].
    destruct (_ !! i), (_ !! i); try apply Hop; apply refines_panic.
  - split; [apply (sc_owned _ _ _ _ _ order), (Hord z (fun m => an_order m order) Hor)|].
    apply (refines_bind sparse); [apply Hrd|]. intros [b1 m] [b2 ws0] _ _ [Ha Hv]. cbn in Ha, Hv. subst ws0.
    apply (refines_bind sparse); [apply Hrd|]. intros [d1 n] [d2 ws1] _ _ [Hd Hv]. cbn in Hd, Hv. subst ws1.
    apply (refines_bind (result_rel sparse)); [|intros; now apply Hres]. unfold hash_binop_owned. cbn [HashHist.hh_axes HashHist.hh_values].
    rewrite <- (mr_eqb _ _ _ _ _ _ _ HA b1 b2 d1 d2 Ha Hd). destruct (axis_eqb b1 d1); cbn [negb]; [|now apply refines_val].
    apply (refines_bind eq); [now apply Hmerge|]. intros m' ? _ _ <-. apply refines_val. now split.
  - split; [apply (sc_assign _ _ _ _ order), (Hord y (fun m => an_order m order) Hor)|].
    apply (refines_bind sparse); [apply Hrd|]. intros [b1 m] [b2 ws0] _ _ [Ha Hv]. cbn in Ha, Hv. subst ws0.
    apply (refines_bind sparse); [apply Hrd|]. intros [d1 n] [d2 ws1] _ _ [Hd Hv]. cbn in Hd, Hv. subst ws1.
    apply (refines_bind sparse); [|intros; now apply Hw]. unfold hash_binop_assign. cbn [HashHist.hh_axes HashHist.hh_values].
    rewrite <- (mr_eqb _ _ _ _ _ _ _ HA b1 b2 d1 d2 Ha Hd). destruct (axis_eqb b1 d1); cbn [negb]; [|apply refines_panic].
    apply (refines_bind eq); [now apply Hmerge|]. intros m' ? _ _ <-. apply refines_val. now split.
  - split; [apply sc_value_at_index|]. apply (refines_bind sparse); [apply Hrd|]. intros [b1 m] [b2 ws0] _ _ [Ha Hv]. cbn in Ha, Hv. subst ws0.
    apply refines_val. split; [constructor | exact Hst].
  - split; [apply sc_value|]. apply (refines_bind sparse); [apply Hrd|]. intros [b1 m] [b2 ws0] _ _ [Ha Hv]. cbn in Ha, Hv. subst ws0.
    apply (refines_bind eq); [|intros o ? _ _ <-; apply refines_val; split; [constructor | exact Hst]].
    unfold hash_value. cbn [HashHist.hh_axes].
    apply (refines_bind eq); [now apply (mr_index _ _ _ _ _ _ _ HA)|]. intros [i|] ? _ _ <-; apply refines_refl.
  - split; [apply sc_axes|]. apply (refines_bind sparse); [apply Hrd|]. intros h1 h2 _ _ [Ha _]. apply refines_val. split; [now constructor | exact Hst].
Qed.

Lemma refines_sparse_run (p1 : program (AX := AX1) V D W R) (p2 : program (AX := AX2) V D W R) st1 st2 r st1' :
  same_program AX1 AX2 RA RC RI p1 p2 -> same_store sparse st1 st2 ->
  sparse_run (FV := FV1) (FD := FD1) (FW := FW1) p1 st1 (Val (r, st1')) -> exists st2', sparse_run (FV := FV2) (FD := FD2) (FW := FW2) p2 st2 (Val (r, st2')) /\ same_store sparse st1' st2'.
Proof using HA HF.
  intros Hp. revert st1 st2. induction Hp as [r0|c1 c2 k1 k2 Hc Hk IH]; intros st1 st2 Hst Hrun.
  - inversion Hrun; subst. exists st2. split; [constructor | exact Hst].
  - inversion Hrun as [| |c k st q st' o Hcmd Hrest]; subst.
    destruct (sparse_command_refines _ _ _ _ _ _ Hc Hst Hcmd) as (q2 & st2' & Hcmd2 & Hq & Hs). cbn [fst snd] in Hq, Hs.
    destruct (IH _ _ Hq _ _ Hs Hrest) as (st2'' & Hrun2 & Hs2). exists st2''. split; [eapply sr_step; eassumption | exact Hs2].
Qed.
End Runs.
