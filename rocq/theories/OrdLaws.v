(** * OrdLaws: the partial orders of the coordinate types. *)
From Coq Require Import List NArith ZArith Bool Lia.
From Verif Require Import Base Num Axis Spec.
Import ListNotations.

(** What every primitive number type's [PartialOrd] satisfies: [is_num] picks out
    the ordinary values (everything but NaN), which are totally ordered; NaN
    compares with nothing. *)
Record ord_laws {T : Type} (ord : PartialOrdOps T) (is_num : T -> bool) : Prop := {
  law_total : forall x y, is_num x = true -> is_num y = true -> exists c, partial_cmp x y = Some c;
  law_nan_l : forall x y, is_num x = false -> partial_cmp x y = None;
  law_anti : forall x y, partial_cmp y x = option_map CompOpp (partial_cmp x y);
  law_refl : forall x, is_num x = true -> partial_cmp x x = Some Eq;
  law_trans : forall x y z, le_ x y = true -> le_ y z = true -> le_ x z = true
}.

Section Facts.
Context {T : Type} (ord : PartialOrdOps T) (is_num : T -> bool) (L : ord_laws ord is_num).

Lemma law_nan_r x y : is_num y = false -> partial_cmp x y = None.
Proof. intros Hy. rewrite (law_anti _ _ L y x), (law_nan_l _ _ L y x Hy). reflexivity. Qed.

Lemma ge_le x y : ge_ x y = le_ y x.
Proof. unfold ge_, le_. rewrite (law_anti _ _ L x y). destruct (partial_cmp x y) as [[]|]; reflexivity. Qed.
Lemma gt_lt x y : gt_ x y = lt_ y x.
Proof. unfold gt_, lt_. rewrite (law_anti _ _ L x y). destruct (partial_cmp x y) as [[]|]; reflexivity. Qed.
Lemma eq_sym_ x y : eq_ x y = eq_ y x.
Proof. unfold eq_. rewrite (law_anti _ _ L x y). destruct (partial_cmp x y) as [[]|]; reflexivity. Qed.
Lemma lt_le x y : lt_ x y = true -> le_ x y = true.
Proof. unfold lt_, le_. destruct (partial_cmp x y) as [[]|]; congruence. Qed.
Lemma eq_le x y : eq_ x y = true -> le_ x y = true.
Proof. unfold eq_, le_. destruct (partial_cmp x y) as [[]|]; congruence. Qed.
Lemma le_refl x : is_num x = true -> le_ x x = true.
Proof. intros Hx. unfold le_. now rewrite (law_refl _ _ L x Hx). Qed.
Lemma lt_not_le x y : lt_ x y = true -> le_ y x = true -> False.
Proof. unfold lt_, le_. rewrite (law_anti _ _ L x y). destruct (partial_cmp x y) as [[]|]; simpl; congruence. Qed.
Lemma lt_irrefl x : lt_ x x = true -> False.
Proof. intros Hx. exact (lt_not_le x x Hx (lt_le _ _ Hx)). Qed.
Lemma cmp_num x y c : partial_cmp x y = Some c -> is_num x = true /\ is_num y = true.
Proof.
  intros Hc. destruct (is_num x) eqn:Ex; [|rewrite (law_nan_l _ _ L x y Ex) in Hc; discriminate].
  destruct (is_num y) eqn:Ey; [auto|rewrite (law_nan_r x y Ey) in Hc; discriminate].
Qed.
Lemma le_num x y : le_ x y = true -> is_num x = true /\ is_num y = true.
Proof. unfold le_. destruct (partial_cmp x y) as [c|] eqn:Ec; [|discriminate]. intros _. eapply cmp_num; eauto. Qed.
Lemma lt_num x y : lt_ x y = true -> is_num x = true /\ is_num y = true.
Proof. intros Hlt. apply le_num. now apply lt_le. Qed.
Lemma total_cases x y : is_num x = true -> is_num y = true -> lt_ x y = true \/ le_ y x = true.
Proof.
  intros Hx Hy. destruct (law_total _ _ L x y Hx Hy) as [c Hc].
  unfold lt_, le_. rewrite (law_anti _ _ L x y), Hc. destruct c; simpl; auto.
Qed.
Lemma lt_le_trans x y z : lt_ x y = true -> le_ y z = true -> lt_ x z = true.
Proof.
  intros H1 H2. destruct (lt_num _ _ H1) as [Hx Hy]. destruct (le_num _ _ H2) as [_ Hz].
  destruct (total_cases x z Hx Hz) as [Hlt|Hle]; [exact Hlt|exfalso].
  eapply lt_not_le; [exact H1|]. eapply law_trans; eauto.
Qed.
Lemma le_lt_trans x y z : le_ x y = true -> lt_ y z = true -> lt_ x z = true.
Proof.
  intros H1 H2. destruct (le_num _ _ H1) as [Hx Hy]. destruct (lt_num _ _ H2) as [_ Hz].
  destruct (total_cases x z Hx Hz) as [Hlt|Hle]; [exact Hlt|exfalso].
  eapply lt_not_le; [exact H2|]. eapply law_trans; eauto.
Qed.
End Facts.

(** Integers satisfy the laws; every value is ordinary. *)
Lemma int_ord_laws `{Build} t : ord_laws (@num_ord _ (int_ops t)) (fun _ => true).
Proof.
  constructor; simpl.
  - eauto.
  - discriminate.
  - intros x y. simpl. now rewrite Z.compare_antisym.
  - intros x _. now rewrite Z.compare_refl.
  - intros x y z. unfold le_; simpl.
    destruct (Z.compare_spec x y), (Z.compare_spec y z), (Z.compare_spec x z); try discriminate; try reflexivity; lia.
Qed.
