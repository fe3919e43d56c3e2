(** * BaseFacts: characterising lemmas for Base.v. *)
From Coq Require Import List NArith ZArith Bool Lia FinFun.
From Verif Require Import Base.
Import ListNotations.
Open Scope N_scope.

Lemma usize_mod_large `{Build} : 65536 <= usize_mod.
Proof. unfold usize_mod. destruct target_width; lia. Qed.

Lemma uadd_ok `{Build} a b : a + b < usize_mod -> uadd a b = Val (a + b).
Proof. intros Hlt. unfold uadd. apply N.ltb_lt in Hlt. now rewrite Hlt. Qed.

Lemma umul_ok `{Build} a b : a * b < usize_mod -> umul a b = Val (a * b).
Proof. intros Hlt. unfold umul. apply N.ltb_lt in Hlt. now rewrite Hlt. Qed.

Lemma usub_ok `{Build} a b : b <= a -> usub a b = Val (a - b).
Proof. intros Hle. unfold usub. apply N.leb_le in Hle. now rewrite Hle. Qed.

Lemma udiv_ok a b : b <> 0 -> udiv a b = Val (a / b).
Proof. intros Hb. unfold udiv. apply N.eqb_neq in Hb. now rewrite Hb. Qed.

Lemma urem_ok a b : b <> 0 -> urem a b = Val (a mod b).
Proof. intros Hb. unfold urem. apply N.eqb_neq in Hb. now rewrite Hb. Qed.

Lemma obind_val {A B} (x : outcome A) (k : A -> outcome B) b :
  obind x k = Val b -> exists a, x = Val a /\ k a = Val b.
Proof. destruct x; simpl; [eauto | discriminate]. Qed.

Lemma in_range_iff (n i : N) : In i (range n) <-> i < n.
Proof.
  unfold range. rewrite in_map_iff. split.
  - intros [k [<- Hk]]. apply in_seq in Hk. lia.
  - intros Hi. exists (N.to_nat i). split; [lia|]. apply in_seq. lia.
Qed.

Lemma range_length n : length (range n) = N.to_nat n.
Proof. unfold range. now rewrite map_length, seq_length. Qed.

Lemma range_nth n i : i < n -> nth_error (range n) (N.to_nat i) = Some i.
Proof.
  intros Hi. unfold range.
  erewrite map_nth_error with (d := N.to_nat i); [f_equal; lia|].
  rewrite nth_error_nth' with (d := O) by (rewrite seq_length; lia).
  rewrite seq_nth by lia. f_equal.
Qed.

Lemma range_NoDup n : NoDup (range n).
Proof.
  unfold range. apply Injective_map_NoDup; [|apply seq_NoDup].
  intros x y Hxy. lia.
Qed.

Lemma mapo_val {A B} (f : A -> outcome B) (g : A -> B) l :
  (forall x, In x l -> f x = Val (g x)) -> mapo f l = Val (map g l).
Proof.
  induction l as [|x l IH]; intros Hf; [reflexivity|].
  simpl. rewrite (Hf x) by now left. simpl. rewrite IH; [reflexivity|].
  intros y Hy. apply Hf. now right.
Qed.

Lemma mapo_inv {A B} (f : A -> outcome B) l r :
  mapo f l = Val r -> Forall2 (fun x y => f x = Val y) l r.
Proof.
  revert r; induction l as [|x l IH]; simpl; intros r Hr.
  - injection Hr as <-. constructor.
  - apply obind_val in Hr as [y [Hy Hr]].
    apply obind_val in Hr as [ys [Hys Hr]]. injection Hr as <-.
    constructor; [exact Hy | now apply IH].
Qed.

Lemma Forall2_mapo {A B} (f : A -> outcome B) l r :
  Forall2 (fun x y => f x = Val y) l r -> mapo f l = Val r.
Proof.
  induction 1 as [|x y l r Hxy Hlr IH]; [reflexivity|].
  simpl. rewrite Hxy. simpl. now rewrite IH.
Qed.

Lemma mapo_length {A B} (f : A -> outcome B) l r : mapo f l = Val r -> length r = length l.
Proof. intros Hm. apply mapo_inv in Hm. induction Hm; simpl; congruence. Qed.

Lemma mapo_app {A B} (f : A -> outcome B) l1 l2 :
  mapo f (l1 ++ l2) = let! r1 := mapo f l1 in let! r2 := mapo f l2 in Val (r1 ++ r2).
Proof.
  induction l1 as [|x l1 IH]; simpl.
  - destruct (mapo f l2); reflexivity.
  - destruct (f x); simpl; [|reflexivity]. rewrite IH.
    destruct (mapo f l1); simpl; [|reflexivity].
    destruct (mapo f l2); reflexivity.
Qed.

Lemma foldo_app {A S} (f : S -> A -> outcome S) l1 l2 s :
  foldo f (l1 ++ l2) s = let! s' := foldo f l1 s in foldo f l2 s'.
Proof.
  revert s; induction l1 as [|x l1 IH]; intros s; simpl; [reflexivity|].
  destruct (f s x); simpl; [apply IH | reflexivity].
Qed.
