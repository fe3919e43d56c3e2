(** * IntFacts: integer coordinates. *)
From Coq Require Import List NArith ZArith Bool Lia.
From Verif Require Import Base BaseFacts Num Axis Spec.
Import ListNotations.

Lemma in_range_true t z : fits t z -> in_range t z = true.
Proof. unfold fits, in_range. intros Hz. apply andb_true_iff. rewrite !Z.leb_le. lia. Qed.

Lemma in_range_false t z : ~ fits t z -> in_range t z = false.
Proof.
  unfold fits, in_range. intros Hz.
  destruct (int_min t <=? z)%Z eqn:E1; [|reflexivity].
  destruct (z <=? int_max t)%Z eqn:E2; [|reflexivity].
  apply Z.leb_le in E1, E2. lia.
Qed.

Lemma in_range_fits t z : in_range t z = true <-> fits t z.
Proof. unfold fits, in_range. rewrite andb_true_iff, !Z.leb_le. lia. Qed.

Lemma primitive_bounds t : primitive_int t -> (int_min t <= 0 /\ 127 <= int_max t)%Z.
Proof.
  intros [w [Hw [-> | ->]]]; unfold signed, unsigned; simpl.
  - assert (2 ^ 7 <= 2 ^ (w - 1))%Z by (apply Z.pow_le_mono_r; lia). lia.
  - assert (2 ^ 7 <= 2 ^ w)%Z by (apply Z.pow_le_mono_r; lia). lia.
Qed.

Section Ops.
Context `{Build}.
Variable t : int_type.

Lemma int_result_ok z : fits t z -> int_result t z = Val z.
Proof. intros Hz. unfold int_result. now rewrite in_range_true. Qed.

Lemma int_div_ok a b : b <> 0%Z -> fits t (Z.quot a b) -> int_div t a b = Val (Z.quot a b).
Proof.
  intros Hb Hq. unfold int_div. apply Z.eqb_neq in Hb. rewrite Hb. now rewrite in_range_true.
Qed.

Lemma int_rem_ok a b : b <> 0%Z -> fits t (Z.quot a b) -> int_rem t a b = Val (Z.rem a b).
Proof.
  intros Hb Hq. unfold int_rem. apply Z.eqb_neq in Hb. rewrite Hb. now rewrite in_range_true.
Qed.

Lemma int_from_usize_ok n : fits t (Z.of_N n) -> @n_from_usize _ (int_ops t) n = Some (Z.of_N n).
Proof. intros Hn. simpl. now rewrite in_range_true. Qed.

Lemma int_to_usize_ok z : (0 <= z < Z.of_N usize_mod)%Z -> @n_to_usize _ (int_ops t) z = Some (Z.to_N z).
Proof.
  intros Hz. simpl.
  destruct (Z.leb_spec 0 z); [|lia].
  change 18446744073709551616%Z with (Z.of_N usize_mod).
  destruct (Z.ltb_spec z (Z.of_N usize_mod)); [reflexivity | lia].
Qed.

Lemma int_lt a b : @lt_ _ (@num_ord _ (int_ops t)) a b = (a <? b)%Z.
Proof. reflexivity. Qed.
Lemma int_le a b : @le_ _ (@num_ord _ (int_ops t)) a b = (a <=? b)%Z.
Proof. unfold le_; simpl. unfold Z.leb. destruct (a ?= b)%Z; reflexivity. Qed.
Lemma int_gt a b : @gt_ _ (@num_ord _ (int_ops t)) a b = (b <? a)%Z.
Proof. unfold gt_; simpl. unfold Z.ltb. rewrite (Z.compare_antisym a b). destruct (a ?= b)%Z; reflexivity. Qed.
Lemma int_ge a b : @ge_ _ (@num_ord _ (int_ops t)) a b = (b <=? a)%Z.
Proof. unfold ge_; simpl. unfold Z.leb. rewrite (Z.compare_antisym a b). destruct (a ?= b)%Z; reflexivity. Qed.
Lemma int_eq a b : @eq_ _ (@num_ord _ (int_ops t)) a b = (a =? b)%Z.
Proof. unfold eq_; simpl. unfold Z.eqb. destruct (Z.compare_spec a b) as [->|Hlt|Hlt].
  - destruct b; simpl; try reflexivity; symmetry; apply Pos.eqb_refl.
  - destruct a, b; simpl; try reflexivity; try lia; symmetry; apply Pos.eqb_neq; lia.
  - destruct a, b; simpl; try reflexivity; try lia; symmetry; apply Pos.eqb_neq; lia.
Qed.

(** The interval semantics used in the generic theorems is the integer one. *)
Lemma contains_int b x : @contains _ (@num_ord _ (int_ops t)) b x <-> containsZ b x.
Proof.
  destruct b as [e|s|s e]; unfold contains, containsZ; rewrite ?int_lt, ?int_ge;
    rewrite ?Z.ltb_lt, ?Z.leb_le; lia.
Qed.
End Ops.
