(** * FloatOrd: the order of IEEE-754 floats satisfies the laws of OrdLaws.v. *)
From Coq Require Import ZArith NArith Bool Lia Reals Lra.
From Flocq Require Import Core IEEE754.BinarySingleNaN.
From Verif Require Import Base Num Axis Spec OrdLaws Float.

Section FloatOrd.
Variable prec emax : Z.
Context (prec_gt_0_ : Prec_gt_0 prec).
Context (prec_lt_emax_ : Prec_lt_emax prec emax).
Context {Bd : Build}.
Notation flt := (binary_float prec emax).
Notation ops := (float_ops prec emax prec_gt_0_ prec_lt_emax_).

(** Not NaN. *)
Definition float_is_num (x : flt) : bool := negb (is_nan x).

(** Position of an infinity relative to the finite numbers. *)
Definition infinity_class (x : flt) : Z :=
  match x with B754_infinity true => -1 | B754_infinity false => 1 | _ => 0 end.

Lemma Bcompare_key (x y : flt) : is_nan x = false -> is_nan y = false ->
  Bcompare x y = Some (match Z.compare (infinity_class x) (infinity_class y) with
                       | Eq => Rcompare (B2R x) (B2R y)
                       | c => c
                       end).
Proof.
  intros Hx Hy.
  destruct (is_finite x) eqn:Fx, (is_finite y) eqn:Fy.
  - rewrite Bcompare_correct by assumption.
    destruct x as [|[]| |], y as [|[]| |]; try discriminate; reflexivity.
  - destruct y as [|[]| |]; try discriminate; destruct x as [|[]| |[]]; try discriminate; reflexivity.
  - destruct x as [|[]| |]; try discriminate; destruct y as [|[]| |[]]; try discriminate; reflexivity.
  - destruct x as [|[]| |], y as [|[]| |]; try discriminate; simpl; try reflexivity;
      rewrite Rcompare_Eq; reflexivity.
Qed.

Lemma Bcompare_nan_l (x y : flt) : is_nan x = true -> Bcompare x y = None.
Proof. destruct x; try discriminate. reflexivity. Qed.
Lemma Bcompare_nan_r (x y : flt) : is_nan y = true -> Bcompare x y = None.
Proof. destruct y; try discriminate. now destruct x as [|[]| |[]]. Qed.

Lemma float_ord_laws : ord_laws (@num_ord _ ops) float_is_num.
Proof.
  constructor; unfold float_is_num; simpl.
  - intros x y Hx Hy. apply negb_true_iff in Hx, Hy. rewrite Bcompare_key by assumption. eauto.
  - intros x y Hx. apply negb_false_iff in Hx. now apply Bcompare_nan_l.
  - intros x y. simpl. rewrite Bcompare_swap. destruct (Bcompare y x) as [[]|]; reflexivity.
  - intros x Hx. apply negb_true_iff in Hx. rewrite Bcompare_key by assumption.
    rewrite Z.compare_refl, Rcompare_Eq; reflexivity.
  - intros x y z. unfold le_; simpl.
    destruct (is_nan x) eqn:Nx; [rewrite Bcompare_nan_l by assumption; discriminate|].
    destruct (is_nan y) eqn:Ny; [rewrite (Bcompare_nan_r x y) by assumption; discriminate|].
    destruct (is_nan z) eqn:Nz; [rewrite (Bcompare_nan_r y z) by assumption; intros _; discriminate|].
    rewrite !Bcompare_key by assumption.
    destruct (Z.compare_spec (infinity_class x) (infinity_class y)) as [E1|E1|E1];
    destruct (Z.compare_spec (infinity_class y) (infinity_class z)) as [E2|E2|E2];
    destruct (Z.compare_spec (infinity_class x) (infinity_class z)) as [E3|E3|E3];
      try discriminate; try reflexivity; try lia;
    destruct (Rcompare_spec (B2R x) (B2R y)) as [R1|R1|R1];
    destruct (Rcompare_spec (B2R y) (B2R z)) as [R2|R2|R2];
    destruct (Rcompare_spec (B2R x) (B2R z)) as [R3|R3|R3];
      try discriminate; try reflexivity; lra.
Qed.
End FloatOrd.

Lemma f64_ord_laws {Bd : Build} : ord_laws (@num_ord _ f64_ops) (float_is_num 53 1024).
Proof. exact (float_ord_laws 53 1024 prec64 emax64). Qed.
