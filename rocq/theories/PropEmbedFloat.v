(** * PropEmbedFloat: coordinate types with the same order: f32 and f64, integers and
    floats, other units (C83), on Variable axes and for client programs. *)
From Coq Require Import List ZArith NArith Bool Lia Reals Lra.
From Flocq Require Import Core IEEE754.BinarySingleNaN.
From Verif Require Import Base BaseFacts Num Float Axis StdAlgo StdContract VarAxis Axes Value VecHist HashHist HistSpec Program SimSpec SimFacts EqFacts
  Uniform GridSpec PropEq PropBuilds PropFloatGrid PropUnits PropEmbed.
Import ListNotations.
Open Scope R_scope.

(** The same number in two binary formats. *)
Definition same_number {p1 e1 p2 e2 : Z} (x : binary_float p1 e1) (y : binary_float p2 e2) : Prop :=
  (is_finite x = true /\ is_finite y = true /\ B2R x = B2R y)
  \/ (x = B754_nan /\ y = B754_nan) \/ (exists s, x = B754_infinity s /\ y = B754_infinity s).

(** C83. f32 and f64 coordinates, integers and their floating-point values, and
    coordinates in other units compare alike. *)
Theorem C83_comparisons :
  (forall p1 e1 P1 E1 p2 e2 P2 E2 {Bd : Build}, compare_alike (@num_ord _ (float_ops p1 e1 P1 E1)) (@num_ord _ (float_ops p2 e2 P2 E2)) same_number)
  /\ (forall t p e P E {Bd : Build}, compare_alike (@num_ord _ (int_ops t)) (@num_ord _ (float_ops p e P E)) (fun z x => is_finite x = true /\ B2R x = IZR z))
  /\ (forall k p e P E {Bd : Build}, compare_alike (@num_ord _ (float_ops p e P E)) (@num_ord _ (float_ops p e P E)) (in_units k)).
Proof.
  assert (HI : forall p e (s : bool) (x : binary_float p e), is_finite x = true ->
    Bcompare (B754_infinity s) x = Some (if s then Lt else Gt) /\ Bcompare x (B754_infinity s) = Some (if s then Gt else Lt)).
  { intros p e s [?|?| |? ? ? ?]; try discriminate; intros _; destruct s; auto. }
  split; [|split].
  - intros p1 e1 P1 E1 p2 e2 P2 E2 Bd a a' b b' Ha Hb. cbn [partial_cmp num_ord float_ops].
    destruct Ha as [[Fa [Fa' Va]]|[[-> ->]|[s [-> ->]]]]; [| reflexivity |].
    + destruct Hb as [[Fb [Fb' Vb]]|[[-> ->]|[s [-> ->]]]].
      * rewrite !Bcompare_correct by assumption. rewrite Va, Vb. reflexivity.
      * destruct a as [?|?| |? ? ? ?], a' as [?|?| |? ? ? ?]; reflexivity.
      * rewrite (proj2 (HI _ _ s a Fa)), (proj2 (HI _ _ s a' Fa')). reflexivity.
    + destruct Hb as [[Fb [Fb' Vb]]|[[-> ->]|[s' [-> ->]]]]; [| reflexivity | reflexivity].
      rewrite (proj1 (HI _ _ s b Fb)), (proj1 (HI _ _ s b' Fb')). reflexivity.
  - intros t p e P E Bd a a' b b' [Fa Va] [Fb Vb]. cbn [partial_cmp num_ord float_ops int_ops].
    rewrite Bcompare_correct by assumption. rewrite Va, Vb, Rcompare_IZR. reflexivity.
  - intros k p e P E Bd a a' b b' [[Fa [Fa' Va]]|[Fa ->]] [[Fb [Fb' Vb]]|[Fb ->]]; cbn [partial_cmp num_ord float_ops]; [| | |reflexivity].
    + rewrite !Bcompare_correct by assumption. rewrite Va, Vb, Rcompare_mult_r by apply bpow_gt_0. reflexivity.
    + destruct b as [?|s| |? ? ? ?]; try discriminate Fb; [|destruct a as [?|?| |? ? ? ?], a' as [?|?| |? ? ? ?]; reflexivity].
      rewrite (proj2 (HI _ _ s a Fa)), (proj2 (HI _ _ s a' Fa')). reflexivity.
    + destruct a as [?|s| |? ? ? ?]; try discriminate Fa; [|destruct b as [?|?| |? ? ? ?], b' as [?|?| |? ? ? ?]; reflexivity].
      rewrite (proj1 (HI _ _ s b Fb)), (proj1 (HI _ _ s b' Fb')). reflexivity.
Qed.
Print Assumptions C83_comparisons.

(** Every number of a format is a number of a wider one: every f32 has its f64. *)
Theorem C83_widening p1 e1 p2 e2 (P1 : Prec_gt_0 p1) (E1 : Prec_lt_emax p1 e1) (P2 : Prec_gt_0 p2) (E2 : Prec_lt_emax p2 e2) (x : binary_float p1 e1) :
  (p1 <= p2)%Z -> (e1 <= e2)%Z -> (e1 + p1 <= e2 + p2)%Z -> exists y : binary_float p2 e2, same_number x y.
Proof.
  intros Hp He Hm. destruct x as [s|s| |s m e Hb].
  - exists (B754_zero s). left. auto.
  - exists (B754_infinity s). right. right. eauto.
  - exists B754_nan. right. left. auto.
  - set (x := B754_finite s m e Hb).
    pose proof (binary_normalize_correct p2 e2 P2 E2 mode_NE (cond_Zopp s (Zpos m)) e s) as H. cbv zeta in H.
    assert (Hx : F2R (Float radix2 (cond_Zopp s (Zpos m)) e) = B2R x) by reflexivity.
    rewrite Hx in H.
    assert (Hfmt : generic_format radix2 (SpecFloat.fexp p2 e2) (B2R x)).
    { apply generic_inclusion_mag with (fexp1 := SpecFloat.fexp p1 e1); [|apply generic_format_B2R].
      intros _. unfold SpecFloat.fexp, SpecFloat.emin. lia. }
    assert (Hr : round radix2 (SpecFloat.fexp p2 e2) (round_mode mode_NE) (B2R x) = B2R x) by (apply round_generic; [apply valid_rnd_N | exact Hfmt]).
    rewrite Hr, Rlt_bool_true in H.
    + destruct H as [V [F _]]. eexists. left. split; [reflexivity|]. split; [exact F | symmetry; exact V].
    + apply Rlt_le_trans with (bpow radix2 e1); [apply abs_B2R_lt_emax | apply bpow_le; exact He].
Qed.
Print Assumptions C83_widening.

(** Client programs over one-dimensional histograms with a Variable axis, in either
    coordinate type. *)
Theorem C83_programs {Bd : Build} (search : searcher) {T1 T2 V D W R : Type} {FV : Fill V} {FD : FillWith V D} {FW : FillWithWeighted V D W} {DV : Default V}
    (o1 : PartialOrdOps T1) (o2 : PartialOrdOps T2) (RC : T1 -> T2 -> Prop)
    (p : program (AX := @axes1_axis _ (@variable_axis Bd search T1 o1)) V D W R) (p' : program (AX := @axes1_axis _ (@variable_axis Bd search T2 o2)) V D W R) :
  compare_alike o1 o2 RC -> search_extensional search ->
  let RA a a' := Forall2 RC (v_edges (ax1_axis a)) (v_edges (ax1_axis a')) /\ ax1_shape a = ax1_shape a' in
  let AX1 := @axes1_axis _ (@variable_axis Bd search T1 o1) in let AE1 := @axes1_eq _ {| axis_eqb := @variable_eqb T1 o1 |} in
  let AX2 := @axes1_axis _ (@variable_axis Bd search T2 o2) in let AE2 := @axes1_eq _ {| axis_eqb := @variable_eqb T2 o2 |} in
  same_program AX1 AX2 RA RC (interval_rel RC) p p' ->
  (forall r st, dense_run (AX := AX1) (AE := AE1) p (fun _ => None) = Val (r, st) ->
     exists st', dense_run (AX := AX2) (AE := AE2) p' (fun _ => None) = Val (r, st') /\ same_store (same_dense RA) st st')
  /\ (forall r st, sparse_run (AX := AX1) (AE := AE1) p (fun _ => None) (Val (r, st)) ->
     exists st', sparse_run (AX := AX2) (AE := AE2) p' (fun _ => None) (Val (r, st')) /\ same_store (same_sparse RA) st st').
Proof.
  intros HR HS RA AX1 AE1 AX2 AE2 Hp.
  refine (C73_programs (AX1 := AX1) (AE1 := AE1) (AX2 := AX2) (AE2 := AE2) RA (RC : @Coordinate _ AX1 -> @Coordinate _ AX2 -> Prop)
    (interval_rel RC : @Interval _ AX1 -> @Interval _ AX2 -> Prop) p p' _ _ Hp).
  - exact (proj1 (C73_one_dim _ _ _ _ _ _ _ (proj1 (C83_variable_axes search o1 o2 RC HR HS)))).
  - split; intros; apply refines_refl.
Qed.
Print Assumptions C83_programs.

(** ** The hypotheses are met *)
Section Example.
(** Edges 0, 1, 3 as i32 and as f64. *)
Definition ex83_int : list Z := [3; 0; 1]%Z.
Definition ex83_f64 : list f64 := [f64_lit 3 0; f64_lit 0 0; f64_lit 1 0].
Example C83_nonvacuous (Bd : Build) :
  let R (z : Z) (x : f64) := is_finite x = true /\ B2R x = IZR z in
  Forall2 R ex83_int ex83_f64 /\ search_extensional bsearch_early /\ sort_parametric insertion_sort
  /\ exists a a', variable_new insertion_sort (H0 := @num_ord _ (int_ops (signed 32))) ex83_int = Val (Ok a)
     /\ variable_new insertion_sort (H0 := @num_ord _ f64_ops) ex83_f64 = Val (Ok a') /\ Forall2 R (v_edges a) (v_edges a')
     /\ variable_index (H0 := @num_ord _ (int_ops (signed 32))) bsearch_early a 1%Z = Val (Some 2%N)
     /\ variable_index (H0 := @num_ord _ f64_ops) bsearch_early a' (f64_lit 1 0) = Val (Some 2%N).
Proof.
  assert (HG : forall m : Z, (Z.abs m <= 2 ^ 53)%Z -> is_finite (f64_lit m 0) = true /\ B2R (f64_lit m 0) = IZR m).
  { intros m Hm. destruct (f64_grid m 0 Hm) as [F V]; [split; lia|]. unfold f64 in *. split; [exact F|]. rewrite V. cbn [bpow]. ring. }
  intros R.
  assert (HL : Forall2 R ex83_int ex83_f64) by (repeat (constructor; [apply HG; cbn; lia|]); constructor).
  split; [exact HL|]. split; [exact bsearch_early_ext|]. split; [exact insertion_sort_parametric|].
  eexists. eexists. split; [vm_compute; reflexivity|]. split; [reflexivity|].
  split; [repeat (constructor; [apply HG; cbn; lia|]); constructor|].
  split; [destruct Bd as [? []]; vm_compute; reflexivity | destruct Bd as [? []]; vm_compute; reflexivity].
Qed.
End Example.
