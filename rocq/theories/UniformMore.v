(** * UniformMore: constructors, NoFlow and Cyclic wrappers (lemmas for C08, C09, C10). *)
From Coq Require Import List NArith ZArith Bool Lia ZifyBool ZifyN.
From Verif Require Import Base BaseFacts Num Axis Spec IntFacts Uniform UniformInt.
Import ListNotations.
Open Scope Z_scope.

(** ** NoFlow over any numeric type *)
Section NoFlow.
Context `{Build} {T : Type} (ops : NumOps T).

Lemma noflow_num_bins (a : Uniform T) : (u_num a + 2 < usize_mod)%N ->
  uniformnoflow_num_bins (mkUniformNoFlow a) = Val (u_num a).
Proof.
  intros Hu. unfold uniformnoflow_num_bins, uniform_num_bins. cbn [unf_axis].
  rewrite uadd_ok by exact Hu. cbn [obind]. rewrite usub_ok by lia. f_equal. lia.
Qed.

Lemma noflow_index_val (a : Uniform T) x i : (u_num a + 2 < usize_mod)%N ->
  uniform_index ops a x = Val (Some i) -> (i + 1 < usize_mod)%N ->
  uniformnoflow_index ops (mkUniformNoFlow a) x
  = Val (if (i =? 0)%N then None else if (i =? u_num a + 1)%N then None else Some (i - 1)%N).
Proof.
  intros Hu Hi Hov. unfold uniformnoflow_index, uniform_num_bins. cbn [unf_axis].
  rewrite Hi. cbn [obind].
  destruct (N.eqb_spec i 0); [reflexivity|].
  rewrite uadd_ok by exact Hov. cbn [obind].
  rewrite uadd_ok by exact Hu. cbn [obind].
  destruct (N.eqb_spec (i + 1) (u_num a + 2)).
  - destruct (N.eqb_spec i (u_num a + 1)); [reflexivity | lia].
  - destruct (N.eqb_spec i (u_num a + 1)); [lia|].
    rewrite usub_ok by lia. reflexivity.
Qed.

Lemma noflow_index_panic (a : Uniform T) x :
  uniform_index ops a x = Panic -> uniformnoflow_index ops (mkUniformNoFlow a) x = Panic.
Proof. intros Hp. unfold uniformnoflow_index. cbn [unf_axis]. now rewrite Hp. Qed.

Lemma noflow_bin_in (a : Uniform T) i : (u_num a + 2 < usize_mod)%N -> (i < u_num a)%N ->
  uniformnoflow_bin ops (mkUniformNoFlow a) i = uniform_bin ops a (i + 1).
Proof.
  intros Hu Hi. unfold uniformnoflow_bin. cbn [unf_axis].
  rewrite uadd_ok by lia. cbn [obind].
  assert (Hb : uniform_bin ops a (i + 1) = Panic \/ uniform_bin ops a (i + 1) = Val None
               \/ exists s e, uniform_bin ops a (i + 1) = Val (Some (Bin s e))).
  { unfold uniform_bin. destruct (N.eqb_spec (i + 1) 0); [lia|].
    rewrite uadd_ok by lia. cbn [obind].
    destruct (N.eqb_spec (i + 1) (u_num a + 1)); [lia|].
    destruct (N.ltb_spec (u_num a + 1) (i + 1)); [lia|].
    rewrite usub_ok by lia. cbn [obind].
    destruct (uniform_edge ops a (i + 1 - 1)) as [[s|]|]; cbn [obind]; auto.
    destruct (uniform_edge ops a (i + 1)) as [[e|]|]; cbn [obind]; eauto. }
  destruct Hb as [-> | [-> | [s [e ->]]]]; reflexivity.
Qed.

Lemma noflow_bin_out (a : Uniform T) i : (u_num a + 2 < usize_mod)%N ->
  (u_num a <= i)%N -> (i + 1 < usize_mod)%N ->
  uniformnoflow_bin ops (mkUniformNoFlow a) i = Val None.
Proof.
  intros Hu Hi Hov. unfold uniformnoflow_bin, uniform_bin. cbn [unf_axis].
  rewrite uadd_ok by lia. cbn [obind].
  destruct (N.eqb_spec (i + 1) 0); [lia|].
  rewrite uadd_ok by lia. cbn [obind].
  destruct (N.eqb_spec (i + 1) (u_num a + 1)); [reflexivity|].
  destruct (N.ltb_spec (u_num a + 1) (i + 1)); [reflexivity | lia].
Qed.
End NoFlow.

(** ** Cyclic over integers *)
Section Cyclic.
Context `{Build}.
Variable t : int_type.
Notation ops := (int_ops t).

Lemma wrap_int lo hi x :
  primitive_int t -> fits t lo -> fits t hi -> lo < hi -> fits t (hi - lo) -> fits t (x - lo) ->
  wrap_coordinate ops lo hi x = Val (lo + (x - lo) mod (hi - lo)).
Proof.
  intros Ht Hlo Hhi Hlt Hr Hd. pose proof (primitive_bounds t Ht) as [Hmin Hmax].
  unfold wrap_coordinate. cbn [n_sub n_rem n_add n_zero int_ops].
  rewrite int_result_ok by exact Hr. cbn [obind].
  rewrite int_result_ok by exact Hd. cbn [obind].
  set (R := hi - lo) in *. set (d := x - lo) in *.
  assert (Hq : fits t (Z.quot d R)).
  { destruct (Z_le_gt_dec 0 d) as [Hpos|Hneg].
    - pose proof (Z.quot_pos d R Hpos ltac:(lia)).
      pose proof (Z.quot_le_upper_bound d R d ltac:(lia) ltac:(nia)). unfold fits in *. lia.
    - pose proof (Z.quot_le_lower_bound d R d ltac:(lia) ltac:(nia)).
      assert (Z.quot d R <= 0) by (apply Z.quot_le_upper_bound; lia).
      unfold fits in *. lia. }
  rewrite int_rem_ok by (try exact Hq; lia). cbn [obind].
  rewrite int_lt.
  pose proof (Z.quot_rem' d R) as Hqr.
  destruct (Z.ltb_spec (Z.rem d R) 0) as [Hn|Hp].
  - assert (Hdneg : d < 0).
    { destruct (Z_lt_le_dec d 0) as [|Hge]; [assumption|].
      pose proof (Z.rem_nonneg d R ltac:(lia) Hge). lia. }
    pose proof (Z.rem_bound_abs d R ltac:(lia)) as Hb.
    rewrite int_result_ok by (unfold fits in *; lia). cbn [obind].
    assert (Hm : d mod R = R + Z.rem d R).
    { symmetry. apply Z.mod_unique with (q := Z.quot d R - 1); lia. }
    rewrite int_result_ok by (unfold fits in *; lia). f_equal. lia.
  - cbn [obind].
    assert (Hb : Z.rem d R < R).
    { destruct (Z_lt_le_dec d 0) as [Hdn|Hge].
      - pose proof (Z.rem_bound_abs d R ltac:(lia)). lia.
      - pose proof (Z.rem_bound_pos_pos d R ltac:(lia) ltac:(lia)). lia. }
    assert (Hm : d mod R = Z.rem d R).
    { symmetry. apply Z.mod_unique with (q := Z.quot d R); lia. }
    rewrite int_result_ok by (unfold fits in *; lia). f_equal. lia.
Qed.

Lemma wrap_int_panics lo hi x :
  overflow_checks = true -> fits t (hi - lo) -> ~ fits t (x - lo) ->
  wrap_coordinate ops lo hi x = Panic.
Proof.
  intros Hc Hr Hd. unfold wrap_coordinate. cbn [n_sub int_ops].
  rewrite int_result_ok by exact Hr. cbn [obind].
  unfold int_result. now rewrite in_range_false, Hc.
Qed.

Lemma cyclic_index num low step x :
  valid_int_params t num low step -> fits t (x - low) ->
  uniformcyclic_index ops
    (mkUniformCyclic (mkUniformNoFlow (mkUniform num low (low + Z.of_N num * step) step))) x
  = Val (Some (Z.to_N (((x - low) mod (Z.of_N num * step)) / step))).
Proof.
  intros HV Hd. pose proof HV as [Ht Hn Hu Hf Hl Hs Hw Hh].
  unfold uniformcyclic_index. cbn [uc_axis unf_axis u_low u_high].
  assert (Hw0 : 0 < Z.of_N num * step) by nia.
  rewrite wrap_int; try assumption; try lia.
  2:{ replace (low + Z.of_N num * step - low) with (Z.of_N num * step) by lia. exact Hw. }
  cbn [obind].
  replace (low + Z.of_N num * step - low) with (Z.of_N num * step) by lia.
  set (R := Z.of_N num * step) in *.
  pose proof (Z.mod_pos_bound (x - low) R Hw0) as Hm.
  pose proof (index_inside t num low step (low + (x - low) mod R) HV ltac:(lia)) as Hi.
  replace (low + (x - low) mod R - low) with ((x - low) mod R) in Hi by lia.
  assert (Hq0 : 0 <= (x - low) mod R / step) by (apply Z.div_pos; lia).
  assert (Hq1 : (x - low) mod R / step < Z.of_N num) by (apply Z.div_lt_upper_bound; lia).
  erewrite noflow_index_val; [| cbn; lia | exact Hi | lia].
  cbn [u_num].
  destruct (N.eqb_spec (Z.to_N ((x - low) mod R / step) + 1) 0); [lia|].
  destruct (N.eqb_spec (Z.to_N ((x - low) mod R / step) + 1) (num + 1)); [lia|].
  do 2 f_equal. lia.
Qed.

End Cyclic.
