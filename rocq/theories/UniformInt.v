(** * UniformInt: uniform axes over integer coordinates (lemmas for C01, C02, C08-C10). *)
From Coq Require Import List NArith ZArith Bool Lia ZifyBool ZifyN.
From Verif Require Import Base BaseFacts Num Axis Spec IntFacts Uniform.
Import ListNotations.
Open Scope Z_scope.

Section UniformInt.
Context `{Build}.
Variable t : int_type.
Notation ops := (int_ops t).

Lemma with_step_size_ok num low step :
  valid_int_params t num low step ->
  uniform_with_step_size ops num low step
  = Val (Ok (mkUniform num low (low + Z.of_N num * step) step)).
Proof.
  intros [Ht Hn Hu Hf Hl Hs Hw Hh]. unfold uniform_with_step_size.
  rewrite int_from_usize_ok by exact Hf.
  cbn [n_mul n_add int_ops]. rewrite int_result_ok by exact Hw. cbn [obind].
  rewrite int_result_ok by (rewrite Z.add_comm; exact Hh). cbn [obind].
  destruct (N.eqb_spec num 0); [lia|].
  rewrite int_le. cbn [n_zero int_ops].
  destruct (Z.leb_spec step 0); [lia|].
  rewrite int_gt.
  destruct (Z.ltb_spec (Z.of_N num * step + low) low); [lia|].
  do 3 f_equal. lia.
Qed.

Lemma index_below a x : x < u_low a -> uniform_index ops a x = Val (Some 0%N).
Proof.
  intros Hx. unfold uniform_index. rewrite int_lt.
  destruct (Z.ltb_spec x (u_low a)); [reflexivity | lia].
Qed.

Lemma index_above a x : u_low a <= x -> u_high a <= x -> (u_num a + 2 < usize_mod)%N ->
  uniform_index ops a x = Val (Some (u_num a + 1)%N).
Proof.
  intros Hl Hh Hu. unfold uniform_index. rewrite int_lt, int_ge.
  destruct (Z.ltb_spec x (u_low a)); [lia|].
  destruct (Z.leb_spec (u_high a) x); [|lia].
  rewrite uadd_ok by lia. reflexivity.
Qed.

Lemma index_inside num low step x :
  valid_int_params t num low step ->
  low <= x < low + Z.of_N num * step ->
  uniform_index ops (mkUniform num low (low + Z.of_N num * step) step) x
  = Val (Some (Z.to_N ((x - low) / step) + 1)%N).
Proof.
  intros [Ht Hn Hu Hf Hl Hs Hw Hh] Hx.
  pose proof (primitive_bounds t Ht) as [Hmin Hmax].
  unfold uniform_index. cbn [u_low u_high u_num u_step].
  rewrite int_lt, int_ge.
  destruct (Z.ltb_spec x low); [lia|].
  destruct (Z.leb_spec (low + Z.of_N num * step) x); [lia|].
  cbn [n_sub n_div int_ops].
  rewrite int_result_ok by (unfold fits in *; lia). cbn [obind].
  assert (Hq : Z.quot (x - low) step = (x - low) / step) by (apply Z.quot_div_nonneg; lia).
  assert (Hq0 : 0 <= (x - low) / step) by (apply Z.div_pos; lia).
  assert (Hq1 : (x - low) / step < Z.of_N num) by (apply Z.div_lt_upper_bound; lia).
  rewrite int_div_ok; [| lia | rewrite Hq; unfold fits in *; lia].
  cbn [obind]. rewrite Hq, int_to_usize_ok by lia.
  rewrite uadd_ok by lia. reflexivity.
Qed.

(** The partition. *)
Lemma index_spec num low step x :
  valid_int_params t num low step ->
  exists i,
    uniform_index ops (mkUniform num low (low + Z.of_N num * step) step) x = Val (Some i)
    /\ (i <= num + 1)%N
    /\ (i = 0%N <-> x < low)
    /\ (i = (num + 1)%N <-> low + Z.of_N num * step <= x)
    /\ (forall k : N, (1 <= k <= num)%N ->
          (i = k <-> low + (Z.of_N k - 1) * step <= x < low + Z.of_N k * step)).
Proof.
  intros HV. pose proof HV as [Ht Hn Hu Hf Hl Hs Hw Hh].
  assert (Hw1 : step <= Z.of_N num * step) by nia.
  destruct (Z.ltb_spec x low) as [Hlt|Hge].
  - exists 0%N. rewrite index_below by exact Hlt.
    split; [reflexivity|]. split; [lia|]. split; [lia|]. split; [lia|].
    intros k Hk. split; [lia|]. intros [H1 _]. nia.
  - destruct (Z.leb_spec (low + Z.of_N num * step) x) as [Hhi|Hlo].
    + exists (num + 1)%N. rewrite index_above by (cbn; lia).
      split; [reflexivity|]. split; [lia|]. split; [lia|]. split; [lia|].
      intros k Hk. split; [lia|]. intros [_ H2]. nia.
    + exists (Z.to_N ((x - low) / step) + 1)%N.
      rewrite index_inside by (try exact HV; lia).
      assert (Hq0 : 0 <= (x - low) / step) by (apply Z.div_pos; lia).
      assert (Hq1 : (x - low) / step < Z.of_N num) by (apply Z.div_lt_upper_bound; lia).
      pose proof (Z.div_mod (x - low) step ltac:(lia)) as Hdm.
      pose proof (Z.mod_pos_bound (x - low) step Hs) as Hmb.
      split; [reflexivity|]. split; [lia|]. split; [lia|]. split; [lia|].
      intros k Hk. split.
      * intros Hik. assert (Hk' : (x - low) / step = Z.of_N k - 1) by lia.
        rewrite Hk' in Hdm. nia.
      * intros [Ha Hb]. 
        assert (Hd : (x - low) / step = Z.of_N k - 1).
        { symmetry. apply Z.div_unique with (r := x - low - step * (Z.of_N k - 1)); nia. }
        lia.
Qed.

(** bin(): no overflow of [i * (high - low)]. *)
Lemma edge_spec num low step i :
  valid_int_params t num low step ->
  fits t (Z.of_N num * (Z.of_N num * step)) ->
  (i <= num)%N ->
  uniform_edge ops (mkUniform num low (low + Z.of_N num * step) step) i
  = Val (Some (low + Z.of_N i * step)).
Proof.
  intros [Ht Hn Hu Hf Hl Hs Hw Hh] Hww Hi.
  pose proof (primitive_bounds t Ht) as [Hmin Hmax].
  unfold uniform_edge. cbn [u_low u_high u_num u_step].
  rewrite int_from_usize_ok by (unfold fits in *; lia).
  cbn [n_sub n_mul n_div n_add int_ops].
  rewrite int_result_ok by (replace (low + Z.of_N num * step - low) with (Z.of_N num * step) by lia; exact Hw).
  cbn [obind].
  replace (low + Z.of_N num * step - low) with (Z.of_N num * step) by lia.
  rewrite int_result_ok.
  2:{ unfold fits in *. assert (0 <= Z.of_N i * (Z.of_N num * step) <= Z.of_N num * (Z.of_N num * step)) by nia. lia. }
  cbn [obind].
  rewrite int_from_usize_ok by exact Hf.
  assert (Hq : Z.quot (Z.of_N i * (Z.of_N num * step)) (Z.of_N num) = Z.of_N i * step).
  { replace (Z.of_N i * (Z.of_N num * step)) with (Z.of_N i * step * Z.of_N num) by ring.
    apply Z.quot_mul. lia. }
  rewrite int_div_ok; [| lia | rewrite Hq; unfold fits in *; nia].
  cbn [obind]. rewrite Hq. rewrite int_result_ok; [reflexivity|].
  unfold fits in *. assert (0 <= Z.of_N i * step <= Z.of_N num * step) by nia. lia.
Qed.

Lemma bin_spec num low step i :
  valid_int_params t num low step ->
  fits t (Z.of_N num * (Z.of_N num * step)) ->
  uniform_bin ops (mkUniform num low (low + Z.of_N num * step) step) i
  = Val (if (i =? 0)%N then Some (Underflow low)
         else if (i <=? num)%N then Some (Bin (low + (Z.of_N i - 1) * step) (low + Z.of_N i * step))
         else if (i =? num + 1)%N then Some (Overflow (low + Z.of_N num * step))
         else None).
Proof.
  intros HV Hww. pose proof HV as [Ht Hn Hu Hf Hl Hs Hw Hh].
  unfold uniform_bin. cbn [u_low u_high u_num u_step].
  destruct (N.eqb_spec i 0); [reflexivity|].
  rewrite uadd_ok by lia. cbn [obind].
  destruct (N.eqb_spec i (num + 1)).
  - destruct (N.leb_spec i num); [lia | reflexivity].
  - destruct (N.ltb_spec (num + 1) i).
    + destruct (N.leb_spec i num); [lia | reflexivity].
    + destruct (N.leb_spec i num); [|lia].
      rewrite usub_ok by lia. cbn [obind].
      rewrite edge_spec by (try assumption; lia). cbn [obind].
      rewrite edge_spec by (try assumption; lia). cbn [obind].
      replace (Z.of_N (i - 1)) with (Z.of_N i - 1) by lia. reflexivity.
Qed.

Lemma num_bins_spec (a : Uniform Z) : (u_num a + 2 < usize_mod)%N ->
  uniform_num_bins a = Val (u_num a + 2)%N.
Proof. intros Hu. unfold uniform_num_bins. now apply uadd_ok. Qed.

End UniformInt.
