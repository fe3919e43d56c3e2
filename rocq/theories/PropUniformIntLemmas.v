(** * Proofs behind PropUniformInt.v. *)
From Coq Require Import List NArith ZArith Bool Lia ZifyBool ZifyN.
From Verif Require Import Base BaseFacts Num Axis Spec IntFacts Uniform UniformInt UniformMore.
Import ListNotations.
Open Scope Z_scope.

Lemma c01 : forall (B : Build) (t : int_type) num low step,
  valid_int_params t num low step ->
  exists a, uniform_with_step_size (int_ops t) num low step = Val (Ok a) /\
  forall x, fits t x ->
  exists i, uniform_index (int_ops t) a x = Val (Some i)
    /\ (i <= num + 1)%N
    /\ (i = 0%N <-> x < low)
    /\ (i = (num + 1)%N <-> low + Z.of_N num * step <= x)
    /\ (forall k : N, (1 <= k <= num)%N ->
          (i = k <-> low + (Z.of_N k - 1) * step <= x < low + Z.of_N k * step)).
Proof.
  intros B t num low step HV. eexists. split; [now apply with_step_size_ok|].
  intros x _. now apply index_spec.
Qed.

Ltac prim w := exists w; split; [lia | tauto].
Ltac vparams w :=
  constructor; [prim w | lia | reflexivity | split; vm_compute; discriminate
               | split; vm_compute; discriminate | lia
               | split; vm_compute; discriminate | split; vm_compute; discriminate].

Lemma c01_example : forall B : Build, valid_int_params (signed 8) 5 (-100) 25 /\ fits (signed 8) 24.
Proof. intros [c []]; (split; [vparams 8 | split; vm_compute; discriminate]). Qed.

Lemma c02_bins : forall (B : Build) (t : int_type) num low step,
  valid_int_params t num low step ->
  fits t (Z.of_N num * (Z.of_N num * step)) ->
  exists a, uniform_with_step_size (int_ops t) num low step = Val (Ok a)
  /\ uniform_num_bins a = Val (num + 2)%N
  /\ uniform_bin (int_ops t) a 0 = Val (Some (Underflow low))
  /\ (forall i, (1 <= i <= num)%N -> uniform_bin (int_ops t) a i
        = Val (Some (Bin (low + (Z.of_N i - 1) * step) (low + Z.of_N i * step))))
  /\ uniform_bin (int_ops t) a (num + 1) = Val (Some (Overflow (low + Z.of_N num * step)))
  /\ (forall i, (num + 2 <= i)%N -> uniform_bin (int_ops t) a i = Val None).
Proof.
  intros B t num low step HV Hw. eexists. split; [now apply with_step_size_ok|].
  pose proof HV as [Ht Hn Hu _ _ _ _ _].
  split; [apply num_bins_spec; exact Hu|].
  split; [now rewrite bin_spec|]. 
  split; [intros i Hi; rewrite bin_spec by assumption|
          split; [rewrite bin_spec by assumption | intros i Hi; rewrite bin_spec by assumption]];
    repeat match goal with
    | |- context [(?a =? ?b)%N] => destruct (N.eqb_spec a b); try lia
    | |- context [(?a <=? ?b)%N] => destruct (N.leb_spec a b); try lia
    end; reflexivity.
Qed.

Lemma c02_agree : forall (B : Build) (t : int_type) num low step,
  valid_int_params t num low step ->
  fits t (Z.of_N num * (Z.of_N num * step)) ->
  exists a, uniform_with_step_size (int_ops t) num low step = Val (Ok a)
  /\ (forall x, fits t x -> exists i b,
        uniform_index (int_ops t) a x = Val (Some i)
        /\ uniform_bin (int_ops t) a i = Val (Some b)
        /\ containsZ b x
        /\ forall j b', uniform_bin (int_ops t) a j = Val (Some b') -> containsZ b' x -> j = i)
  /\ (forall i b s, uniform_bin (int_ops t) a i = Val (Some b) -> bi_start b = Some s ->
        uniform_index (int_ops t) a s = Val (Some i)).
Proof.
  intros B t num low step HV Hw. eexists. split; [now apply with_step_size_ok|].
  pose proof HV as [Ht Hn Hu _ _ Hs _ _].
  assert (Hbin : forall i b, uniform_bin (int_ops t) (mkUniform num low (low + Z.of_N num * step) step) i = Val (Some b) ->
     (i <= num + 1)%N /\
     forall x, containsZ b x ->
     forall i', uniform_index (int_ops t) (mkUniform num low (low + Z.of_N num * step) step) x = Val (Some i') -> i' = i).
  { intros i b Hb. rewrite bin_spec in Hb by assumption.
    destruct (N.eqb_spec i 0); [|destruct (N.leb_spec i num); [|destruct (N.eqb_spec i (num + 1))]];
      try discriminate; injection Hb as <-; (split; [lia|]); cbn [containsZ]; intros x Hx i' Hi';
      destruct (index_spec t num low step x HV) as [i0 [Hi0 [H1 [H2 [H3 H4]]]]];
      rewrite Hi0 in Hi'; injection Hi' as <-.
    - lia.
    - apply H4; lia.
    - lia. }
  split.
  - intros x Hx.
    destruct (index_spec t num low step x HV) as [i [Hi [Hle [H0 [H1 Hk]]]]].
    exists i. 
    assert (Hb : exists b, uniform_bin (int_ops t) (mkUniform num low (low + Z.of_N num * step) step) i = Val (Some b) /\ containsZ b x).
    { rewrite bin_spec by assumption.
      destruct (N.eqb_spec i 0); [|destruct (N.leb_spec i num); [|destruct (N.eqb_spec i (num + 1)); [|lia]]];
        eexists; (split; [reflexivity|]); cbn [containsZ].
      - now apply H0.
      - apply Hk; lia.
      - now apply H1. }
    destruct Hb as [b [Hb Hc]]. exists b. repeat split; try assumption.
    intros j b' Hj Hc'. symmetry. destruct (Hbin _ _ Hj) as [_ Huniq]. eapply Huniq; eauto.
  - intros i b s Hb Hsb.
    destruct (Hbin _ _ Hb) as [Hle Huniq].
    destruct (index_spec t num low step s HV) as [i' [Hi' _]].
    rewrite Hi'. do 2 f_equal. eapply Huniq; [|exact Hi'].
    rewrite bin_spec in Hb by assumption.
    destruct (N.eqb_spec i 0); [|destruct (N.leb_spec i num); [|destruct (N.eqb_spec i (num + 1))]];
      try discriminate; injection Hb as <-; cbn [bi_start] in Hsb; try discriminate;
      injection Hsb as <-; cbn [containsZ]; lia.
Qed.

Lemma c02_example : forall B : Build, valid_int_params (signed 16) 5 (-100) 25
  /\ fits (signed 16) (Z.of_N 5 * (Z.of_N 5 * 25)).
Proof. intros [c []]; (split; [vparams 16 | split; vm_compute; discriminate]). Qed.

Lemma c02_refuted :
  exists num low step a x, forall B : Build,
    valid_int_params (signed 32) num low step
    /\ uniform_with_step_size (int_ops (signed 32)) num low step = Val (Ok a)
    /\ uniform_index (int_ops (signed 32)) a x = Val (Some 50000%N)
    /\ (overflow_checks = true -> uniform_bin (int_ops (signed 32)) a 50000 = Panic)
    /\ (overflow_checks = false -> exists b, uniform_bin (int_ops (signed 32)) a 50000 = Val (Some b) /\ ~ containsZ b x).
Proof.
  exists 60000%N, 0, 1, (mkUniform 60000%N 0 60000 1), 49999. intros [[] []].
  all: split; [vparams 32|]. all: split; [vm_compute; reflexivity|]. all: split; [vm_compute; reflexivity|].
  all: split; cbn [overflow_checks]; intros E; try discriminate E; clear E.
  1-3: vm_compute; reflexivity.
  all: eexists; split; [vm_compute; reflexivity|]; vm_compute; intros [H1 H2]; congruence.
Qed.

Lemma c08_int : forall (B : Build) (t : int_type) num low step,
  primitive_int t -> fits t low -> fits t step ->
  let r := uniform_with_step_size (int_ops t) num low step in
  let width := Z.of_N num * step in
  (~ fits t (Z.of_N num) -> r = Val (Err InvalidNumberOfBins))
  /\ (fits t (Z.of_N num) -> overflow_checks = true ->
        (r = Panic <-> ~ (fits t width /\ fits t (low + width))))
  /\ (fits t (Z.of_N num) -> fits t width -> fits t (low + width) ->
        (r = Val (Err InvalidNumberOfBins) <-> num = 0%N)
        /\ (r = Val (Err InvalidStepSize) <-> num <> 0%N /\ step <= 0)
        /\ ((exists a, r = Val (Ok a)) <-> num <> 0%N /\ 0 < step)
        /\ (forall a, r = Val (Ok a) ->
              u_num a = num /\ u_low a = low /\ u_high a = low + width /\ u_step a = step)).
Proof.
  intros B t num low step Ht Hl Hs r width.
  assert (Hok : fits t (Z.of_N num) -> fits t width -> fits t (low + width) ->
     r = if (num =? 0)%N then Val (Err InvalidNumberOfBins)
         else if (step <=? 0) then Val (Err InvalidStepSize)
         else Val (Ok (mkUniform num low (low + width) step))).
  { intros Hn Hw Hh. unfold r, uniform_with_step_size.
    rewrite int_from_usize_ok by exact Hn. cbn [n_mul n_add int_ops].
    rewrite int_result_ok by exact Hw. cbn [obind].
    rewrite int_result_ok by (rewrite Z.add_comm; exact Hh). cbn [obind].
    destruct (N.eqb_spec num 0); [reflexivity|].
    rewrite int_le. cbn [n_zero int_ops].
    destruct (Z.leb_spec step 0); [reflexivity|].
    rewrite int_gt. fold width.
    assert (0 < width) by (unfold width; nia).
    destruct (Z.ltb_spec (width + low) low); [lia|]. rewrite Z.add_comm. reflexivity. }
  split; [|split].
  - intros Hn. unfold r, uniform_with_step_size. cbn [n_from_usize int_ops].
    now rewrite in_range_false.
  - intros Hn Hc. split.
    + intros Hp [Hw Hh]. rewrite Hok in Hp by assumption.
      destruct (N.eqb_spec num 0); [discriminate|]. destruct (Z.leb_spec step 0); discriminate.
    + intros Hnf. unfold r, uniform_with_step_size.
      rewrite int_from_usize_ok by exact Hn. cbn [n_mul n_add int_ops]. fold width.
      destruct (in_range t width) eqn:Ew.
      * apply in_range_fits in Ew. rewrite int_result_ok by exact Ew. cbn [obind].
        unfold int_result. rewrite in_range_false by (rewrite Z.add_comm; tauto). now rewrite Hc.
      * unfold int_result. rewrite Ew, Hc. reflexivity.
  - intros Hn Hw Hh. rewrite (Hok Hn Hw Hh). clear Hok.
    destruct (N.eqb_spec num 0); [|destruct (Z.leb_spec step 0)].
    + split; [tauto|]. split; [split; [discriminate | lia]|].
      split; [split; [intros [a Ha]; discriminate | lia]|]. discriminate.
    + split; [split; [discriminate | lia]|]. split; [split; [lia | reflexivity]|].
      split; [split; [intros [a Ha]; discriminate | lia]|]. discriminate.
    + split; [split; [discriminate | lia]|]. split; [split; [discriminate | lia]|].
      split; [split; [lia | eauto]|]. intros a [= <-]. cbn. auto.
Qed.

Lemma c08_example :
  primitive_int (unsigned 8) /\ fits (unsigned 8) 5 /\ fits (unsigned 8) 10
  /\ fits (unsigned 8) (Z.of_N 20) /\ fits (unsigned 8) (Z.of_N 20 * 10)
  /\ fits (unsigned 8) (5 + Z.of_N 20 * 10).
Proof. split; [prim 8|]. repeat split; vm_compute; discriminate. Qed.

Lemma c08_wraps :
  forall w, let B := {| overflow_checks := false; target_width := w |} in
  exists a, @uniform_with_step_size Z (@int_ops B (signed 8)) 3 100 20 = Val (Ok a)
    /\ u_low a = -96 /\ u_high a = 100 /\ u_step a = 20.
Proof. intros [] B; eexists; (split; [vm_compute; reflexivity|]; repeat split). Qed.

Lemma c09_index : forall (B : Build) T (ops : NumOps T) (a : Uniform T) x i,
  (u_num a + 2 < usize_mod)%N ->
  uniform_index ops a x = Val (Some i) -> (i <= u_num a + 1)%N ->
  forall r, uniformnoflow_index ops (mkUniformNoFlow a) x = Val r <->
    (r = None /\ (i = 0%N \/ i = (u_num a + 1)%N))
    \/ (exists j, r = Some j /\ i = (j + 1)%N /\ (j < u_num a)%N).
Proof.
  intros B T ops a x i Hu Hi Hle r.
  erewrite noflow_index_val by (try exact Hi; lia).
  destruct (N.eqb_spec i 0); [|destruct (N.eqb_spec i (u_num a + 1))].
  - split; [intros [= <-]; left; split; [reflexivity | lia]|].
    intros [[-> _]|[j [-> Hj]]]; [reflexivity | lia].
  - split; [intros [= <-]; left; split; [reflexivity | lia]|].
    intros [[-> _]|[j [-> Hj]]]; [reflexivity | lia].
  - split; [intros [= <-]; right; exists (i - 1)%N; repeat split; lia|].
    intros [[-> ?]|[j [-> Hj]]]; [lia | do 2 f_equal; lia].
Qed.

Lemma c09_bins : forall (B : Build) T (ops : NumOps T) (a : Uniform T),
  (u_num a + 2 < usize_mod)%N ->
  uniformnoflow_num_bins (mkUniformNoFlow a) = Val (u_num a)
  /\ (forall i, (i < u_num a)%N ->
        uniformnoflow_bin ops (mkUniformNoFlow a) i = uniform_bin ops a (i + 1))
  /\ (forall i, (u_num a <= i)%N -> (i + 1 < usize_mod)%N ->
        uniformnoflow_bin ops (mkUniformNoFlow a) i = Val None).
Proof.
  intros B T ops a Hu. split; [now apply noflow_num_bins|]. split.
  - intros i Hi. now apply noflow_bin_in.
  - intros i Hi Hov. now apply noflow_bin_out.
Qed.

Lemma noflow_with_step_size_ok `{Build} t num low step :
  valid_int_params t num low step ->
  uniformnoflow_with_step_size (int_ops t) num low step
  = Val (Ok (mkUniformNoFlow (mkUniform num low (low + Z.of_N num * step) step))).
Proof. intros HV. unfold uniformnoflow_with_step_size. now rewrite with_step_size_ok. Qed.

Lemma cyclic_with_step_size_ok `{Build} t num low step :
  valid_int_params t num low step ->
  uniformcyclic_with_step_size (int_ops t) num low step
  = Val (Ok (mkUniformCyclic (mkUniformNoFlow (mkUniform num low (low + Z.of_N num * step) step)))).
Proof. intros HV. unfold uniformcyclic_with_step_size. now rewrite noflow_with_step_size_ok. Qed.

Lemma c09_int : forall (B : Build) (t : int_type) num low step,
  valid_int_params t num low step ->
  exists a, uniformnoflow_with_step_size (int_ops t) num low step = Val (Ok a)
  /\ uniformnoflow_num_bins a = Val num
  /\ forall x, fits t x ->
     (uniformnoflow_index (int_ops t) a x = Val None /\ (x < low \/ low + Z.of_N num * step <= x))
     \/ (exists j, uniformnoflow_index (int_ops t) a x = Val (Some j) /\ (j < num)%N
          /\ low + Z.of_N j * step <= x < low + (Z.of_N j + 1) * step).
Proof.
  intros B t num low step HV. eexists. split; [now apply noflow_with_step_size_ok|].
  pose proof HV as [Ht Hn Hu _ _ Hs _ _].
  split; [rewrite noflow_num_bins; [reflexivity | exact Hu]|].
  intros x _. destruct (index_spec t num low step x HV) as [i [Hi [Hle [H0 [H1 Hk]]]]].
  erewrite noflow_index_val; [| exact Hu | exact Hi | lia]. cbn [u_num].
  destruct (N.eqb_spec i 0); [|destruct (N.eqb_spec i (num + 1))].
  - left. split; [reflexivity | tauto].
  - left. split; [reflexivity | tauto].
  - right. exists (i - 1)%N. split; [reflexivity|]. split; [lia|].
    destruct (Hk i ltac:(lia)) as [Hk1 _]. specialize (Hk1 eq_refl).
    replace (Z.of_N (i - 1)) with (Z.of_N i - 1) by lia.
    replace (Z.of_N i - 1 + 1) with (Z.of_N i) by lia. exact Hk1.
Qed.

Lemma c10_total : forall (B : Build) (t : int_type) num low step,
  valid_int_params t num low step ->
  exists a, uniformcyclic_with_step_size (int_ops t) num low step = Val (Ok a) /\
  forall x, fits t x -> fits t (x - low) ->
  exists i k, uniformcyclic_index (int_ops t) a x = Val (Some i) /\ (i < num)%N
    /\ low + Z.of_N i * step <= x + k * (Z.of_N num * step) < low + (Z.of_N i + 1) * step.
Proof.
  intros B t num low step HV. eexists. split; [now apply cyclic_with_step_size_ok|].
  intros x _ Hd. rewrite cyclic_index by assumption.
  pose proof HV as [Ht Hn Hu _ _ Hs _ _].
  set (R := Z.of_N num * step). assert (HR : 0 < R) by (unfold R; nia).
  set (m := (x - low) mod R).
  pose proof (Z.mod_pos_bound (x - low) R HR) as Hm. fold m in Hm.
  pose proof (Z.div_mod (x - low) R ltac:(lia)) as Hdm. fold m in Hdm.
  pose proof (Z.div_mod m step ltac:(lia)) as Hds.
  pose proof (Z.mod_pos_bound m step Hs) as Hms.
  assert (Hq0 : 0 <= m / step) by (apply Z.div_pos; lia).
  assert (Hq1 : m / step < Z.of_N num) by (apply Z.div_lt_upper_bound; unfold R in Hm; lia).
  exists (Z.to_N (m / step)), (- ((x - low) / R)).
  split; [reflexivity|]. split; [lia|]. rewrite Z2N.id by lia. nia.
Qed.

Lemma c10_periodic : forall (B : Build) (t : int_type) num low step,
  valid_int_params t num low step ->
  exists a, uniformcyclic_with_step_size (int_ops t) num low step = Val (Ok a) /\
  forall x k, fits t (x - low) -> fits t (x + k * (Z.of_N num * step) - low) ->
  uniformcyclic_index (int_ops t) a (x + k * (Z.of_N num * step)) = uniformcyclic_index (int_ops t) a x.
Proof.
  intros B t num low step HV. eexists. split; [now apply cyclic_with_step_size_ok|].
  intros x k Hd Hd'. rewrite !cyclic_index by assumption.
  pose proof HV as [Ht Hn Hu _ _ Hs _ _].
  replace (x + k * (Z.of_N num * step) - low) with (x - low + k * (Z.of_N num * step)) by lia.
  rewrite Z.mod_add by nia. reflexivity.
Qed.

Lemma c10_inside : forall (B : Build) (t : int_type) num low step,
  valid_int_params t num low step ->
  exists a b, uniformcyclic_with_step_size (int_ops t) num low step = Val (Ok a)
  /\ uniformnoflow_with_step_size (int_ops t) num low step = Val (Ok b)
  /\ uniformnoflow_num_bins (uc_axis a) = Val num
  /\ forall x, low <= x < low + Z.of_N num * step ->
       uniformcyclic_index (int_ops t) a x = uniformnoflow_index (int_ops t) b x.
Proof.
  intros B t num low step HV. do 2 eexists. split; [now apply cyclic_with_step_size_ok|].
  split; [now apply noflow_with_step_size_ok|].
  pose proof HV as [Ht Hn Hu _ Hl Hs Hw _].
  pose proof (primitive_bounds t Ht) as [Hmin Hmax].
  split; [cbn [uc_axis]; rewrite noflow_num_bins; [reflexivity | exact Hu]|].
  intros x Hx. rewrite cyclic_index by (try exact HV; unfold fits in *; lia).
  assert (Hq0 : 0 <= (x - low) / step) by (apply Z.div_pos; lia).
  assert (Hq1 : (x - low) / step < Z.of_N num) by (apply Z.div_lt_upper_bound; lia).
  erewrite noflow_index_val; [| exact Hu | now apply index_inside | lia]. cbn [u_num].
  rewrite Z.mod_small by lia.
  destruct (N.eqb_spec (Z.to_N ((x - low) / step) + 1) 0); [lia|].
  destruct (N.eqb_spec (Z.to_N ((x - low) / step) + 1) (num + 1)); [lia|].
  do 2 f_equal. lia.
Qed.

Lemma c10_example : forall B : Build, valid_int_params (signed 32) 12 (-6) 30
  /\ fits (signed 32) 100000 /\ fits (signed 32) (100000 - -6)
  /\ fits (signed 32) (100000 + (-500) * (Z.of_N 12 * 30) - -6).
Proof. intros [c []]; (split; [vparams 32|]; repeat split; vm_compute; discriminate). Qed.

Lemma c10_panics : forall w t num low step,
  let B := {| overflow_checks := true; target_width := w |} in
  valid_int_params t num low step ->
  exists a, @uniformcyclic_with_step_size Z (@int_ops B t) num low step = Val (Ok a) /\
  forall x, fits t x -> ~ fits t (x - low) -> @uniformcyclic_index B Z (@int_ops B t) a x = Panic.
Proof.
  intros w t num low step B HV. eexists. split; [now apply (@cyclic_with_step_size_ok B)|].
  intros x Hx Hd. unfold uniformcyclic_index. cbn [uc_axis unf_axis u_low u_high].
  rewrite wrap_int_panics; [reflexivity | reflexivity | | exact Hd].
  destruct HV as [_ _ _ _ _ _ Hw _].
  replace (low + Z.of_N num * step - low) with (Z.of_N num * step) by lia. exact Hw.
Qed.

Lemma c10_wrong :
  forall w, let B := {| overflow_checks := false; target_width := w |} in
  exists a, @uniformcyclic_with_step_size Z (@int_ops B (unsigned 8)) 3 10 5 = Val (Ok a)
  /\ @uniformcyclic_index B Z (@int_ops B (unsigned 8)) a 9 = Val (Some 0%N)
  /\ @uniformcyclic_index B Z (@int_ops B (unsigned 8)) a (9 + 15) = Val (Some 2%N).
Proof. intros [] B; eexists; (split; [vm_compute; reflexivity|]; split; vm_compute; reflexivity). Qed.
