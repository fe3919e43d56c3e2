(** * Property theorems: axes tuples too large for [usize], without overflow checks (C25). *)
From stdpp Require Import base decidable.
From Coq Require Import List NArith ZArith Bool Lia ZifyBool ZifyN ZifyNat.
From Verif Require Import Base BaseFacts Num Float Axis Spec StdAlgo StdContract Uniform VarAxis Category Axes AxesSpec AxesFacts PropAxes
  IntFacts UniformInt PropIntExact.
Import ListNotations.
Open Scope N_scope.

Section Wrap.
Context {B : Build} (Hc : overflow_checks = false).

Lemma usize_mod_nz : usize_mod <> 0. Proof. pose proof usize_mod_large. lia. Qed.
Lemma umul_wraps a b : umul a b = Val ((a * b) mod usize_mod).
Proof. unfold umul. rewrite Hc. destruct (N.ltb_spec (a * b) usize_mod); [rewrite N.mod_small by assumption|]; reflexivity. Qed.
Lemma uadd_wraps a b : uadd a b = Val ((a + b) mod usize_mod).
Proof. unfold uadd. rewrite Hc. destruct (N.ltb_spec (a + b) usize_mod); [rewrite N.mod_small by assumption|]; reflexivity. Qed.

Lemma scan_wraps ns : forall acc, scan_products (acc mod usize_mod) ns = Val (map (fun x => x mod usize_mod) (prefix_products acc ns)).
Proof.
  induction ns as [|n ns IH]; intros acc; [reflexivity|]. cbn [scan_products prefix_products map].
  rewrite umul_wraps. cbn [obind]. rewrite N.mul_mod_idemp_l by exact usize_mod_nz. rewrite IH. reflexivity.
Qed.

Lemma foldo_wraps l : forall acc x, acc = x mod usize_mod ->
  foldo (fun acc (p : N * N) => let! m := umul (fst p) (snd p) in uadd acc m) l acc
  = Val ((x + dot l) mod usize_mod).
Proof.
  induction l as [|p l IH]; intros acc x ->; cbn [foldo dot].
  - f_equal. rewrite N.add_0_r. reflexivity.
  - rewrite umul_wraps. cbn [obind]. rewrite uadd_wraps. cbn [obind].
    rewrite (IH _ (x + fst p * snd p)); [f_equal; f_equal; lia|].
    rewrite N.add_mod_idemp_l, N.add_mod_idemp_r by exact usize_mod_nz. reflexivity.
Qed.

Lemma removelast_map {X Y} (f : X -> Y) l : removelast (map f l) = map f (removelast l).
Proof. induction l as [|x l IH]; [reflexivity|]. cbn [map removelast]. destruct l; [reflexivity|]. cbn [map] in *. rewrite IH. reflexivity. Qed.

Lemma dot_mod (l : list (N * N)) : dot (map (fun p => (fst p mod usize_mod, snd p)) l) mod usize_mod = dot l mod usize_mod.
Proof.
  induction l as [|p l IH]; [reflexivity|]. cbn [map dot fst snd].
  rewrite <- N.add_mod_idemp_r, IH, N.add_mod_idemp_r by exact usize_mod_nz.
  rewrite <- N.add_mod_idemp_l, N.mul_mod_idemp_l, N.add_mod_idemp_l by exact usize_mod_nz. reflexivity.
Qed.

Lemma combine_map_l {X Y Z} (f : X -> Y) (l : list X) (m : list Z) : combine (map f l) m = map (fun p => (f (fst p), snd p)) (combine l m).
Proof. revert m. induction l as [|x l IH]; intros [|z m]; try reflexivity. cbn [map combine fst snd]. rewrite IH. reflexivity. Qed.

Lemma flat_index_wraps ns is : ns <> [] -> length is = length ns -> Forall (fun i => i < usize_mod) is ->
  flat_index (map (fun x => x mod usize_mod) (prefix_products 1 ns)) is = Val (radix ns is mod usize_mod).
Proof.
  intros Hne Hl Hlt. destruct ns as [|n ns]; [congruence|]. destruct is as [|i is]; [discriminate|].
  injection Hl as Hl. inversion Hlt as [|? ? Hi _]; subst. unfold flat_index. rewrite tl_rev.
  rewrite combine_rev_tl.
  2:{ rewrite Hl, removelast_map, map_length. clear. revert n. generalize 1. induction ns as [|m ns IH]; intros k n; [reflexivity|].
      simpl prefix_products. replace (length (m :: ns)) with (S (length ns)) by reflexivity.
      rewrite <- (IH (k * n) m). reflexivity. }
  rewrite (foldo_wraps _ _ i) by (symmetry; apply N.mod_small; exact Hi).
  rewrite removelast_map, combine_map_l, dot_rev. f_equal.
  rewrite <- N.add_mod_idemp_r, dot_mod, N.add_mod_idemp_r by exact usize_mod_nz.
  rewrite dot_prefix by exact Hl. cbn [radix]. f_equal. lia.
Qed.

Lemma num_bins_wraps n ns : (let! p := foldo umul ns n in umul p 1) = Val (product (n :: ns) mod usize_mod).
Proof.
  assert (Hfold : forall acc x, acc mod usize_mod = x mod usize_mod -> exists p, foldo umul ns acc = Val p /\ p mod usize_mod = (x * product ns) mod usize_mod).
  { induction ns as [|m ns IH]; intros acc x Hx; cbn [foldo].
    - exists acc. split; [reflexivity|]. unfold product. cbn [fold_right]. rewrite N.mul_1_r. exact Hx.
    - rewrite umul_wraps. cbn [obind]. destruct (IH ((acc * m) mod usize_mod) (x * m)) as [p [Hp Hp']].
      { rewrite N.mod_mod by exact usize_mod_nz. rewrite <- N.mul_mod_idemp_l, Hx, N.mul_mod_idemp_l by exact usize_mod_nz. reflexivity. }
      exists p. split; [exact Hp|]. rewrite Hp'. unfold product. cbn [fold_right]. f_equal. lia. }
  destruct (Hfold n n eq_refl) as [p [-> Hp]]. cbn [obind]. rewrite umul_wraps, N.mul_1_r, Hp. reflexivity.
Qed.
End Wrap.

(** C25, unchecked builds: building the tuple never fails, and the number of bins
    and every index are the true ones reduced modulo [usize_mod].  So two cells are
    confused exactly when their true indices differ by a multiple of it. *)
Theorem C25_unchecked_wraps : forall (B : Build) (ts : list axis_type) (axes : axes_tuple ts) ns,
  overflow_checks = false -> ts <> [] -> tuple_has_bins ts axes ns -> Forall (fun n => n <= usize_mod) ns ->
  exists a, axes_from axes = Val a
  /\ axes_num_bins a = Val (product ns mod usize_mod)
  /\ (forall c is, component_indices ts axes c is -> cell ns is ->
        axes_index a c = Val (Some (radix ns is mod usize_mod)))
  /\ (forall c d is js, component_indices ts axes c is -> component_indices ts axes d js -> cell ns is -> cell ns js ->
        (axes_index a c = axes_index a d <-> (exists k : Z, Z.of_N (radix ns is) = (Z.of_N (radix ns js) + k * Z.of_N usize_mod)%Z))).
Proof.
  intros B ts axes ns Hc Hne Hb Hfit.
  assert (Hns : ns <> []) by (intros ->; destruct ts; [congruence | contradiction]).
  assert (Hnb : all_num_bins ts axes = Val ns).
  { clear Hne Hfit Hns. revert axes ns Hb. induction ts as [|t ts IH]; intros axes ns Hb; cbn [tuple_has_bins] in Hb.
    - subst ns. reflexivity.
    - destruct ns as [|n ns]; [contradiction|]. destruct Hb as [[Hn _] Hb]. cbn [all_num_bins]. rewrite Hn. cbn [obind].
      rewrite (IH _ _ Hb). reflexivity. }
  exists (mkAxes axes (map (fun x => x mod usize_mod) (prefix_products 1 ns))).
  assert (Hidx : forall c is, component_indices ts axes c is -> cell ns is ->
        axes_index (mkAxes axes (map (fun x => x mod usize_mod) (prefix_products 1 ns))) c = Val (Some (radix ns is mod usize_mod))).
  { intros c is Hi Hcell. unfold axes_index. cbn [ax_axes ax_shape]. rewrite (all_indices_some _ _ _ _ Hi). cbn [obind].
    rewrite (flat_index_wraps Hc); [reflexivity | exact Hns | exact (cell_length _ _ Hcell) |].
    clear - Hcell Hfit. revert Hfit. induction Hcell as [|i n is ns Hi Hcell IH]; intros Hfit; constructor; inversion Hfit; subst; [lia | auto]. }
  split; [|split; [|split]].
  - unfold axes_from. rewrite Hnb. cbn [obind]. pose proof (scan_wraps Hc ns 1) as Hs.
    rewrite (N.mod_small 1) in Hs by (pose proof usize_mod_large; lia). rewrite Hs. reflexivity.
  - unfold axes_num_bins. cbn [ax_axes]. rewrite Hnb. cbn [obind]. destruct ns as [|n ns]; [congruence|]. apply (num_bins_wraps Hc).
  - exact Hidx.
  - intros c d is js Hi Hj Ci Cj. rewrite (Hidx c is Hi Ci), (Hidx d js Hj Cj).
    assert (Hm : (0 < Z.of_N usize_mod)%Z) by (pose proof usize_mod_large; lia).
    split.
    + intros Heq. injection Heq as Heq. apply (f_equal Z.of_N) in Heq. rewrite !N2Z.inj_mod in Heq by exact usize_mod_nz.
      exists (Z.of_N (radix ns is) / Z.of_N usize_mod - Z.of_N (radix ns js) / Z.of_N usize_mod)%Z.
      pose proof (Z.div_mod (Z.of_N (radix ns is)) (Z.of_N usize_mod) ltac:(lia)).
      pose proof (Z.div_mod (Z.of_N (radix ns js)) (Z.of_N usize_mod) ltac:(lia)). nia.
    + intros [k Hk]. do 2 f_equal. apply N2Z.inj. rewrite !N2Z.inj_mod by exact usize_mod_nz. rewrite Hk. apply Z.mod_add. lia.
Qed.
Print Assumptions C25_unchecked_wraps.

Lemma big_axis_has_bins : let B := {| overflow_checks := false; target_width := P64 |} in
  has_bins (at_axis (uninf_usize B)) (mkUniformNoFlow (mkUniform (2 ^ 40) 0 (2 ^ 40) 1)%Z) (2 ^ 40).
Proof.
  intros B. split; [reflexivity|]. intros i Hi.
  assert (Hv : valid_int_params (unsigned 64) (2 ^ 40) 0 1).
  { constructor; try (vm_compute; discriminate); try (split; vm_compute; discriminate); try (vm_compute; reflexivity).
    exists 64%Z. split; [lia | tauto]. }
  assert (He : forall k, k <= 2 ^ 40 -> exists e, @uniform_edge Z (@int_ops B (unsigned 64)) (mkUniform (2 ^ 40) 0 (2 ^ 40) 1)%Z k = Val (Some e)).
  { intros k Hk. pose proof (@edge_exact B (unsigned 64) (2 ^ 40) 0 1 k Hv Hk) as E. cbv zeta in E.
    change (0 + Z.of_N (2 ^ 40) * 1)%Z with (2 ^ 40)%Z in E. rewrite E. cbn [overflow_checks B]. destruct (in_range _ _); eexists; reflexivity. }
  cbn [bin at_axis uninf_usize uniformnoflow_axis uniformnoflow_bin unf_axis].
  unfold uniformnoflow_bin. rewrite uadd_ok by (change usize_mod with (2 ^ 64); lia). cbn [obind unf_axis].
  unfold uniform_bin. destruct (N.eqb_spec (i + 1) 0); [lia|]. cbn [u_num].
  rewrite uadd_ok by (vm_compute; reflexivity). cbn [obind].
  destruct (N.eqb_spec (i + 1) (2 ^ 40 + 1)); [lia|]. destruct (N.ltb_spec (2 ^ 40 + 1) (i + 1)); [lia|].
  rewrite usub_ok by lia. cbn [obind]. replace (i + 1 - 1) with i by lia.
  destruct (He i ltac:(lia)) as [s ->]. destruct (He (i + 1) ltac:(lia)) as [e ->]. cbn [obind]. eexists; reflexivity.
Qed.

(** The two axes of 2^40 bins of [big_axes] meet the hypotheses. *)
Example C25_unchecked_nonvacuous :
  let B := {| overflow_checks := false; target_width := P64 |} in
  tuple_has_bins [uninf_usize B; uninf_usize B] (big_axes B) [2 ^ 40; 2 ^ 40] /\ Forall (fun n => n <= usize_mod) [2 ^ 40; 2 ^ 40]
  /\ component_indices [uninf_usize B; uninf_usize B] (big_axes B) (5, (2 ^ 24, tt))%Z [5; 2 ^ 24] /\ cell [2 ^ 40; 2 ^ 40] [5; 2 ^ 24]
  /\ product [2 ^ 40; 2 ^ 40] mod usize_mod = 0.
Proof.
  intros B.
  split; [exact (conj big_axis_has_bins (conj big_axis_has_bins eq_refl))|].
  split; [repeat constructor; vm_compute; discriminate|].
  split; [split; [vm_compute; reflexivity | split; [vm_compute; reflexivity | reflexivity]]|].
  split; [repeat constructor | reflexivity].
Qed.

(** C24: whenever one of the axes has no bins, [bin] of the tuple divides by zero for every bin
    number, in every build (although the tuple was built and has no bins). *)
Lemma digits_panic {B : Build} ns : forall i, In 0 ns -> digits i ns = Panic.
Proof.
  induction ns as [|n ns IH]; intros i Hin; [destruct Hin|]. cbn [digits].
  destruct (umul 1 n) as [nb|] eqn:En; [cbn [obind]|reflexivity].
  destruct Hin as [->|Hin].
  - assert (Hz : nb = 0).
    { unfold umul in En. cbn in En. destruct (0 <? usize_mod); [injection En as <-; reflexivity|].
      destruct overflow_checks; [discriminate|]. injection En as <-. reflexivity. }
    subst nb. reflexivity.
  - destruct (urem i nb) as [v|]; [cbn [obind]|reflexivity].
    destruct (udiv i nb) as [i'|]; [cbn [obind]|reflexivity]. rewrite (IH i' Hin). reflexivity.
Qed.
Theorem C24_empty_axis_bin_panics : forall (B : Build) (ts : list axis_type) (axes : axes_tuple ts) ns a,
  tuple_has_bins ts axes ns -> In 0 ns -> axes_from axes = Val a ->
  forall i, axes_bin a i = Panic.
Proof.
  intros B ts axes ns a Hb Hin Ha i. unfold axes_bin.
  assert (Hax : ax_axes a = axes).
  { unfold axes_from in Ha. repeat match type of Ha with obind ?e _ = _ => destruct e; [cbn [obind] in Ha | discriminate Ha] end.
    injection Ha as <-. reflexivity. }
  rewrite Hax, (all_num_bins_ok ts axes ns Hb). cbn [obind]. rewrite (digits_panic ns i Hin). reflexivity.
Qed.
Print Assumptions C24_empty_axis_bin_panics.
