(** * Property theorems: variable-width axes (C12-C16).

    [sort] and [search] stand for any [slice::sort_by] / [slice::binary_search_by]
    meeting the standard library's contract (StdContract.v); [ord_laws] holds of
    every integer type and of f32/f64 (OrdLaws.int_ord_laws, FloatOrd.float_ord_laws). *)
From Coq Require Import List NArith ZArith Bool Lia ZifyBool ZifyN ZifyNat Permutation Sorted.
From Flocq Require Import IEEE754.BinarySingleNaN.
From Verif Require Import Base BaseFacts Num Float Axis Spec OrdLaws FloatOrd IntFacts StdAlgo StdContract
  Uniform UniformMore VarAxis VariableFacts.
Import ListNotations.
Open Scope N_scope.

Definition checked : Build := {| overflow_checks := true; target_width := P64 |}.

(** ** C12 *)
Theorem C12_variable_new : forall (B : Build) (sort : sorter), sort_contract sort ->
  forall T (ord : PartialOrdOps T) is_num, ord_laws ord is_num ->
  forall edges : list T,
  (variable_new sort edges = Val (Err InvalidNumberOfBinEdges) <-> (length edges < 2)%nat)
  /\ ((2 <= length edges)%nat -> (forall x, In x edges -> is_num x = true) ->
        exists a, variable_new sort edges = Val (Ok a) /\ Permutation edges (v_edges a)
          /\ StronglySorted (fun x y => le_ x y = true) (v_edges a))
  /\ (forall x, In x edges -> is_num x = false -> forall a, variable_new sort edges <> Val (Ok a)).
Proof.
  intros B sort HS T ord is_num L edges. split; [|split].
  - split.
    + intros He. destruct (Nat.lt_ge_cases (length edges) 2) as [|Hge]; [assumption|].
      exfalso. eapply new_long; [|exact He]. lia.
    + intros Hl. apply new_short. lia.
  - intros Hl Hall. apply (new_good ord is_num L sort HS); [now apply Forall_forall | lia].
  - intros x Hx Hn a. eapply new_nan; eauto.
Qed.
Print Assumptions C12_variable_new.

(** The contracts are met by real implementations, and f64 edge lists with and
    without NaN exist. *)
Example C12_nonvacuous : forall B : Build,
  sort_contract insertion_sort
  /\ ord_laws (@num_ord _ f64_ops) (float_is_num 53 1024)
  /\ (forall x, In x [f64_lit 3 0; f64_lit 1 0; B754_infinity true] -> float_is_num 53 1024 x = true)
  /\ float_is_num 53 1024 B754_nan = false.
Proof.
  intros B. split; [exact insertion_sort_contract|]. split; [exact f64_ord_laws|]. split; [|reflexivity].
  intros x [<-|[<-|[<-|[]]]]; vm_compute; reflexivity.
Qed.

(** ** C13 *)

(** The bins of the axis, spelled out. *)
Theorem C13_variable_bins : forall (B : Build) T (edges : list T),
  2 <= N.of_nat (length edges) -> N.of_nat (length edges) + 1 < usize_mod ->
  variable_num_bins (mkVariable edges) = Val (N.of_nat (length edges) + 1)
  /\ (exists e, nth_error edges 0 = Some e /\ variable_bin (mkVariable edges) 0 = Val (Some (Underflow e)))
  /\ (forall i, 1 <= i < N.of_nat (length edges) -> exists s e,
        nth_error edges (N.to_nat i - 1) = Some s /\ nth_error edges (N.to_nat i) = Some e
        /\ variable_bin (mkVariable edges) i = Val (Some (Bin s e)))
  /\ (exists e, nth_error edges (length edges - 1) = Some e
        /\ variable_bin (mkVariable edges) (N.of_nat (length edges)) = Val (Some (Overflow e)))
  /\ (forall i, N.of_nat (length edges) < i -> variable_bin (mkVariable edges) i = Val None).
Proof.
  intros B T edges H2 Hu. split; [now apply num_bins_var|]. split; [now apply bin_under|].
  split; [intros i Hi; now apply bin_mid|]. split; [now apply bin_over|]. intros i Hi. now apply bin_none.
Qed.
Print Assumptions C13_variable_bins.

(** Strictly increasing edges, any contract-abiding search: index and bin are
    the same partition. *)
Theorem C13_variable_index_partitions : forall (B : Build) (search : searcher), search_contract search ->
  forall T (ord : PartialOrdOps T) is_num, ord_laws ord is_num ->
  forall edges : list T,
  (forall e, In e edges -> is_num e = true) ->
  StronglySorted (fun x y => lt_ x y = true) edges ->
  2 <= N.of_nat (length edges) -> N.of_nat (length edges) + 1 < usize_mod ->
  (forall x, is_num x = true -> exists i b,
     variable_index search (mkVariable edges) x = Val (Some i)
     /\ variable_bin (mkVariable edges) i = Val (Some b)
     /\ contains b x
     /\ forall j b', variable_bin (mkVariable edges) j = Val (Some b') -> contains b' x -> j = i)
  /\ (forall i b s, variable_bin (mkVariable edges) i = Val (Some b) -> bi_start b = Some s ->
        variable_index search (mkVariable edges) s = Val (Some i)).
Proof.
  intros B search HC T ord is_num L edges Hn Hst H2 Hu.
  assert (Hn' : Forall (fun e => is_num e = true) edges) by now apply Forall_forall.
  assert (Hs : StronglySorted (fun x y => le_ x y = true) edges).
  { clear -Hst. induction Hst as [|x xs Hs IH Ha]; constructor; [exact IH|].
    eapply Forall_impl; [|exact Ha]. intros y Hy. now apply lt_le. }
  split.
  - intros x Hx.
    destruct (index_char ord is_num L search HC edges Hn' Hs Hu x (or_introl Hst) Hx) as [k [Hi [Hk [HL HG]]]].
    destruct (bin_contains ord is_num L edges H2 x k Hk HL HG) as [b [Hb Hc]].
    exists (N.of_nat k), b. repeat split; try assumption.
    intros j b' Hb' Hc'. eapply (bin_unique ord is_num L edges); eauto.
  - intros i b s Hb Hsb. eapply (bin_start_index ord is_num L search HC edges); eauto.
Qed.
Print Assumptions C13_variable_index_partitions.

(** Repeated edges are allowed when the search returns the last match (Rust >=
    1.82); stated end to end from the constructor's argument, in any order. *)
Theorem C13_variable_index_partitions_duplicates : forall (B : Build) (sort : sorter) (search : searcher),
  sort_contract sort -> search_contract search -> search_finds_last search ->
  forall T (ord : PartialOrdOps T) is_num, ord_laws ord is_num ->
  forall input : list T,
  (forall e, In e input -> is_num e = true) ->
  2 <= N.of_nat (length input) -> N.of_nat (length input) + 1 < usize_mod ->
  exists a, variable_new sort input = Val (Ok a) /\
  forall x, is_num x = true -> exists i b,
     variable_index search a x = Val (Some i)
     /\ variable_bin a i = Val (Some b)
     /\ contains b x
     /\ forall j b', variable_bin a j = Val (Some b') -> contains b' x -> j = i.
Proof.
  intros B sort search HS HC HF T ord is_num L input Hn H2 Hu.
  destruct (new_good ord is_num L sort HS input) as [[edges] [Hnew [Hp Hs]]];
    [now apply Forall_forall | exact H2 |]. cbn [v_edges] in *.
  exists (mkVariable edges). split; [exact Hnew|]. intros x Hx.
  assert (Hn' : Forall (fun e => is_num e = true) edges).
  { apply Forall_forall. intros e He. apply Hn.
    eapply Permutation_in; [apply Permutation_sym; exact Hp | exact He]. }
  pose proof (Permutation_length Hp) as Hlen. rewrite Hlen in H2, Hu.
  destruct (index_char ord is_num L search HC edges Hn' Hs Hu x (or_intror HF) Hx) as [k [Hi [Hk [HL HG]]]].
  destruct (bin_contains ord is_num L edges H2 x k Hk HL HG) as [b [Hb Hc]].
  exists (N.of_nat k), b. repeat split; try assumption.
  intros j b' Hb' Hc'. eapply (bin_unique ord is_num L edges); eauto.
Qed.
Print Assumptions C13_variable_index_partitions_duplicates.

Example C13_nonvacuous :
  search_contract bsearch_early /\ search_contract bsearch_branchless
  /\ search_finds_last bsearch_branchless
  /\ ord_laws (@num_ord _ (@int_ops checked (signed 32))) (fun _ => true)
  /\ StronglySorted (fun x y => @lt_ _ (@num_ord _ (@int_ops checked (signed 32))) x y = true) [-5; 0; 7; 100]%Z.
Proof.
  split; [exact bsearch_early_contract|]. split; [exact bsearch_branchless_contract|].
  split; [exact bsearch_branchless_last|]. split; [apply int_ord_laws|].
  repeat constructor.
Qed.

(** With repeated edges the documented contract alone is not enough: Rust 1.80's
    search (the crate's declared minimum version) puts 1 into the empty bin [1, 1). *)
Theorem C13_duplicate_edges_early_exit_refuted : forall B : Build,
  let ord := @num_ord _ (int_ops (signed 32)) in
  let a := mkVariable [0; 1; 1; 1; 2]%Z in
  search_contract bsearch_early
  /\ variable_index bsearch_early a 1%Z = Val (Some 3)
  /\ variable_bin a 3 = Val (Some (Bin 1 1)%Z)
  /\ ~ contains (Bin 1 1)%Z 1%Z.
Proof.
  intros [c []] ord a; (split; [exact bsearch_early_contract|]; split; [vm_compute; reflexivity|];
  split; [vm_compute; reflexivity|]; intros [_ H]; discriminate H).
Qed.
Print Assumptions C13_duplicate_edges_early_exit_refuted.

(** ** C14 *)
Theorem C14_variable_index_in_range : forall (B : Build) (search : searcher), search_contract search ->
  forall T (ord : PartialOrdOps T) is_num, ord_laws ord is_num ->
  forall edges : list T,
  (forall e, In e edges -> is_num e = true) ->
  StronglySorted (fun x y => le_ x y = true) edges ->
  2 <= N.of_nat (length edges) -> N.of_nat (length edges) + 1 < usize_mod ->
  forall x : T,
  (exists i n, variable_index search (mkVariable edges) x = Val (Some i)
     /\ variable_num_bins (mkVariable edges) = Val n /\ i < n)
  /\ (is_num x = false ->
        variable_index search (mkVariable edges) x = Val (Some (N.of_nat (length edges)))
        /\ (exists e, variable_bin (mkVariable edges) (N.of_nat (length edges)) = Val (Some (Overflow e)))
        /\ variablenoflow_index search (mkVariableNoFlow (mkVariable edges)) x = Val None).
Proof.
  intros B search HC T ord is_num L edges Hn Hs H2 Hu x.
  assert (Hn' : Forall (fun e => is_num e = true) edges) by now apply Forall_forall.
  split.
  - destruct (index_in_range ord is_num L search HC edges Hn' Hs Hu x) as [k [Hk Hle]].
    exists k, (N.of_nat (length edges) + 1). split; [exact Hk|]. split; [now apply num_bins_var|]. lia.
  - intros Hx. pose proof (index_nan ord is_num L search HC edges Hn' Hs Hu x Hx) as Hi.
    split; [exact Hi|]. split.
    + destruct (bin_over edges H2) as [e [_ He]]. eauto.
    + erewrite noflow_index_var by (eauto; lia).
      destruct (N.eqb_spec (N.of_nat (length edges)) 0); [reflexivity|]. now rewrite N.eqb_refl.
Qed.
Print Assumptions C14_variable_index_in_range.

(** VariableCyclic over floats: a NaN or infinite coordinate has no bin. *)
Theorem C14_variable_cyclic_float_special : forall (B : Build) (search : searcher), search_contract search ->
  forall prec emax (Hp : FLX.Prec_gt_0 prec) (He : Prec_lt_emax prec emax),
  let ops := float_ops prec emax Hp He in
  forall edges : list (binary_float prec emax),
  (forall e, In e edges -> is_nan e = false) ->
  StronglySorted (fun x y => @le_ _ (@num_ord _ ops) x y = true) edges ->
  2 <= N.of_nat (length edges) -> N.of_nat (length edges) + 1 < usize_mod ->
  forall x, is_finite x = false ->
  variablecyclic_index search ops (mkVariableCyclic (mkVariableNoFlow (mkVariable edges))) x = Val None.
Proof.
  intros B search HC prec emax Hp He ops edges Hn Hs H2 Hu x Hx.
  unfold variablecyclic_index. cbn [vc_axis vnf_axis].
  destruct (high_var edges H2) as [hi [Hhi ->]]. destruct (low_var edges H2) as [lo [Hlo ->]]. cbn [obind].
  assert (Hw : wrap_coordinate ops lo hi x = Val B754_nan).
  { unfold wrap_coordinate. cbn [n_sub n_rem n_add n_zero ops float_ops obind].
    set (R := Bminus mode_NE hi lo).
    assert (Hd : Bfmod prec emax Hp He (Bminus mode_NE x lo) R = B754_nan).
    { destruct x as [sx|[]| |sx mx ex Hb]; try discriminate Hx;
        destruct lo as [s|[]| |[] m e H]; simpl; try reflexivity; destruct R as [s'|s'| |s' m' e' H']; reflexivity. }
    rewrite Hd. simpl. destruct lo; reflexivity. }
  rewrite Hw. cbn [obind].
  assert (Hn' : Forall (fun e => float_is_num prec emax e = true) edges).
  { apply Forall_forall. intros e Hin. unfold float_is_num. now rewrite (Hn e Hin). }
  pose proof (index_nan _ _ (float_ord_laws prec emax Hp He) search HC edges Hn' Hs Hu B754_nan eq_refl) as Hi.
  erewrite noflow_index_var; [| exact Hu | try exact H2; lia | exact Hi | lia].
  destruct (N.eqb_spec (N.of_nat (length edges)) 0); [reflexivity|]. now rewrite N.eqb_refl.
Qed.
Print Assumptions C14_variable_cyclic_float_special.

Example C14_nonvacuous : forall B : Build, let edges := [f64_lit 0 0; f64_lit 1 0; f64_lit 3 0] in
  (forall e, In e edges -> is_nan e = false)
  /\ StronglySorted (fun x y => @le_ _ (@num_ord _ f64_ops) x y = true) edges
  /\ is_finite (B754_infinity true : f64) = false /\ is_finite (B754_nan : f64) = false.
Proof.
  intros B edges. split; [intros e [<-|[<-|[<-|[]]]]; vm_compute; reflexivity|].
  split; [|split; reflexivity].
  repeat constructor; vm_compute; reflexivity.
Qed.

(** ** C15 *)
Theorem C15_variable_noflow : forall (B : Build) (search : searcher), search_contract search ->
  forall T (ord : PartialOrdOps T) is_num, ord_laws ord is_num ->
  forall edges : list T,
  (forall e, In e edges -> is_num e = true) ->
  StronglySorted (fun x y => lt_ x y = true) edges ->
  2 <= N.of_nat (length edges) -> N.of_nat (length edges) + 1 < usize_mod ->
  let a := mkVariableNoFlow (mkVariable edges) in
  variablenoflow_num_bins a = Val (N.of_nat (length edges) - 1)
  /\ (forall i, i < N.of_nat (length edges) - 1 -> exists s e,
        nth_error edges (N.to_nat i) = Some s /\ nth_error edges (S (N.to_nat i)) = Some e
        /\ variablenoflow_bin a i = Val (Some (Bin s e)))
  /\ (forall i, N.of_nat (length edges) - 1 <= i -> i + 1 < usize_mod -> variablenoflow_bin a i = Val None)
  /\ (forall x, exists r, variablenoflow_index search a x = Val r
        /\ forall i, r = Some i <->
             exists s e, nth_error edges (N.to_nat i) = Some s /\ nth_error edges (S (N.to_nat i)) = Some e
                         /\ ge_ x s = true /\ lt_ x e = true).
Proof.
  intros B search HC T ord is_num L edges Hn Hst H2 Hu a.
  assert (Hn' : Forall (fun e => is_num e = true) edges) by now apply Forall_forall.
  assert (Hs : StronglySorted (fun x y => le_ x y = true) edges).
  { clear -Hst. induction Hst as [|x xs Hs IH Ha]; constructor; [exact IH|].
    eapply Forall_impl; [|exact Ha]. intros y Hy. now apply lt_le. }
  split; [now apply noflow_num_bins_var|].
  split; [intros i Hi; now apply noflow_bin_var|].
  split; [intros i Hi Hov; now apply noflow_bin_none|].
  intros x. destruct (is_num x) eqn:Hx.
  - destruct (index_char ord is_num L search HC edges Hn' Hs Hu x (or_introl Hst) Hx) as [k [Hi [Hk [HL HG]]]].
    eexists. split; [eapply noflow_index_var; [exact Hu | try exact H2; lia | exact Hi | lia]|].
    intros i.
    assert (Hbin : (exists s e, nth_error edges (N.to_nat i) = Some s /\ nth_error edges (S (N.to_nat i)) = Some e
                         /\ ge_ x s = true /\ lt_ x e = true) <-> (k = S (N.to_nat i) /\ k < length edges)%nat).
    { split.
      - intros [s [e [H1 [H3 [H4 H5]]]]]. rewrite (ge_le _ _ L) in H4.
        assert ((N.to_nat i < k)%nat).
        { destruct (Nat.le_gt_cases k (N.to_nat i)) as [Hle|]; [exfalso|assumption].
          eapply (lt_not_le _ _ L); [eapply HG; eauto | exact H4]. }
        assert ((k <= S (N.to_nat i))%nat).
        { destruct (Nat.le_gt_cases k (S (N.to_nat i))) as [|Hgt]; [assumption|exfalso].
          eapply (lt_not_le _ _ L); [exact H5 | eapply HL; eauto]. }
        assert ((S (N.to_nat i) < length edges)%nat) by (apply nth_error_Some; congruence). lia.
      - intros [Hk1 Hk2].
        destruct (nth_error edges (N.to_nat i)) as [s|] eqn:Es; [|apply nth_error_None in Es; lia].
        destruct (nth_error edges (S (N.to_nat i))) as [e|] eqn:Ee; [|apply nth_error_None in Ee; lia].
        exists s, e. split; [reflexivity|]. split; [reflexivity|]. rewrite (ge_le _ _ L). split.
        + eapply HL; [|exact Es]. lia.
        + eapply HG; [|exact Ee]. lia. }
    rewrite Hbin.
    destruct (N.eqb_spec (N.of_nat k) 0); [|destruct (N.eqb_spec (N.of_nat k) (N.of_nat (length edges)))].
    + split; [discriminate | lia].
    + split; [discriminate | lia].
    + split; [intros [= <-]; lia | intros [Hk1 Hk2]; f_equal; lia].
  - pose proof (index_nan ord is_num L search HC edges Hn' Hs Hu x Hx) as Hi.
    exists None. split.
    + unfold a. erewrite noflow_index_var; [| exact Hu | try exact H2; lia | exact Hi | lia].
      destruct (N.eqb_spec (N.of_nat (length edges)) 0); [reflexivity|]. now rewrite N.eqb_refl.
    + intros i. split; [discriminate|]. intros [s [e [_ [_ [Hc _]]]]].
      unfold ge_ in Hc. rewrite (law_nan_l _ _ L x s Hx) in Hc. discriminate.
Qed.
Print Assumptions C15_variable_noflow.

Example C15_nonvacuous : forall B : Build,
  StronglySorted (fun x y => @lt_ _ (@num_ord _ f64_ops) x y = true) [B754_infinity true; f64_quot 1 10; f64_lit 3 0]
  /\ (2 <= N.of_nat (length [B754_infinity true; f64_quot 1 10; f64_lit 3 0])).
Proof. intros B. split; [repeat constructor; vm_compute; reflexivity | vm_compute; discriminate]. Qed.

(** ** C16 *)
Theorem C16_variable_cyclic_int : forall (B : Build) (search : searcher), search_contract search ->
  forall (t : int_type), primitive_int t ->
  forall (edges : list Z) lo hi,
  Forall (fits t) edges -> StronglySorted Z.lt edges ->
  N.of_nat (length edges) + 1 < usize_mod ->
  (2 <= length edges)%nat -> nth_error edges 0 = Some lo -> nth_error edges (length edges - 1) = Some hi ->
  fits t (hi - lo)%Z ->
  let a := mkVariableCyclic (mkVariableNoFlow (mkVariable edges)) in
  let index := variablecyclic_index search (int_ops t) a in
  (forall x, fits t (x - lo)%Z -> exists i k s e,
      index x = Val (Some i) /\ i < N.of_nat (length edges) - 1
      /\ nth_error edges (N.to_nat i) = Some s /\ nth_error edges (S (N.to_nat i)) = Some e
      /\ (s <= x + k * (hi - lo) < e)%Z)
  /\ (forall x k, fits t (x - lo)%Z -> fits t (x + k * (hi - lo) - lo)%Z ->
        index (x + k * (hi - lo))%Z = index x).
Proof.
  intros B search HC t Ht edges lo hi Hfit Hst Hu H2 Hlo Hhi Hr a index.
  assert (Hlt : (lo < hi)%Z) by (eapply (sorted_nth edges Hst 0 (length edges - 1)); eauto; lia).
  pose proof (nth_error_In _ _ Hlo) as Inlo. pose proof (nth_error_In _ _ Hhi) as Inhi.
  rewrite Forall_forall in Hfit.
  assert (Hidx : forall x, fits t (x - lo)%Z ->
     index x = @variablenoflow_index B search Z (@num_ord _ (int_ops t)) (mkVariableNoFlow (mkVariable edges)) (lo + (x - lo) mod (hi - lo))%Z).
  { intros x Hx. unfold index, variablecyclic_index. cbn [vc_axis vnf_axis a].
    destruct (high_var edges ltac:(lia)) as [hi' [Hhi' ->]]. rewrite Hhi in Hhi'. injection Hhi' as <-.
    destruct (low_var edges ltac:(lia)) as [lo' [Hlo' ->]]. rewrite Hlo in Hlo'. injection Hlo' as <-.
    cbn [obind]. rewrite wrap_int; auto. }
  split.
  - intros x Hx. rewrite Hidx by exact Hx.
    set (y := (lo + (x - lo) mod (hi - lo))%Z).
    pose proof (Z.mod_pos_bound (x - lo) (hi - lo) ltac:(lia)) as Hm.
    assert (Hst' : StronglySorted (fun x y => @lt_ _ (@num_ord _ (int_ops t)) x y = true) edges).
    { clear -Hst. induction Hst as [|x xs Hs IH Ha]; constructor; [exact IH|].
      eapply Forall_impl; [|exact Ha]. intros z Hz. rewrite int_lt. now apply Z.ltb_lt. }
    assert (Hs' : StronglySorted (fun x y => @le_ _ (@num_ord _ (int_ops t)) x y = true) edges).
    { clear -Hst. induction Hst as [|x xs Hs IH Ha]; constructor; [exact IH|].
      eapply Forall_impl; [|exact Ha]. intros z Hz. rewrite int_le. apply Z.leb_le. lia. }
    assert (Hnum : Forall (fun _ : Z => true = true) edges) by (now apply Forall_forall).
    destruct (index_char _ _ (int_ord_laws t) search HC edges Hnum Hs' Hu y (or_introl Hst') eq_refl)
      as [k [Hi [Hk [HL HG]]]].
    assert (Hk0 : (0 < k)%nat).
    { destruct k; [exfalso|lia]. specialize (HG 0%nat lo ltac:(lia) Hlo). rewrite int_lt in HG.
      apply Z.ltb_lt in HG. unfold y in HG. lia. }
    assert (Hkn : (k < length edges)%nat).
    { destruct (Nat.eq_dec k (length edges)) as [->|]; [exfalso|lia].
      specialize (HL (length edges - 1)%nat hi ltac:(lia) Hhi). rewrite int_le in HL.
      apply Z.leb_le in HL. unfold y in HL. lia. }
    destruct (nth_error edges (k - 1)) as [s|] eqn:Es; [|apply nth_error_None in Es; lia].
    destruct (nth_error edges k) as [e|] eqn:Ee; [|apply nth_error_None in Ee; lia].
    exists (N.of_nat (k - 1)), (- ((x - lo) / (hi - lo)))%Z, s, e.
    erewrite noflow_index_var; [| exact Hu | try exact H2; lia | exact Hi | lia].
    destruct (N.eqb_spec (N.of_nat k) 0); [lia|].
    destruct (N.eqb_spec (N.of_nat k) (N.of_nat (length edges))); [lia|].
    split; [do 2 f_equal; lia|]. split; [lia|].
    rewrite Nat2N.id. replace (S (k - 1)) with k by lia.
    split; [exact Es|]. split; [exact Ee|].
    specialize (HL (k - 1)%nat s ltac:(lia) Es). specialize (HG _ _ (le_n _) Ee).
    rewrite int_le in HL. rewrite int_lt in HG. apply Z.leb_le in HL. apply Z.ltb_lt in HG.
    pose proof (Z.div_mod (x - lo) (hi - lo) ltac:(lia)) as Hdm. unfold y in *. nia.
  - intros x k Hx Hx'. rewrite !Hidx by assumption. do 2 f_equal.
    replace (x + k * (hi - lo) - lo)%Z with (x - lo + k * (hi - lo))%Z by lia.
    apply Z.mod_add. lia.
Qed.
Print Assumptions C16_variable_cyclic_int.

Example C16_nonvacuous : primitive_int (signed 32) /\ Forall (fits (signed 32)) [-10; 0; 7; 90]%Z
  /\ StronglySorted Z.lt [-10; 0; 7; 90]%Z /\ fits (signed 32) (90 - -10)
  /\ fits (signed 32) (12345 - -10).
Proof.
  split; [exists 32%Z; split; [lia | tauto]|].
  split; [repeat constructor; vm_compute; discriminate|].
  split; [repeat constructor; lia|]. split; split; vm_compute; discriminate.
Qed.
