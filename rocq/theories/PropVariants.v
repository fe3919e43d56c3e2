(** * PropVariants: further cases of earlier properties: sparse f32 counts (C45), dense histograms and
      CategoryNoFlow moved between targets (C69), sparse integer histograms shared between
      threads (C72), joining categories (C87). *)
From stdpp Require Import gmap.
From Coq Require Import String ZifyBool ZifyN ZifyNat Lia Reals.
From Flocq Require Import Core IEEE754.BinarySingleNaN.
From Verif Require Import Base BaseFacts Num Float FloatFacts Axis Uniform Spec AxesSpec FillSpec IntFacts Category CategoryFacts Value VecHist HashHist HistSpec HistFacts HashFacts OpsFacts
  PropCategory PropHist PropHistIter PropAxes PropOrder PropMerge ExactSpec PropCount PropShared Serde PropSerde PropSerdeTargets SimSpec PropRebin.
Open Scope N_scope.

(** ** C45: f32 bins of a sparse histogram, which is also the answer for bins never filled. *)
Theorem C45_f32_counts_sparse :
  forall (B : Build) A (AX : Axis A) (a : A) (cs : list Coordinate) (i : N) (h : HashHistogram A f32),
  @hash_calls A f32 f32 Empty_set AX (float_fill 24 128 prec32 emax32) (float_fill_with 24 128 prec32 emax32)
     (float_no_weighted 24 128) (float_default 24 128 prec32 emax32) (hash_new a) (fills cs) = Val h ->
  let k := Z.of_nat (hits a i cs) in
  (k = 0%Z /\ hash_value_at_index h i = None)
  \/ exists v, (0 < k)%Z /\ hash_value_at_index h i = Some v /\ is_finite v = true /\ B2R v = IZR (Z.min k (2 ^ 24)).
Proof.
  intros B A AX a cs i h Hr k. pose proof (sparse_counts 24 128 prec32 emax32 ltac:(lia) A AX a cs h Hr i) as Hv.
  destruct (decide (hits a i cs = 0%nat)); [left; split; [lia | exact Hv]|]. right. eexists. split; [lia|]. split; [exact Hv|].
  destruct (float_of_N_exact 24 128 prec32 emax32 (N.min (N.of_nat (hits a i cs)) (Z.to_N (2 ^ 24)))) as [E1 [E2 E3]]; [lia|].
  split; [exact E2|]. rewrite E1. f_equal. unfold k. lia.
Qed.
Print Assumptions C45_f32_counts_sparse.

Example C45_f32_sparse_nonvacuous : forall B : Build,
  let a := category_new [5; 7]%Z in
  let cs : list (@Coordinate _ (ex_axis B)) := [7; 7; 1000]%Z in
  hits a 1 cs = 2%nat /\ hits a 0 cs = 0%nat
  /\ exists h, @hash_calls _ f32 f32 Empty_set (ex_axis B) (float_fill 24 128 prec32 emax32) (float_fill_with 24 128 prec32 emax32)
     (float_no_weighted 24 128) (float_default 24 128 prec32 emax32) (hash_new a) (fills cs) = Val h.
Proof. intros [c []] a cs; (split; [reflexivity|]; split; [reflexivity|]; eexists; reflexivity). Qed.

(** ** C72: sparse integer histograms behind a lock. *)
Theorem C72_integer_histograms_sparse :
  forall (B : Build) (t : int_type) A (AX : Axis A) (threads : list (list (fill_op Z Empty_set))) (h : HashHistogram A Z),
  primitive_int t ->
  overflow_checks = false \/ (forall ops o, In ops threads -> In o ops -> (0 <= amount o)%Z) ->
  (forall i v, hash_value_at_index h i = Some v -> fits t v) ->
  let call := @hash_call _ Z Z Empty_set _ (int_fill t) (int_fill_with t) no_weighted (int_default t) in
  forall s, shared_run call (threads, Some h) s -> finished s ->
  match snd s with
  | Some h' => int_hash_calls t h (List.concat threads) = Val h'
  | None => int_hash_calls t h (List.concat threads) = Panic
  end.
Proof.
  intros B t A AX threads h Ht Hor Hh call s Hr Hf.
  assert (Hor' : overflow_checks = false \/ (forall o, In o (List.concat threads) -> (0 <= amount o)%Z)).
  { destruct Hor as [Hc|Hpos]; [left; exact Hc | right]. intros o Ho. apply in_concat in Ho as [ops [H1 H2]]. exact (Hpos ops o H1 H2). }
  destruct (run_done call _ _ Hr h eq_refl) as [did [Hp Hd]]. cbn [fst] in Hp.
  destruct (C34_int_sums_order_irrelevant B t A AX (List.concat threads) (did ++ List.concat (fst s)) Ht Hor' Hp) as [_ Hv].
  rewrite (Hv h Hh).
  assert (Hpanic : forall did rest h, foldo call did h = Panic -> foldo call (did ++ rest) h = Panic).
  { clear. intros did. induction did as [|c cs IH]; intros rest h E; [discriminate E|].
    cbn [app foldo] in *. destruct (call h c) as [h'|]; [|reflexivity]. cbn [obind] in *. apply IH. exact E. }
  destruct (snd s) as [h'|] eqn:Es.
  - destruct Hf as [Hf|Hf]; [|rewrite Es in Hf; discriminate].
    assert (List.concat (fst s) = []) as ->; [|rewrite app_nil_r; exact Hd].
    clear -Hf. induction Hf as [|c cs -> _ IH]; [reflexivity | exact IH].
  - apply Hpanic. exact Hd.
Qed.
Print Assumptions C72_integer_histograms_sparse.

(** Two threads, i32 counts: one schedule. *)
Example C72_sparse_nonvacuous : forall B : Build,
  let f := @CallFill _ Z Empty_set (ex_axis B) in
  let call := @hash_call _ Z Z Empty_set (ex_axis B) (int_fill (signed 32)) (int_fill_with (signed 32)) no_weighted (int_default (signed 32)) in
  let h := mkHashHist ex_cat ∅ in
  let h1 := mkHashHist ex_cat (<[1 := 1%Z]> ∅) in let h2 := mkHashHist ex_cat (<[0 := 1%Z]> (<[1 := 1%Z]> ∅)) in
  shared_run call ([[f 5]; [f 7]]%Z, Some h) ([[]; []], Some h2)
  /\ finished ([[]; []] : list (list (@fill_op _ Z Empty_set (ex_axis B))), Some h2)
  /\ primitive_int (signed 32) /\ (forall i v, hash_value_at_index h i = Some v -> fits (signed 32) v).
Proof.
  intros B f call h h1 h2. split; [|split; [|split]].
  - assert (E1 : call h (f 7%Z) = Val h1) by (destruct B as [[] []]; vm_compute; reflexivity).
    assert (E2 : call h1 (f 5%Z) = Val h2) by (destruct B as [[] []]; vm_compute; reflexivity).
    refine (sr_more _ _ _ _ (ss_return call [[f 5]%Z] (f 7%Z) [] [] _ _ E1) _).
    refine (sr_more _ _ _ _ (ss_return call [] (f 5%Z) [] [[]] _ _ E2) _).
    apply sr_here.
  - left. repeat constructor.
  - exists 32%Z. split; [lia | tauto].
  - intros i v Hv. unfold hash_value_at_index in Hv. cbn [hh_values h] in Hv. rewrite lookup_empty in Hv. discriminate.
Qed.

(** ** C69: dense histograms and category axes without an overflow bin. *)

(** A dense histogram is read with all its bins whenever its axes are, and only then. *)
Theorem C69_vec_histogram : forall A V (caw car : codec A) (cv : codec V) (PV : V -> Prop) (h : VecHistogram A V),
  lossless_on PV cv -> Forall PV (vh_values h) ->
  de (vec_hist_codec car cv) (ser (vec_hist_codec caw cv) h)
  = match de car (ser caw (vh_axes h)) with Some a' => Some (mkVecHist a' (vh_values h)) | None => None end.
Proof.
  intros A V caw car cv PV [a vs] Hv HP. cbn [vh_axes vh_values] in *. cbn [ser de vec_hist_codec vh_axes vh_values].
  unfold de_field. cbn [field List.filter fst String.eqb Ascii.eqb Bool.eqb snd].
  cbn [ser de vec_codec]. rewrite (de_all_map PV cv vs Hv HP). destruct (de car (ser caw a)); reflexivity.
Qed.
Print Assumptions C69_vec_histogram.

Theorem C69_categorynoflow : forall (Bw Br : Build) T (eqd : EqDecision T) (c : codec T) (P : T -> Prop) (values : list T) order1 order2,
  lossless_on P c -> Forall P values ->
  let a := categorynoflow_new values in
  Permutation order1 (map_t_to_index (cnf_axis a)) -> an_order (map_index_to_t (cnf_axis a)) order2 ->
  let r := @categorynoflow_de Br T eqd c (@categorynoflow_ser Bw T c order1 order2) in
  (N.of_nat (List.length values) <= @usize_mod Br ->
     exists a', r = Some a' /\ categorynoflow_eqb a a' = true /\ categorynoflow_eqb a' a = true
     /\ (forall x, @categorynoflow_index Br T eqd a' x = @categorynoflow_index Br T eqd a x)
     /\ (forall i, @categorynoflow_bin T a' i = @categorynoflow_bin T a i)
     /\ @categorynoflow_num_bins Br T a' = @categorynoflow_num_bins Br T a)
  /\ (@usize_mod Br < N.of_nat (List.length values) -> r = None).
Proof.
  intros Bw Br T eqd c P values order1 order2 Hc HP a Hp Ho r. split.
  - intros Hlen. exact (C50_category_noflow Br T eqd c P values order1 order2 Hc HP Hlen Hp Ho).
  - intros Hlen. pose proof (proj2 (C69_category Bw Br T eqd c P values order1 order2 Hc HP Hp Ho) Hlen) as E.
    unfold r, categorynoflow_de, categorynoflow_ser. cbn [field List.filter fst String.eqb Ascii.eqb Bool.eqb snd].
    rewrite E. reflexivity.
Qed.
Print Assumptions C69_categorynoflow.

(** Three bins written by a 64-bit target and read by a 32-bit one; and a histogram whose axis is refused. *)
Example C69_variants_nonvacuous :
  let cw := @uniform_codec wide Z Z_codec in let cr := @uniform_codec narrow Z Z_codec in
  let small := (mkUniform 1 0 10 10)%Z in let large := (mkUniform 5000000000 0 5000000000 1)%Z in
  de (vec_hist_codec cr Z_codec) (ser (vec_hist_codec cw Z_codec) (mkVecHist small [1; 2; 3]%Z)) = Some (mkVecHist small [1; 2; 3]%Z)
  /\ de (vec_hist_codec cr Z_codec) (ser (vec_hist_codec cw Z_codec) (mkVecHist large [1; 2; 3]%Z)) = None
  /\ lossless_on (fun _ => True) Z_codec.
Proof. split; [reflexivity|]. split; [reflexivity|]. intros z _. reflexivity. Qed.

(** ** C87: joining categories. *)

(** The place of the first [x] in [l], or the length of [l] when there is none. *)
Fixpoint place {T} `{EqDecision T} (x : T) (l : list T) : N :=
  match l with [] => 0 | y :: l => if decide (x = y) then 0 else 1 + place x l end.

Lemma place_bound {T} `{EqDecision T} (x : T) l : place x l <= N.of_nat (List.length l).
Proof. induction l as [|y l IH]; cbn [place List.length]; [lia|]. destruct (decide (x = y)); lia. Qed.
Lemma place_in {T} `{EqDecision T} (x : T) l : In x l -> nth_error l (N.to_nat (place x l)) = Some x.
Proof.
  induction l as [|y l IH]; cbn [place In]; [tauto|]. intros Hin. destruct (decide (x = y)) as [->|Hn]; [reflexivity|].
  destruct Hin as [->|Hin]; [contradiction|]. replace (N.to_nat (1 + place x l)) with (S (N.to_nat (place x l))) by lia. exact (IH Hin).
Qed.
Lemma place_notin {T} `{EqDecision T} (x : T) l : ~ In x l -> place x l = N.of_nat (List.length l).
Proof.
  induction l as [|y l IH]; cbn [place In List.length]; [reflexivity|]. intros Hin. destruct (decide (x = y)) as [->|Hn]; [tauto|].
  rewrite IH by tauto. lia.
Qed.

(** Category bin [i] of the fine axis goes to the bin of the category that [f] maps its category to,
    or to overflow if that is none of the coarse categories; overflow goes to overflow. *)
Definition join_categories {T T'} `{EqDecision T'} (f : T -> T') (values : list T) (values' : list T') (i : N) : N :=
  match nth_error values (N.to_nat i) with Some v => place (f v) values' | None => N.of_nat (List.length values') end.

(** What is in the fine bin is in the coarse bin. *)
Definition joined {T T'} (f : T -> T') (values' : list T') (b : SingleValueBinInterval T) (b' : SingleValueBinInterval T') : Prop :=
  match b, b' with
  | SVBin v, SVBin w => w = f v
  | SVBin v, SVOverflow => ~ In (f v) values'
  | SVOverflow, SVOverflow => True
  | SVOverflow, SVBin _ => False
  end.

(** Every value whose image is a coarse category must be a category of the fine axis; without
    overflow bins every fine category must in addition be mapped to a coarse one. *)
Theorem C87_category : forall (B : Build) T T' (eqd : EqDecision T) (eqd' : EqDecision T') (f : T -> T') (values : list T) (values' : list T'),
  N.of_nat (List.length values) + 1 < usize_mod -> N.of_nat (List.length values') + 1 < usize_mod ->
  List.NoDup values' -> (forall x, In (f x) values' -> In x values) ->
  let n := N.of_nat (List.length values) in let n' := N.of_nat (List.length values') in
  coarsens (@category_axis B T eqd) (@category_axis B T' eqd') (fun x y => y = f x) (joined f values') (category_new values) (category_new values')
    (n + 1) (n' + 1) (join_categories f values values')
  /\ ((forall x, In x values -> In (f x) values') ->
      coarsens (@categorynoflow_axis B T eqd) (@categorynoflow_axis B T' eqd') (fun x y => y = f x) (joined f values')
        (categorynoflow_new values) (categorynoflow_new values') n n' (join_categories f values values')).
Proof.
  intros B T T' eqd eqd' f values values' Hn Hn' Hnd Hback n n'.
  destruct (C20_category_has_bins B T eqd values Hn) as [F1 F2]. destruct (C20_category_has_bins B T' eqd' values' Hn') as [G1 G2].
  destruct (C17_category_bins B T eqd values Hn) as (_ & FB & FO & _). destruct (C17_category_bins B T' eqd' values' Hn') as (_ & GB & GO & _).
  destruct (C18_category_noflow B T eqd values Hn) as (_ & FX & FI & FN & _). destruct (C18_category_noflow B T' eqd' values' Hn') as (_ & GX & GI & GN & _).
  assert (Hidx : forall x, In (f x) values' -> category_index (category_new values') (f x) = Val (Some (place (f x) values'))).
  { intros x Hin. destruct (C17_category_index B T' eqd' values' (f x)) as (i & Ei & _ & _ & _ & Hk). rewrite Ei.
    rewrite (Hk Hnd _ (place_in _ _ Hin)). rewrite N2Nat.id. reflexivity. }
  split.
  - constructor; [exact F1 | exact G1| |].
    + intros i Hi. unfold join_categories. destruct (nth_error values (N.to_nat i)) as [v|] eqn:Ev.
      * split; [pose proof (place_bound (f v) values'); unfold n'; lia|]. pose proof (FB _ _ Ev) as Bv. rewrite N2Nat.id in Bv.
        destruct (in_dec eqd' (f v) values') as [Hin|Hout].
        -- exists (SVBin v), (SVBin (f v)). split; [exact Bv|]. split; [|reflexivity].
           pose proof (GB _ _ (place_in _ _ Hin)) as Bw. rewrite N2Nat.id in Bw. exact Bw.
        -- exists (SVBin v), SVOverflow. split; [exact Bv|]. split; [|exact Hout]. rewrite (place_notin _ _ Hout). exact GO.
      * apply nth_error_None in Ev. assert (i = n) as -> by (unfold n in *; lia). split; [unfold n'; lia|].
        exists SVOverflow, SVOverflow. split; [exact FO|]. split; [exact GO | exact I].
    + intros x y ->. destruct (C17_category_index B T eqd values x) as (i & Ei & Li & Hin & Hout & _). exists (Some i).
      split; [exact Ei|]. split; [intros j [= <-]; unfold n; lia|]. cbn [option_map]. unfold join_categories.
      destruct (in_dec eqd x values) as [Hx|Hx].
      * specialize (Hin Hx). destruct (C17_category_duplicates B T eqd values x i Hx Ei) as [Ev _]. rewrite Ev.
        destruct (in_dec eqd' (f x) values') as [Hf|Hf]; [exact (Hidx x Hf)|]. rewrite (place_notin _ _ Hf).
        destruct (C17_category_index B T' eqd' values' (f x)) as (k & Ek & _ & _ & Hk & _). rewrite <- (Hk Hf). exact Ek.
      * rewrite (Hout Hx). rewrite (proj2 (nth_error_None values _)) by lia. assert (Hf : ~ In (f x) values') by (intros Hc; exact (Hx (Hback x Hc))).
        destruct (C17_category_index B T' eqd' values' (f x)) as (k & Ek & _ & _ & Hk & _). rewrite <- (Hk Hf). exact Ek.
  - intros Hfwd. constructor; [exact F2 | exact G2| |].
    + intros i Hi. unfold join_categories. destruct (nth_error values (N.to_nat i)) as [v|] eqn:Ev; [|apply nth_error_None in Ev; unfold n in *; lia].
      pose proof (Hfwd v (nth_error_In _ _ Ev)) as Hin. pose proof (place_in _ _ Hin) as Hp.
      split; [unfold n'; assert (N.to_nat (place (f v) values') < List.length values')%nat by (apply nth_error_Some; rewrite Hp; discriminate); lia|].
      exists (SVBin v), (SVBin (f v)). pose proof (FN _ _ Ev) as Bv. rewrite N2Nat.id in Bv. split; [exact Bv|].
      pose proof (GN _ _ Hp) as Bw. rewrite N2Nat.id in Bw. split; [exact Bw | reflexivity].
    + intros x y ->. destruct (in_dec eqd x values) as [Hx|Hx].
      * destruct (FI x Hx) as (i & Ei & Li & _ & Ec). exists (Some i). split; [exact Ei|]. split; [intros j [= <-]; exact Li|].
        cbn [option_map]. unfold join_categories. destruct (C17_category_duplicates B T eqd values x i Hx Ec) as [Ev _]. rewrite Ev.
        pose proof (Hfwd x Hx) as Hf. destruct (GI (f x) Hf) as (k & Ek & _ & _ & Eck). rewrite (Hidx x Hf) in Eck. injection Eck as ->. exact Ek.
      * exists None. split; [exact (FX x Hx)|]. split; [discriminate|]. apply (GX (f x)). intros Hc. exact (Hx (Hback x Hc)).
Qed.
Print Assumptions C87_category.

(** 0, 1, 2, 3 joined into "even" and "odd"; every other integer is in neither axis's categories. *)
Example C87_category_nonvacuous : forall B : Build,
  let f x := if (x =? 1)%Z || (x =? 3)%Z then "odd"%string else if (x =? 0)%Z || (x =? 2)%Z then "even"%string else "other"%string in
  (forall x, In (f x) ["even"; "odd"]%string -> In x [0; 1; 2; 3]%Z)
  /\ (forall x, In x [0; 1; 2; 3]%Z -> In (f x) ["even"; "odd"]%string)
  /\ map (join_categories f [0; 1; 2; 3]%Z ["even"; "odd"]%string) (range 5) = [0; 1; 0; 1; 2]
  /\ List.NoDup ["even"; "odd"]%string.
Proof.
  intros B f. split; [|split; [|split]].
  - intros x Hin. cbn [In]. destruct (decide (x = 0 \/ x = 1 \/ x = 2 \/ x = 3)%Z) as [H|H]; [lia|]. exfalso. unfold f in Hin.
    replace (x =? 1)%Z with false in Hin by lia. replace (x =? 3)%Z with false in Hin by lia.
    replace (x =? 0)%Z with false in Hin by lia. replace (x =? 2)%Z with false in Hin by lia.
    destruct Hin as [E|[E|[]]]; discriminate E.
  - intros x [<-|[<-|[<-|[<-|[]]]]]; vm_compute; tauto.
  - reflexivity.
  - repeat constructor; simpl; [intros [H|[]]; discriminate H | tauto].
Qed.
