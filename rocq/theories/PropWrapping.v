(** * Property theorems: [std::num::Wrapping] bin values and histogram algebra (C62). *)
From stdpp Require Import gmap.
From Coq Require Import ZifyN ZifyNat Lia.
From Flocq Require Import Core.FLX IEEE754.BinarySingleNaN.
From Verif Require Import Base BaseFacts Num Float Axis Spec IntFacts AxesSpec Category Value VecHist HashHist HistSpec
  HistFacts HashFacts OpsFacts PropCategory PropHist PropHistIter PropOps PropOrder PropMerge PropIntBins PropMapReduce.
Open Scope N_scope.

(** [Wrapping<iN>] / [Wrapping<uN>]: the arithmetic of the primitive type compiled
    without overflow checks, whatever the build of the program. [value/fill.rs]
    fills it through [One] and [AddAssign], as every number type. *)
Definition wrapping : Build := {| overflow_checks := false; target_width := P64 |}.
Definition wrapping_ops (t : int_type) : NumOps Z := @int_ops wrapping t.
Definition wrapping_fill (t : int_type) : Fill Z := @int_fill wrapping t.
Definition wrapping_fill_with (t : int_type) : FillWith Z Z := @int_fill_with wrapping t.
Definition wrapping_default (t : int_type) : Default Z := @int_default wrapping t.

(** The axis belongs to the program, which may be built with overflow checks or
    without: [AX] is arbitrary. Filling never panics because of the bins, and every
    bin reads the total of the calls that reached it modulo 2^w. *)
Theorem C62_wrapping_bins :
  forall (t : int_type) A (AX : Axis A) (a : A) (ops : list (fill_op Z Empty_set)),
  primitive_int t ->
  let FV := wrapping_fill t in let FD := wrapping_fill_with t in let FW := no_weighted in let DV := wrapping_default t in
  (forall h0 : VecHistogram A Z, vec_new a = Val h0 ->
     (vec_calls h0 ops = Panic <-> axis_panics a ops)
     /\ forall h i, vec_calls h0 ops = Val h -> vec_value_at_index h0 i <> None ->
        exists v, vec_value_at_index h i = Some v /\ fits t v
                  /\ exists k, total (reaching a i ops) = (v + k * (int_max t - int_min t + 1))%Z)
  /\ (hash_calls (hash_new a) ops = Panic <-> axis_panics a ops)
  /\ forall h i, hash_calls (hash_new a) ops = Val h -> reaching a i ops <> [] ->
        exists v, hash_value_at_index h i = Some v /\ fits t v
                  /\ exists k, total (reaching a i ops) = (v + k * (int_max t - int_min t + 1))%Z.
Proof. intros t A AX a ops Ht. exact (@C51_unchecked wrapping t A AX a ops Ht eq_refl). Qed.
Print Assumptions C62_wrapping_bins.

(** Calls may be dealt out to any number of histograms in any order and merged in
    any bracketing: same result as one histogram. *)
Theorem C62_wrapping_any_distribution :
  forall (t : int_type) A (AX : Axis A) (AE : AxisEq A) (a : A) (ops : list (fill_op Z Empty_set)) (p : plan Z Empty_set),
  primitive_int t -> axis_eqb a a = true -> Permutation ops (entries p) ->
  let FV := wrapping_fill t in let FD := wrapping_fill_with t in let FW := no_weighted in let DV := wrapping_default t in
  (forall (h0 h : VecHistogram A Z), vec_new a = Val h0 -> vec_calls h0 ops = Val h ->
     (exists h', dense_result (@n_add Z (wrapping_ops t)) a p h') /\ forall h', dense_result (@n_add Z (wrapping_ops t)) a p h' -> h' = h)
  /\ (forall h : HashHistogram A Z, hash_calls (hash_new a) ops = Val h ->
     (exists h', sparse_result (@n_add Z (wrapping_ops t)) a p h') /\ forall h', sparse_result (@n_add Z (wrapping_ops t)) a p h' -> h' = h).
Proof.
  intros t A AX AE a ops p Ht Ha Hp.
  exact (@C55_integer_any_distribution wrapping t A AX AE a ops p Ht Ha (or_introl eq_refl) Hp).
Qed.
Print Assumptions C62_wrapping_any_distribution.

(** ** Laws of histogram arithmetic *)

(** The contents of a sparse histogram, bin by bin, unfilled bins reading the default. *)
Definition contents {A V} `{Default V} (h : HashHistogram A V) (i : N) : V :=
  match hash_value_at_index h i with Some v => v | None => default_v end.

(** The values of a dense result. *)
Definition values_of {A V E} (r : outcome (result (VecHistogram A V) E)) : outcome (option (list V)) :=
  match r with Val (Ok h) => Val (Some (vec_values h)) | Val (Err _) => Val None | Panic => Panic end.

(** A commutative operator on bin values gives a commutative operator on
    histograms: same panics, same errors, same values. *)
Theorem C62_commutative :
  forall A V (AX : Axis A) (AE : AxisEq A) (DV : Default V) (op : V -> V -> outcome V),
  (forall x y, op x y = op y x) ->
  (forall l r : VecHistogram A V, axis_eqb (vh_axes l) (vh_axes r) = axis_eqb (vh_axes r) (vh_axes l) ->
     values_of (vec_binop_borrowed op l r) = values_of (vec_binop_borrowed op r l))
  /\ (forall (l r hl : HashHistogram A V) keys keys',
     NoDup keys -> NoDup keys' ->
     (forall i, i ∈ keys <-> is_Some (hash_value_at_index l i) \/ is_Some (hash_value_at_index r i)) ->
     (forall i, i ∈ keys' <-> is_Some (hash_value_at_index l i) \/ is_Some (hash_value_at_index r i)) ->
     axis_eqb (hh_axes r) (hh_axes l) = true ->
     hash_binop_borrowed op l r keys = Val (Ok hl) ->
     hash_binop_borrowed op r l keys' = Val (Ok (mkHashHist (hh_axes r) (hh_values hl)))).
Proof.
  intros A V AX AE DV op Hc. split.
  - intros l r Hax. unfold vec_binop_borrowed. rewrite Hax. destruct (axis_eqb (vh_axes r) (vh_axes l)); [cbn [negb]|reflexivity].
    assert (E : forall xs ys : list V, mapo (fun p : V * V => op (fst p) (snd p)) (combine xs ys)
                = mapo (fun p : V * V => op (fst p) (snd p)) (combine ys xs)).
    { induction xs as [|x xs IH]; intros [|y ys]; cbn [combine mapo]; try reflexivity. cbn [fst snd]. rewrite Hc, IH. reflexivity. }
    rewrite E. destruct (mapo _ _); reflexivity.
  - intros l r hl keys keys' Hn Hn' Hk Hk' E2 Hl.
    destruct (axis_eqb (hh_axes l) (hh_axes r)) eqn:E1; [|unfold hash_binop_borrowed in Hl; rewrite E1 in Hl; discriminate].
    assert (Ho : forall h : HashHistogram A V, an_order (hash_as_map h) (map_to_list (hash_as_map h))) by (intros; unfold an_order; reflexivity).
    destruct (@C38_sparse_operators A V AX AE DV op l r keys _ Hn Hk (Ho r)) as [_ [_ H1]].
    destruct (H1 E1) as [H1' _]. destruct (H1' hl Hl) as [_ H1''].
    apply borrowed_intro; [exact Hn'|exact E2|..].
    + intros i Hi. apply Hk' in Hi. specialize (H1'' i). unfold hash_value_at_index, pair_op in *.
      destruct (hh_values l !! i) as [x|], (hh_values r !! i) as [y|].
      * destruct H1'' as [z [Hz Hv]]. rewrite Hc in Hz. eauto.
      * destruct H1'' as [z [Hz Hv]]. rewrite Hc in Hz. eauto.
      * destruct H1'' as [z [Hz Hv]]. rewrite Hc in Hz. eauto.
      * destruct Hi as [[? Hi]|[? Hi]]; discriminate.
    + intros i Hi. rewrite Hk' in Hi. specialize (H1'' i). unfold hash_value_at_index in *.
      destruct (hh_values l !! i) as [x|], (hh_values r !! i) as [y|]; [exfalso; apply Hi; eauto..|exact H1''].
Qed.
Print Assumptions C62_commutative.

(** [+] and [*] of all the number types commute, in every build: integers panic or
    wrap alike, floats round, overflow and produce NaN alike. *)
Theorem C62_numbers_commute :
  (forall (B : Build) t x y, @n_add Z (int_ops t) x y = @n_add Z (int_ops t) y x
                             /\ @n_mul Z (int_ops t) x y = @n_mul Z (int_ops t) y x)
  /\ (forall (B : Build) prec emax (P : Prec_gt_0 prec) (E : Prec_lt_emax prec emax) x y,
        let ops := float_ops prec emax P E in
        @n_add _ ops x y = @n_add _ ops y x /\ @n_mul _ ops x y = @n_mul _ ops y x).
Proof.
  split.
  - intros B t x y. cbn. rewrite (Z.add_comm x y), (Z.mul_comm x y). auto.
  - intros B prec emax P E x y ops. split; cbn [n_add n_mul ops float_ops]; f_equal.
    + destruct x as [[]|[]| |sx mx ex Hx], y as [[]|[]| |sy my ey Hy]; try reflexivity.
      cbn [Bplus]. rewrite (Z.min_comm ex ey). f_equal. unfold Fplus_naive. lia.
    + destruct x as [[]|[]| |sx mx ex Hx], y as [[]|[]| |sy my ey Hy]; try reflexivity;
        try (destruct sx; reflexivity); try (destruct sy; reflexivity).
      apply B2SF_inj. cbn [Bmult]. rewrite !B2SF_SF2B, (xorb_comm sx sy), (Pos.mul_comm mx my), (Z.add_comm ex ey). reflexivity.
Qed.
Print Assumptions C62_numbers_commute.

(** With [Wrapping] bins histograms form a commutative group under [+] and [-]:
    dense histograms over axes that compare equal ... *)
Theorem C62_wrapping_group_dense :
  forall (t : int_type) A (AE : AxisEq A), primitive_int t ->
  let add := @n_add Z (wrapping_ops t) in let sub := @n_sub Z (wrapping_ops t) in
  forall l m r : VecHistogram A Z,
  (forall x y, x = vh_axes l \/ x = vh_axes m \/ x = vh_axes r -> y = vh_axes l \/ y = vh_axes m \/ y = vh_axes r -> axis_eqb x y = true) ->
  (length (vec_values l) = length (vec_values m))%nat -> (length (vec_values l) = length (vec_values r))%nat ->
  Forall (fits t) (vec_values l) -> Forall (fits t) (vec_values m) -> Forall (fits t) (vec_values r) ->
  (* never an error, never a panic *)
  (exists lm mr, vec_binop_borrowed add l m = Val (Ok lm) /\ vec_binop_borrowed add m r = Val (Ok mr)
     (* (l + m) + r = l + (m + r) *)
     /\ (exists s, vec_binop_borrowed add lm r = Val (Ok s) /\ vec_binop_borrowed add l mr = Val (Ok s))
     (* (l + m) - m = l *)
     /\ vec_binop_borrowed sub lm m = Val (Ok l))
  (* (l - m) + m = l *)
  /\ (exists d, vec_binop_borrowed sub l m = Val (Ok d) /\ vec_binop_borrowed add d m = Val (Ok l)).
Proof.
  intros t A AE Ht add sub [al l] [am m] [ar r] Hax Hlm Hlr Fl Fm Fr. cbn [vh_axes vec_values vh_values] in *.
  pose proof (primitive_bounds t Ht) as Hb0. assert (Hb : (int_min t <= int_max t)%Z) by lia.
  assert (Hop : forall (f : Z -> Z -> Z) (op : Z -> Z -> outcome Z), (forall x y, op x y = Val (wrap t (f x y))) ->
    forall a b xs ys, axis_eqb a b = true ->
    vec_binop_borrowed op (mkVecHist a xs) (mkVecHist b ys) = Val (Ok (mkVecHist a (map (fun p => wrap t (f (fst p) (snd p))) (combine xs ys))))).
  { intros f op H a b xs ys Hab. unfold vec_binop_borrowed. cbn [vh_axes vh_values]. rewrite Hab. cbn [negb].
    rewrite (mapo_val _ (fun p => wrap t (f (fst p) (snd p)))) by (intros; apply H). reflexivity. }
  assert (Hadd : forall x y, add x y = Val (wrap t (x + y))) by (intros; apply int_result_unchecked; [assumption|reflexivity]).
  assert (Hsub : forall x y, sub x y = Val (wrap t (x - y))) by (intros; apply int_result_unchecked; [assumption|reflexivity]).
  assert (E : forall x y, x = al \/ x = am \/ x = ar -> y = al \/ y = am \/ y = ar -> axis_eqb x y = true) by exact Hax. clear Hax.
  assert (W : forall z, wrap t (wrap t z) = wrap t z) by (intros; apply wrap_fits; [assumption|apply wrap_in; assumption]).
  assert (WL : forall x y, wrap t (x + wrap t y) = wrap t (x + y)).
  { intros x y. rewrite Z.add_comm, wrap_add by assumption. f_equal. lia. }
  split.
  - eexists. eexists. split; [apply (Hop Z.add); [exact Hadd|apply E; tauto]|]. split; [apply (Hop Z.add); [exact Hadd|apply E; tauto]|].
    split; [eexists; split|].
    + apply (Hop Z.add); [exact Hadd|apply E; tauto].
    + rewrite (Hop Z.add) by (first [exact Hadd|apply E; tauto]). do 3 f_equal.
      clear Fl Fm Fr. revert m r Hlm Hlr. induction l as [|x l IH]; intros [|y m] [|z r] Hlm Hlr; try discriminate; [reflexivity|].
      cbn [combine map fst snd]. rewrite wrap_add, WL by assumption. f_equal; [f_equal; lia|]. apply IH; cbn in *; lia.
    + rewrite (Hop Z.sub) by (first [exact Hsub|apply E; tauto]). do 3 f_equal.
      clear Fm Fr Hlr r. revert m Hlm. induction l as [|x l IH]; intros [|y m] Hlm; try discriminate; [reflexivity|].
      inversion_clear Fl as [|? ? Hx Fl']. cbn [combine map fst snd]. f_equal; [|apply IH; [exact Fl'|cbn in Hlm; lia]].
      replace (wrap t (x + y) - y)%Z with (wrap t (x + y) + - y)%Z by lia. rewrite wrap_add by assumption.
      replace (x + y + - y)%Z with x by lia. apply wrap_fits; assumption.
  - eexists. split; [apply (Hop Z.sub); [exact Hsub|apply E; tauto]|].
    rewrite (Hop Z.add) by (first [exact Hadd|apply E; tauto]). do 3 f_equal.
    clear Fm Fr Hlr r. revert m Hlm. induction l as [|x l IH]; intros [|y m] Hlm; try discriminate; [reflexivity|].
    inversion_clear Fl as [|? ? Hx Fl']. cbn [combine map fst snd]. f_equal; [|apply IH; [exact Fl'|cbn in Hlm; lia]].
    rewrite wrap_add by assumption. replace (x - y + y)%Z with x by lia. apply wrap_fits; assumption.
Qed.
Print Assumptions C62_wrapping_group_dense.

(** ... and sparse ones, whose unfilled bins read zero, in any hash order. *)
Theorem C62_wrapping_group_sparse :
  forall (t : int_type) A (AX : Axis A) (AE : AxisEq A), primitive_int t ->
  let add := @n_add Z (wrapping_ops t) in let sub := @n_sub Z (wrapping_ops t) in let DV := wrapping_default t in
  forall (l m lm d : HashHistogram A Z) keys keys',
  (forall i v, hash_value_at_index l i = Some v -> fits t v) ->
  NoDup keys -> (forall i, i ∈ keys <-> is_Some (hash_value_at_index l i) \/ is_Some (hash_value_at_index m i)) ->
  NoDup keys' -> (forall i, i ∈ keys' <-> is_Some (hash_value_at_index lm i) \/ is_Some (hash_value_at_index m i)) ->
  (* (l + m) - m reads as l *)
  (hash_binop_borrowed add l m keys = Val (Ok lm) -> hash_binop_borrowed sub lm m keys' = Val (Ok d) ->
     forall i, contents d i = contents l i)
  (* (l - m) + m reads as l *)
  /\ (hash_binop_borrowed sub l m keys = Val (Ok lm) -> hash_binop_borrowed add lm m keys' = Val (Ok d) ->
     forall i, contents d i = contents l i).
Proof.
  intros t A AX AE Ht add sub DV l m lm d keys keys' Hfit Hn Hk Hn' Hk'.
  pose proof (primitive_bounds t Ht) as Hb0. assert (Hb : (int_min t <= int_max t)%Z) by lia.
  assert (Hadd : forall x y, add x y = Val (wrap t (x + y))) by (intros; apply int_result_unchecked; [assumption|reflexivity]).
  assert (Hsub : forall x y, sub x y = Val (wrap t (x - y))) by (intros; apply int_result_unchecked; [assumption|reflexivity]).
  assert (Ho : forall h : HashHistogram A Z, an_order (hash_as_map h) (map_to_list (hash_as_map h))) by (intros; unfold an_order; reflexivity).
  assert (D0 : @default_v Z DV = 0%Z) by reflexivity.
  assert (F0 : fits t 0) by (unfold fits; lia).
  assert (Step : forall (op : Z -> Z -> outcome Z) f, (forall x y, op x y = Val (wrap t (f x y))) ->
     forall (a b c : HashHistogram A Z) ks, NoDup ks -> (forall i, i ∈ ks <-> is_Some (hash_value_at_index a i) \/ is_Some (hash_value_at_index b i)) ->
     hash_binop_borrowed op a b ks = Val (Ok c) ->
     forall i, (hash_value_at_index a i = None /\ hash_value_at_index b i = None /\ hash_value_at_index c i = None)
               \/ contents c i = wrap t (f (contents a i) (contents b i))).
  { intros op f Hf a b c ks Hnd Hks Hc i.
    destruct (axis_eqb (hh_axes a) (hh_axes b)) eqn:E1; [|unfold hash_binop_borrowed in Hc; rewrite E1 in Hc; discriminate].
    destruct (@C38_sparse_operators A Z AX AE DV op a b ks _ Hnd Hks (Ho b)) as [_ [_ H1]].
    destruct (H1 E1) as [H1' _]. destruct (H1' c Hc) as [_ H1'']. specialize (H1'' i).
    unfold contents. destruct (hash_value_at_index a i) as [x|], (hash_value_at_index b i) as [y|]; [..|left; auto];
      right; destruct H1'' as [z [Hz ->]]; rewrite Hf in Hz; congruence. }
  assert (Fc : forall i, fits t (contents l i)).
  { intros i. unfold contents. destruct (hash_value_at_index l i) eqn:E; [eapply Hfit; exact E|exact F0]. }
  split; intros H1 H2 i.
  - destruct (Step add Z.add Hadd l m lm keys Hn Hk H1 i) as [[A1 [A2 A3]]|A1];
    destruct (Step sub Z.sub Hsub lm m d keys' Hn' Hk' H2 i) as [[B1 [B2 B3]]|B1].
    + unfold contents. rewrite A1, B3. reflexivity.
    + rewrite B1. unfold contents. rewrite A1, A2, A3, D0. apply wrap_fits; [exact Hb|exact F0].
    + unfold contents in *. rewrite B3. rewrite B1, B2, D0 in A1. rewrite Z.add_0_r in A1.
      rewrite wrap_fits in A1; [exact A1|exact Hb|exact (Fc i)].
    + rewrite B1, A1. replace (wrap t (contents l i + contents m i) - contents m i)%Z with (wrap t (contents l i + contents m i) + - contents m i)%Z by lia.
      rewrite wrap_add by exact Hb. replace (contents l i + contents m i + - contents m i)%Z with (contents l i) by lia.
      apply wrap_fits; [exact Hb|apply Fc].
  - destruct (Step sub Z.sub Hsub l m lm keys Hn Hk H1 i) as [[A1 [A2 A3]]|A1];
    destruct (Step add Z.add Hadd lm m d keys' Hn' Hk' H2 i) as [[B1 [B2 B3]]|B1].
    + unfold contents. rewrite A1, B3. reflexivity.
    + rewrite B1. unfold contents. rewrite A1, A2, A3, D0. apply wrap_fits; [exact Hb|exact F0].
    + unfold contents in *. rewrite B3. rewrite B1, B2, D0 in A1. rewrite Z.sub_0_r in A1.
      rewrite wrap_fits in A1; [exact A1|exact Hb|exact (Fc i)].
    + rewrite B1, A1. rewrite wrap_add by exact Hb. replace (contents l i - contents m i + contents m i)%Z with (contents l i) by lia.
      apply wrap_fits; [exact Hb|apply Fc].
Qed.
Print Assumptions C62_wrapping_group_sparse.

(** The crate's own test: u32::MAX then one more fill reads 0. Wrapping<u8> bins [200, 3] + [100, 250] = [44, 253]. *)
Example C62_nonvacuous : forall B : Build,
  let a := category_new [5]%Z in
  primitive_int (unsigned 32)
  /\ @vec_calls _ _ _ _ (ex_axis B) (wrapping_fill (unsigned 32)) (wrapping_fill_with (unsigned 32)) no_weighted (mkVecHist a [0; 0]%Z)
       [@CallFillWith _ Z Empty_set (ex_axis B) 5 4294967295; @CallFill _ Z Empty_set (ex_axis B) 5]%Z = Val (mkVecHist a [0; 0]%Z)
  /\ @vec_binop_borrowed _ Z ex_eq (@n_add Z (wrapping_ops (unsigned 8))) (mkVecHist ex_cat [200; 3]%Z) (mkVecHist ex_cat [100; 250]%Z)
     = Val (Ok (mkVecHist ex_cat [44; 253]%Z)).
Proof.
  intros B. split; [exists 32%Z; split; [lia|right; reflexivity]|split].
  all: try (destruct B as [[] []]; vm_compute; reflexivity).
Qed.
