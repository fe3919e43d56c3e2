(** * PropGridOps: arithmetic of float histograms on a grid, ratios and efficiencies (C96). *)
From Coq Require Import List ZArith NArith Bool Lia ZifyN ZifyNat ZifyBool Reals Lra Permutation.
From Flocq Require Import Core IEEE754.BinarySingleNaN.
From stdpp Require Import gmap.
From Verif Require Import Base BaseFacts Num Float FloatFacts FloatSpec FloatApprox GridSpec FloatGrid Axis Spec IntFacts AxesSpec Category Value ValueFloat VecHist HashHist HistSpec
  HistFacts HashFacts OpsFacts PropHist PropHistIter PropOrder PropCount PropMerge PropPar ExactSpec PropProject PropFloatGrid PropValue PropValueFloat PropMeanInt PropProfile PropBinDataFloat
  PropExactWeights PropGridStats.
Import ListNotations.
Open Scope N_scope.

(** ** Specification *)

(** The three forms of an operator between dense histograms ([&l op &r], [l op &r] and [l op= &r]) all give [h]; and between
    sparse ones, whatever the orders of the hash tables. *)
Definition dense_gives {A V} {AX : Axis A} {AE : AxisEq A} (op : V -> V -> outcome V) (l r h : VecHistogram A V) : Prop :=
  vec_binop_borrowed op l r = Val (Ok h) /\ vec_binop_owned op l r = Val (Ok h) /\ vec_binop_assign op l r = Val h.
Definition sparse_gives {A V} {AX : Axis A} {AE : AxisEq A} {DV : Default V} (op : V -> V -> outcome V) (l r h : HashHistogram A V) : Prop :=
  forall keys order, NoDup keys -> (forall i, i ∈ keys <-> is_Some (hash_value_at_index l i) \/ is_Some (hash_value_at_index r i)) -> an_order (hash_as_map r) order ->
  hash_binop_borrowed op l r keys = Val (Ok h) /\ hash_binop_owned op l r order = Val (Ok h) /\ hash_binop_assign op l r order = Val h.

(** Bin [i] of a sparse histogram holds [us i] units of [2^e]; a bin that is not there holds none. *)
Definition sparse_units {prec emax : Z} {P : Prec_gt_0 prec} {E : Prec_lt_emax prec emax} {A} {AX : Axis A} (e : Z) (h : HashHistogram A (binary_float prec emax)) (us : N -> Z) : Prop :=
  forall i, match hash_value_at_index h i with Some v => v = in_units prec emax P E e (us i) | None => us i = 0%Z end.

(** ** Operators whose results are known bin by bin *)
Section Generic.
Context {A V : Type} {AX : Axis A} {AE : AxisEq A} (op : V -> V -> outcome V).

Lemma dense_known (l r : VecHistogram A V) (res : list V) : axis_eqb (vh_axes l) (vh_axes r) = true -> length (vec_values r) = length (vec_values l) -> length res = length (vec_values l) ->
  (forall i x y, nth_error (vec_values l) i = Some x -> nth_error (vec_values r) i = Some y -> exists z, op x y = Val z /\ nth_error res i = Some z) ->
  dense_gives op l r (mkVecHist (vh_axes l) res).
Proof.
  intros Hax Hlr Hl Hz. unfold vec_values in *.
  assert (K : zip_assign op (vh_values l) (vh_values r) = Val res) by (apply zip_assign_intro; [congruence | congruence | exact Hz]).
  unfold dense_gives, vec_binop_borrowed, vec_binop_owned, vec_binop_assign. rewrite Hax. cbn [negb]. rewrite <- zip_assign_combine by congruence. rewrite K. cbn [obind]. auto.
Qed.

Context {DV : Default V}.
Lemma sparse_known (l r : HashHistogram A V) (res : gmap N V) : axis_eqb (hh_axes l) (hh_axes r) = true ->
  (forall i, match hash_value_at_index l i, hash_value_at_index r i with
             | None, None => res !! i = None
             | Some x, None => op x default_v = Val x /\ res !! i = Some x
             | None, Some y => exists z, op default_v y = Val z /\ res !! i = Some z
             | Some x, Some y => exists z, op x y = Val z /\ res !! i = Some z
             end) ->
  sparse_gives op l r (mkHashHist (hh_axes l) res).
Proof.
  intros Hax Hb keys order Hnd Hk Ho. unfold hash_value_at_index, hash_as_map in *.
  assert (K : hash_merge_loop op (hh_values l) order = Val res).
  { apply (merge_loop_intro op (hh_values l) (hh_values r) res order Ho).
    - intros i v Hv. specialize (Hb i). rewrite Hv in Hb. destruct (hh_values l !! i); exact Hb.
    - intros i Hv. specialize (Hb i). rewrite Hv in Hb. destruct (hh_values l !! i); [exact (proj2 Hb) | exact Hb]. }
  split; [|unfold hash_binop_owned, hash_binop_assign; rewrite Hax; cbn [negb]; rewrite K; cbn [obind]; auto].
  apply borrowed_intro; [exact Hnd | exact Hax | |].
  - intros i Hi. apply Hk in Hi. specialize (Hb i). unfold pair_op. destruct (hh_values l !! i) as [x|], (hh_values r !! i) as [y|]; try exact Hb.
    + exists x. exact Hb.
    + destruct Hi as [[? Hi]|[? Hi]]; discriminate.
  - intros i Hi. specialize (Hb i). destruct (hh_values l !! i) as [x|] eqn:E1; [contradiction Hi; apply Hk; left; eexists; exact E1|].
    destruct (hh_values r !! i) as [y|] eqn:E2; [contradiction Hi; apply Hk; right; eexists; exact E2 | exact Hb].
Qed.
End Generic.

(** ** Sums, differences and quotients of units *)
Section Units.
Context (prec emax : Z) (P : Prec_gt_0 prec) (E : Prec_lt_emax prec emax) (Hcov : covered_format prec emax) (e : Z) (Hge : grid_exponent prec emax e).
Notation flt := (binary_float prec emax).
Notation units := (in_units prec emax P E e).
Notation max := (2 ^ prec)%Z.

Lemma minus_not_negative_zero (x y : flt) : is_finite (Bminus mode_NE x y) = true -> x <> B754_zero true -> Bminus mode_NE x y <> B754_zero true.
Proof.
  intros Hf Hx. assert (Hm : Bminus mode_NE x y = Bplus mode_NE x (Bopp y)) by (destruct x as [[]|[]| |[] ? ? ?], y as [[]|[]| |[] ? ? ?]; reflexivity).
  rewrite Hm in Hf |- *. apply plus_not_negative_zero; assumption.
Qed.

Lemma units_add u v : (Z.abs u <= max)%Z -> (Z.abs v <= max)%Z -> (Z.abs (u + v) <= max)%Z -> Bplus mode_NE (units u) (units v) = units (u + v).
Proof. intros Hu Hv Hs. apply units_plus; [exact Hcov | exact Hge | exact (proj1 (in_units_value prec emax P E Hcov e Hge v Hv)) | exact Hu | exact Hs]. Qed.

Lemma units_sub u v : (Z.abs u <= max)%Z -> (Z.abs v <= max)%Z -> (Z.abs (u - v) <= max)%Z -> Bminus mode_NE (units u) (units v) = units (u - v).
Proof.
  intros Hu Hv Hs. destruct (in_units_value prec emax P E Hcov e Hge u Hu) as [Gu Zu], (in_units_value prec emax P E Hcov e Hge v Hv) as [Gv _].
  pose proof (grid_minus prec emax P E (proj1 Hcov) e Hge _ _ _ _ Gu Gv Hs) as K.
  apply same_units_same; [exact Hcov | exact Hge | exact Hs | exact K|]. apply minus_not_negative_zero; [exact (proj1 K) | exact Zu].
Qed.
End Units.

Definition float_op {B : Build} (prec emax : Z) (P : Prec_gt_0 prec) (E : Prec_lt_emax prec emax) (plus : bool) : binary_float prec emax -> binary_float prec emax -> outcome (binary_float prec emax) :=
  if plus then @n_add _ (float_ops prec emax P E) else @n_sub _ (float_ops prec emax P E).
Definition unit_op (plus : bool) : Z -> Z -> Z := if plus then Z.add else Z.sub.
Definition small (prec u : Z) : Prop := (Z.abs u <= 2 ^ prec)%Z.

Lemma nth_zip_with {X Y Z'} (f : X -> Y -> Z') l r i : nth_error (zip_with f l r) i = match nth_error l i, nth_error r i with Some x, Some y => Some (f x y) | _, _ => None end.
Proof. revert r i. induction l as [|x l IH]; intros [|y r] [|i]; cbn; try reflexivity; [destruct (nth_error l i); reflexivity | apply IH]. Qed.

Lemma op_units {B : Build} prec emax P E : covered_format prec emax -> forall e, grid_exponent prec emax e -> forall plus u v, small prec u -> small prec v -> small prec (unit_op plus u v) ->
  float_op prec emax P E plus (in_units prec emax P E e u) (in_units prec emax P E e v) = Val (in_units prec emax P E e (unit_op plus u v)).
Proof.
  intros Hcov e Hge plus u v Hu Hv Hs. unfold float_op, unit_op, small in *. destruct plus; cbn [n_add n_sub float_ops]; f_equal; [apply units_add | apply units_sub]; assumption.
Qed.

(** C96. The sum and the difference of two float histograms whose bins are whole numbers of units [2^e] are the sum and the
    difference of the numbers of units, without rounding, while these stay within [2^prec]. Dense and sparse, all three forms. *)
Theorem C96_sums_and_differences : forall (prec emax : Z) (P : Prec_gt_0 prec) (E : Prec_lt_emax prec emax) (B : Build) A (AX : Axis A) (AE : AxisEq A) (e : Z) (plus : bool),
  let flt := binary_float prec emax in let DV := float_default prec emax P E in let op := float_op prec emax P E plus in let units := in_units prec emax P E e in
  covered_format prec emax -> grid_exponent prec emax e ->
  (forall (h1 h2 : VecHistogram A flt) (us1 us2 : list Z), axis_eqb (vh_axes h1) (vh_axes h2) = true ->
     vec_values h1 = map units us1 -> vec_values h2 = map units us2 ->
     Forall2 (fun u1 u2 => small prec u1 /\ small prec u2 /\ small prec (unit_op plus u1 u2)) us1 us2 ->
     exists h, dense_gives op h1 h2 h /\ vh_axes h = vh_axes h1 /\ vec_values h = map units (zip_with (unit_op plus) us1 us2))
  /\ (forall (h1 h2 : HashHistogram A flt) (us1 us2 : N -> Z), axis_eqb (hh_axes h1) (hh_axes h2) = true -> sparse_units e h1 us1 -> sparse_units e h2 us2 ->
     (forall i, small prec (us1 i) /\ small prec (us2 i) /\ small prec (unit_op plus (us1 i) (us2 i))) ->
     exists h, sparse_gives op h1 h2 h /\ hh_axes h = hh_axes h1 /\ sparse_units e h (fun i => unit_op plus (us1 i) (us2 i))
       /\ forall i, is_Some (hash_value_at_index h i) <-> is_Some (hash_value_at_index h1 i) \/ is_Some (hash_value_at_index h2 i)).
Proof.
  intros prec emax P E B A AX AE e plus flt DV op units Hcov Hge. subst flt. split.
  - intros h1 h2 us1 us2 Hax H1 H2 Hb. pose proof (Forall2_length _ _ _ Hb) as Hlen.
    exists (mkVecHist (vh_axes h1) (map units (zip_with (unit_op plus) us1 us2))). split; [|split; reflexivity].
    apply dense_known; [exact Hax | rewrite H1, H2, !map_length; congruence | rewrite H1, !map_length, zip_with_length; lia|].
    intros i x y. rewrite H1, H2, !nth_error_map, nth_zip_with.
    destruct (nth_error us1 i) as [u1|] eqn:E1; [|discriminate]. destruct (nth_error us2 i) as [u2|] eqn:E2; [|discriminate]. cbn [option_map].
    intros [= <-] [= <-]. eexists. split; [|reflexivity].
    assert (Hb2 : small prec u1 /\ small prec u2 /\ small prec (unit_op plus u1 u2)).
    { clear -Hb E1 E2. revert i E1 E2. induction Hb as [|a b l r Hab _ IH]; intros [|i] E1 E2; try discriminate; cbn in *; [congruence | exact (IH i E1 E2)]. }
    apply op_units; tauto.
  - intros h1 h2 us1 us2 Hax H1 H2 Hb. unfold sparse_units, hash_value_at_index in *.
    set (zero := B754_zero false : binary_float prec emax).
    set (f := fun x y : option (binary_float prec emax) => match x, y with None, None => None | _, _ => Some (if plus then Bplus mode_NE (default zero x) (default zero y) else Bminus mode_NE (default zero x) (default zero y)) end).
    assert (L : forall i, merge f (hh_values h1) (hh_values h2) !! i = f (hh_values h1 !! i) (hh_values h2 !! i)) by (intros i; rewrite lookup_merge; destruct (hh_values h1 !! i), (hh_values h2 !! i); reflexivity).
    assert (U0 : units 0%Z = zero) by (apply units_zero; assumption).
    assert (K : forall i, let r := (if plus then Bplus mode_NE (units (us1 i)) (units (us2 i)) else Bminus mode_NE (units (us1 i)) (units (us2 i))) in
      op (units (us1 i)) (units (us2 i)) = Val r /\ r = units (unit_op plus (us1 i) (us2 i))).
    { intros i. cbv zeta. specialize (Hb i). pose proof (op_units prec emax P E Hcov e Hge plus (us1 i) (us2 i) ltac:(tauto) ltac:(tauto) ltac:(tauto)) as Q.
      unfold op, units, float_op in Q |- *. destruct plus; cbn [n_add n_sub float_ops] in *; injection Q as Q; split; [reflexivity | exact Q | reflexivity | exact Q]. }
    assert (M : forall i, match hh_values h1 !! i, hh_values h2 !! i with None, None => unit_op plus (us1 i) (us2 i) = 0%Z | _, _ => f (hh_values h1 !! i) (hh_values h2 !! i) = Some (units (unit_op plus (us1 i) (us2 i))) end).
    { intros i. specialize (H1 i). specialize (H2 i). specialize (K i). cbv zeta in K. unfold f. destruct K as [_ K]. fold units in H1, H2.
      destruct (hh_values h1 !! i) as [v1|], (hh_values h2 !! i) as [v2|]; cbn [default from_option]; unfold Datatypes.id.
      - rewrite H1, H2, K. reflexivity.
      - rewrite H1, <- U0. rewrite H2 in K |- *. rewrite K. reflexivity.
      - rewrite H2, <- U0. rewrite H1 in K |- *. rewrite K. reflexivity.
      - rewrite H1, H2. unfold unit_op. destruct plus; reflexivity. }
    exists (mkHashHist (hh_axes h1) (merge f (hh_values h1) (hh_values h2))). cbn [hh_axes hh_values].
    split; [|split; [reflexivity|split]].
    + apply sparse_known; [exact Hax|]. intros i. unfold hash_value_at_index. rewrite L. specialize (M i). specialize (H1 i). specialize (H2 i). specialize (K i). cbv zeta in K. destruct K as [K1 K2]. rewrite K2 in K1. fold units in H1, H2.
      change (@default_v (binary_float prec emax) DV) with zero. rewrite <- U0.
      destruct (hh_values h1 !! i) as [v1|], (hh_values h2 !! i) as [v2|].
      * eexists. split; [rewrite H1, H2; exact K1 | exact M].
      * rewrite H2 in K1, M. assert (Hu : unit_op plus (us1 i) 0 = us1 i) by (unfold unit_op; destruct plus; lia). rewrite Hu in K1, M. rewrite <- H1 in K1, M. split; assumption.
      * eexists. split; [rewrite H2; rewrite H1 in K1; exact K1 | rewrite M, H1; reflexivity].
      * reflexivity.
    + intros i. rewrite L. specialize (M i). destruct (hh_values h1 !! i) as [v1|], (hh_values h2 !! i) as [v2|]; try (rewrite M; reflexivity).
    + intros i. rewrite L. unfold f. destruct (hh_values h1 !! i) as [v1|], (hh_values h2 !! i) as [v2|]; split; intros H; eauto. destruct H as [[? H]|[? H]]; discriminate.
Qed.
Print Assumptions C96_sums_and_differences.

(** ** Filled histograms *)

(** The units of each of the [n] bins of a dense histogram, in order. *)
Definition bin_units {A X W} {AX : Axis A} (a : A) (n : N) (calls : list (fill_op X W * Z)) : list Z := map (fun k => units_in a (N.of_nat k) calls) (seq 0 (N.to_nat n)).

Section Filled.
Context (prec emax : Z) (P : Prec_gt_0 prec) (E : Prec_lt_emax prec emax) (Hcov : covered_format prec emax) (e : Z) (Hge : grid_exponent prec emax e).
Context {B : Build} {A} {AX : Axis A} (a : A) (n : N) (Hn : num_bins a = Val n).
Notation flt := (binary_float prec emax).
Notation units := (in_units prec emax P E e).
Notation max := (2 ^ prec)%Z.
Notation FV := (float_fill prec emax P E). Notation FD := (float_fill_with prec emax P E). Notation FW := (float_no_weighted prec emax). Notation DV := (float_default prec emax P E).
Implicit Type calls : list (fill_op flt Empty_set * Z).

Lemma filled_units calls : calls_on_grid e calls -> (sumZ (map (fun p => Z.abs (snd p)) calls) <= max)%Z -> (forall p, In p calls -> exists r, index a (op_coordinate (fst p)) = Val r) ->
  (exists h, @dense_filled A flt flt Empty_set AX FV FD FW DV a (map fst calls) = Val h /\ vh_axes h = a /\ vec_values h = map units (bin_units a n calls))
  /\ exists s, @sparse_filled A flt flt Empty_set AX FV FD FW DV a (map fst calls) = Val s /\ hh_axes s = a /\ sparse_units e s (fun i => units_in a i calls)
     /\ forall i, is_Some (hash_value_at_index s i) <-> reaching a i (map fst calls) <> [].
Proof.
  intros Hg Hs Hix. assert (Hw : stays_within (- max) max (map snd calls)) by (apply (stays_abs _ snd (fun p => Z.abs (snd p))); [intros x; lia | exact Hs]).
  destruct (C94_exact_sums prec emax P E B A AX a n e calls Hcov Hge Hg Hw Hn Hix) as [[h [D1 [D2 [D3 D4]]]] [s [S1 [S2 S3]]]]. split.
  - exists h. split; [exact D1|]. split; [exact D2|]. unfold bin_units. rewrite map_map. apply nth_error_ext_all. intros k. destruct (Nat.lt_ge_cases k (N.to_nat n)) as [Hk|Hk].
    + specialize (D4 (N.of_nat k) ltac:(lia)). unfold vec_value_at_index in D4. rewrite Nat2N.id in D4. unfold vec_values. rewrite D4. symmetry.
      rewrite nth_error_map, (nth_error_nth' _ 0%nat), seq_nth by (rewrite ?seq_length; exact Hk). reflexivity.
    + transitivity (@None flt); [|symmetry]; apply nth_error_None; [rewrite D3 | rewrite map_length, seq_length]; exact Hk.
  - exists s. split; [exact S1|]. split; [exact S2|]. split; intros i; rewrite S3.
    + rewrite reaching_fst. unfold units_in. destruct (List.filter (fun p => lands_in a i (fst p)) calls); reflexivity.
    + destruct (reaching a i (map fst calls)); split; intros H; try discriminate; [destruct H; discriminate | contradiction H; reflexivity | eexists; reflexivity].
Qed.

Lemma units_bound calls i : (sumZ (map (fun p => Z.abs (snd p)) calls) <= max)%Z -> small prec (units_in a i calls).
Proof.
  intros Hs. assert (Hw : stays_within (- max) max (map snd calls)) by (apply (stays_abs _ snd (fun p => Z.abs (snd p))); [intros x; lia | exact Hs]).
  pose proof (stays_sum _ _ _ (stays_filter _ _ snd (fun p => lands_in a i (fst p)) calls Hw)). unfold small, units_in. lia.
Qed.

Lemma units_app calls calls' i : units_in a i (calls ++ calls') = (units_in a i calls + units_in a i calls')%Z.
Proof. unfold units_in. rewrite List.filter_app, map_app. apply sumZ_concat. Qed.

(** Two dense histograms with the same axes and the same units are the same; and two sparse ones that also have the same bins. *)
Lemma sparse_same (s s' : HashHistogram A flt) us : hh_axes s = hh_axes s' -> sparse_units (P := P) (E := E) e s us -> sparse_units (P := P) (E := E) e s' us ->
  (forall i, is_Some (hash_value_at_index s i) <-> is_Some (hash_value_at_index s' i)) -> s = s'.
Proof.
  unfold sparse_units, hash_value_at_index. destruct s as [a1 m1], s' as [a2 m2]; cbn [hh_axes hh_values]. intros -> H1 H2 H. f_equal. apply map_eq. intros i.
  specialize (H1 i). specialize (H2 i). specialize (H i). destruct (m1 !! i) as [v1|], (m2 !! i) as [v2|]; try congruence.
  - destruct (proj1 H) as [? Q]; [eexists; reflexivity | discriminate].
  - destruct (proj2 H) as [? Q]; [eexists; reflexivity | discriminate].
Qed.
End Filled.

(** The call that takes the weight of a call back. *)
Definition take_back {prec emax : Z} {P : Prec_gt_0 prec} {E : Prec_lt_emax prec emax} {A} {AX : Axis A} (o : fill_op (binary_float prec emax) Empty_set) : fill_op (binary_float prec emax) Empty_set :=
  CallFillWith (op_coordinate o) (Bopp (float_amount (P := P) (E := E) o)).

(** C96, background subtraction. Two histograms [hA], [hB] are filled with weights on the grid that in total, regardless of sign,
    make at most [2^prec] units. Then, bit for bit: [hA + hB = hB + hA] is the histogram filled with everything and [(hA + hB) - hB]
    is [hA] again; [hA - hB] is the histogram filled with the weights of [hA] and the negatives of those of [hB], and [(hA - hB) + hB]
    is [hA] again. (A sparse histogram that got its bins back also keeps a zero where only [hB] has a bin.) *)
Theorem C96_background : forall (prec emax : Z) (P : Prec_gt_0 prec) (E : Prec_lt_emax prec emax) (B : Build) A (AX : Axis A) (AE : AxisEq A) (a : A) (n : N) (e : Z)
  (callsA callsB : list (fill_op (binary_float prec emax) Empty_set * Z)),
  let FV := float_fill prec emax P E in let FD := float_fill_with prec emax P E in let FW := float_no_weighted prec emax in let DV := float_default prec emax P E in
  covered_format prec emax -> grid_exponent prec emax e -> calls_on_grid e (callsA ++ callsB) -> (sumZ (map (fun p => Z.abs (snd p)) (callsA ++ callsB)) <= 2 ^ prec)%Z ->
  num_bins a = Val n -> (forall p, In p (callsA ++ callsB) -> exists r, index a (op_coordinate (fst p)) = Val r) -> axis_eqb a a = true ->
  let add := @n_add _ (float_ops prec emax P E) in let sub := @n_sub _ (float_ops prec emax P E) in
  let withA := map fst callsA in let withB := map fst callsB in let withoutB := map (take_back (P := P) (E := E)) withB in
  let but_zeros (hA hB h : HashHistogram A (binary_float prec emax)) := forall i, hash_value_at_index h i =
    match hash_value_at_index hA i, hash_value_at_index hB i with Some v, _ => Some v | None, Some _ => Some (B754_zero false) | None, None => None end in
  (exists hA hB sum diff, dense_filled a withA = Val hA /\ dense_filled a withB = Val hB /\ dense_filled a (withA ++ withB) = Val sum /\ dense_filled a (withA ++ withoutB) = Val diff
     /\ dense_gives add hA hB sum /\ dense_gives add hB hA sum /\ dense_gives sub sum hB hA /\ dense_gives sub hA hB diff /\ dense_gives add diff hB hA)
  /\ (exists hA hB sum diff again again', sparse_filled a withA = Val hA /\ sparse_filled a withB = Val hB /\ sparse_filled a (withA ++ withB) = Val sum /\ sparse_filled a (withA ++ withoutB) = Val diff
     /\ sparse_gives add hA hB sum /\ sparse_gives add hB hA sum /\ sparse_gives sub sum hB again /\ but_zeros hA hB again /\ sparse_gives sub hA hB diff /\ sparse_gives add diff hB again' /\ but_zeros hA hB again').
Proof.
  intros prec emax P E B A AX AE a n e callsA callsB FV FD FW DV Hcov Hge Hg Hs Hn Hix Hax add sub withA withB withoutB but_zeros.
  set (callsN := map (fun p : fill_op (binary_float prec emax) Empty_set * Z => (take_back (P := P) (E := E) (fst p), (- snd p)%Z)) callsB).
  assert (HN1 : map fst callsN = withoutB) by (unfold callsN, withoutB, withB; rewrite !map_map; reflexivity).
  assert (Habs : sumZ (map (fun p => Z.abs (snd p)) callsN) = sumZ (map (fun p => Z.abs (snd p)) callsB)) by (unfold callsN; rewrite map_map; f_equal; apply map_ext; intros p; cbn [snd]; apply Z.abs_opp).
  assert (Hpos : forall l : list (fill_op (binary_float prec emax) Empty_set * Z), (0 <= sumZ (map (fun p => Z.abs (snd p)) l))%Z).
  { intros l. induction l as [|p l IH]; [cbn; lia|]. cbn [map]. rewrite sumZ_cons. lia. }
  pose proof Hs as Hs'. rewrite map_app, sumZ_concat in Hs'. pose proof (Hpos callsA) as PA. pose proof (Hpos callsB) as PB.
  apply List.Forall_app in Hg as Hg'. destruct Hg' as [HgA HgB].
  assert (HgN : calls_on_grid (P := P) (E := E) e (callsA ++ callsN)).
  { apply List.Forall_app. split; [exact HgA|]. apply List.Forall_forall. intros q Hq. unfold callsN in Hq. apply in_map_iff in Hq as [p [<- Hp]].
    pose proof (proj1 (List.Forall_forall _ _) HgB p Hp) as [F V]. cbn [fst snd take_back float_amount]. split; [rewrite is_finite_Bopp; exact F|]. rewrite B2R_Bopp, V, opp_IZR. ring. }
  assert (HsN : (sumZ (map (fun p => Z.abs (snd p)) (callsA ++ callsN)) <= 2 ^ prec)%Z) by (rewrite map_app, sumZ_concat, Habs; lia).
  assert (HixN : forall p, In p (callsA ++ callsN) -> exists r, index a (op_coordinate (fst p)) = Val r).
  { intros q Hq. apply in_app_or in Hq as [Hq|Hq]; [apply Hix, in_or_app; left; exact Hq|]. unfold callsN in Hq. apply in_map_iff in Hq as [p [<- Hp]]. apply (Hix p), in_or_app. right. exact Hp. }
  assert (UN : forall i, units_in a i callsN = (- units_in a i callsB)%Z).
  { intros i. unfold units_in, callsN. clear. induction callsB as [|p l IH]; [reflexivity|]. cbn [map List.filter]. change (lands_in a i (fst (take_back (fst p), (- snd p)%Z))) with (lands_in a i (fst p)).
    destruct (lands_in a i (fst p)); cbn [map]; rewrite ?sumZ_cons, IH; cbn [snd]; lia. }
  assert (RN : forall i, reaching a i withoutB <> [] <-> reaching a i withB <> []).
  { intros i. unfold withoutB, reaching. clear. induction withB as [|o l IH]; [reflexivity|]. cbn [map List.filter]. change (lands_in a i (take_back o)) with (lands_in a i o). destruct (lands_in a i o); [split; discriminate | exact IH]. }
  assert (RA : forall i l l', reaching a i (l ++ l') <> ([] : list (fill_op (binary_float prec emax) Empty_set)) <-> reaching a i l <> [] \/ reaching a i l' <> []).
  { intros i l l'. unfold reaching. rewrite List.filter_app. destruct (List.filter _ l), (List.filter _ l'); cbn; split; intros H; try (left; discriminate); try (right; discriminate); try discriminate; try contradiction. destruct H; contradiction. }
  destruct (filled_units prec emax P E Hcov e Hge a n Hn callsA HgA ltac:(lia) (fun p Hp => Hix p (in_or_app _ _ _ (or_introl Hp)))) as [[hA [DA [DA2 DA3]]] [sA [SA [SA2 [SA3 SA4]]]]].
  destruct (filled_units prec emax P E Hcov e Hge a n Hn callsB HgB ltac:(lia) (fun p Hp => Hix p (in_or_app _ _ _ (or_intror Hp)))) as [[hB [DB [DB2 DB3]]] [sB [SB [SB2 [SB3 SB4]]]]].
  destruct (filled_units prec emax P E Hcov e Hge a n Hn _ Hg Hs Hix) as [[hS [DS [DS2 DS3]]] [sS [SS [SS2 [SS3 SS4]]]]].
  destruct (filled_units prec emax P E Hcov e Hge a n Hn _ HgN HsN HixN) as [[hD [DD [DD2 DD3]]] [sD [SD [SD2 [SD3 SD4]]]]].
  rewrite map_app in DS, SS, SS4, DD, SD, SD4. rewrite HN1 in DD, SD, SD4. fold withA withB in DA, SA, SA4, DB, SB, SB4, DS, SS, SS4, DD, SD, SD4.
  assert (bA : forall i, small prec (units_in a i callsA)) by (intros i; apply units_bound; lia). assert (bB : forall i, small prec (units_in a i callsB)) by (intros i; apply units_bound; lia).
  assert (bS : forall i, small prec (units_in a i callsA + units_in a i callsB)%Z) by (intros i; rewrite <- units_app; apply units_bound; lia).
  assert (bD : forall i, small prec (units_in a i callsA - units_in a i callsB)%Z) by (intros i; replace (units_in a i callsA - units_in a i callsB)%Z with (units_in a i (callsA ++ callsN)) by (rewrite units_app, UN; lia); apply units_bound; exact HsN).
  assert (uS : forall i, units_in a i (callsA ++ callsB) = (units_in a i callsA + units_in a i callsB)%Z) by (intros i; apply units_app).
  assert (uD : forall i, units_in a i (callsA ++ callsN) = (units_in a i callsA - units_in a i callsB)%Z) by (intros i; rewrite units_app, UN; lia).
  assert (dense : forall plus (h1 h2 h3 : VecHistogram A (binary_float prec emax)) (c1 c2 c3 : list (fill_op (binary_float prec emax) Empty_set * Z)), vh_axes h1 = a -> vh_axes h2 = a -> vh_axes h3 = a ->
    vec_values h1 = map (in_units prec emax P E e) (bin_units a n c1) -> vec_values h2 = map (in_units prec emax P E e) (bin_units a n c2) -> vec_values h3 = map (in_units prec emax P E e) (bin_units a n c3) ->
    (forall i, small prec (units_in a i c1) /\ small prec (units_in a i c2) /\ small prec (units_in a i c3) /\ units_in a i c3 = unit_op plus (units_in a i c1) (units_in a i c2)) ->
    dense_gives (float_op prec emax P E plus) h1 h2 h3).
  { intros plus h1 h2 h3 c1 c2 c3 A1 A2 A3 V1 V2 V3 Hb.
    destruct (proj1 (C96_sums_and_differences prec emax P E B A AX AE e plus Hcov Hge) h1 h2 (bin_units a n c1) (bin_units a n c2)) as [h [G1 [G2 G3]]]; [rewrite A1, A2; exact Hax | exact V1 | exact V2 | |].
    - unfold bin_units. apply Forall2_fmap. apply Forall_Forall2_diag. apply Forall_true. intros k. destruct (Hb (N.of_nat k)) as [? [? [? Q]]]. rewrite Q in *. auto.
    - replace h3 with h; [exact G1|]. destruct h as [ah vh], h3 as [a3 v3]. cbn [vh_axes vec_values] in *. unfold vec_values in *. cbn [vh_values vh_axes] in *. subst ah a3. f_equal; [congruence|]. rewrite G3, V3. f_equal.
      unfold bin_units. rewrite zip_with_fmap_l, zip_with_fmap_r, zip_with_diag. apply map_ext. intros k. symmetry. apply Hb. }
  assert (sparse : forall plus (s1 s2 : HashHistogram A (binary_float prec emax)) u1 u2, hh_axes s1 = a -> hh_axes s2 = a -> sparse_units (P := P) (E := E) e s1 u1 -> sparse_units (P := P) (E := E) e s2 u2 ->
    (forall i, small prec (u1 i) /\ small prec (u2 i) /\ small prec (unit_op plus (u1 i) (u2 i))) ->
    exists s3, sparse_gives (float_op prec emax P E plus) s1 s2 s3 /\ hh_axes s3 = a /\ sparse_units (P := P) (E := E) e s3 (fun i => unit_op plus (u1 i) (u2 i))
     /\ forall i, is_Some (hash_value_at_index s3 i) <-> is_Some (hash_value_at_index s1 i) \/ is_Some (hash_value_at_index s2 i)).
  { intros plus s1 s2 u1 u2 A1 A2 V1 V2 Hb. destruct (proj2 (C96_sums_and_differences prec emax P E B A AX AE e plus Hcov Hge) s1 s2 u1 u2) as [s3 [G1 [G2 [G3 G4]]]]; [rewrite A1, A2; exact Hax | exact V1 | exact V2 | exact Hb|].
    exists s3. split; [exact G1|]. split; [congruence|]. split; assumption. }
  split.
  - exists hA, hB, hS, hD. do 4 (split; [assumption|]).
    split; [apply (dense true hA hB hS callsA callsB (callsA ++ callsB)); try assumption; intros i; rewrite uS; unfold unit_op; auto|].
    split; [apply (dense true hB hA hS callsB callsA (callsA ++ callsB)); try assumption; intros i; rewrite uS; unfold unit_op; repeat split; auto; lia|].
    split; [apply (dense false hS hB hA (callsA ++ callsB) callsB callsA); try assumption; intros i; rewrite uS; unfold unit_op; repeat split; auto; lia|].
    split; [apply (dense false hA hB hD callsA callsB (callsA ++ callsN)); try assumption; intros i; rewrite uD; unfold unit_op; auto|].
    apply (dense true hD hB hA (callsA ++ callsN) callsB callsA); try assumption; intros i; rewrite uD; unfold unit_op; repeat split; auto; lia.
  - assert (back : forall h, hh_axes h = a -> sparse_units (P := P) (E := E) e h (fun i => units_in a i callsA) -> (forall i, is_Some (hash_value_at_index h i) <-> is_Some (hash_value_at_index sA i) \/ is_Some (hash_value_at_index sB i)) -> but_zeros sA sB h).
    { intros h _ Hu Hk i. specialize (Hu i). specialize (Hk i). specialize (SA3 i). cbv beta in *. destruct (hash_value_at_index h i) as [v|].
      - destruct (hash_value_at_index sA i) as [v1|]; [congruence|]. destruct (hash_value_at_index sB i); [rewrite Hu, SA3; f_equal; apply units_zero; assumption|]. destruct (proj1 Hk) as [[? Q]|[? Q]]; [eexists; reflexivity | discriminate | discriminate].
      - destruct (hash_value_at_index sA i) as [v1|]; [destruct (proj2 Hk) as [? Q]; [left; eexists; reflexivity | discriminate]|].
        destruct (hash_value_at_index sB i) as [v2|]; [destruct (proj2 Hk) as [? Q]; [right; eexists; reflexivity | discriminate] | reflexivity]. }
    assert (ext : forall h u u', (forall i, u i = u' i) -> sparse_units (P := P) (E := E) e h u -> sparse_units (P := P) (E := E) e h u').
    { intros h u u' Huu Hu i. rewrite <- Huu. exact (Hu i). }
    destruct (sparse true sA sB _ _ SA2 SB2 SA3 SB3) as [s1 [G1 [A1 [U1 K1]]]]; [intros i; cbn [unit_op]; auto|].
    destruct (sparse true sB sA _ _ SB2 SA2 SB3 SA3) as [s2 [G2 [A2 [U2 K2]]]]; [intros i; cbn [unit_op]; repeat split; auto; rewrite Z.add_comm; auto|].
    destruct (sparse false sS sB _ _ SS2 SB2 SS3 SB3) as [s3 [G3 [A3 [U3 K3]]]]; [intros i; cbn [unit_op]; rewrite uS; repeat split; auto; replace (units_in a i callsA + units_in a i callsB - units_in a i callsB)%Z with (units_in a i callsA) by lia; auto|].
    destruct (sparse false sA sB _ _ SA2 SB2 SA3 SB3) as [s4 [G4 [A4 [U4 K4]]]]; [intros i; cbn [unit_op]; auto|].
    destruct (sparse true sD sB _ _ SD2 SB2 SD3 SB3) as [s5 [G5 [A5 [U5 K5]]]]; [intros i; cbn [unit_op]; rewrite uD; repeat split; auto; replace (units_in a i callsA - units_in a i callsB + units_in a i callsB)%Z with (units_in a i callsA) by lia; auto|].
    assert (Q1 : s1 = sS). { apply (sparse_same prec emax P E e s1 sS (fun i => units_in a i (callsA ++ callsB))); [congruence | apply (ext s1 _ _ (fun i => eq_sym (uS i)) U1) | exact SS3|]. intros i. rewrite K1, SA4, SB4, SS4, RA. reflexivity. }
    assert (Q2 : s2 = sS). { apply (sparse_same prec emax P E e s2 sS (fun i => units_in a i (callsA ++ callsB))); [congruence | refine (ext s2 _ _ _ U2); intros i; rewrite uS; cbn [unit_op]; lia | exact SS3|]. intros i. rewrite K2, SA4, SB4, SS4, RA. tauto. }
    assert (Q4 : s4 = sD). { apply (sparse_same prec emax P E e s4 sD (fun i => units_in a i (callsA ++ callsN))); [congruence | apply (ext s4 _ _ (fun i => eq_sym (uD i)) U4) | exact SD3|]. intros i. rewrite K4, SA4, SB4, SD4, RA, RN. reflexivity. }
    rewrite Q1 in G1. rewrite Q2 in G2. rewrite Q4 in G4.
    exists sA, sB, sS, sD, s3, s5. do 4 (split; [assumption|]). split; [exact G1|]. split; [exact G2|]. split; [exact G3|]. split; [|split; [exact G4|split; [exact G5|]]].
    + apply back; [exact A3 | refine (ext s3 _ _ _ U3); intros i; rewrite uS; cbn [unit_op]; lia|]. intros i. rewrite K3, SS4, RA, SA4, SB4. tauto.
    + apply back; [exact A5 | refine (ext s5 _ _ _ U5); intros i; rewrite uD; cbn [unit_op]; lia|]. intros i. rewrite K5, SD4, RA, RN, SA4, SB4. tauto.
Qed.
Print Assumptions C96_background.

(** ** Ratios *)

(** [q] is [u] divided by [v]: correctly rounded; NaN if both are zero, infinite if only [v] is. *)
Definition is_ratio {prec emax : Z} (q : binary_float prec emax) (u v : Z) : Prop :=
  (v <> 0%Z -> nearest q (IZR u / IZR v)) /\ (v = 0%Z -> u = 0%Z -> q = B754_nan) /\ (v = 0%Z -> u <> 0%Z -> q = B754_infinity (u <? 0)%Z).

Lemma round_unit {prec emax : Z} {P : Prec_gt_0 prec} {E : Prec_lt_emax prec emax} (r : R) : (0 <= r <= 1)%R -> (0 <= round radix2 (SpecFloat.fexp prec emax) (round_mode mode_NE) r <= 1)%R.
Proof.
  intros Hr. assert (G1 : generic_format radix2 (SpecFloat.fexp prec emax) 1) by (rewrite <- (Bone_correct prec emax P E); apply generic_format_B2R).
  assert (V : Valid_exp (SpecFloat.fexp prec emax)) by apply fexp_correct, P. split.
  - apply round_ge_generic; [exact V | apply valid_rnd_round_mode | apply generic_format_0 | lra].
  - apply round_le_generic; [exact V | apply valid_rnd_round_mode | exact G1 | lra].
Qed.

Section Ratio.
Context (prec emax : Z) (P : Prec_gt_0 prec) (E : Prec_lt_emax prec emax) (Hcov : covered_format prec emax) (e : Z) (Hge : grid_exponent prec emax e).
Notation flt := (binary_float prec emax).
Notation units := (in_units prec emax P E e).

Lemma units_ratio u v : small prec u -> small prec v -> is_ratio (Bdiv mode_NE (units u) (units v)) u v.
Proof.
  intros Hu Hv. destruct (in_units_value prec emax P E Hcov e Hge u Hu) as [[Fu Vu] _], (in_units_value prec emax P E Hcov e Hge v Hv) as [[Fv Vv] _]. pose proof (bpow_gt_0 radix2 e) as Hb.
  split; [|split].
  - intros Hv0. assert (Hq : (B2R (units u) / B2R (units v) = IZR u / IZR v)%R) by (rewrite Vu, Vv; field; split; first [lra | intros Q; apply Hv0, eq_IZR; exact Q]).
    destruct Hcov as [Hc1 Hc2].
    destruct (div_bounded prec emax P E prec (units u) (units v)) as [F [R _]].
    + lia.
    + exact Fu.
    + rewrite Vv. intros Q. apply Rmult_integral in Q as [Q|Q]; [apply Hv0, eq_IZR; exact Q | lra].
    + rewrite Hq. unfold Rdiv. rewrite Rabs_mult, Rabs_inv.
      assert (H1 : (1 <= Rabs (IZR v))%R) by (rewrite <- abs_IZR; apply IZR_le; lia).
      apply Rle_trans with (bpow radix2 prec * 1)%R; [|lra]. apply Rmult_le_compat; [apply Rabs_pos | apply Rlt_le, Rinv_0_lt_compat; lra | apply int_bpow; [exact P | exact Hu] | rewrite <- Rinv_1; apply Rinv_le; lra].
    + rewrite Hq in R. split; assumption.
  - intros -> ->. rewrite (units_zero prec emax P E Hcov e Hge). reflexivity.
  - intros -> Hu0. rewrite (units_zero prec emax P E Hcov e Hge).
    assert (N : B2R (units u) <> 0%R) by (rewrite Vu; intros Q; apply Rmult_integral in Q as [Q|Q]; [apply Hu0, eq_IZR; exact Q | lra]).
    destruct (units u) as [s|s| |s m k Hm]; try discriminate; [contradiction N; reflexivity|]. cbn [Bdiv]. f_equal. rewrite xorb_false_r.
    destruct s; symmetry.
    + apply Z.ltb_lt. apply lt_IZR. assert (H : (B2R (B754_finite true m k Hm : flt) < 0)%R) by (apply F2R_lt_0; reflexivity). rewrite Vu in H. nra.
    + apply Z.ltb_ge. apply le_IZR. assert (H : (0 < B2R (B754_finite false m k Hm : flt))%R) by (apply F2R_gt_0; reflexivity). rewrite Vu in H. nra.
Qed.
End Ratio.

(** C96, ratios. Dividing two float histograms whose bins are whole numbers of units gives, in each bin, the float nearest to
    the exact ratio of the numbers of units. Of two sparse histograms, the first must have no bins that the second has not. *)
Theorem C96_ratios : forall (prec emax : Z) (P : Prec_gt_0 prec) (E : Prec_lt_emax prec emax) (B : Build) A (AX : Axis A) (AE : AxisEq A) (e : Z),
  let flt := binary_float prec emax in let DV := float_default prec emax P E in let div := @n_div _ (float_ops prec emax P E) in let units := in_units prec emax P E e in
  covered_format prec emax -> grid_exponent prec emax e ->
  (forall (h1 h2 : VecHistogram A flt) (us1 us2 : list Z), axis_eqb (vh_axes h1) (vh_axes h2) = true ->
     vec_values h1 = map units us1 -> vec_values h2 = map units us2 -> length us1 = length us2 -> Forall (small prec) us1 -> Forall (small prec) us2 ->
     exists h, dense_gives div h1 h2 h /\ vh_axes h = vh_axes h1 /\ length (vec_values h) = length us1
       /\ forall i u1 u2, nth_error us1 i = Some u1 -> nth_error us2 i = Some u2 -> exists q, nth_error (vec_values h) i = Some q /\ is_ratio q u1 u2)
  /\ (forall (h1 h2 : HashHistogram A flt) (us1 us2 : N -> Z), axis_eqb (hh_axes h1) (hh_axes h2) = true -> sparse_units e h1 us1 -> sparse_units e h2 us2 ->
     (forall i, small prec (us1 i) /\ small prec (us2 i)) -> (forall i, is_Some (hash_value_at_index h1 i) -> is_Some (hash_value_at_index h2 i)) ->
     exists h, sparse_gives div h1 h2 h /\ hh_axes h = hh_axes h1
       /\ forall i, match hash_value_at_index h i with Some q => is_Some (hash_value_at_index h2 i) /\ is_ratio q (us1 i) (us2 i) | None => hash_value_at_index h2 i = None end).
Proof.
  intros prec emax P E B A AX AE e flt DV div units Hcov Hge. subst flt. split.
  - intros h1 h2 us1 us2 Hax H1 H2 Hlen B1 B2.
    exists (mkVecHist (vh_axes h1) (zip_with (fun u v => Bdiv mode_NE (units u) (units v)) us1 us2)).
    assert (Hl : length (zip_with (fun u v => Bdiv mode_NE (units u) (units v)) us1 us2) = length us1) by (rewrite zip_with_length; lia).
    split; [|split; [reflexivity|split; [exact Hl|]]].
    + apply dense_known; [exact Hax | rewrite H1, H2, !map_length; congruence | rewrite H1, map_length; exact Hl|].
      intros i x y. rewrite H1, H2, !nth_error_map, nth_zip_with. destruct (nth_error us1 i); [|discriminate]. destruct (nth_error us2 i); [|discriminate]. cbn [option_map]. intros [= <-] [= <-]. eexists. split; reflexivity.
    + intros i u1 u2 E1 E2. exists (Bdiv mode_NE (units u1) (units u2)). split; [unfold vec_values; cbn [vh_values]; rewrite nth_zip_with, E1, E2; reflexivity|].
      apply units_ratio; [exact Hcov | exact Hge | |].
      * apply (proj1 (List.Forall_forall _ _) B1). eapply nth_error_In. exact E1.
      * apply (proj1 (List.Forall_forall _ _) B2). eapply nth_error_In. exact E2.
  - intros h1 h2 us1 us2 Hax H1 H2 Hb Hsub. unfold sparse_units, hash_value_at_index in *.
    set (res := map_imap (fun i (_ : binary_float prec emax) => Some (Bdiv mode_NE (units (us1 i)) (units (us2 i)))) (hh_values h2)).
    assert (L : forall i, res !! i = match hh_values h2 !! i with Some _ => Some (Bdiv mode_NE (units (us1 i)) (units (us2 i))) | None => None end) by (intros i; unfold res; rewrite map_lookup_imap; destruct (hh_values h2 !! i); reflexivity).
    exists (mkHashHist (hh_axes h1) res). cbn [hh_axes hh_values]. split; [|split; [reflexivity|]].
    + apply sparse_known; [exact Hax|]. intros i. unfold hash_value_at_index. rewrite L. specialize (H1 i). specialize (H2 i). specialize (Hsub i).
      destruct (hh_values h1 !! i) as [v1|], (hh_values h2 !! i) as [v2|].
      * eexists. split; [|reflexivity]. rewrite H1, H2. reflexivity.
      * destruct Hsub as [? Q]; [eexists; reflexivity | discriminate].
      * eexists. split; [|reflexivity]. rewrite H1, H2. unfold units. rewrite (units_zero prec emax P E Hcov e Hge). reflexivity.
      * reflexivity.
    + intros i. rewrite L. specialize (Hb i). destruct (hh_values h2 !! i); [|reflexivity]. split; [eexists; reflexivity | apply units_ratio; tauto].
Qed.
Print Assumptions C96_ratios.

(** ** Efficiencies *)

(** [r] is a good efficiency for [passed] out of [total]: if the total is finite and not zero it is a number from 0 to 1, and 1 if
    everything passed; out of nothing (or of an infinite total) it is such a number or NaN. *)
Definition is_efficiency {prec emax : Z} (passed total r : binary_float prec emax) : Prop :=
  let number := is_finite r = true /\ (0 <= B2R r <= 1)%R in
  (is_finite total = true -> B2R total <> 0%R -> number /\ (passed = total -> B2R r = 1%R)) /\ (number \/ r = B754_nan).

Section Efficiency.
Context (prec emax : Z) (P : Prec_gt_0 prec) (E : Prec_lt_emax prec emax).
Notation flt := (binary_float prec emax).
Notation zero := (B754_zero false : flt).

Lemma le_transitive (x y z : flt) : flt_le x y -> flt_le y z -> flt_le x z.
Proof.
  intros H1 H2. destruct (le_not_nan _ _ _ _ _ _ H1) as [N1 N2]. destruct (le_not_nan _ _ _ _ _ _ H2) as [_ N3].
  apply (le_key _ _ _ _ _ _ N1 N2) in H1. apply (le_key _ _ _ _ _ _ N2 N3) in H2. apply le_key; [exact N1 | exact N3 | lra].
Qed.

Lemma plus_nonneg (v d : flt) : flt_le zero v -> flt_le zero d -> is_nan (Bplus mode_NE v d) = false /\ flt_le v (Bplus mode_NE v d).
Proof.
  intros Hv Hd. assert (N : is_nan (Bplus mode_NE v d) = false).
  { destruct (is_finite v) eqn:Fv, (is_finite d) eqn:Fd.
    - destruct (plus_rounds prec emax P E v d Fv Fd) as [F _ _|F _|F _]; [destruct (Bplus mode_NE v d); try discriminate; reflexivity | rewrite F; reflexivity | rewrite F; reflexivity].
    - destruct d as [|[]| |]; try discriminate; [destruct Hd; discriminate | destruct v; try discriminate; reflexivity | destruct Hd; discriminate].
    - destruct v as [|[]| |]; try discriminate; [destruct Hv; discriminate | destruct d as [|[]| |]; try discriminate; reflexivity | destruct Hv; discriminate].
    - destruct v as [|[]| |]; try discriminate; [destruct Hv; discriminate | | destruct Hv; discriminate]. destruct d as [|[]| |]; try discriminate; [destruct Hd; discriminate | reflexivity | destruct Hd; discriminate]. }
  split; [exact N|]. apply (plus_grows prec emax P E v d Hd); [|exact N]. exact (proj2 (le_not_nan _ _ _ _ _ _ Hv)).
Qed.

Context {B : Build} {A} {AX : Axis A}.
Notation apply := (@apply_all A flt flt Empty_set AX (float_fill prec emax P E) (float_fill_with prec emax P E) (float_no_weighted prec emax)).
Implicit Type ops : list (fill_op flt Empty_set).

Definition total_of ops (s : flt) : flt := fold_left (fun s o => Bplus mode_NE s (float_amount (P := P) (E := E) o)) ops s.

Lemma apply_total ops : forall s, apply ops s = Val (total_of ops s).
Proof. induction ops as [|o ops IH]; intros s; [reflexivity|]. unfold total_of. cbn [fold_left]. destruct o as [c|c d|c d []]; exact (IH _). Qed.

Lemma amount_nonneg (o : fill_op flt Empty_set) : not_negative (P := P) (E := E) o -> flt_le zero (float_amount (P := P) (E := E) o).
Proof.
  destruct o as [c|c d|c d []]; cbn [not_negative float_amount]; [|auto]. intros _. apply le_key; [reflexivity | destruct (Bone : flt) eqn:Q; try reflexivity; pose proof (is_finite_Bone prec emax P E) as F; rewrite Q in F; discriminate|].
  assert (K : key prec emax Bone = B2R (Bone : flt)) by (pose proof (is_finite_Bone prec emax P E) as F; destruct (Bone : flt); try discriminate; reflexivity).
  rewrite K, Bone_correct. cbn [key B2R]. lra.
Qed.

Lemma sublist_total ops ops' : sublist ops ops' -> Forall (not_negative (P := P) (E := E)) ops' -> forall s s', flt_le zero s -> flt_le s s' ->
  flt_le zero (total_of ops s) /\ flt_le (total_of ops s) (total_of ops' s').
Proof.
  induction 1 as [|o l l' _ IH|o l l' _ IH]; intros Hn s s' Hs Hss.
  - split; assumption.
  - inversion Hn as [|? ? Ho Hl]; subst. apply amount_nonneg in Ho. unfold total_of. cbn [fold_left]. apply IH; [exact Hl | |].
    + eapply le_transitive; [exact Hs | apply plus_nonneg; assumption].
    + destruct (plus_nonneg s _ Hs Ho) as [N1 _]. destruct (plus_nonneg s' _ (le_transitive _ _ _ Hs Hss) Ho) as [N2 _].
      apply (plus_le prec emax P E s s' (float_amount o) (float_amount o)); [intros _ _; exact Hss | | exact N1 | exact N2].
      destruct (le_not_nan _ _ _ _ _ _ Ho) as [_ No]. apply le_key; [exact No | exact No | lra].
  - inversion Hn as [|? ? Ho Hl]; subst. apply amount_nonneg in Ho. unfold total_of at 3. cbn [fold_left]. apply IH; [exact Hl | exact Hs|].
    eapply le_transitive; [exact Hss | apply plus_nonneg; [exact (le_transitive _ _ _ Hs Hss) | exact Ho]].
Qed.

Lemma sublist_reaching (a : A) i ops ops' : sublist ops ops' -> sublist (reaching a i ops) (reaching a i ops').
Proof. unfold reaching. induction 1 as [|o l l' _ IH|o l l' _ IH]; cbn [List.filter]; [constructor | |]; destruct (lands_in a i o); try constructor; exact IH. Qed.

Lemma div_efficiency (p t : flt) : (0 < emax)%Z -> flt_le zero p -> flt_le p t -> is_efficiency p t (Bdiv mode_NE p t).
Proof.
  intros He Hp Hpt. destruct (le_not_nan _ _ _ _ _ _ Hpt) as [Np Nt]. apply (le_key _ _ _ _ zero p eq_refl Np) in Hp. apply (le_key _ _ _ _ _ _ Np Nt) in Hpt. cbn [key B2R] in Hp.
  pose proof (key_range prec emax p) as Rp.
  assert (Fin : is_finite t = true -> is_finite p = true /\ (0 <= B2R p <= B2R t)%R).
  { intros Ft. assert (Kt : key prec emax t = B2R t) by (destruct t; try discriminate; reflexivity). pose proof (abs_B2R_lt_emax prec emax t) as Bt. apply Rabs_def2 in Bt.
    assert (Fp : is_finite p = true). { destruct p as [|[]| |]; try discriminate; try reflexivity; cbn [key] in Hp, Hpt; exfalso; lra. }
    assert (Kp : key prec emax p = B2R p) by (destruct p; try discriminate; reflexivity). split; [exact Fp | lra]. }
  assert (Main : is_finite t = true -> B2R t <> 0%R -> (is_finite (Bdiv mode_NE p t) = true /\ (0 <= B2R (Bdiv mode_NE p t) <= 1)%R) /\ (p = t -> B2R (Bdiv mode_NE p t) = 1%R)).
  { intros Ft Zt. destruct (Fin Ft) as [Fp [L1 L2]]. assert (Tp : (0 < B2R t)%R) by lra.
    assert (Hq : (0 <= B2R p / B2R t <= 1)%R). { split; [apply Rmult_le_pos; [lra | apply Rlt_le, Rinv_0_lt_compat; exact Tp]|]. apply (Rmult_le_reg_r (B2R t)); [exact Tp|]. unfold Rdiv. rewrite Rmult_assoc, Rinv_l by exact Zt. lra. }
    destruct (div_bounded prec emax P E 0 p t) as [F [R _]]; [lia | exact Fp | exact Zt | cbn [bpow]; rewrite Rabs_pos_eq; lra|].
    split; [split; [exact F | rewrite R; apply round_unit; exact Hq]|]. intros ->. rewrite R. unfold Rdiv. rewrite Rinv_r by exact Zt.
    apply round_generic; [apply valid_rnd_round_mode|]. rewrite <- (Bone_correct prec emax P E). apply generic_format_B2R. }
  split; [exact Main|]. destruct (is_finite t) eqn:Ft.
  - destruct (Req_dec (B2R t) 0) as [Z|Z]; [|left; apply Main; [reflexivity | exact Z]]. destruct (Fin eq_refl) as [Fp Lp]. right.
    assert (Hz : forall x : flt, is_finite x = true -> B2R x = 0%R -> exists s, x = B754_zero s). { intros [s|s| |s m k H] F V; try discriminate; [exists s; reflexivity|]. exfalso. cbn [B2R] in V. apply eq_0_F2R in V. destruct s; discriminate. }
    destruct (Hz t Ft Z) as [st ->]. destruct (Hz p Fp) as [sp ->]; [cbn [B2R] in Lp |- *; lra | reflexivity].
  - destruct t as [|st| |]; try discriminate. destruct p as [sp|sp| |sp m k H]; try discriminate; [left; cbn; lra | right; reflexivity | left; cbn; lra].
Qed.
End Efficiency.

(** C96, efficiencies. A histogram filled with some of the entries of another one, none of negative weight (any floats: nothing
    is assumed about a grid), is divided by it: the bins are efficiencies, between 0 and 1 in spite of all rounding. Dense and
    sparse, all three forms. *)
Theorem C96_efficiencies : forall (prec emax : Z) (P : Prec_gt_0 prec) (E : Prec_lt_emax prec emax) (B : Build) A (AX : Axis A) (AE : AxisEq A) (a : A) (n : N)
  (passed all : list (fill_op (binary_float prec emax) Empty_set)),
  let FV := float_fill prec emax P E in let FD := float_fill_with prec emax P E in let FW := float_no_weighted prec emax in let DV := float_default prec emax P E in
  let div := @n_div _ (float_ops prec emax P E) in
  (0 < emax)%Z -> sublist passed all -> Forall not_negative all -> num_bins a = Val n -> (forall o, In o all -> exists r, index a (op_coordinate o) = Val r) -> axis_eqb a a = true ->
  (exists hp ha h, dense_filled a passed = Val hp /\ dense_filled a all = Val ha /\ dense_gives div hp ha h /\ vh_axes h = a /\ length (vec_values h) = N.to_nat n
     /\ forall i, i < n -> exists p t r, vec_value_at_index hp i = Some p /\ vec_value_at_index ha i = Some t /\ vec_value_at_index h i = Some r /\ is_efficiency p t r)
  /\ (exists hp ha h, sparse_filled a passed = Val hp /\ sparse_filled a all = Val ha /\ sparse_gives div hp ha h /\ hh_axes h = a
     /\ forall i, match hash_value_at_index ha i, hash_value_at_index h i with
                  | None, r => r = None
                  | Some t, Some r => is_efficiency (match hash_value_at_index hp i with Some p => p | None => B754_zero false end) t r
                  | Some _, None => False
                  end).
Proof.
  intros prec emax P E B A AX AE a n passed all FV FD FW DV div He Hsub Hnn Hn Hix Hax.
  assert (HixP : forall o, In o passed -> exists r, index a (op_coordinate o) = Val r) by (intros o Ho; apply Hix; clear -Hsub Ho; induction Hsub as [|x l l' _ IH|x l l' _ IH]; [exact Ho | destruct Ho as [->|Ho]; [left; reflexivity | right; auto] | right; auto]).
  set (zero := B754_zero false : binary_float prec emax). set (F := fun ops i => total_of prec emax P E (reaching a i ops) zero).
  assert (HF : forall ops i, apply_all (V := binary_float prec emax) (reaching a i ops) default_v = Val (F ops i)) by (intros ops i; apply apply_total).
  assert (Hz : flt_le zero zero) by (right; reflexivity).
  assert (Hnr : forall i, Forall not_negative (reaching a i all)).
  { intros i. apply List.Forall_forall. intros o Ho. unfold reaching in Ho. apply filter_In in Ho as [Ho _]. revert o Ho. apply List.Forall_forall. exact Hnn. }
  assert (Heff : forall i, is_efficiency (F passed i) (F all i) (Bdiv mode_NE (F passed i) (F all i))).
  { intros i. destruct (sublist_total prec emax P E _ _ (sublist_reaching prec emax a i _ _ Hsub) (Hnr i) zero zero Hz Hz) as [L1 L2]. apply div_efficiency; assumption. }
  split.
  - destruct (known_dense FV FD FW DV a passed (F passed) HixP (HF passed) n Hn) as [hp [P1 [P2 P3]]]. destruct (known_dense FV FD FW DV a all (F all) Hix (HF all) n Hn) as [ha [T1 [T2 T3]]].
    set (res := map (fun k => Bdiv mode_NE (F passed (N.of_nat k)) (F all (N.of_nat k))) (seq 0 (N.to_nat n))).
    exists hp, ha, (mkVecHist a res). split; [exact P1|]. split; [exact T1|].
    assert (Nth : forall {X} (f : nat -> X) k, (k < N.to_nat n)%nat -> nth_error (map f (seq 0 (N.to_nat n))) k = Some (f k)).
    { intros X f k Hk. rewrite nth_error_map, (nth_error_nth' _ 0%nat), seq_nth by (rewrite ?seq_length; exact Hk). reflexivity. }
    split; [|split; [reflexivity|split; [unfold vec_values, res; cbn [vh_values]; rewrite map_length, seq_length; reflexivity|]]].
    + pose proof (dense_known div hp ha res) as K. rewrite P2, T2 in K. apply K; [exact Hax | rewrite P3, T3, !map_length; reflexivity | unfold res; rewrite P3, !map_length; reflexivity|].
      intros k x y. rewrite P3, T3. intros Hx Hy. assert (Hk : (k < N.to_nat n)%nat) by (pose proof (nth_error_Some (map (fun k => F passed (N.of_nat k)) (seq 0 (N.to_nat n))) k) as Q; rewrite map_length, seq_length in Q; apply Q; congruence).
      rewrite Nth in Hx, Hy by exact Hk. injection Hx as <-. injection Hy as <-. eexists. split; [reflexivity|]. unfold res. rewrite Nth by exact Hk. reflexivity.
    + intros i Hi. exists (F passed i), (F all i), (Bdiv mode_NE (F passed i) (F all i)). unfold vec_value_at_index. cbn [vh_values]. change (vh_values hp) with (vec_values hp). change (vh_values ha) with (vec_values ha).
      rewrite P3, T3. unfold res. rewrite !Nth by lia. rewrite !N2Nat.id. repeat split; apply Heff; assumption.
  - destruct (known_sparse FV FD FW DV a passed (F passed) HixP (HF passed)) as [hp [P1 [P2 P3]]]. destruct (known_sparse FV FD FW DV a all (F all) Hix (HF all)) as [ha [T1 [T2 T3]]].
    set (res := map_imap (fun i (_ : binary_float prec emax) => Some (Bdiv mode_NE (F passed i) (F all i))) (hh_values ha)).
    assert (L : forall i, res !! i = match hash_value_at_index ha i with Some _ => Some (Bdiv mode_NE (F passed i) (F all i)) | None => None end) by (intros i; unfold res, hash_value_at_index; rewrite map_lookup_imap; destruct (hh_values ha !! i); reflexivity).
    assert (Hr : forall i, reaching a i all = [] -> reaching a i passed = []).
    { intros i Q. pose proof (sublist_reaching prec emax a i _ _ Hsub) as S. rewrite Q in S. inversion S. reflexivity. }
    assert (Hd : forall i, reaching a i passed = [] -> F passed i = zero) by (intros i Q; unfold F; rewrite Q; reflexivity).
    exists hp, ha, (mkHashHist a res). split; [exact P1|]. split; [exact T1|]. split; [|split; [reflexivity|]].
    + pose proof (sparse_known div hp ha res) as K. rewrite P2, T2 in K. apply K; [exact Hax|]. intros i. rewrite L, P3, T3. specialize (Hr i). specialize (Hd i).
      destruct (reaching a i passed) as [|o l], (reaching a i all) as [|o' l'].
      * reflexivity.
      * eexists. split; [|reflexivity]. unfold div. cbn [n_div float_ops]. rewrite Hd by reflexivity. reflexivity.
      * discriminate (Hr eq_refl).
      * eexists. split; reflexivity.
    + intros i. change (hash_value_at_index (mkHashHist a res) i) with (res !! i). rewrite L, P3, T3. specialize (Hd i). specialize (Heff i).
      destruct (reaching a i all) as [|o' l']; [reflexivity|]. destruct (reaching a i passed) as [|o l]; [|exact Heff]. rewrite Hd in Heff |- * by reflexivity. exact Heff.
Qed.
Print Assumptions C96_efficiencies.

(** C96. Adding up three histograms of weights on the grid, in either grouping, gives the same histogram bit for bit. *)
Theorem C96_associative : forall (prec emax : Z) (P : Prec_gt_0 prec) (E : Prec_lt_emax prec emax) (B : Build) A (AX : Axis A) (AE : AxisEq A) (a : A) (n : N) (e : Z)
  (callsA callsB callsC : list (fill_op (binary_float prec emax) Empty_set * Z)),
  let FV := float_fill prec emax P E in let FD := float_fill_with prec emax P E in let FW := float_no_weighted prec emax in let DV := float_default prec emax P E in
  covered_format prec emax -> grid_exponent prec emax e -> calls_on_grid e (callsA ++ callsB ++ callsC) -> stays_within (- 2 ^ prec) (2 ^ prec) (map snd (callsA ++ callsB ++ callsC)) ->
  num_bins a = Val n -> (forall p, In p (callsA ++ callsB ++ callsC) -> exists r, index a (op_coordinate (fst p)) = Val r) -> axis_eqb a a = true ->
  let add := @n_add _ (float_ops prec emax P E) in
  (exists hA hB hC hAB hBC h, dense_filled a (map fst callsA) = Val hA /\ dense_filled a (map fst callsB) = Val hB /\ dense_filled a (map fst callsC) = Val hC
     /\ dense_gives add hA hB hAB /\ dense_gives add hAB hC h /\ dense_gives add hB hC hBC /\ dense_gives add hA hBC h)
  /\ (exists hA hB hC hAB hBC h, sparse_filled a (map fst callsA) = Val hA /\ sparse_filled a (map fst callsB) = Val hB /\ sparse_filled a (map fst callsC) = Val hC
     /\ sparse_gives add hA hB hAB /\ sparse_gives add hAB hC h /\ sparse_gives add hB hC hBC /\ sparse_gives add hA hBC h).
Proof.
  intros prec emax P E B A AX AE a n e cA cB cC FV FD FW DV Hcov Hge Hg Hw Hn Hix Hax add.
  assert (Hg2 : calls_on_grid (P := P) (E := E) e ((cA ++ cB) ++ cC)) by (rewrite <- app_assoc; exact Hg).
  assert (Hw2 : stays_within (- 2 ^ prec) (2 ^ prec) (map snd ((cA ++ cB) ++ cC))) by (rewrite <- app_assoc; exact Hw).
  assert (HgAB : calls_on_grid (P := P) (E := E) e (cA ++ cB)) by exact (proj1 (proj1 (List.Forall_app _ _ _) Hg2)).
  assert (HgBC : calls_on_grid (P := P) (E := E) e (cB ++ cC)) by exact (proj2 (proj1 (List.Forall_app _ _ _) Hg)).
  assert (HwAB : stays_within (- 2 ^ prec) (2 ^ prec) (map snd (cA ++ cB))) by (rewrite map_app in Hw2; exact (proj1 (stays_app _ _ _ _ Hw2))).
  assert (HwBC : stays_within (- 2 ^ prec) (2 ^ prec) (map snd (cB ++ cC))) by (rewrite map_app in Hw; exact (proj2 (stays_app _ _ _ _ Hw))).
  assert (HixAB : forall p, In p (cA ++ cB) -> exists r, index a (op_coordinate (fst p)) = Val r) by (intros p Hp; apply Hix; rewrite app_assoc; apply in_or_app; left; exact Hp).
  assert (HixBC : forall p, In p (cB ++ cC) -> exists r, index a (op_coordinate (fst p)) = Val r) by (intros p Hp; apply Hix, in_or_app; right; exact Hp).
  assert (Hix2 : forall p, In p ((cA ++ cB) ++ cC) -> exists r, index a (op_coordinate (fst p)) = Val r) by (intros p Hp; apply Hix; rewrite app_assoc; exact Hp).
  pose proof (C94_merge prec emax P E B A AX AE a a n e cA cB Hcov Hge HgAB HwAB Hn HixAB Hax eq_refl (fun _ => eq_refl)) as M1.
  pose proof (C94_merge prec emax P E B A AX AE a a n e (cA ++ cB) cC Hcov Hge Hg2 Hw2 Hn Hix2 Hax eq_refl (fun _ => eq_refl)) as M2.
  pose proof (C94_merge prec emax P E B A AX AE a a n e cB cC Hcov Hge HgBC HwBC Hn HixBC Hax eq_refl (fun _ => eq_refl)) as M3.
  pose proof (C94_merge prec emax P E B A AX AE a a n e cA (cB ++ cC) Hcov Hge Hg Hw Hn Hix Hax eq_refl (fun _ => eq_refl)) as M4.
  cbv zeta in M1, M2, M3, M4. rewrite <- app_assoc in M2. fold FV FD FW DV add in M1, M2, M3, M4. unfold dense_gives, sparse_gives. split.
  - destruct M1 as [(hA & hB & hAB & A1 & B1 & AB1 & G1) _]. destruct M2 as [(hAB' & hC & h & AB2 & C2 & H2 & G2) _]. destruct M3 as [(hB' & hC' & hBC & B3 & C3 & BC3 & G3) _]. destruct M4 as [(hA' & hBC' & h' & A4 & BC4 & H4 & G4) _].
    rewrite AB2 in AB1. injection AB1 as <-. rewrite B3 in B1. injection B1 as <-. rewrite C3 in C2. injection C2 as <-. rewrite A4 in A1. injection A1 as <-. rewrite BC4 in BC3. injection BC3 as <-. rewrite H4 in H2. injection H2 as <-.
    exists hA', hB', hC', hAB', hBC', h'. auto 10.
  - destruct M1 as [_ (hA & hB & hAB & A1 & B1 & AB1 & G1)]. destruct M2 as [_ (hAB' & hC & h & AB2 & C2 & H2 & G2)]. destruct M3 as [_ (hB' & hC' & hBC & B3 & C3 & BC3 & G3)]. destruct M4 as [_ (hA' & hBC' & h' & A4 & BC4 & H4 & G4)].
    rewrite AB2 in AB1. injection AB1 as <-. rewrite B3 in B1. injection B1 as <-. rewrite C3 in C2. injection C2 as <-. rewrite A4 in A1. injection A1 as <-. rewrite BC4 in BC3. injection BC3 as <-. rewrite H4 in H2. injection H2 as <-.
    exists hA', hB', hC', hAB', hBC', h'. do 3 (split; [assumption|]). split; [exact G1|]. split; [exact G2|]. split; [exact G3 | exact G4].
Qed.
Print Assumptions C96_associative.

(** Case: categories 5 and 7 in [f64], on the grid of halves; one histogram is filled with 0.5 and 1.0 in bin 0 and the other with 3.0
    in the overflow bin and -0.5 in bin 0. For the efficiency, 0.1 (not on any coarse grid) and 1.0 pass out of 0.1, 3.0 and 1.0. *)
Example C96_nonvacuous : forall B : Build,
  let AX := @category_axis B Z _ in let AE : AxisEq (Category Z) := {| axis_eqb := category_eqb |} in let a := category_new [5; 7]%Z in
  let callsA : list (@fill_op _ f64 Empty_set AX * Z) := [(CallFillWith 5%Z (f64_lit 1 (-1)), 1); (CallFill 5%Z, 2)]%Z in
  let callsB : list (@fill_op _ f64 Empty_set AX * Z) := [(CallFillWith 9%Z (f64_lit 6 (-1)), 6); (CallFillWith 5%Z (f64_lit (-1) (-1)), -1)]%Z in
  let all : list (@fill_op _ f64 Empty_set AX) := [CallFillWith 5%Z ex92_tenth; CallFillWith 5%Z (f64_lit 3 0); CallFill 7%Z] in
  let passed : list (@fill_op _ f64 Empty_set AX) := [CallFillWith 5%Z ex92_tenth; CallFill 7%Z] in
  covered_format 53 1024 /\ grid_exponent 53 1024 (-1) /\ @calls_on_grid 53 1024 prec64 emax64 _ AX (-1) (callsA ++ callsB) /\ sumZ (map (fun p => Z.abs (snd p)) (callsA ++ callsB)) = 10%Z
  /\ num_bins a = Val 3 /\ (forall p, In p (callsA ++ callsB) -> exists r, index a (op_coordinate (fst p)) = Val r) /\ axis_eqb a a = true
  /\ map (fun i => units_in a i callsA) (range 3) = [3; 0; 0]%Z /\ map (fun i => units_in a i callsB) (range 3) = [-1; 0; 6]%Z
  /\ sublist passed all /\ Forall (not_negative (prec := 53) (emax := 1024) (P := prec64) (E := emax64) (AX := AX)) all /\ (forall o, In o all -> exists r, index a (op_coordinate o) = Val r)
  /\ @is_ratio 53 1024 (f64_lit (-6) 0) 12 (-2) /\ @is_ratio 53 1024 B754_nan 0 0 /\ @is_ratio 53 1024 (B754_infinity true) (-3) 0.
Proof.
  intros B AX AE a callsA callsB all passed. assert (He : grid_exponent 53 1024 (-1)) by (split; lia). assert (H0 : grid_exponent 53 1024 0) by (split; lia).
  split; [exact f64_covered|]. split; [exact He|].
  split. { assert (H1 : grid_value (-1) (Bone : f64) 2).
    { split; [apply is_finite_Bone|]. refine (eq_trans (Bone_correct 53 1024 prec64 emax64) _). change (bpow radix2 (-1)) with (/ 2)%R. lra. }
    assert (H : forall m, (Z.abs m <= 2 ^ 53)%Z -> grid_value (-1) (f64_lit m (-1)) m) by (intros m Hm; exact (f64_grid m (-1) Hm He)).
    unfold calls_on_grid, callsA, callsB. cbn [app]. apply List.Forall_cons; [exact (H 1%Z ltac:(lia))|]. apply List.Forall_cons; [exact H1|].
    apply List.Forall_cons; [exact (H 6%Z ltac:(lia))|]. apply List.Forall_cons; [exact (H (-1)%Z ltac:(lia))|]. apply List.Forall_nil. }
  split; [reflexivity|]. split; [destruct B as [[] []]; reflexivity|].
  split; [intros p Hp; repeat (destruct Hp as [<-|Hp]; [cbn [fst op_coordinate]; destruct B as [[] []]; eexists; reflexivity|]); destruct Hp|].
  split; [reflexivity|]. split; [destruct B as [[] []]; reflexivity|]. split; [destruct B as [[] []]; reflexivity|].
  split; [apply sublist_skip, sublist_cons, sublist_skip, sublist_nil|].
  split; [apply List.Forall_cons; [left; vm_compute; reflexivity|]; apply List.Forall_cons; [left; vm_compute; reflexivity|]; apply List.Forall_cons; [exact I | apply List.Forall_nil]|].
  split; [intros o Ho; repeat (destruct Ho as [<-|Ho]; [cbn [op_coordinate]; destruct B as [[] []]; eexists; reflexivity|]); destruct Ho|].
  split; [|split; split; try (split; intros; try reflexivity; lia); intros H; contradiction H; reflexivity].
  split; [|split; intros Q; discriminate]. intros _. destruct (f64_grid (-6) 0 ltac:(lia) H0) as [F V]. split; [exact F|].
  replace (12 / -2)%R with (B2R (f64_lit (-6) 0)) by (rewrite V; cbn [bpow]; lra). symmetry. apply round_generic; [apply valid_rnd_round_mode | apply generic_format_B2R].
Qed.
