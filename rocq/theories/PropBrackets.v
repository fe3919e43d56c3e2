(** * PropBrackets: counting with axes that bin up to a tolerance, in any number of
    dimensions (C76). *)
From stdpp Require Import gmap.
From Coq Require Import ZifyN ZifyNat Lia Reals Lra Sorted.
From Flocq Require Import Core IEEE754.BinarySingleNaN.
From Verif Require Import Base BaseFacts Num Float StdContract VariableFacts PropVariable FloatFacts FloatSpec FloatUniform Axis Axes Spec AxesSpec AxesFacts Uniform VarAxis StdAlgo
  Value VecHist HashHist HistSpec HistFacts PropHist PropHistIter Macros FillSpec FillFacts PropCount PropAxes ExactSpec
  Category PropUniformFloat OrdLaws FloatOrd FloatUniformAcc PropUniformFloatEx PropCyclicFloat PropCyclicVarFloat PropEndToEnd PropExactAxes PropFloatCounts.
Open Scope N_scope.

(** ** Specification *)

(** The axis has [n] bins and, for the coordinates in [ok], bins them up to a
    tolerance: [surely i c] says that [c] is well inside bin [i], [maybe i c] that it
    is inside bin [i] or close to it. *)
Record bracketed {A : Type} (AX : Axis A) (a : A) (n : N) (ok : @Coordinate A AX -> Prop)
  (surely maybe : N -> @Coordinate A AX -> Prop) : Prop := {
  br_bins : has_bins AX a n;
  br_index : forall c, ok c -> indexes_within AX a n c;
  br_surely : forall c i, ok c -> i < n -> surely i c -> index a c = Val (Some i);
  br_maybe : forall c i, ok c -> index a c = Val (Some i) -> maybe i c
}.

(** A test per component. *)
Fixpoint index_tests (ts : list axis_type) : Type :=
  match ts with [] => unit | t :: ts' => ((N -> at_coord t -> Prop) * index_tests ts')%type end.

(** The [k]-th component of [c] passes the [k]-th test for bin [is_k]. *)
Fixpoint all_pass (ts : list axis_type) : index_tests ts -> list N -> coords ts -> Prop :=
  match ts return index_tests ts -> list N -> coords ts -> Prop with
  | [] => fun _ is _ => is = []
  | t :: ts' => fun m is c =>
      match is with [] => False | i :: is' => fst m i (fst c) /\ all_pass ts' (snd m) is' (snd c) end
  end.

Fixpoint bracketed_components (ts : list axis_type)
  : axes_tuple ts -> list N -> component_oks ts -> index_tests ts -> index_tests ts -> Prop :=
  match ts return axes_tuple ts -> list N -> component_oks ts -> index_tests ts -> index_tests ts -> Prop with
  | [] => fun _ ns _ _ _ => ns = []
  | t :: ts' => fun a ns o s m =>
      match ns with
      | [] => False
      | n :: ns' => bracketed (at_axis t) (fst a) n (fst o) (fst s) (fst m)
                    /\ bracketed_components ts' (snd a) ns' (snd o) (snd s) (snd m)
      end
  end.

(** [v] lies between the number of coordinates passing one test and the number
    passing another; the tests are given as any decision procedures for them (or
    for something stronger, and weaker, respectively). *)
Definition count_between {C : Type} (surely maybe : C -> Prop) (cs : list C) (v : R) : Prop :=
  forall s m : C -> bool,
  (forall c, In c cs -> s c = true -> surely c) -> (forall c, In c cs -> maybe c -> m c = true) ->
  (INR (length (List.filter s cs)) <= v <= INR (length (List.filter m cs)))%R.

(** ** Lemmas *)

Lemma bracketed_has_bins : forall ts (axes : axes_tuple ts) ns oks s m,
  bracketed_components ts axes ns oks s m -> tuple_has_bins ts axes ns.
Proof.
  induction ts as [|t ts IH]; intros axes ns oks s m H; cbn in *; [exact H|].
  destruct ns as [|n ns]; [exact H|]. destruct H as [H1 H2]. split; [apply (br_bins _ _ _ _ _ _ H1) | eapply IH; exact H2].
Qed.

Lemma bracketed_within : forall ts (axes : axes_tuple ts) ns oks s m c,
  bracketed_components ts axes ns oks s m -> all_ok ts oks c -> components_index_within ts axes ns c.
Proof.
  induction ts as [|t ts IH]; intros axes ns oks s m c H Hok; cbn in *; [exact H|].
  destruct ns as [|n ns]; [exact H|]. destruct H as [H1 H2]. destruct Hok as [O1 O2].
  split; [apply (br_index _ _ _ _ _ _ H1); exact O1 | eapply IH; eassumption].
Qed.

Lemma bracketed_surely : forall ts (axes : axes_tuple ts) ns oks s m c is,
  bracketed_components ts axes ns oks s m -> all_ok ts oks c -> cell ns is -> all_pass ts s is c -> component_indices ts axes c is.
Proof.
  induction ts as [|t ts IH]; intros axes ns oks s m c is H Hok Hc Hs; cbn in *; [exact Hs|].
  destruct ns as [|n ns]; [contradiction|]. destruct is as [|i is]; [contradiction|]. destruct H as [H1 H2]. destruct Hok as [O1 O2].
  destruct Hs as [S1 S2]. inversion Hc as [|? ? ? ? Hlt Hc']; subst.
  split; [apply (br_surely _ _ _ _ _ _ H1); assumption | eapply IH; eassumption].
Qed.

Lemma bracketed_maybe : forall ts (axes : axes_tuple ts) ns oks s m c is,
  bracketed_components ts axes ns oks s m -> all_ok ts oks c -> component_indices ts axes c is -> all_pass ts m is c.
Proof.
  induction ts as [|t ts IH]; intros axes ns oks s m c is H Hok Hi; cbn in *; [exact Hi|].
  destruct ns as [|n ns]; [contradiction|]. destruct is as [|i is]; [contradiction|]. destruct H as [H1 H2]. destruct Hok as [O1 O2].
  destruct Hi as [I1 I2]. split; [apply (br_maybe _ _ _ _ _ _ H1); assumption | eapply IH; eassumption].
Qed.

(** ** C76 *)

(** Tuples of such axes are such axes: cell [is] has number [radix ns is]. *)
Theorem C76_tuples : forall (B : Build) ts (axes : axes_tuple ts) ns oks surely maybe,
  ts <> [] -> bracketed_components ts axes ns oks surely maybe -> products_fit ns ->
  exists a, axes_from axes = Val a
  /\ bracketed (axes_axis ts) a (product ns) (all_ok ts oks)
       (fun i c => exists is, cell ns is /\ radix ns is = i /\ all_pass ts surely is c)
       (fun i c => exists is, cell ns is /\ radix ns is = i /\ all_pass ts maybe is c).
Proof.
  intros B ts axes ns oks s m Hts Hbr Hf. pose proof (bracketed_has_bins _ _ _ _ _ _ Hbr) as Hb.
  destruct (C20_axes_tuple_has_bins B ts axes ns Hts Hb Hf) as [a [Ha Hbins]].
  destruct (C22_axes_index_none B ts axes ns Hts Hb Hf) as [a' [Ha' Hno]]. rewrite Ha in Ha'. injection Ha' as <-.
  destruct (C21_axes_index_value B ts axes ns Hts Hb Hf) as [a' [Ha' [_ Hi]]]. rewrite Ha in Ha'. injection Ha' as <-.
  exists a. split; [exact Ha|]. constructor.
  - exact Hbins.
  - intros c Hok. exact (proj2 (Hno c (bracketed_within _ _ _ _ _ _ _ Hbr Hok))).
  - intros c i Hok _ [is [Hc [<- Hs]]]. exact (proj1 (Hi c is (bracketed_surely _ _ _ _ _ _ _ _ Hbr Hok Hc Hs) Hc)).
  - intros c i Hok Hix. pose proof (bracketed_within _ _ _ _ _ _ _ Hbr Hok) as Hw.
    destruct (all_indices_cases _ _ _ _ Hw) as [[js [H1 [H2 [H3 _]]]]|[H1 H2]].
    + destruct (Hi _ js H2 H3) as [E _]. exists js. split; [exact H3|]. split.
      * pose proof (eq_trans (eq_sym E) Hix) as Hr. injection Hr as Hr. exact Hr.
      * exact (bracketed_maybe _ _ _ _ _ _ _ _ Hbr Hok H2).
    + apply (proj1 (Hno _ Hw)) in H2. discriminate (eq_trans (eq_sym H2) Hix).
Qed.
Print Assumptions C76_tuples.

(** The default (f64) histogram over such an axis, dense or sparse, filled once at
    each of up to 2^53 coordinates: every bin holds at least the number of
    coordinates well inside it, and at most the number of those inside or close to it. *)
Theorem C76_counts : forall (B : Build) A (AX : Axis A) (a : A) n ok surely maybe (cs : list (@Coordinate A AX)),
  bracketed AX a n ok surely maybe -> Forall ok cs -> (Z.of_nat (length cs) <= 2 ^ 53)%Z ->
  (exists h0 h, @vec_new A f64 AX f64_default a = Val h0 /\ f64_vec_calls h0 (fills cs) = Val h
     /\ forall i, i < n -> exists v, vec_value_at_index h i = Some v /\ is_finite v = true
          /\ count_between (surely i) (maybe i) cs (B2R v))
  /\ (exists h, f64_hash_calls (hash_new a) (fills cs) = Val h
     /\ forall i, i < n -> count_between (surely i) (maybe i) cs
          match hash_value_at_index h i with Some v => B2R v | None => 0 end).
Proof.
  intros B A AX a n ok s m cs Hbr Hok Hlen. rewrite List.Forall_forall in Hok.
  pose proof (br_bins _ _ _ _ _ _ Hbr) as Hb. pose proof Hb as [Hn _].
  assert (Hix : forall c, In c cs -> indexes_within AX a n c) by (intros c Hc; apply (br_index _ _ _ _ _ _ Hbr); auto).
  assert (Hcount : forall i, i < n -> count_between (s i) (m i) cs (IZR (Z.min (Z.of_nat (hits a i cs)) (2 ^ 53)))).
  { intros i Hi sb mb Hs Hm.
    assert (Hle : (hits a i cs <= length cs)%nat).
    { unfold hits. clear. induction cs as [|c cs IH]; [reflexivity|]. cbn. destruct (index a c) as [[j|]|]; cbn; try (destruct (j =? i)); cbn; lia. }
    replace (Z.min (Z.of_nat (hits a i cs)) (2 ^ 53)) with (Z.of_nat (hits a i cs)) by lia. rewrite <- INR_IZR_INZ.
    assert (Hf : forall (p q : @Coordinate A AX -> bool) l, (forall c, In c l -> p c = true -> q c = true) ->
      (length (List.filter p l) <= length (List.filter q l))%nat).
    { intros p q l H. induction l as [|x l IH]; [reflexivity|]. specialize (IH (fun y Hy => H y (or_intror Hy))).
      pose proof (H x (or_introl eq_refl)) as Hx. cbn [List.filter].
      destruct (p x); [rewrite Hx by reflexivity; cbn [length]; lia|]. destruct (q x); cbn [length]; lia. }
    split; apply le_INR; unfold hits; apply Hf; intros c Hc Ht.
    - rewrite (br_surely _ _ _ _ _ _ Hbr c i (Hok c Hc) Hi (Hs c Hc Ht)). apply N.eqb_refl.
    - apply (Hm c Hc). apply (br_maybe _ _ _ _ _ _ Hbr c i (Hok c Hc)).
      destruct (index a c) as [[j|]|]; try discriminate. apply N.eqb_eq in Ht as ->. reflexivity. }
  destruct (counts_on_any_axis B A AX a n cs Hlen Hb Hix) as [[h0 [h [items [D1 [D2 _]]]]] [h' [S1 _]]].
  split.
  - exists h0, h. split; [exact D1|]. split; [exact D2|]. intros i Hi.
    assert (H0i : vec_value_at_index h0 i <> None).
    { unfold vec_new in D1. rewrite Hn in D1. injection D1 as <-. unfold vec_value_at_index. cbn [vh_values].
      apply nth_error_Some. rewrite repeat_length. lia. }
    destruct (proj1 (C45_f64_counts B A AX a cs i) h0 h D1 D2 H0i) as [v [Hv [F1 [_ F3]]]].
    exists v. split; [exact Hv|]. split; [exact F1|]. rewrite F3. exact (Hcount i Hi).
  - exists h'. split; [exact S1|]. intros i Hi.
    destruct (proj2 (C45_f64_counts B A AX a cs i) h' S1) as [[E0 ->]|[v [Hk [-> [_ [_ F3]]]]]].
    + specialize (Hcount i Hi). rewrite E0 in Hcount. exact Hcount.
    + rewrite F3. exact (Hcount i Hi).
Qed.
Print Assumptions C76_counts.

(** An exact axis (C53) is one whose two tests coincide. *)
Theorem C76_exact_axes : forall A (AX : Axis A) (a : A) n ok mem, exact_axis AX a n ok mem ->
  let inside i c := exists b, bin a i = Val (Some b) /\ mem b c = true in
  bracketed AX a n ok inside inside.
Proof.
  intros A AX a n ok mem He inside. constructor.
  - exact (ex_bins _ _ _ _ _ He).
  - exact (ex_index _ _ _ _ _ He).
  - intros c i Hok Hi [b [Hb Hm]]. apply (ex_iff _ _ _ _ _ He c i b Hok Hi Hb). exact Hm.
  - intros c i Hok Hix. destruct (ex_index _ _ _ _ _ He c Hok) as [r [Er Hr]]. rewrite Hix in Er. injection Er as <-.
    specialize (Hr i eq_refl). destruct (proj2 (ex_bins _ _ _ _ _ He) i Hr) as [b Hb]. exists b. split; [exact Hb|].
    apply (ex_iff _ _ _ _ _ He c i b Hok Hr Hb). exact Hix.
Qed.
Print Assumptions C76_exact_axes.

(** ** The float axes *)

(** [Uniform::new(num, low, high)]: with [w] the ideal bin width and [u] half the
    machine epsilon, the distances from [low] are right up to the relative error [4 u].
    The underflow bin is exact, and NaN counts as overflow. *)
Definition surely_in_uniform {prec emax : Z} (num : N) (low high : binary_float prec emax) (i : N) (x : binary_float prec emax) : Prop :=
  let w := ideal_width num (B2R low) (B2R high) in let u := unit_roundoff prec in
  let edge (k : N) (c : R) := (B2R low + IZR (Z.of_N k) * w * c)%R in
  if i =? 0 then below (B2R low) x = true
  else if i =? num + 1 then below (B2R high) x = false
  else between (edge (i - 1)%N (1 + 4 * u)%R) (edge i (1 - 4 * u)%R) x = true.

Definition maybe_in_uniform {prec emax : Z} (num : N) (low high : binary_float prec emax) (i : N) (x : binary_float prec emax) : Prop :=
  let w := ideal_width num (B2R low) (B2R high) in let u := unit_roundoff prec in
  let edge (k : N) (c : R) := (B2R low + IZR (Z.of_N k) * w * c)%R in
  if i =? 0 then below (B2R low) x = true
  else if i =? num + 1 then below (edge num (1 - 4 * u)%R) x = false
  else between (edge (i - 1)%N (1 - 4 * u)%R) (edge i (1 + 4 * u)%R) x = true.

Theorem C76_uniform_float : forall (prec emax : Z) (P : Prec_gt_0 prec) (E : Prec_lt_emax prec emax) (B : Build)
  (num : N) (low high : binary_float prec emax),
  covered_format prec emax -> (1 <= Z.of_N num < 2 ^ (prec - 1))%Z -> (num + 2 < usize_mod)%N ->
  is_finite low = true -> is_finite high = true -> (B2R low < B2R high)%R ->
  is_finite (Bminus mode_NE high low) = true ->
  (IZR (Z.of_N num) * smallest_normal emax <= B2R high - B2R low)%R ->
  let ops := float_ops prec emax P E in
  exists a, uniform_new ops num low high = Val (Ok a) /\ uniformnoflow_new ops num low high = Val (Ok (mkUniformNoFlow a))
  /\ bracketed (uniform_axis ops) a (num + 2) (fun _ => True) (surely_in_uniform num low high) (maybe_in_uniform num low high)
  /\ bracketed (uniformnoflow_axis ops) (mkUniformNoFlow a) num (fun _ => True)
       (fun i => surely_in_uniform num low high (i + 1)) (fun i => maybe_in_uniform num low high (i + 1)).
Proof.
  intros prec emax P E B num low high Hf Hn Hus Fl Fh Hlh Fd Hw ops.
  destruct (float_positions prec emax P E B num low high Hf Hn Hus Fl Fh Hlh Fd Hw)
    as [a [Ha [Hmade [Enum [Hb [Hvalid [Funder [Hup [Hlo [Hin Hover]]]]]]]]]].
  fold ops in Ha, Hb, Hvalid, Funder, Hup, Hlo, Hin, Hover.
  assert (Hs : forall x i, i < num + 2 -> surely_in_uniform num low high i x -> uniform_index ops a x = Val (Some i)).
  { intros x i Hi Hs. unfold surely_in_uniform in Hs. destruct (N.eqb_spec i 0) as [->|H0]; [apply Funder; exact Hs|].
    destruct (N.eqb_spec i (num + 1)) as [->|H1]; [apply Hover; exact Hs|]. apply Hin; [lia | exact Hs]. }
  assert (Hm : forall x i, uniform_index ops a x = Val (Some i) -> maybe_in_uniform num low high i x).
  { intros x i Hi. unfold maybe_in_uniform. destruct (N.eqb_spec i 0) as [->|H0]; [apply Funder; exact Hi|].
    destruct (N.eqb_spec i (num + 1)) as [->|H1]; [apply (Hlo x (num + 1) num Hi); lia|].
    destruct (Hvalid x) as [i' [Ei Hi']]. rewrite Hi in Ei. injection Ei as <-. unfold between.
    rewrite (Hlo x i (i - 1) Hi), (Hup x i i Hi) by lia. reflexivity. }
  exists a. split; [exact Ha|]. split; [unfold uniformnoflow_new; rewrite Ha; reflexivity|]. split.
  - constructor.
    + exact Hb.
    + intros c _. destruct (Hvalid c) as [i [Ei Hi]]. exists (Some i). split; [exact Ei|]. intros j Hj. injection Hj as <-. exact Hi.
    + intros c i _ Hi Hc. exact (Hs c i Hi Hc).
    + intros c i _ Hc. exact (Hm c i Hc).
  - pose proof (fun x => C09_noflow_float prec emax P E B num a x Hf (proj2 Hn) Hus Hmade) as H9. fold ops in H9.
    constructor.
    + rewrite <- Enum. apply (C20_uniform_float_has_bins B prec emax P E a). rewrite Enum. exact Hus.
    + intros c _. destruct (H9 c) as [_ [i [_ [[E1 _]|[j [E1 [_ Hj]]]]]]].
      * exists None. split; [exact E1 | discriminate].
      * exists (Some j). split; [exact E1|]. intros k Hk. injection Hk as <-. exact Hj.
    + intros c i _ Hi Hc. apply Hs in Hc; [|lia]. destruct (H9 c) as [_ [i' [Ei [[E1 H1]|[j [E1 [Hj _]]]]]]].
      * rewrite Hc in Ei. injection Ei as <-. lia.
      * rewrite Hc in Ei. injection Ei as Ei. assert (i = j) by lia. subst j. exact E1.
    + intros c i _ Hc. destruct (H9 c) as [_ [i' [Ei [[E1 _]|[j [E1 [Hj _]]]]]]].
      * discriminate (eq_trans (eq_sym Hc) E1).
      * pose proof (eq_trans (eq_sym Hc) E1) as Ej. injection Ej as <-. subst i'. exact (Hm c _ Ei).
Qed.
Print Assumptions C76_uniform_float.

(** [UniformCyclic::new(num, low, high)] on finite coordinates whose distance from
    [low] does not overflow: with [W] the range, [c] is surely (maybe) in bin [i] if some
    [c - m W] is farther than the tolerance inside (less than it outside) the ideal bin. *)
Theorem C76_cyclic_float : forall (prec emax : Z) (P : Prec_gt_0 prec) (E : Prec_lt_emax prec emax) (B : Build)
  (num : N) (low high : binary_float prec emax),
  covered_format prec emax -> (1 <= Z.of_N num < 2 ^ (prec - 1))%Z -> (num + 2 < usize_mod)%N ->
  is_finite low = true -> is_finite high = true -> (B2R low < B2R high)%R ->
  is_finite (Bminus mode_NE high low) = true ->
  (IZR (Z.of_N num) * smallest_normal emax <= B2R high - B2R low)%R ->
  let ops := float_ops prec emax P E in
  let W := (B2R high - B2R low)%R in
  let w := ideal_width num (B2R low) (B2R high) in
  let tolerance (x : binary_float prec emax) := (16 * unit_roundoff prec * (Rabs (B2R x) + Rabs (B2R low) + Rabs (B2R high)))%R in
  exists a, uniformcyclic_new ops num low high = Val (Ok a)
  /\ bracketed (uniformcyclic_axis ops) a num (fun x => is_finite x = true /\ is_finite (Bminus mode_NE x low) = true)
       (fun i x => exists m : Z, (B2R low + IZR (Z.of_N i) * w + tolerance x < B2R x - IZR m * W
                                  < B2R low + (IZR (Z.of_N i) + 1) * w - tolerance x)%R)
       (fun i x => exists m : Z, (B2R low + IZR (Z.of_N i) * w - tolerance x <= B2R x - IZR m * W
                                  < B2R low + (IZR (Z.of_N i) + 1) * w + tolerance x)%R).
Proof.
  intros prec emax P E B num low high Hf Hn Hus Fl Fh Hlh Fd Hw ops W w tolerance.
  destruct (float_positions prec emax P E B num low high Hf Hn Hus Fl Fh Hlh Fd Hw)
    as [a [Ha [Hmade [Enum _]]]]. fold ops in Ha.
  set (c := mkUniformCyclic (mkUniformNoFlow a)).
  assert (Hc : uniformcyclic_new ops num low high = Val (Ok c)) by (unfold uniformcyclic_new, uniformnoflow_new; rewrite Ha; reflexivity).
  destruct (C11_cyclic_float_accuracy prec emax P E B num low high Hf Hn Hus Fl Fh Hlh Fd Hw) as [c' [Hc' Hacc]].
  fold ops in Hc'. rewrite Hc in Hc'. injection Hc' as <-.
  destruct (C11_cyclic_float_found prec emax P E B num low high Hf Hn Hus Fl Fh Hlh Fd Hw) as [c' [Hc' Hfound]].
  fold ops in Hc'. rewrite Hc in Hc'. injection Hc' as <-.
  exists c. split; [exact Hc|]. constructor.
  - rewrite <- Enum. apply (C20_uniform_float_has_bins B prec emax P E a). rewrite Enum. exact Hus.
  - intros x _. destruct (C11_cyclic_float_valid prec emax P E B num a x Hf (proj2 Hn) Hus Hmade) as [E1|[j [E1 Hj]]].
    + exists None. split; [exact E1 | discriminate].
    + exists (Some j). split; [exact E1|]. intros k Hk. injection Hk as <-. exact Hj.
  - intros x i [Fx Fxl] Hi [m Hm]. exact (Hfound x i m Fx Fxl Hi Hm).
  - intros x i [Fx Fxl] Hx. destruct (proj1 (Hacc x Fx Fxl) i Hx) as [_ [m Hm]]. exists m. exact Hm.
Qed.
Print Assumptions C76_cyclic_float.

(** [VariableCyclic] over finite strictly increasing float edges, likewise. *)
Theorem C76_variable_cyclic_float : forall (prec emax : Z) (P : Prec_gt_0 prec) (E : Prec_lt_emax prec emax) (B : Build)
  (search : searcher), search_contract search ->
  forall (edges : list (binary_float prec emax)) low high,
  covered_format prec emax ->
  (forall e, In e edges -> is_finite e = true) ->
  StronglySorted (fun a b => (B2R a < B2R b)%R) edges ->
  (2 <= length edges)%nat -> N.of_nat (length edges) + 1 < usize_mod ->
  nth_error edges 0 = Some low -> nth_error edges (length edges - 1) = Some high ->
  is_finite (Bminus mode_NE high low) = true ->
  let ops := float_ops prec emax P E in
  let W := (B2R high - B2R low)%R in
  let tolerance (x : binary_float prec emax) := (16 * unit_roundoff prec * (Rabs (B2R x) + Rabs (B2R low) + Rabs (B2R high)))%R in
  bracketed (variablecyclic_axis search ops) (mkVariableCyclic (mkVariableNoFlow (mkVariable edges))) (N.of_nat (length edges) - 1)
       (fun x => is_finite x = true /\ is_finite (Bminus mode_NE x low) = true)
       (fun i x => exists s e (m : Z), nth_error edges (N.to_nat i) = Some s /\ nth_error edges (S (N.to_nat i)) = Some e
          /\ (B2R s + tolerance x < B2R x - IZR m * W < B2R e - tolerance x)%R)
       (fun i x => exists s e (m : Z), nth_error edges (N.to_nat i) = Some s /\ nth_error edges (S (N.to_nat i)) = Some e
          /\ (B2R s - tolerance x <= B2R x - IZR m * W < B2R e + tolerance x)%R).
Proof.
  intros prec emax P E B search Hse edges low high Hf Hfin Hsort Hlen Hus Hlow Hhigh Fd ops W tolerance.
  pose proof (fun x => C57_variable_cyclic_float_accuracy prec emax P E B search Hse edges low high Hf Hfin Hsort Hlen Hus Hlow Hhigh Fd x) as Hacc.
  cbv zeta in Hacc. fold ops in Hacc.
  assert (Hne : forall x, exists r, variablecyclic_index search ops (mkVariableCyclic (mkVariableNoFlow (mkVariable edges))) x = Val r
                 /\ forall i, r = Some i -> i < N.of_nat (length edges) - 1).
  { assert (Hnum : forall e, In e edges -> float_is_num prec emax e = true).
    { intros e He'. apply Hfin in He'. unfold float_is_num. destruct e; try discriminate; reflexivity. }
    assert (Hst' : StronglySorted (fun a b => @lt_ _ (@num_ord _ (float_ops prec emax P E)) a b = true) edges).
    { clear -Hsort Hfin. induction Hsort as [|z zs Hs IH Ha]; constructor.
      - apply IH. intros e He. apply Hfin. right. exact He.
      - rewrite List.Forall_forall in Ha |- *. intros y Hy. rewrite lt_fin; [apply Rlt_bool_true; auto| |];
          apply Hfin; [left; reflexivity | right; exact Hy]. }
    destruct (C15_variable_noflow B search Hse _ _ _ (float_ord_laws prec emax P E) edges Hnum Hst' ltac:(lia) Hus) as [_ [_ [_ Hidx]]].
    intros x. unfold variablecyclic_index. cbn [vc_axis vnf_axis].
    destruct (high_var edges ltac:(lia)) as [hi' [_ ->]]. destruct (low_var edges ltac:(lia)) as [lo' [_ ->]]. cbn [obind].
    assert (Hw : exists y, wrap_coordinate ops lo' hi' x = Val y).
    { unfold wrap_coordinate, ops. cbn [n_sub n_rem n_add n_zero float_ops obind].
      match goal with |- context [if ?b then _ else _] => destruct b end; cbn [obind]; eexists; reflexivity. }
    destruct Hw as [y ->]. cbn [obind]. destruct (Hidx y) as [r [Hr Hr2]]. exists r. split; [exact Hr|].
    intros i Hi. destruct (proj1 (Hr2 i) Hi) as [s [e [_ [He _]]]].
    assert (Hlt : (S (N.to_nat i) < length edges)%nat) by (apply nth_error_Some; rewrite He; discriminate). lia. }
  constructor.
  - refine (proj2 (proj2 (C20_variable_has_bins B search _ ops edges _ Hus))). lia.
  - intros x _. exact (Hne x).
  - intros x i [Fx Fxl] Hi [s [e [m [Hs [He Hm]]]]]. exact (proj2 (proj2 (Hacc x Fx Fxl)) i s e m Hs He Hm).
  - intros x i [Fx Fxl] Hx. exact (proj1 (Hacc x Fx Fxl) i Hx).
Qed.
Print Assumptions C76_variable_cyclic_float.

(** Non-vacuity: ten [f64] bins on [0, 1) by the categories 5 and 7, a
    36-cell histogram; 0.375 is well inside bin 4 of the first axis, and NaN is overflow. *)
Definition uni_f64 (B : Build) : axis_type := {| at_type := Uniform f64; at_axis := uniform_axis f64_ops; at_eq := {| axis_eqb := uniform_eqb f64_ops |} |}.

Example C76_nonvacuous : forall (B : Build),
  let low := f64_lit 0 0 in let high := f64_lit 1 0 in
  let ts := [uni_f64 B; cat_Z B] in
  let inside i (c : Z) := exists b, category_bin (category_new [5; 7]%Z) i = Val (Some b) /\ in_category [5; 7]%Z b c = true in
  exists a, uniform_new f64_ops 10 low high = Val (Ok a)
  /\ bracketed_components ts (a, (category_new [5; 7]%Z, tt)) [12; 3] ((fun _ => True), ((fun _ => True), tt))
       (surely_in_uniform 10 low high, (inside, tt)) (maybe_in_uniform 10 low high, (inside, tt))
  /\ products_fit [12; 3]
  /\ all_pass ts (surely_in_uniform 10 low high, (inside, tt)) [4; 1] (f64_lit 3 (-3), (7%Z, tt))
  /\ all_pass ts (surely_in_uniform 10 low high, (inside, tt)) [11; 2] (B754_nan, (9%Z, tt)).
Proof.
  intros B low high ts inside. destruct float_params_nonvacuous as [H1 [H2 [H3 [H4 [H5 [H6 [H7 _]]]]]]].
  destruct (C76_uniform_float 53 1024 prec64 emax64 B 10 low high H1 H2 ltac:(pose proof usize_mod_large; lia) H3 H4 H5 H6 H7)
    as [a [Ha [_ [Hb _]]]].
  exists a. split; [exact Ha|]. split; [|split; [|split]].
  - cbn [bracketed_components ts fst snd]. split; [exact Hb|]. split; [|reflexivity].
    refine (C76_exact_axes _ _ _ _ _ _ (proj1 (C53_category_exact B Z _ [5; 7]%Z _ _))); [|destruct B as [? []]; vm_compute; reflexivity].
    repeat constructor; cbn; intuition congruence.
  - intros k. destruct k as [|[|[|k]]]; destruct B as [? []]; vm_compute; reflexivity.
  - cbn [all_pass ts fst snd]. split; [|split; [|reflexivity]].
    + unfold surely_in_uniform. change (4 =? 0) with false. change (4 =? 10 + 1) with false. cbv iota.
      destruct (f64_int 0 ltac:(lia)) as [Z1 _]. destruct (f64_int 1 ltac:(lia)) as [O1 _]. unfold f64 in *.
      fold low in Z1. fold high in O1.
      assert (Ex : B2R (f64_lit 3 (-3)) = (3 / 8)%R).
      { rewrite <- SF2R_B2SF. replace (B2SF (f64_lit 3 (-3))) with (SpecFloat.S754_finite false 6755399441055744 (-54)) by (vm_compute; reflexivity).
        unfold SF2R, F2R. cbn [Fnum Fexp cond_Zopp].
        change (bpow radix2 (-54)) with (/ IZR 18014398509481984)%R. lra. }
      assert (Hbl : forall r, below (prec := 53) (emax := 1024) r (f64_lit 3 (-3)) = Rlt_bool (3 / 8) r).
      { intros r. assert (Fx : is_finite (f64_lit 3 (-3)) = true) by (vm_compute; reflexivity). rewrite <- Ex.
        unfold f64 in *. revert Fx. destruct (f64_lit 3 (-3)); try discriminate; reflexivity. }
      unfold between. unfold f64 in *. rewrite !Hbl, Z1, O1. unfold ideal_width, unit_roundoff.
      change (Z.of_N (4 - 1)) with 3%Z. change (Z.of_N 4) with 4%Z. change (Z.of_N 10) with 10%Z.
      change (bpow radix2 (- (53))) with (/ IZR 9007199254740992)%R.
      match goal with |- negb (Rlt_bool _ ?p) && Rlt_bool _ ?q = true => assert (L1 : (p <= 3 / 8)%R) by lra; assert (L2 : (3 / 8 < q)%R) by lra end.
      rewrite (Rlt_bool_false _ _ L1), (Rlt_bool_true _ _ L2). reflexivity.
    + exists (SVBin 7%Z). split; vm_compute; reflexivity.
  - cbn [all_pass ts fst snd]. split; [|split; [|reflexivity]].
    + reflexivity.
    + exists SVOverflow. split; vm_compute; reflexivity.
Qed.
