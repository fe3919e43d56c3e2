(** * PropAxisText: what printing an axis shows (C54). *)
From stdpp Require Import gmap.
From Coq Require Import String Ascii DecimalString DecimalN DecimalPos DecimalFacts.
From Verif Require Import Base BaseFacts Num Axis Spec AxesSpec AxesFacts Uniform UniformInt StdAlgo VarAxis VariableFacts Category CategoryFacts
  PropCategory PropAxes Display DisplayCat.
Open Scope list_scope.
Open Scope N_scope.

(** Uniform axes over any number type: the printed number of bins is the number
    of bins between [low()] and [high()], without under- and overflow; printing
    never panics. *)
Theorem C54_uniform_text : forall (B : Build) T (fmt : formatter T) (a : Uniform T) k,
  u_num a = k -> k + 2 < usize_mod ->
  let text class := ("Axis{# bins=" ++ fmt_usize k ++ ", range=[" ++ fmt None (u_low a) ++ ", "
                     ++ fmt None (u_high a) ++ "), class=" ++ class ++ "}")%string in
  (uniform_display fmt a = Val (text "Uniform"%string) /\ uniform_num_bins a = Val (k + 2))
  /\ (uniformnoflow_display fmt (mkUniformNoFlow a) = Val (text "UniformNoFlow"%string)
      /\ uniformnoflow_num_bins (mkUniformNoFlow a) = Val k)
  /\ (uniformcyclic_display fmt (mkUniformCyclic (mkUniformNoFlow a)) = Val (text "UniformCyclic"%string)
      /\ uniformnoflow_num_bins (uc_axis (mkUniformCyclic (mkUniformNoFlow a))) = Val k).
Proof.
  intros B T fmt a k Hk Hu text.
  assert (Hn : uniform_num_bins a = Val (k + 2)) by (unfold uniform_num_bins; rewrite Hk; apply uadd_ok; exact Hu).
  assert (Hnf : uniformnoflow_num_bins (mkUniformNoFlow a) = Val k).
  { unfold uniformnoflow_num_bins. cbn [unf_axis]. rewrite Hn. cbn [obind]. rewrite usub_ok by lia. f_equal. lia. }
  split; [|split]; (split; [|assumption]).
  - unfold uniform_display, axis_text. rewrite Hk. reflexivity.
  - unfold uniformnoflow_display, axis_text. rewrite Hnf. reflexivity.
  - unfold uniformcyclic_display, axis_text. cbn [uc_axis]. rewrite Hnf. reflexivity.
Qed.
Print Assumptions C54_uniform_text.

(** Variable width axes with [k + 1] edges. *)
Theorem C54_variable_text : forall (B : Build) T (fmt : formatter T) (edges : list T) k lo hi,
  N.of_nat (List.length edges) = k + 1 -> 1 <= k -> k + 2 < usize_mod ->
  nth_error edges 0 = Some lo -> nth_error edges (N.to_nat k) = Some hi ->
  let a := mkVariable edges in
  let text class := ("Axis{# bins=" ++ fmt_usize k ++ ", range=[" ++ fmt None lo ++ ", "
                     ++ fmt None hi ++ "), class=" ++ class ++ "}")%string in
  (variable_display fmt a = Val (text "Variable"%string) /\ variable_num_bins a = Val (k + 2))
  /\ (variablenoflow_display fmt (mkVariableNoFlow a) = Val (text "VariableNoFlow"%string)
      /\ variablenoflow_num_bins (mkVariableNoFlow a) = Val k)
  /\ (variablecyclic_display fmt (mkVariableCyclic (mkVariableNoFlow a)) = Val (text "VariableCyclic"%string)
      /\ variablenoflow_num_bins (vc_axis (mkVariableCyclic (mkVariableNoFlow a))) = Val k).
Proof.
  intros B T fmt edges k lo hi Hl Hk Hu Hlo Hhi a text.
  assert (Hn : variable_num_bins a = Val (k + 2)).
  { unfold variable_num_bins. cbn [v_edges a]. rewrite Hl, uadd_ok by lia. f_equal. lia. }
  assert (Hnf : variablenoflow_num_bins (mkVariableNoFlow a) = Val k).
  { unfold variablenoflow_num_bins. cbn [vnf_axis]. rewrite Hn. cbn [obind]. rewrite usub_ok by lia. f_equal. lia. }
  assert (Hlow : variable_low a = Val lo).
  { destruct (low_var edges ltac:(lia)) as [e [E1 E2]]. rewrite Hlo in E1. injection E1 as <-. exact E2. }
  assert (Hhigh : variable_high a = Val hi).
  { destruct (high_var edges ltac:(lia)) as [e [E1 E2]].
    replace (List.length edges - 1)%nat with (N.to_nat k) in E1 by lia. rewrite Hhi in E1. injection E1 as <-. exact E2. }
  split; [|split]; (split; [|assumption]).
  - unfold variable_display. cbn [v_edges a]. rewrite Hl, usub_ok by lia. replace (k + 1 - 1) with k by lia.
    cbn [obind]. fold a. rewrite Hlow, Hhigh. reflexivity.
  - unfold variablenoflow_display. rewrite Hnf. cbn [obind vnf_axis]. rewrite Hlow, Hhigh. reflexivity.
  - unfold variablecyclic_display. cbn [vc_axis]. rewrite Hnf. cbn [obind vnf_axis]. rewrite Hlow, Hhigh. reflexivity.
Qed.
Print Assumptions C54_variable_text.

(** The printed number determines the number of bins. *)
Theorem C54_numbers_unambiguous : forall n m : N, fmt_usize n = fmt_usize m -> n = m.
Proof.
  intros n m Heq. unfold fmt_usize in Heq.
  apply (f_equal NilZero.uint_of_string) in Heq.
  assert (Hne : forall k, N.to_uint k <> Decimal.Nil).
  { intros k. destruct k as [|p]; [discriminate|]. apply DecimalPos.Unsigned.to_uint_nonnil. }
  rewrite !NilZero.usu in Heq by apply Hne. injection Heq as Heq. now apply DecimalN.Unsigned.to_uint_inj.
Qed.
Print Assumptions C54_numbers_unambiguous.

(** Category axes print their first ten bins, the overflow bin being the last. *)
Theorem C54_category_text : forall (B : Build) T (eqd : EqDecision T) (fmt : formatter T) (values : list T),
  N.of_nat (List.length values) + 1 < usize_mod ->
  let names := map (fun v => ("{" ++ fmt None v ++ "}")%string) values ++ ["{overflow}"%string] in
  category_display fmt (category_new values)
  = Val ("{" ++ String.concat ", " (firstn 10 names) ++ "}")%string.
Proof.
  intros B T eqd fmt values Hu names.
  destruct (C17_category_bins B T eqd values Hu) as [Hn [Hb [Ho _]]].
  unfold category_display, indices. cbn [num_bins category_axis]. rewrite Hn. cbn [obind].
  set (bs := map SVBin values ++ [SVOverflow]).
  assert (Hnth : forall i b, nth_error bs i = Some b -> category_bin (category_new values) (N.of_nat i) = Val (Some b)).
  { intros i b Hi. unfold bs in Hi. destruct (Nat.lt_ge_cases i (List.length values)) as [Hlt|Hge].
    - rewrite nth_error_app1 in Hi by (rewrite map_length; exact Hlt). rewrite nth_error_map in Hi.
      destruct (nth_error values i) as [v|] eqn:Ev; [|discriminate]. injection Hi as <-. exact (Hb i v Ev).
    - rewrite nth_error_app2 in Hi by (rewrite map_length; exact Hge). rewrite map_length in Hi.
      destruct (i - List.length values)%nat as [|j] eqn:Ej; [|destruct j; discriminate].
      injection Hi as <-. replace (N.of_nat i) with (N.of_nat (List.length values)) by lia. exact Ho. }
  assert (Hall : mapo (fun i => let! ob := category_bin (category_new values) i in expect ob)
                   (firstn 10 (range (N.of_nat (List.length values) + 1))) = Val (firstn 10 bs)).
  { assert (Hlen : N.to_nat (N.of_nat (List.length values) + 1) = List.length bs).
    { unfold bs. rewrite app_length, map_length. cbn. lia. }
    unfold range. rewrite Hlen. clearbody bs. clear Hlen Hn Hb Ho names.
    enough (Hgen : forall n l s, (forall i b, nth_error l i = Some b ->
                 category_bin (category_new values) (N.of_nat (s + i)) = Val (Some b)) ->
              mapo (fun i => let! ob := category_bin (category_new values) i in expect ob)
                (firstn n (map N.of_nat (seq s (List.length l)))) = Val (firstn n l)).
    { apply (Hgen 10%nat bs 0%nat). exact Hnth. }
    intros n. induction n as [|n IH]; intros l s Hl; [reflexivity|]. destruct l as [|b l]; [reflexivity|].
    cbn [List.length seq map firstn mapo]. rewrite <- (Nat.add_0_r s) at 1. rewrite (Hl 0%nat b eq_refl). cbn [obind expect].
    rewrite (IH l (S s)); [reflexivity|]. intros i b' Hi. rewrite Nat.add_succ_comm. apply Hl. exact Hi. }
  rewrite Hall. cbn [obind]. unfold join_comma. rewrite <- firstn_map. do 3 f_equal.
  unfold names, bs. rewrite map_app, map_map. reflexivity.
Qed.
Print Assumptions C54_category_text.

(** A category axis without overflow bin nevertheless prints one (if it has fewer
    than ten categories). *)
Theorem C54_category_noflow_text_refuted : forall (B : Build) T (eqd : EqDecision T) (fmt : formatter T) (values : list T),
  (List.length values < 10)%nat ->
  let a := categorynoflow_new values in
  categorynoflow_display fmt a
  = Val ("{" ++ String.concat ", " (map (fun v => ("{" ++ fmt None v ++ "}")%string) values ++ ["{overflow}"%string]) ++ "}")%string
  /\ forall i, @bin _ categorynoflow_axis a i <> Val (Some SVOverflow).
Proof.
  intros B T eqd fmt values Hlen a. split.
  - unfold categorynoflow_display, a, categorynoflow_new. cbn [cnf_axis].
    rewrite C54_category_text by (pose proof usize_mod_large; lia). rewrite firstn_all2; [reflexivity|].
    rewrite app_length, map_length. cbn. lia.
  - intros i. cbn [bin categorynoflow_axis]. unfold categorynoflow_bin.
    destruct (category_bin (cnf_axis a) i) as [[[|v]|]|]; cbn [obind]; discriminate.
Qed.
Print Assumptions C54_category_noflow_text_refuted.

(** ** The text of a bin

    The bounds are printed with the precision of the outer formatter; unbounded
    ends print as infinities. *)
Theorem C54_interval_text : forall T (fmt : formatter T) p s e,
  fmt_bin_interval fmt p (Underflow e) = ("(-inf, " ++ fmt p e ++ ")")%string
  /\ fmt_bin_interval fmt p (Overflow s) = ("[" ++ fmt p s ++ ", inf)")%string
  /\ fmt_bin_interval fmt p (Bin s e) = ("[" ++ fmt p s ++ ", " ++ fmt p e ++ ")")%string
  /\ fmt_single_value fmt p (SVBin s) = ("{" ++ fmt None s ++ "}")%string
  /\ fmt_single_value fmt p (@SVOverflow T) = "{overflow}"%string.
Proof. intros. split; [|split; [|split; [|split]]]; reflexivity. Qed.
Print Assumptions C54_interval_text.

(** The number of commas in a text. *)
Fixpoint commas (s : string) : nat :=
  match s with
  | EmptyString => 0
  | String c s' => (if Ascii.eqb c ","%char then 1 else 0) + commas s'
  end%nat.

Lemma append_cons c s t : (String c s ++ t = String c (s ++ t))%string.
Proof. reflexivity. Qed.
Lemma append_nil t : ("" ++ t = t)%string.
Proof. reflexivity. Qed.

Lemma append_cancel_r (u : string) : forall s t, (s ++ u = t ++ u -> s = t)%string.
Proof.
  assert (Hlen : forall a b, String.length (a ++ b)%string = (String.length a + String.length b)%nat).
  { induction a as [|c a IH]; intros b; [reflexivity|]. rewrite append_cons. cbn [String.length]. rewrite IH. reflexivity. }
  induction s as [|c s IH]; intros [|d t] E; [reflexivity | | |].
  - apply (f_equal String.length) in E. rewrite !Hlen in E. cbn [String.length] in E. lia.
  - apply (f_equal String.length) in E. rewrite !Hlen in E. cbn [String.length] in E. lia.
  - rewrite !append_cons in E. injection E as -> E. f_equal. apply IH. exact E.
Qed.

(** Splitting at the first comma. *)
Lemma comma_split : forall s t u v,
  commas s = 0%nat -> commas t = 0%nat ->
  (s ++ String "," u = t ++ String "," v)%string -> s = t /\ u = v.
Proof.
  induction s as [|c s IH]; intros [|d t] u v Hs Ht E; rewrite ?append_cons, ?append_nil in E; cbn in Hs, Ht.
  - injection E as ->. split; reflexivity.
  - injection E as <- E. cbn in Ht. discriminate Ht.
  - injection E as -> E. cbn in Hs. discriminate Hs.
  - injection E as -> E. destruct (Ascii.eqb d ","); [discriminate Hs|].
    destruct (IH t u v Hs Ht E) as [-> ->]. split; reflexivity.
Qed.

(** Two bins print the same exactly when they are of the same kind and their
    bounds print the same - up to one ambiguity: a bounded bin whose end prints
    as [inf] looks like the overflow bin.  (Numbers print without a comma.) *)
Theorem C54_interval_text_unambiguous : forall T (fmt : formatter T) p (b b' : BinInterval T),
  (forall x, commas (fmt p x) = 0%nat) ->
  (fmt_bin_interval fmt p b = fmt_bin_interval fmt p b' <->
   match b, b' with
   | Underflow e, Underflow e' => fmt p e = fmt p e'
   | Overflow s, Overflow s' => fmt p s = fmt p s'
   | Bin s e, Bin s' e' => fmt p s = fmt p s' /\ fmt p e = fmt p e'
   | Overflow s, Bin s' e | Bin s' e, Overflow s => fmt p s = fmt p s' /\ fmt p e = "inf"%string
   | _, _ => False
   end).
Proof.
  intros T fmt p b b' Hc.
  assert (HO : forall s s' u v, ("[" ++ fmt p s ++ ", " ++ u ++ ")" = "[" ++ fmt p s' ++ ", " ++ v ++ ")")%string ->
     fmt p s = fmt p s' /\ u = v).
  { intros s s' u v E. rewrite !append_cons, !append_nil in E. injection E as E. apply comma_split in E; [|apply Hc|apply Hc].
    destruct E as [E1 E2]. split; [exact E1|]. injection E2 as E2. apply (append_cancel_r ")"). exact E2. }
  destruct b as [e|s|s e], b' as [e'|s'|s' e']; unfold fmt_bin_interval; split; intros E;
    try (rewrite !append_cons in E; discriminate E); try contradiction.
  - rewrite !append_cons, !append_nil in E. injection E as E. apply (append_cancel_r ")"). exact E.
  - rewrite E. reflexivity.
  - apply (HO s s' "inf"%string "inf"%string E).
  - rewrite E. reflexivity.
  - destruct (HO s s' "inf"%string _ E) as [E1 E2]. split; [exact E1 | symmetry; exact E2].
  - destruct E as [E1 E2]. rewrite E1, E2. reflexivity.
  - destruct (HO s s' _ "inf"%string E) as [E1 E2]. split; [symmetry; exact E1 | exact E2].
  - destruct E as [E1 E2]. rewrite E1, E2. reflexivity.
  - apply HO. exact E.
  - destruct E as [E1 E2]. rewrite E1, E2. reflexivity.
Qed.
Print Assumptions C54_interval_text_unambiguous.

(** Likewise for categories: a category that prints as [overflow] looks like the
    overflow bin. *)
Theorem C54_category_bin_text_unambiguous : forall T (fmt : formatter T) p p' (b b' : SingleValueBinInterval T),
  fmt_single_value fmt p b = fmt_single_value fmt p' b' <->
  match b, b' with
  | SVBin v, SVBin v' => fmt None v = fmt None v'
  | SVOverflow, SVOverflow => True
  | SVBin v, SVOverflow | SVOverflow, SVBin v => fmt None v = "overflow"%string
  end.
Proof.
  assert (HI : forall u v : string, ("{" ++ u ++ "}" = "{" ++ v ++ "}")%string -> u = v).
  { intros u v E. rewrite !append_cons, !append_nil in E. injection E as E. apply (append_cancel_r "}"). exact E. }
  intros T fmt p p' [|v] [|v']; unfold fmt_single_value; split; intros E; try exact I; try reflexivity.
  - symmetry. apply (HI "overflow"%string). exact E.
  - rewrite E. reflexivity.
  - apply (HI _ "overflow"%string). exact E.
  - rewrite E. reflexivity.
  - apply HI. exact E.
  - rewrite E. reflexivity.
Qed.
Print Assumptions C54_category_bin_text_unambiguous.

(** ** Concrete texts *)
Definition fmt_Z : formatter Z := fun _ z => NilZero.string_of_int (Z.to_int z).

Example C54_nonvacuous : forall B : Build,
  uniform_display fmt_Z (mkUniform 10 0 50 5)%Z
    = Val "Axis{# bins=10, range=[0, 50), class=Uniform}"%string
  /\ variablenoflow_display fmt_Z (mkVariableNoFlow (mkVariable [-1; 0; 7; 9]%Z))
    = Val "Axis{# bins=3, range=[-1, 9), class=VariableNoFlow}"%string
  /\ category_display fmt_Z (category_new [5; 7]%Z) = Val "{{5}, {7}, {overflow}}"%string
  /\ categorynoflow_display fmt_Z (categorynoflow_new [5; 7]%Z) = Val "{{5}, {7}, {overflow}}"%string.
Proof. intros B. destruct B as [[] []]; repeat split; vm_compute; reflexivity. Qed.

(** A formatter that honours the precision ([{:.2}] of a number of halves), on
    intervals: the premise of [C54_interval_text_unambiguous] is met and distinct
    bins print differently. *)
Definition fmt_halves : formatter Z := fun p z =>
  match p with
  | Some 2%N => (fmt_Z None (z / 2) ++ (if Z.even z then ".00" else ".50"))%string
  | _ => (fmt_Z None (z / 2) ++ (if Z.even z then "" else ".5"))%string
  end%Z.
Example C54_interval_nonvacuous :
  fmt_bin_interval fmt_halves (Some 2) (Bin 3 (-4))%Z = "[1.50, -2.00)"%string
  /\ fmt_bin_interval fmt_halves (Some 2) (Underflow 3)%Z = "(-inf, 1.50)"%string
  /\ fmt_bin_interval fmt_halves None (Overflow 3)%Z = "[1.5, inf)"%string
  /\ fmt_single_value fmt_halves (Some 2) (SVBin 3)%Z = "{1.5}"%string.
Proof. repeat split; vm_compute; reflexivity. Qed.
