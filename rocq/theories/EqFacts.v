(** * EqFacts: axes that compare equal behave the same (lemmas for C52). *)
From Coq Require Import List NArith ZArith Bool Lia.
From Flocq Require Import Core.FLX IEEE754.BinarySingleNaN.
From Verif Require Import Base BaseFacts Num Float Axis Uniform StdAlgo VarAxis.
Import ListNotations.
Open Scope N_scope.

(** Outcomes related by [R]. *)
Definition orel {X Y : Type} (R : X -> Y -> Prop) (o : outcome X) (o' : outcome Y) : Prop :=
  match o, o' with Val x, Val y => R x y | Panic, Panic => True | _, _ => False end.

(** Options related by [R]. *)
Definition optrel {X Y : Type} (R : X -> Y -> Prop) (o : option X) (o' : option Y) : Prop :=
  match o, o' with Some x, Some y => R x y | None, None => True | _, _ => False end.

(** [R] is compatible with all operations (division up to its use by [index]). *)
Record num_congr {T : Type} (ops : NumOps T) (R : T -> T -> Prop) : Prop := {
  nc_refl : forall a, R a a;
  nc_eq : forall a b, @eq_ _ num_ord a b = true -> R a b;
  nc_cmp : forall a a' b b', R a a' -> R b b' -> @partial_cmp _ num_ord a b = @partial_cmp _ num_ord a' b';
  nc_add : forall a a' b b', R a a' -> R b b' -> orel R (n_add a b) (n_add a' b');
  nc_sub : forall a a' b b', R a a' -> R b b' -> orel R (n_sub a b) (n_sub a' b');
  nc_mul : forall a a' b b', R a a' -> R b b' -> orel R (n_mul a b) (n_mul a' b');
  nc_rem : forall a a' b b', R a a' -> R b b' -> orel R (n_rem a b) (n_rem a' b');
  nc_div : forall a a' n, R a a' -> orel R (n_div a n) (n_div a' n);
  nc_div_usize : forall a a' b b', R a a' -> R b b' ->
    orel (fun q q' => n_to_usize q = n_to_usize q') (n_div a b) (n_div a' b')
}.

Lemma orel_bind {X Y X' Y'} (R : X -> X' -> Prop) (S : Y -> Y' -> Prop) o o' k k' :
  orel R o o' -> (forall x x', R x x' -> orel S (k x) (k' x')) -> orel S (obind o k) (obind o' k').
Proof. destruct o, o'; cbn; auto; contradiction. Qed.
Lemma orel_eq {X} (o o' : outcome X) : orel eq o o' <-> o = o'.
Proof. destruct o, o'; cbn; split; try congruence; try tauto; intros []; auto. Qed.

Lemma forall2_length {X Y} (R : X -> Y -> Prop) l l' : Forall2 R l l' -> length l = length l'.
Proof. intros H. induction H; cbn; congruence. Qed.

Section Generic.
Context {B : Build} {T : Type} (ops : NumOps T) (R : T -> T -> Prop) (HR : num_congr ops R).
Existing Instance ops.

(** Same kind of interval, related endpoints. *)
Definition ivrel (b b' : BinInterval T) : Prop :=
  match b, b' with
  | Underflow e, Underflow e' => R e e'
  | Overflow s, Overflow s' => R s s'
  | Bin s e, Bin s' e' => R s s' /\ R e e'
  | _, _ => False
  end.

Record urel (a b : Uniform T) : Prop := {
  ur_num : u_num a = u_num b; ur_low : R (u_low a) (u_low b);
  ur_high : R (u_high a) (u_high b); ur_step : R (u_step a) (u_step b) }.

Lemma urel_eqb a b : uniform_eqb ops a b = true -> urel a b.
Proof.
  unfold uniform_eqb. intros H. apply andb_true_iff in H as [H Hs]. apply andb_true_iff in H as [H Hh].
  apply andb_true_iff in H as [Hn Hl]. apply N.eqb_eq in Hn.
  constructor; [exact Hn | | |]; apply (nc_eq _ _ HR); assumption.
Qed.

Lemma cmp_lt a a' b b' : R a a' -> R b b' -> lt_ a b = lt_ a' b'.
Proof. intros H1 H2. unfold lt_. rewrite (nc_cmp _ _ HR a a' b b' H1 H2). reflexivity. Qed.
Lemma cmp_ge a a' b b' : R a a' -> R b b' -> ge_ a b = ge_ a' b'.
Proof. intros H1 H2. unfold ge_. rewrite (nc_cmp _ _ HR a a' b b' H1 H2). reflexivity. Qed.

Lemma uindex_congr a b x x' : urel a b -> R x x' -> uniform_index ops a x = uniform_index ops b x'.
Proof.
  intros [Hn Hl Hh Hs] Hx. apply orel_eq. unfold uniform_index.
  rewrite (cmp_lt _ _ _ _ Hx Hl). destruct (lt_ x' (u_low b)); [reflexivity|].
  rewrite (cmp_ge _ _ _ _ Hx Hh). rewrite Hn.
  destruct (ge_ x' (u_high b)); [apply orel_eq; reflexivity|].
  eapply orel_bind; [apply (nc_sub _ _ HR _ _ _ _ Hx Hl)|]. intros d d' Hd.
  eapply orel_bind; [apply (nc_div_usize _ _ HR _ _ _ _ Hd Hs)|]. intros q q' Hq. cbn in Hq.
  rewrite Hq. apply orel_eq. reflexivity.
Qed.

Lemma uedge_congr a b i : urel a b -> orel (optrel R) (uniform_edge ops a i) (uniform_edge ops b i).
Proof.
  intros [Hn Hl Hh Hs]. unfold uniform_edge. destruct (n_from_usize i) as [k|]; [|exact I].
  eapply orel_bind; [apply (nc_sub _ _ HR _ _ _ _ Hh Hl)|]. intros w w' Hw.
  eapply orel_bind; [apply (nc_mul _ _ HR _ _ _ _ (nc_refl _ _ HR k) Hw)|]. intros p p' Hp.
  rewrite Hn. destruct (n_from_usize (u_num b)) as [n|]; [|exact I].
  eapply orel_bind; [apply (nc_div _ _ HR _ _ n Hp)|]. intros q q' Hq.
  eapply orel_bind; [apply (nc_add _ _ HR _ _ _ _ Hl Hq)|]. intros e e' He. exact He.
Qed.

Lemma ubin_congr a b i : urel a b -> orel (optrel ivrel) (uniform_bin ops a i) (uniform_bin ops b i).
Proof.
  intros H. pose proof H as [Hn Hl Hh Hs]. unfold uniform_bin. rewrite Hn.
  destruct (i =? 0); [exact Hl|].
  destruct (uadd (u_num b) 1) as [n1|]; cbn [obind]; [|exact I].
  destruct (i =? n1); [exact Hh|]. destruct (n1 <? i); [exact I|].
  destruct (usub i 1) as [i1|]; cbn [obind]; [|exact I].
  eapply orel_bind; [apply uedge_congr, H|]. intros [s|] [s'|] Hss; cbn in Hss; try contradiction; [|exact I].
  eapply orel_bind; [apply uedge_congr, H|]. intros [e|] [e'|] He; cbn in He; try contradiction; [|exact I].
  exact (conj Hss He).
Qed.

Lemma unfindex_congr (a b : UniformNoFlow T) x x' : urel (unf_axis a) (unf_axis b) -> R x x' ->
  uniformnoflow_index ops a x = uniformnoflow_index ops b x'.
Proof.
  intros H Hx. unfold uniformnoflow_index. rewrite (uindex_congr _ _ _ _ H Hx).
  unfold uniform_num_bins. rewrite (ur_num _ _ H). reflexivity.
Qed.
Lemma unfbins_congr (a b : UniformNoFlow T) : urel (unf_axis a) (unf_axis b) ->
  uniformnoflow_num_bins a = uniformnoflow_num_bins b.
Proof. intros H. unfold uniformnoflow_num_bins, uniform_num_bins. rewrite (ur_num _ _ H). reflexivity. Qed.

Lemma noflow_filter o o' :
  orel (optrel ivrel) o o' ->
  orel (optrel ivrel)
    (obind o (fun ob => match ob with None => Val None | Some (Underflow _) => Val None | Some (Overflow _) => Val None
                                   | Some (Bin s e) => Val (Some (Bin s e)) end))
    (obind o' (fun ob => match ob with None => Val None | Some (Underflow _) => Val None | Some (Overflow _) => Val None
                                   | Some (Bin s e) => Val (Some (Bin s e)) end)).
Proof.
  intros H. eapply orel_bind; [exact H|].
  intros [[e|s|s e]|] [[e'|s'|s' e']|] Hx; cbn in Hx; try contradiction; cbn; auto.
Qed.

Lemma unfbin_congr (a b : UniformNoFlow T) i : urel (unf_axis a) (unf_axis b) ->
  orel (optrel ivrel) (uniformnoflow_bin ops a i) (uniformnoflow_bin ops b i).
Proof.
  intros H. unfold uniformnoflow_bin. destruct (uadd i 1) as [i1|]; cbn [obind]; [|exact I].
  apply noflow_filter, ubin_congr, H.
Qed.

Lemma wrap_congr lo lo' hi hi' x x' : R lo lo' -> R hi hi' -> R x x' ->
  orel R (wrap_coordinate ops lo hi x) (wrap_coordinate ops lo' hi' x').
Proof.
  intros Hl Hh Hx. unfold wrap_coordinate.
  eapply orel_bind; [apply (nc_sub _ _ HR _ _ _ _ Hh Hl)|]. intros r r' Hr.
  eapply orel_bind; [apply (nc_sub _ _ HR _ _ _ _ Hx Hl)|]. intros d d' Hd.
  eapply orel_bind; [apply (nc_rem _ _ HR _ _ _ _ Hd Hr)|]. intros m m' Hm.
  eapply orel_bind.
  - rewrite (cmp_lt _ _ _ _ Hm (nc_refl _ _ HR n_zero)). destruct (lt_ m' n_zero); [apply (nc_add _ _ HR _ _ _ _ Hr Hm)|exact Hm].
  - intros z z' Hz. apply (nc_add _ _ HR _ _ _ _ Hz Hl).
Qed.

Lemma ucindex_congr (a b : UniformCyclic T) x : urel (unf_axis (uc_axis a)) (unf_axis (uc_axis b)) ->
  uniformcyclic_index ops a x = uniformcyclic_index ops b x.
Proof.
  intros H. apply orel_eq. unfold uniformcyclic_index.
  eapply orel_bind; [apply (wrap_congr _ _ _ _ _ _ (ur_low _ _ H) (ur_high _ _ H) (nc_refl _ _ HR x))|].
  intros y y' Hy. apply orel_eq. apply unfindex_congr; assumption.
Qed.

(** *** Variable axes *)
Context (search : searcher).
(** The search only looks at the outcome of the comparisons. *)
Definition search_extensional : Prop :=
  forall X Y (l : list X) (l' : list Y) f f', map f l = map f' l' -> search X l f = search Y l' f'.
Hypothesis HS : search_extensional.

Lemma vrel_eqb (a b : Variable_ T) : variable_eqb (H0 := num_ord) a b = true -> Forall2 R (v_edges a) (v_edges b).
Proof.
  unfold variable_eqb. generalize (v_edges a) (v_edges b). intros l.
  induction l as [|x l IH]; intros [|y l']; cbn; try discriminate; [constructor|].
  intros H. apply andb_true_iff in H as [Hx Hl]. constructor; [apply (nc_eq _ _ HR), Hx | apply IH, Hl].
Qed.

Lemma vindex_congr (a b : Variable_ T) x x' : Forall2 R (v_edges a) (v_edges b) -> R x x' ->
  variable_index (H0 := num_ord) search a x = variable_index (H0 := num_ord) search b x'.
Proof.
  intros H Hx. unfold variable_index.
  rewrite (HS T T (v_edges a) (v_edges b) (probe_cmp x) (probe_cmp x')); [reflexivity|].
  induction H as [|e e' l l' He Hl IH]; [reflexivity|]. cbn. rewrite IH.
  unfold probe_cmp at 1 3. rewrite (nc_cmp _ _ HR e e' x x' He Hx). reflexivity.
Qed.

Lemma forall2_nth (l l' : list T) k : Forall2 R l l' -> optrel R (nth_error l k) (nth_error l' k).
Proof.
  intros H. revert k. induction H as [|x y l l' Hx Hl IH]; intros [|k]; cbn; auto.
Qed.
Lemma forall2_expect (l l' : list T) k : Forall2 R l l' ->
  orel R (expect (nth_error l k)) (expect (nth_error l' k)).
Proof. intros H. pose proof (forall2_nth _ _ k H) as Hk. destruct (nth_error l k), (nth_error l' k); cbn in *; auto. Qed.
Lemma forall2_rev (l l' : list T) : Forall2 R l l' -> Forall2 R (rev l) (rev l').
Proof. intros H. induction H; cbn; [constructor|]. apply Forall2_app; [assumption | repeat constructor; assumption]. Qed.

Lemma vlow_congr (a b : Variable_ T) : Forall2 R (v_edges a) (v_edges b) -> orel R (variable_low a) (variable_low b).
Proof. intros H. apply forall2_expect, H. Qed.
Lemma vhigh_congr (a b : Variable_ T) : Forall2 R (v_edges a) (v_edges b) -> orel R (variable_high a) (variable_high b).
Proof. intros H. apply forall2_expect, forall2_rev, H. Qed.

Lemma vbin_congr (a b : Variable_ T) i : Forall2 R (v_edges a) (v_edges b) ->
  orel (optrel ivrel) (variable_bin a i) (variable_bin b i).
Proof.
  intros H. unfold variable_bin. rewrite (forall2_length _ _ _ H).
  destruct (i =? 0); [eapply orel_bind; [apply vlow_congr, H|]; intros e e' He; exact He|].
  destruct (i =? _); [eapply orel_bind; [apply vhigh_congr, H|]; intros e e' He; exact He|].
  destruct (i <? _); [|exact I]. destruct (usub i 1) as [i1|]; cbn [obind]; [|exact I].
  eapply orel_bind; [apply forall2_expect, H|]. intros s s' Hs.
  eapply orel_bind; [apply forall2_expect, H|]. intros e e' He. exact (conj Hs He).
Qed.

Lemma vnfindex_congr (a b : VariableNoFlow T) x x' : Forall2 R (v_edges (vnf_axis a)) (v_edges (vnf_axis b)) -> R x x' ->
  variablenoflow_index (H0 := num_ord) search a x = variablenoflow_index (H0 := num_ord) search b x'.
Proof.
  intros H Hx. unfold variablenoflow_index. rewrite (vindex_congr _ _ _ _ H Hx).
  unfold variable_num_bins. rewrite (forall2_length _ _ _ H). reflexivity.
Qed.
Lemma vbins_congr (a b : Variable_ T) : Forall2 R (v_edges a) (v_edges b) -> variable_num_bins a = variable_num_bins b.
Proof. intros H. unfold variable_num_bins. rewrite (forall2_length _ _ _ H). reflexivity. Qed.
Lemma vnfbin_congr (a b : VariableNoFlow T) i : Forall2 R (v_edges (vnf_axis a)) (v_edges (vnf_axis b)) ->
  orel (optrel ivrel) (variablenoflow_bin a i) (variablenoflow_bin b i).
Proof.
  intros H. unfold variablenoflow_bin. destruct (uadd i 1) as [i1|]; cbn [obind]; [|exact I].
  apply noflow_filter, vbin_congr, H.
Qed.
Lemma vcindex_congr (a b : VariableCyclic T) x :
  Forall2 R (v_edges (vnf_axis (vc_axis a))) (v_edges (vnf_axis (vc_axis b))) ->
  variablecyclic_index search ops a x = variablecyclic_index search ops b x.
Proof.
  intros H. apply orel_eq. unfold variablecyclic_index.
  eapply orel_bind; [apply vhigh_congr, H|]. intros h h' Hh.
  eapply orel_bind; [apply vlow_congr, H|]. intros l l' Hl.
  eapply orel_bind; [apply (wrap_congr _ _ _ _ _ _ Hl Hh (nc_refl _ _ HR x))|].
  intros y y' Hy. apply orel_eq, vnfindex_congr; assumption.
Qed.
End Generic.

(** ** Integers *)
Lemma int_congr {B : Build} t : num_congr (int_ops t) eq.
Proof.
  assert (Hr : forall o : outcome Z, orel eq o o) by (intros o; apply orel_eq; reflexivity).
  constructor; try (intros; subst; auto; fail).
  - intros a b H. unfold eq_ in H. cbn in H. apply Z.compare_eq. destruct (a ?= b)%Z; congruence.
  - intros a a' b b' -> ->. cbn. destruct (int_div t a' b'); reflexivity.
Qed.

(** ** Floats: equal, or zeros of either sign *)
Section Float.
Context (prec emax : Z) (P : Prec_gt_0 prec) (E : Prec_lt_emax prec emax).
Notation flt := (binary_float prec emax).
Definition zero_eq (x y : flt) : Prop :=
  x = y \/ exists s s', x = B754_zero s /\ y = B754_zero s'.

Lemma zero_eq_compare (x y : flt) : Bcompare x y = Some Eq -> zero_eq x y.
Proof.
  intros H. destruct x as [s|s| |s m e Hb], y as [s'|s'| |s' m' e' Hb']; cbn in H; try discriminate;
    try (destruct s; discriminate); try (destruct s'; discriminate).
  - right. eauto.
  - left. destruct s, s'; try discriminate; reflexivity.
  - left. assert (Hsm : s = s' /\ m = m' /\ e = e').
    {
      destruct s, s'; try discriminate; destruct (Z.compare_spec e e') as [He|He|He]; try discriminate; subst;
      injection H as H.
      - change (CompOpp (Pos.compare m m') = Eq) in H.
        destruct (Pos.compare_spec m m'); try discriminate; subst; auto.
      - change (Pos.compare m m' = Eq) in H.
        destruct (Pos.compare_spec m m'); try discriminate; subst; auto. }
    destruct Hsm as [-> [-> ->]]. f_equal. apply Eqdep_dec.UIP_dec, bool_dec.
Qed.

Lemma zero_eq_cmp a a' b b' : zero_eq a a' -> zero_eq b b' -> Bcompare a b = Bcompare a' b'.
Proof.
  intros [->|[s [s' [-> ->]]]] [->|[t [t' [-> ->]]]]; try reflexivity; destruct a' as [| | |[]] || destruct b' as [| | |[]]; reflexivity.
Qed.

Definition zero_congr2 (f : flt -> flt -> flt) : Prop :=
  forall a a' b b', zero_eq a a' -> zero_eq b b' -> zero_eq (f a b) (f a' b').

Lemma plus_congr : zero_congr2 (Bplus mode_NE).
Proof.
  intros a a' b b' [->|[s [s' [-> ->]]]] [->|[t [t' [-> ->]]]].
  - left. reflexivity.
  - destruct a' as [s|s| |s m e H]; try (left; reflexivity). right. cbn. destruct s, t, t'; cbn; eauto.
  - destruct b' as [t|t| |t m e H]; try (left; reflexivity). right. cbn. destruct s, s', t; cbn; eauto.
  - right. cbn. destruct s, s', t, t'; cbn; eauto.
Qed.
Lemma minus_congr : zero_congr2 (Bminus mode_NE).
Proof.
  intros a a' b b' [->|[s [s' [-> ->]]]] [->|[t [t' [-> ->]]]].
  - left. reflexivity.
  - destruct a' as [s|s| |s m e H]; try (left; reflexivity). right. cbn. destruct s, t, t'; cbn; eauto.
  - destruct b' as [t|t| |t m e H]; try (left; reflexivity). right. cbn. destruct s, s', t; cbn; eauto.
  - right. cbn. destruct s, s', t, t'; cbn; eauto.
Qed.
Lemma mult_congr : zero_congr2 (Bmult mode_NE).
Proof.
  intros a a' b b' [->|[s [s' [-> ->]]]] [->|[t [t' [-> ->]]]].
  - left. reflexivity.
  - destruct a' as [s|s| |s m e H]; try (left; reflexivity); right; cbn; eauto.
  - destruct b' as [t|t| |t m e H]; try (left; reflexivity); right; cbn; eauto.
  - right. cbn. eauto.
Qed.
Lemma fmod_congr : zero_congr2 (Bfmod prec emax P E).
Proof.
  intros a a' b b' [->|[s [s' [-> ->]]]] [->|[t [t' [-> ->]]]].
  - left. reflexivity.
  - destruct a' as [s|s| |s m e H]; left; reflexivity.
  - destruct b' as [t|t| |t m e H]; try (left; reflexivity); right; cbn; eauto.
  - left. reflexivity.
Qed.
Lemma div_congr a a' n : zero_eq a a' -> zero_eq (Bdiv mode_NE a n) (Bdiv mode_NE a' n).
Proof.
  intros [->|[s [s' [-> ->]]]]; [left; reflexivity|].
  destruct n as [t|t| |t m e H]; try (left; reflexivity); right; cbn; eauto.
Qed.
Lemma div_usize_congr {Bd : Build} a a' b b' : zero_eq a a' -> zero_eq b b' ->
  float_to_usize prec emax P E (Bdiv mode_NE a b) = float_to_usize prec emax P E (Bdiv mode_NE a' b').
Proof.
  assert (Hz : forall x x' : flt, zero_eq x x' -> float_to_usize prec emax P E x = float_to_usize prec emax P E x').
  { intros x x' [->|[s [s' [-> ->]]]]; [reflexivity|]. unfold float_to_usize.
    assert (H1 : forall y : flt, Bltb y (B754_zero s) = Bltb y (B754_zero s')) by (intros []; reflexivity).
    assert (H2 : forall y : flt, Bltb (B754_zero s) y = Bltb (B754_zero s') y) by (intros []; reflexivity).
    rewrite H1, H2. reflexivity. }
  assert (Hi : forall s, float_to_usize prec emax P E (B754_infinity s) = None).
  { intros s. unfold float_to_usize.
    destruct s.
    - assert (H1 : forall y : flt, Bltb y (B754_infinity true) = false) by (intros [[]|[]| |[]]; reflexivity).
      rewrite H1. reflexivity.
    - assert (H1 : forall y : flt, Bltb (B754_infinity false) y = false) by (intros [[]|[]| |[]]; reflexivity).
      rewrite H1, andb_false_r. reflexivity. }
  intros Ha [->|[t [t' [-> ->]]]]; [apply Hz, div_congr, Ha|].
  rewrite (Hz _ _ (div_congr _ _ (B754_zero t) Ha)).
  destruct a' as [s|s| |s m e H]; try reflexivity; cbn [Bdiv]; rewrite !Hi; reflexivity.
Qed.

Lemma float_congr {Bd : Build} : num_congr (float_ops prec emax P E) zero_eq.
Proof.
  constructor.
  - intros a. left. reflexivity.
  - intros a b H. apply zero_eq_compare. unfold eq_ in H. cbn in H. destruct (Bcompare a b) as [[]|]; congruence.
  - apply zero_eq_cmp.
  - apply plus_congr.
  - apply minus_congr.
  - apply mult_congr.
  - apply fmod_congr.
  - intros a a' n Ha. apply (div_congr a a' n Ha).
  - intros a a' b b' Ha Hb. apply (div_usize_congr a a' b b' Ha Hb).
Qed.

Lemma zero_eq_same (x y : flt) : zero_eq x y -> x = y \/ Bcompare x y = Some Eq.
Proof. intros [->|[s [s' [-> ->]]]]; [left | right]; reflexivity. Qed.
End Float.
