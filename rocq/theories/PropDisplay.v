(** * Property theorems: text output (C49). *)
From Coq Require Import List NArith ZArith Bool Lia Reals Lra String Ascii ZifyN ZifyNat.
From Flocq Require Import Core IEEE754.BinarySingleNaN.
From Verif Require Import Base BaseFacts Num Axis AxesSpec Value VecHist HistFacts Float FloatFacts FloatOrd FloatSpec
  Display DisplayFacts.
Import ListNotations.
Open Scope list_scope.
Open Scope N_scope.

(** ** Vocabulary *)

(** The f64 values of the bins that are displayed: the first 50. *)
Definition shown_values {A V} (to_f64 : V -> f64) (h : VecHistogram A V) : list f64 :=
  map to_f64 (firstn 50 (vec_values h)).

(** The ordinary content of a histogram: no NaN, and either something positive
    or nothing negative. *)
Definition zero64 : f64 := B754_zero false.
Definition ordinary (vs : list f64) : Prop :=
  (forall v, In v vs -> is_nan v = false)
  /\ ((exists v, In v vs /\ flt_lt zero64 v) \/ (forall v, In v vs -> flt_le zero64 v)).

(** [m] is a largest element of [vs]. *)
Definition largest (vs : list f64) (m : f64) : Prop := In m vs /\ forall v, In v vs -> flt_le v m.

(** [bars] are proportional to [vs] on the scale "largest = 50". *)
Record proportional_bars (vs : list f64) (bars : list nat) : Prop := {
  pb_length : List.length bars = List.length vs;
  (* at most 50 characters *)
  pb_max : forall b, In b bars -> (b <= 50)%nat;
  (* larger values have longer bars *)
  pb_monotone : forall j k vj vk bj bk,
    nth_error vs j = Some vj -> nth_error vs k = Some vk ->
    nth_error bars j = Some bj -> nth_error bars k = Some bk ->
    flt_le vj vk -> (bj <= bk)%nat;
  (* values that are not positive have no bar *)
  pb_nonpositive : forall k v b, nth_error vs k = Some v -> nth_error bars k = Some b ->
    ~ flt_lt zero64 v -> b = 0%nat;
  (* a finite positive largest value has a bar of 50 *)
  pb_largest : forall k m b, nth_error vs k = Some m -> nth_error bars k = Some b ->
    largest vs m -> is_finite m = true -> flt_lt zero64 m -> b = 50%nat;
  (* otherwise the length is 50 * v / largest, rounded down, up to 2^-40 *)
  pb_scale : forall k v m b, nth_error vs k = Some v -> nth_error bars k = Some b ->
    largest vs m -> is_finite m = true -> flt_lt zero64 v ->
    (50 * (B2R v / B2R m) - 1 - bpow radix2 (-40) < INR b <= 50 * (B2R v / B2R m) + bpow radix2 (-40))%R;
  (* an infinite value leaves every bar empty *)
  pb_infinite : In (B754_infinity false) vs -> forall b, In b bars -> b = 0%nat
}.

(** ** Lemmas *)
Lemma fle_flt (x y : f64) : fle x y <-> flt_le x y.
Proof. unfold fle, flt_le, flt_lt, flt_eq. tauto. Qed.

Lemma cmp_zero_finite (x : f64) : is_finite x = true ->
  (flt_lt zero64 x <-> (0 < B2R x)%R) /\ (flt_le zero64 x <-> (0 <= B2R x)%R).
Proof.
  intros F. unfold flt_le, flt_lt, flt_eq, zero64. rewrite Bcompare_correct by (exact F || reflexivity).
  change (B2R (B754_zero false)) with 0%R.
  destruct (Rcompare_spec 0 (B2R x)) as [Hc|Hc|Hc]; split; split; intros Hx; try lra; try discriminate;
    try (destruct Hx as [Hx|Hx]; discriminate); try reflexivity; try (left; reflexivity); try (right; reflexivity).
Qed.

Lemma cmp_finite (x y : f64) : is_finite x = true -> is_finite y = true -> (flt_le x y <-> (B2R x <= B2R y)%R).
Proof.
  intros F G. unfold flt_le, flt_lt, flt_eq. rewrite Bcompare_correct by assumption.
  destruct (Rcompare_spec (B2R x) (B2R y)) as [Hc|Hc|Hc]; split; intros Hx; try lra; try discriminate;
    try (destruct Hx as [Hx|Hx]; discriminate); try (left; reflexivity); try (right; reflexivity).
Qed.

Lemma lt_zero_le_false (v : f64) : is_nan v = false -> ~ flt_lt zero64 v -> v = zero64 \/ Bsign v = true.
Proof.
  intros Hn Hlt. unfold f64, zero64, flt_lt in *. destruct v as [[]|[]| |[] m e H]; try (right; reflexivity); try discriminate.
  - left. reflexivity.
  - exfalso. apply Hlt. reflexivity.
  - exfalso. apply Hlt. reflexivity.
Qed.

Lemma lt_zero_sign (v : f64) : flt_lt zero64 v -> Bsign v = false /\ v <> zero64 /\ is_nan v = false.
Proof.
  unfold f64, zero64, flt_lt. intros H. destruct v as [[]|[]| |[] m e Hb]; cbn in H; try discriminate;
    (split; [reflexivity|]); (split; [discriminate | reflexivity]).
Qed.

Lemma zero_div {Bd : Build} (m : f64) : Bsign m = false -> bar_length zero64 m = 0.
Proof.
  unfold f64, zero64 in *. intros Hs. destruct m as [[]|[]| |[] mm e H]; try discriminate; try reflexivity;
    destruct Bd as [? []]; vm_compute; reflexivity.
Qed.

Lemma nan_of_zeros {Bd : Build} (v m : f64) : B2R v = 0%R -> is_finite v = true -> B2R m = 0%R -> is_finite m = true -> bar_length v m = 0.
Proof.
  unfold f64. intros Hv Fv Hm Fm. apply bar_nan_quotient.
  destruct v as [sv| | |sv mv ev Hbv]; try discriminate.
  - destruct m as [sm| | |sm mm em Hbm]; try discriminate; [reflexivity|].
    exfalso. cbn in Hm. revert Hm. apply F2R_neq_0. cbn. destruct sm; discriminate.
  - exfalso. cbn in Hv. revert Hv. apply F2R_neq_0. cbn. destruct sv; discriminate.
Qed.

Lemma flt_lt_le_trans {Bd : Build} (x y z : f64) : flt_lt x y -> flt_le y z -> flt_lt x z.
Proof.
  intros H1 H2. pose proof (OrdLaws.law_trans _ _ f64_ord_laws) as T.
  assert (Hxz : fle x z). { apply fle_trans with y; [left; exact H1 | apply fle_flt; exact H2]. }
  destruct Hxz as [Hxz|Hxz]; [exact Hxz|]. exfalso.
  assert (Hzx : fle z x). { right. rewrite Bcompare_swap, Hxz. reflexivity. }
  assert (Hyx : fle y x). { apply fle_trans with z; [apply fle_flt; exact H2 | exact Hzx]. }
  unfold flt_lt in H1. rewrite Bcompare_swap in H1. destruct Hyx as [Hyx|Hyx]; rewrite Hyx in H1; discriminate.
Qed.

(** The bars of an ordinary list against its maximum. *)
Lemma ordinary_cases {Bd : Build} vs m : ordinary vs -> largest vs m ->
  (flt_lt zero64 m) \/ (forall v, In v vs -> is_finite v = true /\ B2R v = 0%R).
Proof.
  intros [Hn [[v [Hv Hp]]|Hall]] [Hm Hmax].
  - left. apply flt_lt_le_trans with v; [exact Hp | apply Hmax; exact Hv].
  - destruct (Hall m Hm) as [Hlt|Heq]; [left; exact Hlt|]. right. intros v Hv.
    pose proof (Hall v Hv) as H1. pose proof (Hmax v Hv) as H2. clear - Heq H1 H2.
    unfold f64, flt_le, flt_lt, flt_eq, zero64 in *.
    destruct m as [sm|[]| |[] mm em Hm]; try discriminate.
    destruct v as [sv|[]| |[] mv ev Hv]; cbn in H1, H2; try (destruct H1; discriminate); try (destruct H2; discriminate).
    split; reflexivity.
Qed.

Lemma max_is_finite_or_inf (m : f64) : flt_lt zero64 m ->
  m = B754_infinity false \/ (is_finite m = true /\ (0 < B2R m)%R).
Proof.
  intros H. destruct (is_finite m) eqn:F.
  - right. split; [reflexivity|]. now apply cmp_zero_finite.
  - left. unfold f64, flt_lt, zero64 in *. destruct m as [|[]| |]; try discriminate. reflexivity.
Qed.

Lemma bar_inf {Bd : Build} (v : f64) : is_nan v = false -> bar_length v (B754_infinity false) = 0.
Proof.
  intros Hn. destruct (Bsign v) eqn:S; [apply bar_negative; [exact S | reflexivity]|].
  unfold f64 in *. destruct v as [[]|[]| |[] mv ev Hv]; try discriminate; try reflexivity; destruct Bd as [? []]; vm_compute; reflexivity.
Qed.

Lemma le_largest_finite (v m : f64) : is_nan v = false -> Bsign v = false -> is_finite m = true -> flt_le v m -> is_finite v = true.
Proof.
  unfold f64, flt_le, flt_lt, flt_eq. intros Hn Hs Fm Hle.
  destruct v as [sv|sv| |sv mv ev Hv]; try reflexivity; [|discriminate]. cbn in Hs. subst sv.
  destruct m as [sm|sm| |sm mm em Hm]; try discriminate; cbn in Hle; destruct Hle; discriminate.
Qed.

Lemma bars_of_ordinary {Bd : Build} vs m : ordinary vs -> largest vs m ->
  proportional_bars vs (map (fun v => N.to_nat (bar_length v m)) vs).
Proof.
  intros Ho Hl. pose proof Ho as [Hn _]. pose proof Hl as [Hm Hmax].
  assert (Hbar : forall v, In v vs -> flt_lt zero64 v -> is_finite m = true ->
    is_finite v = true /\ (0 < B2R v <= B2R m)%R /\
    bar_length v m = Z.to_N (Zfloor (bar_real (B2R v) (B2R m))) /\ (0 <= Zfloor (bar_real (B2R v) (B2R m)) <= 50)%Z).
  { intros v Hv Hp Fm. destruct (lt_zero_sign v Hp) as [Sv [_ Nv]].
    pose proof (le_largest_finite v m Nv Sv Fm (Hmax v Hv)) as Fv.
    assert (H0 : (0 < B2R v)%R) by (apply cmp_zero_finite; assumption).
    assert (H1 : (B2R v <= B2R m)%R) by (apply cmp_finite; auto).
    split; [exact Fv|]. split; [lra|]. apply bar_finite; auto; lra. }
  assert (Hzero : forall v, In v vs -> ~ flt_lt zero64 v -> bar_length v m = 0).
  { intros v Hv Hnp. destruct (ordinary_cases vs m Ho Hl) as [Hpos|Hz].
    - destruct (lt_zero_sign m Hpos) as [Sm _].
      destruct (lt_zero_le_false v (Hn v Hv) Hnp) as [-> | Sv]; [apply zero_div; exact Sm | apply bar_negative; assumption].
    - destruct (Hz v Hv), (Hz m Hm). apply nan_of_zeros; assumption. }
  assert (Hinf : m = B754_infinity false -> forall v, In v vs -> bar_length v m = 0).
  { intros -> v Hv. apply bar_inf. apply Hn. exact Hv. }
  assert (Hpm : forall v, In v vs -> flt_lt zero64 v -> m = B754_infinity false \/ is_finite m = true).
  { intros v Hv Hp. destruct (max_is_finite_or_inf m) as [->|[F _]]; auto.
    apply flt_lt_le_trans with v; [exact Hp | apply Hmax; exact Hv]. }
  assert (Hdec : forall v, flt_lt zero64 v \/ ~ flt_lt zero64 v).
  { intros v. unfold flt_lt. destruct (Bcompare zero64 v) as [[]|]; (left; reflexivity) || (right; discriminate). }
  assert (Hnth : forall k v b, nth_error vs k = Some v ->
     nth_error (map (fun v => N.to_nat (bar_length v m)) vs) k = Some b -> In v vs /\ b = N.to_nat (bar_length v m)).
  { intros k v b Hk Hb. rewrite nth_error_map, Hk in Hb. injection Hb as <-. split; [eapply nth_error_In; eauto | reflexivity]. }
  constructor.
  - apply map_length.
  - intros b Hb. apply in_map_iff in Hb as [v [<- Hv]].
    destruct (Hdec v) as [Hp|Hp]; [|rewrite (Hzero v Hv Hp); lia].
    destruct (Hpm v Hv Hp) as [Hi|Fm]; [rewrite (Hinf Hi v Hv); lia|].
    destruct (Hbar v Hv Hp Fm) as [_ [_ [-> Hz]]]. lia.
  - intros j k vj vk bj bk Ej Ek Bj Bk Hle. destruct (Hnth _ _ _ Ej Bj) as [Hj ->]. destruct (Hnth _ _ _ Ek Bk) as [Hk ->].
    destruct (Hdec vj) as [Hp|Hp]; [|rewrite (Hzero vj Hj Hp); lia].
    assert (Hpk : flt_lt zero64 vk) by (apply flt_lt_le_trans with vj; assumption).
    destruct (Hpm vj Hj Hp) as [Hi|Fm]; [rewrite (Hinf Hi vj Hj); lia|].
    destruct (Hbar vj Hj Hp Fm) as [Fj [Hrj [-> Hzj]]]. destruct (Hbar vk Hk Hpk Fm) as [Fk [Hrk [-> Hzk]]].
    apply cmp_finite in Hle; [|assumption|assumption].
    pose proof (bar_monotone (B2R vj) (B2R vk) (B2R m) ltac:(lra) Hle ltac:(lra) ltac:(lra)). lia.
  - intros k v b Ek Bk Hnp. destruct (Hnth _ _ _ Ek Bk) as [Hk ->]. rewrite (Hzero v Hk Hnp). reflexivity.
  - intros k m' b Ek Bk Hl' Fm' Hp. destruct (Hnth _ _ _ Ek Bk) as [Hk ->].
    pose proof Hl' as [Hm' Hmax'].
    assert (Fm : is_finite m = true).
    { destruct (Hpm m' Hk Hp) as [->|F]; [|exact F]. exfalso. specialize (Hmax' _ Hm).
      clear - Hmax' Fm'. unfold f64, flt_le, flt_lt, flt_eq in *. destruct m' as [sm|sm| |sm mm em Hb]; try discriminate; cbn in Hmax'; destruct Hmax'; discriminate. }
    destruct (Hbar m' Hk Hp Fm) as [F [Hr [-> _]]].
    assert (E : B2R m' = B2R m).
    { apply Rle_antisym; [apply Hr|]. apply (cmp_finite m m' Fm F). apply Hmax'. exact Hm. }
    rewrite E, bar_full by lra. rewrite Zfloor_IZR. reflexivity.
  - intros k v m' b Ek Bk Hl' Fm' Hp. destruct (Hnth _ _ _ Ek Bk) as [Hk ->]. pose proof Hl' as [Hm' Hmax'].
    assert (Fm : is_finite m = true).
    { destruct (Hpm v Hk Hp) as [->|F]; [|exact F]. exfalso. specialize (Hmax' _ Hm).
      clear - Hmax' Fm'. unfold f64, flt_le, flt_lt, flt_eq in *. destruct m' as [sm|sm| |sm mm em Hb]; try discriminate; cbn in Hmax'; destruct Hmax'; discriminate. }
    assert (E : B2R m' = B2R m).
    { apply Rle_antisym.
      - apply (cmp_finite m' m Fm' Fm). apply Hmax. exact Hm'.
      - apply (cmp_finite m m' Fm Fm'). apply Hmax'. exact Hm. }
    rewrite E. destruct (Hbar v Hk Hp Fm) as [F [Hr [-> Hz]]].
    pose proof (bar_accurate (B2R v) (B2R m) ltac:(lra) ltac:(lra)) as Hacc. apply Rabs_le_inv in Hacc.
    pose proof (Zfloor_lb (bar_real (B2R v) (B2R m))) as L1. pose proof (Zfloor_ub (bar_real (B2R v) (B2R m))) as L2.
    rewrite INR_IZR_INZ. rewrite Z_N_nat, Z2Nat.id by lia. lra.
  - intros Hin b Hb. apply in_map_iff in Hb as [v [<- Hv]].
    assert (Hi : m = B754_infinity false).
    { specialize (Hmax _ Hin). unfold f64, flt_le, flt_lt, flt_eq in *.
      destruct m as [sm|[]| |sm mm em Hb]; cbn in Hmax; try (destruct Hmax; discriminate). reflexivity. }
    rewrite (Hinf Hi v Hv). reflexivity.
Qed.

(** ** The first 50 items *)
Lemma vec_iter_take_spec {A V} {AX : Axis A} (h : VecHistogram A V) n k :
  has_bins AX (vh_axes h) n -> List.length (vec_values h) = N.to_nat n ->
  exists items, vec_iter_take h k = Val items
    /\ map it_value items = firstn k (vec_values h)
    /\ forall j it, nth_error items j = Some it -> bin (vh_axes h) (N.of_nat j) = Val (Some (it_bin it)).
Proof.
  intros Hb Hl. destruct (vec_iter_spec h n Hb Hl) as [items [_ [E1 [E2 E3]]]].
  exists (firstn k items). split; [|split].
  - unfold vec_iter_take, indices. destruct Hb as [-> _]. cbn [obind]. rewrite <- E1, firstn_map.
    apply Forall2_mapo. assert (Hin : forall it, In it (firstn k items) -> In it items).
    { intros it Hit. rewrite <- (firstn_skipn k items). apply in_or_app. left. exact Hit. }
    induction (firstn k items) as [|it l IH]; cbn [map]; constructor.
    + destruct (E3 it (Hin it (or_introl eq_refl))) as [B1 B2]. rewrite B1. cbn [obind expect]. rewrite B2. cbn [obind expect].
      destruct it; reflexivity.
    + apply IH. intros x Hx. apply Hin. right. exact Hx.
  - rewrite <- firstn_map, E2. reflexivity.
  - intros j it Hj.
    assert (Hj' : nth_error items j = Some it).
    { clear - Hj. revert k j Hj. induction items as [|x l IH]; intros [|k] [|j] Hj; cbn in *; try discriminate; auto. eapply IH; eauto. }
    assert (Hidx : it_index it = N.of_nat j).
    { pose proof (nth_error_some_lt _ _ _ Hj') as Hlt.
      assert (HH : nth_error (map it_index items) j = Some (it_index it)) by (rewrite nth_error_map, Hj'; reflexivity).
      rewrite E1 in HH. rewrite <- (Nat2N.id j) in HH. rewrite range_nth in HH.
      - injection HH as HH. symmetry. exact HH.
      - rewrite <- (map_length it_index), E1, range_length in Hlt. lia. }
    rewrite <- Hidx. apply E3. eapply nth_error_In; eauto.
Qed.

Lemma filter_all {X} (f : X -> bool) l : (forall x, f x = true) -> filter f l = l.
Proof. intros H. induction l as [|x l IH]; cbn; [reflexivity|]. rewrite H, IH. reflexivity. Qed.

Lemma combine_snd {X} (l : list X) k : map snd (combine (seq k (List.length l)) l) = l.
Proof. revert k. induction l as [|x l IH]; intros k; cbn; [reflexivity|]. rewrite IH. reflexivity. Qed.

(** The scale and the rows. *)
Definition scale_of (vs : list f64) : f64 :=
  match max_by cmp_or_less vs with Some m => m | None => B754_infinity false end.

Lemma max_by_map {B} (f : B -> f64) (l : list B) :
  match max_by (fun x y => cmp_or_less (f x) (f y)) l with Some b => f b | None => B754_infinity false end
  = scale_of (map f l).
Proof.
  unfold scale_of. destruct l as [|x l]; cbn; [reflexivity|]. revert x.
  induction l as [|y l IH]; intros x; cbn; [reflexivity|]. destruct (cmp_or_less (f x) (f y)); apply IH.
Qed.

(** What is displayed, for any content: the header and one row per displayed
    bin, unless a bar is too long. *)
Lemma vec_display_rows {Bd : Build} {A V} {AX : Axis A} (to_f64 : V -> f64) fmt_f64 fmt_bin accepts precision (h : VecHistogram A V) n :
  has_bins AX (vh_axes h) n -> N.of_nat (List.length (vec_values h)) = n -> accepts 0%nat = true ->
  let vs := shown_values to_f64 h in
  (forall v, In v vs -> bar_length v (scale_of vs) < usize_mod / 2) ->
  exists labels : list Interval,
    List.length labels = List.length vs
    /\ (forall k b, nth_error labels k = Some b -> bin (vh_axes h) (N.of_nat k) = Val (Some b))
    /\ let rows := map (fun lv => row_text (fmt_bin (Some (match precision with Some p => p | None => 2 end)) (fst lv))
                                   (hashes (N.to_nat (bar_length (snd lv) (scale_of vs))))) (combine labels vs) in
       vec_display to_f64 fmt_f64 fmt_bin accepts precision h =
       Val (header_text fmt_f64 "VecHistogram" (num_dim (vh_axes h)) n (sum_f64 (map to_f64 (vec_values h)))
            :: map snd (filter (fun kr => accepts (S (fst kr))) (combine (seq 0 (List.length rows)) rows)), true).
Proof.
  intros Hb Hl Ha vs Hbars. destruct (vec_iter_take_spec h n 50 Hb ltac:(lia)) as [items [E1 [E2 E3]]].
  assert (Hvs : vs = map (fun it => to_f64 (it_value it)) items).
  { unfold vs, shown_values. rewrite <- E2, map_map. reflexivity. }
  exists (map it_bin items). split; [rewrite Hvs, !map_length; reflexivity|]. split.
  { intros k b Hk. rewrite nth_error_map in Hk. destruct (nth_error items k) as [it|] eqn:Ek; [|discriminate].
    injection Hk as <-. apply E3. exact Ek. }
  cbv zeta. unfold vec_display. destruct Hb as [-> _]. cbn [obind]. rewrite Ha, E1. cbn [negb obind].
  assert (Hsc : match max_by (fun l r : Interval * f64 => cmp_or_less (snd l) (snd r))
        (map (fun it : Item Interval V => (it_bin it, to_f64 (it_value it))) items) with
      | Some it => snd it | None => B754_infinity false end = scale_of vs).
  { rewrite (max_by_map snd). rewrite map_map. cbn [snd]. rewrite Hvs. reflexivity. }
  rewrite Hsc.
  rewrite (mapo_val _ (fun bv => row_text (fmt_bin (Some (match precision with Some p => p | None => 2 end)) (fst bv))
                                   (hashes (N.to_nat (bar_length (snd bv) (scale_of vs)))))).
  - cbn [obind].
    assert (Hcomb : combine (map it_bin items) vs = map (fun it => (it_bin it, to_f64 (it_value it))) items).
    { rewrite Hvs. clear. induction items as [|x l IH]; cbn; [reflexivity|]. rewrite IH. reflexivity. }
    rewrite Hcomb. reflexivity.
  - intros bv Hin. unfold repeat_hash. fold (bar_length (snd bv) (scale_of vs)).
    assert (Hlt : bar_length (snd bv) (scale_of vs) < usize_mod / 2).
    { apply Hbars. rewrite Hvs. apply in_map_iff in Hin as [it [<- Hit]]. cbn [snd]. apply in_map_iff. exists it. auto. }
    apply N.ltb_lt in Hlt. rewrite Hlt. reflexivity.
Qed.

(** ** C49 *)
(** The displayed text of an ordinary histogram. *)
Theorem C49_vec_display :
  forall (B : Build) A V (AX : Axis A) (to_f64 : V -> f64) fmt_f64 fmt_bin precision (h : VecHistogram A V) n,
  has_bins AX (vh_axes h) n -> N.of_nat (List.length (vec_values h)) = n ->
  ordinary (shown_values to_f64 h) ->
  exists (labels : list Interval) (bars : list nat),
    vec_display to_f64 fmt_f64 fmt_bin (fun _ => true) precision h =
      Val (("VecHistogram" ++ fmt_usize (num_dim (vh_axes h)) ++ "D(" ++ fmt_usize n ++ " bins, sum="
              ++ fmt_f64 None (fold_left (fun a b => Bplus mode_NE a b) (map to_f64 (vec_values h)) zero64) ++ ")")%string
           :: map (fun lb => row_text (fmt_bin (Some (match precision with Some p => p | None => 2 end)) (fst lb))
                                      (hashes (snd lb))) (combine labels bars), true)
    /\ List.length labels = Nat.min 50 (N.to_nat n)
    /\ (forall k b, nth_error labels k = Some b -> bin (vh_axes h) (N.of_nat k) = Val (Some b))
    /\ proportional_bars (shown_values to_f64 h) bars.
Proof.
  intros B A V AX to_f64 fmt_f64 fmt_bin precision h n Hb Hl Ho. set (vs := shown_values to_f64 h) in *.
  assert (Hlen : List.length vs = Nat.min 50 (N.to_nat n)).
  { unfold vs, shown_values. rewrite map_length, firstn_length. lia. }
  assert (Hpb : proportional_bars vs (map (fun v => N.to_nat (bar_length v (scale_of vs))) vs)).
  { destruct vs as [|x l] eqn:Ev.
    - constructor; cbn; try tauto; intros; try (destruct k; discriminate); try (destruct j; discriminate); try contradiction; try tauto.
    - apply bars_of_ordinary; [exact Ho|].
      destruct (max_by_spec (fun v => v) (x :: l) ltac:(discriminate) (fun b Hb' => proj1 Ho b Hb')) as [m [Em [Hin Hmax]]].
      assert (Es : scale_of (x :: l) = m).
      { change (match max_by (fun l r : f64 => cmp_or_less l r) (x :: l) with
                | Some m => m | None => B754_infinity false end = m). cbv beta in Em. rewrite Em. reflexivity. }
      rewrite Es. split; [exact Hin|]. intros v Hv. apply fle_flt. apply Hmax. exact Hv. }
  destruct (vec_display_rows to_f64 fmt_f64 fmt_bin (fun _ => true) precision h n Hb Hl eq_refl) as [labels [L1 [L2 L3]]].
  { intros v Hv. fold vs in Hv |- *. pose proof (pb_max _ _ Hpb (N.to_nat (bar_length v (scale_of vs)))) as Hm.
    assert (HN : (N.to_nat (bar_length v (scale_of vs)) <= 50)%nat).
    { apply Hm. apply in_map_iff. exists v. auto. }
    apply N.le_lt_trans with 50; [lia | destruct B as [? []]; reflexivity]. }
  cbv zeta in L3. fold vs in L1, L3.
  exists labels, (map (fun v => N.to_nat (bar_length v (scale_of vs))) vs). split; [|split; [lia|split; [exact L2 | exact Hpb]]].
  rewrite L3. rewrite filter_all by reflexivity. rewrite combine_snd. do 3 f_equal.
  clear - L1. revert L1. generalize (scale_of vs) as s. intros s. revert labels. induction vs as [|v l IH]; intros [|b labels] L1; cbn in *; try discriminate; try reflexivity.
  rewrite IH by lia. reflexivity.
Qed.
Print Assumptions C49_vec_display.

(** Only the header's write can fail: when the sink refuses it, [fmt] returns an
    error and nothing has been written; once it is accepted, [fmt] returns [Ok]
    whatever happens to the rows, and rows the sink refuses are dropped. *)
Theorem C49_write_errors :
  forall (B : Build) A V (AX : Axis A) (to_f64 : V -> f64) fmt_f64 fmt_bin precision (h : VecHistogram A V) n accepts,
  has_bins AX (vh_axes h) n -> N.of_nat (List.length (vec_values h)) = n ->
  ordinary (shown_values to_f64 h) ->
  exists header rows,
    vec_display to_f64 fmt_f64 fmt_bin (fun _ => true) precision h = Val (header :: rows, true)
    /\ vec_display to_f64 fmt_f64 fmt_bin accepts precision h =
         if accepts 0%nat
         then Val (header :: map snd (filter (fun kr => accepts (S (fst kr))) (combine (seq 0 (List.length rows)) rows)), true)
         else Val ([], false).
Proof.
  intros B A V AX to_f64 fmt_f64 fmt_bin precision h n accepts Hb Hl Ho.
  pose proof (C49_vec_display B A V AX to_f64 fmt_f64 fmt_bin precision h n Hb Hl Ho) as [labels0 [bars [E0 _]]].
  destruct Hb as [Hnb Hbb]. 
  unfold vec_display in *. rewrite Hnb in *. cbn [obind negb] in *. 
  destruct (vec_iter_take h 50) as [items|] eqn:Ei; [|discriminate]. cbn [obind] in *.
  match type of E0 with obind ?m _ = _ => destruct m as [rows|] eqn:Er end; [|discriminate]. cbn [obind] in *.
  eexists _, rows. split.
  - rewrite filter_all by reflexivity. rewrite combine_snd. reflexivity.
  - destruct (accepts 0%nat); reflexivity.
Qed.
Print Assumptions C49_write_errors.

(** A sparse histogram prints only a header; the sum runs over the stored values
    in hash order. *)
Theorem C49_hash_display :
  forall (B : Build) A V (AX : Axis A) (to_f64 : V -> f64) fmt_f64 (axes : A) (order : list V) n accepts,
  num_bins axes = Val n ->
  hash_display to_f64 fmt_f64 accepts axes order =
    if accepts
    then Val ([("HashHistogram" ++ fmt_usize (num_dim axes) ++ "D(" ++ fmt_usize n ++ " bins, sum="
              ++ fmt_f64 None (fold_left (fun a b => Bplus mode_NE a b) (map to_f64 order) zero64) ++ ")")%string], true)
    else Val ([], false).
Proof. intros B A V AX to_f64 fmt_f64 axes order n accepts Hn. unfold hash_display. rewrite Hn. destruct accepts; reflexivity. Qed.
Print Assumptions C49_hash_display.

(** When the bins hold counts (as after [fill] on an f64 histogram) and the total
    is at most 2^53, the printed sum is exactly the total, in any order. *)
Theorem C49_sum_of_counts : forall counts : list N,
  fold_right N.add 0 counts <= 2 ^ 53 ->
  fold_left (fun a b => Bplus mode_NE a b) (map (float_of_N 53 1024 prec64 emax64) counts) zero64
  = float_of_N 53 1024 prec64 emax64 (fold_right N.add 0 counts).
Proof.
  intros counts Hc. unfold zero64. rewrite (zero_is_count 53 1024 prec64 emax64).
  assert (Hgen : forall acc, acc + fold_right N.add 0 counts <= 2 ^ 53 ->
    fold_left (fun a b => Bplus mode_NE a b) (map (float_of_N 53 1024 prec64 emax64) counts) (float_of_N 53 1024 prec64 emax64 acc)
    = float_of_N 53 1024 prec64 emax64 (acc + fold_right N.add 0 counts)).
  { clear Hc. induction counts as [|c counts IH]; intros acc Hacc; cbn [map fold_left fold_right] in *.
    - rewrite N.add_0_r. reflexivity.
    - rewrite (count_add 53 1024 prec64 emax64) by lia. rewrite IH by lia. f_equal. lia. }
  rewrite (Hgen 0) by lia. rewrite N.add_0_l. reflexivity.
Qed.
Print Assumptions C49_sum_of_counts.
