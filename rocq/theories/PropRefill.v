(** * PropRefill: filling a histogram from the items of another (C90). *)
From stdpp Require Import gmap.
From Coq Require Import ZifyBool ZifyN ZifyNat Lia Reals.
From Flocq Require Import Core IEEE754.BinarySingleNaN.
From Verif Require Import Base BaseFacts Num Uniform Axis Spec FillSpec IntFacts Axes AxesSpec AxesFacts AxesMacro Category Value VecHist HashHist
  HistSpec HistFacts HashFacts OpsFacts PropCategory PropAxes PropHist PropHistIter PropOrder PropMerge PropIntBins Macros Float FloatFacts ExactSpec PropCount
  PropProject SimSpec PropNested PropRelabel PropFloatCounts PropOpsMore PropAlgebraMore PropPar PropRebin.
Open Scope N_scope.

(** ** Specification *)

(** [hist.fill_with(&c, item.value)] where [c] is any coordinate in bin [to (item.index)]. *)
Definition refill_call {A I V W} {AX : Axis A} (a : A) (to : N -> N) (it : Item I V) (o : fill_op (AX := AX) V W) : Prop :=
  exists c, o = CallFillWith c (it_value it) /\ index a c = Val (Some (to (it_index it))).
(** One such call for every item, in any order. *)
Definition refill {A I V W} {AX : Axis A} (a : A) (to : N -> N) (items : list (Item I V)) (calls : list (fill_op (AX := AX) V W)) : Prop :=
  exists calls0, Forall2 (refill_call a to) items calls0 /\ Permutation calls0 calls.

(** ** Proofs *)
Section Refill.
Context {A I V W : Type} {AX : Axis A} {FV : Fill V} {FD : FillWith V V} {FW : FillWithWeighted V V W} {DV : Default V}.
Implicit Types (items : list (Item I V)) (calls : list (fill_op (AX := AX) V W)).

Lemma refill_lands a to (it : Item I V) (o : fill_op (AX := AX) V W) i : refill_call a to it o -> lands_in a i o = (to (it_index it) =? i).
Proof. intros (c & -> & E). unfold lands_in. cbn [op_coordinate]. rewrite E. reflexivity. Qed.

Lemma refill_reaching a to items calls i : Forall2 (refill_call a to) items calls ->
  Forall2 (refill_call a to) (List.filter (fun it => to (it_index it) =? i) items) (reaching a i calls).
Proof.
  unfold reaching. induction 1 as [|it o items calls Ho _ IH]; cbn [List.filter]; [constructor|].
  rewrite (refill_lands a to it o i Ho). destruct (to (it_index it) =? i); [constructor; assumption | exact IH].
Qed.

Lemma refill_indexed a to items calls (o : fill_op (AX := AX) V W) : refill a to items calls -> In o calls -> exists r, index a (op_coordinate o) = Val r.
Proof.
  intros (calls0 & H & HP) Hin. apply (Permutation_in _ (Permutation_sym HP)) in Hin. clear HP. induction H as [|it o' items calls0 (c & -> & E) _ IH]; [destruct Hin|].
  destruct Hin as [<-|Hin]; [eauto | exact (IH Hin)].
Qed.

(** The calls reaching a bin, when the items go back to different bins. *)
Lemma refill_one a items calls : refill a (fun i => i) items calls -> NoDup (map it_index items) ->
  (forall it, In it items -> exists c, reaching a (it_index it) calls = [CallFillWith c (it_value it)])
  /\ (forall i, ~ In i (map it_index items) -> reaching a i calls = []).
Proof.
  intros (calls0 & H & HP) Hnd.
  assert (Hf : forall i (its : list (Item I V)), NoDup (map it_index its) -> (forall it, In it its -> it_index it = i -> List.filter (fun it => it_index it =? i) its = [it])
               /\ (~ In i (map it_index its) -> List.filter (fun it => it_index it =? i) its = [])).
  { clear. intros i its. induction its as [|x its IH]; intros Hnd; [split; [intros it []|reflexivity]|].
    cbn [map] in *. apply NoDup_cons in Hnd as [Hx Hnd]. rewrite elem_of_list_In in Hx. destruct (IH Hnd) as [I1 I2]. cbn [List.filter]. split.
    - intros it [->|Hin] E.
      + rewrite E, N.eqb_refl. rewrite I2 by (rewrite <- E; exact Hx). reflexivity.
      + destruct (it_index x =? i) eqn:Ex; [|exact (I1 it Hin E)]. exfalso. apply Hx. replace (it_index x) with (it_index it) by lia. apply in_map. exact Hin.
    - intros Hn. destruct (it_index x =? i) eqn:Ex; [exfalso; apply Hn; left; lia|]. apply I2. intros Hin. apply Hn. right. exact Hin. }
  assert (Hp : forall i, Permutation (reaching a i calls0) (reaching a i calls)) by (intros i; apply reaching_perm; exact HP).
  split.
  - intros it Hin. pose proof (refill_reaching a _ items calls0 (it_index it) H) as HR. cbv beta in HR. rewrite (proj1 (Hf (it_index it) items Hnd) it Hin eq_refl) in HR.
    inversion HR as [|? o ? l (c & -> & _) Hl E1 E2]; subst. inversion Hl; subst. specialize (Hp (it_index it)). rewrite <- E2 in Hp.
    apply Permutation_length_1_inv in Hp. exists c. exact Hp.
  - intros i Hn. pose proof (refill_reaching a _ items calls0 i H) as HR. cbv beta in HR. rewrite (proj2 (Hf i items Hnd) Hn) in HR. inversion HR as [E1 E2|]. 
    specialize (Hp i). rewrite <- E2 in Hp. apply Permutation_nil in Hp. exact Hp.
Qed.

(** What the calls make of new histograms. *)
Lemma refill_dense a n g items calls : num_bins a = Val n -> vec_new a = Val g -> refill a (fun i => i) items calls -> NoDup (map it_index items) ->
  (forall it, In it items -> fill_with_v default_v (it_value it) = Val (it_value it)) ->
  exists h, vec_calls g calls = Val h /\ vh_axes h = a
  /\ (forall it, In it items -> it_index it < n -> vec_value_at_index h (it_index it) = Some (it_value it))
  /\ (forall i, i < n -> ~ In i (map it_index items) -> vec_value_at_index h i = Some default_v)
  /\ (forall i, n <= i -> vec_value_at_index h i = None).
Proof.
  intros Hn Hg HR Hnd Hz. destruct (refill_one a items calls HR Hnd) as [R1 R2].
  assert (Happ : forall it, In it items -> apply_all (V := V) (reaching a (it_index it) calls) default_v = Val (it_value it)).
  { intros it Hin. destruct (R1 it Hin) as [c ->]. unfold apply_all. cbn [foldo op_effect obind]. rewrite (Hz it Hin). reflexivity. }
  assert (Hret : exists h, vec_calls g calls = Val h).
  { apply (proj2 (C28_vec_history_returns_iff A V V W AX FV FD FW DV a n g calls Hn Hg)). split; [intros o; exact (refill_indexed a _ items calls o HR)|].
    intros i Hi. destruct (in_dec N.eq_dec i (map it_index items)) as [Hin|Hout].
    - apply in_map_iff in Hin as (it & <- & Hin). eexists. exact (Happ it Hin).
    - rewrite (R2 i Hout). eexists. reflexivity. }
  destruct Hret as [h Hh]. exists h. split; [exact Hh|].
  destruct (C28_vec_contents_are_tally A V V W AX FV FD FW DV a n g h calls Hn Hg Hh) as (Ha & Hv & Hx & _).
  split; [exact Ha|]. split; [|split; [|exact Hx]].
  - intros it Hin Hi. destruct (Hv _ Hi) as (v & Ev & Hap). rewrite (Happ it Hin) in Hap. injection Hap as <-. exact Ev.
  - intros i Hi Hout. destruct (Hv i Hi) as (v & Ev & Hap). rewrite (R2 i Hout) in Hap. injection Hap as <-. exact Ev.
Qed.

Lemma refill_sparse a items calls : refill a (fun i => i) items calls -> NoDup (map it_index items) ->
  (forall it, In it items -> fill_with_v default_v (it_value it) = Val (it_value it)) ->
  exists h, hash_calls (hash_new a) calls = Val h /\ hh_axes h = a
  /\ (forall it, In it items -> hash_value_at_index h (it_index it) = Some (it_value it))
  /\ (forall i, ~ In i (map it_index items) -> hash_value_at_index h i = None).
Proof.
  intros HR Hnd Hz. destruct (refill_one a items calls HR Hnd) as [R1 R2].
  assert (Happ : forall it, In it items -> apply_all (V := V) (reaching a (it_index it) calls) default_v = Val (it_value it)).
  { intros it Hin. destruct (R1 it Hin) as [c ->]. unfold apply_all. cbn [foldo op_effect obind]. rewrite (Hz it Hin). reflexivity. }
  assert (Hret : exists h, hash_calls (V := V) (hash_new a) calls = Val h).
  { apply (proj2 (C29_hash_history_returns_iff A V V W AX FV FD FW DV a calls)). split; [intros o; exact (refill_indexed a _ items calls o HR)|].
    intros i. destruct (in_dec N.eq_dec i (map it_index items)) as [Hin|Hout].
    - apply in_map_iff in Hin as (it & <- & Hin). eexists. exact (Happ it Hin).
    - rewrite (R2 i Hout). eexists. reflexivity. }
  destruct Hret as [h Hh]. exists h. split; [exact Hh|].
  destruct (C29_hash_contents_are_tally A V V W AX FV FD FW DV a h calls Hh) as (Ha & Hno & Hv & _).
  split; [exact Ha|]. split.
  - intros it Hin. destruct (Hv (it_index it)) as (v & Ev & Hap); [destruct (R1 it Hin) as [c ->]; discriminate|]. rewrite (Happ it Hin) in Hap. injection Hap as <-. exact Ev.
  - intros i Hout. exact (Hno i (R2 i Hout)).
Qed.
End Refill.

(** ** C90 *)

(** Fill a new histogram over the same axes with the items that iterating a histogram gives, one
    [fill_with(c, value)] for each, where [c] is any coordinate in the item's bin, in any
    order. If filling the default value with [v] gives [v] for each of the values, the result
    is the histogram itself; starting from a dense one, a sparse copy holds every bin, and starting
    from a sparse one, a dense copy holds the default in the bins that were never filled. *)
Theorem C90_refill_from_dense :
  forall A V W (AX : Axis A) (FV : Fill V) (FD : FillWith V V) (FW : FillWithWeighted V V W) (DV : Default V)
         (h : VecHistogram A V) n items (calls : list (fill_op V W)),
  has_bins AX (vh_axes h) n -> N.of_nat (length (vec_values h)) = n -> vec_iter h = Val items ->
  refill (vh_axes h) (fun i => i) items calls ->
  (forall v, In v (vec_values h) -> fill_with_v default_v v = Val v) ->
  (exists g, vec_new (vh_axes h) = Val g /\ vec_calls g calls = Val h)
  /\ (exists s, hash_calls (hash_new (vh_axes h)) calls = Val s /\ hh_axes s = vh_axes h
      /\ forall i, hash_value_at_index s i = vec_value_at_index h i).
Proof.
  intros A V W AX FV FD FW DV h n items calls HB Hlen Hit HR Hz.
  destruct (C32_vec_iter A V AX h n HB Hlen) as (items' & Hit' & Hl & Hk & Hm). rewrite Hit in Hit'. injection Hit' as <-.
  assert (Hidx : map it_index items = range n).
  { apply nth_error_ext_len; [rewrite map_length, range_length; lia|]. intros k x Hx.
    rewrite nth_error_map in Hx. destruct (nth_error items k) as [it|] eqn:E; [|discriminate]. injection Hx as <-. destruct (Hk k it E) as (-> & _).
    assert (k < length items)%nat by (apply nth_error_Some; rewrite E; discriminate).
    pose proof (range_nth n (N.of_nat k) ltac:(lia)) as R. rewrite Nat2N.id in R. exact R. }
  assert (Hnd : NoDup (map it_index items)) by (rewrite Hidx; apply NoDup_ListNoDup, range_NoDup).
  assert (Hzi : forall it, In it items -> fill_with_v default_v (it_value it) = Val (it_value it)).
  { intros it Hin. apply Hz. rewrite <- Hm. apply in_map. exact Hin. }
  assert (Hex : forall i, i < n -> exists it, In it items /\ it_index it = i /\ vec_value_at_index h i = Some (it_value it)).
  { intros i Hi. destruct (nth_error_lt items (N.to_nat i)) as [it E]; [lia|]. exists it. split; [exact (nth_error_In _ _ E)|].
    destruct (Hk _ _ E) as (E1 & _ & E3). rewrite N2Nat.id in *. split; assumption. }
  assert (Hout : forall i, n <= i -> vec_value_at_index h i = None).
  { intros i Hi. unfold vec_value_at_index. apply nth_error_None. unfold vec_values in Hlen. lia. }
  split.
  - assert (Hg : exists g, vec_new (V := V) (vh_axes h) = Val g) by (unfold vec_new; rewrite (proj1 HB); eexists; reflexivity).
    destruct Hg as [g Hg]. exists g. split; [exact Hg|].
    destruct (refill_dense (vh_axes h) n g items calls (proj1 HB) Hg HR Hnd Hzi) as (h' & Hh & Ha & Hv & _ & Hx). rewrite Hh. f_equal.
    assert (Hpt : forall i, vec_value_at_index h' i = vec_value_at_index h i).
    { intros i. destruct (N.lt_ge_cases i n) as [Hi|Hi]; [|rewrite (Hx i Hi), (Hout i Hi); reflexivity].
      destruct (Hex i Hi) as (it & Hin & <- & ->). apply Hv; [exact Hin | exact Hi]. }
    destruct h' as [a' vs'], h as [a vs]. cbn [vh_axes] in Ha. subst a'. f_equal. apply PropPar.nth_error_ext_all. intros i.
    specialize (Hpt (N.of_nat i)). unfold vec_value_at_index in Hpt. cbn [vh_values] in Hpt. rewrite Nat2N.id in Hpt. exact Hpt.
  - destruct (refill_sparse (vh_axes h) items calls HR Hnd Hzi) as (s & Hs & Ha & Hv & Hx). exists s. split; [exact Hs|]. split; [exact Ha|].
    intros i. destruct (N.lt_ge_cases i n) as [Hi|Hi].
    + destruct (Hex i Hi) as (it & Hin & <- & ->). apply Hv. exact Hin.
    + rewrite (Hout i Hi). apply Hx. rewrite Hidx. intros Hin. apply in_range_iff in Hin. lia.
Qed.
Print Assumptions C90_refill_from_dense.

Theorem C90_refill_from_sparse :
  forall A V W (AX : Axis A) (FV : Fill V) (FD : FillWith V V) (FW : FillWithWeighted V V W) (DV : Default V)
         (h : HashHistogram A V) n order items (calls : list (fill_op V W)),
  has_bins AX (hh_axes h) n -> (forall i v, hash_value_at_index h i = Some v -> i < n) ->
  an_order (hash_as_map h) order -> hash_iter h order = Val items ->
  refill (hh_axes h) (fun i => i) items calls ->
  (forall i v, hash_value_at_index h i = Some v -> fill_with_v default_v v = Val v) ->
  hash_calls (hash_new (hh_axes h)) calls = Val h
  /\ (exists g d, vec_new (hh_axes h) = Val g /\ vec_calls g calls = Val d /\ vh_axes d = hh_axes h
      /\ (forall i, i < n -> vec_value_at_index d i = match hash_value_at_index h i with Some v => Some v | None => Some default_v end)
      /\ (forall i, n <= i -> vec_value_at_index d i = None)).
Proof.
  intros A V W AX FV FD FW DV h n order items calls HB Hlt Ho Hit HR Hz.
  destruct (C31_hash_iter A V AX h n order HB Hlt Ho) as (items' & Hit' & Hnd & Hin & Hall & _). rewrite Hit in Hit'. injection Hit' as <-.
  assert (Hzi : forall it, In it items -> fill_with_v default_v (it_value it) = Val (it_value it)).
  { intros it Hi. exact (Hz _ _ (proj2 (Hin it Hi))). }
  assert (Hno : forall i, hash_value_at_index h i = None -> ~ In i (map it_index items)).
  { intros i E Hi. apply in_map_iff in Hi as (it & <- & Hi). rewrite (proj2 (Hin it Hi)) in E. discriminate. }
  split.
  - destruct (refill_sparse (hh_axes h) items calls HR Hnd Hzi) as (s & Hs & Ha & Hv & Hx). rewrite Hs. f_equal.
    destruct s as [a' m'], h as [a m]. cbn [hh_axes] in Ha. subst a'. f_equal. apply map_eq. intros i.
    unfold hash_value_at_index in *. cbn [hh_values] in *. destruct (m !! i) as [v|] eqn:E.
    + destruct (Hall i v E) as [b Hb]. exact (Hv _ Hb).
    + exact (Hx i (Hno i E)).
  - assert (Hg : exists g, vec_new (V := V) (hh_axes h) = Val g) by (unfold vec_new; rewrite (proj1 HB); eexists; reflexivity).
    destruct Hg as [g Hg]. destruct (refill_dense (hh_axes h) n g items calls (proj1 HB) Hg HR Hnd Hzi) as (d & Hd & Ha & Hv & Hx & Hout).
    exists g, d. split; [exact Hg|]. split; [exact Hd|]. split; [exact Ha|]. split; [|exact Hout].
    intros i Hi. destruct (hash_value_at_index h i) as [v|] eqn:E; [|exact (Hx i Hi (Hno i E))].
    destruct (Hall i v E) as [b Hb]. exact (Hv _ Hb Hi).
Qed.
Print Assumptions C90_refill_from_sparse.

(** The condition on the values holds for every integer of the bin type, in every build, and for
    every float but the negative zero (which no sequence of fills produces from a default bin). *)
Theorem C90_fill_default : forall B : Build,
  (forall t v, fits t v -> @fill_with_v Z Z (int_fill_with t) (@default_v Z (int_default t)) v = Val v)
  /\ (forall prec emax (P : Prec_gt_0 prec) (E : Prec_lt_emax prec emax) (v : binary_float prec emax), v <> B754_zero true ->
        @fill_with_v _ _ (float_fill_with prec emax P E) (@default_v _ (float_default prec emax P E)) v = Val v).
Proof.
  intros B. split.
  - intros t v Hv. change (int_result t (0 + v) = Val v). rewrite Z.add_0_l. unfold int_result. rewrite (in_range_true t v Hv). reflexivity.
  - intros prec emax P E v Hv. unfold float_fill_with, float_default. cbn. f_equal. destruct v as [[]|s| |s m e H]; try reflexivity. contradiction.
Qed.
Print Assumptions C90_fill_default.

(** A coarser histogram made from the items of a finer one, with one [fill_with] per item, is the
    one that filling the original data into the coarse axes gives: integer bins, dense and
    sparse, with and without overflow checks. *)
Lemma refill_total {B : Build} (t : int_type) {A I} {AX : Axis A} (a : A) to (items : list (Item I Z)) (calls : list (fill_op (AX := AX) Z Empty_set)) j :
  refill a to items calls ->
  total (reaching a j calls) = sumZ (map it_value (List.filter (fun it => to (it_index it) =? j) items))
  /\ (reaching a j calls = [] <-> List.filter (fun it => to (it_index it) =? j) items = []).
Proof.
  intros (calls0 & H & HP). pose proof (reaching_perm a j _ _ HP) as Hp. pose proof (refill_reaching a to items calls0 j H) as HR. clear H HP. split.
  - unfold total. rewrite <- (sumZ_perm _ _ (Permutation_map amount Hp)). clear Hp. f_equal.
    induction HR as [|it o l l' (c & -> & _) _ IH]; [reflexivity|]. cbn [map amount]. rewrite IH. reflexivity.
  - split; intros E; rewrite E in *.
    + apply Permutation_sym, Permutation_nil in Hp. rewrite Hp in HR. inversion HR. reflexivity.
    + inversion HR as [E1 E2|]. rewrite <- E2 in Hp. apply Permutation_nil in Hp. exact Hp.
Qed.

Lemma congruent_equal t (v w k : Z) : fits t v -> fits t w -> (v = w + k * (int_max t - int_min t + 1))%Z -> v = w.
Proof. unfold fits. intros Hv Hw E. assert (k = 0)%Z by nia. subst k. lia. Qed.

Theorem C90_rebin_by_refilling :
  forall (B : Build) (t : int_type) A1 A2 (AX1 : Axis A1) (AX2 : Axis A2) RC RI (a1 : A1) (a2 : A2) n1 n2 group
         (ops1 : list (fill_op (AX := AX1) Z Empty_set)) (ops2 : list (fill_op (AX := AX2) Z Empty_set)),
  primitive_int t -> coarsens AX1 AX2 RC RI a1 a2 n1 n2 group -> Forall2 (same_call AX1 AX2 RC) ops1 ops2 ->
  (forall g1 g2 h1 h2 h3 items calls, @vec_new A1 Z AX1 (int_default t) a1 = Val g1 -> @vec_new A2 Z AX2 (int_default t) a2 = Val g2 ->
     int_vec_calls t g1 ops1 = Val h1 -> int_vec_calls t g2 ops2 = Val h2 ->
     vec_iter h1 = Val items -> refill a2 group items calls -> int_vec_calls t g2 calls = Val h3 -> h3 = h2)
  /\ (forall h1 h2 h3 order items calls, int_hash_calls t (hash_new a1) ops1 = Val h1 -> int_hash_calls t (hash_new a2) ops2 = Val h2 ->
     an_order (hash_as_map h1) order -> hash_iter h1 order = Val items -> refill a2 group items calls ->
     int_hash_calls t (hash_new a2) calls = Val h3 -> h3 = h2).
Proof.
  intros B t A1 A2 AX1 AX2 RC RI a1 a2 n1 n2 group ops1 ops2 Ht HR Ho.
  destruct (co_bins_2 _ _ _ _ _ _ _ _ _ HR) as [N2 _]. destruct (co_bins_1 _ _ _ _ _ _ _ _ _ HR) as [N1 B1].
  split.
  - intros g1 g2 h1 h2 h3 items calls G1 G2 H1 H2 Hit Hre H3.
    assert (Hdef : forall j, j < n2 -> vec_value_at_index g2 j <> None).
    { intros j Hj. unfold vec_new in G2. rewrite N2 in G2. injection G2 as <-. unfold vec_value_at_index. cbn [vh_values]. rewrite nth_error_repeat_lt; [discriminate|lia]. }
    destruct (C28_vec_contents_are_tally A2 Z Z Empty_set AX2 (int_fill t) (int_fill_with t) no_weighted (int_default t) a2 n2 g2 h2 ops2 N2 G2 H2) as (Ha2 & _ & Hx2 & _).
    destruct (C28_vec_contents_are_tally A2 Z Z Empty_set AX2 (int_fill t) (int_fill_with t) no_weighted (int_default t) a2 n2 g2 h3 calls N2 G2 H3) as (Ha3 & _ & Hx3 & _).
    assert (Hpt : forall j, vec_value_at_index h3 j = vec_value_at_index h2 j).
    { intros j. destruct (N.lt_ge_cases j n2) as [Hj|Hj]; [|rewrite (Hx2 j Hj), (Hx3 j Hj); reflexivity].
      destruct (refill_total t a2 group items calls j Hre) as [HT _].
      destruct overflow_checks eqn:Hc.
      - destruct (C87_integer_bins B t A1 A2 AX1 AX2 RC RI a1 a2 n1 n2 group ops1 ops2 Ht Hc HR Ho) as [HD _].
        destruct (HD g1 g2 h1 h2 G1 G2 H1 H2) as (items' & Hit' & Hv). pose proof (eq_trans (eq_sym Hit') Hit) as Q. injection Q as ->. rewrite (Hv j Hj).
        destruct (C51_checked_dense B t A2 AX2 a2 g2 calls Ht Hc G2) as [Hv3 _]. rewrite (Hv3 h3 j H3 (Hdef j Hj)). rewrite HT. reflexivity.
      - destruct (C87_integer_bins_modular B t A1 A2 AX1 AX2 RC RI a1 a2 n1 n2 group ops1 ops2 Ht Hc HR Ho) as [HD _].
        destruct (HD g1 g2 h1 h2 G1 G2 H1 H2) as (items' & Hit' & Hv). pose proof (eq_trans (eq_sym Hit') Hit) as Q. injection Q as ->.
        destruct (Hv j Hj) as (v & k & -> & Fv & Ev).
        destruct (C51_unchecked B t A2 AX2 a2 calls Ht Hc) as [HU _]. destruct (HU g2 G2) as [_ HU']. destruct (HU' h3 j H3 (Hdef j Hj)) as (w & -> & Fw & k' & Ek).
        f_equal. rewrite HT in Ek. unfold group_sum in Ev. unfold int_span in Ev. apply (congruent_equal t w v (- k - k')%Z Fw Fv). nia. }
    destruct h3 as [a3 v3], h2 as [a2' v2]. cbn [vh_axes] in *. subst a3 a2'. f_equal. apply PropPar.nth_error_ext_all. intros i.
    specialize (Hpt (N.of_nat i)). unfold vec_value_at_index in Hpt. cbn [vh_values] in Hpt. rewrite Nat2N.id in Hpt. exact Hpt.
  - intros h1 h2 h3 order items calls H1 H2 Hor Hit Hre H3.
    destruct (C29_hash_contents_are_tally A1 Z Z Empty_set AX1 (int_fill t) (int_fill_with t) no_weighted (int_default t) a1 h1 ops1 H1) as (Ha1 & Hn1 & Hs1 & _).
    destruct (C29_hash_contents_are_tally A2 Z Z Empty_set AX2 (int_fill t) (int_fill_with t) no_weighted (int_default t) a2 h2 ops2 H2) as (Ha2 & Hn2 & Hs2 & _).
    destruct (C29_hash_contents_are_tally A2 Z Z Empty_set AX2 (int_fill t) (int_fill_with t) no_weighted (int_default t) a2 h3 calls H3) as (Ha3 & Hn3 & Hs3 & _).
    assert (Hlt := coarse_in_range HR ops1 ops2 Ho).
    assert (Hk1 : forall i v, hash_value_at_index h1 i = Some v -> i < n1 /\ reaching a1 i ops1 <> []).
    { intros i v Hv. destruct (reaching a1 i ops1) as [|o l] eqn:E; [rewrite (Hn1 i E) in Hv; discriminate|]. split; [|discriminate].
      assert (Hin : In o (reaching a1 i ops1)) by (rewrite E; left; reflexivity). apply filter_In in Hin as [Hin Hl]. apply (Hlt o i Hin).
      unfold lands_in in Hl. destruct (index a1 (op_coordinate o)) as [[k|]|]; try discriminate. f_equal. f_equal. lia. }
    destruct (C31_hash_iter A1 Z AX1 h1 n1 order) as (items' & Hit' & Hnd & Hin & Hall & _).
    { rewrite Ha1. split; assumption. } { intros i v Hv. exact (proj1 (Hk1 i v Hv)). } { exact Hor. }
    pose proof (eq_trans (eq_sym Hit') Hit) as Q. injection Q as ->.
    assert (Hempty : forall j, List.filter (fun it => group (it_index it) =? j) items = [] <-> reaching a2 j ops2 = []).
    { intros j. pose proof (coarse_reaching HR j ops1 ops2 Ho) as HF. split; intros E.
      - assert (E1 : List.filter (lands_among a1 (fun i => group i =? j)) ops1 = []).
        { destruct (List.filter (lands_among a1 (fun i => group i =? j)) ops1) as [|o l] eqn:E1; [reflexivity|exfalso].
          assert (Hi : In o (o :: l)) by (left; reflexivity). rewrite <- E1 in Hi. apply filter_In in Hi as [Hi Hl]. unfold lands_among in Hl.
          destruct (index a1 (op_coordinate o)) as [[i|]|] eqn:Ei; try discriminate.
          destruct (Hs1 i) as (v & Hv & _).
          { intros En. assert (Hi' : In o (reaching a1 i ops1)) by (apply filter_In; split; [exact Hi|]; unfold lands_in; rewrite Ei; apply N.eqb_refl). rewrite En in Hi'. destruct Hi'. }
          destruct (Hall i v Hv) as [b Hb]. assert (Hf : In (mkItem i b v) (List.filter (fun it => group (it_index it) =? j) items)) by (apply filter_In; split; [exact Hb | exact Hl]).
          rewrite E in Hf. destruct Hf. }
        rewrite E1 in HF. inversion HF. reflexivity.
      - destruct (List.filter (fun it => group (it_index it) =? j) items) as [|it l] eqn:E1; [reflexivity|exfalso].
        assert (Hi : In it (it :: l)) by (left; reflexivity). rewrite <- E1 in Hi. apply filter_In in Hi as [Hi Hl].
        destruct (Hk1 _ _ (proj2 (Hin it Hi))) as [_ Hr]. destruct (reaching a1 (it_index it) ops1) as [|o l'] eqn:Er; [apply Hr; reflexivity|].
        assert (Ho' : In o (reaching a1 (it_index it) ops1)) by (rewrite Er; left; reflexivity). apply filter_In in Ho' as [Ho' Hl'].
        rewrite E in HF. inversion HF as [En|]. assert (Hx : In o (List.filter (lands_among a1 (fun i => group i =? j)) ops1)).
        { apply filter_In. split; [exact Ho'|]. unfold lands_in in Hl'. unfold lands_among. destruct (index a1 (op_coordinate o)) as [[i|]|]; try discriminate.
          replace i with (it_index it) by lia. exact Hl. }
        rewrite <- En in Hx. destruct Hx. }
    assert (Hj2 : forall j, reaching a2 j ops2 <> [] -> j < n2).
    { intros j Hr. destruct (List.filter (fun it => group (it_index it) =? j) items) as [|it l] eqn:E1; [exfalso; apply Hr, Hempty; exact E1|].
      assert (Hi : In it (it :: l)) by (left; reflexivity). rewrite <- E1 in Hi. apply filter_In in Hi as [Hi Hl].
      destruct (co_bin _ _ _ _ _ _ _ _ _ HR (it_index it) (proj1 (Hk1 _ _ (proj2 (Hin it Hi))))) as [Hg _]. lia. }
    assert (Hpt : forall j, hash_value_at_index h3 j = hash_value_at_index h2 j).
    { intros j. destruct (refill_total t a2 group items calls j Hre) as [HT HE].
      destruct (reaching a2 j ops2) as [|o l] eqn:Er2.
      - rewrite (Hn2 j Er2). apply Hn3. apply HE, Hempty. exact Er2.
      - assert (Hne : reaching a2 j ops2 <> []) by (rewrite Er2; discriminate).
        assert (Hne3 : reaching a2 j calls <> []) by (intros E; apply Hne, Hempty, HE; exact E).
        destruct (Hs2 j Hne) as (v2 & E2 & _). destruct overflow_checks eqn:Hc.
        + destruct (C87_integer_bins B t A1 A2 AX1 AX2 RC RI a1 a2 n1 n2 group ops1 ops2 Ht Hc HR Ho) as [_ HD].
          destruct (HD h1 h2 order H1 H2 Hor) as (items' & Hit'' & Hv). pose proof (eq_trans (eq_sym Hit'') Hit) as Q. injection Q as ->.
          specialize (Hv j (Hj2 j Hne)). rewrite E2 in *. subst v2.
          destruct (C51_checked_sparse B t A2 AX2 a2 calls Ht Hc) as [Hv3 _]. rewrite (Hv3 h3 j H3). destruct (decide _) as [E|_]; [contradiction|]. rewrite HT. reflexivity.
        + destruct (C87_integer_bins_modular B t A1 A2 AX1 AX2 RC RI a1 a2 n1 n2 group ops1 ops2 Ht Hc HR Ho) as [_ HD].
          destruct (HD h1 h2 order H1 H2 Hor) as (items' & Hit'' & Hv). pose proof (eq_trans (eq_sym Hit'') Hit) as Q. injection Q as ->.
          destruct (Hv j (Hj2 j Hne)) as [k Ek]. rewrite E2 in Ek.
          destruct (C51_unchecked B t A2 AX2 a2 calls Ht Hc) as (_ & _ & HU3). destruct (HU3 h3 j H3 Hne3) as (w & -> & Fw & k' & Ek').
          destruct (C51_unchecked B t A2 AX2 a2 ops2 Ht Hc) as (_ & _ & HU2). destruct (HU2 h2 j H2 Hne) as (v & Ev & Fv & _). rewrite E2 in Ev. injection Ev as ->.
          rewrite E2. f_equal. rewrite HT in Ek'. unfold group_sum in Ek. unfold int_span in Ek. apply (congruent_equal t w v (- k - k')%Z Fw Fv). nia. }
    destruct h3 as [a3 m3], h2 as [a2' m2]. cbn [hh_axes] in *. subst a3 a2'. f_equal. apply map_eq. intros i. exact (Hpt i).
Qed.
Print Assumptions C90_rebin_by_refilling.

(** Six bins of width 10 over 0..60, with flow bins, and two of width 30: the items of the fine histogram refilled
    give the fine histogram again, and refilled into the coarse axis the coarse one. *)
Example C90_nonvacuous : forall B : Build,
  let t := signed 64 in let ops := int_ops (signed 32) in
  let AX : Axis (Uniform Z) := uniform_axis ops in
  let fine := mkUniform 6 0%Z 60%Z 10%Z in let coarse := mkUniform 2 0%Z 60%Z 30%Z in
  let values := [1000; 0; 0; 2; 10; 0; 100; 0]%Z in
  let calls := map (fun p : Z * Z => @CallFillWith _ Z Empty_set AX (fst p) (snd p)) (combine [-4; 5; 12; 25; 31; 40; 59; 60]%Z values) in
  let refilled (a : Uniform Z) := (let! g := @vec_new _ Z AX (int_default t) a in
      @vec_calls _ Z Z Empty_set AX (int_fill t) (int_fill_with t) no_weighted g (rev calls)) in
  (exists items, @vec_iter _ _ AX (mkVecHist fine values) = Val items
     /\ refill (AX := AX) fine (fun i => i) items (rev calls) /\ refill (AX := AX) coarse (fun i => (i + 2) / 3) items (rev calls))
  /\ refilled fine = Val (mkVecHist fine values) /\ refilled coarse = Val (mkVecHist coarse [1000; 2; 110; 0]%Z)
  /\ Forall (fits t) values.
Proof.
  intros B t ops AX fine coarse values calls refilled.
  assert (Hit : @vec_iter _ _ AX (mkVecHist fine values) = Val [mkItem 0 (Underflow 0) 1000; mkItem 1 (Bin 0 10) 0; mkItem 2 (Bin 10 20) 0; mkItem 3 (Bin 20 30) 2;
            mkItem 4 (Bin 30 40) 10; mkItem 5 (Bin 40 50) 0; mkItem 6 (Bin 50 60) 100; mkItem 7 (Overflow 60) 0]%Z)
    by (destruct B as [[] []]; vm_compute; reflexivity).
  split; [|split; [destruct B as [[] []]; vm_compute; reflexivity | split; [destruct B as [[] []]; vm_compute; reflexivity|]]].
  - eexists. split; [exact Hit|]. split; (exists calls; split; [|apply Permutation_rev]);
      repeat (constructor; [eexists; split; [reflexivity | destruct B as [[] []]; vm_compute; reflexivity]|]); constructor.
  - repeat constructor; unfold t, fits, signed; cbn [int_min int_max]; lia.
Qed.
