(** * PropProgram: client programs cannot tell dense from sparse histograms (C64). *)
From stdpp Require Import gmap.
From Coq Require Import ZifyN ZifyNat.
From Verif Require Import Base BaseFacts Num Axis Value VecHist HashHist HistSpec HistFacts HashFacts AxesSpec AxesFacts OpsFacts PropHist Program.
Open Scope N_scope.

Section Pointwise.
Context {V : Type}.

Lemma mapo_iff {X Y} (f : X -> outcome Y) l r :
  mapo f l = Val r <-> length r = length l /\ forall k x, nth_error l k = Some x -> exists y, f x = Val y /\ nth_error r k = Some y.
Proof.
  revert r. induction l as [|x l IH]; intros r; cbn [mapo].
  - split.
    + intros [= <-]. split; [reflexivity|]. intros [|k] x; discriminate.
    + intros [Hl _]. destruct r; [reflexivity | discriminate].
  - split.
    + intros Hm. apply obind_val in Hm as [y [Hy Hm]]. apply obind_val in Hm as [r' [Hr Hm]]. injection Hm as <-.
      apply IH in Hr as [Hl Hr]. split; [cbn; now rewrite Hl|]. intros [|k] z Hz; cbn in Hz.
      * injection Hz as <-. exists y. split; [exact Hy | reflexivity].
      * cbn. now apply Hr.
    + intros [Hl Hr]. destruct r as [|y r]; [discriminate|]. destruct (Hr O x eq_refl) as [y' [-> Hy']].
      cbn in Hy'. injection Hy' as <-. cbn [obind]. replace (mapo f l) with (Val r); [reflexivity|]. symmetry. apply IH.
      split; [cbn in Hl; lia|]. intros k z Hz. apply (Hr (S k) z Hz).
Qed.

Lemma zip_update_iff {I} (f : N -> I -> V -> outcome V) bs vs vs' : length bs = length vs ->
  (zip_update f bs vs = Val vs' <-> length vs' = length vs /\ forall k i b v, nth_error bs k = Some (i, b) -> nth_error vs k = Some v ->
     exists v', f i b v = Val v' /\ nth_error vs' k = Some v').
Proof.
  intros Hl. split; [apply zip_update_spec|]. revert vs vs' Hl.
  induction bs as [|[i b] bs IH]; intros [|v vs] vs' Hl [Hl' Hk]; try discriminate; cbn [zip_update].
  - destruct vs'; [reflexivity | discriminate].
  - destruct vs' as [|v' vs']; [discriminate|]. destruct (Hk O i b v eq_refl eq_refl) as [w [-> Hw]].
    cbn in Hw. injection Hw as <-. cbn [obind]. rewrite (IH vs vs'); [reflexivity | cbn in Hl; lia |].
    split; [cbn in Hl'; lia|]. intros k i' b' u Hb Hu. apply (Hk (S k) _ _ _ Hb Hu).
Qed.

Lemma combine_nth {X Y} (l : list X) (r : list Y) k : length l = length r ->
  forall p, nth_error (combine l r) k = Some p <-> nth_error l k = Some (fst p) /\ nth_error r k = Some (snd p).
Proof.
  revert r k. induction l as [|x l IH]; intros [|y r] k Hl [a b]; try discriminate; cbn [combine fst snd].
  - destruct k; cbn; split; [discriminate | intros [? _]; discriminate | discriminate | intros [? _]; discriminate].
  - destruct k as [|k]; cbn.
    + split; [intros [= -> ->]; split; reflexivity | intros [[= ->] [= ->]]; reflexivity].
    + apply (IH r k ltac:(cbn in Hl; lia) (a, b)).
Qed.

Lemma zip_assign_iff (op : V -> V -> outcome V) l r m : length l = length r ->
  (zip_assign op l r = Val m <-> length m = length l /\
     forall k x y, nth_error l k = Some x -> nth_error r k = Some y -> exists z, op x y = Val z /\ nth_error m k = Some z).
Proof.
  intros Hl. rewrite (zip_assign_combine op l r Hl), mapo_iff.
  assert (Hc : length (combine l r) = length l) by (rewrite combine_length; lia). rewrite Hc.
  split; intros [H1 H2]; (split; [exact H1|]).
  - intros k x y Hx Hy. apply (H2 k (x, y)). apply combine_nth; [exact Hl | split; assumption].
  - intros k [x y] Hp. apply combine_nth in Hp as [Hx Hy]; [|exact Hl]. now apply H2.
Qed.
End Pointwise.

Section Simulation.
Context {A V D W : Type} {AX : Axis A} {AE : AxisEq A} {FV : Fill V} {FD : FillWith V D} {FW : FillWithWeighted V D W}
        {DV : Default V} (P : V -> Prop).

(** Same axes, [n] bins, and every bin reads the same through
    [value_at_index(i).unwrap_or_default()]. *)
Definition reads_same (d : VecHistogram A V) (s : HashHistogram A V) : Prop :=
  vh_axes d = hh_axes s
  /\ forall i, unwrap_or_default (vec_value_at_index d i) = unwrap_or_default (hash_value_at_index s i).

Definition related_n (n : N) (d : VecHistogram A V) (s : HashHistogram A V) : Prop :=
  vh_axes d = hh_axes s
  /\ has_bins AX (hh_axes s) n
  /\ (forall c i, index (hh_axes s) c = Val (Some i) -> i < n)
  /\ length (vh_values d) = N.to_nat n
  /\ (forall i, i < n -> nth_error (vh_values d) (N.to_nat i) = Some (or_default (hh_values s !! i)))
  /\ (forall i, n <= i -> hh_values s !! i = None)
  /\ (forall i v, hh_values s !! i = Some v -> P v).
Definition related (d : VecHistogram A V) (s : HashHistogram A V) : Prop := exists n, related_n n d s.

Lemma related_reads d s : related d s -> reads_same d s.
Proof.
  intros (n & Ha & Hb & Hx & Hl & Hv & Hk & HP). split; [exact Ha|]. intros i.
  unfold vec_value_at_index, hash_value_at_index.
  destruct (N.lt_ge_cases i n) as [Hi|Hi].
  - rewrite (Hv i Hi). reflexivity.
  - rewrite (Hk i Hi). replace (nth_error (vh_values d) (N.to_nat i)) with (@None V); [reflexivity|].
    symmetry. apply nth_error_None. lia.
Qed.

(** [dc] computes [F i] for each bin [i]. *)
Definition pointwise (n : N) (F : N -> outcome V) (dc : outcome (list V)) : Prop :=
  forall vs, dc = Val vs <-> length vs = N.to_nat n /\ forall i, i < n -> exists y, F i = Val y /\ nth_error vs (N.to_nat i) = Some y.

Lemma all_vals (n : N) (F : N -> outcome V) : (forall i, i < n -> exists y, F i = Val y) ->
  exists vs, length vs = N.to_nat n /\ forall i, i < n -> exists y, F i = Val y /\ nth_error vs (N.to_nat i) = Some y.
Proof.
  intros HF. exists (map (fun i => match F i with Val y => y | Panic => default_v end) (range n)).
  split; [rewrite map_length; apply range_length|]. intros i Hi. destruct (HF i Hi) as [y Hy]. exists y. split; [exact Hy|].
  rewrite nth_error_map, BaseFacts.range_nth by exact Hi. cbn. now rewrite Hy.
Qed.

Definition both (so : outcome (gmap N V)) (dc : outcome (list V)) (a : A) : Prop :=
  match so, dc with
  | Val m, Val vs => related (mkVecHist a vs) (mkHashHist a m)
  | Panic, Panic => True
  | _, _ => False
  end.

Lemma finish n F dc so a : has_bins AX a n -> (forall c i, index a c = Val (Some i) -> i < n) -> pointwise n F dc ->
  (forall m, so = Val m -> (forall i, i < n -> F i = Val (or_default (m !! i))) /\ (forall i, n <= i -> m !! i = None) /\ (forall i v, m !! i = Some v -> P v)) ->
  ((forall i, i < n -> exists y, F i = Val y) -> exists m, so = Val m) ->
  both so dc a.
Proof.
  intros Hb Hx Hd Hs Ht. unfold both. destruct so as [m|].
  - destruct (Hs m eq_refl) as (HF & Hk & HP).
    destruct (all_vals n F) as [vs Hvs]; [intros i Hi; exists (or_default (m !! i)); auto|].
    assert (dc = Val vs) as -> by (apply Hd; exact Hvs). destruct Hvs as [Hl Hvs].
    exists n. split; [reflexivity|]. split; [exact Hb|]. split; [exact Hx|]. split; [exact Hl|]. split; [|split; [exact Hk | exact HP]].
    cbn [vh_values hh_values]. intros i Hi. destruct (Hvs i Hi) as [y [Hy ->]]. rewrite (HF i Hi) in Hy. now injection Hy as ->.
  - destruct dc as [vs|]; [|exact I]. destruct Ht as [m Hm]; [|discriminate].
    destruct (Hd vs) as [Hd1 _]. destruct (Hd1 eq_refl) as [_ Hvs]. intros i Hi. destruct (Hvs i Hi) as [y [Hy _]]. eauto.
Qed.

Context (Pdefault : P default_v).

Lemma or_default_P (m : gmap N V) : (forall i v, m !! i = Some v -> P v) -> forall i, P (or_default (m !! i)).
Proof using Pdefault. intros HP i. unfold or_default. destruct (m !! i) eqn:E; [eauto | exact Pdefault]. Qed.

(** ** The dense loops are pointwise *)
Lemma pw_mapo n d s (f : V -> outcome V) : related_n n d s ->
  pointwise n (fun i => f (or_default (hh_values s !! i))) (mapo f (vh_values d)).
Proof.
  intros (Ha & Hb & Hx & Hl & Hv & _) vs. rewrite mapo_iff, Hl. split; intros [H1 H2]; (split; [exact H1|]).
  - intros i Hi. apply H2. now apply Hv.
  - intros k x Hk. assert (Hkn : N.of_nat k < n) by (assert (k < length (vh_values d))%nat by (apply nth_error_Some; congruence); lia).
    specialize (Hv _ Hkn). rewrite Nat2N.id in Hv. rewrite Hk in Hv. injection Hv as ->.
    destruct (H2 _ Hkn) as [y [Hy1 Hy2]]. rewrite Nat2N.id in Hy2. eauto.
Qed.

Lemma pw_zip_update n d s l (f : N -> Interval -> V -> outcome V) : related_n n d s -> axis_iter (hh_axes s) = Val l ->
  pointwise n (fun i => let! ob := bin (hh_axes s) i in let! b := expect ob in f i b (or_default (hh_values s !! i))) (zip_update f l (vh_values d)).
Proof.
  intros (Ha & Hb & Hx & Hl & Hv & _) Hit vs. destruct (axis_iter_spec _ _ _ Hb) as (l' & Hit' & _ & Hf & Hbin).
  rewrite Hit in Hit'. injection Hit' as <-.
  assert (Hlen : length l = length (vh_values d)).
  { rewrite Hl, <- (range_length n), <- Hf. symmetry. apply map_length. }
  assert (Hnth : forall k i b, nth_error l k = Some (i, b) -> i = N.of_nat k /\ i < n /\ bin (hh_axes s) i = Val (Some b)).
  { intros k i b Hk. assert (k < length l)%nat by (apply nth_error_Some; congruence).
    assert (Hkn : N.of_nat k < n) by lia. pose proof (BaseFacts.range_nth n _ Hkn) as Hr. rewrite Nat2N.id, <- Hf, nth_error_map, Hk in Hr.
    cbn in Hr. injection Hr as Hr. subst i. split; [reflexivity|]. split; [exact Hkn|]. apply Hbin. eapply nth_error_In. exact Hk. }
  rewrite (zip_update_iff f l (vh_values d) vs Hlen), Hl. split; intros [H1 H2]; (split; [exact H1|]).
  - intros i Hi. destruct (nth_error l (N.to_nat i)) as [[j b]|] eqn:El; [|apply nth_error_None in El; lia].
    destruct (Hnth _ _ _ El) as (Hj & _ & Hbj). rewrite N2Nat.id in Hj. subst j. rewrite Hbj. cbn [obind expect].
    apply (H2 _ _ _ _ El (Hv _ Hi)).
  - intros k i b v Hk Hkv. destruct (Hnth _ _ _ Hk) as (-> & Hkn & Hbk). specialize (Hv _ Hkn). rewrite Nat2N.id, Hkv in Hv. injection Hv as ->.
    destruct (H2 _ Hkn) as [y [Hy1 Hy2]]. rewrite Hbk in Hy1. cbn [obind expect] in Hy1. rewrite Nat2N.id in Hy2. eauto.
Qed.

Lemma pw_combine n dl sl dr sr (op : V -> V -> outcome V) : related_n n dl sl -> related_n n dr sr ->
  pointwise n (fun i => op (or_default (hh_values sl !! i)) (or_default (hh_values sr !! i))) (zip_assign op (vh_values dl) (vh_values dr)).
Proof.
  intros (Ha & Hb & Hx & Hl & Hv & _) (Ha' & Hb' & Hx' & Hl' & Hv' & _) vs. rewrite zip_assign_iff by congruence. rewrite Hl.
  split; intros [H1 H2]; (split; [exact H1|]).
  - intros i Hi. apply H2; [now apply Hv | now apply Hv'].
  - intros k x y Hk Hk'. assert (Hkn : N.of_nat k < n) by (assert (k < length (vh_values dl))%nat by (apply nth_error_Some; congruence); lia).
    specialize (Hv _ Hkn). rewrite Nat2N.id, Hk in Hv. injection Hv as ->.
    specialize (Hv' _ Hkn). rewrite Nat2N.id, Hk' in Hv'. injection Hv' as ->.
    destruct (H2 _ Hkn) as [z [Hz1 Hz2]]. rewrite Nat2N.id in Hz2. eauto.
Qed.

(** ** One command *)
Context (Heq : eq_same_bins AX AE).

Definition stores (Rel : VecHistogram A V -> HashHistogram A V -> Prop) (sd : store (VecHistogram A V)) (ss : store (HashHistogram A V)) : Prop :=
  forall x, match sd x, ss x with Some d, Some s => Rel d s | None, None => True | _, _ => False end.

Lemma stores_write sd ss x d s : stores related sd ss -> related d s -> stores related (write sd x d) (write ss x s).
Proof. intros Hst Hr y. unfold write. destruct (Nat.eqb x y); [exact Hr | apply Hst]. Qed.

(** A dense and a sparse result agree. *)
Definition agree {R} (Rel : VecHistogram A V -> HashHistogram A V -> Prop)
  (od : outcome (R * store (VecHistogram A V))) (os : outcome (R * store (HashHistogram A V))) : Prop :=
  match od, os with
  | Panic, Panic => True
  | Val (r, sd), Val (r', ss) => r = r' /\ stores Rel sd ss
  | _, _ => False
  end.

Lemma related_axes n d s : related_n n d s -> vh_axes d = hh_axes s. Proof. now intros []. Qed.

Lemma both_hist so dc a : both so dc a ->
  match (let! vs := dc in Val (mkVecHist a vs)), (let! m := so in Val (mkHashHist a m)) with
  | Val d, Val s => related d s | Panic, Panic => True | _, _ => False end.
Proof. unfold both. destruct so, dc; cbn; tauto. Qed.

Lemma call_both d s o : related d s -> keeps1 P (op_effect o) ->
  match vec_call d o, hash_call s o with Val d', Val s' => related d' s' | Panic, Panic => True | _, _ => False end.
Proof using Pdefault.
  intros [n Hr] HP. pose proof Hr as (Ha & Hb & Hx & Hl & Hv & Hk & Hp). rewrite vec_call_spec, hash_call_spec, Ha.
  destruct (index (hh_axes s) (op_coordinate o)) as [[i|]|] eqn:Ei; [|exists n; exact Hr | exact I].
  specialize (Hx _ _ Ei) as Hin. rewrite (Hv i Hin). cbn [obind].
  destruct (op_effect o (or_default (hh_values s !! i))) as [v'|] eqn:Eo; [|exact I]. cbn [obind].
  exists n. split; [reflexivity|]. split; [exact Hb|]. split; [exact Hx|].
  cbn [vh_values hh_values hh_axes]. split; [rewrite set_nth_length; exact Hl|]. split; [|split].
  - intros j Hj. destruct (N.eq_dec i j) as [<-|Hne].
    + rewrite lookup_insert. rewrite set_nth_same by lia. reflexivity.
    + rewrite lookup_insert_ne by exact Hne. rewrite set_nth_other by lia. now apply Hv.
  - intros j Hj. rewrite lookup_insert_ne by lia. now apply Hk.
  - intros j w Hw. destruct (N.eq_dec i j) as [<-|Hne].
    + rewrite lookup_insert in Hw. injection Hw as <-. apply (HP _ _ (or_default_P _ Hp i) Eo).
    + rewrite lookup_insert_ne in Hw by exact Hne. eauto.
Qed.

Lemma update_loop_both n d s (g : N -> V -> outcome V) order dc : related_n n d s -> an_order (hh_values s) order ->
  (forall i, i < n -> g i default_v = Val default_v /\ keeps1 P (g i)) ->
  pointwise n (fun i => g i (or_default (hh_values s !! i))) dc ->
  both (foldo (fun (m : gmap N V) (p : N * V) => let! v' := g (fst p) (snd p) in Val (<[fst p := v']> m)) order (hh_values s)) dc (hh_axes s).
Proof.
  intros (Ha & Hb & Hx & Hl & Hv & Hk & Hp) Ho Hg Hd. refine (finish n _ dc _ _ Hb Hx Hd _ _).
  - intros m Hm. destruct (foldo_insert fst (fun p => g (fst p) (snd p)) order _ _ (order_NoDup _ _ Ho) Hm) as [Hin Hout].
    assert (Hlt : forall i v, hh_values s !! i = Some v -> i < n).
    { intros i v Hi. destruct (N.lt_ge_cases i n) as [|Hge]; [assumption|]. rewrite (Hk i Hge) in Hi. discriminate. }
    split; [|split].
    + intros i Hi. destruct (hh_values s !! i) as [v|] eqn:Ei.
      * destruct (Hin (i, v)) as [v' [Hv' Hm']]; [now apply (order_elem _ _ _ _ Ho)|]. cbn [fst snd] in *. rewrite Hm'. exact Hv'.
      * rewrite Hout, Ei; [apply Hg; exact Hi|]. intros Hc. apply (order_key _ _ _ Ho) in Hc. rewrite Ei in Hc. now destruct Hc.
    + intros i Hi. rewrite Hout; [now apply Hk|]. intros Hc. apply (order_key _ _ _ Ho) in Hc as [w Hw]. rewrite (Hk i Hi) in Hw. discriminate.
    + intros i v' Hi. destruct (hh_values s !! i) as [v|] eqn:Ei.
      * destruct (Hin (i, v)) as [w [Hw Hm']]; [now apply (order_elem _ _ _ _ Ho)|]. cbn [fst snd] in *. rewrite Hi in Hm'. injection Hm' as ->.
        apply (proj2 (Hg i (Hlt _ _ Ei)) _ _ (Hp _ _ Ei) Hw).
      * rewrite Hout in Hi; [rewrite Ei in Hi; discriminate|]. intros Hc. apply (order_key _ _ _ Ho) in Hc. rewrite Ei in Hc. now destruct Hc.
  - intros Hall. apply (foldo_insert_total fst (fun p => g (fst p) (snd p))). intros [i v] Hi. cbn [fst snd].
    apply (order_elem _ _ _ _ Ho) in Hi. destruct (N.lt_ge_cases i n) as [Hlt|Hge]; [|rewrite (Hk i Hge) in Hi; discriminate].
    specialize (Hall i Hlt). rewrite Hi in Hall. exact Hall.
Qed.

Lemma merge_both n dl sl dr sr (op : V -> V -> outcome V) order : related_n n dl sl -> related_n n dr sr ->
  an_order (hh_values sr) order -> op default_v default_v = Val default_v -> keeps2 P op -> (forall v, P v -> op v default_v = Val v) ->
  both (hash_merge_loop op (hh_values sl) order) (zip_assign op (vh_values dl) (vh_values dr)) (hh_axes sl).
Proof using Pdefault.
  intros Hrl Hrr Ho Hdd HPop Hneut. pose proof (pw_combine n dl sl dr sr op Hrl Hrr) as Hd.
  destruct Hrl as (Ha & Hb & Hx & Hl & Hv & Hk & Hp), Hrr as (Ha' & Hb' & Hx' & Hl' & Hv' & Hk' & Hp').
  refine (finish n _ _ _ _ Hb Hx Hd _ _).
  - intros m Hm. destruct (merge_loop_spec op order _ _ (order_NoDup _ _ Ho) Hm) as [Hin Hout].
    assert (Hno : forall i, hh_values sr !! i = None -> i ∉ map fst order).
    { intros i Hi Hc. apply (order_key _ _ _ Ho) in Hc as [w Hw]. congruence. }
    split; [|split].
    + intros i Hi. destruct (hh_values sr !! i) as [v|] eqn:Ei.
      * destruct (Hin i v) as [v' [Hv'' Hm']]; [now apply (order_elem _ _ _ _ Ho)|]. rewrite Hm'. exact Hv''.
      * rewrite Hout by (now apply Hno). cbn [or_default]. apply Hneut. apply or_default_P. exact Hp.
    + intros i Hi. rewrite Hout; [now apply Hk|]. apply Hno. now apply Hk'.
    + intros i v' Hi. destruct (hh_values sr !! i) as [v|] eqn:Ei.
      * destruct (Hin i v) as [w [Hw Hm']]; [now apply (order_elem _ _ _ _ Ho)|]. rewrite Hi in Hm'. injection Hm' as ->.
        apply (HPop _ _ _ (or_default_P _ Hp i) (Hp' _ _ Ei) Hw).
      * rewrite Hout in Hi by (now apply Hno). eauto.
  - intros Hall. apply merge_loop_total; [exact (order_NoDup _ _ Ho)|]. intros i v Hi.
    apply (order_elem _ _ _ _ Ho) in Hi. destruct (N.lt_ge_cases i n) as [Hlt|Hge]; [|rewrite (Hk' i Hge) in Hi; discriminate].
    specialize (Hall i Hlt). rewrite Hi in Hall. exact Hall.
Qed.

Lemma pair_op_default op (l r : gmap N V) i : is_Some (l !! i) \/ is_Some (r !! i) -> pair_op op l r i = op (or_default (l !! i)) (or_default (r !! i)).
Proof. unfold pair_op, or_default. destruct (l !! i), (r !! i); try reflexivity. intros [[? ?]|[? ?]]; discriminate. Qed.

Lemma borrowed_both n dl sl dr sr (op : V -> V -> outcome V) keys : related_n n dl sl -> related_n n dr sr ->
  NoDup keys -> (forall i, i ∈ keys <-> is_Some (hh_values sl !! i) \/ is_Some (hh_values sr !! i)) ->
  op default_v default_v = Val default_v -> keeps2 P op ->
  both (foldo (fun (m : gmap N V) i => let! v := pair_op op (hh_values sl) (hh_values sr) i in Val (<[i := v]> m)) keys ∅)
       (mapo (fun p : V * V => op (fst p) (snd p)) (combine (vh_values dl) (vh_values dr))) (hh_axes sl).
Proof using Pdefault.
  intros Hrl Hrr Hnd Hkeys Hdd HPop. pose proof (pw_combine n dl sl dr sr op Hrl Hrr) as Hd.
  destruct Hrl as (Ha & Hb & Hx & Hl & Hv & Hk & Hp), Hrr as (Ha' & Hb' & Hx' & Hl' & Hv' & Hk' & Hp').
  rewrite <- zip_assign_combine by congruence.
  assert (Hid : map (fun i : N => i) keys = keys) by apply map_id.
  refine (finish n _ _ _ _ Hb Hx Hd _ _).
  - intros m Hm. destruct (foldo_insert (fun i => i) (pair_op op (hh_values sl) (hh_values sr)) keys ∅ m) as [Hin Hout]; [now rewrite Hid | exact Hm|].
    rewrite Hid in Hout.
    assert (Hdec : forall i, i ∈ keys \/ (i ∉ keys /\ hh_values sl !! i = None /\ hh_values sr !! i = None)).
    { intros i. destruct (hh_values sl !! i) eqn:E1; [left; apply Hkeys; left; eauto|].
      destruct (hh_values sr !! i) eqn:E2; [left; apply Hkeys; right; eauto|]. right. split; [|tauto].
      intros Hc. apply Hkeys in Hc. rewrite E1, E2 in Hc. destruct Hc as [[? ?]|[? ?]]; discriminate. }
    split; [|split].
    + intros i Hi. destruct (Hdec i) as [Hi'|(Hni & E1 & E2)].
      * destruct (Hin i Hi') as [v [Hv1 Hv2]]. rewrite Hv2. cbn [or_default]. rewrite <- Hv1. symmetry. apply pair_op_default. now apply Hkeys.
      * rewrite (Hout i Hni), E1, E2, lookup_empty. exact Hdd.
    + intros i Hi. destruct (Hdec i) as [Hi'|(Hni & E1 & E2)].
      * apply Hkeys in Hi'. rewrite (Hk i Hi), (Hk' i Hi) in Hi'. destruct Hi' as [[? ?]|[? ?]]; discriminate.
      * rewrite (Hout i Hni). apply lookup_empty.
    + intros i w Hi. destruct (Hdec i) as [Hi'|(Hni & E1 & E2)].
      * destruct (Hin i Hi') as [v [Hv1 Hv2]]. rewrite Hi in Hv2. injection Hv2 as ->.
        rewrite pair_op_default in Hv1 by (now apply Hkeys). apply (HPop _ _ _ (or_default_P _ Hp i) (or_default_P _ Hp' i) Hv1).
      * rewrite (Hout i Hni), lookup_empty in Hi. discriminate.
  - intros Hall. apply (foldo_insert_total (fun i => i) (pair_op op (hh_values sl) (hh_values sr))). intros i Hi.
    pose proof Hi as Hi'. apply Hkeys in Hi. rewrite pair_op_default by exact Hi. apply Hall.
    destruct (N.lt_ge_cases i n) as [Hlt|Hge]; [exact Hlt|]. rewrite (Hk i Hge), (Hk' i Hge) in Hi. destruct Hi as [[? ?]|[? ?]]; discriminate.
Qed.

Lemma same_n dl sl dr sr : related dl sl -> related dr sr -> axis_eqb (hh_axes sl) (hh_axes sr) = true ->
  exists n, related_n n dl sl /\ related_n n dr sr.
Proof using Heq.
  intros [n Hn] [n' Hn'] He. exists n. split; [exact Hn|]. apply Heq in He.
  replace n with n'; [exact Hn'|]. destruct Hn as (_ & [Hn _] & _), Hn' as (_ & [Hn' _] & _). rewrite Hn, Hn' in He. congruence.
Qed.

Lemma read_stores sd ss x : stores related sd ss ->
  (read sd x = Panic /\ read ss x = Panic) \/ exists d s, ss x = Some s /\ read sd x = Val d /\ read ss x = Val s /\ related d s.
Proof. intros Hst. specialize (Hst x). unfold read. destruct (sd x) as [d|], (ss x) as [s|]; try tauto. right. exists d, s. tauto. Qed.

Lemma command_agree c sd ss os : allowed P c -> stores related sd ss -> sparse_command ss c os -> agree related (dense_command c sd) os.
Proof using Pdefault Heq.
  intros Hc Hst Hs. destruct Hs; cbn [dense_command allowed] in *.
  - (* new *) destruct Hc as (n & Hn & Hb & Hx). unfold vec_new. rewrite Hn. cbn [obind agree]. split; [reflexivity|]. apply stores_write; [exact Hst|].
    exists n. split; [reflexivity|]. split; [split; assumption|]. split; [exact Hx|]. cbn [vh_values hh_values hash_new].
    split; [apply repeat_length|]. split; [|split].
    + intros i Hi. rewrite lookup_empty. apply nth_error_repeat. lia.
    + intros i _. apply lookup_empty.
    + intros i v Hi. rewrite lookup_empty in Hi. discriminate.
  - (* fill *) destruct (read_stores sd ss x Hst) as [[-> ->]|(d & s & Es & -> & -> & Hr)]; [exact I|]. cbn [obind].
    pose proof (call_both d s o Hr Hc) as Hb. destruct (vec_call d o), (hash_call s o); try contradiction; [|exact I]. cbn [obind agree].
    split; [reflexivity|]. now apply stores_write.
  - (* values_mut *) destruct (read_stores sd ss x Hst) as [[-> ->]|(d & s & Es & -> & -> & Hr)]; [exact I|]. cbn [obind].
    specialize (H _ Es). destruct Hr as [n Hr]. destruct Hc as [Hc1 Hc2].
    pose proof (both_hist _ _ _ (update_loop_both n d s (fun _ => f) order _ Hr H (fun i Hi => conj Hc1 Hc2) (pw_mapo n d s f Hr))) as Hb.
    unfold vec_values_mut, hash_values_mut. rewrite (related_axes _ _ _ Hr).
    destruct (let! vs := mapo f (vh_values d) in Val (mkVecHist (hh_axes s) vs)), (let! m := _ in Val (mkHashHist (hh_axes s) m));
      try contradiction; [|exact I]. cbn [obind agree]. split; [reflexivity|]. now apply stores_write.
  - (* iter_mut *) destruct (read_stores sd ss x Hst) as [[-> ->]|(d & s & Es & -> & -> & Hr)]; [exact I|]. cbn [obind].
    specialize (H _ Es). destruct Hr as [n Hr].
    unfold vec_iter_mut, hash_iter_mut. rewrite (related_axes _ _ _ Hr).
    pose proof Hr as (_ & Hbins & _). destruct (axis_iter_spec _ _ _ Hbins) as (l & Hl & _). rewrite Hl. cbn [obind].
    set (g := fun (i : N) (v : V) => let! ob := bin (hh_axes s) i in let! b := expect ob in f i b v).
    assert (Hg : forall i, i < n -> g i default_v = Val default_v /\ keeps1 P (g i)).
    { intros i Hi. unfold g. destruct (proj2 Hbins i Hi) as [b ->]. cbn [obind expect]. apply Hc. }
    pose proof (both_hist _ _ _ (update_loop_both n d s g order _ Hr H Hg (pw_zip_update n d s l f Hr Hl))) as Hb.
    rewrite (foldo_ext _ (fun (m : gmap N V) (p : N * V) => let! v' := g (fst p) (snd p) in Val (<[fst p := v']> m))).
    2: { intros m p. unfold g. destruct (bin (hh_axes s) (fst p)) as [[b|]|]; reflexivity. }
    destruct (let! vs := zip_update f l (vh_values d) in Val (mkVecHist (hh_axes s) vs)), (let! m := _ in Val (mkHashHist (hh_axes s) m));
      try contradiction; [|exact I]. cbn [obind agree]. split; [reflexivity|]. now apply stores_write.
  - (* clone *) destruct (read_stores sd ss y Hst) as [[-> ->]|(d & s & Es & -> & -> & Hr)]; [exact I|]. cbn [obind agree].
    split; [reflexivity|]. now apply stores_write.
  - (* borrowed *) destruct (read_stores sd ss y Hst) as [[-> ->]|(dl & sl & El & -> & -> & Hrl)]; [exact I|].
    destruct (read_stores sd ss z Hst) as [[-> ->]|(dr & sr & Er & -> & -> & Hrr)]; [exact I|]. cbn [obind].
    specialize (H0 _ _ El Er). unfold vec_binop_borrowed, hash_binop_borrowed.
    assert (Hal : vh_axes dl = hh_axes sl) by (destruct Hrl as [? [? ?]]; assumption).
    assert (Har : vh_axes dr = hh_axes sr) by (destruct Hrr as [? [? ?]]; assumption). rewrite Hal, Har.
    destruct (axis_eqb (hh_axes sl) (hh_axes sr)) eqn:Ee; cbn [negb]; [|cbn [obind agree]; split; [reflexivity | exact Hst]].
    destruct (same_n _ _ _ _ Hrl Hrr Ee) as (n & Hnl & Hnr). destruct Hc as [Hc1 Hc2].
    pose proof (borrowed_both n dl sl dr sr op keys Hnl Hnr H H0 Hc1 Hc2) as Hb. unfold both, pair_op in Hb.
    destruct (foldo _ keys ∅), (mapo _ _); try contradiction; cbn [obind agree]; [|exact I]. split; [reflexivity|]. now apply stores_write.
  - (* owned *) destruct (read_stores sd ss y Hst) as [[-> ->]|(dl & sl & El & -> & -> & Hrl)]; [exact I|].
    destruct (read_stores sd ss z Hst) as [[-> ->]|(dr & sr & Er & -> & -> & Hrr)]; [exact I|]. cbn [obind].
    specialize (H _ Er). unfold vec_binop_owned, hash_binop_owned.
    assert (Hal : vh_axes dl = hh_axes sl) by (destruct Hrl as [? [? ?]]; assumption).
    assert (Har : vh_axes dr = hh_axes sr) by (destruct Hrr as [? [? ?]]; assumption). rewrite Hal, Har.
    destruct (axis_eqb (hh_axes sl) (hh_axes sr)) eqn:Ee; cbn [negb]; [|cbn [obind agree]; split; [reflexivity | exact Hst]].
    destruct (same_n _ _ _ _ Hrl Hrr Ee) as (n & Hnl & Hnr). destruct Hc as (Hc1 & Hc2 & Hc3).
    pose proof (merge_both n dl sl dr sr op order Hnl Hnr H Hc1 Hc2 Hc3) as Hb. unfold both in Hb.
    destruct (hash_merge_loop _ _ _), (zip_assign _ _ _); try contradiction; cbn [obind agree]; [|exact I]. split; [reflexivity|]. now apply stores_write.
  - (* assign *) destruct (read_stores sd ss x Hst) as [[-> ->]|(dl & sl & El & -> & -> & Hrl)]; [exact I|].
    destruct (read_stores sd ss y Hst) as [[-> ->]|(dr & sr & Er & -> & -> & Hrr)]; [exact I|]. cbn [obind].
    specialize (H _ Er). unfold vec_binop_assign, hash_binop_assign.
    assert (Hal : vh_axes dl = hh_axes sl) by (destruct Hrl as [? [? ?]]; assumption).
    assert (Har : vh_axes dr = hh_axes sr) by (destruct Hrr as [? [? ?]]; assumption). rewrite Hal, Har.
    destruct (axis_eqb (hh_axes sl) (hh_axes sr)) eqn:Ee; cbn [negb]; [|exact I].
    destruct (same_n _ _ _ _ Hrl Hrr Ee) as (n & Hnl & Hnr). destruct Hc as (Hc1 & Hc2 & Hc3).
    pose proof (merge_both n dl sl dr sr op order Hnl Hnr H Hc1 Hc2 Hc3) as Hb. unfold both in Hb.
    destruct (hash_merge_loop _ _ _), (zip_assign _ _ _); try contradiction; cbn [obind agree]; [|exact I]. split; [reflexivity|]. now apply stores_write.
  - (* value_at_index *) destruct (read_stores sd ss x Hst) as [[-> ->]|(d & s & Es & -> & -> & Hr)]; [exact I|]. cbn [obind agree].
    split; [|exact Hst]. f_equal. apply related_reads. exact Hr.
  - (* value *) destruct (read_stores sd ss x Hst) as [[-> ->]|(d & s & Es & -> & -> & Hr)]; [exact I|]. cbn [obind].
    apply related_reads in Hr as [Ha Hv]. unfold vec_value, hash_value. rewrite Ha.
    destruct (index (hh_axes s) c) as [[i|]|]; cbn [obind agree]; [|split; [reflexivity | exact Hst] | exact I].
    split; [|exact Hst]. f_equal. apply Hv.
  - (* axes *) destruct (read_stores sd ss x Hst) as [[-> ->]|(d & s & Es & -> & -> & Hr)]; [exact I|]. cbn [obind agree].
    split; [|exact Hst]. f_equal. apply related_reads. exact Hr.
Qed.

(** A sparse command always has some outcome: some iteration order exists. *)
Lemma command_outcome ss c : exists os, sparse_command ss c os.
Proof.
  assert (Hord : forall x : nat, exists order, forall h, ss x = Some h -> an_order (hh_values h) order).
  { intros x. destruct (ss x) as [h|]; [|exists []; discriminate]. exists (map_to_list (hh_values h)). intros h' [= <-]. unfold an_order. reflexivity. }
  destruct c.
  - eexists. apply sc_new.
  - eexists. apply sc_call.
  - destruct (Hord x) as [o Ho]. eexists. apply (sc_values_mut ss x f o Ho).
  - destruct (Hord x) as [o Ho]. eexists. apply (sc_iter_mut ss x f o Ho).
  - eexists. apply sc_clone.
  - assert (exists keys, NoDup keys /\ forall l r, ss y = Some l -> ss z = Some r ->
      forall i, i ∈ keys <-> is_Some (hash_value_at_index l i) \/ is_Some (hash_value_at_index r i)) as (keys & Hn & Hk).
    { destruct (ss y) as [l|]; [|exists []; split; [constructor | discriminate]].
      destruct (ss z) as [r|]; [|exists []; split; [constructor | discriminate]].
      exists (elements (dom (hh_values l) ∪ dom (hh_values r))). split; [apply NoDup_elements|].
      intros l' r' [= <-] [= <-] i. rewrite elem_of_elements, elem_of_union, !elem_of_dom. reflexivity. }
    eexists. apply (sc_borrowed ss op x y z keys Hn Hk).
  - destruct (Hord z) as [o Ho]. eexists. apply (sc_owned ss op x y z o Ho).
  - destruct (Hord y) as [o Ho]. eexists. apply (sc_assign ss op x y o Ho).
  - eexists. apply sc_value_at_index.
  - eexists. apply sc_value.
  - eexists. apply sc_axes.
Qed.

Lemma run_agree {R} (p : program V D W R) : all_allowed P p -> forall sd ss, stores related sd ss ->
  (forall os, sparse_run p ss os -> agree related (dense_run p sd) os) /\ exists os, sparse_run p ss os.
Proof using Pdefault Heq.
  induction p as [r|c k IH]; intros Hp sd ss Hst.
  - split; [|eexists; constructor]. intros os Ho. inversion Ho; subst. cbn. split; [reflexivity | exact Hst].
  - inversion Hp as [|? ? Hc Hk]; subst. split.
    + intros os Ho. inversion Ho as [|? ? ? Hs|? ? ? a ss' ? Hs Hr]; subst; cbn [dense_run].
      * pose proof (command_agree c sd ss _ Hc Hst Hs) as Ha. destruct (dense_command c sd) as [[a sd']|]; cbn in Ha; [contradiction | exact I].
      * pose proof (command_agree c sd ss _ Hc Hst Hs) as Ha. destruct (dense_command c sd) as [[a' sd']|]; cbn in Ha; [|contradiction].
        destruct Ha as [-> Hst']. cbn [obind fst snd]. apply (IH a (Hk a) sd' ss' Hst'). exact Hr.
    + destruct (command_outcome ss c) as [[[a ss']|] Ho].
      * pose proof (command_agree c sd ss _ Hc Hst Ho) as Ha. destruct (dense_command c sd) as [[a' sd']|]; cbn in Ha; [|contradiction].
        destruct Ha as [-> Hst']. destruct (IH a (Hk a) sd' ss' Hst') as [_ [os Hos]]. exists os. eapply sr_step; eassumption.
      * exists Panic. now apply sr_panic.
Qed.
End Simulation.

(** C64. Run any client program of the covered calls once with dense and once with
    sparse histograms: whatever hash iteration orders the sparse run meets, the two
    runs either both panic or return the same result, and in the second case all
    histogram variables read the same afterwards. The sparse run has an outcome. *)
Theorem C64_dense_sparse_programs {A V D W R : Type} {AX : Axis A} {AE : AxisEq A} {FV : Fill V} {FD : FillWith V D} {FW : FillWithWeighted V D W}
    {DV : Default V} (P : V -> Prop) (p : program V D W R) :
  eq_same_bins AX AE -> P default_v -> all_allowed P p ->
  (forall os, sparse_run p (fun _ => None) os -> agree reads_same (dense_run p (fun _ => None)) os)
  /\ exists os, sparse_run p (fun _ => None) os.
Proof.
  intros Heq Pd Hp. destruct (run_agree P Pd Heq p Hp (fun _ => None) (fun _ => None)) as [H1 H2]; [intros x; exact I|].
  split; [|exact H2]. intros os Ho. specialize (H1 os Ho). unfold agree in *.
  destruct (dense_run p (fun _ => None)) as [[r sd]|], os as [[r' ss]|]; try exact H1.
  destruct H1 as [-> Hst]. split; [reflexivity|]. intros x. specialize (Hst x).
  destruct (sd x), (ss x); try exact Hst. eapply related_reads. exact Hst.
Qed.
Print Assumptions C64_dense_sparse_programs.

(** ** Integer bins (any primitive type, with or without overflow checks) *)
From Coq Require Import Reals Lra.
From Flocq Require Import Core Plus_error IEEE754.BinarySingleNaN.
From Verif Require Import Float Spec IntFacts Category PropCategory PropHistIter PropOrder PropIntBins PropCount.

Lemma int_result_keeps (B : Build) t z v : primitive_int t -> int_result t z = Val v -> fits t v.
Proof.
  intros Ht. pose proof (primitive_nonempty t Ht) as Hb. unfold int_result. destruct (in_range t z) eqn:E.
  - intros [= <-]. apply in_range_fits. exact E.
  - destruct overflow_checks; [discriminate|]. intros [= <-]. now apply wrap_in.
Qed.

(** [fill], [fill_with], [+] and [-] in every form, [&l * &r], and updates such as
    [*v *= k] are covered, whatever the type and whatever the data. *)
Theorem C64_int_commands (B : Build) (t : int_type) {A : Type} (AX : Axis A) : primitive_int t ->
  let FV := int_fill t in let FD := int_fill_with t in let FW := no_weighted in let DV := int_default t in
  let ops := int_ops t in
  fits t default_v
  /\ (forall x o, allowed (AX := AX) (fits t) (Call x o))
  /\ (forall x k, allowed (AX := AX) (D := Z) (W := Empty_set) (fits t) (ValuesMut x (fun v => n_mul v k)))
  /\ (forall x y z, allowed (AX := AX) (D := Z) (W := Empty_set) (fits t) (Borrowed n_add x y z)
       /\ allowed (AX := AX) (D := Z) (W := Empty_set) (fits t) (Borrowed n_sub x y z)
       /\ allowed (AX := AX) (D := Z) (W := Empty_set) (fits t) (Borrowed n_mul x y z)
       /\ allowed (AX := AX) (D := Z) (W := Empty_set) (fits t) (Owned n_add x y z)
       /\ allowed (AX := AX) (D := Z) (W := Empty_set) (fits t) (Owned n_sub x y z)
       /\ allowed (AX := AX) (D := Z) (W := Empty_set) (fits t) (Assign n_add x y)
       /\ allowed (AX := AX) (D := Z) (W := Empty_set) (fits t) (Assign n_sub x y)).
Proof.
  intros Ht FV FD FW DV ops. pose proof (primitive_bounds t Ht) as Hb.
  assert (Hz : fits t 0%Z) by (unfold fits; lia).
  assert (Hzero : int_result t 0 = Val 0%Z) by (unfold int_result; now rewrite (in_range_true _ _ Hz)).
  assert (Hid : forall v, fits t v -> int_result t v = Val v) by (intros v Hv; unfold int_result; now rewrite (in_range_true _ _ Hv)).
  assert (Hk : forall z v, int_result t z = Val v -> fits t v) by (intros z v; now apply int_result_keeps).
  split; [exact Hz|]. split.
  { intros x [c|c d|c d []]; intros v v' _ Hv; exact (Hk _ _ Hv). }
  split.
  { intros x k. split; [exact Hzero|]. intros v v' _ Hv; exact (Hk _ _ Hv). }
  intros x y z.
  assert (Hadd : keeps2 (fits t) n_add) by (intros v w u _ _ Hu; exact (Hk _ _ Hu)).
  assert (Hsub : keeps2 (fits t) n_sub) by (intros v w u _ _ Hu; exact (Hk _ _ Hu)).
  assert (Hmul : keeps2 (fits t) n_mul) by (intros v w u _ _ Hu; exact (Hk _ _ Hu)).
  assert (Hnadd : forall v, fits t v -> n_add v 0%Z = Val v) by (intros v Hv; cbn; rewrite Z.add_0_r; now apply Hid).
  assert (Hnsub : forall v, fits t v -> n_sub v 0%Z = Val v) by (intros v Hv; cbn; rewrite Z.sub_0_r; now apply Hid).
  split; [exact (conj Hzero Hadd)|]. split; [exact (conj Hzero Hsub)|]. split; [exact (conj Hzero Hmul)|].
  split; [exact (conj Hzero (conj Hadd Hnadd))|]. split; [exact (conj Hzero (conj Hsub Hnsub))|].
  split; [exact (conj Hzero (conj Hadd Hnadd)) | exact (conj Hzero (conj Hsub Hnsub))].
Qed.
Print Assumptions C64_int_commands.

(** ** Floating-point bins *)
Section FloatCommands.
Context (prec emax : Z) (Hprec : Prec_gt_0 prec) (Hemax : Prec_lt_emax prec emax).
Notation flt := (binary_float prec emax).

(** Every value except negative zero. *)
Definition not_negative_zero (x : flt) : Prop := x <> B754_zero true.

Lemma plus_not_negative_zero (x y : flt) : not_negative_zero x -> not_negative_zero (Bplus mode_NE x y).
Proof.
  unfold not_negative_zero. intros Hx Hc.
  destruct x as [sx|sx| |sx mx ex Hmx], y as [sy|sy| |sy my ey Hmy]; try discriminate Hc.
  - destruct sx; [now apply Hx|]. destruct sy; discriminate Hc.
  - destruct sx, sy; discriminate Hc.
  - set (x := B754_finite sx mx ex Hmx) in *. set (y := B754_finite sy my ey Hmy) in *.
    pose proof (Bplus_correct prec emax _ _ mode_NE x y eq_refl eq_refl) as Hp. rewrite Hc in Hp.
    destruct (Rlt_bool _ _) in Hp.
    2: { destruct Hp as [Hp _]. cbn in Hp. discriminate. }
    destruct Hp as (HR & _ & HS). cbn [B2R Bsign] in HR, HS.
    destruct (Rcompare_spec (B2R x + B2R y) 0) as [Hlt|He|Hgt] in HS; [|cbn in HS|discriminate HS].
    + symmetry in HR. 
      assert (Hz : (B2R x + B2R y = 0)%R).
      { apply (round_plus_eq_0 radix2 (SpecFloat.fexp prec emax) (round_mode mode_NE) (B2R x) (B2R y)); [apply generic_format_B2R | apply generic_format_B2R | exact HR]. }
      lra.
    + subst x y. cbn in HS. destruct sx, sy; try discriminate HS.
      change (F2R (Float radix2 (Z.neg mx) ex) + F2R (Float radix2 (Z.neg my) ey) = 0)%R in He.
      pose proof (F2R_lt_0 radix2 (Float radix2 (Z.neg mx) ex) eq_refl).
      pose proof (F2R_lt_0 radix2 (Float radix2 (Z.neg my) ey) eq_refl). lra.
Qed.

Lemma minus_plus_opp (x y : flt) : Bminus mode_NE x y = Bplus mode_NE x (Bopp y).
Proof. destruct x as [sx|sx| |sx mx ex Hmx], y as [sy|sy| |sy my ey Hmy]; reflexivity. Qed.

Lemma plus_zero (x : flt) : not_negative_zero x -> Bplus mode_NE x (B754_zero false) = x.
Proof. intros Hx. destruct x as [[]|[]| |[] mx ex Hmx]; try reflexivity. now destruct Hx. Qed.
Lemma minus_zero (x : flt) : Bminus mode_NE x (B754_zero false) = x.
Proof. destruct x as [[]|[]| |[] mx ex Hmx]; reflexivity. Qed.

(** [fill], [fill_with] with any data (infinities, NaN, negative zero included),
    and [+] and [-] in every form are covered. *)
Theorem C64_float_commands (B : Build) {A : Type} (AX : Axis A) :
  let FV := float_fill prec emax Hprec Hemax in let FD := float_fill_with prec emax Hprec Hemax in
  let FW := float_no_weighted prec emax in let DV := float_default prec emax Hprec Hemax in
  let ops := float_ops prec emax Hprec Hemax in
  not_negative_zero default_v
  /\ (forall x o, allowed (AX := AX) not_negative_zero (Call x o))
  /\ (forall x y z, allowed (AX := AX) (D := flt) (W := Empty_set) not_negative_zero (Borrowed n_add x y z)
       /\ allowed (AX := AX) (D := flt) (W := Empty_set) not_negative_zero (Borrowed n_sub x y z)
       /\ allowed (AX := AX) (D := flt) (W := Empty_set) not_negative_zero (Owned n_add x y z)
       /\ allowed (AX := AX) (D := flt) (W := Empty_set) not_negative_zero (Owned n_sub x y z)
       /\ allowed (AX := AX) (D := flt) (W := Empty_set) not_negative_zero (Assign n_add x y)
       /\ allowed (AX := AX) (D := flt) (W := Empty_set) not_negative_zero (Assign n_sub x y)).
Proof.
  intros FV FD FW DV ops.
  assert (Hadd : keeps2 not_negative_zero n_add).
  { intros v w u Hv _ Hu. injection Hu as <-. now apply plus_not_negative_zero. }
  assert (Hsub : keeps2 not_negative_zero n_sub).
  { intros v w u Hv _ Hu. injection Hu as <-. rewrite minus_plus_opp. now apply plus_not_negative_zero. }
  assert (Hnadd : forall v, not_negative_zero v -> n_add v default_v = Val v) by (intros v Hv; exact (f_equal Val (plus_zero v Hv))).
  assert (Hnsub : forall v, not_negative_zero v -> n_sub v default_v = Val v) by (intros v Hv; exact (f_equal Val (minus_zero v))).
  assert (Hd : not_negative_zero default_v) by (intros Hc; discriminate Hc).
  assert (Hdadd : n_add default_v default_v = Val default_v) by (now apply Hnadd).
  assert (Hdsub : n_sub default_v default_v = Val default_v) by (now apply Hnsub).
  split; [exact Hd|]. split.
  { intros x [c|c d|c d []]; intros v v' Hv Hv'; injection Hv' as <-; now apply plus_not_negative_zero. }
  intros x y z.
  split; [exact (conj Hdadd Hadd)|]. split; [exact (conj Hdsub Hsub)|].
  split; [exact (conj Hdadd (conj Hadd Hnadd))|]. split; [exact (conj Hdsub (conj Hsub Hnsub))|].
  split; [exact (conj Hdadd (conj Hadd Hnadd)) | exact (conj Hdsub (conj Hsub Hnsub))].
Qed.
End FloatCommands.
Print Assumptions C64_float_commands.

(** ** A program that branches on what it reads *)
#[local] Instance ex64_axis {B : Build} : Axis (Category Z) := ex_axis B.
#[local] Instance ex64_eq : AxisEq (Category Z) := ex_eq.
#[local] Instance ex64_fill {B : Build} : Fill Z := int_fill (signed 32).
#[local] Instance ex64_fill_with {B : Build} : FillWith Z Z := int_fill_with (signed 32).
#[local] Instance ex64_weighted : FillWithWeighted Z Z Empty_set := no_weighted.
#[local] Instance ex64_default {B : Build} : Default Z := int_default (signed 32).

(** let mut a, b = ...; a.fill(7); a.fill_with(5, 10); b.fill(7); let mut c = &a + &b;
    if c[1] == 2 then { c -= &a; c *= 3 (in place) } else {}; c.value(7) *)
Definition ex_program {B : Build} : program Z Z Empty_set Z :=
  Do (New 0 ex_cat) (fun _ => Do (New 1 ex_cat) (fun _ =>
  Do (Call 0 (CallFill 7%Z)) (fun _ => Do (Call 0 (CallFillWith 5%Z 10%Z)) (fun _ => Do (Call 1 (CallFill 7%Z)) (fun _ =>
  Do (Borrowed (@n_add Z (int_ops (signed 32))) 2 0 1) (fun _ =>
  Do (ValueAtIndex 2 1) (fun a =>
  let rest := Do (Value 2 7%Z) (fun a => match a with AnswerValue v => Return v | _ => Return 0%Z end) in
  match a with
  | AnswerValue 2%Z => Do (Assign (@n_sub Z (int_ops (signed 32))) 2 0) (fun _ => Do (ValuesMut 2 (fun v => @n_mul Z (int_ops (signed 32)) v 3%Z)) (fun _ => rest))
  | _ => rest
  end))))))).

Definition result_of {R H} (o : outcome (R * store H)) : option R := match o with Val (r, _) => Some r | Panic => None end.

Example C64_nonvacuous : forall B : Build,
  eq_same_bins (ex_axis B) ex_eq /\ all_allowed (fits (signed 32)) ex_program
  /\ result_of (dense_run ex_program (fun _ => None)) = Some 3%Z.
Proof.
  intros B. destruct (C26_C33_nonvacuous B) as (Hn & [_ Hb] & He & _ & _ & Hx). split; [exact He|]. split.
  - assert (Hp : primitive_int (signed 32)) by (exists 32%Z; split; [lia | tauto]).
    pose proof (C64_int_commands B (signed 32) ex64_axis Hp) as (_ & Hcall & Hmut & Hops).
    assert (Hg : good_axes (AX := ex64_axis) ex_cat) by (exists 4; split; [exact Hn | split; [exact Hb | exact Hx]]).
    unfold ex_program.
    apply aa_do; [exact Hg|]. intros _. apply aa_do; [exact Hg|]. intros _.
    apply aa_do; [apply Hcall|]. intros _. apply aa_do; [apply Hcall|]. intros _. apply aa_do; [apply Hcall|]. intros _.
    apply aa_do; [apply (Hops 2%nat 0%nat 1%nat)|]. intros _. apply aa_do; [exact I|]. intros a.
    assert (Hrest : all_allowed (fits (signed 32)) (Do (Value 2 7%Z) (fun a : answer (Category Z) Z => match a with AnswerValue v => Return v | _ => Return 0%Z end))).
    { apply aa_do; [exact I|]. intros []; constructor. }
    destruct a as [| | [|[|[]|]|]|]; try exact Hrest.
    apply aa_do; [apply (Hops 2%nat 0%nat 0%nat)|]. intros _. apply aa_do; [apply Hmut|]. intros _. exact Hrest.
  - destruct B as [[] []]; vm_compute; reflexivity.
Qed.

(** The restrictions are necessary. [==]: a sparse histogram distinguishes a bin
    filled with 0 from an unfilled one, though both read 0 and the dense ones are
    equal. *)
Theorem C64_equality_distinguishes_refuted : forall B : Build,
  (exists d d', vec_new ex_cat = Val d /\ vec_call (D := Z) (W := Empty_set) d (CallFillWith 7%Z 0%Z) = Val d' /\ d' = d)
  /\ exists s', hash_call (D := Z) (W := Empty_set) (hash_new ex_cat) (CallFillWith 7%Z 0%Z) = Val s'
     /\ (forall i, unwrap_or_default (hash_value_at_index s' i) = unwrap_or_default (hash_value_at_index (hash_new (A := Category Z) ex_cat) i))
     /\ hash_eqb Z.eqb s' (hash_new ex_cat) = false.
Proof.
  intros B. split.
  - eexists _, _. split; [destruct B as [[] []]; reflexivity|]. split; destruct B as [[] []]; reflexivity.
  - eexists. split; [destruct B as [[] []]; reflexivity|]. split; [|destruct B as [[] []]; vm_compute; reflexivity].
    intros i. unfold hash_value_at_index, hash_new, unwrap_or_default. cbn [hh_values]. destruct (N.eq_dec 1 i) as [<-|Hne]; [reflexivity|].
    rewrite lookup_insert_ne by exact Hne. reflexivity.
Qed.

(** [l *= &r] and [l * &r]: where the right histogram is unfilled, a dense bin is
    multiplied by 0 and a sparse one is left alone. *)
Definition mul_program {B : Build} (c : command Z Z Empty_set) : program Z Z Empty_set Z :=
  Do (New 0 ex_cat) (fun _ => Do (New 1 ex_cat) (fun _ => Do (Call 0 (CallFill 7%Z)) (fun _ =>
  Do c (fun _ => Do (Value 0 7%Z) (fun a => match a with AnswerValue v => Return v | _ => Return 99%Z end))))).
Theorem C64_owned_multiplication_distinguishes_refuted : forall B : Build,
  forall c, c = Assign (@n_mul Z (int_ops (signed 32))) 0 1 \/ c = Owned (@n_mul Z (int_ops (signed 32))) 0 0 1 ->
  result_of (dense_run (mul_program c) (fun _ => None)) = Some 0%Z
  /\ exists os, sparse_run (mul_program c) (fun _ => None) os /\ result_of os = Some 1%Z.
Proof.
  intros B c Hc. split.
  - destruct Hc as [-> | ->]; destruct B as [[] []]; vm_compute; reflexivity.
  - destruct Hc as [-> | ->]; destruct B as [[] []].
    all: exists (Val (1%Z, write (write (write (write (fun _ => None) 0 (hash_new ex_cat)) 1 (hash_new ex_cat)) 0 (mkHashHist ex_cat {[1 := 1%Z]})) 0 (mkHashHist ex_cat {[1 := 1%Z]}))).
    all: split; [|reflexivity]; unfold mul_program; (eapply sr_step; [apply sc_new|]); (eapply sr_step; [apply sc_new|]);
      (eapply sr_step; [exact (sc_call _ _ _)|]).
    1-6: (eapply sr_step; [refine (sc_assign _ _ _ _ [] _); intros r [= <-]; unfold an_order; reflexivity|]);
      (eapply sr_step; [exact (sc_value _ _ _)|]); apply sr_return.
    1-6: (eapply sr_step; [refine (sc_owned _ _ _ _ _ [] _); intros r [= <-]; unfold an_order; reflexivity|]);
      (eapply sr_step; [exact (sc_value _ _ _)|]); apply sr_return.
Qed.
Print Assumptions C64_owned_multiplication_distinguishes_refuted.
