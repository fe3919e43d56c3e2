(** * Property theorems: parallel iterators under every schedule (C41). *)
From stdpp Require Import gmap.
From Coq Require Import ZifyN ZifyNat Lia Relations.
From Verif Require Import Base BaseFacts Num Axis AxesSpec Category Value VecHist HashHist Par HistSpec HistFacts HashFacts
  PropAxes PropHist PropHistIter.
Open Scope N_scope.

Section Machine.
Context {M V : Type} (S : slots M V) (body : N -> V -> outcome V).

(** Slots behave like memory on the keys satisfying [valid]. *)
Record slots_ok (m0 : M) : Prop := {
  so_same : forall m k v w, slot_get S m k = Some w -> slot_get S (slot_set S m k v) k = Some v;
  so_other : forall m k j v, k <> j -> slot_get S (slot_set S m k v) j = slot_get S m j
}.

Definition task_inv (m0 m : M) (t : N * task_state V) : Prop :=
  match snd t with
  | Todo => slot_get S m (fst t) = slot_get S m0 (fst t)
  | Loaded v => slot_get S m0 (fst t) = Some v /\ slot_get S m (fst t) = Some v
  | Done => exists v v', slot_get S m0 (fst t) = Some v /\ body (fst t) v = Val v' /\ slot_get S m (fst t) = Some v'
  | Panicked => exists v, slot_get S m0 (fst t) = Some v /\ body (fst t) v = Panic
  end.

Definition par_inv (m0 : M) (keys : list N) (s : par_state M V) : Prop :=
  map fst (par_tasks s) = keys
  /\ Forall (task_inv m0 (par_mem s)) (par_tasks s)
  /\ forall k, ~ In k keys -> slot_get S (par_mem s) k = slot_get S m0 k.

Lemma start_inv m0 keys : par_inv m0 keys (par_start m0 keys).
Proof.
  unfold par_start, par_inv. cbn [par_mem par_tasks]. split; [rewrite map_map; cbn [fst]; apply map_id|].
  split; [|auto]. apply List.Forall_forall. intros t Ht. apply in_map_iff in Ht as [k [<- _]]. reflexivity.
Qed.

Lemma step_inv m0 keys s s' : slots_ok m0 -> NoDup keys -> par_inv m0 keys s -> par_step S body s s' -> par_inv m0 keys s'.
Proof.
  intros Hs Hnd [H1 [H2 H3]] Hstep. destruct Hstep as [m pre k post v Hg | m pre k post v v' Hb | m pre k post v Hb];
    cbn [par_mem par_tasks] in *; unfold par_inv; cbn [par_mem par_tasks].
  - split; [rewrite map_app in *; cbn [map fst] in *; exact H1|]. split; [|exact H3].
    apply Forall_app in H2 as [Hpre Hp]. apply Forall_cons in Hp as [Hk Hpost]. apply Forall_app. split; [exact Hpre|].
    apply Forall_cons. split; [|exact Hpost]. unfold task_inv in *. cbn [fst snd] in *. split; congruence.
  - split; [rewrite map_app in *; cbn [map fst] in *; exact H1|].
    apply Forall_app in H2 as [Hpre Hp]. apply Forall_cons in Hp as [Hk Hpost].
    unfold task_inv in Hk. cbn [fst snd] in Hk. destruct Hk as [Hk0 Hk].
    assert (Hother : forall l, (forall t, In t l -> fst t <> k) -> Forall (task_inv m0 m) l ->
              Forall (task_inv m0 (slot_set S m k v')) l).
    { intros l Hl Hf. apply List.Forall_forall. intros t Ht. rewrite List.Forall_forall in Hf. specialize (Hf t Ht).
      specialize (Hl t Ht). unfold task_inv in *. pose proof (so_other _ Hs m k (fst t) v' ltac:(congruence)) as E.
      destruct (snd t); rewrite ?E; exact Hf. }
    assert (Hne : forall t, In t (pre ++ post) -> fst t <> k).
    { intros t Ht Heq. rewrite <- H1, map_app in Hnd. cbn [map fst] in Hnd.
      apply NoDup_app in Hnd as [_ [Hd Hnd]]. apply NoDup_cons in Hnd as [Hnk _].
      apply in_app_or in Ht as [Ht|Ht].
      - apply (Hd k); [|apply elem_of_list_here]. rewrite <- Heq. apply elem_of_list_In, in_map. exact Ht.
      - apply Hnk. rewrite <- Heq. apply elem_of_list_In, in_map. exact Ht. }
    split.
    + apply Forall_app. split; [apply Hother; [intros t Ht; apply Hne, in_or_app; auto | exact Hpre]|].
      apply Forall_cons. split; [|apply Hother; [intros t Ht; apply Hne, in_or_app; auto | exact Hpost]].
      unfold task_inv. cbn [fst snd]. exists v, v'. split; [exact Hk0|]. split; [exact Hb|]. eapply so_same; eassumption.
    + intros j Hj. rewrite (so_other _ Hs); [apply H3; exact Hj|]. intros ->. apply Hj. rewrite <- H1, map_app.
      apply in_or_app. right. left. reflexivity.
  - split; [rewrite map_app in *; cbn [map fst] in *; exact H1|]. split; [|exact H3].
    apply Forall_app in H2 as [Hpre Hp]. apply Forall_cons in Hp as [Hk Hpost]. apply Forall_app. split; [exact Hpre|].
    apply Forall_cons. split; [|exact Hpost]. unfold task_inv in *. cbn [fst snd] in *. destruct Hk as [Hk0 _]. eauto.
Qed.

Lemma steps_inv m0 keys s s' : slots_ok m0 -> NoDup keys -> par_inv m0 keys s ->
  clos_refl_trans _ (par_step S body) s s' -> par_inv m0 keys s'.
Proof.
  intros Hs Hnd Hi Hst. apply clos_rt_rt1n in Hst. induction Hst as [|s s1 s2 H1 _ IH]; [exact Hi|].
  apply IH. eapply step_inv; eassumption.
Qed.

(** A state that cannot step has only finished or panicked tasks. *)
Lemma stuck_finished m0 keys s : par_inv m0 keys s -> (forall k, In k keys -> is_Some (slot_get S m0 k)) ->
  par_stuck S body s -> Forall (fun t => snd t = Done \/ snd t = Panicked) (par_tasks s).
Proof.
  intros [H1 [H2 _]] Hk Hst. apply List.Forall_forall. intros [k st] Ht. cbn [snd].
  rewrite List.Forall_forall in H2. specialize (H2 _ Ht). unfold task_inv in H2. cbn [fst snd] in H2.
  assert (Hin : In k keys) by (rewrite <- H1; apply (in_map fst) in Ht; exact Ht).
  destruct s as [m ts]. cbn [par_mem par_tasks] in *. apply in_split in Ht as [pre [post ->]].
  destruct st as [|v| |]; [| |auto|auto]; exfalso.
  - destruct (Hk k Hin) as [v Hv]. eapply Hst. eapply step_load. rewrite H2. exact Hv.
  - destruct (body k v) as [v'|] eqn:E; eapply Hst; [eapply step_store | eapply step_panic]; exact E.
Qed.

(** Every execution is finite: at most two steps per task. *)
Definition work (t : N * task_state V) : nat :=
  match snd t with Todo => 2 | Loaded _ => 1 | _ => 0 end.
Definition total_work (s : par_state M V) : nat := list_sum (map work (par_tasks s)).
Lemma step_work s s' : par_step S body s s' -> (total_work s' < total_work s)%nat.
Proof.
  intros Hst. destruct Hst; unfold total_work; cbn [par_tasks]; rewrite !map_app, !list_sum_app; cbn; lia.
Qed.
End Machine.

Lemma vec_slots_ok {V} (m : list V) : slots_ok vec_slots m.
Proof.
  constructor; cbn.
  - intros l k v w Hk. apply set_nth_same. eapply nth_error_some_lt. exact Hk.
  - intros l k j v Hkj. apply set_nth_other. intros He. apply Hkj. apply N2Nat.inj. exact He.
Qed.
Lemma hash_slots_ok {V} (m : gmap N V) : slots_ok hash_slots m.
Proof.
  constructor; cbn.
  - intros l k v w _. apply lookup_insert.
  - intros l k j v Hkj. apply lookup_insert_ne. exact Hkj.
Qed.

(** The memory reached by any complete execution is determined by the start. *)
Section Determined.
Context {M V : Type} (S : slots M V) (body : N -> V -> outcome V).
Lemma finished_values m0 keys s m : slots_ok S m0 -> NoDup keys ->
  clos_refl_trans _ (par_step S body) (par_start m0 keys) s -> par_finished s m ->
  (forall k, In k keys -> exists v v', slot_get S m0 k = Some v /\ body k v = Val v' /\ slot_get S m k = Some v')
  /\ (forall k, ~ In k keys -> slot_get S m k = slot_get S m0 k).
Proof.
  intros Hs Hnd Hst [<- Hd]. pose proof (steps_inv S body m0 keys _ s Hs Hnd (start_inv S body m0 keys) Hst) as [H1 [H2 H3]].
  split; [|exact H3]. intros k Hk. rewrite <- H1 in Hk. apply in_map_iff in Hk as [t [<- Ht]].
  rewrite List.Forall_forall in H2, Hd. specialize (H2 t Ht). specialize (Hd t Ht). unfold task_inv in H2.
  rewrite Hd in H2. exact H2.
Qed.
Lemma panicked_body m0 keys s : slots_ok S m0 -> NoDup keys ->
  clos_refl_trans _ (par_step S body) (par_start m0 keys) s -> par_panicked s ->
  exists k v, In k keys /\ slot_get S m0 k = Some v /\ body k v = Panic.
Proof.
  intros Hs Hnd Hst Hp. pose proof (steps_inv S body m0 keys _ s Hs Hnd (start_inv S body m0 keys) Hst) as [H1 [H2 _]].
  apply Exists_exists in Hp as [t [Ht Hp]]. apply elem_of_list_In in Ht. rewrite List.Forall_forall in H2.
  specialize (H2 t Ht). unfold task_inv in H2.
  rewrite Hp in H2. destruct H2 as [v [Hg Hb]]. exists (fst t), v. split; [|auto].
  rewrite <- H1. apply in_map. exact Ht.
Qed.
End Determined.

(** ** C41: mutating parallel iterators *)

(** Whatever the schedule, starting from [start]: a run that finishes leaves
    exactly the sequential result [seq]; a task panics only if the sequential
    loop panics; a run that can do no more step has finished or panicked; and no
    run goes on for ever. *)
Definition any_schedule_agrees {M V} (S : slots M V) (body : N -> V -> outcome V) (start : par_state M V)
  (seq : outcome M) : Prop :=
  forall s, clos_refl_trans _ (par_step S body) start s ->
  (forall m, par_finished s m -> seq = Val m)
  /\ (par_panicked s -> seq = Panic)
  /\ (par_stuck S body s -> par_panicked s \/ exists m, par_finished s m)
  /\ Acc (fun s2 s1 => par_step S body s1 s2) s.

Lemma schedule_agrees {M V} (S : slots M V) body m0 keys seq :
  slots_ok S m0 -> NoDup keys -> (forall k, In k keys -> is_Some (slot_get S m0 k)) ->
  (forall m, (forall k, In k keys -> exists v v', slot_get S m0 k = Some v /\ body k v = Val v' /\ slot_get S m k = Some v') ->
             (forall k, ~ In k keys -> slot_get S m k = slot_get S m0 k) -> seq = Val m) ->
  (forall k v, In k keys -> slot_get S m0 k = Some v -> body k v = Panic -> seq = Panic) ->
  any_schedule_agrees S body (par_start m0 keys) seq.
Proof.
  intros Hs Hnd Hk H1 H2 s Hst. split; [|split; [|split]].
  - intros m Hf. destruct (finished_values _ _ _ _ _ _ Hs Hnd Hst Hf) as [Hin Hout]. apply H1; assumption.
  - intros Hp. destruct (panicked_body _ _ _ _ _ Hs Hnd Hst Hp) as [k [v [Hin [Hg Hb]]]]. eapply H2; eassumption.
  - intros Hstk. pose proof (steps_inv _ _ _ _ _ _ Hs Hnd (start_inv S body m0 keys) Hst) as Hi.
    pose proof (stuck_finished _ _ _ _ _ Hi Hk Hstk) as Hf.
    destruct (List.Exists_dec (fun t : N * task_state V => snd t = Panicked) (par_tasks s)) as [He|He].
    { intros [k [|v| |]]; cbn; [right | right | right | left]; congruence. }
    + left. exact He.
    + right. exists (par_mem s). split; [reflexivity|]. apply List.Forall_forall. intros t Ht.
      rewrite List.Forall_forall in Hf. destruct (Hf t Ht) as [?|Hp]; [assumption|]. exfalso. apply He.
      apply List.Exists_exists. eauto.
  - apply (Wf_nat.well_founded_lt_compat _ (total_work)). intros s1 s2. apply step_work.
Qed.

Lemma nth_error_ext_all {V} (l l' : list V) : (forall i, nth_error l i = nth_error l' i) -> l = l'.
Proof.
  revert l'. induction l as [|x l IH]; intros [|y l'] H; [reflexivity | discriminate (H 0%nat) | discriminate (H 0%nat) |].
  pose proof (H 0%nat) as H0. injection H0 as ->. f_equal. apply IH. intros i. exact (H (Datatypes.S i)).
Qed.

(** Dense case of [schedule_agrees]. *)
Lemma dense_agrees {V} body (vals : list V) (seq : outcome (list V)) :
  (forall vs, seq = Val vs -> length vs = length vals
      /\ forall i v, nth_error vals (N.to_nat i) = Some v -> exists v', body i v = Val v' /\ nth_error vs (N.to_nat i) = Some v') ->
  ((forall i v, nth_error vals (N.to_nat i) = Some v -> exists v', body i v = Val v') -> exists vs, seq = Val vs) ->
  any_schedule_agrees vec_slots body (par_start vals (range (N.of_nat (length vals)))) seq.
Proof.
  intros Hval Hex.
  assert (Hkey : forall k, In k (range (N.of_nat (length vals))) <-> (N.to_nat k < length vals)%nat).
  { intros k. rewrite in_range_iff. lia. }
  apply schedule_agrees.
  - apply vec_slots_ok.
  - apply NoDup_ListNoDup. apply range_NoDup.
  - intros k Hk. apply Hkey in Hk. destruct (nth_error_lt vals _ Hk) as [v Hv]. exists v. exact Hv.
  - intros m Hin Hout. destruct Hex as [vs Hvs].
    { intros i v Hv. destruct (Hin i) as [w [w' [E1 [E2 _]]]].
      - apply Hkey. eapply nth_error_some_lt. exact Hv.
      - cbn in E1. rewrite Hv in E1. injection E1 as <-. eauto. }
    rewrite Hvs. f_equal. destruct (Hval vs Hvs) as [Hl Hpt]. apply nth_error_ext_all. intros i.
    destruct (nth_error vals i) as [v|] eqn:E.
    + rewrite <- (Nat2N.id i) in E. destruct (Hpt _ v E) as [v' [E1 E2]]. rewrite Nat2N.id in E2.
      destruct (Hin (N.of_nat i)) as [w [w' [F1 [F2 F3]]]]; [apply Hkey; eapply nth_error_some_lt; exact E|].
      cbn in F1, F3. rewrite Nat2N.id in F3. congruence.
    + assert (Hge : (length vals <= i)%nat) by (apply nth_error_None; exact E).
      assert (Hn : nth_error vs i = None) by (apply nth_error_None; lia). rewrite Hn. symmetry.
      specialize (Hout (N.of_nat i)). cbn in Hout. rewrite Nat2N.id in Hout. rewrite Hout; [exact E|].
      rewrite Hkey. lia.
  - intros k v _ Hk Hb. cbn in Hk. destruct seq as [vs|] eqn:E; [|reflexivity]. exfalso.
    destruct (Hval vs eq_refl) as [_ Hpt]. destruct (Hpt k v Hk) as [v' [Hv' _]]. congruence.
Qed.

Theorem C41_vec_par_values_mut :
  forall A V (AX : Axis A) (h : VecHistogram A V) (f : V -> outcome V),
  any_schedule_agrees vec_slots (fun _ => f) (vec_par_start h)
    (let! h' := vec_values_mut h f in Val (vec_values h')).
Proof.
  intros A V AX h f. destruct (C33_vec_values_mut A V AX h f) as [H1 H2]. apply dense_agrees.
  - intros vs Hvs. apply obind_val in Hvs as [h' [Hh Hvs]]. injection Hvs as <-.
    destruct (H2 h' Hh) as [_ [Hl Hpt]]. split; [exact Hl | exact Hpt].
  - intros Hall. destruct (proj2 H1 Hall) as [h' Hh]. rewrite Hh. cbn [obind]. eauto.
Qed.
Print Assumptions C41_vec_par_values_mut.

Theorem C41_vec_par_iter_mut :
  forall A V (AX : Axis A) (h : VecHistogram A V) n (f : N -> Interval -> V -> outcome V),
  has_bins AX (vh_axes h) n -> N.of_nat (length (vec_values h)) = n ->
  any_schedule_agrees vec_slots (item_body (vh_axes h) f) (vec_par_start h)
    (let! h' := vec_iter_mut h f in Val (vec_values h')).
Proof.
  intros A V AX h n f Hb Hl. destruct (C33_vec_iter_mut A V AX h n f Hb Hl) as [H1 H2].
  assert (Hbin : forall i v, nth_error (vh_values h) (N.to_nat i) = Some v -> exists b, bin (vh_axes h) i = Val (Some b)).
  { intros i v Hv. apply (proj2 Hb). apply nth_error_some_lt in Hv. unfold vec_values in Hl. lia. }
  apply dense_agrees.
  - intros vs Hvs. apply obind_val in Hvs as [h' [Hh Hvs]]. injection Hvs as <-.
    destruct (H2 h' Hh) as [_ [Hl' Hpt]]. split; [exact Hl'|]. intros i v Hv. destruct (Hbin i v Hv) as [b Hbi].
    unfold item_body. rewrite Hbi. cbn [obind expect]. eapply Hpt; eassumption.
  - intros Hall. assert (Hex : exists h', vec_iter_mut h f = Val h').
    { apply H1. intros i b v Hbi Hv. destruct (Hall i v Hv) as [v' Hv']. exists v'. unfold item_body in Hv'.
      rewrite Hbi in Hv'. exact Hv'. }
    destruct Hex as [h' Hh]. rewrite Hh. cbn [obind]. eauto.
Qed.
Print Assumptions C41_vec_par_iter_mut.

(** Sparse: rayon may take the entries in another order ([par_order]) than the
    sequential iterator ([order]). *)
Lemma sparse_agrees {V} body (m0 : gmap N V) par_order (seq : outcome (gmap N V)) :
  an_order m0 par_order ->
  (forall m, seq = Val m -> (forall i, m0 !! i = None -> m !! i = None)
      /\ forall i v, m0 !! i = Some v -> exists v', body i v = Val v' /\ m !! i = Some v') ->
  ((forall i v, m0 !! i = Some v -> exists v', body i v = Val v') -> exists m, seq = Val m) ->
  any_schedule_agrees hash_slots body (par_start m0 (map fst par_order)) seq.
Proof.
  intros Ho Hval Hex.
  assert (Hkey : forall k, In k (map fst par_order) <-> is_Some (m0 !! k)).
  { intros k. rewrite <- elem_of_list_In. apply (order_key _ par_order k Ho). }
  apply schedule_agrees.
  - apply hash_slots_ok.
  - apply (order_NoDup _ _ Ho).
  - intros k Hk. apply Hkey. exact Hk.
  - intros m Hin Hout. destruct Hex as [m' Hm'].
    { intros i v Hv. destruct (Hin i) as [w [w' [E1 [E2 _]]]]; [apply Hkey; eauto|].
      cbn in E1. rewrite Hv in E1. injection E1 as <-. eauto. }
    rewrite Hm'. f_equal. destruct (Hval m' Hm') as [Hn Hpt]. apply map_eq. intros i.
    destruct (m0 !! i) as [v|] eqn:E.
    + destruct (Hpt i v E) as [v' [E1 E2]]. destruct (Hin i) as [w [w' [F1 [F2 F3]]]]; [apply Hkey; eauto|].
      cbn in F1, F3. congruence.
    + rewrite (Hn i E). symmetry. specialize (Hout i). cbn in Hout. rewrite Hout; [exact E|].
      rewrite Hkey, E. intros [? Hx]. discriminate.
  - intros k v _ Hk Hb. cbn in Hk. destruct seq as [m|] eqn:E; [|reflexivity]. exfalso.
    destruct (Hval m eq_refl) as [_ Hpt]. destruct (Hpt k v Hk) as [v' [Hv' _]]. congruence.
Qed.

Theorem C41_hash_par_values_mut :
  forall A V (AX : Axis A) (h : HashHistogram A V) (f : V -> outcome V) order par_order,
  an_order (hash_as_map h) order -> an_order (hash_as_map h) par_order ->
  any_schedule_agrees hash_slots (fun _ => f) (hash_par_start h par_order)
    (let! h' := hash_values_mut h order f in Val (hash_as_map h')).
Proof.
  intros A V AX h f order par_order Ho Hp. destruct (C33_hash_values_mut A V AX h order f Ho) as [H1 H2].
  unfold hash_par_start. apply sparse_agrees; [exact Hp| |].
  - intros m Hm. apply obind_val in Hm as [h' [Hh Hm]]. injection Hm as <-. destruct (H2 h' Hh) as [_ [Hn Hpt]].
    split; [exact Hn | exact Hpt].
  - intros Hall. destruct (proj2 H1 Hall) as [h' Hh]. rewrite Hh. cbn [obind]. eauto.
Qed.
Print Assumptions C41_hash_par_values_mut.

Theorem C41_hash_par_iter_mut :
  forall A V (AX : Axis A) (h : HashHistogram A V) n (f : N -> Interval -> V -> outcome V) order par_order,
  has_bins AX (hh_axes h) n -> (forall i v, hash_value_at_index h i = Some v -> i < n) ->
  an_order (hash_as_map h) order -> an_order (hash_as_map h) par_order ->
  any_schedule_agrees hash_slots (item_body (hh_axes h) f) (hash_par_start h par_order)
    (let! h' := hash_iter_mut h order f in Val (hash_as_map h')).
Proof.
  intros A V AX h n f order par_order Hb Hk Ho Hp. destruct (C33_hash_iter_mut A V AX h n order f Hb Hk Ho) as [H1 H2].
  unfold hash_par_start. apply sparse_agrees; [exact Hp| |].
  - intros m Hm. apply obind_val in Hm as [h' [Hh Hm]]. injection Hm as <-. destruct (H2 h' Hh) as [_ [Hn Hpt]].
    split; [exact Hn|]. intros i v Hv. destruct (Hpt i v Hv) as [b [v' [Hbi [Hf Hl]]]]. exists v'. split; [|exact Hl].
    unfold item_body. rewrite Hbi. exact Hf.
  - intros Hall. assert (Hex : exists h', hash_iter_mut h order f = Val h').
    { apply H1. intros i b v Hbi Hv. destruct (Hall i v Hv) as [v' Hv']. exists v'. unfold item_body in Hv'.
      rewrite Hbi in Hv'. exact Hv'. }
    destruct Hex as [h' Hh]. rewrite Hh. cbn [obind]. eauto.
Qed.
Print Assumptions C41_hash_par_iter_mut.

(** ** C41: reading parallel iterators *)

Lemma mapo_perm {X Y} (f : X -> outcome Y) l l' r : Permutation l l' -> mapo f l = Val r ->
  exists r', mapo f l' = Val r' /\ Permutation r r'.
Proof.
  intros Hp. revert r. induction Hp as [|x l l' Hp IH|x y l|l l' l'' Hp1 IH1 Hp2 IH2]; intros r Hr; cbn [mapo] in *.
  - injection Hr as <-. eauto.
  - apply obind_val in Hr as [y [Hy Hr]]. apply obind_val in Hr as [ys [Hys Hr]]. injection Hr as <-.
    destruct (IH _ Hys) as [r' [E P]]. rewrite Hy. cbn [obind]. rewrite E. cbn [obind]. eauto.
  - apply obind_val in Hr as [a [Ha Hr]]. apply obind_val in Hr as [as' [Has Hr]]. injection Hr as <-.
    apply obind_val in Has as [b [Hb Has]]. apply obind_val in Has as [bs [Hbs Has]]. injection Has as <-.
    rewrite Hb. cbn [obind]. rewrite Ha. cbn [obind]. rewrite Hbs. cbn [obind]. eexists. split; [reflexivity|]. apply perm_swap.
  - destruct (IH1 _ Hr) as [r1 [E1 P1]]. destruct (IH2 _ E1) as [r2 [E2 P2]]. exists r2. split; [exact E2|].
    etransitivity; eassumption.
Qed.

(** The items of the dense parallel iterators are those of the sequential ones,
    in the same order (they are indexed, so [collect] restores it); those of the
    sparse ones are the same up to the order of the entries. *)
Theorem C41_par_items_agree :
  (forall A V (AX : Axis A) (h : VecHistogram A V) n,
     has_bins AX (vh_axes h) n -> N.of_nat (length (vec_values h)) = n ->
     vec_par_iter h = vec_iter h /\ vec_par_values h = vec_values h)
  /\ (forall A V (AX : Axis A) (h : HashHistogram A V) n order par_order,
     has_bins AX (hh_axes h) n -> (forall i v, hash_value_at_index h i = Some v -> i < n) ->
     an_order (hash_as_map h) order -> an_order (hash_as_map h) par_order ->
     exists items par_items, hash_iter h order = Val items /\ hash_par_iter h par_order = Val par_items
       /\ Permutation par_items items /\ Permutation (hash_par_values par_order) (hash_values order)).
Proof.
  split.
  - intros A V AX h n Hb Hl. split; [|reflexivity]. unfold vec_values in Hl.
    destruct (vec_iter_spec h n Hb ltac:(lia)) as [items [E [E1 [E2 E3]]]]. rewrite E. unfold vec_par_iter.
    apply Forall2_mapo. rewrite Hl.
    assert (Hg : forall is vs items, map it_index items = is -> map it_value items = vs ->
      (forall it : Item Interval V, In it items -> bin (vh_axes h) (it_index it) = Val (Some (it_bin it))) ->
      Forall2 (fun (p : N * V) it => (let! ob := bin (vh_axes h) (fst p) in let! b := expect ob in Val (mkItem (fst p) b (snd p))) = Val it)
        (combine is vs) items).
    { clear. intros is vs items <- <- Hbin. induction items as [|it items IH]; cbn [map combine]; constructor.
      - cbn [fst snd]. rewrite (Hbin it (or_introl eq_refl)). cbn [obind expect]. destruct it; reflexivity.
      - apply IH. intros it' Hin. apply Hbin. right. exact Hin. }
    apply Hg; [exact E1 | exact E2 |]. intros it Hin. apply (E3 it Hin).
  - intros A V AX h n order par_order Hb Hk Ho Hp.
    assert (Hperm : Permutation par_order order).
    { etransitivity; [exact Hp|]. symmetry. exact Ho. }
    destruct (C31_hash_iter A V AX h n order Hb Hk Ho) as [items [E _]].
    destruct (mapo_perm _ _ _ items (Permutation_sym Hperm) E) as [par_items [E' Hpi]].
    exists items, par_items. split; [exact E|]. split; [exact E'|]. split; [symmetry; exact Hpi|].
    apply Permutation_map. exact Hperm.
Qed.
Print Assumptions C41_par_items_agree.

(** A reduction with an associative operation and a neutral element gives the
    sequential result however the items are split. *)
Theorem C41_parallel_reduction :
  forall X (op : X -> X -> X) (id : X) (t : split_tree X),
  (forall x y z, op x (op y z) = op (op x y) z) -> (forall x, op id x = x) -> (forall x, op x id = x) ->
  tree_reduce op id t = fold_left op (tree_items t) id.
Proof.
  intros X op id t Ha Hl Hr.
  assert (Hf : forall l x, fold_left op l x = op x (fold_left op l id)).
  { induction l as [|y l IH]; intros x; cbn [fold_left]; [symmetry; apply Hr|].
    rewrite IH, (IH (op id y)), Hl, Ha. reflexivity. }
  induction t as [l|a IHa b IHb]; cbn [tree_reduce tree_items]; [reflexivity|].
  rewrite fold_left_app, IHa, IHb. symmetry. apply Hf.
Qed.
Print Assumptions C41_parallel_reduction.

(** Three counters doubled in parallel: a schedule that interleaves the tasks. *)
Example C41_nonvacuous : forall B : Build,
  let h := mkVecHist (A := Category Z) (category_new [5; 7]%Z) [1; 2; 3]%Z in
  has_bins (ex_axis B) (vh_axes h) 3
  /\ exists s, clos_refl_trans _ (par_step vec_slots (fun _ v => Val (2 * v)%Z)) (vec_par_start h) s
     /\ par_finished s [2; 4; 6]%Z
     /\ tree_reduce Z.add 0%Z (Join (Chunk [2]) (Chunk [4; 6]))%Z = 12%Z.
Proof.
  intros B h. split; [apply (PropAxes.C20_category_has_bins B Z _ [5; 7]%Z); destruct B as [? []]; reflexivity|].
  exists (mkPar [2; 4; 6]%Z [(0, Done); (1, Done); (2, Done)]).
  split; [|split; [|reflexivity]; split; [reflexivity | repeat constructor]].
  unfold vec_par_start, par_start, h. cbn.
  eapply rt_trans; [apply rt_step, (step_load _ _ _ [(0, Todo)] 1 [(2, Todo)]); reflexivity|].
  eapply rt_trans; [apply rt_step, (step_load _ _ _ [] 0 [(1, Loaded 2%Z); (2, Todo)]); reflexivity|].
  eapply rt_trans; [apply rt_step, (step_load _ _ _ [(0, Loaded 1%Z); (1, Loaded 2%Z)] 2 []); reflexivity|].
  eapply rt_trans; [apply rt_step, (step_store _ _ _ [(0, Loaded 1%Z)] 1 [(2, Loaded 3%Z)]); reflexivity|].
  eapply rt_trans; [apply rt_step, (step_store _ _ _ [(0, Loaded 1%Z); (1, Done)] 2 []); reflexivity|].
  eapply rt_trans; [apply rt_step, (step_store _ _ _ [] 0 [(1, Done); (2, Done)]); reflexivity|].
  apply rt_refl.
Qed.
