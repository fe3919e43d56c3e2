(** * PropShared: several threads filling one histogram behind a lock (C72). *)
From stdpp Require Import gmap.
From Verif Require Import Base BaseFacts Num IntFacts Axis Spec AxesSpec Category Value VecHist HashHist HistSpec HistFacts HashFacts
  OpsFacts PropCategory PropHist PropHistIter PropOrder.
Open Scope N_scope.

(** ** The threads

    Each thread has a list of fill calls to make, one lock acquisition per call
    ([hist.lock().unwrap().fill(..)]). A schedule picks, at every step, any thread
    that still has a call to make. A call that panics poisons the lock, so that
    every later acquisition panics as well: the histogram is never seen again. *)
Section Threads.
Context {H Call : Type} (call : H -> Call -> outcome H).

(** What is left to do for every thread, and the histogram (None: poisoned). *)
Definition shared_state : Type := (list (list Call) * option H)%type.

Inductive shared_step : shared_state -> shared_state -> Prop :=
| ss_return before c cs after h h' : call h c = Val h' ->
    shared_step (before ++ (c :: cs) :: after, Some h) (before ++ cs :: after, Some h')
| ss_panic before c cs after h : call h c = Panic ->
    shared_step (before ++ (c :: cs) :: after, Some h) (before ++ cs :: after, None).

Inductive shared_run : shared_state -> shared_state -> Prop :=
| sr_here s : shared_run s s
| sr_more s s' s'' : shared_step s s' -> shared_run s' s'' -> shared_run s s''.

(** Nothing more can happen. *)
Definition finished (s : shared_state) : Prop := Forall (fun cs => cs = []) (fst s) \/ snd s = None.
End Threads.

Section Facts.
Context {H Call : Type} (call : H -> Call -> outcome H).

Lemma concat_middle {X} (b a : list (list X)) c cs :
  Permutation (concat (b ++ (c :: cs) :: a)) (c :: concat (b ++ cs :: a)).
Proof.
  rewrite !concat_app. cbn [concat app]. symmetry. apply Permutation_middle.
Qed.

Lemma step_cases (s s' : shared_state (H := H) (Call := Call)) : shared_step call s s' ->
  exists c h, snd s = Some h /\ Permutation (concat (fst s)) (c :: concat (fst s'))
    /\ match snd s' with Some h' => call h c = Val h' | None => call h c = Panic end.
Proof.
  intros Hs. destruct Hs as [b c cs a h h' E | b c cs a h E]; exists c, h; (split; [reflexivity|]); (split; [apply concat_middle | exact E]).
Qed.

(** A run that has performed the calls [done], in that order. *)
Lemma run_done s s' : shared_run call s s' ->
  forall h, snd s = Some h -> exists did, Permutation (concat (fst s)) (did ++ concat (fst s'))
    /\ match snd s' with Some h' => foldo call did h = Val h' | None => foldo call did h = Panic end.
Proof.
  induction 1 as [s | s s' s'' Hs Hr IH]; intros h Eh.
  - exists []. split; [reflexivity|]. rewrite Eh. reflexivity.
  - destruct (step_cases _ _ Hs) as [c [h1 [E1 [HP Hc]]]]. rewrite Eh in E1. injection E1 as <-.
    destruct (snd s') as [h'|] eqn:Es'.
    + destruct (IH h' eq_refl) as [did [HP' Hf]]. exists (c :: did). split.
      * rewrite HP. cbn [app]. apply perm_skip. exact HP'.
      * cbn [foldo]. rewrite Hc. cbn [obind]. exact Hf.
    + inversion Hr as [x Ex Ey | x y z Hst _ Ex Ey]; subst.
      * exists [c]. split; [exact HP|]. rewrite Es'. cbn [foldo]. rewrite Hc. reflexivity.
      * destruct (step_cases _ _ Hst) as [? [? [E2 _]]]. rewrite Es' in E2. discriminate.
Qed.
End Facts.

(** ** C72

    Whatever the schedule: when all threads are done the histogram is the one a
    single thread gets by making all the calls in any order; a panic (poisoned
    lock) happens under one schedule only if it happens in every order. Nobody
    waits for ever: as long as a call is left and the lock is not poisoned, a step
    is possible, and there are no more steps than calls. *)
Theorem C72_shared_histogram :
  forall A V D W (AX : Axis A) (FV : Fill V) (FD : FillWith V D) (FW : FillWithWeighted V D W)
         (DV : Default V) (P : V -> Prop) (threads : list (list (fill_op D W))) (all : list (fill_op D W)),
  Permutation all (concat threads) ->
  (forall o1 o2, In o1 all -> In o2 all -> calls_commute P o1 o2) ->
  (forall o, In o all -> call_keeps P o) ->
  (forall h : VecHistogram A V, (forall i v, vec_value_at_index h i = Some v -> P v) ->
     forall s, shared_run vec_call (threads, Some h) s -> finished s ->
     match snd s with Some h' => vec_calls h all = Val h' | None => vec_calls h all = Panic end)
  /\ (forall h : HashHistogram A V, P default_v -> (forall i v, hash_value_at_index h i = Some v -> P v) ->
     forall s, shared_run hash_call (threads, Some h) s -> finished s ->
     match snd s with Some h' => hash_calls h all = Val h' | None => hash_calls h all = Panic end).
Proof.
  intros A V D W AX FV FD FW DV P threads all HP Hcomm Hkeep.
  assert (Hdone : forall (X : Type) (did rest : list (fill_op (AX := AX) D W)), Permutation (concat threads) (did ++ rest) -> rest = [] -> Permutation all did).
  { intros X did rest H1 ->. rewrite app_nil_r in H1. rewrite HP. exact H1. }
  assert (Hnil : forall cs : list (list (fill_op (AX := AX) D W)), Forall (fun c => c = []) cs -> concat cs = []).
  { intros cs. induction 1 as [|c cs -> _ IH]; [reflexivity|]. exact IH. }
  assert (Hpanic : forall (H : Type) (call : H -> fill_op D W -> outcome H) did rest h, foldo call did h = Panic -> foldo call (did ++ rest) h = Panic).
  { intros H call did. induction did as [|c cs IH]; intros rest h E; [discriminate E|].
    cbn [app foldo] in *. destruct (call h c) as [h'|]; [|reflexivity]. cbn [obind] in *. apply IH. exact E. }
  split.
  - intros h Hh s Hr Hf. destruct (run_done vec_call _ _ Hr h eq_refl) as [did [Hp Hd]]. cbn [fst] in Hp.
    destruct (snd s) as [h'|] eqn:Es.
    + destruct Hf as [Hf|Hf]; [|rewrite Es in Hf; discriminate].
      pose proof (Hdone unit did _ Hp (Hnil _ Hf)) as Hall.
      destruct (C34_fill_order_irrelevant A V D W AX FV FD FW DV P all did Hcomm Hkeep Hall) as [Hv _].
      rewrite (Hv h Hh). exact Hd.
    + assert (Hall : Permutation all (did ++ concat (fst s))) by (rewrite HP; exact Hp).
      destruct (C34_fill_order_irrelevant A V D W AX FV FD FW DV P all _ Hcomm Hkeep Hall) as [Hv _].
      rewrite (Hv h Hh). apply Hpanic. exact Hd.
  - intros h HPd Hh s Hr Hf. destruct (run_done hash_call _ _ Hr h eq_refl) as [did [Hp Hd]]. cbn [fst] in Hp.
    destruct (snd s) as [h'|] eqn:Es.
    + destruct Hf as [Hf|Hf]; [|rewrite Es in Hf; discriminate].
      pose proof (Hdone unit did _ Hp (Hnil _ Hf)) as Hall.
      destruct (C34_fill_order_irrelevant A V D W AX FV FD FW DV P all did Hcomm Hkeep Hall) as [_ Hv].
      rewrite (Hv h HPd Hh). exact Hd.
    + assert (Hall : Permutation all (did ++ concat (fst s))) by (rewrite HP; exact Hp).
      destruct (C34_fill_order_irrelevant A V D W AX FV FD FW DV P all _ Hcomm Hkeep Hall) as [_ Hv].
      rewrite (Hv h HPd Hh). apply Hpanic. exact Hd.
Qed.
Print Assumptions C72_shared_histogram.

(** At every moment in between, the histogram is that of the calls made so far:
    no call is lost, made twice or half made. *)
Theorem C72_no_lost_call :
  forall A V D W (AX : Axis A) (FV : Fill V) (FD : FillWith V D) (FW : FillWithWeighted V D W) (DV : Default V)
         (threads left_ : list (list (fill_op D W))),
  (forall h h' : VecHistogram A V, shared_run vec_call (threads, Some h) (left_, Some h') ->
     exists did, Permutation (concat threads) (did ++ concat left_) /\ vec_calls h did = Val h')
  /\ (forall h h' : HashHistogram A V, shared_run hash_call (threads, Some h) (left_, Some h') ->
     exists did, Permutation (concat threads) (did ++ concat left_) /\ hash_calls h did = Val h').
Proof.
  intros A V D W AX FV FD FW DV threads left_. split; intros h h' Hr.
  - exact (run_done vec_call _ _ Hr h eq_refl).
  - exact (run_done hash_call _ _ Hr h eq_refl).
Qed.
Print Assumptions C72_no_lost_call.

(** Progress and termination, for any kind of call. *)
Theorem C72_always_finishes : forall (H Call : Type) (call : H -> Call -> outcome H) (s : shared_state (H := H) (Call := Call)),
  (~ finished s -> exists s', shared_step call s s')
  /\ (forall s', shared_step call s s' -> (length (concat (fst s')) < length (concat (fst s)))%nat)
  /\ exists s', shared_run call s s' /\ finished s'.
Proof.
  intros H Call call.
  assert (Hprog : forall s : shared_state (H := H) (Call := Call), finished s \/ exists s', shared_step call s s').
  { intros [ts [h|]]; [|left; right; reflexivity].
    assert (Hts : Forall (fun cs => cs = []) ts \/ exists before c cs after, ts = before ++ (c :: cs) :: after).
    { induction ts as [|[|c cs] ts IH]; [left; constructor| |].
      - destruct IH as [IH|[b [c [cs [a ->]]]]]; [left; constructor; [reflexivity | exact IH]|].
        right. exists ([] :: b), c, cs, a. reflexivity.
      - right. exists [], c, cs, ts. reflexivity. }
    destruct Hts as [Hts|[b [c [cs [a ->]]]]]; [left; left; exact Hts|]. right.
    destruct (call h c) as [h'|] eqn:E; eexists; [apply ss_return; exact E | apply ss_panic; exact E]. }
  assert (Hdec : forall s s' : shared_state (H := H) (Call := Call), shared_step call s s' -> (length (concat (fst s')) < length (concat (fst s)))%nat).
  { intros s s' Hs. destruct (step_cases call _ _ Hs) as [c [h [_ [HP _]]]]. rewrite HP. cbn [length]. lia. }
  intros s. split; [|split].
  - intros Hn. destruct (Hprog s) as [Hf|Hs]; [contradiction | exact Hs].
  - apply Hdec.
  - remember (length (concat (fst s))) as n eqn:En. revert s En.
    induction n as [n IH] using lt_wf_ind. intros s ->.
    destruct (Hprog s) as [Hf|[s' Hs]]; [exists s; split; [constructor | exact Hf]|].
    destruct (IH _ (Hdec s s' Hs) s' eq_refl) as [s'' [Hr Hf]]. exists s''. split; [|exact Hf]. econstructor; eassumption.
Qed.
Print Assumptions C72_always_finishes.

(** Integer histograms: in builds that wrap, or with weights that are not
    negative, the premises hold for all calls. *)
Theorem C72_integer_histograms :
  forall (B : Build) (t : int_type) A (AX : Axis A) (threads : list (list (fill_op Z Empty_set))) (h : VecHistogram A Z),
  primitive_int t ->
  overflow_checks = false \/ (forall ops o, In ops threads -> In o ops -> (0 <= amount o)%Z) ->
  (forall i v, vec_value_at_index h i = Some v -> fits t v) ->
  let call := @vec_call _ Z Z Empty_set _ (int_fill t) (int_fill_with t) no_weighted in
  forall s, shared_run call (threads, Some h) s -> finished s ->
  match snd s with
  | Some h' => int_vec_calls t h (concat threads) = Val h'
  | None => int_vec_calls t h (concat threads) = Panic
  end.
Proof.
  intros B t A AX threads h Ht Hor Hh call s Hr Hf.
  assert (Hor' : overflow_checks = false \/ (forall o, In o (concat threads) -> (0 <= amount o)%Z)).
  { destruct Hor as [Hc|Hpos]; [left; exact Hc | right]. intros o Ho. apply in_concat in Ho as [ops [H1 H2]]. exact (Hpos ops o H1 H2). }
  destruct (run_done call _ _ Hr h eq_refl) as [did [Hp Hd]]. cbn [fst] in Hp.
  destruct (C34_int_sums_order_irrelevant B t A AX (concat threads) (did ++ concat (fst s)) Ht Hor' Hp) as [Hv _].
  rewrite (Hv h Hh).
  assert (Hpanic : forall did rest h, foldo call did h = Panic -> foldo call (did ++ rest) h = Panic).
  { clear. intros did. induction did as [|c cs IH]; intros rest h E; [discriminate E|].
    cbn [app foldo] in *. destruct (call h c) as [h'|]; [|reflexivity]. cbn [obind] in *. apply IH. exact E. }
  destruct (snd s) as [h'|] eqn:Es.
  - destruct Hf as [Hf|Hf]; [|rewrite Es in Hf; discriminate].
    assert (concat (fst s) = []) as ->; [|rewrite app_nil_r; exact Hd].
    clear -Hf. induction Hf as [|c cs -> _ IH]; [reflexivity | exact IH].
  - apply Hpanic. exact Hd.
Qed.
Print Assumptions C72_integer_histograms.

(** Two threads, i32 counts: one schedule. *)
Example C72_nonvacuous : forall B : Build,
  let f := @CallFill _ Z Empty_set (ex_axis B) in
  let call := @vec_call _ Z Z Empty_set (ex_axis B) (int_fill (signed 32)) (int_fill_with (signed 32)) no_weighted in
  let h := mkVecHist ex_cat [0; 0; 0; 0]%Z in
  shared_run call ([[f 5; f 7]; [f 7]]%Z, Some h) ([[]; []], Some (mkVecHist ex_cat [1; 2; 0; 0]%Z))
  /\ finished ([[]; []] : list (list (@fill_op _ Z Empty_set (ex_axis B))), Some h)
  /\ primitive_int (signed 32) /\ (forall i v, vec_value_at_index h i = Some v -> fits (signed 32) v).
Proof.
  intros B f call h. split; [|split; [|split]].
  - assert (E1 : call h (f 7%Z) = Val (mkVecHist ex_cat [0; 1; 0; 0]%Z)) by (destruct B as [[] []]; vm_compute; reflexivity).
    assert (E2 : call (mkVecHist ex_cat [0; 1; 0; 0]%Z) (f 5%Z) = Val (mkVecHist ex_cat [1; 1; 0; 0]%Z)) by (destruct B as [[] []]; vm_compute; reflexivity).
    assert (E3 : call (mkVecHist ex_cat [1; 1; 0; 0]%Z) (f 7%Z) = Val (mkVecHist ex_cat [1; 2; 0; 0]%Z)) by (destruct B as [[] []]; vm_compute; reflexivity).
    refine (sr_more _ _ _ _ (ss_return call [[f 5; f 7]%Z] (f 7%Z) [] [] _ _ E1) _).
    refine (sr_more _ _ _ _ (ss_return call [] (f 5%Z) [f 7%Z] [[]] _ _ E2) _).
    refine (sr_more _ _ _ _ (ss_return call [] (f 7%Z) [] [[]] _ _ E3) _).
    apply sr_here.
  - left. repeat constructor.
  - exists 32%Z. split; [lia | tauto].
  - intros i v Hv. unfold vec_value_at_index in Hv. cbn [vh_values h] in Hv.
    assert (v = 0%Z) as ->; [|split; vm_compute; discriminate].
    destruct (N.to_nat i) as [|[|[|[|k]]]]; cbn in Hv; try (injection Hv as <-; reflexivity). destruct k; discriminate.
Qed.
