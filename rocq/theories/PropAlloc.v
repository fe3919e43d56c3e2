(** * PropAlloc: dense histograms and the size limit of [Vec] (C86). *)
From stdpp Require Import base list gmap.
From Coq Require Import List ZArith NArith Bool Lia ZifyN ZifyNat ZifyBool.
From Verif Require Import Base BaseFacts Num Axis Uniform Axes AxesSpec Value VecHist HashHist HistSpec Macros Program Alloc HistFacts PropAxes PropHist.
Import ListNotations.
Open Scope N_scope.

Section Alloc.
Context {B : Build} {A V D W : Type} {AX : Axis A} {AE : AxisEq A} {FV : Fill V} {FD : FillWith V D} {FW : FillWithWeighted V D W}
        {DV : Default V} (size : N).
Notation small n := (size * n <= isize_max).
Notation small_hist h := (small (N.of_nat (length (vh_values h)))).

(** C86. [VecHistogram::new] succeeds exactly if the number of bins can be computed and the bin
    values take at most [isize::MAX] bytes; then it has one default value per bin. *)
Theorem C86_creation (a : A) :
  (forall h : VecHistogram A V, vec_new_in size a = Val h <->
     exists n, num_bins a = Val n /\ small n /\ vh_axes h = a /\ vh_values h = repeat default_v (N.to_nat n))
  /\ ((vec_new_in size a : outcome (VecHistogram A V)) = Panic <-> num_bins a = Panic \/ exists n, num_bins a = Val n /\ isize_max < size * n).
Proof.
  unfold vec_new_in. destruct (num_bins a) as [n|]; cbn [obind].
  - destruct (N.leb_spec (size * n) isize_max) as [Hs|Hs]; split.
    + intros h. split.
      * intros E. injection E as <-. exists n. cbn. auto.
      * intros [m [E1 [_ [E2 E3]]]]. injection E1 as <-. destruct h as [a' vs]. cbn in E2, E3. subst. reflexivity.
    + split; [discriminate|]. intros [C|[m [E C]]]; [discriminate | injection E as <-; lia].
    + intros h. split; [discriminate|]. intros [m [E1 [C _]]]. injection E1 as <-. lia.
    + split; [intros _; right; exists n; auto | reflexivity].
  - split; [|tauto]. intros h. split; [discriminate|]. intros [m [E1 _]]. discriminate.
Qed.

Lemma alloc_small (h : VecHistogram A V) : small_hist h -> vec_alloc_values size h = Val h.
Proof.
  intros Hs. unfold vec_alloc_values, vec_alloc. rewrite (proj2 (N.leb_le _ _) Hs). destruct h; reflexivity.
Qed.
Lemma alloc_val (h h' : VecHistogram A V) : vec_alloc_values size h = Val h' -> h' = h /\ small_hist h.
Proof.
  unfold vec_alloc_values, vec_alloc. destruct (N.leb_spec (size * N.of_nat (length (vh_values h))) isize_max) as [Hs|Hs]; cbn [obind]; [|discriminate].
  intros E. injection E as <-. destruct h; auto.
Qed.

(** Every variable is within the limit. *)
Definition small_store (st : store (VecHistogram A V)) : Prop := forall x h, st x = Some h -> small_hist h.

Lemma small_write st x (h : VecHistogram A V) : small_store st -> small_hist h -> small_store (write st x h).
Proof.
  intros Hst Hh y g. unfold write. destruct (Nat.eqb x y); [intros E; injection E as <-; exact Hh | apply Hst].
Qed.
Lemma read_some {H} (st : store H) x h : read st x = Val h -> st x = Some h.
Proof. unfold read. destruct (st x); [intros E; injection E as ->; reflexivity | discriminate]. Qed.

Lemma command_small c st a st' : small_store st -> (forall x b, c <> New x b) -> dense_command c st = Val (a, st') -> small_store st'.
Proof.
  intros Hst Hnew. destruct c as [x b|x o|x f|x f|x y|op x y z|op x y z|op x y|x i|x c|x]; cbn [dense_command]; intros E.
  - exfalso. exact (Hnew x b eq_refl).
  - apply obind_val in E as [h [Hr E]]. apply obind_val in E as [h' [Hc E]]. injection E as <- <-.
    apply small_write; [exact Hst|]. rewrite (proj2 (vec_call_axes _ _ _ Hc)). exact (Hst _ _ (read_some _ _ _ Hr)).
  - apply obind_val in E as [h [Hr E]]. apply obind_val in E as [h' [Hc E]]. injection E as <- <-.
    apply small_write; [exact Hst|]. rewrite (proj2 (vec_values_mut_axes _ _ _ Hc)). exact (Hst _ _ (read_some _ _ _ Hr)).
  - apply obind_val in E as [h [Hr E]]. apply obind_val in E as [h' [Hc E]]. injection E as <- <-.
    apply small_write; [exact Hst|]. rewrite (proj2 (vec_iter_mut_axes _ _ _ Hc)). exact (Hst _ _ (read_some _ _ _ Hr)).
  - apply obind_val in E as [h [Hr E]]. injection E as <- <-. apply small_write; [exact Hst|]. exact (Hst _ _ (read_some _ _ _ Hr)).
  - apply obind_val in E as [l [Hl E]]. apply obind_val in E as [r [Hr E]]. apply obind_val in E as [res [Hb E]].
    destruct res as [h|]; injection E as <- <-; [|exact Hst]. apply small_write; [exact Hst|].
    pose proof (Hst _ _ (read_some _ _ _ Hl)) as Hs. unfold vec_binop_borrowed in Hb. destruct (negb _); [discriminate|].
    apply obind_val in Hb as [vs [Hm Hb]]. injection Hb as <-. cbn [vh_values]. rewrite (mapo_length _ _ _ Hm), combine_length. nia.
  - apply obind_val in E as [l [Hl E]]. apply obind_val in E as [r [Hr E]]. apply obind_val in E as [res [Hb E]].
    destruct res as [h|]; injection E as <- <-; [|exact Hst]. apply small_write; [exact Hst|].
    pose proof (Hst _ _ (read_some _ _ _ Hl)) as Hs. unfold vec_binop_owned in Hb. destruct (negb _); [discriminate|].
    apply obind_val in Hb as [vs [Hm Hb]]. injection Hb as <-. cbn [vh_values]. rewrite (zip_assign_length _ _ _ _ Hm). exact Hs.
  - apply obind_val in E as [l [Hl E]]. apply obind_val in E as [r [Hr E]]. apply obind_val in E as [h [Hb E]]. injection E as <- <-.
    apply small_write; [exact Hst|].
    pose proof (Hst _ _ (read_some _ _ _ Hl)) as Hs. unfold vec_binop_assign in Hb. destruct (negb _); [discriminate|].
    apply obind_val in Hb as [vs [Hm Hb]]. injection Hb as <-. cbn [vh_values]. rewrite (zip_assign_length _ _ _ _ Hm). exact Hs.
  - apply obind_val in E as [h [Hr E]]. injection E as <- <-. exact Hst.
  - apply obind_val in E as [h [Hr E]]. apply obind_val in E as [v [_ E]]. injection E as <- <-. exact Hst.
  - apply obind_val in E as [h [Hr E]]. injection E as <- <-. exact Hst.
Qed.

(** Only [new] can hit the limit: every other operation on histograms that exist, including
    [clone], the operators and those with a scalar, works as without it. *)
Theorem C86_only_new c st : small_store st -> (forall x a, c <> New x a) -> dense_command_in size c st = dense_command c st.
Proof.
  intros Hst Hnew. destruct c as [x b|x o|x f|x f|x y|op x y z|op x y z|op x y|x i|x c|x]; cbn [dense_command_in]; try reflexivity.
  - exfalso. exact (Hnew x b eq_refl).
  - cbn [dense_command]. destruct (read st y) as [h|] eqn:E; [|reflexivity]. cbn [obind].
    rewrite alloc_small by exact (Hst _ _ (read_some _ _ _ E)). reflexivity.
  - destruct (dense_command (Borrowed op x y z) st) as [[an st']|] eqn:E.
    + pose proof (command_small _ _ _ _ Hst Hnew E) as Hst'. cbn [dense_command] in E.
      apply obind_val in E as [l [Hl E]]. apply obind_val in E as [r [Hr E]]. apply obind_val in E as [res [Hb E]].
      rewrite Hl, Hr. cbn [obind]. rewrite Hb. cbn [obind]. destruct res as [h|]; injection E as <- <-; [|reflexivity].
      rewrite alloc_small; [reflexivity|]. apply (Hst' x). unfold write. rewrite Nat.eqb_refl. reflexivity.
    + cbn [dense_command] in E. destruct (read st y) as [l|]; [|reflexivity]. cbn [obind] in *. destruct (read st z) as [r|]; [|reflexivity]. cbn [obind] in *.
      destruct (vec_binop_borrowed op l r); [discriminate | reflexivity].
  - cbn [dense_command]. destruct (read st y) as [l|] eqn:E; [|reflexivity]. cbn [obind].
    rewrite alloc_small by exact (Hst _ _ (read_some _ _ _ E)). reflexivity.
Qed.
Theorem C86_scalar (op : V -> V -> outcome V) (h : VecHistogram A V) v : small_hist h -> vec_scalar_op_in size op h v = vec_scalar_op op h v.
Proof.
  intros Hs. unfold vec_scalar_op_in. destruct (vec_scalar_op op h v) as [h'|] eqn:E; [|reflexivity]. cbn [obind]. apply alloc_small.
  unfold vec_scalar_op in E. apply obind_val in E as [vs [Hm E]]. injection E as <-. cbn [vh_values]. rewrite (mapo_length _ _ _ Hm). exact Hs.
Qed.

(** All histograms that the program creates with [new] are within the limit. *)
Inductive creates_small {R} : program (AX := AX) V D W R -> Prop :=
| cs_return r : creates_small (Return r)
| cs_do c k : (forall x a n, c = New x a -> num_bins a = Val n -> small n) -> (forall a, creates_small (k a)) -> creates_small (Do c k).

Lemma new_small a : (forall n, num_bins a = Val n -> small n) -> (vec_new_in size a : outcome (VecHistogram A V)) = vec_new a.
Proof.
  intros Hs. unfold vec_new_in, vec_new. destruct (num_bins a) as [n|]; [|reflexivity]. cbn [obind].
  rewrite (proj2 (N.leb_le _ _) (Hs n eq_refl)). reflexivity.
Qed.
Lemma new_in_val a (h : VecHistogram A V) : vec_new_in size a = Val h -> vec_new a = Val h /\ small_hist h.
Proof.
  intros E. apply C86_creation in E as [n [En [Hs [Ea Ev]]]]. destruct h as [a' vs]. cbn in Ea, Ev. subst.
  split; [unfold vec_new; rewrite En; reflexivity|]. cbn [vh_values]. rewrite repeat_length, N2Nat.id. exact Hs.
Qed.
Lemma step_in c st q : small_store st -> dense_command_in size c st = Val q -> dense_command c st = Val q /\ small_store (snd q).
Proof.
  intros Hst E.
  assert (Hc : (exists x a, c = New x a) \/ (forall x a, c <> New x a)) by (destruct c; [left; eauto | right; discriminate..]).
  destruct Hc as [[x [a ->]]|Hc].
  - cbn [dense_command_in dense_command] in *. apply obind_val in E as [h [Hn E]]. injection E as <-.
    destruct (new_in_val _ _ Hn) as [-> Hs]. cbn [obind snd]. split; [reflexivity | apply small_write; assumption].
  - rewrite (C86_only_new c st Hst Hc) in E. split; [exact E|]. destruct q as [an st']. exact (command_small _ _ _ _ Hst Hc E).
Qed.

(** Client programs: what a program computes with the limit is what it computes without it, and it
    never holds a histogram beyond the limit; a program that creates none panics only
    if it would panic anyway. *)
Theorem C86_programs {R} (p : program (AX := AX) V D W R) :
  (forall r st', dense_run_in size p (fun _ => None) = Val (r, st') ->
     dense_run p (fun _ => None) = Val (r, st') /\ small_store st')
  /\ (creates_small p -> dense_run_in size p (fun _ => None) = dense_run p (fun _ => None)).
Proof.
  assert (H0 : small_store (fun _ => None)) by (intros x h E; discriminate).
  revert H0. generalize (fun _ : nat => None : option (VecHistogram A V)). induction p as [r|c k IH]; intros st Hst.
  - split; [|reflexivity]. cbn. intros r' st' E. injection E as <- <-. split; [reflexivity | exact Hst].
  - cbn [dense_run_in dense_run]. split.
    + intros r st' E. apply obind_val in E as [q [Hq E]]. destruct (step_in _ _ _ Hst Hq) as [-> Hst']. cbn [obind].
      exact (proj1 (IH _ _ Hst') _ _ E).
    + intros Hs. inversion Hs as [|c' k' Hnew Hk]; subst.
      assert (Ec : dense_command_in size c st = dense_command c st).
      { assert (Hc : (exists x a, c = New x a) \/ (forall x a, c <> New x a)) by (destruct c; [left; eauto | right; discriminate..]).
        destruct Hc as [[x [a ->]]|Hc]; [|exact (C86_only_new c st Hst Hc)].
        cbn [dense_command_in dense_command]. rewrite (new_small a (fun n => Hnew x a n eq_refl)). reflexivity. }
      rewrite Ec. destruct (dense_command c st) as [q|] eqn:E; [|reflexivity]. cbn [obind].
      destruct (step_in c st q Hst (eq_trans Ec eq_refl)) as [_ Hst']. apply (proj2 (IH _ _ Hst')). apply Hk.
Qed.
End Alloc.
Print Assumptions C86_creation.
Print Assumptions C86_only_new.
Print Assumptions C86_scalar.
Print Assumptions C86_programs.

(** [ndhistogram!] over several axes: with overflow checks it succeeds exactly if the number of cells
    fits [usize] and their values fit the limit. *)
Theorem C86_tuple (B : Build) V (DV : Default V) (size : N) (ts : list axis_type) (axes : axes_tuple ts) ns :
  overflow_checks = true -> ts <> [] -> tuple_has_bins ts axes ns ->
  (exists h : VecHistogram (AxesTuple ts) V, ndhistogram_in size ts axes = Val h) <-> products_fit ns /\ size * product ns <= isize_max.
Proof.
  intros HC Hts Hb. destruct (C25_overflow_detected B ts axes ns HC Hb) as [H1 _]. unfold ndhistogram_in.
  split.
  - intros [h E]. apply obind_val in E as [a [Ha E]]. pose proof (proj1 H1 (ex_intro _ a Ha)) as Hf. split; [exact Hf|].
    destruct (C20_axes_tuple_has_bins B ts axes ns Hts Hb Hf) as [a' [Ha' Hn]]. pose proof (eq_trans (eq_sym Ha') Ha) as Q. injection Q as ->.
    apply (C86_creation (AX := axes_axis ts)) in E as [n [En [Hs _]]]. destruct Hn as [Hn _]. pose proof (eq_trans (eq_sym En) Hn) as Q. injection Q as ->. exact Hs.
  - intros [Hf Hs]. destruct (C20_axes_tuple_has_bins B ts axes ns Hts Hb Hf) as [a [Ha [Hn _]]]. rewrite Ha. cbn [obind].
    rewrite (new_small (AX := axes_axis ts)); [unfold vec_new; pose proof Hn as Hn'; cbn in Hn' |- *; rewrite Hn'; cbn [obind]; eauto|].
    intros n En. pose proof (eq_trans (eq_sym En) Hn) as Q. injection Q as ->. exact Hs.
Qed.
Print Assumptions C86_tuple.

(** On a 64-bit target, [VecHistogram::<_, f64>::new] for an axis of 2^60 bins panics, for one bin less it
    does not (as far as the limit goes); three variables with 10 bins each. *)
#[local] Instance ex86_axis {B : Build} : Axis (UniformNoFlow Z) := uniformnoflow_axis (int_ops (signed 64)).
#[local] Instance ex86_default : Default Z := {| default_v := 0%Z |}.
Definition ex86_bins (n : N) : UniformNoFlow Z := mkUniformNoFlow (mkUniform n 0%Z (Z.of_N n) 1%Z).
Example C86_nonvacuous : forall oc, let B := {| overflow_checks := oc; target_width := P64 |} in
  (@vec_new_in B (UniformNoFlow Z) Z ex86_axis ex86_default 8 (ex86_bins (2 ^ 60)) = Panic)
  /\ (exists h, @vec_new_in B (UniformNoFlow Z) Z ex86_axis ex86_default 8 (ex86_bins (2 ^ 60 - 1)) = Val h)
  /\ (forall D W, @creates_small B (UniformNoFlow Z) Z D W ex86_axis 8 unit
        (Do (New 0 (ex86_bins 10)) (fun _ => Do (Clone 1 0) (fun _ => Return tt))))
  /\ (@small_store B (UniformNoFlow Z) Z 8 (write (fun _ => None) 0 (mkVecHist (ex86_bins 10) (repeat 0%Z 10)))).
Proof.
  intros oc B. split.
  { apply (proj2 (@C86_creation B (UniformNoFlow Z) Z ex86_axis ex86_default 8 (ex86_bins (2 ^ 60)))). right. exists (2 ^ 60). split; reflexivity. }
  split.
  { eexists (mkVecHist (ex86_bins (2 ^ 60 - 1)) (repeat 0%Z (N.to_nat (2 ^ 60 - 1)))).
    apply (proj1 (@C86_creation B (UniformNoFlow Z) Z ex86_axis ex86_default 8 (ex86_bins (2 ^ 60 - 1)))). exists (2 ^ 60 - 1).
    split; [reflexivity|]. split; [vm_compute; discriminate|]. split; reflexivity. }
  split.
  { intros D W. constructor.
    - intros x a n E. injection E as <- <-. intros En. injection En as <-. vm_compute; discriminate.
    - intros _. constructor; [discriminate|]. intros _. constructor. }
  intros x h. unfold write. destruct (Nat.eqb 0 x); [|discriminate]. intros E. injection E as <-. vm_compute; discriminate.
Qed.
