(** * C68: category axes over types with a user-defined equality. *)
From stdpp Require Import gmap.
From Coq Require Import ZifyN ZifyNat.
From Verif Require Import Base BaseFacts Num Axis Category CategoryFacts CategoryEq PropCategory.
Open Scope N_scope.

(** A lawful [Eq]: an equivalence. *)
Record lawful_eq {T : Type} (eqb : T -> T -> bool) : Prop := {
  le_refl : forall x, eqb x x = true;
  le_sym : forall x y, eqb x y = true -> eqb y x = true;
  le_trans : forall x y z, eqb x y = true -> eqb y z = true -> eqb x z = true
}.

Section Facts.
Context {T : Type} (eqb : T -> T -> bool) (L : lawful_eq eqb).

Lemma eqb_swap x y : eqb x y = eqb y x.
Proof. destruct (eqb x y) eqn:E1, (eqb y x) eqn:E2; try reflexivity; apply (le_sym _ L) in E1 || apply (le_sym _ L) in E2; congruence. Qed.
Lemma eqb_congr x y z : eqb x y = true -> eqb x z = eqb y z.
Proof.
  intros H. destruct (eqb y z) eqn:E; [exact (le_trans _ L _ _ _ H E)|]. destruct (eqb x z) eqn:E'; [|reflexivity].
  rewrite <- E. symmetry. exact (le_trans _ L _ _ _ (le_sym _ L _ _ H) E').
Qed.

Section Map.
Context {V : Type}.
Lemma gget_insert (m : hmap T V) k v k' :
  ghmap_get eqb k' (ghmap_insert eqb k v m) = if eqb k' k then Some v else ghmap_get eqb k' m.
Proof.
  induction m as [|[k0 v0] m IH]; cbn [ghmap_get ghmap_insert].
  - reflexivity.
  - destruct (eqb k k0) eqn:E; cbn [ghmap_get].
    + rewrite (eqb_swap k' k), (eqb_congr k k0 k' E), (eqb_swap k0 k'). destruct (eqb k' k0); reflexivity.
    + rewrite IH. destruct (eqb k' k0) eqn:E0; [|reflexivity]. destruct (eqb k' k) eqn:E1; [|reflexivity].
      rewrite (eqb_congr k' k k0 E1) in E0. congruence.
Qed.
Lemma gget_congr (m : hmap T V) k k' : eqb k k' = true -> ghmap_get eqb k m = ghmap_get eqb k' m.
Proof. intros E. induction m as [|[k0 v0] m IH]; cbn [ghmap_get]; [reflexivity|]. rewrite (eqb_congr k k' k0 E), IH. reflexivity. Qed.
(** No two keys are equal. *)
Fixpoint distinct (l : list T) : Prop :=
  match l with [] => True | k :: l' => (forall k', In k' l' -> eqb k k' = false) /\ distinct l' end.
Lemma insert_keys (m : hmap T V) k v k' : In k' (map fst (ghmap_insert eqb k v m)) -> In k' (map fst m) \/ k' = k.
Proof.
  induction m as [|[k0 v0] m IH]; cbn [ghmap_insert].
  - intros [<-|[]]. right. reflexivity.
  - destruct (eqb k k0); cbn [map fst In]; [tauto|]. intros [H|H]; [tauto|]. destruct (IH H); tauto.
Qed.
Lemma insert_distinct (m : hmap T V) k v : distinct (map fst m) -> distinct (map fst (ghmap_insert eqb k v m)).
Proof.
  induction m as [|[k0 v0] m IH]; cbn [ghmap_insert].
  - intros _. cbn. split; [intros ? []|exact I].
  - destruct (eqb k k0) eqn:E; cbn [map fst distinct]; [tauto|]. intros [H1 H2]. split; [|exact (IH H2)].
    intros k' Hk. apply insert_keys in Hk as [Hk| ->]; [exact (H1 k' Hk)|]. rewrite eqb_swap. exact E.
Qed.
Lemma gget_in (m : hmap T V) k v : distinct (map fst m) -> In (k, v) m -> ghmap_get eqb k m = Some v.
Proof.
  induction m as [|[k0 v0] m IH]; cbn [ghmap_get map fst distinct]; [intros _ []|]. intros [H1 H2] [[= -> ->]|Hin].
  - rewrite (le_refl _ L). reflexivity.
  - rewrite eqb_swap, (H1 k); [exact (IH H2 Hin)|]. apply in_map_iff. exists (k, v). split; [reflexivity|exact Hin].
Qed.
(** Two maps with equal keys and the same values. *)
Definition same_entries : hmap T V -> hmap T V -> Prop :=
  Forall2 (fun p q => eqb (fst p) (fst q) = true /\ snd p = snd q).
Lemma insert_same m m' k k' v : eqb k k' = true -> same_entries m m' ->
  same_entries (ghmap_insert eqb k v m) (ghmap_insert eqb k' v m').
Proof.
  intros Hk H. induction H as [|[k0 v0] [k1 v1] m m' [H1 H2] Hm IH]; cbn [ghmap_insert].
  - constructor; [split; [exact Hk|reflexivity]|constructor].
  - cbn [fst snd] in *. rewrite (eqb_congr k k' k0 Hk), (eqb_swap k' k0), (eqb_congr k0 k1 k' H1), (eqb_swap k1 k').
    destruct (eqb k' k1); constructor; cbn [fst snd]; auto.
Qed.
Lemma same_get m m' k : same_entries m m' -> ghmap_get eqb k m = ghmap_get eqb k m'.
Proof.
  intros H. induction H as [|[k0 v0] [k1 v1] m m' [H1 H2] Hm IH]; cbn [ghmap_get]; [reflexivity|]. cbn [fst snd] in *.
  rewrite (eqb_swap k k0), (eqb_congr k0 k1 k H1), (eqb_swap k1 k), H2, IH. reflexivity.
Qed.
End Map.

(** [c] was built from the values [l]. *)
Record gcat_inv (c : Category T) (l : list T) : Prop := {
  gi_bins : forall i, map_index_to_t c !! i = nth_error l (N.to_nat i);
  gi_size : size (map_index_to_t c) = length l;
  gi_index : forall v, match ghmap_get eqb v (map_t_to_index c) with
                       | Some i => (exists u, nth_error l (N.to_nat i) = Some u /\ eqb v u = true)
                                   /\ forall j u, (N.to_nat i < j)%nat -> nth_error l j = Some u -> eqb v u = false
                       | None => forall u, In u l -> eqb v u = false
                       end;
  gi_keys : distinct (map fst (map_t_to_index c))
}.

Lemma gcat_inv_insert c l v : gcat_inv c l -> gcat_inv (gcategory_insert eqb c v) (l ++ [v]).
Proof.
  intros [Hb Hs Hi Hk]. unfold gcategory_insert, category_len. rewrite Hs.
  assert (Hnone : map_index_to_t c !! N.of_nat (length l) = None).
  { rewrite Hb. apply nth_error_None. lia. }
  constructor; cbn [map_index_to_t map_t_to_index].
  - intros i. destruct (decide (i = N.of_nat (length l))) as [->|Hne].
    + rewrite lookup_insert. rewrite nth_error_app2 by lia.
      replace (N.to_nat (N.of_nat (length l)) - length l)%nat with 0%nat by lia. reflexivity.
    + rewrite lookup_insert_ne by congruence. rewrite Hb.
      destruct (Nat.lt_ge_cases (N.to_nat i) (length l)).
      * rewrite nth_error_app1 by assumption. reflexivity.
      * rewrite (proj2 (nth_error_None l _)) by lia. symmetry. apply nth_error_None. rewrite app_length. cbn [length]. lia.
  - rewrite map_size_insert_None by exact Hnone. rewrite Hs, app_length. cbn [length]. lia.
  - intros w. rewrite gget_insert. destruct (eqb w v) eqn:E.
    + split.
      * exists v. split; [|exact E]. rewrite nth_error_app2 by lia.
        replace (N.to_nat (N.of_nat (length l)) - length l)%nat with 0%nat by lia. reflexivity.
      * intros j u Hj Hu. assert (j < length (l ++ [v]))%nat by (apply nth_error_Some; congruence).
        rewrite app_length in *. cbn [length] in *. lia.
    + specialize (Hi w). destruct (ghmap_get eqb w (map_t_to_index c)) as [i|].
      * destruct Hi as [[u [Hl Hu]] Hlast]. split.
        -- exists u. split; [|exact Hu]. rewrite nth_error_app1; [exact Hl|]. apply nth_error_Some. congruence.
        -- intros j u' Hj Hu'. destruct (Nat.lt_ge_cases j (length l)) as [Hlt|Hge].
           ++ rewrite nth_error_app1 in Hu' by exact Hlt. exact (Hlast j u' Hj Hu').
           ++ rewrite nth_error_app2 in Hu' by exact Hge. destruct (j - length l)%nat as [|k]; [|destruct k; discriminate].
              injection Hu' as <-. exact E.
      * intros u Hu. apply in_app_or in Hu as [Hu|[<-|[]]]; [exact (Hi u Hu)|exact E].
  - apply insert_distinct. exact Hk.
Qed.

Lemma gcat_inv_new vs : gcat_inv (gcategory_new eqb vs) vs.
Proof.
  assert (G : forall vs c l, gcat_inv c l -> gcat_inv (fold_left (gcategory_insert eqb) vs c) (l ++ vs)).
  { clear vs. induction vs as [|v vs IH]; cbn [fold_left]; intros c l Hc; [rewrite app_nil_r; exact Hc|].
    replace (l ++ v :: vs) with ((l ++ [v]) ++ vs) by (rewrite <- app_assoc; reflexivity).
    apply IH. apply gcat_inv_insert. exact Hc. }
  apply (G vs _ []). constructor; cbn [map_index_to_t map_t_to_index].
  - intros i. rewrite lookup_empty. destruct (N.to_nat i); reflexivity.
  - apply map_size_empty.
  - intros v u [].
  - exact I.
Qed.

Lemma gcat_same l1 l2 : Forall2 (fun x y => eqb x y = true) l1 l2 ->
  same_entries (map_t_to_index (gcategory_new eqb l1)) (map_t_to_index (gcategory_new eqb l2)).
Proof.
  intros H. unfold gcategory_new.
  assert (G : forall c1 c2 a1 a2, gcat_inv c1 a1 -> gcat_inv c2 a2 -> length a1 = length a2 ->
     same_entries (map_t_to_index c1) (map_t_to_index c2) ->
     same_entries (map_t_to_index (fold_left (gcategory_insert eqb) l1 c1)) (map_t_to_index (fold_left (gcategory_insert eqb) l2 c2))).
  { induction H as [|x y l1 l2 Hxy H IH]; cbn [fold_left]; intros c1 c2 a1 a2 I1 I2 HL HS; [exact HS|].
    apply (IH _ _ (a1 ++ [x]) (a2 ++ [y])); [apply gcat_inv_insert; exact I1|apply gcat_inv_insert; exact I2|rewrite !app_length, HL; reflexivity|].
    unfold gcategory_insert. cbn [map_t_to_index].
    assert (E : category_len c1 = category_len c2).
    { unfold category_len. rewrite (gi_size _ _ I1), (gi_size _ _ I2), HL. reflexivity. }
    rewrite E. apply insert_same; assumption. }
  apply (G _ _ [] []); [exact (gcat_inv_new [])|exact (gcat_inv_new [])|reflexivity|constructor].
Qed.

Lemma gcat_eqb_iff l1 l2 :
  gcategory_eqb eqb (gcategory_new eqb l1) (gcategory_new eqb l2) = true <-> Forall2 (fun x y => eqb x y = true) l1 l2.
Proof.
  pose proof (gcat_inv_new l1) as I1. pose proof (gcat_inv_new l2) as I2.
  unfold gcategory_eqb. rewrite !andb_true_iff, Nat.eqb_eq, forallb_forall, (gi_size _ _ I1), (gi_size _ _ I2). split.
  - intros (_ & Hlen & Hall). apply Forall2_same_length_lookup_2; [exact Hlen|].
    intros i x y Hx Hy.
    assert (Hn : forall (l : list T) k, l !! k = nth_error l k).
    { clear. induction l as [|z zs IH]; intros [|k]; cbn; auto. }
    rewrite Hn in Hx, Hy. specialize (Hall (N.of_nat i, x)).
    assert (Hin : In (N.of_nat i, x) (map_to_list (map_index_to_t (gcategory_new eqb l1)))).
    { apply elem_of_list_In, elem_of_map_to_list. rewrite (gi_bins _ _ I1), Nat2N.id. exact Hx. }
    specialize (Hall Hin). cbn [fst snd] in Hall. rewrite (gi_bins _ _ I2), Nat2N.id, Hy in Hall. exact Hall.
  - intros H. pose proof (gcat_same _ _ H) as Hsame. split; [|split].
    + unfold ghmap_eqb. rewrite andb_true_iff, Nat.eqb_eq, forallb_forall. split; [exact (Forall2_length _ _ _ Hsame)|].
      intros [k v] Hin. cbn [fst snd]. rewrite <- (same_get _ _ k Hsame), (gget_in _ _ _ (gi_keys _ _ I1) Hin). apply N.eqb_refl.
    + exact (Forall2_length _ _ _ H).
    + intros [i x] Hin. cbn [fst snd]. apply elem_of_list_In, elem_of_map_to_list in Hin. rewrite (gi_bins _ _ I1) in Hin.
      rewrite (gi_bins _ _ I2). revert Hin. generalize (N.to_nat i). clear -H.
      induction H as [|a b l1 l2 Hab H IH]; intros [|k]; cbn; try discriminate; [intros [= <-]; exact Hab|apply IH].
Qed.
End Facts.

(** ** The property *)

(** The axis of categories [values] under any lawful equality: [num_bins] and [bin]
    as for identity; a coordinate goes into the bin of the last category equal to it,
    otherwise into overflow ([CategoryNoFlow]: into none); equal coordinates go into
    the same bin. *)
Theorem C68_category :
  forall (B : Build) T (eqb : T -> T -> bool) (values : list T), lawful_eq eqb ->
  N.of_nat (length values) + 1 < usize_mod ->
  let c := gcategory_new eqb values in
  let cn := gcategorynoflow_new eqb values in
  let n := N.of_nat (length values) in
  @num_bins _ (gcategory_axis eqb) c = Val (n + 1)
  /\ @num_bins _ (gcategorynoflow_axis eqb) cn = Val n
  /\ (forall i v, nth_error values i = Some v ->
        @bin _ (gcategory_axis eqb) c (N.of_nat i) = Val (Some (SVBin v))
        /\ @bin _ (gcategorynoflow_axis eqb) cn (N.of_nat i) = Val (Some (SVBin v)))
  /\ @bin _ (gcategory_axis eqb) c n = Val (Some SVOverflow)
  /\ (forall i, n < i -> @bin _ (gcategory_axis eqb) c i = Val None)
  /\ (forall i, n <= i -> @bin _ (gcategorynoflow_axis eqb) cn i = Val None)
  /\ (forall x, (forall v, In v values -> eqb x v = false) ->
        @index _ (gcategory_axis eqb) c x = Val (Some n) /\ @index _ (gcategorynoflow_axis eqb) cn x = Val None)
  /\ (forall x k v, nth_error values k = Some v -> eqb x v = true ->
        (forall j u, (k < j)%nat -> nth_error values j = Some u -> eqb x u = false) ->
        @index _ (gcategory_axis eqb) c x = Val (Some (N.of_nat k))
        /\ @index _ (gcategorynoflow_axis eqb) cn x = Val (Some (N.of_nat k)))
  /\ (forall x y, eqb x y = true ->
        @index _ (gcategory_axis eqb) c x = @index _ (gcategory_axis eqb) c y
        /\ @index _ (gcategorynoflow_axis eqb) cn x = @index _ (gcategorynoflow_axis eqb) cn y).
Proof.
  intros B T eqb values L Hu c cn n. pose proof (gcat_inv_new eqb L values) as HI. fold c in HI.
  assert (Hlen : category_len c = n) by (unfold category_len; rewrite (gi_size _ _ _ HI); reflexivity).
  assert (Hnum : category_num_bins c = Val (n + 1)) by (unfold category_num_bins; rewrite Hlen; apply uadd_ok; exact Hu).
  assert (Hbin : forall i v, nth_error values i = Some v -> category_bin c (N.of_nat i) = Val (Some (SVBin v))).
  { intros i v Hv. unfold category_bin, category_get_value. rewrite (gi_bins _ _ _ HI), Nat2N.id, Hv. reflexivity. }
  assert (Hover : category_bin c n = Val (Some SVOverflow)).
  { unfold category_bin, category_get_value. rewrite (gi_bins _ _ _ HI). rewrite (proj2 (nth_error_None _ _)) by lia.
    rewrite Hlen, N.eqb_refl. reflexivity. }
  assert (Hout : forall i, n < i -> category_bin c i = Val None).
  { intros i Hi. unfold category_bin, category_get_value. rewrite (gi_bins _ _ _ HI). rewrite (proj2 (nth_error_None _ _)) by lia.
    rewrite Hlen. destruct (N.eqb_spec i n); [lia|reflexivity]. }
  assert (Hnf : forall x i, gcategory_index eqb c x = Val (Some i) -> i <= n ->
     gcategorynoflow_index eqb cn x = Val (if i =? n then None else Some i)).
  { intros x i Hx Hi. unfold gcategorynoflow_index. change (cnf_axis cn) with c. rewrite Hx. cbn [obind]. rewrite Hnum. cbn [obind].
    rewrite usub_ok by lia. cbn [obind]. replace (n + 1 - 1) with n by lia. destruct (i =? n); reflexivity. }
  split; [exact Hnum|]. split.
  { cbn [num_bins gcategorynoflow_axis]. unfold categorynoflow_num_bins. change (cnf_axis cn) with c. rewrite Hnum. cbn [obind].
    rewrite usub_ok by lia. f_equal. lia. }
  split.
  { intros i v Hv. split; [exact (Hbin i v Hv)|]. cbn [bin gcategorynoflow_axis]. unfold categorynoflow_bin. change (cnf_axis cn) with c.
    rewrite (Hbin i v Hv). reflexivity. }
  split; [exact Hover|]. split; [exact Hout|]. split.
  { intros i Hi. cbn [bin gcategorynoflow_axis]. unfold categorynoflow_bin. change (cnf_axis cn) with c.
    destruct (N.eq_dec i n) as [->|Hne]; [rewrite Hover; reflexivity|rewrite Hout by lia; reflexivity]. }
  split; [|split].
  - intros x Hx. assert (E : gcategory_index eqb c x = Val (Some n)).
    { unfold gcategory_index, gcategory_get_index. pose proof (gi_index _ _ _ HI x) as Hg.
      destruct (ghmap_get eqb x (map_t_to_index c)) as [i|]; [|rewrite Hlen; reflexivity].
      destruct Hg as [[u [Hu1 Hu2]] _]. apply nth_error_In in Hu1. rewrite (Hx u Hu1) in Hu2. discriminate. }
    split; [exact E|]. cbn [index gcategorynoflow_axis]. rewrite (Hnf x n E ltac:(lia)), N.eqb_refl. reflexivity.
  - intros x k v Hk Hv Hlast. assert (E : gcategory_index eqb c x = Val (Some (N.of_nat k))).
    { unfold gcategory_index, gcategory_get_index. pose proof (gi_index _ _ _ HI x) as Hg.
      destruct (ghmap_get eqb x (map_t_to_index c)) as [i|].
      - destruct Hg as [[u [Hu1 Hu2]] Hl]. do 2 f_equal.
        destruct (Nat.lt_trichotomy (N.to_nat i) k) as [Hlt|[Heq|Hgt]]; [|lia|].
        + rewrite (Hl k v Hlt Hk) in Hv. discriminate.
        + rewrite (Hlast _ u Hgt Hu1) in Hu2. discriminate.
      - apply nth_error_In in Hk. rewrite (Hg v Hk) in Hv. discriminate. }
    split; [exact E|]. cbn [index gcategorynoflow_axis].
    assert (k < length values)%nat by (apply nth_error_Some; congruence).
    rewrite (Hnf x _ E ltac:(lia)). destruct (N.eqb_spec (N.of_nat k) n); [lia|reflexivity].
  - intros x y Hxy. assert (E : gcategory_index eqb c x = gcategory_index eqb c y).
    { unfold gcategory_index, gcategory_get_index. rewrite (gget_congr eqb L _ x y Hxy). reflexivity. }
    split; [exact E|]. cbn [index gcategorynoflow_axis]. unfold gcategorynoflow_index. change (cnf_axis cn) with c. rewrite E. reflexivity.
Qed.
Print Assumptions C68_category.

(** Two category axes are equal iff built from pairwise equal sequences. *)
Theorem C68_category_equality :
  forall T (eqb : T -> T -> bool) (l1 l2 : list T), lawful_eq eqb ->
  (gcategory_eqb eqb (gcategory_new eqb l1) (gcategory_new eqb l2) = true <-> Forall2 (fun x y => eqb x y = true) l1 l2)
  /\ (gcategorynoflow_eqb eqb (gcategorynoflow_new eqb l1) (gcategorynoflow_new eqb l2) = true
      <-> Forall2 (fun x y => eqb x y = true) l1 l2).
Proof. intros T eqb l1 l2 L. split; apply gcat_eqb_iff; exact L. Qed.
Print Assumptions C68_category_equality.

(** For a type whose equality is identity this is the axis of [Category.v]. *)
Theorem C68_identity :
  forall (B : Build) T (eqd : EqDecision T) (values : list T) (x : T) (i : N),
  let eqb := fun x y : T => bool_decide (x = y) in
  @index _ (gcategory_axis eqb) (gcategory_new eqb values) x = category_index (category_new values) x
  /\ @num_bins _ (gcategory_axis eqb) (gcategory_new eqb values) = category_num_bins (category_new values)
  /\ @bin _ (gcategory_axis eqb) (gcategory_new eqb values) i = category_bin (category_new values) i
  /\ @index _ (gcategorynoflow_axis eqb) (gcategorynoflow_new eqb values) x
      = categorynoflow_index (categorynoflow_new values) x.
Proof.
  intros B T eqd values x i eqb.
  assert (Hins : forall (k : T) (v : N) m, ghmap_insert eqb k v m = hmap_insert k v m).
  { intros k v m. induction m as [|[k0 v0] m IH]; cbn [ghmap_insert hmap_insert]; [reflexivity|].
    unfold eqb at 1. rewrite IH. destruct (decide (k = k0)) as [->|Hne].
    - rewrite bool_decide_eq_true_2 by reflexivity. reflexivity.
    - rewrite bool_decide_eq_false_2 by exact Hne. reflexivity. }
  assert (Hget : forall (k : T) (m : hmap T N), ghmap_get eqb k m = hmap_get k m).
  { intros k m. induction m as [|[k0 v0] m IH]; cbn [ghmap_get hmap_get]; [reflexivity|].
    unfold eqb at 1. rewrite IH. destruct (decide (k = k0)) as [->|Hne].
    - rewrite bool_decide_eq_true_2 by reflexivity. reflexivity.
    - rewrite bool_decide_eq_false_2 by exact Hne. reflexivity. }
  assert (Hnew : gcategory_new eqb values = category_new values).
  { unfold gcategory_new, category_new. generalize (mkCategory (T := T) [] ∅). induction values as [|v vs IH]; intros c; cbn [fold_left]; [reflexivity|].
    rewrite <- IH. unfold gcategory_insert, category_insert. rewrite Hins. reflexivity. }
  assert (Hidx : forall c, gcategory_index eqb c x = category_index c x).
  { intros c. unfold gcategory_index, category_index, gcategory_get_index, category_get_index. rewrite Hget. reflexivity. }
  split; [|split; [|split]].
  - cbn [index gcategory_axis]. rewrite Hnew. apply Hidx.
  - cbn [num_bins gcategory_axis]. rewrite Hnew. reflexivity.
  - cbn [bin gcategory_axis]. rewrite Hnew. reflexivity.
  - cbn [index gcategorynoflow_axis]. unfold gcategorynoflow_index, categorynoflow_index, gcategorynoflow_new, categorynoflow_new. cbn [cnf_axis].
    rewrite Hnew, Hidx. reflexivity.
Qed.
Print Assumptions C68_identity.

(** Integers equal when they end in the same digit: 3 and 23 are one category (the
    later bin takes the coordinates), 7 is none. *)
Definition last_digit (x y : Z) : bool := Z.eqb (x mod 10) (y mod 10).
Example C68_nonvacuous :
  lawful_eq last_digit
  /\ forall B : Build,
     let c := gcategory_new last_digit [3; 14; 23]%Z in
     @index _ (gcategory_axis last_digit) c 33%Z = Val (Some 2)
     /\ @index _ (gcategory_axis last_digit) c 4%Z = Val (Some 1)
     /\ @index _ (gcategory_axis last_digit) c 7%Z = Val (Some 3)
     /\ @index _ (gcategorynoflow_axis last_digit) (gcategorynoflow_new last_digit [3; 14; 23]%Z) 7%Z = Val None
     /\ @bin _ (gcategory_axis last_digit) c 0 = Val (Some (SVBin 3%Z))
     /\ gcategory_eqb last_digit c (gcategory_new last_digit [13; 4; 3]%Z) = true
     /\ gcategory_eqb last_digit c (gcategory_new last_digit [3; 14]%Z) = false.
Proof.
  split.
  - constructor; unfold last_digit; intros *; rewrite ?Z.eqb_eq; congruence.
  - intros [[] []]; vm_compute; repeat split.
Qed.
