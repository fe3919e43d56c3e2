(** * Property theorems: accuracy of floating-point bin contents (C58). *)
From stdpp Require Import gmap.
From Coq Require Import ZifyN ZifyNat Lia Reals Lra.
From Flocq Require Import Core IEEE754.BinarySingleNaN.
From Verif Require Import Base BaseFacts Num Float FloatFacts FloatSpec FloatUniform Axis Spec AxesSpec Category Value VecHist HashHist HistSpec
  HistFacts HashFacts OpsFacts PropCategory PropHist PropHistIter PropOrder PropMerge PropMapReduce PropOps ExactSpec PropCount.
Open Scope N_scope.

(** ** Specification *)

(** The real number a call adds to the bin it reaches. *)
Definition real_amount {A : Type} {AX : Axis A} {prec emax : Z} (o : fill_op (binary_float prec emax) Empty_set) : R :=
  match o with
  | CallFill _ => 1%R
  | CallFillWith _ d => B2R d
  | CallFillWithWeighted _ _ w => match w with end
  end.

(** The real numbers a history sends to bin [i]. *)
Definition sent {A : Type} {AX : Axis A} {prec emax : Z} (a : A) (i : N)
  (ops : list (fill_op (binary_float prec emax) Empty_set)) : list R := map real_amount (reaching a i ops).

(** The largest number of additions any entry of bin [i] goes through: the calls
    of its piece, and one for each merge above it. *)
Fixpoint additions {A : Type} {AX : Axis A} {D W : Type} (a : A) (i : N) (p : plan D W) : nat :=
  match p with
  | Piece ops => length (reaching a i ops)
  | Merge p q => S (Nat.max (additions a i p) (additions a i q))
  end.

(** [v] is the sum of [xs] up to the error of [k] roundings of relative error [u]. *)
Definition sum_up_to (u : R) (k : nat) (xs : list R) (v : R) : Prop :=
  (Rabs (v - sumR xs) <= ((1 + u) ^ k - 1) * sumR (map Rabs xs))%R.

(** ** Lemmas *)
Open Scope R_scope.

Lemma sumR_app l l' : sumR (l ++ l') = sumR l + sumR l'.
Proof. unfold sumR. induction l as [|x l IH]; cbn [app fold_right]; lra. Qed.
Lemma sumR_perm l l' : Permutation l l' -> sumR l = sumR l'.
Proof. induction 1 as [|x l l' Hp IH|x y l|l l' l'' Hp1 IH1 Hp2 IH2]; unfold sumR in *; cbn [fold_right]; lra. Qed.
Lemma sumR_abs_nonneg l : 0 <= sumR (map Rabs l).
Proof. unfold sumR. induction l as [|x l IH]; cbn [map fold_right]; [lra|]. pose proof (Rabs_pos x). lra. Qed.
Lemma sumR_abs_le l : Rabs (sumR l) <= sumR (map Rabs l).
Proof.
  unfold sumR. induction l as [|x l IH]; cbn [map fold_right]; [rewrite Rabs_R0; lra|].
  eapply Rle_trans; [apply Rabs_triang|]. lra.
Qed.

Lemma pow_ge_1 u k : 0 <= u -> 1 <= (1 + u) ^ k.
Proof. intros Hu. apply pow_R1_Rle. lra. Qed.
Lemma pow_mono u k k' : 0 <= u -> (k <= k')%nat -> (1 + u) ^ k <= (1 + u) ^ k'.
Proof. intros Hu Hk. apply Rle_pow; [lra | exact Hk]. Qed.

Lemma sum_up_to_mono u k k' xs v : 0 <= u -> (k <= k')%nat -> sum_up_to u k xs v -> sum_up_to u k' xs v.
Proof.
  intros Hu Hk H. unfold sum_up_to in *. eapply Rle_trans; [exact H|]. apply Rmult_le_compat_r; [apply sumR_abs_nonneg|].
  pose proof (pow_mono u k k' Hu Hk). lra.
Qed.

Lemma sum_up_to_bound u k xs v : 0 <= u -> sum_up_to u k xs v -> Rabs v <= (1 + u) ^ k * sumR (map Rabs xs).
Proof.
  intros Hu H. unfold sum_up_to in H. replace v with ((v - sumR xs) + sumR xs) by ring.
  eapply Rle_trans; [apply Rabs_triang|]. pose proof (sumR_abs_le xs). lra.
Qed.

(** One rounded addition. *)
Lemma sum_up_to_add u k xs ys x y z : 0 <= u -> sum_up_to u k xs x -> sum_up_to u k ys y ->
  Rabs (z - (x + y)) <= u * Rabs (x + y) -> sum_up_to u (S k) (xs ++ ys) z.
Proof.
  intros Hu Hx Hy Hz. pose proof (sum_up_to_bound u k xs x Hu Hx) as Bx. pose proof (sum_up_to_bound u k ys y Hu Hy) as By.
  unfold sum_up_to in *. rewrite map_app, !sumR_app.
  set (sx := sumR xs) in *. set (sy := sumR ys) in *. set (ax := sumR (map Rabs xs)) in *. set (ay := sumR (map Rabs ys)) in *.
  replace (z - (sx + sy)) with ((z - (x + y)) + ((x - sx) + (y - sy))) by ring.
  eapply Rle_trans; [apply Rabs_triang|].
  assert (H1 : Rabs (x - sx + (y - sy)) <= ((1 + u) ^ k - 1) * (ax + ay)).
  { eapply Rle_trans; [apply Rabs_triang|]. lra. }
  assert (H2 : u * Rabs (x + y) <= u * ((1 + u) ^ k * (ax + ay))).
  { apply Rmult_le_compat_l; [exact Hu|]. eapply Rle_trans; [apply Rabs_triang|]. lra. }
  cbn [pow]. set (q := (1 + u) ^ k) in *.
  replace (((1 + u) * q - 1) * (ax + ay)) with (u * (q * (ax + ay)) + (q - 1) * (ax + ay)) by ring. lra.
Qed.

Lemma sum_up_to_nil u v : v = 0 -> sum_up_to u 0 [] v.
Proof. intros ->. unfold sum_up_to, sumR. cbn. rewrite Rminus_0_r, Rabs_R0. lra. Qed.

Lemma sum_up_to_zero u k v : v = 0 -> sum_up_to u k [] v.
Proof. intros ->. unfold sum_up_to, sumR. cbn. rewrite Rminus_0_r, Rabs_R0, Rmult_0_r. lra. Qed.

Lemma sum_up_to_one u x : 0 <= u -> forall k, sum_up_to u k [x] x.
Proof.
  intros Hu k. unfold sum_up_to, sumR. cbn [map fold_right]. replace (x - (x + 0)) with 0 by ring. rewrite Rabs_R0.
  apply Rmult_le_pos; [pose proof (pow_ge_1 u k Hu); lra | pose proof (Rabs_pos x); lra].
Qed.

Section Flt.
Context (prec emax : Z) (P : Prec_gt_0 prec) (E : Prec_lt_emax prec emax) {Bd : Build}.
Notation flt := (binary_float prec emax).
Notation ops := (float_ops prec emax P E).
Notation u := (unit_roundoff prec).

Lemma u0 : 0 <= u. Proof. apply Rlt_le, bpow_gt_0. Qed.

Lemma plus_finite (x y : flt) : is_finite (Bplus mode_NE x y) = true -> is_finite x = true /\ is_finite y = true.
Proof. destruct x as [sx|sx| |sx mx ex Hx], y as [sy|sy| |sy my ey Hy]; cbn; auto; destruct sx, sy; cbn; discriminate. Qed.

Lemma plus_accuracy (x y z : flt) : @n_add flt ops x y = Val z -> is_finite z = true ->
  is_finite x = true /\ is_finite y = true /\ Rabs (B2R z - (B2R x + B2R y)) <= u * Rabs (B2R x + B2R y).
Proof.
  cbn [n_add float_ops]. intros Hz Fz. injection Hz as <-. destruct (plus_finite x y Fz) as [Fx Fy].
  split; [exact Fx|]. split; [exact Fy|].
  pose proof (Bplus_correct prec emax P E mode_NE x y Fx Fy) as H.
  destruct (Rlt_bool _ _) in H.
  - destruct H as [-> _]. apply (rnd_add_rel prec emax P); apply B2R_format.
  - destruct H as [H _]. exfalso. revert H Fz. destruct (Bplus mode_NE x y) as [|s| |]; cbn; try discriminate;
      destruct (Bsign x); discriminate.
Qed.

Context {A : Type} {AX : Axis A} {AE : AxisEq A}.
Notation op := (@fill_op A flt Empty_set AX).
Notation all := (@apply_all A flt flt Empty_set AX (float_fill _ _ P E) (float_fill_with _ _ P E) (float_no_weighted _ _)).

(** A history on one bin value. *)
Lemma apply_all_accuracy (l : list op) : forall v, all l (B754_zero false) = Val v -> is_finite v = true ->
  sum_up_to u (length l) (map real_amount l) (B2R v).
Proof.
  induction l as [|o l IH] using rev_ind; intros v Hv Fv.
  - cbn in Hv. injection Hv as <-. apply sum_up_to_nil. reflexivity.
  - unfold apply_all in Hv. rewrite foldo_app in Hv.
    destruct (foldo _ l (B754_zero false)) as [w|] eqn:Ew; [|discriminate]. cbn [obind foldo] in Hv.
    rewrite app_length, map_app. cbn [length map]. replace (length l + 1)%nat with (S (length l)) by lia.
    destruct o as [c|c d|c d []]; cbn [op_effect fill_v fill_with_v float_fill float_fill_with num_fill num_fill_with] in Hv.
    + destruct (n_add w n_one) as [v'|] eqn:Ea; [|discriminate]. cbn [obind] in Hv. injection Hv as <-.
      destruct (plus_accuracy _ _ _ Ea Fv) as [Fw [_ Hacc]].
      apply (sum_up_to_add u _ _ _ (B2R w) (B2R (Bone : flt))); [exact u0 | apply IH; [exact Ew | exact Fw] | | exact Hacc].
      cbn [real_amount]. rewrite Bone_correct. apply sum_up_to_one. exact u0.
    + destruct (n_add w d) as [v'|] eqn:Ea; [|discriminate]. cbn [obind] in Hv. injection Hv as <-.
      destruct (plus_accuracy _ _ _ Ea Fv) as [Fw [_ Hacc]].
      apply (sum_up_to_add u _ _ _ (B2R w) (B2R d)); [exact u0 | apply IH; [exact Ew | exact Fw] | | exact Hacc].
      cbn [real_amount]. apply sum_up_to_one. exact u0.
Qed.

Notation dense := (@dense_result A flt flt Empty_set AX AE (float_fill _ _ P E) (float_fill_with _ _ P E) (float_no_weighted _ _) (float_default _ _ P E) (@n_add flt ops)).
Notation sparse := (@sparse_result A flt flt Empty_set AX AE (float_fill _ _ P E) (float_fill_with _ _ P E) (float_no_weighted _ _) (float_default _ _ P E) (@n_add flt ops)).

Lemma sent_app (a : A) i (l l' : list op) : sent a i (l ++ l') = sent a i l ++ sent a i l'.
Proof. unfold sent, reaching. rewrite List.filter_app, map_app. reflexivity. Qed.

(** The three dense forms on histograms of equal length. *)
Lemma dense_forms (f : flt -> flt -> outcome flt) (l r h : VecHistogram A flt) :
  length (vec_values l) = length (vec_values r) ->
  vec_binop_borrowed f l r = Val (Ok h) \/ vec_binop_owned f l r = Val (Ok h) \/ vec_binop_assign f l r = Val h ->
  length (vec_values h) = length (vec_values l)
  /\ forall i x y, vec_value_at_index l i = Some x -> vec_value_at_index r i = Some y ->
       exists z, f x y = Val z /\ vec_value_at_index h i = Some z.
Proof.
  intros Hlen H. unfold vec_values, vec_value_at_index in *.
  assert (Hz : exists m, zip_assign f (vh_values l) (vh_values r) = Val m /\ vh_values h = m).
  { unfold vec_binop_borrowed, vec_binop_owned, vec_binop_assign in H.
    destruct (negb (axis_eqb (vh_axes l) (vh_axes r))); [destruct H as [H|[H|H]]; discriminate|].
    rewrite <- zip_assign_combine in H by exact Hlen.
    destruct (zip_assign f (vh_values l) (vh_values r)) as [m|]; [|destruct H as [H|[H|H]]; discriminate].
    cbn [obind] in H. exists m. split; [reflexivity|]. destruct H as [H|[H|H]]; injection H as <-; reflexivity. }
  destruct Hz as [m [Hz Hm]]. rewrite Hm. apply zip_assign_inv in Hz as [H1 H2]. split; [exact H1|].
  intros i x y. apply H2.
Qed.

Lemma dense_accuracy (a : A) (p : plan flt Empty_set) h n : num_bins a = Val n -> dense a p h ->
  N.of_nat (length (vec_values h)) = n
  /\ forall i v, vec_value_at_index h i = Some v -> is_finite v = true ->
     sum_up_to u (additions a i p) (sent a i (entries p)) (B2R v).
Proof.
  intros Hn Hd.
  assert (Hmerge : forall (p q : plan flt Empty_set) (l r h : VecHistogram A flt),
     (N.of_nat (length (vec_values l)) = n
      /\ forall i v, vec_value_at_index l i = Some v -> is_finite v = true -> sum_up_to u (additions a i p) (sent a i (entries p)) (B2R v)) ->
     (N.of_nat (length (vec_values r)) = n
      /\ forall i v, vec_value_at_index r i = Some v -> is_finite v = true -> sum_up_to u (additions a i q) (sent a i (entries q)) (B2R v)) ->
     vec_binop_borrowed (@n_add flt ops) l r = Val (Ok h) \/ vec_binop_owned (@n_add flt ops) l r = Val (Ok h) \/ vec_binop_assign (@n_add flt ops) l r = Val h ->
     N.of_nat (length (vec_values h)) = n
     /\ forall i v, vec_value_at_index h i = Some v -> is_finite v = true -> sum_up_to u (additions a i (Merge p q)) (sent a i (entries (Merge p q))) (B2R v)).
  { clear p h Hd. intros p q l r h [Ll Hl] [Lr Hr] Hop.
    destruct (dense_forms _ l r h ltac:(lia) Hop) as [Lh Hh]. split; [lia|].
    intros i v Hv Fv. cbn [entries additions]. rewrite sent_app.
    assert (Hi : (N.to_nat i < length (vec_values h))%nat) by (apply nth_error_Some; unfold vec_value_at_index, vec_values in *; congruence).
    destruct (vec_value_at_index l i) as [x|] eqn:Ex.
    2:{ unfold vec_value_at_index, vec_values in *. apply nth_error_None in Ex. lia. }
    destruct (vec_value_at_index r i) as [y|] eqn:Ey.
    2:{ unfold vec_value_at_index, vec_values in *. apply nth_error_None in Ey. lia. }
    destruct (Hh i x y Ex Ey) as [z [Hz Hz']]. rewrite Hv in Hz'. injection Hz' as <-.
    destruct (plus_accuracy _ _ _ Hz Fv) as [Fx [Fy Hacc]].
    apply (sum_up_to_add u _ _ _ (B2R x) (B2R y)); [exact u0 | | | exact Hacc].
    - eapply sum_up_to_mono; [exact u0 | apply Nat.le_max_l | apply Hl; [exact Ex | exact Fx]].
    - eapply sum_up_to_mono; [exact u0 | apply Nat.le_max_r | apply Hr; [exact Ey | exact Fy]]. }
  induction Hd as [ops h0 h H0 Hc|p q l r h Hl IHl Hr IHr Hb|p q l r h Hl IHl Hr IHr Hb|p q l r h Hl IHl Hr IHr Hb].
  - destruct (C28_vec_contents_are_tally A flt flt Empty_set AX (float_fill _ _ P E) (float_fill_with _ _ P E) (float_no_weighted _ _)
                (float_default _ _ P E) a n h0 h ops Hn H0 Hc) as [_ [H1 [H2 _]]].
    split.
    { unfold vec_value_at_index, vec_values in *. destruct (N.lt_trichotomy (N.of_nat (length (vh_values h))) n) as [Hlt|[Heq|Hgt]]; [|exact Heq|].
      - destruct (H1 (N.of_nat (length (vh_values h))) Hlt) as [v [Hv _]]. rewrite Nat2N.id in Hv.
        assert (length (vh_values h) < length (vh_values h))%nat by (apply nth_error_Some; congruence). lia.
      - specialize (H2 n ltac:(lia)). apply nth_error_None in H2. lia. }
    intros i v Hv Fv. destruct (N.lt_ge_cases i n) as [Hi|Hi]; [|rewrite (H2 i Hi) in Hv; discriminate].
    destruct (H1 i Hi) as [v' [Hv' Ha]]. rewrite Hv in Hv'. injection Hv' as <-.
    cbn [entries additions]. unfold sent. apply apply_all_accuracy; [exact Ha | exact Fv].
  - apply (Hmerge p q l r h IHl IHr). left. exact Hb.
  - apply (Hmerge p q l r h IHl IHr). right. left. exact Hb.
  - apply (Hmerge p q l r h IHl IHr). right. right. exact Hb.
Qed.

Lemma sparse_accuracy (a : A) (p : plan flt Empty_set) h : sparse a p h ->
  hh_axes h = a /\ forall i,
     (hash_value_at_index h i = None -> reaching a i (entries p) = [])
     /\ forall v, hash_value_at_index h i = Some v -> is_finite v = true ->
        sum_up_to u (additions a i p) (sent a i (entries p)) (B2R v).
Proof.
  set (good := fun (p : plan flt Empty_set) (h : HashHistogram A flt) => hh_axes h = a /\ forall i,
     (hash_value_at_index h i = None -> reaching a i (entries p) = [])
     /\ forall v, hash_value_at_index h i = Some v -> is_finite v = true ->
        sum_up_to u (additions a i p) (sent a i (entries p)) (B2R v)).
  change (sparse a p h -> good p h).
  assert (Hreach : forall i (x y : list op), reaching a i x = [] -> reaching a i y = [] -> reaching a i (x ++ y) = []).
  { intros i x y Hx Hy. unfold reaching in *. rewrite List.filter_app, Hx, Hy. reflexivity. }
  assert (Hzero : B2R (@default_v _ (float_default prec emax P E)) = 0) by reflexivity.
  (* one merged bin *)
  assert (Hbin : forall (p q : plan flt Empty_set) i (x y v : flt),
     (is_finite x = true -> sum_up_to u (additions a i p) (sent a i (entries p)) (B2R x)) ->
     (is_finite y = true -> sum_up_to u (additions a i q) (sent a i (entries q)) (B2R y)) ->
     @n_add flt ops x y = Val v -> is_finite v = true ->
     sum_up_to u (additions a i (Merge p q)) (sent a i (entries (Merge p q))) (B2R v)).
  { intros p0 q i x y v Hx Hy Hv Fv. cbn [entries additions]. rewrite sent_app.
    destruct (plus_accuracy _ _ _ Hv Fv) as [Fx [Fy Hacc]].
    apply (sum_up_to_add u _ _ _ (B2R x) (B2R y)); [exact u0 | | | exact Hacc].
    - eapply sum_up_to_mono; [exact u0 | apply Nat.le_max_l | apply Hx; exact Fx].
    - eapply sum_up_to_mono; [exact u0 | apply Nat.le_max_r | apply Hy; exact Fy]. }
  assert (Hdef : forall (p : plan flt Empty_set) i, reaching a i (entries p) = [] ->
     sum_up_to u (additions a i p) (sent a i (entries p)) (B2R (@default_v _ (float_default prec emax P E)))).
  { intros p0 i Hr. unfold sent. rewrite Hr. cbn [map]. apply sum_up_to_zero. exact Hzero. }
  assert (Hkeep : forall (p q : plan flt Empty_set) i (x v : flt), (is_finite x = true -> sum_up_to u (additions a i p) (sent a i (entries p)) (B2R x)) ->
     reaching a i (entries q) = [] -> v = x -> is_finite v = true ->
     sum_up_to u (additions a i (Merge p q)) (sent a i (entries (Merge p q))) (B2R v)).
  { intros p0 q i x v Hx Hr -> Fx. cbn [entries additions]. rewrite sent_app.
    replace (sent a i (entries q)) with (@nil R) by (unfold sent; rewrite Hr; reflexivity). rewrite app_nil_r.
    eapply sum_up_to_mono; [exact u0 | | apply Hx; exact Fx]. lia. }
  assert (Howned : forall (p q : plan flt Empty_set) (l r : HashHistogram A flt) order h, good p l -> good q r -> an_order (hash_as_map r) order ->
     hash_binop_owned (DV := float_default prec emax P E) (@n_add flt ops) l r order = Val (Ok h) -> good (Merge p q) h).
  { clear p h. intros p q l r order h [Al Hl] [Ar Hr] Ho Hb.
    set (keys := elements (dom (hh_values l) ∪ dom (hh_values r) : gset N)).
    assert (Hk : forall i, i ∈ keys <-> is_Some (hash_value_at_index l i) \/ is_Some (hash_value_at_index r i)).
    { intros i. unfold keys. rewrite elem_of_elements, elem_of_union, !elem_of_dom. reflexivity. }
    destruct (C38_sparse_operators A flt AX AE (float_default _ _ P E) (@n_add flt ops) l r keys order (NoDup_elements _) Hk Ho) as [Hne [_ Heq]].
    destruct (axis_eqb (hh_axes l) (hh_axes r)) eqn:Ee.
    2:{ destruct (Hne eq_refl) as [_ [Hc _]]. rewrite Hc in Hb. discriminate. }
    destruct (Heq eq_refl) as [_ [Hown _]]. destruct (Hown h Hb) as [Ah Hh]. split; [congruence|].
    intros i. specialize (Hh i). destruct (Hl i) as [Hl0 Hl1], (Hr i) as [Hr0 Hr1]. clear Hl Hr.
    destruct (hash_value_at_index l i) as [x|], (hash_value_at_index r i) as [y|].
    - destruct Hh as [z [Hz Hz']]. rewrite Hz'. split; [discriminate|]. intros v Hv Fv. injection Hv as <-.
      apply (Hbin p q i x y); auto.
    - rewrite Hh. split; [discriminate|]. intros v Hv Fv. injection Hv as <-. apply (Hkeep p q i x x); auto.
    - destruct Hh as [z [Hz Hz']]. rewrite Hz'. split; [discriminate|]. intros v Hv Fv. injection Hv as <-.
      apply (Hbin p q i (@default_v _ (float_default prec emax P E)) y); auto.
    - rewrite Hh. split; [intros _; cbn [entries]; auto | discriminate]. }
  intros Hs. induction Hs as [ops h Hc|p q l r keys h Hl IHl Hr IHr Hnd Hk Hb|p q l r order h Hl IHl Hr IHr Ho Hb|p q l r order h Hl IHl Hr IHr Ho Hb].
  - destruct (C29_hash_contents_are_tally A flt flt Empty_set AX (float_fill _ _ P E) (float_fill_with _ _ P E) (float_no_weighted _ _)
                (float_default _ _ P E) a h ops Hc) as [Ha [H1 [H2 _]]].
    split; [exact Ha|]. intros i. cbn [entries additions]. destruct (reaching a i ops) as [|o os] eqn:Er.
    + rewrite (H1 i Er). split; [reflexivity | discriminate].
    + destruct (H2 i ltac:(rewrite Er; discriminate)) as [v [Hv Hall]]. split; [congruence|].
      intros v' Hv' Fv. rewrite Hv in Hv'. injection Hv' as <-. unfold sent. rewrite <- Er. apply apply_all_accuracy; assumption.
  - destruct IHl as [Al Hl'], IHr as [Ar Hr'].
    assert (Ho : an_order (hash_as_map r) (map_to_list (hash_as_map r))) by (unfold an_order; reflexivity).
    destruct (C38_sparse_operators A flt AX AE (float_default _ _ P E) (@n_add flt ops) l r keys _ Hnd Hk Ho) as [Hne [_ Heq]].
    destruct (axis_eqb (hh_axes l) (hh_axes r)) eqn:Ee.
    2:{ destruct (Hne eq_refl) as [Hc _]. rewrite Hc in Hb. discriminate. }
    destruct (Heq eq_refl) as [Hbor _]. destruct (Hbor h Hb) as [Ah Hh]. split; [congruence|].
    intros i. specialize (Hh i). destruct (Hl' i) as [Hl0 Hl1], (Hr' i) as [Hr0 Hr1]. clear Hl' Hr'.
    destruct (hash_value_at_index l i) as [x|], (hash_value_at_index r i) as [y|].
    + destruct Hh as [z [Hz Hz']]. rewrite Hz'. split; [discriminate|]. intros v Hv Fv. injection Hv as <-. apply (Hbin p q i x y); auto.
    + destruct Hh as [z [Hz Hz']]. rewrite Hz'. split; [discriminate|]. intros v Hv Fv. injection Hv as <-. apply (Hbin p q i x (@default_v _ (float_default prec emax P E))); auto.
    + destruct Hh as [z [Hz Hz']]. rewrite Hz'. split; [discriminate|]. intros v Hv Fv. injection Hv as <-. apply (Hbin p q i (@default_v _ (float_default prec emax P E)) y); auto.
    + rewrite Hh. split; [intros _; cbn [entries]; auto | discriminate].
  - apply (Howned p q l r order h IHl IHr Ho Hb).
  - apply (Howned p q l r order h IHl IHr Ho).
    set (keys := elements (dom (hh_values l) ∪ dom (hh_values r) : gset N)).
    assert (Hk : forall i, i ∈ keys <-> is_Some (hash_value_at_index l i) \/ is_Some (hash_value_at_index r i)).
    { intros i. unfold keys. rewrite elem_of_elements, elem_of_union, !elem_of_dom. reflexivity. }
    destruct (C38_sparse_operators A flt AX AE (float_default _ _ P E) (@n_add flt ops) l r keys order (NoDup_elements _) Hk Ho) as [_ [Hasg _]].
    rewrite Hasg in Hb. unfold assigned in Hb. destruct (hash_binop_owned (DV := float_default prec emax P E) (@n_add flt ops) l r order) as [[h'|e]|]; try discriminate.
    injection Hb as <-. reflexivity.
Qed.
End Flt.

(** ** C58 *)

(** However the entries are split into pieces, filled and added up, a finite bin
    content is the real sum of the amounts sent to the bin, up to one rounding per
    addition: [|v - sum| <= ((1+u)^k - 1) * sum of |amounts|]. A bin missing
    from a sparse histogram received nothing. *)
Theorem C58_float_contents_accuracy :
  forall (B : Build) (prec emax : Z) (P : Prec_gt_0 prec) (E : Prec_lt_emax prec emax) A (AX : Axis A) (AE : AxisEq A)
         (a : A) (p : plan (binary_float prec emax) Empty_set),
  let fill := float_fill prec emax P E in let fill_with := float_fill_with prec emax P E in
  let weighted := float_no_weighted prec emax in let default := float_default prec emax P E in
  let add := @n_add _ (float_ops prec emax P E) in
  let u := unit_roundoff prec in
  (forall n h i v, num_bins a = Val n -> dense_result add a p h ->
     vec_value_at_index h i = Some v -> is_finite v = true ->
     Rabs (B2R v - sumR (sent a i (entries p))) <= ((1 + u) ^ additions a i p - 1) * sumR (map Rabs (sent a i (entries p))))
  /\ (forall h i, sparse_result add a p h ->
     match hash_value_at_index h i with
     | None => sent a i (entries p) = []
     | Some v => is_finite v = true ->
        Rabs (B2R v - sumR (sent a i (entries p))) <= ((1 + u) ^ additions a i p - 1) * sumR (map Rabs (sent a i (entries p)))
     end).
Proof.
  intros B prec emax P E A AX AE a p fill fill_with weighted default add u. split.
  - intros n h i v Hn Hd Hv Fv. exact (proj2 (dense_accuracy prec emax P E a p h n Hn Hd) i v Hv Fv).
  - intros h i Hs. destruct (sparse_accuracy prec emax P E a p h Hs) as [_ H]. destruct (H i) as [H0 H1].
    destruct (hash_value_at_index h i) as [v|]; [apply H1; reflexivity|]. unfold sent. rewrite H0; reflexivity.
Qed.
Print Assumptions C58_float_contents_accuracy.

(** So two ways of doing the same work — another order, other pieces, another
    bracketing — differ by at most the two error bounds. *)
Theorem C58_float_distribution_error :
  forall (B : Build) (prec emax : Z) (P : Prec_gt_0 prec) (E : Prec_lt_emax prec emax) A (AX : Axis A) (AE : AxisEq A)
         (a : A) (p q : plan (binary_float prec emax) Empty_set) n i,
  let fill := float_fill prec emax P E in let fill_with := float_fill_with prec emax P E in
  let weighted := float_no_weighted prec emax in let default := float_default prec emax P E in
  let add := @n_add _ (float_ops prec emax P E) in
  let u := unit_roundoff prec in
  Permutation (entries p) (entries q) -> num_bins a = Val n ->
  forall h h' v v', dense_result add a p h -> dense_result add a q h' ->
  vec_value_at_index h i = Some v -> vec_value_at_index h' i = Some v' -> is_finite v = true -> is_finite v' = true ->
  Rabs (B2R v - B2R v') <= ((1 + u) ^ additions a i p + (1 + u) ^ additions a i q - 2) * sumR (map Rabs (sent a i (entries p))).
Proof.
  intros B prec emax P E A AX AE a p q n i fill fill_with weighted default add u Hp Hn h h' v v' Hd Hd' Hv Hv' Fv Fv'.
  pose proof (proj2 (dense_accuracy prec emax P E a p h n Hn Hd) i v Hv Fv) as H1.
  pose proof (proj2 (dense_accuracy prec emax P E a q h' n Hn Hd') i v' Hv' Fv') as H2.
  unfold sum_up_to in H1, H2. fold u in H1, H2.
  assert (Hs : Permutation (sent a i (entries p)) (sent a i (entries q))).
  { unfold sent. apply Permutation_map, reaching_perm. exact Hp. }
  rewrite <- (sumR_perm _ _ Hs), <- (sumR_perm _ _ (Permutation_map Rabs Hs)) in H2.
  replace (B2R v - B2R v') with ((B2R v - sumR (sent a i (entries p))) - (B2R v' - sumR (sent a i (entries p)))) by ring.
  eapply Rle_trans; [apply Rabs_triang|]. rewrite Rabs_Ropp. lra.
Qed.
Print Assumptions C58_float_distribution_error.

Lemma float_apply_all_returns {Bd : Build} {prec emax : Z} (P : Prec_gt_0 prec) (E : Prec_lt_emax prec emax) {A : Type} {AX : Axis A}
  (l : list (fill_op (binary_float prec emax) Empty_set)) :
  forall v, exists v', @apply_all A _ _ Empty_set AX (float_fill _ _ P E) (float_fill_with _ _ P E) (float_no_weighted _ _) l v = Val v'.
Proof.
  unfold apply_all. induction l as [|o l IH]; intros v; [exists v; reflexivity|].
  cbn [foldo]. destruct o as [c|c d|c d []]; cbn [op_effect fill_v fill_with_v float_fill float_fill_with num_fill num_fill_with n_add float_ops obind]; apply IH.
Qed.

(** Adding and merging floats never panics: if the axes index every coordinate,
    every way of doing the work has a result. *)
Theorem C58_float_always_completes :
  forall (B : Build) (prec emax : Z) (P : Prec_gt_0 prec) (E : Prec_lt_emax prec emax) A (AX : Axis A) (AE : AxisEq A)
         (a : A) (p : plan (binary_float prec emax) Empty_set) n,
  let fill := float_fill prec emax P E in let fill_with := float_fill_with prec emax P E in
  let weighted := float_no_weighted prec emax in let default := float_default prec emax P E in
  let add := @n_add _ (float_ops prec emax P E) in
  num_bins a = Val n -> axis_eqb a a = true ->
  (forall o, In o (entries p) -> exists r, index a (op_coordinate o) = Val r) ->
  exists h, dense_result add a p h /\ vh_axes h = a /\ N.of_nat (length (vec_values h)) = n.
Proof.
  intros B prec emax P E A AX AE a p n fill fill_with weighted default add Hn Hrefl.
  induction p as [ops|p IHp q IHq]; intros Hix.
  - assert (H0 : exists h0 : VecHistogram A _, vec_new a = Val h0) by (unfold vec_new; rewrite Hn; eexists; reflexivity).
    destruct H0 as [h0 H0].
    destruct (proj2 (C28_vec_history_returns_iff A _ _ Empty_set AX fill fill_with weighted default a n h0 ops Hn H0)) as [h Hh].
    { split; [exact Hix|]. intros i _. apply float_apply_all_returns. }
    assert (Hd : dense_result add a (Piece ops) h) by (econstructor; eassumption).
    exists h. split; [exact Hd|]. split.
    + exact (proj1 (C28_vec_contents_are_tally A _ _ Empty_set AX fill fill_with weighted default a n h0 h ops Hn H0 Hh)).
    + exact (proj1 (dense_accuracy prec emax P E a (Piece ops) h n Hn Hd)).
  - destruct IHp as [l [Hl [Al Ll]]]. { intros o Ho. apply Hix. cbn [entries]. apply in_or_app. left. exact Ho. }
    destruct IHq as [r [Hr [Ar Lr]]]. { intros o Ho. apply Hix. cbn [entries]. apply in_or_app. right. exact Ho. }
    assert (Hb : exists h, vec_binop_borrowed add l r = Val (Ok h) /\ vh_axes h = a).
    { unfold vec_binop_borrowed. rewrite Al, Ar, Hrefl. cbn [negb].
      rewrite (mapo_val _ (fun xy => Bplus mode_NE (fst xy) (snd xy))) by (intros; reflexivity).
      cbn [obind]. eexists. split; reflexivity. }
    destruct Hb as [h [Hb Ah]]. assert (Hd : dense_result add a (Merge p q) h) by (eapply dr_borrowed; eassumption).
    exists h. split; [exact Hd|]. split; [exact Ah|]. exact (proj1 (dense_accuracy prec emax P E a (Merge p q) h n Hn Hd)).
Qed.
Print Assumptions C58_float_always_completes.

(** Three workers adding 0.1, 0.2 and 0.3 to a bin of Category(5, 7, 9); the
    content is finite, and the bounds are not trivial. *)
Example C58_nonvacuous : forall B : Build,
  let w q := @CallFillWith _ f64 Empty_set (ex_axis B) 7%Z (f64_quot q 10) in
  let p := Merge (Merge (Piece [w 1%Z]) (Piece [w 2%Z])) (Piece [w 3%Z; @CallFill _ f64 Empty_set (ex_axis B) 5%Z]) in
  num_bins (Axis := ex_axis B) ex_cat = Val 4%N /\ @axis_eqb _ ex_eq ex_cat ex_cat = true
  /\ (forall o, In o (entries p) -> exists r, @index _ (ex_axis B) ex_cat (op_coordinate o) = Val r)
  /\ additions ex_cat 1 p = 3%nat /\ length (sent ex_cat 1 (entries p)) = 3%nat
  /\ exists h v, @dense_result _ _ _ _ (ex_axis B) ex_eq f64_fill f64_fill_with f64_no_weighted f64_default (@n_add _ f64_ops) ex_cat p h
     /\ vec_value_at_index h 1 = Some v /\ is_finite v = true.
Proof.
  intros B w p. split; [destruct B as [? []]; reflexivity|]. split; [reflexivity|].
  split. { intros o Ho. cbn [entries p app] in Ho. destruct Ho as [<-|[<-|[<-|[<-|[]]]]]; eexists; reflexivity. }
  split; [reflexivity|]. split; [reflexivity|].
  pose (piece := fun vs : list f64 => mkVecHist ex_cat vs).
  set (z := B754_zero false : f64).
  set (x1 := Bplus mode_NE z (f64_quot 1 10) : f64). set (x2 := Bplus mode_NE z (f64_quot 2 10) : f64).
  set (x3 := Bplus mode_NE z (f64_quot 3 10) : f64). set (y := Bplus mode_NE z (Bone : f64) : f64).
  exists (piece [Bplus mode_NE (Bplus mode_NE z z) y; Bplus mode_NE (Bplus mode_NE x1 x2) x3; Bplus mode_NE (Bplus mode_NE z z) z; Bplus mode_NE (Bplus mode_NE z z) z]).
  exists (Bplus mode_NE (Bplus mode_NE x1 x2) x3). split; [|split; [reflexivity | vm_compute; reflexivity]].
  eapply (dr_owned _ _ _ _ (piece [Bplus mode_NE z z; Bplus mode_NE x1 x2; Bplus mode_NE z z; Bplus mode_NE z z]) (piece [y; x3; z; z])).
  - eapply (dr_borrowed _ _ _ _ (piece [z; x1; z; z]) (piece [z; x2; z; z])); [| |reflexivity];
      (eapply (dr_piece _ _ _ (piece [z; z; z; z])); [destruct B as [? []]; reflexivity | reflexivity]).
  - eapply (dr_piece _ _ _ (piece [z; z; z; z])); [destruct B as [? []]; reflexivity | reflexivity].
  - reflexivity.
Qed.
