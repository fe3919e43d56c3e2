(** * Property theorems: serialised data moved between targets of different width (C69). *)
From stdpp Require Import gmap.
From Coq Require Import String.
From Verif Require Import Base BaseFacts Num Axis Spec Uniform StdAlgo StdContract VarAxis Category CategoryFacts PropCategory Axes AxesSpec PropAxes
  Value VecHist HashHist HistSpec HashFacts Serde PropSerde.
Open Scope N_scope.

(** What a target [B] can represent as a [usize]. *)
Definition representable (B : Build) (n : N) : bool := n <? @usize_mod B.

(** [r] is the data itself if the reader's target can represent every [usize] in
    it, and an error otherwise: nothing is truncated. *)
Definition intact_or_refused {T : Type} (ok : bool) (r : option T) (x : T) : Prop :=
  r = if ok then Some x else None.

Section Targets.
Context (Bw Br : Build).

Lemma usize_between n : de (@usize_codec Br) (ser (@usize_codec Bw) n) = if representable Br n then Some n else None.
Proof. reflexivity. Qed.

Lemma de_all_usize l : de_all (de (@usize_codec Br)) (map (ser (@usize_codec Bw)) l) =
  if forallb (representable Br) l then Some l else None.
Proof.
  induction l as [|n l IH]; [reflexivity|]. cbn [map de_all forallb]. rewrite IH, usize_between.
  destruct (representable Br n), (forallb (representable Br) l); reflexivity.
Qed.

Lemma de_entries_between {K V} (fk : K -> bool) (fv : V -> bool) (cwk crk : codec K) (cwv crv : codec V) (l : list (K * V)) :
  (forall k v, (k, v) ∈ l -> de crk (ser cwk k) = if fk k then Some k else None) ->
  (forall k v, (k, v) ∈ l -> de crv (ser cwv v) = if fv v then Some v else None) ->
  de_entries crk crv (map (fun kv => (ser cwk (fst kv), ser cwv (snd kv))) l) =
  if forallb (fun kv => fk (fst kv) && fv (snd kv)) l then Some l else None.
Proof.
  intros Hk Hv. induction l as [|[k v] l IH]; [reflexivity|]. cbn [map de_entries forallb fst snd].
  rewrite (Hk k v) by (left; reflexivity). rewrite (Hv k v) by (left; reflexivity).
  rewrite IH; [|intros k' v' Hin; apply (Hk k' v'); right; exact Hin | intros k' v' Hin; apply (Hv k' v'); right; exact Hin].
  destruct (fk k), (fv v), (forallb _ l); reflexivity.
Qed.
End Targets.

(** Numeric axes. *)
Theorem C69_numeric_axes : forall (Bw Br : Build) T (c : codec T) (P : T -> Prop), lossless_on P c ->
  (forall a : Uniform T, P (u_low a) -> P (u_high a) -> P (u_step a) ->
     let ok := representable Br (u_num a) in
     intact_or_refused ok (de (@uniform_codec Br T c) (ser (@uniform_codec Bw T c) a)) a
     /\ intact_or_refused ok (de (@uniformnoflow_codec Br T c) (ser (@uniformnoflow_codec Bw T c) (mkUniformNoFlow a))) (mkUniformNoFlow a)
     /\ intact_or_refused ok
          (de (@uniformcyclic_codec Br T c) (ser (@uniformcyclic_codec Bw T c) (mkUniformCyclic (mkUniformNoFlow a))))
          (mkUniformCyclic (mkUniformNoFlow a)))
  /\ (forall a : Variable_ T, Forall P (v_edges a) ->
     de (variable_codec c) (ser (variable_codec c) a) = Some a
     /\ de (variablenoflow_codec c) (ser (variablenoflow_codec c) (mkVariableNoFlow a)) = Some (mkVariableNoFlow a)
     /\ de (variablecyclic_codec c) (ser (variablecyclic_codec c) (mkVariableCyclic (mkVariableNoFlow a)))
        = Some (mkVariableCyclic (mkVariableNoFlow a))).
Proof.
  intros Bw Br T c P Hc. split.
  - intros [n l h s] Hl Hh Hs ok. cbn [u_num u_low u_high u_step] in *. unfold intact_or_refused.
    assert (Hu : de (@uniform_codec Br T c) (ser (@uniform_codec Bw T c) (mkUniform n l h s))
                 = if ok then Some (mkUniform n l h s) else None).
    { simpl. unfold de_field. simpl. rewrite (Hc _ Hl), (Hc _ Hh), (Hc _ Hs). unfold ok, representable.
      destruct (n <? @usize_mod Br); reflexivity. }
    assert (Hnf : de (@uniformnoflow_codec Br T c) (ser (@uniformnoflow_codec Bw T c) (mkUniformNoFlow (mkUniform n l h s)))
                 = if ok then Some (mkUniformNoFlow (mkUniform n l h s)) else None).
    { cbn [ser de uniformnoflow_codec unf_axis].
      unfold de_field. cbn [field List.filter fst String.eqb Ascii.eqb Bool.eqb snd]. rewrite Hu. destruct ok; reflexivity. }
    split; [exact Hu|]. split; [exact Hnf|].
    cbn [ser de uniformcyclic_codec uc_axis]. rewrite Hnf. destruct ok; reflexivity.
  - intros a Ha. destruct (C50_numeric_axes Br T c P Hc) as [_ [H1 [H2 H3]]].
    split; [exact (H1 a Ha)|]. split; [exact (H2 (mkVariableNoFlow a) Ha) | exact (H3 (mkVariableCyclic (mkVariableNoFlow a)) Ha)].
Qed.
Print Assumptions C69_numeric_axes.

(** Category axes: refused exactly when there are more categories than the reader
    has indices. *)
Theorem C69_category : forall (Bw Br : Build) T (eqd : EqDecision T) (c : codec T) (P : T -> Prop) (values : list T) order1 order2,
  lossless_on P c -> Forall P values ->
  let a := category_new values in
  Permutation order1 (map_t_to_index a) -> an_order (map_index_to_t a) order2 ->
  let r := @category_de Br T eqd c (@category_ser Bw T c order1 order2) in
  (N.of_nat (List.length values) <= @usize_mod Br ->
     exists a', r = Some a' /\ category_eqb a a' = true /\ category_eqb a' a = true
     /\ (forall x, category_index a' x = category_index a x)
     /\ (forall i, category_bin a' i = category_bin a i)
     /\ category_num_bins a' = category_num_bins a)
  /\ (@usize_mod Br < N.of_nat (List.length values) -> r = None).
Proof.
  intros Bw Br T eqd c P values order1 order2 Hc HP a Hp Ho r. split.
  - intros Hlen. exact (C50_category Br T eqd c P values order1 order2 Hc HP Hlen Hp Ho).
  - intros Hlen. pose proof (cat_inv_new values) as Hinv. fold a in Hinv. destruct Hinv as [Hb _ _ _].
    assert (Hsome : exists v, values !! N.to_nat (@usize_mod Br) = Some v).
    { destruct (values !! N.to_nat (@usize_mod Br)) as [v|] eqn:E; [eauto|]. apply lookup_ge_None in E. lia. }
    destruct Hsome as [v Hv]. rewrite <- Hb in Hv. apply (order_elem _ _ _ _ Ho) in Hv.
    assert (Hno : forall l, (@usize_mod Br, v) ∈ l ->
              de_entries (@usize_codec Br) c (map (fun kv : N * T => (ser (@usize_codec Bw) (fst kv), ser c (snd kv))) l) = None).
    { induction l as [|[k x] l IH]; intros Hin; [apply elem_of_nil in Hin; destruct Hin|].
      cbn [map de_entries fst snd]. rewrite usize_between. apply elem_of_cons in Hin as [[= <- <-]|Hin].
      - unfold representable. rewrite N.ltb_irrefl. reflexivity.
      - rewrite (IH Hin). destruct (representable Br k), (de c (ser c x)); reflexivity. }
    unfold r, category_de, category_ser. cbn [field List.filter fst String.eqb Ascii.eqb Bool.eqb snd].
    unfold de_gmap, ser_entries. rewrite (Hno _ Hv). cbn [option_map]. destruct (de_hmap _ _); reflexivity.
Qed.
Print Assumptions C69_category.

(** Tuples of axes: the shape is intact, or the tuple is refused. *)
Theorem C69_axes_tuple : forall (Bw Br : Build) ts (cw cr : codecs ts) (a : AxesTuple ts) (b : axes_tuple ts),
  tuple_de ts cr (tuple_ser ts cw (ax_axes a)) = Some b ->
  intact_or_refused (forallb (representable Br) (ax_shape a))
    (de (@axes_codec Br ts cr) (ser (@axes_codec Bw ts cw) a)) (mkAxes b (ax_shape a)).
Proof.
  intros Bw Br ts cw cr [a sh] b Ha. cbn [ax_axes ax_shape] in *. unfold intact_or_refused.
  cbn [ser de axes_codec ax_axes ax_shape].
  unfold de_field. cbn [field List.filter fst String.eqb Ascii.eqb Bool.eqb snd].
  cbn [ser de vec_codec]. rewrite de_all_usize. destruct (forallb (representable Br) sh); [|reflexivity].
  rewrite Ha. reflexivity.
Qed.
Print Assumptions C69_axes_tuple.

(** Sparse histograms: every stored bin keeps its number and its content, or the
    histogram is refused because some filled bin's number is not representable. *)
Theorem C69_hash_histogram : forall (Bw Br : Build) A V (caw car : codec A) (cv : codec V) (PV : V -> Prop)
    (h : HashHistogram A V) order a',
  de car (ser caw (hh_axes h)) = Some a' -> lossless_on PV cv ->
  (forall i v, hash_value_at_index h i = Some v -> PV v) -> an_order (hash_as_map h) order ->
  let r := @hash_hist_de Br A V car cv (@hash_hist_ser Bw A V caw cv h order) in
  ((forall i v, hash_value_at_index h i = Some v -> i < @usize_mod Br) -> r = Some (mkHashHist a' (hh_values h)))
  /\ ((exists i v, hash_value_at_index h i = Some v /\ @usize_mod Br <= i) -> r = None).
Proof.
  intros Bw Br A V caw car cv PV [a m] order a' Ha Hv HP Ho r. unfold hash_value_at_index, hash_as_map in *. cbn [hh_axes hh_values] in *.
  assert (He : de_entries (@usize_codec Br) cv (map (fun kv : N * V => (ser (@usize_codec Bw) (fst kv), ser cv (snd kv))) order)
               = if forallb (fun kv => representable Br (fst kv) && true) order then Some order else None).
  { apply (de_entries_between (representable Br) (fun _ => true)); [reflexivity|].
    intros k v Hin. apply Hv. apply (HP k). apply (order_elem _ _ _ _ Ho). exact Hin. }
  assert (Hr : r = if forallb (fun kv => representable Br (fst kv) && true) order then Some (mkHashHist a' m) else None).
  { unfold r, hash_hist_ser, hash_hist_de, de_field.
    cbn [field List.filter fst String.eqb Ascii.eqb Bool.eqb snd hh_axes]. rewrite Ha.
    unfold ser_entries, de_gmap. rewrite He. destruct (forallb _ order); [|reflexivity].
    cbn [option_map]. rewrite (rebuild_order m order Ho). reflexivity. }
  rewrite Hr. split.
  - intros Hall. replace (forallb _ order) with true; [reflexivity|]. symmetry. apply forallb_forall. intros [i v] Hin.
    apply elem_of_list_In in Hin. apply (order_elem _ _ _ _ Ho) in Hin. cbn [fst].
    rewrite andb_true_r. apply N.ltb_lt. exact (Hall i v Hin).
  - intros (i & v & Hi & Hge). destruct (forallb _ order) eqn:E; [|reflexivity]. exfalso.
    rewrite forallb_forall in E. apply (order_elem _ _ _ _ Ho), elem_of_list_In in Hi. apply E in Hi. cbn [fst] in Hi.
    rewrite andb_true_r in Hi. apply N.ltb_lt in Hi. lia.
Qed.
Print Assumptions C69_hash_histogram.

(** A 64-bit writer and a 32-bit reader. *)
Definition wide : Build := {| overflow_checks := true; target_width := P64 |}.
Definition narrow : Build := {| overflow_checks := true; target_width := P32 |}.

(** A 5-billion-bin axis is refused by a 32-bit reader and a 5-bin one is read intact;
    so is a sparse histogram whose filled bins have small numbers, over an axis
    whose number of bins is representable, and it is refused once bin 2^32 is filled. *)
Example C69_nonvacuous :
  de (@uniform_codec narrow Z Z_codec) (ser (@uniform_codec wide Z Z_codec) (mkUniform 5000000000 0 5000000000 1)%Z) = None
  /\ de (@uniform_codec narrow Z Z_codec) (ser (@uniform_codec wide Z Z_codec) (mkUniform 5 0 10 2)%Z) = Some (mkUniform 5 0 10 2)%Z
  /\ (let c := @uniform_codec wide Z Z_codec in let c' := @uniform_codec narrow Z Z_codec in
      let a := (mkUniform 5 0 10 2)%Z in
      let m := <[3 := 7%Z]> ∅ : gmap N Z in
      @hash_hist_de narrow _ _ c' Z_codec (@hash_hist_ser wide _ _ c Z_codec (mkHashHist a m) (map_to_list m)) = Some (mkHashHist a m)
      /\ let m2 := <[2 ^ 32 := 7%Z]> ∅ : gmap N Z in
         @hash_hist_de narrow _ _ c' Z_codec (@hash_hist_ser wide _ _ c Z_codec (mkHashHist a m2) (map_to_list m2)) = None).
Proof.
  split; [reflexivity|]. split; [reflexivity|]. intros c c' a m. split; [vm_compute; reflexivity|].
  intros m2. vm_compute. reflexivity.
Qed.
