(** * Examples for C49: ordinary contents exist; the general claim (at most 50
      characters per bar, no panic) is false for NaN and for negative contents. *)
From stdpp Require Import gmap.
From Coq Require Import ZArith NArith String.
From Flocq Require Import IEEE754.BinarySingleNaN.
From Verif Require Import Base BaseFacts Num Axis Category CategoryFacts PropCategory Axes AxesSpec PropAxes Value VecHist Float FloatSpec Display
  DisplayFacts PropDisplay.
Import ListNotations.
Open Scope N_scope.

(** A one-dimensional axis: categories 10, 20 and 30 and the overflow bin. *)
Definition d_axis (B : Build) : Axis (Category Z) := category_axis.
Definition d_cat : Category Z := category_new [10; 20; 30]%Z.

Lemma d_bins (B : Build) : has_bins (d_axis B) d_cat 4.
Proof.
  split; [destruct B as [[] []]; vm_compute; reflexivity|]. intros i Hi.
  assert (Hc : i = 0 \/ i = 1 \/ i = 2 \/ i = 3) by lia.
  destruct Hc as [->|[->|[->| ->]]]; eexists; vm_compute; reflexivity.
Qed.

(** A histogram with the given contents. *)
Definition d_hist (vs : list f64) : VecHistogram (Category Z) f64 := mkVecHist d_cat vs.
Lemma d_from_vec (B : Build) vs : List.length vs = 4%nat -> @vec_from_vec _ _ (d_axis B) d_cat vs = Val (Ok (d_hist vs)).
Proof.
  intros Hl. unfold vec_from_vec. change (num_bins d_cat) with (@num_bins _ (d_axis B) d_cat).
  rewrite (proj1 (d_bins B)). cbn [obind]. rewrite Hl. reflexivity.
Qed.

(** Contents 3, 0, 100, 7. *)
Definition d_values : list f64 := [f64_lit 3 0; f64_lit 0 0; f64_lit 100 0; f64_lit 7 0].

Example C49_nonvacuous : forall B : Build,
  @vec_from_vec _ _ (d_axis B) d_cat d_values = Val (Ok (d_hist d_values))
  /\ has_bins (d_axis B) d_cat 4 /\ List.length (vec_values (d_hist d_values)) = 4%nat
  /\ ordinary (shown_values (fun v => v) (d_hist d_values))
  /\ map (fun v => bar_length v (f64_lit 100 0)) d_values = [1; 0; 50; 3].
Proof.
  intros B. split; [apply d_from_vec; reflexivity|]. split; [apply d_bins|]. split; [reflexivity|]. split.
  - split.
    + intros v Hv. cbn in Hv. repeat (destruct Hv as [<-|Hv]; [vm_compute; reflexivity|]). destruct Hv.
    + left. exists (f64_lit 3 0). split; [left; reflexivity | vm_compute; reflexivity].
  - destruct B as [? []]; vm_compute; reflexivity.
Qed.

(** A NaN bin hides larger values before it from the scale: contents
    100, NaN, 1, 0 print a bar of 5000 characters. *)
Theorem C49_nan_long_bar : forall (B : Build) fmt_f64 fmt_bin precision,
  let h := d_hist [f64_lit 100 0; B754_nan; f64_lit 1 0; f64_lit 0 0] in
  exists label out,
    @vec_display B _ _ (d_axis B) (fun v => v) fmt_f64 fmt_bin (fun _ => true) precision h = Val (out, true)
    /\ In (row_text label (hashes 5000)) out.
Proof.
  intros B fmt_f64 fmt_bin precision h.
  destruct (@vec_display_rows B _ _ (d_axis B) (fun v => v) fmt_f64 fmt_bin (fun _ => true) precision h 4 (d_bins B) eq_refl eq_refl)
    as [labels [L1 [_ L3]]].
  { intros v Hv. cbn in Hv. repeat (destruct Hv as [<-|Hv]; [destruct B as [? []]; vm_compute; reflexivity|]). destruct Hv. }
  cbv zeta in L3. destruct labels as [|b labels]; [cbn in L1; discriminate|].
  eexists _, _. split; [exact L3|]. right. rewrite filter_all by reflexivity. rewrite combine_snd.
  unfold shown_values, h, d_hist, vec_values. cbn [vh_values firstn map combine fst snd]. left.
  match goal with |- row_text ?l (hashes (N.to_nat ?n)) = _ => assert (E : n = 5000) by (destruct B as [? []]; vm_compute; reflexivity) end.
  rewrite E. reflexivity.
Qed.
Print Assumptions C49_nan_long_bar.

(** Without a positive value, negative values get the longest bars: contents
    -1, -2, -100, -1 print bars of 50, 100, 5000 and 50 characters. *)
Theorem C49_negative_long_bar : forall (B : Build) fmt_f64 fmt_bin precision,
  let h := d_hist [f64_lit (-1) 0; f64_lit (-2) 0; f64_lit (-100) 0; f64_lit (-1) 0] in
  exists label out,
    @vec_display B _ _ (d_axis B) (fun v => v) fmt_f64 fmt_bin (fun _ => true) precision h = Val (out, true)
    /\ In (row_text label (hashes 5000)) out.
Proof.
  intros B fmt_f64 fmt_bin precision h.
  destruct (@vec_display_rows B _ _ (d_axis B) (fun v => v) fmt_f64 fmt_bin (fun _ => true) precision h 4 (d_bins B) eq_refl eq_refl)
    as [labels [L1 [_ L3]]].
  { intros v Hv. cbn in Hv. repeat (destruct Hv as [<-|Hv]; [destruct B as [? []]; vm_compute; reflexivity|]). destruct Hv. }
  cbv zeta in L3. destruct labels as [|b [|b2 [|b3 labels]]]; [cbn in L1; discriminate..|].
  eexists _, _. split; [exact L3|]. right. rewrite filter_all by reflexivity. rewrite combine_snd.
  unfold shown_values, h, d_hist, vec_values. cbn [vh_values firstn map combine fst snd]. right. right. left.
  match goal with |- row_text ?l (hashes (N.to_nat ?n)) = _ => assert (E : n = 5000) by (destruct B as [? []]; vm_compute; reflexivity) end.
  rewrite E. reflexivity.
Qed.
Print Assumptions C49_negative_long_bar.

(** Displaying can panic: contents -1, -0.0, -1, -1 divide -1 by -0.0 and ask for
    a bar of usize::MAX characters. *)
Theorem C49_negative_zero_panics : forall (B : Build) fmt_f64 fmt_bin precision,
  let h := d_hist [f64_lit (-1) 0; B754_zero true; f64_lit (-1) 0; f64_lit (-1) 0] in
  @vec_display B _ _ (d_axis B) (fun v => v) fmt_f64 fmt_bin (fun _ => true) precision h = Panic.
Proof. intros B fmt_f64 fmt_bin precision h. destruct B as [[] []]; vm_compute; reflexivity. Qed.
Print Assumptions C49_negative_zero_panics.
