(** * HashHist: histogram/hashhistogram.rs. *)
From stdpp Require Import gmap.
From Verif Require Import Base Num Axis Value VecHist.
Open Scope N_scope.

(** histogram/hashhistogram.rs:58-61 [struct HashHistogram<A, V, S>].  The map
    is a finite map; the hasher [S] only affects iteration order, which every
    function below takes as an explicit argument [order] (a permutation of the
    entries). *)
Record HashHistogram (A V : Type) := mkHashHist { hh_axes : A; hh_values : gmap N V }.
Arguments mkHashHist {A V} _ _. Arguments hh_axes {A V} _. Arguments hh_values {A V} _.

(** [Iterator::all]: stops at the first [false]. *)
Fixpoint allo {X : Type} (f : X -> outcome bool) (l : list X) : outcome bool :=
  match l with
  | [] => Val true
  | x :: xs => let! b := f x in if b then allo f xs else Val false
  end.

Section HashHistogram.
Context {A V : Type} `{AX : Axis A}.

(** histogram/hashhistogram.rs:85-90 [new], 95-100 [with_hasher]. *)
Definition hash_new (axes : A) : HashHistogram A V := mkHashHist axes ∅.

(** histogram/hashhistogram.rs:109-111 [value_at_index]. *)
Definition hash_value_at_index (h : HashHistogram A V) (i : N) : option V := hh_values h !! i.

(** histogram/histogram.rs:32-35 [value] (trait default). *)
Definition hash_value (h : HashHistogram A V) (c : Coordinate) : outcome (option V) :=
  let! oi := index (hh_axes h) c in
  match oi with
  | None => Val None
  | Some i => Val (hash_value_at_index h i)
  end.

(** histogram/hashhistogram.rs:113-115 [values], given the map's iteration order. *)
Definition hash_values (order : list (N * V)) : list V := map snd order.

(** histogram/hashhistogram.rs:117-128 [iter], given the map's iteration order. *)
Definition hash_iter (h : HashHistogram A V) (order : list (N * V)) : outcome (list (Item Interval V)) :=
  mapo (fun p : N * V =>
          let! ob := bin (hh_axes h) (fst p) in
          let! b := expect ob in
          Val (mkItem (fst p) b (snd p))) order.

(** histogram/hashhistogram.rs:130-132 [value_at_index_mut]. *)
Definition hash_value_at_index_mut (h : HashHistogram A V) (i : N)
  : option (mut_ref V (HashHistogram A V)) :=
  match hh_values h !! i with
  | None => None
  | Some v => Some (mkRef v (fun v' => mkHashHist (hh_axes h) (<[i := v']> (hh_values h))))
  end.

(** histogram/histogram.rs:48-51 [value_mut] (trait default). *)
Definition hash_value_mut (h : HashHistogram A V) (c : Coordinate)
  : outcome (option (mut_ref V (HashHistogram A V))) :=
  let! oi := index (hh_axes h) c in
  match oi with
  | None => Val None
  | Some i => Val (hash_value_at_index_mut h i)
  end.

(** histogram/hashhistogram.rs:134-136 [values_mut], consumed with an update of
    every value in the given order. *)
Definition hash_values_mut (h : HashHistogram A V) (order : list (N * V)) (f : V -> outcome V)
  : outcome (HashHistogram A V) :=
  let! m := foldo (fun (m : gmap N V) (p : N * V) =>
                     let! v' := f (snd p) in Val (<[fst p := v']> m)) order (hh_values h) in
  Val (mkHashHist (hh_axes h) m).

(** histogram/hashhistogram.rs:138-149 [iter_mut], consumed with an update of
    every item in the given order. *)
Definition hash_iter_mut (h : HashHistogram A V) (order : list (N * V))
  (f : N -> Interval -> V -> outcome V) : outcome (HashHistogram A V) :=
  let! m := foldo (fun (m : gmap N V) (p : N * V) =>
                     let! ob := bin (hh_axes h) (fst p) in
                     let! b := expect ob in
                     let! v' := f (fst p) b (snd p) in Val (<[fst p := v']> m)) order (hh_values h) in
  Val (mkHashHist (hh_axes h) m).

(** [self.values.entry(index).or_default()] followed by an in-place update. *)
Definition entry_or_default_update `{Default V} (m : gmap N V) (i : N) (f : V -> outcome V)
  : outcome (gmap N V) :=
  let v := match m !! i with Some v => v | None => default_v end in
  let! v' := f v in Val (<[i := v']> m).

(** Common body of the three fills, histogram/hashhistogram.rs:156-158, 166-168, 176-181. *)
Definition hash_update_at `{Default V} (h : HashHistogram A V) (c : Coordinate) (f : V -> outcome V)
  : outcome (HashHistogram A V) :=
  let! oi := index (hh_axes h) c in
  match oi with
  | None => Val h
  | Some i =>
      let! m := entry_or_default_update (hh_values h) i f in
      Val (mkHashHist (hh_axes h) m)
  end.

(** histogram/hashhistogram.rs:152-159 [fill]. *)
Definition hash_fill `{Default V} `{Fill V} (h : HashHistogram A V) (c : Coordinate)
  : outcome (HashHistogram A V) := hash_update_at h c fill_v.

(** histogram/hashhistogram.rs:162-169 [fill_with]. *)
Definition hash_fill_with {D} `{Default V} `{FillWith V D} (h : HashHistogram A V) (c : Coordinate) (d : D)
  : outcome (HashHistogram A V) := hash_update_at h c (fun v => fill_with_v v d).

(** histogram/hashhistogram.rs:172-182 [fill_with_weighted]. *)
Definition hash_fill_with_weighted {D W} `{Default V} `{FillWithWeighted V D W}
  (h : HashHistogram A V) (c : Coordinate) (d : D) (w : W) : outcome (HashHistogram A V) :=
  hash_update_at h c (fun v => fill_with_weighted_v v d w).

(** histogram/hashhistogram.rs:407-416 [from_map].  [num_bins] is called once per
    key, so never for an empty map. *)
Definition hash_from_map (axes : A) (values : gmap N V) : outcome (result (HashHistogram A V) Error) :=
  let! valid := allo (fun k => let! n := num_bins axes in Val (k <? n)) (map fst (map_to_list values)) in
  if valid
  then Val (Ok (mkHashHist axes values))
  else Val (Err (ErrAxis InvalidNumberOfBins)).

(** histogram/hashhistogram.rs:419-421 [as_map]; 493-497 [From<HashHistogram> for HashMap]. *)
Definition hash_as_map (h : HashHistogram A V) : gmap N V := hh_values h.
Definition hash_into_map (h : HashHistogram A V) : gmap N V := hh_values h.

(** histogram/hashhistogram.rs:77-79 [eq] ([HashMap == HashMap]: same length and
    equal values under every key). *)
Definition hash_eqb `{AE : AxisEq A} (veq : V -> V -> bool) (a b : HashHistogram A V) : bool :=
  axis_eqb (hh_axes a) (hh_axes b)
  && Nat.eqb (size (hh_values a)) (size (hh_values b))
  && forallb (fun p : N * V => match hh_values b !! fst p with
                               | Some v => veq (snd p) v
                               | None => false
                               end) (map_to_list (hh_values a)).

(** ** Operators *)
Context `{AE : AxisEq A} `{DV : Default V}.

(** histogram/hashhistogram.rs:266-286 [&lhs op &rhs]: over the union of the
    keys, in the order of the intermediate [HashSet]. *)
Definition hash_binop_borrowed (op : V -> V -> outcome V) (l r : HashHistogram A V) (keys : list N)
  : outcome (result (HashHistogram A V) BinaryOperationError) :=
  if negb (axis_eqb (hh_axes l) (hh_axes r)) then Val (Err BinaryOperationFailed)
  else
    let! m := foldo (fun (m : gmap N V) (i : N) =>
                let! v := match hh_values l !! i, hh_values r !! i with
                          | Some a, Some b => op a b
                          | None, Some b => op default_v b
                          | Some a, None => op a default_v
                          | None, None => Panic
                          end in
                Val (<[i := v]> m)) keys ∅ in
    Val (Ok (mkHashHist (hh_axes l) m)).

(** The loop of histogram/hashhistogram.rs:332-335 and 383-386:
    [for (index, rhs_value) in rhs { *self.entry(index).or_default() op= rhs_value }]. *)
Definition hash_merge_loop (op : V -> V -> outcome V) (m : gmap N V) (rhs_order : list (N * V))
  : outcome (gmap N V) :=
  foldo (fun (m : gmap N V) (p : N * V) => entry_or_default_update m (fst p) (fun v => op v (snd p)))
        rhs_order m.

(** histogram/hashhistogram.rs:328-337 [lhs op &rhs] (consuming). *)
Definition hash_binop_owned (op : V -> V -> outcome V) (l r : HashHistogram A V)
  (rhs_order : list (N * V)) : outcome (result (HashHistogram A V) BinaryOperationError) :=
  if negb (axis_eqb (hh_axes l) (hh_axes r)) then Val (Err BinaryOperationFailed)
  else
    let! m := hash_merge_loop op (hh_values l) rhs_order in
    Val (Ok (mkHashHist (hh_axes l) m)).

(** histogram/hashhistogram.rs:379-387 [lhs op= &rhs]: panics on different axes. *)
Definition hash_binop_assign (op : V -> V -> outcome V) (l r : HashHistogram A V)
  (rhs_order : list (N * V)) : outcome (HashHistogram A V) :=
  if negb (axis_eqb (hh_axes l) (hh_axes r)) then Panic
  else
    let! m := hash_merge_loop op (hh_values l) rhs_order in
    Val (mkHashHist (hh_axes l) m).

(** histogram/hashhistogram.rs:428-433 [par_values] and 452-467 [par_iter]: the
    same computation as [values]/[iter] over the map's parallel iterator. *)
Definition hash_par_values (order : list (N * V)) : list V := map snd order.
Definition hash_par_iter (h : HashHistogram A V) (order : list (N * V)) : outcome (list (Item Interval V)) :=
  mapo (fun p : N * V =>
          let! ob := bin (hh_axes h) (fst p) in
          let! b := expect ob in
          Val (mkItem (fst p) b (snd p))) order.

End HashHistogram.
