(** * Lazy: iterators that are only partly consumed.

    The other model files give an iterator as the list it yields when consumed to
    the end.  Here it is the sequence of its suspended items: the k-th element is
    the result of the k-th call to [next], evaluated only when that call is made
    (it may panic; the iterator can then still be advanced by a program that
    catches the panic). *)
From stdpp Require Import gmap.
From Verif Require Import Base Num Axis Value VecHist HashHist Unwind Par.
Open Scope N_scope.

Definition lazy (X : Type) : Type := list (outcome X).

(** [Iterator::map] with a closure that may panic. *)
Definition lazy_map {X Y} (f : X -> outcome Y) (l : lazy X) : lazy Y := map (fun o => let! x := o in f x) l.

(** [Iterator::zip]: calls [next] on the left, then on the right; a panic on the
    left leaves the right one where it was. *)
Fixpoint lazy_zip {X Y} (l : lazy X) (r : lazy Y) : lazy (X * Y) :=
  match l with
  | [] => []
  | Panic :: l' => Panic :: lazy_zip l' r
  | Val x :: l' => match r with
                   | [] => []
                   | o :: r' => (let! y := o in Val (x, y)) :: lazy_zip l' r'
                   end
  end.

(** [Iterator::take] and [Iterator::collect]. *)
Definition lazy_take {X} (k : nat) (l : lazy X) : lazy X := firstn k l.
Definition lazy_collect {X} (l : lazy X) : outcome (list X) := mapo (fun o => o) l.

(** [for x in iter { body }] with state [S]; the body may [break] ([false]) or panic. *)
Fixpoint for_loop {S X} (body : S -> X -> outcome (S * bool)) (l : lazy X) (s : S) : after S :=
  match l with
  | [] => Returned s
  | Panic :: _ => Unwound s
  | Val x :: l' => match body s x with
                   | Panic => Unwound s
                   | Val (s', true) => for_loop body l' s'
                   | Val (s', false) => Returned s'
                   end
  end.

(** The same for an iterator of mutable references into the memory [M]: an item
    comes with the key of the slot it points to; the body reads the slot, computes,
    and stores the new contents. *)
Fixpoint for_loop_mut {S X M V} (mem : slots M V) (body : S -> X -> V -> outcome (S * V * bool)) (l : lazy (X * N)) (s : S) (m : M)
  : after (S * M) :=
  match l with
  | [] => Returned (s, m)
  | Panic :: _ => Unwound (s, m)
  | Val (x, k) :: l' =>
      match slot_get mem m k with
      | None => Unwound (s, m)                      (* not reachable: references are valid *)
      | Some v => match body s x v with
                  | Panic => Unwound (s, m)
                  | Val (s', v', true) => for_loop_mut mem body l' s' (slot_set mem m k v')
                  | Val (s', v', false) => Returned (s', slot_set mem m k v')
                  end
      end
  end.

Section Iterators.
Context {A V : Type} {AX : Axis A}.

(** axis/mod.rs:103-105: [0..self.num_bins()] is computed when [iter()] is called,
    108-116: the bins when the items are. *)
Definition axis_iter_lazy (a : A) : outcome (lazy (N * Interval)) :=
  let! is := indices a in
  Val (map (fun it => let! b := bin a it in let! b' := expect b in Val (it, b')) is).
(** axis/mod.rs:119-124. *)
Definition axis_bins_lazy (a : A) : outcome (lazy Interval) :=
  let! is := indices a in Val (map (fun it => let! b := bin a it in expect b) is).

(** histogram/vechistogram.rs:52-62. *)
Definition vec_iter_lazy (h : VecHistogram A V) : outcome (lazy (Item Interval V)) :=
  let! l := axis_iter_lazy (vh_axes h) in
  Val (lazy_map (fun p : N * Interval =>
         let! v := expect (vec_value_at_index h (fst p)) in Val (mkItem (fst p) (snd p) v)) l).
(** histogram/vechistogram.rs:72-79: the bins zipped with the slots. *)
Definition vec_iter_mut_lazy (h : VecHistogram A V) : outcome (lazy (N * Interval * N)) :=
  let! l := axis_iter_lazy (vh_axes h) in
  Val (lazy_zip l (map Val (range (N.of_nat (length (vh_values h)))))).
(** histogram/hashhistogram.rs:117-128. *)
Definition hash_iter_lazy (h : HashHistogram A V) (order : list (N * V)) : lazy (Item Interval V) :=
  map (fun p : N * V => let! ob := bin (hh_axes h) (fst p) in let! b := expect ob in Val (mkItem (fst p) b (snd p))) order.
(** histogram/hashhistogram.rs:138-149. *)
Definition hash_iter_mut_lazy (h : HashHistogram A V) (order : list (N * V)) : lazy (N * Interval * N) :=
  map (fun p : N * V => let! ob := bin (hh_axes h) (fst p) in let! b := expect ob in Val (fst p, b, fst p)) order.
End Iterators.
