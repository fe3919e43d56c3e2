(** * StdAlgo: the two standard-library algorithms the crate calls.

    [slice::binary_search_by] (axis/variable.rs:89) and [slice::sort_by]
    (axis/variable.rs:53) are not part of the crate.  Concrete implementations
    are given here; the axis model takes them as parameters and the theorems
    only use the documented contract (StdContract.v). *)
From Coq Require Import List NArith ZArith Bool.
From Verif Require Import Base.
Import ListNotations.

(** [Result<usize, usize>] of [binary_search_by]. *)
Inductive search_result := Found (i : nat) | NotFound (i : nat).

(** A [binary_search_by] implementation: the closure compares the probed element
    with the (implicit) target. *)
Definition searcher := forall T : Type, list T -> (T -> comparison) -> search_result.

(** library/core/src/slice/mod.rs of Rust 1.80 (the crate's [rust-version]):
    [while left < right { mid = left + size/2; .. }] with early exit on Equal.
    [fuel] bounds the loop; [length l] iterations always suffice. *)
Fixpoint bsearch_early_loop {T : Type} (fuel : nat) (l : list T) (f : T -> comparison)
  (left right : nat) : search_result :=
  match fuel with
  | O => NotFound left
  | S fuel' =>
      if Nat.ltb left right then
        let mid := (left + (right - left) / 2)%nat in
        match nth_error l mid with
        | None => NotFound left   (* mid < right <= length l: unreachable *)
        | Some v =>
            match f v with
            | Eq => Found mid
            | Lt => bsearch_early_loop fuel' l f (S mid) right
            | Gt => bsearch_early_loop fuel' l f left mid
            end
        end
      else NotFound left
  end.
Definition bsearch_early : searcher :=
  fun T l f => bsearch_early_loop (S (length l)) l f 0 (length l).

(** library/core/src/slice/mod.rs of Rust >= 1.82: no early exit,
    [while size > 1 { half = size/2; mid = base+half; base = if f(mid) == Greater { base } else { mid }; size -= half }]. *)
Fixpoint bsearch_branchless_loop {T : Type} (fuel : nat) (l : list T) (f : T -> comparison)
  (base size : nat) : nat :=
  match fuel with
  | O => base
  | S fuel' =>
      if Nat.ltb 1 size then
        let half := Nat.div size 2 in
        let mid := (base + half)%nat in
        let base' := match nth_error l mid with
                     | Some v => match f v with Gt => base | _ => mid end
                     | None => base   (* unreachable *)
                     end in
        bsearch_branchless_loop fuel' l f base' (size - half)
      else base
  end.
Definition bsearch_branchless : searcher :=
  fun T l f =>
    match l with
    | [] => NotFound 0
    | _ =>
        let base := bsearch_branchless_loop (length l) l f 0 (length l) in
        match nth_error l base with
        | Some v => match f v with
                    | Eq => Found base
                    | Lt => NotFound (S base)
                    | Gt => NotFound base
                    end
        | None => NotFound base   (* unreachable *)
        end
    end.

(** A [sort_by] implementation.  Besides the resulting slice it reports which
    pairs it passed to the comparison closure (the crate's closure records a
    failed comparison, axis/variable.rs:52-58).  std may panic when the closure
    is not a total order (documented since Rust 1.81), hence [outcome]. *)
Definition sorter := forall T : Type,
  list T -> (T -> T -> comparison) -> outcome (list T * list (T * T)).

(** Insertion sort (what std uses for short slices): insert each element, from
    the left, before the first element it is less than, scanning from the right. *)
Fixpoint insert_rev {T : Type} (cmp : T -> T -> comparison) (x : T) (acc : list T)
  : list T * list (T * T) :=
  (* [acc] is the sorted prefix in reverse order *)
  match acc with
  | [] => ([x], [])
  | y :: ys =>
      match cmp x y with
      | Lt => let '(r, tr) := insert_rev cmp x ys in (y :: r, (x, y) :: tr)
      | _ => (x :: y :: ys, [(x, y)])
      end
  end.
Fixpoint insertion_loop {T : Type} (cmp : T -> T -> comparison) (l acc : list T)
  : list T * list (T * T) :=
  match l with
  | [] => (rev acc, [])
  | x :: xs =>
      let '(acc', tr) := insert_rev cmp x acc in
      let '(r, tr') := insertion_loop cmp xs acc' in
      (r, tr ++ tr')
  end.
Definition insertion_sort : sorter := fun T l cmp => Val (insertion_loop cmp l []).
