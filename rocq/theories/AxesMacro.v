(** * AxesMacro: the macro [impl_axes!] of axes.rs:33-175, which writes the
    implementations of [AxesTuple] for each number of axes.

    First the recursion of the macro (which implementations it writes), then the
    body it writes for one list of fields, with fields accessed by number as in
    the macro ([self.axes.$nth_index]).  Axes.v describes tuples by recursion on
    the number of axes; PropAxesMacro.v proves that both are the same. *)
From Coq Require Import List NArith ZArith Bool String.
From Verif Require Import Base Num Axis Axes.
Import ListNotations.
Open Scope N_scope.

(** ** Which implementations are written *)

(** One [$type_parameter:ident: $index:tt] pair. *)
Definition macro_pair : Type := (string * nat)%type.

(** The possible invocations, axes.rs:34-151. *)
Inductive macro_call : Type :=
| Axes_ (l : list macro_pair)                       (* impl_axes! { X: 0, ... } *)
| RemoveLast (l : list macro_pair)                  (* impl_axes!(@REMOVELAST [0 AND X], ...) *)
| RemoveLastSep (moved rest : list macro_pair).     (* ... @SEPARATOR ... *)

(** The blocks of [impl]s a macro arm writes. *)
Inductive macro_item : Type :=
| ImplOne                          (* axes.rs:40-66: for [AxesTuple<(X,)>] *)
| ImplMany (l : list macro_pair).  (* axes.rs:72-124 for those pairs *)

(** One expansion: the first matching arm (axes.rs:34-151, in order) gives the
    items written and the next invocation.  [None]: no arm matches, a compile
    error. *)
Definition expand_once (c : macro_call) : option (list macro_item * option macro_call) :=
  match c with
  | Axes_ [] => Some ([], None)                                             (* 34-36 *)
  | Axes_ [_] => Some ([ImplOne], Some (Axes_ []))                          (* 38-69 *)
  | Axes_ l => Some ([ImplMany l], Some (RemoveLast l))                     (* 71-127 *)
  | RemoveLast (p :: q :: r) => Some ([], Some (RemoveLastSep [p] (q :: r))) (* 132-134 *)
  | RemoveLast _ => None
  | RemoveLastSep [] _ => None
  | RemoveLastSep moved (a :: b :: c' :: d :: e :: r) =>                     (* 136-138 *)
      Some ([], Some (RemoveLastSep (moved ++ [a; b; c'; d]) (e :: r)))
  | RemoveLastSep moved (a :: b :: c' :: r) =>                               (* 140-142 *)
      Some ([], Some (RemoveLastSep (moved ++ [a; b]) (c' :: r)))
  | RemoveLastSep moved (a :: b :: r) =>                                     (* 143-145 *)
      Some ([], Some (RemoveLastSep (moved ++ [a]) (b :: r)))
  | RemoveLastSep moved [_] => Some ([], Some (Axes_ moved))                  (* 147-150 *)
  | RemoveLastSep _ [] => None
  end.

(** Complete expansion of an invocation: all items written, and the depth of
    nested expansions (rustc's [recursion_limit], 128 by default, bounds it). *)
Inductive expands : macro_call -> list macro_item -> nat -> Prop :=
| expands_stop c items : expand_once c = Some (items, None) -> expands c items 1
| expands_more c items c' items' d :
    expand_once c = Some (items, Some c') -> expands c' items' d ->
    expands c (items ++ items') (S d).

(** axes.rs:153-175: the invocation in the crate. *)
Definition crate_pairs : list macro_pair :=
  [("X", 0); ("Y", 1); ("Z", 2); ("T", 3); ("D4", 4); ("D5", 5); ("D6", 6); ("D7", 7); ("D8", 8);
   ("D9", 9); ("D10", 10); ("D11", 11); ("D12", 12); ("D13", 13); ("D14", 14); ("D15", 15);
   ("D16", 16); ("D17", 17); ("D18", 18); ("D19", 19); ("D20", 20)]%string%nat.

(** ** The body written for a list of fields (axes.rs:72-124) *)
Section Body.
Context `{Build}.

(** [item.k.num_bins()].  A field that does not exist (a compile error in Rust)
    is a panic here. *)
Fixpoint field_num_bins (ts : list axis_type) (k : nat) : axes_tuple ts -> outcome N :=
  match ts return axes_tuple ts -> outcome N with
  | [] => fun _ => Panic
  | t :: ts' => fun a =>
      match k with
      | O => @num_bins _ (at_axis t) (fst a)
      | S k' => field_num_bins ts' k' (snd a)
      end
  end.

(** [self.axes.k.index(&coordinate.k)]. *)
Fixpoint field_index (ts : list axis_type) (k : nat) : axes_tuple ts -> coords ts -> outcome (option N) :=
  match ts return axes_tuple ts -> coords ts -> outcome (option N) with
  | [] => fun _ _ => Panic
  | t :: ts' => fun a c =>
      match k with
      | O => @index _ (at_axis t) (fst a) (fst c)
      | S k' => field_index ts' k' (snd a) (snd c)
      end
  end.

(** The type of [self.axes.k]'s intervals. *)
Fixpoint field_interval (ts : list axis_type) (k : nat) : Type :=
  match ts with
  | [] => Empty_set
  | t :: ts' => match k with O => at_interval t | S k' => field_interval ts' k' end
  end.

(** [self.axes.k.bin(i)]. *)
Fixpoint field_bin (ts : list axis_type) (k : nat) : axes_tuple ts -> N -> outcome (option (field_interval ts k)) :=
  match ts return axes_tuple ts -> N -> outcome (option (field_interval ts k)) with
  | [] => fun _ _ => Panic
  | t :: ts' =>
      match k return axes_tuple (t :: ts') -> N -> outcome (option (field_interval (t :: ts') k)) with
      | O => fun a i => @bin _ (at_axis t) (fst a) i
      | S k' => fun a i => field_bin ts' k' (snd a) i
      end
  end.

(** The Rust tuple type of the intervals of the fields [ks], in order. *)
Fixpoint interval_tuple (ts : list axis_type) (ks : list nat) : Type :=
  match ks with
  | [] => unit
  | k :: ks' => (field_interval ts k * interval_tuple ts ks')%type
  end.

(** An array literal [[f(k1)?, f(k2)?, ...]]. *)
Fixpoint array_q (f : nat -> outcome (option N)) (ks : list nat) : outcome (option (list N)) :=
  match ks with
  | [] => Val (Some [])
  | k :: ks' =>
      let! o := f k in
      match o with
      | None => Val None
      | Some i =>
          let! os := array_q f ks' in
          match os with None => Val None | Some is => Val (Some (i :: is)) end
      end
  end.

Context (ts : list axis_type) (ks : list nat).

(** axes.rs:77-82 [from]. *)
Definition body_from (item : axes_tuple ts) : outcome (AxesTuple ts) :=
  let! ns := mapo (fun k => field_num_bins ts k item) ks in
  let! shape := scan_products 1 ns in
  Val (mkAxes item shape).

(** axes.rs:88-98 [index]. *)
Definition body_index (a : AxesTuple ts) (c : coords ts) : outcome (option N) :=
  let! o := array_q (fun k => field_index ts k (ax_axes a) c) ks in
  match o with
  | None => Val None
  | Some idxs => let! i := flat_index (ax_shape a) idxs in Val (Some i)
  end.

(** axes.rs:100-103 [num_bins]: [n_1 * n_2 * ... * 1], from left to right. *)
Definition body_num_bins (a : AxesTuple ts) : outcome N :=
  match ks with
  | [] => Val 1
  | k :: ks' =>
      let! n := field_num_bins ts k (ax_axes a) in
      let! p := foldo (fun p k => let! n := field_num_bins ts k (ax_axes a) in umul p n) ks' n in
      umul p 1
  end.

(** axes.rs:105-107 [num_dim]: [count_idents!] (axes.rs:23-31) numbers an enum
    variant after one variant per identifier. *)
Definition body_num_dim : N := N.of_nat (List.length ks).

(** axes.rs:118-122: the tuple [(self.axes.k.bin(index[k])?, ...)]. *)
Fixpoint tuple_q (a : axes_tuple ts) (ds : list N) (ks : list nat) : outcome (option (interval_tuple ts ks)) :=
  match ks return outcome (option (interval_tuple ts ks)) with
  | [] => Val (Some tt)
  | k :: ks' =>
      match nth_error ds k with
      | None => Panic                                  (* index[k] out of bounds *)
      | Some d =>
          let! ob := field_bin ts k a d in
          match ob with
          | None => Val None
          | Some b =>
              let! obs := tuple_q a ds ks' in
              match obs with None => Val None | Some bs => Val (Some (b, bs)) end
          end
      end
  end.

(** axes.rs:109-123 [bin]. *)
Definition body_bin (a : AxesTuple ts) (i : N) : outcome (option (interval_tuple ts ks)) :=
  let! ns := mapo (fun k => field_num_bins ts k (ax_axes a)) ks in
  let! ds := digits i ns in
  tuple_q (ax_axes a) ds ks.
End Body.
