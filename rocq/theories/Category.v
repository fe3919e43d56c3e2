(** * Category axes: axis/category.rs, axis/categorynoflow.rs. *)
From stdpp Require Import gmap.
From Verif Require Import Base Num Axis.
Open Scope N_scope.

(** [HashMap<T, usize>] for a user key type with [Eq]: an association list in
    which every key occurs at most once. *)
Definition hmap (K V : Type) : Type := list (K * V).

Section Hmap.
Context {K V : Type} `{EqDecision K}.

(** [HashMap::get]. *)
Fixpoint hmap_get (k : K) (m : hmap K V) : option V :=
  match m with
  | [] => None
  | (k', v) :: m' => if decide (k = k') then Some v else hmap_get k m'
  end.

(** [HashMap::insert]: replaces the value of an existing key. *)
Fixpoint hmap_insert (k : K) (v : V) (m : hmap K V) : hmap K V :=
  match m with
  | [] => [(k, v)]
  | (k', v') :: m' => if decide (k = k') then (k, v) :: m' else (k', v') :: hmap_insert k v m'
  end.

(** [HashMap == HashMap]: same length and every entry of the left is in the right. *)
Definition hmap_eqb `{EqDecision V} (m1 m2 : hmap K V) : bool :=
  Nat.eqb (length m1) (length m2)
  && forallb (fun kv => bool_decide (hmap_get (fst kv) m2 = Some (snd kv))) m1.
End Hmap.

(** axis/category.rs:29-35 [struct Category<T>]. *)
Record Category (T : Type) := mkCategory {
  map_t_to_index : hmap T N;
  map_index_to_t : gmap N T
}.
Arguments mkCategory {T} _ _.
Arguments map_t_to_index {T} _. Arguments map_index_to_t {T} _.

(** axis/categorynoflow.rs:21-26 [struct CategoryNoFlow<T>]. *)
Record CategoryNoFlow (T : Type) := mkCategoryNoFlow { cnf_axis : Category T }.
Arguments mkCategoryNoFlow {T} _. Arguments cnf_axis {T} _.

Section Category.
Context `{Build} {T : Type} `{EqDecision T}.

(** axis/category.rs:53-55 [len]. *)
Definition category_len (c : Category T) : N := N.of_nat (size (map_index_to_t c)).

(** axis/category.rs:38-43 [insert]. *)
Definition category_insert (c : Category T) (value : T) : Category T :=
  let index := category_len c in
  {| map_index_to_t := <[index := value]> (map_index_to_t c);
     map_t_to_index := hmap_insert value index (map_t_to_index c) |}.

(** axis/category.rs:45-47 [get_index]. *)
Definition category_get_index (c : Category T) (value : T) : option N :=
  hmap_get value (map_t_to_index c).

(** axis/category.rs:49-51 [get_value]. *)
Definition category_get_value (c : Category T) (index : N) : option T :=
  map_index_to_t c !! index.

(** axis/category.rs:57-73 [constructor] / [new]. *)
Definition category_new (values : list T) : Category T :=
  fold_left category_insert values (mkCategory [] ∅).

(** axis/category.rs:82-84 [index]. *)
Definition category_index (c : Category T) (x : T) : outcome (option N) :=
  match category_get_index c x with
  | Some i => Val (Some i)
  | None => Val (Some (category_len c))
  end.

(** axis/category.rs:86-88 [num_bins]. *)
Definition category_num_bins (c : Category T) : outcome N := uadd (category_len c) 1.

(** axis/category.rs:90-102 [bin]. *)
Definition category_bin (c : Category T) (i : N) : outcome (option (SingleValueBinInterval T)) :=
  match category_get_value c i with
  | Some v => Val (Some (SVBin v))
  | None => if i =? category_len c then Val (Some SVOverflow) else Val None
  end.

(** axis/category.rs:76-103 [impl Axis for Category<T>]. *)
Definition category_axis : Axis (Category T) := {|
  Coordinate := T;
  Interval := SingleValueBinInterval T;
  index := category_index;
  num_bins := category_num_bins;
  bin := category_bin;
  num_dim := fun _ => 1
|}.

(** axis/category.rs:27 derived [PartialEq]: both maps equal. *)
Definition category_eqb (a b : Category T) : bool :=
  hmap_eqb (map_t_to_index a) (map_t_to_index b)
  && bool_decide (map_index_to_t a = map_index_to_t b).

(** ** axis/categorynoflow.rs *)

(** axis/categorynoflow.rs:33-37 [new]. *)
Definition categorynoflow_new (values : list T) : CategoryNoFlow T :=
  mkCategoryNoFlow (category_new values).

(** axis/categorynoflow.rs:44-50 [index]. *)
Definition categorynoflow_index (c : CategoryNoFlow T) (x : T) : outcome (option N) :=
  let! oi := category_index (cnf_axis c) x in
  match oi with
  | None => Val None
  | Some i =>
      let! n := category_num_bins (cnf_axis c) in
      let! n1 := usub n 1 in
      if i =? n1 then Val None else Val (Some i)
  end.

(** axis/categorynoflow.rs:52-54 [num_bins]. *)
Definition categorynoflow_num_bins (c : CategoryNoFlow T) : outcome N :=
  let! n := category_num_bins (cnf_axis c) in usub n 1.

(** axis/categorynoflow.rs:56-62 [bin]. *)
Definition categorynoflow_bin (c : CategoryNoFlow T) (i : N)
  : outcome (option (SingleValueBinInterval T)) :=
  let! ob := category_bin (cnf_axis c) i in
  match ob with
  | None => Val None
  | Some SVOverflow => Val None
  | Some (SVBin v) => Val (Some (SVBin v))
  end.

(** axis/categorynoflow.rs:40-63 [impl Axis for CategoryNoFlow<T>]. *)
Definition categorynoflow_axis : Axis (CategoryNoFlow T) := {|
  Coordinate := T;
  Interval := SingleValueBinInterval T;
  index := categorynoflow_index;
  num_bins := categorynoflow_num_bins;
  bin := categorynoflow_bin;
  num_dim := fun _ => 1
|}.

(** axis/categorynoflow.rs:19 derived [PartialEq]. *)
Definition categorynoflow_eqb (a b : CategoryNoFlow T) : bool :=
  category_eqb (cnf_axis a) (cnf_axis b).

End Category.
