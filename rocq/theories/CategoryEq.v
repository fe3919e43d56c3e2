(** * CategoryEq: axis/category.rs and axis/categorynoflow.rs for category types
    with a user-defined [Eq].

    [Category.v] models [T: Eq] by identity.  Here [==] is any function [eqb] (a
    lawful [Eq] is an equivalence; [Hash] consistent with it is what a [HashMap]
    requires), e.g. strings compared without regard to case. *)
From stdpp Require Import gmap.
From Verif Require Import Base Num Axis Category.
Open Scope N_scope.

Section Hmap.
Context {K V : Type} (eqb : K -> K -> bool).

(** [HashMap::get]: the value stored under a key equal to [k]. *)
Fixpoint ghmap_get (k : K) (m : hmap K V) : option V :=
  match m with
  | [] => None
  | (k', v) :: m' => if eqb k k' then Some v else ghmap_get k m'
  end.

(** [HashMap::insert]: if an equal key is present its value is replaced and the
    stored key stays. *)
Fixpoint ghmap_insert (k : K) (v : V) (m : hmap K V) : hmap K V :=
  match m with
  | [] => [(k, v)]
  | (k', v') :: m' => if eqb k k' then (k', v) :: m' else (k', v') :: ghmap_insert k v m'
  end.

(** [HashMap == HashMap]: same length and every entry of the left is in the right. *)
Definition ghmap_eqb (veqb : V -> V -> bool) (m1 m2 : hmap K V) : bool :=
  Nat.eqb (length m1) (length m2)
  && forallb (fun kv => match ghmap_get (fst kv) m2 with Some v => veqb (snd kv) v | None => false end) m1.
End Hmap.

Section Category.
Context `{Build} {T : Type} (eqb : T -> T -> bool).

(** axis/category.rs:38-43 [insert]. *)
Definition gcategory_insert (c : Category T) (value : T) : Category T :=
  let index := category_len c in
  {| map_index_to_t := <[index := value]> (map_index_to_t c);
     map_t_to_index := ghmap_insert eqb value index (map_t_to_index c) |}.

(** axis/category.rs:45-47 [get_index]. *)
Definition gcategory_get_index (c : Category T) (value : T) : option N :=
  ghmap_get eqb value (map_t_to_index c).

(** axis/category.rs:57-73 [constructor] / [new]. *)
Definition gcategory_new (values : list T) : Category T :=
  fold_left gcategory_insert values (mkCategory [] ∅).

(** axis/category.rs:82-84 [index]. *)
Definition gcategory_index (c : Category T) (x : T) : outcome (option N) :=
  match gcategory_get_index c x with
  | Some i => Val (Some i)
  | None => Val (Some (category_len c))
  end.

(** axis/category.rs:76-103 [impl Axis for Category<T>]; [num_bins] and [bin] do
    not compare categories. *)
Definition gcategory_axis : Axis (Category T) := {|
  Coordinate := T;
  Interval := SingleValueBinInterval T;
  index := gcategory_index;
  num_bins := category_num_bins;
  bin := category_bin;
  num_dim := fun _ => 1
|}.

(** axis/category.rs:27 derived [PartialEq]: both maps equal. *)
Definition gcategory_eqb (a b : Category T) : bool :=
  ghmap_eqb eqb N.eqb (map_t_to_index a) (map_t_to_index b)
  && (Nat.eqb (size (map_index_to_t a)) (size (map_index_to_t b))
      && forallb (fun p : N * T => match map_index_to_t b !! fst p with
                                   | Some v => eqb (snd p) v
                                   | None => false
                                   end) (map_to_list (map_index_to_t a))).

(** axis/categorynoflow.rs:33-37 [new]. *)
Definition gcategorynoflow_new (values : list T) : CategoryNoFlow T := mkCategoryNoFlow (gcategory_new values).

(** axis/categorynoflow.rs:44-50 [index]. *)
Definition gcategorynoflow_index (c : CategoryNoFlow T) (x : T) : outcome (option N) :=
  let! oi := gcategory_index (cnf_axis c) x in
  match oi with
  | None => Val None
  | Some i =>
      let! n := category_num_bins (cnf_axis c) in
      let! n1 := usub n 1 in
      if i =? n1 then Val None else Val (Some i)
  end.

(** axis/categorynoflow.rs:40-63 [impl Axis for CategoryNoFlow<T>]. *)
Definition gcategorynoflow_axis : Axis (CategoryNoFlow T) := {|
  Coordinate := T;
  Interval := SingleValueBinInterval T;
  index := gcategorynoflow_index;
  num_bins := categorynoflow_num_bins;
  bin := categorynoflow_bin;
  num_dim := fun _ => 1
|}.

(** axis/categorynoflow.rs:19 derived [PartialEq]. *)
Definition gcategorynoflow_eqb (a b : CategoryNoFlow T) : bool := gcategory_eqb (cnf_axis a) (cnf_axis b).
End Category.
