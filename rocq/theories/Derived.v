(** * Derived: the derived [PartialEq], [PartialOrd], [Ord] and [Hash] implementations.

    #[derive(PartialOrd)] compares a struct's fields in declaration order and
    stops at the first that is not [Some(Equal)]; on an enum, values of different variants are
    ordered by the order of declaration.  #[derive(Ord)] does the same (the
    result is then never [None]).  #[derive(Hash)] feeds the variant number and then the
    fields in order to the hasher. *)
From Coq Require Import List NArith ZArith Bool.
From Verif Require Import Base Num Axis Uniform VarAxis Axes Value VecHist.
Import ListNotations.
Open Scope N_scope.

(** [PartialEq], [PartialOrd] and [Hash] of one type; [c_hash] is what is fed to the hasher. *)
Record Cmp (X : Type) := mkCmp { c_eqb : X -> X -> bool; c_cmp : X -> X -> option comparison; c_hash : X -> list N }.
Arguments mkCmp {X} _ _ _. Arguments c_eqb {X} _ _ _. Arguments c_cmp {X} _ _ _. Arguments c_hash {X} _ _.

(** Next field if this one is equal. *)
Definition lex (c next : option comparison) : option comparison := match c with Some Eq => next | _ => c end.

(** [usize]. *)
Definition cmp_usize : Cmp N := mkCmp N.eqb (fun a b => Some (N.compare a b)) (fun a => [a]).

(** [PhantomData]: always equal, feeds nothing. *)

(** [Vec<X>]: lexicographic, a proper prefix is smaller; feeds the length first. *)
Section Vec.
Context {X : Type} (C : Cmp X).
Fixpoint vec_list_eqb (l l' : list X) : bool :=
  match l, l' with
  | [], [] => true
  | x :: xs, y :: ys => c_eqb C x y && vec_list_eqb xs ys
  | _, _ => false
  end.
Fixpoint vec_list_cmp (l l' : list X) : option comparison :=
  match l, l' with
  | [], [] => Some Eq
  | [], _ :: _ => Some Lt
  | _ :: _, [] => Some Gt
  | x :: xs, y :: ys => lex (c_cmp C x y) (vec_list_cmp xs ys)
  end.
Definition cmp_vec : Cmp (list X) := mkCmp vec_list_eqb vec_list_cmp (fun l => N.of_nat (length l) :: flat_map (c_hash C) l).
End Vec.

Section Types.
Context {T : Type} (C : Cmp T).

(** axis/bininterval/bininterval.rs:9-32: variants in the order Underflow, Overflow, Bin. *)
Definition interval_eqb (a b : BinInterval T) : bool :=
  match a, b with
  | Underflow e, Underflow e' => c_eqb C e e'
  | Overflow s, Overflow s' => c_eqb C s s'
  | Bin s e, Bin s' e' => c_eqb C s s' && c_eqb C e e'
  | _, _ => false
  end.
Definition interval_tag (a : BinInterval T) : N := match a with Underflow _ => 0 | Overflow _ => 1 | Bin _ _ => 2 end.
Definition interval_cmp (a b : BinInterval T) : option comparison :=
  match a, b with
  | Underflow e, Underflow e' => c_cmp C e e'
  | Overflow s, Overflow s' => c_cmp C s s'
  | Bin s e, Bin s' e' => lex (c_cmp C s s') (c_cmp C e e')
  | _, _ => Some (N.compare (interval_tag a) (interval_tag b))
  end.
Definition cmp_interval : Cmp (BinInterval T) := mkCmp interval_eqb interval_cmp
  (fun a => interval_tag a :: match a with Underflow e => c_hash C e | Overflow s => c_hash C s | Bin s e => c_hash C s ++ c_hash C e end).

(** axis/bininterval/singlevaluebininterval.rs:7-16: variants in the order Overflow, Bin. *)
Definition cmp_single : Cmp (SingleValueBinInterval T) := mkCmp
  (fun a b => match a, b with SVOverflow, SVOverflow => true | SVBin x, SVBin y => c_eqb C x y | _, _ => false end)
  (fun a b => match a, b with
              | SVOverflow, SVOverflow => Some Eq | SVOverflow, SVBin _ => Some Lt
              | SVBin _, SVOverflow => Some Gt | SVBin x, SVBin y => c_cmp C x y end)
  (fun a => match a with SVOverflow => [0] | SVBin x => 1 :: c_hash C x end).

(** axis/uniform.rs:31-38: num, low, high, step. *)
Definition cmp_uniform : Cmp (Uniform T) := mkCmp
  (fun a b => c_eqb cmp_usize (u_num a) (u_num b) && c_eqb C (u_low a) (u_low b) && c_eqb C (u_high a) (u_high b) && c_eqb C (u_step a) (u_step b))
  (fun a b => lex (c_cmp cmp_usize (u_num a) (u_num b)) (lex (c_cmp C (u_low a) (u_low b)) (lex (c_cmp C (u_high a) (u_high b)) (c_cmp C (u_step a) (u_step b)))))
  (fun a => c_hash cmp_usize (u_num a) ++ c_hash C (u_low a) ++ c_hash C (u_high a) ++ c_hash C (u_step a)).

(** A struct with one field (axis/uniformnoflow.rs:28-32, axis/uniformcyclic.rs:48-53,
    axis/variable.rs:33-37, axis/variablenoflow.rs:30-34, axis/variablecyclic.rs:28-33, value/sum.rs:9-13). *)
Definition cmp_field {X Y : Type} (f : Y -> X) (D : Cmp X) : Cmp Y :=
  mkCmp (fun a b => c_eqb D (f a) (f b)) (fun a b => c_cmp D (f a) (f b)) (fun a => c_hash D (f a)).
Definition cmp_uniformnoflow : Cmp (UniformNoFlow T) := cmp_field unf_axis cmp_uniform.
Definition cmp_uniformcyclic : Cmp (UniformCyclic T) := cmp_field uc_axis cmp_uniformnoflow.
Definition cmp_variable : Cmp (Variable_ T) := cmp_field v_edges (cmp_vec C).
Definition cmp_variablenoflow : Cmp (VariableNoFlow T) := cmp_field vnf_axis cmp_variable.
Definition cmp_variablecyclic : Cmp (VariableCyclic T) := cmp_field vc_axis cmp_variablenoflow.
Definition cmp_sum : Cmp (Sum T) := cmp_field s_sum C.

(** value/weightedsum.rs:13-18: sumw, sumw2. *)
Definition cmp_weightedsum : Cmp (WeightedSum T) := mkCmp
  (fun a b => c_eqb C (ws_sumw a) (ws_sumw b) && c_eqb C (ws_sumw2 a) (ws_sumw2 b))
  (fun a b => lex (c_cmp C (ws_sumw a) (ws_sumw b)) (c_cmp C (ws_sumw2 a) (ws_sumw2 b)))
  (fun a => c_hash C (ws_sumw a) ++ c_hash C (ws_sumw2 a)).
End Types.

Section Struct.
(** value/mean.rs:39-46: sumw, sumw2, count, PhantomData. *)
Definition cmp_mean {T C : Type} (CT : Cmp T) (CC : Cmp C) : Cmp (Mean T C) := mkCmp
  (fun a b => c_eqb CT (m_sumw a) (m_sumw b) && c_eqb CT (m_sumw2 a) (m_sumw2 b) && c_eqb CC (m_count a) (m_count b))
  (fun a b => lex (c_cmp CT (m_sumw a) (m_sumw b)) (lex (c_cmp CT (m_sumw2 a) (m_sumw2 b)) (c_cmp CC (m_count a) (m_count b))))
  (fun a => c_hash CT (m_sumw a) ++ c_hash CT (m_sumw2 a) ++ c_hash CC (m_count a)).
(** value/weightedmean.rs:40-49: sumwt, sumwt2, sumw, sumw2, count, PhantomData. *)
Definition cmp_weightedmean {T W C : Type} (CT : Cmp T) (CW : Cmp W) (CC : Cmp C) : Cmp (WeightedMean T W C) := mkCmp
  (fun a b => c_eqb CT (wm_sumwt a) (wm_sumwt b) && c_eqb CT (wm_sumwt2 a) (wm_sumwt2 b) && c_eqb CW (wm_sumw a) (wm_sumw b)
              && c_eqb CW (wm_sumw2 a) (wm_sumw2 b) && c_eqb CC (wm_count a) (wm_count b))
  (fun a b => lex (c_cmp CT (wm_sumwt a) (wm_sumwt b)) (lex (c_cmp CT (wm_sumwt2 a) (wm_sumwt2 b)) (lex (c_cmp CW (wm_sumw a) (wm_sumw b))
              (lex (c_cmp CW (wm_sumw2 a) (wm_sumw2 b)) (c_cmp CC (wm_count a) (wm_count b))))))
  (fun a => c_hash CT (wm_sumwt a) ++ c_hash CT (wm_sumwt2 a) ++ c_hash CW (wm_sumw a) ++ c_hash CW (wm_sumw2 a) ++ c_hash CC (wm_count a)).
(** histogram/histogram.rs:101-110: index, bin, value. *)
Definition cmp_item {B V : Type} (CB : Cmp B) (CV : Cmp V) : Cmp (Item B V) := mkCmp
  (fun a b => c_eqb cmp_usize (it_index a) (it_index b) && c_eqb CB (it_bin a) (it_bin b) && c_eqb CV (it_value a) (it_value b))
  (fun a b => lex (c_cmp cmp_usize (it_index a) (it_index b)) (lex (c_cmp CB (it_bin a) (it_bin b)) (c_cmp CV (it_value a) (it_value b))))
  (fun a => c_hash cmp_usize (it_index a) ++ c_hash CB (it_bin a) ++ c_hash CV (it_value a)).
(** axes.rs:8-13, one axis: axes, shape. *)
Definition cmp_axes1 {X : Type} (CX : Cmp X) : Cmp (AxesTuple1 X) := mkCmp
  (fun a b => c_eqb CX (ax1_axis a) (ax1_axis b) && c_eqb (cmp_vec cmp_usize) (ax1_shape a) (ax1_shape b))
  (fun a b => lex (c_cmp CX (ax1_axis a) (ax1_axis b)) (c_cmp (cmp_vec cmp_usize) (ax1_shape a) (ax1_shape b)))
  (fun a => c_hash CX (ax1_axis a) ++ c_hash (cmp_vec cmp_usize) (ax1_shape a)).
(** Tuples of axes: component by component. *)
Fixpoint tuple_cmp_eqb (CT : forall t : axis_type, Cmp (at_type t)) (ts : list axis_type) : axes_tuple ts -> axes_tuple ts -> bool :=
  match ts return axes_tuple ts -> axes_tuple ts -> bool with
  | [] => fun _ _ => true
  | t :: ts' => fun a b => c_eqb (CT t) (fst a) (fst b) && tuple_cmp_eqb CT ts' (snd a) (snd b)
  end.
Fixpoint tuple_cmp (CT : forall t : axis_type, Cmp (at_type t)) (ts : list axis_type) : axes_tuple ts -> axes_tuple ts -> option comparison :=
  match ts return axes_tuple ts -> axes_tuple ts -> option comparison with
  | [] => fun _ _ => Some Eq
  | t :: ts' => fun a b => lex (c_cmp (CT t) (fst a) (fst b)) (tuple_cmp CT ts' (snd a) (snd b))
  end.
Fixpoint tuple_hash (CT : forall t : axis_type, Cmp (at_type t)) (ts : list axis_type) : axes_tuple ts -> list N :=
  match ts return axes_tuple ts -> list N with
  | [] => fun _ => []
  | t :: ts' => fun a => c_hash (CT t) (fst a) ++ tuple_hash CT ts' (snd a)
  end.
(** axes.rs:8-13, several axes: axes, shape. *)
Definition cmp_axes (CT : forall t : axis_type, Cmp (at_type t)) (ts : list axis_type) : Cmp (AxesTuple ts) := mkCmp
  (fun a b => tuple_cmp_eqb CT ts (ax_axes a) (ax_axes b) && c_eqb (cmp_vec cmp_usize) (ax_shape a) (ax_shape b))
  (fun a b => lex (tuple_cmp CT ts (ax_axes a) (ax_axes b)) (c_cmp (cmp_vec cmp_usize) (ax_shape a) (ax_shape b)))
  (fun a => tuple_hash CT ts (ax_axes a) ++ c_hash (cmp_vec cmp_usize) (ax_shape a)).
(** histogram/vechistogram.rs:14-19: axes, values. *)
Definition cmp_vechistogram {A V : Type} (CA : Cmp A) (CV : Cmp V) : Cmp (VecHistogram A V) := mkCmp
  (fun a b => c_eqb CA (vh_axes a) (vh_axes b) && c_eqb (cmp_vec CV) (vh_values a) (vh_values b))
  (fun a b => lex (c_cmp CA (vh_axes a) (vh_axes b)) (c_cmp (cmp_vec CV) (vh_values a) (vh_values b)))
  (fun a => c_hash CA (vh_axes a) ++ c_hash (cmp_vec CV) (vh_values a)).
End Struct.
