(** * Serde: the derived [Serialize]/[Deserialize] implementations (feature "serde").

    The serde data model of a self-describing format (such as JSON): whatever is
    serialised is handed back unchanged to the deserialiser.  How a format encodes
    numbers or text (JSON, for instance, turns NaN into null) is not modelled:
    coordinate, value and category types come with their own codec. *)
From stdpp Require Import gmap.
From Coq Require Import String.
From Verif Require Import Base Num Axis Uniform VarAxis Category Axes Value VecHist HashHist.
Open Scope N_scope.

(** Serialised data. *)
Inductive sval : Type :=
| SNat (n : N)                          (* an unsigned integer *)
| SInt (z : Z)                          (* an integer *)
| SText (s : string)
| SNull                                 (* unit, PhantomData, None *)
| SSeq (l : list sval)                  (* sequence or tuple *)
| SMap (l : list (sval * sval))         (* HashMap *)
| SObj (fields : list (string * sval)). (* struct, or map with field names as keys *)

(** [Serialize] and [Deserialize] of one type; [None] is a deserialisation error. *)
Record codec (T : Type) := mkCodec { ser : T -> sval; de : sval -> option T }.
Arguments mkCodec {T} _ _. Arguments ser {T} _ _. Arguments de {T} _ _.

(** serde's implementation for [usize]. *)
Definition usize_codec `{Build} : codec N :=
  mkCodec SNat (fun v => match v with SNat n => if n <? usize_mod then Some n else None | _ => None end).

(** serde's implementation for [Vec<T>]. *)
Fixpoint de_all {T} (d : sval -> option T) (l : list sval) : option (list T) :=
  match l with
  | [] => Some []
  | x :: xs => match d x, de_all d xs with Some y, Some ys => Some (y :: ys) | _, _ => None end
  end.
Definition vec_codec {T} (c : codec T) : codec (list T) :=
  mkCodec (fun l => SSeq (map (ser c) l))
          (fun v => match v with SSeq l => de_all (de c) l | _ => None end).

(** Derived [Deserialize] of a struct, map form: fields are found by name in any
    order; a missing field and a field given twice are errors; unknown fields are
    ignored. *)
Definition field (name : string) (fs : list (string * sval)) : option sval :=
  match List.filter (fun kv => String.eqb (fst kv) name) fs with
  | [kv] => Some (snd kv)
  | _ => None
  end.
Definition de_field {T} (c : codec T) (name : string) (fs : list (string * sval)) : option T :=
  match field name fs with Some v => de c v | None => None end.

Section Axes1D.
Context {Bd : Build} {T : Type} (c : codec T).

(** axis/uniform.rs:32 derive(Serialize, Deserialize). *)
Definition uniform_codec : codec (Uniform T) := mkCodec
  (fun a => SObj [("num"%string, ser usize_codec (u_num a)); ("low"%string, ser c (u_low a));
                  ("high"%string, ser c (u_high a)); ("step"%string, ser c (u_step a))])
  (fun v => match v with
   | SObj fs =>
       match de_field usize_codec "num" fs, de_field c "low" fs, de_field c "high" fs, de_field c "step" fs with
       | Some n, Some l, Some h, Some s => Some (mkUniform n l h s)
       | _, _, _, _ => None
       end
   | _ => None
   end).

(** axis/uniformnoflow.rs:29. *)
Definition uniformnoflow_codec : codec (UniformNoFlow T) := mkCodec
  (fun a => SObj [("axis"%string, ser uniform_codec (unf_axis a))])
  (fun v => match v with
   | SObj fs => option_map mkUniformNoFlow (de_field uniform_codec "axis" fs)
   | _ => None
   end).

(** axis/uniformcyclic.rs:49-53: the field is [serde(flatten)]ed, so the fields
    of the inner struct appear in its place. *)
Definition uniformcyclic_codec : codec (UniformCyclic T) := mkCodec
  (fun a => ser uniformnoflow_codec (uc_axis a))
  (fun v => option_map mkUniformCyclic (de uniformnoflow_codec v)).

(** axis/variable.rs:34. *)
Definition variable_codec : codec (Variable_ T) := mkCodec
  (fun a => SObj [("bin_edges"%string, ser (vec_codec c) (v_edges a))])
  (fun v => match v with
   | SObj fs => option_map mkVariable (de_field (vec_codec c) "bin_edges" fs)
   | _ => None
   end).

(** axis/variablenoflow.rs:31. *)
Definition variablenoflow_codec : codec (VariableNoFlow T) := mkCodec
  (fun a => SObj [("axis"%string, ser variable_codec (vnf_axis a))])
  (fun v => match v with
   | SObj fs => option_map mkVariableNoFlow (de_field variable_codec "axis" fs)
   | _ => None
   end).

(** axis/variablecyclic.rs:29-33, [serde(flatten)]ed. *)
Definition variablecyclic_codec : codec (VariableCyclic T) := mkCodec
  (fun a => ser variablenoflow_codec (vc_axis a))
  (fun v => option_map mkVariableCyclic (de variablenoflow_codec v)).
End Axes1D.

(** ** Hash maps: serialised in iteration order, deserialised by inserting. *)

(** The entries of a serialised map. *)
Fixpoint de_entries {K V} (ck : codec K) (cv : codec V) (l : list (sval * sval)) : option (list (K * V)) :=
  match l with
  | [] => Some []
  | (k, v) :: xs =>
      match de ck k, de cv v, de_entries ck cv xs with
      | Some k', Some v', Some r => Some ((k', v') :: r)
      | _, _, _ => None
      end
  end.
Definition ser_entries {K V} (ck : codec K) (cv : codec V) (order : list (K * V)) : sval :=
  SMap (map (fun kv => (ser ck (fst kv), ser cv (snd kv))) order).

(** [HashMap<usize, V>]. *)
Definition de_gmap {Bd : Build} {V} (cv : codec V) (v : sval) : option (gmap N V) :=
  match v with
  | SMap l => option_map (fun es => fold_left (fun (m : gmap N V) kv => <[fst kv := snd kv]> m) es ∅) (de_entries usize_codec cv l)
  | _ => None
  end.

(** [HashMap<T, usize>] of a category axis. *)
Definition de_hmap {Bd : Build} {K} `{EqDecision K} (ck : codec K) (v : sval) : option (hmap K N) :=
  match v with
  | SMap l => option_map (fun es => fold_left (fun m kv => hmap_insert (fst kv) (snd kv) m) es [])
                         (de_entries ck usize_codec l)
  | _ => None
  end.

Section Category.
Context {Bd : Build} {T : Type} `{EqDecision T} (c : codec T).

(** axis/category.rs:28-35; [order1], [order2] are the iteration orders of the
    two maps. *)
Definition category_ser (order1 : list (T * N)) (order2 : list (N * T)) : sval :=
  SObj [("map_t_to_index"%string, ser_entries c usize_codec order1);
        ("map_index_to_t"%string, ser_entries usize_codec c order2)].
Definition category_de (v : sval) : option (Category T) :=
  match v with
  | SObj fs =>
      match field "map_t_to_index" fs, field "map_index_to_t" fs with
      | Some v1, Some v2 =>
          match de_hmap c v1, de_gmap c v2 with
          | Some m1, Some m2 => Some (mkCategory m1 m2)
          | _, _ => None
          end
      | _, _ => None
      end
  | _ => None
  end.

(** axis/categorynoflow.rs:20-26. *)
Definition categorynoflow_ser (order1 : list (T * N)) (order2 : list (N * T)) : sval :=
  SObj [("axis"%string, category_ser order1 order2)].
Definition categorynoflow_de (v : sval) : option (CategoryNoFlow T) :=
  match v with
  | SObj fs => match field "axis" fs with
               | Some w => option_map mkCategoryNoFlow (category_de w)
               | None => None
               end
  | _ => None
  end.
End Category.

(** ** Axes tuples: axes.rs:9-13 *)

(** One codec per component of a tuple. *)
Fixpoint codecs (ts : list axis_type) : Type :=
  match ts with [] => unit | t :: ts' => (codec (at_type t) * codecs ts')%type end.

(** serde's implementation for tuples: a sequence of the same length. *)
Fixpoint tuple_ser (ts : list axis_type) : codecs ts -> axes_tuple ts -> list sval :=
  match ts return codecs ts -> axes_tuple ts -> list sval with
  | [] => fun _ _ => []
  | t :: ts' => fun cs a => ser (fst cs) (fst a) :: tuple_ser ts' (snd cs) (snd a)
  end.
Fixpoint tuple_de (ts : list axis_type) : codecs ts -> list sval -> option (axes_tuple ts) :=
  match ts return codecs ts -> list sval -> option (axes_tuple ts) with
  | [] => fun _ l => match l with [] => Some tt | _ => None end
  | t :: ts' => fun cs l =>
      match l with
      | [] => None
      | v :: l' =>
          match de (fst cs) v, tuple_de ts' (snd cs) l' with
          | Some x, Some xs => Some (x, xs)
          | _, _ => None
          end
      end
  end.

Definition axes_codec {Bd : Build} {ts} (cs : codecs ts) : codec (AxesTuple ts) := mkCodec
  (fun a => SObj [("axes"%string, SSeq (tuple_ser ts cs (ax_axes a)));
                  ("shape"%string, ser (vec_codec usize_codec) (ax_shape a))])
  (fun v => match v with
   | SObj fs =>
       match field "axes" fs, de_field (vec_codec usize_codec) "shape" fs with
       | Some (SSeq l), Some sh => option_map (fun a => mkAxes a sh) (tuple_de ts cs l)
       | _, _ => None
       end
   | _ => None
   end).

(** ** Histograms *)

(** histogram/vechistogram.rs:15-19. *)
Definition vec_hist_codec {A V} (ca : codec A) (cv : codec V) : codec (VecHistogram A V) := mkCodec
  (fun h => SObj [("axes"%string, ser ca (vh_axes h)); ("values"%string, ser (vec_codec cv) (vh_values h))])
  (fun v => match v with
   | SObj fs =>
       match de_field ca "axes" fs, de_field (vec_codec cv) "values" fs with
       | Some a, Some vs => Some (mkVecHist a vs)
       | _, _ => None
       end
   | _ => None
   end).

(** histogram/hashhistogram.rs:51-61; [order] is the iteration order of the map.
    The hasher is not serialised (a fresh default one is used). *)
Definition hash_hist_ser {Bd : Build} {A V} (ca : codec A) (cv : codec V) (h : HashHistogram A V) (order : list (N * V)) : sval :=
  SObj [("axes"%string, ser ca (hh_axes h)); ("values"%string, ser_entries usize_codec cv order)].
Definition hash_hist_de {Bd : Build} {A V} (ca : codec A) (cv : codec V) (v : sval) : option (HashHistogram A V) :=
  match v with
  | SObj fs =>
      match de_field ca "axes" fs, field "values" fs with
      | Some a, Some vs => option_map (mkHashHist a) (de_gmap cv vs)
      | _, _ => None
      end
  | _ => None
  end.

(** ** Bin value types *)

(** value/sum.rs:10-13. *)
Definition sum_codec {T} (c : codec T) : codec (Sum T) := mkCodec
  (fun s => SObj [("sum"%string, ser c (s_sum s))])
  (fun v => match v with SObj fs => option_map mkSum (de_field c "sum" fs) | _ => None end).

(** value/weightedsum.rs:14-18. *)
Definition weightedsum_codec {T} (c : codec T) : codec (WeightedSum T) := mkCodec
  (fun s => SObj [("sumw"%string, ser c (ws_sumw s)); ("sumw2"%string, ser c (ws_sumw2 s))])
  (fun v => match v with
   | SObj fs => match de_field c "sumw" fs, de_field c "sumw2" fs with
                | Some a, Some b => Some (mkWeightedSum a b) | _, _ => None end
   | _ => None end).

(** PhantomData. *)
Definition unit_codec : codec unit :=
  mkCodec (fun _ => SNull) (fun v => match v with SNull => Some tt | _ => None end).

(** value/mean.rs:40-46. *)
Definition mean_codec {T C} (c : codec T) (cc : codec C) : codec (Mean T C) := mkCodec
  (fun s => SObj [("sumw"%string, ser c (m_sumw s)); ("sumw2"%string, ser c (m_sumw2 s));
                  ("count"%string, ser cc (m_count s)); ("phantom_output_type"%string, SNull)])
  (fun v => match v with
   | SObj fs => match de_field c "sumw" fs, de_field c "sumw2" fs, de_field cc "count" fs,
                      de_field unit_codec "phantom_output_type" fs with
                | Some a, Some b, Some n, Some _ => Some (mkMean a b n) | _, _, _, _ => None end
   | _ => None end).

(** value/weightedmean.rs:41-49. *)
Definition weightedmean_codec {T W C} (c : codec T) (cw : codec W) (cc : codec C) : codec (WeightedMean T W C) := mkCodec
  (fun s => SObj [("sumwt"%string, ser c (wm_sumwt s)); ("sumwt2"%string, ser c (wm_sumwt2 s));
                  ("sumw"%string, ser cw (wm_sumw s)); ("sumw2"%string, ser cw (wm_sumw2 s));
                  ("count"%string, ser cc (wm_count s)); ("phantom_output_type"%string, SNull)])
  (fun v => match v with
   | SObj fs => match de_field c "sumwt" fs, de_field c "sumwt2" fs, de_field cw "sumw" fs, de_field cw "sumw2" fs,
                      de_field cc "count" fs, de_field unit_codec "phantom_output_type" fs with
                | Some a, Some b, Some d, Some e, Some n, Some _ => Some (mkWeightedMean a b d e n)
                | _, _, _, _, _, _ => None end
   | _ => None end).

(** ** Items and errors *)

(** histogram/histogram.rs:102-110 [struct Item]. *)
Definition item_codec {Bd : Build} {I V} (ci : codec I) (cv : codec V) : codec (Item I V) := mkCodec
  (fun it => SObj [("index"%string, ser usize_codec (it_index it)); ("bin"%string, ser ci (it_bin it));
                   ("value"%string, ser cv (it_value it))])
  (fun v => match v with
   | SObj fs => match de_field usize_codec "index" fs, de_field ci "bin" fs, de_field cv "value" fs with
                | Some i, Some b, Some x => Some (mkItem i b x) | _, _, _ => None end
   | _ => None end).

(** error.rs:26-43: a unit variant is its name. *)
Definition axis_error_codec : codec AxisError := mkCodec
  (fun e => SText match e with
     | InvalidNumberOfBins => "InvalidNumberOfBins" | InvalidAxisRange => "InvalidAxisRange"
     | InvalidStepSize => "InvalidStepSize" | InvalidNumberOfBinEdges => "InvalidNumberOfBinEdges"
     | FailedToSortBinEdges => "FailedToSortBinEdges" end)
  (fun v => match v with
     | SText s =>
         if String.eqb s "InvalidNumberOfBins" then Some InvalidNumberOfBins
         else if String.eqb s "InvalidAxisRange" then Some InvalidAxisRange
         else if String.eqb s "InvalidStepSize" then Some InvalidStepSize
         else if String.eqb s "InvalidNumberOfBinEdges" then Some InvalidNumberOfBinEdges
         else if String.eqb s "FailedToSortBinEdges" then Some FailedToSortBinEdges
         else None
     | _ => None end).

(** error.rs:18-22: a unit struct. *)
Definition binary_error_codec : codec BinaryOperationError := mkCodec
  (fun _ => SNull) (fun v => match v with SNull => Some BinaryOperationFailed | _ => None end).

(** error.rs:7-15: newtype variants, the variant name maps to the content. *)
Definition error_codec : codec Error := mkCodec
  (fun e => match e with
     | ErrBinary b => SObj [("BinaryOperationError"%string, ser binary_error_codec b)]
     | ErrAxis a => SObj [("AxisError"%string, ser axis_error_codec a)] end)
  (fun v => match v with
     | SObj [(name, w)] =>
         if String.eqb name "BinaryOperationError" then option_map ErrBinary (de binary_error_codec w)
         else if String.eqb name "AxisError" then option_map ErrAxis (de axis_error_codec w)
         else None
     | _ => None end).
