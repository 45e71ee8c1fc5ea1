(** Model of improver/standardise.py (StandardiseMetadata). Data and coordinates are exact numbers (the rounding of float64 to float32 is
    not modelled); NaN is None; masks are not modelled. Names of coordinates are those of iris (name()). *)
From Verif Require Import Base Model_Percentiles Model_Probability Model_Manip Model_Attributes Model_Times.
Local Open Scope Q_scope.

(** A coordinate: [co_units] is its unit of time, None for any other unit. *)
Record coord := { co_name : string; co_points : list Q; co_bounds : option (list (Q * Q)); co_dtype : dtype; co_bdtype : dtype; co_units : option units }.
(** The "air_temperature status_flag" coordinate: has it the expected attributes, is it masked, the flags. *)
Record flag := { fl_expected : bool; fl_masked : bool; fl_at : list nat -> bool }.
(** A cube: each dimension with its length and its dimension coordinate, if any; the other coordinates; the data for a list of indices. *)
Notation dimension := (nat * option coord)%type.
Record scube := { cu_name : string; cu_units : string; cu_dtype : dtype; cu_dims : list dimension; cu_aux : list coord; cu_flag : option flag;
                  cu_data : list nat -> option Q; cu_attributes : attributes; cu_methods : list cell_method }.

(** lines 71-110 (_rm_air_temperature_status_flag): numpy refuses to put NaN into integers; the slices over the realizations are merged again, realization
    first, a single one as a scalar coordinate. Realizations are in increasing order. *)
Definition is_realization (d : dimension) : bool := match snd d with Some c => String.eqb (co_name c) "realization" | None => false end.
Fixpoint position (k : nat) (ds : list dimension) : option (nat * dimension) := match ds with [] => None | d :: r => if is_realization d then Some (k, d) else position (S k) r end.
Definition with_shape (ds : list dimension) (aux : list coord) (data : list nat -> option Q) (c : scube) : scube :=
  {| cu_name := cu_name c; cu_units := cu_units c; cu_dtype := cu_dtype c; cu_dims := ds; cu_aux := aux; cu_flag := None; cu_data := data; cu_attributes := cu_attributes c; cu_methods := cu_methods c |}.
Definition remove_flag (c : scube) : result scube :=
  match cu_flag c with
  | None => Ok c
  | Some f =>
      if negb (fl_expected f) then Err ValueError else if fl_masked f then Err ValueError else if negb (is_float (cu_dtype c)) then Err ValueError else
      let data := fun idx => if fl_at f idx then None else cu_data c idx in
      match position 0 (cu_dims c) with
      | None => Ok (with_shape (cu_dims c) (cu_aux c) data c)
      | Some (k, (n, co)) =>
          let others := firstn k (cu_dims c) ++ skipn (S k) (cu_dims c) in
          if (n =? 1)%nat then Ok (with_shape others (match co with Some x => [x] | None => [] end ++ cu_aux c) (fun idx => data (firstn k idx ++ 0%nat :: skipn k idx)) c)
          else Ok (with_shape ((n, co) :: others) (cu_aux c) (fun idx => data (firstn k (tl idx) ++ hd 0%nat idx :: skipn k (tl idx))) c)
      end
  end.

(** lines 112-130 (_collapse_scalar_dimensions). *)
Definition is_scalar (d : dimension) : bool := match snd d with Some c => ((length (co_points c) =? 1)%nat && negb (contains "realization" (co_name c)))%bool | None => false end.
Fixpoint expand (ds : list dimension) (idx : list nat) : list nat :=
  match ds with
  | [] => []
  | d :: r => if is_scalar d then 0%nat :: expand r idx else hd 0%nat idx :: expand r (tl idx)
  end.
Definition collapse (c : scube) : scube :=
  {| cu_name := cu_name c; cu_units := cu_units c; cu_dtype := cu_dtype c; cu_dims := filter (fun d => negb (is_scalar d)) (cu_dims c);
     cu_aux := flat_map (fun d => if is_scalar d then match snd d with Some x => [x] | None => [] end else []) (cu_dims c) ++ cu_aux c;
     cu_flag := cu_flag c; cu_data := fun idx => cu_data c (expand (cu_dims c) idx); cu_attributes := cu_attributes c; cu_methods := cu_methods c |}.

(** lines 132-139 (_remove_scalar_coords): iris removes any coordinate; a dimension keeps its length. *)
Definition remove_coords (names : list string) (c : scube) : scube :=
  let gone := fun x : coord => existsb (String.eqb (co_name x)) names in
  {| cu_name := cu_name c; cu_units := cu_units c; cu_dtype := cu_dtype c;
     cu_dims := map (fun d : dimension => (fst d, match snd d with Some x => if gone x then None else Some x | None => None end)) (cu_dims c);
     cu_aux := filter (fun x => negb (gone x)) (cu_aux c); cu_flag := cu_flag c; cu_data := cu_data c; cu_attributes := cu_attributes c; cu_methods := cu_methods c |}.

(** lines 141-179 (_modify_scalar_coord_value): the values as lists (a number is a list of one; a list holding one number, which numpy would nest, is not distinguished) with their type. iris refuses points of another number. *)
Definition named (n : string) (x : coord) : bool := String.eqb (co_name x) n.
Definition dim_coords (c : scube) : list coord := flat_map (fun d : dimension => match snd d with Some x => [x] | None => [] end) (cu_dims c).
Definition set_point (v : Q) (t : dtype) (x : coord) : coord := {| co_name := co_name x; co_points := [v]; co_bounds := co_bounds x; co_dtype := t; co_bdtype := co_bdtype x; co_units := co_units x |}.
Definition modify_one (m : string * (list Q * dtype)) (c : scube) : result scube :=
  let '(n, (vs, t)) := m in
  if existsb (named n) (dim_coords c) then Err ValueError else
  if negb (existsb (named n) (cu_aux c)) then Ok c else
  if (1 <? length vs)%nat then Err ValueError else
  match time_coords n with Some _ => Err ValueError | None =>
    match vs with
    | [v] => if forallb (fun x => (negb (named n x) || (length (co_points x) =? 1)%nat)%bool) (cu_aux c)
             then Ok {| cu_name := cu_name c; cu_units := cu_units c; cu_dtype := cu_dtype c; cu_dims := cu_dims c; cu_aux := map (fun x => if named n x then set_point v t x else x) (cu_aux c);
                        cu_flag := cu_flag c; cu_data := cu_data c; cu_attributes := cu_attributes c; cu_methods := cu_methods c |}
             else Err ValueError
    | _ => Err ValueError
    end
  end.
Definition modify_coords (ms : list (string * (list Q * dtype))) (c : scube) : result scube := fold_left (fun acc m => let* c := acc in modify_one m c) ms (Ok c).

(** lines 181-221 (_standardise_dtypes_and_units). *)
Definition is_integer (d : dtype) : bool := match d with Int8 | Int16 | Int32 | Int64 => true | _ => false end.
Definition coord_object (x : coord) : object := {| ob_name := co_name x; ob_coord := true; ob_dtype := co_dtype x; ob_bounds := match co_bounds x with Some _ => Some (co_bdtype x) | None => None end; ob_units := co_units x |}.
(** Conversion of times: from a moment to a moment or from a length to a length. *)
Definition convert_time (u w : units) (x : Q) : result Q :=
  match un_epoch u, un_epoch w with
  | Some e, Some f => Ok ((x * un_seconds u + e - f) / un_seconds w)
  | None, None => Ok (x * un_seconds u / un_seconds w)
  | _, _ => Err ValueError
  end.
Definition required_units (x : coord) : result coord :=
  match time_coords (co_name x) with
  | None => Ok x
  | Some (_, w) =>
      if check_units (coord_object x) then Ok x else
      match co_units x with
      | None => Err ValueError
      | Some u =>
          let* p := mapM (convert_time u w) (co_points x) in
          let* b := match co_bounds x with
                    | None => Ok None
                    | Some l => let* lo := mapM (convert_time u w) (map fst l) in let* hi := mapM (convert_time u w) (map snd l) in Ok (Some (combine lo hi))
                    end in
          Ok {| co_name := co_name x; co_points := p; co_bounds := b; co_dtype := Float64; co_bdtype := Float64; co_units := Some w |}
      end
  end.
(** numpy's conversion between integer types; only that to int32 can lose anything here. *)
Definition cast (d : dtype) (z : Z) : Q := inject_Z (match d with Int32 => int32 z | _ => z end).
Definition required_type (x : coord) : result coord :=
  let r := required_dtype (coord_object x) in
  if is_integer r then
    let* p := round_close (co_points x) in
    let* b := match co_bounds x with
              | None => Ok None
              | Some l => let* lo := round_close (map fst l) in let* hi := round_close (map snd l) in Ok (Some (map (fun q => (cast r (fst q), cast r (snd q))) (combine lo hi)))
              end in
    Ok {| co_name := co_name x; co_points := map (cast r) p; co_bounds := b; co_dtype := r; co_bdtype := r; co_units := co_units x |}
  else Ok {| co_name := co_name x; co_points := co_points x; co_bounds := co_bounds x; co_dtype := r; co_bdtype := r; co_units := co_units x |}.
Definition standardise_coord (x : coord) : result coord := let* y := required_units x in required_type y.
(** iris: the points of a dimension coordinate stay strictly monotonic. *)
Definition standardise_dim (d : dimension) : result dimension :=
  match snd d with
  | None => Ok d
  | Some x => let* y := standardise_coord x in if dimcoord_ok (co_points y) (co_bounds y) then Ok (fst d, Some y) else Err ValueError
  end.
Definition standard_dtype (d : dtype) : dtype := if is_float d then Float32 else d.
Definition standardise_types (c : scube) : result scube :=
  let* ds := mapM standardise_dim (cu_dims c) in
  let* aux := mapM standardise_coord (cu_aux c) in
  Ok {| cu_name := cu_name c; cu_units := cu_units c; cu_dtype := standard_dtype (cu_dtype c); cu_dims := ds; cu_aux := aux; cu_flag := cu_flag c; cu_data := cu_data c; cu_attributes := cu_attributes c; cu_methods := cu_methods c |}.

(** lines 223-239 (_discard_redundant_cell_methods). *)
Definition redundant (m : cell_method) : bool :=
  (String.eqb (cm_method m) "point" && match cm_coords m, cm_intervals m, cm_comments m with [t], [], [] => String.eqb t "time" | _, _, _ => false end)%bool.
Definition discard_methods (c : scube) : scube :=
  {| cu_name := cu_name c; cu_units := cu_units c; cu_dtype := cu_dtype c; cu_dims := cu_dims c; cu_aux := cu_aux c; cu_flag := cu_flag c; cu_data := cu_data c; cu_attributes := cu_attributes c;
     cu_methods := filter (fun m => negb (redundant m)) (cu_methods c) |}.

(** lines 31-69: the options; [conv] is the conversion of units of data (factor and offset), if there is one; integers become float64 unless the units are equal. *)
Record options := { op_name : option string; op_units : option string; op_remove : list string; op_modify : list (string * (list Q * dtype)); op_attributes : attributes }.
Definition convert_data (conv : string -> string -> option (Q * Q)) (u : string) (c : scube) : result scube :=
  if String.eqb u (cu_units c) then Ok c else
  match conv (cu_units c) u with
  | None => Err ValueError
  | Some (a, b) => Ok {| cu_name := cu_name c; cu_units := u; cu_dtype := (if is_float (cu_dtype c) then cu_dtype c else Float64); cu_dims := cu_dims c; cu_aux := cu_aux c; cu_flag := cu_flag c;
                         cu_data := fun idx => option_map (fun q => a * q + b) (cu_data c idx); cu_attributes := cu_attributes c; cu_methods := cu_methods c |}
  end.
Definition rename (n : string) (c : scube) : scube :=
  {| cu_name := n; cu_units := cu_units c; cu_dtype := cu_dtype c; cu_dims := cu_dims c; cu_aux := cu_aux c; cu_flag := cu_flag c; cu_data := cu_data c; cu_attributes := cu_attributes c; cu_methods := cu_methods c |}.
Definition set_attributes (a : attributes) (c : scube) : scube :=
  {| cu_name := cu_name c; cu_units := cu_units c; cu_dtype := cu_dtype c; cu_dims := cu_dims c; cu_aux := cu_aux c; cu_flag := cu_flag c; cu_data := cu_data c; cu_attributes := a; cu_methods := cu_methods c |}.
(** lines 241-279 (process); an empty name or unit counts as not given. *)
Definition given (s : option string) : option string := match s with Some "" => None | s => s end%string.
Definition process (conv : string -> string -> option (Q * Q)) (stamp : string -> string) (o : options) (c : scube) : result scube :=
  let* c := remove_flag c in
  let c := collapse c in
  let c := match given (op_name o) with Some n => rename n c | None => c end in
  let* c := match given (op_units o) with Some u => convert_data conv u c | None => Ok c end in
  let c := remove_coords (op_remove o) c in
  let* c := modify_coords (op_modify o) c in
  let* c := match amend_attributes stamp (cu_attributes c) (op_attributes o) with (a, None) => Ok (set_attributes a c) | (_, Some e) => Err e end in
  standardise_types (discard_methods c).
(** The objects that check_mandatory_standards looks at (Model_Times). *)
Definition objects (c : scube) : list object := {| ob_name := cu_name c; ob_coord := false; ob_dtype := cu_dtype c; ob_bounds := None; ob_units := None |} :: map coord_object (dim_coords c ++ cu_aux c).
