(** Model of improver/blending/utilities.py:34-223: which coordinates a blend concerns, and the metadata of a blend
    (update_blended_metadata).  Times are as in Model_Times, attributes as in Model_Attributes. *)
From Coq Require Import Ascii String.
From Verif Require Import Base Model_Manip Model_Attributes Model_Times Model_Records.
Local Open Scope string_scope.

(** A coordinate as far as its place goes: its name, the dimensions of the cube it varies along, whether it is the dimension coordinate. *)
Record place := { pl_name : string; pl_dims : list nat; pl_dim : bool }.
(** cube.coord(name): iris wants exactly one. *)
Definition coord_named (name : string) (coords : list place) : result place :=
  match filter (fun c => String.eqb (pl_name c) name) coords with [c] => Ok c | _ => Err CoordinateNotFoundError end.
(** lines 34-63 (find_blend_dim_coord). *)
Definition find_blend_dim_coord (coords : list place) (blend : string) : result string :=
  let* c := coord_named blend coords in
  match pl_dims c with
  | [d] => match filter (fun k => (pl_dim k && match pl_dims k with [e] => Nat.eqb e d | _ => false end)%bool) coords with [k] => Ok (pl_name k) | _ => Err CoordinateNotFoundError end
  | _ => Err ValueError
  end.
(** metadata/constants/time_types.py lines 21-27. *)
Definition time_names : list string := ["time"; "forecast_reference_time"; "blend_time"; "forecast_period"; "UTC_offset"].
(** blending/__init__.py lines 7-9. *)
Definition model_blend_coord := "model_id".
Definition model_name_coord := "model_configuration".
Definition record_coord := "blend_record".
(** lines 66-102 (get_coords_to_remove). *)
Definition get_coords_to_remove (coords : list place) (blend : string) : result (list string) :=
  let* c := coord_named blend coords in
  match pl_dims c with
  | [d] => Ok (map pl_name (filter (fun k => (negb (existsb (String.eqb (pl_name k)) time_names) && existsb (Nat.eqb d) (pl_dims k))%bool) coords))
  | _ => Ok ((if existsb (fun k => String.eqb (pl_name k) record_coord) coords then [record_coord] else []) ++ (if String.eqb blend model_blend_coord then [model_blend_coord; model_name_coord] else []))%list
  end.

(** A blended cube: its time coordinates and data, its scalar coordinates with their values as text, its attributes. *)
Record blended := { bl_times : tcube; bl_scalars : list (string * string); bl_attributes : attributes }.
Definition deprecated (name : string) (c : tcoord) : tcoord :=
  {| tm_points := tm_points c; tm_bounds := tm_bounds c; tm_units := tm_units c; tm_dtype := tm_dtype c; tm_bdtype := tm_bdtype c; tm_dim := tm_dim c; tm_spans := tm_spans c;
     tm_attributes := set_attr "deprecation_message" (name ++ " will be removed in future and should not be used") (tm_attributes c) |}.
(** lines 162-223 (_set_blended_time_coords, _get_cycletime_point); [cycle] is the moment of the cycletime.  Points are replaced by as many points (iris). *)
Definition set_blended_times (cycle : option Q) (c : tcube) : result tcube :=
  match tc_frt c with
  | None => Err CoordinateNotFoundError
  | Some f =>
      match cycle with
      | None => Err ValueError
      | Some t =>
          let* n := round_close [((t - match un_epoch (tm_units f) with Some e => e | None => 0 end) / un_seconds (tm_units f))%Q] in
          let* c1 := add_blend_time c t in
          let* _ := if (length (tm_points f) =? 1)%nat then Ok tt else Err ValueError in
          let f1 := {| tm_points := map inject_Z n; tm_bounds := None; tm_units := tm_units f; tm_dtype := Int64; tm_bdtype := tm_bdtype f; tm_dim := tm_dim f; tm_spans := tm_spans f; tm_attributes := tm_attributes f |} in
          let* p := match tc_period c1 with
                    | None => Ok None
                    | Some _ => let* p := forecast_period_coord {| tc_time := tc_time c1; tc_frt := Some f1; tc_blend := tc_blend c1; tc_period := None; tc_dtype := tc_dtype c1; tc_others := tc_others c1; tc_data := tc_data c1 |} false in Ok (Some p)
                    end in
          Ok {| tc_time := tc_time c1; tc_frt := Some (deprecated "forecast_reference_time" f1); tc_blend := tc_blend c1; tc_period := option_map (deprecated "forecast_period") p;
                tc_dtype := tc_dtype c1; tc_others := tc_others c1; tc_data := tc_data c1 |}
      end
  end.
(** cube.remove_coord. *)
Definition remove_scalar (l : result (list (string * string))) (name : string) : result (list (string * string)) :=
  let* l := l in if existsb (fun e => String.eqb (fst e) name) l then Ok (filter (fun e => negb (String.eqb (fst e) name)) l) else Err CoordinateNotFoundError.
(** lines 105-159 (update_blended_metadata). *)
Definition update_blended_metadata (stamp : string -> string) (c : blended) (blend : string) (to_remove : option (list string)) (cycle : option Q) (changes : option attributes) (model_id : string) : result blended :=
  let* times := if (String.eqb blend "forecast_reference_time" || String.eqb blend model_blend_coord)%bool then set_blended_times cycle (bl_times c) else Ok (bl_times c) in
  let* attrs := if String.eqb blend model_blend_coord then match find (fun e => String.eqb (fst e) model_name_coord) (bl_scalars c) with
                  | None => Err CoordinateNotFoundError
                  | Some e => Ok (set_attr model_id (String.concat " " (isort String.leb (split_on "|"%char (snd e)))) (bl_attributes c)) end
                else Ok (bl_attributes c) in
  let* scalars := match to_remove with None => Ok (bl_scalars c) | Some l => fold_left remove_scalar l (Ok (bl_scalars c)) end in
  let* attrs := match changes with None => Ok attrs | Some l => match amend_attributes stamp attrs l with (a, None) => Ok a | (_, Some e) => Err e end end in
  Ok {| bl_times := times; bl_scalars := scalars;
        bl_attributes := fold_left (fun a d => match get (fst d) a with Some _ => a | None => set_attr (fst d) (snd d) a end) mandatory_defaults attrs |}.
