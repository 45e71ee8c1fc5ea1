(** Plugin instances as state machines: the attributes that process() reassigns, and the part of the answer that depends on them. *)
From Verif Require Import Base Interp Model_Temporal Model_Accumulation.
Local Open Scope string_scope.

(** threshold.py:553-620 [Threshold.process]: self.collapse_coord. The input is a cube whose ensemble dimension has the
    given name, at one grid point; [truth] is the fuzzy truth value. The answer is the mean truth value over the slices
    (or the truth values themselves without a collapse coordinate). Masks, vicinity and several thresholds are in Model_Threshold.v. *)
Record ecube := { e_dim : string; e_vals : list Q }.
Definition threshold_call (truth : Q -> Q) (st : option string) (c : ecube) : option string * result (list Q) :=
  let mean := [(qsum (map truth (e_vals c)) / Qlen (e_vals c))%Q] in
  match st with
  | None => (None, Ok (map truth (e_vals c)))
  | Some s =>
      if String.eqb s "percentile" then
        (* RebadgePercentilesAsRealizations()(input_cube); self.collapse_coord = "realization" *)
        if String.eqb (e_dim c) "percentile" then (Some "realization", Ok mean) else (st, Err CoordinateNotFoundError)
      else if String.eqb (e_dim c) s then (st, Ok mean) else (st, Err CoordinateNotFoundError)
  end.

(** ensemble_copula_coupling.py:885-918 [_rescale_shape_parameters] of ConvertLocationAndScaleParameters:
    self.shape_parameters are overwritten for truncnorm. Input: (location, scale). The answer is the pair of values at which
    scipy's truncnorm truncates: location + scale * shape parameter; for another distribution the shape parameters. *)
Definition truncnorm_call (is_truncnorm : bool) (shape : list Q) (i : Q * Q) : list Q * list Q :=
  let '(loc, scale) := i in
  let shape' := if is_truncnorm then map (fun v => (v - loc) / scale)%Q shape else shape in
  (shape', map (fun v => if is_truncnorm then loc + scale * v else v)%Q shape').

(** reliability_calibration.py:569-607 [AggregateReliabilityCalibrationTables.process]: the caller's coordinates list is appended
    to. State: that list (None: a fresh list per call). Input: number of tables. Answer: what is summed over. *)
Inductive aggregated := Unchanged | SummedOver (coords : list string).
Definition aggregate_call (coords : option (list string)) (ntables : nat) : option (list string) * aggregated :=
  match coords with
  | None => (None, if Nat.eqb ntables 1 then Unchanged else SummedOver ["forecast_reference_time"])
  | Some l => if Nat.eqb ntables 1 then (Some l, match l with [] => Unchanged | _ => SummedOver l end)
              else let l' := (l ++ ["forecast_reference_time"])%list in (Some l', SummedOver l')
  end.

(** weighted_blend.py:700-705 [WeightedBlendAcrossWholeDimension.process] and blending/utilities.py:30-63 [find_blend_dim_coord]:
    self.blend_coord is replaced by the name of the dimension coordinate. Input: the cube's coordinates, each with the name of
    the dimension coordinate it varies along (None: scalar). Answer: the dimension blended over. *)
Definition cube_coords := list (string * option string).
Fixpoint lookup (n : string) (c : cube_coords) : option (option string) :=
  match c with [] => None | (m, d) :: r => if String.eqb n m then Some d else lookup n r end.
Definition blend_call (bc : string) (c : cube_coords) : string * result string :=
  match lookup bc c with
  | None => (bc, Err CoordinateNotFoundError)
  | Some None => (bc, Err ValueError)
  | Some (Some d) => (d, Ok d)
  end.

(** temporal_interpolation.py:179-241 [construct_time_list]: with times given, self.times is replaced by its sorted copy,
    [time_list] is the same list object, and [time_list.append(final_time)] therefore extends self.times. *)
Definition times_call (st : list Z) (i : Z * Z) : list Z * result (list Z) :=
  let '(initial, final) := i in
  let r := construct_time_list {| c_interval := None; c_times := Some st; c_method := Linear; c_acc := false; c_max := false; c_min := false |} initial final in
  let s := isort Z.leb st in
  (match r with Ok _ => s ++ [final] | Err _ => s end, r)%list.
Definition interval_call (m : Z) (st : unit) (i : Z * Z) : unit * result (list Z) :=
  let '(initial, final) := i in
  (st, construct_time_list {| c_interval := Some m; c_times := None; c_method := Linear; c_acc := false; c_max := false; c_min := false |} initial final).

(** cube_combiner.py:108-109 [Combine.process]: self.new_name. Input: name of the first cube; answer: name of the output. *)
Definition combine_call (new_name : option string) (first : string) : option string * string :=
  match new_name with None => (Some first, first) | Some n => (Some n, n) end.

(** cube_combiner.py:357-366 [CubeCombiner._setup_coords_for_broadcast]: self.broadcast. Input: the first cube's threshold
    coordinate (if any) and its coordinate names; answer: coordinate broadcast to. *)
Definition broadcast_call (st : string) (i : option string * list string) : string * result string :=
  let '(thr, coords) := i in
  let find s := if existsb (String.eqb s) coords then Ok s else Err CoordinateNotFoundError in
  if String.eqb st "threshold" then
    match thr with None => (st, Err CoordinateNotFoundError) | Some t => (t, find t) end
  else (st, find st).

(** solar.py:285-296 [DayNightMask._create_daynight_mask]: self.irregular is set for a spot (non-orthogonal) cube and never reset.
    Input: whether y and x share a dimension. Answer: whether the cube is treated as irregular (solar.py:343-347). *)
Definition daynight_call (st : bool) (shared_dimension : bool) : bool * bool :=
  let st' := st || shared_dimension in (st', st').

(** nbhood.py:150-174 [BaseNeighbourhoodProcessing.process]: self.radius is recomputed from the lead times on every call.
    State: the radius attribute; input: the cube's forecast period in hours; answer: the radius used. *)
Definition radius_call (lead_radii : list (Q * Q)) (st : option Q) (fp : Q) : option Q * option Q :=
  match lead_radii with [] => (st, st) | _ => let r := Some (np_interp lead_radii fp) in (r, r) end.

(** reliability_calibration.py:1434 and 1157: self.threshold_coord is assigned from the forecast before it is read. *)
Definition threshold_coord_call {A B} (find : A -> B) (st : option B) (forecast : A) : option B * option B :=
  let s := Some (find forecast) in (s, s).
