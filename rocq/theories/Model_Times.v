(** Model of improver/metadata/forecast_times.py, of improver/metadata/check_datatypes.py and of
    improver/utilities/round.py.  A time or a length of time is a number of its unit; a unit is how many seconds it is
    and the moment (in seconds since 1970-01-01) from which it counts, if it counts from one. *)
From Verif Require Import Base Model_Percentiles.
Local Open Scope Q_scope.

(** check_datatypes.py: the types of data that it tells apart. *)
Inductive dtype := Float16 | Float32 | Float64 | Int8 | Int16 | Int32 | Int64 | Boolean | Text.
Definition dtype_eqb (a b : dtype) : bool := match a, b with
  | Float16, Float16 | Float32, Float32 | Float64, Float64 | Int8, Int8 | Int16, Int16 | Int32, Int32 | Int64, Int64 | Boolean, Boolean | Text, Text => true | _, _ => false end.
Definition is_float (d : dtype) : bool := match d with Float16 | Float32 | Float64 => true | _ => false end.
Record units := { un_seconds : Q; un_epoch : option Q }.
Definition units_eqb (a b : units) : bool := ((un_seconds a =? un_seconds b) && match un_epoch a, un_epoch b with Some x, Some y => x =? y | None, None => true | _, _ => false end)%bool.
(** metadata/constants/time_types.py lines 15-27 (TIME_COORDS). *)
Definition since_1970 : units := {| un_seconds := 1; un_epoch := Some 0 |}.
Definition in_seconds : units := {| un_seconds := 1; un_epoch := None |}.
Definition time_coords (name : string) : option (dtype * units) :=
  if existsb (String.eqb name) ["time"; "forecast_reference_time"; "blend_time"]%string then Some (Int64, since_1970)
  else if existsb (String.eqb name) ["forecast_period"; "UTC_offset"]%string then Some (Int32, in_seconds) else None.

(** A cube or a coordinate, as far as check_datatypes looks at it; the unit of one without time units is None. *)
Record object := { ob_name : string; ob_coord : bool; ob_dtype : dtype; ob_bounds : option dtype; ob_units : option units }.
(** lines 20-55 (get_required_dtype). *)
Definition spec_of (o : object) : option (dtype * units) := if ob_coord o then time_coords (ob_name o) else None.
Definition required_dtype (o : object) : dtype := match spec_of o with Some (d, _) => d | None => if is_float (ob_dtype o) then Float32 else ob_dtype o end.
(** lines 58-78 (check_dtype). *)
Definition check_dtype (o : object) : bool :=
  let r := required_dtype o in
  (dtype_eqb (ob_dtype o) r && match ob_coord o, ob_bounds o with true, Some b => dtype_eqb b r | _, _ => true end)%bool.
(** lines 109-144 (check_units). *)
Definition check_units (o : object) : bool := match spec_of o with Some (_, u) => match ob_units o with Some w => units_eqb w u | None => false end | None => true end.
(** lines 147-205 (check_mandatory_standards), for the cube and its coordinates. *)
Definition check_mandatory_standards (l : list object) : result unit := if forallb (fun o => check_dtype o && check_units o)%bool l then Ok tt else Err ValueError.
(** lines 81-106 (enforce_dtype). *)
Definition enforce_dtype (o : object) : result unit := if check_dtype o then Ok tt else Err TypeError.

(** utilities/round.py (round_close): np.around, then np.allclose with atol 1e-7 and the default rtol 1e-5. *)
Definition near_integer (x : Q) : bool := Qabs (x - inject_Z (round_half_even x)) <=? (1 # 10000000) + (1 # 100000) * Qabs (inject_Z (round_half_even x)).
Definition round_close (l : list Q) : result (list Z) := if forallb near_integer l then Ok (map round_half_even l) else Err ValueError.

(** A time coordinate.  [tm_spans]: it varies along a dimension of the cube; [tm_dim]: it is an iris DimCoord. *)
Record tcoord := { tm_points : list Q; tm_bounds : option (list (Q * Q)); tm_units : units; tm_dtype : dtype; tm_bdtype : dtype; tm_dim : bool; tm_spans : bool; tm_attributes : list (string * string) }.
(** A cube: its time coordinates, its own type, its other coordinates, its data. *)
Record tcube := { tc_time : option tcoord; tc_frt : option tcoord; tc_blend : option tcoord; tc_period : option tcoord; tc_dtype : dtype; tc_others : list object; tc_data : list (option Q) }.
Definition as_object (name : string) (c : option tcoord) : list object :=
  match c with Some t => [{| ob_name := name; ob_coord := true; ob_dtype := tm_dtype t; ob_bounds := match tm_bounds t with Some _ => Some (tm_bdtype t) | None => None end; ob_units := Some (tm_units t) |}] | None => [] end.
Definition objects (c : tcube) : list object :=
  {| ob_name := ""; ob_coord := false; ob_dtype := tc_dtype c; ob_bounds := None; ob_units := None |} ::
  as_object "time" (tc_time c) ++ as_object "forecast_reference_time" (tc_frt c) ++ as_object "blend_time" (tc_blend c) ++ as_object "forecast_period" (tc_period c) ++ tc_others c.
(** The moment, in seconds since 1970. *)
Definition moment (u : units) (x : Q) : Q := x * un_seconds u + match un_epoch u with Some e => e | None => 0 end.

(** forecast_times.py lines 120-124: numpy's subtraction of a list of reference times from a list of times. *)
Definition broadcast_sub (a b : list Q) : result (list Q) :=
  match a, b with
  | _, [y] => Ok (map (fun x => x - y) a)
  | [x], _ => Ok (map (fun y => x - y) b)
  | _, _ => if (length a =? length b)%nat then Ok (map (fun p => fst p - snd p) (combine a b)) else Err ValueError
  end.
(** lines 126-131: bounds have one row per time and two columns; the reference times are subtracted along the columns. *)
Definition bounds_sub (a : list (Q * Q)) (b : list Q) : result (list (Q * Q)) :=
  match b with
  | [y] => Ok (map (fun p => (fst p - y, snd p - y)) a)
  | [y; z] => Ok (map (fun p => (fst p - y, snd p - z)) a)
  | _ => Err ValueError
  end.
(** numpy's conversion to int32. *)
Definition int32 (z : Z) : Z := ((z + 2147483648) mod 4294967296 - 2147483648)%Z.
(** iris: a DimCoord is strictly monotonic, and so are both columns of its bounds, in one direction. *)
Definition monotone_dir (up : bool) (l : list Q) : bool := if up then increasing_b l else increasing_b (rev l).
Definition dimcoord_ok (p : list Q) (b : option (list (Q * Q))) : bool :=
  if (length p <=? 1)%nat then true
  else ((increasing_b p || increasing_b (rev p)) && match b with Some l => existsb (fun up => monotone_dir up (map fst l) && monotone_dir up (map snd l)) [true; false] | None => true end)%bool.
(** lines 91-164 (_calculate_forecast_period). *)
Definition calculate_forecast_period (time frt : tcoord) (dim : bool) : result tcoord :=
  let at_ := moment (tm_units time) in
  let refs := map (moment (tm_units frt)) (tm_points frt) in
  let* lead := broadcast_sub (map at_ (tm_points time)) refs in
  let* bnds := match tm_bounds time with Some l => let* b := bounds_sub (map (fun p => (at_ (fst p), at_ (snd p))) l) refs in Ok (Some b) | None => Ok None end in
  let* _ := match bnds with Some b => if (length b =? length lead)%nat then Ok tt else Err ValueError | None => Ok tt end in
  let* _ := if (dim && negb (dimcoord_ok lead bnds))%bool then Err ValueError else Ok tt in
  let* p := round_close lead in
  let* b := match bnds with Some l => let* lo := round_close (map fst l) in let* hi := round_close (map snd l) in Ok (Some (combine lo hi)) | None => Ok None end in
  Ok {| tm_points := map (fun z => inject_Z (int32 z)) p; tm_bounds := option_map (map (fun q => (inject_Z (int32 (fst q)), inject_Z (int32 (snd q))))) b;
        tm_units := in_seconds; tm_dtype := Int32; tm_bdtype := Int32; tm_dim := dim; tm_spans := tm_spans time; tm_attributes := [] |}.
(** lines 25-88 (forecast_period_coord). *)
Definition forecast_period_coord (c : tcube) (force : bool) : result tcoord :=
  let reference := match tc_frt c with Some f => Some f | None => tc_blend c end in
  let* _ := match tc_frt c, tc_blend c with
            | Some f, Some b => match tm_points f, tm_points b with [x], [y] => if x =? y then Ok tt else Err ValueError | _, _ => Err ValueError end
            | _, _ => Ok tt end in
  let dim := match tc_period c with Some p => tm_dim p | None => false end in
  match tc_period c, force with
  | Some p, false => Ok p
  | _, _ => match tc_time c, reference with
            | Some t, Some r =>
                let* _ := check_mandatory_standards (objects c) in
                let* p := calculate_forecast_period t r dim in
                Ok {| tm_points := tm_points p; tm_bounds := tm_bounds p; tm_units := tm_units p; tm_dtype := tm_dtype p; tm_bdtype := tm_bdtype p; tm_dim := tm_dim p; tm_spans := tm_spans p;
                      tm_attributes := match tc_period c with Some o => tm_attributes o | None => [] end |}
            | _, _ => Err CoordinateNotFoundError end
  end.

(** lines 167-191 (_create_frt_type_coord): a scalar coordinate at a moment. *)
Definition create_frt (t : Q) : result tcoord :=
  let* p := round_close [t] in
  Ok {| tm_points := map inject_Z p; tm_bounds := None; tm_units := since_1970; tm_dtype := Int64; tm_bdtype := Int64; tm_dim := true; tm_spans := false; tm_attributes := [] |}.
(** lines 194-207 (add_blend_time); iris refuses to add a coordinate that is there. *)
Definition add_blend_time (c : tcube) (t : Q) : result tcube :=
  let* b := create_frt t in
  match tc_blend c with Some _ => Err ValueError | None =>
    Ok {| tc_time := tc_time c; tc_frt := tc_frt c; tc_blend := Some b; tc_period := tc_period c; tc_dtype := tc_dtype c; tc_others := tc_others c; tc_data := tc_data c |} end.
(** lines 240-277 (unify_cycletime), one cube. *)
Definition set_cycle (t : Q) (c : tcube) : result tcube :=
  let* f := create_frt t in
  match tc_frt c with
  | None => Err CoordinateNotFoundError
  | Some _ =>
      let c' := {| tc_time := tc_time c; tc_frt := Some f; tc_blend := tc_blend c; tc_period := None; tc_dtype := tc_dtype c; tc_others := tc_others c; tc_data := tc_data c |} in
      let* p := forecast_period_coord c' true in
      Ok {| tc_time := tc_time c; tc_frt := Some f; tc_blend := tc_blend c; tc_period := Some p; tc_dtype := tc_dtype c; tc_others := tc_others c; tc_data := tc_data c |}
  end.
Definition unify_cycletime (cubes : list tcube) (t : Q) : result (list tcube) := mapM (set_cycle t) cubes.
(** lines 280-308 (_find_latest_cycletime).  The code compares numbers of the unit of the latest coordinate so far; with
    units of positive length that is a comparison of moments, which is what is done here. *)
Definition first_moment (c : tcoord) : Q := moment (tm_units c) (hd 0 (tm_points c)).
Definition find_latest_cycletime (cubes : list tcube) : result Q :=
  let* frts := mapM (fun c => match tc_frt c with Some f => if tm_spans f then Err ValueError else Ok f | None => Err CoordinateNotFoundError end) cubes in
  match frts with [] => Err IndexError | f :: r => Ok (fold_left (fun m c => if m <? first_moment c then first_moment c else m) frts (first_moment f)) end.
(** lines 210-237 (rebadge_forecasts_as_latest_cycle); [cycle] is the moment of the cycletime given. *)
Definition rebadge (cubes : list tcube) (cycle : option Q) : result (list tcube) :=
  match cycle, cubes with
  | None, [_] => Ok cubes
  | _, _ => let* t := match cycle with Some t => Ok t | None => find_latest_cycletime cubes end in unify_cycletime cubes t
  end.
