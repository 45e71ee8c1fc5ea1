(** Model of improver/cli/weighted_blending.py, blend_with_vicinity_and_rename.py and blend_adjacent_points.py, with improver/utilities/spatial.py lines 1066-1097 (update_name_and_vicinity_coord), on Model_WeightBlend.
    [D] is the data of a slice; [blend] blends at least two slices.  The weighting configuration is given as in Model_WeightBlend. *)
From Verif Require Model_Probability Model_Manip.
From Verif Require Import Base Model_Blending Model_WeightBlend.
Local Open Scope Q_scope.

Record options := { o_method : string; o_coord : string; o_y0 : option Q; o_yn : option Q; o_c : option Q; o_config : option (list (key * wconfig)); o_model_id : bool; o_record : bool }.
(** Python's truth of an optional number. *)
Definition truthy (v : option Q) : bool := match v with Some x => negb (x =? 0) | None => false end.
Definition about_models (coord : string) : bool := Model_Probability.contains "model" coord.
Definition unless {A} (v : option A) (d : A) : A := match v with Some x => x | None => d end.
(** calculate_weights_and_blend.py lines 98-112 and 126-146: a parameter that is not given is refused by the plugins of the weights like a negative one (weights.py lines 514-522 and 611-623: ValueError). *)
Definition method_of (o : options) : option method :=
  if (o_method o =? "dict")%string then Some (Dict (unless (o_config o) []))
  else if (o_method o =? "linear")%string then Some (match o_y0 o, o_yn o with Some y0, Some yn => Linear y0 yn | _, _ => Linear (-1) 0 end)
  else if (o_method o =? "nonlinear")%string then Some (NonLinear (unless (o_c o) 0) false)
  else None.
(** weighted_blending.py lines 119-148. *)
Definition weighted_blending {D} (blend : list (slice D * Q) -> result D) (o : options) (cubes : list (input D)) : result D :=
  if (o_method o =? "linear")%string && truthy (o_c o) then Err RuntimeError else
  if (o_method o =? "nonlinear")%string && (truthy (o_y0 o) || truthy (o_yn o)) then Err RuntimeError else
  if (o_method o =? "dict")%string && match o_config o with None => true | Some _ => false end then Err RuntimeError else
  if about_models (o_coord o) && negb (o_model_id o) then Err RuntimeError else
  if o_record o && negb (o_model_id o) then Err RuntimeError else
  match method_of o with
  | None => Err ValueError
  | Some m => weight_and_blend blend m (about_models (o_coord o)) (o_model_id o) (o_record o) cubes
  end.

(** A cube as far as its name and its vicinity go: the radius of the vicinity and whether it is marked as a maximum. *)
Record vicinity := { v_name : string; v_radius : option (Q * bool) }.
(** iris' merge and the removal of what belonged to the blend dimension: the radius stays if all cubes have the same. *)
Definition blended_vicinity (l : list vicinity) : vicinity :=
  match l with
  | [] => {| v_name := ""; v_radius := None |}
  | v :: r => {| v_name := v_name v; v_radius := match v_radius v with Some (a, m) => if forallb (fun w => match v_radius w with Some (b, m') => (a =? b) && Bool.eqb m m' | None => false end) r then Some (a, m) else None | None => None end |}
  end.
(** spatial.py lines 1085-1097. *)
Definition update_vicinity (new_name : option string) (radius : option Q) (v : vicinity) : vicinity :=
  {| v_name := match new_name with Some n => if (n =? "")%string then v_name v else n | None => v_name v end;
     v_radius := match radius with Some r => if r =? 0 then v_radius v else Some (r, match v_radius v with Some _ => false | None => true end) | None => v_radius v end |}.
(** blend_with_vicinity_and_rename.py lines 123-146. *)
Definition blend_with_vicinity {D} (blend : list (slice D * Q) -> result D) (new_name : option string) (radius : option Q) (o : options) (cubes : list (input D * vicinity)) : result (D * vicinity) :=
  if match new_name with Some n => (n =? "")%string | None => true end && negb (truthy radius) then Err ValueError else
  let* d := weighted_blending blend o (map fst cubes) in
  Ok (d, update_vicinity new_name radius (blended_vicinity (map snd cubes))).

(** blend_adjacent_points.py lines 82-110; [merge]: MergeCubes (Model_Manip), told whether to check that time bounds have the same length; [u]: the conversion from the units given to those of the coordinate. *)
Definition blend_adjacent {D C} (merge : bool -> list C -> result (list (slice D))) (blend : list (slice D * Q) -> result D) (coord : string) (by_period : bool) (u : option (Q * Q)) (point : Q) (width : option Q) (cubes : list C) : result (slice D) :=
  if Model_Probability.contains "time" coord then Err ValueError else
  let* cube := (if by_period && (coord =? "forecast_period")%string then merge true cubes else if by_period then Err ValueError else merge false cubes) in
  match width with
  | Some w => triangular_blend blend u point w cube
  | None => let* _ := central (convert u point) cube in Err TypeError
  end.
(** cube_manipulation.py (MergeCubes.process with check_time_bounds_ranges) on cubes of one slice: the time bounds of a cube, if it has some, in seconds. *)
Definition merge_slices {D} (check : bool) (l : list (input D * option (Z * Z))) : result (list (slice D)) :=
  let* c := merged false (map fst l) in
  let* _ := (if check then Model_Manip.check_ranges (flat_map (fun e => match snd e with Some b => [b] | None => [] end) l) else Ok tt) in Ok c.
