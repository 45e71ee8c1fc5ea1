(** Model of improver/precipitation_type (calculate_sleet_prob, snow_splitter, hail_fraction, convection, shower_condition_probability, freezing_rain) and of
    improver/psychrometric_calculations (significant_phase_mask, precip_phase_probability). Data are the values in C order; None is a masked value (a NaN where the code has no masks).
    Cubes combined point by point have one shape: numpy's broadcasting of other shapes is not modelled and is an error here. Attributes, data types and rounding are not modelled. *)
From Verif Require Import Base Interp Model_Rescale Model_Threshold Model_Probability Model_Reference.
Local Open Scope Q_scope.

Definition lift2 (f : Q -> Q -> Q) (a b : option Q) : option Q := match a, b with Some x, Some y => Some (f x y) | _, _ => None end.
(** numpy.any of a comparison: masked and NaN values do not count. *)
Definition any_of (p : Q -> bool) (l : list (option Q)) : bool := existsb (fun o => match o with Some x => p x | None => false end) l.
Definition same_shape (l : list nat) : bool := match l with [] => true | n :: r => forallb (Nat.eqb n) r end.

(** calculate_sleet_prob.py:16-47. *)
Definition sleet_probability (snow rain : list (option Q)) : result (list (option Q)) :=
  if negb (same_shape [length snow; length rain]) then Err ValueError
  else
    let sleet := map (option_map (fun v => 1 - v)) (zipw (lift2 Qplus) snow rain) in
    if any_of (fun v => v <? 0) sleet then Err ValueError else Ok sleet.

(** A cube: its name, its two spatial coordinates, its values. *)
Record pcube := { p_name : string; p_y : dimcoord; p_x : dimcoord; p_data : list (option Q) }.
(** cube_checker.py:158-179 [spatial_coords_match]. *)
Definition spatial_match (cubes : list pcube) : bool :=
  match cubes with [] => true | r :: cs => forallb (fun c => (coord_eq (p_x c) (p_x r) && coord_eq (p_y c) (p_y r))%bool) cs end.
(** CubeList.extract_cube: exactly one cube meets the constraint. *)
Definition extract_one {A} (p : A -> bool) (l : list A) : result A := match filter p l with [c] => Ok c | _ => Err ConstraintMismatchError end.
Definition extract_cube (word : string) (cubes : list pcube) : result pcube := extract_one (fun c => contains word (p_name c)) cubes.
(** snow_splitter.py:37-138 [separate_input_cubes], [process]: the name and values of the result. *)
Definition snow_splitter (is_rain : bool) (cubes : list pcube) : result (string * list (option Q)) :=
  let* rain := extract_cube "rain" cubes in
  let* snow := extract_cube "snow" cubes in
  let* precip := extract_cube "precipitation" cubes in
  if negb (spatial_match [rain; snow; precip]) then Err ValueError
  else if negb (same_shape (map (fun c => length (p_data c)) [rain; snow; precip])) then Err ValueError
  else if any_of (fun v => 1 <? v) (zipw (lift2 Qplus) (p_data rain) (p_data snow)) then Err ValueError
  else
    let '(required, other, name) := if is_rain then (rain, snow, "rainfall"%string) else (snow, rain, "snowfall"%string) in
    let coefficient := map (option_map (fun v => (v + 1) / 2)) (zipw (lift2 Qminus) (p_data required) (p_data other)) in
    let new_name := replace "precipitation" name (p_name precip) in
    let new_name := if is_rain then replace "lwe_" "" new_name else new_name in
    Ok (new_name, zipw (lift2 Qmult) (p_data precip) coefficient).

(** significant_phase_mask.py:29-122: name, units, values; None is a masked value. *)
Definition validate_snow_fraction (name units : string) (data : list (option Q)) : result (list Q) :=
  if negb (name =? "snow_fraction")%string then Err ValueError
  else if negb (units =? "1")%string then Err ValueError
  else if existsb (fun o : option Q => match o with None => true | _ => false end) data then Err NotImplementedError
  else if any_of (fun v => ((v <? 0) || (1 <? v))%bool) data then Err ValueError
  else Ok (map (fun o => match o with Some v => v | None => 0 end) data).
Definition lower_threshold : Q := 1 # 100.
Definition upper_threshold : Q := 99 # 100.
Definition rain_phase (v : Q) : Z := if v <=? lower_threshold then 1 else 0.
Definition snow_phase (v : Q) : Z := if upper_threshold <=? v then 1 else 0.
Definition sleet_phase (v : Q) : Z := if ((lower_threshold <? v) && (v <? upper_threshold))%bool then 1 else 0.
Definition phase_mask (name units : string) (data : list (option Q)) (phase : string) : result (string * list Z) :=
  let* vs := validate_snow_fraction name units data in
  let* f := (if (phase =? "rain")%string then Ok rain_phase else if (phase =? "sleet")%string then Ok sleet_phase
             else if (phase =? "snow")%string then Ok snow_phase else Err KeyError) in
  Ok ((phase ++ "_mask")%string, map f vs).

(** precip_phase_probability.py: cubes with values without masks. A unit is its size in metres. A falling level has one field, or one for each percentile. *)
Inductive levels := Single (f : list Q) | Percentiles (l : list (Q * list Q)).
Record lcube := { l_name : string; l_y : dimcoord; l_x : dimcoord; l_unit : Q; l_levels : levels; l_altitude : list Q; l_altitude_unit : Q }.
Definition l_spatial_match (a b : lcube) : bool := (coord_eq (l_x b) (l_x a) && coord_eq (l_y b) (l_y a))%bool.
Definition convert (from to_ : Q) (f : list Q) : list Q := if from =? to_ then f else map (fun x => x * from / to_) f.
(** precip_phase_probability.py:89-93: name, comparison of the altitude with the level, percentile. *)
Definition phase_definitions : list (string * (Q -> Q -> bool) * Q) :=
  [ ("snow"%string, (fun a l => l <=? a), 80); ("rain"%string, (fun a l => a <? l), 20); ("rain_from_hail"%string, (fun a l => a <? l), 20) ].
Definition named (n : string) (cubes : list lcube) : list lcube := filter (fun c => (l_name c =? n)%string) cubes.
Fixpoint find_level (defs : list (string * (Q -> Q -> bool) * Q)) (cubes : list lcube) : result (string * (Q -> Q -> bool) * Q * lcube) :=
  match defs with
  | [] => Err ValueError
  | d :: r => match named ("altitude_of_" ++ fst (fst d) ++ "_falling_level") cubes with
              | [] => find_level r cubes
              | [c] => Ok (d, c)
              | _ => Err ValueError
              end
  end.
(** precip_phase_probability.py:53-182. The cube of altitudes holds them as its data ("surface_altitude") or on its altitude coordinate ("grid_neighbours"). *)
Definition phase_probability (cubes : list lcube) : result (string * list Z) :=
  match cubes with
  | [a; b] =>
      if negb (l_spatial_match a b) then Err ValueError
      else
        let* (d, c) := find_level phase_definitions cubes in
        let '(param, cmp, pct) := d in
        let* f := match l_levels c with
                  | Single f => Ok f
                  | Percentiles l => match find (fun pf => fst pf =? pct) l with Some pf => Ok (snd pf) | None => Err ValueError end
                  end in
        let* (alt, unit) := match named "surface_altitude" cubes with
                  | s :: _ => match l_levels s with Single g => Ok (g, l_unit s) | Percentiles _ => Err ValueError end
                  | [] => match named "grid_neighbours" cubes with [s] => Ok (l_altitude s, l_altitude_unit s) | _ => Err ValueError end
                  end in
        let f := convert (l_unit c) unit f in
        if negb (same_shape [length alt; length f]) then Err ValueError
        else Ok (("probability_of_" ++ param ++ "_at_surface")%string, zipw (fun a l => if cmp a l then 1%Z else 0%Z) alt f)
  | _ => Err ValueError
  end.

(** hail_fraction.py:40-93 at one point. *)
Record hail_inputs := { updraught : Q; hail_size : Q; ccl_temperature : Q; cct_temperature : Q; melting_level : Q; surface : Q }.
Definition hail_fraction (h : hail_inputs) : Q :=
  let f := np_interp [(5, 0); (50, 1 # 4)] (updraught h) in
  let f := if ((ccl_temperature h <? 26815 # 100) || (25815 # 100 <? cct_temperature h) || (surface h <? melting_level h))%bool then 0 else f in
  if ((2 # 1000 <? hail_size h) && (f <? 5 # 100))%bool then 5 # 100 else f.

(** convection.py:69-81 at one point; numpy.isclose(x, 0, atol=1e-9). *)
Definition convective_ratio (convective dynamic : Q) : option Q :=
  let total := convective + dynamic in
  if Qabs total <=? 1 # 1000000000 then None else Some (convective / total).

(** shower_condition_probability.py:89-173 on cubes whose values are those of n points for each of the realizations (one when there is no realization coordinate), in that order.
    cloud and convection hold the values, with None for masked ones; NaN is not modelled. *)
Definition to_slice (l : list (option Q)) : slice :=
  {| sl_data := map (fun o => match o with Some v => v | None => 0 end) l; sl_mask := map (fun o => match o with Some _ => false | None => true end) l; sl_nan := false |}.
Definition threshold_cube (t : Q) (op : string) (l : list (option Q)) : result (list (option Q)) :=
  let* p := threshold_init (TVscalar t) None None op Cnone in
  let* out := process p (length l) [to_slice l] in
  match out with [f] => Ok f | _ => Err ValueError end.
(** Mean over the unmasked values. *)
Definition masked_mean (l : list (option Q)) : option Q :=
  let v := flat_map (fun o : option Q => match o with Some x => [x] | None => [] end) l in
  match v with [] => None | _ => Some (qsum v / Qlen v) end.
Definition shower_probability (cloud_threshold convection_threshold : Q) (n : nat) (cloud convection : list (list (option Q))) : result (list (option Q)) :=
  if list_eq_dec Nat.eq_dec (map (@length _) cloud) (map (@length _) convection) then
    let* cl := mapM (threshold_cube cloud_threshold "<=") cloud in
    let* cv := mapM (threshold_cube convection_threshold ">") convection in
    let filled := map (map (fun o => match o with Some v => Some v | None => Some 0 end)) cv in
    let m := zipw (zipw (lift2 Qmax)) cl filled in
    Ok (map (fun i => masked_mean (map (fun f => nth i f None) m)) (seq 0 n))
  else Err ValueError.

(** freezing_rain.py. A probability cube: its realizations (None when there is no such coordinate) and, for each of them, the values: for rain and sleet one field for each threshold,
    for temperature one field. Names, grids, times and the thresholds of rain and sleet agree (_get_input_cubes checks them). Rain without realizations comes with sleet and temperature
    without: the code broadcasts otherwise, which is not modelled. *)
Record rcube (A : Type) := { r_realizations : option (list Z); r_slices : list A }.
Arguments r_realizations {A} r.
Arguments r_slices {A} r.
Arguments Build_rcube {A} _ _.
(** freezing_rain.py:100-113, probability_manipulation.py:59-149: the temperature cube before the extraction of the freezing point has one field for each threshold. *)
Definition isclose (x y : Q) : bool := Qabs (x - y) <=? (1 # 100000000) + (1 # 100000) * Qabs y.
Definition freezing_temperature (above : bool) (thresholds : list Q) (c : rcube (list (list Q))) : result (rcube (list Q)) :=
  match find (fun i => isclose (nth i thresholds 0) (27315 # 100)) (seq 0 (length thresholds)) with
  | None => Err ValueError
  | Some i => Ok {| r_realizations := r_realizations c; r_slices := map (fun s => map (fun v => if above then 1 - v else v) (nth i s [])) (r_slices c) |}
  end.
Definition select {A} (keep : list Z) (c : rcube A) : rcube A :=
  match r_realizations c with
  | None => c
  | Some rs => {| r_realizations := Some (filter (fun r => existsb (Z.eqb r) keep) rs);
                  r_slices := map snd (filter (fun p => existsb (Z.eqb (fst p)) keep) (combine rs (r_slices c))) |}
  end.
(** freezing_rain.py:151-180 [_extract_common_realizations]. *)
Definition common_realizations {A B} (rain sleet : rcube A) (temp : rcube B) : result (rcube A * rcube A * rcube B) :=
  match r_realizations rain, r_realizations sleet, r_realizations temp with
  | Some a, Some b, Some c =>
      match filter (fun r => (existsb (Z.eqb r) b && existsb (Z.eqb r) c)%bool) a with
      | [] => Err ValueError
      | keep => Ok (select keep rain, select keep sleet, select keep temp)
      end
  | _, _, _ => Ok (rain, sleet, temp)
  end.
(** freezing_rain.py:265-268: zip stops at the shortest. *)
Definition add_member (denominator : Q) (acc : list (list Q)) (m : list (list Q) * list (list Q) * list Q) : list (list Q) :=
  let '(r, s, t) := m in
  zipw (fun a rs => zipw (fun a v => a + v * (1 / denominator)) a (zipw (fun rs t => rs * t) (zipw Qplus (fst rs) (snd rs)) t)) acc (combine r s).
(** freezing_rain.py:232-270 [_calculate_freezing_rain_probability]. *)
Definition freezing_sum (denominator : Q) (rain sleet : list (list (list Q))) (temp : list (list Q)) (template : list (list Q)) : list (list Q) :=
  fold_left (add_member denominator) (combine (combine rain sleet) temp) (map (map (fun _ => 0)) template).
(** freezing_rain.py:272-299 [process]: the number of realizations is counted before the common ones are extracted. *)
Definition freezing_rain (rain sleet : rcube (list (list Q))) (temp : rcube (list Q)) : result (list (list Q)) :=
  match r_realizations rain with
  | Some rs =>
      let n := length rs in
      let* (rs, t) := common_realizations rain sleet temp in
      let '(r, s) := rs in
      match r_realizations s, r_realizations t, r_slices s with
      | Some _, Some _, first :: _ => Ok (freezing_sum (Qn n) (r_slices r) (r_slices s) (r_slices t) first)
      | _, _, [] => Err StopIteration
      | _, _, _ => Err CoordinateNotFoundError
      end
  | None => match r_slices rain, r_slices sleet, r_slices temp with
            | [r], [s], [t] => Ok (freezing_sum 1 [r] [s] [t] s)
            | _, _, _ => Err ValueError
            end
  end.
