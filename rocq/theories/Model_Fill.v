(** Model of improver/utilities/interpolation.py (interpolate_missing_data, InterpolateUsingDifference) and of improver/precipitation_type/snow_fraction.py. A field is its values in C order, None is NaN
    (or masked, where the code has masks); infinite values are not modelled. scipy's griddata is an argument: for the number of points of the field and the known points (positions and values) it gives a
    value or NaN for every point, or fails with QhullError (None). Units are those of the filled cube; metadata are not modelled. *)
From Verif Require Import Base Model_Rescale Model_Probability Model_Reference.
Local Open Scope Q_scope.

Notation field := (list (option Q)).
Definition griddata := nat -> list (nat * Q) -> option field.
(** interpolation.py:56-62: points that are not NaN and valid. *)
Definition known_points (valid : list bool) (data : field) : list (nat * Q) :=
  flat_map (fun i => match nth i data None with Some v => if nth i valid true then [(i, v)] else [] | None => [] end) (seq 0 (length data)).
(** interpolation.py:21-88 [interpolate_missing_data]; the data are also changed in place to the returned values. *)
Definition clip_limit (as_maximum : bool) (v limit : Q) : Q := if as_maximum then Qmin v limit else Qmax v limit.
Definition interpolate_missing (g : griddata) (limit : option (list Q)) (as_maximum : bool) (valid : list bool) (data : field) : field :=
  let known := known_points valid data in
  let filled := match known with [] => data | _ => match g (length data) known with Some f => f | None => data end end in
  let filled := match limit with
                | None => filled
                | Some l => map (fun i => match nth i data None, nth i filled None with
                                          | None, Some v => Some (clip_limit as_maximum v (nth i l 0))
                                          | _, o => o end) (seq 0 (length data))
                end in
  map (fun i => match nth i data None with Some v => Some v | None => nth i filled None end) (seq 0 (length data)).

(** interpolation.py:186-232: one slice of the cube and of the reference, a reference without NaN; linear and nearest are the two methods. *)
Definition known_values (d : field) : list Q := flat_map (fun o : option Q => match o with Some v => [v] | None => [] end) d.
(** np.clip between np.nanmin and np.nanmax of the values k; both are NaN, and so is the result, when there are none (but then nothing was filled). *)
Definition clip_range (k : list Q) (v : Q) : Q := match k with [] => v | x :: l => Qmin (Qmax v (qminl x l)) (qmaxl x l) end.
Definition fill_slice (linear nearest : griddata) (limit : option (list Q)) (as_maximum : bool) (c : field) (r : list Q) : field :=
  let invalid := map (fun o : option Q => match o with None => true | Some _ => false end) c in
  let difference := zipw (fun o x => match o with Some v => Some (x - v) | None => None end) c r in
  let k := known_values difference in
  let d := interpolate_missing linear None true (map negb invalid) difference in
  let d := if existsb (fun o : option Q => match o with None => true | _ => false end) d
           then interpolate_missing nearest None true (map (fun o : option Q => match o with None => false | _ => true end) d) d else d in
  let d := map (option_map (clip_range k)) d in
  map (fun i => match nth i c None with
                | Some v => Some v
                | None => match nth i d None with
                          | None => None
                          | Some x => let v := nth i r 0 - x in Some (match limit with None => v | Some l => clip_limit as_maximum v (nth i l 0) end)
                          end
                end) (seq 0 (length c)).
(** interpolation.py:141-234 [process] on the slices of the cube and of the reference (None: NaN). zip stops at the shorter list. *)
Definition is_masked (c : list field) : bool := existsb (existsb (fun o : option Q => match o with None => true | _ => false end)) c.
Definition fill_process (linear nearest : griddata) (limit : option (list Q)) (as_maximum : bool) (c : list field) (r : list field) : result (list field) :=
  if negb (is_masked c) then Ok c
  else if is_masked r then Err ValueError
  else Ok (zipw (fill_slice linear nearest limit as_maximum) c (map (map (fun o => match o with Some v => v | None => 0 end)) r)).

(** snow_fraction.py:104-132 [_calculate_snow_fraction] for one slice, of rain and snow that are not negative: 0/0 is NaN. *)
Definition snow_ratio (rain snow : Q) : option Q := if rain + snow =? 0 then None else Some (snow / (rain + snow)).
Definition snow_fraction_slice (nearest : griddata) (rain snow : list Q) : field :=
  let f := zipw snow_ratio rain snow in interpolate_missing nearest None true (map (fun _ => true) f) f.
(** snow_fraction.py:42-102 [_get_input_cubes], [_get_input_cube_names]: which cube is which. time and grid stand for the coordinates compared; None is a masked value. *)
Record scube := { s_name : string; s_grid : dimcoord * dimcoord; s_time : Z; s_data : list field }.
Definition snow_fraction (nearest : griddata) (cubes : list scube) : result (list field) :=
  if negb (length cubes =? 2)%nat then Err ValueError
  else
    match filter (fun c => Model_Probability.contains "rain" (s_name c)) cubes, filter (fun c => Model_Probability.contains "snow" (s_name c)) cubes with
    | [rain], [snow] =>
        if (s_name rain =? s_name snow)%string then Err ValueError
        else if negb (coord_eq (fst (s_grid snow)) (fst (s_grid rain)) && coord_eq (snd (s_grid snow)) (snd (s_grid rain)))%bool then Err ValueError
        else if negb (s_time rain =? s_time snow)%Z then Err ValueError
        else if (is_masked (s_data rain) || is_masked (s_data snow))%bool then Err ValueError
        else if negb (if list_eq_dec Nat.eq_dec (map (@length _) (s_data rain)) (map (@length _) (s_data snow)) then true else false) then Err ValueError
        else let vals := map (map (fun o : option Q => match o with Some v => v | None => 0 end)) in
             Ok (zipw (snow_fraction_slice nearest) (vals (s_data rain)) (vals (s_data snow)))
    | _, _ => Err ValueError
    end.
