(** Model of improver/calibration/utilities.py (filter_non_matching_cubes, create_unified_frt_coord, merge_land_and_sea, forecast_coords_match, get_frt_hours, check_forecast_consistency, check_data_sufficiency), calibration/simple_bias_correction.py (CalculateForecastBias, ApplyBiasCorrection) and calibration/__init__.py (the three functions that split inputs, validity_time_check).
    A cell of an array is a number, NaN or masked. Times, reference times and forecast periods are in seconds. Attributes, units and spatial coordinates are not modelled, except where a record names them. *)
From Verif Require Import Base Model_Probability Model_Integration.
Local Open Scope Q_scope.

Inductive dval := Num (q : Q) | NotANumber | Masked.

(** ** Matching forecasts and truths *)
Record tcell := { tc_point : Z; tc_bounds : option (Z * Z) }.
(** One time slice of a cube. *)
Record tslice := { t_cell : tcell; t_frt : Z; t_period : Z; t_data : list dval }.
Definition cell_eqb (a b : tcell) : bool :=
  ((tc_point a =? tc_point b)%Z && match tc_bounds a, tc_bounds b with
                                   | None, None => true
                                   | Some (l, u), Some (l', u') => ((l =? l')%Z && (u =? u')%Z)%bool
                                   | _, _ => false
                                   end)%bool.
(** calibration/utilities.py:181-200: the constraint on the time of a truth made from the time of a forecast; without bounds on the forecast, iris compares a bounded cell by containment. *)
Definition time_matches (hf tr : tcell) : result bool :=
  match tc_bounds hf, tc_bounds tr with
  | None, None => Ok (tc_point hf =? tc_point tr)%Z
  | None, Some (l, u) => Ok ((l <=? tc_point hf) && (tc_point hf <=? u))%Z%bool
  | Some _, None => if (tc_point hf =? tc_point tr)%Z then Err TypeError else Ok false
  | Some (l, u), Some (l', u') => Ok ((tc_point hf =? tc_point tr) && (l =? l') && (u =? u'))%Z%bool
  end.
(** 201 [truth.extract]: every cell is tested. If several slices match iris returns them together; the model takes the first (theorems assume that at most one matches). *)
Fixpoint extract_truth (hf : tcell) (truths : list tslice) : result (option tslice) :=
  match truths with
  | [] => Ok None
  | t :: r => let* m := time_matches hf (t_cell t) in let* o := extract_truth hf r in Ok (if m then Some t else o)
  end.
(** 205: numpy.isnan(data).all() on a masked array skips masked values, and is masked (false) if nothing is left. *)
Definition is_nan (v : dval) : bool := match v with NotANumber => true | _ => false end.
Definition unmasked (l : list dval) : list dval := filter (fun v => match v with Masked => false | _ => true end) l.
Definition all_nan (l : list dval) : bool := (negb (length (unmasked l) =? 0)%nat && forallb is_nan (unmasked l))%bool.
(** 179-210. *)
Fixpoint match_loop (truths : list tslice) (seen : list tcell) (hfs : list tslice) : result (list (tslice * tslice)) :=
  match hfs with
  | [] => Ok []
  | h :: r =>
      let* o := extract_truth (t_cell h) truths in
      match o with
      | Some t => if (negb (all_nan (t_data h)) && negb (existsb (cell_eqb (t_cell t)) seen))%bool
                  then let* ps := match_loop truths (seen ++ [t_cell t]) r in Ok ((h, t) :: ps)
                  else match_loop truths seen r
      | None => match_loop truths seen r
      end
  end.
(** 220-223 merge_cube: in ascending order of time. Each cube is merged by itself. *)
Definition by_time (l : list tslice) : list tslice := isort (fun a b => (tc_point (t_cell a) <=? tc_point (t_cell b))%Z) l.
(** calibration/utilities.py:142-224 [filter_non_matching_cubes]. *)
Definition filter_non_matching (hfs truths : list tslice) : result (list tslice * list tslice) :=
  let* ps := match_loop truths [] hfs in
  match ps with [] => Err ValueError | _ => Ok (by_time (map fst ps), by_time (map snd ps)) end.

(** ** Forecast reference times *)
Definition zmaxl (a : Z) (l : list Z) : Z := fold_left Z.max l a.
Definition zminl (a : Z) (l : list Z) : Z := fold_left Z.min l a.
(** calibration/utilities.py:227-251 [create_unified_frt_coord]: point and bounds; [] is no coordinate. *)
Definition unified_frt (points : list Z) (bounds : list (Z * Z)) : option (Z * (Z * Z)) :=
  match points with
  | [] => None
  | p :: r => let hi := zmaxl p r in
              let ends := flat_map (fun b => [fst b; snd b]) bounds in
              Some (hi, (zminl (zminl p r) ends, zmaxl hi ends))
  end.
(** calibration/utilities.py:331-347 [get_frt_hours]. *)
Definition hour (t : Z) : Z := ((t / 3600) mod 24)%Z.
Definition all_same (l : list Z) : bool := match l with [] => false | a :: r => forallb (Z.eqb a) r end.
(** calibration/utilities.py:350-372 [check_forecast_consistency]: the merged forecast period has one point if and only if it is the same for all slices. *)
Definition check_forecast_consistency (l : list tslice) : result unit :=
  if negb (all_same (map (fun s => hour (t_frt s)) l)) then Err ValueError
  else if negb (all_same (map t_period l)) then Err ValueError
  else Ok tt.
(** calibration/utilities.py:285-328 [forecast_coords_match] for cubes with one forecast period; numpy.ceil of the period in hours. *)
Definition ceil_hours (p : Z) : Z := (- ((- p) / 3600))%Z.
Fixpoint zmem (x : Z) (l : list Z) : bool := match l with [] => false | a :: r => ((x =? a)%Z || zmem x r)%bool end.
Definition same_set (a b : list Z) : bool := (forallb (fun x => zmem x b) a && forallb (fun x => zmem x a) b)%bool.
Definition forecast_coords_match (p1 p2 : Z) (frts1 frts2 : list Z) : result unit :=
  if (negb (ceil_hours p1 =? ceil_hours p2)%Z || negb (same_set (map hour frts1) (map hour frts2)))%bool then Err ValueError else Ok tt.

(** ** The bias of past forecasts *)
Definition dsub (a b : dval) : dval :=
  match a, b with Masked, _ => Masked | _, Masked => Masked | Num x, Num y => Num (x - y) | _, _ => NotANumber end.
Definition numbers (l : list dval) : list Q := flat_map (fun v => match v with Num q => [q] | _ => [] end) l.
(** iris.analysis.MEAN of a masked array: over the unmasked values. *)
Definition dmean (l : list dval) : dval :=
  match unmasked l with
  | [] => Masked
  | u => if existsb is_nan u then NotANumber else Num (mean (numbers u))
  end.
Definition column (rows : list (list dval)) (i : nat) : list dval := map (fun r => nth i r Masked) rows.
Fixpoint zipd (f : dval -> dval -> dval) (a b : list dval) : list dval := match a, b with x :: a, y :: b => f x y :: zipd f a b | _, _ => [] end.
(** simple_bias_correction.py:36-67 [evaluate_additive_error]. *)
Definition additive_error (hf tr : list (list dval)) : list dval :=
  let errors := map (fun p => zipd dsub (fst p) (snd p)) (combine hf tr) in
  match errors with
  | [e] => e
  | e :: _ => map (fun i => dmean (column errors i)) (seq 0 (length e))
  | [] => []
  end.
(** What kind of forecast it is, with the length of its percentile or realization dimension. *)
Inductive fkind := SingleValued | Percentile (n : nat) | Realization (n : nat) | Probability.
(** simple_bias_correction.py:104-137 [_ensure_single_valued_forecast]. *)
Definition ensure_single (k : fkind) : result unit :=
  match k with Probability => Err ValueError | Percentile n | Realization n => if (1 <? n)%nat then Err ValueError else Ok tt | SingleValued => Ok tt end.
Record biascube := { b_name : string; b_frts : list Z; b_frt_bounds : option (Z * Z); b_periods : list Z; b_fields : list (list dval) }.
(** simple_bias_correction.py:155-245 [_create_bias_cube], [process]; all fields have the same shape as the truth (the cube subtraction refuses others). A single time gives no time dimension, and the reference time is kept as it is. *)
Definition calculate_bias (k : fkind) (name : string) (hfs truths : list tslice) : result biascube :=
  let* _ := ensure_single k in
  let* p := filter_non_matching hfs truths in
  let* _ := check_forecast_consistency (fst p) in
  let frts := map t_frt (fst p) in
  let '(frt, bounds) := match frts with
                        | [f] => (f, None)
                        | _ => match unified_frt frts [] with Some (f, b) => (f, Some b) | None => (0%Z, None) end
                        end in
  Ok {| b_name := ("forecast_error_of_" ++ name)%string; b_frts := [frt]; b_frt_bounds := bounds;
        b_periods := match fst p with s :: _ => [t_period s] | [] => [] end;
        b_fields := [additive_error (map t_data (fst p)) (map t_data (snd p))] |}.

(** ** Bias correction *)
(** calibration/__init__.py:186-222 [split_forecasts_and_bias_files]. *)
Fixpoint split_bias (forecast : option biascube) (biases : list biascube) (cubes : list biascube) : result (biascube * list biascube) :=
  match cubes with
  | [] => match forecast with None => Err ValueError | Some f => Ok (f, biases) end
  | c :: r => if contains "forecast_error" (b_name c) then split_bias forecast (biases ++ [c]) r
              else match forecast with None => split_bias (Some c) biases r | Some _ => Err ValueError end
  end.
(** simple_bias_correction.py:350-396 [_check_forecast_bias_consistent]. *)
Definition one_value (l : list Z) : bool := all_same l.
Definition check_bias_consistent (f : biascube) (bs : list biascube) : result unit :=
  let bh := map hour (flat_map b_frts bs) in
  let bp := flat_map b_periods bs in
  if negb (one_value bh) then Err ValueError
  else if negb (one_value (map hour (b_frts f) ++ bh)) then Err ValueError
  else if negb (one_value bp) then Err ValueError
  else if negb (one_value (b_periods f ++ bp)) then Err ValueError
  else Ok tt.
Fixpoint znodup (l : list Z) : bool := match l with [] => true | a :: r => (negb (zmem a r) && znodup r)%bool end.
(** simple_bias_correction.py:308-348 [_get_mean_bias]: bias cubes with one reference time and field each; merge_cube refuses duplicates and fields of different sizes. *)
Definition field_of (b : biascube) : list dval := match b_fields b with d :: _ => d | [] => [] end.
Definition same_len (ls : list (list dval)) : bool := match ls with [] => true | a :: r => forallb (fun b => (length b =? length a)%nat) r end.
Definition mean_bias (bs : list biascube) : result (list dval) :=
  match bs with
  | [b] => Ok (field_of b)
  | _ =>
      if existsb (fun b => match b_frt_bounds b with Some _ => true | None => false end) bs then Err ValueError
      else if negb (znodup (flat_map b_frts bs) && same_len (map field_of bs))%bool then Err MergeError
      else Ok (map (fun i => dmean (column (map field_of bs) i)) (seq 0 (length (field_of (hd {| b_name := ""; b_frts := []; b_frt_bounds := None; b_periods := []; b_fields := [] |} bs)))))
  end.
(** numpy.ma.filled(bias, 0). *)
Definition filled (v : dval) : dval := match v with Masked => Num 0 | _ => v end.
(** cube_manipulation.py:531-562 with numpy.clip; a bound that is absent does not apply. *)
Definition dclip (lo hi : option Q) (v : dval) : dval :=
  match v with
  | Num x => let x := match lo with Some l => Qmax x l | None => x end in Num (match hi with Some h => Qmin x h | None => x end)
  | _ => v
  end.
(** simple_bias_correction.py:70-89, 398-446 [apply_additive_correction], [process]: the corrected forecast, and the bias cubes as the caller has them afterwards (a single bias cube is filled in place). *)
Definition set_field (b : biascube) (d : list dval) : biascube := {| b_name := b_name b; b_frts := b_frts b; b_frt_bounds := b_frt_bounds b; b_periods := b_periods b; b_fields := [d] |}.
Definition apply_bias (lo hi : option Q) (fill : bool) (cubes : list biascube) : result (biascube * list biascube) :=
  let* s := split_bias None [] cubes in
  let '(f, bs) := s in
  match bs with
  | [] => Ok (f, [])
  | _ =>
      let* _ := check_bias_consistent f bs in
      let* m := mean_bias bs in
      let m' := if fill then map filled m else m in
      let after := match bs with [b] => if fill then [set_field b m'] else bs | _ => bs end in
      if existsb (fun d => negb (length d =? length m')%nat) (b_fields f) then Err ValueError
      else Ok ({| b_name := b_name f; b_frts := b_frts f; b_frt_bounds := b_frt_bounds f; b_periods := b_periods f;
                  b_fields := map (fun d => map (dclip lo hi) (zipd dsub d m')) (b_fields f) |}, after)
  end.

(** ** Enough data, land and sea, splitting *)
(** calibration/utilities.py:412-472 [check_data_sufficiency] for site cubes: rows are times (and realizations), columns are sites; the truths are broadcast to the shape of the forecasts. *)
Definition nan_pairs (hf tr : list dval) : nat := length (filter (fun p => (is_nan (fst p) && is_nan (snd p))%bool) (combine hf tr)).
Definition check_data_sufficiency (point_by_point : bool) (proportion : Q) (nsites : nat) (hf tr : list (list dval)) : result unit :=
  if point_by_point then
    if existsb (fun j => proportion <? Qn (nan_pairs (column hf j) (column tr j)) / Qlen hf) (seq 0 nsites) then Err ValueError else Ok tt
  else
    if proportion <? Qn (nan_pairs (concat hf) (concat tr)) / Qlen (concat hf) then Err ValueError else Ok tt.
(** calibration/utilities.py:254-282 [merge_land_and_sea] at one point: [c] calibrated on land (masked at sea), [under] the number below the mask of the uncalibrated forecast. *)
Definition merge_point (c u : dval) (under : Q) : dval := match c with Masked => match u with Masked => Num under | v => v end | v => v end.
(** calibration/__init__.py:225-246 [validity_time_check]: the strings HHMM are read as pairs of hour and minute. *)
Definition validity_time_check (t : Z) (times : list (Z * Z)) : bool :=
  existsb (fun e => ((fst e =? hour t)%Z && (snd e =? (t / 60) mod 60)%Z)%bool) times.
(** calibration/__init__.py:97-183 [split_forecasts_and_coeffs]: a cube is its name, whether it has a time coordinate, and its identity. UnboundLocalError is a RuntimeError here. *)
Record icube := { i_name : string; i_time : bool; i_id : nat }.
Record split_result := { r_forecast : icube; r_coeffs : list icube; r_static : list icube; r_mask : option icube; r_template : option icube }.
Record groups := { gr_coeffs : list icube; gr_mask : option icube; gr_static : list icube; gr_others : list icube }.
Definition split_step (mask_name : option string) (g : groups) (c : icube) : result groups :=
  if contains "emos_coefficient" (i_name c) then Ok {| gr_coeffs := gr_coeffs g ++ [c]; gr_mask := gr_mask g; gr_static := gr_static g; gr_others := gr_others g |}
  else if match mask_name with Some m => (negb (m =? "")%string && (i_name c =? m)%string)%bool | None => false end
    then Ok {| gr_coeffs := gr_coeffs g; gr_mask := Some c; gr_static := gr_static g; gr_others := gr_others g |}
  else if negb (i_time c) then Ok {| gr_coeffs := gr_coeffs g; gr_mask := gr_mask g; gr_static := gr_static g ++ [c]; gr_others := gr_others g |}
  else if (contains "probability" (i_name c) && existsb (fun o => contains "probability" (i_name o)) (gr_others g))%bool then Err ValueError
  else if existsb (fun o => (i_name o =? i_name c)%string) (gr_others g) then Err ValueError
  else Ok {| gr_coeffs := gr_coeffs g; gr_mask := gr_mask g; gr_static := gr_static g; gr_others := gr_others g ++ [c] |}.
Fixpoint split_all (mask_name : option string) (g : groups) (cubes : list icube) : result groups :=
  match cubes with [] => Ok g | c :: r => let* g' := split_step mask_name g c in split_all mask_name g' r end.
Definition split_coeffs (mask_name : option string) (cubes : list icube) : result split_result :=
  let* g := split_all mask_name {| gr_coeffs := []; gr_mask := None; gr_static := []; gr_others := [] |} cubes in
  let finish f t := {| r_forecast := f; r_coeffs := gr_coeffs g; r_static := gr_static g; r_mask := gr_mask g; r_template := t |} in
  match gr_others g with
  | [] => Err ValueError
  | [c] => Ok (finish c None)
  | [c; d] =>
      let pick := fold_left (fun s o => if contains "probability" (i_name o) then (fst s, Some o) else (Some o, snd s)) [c; d] (None, None) in
      match fst pick with Some f => Ok (finish f (snd pick)) | None => Err RuntimeError end
  | _ => Err RuntimeError
  end.
