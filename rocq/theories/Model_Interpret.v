(** Model of improver/developer_tools/metadata_interpreter.py and of cli/interpret_metadata.py.
    The texts of errors and warnings are not modelled, only which there are; attributes are texts; units are compared as texts; a name with characters that mean something in regular expressions is not considered.
    Whether the data types are the mandatory ones (check_mandatory_standards, C80) is a field of the cube. *)
From Coq Require Import Ascii String.
From Verif Require Import Base Model_Records Model_Attributes.
From Verif Require Model_Probability.
Local Open Scope string_scope.
Notation contains := Model_Probability.contains.

(** lines 27-114. *)
Definition model_names : list (string * string) := [("nc_det", "Nowcast"); ("gl_det", "Global"); ("gl_ens", "MOGREPS-G"); ("uk_ens", "MOGREPS-UK"); ("uk_det", "UKV")].
Definition ancillaries : list string :=
  ["surface_altitude"; "land_fraction"; "land_binary_mask"; "grid_with_halo"; "topographic_zone_weights"; "topography_mask"; "silhouette_roughness"; "standard_deviation_of_height_in_grid_cell"; "smoothing_coefficient_x"; "smoothing_coefficient_y"; "linke_turbidity"].
Definition intermediates : list string :=
  ["grid_neighbours"; "grid_eastward_wind"; "grid_northward_wind"; "precipitation_advection_x_velocity"; "precipitation_advection_y_velocity"; "reliability_calibration_table"; "emos_coefficient_alpha"; "emos_coefficient_beta"; "emos_coefficient_gamma"; "emos_coefficient_delta"].
Definition special_cases : list string := ("weather_code" :: "wind_from_direction" :: intermediates ++ ancillaries)%list.
Definition spot_coords : list string := ["spot_index"; "latitude"; "longitude"; "altitude"; "wmo_id"].
Definition unblended_times : list string := ["time"; "forecast_period"; "forecast_reference_time"].
Definition blended_times : list string := ["time"; "blend_time"].
Definition accumulations : list string := ["lwe_thickness_of_precipitation_amount"; "lwe_thickness_of_sleetfall_amount"; "lwe_thickness_of_snowfall_amount"; "thickness_of_rainfall_amount"].
Definition compliant_methods : list string := ["min"; "max"; "minimum"; "maximum"; "sum"].
Definition forbidden_methods : list string := ["point"; "weighted_mean"].
Definition forbidden_means : list string := ["forecast_reference_time"; "model_id"; "model_configuration"; "realization"].
Definition forbidden_attributes : list string := ["mosg__grid_type"; "mosg__grid_domain"; "mosg__grid_version"; "mosg__forecast_run_duration"; "grid_id"; "source_realizations"; "um_version"].
Definition mandatory : list string := ["title"; "source"; "institution"].
Definition compliant_attributes : list string := (mandatory ++ ["Conventions"; "least_significant_digit"; "mosg__model_configuration"; "mosg__model_run"])%list.
Definition diagnostic_attributes (d : option string) : list string := match d with Some "weather_code" => ["weather_code"; "weather_code_meaning"] | Some "wind_gust" => ["wind_gust_diagnostic"] | _ => [] end.
Definition blend_title := "IMPROVER Post-Processed Multi-Model Blend".
Definition id_attr := "mosg__model_configuration".
Definition run_attr := "mosg__model_run".

(** A cube. [co_axis]: the axis that iris guesses, if y or x. Bounds are pairs, one for each point. *)
Inductive axis := AxisX | AxisY.
Record coordinate := { co_name : string; co_var : option string; co_relative : option string; co_units : string; co_axis : option axis; co_dims : list nat; co_points : list Z; co_bounds : option (list (Z * Z)) }.
Record cube := { c_name : string; c_units : string; c_coords : list coordinate; c_methods : list cell_method; c_attributes : list (string * string); c_standard : bool }.
Definition names (c : cube) : list string := map co_name (c_coords c).
Definition mem (s : string) (l : list string) : bool := existsb (String.eqb s) l.
Definition attr (k : string) (l : list (string * string)) : option string := option_map snd (find (fun e => fst e =? k) l).
(** cube.coord: there must be one. *)
Definition only (l : list coordinate) : result coordinate := match l with [x] => Ok x | _ => Err CoordinateNotFoundError end.
Definition coord (n : string) (c : cube) : result coordinate := only (filter (fun x => co_name x =? n) (c_coords c)).
Definition is_axis (a : axis) (x : coordinate) : bool := match co_axis x, a with Some AxisX, AxisX | Some AxisY, AxisY => true | _, _ => false end.

(** What goes wrong, each with an error text of its own; and what is only warned of. *)
Inductive problem := ProbabilityUnits | ProbabilityName | NoThresholdCoord | ThresholdName | ThresholdVar | NoRelative | BadRelative | RelativeName | NoSum | MethodComment | NoTimeBounds | ForbiddenMethod | UnexpectedMethods
  | PercentileName | PercentileUnits | ForbiddenAttribute | RequiredAttribute | MandatoryAttribute | NoModelId | NoModelRun | ModelCode (code : string) | TitleModel (code : string) | NotOneModel | SpotTitle | MissingCoords | NotHorizontal (coord : string)
  | UpperBounds (coord : string) | Standards | Realizations.
Inductive warning := Between | UnknownMethod | UnknownAttributes.
(** lines 127-153. An interpreter; [i_spot]: the type of product is "spot". *)
Record interp := { i_errors : list problem; i_warnings : list warning; i_spot : bool; i_field : option string; i_diagnostic : option string; i_relative : option string; i_methods : string; i_post : option bool; i_model : option string; i_blended : bool; i_unhandled : bool }.
Definition new_interp : interp := {| i_errors := []; i_warnings := []; i_spot := false; i_field := None; i_diagnostic := None; i_relative := None; i_methods := ""; i_post := None; i_model := None; i_blended := false; i_unhandled := false |}.
Definition err (p : problem) (i : interp) : interp := {| i_errors := app (i_errors i) [p]; i_warnings := i_warnings i; i_spot := i_spot i; i_field := i_field i; i_diagnostic := i_diagnostic i; i_relative := i_relative i; i_methods := i_methods i; i_post := i_post i; i_model := i_model i; i_blended := i_blended i; i_unhandled := i_unhandled i |}.
Definition warn (w : warning) (i : interp) : interp := {| i_errors := i_errors i; i_warnings := app (i_warnings i) [w]; i_spot := i_spot i; i_field := i_field i; i_diagnostic := i_diagnostic i; i_relative := i_relative i; i_methods := i_methods i; i_post := i_post i; i_model := i_model i; i_blended := i_blended i; i_unhandled := i_unhandled i |}.
Definition set_field (f d : option string) (i : interp) : interp := {| i_errors := i_errors i; i_warnings := i_warnings i; i_spot := i_spot i; i_field := f; i_diagnostic := d; i_relative := i_relative i; i_methods := i_methods i; i_post := i_post i; i_model := i_model i; i_blended := i_blended i; i_unhandled := i_unhandled i |}.
Definition set_relative (r : option string) (i : interp) : interp := {| i_errors := i_errors i; i_warnings := i_warnings i; i_spot := i_spot i; i_field := i_field i; i_diagnostic := i_diagnostic i; i_relative := r; i_methods := i_methods i; i_post := i_post i; i_model := i_model i; i_blended := i_blended i; i_unhandled := i_unhandled i |}.
Definition add_method (m : string) (i : interp) : interp := {| i_errors := i_errors i; i_warnings := i_warnings i; i_spot := i_spot i; i_field := i_field i; i_diagnostic := i_diagnostic i; i_relative := i_relative i; i_methods := i_methods i ++ m; i_post := i_post i; i_model := i_model i; i_blended := i_blended i; i_unhandled := i_unhandled i |}.
Definition set_post (b : bool) (i : interp) : interp := {| i_errors := i_errors i; i_warnings := i_warnings i; i_spot := i_spot i; i_field := i_field i; i_diagnostic := i_diagnostic i; i_relative := i_relative i; i_methods := i_methods i; i_post := Some b; i_model := i_model i; i_blended := i_blended i; i_unhandled := i_unhandled i |}.
Definition set_model (m : option string) (i : interp) : interp := {| i_errors := i_errors i; i_warnings := i_warnings i; i_spot := i_spot i; i_field := i_field i; i_diagnostic := i_diagnostic i; i_relative := i_relative i; i_methods := i_methods i; i_post := i_post i; i_model := m; i_blended := i_blended i; i_unhandled := i_unhandled i |}.
Definition set_blended (b : bool) (i : interp) : interp := {| i_errors := i_errors i; i_warnings := i_warnings i; i_spot := i_spot i; i_field := i_field i; i_diagnostic := i_diagnostic i; i_relative := i_relative i; i_methods := i_methods i; i_post := i_post i; i_model := i_model i; i_blended := b; i_unhandled := i_unhandled i |}.
Definition set_spot (i : interp) : interp := {| i_errors := i_errors i; i_warnings := i_warnings i; i_spot := true; i_field := i_field i; i_diagnostic := i_diagnostic i; i_relative := i_relative i; i_methods := i_methods i; i_post := i_post i; i_model := i_model i; i_blended := i_blended i; i_unhandled := i_unhandled i |}.
Definition set_unhandled (i : interp) : interp := {| i_errors := i_errors i; i_warnings := i_warnings i; i_spot := i_spot i; i_field := i_field i; i_diagnostic := i_diagnostic i; i_relative := i_relative i; i_methods := i_methods i; i_post := i_post i; i_model := i_model i; i_blended := i_blended i; i_unhandled := true |}.
Definition err_if (b : bool) (p : problem) (i : interp) : interp := if b then err p i else i.

(** lines 193-234 (check_threshold_coordinate_properties). *)
Definition word_for (r : string) : option string :=
  if mem r ["greater_than"; "greater_than_or_equal_to"] then Some "above" else if mem r ["less_than"; "less_than_or_equal_to"] then Some "below" else if r =? "between_thresholds" then Some "between" else None.
Definition check_threshold (cube_name : string) (t : coordinate) (i : interp) : interp :=
  let i := err_if (negb (match co_var t with Some v => v =? "threshold" | None => false end)) ThresholdVar i in
  match co_relative t with
  | None => err NoRelative i
  | Some r =>
    let i := set_relative (Some r) i in
    match word_for r with
    | None => err BadRelative i
    | Some w => let i := if w =? "between" then warn Between i else i in err_if (negb (contains w cube_name)) RelativeName i
    end
  end.
(** metadata/probabilistic.py:150-188 (find_threshold_coordinate). *)
Definition has_threshold_var (x : coordinate) : bool := match co_var x with Some v => v =? "threshold" | None => false end.
Definition find_threshold (c : cube) : option coordinate :=
  match coord "threshold" c with Ok x => Some x | Err _ => find has_threshold_var (c_coords c) end.
(** lines 155-191 (check_probability_cube_metadata). *)
Definition check_probability (c : cube) (i : interp) : result interp :=
  let i := err_if (negb (c_units c =? "1")) ProbabilityUnits i in
  match extract_diagnostic_name (c_name c) false with
  | Err _ => Ok (err ProbabilityName i)
  | Ok d =>
    let i := set_field (i_field i) (Some d) i in
    if negb (mem d (names c)) then
      match find_threshold c with
      | None => Ok (err NoThresholdCoord i)
      | Some t => let i := err ThresholdName i in let* t' := coord (co_name t) c in Ok (check_threshold (c_name c) t' i)
      end
    else let* t := coord d c in Ok (check_threshold (c_name c) t i)
  end.
(** lines 236-280 (check_cell_methods). re.match looks for the text at the start; the second pattern adds nothing to the first. *)
Definition text (o : option string) : string := match o with Some s => s | None => "None" end.
Definition is_forbidden_method (m : cell_method) : bool :=
  mem (cm_method m) forbidden_methods || ((cm_method m =? "mean") && match cm_coords m, cm_intervals m, cm_comments m with [x], [], [] => mem x forbidden_means | _, _, _ => false end).
Definition check_method (c : cube) (m : cell_method) (i : interp) : result interp :=
  if mem (cm_method m) compliant_methods then
    match cm_coords m with
    | [] => Err IndexError
    | x :: _ =>
      let i := add_method (" " ++ cm_method m ++ " over " ++ x) i in
      let i := match i_field i with
               | Some "probabilities" => err_if (negb (match cm_comments m with t :: _ => String.prefix ("of " ++ text (i_diagnostic i)) t | [] => false end)) MethodComment i
               | _ => i
               end in
      if mem "time" (cm_coords m) then let* t := coord "time" c in Ok (err_if (match co_bounds t with None => true | Some _ => false end) NoTimeBounds i) else Ok i
    end
  else if is_forbidden_method m then Ok (err ForbiddenMethod i) else Ok (warn UnknownMethod i).
Fixpoint over_all {A} (f : A -> interp -> result interp) (l : list A) (i : interp) : result interp := match l with [] => Ok i | x :: r => let* i := f x i in over_all f r i end.
Definition is_time_sum (m : cell_method) : bool := (cm_method m =? "sum") && match cm_coords m with [x] => x =? "time" | _ => false end.
Definition check_methods (c : cube) (i : interp) : result interp :=
  let i := err_if (existsb (fun a => contains a (c_name c)) accumulations && negb (existsb is_time_sum (c_methods c))) NoSum i in
  over_all (check_method c) (c_methods c) i.
(** lines 282-338 (_check_blend_and_model_attributes); a record of a run is model:cycle:weight. *)
Definition colon : ascii := ":"%char.
Definition cycles (text : string) : result (list (string * string)) :=
  mapM (fun item => match split_on colon item with [k; v; _] => Ok (k, v) | _ => Err ValueError end) (split_on newline text).
Definition name_code (cs : list (string * string)) (code : string) (s : interp * list string) : result (interp * list string) :=
  match attr code model_names with
  | None => Ok (err (ModelCode code) (fst s), snd s)
  | Some n => match attr code (rev cs) with Some v => Ok (fst s, app (snd s) [n ++ " (cycle: " ++ v ++ ")"]) | None => Err KeyError end
  end.
Fixpoint name_codes (cs : list (string * string)) (codes : list string) (s : interp * list string) : result (interp * list string) :=
  match codes with [] => Ok s | x :: r => let* s := name_code cs x s in name_codes cs r s end.
Definition check_model (title : string) (a : list (string * string)) (i : interp) : result interp :=
  let i := set_blended (contains blend_title title) i in
  if contains blend_title title then
    let i := err_if (match attr id_attr a with None => true | Some _ => false end) NoModelId i in
    let i := err_if (match attr run_attr a with None => true | Some _ => false end) NoModelRun i in
    match attr id_attr a, attr run_attr a with
    | Some ids, Some runs =>
      let* cs := cycles runs in
      let* s := name_codes cs (split_words ids) (i, []) in
      Ok (set_model (Some (String.concat ", " (snd s))) (fst s))
    | _, _ => Ok i
    end
  else
    match attr id_attr a with
    | None => Ok i
    | Some id =>
      let i := fold_left (fun i e => err_if (contains (snd e ++ " Model") title && negb (id =? fst e)) (TitleModel (fst e)) i) model_names i in
      match attr id model_names with Some n => Ok (set_model (Some n) i) | None => Ok (err NotOneModel i) end
    end.
(** lines 340-383 (check_attributes). *)
Definition check_attributes (a : list (string * string)) (i : interp) : result interp :=
  let own := diagnostic_attributes (i_diagnostic i) in
  let i := if existsb (fun e => mem (fst e) forbidden_attributes) a then err ForbiddenAttribute i
           else if existsb (fun e => negb (mem (fst e) (compliant_attributes ++ own))) a then warn UnknownAttributes i else i in
  let i := err_if (negb (forallb (fun k => mem k (map fst a)) own)) RequiredAttribute i in
  match i_field i with
  | Some "ancillary" => Ok i
  | _ =>
    let i := err_if (negb (forallb (fun k => mem k (map fst a)) mandatory)) MandatoryAttribute i in
    match attr "title" a with
    | None => Ok i
    | Some t => check_model t a (set_post (contains "Post-Processed" t || contains blend_title t) i)
    end
  end.
(** lines 385-429. *)
Definition check_present (expected : list string) (c : cube) (i : interp) : interp := err_if (negb (forallb (fun k => mem k (names c)) expected)) MissingCoords i.
Definition first_dim (x : coordinate) : result nat := match co_dims x with d :: _ => Ok d | [] => Err IndexError end.
Definition same_dims (a b : list nat) : bool := (forallb (fun x => existsb (Nat.eqb x) b) a && forallb (fun x => existsb (Nat.eqb x) a) b)%bool.
Definition check_horizontal (c : cube) (i : interp) : result interp :=
  let* y := only (filter (is_axis AxisY) (c_coords c)) in
  let* x := only (filter (is_axis AxisX) (c_coords c)) in
  let* dy := first_dim y in
  let* dx := first_dim x in
  Ok (fold_left (fun i k => match coord k c with Ok t => err_if (negb (same_dims (co_dims t) [dy; dx])) (NotHorizontal k) i | Err _ => i end) spot_coords i).
Definition check_spot (c : cube) (i : interp) : result interp :=
  let i := set_spot i in
  let i := match attr "title" (c_attributes c) with Some t => err_if (negb (contains "Spot Values" t)) SpotTitle i | None => i end in
  check_horizontal c (check_present spot_coords c i).
(** lines 411-416. *)
Definition check_bounds (c : cube) (k : string) (i : interp) : result interp :=
  if mem k (names c) then
    let* t := coord k c in
    match co_bounds t with None => Ok i | Some b => Ok (err_if (negb (forallb (fun p => (fst p =? snd (snd p))%Z) (combine (co_points t) b))) (UpperBounds k) i) end
  else Ok i.
(** metadata/probabilistic.py:236-272 (find_percentile_coordinate): None: there is none. *)
Definition find_percentile (c : cube) : result (option coordinate) :=
  match filter (fun x => contains "percentile" (co_name x)) (c_coords c) with [] => Ok None | [x] => Ok (Some x) | _ => Err ValueError end.
(** lines 442-510: the kind of cube; Ok with the second component true means that nothing more is done. *)
Definition is_mode (m : cell_method) (hour : string) : bool := ((cm_method m =? "mode") && match cm_coords m, cm_intervals m, cm_comments m with [x], [y], [] => (x =? "time") && (y =? hour ++ " hour") | _, _, _ => false end)%bool.
Definition check_category (m : cell_method) (i : interp) : result interp :=
  if is_mode m "1" then Ok (add_method "mode of 1 hour weather code over time" i) else if is_mode m "3" then Ok (add_method "mode of 3 hour weather code over time" i) else Ok (err UnexpectedMethods i).
Definition is_mean_of_realizations (m : cell_method) : bool := ((cm_method m =? "mean") && match cm_coords m, cm_intervals m, cm_comments m with [x], [], [] => x =? "realization" | _, _, _ => false end)%bool.
Definition check_kind (c : cube) (i : interp) : result (interp * bool) :=
  let n := c_name c in
  if mem n ancillaries then Ok (err_if (match c_methods c with [] => false | _ => true end) UnexpectedMethods (set_field (Some "ancillary") (Some n) i), false)
  else if mem n special_cases then
    let i := set_field (Some n) (Some n) i in
    if n =? "weather_code" then let* i := over_all check_category (c_methods c) i in Ok (i, false)
    else if n =? "wind_from_direction" then Ok (err_if (match c_methods c with [] => false | [m] => negb (is_mean_of_realizations m) | _ => true end) UnexpectedMethods i, false)
    else Ok (set_unhandled i, true)
  else
    let* i := if (contains "probability" n && contains "threshold" n)%bool then check_probability c (set_field (Some "probabilities") (i_diagnostic i) i)
              else
                let i := set_field (i_field i) (Some n) i in
                let* p := find_percentile c in
                match p with
                | Some p => Ok (err_if (negb (co_units p =? "%")) PercentileUnits (err_if (negb (co_name p =? "percentile")) PercentileName (set_field (Some "percentiles") (Some n) i)))
                | None =>
                  let* ts := mapM (fun k => coord k c) (names c) in
                  if existsb has_threshold_var ts then check_probability c (set_field (Some "probabilities") (Some n) i) else Ok (set_field (Some "realizations") (Some n) i)
                end in
    let* i := check_methods c i in Ok (i, false).
(** lines 512-551. *)
Definition check_rest (c : cube) (i : interp) : result interp :=
  let* i := check_attributes (c_attributes c) i in
  let* i := if mem "spot_index" (names c) then check_spot c i else Ok i in
  let i := match i_field i with Some "ancillary" => i | _ => check_present (if i_blended i then blended_times else unblended_times) c i end in
  let* i := check_bounds c "time" i in
  let* i := check_bounds c "forecast_period" i in
  let i := err_if (negb (c_standard c)) Standards i in
  match i_field i with
  | Some "realizations" =>
    match coord "realization" c with
    | Err _ => Ok i
    | Ok r => Ok (err_if (negb (contains "ens" (match attr id_attr (c_attributes c) with Some m => m | None => "ens" end)) && (1 <? length (co_points r))%nat) Realizations i)
    end
  | _ => Ok i
  end.
(** lines 431-555 (run): it returns, or it raises the collated errors, or something else is raised. *)
Inductive outcome := Done (i : interp) | Collated (i : interp) | Raised (e : Base.err).
Definition run (i : interp) (c : cube) : outcome :=
  match check_kind c i with
  | Err e => Raised e
  | Ok (i, true) => Done i
  | Ok (i, false) => match check_rest c i with Err e => Raised e | Ok i => match i_errors i with [] => Done i | _ => Collated i end end
  end.

(** lines 558-653 (display_interpretation), without the lines about sources and warnings: None: there is no such text (of None), or no such variable. *)
Definition spaced (s : string) : string := Model_Probability.replace "_" " " s.
Definition standard_lines (i : interp) : option (list string) :=
  match i_field i, i_diagnostic i with
  | Some f, Some d =>
    match (if f =? "probabilities" then option_map (fun r => " " ++ spaced r ++ " thresholds") (i_relative i) else Some "") with
    | None => None
    | Some rtt =>
      Some (("It contains " ++ spaced f ++ " of " ++ spaced d ++ rtt)
            :: app (if i_methods i =? "" then [] else ["These " ++ spaced f ++ " are of " ++ spaced d ++ i_methods i])
                   ["It has undergone " ++ (match i_post i with Some true => "some" | _ => "no" end) ++ " significant post-processing"])
    end
  | _, _ => None
  end.
Definition display (i : interp) : option (list string) :=
  if i_unhandled i then Some [text (i_diagnostic i) ++ " is not handled by this interpreter"]
  else match i_field i, i_diagnostic i with
  | Some f, d =>
    let dd := text d in
    match (if mem dd special_cases then Some [] else standard_lines i) with
    | None => None
    | Some lines =>
      Some (app (("This is a " ++ (if i_spot i then "spot " else "gridded ") ++ (if spaced f =? "realizations" then "file containing one or more realizations" else spaced f ++ " file")) :: lines)
        (app (if ((dd =? "weather_code") && negb (i_methods i =? ""))%bool then ["These " ++ spaced f ++ " are " ++ i_methods i] else [])
        [if mem dd ancillaries then "This is a static ancillary with no time information"
         else if i_blended i then "It contains blended data from models: " ++ text (i_model i)
         else match i_model i with Some m => "It contains data from " ++ m | None => "It has no source model information and cannot be blended" end]))
    end
  | None, _ => None
  end.

(** cli/interpret_metadata.py: an interpreter for each cube; only ValueError is caught; any cube that does not comply makes the command fail once all have been looked at. What is printed for each cube (None: its errors), and whether the command fails. *)
Fixpoint interpret_all (l : list cube) : result (list (option (list string)) * bool) :=
  match l with
  | [] => Ok ([], false)
  | c :: r =>
    match run new_interp c with
    | Raised ValueError | Collated _ => let* (out, _) := interpret_all r in Ok (None :: out, true)
    | Raised e => Err e
    | Done i => match display i with None => Err AttributeError | Some t => let* (out, failed) := interpret_all r in Ok (Some t :: out, failed) end
    end
  end.
