(** Model of improver/synthetic_data/generate_metadata.py, improver/synthetic_data/set_up_test_cubes.py (gridded cubes), improver/synthetic_data/utilities.py and improver/cli/generate_metadata_cube.py.
    Numbers are exact (float32 in the code); moments are seconds since 1970; coordinate systems and data types are not modelled; a coordinate of no points does not occur (npoints is positive); scalar coordinates that are given ready-made (include_scalar_coords) and spot cubes are not modelled.  The tables of iris (standard names with their units) and of the standard grids are arguments. *)
From Verif Require Import Base Model_Probability Model_Manip Model_Attributes.
Local Open Scope string_scope.
Local Open Scope list_scope.
Local Open Scope Q_scope.

Record coord := { c_name : string; c_units : string; c_points : list Q; c_bounds : list (Q * Q); c_var : option string; c_attrs : attributes }.
Record times := { t_time : Z; t_bounds : option (Z * Z); t_frt : option Z; t_blend : option Z; t_period : Z; t_period_bounds : option (Z * Z) }.
(** [m_dims]: the dimension coordinates in the order of the dimensions; [m_data]: the value at given indices. *)
Record mcube := { m_name : string; m_units : string; m_attrs : attributes; m_dims : list coord; m_scalars : list coord; m_times : times; m_data : list nat -> Q }.

(** iris: the points of a dimension coordinate increase strictly or decrease strictly. *)
Definition dim_coord (c : coord) : result coord := if (increasing_b (c_points c) || increasing_b (rev (c_points c)))%bool then Ok c else Err ValueError.

(** ** set_up_test_cubes.py *)
(** grids.py lines 25-40. *)
Definition grid_default (grid : string) : option (string * string * string * Q) :=
  if String.eqb grid "latlon" then Some ("longitude", "latitude", "degrees", 10) else
  if String.eqb grid "equalarea" then Some ("projection_x_coordinate", "projection_y_coordinate", "metres", 2000) else None.
(** lines 108-134: numpy.linspace. *)
Definition line_points (n : nat) (start spacing : Q) : list Q :=
  let stop := start + spacing * (Qn n - 1) in
  let step := (stop - start) / (Qn n - 1) in
  map (fun i => start + Qn i * step) (seq 0 n).
(** lines 137-155. *)
Definition centred (n : nat) (spacing : Q) : Q := 0 - ((Qn n - 1) * spacing) / 2.
(** iris guess_bounds: half way to the neighbours, the outer ones mirrored; latitudes are cut at the poles. *)
Definition guess_bounds (name : string) (pts : list Q) : list (Q * Q) :=
  let n := length pts in
  let p i := nth i pts 0 in
  let before i := match i with O => p 1%nat - p 0%nat | S j => p i - p j end in
  let after i := if (S i <? n)%nat then p (S i) - p i else p i - p (i - 1)%nat in
  let polar := (String.eqb name "latitude" && forallb (fun x => (-(90#1) <=? x) && (x <=? 90)) pts)%bool in
  let cut x := if polar then clip (-(90#1)) 90 x else x in
  map (fun i => (cut (p i - before i / 2), cut (p i + after i / 2))) (seq 0 n).
(** lines 37-105; [corner] is (y, x). *)
Definition axis (n : nat) (start spacing : Q) (name units : string) : result coord :=
  let pts := line_points n start spacing in
  let* c := dim_coord {| c_name := name; c_units := units; c_points := pts; c_bounds := []; c_var := None; c_attrs := [] |} in
  Ok (if (1 <? n)%nat then {| c_name := name; c_units := units; c_points := pts; c_bounds := guess_bounds name pts; c_var := None; c_attrs := [] |} else c).
Definition yx_coords (ny nx : nat) (grid : string) (dx dy : option Q) (corner : option (Q * Q)) : result (coord * coord) :=
  match grid_default grid with
  | None => Err ValueError
  | Some (xname, yname, units, spacing) =>
    let dx := match dx with Some d => d | None => spacing end in
    let dy := match dy with Some d => d | None => spacing end in
    let (y0, x0) := match corner with Some c => c | None => (centred ny dy, centred nx dx) end in
    let* y := axis ny y0 dy yname units in
    let* x := axis nx x0 dx xname units in
    Ok (y, x)
  end.

(** lines 173-266. *)
Definition scalar_times (time : Z) (bounds : option (list Z)) (frt blend : option Z) : result times :=
  let* _ := match blend, frt with Some b, Some f => if Z.eqb b f then Ok tt else Err ValueError | _, _ => Ok tt end in
  let* reference := match frt, blend with Some f, _ => Ok f | None, Some b => Ok b | None, None => Err ValueError end in
  if (time <? reference)%Z then Err ValueError else
  let* bs := match bounds with
    | None => Ok None
    | Some (a :: b :: _) => let lo := Z.min a b in let hi := Z.max a b in
        if ((time <? lo) || (hi <? time))%Z%bool then Err ValueError else Ok (Some (lo, hi))
    | Some _ => Err IndexError
    end in
  Ok {| t_time := time; t_bounds := bs; t_frt := frt; t_blend := blend; t_period := (time - reference)%Z;
        t_period_bounds := option_map (fun b => (fst b - reference, snd b - reference)%Z) bs |}.

(** lines 269-300. *)
Definition dimension (pts : option (list Q)) (n : nat) (name units : string) (attrs : attributes) : result coord :=
  let* ps := match pts with Some l => if (length l =? n)%nat then Ok l else Err ValueError | None => Ok (map Qn (seq 0 n)) end in
  dim_coord {| c_name := name; c_units := units; c_points := ps; c_bounds := []; c_var := None; c_attrs := attrs |}.
Definition is_given {A} (o : option A) : bool := match o with Some _ => true | None => false end.
(** lines 303-391 with y_coord and x_coord. *)
Definition dimension_coords (shape : list nat) (y x : coord) (realizations heights : option (list Q)) (pressure : bool) : result (list coord) :=
  let nd := length shape in
  if negb ((2 <=? nd) && (nd <=? 4))%nat then Err ValueError else
  if (is_given realizations && is_given heights && negb (nd =? 4)%nat)%bool then Err ValueError else
  if (negb (is_given heights) && (3 <? nd)%nat)%bool then Err ValueError else
  let* lead := if ((nd =? 4)%nat || (negb (is_given heights) && (nd =? 3)%nat))%bool
    then let* c := dimension realizations (nth 0 shape 0%nat) "realization" "1" [] in Ok [c] else Ok [] in
  let* levels := if (is_given heights && ((3 <=? nd) && (nd <=? 4))%nat)%bool
    then let* c := dimension heights (nth (length lead) shape 0%nat) (if pressure then "pressure" else "height") (if pressure then "Pa" else "m") [("positive", if pressure then "down" else "up")]%string in Ok [c] else Ok [] in
  Ok (lead ++ levels ++ [y; x]).

(** The keyword arguments that are handed on. *)
Record options := { o_grid : option string; o_dx : option Q; o_dy : option Q; o_corner : option (list Q); o_heights : option (list Q); o_pressure : bool;
  o_time : option Z; o_bounds : option (list Z); o_frt : option Z; o_blend : option Z; o_attrs : option attributes; o_standard_grid : option string }.
Definition default_time : Z := 1510286400.
Definition default_frt : Z := 1510272000.

Section SetUp.
Variable standard_grids : string -> option attributes.

(** lines 532-677 (set_up_variable_cube, _yx_for_grid, _variable_cube). *)
Definition corner_of (l : option (list Q)) : result (option (Q * Q)) := match l with None => Ok None | Some (a :: b :: _) => Ok (Some (a, b)) | Some _ => Err IndexError end.
Definition variable_cube (shape : list nat) (data : list nat -> Q) (name units : string) (realizations : option (list Q)) (o : options) : result mcube :=
  match rev shape with
  | nx :: ny :: _ =>
    let* corner := corner_of (o_corner o) in
    let* (y, x) := yx_coords ny nx (match o_grid o with Some g => g | None => "latlon"%string end) (o_dx o) (o_dy o) corner in
    let* dims := dimension_coords shape y x realizations (o_heights o) (o_pressure o) in
    let frt := match o_frt o, o_blend o with None, None => Some default_frt | f, _ => f end in
    let* t := scalar_times (match o_time o with Some t => t | None => default_time end) (o_bounds o) frt (o_blend o) in
    let* grid := match o_standard_grid o with None => Ok [] | Some g => match standard_grids g with Some a => Ok (update [] a) | None => Err KeyError end end in
    Ok {| m_name := name; m_units := units; m_attrs := match o_attrs o with Some a => update grid a | None => grid end; m_dims := dims; m_scalars := []; m_times := t; m_data := data |}
  | _ => Err IndexError
  end.

Definition with_dims (c : mcube) (dims scalars : list coord) (data : list nat -> Q) : mcube :=
  {| m_name := m_name c; m_units := m_units c; m_attrs := m_attrs c; m_dims := dims; m_scalars := scalars; m_times := m_times c; m_data := data |}.
(** The realizations become another coordinate; with one value it is taken off the dimensions (next(cube.slices_over(..))). *)
Definition converted (f : coord -> coord) (values : option (list Q)) (c : mcube) : result mcube :=
  match m_dims c with
  | r :: rest => if String.eqb (c_name r) "realization" then
      match values with
      | None => Err TypeError
      | Some [_] => Ok (with_dims c rest (f r :: m_scalars c) (fun i => m_data c (0%nat :: i)))
      | Some _ => Ok (with_dims c (f r :: rest) (m_scalars c) (m_data c))
      end else Err CoordinateNotFoundError
  | [] => Err CoordinateNotFoundError
  end.
(** lines 693-733. *)
Definition percentile_cube (shape : list nat) (data : list nat -> Q) (percentiles : option (list Q)) (name units : string) (o : options) : result mcube :=
  let* c := variable_cube shape data name units percentiles o in
  converted (fun r => {| c_name := "percentile"; c_units := "%"; c_points := c_points r; c_bounds := c_bounds r; c_var := None; c_attrs := c_attrs r |}) percentiles c.
(** lines 749-827. *)
Definition side (spp : string) : option string :=
  if existsb (String.eqb spp) ["above"; "greater_than"; "greater_than_or_equal_to"]%string then Some "above"%string else
  if existsb (String.eqb spp) ["below"; "less_than"; "less_than_or_equal_to"]%string then Some "below"%string else None.
Definition probability_cube (shape : list nat) (data : list nat -> Q) (thresholds : option (list Q)) (variable units spp : string) (o : options) : result mcube :=
  match side spp with
  | None => Err ValueError
  | Some s =>
    let* c := variable_cube shape data ("probability_of_" ++ variable ++ "_" ++ s ++ "_threshold")%string "1"%string thresholds o in
    converted (fun r => {| c_name := replace "_in_vicinity" "" variable; c_units := units; c_points := c_points r; c_bounds := c_bounds r; c_var := Some "threshold"%string; c_attrs := update (c_attrs r) [("spp__relative_to_threshold", spp)]%string |}) thresholds c
  end.

(** ** generate_metadata.py *)
(** lines 48-75. *)
Definition data_shape (members : nat) (leading : option (list Q)) (npoints : nat) (heights : option (list Q)) : list nat :=
  let n := match leading with Some l => length l | None => members end in
  (if (1 <? n)%nat then [n] else []) ++ match heights with Some h => [length h] | None => [] end ++ [npoints; npoints].
(** iris.util.squeeze. *)
Definition one_point (c : coord) : bool := (length (c_points c) =? 1)%nat.
Fixpoint unsqueezed (dims : list coord) (i : list nat) : list nat :=
  match dims with [] => [] | c :: r => if one_point c then 0%nat :: unsqueezed r i else nth 0 i 0%nat :: unsqueezed r (tl i) end.
Definition squeeze (c : mcube) : mcube :=
  with_dims c (filter (fun d => negb (one_point d)) (m_dims c)) (filter one_point (m_dims c) ++ m_scalars c) (fun i => m_data c (unsqueezed (m_dims c) i)).
Inductive cube_type := Variable_ | Percentile_ | Probability_.
Definition type_of (s : string) : option cube_type :=
  if String.eqb s "variable" then Some Variable_ else if String.eqb s "percentile" then Some Percentile_ else if String.eqb s "probability" then Some Probability_ else None.
(** lines 78-215; [std_units] is iris.std_names.STD_NAMES. *)
Definition mandatory_names : list string := ["title"; "source"; "institution"]%string.
Variable std_units : string -> option string.
Definition spacing_default (grid : string) : Q := if String.eqb grid "latlon" then 2 # 100 else 2000.
Definition generate (mandatory : attributes) (name : string) (units : option string) (time_period : option Z) (members : nat) (leading : option (list Q)) (type spp : string) (npoints : nat) (o : options) : result mcube :=
  match type_of type with
  | None => Err ValueError
  | Some ty =>
    let* _ := match o_grid o with Some g => if (String.eqb g "latlon" || String.eqb g "equalarea")%bool then Ok tt else Err ValueError | None => Ok tt end in
    let* _ := match o_corner o with Some l => if (length l =? 2)%nat then Ok tt else Err ValueError | None => Ok tt end in
    let* units := match units with Some u => Ok u | None => match std_units name with Some u => Ok u | None => Err ValueError end end in
    let time := match o_time o with Some t => t | None => default_time end in
    let bounds := match time_period with Some m => Some [(time - 60 * m)%Z; time] | None => o_bounds o end in
    let grid := match o_grid o with Some g => g | None => "latlon"%string end in
    let spacing d := match d with Some s => Some s | None => Some (spacing_default grid) end in
    let shape := data_shape members leading npoints (o_heights o) in
    let* _ := if forallb (fun k => is_given (get k mandatory)) mandatory_names then Ok tt else Err KeyError in
    let attrs := update (match o_attrs o with Some a => a | None => [] end) mandatory in
    let o' := {| o_grid := Some grid; o_dx := spacing (o_dx o); o_dy := spacing (o_dy o); o_corner := o_corner o; o_heights := o_heights o; o_pressure := o_pressure o; o_time := Some time; o_bounds := bounds; o_frt := o_frt o; o_blend := o_blend o; o_attrs := Some attrs; o_standard_grid := o_standard_grid o |} in
    let zeros := fun _ : list nat => 0 in
    let* c := match ty with
      | Percentile_ => percentile_cube shape zeros leading name units o'
      | Probability_ => probability_cube shape zeros leading name units spp o'
      | Variable_ => variable_cube shape zeros name units leading o'
      end in
    Ok (squeeze c)
  end.

(** ** utilities.py and generate_metadata_cube.py *)
Record json_coords := { jc_realizations : option (list Q); jc_percentiles : option (list Q); jc_thresholds : option (list Q); jc_heights : option (list Q); jc_pressures : option (list Q) }.
(** utilities.py lines 20-53. *)
Definition leading_dimension (j : json_coords) : result (option (list Q) * string) :=
  match jc_realizations j, jc_percentiles j, jc_thresholds j with
  | Some _, Some _, _ | Some _, _, Some _ | _, Some _, Some _ => Err ValueError
  | Some r, None, None => Ok (Some r, "variable"%string)
  | None, Some p, None => Ok (Some p, "percentile"%string)
  | None, None, Some t => Ok (Some t, "probability"%string)
  | None, None, None => Ok (None, "variable"%string)
  end.
(** lines 56-78. *)
Definition height_levels (j : json_coords) : option (list Q) * bool :=
  match jc_heights j, jc_pressures j with Some h, _ => (Some h, false) | None, Some p => (Some p, true) | None, None => (None, false) end.
(** The part of the JSON input that is modelled; moments are already read from their text. Any other argument can be given there too and then replaces the option. *)
Record json := { j_coords : option json_coords; j_time : option Z; j_frt : option Z; j_bounds : option (list Z); j_attrs : option attributes; j_spp : option string }.
(** cli/generate_metadata_cube.py lines 13-113. *)
Definition command (mandatory : attributes) (name : string) (units : option string) (grid : string) (time_period : option Z) (input : option json) (members : nat) (dx dy : option Q) (corner : option (list Q)) (npoints : nat) : result mcube :=
  let none := {| j_coords := None; j_time := None; j_frt := None; j_bounds := None; j_attrs := None; j_spp := None |} in
  let j := match input with Some j => j | None => none end in
  let* (leading, type) := match j_coords j with Some c => leading_dimension c | None => Ok (None, "variable"%string) end in
  let (heights, pressure) := match j_coords j with Some c => height_levels c | None => (None, false) end in
  generate mandatory name units time_period members leading type (match j_spp j with Some s => s | None => "greater_than"%string end) npoints
    {| o_grid := Some grid; o_dx := dx; o_dy := dy; o_corner := corner; o_heights := heights; o_pressure := pressure; o_time := j_time j; o_bounds := j_bounds j; o_frt := j_frt j; o_blend := None; o_attrs := j_attrs j; o_standard_grid := None |}.
End SetUp.
