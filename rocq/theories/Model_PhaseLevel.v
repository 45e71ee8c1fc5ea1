(** Model of PhaseChangeLevel (improver/psychrometric_calculations/psychrometric_calculations.py:345-965): the altitude at which falling precipitation changes phase.
    One column of the grid at a time, then the field of a slice (its points in C order, None is NaN or masked). stratify.interpolate, numpy.sqrt and scipy's griddata are the arguments [strat], [root], [linear] and [nearest].
    The largest orography nearby is given for each point (Model_Vicinity has how it is found). Units, names of dimensions and the metadata of the result other than its name are not modelled; heights are those of the cubes, data are not masked. *)
From Verif Require Import Base Model_Integration Model_Probability Model_Fill.
Local Open Scope string_scope.
Local Open Scope list_scope.
Local Open Scope Q_scope.

(** psychrometric_calculations.py:386-404. *)
Definition phase_change (p : string) : result (Q * string) :=
  if (p =? "snow-sleet")%string then Ok (90, "snow_falling")
  else if (p =? "sleet-rain")%string then Ok (2025 # 10, "rain_falling")
  else if (p =? "hail-rain")%string then Ok (5000, "rain_from_hail_falling")
  else Err ValueError.
(** stratify.interpolate along the column: the target, the pairs of source level and value, the value there (None: NaN). *)
Notation stratify := (Q -> list (Q * Q) -> option Q).
(** psychrometric_calculations.py:430-444 [find_falling_level]. *)
Definition falling_level (strat : stratify) (thr : Q) (integral heights : list Q) (orog : Q) : option Q :=
  strat thr (combine integral (map (fun h => orog + h) heights)).
(** ndarray.max of the column. *)
Definition greatest (l : list Q) : Q := match l with [] => 0 | x :: r => qmaxl x r end.
(** psychrometric_calculations.py:468-474 [fill_in_high_phase_change_falling_levels]. *)
Definition fill_high (thr top : Q) (orog max : Q) (d : option Q) : option Q :=
  match d with Some v => Some v | None => if Qltb thr max then Some (top + orog) else None end.
(** psychrometric_calculations.py:620-631 [linear_wet_bulb_fit]: the first five levels; None where numpy divides by zero. *)
Definition wet_bulb_fit (heights temps : list Q) : option (Q * Q) := linear_fit (firstn 5 (combine heights temps)).
(** psychrometric_calculations.py:549-576 [find_extrapolated_falling_level] at a sea point. *)
Definition extrapolated (root : Q -> Q) (thr max : Q) (line : option (Q * Q)) : option Q :=
  match line with
  | None => None
  | Some (g, c) =>
    if Qltb g 0 then
      let inside := if (0 <=? - c / g)%Q then c * c - 2 * g * (thr - max) else 2 * g * (max - thr) in
      Some (Qmax ((c - root inside) / - g) (- (2000)))
    else None
  end.
(** psychrometric_calculations.py:678-694 [fill_in_sea_points]. (The early return never happens: [sea_points is False] is the comparison of an array with a constant.) *)
Definition fill_sea (root : Q -> Q) (thr land max : Q) (heights temps : list Q) (orog : Q) (d : option Q) : option Q :=
  match d with
  | Some v => Some v
  | None => if (Qltb land 1 && Qltb max thr)%bool then option_map (fun v => v + orog) (extrapolated root thr max (wet_bulb_fit heights temps)) else None
  end.
(** A point of the grid: integral and wet-bulb temperature by level. *)
Record point := { p_orog : Q; p_nearby : Q; p_land : Q; p_integral : list Q; p_temps : list Q }.
(** psychrometric_calculations.py:760-776. *)
Definition level_at (strat : stratify) (root : Q -> Q) (thr top : Q) (heights t_heights : list Q) (p : point) : option Q :=
  let d := falling_level strat thr (p_integral p) heights (p_orog p) in
  let d := fill_high thr top (p_orog p) (greatest (p_integral p)) d in
  fill_sea root thr (p_land p) (greatest (p_integral p)) t_heights (p_temps p) (p_orog p) d.
(** psychrometric_calculations.py:810-830 [_horizontally_interpolate_phase]; comparisons with NaN are false. *)
Definition below_nearby (ps : list point) (d : field) : list bool :=
  zipw (fun p o => match o with Some v => (v <=? p_nearby p)%Q | None => false end) ps d.
Definition horizontally (linear nearest : griddata) (ps : list point) (d : field) : field :=
  let limit := Some (map p_orog ps) in
  let d1 := interpolate_missing linear limit true (below_nearby ps d) d in
  let d2 := interpolate_missing nearest limit true (below_nearby ps d1) d1 in
  if existsb (fun o : option Q => match o with None => true | Some _ => false end) d2
  then interpolate_missing nearest limit true (map (fun _ => true) d2) d2 else d2.
(** psychrometric_calculations.py:760-789 [_calculate_phase_change_level] for a slice. *)
Definition slice_levels (strat : stratify) (root : Q -> Q) (linear nearest : griddata) (interp : bool) (thr top : Q) (heights t_heights : list Q) (ps : list point) : field :=
  let d := map (level_at strat root thr top heights t_heights) ps in
  if interp then horizontally linear nearest ps d else d.

(** cube_manipulation.py:460-465 [sort_coord_in_cube], descending (distinct heights). *)
Definition by_height {A} (heights : list Q) (l : list A) : list A :=
  map snd (rev (isort (fun a b => (fst a <=? fst b)%Q) (combine heights l))).
(** The cubes. The value of an attribute, the heights (with bounds), and for each slice the values at each point by level. *)
Record column_cube := { c_attributes : list (string * string); c_heights : list Q; c_bounds : option (list (Q * Q)); c_slices : list (list (list Q)) }.
Record site := { s_orog : Q; s_nearby : Q; s_land : Q }.
Fixpoint attribute (k : string) (l : list (string * string)) : option string :=
  match l with [] => None | (a, v) :: r => if (a =? k)%string then Some v else attribute k r end.
(** psychrometric_calculations.py:921-926. *)
Definition highest (wbt wbi : column_cube) : result Q :=
  match c_bounds wbi with
  | None => match rev (c_heights wbt) with h :: _ => Ok h | [] => Err IndexError end
  | Some bs => match by_height (c_heights wbi) bs with b :: _ => Ok (snd b) | [] => Err IndexError end
  end.
Definition points_of (sites : list site) (integral temps : list (list Q)) : list point :=
  zipw (fun s it => {| p_orog := s_orog s; p_nearby := s_nearby s; p_land := s_land s; p_integral := fst it; p_temps := snd it |}) sites (combine integral temps).
(** psychrometric_calculations.py:904-913: different values are refused, one that is not there is a KeyError. *)
Definition same_model (model_id_attr : option string) (wbt wbi : column_cube) : result unit :=
  match model_id_attr with
  | None | Some "" => Ok tt
  | Some k => match attribute k (c_attributes wbt), attribute k (c_attributes wbi) with
              | Some a, Some b => if (a =? b)%string then Ok tt else Err ValueError
              | _, _ => Err KeyError
              end
  end.
(** psychrometric_calculations.py:847-855, 885-965 [process] on the four cubes; zip stops at the shorter list of slices. The name of the result and its fields. *)
Definition process (strat : stratify) (root : Q -> Q) (linear nearest : griddata) (phase : string) (interp : bool) (model_id_attr : option string) (wbt wbi : column_cube) (sites : list site) : result (string * list field) :=
  let* def := phase_change phase in
  let* _ := same_model model_id_attr wbt wbi in
  let* top := highest wbt wbi in
  let heights := by_height (c_heights wbi) (c_heights wbi) in
  Ok (("altitude_of_" ++ snd def ++ "_level")%string,
      zipw (fun i t => slice_levels strat root linear nearest interp (fst def) top heights (c_heights wbt) (points_of sites (map (by_height (c_heights wbi)) i) t)) (c_slices wbi) (c_slices wbt)).
