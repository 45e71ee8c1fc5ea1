(** Model of CalibratedForecastDistributionParameters and ApplyEMOS (improver/calibration/ensemble_calibration.py:1369-2032).
    A realization is a row of values, one per point of the (flattened) spatial domain; None is NaN. Masked forecasts are not modelled. Numbers are exact; the square root is an argument. *)
From Verif Require Import Base Model_Percentiles Model_Integration Model_Bias Model_Dist Model_Reordering.
Local Open Scope Q_scope.

Notation row := (list (option Q)).
Definition oadd (a b : option Q) : option Q := match a, b with Some x, Some y => Some (x + y) | _, _ => None end.
Definition oscale (k : Q) (a : option Q) : option Q := option_map (Qmult k) a.
Fixpoint osum (l : row) : option Q := match l with [] => Some 0 | x :: r => oadd x (osum r) end.
(** The values of the realizations at one point. *)
Definition at_point (rows : list row) (i : nat) : row := map (fun r => nth i r None) rows.
Fixpoint numbers_of (l : row) : option (list Q) :=
  match l with [] => Some [] | None :: _ => None | Some x :: r => option_map (cons x) (numbers_of r) end.
(** iris.analysis.MEAN and iris.analysis.VARIANCE (one degree of freedom less than values) of unmasked data; no value, or for the variance one, gives NaN. *)
Definition omean (l : row) : option Q := match numbers_of l with Some (x :: r) => Some (mean (x :: r)) | _ => None end.
Definition variance (l : list Q) : Q := qsum (map (fun x => (x - mean l) * (x - mean l)) l) / (Qlen l - 1).
Definition ovariance (l : row) : option Q := match numbers_of l with Some (x :: y :: r) => Some (variance (x :: y :: r)) | _ => None end.

(** Data of a coefficient: one number for the whole domain, or one per point. An array of one element is broadcast. *)
Inductive coeff := Whole (q : Q) | Each (l : list Q).
Definition coeff_at (c : coeff) (i : nat) : Q := match c with Whole q => q | Each [q] => q | Each l => nth i l 0 end.
Definition fits (n : nat) (c : coeff) : bool := match c with Whole _ => true | Each l => ((length l =? n) || (length l =? 1))%nat%bool end.
(** Additional fields: a row, or one value that is broadcast. *)
Definition field_at (f : row) (i : nat) : option Q := match f with [v] => v | _ => nth i f None end.
Definition field_fits (n : nat) (f : row) : bool := ((length f =? n) || (length f =? 1))%nat%bool.

(** lines 1488-1497: the predictors are added one by one; the coefficient of a predictor is looked up by the name of the predictor. No coefficient of this name: extract gives None. Several: the shapes cannot be combined (for coefficients of the whole domain they can if there are as many as points of the last dimension; not modelled). *)
Fixpoint add_predictors (n : nat) (betas : list (string * coeff)) (acc : row) (fps : list (string * row)) : result row :=
  match fps with
  | [] => Ok acc
  | (name, f) :: r =>
      match filter (fun b => String.eqb (fst b) name) betas with
      | [] => Err AttributeError
      | [(_, b)] => if (fits n b && field_fits n f)%bool
                    then add_predictors n betas (map (fun i => oadd (nth i acc None) (oscale (coeff_at b i) (field_at f i))) (seq 0 n)) r
                    else Err ValueError
      | _ => Err ValueError
      end
  end.
(** lines 1456-1499 [_calculate_location_parameter_from_mean]. *)
Definition location_from_mean (n : nat) (name : string) (rows : list row) (additional : list (string * row)) (alpha : coeff) (betas : list (string * coeff)) : result row :=
  let fps := (name, map (fun i => omean (at_point rows i)) (seq 0 n)) :: additional in
  if negb (length fps =? length betas)%nat then Err ValueError else
  let* acc := add_predictors n betas (repeat (Some 0) n) fps in
  if fits n alpha then Ok (map (fun i => oadd (nth i acc None) (Some (coeff_at alpha i))) (seq 0 n)) else Err ValueError.

(** Data of beta for realizations: one number per realization, or one per realization and site. (Per realization and grid cell, three dimensions, the arrays cannot be stacked: line 1525.) *)
Inductive rbeta := PerMember (l : list Q) | PerMemberSite (m : list (list Q)) | PerMemberCell.
Definition transpose (w : nat) (m : list (list Q)) : list (list Q) := map (fun i => map (fun r => nth i r 0) m) (seq 0 w).
(** lines 1518-1523: squaring, transposing, numpy.squeeze and numpy.atleast_2d: a single row or column becomes one row. *)
Definition beta_rows (b : rbeta) : result (list (list Q)) :=
  match b with
  | PerMember l => Ok [map (fun x => x * x) l]
  | PerMemberSite m =>
      let w := length (hd [] m) in
      let t := transpose w (map (map (fun x => x * x)) m) in
      if ((length m =? 1) || (w =? 1))%nat%bool then Ok [concat t] else Ok t
  | PerMemberCell => Err ValueError
  end.
Definition alpha_column (a : coeff) : list Q := match a with Whole q => [q] | Each l => l end.
(** lines 1501-1547 [_calculate_location_parameter_from_realizations]: hstack needs as many rows on both sides; the product broadcasts one row to all points. *)
Definition location_from_realizations (n : nat) (rows : list row) (alpha : coeff) (beta : rbeta) : result row :=
  let* b := beta_rows beta in
  if negb (length (alpha_column alpha) =? length b)%nat then Err ValueError else
  let ab := map (fun p : Q * list Q => fst p :: snd p) (combine (alpha_column alpha) b) in
  if negb (forallb (fun r => length r =? S (length rows))%nat ab) then Err ValueError else
  if negb ((length ab =? n) || (length ab =? 1))%nat%bool then Err ValueError else
  Ok (map (fun i => osum (map (fun p : Q * option Q => oscale (fst p) (snd p))
                              (combine (match ab with [r] => r | _ => nth i ab [] end) (Some 1 :: at_point rows i)))) (seq 0 n)).
(** lines 1549-1576 [_calculate_scale_parameter]. Data of another shape is refused when the cube is made. *)
Definition scale_parameter (root : Q -> Q) (n : nat) (rows : list row) (gamma delta : coeff) : result row :=
  if (fits n gamma && fits n delta)%bool then
    Ok (map (fun i => option_map (fun v => root (coeff_at gamma i * coeff_at gamma i + coeff_at delta i * coeff_at delta i * v)) (ovariance (at_point rows i))) (seq 0 n))
  else Err ValueError.

(** ** Checks *)
(** The x or y coordinate: points, and bounds if there are any. *)
Record axis := { ax_points : list Q; ax_bounds : list (Q * Q) }.
(** iris collapsed(): from the lowest to the highest bound (point, if there are no bounds). *)
Definition extent (a : axis) : Q * Q :=
  let items := match ax_bounds a with [] => ax_points a | bs => flat_map (fun b => [fst b; snd b]) bs end in
  match items with [] => (0, 0) | x :: r => (qminl x r, qmaxl x r) end.
Definition middle (e : Q * Q) : Q := (fst e + snd e) / 2.
(** lines 1436-1454: (points != points).all() or (bounds != bounds).all(). *)
Definition axis_differs (a b : axis) : bool :=
  let e := extent a in let f := extent b in
  (negb (middle e =? middle f) || (negb (fst e =? fst f) && negb (snd e =? snd f)))%bool.
Record forecast := { fc_name : string; fc_period : Z; fc_frts : list Z; fc_sites : option (list Z); fc_x : axis; fc_y : axis; fc_rows : list row }.
Record coeff_meta := { cm_diagnostic : string; cm_period : Z; cm_frts : list Z; cm_x : axis; cm_y : axis }.
Definition all_ok {A} (f : A -> result unit) (l : list A) : result unit := let* _ := mapM f l in Ok tt.
(** lines 1400-1454 and 1658-1668. *)
Definition check_compatible (tolerate : bool) (f : forecast) (cs : list coeff_meta) : result unit :=
  let* _ := all_ok (fun c => if String.eqb (fc_name f) (cm_diagnostic c) then Ok tt else Err ValueError) cs in
  let* _ := if tolerate then Ok tt else all_ok (fun c => forecast_coords_match (cm_period c) (fc_period f) (cm_frts c) (fc_frts f)) cs in
  match fc_sites f with
  | Some _ => Ok tt
  | None => let* _ := all_ok (fun c => if axis_differs (fc_x f) (cm_x c) then Err ValueError else Ok tt) cs in
            all_ok (fun c => if axis_differs (fc_y f) (cm_y c) then Err ValueError else Ok tt) cs
  end.
Inductive betas := MeanBetas (l : list (string * coeff)) | MemberBetas (b : rbeta).
Record coefficients := { co_alpha : coeff; co_beta : betas; co_gamma : coeff; co_delta : coeff; co_meta : list coeff_meta }.
Definition points_of (rows : list row) : nat := length (hd [] rows).
(** lines 1681-1694: [land] is the land-sea mask. *)
Definition land_only (land : option (list bool)) (f : row) : list dval :=
  map (fun i => match land with
                | Some l => if nth i l true then match nth i f None with Some q => Num q | None => NotANumber end else Masked
                | None => match nth i f None with Some q => Num q | None => NotANumber end
                end) (seq 0 (length f)).
(** lines 1615-1696 [process]. The predictor of the plugin is that of the coefficients (the code does not check it). A mask of another shape is an IndexError of numpy.ma.masked_where. *)
Definition parameters (root : Q -> Q) (tolerate : bool) (land : option (list bool)) (f : forecast) (co : coefficients) (additional : list (string * row)) : result (list dval * list dval) :=
  let n := points_of (fc_rows f) in
  let* _ := check_compatible tolerate f (co_meta co) in
  let* loc := match co_beta co with
              | MeanBetas l => location_from_mean n (fc_name f) (fc_rows f) additional (co_alpha co) l
              | MemberBetas b => location_from_realizations n (fc_rows f) (co_alpha co) b
              end in
  let* sc := scale_parameter root n (fc_rows f) (co_gamma co) (co_delta co) in
  match land with
  | Some l => if (length l =? n)%nat then Ok (land_only land loc, land_only land sc) else Err IndexError
  | None => Ok (land_only None loc, land_only None sc)
  end.

(** ** ApplyEMOS *)
Inductive ftype := Probabilities | Percentiles | Realizations.
Definition ftype_eqb (a b : ftype) : bool := match a, b with Probabilities, Probabilities | Percentiles, Percentiles | Realizations, Realizations => true | _, _ => false end.
(** lines 1799-1816 [_get_input_forecast_type]. *)
Definition input_type (has_percentile : bool) (name : string) : ftype :=
  if has_percentile then Percentiles else if String.prefix "probability_of" name then Probabilities else Realizations.
(** lines 1752-1797 [_get_attribute]: the value of an attribute on each coefficient cube, written as a string; None where it is missing. *)
Definition get_attribute (optional : bool) (values : list (option string)) : result (option string) :=
  let present := flat_map (fun v => match v with Some s => [s] | None => [] end) values in
  match present with
  | [] => if optional then Ok None else Err AttributeError
  | s :: r => if (forallb (String.eqb s) r && (length present =? length values)%nat)%bool then Ok (Some s) else Err AttributeError
  end.
(** lines 1713-1750 [_check_additional_field_sites]: the sites of the forecast and of the additional fields. *)
Definition check_sites (fc : option (list Z)) (additional : list (list Z)) : result unit :=
  match fc with
  | None => Ok tt
  | Some s => if forallb (fun a => if list_eq_dec Z.eq_dec a s then true else false) additional then Ok tt else Err ValueError
  end.
(** lines 1818-1856 [_convert_to_realizations]: the conversion itself is an argument; a number of realizations is needed, 0 counting as none. *)
Definition as_realizations (t : ftype) (convert : nat -> list row -> result (list row)) (count : option nat) (rows : list row) : result (list row) :=
  match t with
  | Realizations => Ok rows
  | _ => match count with None | Some O => Err ValueError | Some n => convert n rows end
  end.
(** calibration/utilities.py:254-282 [merge_land_and_sea]: [merge_point] of Model_Bias where the calibrated value is masked. The forecast is not masked. *)
Definition to_dval (o : option Q) : dval := match o with Some q => Num q | None => NotANumber end.
Definition merge_rows (cal : list (list dval)) (raw : list row) : list (list dval) :=
  map (fun cr : list dval * row => map (fun vu : dval * option Q => merge_point (fst vu) (to_dval (snd vu)) 0) (combine (fst cr) (snd cr))) (combine cal raw).
(** lines 1906-1919: EnsembleReordering of as many percentiles as realizations, point by point ([rank_point] of Model_Reordering); [rnd] are the random numbers of each point. The raw values below a mask, and NaN, are read as 0: they only order values that are masked. *)
Definition reorder (randomise : bool) (rnd : nat -> list Q) (cal : list (list dval)) (raw : list row) : result (list (list dval)) :=
  let* cols := mapM (fun i => rank_point randomise (rnd i)
                        {| ep_raw := map (fun r => match nth i r None with Some q => q | None => 0 end) raw;
                           ep_cal := map (fun r => match nth i r NotANumber with Num q => q | _ => 0 end) cal;
                           ep_mask := map (fun r => is_masked (nth i r NotANumber)) cal |}) (seq 0 (points_of raw)) in
  Ok (map (fun k => map (fun c => match nth k c None with Some q => Num q | None => Masked end) cols) (seq 0 (length cal))).
(** What is asked for: percentiles of the plugin or of the forecast; thresholds of the template, or of the forecast, with their direction and the unit conversion. *)
Record request := { rq_percentiles : option (list Q); rq_own : list Q; rq_template : option (bool * option (Q * Q) * list Q); rq_own_template : bool * option (Q * Q) * list Q }.
(** lines 1858-2032 [_format_forecast], [process]. [merge_land_and_sea] requires the dimensions of the result to be those of the forecast: for percentiles, the percentiles of the forecast; for probabilities, its thresholds and their direction. *)
Definition apply_emos (root : Q -> Q) (randomise : bool) (rnd : nat -> list Q) (ppf : quantile_fn) (cdf : cumulative_fn) (convert : nat -> list row -> result (list row))
  (has_percentile : bool) (name : string) (count : option nat) (tolerate : bool) (land : option (list bool)) (f : forecast) (co : coefficients)
  (additional : list (string * row)) (additional_sites : list (list Z)) (dist : distribution) (dist_names shapes : list (option string)) (rq : request) : result (ftype * list (list dval)) :=
  let tin := input_type has_percentile name in
  let tout := match rq_template rq with Some _ => Probabilities | None => tin end in
  if (match land with Some _ => true | None => false end && negb (ftype_eqb tin tout))%bool then Err ValueError else
  let* _ := check_sites (fc_sites f) additional_sites in
  let* rows := as_realizations tin convert count (fc_rows f) in
  let* (loc, sc) := parameters root tolerate land {| fc_name := fc_name f; fc_period := fc_period f; fc_frts := fc_frts f; fc_sites := fc_sites f; fc_x := fc_x f; fc_y := fc_y f; fc_rows := rows |} co additional in
  let* _ := get_attribute false dist_names in
  let* _ := get_attribute true shapes in
  let* out := match tout with
              | Probabilities => let '(above, u, ths) := match rq_template rq with Some t => t | None => rq_own_template rq end in
                                 to_probabilities cdf dist u above (points_of (fc_rows f)) ths loc sc
              | Percentiles => percentiles_of ppf dist loc sc (match rq_percentiles rq with Some (p :: ps) => p :: ps | _ => rq_own rq end)
              | Realizations => let* (_, cal) := to_percentiles ppf dist loc sc (Some (length (fc_rows f))) None in reorder randomise rnd cal (fc_rows f)
              end in
  match land with
  | None => Ok (tout, out)
  | Some _ =>
      let same_points := fun a b : list Q => ((length a =? length b)%nat && forallb (fun pq => fst pq =? snd pq) (combine a b))%bool in
      let same_dims := match tout, rq_percentiles rq, rq_template rq with
                       | Percentiles, Some (p :: ps), _ => same_points (p :: ps) (rq_own rq)
                       | Probabilities, _, Some (above, _, ths) => let '(own_above, _, own) := rq_own_template rq in (Bool.eqb above own_above && same_points ths own)%bool
                       | _, _, _ => true
                       end in
      if negb same_dims then Err ValueError else Ok (tout, merge_rows out (fc_rows f))
  end.
