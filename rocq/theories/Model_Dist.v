(** Model of ConvertLocationAndScaleParametersToPercentiles and ConvertLocationAndScaleParametersToProbabilities (improver/ensemble_copula_coupling/ensemble_copula_coupling.py:816-1285).
    Fields are lists of values per point ([dval]: a number, NaN or masked; the location may be any of them). The quantile and distribution functions of scipy's standard normal distribution, truncated below and above at the first two arguments, are arguments; None is no truncation. The two end percentiles 0 and 100, whose values may be infinite, are not modelled. Numbers are exact. *)
From Verif Require Import Base Model_Percentiles Model_Bias.
Local Open Scope Q_scope.

(** The two distributions EMOS can be trained for; the truncation points are the shape parameters of the coefficients. *)
Inductive distribution := Norm | TruncNorm (lo : option Q) (hi : option Q).
Notation quantile_fn := (option Q -> option Q -> Q -> Q).
Notation cumulative_fn := (option Q -> option Q -> Q -> Q).

(** ensemble_copula_coupling.py:885-918 [_rescale_shape_parameters] of a new plugin. *)
Definition rescaled (d : distribution) (l s : Q) : option Q * option Q :=
  match d with
  | Norm => (None, None)
  | TruncNorm lo hi => (option_map (fun v => (v - l) / s) lo, option_map (fun v => (v - l) / s) hi)
  end.
(** numpy.ma.filled(data, 1). *)
Definition fill1 (v : dval) : option Q := match v with Num q => Some q | NotANumber => None | Masked => Some 1 end.
(** scipy: NaN unless the scale is positive. *)
Definition ppf_at (ppf : quantile_fn) (d : distribution) (l s : option Q) (q : Q) : option Q :=
  match l, s with
  | Some l, Some s => if 0 <? s then Some (l + s * ppf (fst (rescaled d l s)) (snd (rescaled d l s)) q) else None
  | _, _ => None
  end.
Definition cdf_at (cdf : cumulative_fn) (d : distribution) (l s : option Q) (t : Q) : option Q :=
  match l, s with
  | Some l, Some s => if 0 <? s then Some (cdf (fst (rescaled d l s)) (snd (rescaled d l s)) ((t - l) / s)) else None
  | _, _ => None
  end.
Definition is_none {A} (o : option A) : bool := match o with None => true | Some _ => false end.
Definition is_zero (o : option Q) : bool := match o with Some q => q =? 0 | None => false end.
(** lines 995-1012: one percentile. *)
Definition percentile_row (ppf : quantile_fn) (d : distribution) (loc scale : list (option Q)) (p : Q) : result (list (option Q)) :=
  let row := map (fun ls => ppf_at ppf d (fst ls) (snd ls) (p / 100)) (combine loc scale) in
  let row := if existsb is_zero scale
             then map (fun vl : option Q * option Q => if is_none (fst vl) then snd vl else fst vl) (combine row loc) else row in
  if existsb is_none row then Err ValueError else Ok row.
(** lines 1030-1037, 1209-1216, 1247-1248: masked where either parameter is. *)
Definition is_masked (v : dval) : bool := match v with Masked => true | _ => false end.
Definition remask (loc scale : list dval) (row : list (option Q)) : list dval :=
  map (fun lsv : (dval * dval) * option Q =>
         if (is_masked (fst (fst lsv)) || is_masked (snd (fst lsv)))%bool then Masked
         else match snd lsv with Some q => Num q | None => NotANumber end) (combine (combine loc scale) row).
(** lines 938-1040 [_location_and_scale_parameters_to_percentiles], data only. Parameters of different shape cannot be combined by scipy. *)
Definition percentiles_of (ppf : quantile_fn) (d : distribution) (loc scale : list dval) (ps : list Q) : result (list (list dval)) :=
  if negb (length loc =? length scale)%nat then Err ValueError else
  let* rows := mapM (percentile_row ppf d (map fill1 loc) (map fill1 scale)) ps in
  Ok (map (remask loc scale) rows).
(** lines 1042-1094 [process]: the number of percentiles, 0 being as good as none, or a list of them. Iterating over None is a TypeError. *)
Definition to_percentiles (ppf : quantile_fn) (d : distribution) (loc scale : list dval) (number : option nat) (ps : option (list Q)) : result (list Q * list (list dval)) :=
  let number := match number with Some O => None | n => n end in
  match number, ps with
  | Some n, Some (_ :: _) => Err ValueError
  | Some n, _ => let* l := choose_set_of_percentiles n Quantile in let* r := percentiles_of ppf d loc scale l in Ok (l, r)
  | None, Some l => let* r := percentiles_of ppf d loc scale l in Ok (l, r)
  | None, None => Err TypeError
  end.

(** lines 1149-1181 [_check_unit_compatibility]: both parameters are converted to the units of the thresholds; a conversion is x -> k x + o. None: the units are not compatible. *)
Definition convert (u : Q * Q) (v : dval) : dval := match v with Num q => Num (fst u * q + snd u) | v => v end.
(** lines 1183-1285 [_location_and_scale_parameters_to_probabilities], [process], data only. [above]: probabilities of exceedance; [points]: the number of points of the template. *)
Definition to_probabilities (cdf : cumulative_fn) (d : distribution) (units : option (Q * Q)) (above : bool) (points : nat) (thresholds : list Q) (loc scale : list dval) : result (list (list dval)) :=
  match units with
  | None => Err ValueError
  | Some u =>
      let loc := map (convert u) loc in
      let scale := map (convert u) scale in
      if (negb (length loc =? length scale) || negb (length loc =? points))%nat%bool then Err ValueError else
      Ok (map (fun t => remask loc scale
            (map (fun ls => option_map (fun p => if above then 1 - p else p) (cdf_at cdf d (fst ls) (snd ls) t))
                 (combine (map fill1 loc) (map fill1 scale)))) thresholds)
  end.
(** lines 1113-1147 [_check_template_cube]: axes, a threshold coordinate, fewer than four dimensions. *)
Definition check_template (has_axes has_threshold : bool) (dims : nat) : result unit :=
  if negb has_axes then Err ValueError else if negb has_threshold then Err ValueError else if (dims <? 4)%nat then Ok tt else Err ValueError.
(** lines 822-875 [__init__]: [known]: scipy.stats has a distribution of this name. *)
Definition init_distribution (name : string) (known : string -> bool) (has_shape : bool) : result unit :=
  if String.eqb name "truncnorm" then (if has_shape then Ok tt else Err ValueError) else if known name then Ok tt else Err AttributeError.
