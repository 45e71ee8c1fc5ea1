(** Model of LatitudeDependentThreshold (improver/threshold.py:680-800) and LightningFromCapePrecip (improver/lightning.py:27-191).
    A field is a list of rows, one for each latitude; missing values are [dval]s. Metadata and the threshold coordinate are not modelled. *)
From Verif Require Import Base Model_Rescale Model_Threshold Model_Bias.
Local Open Scope Q_scope.

Notation rows := (list (list dval)).
Definition is_nan (v : dval) : bool := match v with NotANumber => true | _ => false end.
(** threshold.py:741-800. [units] converts the data to the units of the thresholds. The thresholds become a column that is
    compared with the rows of the array (the last but one dimension), whatever that dimension is. As many rows as latitudes are needed
    (a single row or latitude, which numpy would repeat, is not modelled). numpy.isnan ignores masked points. *)
Definition truth (c : cmp) (t : Q) (v : dval) : dval := match v with Num q => Num (if cmp_fun c q t then 1 else 0) | v => v end.
Definition convert (units : Q -> Q) (v : dval) : dval := match v with Num q => Num (units q) | v => v end.
Definition latitude_threshold (f : Q -> Q) (c : cmp) (units : Q -> Q) (latitudes : list Q) (data : rows) : result rows :=
  if existsb (existsb is_nan) data then Err ValueError else
  if negb (length data =? length latitudes)%nat then Err ValueError else
  Ok (map (fun tr : Q * list dval => map (fun v => truth c (fst tr) (convert units v)) (snd tr)) (combine (map f latitudes) data)).

(** lightning.py:166-191. *)
Definition latitude_to_threshold (midlatitude tropics latitude : Q) : Q :=
  if 0 <? latitude then rescale_pt 50 10 midlatitude tropics true latitude else rescale_pt (-50) (-10) midlatitude tropics true latitude.
(** lines 60-109: what is checked about the two cubes; times in seconds. *)
Record inputs := { has_cape : bool; has_precip : bool; cape_time : Z; precip_bounds : option (Z * Z); cape_frt : Z; precip_frt : Z; grids_match : bool }.
Definition check_inputs (x : inputs) : result unit :=
  if negb (has_cape x) then Err ValueError else if negb (has_precip x) then Err ValueError else
  match precip_bounds x with
  | None => Err TypeError
  | Some (lower, upper) =>
      if negb (cape_time x =? lower)%Z then Err ValueError else
      if negb ((upper - lower =? 3600) || (upper - lower =? 10800))%Z%bool then Err ValueError else
      if negb (cape_frt x =? precip_frt x)%Z then Err ValueError else
      if negb (grids_match x) then Err ValueError else Ok tt
  end.
(** line 142: the product, masked where a factor is. *)
Definition product (a b : dval) : dval := match a, b with Num x, Num y => Num (x * y) | Masked, _ | _, Masked => Masked | _, _ => NotANumber end.
(** lines 111-163, data only. [to_mm]: precipitation rates in mm per hour. *)
Definition lightning (x : inputs) (to_mm : Q -> Q) (latitudes : list Q) (cape precip : rows) : result rows :=
  let* _ := check_inputs x in
  let* a := latitude_threshold (latitude_to_threshold 350 500) GT (fun q => q) latitudes cape in
  let* b := latitude_threshold (latitude_to_threshold 1 4) GT to_mm latitudes precip in
  Ok (map (fun ab => map (fun uv => product (fst uv) (snd uv)) (combine (fst ab) (snd ab))) (combine a b)).
