(** Position of the sun and the day-night mask:
    [improver/utilities/solar.py].

    Numbers are real (the code uses float64); days are integers counted from
    zero; times are whole seconds, and the day of the year of a time is given by
    the argument [yday] (the calendar is not modelled). *)
From Coq Require Import Reals Bool ZArith List.
From Verif Require Import Base.
From Coq Require Import Lra.
Import ListNotations.
Local Open Scope R_scope.

(** numpy's [radians] and [degrees]. *)
Definition radians (x : R) : R := x * PI / 180.
Definition degrees (x : R) : R := x * 180 / PI.

(** improver/utilities/solar.py:80, 115, 198, 239 *)
Definition day_ok (d : Z) : bool := ((0 <=? d) && (d <=? 365))%Z.

(** improver/utilities/solar.py:118, 201, 242 *)
Definition hour_ok (h : R) : bool :=
  negb (if Rlt_dec h 0 then true else if Rlt_dec 24 h then true else false).

(** improver/utilities/solar.py:195 *)
Definition lat_ok (l : R) : bool :=
  negb (if Rlt_dec l (-90) then true else if Rlt_dec 90 l then true else false).

(** improver/utilities/solar.py:83 *)
Definition declination (d : Z) : R :=
  - (235 / 10) * cos (radians (9856 / 10000 * IZR d + 93 / 10)).

(** improver/utilities/solar.py:63-84 *)
Definition calc_solar_declination (d : Z) : result R :=
  if day_ok d then Ok (declination d) else Err ValueError.

(** improver/utilities/solar.py:121-128 *)
Definition equation_of_time (d : Z) : R :=
  let t := 2 * PI * IZR d / 365 in
  75 / 1000000 + 1868 / 1000000 * cos t - 32077 / 1000000 * sin t
  - 14615 / 1000000 * cos (2 * t) - 40849 / 1000000 * sin (2 * t).

(** Python's [x % 24] for a float. *)
Definition mod24 (x : R) : R := x - 24 * IZR (Int_part (x / 24)).

(** improver/utilities/solar.py:131-133 *)
Definition solar_time (lon : R) (d : Z) (h : R) : R :=
  h + 24 * lon / 360 + equation_of_time d * 12 / PI.

(** improver/utilities/solar.py:87-138 *)
Definition calc_solar_time (lon : R) (d : Z) (h : R) (normalise : bool)
  : result R :=
  if negb (day_ok d) then Err ValueError
  else if negb (hour_ok h) then Err ValueError
  else Ok (if normalise then mod24 (solar_time lon d h) else solar_time lon d h).

(** improver/utilities/solar.py:162 *)
Definition hour_angle (lon : R) (d : Z) (h : R) : R :=
  (solar_time lon d h - 12) * 15.

(** improver/utilities/solar.py:141-164 *)
Definition calc_solar_hour_angle (lon : R) (d : Z) (h : R) : result R :=
  bind (calc_solar_time lon d h false) (fun t => Ok ((t - 12) * 15)).

(** improver/utilities/solar.py:205-213 *)
Definition sin_elevation (lat lon : R) (d : Z) (h : R) : R :=
  sin (radians (declination d)) * sin (radians lat)
  + cos (radians (declination d)) * cos (radians lat)
    * cos (radians (hour_angle lon d h)).

(** improver/utilities/solar.py:215 *)
Definition elevation (lat lon : R) (d : Z) (h : R) : R :=
  degrees (asin (sin_elevation lat lon d h)).

(** improver/utilities/solar.py:167-217, over the points of an array (a list of
    latitude and longitude pairs). *)
Definition calc_solar_elevation (pts : list (R * R)) (d : Z) (h : R)
  (return_sine : bool) : result (list R) :=
  if existsb (fun p => negb (lat_ok (fst p))) pts then Err ValueError
  else if negb (day_ok d) then Err ValueError
  else if negb (hour_ok h) then Err ValueError
  else Ok (map (fun p => if return_sine then sin_elevation (fst p) (snd p) d h
                         else elevation (fst p) (snd p) d h) pts).

(** improver/utilities/solar.py:245-250 *)
Definition terminator (lon : R) (d : Z) (h : R) : R :=
  degrees (atan (- cos (radians (hour_angle lon d h))
                 / tan (radians (declination d)))).

(** improver/utilities/solar.py:220-251 *)
Definition daynight_terminator (lons : list R) (d : Z) (h : R)
  : result (list R) :=
  if negb (day_ok d) then Err ValueError
  else if negb (hour_ok h) then Err ValueError
  else Ok (map (fun l => terminator l d h) lons).

(** improver/utilities/solar.py:36-60: minutes are those of the time to which
    its own seconds have been added; 24 if that is in the next day. [t] is in
    seconds since some midnight. *)
Definition hour_of_day (t : Z) : R :=
  let r := (t + t mod 60)%Z in
  if (r / 86400 =? t / 86400)%Z
  then IZR ((r mod 86400) / 3600 * 60 + (r mod 3600) / 60) / 60
  else 24.

(** What [process] reads of a cube: its times, with bounds or without, and the
    horizontal positions. A coordinate has bounds for all its points or none. *)
Inductive places : Type :=
| Regular (lats lons : list R)          (* latitude-longitude grid *)
| Sites (pts : list (R * R))            (* spot data: (latitude, longitude) *)
| Projected (pts : list (list (R * R))). (* other grid, already transformed *)

Record cube : Type := {
  c_points : list Z;
  c_bounds : option (list (Z * Z));
  c_places : places }.

(** improver/utilities/solar.py:352-354 *)
Definition lit (d : Z) (lat term : R) : bool :=
  if Rlt_dec 0 (declination d)
  then (if Rle_dec term lat then true else false)
  else (if Rlt_dec lat term then true else false).

(** The shape of a mask: rows of cells; spot data have one row. *)
Definition mask : Type := list (list bool).

(** improver/utilities/solar.py:341-343, 355 on data with one row per latitude:
    the comparison is of two vectors, numpy broadcasting one of length one, and
    the resulting indices select whole rows. *)
Definition rows_lit (d : Z) (lats terms : list R) (w : nat) : result mask :=
  let n := Nat.max (length lats) (length terms) in
  if (length lats =? length terms)%nat || (length lats =? 1)%nat
     || (length terms =? 1)%nat then
    let at_ l i := nth (if (length l =? 1)%nat then 0%nat else i) l 0 in
    let day := map (fun i => lit d (at_ lats i) (at_ terms i)) (seq 0 n) in
    if existsb (fun i => nth i day false && (length lats <=? i)%nat) (seq 0 n)
    then Err IndexError
    else Ok (map (fun i => repeat (nth i day false) w) (seq 0 (length lats)))
  else Err ValueError.

(** improver/utilities/solar.py:321-356; [irregular] is the attribute of the
    plugin. *)
Definition lat_lon_mask (irregular : bool) (p : places) (d : Z) (h : R)
  : result mask :=
  match p with
  | Sites pts =>
    let* terms := daynight_terminator (map snd pts) d h in
    Ok [map (fun q => lit d (fst q) (snd q)) (combine (map fst pts) terms)]
  | Regular lats lons =>
    let* terms := daynight_terminator lons d h in
    if irregular then rows_lit d lats terms (length lons)
    else Ok (map (fun la => map (lit d la) terms) lats)
  | Projected _ => Err ValueError (* not reached: see [one_mask] *)
  end.

(** improver/utilities/solar.py:403-412 *)
Definition one_mask (irregular : bool) (p : places) (d : Z) (h : R)
  : result mask :=
  match p with
  | Projected rows =>
    let* els := calc_solar_elevation (concat rows) d h false in
    Ok (map (map (fun q => if Rlt_dec 0 (elevation (fst q) (snd q) d h)
                           then true else false)) rows)
  | _ => lat_lon_mask irregular p d h
  end.

(** improver/utilities/solar.py:396-400: the moment at which the mask of the
    time with the given point is made. With bounds it is the middle of the
    bounds of the FIRST time of the whole cube. *)
Definition moment (c : cube) (point : Z) : result Z :=
  match c_bounds c with
  | Some (b :: _) => Ok (fst b + (snd b - fst b) / 2)%Z
  | Some [] => Err IndexError
  | None => Ok point
  end.

(** improver/utilities/solar.py:292-294: spot data make the plugin irregular,
    and nothing makes it regular again. *)
Definition irregular_after (irregular : bool) (p : places) : bool :=
  match p with Sites _ => true | _ => irregular end.

(** improver/utilities/solar.py:358-414: the new state of the plugin and a mask
    for each time, in order (a cube merged from them). *)
Definition process (yday : Z -> Z) (irregular : bool) (c : cube)
  : bool * result (list (Z * mask)) :=
  let irr := irregular_after irregular (c_places c) in
  (irr,
   mapM (fun t =>
     let* m := moment c t in
     let* k := one_mask irr (c_places c) (yday m) (hour_of_day m) in
     Ok (t, k)) (c_points c)).
