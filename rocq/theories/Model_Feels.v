(** Model of improver/feels_like_temperature.py, at one point, in real numbers (float32 is not modelled). The saturation vapour pressure
    in air (psychrometric_calculations.py, calculate_svp_in_air) is an argument [svp] of temperature (K) and pressure (Pa). *)
From Coq Require Import Reals.
Local Open Scope R_scope.

(** lines 77-84 (_calculate_wind_chill): degrees Celsius and km/h. *)
Definition wind_chill (t kmh : R) : R :=
  let e := Rpower (Rmax kmh (4824 / 1000)) (16 / 100) in
  1312 / 100 + 6215 / 10000 * t - 1137 / 100 * e + 3965 / 10000 * t * e.
(** lines 122-128 (_calculate_apparent_temperature): degrees Celsius, m/s, fraction, Pa. *)
Definition apparent_temperature (svp : R -> R -> R) (t ms rh p : R) : R :=
  let avp := 1 / 1000 * svp (t + 27315 / 100) p * rh in - (27 / 10) + 104 / 100 * t + 2 * avp - 65 / 100 * ms.
(** lines 155-166 (_feels_like_temperature): assignments in turn. *)
Definition feels_like (t apparent chill : R) : R :=
  let v := 0 in
  let v := if Rlt_dec t 10 then chill else v in
  let alpha := (t - 10) / 10 in
  let v := if Rle_dec 10 t then if Rle_dec t 20 then alpha * apparent + (1 - alpha) * chill else v else v in
  if Rlt_dec 20 t then apparent else v.
(** lines 171-230 (calculate_feels_like_temperature): the units of the inputs are converted ([celsius] and back, [ms], [pa], [one]); km/h are
    3.6 times m/s. *)
Record units := { celsius : R -> R; from_celsius : R -> R; ms : R -> R; pa : R -> R; one : R -> R }.
Definition calculate (svp : R -> R -> R) (u : units) (temperature wind humidity pressure : R) : R :=
  let t := celsius u temperature in
  let w := ms u wind in
  from_celsius u (feels_like t (apparent_temperature svp t w (one u humidity) (pa u pressure)) (wind_chill t (36 / 10 * w))).
