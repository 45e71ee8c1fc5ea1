(** Clear-sky solar radiation:
    [improver/generate_ancillaries/generate_derived_solar_fields.py].

    Real numbers; whole seconds for times. The horizontal grid is a list of
    points; its matching with the altitude and turbidity cubes is the argument
    [matches]. *)
From Coq Require Import Reals Bool ZArith List.
From Verif Require Import Base Model_Solar.
From Coq Require Import Lra.
Import ListNotations.
Local Open Scope R_scope.

(** improver/generate_ancillaries/generate_derived_solar_fields.py:197-235.
    [//] and [%] of Python round towards minus infinity, as here. *)
Definition irradiance_times (time hours spacing : Z) : result (list Z) :=
  if (spacing =? 0)%Z then Err ZeroDivision
  else if negb (hours * 60 mod spacing =? 0)%Z then Err ValueError
  else
    let start := (time - hours * 3600)%Z in
    let n := (hours * 3600 / (spacing * 60))%Z in
    Ok (map (fun k => start + Z.of_nat k * (spacing * 60))%Z
            (seq 0 (Z.to_nat (n + 1)))).

(** improver/generate_ancillaries/generate_derived_solar_fields.py:264-273 *)
Definition optical_air_mass (zenith : R) : R :=
  if Rle_dec 90 (Rabs zenith) then 0
  else 1 / (cos (radians zenith)
            + 50572 / 100000
              * Rpower (9607995 / 100000 - zenith) (- (16364 / 10000))).

(** improver/generate_ancillaries/generate_derived_solar_fields.py:318-320 *)
Definition extraterrestrial (d : Z) : R :=
  13677 / 10 * (1 + 33 / 1000 * cos (2 * PI * IZR d / 365)).

(** improver/generate_ancillaries/generate_derived_solar_fields.py:325-328 *)
Definition fh1 (alt : R) : R := exp (-1 * alt / 8000).
Definition fh2 (alt : R) : R := exp (-1 * alt / 1250).
Definition cg1 (alt : R) : R := 509 / 10000000 * alt + 868 / 1000.
Definition cg2 (alt : R) : R := 392 / 10000000 * alt + 387 / 10000.

(** improver/generate_ancillaries/generate_derived_solar_fields.py:317-347 *)
Definition irradiance (zenith : R) (d : Z) (alt turbidity : R) : R :=
  let cosz := Rmax (cos (radians zenith)) 0 in
  let ghi := cg1 alt * extraterrestrial d * cosz
    * exp (-1 * cg2 alt * optical_air_mass zenith
           * (fh1 alt + fh2 alt * (turbidity - 1))) in
  Rmin ghi (extraterrestrial d).

(** numpy's [trapz] with constant spacing, improver/generate_ancillaries/
    generate_derived_solar_fields.py:407-409 *)
Fixpoint trapz (dx : R) (l : list R) : R :=
  match l with
  | a :: ((b :: _) as r) => dx * (a + b) / 2 + trapz dx r
  | _ => 0
  end.

(** A grid point: latitude, longitude, altitude, turbidity. *)
Record point : Type := { p_lat : R; p_lon : R; p_alt : R; p_turb : R }.

(** improver/generate_ancillaries/generate_derived_solar_fields.py:391-403 *)
Definition irradiance_at (yday : Z -> Z) (p : point) (t : Z) : R :=
  irradiance (90 - elevation (p_lat p) (p_lon p) (yday t) (hour_of_day t))
             (yday t) (p_alt p) (p_turb p).

(** improver/generate_ancillaries/generate_derived_solar_fields.py:376-411; the
    checks are those of [calc_solar_elevation]. *)
Definition radiation_data (yday : Z -> Z) (pts : list point) (times : list Z)
  (spacing : Z) : result (list R) :=
  let* _ := mapM (fun t => calc_solar_elevation
      (map (fun p => (p_lat p, p_lon p)) pts) (yday t) (hour_of_day t) false) times in
  Ok (map (fun p => trapz (IZR (60 * spacing))
                      (map (irradiance_at yday p) times)) pts).

(** The cube made: data, time point and bounds, the vertical coordinate's name
    and the title. improver/generate_ancillaries/generate_derived_solar_fields.py:
    413-498 *)
Record field : Type := {
  f_data : list R;
  f_time : Z;
  f_bounds : Z * Z;
  f_at_sea_level : bool;   (* coordinate "altitude" if true, else "height" *)
  f_title : option string }.

(** numpy's [allclose(x, 0.0)]: tolerance 1e-8. improver/generate_ancillaries/
    generate_derived_solar_fields.py:545 *)
Definition close_to_zero (x : R) : bool :=
  if Rle_dec (Rabs x) (1 / 100000000) then true else false.

(** What is given for an optional input cube: values at the points of the grid
    and whether its spatial coordinates match the grid's. *)
Definition optional_cube : Type := option (bool * list R).

(** improver/generate_ancillaries/generate_derived_solar_fields.py:136-195 *)
Definition initialise (n : nat) (c : optional_cube) (default : R)
  : result (list R) :=
  match c with
  | None => Ok (repeat default n)
  | Some (matches, l) => if matches then Ok l else Err ValueError
  end.

(** improver/generate_ancillaries/generate_derived_solar_fields.py:500-571;
    [grid] is the list of latitudes and longitudes. *)
Definition process (yday : Z -> Z) (grid : list (R * R)) (time hours : Z)
  (altitude turbidity : optional_cube) (spacing : Z) (title : option string)
  : result field :=
  let* alts := initialise (length grid) altitude 0 in
  let* turbs := initialise (length grid) turbidity 3 in
  let pts := map (fun q => {| p_lat := fst (fst (fst q)); p_lon := snd (fst (fst q));
                              p_alt := snd (fst q); p_turb := snd q |})
                 (combine (combine grid alts) turbs) in
  let* times := irradiance_times time hours spacing in
  let* data := radiation_data yday pts times spacing in
  Ok {| f_data := data; f_time := time;
        f_bounds := ((time - hours * 3600)%Z, time);
        f_at_sea_level := forallb close_to_zero alts;
        f_title := title |}.
