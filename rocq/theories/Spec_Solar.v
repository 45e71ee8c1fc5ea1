(** What the sun's position means, without the formulas of the code.

    The earth is a sphere; a place and the point under the sun are unit vectors
    given by latitude and longitude in degrees. The sun is above the horizon of
    a place when the two vectors have a positive scalar product (the sine of its
    elevation). *)
From Coq Require Import Reals.
Local Open Scope R_scope.

Definition rad (x : R) : R := x * (PI / 180).

Definition vector (lat lon : R) : R * R * R :=
  (cos (rad lat) * cos (rad lon), cos (rad lat) * sin (rad lon), sin (rad lat)).

Definition dot (a b : R * R * R) : R :=
  let '(x, y, z) := a in let '(u, v, w) := b in x * u + y * v + z * w.

(** Sine of the elevation at (lat, lon) of a sun that is overhead at
    (sun_lat, sun_lon). *)
Definition sun_height (lat lon sun_lat sun_lon : R) : R :=
  dot (vector lat lon) (vector sun_lat sun_lon).

(** The longitude over which the sun stands: 180 degrees at 0 UTC, moving west
    15 degrees an hour, but for the equation of time (in radians). *)
Definition sun_longitude (eqt utc : R) : R := 180 - 15 * utc - eqt * (180 / PI).
