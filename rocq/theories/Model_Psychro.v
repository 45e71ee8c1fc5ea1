(** Model of improver/generate_ancillaries/generate_svp_table.py and improver/psychrometric_calculations/psychrometric_calculations.py:28-342, cloud_condensation_level.py:116-138, at one point, over the real numbers.
    Temperatures in K, pressures in Pa. scipy's newton is an argument (the value it returns). Cubes and metadata are not modelled. *)
From Coq Require Import Reals Bool ZArith.
From Verif Require Import Base.
From Coq Require Import Lra.
Local Open Scope R_scope.

Definition log10 (x : R) : R := ln x / ln 10.
Definition pow10 (x : R) : R := exp (x * ln 10).
(** constants.py:43. *)
Definition triple : R := 27316 / 100.
(** generate_svp_table.py:79-123, in hPa: over water above the triple point, over ice at and below it. *)
Definition log_water (t : R) : R :=
  1079574 / 100000 * (1 - triple / t) - 5028 / 1000 * log10 (t / triple) + 150475 / 1000000000 * (1 - pow10 (- (82969 / 10000) * (t / triple - 1)))
  + 42873 / 100000000 * (pow10 (476955 / 100000 * (1 - triple / t)) - 1) + 78614 / 100000.
Definition log_ice (t : R) : R := - (909685 / 100000) * (triple / t - 1) - 356654 / 100000 * log10 (triple / t) + 87682 / 100000 * (1 - t / triple) + 78614 / 100000.
Definition goff_gratch (t : R) : R := pow10 (if Rlt_dec triple t then log_water t else log_ice t).
(** lines 134-150 with psychrometric_calculations.py:30-32, 49-52: entry [k] of the table, in Pa; the entries are 0 ... 1551 (arange from 183.15 by 0.1 below 338.3). *)
Definition t_min : R := 18315 / 100.
Definition t_max : R := 33825 / 100.
Definition t_inc : R := 1 / 10.
Definition entry (k : Z) : R := 100 * goff_gratch (t_min + IZR k * t_inc).
(** psychrometric_calculations.py:55-79. *)
Definition clip (lo hi x : R) : R := Rmin hi (Rmax lo x).
Definition position (t : R) : R := (clip t_min (t_max - t_inc) t - t_min) / t_inc.
Definition index (t : R) : Z := Int_part (position t).
Definition lookup (t : R) : R := let f := position t - IZR (index t) in (1 - f) * entry (index t) + f * entry (index t + 1).
(** lines 82-104. *)
Definition svp_in_air (t p : R) : R := let c := t - 27315 / 100 in lookup t * (1 + 1 / 100000000 * p * (45 / 10 + 6 / 10000 * c * c)).
(** lines 161-183; EARTH_REPSILON. *)
Definition repsilon : R := 62198 / 100000.
Definition saturated_humidity (t p : R) : R := let s := svp_in_air t p in repsilon * s / (Rmax s p - (1 - repsilon) * s).
(** lines 338-341. *)
Definition humidity_mixing_ratio (t p rh : R) : R := saturated_humidity t p * rh.
(** lines 107-158; R_DRY_AIR = 287, CP_DRY_AIR = 1005. *)
Definition dry_adiabatic_temperature (t p p' : R) : R := t * Rpower (p' / p) (287 / 1005).
Definition dry_adiabatic_pressure (t p t' : R) : R := p * Rpower (t' / t) (1005 / 287).
(** lines 186-223. *)
Definition latent_heat (t : R) : R := - (1) * 2340 * (t - 27315 / 100) + 2501000.
Definition latent_heat_release (q1 q2 t : R) : R := latent_heat t / 1005 * (q1 - q2).
(** lines 260-282: [found] is what newton returns for the humidity. *)
Definition adjust_for_latent_heat (found t q : R) : R * R := let t' := t + latent_heat_release q found t in if Rlt_dec t' t then (t, q) else (t', found).
(** cloud_condensation_level.py:116-138: pressure and temperature; [found] is what newton returns for the pressure. *)
Definition condensation_level (found t p : R) : R * R := (found, dry_adiabatic_temperature t p found).
