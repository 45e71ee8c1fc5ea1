(** Model of improver/orographic_enhancement.py (OrographicEnhancement) over the real numbers. All fields are on the grid of the topography (h rows, w columns,
    axes ascending, spacings [dx] and [dy] in metres), in K, 1, Pa, m/s and m: sorting, rotation of winds, regridding and units are not modelled.
    The saturation vapour pressure (Pa) of temperature and pressure is an argument. *)
From Coq Require Import Reals List Bool ZArith.
From Verif Require Import Base Model_Nbhood Model_Wind Model_Flow.
From Coq Require Import Lra.
Import ListNotations.
Local Open Scope R_scope.

Definition below (x y : R) : bool := if Rlt_dec x y then true else false.
Record setting := { s_h : Z; s_w : Z; s_dx : R; s_dy : R; s_topo : grid R; s_temp : grid R; s_rh : grid R; s_press : grid R; s_u : grid R; s_v : grid R }.

(** ** Gradients: lines 104-134 *)
(** uniform_filter1d of size 3, reflecting at the edges, along y (smoothing before the x gradient) and along x. *)
Definition smooth_y (h : Z) (g : grid R) : grid R := fun i j => (g (reflected h (i - 1)) j + g i j + g (reflected h (i + 1)) j) / 3.
Definition smooth_x (w : Z) (g : grid R) : grid R := fun i j => (g i (reflected w (j - 1)) + g i j + g i (reflected w (j + 1))) / 3.
(** GradientBetweenAdjacentGridSquares(regrid=True), utilities/spatial.py:685-712: gradients at the middles of equal spacings, linearly interpolated to the points and extrapolated to the ends. At least three points. *)
Definition slope (n : Z) (d : R) (f : Z -> R) (i : Z) : R :=
  let g k := (f (k + 1)%Z - f k) / d in
  if (i =? 0)%Z then g 0%Z - (g 1%Z - g 0%Z) / 2 else if (i =? n - 1)%Z then g (n - 2)%Z + (g (n - 2)%Z - g (n - 3)%Z) / 2 else (g (i - 1)%Z + g i) / 2.
Definition gradx (s : setting) : grid R := fun i j => slope (s_w s) (s_dx s) (fun k => smooth_y (s_h s) (s_topo s) i k) j.
Definition grady (s : setting) : grid R := fun i j => slope (s_h s) (s_dy s) (fun k => smooth_x (s_w s) (s_topo s) k j) i.
(** lines 229-232. *)
Definition uplift (s : setting) : grid R := fun i j => gradx s i j * s_u s i j + grady s i j * s_v s i j.

(** ** Point values: lines 234-282 *)
(** NeighbourhoodProcessing("square", one cell): the mean of the points of the 3 x 3 square that are in the domain. *)
Definition square (h w i j : Z) : list (Z * Z) := filter (fun p => inside h w (fst p) (snd p)) (list_prod [i - 1; i; i + 1]%Z [j - 1; j; j + 1]%Z).
Definition mean_height (s : setting) (i j : Z) : R := let l := square (s_h s) (s_w s) i j in rsum (map (fun p => s_topo s (fst p) (snd p)) l) / INR (length l).
Definition masked (s : setting) (i j : Z) : bool := below (mean_height s i j) 20 || below (s_rh s i j) (8 / 10) || below (Rabs (uplift s i j)) (5 / 10000).
Definition point_value (svp : R -> R -> R) (s : setting) : grid R := fun i j =>
  let e := if masked s i j then 0 else 3600 / (4616 / 10) * (s_rh s i j * svp (s_temp s i j) (s_press s i j) * uplift s i j / s_temp s i j) in
  if below 0 e then e else 0.

(** ** Upstream: lines 284-462 *)
(** numpy.around: half to even; astype(int) of a number that is not negative. *)
Definition round_even (x : R) : Z := let n := Int_part (x + 1 / 2) in if Req_EM_T (IZR n) (x + 1 / 2) then (if Z.odd n then n - 1 else n)%Z else n.
Definition clipped (n x : Z) : Z := if (x <? 0)%Z then 0%Z else if (n - 1 <? x)%Z then (n - 1)%Z else x.
(** numpy.isclose(speed, 0). *)
Definition calm (speed : R) : bool := if Rle_dec speed (1 / 100000000) then true else false.
Definition speed (u v : R) : R := sqrt (u * u + v * v).
Definition sin_dir (u v : R) : R := if calm (speed u v) then 0 else u / speed u v.
Definition cos_dir (u v : R) : R := if calm (speed u v) then 0 else v / speed u v.
Definition max_sin_cos (u v : R) : R := if below (Rabs (cos_dir u v)) (Rabs (sin_dir u v)) then Rabs (sin_dir u v) else Rabs (cos_dir u v).
(** lines 301-312: the number of source points of a point and the distance of each in grid squares; [km] is the spacing of the columns in km (576-578). *)
Definition reach (km u v : R) : nat := Z.to_nat (Int_part (15 / km * max_sin_cos u v)).
Definition distance (u v : R) (k : nat) : R := INR k / max_sin_cos u v.
(** lines 342-357. *)
Definition source (h w : Z) (u v : R) (i j : Z) (k : nat) : Z * Z :=
  (clipped h (round_even (IZR i - distance u v k * cos_dir u v)), clipped w (round_even (IZR j - distance u v k * sin_dir u v))).
(** lines 401-412. *)
Definition source_weight (km u v : R) (k : nat) : R := let sd := speed u v * 102 / (1000 * km) in let var := sd * sd in if below 0 var then exp (- (1 / 2) * (distance u v k * distance u v k) / var) else 0.
(** lines 413-416, 457-462. None: not a number (no weights). *)
Definition upstream (h w : Z) (km : R) (u v : R) (value : grid R) (i j : Z) : option R :=
  let ks := seq 0 (reach km u v) in
  let total := rsum (map (source_weight km u v) ks) in
  let sum := rsum (map (fun k => value (fst (source h w u v i j k)) (snd (source h w u v i j k)) * source_weight km u v k) ks) in
  if calm (speed u v) then Some sum else if Req_EM_T total 0 then None else Some (23265 / 100000 * (sum / total)).
(** lines 564-585: mm/h to m/s. *)
Definition enhancement (svp : R -> R -> R) (s : setting) (i j : Z) : option R :=
  option_map (fun e => e / 3600000) (upstream (s_h s) (s_w s) (s_dx s / 1000) (s_u s i j) (s_v s i j) (point_value svp s) i j).
