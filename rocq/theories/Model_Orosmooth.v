(** Model of gradients between adjacent grid squares (improver/utilities/spatial.py:163-712) and of
    improver/generate_ancillaries/generate_orographic_smoothing_coefficients.py. Data are exact and without masks; the coordinates have
    been put into the order y, x (lines 296-299, 327-328 put the original order back); regridding of gradients, units other than metres
    and degrees, and metadata are not modelled. *)
From Verif Require Import Base Model_Nbhood Model_Spatial.
Local Open Scope Q_scope.

(** Height, width, values. *)
Record field := { f_h : Z; f_w : Z; f_at : grid Q }.
(** spatial.py:409-470: coordinates that are distances (in metres); or degrees on a sphere, the length of a degree being a function
    of the latitude for longitudes and constant for latitudes; anything else is refused. [circular] is the attribute of the x axis. *)
Inductive system := Distances | Sphere (degree_x : Q -> Q) (degree_y : Q) | Unsupported.
Record surface := { s_system : system; s_circular : bool; s_x : list Q; s_y : list Q; s_z : grid Q }.
Definition width (s : surface) : Z := Z.of_nat (length (s_x s)).
Definition height (s : surface) : Z := Z.of_nat (length (s_y s)).
Definition point (l : list Q) (k : Z) : Q := nth (Z.to_nat k) l 0.
(** lines 489-635 (DifferenceBetweenAdjacentGridSquares): numpy.diff; on a circular x axis the difference of the first from the last column is
    appended, which needs geographic coordinates. A coordinate without points cannot be made. *)
Definition difference_x (s : surface) : result field :=
  let at_x := fun i j => if (j =? width s - 1)%Z then s_z s i 0%Z - s_z s i (width s - 1)%Z else s_z s i (j + 1)%Z - s_z s i j in
  if s_circular s then match s_system s with Sphere _ _ => Ok {| f_h := height s; f_w := width s; f_at := at_x |} | _ => Err NotImplementedError end
  else if (width s <=? 1)%Z then Err ValueError else Ok {| f_h := height s; f_w := (width s - 1)%Z; f_at := fun i j => s_z s i (j + 1)%Z - s_z s i j |}.
Definition difference_y (s : surface) : result field :=
  if (height s <=? 1)%Z then Err ValueError else Ok {| f_h := (height s - 1)%Z; f_w := width s; f_at := fun i j => s_z s (i + 1)%Z j - s_z s i j |}.
(** lines 287-331 and 357-396: the distances; on a plane the mean absolute spacing of calculate_grid_spacing. *)
Definition distances (s : surface) : result (grid Q * grid Q) :=
  match s_system s with
  | Unsupported => Err ValueError
  | Distances =>
      if s_circular s then Err NotImplementedError else
      let* dx := grid_spacing (s_x s) in
      let* dy := grid_spacing (s_y s) in
      match dx, dy with Some a, Some b => Ok ((fun _ _ => a), (fun _ _ => b)) | _, _ => Err ValueError end
  | Sphere degree_x degree_y =>
      Ok ((fun i j => degree_x (point (s_y s) i) * ((if (j =? width s - 1)%Z then 360 + point (s_x s) 0 else point (s_x s) (j + 1)) - point (s_x s) j)),
          (fun i _ => degree_y * (point (s_y s) (i + 1) - point (s_y s) i)))
  end.
(** lines 685-712 (GradientBetweenAdjacentGridSquares), without regridding. *)
Definition quotient (f : field) (d : grid Q) : field := {| f_h := f_h f; f_w := f_w f; f_at := fun i j => f_at f i j / d i j |}.
Definition gradients (s : surface) : result (field * field) :=
  let* fx := difference_x s in
  let* fy := difference_y s in
  let* (dx, dy) := distances s in
  Ok (quotient fx dx, quotient fy dy).

(** generate_orographic_smoothing_coefficients.py:93-115. *)
Record options := { o_flat : Q; o_steep : Q; o_boundary : bool; o_invert : bool }.
Definition outside (q : Q) : bool := ((q <? 0) || ((1 # 2) <? q))%bool.
Definition init (o : options) : result options := if (outside (o_flat o) || outside (o_steep o))%bool then Err ValueError else Ok o.
(** line 165. [power] is numpy's power of a non-negative number. *)
Definition unnormalised (power : Q -> Q) (f : field) : field := {| f_h := f_h f; f_w := f_w f; f_at := fun i j => power (Qabs (f_at f i j)) |}.
(** lines 132-149: one scale for both fields; 0/0 is NaN (None). *)
Definition values (f : field) : list Q := map (fun p => Qabs (f_at f (fst p) (snd p))) (indices (f_h f) (f_w f)).
Definition smallest (l : list Q) : Q := match l with [] => 0 | x :: r => qminl x r end.
Definition largest (l : list Q) : Q := match l with [] => 0 | x :: r => qmaxl x r end.
Notation coefficients := (grid (option Q)).
Definition scale1 (o : options) (lo hi v : Q) : option Q := if hi - lo =? 0 then None else Some ((Qabs v - lo) / (hi - lo) * (o_steep o - o_flat o) + o_flat o).
Definition scale (o : options) (fx fy : field) : coefficients * coefficients :=
  let lo := Qmin (smallest (values fx)) (smallest (values fy)) in
  let hi := Qmax (largest (values fx)) (largest (values fy)) in
  ((fun i j => scale1 o lo hi (f_at fx i j)), (fun i j => scale1 o lo hi (f_at fy i j))).
(** lines 239-250. Booleans are added by "or". A boolean index must have the shape of the array. *)
Record mask := { m_bool : bool; m_at : grid Z }.
Definition added (m : mask) (a b : Z) : Z := if m_bool m then (if (0 <? a + b)%Z then 1 else 0)%Z else (a + b)%Z.
Definition zeroed (o : options) (m : mask) (a b : Z) : bool :=
  if o_boundary o then negb (b - a =? 0)%Z else if o_invert o then (added m a b <=? 1)%Z else (1 <=? added m a b)%Z.
Definition zero_masked (o : options) (s : surface) (m : mask) (c : coefficients * coefficients) : result (coefficients * coefficients) :=
  if s_circular s then Err IndexError else
  Ok ((fun i j => if zeroed o m (m_at m i j) (m_at m i (j + 1)%Z) then Some 0 else fst c i j),
      (fun i j => if zeroed o m (m_at m i j) (m_at m (i + 1)%Z j) then Some 0 else snd c i j)).
(** lines 277-330 (process), for a cube of two dimensions; [m] has the grid of the orography ([same_grid]) or there is none. *)
Definition smoothing_coefficients (o : options) (power : Q -> Q) (s : surface) (m : option mask) (same_grid : bool) : result (coefficients * coefficients) :=
  let* o := init o in
  if (match m with Some _ => negb same_grid | None => false end) then Err ValueError else
  let* (gx, gy) := gradients s in
  let c := scale o (unnormalised power gx) (unnormalised power gy) in
  match m with None => Ok c | Some m => zero_masked o s m c end.
