(** Model of improver/nowcasting/forecasting.py (AdvectField, CreateExtrapolationForecast) and nowcasting/utilities.py (ExtendRadarMask, FillRadarHoles, ApplyOrographicEnhancement), and of utilities/temporal.py extract_nearest_time_point.
    Fields are two-dimensional; a masked or NaN value is None; times are in seconds; rates are in the units of the cube. *)
From Verif Require Import Base Model_Nbhood Model_Lapse.
Local Open Scope Q_scope.

(** ** Advection *)
(** forecasting.py:188-190 [point_in_bounds]. *)
Definition point_in_bounds (x y : Q) (nx ny : Z) : bool := ((0 <=? x) && (x <? inject_Z nx) && (0 <=? y) && (y <? inject_Z ny))%bool.
Definition index_in_bounds (x y nx ny : Z) : bool := ((0 <=? x)%Z && (x <? nx)%Z && (0 <=? y)%Z && (y <? ny)%Z)%bool.
(** numpy astype(int): towards zero. *)
Definition truncate (x : Q) : Z := Z.quot (Qnum x) (Zpos (Qden x)).
(** forecasting.py:93-138 [_increment_output_array] at one output point; NaN stays NaN. *)
Definition increment (h w : Z) (data : grid (option Q)) (cond : bool) (xsrc ysrc : Z) (xw yw : Q) (acc : option Q) : option Q :=
  if (index_in_bounds xsrc ysrc w h && cond)%bool then
    match acc, data ysrc xsrc with Some a, Some d => Some (a + d * xw * yw) | _, _ => None end
  else acc.
(** forecasting.py:140-225 [_advect_field] at the output point (y, x), with the velocities of that point in grid squares per second. *)
Definition advect_point (h w : Z) (data : grid (option Q)) (vx vy : Q) (timestep : Z) (y x : Z) : option Q :=
  if (timestep =? 0)%Z then data y x
  else
    let xf := - vx * inject_Z timestep + inject_Z x in
    let yf := - vy * inject_Z timestep + inject_Z y in
    let cond := point_in_bounds xf yf w h in
    let xl := truncate xf in let yl := truncate yf in
    let xu := xf - inject_Z xl in let yu := yf - inject_Z yl in
    let acc := if cond then Some 0 else None in
    let acc := increment h w data cond xl yl (1 - xu) (1 - yu) acc in
    let acc := increment h w data cond xl (yl + 1) (1 - xu) yu acc in
    let acc := increment h w data cond (xl + 1) yl xu (1 - yu) acc in
    increment h w data cond (xl + 1) (yl + 1) xu yu acc.
(** A field with its validity time, forecast reference time and forecast period. *)
Record ncast := { f_data : grid (option Q); f_time : Z; f_frt : option Z; f_period : option Z }.
(** forecasting.py:227-278, 314-364 [process]: velocities in m/s over the grid spacing in m; the reference time of the result is the validity time of the input. *)
Definition advect (h w : Z) (vel_x vel_y : grid Q) (dx dy : Q) (c : ncast) (timestep : Z) : ncast :=
  {| f_data := fun y x => advect_point h w (f_data c) (vel_x y x / dx) (vel_y y x / dy) timestep y x;
     f_time := f_time c + timestep; f_frt := Some (f_time c); f_period := Some timestep |}.

(** ** Orographic enhancement *)
Inductive oe_op := OEAdd | OESubtract.
(** nowcasting/utilities.py:250-295 [_apply_orographic_enhancement] and 297-337 [_apply_minimum_precip_rate] at one point; [thr] is 1/32 mm/h in the units of the cube. *)
Definition oe_point (op : oe_op) (thr : Q) (p : option Q) (e : Q) : option Q :=
  match p with
  | None => None
  | Some p =>
      let e := if p <? thr then 0 else e in
      match op with
      | OEAdd => Some (p + e)
      | OESubtract => let r := p - e in Some (if ((thr <=? p) && (r <=? thr))%bool then thr else r)
      end
  end.
(** utilities/temporal.py:194-248 [extract_nearest_time_point] for a time coordinate without bounds: iris' nearest_neighbour_index is the first of the closest points. *)
Fixpoint nearest_entry {A} (t : Z) (best : Z * A) (l : list (Z * A)) : Z * A :=
  match l with [] => best | e :: r => if (Z.abs (fst e - t) <? Z.abs (fst best - t))%Z then nearest_entry t e r else nearest_entry t best r end.
Definition nearest_time {A} (allowed t : Z) (l : list (Z * A)) : result A :=
  match l with
  | [] => Err ValueError
  | e :: r => let n := nearest_entry t e r in if (allowed <? Z.abs (t - fst n))%Z then Err ValueError else Ok (snd n)
  end.
(** nowcasting/utilities.py:339-368 [ApplyOrographicEnhancement.process] for one cube; the allowed difference is 1800 s (216). *)
Definition apply_oe (op : oe_op) (thr : Q) (oe : list (Z * grid Q)) (c : ncast) : result ncast :=
  bind (nearest_time 1800 (f_time c) oe) (fun e =>
  Ok {| f_data := fun y x => oe_point op thr (f_data c y x) (e y x); f_time := f_time c; f_frt := f_frt c; f_period := f_period c |}).
(** forecasting.py:373-427 [CreateExtrapolationForecast.__init__]: [rain] says that the name contains precipitation_rate or rainfall_rate. *)
Definition extrapolation_init (rain : bool) (thr : Q) (oe : option (list (Z * grid Q))) (c : ncast) : result ncast :=
  match oe with
  | Some oe => apply_oe OESubtract thr oe c
  | None => if rain then Err ValueError else Ok c
  end.
(** forecasting.py:442-471 [extrapolate]. *)
Definition extrapolate (h w : Z) vel_x vel_y dx dy (thr : Q) (oe : option (list (Z * grid Q))) (input : ncast) (minutes : Z) : result ncast :=
  let f := advect h w vel_x vel_y dx dy input (60 * minutes) in
  match oe with Some oe => apply_oe OEAdd thr oe f | None => Ok f end.
(** forecasting.py:473-490 [process], for a positive interval: numpy.arange(0, max_lead_time + 1, interval). *)
Definition lead_times (interval max : Z) : list Z :=
  map (fun i => (Z.of_nat i * interval)%Z) (seq 0 (Z.to_nat ((max + 1 + interval - 1) / interval))).
Definition nowcast (h w : Z) vel_x vel_y dx dy (rain : bool) (thr : Q) (oe : option (list (Z * grid Q))) (c : ncast) (interval max : Z) : result (list ncast) :=
  bind (extrapolation_init rain thr oe c) (fun input => mapM (extrapolate h w vel_x vel_y dx dy thr oe input) (lead_times interval max)).

(** ** Radar masks *)
(** nowcasting/utilities.py:34-78 [ExtendRadarMask.process] at one point: rad.data.data is the value under the mask. *)
Definition extend_mask (value : Q) (masked : bool) (coverage : Z) : Q * bool := (value, negb (existsb (Z.eqb coverage) [1; 2]%Z)).
(** nowcasting/utilities.py:93-145: a masked pixel with fewer than 0.3 * 81 masked pixels in the 9 by 9 window around it (off the grid counts as masked). *)
Definition off_or_masked (h w : Z) (data : grid (option Q)) (p : Z * Z) : bool :=
  if inside h w (fst p) (snd p) then match data (fst p) (snd p) with None => true | Some _ => false end else true.
Definition max_masked : Q := 81 * (3 # 10).
Definition is_speckle (h w : Z) (data : grid (option Q)) (y x : Z) : bool :=
  (off_or_masked h w data (y, x) && (Qlen (filter (off_or_masked h w data) (window 4 y x)) <? max_masked))%bool.
(** 146-162: the valid values of the 5 by 5 window; numpy.mean of logarithms of which one is NaN is NaN. [geo] is 10 to the power of the mean of the logarithms. *)
Definition valid_around (h w : Z) (data : grid (option Q)) (y x : Z) : list Q :=
  flat_map (fun p => if inside h w (fst p) (snd p) then match data (fst p) (snd p) with Some v => [v] | None => [] end else []) (window 2 y x).
Definition min_rr : Q := 1 # 1000.
Definition fill_value (geo : list Q -> Q) (vs : list Q) : Q :=
  match vs with [] => 0 | _ => if forallb (fun v => min_rr <? v) vs then geo vs else 0 end.
(** 119-186 [FillRadarHoles.process] at one point of a field in mm/h: all windows are taken before any value is set. *)
Definition fill_holes (geo : list Q -> Q) (h w : Z) (data : grid (option Q)) (y x : Z) : option Q :=
  if is_speckle h w data y x then Some (fill_value geo (valid_around h w data y x)) else data y x.
