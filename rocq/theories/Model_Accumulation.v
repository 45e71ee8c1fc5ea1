(** Model of improver/nowcasting/accumulation.py (Accumulation).
    Times and forecast periods are integers (seconds); data are exact rationals in m s-1, one entry per grid point,
    and outputs are in m (units conversion is not modelled). The plugin's attributes accumulation_period and
    forecast_periods are its state. *)
From Verif Require Import Base Model_Temporal.
Open Scope Z_scope.

Record rcube := { r_time : Z; r_fp : Z; r_data : list Q }.
Record astate := { a_period : option Z; a_fps : option (list Z) }.
(** Output: forecast period bounds, time bounds and data. *)
Record acube := { ac_fp : Z * Z; ac_time : Z * Z; ac_data : list Q }.

(** accumulation.py:70-88 [sort_cubes_by_time]. *)
Definition sort_cubes (cubes : list rcube) : list rcube := isort (fun a b => r_time a <=? r_time b) cubes.

(** np.diff *)
Fixpoint zdiff (l : list Z) : list Z :=
  match l with a :: ((b :: _) as r) => (b - a) :: zdiff r | _ => [] end.

(** accumulation.py:127-136: (time_interval,) = np.unique(np.diff(times)). *)
Definition unique_interval (times : list Z) : result Z :=
  match zdiff times with
  | [] => Err ValueError
  | d :: r => if forallb (Z.eqb d) r then Ok d else Err ValueError
  end.

(** accumulation.py:146-174: modf(period / interval). A zero interval gives inf (accepted) or nan (rejected). *)
Definition check_period (period ti : Z) : result unit :=
  if ti =? 0 then (if period =? 0 then Err ValueError else Ok tt)
  else if Z.quot period ti =? 0 then Err ValueError
  else if Z.rem period ti =? 0 then Ok tt else Err ValueError.

(** accumulation.py:90-197 [_check_inputs]: new attributes (also when a check fails part way), sorted cubes,
    time interval, period and forecast periods. *)
Definition period_of (s : astate) (cs : list rcube) : Z :=
  match a_period s with Some p => p | None => r_fp (last cs {| r_time := 0; r_fp := 0; r_data := [] |}) end.
Definition fps_of (s : astate) (cs : list rcube) (ti period : Z) : list Z :=
  filter (fun f => period <=? f) (match a_fps s with Some f => f | None => map r_fp (filter (fun c => ti <=? r_fp c) cs) end).
Definition acc_check_inputs (s : astate) (cubes : list rcube) : astate * result (list rcube * Z * Z * list Z) :=
  let cs := sort_cubes cubes in
  match unique_interval (map r_time cs) with
  | Err e => (s, Err e)
  | Ok ti =>
    let period := period_of s cs in
    match check_period period ti with
    | Err e => ({| a_period := Some period; a_fps := a_fps s |}, Err e)
    | Ok _ => let fps := fps_of s cs ti period in
              ({| a_period := Some period; a_fps := Some fps |}, Ok (cs, ti, period, fps))
    end
  end.

(** accumulation.py:199-229 [_get_cube_subsets]. *)
Definition subset (period fp : Z) (cs : list rcube) : list rcube :=
  filter (fun c => (fp - period <=? r_fp c) && (r_fp c <=? fp)) cs.

(** accumulation.py:231-264 [_calculate_accumulation]: the loop over consecutive pairs. *)
Fixpoint acc_loop (ti : Z) (l : list rcube) (acc : list Q) : list Q :=
  match l with
  | a :: ((b :: _) as r) => acc_loop ti r (zip2 Qplus acc (zip2 (fun x y => ((x + y) * inject_Z ti * (1#2))%Q) (r_data a) (r_data b)))
  | _ => acc
  end.

Definition zmin_l (x : Z) (l : list Z) := fold_left Z.min l x.
Definition zmax_l (x : Z) (l : list Z) := fold_left Z.max l x.

(** accumulation.py:266-294 [_set_metadata] and cube_manipulation.py:565-620 [expand_bounds] on unbounded inputs,
    accumulation.py:316-324: one output cube. An empty subset fails at cube_subset[0]; a subset of one cube leaves the
    accumulation as the scalar 0.0, whose shape the cube refuses. *)
Definition accumulate_at (cs : list rcube) (ti period fp : Z) : result acube :=
  match subset period fp cs with
  | [] => Err IndexError
  | [_] => Err ValueError
  | a :: r => Ok {| ac_fp := (zmin_l (r_fp a) (map r_fp r), zmax_l (r_fp a) (map r_fp r));
                    ac_time := (zmin_l (r_time a) (map r_time r), zmax_l (r_time a) (map r_time r));
                    ac_data := acc_loop ti (a :: r) (repeat 0%Q (length (r_data a))) |}
  end.

(** accumulation.py:296-326 [process]: new state and outputs. *)
Definition accumulation_process (s : astate) (cubes : list rcube) : astate * result (list acube) :=
  match acc_check_inputs s cubes with
  | (s', Err e) => (s', Err e)
  | (s', Ok (cs, ti, period, fps)) => (s', mapM (accumulate_at cs ti period) fps)
  end.
