(** Model of improver/nowcasting/pysteps_advection.py (PystepsExtrapolate). Rates are exact rationals with None for masked or NaN values.
    The extrapolation of pysteps (lines 253-259) is the argument [extrapolator]: the field, the displacements in grid squares per step and the number of steps give the fields.
    [mmh] is what one unit of the input is in mm/h; [thr] is 1/32 mm/h in the units of the input. Attributes are not modelled (Model_Attributes), nor units of times other than seconds. *)
From Verif Require Import Base Model_Nbhood Model_Nowcast Model_Probability.
Local Open Scope Q_scope.

Definition extrapolation : Type := grid (option Q) -> grid (option Q) -> grid (option Q) -> Z -> list (grid (option Q)).
(** lines 35-46: [max // interval]. *)
Definition num_timesteps (interval max : Z) : result Z := if (interval =? 0)%Z then Err ZeroDivision else Ok (max / interval)%Z.
(** lines 62-106, at one point; [spacing] is the grid length in metres. *)
Definition displacement (interval : Z) (spacing : Q) (velocity : option Q) : option Q := option_map (fun u => u * inject_Z interval * 60 / spacing) velocity.
(** lines 108-121. *)
Definition reformatted (c : ncast) : ncast :=
  {| f_data := f_data c; f_time := f_time c; f_frt := Some (match f_frt c with Some t => t | None => f_time c end); f_period := Some (match f_period c with Some p => p | None => 0%Z end) |}.
(** lines 134-161: the analysis, then each field at its time. *)
Fixpoint stamped (a : ncast) (interval : Z) (i : Z) (l : list (grid (option Q))) : list ncast :=
  match l with
  | [] => []
  | g :: r => {| f_data := g; f_time := (f_time a + (i + 1) * (interval * 60))%Z; f_frt := f_frt a; f_period := Some ((i + 1) * interval * 60)%Z |} :: stamped a interval (i + 1) r
  end.
Definition scaled (k : Q) (c : ncast) : ncast := {| f_data := fun y x => option_map (fun v => v * k) (f_data c y x); f_time := f_time c; f_frt := f_frt c; f_period := f_period c |}.
(** lines 198-264; [name] that of the input, [equal_area] the check of line 232. Without an enhancement cube, lines 56-58 ask None for its coordinates. *)
Definition process (extrapolator : extrapolation) (interval max : Z) (name : string) (equal_area : bool) (mmh thr spacing : Q) (u v : grid (option Q)) (oe : option (list (Z * grid Q))) (c : ncast) : result (list ncast) :=
  let* n := num_timesteps interval max in
  if negb (contains "rate" name) then Err ValueError else
  if negb equal_area then Err ValueError else
  match oe with
  | None => Err AttributeError
  | Some oe =>
    let* a := apply_oe OESubtract thr oe c in
    let a := scaled mmh a in
    let fs := extrapolator (f_data a) (fun y x => displacement interval spacing (u y x)) (fun y x => displacement interval spacing (v y x)) n in
    let a := reformatted a in
    mapM (fun f => apply_oe OEAdd thr oe (scaled (/ mmh) f)) (a :: stamped a interval 0 fs)
  end.
