(** Model of improver/cli/nowcast_accumulate.py: a nowcast by the minute (Model_Pysteps), accumulated by improver/nowcasting/accumulation.py on cubes with missing values, and the merging of the results.
    Model_Accumulation is the same plugin on data without missing values, as a state machine; here the plugin is made afresh by the command.
    [mps] is what one unit of the rates is in m/s, [out] what one metre is in the units asked for. Names, units, attributes and the merging along time of two or more results are not modelled (Model_Manip, Props_Merge). *)
From Verif Require Import Base Model_Nbhood Model_Nowcast Model_Pysteps.
From Verif Require Model_Accumulation.
Local Open Scope Q_scope.

(** accumulation.py:70-88: numpy.argsort of the times (those of a nowcast are distinct). *)
Definition by_time (l : list ncast) : list ncast := isort (fun a b => (f_time a <=? f_time b)%Z) l.
(** the forecast period of a cube of the nowcast; there always is one (pysteps_advection.py:108-121, 134-161). *)
Definition fp (c : ncast) : Z := match f_period c with Some p => p | None => 0%Z end.
(** accumulation.py:199-229. *)
Definition subset (period L : Z) (l : list ncast) : list ncast := filter (fun c => ((L - period <=? fp c) && (fp c <=? L))%Z%bool) l.
(** accumulation.py:231-264: at a point a missing value of either field makes the sum missing. *)
Definition oadd (a b : option Q) : option Q := match a, b with Some x, Some y => Some (x + y) | _, _ => None end.
Definition step (ti : Z) (a b : ncast) (y x : Z) : option Q := option_map (fun s => s * inject_Z ti * (1 # 2)) (oadd (f_data a y x) (f_data b y x)).
Fixpoint acc_loop (ti : Z) (l : list ncast) (acc : grid (option Q)) : grid (option Q) :=
  match l with
  | a :: ((b :: _) as r) => acc_loop ti r (fun y x => oadd (acc y x) (step ti a b y x))
  | _ => acc
  end.
(** accumulation.py:266-324, cube_manipulation.py:565-620 on unbounded inputs: bounds of the forecast period and of time. *)
Record total := { t_fp : Z * Z; t_time : Z * Z; t_data : grid (option Q) }.
Definition accumulate_at (l : list ncast) (ti period : Z) (out : Q) (L : Z) : result total :=
  match subset period L l with
  | [] => Err IndexError
  | [_] => Err ValueError
  | a :: r => Ok {| t_fp := (Model_Accumulation.zmin_l (fp a) (map fp r), Model_Accumulation.zmax_l (fp a) (map fp r));
                    t_time := (Model_Accumulation.zmin_l (f_time a) (map f_time r), Model_Accumulation.zmax_l (f_time a) (map f_time r));
                    t_data := fun y x => option_map (fun v => v * out) (acc_loop ti (a :: r) (fun _ _ => Some 0) y x) |}
  end.
(** accumulation.py:90-197, 296-326, with the period and the forecast periods given. *)
Definition accumulate (period : Z) (fps : list Z) (mps out : Q) (cubes : list ncast) : result (list total) :=
  let l := by_time (map (scaled mps) cubes) in
  let* ti := Model_Accumulation.unique_interval (map f_time l) in
  let* _ := Model_Accumulation.check_period period ti in
  mapM (accumulate_at l ti period out) (filter (fun L => (period <=? L)%Z) fps).
(** cli/nowcast_accumulate.py:117: numpy.arange(interval, max + 1, interval), in minutes. *)
Definition ends (interval max : Z) : result (list Z) :=
  if (interval =? 0)%Z then Err ZeroDivision else
  Ok (map (fun i => interval + Z.of_nat i * interval)%Z (seq 0 (Z.to_nat (- ((- (max + 1 - interval)) / interval))))).
(** cube_manipulation.py:251-283: one cube is given back; equalise_attributes looks at the first of none. *)
Definition merged (l : list total) : result (list total) := match l with [] => Err IndexError | _ => Ok l end.
(** cli/nowcast_accumulate.py:104-127; ACCUMULATION_FIDELITY (13) is 1. *)
Definition command (e : extrapolation) (interval max period : Z) (name : string) (equal_area : bool) (mmh thr spacing mps out : Q) (u v : grid (option Q)) (oe : option (list (Z * grid Q))) (c : ncast) : result (list total) :=
  let* rates := process e 1 max name equal_area mmh thr spacing u v oe c in
  let* L := ends interval max in
  let* totals := accumulate (period * 60) (map (fun m => m * 60)%Z L) mps out rates in
  merged totals.
