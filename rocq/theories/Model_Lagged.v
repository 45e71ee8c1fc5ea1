(** Model of improver/utilities/time_lagging.py (GenerateTimeLaggedEnsemble) and of relabel_to_period and integrate_time in improver/utilities/temporal.py. *)
From Verif Require Import Base Model_Manip Model_Attributes Model_Times Model_Standardise.
Local Open Scope Q_scope.

(** ** time_lagging.py lines 20-63: a cube is the list of its realizations with their fields; all cubes are valid at one time (the cycles are made equal by rebadge of Model_Times).
    iris' merge puts the slices in the order of their realizations; a single cube is returned as it is (MergeCubes, cube_manipulation.py lines 251-256). *)
Section fields.
Context {A : Type}.
Notation ensemble := (list (Z * A)).
Fixpoint number (k : Z) (l : ensemble) : ensemble := match l with [] => [] | e :: r => (k, snd e) :: number (k + 1) r end.
Fixpoint renumber (first : Z) (cubes : list ensemble) : list ensemble := match cubes with [] => [] | c :: r => number first c :: renumber (first + Z.of_nat (length c)) r end.
Fixpoint put (e : Z * A) (l : ensemble) : ensemble := match l with [] => [e] | f :: r => if (fst e <=? fst f)%Z then e :: l else f :: put e r end.
Definition merge (l : ensemble) : ensemble := fold_right put [] l.
Definition lagged (cubes : list ensemble) : result ensemble :=
  let cubes' := if once (map fst (concat cubes)) then cubes else renumber 0 cubes in
  match cubes' with [] => Err ValueError | [c] => Ok c | _ => Ok (merge (concat cubes')) end.
End fields.

(** ** temporal.py lines 251-283 (relabel_to_period): [period] in hours; the bounds are those of a single point, of which iris refuses to make any other number. *)
Definition with_bounds (b : Q * Q) (x : coord) : coord := {| co_name := co_name x; co_points := co_points x; co_bounds := Some [b]; co_dtype := co_dtype x; co_bdtype := match time_coords (co_name x) with Some (t, _) => t | None => co_bdtype x end; co_units := co_units x |}.
Definition relabel_one (hours : Z) (x : coord) : result coord := match co_points x with [p] => Ok (with_bounds (p - inject_Z hours * 3600, p) x) | _ => Err ValueError end.
Definition relabel_to_period (period : option Z) (forecast_period time : coord) : result (coord * coord) :=
  match period with
  | None => Err ValueError
  | Some h => if (h <? 1)%Z then Err ValueError else let* f := relabel_one h forecast_period in let* t := relabel_one h time in Ok (f, t)
  end.

(** ** lines 286-349 (integrate_time): a cube is the list of its times, each with its bounds (if it has them) and its values; [u] is the unit of time; merging puts the times in order. *)
Record at_time := { it_time : Q; it_bounds : option (Q * Q); it_values : list Q }.
Fixpoint put_time (e : at_time) (l : list at_time) : list at_time := match l with [] => [e] | f :: r => if it_time e <=? it_time f then e :: l else f :: put_time e r end.
Definition integrate_one (u : units) (s : at_time) : result at_time :=
  match it_bounds s with
  | None => Err ValueError
  | Some (lo, hi) => Ok {| it_time := it_time s; it_bounds := it_bounds s; it_values := map (fun v => v * ((hi - lo) * un_seconds u)) (it_values s) |}
  end.
Definition sum_over_time : cell_method := {| cm_method := "sum"; cm_coords := ["time"%string]; cm_intervals := []; cm_comments := [] |}.
Definition integrate_time (u : units) (slices : list at_time) (methods : list cell_method) : result (list at_time * list cell_method) :=
  let* l := mapM (integrate_one u) slices in
  Ok (fold_right put_time [] l, sum_over_time :: filter (fun m => negb (existsb (String.eqb "time") (cm_coords m))) methods).
