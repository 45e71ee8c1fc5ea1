(** Model of improver/utilities/cube_manipulation.py lines 23-97 (collapsed, collapse_realizations) and of improver/cli/blend_cycles_and_realizations.py (lines 41-47), on top of Model_WeightBlend.
    Values are exact (the cast to float32 is not modelled); None is masked.  A scalar realization coordinate is one row. *)
From Verif Require Import Base Model_Blending Model_WeightBlend.
Local Open Scope Q_scope.

(** The rows along realization of a cube of [n] grid points; None: the cube has no realization coordinate. *)
Definition member_rows := option (list (list (option Q))).
Definition there (l : list (option Q)) : list Q := flat_map (fun v => match v with Some x => [x] | None => [] end) l.

(** numpy.ma's aggregators of one point (lines 72-79). *)
Definition total (l : list Q) : Q := qsum l.
Definition mean_of (l : list Q) : Q := qsum l / Qn (length l).
Definition median_of (l : list Q) : Q :=
  let s := qsort l in let n := length l in
  if Nat.even n then (nth (n / 2 - 1) s 0 + nth (n / 2) s 0) / 2 else nth (n / 2) s 0.
Definition variance_of (l : list Q) : Q := qsum (map (fun x => (x - mean_of l) * (x - mean_of l)) l) / Qn (length l - 1).
Inductive aggregator := SUM | MEAN | MEDIAN | STD_DEV | MIN | MAX.
(** The standard deviation is given by its square. *)
Definition aggregated (a : aggregator) (l : list Q) : option Q :=
  match l with
  | [] => None
  | x :: r => match a with
              | SUM => Some (total l)
              | MEAN => Some (mean_of l)
              | MEDIAN => Some (median_of l)
              | MIN => Some (qminl x r)
              | MAX => Some (qmaxl x r)
              | STD_DEV => match r with [] => None | _ => Some (variance_of l) end
              end
  end.
Definition aggregator_of (name : string) : option aggregator :=
  if String.eqb name "sum" then Some SUM else if String.eqb name "mean" then Some MEAN else if String.eqb name "median" then Some MEDIAN
  else if String.eqb name "std_dev" then Some STD_DEV else if String.eqb name "min" then Some MIN else if String.eqb name "max" then Some MAX else None.
(** lines 59-97: every grid point over its members.  (Where the standard deviation of a single realization is set to NaN it is masked, lines 88-95.) *)
Definition at_point (rows : list (list (option Q))) (g : nat) : list (option Q) := map (fun r => nth g r None) rows.
Definition collapse_realizations (method : string) (n : nat) (rows : member_rows) : result (list (option Q)) :=
  match aggregator_of method with
  | None => Err ValueError
  | Some a => match rows with
              | None => Err CoordinateNotFoundError
              | Some rs => Ok (map (fun g => aggregated a (there (at_point rs g))) (seq 0 n))
              end
  end.

(** An input of the command: one forecast reference time. *)
Record cycle := { cy_reference : Q; cy_period : Q; cy_time : Z; cy_rows : member_rows }.
Definition collapsed_cycle (n : nat) (c : cycle) : result (input (list (option Q))) :=
  let* d := collapse_realizations "mean" n (cy_rows c) in
  Ok {| in_model := None; in_point := cy_reference c; in_lead := cy_period c; in_time := cy_time c; in_data := d |}.
(** blend_cycles_and_realizations.py lines 41-47. *)
Definition blend_cycles_and_realizations (n : nat) (cubes : list cycle) : result (list (option Q)) :=
  let* l := mapM (collapsed_cycle n) cubes in
  weight_and_blend (blend_means n) (Linear (1 # 2) (1 # 2)) false false false l.
