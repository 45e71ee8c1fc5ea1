(** What the cubes made of two tables should hold; only the shape of tables and cubes comes from the model. *)
From Verif Require Import Base Model_Frames.
Local Open Scope Q_scope.

Section spec.
Variables (experiment : option string) (period : Z) (percentiles : list Q) (forecasts : list forecast_row) (truths : list truth_row).
Definition close (x p : Q) : bool := Qle_bool (Qabs (x - p)) ((1 # 100000000) + (1 # 100000) * Qabs p).
(** The forecast is of the experiment (if one is named), the period and the percentiles (if any are named) asked for. *)
Definition used (r : forecast_row) : bool :=
  match experiment with Some e => String.eqb (fr_experiment r) e | None => true end && (fr_period r =? period)%Z && match percentiles with [] => true | _ => existsb (close (r_rep (fr_row r))) percentiles end.
(** The forecast in the last row about the site, time and percentile or realization; None if there is none. *)
Definition forecast_for (s : string) (t : Z) (p : Q) : option Q :=
  match find (fun r => used r && (String.eqb s (r_wmo (fr_row r)) && (t =? r_time (fr_row r))%Z && Qeq_bool p (r_rep (fr_row r)))) (rev forecasts) with Some r => r_value (fr_row r) | None => None end.
(** The truth in the last row about the site and time. *)
Definition truth_for (s : string) (t : Z) : option Q := match find (fun r => String.eqb s (tr_wmo r) && (t =? tr_time r)%Z) (rev truths) with Some r => tr_value r | None => None end.
(** Sites of both tables. *)
Definition shared (s : string) : bool := existsb (fun r => used r && String.eqb s (r_wmo (fr_row r))) forecasts && existsb (fun r => String.eqb s (tr_wmo r)) truths.
(** A time for which both tables have something about sites of both. *)
Definition paired (t : Z) : bool := existsb (fun r => used r && shared (r_wmo (fr_row r)) && (t =? r_time (fr_row r))%Z) forecasts && existsb (fun r => shared (tr_wmo r) && (t =? tr_time r)%Z) truths.
(** Sites of both tables with a forecast for such a time. *)
Definition kept (s : string) : Prop := shared s = true /\ exists r, In r forecasts /\ used r = true /\ r_wmo (fr_row r) = s /\ paired (r_time (fr_row r)) = true.
(** The percentiles or realizations of such forecasts. *)
Definition represented (p : Q) : Prop := exists r, In r forecasts /\ used r = true /\ shared (r_wmo (fr_row r)) = true /\ paired (r_time (fr_row r)) = true /\ r_rep (fr_row r) == p.
(** Both tables are about one diagnostic. *)
Definition about (g : string) : Prop := Forall (fun r => st_diag (r_statics (fr_row r)) = Some g) forecasts /\ Forall (fun r => tr_diag r = Some g) truths.
End spec.
(** A list in order, each once. *)
Definition ordered_names (l : list string) : Prop := StronglySorted (fun a b => String.compare a b = Lt) l.
