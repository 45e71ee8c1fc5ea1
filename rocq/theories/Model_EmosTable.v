(** Model of improver/cli/estimate_emos_coefficients_from_table.py, on Model_Frames (the cubes made of tables).
    A row of the forecast table has, besides the columns of Model_Frames, the time of its cycle (blend_time); the estimation itself is an argument; whether the table has percentiles or realizations is an argument.  An additional predictor is the list of its sites with its values there; one without any of the sites is refused here (iris gives None for it, which cannot be part of a list of cubes). *)
From Verif Require Import Base Model_Frames.
Local Open Scope Q_scope.

Record table_row := { tb_blend : Z; tb_row : forecast_row }.
(** lines 131-140: as many days as the training length, up to the day before the cycle and the whole days of the period before that. *)
Definition cycles (cycle period : Z) (n : nat) : list Z :=
  let last := (cycle - day - day * (period / day))%Z in map (fun k => (last - day * (Z.of_nat n - 1 - Z.of_nat k))%Z) (seq 0 n).
Definition about_diagnostic (g : string) (d : option string) : bool := match d with Some h => String.eqb g h | None => false end.
(** lines 141-142. *)
Definition read_forecasts (g : string) (cs : list Z) (l : list table_row) : list forecast_row :=
  map tb_row (filter (fun r => about_diagnostic g (st_diag (r_statics (fr_row (tb_row r)))) && existsb (Z.eqb (tb_blend r)) cs) l).
(** lines 145-146. *)
Definition read_truths (g : string) (l : list truth_row) : list truth_row := filter (fun r => about_diagnostic g (tr_diag r)) l.
(** lines 168-172: the sites of the predictor that the truths have, in the order of the predictor. *)
Definition at_sites (sites : list string) (predictor : list (string * Q)) : result (list (string * Q)) :=
  match filter (fun e => existsb (String.eqb (fst e)) sites) predictor with [] => Err ValueError | l => Ok l end.
(** lines 15-183. *)
Definition command {R} (estimate : cube -> cube -> list (list (string * Q)) -> result R) (rp : representation) (g : string) (cycle period : Z) (n : nat) (percentiles : list Q) (experiment : option string)
  (forecasts : list table_row) (truths : list truth_row) (additional : list (list (string * Q))) : result (option R) :=
  let fs := read_forecasts g (cycles cycle period n) forecasts in
  match read_truths g truths with
  | [] => Err FileNotFound
  | ts =>
    let* (f, t) := to_cubes rp cycle period n percentiles experiment fs ts in
    match f, t with
    | Some f, Some t => let* aps := mapM (at_sites (map fst (c_sites t))) additional in let* r := estimate f t aps in Ok (Some r)
    | _, _ => Ok None
    end
  end.
