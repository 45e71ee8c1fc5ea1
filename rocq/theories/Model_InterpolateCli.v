(** Model of improver/cli/temporal_interpolate.py (lines 82-99), on top of Model_Temporal.
    [moment] is datetime.strptime on the format of cycle times (None: ValueError).  The merge of the result along time (line 99) is the list of slices in order of time: they are at different times and otherwise alike. *)
From Verif Require Import Base Model_Temporal.

Record options := { o_interval : option Z; o_at : option (list string); o_method : string; o_acc : bool; o_max : bool; o_min : bool }.
(** temporal_interpolation.py lines 150-156. *)
Definition method_of (s : string) : result method :=
  if String.eqb s "linear" then Ok Linear else if String.eqb s "solar" then Ok Solar else if String.eqb s "daynight" then Ok DayNight else Err ValueError.
(** lines 88-89. *)
Definition read_times (moment : string -> option Z) (l : option (list string)) : result (option (list Z)) :=
  match l with
  | None => Ok None
  | Some l => let* t := mapM (fun s => match moment s with Some z => Ok z | None => Err ValueError end) l in Ok (Some t)
  end.
(** lines 91-98; all refusals of the constructor are ValueErrors, so that their order does not show. *)
Definition configured (moment : string -> option Z) (o : options) : result config :=
  let* ts := read_times moment (o_at o) in
  let* m := method_of (o_method o) in
  init {| c_interval := o_interval o; c_times := ts; c_method := m; c_acc := o_acc o; c_max := o_max o; c_min := o_min o |}.
Definition ordered (a b : tcube) : tcube * tcube := if (t_time b <? t_time a)%Z then (b, a) else (a, b).
Definition temporal_interpolate (moment : string -> option Z) (sphi : Z -> list Q) (night : Z -> list bool) (o : options) (start_cube end_cube : tcube) : result (list tslice) :=
  let (c0, c1) := ordered start_cube end_cube in
  let* c := configured moment o in
  process sphi night c c0 c1.
