(** Model of improver/calibration/dataframe_utilities.py: tables of historic forecasts and truths become a forecast cube and a truth cube.
    A table is the list of its rows. Neither table has a station_id column, so that sites are identified by their wmo_id; the truth table has no units column; the columns that identify a row (time, percentile or realization, wmo_id) are always given, the others may be missing (None). *)
From Verif Require Import Base.
From Verif Require Model_Percentiles.
Local Open Scope Q_scope.

(** The columns that should be the same in all rows of a site. *)
Record statics := { st_lat : option Q; st_lon : option Q; st_alt : option Q; st_diag : option string; st_period : option Z; st_height : option Q; st_name : option string; st_units : option string }.
(** A row of either table; truths have rep 0. *)
Record row := { r_wmo : string; r_time : Z; r_rep : Q; r_value : option Q; r_statics : statics }.
Record forecast_row := { fr_experiment : string; fr_period : Z; fr_row : row }.
Record truth_row := { tr_wmo : string; tr_time : Z; tr_value : option Q; tr_diag : option string; tr_lat : option Q; tr_lon : option Q; tr_alt : option Q }.
Inductive representation := Percentiles | Realizations.

(** ** lines 280-322 (_training_dates_for_calibration): seconds. *)
Definition day : Z := 86400.
Definition training_dates (cycle period : Z) (n : nat) : list Z :=
  let last := (cycle + period - day - day * (period / day))%Z in
  map (fun k => (last - day * (Z.of_nat n - 1 - Z.of_nat k))%Z) (seq 0 n).

(** ** pandas *)
Fixpoint unique {A} (eqb : A -> A -> bool) (l : list A) : list A := match l with [] => [] | x :: r => x :: filter (fun y => negb (eqb x y)) (unique eqb r) end.
(** drop_duplicates with keep="last". *)
Fixpoint keep_last {A} (eqb : A -> A -> bool) (l : list A) : list A := match l with [] => [] | x :: r => if existsb (eqb x) r then keep_last eqb r else x :: keep_last eqb r end.
(** Missing texts come last. *)
Definition text_cmp (a b : option string) : comparison := match a, b with Some a, Some b => String.compare a b | Some _, None => Lt | None, Some _ => Gt | None, None => Eq end.
Definition then_cmp (c d : comparison) : comparison := match c with Eq => d | _ => c end.
Definition row_cmp (a b : row) : comparison :=
  then_cmp (text_cmp (st_diag (r_statics a)) (st_diag (r_statics b))) (then_cmp (r_time a ?= r_time b)%Z (then_cmp (r_rep a ?= r_rep b) (String.compare (r_wmo a) (r_wmo b)))).
Definition row_leb (a b : row) : bool := match row_cmp a b with Gt => false | _ => true end.
Definition same_row (a b : row) : bool := match row_cmp a b with Eq => true | _ => false end.
(** lines 325-337 (_drop_duplicates): forecasts by diagnostic, forecast_period (one only), time, percentile or realization, wmo_id; truths by diagnostic, time, wmo_id. *)
Definition drop_duplicates (l : list row) : list row := isort row_leb (keep_last same_row l).

(** ** lines 134-153 (_quantile_check). *)
Fixpoint all_close (a b : list Q) : bool := match a, b with [], [] => true | x :: a, y :: b => Model_Percentiles.isclose x y && all_close a b | _, _ => false end.
Definition quantile_check (l : list row) : result unit :=
  let u := unique Qeq_bool (map r_rep l) in
  let* e := Model_Percentiles.choose_set_of_percentiles (length u) Model_Percentiles.Quantile in
  if all_close e u then Ok tt else Err ValueError.

(** ** lines 156-200 (_fill_missing_entries) *)
Definition at_key (s : string) (t : Z) (p : Q) (r : row) : bool := String.eqb s (r_wmo r) && (t =? r_time r)%Z && Qeq_bool p (r_rep r).
Definition clash (a b : row) : bool := at_key (r_wmo a) (r_time a) (r_rep a) b.
Fixpoint repeated (l : list row) : bool := match l with [] => false | x :: r => existsb (clash x) r || repeated r end.
Definition nothing : statics := {| st_lat := None; st_lon := None; st_alt := None; st_diag := None; st_period := None; st_height := None; st_name := None; st_units := None |}.
(** lines 179-185: a row for every combination. *)
Definition completed (l : list row) : list row :=
  flat_map (fun s => flat_map (fun t => map (fun p => match find (at_key s t p) l with
                                                       | Some r => {| r_wmo := s; r_time := t; r_rep := p; r_value := r_value r; r_statics := r_statics r |}
                                                       | None => {| r_wmo := s; r_time := t; r_rep := p; r_value := None; r_statics := nothing |}
                                                       end) (unique Qeq_bool (map r_rep l))) (unique Z.eqb (map r_time l))) (unique String.eqb (map r_wmo l)).
Definition orelse {A} (a b : option A) : option A := match a with Some _ => a | None => b end.
Definition over (a b : statics) : statics :=
  {| st_lat := orelse (st_lat a) (st_lat b); st_lon := orelse (st_lon a) (st_lon b); st_alt := orelse (st_alt a) (st_alt b); st_diag := orelse (st_diag a) (st_diag b);
     st_period := orelse (st_period a) (st_period b); st_height := orelse (st_height a) (st_height b); st_name := orelse (st_name a) (st_name b); st_units := orelse (st_units a) (st_units b) |}.
Definition with_statics (r : row) (v : statics) : row := {| r_wmo := r_wmo r; r_time := r_time r; r_rep := r_rep r; r_value := r_value r; r_statics := v |}.
Definition latest (s : string) (seen : list row) : statics := match find (fun r => String.eqb s (r_wmo r)) seen with Some r => r_statics r | None => nothing end.
(** lines 188-191: forwards within each site, then backwards over the whole table (the second fillna is not grouped). *)
Fixpoint forward_fill (seen l : list row) : list row := match l with [] => [] | r :: rest => let r' := with_statics r (over (r_statics r) (latest (r_wmo r) seen)) in r' :: forward_fill (r' :: seen) rest end.
Fixpoint backward_fill (l : list row) : list row := match l with [] => [] | r :: rest => let t := backward_fill rest in match t with [] => r | n :: _ => with_statics r (over (r_statics r) (r_statics n)) end :: t end.
(** Duplicates are refused by reindex. blend_time and forecast_reference_time become time - forecast_period. *)
Definition fill_missing (l : list row) : result (list row) := if repeated l then Err ValueError else Ok (backward_fill (forward_fill [] (completed l))).

(** ** lines 203-235 (_ensure_consistent_static_cols) *)
Definition oq_eqb (a b : option Q) : bool := match a, b with Some a, Some b => Qeq_bool a b | None, None => true | _, _ => false end.
Definition of_site (s : string) (l : list row) : list row := filter (fun r => String.eqb s (r_wmo r)) l.
Definition present {A} (l : list (option A)) : list A := flat_map (fun o => match o with Some a => [a] | None => [] end) l.
(** line 221: the number of values of each site, and whether these numbers differ. *)
Definition counts (col : statics -> option Q) (l : list row) : list nat := map (fun s => length (unique Qeq_bool (present (map (fun r => col (r_statics r)) (of_site s l))))) (unique String.eqb (map r_wmo l)).
Definition counts_differ (col : statics -> option Q) (l : list row) : bool := (1 <? length (unique Nat.eqb (counts col l)))%nat.
Definition newest (col : statics -> option Q) (s : string) (l : list row) : option Q := last (unique oq_eqb (map (fun r => col (r_statics r)) (of_site s l))) None.
Definition consistent (l : list row) : list row :=
  if counts_differ st_alt l || counts_differ st_lat l || counts_differ st_lon l
  then map (fun r => let v := r_statics r in
              with_statics r {| st_lat := newest st_lat (r_wmo r) l; st_lon := newest st_lon (r_wmo r) l; st_alt := newest st_alt (r_wmo r) l; st_diag := st_diag v;
                                st_period := st_period v; st_height := st_height v; st_name := st_name v; st_units := st_units v |}) l
  else l.

(** ** lines 371-572 (_prepare_dataframes) *)
Definition of_truth (t : truth_row) : row :=
  {| r_wmo := tr_wmo t; r_time := tr_time t; r_rep := 0; r_value := tr_value t;
     r_statics := {| st_lat := tr_lat t; st_lon := tr_lon t; st_alt := tr_alt t; st_diag := tr_diag t; st_period := None; st_height := None; st_name := None; st_units := None |} |}.
(** lines 434-457. *)
Definition chosen (rp : representation) (experiment : option string) (period : Z) (percentiles : list Q) (l : list forecast_row) : result (list row) :=
  let l := match experiment with Some e => filter (fun r => String.eqb (fr_experiment r) e) l | None => l end in
  let l := filter (fun r => (fr_period r =? period)%Z) l in
  if (1 <? length (unique String.eqb (map fr_experiment l)))%nat then Err ValueError else
  let l := map fr_row l in
  let* l := match percentiles, rp with
            | [], _ => Ok l
            | _, Percentiles => Ok (filter (fun r => existsb (Model_Percentiles.isclose (r_rep r)) percentiles) l)
            | _, Realizations => Err KeyError
            end in
  let* _ := match rp with Percentiles => quantile_check l | Realizations => Ok tt end in
  Ok l.
Definition has_site (l : list row) (s : string) : bool := existsb (fun r => String.eqb s (r_wmo r)) l.
Definition has_time (l : list row) (t : Z) : bool := existsb (fun r => (t =? r_time r)%Z) l.
(** lines 486-498: common sites, then common times. *)
Definition matched (f t : list row) : list row * list row :=
  let common r := has_site f (r_wmo r) && has_site t (r_wmo r) in
  let f := filter common f in let t' := filter common t in
  let f := filter (fun r => has_time t' (r_time r)) f in
  (f, filter (fun r => has_time f (r_time r)) t').
(** lines 546-571: what a forecast row says of its site and time, without repeats, and the truth there. *)
Definition statics_eqb (a b : statics) : bool :=
  oq_eqb (st_lat a) (st_lat b) && oq_eqb (st_lon a) (st_lon b) && oq_eqb (st_alt a) (st_alt b) && match text_cmp (st_diag a) (st_diag b) with Eq => true | _ => false end
  && match st_period a, st_period b with Some p, Some q => (p =? q)%Z | None, None => true | _, _ => false end && oq_eqb (st_height a) (st_height b)
  && match text_cmp (st_name a) (st_name b) with Eq => true | _ => false end && match text_cmp (st_units a) (st_units b) with Eq => true | _ => false end.
Definition subset_of (r : row) : row := {| r_wmo := r_wmo r; r_time := r_time r; r_rep := 0; r_value := None; r_statics := r_statics r |}.
Definition subset_eqb (a b : row) : bool := String.eqb (r_wmo a) (r_wmo b) && (r_time a =? r_time b)%Z && statics_eqb (r_statics a) (r_statics b).
Definition merge_right (t f : list row) : list row :=
  flat_map (fun s => match filter (fun r => same_row r s) t with
                     | [] => [s]
                     | m => map (fun r => {| r_wmo := r_wmo s; r_time := r_time s; r_rep := 0; r_value := r_value r; r_statics := r_statics s |}) m
                     end) (unique subset_eqb (map subset_of f)).
Definition prepare (rp : representation) (experiment : option string) (period : Z) (percentiles : list Q) (forecasts : list forecast_row) (truths : list truth_row) : result (list row * list row) :=
  let* f := chosen rp experiment period percentiles forecasts in
  let m := matched (drop_duplicates f) (drop_duplicates (map of_truth truths)) in
  let* f := fill_missing (fst m) in
  let f := consistent f in
  let* t := fill_missing (snd m) in
  let f := isort row_leb f in
  let t := isort row_leb t in
  Ok (f, merge_right t f).

(** ** lines 575-758: to cubes *)
Definition place : Type := option Q * option Q * option Q.
Definition place_of (r : row) : place := (st_lat (r_statics r), st_lon (r_statics r), st_alt (r_statics r)).
Record cube := { c_sites : list (string * place); c_fields : list (Z * option (Z * Z) * list (Q * list (option Q))) }.
Definition one_value {A} (eqb : A -> A -> bool) (l : list A) : bool := (length (unique eqb l) <=? 1)%nat.
Definition text_eqb (a b : option string) : bool := match text_cmp a b with Eq => true | _ => false end.
Definition oz_eqb (a b : option Z) : bool := match a, b with Some a, Some b => (a =? b)%Z | None, None => true | _, _ => false end.
(** lines 611-614 and 723. *)
Definition checked (truth : bool) (l : list row) : bool :=
  one_value text_eqb (map (fun r => st_diag (r_statics r)) l) &&
  (truth || one_value oz_eqb (map (fun r => st_period (r_statics r)) l) && one_value oq_eqb (map (fun r => st_height (r_statics r)) l)
            && one_value text_eqb (map (fun r => st_name (r_statics r)) l) && one_value text_eqb (map (fun r => st_units (r_statics r)) l)).
(** lines 616-622: the time bounds of a period ending at the date. *)
Definition bounds_at (date : Z) (l : list row) : option (Z * Z) := match l with [] => None | r :: _ => option_map (fun p => (date - p, date)%Z) (st_period (r_statics r)) end.
(** A spot cube (build_spotdata_cube): its sites, name and units, and values. *)
Record spot := { sp_sites : list (string * place); sp_name : option string; sp_units : option string; sp_values : list (option Q) }.
Definition spot_of (l : list row) : spot :=
  {| sp_sites := map (fun r => (r_wmo r, place_of r)) l; sp_name := match l with r :: _ => st_name (r_statics r) | [] => None end; sp_units := match l with r :: _ => st_units (r_statics r) | [] => None end;
     sp_values := map r_value l |}.
(** lines 649-686: one spot cube for each percentile or realization, in order. *)
Definition spots (l : list row) : list (Q * spot) := map (fun p => (p, spot_of (filter (fun r => Qeq_bool p (r_rep r)) l))) (qsort (unique Qeq_bool (map r_rep l))).
(** lines 600-626 and 712-732. Each date with rows. *)
Definition slices (truth : bool) (dates : list Z) (l : list row) : result (list (Z * option (Z * Z) * list (Q * spot))) :=
  mapM (fun d => let rows := filter (fun r => (r_time r =? d)%Z) l in if checked truth rows then Ok (d, bounds_at d rows, spots rows) else Err ValueError)
       (filter (has_time l) dates).
Definition place_eqb (a b : place) : bool := oq_eqb (fst (fst a)) (fst (fst b)) && oq_eqb (snd (fst a)) (snd (fst b)) && oq_eqb (snd a) (snd b).
Fixpoint sites_eqb (a b : list (string * place)) : bool := match a, b with [], [] => true | x :: a, y :: b => String.eqb (fst x) (fst y) && place_eqb (snd x) (snd y) && sites_eqb a b | _, _ => false end.
Definition mergeable (a b : spot) : bool := sites_eqb (sp_sites a) (sp_sites b) && text_eqb (sp_name a) (sp_name b) && text_eqb (sp_units a) (sp_units b).
Fixpoint reps_eqb (a b : list Q) : bool := match a, b with [], [] => true | x :: a, y :: b => Qeq_bool x y && reps_eqb a b | _, _ => false end.
(** merge_cube: one name, units and list of sites, and every percentile or realization at every date. *)
Definition merge (l : list (Z * option (Z * Z) * list (Q * spot))) : result (option cube) :=
  match l, flat_map (fun d => map snd (snd d)) l with
  | [], _ => Ok None
  | d :: _, s :: rest => if forallb (mergeable s) rest && forallb (fun e => reps_eqb (map fst (snd d)) (map fst (snd e))) l
                         then Ok (Some {| c_sites := sp_sites s; c_fields := map (fun e => (fst e, map (fun p => (fst p, sp_values (snd p))) (snd e))) l |})
                         else Err MergeError
  | _, [] => Err MergeError
  end.
(** lines 692-693: percentiles become realizations, numbered from 0. *)
Definition rebadged (rp : representation) (c : cube) : result cube :=
  match rp, c_fields c with
  | Percentiles, f :: _ =>
    let* n := Model_Percentiles.rebadge_as_realizations (map fst (snd f)) false None in
    Ok {| c_sites := c_sites c; c_fields := map (fun f => (fst f, combine (map inject_Z n) (map snd (snd f)))) (c_fields c) |}
  | _, _ => Ok c
  end.
(** lines 761-818 (forecast_and_truth_dataframes_to_cubes). The column checks of lines 412-417 are by typing. *)
Definition to_cubes (rp : representation) (cycle period : Z) (n : nat) (percentiles : list Q) (experiment : option string) (forecasts : list forecast_row) (truths : list truth_row) : result (option cube * option cube) :=
  let dates := training_dates cycle period n in
  let* ft := prepare rp experiment period percentiles forecasts truths in
  let* fs := slices false dates (fst ft) in
  let* fc := merge fs in
  let* fc := match fc with Some c => let* c := rebadged rp c in Ok (Some c) | None => Ok None end in
  let* ts := slices true dates (snd ft) in
  let* tc := merge ts in
  Ok (fc, tc).
