(** Specification vocabulary for C71, C72. *)
From Verif Require Import Base Model_Bias Model_Dist Model_Emos.
Local Open Scope Q_scope.

(** [x] is the mean of the numbers [l]; [v] their variance with one degree of freedom less than numbers. *)
Definition is_mean (l : list Q) (m : Q) : Prop := l <> [] /\ m * Qlen l == qsum l.
Definition is_variance (l : list Q) (v : Q) : Prop := (2 <= length l)%nat /\ exists m, is_mean l m /\ v * (Qlen l - 1) == qsum (map (fun x => (x - m) * (x - m)) l).
(** The realizations have the numbers [l] at point [i]. *)
Definition members (rows : list row) (i : nat) (l : list Q) : Prop := map (fun r => nth i r None) rows = map Some l.
(** The value of a coefficient at point [i] of [n]. *)
Inductive coeff_value (n i : nat) : coeff -> Q -> Prop :=
| CWhole q : coeff_value n i (Whole q) q
| COne q : coeff_value n i (Each [q]) q
| CEach l q : length l = n -> nth_error l i = Some q -> coeff_value n i (Each l) q.
(** The value of a predictor. *)
Inductive field_value (n i : nat) : row -> option Q -> Prop :=
| FOne v : field_value n i [v] v
| FEach f v : length f = n -> nth_error f i = Some v -> field_value n i f v.
(** Weighted sum of the predictors with the coefficients of the same name. *)
Inductive combination (n i : nat) (betas : list (string * coeff)) : list (string * row) -> Q -> Prop :=
| CNil : combination n i betas [] 0
| CCons name f r b bv x s : In (name, b) betas -> coeff_value n i b bv -> field_value n i f (Some x) -> combination n i betas r s -> combination n i betas ((name, f) :: r) (bv * x + s).
Definition ovalue (r : row) (i : nat) : option Q := nth i r None.
(** The whole domain covered by an axis: its lowest and highest point or bound. *)
Definition covers (a : axis) (e : Q * Q) : Prop :=
  let items := match ax_bounds a with [] => ax_points a | bs => map fst bs ++ map snd bs end in
  (exists x, In x items /\ x == fst e) /\ (exists x, In x items /\ x == snd e) /\ forall x, In x items -> fst e <= x <= snd e.
Definition proper_axis (a : axis) : Prop := ax_points a <> [].
(** A square root, as far as needed. *)
Definition is_root (root : Q -> Q) : Prop := (forall x, 0 <= x -> 0 <= root x) /\ (forall x y, 0 <= x -> x <= y -> root x <= root y).
(** Everything ApplyEMOS is given except the land-sea mask. *)
Record setup := { su_root : Q -> Q; su_randomise : bool; su_rnd : nat -> list Q; su_ppf : quantile_fn; su_cdf : cumulative_fn; su_convert : nat -> list row -> result (list row); su_has_percentile : bool; su_name : string; su_count : option nat; su_tolerate : bool;
  su_forecast : forecast; su_coeffs : coefficients; su_additional : list (string * row); su_sites : list (list Z); su_dist : distribution; su_names : list (option string); su_shapes : list (option string); su_request : request }.
Definition calibrate (u : setup) (land : option (list bool)) : result (ftype * list (list dval)) :=
  apply_emos (su_root u) (su_randomise u) (su_rnd u) (su_ppf u) (su_cdf u) (su_convert u) (su_has_percentile u) (su_name u) (su_count u) (su_tolerate u) land (su_forecast u) (su_coeffs u) (su_additional u) (su_sites u) (su_dist u) (su_names u) (su_shapes u) (su_request u).
Definition su_rows (u : setup) : list row := fc_rows (su_forecast u).
Definition su_points (u : setup) : nat := points_of (su_rows u).
(** The forecast has a row per percentile, threshold or realization, all of one length; its conversion to realizations keeps the points. *)
Definition proper_setup (u : setup) : Prop :=
  Forall (fun r => length r = su_points u) (su_rows u) /\
  match input_type (su_has_percentile u) (su_name u) with
  | Percentiles => length (rq_own (su_request u)) = length (su_rows u)
  | Probabilities => length (snd (rq_own_template (su_request u))) = length (su_rows u)
  | Realizations => su_rows u <> []
  end /\ forall k rows rows', su_convert u k rows = Ok rows' -> points_of rows' = points_of rows.
(** The location and scale parameters of the calibrated distribution, before masking. *)
Definition distribution_of (u : setup) (loc sc : list dval) : Prop :=
  exists rows, as_realizations (input_type (su_has_percentile u) (su_name u)) (su_convert u) (su_count u) (su_rows u) = Ok rows /\
    let f := su_forecast u in
    parameters (su_root u) (su_tolerate u) None {| fc_name := fc_name f; fc_period := fc_period f; fc_frts := fc_frts f; fc_sites := fc_sites f; fc_x := fc_x f; fc_y := fc_y f; fc_rows := rows |} (su_coeffs u) (su_additional u) = Ok (loc, sc).
(** On land, or everywhere if there is no land-sea mask. *)
Definition is_land (land : option (list bool)) (i : nat) : Prop := match land with None => True | Some m => nth i m true = true end.
