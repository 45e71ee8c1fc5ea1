(** Model of the estimation of EMOS coefficients (improver/calibration/ensemble_calibration.py:60-1366, improver/calibration/utilities.py:56-111, 375-409).
    Forecasts, their variance and truths are arrays of a leading dimension (time, or realization) of rows of values ([dval]); [deep] says that an array has more than two dimensions, the others being flattened. Cubes with a single time, whose time is no dimension, are not modelled. The minimiser (scipy's Nelder-Mead search on the score), the linear regression, the continuous ranked probability score of one value and the square root are arguments. Numbers are exact; metadata of the coefficients are not modelled. *)
From Verif Require Import Base Model_Percentiles Model_Integration Model_Bias Model_Dist Model_Emos.
Local Open Scope Q_scope.

Notation array := (list (list dval)).
Definition keep (v : dval) : row := match v with Num q => [Some q] | NotANumber => [None] | Masked => [] end.
Definition kept (l : list dval) : row := flat_map keep l.
Definition same_mask (a b : list dval) : bool := ((length a =? length b)%nat && forallb (fun p => Bool.eqb (is_masked (fst p)) (is_masked (snd p))) (combine a b))%bool.
(** utilities.py:89-108 [flatten_ignoring_masked_data]: the masks of the slices are compared only if there are more than two dimensions. *)
Definition flatten (deep : bool) (a : array) : result row :=
  match a with
  | [] => Ok []
  | s :: r => if (existsb (existsb is_masked) a && deep && negb (forallb (same_mask s) r))%bool then Err ValueError else Ok (flat_map kept a)
  end.
(** utilities.py:106-111: with the leading dimension; the other is what results. *)
Fixpoint chunks (k : nat) (size : nat) (l : row) : list row := match k with O => [] | S k => firstn size l :: chunks k size (skipn size l) end.
Definition flatten_rows (deep : bool) (a : array) : result (list row) :=
  let* r := flatten deep a in
  match length a with O => Err ValueError | n => if (length r mod n =? 0)%nat then Ok (chunks n (length r / n) r) else Err ValueError end.
(** A predictor: a field per time, or a field for all times. *)
Inductive predictor := Timed (a : array) | Static (f : list dval).
(** utilities.py:397-409 [broadcast_data_to_time_coord]; numpy.broadcast_to gives an array without mask: below the mask there is NaN ([mask_cube]). *)
Definition unmasked (v : dval) : dval := match v with Masked => NotANumber | v => v end.
Definition broadcast (times : nat) (p : predictor) : array := match p with Timed a => a | Static f => repeat (map unmasked f) times end.
(** ensemble_calibration.py:362-391 [_prepare_forecasts] for the mean: numpy.ma.vstack needs rows of one length. *)
Definition all_lengths (l : list row) : bool := match l with [] => true | x :: r => forallb (fun y => (length y =? length x)%nat) r end.
Definition prepare_mean (deep : bool) (times : nat) (ps : list predictor) : result (list row) :=
  let* rows := mapM (fun p => flatten deep (broadcast times p)) ps in
  if all_lengths rows then Ok rows else Err ValueError.
(** What the minimiser is given: the predictors (rows), the truths and the variances. *)
Record problem := { pr_predictors : list row; pr_truth : row; pr_variance : row }.

(** ** The score *)
(** lines 159-164: alpha, betas, gamma, delta out of one vector. *)
Definition split_vector (v : list Q) : Q * list Q * Q * Q :=
  let n := length v in (nth 0 v 0, firstn (n - 3) (skipn 1 v), nth (n - 2) v 0, nth (n - 1) v 0).
(** lines 166-174: the location, of predictors [xs] at one point. *)
Definition vector_location (realizations : bool) (v : list Q) (xs : row) : option Q :=
  let '(a, bs, _, _) := split_vector v in
  osum (map (fun p : Q * option Q => oscale (fst p) (snd p)) (combine (a :: map (fun b => if realizations then b * b else b) bs) (Some 1 :: xs))).
(** line 175. *)
Definition vector_scale (root : Q -> Q) (v : list Q) (s2 : option Q) : option Q :=
  let '(_, _, g, d) := split_vector v in option_map (fun s => root (g * g + d * d * s)) s2.
Definition column (rows : list row) (j : nat) : row := map (fun r => nth j r None) rows.
(** lines 134-179 [_normal_crps_preparation]: location and scale for every pair; the shapes must fit (numpy would also broadcast a single truth or variance). *)
Definition preparation (realizations : bool) (root : Q -> Q) (v : list Q) (p : problem) : result (list (option Q * option Q)) :=
  if negb (forallb (fun r => (length r =? length (pr_truth p))%nat) (pr_predictors p) && (length v =? length (pr_predictors p) + 3)%nat && (length (pr_variance p) =? length (pr_truth p))%nat)%bool then Err ValueError else
  Ok (map (fun j => (vector_location realizations v (column (pr_predictors p) j), vector_scale root v (nth j (pr_variance p) None))) (seq 0 (length (pr_truth p)))).
(** lines 223-229, 279-290: the mean score over the pairs with a truth, or a large number if a ratio of location and scale is no number. (A scale of zero is counted as no number; the code overlooks it if the location is positive and another ratio is finite.) *)
Definition bad_value : Q := 999999.
Definition usable_pair (ms : option Q * option Q) : bool := match ms with (Some _, Some s) => 0 <? s | _ => false end.
Definition scores (crps : Q -> Q -> Q -> Q) (prep : list (option Q * option Q)) (truth : row) : list Q :=
  flat_map (fun p : (option Q * option Q) * option Q => match p with ((Some m, Some s), Some y) => [crps m s y] | _ => [] end) (combine prep truth).
Definition score (crps : Q -> Q -> Q -> Q) (realizations : bool) (root : Q -> Q) (p : problem) (v : list Q) : result (option Q) :=
  let* prep := preparation realizations root v p in
  if forallb usable_pair prep then Ok (match scores crps prep (pr_truth p) with [] => None | x :: r => Some (mean (x :: r)) end) else Ok (Some bad_value).

(** ** First guess *)
Definition has_nan (l : list dval) : bool := existsb (fun v => match v with NotANumber => true | _ => false end) l.
(** lines 1062-1077: the default. *)
Definition default_guess (realizations : bool) (root : Q -> Q) (predictors members : nat) : list Q :=
  if realizations then 0 :: repeat (root (1 / Qn members)) members ++ [0; 1] else 0 :: repeat (1 / Qn predictors) predictors ++ [0; 1].
(** lines 1078-1089: the intercept and the gradients of a linear regression of the truths on the predictors. *)
Definition regression_guess (ols : list row -> row -> Q * list Q) (rows : list row) (truth : row) : list Q := let (i, g) := ols rows truth in i :: g ++ [0; 1].
(** lines 1001-1091 [compute_initial_guess]: [stack] are the predictors with the leading dimension. *)
Definition initial_guess (use_default : bool) (realizations : bool) (root : Q -> Q) (ols : list row -> row -> Q * list Q) (deep deep_truth : bool) (members : nat) (stack : array) (truths : array) : result (list Q) :=
  if (use_default || existsb has_nan truths || existsb has_nan stack)%bool then Ok (default_guess realizations root (length stack) members)
  else let* t := flatten deep_truth truths in let* rows := flatten_rows deep stack in Ok (regression_guess ols rows t).

(** ** Minimisation *)
Notation minimiser := (problem -> list Q -> list Q).
(** lines 482-532 [_process_points_together]. The score is evaluated at the first guess first, so its failures are those of the call. *)
Definition attempt (crps : Q -> Q -> Q -> Q) (realizations : bool) (root : Q -> Q) (minimise : minimiser) (p : problem) (guess : list Q) : result (list Q) :=
  let* _ := score crps realizations root p guess in Ok (minimise p guess).
Definition together_problem (realizations deep deep_pred : bool) (times : nat) (ps : list predictor) (truths variance : array) : result problem :=
  let* t := flatten deep truths in
  let* s2 := flatten deep variance in
  let* rows := if realizations then match ps with Timed a :: _ => flatten_rows deep_pred a | _ => Err ValueError end else prepare_mean deep times ps in
  Ok {| pr_predictors := rows; pr_truth := t; pr_variance := s2 |}.
(** numpy.isclose(x, y). *)
Definition close (x y : Q) : bool := Qabs (x - y) <=? (1 # 100000000) + (1 # 100000) * Qabs y.
(** lines 438-448, 1161-1171: the points extracted for point [j]. *)
Definition extracted (coords : list (Q * Q)) (j : nat) : list nat :=
  filter (fun i => close (fst (nth i coords (0, 0))) (fst (nth j coords (0, 0))) && close (snd (nth i coords (0, 0))) (snd (nth j coords (0, 0)))) (seq 0 (length coords)).
(** The data at the extracted points: a row per time. *)
Definition take_points (idx : list nat) (a : array) : array := map (fun r => map (fun i => nth i r NotANumber) idx) a.
Definition take_predictor (idx : list nat) (p : predictor) : predictor := match p with Timed a => Timed (take_points idx a) | Static f => Static (map (fun i => nth i f NotANumber) idx) end.
Definition as_row (l : list dval) : row := map (fun v => match v with Num q => Some q | _ => None end) l.
(** Point [j]: the truths and variances by position, the predictors by coordinates. There is no land-sea mask. For realizations the predictors are the realizations, each a [Timed] array. *)
Definition point_problem (times : nat) (coords : list (Q * Q)) (ps : list predictor) (truths variance : array) (j : nat) : problem :=
  {| pr_predictors := map (fun p => as_row (concat (broadcast times (take_predictor (extracted coords j) p)))) ps;
     pr_truth := as_row (map (fun r => nth j r NotANumber) truths); pr_variance := as_row (map (fun r => nth j r NotANumber) variance) |}.
(** lines 449-465: a point without any truth keeps its first guess. *)
Definition all_missing (r : row) : bool := forallb is_none r.
Definition solve_point (crps : Q -> Q -> Q -> Q) (realizations : bool) (root : Q -> Q) (minimise : minimiser) (p : problem) (guess : list Q) : result (list Q) :=
  if all_missing (pr_truth p) then Ok guess else attempt crps realizations root minimise p guess.
(** lines 393-480 [_process_points_independently]: the coefficients of every point, before the transposition. *)
Definition independently (crps : Q -> Q -> Q -> Q) (realizations : bool) (root : Q -> Q) (minimise : minimiser) (times : nat) (coords : list (Q * Q)) (ps : list predictor) (truths variance : array) (guesses : list (list Q)) : result (list (list Q)) :=
  mapM (fun j => solve_point crps realizations root minimise (point_problem times coords ps truths variance j) (nth j guesses [])) (seq 0 (length coords)).
(** lines 467-480: a row per coefficient. *)
Definition transposed (k : nat) (vs : list (list Q)) : list (list Q) := map (fun c => map (fun v => nth c v 0) vs) (seq 0 k).

(** ** Coefficients *)
(** lines 944-999 [create_coefficients_cubelist] with 868-942 [_create_cubelist], data only: one vector for the whole domain. With one predictor, the mean, there must be four coefficients; numpy.reshape needs as many betas as predictors (members). *)
Definition whole_coefficients (realizations : bool) (names : list string) (members : nat) (v : list Q) : result (coeff * betas * coeff * coeff) :=
  if (negb realizations && (length names =? 1)%nat && negb (length v =? 4)%nat)%bool then Err ValueError else
  let '(a, bs, g, d) := split_vector v in
  if negb (length bs =? (if realizations then members else length names))%nat then Err ValueError else
  Ok (Whole a, if realizations then MemberBetas (PerMember bs) else MeanBetas (combine names (map Whole bs)), Whole g, Whole d).
(** The same with a row per coefficient, one value per site. *)
Definition site_coefficients (realizations : bool) (names : list string) (members : nat) (m : list (list Q)) : result (coeff * betas * coeff * coeff) :=
  if (negb realizations && (length names =? 1)%nat && negb (length m =? 4)%nat)%bool then Err ValueError else
  let n := length m in
  let bs := firstn (n - 3) (skipn 1 m) in
  if negb (length bs =? (if realizations then members else length names))%nat then Err ValueError else
  Ok (Each (nth 0 m []), if realizations then MemberBetas (PerMemberSite bs) else MeanBetas (combine names (map Each bs)), Each (nth (n - 2) m []), Each (nth (n - 1) m [])).

(** ** The checks of process *)
(** lines 1093-1118 [mask_cube]: sea points and NaN are masked. *)
Definition mask_row (land : list bool) (l : list dval) : list dval := map (fun bv : bool * dval => if fst bv then match snd bv with NotANumber => Masked | v => v end else Masked) (combine land l).
Definition mask_array (land : list bool) (a : array) : result array :=
  if forallb (fun r => (length r =? length land)%nat) a then Ok (map (mask_row land) a) else Err IndexError.
Definition mask_predictor (land : list bool) (p : predictor) : result predictor :=
  match p with Timed a => let* a := mask_array land a in Ok (Timed a) | Static f => let* a := mask_array land [f] in Ok (Static (hd [] a)) end.
(** lines 1283-1334: an additional field is given by the names of its coordinates. *)
Record estimate_request := { er_point_by_point : bool; er_land : bool; er_forecasts : bool; er_truths : bool; er_realizations : bool; er_additional : list (list string); er_forecast_units : string; er_truth_units : string; er_desired : option string }.
Definition static_only (coords : list string) : bool := negb (existsb (fun c => existsb (String.eqb c) ["forecast_period"; "forecast_reference_time"; "realization"]%string) coords).
(** [consistent]: the outcome of matching and the checks for consistency and sufficiency (Model_Bias). [convertible]: a units conversion is possible. *)
Definition check_request (r : estimate_request) (consistent : result unit) (convertible : string -> string -> bool) : result unit :=
  if (er_land r && er_point_by_point r)%bool then Err NotImplementedError else
  if negb (er_forecasts r && er_truths r)%bool then Err ValueError else
  let* _ := consistent in
  let* _ := match er_additional r with
            | [] => Ok tt
            | l => if er_realizations r then Err NotImplementedError else if forallb static_only l then Ok tt else Err ValueError
            end in
  match er_desired r with
  | Some u => if (convertible (er_forecast_units r) u && convertible (er_truth_units r) u)%bool then Ok tt else Err ValueError
  | None => if String.eqb (er_forecast_units r) (er_truth_units r) then Ok tt else Err ValueError
  end.
(** lines 1336-1366 with 1189-1204 for the whole domain: means, variances and truths are masked, then the coefficients are found. [means] and [variances] of the ensemble are given. *)
Definition estimate_mean (crps : Q -> Q -> Q -> Q) (root : Q -> Q) (ols : list row -> row -> Q * list Q) (minimise : minimiser) (use_default deep : bool) (land : option (list bool)) (names : list string) (times : nat) (means variances truths : array) (additional : list (list dval)) : result (coeff * betas * coeff * coeff) :=
  let* ps := match land with Some m => mapM (mask_predictor m) (Timed means :: map Static additional) | None => Ok (Timed means :: map Static additional) end in
  let* s2 := match land with Some m => mask_array m variances | None => Ok variances end in
  let* t := match land with Some m => mask_array m truths | None => Ok truths end in
  let stack := map (fun p => concat (broadcast times p)) ps in
  let* guess := initial_guess use_default false root ols true deep 0 stack t in
  let* p := together_problem false deep true times ps t s2 in
  let* v := attempt crps false root minimise p guess in
  whole_coefficients false names 0 v.
