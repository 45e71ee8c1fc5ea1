(** Model of improver/ensemble_copula_coupling: percentile choice, rebadging,
    resampling of percentiles and conversion of probabilities to percentiles.
    A "row" is the vector along the percentile / threshold dimension at one grid point
    (convert_cube_data_to_2d puts one such row per point). float32 casts are not modelled. *)
From Coq Require Export Qround.
From Verif Require Export Base Interp.

(** np.linspace(a, b, n). *)
Definition linspace (a b : Q) (n : nat) : list Q :=
  map (fun k => if (n =? 1)%nat then a else a + Qn k * ((b - a) / Qn (n - 1))) (seq 0 n).

(** utilities.py lines 53-108 (choose_set_of_percentiles); [draws] are the uniform
    random numbers of the "random" option. *)
Inductive sampling := Quantile | Random (draws : list Q) | Unrecognised.
Definition choose_set_of_percentiles (n : nat) (s : sampling) : result (list Q) :=
  let* fr := match s with
             | Quantile => Ok (linspace (1 / (1 + Qn n)) (Qn n / (1 + Qn n)) n)
             | Random d => Ok (qsort d)
             | Unrecognised => Err ValueError
             end in
  Ok (map (fun p => p * 100) fr).

(** ensemble_copula_coupling.py lines 77-114 (RebadgeRealizationsAsPercentiles.process)
    at one grid point: (percentile labels, values). *)
Definition rebadge_as_percentiles (optimal : bool) (members : list Q) : list Q * list Q :=
  let n := length members in
  let label k := if optimal then 100 * (Qn k + (1 # 2)) / Qn n else 100 * (Qn k + 1) / (Qn n + 1) in
  (map label (seq 0 n), qsort members).

(** np.unique on sorted data: drop repeats. *)
Fixpoint uniq (l : list Q) : list Q :=
  match l with
  | x :: ((y :: _) as r) => if x =? y then uniq r else x :: uniq r
  | _ => l
  end.
Fixpoint diffs (l : list Q) : list Q :=
  match l with
  | x :: ((y :: _) as r) => (y - x) :: diffs r
  | _ => []
  end.
(** np.isclose(a, b) with default tolerances. *)
Definition isclose (a b : Q) : bool := Qabs (a - b) <=? (1 # 100000000) + (1 # 100000) * Qabs b.

(** lines 126-198 (RebadgePercentilesAsRealizations.process): from the percentile
    points (and optional realization numbers) to realization numbers. The values are
    untouched. [has_realization]: the cube already has such a coordinate. *)
Definition rebadge_as_realizations (points : list Q) (has_realization : bool) (numbers : option (list Z))
  : result (list Z) :=
  let pc := uniq (qsort (points ++ [0; 100])) in
  match diffs pc with
  | [] => Err ValueError
  | d :: ds =>
      if negb (isclose (qmaxl d ds) (qminl d ds)) then Err ValueError
      else
        let nums := match numbers with Some l => l | None => map Z.of_nat (seq 0 (length points)) end in
        if has_realization then Err InvalidCubeError
        else if (length nums =? length points)%nat then Ok nums else Err ValueError
  end.

(** utilities.py lines 23-50 and 207-231: end points around a row. *)
Definition with_ends (lo hi : Q) (row : list Q) : list Q := lo :: row ++ [hi].

(** forecast.max() / forecast.min() over the whole 2-D array. *)
Definition array_max (x : Q) (rows : list (list Q)) : Q := qmaxl x (concat rows).
Definition array_min (x : Q) (rows : list (list Q)) : Q := qminl x (concat rows).

(** lines 233-309 (_add_bounds_to_percentiles_and_forecast_at_percentiles). *)
Definition add_bounds_percentiles (warn : bool) (bounds : Q * Q) (pcts : list Q) (rows : list (list Q))
  : result (list Q * list (list Q)) :=
  let (lower, upper) := bounds in
  let pcts' := with_ends 0 100 pcts in
  let fc := map (with_ends lower upper) rows in
  let* fc' :=
    if forallb nondecreasing_b fc then Ok fc
    else if warn then
      let upper' := if upper <? array_max lower fc then array_max lower fc else upper in
      let lower' := if array_min lower fc <? lower then array_min lower fc else lower in
      Ok (map (with_ends lower' upper') rows)
    else Err ValueError in
  if nondecreasing_b pcts' then Ok (pcts', fc') else Err ValueError.

(** utilities.py lines 285-308 / 327-350: dispatch on whether numba can be imported. *)
Definition interp_same_x (numba : bool) := if numba then fast_interp_same_x else slow_interp_same_x.
Definition interp_same_y (numba : bool) := if numba then fast_interp_same_y else slow_interp_same_y.

(** lines 391-454 + 311-389 (ResamplePercentiles.process). [asked] is the
    percentiles argument ([] or None are both falsy), [n] no_of_percentiles. *)
Definition resample (numba warn skip : bool) (bounds : Q * Q) (pcts : list Q) (rows : list (list Q))
  (asked : option (list Q)) (n : option nat) (s : sampling) : result (list Q * list (list Q)) :=
  let* desired :=
    match asked with
    | Some ((_ :: _) as p) =>
        if existsb (fun x => (x <? 0) || (100 <? x)) p then Err ValueError else Ok p
    | _ => choose_set_of_percentiles (match n with Some k => k | None => length pcts end) s
    end in
  let* (xp, fp) := if skip then Ok (pcts, rows) else add_bounds_percentiles warn bounds pcts rows in
  let* out := interp_same_x numba desired xp fp in
  Ok (desired, out).

(** np.around(x, 9): round half to even at the ninth decimal. *)
Definition round_half_even (z : Q) : Z :=
  let f := Qround.Qfloor z in
  let d := z - inject_Z f in
  if d <? (1 # 2) then f else if (1 # 2) <? d then (f + 1)%Z else if Z.even f then f else (f + 1)%Z.
Definition around9 (x : Q) : Q := inject_Z (round_half_even (x * 1000000000)) / 1000000000.

Inductive relation := Above | Below.

(** lines 511-585 (_add_bounds_to_thresholds_and_probabilities). *)
Definition add_bounds_thresholds (warn : bool) (bounds : Q * Q) (ths : list Q) (cdf : list (list Q))
  : result (list Q * list (list Q)) :=
  let (lower, upper) := bounds in
  let t' := with_ends lower upper ths in
  let cdf' := map (with_ends 0 1) cdf in
  if nondecreasing_b t' then Ok (t', cdf')
  else if warn then
    let m := qmaxl lower (ths ++ [upper]) in
    let k := qminl lower (ths ++ [upper]) in
    let upper' := if upper <? m then m else upper in
    let lower' := if k <? lower then k else lower in
    Ok (with_ends lower' upper' ths, cdf')
  else Err ValueError.

(** lines 632-642: rounding and inversion to a CDF. *)
Definition to_cdf (rel : relation) (row : list Q) : list Q :=
  map (fun p => match rel with Above => 1 - around9 p | Below => around9 p end) row.

(** lines 694-707: mask where the CDF at the last threshold is <= the fraction (the
    unrounded probability is used there). *)
Definition mask_row (rel : relation) (fracs : list Q) (probs vals : list Q) : list (option Q) :=
  let p := last probs 0 in
  let c := match rel with Above => 1 - p | Below => p end in
  map (fun fv : Q * Q => if c <=? fst fv then None else Some (snd fv)) (combine fracs vals).

(** lines 728-813 + 587-726 (ConvertProbabilitiesToPercentiles.process) for a cube
    without realizations; input masks are not modelled. *)
Definition probs_to_percentiles (numba warn skip maskp : bool) (rel : relation) (bounds : Q * Q)
  (ths : list Q) (probs : list (list Q)) (asked : option (list Q)) (n : option nat) (s : sampling)
  : result (list Q * list (list (option Q))) :=
  match n, asked with
  | Some _, Some _ => Err ValueError
  | _, _ =>
    let* pcts := match asked with
                 | Some p => Ok p
                 | None => choose_set_of_percentiles (match n with Some k => k | None => length ths end) s
                 end in
    let cdf := map (to_cdf rel) probs in
    let* (fp, xp) := if skip then Ok (ths, cdf) else add_bounds_thresholds warn bounds ths cdf in
    let fracs := map (fun x => x / 100) pcts in
    let* out := interp_same_y numba fracs xp fp in
    Ok (pcts, if maskp then map (fun pv => mask_row rel fracs (fst pv) (snd pv)) (combine probs out)
              else map (map Some) out)
  end.
