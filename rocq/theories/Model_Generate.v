(** Model of improver/cli/generate_realizations.py (process, lines 50-95): realizations from percentiles or probabilities, ordered as a raw ensemble or not. The steps are those of Model_Percentiles.v and Model_Reordering.v.
    One validity time (for several, C17), unmasked data; a row per point. The bounds of the distribution, found by the name and units of the cube, are an argument. *)
From Verif Require Import Base Interp Model_Percentiles Model_Reordering.
Local Open Scope Q_scope.

(** What the cube is: it has a realization coordinate; a percentile coordinate; it is a probability cube; none of these. *)
Inductive forecast :=
| AlreadyRealizations
| PercentileForecast (pcts : list Q) (rows : list (list Q))
| ProbabilityForecast (rel : relation) (ths : list Q) (probs : list (list Q))
| OtherForecast.
(** The raw ensemble: its realization numbers, if it has that coordinate, and its members' values at each point. *)
Record raw_ensemble := { re_numbers : option (list Z); re_members : list (list Q) }.

(** lines 66-73: the number of realizations. *)
Definition realizations_count (count : option nat) (raw : option raw_ensemble) : result nat :=
  match count, raw with
  | Some n, _ => Ok n
  | None, None => Err ValueError
  | None, Some r => match re_numbers r with Some l => Ok (length l) | None => Err CoordinateNotFoundError end
  end.
(** lines 75-84: that many percentiles. *)
Definition equal_percentiles (numba warn skip : bool) (bounds : Q * Q) (f : forecast) (n : nat) : result (list Q * list (list Q)) :=
  match f with
  | PercentileForecast pcts rows => resample numba warn skip bounds pcts rows None (Some n) Quantile
  | ProbabilityForecast rel ths probs =>
      let* (p, out) := probs_to_percentiles numba warn skip false rel bounds ths probs None (Some n) Quantile in
      Ok (p, map (map (fun o => match o with Some v => v | None => 0 end)) out) (* nothing is masked *)
  | _ => Err ValueError
  end.
Definition ecc_points (cal raw : list (list Q)) : list ecc_point :=
  map (fun p => {| ep_raw := snd p; ep_cal := fst p; ep_mask := map (fun _ => false) (fst p) |}) (combine cal raw).
(** lines 56-95. [None]: the cube itself. *)
Definition generate (rng : option Z -> list (list Q)) (numba warn skip : bool) (bounds : Q * Q) (s : seed) (count : option nat) (raw : option raw_ensemble) (f : forecast) : result (option (list Z * list (list (option Q)))) :=
  match f with
  | AlreadyRealizations => Ok None
  | OtherForecast => Err ValueError
  | _ =>
    let* n := realizations_count count raw in
    let* (pcts, cal) := equal_percentiles numba warn skip bounds f n in
    match raw with
    | Some r =>
        match re_numbers r with
        | None => Err CoordinateNotFoundError
        | Some members =>
            let* (nums, out) := ecc_process rng false s pcts members [ecc_points cal (re_members r)] in
            match out with [o] => Ok (Some (nums, o)) | _ => Err ValueError end
        end
    | None => let* nums := rebadge_as_realizations pcts false None in Ok (Some (nums, map (map Some) cal))
    end
  end.
