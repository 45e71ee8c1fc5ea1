(** Model of improver/blending: weights.py, weighted_blend.py, spatial_weights.py.
    Simplification throughout: values are exact rationals instead of float32, and a
    cube is the list of its slices along the blend coordinate. *)
From Verif Require Export Base Interp Model_Rescale Model_Reliability.

(** * weights.py *)

(** weights.py lines 36-67: WeightsUtilities.normalise_weights, axis=None.
    (numpy's min of an empty array raises ValueError.) *)
Definition normalise_weights (w : list Q) : result (list Q) :=
  if (length w =? 0)%nat then Err ValueError
  else if existsb (fun x => x <? 0) w then Err ValueError
  else if qsum w =? 0 then Err ValueError
  else Ok (map (fun x => x / qsum w) w).

(** weights.py lines 36-67 with an axis: [cols] are the vectors along that axis. *)
Definition normalise_weights_axis (cols : list (list Q)) : result (list (list Q)) :=
  mapM normalise_weights cols.

(** weights.py lines 504-525 (constructor), 527-552 (linear_weights). *)
Definition linear_raw (y0 yn : Q) (n : nat) : list Q :=
  let slope := (yn - y0) / (Qn n - 1) in
  map (fun t => slope * Qn t + y0) (seq 0 n).
Definition linear_weights (y0 yn : Q) (n : nat) : result (list Q) :=
  if y0 <? 0 then Err ValueError
  else if (n =? 1)%nat then Ok [1]
  else normalise_weights (linear_raw y0 yn n).

(** Python's cval ** k, k a non-negative int. *)
Fixpoint qpow (c : Q) (k : nat) : Q := match k with O => 1 | S k => c * qpow c k end.

(** weights.py lines 597-624 (constructor), 626-645 (nonlinear_weights). *)
Definition nonlinear_weights (c : Q) (n : nat) : result (list Q) :=
  if (c <=? 0) || (1 <? c) then Err ValueError
  else normalise_weights (map (qpow c) (seq 0 n)).

(** Stable sort of (coordinate point, slice) pairs: cube_manipulation.py lines 431-465
    (sort_coord_in_cube: np.argsort of the coordinate points; descending reverses it). *)
Fixpoint kinsert {A} (x : Q * A) (l : list (Q * A)) : list (Q * A) :=
  match l with
  | [] => [x]
  | y :: r => if fst x <=? fst y then x :: l else y :: kinsert x r
  end.
Fixpoint ksort {A} (l : list (Q * A)) : list (Q * A) :=
  match l with [] => [] | x :: r => kinsert x (ksort r) end.
Definition sort_coord_in_cube {A} (l : list (Q * A)) (descending : bool) : list (Q * A) :=
  if descending then rev (ksort l) else ksort l.

(** weights.py lines 69-120: build_weights_cube pairs each point with its weight. *)
Definition build_weights_cube (pts w : list Q) : result (list (Q * Q)) :=
  if (length w =? length pts)%nat then Ok (combine pts w) else Err ValueError.

(** weights.py lines 647-697: ChooseDefaultWeightsNonLinear.process, on the points of
    the blend coordinate; the result is the weights cube as (point, weight) pairs. *)
Definition nonlinear_process (c : Q) (pts : list Q) (inverse : bool) : result (list (Q * Q)) :=
  let pts' := if inverse then map fst (sort_coord_in_cube (map (fun p => (p, tt)) pts) true) else pts in
  let* w := nonlinear_weights c (length pts') in
  let* wc := build_weights_cube pts' w in
  Ok (if inverse then sort_coord_in_cube wc false else wc).

(** weights.py lines 728-784: triangular_weights (1.0 / 0 is ZeroDivisionError). *)
Definition tri_raw (mid width p : Q) : Q :=
  if (mid - width <=? p) && (p <=? mid + width)
  then if p =? mid then 1 else 1 - Qabs (p - mid) * (1 / width)
  else 0.
Definition triangular_weights (pts : list Q) (mid width : Q) : result (list Q) :=
  if width =? 0 then Err ZeroDivision
  else normalise_weights (map (tri_raw mid width) pts).

(** ** ChooseWeightsLinear (weights.py lines 123-498) *)
(** One entry of the configuration dictionary: points of the weighting coordinate and
    their weights.  Simplification: unit conversion (lines 262-266) is the identity. *)
Record wconfig := { wc_points : list Q; wc_weights : list Q }.

(** lines 205-233: _check_config_dict. *)
Definition check_config (cs : list wconfig) : result unit :=
  if forallb (fun c => (length (wc_points c) =? length (wc_weights c))%nat) cs
  then Ok tt else Err ValueError.

(** scipy interp1d(bounds_error=False, fill_value=(below, above)); interp1d sorts its
    points (assume_sorted=False), the fill values are not touched by that sort. *)
Definition interp1d_fill (xs ys : list Q) (below above : Q) (x : Q) : Q :=
  let k := ksort (combine xs ys) in
  let xs' := map fst k in
  if x <? hd 0 xs' then below
  else if last xs' 0 <? x then above
  else interp1d xs' (map snd k) x.

(** lines 235-316: the weight of one model at one target point; the fill values are the
    first and the last configured weights (line 271). *)
Definition config_weight (c : wconfig) (t : Q) : Q :=
  interp1d_fill (wc_points c) (wc_weights c) (hd 0 (wc_weights c)) (last (wc_weights c) 0) t.

(** lines 466-498: process, one vector (over the config coordinate) per target point. *)
Definition choose_weights_linear (cs : list wconfig) (targets : list Q) : result (list (list Q)) :=
  let* _ := check_config cs in
  normalise_weights_axis (map (fun t => map (fun c => config_weight c t) cs) targets).

(** * weighted_blend.py *)

(** iris.analysis.MEAN with weights = numpy.ma.average over one column: masked values
    (None) take no part; a zero total weight gives a masked result. *)
Definition unmasked (vs : list (option Q)) (ws : list Q) : list (Q * Q) :=
  flat_map (fun p => match fst p with Some v => [(v, snd p)] | None => [] end) (combine vs ws).
Definition wtotal (ps : list (Q * Q)) : Q := qsum (map snd ps).
Definition wdot (ps : list (Q * Q)) : Q := qsum (map (fun p => fst p * snd p) ps).
Definition ma_average (vs : list (option Q)) (ws : list Q) : option Q :=
  let ps := unmasked vs ws in
  if wtotal ps =? 0 then None else Some (wdot ps / wtotal ps).

(** lines 554-577: get_weights_array, at one grid point. *)
Definition get_weights (n : nat) (w : option (list Q)) : list Q :=
  match w with Some w => w | None => repeat (1 / Qn n) n end.

(** lines 533-552: _normalise_weights; [cols] holds for each grid point the weights
    along the blend dimension.  np.isclose(s, 1) is |s - 1| <= 1e-8 + 1e-5. *)
Definition close1 (s : Q) : bool := Qabs (s - 1) <=? (1 # 100000000) + (1 # 100000).
Definition norm_cols (cols : list (list Q)) : list (list Q) :=
  if forallb (fun c => negb (0 <? qsum c) || close1 (qsum c)) cols then cols
  else map (fun c => if 0 <? qsum c then map (fun x => x / qsum c) c else map (fun _ => 0) c) cols.

(** lines 310-360: blend_percentiles at one grid point; [rows] holds one list of
    percentile values per input.  Entry (k, j) of combined_cdf: *)
Definition cdf_entry (rows : list (list Q)) (ps ws : list Q) (k j : nat) : Q :=
  qsum (map (fun i =>
    (if (k =? i)%nat then nth j ps 0
     else np_interp (combine (nth i rows []) ps) (nth j (nth k rows []) 0)) * nth i ws 0)
    (seq 0 (length rows))).
Definition combined_cdf (rows : list (list Q)) (ps ws : list Q) : list (list Q) :=
  map (fun k => map (cdf_entry rows ps ws k) (seq 0 (length ps))) (seq 0 (length rows)).
Definition blend_percentiles (rows : list (list Q)) (ps ws : list Q) : list Q :=
  let thr := qsort (concat rows) in
  let cdf := qsort (concat (combined_cdf rows ps ws)) in
  map (np_interp (combine cdf thr)) ps.

(** lines 249-308: aggregate; grid points as a list of (rows, weights). *)
Definition aggregate (grid : list (list (list Q) * list Q)) (ps : list Q) : result (list (list Q)) :=
  mapM (fun g => if (length (fst g) =? length (snd g))%nat
                 then Ok (blend_percentiles (fst g) ps (snd g)) else Err ValueError) grid.

(** lines 401-435: check_percentile_coord.  None: no percentile coordinate;
    Some (is_dim, number of points). *)
Definition check_percentile_coord (c : option (bool * nat)) : result bool :=
  match c with
  | None => Ok false
  | Some (is_dim, n) => if negb is_dim then Err ValueError
                        else if (n <? 2)%nat then Err ValueError else Ok true
  end.

(** lines 437-464: check_compatible_time_points. *)
Definition check_times (timeblending : bool) (times : list Z) : result unit :=
  if timeblending then Ok tt
  else if (1 <? length (nodup Z.eq_dec times))%nat then Err ValueError else Ok tt.

(** lines 665-730 with a weighted mean (615-663, units other than degrees): [cube] lists
    (blend point, validity time, values at the grid points), [weights] lists (blend point,
    weights at the grid points).  Both are sorted along the blend coordinate and then
    combined position by position. Simplification: the weights cube has as many points as
    the data cube (ValueError otherwise) and carries one weight per grid point. *)
Definition column {A} (d : A) (rows : list (list A)) (g : nat) : list A :=
  map (fun r => nth g r d) rows.
Definition weighted_mean (npts : nat) (data : list (list (option Q))) (weights : option (list (list Q)))
  : list (option Q) :=
  map (fun g => ma_average (column None data g)
                  (get_weights (length data) (option_map (fun w => column 0 w g) weights)))
      (seq 0 npts).
Definition blend_process (timeblending : bool) (npts : nat)
  (cube : list (Q * (Z * list (option Q)))) (weights : option (list (Q * list Q)))
  : result (list (option Q)) :=
  let cube := ksort cube in
  let weights := option_map ksort weights in
  let* _ := check_times timeblending (map (fun s => fst (snd s)) cube) in
  match weights with
  | Some w => if (length w =? length cube)%nat
              then Ok (weighted_mean npts (map (fun s => snd (snd s)) cube) (Some (map snd w)))
              else Err ValueError
  | None => Ok (weighted_mean npts (map (fun s => snd (snd s)) cube) None)
  end.

(** * spatial_weights.py, one grid point *)
(** lines 217-265, 121-136: the 1-D weights at one point with masked slices set to zero,
    then normalised. *)
Definition init_weights (w : list Q) (masked : list bool) : list Q :=
  zipw (fun (x : Q) (m : bool) => if m then 0 else x) w masked.
Definition norm_initial (w : list Q) : list Q :=
  if 0 <? qsum w then map (fun x => x / qsum w) w else map (fun _ => 0) w.
(** lines 138-189: each slice is given with its distance (scipy's distance_transform_edt,
    not modelled: any number) to the nearest zero-weight point of the slice, or None when
    the slice has no zero-weight point at all.  The result carries the "rescaled" flag. *)
Definition fuzzy (len d : Q) : Q := rescale_pt 0 len 0 1 true d.
Definition rescale_masked (len : Q) (w : Q) (d : option Q) : Q * bool :=
  match d with
  | None => (w, false)
  | Some d => let w' := w * fuzzy len d in (w', negb (w' =? w))
  end.
(** lines 191-215: _rescale_unmasked_weights. *)
Definition rescale_unmasked (ws : list (Q * bool)) : list Q :=
  let rs := qsum (map (fun p : Q * bool => if snd p then fst p else 0) ws) in
  let us := qsum (map (fun p : Q * bool => if snd p then 0 else fst p) ws) in
  let f := if 0 <? us then (1 - rs) / us else 0 in
  map (fun p : Q * bool => if snd p then 0 * f + fst p else fst p * f + 0) ws.
(** lines 217-271: the whole plugin at one grid point. *)
Definition spatial_weights (len : Q) (w : list Q) (masked : list bool) (dist : list (option Q)) : list Q :=
  let w := norm_initial (init_weights w masked) in
  rescale_unmasked (zipw (rescale_masked len) w dist).
