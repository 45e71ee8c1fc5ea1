(** Model of the cube-level neighbourhood code: improver/nbhood/__init__.py, BaseNeighbourhoodProcessing and NeighbourhoodProcessing.process in
    improver/nbhood/nbhood.py, and ApplyNeighbourhoodProcessingWithAMask in improver/nbhood/use_nbhood.py. A slice is its data, its mask and its
    lead time in hours; the coordinates are lists of points in metres. Text arguments are given as the numbers they stand for; NaN input
    (refused with ValueError), metadata and iris merging are not modelled. *)
From Verif Require Import Base Interp Model_Nbhood Model_Spatial.
Local Open Scope Q_scope.

Inductive radii_arg := OneRadius (r : Q) | Radii (l : list Q).
(** nbhood/__init__.py:10-49 [radius_by_lead_time]. *)
Definition radius_by_lead_time (radii : list Q) (lead_times : option (list Q)) : result (radii_arg * option (list Q)) :=
  match lead_times with
  | None => match radii with [r] => Ok (OneRadius r, None) | _ => Err ValueError end
  | Some ts => if Nat.eqb (length radii) (length ts) then Ok (Radii radii, Some ts) else Err ValueError
  end.

(** nbhood.py:101-130 [BaseNeighbourhoodProcessing.__init__]; the attributes set, [None] for an attribute that is not set. *)
Record base := { b_radius : option Q; b_radii : option (list Q); b_lead_times : option (list Q) }.
Definition base_init (radii : radii_arg) (lead_times : option (list Q)) : result base :=
  let b := match radii with
    | Radii l => {| b_radius := None; b_radii := Some l; b_lead_times := lead_times |}
    | OneRadius r => {| b_radius := Some r; b_radii := None; b_lead_times := lead_times |} end in
  match lead_times with
  | None => Ok b
  | Some ts => match radii with
    | OneRadius _ => Err TypeError                                      (* len() of a float *)
    | Radii l => if Nat.eqb (length l) (length ts) then Ok b else Err ValueError end
  end.
(** nbhood.py:132-149, 170-175: the radius, an array with one entry for each lead time when lead times were given. *)
Definition base_radius (b : base) (leads : list Q) : result (list Q) :=
  match b_lead_times b with
  | Some ((_ :: _) as ts) => match b_radii b with Some rs => Ok (map (np_interp (combine ts rs)) leads) | None => Err AttributeError end
  | _ => match b_radius b with Some r => Ok [r] | None => Err AttributeError end
  end.
(** The truth of a comparison with an array of several entries is a ValueError. *)
Definition single {A} (l : list A) : result A := match l with [r] => Ok r | _ => Err ValueError end.
(** nbhood.py:32-52 [check_radius_against_distance], without the square root. *)
Definition span (l : list Q) : Q := match l with [] => 0 | x :: r => qmaxl x r - qminl x r end.
Definition check_radius (xs ys : list Q) (r : Q) : result unit :=
  if ((0 <? r) && (span xs * span xs + span ys * span ys <? 4 * (r * r)))%bool then Err ValueError else Ok tt.
(** nbhood.py:438-450: from the plugin and the cube to the size of the neighbourhood. *)
Definition nbhood_cells (b : base) (xs ys leads : list Q) : result Z :=
  let* radius := base_radius b leads in
  let* _ := check_equal_area xs ys in
  let* r := single radius in
  let* _ := check_radius xs ys r in
  distance_to_cells xs r.

Record nslice := { s_data : grid Q; s_own : grid bool; s_lead : Q }.
(** nbhood.py:182-242 [NeighbourhoodProcessing.__init__] and 411-465 [process]: one result for each slice; all slices are processed with the
    same number of cells. [leads] are the points of the cube's forecast period coordinate. *)
Definition nbhood_process (m : method) (sum_only re_mask : bool) (b : base) (xs ys leads : list Q) (h w : Z) (slices : list nslice)
    (mask : option (grid Q)) : result (list (grid (option Q * bool))) :=
  let* r := nbhood_cells b xs ys leads in
  mapM (fun s => calculate_neighbourhood m r sum_only re_mask h w (s_data s) (s_own s) mask) slices.

(** numpy.array_equal on two arrays of the same shape; masks are ignored. *)
Definition array_equal (h w : Z) (a b : grid Q) : bool := forallb (fun p => a (fst p) (snd p) =? b (fst p) (snd p)) (indices h w).
(** use_nbhood.py:159-193 [collapse_mask_coord] at one point: the weighted mean of numpy.ma.average over the zones, both masked results and
    masked weights being left out; no value when nothing is left or the weights left add up to zero. *)
Definition weighted_pairs (vs ws : list (option Q)) : list (Q * Q) :=
  flat_map (fun p => match p with (Some v, Some w) => [(v, w)] | _ => [] end) (combine vs ws).
Definition collapse_point (vs ws : list (option Q)) : option Q :=
  let ps := weighted_pairs vs ws in
  let total := qsum (map snd ps) in
  if total =? 0 then None else Some (qsum (map (fun p => fst p * snd p) ps) / total).
Definition collapse_mask_coord (zones weights : list (grid (option Q))) : grid (option Q) :=
  fun y x => collapse_point (map (fun z : grid (option Q) => z y x) zones) (map (fun z : grid (option Q) => z y x) weights).
(** use_nbhood.py:242-253: one slice with every mask. *)
Definition one_slice (m : method) (sum_only : bool) (b : base) (xs ys : list Q) (h w : Z) (masks : list (grid Q))
    (weights : option (list (grid (option Q)))) (s : nslice) : result (list (grid (option Q))) :=
  let* zones := mapM (fun mask =>
      let* out := nbhood_process m sum_only false b xs ys [s_lead s] h w [s] (Some mask) in
      let* o := single out in Ok (fun y x => fst (o y x))) masks in
  match weights with None => Ok zones | Some ws => Ok [collapse_mask_coord zones ws] end.
(** use_nbhood.py:229-253: the loop over the slices; a slice with the same data as the last one computed takes its result. *)
Fixpoint slice_loop (one : nslice -> result (list (grid (option Q)))) (h w : Z) (prev : option (nslice * list (grid (option Q)))) (slices : list nslice)
    : result (list (list (grid (option Q)))) :=
  match slices with
  | [] => Ok []
  | s :: rest =>
      let fresh := let* o := one s in let* os := slice_loop one h w (Some (s, o)) rest in Ok (o :: os) in
      match prev with
      | Some (p, o) => if array_equal h w (s_data p) (s_data s) then let* os := slice_loop one h w prev rest in Ok (o :: os) else fresh
      | None => fresh
      end
  end.
(** use_nbhood.py:100-157 [__init__] and 195-263 [process]. *)
Definition masked_process (m : method) (sum_only : bool) (radii : radii_arg) (lead_times : option (list Q)) (weights : option (list (grid (option Q))))
    (xs ys : list Q) (h w : Z) (masks : list (grid Q)) (slices : list nslice) : result (list (list (grid (option Q)))) :=
  let* b := base_init radii lead_times in
  slice_loop (one_slice m sum_only b xs ys h w masks weights) h w None slices.
