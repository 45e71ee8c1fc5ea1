(** Model of improver/cli/nbhood_land_and_sea.py: land and sea are neighbourhood processed apart and then added. The processing is that of Model_NbhoodCube.v.
    A mask is one field (land 1, sea 0) or fields by topographic zone with their attribute topographic_zones_include_seapoints; weights are fields by zone, masked where there is sea.
    Radii and lead times are given as numbers; reading cubes, metadata and merging are not modelled. *)
From Verif Require Import Base Model_Nbhood Model_Spatial Model_NbhoodCube.
Local Open Scope Q_scope.

Inductive surface_mask := LandSeaMask (k : grid Q) | ZoneMask (include_sea : bool) (zones : list (grid Q)).
(** [w_has_mask]: whether the array has a mask of its own shape; without any masked point it may have none, and then [.data.mask] is one False. *)
Record zone_weights := { w_include_sea : bool; w_has_mask : bool; w_zones : list (grid (option Q)) }.
(** astype(int): towards zero. *)
Definition to_int (q : Q) : Q := inject_Z (Z.quot (Qnum q) (Zpos (Qden q))).
Definition logical_not (q : Q) : Q := if q =? 0 then 1 else 0.
(** lines 88-134: land_only and sea_only. *)
Definition surfaces (mask : surface_mask) (weights : option zone_weights) : result (grid Q * grid Q) :=
  match mask with
  | ZoneMask include zones =>
    if include then Err ValueError else
    match weights with
    | None => Err TypeError
    | Some ws =>
      if w_include_sea ws then Err ValueError else
      match w_zones ws with
      | [] => Err IndexError
      | z :: _ =>
        if negb (w_has_mask ws) then Err ValueError (* copy(data=False): not the shape of the cube *)
        else Ok (fun i j => match z i j with Some _ => 1 | None => 0 end, fun i j => match z i j with Some _ => 0 | None => 1 end)
      end
    end
  | LandSeaMask k => match weights with Some _ => Err TypeError | None => Ok (fun i j => to_int (k i j), fun i j => logical_not (k i j)) end
  end.
(** lines 136-145. *)
Definition command_radii (radii : list Q) (lead_times : option (list Q)) : result radii_arg :=
  match lead_times with
  | None => match radii with [] => Err IndexError | r :: _ => Ok (OneRadius r) end
  | Some ts => if Nat.eqb (length radii) (length ts) then Ok (Radii radii) else Err RuntimeError
  end.
(** data.max() > 0. *)
Definition any_positive (h w : Z) (g : grid Q) : bool := existsb (fun p => 0 <? g (fst p) (snd p)) (indices h w).
Notation masked_grid := (grid (option Q * bool)).
(** lines 148-166. *)
Definition one_grid (l : list (grid (option Q))) : result masked_grid := let* g := single l in Ok (fun y x => (g y x, match g y x with None => true | Some _ => false end)).
Definition process_land (m : method) (area_sum : bool) (radii : radii_arg) (lead_times : option (list Q)) (xs ys leads : list Q) (h w : Z) (slices : list nslice) (mask : surface_mask) (weights : option zone_weights) (land : grid Q) : result (list masked_grid) :=
  match mask with
  | LandSeaMask _ => let* b := base_init radii lead_times in nbhood_process m area_sum true b xs ys leads h w slices (Some land)
  | ZoneMask _ zones => let* out := masked_process m area_sum radii lead_times (option_map w_zones weights) xs ys h w zones slices in mapM one_grid out
  end.
(** lines 169-176. *)
Definition process_sea (m : method) (area_sum : bool) (radii : radii_arg) (lead_times : option (list Q)) (xs ys leads : list Q) (h w : Z) (slices : list nslice) (sea : grid Q) : result (list masked_grid) :=
  let* b := base_init radii lead_times in nbhood_process m area_sum true b xs ys leads h w slices (Some sea).
(** lines 181-184: filled(0) and a sum; NaN that is not masked stays. *)
Definition filled (p : option Q * bool) : option Q := if snd p then Some 0 else fst p.
Definition add_filled (a b : masked_grid) : masked_grid := fun y x => (match filled (a y x), filled (b y x) with Some u, Some v => Some (u + v) | _, _ => None end, false).
(** lines 88-186; with neither land nor sea there is no result (UnboundLocalError, here RuntimeError). *)
Definition land_and_sea (m : method) (area_sum : bool) (radii : list Q) (lead_times : option (list Q)) (xs ys leads : list Q) (h w : Z) (slices : list nslice) (mask : surface_mask) (weights : option zone_weights) : result (list masked_grid) :=
  let* (land, sea) := surfaces mask weights in
  let* r := command_radii radii lead_times in
  let* on_land := if any_positive h w land then let* o := process_land m area_sum r lead_times xs ys leads h w slices mask weights land in Ok (Some o) else Ok None in
  let* on_sea := if any_positive h w sea then let* o := process_sea m area_sum r lead_times xs ys leads h w slices sea in Ok (Some o) else Ok None in
  match on_land, on_sea with
  | Some a, Some b => Ok (map (fun p => add_filled (fst p) (snd p)) (combine a b))
  | Some a, None => Ok a
  | None, Some b => Ok b
  | None, None => Err RuntimeError
  end.
