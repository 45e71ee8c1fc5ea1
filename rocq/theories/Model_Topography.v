(** Model of improver/generate_ancillaries/generate_ancillary.py and generate_topographic_zone_weights.py: land-sea mask correction, orography band masks, topographic zone
    weights. The field is the list of its values at the grid points (C order); the bands are the bounds of the topographic_zone coordinate after the unit conversion and the
    concatenation, in ascending order. float32 rounding, coordinates other than topographic_zone, attributes and names are not modelled. *)
From Verif Require Import Base Interp.
Local Open Scope Q_scope.

Notation band := (Q * Q)%type.
(** generate_ancillary.py:126-144 [CorrectLandSeaMask.process] at one point: the two masked assignments, one after the other. *)
Definition correct_point (v : Q) : Q := let v := if v <? 1 # 2 then 0 else v in if 0 <? v then 1 else v.
Definition correct_mask (mask : list Q) : list Q := map correct_point mask.

(** generate_ancillary.py:163-196 [sea_mask] with no fill value: None is a masked point. np.logical_not(landmask) is true exactly where the land mask is zero. *)
Definition sea_masked {A} (land : Q) (x : A) : option A := if land =? 0 then None else Some x.
(** [sea_mask] with a fill value. *)
Definition sea_filled {A} (fill : A) (land : Q) (x : A) : A := if land =? 0 then fill else x.

(** generate_ancillary.py:253-256 and generate_topographic_zone_weights.py:236-238: membership of a band. *)
Definition in_band (b : band) (z : Q) : bool := (fst b <? z) && (z <=? snd b).
(** generate_ancillary.py:198-283 [gen_orography_masks] at one point (thresholds already in the units of the orography). *)
Definition band_mask_point (b : band) (land : option Q) (z : Q) : Z :=
  let m := if in_band b z then 1%Z else 0%Z in match land with Some l => sea_filled 0%Z l m | None => m end.
Fixpoint zip_land (land : option (list Q)) (oro : list Q) : list (option Q * Q) :=
  match oro with
  | [] => []
  | z :: r => match land with
              | None => (None, z) :: zip_land None r
              | Some [] => (Some 0, z) :: zip_land (Some []) r
              | Some (l :: ls) => (Some l, z) :: zip_land (Some ls) r end
  end.
Definition same_size (land : option (list Q)) (oro : list Q) : bool := match land with None => true | Some l => (length l =? length oro)%nat end.
Definition gen_orography_masks (b : band) (land : option (list Q)) (oro : list Q) : result (list Z) :=
  if same_size land oro then Ok (map (fun p => band_mask_point b (fst p) (snd p)) (zip_land land oro)) else Err IndexError.
(** generate_ancillary.py:285-322 [GenerateOrographyBandAncils.process]; None for the empty dictionary. *)
Definition band_ancils (bands : option (list band)) (land : option (list Q)) (oro : list Q) : result (list (list Z)) :=
  match bands with None => Err ValueError | Some bs => mapM (fun b => gen_orography_masks b land oro) bs end.

Fixpoint set_nth (i : nat) (x : Q) (l : list Q) : list Q :=
  match l, i with
  | [], _ => []
  | _ :: r, O => x :: r
  | y :: r, S j => y :: set_nth j x r
  end.
(** numpy.mean of the two bounds. *)
Definition midpoint (b : band) : Q := (fst b + snd b) / 2.
(** generate_topographic_zone_weights.py:118-143 [calculate_weights] at one point. *)
Definition calculate_weight (z : Q) (b : band) : Q := np_interp [(fst b, 1 # 2); (midpoint b, 1); (snd b, 1 # 2)] z.
(** generate_topographic_zone_weights.py:75-116 [add_weight_to_lower_adjacent_band] at one point; the orography band is NaN (None) outside the band. *)
Definition add_lower (ws : list Q) (z : option Q) (mid : Q) (k : nat) : list Q :=
  match z with
  | Some v => if v <? mid then (if (k =? 0)%nat then set_nth k 1 ws else set_nth (k - 1) (1 - nth k ws 0) ws) else ws
  | None => ws end.
(** generate_topographic_zone_weights.py:29-73 [add_weight_to_upper_adjacent_band] at one point. *)
Definition add_upper (ws : list Q) (z : option Q) (mid : Q) (k kmax : nat) : list Q :=
  match z with
  | Some v => if mid <? v then (if (k =? kmax)%nat then set_nth k 1 ws else set_nth (k + 1) (1 - nth k ws 0) ws) else ws
  | None => ws end.
(** generate_topographic_zone_weights.py:234-267: the loop body, at one point. *)
Definition zone_step (n k : nat) (b : band) (z : Q) (ws : list Q) : list Q :=
  let inside := if in_band b z then Some z else None in
  let ws := match inside with Some v => set_nth k (calculate_weight v b) ws | None => ws end in
  add_upper (add_lower ws inside (midpoint b) k) inside (midpoint b) k (n - 1).
Fixpoint zone_loop (n k : nat) (bs : list band) (z : Q) (ws : list Q) : list Q :=
  match bs with [] => ws | b :: r => zone_loop n (S k) r z (zone_step n k b z ws) end.
Definition zone_point (bs : list band) (z : Q) : list Q := zone_loop (length bs) 0 bs z (repeat 0 (length bs)).
(** generate_topographic_zone_weights.py:213-229: the two warnings, (above, below). *)
Definition bounds_of (bs : list band) : list Q := flat_map (fun b => [fst b; snd b]) bs.
Definition warnings (bs : list band) (oro : list Q) : bool * bool :=
  match oro, bounds_of bs with
  | z :: zs, b :: r => (qmaxl b r <? qmaxl z zs, qminl z zs <? qminl b r)
  | _, _ => (false, false) end.
(** generate_topographic_zone_weights.py:145-284 [process]: the weights of each grid point, one for each band, masked at sea points when there is a land mask. *)
Definition zone_weights (ndim : nat) (bs : list band) (land : option (list Q)) (oro : list Q) : result (list (list (option Q)) * (bool * bool)) :=
  if negb (ndim =? 2)%nat then Err InvalidCubeError
  else match bs with
       | [] => Err ValueError
       | _ => if same_size land oro
              then Ok (map (fun p => map (fun w => match fst p with Some l => sea_masked l w | None => Some w end) (zone_point bs (snd p))) (zip_land land oro), warnings bs oro)
              else Err IndexError end.
