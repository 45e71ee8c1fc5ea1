(** Model of improver/wind_calculations/wind_downscaling.py (RoughnessCorrection). Real numbers instead of float32; None stands for NaN.
    One point of the grid and its column of levels, the arrays being worked on point by point; heights are not negative; winds are neither NaN nor negative (refused by process). *)
From Coq Require Import Reals List Bool.
From Verif Require Import Base.
From Coq Require Import Lra.
Import ListNotations.
Local Open Scope R_scope.

(** constants.py line 13 and lines 19-31. *)
Definition RMDI : R := -32767.
Definition tolerance : R := 4 / 100.
Definition von_karman : R := 4 / 10.
Definition z0_sea : R := 1 / 10000.
Definition above (x y : R) : bool := if Rlt_dec y x then true else false.
(** Comparisons with NaN are false. *)
Definition positive (v : option R) : bool := match v with Some x => above x 0 | None => false end.
Definition known (v : option R) : bool := match v with Some x => if Req_EM_T x RMDI then false else true | None => false end.

(** The ancillaries of a point: silhouette roughness, standard deviation of the height, roughness length (None: no such cube; Some None: NaN), orography of the grid and of the model. *)
Record point := { p_aos : option R; p_sigma : option R; p_z0 : option (option R); p_oro : option R; p_model : option R }.
(** The resolutions of the grid and of the model. *)
Record resolution := { ppres : R; modres : R }.
Definition dx_min (r : resolution) : R := ppres r / 2.
Definition dx_max (r : resolution) : R := 3 * modres r.

(** lines 204-231 (sigma2hover2). *)
Definition h_over_2 (p : point) : R := match p_sigma p with Some s => if above s 0 then s * sqrt 2 else RMDI | None => RMDI end.
(** lines 179-202 (_setmask). *)
Definition hcmask (p : point) : bool := above (h_over_2 p) 0 && positive (p_aos p).
Definition rcmask (p : point) : bool := hcmask p && match p_z0 p with Some z => positive z | None => true end.
(** line 155, in place. *)
Definition sea (z : option R) : option R := match z with Some x => if above x 0 then Some x else Some z0_sea | None => None end.
(** lines 233-287 (_calc_wav). *)
Definition wavenumber (r : resolution) (p : point) : R :=
  let w := if hcmask p then match p_aos p with Some a => a * PI / h_over_2 p | None => RMDI end else RMDI in
  let w := if above w (PI / dx_min r) then PI / dx_min r else w in
  let w := if Req_EM_T (h_over_2 p) 0 then RMDI else w in
  if above (PI / dx_max r) (Rabs w) then PI / dx_max r else w.
(** lines 289-325 (_calc_h_ref). *)
Definition h_ref (r : resolution) (p : point) : R :=
  if hcmask p then
    let t := - ln tolerance + ln (wavenumber r p * h_over_2 p) in
    let t := if above t 1 then 1 else t in
    let t := if above 0 t then 0 else t in
    let h := t / wavenumber r p in
    let h := if above 1 h then 1 else h in
    let h := Rmin h (2 * h_over_2 p) in
    if above 1 h then 1 else h
  else 0.
(** lines 165-177 (_refinemask) and 560-571 (_delta_height). *)
Definition hcmask' (p : point) : bool := hcmask p && known (p_oro p) && known (p_model p).
Definition delta_height (p : point) : R := if hcmask' p then match p_oro p, p_model p with Some a, Some b => a - b | _, _ => RMDI end else RMDI.

(** lines 372-471 (_calc_u_at_h, _interpolate_1d): a column is its heights and winds. argmax of nothing true is 0 and argmin of all masked is 0. *)
Notation column := (list (R * R)).
Definition first_above (x : R) (l : column) : R * R := match find (fun e => above (fst e) x) l with Some e => e | None => hd (0, 0) l end.
Fixpoint closest (best : R * R) (l : column) (x : R) : R * R := match l with [] => best | e :: r => if above (fst e) x then closest best r x else if above (x - fst best) (x - fst e) then closest e r x else closest best r x end.
Fixpoint nearest_below (x : R) (l : column) : option (R * R) := match l with [] => None | e :: r => if above (fst e) x then nearest_below x r else Some (closest e r x) end.
Definition u_at_h (x : R) (l : column) : R :=
  let up := first_above x l in let low := match nearest_below x l with Some e => e | None => hd (0, 0) l end in
  if Req_EM_T (fst up - fst low) 0 then x / fst up * snd up else snd low + (x - fst low) / (fst up - fst low) * (snd up - snd low).

(** lines 327-370 (calc_roughness_correction) and 34-92 (FrictionVelocity). Outside the mask h_ref becomes RMDI. *)
Definition z0_of (p : point) : R := match p_z0 p with Some z => match sea z with Some x => x | None => 0 end | None => 0 end.
Definition friction (r : resolution) (p : point) (l : column) : R := von_karman * (u_at_h (h_ref r p) l / ln (h_ref r p / z0_of p)).
Definition roughness (r : resolution) (p : point) (l : column) : list R :=
  match p_z0 p with
  | None => map snd l
  | Some _ => let h := if rcmask p then h_ref r p else RMDI in
              let ustar := if rcmask p then friction r p l else RMDI in
              map (fun e => if above h (fst e) then ustar * ln (fst e / z0_of p) / von_karman else snd e) l
  end.
(** lines 508-558 (_calc_height_corr) and 599-602. *)
Definition u_a (r : resolution) (p : point) (l : column) : R := u_at_h (1 / wavenumber r p) l.
Definition height_correction (r : resolution) (p : point) (l : column) : list R :=
  map (fun e => if hcmask' p && above (u_a r p l) 0
                then let m := wavenumber r p * fst e in (if above m (1 / 10000) then exp (- m) else 1) * u_a r p l * (delta_height p * wavenumber r p)
                else 0) l.
(** lines 573-611 (do_rc_hc_all). *)
Definition corrected (r : resolution) (p : point) (l : column) : list R :=
  map (fun q => if above 0 (fst q + snd q) then 0 else fst q + snd q) (combine (roughness r p l) (height_correction r p l)).
(** lines 894-952 (process) for one point and a list of times: a column of another time has the same heights. The plugin holds the roughness length, which is changed in place when the correction is set up. *)
Definition in_place (p : point) : point := {| p_aos := p_aos p; p_sigma := p_sigma p; p_z0 := option_map sea (p_z0 p); p_oro := p_oro p; p_model := p_model p |}.
Definition valid (l : column) : bool := forallb (fun e => negb (above 0 (snd e))) l.
Definition process (r : resolution) (p : point) (times : list column) : result (list (list R)) * point :=
  (mapM (fun l => if valid l then Ok (corrected r p l) else Err ValueError) times, in_place p).
