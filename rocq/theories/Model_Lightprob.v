(** Model of LightningMultivariateProbability_USAF2024 (improver/lightning.py:194-412), at one point, in real numbers (float32 is not
    modelled). The logarithm of a number that is not positive, the root of a negative number and division by zero are no real numbers: None. *)
From Coq Require Import Reals.
From Verif Require Import Base.
Local Open Scope R_scope.

Definition log (x : R) : option R := if Rlt_dec 0 x then Some (ln x) else None.
Definition root (x : R) : option R := if Rle_dec 0 x then Some (sqrt x) else None.
(** lines 344-350: [cin0] is the inhibition as given (negative), [apcp0] the precipitation in kg m-2. *)
Definition inches (apcp0 : R) : R := apcp0 / 1000 * (393701 / 10000).
(** lines 353-354. *)
Definition with_precipitation (cape apcp : R) : option R := option_map (fun l => (13 / 100) * l + 5 / 100) (log (cape * apcp + 7 / 10)).
(** lines 360-361. *)
Definition without_precipitation (cape cin : R) : option R :=
  if Req_EM_T (cin + 100) 0 then None else option_map (fun l => (25 / 1000) * l + 3 / 100) (log (cape / (cin + 100) + 31 / 100)).
(** lines 369-375. *)
Definition stable (liftidx apcp : R) : option R := let l := liftidx + 4 in let l := if Rlt_dec l 0 then 0 else l in option_map (fun r => (2 / 10) * r) (root (l * apcp)).
(** lines 352-383. *)
Definition lightning_probability (cape liftidx pwat cin0 apcp0 : R) : option R :=
  let cin := -1 * cin0 in
  let apcp := inches apcp0 in
  let p := if Rlt_dec (apcp - pwat / 1000) (1 / 100) then without_precipitation cape cin else with_precipitation cape apcp in
  let p := if Rle_dec cape 0 then stable liftidx apcp else p in
  let p := if Rlt_dec pwat 20 then option_map (fun p => p * (pwat / 20)) p else p in
  option_map (fun p => if Rlt_dec (95 / 100) p then 95 / 100 else p) p.

(** lines 243-318: presence and units (of five inputs), times in seconds, reference times, grids. *)
Record input := { in_name : string; in_units : string; in_time : Z; in_bounds : option (Z * Z); in_frt : Z; in_grid : Z }.
Definition wanted : list (string * list string) :=
  [("atmosphere_specific_convective_available_potential_energy", ["J kg-1"]);
   ("temperature_difference_between_ambient_air_and_air_lifted_adiabatically", ["K"]);
   ("precipitable_water", ["kg m-2"; "mm"]);
   ("atmosphere_specific_convective_inhibition", ["J kg-1"]);
   ("precipitation_amount", ["kg m-2"; "mm"])]%string.
(** extract_cube wants exactly one cube of the name. *)
Definition extract (cubes : list input) (name : string) : result input :=
  match filter (fun c => String.eqb (in_name c) name) cubes with [c] => Ok c | _ => Err ValueError end.
Definition get (cubes : list input) (w : string * list string) : result input :=
  let* c := extract cubes (fst w) in if existsb (String.eqb (in_units c)) (snd w) then Ok c else Err ValueError.
Definition get_inputs (cubes : list input) : result (list input * input) :=
  let* l := mapM (get cubes) wanted in
  match l with
  | [cape; liftidx; pwat; cin; apcp] =>
      let others := [cape; liftidx; pwat; cin] in
      match in_bounds apcp with
      | None => Err TypeError
      | Some (lower, upper) =>
          if negb (forallb (fun c => in_time c =? lower)%Z others) then Err ValueError else
          if negb (upper - lower =? 10800)%Z then Err ValueError else
          if negb (forallb (fun c => in_frt c =? in_frt apcp)%Z others) then Err ValueError else
          if negb (forallb (fun c => in_grid c =? in_grid apcp)%Z others) then Err ValueError else Ok (others, apcp)
      end
  | _ => Err ValueError
  end.
