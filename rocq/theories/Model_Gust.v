(** Model of improver/wind_calculations/wind_gust_diagnostic.py (WindGustDiagnostic.process), wind_calculations/vertical_updraught.py (VerticalUpdraught) and uv_index.py (calculate_uv_index).
    Data over the real numbers, in canonical units; times are integer seconds. Attributes, titles and spatial coordinate checks are not modelled. *)
From Coq Require Import Reals List Bool ZArith.
From Verif Require Import Base.
From Coq Require Import Lra.
Import ListNotations.
Local Open Scope R_scope.

(** ** Gusts: wind_gust_diagnostic.py *)
(** A cube of percentiles: the name of the percentile coordinate, its points, a field of times and points for each, the time points ([None]: no time coordinate) and bounds.
    A cube whose time is scalar has one time point and a field without a time dimension ([one_time]). *)
Record pcube := { p_name : string; p_points : list R; p_fields : list (list (list R)); p_times : option (list Z); p_bounds : option (list (Z * Z)) }.
Definition reqb (x y : R) : bool := if Req_EM_T x y then true else false.
(** lines 88-127: the field of the percentile asked for. *)
Fixpoint percentile_field (q : R) (ps : list R) (fs : list (list (list R))) : option (list (list R)) := match ps, fs with p :: ps', f :: fs' => if reqb p q then Some f else percentile_field q ps' fs' | _, _ => None end.
(** lines 159-176: zip stops at the end of the shorter list. *)
Definition times_agree (gust ws : list Z) : bool := forallb (fun x => Z.eqb (fst x) (snd x)) (combine gust ws).
Definition times_inside (ws : list Z) (bounds : list (Z * Z)) : bool := forallb (fun x => (Z.leb (fst (snd x)) (fst x) && Z.leb (fst x) (snd (snd x)))%bool) (combine ws bounds).
Definition times_match (gust ws : pcube) : bool :=
  match p_times gust, p_times ws with
  | Some tg, Some tw => if times_agree tg tw then true else match p_bounds gust with None => false | Some b => times_inside tw b end
  | _, _ => false
  end.
(** lines 181-184: numpy.maximum of two fields; one time is broadcast over the times of the other. *)
Definition rowmax (a b : list R) : list R := map (fun x => Rmax (fst x) (snd x)) (combine a b).
Definition field_max (a b : list (list R)) : result (list (list R)) :=
  if (length a =? length b)%nat then Ok (map (fun x => rowmax (fst x) (snd x)) (combine a b))
  else match a, b with
       | _, [r] => Ok (map (fun x => rowmax x r) a)
       | [r], _ => Ok (map (fun x => rowmax r x) b)
       | _, _ => Err ValueError
       end.
(** lines 129-188. *)
Definition gust_diagnostic (pg pw : R) (gust ws : pcube) : result (list (list R)) :=
  match percentile_field pg (p_points gust) (p_fields gust), percentile_field pw (p_points ws) (p_fields ws) with
  | Some fg, Some fw => if negb (String.eqb (p_name gust) (p_name ws)) then Err ValueError else if times_match gust ws then field_max fg fw else Err ValueError
  | _, _ => Err ValueError
  end.

(** ** Updraught: vertical_updraught.py:90-132 and 163-167 *)
Definition minimum_cape : R := 10.
Definition minimum_precip : R := 5.
Definition from_cape (c : R) : R := if Rlt_dec c minimum_cape then 0 else 1 / 4 * sqrt (2 * c).
Definition from_precip (p : R) : R := if Rlt_dec p minimum_precip then 0 else 733 / 100 * Rpower (p / (287 / 10)) (22 / 100).
Definition updraught (c p : R) : R := from_cape c + from_precip p.
(** lines 90-109. *)
Record stamp := { st_time : Z; st_bounds : option (Z * Z); st_frt : Z }.
Definition updraught_times (cape precip : stamp) : bool :=
  match st_bounds cape with Some _ => false | None => if negb (Z.eqb (st_frt cape) (st_frt precip)) then false else match st_bounds precip with None => false | Some b => Z.eqb (st_time cape) (fst b) end end.
Definition updraught_field (tc tp : stamp) (cape precip : list R) : result (list R) := if updraught_times tc tp then Ok (map (fun x => updraught (fst x) (snd x)) (combine cape precip)) else Err ValueError.

(** ** Ultraviolet index: uv_index.py:58-83. None is NaN. *)
Definition uv_name : string := "surface_downwelling_ultraviolet_flux_in_air".
Definition uv_bad (x : option R) : bool := match x with None => true | Some v => if Rlt_dec v 0 then true else false end.
Definition uv_index (name : string) (scale : R) (flux : list (option R)) : result (list (option R)) :=
  if negb (String.eqb name uv_name) then Err ValueError else if existsb uv_bad flux then Err ValueError else Ok (map (option_map (fun v => v * scale)) flux).
