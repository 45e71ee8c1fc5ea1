(** Model of improver/calibration/dz_rescaling.py, in real numbers (float32 is not modelled).
    The historic forecasts and truths are given as after filter_non_matching_cubes (C64) and the extraction of the 50th percentile: a list of sites, each with its values at the same times; no missing data.
    The logarithm of a ratio that is not positive is no number: None; so is NaN. *)
From Coq Require Import Reals.
From Verif Require Import Base Model_Wind Model_Lightprob.
Local Open Scope R_scope.

(** lines 82-119 (_fit_polynomial): numpy's polyfit of degree 1 is the least squares line; with fewer than two different dz it warns of a poor fit (not modelled: None). *)
Definition total {A} (f : A -> R) (l : list A) : R := rsum (map f l).
Definition determinant (l : list (R * R)) : R := INR (length l) * total (fun p => fst p * fst p) l - total fst l * total fst l.
Definition slope (l : list (R * R)) : option R :=
  if Req_EM_T (determinant l) 0 then None else Some ((INR (length l) * total (fun p => fst p * snd p) l - total fst l * total snd l) / determinant l).
Definition bounds := (option R * option R)%type.
Definition in_bounds (b : bounds) (d : R) : bool :=
  (match fst b with Some lo => if Rle_dec lo d then true else false | None => true end) && (match snd b with Some hi => if Rle_dec d hi then true else false | None => true end).
Definition nonzero (x : R) : bool := if Req_EM_T x 0 then false else true.
(** (dz, forecast, truth) *)
Definition used (b : bounds) (p : R * (R * R)) : bool := nonzero (fst (snd p)) && nonzero (snd (snd p)) && in_bounds b (fst p).
Definition log_ratio (p : R * (R * R)) : option (R * R) := option_map (fun y => (fst p, y)) (log (fst (snd p) / snd (snd p))).
Fixpoint all_some {A} (l : list (option A)) : option (list A) := match l with [] => Some [] | Some x :: r => option_map (cons x) (all_some r) | None :: _ => None end.
Definition fit (b : bounds) (points : list (R * (R * R))) : option R := match all_some (map log_ratio (filter (used b) points)) with Some l => slope l | None => None end.

(** lines 121-143 (_compute_scaled_dz): exp of minus the scale factor times a bound, which may be infinite. *)
Inductive xreal := Fin (x : R) | Infinite | Nan.
Definition exp_bound (k : R) (b : option R) (upper : bool) : xreal :=
  match b with
  | Some x => Fin (exp (-1 * k * x))
  | None => if Req_EM_T k 0 then Nan else if Rlt_dec 0 (if upper then k else - k) then Fin 0 else Infinite
  end.
Definition amin (a b : xreal) : xreal := match a, b with Nan, _ | _, Nan => Nan | Fin x, Fin y => Fin (Rmin x y) | Fin x, Infinite | Infinite, Fin x => Fin x | Infinite, Infinite => Infinite end.
Definition amax (a b : xreal) : xreal := match a, b with Nan, _ | _, Nan => Nan | Fin x, Fin y => Fin (Rmax x y) | _, _ => Infinite end.
Definition clip_x (v : R) (lo hi : xreal) : option R :=
  match lo, hi with Fin l, Fin h => Some (Rmin (Rmax v l) h) | Fin l, Infinite => Some (Rmax v l) | _, _ => None end.
Definition scaled_dz (k : R) (b : bounds) (dz : R) : option R :=
  let x := exp_bound k (fst b) false in let y := exp_bound k (snd b) true in clip_x (exp (-1 * k * dz)) (amin x y) (amax x y).

(** lines 182-209 (_create_hour_coord): the hour of the reference time, in seconds; [time] is the first time. *)
Definition hour_seconds (t : Z) : Z := (t mod 86400 / 3600 * 3600)%Z.
Definition frt_hour (time : Z) (fp_hours : Z) : Z := hour_seconds (time - fp_hours * 3600).
(** lines 211-288 (process): the sites that all three have, each cube in its own order. *)
Definition site_data (A : Type) := list (Z * A).
Definition extract_sites {A} (sites : Z -> bool) (c : site_data A) : list A := map snd (filter (fun e => sites (fst e)) c).
Definition has {A} (c : site_data A) (s : Z) : bool := existsb (fun e => (fst e =? s)%Z) c.
Definition training (forecasts truths : site_data (list R)) (dz : site_data R) : list (R * (R * R)) :=
  let sites s := has forecasts s && has truths s && has dz s in
  concat (map (fun e => map (pair (fst e)) (snd e)) (combine (extract_sites sites dz) (map (fun e => combine (fst e) (snd e)) (combine (extract_sites sites forecasts) (extract_sites sites truths))))).
Definition scale_factor (b : bounds) (forecasts truths : site_data (list R)) (dz : site_data R) : option R := fit b (training forecasts truths dz).
Record scaled := { sc_sites : list Z; sc_values : list (option R); sc_period : Z; sc_hour : Z }.
Definition estimate (fp_hours time : Z) (b : bounds) (forecasts truths : site_data (list R)) (dz : site_data R) : scaled :=
  {| sc_sites := map fst dz; sc_values := map (fun e => match scale_factor b forecasts truths dz with Some k => scaled_dz k b (snd e) | None => None end) dz; sc_period := fp_hours * 3600; sc_hour := frt_hour time fp_hours |}.

(** lines 291-442 (ApplyDzRescaling): the scaled dz are merged over forecast periods and hours of the reference time. *)
Record table := { tb_sites : list Z; tb_periods : list Z; tb_hours : list Z; tb_values : nat -> nat -> list R }.
Record forecast := { fc_sites : list Z; fc_period : Z; fc_frt : Z; fc_rows : list (list R) }.
Fixpoint zs_eqb (a b : list Z) : bool := match a, b with [], [] => true | x :: a', y :: b' => (x =? y)%Z && zs_eqb a' b' | _, _ => false end.
Fixpoint first_index {A} (p : A -> bool) (l : list A) : option nat := match l with [] => None | x :: r => if p x then Some 0%nat else option_map S (first_index p r) end.
(** lines 343-375: the first period that is at least the forecast's, else the last. *)
Definition period_index (periods : list Z) (fp : Z) : nat := match first_index (fun x => (0 <=? x - fp)%Z) periods with Some i => i | None => (length periods - 1)%nat end.
(** lines 378-397 *)
Definition hour_wanted (frt leniency : Z) : Z := ((frt mod 86400 / 3600 + leniency) mod 24 * 3600)%Z.
(** lines 420-422: sorted(range(-n, n + 1), key=abs), stable. *)
Definition leniencies (n : Z) : list Z := isort (fun a b => Z.abs a <=? Z.abs b)%Z (map (fun i => Z.of_nat i - n)%Z (seq 0 (Z.to_nat (2 * n + 1)))).
Fixpoint first_hour (hours : list Z) (frt : Z) (ls : list Z) : option nat :=
  match ls with [] => None | l :: r => match first_index (Z.eqb (hour_wanted frt l)) hours with Some i => Some i | None => first_hour hours frt r end end.
Definition times (row values : list R) : list R := map (fun p => fst p * snd p) (combine row values).
Definition apply_dz (n : Z) (f : forecast) (t : table) : result forecast :=
  if zs_eqb (fc_sites f) (tb_sites t)
  then match first_hour (tb_hours t) (fc_frt f) (leniencies n) with
       | Some h => Ok {| fc_sites := fc_sites f; fc_period := fc_period f; fc_frt := fc_frt f; fc_rows := map (fun row => times row (tb_values t (period_index (tb_periods t) (fc_period f)) h)) (fc_rows f) |}
       | None => Err ValueError
       end
  else Err ValueError.
