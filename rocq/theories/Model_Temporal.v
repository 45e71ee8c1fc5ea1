(** Model of improver/utilities/temporal_interpolation.py (TemporalInterpolation).
    Datetimes are integers (seconds since the epoch). Data are exact rationals, one
    list per time with one entry per grid point. Not modelled: cubes in degrees (complex
    representation), the solar elevation formula itself (sin_phi is an argument), the day/night
    mask itself (an argument), data types and rounding of coordinates. *)
From Verif Require Import Base.
Open Scope Z_scope.

(** Python's sorted(set(l)) on datetimes. *)
Fixpoint zins (x : Z) (l : list Z) : list Z :=
  match l with
  | [] => [x]
  | y :: r => if x <? y then x :: l else if x =? y then l else y :: zins x r
  end.
Definition zsortu (l : list Z) : list Z := fold_right zins [] l.

(** datetime.timedelta.seconds: the seconds part (0..86399); whole days are held separately. *)
Definition td_seconds (d : Z) : Z := d mod 86400.

(** temporal_interpolation.py:137-177 [TemporalInterpolation.__init__]. *)
Inductive method := Linear | Solar | DayNight.
Inductive period_kind := NoPeriod | Accum | PMax | PMin.
Record config := { c_interval : option Z; c_times : option (list Z); c_method : method; c_acc : bool; c_max : bool; c_min : bool }.
Definition b2n (b : bool) : nat := if b then 1%nat else 0%nat.
Definition init (c : config) : result config :=
  match c_interval c, c_times c with
  | None, None => Err ValueError
  | Some _, Some _ => Err ValueError
  | _, _ =>
    if Nat.ltb 1 (b2n (c_acc c) + b2n (c_max c) + b2n (c_min c)) then Err ValueError
    else if (c_acc c || c_max c || c_min c) && negb (match c_method c with Linear => true | _ => false end) then Err ValueError
    else Ok c
  end.
Definition period_inputs (c : config) : bool := c_acc c || c_max c || c_min c.

(** temporal_interpolation.py:231-236: the while loop. [fuel] bounds the iterations; OutOfFuel stands
    for a loop that does not end (negative interval). *)
Fixpoint interval_loop (fuel : nat) (step final entry : Z) : result (list Z) :=
  match fuel with
  | O => Err OutOfFuel
  | S f => let e := entry + step in
           if final <=? e then Ok []
           else let* r := interval_loop f step final e in Ok (e :: r)
  end.

(** temporal_interpolation.py:179-241 [construct_time_list], the returned list of times.
    (The aliasing of self.times is modelled in Model_State.v.) *)
Definition construct_time_list (c : config) (initial final : Z) : result (list Z) :=
  match c_times c with
  | Some ts =>
      let s := isort Z.leb ts in
      match s with
      | [] => Err IndexError
      | x :: _ => if (x <? initial) || (final <? last s x) then Err ValueError
                  else Ok (zsortu (s ++ [final]))
      end
  | None =>
      match c_interval c with
      | None => Ok (zsortu [final])
      | Some m =>
          if m =? 0 then Err ZeroDivision
          else if negb (Z.modulo (td_seconds (final - initial)) (60 * m) =? 0) then Err ValueError
          else let* l := interval_loop (S (Z.to_nat (final - initial))) (60 * m) final initial in
               Ok (zsortu (l ++ [final]))
      end
  end.

(** One input cube: time, optional time bounds, optional forecast period bounds, data. *)
Record tcube := { t_time : Z; t_bounds : option (Z * Z); t_data : list Q }.

(** iris.cube.interpolate(..., Linear()) between two times: value at time t. *)
Definition tlerp (t0 t1 : Z) (x0 x1 : Q) (t : Z) : Q :=
  (x0 + (x1 - x0) * (inject_Z (t - t0) / inject_Z (t1 - t0)))%Q.

Definition zip2 {A B C} (f : A -> B -> C) (l : list A) (m : list B) : list C := map (fun p => f (fst p) (snd p)) (combine l m).

Definition interp_fields (t0 t1 : Z) (d0 d1 : list Q) (ts : list Z) : list (list Q) :=
  map (fun t => zip2 (fun x0 x1 => tlerp t0 t1 x0 x1 t) d0 d1) ts.

(** temporal_interpolation.py:435-467 [add_bounds]: for time, and for forecast_period (the times minus a common
    reference time, so the same differences). *)
Definition add_bounds (t0 : Z) (ts : list Z) : list (Z * Z) := combine (removelast (t0 :: ts)) ts.

(** One grid point of temporal_interpolation.py:470-515 [_calculate_accumulation]:
    [rate0] the rate at t0, [rates] the interpolated rates, [ref] the original total of the period.
    None stands for the inf or nan numpy produces when the interpolated total is zero. *)
Fixpoint trapezia (t0 : Z) (r0 : Q) (l : list (Z * Q)) : list Q :=
  match l with
  | [] => []
  | (t, r) :: rest => (inject_Z (t - t0) * ((r0 + r) / 2))%Q :: trapezia t r rest
  end.
Definition renormalise (ref : Q) (l : list Q) : list (option Q) :=
  if (qsum l =? 0)%Q then map (fun _ => None) l else map (fun x => Some (x * (ref / qsum l))%Q) l.
Definition accumulate_point (t0 t1 : Z) (len0 len1 : Z) (a0 a1 : Q) (ts : list Z) : list (option Q) :=
  let r0 := (a0 / inject_Z len0)%Q in
  let r1 := (a1 / inject_Z len1)%Q in
  if len0 =? 0 then map (fun _ => None) ts (* division by a zero-length period: nan or inf everywhere *)
  else renormalise a1 (trapezia t0 r0 (map (fun t => (t, tlerp t0 t1 r0 r1 t)) ts)).

(** A returned slice: time, bounds, data. *)
Record tslice := { o_time : Z; o_bounds : option (Z * Z); o_data : list (option Q) }.

(** temporal_interpolation.py:324-395 [solar_interpolate] at one grid point, for one output time:
    [sp], [sn], [si] the sines of the solar elevation at the previous, next and interpolated times. *)
Definition solar_point (dstep dint : Z) (sp sn si xp xn : Q) : option Q :=
  if (0 <? si)%Q then
    if (sp =? 0)%Q || (sn =? 0)%Q then None
    else let p := (xp / sp)%Q in let n := (xn / sn)%Q in
         Some (si * (p + (n - p) * (inject_Z dint / inject_Z dstep)))%Q
  else Some 0%Q.
Definition solar_fields (sphi : Z -> list Q) (t0 t1 : Z) (d0 d1 : list Q) (ts : list Z) : result (list (list (option Q))) :=
  let dstep := td_seconds (t1 - t0) in
  if dstep =? 0 then Err ZeroDivision
  else Ok (map (fun t => let dint := td_seconds (t - t0) in
    zip2 (fun s x => solar_point dstep dint (fst (fst s)) (snd (fst s)) (snd s) (fst x) (snd x))
         (combine (combine (sphi t0) (sphi t1)) (sphi t)) (combine d0 d1)) ts).

(** temporal_interpolation.py:398-433 [daynight_interpolate]: zero where the mask says night. *)
Definition daynight_fields (night : Z -> list bool) (fields : list (Z * list Q)) : list (list Q) :=
  map (fun p => zip2 (fun (b : bool) x => if b then 0%Q else x) (night (fst p)) (snd p)) fields.

Definition has_bounds (c : tcube) : bool := match t_bounds c with Some _ => true | None => false end.
Definition blen (c : tcube) : Z := match t_bounds c with Some (a, b) => b - a | None => 0 end.

(** temporal_interpolation.py:546-614: the checks made by process before interpolating. *)
Definition check_inputs (c : config) (c0 c1 : tcube) : result unit :=
  if t_time c1 <? t_time c0 then Err ValueError
  else if xorb (has_bounds c0) (has_bounds c1) then Err ValueError
  else if has_bounds c0 && negb (period_inputs c) then Err ValueError
  else if period_inputs c then
    if negb (has_bounds c0) then Err ValueError
    else if negb (t_time c1 - t_time c0 =? blen c1) then Err ValueError
    else Ok tt
  else Ok tt.

Definition somes (l : list (list Q)) : list (list (option Q)) := map (map Some) l.

(** transpose helper for the accumulation path: the k-th output of every grid point. *)
Definition column {A} (d : A) (k : nat) (rows : list (list A)) : list A := map (fun r => nth k r d) rows.

(** temporal_interpolation.py:517-686 [process]. *)
Definition process (sphi : Z -> list Q) (night : Z -> list bool) (c : config) (c0 c1 : tcube) : result (list tslice) :=
  let* _ := check_inputs c c0 c1 in
  let t0 := t_time c0 in let t1 := t_time c1 in
  let* ts := construct_time_list c t0 t1 in
  match ts with
  | [t] => if t =? t1 then Ok [{| o_time := t1; o_bounds := t_bounds c1; o_data := map Some (t_data c1) |}]
           else Err RuntimeError (* unreachable: the list always contains the final time *)
  | _ =>
    let lin := interp_fields t0 t1 (t_data c0) (t_data c1) ts in
    let* fields :=
      if c_acc c then
        let pts := zip2 (fun a0 a1 => accumulate_point t0 t1 (blen c0) (blen c1) a0 a1 ts) (t_data c0) (t_data c1) in
        Ok (map (fun k => column None k pts) (seq 0 (length ts)))
      else if c_max c then Ok (somes (map (fun f => zip2 Qmin (t_data c1) f) lin))
      else if c_min c then Ok (somes (map (fun f => zip2 Qmax (t_data c1) f) lin))
      else match c_method c with
           | Linear => Ok (somes lin)
           | Solar => solar_fields sphi t0 t1 (t_data c0) (t_data c1) ts
           | DayNight => Ok (somes (daynight_fields night (combine ts lin)))
           end in
    let bnds := if period_inputs c then map Some (add_bounds t0 ts) else map (fun _ => None) ts in
    Ok (map (fun p => {| o_time := fst (fst p); o_bounds := snd (fst p); o_data := snd p |}) (combine (combine ts bnds) fields))
  end.
