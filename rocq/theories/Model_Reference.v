(** Model of improver/utilities/forecast_reference_enforcement.py: EnforceConsistentForecasts, normalise_to_reference, split_cubes_by_name. Data are the values in C order.
    Units are the ones of the forecast already, or [units_ok] is false when they cannot be converted (the conversion of the caller's reference in place is not modelled); the
    forecast and its reference have the same shape; no masks, no NaN. *)
From Verif Require Import Base.
Local Open Scope Q_scope.

(** A constructor argument that may be a value or a list. *)
Inductive arg (A : Type) := One (a : A) | Many (l : list A).
Arguments One {A} a.
Arguments Many {A} l.
Definition is_list {A} (a : arg A) : bool := match a with One _ => false | Many _ => true end.
(** l[i] on a Python list. *)
Definition item {A} (l : list A) (i : nat) : result A := match nth_error l i with Some x => Ok x | None => Err IndexError end.
(** forecast_reference_enforcement.py:27-63 [__init__]. *)
Record enforcer := { e_add : arg Q; e_mul : arg Q; e_cmp : arg string; e_warn : option Q }.
(** a != x where a is a number or a list (a list differs from any number). *)
Definition differs (a : arg Q) (x : Q) : bool := match a with One v => negb (v =? x) | Many _ => true end.
(** forecast_reference_enforcement.py:65-89 [calculate_bound]. *)
Definition calculate_bound (ref : list Q) (add mul : Q) : list Q := map (fun x => add + x) (map (fun x => mul * x) ref).
Fixpoint zip3 {A B C D} (f : A -> B -> C -> D) (a : list A) (b : list B) (c : list C) : list D :=
  match a, b, c with x :: a, y :: b, z :: c => f x y z :: zip3 f a b c | _, _, _ => [] end.
(** numpy.clip with optional bounds. *)
Definition clip_opt (x : Q) (lo hi : option Q) : Q :=
  let x := match lo with Some l => Qmax x l | None => x end in match hi with Some h => Qmin x h | None => x end.
Fixpoint any_gt (a b : list Q) : bool := match a, b with x :: a, y :: b => ((y <? x) || any_gt a b)%bool | _, _ => false end.
Definition spread (n : nat) (b : option (list Q)) : list (option Q) := match b with Some l => map Some l | None => repeat None n end.
(** forecast_reference_enforcement.py:146-205: the two bounds. *)
Definition enforcement_bounds (e : enforcer) (ref : list Q) : result (option (list Q) * option (list Q)) :=
  match e_add e, e_mul e, e_cmp e with
  | Many adds, Many muls, Many cmps =>
      let* a0 := item adds 0 in let* m0 := item muls 0 in let lower := calculate_bound ref a0 m0 in
      let* a1 := item adds 1 in let* m1 := item muls 1 in let upper := calculate_bound ref a1 m1 in
      let* b := (if list_eq_dec string_dec cmps ["<="%string; ">="%string] then Ok (upper, lower)
                 else if list_eq_dec string_dec cmps [">="%string; "<="%string] then Ok (lower, upper) else Err ValueError) in
      if any_gt (fst b) (snd b) then Err ValueError else Ok (Some (fst b), Some (snd b))
  | One add, One mul, One cmp =>
      let bound := calculate_bound ref add mul in
      if string_dec cmp ">=" then Ok (Some bound, None) else if string_dec cmp "<=" then Ok (None, Some bound) else Err ValueError
  | _, _, _ => Err ValueError
  end.
(** forecast_reference_enforcement.py:91-219 [process]: the new forecast, and whether the warning is given. *)
Definition enforce (e : enforcer) (units_ok probability : bool) (forecast ref : list Q) : result (list Q * bool) :=
  if negb units_ok then Err ValueError
  else if ((differs (e_add e) 0 || differs (e_mul e) 1) && probability)%bool then Err ValueError
  else
    let* b := enforcement_bounds e ref in
    if negb (length ref =? length forecast)%nat then Err ValueError else
    let n := length forecast in
    let new := zip3 clip_opt forecast (spread n (fst b)) (spread n (snd b)) in
    let diffs := map (fun p => Qabs (fst p - snd p)) (combine new forecast) in
    match diffs with
    | [] => Err ValueError
    | d :: r => Ok (new, match e_warn e with Some w => w <? qmaxl d r | None => false end)
    end.

(** A dimension coordinate: its name and points. *)
Record dimcoord := { dname : string; dpoints : list Q }.
Fixpoint points_eq (a b : list Q) : bool := match a, b with [], [] => true | x :: a, y :: b => ((x =? y) && points_eq a b)%bool | _, _ => false end.
Definition coord_eq (a b : dimcoord) : bool := ((dname a =? dname b)%string && points_eq (dpoints a) (dpoints b))%bool.
Record field := { f_dims : list dimcoord; f_data : list Q }.
Definition shape (f : field) : list nat := map (fun c => length (dpoints c)) (f_dims f).
(** forecast_reference_enforcement.py:274-283: each coordinate is looked up by name, whatever its position. *)
Definition coords_found (ref f : field) : bool := forallb (fun c => existsb (fun r => coord_eq c r) (f_dims ref)) (f_dims f).
Definition addl (a b : list Q) : list Q := map (fun p => fst p + snd p) (combine a b).
(** forecast_reference_enforcement.py:222-329 [normalise_to_reference]. numpy broadcasting between different shapes is taken as an error. *)
Definition normalise (cubes : list field) (ref : field) (probability ignore_zero : bool) : result (list field) :=
  match cubes with
  | [] | [_] => Err ValueError
  | c0 :: cs =>
      if existsb (fun c => negb (length (f_dims c) =? length (f_dims ref))%nat) cubes then Err ValueError
      else if (negb (forallb (coords_found ref) cubes) && negb probability)%bool then Err ValueError
      else if existsb (fun c => if list_eq_dec Nat.eq_dec (shape c) (shape ref) then false else true) cubes then Err ValueError
      else
        let total := fold_left (fun t c => addl t (f_data c)) cs (f_data c0) in
        let bad := existsb (fun p => ((fst p =? 0) && negb (snd p =? 0))%bool) (combine total (f_data ref)) in
        if (bad && negb ignore_zero)%bool then Err ValueError
        else
          let total := map (fun t => if t =? 0 then 1 else t) total in
          Ok (map (fun c => {| f_dims := f_dims c; f_data := zip3 (fun r x t => r * x / t) (f_data ref) (f_data c) total |}) cubes)
  end.

(** forecast_reference_enforcement.py:332-363 [split_cubes_by_name]: a cube is a pair of its name and its content. *)
Definition split_by_name {A} (cubes : list (string * A)) (names : option (list string)) : list (string * A) * list (string * A) :=
  match names with
  | None => (cubes, [])
  | Some ns => (filter (fun c => existsb (String.eqb (fst c)) ns) cubes, filter (fun c => negb (existsb (String.eqb (fst c)) ns)) cubes)
  end.
