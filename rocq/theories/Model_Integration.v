(** Model of improver/utilities/mathematical_operations.py: Integration (one column, the list of levels with their values; None is NaN) and fast_linear_fit (one line of values, None is a
    masked value or, with_nan, a NaN). The levels are those of a dimension coordinate: all different and in ascending or descending order. Masked data in Integration, names, units and
    the coordinates of the result other than the integrated one are not modelled. *)
From Verif Require Import Base.
Local Open Scope Q_scope.

Notation level := (Q * option Q)%type.
(** mathematical_operations.py:83-105 [ensure_monotonic_increase_in_chosen_direction]; cube_manipulation.py:412-465 [sort_coord_in_cube] is argsort, reversed if descending. *)
Definition ascending (l : list level) : list level := isort (fun a b => fst a <=? fst b) l.
Definition in_direction (positive : bool) (l : list level) : list level :=
  let increasing := increasing_b (map fst l) in
  if (increasing && negb positive)%bool then rev (ascending l)
  else if (negb increasing && positive)%bool then ascending l
  else l.
(** mathematical_operations.py:107-140 [prepare_for_integration]: pairs of (upper, lower) levels. Selecting no level gives None, which has no slices. *)
Definition prepare (positive : bool) (l : list level) : result (list (level * level)) :=
  match l with
  | [] => Err IndexError
  | [_] => Err AttributeError
  | x :: r => let all_but_last := removelast (x :: r) in Ok (if positive then combine r all_but_last else combine all_but_last r)
  end.
(** mathematical_operations.py:241-255 [skip_slice]: "if start_point" is false for None and for 0.0. *)
Definition truthy (p : option Q) : option Q := match p with Some x => if x =? 0 then None else Some x | None => None end.
Definition skip_slice (positive : bool) (start stop : option Q) (upper lower : Q) : bool :=
  (match truthy start with Some s => if positive then lower <? s else s <? upper | None => false end ||
   match truthy stop with Some e => if positive then e <? upper else lower <? e | None => false end)%bool.
(** mathematical_operations.py:283-290: one half of a layer. *)
Definition half_layer (stride : Q) (v : option Q) : Q := match v with Some x => if 0 <? x then x * (1 # 2) * stride else 0 | None => 0 end.
(** mathematical_operations.py:257-296: the loop; each entry of the result is (point, (lower bound, upper bound), value). *)
Fixpoint integrate_loop (positive : bool) (start stop : option Q) (integral : Q) (pairs : list (level * level)) : list (Q * (Q * Q) * Q) :=
  match pairs with
  | [] => []
  | (u, w) :: r =>
      if skip_slice positive start stop (fst u) (fst w) then integrate_loop positive start stop integral r
      else
        let stride := Qabs (fst u - fst w) in
        let integral := integral + (half_layer stride (snd u) + half_layer stride (snd w)) in
        (if positive then fst u else fst w, (fst w, fst u), integral) :: integrate_loop positive start stop integral r
  end.
(** mathematical_operations.py:213-337 [perform_integration], [process]. *)
Definition integration_process (positive : bool) (start stop : option Q) (l : list level) : result (list (Q * (Q * Q) * Q)) :=
  let* pairs := prepare positive (in_direction positive l) in
  match integrate_loop positive start stop 0 pairs with [] => Err ValueError | out => Ok out end.

(** mathematical_operations.py:340-406 [fast_linear_fit]: gradient and intercept, None where numpy divides by zero or has no numbers. *)
Definition mean (l : list Q) : Q := qsum l / Qlen l.
Definition valid_pairs (l : list (option Q * option Q)) : list (Q * Q) := flat_map (fun p => match p with (Some x, Some y) => [(x, y)] | _ => [] end) l.
Definition mismatched (l : list (option Q * option Q)) : bool := existsb (fun p => match p with (Some _, None) | (None, Some _) => true | _ => false end) l.
Definition linear_fit (l : list (Q * Q)) : option (Q * Q) :=
  let x_mean := mean (map fst l) in
  let y_mean := mean (map snd l) in
  let xy_cov := qsum (map (fun p => (fst p - x_mean) * (snd p - y_mean)) l) in
  let x_var := qsum (map (fun p => (fst p - x_mean) * (fst p - x_mean)) l) in
  if x_var =? 0 then None else let grad := xy_cov / x_var in Some (grad, y_mean - grad * x_mean).
Definition fast_linear_fit (l : list (option Q * option Q)) : result (option (Q * Q)) :=
  if mismatched l then Err ValueError else Ok (linear_fit (valid_pairs l)).
