(** Model of improver/utilities/cube_checker.py, common_input_handle.py, flatten.py and mask.py on the labelled cubes of Model_Manip. *)
From Verif Require Import Base Model_Manip.
Local Open Scope nat_scope.

(** ** utilities/flatten.py lines 10-31 and common_input_handle.py lines 12-35: arguments are items or sequences of arguments (None: an item that is no cube). *)
Inductive arg (A : Type) := Item (x : A) | Nested (l : list (arg A)).
Arguments Item {A}. Arguments Nested {A}.
Fixpoint flatten {A} (a : arg A) : list A := match a with Item x => [x] | Nested l => flat_map flatten l end.
Fixpoint all_some {A} (l : list (option A)) : option (list A) := match l with [] => Some [] | Some x :: r => option_map (cons x) (all_some r) | None :: _ => None end.
Definition as_cubelist {A} (args : list (arg (option A))) : result (list A) :=
  match all_some (flatten (Nested args)) with None => Err TypeError | Some [] => Err ValueError | Some l => Ok l end.

(** ** cube_checker.py *)
(** lines 125-155 (find_dimension_coordinate_mismatch): the names of dimension coordinates that are on one of the cubes only (as a set). *)
Definition dim_names {A} (c : cube A) : list string := flat_map (fun d => match fst d with Some s => [s] | None => [] end) (cb_dims c).
Definition smem (s : string) (l : list string) : bool := existsb (String.eqb s) l.
Definition mismatch {A B} (a : cube A) (b : cube B) (two_way : bool) : list string :=
  filter (fun s => negb (smem s (dim_names a))) (dim_names b) ++ (if two_way then filter (fun s => negb (smem s (dim_names b))) (dim_names a) else []).
(** lines 72-122 (check_cube_coordinates): [dims] are the dimension coordinates of the cube; [aux] are the other coordinates of the new cube, each with its first dimension or none if it is a scalar.
    iris.util.new_axis refuses coordinates that are not scalar and puts the new dimension first. numpy: nothing can be inserted beyond the end; an empty array is one of floats, which the transpose refuses. *)
Definition new_axis {A} (s : string) (c : cube A) : cube A := {| cb_dims := (Some s, 1) :: cb_dims c; cb_data := fun idx => cb_data c (tl idx) |}.
Fixpoint promote {A} (dims : list string) (aux : list (string * option nat)) (c : cube A) : result (cube A) :=
  match aux with
  | [] => Ok c
  | (s, d) :: r => if smem s dims then match d with None => promote dims r (new_axis s c) | Some _ => Err ValueError end else promote dims r c
  end.
Definition assoc {A} (s : string) (l : list (string * A)) : option A := match find (fun e => String.eqb s (fst e)) l with Some e => Some (snd e) | None => None end.
Definition position {A} (promoted : nat) (aux : list (string * option nat)) (c : cube A) (s : string) : result nat :=
  match dim_of s 0 (cb_dims c) with
  | Some k => Ok k
  | None => match assoc s aux with Some (Some k) => Ok (promoted + k) | Some None => Err IndexError | None => Err CoordinateNotFoundError end
  end.
Definition insert_at (l : list nat) (d : nat) : result (list nat) := if d <=? length l then Ok (firstn d l ++ d :: skipn d l) else Err IndexError.
Fixpoint insert_all (l : list nat) (ds : list nat) : result (list nat) := match ds with [] => Ok l | d :: r => let* m := insert_at l d in insert_all m r end.
Definition check_coordinates {A} (dims : list string) (c : cube A) (aux : list (string * option nat)) (exceptions : list string) : result (cube A) :=
  let* new := promote dims (rev aux) c in
  if negb (length dims + length exceptions =? length (dim_names new)) then Err CoordinateNotFoundError else
  let* order := mapM (fun s => match dim_of s 0 (cb_dims new) with Some k => Ok k | None => Err KeyError end) dims in
  let* only := mapM (position (length (cb_dims new) - length (cb_dims c)) aux new) exceptions in
  let* order := insert_all order only in
  match dims, order with [], _ :: _ => Err TypeError | _, _ => transpose new order end.
(** lines 182-223 (assert_time_coords_valid); [A]: coordinates, compared by [eqb]. *)
Record timed_cube (A : Type) := { tc_time : A; tc_bounded : bool; tc_reference : option A; tc_blend : bool }.
Arguments tc_time {A}. Arguments tc_bounded {A}. Arguments tc_reference {A}. Arguments tc_blend {A}.
Definition assert_times {A} (eqb : A -> A -> bool) (l : list (timed_cube A)) (bounded : bool) : result unit :=
  match l with
  | c :: (_ :: _) as r =>
      if negb (forallb (fun x => Bool.eqb (tc_bounded x) bounded) l) then Err ValueError else
      if negb (forallb (fun x => eqb (tc_time x) (tc_time c)) (tl l)) then Err ValueError else
      if tc_blend c then Ok tt else
      let* rs := mapM (fun x => match tc_reference x with Some t => Ok t | None => Err CoordinateNotFoundError end) l in
      match rs with t :: ts => if forallb (fun x => eqb x t) ts then Ok tt else Err ValueError | [] => Ok tt end
  | _ => Err ValueError
  end.

(** ** mask.py lines 18-69 (apply_mask). A cube with its name and its coordinates that are no dimensions; None is masked. The mask has no masked points. [nc_threshold] is the name of its threshold coordinate, if any. *)
Record ncube := { nc_name : string; nc_aux : list string; nc_threshold : option string; nc_cube : cube (option Q) }.
Definition with_cube (c : ncube) (d : cube (option Q)) : ncube := {| nc_name := nc_name c; nc_aux := nc_aux c; nc_threshold := nc_threshold c; nc_cube := d |}.
(** CubeList.extract_cube, then remove: the place of the only cube of that name and the rest. *)
Definition extract_cube (s : string) (l : list ncube) : result (ncube * list ncube) :=
  match filter (fun c => String.eqb (nc_name c) s) l with [m] => Ok (m, filter (fun c => negb (String.eqb (nc_name c) s)) l) | _ => Err ConstraintMismatchError end.
(** lines 53-55: numpy's conversion to bool (and its inverse). *)
Definition truth (v : option Q) : bool := match v with Some q => negb (q =? 0)%Q | None => true end.
Definition as_bool (invert : bool) (c : cube (option Q)) : cube (option Q) := {| cb_dims := cb_dims c; cb_data := fun idx => Some (if xorb (truth (cb_data c idx)) invert then 1 else 0)%Q |}.
(** numpy.ma.array(data, mask): a mask of one value is spread, one of as many values is reshaped, any other is refused (MaskError); masked data stay masked. *)
Fixpoint ravel (shape idx : list nat) (acc : nat) : nat := match shape, idx with n :: s, i :: r => ravel s r (acc * n + i) | _, _ => acc end.
Fixpoint size (shape : list nat) : nat := match shape with [] => 1 | n :: s => n * size s end.
Fixpoint unravel (shape : list nat) (k : nat) : list nat := match shape with [] => [] | n :: s => k / size s :: unravel s (k mod size s) end.
Definition shape_of {A} (c : cube A) : list nat := map snd (cb_dims c).
Definition list_eqb (a b : list nat) : bool := if list_eq_dec Nat.eq_dec a b then true else false.
Definition masked_array (c m : cube (option Q)) : result (cube (option Q)) :=
  let put := fun f : list nat -> list nat => Ok {| cb_dims := cb_dims c; cb_data := fun idx => if truth (cb_data m (f idx)) then None else cb_data c idx |} in
  if list_eqb (shape_of m) (shape_of c) then put (fun idx => idx) else
  if size (shape_of m) =? 1 then put (fun _ => unravel (shape_of m) 0) else
  if size (shape_of m) =? size (shape_of c) then put (fun idx => unravel (shape_of m) (ravel (shape_of c) idx 0)) else Err RuntimeError.
(** The result and, since it is changed in place, the mask cube afterwards. *)
Definition apply_mask (args : list (arg (option ncube))) (mask_name : string) (invert : bool) : result (ncube * ncube) :=
  let* cubes := as_cubelist args in
  if negb (length cubes =? 2) then Err ValueError else
  let* found := extract_cube mask_name cubes in let '(mask, rest) := found in
  match rest with
  | c :: _ =>
      let* m := enforce_ordering (as_bool invert (nc_cube mask)) (nc_threshold mask) (dim_names (nc_cube c) ++ nc_aux c) true in
      match mismatch (nc_cube c) m true with
      | [] => let* d := masked_array (nc_cube c) m in Ok (with_cube c d, with_cube mask m)
      | _ => Err ValueError
      end
  | [] => Err IndexError
  end.
