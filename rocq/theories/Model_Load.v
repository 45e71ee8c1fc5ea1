(** Model of improver/utilities/load.py (load_cubelist, load_cube) with cube_manipulation.py lines 126-145 (strip_var_names) and metadata/probabilistic.py lines 128-165 (find_threshold_coordinate), on top of Model_Manip (enforce_coordinate_ordering).
    A file is what iris.load gives for it before constraints (cubes already merged within the file, every coordinate with a standard or long name); a constraint is a test of cubes.  Loading lazily is not modelled. *)
From Verif Require Import Base Model_Manip.
Open Scope string_scope.
Open Scope list_scope.

Record coordinate := { co_name : string; co_var : option string; co_axis : option string }.
Record loaded (A : Type) := { ld_long_name : option string; ld_var : option string; ld_attributes : list (string * string); ld_coords : list coordinate; ld_cube : cube A }.
Arguments ld_long_name {A}. Arguments ld_var {A}. Arguments ld_attributes {A}. Arguments ld_coords {A}. Arguments ld_cube {A}. Arguments Build_loaded {A}.

Definition is_some (s : string) (o : option string) : bool := match o with Some t => String.eqb t s | None => false end.
(** probabilistic.py lines 152-165: the only coordinate of that name, or the first with that variable name. *)
Definition threshold_name (coords : list coordinate) : option string :=
  match filter (fun c => String.eqb (co_name c) "threshold") coords with
  | [_] => Some "threshold"
  | _ => option_map co_name (find (fun c => is_some "threshold" (co_var c)) coords)
  end.
(** cube_manipulation.py lines 139-144. *)
Definition strip_coord (c : coordinate) : coordinate := if is_some "threshold" (co_var c) then c else {| co_name := co_name c; co_var := None; co_axis := co_axis c |}.
Definition strip_var_names {A} (l : loaded A) : loaded A :=
  {| ld_long_name := ld_long_name l; ld_var := None; ld_attributes := ld_attributes l; ld_coords := map strip_coord (ld_coords l); ld_cube := ld_cube l |}.
(** cube.coord(axis=..). *)
Definition axis_name (axis : string) (coords : list coordinate) : result string :=
  match filter (fun c => is_some axis (co_axis c)) coords with [c] => Ok (co_name c) | _ => Err CoordinateNotFoundError end.
(** load.py lines 69-80. *)
Definition tidy {A} (l : loaded A) : result (loaded A) :=
  let attributes := filter (fun e => negb (String.eqb (fst e) "bald__isPrefixedBy")) (ld_attributes l) in
  let* c := enforce_ordering (ld_cube l) (threshold_name (ld_coords l)) ["realization"; "percentile"; "threshold"] true in
  let* y := axis_name "y" (ld_coords l) in
  let* x := axis_name "x" (ld_coords l) in
  let* c := enforce_ordering c (threshold_name (ld_coords l)) [y; x] false in
  Ok {| ld_long_name := ld_long_name l; ld_var := ld_var l; ld_attributes := attributes; ld_coords := ld_coords l; ld_cube := c |}.
(** lines 46-59. *)
Definition not_prefixes {A} (l : loaded A) : bool := negb (is_some "prefixes" (ld_long_name l)).
Definition selected {A} (wanted : loaded A -> bool) (files : list (list (loaded A))) : list (loaded A) := flat_map (filter (fun l => not_prefixes l && wanted l)%bool) files.
(** lines 20-85; [wanted] is the constraint (true of every cube where there is none). *)
Definition load_cubelist {A} (wanted : loaded A -> bool) (files : list (list (loaded A))) : result (list (loaded A)) :=
  match selected wanted files with
  | [] => Err ValueError
  | cubes => mapM tidy (map strip_var_names cubes)
  end.
(** lines 88-121; [merge] is MergeCubes. *)
Definition load_cube {A} (merge : list (loaded A) -> result (loaded A)) (wanted : loaded A -> bool) (files : list (list (loaded A))) : result (loaded A) :=
  let* cubes := load_cubelist wanted files in match cubes with [c] => Ok c | _ => merge cubes end.
