(** Model of improver/utilities/cube_extraction.py (create_constraint, parse_constraint_list after its strings are read, apply_extraction, extract_subcube, thin_cube, ExtractSubCube, the filling of
    ExtractLevel) and of improver/utilities/cube_constraints.py. A cube is its dimension coordinates, its scalar coordinates and its values at every index. Constraints are the pairs key=value with the value
    read: one or more numbers, or a range of two numbers with an optional step. Not modelled: the reading of the text, values that are not numbers, ranges of longitude (which use Cube.intersection). *)
From Verif Require Import Base.
Local Open Scope Q_scope.

Record dim := { d_name : string; d_points : list Q }.
Record cube := { c_dims : list dim; c_scalars : list (string * Q); c_vals : list nat -> option Q }.
Inductive test := Values (l : list Q) | Range (a b : Q) (step : option Z).
Notation constraint := (string * test)%type.
(** numpy.isclose(x, y). *)
Definition isclose (x y : Q) : bool := Qabs (x - y) <=? (1 # 100000000) + (1 # 100000) * Qabs y.
(** cube_constraints.py:14-49 [create_sorted_lambda_constraint]: the two ends are sorted, then scaled. *)
Definition tolerance : Q := 1 # 10000000.
Definition range_test (a b x : Q) : bool :=
  let lo := (1 - tolerance) * Qmin a b in let hi := (1 + tolerance) * Qmax a b in ((lo <=? x) && (x <=? hi))%bool.
(** cube_extraction.py:39-62 [create_constraint]. *)
Definition passes (t : test) (x : Q) : bool := match t with Values l => existsb (isclose x) l | Range a b _ => range_test a b x end.
(** cube_extraction.py:107-151: single values are kept in a dictionary (the last one given for a key counts), ranges all apply. *)
Definition is_value_for (k : string) (c : constraint) : bool := match snd c with Values _ => (fst c =? k)%string | Range _ _ _ => false end.
Fixpoint effective (cs : list constraint) : list constraint :=
  match cs with
  | [] => []
  | c :: r => match snd c with Values _ => if existsb (is_value_for (fst c)) r then effective r else c :: effective r | Range _ _ _ => c :: effective r end
  end.
(** cube_extraction.py:131-132: the steps; the last one given for a key counts. *)
Definition step_of (k : string) (cs : list constraint) : option Z :=
  fold_left (fun acc c => match snd c with Range _ _ (Some s) => if (fst c =? k)%string then Some s else acc | _ => acc end) cs None.
Definition has_step (cs : list constraint) : bool := existsb (fun c => match snd c with Range _ _ (Some _) => true | _ => false end) cs.

(** cube_extraction.py:191-204: units are dictionaries from coordinate names to a conversion x -> scale * x + offset of the coordinate into the units asked for. *)
Definition conversion := (Q * Q)%type.
Definition conv (u : conversion) (x : Q) : Q := fst u * x + snd u.
Definition unconv (u : conversion) (x : Q) : Q := (x - snd u) / fst u.
Definition lookup {A} (k : string) (l : list (string * A)) : option A := option_map snd (find (fun p => (fst p =? k)%string) l).
Definition in_units (units : list (string * conversion)) (k : string) (x : Q) : Q := match lookup k units with Some u => conv u x | None => x end.
(** Does a coordinate value (in the units asked for) meet all the constraints on its coordinate? *)
Definition meets (cs : list constraint) (k : string) (x : Q) : bool := forallb (fun c => (negb (fst c =? k)%string || passes (snd c) x)%bool) cs.
Definition positions (cs : list constraint) (units : list (string * conversion)) (d : dim) : list nat :=
  filter (fun i => meets cs (d_name d) (in_units units (d_name d) (nth i (d_points d) 0))) (seq 0 (length (d_points d))).
Definition has_coord (k : string) (c : cube) : bool := (existsb (fun d => (d_name d =? k)%string) (c_dims c) || existsb (fun s => (fst s =? k)%string) (c_scalars c))%bool.
(** Cube.extract: the positions kept of each dimension, or None when no point meets the constraints or a coordinate is missing. *)
Definition kept (cs : list constraint) (units : list (string * conversion)) (c : cube) : option (list (list nat)) :=
  if negb (forallb (fun k => has_coord (fst k) c) cs) then None
  else if negb (forallb (fun s => meets cs (fst s) (in_units units (fst s) (snd s))) (c_scalars c)) then None
  else let ps := map (positions cs units) (c_dims c) in
       if existsb (fun p : list nat => match p with [] => true | _ => false end) ps then None else Some ps.
(** A constrained dimension of which one position is kept is indexed with it (iris's _ColumnIndexManager), which turns the dimension into a scalar coordinate. *)
Definition demoted (cs : list constraint) (d : dim) (p : list nat) : bool := ((length p =? 1)%nat && existsb (fun c => (fst c =? d_name d)%string) cs)%bool.
(** Points are converted back, unless the units asked for are to be kept (use_original_units=False): then they stay converted. *)
Definition final_point (back : bool) (units : list (string * conversion)) (k : string) (x : Q) : Q :=
  match lookup k units with Some u => if back then unconv u (conv u x) else conv u x | None => x end.
Definition pick_dim (back : bool) (units : list (string * conversion)) (d : dim) (p : list nat) : dim :=
  {| d_name := d_name d; d_points := map (fun i => final_point back units (d_name d) (nth i (d_points d) 0)) p |}.
Fixpoint rebuild (cs : list constraint) (ds : list dim) (ps : list (list nat)) (idx : list nat) : list nat :=
  match ds, ps with
  | d :: ds, p :: ps => if demoted cs d p then nth 0 p 0%nat :: rebuild cs ds ps idx
                        else match idx with i :: idx => nth i p 0%nat :: rebuild cs ds ps idx | [] => [] end
  | _, _ => []
  end.
Definition take (cs : list constraint) (back : bool) (units : list (string * conversion)) (c : cube) (ps : list (list nat)) : cube :=
  let zipped := combine (c_dims c) ps in
  {| c_dims := map (fun dp => pick_dim back units (fst dp) (snd dp)) (filter (fun dp => negb (demoted cs (fst dp) (snd dp))) zipped);
     c_scalars := map (fun s => (fst s, final_point back units (fst s) (snd s))) (c_scalars c) ++
                  map (fun dp => (d_name (fst dp), final_point back units (d_name (fst dp)) (nth (nth 0 (snd dp) 0%nat) (d_points (fst dp)) 0))) (filter (fun dp => demoted cs (fst dp) (snd dp)) zipped);
     c_vals := fun idx => c_vals c (rebuild cs (c_dims c) ps idx) |}.
(** cube_extraction.py:327-346 [thin_cube]: every step-th position; a step of zero is refused by slice, and a key that is not a dimension by list.index. Negative steps are not modelled (refused here). *)
Definition thin_positions (n : nat) (s : Z) : list nat := filter (fun i => (i mod Z.to_nat s =? 0)%nat) (seq 0 n).
Definition thin_cube (cs : list constraint) (c : cube) : result cube :=
  if negb (forallb (fun k => match snd k with Range _ _ (Some s) => (existsb (fun d => (d_name d =? fst k)%string) (c_dims c) && (0 <? s)%Z)%bool | _ => true end) cs) then Err ValueError
  else
    let pos := map (fun d => match step_of (d_name d) cs with Some s => thin_positions (length (d_points d)) s | None => seq 0 (length (d_points d)) end) (c_dims c) in
    Ok {| c_dims := map (fun dp => {| d_name := d_name (fst dp); d_points := map (fun i => nth i (d_points (fst dp)) 0) (snd dp) |}) (combine (c_dims c) pos);
          c_scalars := c_scalars c;
          c_vals := fun idx => c_vals c (map (fun pi => nth (snd pi) (fst pi) 0%nat) (combine pos idx)) |}.
(** cube_extraction.py:156-265 [apply_extraction], [extract_subcube]: the extracted cube (or none) and the caller's cube afterwards, whose coordinates are converted in place. A coordinate named in the
    units that the cube does not have is not found. *)
Definition convert_cube (f : conversion -> Q -> Q) (units : list (string * conversion)) (c : cube) : cube :=
  let g k x := match lookup k units with Some u => f u x | None => x end in
  {| c_dims := map (fun d => {| d_name := d_name d; d_points := map (g (d_name d)) (d_points d) |}) (c_dims c); c_scalars := map (fun s => (fst s, g (fst s) (snd s))) (c_scalars c); c_vals := c_vals c |}.
Definition extract_subcube (cs : list constraint) (units : option (list (string * conversion))) (use_original_units : bool) (c : cube) : result (option cube * cube) :=
  let us := match units with Some l => l | None => [] end in
  if negb (forallb (fun u => has_coord (fst u) c) us) then Err CoordinateNotFoundError
  else
    let after := if use_original_units then convert_cube (fun u x => unconv u (conv u x)) us c else convert_cube conv us c in
    match kept (effective cs) us c with
    | None => if has_step cs then Err AttributeError else Ok (None, after)
    | Some ps => let out := take (effective cs) use_original_units us c ps in
                 if has_step cs then let* t := thin_cube cs out in Ok (Some t, after) else Ok (Some out, after)
    end.
(** cube_extraction.py:268-324 [ExtractSubCube.process]. *)
Definition extract_process (cs : list constraint) (units : option (list (string * conversion))) (use_original_units ignore_failure : bool) (c : cube) : result cube :=
  let* (o, after) := extract_subcube cs units use_original_units c in
  match o with Some out => Ok out | None => if ignore_failure then Ok after else Err ValueError end.

(** cube_extraction.py:429-465 [_one_way_fill] along the coordinate, for one column of values; None is masked. *)
Fixpoint fill_from (inc : Q) (prev : option Q) (l : list (option Q)) : list (option Q) :=
  match l with
  | [] => []
  | o :: r => let v := match o with Some x => Some x | None => option_map (fun p => p + inc) prev end in v :: fill_from inc v r
  end.
Definition fill_forward (inc : Q) (l : list (option Q)) : list (option Q) := match l with [] => [] | o :: r => o :: fill_from inc o r end.
Definition fill_backward (inc : Q) (l : list (option Q)) : list (option Q) := rev (fill_forward (- inc) (rev l)).
(** cube_extraction.py:397-427 [fill_invalid], for all the columns. digits is the attribute least_significant_digit, or 2. increasing says that the coordinate's points increase strictly. *)
Definition increment (positive_correlation increasing : bool) (digits : Z) : Q := (if Bool.eqb positive_correlation increasing then 1 else -1) * Qpower 10 (- digits).
Definition complete (cols : list (list (option Q))) : bool := forallb (forallb (fun o : option Q => match o with Some _ => true | None => false end)) cols.
Definition fill_invalid (inc : Q) (cols : list (list (option Q))) : list (list (option Q)) :=
  if complete cols then cols
  else let cols := map (fill_backward inc) cols in if complete cols then cols else map (fill_forward inc) cols.
