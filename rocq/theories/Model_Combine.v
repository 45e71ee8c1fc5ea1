(** Model of improver/cube_combiner.py: CubeCombiner, masked_add, Combine without a minimum number of realizations, MaxInTimeWindow. The data of a cube are a function of the index
    along each dimension; None is a masked value. A dimension coordinate is its name and points (metadata and bounds of dimension coordinates are taken to agree); dtypes, names and
    attributes are not modelled; the name of the broadcast coordinate is given (see Model_State for "threshold"). *)
From Verif Require Import Base Model_Reference.
Local Open Scope Q_scope.

Record cube := { dims : list dimcoord; scalars : list string; vals : list nat -> option Q }.
Definition size_of (d : dimcoord) : nat := length (dpoints d).
Definition shape_of (c : cube) : list nat := map size_of (dims c).

(** cube_combiner.py:160-171 [COMBINE_OPERATORS]; numpy operators on masked arrays give a masked value where either is masked. *)
Inductive operator := Lift (f : Q -> Q -> Q) | MaskedAdd.
Definition operator_of (op : string) : result operator :=
  if (existsb (String.eqb op) ["+"; "add"; "mean"])%string then Ok (Lift Qplus)
  else if (existsb (String.eqb op) ["-"; "subtract"])%string then Ok (Lift Qminus)
  else if (existsb (String.eqb op) ["*"; "multiply"])%string then Ok (Lift Qmult)
  else if (op =? "max")%string then Ok (Lift Qmax)
  else if (op =? "min")%string then Ok (Lift Qmin)
  else if (op =? "masked_add")%string then Ok MaskedAdd
  else Err ValueError.
(** cube_combiner.py:131-154 [masked_add] at one element. *)
Definition masked_add (a b : option Q) : option Q :=
  match a, b with None, None => None | _, _ => Some ((match a with Some x => x | None => 0 end) + (match b with Some y => y | None => 0 end)) end.
Definition apply_op (o : operator) (a b : option Q) : option Q :=
  match o with
  | Lift f => match a, b with Some x, Some y => Some (f x y) | _, _ => None end
  | MaskedAdd => masked_add a b
  end.

(** numpy broadcasting of an array of shape sb against one of shape sa, when the result must have shape sa (iris refuses data of another shape): trailing dimensions are aligned,
    each equal or one. *)
Fixpoint fits_rev (sa sb : list nat) : bool :=
  match sb, sa with
  | [], _ => true
  | _ :: _, [] => false
  | b :: sb, a :: sa => ((b =? a)%nat || (b =? 1)%nat) && fits_rev sa sb
  end.
Definition fits (sa sb : list nat) : bool := fits_rev (rev sa) (rev sb).
(** The element of the smaller array used for an index of the result. *)
Definition align (sb idx : list nat) : list nat := map (fun p => if (fst p =? 1)%nat then 0%nat else snd p) (combine sb (skipn (length idx - length sb) idx)).

(** cube_combiner.py:207-237 [_check_dimensions_match]: zip stops at the shorter list of coordinates. *)
Definition dims_match (cmp : dimcoord -> dimcoord -> bool) (c ref : cube) : bool := forallb (fun p => cmp (fst p) (snd p)) (combine (dims c) (dims ref)).
(** cube_combiner.py:389-400 [_coords_are_broadcastable]. *)
Definition broadcastable (a b : dimcoord) : bool := ((dname a =? dname b)%string && ((size_of a =? 1)%nat || (size_of b =? 1)%nat))%bool.
Definition comparator (broadcast : option string) (a b : dimcoord) : bool :=
  match broadcast with None => coord_eq a b | Some _ => (coord_eq a b || broadcastable a b)%bool end.
Fixpoint index_of (name : string) (ds : list dimcoord) : option nat :=
  match ds with [] => None | d :: r => if (dname d =? name)%string then Some 0%nat else option_map S (index_of name r) end.
(** enforce_coordinate_ordering: the named dimensions first, in the given order, then the others. *)
Definition reorder (order : list string) (c : cube) : cube :=
  let named := flat_map (fun n => filter (fun d => (dname d =? n)%string) (dims c)) order in
  let others := filter (fun d => negb (existsb (String.eqb (dname d)) order)) (dims c) in
  let new := named ++ others in
  {| dims := new; scalars := scalars c; vals := fun idx => vals c (map (fun d => match index_of (dname d) new with Some i => nth i idx 0%nat | None => 0%nat end) (dims c)) |}.
(** iris.util.new_axis: a leading dimension of length one. *)
Definition add_axis (name : string) (c : cube) : cube := {| dims := {| dname := name; dpoints := [0] |} :: dims c; scalars := scalars c; vals := fun idx => vals c (tl idx) |}.
Definition has_dim (name : string) (c : cube) : bool := existsb (fun d => (dname d =? name)%string) (dims c).
Definition has_scalar (name : string) (c : cube) : bool := existsb (String.eqb name) (scalars c).
(** cube_combiner.py:339-387 [_setup_coords_for_broadcast]. *)
Definition setup_broadcast (name : string) (cubes : list cube) : result (list cube) :=
  match cubes with
  | [] => Err IndexError
  | target :: _ =>
      if negb (has_dim name target || has_scalar name target) then Err CoordinateNotFoundError
      else mapM (fun c => if has_dim name c then Ok c else if has_scalar name c then Err TypeError
                          else Ok (reorder (map dname (dims target)) (add_axis name c))) cubes
  end.

Definition remove_nth {A} (i : nat) (l : list A) : list A := firstn i l ++ skipn (S i) l.
Definition insert_nth {A} (i : nat) (x : A) (l : list A) : list A := firstn i l ++ x :: skipn i l.
(** cube_combiner.py:312-330: one more cube, element by element; [fields] is what the loop assigns to result.data. *)
Definition combine_plain (o : operator) (acc c : cube) : result cube :=
  if fits (shape_of acc) (shape_of c)
  then Ok {| dims := dims acc; scalars := scalars acc; vals := fun idx => apply_op o (vals acc idx) (vals c (align (shape_of c) idx)) |}
  else Err ValueError.
(** The loop over realizations, cube_combiner.py:315-327: slices are taken in pairs, and zip stops at the smaller number of realizations. ra is the position of the realization
    dimension in the first cube. slices_over puts no condition on the position in the other cube. *)
Definition combine_realizations (o : operator) (ra : nat) (acc c : cube) : result cube :=
  match index_of "realization" (dims c) with
  | None => if has_scalar "realization" c
            then (if fits (remove_nth ra (shape_of acc)) (shape_of c)
                  then Ok {| dims := dims acc; scalars := scalars acc; vals := fun idx =>
                        if (nth ra idx 0 <? 1)%nat then apply_op o (vals acc idx) (vals c (align (shape_of c) (remove_nth ra idx))) else vals acc idx |}
                  else Err ValueError)
            else Err CoordinateNotFoundError
  | Some rc =>
      if fits (remove_nth ra (shape_of acc)) (remove_nth rc (shape_of c))
      then Ok {| dims := dims acc; scalars := scalars acc; vals := fun idx =>
             let k := nth ra idx 0%nat in
             if (k <? nth rc (shape_of c) 0)%nat
             then apply_op o (vals acc idx) (vals c (insert_nth rc k (align (remove_nth rc (shape_of c)) (remove_nth ra idx)))) else vals acc idx |}
      else Err ValueError
  end.
Fixpoint foldM {A B} (f : A -> B -> result A) (l : list B) (a : A) : result A := match l with [] => Ok a | x :: r => let* a := f a x in foldM f r a end.
(** cube_combiner.py:299-337 [_combine_cube_data]. *)
Definition combine_data (op : string) (broadcast : option string) (cubes : list cube) : result cube :=
  let* o := operator_of op in
  match cubes with
  | [] => Err IndexError
  | c0 :: rest =>
      let sliced := match index_of "realization" (dims c0) with
                    | Some ra => if (match broadcast with Some b => (b =? "realization")%string | None => false end) then None else Some ra
                    | None => None end in
      let* r := foldM (match sliced with Some ra => combine_realizations o ra | None => combine_plain o end) rest c0 in
      Ok (if (op =? "mean")%string then {| dims := dims r; scalars := scalars r; vals := fun idx => option_map (fun x => x / Qlen cubes) (vals r idx) |} else r)
  end.
(** cube_combiner.py:402-449 [process], data only. *)
Definition combine_cubes (op : string) (broadcast : option string) (cubes : list cube) : result cube :=
  let* _ := operator_of op in
  if (length cubes <? 2)%nat then Err ValueError else
  let* cubes := match broadcast with Some b => setup_broadcast b cubes | None => Ok cubes end in
  match cubes with
  | [] => Err IndexError
  | c0 :: rest => if forallb (fun c => dims_match (comparator broadcast) c c0) rest then combine_data op broadcast cubes else Err ValueError
  end.

(** cube_combiner.py:486-525 [MaxInTimeWindow._check_input_cubes]: the time bounds of each cube. *)
Definition check_periods (bounds : list (option (Q * Q))) : result unit :=
  if negb (forallb (fun b => match b with Some _ => true | None => false end) bounds) then Err ValueError
  else match bounds with
       | Some (l, h) :: r => if forallb (fun b => match b with Some (l', h') => (h' - l') =? (h - l) | None => false end) r then Ok tt else Err ValueError
       | _ => Ok tt end.
(** cube_combiner.py:570-591 [process]. *)
Definition max_in_window (cubes : list (option (Q * Q) * cube)) : result cube :=
  let* _ := check_periods (map fst cubes) in combine_cubes "max" None (map snd cubes).
(** cube_manipulation.py:565-620 [expand_bounds] for one scalar coordinate: (point, bounds) of each cube gives the new point and bounds. *)
Definition expand (coords : list (Q * option (Q * Q))) : result (Q * (Q * Q)) :=
  if forallb (fun c => match snd c with Some _ => false | None => true end) coords
  then match map fst coords with [] => Err ValueError | p :: r => Ok (qmaxl p r, (qminl p r, qmaxl p r)) end
  else if forallb (fun c => match snd c with Some _ => true | None => false end) coords
  then match flat_map (fun c => match snd c with Some (l, h) => [l; h] | None => [] end) coords with [] => Err ValueError | p :: r => Ok (qmaxl p r, (qminl p r, qmaxl p r)) end
  else Err ValueError.
