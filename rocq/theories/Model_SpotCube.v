(** Model of improver/spotdata/build_spotdata_cube.py (build_spotdata_cube) and of what iris.cube.Cube checks of the coordinates it is given.
    A coordinate is its name and the number of its points; coordinates of one name count as the same (iris compares names, units and attributes). The data are their shape: they are put into the cube as they are. *)
From Verif Require Import Base.
Local Open Scope nat_scope.
Local Open Scope string_scope.
Local Open Scope list_scope.

Record coord := { c_name : string; c_len : nat }.
Record spotcube := { s_name : string; s_shape : list nat; s_dims : list (coord * nat); s_aux : list (coord * option nat) }.
(** one site may be given as numbers and a text instead of lists. *)
Inductive data_shape := Scalar | Shaped (shape : list nat).

(** iris.cube.Cube: dimension coordinates: a new name, a dimension that the data have, that has no coordinate yet, and of that length. *)
Fixpoint add_dims (shape : list nat) (names : list string) (used : list nat) (l : list (coord * nat)) : result (list string) :=
  match l with
  | [] => Ok names
  | (c, d) :: r =>
    if existsb (String.eqb (c_name c)) names then Err ValueError else
    if existsb (Nat.eqb d) used then Err ValueError else
    match nth_error shape d with
    | None => Err ValueError
    | Some n => if negb (n =? c_len c)%nat then Err ValueError else add_dims shape (c_name c :: names) (d :: used) r
    end
  end.
(** auxiliary coordinates: a new name, and the length of the dimension, or one point without a dimension. *)
Fixpoint add_aux (shape : list nat) (names : list string) (l : list (coord * option nat)) : result unit :=
  match l with
  | [] => Ok tt
  | (c, d) :: r =>
    if existsb (String.eqb (c_name c)) names then Err ValueError else
    match d with
    | None => if (c_len c =? 1)%nat then add_aux shape (c_name c :: names) r else Err ValueError
    | Some k => match nth_error shape k with
                | None => Err IndexError
                | Some n => if (n =? c_len c)%nat then add_aux shape (c_name c :: names) r else Err ValueError
                end
    end
  end.
Definition cube (name : string) (shape : list nat) (dims : list (coord * nat)) (aux : list (coord * option nat)) : result spotcube :=
  let* names := add_dims shape [] [] dims in
  let* _ := add_aux shape names aux in
  Ok {| s_name := name; s_shape := shape; s_dims := dims; s_aux := aux |}.

(** lines 120-155: a dimension and the auxiliary coordinate that names its parts, if it is asked for. *)
Definition named_dimension (dim_name key_name : string) (members : option nat) (current : nat) : list (coord * nat) * list (coord * option nat) * nat :=
  match members with
  | None => ([], [], current)
  | Some n => ([({| c_name := dim_name; c_len := n |}, current)], [({| c_name := key_name; c_len := n |}, Some current)], S current)
  end.
(** lines 157-165: zip stops at the shorter list. *)
Fixpoint further_dims (l : list (coord * list coord)) (current : nat) : list (coord * nat) * list (coord * option nat) * nat :=
  match l with
  | [] => ([], [], current)
  | (c, aux) :: r => let '(d, a, k) := further_dims r (S current) in ((c, current) :: d, map (fun x => (x, Some current)) aux ++ a, k)
  end.
(** line 159: [additional_dims_aux or [[] for _ in additional_dims]]. *)
Definition aux_lists (dims : list coord) (aux : option (list (list coord))) : list (list coord) := match aux with None | Some [] => map (fun _ => []) dims | Some l => l end.

(** lines 14-195. [site] has the numbers of altitudes, latitudes, longitudes and WMO ids; [unique] the number of unique ids; [key] their name. *)
Definition build (data : data_shape) (name : string) (altitudes latitudes longitudes wmo_ids : nat) (unique : option nat) (key : option string) (scalars auxiliary : list coord)
    (methods attributes : option nat) (additional : option (list coord)) (additional_aux : option (list (list coord))) : result spotcube :=
  let* unique_coord := match unique with
                       | None => Ok []
                       | Some n => match key with None | Some "" => Err ValueError | Some k => Ok [{| c_name := k; c_len := n |}] end
                       end in
  let shape := match data with Scalar => [1] | Shaped s => s end in
  match rev shape with
  | [] => Err IndexError
  | sites :: _ =>
    let '(d1, a1, k1) := named_dimension "neighbour_selection_method" "neighbour_selection_method_name" methods 0 in
    let '(d2, a2, k2) := named_dimension "grid_attributes" "grid_attributes_key" attributes k1 in
    let '(d3, a3, k3) := match additional with None => ([], [], k2) | Some l => further_dims (combine l (aux_lists l additional_aux)) k2 end in
    let site_coords := [{| c_name := "altitude"; c_len := altitudes |}; {| c_name := "latitude"; c_len := latitudes |}; {| c_name := "longitude"; c_len := longitudes |}; {| c_name := "wmo_id"; c_len := wmo_ids |}] ++ unique_coord in
    cube name shape (d1 ++ d2 ++ d3 ++ [({| c_name := "spot_index"; c_len := sites |}, k3)])
      (map (fun c => (c, None)) scalars ++ a1 ++ a2 ++ a3 ++ map (fun c => (c, Some k3)) (site_coords ++ auxiliary))
  end.
