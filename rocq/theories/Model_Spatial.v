(** Model of grid distances in improver/utilities/spatial.py and of the halo functions in improver/utilities/pad_spatial.py. A coordinate
    is the list of its points, in metres. numpy.mean of no numbers is NaN (None). Units, masks, metadata, the loop over slices and the pad
    methods with statistics are not modelled. *)
From Verif Require Import Base Model_Percentiles Model_Nbhood Model_Vicinity.
Local Open Scope Q_scope.

Fixpoint diffs (l : list Q) : list Q := match l with x :: ((y :: _) as r) => (y - x) :: diffs r | _ => [] end.
Definition mean_of (l : list Q) : option Q := match l with [] => None | _ => Some (qsum l / Qlen l) end.
(** spatial.py:63-96 [calculate_grid_spacing], rtol = 1e-5, atol = 0. *)
Definition grid_spacing (points : list Q) : result (option Q) :=
  let d := map Qabs (diffs points) in
  match mean_of d with
  | None => Ok None
  | Some m => if forallb (fun x => Qle_bool (Qabs (x - m)) ((1 # 100000) * Qabs m)) d then Ok (Some m) else Err ValueError
  end.
(** spatial.py:99-140 [distance_to_number_of_grid_cells] with return_int. int(nan) is a ValueError; a spacing of zero (a coordinate whose
    points all coincide) is not modelled. *)
Definition distance_to_cells (points : list Q) (distance : Q) : result Z :=
  if Qle_bool distance 0 then Err ValueError
  else
    let* s := grid_spacing points in
    match s with
    | None => Err ValueError
    | Some s => let cells := Qround.Qfloor (distance / Qabs s) in if (cells =? 0)%Z then Err ValueError else Ok cells
    end.
(** spatial.py:36-60 [check_if_grid_is_equal_area]; numpy.isclose is Model_Percentiles.isclose. *)
Definition check_equal_area (xs ys : list Q) : result unit :=
  let* dx := grid_spacing xs in
  let* dy := grid_spacing ys in
  match dx, dy with Some a, Some b => if isclose a b then Ok tt else Err ValueError | _, _ => Err ValueError end.
(** spatial.py:143-160 [number_of_grid_cells_to_distance]. *)
Definition cells_to_distance (xs ys : list Q) (n : Z) : result (option Q) :=
  let* _ := check_equal_area xs ys in
  let* s := grid_spacing xs in
  Ok (option_map (fun s => s * inject_Z n) s).

(** pad_spatial.py:24-73 [pad_coord]: the new points and bounds. The sum of the differences of the increments is compared with zero. *)
Inductive pad_action := Add | Remove.
Definition pad_coord (points : list Q) (width : nat) (action : pad_action) : result (list Q * list (Q * Q)) :=
  let increment := diffs points in
  if isclose (qsum (diffs increment)) 0 then
    match increment with
    | [] => Err IndexError
    | inc :: _ =>
        let new := match action with
          | Add => linspace (hd 0 points - Qn width * inc) (last points 0 + Qn width * inc) (length points + width + width)
          | Remove => firstn (length points - width - width) (skipn width points)
          end in
        Ok (new, map (fun p => (p - (1 # 2) * inc, p + (1 # 2) * inc)) new)
    end
  else Err ValueError.
(** pad_spatial.py:202-209: padding with zeros. *)
Definition pad_constant (wy wx h w : Z) (g : grid Q) : grid Q := fun i j => if inside h w (i - wy) (j - wx) then g (i - wy)%Z (j - wx)%Z else 0.
Definition pad_mirror (wy wx h w : Z) (g : grid Q) : grid Q := fun i j => g (reflect h (i - wy)) (reflect w (j - wx)).
(** pad_spatial.py:288-292: cube.data[width_y:end_y, width_x:end_x]. *)
Definition trim (wy wx : Z) (g : grid Q) : grid Q := fun i j => g (i + wy)%Z (j + wx)%Z.
