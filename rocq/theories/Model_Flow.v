(** Model of improver/nowcasting/optical_flow.py. Fields are h rows by w columns of exact rationals in mm/h; None is a masked value.
    The weight given to the rain of a box, 1 - exp(-x / 0.8), is the argument [damp]; it is not computed. *)
From Verif Require Import Base Model_Nbhood Model_Nowcast.
Local Open Scope Q_scope.

(** ** Derivatives *)
(** lines 350-378 [interp_to_midpoint]. *)
Definition midpoint (g : grid Q) : grid Q := fun i j => (1 # 4) * (g (i + 1)%Z j + g i (j + 1)%Z + g (i + 1)%Z (j + 1)%Z + g i j).
(** lines 393-396: the differences along an axis (1: x, 0: y), interpolated along the other. *)
Definition diff (axis : Z) (g : grid Q) : grid Q := fun i j => if (axis =? 0)%Z then g (i + 1)%Z j - g i j else g i (j + 1)%Z - g i j.
Definition half_way (axis : Z) (g : grid Q) : grid Q := fun i j => if (axis =? 0)%Z then (1 # 2) * (g i j + g (i + 1)%Z j) else (1 # 2) * (g i j + g i (j + 1)%Z).
(** lines 397-400, 414-417: zeros around the fields of cell centres. *)
Definition surrounded (h w : Z) (g : grid Q) : grid Q := fun i j => if ((1 <=? i) && (i <=? h - 1) && (1 <=? j) && (j <=? w - 1))%Z then g (i - 1)%Z (j - 1)%Z else 0.
(** lines 380-401 [_partial_derivative_spatial]. *)
Definition spatial (axis h w : Z) (d1 d2 : grid Q) : grid Q :=
  midpoint (surrounded h w (fun i j => (1 # 2) * (half_way (1 - axis) (diff axis d1) i j + half_way (1 - axis) (diff axis d2) i j))).
(** lines 403-418 [_partial_derivative_temporal]. *)
Definition temporal (h w : Z) (d1 d2 : grid Q) : grid Q := midpoint (surrounded h w (midpoint (fun i j => d2 i j - d1 i j))).

(** ** Boxes *)
(** lines 445-447, 725-728: the box in row bi and column bj, the last ones cut off by the edge. The list of boxes in order of rows, put into this shape. *)
Definition boxes (n size : Z) : Z := ((n - 1) / size + 1)%Z.
Definition box_sum (h w size : Z) (f : grid Q) (bi bj : Z) : Q :=
  zsum (bi * size) (Z.to_nat (Z.min size (h - bi * size))) (fun i => zsum (bj * size) (Z.to_nat (Z.min size (w - bj * size))) (fun j => f i j)).
(** lines 442-456 [_make_subboxes], the weights. *)
Definition box_weight (damp : Q -> Q) (h w size : Z) (d1 d2 : grid Q) : grid Q := fun bi bj =>
  let x := (1 # 2) / inject_Z (size * size) * (box_sum h w size d1 bi bj + box_sum h w size d2 bi bj) in
  let e := damp x in if e <? 1 # 100 then 0 else e.
(** lines 631-660 [solve_for_uv], 705-722: the inverse of the matrix of a box, by its determinant. *)
Definition solve (a b c p q : Q) : Q * Q := let det := a * c - b * b in if det =? 0 then (0, 0) else (- ((c * p - b * q) / det), - ((a * q - b * p) / det)).
Definition displacement (h w size : Z) (dx dy dt : grid Q) (bi bj : Z) : Q * Q :=
  let s f g := box_sum h w size (fun i j => f i j * g i j) bi bj in
  solve (s dx dx) (s dx dy) (s dy dy) (s dx dt) (s dy dt).
(** lines 662-680 [extreme_value_check]. *)
Definition extreme (rows : Z) (uv : Q * Q) : bool := inject_Z rows / 3 <? Qabs (fst uv) + Qabs (snd uv).

(** ** Smoothing *)
(** scipy's reflection at the edges: d c b a | a b c d | d c b a. *)
Definition reflected (n i : Z) : Z := let m := (i mod (2 * n))%Z in if (m <? n)%Z then m else (2 * n - 1 - m)%Z.
(** A sum over offsets up to r with a symmetric kernel. *)
Definition weighted_sum (at_y at_x : Z -> Z) (r : Z) (kernel f : grid Q) : grid Q := fun i j =>
  zsum (- r) (Z.to_nat (2 * r + 1)) (fun dy => zsum (- r) (Z.to_nat (2 * r + 1)) (fun dx => kernel dy dx * f (at_y (i + dy)%Z) (at_x (j + dx)%Z))).
(** lines 566-569. *)
Definition neighbours : grid Q := fun dy dx => if ((dy =? 0) && (dx =? 0))%Z then 0 else if ((dy =? 0) || (dx =? 0))%Z then 1 # 6 else 1 # 12.
Definition around (h w : Z) (f : grid Q) : grid Q := weighted_sum (reflected h) (reflected w) 1 neighbours f.
(** lines 545-596 [_smart_smooth]. *)
Definition smart (h w : Z) (ws point iter : grid Q) : grid Q := fun i j =>
  let vn := around h w (fun a b => ws a b * iter a b) i j in
  let nw := around h w ws i j in
  let v := around h w iter i j in
  let v := if 0 <? Qabs nw then vn / nw else v in
  if 0 <? Qabs (ws i j) then (vn * (9 # 10) + point i j * ((1 # 10) * ws i j)) / ((9 # 10) * nw + (1 # 10) * ws i j) else v.
Fixpoint smart_times (n : nat) (h w : Z) (ws point iter : grid Q) : grid Q := match n with O => iter | S k => smart_times k h w ws point (smart h w ws point iter) end.
(** lines 476-511 [makekernel]: 1 - |linspace(-1, 1, 2 r + 1)| in both directions, over its sum. *)
Definition tent (r t : Z) : Q := 1 - Qabs (inject_Z t / inject_Z r).
Definition tent_total (r : Z) : Q := zsum (- r) (Z.to_nat (2 * r + 1)) (fun dy => zsum (- r) (Z.to_nat (2 * r + 1)) (fun dx => tent r dy * tent r dx)).
Definition tents (r : Z) : grid Q := fun dy dx => tent r dy * tent r dx / tent_total r.
Inductive smoothing := Kernel | Box.
(** lines 513-543 [smooth]. *)
Definition smooth (m : smoothing) (h w r : Z) (f : grid Q) : grid Q :=
  match m with
  | Kernel => weighted_sum (reflected h) (reflected w) r (tents r) f
  | Box => weighted_sum (nearest h) (nearest w) r (fun _ _ => 1 / inject_Z ((2 * r + 1) * (2 * r + 1))) f
  end.
(** lines 458-474 [_box_to_grid] and 598-629 [_smooth_advection_fields]. *)
Definition to_grid (size : Z) (f : grid Q) : grid Q := fun i j => f (i / size)%Z (j / size)%Z.
Definition smooth_boxes (iterations : nat) (h w size : Z) (ws f : grid Q) : grid Q :=
  smooth Kernel h w (size / 3) (to_grid size (smart_times iterations (boxes h size) (boxes w size) ws f f)).
(** lines 682-741 [calculate_displacement_vectors], of the smoothed fields. *)
Definition found (h w size : Z) (d1 d2 : grid Q) (bi bj : Z) : Q * Q := displacement h w size (spatial 1 h w d1 d2) (spatial 0 h w d1 d2) (temporal h w d1 d2) bi bj.
Definition checked (h w size : Z) (d1 d2 : grid Q) (bi bj : Z) : Q * Q := let uv := found h w size d1 d2 bi bj in if extreme (boxes h size) uv then (0, 0) else uv.
Definition checked_weight (damp : Q -> Q) (h w size : Z) (d1 d2 : grid Q) (bi bj : Z) : Q := if extreme (boxes h size) (found h w size d1 d2 bi bj) then 0 else box_weight damp h w size d1 d2 bi bj.
Definition displacements (damp : Q -> Q) (iterations : nat) (h w size : Z) (d1 d2 : grid Q) : grid Q * grid Q :=
  let ws := checked_weight damp h w size d1 d2 in
  (smooth_boxes iterations h w size ws (fun i j => fst (checked h w size d1 d2 i j)), smooth_boxes iterations h w size ws (fun i j => snd (checked h w size d1 d2 i j))).
(** lines 782-833 [process_dimensionless]; the warning is not modelled. *)
Definition dimensionless (damp : Q -> Q) (m : smoothing) (iterations : nat) (h w size radius : Z) (d1 d2 : grid Q) : grid Q * grid Q :=
  displacements damp iterations h w size (smooth m h w radius d1) (smooth m h w radius d2).

(** ** The plugin *)
Record plugin := { pl_method : smoothing; pl_km : Q; pl_iterations : nat }.
(** lines 229-233 [__init__]. *)
Definition new_plugin (m : smoothing) (km : Q) (n : nat) : result plugin := if (n <? 20)%nat then Err ValueError else Ok {| pl_method := m; pl_km := km; pl_iterations := n |}.
(** A field: name, axes (the points, projected and equally spaced), time and forecast period in seconds, values in mm/h. *)
Record field := { o_name : string; o_y : list Q; o_x : list Q; o_time : Z; o_period : option Z; o_data : grid (option Q) }.
Definition rows (f : field) : Z := Z.of_nat (length (o_y f)).
Definition cols (f : field) : Z := Z.of_nat (length (o_x f)).
Definition same_axis (a b : list Q) : bool := ((length a =? length b)%nat && forallb (fun p => fst p =? snd p) (combine a b))%bool.
(** lines 261-292 [_check_input_cubes], of the names and the axes. *)
Definition check_fields (f g : field) : result unit :=
  if negb (String.eqb (o_name f) (o_name g)) then Err ValueError else if (same_axis (o_x f) (o_x g) && same_axis (o_y f) (o_y g))%bool then Ok tt else Err InvalidCubeError.
(** lines 294-323 [_get_advection_time]. *)
Definition advection_time (f g : field) : result Z :=
  let* t := if (o_time g - o_time f =? 0)%Z then
              match o_period g with
              | Some p => if (p =? 0)%Z then match o_period f with Some q => Ok q | None => Err CoordinateNotFoundError end else Err InvalidCubeError
              | None => match o_period f with Some q => Ok q | None => Err CoordinateNotFoundError end
              end
            else Ok (o_time g - o_time f)%Z in
  if (t <=? 0)%Z then Err InvalidCubeError else Ok t.
(** lines 325-348 [_get_smoothing_radius]. *)
Definition smoothing_radius (km : Q) (t : Z) (spacing : Q) : result Z :=
  let km := if (900 <? t)%Z then km * (inject_Z t / 900) else km in
  let r := truncate (km / spacing) in if (r <? 3)%Z then Err ValueError else Ok r.
(** lines 907-918. *)
Definition filled (f : field) : grid Q := fun i j => match o_data f i j with Some x => x | None => 0 end.
Definition dry (f : field) : bool := forallb (fun p => Qabs (filled f (fst p) (snd p)) <=? 1 # 100000000) (indices (rows f) (cols f)).
(** lines 835-950 [process]; [spacing] is the grid length in km; the time of the results is that of the second field. *)
Definition velocities (damp : Q -> Q) (p : plugin) (spacing : Q) (size : Z) (f g : field) : result (grid Q * grid Q) :=
  let* _ := check_fields f g in
  let* t := advection_time f g in
  let* r := smoothing_radius (pl_km p) t spacing in
  if (size <? r)%Z then Err ValueError
  else if (dry f || dry g)%bool then Ok (fun _ _ => 0, fun _ _ => 0)
  else
    let uv := dimensionless damp (pl_method p) (pl_iterations p) (rows f) (cols f) size r (filled f) (filled g) in
    let speed (d : grid Q) : grid Q := fun i j => d i j * (1000 * spacing) / inject_Z t in
    Ok (speed (fst uv), speed (snd uv)).
(** lines 34-81 [generate_optical_flow_components]: sorted by time, consecutive pairs, mean. *)
Fixpoint insert_time (f : field) (l : list field) : list field := match l with [] => [f] | g :: r => if (o_time g <? o_time f)%Z then g :: insert_time f r else f :: l end.
Definition by_time (l : list field) : list field := fold_right insert_time [] l.
Fixpoint consecutive {A} (l : list A) : list (A * A) := match l with a :: (b :: _) as r => (a, b) :: consecutive r | _ => [] end.
Definition mean_grid (gs : list (grid Q)) : grid Q := fun i j => qsum (map (fun g => g i j) gs) / Qlen gs.
Definition components (damp : Q -> Q) (size : Z) (iterations : nat) (spacing : Q) (l : list field) : result (grid Q * grid Q) :=
  match by_time l with
  | [] => Err IndexError
  | s => let* p := new_plugin Box 14 iterations in
         let* uvs := mapM (fun fg => velocities damp p spacing size (fst fg) (snd fg)) (consecutive s) in
         match uvs with [] => Err ValueError | _ => Ok (mean_grid (map fst uvs), mean_grid (map snd uvs)) end
  end.
(** lines 127-146 [_perturb_background_flow] at a point: a perturbation that is not finite is left out. *)
Definition perturbed (flow : Q) (adjustment : option Q) : Q := match adjustment with Some a => a + flow | None => flow end.
