(** Model of improver/regrid: bilinear.py, nearest.py, idw.py, grid.py, landsea2.py (RegridWithLandSeaMask) and landsea.py (RegridLandSea, AdjustLandSeaPoints, grid_contains_cutout).
    The source is a regular ascending grid: row i is at latitude lat0 + i dlat, column j at lon0 + j dlon, in exact arithmetic (rounding of coordinates and float32 are not modelled). A missing value is None: masked in a masked array, NaN otherwise. Other dimensions than the two of the grid are handled one slice at a time; the mask of the source is on the grid of the source. The transformation of projected targets to latitudes and longitudes, and of both to metres (KD-tree), is an argument. *)
From Coq Require Import Qround.
From Verif Require Import Base Model_Percentiles Model_Nbhood Proofs_Percentiles.
Local Open Scope Q_scope.

Record sgrid := { g_ny : Z; g_nx : Z; g_lat0 : Q; g_lon0 : Q; g_dlat : Q; g_dlon : Q }.
Definition lat_at (g : sgrid) (i : Z) : Q := g_lat0 g + inject_Z i * g_dlat g.
Definition lon_at (g : sgrid) (j : Z) : Q := g_lon0 g + inject_Z j * g_dlon g.
Notation target := (Q * Q)%type. (* latitude, longitude *)
(** grid.py:102-118 [latlon_from_cube]: the flattened points, row by row. *)
Definition in_lat (g : sgrid) (k : Z) : Q := lat_at g (k / g_nx g).
Definition in_lon (g : sgrid) (k : Z) : Q := lon_at g (k mod g_nx g).
(** numpy indexing of the flattened array. *)
Definition flat_index (g : sgrid) (k : Z) : result Z :=
  let n := (g_ny g * g_nx g)%Z in
  if ((0 <=? k) && (k <? n))%Z%bool then Ok k else if ((- n <=? k) && (k <? 0))%Z%bool then Ok (n + k)%Z else Err IndexError.

(** ** Cutting the source, points outside *)
(** grid.py:272-334 [slice_cube_by_domain], [slice_mask_cube_by_domain]. *)
Definition slice_axis (lo hi p0 d : Q) (n : Z) : list Z :=
  filter (fun i => ((lo - 2 * d <? p0 + inject_Z i * d) && (p0 + inject_Z i * d <? hi + 2 * d))%bool) (zseq n).
Definition qmax_of (l : list Q) : Q := match l with [] => 0 | a :: r => qmaxl a r end.
Definition qmin_of (l : list Q) : Q := match l with [] => 0 | a :: r => qminl a r end.
(** The smaller grid with the row and column at which it starts; no point left: extract gives None, an AttributeError later on. *)
Definition slice_grid (g : sgrid) (ts : list target) : result (sgrid * Z * Z) :=
  match ts with
  | [] => Err ValueError
  | _ =>
      match slice_axis (qmin_of (map fst ts)) (qmax_of (map fst ts)) (g_lat0 g) (g_dlat g) (g_ny g),
            slice_axis (qmin_of (map snd ts)) (qmax_of (map snd ts)) (g_lon0 g) (g_dlon g) (g_nx g) with
      | (r0 :: _) as rows, (c0 :: _) as cols =>
          Ok ({| g_ny := Z.of_nat (length rows); g_nx := Z.of_nat (length cols); g_lat0 := lat_at g r0; g_lon0 := lon_at g c0; g_dlat := g_dlat g; g_dlon := g_dlon g |}, r0, c0)
      | _, _ => Err AttributeError
      end
  end.
(** grid.py:382-417 [group_target_points_with_source_domain] for an ascending grid. *)
Definition in_source (g : sgrid) (t : target) : bool :=
  ((lat_at g 0 <=? fst t) && (fst t <=? lat_at g (g_ny g - 1)) && (lon_at g 0 <=? snd t) && (snd t <=? lon_at g (g_nx g - 1)))%bool.

(** ** The four surrounding points *)
Notation quad := (Z * Z * Z * Z)%type. (* bottom left, top left, top right, bottom right *)
(** bilinear.py:86-100. *)
Definition base_quad (g : sgrid) (t : target) : quad :=
  let n := Qfloor ((fst t - g_lat0 g) / g_dlat g) in
  let m := Qfloor ((snd t - g_lon0 g) / g_dlon g) in
  let i1 := (n * g_nx g + m)%Z in let i2 := (i1 + g_nx g)%Z in (i1, i2, i2 + 1, i1 + 1)%Z.
(** bilinear.py:170-181: the special treatment of the corner, 183-187 the top row, 189-193 the right-most column. *)
Definition fix_corner (nx : Z) (q : quad) : quad := let '(a, _, _, _) := q in let c := a in let b := (c - 1)%Z in let a' := (b - nx)%Z in (a', b, c, a' + 1)%Z.
Definition fix_top (nx : Z) (q : quad) : quad := let '(a, _, _, _) := q in let b := a in let a' := (b - nx)%Z in (a', b, b + 1, a' + 1)%Z.
Definition fix_right (q : quad) : quad := let '(a, b, _, _) := q in let a' := (a - 1)%Z in let b' := (b - 1)%Z in (a', b', b' + 1, a' + 1)%Z.
Definition lat_max (g : sgrid) : Q := lat_at g (g_ny g - 1).
Definition lon_max (g : sgrid) : Q := lon_at g (g_nx g - 1).
(** 159-171: the positions of corner points in the list of points of the top row; an array of one element is true unless the element is 0, an array of several has no truth value. *)
Fixpoint positions {A} (f : A -> bool) (k : nat) (l : list A) : list nat := match l with [] => [] | a :: r => (if f a then [k] else []) ++ positions f (S k) r end.
(** bilinear.py:60-195 [basic_indexes], [adjust_boundary_indexes]. *)
Definition basic_indexes (g : sgrid) (ts : list target) : result (list quad) :=
  match ts with
  | [] => Err ValueError
  | _ =>
      let lat_eq := isclose (lat_max g) (qmax_of (map fst ts)) in
      let lon_eq := isclose (lon_max g) (qmax_of (map snd ts)) in
      let top t := (lat_eq && isclose (fst t) (lat_max g))%bool in
      let right t := (lon_eq && isclose (snd t) (lon_max g))%bool in
      let corner t := isclose (snd t) (lon_max g) in
      let adjust (special : option nat) :=
        map (fun kt => let '(k, t) := kt in
               let q := base_quad g t in
               if match special with Some s => (k =? s)%nat | None => false end then fix_corner (g_nx g) q
               else let q := if top t then fix_top (g_nx g) q else q in if right t then fix_right q else q)
            (combine (seq 0 (length ts)) ts) in
      let tops := positions top 0 ts in
      let corners := positions corner 0 (filter top ts) in
      if (lat_eq && lon_eq)%bool then
        match corners with
        | [] | [O] => Ok (adjust None)
        | [p] => Ok (adjust (Some (nth p tops O)))
        | _ => Err ValueError
        end
      else Ok (adjust None)
  end.

(** ** Weights *)
Notation four := (Q * Q * Q * Q)%type.
(** bilinear.py:198-248 [basic_weights]. *)
Definition basic_weights (g : sgrid) (q : quad) (t : target) : result four :=
  let '(i1, _, _, _) := q in
  let* k := flat_index g i1 in
  let area := g_dlat g * g_dlon g in
  let lat2 := in_lat g k + g_dlat g - fst t in let lon3 := in_lon g k + g_dlon g - snd t in
  let lon1 := snd t - in_lon g k in let lat1 := fst t - in_lat g k in
  Ok (lat2 * lon3 / area, lat1 * lon3 / area, lat1 * lon1 / area, lat2 * lon1 / area).
Definition quad_list (q : quad) : list Z := let '(a, b, c, d) := q in [a; b; c; d].
Definition four_list (w : four) : list Q := let '(a, b, c, d) := w in [a; b; c; d].
(** bilinear.py:27-57 [apply_weights]: a missing value makes the sum missing whatever its weight. *)
Definition weighted_sum (ws : list Q) (vs : list (option Q)) : option Q :=
  fold_right (fun p acc => match snd p, acc with Some v, Some s => Some (fst p * v + s) | _, _ => None end) (Some 0) (combine ws vs).
Definition values_at (g : sgrid) (v : Z -> option Q) (ks : list Z) : result (list (option Q)) := mapM (fun k => let* i := flat_index g k in Ok (v i)) ks.

(** ** Different surfaces *)
(** idw.py:78-94: distances in metres to the sources, infinite for those not to be used; [pw] is the power 1.8. *)
Definition eps32 : Q := 1 # 8388608.
Definition idw_raw (pw : Q -> Q) (use : bool) (d : Q) : Q := if use then pw (1 / (d + eps32)) else 0.
Definition normalised (ws : list Q) : list Q := map (fun w => w * (1 / qsum ws)) ws.
(** grid.py:238-269 [similar_surface_classify] for one target. *)
Definition same_type (land : Z -> bool) (own : bool) (k : Z) : bool := Bool.eqb (land k) own.
(** bilinear.py:371-484 [one_mismatched_input_point]: the weights if source [i] is of the other type. *)
Definition triangle (g : sgrid) (i : nat) (q : quad) (t : target) : result four :=
  let '(i1, _, _, _) := q in
  let* k := flat_index g i1 in
  let dy := g_dlat g in let dx := g_dlon g in let area := dy * dx in
  let lat2 := in_lat g k + dy - fst t in let lon3 := in_lon g k + dx - snd t in
  let lon1 := snd t - in_lon g k in let lat1 := fst t - in_lat g k in
  Ok match i with
     | 0%nat => let w2 := dy * lon3 / area in let w4 := lat2 * dx / area in (0, w2, 1 - (w2 + w4), w4)
     | 1%nat => let w1 := dy * lon3 / area in let w3 := lat1 * dx / area in (w1, 0, w3, 1 - (w1 + w3))
     | 2%nat => let w2 := lat1 * dx / area in let w4 := dy * lon1 / area in (1 - (w2 + w4), w2, 0, w4)
     | _ => let w3 := dy * lon1 / area in let w1 := lat2 * dx / area in (w1, 1 - (w1 + w3), w3, 0)
     end.
Notation found := (list (Q * Z)). (* distance and index, closest first *)
(** bilinear.py:487-628 [lakes_islands] for one target. *)
Definition lake_island (pw : Q -> Q) (g : sgrid) (land : Z -> bool) (own : bool) (vicinity : Q) (near8 : found) (q : quad) (t : target) : result (list Z * list Q) :=
  let good := filter (fun e => (same_type land own (snd e) && (fst e <=? vicinity))%bool) near8 in
  match good with
  | [] => let* w := basic_weights g q t in Ok (quad_list q, four_list w)
  | _ =>
      let used := firstn 4 good in
      Ok (map snd used ++ skipn (length used) (quad_list q),
          normalised (map (fun e => idw_raw pw true (fst e)) used ++ repeat 0 (4 - length used)))
  end.
(** idw.py:23-99 [inverse_distance_weighting] for one target. *)
Definition idw_or_lake pw g land own vicinity (near4 near8 : found) q t : result (list Z * list Q) :=
  if existsb (fun e => same_type land own (snd e)) near4
  then Ok (map snd near4, normalised (map (fun e => idw_raw pw (same_type land own (snd e)) (fst e)) near4))
  else lake_island pw g land own vicinity near8 q t.
Definition count_true (l : list bool) : nat := length (filter (fun b => b) l).
Fixpoint first_false (k : nat) (l : list bool) : nat := match l with [] => k | b :: r => if b then first_false (S k) r else k end.
(** bilinear.py:251-368 [adjust_for_surface_mismatch] for one target. *)
Definition masked_weights pw g land own vicinity (near : nat -> target -> found) (q : quad) (t : target) : result (list Z * list Q) :=
  let* types := mapM (fun k => let* i := flat_index g k in Ok (same_type land own i)) (quad_list q) in
  match count_true types with
  | 4%nat => let* w := basic_weights g q t in Ok (quad_list q, four_list w)
  | 3%nat =>
      let* w := triangle g (first_false 0 types) q t in
      if forallb (fun x => - (1 # 100000000) <? x) (four_list w) then Ok (quad_list q, four_list w)
      else idw_or_lake pw g land own vicinity (near 4%nat t) (near 8%nat t) q t
  | 0%nat => lake_island pw g land own vicinity (near 8%nat t) q t
  | _ => idw_or_lake pw g land own vicinity (near 4%nat t) (near 8%nat t) q t
  end.

(** ** Nearest *)
(** landsea2.py:172-176, nearest.py:98-117 [nearest_regrid]: the first of the least; None is infinite. *)
Fixpoint argmin (best : Z) (bd : option Q) (l : list (option Q * Z)) : Z :=
  match l with
  | [] => best
  | (d, k) :: r => match d, bd with
                   | None, _ => argmin best bd r
                   | Some x, None => argmin k (Some x) r
                   | Some x, Some b => if x <? b then argmin k (Some x) r else argmin best bd r
                   end
  end.
Definition pick_nearest (l : list (option Q * Z)) : Z := match l with [] => 0%Z | (d, k) :: r => argmin k d r end.
Definition square (x : Q) : Q := x * x.
Definition degree_distance (g : sgrid) (t : target) (k : Z) : Q := square (in_lat g k - fst t) + square (in_lon g k - snd t).
Definition quad_distances (g : sgrid) (q : quad) (t : target) : result (list (Q * Z)) :=
  mapM (fun k => let* i := flat_index g k in Ok (degree_distance g t i, i)) (quad_list q).
(** nearest.py:18-95, 120-268 [nearest_with_mask_regrid], [update_nearest_points], [lakes_islands] for one target. *)
Definition masked_nearest g land own vicinity (near : nat -> target -> found) (q : quad) (t : target) : result Z :=
  let* ds := quad_distances g q t in
  let ds := if (count_true (map (fun e => same_type land own (snd e)) ds) <? 4)%nat then near 4%nat t else ds in
  let types := map (fun e => same_type land own (snd e)) ds in
  if (count_true types =? 0)%nat then
    match filter (fun e => (same_type land own (snd e) && (fst e <=? vicinity))%bool) (near 8%nat t) with
    | [] => Ok (pick_nearest (map (fun e => (Some (fst e), snd e)) ds))
    | e :: _ => Ok (snd e)
    end
  else Ok (pick_nearest (map (fun e => ((if same_type land own (snd e) then Some (fst e) else None), snd e)) ds)).

(** ** RegridWithLandSeaMask *)
Inductive mode := BilinearMode | NearestMode.
(** The masks: type of each source point (row, column), of each target, the vicinity and the result of the KD-tree on a grid. *)
Record masks := { m_land : Z -> Z -> bool; m_own : list bool; m_vicinity : Q; m_near : sgrid -> nat -> target -> found; m_pw : Q -> Q }.
Definition point_value (m : mode) (ms : option masks) (g : sgrid) (value : Z -> option Q) (land : Z -> bool) (own : bool) (q : quad) (t : target) : result (option Q) :=
  match m, ms with
  | NearestMode, None => let* ds := quad_distances g q t in Ok (value (pick_nearest (map (fun e => (Some (fst e), snd e)) ds)))
  | NearestMode, Some k => let* i := masked_nearest g land own (m_vicinity k) (m_near k g) q t in Ok (value i)
  | BilinearMode, None => let* w := basic_weights g q t in let* vs := values_at g value (quad_list q) in Ok (weighted_sum (four_list w) vs)
  | BilinearMode, Some k =>
      let* sw := masked_weights (m_pw k) g land own (m_vicinity k) (m_near k g) q t in
      let* vs := values_at g value (fst sw) in Ok (weighted_sum (snd sw) vs)
  end.
Fixpoint scatter (flags : list bool) (vs : list (option Q)) : list (option Q) :=
  match flags, vs with [], _ => [] | true :: f, v :: vs => v :: scatter f vs | true :: f, [] => None :: scatter f [] | false :: f, _ => None :: scatter f vs end.
(** landsea2.py:75-237 [process], grid.py:420-455 [mask_target_points_outside_source_domain]. *)
Definition regrid (m : mode) (ms : option masks) (g : sgrid) (data : Z -> Z -> option Q) (ts : list target) : result (list (option Q)) :=
  let* s := slice_grid g ts in
  let '(g', r0, c0) := s in
  let flags := map (in_source g') ts in
  let inside := filter (in_source g') ts in
  let owns := match ms with Some k => map snd (filter fst (combine flags (m_own k))) | None => map (fun _ => true) inside end in
  let row k := (r0 + k / g_nx g')%Z in let col k := (c0 + k mod g_nx g')%Z in
  let value k := data (row k) (col k) in
  let land k := match ms with Some mk => m_land mk (row k) (col k) | None => true end in
  let* qs := basic_indexes g' inside in
  let* vs := mapM (fun e => point_value m ms g' value land (snd e) (snd (fst e)) (fst (fst e))) (combine (combine inside qs) owns) in
  Ok (scatter flags vs).

(** ** RegridLandSea and AdjustLandSeaPoints *)
(** landsea.py:35-76: the modes, and which need a land mask. *)
Definition requires_landmask (m : string) : option bool :=
  match find (fun e => (fst e =? m)%string) [("bilinear", false); ("nearest", false); ("nearest-with-mask", true); ("nearest-2", false); ("bilinear-2", false); ("nearest-with-mask-2", true); ("bilinear-with-mask-2", true)]%string with
  | Some e => Some (snd e) | None => None end.
Definition regrid_init (m : string) (has_mask : bool) : result unit :=
  match requires_landmask m with
  | None => Err ValueError
  | Some need => if (negb has_mask && need)%bool then Err ValueError else Ok tt
  end.
(** landsea.py:153-169: attributes after regridding. *)
Definition mosg_attributes : list string := ["mosg__grid_type"; "mosg__grid_version"; "mosg__grid_domain"]%string.
Notation attr := (list (string * string)).
Definition lookup_attr (k : string) (a : attr) : option string := option_map snd (find (fun e => (fst e =? k)%string) a).
Definition set_attr (k v : string) (a : attr) : attr :=
  if existsb (fun e => (fst e =? k)%string) a then map (fun e => if (fst e =? k)%string then (k, v) else e) a else a ++ [(k, v)].
Definition regrid_attributes (title : option string) (a tgt : attr) : attr :=
  let a1 := flat_map (fun e => if existsb (String.eqb (fst e)) mosg_attributes then match lookup_attr (fst e) tgt with Some v => [(fst e, v)] | None => [] end else [e]) a in
  set_attr "title" (match title with Some t => t | None => "unknown" end) a1.
(** landsea.py:203-361 [AdjustLandSeaPoints] for one slice: [input] is the land mask of the source after nearest-neighbour regridding, [vicinity v] the points with an input point of type v in their vicinity, [closest v] the closest point (in rows and columns) of type v found by the KD-tree. *)
Definition has_type (h w : Z) (input : grid bool) (v : bool) : bool := existsb (fun p => Bool.eqb (input (fst p) (snd p)) v) (indices h w).
Definition correct_type (h w : Z) (input output : grid bool) (vicinity : bool -> grid bool) (closest : bool -> Z -> Z -> Z * Z) (nearest_data : grid (option Q)) (v : bool) (out : grid (option Q)) : grid (option Q) :=
  if has_type h w input v then
    fun y x => if (Bool.eqb (output y x) v && negb (Bool.eqb (input y x) v) && vicinity v y x)%bool
               then nearest_data (fst (closest v y x)) (snd (closest v y x)) else out y x
  else out.
Definition adjust_land_sea h w input output vicinity closest (data : grid (option Q)) : grid (option Q) :=
  correct_type h w input output vicinity closest data true (correct_type h w input output vicinity closest data false data).
(** landsea.py:364-413 [grid_contains_cutout] for one axis with equal metadata: numpy.allclose broadcasts a single point. *)
Fixpoint find_close (x : Q) (l : list Q) : option (list Q) := match l with [] => None | a :: r => if isclose x a then Some l else find_close x r end.
Definition axis_contains (points cutout : list Q) : result bool :=
  match cutout with
  | [] => Err IndexError
  | x :: _ =>
      match find_close x points with
      | None => Ok false
      | Some rest =>
          let part := firstn (length cutout) rest in
          if (length part =? length cutout)%nat then Ok (forallb (fun p => isclose (fst p) (snd p)) (combine cutout part))
          else match part with [b] => Ok (forallb (fun a => isclose a b) cutout) | _ => Ok false end
      end
  end.
(** landsea.py:364-413 [grid_contains_cutout]: x first, then y; [mx], [my] whether the metadata of the axis agree. *)
Definition grid_contains (mx : bool) (gx cx : list Q) (my : bool) (gy cy : list Q) : result bool :=
  if negb mx then Ok false else
  let* bx := axis_contains gx cx in
  if negb bx then Ok false else if negb my then Ok false else axis_contains gy cy.
