(** Model of improver/spotdata: NeighbourSelection (neighbour_finding.py), SpotExtraction (spot_extraction.py), SpotLapseRateAdjust (apply_lapse_rate.py), SpotHeightAdjustment (height_adjustment.py), and of check_grid_match / create_coordinate_hash (metadata/utilities.py).
    Coordinate transformations (cartopy), iris' nearest_neighbour_index and scipy's k-d tree are parameters; float32 storage of the indices is exact. *)
From Verif Require Import Base Interp Model_Nbhood Model_Percentiles Model_Lapse.
Local Open Scope Q_scope.

(** ** Neighbour selection *)
(** A site after the transformation of its coordinates to the model grid (neighbour_finding.py:477-484): [s_x], [s_y] are the transformed coordinates.
    An altitude that is absent, None or NaN is [None]. *)
Record site := { s_x : Q; s_y : Q; s_alt : option Q; s_wmo : option Z; s_id : option Z }.
(** The orography and the land mask, indexed [x, y] after enforce_coordinate_ordering (467-475). [g_land] is "the mask is not zero". *)
Record model_grid := { g_circular : bool; g_metres : bool; g_same_coords : bool;
  g_xmin : Q; g_xmax : Q; g_ymin : Q; g_ymax : Q; g_nx : Z; g_ny : Z;
  g_orog : Z * Z -> Q; g_land : Z * Z -> bool }.
(** neighbour_finding.py:46-100 [__init__]; the search radius is not negative. *)
Record nconfig := { c_land : bool; c_dz : bool; c_radius : Q; c_limit : nat; c_id_key : bool }.

(** neighbour_finding.py:194-237 [check_sites_are_within_domain]. *)
Definition in_domain (g : model_grid) (s : site) : bool :=
  if g_circular g then ((g_ymin g <=? s_y s) && (s_y s <=? g_ymax g))%bool
  else ((g_xmin g <=? s_x s) && (s_x s <=? g_xmax g) && (g_ymin g <=? s_y s) && (s_y s <=? g_ymax g))%bool.
(** neighbour_finding.py:320-337 [build_KDTree]: the nodes, x index first (numpy.nonzero / numpy.where go row by row). *)
Definition all_points (g : model_grid) : list (Z * Z) :=
  flat_map (fun i => map (fun j => (Z.of_nat i, Z.of_nat j)) (seq 0 (Z.to_nat (g_ny g)))) (seq 0 (Z.to_nat (g_nx g))).
Definition tree_nodes (cfg : nconfig) (g : model_grid) : list (Z * Z) :=
  if c_land cfg then filter (g_land g) (all_points g) else all_points g.
(** neighbour_finding.py:500-509: unset altitudes are taken from the orography at the nearest point. *)
Definition altitude_of (g : model_grid) (near : site -> Z * Z) (s : site) : Q :=
  match s_alt s with Some a => a | None => g_orog g (near s) end.
(** numpy.argmax(d == d.min()): the first of the entries with the least value. *)
Fixpoint first_min (key : Z * Z -> Q) (best : Z * Z) (l : list (Z * Z)) : Z * Z :=
  match l with [] => best | p :: r => if key p <? key best then first_min key p r else first_min key best r end.
(** neighbour_finding.py:378-413 [select_minimum_dz]; [found] are the nodes with a finite distance, closest first. *)
Definition select_minimum_dz (g : model_grid) (alt : Q) (found : list (Z * Z)) : option (Z * Z) :=
  match found with
  | [] => None
  | p :: r => Some (first_min (fun q => Qabs (g_orog g q - alt)) p r)
  end.
(** neighbour_finding.py:511-556 for one site. [query nodes s k] stands for cKDTree.query: the nodes of the tree, closest first, at most [k] of them. [dist2] is the squared distance used by the tree.
    With distance_upper_bound the nodes at a distance not below the bound are left out. *)
Definition neighbour (cfg : nconfig) (g : model_grid) (near : site -> Z * Z) (dist2 : site -> Z * Z -> Q)
    (query : list (Z * Z) -> site -> nat -> list (Z * Z)) (s : site) : Z * Z :=
  let within p := dist2 s p <? c_radius cfg * c_radius cfg in
  if (c_land cfg || c_dz cfg)%bool then
    let nodes := tree_nodes cfg g in
    if c_dz cfg then
      match select_minimum_dz g (altitude_of g near s) (filter within (query nodes s (c_limit cfg))) with
      | Some p => p
      | None => near s
      end
    else match query nodes s 1%nat with
         | p :: _ => if within p then p else near s
         | [] => near s
         end
  else near s.
Record spot_site := { o_site : site; o_alt : Q; o_point : Z * Z; o_dz : Q; o_wmo : option Z }.
(** neighbour_finding.py:558-572: the displacement and the WMO identifier; an identifier of 0 counts as unset ("None"). *)
Definition spot_of cfg g near dist2 query (s : site) : spot_site :=
  let p := neighbour cfg g near dist2 query s in
  {| o_site := s; o_alt := altitude_of g near s; o_point := p; o_dz := altitude_of g near s - g_orog g p;
     o_wmo := match s_wmo s with Some i => if (i =? 0)%Z then None else Some i | None => None end |}.
(** neighbour_finding.py:574-596: "{:08d}" has more than eight characters for integers outside (-10^7, 10^8), and different integers give different strings. *)
Fixpoint ids_of (l : list site) : result (list Z) :=
  match l with
  | [] => Ok []
  | s :: r => match s_id s with None => Err KeyError | Some i => bind (ids_of r) (fun t => Ok (i :: t)) end
  end.
Fixpoint distinct_z (l : list Z) : bool := match l with [] => true | a :: r => (negb (existsb (Z.eqb a) r) && distinct_z r)%bool end.
Definition id_fits (i : Z) : bool := ((-10000000 <? i)%Z && (i <? 100000000)%Z)%bool.
Definition check_ids (cfg : nconfig) (l : list site) : result unit :=
  if negb (c_id_key cfg) then Ok tt
  else bind (ids_of l) (fun ids => if negb (distinct_z ids) then Err ValueError else if existsb (fun i => negb (id_fits i)) ids then Err ValueError else Ok tt).
(** neighbour_finding.py:415-642 [process]. A tree of a regional grid without nodes is refused by scipy. With no site left the model gives an empty result; what iris makes of an empty cube is not modelled. *)
Definition select_neighbours cfg g near dist2 query (sites : list site) : result (list spot_site) :=
  if (negb (g_circular g) && negb (g_metres g))%bool then Err ValueError
  else if negb (g_same_coords g) then Err ValueError
  else
    let kept := filter (in_domain g) sites in
    if ((c_land cfg || c_dz cfg) && match tree_nodes cfg g with [] => true | _ => false end)%bool then Err ValueError
    else bind (check_ids cfg kept) (fun _ => Ok (map (spot_of cfg g near dist2 query) kept)).
(** spotdata/utilities.py:9-23. *)
Definition method_name (land dz : bool) : string := ("nearest" ++ (if land then "_land" else "") ++ (if dz then "_minimum_dz" else ""))%string.

(** ** Grids, hashes *)
(** The spatial coordinates of a cube: points, bounds, names (standard and long), coordinate system and units. *)
Record axis := { a_points : list Q; a_bounds : option (list (Q * Q)); a_name : string; a_crs : string; a_units : string }.
Record hgrid := { h_x : axis; h_y : axis }.
(** metadata/utilities.py:132-177 [generate_hash], [create_coordinate_hash]: sha256 of the printed list; two different lists are taken to have different hashes, so the list stands for the hash.
    coord.bounds is a numpy array or None, never a list, so the entry for the bounds is always None. *)
Definition axis_key (a : axis) := (a_points a, a_name a, a_crs a, a_units a).
Definition grid_hash := ((list Q * string * string * string) * (list Q * string * string * string))%type.
Definition coordinate_hash (g : hgrid) : grid_hash := (axis_key (h_x g), axis_key (h_y g)).
Fixpoint lq_same (a b : list Q) : bool :=
  match a, b with [] , [] => true | x :: r, y :: s => ((x =? y) && lq_same r s)%bool | _, _ => false end.
Definition key_eqb (a b : list Q * string * string * string) : bool :=
  let '(p, n, c, u) := a in let '(p', n', c', u') := b in
  (lq_same p p' && (n =? n')%string && (c =? c')%string && (u =? u')%string)%bool.
Definition hash_eqb (a b : grid_hash) : bool := (key_eqb (fst a) (fst b) && key_eqb (snd a) (snd b))%bool.
(** metadata/utilities.py:180-214 [check_grid_match]; a cube carries the attribute model_grid_hash ([inl]) or has its hash computed from its grid ([inr]). *)
Definition hash_of (c : grid_hash + hgrid) : grid_hash := match c with inl h => h | inr g => coordinate_hash g end.
Definition check_grid_match (cubes : list (grid_hash + hgrid)) : result unit :=
  match cubes with
  | [] => Err StopIteration
  | c :: r => if forallb (fun d => hash_eqb (hash_of d) (hash_of c)) r then Ok tt else Err ValueError
  end.

(** ** Spot extraction *)
(** The neighbour cube: for each method the rows (x index, y index, vertical displacement) of all sites. *)
Record ncube := { n_hash : grid_hash; n_methods : list (string * list (Q * Q * Q)) }.
Definition ncube_of (g : hgrid) (cfg : nconfig) (l : list spot_site) : ncube :=
  {| n_hash := coordinate_hash g;
     n_methods := [(method_name (c_land cfg) (c_dz cfg), map (fun o => (inject_Z (fst (o_point o)), inject_Z (snd (o_point o)), o_dz o)) l)] |}.
(** A diagnostic cube, ordered (leading dimensions, y, x); masked points are [None]. *)
Record dcube := { d_dims : list coord; d_grid : grid_hash + hgrid; d_h : Z; d_w : Z; d_field : list nat -> Z -> Z -> option Q }.
Record scube := { p_dims : list coord; p_sites : nat; p_values : list nat -> nat -> option Q; p_hash : grid_hash }.
Definition find_method (m : string) (n : ncube) : option (list (Q * Q * Q)) := option_map snd (find (fun e => (fst e =? m)%string) (n_methods n)).
(** spot_extraction.py:50-88 [extract_coordinates]. *)
Definition extract_coordinates (m : string) (n : ncube) : result (list (Z * Z)) :=
  match find_method m n with
  | Some rows => Ok (map (fun r => (round_half_even (fst (fst r)), round_half_even (snd (fst r)))) rows)
  | None => Err ValueError
  end.
(** numpy indexing with an integer. *)
Definition py_index (n i : Z) : result Z := if ((0 <=? i) && (i <? n))%Z%bool then Ok i else if ((- n <=? i) && (i <? 0))%Z%bool then Ok (n + i)%Z else Err IndexError.
Definition grid_indices (h w : Z) (p : Z * Z) : result (Z * Z) :=
  bind (py_index h (snd p)) (fun y => bind (py_index w (fst p)) (fun x => Ok (x, y))).
(** spot_extraction.py:248-343 [process]; auxiliary coordinates and attributes other than the hash are not modelled. *)
Definition spot_extract (m : string) (n : ncube) (d : dcube) : result scube :=
  bind (check_grid_match [inl (n_hash n); d_grid d]) (fun _ =>
  bind (extract_coordinates m n) (fun cs =>
  bind (mapM (grid_indices (d_h d) (d_w d)) cs) (fun ps =>
  Ok {| p_dims := d_dims d; p_sites := length ps; p_hash := n_hash n;
        p_values := fun idx j => match nth_error ps j with Some (x, y) => d_field d idx y x | None => None end |}))).

(** ** Lapse rate adjustment of spot temperatures *)
(** What the checks look at: is it a probability cube, its name, its height coordinate. *)
Record smeta := { m_prob : bool; m_name : string; m_height : option Q }.
Definition height_eqb (a b : option Q) : result bool :=
  match b with None => Err CoordinateNotFoundError | Some y => match a with None => Err CoordinateNotFoundError | Some x => Ok (x =? y) end end.
(** apply_lapse_rate.py:68-155 [_check_inputs]. *)
Definition lapse_check (fixed : option Q) (sm : smeta) (n : ncube) (s : scube) (lr : option (smeta * dcube)) : result unit :=
  if m_prob sm then Err ValueError
  else if negb (((m_name sm =? "air_temperature") || (m_name sm =? "feels_like_temperature"))%string%bool) then Err ValueError
  else match lr, fixed with
       | None, None => Err ValueError
       | None, Some _ => check_grid_match [inl (n_hash n); inl (p_hash s)]
       | Some _, Some _ => Err ValueError
       | Some (lm, ld), None =>
           if negb ((m_name lm =? "air_temperature_lapse_rate")%string) then Err ValueError
           else bind (height_eqb (m_height sm) (m_height lm)) (fun same =>
             if same then check_grid_match [inl (n_hash n); inl (p_hash s); d_grid ld] else Err ValueError)
       end.
(** apply_lapse_rate.py:178-236 [process]. The gridded lapse rate has no leading dimension (broadcast along the sites); the displacements are those of the same method, whose absence shows as an AttributeError when the lapse rate is fixed. *)
Definition lapse_adjust (m : string) (fixed : option Q) (sm : smeta) (n : ncube) (s : scube) (lr : option (smeta * dcube)) : result scube :=
  bind (lapse_check fixed sm n s lr) (fun _ =>
  bind (match fixed, lr with
        | Some f, _ => Ok (fun _ : nat => Some f)
        | None, Some (_, ld) => bind (spot_extract m n ld) (fun e => Ok (fun j => p_values e [] j))
        | None, None => Err ValueError
        end) (fun rate =>
  match find_method m n with
  | None => Err AttributeError
  | Some rows =>
      Ok {| p_dims := p_dims s; p_sites := p_sites s; p_hash := p_hash s;
            p_values := fun idx j => match p_values s idx j, rate j with
                                     | Some t, Some l => Some (t + lapse_rate_adjustment l (snd (nth j rows (0, 0, 0))) default_limit)
                                     | _, _ => None
                                     end |}
  end)).

(** ** Height adjustment of spot forecasts *)
(** height_adjustment.py:180-185: values, in metres. *)
Definition adjust_values (dz : Q) (vs : list Q) : list Q := map (fun v => v + dz) vs.
(** height_adjustment.py:85-120 [adjust_prob_cube] at one site, thresholds increasing. scipy's LinearNDInterpolator triangulates the points (spot_index, threshold); the segment between two consecutive thresholds of one site is an edge of every Delaunay triangulation of that lattice (no other point lies in the disc of which it is a diameter), so on it the interpolation is linear between its ends. Outside the thresholds the interpolation is NaN. *)
Definition adjust_prob_at (ts ps : list Q) (dz t : Q) : Q :=
  let x := t + dz in
  if ((x <? nth 0 ts 0) || (last ts 0 <? x))%bool then (if 0 <? dz then qmaxl (hd 0 ps) (tl ps) else qminl (hd 0 ps) (tl ps))
  else np_interp (combine ts ps) x.
Definition adjust_probs (ts : list Q) (dz : Q) (ps : list Q) : list Q := map (adjust_prob_at ts ps dz) ts.
(** height_adjustment.py:123-187 [process] for a cube of probabilities [rows] (sites by thresholds): a single site gives scipy a degenerate set of points (QhullError, a RuntimeError). *)
Definition height_adjust_probs (m : string) (n : ncube) (ts : list Q) (rows : list (list Q)) : result (list (list Q)) :=
  if (length ts <? 2)%nat then Err ValueError
  else match find_method m n with
       | None => Err AttributeError
       | Some nb => if (length rows <? 2)%nat then Err RuntimeError
                    else Ok (map (fun p => adjust_probs ts (snd (fst p)) (snd p)) (combine nb rows))
       end.
Definition height_adjust_values (m : string) (n : ncube) (rows : list (list Q)) : result (list (list Q)) :=
  match find_method m n with
  | None => Err AttributeError
  | Some nb => Ok (map (fun p => adjust_values (snd (fst p)) (snd p)) (combine nb rows))
  end.
