(** Model of improver/cli/neighbour_finding.py, over NeighbourSelection (Model_Spot).
    [make_crs] stands for the coordinate system that cartopy makes of a name and a text of options; the sites of Model_Spot have their coordinates transformed by it already, so the sites are a function of it.
    Of the merging of the four cubes, the checks that decide about it are modelled: the scalar and site coordinates must agree. That iris.util.squeeze takes the dimension of a single site away is not shown in the result. *)
From Verif Require Import Base Model_Spot.
Local Open Scope Q_scope.

(** cli/neighbour_finding.py:113-143. *)
Definition projections : list string := ["AlbersEqualArea"; "AzimuthalEquidistant"; "EuroPP"; "Geocentric"; "Geodetic"; "Geostationary"; "Globe"; "Gnomonic"; "LambertAzimuthalEqualArea"; "LambertConformal"; "LambertCylindrical"; "Mercator"; "Miller"; "Mollweide"; "NearsidePerspective"; "NorthPolarStereo"; "OSGB"; "OSNI"; "Orthographic"; "PlateCarree"; "Projection"; "Robinson"; "RotatedGeodetic"; "RotatedPole"; "Sinusoidal"; "SouthPolarStereo"; "Stereographic"; "TransverseMercator"; "UTM"]%string.
Record options := { p_all : bool; p_land : bool; p_dz : bool; p_radius : option Q; p_limit : option nat; p_crs : option string; p_crs_options : option string; p_id_key : option string }.
(** lines 149-164, neighbour_finding.py:46-60: what is not given has the default of the plugin; `if self.unique_site_id_key` there. *)
Definition config (o : options) (land dz : bool) : nconfig :=
  {| c_land := land; c_dz := dz; c_radius := match p_radius o with Some r => r | None => 10000 end; c_limit := match p_limit o with Some n => n | None => 36%nat end;
     c_id_key := match p_id_key o with None | Some ""%string => false | Some _ => true end |}.
Section Command.
Context {crs : Type} (make_crs : string -> string -> result crs) (plate_carree : crs).
(** lines 166-178. Options without a system are handed on to the plugin, which has no such argument. *)
Definition crs_of (o : options) : result crs :=
  match p_crs o with
  | Some n => if existsb (String.eqb n) projections then make_crs n (match p_crs_options o with Some t => t | None => "{}"%string end) else Err ValueError
  | None => match p_crs_options o with Some _ => Err TypeError | None => Ok plate_carree end
  end.
(** A row of the result: number and name of the method, and the sites. *)
Notation row := (Z * string * list spot_site)%type.
Definition same_option {A} (eqb : A -> A -> bool) (a b : option A) : bool := match a, b with None, None => true | Some x, Some y => eqb x y | _, _ => false end.
Definition same_site (a b : spot_site) : bool :=
  (Qeq_bool (s_x (o_site a)) (s_x (o_site b)) && Qeq_bool (s_y (o_site a)) (s_y (o_site b)) && Qeq_bool (o_alt a) (o_alt b) && same_option Z.eqb (o_wmo a) (o_wmo b) && same_option Z.eqb (s_id (o_site a)) (s_id (o_site b)))%bool.
Fixpoint same_sites (a b : list spot_site) : bool := match a, b with [], [] => true | x :: a, y :: b => (same_site x y && same_sites a b)%bool | _, _ => false end.
(** cube_manipulation.py:209-283 for cubes with one dimension for the sites. *)
Definition merged (rows : list row) : result (list row) :=
  match rows with [] => Err IndexError | r :: rest => if forallb (fun q => same_sites (snd r) (snd q)) rest then Ok rows else Err MergeError end.
(** lines 145-147, 180-210; [select] is NeighbourSelection.process with the sites in a coordinate system. *)
Definition four : list (bool * bool) := [(false, false); (true, false); (false, true); (true, true)].
Fixpoint numbered (i : Z) (l : list (string * list spot_site)) : list row := match l with [] => [] | (n, s) :: r => (i, n, s) :: numbered (i + 1) r end.
Definition command (select : nconfig -> crs -> result (list spot_site)) (o : options) : result (list row) :=
  if (p_all o && (p_land o || p_dz o))%bool then Err ValueError else
  let* c := crs_of o in
  let run := fun m : bool * bool => let* l := select (config o (fst m) (snd m)) c in Ok (method_name (fst m) (snd m), l) in
  if p_all o then let* rows := mapM run four in merged (numbered 0 rows)
  else let* r := run (p_land o, p_dz o) in Ok [(0%Z, fst r, snd r)].
End Command.
