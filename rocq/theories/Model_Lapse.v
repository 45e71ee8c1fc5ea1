(** Model of improver/lapse_rate.py: compute_lapse_rate_adjustment, ApplyGriddedLapseRate, LapseRate. Data are exact; units are those the code converts to (K, m, K/m); attributes are not modelled. *)
From Verif Require Import Base Model_Nbhood Model_Integration.
Local Open Scope Q_scope.

(** constants.py:60-64. *)
Definition DALR : Q := - (98 # 10000).
Definition ELR : Q := - (65 # 10000).
(** lapse_rate.py:71-96 [compute_lapse_rate_adjustment] at one point: the two conditions are applied one after the other. *)
Definition lapse_rate_adjustment (lapse_rate orog_diff limit : Q) : Q :=
  let c1 := limit <? orog_diff in
  let c2 := orog_diff <? - limit in
  let od := if c1 then limit else orog_diff in
  let od := if c2 then - limit else od in
  let va := od * lapse_rate in
  let orig := if c1 then Qmax (orog_diff - limit) 0 else orog_diff in
  let orig := if c2 then Qmin (orig + limit) 0 else orig in
  let va := if c1 then va + orig * ELR else va in
  if c2 then va + orig * ELR else va.
Definition default_limit : Q := 50.

(** A cube: its leading dimension coordinates, its grid (standing for the two spatial coordinates) and its field at every index of the leading dimensions. *)
Notation coord := (string * list Q)%type.
Record lrcube := { k_dims : list coord; k_grid : Z; k_fields : list nat -> list Q }.
Fixpoint indices (dims : list coord) : list (list nat) :=
  match dims with [] => [[]] | c :: r => flat_map (fun i => map (cons i) (indices r)) (seq 0 (length (snd c))) end.
Definition points_eqb (a b : list Q) : bool := ((length a =? length b)%nat && forallb (fun p => fst p =? snd p) (combine a b))%bool.
Definition find_coord (k : string) (dims : list coord) : option (list Q) := option_map snd (find (fun c => (fst c =? k)%string) dims).
(** lapse_rate.py:103-121 [_check_dim_coords]: every dimension coordinate of the temperature is looked up by its name. *)
Definition dims_match (t lr : lrcube) : bool :=
  forallb (fun c => match find_coord (fst c) (k_dims lr) with Some p => points_eqb (snd c) p | None => false end) (k_dims t).
(** lapse_rate.py:143-189 [ApplyGriddedLapseRate.process]: the slices of both cubes, in the order of their dimensions, are paired; each slice of the result keeps the labels of the temperature slice.
    diff is the difference of the orographies, of which only the first slices are used. *)
Definition labels_of (dims : list coord) (idx : list nat) : list (string * Q) := map (fun p => (fst (fst p), nth (snd p) (snd (fst p)) 0)) (combine dims idx).
Definition apply_gridded (t lr : lrcube) (source_grid dest_grid : Z) (source dest : list Q) : result (list (list (string * Q) * list Q)) :=
  if negb ((k_grid t =? k_grid lr)%Z && dims_match t lr)%bool then Err ValueError
  else if negb (source_grid =? k_grid t)%Z then Err ValueError
  else if negb (dest_grid =? k_grid t)%Z then Err ValueError
  else
    let slice_pairs := combine (indices (k_dims lr)) (indices (k_dims t)) in
    Ok (map (fun p => (labels_of (k_dims t) (snd p),
                       map (fun i => nth i (k_fields t (snd p)) 0 + lapse_rate_adjustment (nth i (k_fields lr (fst p)) 0) (nth i dest 0 - nth i source 0) default_limit) (seq 0 (length (k_fields t (snd p))))))
            slice_pairs).

(** lapse_rate.py:220-270 [LapseRate.__init__]. *)
Record lapse_params := { max_height_diff : Q; nbhood_radius : Z; max_lapse_rate : Q; min_lapse_rate : Q }.
Definition lapse_init (p : lapse_params) : result lapse_params :=
  if max_lapse_rate p <? min_lapse_rate p then Err ValueError
  else if (nbhood_radius p <? 0)%Z then Err ValueError
  else if max_height_diff p <? 0 then Err ValueError
  else Ok p.
(** lapse_rate.py:285-306, neighbourhood_tools.py:69-101: the (2r+1) by (2r+1) window around a point, row by row; outside the domain and at sea there are NaNs. *)
Definition zrange (a b : Z) : list Z := map (fun i => (a + Z.of_nat i)%Z) (seq 0 (Z.to_nat (b - a + 1))).
Definition window (r y x : Z) : list (Z * Z) := flat_map (fun i => map (fun j => (i, j)) (zrange (x - r) (x + r))) (zrange (y - r) (y + r)).
Definition on_land (h w : Z) (land : grid bool) (p : Z * Z) : bool := (inside h w (fst p) (snd p) && land (fst p) (snd p))%bool.
(** lapse_rate.py:345-357: the pairs of height and temperature left for the fit around a land point. *)
Definition fit_points (p : lapse_params) (h w : Z) (temp orog : grid Q) (land : grid bool) (y x : Z) : list (Q * Q) :=
  map (fun q => (orog (fst q) (snd q), temp (fst q) (snd q)))
      (filter (fun q => (on_land h w land q && negb (max_height_diff p <? Qabs (orog (fst q) (snd q) - orog y x)))%bool) (window (nbhood_radius p) y x)).
(** numpy.isclose(numpy.nanstd(l), 0): the mean squared deviation is at most (1e-8)^2. *)
Definition variance (l : list Q) : Q := mean (map (fun v => (v - mean l) * (v - mean l)) l).
Definition std_is_zero (l : list Q) : bool := variance l <=? 1 # 10000000000000000.
(** lapse_rate.py:359-380 at one point. A sea point is NaN in the temperatures. *)
Definition gradient (pts : list (Q * Q)) : Q :=
  match linear_fit pts with
  | Some (g, _) => if (std_is_zero (map snd pts) || std_is_zero (map fst pts))%bool then DALR else g
  | None => DALR
  end.
Definition lapse_rate_at (p : lapse_params) (h w : Z) (temp orog : grid Q) (land : grid bool) (y x : Z) : Q :=
  let g := if land y x then gradient (fit_points p h w temp orog land y x) else DALR in
  Qmin (Qmax g (min_lapse_rate p)) (max_lapse_rate p).
