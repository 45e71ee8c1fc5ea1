(** Model of GeneratePercentilesFromANeighbourhood (improver/nbhood/nbhood.py:468-724) with pad_and_roll (improver/utilities/neighbourhood_tools.py:69-101): percentiles of the values in a circle around each point.
    A slice is its values (rational, not NaN); the cube is its slices and whether any of its data are masked. Names and order of dimensions, the squeezing of dimensions of one point and the metadata are not modelled, other than the percentiles. *)
From Verif Require Import Base Model_Nbhood Model_Spatial Model_NbhoodCube Model_PercConv.
Local Open Scope Q_scope.

(** numpy.pad(mode="mean", stat_length=r) by r on each side: along the rows first (neighbourhood_tools.py:97-100, nbhood.py:617-619; stat_length is no more than what there is). *)
Definition mean_from (a : Z) (n : Z) (f : Z -> Q) : Q := zsum a (Z.to_nat n) f / inject_Z n.
Definition pad_line (n r : Z) (f : Z -> Q) : Z -> Q := fun i =>
  let m := Z.min r n in
  if (i <? 0)%Z then mean_from 0 m f else if (n <=? i)%Z then mean_from (n - m) m f else f i.
Definition pad_mean (h w r : Z) (g : grid Q) : grid Q := fun y x => pad_line w r (fun x => pad_line h r (fun y => g y x) y) x.
(** neighbourhood_tools.py:101, nbhood.py:616, 629: the window at a point, where the kernel is positive, in C order. *)
Definition offsets (r : Z) : list (Z * Z) :=
  let l := map (fun k => Z.of_nat k - r)%Z (seq 0 (Z.to_nat (2 * r + 1))) in
  filter (fun o => Qltb 0 (circular_kernel r false (fst o) (snd o))) (list_prod l l).
Definition window (h w r : Z) (g : grid Q) (y x : Z) : list Q := map (fun o => pad_mean h w r g (y + fst o)%Z (x + snd o)%Z) (offsets r).
(** nbhood.py:697-724: one field for each percentile, merged: iris puts them in order of the percentile, and refuses two that are the same or none at all. *)
Fixpoint twice (l : list Q) : bool := match l with [] => false | x :: r => (existsb (Qeq_bool x) r || twice r)%bool end.
Definition percentile_points (l : list Q) : result (list Q) :=
  match l with [] => Err ValueError | _ => if twice l then Err MergeError else Ok (qsort l) end.
(** nbhood.py:616-636: the fields are then filled with the percentiles in the order they were given. *)
Definition one_slice (percentiles : list Q) (h w r : Z) (g : grid Q) : result (list (Q * grid Q)) :=
  let* points := percentile_points percentiles in
  if existsb (fun p => Qltb p 0 || Qltb 100 p)%bool percentiles then Err ValueError
  else Ok (combine points (map (fun p y x => np_percentile (window h w r g y x) p) percentiles)).
(** nbhood.py:638-671. *)
Definition nbhood_percentiles (b : base) (percentiles : list Q) (xs ys leads : list Q) (h w : Z) (masked : bool) (slices : list (grid Q)) : result (list (list (Q * grid Q))) :=
  let* radius := base_radius b leads in
  if masked then Err NotImplementedError else
  let* _ := check_equal_area xs ys in
  let* radius := single radius in
  let* r := distance_to_cells xs radius in
  let* _ := check_radius xs ys radius in
  mapM (one_slice percentiles h w r) slices.
