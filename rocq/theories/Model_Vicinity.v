(** Model of maximum_within_vicinity in improver/utilities/spatial.py:715-775, on one x-y slice (see Model_Nbhood.v for arrays). The
    fill value (netCDF4's default for the data type, or infinity) is the parameter [fill]. Names, coordinates and the loop over radii
    of OccurrenceWithinVicinity are not modelled. *)
From Verif Require Import Base Model_Nbhood.
Local Open Scope Q_scope.

(** scipy.ndimage.maximum_filter(size=2r+1) with its default mode "reflect" (d c b a | a b c d | d c b a). *)
Definition reflect (n i : Z) : Z := let m := (i mod (2 * n))%Z in if (m <? n)%Z then m else (2 * n - 1 - m)%Z.
Definition window (r y x : Z) : list (Z * Z) :=
  list_prod (map (fun k => (y - r + k)%Z) (zseq (2 * r + 1))) (map (fun k => (x - r + k)%Z) (zseq (2 * r + 1))).
Definition maximum_filter (h w r : Z) (g : grid Q) : grid Q := fun y x =>
  let vs := map (fun p => g (reflect h (fst p)) (reflect w (snd p))) (window r y x) in qmaxl (hd 0 vs) vs.
(** spatial.py:715-775. [own] is the grid's mask, [land] the landmask. The result pairs the value with its mask, which is the input's. *)
Definition maximum_within_vicinity (fill : Q) (h w r : Z) (data : grid Q) (own : grid bool) (land : option (grid bool)) : grid (Q * bool) :=
  let unmasked_grid : grid Q := fun i j => if own i j then - fill else data i j in
  let max_data : grid Q :=
    match land with
    | Some l => fun y x =>
        let matched := fun i j => if Bool.eqb (l i j) (l y x) then unmasked_grid i j else - fill in maximum_filter h w r matched y x
    | None => maximum_filter h w r unmasked_grid
    end in
  fun y x => (if own y x then data y x else max_data y x, own y x).
