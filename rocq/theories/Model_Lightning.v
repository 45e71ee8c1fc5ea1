(** Model of improver/nowcasting/lightning.py (NowcastLightning) and of extract_nearest_time_point in improver/utilities/temporal.py. A field is the list of its values at
    the grid points; a cube with several times is the list of pairs of a time (seconds) and a field. Units are already the ones the code converts to; masks, metadata,
    iris merging and more than one threshold close to a requested one are not modelled. *)
From Verif Require Import Base Interp Model_Rescale Model_Nbhood Model_Spatial Model_NbhoodCube.
Local Open Scope Q_scope.

Definition field := list Q.
(** math.isclose with its default rel_tol. *)
Definition math_isclose (a b : Q) : bool := Qle_bool (Qabs (a - b)) ((1 # 1000000000) * Qmax (Qabs a) (Qabs b)).
Definition at_threshold {A} (t : Q) (cube : list (Q * A)) : result A :=
  match find (fun p => math_isclose (fst p) t) cube with Some p => Ok (snd p) | None => Err ConstraintMismatchError end.
Definition at_time {A} (t : Z) (cube : list (Z * A)) : result A :=
  match find (fun p => Z.eqb (fst p) t) cube with Some p => Ok (snd p) | None => Err ConstraintMismatchError end.
(** temporal.py:194-248 [extract_nearest_time_point]; iris' nearest_neighbour_index takes the first of the nearest points (coordinates without bounds). *)
Fixpoint nearest {A} (t : Z) (best : Z * A) (cube : list (Z * A)) : Z * A :=
  match cube with
  | [] => best
  | p :: r => nearest t (if Z.ltb (Z.abs (fst p - t)) (Z.abs (fst best - t)) then p else best) r
  end.
Definition extract_nearest_time_point {A} (t allowed : Z) (cube : list (Z * A)) : result A :=
  match cube with
  | [] => Err IndexError
  | p :: r => let b := nearest t p r in if Z.ltb allowed (Z.abs (t - fst b)) then Err ValueError else Ok (snd b)
  end.

(** numpy.where((a >= limit) & (g < v), v, g), lightning.py:263-268, 274-279, 367-380. *)
Definition raise_to (v limit : Q) (a g : field) : field := zipw (fun x y => if (Qle_bool limit x && (y <? v))%bool then v else y) a g.
(** lightning.py:111-127. *)
Definition lrt_lev1 (mins : Q) : Q := (1 # 2) + mins * 2 / 360.
Definition pl1 : Q := 1.
Definition pl2 : Q := 1 # 4.
(** lightning.py:199-281, the loop body of [_modify_first_guess]. *)
Definition first_guess_slice (frt t : Z) (guess rate : list (Z * field)) : result field :=
  let* r := at_time t rate in
  let* g := extract_nearest_time_point t 7201 guess in
  let fcmins := inject_Z (t - frt) / 60 in
  Ok (raise_to pl1 (lrt_lev1 fcmins) r (raise_to pl2 0 r g)).
(** lightning.py:298-387, the loop body of [apply_precip]. *)
Definition apply_precip (t : Z) (precip : list (Q * list (Z * field))) (g : field) : result field :=
  let slice thr := let* c := at_threshold thr precip in at_time t c in
  let* any := slice (1 # 2) in
  let* high := slice 7 in
  let* torr := slice 35 in
  apply_double_scaling any (raise_to pl1 (1 # 5) torr (raise_to pl2 (2 # 5) high g)) 0 (1 # 20) (1 # 10) (67 # 10000) (1 # 4) 1 Qmin.
(** lightning.py:393-448, the loop body of [apply_ice]; ice has one field for each threshold. *)
Definition ice_step (fcmins : Q) (ice : list (Q * field)) (g : field) (tp : Q * Q) : result field :=
  let* i := at_threshold (fst tp) ice in
  let top := snd tp * (1 - fcmins / 150) in
  if 0 <? top then let* r := rescale i (Some (0, 1)) (0, top) true in Ok (zipw Qmax r g) else Ok g.
Definition foldM {A B} (f : A -> B -> result A) : list B -> A -> result A :=
  fix go (l : list B) (a : A) := match l with [] => Ok a | x :: r => let* a := f a x in go r a end.
Definition apply_ice (frt t : Z) (ice : list (Q * field)) (g : field) : result field :=
  foldM (ice_step (inject_Z (t - frt) / 60) ice) [(1 # 2, 1 # 10); (1, 1 # 2); (2, 9 # 10)] g.
(** lightning.py:87-103 [__init__]: the neighbourhood plugin. *)
Definition lightning_nbhood (radius : Q) : result base := base_init (Radii [radius; 2 * radius]) (Some [0; 6]).
(** lightning.py:454-518 [process]. The result of the neighbourhood plugin (circular, so it does not fail once the size is known) is not used. *)
Definition lightning_process (radius : Q) (xs ys : list Q) (frt : Z) (guess rate : list (Z * field)) (precip : list (Q * list (Z * field))) (ice : option (list (Q * field)))
    : result (list (Z * field)) :=
  let* b := lightning_nbhood radius in
  let* template := at_threshold (1 # 2) precip in
  let* first := mapM (fun p => let* g := first_guess_slice frt (fst p) guess rate in Ok (fst p, g)) template in
  let* wet := mapM (fun p => let* g := apply_precip (fst p) precip (snd p) in Ok (fst p, g)) first in
  let* out := match ice with None => Ok wet | Some i => mapM (fun p => let* g := apply_ice frt (fst p) i (snd p) in Ok (fst p, g)) wet end in
  let* _ := nbhood_cells b xs ys (map (fun p => inject_Z (fst p - frt) / 3600) out) in
  Ok out.
