(** Model of improver/visibility/visibility_combine_cloud_base.py (VisibilityCombineCloudBase), on top of the model of probability cubes.
    Data are exact and without masks; a grid is its list of points; metadata other than name and direction are not modelled. *)
From Verif Require Import Base Model_Probability.
Local Open Scope Q_scope.

(** A cube given to the plugin: [vi_prob] is is_probability (line 166). A cube of the cloud base has one threshold. *)
Record vinput := { vi_prob : bool; vi_cube : pcube }.
Definition cube_name (c : vinput) : string := pc_name (vi_cube c).
(** lines 60-104 (separate_input_cubes) after flattening: exactly two; the last of each kind. *)
Definition is_visibility (c : vinput) : bool := contains "visibility_in_air" (cube_name c).
Definition is_cloud (c : vinput) : bool := (negb (is_visibility c) && contains "cloud_base" (cube_name c))%bool.
Definition last_of (f : vinput -> bool) (l : list vinput) : option vinput := fold_left (fun acc c => if f c then Some c else acc) l None.
Definition separate (cubes : list vinput) : result (vinput * vinput) :=
  if negb (length cubes =? 2)%nat then Err ValueError else
  match last_of is_visibility cubes, last_of is_cloud cubes with Some v, Some c => Ok (v, c) | _, _ => Err ValueError end.

(** lines 106-136 (get_scaling_factors) for one threshold: Python's division of a float by zero raises. *)
Definition scaling_factor (s0 T t : Q) : result Q :=
  if T * T * T * T =? 0 then Err ZeroDivision else
  Ok (if T <? t then 1 else (1 - s0) * (-1 / (T * T * T * T)) * ((t - T) * (t - T) * (t - T) * (t - T)) + 1).

(** lines 183-194: every threshold of a point with the scaled cloud base there; the larger is taken. *)
Definition combine_point (factors : list Q) (column : list Q) (cloud : Q) : list Q := map (fun pf => Qmax (fst pf) (cloud * snd pf)) (combine column factors).
(** line 196 (merge_cube): the thresholds in increasing order, each with its probabilities. *)
Definition by_threshold (a b : Q * Q) : bool := fst a <=? fst b.
Definition merged_column (thr column : list Q) : list Q := map snd (isort by_threshold (combine thr column)).
(** lines 138-201 (process). *)
Definition process (s0 T : Q) (cubes : list vinput) : result pcube :=
  let* (v, c) := separate cubes in
  if negb (vi_prob v) then Err ValueError else if negb (vi_prob c) then Err ValueError else
  let inverted := match direction (pc_attr (vi_cube v)) with Some Above => true | _ => false end in
  let* vis := if inverted then invert_probabilities (vi_cube v) else Ok (vi_cube v) in
  let cloud := vi_cube c in
  let* factors := mapM (scaling_factor s0 T) (pc_thr vis) in
  if negb ((length (pc_thr cloud) =? 1)%nat && (length (pc_cols cloud) =? length (pc_cols vis))%nat) then Err ValueError else
  let out := {| pc_name := pc_name vis; pc_attr := pc_attr vis; pc_thr := map fst (isort by_threshold (combine (pc_thr vis) (pc_thr vis)));
                pc_cols := map (fun vc => merged_column (pc_thr vis) (combine_point factors (fst vc) (hd 0 (snd vc)))) (combine (pc_cols vis) (pc_cols cloud)) |} in
  if inverted then invert_probabilities out else Ok out.
