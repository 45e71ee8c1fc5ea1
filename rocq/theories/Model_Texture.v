(** Model of improver/utilities/textural.py (FieldTexture), on top of the model of neighbourhood processing. *)
From Verif Require Import Base Model_Nbhood.
Local Open Scope Q_scope.

(** lines 153-176 (_calculate_transitions): the field padded by its edge values, differences along both axes, summed over the two
    sides of each cell, kept where the field is above zero. *)
Definition edge_padded (h w : Z) (d : grid Q) : grid Q := fun i j => d (nearest h (i - 1)) (nearest w (j - 1)).
Definition transitions (h w : Z) (d : grid Q) : grid Q := fun i j =>
  let p := edge_padded h w d in
  let diff_x := fun i j => Qabs (p i (j + 1)%Z - p i j) in
  let diff_y := fun i j => Qabs (p (i + 1)%Z j - p i j) in
  let cell_sum_x := fun i j => diff_x i j + diff_x i (j + 1)%Z in
  let cell_sum_y := fun i j => diff_y i j + diff_y (i + 1)%Z j in
  if 0 <? d i j then cell_sum_x (i + 1)%Z j + cell_sum_y i (j + 1)%Z else 0.
(** lines 76-151 (_calculate_ratio), on one slice without masked data; [r] is the radius in cells. *)
Definition nb_sum (r h w : Z) (d : grid Q) : result (grid Q) :=
  let* s := calculate_neighbourhood Square r true false h w d (fun _ _ => false) None in
  Ok (fun i j => match fst (s i j) with Some v => v | None => 0 end).
Definition ratio (r h w : Z) (d : grid Q) : result (grid Q) :=
  let* s := nb_sum r h w d in
  let* a := nb_sum r h w (transitions h w d) in
  Ok (fun i j => if 0 <? d i j then a i j / (4 * s i j) else 1).
(** lines 178-245 (process) for a cube with the wanted threshold already extracted: only 0 and 1 are allowed; the ratio of
    each realization is thresholded (above) and the realizations averaged. *)
Definition binary (h w : Z) (d : grid Q) : bool := forallb (fun p => ((d (fst p) (snd p) =? 0) || (d (fst p) (snd p) =? 1))%bool) (indices h w).
Definition field_texture (r h w : Z) (threshold : Q) (ds : list (grid Q)) : result (grid Q) :=
  if forallb (binary h w) ds then
    let* rs := mapM (ratio r h w) ds in
    Ok (fun i j => qsum (map (fun g : grid Q => if threshold <? g i j then 1 else 0) rs) / Qlen rs)
  else Err ValueError.
