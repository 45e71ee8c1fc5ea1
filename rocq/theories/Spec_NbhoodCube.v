(** What masked neighbourhood processing should give at a point, said with the totals of Spec_Nbhood. *)
From Verif Require Import Base Model_Nbhood Spec_Nbhood Model_NbhoodCube.
Local Open Scope Q_scope.

(** The mean over the usable points of the window, missing when there are none. *)
Definition is_window_mean (m : method) (h w r : Z) (ok : grid bool) (data : grid Q) (y x : Z) (o : option Q) : Prop :=
  (weight_total m h w r ok y x == 0 -> o = None) /\
  (~ weight_total m h w r ok y x == 0 -> exists v, o = Some v /\ v == value_total m h w r ok data y x / weight_total m h w r ok y x).
Definition is_window_sum (m : method) (h w r : Z) (ok : grid bool) (data : grid Q) (y x : Z) (o : option Q) : Prop :=
  exists v, o = Some v /\ v == value_total m h w r ok data y x.

Definition same_on {A} (eqA : A -> A -> Prop) (h w : Z) (f g : grid A) : Prop := forall i j, (0 <= i < h)%Z -> (0 <= j < w)%Z -> eqA (f i j) (g i j).
(** Slices with the same values also have the same mask and the same neighbourhood size. *)
Definition consistent (b : base) (xs ys : list Q) (h w : Z) (slices : list nslice) : Prop :=
  forall s s', In s slices -> In s' slices -> same_on Qeq h w (s_data s) (s_data s') ->
    same_on eq h w (s_own s) (s_own s') /\ nbhood_cells b xs ys [s_lead s] = nbhood_cells b xs ys [s_lead s'].

(** The mean of the values that are present, with those weights that are present. *)
Definition present (vs ws : list (option Q)) (f : Q -> Q -> Q) (k : nat) : Q :=
  match nth k vs None, nth k ws None with Some v, Some u => f v u | _, _ => 0 end.
Definition is_weighted_mean (vs ws : list (option Q)) (v : Q) : Prop :=
  let total f := qsum (map (present vs ws f) (seq 0 (length vs))) in 0 < total (fun _ u => u) /\ v * total (fun _ u => u) == total (fun x u => x * u).
