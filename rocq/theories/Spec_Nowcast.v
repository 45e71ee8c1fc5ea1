(** Specification vocabulary for C61-C63. *)
From Coq Require Import Qround.
From Verif Require Import Base Model_Nbhood.
Local Open Scope Q_scope.

(** Linear interpolation in both directions between the grid points around (ys, xs). *)
Definition bilinear (f : Z -> Z -> Q) (ys xs : Q) : Q :=
  let i := Qfloor ys in let j := Qfloor xs in let v := ys - inject_Z i in let u := xs - inject_Z j in
  (1 - v) * (1 - u) * f i j + (1 - v) * u * f i (j + 1)%Z + v * (1 - u) * f (i + 1)%Z j + v * u * f (i + 1)%Z (j + 1)%Z.
(** The grid points that surround (ys, xs). *)
Definition corner (ys xs : Q) (i j : Z) : Prop := (i = Qfloor ys \/ i = Qfloor ys + 1)%Z /\ (j = Qfloor xs \/ j = Qfloor xs + 1)%Z.
Definition on_field (h w i j : Z) : Prop := (0 <= i < h)%Z /\ (0 <= j < w)%Z.
(** A field continued by zero outside its domain. *)
Definition or_zero (h w : Z) (data : Z -> Z -> option Q) (i j : Z) : Q := if inside h w i j then match data i j with Some v => v | None => 0 end else 0.
(** The source of a trajectory lies within the (half-open) domain. *)
Definition source_inside (h w : Z) (ys xs : Q) : Prop := 0 <= xs /\ xs < inject_Z w /\ 0 <= ys /\ ys < inject_Z h.
(** The number of pixels of the (2r+1) by (2r+1) window around (y, x) that satisfy P is n. *)
Definition count_around (P : Z -> Z -> Prop) (r y x : Z) (n : nat) : Prop :=
  exists l : list (Z * Z), NoDup l /\ length l = n /\ forall i j, In (i, j) l <-> (Z.abs (i - y) <= r)%Z /\ (Z.abs (j - x) <= r)%Z /\ P i j.
(** No valid value at a pixel: off the grid, or masked. *)
Definition no_value (h w : Z) (data : Z -> Z -> option Q) (i j : Z) : Prop := ~ on_field h w i j \/ data i j = None.
(** The valid values in the window around (y, x), one for each valid pixel. *)
Definition values_around (h w : Z) (data : Z -> Z -> option Q) (r y x : Z) (vs : list Q) : Prop :=
  exists l : list (Z * Z), NoDup l /\ (forall i j, In (i, j) l <-> (Z.abs (i - y) <= r)%Z /\ (Z.abs (j - x) <= r)%Z /\ ~ no_value h w data i j) /\
    Forall2 (fun p v => data (fst p) (snd p) = Some v) l vs.
