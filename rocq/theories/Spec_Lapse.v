(** Specification vocabulary for C56, C57. *)
From Verif Require Import Base Model_Nbhood.
Local Open Scope Q_scope.

(** A value limited to [lo, hi]. *)
Definition limited (lo hi v v' : Q) : Prop := (v < lo /\ v' == lo) \/ (hi < v /\ v' == hi) \/ (lo <= v <= hi /\ v' == v).
(** The points that take part in the fit at (y, x): land points of the domain, at most r rows and columns away, whose height differs by at most d. *)
Definition takes_part (d : Q) (r h w : Z) (orog : grid Q) (land : grid bool) (y x i j : Z) : Prop :=
  (Z.abs (i - y) <= r)%Z /\ (Z.abs (j - x) <= r)%Z /\ (0 <= i < h)%Z /\ (0 <= j < w)%Z /\ land i j = true /\ Qabs (orog i j - orog y x) <= d.
(** A list of them, each once. *)
Definition all_that (P : Z -> Z -> Prop) (l : list (Z * Z)) : Prop := NoDup l /\ forall i j, In (i, j) l <-> P i j.
(** Mean squared deviation from the mean, and sum of squared distances from a line. *)
Definition average (l : list Q) : Q := qsum l / Qlen l.
Definition spread (l : list Q) : Q := average (map (fun v => (v - average l) * (v - average l)) l).
Definition misfit (slope offset : Q) (l : list (Q * Q)) : Q := qsum (map (fun p => (snd p - (slope * fst p + offset)) * (snd p - (slope * fst p + offset))) l).
Definition negligible (v : Q) : Prop := v <= 1 # 10000000000000000.
