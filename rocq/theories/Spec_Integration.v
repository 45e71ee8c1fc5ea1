(** Vocabulary for C48 and C49. *)
From Verif Require Import Base.
Local Open Scope Q_scope.

(** The part of a value that counts: negative values and missing ones count as zero. *)
Definition positive_part (v : option Q) : Q := match v with Some x => Qmax x 0 | None => 0 end.
(** The area under the straight line between the positive parts of two levels. *)
Definition layer_area (a b : Q * option Q) : Q := Qabs (fst b - fst a) * ((positive_part (snd a) + positive_part (snd b)) / 2).
(** The layers between consecutive levels, in the order given. *)
Fixpoint layers {A} (l : list A) : list (A * A) := match l with x :: ((y :: _) as r) => (x, y) :: layers r | _ => [] end.
Definition area (l : list ((Q * option Q) * (Q * option Q))) : Q := qsum (map (fun p => layer_area (fst p) (snd p)) l).
(** The sum of squared distances from the line y = a x + b. *)
Definition squares (a b : Q) (l : list (Q * Q)) : Q := qsum (map (fun p => (snd p - (a * fst p + b)) * (snd p - (a * fst p + b))) l).
(** x lies between the start and the end of an integration upwards (positive) or downwards; None is no limit. *)
Definition in_limits (positive : bool) (start stop : option Q) (x : Q) : bool :=
  (match start with Some s => if positive then s <=? x else x <=? s | None => true end &&
   match stop with Some e => if positive then x <=? e else e <=? x | None => true end)%bool.
(** The same for pairs of values that may be missing: only pairs in which both are present count. *)
Definition residual (a b : Q) (l : list (option Q * option Q)) : Q :=
  qsum (map (fun p => match p with (Some x, Some y) => (y - (a * x + b)) * (y - (a * x + b)) | _ => 0 end) l).
