(** Vocabulary for C33: the time integral of a rate known at given times, joined by straight lines. *)
From Verif Require Import Base.
Open Scope Q_scope.

Fixpoint integral (l : list (Z * Q)) : Q :=
  match l with
  | (t, v) :: (((t', v') :: _) as r) => inject_Z (t' - t) * ((v + v') / 2) + integral r
  | _ => 0
  end.
