(** Specification for C44 and C45. *)
From Verif Require Import Base Model_Reference.
Local Open Scope Q_scope.

(** The lower and upper limit that the plugin's arguments give for one reference value; None when the arguments make no sense. *)
Definition line (a m r : Q) : Q := m * r + a.
Definition limits (e : enforcer) (r : Q) : option (option Q * option Q) :=
  match e_add e, e_mul e, e_cmp e with
  | One a, One m, One ">="%string => Some (Some (line a m r), None)
  | One a, One m, One "<="%string => Some (None, Some (line a m r))
  | Many (a :: a' :: _), Many (m :: m' :: _), Many [">="; "<="]%string => Some (Some (line a m r), Some (line a' m' r))
  | Many (a :: a' :: _), Many (m :: m' :: _), Many ["<="; ">="]%string => Some (Some (line a' m' r), Some (line a m r))
  | _, _, _ => None
  end.
Definition within (lo hi : option Q) (x : Q) : Prop := (forall l, lo = Some l -> l <= x) /\ (forall h, hi = Some h -> x <= h).
Definition total_at (fields : list field) (p : nat) : Q := qsum (map (fun f => nth p (f_data f) 0) fields).
(** The data of a cube have one value for each combination of coordinate points. *)
Definition size (f : field) : nat := fold_right Nat.mul 1%nat (shape f).
Definition whole (f : field) : Prop := length (f_data f) = size f.
