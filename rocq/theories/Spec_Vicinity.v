From Verif Require Import Base Model_Nbhood.
Local Open Scope Q_scope.
(** The points whose values count at (y, x): in the domain, within the square, unmasked, and land for a land point, sea for a sea point. *)
Definition counts (h w r : Z) (own : grid bool) (land : option (grid bool)) (y x i j : Z) : Prop :=
  (0 <= i < h)%Z /\ (0 <= j < w)%Z /\ (y - r <= i <= y + r)%Z /\ (x - r <= j <= x + r)%Z /\ own i j = false /\
  match land with Some l => l i j = l y x | None => True end.
Definition is_maximum (P : Z -> Z -> Prop) (data : grid Q) (v : Q) : Prop :=
  (exists i j, P i j /\ v == data i j) /\ (forall i j, P i j -> data i j <= v).
