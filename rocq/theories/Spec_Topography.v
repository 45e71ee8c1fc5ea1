(** Specification for C43: what topographic zone weights and orography bands should be. *)
From Verif Require Import Base.
Local Open Scope Q_scope.

(** Bands are (lower, upper] intervals. They are contiguous when each is not empty and the next one starts where it ends. *)
Definition lower (bs : list (Q * Q)) (k : nat) : Q := fst (nth k bs (0, 0)).
Definition upper (bs : list (Q * Q)) (k : nat) : Q := snd (nth k bs (0, 0)).
Definition contiguous (bs : list (Q * Q)) : Prop :=
  (forall k, (k < length bs)%nat -> lower bs k < upper bs k) /\ (forall k, (S k < length bs)%nat -> upper bs k == lower bs (S k)).
Definition inside (bs : list (Q * Q)) (k : nat) (z : Q) : Prop := lower bs k < z <= upper bs k.
(** Weight of band j for a height z in band k: linear from one half at the edges of band k to one at its middle; what is missing to one goes to the neighbour on the side of z,
    or to band k itself when there is no neighbour on that side. *)
Definition middle (bs : list (Q * Q)) (k : nat) : Q := (lower bs k + upper bs k) / 2.
Definition closeness (bs : list (Q * Q)) (k : nat) (z : Q) : Q := 1 - Qabs (z - middle bs k) / (upper bs k - lower bs k).
Definition ideal_weight (bs : list (Q * Q)) (k : nat) (z : Q) (j : nat) : Q :=
  let alone := ((z <? middle bs k) && (k =? 0)%nat || (middle bs k <? z) && (S k =? length bs)%nat)%bool in
  if (j =? k)%nat then (if alone then 1 else closeness bs k z)
  else if ((S j =? k)%nat && (z <? middle bs k))%bool then 1 - closeness bs k z
  else if ((j =? S k)%nat && (middle bs k <? z))%bool then 1 - closeness bs k z
  else 0.
