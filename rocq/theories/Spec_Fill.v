(** Specification vocabulary for C53. *)
From Verif Require Import Base Model_Fill.
Local Open Scope Q_scope.

(** Squared distance between two points of a grid with w columns. *)
Definition distance2 (w i k : nat) : Z :=
  let dy := (Z.of_nat (i / w) - Z.of_nat (k / w))%Z in let dx := (Z.of_nat (i mod w) - Z.of_nat (k mod w))%Z in (dy * dy + dx * dx)%Z.
(** What nearest-neighbour interpolation promises: every point gets the value of a known point that no other known point is nearer than. *)
Definition nearest_of (w : nat) (known : list (nat * Q)) (i : nat) (v : Q) : Prop :=
  exists k, In (k, v) known /\ forall k' v', In (k', v') known -> (distance2 w i k <= distance2 w i k')%Z.
Definition is_nearest (w : nat) (g : griddata) : Prop :=
  forall n known, known <> [] -> exists f, g n known = Some f /\ length f = n /\ forall i, (i < n)%nat -> exists v, nth i f None = Some v /\ nearest_of w known i v.
(** The known values of a field, with their positions. *)
Definition known_in (data : list (option Q)) (k : nat) (v : Q) : Prop := (k < length data)%nat /\ nth k data None = Some v.
