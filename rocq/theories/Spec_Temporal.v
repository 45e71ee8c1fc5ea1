(** Vocabulary for C32, independent of the model: the straight line through two values in time. *)
From Verif Require Import Base.
Open Scope Q_scope.

(** (t, v) lies on the line through (t0, x0) and (t1, x1). *)
Definition on_line (t0 t1 : Z) (x0 x1 : Q) (t : Z) (v : Q) : Prop :=
  (v - x0) * inject_Z (t1 - t0) == (x1 - x0) * inject_Z (t - t0).
Definition between (x0 x1 v : Q) : Prop := Qmin x0 x1 <= v <= Qmax x0 x1.
(** l is strictly increasing, lies in [a, b] and ends with b. *)
Definition strictly_up_to (a b : Z) (l : list Z) : Prop :=
  StronglySorted Z.lt l /\ Forall (fun t => (a <= t <= b)%Z) l /\ last l a = b /\ l <> [].
