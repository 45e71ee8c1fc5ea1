(** Small vocabulary for C05-C07 and C28. *)
From Verif Require Import Base Model_Percentiles.

(** Monotone in threshold in the sense of the comparison. *)
Definition monotone_in_threshold (d : relation) (col : list Q) : Prop :=
  match d with Above => qsorted (rev col) | Below => qsorted col end.
Definition probability (p : Q) : Prop := 0 <= p <= 1.
(** A cumulative distribution at increasing thresholds. *)
Definition cdf (col : list Q) : Prop := qsorted col /\ Forall probability col.
(** Weighted sum. *)
Fixpoint wsum (w m : list Q) : Q :=
  match w, m with x :: w, y :: m => x * y + wsum w m | _, _ => 0 end.
