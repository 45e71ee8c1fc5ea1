(** What a percentile of some values is: with the values in increasing order at 0, 100/(n-1), 200/(n-1), ..., 100 percent, the value read by linear interpolation. *)
From Verif Require Import Base.
Local Open Scope Q_scope.

Definition is_percentile (l : list Q) (p v : Q) : Prop :=
  exists s, Permutation l s /\ qsorted s /\
    (length l = 1%nat -> v == nth 0 s 0) /\
    forall i, (S i < length l)%nat ->
      let h := p / 100 * (Qn (length l) - 1) in
      Qn i <= h <= Qn i + 1 -> v == nth i s 0 + (h - Qn i) * (nth (S i) s 0 - nth i s 0).
(** The cells of an index: every cell of the cube whose index agrees with it on the dimensions that are left. *)
Definition in_range (sizes idx : list nat) : Prop := Forall2 (fun n i => (i < n)%nat) sizes idx.
Fixpoint kept_part (fl : list bool) (idx : list nat) : list nat :=
  match fl, idx with b :: fr, i :: r => if b then kept_part fr r else i :: kept_part fr r | _, _ => [] end.
