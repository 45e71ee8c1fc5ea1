(** Specification vocabulary for C70: what the standard distributions handed to the model must satisfy, and what a percentile is. *)
From Verif Require Import Base Model_Bias Model_Dist.
Local Open Scope Q_scope.

Definition lower_ok (a : option Q) (x : Q) : Prop := match a with Some a => a <= x | None => True end.
Definition upper_ok (b : option Q) (x : Q) : Prop := match b with Some b => x <= b | None => True end.
Definition same (a b : option Q) : Prop := match a, b with Some x, Some y => x == y | None, None => True | _, _ => False end.
(** [ppf] and [cdf] are the quantile and distribution functions of a standard distribution truncated to [a, b]. *)
Record standard_distribution (ppf : quantile_fn) (cdf : cumulative_fn) : Prop := {
  sd_increasing : forall a b p q, 0 < p -> p <= q -> q < 1 -> ppf a b p <= ppf a b q;
  sd_range : forall a b p, (match a, b with Some x, Some y => x <= y | _, _ => True end) -> 0 < p -> p < 1 -> lower_ok a (ppf a b p) /\ upper_ok b (ppf a b p);
  sd_probability : forall a b x, 0 <= cdf a b x <= 1;
  sd_cumulative : forall a b x y, x <= y -> cdf a b x <= cdf a b y;
  sd_inverse : forall a b p, (match a, b with Some x, Some y => x < y | _, _ => True end) -> 0 < p -> p < 1 -> cdf a b (ppf a b p) == p;
  sd_same : forall a a' b b' x y, same a a' -> same b b' -> x == y -> cdf a b x == cdf a' b' y;
}.
(** The probability of a value not above [t] under location [l] and scale [s], the distribution being truncated where [d] says. *)
Definition probability_below (cdf : cumulative_fn) (d : distribution) (l s t : Q) : Q :=
  match d with
  | Norm => cdf None None ((t - l) / s)
  | TruncNorm lo hi => cdf (option_map (fun v => (v - l) / s) lo) (option_map (fun v => (v - l) / s) hi) ((t - l) / s)
  end.
(** The truncation points are in order, and apart. *)
Definition proper_limits (d : distribution) : Prop := match d with TruncNorm (Some x) (Some y) => x < y | _ => True end.
Definition within_limits (d : distribution) (x : Q) : Prop := match d with TruncNorm lo hi => lower_ok lo x /\ upper_ok hi x | Norm => True end.
(** The value in row [k] at point [i]. *)
Definition value (rows : list (list dval)) (k i : nat) : dval := nth i (nth k rows []) NotANumber.
Definition at_i (f : list dval) (i : nat) : dval := nth i f NotANumber.
(** The distribution in other units: values are multiplied by [k] (the units have the same zero). *)
Definition scaled_distribution (k : Q) (d : distribution) : distribution :=
  match d with Norm => Norm | TruncNorm lo hi => TruncNorm (option_map (Qmult k) lo) (option_map (Qmult k) hi) end.
