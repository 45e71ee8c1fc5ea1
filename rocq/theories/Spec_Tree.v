(** What a decision tree means, independently of how ApplyDecisionTree evaluates it (no routes, no inverted conditions). *)
From Verif Require Import Base.
Local Open Scope string_scope.
Local Open Scope Q_scope.

(** A diagnostic at a grid point: masked, NaN or a number. *)
Inductive val := Masked | NaN | Num (q : Q).

(** Meaning of the four comparison strings. *)
Definition sat (cmp : string) (x t : Q) : Prop :=
  (cmp = ">=" /\ t <= x) \/ (cmp = ">" /\ t < x) \/ (cmp = "<=" /\ x <= t) \/ (cmp = "<" /\ x < t).

(** The fields of a question: values met at the point with their thresholds. The question is answered only when no value is
    masked. A NaN satisfies no comparison, and neither does it fail one. *)
Definition none_masked (fs : list (val * Q)) : Prop := Forall (fun f => fst f <> Masked) fs.
Definition field_yes (cmp : string) (f : val * Q) : Prop := exists x, fst f = Num x /\ sat cmp x (snd f).
Definition field_no (cmp : string) (f : val * Q) : Prop := exists x, fst f = Num x /\ ~ sat cmp x (snd f).
Definition yes (cmp comb : string) (fs : list (val * Q)) : Prop :=
  none_masked fs /\ (if String.eqb comb "OR" then Exists (field_yes cmp) fs else Forall (field_yes cmp) fs).
Definition no (cmp comb : string) (fs : list (val * Q)) : Prop :=
  none_masked fs /\ (if String.eqb comb "OR" then Forall (field_no cmp) fs else Exists (field_no cmp) fs).

(** Conventional arithmetic: products and quotients first, then sums and differences, both from left to right.
    [term] is the running product, [acc] the sum so far, [neg] whether the running product is to be subtracted. *)
Inductive op := Add | Sub | Mul | Div.
Fixpoint conventional (acc : Q) (neg : bool) (term : Q) (l : list (op * Q)) : Q :=
  let total := if neg then acc - term else acc + term in
  match l with
  | [] => total
  | (Mul, x) :: r => conventional acc neg (term * x) r
  | (Div, x) :: r => conventional acc neg (term / x) r
  | (Add, x) :: r => conventional total false x r
  | (Sub, x) :: r => conventional total true x r
  end.

(** No addition after a subtraction within one (sub)expression. *)
Fixpoint no_add_after_sub (seen_sub : bool) (l : list (op * Q)) : Prop :=
  match l with
  | [] => True
  | (Add, _) :: r => seen_sub = false /\ no_add_after_sub seen_sub r
  | (Sub, _) :: r => no_add_after_sub true r
  | _ :: r => no_add_after_sub seen_sub r
  end.
