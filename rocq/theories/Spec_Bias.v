(** Specification vocabulary for C64-C66. *)
From Verif Require Import Base Model_Probability Model_Bias.
Local Open Scope Q_scope.

(** Nothing but NaN (and at least one of them) among what is not masked. *)
Definition only_nan (l : list dval) : Prop := In NotANumber l /\ forall q, ~ In (Num q) l.
(** The times of forecasts and truths are of one kind: all instants, or all periods with bounds. *)
Definition same_style (hfs truths : list tslice) : Prop :=
  (forall s, In s (hfs ++ truths) -> tc_bounds (t_cell s) = None) \/ (forall s, In s (hfs ++ truths) -> tc_bounds (t_cell s) <> None).
(** A forecast slice that has something to be compared with. *)
Definition usable (truths : list tslice) (h : tslice) : Prop := ~ only_nan (t_data h) /\ exists t, In t truths /\ t_cell t = t_cell h.
(** [h] is the first usable slice for its time. *)
Definition first_usable (truths hfs : list tslice) (h : tslice) : Prop :=
  exists before after, hfs = before ++ h :: after /\ usable truths h /\ forall g, In g before -> usable truths g -> t_cell g <> t_cell h.
Definition ascending (l : list tslice) : Prop := StronglySorted Z.le (map (fun s => tc_point (t_cell s)) l).
(** The pairs in which neither value is masked, all of them numbers. *)
Fixpoint present (l : list (dval * dval)) (es : list (Q * Q)) : Prop :=
  match l with
  | [] => es = []
  | (Masked, _) :: r | (_, Masked) :: r => present r es
  | (Num x, Num y) :: r => exists es', es = (x, y) :: es' /\ present r es'
  | _ :: r => False
  end.
(** The mean of first minus second value over the pairs of which neither is masked. *)
Definition mean_error (l : list (dval * dval)) (v : dval) : Prop :=
  match v with
  | Masked => forall p, In p l -> fst p = Masked \/ snd p = Masked
  | NotANumber => exists p, In p l /\ fst p <> Masked /\ snd p <> Masked /\ (fst p = NotANumber \/ snd p = NotANumber)
  | Num q => exists es, present l es /\ es <> [] /\ q * Qlen es == qsum (map (fun e => fst e - snd e) es)
  end.
(** Equal values: numbers up to equality of rationals. *)
Definition deq (a b : dval) : Prop := match a, b with Num x, Num y => x == y | NotANumber, NotANumber => True | Masked, Masked => True | _, _ => False end.
(** The values of two lists of slices at one point, side by side. *)
Definition pairs_at (a b : list tslice) (i : nat) : list (dval * dval) := map (fun p => (nth i (t_data (fst p)) Masked, nth i (t_data (snd p)) Masked)) (combine a b).
Definition of_size (n : nat) (l : list tslice) : Prop := forall s, In s l -> length (t_data s) = n.
(** The share of the elements of a list that satisfy P exceeds p. *)
Fixpoint count {A} (P : A -> Prop) (l : list A) (n : nat) : Prop :=
  match l with [] => n = 0%nat | x :: r => (P x /\ exists m, n = S m /\ count P r m) \/ (~ P x /\ count P r n) end.
Definition share_exceeds {A} (P : A -> Prop) (l : list A) (p : Q) : Prop := exists n, count P l n /\ p * Qlen l < Qn n.
(** The hour of the day of a time in seconds. *)
Definition at_hour (t h : Z) : Prop := (0 <= h < 24)%Z /\ exists day, (day * 86400 + h * 3600 <= t < day * 86400 + (h + 1) * 3600)%Z.
Definition at_minute (t m : Z) : Prop := (0 <= m < 60)%Z /\ exists h, (h * 3600 + m * 60 <= t < h * 3600 + (m + 1) * 60)%Z.
(** The least number of whole hours that covers p seconds. *)
Definition rounded_up (p h : Z) : Prop := ((h - 1) * 3600 < p <= h * 3600)%Z.
(** The four kinds of input of EMOS: coefficients by their name, the land-sea mask by its name, static predictors without a time, and the rest. *)
Definition coefficient_input (c : icube) : bool := contains "emos_coefficient" (i_name c).
Definition mask_input (m : option string) (c : icube) : bool := (negb (coefficient_input c) && match m with Some s => (negb (s =? "")%string && (i_name c =? s)%string)%bool | None => false end)%bool.
Definition static_input (m : option string) (c : icube) : bool := (negb (coefficient_input c) && negb (mask_input m c) && negb (i_time c))%bool.
Definition timed_input (m : option string) (c : icube) : bool := (negb (coefficient_input c) && negb (mask_input m c) && i_time c)%bool.
Definition probability_input (c : icube) : bool := contains "probability" (i_name c).
