(** Independent specification for thresholding (C01-C04, C30); refers to nothing in
    the model except the names of the four inequalities. *)
From Verif Require Import Base Model_Threshold.

(** "value OP threshold" as a proposition. *)
Definition holds (c : cmp) (x t : Q) : Prop :=
  match c with GE => x >= t | GT => x > t | LE => x <= t | LT => x < t end.

(** Is the inequality of the "above" family? *)
Definition above (c : cmp) : bool := match c with GE | GT => true | LE | LT => false end.

(** The fuzzy exceedance ramp: 0 at [lo], 1/2 at [t], 1 at [hi], straight in between. *)
Definition ramp (lo t hi x : Q) : Q :=
  if x <=? lo then 0
  else if x <=? t then (x - lo) / (2 * (t - lo))
  else if x <=? hi then (1 # 2) + (x - t) / (2 * (hi - t))
  else 1.

(** [truth_is c t lo hi x v]: [v] is the right truth value of datum [x]. *)
Definition truth_is (c : cmp) (t lo hi x v : Q) : Prop :=
  (lo == hi /\ ((holds c x t /\ v == 1) \/ (~ holds c x t /\ v == 0))) \/
  (lo < hi /\ v == if above c then ramp lo t hi x else 1 - ramp lo t hi x).

(** Values of the members that are not masked. *)
Fixpoint unmasked (ms : list (option Q)) : list Q :=
  match ms with [] => [] | Some x :: r => x :: unmasked r | None :: r => unmasked r end.

(** [v] is the mean of [f] over the unmasked members; masked iff there are none. *)
Definition mean_of (truth : Q -> Q -> Prop) (ms : list (option Q)) (v : option Q) : Prop :=
  match v with
  | None => unmasked ms = []
  | Some p => unmasked ms <> [] /\
      exists ts, Forall2 truth (unmasked ms) ts /\ p == qsum ts / Qlen ts
  end.

(** The bounds can be applied: crisp, or strictly on both sides of the threshold. *)
Definition usable (t lo hi : Q) : Prop := lo == hi \/ (~ lo == t /\ ~ t == hi).

(** A slice holding [n] points. *)
Definition shaped (n : nat) (s : slice) : Prop := length (sl_data s) = n /\ length (sl_mask s) = n.

(** What slice [s] holds at point [i]: None when masked. *)
Definition member (i : nat) (s : slice) : option Q :=
  if nth i (sl_mask s) true then None else Some (nth i (sl_data s) 0).

(** Equality of possibly masked values. *)
Definition oeq (a b : option Q) : Prop :=
  match a, b with Some x, Some y => x == y | None, None => True | _, _ => False end.

(** A plugin whose bounds enclose their thresholds. *)
Definition well_formed (p : threshold_plugin) : Prop :=
  length (tp_bounds p) = length (tp_thresholds p) /\
  forall k, (k < length (tp_thresholds p))%nat ->
    fst (nth k (tp_bounds p) (0, 0)) <= nth k (tp_thresholds p) 0 <= snd (nth k (tp_bounds p) (0, 0)).

(** What the accepted operator strings and the attribute values mean, as documented. *)
Definition operator_means (key : string) (x t : Q) : Prop :=
  (In key ["ge"; "GE"; ">="]%string /\ x >= t) \/ (In key ["gt"; "GT"; ">"]%string /\ x > t) \/
  (In key ["le"; "LE"; "<="]%string /\ x <= t) \/ (In key ["lt"; "LT"; "<"]%string /\ x < t).
Definition attribute_means (attr : string) (x t : Q) : Prop :=
  (attr = "greater_than_or_equal_to"%string /\ x >= t) \/ (attr = "greater_than"%string /\ x > t) \/
  (attr = "less_than_or_equal_to"%string /\ x <= t) \/ (attr = "less_than"%string /\ x < t).
