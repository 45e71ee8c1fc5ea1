(** Specification vocabulary for C54, C55. *)
From Verif Require Import Base Model_Extract.
Local Open Scope Q_scope.

(** An index of the cube, and the coordinates of the value there. *)
Definition cell (c : cube) (idx : list nat) : Prop := Forall2 (fun i d => (i < length (d_points d))%nat) idx (c_dims c).
Definition labels (c : cube) (idx : list nat) : list (string * Q) := map (fun p => (d_name (fst p), nth (snd p) (d_points (fst p)) 0)) (combine (c_dims c) idx) ++ c_scalars c.
(** What a constraint asks of a coordinate value: to be one of the values, within 0.00001 of its size; or to lie in the range (whose ends are given in any order), with ends scaled by 0.0000001. *)
Definition allowed (t : test) (x : Q) : Prop :=
  match t with
  | Values l => exists y, In y l /\ Qabs (x - y) <= (1 # 100000000) + (1 # 100000) * Qabs y
  | Range a b _ => (1 - (1 # 10000000)) * Qmin a b <= x /\ x <= (1 + (1 # 10000000)) * Qmax a b
  end.
(** A value meets the constraints if every one names one of its coordinates and allows it, in the units asked for. *)
Definition satisfies (cs : list constraint) (units : list (string * conversion)) (c : cube) (idx : list nat) : Prop :=
  forall k t, In (k, t) cs -> (exists x, In (k, x) (labels c idx)) /\ forall x, In (k, x) (labels c idx) -> allowed t (in_units units k x).
(** The labels of a result: the same coordinates with the same values (in the units asked for, if those are to be kept), in any order. *)
Definition same_labels (back : bool) (units : list (string * conversion)) (out orig : list (string * Q)) : Prop :=
  exists l, Permutation out l /\ Forall2 (fun a b => fst a = fst b /\ snd a == if back then snd b else in_units units (fst b) (snd b)) l orig.
Definition no_step (cs : list constraint) : Prop := forall k a b s, In (k, Range a b (Some s)) cs -> False.
Definition good_units (units : list (string * conversion)) : Prop := forall k u, In (k, u) units -> ~ fst u == 0.
(** In a column of values: the nearest known value after or before a position. *)
Definition next_known (l : list (option Q)) (i j : nat) (v : Q) : Prop := (i < j)%nat /\ nth j l None = Some v /\ forall k, (i <= k < j)%nat -> nth k l None = None.
Definition last_known (l : list (option Q)) (i j : nat) (v : Q) : Prop := (j < i)%nat /\ nth j l None = Some v /\ forall k, (j < k <= i)%nat -> nth k l None = None.

(** The constraints that apply: every range, and the last list of values given for each coordinate. *)
Definition in_force (cs : list constraint) (c : constraint) : Prop :=
  exists l r, cs = l ++ c :: r /\ match snd c with Values _ => forall v, ~ In (fst c, Values v) r | Range _ _ _ => True end.
Definition chosen (cs : list constraint) (units : list (string * conversion)) (c : cube) (idx : list nat) : Prop :=
  cell c idx /\ forall k t, in_force cs (k, t) -> (exists x, In (k, x) (labels c idx)) /\ forall x, In (k, x) (labels c idx) -> allowed t (in_units units k x).
Definition given (units : option (list (string * conversion))) : list (string * conversion) := match units with Some l => l | None => [] end.
Definition named (k : string) (c : cube) : Prop := In k (map d_name (c_dims c) ++ map fst (c_scalars c)).
(** The same constraints without the steps. *)
Definition unstep (c : constraint) : constraint := (fst c, match snd c with Values l => Values l | Range a b _ => Range a b None end).
(** The same cube, up to equality of rationals. *)
Definition same_cube (c c' : cube) : Prop :=
  Forall2 (fun d d' => d_name d = d_name d' /\ Forall2 Qeq (d_points d) (d_points d')) (c_dims c) (c_dims c') /\
  Forall2 (fun s s' => fst s = fst s' /\ snd s == snd s') (c_scalars c) (c_scalars c') /\ forall idx, c_vals c idx = c_vals c' idx.
(** The step asked for a dimension (the last one given counts), or 1. *)
Definition last_step (k : string) (cs : list constraint) (s : Z) : Prop :=
  (exists l a b r, cs = l ++ (k, Range a b (Some s)) :: r /\ forall a' b' s', ~ In (k, Range a' b' (Some s')) r) \/ (s = 1%Z /\ forall a b s', ~ In (k, Range a b (Some s')) cs).
(** Every s-th point of a list of points. *)
Definition every (s : Z) (l l' : list Q) : Prop := (forall i, nth i l' 0 = nth (i * Z.to_nat s) l 0) /\ forall i, (i < length l')%nat <-> (i * Z.to_nat s < length l)%nat.
