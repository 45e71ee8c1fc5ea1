(** Specification vocabulary for C50-C52. *)
From Verif Require Import Base Model_Phase.
Local Open Scope Q_scope.

(** The value of every point of three fields of one size. *)
Definition pointwise3 (P : option Q -> option Q -> option Q -> Prop) (a b c : list (option Q)) : Prop :=
  length b = length a /\ length c = length a /\ forall i, (i < length a)%nat -> P (nth i a None) (nth i b None) (nth i c None).
(** What is known of a point that may be masked. *)
Definition when (P : Q -> Prop) (o : option Q) : Prop := match o with Some x => P x | None => True end.
(** The linear increase of the hail fraction with the updraught, between 5 and 50 m/s. *)
Definition updraught_fraction (w : Q) : Q := if w <=? 5 then 0 else if w <=? 50 then (w - 5) / 180 else 1 # 4.
(** The conditions for showers at one member: thin cloud, or mostly convective precipitation. *)
Definition showery (tc tv : Q) (cloud convection : option Q) : Prop :=
  (exists c, cloud = Some c /\ c <= tc) \/ (exists v, convection = Some v /\ tv < v).
(** [share P l v]: v is the share of the elements of l that satisfy P. *)
Fixpoint share_count {A} (P : A -> Prop) (l : list A) (n : nat) : Prop :=
  match l with [] => n = 0%nat | x :: r => (P x /\ exists m, n = S m /\ share_count P r m) \/ (~ P x /\ share_count P r n) end.
Definition share {A} (P : A -> Prop) (l : list A) (v : Q) : Prop := l <> [] /\ exists n, share_count P l n /\ v == Qn n / Qlen l.

(** The field of a realization. *)
Definition field_of {A} (r : Z) (c : rcube A) : option A :=
  match r_realizations c with Some rs => option_map snd (find (fun p => (fst p =? r)%Z) (combine rs (r_slices c))) | None => None end.
(** A cube with one field for each of its (increasing) realizations, each satisfying P. *)
Definition ensemble {A} (P : A -> Prop) (rs : list Z) (c : rcube A) : Prop :=
  r_realizations c = Some rs /\ length (r_slices c) = length rs /\ StronglySorted Z.lt rs /\ Forall P (r_slices c).
Definition shape2 (k m : nat) (f : list (list Q)) : Prop := length f = k /\ Forall (fun g => length g = m) f.
Definition pick2 (k j : nat) (o : option (list (list Q))) : Q := match o with Some f => nth j (nth k f []) 0 | None => 0 end.
Definition pick1 (j : nat) (o : option (list Q)) : Q := match o with Some f => nth j f 0 | None => 0 end.
(** The probability of rain or sleet together with temperatures below freezing, for one realization at one threshold and point. *)
Definition member_probability (rain sleet : rcube (list (list Q))) (temp : rcube (list Q)) (k j : nat) (r : Z) : Q :=
  (pick2 k j (field_of r rain) + pick2 k j (field_of r sleet)) * pick1 j (field_of r temp).
(** When a phase is found at the surface: percentile of the falling level used, and the rule comparing the altitude of the surface with that level. *)
Inductive surface_rule : string -> Q -> (Q -> Q -> Prop) -> Prop :=
| snow_rule : surface_rule "snow" 80 (fun altitude level => level <= altitude)
| rain_rule : surface_rule "rain" 20 (fun altitude level => altitude < level)
| hail_rule : surface_rule "rain_from_hail" 20 (fun altitude level => altitude < level).
(** The field of a falling level cube for a percentile: the only field, or the first with that percentile. *)
Definition level_used (pct : Q) (c : lcube) (f : list Q) : Prop :=
  match l_levels c with
  | Single g => f = g
  | Percentiles l => exists before p after, l = before ++ (p, f) :: after /\ p == pct /\ Forall (fun q => ~ fst q == pct) before
  end.
(** The altitudes of the surface and their unit: the data of the orography, or the altitude coordinate of the neighbours of spot sites. *)
Definition surface_used (o : lcube) (alt : list Q) (unit : Q) : Prop :=
  (l_name o = "surface_altitude"%string /\ l_levels o = Single alt /\ unit = l_unit o) \/ (l_name o = "grid_neighbours"%string /\ alt = l_altitude o /\ unit = l_altitude_unit o).
