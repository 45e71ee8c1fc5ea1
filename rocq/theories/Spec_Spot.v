(** Specification vocabulary for C58-C60. *)
From Verif Require Import Base Model_Spot.
Local Open Scope Q_scope.

(** What a k-d tree query returns: [k] of the nodes (all of them if there are fewer), each once, closest first, none of the others closer. *)
Definition ranked (d : Z * Z -> Q) (nodes : list (Z * Z)) (k : nat) (l : list (Z * Z)) : Prop :=
  NoDup l /\ incl l nodes /\ StronglySorted (fun p q => d p <= d q) l /\ length l = Nat.min k (length nodes) /\
  (forall q, In q nodes -> ~ In q l -> forall p, In p l -> d p <= d q).
Definition tree_ok (dist2 : site -> Z * Z -> Q) (query : list (Z * Z) -> site -> nat -> list (Z * Z)) : Prop :=
  forall nodes s k, NoDup nodes -> ranked (dist2 s) nodes k (query nodes s k).
(** The straight-line distance on a regional grid whose coordinates are [xs], [ys]. *)
Definition plane2 (xs ys : Z -> Q) (s : site) (p : Z * Z) : Q := (xs (fst p) - s_x s) * (xs (fst p) - s_x s) + (ys (snd p) - s_y s) * (ys (snd p) - s_y s).
Definition on_grid (g : model_grid) (p : Z * Z) : Prop := (0 <= fst p < g_nx g)%Z /\ (0 <= snd p < g_ny g)%Z.
(** A point a constrained search may choose, and one it may choose within the search radius. *)
Definition eligible (cfg : nconfig) (g : model_grid) (p : Z * Z) : Prop := on_grid g p /\ (c_land cfg = true -> g_land g p = true).
Definition in_reach (cfg : nconfig) (g : model_grid) (d : Z * Z -> Q) (p : Z * Z) : Prop := eligible cfg g p /\ d p < c_radius cfg * c_radius cfg.
(** A site lies in the domain: its y coordinate always matters, its x coordinate only if the grid does not wrap around. *)
Definition inside_domain (g : model_grid) (s : site) : Prop :=
  g_ymin g <= s_y s <= g_ymax g /\ (g_circular g = false -> g_xmin g <= s_x s <= g_xmax g).
(** [l'] keeps exactly the members of [l] that satisfy P, in order. *)
Inductive kept_of {A} (P : A -> Prop) : list A -> list A -> Prop :=
| kept_nil : kept_of P [] []
| kept_yes x l l' : P x -> kept_of P l l' -> kept_of P (x :: l) (x :: l')
| kept_no x l l' : ~ P x -> kept_of P l l' -> kept_of P (x :: l) l'.
(** The candidates of a search for the least height difference: the closest points in reach, at most as many as the limit. *)
Definition candidates (cfg : nconfig) (g : model_grid) (d : Z * Z -> Q) (l : list (Z * Z)) : Prop :=
  NoDup l /\ (length l <= c_limit cfg)%nat /\ (forall p, In p l -> in_reach cfg g d p) /\
  (forall q, in_reach cfg g d q -> ~ In q l -> length l = c_limit cfg /\ forall p, In p l -> d p <= d q).
Definition off_height (g : model_grid) (alt : Q) (p : Z * Z) : Q := Qabs (g_orog g p - alt).
(** Identifiers that may be stored: present, pairwise different, of at most eight characters. *)
Definition good_ids (l : list site) : Prop :=
  (forall s, In s l -> exists i, s_id s = Some i /\ (-10000000 < i < 100000000)%Z) /\ NoDup (map s_id l).
(** Two grids differ at most in their bounds. *)
Definition same_axis (a b : axis) : Prop := Forall2 Qeq (a_points a) (a_points b) /\ a_name a = a_name b /\ a_crs a = a_crs b /\ a_units a = a_units b.
Definition same_up_to_bounds (a b : hgrid) : Prop := same_axis (h_x a) (h_x b) /\ same_axis (h_y a) (h_y b).
(** Probabilities of not exceeding / of exceeding a threshold, of a finite ensemble. *)
Definition share_below (vs : list Q) (t : Q) : Q := Qlen (filter (fun v => v <=? t) vs) / Qlen vs.
