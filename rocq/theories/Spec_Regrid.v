(** Specification vocabulary for C67-C69. *)
From Verif Require Import Base Model_Nbhood Model_Regrid.
Local Open Scope Q_scope.

(** A target between the first and the last row and column of the source. *)
Definition covered (g : sgrid) (t : target) : Prop :=
  lat_at g 0 <= fst t /\ fst t <= lat_at g (g_ny g - 1) /\ lon_at g 0 <= snd t /\ snd t <= lon_at g (g_nx g - 1).
(** A target in the cell of the source whose lower left corner is row i, column j. *)
Definition in_cell (g : sgrid) (i j : Z) (t : target) : Prop :=
  (0 <= i /\ i + 1 < g_ny g /\ 0 <= j /\ j + 1 < g_nx g)%Z /\ lat_at g i <= fst t <= lat_at g (i + 1) /\ lon_at g j <= snd t <= lon_at g (j + 1).
(** The cell a target belongs to: with its lower and left edge, and with its upper or right edge only in the last row or column. *)
Definition home_cell (g : sgrid) (i j : Z) (t : target) : Prop :=
  in_cell g i j t /\ (fst t < lat_at g (i + 1) \/ (i + 2 = g_ny g)%Z) /\ (snd t < lon_at g (j + 1) \/ (j + 2 = g_nx g)%Z).
(** The share of the way across the cell. *)
Definition up (g : sgrid) (i : Z) (t : target) : Q := (fst t - lat_at g i) / g_dlat g.
Definition along (g : sgrid) (j : Z) (t : target) : Q := (snd t - lon_at g j) / g_dlon g.
(** Bilinear interpolation in this cell; missing if one of the corners is. *)
Definition cell_value (g : sgrid) (data : Z -> Z -> option Q) (i j : Z) (t : target) (r : option Q) : Prop :=
  match data i j, data (i + 1)%Z j, data (i + 1)%Z (j + 1)%Z, data i (j + 1)%Z with
  | Some a, Some b, Some c, Some d =>
      exists v, r = Some v /\ v == (1 - up g i t) * ((1 - along g j t) * a + along g j t * d) + up g i t * ((1 - along g j t) * b + along g j t * c)
  | _, _, _, _ => r = None
  end.
(** numpy.isclose(a, b) holds for |a - b| up to this. *)
Definition tolerance (b : Q) : Q := (1 # 100000000) + (1 # 100000) * Qabs b.
(** The rows and columns are further apart than this tolerance, and no covered target lies within the tolerance of the last row or column without being on it. *)
Definition well_posed (g : sgrid) (ts : list target) : Prop :=
  (2 <= g_ny g)%Z /\ (2 <= g_nx g)%Z /\ 0 < g_dlat g /\ 0 < g_dlon g /\
  (forall t, In t ts -> tolerance (fst t) < g_dlat g /\ tolerance (snd t) < g_dlon g) /\
  (forall t, In t ts -> covered g t -> (fst t == lat_at g (g_ny g - 1) \/ tolerance (lat_at g (g_ny g - 1)) < lat_at g (g_ny g - 1) - fst t) /\
                                       (snd t == lon_at g (g_nx g - 1) \/ tolerance (lon_at g (g_nx g - 1)) < lon_at g (g_nx g - 1) - snd t)).
(** Squared distance in degrees from a source point. *)
Definition dist2 (g : sgrid) (t : target) (i j : Z) : Q := (lat_at g i - fst t) * (lat_at g i - fst t) + (lon_at g j - snd t) * (lon_at g j - snd t).
Definition a_source (g : sgrid) (i j : Z) : Prop := (0 <= i < g_ny g /\ 0 <= j < g_nx g)%Z.
Definition same_point (a b : target) : Prop := fst a == fst b /\ snd a == snd b.
(** No two of the targets are the same point. *)
Definition distinct_targets (ts : list target) : Prop := forall a b l1 l2 l3, ts = l1 ++ a :: l2 ++ b :: l3 -> ~ same_point a b.

(** ** C68 *)
(** The source points close to the domain of the targets: within two rows and two columns of it. *)
Definition surroundings (g : sgrid) (ts : list target) (i j : Z) : Prop :=
  a_source g i j /\ (exists t, In t ts /\ fst t - 2 * g_dlat g < lat_at g i) /\ (exists t, In t ts /\ lat_at g i < fst t + 2 * g_dlat g) /\
  (exists t, In t ts /\ snd t - 2 * g_dlon g < lon_at g j) /\ (exists t, In t ts /\ lon_at g j < snd t + 2 * g_dlon g).
(** The search for the n nearest points of a grid (of all points if there are fewer), for a distance between places: no point twice, closest first, and none left out that is closer. *)
Definition nearest_search (metric : target -> target -> Q) (near : sgrid -> nat -> target -> found) : Prop :=
  (forall t p q, same_point p q -> metric t p == metric t q) /\ (forall t p, 0 <= metric t p) /\
  forall g n t, (1 <= g_ny g)%Z -> (1 <= g_nx g)%Z ->
    (forall e, In e (near g n t) -> (0 <= snd e < g_ny g * g_nx g)%Z /\ fst e == metric t (in_lat g (snd e), in_lon g (snd e))) /\
    NoDup (map snd (near g n t)) /\
    (forall l1 e l2 e' l3, near g n t = l1 ++ e :: l2 ++ e' :: l3 -> fst e <= fst e') /\
    (length (near g n t) <= n)%nat /\
    (forall k, (0 <= k < g_ny g * g_nx g)%Z -> In k (map snd (near g n t)) \/ (length (near g n t) = n /\ forall e, In e (near g n t) -> fst e <= metric t (in_lat g k, in_lon g k))).
(** The distance from a target to a source point. *)
Definition away (metric : target -> target -> Q) (g : sgrid) (t : target) (s : Z * Z) : Q := metric t (lat_at g (fst s), lon_at g (snd s)).
(** At least n source points are no further from the target than this one. *)
Definition crowded_out (metric : target -> target -> Q) (g : sgrid) (t : target) (n : nat) (s : Z * Z) : Prop :=
  exists l, NoDup l /\ length l = n /\ forall p, In p l -> a_source g (fst p) (snd p) /\ away metric g t p <= away metric g t s.
(** No source point of this type within the vicinity can be used: it is beyond the vicinity or not among the eight nearest. *)
Definition nothing_near (metric : target -> target -> Q) (g : sgrid) (ts : list target) (land : Z -> Z -> bool) (own : bool) (vicinity : Q) (t : target) : Prop :=
  forall i j, surroundings g ts i j -> land i j = own -> vicinity < away metric g t (i, j) \/ crowded_out metric g t 8 (i, j).
(** A weighted sum; missing if one of the values is. *)
Definition mixed (ws : list Q) (vs : list (option Q)) (r : option Q) : Prop :=
  (In None vs /\ r = None) \/ exists qs v, vs = map Some qs /\ r = Some v /\ v == qsum (map (fun p => fst p * snd p) (combine ws qs)).
