(** Lemmas for C67-C69. *)
From Coq Require Import Qround Qfield.
From Verif Require Import Base Model_Percentiles Model_Nbhood Proofs_Percentiles Proofs_Temporal Proofs_Table Model_Regrid Spec_Regrid.
Local Open Scope Q_scope.

(** ** Slicing *)
Definition zs (c : Z) (m : nat) : list Z := map (fun k => (c + Z.of_nat k)%Z) (seq 0 m).
Lemma zs_S c m : zs c (S m) = c :: zs (c + 1) m.
Proof. unfold zs. cbn [seq map]. f_equal; [lia|]. rewrite <- seq_shift, map_map. apply map_ext. intro k. lia. Qed.
Lemma zs_in c m x : In x (zs c m) <-> (c <= x < c + Z.of_nat m)%Z.
Proof. unfold zs. rewrite in_map_iff. split; [intros (k & <- & I0); apply in_seq in I0; lia|]. intro B. exists (Z.to_nat (x - c)). split; [lia|]. apply in_seq. lia. Qed.
Lemma zs_length c m : length (zs c m) = m.
Proof. unfold zs. now rewrite map_length, seq_length. Qed.
Lemma zseq_zs n : zseq n = zs 0 (Z.to_nat n).
Proof. unfold zseq, zs. apply map_ext. intro k. lia. Qed.
Definition convex (P : Z -> bool) : Prop := forall a b c, (a <= b <= c)%Z -> P a = true -> P c = true -> P b = true.
Lemma filter_convex P n : convex P -> forall a, exists c m, filter P (zs a n) = zs c m /\ (a <= c)%Z.
Proof.
  intro C. induction n as [|n IH]; intro a; [exists a, 0%nat; split; [reflexivity|lia]|]. rewrite zs_S. cbn [filter]. destruct (IH (a + 1)%Z) as (c & m & E & L). destruct (P a) eqn:Pa.
  - destruct m as [|m].
    + exists a, 1%nat. rewrite E, zs_S. split; [reflexivity|lia].
    + assert (Ic : In c (filter P (zs (a + 1) n))) by (rewrite E; apply zs_in; lia). apply filter_In in Ic as [Ic Pc]. apply zs_in in Ic.
      assert (Ia : In (a + 1)%Z (filter P (zs (a + 1) n))) by (apply filter_In; split; [apply zs_in; lia|]; apply (C a _ c); [lia|exact Pa|exact Pc]). rewrite E in Ia. apply zs_in in Ia. replace c with (a + 1)%Z in E by lia. exists a, (S (S m)). rewrite E, <- zs_S. split; [reflexivity|lia].
  - exists c, m. split; [exact E|lia].
Qed.
Lemma inject_le a b : (a <= b)%Z -> inject_Z a <= inject_Z b.
Proof. intro H. rewrite <- Zle_Qle. exact H. Qed.
Lemma inject_lt_iff a b : inject_Z a < inject_Z b <-> (a < b)%Z.
Proof. rewrite <- Zlt_Qlt. reflexivity. Qed.
Lemma slice_convex lo hi p0 d : 0 < d -> convex (fun i => ((lo - 2 * d <? p0 + inject_Z i * d) && (p0 + inject_Z i * d <? hi + 2 * d))%bool).
Proof.
  intros D a b c [L1 L2] A C. apply andb_true_iff in A as [A _], C as [_ C]. apply Qltb_lt in A, C. apply inject_le in L1, L2. apply andb_true_iff. split; apply Qltb_lt.
  - assert (inject_Z a * d <= inject_Z b * d) by (apply Qmult_le_compat_r; lra). lra.
  - assert (inject_Z b * d <= inject_Z c * d) by (apply Qmult_le_compat_r; lra). lra.
Qed.
Lemma slice_axis_spec lo hi p0 d n : 0 < d -> exists c m, slice_axis lo hi p0 d n = zs c m /\
  forall i, (c <= i < c + Z.of_nat m)%Z <-> (0 <= i < n)%Z /\ lo - 2 * d < p0 + inject_Z i * d /\ p0 + inject_Z i * d < hi + 2 * d.
Proof.
  intro D. unfold slice_axis. rewrite zseq_zs. destruct (filter_convex _ (Z.to_nat n) (slice_convex lo hi p0 d D) 0%Z) as (c & m & E & _). exists c, m. split; [exact E|].
  intro i. rewrite <- zs_in, <- E, filter_In, zs_in, andb_true_iff, !Qltb_lt. split; intros (A & B & C); (split; [lia|auto]).
Qed.
(** The cell of an axis that contains a number. *)
Lemma floor_cell p0 d x n : 0 < d -> (2 <= n)%Z -> p0 <= x -> x <= p0 + inject_Z (n - 1) * d -> exists i, (0 <= i /\ i + 1 < n)%Z /\ p0 + inject_Z i * d <= x <= p0 + inject_Z (i + 1) * d /\
  (x == p0 + inject_Z (n - 1) * d -> i = (n - 2)%Z) /\ (x < p0 + inject_Z (n - 1) * d -> i = Qfloor ((x - p0) / d)).
Proof.
  intros D N L U. destruct (Qlt_le_dec x (p0 + inject_Z (n - 1) * d)) as [C|C].
  - exists (Qfloor ((x - p0) / d)). pose proof (Qfloor_le ((x - p0) / d)) as F1. pose proof (Qlt_floor ((x - p0) / d)) as F2.
    assert (A1 : inject_Z (Qfloor ((x - p0) / d)) * d <= x - p0). { apply (Qmult_le_compat_r _ _ d) in F1; [|lra]. setoid_replace ((x - p0) / d * d) with (x - p0) in F1 by (field; lra). exact F1. }
    assert (A2 : x - p0 < inject_Z (Qfloor ((x - p0) / d) + 1) * d). { apply (Qmult_lt_r _ _ d) in F2; [|lra]. setoid_replace ((x - p0) / d * d) with (x - p0) in F2 by (field; lra). exact F2. }
    assert (P0 : (0 <= Qfloor ((x - p0) / d))%Z). { rewrite <- (Qfloor_Z 0). apply Qfloor_resp_le. apply Qle_shift_div_l; [lra|]. change (inject_Z 0) with 0. lra. }
    assert (P1 : (Qfloor ((x - p0) / d) < n - 1)%Z). { apply inject_lt_iff. apply (Qmult_lt_r _ _ d D). lra. }
    split; [lia|]. split; [split; lra|]. split; [lra|reflexivity].
  - exists (n - 2)%Z. replace (n - 2 + 1)%Z with (n - 1)%Z by lia. split; [lia|]. split; [split; [|lra]|]; [|split; [reflexivity|lra]].
    assert (inject_Z (n - 2) * d <= inject_Z (n - 1) * d) by (apply Qmult_le_compat_r; [apply inject_le; lia|lra]). lra.
Qed.
Lemma axis_cell lo hi p0 d n c m x : 0 < d -> (2 <= n)%Z -> (forall i, (c <= i < c + Z.of_nat m)%Z <-> (0 <= i < n)%Z /\ lo - 2 * d < p0 + inject_Z i * d /\ p0 + inject_Z i * d < hi + 2 * d) ->
  lo <= x -> x <= hi -> p0 <= x -> x <= p0 + inject_Z (n - 1) * d -> exists i, (0 <= i /\ i + 1 < n)%Z /\ (c <= i /\ i + 1 < c + Z.of_nat m)%Z /\ p0 + inject_Z i * d <= x <= p0 + inject_Z (i + 1) * d /\
  (x == p0 + inject_Z (n - 1) * d -> i = (n - 2)%Z) /\ (x < p0 + inject_Z (n - 1) * d -> i = Qfloor ((x - p0) / d)).
Proof.
  intros D N E L1 L2 L U. destruct (floor_cell p0 d x n D N L U) as (i & B & C & F1 & F2). exists i. split; [exact B|].
  assert (St : inject_Z (i + 1) * d == inject_Z i * d + d) by (rewrite inject_Z_plus; change (inject_Z 1) with 1; ring).
  assert (A1 : (c <= i < c + Z.of_nat m)%Z) by (apply E; split; [lia|split; lra]). assert (A2 : (c <= i + 1 < c + Z.of_nat m)%Z) by (apply E; split; [lia|split; lra]). split; [lia|]. auto.
Qed.
Lemma axis_top lo hi p0 d n c m : 0 < d -> (0 < m)%nat -> (forall i, (c <= i < c + Z.of_nat m)%Z <-> (0 <= i < n)%Z /\ lo - 2 * d < p0 + inject_Z i * d /\ p0 + inject_Z i * d < hi + 2 * d) ->
  (0 <= c /\ c + Z.of_nat m <= n)%Z /\ ((c + Z.of_nat m)%Z = n \/ hi + d <= p0 + inject_Z (c + Z.of_nat m - 1) * d).
Proof.
  intros D M E. pose proof (proj1 (E c) ltac:(lia)) as (A & _). pose proof (proj1 (E (c + Z.of_nat m - 1)%Z) ltac:(lia)) as (B & Bl & Bu). split; [lia|].
  destruct (Z.eq_dec (c + Z.of_nat m) n) as [Eq|Ne]; [now left|right]. destruct (Qlt_le_dec (p0 + inject_Z (c + Z.of_nat m) * d) (hi + 2 * d)) as [C|C].
  - exfalso. assert (St : inject_Z (c + Z.of_nat m) * d == inject_Z (c + Z.of_nat m - 1) * d + d) by (replace (c + Z.of_nat m)%Z with (c + Z.of_nat m - 1 + 1)%Z at 1 by lia; rewrite inject_Z_plus; change (inject_Z 1) with 1; ring).
    assert (X : (c <= c + Z.of_nat m < c + Z.of_nat m)%Z); [|lia]. apply E. split; [lia|split; lra].
  - assert (St : inject_Z (c + Z.of_nat m) * d == inject_Z (c + Z.of_nat m - 1) * d + d) by (replace (c + Z.of_nat m)%Z with (c + Z.of_nat m - 1 + 1)%Z at 1 by lia; rewrite inject_Z_plus; change (inject_Z 1) with 1; ring). lra.
Qed.
Lemma qmax_of_spec l x : In x l -> x <= qmax_of l.
Proof. destruct l as [|a r]; [easy|]. intro H. now apply qmaxl_ge. Qed.
Lemma qmin_of_spec l x : In x l -> qmin_of l <= x.
Proof. destruct l as [|a r]; [easy|]. intro H. now apply qminl_le. Qed.
Lemma qmax_of_in l : l <> [] -> exists y, In y l /\ qmax_of l == y.
Proof. destruct l as [|a r]; [easy|]. intros _. apply qmaxl_in. Qed.
Lemma lat_plus g a b : lat_at g (a + b) == lat_at g a + inject_Z b * g_dlat g.
Proof. unfold lat_at. rewrite inject_Z_plus. ring. Qed.
Lemma lon_plus g a b : lon_at g (a + b) == lon_at g a + inject_Z b * g_dlon g.
Proof. unfold lon_at. rewrite inject_Z_plus. ring. Qed.
(** The sliced grid is a window of the source that contains the cell of every covered target. *)
Record window_of (g g' : sgrid) (r0 c0 : Z) (ts : list target) : Prop := {
  wo_dlat : g_dlat g' = g_dlat g; wo_dlon : g_dlon g' = g_dlon g;
  wo_lat : forall k, lat_at g' k == lat_at g (r0 + k); wo_lon : forall k, lon_at g' k == lon_at g (c0 + k);
  wo_rows : (0 <= r0 /\ 1 <= g_ny g' /\ r0 + g_ny g' <= g_ny g)%Z; wo_cols : (0 <= c0 /\ 1 <= g_nx g' /\ c0 + g_nx g' <= g_nx g)%Z;
  wo_top : (r0 + g_ny g')%Z = g_ny g \/ forall t, In t ts -> fst t + g_dlat g <= lat_max g'; wo_right : (c0 + g_nx g')%Z = g_nx g \/ forall t, In t ts -> snd t + g_dlon g <= lon_max g';
  wo_cell : forall t, In t ts -> covered g t -> exists i j, in_cell g (r0 + i) (c0 + j) t /\ in_cell g' i j t /\ (fst t == lat_max g -> i = (g_ny g' - 2)%Z /\ (r0 + g_ny g')%Z = g_ny g) /\ (fst t < lat_max g -> i = Qfloor ((fst t - g_lat0 g') / g_dlat g')) /\ (snd t == lon_max g -> j = (g_nx g' - 2)%Z /\ (c0 + g_nx g')%Z = g_nx g) /\ (snd t < lon_max g -> j = Qfloor ((snd t - g_lon0 g') / g_dlon g')) }.
Lemma floor_shift x k : Qfloor (x - inject_Z k) = (Qfloor x - k)%Z.
Proof.
  assert (E : forall x k, (Qfloor (x + inject_Z k) = Qfloor x + k)%Z).
  { clear. intros [a b] k. unfold Qfloor, Qplus, inject_Z. cbn. rewrite Z.mul_1_r, Pos.mul_1_r. rewrite Z.div_add by lia. reflexivity. }
  unfold Qminus. replace (- inject_Z k) with (inject_Z (- k)) by reflexivity. rewrite E. lia.
Qed.
Lemma floor_origin p0 d x k : 0 < d -> Qfloor ((x - (p0 + inject_Z k * d)) / d) = (Qfloor ((x - p0) / d) - k)%Z.
Proof. intro D. rewrite <- floor_shift. apply Qfloor_comp. field. lra. Qed.
Lemma slice_window g ts g' r0 c0 : (2 <= g_ny g)%Z -> (2 <= g_nx g)%Z -> 0 < g_dlat g -> 0 < g_dlon g -> slice_grid g ts = Ok (g', r0, c0) -> window_of g g' r0 c0 ts.
Proof.
  intros Ny Nx Dy Dx H. unfold slice_grid in H. destruct ts as [|t0 ts0] eqn:Ets; [discriminate|]. rewrite <- Ets in *. clear Ets.
  destruct (slice_axis_spec (qmin_of (map fst ts)) (qmax_of (map fst ts)) (g_lat0 g) (g_dlat g) (g_ny g) Dy) as (cr & mr & Er & Sr).
  destruct (slice_axis_spec (qmin_of (map snd ts)) (qmax_of (map snd ts)) (g_lon0 g) (g_dlon g) (g_nx g) Dx) as (cc & mc & Ec & Sc).
  rewrite Er, Ec in H. destruct mr as [|mr]; [discriminate|]. destruct mc as [|mc]; [destruct (zs cr (S mr)); discriminate|]. rewrite !zs_S in H. rewrite <- !zs_S, !zs_length in H. apply Ok_inj in H. injection H as <- <- <-. change (Z.pos (Pos.of_succ_nat mr)) with (Z.of_nat (S mr)). change (Z.pos (Pos.of_succ_nat mc)) with (Z.of_nat (S mc)).
  destruct (axis_top _ _ _ _ _ _ _ Dy (Nat.lt_0_succ mr) Sr) as [Br Tr]. destruct (axis_top _ _ _ _ _ _ _ Dx (Nat.lt_0_succ mc) Sc) as [Bc Tc].
  constructor; cbn [g_ny g_nx g_lat0 g_lon0 g_dlat g_dlon]; try reflexivity; try lia.
  - intro k. unfold lat_at. cbn [g_lat0 g_dlat]. rewrite inject_Z_plus. ring.
  - intro k. unfold lon_at. cbn [g_lon0 g_dlon]. rewrite inject_Z_plus. ring.
  - destruct Tr as [Tr|Tr]; [now left|right]. intros t It. unfold lat_max, lat_at. cbn [g_lat0 g_dlat g_ny]. pose proof (qmax_of_spec _ _ (in_map fst _ _ It)). replace (cr + Z.of_nat (S mr) - 1)%Z with (cr + (Z.of_nat (S mr) - 1))%Z in Tr by lia. rewrite inject_Z_plus in Tr. rewrite Qmult_plus_distr_l in Tr.
 lra.
  - destruct Tc as [Tc|Tc]; [now left|right]. intros t It. unfold lon_max, lon_at. cbn [g_lon0 g_dlon g_nx]. pose proof (qmax_of_spec _ _ (in_map snd _ _ It)). replace (cc + Z.of_nat (S mc) - 1)%Z with (cc + (Z.of_nat (S mc) - 1))%Z in Tc by lia. rewrite inject_Z_plus in Tc. rewrite Qmult_plus_distr_l in Tc. lra.
  - intros t It (C1 & C2 & C3 & C4).
    assert (E0 : lat_at g 0 == g_lat0 g) by (unfold lat_at; change (inject_Z 0) with 0; ring). assert (E1 : lon_at g 0 == g_lon0 g) by (unfold lon_at; change (inject_Z 0) with 0; ring). rewrite E0 in C1. rewrite E1 in C3.
    destruct (axis_cell _ _ _ _ _ _ _ (fst t) Dy Ny Sr (qmin_of_spec _ _ (in_map fst _ _ It)) (qmax_of_spec _ _ (in_map fst _ _ It)) C1 C2) as (i & Bi & Wi & Li & Ti & Fi).
    destruct (axis_cell _ _ _ _ _ _ _ (snd t) Dx Nx Sc (qmin_of_spec _ _ (in_map snd _ _ It)) (qmax_of_spec _ _ (in_map snd _ _ It)) C3 C4) as (j & Bj & Wj & Lj & Tj & Fj).
    exists (i - cr)%Z, (j - cc)%Z. replace (cr + (i - cr))%Z with i by lia. replace (cc + (j - cc))%Z with j by lia. split; [|split; [|split; [|split; [|split]]]].
    + split; [lia|]. split; [exact Li|exact Lj].
    + split; cbn [g_ny g_nx]; [lia|]. unfold lat_at, lon_at in *. cbn [g_lat0 g_dlat g_lon0 g_dlon]. replace (i - cr + 1)%Z with (i + 1 + - cr)%Z by lia. replace (j - cc + 1)%Z with (j + 1 + - cc)%Z by lia. replace (i - cr)%Z with (i + - cr)%Z by lia. replace (j - cc)%Z with (j + - cc)%Z by lia. rewrite (inject_Z_plus i (- cr)), (inject_Z_plus j (- cc)), (inject_Z_plus (i + 1) (- cr)), (inject_Z_plus (j + 1) (- cc)), !inject_Z_opp, !Qmult_plus_distr_l. lra.
    + intro E. specialize (Ti E). lia.
    + intro E. rewrite (Fi E). unfold lat_at. symmetry. now apply floor_origin.
    + intro E. specialize (Tj E). lia.
    + intro E. rewrite (Fj E). unfold lon_at. symmetry. now apply floor_origin.
Qed.
(** ** The surrounding points *)
Lemma corner_both nx q : fix_corner nx q = fix_right (fix_top nx q).
Proof. destruct q as [[[a b] c] d]. unfold fix_corner, fix_right, fix_top. apply (f_equal2 pair); [apply (f_equal2 pair); [apply (f_equal2 pair)|]|]; lia. Qed.
Lemma positions_shift {A} (f : A -> bool) l : forall k, positions f (S k) l = map S (positions f k l).
Proof. induction l as [|a r IH]; intro k; [reflexivity|]. cbn [positions]. rewrite map_app, IH. destruct (f a); reflexivity. Qed.
Lemma positions_length {A} (f : A -> bool) l : forall k, length (positions f k l) = length (filter f l).
Proof. induction l as [|a r IH]; intro k; [reflexivity|]. cbn [positions filter]. rewrite app_length, IH. destruct (f a); reflexivity. Qed.
Lemma positions_nth {A} (f : A -> bool) d l : forall p, (p < length (filter f l))%nat -> (nth p (positions f 0 l) 0 < length l)%nat /\ nth (nth p (positions f 0 l) 0%nat) l d = nth p (filter f l) d.
Proof.
  induction l as [|a r IH]; intros p H; [cbn in H; lia|]. cbn [positions filter] in *. rewrite positions_shift. destruct (f a).
  - destruct p as [|p]; cbn [app nth length] in *; [split; [lia|reflexivity]|]. destruct (IH p ltac:(lia)) as [A1 A2]. rewrite (nth_indep _ 0%nat 1%nat) by (rewrite map_length, positions_length; lia). rewrite !(map_nth S). split; [lia|exact A2].
  - cbn [app] in *. destruct (IH p H) as [A1 A2]. rewrite (nth_indep _ 0%nat 1%nat) by (rewrite map_length, positions_length; lia). rewrite !(map_nth S). cbn [length nth]. split; [lia|exact A2].
Qed.
Lemma positions_true {A} (f : A -> bool) d l p : In p (positions f 0 l) -> (p < length l)%nat /\ f (nth p l d) = true.
Proof.
  revert p. induction l as [|a r IH]; intros p H; [destruct H|]. cbn [positions] in H. rewrite positions_shift in H. apply in_app_iff in H as [H|H].
  - destruct (f a) eqn:E; [|destruct H]. destruct H as [<-|[]]. cbn. split; [lia|exact E].
  - apply in_map_iff in H as (q & <- & H). apply IH in H. cbn. split; [lia|apply H].
Qed.
Lemma map_enum {A B} (f : nat -> A -> B) (h : A -> B) d (l : list A) : (forall k, (k < length l)%nat -> f k (nth k l d) = h (nth k l d)) -> map (fun kt => f (fst kt) (snd kt)) (combine (seq 0 (length l)) l) = map h l.
Proof.
  intro H. assert (G : forall n, (forall k, (k < length l)%nat -> f (n + k)%nat (nth k l d) = h (nth k l d)) -> map (fun kt => f (fst kt) (snd kt)) (combine (seq n (length l)) l) = map h l); [|apply (G 0%nat), H].
  clear H. induction l as [|a r IH]; intros n H; [reflexivity|]. cbn [length seq combine map fst snd]. f_equal; [specialize (H 0%nat ltac:(cbn; lia)); rewrite Nat.add_0_r in H; exact H|].
  apply IH. intros k Hk. specialize (H (S k) ltac:(cbn; lia)). cbn [nth] in H. now replace (S n + k)%nat with (n + S k)%nat by lia.
Qed.
Definition at_top (g : sgrid) (ts : list target) (t : target) : bool := (isclose (lat_max g) (qmax_of (map fst ts)) && isclose (fst t) (lat_max g))%bool.
Definition at_right (g : sgrid) (ts : list target) (t : target) : bool := (isclose (lon_max g) (qmax_of (map snd ts)) && isclose (snd t) (lon_max g))%bool.
Definition fixed_quad (g : sgrid) (ts : list target) (t : target) : quad :=
  let q := base_quad g t in let q := if at_top g ts t then fix_top (g_nx g) q else q in if at_right g ts t then fix_right q else q.
Lemma basic_indexes_spec g ts qs : basic_indexes g ts = Ok qs -> ts <> [] /\ qs = map (fixed_quad g ts) ts.
Proof.
  unfold basic_indexes. destruct ts as [|t0 ts0] eqn:Ets; [discriminate|]. rewrite <- Ets in *. intro H. split; [now rewrite Ets|].
  set (lat_eq := isclose (lat_max g) (qmax_of (map fst ts))) in *. set (lon_eq := isclose (lon_max g) (qmax_of (map snd ts))) in *.
  assert (An : map (fun kt : nat * target => let '(_, t) := kt in fixed_quad g ts t) (combine (seq 0 (length ts)) ts) = map (fixed_quad g ts) ts).
  { transitivity (map (fun kt => fixed_quad g ts (snd kt)) (combine (seq 0 (length ts)) ts)); [apply map_ext; intros [k t]; reflexivity|]. exact (map_enum (fun _ => fixed_quad g ts) (fixed_quad g ts) t0 ts (fun _ _ => eq_refl)). }
  destruct (lat_eq && lon_eq)%bool eqn:B; [|apply Ok_inj in H; rewrite <- H; exact An]. apply andb_true_iff in B as [B1 B2].
  set (top := fun t : Q * Q => (lat_eq && isclose (fst t) (lat_max g))%bool) in *. set (corner := fun t : Q * Q => isclose (snd t) (lon_max g)) in *.
  destruct (positions corner 0 (filter top ts)) as [|p [|p' r]] eqn:P.
  - apply Ok_inj in H; rewrite <- H; exact An.
  - destruct p as [|p]; [apply Ok_inj in H; rewrite <- H; exact An|]. apply Ok_inj in H. subst qs. destruct (positions_true corner t0 (filter top ts) (S p) ltac:(rewrite P; now left)) as [Lp Cp]. destruct (positions_nth top t0 ts (S p) Lp) as [Ls Es]. set (s := nth (S p) (positions top 0 ts) 0%nat) in *.
    assert (Ts : top (nth s ts t0) = true) by (rewrite Es; apply (proj1 (filter_In top (nth (S p) (filter top ts) t0) ts)); now apply nth_In).
    transitivity (map (fun kt : nat * target => (fun k t => if (k =? s)%nat then fix_corner (g_nx g) (base_quad g t) else fixed_quad g ts t) (fst kt) (snd kt)) (combine (seq 0 (length ts)) ts)); [apply map_ext; intros [k t]; reflexivity|].
    apply (map_enum (fun k t => if (k =? s)%nat then fix_corner (g_nx g) (base_quad g t) else fixed_quad g ts t) (fixed_quad g ts) t0). intros k Hk. destruct (k =? s)%nat eqn:Ek; [|reflexivity]. apply Nat.eqb_eq in Ek. subst k. rewrite corner_both. unfold fixed_quad, at_top, at_right. fold lat_eq lon_eq. unfold top in Ts. rewrite Ts. rewrite Es. fold (corner (nth (S p) (filter top ts) t0)). now rewrite B2, Cp.
  - destruct p; discriminate.
Qed.
Lemma isclose_iff a b : isclose a b = true <-> Qabs (a - b) <= tolerance b.
Proof. unfold isclose, tolerance. apply Qle_bool_iff. Qed.
Lemma not_close a b : tolerance b < b - a -> isclose a b = false.
Proof. intro H. destruct (isclose a b) eqn:E; [|reflexivity]. apply isclose_iff in E. pose proof (Qle_Qabs (- (a - b))) as A. rewrite Qabs_opp in A. lra. Qed.
Lemma not_close' a b : tolerance b < a - b -> isclose a b = false.
Proof. intro H. destruct (isclose a b) eqn:E; [|reflexivity]. apply isclose_iff in E. pose proof (Qle_Qabs (a - b)) as A. lra. Qed.
Lemma tolerance_comp a b : a == b -> tolerance a == tolerance b.
Proof. intro E. unfold tolerance. now rewrite E. Qed.
Lemma axis_flag top' topg d x m : x <= m -> m <= top' -> (top' == topg /\ (x == topg \/ tolerance topg < topg - x)) \/ (m + d <= top' /\ tolerance m < d) ->
  (top' == topg -> x == topg -> (isclose top' m && isclose x top')%bool = true) /\ (x < topg -> (isclose top' m && isclose x top')%bool = false).
Proof.
  intros L U C. split.
  - intros E1 E2. rewrite (isclose_refl top' m), (isclose_refl x top') by lra. reflexivity.
  - intro Lt. apply andb_false_iff. destruct C as [[E [C|C]]|[C1 C2]]; [lra| |].
    + right. apply not_close. rewrite (tolerance_comp _ _ E). lra.
    + left. apply not_close'. lra.
Qed.
Lemma in_source_iff g g' r0 c0 ts t : 0 < g_dlat g -> 0 < g_dlon g -> window_of g g' r0 c0 ts -> In t ts -> (in_source g' t = true <-> covered g t).
Proof.
  intros Dy Dx W It. unfold in_source, covered. rewrite !andb_true_iff, !Qleb_le. pose proof (wo_rows _ _ _ _ _ W). pose proof (wo_cols _ _ _ _ _ W). split.
  - intros (((A & B) & C) & D). rewrite (wo_lat _ _ _ _ _ W) in A, B. rewrite (wo_lon _ _ _ _ _ W) in C, D.
    assert (M1 : forall a b, (a <= b)%Z -> lat_at g a <= lat_at g b) by (intros a b L; unfold lat_at; apply inject_le in L; assert (inject_Z a * g_dlat g <= inject_Z b * g_dlat g) by (apply Qmult_le_compat_r; lra); lra).
    assert (M2 : forall a b, (a <= b)%Z -> lon_at g a <= lon_at g b) by (intros a b L; unfold lon_at; apply inject_le in L; assert (inject_Z a * g_dlon g <= inject_Z b * g_dlon g) by (apply Qmult_le_compat_r; lra); lra).
    pose proof (M1 0%Z (r0 + 0)%Z ltac:(lia)). pose proof (M1 (r0 + (g_ny g' - 1))%Z (g_ny g - 1)%Z ltac:(lia)). pose proof (M2 0%Z (c0 + 0)%Z ltac:(lia)). pose proof (M2 (c0 + (g_nx g' - 1))%Z (g_nx g - 1)%Z ltac:(lia)). repeat split; lra.
  - intro C. destruct (wo_cell _ _ _ _ _ W t It C) as (i & j & _ & (B & L1 & L2) & _).
    assert (M1 : forall a b, (a <= b)%Z -> lat_at g' a <= lat_at g' b) by (intros a b L; unfold lat_at; rewrite (wo_dlat _ _ _ _ _ W); apply inject_le in L; assert (inject_Z a * g_dlat g <= inject_Z b * g_dlat g) by (apply Qmult_le_compat_r; lra); lra).
    assert (M2 : forall a b, (a <= b)%Z -> lon_at g' a <= lon_at g' b) by (intros a b L; unfold lon_at; rewrite (wo_dlon _ _ _ _ _ W); apply inject_le in L; assert (inject_Z a * g_dlon g <= inject_Z b * g_dlon g) by (apply Qmult_le_compat_r; lra); lra).
    pose proof (M1 0%Z i ltac:(lia)). pose proof (M1 (i + 1)%Z (g_ny g' - 1)%Z ltac:(lia)). pose proof (M2 0%Z j ltac:(lia)). pose proof (M2 (j + 1)%Z (g_nx g' - 1)%Z ltac:(lia)). repeat split; lra.
Qed.
Definition cell_quad (g : sgrid) (i j : Z) : quad := (i * g_nx g + j, (i + 1) * g_nx g + j, (i + 1) * g_nx g + j + 1, i * g_nx g + j + 1)%Z.
Lemma floor_at_node p0 d x k : 0 < d -> x == p0 + inject_Z k * d -> Qfloor ((x - p0) / d) = k.
Proof. intros D E. transitivity (Qfloor (inject_Z k)); [|apply Qfloor_Z]. apply Qfloor_comp. rewrite E. field. lra. Qed.
Lemma max_of_inside f (ins : list target) t : In t ins -> exists t', In t' ins /\ qmax_of (map f ins) == f t' /\ f t <= qmax_of (map f ins).
Proof.
  intro It. destruct (qmax_of_in (map f ins)) as (y & Iy & E); [destruct ins; [destruct It|discriminate]|]. apply in_map_iff in Iy as (t' & <- & It'). exists t'. split; [exact It'|]. split; [exact E|]. apply qmax_of_spec. now apply in_map.
Qed.
Lemma fixed_quad_cell g g' r0 c0 ts t : well_posed g ts -> window_of g g' r0 c0 ts -> In t ts -> covered g t ->
  exists i j, home_cell g (r0 + i) (c0 + j) t /\ in_cell g' i j t /\ fixed_quad g' (filter (in_source g') ts) t = cell_quad g' i j.
Proof.
  intros (Ny & Nx & Dy & Dx & Tol & Tidy) W It C. destruct (wo_cell _ _ _ _ _ W t It C) as (i & j & Cg & Cg' & Ti & Fi & Tj & Fj). exists i, j. split; [|split; [exact Cg'|]].
  { split; [exact Cg|]. destruct C as (_ & Cy & _ & Cx). fold (lat_max g) in Cy. fold (lon_max g) in Cx. split.
    - destruct (Qlt_le_dec (fst t) (lat_max g)) as [Lt|Ge]; [left|right; destruct (Ti ltac:(lra)); lia]. specialize (Fi Lt). rewrite <- Z.add_assoc, <- (wo_lat _ _ _ _ _ W). unfold lat_at. pose proof (Qlt_floor ((fst t - g_lat0 g') / g_dlat g')) as F. rewrite <- Fi in F. rewrite (wo_dlat _ _ _ _ _ W) in *. apply (Qmult_lt_r _ _ (g_dlat g) Dy) in F. setoid_replace ((fst t - g_lat0 g') / g_dlat g * g_dlat g) with (fst t - g_lat0 g') in F by (field; lra). lra.
    - destruct (Qlt_le_dec (snd t) (lon_max g)) as [Lt|Ge]; [left|right; destruct (Tj ltac:(lra)); lia]. specialize (Fj Lt). rewrite <- Z.add_assoc, <- (wo_lon _ _ _ _ _ W). unfold lon_at. pose proof (Qlt_floor ((snd t - g_lon0 g') / g_dlon g')) as F. rewrite <- Fj in F. rewrite (wo_dlon _ _ _ _ _ W) in *. apply (Qmult_lt_r _ _ (g_dlon g) Dx) in F. setoid_replace ((snd t - g_lon0 g') / g_dlon g * g_dlon g) with (snd t - g_lon0 g') in F by (field; lra). lra. }
  set (ins := filter (in_source g') ts). assert (Ii : In t ins) by (apply filter_In; split; [exact It|]; now apply (in_source_iff g g' r0 c0 ts)).
  assert (Ok1 : forall t', In t' ins -> In t' ts /\ fst t' <= lat_max g' /\ snd t' <= lon_max g').
  { intros t' H. apply filter_In in H as [H1 H2]. split; [exact H1|]. unfold in_source in H2. rewrite !andb_true_iff, !Qleb_le in H2. unfold lat_max, lon_max. tauto. }
  destruct (Tidy t It C) as [Ty Tx].
  destruct (max_of_inside fst ins t Ii) as (ty & Ity & Ey & Ly). destruct (max_of_inside snd ins t Ii) as (tx & Itx & Ex & Lx). destruct (Ok1 _ Ity) as (Ity' & Uy & _). destruct (Ok1 _ Itx) as (Itx' & _ & Ux).
  assert (Ay : (lat_max g' == lat_max g /\ (fst t == lat_max g \/ tolerance (lat_max g) < lat_max g - fst t)) \/ (qmax_of (map fst ins) + g_dlat g <= lat_max g' /\ tolerance (qmax_of (map fst ins)) < g_dlat g)).
  { destruct (wo_top _ _ _ _ _ W) as [E|E]; [left; split; [|exact Ty]; unfold lat_max; rewrite (wo_lat _ _ _ _ _ W); replace (r0 + (g_ny g' - 1))%Z with (g_ny g - 1)%Z by lia; reflexivity|right]. specialize (E _ Ity'). destruct (Tol _ Ity') as [T1 _]. rewrite (tolerance_comp _ _ Ey). split; [rewrite Ey; exact E|exact T1]. }
  assert (Ax : (lon_max g' == lon_max g /\ (snd t == lon_max g \/ tolerance (lon_max g) < lon_max g - snd t)) \/ (qmax_of (map snd ins) + g_dlon g <= lon_max g' /\ tolerance (qmax_of (map snd ins)) < g_dlon g)).
  { destruct (wo_right _ _ _ _ _ W) as [E|E]; [left; split; [|exact Tx]; unfold lon_max; rewrite (wo_lon _ _ _ _ _ W); replace (c0 + (g_nx g' - 1))%Z with (g_nx g - 1)%Z by lia; reflexivity|right]. specialize (E _ Itx'). destruct (Tol _ Itx') as [_ T1]. rewrite (tolerance_comp _ _ Ex). split; [rewrite Ex; exact E|exact T1]. }
  destruct (axis_flag _ _ _ _ _ Ly ltac:(rewrite Ey; exact Uy) Ay) as [Fy1 Fy2]. destruct (axis_flag _ _ _ _ _ Lx ltac:(rewrite Ex; exact Ux) Ax) as [Fx1 Fx2]. fold (at_top g' ins t) in Fy1, Fy2. fold (at_right g' ins t) in Fx1, Fx2.
  destruct C as (_ & Cy & _ & Cx). fold (lat_max g) in Cy. fold (lon_max g) in Cx.
  assert (Row : (at_top g' ins t = true /\ Qfloor ((fst t - g_lat0 g') / g_dlat g') = (i + 1)%Z) \/ (at_top g' ins t = false /\ Qfloor ((fst t - g_lat0 g') / g_dlat g') = i)).
  { destruct (Qlt_le_dec (fst t) (lat_max g)) as [Lt|Ge]; [right; split; [now apply Fy2|symmetry; now apply Fi]|left]. assert (Eq : fst t == lat_max g) by lra. destruct (Ti Eq) as [-> Er]. assert (Et : lat_max g' == lat_max g) by (unfold lat_max; rewrite (wo_lat _ _ _ _ _ W); replace (r0 + (g_ny g' - 1))%Z with (g_ny g - 1)%Z by lia; reflexivity). split; [now apply Fy1|]. replace (g_ny g' - 2 + 1)%Z with (g_ny g' - 1)%Z by lia. apply floor_at_node; [rewrite (wo_dlat _ _ _ _ _ W); exact Dy|]. rewrite Eq, <- Et. reflexivity. }
  assert (Col : (at_right g' ins t = true /\ Qfloor ((snd t - g_lon0 g') / g_dlon g') = (j + 1)%Z) \/ (at_right g' ins t = false /\ Qfloor ((snd t - g_lon0 g') / g_dlon g') = j)).
  { destruct (Qlt_le_dec (snd t) (lon_max g)) as [Lt|Ge]; [right; split; [now apply Fx2|symmetry; now apply Fj]|left]. assert (Eq : snd t == lon_max g) by lra. destruct (Tj Eq) as [-> Er]. assert (Et : lon_max g' == lon_max g) by (unfold lon_max; rewrite (wo_lon _ _ _ _ _ W); replace (c0 + (g_nx g' - 1))%Z with (g_nx g - 1)%Z by lia; reflexivity). split; [now apply Fx1|]. replace (g_nx g' - 2 + 1)%Z with (g_nx g' - 1)%Z by lia. apply floor_at_node; [rewrite (wo_dlon _ _ _ _ _ W); exact Dx|]. rewrite Eq, <- Et. reflexivity. }
  unfold fixed_quad, base_quad, cell_quad. destruct Row as [[-> ->]|[-> ->]], Col as [[-> ->]|[-> ->]]; unfold fix_top, fix_right; apply (f_equal2 pair); try (apply (f_equal2 pair); [apply (f_equal2 pair)|]); lia.
Qed.
Lemma flat_cell g i j : (0 <= i < g_ny g)%Z -> (0 <= j < g_nx g)%Z -> flat_index g (i * g_nx g + j) = Ok (i * g_nx g + j)%Z /\ ((i * g_nx g + j) / g_nx g = i)%Z /\ ((i * g_nx g + j) mod g_nx g = j)%Z.
Proof.
  intros Bi Bj. split; [|split].
  - unfold flat_index. assert (X : (0 <= i * g_nx g + j < g_ny g * g_nx g)%Z) by nia. destruct ((0 <=? i * g_nx g + j)%Z) eqn:E1; [|lia]. destruct ((i * g_nx g + j <? g_ny g * g_nx g)%Z) eqn:E2; [reflexivity|lia].
  - rewrite Z.div_add_l by lia. rewrite Z.div_small by lia. lia.
  - rewrite Z.add_comm, Z.mod_add by lia. apply Z.mod_small. lia.
Qed.
Lemma in_lat_cell g i j : (0 <= i < g_ny g)%Z -> (0 <= j < g_nx g)%Z -> in_lat g (i * g_nx g + j) = lat_at g i /\ in_lon g (i * g_nx g + j) = lon_at g j.
Proof. intros Bi Bj. destruct (flat_cell g i j Bi Bj) as (_ & A & B). unfold in_lat, in_lon. now rewrite A, B. Qed.
(** The scattered results, point by point. *)
Lemma scatter_spec {E : Type} (flag : target -> bool) (F : E -> target -> result (option Q)) (ts : list target) : forall (owns : list E) vs, length owns = length ts ->
  Forall2 (fun e v => F (snd e) (fst e) = Ok v) (filter (fun e => flag (fst e)) (combine ts owns)) vs ->
  forall k d dt, (k < length ts)%nat -> if flag (nth k ts dt) then F (nth k owns d) (nth k ts dt) = Ok (nth k (scatter (map flag ts) vs) None) else nth k (scatter (map flag ts) vs) None = None.
Proof.
  induction ts as [|t ts IH]; intros [|o owns] vs L H k d dt Hk; cbn [length] in *; try lia. cbn [combine filter map fst] in *. destruct (flag t) eqn:Ft.
  - inversion H as [|e v es vs' Hv Hs]; subst. cbn [scatter]. destruct k as [|k]; cbn [nth]; [rewrite Ft; exact Hv|]. apply IH; [lia|exact Hs|lia].
  - assert (Sc : scatter (false :: map flag ts) vs = None :: scatter (map flag ts) vs) by (destruct vs; reflexivity). rewrite Sc. destruct k as [|k]; cbn [nth]; [now rewrite Ft|]. apply IH; [lia|exact H|lia].
Qed.
Lemma scatter_length flags vs : length (scatter flags vs) = length flags.
Proof. revert vs. induction flags as [|f r IH]; intros vs; [destruct vs; reflexivity|]. destruct f, vs; cbn [scatter length]; now rewrite IH. Qed.
Lemma filter_combine_l {E} (flag : target -> bool) (ts : list target) (owns : list E) : length owns = length ts -> map fst (filter (fun e => flag (fst e)) (combine ts owns)) = filter flag ts.
Proof. revert owns. induction ts as [|t ts IH]; intros [|o owns] L; cbn [length] in *; try lia; [reflexivity|]. cbn [combine filter fst]. destruct (flag t); cbn [map fst]; now rewrite IH by lia. Qed.
Lemma filter_combine_r {E} (flag : target -> bool) (ts : list target) (owns : list E) : length owns = length ts -> map snd (filter (fun e => flag (fst e)) (combine ts owns)) = map snd (filter fst (combine (map flag ts) owns)).
Proof. revert owns. induction ts as [|t ts IH]; intros [|o owns] L; cbn [length] in *; try lia; [reflexivity|]. cbn [combine filter fst map]. destruct (flag t); cbn [map snd]; now rewrite IH by lia. Qed.
Definition own_list (ms : option masks) (ts : list target) : list bool := match ms with Some k => m_own k | None => map (fun _ => true) ts end.
Definition row_of (g' : sgrid) (r0 k : Z) : Z := (r0 + k / g_nx g')%Z.
Definition col_of (g' : sgrid) (c0 k : Z) : Z := (c0 + k mod g_nx g')%Z.
Lemma regrid_points m ms g data ts out : length (own_list ms ts) = length ts -> regrid m ms g data ts = Ok out ->
  exists g' r0 c0, slice_grid g ts = Ok (g', r0, c0) /\ length out = length ts /\ filter (in_source g') ts <> [] /\
  forall k t, (k < length ts)%nat -> t = nth k ts (0, 0) ->
    if in_source g' t then point_value m ms g' (fun i => data (row_of g' r0 i) (col_of g' c0 i)) (fun i => match ms with Some mk => m_land mk (row_of g' r0 i) (col_of g' c0 i) | None => true end)
        (nth k (own_list ms ts) true) (fixed_quad g' (filter (in_source g') ts) t) t = Ok (nth k out None)
    else nth k out None = None.
Proof.
  intros Lo H. unfold regrid in H. destruct (slice_grid g ts) as [[[g' r0] c0]|e] eqn:S0; [|discriminate]. cbn [bind] in H. exists g', r0, c0. split; [reflexivity|].
  destruct (basic_indexes g' (filter (in_source g') ts)) as [qs|e] eqn:B; [|discriminate]. cbn [bind] in H. apply basic_indexes_spec in B as [Ne Eq].
  match type of H with context [mapM ?F ?L] => destruct (mapM F L) as [vs|e] eqn:M; [|discriminate] end. cbn [bind] in H. apply Ok_inj in H. subst out.
  split; [now rewrite scatter_length, map_length|]. split; [exact Ne|]. intros k t Hk ->.
  match goal with |- context [point_value m ms g' ?V ?L] => set (FV := fun (own : bool) (t : target) => point_value m ms g' V L own (fixed_quad g' (filter (in_source g') ts) t) t) end.
  apply (scatter_spec (in_source g') FV ts (own_list ms ts) vs Lo); [|exact Hk].
  apply mapM_forall2 in M. set (ps := filter (fun e => in_source g' (fst e)) (combine ts (own_list ms ts))).
  assert (E1 : map fst ps = filter (in_source g') ts) by (apply filter_combine_l; exact Lo).
  assert (E2 : map snd ps = match ms with Some mk => map snd (filter fst (combine (map (in_source g') ts) (m_own mk))) | None => map (fun _ => true) (filter (in_source g') ts) end).
  { unfold ps. rewrite filter_combine_r by exact Lo. destruct ms as [mk|]; [reflexivity|]. unfold own_list. clear. induction ts as [|t ts IH]; [reflexivity|]. cbn [map combine filter fst]. destruct (in_source g' t); cbn [map snd]; now rewrite IH. }
  rewrite <- E2 in M. rewrite Eq in M. rewrite <- E1 in M at 1 3.
  assert (G : forall ps : list (target * bool), combine (combine (map fst ps) (map (fixed_quad g' (filter (in_source g') ts)) (map fst ps))) (map snd ps) = map (fun e => ((fst e, fixed_quad g' (filter (in_source g') ts) (fst e)), snd e)) ps) by (clear; induction ps as [|e ps IH]; [reflexivity|]; cbn [map combine]; now rewrite IH).
  rewrite G in M. clear - M. set (h := fun e : target * bool => ((fst e, fixed_quad g' (filter (in_source g') ts) (fst e)), snd e)) in *. revert M. generalize ps. clear ps. intros ps. revert vs. induction ps as [|e ps IH]; intros vs M; inversion M; subst; constructor; [assumption|]. now apply IH.
Qed.
(** What the result is at each target, in terms of the window. *)
Lemma regrid_at m ms g data ts out : length (own_list ms ts) = length ts -> well_posed g ts -> regrid m ms g data ts = Ok out -> length out = length ts /\
  exists g' r0 c0, slice_grid g ts = Ok (g', r0, c0) /\ window_of g g' r0 c0 ts /\ forall k, (k < length ts)%nat -> let t := nth k ts (0, 0) in
    (covered g t -> exists i j, home_cell g (r0 + i) (c0 + j) t /\ in_cell g' i j t /\
       point_value m ms g' (fun i => data (row_of g' r0 i) (col_of g' c0 i)) (fun i => match ms with Some mk => m_land mk (row_of g' r0 i) (col_of g' c0 i) | None => true end)
         (nth k (own_list ms ts) true) (cell_quad g' i j) t = Ok (nth k out None)) /\
    (~ covered g t -> nth k out None = None).
Proof.
  intros Lo Wp H. pose proof Wp as (Ny & Nx & Dy & Dx & _). apply regrid_points in H as (g' & r0 & c0 & S0 & L & Ne & H); [|exact Lo]. split; [exact L|]. exists g', r0, c0. split; [exact S0|]. pose proof (slice_window _ _ _ _ _ Ny Nx Dy Dx S0) as W. split; [exact W|].
  intros k Hk t. assert (It : In t ts) by (apply nth_In; exact Hk). specialize (H k t Hk eq_refl). pose proof (in_source_iff g g' r0 c0 ts t Dy Dx W It) as E. split; intro C.
  - destruct (fixed_quad_cell g g' r0 c0 ts t Wp W It C) as (i & j & Hc & Ic & Eq). exists i, j. split; [exact Hc|]. split; [exact Ic|]. rewrite (proj2 E C) in H. rewrite Eq in H. exact H.
  - destruct (in_source g' t); [exfalso; apply C, E; reflexivity|exact H].
Qed.
Lemma quad_flat g i j t : in_cell g i j t -> forall a b, (a = i \/ a = i + 1)%Z -> (b = j \/ b = j + 1)%Z -> flat_index g (a * g_nx g + b) = Ok (a * g_nx g + b)%Z /\ ((a * g_nx g + b) / g_nx g = a)%Z /\ ((a * g_nx g + b) mod g_nx g = b)%Z.
Proof. intros (B & _) a b A C. apply flat_cell; lia. Qed.
