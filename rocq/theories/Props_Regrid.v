(** C67-C69. *)
From Coq Require Import Qround Qfield.
From Verif Require Import Base Model_Percentiles Model_Nbhood Proofs_Percentiles Proofs_Temporal Proofs_Table Model_Regrid Spec_Regrid Proofs_Regrid.
Local Open Scope Q_scope.

(** * C67 *)
Lemma cell_rows g g' r0 c0 ts i j t : window_of g g' r0 c0 ts -> in_cell g' i j t -> forall a b, (a = i \/ a = i + 1)%Z -> (b = j \/ b = j + 1)%Z ->
  flat_index g' (a * g_nx g' + b) = Ok (a * g_nx g' + b)%Z /\ row_of g' r0 (a * g_nx g' + b) = (r0 + a)%Z /\ col_of g' c0 (a * g_nx g' + b) = (c0 + b)%Z /\
  in_lat g' (a * g_nx g' + b) == lat_at g (r0 + a) /\ in_lon g' (a * g_nx g' + b) == lon_at g (c0 + b).
Proof.
  intros W C a b A B. destruct (quad_flat g' i j t C a b A B) as (E1 & E2 & E3). unfold row_of, col_of, in_lat, in_lon. rewrite E2, E3. split; [exact E1|]. do 2 (split; [reflexivity|]). split; [apply (wo_lat _ _ _ _ _ W)|apply (wo_lon _ _ _ _ _ W)].
Qed.
Lemma cell_quad_eq g i j : cell_quad g i j = (i * g_nx g + j, (i + 1) * g_nx g + j, (i + 1) * g_nx g + (j + 1), i * g_nx g + (j + 1))%Z.
Proof. unfold cell_quad. apply (f_equal2 pair); [apply (f_equal2 pair); [apply (f_equal2 pair)|]|]; lia. Qed.
Lemma basic_weights_cell g g' r0 c0 ts i j t : 0 < g_dlat g -> 0 < g_dlon g -> window_of g g' r0 c0 ts -> in_cell g' i j t -> exists w1 w2 w3 w4, basic_weights g' (cell_quad g' i j) t = Ok (w1, w2, w3, w4) /\
  w1 == (1 - up g (r0 + i) t) * (1 - along g (c0 + j) t) /\ w2 == up g (r0 + i) t * (1 - along g (c0 + j) t) /\ w3 == up g (r0 + i) t * along g (c0 + j) t /\ w4 == (1 - up g (r0 + i) t) * along g (c0 + j) t.
Proof.
  intros Dy Dx W C. destruct (cell_rows _ _ _ _ _ _ _ _ W C i j ltac:(auto) ltac:(auto)) as (F & _ & _ & La & Lo). rewrite cell_quad_eq. cbn [basic_weights]. rewrite F. cbn [bind]. do 4 eexists. split; [reflexivity|].
  rewrite La, Lo, (wo_dlat _ _ _ _ _ W), (wo_dlon _ _ _ _ _ W). unfold up, along. repeat split; field; lra.
Qed.
Lemma values_cell g g' r0 c0 ts i j t (data : Z -> Z -> option Q) : window_of g g' r0 c0 ts -> in_cell g' i j t ->
  values_at g' (fun k => data (row_of g' r0 k) (col_of g' c0 k)) (quad_list (cell_quad g' i j)) = Ok [data (r0 + i) (c0 + j); data (r0 + i + 1) (c0 + j); data (r0 + i + 1) (c0 + j + 1); data (r0 + i) (c0 + j + 1)]%Z.
Proof.
  intros W C. rewrite cell_quad_eq. unfold values_at, quad_list. cbn [mapM].
  destruct (cell_rows _ _ _ _ _ _ _ _ W C i j ltac:(auto) ltac:(auto)) as (F1 & R1 & C1 & _). destruct (cell_rows _ _ _ _ _ _ _ _ W C (i + 1)%Z j ltac:(auto) ltac:(auto)) as (F2 & R2 & C2 & _).
  destruct (cell_rows _ _ _ _ _ _ _ _ W C (i + 1)%Z (j + 1)%Z ltac:(auto) ltac:(auto)) as (F3 & R3 & C3 & _). destruct (cell_rows _ _ _ _ _ _ _ _ W C i (j + 1)%Z ltac:(auto) ltac:(auto)) as (F4 & R4 & C4 & _).
  rewrite F1, F2, F3, F4. cbn [bind]. rewrite R1, C1, R2, C2, R3, C3, R4, C4. rewrite !Z.add_assoc. reflexivity.
Qed.
(** C67: bilinear regridding gives, at each covered target, the bilinear interpolation of the corners of its cell in the whole source grid; it is missing exactly if one of the corners is, and at every target that is not covered. *)
Theorem C67_bilinear g data ts out : well_posed g ts -> regrid BilinearMode None g data ts = Ok out -> length out = length ts /\
  forall k, (k < length ts)%nat -> let t := nth k ts (0, 0) in
    (covered g t -> exists i j, home_cell g i j t /\ cell_value g data i j t (nth k out None)) /\ (~ covered g t -> nth k out None = None).
Proof.
  intros Wp H. pose proof Wp as (_ & _ & Dy & Dx & _). apply regrid_at in H as (L & g' & r0 & c0 & _ & W & H); [|unfold own_list; now rewrite map_length|exact Wp]. split; [exact L|]. intros k Hk t. destruct (H k Hk) as [H1 H2]. fold t in H1, H2. split; [|exact H2]. intro C.
  destruct (H1 C) as (i & j & Hc & Ic & V). exists (r0 + i)%Z, (c0 + j)%Z. split; [exact Hc|]. cbn [point_value] in V.
  destruct (basic_weights_cell _ _ _ _ _ _ _ _ Dy Dx W Ic) as (w1 & w2 & w3 & w4 & Ew & W1 & W2 & W3 & W4). rewrite Ew in V. cbn [bind] in V. rewrite (values_cell _ _ _ _ _ _ _ _ data W Ic) in V. cbn [bind] in V. apply Ok_inj in V. rewrite <- V. unfold cell_value. unfold weighted_sum, four_list. cbn [combine fold_right fst snd].
  destruct (data (r0 + i)%Z (c0 + j)%Z) as [a|], (data (r0 + i + 1)%Z (c0 + j)%Z) as [b|], (data (r0 + i + 1)%Z (c0 + j + 1)%Z) as [c|], (data (r0 + i)%Z (c0 + j + 1)%Z) as [d|]; try reflexivity.
  eexists. split; [reflexivity|]. rewrite W1, W2, W3, W4. ring.
Qed.
Lemma up_range g i j t : 0 < g_dlat g -> 0 < g_dlon g -> in_cell g i j t -> 0 <= up g i t <= 1 /\ 0 <= along g j t <= 1.
Proof.
  intros Dy Dx (_ & [A B] & [C D]). assert (E1 : lat_at g (i + 1) == lat_at g i + g_dlat g) by (rewrite lat_plus; change (inject_Z 1) with 1; ring). assert (E2 : lon_at g (j + 1) == lon_at g j + g_dlon g) by (rewrite lon_plus; change (inject_Z 1) with 1; ring).
  unfold up, along. repeat split; try (apply Qle_shift_div_l; lra); apply Qle_shift_div_r; lra.
Qed.
Lemma mix_range u a b lo hi : 0 <= u <= 1 -> lo <= a <= hi -> lo <= b <= hi -> lo <= (1 - u) * a + u * b <= hi.
Proof. intros U A B. split; nra. Qed.
(** C67: the value lies within the range of the four corners. *)
Theorem C67_range g data ts out k v lo hi : well_posed g ts -> regrid BilinearMode None g data ts = Ok out -> (k < length ts)%nat -> nth k out None = Some v ->
  exists i j, home_cell g i j (nth k ts (0, 0)) /\
  ((forall a b, (a = i \/ a = i + 1)%Z -> (b = j \/ b = j + 1)%Z -> forall q, data a b = Some q -> lo <= q <= hi) -> lo <= v <= hi).
Proof.
  intros Wp H Hk E. pose proof Wp as (_ & _ & Dy & Dx & _). destruct (C67_bilinear _ _ _ _ Wp H) as [_ B]. destruct (B k Hk) as [B1 B2]. assert (Cd : covered g (nth k ts (0, 0)) \/ ~ covered g (nth k ts (0, 0))).
  { unfold covered. destruct (Qlt_le_dec (fst (nth k ts (0, 0))) (lat_at g 0)); [right; lra|]. destruct (Qlt_le_dec (lat_at g (g_ny g - 1)) (fst (nth k ts (0, 0)))); [right; lra|]. destruct (Qlt_le_dec (snd (nth k ts (0, 0))) (lon_at g 0)); [right; lra|]. destruct (Qlt_le_dec (lon_at g (g_nx g - 1)) (snd (nth k ts (0, 0)))); [right; lra|left; lra]. }
  destruct Cd as [C|C]; [|rewrite (B2 C) in E; discriminate]. destruct (B1 C) as (i & j & Hc & V). exists i, j. split; [exact Hc|]. intro R. rewrite E in V. destruct (up_range g i j _ Dy Dx (proj1 Hc)) as [Ru Ra]. unfold cell_value in V.
  destruct (data i j) as [a|] eqn:Ea, (data (i + 1)%Z j) as [b|] eqn:Eb, (data (i + 1)%Z (j + 1)%Z) as [c|] eqn:Ec, (data i (j + 1)%Z) as [d|] eqn:Ed; try discriminate. destruct V as (v' & Ev & V). injection Ev as <-. rewrite V.
  apply mix_range; [exact Ru| |]; (apply mix_range; [exact Ra| |]); [apply (R i j)|apply (R i (j + 1)%Z)|apply (R (i + 1)%Z j)|apply (R (i + 1)%Z (j + 1)%Z)]; auto.
Qed.
Lemma lat_mono g a b : 0 < g_dlat g -> (lat_at g a <= lat_at g b <-> (a <= b)%Z).
Proof. intro D. unfold lat_at. split; intro H; [rewrite Zle_Qle; apply (Qmult_le_r _ _ (g_dlat g) D); lra|apply inject_le in H; assert (inject_Z a * g_dlat g <= inject_Z b * g_dlat g) by (apply Qmult_le_compat_r; lra); lra]. Qed.
Lemma lon_mono g a b : 0 < g_dlon g -> (lon_at g a <= lon_at g b <-> (a <= b)%Z).
Proof. intro D. unfold lon_at. split; intro H; [rewrite Zle_Qle; apply (Qmult_le_r _ _ (g_dlon g) D); lra|apply inject_le in H; assert (inject_Z a * g_dlon g <= inject_Z b * g_dlon g) by (apply Qmult_le_compat_r; lra); lra]. Qed.
(** C67: at a source point the result, if there is one, is the value of that point. *)
Theorem C67_node g data ts out k v i j q : well_posed g ts -> regrid BilinearMode None g data ts = Ok out -> (k < length ts)%nat -> nth k out None = Some v ->
  a_source g i j -> same_point (nth k ts (0, 0)) (lat_at g i, lon_at g j) -> data i j = Some q -> v == q.
Proof.
  intros Wp H Hk E [Bi Bj] [S1 S2] D. cbn [fst snd] in S1, S2. pose proof Wp as (_ & _ & Dy & Dx & _). destruct (C67_bilinear _ _ _ _ Wp H) as [_ B]. destruct (B k Hk) as [B1 _]. set (t := nth k ts (0, 0)) in *.
  assert (C : covered g t) by (unfold covered; rewrite S1, S2; repeat split; (apply lat_mono || apply lon_mono); auto; lia). destruct (B1 C) as (a & b & (Ic & _) & V). rewrite E in V.
  pose proof Ic as (Bd & [L1 L2] & [L3 L4]). rewrite S1 in L1, L2. rewrite S2 in L3, L4. apply lat_mono in L1, L2; auto. apply lon_mono in L3, L4; auto. unfold cell_value in V.
  assert (U : (i = a /\ up g a t == 0) \/ (i = a + 1 /\ up g a t == 1)%Z).
  { unfold up. rewrite S1. assert (Ha : i = a \/ (i = a + 1)%Z) by lia. destruct Ha as [-> | ->]; [left|right]; (split; [reflexivity|]); [|rewrite lat_plus; change (inject_Z 1) with 1]; field; lra. }
  assert (A : (j = b /\ along g b t == 0) \/ (j = b + 1 /\ along g b t == 1)%Z).
  { unfold along. rewrite S2. assert (Ha : j = b \/ (j = b + 1)%Z) by lia. destruct Ha as [-> | ->]; [left|right]; (split; [reflexivity|]); [|rewrite lon_plus; change (inject_Z 1) with 1]; field; lra. }
  destruct (data a b) as [qa|] eqn:Ea, (data (a + 1)%Z b) as [qb|] eqn:Eb, (data (a + 1)%Z (b + 1)%Z) as [qc|] eqn:Ec, (data a (b + 1)%Z) as [qd|] eqn:Ed; try discriminate. destruct V as (v' & Ev & V). injection Ev as <-. rewrite V.
  destruct U as [[-> U]|[-> U]], A as [[-> A]|[-> A]]; rewrite U, A.
  - assert (qa = q) by congruence. subst. ring.
  - assert (qd = q) by congruence. subst. ring.
  - assert (qb = q) by congruence. subst. ring.
  - assert (qc = q) by congruence. subst. ring.
Qed.
(** C67: a valid value of a target on a source point is returned: refuted, since a missing corner of its cell with weight zero makes it missing. *)
Definition small_grid : sgrid := {| g_ny := 3; g_nx := 4; g_lat0 := 50; g_lon0 := 10; g_dlat := 1; g_dlon := 2 |}.
Definition hole_data (i j : Z) : option Q := if ((i =? 2)%Z && (j =? 2)%Z)%bool then None else Some (inject_Z (10 * i + j)).
Definition wp_tol : Q -> Q -> bool := fun d x => tolerance x <? d.
Lemma small_well_posed ts : forallb (fun t => (wp_tol 1 (fst t) && wp_tol 2 (snd t) && ((fst t =? 52) || (tolerance 52 <? 52 - fst t) || (52 <? fst t)) && ((snd t =? 16) || (tolerance 16 <? 16 - snd t) || (16 <? snd t)))%bool) ts = true -> well_posed small_grid ts.
Proof.
  intro F. rewrite forallb_forall in F. do 4 (split; [vm_compute; congruence|]). split.
  - intros t It. apply F in It. rewrite !andb_true_iff in It. unfold wp_tol in It. rewrite !Qltb_lt in It. cbn [small_grid g_dlat g_dlon]. tauto.
  - intros t It C. apply F in It. rewrite !andb_true_iff, !orb_true_iff, !Qltb_lt, !Qeqb_eq in It. destruct C as (_ & C2 & _ & C4).
    assert (E1 : lat_at small_grid (g_ny small_grid - 1) == 52) by reflexivity. assert (E2 : lon_at small_grid (g_nx small_grid - 1) == 16) by reflexivity. rewrite (tolerance_comp _ _ E1), (tolerance_comp _ _ E2). rewrite E1, E2 in *. destruct It as [[_ [[I1|I1]|I1]] [[I2|I2]|I2]]; split; lra.
Qed.
Theorem C67_node_refuted : ~ (forall g data ts out k i j q, well_posed g ts -> regrid BilinearMode None g data ts = Ok out -> (k < length ts)%nat ->
  a_source g i j -> same_point (nth k ts (0, 0)) (lat_at g i, lon_at g j) -> data i j = Some q -> exists v, nth k out None = Some v).
Proof.
  intro H. destruct (H small_grid hole_data [(51, 12); (50, 10)] (match regrid BilinearMode None small_grid hole_data [(51, 12); (50, 10)] with Ok o => o | _ => [] end) 0%nat 1%Z 1%Z 11) as (v & E); [now apply small_well_posed|vm_compute; reflexivity|cbn; lia|vm_compute; intuition congruence|vm_compute; split; reflexivity|reflexivity|vm_compute in E; discriminate].
Qed.
(** C67: a field that is linear in latitude and in longitude (with their product) is reproduced. *)
Theorem C67_linear g data ts out k c0 c1 c2 c3 : well_posed g ts -> regrid BilinearMode None g data ts = Ok out -> (k < length ts)%nat ->
  (forall i j, a_source g i j -> exists q, data i j = Some q /\ q == c0 + c1 * lat_at g i + c2 * lon_at g j + c3 * lat_at g i * lon_at g j) ->
  let t := nth k ts (0, 0) in covered g t -> exists v, nth k out None = Some v /\ v == c0 + c1 * fst t + c2 * snd t + c3 * fst t * snd t.
Proof.
  intros Wp H Hk D t C. pose proof Wp as (_ & _ & Dy & Dx & _). destruct (C67_bilinear _ _ _ _ Wp H) as [_ B]. destruct (B k Hk) as [B1 _]. fold t in B1. destruct (B1 C) as (i & j & ((Bd & _) & _) & V). unfold cell_value in V.
  destruct (D i j) as (a & Ea & Va); [unfold a_source; lia|]. destruct (D (i + 1)%Z j) as (b & Eb & Vb); [unfold a_source; lia|]. destruct (D (i + 1)%Z (j + 1)%Z) as (c & Ec & Vc); [unfold a_source; lia|]. destruct (D i (j + 1)%Z) as (d & Ed & Vd); [unfold a_source; lia|].
  rewrite Ea, Eb, Ec, Ed in V. destruct V as (v & E & V). exists v. split; [exact E|]. rewrite V, Va, Vb, Vc, Vd. unfold up, along. rewrite !lat_plus, !lon_plus. change (inject_Z 1) with 1. field. split; lra.
Qed.
Lemma home_unique g i j i' j' t : 0 < g_dlat g -> 0 < g_dlon g -> home_cell g i j t -> home_cell g i' j' t -> i = i' /\ j = j'.
Proof.
  intros Dy Dx ((B & [L1 L2] & [M1 M2]) & T & R) ((B' & [L1' L2'] & [M1' M2']) & T' & R').
  assert (St : forall a b, (a < b)%Z -> lat_at g (a + 1) <= lat_at g b) by (intros; apply lat_mono; auto; lia). assert (So : forall a b, (a < b)%Z -> lon_at g (a + 1) <= lon_at g b) by (intros; apply lon_mono; auto; lia).
  split.
  - destruct (Z.lt_trichotomy i i') as [X|[X|X]]; [|exact X|]; exfalso; pose proof (St _ _ X); [destruct T|destruct T']; try lia; lra.
  - destruct (Z.lt_trichotomy j j') as [X|[X|X]]; [|exact X|]; exfalso; pose proof (So _ _ X); [destruct R|destruct R']; try lia; lra.
Qed.
Definition same_value (a b : option Q) : Prop := match a, b with Some x, Some y => x == y | None, None => True | _, _ => False end.
Lemma cell_value_unique g data i j t r r' : cell_value g data i j t r -> cell_value g data i j t r' -> same_value r r'.
Proof. unfold cell_value. destruct (data i j), (data (i + 1)%Z j), (data (i + 1)%Z (j + 1)%Z), (data i (j + 1)%Z); try (intros -> ->; exact I). intros (v & -> & V) (v' & -> & V'). cbn. now rewrite V, V'. Qed.
(** C67: the value at a target does not depend on the other targets (although the source is cut to their surroundings). *)
Theorem C67_independent g data ts ts' out out' k k' : well_posed g ts -> well_posed g ts' -> regrid BilinearMode None g data ts = Ok out -> regrid BilinearMode None g data ts' = Ok out' ->
  (k < length ts)%nat -> (k' < length ts')%nat -> nth k ts (0, 0) = nth k' ts' (0, 0) -> same_value (nth k out None) (nth k' out' None).
Proof.
  intros Wp Wp' H H' Hk Hk' E. pose proof Wp as (_ & _ & Dy & Dx & _). destruct (C67_bilinear _ _ _ _ Wp H) as [_ B]. destruct (B k Hk) as [B1 B2]. destruct (C67_bilinear _ _ _ _ Wp' H') as [_ B']. destruct (B' k' Hk') as [B1' B2']. rewrite <- E in *.
  set (t := nth k ts (0, 0)) in *. assert (Cd : covered g t \/ ~ covered g t).
  { unfold covered. destruct (Qlt_le_dec (fst t) (lat_at g 0)); [right; lra|]. destruct (Qlt_le_dec (lat_at g (g_ny g - 1)) (fst t)); [right; lra|]. destruct (Qlt_le_dec (snd t) (lon_at g 0)); [right; lra|]. destruct (Qlt_le_dec (lon_at g (g_nx g - 1)) (snd t)); [right; lra|left; lra]. }
  destruct Cd as [C|C]; [|rewrite (B2 C), (B2' C); exact I]. destruct (B1 C) as (i & j & Hc & V). destruct (B1' C) as (i' & j' & Hc' & V'). destruct (home_unique _ _ _ _ _ _ Dy Dx Hc Hc') as [<- <-]. exact (cell_value_unique _ _ _ _ _ _ _ V V').
Qed.
(** C67: the value lies between the values of the source without the condition that no target is close to the last row: refuted. A target just below the last row is extrapolated from the two rows before it. *)
Definition step_data (i j : Z) : option Q := Some (if (i =? 2)%Z then 10 else if (i =? 1)%Z then 1 else 5).
Theorem C67_close_refuted : ~ (forall g data ts out k v lo hi, (2 <= g_ny g)%Z -> (2 <= g_nx g)%Z -> 0 < g_dlat g -> 0 < g_dlon g -> (forall t, In t ts -> tolerance (fst t) < g_dlat g /\ tolerance (snd t) < g_dlon g) ->
  regrid BilinearMode None g data ts = Ok out -> (k < length ts)%nat -> nth k out None = Some v -> forall i j, home_cell g i j (nth k ts (0, 0)) ->
  (forall a b, (a = i \/ a = i + 1)%Z -> (b = j \/ b = j + 1)%Z -> exists q, data a b = Some q /\ lo <= q <= hi) -> lo <= v <= hi).
Proof.
  intro H. set (ts := [(519999 # 10000, 13)]). set (o := match regrid BilinearMode None small_grid step_data ts with Ok o => o | _ => [] end).
  set (v := match nth 0 o None with Some v => v | None => 0 end).
  assert (X : 1 <= v <= 10); [|vm_compute in X; destruct X as [X _]; exact (X eq_refl)].
  apply (H small_grid step_data ts o 0%nat v 1 10) with (i := 1%Z) (j := 1%Z).
  - vm_compute; congruence.
  - vm_compute; congruence.
  - reflexivity.
  - reflexivity.
  - intros t [<-|[]]. vm_compute. auto.
  - vm_compute. reflexivity.
  - cbn. lia.
  - vm_compute. reflexivity.
  - vm_compute. intuition congruence.
  - intros a b [-> | ->] _; eexists; (split; [reflexivity|vm_compute; split; congruence]).
Qed.
(** ** Which calls succeed *)
Lemma tidy_top g g' r0 c0 ts t : well_posed g ts -> window_of g g' r0 c0 ts -> In t ts -> covered g t -> at_top g' (filter (in_source g') ts) t = true -> fst t == lat_max g.
Proof.
  intros Wp W It C A. pose proof Wp as (Ny & Nx & Dy & Dx & Tol & Tidy). set (ins := filter (in_source g') ts) in *. unfold at_top in A. apply andb_true_iff in A as [A1 A2]. destruct (Tidy t It C) as [[T|T] _]; [exact T|exfalso].
  assert (Ii : In t ins) by (apply filter_In; split; [exact It|]; now apply (in_source_iff g g' r0 c0 ts)). destruct (max_of_inside fst ins t Ii) as (ty & Ity & Ey & _). apply filter_In in Ity as [Ity _].
  destruct (wo_top _ _ _ _ _ W) as [E|E].
  - assert (Et : lat_max g' == lat_max g) by (unfold lat_max; rewrite (wo_lat _ _ _ _ _ W); replace (r0 + (g_ny g' - 1))%Z with (g_ny g - 1)%Z by lia; reflexivity). rewrite (not_close (fst t) (lat_max g')) in A2; [discriminate|]. rewrite (tolerance_comp _ _ Et), Et. exact T.
  - specialize (E _ Ity). destruct (Tol _ Ity) as [T1 _]. rewrite (not_close' (lat_max g')) in A1; [discriminate|]. rewrite (tolerance_comp _ _ Ey), Ey. lra.
Qed.
Lemma tidy_right g g' r0 c0 ts t : well_posed g ts -> window_of g g' r0 c0 ts -> In t ts -> covered g t -> at_right g' (filter (in_source g') ts) t = true -> snd t == lon_max g.
Proof.
  intros Wp W It C A. pose proof Wp as (Ny & Nx & Dy & Dx & Tol & Tidy). set (ins := filter (in_source g') ts) in *. unfold at_right in A. apply andb_true_iff in A as [A1 A2]. destruct (Tidy t It C) as [_ [T|T]]; [exact T|exfalso].
  assert (Ii : In t ins) by (apply filter_In; split; [exact It|]; now apply (in_source_iff g g' r0 c0 ts)). destruct (max_of_inside snd ins t Ii) as (ty & Ity & Ey & _). apply filter_In in Ity as [Ity _].
  destruct (wo_right _ _ _ _ _ W) as [E|E].
  - assert (Et : lon_max g' == lon_max g) by (unfold lon_max; rewrite (wo_lon _ _ _ _ _ W); replace (c0 + (g_nx g' - 1))%Z with (g_nx g - 1)%Z by lia; reflexivity). rewrite (not_close (snd t) (lon_max g')) in A2; [discriminate|]. rewrite (tolerance_comp _ _ Et), Et. exact T.
  - specialize (E _ Ity). destruct (Tol _ Ity) as [_ T1]. rewrite (not_close' (lon_max g')) in A1; [discriminate|]. rewrite (tolerance_comp _ _ Ey), Ey. lra.
Qed.
Lemma positions_two {A} (f : A -> bool) (l : list A) p p' r : forall k, positions f k l = p :: p' :: r -> exists a b l1 l2 l3, l = l1 ++ a :: l2 ++ b :: l3 /\ f a = true /\ f b = true.
Proof.
  induction l as [|x l IH]; intros k H; [discriminate|]. cbn [positions] in H. destruct (f x) eqn:Fx.
  - injection H as _ H. assert (G : exists b l2 l3, l = l2 ++ b :: l3 /\ f b = true).
    { clear - H. revert k p' r H. induction l as [|y l IH]; intros k p' r H; [discriminate|]. cbn [positions] in H. destruct (f y) eqn:Fy; [exists y, [], l; auto|]. cbn [app] in H. destruct (IH _ _ _ H) as (b & l2 & l3 & -> & Fb). exists b, (y :: l2), l3. auto. }
    destruct G as (b & l2 & l3 & -> & Fb). exists x, b, [], l2, l3. auto.
  - cbn [app] in H. destruct (IH _ H) as (a & b & l1 & l2 & l3 & -> & Fa & Fb). exists a, b, (x :: l1), l2, l3. auto.
Qed.
Lemma filter_split {A} (f : A -> bool) (l : list A) : forall a b l1 l2 l3, filter f l = l1 ++ a :: l2 ++ b :: l3 -> exists m1 m2 m3, l = m1 ++ a :: m2 ++ b :: m3.
Proof.
  assert (G : forall l a l1 l2, filter f l = l1 ++ a :: l2 -> exists m1 m2, l = m1 ++ a :: m2 /\ filter f m2 = l2).
  { induction l0 as [|x l0 IH]; intros a l1 l2 H; [destruct l1; discriminate|]. cbn [filter] in H. destruct (f x) eqn:Fx.
    - destruct l1 as [|y l1]; injection H as -> H; [exists [], l0; auto|]. destruct (IH _ _ _ H) as (m1 & m2 & -> & E). exists (y :: m1), m2. auto.
    - destruct (IH _ _ _ H) as (m1 & m2 & -> & E). exists (x :: m1), m2. auto. }
  intros a b l1 l2 l3 H. apply G in H as (m1 & m2 & -> & H). apply G in H as (m2' & m3 & -> & _). exists m1, m2', m3. reflexivity.
Qed.
Lemma in_combine_map {A B} (f : A -> B) (l : list A) a b : In (a, b) (combine l (map f l)) -> In a l /\ b = f a.
Proof. induction l as [|x l IH]; intros H; [destruct H|]. cbn [map combine] in H. destruct H as [E|H]; [injection E as <- <-; split; [now left|reflexivity]|]. destruct (IH H). split; [now right|assumption]. Qed.
(** C67: with at least one covered target and no target given twice, regridding succeeds. *)
Theorem C67_accepted m g data ts : well_posed g ts -> distinct_targets ts -> (exists t, In t ts /\ covered g t) -> exists out, regrid m None g data ts = Ok out.
Proof.
  intros Wp Di (t & It & C). pose proof Wp as (Ny & Nx & Dy & Dx & Tol & Tidy).
  assert (S0 : exists g' r0 c0, slice_grid g ts = Ok (g', r0, c0)).
  { unfold slice_grid. destruct ts as [|t0 ts0] eqn:Ets; [destruct It|]. rewrite <- Ets in *. clear Ets.
    destruct (slice_axis_spec (qmin_of (map fst ts)) (qmax_of (map fst ts)) (g_lat0 g) (g_dlat g) (g_ny g) Dy) as (cr & mr & Er & Sr). destruct (slice_axis_spec (qmin_of (map snd ts)) (qmax_of (map snd ts)) (g_lon0 g) (g_dlon g) (g_nx g) Dx) as (cc & mc & Ec & Sc).
    destruct C as (C1 & C2 & C3 & C4). assert (E0 : lat_at g 0 == g_lat0 g) by (unfold lat_at; change (inject_Z 0) with 0; ring). assert (E1 : lon_at g 0 == g_lon0 g) by (unfold lon_at; change (inject_Z 0) with 0; ring). rewrite E0 in C1. rewrite E1 in C3.
    destruct (axis_cell _ _ _ _ _ _ _ (fst t) Dy Ny Sr (qmin_of_spec _ _ (in_map fst _ _ It)) (qmax_of_spec _ _ (in_map fst _ _ It)) C1 C2) as (i & _ & Wi & _). destruct (axis_cell _ _ _ _ _ _ _ (snd t) Dx Nx Sc (qmin_of_spec _ _ (in_map snd _ _ It)) (qmax_of_spec _ _ (in_map snd _ _ It)) C3 C4) as (j & _ & Wj & _).
    rewrite Er, Ec. destruct mr as [|mr]; [lia|]. destruct mc as [|mc]; [lia|]. rewrite !zs_S. eauto. }
  destruct S0 as (g' & r0 & c0 & S0). pose proof (slice_window _ _ _ _ _ Ny Nx Dy Dx S0) as W. set (ins := filter (in_source g') ts).
  assert (Ins : forall t, In t ins -> In t ts /\ covered g t) by (intros t' H; apply filter_In in H as [H1 H2]; split; [exact H1|]; now apply (in_source_iff g g' r0 c0 ts)).
  assert (Ii : In t ins) by (apply filter_In; split; [exact It|]; now apply (in_source_iff g g' r0 c0 ts)).
  assert (Bx : exists qs, basic_indexes g' ins = Ok qs).
  { unfold basic_indexes. destruct ins as [|i0 ins0] eqn:Ei; [destruct Ii|]. rewrite <- Ei in *. set (le := isclose (lat_max g') (qmax_of (map fst ins))). set (lo := isclose (lon_max g') (qmax_of (map snd ins))). destruct (le && lo)%bool eqn:B; [|eauto]. apply andb_true_iff in B as [B1 B2].
    destruct (positions _ 0 (filter _ ins)) as [|p [|p' r]] eqn:P; [eauto|destruct p; eauto|exfalso].
    apply positions_two in P as (a & b & l1 & l2 & l3 & El & Fa & Fb). assert (Pa : In a ins /\ at_top g' ins a = true /\ In b ins /\ at_top g' ins b = true).
    { assert (Ia : In a (filter (fun t : target => (le && isclose (fst t) (lat_max g'))%bool) ins)) by (rewrite El; apply in_or_app; right; now left). assert (Ib : In b (filter (fun t : target => (le && isclose (fst t) (lat_max g'))%bool) ins)) by (rewrite El; apply in_or_app; right; right; apply in_or_app; right; now left). apply filter_In in Ia as [? Ta], Ib as [? Tb]. auto. }
    destruct Pa as (Ia & Ta & Ib & Tb). destruct (Ins _ Ia) as [Ia' Ca]. destruct (Ins _ Ib) as [Ib' Cb].
    apply filter_split in El as (m1 & m2 & m3 & El). unfold ins in El. apply filter_split in El as (n1 & n2 & n3 & El). apply (Di _ _ _ _ _ El).
    pose proof (tidy_top _ _ _ _ _ _ Wp W Ia' Ca Ta). pose proof (tidy_top _ _ _ _ _ _ Wp W Ib' Cb Tb). assert (Ra : at_right g' ins a = true) by (unfold at_right; fold lo; now rewrite B2, Fa). assert (Rb : at_right g' ins b = true) by (unfold at_right; fold lo; now rewrite B2, Fb).
    pose proof (tidy_right _ _ _ _ _ _ Wp W Ia' Ca Ra). pose proof (tidy_right _ _ _ _ _ _ Wp W Ib' Cb Rb). split; lra. }
  destruct Bx as (qs & Bx). unfold regrid. rewrite S0. cbn [bind]. fold ins. rewrite Bx. cbn [bind]. apply basic_indexes_spec in Bx as [_ ->].
  match goal with |- context [mapM ?F ?L] => destruct (mapM_total F L) as (vs & M) end; [|rewrite M; cbn [bind]; eauto].
  intros [[t' q] o] H. apply in_combine_l in H. assert (Q0 : In t' ins /\ q = fixed_quad g' ins t') by now apply in_combine_map.
  destruct Q0 as [It' ->]. destruct (Ins _ It') as [It'' C']. destruct (fixed_quad_cell g g' r0 c0 ts t' Wp W It'' C') as (i & j & _ & Ic & Eq). cbn [fst snd]. fold ins in Eq. rewrite Eq. destruct m.
  - cbn [point_value]. destruct (basic_weights_cell _ _ _ _ _ _ _ _ Dy Dx W Ic) as (w1 & w2 & w3 & w4 & Ew & _). rewrite Ew. cbn [bind]. pose proof (values_cell _ _ _ _ _ _ _ _ data W Ic) as V. unfold row_of, col_of in V. rewrite V. cbn [bind]. eauto.
  - cbn [point_value]. unfold quad_distances. rewrite cell_quad_eq. unfold quad_list. cbn [mapM]. destruct (cell_rows _ _ _ _ _ _ _ _ W Ic i j ltac:(auto) ltac:(auto)) as (F1 & _). destruct (cell_rows _ _ _ _ _ _ _ _ W Ic (i + 1)%Z j ltac:(auto) ltac:(auto)) as (F2 & _).
    destruct (cell_rows _ _ _ _ _ _ _ _ W Ic (i + 1)%Z (j + 1)%Z ltac:(auto) ltac:(auto)) as (F3 & _). destruct (cell_rows _ _ _ _ _ _ _ _ W Ic i (j + 1)%Z ltac:(auto) ltac:(auto)) as (F4 & _). rewrite F1, F2, F3, F4. cbn [bind]. eauto.
Qed.
(** C67: if no target is covered the call fails, rather than giving missing values. *)
Theorem C67_none_covered m ms g data ts : well_posed g ts -> length (own_list ms ts) = length ts -> (forall t, In t ts -> ~ covered g t) -> exists e, regrid m ms g data ts = Err e.
Proof.
  intros Wp Lo N. pose proof Wp as (Ny & Nx & Dy & Dx & _). destruct (regrid m ms g data ts) as [out|e] eqn:R; [exfalso|eauto]. apply regrid_points in R as (g' & r0 & c0 & S0 & _ & Ne & _); [|exact Lo]. pose proof (slice_window _ _ _ _ _ Ny Nx Dy Dx S0) as W.
  destruct (filter (in_source g') ts) as [|t l] eqn:F; [congruence|]. assert (I0 : In t (filter (in_source g') ts)) by (rewrite F; now left). apply filter_In in I0 as [I1 I2]. apply (N t I1). now apply (in_source_iff g g' r0 c0 ts).
Qed.
(** ** Nearest *)
Definition ole (a b : option Q) : Prop := match a, b with Some x, Some y => x <= y | _, None => True | None, Some _ => False end.
Lemma ole_refl a : ole a a.
Proof. destruct a; cbn; [lra|exact I]. Qed.
Lemma ole_trans a b c : ole a b -> ole b c -> ole a c.
Proof. destruct a, b, c; cbn; try tauto. lra. Qed.
Lemma argmin_spec l : forall best bd, exists d, In (d, argmin best bd l) ((bd, best) :: l) /\ forall e, In e ((bd, best) :: l) -> ole d (fst e).
Proof.
  induction l as [|[d k] l IH]; intros best bd.
  - exists bd. split; [now left|]. intros e [<-|[]]. apply ole_refl.
  - assert (Keep : ole bd d -> exists d0, In (d0, argmin best bd l) ((bd, best) :: (d, k) :: l) /\ forall e, In e ((bd, best) :: (d, k) :: l) -> ole d0 (fst e)).
    { intro L. destruct (IH best bd) as (d0 & I0 & M). exists d0. split; [destruct I0 as [E|I0]; [now left|right; now right]|]. intros e [<-|[<-|H]]; [apply M; now left|cbn [fst]; eapply ole_trans; [apply (M (bd, best)); now left|exact L]|apply M; now right]. }
    assert (Take : ole d bd -> exists d0, In (d0, argmin k d l) ((bd, best) :: (d, k) :: l) /\ forall e, In e ((bd, best) :: (d, k) :: l) -> ole d0 (fst e)).
    { intro L. destruct (IH k d) as (d0 & I0 & M). exists d0. split; [destruct I0 as [E|I0]; [right; now left|right; now right]|]. intros e [<-|[<-|H]]; [cbn [fst]; eapply ole_trans; [apply (M (d, k)); now left|exact L]|apply M; now left|apply M; now right]. }
    cbn [argmin]. destruct d as [x|]; [destruct bd as [b|]; [destruct (x <? b) eqn:E; [apply Qltb_lt in E; apply Take; cbn; lra|apply Qltb_ge in E; apply Keep; cbn; lra]|apply Take; exact I]|apply Keep; destruct bd; exact I].
Qed.
Lemma pick_spec l : l <> [] -> exists d, In (d, pick_nearest l) l /\ forall e, In e l -> ole d (fst e).
Proof. destruct l as [|[d k] l]; [congruence|]. intros _. cbn [pick_nearest]. apply argmin_spec. Qed.
Lemma sq_le_abs a b : 0 <= a -> a <= b -> a * a <= b * b.
Proof. intros. nra. Qed.
Lemma corner_lat g i (t : target) : 0 < g_dlat g -> lat_at g i <= fst t <= lat_at g (i + 1) -> forall a, exists i', (i' = i \/ i' = i + 1)%Z /\ (lat_at g i' - fst t) * (lat_at g i' - fst t) <= (lat_at g a - fst t) * (lat_at g a - fst t).
Proof.
  intros D [A B] a. destruct (Z.le_gt_cases a i) as [L|L].
  - exists i. split; [auto|]. apply (lat_mono g _ _ D) in L. setoid_replace ((lat_at g i - fst t) * (lat_at g i - fst t)) with ((fst t - lat_at g i) * (fst t - lat_at g i)) by ring. setoid_replace ((lat_at g a - fst t) * (lat_at g a - fst t)) with ((fst t - lat_at g a) * (fst t - lat_at g a)) by ring. apply sq_le_abs; lra.
  - exists (i + 1)%Z. split; [auto|]. assert (L' : (i + 1 <= a)%Z) by lia. apply (lat_mono g _ _ D) in L'. apply sq_le_abs; lra.
Qed.
Lemma corner_lon g j (t : target) : 0 < g_dlon g -> lon_at g j <= snd t <= lon_at g (j + 1) -> forall a, exists j', (j' = j \/ j' = j + 1)%Z /\ (lon_at g j' - snd t) * (lon_at g j' - snd t) <= (lon_at g a - snd t) * (lon_at g a - snd t).
Proof.
  intros D [A B] a. destruct (Z.le_gt_cases a j) as [L|L].
  - exists j. split; [auto|]. apply (lon_mono g _ _ D) in L. setoid_replace ((lon_at g j - snd t) * (lon_at g j - snd t)) with ((snd t - lon_at g j) * (snd t - lon_at g j)) by ring. setoid_replace ((lon_at g a - snd t) * (lon_at g a - snd t)) with ((snd t - lon_at g a) * (snd t - lon_at g a)) by ring. apply sq_le_abs; lra.
  - exists (j + 1)%Z. split; [auto|]. assert (L' : (j + 1 <= a)%Z) by lia. apply (lon_mono g _ _ D) in L'. apply sq_le_abs; lra.
Qed.
Lemma corner_nearest g i j t : 0 < g_dlat g -> 0 < g_dlon g -> in_cell g i j t -> forall a b, exists i' j', (i' = i \/ i' = i + 1)%Z /\ (j' = j \/ j' = j + 1)%Z /\ dist2 g t i' j' <= dist2 g t a b.
Proof.
  intros D1 D2 (_ & L & M) a b. destruct (corner_lat g i t D1 L a) as (i' & Hi & Li). destruct (corner_lon g j t D2 M b) as (j' & Hj & Lj). exists i', j'. split; [exact Hi|]. split; [exact Hj|]. unfold dist2. lra.
Qed.
(** The distances to the four corners. *)
Lemma quad_distances_cell g g' r0 c0 ts i j t ds : 0 < g_dlat g -> 0 < g_dlon g -> window_of g g' r0 c0 ts -> in_cell g' i j t -> quad_distances g' (cell_quad g' i j) t = Ok ds ->
  ds <> [] /\ (forall e, In e ds -> exists a b, (a = i \/ a = i + 1)%Z /\ (b = j \/ b = j + 1)%Z /\ snd e = (a * g_nx g' + b)%Z /\ fst e == dist2 g t (r0 + a) (c0 + b)) /\
  (forall a b, (a = i \/ a = i + 1)%Z -> (b = j \/ b = j + 1)%Z -> exists e, In e ds /\ snd e = (a * g_nx g' + b)%Z /\ fst e == dist2 g t (r0 + a) (c0 + b)).
Proof.
  intros D1 D2 W Ic H. unfold quad_distances in H. rewrite cell_quad_eq in H. unfold quad_list in H. cbn [mapM] in H.
  assert (Dd : forall a b, (a = i \/ a = i + 1)%Z -> (b = j \/ b = j + 1)%Z -> degree_distance g' t (a * g_nx g' + b) == dist2 g t (r0 + a) (c0 + b)).
  { intros a b Ha Hb. destruct (cell_rows _ _ _ _ _ _ _ _ W Ic a b Ha Hb) as (_ & _ & _ & La & Lo). unfold degree_distance, square, dist2. rewrite La, Lo. reflexivity. }
  destruct (cell_rows _ _ _ _ _ _ _ _ W Ic i j ltac:(auto) ltac:(auto)) as (F1 & _). destruct (cell_rows _ _ _ _ _ _ _ _ W Ic (i + 1)%Z j ltac:(auto) ltac:(auto)) as (F2 & _).
  destruct (cell_rows _ _ _ _ _ _ _ _ W Ic (i + 1)%Z (j + 1)%Z ltac:(auto) ltac:(auto)) as (F3 & _). destruct (cell_rows _ _ _ _ _ _ _ _ W Ic i (j + 1)%Z ltac:(auto) ltac:(auto)) as (F4 & _).
  rewrite F1, F2, F3, F4 in H. cbn [bind] in H. apply Ok_inj in H. subst ds. split; [discriminate|]. split.
  - intros e [<-|[<-|[<-|[<-|[]]]]]; cbn [fst snd]; [exists i, j|exists (i + 1)%Z, j|exists (i + 1)%Z, (j + 1)%Z|exists i, (j + 1)%Z]; (split; [auto|]; split; [auto|]; split; [reflexivity|apply Dd; auto]).
  - intros a b [-> | ->] [-> | ->]; [exists (degree_distance g' t (i * g_nx g' + j), (i * g_nx g' + j)%Z)|exists (degree_distance g' t (i * g_nx g' + (j + 1)), (i * g_nx g' + (j + 1))%Z)|exists (degree_distance g' t ((i + 1) * g_nx g' + j), ((i + 1) * g_nx g' + j)%Z)|exists (degree_distance g' t ((i + 1) * g_nx g' + (j + 1)), ((i + 1) * g_nx g' + (j + 1))%Z)]; (split; [cbn [In]; auto|]; split; [reflexivity|]; apply Dd; auto).
Qed.
(** C67: nearest-neighbour regridding gives the value of a source point that is closest (in degrees) among all source points, and missing at targets that are not covered. *)
Theorem C67_nearest g data ts out : well_posed g ts -> regrid NearestMode None g data ts = Ok out -> length out = length ts /\
  forall k, (k < length ts)%nat -> let t := nth k ts (0, 0) in
    (covered g t -> exists i j, a_source g i j /\ nth k out None = data i j /\ forall i' j', a_source g i' j' -> dist2 g t i j <= dist2 g t i' j') /\ (~ covered g t -> nth k out None = None).
Proof.
  intros Wp H. pose proof Wp as (_ & _ & Dy & Dx & _). apply regrid_at in H as (L & g' & r0 & c0 & _ & W & H); [|unfold own_list; now rewrite map_length|exact Wp]. split; [exact L|]. intros k Hk t. destruct (H k Hk) as [H1 H2]. fold t in H1, H2. split; [|exact H2]. intro C.
  destruct (H1 C) as (i & j & Hc & Ic & V). cbn [point_value] in V. destruct (quad_distances g' (cell_quad g' i j) t) as [ds|e] eqn:Ed; [|discriminate]. cbn [bind] in V. apply Ok_inj in V. destruct (quad_distances_cell _ _ _ _ _ _ _ _ _ Dy Dx W Ic Ed) as (Ne & Only & All).
  destruct (pick_spec (map (fun e => (Some (fst e), snd e)) ds)) as (d & Ip & Mp); [destruct ds; [congruence|discriminate]|]. set (p := pick_nearest _) in *. apply in_map_iff in Ip as (e & E & Ie). injection E as Ed0 Ep. destruct (Only e Ie) as (a & b & Ha & Hb & Es & Ef).
  destruct (cell_rows _ _ _ _ _ _ _ _ W Ic a b Ha Hb) as (_ & Rr & Cc & _). exists (r0 + a)%Z, (c0 + b)%Z. destruct Hc as [Hc Ht]. pose proof Hc as (Bd & _). split; [unfold a_source; lia|]. split.
  - rewrite <- V, <- Ep, Es, Rr, Cc. reflexivity.
  - intros i' j' _. destruct (corner_nearest g _ _ t Dy Dx Hc i' j') as (x & y & Hx & Hy & Le). destruct (All (x - r0)%Z (y - c0)%Z) as (e' & Ie' & _ & Ef'); [lia|lia|]. replace (r0 + (x - r0))%Z with x in Ef' by lia. replace (c0 + (y - c0))%Z with y in Ef' by lia.
    specialize (Mp (Some (fst e'), snd e') (in_map _ _ _ Ie')). rewrite <- Ed0 in Mp. cbn [ole fst] in Mp. lra.
Qed.
(** C67: what the two modes give on an example of two rows of targets, one of them outside. *)
Definition plane_data (i j : Z) : option Q := Some (inject_Z (10 * i + j)).
Definition rounded (r : result (list (option Q))) : list (option Q) := match r with Ok l => map (option_map Qred) l | Err _ => [] end.
Example C67_case : let ts := [(51, 12); (101 # 2, 13); (52, 16); (52, 11); (53, 11); (103 # 2, 16)] in
  well_posed small_grid ts /\ distinct_targets ts /\
  rounded (regrid BilinearMode None small_grid plane_data ts) = [Some 11; Some (13 # 2); Some 23; Some (41 # 2); None; Some 18] /\
  rounded (regrid NearestMode None small_grid plane_data ts) = [Some 11; Some 1; Some 23; Some 20; None; Some 23].
Proof.
  split; [now apply small_well_posed|]. split; [|split; vm_compute; reflexivity].
  intros a b l1 l2 l3 E [S1 S2]. repeat (destruct l1 as [|? l1]; [injection E as <- E; repeat (destruct l2 as [|? l2]; [injection E as <- E; vm_compute in S1, S2; congruence|injection E as <- E]); destruct l2; discriminate|injection E as <- E]); destruct l1; discriminate.
Qed.

Print Assumptions C67_bilinear.
Print Assumptions C67_range.
Print Assumptions C67_node.
Print Assumptions C67_node_refuted.
Print Assumptions C67_linear.
Print Assumptions C67_independent.
Print Assumptions C67_close_refuted.
Print Assumptions C67_accepted.
Print Assumptions C67_none_covered.
Print Assumptions C67_nearest.
