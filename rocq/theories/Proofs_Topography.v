(** Proofs for C43. *)
From Verif Require Import Base Interp Model_Topography Spec_Topography.
Local Open Scope Q_scope.

Lemma correct_point_01 v : correct_point v = 0 \/ correct_point v = 1.
Proof.
  unfold correct_point. cbv zeta. destruct (Qltb_spec v (1 # 2)).
  - left. destruct (Qltb_spec 0 0); [lra|reflexivity].
  - right. destruct (Qltb_spec 0 v); [reflexivity|lra].
Qed.

Lemma correct_point_spec v : (correct_point v == 1 <-> (1 # 2) <= v) /\ (correct_point v == 0 <-> v < 1 # 2).
Proof.
  unfold correct_point. cbv zeta. destruct (Qltb_spec v (1 # 2)).
  - change (0 <? 0) with false. cbv iota. repeat split; intros; lra.
  - destruct (Qltb_spec 0 v); [|lra]. repeat split; intros; lra.
Qed.

Lemma set_nth_length i x l : length (set_nth i x l) = length l.
Proof. revert i. induction l as [|y r IH]; intros [|i]; cbn; auto. Qed.
Lemma set_nth_same i x l d : (i < length l)%nat -> nth i (set_nth i x l) d = x.
Proof. revert i. induction l as [|y r IH]; intros [|i] H; cbn in *; try lia; auto. apply IH. lia. Qed.
Lemma set_nth_other i j x l d : i <> j -> nth j (set_nth i x l) d = nth j l d.
Proof. revert i j. induction l as [|y r IH]; intros [|i] [|j] H; cbn; auto; try congruence. Qed.
Lemma set_nth_Forall (P : Q -> Prop) i x l : P x -> Forall P l -> Forall P (set_nth i x l).
Proof. intros Px F. revert i. induction F; intros [|i]; cbn; constructor; auto. Qed.

Lemma in_band_iff b z : in_band b z = true <-> fst b < z <= snd b.
Proof. unfold in_band. rewrite andb_true_iff, Qltb_lt, Qleb_le. tauto. Qed.

Lemma half_mid b : midpoint b == (fst b + snd b) * (1 # 2).
Proof. unfold midpoint. field. Qed.
(** The tent of calculate_weights. *)
Lemma calculate_weight_spec b z : fst b < z -> z <= snd b -> calculate_weight z b == 1 - Qabs (z - midpoint b) / (snd b - fst b).
Proof.
  intros A B. assert (M := half_mid b). unfold calculate_weight. cbn [np_interp np_from]. destruct b as [lo hi]. cbn [fst snd] in *. set (m := midpoint (lo, hi)) in *. clearbody m.
  destruct (Qltb_spec z lo); [lra|]. destruct (Qleb_spec m z) as [C|C].
  - destruct (Qleb_spec hi z) as [D|D].
    + assert (E : z == hi) by lra. rewrite Qabs_pos by lra. assert (X : (z - m) / (hi - lo) == 1 # 2); [|rewrite X; reflexivity].
      rewrite E, M. field. lra.
    + destruct (Qeqb_spec m z) as [E|E].
      * rewrite Qabs_pos by lra. rewrite <- E. field. lra.
      * rewrite Qabs_pos by lra. unfold lerp. rewrite M. field. split; lra.
  - destruct (Qeqb_spec lo z); [lra|]. rewrite Qabs_neg by lra. unfold lerp. rewrite M. field. split; lra.
Qed.
Lemma tent_bounds lo hi m z : lo < z -> z <= hi -> m == (lo + hi) * (1 # 2) -> (1 # 2) <= 1 - Qabs (z - m) / (hi - lo) <= 1.
Proof.
  intros A B M. set (d := Qabs (z - m)). assert (D : 0 <= d /\ d <= (1 # 2) * (hi - lo)).
  { unfold d. split; [apply Qabs_nonneg|]. apply Qabs_Qle_condition. lra. }
  assert (X : d / (hi - lo) <= 1 # 2) by (apply Qle_shift_div_r; lra). assert (Y : 0 <= d / (hi - lo)) by (apply Qle_shift_div_l; lra). lra.
Qed.
Lemma calculate_weight_bounds b z : fst b < z -> z <= snd b -> (1 # 2) <= calculate_weight z b <= 1.
Proof. intros A B. rewrite calculate_weight_spec by assumption. apply tent_bounds; auto. apply half_mid. Qed.

Lemma zone_step_length n k b z ws : length (zone_step n k b z ws) = length ws.
Proof.
  unfold zone_step, add_upper, add_lower. cbv zeta. destruct (in_band b z); [|reflexivity]. 
  repeat match goal with |- context [if ?c then _ else _] => destruct c end; rewrite ?set_nth_length; reflexivity.
Qed.
Lemma zone_loop_length n bs z : forall k ws, length (zone_loop n k bs z ws) = length ws.
Proof. induction bs as [|b r IH]; intros k ws; cbn; [reflexivity|]. rewrite IH. apply zone_step_length. Qed.
Lemma zone_point_length bs z : length (zone_point bs z) = length bs.
Proof. unfold zone_point. rewrite zone_loop_length. apply repeat_length. Qed.

Definition is_weight (w : Q) : Prop := 0 <= w <= 1.
Lemma nth_weight k ws : Forall is_weight ws -> is_weight (nth k ws 0).
Proof. intros F. destruct (le_lt_dec (length ws) k) as [L|L]; [rewrite nth_overflow by exact L; unfold is_weight; lra|]. rewrite Forall_forall in F. apply F, nth_In, L. Qed.
Lemma zone_step_range n k b z ws : Forall is_weight ws -> Forall is_weight (zone_step n k b z ws).
Proof.
  intros F. unfold zone_step. cbv zeta. destruct (in_band b z) eqn:E; [|exact F]. apply in_band_iff in E. destruct (calculate_weight_bounds b z) as [L U]; try tauto.
  assert (F1 : Forall is_weight (set_nth k (calculate_weight z b) ws)) by (apply set_nth_Forall; [unfold is_weight; lra|exact F]). set (w1 := set_nth k _ ws) in *. clearbody w1.
  assert (One : is_weight 1) by (unfold is_weight; lra).
  assert (Comp : forall k l, Forall is_weight l -> is_weight (1 - nth k l 0)) by (intros k0 l Fl; assert (X := nth_weight k0 l Fl); unfold is_weight in *; lra).
  assert (F2 : Forall is_weight (add_lower w1 (Some z) (midpoint b) k)) by (unfold add_lower; destruct (z <? midpoint b); [destruct (k =? 0)%nat|]; try apply set_nth_Forall; auto).
  unfold add_upper. destruct (midpoint b <? z); [destruct (k =? n - 1)%nat|]; try apply set_nth_Forall; auto.
Qed.
Lemma zone_loop_range n bs z : forall k ws, Forall is_weight ws -> Forall is_weight (zone_loop n k bs z ws).
Proof. induction bs as [|b r IH]; intros k ws F; cbn; [exact F|]. apply IH, zone_step_range, F. Qed.
Lemma zone_point_range bs z : Forall is_weight (zone_point bs z).
Proof. apply zone_loop_range, Forall_forall. intros x H. apply repeat_spec in H. subst. unfold is_weight. lra. Qed.

Lemma zone_loop_skip n bs z : forall k ws, (forall b, In b bs -> in_band b z = false) -> zone_loop n k bs z ws = ws.
Proof.
  induction bs as [|b r IH]; intros k ws H; cbn [zone_loop]; [reflexivity|]. rewrite IH by (intros; apply H; right; assumption).
  unfold zone_step. rewrite (H b) by (left; reflexivity). reflexivity.
Qed.
Lemma zone_loop_app n pre post z : forall k ws, zone_loop n k (pre ++ post) z ws = zone_loop n (k + length pre) post z (zone_loop n k pre z ws).
Proof.
  induction pre as [|b r IH]; intros k ws; cbn [zone_loop app length]; [rewrite Nat.add_0_r; reflexivity|]. rewrite IH. f_equal. lia.
Qed.

Lemma contiguous_le bs i j : contiguous bs -> (i < j < length bs)%nat -> upper bs i <= lower bs j.
Proof.
  intros [A B] [L M]. induction j as [|j IH]; [lia|]. destruct (Nat.eq_dec i j) as [->|N].
  - rewrite (B j) by exact M. apply Qle_refl.
  - assert (X := IH ltac:(lia) ltac:(lia)). assert (Y := A j ltac:(lia)). assert (Z := B j ltac:(lia)). lra.
Qed.
Lemma inside_unique bs i j z : contiguous bs -> (i < length bs)%nat -> (j < length bs)%nat -> inside bs i z -> inside bs j z -> i = j.
Proof.
  intros C I J [A B] [D E]. destruct (lt_eq_lt_dec i j) as [[L|L]|L]; [|exact L|].
  - assert (X := contiguous_le bs i j C ltac:(lia)). lra.
  - assert (X := contiguous_le bs j i C ltac:(lia)). lra.
Qed.
Lemma inside_exists bs z : contiguous bs -> bs <> [] -> lower bs 0 < z -> z <= upper bs (length bs - 1) -> exists k, (k < length bs)%nat /\ inside bs k z.
Proof.
  intros [A B] N L U. assert (G : forall m, (m < length bs)%nat -> z <= upper bs m -> exists k, (k <= m)%nat /\ inside bs k z).
  { induction m as [|m IH]; intros Hm Um; [exists 0%nat; split; [lia|split; assumption]|].
    destruct (Qlt_le_dec (lower bs (S m)) z) as [X|X]; [exists (S m); split; [lia|split; assumption]|].
    destruct (IH ltac:(lia)) as [k [K I]]; [rewrite (B m) by exact Hm; exact X|]. exists k. split; [lia|exact I]. }
  assert (Hl : (0 < length bs)%nat) by (destruct bs; [congruence|cbn; lia]). destruct (G (length bs - 1)%nat ltac:(lia) U) as [k [K I]]. exists k. split; [lia|exact I].
Qed.

(** Only the step of the band containing the point matters. *)
Lemma zone_point_inside bs k z : contiguous bs -> (k < length bs)%nat -> inside bs k z ->
  zone_point bs z = zone_step (length bs) k (nth k bs (0, 0)) z (repeat 0 (length bs)).
Proof.
  intros C K I. unfold zone_point. destruct (nth_split bs (0, 0) K) as [pre [post [E L]]]. set (b := nth k bs (0, 0)) in *.
  rewrite E at 2. rewrite zone_loop_app, L, Nat.add_0_l. change (zone_loop (length bs) k (b :: post) z ?x) with (zone_loop (length bs) (S k) post z (zone_step (length bs) k b z x)).
  assert (Out : forall j, (j < length bs)%nat -> j <> k -> in_band (nth j bs (0, 0)) z = false).
  { intros j J N. destruct (in_band (nth j bs (0, 0)) z) eqn:X; [|reflexivity]. apply in_band_iff in X. exfalso. apply N. exact (inside_unique bs j k z C J K X I). }
  rewrite zone_loop_skip.
  - rewrite zone_loop_skip; [reflexivity|]. intros b' Hb. destruct (In_nth pre b' (0, 0) Hb) as [j [J <-]].
    replace (nth j pre (0, 0)) with (nth j bs (0, 0)) by (rewrite E, app_nth1 by exact J; reflexivity). apply Out; [rewrite E, app_length; lia|lia].
  - intros b' Hb. destruct (In_nth post b' (0, 0) Hb) as [j [J <-]].
    replace (nth j post (0, 0)) with (nth (S k + j) bs (0, 0)).
    + apply Out; [|lia]. rewrite E, app_length. cbn [length]. lia.
    + rewrite E, app_nth2 by lia. replace (S k + j - length pre)%nat with (S j) by lia. reflexivity.
Qed.
Lemma repeat_nth n j : nth j (repeat 0 n) 0 = 0.
Proof. apply nth_repeat. Qed.

Lemma zone_point_value bs k z j : contiguous bs -> (k < length bs)%nat -> inside bs k z -> (j < length bs)%nat -> nth j (zone_point bs z) 0 == ideal_weight bs k z j.
Proof.
  intros C K I J. rewrite (zone_point_inside bs k z C K I). set (b := nth k bs (0, 0)). assert (IB : in_band b z = true) by (apply in_band_iff; exact I).
  unfold zone_step. rewrite IB. cbv zeta. assert (M : midpoint b = middle bs k) by reflexivity. rewrite M.
  assert (W : calculate_weight z b == closeness bs k z) by (apply calculate_weight_spec; apply I).
  set (n := length bs) in *. set (w := calculate_weight z b) in *. clearbody w. set (zs := repeat 0 n). assert (Lz : length zs = n) by apply repeat_length.
  assert (Z : forall i, nth i zs 0 = 0) by (intros; apply repeat_nth). clearbody zs. unfold ideal_weight. fold n.
  unfold add_lower, add_upper. destruct (Qltb_spec z (middle bs k)) as [Lo|Lo]; destruct (Qltb_spec (middle bs k) z) as [Hi|Hi]; try lra; rewrite ?andb_false_l, ?andb_false_r, ?andb_true_l, ?andb_true_r, ?orb_false_l, ?orb_false_r.
  - destruct (Nat.eqb_spec k 0) as [E|E].
    + destruct (Nat.eqb_spec j k) as [Ej|Ej]; [rewrite Ej, set_nth_same by (rewrite set_nth_length; lia); reflexivity|]. destruct (Nat.eqb_spec (S j) k); [lia|].
      rewrite !set_nth_other, Z by lia. reflexivity.
    + rewrite (set_nth_same k) by lia. destruct (Nat.eqb_spec j k) as [Ej|Ej]; [rewrite Ej, set_nth_other, set_nth_same by lia; exact W|].
      destruct (Nat.eqb_spec (S j) k) as [Ek|Ek].
      * replace (k - 1)%nat with j by lia. rewrite set_nth_same by (rewrite set_nth_length; lia). rewrite W. reflexivity.
      * rewrite !set_nth_other, Z by lia. reflexivity.
  - destruct (Nat.eqb_spec k (n - 1)) as [E|E].
    + replace (S k =? n)%nat with true by (symmetry; apply Nat.eqb_eq; lia). destruct (Nat.eqb_spec j k) as [Ej|Ej]; [rewrite Ej, set_nth_same by (rewrite set_nth_length; lia); reflexivity|].
      destruct (Nat.eqb_spec j (S k)); [lia|]. rewrite !set_nth_other, Z by lia. reflexivity.
    + replace (S k =? n)%nat with false by (symmetry; apply Nat.eqb_neq; lia). rewrite (set_nth_same k) by lia.
      destruct (Nat.eqb_spec j k) as [Ej|Ej]; [rewrite Ej, set_nth_other, set_nth_same by lia; exact W|].
      destruct (Nat.eqb_spec j (S k)) as [Ek|Ek].
      * rewrite Ek. replace (k + 1)%nat with (S k) by lia. rewrite set_nth_same by (rewrite set_nth_length; lia). rewrite W. reflexivity.
      * rewrite !set_nth_other, Z by lia. reflexivity.
  - destruct (Nat.eqb_spec j k) as [Ej|Ej]; [rewrite Ej, set_nth_same by lia; exact W|]. rewrite set_nth_other, Z by lia. reflexivity.
Qed.

(** Sum of a list that is zero outside two places. *)
Lemma qsum_zero l : (forall i, nth i l 0 == 0) -> qsum l == 0.
Proof. induction l as [|x r IH]; intros H; cbn [qsum]; [reflexivity|]. assert (A : x == 0) by apply (H 0%nat). rewrite A, IH by (intro i; apply (H (S i))). reflexivity. Qed.
Lemma qsum_one k : forall l, (k < length l)%nat -> (forall i, i <> k -> nth i l 0 == 0) -> qsum l == nth k l 0.
Proof.
  induction k as [|k IH]; intros [|x r] L H; cbn [length] in L; try lia; cbn [qsum nth].
  - rewrite qsum_zero by (intro i; apply (H (S i)); lia). lra.
  - assert (A : x == 0) by (apply (H 0%nat); lia). rewrite A. rewrite IH by (lia || (intros i N; apply (H (S i)); lia)). lra.
Qed.
Lemma qsum_two k : forall l, (S k < length l)%nat -> (forall i, i <> k -> i <> S k -> nth i l 0 == 0) -> qsum l == nth k l 0 + nth (S k) l 0.
Proof.
  induction k as [|k IH]; intros [|x r] L H; cbn [length] in L; try lia; cbn [qsum].
  - rewrite (qsum_one 0 r) by (lia || (intros i N; apply (H (S i)); lia)). reflexivity.
  - assert (A : x == 0) by (apply (H 0%nat); lia). assert (B := IH r ltac:(lia) ltac:(intros i N N'; apply (H (S i)); lia)). cbn [nth]. rewrite B. change (x + (nth k r 0 + nth (S k) r 0) == nth k r 0 + nth (S k) r 0). lra.
Qed.
Lemma nth_default_zero (l : list Q) i : (length l <= i)%nat -> nth i l 0 == 0.
Proof. intros. rewrite nth_overflow by assumption. reflexivity. Qed.

Lemma zone_point_sum bs k z : contiguous bs -> (k < length bs)%nat -> inside bs k z -> qsum (zone_point bs z) == 1.
Proof.
  intros C K I. assert (L := zone_point_length bs z). assert (V := fun j => zone_point_value bs k z j C K I). set (ws := zone_point bs z) in *. clearbody ws.
  assert (N : forall j, ideal_weight bs k z j == 0 -> nth j ws 0 == 0).
  { intros j E. destruct (le_lt_dec (length bs) j) as [X|X]; [apply nth_default_zero; lia|]. rewrite V by exact X. exact E. }
  destruct (Qlt_le_dec z (middle bs k)) as [Lo|Lo].
  - destruct k as [|k].
    + assert (SS : qsum ws == nth 0 ws 0) by (apply qsum_one; [lia|]; intros i Hi; apply N; unfold ideal_weight; cbv zeta; destruct (Nat.eqb_spec i 0); [lia|]; destruct (Nat.eqb_spec (S i) 0); [lia|];
        destruct (Qltb_spec (middle bs 0) z); [lra|]; rewrite ?andb_false_r; cbn [andb]; reflexivity). rewrite SS.
      rewrite V by exact K. unfold ideal_weight. rewrite (proj2 (Qltb_lt _ _) Lo). reflexivity.
    + assert (SS : qsum ws == nth k ws 0 + nth (S k) ws 0); [apply qsum_two|rewrite SS].
      * lia.
      * intros i A B. apply N. unfold ideal_weight. cbv zeta. destruct (Nat.eqb_spec i (S k)); [lia|]. destruct (Nat.eqb_spec (S i) (S k)); [lia|]. destruct (Qltb_spec (middle bs (S k)) z); [lra|].
        rewrite ?andb_false_r; cbn [andb]; reflexivity.
      * rewrite !V by lia. unfold ideal_weight. cbv zeta. rewrite (proj2 (Qltb_lt _ _) Lo). rewrite !Nat.eqb_refl. destruct (Nat.eqb_spec k (S k)); [lia|]. destruct (Qltb_spec (middle bs (S k)) z); [lra|].
        cbn [andb orb Nat.eqb]. lra.
  - destruct (Qlt_le_dec (middle bs k) z) as [Hi|Hi].
    + destruct (Nat.eq_dec (S k) (length bs)) as [E|E].
      * assert (SS : qsum ws == nth k ws 0) by (apply qsum_one; [lia|]; intros i Ni; destruct (Nat.eq_dec i (S k)) as [X|X]; [apply nth_default_zero; lia|]; apply N; unfold ideal_weight; cbv zeta;
          destruct (Nat.eqb_spec i k); [lia|]; destruct (Nat.eqb_spec i (S k)); [lia|]; destruct (Qltb_spec z (middle bs k)); [lra|]; rewrite ?andb_false_r; cbn [andb]; reflexivity). rewrite SS.
        rewrite V by exact K. unfold ideal_weight. rewrite (proj2 (Qltb_lt _ _) Hi), E, !Nat.eqb_refl. rewrite orb_true_r. reflexivity.
      * assert (SS : qsum ws == nth k ws 0 + nth (S k) ws 0) by (apply qsum_two; [lia|]; intros i A B; apply N; unfold ideal_weight; cbv zeta;
          destruct (Nat.eqb_spec i k); [lia|]; destruct (Nat.eqb_spec i (S k)); [lia|]; destruct (Qltb_spec z (middle bs k)); [lra|]; rewrite ?andb_false_r; cbn [andb]; reflexivity). rewrite SS.
        rewrite !V by lia. unfold ideal_weight. cbv zeta. rewrite (proj2 (Qltb_lt _ _) Hi). rewrite !Nat.eqb_refl. destruct (Nat.eqb_spec (S k) k); [lia|]. destruct (Qltb_spec z (middle bs k)); [lra|].
        destruct (Nat.eqb_spec (S k) (length bs)); [lia|]. rewrite ?andb_false_r. cbn [andb orb Nat.eqb]. rewrite ?andb_false_r. lra.
    + assert (SS : qsum ws == nth k ws 0) by (apply qsum_one; [lia|]; intros i Ni; apply N; unfold ideal_weight; cbv zeta; destruct (Nat.eqb_spec i k); [lia|]; destruct (Qltb_spec z (middle bs k)); [lra|];
        destruct (Qltb_spec (middle bs k) z); [lra|]; rewrite !andb_false_r; cbn [andb]; reflexivity). rewrite SS.
      rewrite V by exact K. unfold ideal_weight. cbv zeta. rewrite Nat.eqb_refl. destruct (Qltb_spec z (middle bs k)); [lra|]. destruct (Qltb_spec (middle bs k) z); [lra|]. cbn [andb orb].
      unfold closeness. rewrite Qabs_pos by lra. assert (X := proj1 C k K). assert (Y : z - middle bs k == 0) by lra. rewrite Y. field. lra.
Qed.

Lemma zone_point_outside bs z : contiguous bs -> bs <> [] -> (z <= lower bs 0 \/ upper bs (length bs - 1) < z) -> zone_point bs z = repeat 0 (length bs).
Proof.
  intros C N H. unfold zone_point. apply zone_loop_skip. intros b Hb. destruct (In_nth bs b (0, 0) Hb) as [j [J <-]]. destruct (in_band (nth j bs (0, 0)) z) eqn:X; [|reflexivity]. exfalso.
  apply in_band_iff in X. change (inside bs j z) in X. destruct X as [A B]. destruct H as [H|H].
  - assert (lower bs 0 <= lower bs j); [|lra]. destruct (Nat.eq_dec j 0) as [->|Nj]; [apply Qle_refl|]. assert (Y := contiguous_le bs 0 j C ltac:(lia)). assert (Z := proj1 C 0%nat ltac:(lia)). lra.
  - assert (upper bs j <= upper bs (length bs - 1)); [|lra]. destruct (Nat.eq_dec j (length bs - 1)) as [->|Nj]; [apply Qle_refl|].
    assert (Y := contiguous_le bs j (length bs - 1) C ltac:(lia)). assert (Z := proj1 C (length bs - 1)%nat ltac:(lia)). lra.
Qed.

Lemma zip_land_length land oro : length (zip_land land oro) = length oro.
Proof. revert land. induction oro as [|z r IH]; intros land; cbn; [reflexivity|]. destruct land as [[|l ls]|]; cbn; rewrite IH; reflexivity. Qed.
Lemma zip_land_nth land oro p d : (p < length oro)%nat -> same_size land oro = true ->
  nth p (zip_land land oro) d = (match land with Some l => Some (nth p l 0) | None => None end, nth p oro 0).
Proof.
  revert land p. induction oro as [|z r IH]; intros land p L S; cbn [length] in L; [lia|]. destruct land as [[|l ls]|]; cbn [same_size] in S.
  - apply Nat.eqb_eq in S. cbn in S. lia.
  - apply Nat.eqb_eq in S. cbn in S. destruct p as [|p]; cbn [zip_land nth]; [reflexivity|]. rewrite IH; [reflexivity|lia|]. cbn. apply Nat.eqb_eq. lia.
  - destruct p as [|p]; cbn [zip_land nth]; [reflexivity|]. rewrite IH; [reflexivity|lia|reflexivity].
Qed.

Lemma bounds_of_in bs x : In x (bounds_of bs) <-> exists b, In b bs /\ (x = fst b \/ x = snd b).
Proof.
  unfold bounds_of. rewrite in_flat_map. split.
  - intros [b [A [B|[B|[]]]]]; exists b; auto.
  - intros [b [A [B|B]]]; exists b; split; auto; [left|right; left]; auto.
Qed.
