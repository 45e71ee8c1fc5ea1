(** Proofs about Model_Nowcast. *)
From Coq Require Import Qround.
From Verif Require Import Base Model_Nbhood Model_Lapse Proofs_Lapse Model_Nowcast Spec_Nowcast Spec_Threshold.
Local Open Scope Q_scope.

Lemma truncate_floor x : 0 <= x -> truncate x = Qfloor x.
Proof.
  intro H. unfold truncate, Qfloor. destruct x as [n d]. cbn. apply Z.quot_div_nonneg; [|lia]. unfold Qle in H. cbn in H. lia.
Qed.
Lemma inside_iff h w i j : inside h w i j = true <-> on_field h w i j.
Proof. unfold inside, on_field. rewrite !Bool.andb_true_iff, !Z.leb_le, !Z.ltb_lt. tauto. Qed.
Lemma index_inside h w i j : index_in_bounds j i w h = inside h w i j.
Proof.
  unfold index_in_bounds, inside. destruct (0 <=? j)%Z, (j <? w)%Z, (0 <=? i)%Z, (i <? h)%Z; reflexivity.
Qed.
Lemma bounds_iff xs ys w h : point_in_bounds xs ys w h = true <-> source_inside h w ys xs.
Proof.
  unfold point_in_bounds, source_inside. rewrite !Bool.andb_true_iff, !Qle_bool_iff, !Qltb_lt. tauto.
Qed.

(** One term. *)
Lemma increment_spec h w data i j xw yw a :
  (inside h w i j = true -> data i j <> None) ->
  oeq (increment h w data true j i xw yw (Some a)) (Some (a + or_zero h w data i j * xw * yw)).
Proof.
  intro H. unfold increment, or_zero. rewrite index_inside, Bool.andb_true_r. destruct (inside h w i j).
  - destruct (data i j) as [d|]; [cbn; reflexivity|]. exfalso. now apply H.
  - cbn. ring.
Qed.
Lemma increment_some h w data i j xw yw acc r : increment h w data true j i xw yw acc = Some r -> (exists a, acc = Some a) /\ (inside h w i j = true -> data i j <> None).
Proof.
  unfold increment. rewrite index_inside, Bool.andb_true_r. destruct (inside h w i j); intro H.
  - destruct acc as [a|]; [|discriminate]. destruct (data i j); [|discriminate]. split; [eauto|discriminate].
  - split; [eauto|discriminate].
Qed.
Lemma oeq_some a r : oeq a (Some r) -> exists r', a = Some r' /\ r' == r.
Proof. destruct a; cbn; [eauto|contradiction]. Qed.

Definition src (p v : Q) (ts : Z) : Q := - v * inject_Z ts + p.

Lemma advect_inside h w data vx vy ts y x :
  ts <> 0%Z -> let xs := src (inject_Z x) vx ts in let ys := src (inject_Z y) vy ts in
  source_inside h w ys xs -> (forall i j, corner ys xs i j -> on_field h w i j -> data i j <> None) ->
  oeq (advect_point h w data vx vy ts y x) (Some (bilinear (or_zero h w data) ys xs)).
Proof.
  intros T xs ys Hs Hc. unfold advect_point. destruct (Z.eqb_spec ts 0) as [E|_]; [contradiction|]. fold (src (inject_Z x) vx ts) (src (inject_Z y) vy ts). cbv zeta. fold xs ys.
  rewrite (proj2 (bounds_iff xs ys w h) Hs). destruct Hs as (S1 & S2 & S3 & S4). rewrite !truncate_floor by assumption.
  assert (C : forall i j, corner ys xs i j -> inside h w i j = true -> data i j <> None) by (intros i j K I0; apply Hc; [assumption|now apply inside_iff]).
  set (i := Qfloor ys) in *. set (j := Qfloor xs) in *.
  assert (K1 : corner ys xs i j) by (split; left; reflexivity). assert (K2 : corner ys xs (i + 1) j) by (split; [right|left]; reflexivity).
  assert (K3 : corner ys xs i (j + 1)) by (split; [left|right]; reflexivity). assert (K4 : corner ys xs (i + 1) (j + 1)) by (split; right; reflexivity).
  destruct (oeq_some _ _ (increment_spec h w data i j (1 - (xs - inject_Z j)) (1 - (ys - inject_Z i)) 0 (C _ _ K1))) as (a1 & -> & E1).
  destruct (oeq_some _ _ (increment_spec h w data (i + 1) j (1 - (xs - inject_Z j)) (ys - inject_Z i) a1 (C _ _ K2))) as (a2 & -> & E2).
  destruct (oeq_some _ _ (increment_spec h w data i (j + 1) (xs - inject_Z j) (1 - (ys - inject_Z i)) a2 (C _ _ K3))) as (a3 & -> & E3).
  destruct (oeq_some _ _ (increment_spec h w data (i + 1) (j + 1) (xs - inject_Z j) (ys - inject_Z i) a3 (C _ _ K4))) as (a4 & -> & E4).
  cbn. rewrite E4, E3, E2, E1. unfold bilinear. fold i j. ring.
Qed.
Lemma advect_some h w data vx vy ts y x r :
  ts <> 0%Z -> let xs := src (inject_Z x) vx ts in let ys := src (inject_Z y) vy ts in
  advect_point h w data vx vy ts y x = Some r -> source_inside h w ys xs /\ forall i j, corner ys xs i j -> on_field h w i j -> data i j <> None.
Proof.
  intros T xs ys. unfold advect_point. destruct (Z.eqb_spec ts 0) as [E|_]; [contradiction|]. fold (src (inject_Z x) vx ts) (src (inject_Z y) vy ts). cbv zeta. fold xs ys.
  destruct (point_in_bounds xs ys w h) eqn:B.
  - apply bounds_iff in B. pose proof B as (S1 & S2 & S3 & S4). rewrite !truncate_floor by assumption. intro H.
    apply increment_some in H as [(a3 & H) C4]. apply increment_some in H as [(a2 & H) C3]. apply increment_some in H as [(a1 & H) C2]. apply increment_some in H as [_ C1].
    split; [assumption|]. intros i j [[-> | ->] [-> | ->]] I0; apply inside_iff in I0; auto.
  - unfold increment. rewrite !Bool.andb_false_r. discriminate.
Qed.

(** Bounds of a bilinear interpolation. *)
Lemma frac_bounds x : 0 <= x - inject_Z (Qfloor x) < 1.
Proof. pose proof (Qfloor_le x). pose proof (Qlt_floor x). rewrite inject_Z_plus in H0. change (inject_Z 1) with 1 in H0. lra. Qed.
Lemma convex2 u a b lo hi : 0 <= u <= 1 -> (u == 1 \/ lo <= a <= hi) -> (u == 0 \/ lo <= b <= hi) -> ~ (u == 1 /\ u == 0) -> lo <= (1 - u) * a + u * b <= hi.
Proof.
  intros U A B N. destruct A as [A|A].
  - destruct B as [B|B]; [exfalso; apply N; auto|]. setoid_replace ((1 - u) * a + u * b) with b; [exact B|]. rewrite A. ring.
  - destruct B as [B|B]; [setoid_replace ((1 - u) * a + u * b) with a; [exact A|]; rewrite B; ring|]. split; nra.
Qed.
Lemma bilinear_nest f ys xs : bilinear f ys xs ==
  let i := Qfloor ys in let j := Qfloor xs in let v := ys - inject_Z i in let u := xs - inject_Z j in
  (1 - v) * ((1 - u) * f i j + u * f i (j + 1)%Z) + v * ((1 - u) * f (i + 1)%Z j + u * f (i + 1)%Z (j + 1)%Z).
Proof. unfold bilinear. cbv zeta. ring. Qed.
Lemma bilinear_range f ys xs lo hi : (forall i j, corner ys xs i j -> lo <= f i j <= hi) -> lo <= bilinear f ys xs <= hi.
Proof.
  intro H. rewrite bilinear_nest. cbv zeta. pose proof (frac_bounds ys). pose proof (frac_bounds xs).
  apply convex2; [lra| | |lra]; right; apply convex2; try lra; right; apply H; split; auto.
Qed.
(** Where the source is at most at the last row and column the points off the grid have no weight. *)
Lemma bilinear_interior h w f ys xs lo hi : 0 <= xs <= inject_Z (w - 1) -> 0 <= ys <= inject_Z (h - 1) ->
  (forall i j, corner ys xs i j -> on_field h w i j -> lo <= f i j <= hi) -> lo <= bilinear f ys xs <= hi.
Proof.
  intros Hx Hy H. rewrite bilinear_nest. cbv zeta. pose proof (frac_bounds ys) as Fy. pose proof (frac_bounds xs) as Fx.
  assert (B : forall n z, 0 <= z <= inject_Z (n - 1) -> (0 <= Qfloor z <= n - 1)%Z /\ ((Qfloor z + 1 <= n - 1)%Z \/ z - inject_Z (Qfloor z) == 0)).
  { intros n z [Z1 Z2]. assert (F1 : (0 <= Qfloor z)%Z) by (apply (Qfloor_resp_le 0 z); assumption). assert (F2 : (Qfloor z <= n - 1)%Z) by (rewrite <- (Qfloor_Z (n - 1)); apply Qfloor_resp_le; assumption).
    split; [lia|]. destruct (Z.eq_dec (Qfloor z) (n - 1)) as [E|E]; [right|left; lia]. pose proof (Qfloor_le z). rewrite E in *. lra. }
  destruct (B w xs Hx) as [Bx [Bx'|Bx']]; destruct (B h ys Hy) as [By [By'|By']].
  all: apply convex2; [lra| | |lra].
  all: try (left; exact By').
  all: right; apply convex2; [lra| | |lra].
  all: try (left; exact Bx').
  all: right; apply H; [split; auto|split; lia].
Qed.

(** Windows of a radar field. *)
Lemma zrange_length a b : length (zrange a b) = Z.to_nat (b - a + 1).
Proof. unfold zrange. now rewrite map_length, seq_length. Qed.
Lemma product_length {A B C} (f : A -> B -> C) l1 l2 : length (flat_map (fun a => map (f a) l2) l1) = (length l1 * length l2)%nat.
Proof. induction l1 as [|a l1 IH]; [reflexivity|]. cbn [flat_map]. rewrite app_length, map_length, IH. reflexivity. Qed.
Lemma window_length r y x : (0 <= r)%Z -> length (window r y x) = (Z.to_nat (2 * r + 1) * Z.to_nat (2 * r + 1))%nat.
Proof. intro H. unfold window. rewrite (product_length (fun i j => (i, j))), !zrange_length. f_equal; f_equal; lia. Qed.
Lemma off_iff h w data i j : off_or_masked h w data (i, j) = true <-> no_value h w data i j.
Proof.
  unfold off_or_masked, no_value. cbn [fst snd]. destruct (inside h w i j) eqn:I0.
  - apply inside_iff in I0. destruct (data i j); split; intro H; try discriminate; try tauto; destruct H; [contradiction|discriminate].
  - split; [|reflexivity]. intros _. left. intro C. apply inside_iff in C. congruence.
Qed.
Lemma count_off h w data r y x : count_around (no_value h w data) r y x (length (filter (off_or_masked h w data) (window r y x))).
Proof.
  exists (filter (off_or_masked h w data) (window r y x)). split; [apply NoDup_filter, window_nodup|]. split; [reflexivity|].
  intros i j. rewrite filter_In, window_in, off_iff. tauto.
Qed.
Lemma count_unique P r y x n m : count_around P r y x n -> count_around P r y x m -> n = m.
Proof.
  intros (l & N & L & H) (l' & N' & L' & H'). subst. apply Nat.le_antisymm; apply NoDup_incl_length; trivial; intros [i j] K; [apply H', H|apply H, H']; exact K.
Qed.
Lemma values_spec h w data r y x : values_around h w data r y x
  (flat_map (fun p => if inside h w (fst p) (snd p) then match data (fst p) (snd p) with Some v => [v] | None => [] end else []) (window r y x)).
Proof.
  exists (filter (fun p => negb (off_or_masked h w data p)) (window r y x)). split; [apply NoDup_filter, window_nodup|]. split.
  - intros i j. rewrite filter_In, window_in, Bool.negb_true_iff, <- off_iff. destruct (off_or_masked h w data (i, j)); intuition congruence.
  - induction (window r y x) as [|p l IH]; [constructor|]. cbn [filter flat_map]. unfold off_or_masked at 1. destruct (inside h w (fst p) (snd p)); [|exact IH].
    destruct (data (fst p) (snd p)) eqn:D; cbn [negb app]; [constructor; [exact D|exact IH]|exact IH].
Qed.
