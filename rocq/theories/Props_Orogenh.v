(** C104: orographic enhancement of precipitation. *)
From Coq Require Import Reals List Bool ZArith Lia.
From Verif Require Import Base Model_Nbhood Model_Wind Model_Flow Model_Orogenh Props_Wind.
From Coq Require Import Lra.
Import ListNotations.
Local Open Scope R_scope.

Lemma below_spec x y : reflect (x < y) (below x y).
Proof. unfold below. destruct (Rlt_dec x y); constructor; assumption. Qed.
Definition in_domain (s : setting) (i j : Z) : Prop := (0 <= i < s_h s)%Z /\ (0 <= j < s_w s)%Z.

(** ** Gradients *)
(** Over a plane the gradients are those of the plane at every point, edges included. *)
Lemma slope_line n d f a b : (3 <= n)%Z -> d <> 0 -> (forall k, (0 <= k < n)%Z -> f k = a * (IZR k * d) + b) -> forall i, (0 <= i < n)%Z -> slope n d f i = a.
Proof.
  intros N D F i Bi. assert (G : forall k, (0 <= k < n - 1)%Z -> (f (k + 1)%Z - f k) / d = a). { intros k Bk. rewrite !F by lia. rewrite plus_IZR. field. exact D. }
  unfold slope. cbv zeta. destruct (Z.eqb_spec i 0); [rewrite !G by lia; field|]. destruct (Z.eqb_spec i (n - 1)); [rewrite !G by lia; field|]. rewrite !G by lia. field.
Qed.
Definition plane (s : setting) (a b c : R) : Prop := forall i j, in_domain s i j -> s_topo s i j = a * (IZR j * s_dx s) + b * (IZR i * s_dy s) + c.
Lemma reflected_domain n i : (0 < n)%Z -> (0 <= reflected n i < n)%Z.
Proof. intro P. unfold reflected. pose proof (Z.mod_pos_bound i (2 * n) ltac:(lia)). destruct (Z.ltb_spec (i mod (2 * n)) n); lia. Qed.
Theorem C104_plane s a b c i j : (3 <= s_h s)%Z -> (3 <= s_w s)%Z -> s_dx s <> 0 -> s_dy s <> 0 -> plane s a b c -> in_domain s i j -> gradx s i j = a /\ grady s i j = b /\ uplift s i j = a * s_u s i j + b * s_v s i j.
Proof.
  intros Nh Nw Dx Dy P [Bi Bj]. assert (X : gradx s i j = a).
  { unfold gradx. apply (slope_line (s_w s) (s_dx s) _ a (b * ((IZR (reflected (s_h s) (i - 1)) + IZR i + IZR (reflected (s_h s) (i + 1))) / 3 * s_dy s) + c)); try assumption. intros k Bk. unfold smooth_y. pose proof (reflected_domain (s_h s) (i - 1) ltac:(lia)). pose proof (reflected_domain (s_h s) (i + 1) ltac:(lia)). rewrite !P by (split; assumption). field. }
  assert (Y : grady s i j = b).
  { unfold grady. apply (slope_line (s_h s) (s_dy s) _ b (a * ((IZR (reflected (s_w s) (j - 1)) + IZR j + IZR (reflected (s_w s) (j + 1))) / 3 * s_dx s) + c)); try assumption. intros k Bk. unfold smooth_x. pose proof (reflected_domain (s_w s) (j - 1) ltac:(lia)). pose proof (reflected_domain (s_w s) (j + 1) ltac:(lia)). rewrite !P by (split; assumption). field. }
  split; [exact X|]. split; [exact Y|]. unfold uplift. now rewrite X, Y.
Qed.

(** Over ground that curves in one direction only, the gradient is exact at every point, and at the edges too, where it is extrapolated. *)
Theorem C104_curved s a b c i j : (3 <= s_h s)%Z -> (3 <= s_w s)%Z -> s_dx s <> 0 -> s_dy s <> 0 -> in_domain s i j ->
  ((forall y x, in_domain s y x -> s_topo s y x = a * (IZR x * s_dx s) * (IZR x * s_dx s) + b * (IZR x * s_dx s) + c) -> gradx s i j = 2 * a * (IZR j * s_dx s) + b) /\
  ((forall y x, in_domain s y x -> s_topo s y x = a * (IZR y * s_dy s) * (IZR y * s_dy s) + b * (IZR y * s_dy s) + c) -> grady s i j = 2 * a * (IZR i * s_dy s) + b).
Proof.
  intros Nh Nw Dx Dy [Bi Bj]. assert (Sl : forall n d f, (3 <= n)%Z -> d <> 0 -> (forall k, (0 <= k < n)%Z -> f k = a * (IZR k * d) * (IZR k * d) + b * (IZR k * d) + c) -> forall m, (0 <= m < n)%Z -> slope n d f m = 2 * a * (IZR m * d) + b).
  { intros n d f N D F m Bm. assert (G : forall k, (0 <= k < n - 1)%Z -> (f (k + 1)%Z - f k) / d = a * (2 * IZR k + 1) * d + b). { intros k Bk. rewrite !F by lia. rewrite plus_IZR. field. exact D. }
    unfold slope. cbv zeta. destruct (Z.eqb_spec m 0) as [->|]; [rewrite !G by lia; field|]. destruct (Z.eqb_spec m (n - 1)) as [->|]; [rewrite !G by lia; rewrite !minus_IZR; field|]. rewrite !G by lia. rewrite minus_IZR. field. }
  split; intro P.
  - unfold gradx. apply Sl; try assumption. intros k Bk. unfold smooth_y. pose proof (reflected_domain (s_h s) (i - 1) ltac:(lia)). pose proof (reflected_domain (s_h s) (i + 1) ltac:(lia)). rewrite !P by (split; assumption). field.
  - unfold grady. apply Sl; try assumption. intros k Bk. unfold smooth_x. pose proof (reflected_domain (s_w s) (j - 1) ltac:(lia)). pose proof (reflected_domain (s_w s) (j + 1) ltac:(lia)). rewrite !P by (split; assumption). field.
Qed.

(** ** Point values *)
Theorem C104_point_formula svp s i j : let l := square (s_h s) (s_w s) i j in
  (20 <= rsum (map (fun p => s_topo s (fst p) (snd p)) l) / INR (length l) -> 8 / 10 <= s_rh s i j -> 5 / 10000 <= Rabs (uplift s i j) ->
   point_value svp s i j = Rmax 0 (3600 / (4616 / 10) * (s_rh s i j * svp (s_temp s i j) (s_press s i j) * uplift s i j / s_temp s i j))) /\
  (rsum (map (fun p => s_topo s (fst p) (snd p)) l) / INR (length l) < 20 \/ s_rh s i j < 8 / 10 \/ Rabs (uplift s i j) < 5 / 10000 -> point_value svp s i j = 0).
Proof.
  cbv zeta. unfold point_value, masked, mean_height. cbv zeta. set (m := rsum _ / _). clearbody m. split.
  - intros A B C. destruct (below_spec m 20); [lra|]. destruct (below_spec (s_rh s i j) (8 / 10)); [lra|]. destruct (below_spec (Rabs (uplift s i j)) (5 / 10000)); [lra|]. cbn [orb]. set (e := 3600 / _ * _). clearbody e. destruct (below_spec 0 e); [rewrite Rmax_right by lra|rewrite Rmax_left by lra]; reflexivity.
  - intro H. assert (E : (below m 20 || below (s_rh s i j) (8 / 10) || below (Rabs (uplift s i j)) (5 / 10000))%bool = true). { destruct (below_spec m 20), (below_spec (s_rh s i j) (8 / 10)), (below_spec (Rabs (uplift s i j)) (5 / 10000)); try reflexivity. lra. } rewrite E. destruct (below_spec 0 0); reflexivity.
Qed.
Theorem C104_point_not_negative svp s i j : 0 <= point_value svp s i j.
Proof. unfold point_value. cbv zeta. match goal with |- context [below 0 ?x] => destruct (below_spec 0 x) end; lra. Qed.
(** Air that does not rise gives nothing. *)
Theorem C104_descending svp s i j : 0 <= s_rh s i j -> 0 <= svp (s_temp s i j) (s_press s i j) -> 0 < s_temp s i j -> uplift s i j <= 0 -> point_value svp s i j = 0.
Proof.
  intros Rh Sv T Up. unfold point_value. cbv zeta. destruct (masked s i j); [destruct (below_spec 0 0); reflexivity|]. match goal with |- context [below 0 ?x] => destruct (below_spec 0 x) as [L|L]; [exfalso|reflexivity] end.
  assert (N : s_rh s i j * svp (s_temp s i j) (s_press s i j) * uplift s i j <= 0). { assert (0 <= s_rh s i j * svp (s_temp s i j) (s_press s i j)) by now apply Rmult_le_pos. nra. }
  assert (D : s_rh s i j * svp (s_temp s i j) (s_press s i j) * uplift s i j / s_temp s i j <= 0). { unfold Rdiv. pose proof (Rinv_0_lt_compat _ T). nra. } lra.
Qed.
(** With the opposite winds at least one of the two fields has nothing at a point. *)
Definition opposite (s : setting) : setting := {| s_h := s_h s; s_w := s_w s; s_dx := s_dx s; s_dy := s_dy s; s_topo := s_topo s; s_temp := s_temp s; s_rh := s_rh s; s_press := s_press s; s_u := fun i j => - s_u s i j; s_v := fun i j => - s_v s i j |}.
Theorem C104_opposite svp s i j : 0 <= s_rh s i j -> 0 <= svp (s_temp s i j) (s_press s i j) -> 0 < s_temp s i j -> point_value svp s i j = 0 \/ point_value svp (opposite s) i j = 0.
Proof.
  intros Rh Sv T. destruct (Rle_lt_dec (uplift s i j) 0) as [L|L]; [left; now apply C104_descending|right]. apply C104_descending; try assumption. unfold uplift in *. cbn [s_u s_v opposite]. change (gradx (opposite s) i j) with (gradx s i j). change (grady (opposite s) i j) with (grady s i j). lra.
Qed.

(** ** Source points *)
Lemma floor_spec x : IZR (Int_part x) <= x < IZR (Int_part x) + 1.
Proof. destruct (base_Int_part x). lra. Qed.
Lemma round_bounds x a b : IZR a <= x <= IZR b -> (a <= round_even x <= b)%Z.
Proof.
  intros [A B]. unfold round_even. cbv zeta. pose proof (floor_spec (x + 1 / 2)) as [F1 F2]. set (n := Int_part (x + 1 / 2)) in *. clearbody n. assert (Lb : (n <= b)%Z) by (assert (IZR n < IZR b + 1) by lra; rewrite <- plus_IZR in H; apply lt_IZR in H; lia). assert (La : (a <= n)%Z) by (assert (IZR a < IZR n + 1) by lra; rewrite <- plus_IZR in H; apply lt_IZR in H; lia).
  destruct (Req_EM_T (IZR n) (x + 1 / 2)) as [E|E]; [|lia]. destruct (Z.odd n); [|lia]. assert (L : (a < n)%Z) by (apply lt_IZR; lra). lia.
Qed.
Lemma clipped_in n x : (0 < n)%Z -> (0 <= clipped n x < n)%Z.
Proof. intro P. unfold clipped. destruct (Z.ltb_spec x 0); [lia|]. destruct (Z.ltb_spec (n - 1) x); lia. Qed.
Lemma clipped_between n x a b : (0 <= a <= n - 1)%Z -> (0 <= n - 1)%Z -> (0 <= b)%Z -> (a - b <= x <= a + b)%Z -> (a - b <= clipped n x <= a + b)%Z.
Proof. intros A N B X. unfold clipped. destruct (Z.ltb_spec x 0); [lia|]. destruct (Z.ltb_spec (n - 1) x); lia. Qed.
Lemma speed_nonneg u v : 0 <= speed u v.
Proof. apply sqrt_pos. Qed.
Lemma speed_square u v : speed u v * speed u v = u * u + v * v.
Proof. apply sqrt_sqrt. nra. Qed.
Definition windy (u v : R) : Prop := 1 / 100000000 < sqrt (u * u + v * v).
Lemma windy_calm u v : windy u v -> calm (speed u v) = false /\ 0 < speed u v.
Proof. unfold windy, calm, speed. intro W. destruct (Rle_dec (sqrt (u * u + v * v)) (1 / 100000000)); [lra|]. split; [reflexivity|lra]. Qed.
Lemma directions u v : windy u v -> sin_dir u v * sin_dir u v + cos_dir u v * cos_dir u v = 1 /\ sin_dir u v = u / speed u v /\ cos_dir u v = v / speed u v.
Proof. intro W. destruct (windy_calm u v W) as [C P]. unfold sin_dir, cos_dir. rewrite C. split; [|split; reflexivity]. pose proof (speed_square u v) as Q. replace (u / speed u v * (u / speed u v) + v / speed u v * (v / speed u v)) with ((u * u + v * v) / (speed u v * speed u v)) by (field; lra). rewrite Q. field. rewrite <- Q. nra. Qed.
Lemma max_spec u v : windy u v -> Rabs (sin_dir u v) <= max_sin_cos u v /\ Rabs (cos_dir u v) <= max_sin_cos u v /\ 7 / 10 < max_sin_cos u v <= 1.
Proof.
  intro W. destruct (directions u v W) as [D _]. unfold max_sin_cos. set (a := sin_dir u v) in *. set (b := cos_dir u v) in *. clearbody a b. assert (A2 : Rabs a * Rabs a = a * a) by (rewrite <- Rabs_mult; apply Rabs_right; nra). assert (B2 : Rabs b * Rabs b = b * b) by (rewrite <- Rabs_mult; apply Rabs_right; nra). pose proof (Rabs_pos a). pose proof (Rabs_pos b).
  destruct (below_spec (Rabs b) (Rabs a)); repeat split; try lra; nra.
Qed.
Lemma offset k d m : 0 < m -> Rabs d <= m -> - INR k <= INR k / m * d <= INR k.
Proof.
  intros P L. pose proof (pos_INR k) as K. assert (D : - m <= d <= m) by (unfold Rabs in L; destruct (Rcase_abs d); lra). assert (E : INR k / m * d = INR k * (d / m)) by (field; lra). rewrite E. assert (Q : -1 <= d / m <= 1). { split; apply (Rmult_le_reg_r m); try assumption; unfold Rdiv; rewrite Rmult_assoc, Rinv_l by lra; lra. } split; nra.
Qed.
Lemma dominant k d m : 0 < m -> Rabs d = m -> Rabs (INR k / m * d) = INR k.
Proof. intros P E. rewrite Rabs_mult, E, Rabs_right. - field. lra. - apply Rle_ge. apply Rmult_le_pos; [apply pos_INR|left; now apply Rinv_0_lt_compat]. Qed.
(** Every source point is in the domain, and within as many rows and columns as its number. *)
Theorem C104_sources h w u v i j k : (0 <= i < h)%Z -> (0 <= j < w)%Z -> windy u v -> let p := source h w u v i j k in
  (0 <= fst p < h)%Z /\ (0 <= snd p < w)%Z /\ (Z.abs (fst p - i) <= Z.of_nat k)%Z /\ (Z.abs (snd p - j) <= Z.of_nat k)%Z.
Proof.
  intros Bi Bj W. cbv zeta. destruct (max_spec u v W) as (S1 & C1 & M1 & _). unfold source. cbn [fst snd]. split; [apply clipped_in; lia|]. split; [apply clipped_in; lia|].
  assert (Q : forall a n d, (0 <= a < n)%Z -> Rabs d <= max_sin_cos u v -> (Z.abs (clipped n (round_even (IZR a - distance u v k * d)) - a) <= Z.of_nat k)%Z).
  { intros a n d Ba L. pose proof (offset k d (max_sin_cos u v) ltac:(lra) L) as O. assert (R : (a - Z.of_nat k <= round_even (IZR a - distance u v k * d) <= a + Z.of_nat k)%Z). { apply round_bounds. rewrite minus_IZR, plus_IZR, <- INR_IZR_INZ. unfold distance. lra. } pose proof (clipped_between n _ a (Z.of_nat k) ltac:(lia) ltac:(lia) ltac:(lia) R). lia. }
  split; apply Q; assumption.
Qed.
(** They lie upwind: a wind from the west takes none from the east, and so on. *)
Theorem C104_upwind h w u v i j k : (0 <= i < h)%Z -> (0 <= j < w)%Z -> windy u v -> let p := source h w u v i j k in
  (0 <= u -> (snd p <= j)%Z) /\ (u <= 0 -> (j <= snd p)%Z) /\ (0 <= v -> (fst p <= i)%Z) /\ (v <= 0 -> (i <= fst p)%Z).
Proof.
  intros Bi Bj W. cbv zeta. destruct (max_spec u v W) as (S1 & C1 & M1 & _). destruct (directions u v W) as (_ & Es & Ec). destruct (windy_calm u v W) as [_ Ps]. unfold source. cbn [fst snd].
  assert (D : 0 <= distance u v k) by (unfold distance; apply Rmult_le_pos; [apply pos_INR|left; apply Rinv_0_lt_compat; lra]).
  assert (Q : forall x, 0 <= x -> 0 <= x / speed u v) by (intros x X; apply Rmult_le_pos; [exact X|left; now apply Rinv_0_lt_compat]).
  assert (Up : forall a n d, (0 <= a < n)%Z -> 0 <= d -> (clipped n (round_even (IZR a - distance u v k * d)) <= a)%Z). { intros a n d Ba Pd. pose proof (Rmult_le_pos _ _ D Pd) as O. pose proof (floor_spec (IZR a - distance u v k * d)) as [F1 _]. pose proof (round_bounds (IZR a - distance u v k * d) (Int_part (IZR a - distance u v k * d)) a ltac:(lra)) as R. unfold clipped. destruct (Z.ltb_spec (round_even (IZR a - distance u v k * d)) 0); [lia|]. destruct (Z.ltb_spec (n - 1) (round_even (IZR a - distance u v k * d))); lia. }
  assert (Dn : forall a n d, (0 <= a < n)%Z -> d <= 0 -> (a <= clipped n (round_even (IZR a - distance u v k * d)))%Z). { intros a n d Ba Pd. assert (O : distance u v k * d <= 0) by nra. pose proof (floor_spec (IZR a - distance u v k * d)) as [_ F2]. rewrite <- plus_IZR in F2. pose proof (round_bounds (IZR a - distance u v k * d) a (Int_part (IZR a - distance u v k * d) + 1) ltac:(lra)) as R. unfold clipped. destruct (Z.ltb_spec (round_even (IZR a - distance u v k * d)) 0); [lia|]. destruct (Z.ltb_spec (n - 1) (round_even (IZR a - distance u v k * d))); lia. }
  split; [|split; [|split]]; intro Sg.
  - apply Up; [exact Bj|]. rewrite Es. now apply Q.
  - apply Dn; [exact Bj|]. rewrite Es. pose proof (Q (- u) ltac:(lra)). unfold Rdiv in *. lra.
  - apply Up; [exact Bi|]. rewrite Ec. now apply Q.
  - apply Dn; [exact Bi|]. rewrite Ec. pose proof (Q (- v) ltac:(lra)). unfold Rdiv in *. lra.
Qed.
(** The sources are less than 15 km away. *)
Theorem C104_range km u v k : 0 < km -> windy u v -> (k < reach km u v)%nat -> distance u v k * km < 15.
Proof.
  intros Pk W L. destruct (max_spec u v W) as (_ & _ & M1 & M2). unfold reach in L. pose proof (floor_spec (15 / km * max_sin_cos u v)) as [F _]. set (n := Int_part (15 / km * max_sin_cos u v)) in *. assert (Ln : (Z.of_nat k < n)%Z) by lia. apply IZR_lt in Ln. rewrite <- INR_IZR_INZ in Ln. unfold distance. assert (X : INR k < 15 / km * max_sin_cos u v) by lra. assert (Y : INR k / max_sin_cos u v < 15 / km). { apply (Rmult_lt_reg_r (max_sin_cos u v)); [lra|]. unfold Rdiv at 1. rewrite Rmult_assoc, Rinv_l by lra. lra. } apply (Rmult_lt_compat_r km) in Y; [|exact Pk]. replace (15 / km * km) with 15 in Y by (field; lra). exact Y.
Qed.
Lemma reach_pos km u v : 0 < km <= 10 -> windy u v -> (0 < reach km u v)%nat.
Proof.
  intros [Pk Lk] W. destruct (max_spec u v W) as (_ & _ & M1 & M2). assert (X : 1 <= 15 / km * max_sin_cos u v). { assert (Y : 15 / 10 <= 15 / km) by (unfold Rdiv; apply Rmult_le_compat_l; [lra|]; apply Rinv_le_contravar; lra). nra. }
  unfold reach. pose proof (floor_spec (15 / km * max_sin_cos u v)) as [_ F]. set (n := Int_part _) in *. assert (0 < IZR n) by lra. apply lt_IZR in H. lia.
Qed.

(** ** Weights *)
Lemma weight_form km u v k : 0 < km -> windy u v -> source_weight km u v k = exp (- (1 / 2) * (distance u v k * distance u v k) / ((sqrt (u * u + v * v) * 102 / (1000 * km)) * (sqrt (u * u + v * v) * 102 / (1000 * km)))).
Proof.
  intros P W. destruct (windy_calm u v W) as [_ Ps]. unfold source_weight. cbv zeta. change (sqrt (u * u + v * v)) with (speed u v). set (sd := speed u v * 102 / (1000 * km)).
  assert (Sd : 0 < sd) by (unfold sd; apply Rmult_lt_0_compat; [lra|apply Rinv_0_lt_compat; lra]). destruct (below_spec 0 (sd * sd)) as [L|L]; [reflexivity|exfalso; apply L; now apply Rmult_lt_0_compat].
Qed.
Lemma weight_pos km u v k : 0 < km -> windy u v -> 0 < source_weight km u v k.
Proof. intros P W. rewrite weight_form by assumption. apply exp_pos. Qed.
(** The point itself has the greatest weight, one, and the weight falls with the distance. *)
Theorem C104_weights km u v : 0 < km -> windy u v -> source_weight km u v 0 = 1 /\ forall k, 0 < source_weight km u v (Datatypes.S k) < source_weight km u v k.
Proof.
  intros P W. split.
  - rewrite weight_form by assumption. unfold distance. cbn [INR]. replace (- (1 / 2) * (0 / max_sin_cos u v * (0 / max_sin_cos u v)) / _) with 0 by (unfold Rdiv; ring). apply exp_0.
  - intro k. split; [now apply weight_pos|]. rewrite !weight_form by assumption. destruct (windy_calm u v W) as [_ Ps]. change (sqrt (u * u + v * v)) with (speed u v). set (sd := speed u v * 102 / (1000 * km)). assert (Sd : 0 < sd) by (unfold sd; apply Rmult_lt_0_compat; [lra|apply Rinv_0_lt_compat; lra]). apply exp_increasing. destruct (max_spec u v W) as (_ & _ & M1 & _). assert (D : 0 <= distance u v k < distance u v (Datatypes.S k)).
    { unfold distance. rewrite S_INR. split; [apply Rmult_le_pos; [apply pos_INR|left; apply Rinv_0_lt_compat; lra]|]. unfold Rdiv. apply Rmult_lt_compat_r; [apply Rinv_0_lt_compat; lra|lra]. }
    unfold Rdiv. apply Rmult_lt_compat_r; [apply Rinv_0_lt_compat; now apply Rmult_lt_0_compat|]. nra.
Qed.
Lemma rsum_pos {A} (f : A -> R) l : (forall a, In a l -> 0 < f a) -> l <> [] -> 0 < rsum (map f l).
Proof.
  intros F N. destruct l as [|a l]; [contradiction|]. cbn [map rsum]. assert (0 <= rsum (map f l)). { clear N. assert (G : forall a, In a l -> 0 < f a) by (intros; apply F; now right). clear F. induction l as [|b l IH]; [cbn; lra|]. cbn [map rsum]. pose proof (G b (or_introl eq_refl)). pose proof (IH ltac:(intros; apply G; now right)). lra. } pose proof (F a (or_introl eq_refl)). lra.
Qed.
Lemma rsum_le {A} (f g : A -> R) l : (forall a, In a l -> f a <= g a) -> rsum (map f l) <= rsum (map g l).
Proof. induction l as [|a l IH]; intro H; [cbn; lra|]. cbn [map rsum]. pose proof (H a (or_introl eq_refl)). pose proof (IH ltac:(intros; apply H; now right)). lra. Qed.
Lemma upstream_form h w km u v g i j : 0 < km <= 10 -> windy u v -> let ks := seq 0 (reach km u v) in 0 < rsum (map (source_weight km u v) ks) /\
  upstream h w km u v g i j = Some (23265 / 100000 * (rsum (map (fun k => g (fst (source h w u v i j k)) (snd (source h w u v i j k)) * source_weight km u v k) ks) / rsum (map (source_weight km u v) ks))).
Proof.
  intros K W. cbv zeta. assert (T : 0 < rsum (map (source_weight km u v) (seq 0 (reach km u v)))). { apply rsum_pos; [intros k _; apply weight_pos; [lra|exact W]|]. pose proof (reach_pos km u v K W). destruct (reach km u v); [lia|discriminate]. }
  split; [exact T|]. unfold upstream. cbv zeta. rewrite (proj1 (windy_calm u v W)). destruct (Req_EM_T _ 0) as [E|E]; [lra|reflexivity].
Qed.
(** ** The result *)
(** A mean of the source values, scaled: it lies between the smallest and the greatest of them. *)
Theorem C104_between h w km u v g i j lo hi : 0 < km <= 10 -> windy u v -> (forall k, (k < reach km u v)%nat -> let p := source h w u v i j k in lo <= g (fst p) (snd p) <= hi) ->
  exists r, upstream h w km u v g i j = Some r /\ 23265 / 100000 * lo <= r <= 23265 / 100000 * hi.
Proof.
  intros K W H. destruct (upstream_form h w km u v g i j K W) as [T E]. cbv zeta in T, E. eexists. split; [exact E|]. set (t := rsum (map (source_weight km u v) _)) in *. set (m := rsum (map (fun k => g (fst (source h w u v i j k)) (snd (source h w u v i j k)) * source_weight km u v k) _)) in *.
  assert (Lo : lo * t <= m). { unfold t, m. rewrite <- rsum_scale. apply rsum_le. intros k Ik. apply in_seq in Ik. pose proof (H k ltac:(lia)) as Hk. cbv zeta in Hk. apply Rmult_le_compat_r; [left; apply weight_pos; [lra|exact W]|lra]. }
  assert (Hi : m <= hi * t). { unfold t, m. rewrite <- rsum_scale. apply rsum_le. intros k Ik. apply in_seq in Ik. pose proof (H k ltac:(lia)) as Hk. cbv zeta in Hk. apply Rmult_le_compat_r; [left; apply weight_pos; [lra|exact W]|lra]. }
  clearbody t m. assert (Q : lo <= m / t <= hi). { split; apply (Rmult_le_reg_r t); try exact T; unfold Rdiv; rewrite Rmult_assoc, Rinv_l, Rmult_1_r by lra; assumption. } lra.
Qed.
(** Over a uniform field it is the value times the efficiency. *)
Theorem C104_uniform h w km u v g i j c : 0 < km <= 10 -> windy u v -> (forall y x, g y x = c) -> upstream h w km u v g i j = Some (23265 / 100000 * c).
Proof. intros K W U. destruct (C104_between h w km u v g i j c c K W) as (r & E & B); [intros k _; cbv zeta; rewrite U; lra|]. rewrite E. f_equal. lra. Qed.
(** More at every point gives no less. *)
Theorem C104_monotone h w km u v g g' i j : 0 < km <= 10 -> windy u v -> (forall y x, g y x <= g' y x) -> exists r r', upstream h w km u v g i j = Some r /\ upstream h w km u v g' i j = Some r' /\ r <= r'.
Proof.
  intros K W L. destruct (upstream_form h w km u v g i j K W) as [T E]. destruct (upstream_form h w km u v g' i j K W) as [_ E']. cbv zeta in *. eexists. eexists. split; [exact E|]. split; [exact E'|]. apply Rmult_le_compat_l; [lra|]. unfold Rdiv. apply Rmult_le_compat_r; [left; now apply Rinv_0_lt_compat|]. apply rsum_le. intros k _. pose proof (weight_pos km u v k ltac:(lra) W). pose proof (L (fst (source h w u v i j k)) (snd (source h w u v i j k))). nra.
Qed.
(** Only points of the domain upwind and less than 15 km off in either direction matter. *)
Theorem C104_local h w km u v g g' i j : (0 <= i < h)%Z -> (0 <= j < w)%Z -> 0 < km -> windy u v ->
  (forall y x, (0 <= y < h)%Z -> (0 <= x < w)%Z -> Rabs (IZR (y - i)) * km < 15 -> Rabs (IZR (x - j)) * km < 15 -> (0 <= u -> (x <= j)%Z) -> (u <= 0 -> (j <= x)%Z) -> (0 <= v -> (y <= i)%Z) -> (v <= 0 -> (i <= y)%Z) -> g y x = g' y x) ->
  upstream h w km u v g i j = upstream h w km u v g' i j.
Proof.
  intros Bi Bj P W H. assert (S : rsum (map (fun k => g (fst (source h w u v i j k)) (snd (source h w u v i j k)) * source_weight km u v k) (seq 0 (reach km u v))) = rsum (map (fun k => g' (fst (source h w u v i j k)) (snd (source h w u v i j k)) * source_weight km u v k) (seq 0 (reach km u v)))).
  { f_equal. apply map_ext_in. intros k Ik. apply in_seq in Ik. f_equal. destruct (C104_sources h w u v i j k Bi Bj W) as (A & B & C & D). destruct (C104_upwind h w u v i j k Bi Bj W) as (U1 & U2 & U3 & U4). pose proof (C104_range km u v k P W ltac:(lia)) as Rg.
    assert (G : forall a, (Z.abs a <= Z.of_nat k)%Z -> Rabs (IZR a) * km < 15). { intros a La. apply Rle_lt_trans with (distance u v k * km); [|exact Rg]. apply Rmult_le_compat_r; [lra|]. rewrite <- abs_IZR. apply IZR_le in La. rewrite <- INR_IZR_INZ in La. apply Rle_trans with (INR k); [exact La|]. destruct (max_spec u v W) as (_ & _ & M1 & M2). unfold distance. apply (Rmult_le_reg_r (max_sin_cos u v)); [lra|]. unfold Rdiv. rewrite Rmult_assoc, Rinv_l, Rmult_1_r by lra. pose proof (pos_INR k). nra. }
    apply H; try assumption; now apply G. }
  unfold upstream. cbv zeta. now rewrite S.
Qed.
(** Without wind there is none. *)
Theorem C104_calm h w km u v g i j : sqrt (u * u + v * v) <= 1 / 100000000 -> upstream h w km u v g i j = Some 0.
Proof.
  intro C. assert (Cm : calm (speed u v) = true). { unfold calm, speed. destruct (Rle_dec _ _); [reflexivity|contradiction]. } unfold upstream. cbv zeta. rewrite Cm. assert (E : reach km u v = 0%nat).
  { unfold reach, max_sin_cos, sin_dir, cos_dir. rewrite Cm, Rabs_R0. destruct (below_spec 0 0); [lra|]. rewrite Rmult_0_r. pose proof (floor_spec 0) as [F1 F2]. apply (le_IZR _ 0) in F1. lia. } now rewrite E.
Qed.
(** The whole field: never negative, at most the efficiency times the largest point value (in m/s), nothing where no point upwind rises. *)
Theorem C104_enhancement svp s i j m : 0 < s_dx s <= 10000 -> (forall y x, point_value svp s y x <= m) -> exists r, enhancement svp s i j = Some r /\ 0 <= r <= 23265 / 100000 * m / 3600000.
Proof.
  intros K M. assert (Pm : 0 <= m) by (pose proof (C104_point_not_negative svp s i j); pose proof (M i j); lra). unfold enhancement. destruct (Rle_lt_dec (sqrt (s_u s i j * s_u s i j + s_v s i j * s_v s i j)) (1 / 100000000)) as [C|W].
  - rewrite C104_calm by exact C. exists (0 / 3600000). split; [reflexivity|]. lra.
  - destruct (C104_between (s_h s) (s_w s) (s_dx s / 1000) (s_u s i j) (s_v s i j) (point_value svp s) i j 0 m ltac:(lra) W) as (r & E & B). { intros k _. cbv zeta. split; [apply C104_point_not_negative|apply M]. } rewrite E. exists (r / 3600000). split; [reflexivity|]. lra.
Qed.
Theorem C104_nothing svp s i j : in_domain s i j -> 0 < s_dx s <= 10000 -> (forall y x, in_domain s y x -> point_value svp s y x = 0) -> enhancement svp s i j = Some 0.
Proof.
  intros [Bi Bj] K N. unfold enhancement. destruct (Rle_lt_dec (sqrt (s_u s i j * s_u s i j + s_v s i j * s_v s i j)) (1 / 100000000)) as [C|W].
  - rewrite C104_calm by exact C. cbn [option_map]. f_equal. lra.
  - destruct (C104_between (s_h s) (s_w s) (s_dx s / 1000) (s_u s i j) (s_v s i j) (point_value svp s) i j 0 0 ltac:(lra) W) as (r & E & B). { intros k _. cbv zeta. destruct (C104_sources (s_h s) (s_w s) (s_u s i j) (s_v s i j) i j k Bi Bj W) as (A1 & A2 & _). rewrite N by (split; assumption). lra. } rewrite E. cbn [option_map]. f_equal. lra.
Qed.
(** On a grid of more than 15 km spacing, every point with wind has no source, not even itself, and its result is not a number. *)
Theorem C104_coarse_refuted h w km u v g i j : 15 < km -> windy u v -> upstream h w km u v g i j = None.
Proof.
  intros K W. assert (E : reach km u v = 0%nat). { destruct (max_spec u v W) as (_ & _ & M1 & M2). unfold reach. pose proof (floor_spec (15 / km * max_sin_cos u v)) as [F1 F2]. assert (X : 15 / km < 1). { apply (Rmult_lt_reg_r km); [lra|]. unfold Rdiv. rewrite Rmult_assoc, Rinv_l by lra. lra. } assert (Y : 0 < 15 / km) by (apply Rmult_lt_0_compat; [lra|apply Rinv_0_lt_compat; lra]). assert (B : 15 / km * max_sin_cos u v < 1) by nra. assert (L : IZR (Int_part (15 / km * max_sin_cos u v)) < 1) by lra. apply (lt_IZR _ 1) in L. lia. }
  unfold upstream. cbv zeta. rewrite (proj1 (windy_calm u v W)), E. cbn [seq map rsum]. destruct (Req_EM_T 0 0) as [_|N]; [reflexivity|now elim N].
Qed.
(** The whole computation where it can be done by hand: a uniform slope of at least 20 m height, and the same wind, temperature, pressure and humidity everywhere. *)
Lemma mean_at_least s i j b : in_domain s i j -> (forall y x, in_domain s y x -> b <= s_topo s y x) -> b <= mean_height s i j.
Proof.
  intros [Bi Bj] H. unfold mean_height. cbv zeta. set (l := square (s_h s) (s_w s) i j). assert (I : forall p, In p l -> in_domain s (fst p) (snd p)). { intros p Ip. unfold l, square in Ip. apply filter_In in Ip as [_ F]. unfold inside in F. rewrite !andb_true_iff, !Z.leb_le, !Z.ltb_lt in F. split; lia. }
  assert (N : l <> []). { assert (In (i, j) l). { unfold l, square. apply filter_In. split; [apply in_prod; right; left; reflexivity|]. unfold inside. rewrite !andb_true_iff, !Z.leb_le, !Z.ltb_lt. cbn [fst snd]. lia. } intro E. rewrite E in H0. exact H0. }
  apply (average_ge _ (fun p => s_topo s (fst p) (snd p)) b l N). intros p Ip. apply H. now apply I.
Qed.
Theorem C104_slope svp s a b c u v t p q i j : (3 <= s_h s)%Z -> (3 <= s_w s)%Z -> 0 < s_dx s <= 10000 -> s_dy s <> 0 -> plane s a b c ->
  (forall y x, in_domain s y x -> 20 <= s_topo s y x /\ s_u s y x = u /\ s_v s y x = v /\ s_temp s y x = t /\ s_press s y x = p /\ s_rh s y x = q) ->
  windy u v -> 8 / 10 <= q -> 5 / 10000 <= Rabs (a * u + b * v) -> in_domain s i j ->
  enhancement svp s i j = Some (23265 / 100000 * Rmax 0 (3600 / (4616 / 10) * (q * svp t p * (a * u + b * v) / t)) / 3600000).
Proof.
  intros Nh Nw K Dy P U W Q Up D. assert (V : forall y x, in_domain s y x -> point_value svp s y x = Rmax 0 (3600 / (4616 / 10) * (q * svp t p * (a * u + b * v) / t))).
  { intros y x Dyx. destruct (U y x Dyx) as (_ & Eu & Ev & Et & Ep & Eq). destruct (C104_plane s a b c y x Nh Nw ltac:(lra) Dy P Dyx) as (_ & _ & El). rewrite Eu, Ev in El. destruct (C104_point_formula svp s y x) as [F _]. cbv zeta in F. rewrite El, Et, Ep, Eq in F. apply F; try assumption. apply (mean_at_least s y x 20 Dyx). intros y' x' D'. apply (U y' x' D'). }
  destruct (U i j D) as (_ & Eu & Ev & _). unfold enhancement. rewrite Eu, Ev. set (m := Rmax _ _) in *. destruct D as [Bi Bj]. destruct (C104_between (s_h s) (s_w s) (s_dx s / 1000) u v (point_value svp s) i j m m ltac:(lra) W) as (r & E & B). { intros k _. cbv zeta. destruct (C104_sources (s_h s) (s_w s) u v i j k Bi Bj W) as (A1 & A2 & _). rewrite V by (split; assumption). lra. }
  rewrite E. cbn [option_map]. f_equal. lra.
Qed.
(** The hypotheses met: a slope of 1 in 100 to the east, a westerly of 10 m/s, 283 K, 90%. *)
Definition hill : setting := {| s_h := 4; s_w := 5; s_dx := 2000; s_dy := 2000; s_topo := fun _ j => 1 / 100 * (IZR j * 2000) + 0 * 0 + 50; s_temp := fun _ _ => 283; s_rh := fun _ _ => 9 / 10; s_press := fun _ _ => 90000; s_u := fun _ _ => 10; s_v := fun _ _ => 0 |}.
Example C104_case : windy 10 0 /\ enhancement (fun _ _ => 1200) hill 2 3 = Some (23265 / 100000 * (3600 / (4616 / 10) * (9 / 10 * 1200 * (1 / 10) / 283)) / 3600000) /\ enhancement (fun _ _ => 1200) (opposite hill) 2 3 = Some 0.
Proof.
  assert (Wd : windy 10 0). { unfold windy. replace (10 * 10 + 0 * 0) with (10 * 10) by ring. rewrite sqrt_square; lra. } split; [exact Wd|].
  assert (Wo : windy (-10) (-0)). { unfold windy. replace (-10 * -10 + -0 * -0) with (10 * 10) by ring. rewrite sqrt_square; lra. }
  assert (Dm : in_domain hill 2 3) by (split; cbn; lia). assert (Hp : plane hill (1 / 100) 0 50). { intros y x _. cbn [s_topo s_dx s_dy hill]. lra. }
  assert (Ht : forall y x, in_domain hill y x -> 20 <= s_topo hill y x). { intros y x [_ Bx]. cbn in Bx. assert (0 <= IZR x) by (apply (IZR_le 0); lia). cbn [s_topo hill]. lra. } split.
  - rewrite (C104_slope (fun _ _ => 1200) hill (1 / 100) 0 50 10 0 283 90000 (9 / 10)); try assumption; cbn [s_h s_w s_dx s_dy hill]; try lia; try lra.
    + f_equal. rewrite Rmax_right; [|lra]. do 2 f_equal. lra.
    + intros y x Dyx. split; [now apply Ht|]. repeat (split; [reflexivity|]). reflexivity.
    + replace (1 / 100 * 10 + 0 * 0) with (1 / 10) by lra. rewrite Rabs_right; lra.
  - rewrite (C104_slope (fun _ _ => 1200) (opposite hill) (1 / 100) 0 50 (-10) (-0) 283 90000 (9 / 10)); try assumption; cbn [s_h s_w s_dx s_dy hill opposite]; try lia; try lra.
    + f_equal. rewrite Rmax_left; [|lra]. lra.
    + intros y x Dyx. split; [now apply Ht|]. repeat (split; [reflexivity|]). reflexivity.
    + replace (1 / 100 * -10 + 0 * -0) with (- (1 / 10)) by lra. rewrite Rabs_Ropp, Rabs_right; lra.
Qed.

Print Assumptions C104_plane.
Print Assumptions C104_curved.
Print Assumptions C104_point_formula.
Print Assumptions C104_point_not_negative.
Print Assumptions C104_descending.
Print Assumptions C104_opposite.
Print Assumptions C104_sources.
Print Assumptions C104_upwind.
Print Assumptions C104_range.
Print Assumptions C104_weights.
Print Assumptions C104_between.
Print Assumptions C104_uniform.
Print Assumptions C104_monotone.
Print Assumptions C104_local.
Print Assumptions C104_calm.
Print Assumptions C104_enhancement.
Print Assumptions C104_nothing.
Print Assumptions C104_coarse_refuted.
Print Assumptions C104_slope.
