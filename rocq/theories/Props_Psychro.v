(** C106: saturation vapour pressure, humidity and adiabats. *)
From Coq Require Import Reals Bool ZArith Lia.
From Verif Require Import Base Model_Psychro.
From Coq Require Import Lra.
Local Open Scope R_scope.

Lemma ln10 : 2 < ln 10.
Proof. rewrite <- (ln_exp 2). apply ln_increasing; [apply exp_pos|]. replace 2 with (1 + 1) by ring. rewrite exp_plus. pose proof exp_le_3. pose proof (exp_pos 1). nra. Qed.
Lemma pow10_increasing x y : x < y -> pow10 x < pow10 y.
Proof. intro L. apply exp_increasing. pose proof ln10. nra. Qed.
Lemma pow10_mono x y : x <= y -> pow10 x <= pow10 y.
Proof. intros [L| ->]; [left; now apply pow10_increasing|right; reflexivity]. Qed.
Lemma pow10_pos x : 0 < pow10 x.
Proof. apply exp_pos. Qed.
Lemma ln_below x : 0 < x -> ln x <= x - 1.
Proof. intro P. pose proof (exp_ineq1_le (ln x)) as H. rewrite exp_ln in H by exact P. lra. Qed.
Lemma log10_diff x y : 0 < x -> x < y -> 0 < log10 y - log10 x /\ log10 y - log10 x <= (y - x) / x / 2.
Proof.
  intros P L. unfold log10. pose proof ln10 as T. assert (D : 0 < ln y - ln x <= (y - x) / x). { split; [pose proof (ln_increasing x y P L); lra|]. assert (Ld : ln y - ln x = ln (y / x)) by (unfold Rdiv; rewrite ln_mult, ln_Rinv by (try apply Rinv_0_lt_compat; lra); ring). rewrite Ld. replace ((y - x) / x) with (y / x - 1) by (field; lra). apply ln_below. apply Rmult_lt_0_compat; [lra|now apply Rinv_0_lt_compat]. }
  replace (ln y / ln 10 - ln x / ln 10) with ((ln y - ln x) / ln 10) by (field; lra). split; [apply Rmult_lt_0_compat; [lra|apply Rinv_0_lt_compat; lra]|]. apply Rle_trans with ((y - x) / x / ln 10).
  - unfold Rdiv at 1 3. apply Rmult_le_compat_r; [left; apply Rinv_0_lt_compat; lra|]. lra.
  - unfold Rdiv at 1 3. apply Rmult_le_compat_l; [lra|]. apply Rinv_le_contravar; lra.
Qed.
Lemma triple_pos : 0 < triple.
Proof. unfold triple. lra. Qed.
Lemma quotient x y a : 0 < x -> x < y -> 0 < a -> a / y < a / x /\ x / a < y / a.
Proof. intros P L A. split; unfold Rdiv; [apply Rmult_lt_compat_l; [exact A|]; apply Rinv_lt_contravar; [nra|exact L]|apply Rmult_lt_compat_r; [now apply Rinv_0_lt_compat|exact L]]. Qed.
(** ** The formula grows with the temperature, across the triple point too *)
Lemma water_increasing s t : 0 < s -> s < t -> t <= 1000 -> log_water s < log_water t.
Proof.
  intros P L B. pose proof triple_pos as Pt. unfold log_water. destruct (quotient s t triple P L Pt) as [Q1 Q2]. set (a := s / triple) in *. set (b := t / triple) in *. assert (Pa : 0 < a) by (unfold a; apply Rmult_lt_0_compat; [exact P|now apply Rinv_0_lt_compat]).
  destruct (log10_diff a b Pa Q2) as [_ D]. assert (M1 : pow10 (- (82969 / 10000) * (b - 1)) <= pow10 (- (82969 / 10000) * (a - 1))) by (apply pow10_mono; lra). assert (M2 : pow10 (476955 / 100000 * (1 - triple / s)) <= pow10 (476955 / 100000 * (1 - triple / t))) by (apply pow10_mono; lra).
  assert (Bb : b <= 4). { unfold b, triple. apply (Rmult_le_reg_r (27316 / 100)); [lra|]. unfold Rdiv at 1. rewrite Rmult_assoc, Rinv_l by lra. lra. }
  assert (E1 : triple / s - triple / t = (b - a) / (a * b)). { unfold a, b. field. repeat split; lra. } assert (Key : 5028 / 1000 * ((b - a) / a / 2) < 1079574 / 100000 * (triple / s - triple / t)).
  { rewrite E1. replace (5028 / 1000 * ((b - a) / a / 2)) with ((b - a) / (a * b) * (2514 / 1000 * b)) by (field; split; lra). rewrite (Rmult_comm (1079574 / 100000)). apply Rmult_lt_compat_l; [|lra]. apply Rmult_lt_0_compat; [lra|apply Rinv_0_lt_compat; nra]. }
  lra.
Qed.
Lemma ice_increasing s t : 0 < s -> s < t -> t <= triple -> log_ice s < log_ice t.
Proof.
  intros P L B. pose proof triple_pos as Pt. unfold log_ice. destruct (quotient s t triple P L Pt) as [Q1 Q2]. set (a := triple / t) in *. set (b := triple / s) in *. assert (Pa : 1 <= a). { unfold a. apply (Rmult_le_reg_r t); [lra|]. unfold Rdiv. rewrite Rmult_assoc, Rinv_l by lra. lra. }
  destruct (log10_diff a b ltac:(lra) Q1) as [D _]. assert (E : t / triple - s / triple = (b - a) / (a * b)). { unfold a, b. field. repeat split; lra. } assert (K : (b - a) / (a * b) <= b - a). { unfold Rdiv. rewrite <- (Rmult_1_r (b - a)) at 2. apply Rmult_le_compat_l; [lra|]. rewrite <- Rinv_1. apply Rinv_le_contravar; [lra|nra]. }
  lra.
Qed.
Lemma at_triple : log_water triple = 78614 / 100000 /\ log_ice triple = 78614 / 100000.
Proof.
  pose proof triple_pos. unfold log_water, log_ice, log10. replace (triple / triple) with 1 by (field; lra). rewrite ln_1. replace (1 - 1) with 0 by ring. rewrite !Rmult_0_r. unfold pow10. rewrite Rmult_0_l, exp_0. split; unfold Rdiv; ring.
Qed.
Theorem C106_vapour_pressure s t : 0 < s -> s < t -> t <= 1000 -> 0 < goff_gratch s < goff_gratch t.
Proof.
  intros P L B. split; [apply pow10_pos|]. unfold goff_gratch. apply pow10_increasing. destruct at_triple as [W I]. destruct (Rlt_dec triple s) as [A|A], (Rlt_dec triple t) as [A'|A']; try lra.
  - now apply water_increasing.
  - assert (log_ice s <= log_ice triple). { destruct (Req_dec s triple) as [->|N]; [lra|]. left. apply ice_increasing; lra. } pose proof (water_increasing triple t triple_pos A' B). lra.
  - apply ice_increasing; lra.
Qed.
(** At the triple point the two formulas agree: 10^0.78614 hPa. *)
Theorem C106_triple_point : goff_gratch triple = pow10 (78614 / 100000) /\ pow10 (log_water triple) = goff_gratch triple.
Proof. destruct at_triple as [W I]. unfold goff_gratch. destruct (Rlt_dec triple triple); [lra|]. now rewrite W, I. Qed.

(** ** The table *)
Lemma floor_of x : IZR (Int_part x) <= x < IZR (Int_part x) + 1.
Proof. destruct (base_Int_part x). lra. Qed.
Lemma floor_unique x k : IZR k <= x < IZR k + 1 -> Int_part x = k.
Proof. intros [A B]. destruct (floor_of x) as [C D]. assert (IZR (Int_part x) < IZR (k + 1)) by (rewrite plus_IZR; lra). assert (IZR k < IZR (Int_part x + 1)) by (rewrite plus_IZR; lra). apply lt_IZR in H. apply lt_IZR in H0. lia. Qed.
Lemma floor_mono x y : x <= y -> (Int_part x <= Int_part y)%Z.
Proof. intro L. destruct (floor_of x), (floor_of y). assert (IZR (Int_part x) < IZR (Int_part y + 1)) by (rewrite plus_IZR; lra). apply lt_IZR in H3. lia. Qed.
Lemma clip_between lo hi x : lo <= hi -> lo <= clip lo hi x <= hi.
Proof. intro L. unfold clip. split; [apply Rmin_glb; [exact L|apply Rmax_l]|apply Rmin_l]. Qed.
Lemma clip_inside lo hi x : lo <= x <= hi -> clip lo hi x = x.
Proof. intros [A B]. unfold clip. rewrite Rmax_right by exact A. now apply Rmin_right. Qed.
Lemma position_range t : 0 <= position t <= 1550.
Proof. pose proof (clip_between t_min (t_max - t_inc) t ltac:(unfold t_min, t_max, t_inc; lra)) as C. unfold position. unfold t_min, t_max, t_inc in *. lra. Qed.
(** Whatever the temperature, both entries used are in the table (0 ... 1551). *)
Theorem C106_in_table t : (0 <= index t)%Z /\ (index t + 1 <= 1551)%Z.
Proof.
  destruct (position_range t) as [A B]. unfold index. destruct (floor_of (position t)) as [C D]. assert (X : IZR (-1) < IZR (Int_part (position t))) by lra. apply lt_IZR in X. assert (Y : IZR (Int_part (position t)) <= 1550) by lra. apply (le_IZR _ 1550) in Y. lia.
Qed.
Lemma entry_increasing i j : (0 <= i)%Z -> (i < j)%Z -> (j <= 1551)%Z -> 0 < entry i < entry j.
Proof.
  intros A B C. apply (IZR_le 0) in A. apply IZR_lt in B. apply (IZR_le _ 1551) in C. unfold entry. destruct (C106_vapour_pressure (t_min + IZR i * t_inc) (t_min + IZR j * t_inc)); unfold t_min, t_inc in *; try lra.
Qed.
Lemma entry_mono i j : (0 <= i)%Z -> (i <= j)%Z -> (j <= 1551)%Z -> entry i <= entry j.
Proof. intros A B C. destruct (Z.eq_dec i j) as [->|N]; [lra|]. destruct (entry_increasing i j); lra || lia. Qed.
(** The value looked up lies between the vapour pressures at the ends of the tenth of a degree the temperature is in, and is exact at the ends. *)
Theorem C106_lookup_between t : t_min <= t <= t_max - t_inc -> exists k : Z, (0 <= k <= 1550)%Z /\ 18315 / 100 + IZR k / 10 <= t < 18315 / 100 + (IZR k + 1) / 10 /\
  100 * goff_gratch (18315 / 100 + IZR k / 10) <= lookup t < 100 * goff_gratch (18315 / 100 + (IZR k + 1) / 10) /\ (t = 18315 / 100 + IZR k / 10 -> lookup t = 100 * goff_gratch t).
Proof.
  intro B. exists (index t). destruct (C106_in_table t) as [I1 I2]. split; [lia|]. unfold lookup. cbv zeta. assert (Ep : position t = (t - t_min) / t_inc) by (unfold position; now rewrite clip_inside). assert (E0 : entry (index t) = 100 * goff_gratch (18315 / 100 + IZR (index t) / 10)) by (unfold entry, t_min, t_inc; do 2 f_equal; lra). assert (E1 : entry (index t + 1) = 100 * goff_gratch (18315 / 100 + (IZR (index t) + 1) / 10)) by (unfold entry, t_min, t_inc; rewrite plus_IZR; do 2 f_equal; lra). rewrite <- E0, <- E1. pose proof (entry_increasing (index t) (index t + 1) ltac:(lia) ltac:(lia) ltac:(lia)) as M. pose proof (floor_of (position t)) as F. fold (index t) in F. set (f := position t - IZR (index t)) in *. assert (Bf : 0 <= f < 1) by (unfold f; lra). rewrite Ep in F. unfold t_min, t_inc in F. split; [lra|]. split; [nra|].
  intro Et. assert (Zf : f = 0). { unfold f. rewrite Ep. unfold t_min, t_inc. lra. } rewrite Zf. replace ((1 - 0) * entry (index t) + 0 * entry (index t + 1)) with (entry (index t)) by ring. rewrite E0. now rewrite <- Et.
Qed.
Lemma lookup_position t u : t_min <= t -> t < u -> u <= t_max - t_inc -> lookup t < lookup u.
Proof.
  intros A L B. destruct (C106_in_table t) as [I1 I2], (C106_in_table u) as [J1 J2]. assert (Pt : position t = (t - t_min) / t_inc) by (unfold position; rewrite clip_inside; lra). assert (Pu : position u = (u - t_min) / t_inc) by (unfold position; rewrite clip_inside; lra). assert (Lp : position t < position u) by (rewrite Pt, Pu; unfold t_inc; lra). pose proof (floor_mono _ _ (Rlt_le _ _ Lp)) as Fm. fold (index t) (index u) in Fm.
  pose proof (floor_of (position t)) as F. fold (index t) in F. pose proof (floor_of (position u)) as G. fold (index u) in G. pose proof (entry_increasing (index t) (index t + 1) ltac:(lia) ltac:(lia) ltac:(lia)) as Mi. pose proof (entry_increasing (index u) (index u + 1) ltac:(lia) ltac:(lia) ltac:(lia)) as Mj. unfold lookup. cbv zeta. destruct (Z.eq_dec (index t) (index u)) as [E|N].
  - rewrite <- E in *. nra.
  - pose proof (entry_mono (index t + 1) (index u) ltac:(lia) ltac:(lia) ltac:(lia)). nra.
Qed.
Theorem C106_lookup_increasing t u : (t_min <= t -> t < u -> u <= t_max - t_inc -> 0 < lookup t < lookup u) /\ (t <= u -> 0 < lookup t <= lookup u) /\
  (t <= t_min -> lookup t = lookup t_min) /\ (t_max - t_inc <= t -> lookup t = lookup (t_max - t_inc)).
Proof.
  assert (R : t_min < t_max - t_inc) by (unfold t_min, t_max, t_inc; lra).
  assert (P : forall t, 0 < lookup t). { intro x. destruct (C106_in_table x) as [I1 I2]. pose proof (entry_increasing (index x) (index x + 1) ltac:(lia) ltac:(lia) ltac:(lia)). pose proof (floor_of (position x)) as F. fold (index x) in F. unfold lookup. cbv zeta. nra. }
  assert (K : forall x, lookup x = lookup (clip t_min (t_max - t_inc) x)). { intro x. assert (E : position (clip t_min (t_max - t_inc) x) = position x). { unfold position. rewrite (clip_inside _ _ (clip _ _ x)); [reflexivity|]. apply clip_between. lra. } unfold lookup, index. cbv zeta. now rewrite E. }
  split; [intros A L B; split; [apply P|now apply lookup_position]|]. split; [|split].
  - intro L. split; [apply P|]. rewrite (K t), (K u). assert (C : clip t_min (t_max - t_inc) t <= clip t_min (t_max - t_inc) u). { unfold clip. apply Rle_min_compat_l. now apply Rle_max_compat_l. } destruct C as [C|C]; [left; apply lookup_position; [apply clip_between; lra|exact C|apply clip_between; lra]|rewrite C; lra].
  - intro L. rewrite K. unfold clip. rewrite Rmax_left by exact L. now rewrite Rmin_right by lra.
  - intro L. rewrite K. unfold clip. rewrite Rmax_right by lra. now rewrite Rmin_left by exact L.
Qed.
(** The last tenth of a degree of the table is not used: the documentation says that up to 338.25 K the table is interpolated. *)
Theorem C106_table_end_refuted : ~ (forall k, (0 <= k <= 1551)%Z -> lookup (18315 / 100 + IZR k / 10) = 100 * goff_gratch (18315 / 100 + IZR k / 10)).
Proof.
  intro H. pose proof (H 1550%Z ltac:(lia)) as A. pose proof (H 1551%Z ltac:(lia)) as B. destruct (C106_lookup_increasing (18315 / 100 + IZR 1551 / 10) 0) as (_ & _ & _ & E). rewrite E in B by (unfold t_max, t_inc; lra). replace (t_max - t_inc) with (18315 / 100 + IZR 1550 / 10) in B by (unfold t_max, t_inc; lra). rewrite A in B. destruct (C106_vapour_pressure (18315 / 100 + IZR 1550 / 10) (18315 / 100 + IZR 1551 / 10)); lra.
Qed.

(** ** Humidity *)
Lemma svp_positive t p : 0 <= p -> 0 < svp_in_air t p.
Proof. intro P. unfold svp_in_air. cbv zeta. destruct (C106_lookup_increasing t t) as (_ & L & _). apply Rmult_lt_0_compat; [apply L; lra|]. set (c := t - 27315 / 100). assert (0 <= c * c) by nra. assert (0 <= p * (45 / 10 + 6 / 10000 * c * c)) by (apply Rmult_le_pos; lra). lra. Qed.
(** More than nothing, at most one, and one exactly where the vapour pressure reaches the pressure. *)
Theorem C106_humidity_range t p : 0 < p -> 0 < saturated_humidity t p <= 1 /\ (saturated_humidity t p = 1 <-> p <= svp_in_air t p).
Proof.
  intro P. pose proof (svp_positive t p (Rlt_le _ _ P)) as S. unfold saturated_humidity. cbv zeta. set (s := svp_in_air t p) in *. clearbody s. unfold repsilon. destruct (Rle_lt_dec p s) as [L|L].
  - rewrite Rmax_left by exact L. replace (62198 / 100000 * s / (s - (1 - 62198 / 100000) * s)) with 1 by (field; lra). split; [lra|]. split; intro; [exact L|reflexivity].
  - rewrite Rmax_right by lra. set (d := p - (1 - 62198 / 100000) * s). assert (D : 62198 / 100000 * s < d) by (unfold d; lra). assert (Q : 62198 / 100000 * s / d < 1). { apply (Rmult_lt_reg_r d); [lra|]. unfold Rdiv at 1. rewrite Rmult_assoc, Rinv_l by lra. lra. } assert (Q0 : 0 < 62198 / 100000 * s / d) by (apply Rmult_lt_0_compat; [lra|apply Rinv_0_lt_compat; lra]). split; [lra|]. split; intro; lra.
Qed.
Definition ratio (x : R) : R := 62198 / 100000 * x / (Rmax x 1 - (1 - 62198 / 100000) * x).
Lemma ratio_mono x y : 0 < x -> x <= y -> ratio x <= ratio y.
Proof.
  intros P L. unfold ratio. assert (A : forall z, 1 <= z -> 62198 / 100000 * z / (Rmax z 1 - (1 - 62198 / 100000) * z) = 1). { intros z Z. rewrite Rmax_left by exact Z. field. lra. }
  destruct (Rle_lt_dec 1 y) as [Y|Y]; [rewrite (A y Y)|].
  - destruct (Rle_lt_dec 1 x) as [X|X]; [rewrite (A x X); lra|]. rewrite Rmax_right by lra. apply (Rmult_le_reg_r (1 - (1 - 62198 / 100000) * x)); [lra|]. unfold Rdiv at 1. rewrite Rmult_assoc, Rinv_l by lra. lra.
  - rewrite !Rmax_right by lra. apply (Rmult_le_reg_r ((1 - (1 - 62198 / 100000) * x) * (1 - (1 - 62198 / 100000) * y))); [apply Rmult_lt_0_compat; lra|].
    replace (62198 / 100000 * x / (1 - (1 - 62198 / 100000) * x) * ((1 - (1 - 62198 / 100000) * x) * (1 - (1 - 62198 / 100000) * y))) with (62198 / 100000 * x * (1 - (1 - 62198 / 100000) * y)) by (field; lra). replace (62198 / 100000 * y / (1 - (1 - 62198 / 100000) * y) * ((1 - (1 - 62198 / 100000) * x) * (1 - (1 - 62198 / 100000) * y))) with (62198 / 100000 * y * (1 - (1 - 62198 / 100000) * x)) by (field; lra). nra.
Qed.
Lemma humidity_ratio t p : 0 < p -> saturated_humidity t p = ratio (svp_in_air t p / p).
Proof.
  intro P. pose proof (svp_positive t p (Rlt_le _ _ P)) as S. unfold saturated_humidity, ratio. cbv zeta. set (s := svp_in_air t p) in *. clearbody s. unfold repsilon. replace (Rmax (s / p) 1) with (Rmax s p / p). { field. pose proof (Rmax_l s p). split; try lra; apply Rgt_not_eq; nra. }
  destruct (Rle_lt_dec p s) as [L|L]. - rewrite Rmax_left by exact L. rewrite Rmax_left; [reflexivity|]. apply (Rmult_le_reg_r p); [exact P|]. unfold Rdiv. rewrite Rmult_assoc, Rinv_l by lra. lra.
  - rewrite (Rmax_right s p) by lra. rewrite Rmax_right; [field; lra|]. left. apply (Rmult_lt_reg_r p); [exact P|]. unfold Rdiv. rewrite Rmult_assoc, Rinv_l by lra. lra.
Qed.
(** Thinner air holds no less; above freezing, warmer air holds no less. *)
Theorem C106_humidity_pressure t p p' : 0 < p -> p <= p' -> saturated_humidity t p' <= saturated_humidity t p.
Proof.
  intros P L. rewrite !humidity_ratio by lra. apply ratio_mono. { apply Rmult_lt_0_compat; [apply svp_positive; lra|apply Rinv_0_lt_compat; lra]. }
  unfold svp_in_air. cbv zeta. destruct (C106_lookup_increasing t t) as (_ & Lk & _). pose proof (proj1 (Lk ltac:(lra))) as S. set (s := lookup t) in *. set (k := 45 / 10 + 6 / 10000 * (t - 27315 / 100) * (t - 27315 / 100)).
  replace (s * (1 + 1 / 100000000 * p' * k) / p') with (s * / p' + s * (1 / 100000000 * k)) by (field; lra). replace (s * (1 + 1 / 100000000 * p * k) / p) with (s * / p + s * (1 / 100000000 * k)) by (field; lra). apply Rplus_le_compat_r. apply Rmult_le_compat_l; [lra|]. apply Rinv_le_contravar; assumption.
Qed.
Theorem C106_humidity_warm t u p : 0 < p -> 27315 / 100 <= t -> t <= u -> saturated_humidity t p <= saturated_humidity u p.
Proof.
  intros P A L. rewrite !humidity_ratio by lra. apply ratio_mono. { apply Rmult_lt_0_compat; [apply svp_positive; lra|apply Rinv_0_lt_compat; lra]. } unfold Rdiv. apply Rmult_le_compat_r; [left; now apply Rinv_0_lt_compat|]. unfold svp_in_air. cbv zeta. destruct (C106_lookup_increasing t u) as (_ & Lk & _). destruct (Lk L) as [S1 S2].
  set (a := t - 27315 / 100). set (b := u - 27315 / 100). assert (Sq : a * a <= b * b) by (unfold a, b; nra). apply Rmult_le_compat; try lra.
  - assert (0 <= p * (45 / 10 + 6 / 10000 * a * a)) by (apply Rmult_le_pos; nra). lra.
  - assert (p * (45 / 10 + 6 / 10000 * a * a) <= p * (45 / 10 + 6 / 10000 * b * b)) by (apply Rmult_le_compat_l; lra). lra.
Qed.
(** Below the table (183.15 K) the correction goes on growing while the vapour pressure does not fall: colder air then holds more. *)
Theorem C106_cold_refuted : ~ (forall t u p, 0 < t -> t <= u -> 0 < p -> svp_in_air t p <= svp_in_air u p).
Proof.
  intro H. specialize (H 100 t_min 100000 ltac:(lra) ltac:(unfold t_min; lra) ltac:(lra)). unfold svp_in_air in H. cbv zeta in H. destruct (C106_lookup_increasing 100 0) as (_ & _ & E & _). rewrite E in H by (unfold t_min; lra). destruct (C106_lookup_increasing t_min t_min) as (_ & S & _). specialize (S ltac:(lra)). set (s := lookup t_min) in *. clearbody s. unfold t_min in H. nra.
Qed.
Theorem C106_mixing_ratio t p rh : 0 < p -> 0 <= rh <= 1 -> 0 <= humidity_mixing_ratio t p rh <= saturated_humidity t p /\ (rh = 1 -> humidity_mixing_ratio t p rh = saturated_humidity t p) /\ (rh = 0 -> humidity_mixing_ratio t p rh = 0).
Proof. intros P B. destruct (C106_humidity_range t p P) as [[S1 S2] _]. unfold humidity_mixing_ratio. split; [split; nra|]. split; intros ->; ring. Qed.

(** ** Adiabats *)
Lemma div_pos a b : 0 < a -> 0 < b -> 0 < a / b.
Proof. intros A B. apply Rmult_lt_0_compat; [exact A|now apply Rinv_0_lt_compat]. Qed.
(** Going from one pressure to a second and on to a third is going from the first to the third; and back is where one was. *)
Theorem C106_path t p p' p'' : 0 < t -> 0 < p -> 0 < p' -> 0 < p'' -> dry_adiabatic_temperature (dry_adiabatic_temperature t p p') p' p'' = dry_adiabatic_temperature t p p'' /\ dry_adiabatic_temperature t p p = t /\ 0 < dry_adiabatic_temperature t p p'.
Proof.
  intros T A B C. unfold dry_adiabatic_temperature. pose proof (div_pos p' p B A). pose proof (div_pos p'' p' C B). split; [|split].
  - rewrite Rmult_assoc, Rpower_mult_distr by assumption. replace (p' / p * (p'' / p')) with (p'' / p) by (field; lra). reflexivity.
  - replace (p / p) with 1 by (field; lra). unfold Rpower. rewrite ln_1, Rmult_0_r, exp_0. ring.
  - apply Rmult_lt_0_compat; [exact T|apply exp_pos].
Qed.
Theorem C106_inverse t p p' : 0 < t -> 0 < p -> 0 < p' -> dry_adiabatic_pressure t p (dry_adiabatic_temperature t p p') = p'.
Proof.
  intros T A B. unfold dry_adiabatic_pressure, dry_adiabatic_temperature. pose proof (div_pos p' p B A) as Q. replace (t * Rpower (p' / p) (287 / 1005) / t) with (Rpower (p' / p) (287 / 1005)) by (field; lra). rewrite Rpower_mult. replace (287 / 1005 * (1005 / 287)) with 1 by field. rewrite Rpower_1 by exact Q. field. lra.
Qed.
Theorem C106_inverse' t p t' : 0 < t -> 0 < p -> 0 < t' -> dry_adiabatic_temperature t p (dry_adiabatic_pressure t p t') = t'.
Proof.
  intros T A B. unfold dry_adiabatic_pressure, dry_adiabatic_temperature. pose proof (div_pos t' t B T) as Q. replace (p * Rpower (t' / t) (1005 / 287) / p) with (Rpower (t' / t) (1005 / 287)) by (field; lra). rewrite Rpower_mult. replace (1005 / 287 * (287 / 1005)) with 1 by field. rewrite Rpower_1 by exact Q. field. lra.
Qed.
(** Rising air cools. *)
Theorem C106_rising t p p' : 0 < t -> 0 < p' -> p' < p -> dry_adiabatic_temperature t p p' < t.
Proof.
  intros T A L. unfold dry_adiabatic_temperature. assert (Q : p' / p < 1). { apply (Rmult_lt_reg_r p); [lra|]. unfold Rdiv. rewrite Rmult_assoc, Rinv_l by lra. lra. } pose proof (div_pos p' p A ltac:(lra)) as Q0. assert (E : Rpower (p' / p) (287 / 1005) < 1). { unfold Rpower. pose proof (ln_increasing _ _ Q0 Q) as Ln. rewrite ln_1 in Ln. pose proof (exp_increasing (287 / 1005 * ln (p' / p)) 0 ltac:(lra)) as X. rewrite exp_0 in X. exact X. } pose proof (exp_pos (287 / 1005 * ln (p' / p))). nra.
Qed.
(** ** Latent heat *)
(** Whatever the solver returns: the temperature does not fall, the humidity does not rise, and the warming is exactly the latent heat of the water lost. *)
Theorem C106_latent_heat found t q : t <= 1000 -> let r := adjust_for_latent_heat found t q in t <= fst r /\ snd r <= q /\ (fst r - t) * 1005 = (2501000 - 2340 * (t - 27315 / 100)) * (q - snd r) /\ (found <= q -> snd r = found).
Proof.
  intro T. cbv zeta. unfold adjust_for_latent_heat, latent_heat_release, latent_heat. cbv zeta. set (l := - (1) * 2340 * (t - 27315 / 100) + 2501000). assert (Pl : 0 < l) by (unfold l; lra). assert (El : 2501000 - 2340 * (t - 27315 / 100) = l) by (unfold l; ring). rewrite El. destruct (Rlt_dec (t + l / 1005 * (q - found)) t) as [L|L]; cbn [fst snd].
  - assert (N : l * (q - found) < 0) by lra. assert (X : q < found) by nra. repeat split; lra.
  - assert (N : 0 <= l * (q - found)) by lra. assert (X : found <= q) by (destruct (Rle_lt_dec found q); [assumption|nra]). repeat split; lra.
Qed.
(** The condensation level is on the dry adiabat of the surface, whatever pressure the solver returns; nothing says that it converged. *)
Theorem C106_condensation_partial found t p : 0 < t -> 0 < p -> 0 < found -> let r := condensation_level found t p in fst r = found /\ dry_adiabatic_pressure t p (snd r) = fst r /\ (found < p -> snd r < t).
Proof. intros T P F. cbn [condensation_level fst snd]. split; [reflexivity|]. split; [now apply C106_inverse|]. intro L. now apply C106_rising. Qed.
(** The hypotheses met. *)
Example C106_case : t_min <= 28000 / 100 <= t_max - t_inc /\ dry_adiabatic_temperature 280 100000 100000 = 280 /\ fst (adjust_for_latent_heat (5 / 1000) 280 (10 / 1000)) = 280 + (2501000 - 2340 * (280 - 27315 / 100)) / 1005 * (5 / 1000) /\ adjust_for_latent_heat (15 / 1000) 280 (10 / 1000) = (280, 10 / 1000).
Proof.
  split; [unfold t_min, t_max, t_inc; lra|]. split; [apply (C106_path 280 100000 1 1); lra|]. unfold adjust_for_latent_heat, latent_heat_release, latent_heat. cbv zeta. split.
  - destruct (Rlt_dec _ _) as [L|L]; cbn [fst]; lra.
  - destruct (Rlt_dec _ _) as [L|L]; [reflexivity|elim L; lra].
Qed.

Print Assumptions C106_vapour_pressure.
Print Assumptions C106_triple_point.
Print Assumptions C106_in_table.
Print Assumptions C106_lookup_between.
Print Assumptions C106_lookup_increasing.
Print Assumptions C106_table_end_refuted.
Print Assumptions C106_humidity_range.
Print Assumptions C106_humidity_pressure.
Print Assumptions C106_humidity_warm.
Print Assumptions C106_cold_refuted.
Print Assumptions C106_mixing_ratio.
Print Assumptions C106_path.
Print Assumptions C106_inverse.
Print Assumptions C106_inverse.
Print Assumptions C106_rising.
Print Assumptions C106_latent_heat.
Print Assumptions C106_condensation_partial.
