(** C112: the position of the sun and the day-night mask. *)
From Coq Require Import Reals Bool ZArith List Lia.
From Verif Require Import Base Spec_Solar Model_Solar.
From Coq Require Import Lra.
Import ListNotations.
Local Open Scope R_scope.

Lemma pi_gt_3 : 3 < PI.
Proof. pose proof PI2_3_2. lra. Qed.

Lemma pi_ne : PI <> 0.
Proof. pose proof pi_gt_3. lra. Qed.

Lemma radians_rad : forall x, radians x = rad x.
Proof. intro x. unfold radians, rad. field. Qed.

Lemma degrees_radians : forall x, degrees (radians x) = x.
Proof. intro x. unfold degrees, radians. field. apply pi_ne. Qed.

Lemma radians_degrees : forall x, radians (degrees x) = x.
Proof. intro x. unfold degrees, radians. field. apply pi_ne. Qed.

Lemma radians_lt : forall x y, radians x < radians y <-> x < y.
Proof.
  intros x y. unfold radians. pose proof pi_gt_3. split; intro H0.
  - apply Rmult_lt_reg_r with (PI / 180); lra.
  - assert (x * (PI / 180) < y * (PI / 180)) by (apply Rmult_lt_compat_r; lra).
    lra.
Qed.

Lemma radians_le : forall x y, radians x <= radians y <-> x <= y.
Proof.
  intros x y. split; intro H0.
  - destruct (Rle_lt_dec x y) as [?|Hl]; [assumption|].
    apply (proj2 (radians_lt _ _)) in Hl. lra.
  - destruct (Rle_lt_dec (radians x) (radians y)) as [?|Hl]; [assumption|].
    apply (proj1 (radians_lt _ _)) in Hl. lra.
Qed.

Lemma radians_90 : radians 90 = PI / 2.
Proof. unfold radians. field. Qed.

Lemma radians_opp : forall x, radians (- x) = - radians x.
Proof. intro x. unfold radians. field. Qed.

Lemma radians_0 : radians 0 = 0.
Proof. unfold radians. field. Qed.

Lemma radians_plus : forall x y, radians (x + y) = radians x + radians y.
Proof. intros. unfold radians. field. Qed.

Lemma lat_ok_iff : forall l, lat_ok l = true <-> -90 <= l <= 90.
Proof.
  intro l. unfold lat_ok.
  destruct (Rlt_dec l (-90)); [|destruct (Rlt_dec 90 l)]; cbn [negb];
    split; intro H0; try discriminate; try lra; reflexivity.
Qed.

Lemma hour_ok_iff : forall l, hour_ok l = true <-> 0 <= l <= 24.
Proof.
  intro l. unfold hour_ok.
  destruct (Rlt_dec l 0); [|destruct (Rlt_dec 24 l)]; cbn [negb];
    split; intro H0; try discriminate; try lra; reflexivity.
Qed.

Lemma day_ok_iff : forall d, day_ok d = true <-> (0 <= d <= 365)%Z.
Proof.
  intro d. unfold day_ok. rewrite andb_true_iff, !Z.leb_le. reflexivity.
Qed.

(** Sines of differences of two angles that are within a half turn. *)
Lemma sin_sign : forall x, - PI < x < PI ->
  (0 < sin x <-> 0 < x) /\ (0 <= sin x <-> 0 <= x).
Proof.
  intros x [H1 H2].
  assert (P : 0 < x -> 0 < sin x) by (intro; apply sin_gt_0; lra).
  assert (N : x < 0 -> sin x < 0).
  { intro H. assert (0 < sin (- x)) by (apply sin_gt_0; lra).
    rewrite sin_neg in H0. lra. }
  assert (E : x = 0 -> sin x = 0) by (intros ->; apply sin_0).
  destruct (Rtotal_order x 0) as [H|[H|H]].
  - specialize (N H). split; split; intro; lra.
  - specialize (E H). split; split; intro; lra.
  - specialize (P H). split; split; intro; lra.
Qed.

(** ** Declination *)

Theorem C112_declination_bound : forall d,
  - 23.5 <= declination d <= 23.5.
Proof.
  intro d. unfold declination.
  pose proof (COS_bound (radians (9856 / 10000 * IZR d + 93 / 10))). lra.
Qed.

(** The sun is never exactly over the equator at the start of a day, so that the
    terminator is never a division by zero. *)
Theorem C112_never_equinox : forall d, declination d <> 0.
Proof.
  intros d H. unfold declination in H.
  assert (C : cos (radians (9856 / 10000 * IZR d + 93 / 10)) = 0) by lra.
  apply cos_eq_0_0 in C. destruct C as [k Hk].
  unfold radians in Hk.
  assert (E : 9856 / 10000 * IZR d + 93 / 10 = 180 * IZR k + 90).
  { apply Rmult_eq_reg_r with (PI / 180).
    - replace ((180 * IZR k + 90) * (PI / 180)) with (IZR k * PI + PI / 2)
        by (field).
      rewrite <- Hk. field.
    - pose proof pi_gt_3. lra. }
  assert (F : IZR (1232 * d) = IZR (225000 * k + 100875)).
  { rewrite plus_IZR, !mult_IZR. lra. }
  apply eq_IZR in F. lia.
Qed.

Lemma decl_range : forall d,
  - (PI / 2) < radians (declination d) < PI / 2.
Proof.
  intro d. pose proof (C112_declination_bound d).
  rewrite <- radians_90, <- radians_opp, !radians_lt. lra.
Qed.

Lemma decl_cos : forall d, 0 < cos (radians (declination d)).
Proof. intro d. pose proof (decl_range d). apply cos_gt_0; lra. Qed.

(** ** Elevation *)

Theorem C112_elevation_is_height : forall lat lon d h,
  sin_elevation lat lon d h
  = sun_height lat lon (declination d) (sun_longitude (equation_of_time d) h).
Proof.
  intros lat lon d h. unfold sin_elevation, sun_height, dot, vector.
  rewrite !radians_rad.
  assert (E : rad (hour_angle lon d h)
              = rad lon - rad (sun_longitude (equation_of_time d) h)).
  { unfold rad, hour_angle, solar_time, sun_longitude. field. apply pi_ne. }
  rewrite E, cos_minus. ring.
Qed.

(** The dot product of unit vectors. *)
Lemma height_bound : forall a b h,
  -1 <= sin a * sin b + cos a * cos b * cos h <= 1.
Proof.
  intros a b h. pose proof (COS_bound h).
  pose proof (COS_bound (a - b)) as H1. pose proof (COS_bound (a + b)) as H2.
  rewrite cos_minus in H1. rewrite cos_plus in H2.
  destruct (Rle_lt_dec 0 (cos a * cos b)).
  - assert (- (cos a * cos b) <= cos a * cos b * cos h <= cos a * cos b) by nra.
    lra.
  - assert (cos a * cos b <= cos a * cos b * cos h <= - (cos a * cos b)) by nra.
    lra.
Qed.

Lemma elevation_rad : forall lat lon d h,
  radians (elevation lat lon d h) = asin (sin_elevation lat lon d h).
Proof. intros. unfold elevation. apply radians_degrees. Qed.

Theorem C112_elevation_range : forall lat lon d h,
  -90 <= elevation lat lon d h <= 90
  /\ sin (radians (elevation lat lon d h)) = sin_elevation lat lon d h.
Proof.
  intros lat lon d h. split.
  - pose proof (asin_bound (sin_elevation lat lon d h)) as A.
    rewrite <- elevation_rad in A. rewrite <- radians_90, <- radians_opp in A.
    rewrite !radians_le in A. exact A.
  - rewrite elevation_rad. apply sin_asin. apply height_bound.
Qed.

Theorem C112_elevation_positive : forall lat lon d h,
  0 < elevation lat lon d h <->
  0 < sun_height lat lon (declination d) (sun_longitude (equation_of_time d) h).
Proof.
  intros lat lon d h. rewrite <- C112_elevation_is_height.
  destruct (C112_elevation_range lat lon d h) as [[H1 H2] <-].
  rewrite <- (radians_lt 0), radians_0.
  apply (proj2 (radians_le _ _)) in H1. apply (proj2 (radians_le _ _)) in H2.
  change (-90) with (- (90)) in H1.
  rewrite radians_opp, radians_90 in H1. rewrite radians_90 in H2.
  pose proof pi_gt_3. symmetry. apply sin_sign. lra.
Qed.

(** The sun culminates at 90 degrees less the difference of latitude and
    declination, and goes down to the difference of their sum from 90 degrees. *)
Theorem C112_elevation_limits : forall lat lon d h,
  -90 <= lat <= 90 ->
  Rabs (lat + declination d) - 90 <= elevation lat lon d h
  <= 90 - Rabs (lat - declination d).
Proof.
  intros lat lon d h HL. pose proof (C112_declination_bound d) as HD.
  destruct (C112_elevation_range lat lon d h) as [[H1 H2] HS].
  pose proof (decl_cos d) as HC.
  pose proof (decl_range d) as HR.
  assert (HP : 0 <= cos (radians lat)).
  { apply cos_ge_0; [rewrite <- radians_90, <- radians_opp|rewrite <- radians_90];
      apply radians_le; lra. }
  assert (Q0 : 0 <= cos (radians (declination d)) * cos (radians lat)) by nra.
  pose proof (COS_bound (radians (hour_angle lon d h))) as HB.
  set (e := elevation lat lon d h) in *.
  assert (U : sin_elevation lat lon d h <= cos (radians lat - radians (declination d))).
  { rewrite cos_minus. unfold sin_elevation. nra. }
  assert (L : - cos (radians lat + radians (declination d)) <= sin_elevation lat lon d h).
  { rewrite cos_plus. unfold sin_elevation. nra. }
  assert (RA : forall x, cos (Rabs x) = cos x).
  { intro x. unfold Rabs. destruct (Rcase_abs x); [apply cos_neg|reflexivity]. }
  assert (RB : forall x, radians (Rabs x) = Rabs (radians x)).
  { intro x. unfold radians. pose proof pi_gt_3.
    replace (x * PI / 180) with (x * (PI / 180)) by field.
    rewrite Rabs_mult, (Rabs_right (PI / 180)) by lra. field. }
  assert (U' : sin (radians e) <= sin (radians (90 - Rabs (lat - declination d)))).
  { rewrite HS. replace (90 - Rabs (lat - declination d))
      with (90 + - Rabs (lat - declination d)) by ring.
    rewrite radians_plus, radians_opp, radians_90, RB.
    replace (PI / 2 + - Rabs (radians (lat - declination d)))
      with (PI / 2 - Rabs (radians (lat - declination d))) by ring.
    rewrite sin_shift, RA.
    replace (radians (lat - declination d))
      with (radians lat - radians (declination d)) by (unfold radians; field).
    exact U. }
  assert (L' : sin (radians (Rabs (lat + declination d) - 90)) <= sin (radians e)).
  { rewrite HS. replace (Rabs (lat + declination d) - 90)
      with (- (90 + - Rabs (lat + declination d))) by ring.
    rewrite radians_opp, sin_neg, radians_plus, radians_opp, radians_90, RB.
    replace (PI / 2 + - Rabs (radians (lat + declination d)))
      with (PI / 2 - Rabs (radians (lat + declination d))) by ring.
    rewrite sin_shift, RA, radians_plus. exact L. }
  assert (A1 : 0 <= Rabs (lat - declination d) <= 113.5).
  { split; [apply Rabs_pos|apply Rabs_le; lra]. }
  assert (A2 : 0 <= Rabs (lat + declination d) <= 113.5).
  { split; [apply Rabs_pos|apply Rabs_le; lra]. }
  assert (IN : forall x, -90 <= x <= 90 -> - (PI / 2) <= radians x <= PI / 2).
  { intros x Hx. rewrite <- radians_90, <- radians_opp, !radians_le. lra. }
  split; apply radians_le.
  - apply sin_incr_0; try apply IN; try lra; assumption.
  - apply sin_incr_0; try apply IN; try lra; assumption.
Qed.

(** At local solar noon the greatest elevation is reached, at midnight the
    least. *)
Theorem C112_noon_and_midnight : forall lat lon d h,
  -90 <= lat <= 90 ->
  (solar_time lon d h = 12 ->
   elevation lat lon d h = 90 - Rabs (lat - declination d)) /\
  (solar_time lon d h = 24 \/ solar_time lon d h = 0 ->
   elevation lat lon d h = Rabs (lat + declination d) - 90).
Proof.
  intros lat lon d h HL. pose proof (C112_declination_bound d) as HD.
  assert (A1 : 0 <= Rabs (lat - declination d) <= 113.5).
  { split; [apply Rabs_pos|apply Rabs_le; lra]. }
  assert (A2 : 0 <= Rabs (lat + declination d) <= 113.5).
  { split; [apply Rabs_pos|apply Rabs_le; lra]. }
  assert (IN : forall x, -90 <= x <= 90 -> - (PI / 2) <= radians x <= PI / 2).
  { intros x Hx. rewrite <- radians_90, <- radians_opp, !radians_le. lra. }
  assert (RA : forall x, cos (Rabs x) = cos x).
  { intro x. unfold Rabs. destruct (Rcase_abs x); [apply cos_neg|reflexivity]. }
  assert (RB : forall x, radians (Rabs x) = Rabs (radians x)).
  { intro x. unfold radians. pose proof pi_gt_3.
    replace (x * PI / 180) with (x * (PI / 180)) by field.
    rewrite Rabs_mult, (Rabs_right (PI / 180)) by lra. field. }
  assert (G : forall x, -90 <= x <= 90 -> sin (radians x) = sin_elevation lat lon d h ->
              elevation lat lon d h = x).
  { intros x Hx HS. unfold elevation. rewrite <- HS, asin_sin by (apply IN; exact Hx).
    apply degrees_radians. }
  split.
  - intro HT. apply G; [lra|].
    replace (90 - Rabs (lat - declination d))
      with (90 + - Rabs (lat - declination d)) by ring.
    rewrite radians_plus, radians_opp, radians_90, RB.
    replace (PI / 2 + - Rabs (radians (lat - declination d)))
      with (PI / 2 - Rabs (radians (lat - declination d))) by ring.
    rewrite sin_shift, RA.
    replace (radians (lat - declination d))
      with (radians lat - radians (declination d)) by (unfold radians; field).
    rewrite cos_minus. unfold sin_elevation, hour_angle. rewrite HT.
    replace ((12 - 12) * 15) with 0 by ring. rewrite radians_0, cos_0. ring.
  - intro HT. apply G; [lra|].
    replace (Rabs (lat + declination d) - 90)
      with (- (90 + - Rabs (lat + declination d))) by ring.
    rewrite radians_opp, sin_neg, radians_plus, radians_opp, radians_90, RB.
    replace (PI / 2 + - Rabs (radians (lat + declination d)))
      with (PI / 2 - Rabs (radians (lat + declination d))) by ring.
    rewrite sin_shift, RA, radians_plus, cos_plus. unfold sin_elevation, hour_angle.
    assert (HH : cos (radians ((solar_time lon d h - 12) * 15)) = -1).
    { destruct HT as [-> | ->].
      - replace (radians ((24 - 12) * 15)) with PI by (unfold radians; field).
        apply cos_PI.
      - replace (radians ((0 - 12) * 15)) with (- PI) by (unfold radians; field).
        rewrite cos_neg. apply cos_PI. }
    rewrite HH. ring.
Qed.

(** Going round the globe changes nothing. *)
Theorem C112_round_the_globe : forall lat lon d h (k : nat),
  sin_elevation lat (lon + 360 * INR k) d h = sin_elevation lat lon d h
  /\ elevation lat (lon + 360 * INR k) d h = elevation lat lon d h.
Proof.
  intros lat lon d h k.
  assert (E : sin_elevation lat (lon + 360 * INR k) d h = sin_elevation lat lon d h).
  { unfold sin_elevation. do 2 f_equal.
    replace (radians (hour_angle (lon + 360 * INR k) d h))
      with (radians (hour_angle lon d h) + 2 * INR k * PI).
    - apply cos_period.
    - unfold radians, hour_angle, solar_time. field. apply pi_ne. }
  split; [exact E|]. unfold elevation. rewrite E. reflexivity.
Qed.

(** ** Solar time *)

Lemma eqt_bound : forall d, Rabs (equation_of_time d) <= 0.09.
Proof.
  intro d. unfold equation_of_time. set (t := 2 * PI * IZR d / 365).
  pose proof (COS_bound t). pose proof (SIN_bound t).
  pose proof (COS_bound (2 * t)). pose proof (SIN_bound (2 * t)).
  apply Rabs_le. lra.
Qed.

Theorem C112_solar_time_near : forall lon d h,
  Rabs (solar_time lon d h - (h + lon / 15)) <= 0.36.
Proof.
  intros lon d h. pose proof (eqt_bound d) as E. pose proof pi_gt_3 as P.
  unfold solar_time.
  replace (h + 24 * lon / 360 + equation_of_time d * 12 / PI - (h + lon / 15))
    with (equation_of_time d * (12 / PI)) by (field; apply pi_ne).
  assert (Q0 : 0 < 12 / PI <= 4).
  { split; [apply Rdiv_lt_0_compat; lra|].
    apply Rmult_le_reg_r with PI; [lra|].
    replace (12 / PI * PI) with 12 by (field; apply pi_ne). lra. }
  rewrite Rabs_mult, (Rabs_right (12 / PI)) by lra.
  pose proof (Rabs_pos (equation_of_time d)). nra.
Qed.

Theorem C112_solar_time_normal : forall lon d h,
  calc_solar_time lon d h true = (if day_ok d && hour_ok h
    then Ok (mod24 (solar_time lon d h)) else Err ValueError)
  /\ 0 <= mod24 (solar_time lon d h) < 24
  /\ exists k : Z, mod24 (solar_time lon d h) = solar_time lon d h - 24 * IZR k.
Proof.
  intros lon d h. split; [|split].
  - unfold calc_solar_time. destruct (day_ok d), (hour_ok h); reflexivity.
  - unfold mod24. set (x := solar_time lon d h).
    destruct (base_Int_part (x / 24)) as [B1 B2]. lra.
  - exists (Int_part (solar_time lon d h / 24)). reflexivity.
Qed.

(** ** Errors *)

Theorem C112_errors : forall pts d h b,
  calc_solar_elevation pts d h b =
    (if forallb (fun p => lat_ok (fst p)) pts && day_ok d && hour_ok h
     then Ok (map (fun p => if b then sin_elevation (fst p) (snd p) d h
                            else elevation (fst p) (snd p) d h) pts)
     else Err ValueError).
Proof.
  intros pts d h b. unfold calc_solar_elevation.
  assert (E : existsb (fun p => negb (lat_ok (fst p))) pts
              = negb (forallb (fun p => lat_ok (fst p)) pts)).
  { induction pts as [|p q IH]; cbn; [reflexivity|].
    rewrite IH. destruct (lat_ok (fst p)); reflexivity. }
  rewrite E. destruct (forallb _ pts), (day_ok d), (hour_ok h); reflexivity.
Qed.

(** ** Terminator *)

Lemma terminator_height : forall lon d h,
  let T := radians (terminator lon d h) in
  - PI / 2 < T < PI / 2 /\
  forall lat, sin_elevation lat lon d h
    = sin (radians (declination d)) / cos T * sin (radians lat - T) .
Proof.
  intros lon d h T. unfold T, terminator. rewrite radians_degrees.
  set (c := cos (radians (hour_angle lon d h))).
  set (a := radians (declination d)).
  pose proof (atan_bound (- c / tan a)) as B.
  assert (NS : sin a <> 0).
  { intro E. pose proof (decl_range d) as HR. fold a in HR.
    pose proof pi_gt_3.
    assert (NA : a <> 0).
    { intro E0. apply (C112_never_equinox d). unfold a, radians in E0.
      assert (declination d * (PI / 180) = 0) by lra.
      apply Rmult_integral in H0. destruct H0; lra. }
    destruct (sin_sign a) as [S1 S2]; [lra|].
    destruct (sin_sign (- a)) as [S3 S4]; [lra|].
    rewrite sin_neg in S4. lra. }
  pose proof (decl_cos d) as CA. fold a in CA.
  split; [lra|]. intro lat. unfold sin_elevation. fold a c.
  set (T0 := atan (- c / tan a)) in *.
  assert (CT : 0 < cos T0) by (apply cos_gt_0; lra).
  assert (TT : sin T0 / cos T0 = - c / tan a) by (exact (tan_atan (- c / tan a))).
  rewrite sin_minus.
  replace (sin a / cos T0 * (sin (radians lat) * cos T0 - cos (radians lat) * sin T0))
    with (sin a * sin (radians lat) - sin a * cos (radians lat) * (sin T0 / cos T0))
    by (field; lra).
  rewrite TT. unfold tan. field. repeat split; try assumption; lra.
Qed.

Theorem C112_terminator_range : forall lon d h,
  -90 < terminator lon d h < 90.
Proof.
  intros lon d h. destruct (terminator_height lon d h) as [B _].
  rewrite <- (radians_lt (-90)), <- (radians_lt _ 90).
  change (-90) with (- (90)). rewrite radians_opp, radians_90. lra.
Qed.

(** On the terminator the sun is on the horizon, and nowhere else. *)
Theorem C112_terminator_horizon : forall lat lon d h,
  -90 <= lat <= 90 ->
  (lat = terminator lon d h <-> sun_height lat lon (declination d)
     (sun_longitude (equation_of_time d) h) = 0).
Proof.
  intros lat lon d h HL. rewrite <- C112_elevation_is_height.
  destruct (terminator_height lon d h) as [B HE]. rewrite HE.
  set (T := radians (terminator lon d h)) in *.
  assert (HP : - (PI / 2) <= radians lat <= PI / 2).
  { rewrite <- radians_90, <- radians_opp, !radians_le. lra. }
  assert (CT : 0 < cos T) by (apply cos_gt_0; lra).
  assert (NS : sin (radians (declination d)) <> 0).
  { intro E. pose proof (decl_range d) as HR. pose proof pi_gt_3.
    pose proof (C112_never_equinox d) as NE.
    destruct (sin_sign (radians (declination d))) as [S1 S2]; [lra|].
    destruct (sin_sign (- radians (declination d))) as [S3 S4]; [lra|].
    rewrite sin_neg in S4.
    assert (radians (declination d) = radians 0) by (rewrite radians_0; lra).
    apply NE. apply Rle_antisym; apply radians_le; lra. }
  split.
  - intros ->. unfold T. rewrite Rminus_diag_eq by reflexivity. rewrite sin_0. ring.
  - intro E. apply Rmult_integral in E. destruct E as [E|E].
    + exfalso. apply NS.
      apply Rmult_eq_reg_r with (/ cos T); [|apply Rinv_neq_0_compat; lra].
      rewrite Rmult_0_l. exact E.
    + destruct (sin_sign (radians lat - T)) as [S1 S2]; [lra|].
      destruct (sin_sign (- (radians lat - T))) as [S3 S4]; [lra|].
      rewrite sin_neg in S4.
      apply Rle_antisym; apply radians_le; fold T; lra.
Qed.

Lemma lit_spec : forall lat lon d h,
  -90 <= lat <= 90 ->
  (lit d lat (terminator lon d h) = true <->
   if Rlt_dec 0 (declination d) then 0 <= sin_elevation lat lon d h
   else 0 < sin_elevation lat lon d h).
Proof.
  intros lat lon d h HL. destruct (terminator_height lon d h) as [B HE].
  rewrite HE. set (T := radians (terminator lon d h)) in *.
  assert (HP : - (PI / 2) <= radians lat <= PI / 2).
  { rewrite <- radians_90, <- radians_opp, !radians_le. lra. }
  assert (CT : 0 < cos T) by (apply cos_gt_0; lra).
  assert (IC : 0 < / cos T) by (apply Rinv_0_lt_compat; exact CT).
  pose proof (decl_range d) as HR. pose proof pi_gt_3.
  destruct (sin_sign (radians lat - T)) as [S1 S2]; [lra|].
  unfold lit. destruct (Rlt_dec 0 (declination d)) as [HD|HD].
  - assert (0 < sin (radians (declination d))).
    { apply sin_gt_0; [|lra]. rewrite <- radians_0. apply radians_lt. exact HD. }
    assert (K : 0 < sin (radians (declination d)) / cos T) by (unfold Rdiv; nra).
    destruct (Rle_dec (terminator lon d h) lat) as [G|G].
    + split; [|reflexivity]. intros _. apply (proj2 (radians_le _ _)) in G. fold T in G.
      apply Rmult_le_pos; [lra|]. apply S2. lra.
    + split; [discriminate|]. intro Q0. exfalso. apply G. apply radians_le.
      fold T. assert (0 <= sin (radians lat - T)) by nra. apply S2 in H1. lra.
  - assert (0 < sin (- radians (declination d))).
    { pose proof (C112_never_equinox d).
      apply sin_gt_0; [|lra]. rewrite <- radians_opp, <- radians_0.
      apply radians_lt. lra. }
    rewrite sin_neg in H0.
    assert (K : sin (radians (declination d)) / cos T < 0) by (unfold Rdiv; nra).
    destruct (Rlt_dec lat (terminator lon d h)) as [G|G].
    + split; [|reflexivity]. intros _. apply (proj2 (radians_lt _ _)) in G. fold T in G.
      assert (~ 0 <= sin (radians lat - T)) by (rewrite S2; lra). nra.
    + split; [discriminate|]. intro Q0. exfalso. apply G. apply radians_lt.
      fold T. assert (~ 0 <= sin (radians lat - T)) by nra.
      rewrite S2 in H1. lra.
Qed.

(** ** The mask *)

(** The specification of a cell: day where the sun is up, at the moment [m]. On
    the horizon itself it is day only on a latitude-longitude grid or at sites,
    and only in the northern summer half-year. *)
Definition is_day (yday : Z -> Z) (m : Z) (lat_lon : bool) (lat lon : R) : Prop :=
  let d := yday m in
  let s := sun_height lat lon (declination d)
             (sun_longitude (equation_of_time d) (hour_of_day m)) in
  0 < s \/ (lat_lon = true /\ 0 < declination d /\ s = 0).

Definition latitude_ok (p : R * R) : Prop := -90 <= fst p <= 90.

Lemma lit_is_day : forall yday m lat lon, -90 <= lat <= 90 ->
  (lit (yday m) lat (terminator lon (yday m) (hour_of_day m)) = true
   <-> is_day yday m true lat lon).
Proof.
  intros yday m lat lon H. rewrite (lit_spec lat lon (yday m) (hour_of_day m) H).
  unfold is_day. rewrite <- C112_elevation_is_height.
  destruct (Rlt_dec 0 (declination (yday m))); split; intro G.
  - destruct G as [G|G]; [left; exact G|right; repeat split; [assumption|lra]].
  - destruct G as [G|[_ [_ G]]]; lra.
  - left; exact G.
  - destruct G as [G|[_ [G _]]]; [exact G|contradiction].
Qed.

(** The hour of the day, to the nearest minute (half a minute goes up), from
    midnight to midnight. *)
Theorem C112_hour_of_day : forall t,
  hour_of_day t = IZR ((t mod 86400 + 30) / 60) / 60
  /\ 0 <= hour_of_day t <= 24
  /\ Rabs (hour_of_day t - IZR (t mod 86400) / 3600) <= 1 / 120.
Proof.
  intro t.
  assert (E : hour_of_day t = IZR ((t mod 86400 + 30) / 60) / 60).
  { unfold hour_of_day.
    set (q := (t / 86400)%Z). set (s := (t mod 86400)%Z).
    assert (Ht : (t = 86400 * q + s)%Z) by (apply Z.div_mod; lia).
    assert (Hs : (0 <= s < 86400)%Z) by (apply Z.mod_pos_bound; lia).
    set (m := (s / 60)%Z). set (c := (s mod 60)%Z).
    assert (Hm : (s = 60 * m + c)%Z) by (apply Z.div_mod; lia).
    assert (Hc : (0 <= c < 60)%Z) by (apply Z.mod_pos_bound; lia).
    assert (Tc : (t mod 60 = c)%Z).
    { symmetry. apply (Z.mod_unique_pos _ _ (1440 * q + m)); lia. }
    rewrite Tc.
    destruct (Z_lt_le_dec c 30) as [Hl|Hl].
    - assert (R1 : ((t + c) / 86400 = q)%Z).
      { symmetry. apply (Z.div_unique_pos _ _ _ (60 * m + 2 * c)); lia. }
      rewrite R1, Z.eqb_refl.
      assert (R2 : ((t + c) mod 86400 = 60 * m + 2 * c)%Z).
      { symmetry. apply (Z.mod_unique_pos _ _ q); lia. }
      assert (R3 : ((s + 30) / 60 = m)%Z).
      { symmetry. apply (Z.div_unique_pos _ _ _ (c + 30)); lia. }
      rewrite R2, R3. do 2 f_equal.
      set (hh := (m / 60)%Z). set (mm := (m mod 60)%Z).
      assert (Hh : (m = 60 * hh + mm)%Z) by (apply Z.div_mod; lia).
      assert (Hq : (0 <= mm < 60)%Z) by (apply Z.mod_pos_bound; lia).
      assert (R4 : ((60 * m + 2 * c) / 3600 = hh)%Z).
      { symmetry. apply (Z.div_unique_pos _ _ _ (60 * mm + 2 * c)); lia. }
      assert (R5 : ((t + c) mod 3600 = 60 * mm + 2 * c)%Z).
      { symmetry. apply (Z.mod_unique_pos _ _ (24 * q + hh)); lia. }
      assert (R6 : ((60 * mm + 2 * c) / 60 = mm)%Z).
      { symmetry. apply (Z.div_unique_pos _ _ _ (2 * c)); lia. }
      rewrite R4, R5, R6. lia.
    - assert (R3 : ((s + 30) / 60 = m + 1)%Z).
      { symmetry. apply (Z.div_unique_pos _ _ _ (c - 30)); lia. }
      destruct (Z.eq_dec m 1439) as [Em|Em].
      + assert (R1 : ((t + c) / 86400 = q + 1)%Z).
        { symmetry. apply (Z.div_unique_pos _ _ _ (2 * c - 60)); lia. }
        rewrite R1.
        destruct (q + 1 =? q)%Z eqn:X; [apply Z.eqb_eq in X; lia|].
        rewrite R3, Em. replace (1439 + 1)%Z with 1440%Z by lia. field.
      + assert (Hm1 : (m < 1439)%Z) by lia.
        assert (R1 : ((t + c) / 86400 = q)%Z).
        { symmetry. apply (Z.div_unique_pos _ _ _ (60 * m + 2 * c)); lia. }
        rewrite R1, Z.eqb_refl.
        assert (R2 : ((t + c) mod 86400 = 60 * m + 2 * c)%Z).
        { symmetry. apply (Z.mod_unique_pos _ _ q); lia. }
        rewrite R2, R3. do 2 f_equal.
        set (hh := ((m + 1) / 60)%Z). set (mm := ((m + 1) mod 60)%Z).
        assert (Hh : (m + 1 = 60 * hh + mm)%Z) by (apply Z.div_mod; lia).
        assert (Hq : (0 <= mm < 60)%Z) by (apply Z.mod_pos_bound; lia).
        assert (R4 : ((60 * m + 2 * c) / 3600 = hh)%Z).
        { symmetry. apply (Z.div_unique_pos _ _ _ (60 * mm + (2 * c - 60))); lia. }
        assert (R5 : ((t + c) mod 3600 = 60 * mm + (2 * c - 60))%Z).
        { symmetry. apply (Z.mod_unique_pos _ _ (24 * q + hh)); lia. }
        assert (R6 : ((60 * mm + (2 * c - 60)) / 60 = mm)%Z).
        { symmetry. apply (Z.div_unique_pos _ _ _ (2 * c - 60)); lia. }
        rewrite R4, R5, R6. lia. }
  rewrite E. split; [reflexivity|].
  set (s := (t mod 86400)%Z).
  assert (Hs : (0 <= s < 86400)%Z) by (apply Z.mod_pos_bound; lia).
  set (m := ((s + 30) / 60)%Z).
  assert (Hm : (s + 30 = 60 * m + (s + 30) mod 60)%Z) by (apply Z.div_mod; lia).
  pose proof (Z.mod_pos_bound (s + 30) 60 eq_refl) as Hc.
  assert (B1 : (0 <= m <= 1440)%Z) by lia.
  assert (B2 : (60 * m - 30 <= s <= 60 * m + 29)%Z) by lia.
  assert (C1 : 0 <= IZR m <= 1440) by (split; apply IZR_le; lia).
  assert (C2 : 60 * IZR m - 30 <= IZR s <= 60 * IZR m + 29).
  { rewrite <- mult_IZR, <- minus_IZR, <- plus_IZR. split; apply IZR_le; lia. }
  split; [lra|]. apply Rabs_le. lra.
Qed.

(** What the cube and the mask hold at row [i], column [j]. *)
Definition place_at (p : places) (i j : nat) : option (R * R) :=
  match p with
  | Regular lats lons =>
    match nth_error lats i, nth_error lons j with
    | Some a, Some b => Some (a, b)
    | _, _ => None
    end
  | Sites pts => match i with O => nth_error pts j | _ => None end
  | Projected rows =>
    match nth_error rows i with Some r => nth_error r j | None => None end
  end.

Definition mask_at (k : mask) (i j : nat) : option bool :=
  match nth_error k i with Some r => nth_error r j | None => None end.

Definition on_lat_lon (p : places) : bool :=
  match p with Projected _ => false | _ => true end.

Definition places_ok (p : places) : Prop :=
  forall i j q, place_at p i j = Some q -> -90 <= fst q <= 90.

Lemma nth_error_mapped : forall (A B : Type) (f : A -> B) l i,
  nth_error (map f l) i = option_map f (nth_error l i).
Proof.
  induction l as [|a l IH]; intros [|i]; cbn; try reflexivity. apply IH.
Qed.

Lemma nth_error_combine : forall (A B : Type) (l : list A) (k : list B) i,
  nth_error (combine l k) i =
  match nth_error l i, nth_error k i with
  | Some a, Some b => Some (a, b) | _, _ => None end.
Proof.
  induction l as [|a l IH]; intros [|b k] [|i]; cbn; try reflexivity.
  - destruct (nth_error l i); reflexivity.
  - apply IH.
Qed.

Lemma regular_place : forall lats lons i j a b,
  nth_error lats i = Some a -> nth_error lons j = Some b ->
  place_at (Regular lats lons) i j = Some (a, b).
Proof. intros. cbn. rewrite H, H0. reflexivity. Qed.

(** One mask, by a plugin that has seen no spot data, or on anything but a
    regular latitude-longitude grid. *)
Lemma one_mask_right : forall yday irr p m,
  (irr = false \/ forall a b, p <> Regular a b) ->
  places_ok p -> (0 <= yday m <= 365)%Z ->
  exists k, one_mask irr p (yday m) (hour_of_day m) = Ok k /\
  forall i j, match place_at p i j, mask_at k i j with
    | Some q, Some b => b = true <-> is_day yday m (on_lat_lon p) (fst q) (snd q)
    | None, None => True
    | _, _ => False
    end.
Proof.
  intros yday irr p m HI HP HY.
  assert (D : day_ok (yday m) = true) by (apply day_ok_iff; exact HY).
  assert (H : hour_ok (hour_of_day m) = true)
    by (apply hour_ok_iff; apply C112_hour_of_day).
  destruct p as [lats lons|pts|rows]; cbn [one_mask lat_lon_mask];
    unfold daynight_terminator; rewrite ?D, ?H; cbn [negb bind].
  - destruct irr; [destruct HI as [HI|HI]; [discriminate|exfalso; exact (HI _ _ eq_refl)]|].
    eexists. split; [reflexivity|]. intros i j. unfold mask_at.
    rewrite nth_error_mapped. cbn [place_at on_lat_lon].
    destruct (nth_error lats i) as [a|] eqn:Ea; cbn [option_map]; [|exact Logic.I].
    rewrite !nth_error_mapped.
    destruct (nth_error lons j) as [b|] eqn:Eb; cbn [option_map fst snd];
      [|exact Logic.I].
    apply lit_is_day. exact (HP i j _ (regular_place _ _ _ _ _ _ Ea Eb)).
  - eexists. split; [reflexivity|]. intros i j. unfold mask_at.
    destruct i as [|i]; cbn [nth_error place_at on_lat_lon];
      [|destruct i; exact Logic.I].
    rewrite nth_error_mapped, nth_error_combine, !nth_error_mapped.
    destruct (nth_error pts j) as [q|] eqn:Eq; cbn [option_map fst snd];
      [|exact Logic.I].
    apply lit_is_day. exact (HP 0%nat j q Eq).
  - rewrite C112_errors, D, H.
    assert (F : forallb (fun p => lat_ok (fst p)) (concat rows) = true).
    { apply forallb_forall. intros q Hq. apply lat_ok_iff.
      apply in_concat in Hq. destruct Hq as [r [Hr Hq]].
      apply In_nth_error in Hr. destruct Hr as [i Hi].
      apply In_nth_error in Hq. destruct Hq as [j Hj].
      apply (HP i j). cbn. rewrite Hi. exact Hj. }
    rewrite F. cbn [andb bind]. eexists. split; [reflexivity|].
    intros i j. unfold mask_at. rewrite nth_error_mapped. cbn [place_at on_lat_lon].
    destruct (nth_error rows i) as [r|] eqn:Er; cbn [option_map]; [|exact Logic.I].
    rewrite nth_error_mapped.
    destruct (nth_error r j) as [q|] eqn:Eq; cbn [option_map]; [|exact Logic.I].
    unfold is_day.
    destruct (Rlt_dec 0 (elevation (fst q) (snd q) (yday m) (hour_of_day m))) as [G|G].
    + split; [|reflexivity]. intros _. left. apply C112_elevation_positive. exact G.
    + split; [discriminate|]. intros [K|[K _]]; [|discriminate].
      exfalso. apply G. apply C112_elevation_positive. exact K.
Qed.

(** A mask is right for the moment [m]. *)
Definition right_mask (yday : Z -> Z) (m : Z) (p : places) (k : mask) : Prop :=
  forall i j, match place_at p i j, mask_at k i j with
    | Some q, Some b => b = true <-> is_day yday m (on_lat_lon p) (fst q) (snd q)
    | None, None => True
    | _, _ => False
    end.

(** The moment the mask of the [n]-th time should be about: the point, or the
    middle of the time's own bounds. *)
Definition meant (c : cube) (n : nat) : option Z :=
  match c_bounds c with
  | None => nth_error (c_points c) n
  | Some bs => option_map (fun b => fst b + (snd b - fst b) / 2)%Z (nth_error bs n)
  end.

Definition cube_ok (c : cube) : Prop :=
  places_ok (c_places c) /\
  forall bs, c_bounds c = Some bs -> length bs = length (c_points c).

Lemma mapM_all : forall (A B : Type) (f : A -> result B) l,
  (forall a, In a l -> exists b, f a = Ok b) ->
  exists bs, mapM f l = Ok bs /\ length bs = length l /\
  forall n a b, nth_error l n = Some a -> nth_error bs n = Some b -> f a = Ok b.
Proof.
  induction l as [|a l IH]; intro H.
  - exists []. repeat split. intros [|n] a b Ha; discriminate.
  - destruct (H a (or_introl eq_refl)) as [b Hb].
    destruct IH as [bs [E [L N]]]; [intros x Hx; apply H; right; exact Hx|].
    exists (b :: bs). cbn [mapM]. rewrite Hb. cbn [bind]. rewrite E. cbn [bind].
    repeat split; [cbn; lia|].
    intros [|n] x y Hx Hy; cbn in Hx, Hy.
    + congruence.
    + exact (N n x y Hx Hy).
Qed.

Lemma nth_error_ext_fst : forall (A B : Type) (out : list (A * B)) (l : list A),
  length out = length l ->
  (forall n t k, nth_error out n = Some (t, k) -> nth_error l n = Some t) ->
  map fst out = l.
Proof.
  induction out as [|[t k] out IH]; intros [|a l] HL H; cbn in HL; try discriminate.
  - reflexivity.
  - cbn. f_equal.
    + specialize (H 0%nat t k eq_refl). cbn in H. congruence.
    + apply IH; [lia|]. intros n u v Hn. exact (H (S n) u v Hn).
Qed.

(** Full claim: [right_mask] for every time of every cube at its own moment.
    Proved when the cube has no time bounds or a single time, by a plugin that
    has not seen spot data before a regular grid; the two other cases are
    refuted below. *)
Theorem C112_mask_partial : forall yday irr c,
  cube_ok c -> (forall t, (0 <= yday t <= 365)%Z) ->
  (irr = false \/ forall a b, c_places c <> Regular a b) ->
  (c_bounds c = None \/ length (c_points c) = 1%nat) ->
  exists out, snd (process yday irr c) = Ok out
  /\ map fst out = c_points c
  /\ forall n t k, nth_error out n = Some (t, k) ->
     exists m, meant c n = Some m /\ right_mask yday m (c_places c) k.
Proof.
  intros yday irr c [HP HB] HY HI HT. unfold process. cbn [snd].
  set (ir := irregular_after irr (c_places c)).
  assert (HI' : ir = false \/ forall a b, c_places c <> Regular a b).
  { unfold ir. destruct HI as [->|HI]; [|right; exact HI].
    destruct (c_places c); cbn; [left; reflexivity|right; discriminate|left; reflexivity]. }
  assert (HM : forall n t, nth_error (c_points c) n = Some t ->
    exists m, moment c t = Ok m /\ meant c n = Some m).
  { intros n t Hn. unfold moment, meant. destruct (c_bounds c) as [bs|] eqn:EB.
    - destruct HT as [HT|HT]; [discriminate|].
      specialize (HB bs eq_refl). rewrite HT in HB.
      destruct bs as [|b [|b' bs]]; try discriminate.
      assert (n < 1)%nat by (rewrite <- HT; apply nth_error_Some; congruence).
      assert (n = 0%nat) by lia. subst n. cbn. eexists; split; reflexivity.
    - exists t. split; [reflexivity|exact Hn]. }
  destruct (mapM_all _ _ (fun t => let* m := moment c t in
      let* k := one_mask ir (c_places c) (yday m) (hour_of_day m) in Ok (t, k))
      (c_points c)) as [out [E [L N]]].
  { intros t Ht. apply In_nth_error in Ht. destruct Ht as [n Hn].
    destruct (HM n t Hn) as [m [M1 _]]. rewrite M1. cbn [bind].
    destruct (one_mask_right yday ir (c_places c) m HI' HP (HY m)) as [k [K _]].
    rewrite K. cbn [bind]. eexists; reflexivity. }
  exists out. split; [exact E|]. split.
  - apply nth_error_ext_fst. exact L. intros n t k0 Hk.
    destruct (nth_error (c_points c) n) as [t'|] eqn:Ht.
    + specialize (N n t' (t, k0) Ht Hk). cbv beta in N.
      destruct (moment c t'); [|discriminate]. cbn [bind] in N.
      destruct (one_mask ir (c_places c) _ _); [|discriminate]. cbn [bind] in N.
      congruence.
    + exfalso. apply nth_error_None in Ht.
      assert (n < length out)%nat by (apply nth_error_Some; congruence). lia.
  - intros n t k0 Hk.
    destruct (nth_error (c_points c) n) as [t'|] eqn:Ht.
    + specialize (N n t' (t, k0) Ht Hk). cbv beta in N.
      destruct (HM n t' Ht) as [m [M1 M2]]. exists m. split; [exact M2|].
      rewrite M1 in N. cbn [bind] in N.
      destruct (one_mask_right yday ir (c_places c) m HI' HP (HY m)) as [k [K RM]].
      rewrite K in N. cbn [bind] in N. inversion N; subst. exact RM.
    + exfalso. apply nth_error_None in Ht.
      assert (n < length out)%nat by (apply nth_error_Some; congruence). lia.
Qed.

Lemma Rabs_def2' : forall x a, Rabs x <= a -> - a <= x <= a.
Proof. intros x a H. unfold Rabs in H. destruct (Rcase_abs x); lra. Qed.

(** On the equator the sun is up for the solar times between 6 and 18. *)
Lemma equator_up : forall yday m lon b,
  6 < solar_time lon (yday m) (hour_of_day m) < 18 -> is_day yday m b 0 lon.
Proof.
  intros yday m lon b H. unfold is_day. left.
  rewrite <- C112_elevation_is_height. unfold sin_elevation.
  rewrite radians_0, sin_0, cos_0.
  assert (0 < cos (radians (hour_angle lon (yday m) (hour_of_day m)))).
  { apply cos_gt_0; [rewrite <- radians_90, <- radians_opp|rewrite <- radians_90];
      apply (proj2 (radians_lt _ _)); unfold hour_angle; lra. }
  pose proof (decl_cos (yday m)). nra.
Qed.

Lemma equator_down : forall yday m lon b,
  18 < solar_time lon (yday m) (hour_of_day m) < 30
  \/ -6 < solar_time lon (yday m) (hour_of_day m) < 6 -> ~ is_day yday m b 0 lon.
Proof.
  intros yday m lon b H D. unfold is_day in D.
  rewrite <- C112_elevation_is_height in D. unfold sin_elevation in D.
  rewrite radians_0, sin_0, cos_0 in D.
  pose proof (decl_cos (yday m)) as C.
  assert (G : cos (radians (hour_angle lon (yday m) (hour_of_day m))) < 0).
  { set (T := solar_time lon (yday m) (hour_of_day m)) in *.
    assert (E : exists T', 18 < T' < 30 /\
      cos (radians (hour_angle lon (yday m) (hour_of_day m)))
      = cos (radians ((T' - 12) * 15))).
    { destruct H as [H|H].
      - exists T. split; [exact H|]. reflexivity.
      - exists (T + 24). split; [lra|]. unfold hour_angle. fold T.
        replace (radians ((T + 24 - 12) * 15))
          with (radians ((T - 12) * 15) + 2 * INR 1 * PI)
          by (unfold radians; cbn [INR]; field).
        symmetry. apply cos_period. }
    destruct E as [T' [B ->]]. apply cos_lt_0.
    - rewrite <- radians_90. apply (proj2 (radians_lt _ _)). lra.
    - replace (3 * (PI / 2)) with (radians 270) by (unfold radians; field).
      apply (proj2 (radians_lt _ _)). lra. }
  nra.
Qed.

(** Finding: when the times have bounds, the mask of every time is made for the
    middle of the first period of the cube. *)
Theorem C112_one_period_for_all : forall yday irr c out b bs,
  c_bounds c = Some (b :: bs) -> snd (process yday irr c) = Ok out ->
  forall t k t' k', In (t, k) out -> In (t', k') out -> k = k'.
Proof.
  intros yday irr c out b bs HB HO. unfold process in HO. cbn [snd] in HO.
  assert (A : forall l out, mapM (fun t => let* m := moment c t in
      let* k := one_mask (irregular_after irr (c_places c)) (c_places c) (yday m)
                 (hour_of_day m) in Ok (t, k)) l = Ok out ->
    forall t k, In (t, k) out ->
      one_mask (irregular_after irr (c_places c)) (c_places c)
        (yday (fst b + (snd b - fst b) / 2)%Z)
        (hour_of_day (fst b + (snd b - fst b) / 2)) = Ok k).
  { clear HO out. induction l as [|a l IH]; intros out HO t k Hin; cbn [mapM] in HO.
    - inversion HO; subst. destruct Hin.
    - unfold moment in HO at 1. rewrite HB in HO. cbn [bind] in HO.
      destruct (one_mask _ _ _ _) as [k1|e] eqn:K1; cbn [bind] in HO; [|discriminate].
      destruct (mapM _ l) as [r|e] eqn:EM; cbn [bind] in HO; [|discriminate].
      inversion HO; subst. destruct Hin as [Hin|Hin].
      + inversion Hin; subst. reflexivity.
      + pose proof (IH r eq_refl t k Hin). exact H. }
  intros t k t' k' H1 H2. pose proof (A _ _ HO t k H1). pose proof (A _ _ HO t' k' H2).
  congruence.
Qed.

(** A cube of two periods at the equator, 00-01 UTC and 12-13 UTC. *)
Definition two_periods : cube := {|
  c_points := [3600; 46800]%Z;
  c_bounds := Some [(0, 3600); (43200, 46800)]%Z;
  c_places := Sites [(0, 0)] |}.

Lemma two_periods_ok : cube_ok two_periods.
Proof.
  split.
  - intros [|i] [|j] q H; cbn in H; try discriminate.
    + inversion H; subst. cbn. lra.
    + destruct j; discriminate.
  - intros bs H. inversion H; subst. reflexivity.
Qed.

Lemma hour_at : forall t n, ((t mod 86400 + 30) / 60 = n)%Z ->
  hour_of_day t = IZR n / 60.
Proof. intros t n H. destruct (C112_hour_of_day t) as [-> _]. rewrite H. reflexivity. Qed.

Theorem C112_own_period_refuted : forall yday,
  (forall t, (0 <= yday t <= 365)%Z) ->
  exists out t k m, snd (process yday false two_periods) = Ok out
  /\ nth_error out 1 = Some (t, k) /\ meant two_periods 1 = Some m
  /\ ~ right_mask yday m (c_places two_periods) k.
Proof.
  intros yday HY.
  destruct (one_mask_right yday true (Sites [(0, 0)]) 1800) as [k [K RM]].
  { right. discriminate. }
  { exact (proj1 two_periods_ok). }
  { apply HY. }
  exists [(3600%Z, k); (46800%Z, k)], 46800%Z, k, 45000%Z.
  split.
  { unfold process, two_periods. cbn [snd c_points c_places c_bounds mapM moment
      irregular_after bind fst].
    replace (0 + (3600 - 0) / 2)%Z with 1800%Z by reflexivity.
    rewrite K. reflexivity. }
  split; [reflexivity|]. split; [reflexivity|].
  intro RM2. specialize (RM 0%nat 0%nat). specialize (RM2 0%nat 0%nat).
  cbn [place_at nth_error two_periods c_places] in RM, RM2.
  destruct (mask_at k 0 0) as [b|]; [|contradiction].
  cbn [fst snd on_lat_lon] in RM, RM2.
  assert (U : is_day yday 45000 true 0 0).
  { apply equator_up. pose proof (C112_solar_time_near 0 (yday 45000%Z) (hour_of_day 45000)) as N.
    rewrite (hour_at 45000 750) in * by reflexivity.
    apply Rabs_def2' in N. lra. }
  assert (W : ~ is_day yday 1800 true 0 0).
  { apply equator_down. right.
    pose proof (C112_solar_time_near 0 (yday 1800%Z) (hour_of_day 1800)) as N.
    rewrite (hour_at 1800 30) in * by reflexivity.
    apply Rabs_def2' in N. lra. }
  apply W. apply RM. apply RM2. exact U.
Qed.

(** Finding: the plugin remembers having seen spot data. *)
Fixpoint run (yday : Z -> Z) (irr : bool) (cs : list cube) : bool :=
  match cs with
  | [] => irr
  | c :: r => run yday (fst (process yday irr c)) r
  end.

Theorem C112_remembers_spot_data : forall yday cs,
  run yday false cs = true <-> exists c pts, In c cs /\ c_places c = Sites pts.
Proof.
  intros yday cs.
  assert (A : forall irr, run yday irr cs = true <->
     irr = true \/ exists c pts, In c cs /\ c_places c = Sites pts).
  { induction cs as [|c cs IH]; intro irr; cbn [run].
    - split; [intro; left; assumption|intros [H|[c [p [H _]]]]; [exact H|destruct H]].
    - rewrite IH. unfold process. cbn [fst]. split.
      + intros [H|[x [p [H1 H2]]]].
        * destruct (c_places c) eqn:E; cbn in H; try (left; exact H).
          right. exists c, pts. split; [left; reflexivity|exact E].
        * right. exists x, p. split; [right; exact H1|exact H2].
      + intros [->|[x [p [[<-|H1] H2]]]].
        * left. destruct (c_places c); reflexivity.
        * left. rewrite H2. reflexivity.
        * right. exists x, p. split; assumption. }
  rewrite A. split; [intros [H|H]; [discriminate|exact H]|intro H; right; exact H].
Qed.

Definition grid_2x2 : cube := {|
  c_points := [43200]%Z; c_bounds := None; c_places := Regular [0; 0] [0; 180] |}.

Theorem C112_history_refuted : forall yday,
  (forall t, (0 <= yday t <= 365)%Z) ->
  (* right for a new plugin *)
  (exists out k, snd (process yday (run yday false []) grid_2x2) = Ok out /\
     nth_error out 0 = Some (43200%Z, k) /\
     right_mask yday 43200 (c_places grid_2x2) k) /\
  (* wrong after one cube of spot data *)
  (exists out k, snd (process yday (run yday false [two_periods]) grid_2x2) = Ok out /\
     nth_error out 0 = Some (43200%Z, k) /\
     ~ right_mask yday 43200 (c_places grid_2x2) k).
Proof.
  intros yday HY.
  assert (OK : cube_ok grid_2x2).
  { split; [|discriminate]. intros i j q H. cbn in H.
    destruct i as [|[|i]]; cbn in H; [| |destruct i; discriminate];
      destruct j as [|[|j]]; cbn in H; try (inversion H; subst; cbn; lra);
      destruct j; discriminate. }
  split.
  - destruct (C112_mask_partial yday false grid_2x2 OK HY) as [out [E [F G]]];
      [left; reflexivity|left; reflexivity|].
    destruct out as [|[t k] out]; [discriminate|].
    cbn in F. inversion F; subst. exists ((43200%Z, k) :: out), k.
    split; [exact E|]. split; [reflexivity|].
    destruct (G 0%nat _ _ eq_refl) as [m [M RM]]. cbn in M. inversion M; subst. exact RM.
  - assert (D : day_ok (yday 43200%Z) = true) by (apply day_ok_iff; apply HY).
    assert (H : hour_ok (hour_of_day 43200) = true)
      by (apply hour_ok_iff; apply C112_hour_of_day).
    unfold process. cbn [snd run]. unfold grid_2x2 at 3. cbn [c_points mapM].
    unfold moment at 1. cbn [c_bounds grid_2x2 bind].
    change (irregular_after (fst (process yday false two_periods)) (c_places grid_2x2))
      with true.
    unfold one_mask. cbn [c_places grid_2x2 lat_lon_mask].
    unfold daynight_terminator. unfold grid_2x2. cbn [c_points mapM]. rewrite D, H. cbn [negb bind].
    unfold rows_lit. cbn [map length Nat.max Nat.eqb orb seq existsb nth].
    set (b0 := lit _ _ (terminator 0 _ _)). set (b1 := lit _ _ (terminator 180 _ _)).
    cbn [Nat.leb]. rewrite !andb_false_r. cbn [orb bind].
    eexists _, _. split; [reflexivity|]. split; [reflexivity|].
    intro RM. specialize (RM 0%nat 1%nat). cbn in RM.
    assert (B0 : b0 = true).
    { unfold b0. apply (lit_is_day yday 43200); [lra|]. apply equator_up.
      pose proof (C112_solar_time_near 0 (yday 43200%Z) (hour_of_day 43200)) as N.
      rewrite (hour_at 43200 720) in * by reflexivity.
      apply Rabs_def2' in N. lra. }
    rewrite B0 in RM. destruct RM as [RM _]. specialize (RM eq_refl).
    revert RM. apply equator_down. left.
    pose proof (C112_solar_time_near 180 (yday 43200%Z) (hour_of_day 43200)) as N.
    rewrite (hour_at 43200 720) in * by reflexivity.
    apply Rabs_def2' in N. lra.
Qed.

(** Cases. Midsummer at 60 N is day at noon, and the polar night is night. *)
Example C112_case_equator : forall lat lon d h, -90 <= lat <= 90 ->
  solar_time lon d h = 12 -> lat = declination d -> elevation lat lon d h = 90.
Proof.
  intros lat lon d h H T E. destruct (C112_noon_and_midnight lat lon d h H) as [N _].
  rewrite (N T), E. replace (declination d - declination d) with 0 by ring.
  rewrite Rabs_R0. ring.
Qed.

Example C112_case_hours : hour_of_day 43230 = IZR 721 / 60 /\ hour_of_day 86399 = 24
  /\ hour_of_day 86400 = 0.
Proof.
  rewrite (hour_at 43230 721), (hour_at 86399 1440), (hour_at 86400 0) by reflexivity.
  repeat split; lra.
Qed.

Example C112_case_two : cube_ok two_periods /\ c_bounds two_periods <> None
  /\ run (fun _ => 0%Z) false [two_periods; grid_2x2] = true.
Proof. split; [exact two_periods_ok|]. split; [discriminate|reflexivity]. Qed.

Print Assumptions C112_declination_bound.
Print Assumptions C112_never_equinox.
Print Assumptions C112_elevation_is_height.
Print Assumptions C112_elevation_range.
Print Assumptions C112_elevation_positive.
Print Assumptions C112_elevation_limits.
Print Assumptions C112_noon_and_midnight.
Print Assumptions C112_round_the_globe.
Print Assumptions C112_solar_time_near.
Print Assumptions C112_solar_time_normal.
Print Assumptions C112_errors.
Print Assumptions C112_terminator_range.
Print Assumptions C112_terminator_horizon.
Print Assumptions C112_hour_of_day.
Print Assumptions C112_mask_partial.
Print Assumptions C112_one_period_for_all.
Print Assumptions C112_own_period_refuted.
Print Assumptions C112_remembers_spot_data.
Print Assumptions C112_history_refuted.
