(** C113: clear-sky solar radiation. *)
From Coq Require Import Reals Bool ZArith List Lia.
From Verif Require Import Base Spec_Solar Model_Solar Props_Solar Model_Clearsky.
From Coq Require Import Lra.
Import ListNotations.
Local Open Scope R_scope.

(** ** Times of evaluation *)

(** With a positive spacing dividing the period, the times run from the start of
    the period to its end in equal steps. *)
Theorem C113_times : forall time hours spacing,
  (0 < spacing)%Z -> (0 <= hours)%Z ->
  ((spacing | hours * 60)%Z ->
   exists (n : nat) l, irradiance_times time hours spacing = Ok l
   /\ (Z.of_nat n * spacing = hours * 60)%Z
   /\ length l = S n
   /\ nth_error l 0 = Some (time - hours * 3600)%Z
   /\ nth_error l n = Some time
   /\ forall k a b, nth_error l k = Some a -> nth_error l (S k) = Some b ->
        (b = a + spacing * 60)%Z) /\
  (~ (spacing | hours * 60)%Z -> irradiance_times time hours spacing = Err ValueError).
Proof.
  intros time hours sp HS HH. unfold irradiance_times.
  destruct (sp =? 0)%Z eqn:E0; [apply Z.eqb_eq in E0; lia|]. split.
  - intros [q Hq].
    assert (M : (hours * 60 mod sp = 0)%Z) by (rewrite Hq; apply Z.mod_mul; lia).
    rewrite M. cbn [Z.eqb negb].
    assert (D : (hours * 3600 / (sp * 60) = q)%Z).
    { replace (hours * 3600)%Z with (q * (sp * 60))%Z by lia. apply Z.div_mul. lia. }
    rewrite D. assert (Q0 : (0 <= q)%Z) by nia.
    replace (Z.to_nat (q + 1)) with (S (Z.to_nat q)) by lia.
    exists (Z.to_nat q). eexists. split; [reflexivity|].
    split; [rewrite Z2Nat.id by lia; lia|].
    split; [rewrite map_length, seq_length; reflexivity|].
    assert (G : forall k, (k <= Z.to_nat q)%nat ->
      nth_error (map (fun k => time - hours * 3600 + Z.of_nat k * (sp * 60))%Z
         (seq 0 (S (Z.to_nat q)))) k
      = Some (time - hours * 3600 + Z.of_nat k * (sp * 60))%Z).
    { intros k Hk. rewrite nth_error_mapped.
      rewrite (nth_error_nth' _ 0%nat) by (rewrite seq_length; lia).
      rewrite seq_nth by lia. reflexivity. }
    split; [rewrite G by lia; f_equal; lia|].
    split; [rewrite G by lia; f_equal; rewrite Z2Nat.id by lia; lia|].
    intros k a b Ha Hb.
    assert (L : (S k < S (Z.to_nat q))%nat).
    { erewrite <- (seq_length (S (Z.to_nat q)) 0).
      erewrite <- map_length. apply nth_error_Some.
      match type of Hb with ?x = _ => assert (Hx : x <> None) by congruence; exact Hx end. }
    rewrite G in Ha by lia. rewrite G in Hb by lia.
    apply (f_equal (fun o => match o with Some v => v | None => 0%Z end)) in Ha, Hb.
    cbv beta iota in Ha, Hb. rewrite <- Ha, <- Hb, Nat2Z.inj_succ. ring.
  - intro N. destruct (hours * 60 mod sp =? 0)%Z eqn:E; [|reflexivity].
    exfalso. apply N. apply Z.eqb_eq in E. apply Z.mod_divide; [lia|exact E].
Qed.

(** ** Irradiance at a time *)

Lemma extraterrestrial_bound : forall d,
  1322.5 <= extraterrestrial d <= 1412.9.
Proof.
  intro d. unfold extraterrestrial.
  pose proof (COS_bound (2 * PI * IZR d / 365)). lra.
Qed.

Theorem C113_air_mass : forall z,
  0 <= optical_air_mass z
  /\ (90 <= Rabs z -> optical_air_mass z = 0)
  /\ (Rabs z < 90 -> 0 < optical_air_mass z < 1 / cos (radians z)).
Proof.
  intro z. unfold optical_air_mass.
  destruct (Rle_dec 90 (Rabs z)) as [H|H].
  - repeat split; intros; lra.
  - assert (B : - (PI / 2) < radians z < PI / 2).
    { assert (-90 < z < 90) by (unfold Rabs in H; destruct (Rcase_abs z); lra).
      rewrite <- radians_90, <- radians_opp. split; apply (proj2 (radians_lt _ _)); lra. }
    assert (C : 0 < cos (radians z)) by (apply cos_gt_0; lra).
    set (y := Rpower _ _). assert (Y : 0 < y) by apply exp_pos.
    assert (P : 0 < 1 / (cos (radians z) + 50572 / 100000 * y))
      by (apply Rdiv_lt_0_compat; lra).
    split; [lra|]. split; [intro; contradiction|]. intros _. split; [exact P|].
    unfold Rdiv. rewrite !Rmult_1_l. apply Rinv_lt_contravar; nra.
Qed.

(** Irradiance is never negative nor more than at the top of the atmosphere, for
    any turbidity and all altitudes but absurd ones. *)
Theorem C113_irradiance_bounds : forall z d alt turb,
  -17000 <= alt ->
  0 <= irradiance z d alt turb <= extraterrestrial d.
Proof.
  intros z d alt turb HA. unfold irradiance. pose proof (extraterrestrial_bound d).
  split; [|apply Rmin_r].
  apply Rmin_glb; [|lra]. apply Rmult_le_pos; [|left; apply exp_pos].
  apply Rmult_le_pos; [|apply Rmax_r].
  apply Rmult_le_pos; [unfold cg1|]; lra.
Qed.

(** The bound on the altitude is needed only below 17 km under the sea. *)
Theorem C113_irradiance_zero : forall lat lon d h alt turb,
  sun_height lat lon (declination d) (sun_longitude (equation_of_time d) h) <= 0 ->
  irradiance (90 - elevation lat lon d h) d alt turb = 0.
Proof.
  intros lat lon d h alt turb HS. unfold irradiance.
  destruct (C112_elevation_range lat lon d h) as [R E].
  assert (C : cos (radians (90 - elevation lat lon d h)) <= 0).
  { replace (radians (90 - elevation lat lon d h))
      with (PI / 2 - radians (elevation lat lon d h)) by (unfold radians; field).
    rewrite cos_shift, E, C112_elevation_is_height. exact HS. }
  rewrite Rmax_right by exact C. rewrite Rmult_0_r, Rmult_0_l.
  apply Rmin_left. pose proof (extraterrestrial_bound d). lra.
Qed.

Theorem C113_irradiance_positive : forall lat lon d h alt turb,
  -17000 <= alt ->
  0 < sun_height lat lon (declination d) (sun_longitude (equation_of_time d) h) ->
  0 < irradiance (90 - elevation lat lon d h) d alt turb.
Proof.
  intros lat lon d h alt turb HA HS. unfold irradiance.
  destruct (C112_elevation_range lat lon d h) as [R E].
  assert (C : 0 < cos (radians (90 - elevation lat lon d h))).
  { replace (radians (90 - elevation lat lon d h))
      with (PI / 2 - radians (elevation lat lon d h)) by (unfold radians; field).
    rewrite cos_shift, E, C112_elevation_is_height. exact HS. }
  pose proof (extraterrestrial_bound d).
  rewrite Rmax_left by lra. apply Rmin_glb_lt; [|lra].
  apply Rmult_lt_0_compat; [|apply exp_pos].
  apply Rmult_lt_0_compat; [|exact C].
  apply Rmult_lt_0_compat; [unfold cg1|]; lra.
Qed.

(** A more turbid atmosphere lets no more through. *)
Theorem C113_turbidity : forall z d alt t1 t2,
  -987 <= alt -> t1 <= t2 ->
  irradiance z d alt t2 <= irradiance z d alt t1.
Proof.
  intros z d alt t1 t2 HA HT. unfold irradiance.
  apply Rle_min_compat_r. apply Rmult_le_compat_l.
  - pose proof (extraterrestrial_bound d).
    apply Rmult_le_pos; [|apply Rmax_r].
    apply Rmult_le_pos; [unfold cg1|]; lra.
  - assert (G : 0 <= cg2 alt * optical_air_mass z).
    { apply Rmult_le_pos; [unfold cg2; lra|apply C113_air_mass]. }
    assert (F : 0 < fh2 alt) by apply exp_pos.
    assert (L : -1 * cg2 alt * optical_air_mass z * (fh1 alt + fh2 alt * (t2 - 1))
             <= -1 * cg2 alt * optical_air_mass z * (fh1 alt + fh2 alt * (t1 - 1))).
    { assert (fh2 alt * (t1 - 1) <= fh2 alt * (t2 - 1)) by nra. nra. }
    destruct L as [L|L]; [left; apply exp_increasing; exact L|rewrite L; right; reflexivity].
Qed.

(** ** The integral *)

(** The trapezium rule: each interval counts its width times the mean of the
    values at its ends. *)
Definition trapezium (dx : R) (l : list R) : R :=
  fold_right Rplus 0 (map (fun q => dx * ((fst q + snd q) / 2)) (combine l (tl l))).

Theorem C113_trapezium : forall dx l, trapz dx l = trapezium dx l.
Proof.
  intros dx. induction l as [|a [|b l] IH]; try reflexivity.
  change (trapz dx (a :: b :: l)) with (dx * (a + b) / 2 + trapz dx (b :: l)).
  rewrite IH. unfold trapezium. cbn [tl combine map fold_right fst snd]. field.
Qed.

Lemma trapz_cons : forall dx a b l,
  trapz dx (a :: b :: l) = dx * (a + b) / 2 + trapz dx (b :: l).
Proof. reflexivity. Qed.

Theorem C113_trapz_bounds : forall dx l m n,
  0 <= dx -> (forall x, In x l -> m <= x <= n) ->
  dx * INR (length l - 1) * m <= trapz dx l <= dx * INR (length l - 1) * n.
Proof.
  intros dx l m n HD. induction l as [|a [|b l] IH]; intro H.
  - cbn. lra.
  - cbn. lra.
  - rewrite trapz_cons.
    replace (length (a :: b :: l) - 1)%nat with (S (length (b :: l) - 1))
      by (cbn; lia).
    rewrite S_INR. specialize (IH (fun x Hx => H x (or_intror Hx))).
    pose proof (H a (or_introl eq_refl)).
    pose proof (H b (or_intror (or_introl eq_refl))). nra.
Qed.

Theorem C113_trapz_app : forall dx l x r,
  trapz dx (l ++ x :: r) = trapz dx (l ++ [x]) + trapz dx (x :: r).
Proof.
  intros dx l x r. induction l as [|a [|b l] IH].
  - cbn [app]. cbn [trapz]. ring.
  - cbn [app]. rewrite !trapz_cons. cbn [trapz]. ring.
  - change ((a :: b :: l) ++ x :: r) with (a :: b :: (l ++ x :: r)).
    change ((a :: b :: l) ++ [x]) with (a :: b :: (l ++ [x])).
    rewrite !trapz_cons.
    change (b :: l ++ x :: r) with ((b :: l) ++ x :: r).
    change (b :: l ++ [x]) with ((b :: l) ++ [x]). rewrite IH. ring.
Qed.

(** ** The whole field *)

(** Radiation at a point over a period, by the trapezium rule on equally spaced
    times from its start to its end. *)
Definition radiation (yday : Z -> Z) (p : point) (time hours spacing : Z) : R :=
  trapezium (IZR (60 * spacing))
    (map (fun k => irradiance_at yday p (time - hours * 3600 + Z.of_nat k * (spacing * 60)))
         (seq 0 (S (Z.to_nat (hours * 60 / spacing))))).

Lemma times_of : forall time hours spacing,
  (0 < spacing)%Z -> (0 <= hours)%Z -> (spacing | hours * 60)%Z ->
  irradiance_times time hours spacing
  = Ok (map (fun k => (time - hours * 3600 + Z.of_nat k * (spacing * 60))%Z)
         (seq 0 (S (Z.to_nat (hours * 60 / spacing))))).
Proof.
  intros time hours sp HS HH [q Hq]. unfold irradiance_times.
  destruct (sp =? 0)%Z eqn:E0; [apply Z.eqb_eq in E0; lia|].
  assert (M : (hours * 60 mod sp = 0)%Z) by (rewrite Hq; apply Z.mod_mul; lia).
  rewrite M. cbn [Z.eqb negb].
  assert (D : (hours * 3600 / (sp * 60) = q)%Z).
  { replace (hours * 3600)%Z with (q * (sp * 60))%Z by lia. apply Z.div_mul. lia. }
  assert (D' : (hours * 60 / sp = q)%Z) by (rewrite Hq; apply Z.div_mul; lia).
  rewrite D, D'. assert (Q0 : (0 <= q)%Z) by nia.
  replace (Z.to_nat (q + 1)) with (S (Z.to_nat q)) by lia. reflexivity.
Qed.

(** Points of the grid with their inputs. *)
Definition given (n : nat) (c : optional_cube) (default : R) (l : list R) : Prop :=
  match c with
  | None => l = repeat default n
  | Some (matches, v) => matches = true /\ l = v
  end.

Definition points (grid : list (R * R)) (alts turbs : list R) : list point :=
  map (fun q => {| p_lat := fst (fst (fst q)); p_lon := snd (fst (fst q));
                   p_alt := snd (fst q); p_turb := snd q |})
      (combine (combine grid alts) turbs).

Theorem C113_process : forall yday grid time hours alt turb spacing title alts turbs,
  (0 < spacing)%Z -> (0 <= hours)%Z -> (spacing | hours * 60)%Z ->
  (forall t, (0 <= yday t <= 365)%Z) ->
  (forall q, In q grid -> -90 <= fst q <= 90) ->
  given (length grid) alt 0 alts -> given (length grid) turb 3 turbs ->
  length alts = length grid -> length turbs = length grid ->
  exists f, process yday grid time hours alt turb spacing title = Ok f
  /\ f_data f = map (fun p => radiation yday p time hours spacing)
                    (points grid alts turbs)
  /\ length (f_data f) = length grid
  /\ f_time f = time /\ f_bounds f = ((time - hours * 3600)%Z, time)
  /\ (f_at_sea_level f = true <-> forall a, In a alts -> Rabs a <= 1 / 100000000)
  /\ f_title f = title.
Proof.
  intros yday grid time hours alt turb spacing title alts turbs HS HH HD HY HG GA GT LA LT.
  unfold process.
  assert (EA : initialise (length grid) alt 0 = Ok alts).
  { unfold given in GA. unfold initialise. destruct alt as [[m v]|];
      [destruct GA as [-> ->]|subst alts]; reflexivity. }
  assert (ET : initialise (length grid) turb 3 = Ok turbs).
  { unfold given in GT. unfold initialise. destruct turb as [[m v]|];
      [destruct GT as [-> ->]|subst turbs]; reflexivity. }
  rewrite EA, ET. cbn [bind]. rewrite (times_of time hours spacing HS HH HD).
  cbn [bind]. fold (points grid alts turbs). set (pts := points grid alts turbs).
  unfold radiation_data.
  assert (IN : forall p, In p pts -> -90 <= p_lat p <= 90).
  { intros p Hp. unfold pts, points in Hp. apply in_map_iff in Hp.
    destruct Hp as [[[q a] b] [<- Hp]]. cbn [p_lat fst snd].
    apply in_combine_l in Hp. apply in_combine_l in Hp. apply HG. exact Hp. }
  destruct (mapM_all _ _ (fun t => calc_solar_elevation
      (map (fun p => (p_lat p, p_lon p)) pts) (yday t) (hour_of_day t) false)
      (map (fun k => (time - hours * 3600 + Z.of_nat k * (spacing * 60))%Z)
         (seq 0 (S (Z.to_nat (hours * 60 / spacing)))))) as [x [E _]].
  { intros t _. rewrite C112_errors.
    assert (F : forallb (fun p => lat_ok (fst p)) (map (fun p => (p_lat p, p_lon p)) pts)
                = true).
    { apply forallb_forall. intros q Hq. apply in_map_iff in Hq.
      destruct Hq as [p [<- Hp]]. cbn [fst]. apply lat_ok_iff. apply IN. exact Hp. }
    rewrite F, (proj2 (day_ok_iff (yday t)) (HY t)).
    rewrite (proj2 (hour_ok_iff (hour_of_day t))
       (proj1 (proj2 (C112_hour_of_day t)))). eexists; reflexivity. }
  rewrite E. cbn [bind]. eexists. split; [reflexivity|].
  cbn [f_data f_time f_bounds f_at_sea_level f_title]. repeat split.
  - apply map_ext. intro p. rewrite C113_trapezium. unfold radiation.
    rewrite map_map. reflexivity.
  - rewrite map_length. unfold pts, points. rewrite map_length, !combine_length. lia.
  - intros H a Ha. rewrite forallb_forall in H. specialize (H a Ha).
    unfold close_to_zero in H. destruct (Rle_dec _ _); [assumption|discriminate].
  - intro H. apply forallb_forall. intros a Ha. unfold close_to_zero.
    destruct (Rle_dec (Rabs a) (1 / 100000000)) as [?|N]; [reflexivity|].
    exfalso. apply N. apply H. exact Ha.
Qed.

(** Errors: unmatched cubes and a spacing that does not divide the period. *)
Theorem C113_errors : forall yday grid time hours alt turb spacing title,
  (exists v, alt = Some (false, v)) \/ (exists v, turb = Some (false, v)) \/
  (spacing <> 0 /\ ~ (spacing | hours * 60))%Z ->
  process yday grid time hours alt turb spacing title = Err ValueError.
Proof.
  intros yday grid time hours alt turb spacing title H. unfold process.
  destruct alt as [[[|] a]|]; cbn [initialise bind]; try reflexivity;
    destruct turb as [[[|] b]|]; cbn [initialise bind]; try reflexivity;
    (destruct H as [[v H]|[[v H]|[H0 H]]]; [discriminate|discriminate|]);
    unfold irradiance_times;
    (destruct (spacing =? 0)%Z eqn:E0; [apply Z.eqb_eq in E0; contradiction|]);
    (destruct (hours * 60 mod spacing =? 0)%Z eqn:E1; [|reflexivity]);
    exfalso; apply H; apply Z.mod_divide; try assumption; apply Z.eqb_eq; exact E1.
Qed.

(** Radiation is never negative and never more than the sun sends in the time. *)
Theorem C113_radiation_bounds : forall yday p time hours spacing,
  (0 < spacing)%Z -> (0 <= hours)%Z -> (spacing | hours * 60)%Z ->
  -17000 <= p_alt p ->
  0 <= radiation yday p time hours spacing <= 1412.9 * (3600 * IZR hours).
Proof.
  intros yday p time hours sp HS HH HD HA. unfold radiation.
  rewrite <- C113_trapezium.
  destruct HD as [q Hq]. assert (Q0 : (0 <= q)%Z) by nia.
  assert (D' : (hours * 60 / sp = q)%Z) by (rewrite Hq; apply Z.div_mul; lia).
  rewrite D'. set (l := map _ _).
  assert (L : INR (length l - 1) = IZR q).
  { unfold l. rewrite map_length, seq_length.
    replace (S (Z.to_nat q) - 1)%nat with (Z.to_nat q) by lia.
    rewrite INR_IZR_INZ, Z2Nat.id by lia. reflexivity. }
  assert (DX : 0 <= IZR (60 * sp)) by (apply IZR_le; lia).
  pose proof (C113_trapz_bounds (IZR (60 * sp)) l 0 1412.9 DX) as B.
  rewrite L in B.
  assert (E : IZR (60 * sp) * IZR q = 3600 * IZR hours).
  { rewrite <- !mult_IZR. f_equal. lia. }
  rewrite E in B. rewrite Rmult_0_r, (Rmult_comm _ 1412.9) in B. apply B.
  intros x Hx. unfold l in Hx. apply in_map_iff in Hx. destruct Hx as [k [<- _]].
  unfold irradiance_at.
  set (t := (time - hours * 3600 + Z.of_nat k * (sp * 60))%Z).
  pose proof (C113_irradiance_bounds (90 - elevation (p_lat p) (p_lon p) (yday t) (hour_of_day t))
     (yday t) (p_alt p) (p_turb p) HA).
  pose proof (extraterrestrial_bound (yday t)). lra.
Qed.

(** In the polar night there is none. *)
Theorem C113_polar_night : forall yday p time hours spacing,
  -90 <= p_lat p <= 90 ->
  (forall t, (time - hours * 3600 <= t <= time)%Z ->
     90 <= Rabs (p_lat p - declination (yday t))) ->
  (0 < spacing)%Z -> (0 <= hours)%Z ->
  radiation yday p time hours spacing = 0.
Proof.
  intros yday p time hours sp HL HN HS HH. unfold radiation. rewrite <- C113_trapezium.
  assert (Z0 : forall t, (time - hours * 3600 <= t <= time)%Z -> irradiance_at yday p t = 0).
  { intros t Ht. unfold irradiance_at. apply C113_irradiance_zero.
    pose proof (C112_elevation_limits (p_lat p) (p_lon p) (yday t) (hour_of_day t) HL).
    specialize (HN t Ht).
    destruct (Rle_lt_dec (sun_height (p_lat p) (p_lon p) (declination (yday t))
      (sun_longitude (equation_of_time (yday t)) (hour_of_day t))) 0) as [G|G];
      [exact G|]. apply C112_elevation_positive in G. lra. }
  set (l := map _ _).
  assert (A : forall x, In x l -> 0 <= x <= 0).
  { intros x Hx. unfold l in Hx. apply in_map_iff in Hx. destruct Hx as [k [<- Hk]].
    rewrite Z0; [lra|]. apply in_seq in Hk.
    pose proof (Z.mul_div_le (hours * 60) sp HS) as M.
    assert (0 <= hours * 60 / sp)%Z by (apply Z.div_pos; lia).
    assert (Z.of_nat k <= hours * 60 / sp)%Z by lia. nia. }
  pose proof (C113_trapz_bounds (IZR (60 * sp)) l 0 0) as B.
  assert (DX : 0 <= IZR (60 * sp)) by (apply IZR_le; lia).
  specialize (B DX A). rewrite Rmult_0_r in B. lra.
Qed.

(** Radiation adds up over successive periods. *)
Theorem C113_additive : forall yday p time h1 h2 spacing,
  (0 < spacing)%Z -> (0 <= h1)%Z -> (0 <= h2)%Z ->
  (spacing | h1 * 60)%Z -> (spacing | h2 * 60)%Z ->
  radiation yday p time (h1 + h2) spacing
  = radiation yday p (time - h2 * 3600) h1 spacing + radiation yday p time h2 spacing.
Proof.
  intros yday p time h1 h2 sp HS H1 H2 [q1 Q1] [q2 Q2]. unfold radiation.
  rewrite <- !C113_trapezium.
  assert (P1 : (0 <= q1)%Z) by nia. assert (P2 : (0 <= q2)%Z) by nia.
  assert (D1 : (h1 * 60 / sp = q1)%Z) by (rewrite Q1; apply Z.div_mul; lia).
  assert (D2 : (h2 * 60 / sp = q2)%Z) by (rewrite Q2; apply Z.div_mul; lia).
  assert (D : ((h1 + h2) * 60 / sp = q1 + q2)%Z).
  { replace ((h1 + h2) * 60)%Z with ((q1 + q2) * sp)%Z by lia. apply Z.div_mul. lia. }
  rewrite D1, D2, D.
  set (n1 := Z.to_nat q1). set (n2 := Z.to_nat q2).
  replace (S (Z.to_nat (q1 + q2))) with (n1 + S n2)%nat by (unfold n1, n2; lia).
  rewrite seq_app, map_app.
  rewrite (seq_S n1 0), (map_app _ (seq 0 n1)).
  change (seq (0 + n1) (S n2)) with (n1 :: seq (S n1) n2).
  change (seq 0 (S n2)) with (0%nat :: seq 1 n2).
  cbn [map]. rewrite C113_trapz_app.
  assert (G : forall m a b, seq (a + b) m = map (fun k => (k + a)%nat) (seq b m)).
  { clear. induction m as [|m IH]; intros a b; [reflexivity|]. cbn [seq map].
    f_equal; [lia|]. replace (S (a + b)) with (a + S b)%nat by lia. apply IH. }
  assert (E1 : (Z.of_nat n1 * (sp * 60) = h1 * 3600)%Z)
    by (unfold n1; rewrite Z2Nat.id by lia; lia).
  f_equal.
  - f_equal. f_equal.
    + apply map_ext. intro k. f_equal. lia.
    + f_equal. f_equal. change (0 + n1)%nat with n1. lia.
  - f_equal. f_equal.
    + f_equal. lia.
    + replace (S n1) with (n1 + 1)%nat by lia. rewrite (G n2 n1 1%nat), map_map.
      apply map_ext. intro k. f_equal. rewrite Nat2Z.inj_add. lia.
Qed.

(** Finding: a negative spacing is not refused; if it divides the period there
    are no times at all and the radiation is zero everywhere. *)
Theorem C113_negative_spacing_refuted : forall yday grid time hours spacing title,
  (spacing < 0)%Z -> (0 < hours)%Z -> (spacing | hours * 60)%Z ->
  exists f, process yday grid time hours None None spacing title = Ok f
  /\ f_data f = repeat 0 (length grid).
Proof.
  intros yday grid time hours sp title HS HH HD. unfold process. cbn [initialise bind].
  unfold irradiance_times.
  destruct (sp =? 0)%Z eqn:E0; [apply Z.eqb_eq in E0; lia|].
  assert (M : (hours * 60 mod sp = 0)%Z) by (apply Z.mod_divide; [lia|exact HD]).
  rewrite M. cbn [Z.eqb negb bind].
  destruct HD as [q Hq].
  assert (D : (hours * 3600 / (sp * 60) = q)%Z).
  { replace (hours * 3600)%Z with (q * (sp * 60))%Z by lia. apply Z.div_mul. lia. }
  rewrite D. replace (Z.to_nat (q + 1)) with 0%nat by nia.
  cbn [seq map]. unfold radiation_data. cbn [mapM bind].
  eexists. split; [reflexivity|]. cbn [f_data map]. cbn [trapz].
  set (l := combine _ _). assert (L : length l = length grid).
  { unfold l. rewrite !combine_length, !repeat_length. lia. }
  rewrite <- L. clear L. clearbody l. induction l as [|x l IH]; [reflexivity|].
  cbn [map length repeat]. f_equal. exact IH.
Qed.

Example C113_case : irradiance_times 7200 2 30 = Ok [0; 1800; 3600; 5400; 7200]%Z
  /\ irradiance_times 7200 2 50 = Err ValueError
  /\ irradiance_times 7200 2 (-30) = Ok [].
Proof. repeat split. Qed.

(** At the pole it is polar night on 1 January for a day. *)
Example C113_case_night : forall turb, radiation (fun _ => 0%Z)
  {| p_lat := 90; p_lon := 0; p_alt := 0; p_turb := turb |} 86400 24 30 = 0.
Proof.
  intro turb. apply C113_polar_night; cbn [p_lat]; [lra| |lia|lia].
  intros t _. assert (H : declination 0 < 0).
  { unfold declination. assert (0 < cos (radians (9856 / 10000 * IZR 0 + 93 / 10))).
    { apply cos_gt_0; [rewrite <- radians_90, <- radians_opp|rewrite <- radians_90];
        apply (proj2 (radians_lt _ _)); cbn; lra. }
    nra. }
  rewrite Rabs_right; lra.
Qed.

Example C113_case_sums : trapz 60 [1; 2; 4] = 270.
Proof. cbn. field. Qed.

Print Assumptions C113_times.
Print Assumptions C113_air_mass.
Print Assumptions C113_irradiance_bounds.
Print Assumptions C113_irradiance_zero.
Print Assumptions C113_irradiance_positive.
Print Assumptions C113_turbidity.
Print Assumptions C113_trapezium.
Print Assumptions C113_trapz_bounds.
Print Assumptions C113_trapz_app.
Print Assumptions C113_process.
Print Assumptions C113_errors.
Print Assumptions C113_radiation_bounds.
Print Assumptions C113_polar_night.
Print Assumptions C113_additive.
Print Assumptions C113_negative_spacing_refuted.
