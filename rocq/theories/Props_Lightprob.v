(** C91: the probability of lightning from several variables. *)
From Coq Require Import Reals Lia.
From Verif Require Import Base Model_Lightprob.
From Coq Require Import Lra.
Local Open Scope R_scope.

(** * Specification *)
(** Values that can occur: no negative CAPE, water or precipitation, and no positive inhibition. *)
Definition physical (cape pwat cin apcp : R) : Prop := 0 <= cape /\ 0 <= pwat /\ cin <= 0 /\ 0 <= apcp.

Lemma ln_le x y : 0 < x -> x <= y -> ln x <= ln y.
Proof. intros P [L|E]; [apply Rlt_le, ln_increasing; assumption|subst; lra]. Qed.
Lemma exp_lower x n : (0 < n)%nat -> 0 <= x -> (1 + x / INR n) ^ n <= exp x.
Proof.
  intros N X. assert (P : 0 < INR n) by (apply lt_0_INR; lia). assert (E : exp x = exp (x / INR n) ^ n).
  { assert (G : forall m, exp (x / INR n) ^ m = exp (INR m * (x / INR n))). { induction m as [|m IH]; [cbn; rewrite Rmult_0_l, exp_0; reflexivity|]. rewrite S_INR, Rmult_plus_distr_r, Rmult_1_l, exp_plus, <- IH. cbn. ring. }
    rewrite G. f_equal. field. lra. }
  rewrite E. apply pow_incr. split.
  - assert (0 <= x / INR n) by (apply Rmult_le_pos; [lra|apply Rlt_le, Rinv_0_lt_compat; lra]). lra.
  - assert (0 <= x / INR n) by (apply Rmult_le_pos; [lra|apply Rlt_le, Rinv_0_lt_compat; lra]). destruct (Req_dec (x / INR n) 0) as [Z0|Z0]; [rewrite Z0, exp_0; lra|]. apply Rlt_le, exp_ineq1. lra.
Qed.
(** The constants of the regressions keep the probabilities from being negative. *)
Lemma ln_070 : - (5 / 13) <= ln (7 / 10).
Proof.
  rewrite <- (ln_exp (- (5 / 13))). apply ln_le; [apply exp_pos|]. rewrite exp_Ropp. pose proof (exp_lower (5 / 13) 5 ltac:(lia) ltac:(lra)) as L. assert (I5 : INR 5 = 5) by (cbn; lra). rewrite I5 in L. pose proof (exp_pos (5 / 13)).
  apply Rmult_le_reg_r with (exp (5 / 13)); [assumption|]. rewrite Rinv_l by lra. assert (Q : 10 / 7 <= (1 + 5 / 13 / 5) ^ 5) by (cbn; lra). lra.
Qed.
Lemma power_030 : 100 / 31 <= (1 + 12 / 10 / 30) ^ 30.
Proof.
  replace ((1 + 12 / 10 / 30) ^ 30) with ((((1 + 12 / 10 / 30) ^ 5) ^ 3) ^ 2) by (rewrite <- !pow_mult; reflexivity).
  assert (A : 1216 / 1000 <= (1 + 12 / 10 / 30) ^ 5) by (cbn; lra).
  assert (B : 1797 / 1000 <= ((1 + 12 / 10 / 30) ^ 5) ^ 3) by (apply Rle_trans with ((1216 / 1000) ^ 3); [cbn; lra|apply pow_incr; split; [lra|exact A]]).
  apply Rle_trans with ((1797 / 1000) ^ 2); [cbn; lra|apply pow_incr; split; [lra|exact B]].
Qed.
Lemma INR_30 : INR 30 = 30.
Proof. rewrite INR_IZR_INZ. reflexivity. Qed.
Lemma ln_031 : - (12 / 10) <= ln (31 / 100).
Proof.
  rewrite <- (ln_exp (- (12 / 10))). apply ln_le; [apply exp_pos|]. rewrite exp_Ropp.
  assert (E : 100 / 31 <= exp (12 / 10)).
  { apply Rle_trans with ((1 + 12 / 10 / 30) ^ 30); [exact power_030|]. rewrite <- INR_30 at 1. apply exp_lower; [lia|lra]. }
  pose proof (exp_pos (12 / 10)) as P. apply Rmult_le_reg_r with (exp (12 / 10)); [assumption|]. rewrite Rinv_l by lra. lra.
Qed.
Lemma log_ln x : 0 < x -> log x = Some (ln x).
Proof. intro H. unfold log. destruct (Rlt_dec 0 x); [reflexivity|contradiction]. Qed.
Lemma root_sqrt x : 0 <= x -> root x = Some (sqrt x).
Proof. intro H. unfold root. destruct (Rle_dec 0 x); [reflexivity|contradiction]. Qed.
Lemma inches_nonneg a : 0 <= a -> 0 <= inches a.
Proof. intro H. unfold inches. lra. Qed.
Lemma with_value cape apcp : 0 <= cape -> 0 <= apcp -> exists p, with_precipitation cape apcp = Some p /\ 0 <= p /\ p = 13 / 100 * ln (cape * apcp + 7 / 10) + 5 / 100.
Proof.
  intros C A. assert (P : 0 <= cape * apcp) by (apply Rmult_le_pos; assumption). unfold with_precipitation. rewrite log_ln by lra. cbn [option_map]. eexists. split; [reflexivity|]. split; [|reflexivity]. assert (L : ln (7 / 10) <= ln (cape * apcp + 7 / 10)) by (apply ln_le; lra). pose proof ln_070. lra.
Qed.
Lemma without_value cape cin : 0 <= cape -> 0 <= cin -> exists p, without_precipitation cape cin = Some p /\ 0 <= p /\ p = 25 / 1000 * ln (cape / (cin + 100) + 31 / 100) + 3 / 100.
Proof.
  intros C A. assert (P : 0 <= cape / (cin + 100)) by (apply Rmult_le_pos; [assumption|apply Rlt_le, Rinv_0_lt_compat; lra]). unfold without_precipitation. destruct (Req_EM_T (cin + 100) 0); [lra|]. rewrite log_ln by lra. cbn [option_map]. eexists. split; [reflexivity|]. split; [|reflexivity]. assert (L : ln (31 / 100) <= ln (cape / (cin + 100) + 31 / 100)) by (apply ln_le; lra). pose proof ln_031. lra.
Qed.
Definition lifted (liftidx : R) : R := Rmax 0 (liftidx + 4).
Lemma stable_value liftidx apcp : 0 <= apcp -> exists p, stable liftidx apcp = Some p /\ 0 <= p /\ p = 2 / 10 * sqrt (lifted liftidx * apcp).
Proof.
  intro A. unfold stable. cbv zeta. assert (E : (if Rlt_dec (liftidx + 4) 0 then 0 else liftidx + 4) = lifted liftidx) by (unfold lifted; destruct (Rlt_dec (liftidx + 4) 0); [rewrite Rmax_left; lra|rewrite Rmax_right; lra]). rewrite E. assert (0 <= lifted liftidx) by apply Rmax_l. rewrite root_sqrt by (apply Rmult_le_pos; assumption). cbn [option_map]. eexists. split; [reflexivity|]. split; [|reflexivity]. pose proof (sqrt_pos (lifted liftidx * apcp)). lra.
Qed.

(** * C91 *)
(** The regression that applies, before the reduction for little water and the limit of 95 %. *)
Definition regression (cape liftidx pwat cin apcp : R) : R :=
  if Rle_dec cape 0 then 2 / 10 * sqrt (lifted liftidx * inches apcp)
  else if Rlt_dec (inches apcp - pwat / 1000) (1 / 100) then 25 / 1000 * ln (cape / (100 - cin) + 31 / 100) + 3 / 100
  else 13 / 100 * ln (cape * inches apcp + 7 / 10) + 5 / 100.
Theorem C91_value cape liftidx pwat cin apcp : physical cape pwat cin apcp ->
  lightning_probability cape liftidx pwat cin apcp = Some (Rmin (95 / 100) (regression cape liftidx pwat cin apcp * Rmin 1 (pwat / 20))) /\ 0 <= regression cape liftidx pwat cin apcp.
Proof.
  intros (C & W & I & A). unfold lightning_probability. cbv zeta. pose proof (inches_nonneg apcp A) as A'.
  destruct (with_value cape (inches apcp) C A') as (p1 & E1 & P1 & V1). destruct (without_value cape (-1 * cin) C ltac:(lra)) as (p2 & E2 & P2 & V2). destruct (stable_value liftidx (inches apcp) A') as (p3 & E3 & P3 & V3). rewrite E1, E2, E3.
  assert (X : exists p, (if Rle_dec cape 0 then Some p3 else if Rlt_dec (inches apcp - pwat / 1000) (1 / 100) then Some p2 else Some p1) = Some p /\ p = regression cape liftidx pwat cin apcp /\ 0 <= p).
  { unfold regression. destruct (Rle_dec cape 0); [exists p3; auto|]. destruct (Rlt_dec (inches apcp - pwat / 1000) (1 / 100)); [exists p2|exists p1]; (split; [reflexivity|]; split; [|assumption]); [|exact V1]. rewrite V2. replace (-1 * cin + 100) with (100 - cin) by ring. reflexivity. }
  destruct X as (p & -> & <- & P). split; [|exact P].
  destruct (Rlt_dec pwat 20) as [L|L]; cbn [option_map].
  - rewrite (Rmin_right 1 (pwat / 20)) by lra. destruct (Rlt_dec (95 / 100) (p * (pwat / 20))); [rewrite Rmin_left by lra|rewrite Rmin_right by lra]; reflexivity.
  - rewrite (Rmin_left 1 (pwat / 20)) by lra. rewrite Rmult_1_r. destruct (Rlt_dec (95 / 100) p); [rewrite Rmin_left by lra|rewrite Rmin_right by lra]; reflexivity.
Qed.
(** A probability, at most 95 %. *)
Theorem C91_range cape liftidx pwat cin apcp : physical cape pwat cin apcp -> exists p, lightning_probability cape liftidx pwat cin apcp = Some p /\ 0 <= p <= 95 / 100.
Proof.
  intro H. destruct (C91_value cape liftidx pwat cin apcp H) as [E P]. eexists. split; [exact E|]. destruct H as (C & W & I & A). split; [|apply Rmin_l]. apply Rmin_glb; [lra|]. apply Rmult_le_pos; [exact P|]. apply Rmin_glb; lra.
Qed.
Lemma final_mono r r' k : 0 <= k -> r <= r' -> Rmin (95 / 100) (r * k) <= Rmin (95 / 100) (r' * k).
Proof. intros K L. apply Rle_min_compat_l. apply Rmult_le_compat_r; assumption. Qed.
(** No lightning without water in the column. *)
Theorem C91_dry cape liftidx cin apcp : physical cape 0 cin apcp -> lightning_probability cape liftidx 0 cin apcp = Some 0.
Proof.
  intro H. destruct (C91_value cape liftidx 0 cin apcp H) as [E P]. rewrite E. rewrite (Rmin_right 1 (0 / 20)) by lra. replace (regression cape liftidx 0 cin apcp * (0 / 20)) with 0 by lra. rewrite Rmin_right by lra. reflexivity.
Qed.
(** More CAPE, above zero, never makes lightning less likely ... *)
Theorem C91_cape cape cape' liftidx pwat cin apcp p p' : physical cape pwat cin apcp -> 0 < cape <= cape' -> lightning_probability cape liftidx pwat cin apcp = Some p -> lightning_probability cape' liftidx pwat cin apcp = Some p' -> p <= p'.
Proof.
  intros H [C0 CC] E E'. assert (H' : physical cape' pwat cin apcp) by (unfold physical in *; lra). destruct (C91_value cape liftidx pwat cin apcp H) as [V P]. destruct (C91_value cape' liftidx pwat cin apcp H') as [V' P']. rewrite E in V. rewrite E' in V'. injection V as ->. injection V' as ->. destruct H as (C & W & I & A). pose proof (inches_nonneg apcp A) as A'.
  apply final_mono; [apply Rmin_glb; lra|]. unfold regression. destruct (Rle_dec cape 0); [lra|]. destruct (Rle_dec cape' 0); [lra|]. destruct (Rlt_dec (inches apcp - pwat / 1000) (1 / 100)).
  - assert (K : 0 < / (100 - cin)) by (apply Rinv_0_lt_compat; lra). assert (L : cape / (100 - cin) <= cape' / (100 - cin)) by (unfold Rdiv; apply Rmult_le_compat_r; lra). assert (Q : 0 <= cape / (100 - cin)) by (unfold Rdiv; apply Rmult_le_pos; lra).
    assert (M : ln (cape / (100 - cin) + 31 / 100) <= ln (cape' / (100 - cin) + 31 / 100)) by (apply ln_le; lra). lra.
  - assert (L : cape * inches apcp <= cape' * inches apcp) by (apply Rmult_le_compat_r; lra). assert (Q : 0 <= cape * inches apcp) by (apply Rmult_le_pos; lra). assert (M : ln (cape * inches apcp + 7 / 10) <= ln (cape' * inches apcp + 7 / 10)) by (apply ln_le; lra). lra.
Qed.
(** ... and more inhibition never more likely; the inhibition only matters without precipitation. *)
Theorem C91_inhibition cape liftidx pwat cin cin' apcp p p' : physical cape pwat cin apcp -> cin' <= cin -> lightning_probability cape liftidx pwat cin apcp = Some p -> lightning_probability cape liftidx pwat cin' apcp = Some p' ->
  p' <= p /\ (cape = 0 \/ 1 / 100 <= inches apcp - pwat / 1000 -> p' = p).
Proof.
  intros H L E E'. assert (H' : physical cape pwat cin' apcp) by (unfold physical in *; lra). destruct (C91_value cape liftidx pwat cin apcp H) as [V P]. destruct (C91_value cape liftidx pwat cin' apcp H') as [V' P']. rewrite E in V. rewrite E' in V'. injection V as ->. injection V' as ->. destruct H as (C & W & I & A).
  split.
  - apply final_mono; [apply Rmin_glb; lra|]. unfold regression. destruct (Rle_dec cape 0); [lra|]. destruct (Rlt_dec (inches apcp - pwat / 1000) (1 / 100)); [|lra].
    assert (K : / (100 - cin') <= / (100 - cin)) by (apply Rinv_le_contravar; lra). assert (K0 : 0 < / (100 - cin')) by (apply Rinv_0_lt_compat; lra). assert (Q : cape / (100 - cin') <= cape / (100 - cin)) by (unfold Rdiv; apply Rmult_le_compat_l; lra). assert (Q0 : 0 <= cape / (100 - cin')) by (unfold Rdiv; apply Rmult_le_pos; lra).
    assert (M : ln (cape / (100 - cin') + 31 / 100) <= ln (cape / (100 - cin) + 31 / 100)) by (apply ln_le; lra). lra.
  - intro X. unfold regression. destruct (Rle_dec cape 0); [reflexivity|]. destruct (Rlt_dec (inches apcp - pwat / 1000) (1 / 100)); [lra|reflexivity].
Qed.
(** Refuted: that this holds down to no CAPE at all. With the smallest CAPE the probability can be a tenth of that without any. *)
Lemma ln_small x : 0 < 1 + x -> ln (1 + x) <= x.
Proof.
  intro L. rewrite <- (ln_exp x) at 2. apply ln_le; [lra|]. destruct (Req_dec x 0) as [->|N]; [rewrite exp_0; lra|]. apply Rlt_le, exp_ineq1. exact N.
Qed.
Theorem C91_cape_refuted : exists cape cape' liftidx pwat cin apcp p p', physical cape pwat cin apcp /\ 0 <= cape < cape' /\ lightning_probability cape liftidx pwat cin apcp = Some p /\ lightning_probability cape' liftidx pwat cin apcp = Some p' /\ 8 * p' < p.
Proof.
  set (a := 1000 * 10000 / 393701). assert (A : inches a = 1) by (unfold inches, a; field). exists 0, (1 / 1000), 0, 20, 0, a.
  assert (H : physical 0 20 0 a) by (unfold physical, a; lra). assert (H' : physical (1 / 1000) 20 0 a) by (unfold physical, a; lra).
  destruct (C91_value 0 0 20 0 a H) as [V _]. destruct (C91_value (1 / 1000) 0 20 0 a H') as [V' _]. eexists _, _. split; [exact H|]. split; [lra|]. split; [exact V|]. split; [exact V'|].
  rewrite (Rmin_left 1 (20 / 20)) by lra. rewrite !Rmult_1_r. unfold regression. rewrite A. destruct (Rle_dec 0 0); [|lra]. destruct (Rle_dec (1 / 1000) 0); [lra|]. destruct (Rlt_dec (1 - 20 / 1000) (1 / 100)); [lra|].
  unfold lifted. rewrite Rmax_right by lra. replace ((0 + 4) * 1) with (2 * 2) by ring. rewrite sqrt_square by lra. rewrite (Rmin_right (95 / 100) (2 / 10 * 2)) by lra.
  pose proof (ln_small (1 / 1000 * 1 + 7 / 10 - 1) ltac:(lra)) as L. replace (1 + (1 / 1000 * 1 + 7 / 10 - 1)) with (1 / 1000 * 1 + 7 / 10) in L by ring. rewrite Rmin_right by lra. lra.
Qed.
(** Refuted: that the result is a probability whatever the convention for inhibition: a positive value of more than 100 gives a result that is not. *)
Theorem C91_convention_refuted : exists cape liftidx pwat cin apcp, 0 <= cape /\ 0 <= pwat /\ 0 <= apcp /\ 0 < cin /\ lightning_probability cape liftidx pwat cin apcp = None.
Proof.
  exists 1, 0, 20, 100, 0. repeat (split; [lra|]). unfold lightning_probability. cbv zeta. destruct (Rlt_dec (inches 0 - 20 / 1000) (1 / 100)) as [L|L]; [|unfold inches in L; lra]. destruct (Rle_dec 1 0); [lra|]. unfold without_precipitation. destruct (Req_EM_T (-1 * 100 + 100) 0); [|lra]. destruct (Rlt_dec 20 20); reflexivity.
Qed.
(** Which inputs are accepted. *)
Theorem C91_inputs cubes : (exists r, get_inputs cubes = Ok r) <->
  exists cape liftidx pwat cin apcp, let others := [cape; liftidx; pwat; cin] in
    (forall c w, In (c, w) (combine (others ++ [apcp])%list wanted) -> filter (fun x => String.eqb (in_name x) (fst w)) cubes = [c] /\ In (in_units c) (snd w)) /\
    exists lower, in_bounds apcp = Some (lower, lower + 10800)%Z /\ forall c, In c others -> in_time c = lower /\ in_frt c = in_frt apcp /\ in_grid c = in_grid apcp.
Proof.
  assert (G : forall w c, get cubes w = Ok c <-> filter (fun x => String.eqb (in_name x) (fst w)) cubes = [c] /\ In (in_units c) (snd w)).
  { intros [n us] c. unfold get, extract. cbn [fst snd]. destruct (filter _ cubes) as [|x [|y l]]; cbn [bind]; [split; [discriminate|intros [C _]; discriminate]| |split; [discriminate|intros [C _]; discriminate]].
    destruct (existsb (String.eqb (in_units x)) us) eqn:E.
    - apply existsb_exists in E as (u & U & E). apply String.eqb_eq in E. split; [intro C; injection C as <-; split; [reflexivity|congruence]|intros [C _]; injection C as <-; reflexivity].
    - split; [discriminate|]. intros [C U]. injection C as <-. assert (X : existsb (String.eqb (in_units x)) us = true) by (apply existsb_exists; exists (in_units x); split; [exact U|apply String.eqb_refl]). congruence. }
  split.
  - intros [r H]. unfold get_inputs in H. unfold wanted in H. cbn [mapM] in H.
    destruct (get cubes _) as [cape|] eqn:E1 in H; [|discriminate]. cbn [bind] in H. destruct (get cubes _) as [lift|] eqn:E2 in H; [|discriminate]. cbn [bind] in H. destruct (get cubes _) as [pwat|] eqn:E3 in H; [|discriminate]. cbn [bind] in H. destruct (get cubes _) as [cin|] eqn:E4 in H; [|discriminate]. cbn [bind] in H. destruct (get cubes _) as [apcp|] eqn:E5 in H; [|discriminate]. cbn [bind] in H.
    exists cape, lift, pwat, cin, apcp. cbv zeta. split.
    + intros c w I0. apply G. unfold wanted in I0. cbn [combine app In] in I0. destruct I0 as [X|[X|[X|[X|[X|[]]]]]]; injection X as <- <-; assumption.
    + destruct (in_bounds apcp) as [[lower upper]|]; [|discriminate]. exists lower. destruct (forallb _ _) eqn:F1 in H; [|discriminate]. cbn [negb] in H. destruct (Z.eqb_spec (upper - lower) 10800); [|discriminate]. cbn [negb] in H. destruct (forallb _ _) eqn:F2 in H; [|discriminate]. cbn [negb] in H. destruct (forallb _ _) eqn:F3 in H; [|discriminate].
      split; [f_equal; f_equal; lia|]. intros c I0. rewrite forallb_forall in F1, F2, F3. specialize (F1 c I0). specialize (F2 c I0). specialize (F3 c I0). apply Z.eqb_eq in F1, F2, F3. auto.
  - intros (cape & lift & pwat & cin & apcp & H & lower & B & O). cbv zeta in H, O.
    assert (K : forall k c w, nth_error [cape; lift; pwat; cin; apcp] k = Some c -> nth_error wanted k = Some w -> get cubes w = Ok c).
    { intros k c w A1 A2. apply G. apply H. destruct k as [|[|[|[|[|k]]]]]; cbn in A1, A2; try (injection A1 as <-; injection A2 as <-; unfold wanted; cbn [combine app In]; auto 10). destruct k; discriminate. }
    unfold get_inputs. assert (M : mapM (get cubes) wanted = Ok [cape; lift; pwat; cin; apcp]).
    { unfold wanted. cbn [mapM]. rewrite (K 0%nat cape _ eq_refl eq_refl). cbn [bind]. rewrite (K 1%nat lift _ eq_refl eq_refl). cbn [bind]. rewrite (K 2%nat pwat _ eq_refl eq_refl). cbn [bind]. rewrite (K 3%nat cin _ eq_refl eq_refl). cbn [bind]. rewrite (K 4%nat apcp _ eq_refl eq_refl). reflexivity. }
    rewrite M. cbn [bind]. rewrite B. rewrite (proj2 (forallb_forall (fun c => (in_time c =? lower)%Z) [cape; lift; pwat; cin])) by (intros c I0; apply Z.eqb_eq, O, I0). cbn [negb]. replace (lower + 10800 - lower =? 10800)%Z with true by (symmetry; apply Z.eqb_eq; lia). cbn [negb].
    rewrite (proj2 (forallb_forall (fun c => (in_frt c =? in_frt apcp)%Z) [cape; lift; pwat; cin])) by (intros c I0; apply Z.eqb_eq, (O c I0)). cbn [negb]. rewrite (proj2 (forallb_forall (fun c => (in_grid c =? in_grid apcp)%Z) [cape; lift; pwat; cin])) by (intros c I0; apply Z.eqb_eq, (O c I0)). cbn [negb]. eexists. reflexivity.
Qed.
(** * Cases *)
Example C91_case : physical 0 40 0 0 /\ lightning_probability 0 (-10) 40 0 0 = Some 0.
Proof.
  assert (H : physical 0 40 0 0) by (unfold physical; lra). split; [exact H|]. destruct (C91_value 0 (-10) 40 0 0 H) as [V _]. rewrite V. unfold regression. destruct (Rle_dec 0 0); [|lra]. unfold lifted. rewrite Rmax_left by lra. rewrite Rmult_0_l, sqrt_0, Rmult_0_r, Rmult_0_l. rewrite Rmin_right by lra. reflexivity.
Qed.
Example C91_case_inputs : let c n u t := {| in_name := n; in_units := u; in_time := t; in_bounds := None; in_frt := 0; in_grid := 7 |} in
  match get_inputs [c "precipitable_water" "mm" 3600; c "atmosphere_specific_convective_inhibition" "J kg-1" 3600; c "atmosphere_specific_convective_available_potential_energy" "J kg-1" 3600; c "temperature_difference_between_ambient_air_and_air_lifted_adiabatically" "K" 3600;
    {| in_name := "precipitation_amount"; in_units := "mm"; in_time := 14400; in_bounds := Some (3600, 14400)%Z; in_frt := 0; in_grid := 7 |}]%string%Z with Ok (l, a) => map in_name l = map fst (firstn 4 wanted) /\ in_time a = 14400%Z | Err _ => False end.
Proof. vm_compute. split; reflexivity. Qed.

Print Assumptions C91_value.
Print Assumptions C91_range.
Print Assumptions C91_dry.
Print Assumptions C91_cape.
Print Assumptions C91_inhibition.
Print Assumptions C91_cape_refuted.
Print Assumptions C91_convention_refuted.
Print Assumptions C91_inputs.
