(** C93: the feels like temperature. *)
From Coq Require Import Reals.
From Verif Require Import Model_Feels.
From Coq Require Import Lra.
Local Open Scope R_scope.

(** * Specification *)
(** Inputs in degrees Celsius, m/s, as a fraction and in Pa. *)
Definition plain : units := {| celsius := fun x => x; from_celsius := fun x => x; ms := fun x => x; pa := fun x => x; one := fun x => x |}.
Definition felt (svp : R -> R -> R) (t w rh p : R) : R := calculate svp plain t w rh p.
(** The wind chill index (Osczevski and Bluestein 2005) with the speed of walking as the least wind, and the apparent temperature of Steadman (1984). *)
Definition chill_index (t w : R) : R := let v := Rpower (Rmax (36 / 10 * w) (4824 / 1000)) (16 / 100) in 1312 / 100 + 6215 / 10000 * t - 1137 / 100 * v + 3965 / 10000 * t * v.
Definition steadman (vapour t w : R) : R := - (27 / 10) + 104 / 100 * t + 2 * (vapour / 1000) - 65 / 100 * w.

(** * C93 *)
Lemma felt_eq svp t w rh p : felt svp t w rh p = feels_like t (steadman (svp (t + 27315 / 100) p * rh) t w) (chill_index t w).
Proof. unfold felt, calculate, plain. cbn [celsius from_celsius ms pa one]. unfold apparent_temperature, steadman, wind_chill, chill_index. f_equal. cbv zeta. lra. Qed.
(** Which index applies; the mixture between 10 and 20 degrees meets both at its ends and lies between them. *)
Theorem C93_value svp t w rh p : let a := steadman (svp (t + 27315 / 100) p * rh) t w in let c := chill_index t w in
  (t <= 10 -> felt svp t w rh p = c) /\ (20 <= t -> felt svp t w rh p = a) /\
  (10 <= t -> t <= 20 -> felt svp t w rh p = (t - 10) / 10 * a + (20 - t) / 10 * c /\ Rmin a c <= felt svp t w rh p <= Rmax a c).
Proof.
  intros a c. rewrite felt_eq. fold a c. clearbody a c. unfold feels_like. cbv zeta. split; [|split].
  - intro H. destruct (Rlt_dec 20 t); [lra|]. destruct (Rle_dec 10 t); [|destruct (Rlt_dec t 10); [reflexivity|lra]]. destruct (Rle_dec t 20); [|lra]. assert (E : t = 10) by lra. rewrite E. lra.
  - intro H. destruct (Rlt_dec 20 t); [reflexivity|]. destruct (Rle_dec 10 t); [|lra]. destruct (Rle_dec t 20); [|lra]. assert (E : t = 20) by lra. rewrite E. lra.
  - intros H K. destruct (Rlt_dec 20 t); [lra|]. destruct (Rle_dec 10 t); [|lra]. destruct (Rle_dec t 20); [|lra]. split; [lra|].
    set (al := (t - 10) / 10). assert (0 <= al <= 1) by (unfold al; lra). clearbody al. unfold Rmin, Rmax. destruct (Rle_dec a c); split; nra.
Qed.
Definition power (kmh : R) : R := Rpower (Rmax kmh (4824 / 1000)) (16 / 100).
Lemma power_le x y : x <= y -> power x <= power y.
Proof. intro H. unfold power. apply Rle_Rpower_l; [lra|]. split; [apply Rlt_le_trans with (4824 / 1000); [lra|apply Rmax_r]|]. apply Rle_max_compat_r. exact H. Qed.
Lemma power_least x : 127 / 100 <= power x.
Proof.
  apply Rle_trans with (power (4824 / 1000)); [|unfold power; apply Rle_Rpower_l; [lra|]; split; [unfold Rmax; destruct (Rle_dec _ _); lra|rewrite Rmax_left by lra; apply Rmax_r]].
  unfold power. rewrite Rmax_left by lra. set (v := 4824 / 1000). assert (V : 0 < v) by (unfold v; lra). set (e := Rpower v (16 / 100)). assert (E0 : 0 < e) by apply exp_pos.
  assert (E : e ^ 25 = v ^ 4). { rewrite <- (Rpower_pow 25 e E0), <- (Rpower_pow 4 v V). unfold e. rewrite Rpower_mult. f_equal. rewrite !INR_IZR_INZ. cbn [Z.of_nat Pos.of_succ_nat Pos.succ]. lra. }
  destruct (Rle_lt_dec (127 / 100) e) as [L|L]; [exact L|exfalso].
  assert (A : e ^ 25 <= (127 / 100) ^ 25) by (apply pow_incr; lra). assert (B : ((127 / 100) ^ 5) ^ 5 = (127 / 100) ^ 25) by (rewrite <- pow_mult; reflexivity).
  assert (C : (127 / 100) ^ 5 <= 331 / 100) by (cbn; lra). assert (D : ((127 / 100) ^ 5) ^ 5 <= (331 / 100) ^ 5) by (apply pow_incr; split; [apply pow_le; lra|exact C]).
  assert (F : (331 / 100) ^ 5 < v ^ 4) by (unfold v; cbn; lra). lra.
Qed.
Lemma chill_eq t w : chill_index t w = 1312 / 100 + 6215 / 10000 * t - 1137 / 100 * power (36 / 10 * w) + 3965 / 10000 * t * power (36 / 10 * w).
Proof. reflexivity. Qed.
(** More wind never feels warmer. *)
Theorem C93_wind svp t w w' rh p : w <= w' -> felt svp t w' rh p <= felt svp t w rh p.
Proof.
  intro H. assert (P : power (36 / 10 * w) <= power (36 / 10 * w')) by (apply power_le; lra).
  destruct (C93_value svp t w rh p) as (A1 & A2 & A3). destruct (C93_value svp t w' rh p) as (B1 & B2 & B3). rewrite !chill_eq in *. unfold steadman in *.
  destruct (Rle_lt_dec t 10) as [T|T]; [rewrite A1, B1 by exact T; nra|]. destruct (Rle_lt_dec 20 t) as [T'|T']; [rewrite A2, B2 by exact T'; lra|].
  destruct (A3 ltac:(lra) ltac:(lra)) as [-> _]. destruct (B3 ltac:(lra) ltac:(lra)) as [-> _]. clear A1 A2 A3 B1 B2 B3.
  set (e := power (36 / 10 * w)) in *. set (e' := power (36 / 10 * w')) in *. set (v := svp _ _ * rh). clearbody e e' v.
  assert (C : 1312 / 100 + 6215 / 10000 * t - 1137 / 100 * e' + 3965 / 10000 * t * e' <= 1312 / 100 + 6215 / 10000 * t - 1137 / 100 * e + 3965 / 10000 * t * e) by nra.
  apply Rplus_le_compat; apply Rmult_le_compat_l; lra.
Qed.
(** More humidity never feels colder. *)
Theorem C93_humidity svp t w rh rh' p : 0 <= svp (t + 27315 / 100) p -> rh <= rh' -> felt svp t w rh p <= felt svp t w rh' p /\ (t <= 10 -> felt svp t w rh p = felt svp t w rh' p).
Proof.
  intros V H. destruct (C93_value svp t w rh p) as (A1 & A2 & A3). destruct (C93_value svp t w rh' p) as (B1 & B2 & B3). unfold steadman in *.
  assert (Q : svp (t + 27315 / 100) p * rh <= svp (t + 27315 / 100) p * rh') by (apply Rmult_le_compat_l; assumption).
  set (x := svp _ p * rh) in *. set (y := svp _ p * rh') in *. set (c := chill_index t w) in *. clearbody x y c. split; [|intro T; rewrite A1, B1 by exact T; reflexivity].
  destruct (Rle_lt_dec t 10) as [T|T]; [rewrite A1, B1 by exact T; lra|]. destruct (Rle_lt_dec 20 t) as [T'|T']; [rewrite A2, B2 by exact T'; lra|].
  destruct (A3 ltac:(lra) ltac:(lra)) as [-> _]. destruct (B3 ltac:(lra) ltac:(lra)) as [-> _]. clear A1 A2 A3 B1 B2 B3. apply Rplus_le_compat_r, Rmult_le_compat_l; lra.
Qed.
(** Up to 10 degrees it always feels colder than it is, and the colder it is the colder it feels; less wind than walking makes no difference. *)
Theorem C93_cold svp t w rh p : t <= 10 -> felt svp t w rh p < t.
Proof.
  intro T. destruct (C93_value svp t w rh p) as (A & _). rewrite A by exact T. rewrite chill_eq. pose proof (power_least (36 / 10 * w)). set (e := power _) in *. clearbody e. nra.
Qed.
Theorem C93_colder svp t t' w rh rh' p p' : t < t' -> t' <= 10 -> felt svp t w rh p < felt svp t' w rh' p'.
Proof.
  intros H T. destruct (C93_value svp t w rh p) as (A & _). destruct (C93_value svp t' w rh' p') as (B & _). rewrite A, B by lra. rewrite !chill_eq. pose proof (power_least (36 / 10 * w)). set (e := power _) in *. clearbody e. nra.
Qed.
Theorem C93_walking svp t w rh p : t <= 10 -> w <= 134 / 100 -> felt svp t w rh p = felt svp t 0 rh p.
Proof.
  intros T W. destruct (C93_value svp t w rh p) as (A & _). destruct (C93_value svp t 0 rh p) as (B & _). rewrite A, B by exact T. rewrite !chill_eq. unfold power. rewrite (Rmax_right (36 / 10 * w)) by lra. rewrite (Rmax_right (36 / 10 * 0)) by lra. reflexivity.
Qed.
(** Above 20 degrees it feels warmer the warmer it is, for the same vapour pressure. *)
Theorem C93_warmer svp t t' w rh rh' p p' : 20 <= t -> t < t' -> svp (t + 27315 / 100) p * rh <= svp (t' + 27315 / 100) p' * rh' -> felt svp t w rh p < felt svp t' w rh' p'.
Proof. intros T H V. destruct (C93_value svp t w rh p) as (_ & A & _). destruct (C93_value svp t' w rh' p') as (_ & B & _). rewrite A, B by lra. unfold steadman. lra. Qed.
(** Not between: in a gale (30 m/s) and dry air, 15 degrees feel colder than 10. *)
Lemma power_108 : 21 / 10 <= power 108 <= 214 / 100.
Proof.
  unfold power. rewrite Rmax_left by lra. set (e := Rpower 108 (16 / 100)). assert (E0 : 0 < e) by apply exp_pos. assert (E : e ^ 25 = 108 ^ 4). { rewrite <- (Rpower_pow 25 e E0), <- (Rpower_pow 4 108) by lra. unfold e. rewrite Rpower_mult. f_equal. rewrite !INR_IZR_INZ. cbn [Z.of_nat Pos.of_succ_nat Pos.succ]. lra. }
  assert (B : forall x, (x ^ 5) ^ 5 = x ^ 25) by (intro x; rewrite <- pow_mult; reflexivity). split.
  - destruct (Rle_lt_dec (21 / 10) e) as [L|L]; [exact L|exfalso]. assert (A : e ^ 25 <= (21 / 10) ^ 25) by (apply pow_incr; lra). rewrite <- (B (21 / 10)) in A.
    assert (C : (21 / 10) ^ 5 <= 409 / 10) by (cbn; lra). assert (D : ((21 / 10) ^ 5) ^ 5 <= (409 / 10) ^ 5) by (apply pow_incr; split; [apply pow_le; lra|exact C]). assert (F : (409 / 10) ^ 5 < 108 ^ 4) by (cbn; lra). lra.
  - destruct (Rle_lt_dec e (214 / 100)) as [L|L]; [exact L|exfalso]. assert (A : (214 / 100) ^ 25 <= e ^ 25) by (apply pow_incr; lra). rewrite <- (B (214 / 100)) in A.
    assert (C : 448 / 10 <= (214 / 100) ^ 5) by (cbn; lra). assert (D : (448 / 10) ^ 5 <= ((214 / 100) ^ 5) ^ 5) by (apply pow_incr; split; [lra|exact C]). assert (F : 108 ^ 4 < (448 / 10) ^ 5) by (cbn; lra). lra.
Qed.
Theorem C93_gale_refuted svp p : felt svp 15 30 0 p < felt svp 10 30 0 p.
Proof.
  destruct (C93_value svp 15 30 0 p) as (_ & _ & A). destruct (C93_value svp 10 30 0 p) as (B & _). destruct (A ltac:(lra) ltac:(lra)) as [-> _]. rewrite B by lra. rewrite !chill_eq. replace (36 / 10 * 30) with 108 by lra. pose proof power_108. unfold steadman. rewrite Rmult_0_r. set (e := power 108) in *. clearbody e. lra.
Qed.
(** The result is in the units of the temperature given: in kelvin, with a wind in knots and a humidity in percent. *)
Definition kelvin : units := {| celsius := fun x => x - 27315 / 100; from_celsius := fun x => x + 27315 / 100; ms := fun x => x * (514444 / 1000000); pa := fun x => x; one := fun x => x / 100 |}.
Theorem C93_units svp t w rh p : calculate svp kelvin t w rh p = felt svp (t - 27315 / 100) (w * (514444 / 1000000)) (rh / 100) p + 27315 / 100 /\ (t <= 28315 / 100 -> calculate svp kelvin t w rh p < t).
Proof. split; [reflexivity|]. intro H. change (calculate svp kelvin t w rh p) with (felt svp (t - 27315 / 100) (w * (514444 / 1000000)) (rh / 100) p + 27315 / 100). pose proof (C93_cold svp (t - 27315 / 100) (w * (514444 / 1000000)) (rh / 100) p). lra. Qed.
Example C93_case : felt (fun _ _ => 611) (-10) 0 (1 / 2) 100000 < -10 /\ felt (fun _ _ => 3000) 30 2 1 100000 = 332 / 10.
Proof. split; [apply C93_cold; lra|]. destruct (C93_value (fun _ _ => 3000) 30 2 1 100000) as (_ & A & _). rewrite A by lra. unfold steadman. lra. Qed.

Print Assumptions C93_value.
Print Assumptions C93_wind.
Print Assumptions C93_humidity.
Print Assumptions C93_cold.
Print Assumptions C93_colder.
Print Assumptions C93_walking.
Print Assumptions C93_warmer.
Print Assumptions C93_gale_refuted.
Print Assumptions C93_units.
