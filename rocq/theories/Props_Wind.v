(** C83: the mean wind direction of an ensemble.  C84: wind components on a grid. *)
From Coq Require Import Reals ZArith List Lia Permutation Bool.
From Verif Require Import Base Model_Wind.
From Coq Require Import Lra.
Import ListNotations.
Local Open Scope R_scope.

(** * Facts about angles *)
Lemma mod360_range : forall x, 0 <= mod360 x < 360.
Proof.
  intro x. unfold mod360. destruct (base_Int_part (x / 360)) as [A B].
  revert A B. generalize (IZR (Int_part (x / 360))) as k. intros k A B. assert (E : x = 360 * (x / 360)) by field. split; lra.
Qed.
Lemma mod360_shift : forall x (k : Z), 0 <= x < 360 -> mod360 (x + 360 * IZR k) = x.
Proof.
  intros x k H. unfold mod360. set (y := (x + 360 * IZR k) / 360). destruct (base_Int_part y) as [A B].
  assert (E : y = x / 360 + IZR k) by (unfold y; field).
  assert (E2 : Int_part y = k).
  { assert (L1 : IZR (Int_part y) < IZR k + 1) by lra. assert (L2 : IZR k < IZR (Int_part y) + 1) by lra.
    rewrite <- plus_IZR in L1, L2. apply lt_IZR in L1, L2. lia. }
  rewrite E2. ring.
Qed.
Lemma mod360_eq : forall x, exists k : Z, x = mod360 x + 360 * IZR k.
Proof. intro x. exists (Int_part (x / 360)). unfold mod360. ring. Qed.
Lemma mod360_congr : forall x (k : Z), mod360 (x + 360 * IZR k) = mod360 x.
Proof.
  intros x k. destruct (mod360_eq x) as [m M]. rewrite M at 1. replace (mod360 x + 360 * IZR m + 360 * IZR k) with (mod360 x + 360 * IZR (m + k)) by (rewrite plus_IZR; ring).
  apply mod360_shift, mod360_range.
Qed.
Lemma same_angle : forall a b, cos a = cos b -> sin a = sin b -> exists k : Z, a = b + 2 * PI * IZR k.
Proof.
  intros a b C S'. assert (H : cos (a - b) = 1). { rewrite cos_minus, C, S'. pose proof (sin2_cos2 b) as E. unfold Rsqr in E. lra. }
  replace (a - b) with (2 * ((a - b) / 2)) in H by field. rewrite cos_2a_sin in H. assert (Z0 : sin ((a - b) / 2) = 0) by nra.
  apply sin_eq_0_0 in Z0. destruct Z0 as [k K]. exists k. assert (a - b = 2 * (IZR k * PI)) by lra. lra.
Qed.
Lemma modulus_nonneg : forall z, 0 <= modulus z.
Proof. intro z. apply sqrt_pos. Qed.
Lemma modulus_sq : forall z, modulus z * modulus z = fst z * fst z + snd z * snd z.
Proof. intro z. unfold modulus. rewrite sqrt_sqrt; [reflexivity|]. unfold Rsqr. nra. Qed.
(** numpy's angle is an argument. *)
Lemma argument_polar : forall z, 0 < modulus z -> fst z = modulus z * cos (argument z) /\ snd z = modulus z * sin (argument z).
Proof.
  intros z H. unfold argument. destruct (Req_EM_T (modulus z) 0) as [E|E]; [lra|]. pose proof (modulus_sq z) as Q. set (r := modulus z) in *. set (u := fst z / r).
  assert (U : fst z = r * u) by (unfold u; field; lra).
  assert (B : -1 <= u <= 1). { assert (u * u <= 1). { rewrite U in Q. assert (0 <= snd z * snd z) by nra. assert (r * r * (u * u) <= r * r * 1) by nra. apply Rmult_le_reg_l with (r * r); nra. } split; nra. }
  assert (S2 : sqrt (1 - u²) = Rabs (snd z) / r).
  { replace (1 - u²) with ((Rabs (snd z) / r)²). - apply sqrt_Rsqr. apply Rmult_le_pos; [apply Rabs_pos|]. left. apply Rinv_0_lt_compat. exact H.
    - unfold Rsqr. replace (Rabs (snd z) / r * (Rabs (snd z) / r)) with (Rabs (snd z) * Rabs (snd z) / (r * r)) by (field; lra). rewrite <- Rabs_mult, Rabs_pos_eq by nra.
      apply Rmult_eq_reg_r with (r * r); [|nra]. field_simplify; [|lra]. rewrite U in Q. nra. }
  destruct (Rle_dec 0 (snd z)) as [P|P].
  - rewrite cos_acos, sin_acos, S2 by exact B. split; [exact U|]. rewrite Rabs_pos_eq by exact P. field. lra.
  - rewrite cos_neg, sin_neg, cos_acos, sin_acos, S2 by exact B. split; [exact U|]. rewrite Rabs_left by lra. field. lra.
Qed.
(** The direction of a vector that is not zero is the only one in [0, 360) at which it points. *)
Lemma complex_to_deg_unique : forall x y d r, 0 < r -> x = r * cos (radians d) -> y = r * sin (radians d) -> complex_to_deg (x, y) = mod360 d.
Proof.
  intros x y d r R X Y. assert (M : modulus (x, y) = r).
  { apply Rsqr_inj; [apply modulus_nonneg|lra|]. unfold Rsqr. rewrite modulus_sq. cbn [fst snd]. rewrite X, Y. pose proof (sin2_cos2 (radians d)) as E. unfold Rsqr in E.
    replace (r * cos (radians d) * (r * cos (radians d)) + r * sin (radians d) * (r * sin (radians d))) with (r * r * (sin (radians d) * sin (radians d) + cos (radians d) * cos (radians d))) by ring. rewrite E. ring. }
  assert (P : 0 < modulus (x, y)) by lra. destruct (argument_polar (x, y) P) as [A B]. rewrite M in A, B. cbn [fst snd] in A, B.
  destruct (same_angle (argument (x, y)) (radians d)) as [k K].
  - apply Rmult_eq_reg_l with r; [|lra]. congruence.
  - apply Rmult_eq_reg_l with r; [|lra]. congruence.
  - unfold complex_to_deg. rewrite K. unfold degrees, radians. pose proof PI_RGT_0. replace ((d * (PI / 180) + 2 * PI * IZR k) * (180 / PI)) with (d + 360 * IZR k) by (field; lra). apply mod360_congr.
Qed.
Lemma mod360_id : forall x, 0 <= x < 360 -> mod360 x = x.
Proof. intros x H. rewrite <- (mod360_shift x 0 H) at 2. f_equal. rewrite Rmult_0_r. ring. Qed.
Lemma turn : forall k : Z, cos (2 * IZR k * PI) = 1 /\ sin (2 * IZR k * PI) = 0.
Proof.
  intro k. split.
  - replace (2 * IZR k * PI) with (2 * (IZR k * PI)) by ring. rewrite cos_2a_sin, (sin_eq_0_1 (IZR k * PI)) by (exists k; reflexivity). ring.
  - apply sin_eq_0_1. exists (2 * k)%Z. rewrite mult_IZR. reflexivity.
Qed.
Lemma cos_turn : forall x (k : Z), cos (x + 2 * IZR k * PI) = cos x.
Proof. intros. rewrite cos_plus. destruct (turn k) as [-> ->]. ring. Qed.
Lemma sin_turn : forall x (k : Z), sin (x + 2 * IZR k * PI) = sin x.
Proof. intros. rewrite sin_plus. destruct (turn k) as [-> ->]. ring. Qed.
Lemma radians_plus : forall a b, radians (a + b) = radians a + radians b.
Proof. intros. unfold radians. ring. Qed.

(** * Specification: the average of a quantity over the members, and the direction in which a vector points *)
Definition average {A} (f : A -> R) (l : list A) : R := rsum (map f l) / INR (length l).
Definition points_at (x y r d : R) : Prop := x = r * cos (d * (PI / 180)) /\ y = r * sin (d * (PI / 180)).
(** The length of the average of the unit vectors of the members: 1 if all agree, 0 if they cancel. *)
Definition agreement (ms : members) (p : nat) : R :=
  sqrt ((average (fun m => cos (snd m p * (PI / 180))) ms)² + (average (fun m => sin (snd m p * (PI / 180))) ms)²).

Lemma rsum_ext : forall A (f g : A -> R) l, (forall x, In x l -> f x = g x) -> rsum (map f l) = rsum (map g l).
Proof. induction l as [|a l IH]; intro H; [reflexivity|]. cbn [map rsum]. rewrite H, IH; [reflexivity| |left; reflexivity]. intros x X. apply H. right. exact X. Qed.
Lemma rsum_scale : forall A (f : A -> R) c l, rsum (map (fun x => c * f x) l) = c * rsum (map f l).
Proof. induction l as [|a l IH]; cbn [map rsum]; [ring|rewrite IH; ring]. Qed.
Lemma rsum_plus : forall A (f g : A -> R) l, rsum (map (fun x => f x + g x) l) = rsum (map f l) + rsum (map g l).
Proof. induction l as [|a l IH]; cbn [map rsum]; [ring|rewrite IH; ring]. Qed.
Lemma rsum_perm : forall l l', Permutation l l' -> rsum l = rsum l'.
Proof. induction 1; cbn [rsum]; lra. Qed.
Lemma rsum_const : forall A (f : A -> R) c l, (forall x, In x l -> f x = c) -> rsum (map f l) = INR (length l) * c.
Proof.
  induction l as [|a l IH]; intro H; [cbn; ring|]. cbn [map rsum length]. rewrite S_INR, IH, (H a); [ring|left; reflexivity|]. intros x X. apply H. right. exact X.
Qed.
Lemma rsum_nonneg : forall A (f : A -> R) l, (forall x, In x l -> 0 <= f x) -> 0 <= rsum (map f l).
Proof.
  induction l as [|a l IH]; intro H; [cbn; lra|]. cbn [map rsum]. pose proof (H a (or_introl eq_refl)). assert (0 <= rsum (map f l)) by (apply IH; intros x X; apply H; right; exact X). lra.
Qed.
Lemma len_pos : forall A (l : list A), l <> [] -> 0 < INR (length l).
Proof. intros A l H. apply lt_0_INR. destruct l; [congruence|cbn; lia]. Qed.
Lemma average_ext : forall A (f g : A -> R) l, (forall x, In x l -> f x = g x) -> average f l = average g l.
Proof. intros. unfold average. f_equal. apply rsum_ext. assumption. Qed.
Lemma average_lin : forall A (f g : A -> R) a b l, average (fun x => a * f x + b * g x) l = a * average f l + b * average g l.
Proof. intros. unfold average. rewrite (rsum_plus _ (fun x => a * f x) (fun x => b * g x)), !rsum_scale. unfold Rdiv. ring. Qed.
Lemma average_nonneg : forall A (f : A -> R) l, l <> [] -> (forall x, In x l -> 0 <= f x) -> 0 <= average f l.
Proof. intros A f l N H. unfold average. apply Rmult_le_pos; [apply rsum_nonneg, H|]. left. apply Rinv_0_lt_compat, len_pos, N. Qed.
Lemma average_ge : forall A (f : A -> R) c l, l <> [] -> (forall x, In x l -> c <= f x) -> c <= average f l.
Proof.
  intros A f c l N H. assert (0 <= average (fun x => 1 * f x + (- c) * 1) l) as P. { apply average_nonneg; [exact N|]. intros x X. specialize (H x X). lra. }
  rewrite (average_lin _ f (fun _ => 1)) in P. assert (E : average (fun _ : A => 1) l = 1). { unfold average. rewrite (rsum_const _ _ 1) by reflexivity. field. apply Rgt_not_eq, len_pos, N. } rewrite E in P. lra.
Qed.
Lemma average_const : forall A (f : A -> R) c l, l <> [] -> (forall x, In x l -> f x = c) -> average f l = c.
Proof. intros A f c l N H. unfold average. rewrite (rsum_const _ _ c) by exact H. field. apply Rgt_not_eq, len_pos, N. Qed.

Lemma mean_parts : forall ms p, mean_vector ms p = (average (fun m => cos (snd m p * (PI / 180))) ms, average (fun m => sin (snd m p * (PI / 180))) ms).
Proof.
  intros ms p. unfold mean_vector, cmean, average. rewrite !map_map, map_length. f_equal; f_equal; apply rsum_ext; intros m _; unfold deg_to_complex, radians; cbn [fst snd]; ring.
Qed.
Lemma mean_modulus : forall ms p, modulus (mean_vector ms p) = agreement ms p.
Proof. intros. rewrite mean_parts. reflexivity. Qed.
Lemma low_iff : forall ms p, is_low (mean_vector ms p) = true <-> agreement ms p < 1 / 100.
Proof. intros. unfold is_low. rewrite mean_modulus. destruct (Rlt_dec (agreement ms p) (1 / 100)); split; intro; congruence || lra. Qed.
Lemma low_false : forall ms p, 1 / 100 <= agreement ms p -> is_low (mean_vector ms p) = false.
Proof. intros ms p H. destruct (is_low (mean_vector ms p)) eqn:E; [|reflexivity]. apply low_iff in E. lra. Qed.

(** What the slice gives, by cases. *)
Lemma slice_cases : forall b smooth n ms f p, slice_mean b smooth n ms = Ok f -> (p < n)%nat ->
  (1 / 100 <= agreement ms p -> f p = complex_to_deg (mean_vector ms p)) /\
  (agreement ms p < 1 / 100 -> match b with
     | FirstRealization => exists m, find (fun m => (fst m =? 0)%Z) ms = Some m /\ f p = snd m p
     | Neighbourhood => f p = complex_to_deg (cmean (map (fun m => smooth (fun q => deg_to_complex (snd m q) 1) p) ms)) end).
Proof.
  intros b smooth n ms f p H P. unfold slice_mean in H. destruct (existsb _ (seq 0 n)) eqn:E.
  - destruct b.
    + destruct (find _ ms) as [m0|]; [|discriminate]. injection H as <-. split; intro L. * rewrite low_false by exact L. reflexivity. * apply low_iff in L. rewrite L. exists m0. split; reflexivity.
    + injection H as <-. split; intro L. * rewrite low_false by exact L. reflexivity. * apply low_iff in L. rewrite L. reflexivity.
  - injection H as <-. split; intro L; [reflexivity|]. exfalso. apply low_iff in L.
    assert (X : existsb (fun p0 => is_low (mean_vector ms p0)) (seq 0 n) = true) by (apply existsb_exists; exists p; split; [apply in_seq; lia|exact L]). congruence.
Qed.

(** * C83 *)
(** Where the members agree enough, the direction is the one in which the average of their unit vectors points, between
    0 and 360, and there is only one. *)
Theorem C83_direction : forall b smooth n ms f p, slice_mean b smooth n ms = Ok f -> (p < n)%nat -> 1 / 100 <= agreement ms p ->
  0 <= f p < 360 /\ points_at (average (fun m => cos (snd m p * (PI / 180))) ms) (average (fun m => sin (snd m p * (PI / 180))) ms) (agreement ms p) (f p) /\
  (forall d r, 0 <= d < 360 -> 0 < r -> points_at (average (fun m => cos (snd m p * (PI / 180))) ms) (average (fun m => sin (snd m p * (PI / 180))) ms) r d -> d = f p).
Proof.
  intros b smooth n ms f p H P L. destruct (slice_cases _ _ _ _ _ _ H P) as [A _]. specialize (A L). rewrite A.
  assert (M : 0 < modulus (mean_vector ms p)) by (rewrite mean_modulus; lra). split; [apply mod360_range|]. split.
  - destruct (argument_polar _ M) as [X Y]. rewrite mean_modulus in X, Y.
    assert (F1 : fst (mean_vector ms p) = average (fun m => cos (snd m p * (PI / 180))) ms) by (rewrite mean_parts; reflexivity).
    assert (F2 : snd (mean_vector ms p) = average (fun m => sin (snd m p * (PI / 180))) ms) by (rewrite mean_parts; reflexivity).
    rewrite F1 in X. rewrite F2 in Y. clear F1 F2. unfold complex_to_deg. destruct (mod360_eq (degrees (argument (mean_vector ms p)))) as [k K].
    set (d := mod360 _) in *. assert (E : argument (mean_vector ms p) = d * (PI / 180) + 2 * IZR k * PI). { pose proof PI_RGT_0. unfold degrees in K. apply Rmult_eq_reg_r with (180 / PI); [|apply Rgt_not_eq, Rmult_gt_0_compat; [lra|apply Rinv_0_lt_compat; lra]]. rewrite K. field. lra. }
    rewrite E, cos_turn in X. rewrite E, sin_turn in Y. split; assumption.
  - intros d r D R [X Y]. rewrite mean_parts, (complex_to_deg_unique _ _ d r R X Y). symmetry. apply mod360_id, D.
Qed.
(** The agreement lies between 0 and 1. *)
Theorem C83_agreement_range : forall ms p, ms <> [] -> 0 <= agreement ms p <= 1.
Proof.
  intros ms p N. split; [apply sqrt_pos|]. unfold agreement. set (C := average _ ms). set (D := average (fun m => sin _) ms).
  assert (K : C * C + D * D <= 1).
  { destruct (Rle_lt_dec (C * C + D * D) 0) as [Z0|Z0]; [lra|]. set (s := C * C + D * D) in *.
    assert (Q : s = average (fun m : Z * (nat -> R) => C * cos (snd m p * (PI / 180)) + D * sin (snd m p * (PI / 180))) ms) by (rewrite average_lin; reflexivity).
    assert (B : - ((1 + s) / 2) <= average (fun m : Z * (nat -> R) => (-1) * (C * cos (snd m p * (PI / 180)) + D * sin (snd m p * (PI / 180))) + 0 * 0) ms).
    { apply average_ge; [exact N|]. intros m _. pose proof (sin2_cos2 (snd m p * (PI / 180))) as T. unfold Rsqr in T. set (c := cos _) in *. set (t := sin _) in *.
      pose proof (Rle_0_sqr (C - c)).  pose proof (Rle_0_sqr (D - t)).  unfold Rsqr in *. unfold s. lra. }
    rewrite (average_lin _ _ (fun _ => 0)) in B. rewrite <- Q in B. lra. }
  rewrite <- sqrt_1. apply sqrt_le_1_alt. unfold Rsqr. exact K.
Qed.

(** All members have the same direction, in [0, 360): that direction is the mean, whatever the backup. *)
Theorem C83_unanimous : forall b smooth n ms f p d, slice_mean b smooth n ms = Ok f -> (p < n)%nat -> ms <> [] -> 0 <= d < 360 ->
  (forall m, In m ms -> snd m p = d) -> agreement ms p = 1 /\ f p = d.
Proof.
  intros b smooth n ms f p d H P N D A.
  assert (C1 : average (fun m : Z * (nat -> R) => cos (snd m p * (PI / 180))) ms = cos (d * (PI / 180))) by (apply average_const; [exact N|intros m M; rewrite A by exact M; reflexivity]).
  assert (S1 : average (fun m : Z * (nat -> R) => sin (snd m p * (PI / 180))) ms = sin (d * (PI / 180))) by (apply average_const; [exact N|intros m M; rewrite A by exact M; reflexivity]).
  assert (G : agreement ms p = 1). { unfold agreement. rewrite C1, S1, Rplus_comm, sin2_cos2. apply sqrt_1. }
  split; [exact G|]. destruct (C83_direction _ _ _ _ _ _ H P ltac:(rewrite G; lra)) as (_ & _ & U). symmetry. apply (U d 1 D); [lra|]. rewrite C1, S1. unfold points_at. lra.
Qed.

(** The order of the members does not matter (for the backup, the one numbered 0 must be unique). *)
Lemma agreement_perm : forall ms ms' p, Permutation ms ms' -> agreement ms p = agreement ms' p.
Proof.
  intros ms ms' p H. unfold agreement, average. rewrite (Permutation_length H), (rsum_perm _ _ (Permutation_map (fun m : Z * (nat -> R) => cos (snd m p * (PI / 180))) H)), (rsum_perm _ _ (Permutation_map (fun m : Z * (nat -> R) => sin (snd m p * (PI / 180))) H)). reflexivity.
Qed.
Lemma cmean_perm : forall l l', Permutation l l' -> cmean l = cmean l'.
Proof. intros l l' H. unfold cmean. rewrite (Permutation_length H), (rsum_perm _ _ (Permutation_map fst H)), (rsum_perm _ _ (Permutation_map snd H)). reflexivity. Qed.
Lemma find_control : forall (ms : members) m, NoDup (map fst ms) -> In m ms -> fst m = 0%Z -> find (fun m => (fst m =? 0)%Z) ms = Some m.
Proof.
  induction ms as [|a ms IH]; intros m N I0 Z0; [destruct I0|]. cbn [map] in N. apply NoDup_cons_iff in N. destruct N as [N1 N2]. cbn [find]. destruct I0 as [->|I0].
  - rewrite Z0. reflexivity.
  - destruct (Z.eqb_spec (fst a) 0) as [E|E]; [|apply IH; assumption]. exfalso. apply N1. rewrite E, <- Z0. apply in_map, I0.
Qed.
Theorem C83_member_order : forall b smooth n ms ms' f, Permutation ms ms' -> NoDup (map fst ms) -> slice_mean b smooth n ms = Ok f ->
  exists f', slice_mean b smooth n ms' = Ok f' /\ forall p, (p < n)%nat -> f' p = f p.
Proof.
  intros b smooth n ms ms' f PM N H.
  assert (MV : forall p, mean_vector ms' p = mean_vector ms p). { intro p. unfold mean_vector. apply cmean_perm, Permutation_map, Permutation_sym, PM. }
  assert (EX : forall l, existsb (fun p => is_low (mean_vector ms' p)) l = existsb (fun p => is_low (mean_vector ms p)) l). { induction l as [|a l IH]; [reflexivity|]. cbn [existsb]. rewrite IH, MV. reflexivity. }
  unfold slice_mean in *. rewrite EX. destruct (existsb _ (seq 0 n)) eqn:E.
  - destruct b.
    + destruct (find _ ms) as [m0|] eqn:F; [|discriminate]. injection H as <-. apply find_some in F. destruct F as [F1 F2]. apply Z.eqb_eq in F2.
      rewrite (find_control ms' m0); [| |apply (Permutation_in _ PM), F1|exact F2]. * eexists. split; [reflexivity|]. intros p _. cbv beta. rewrite MV. reflexivity.
      * eapply Permutation_NoDup; [apply Permutation_map, PM|exact N].
    + injection H as <-. eexists. split; [reflexivity|]. intros p _. cbv beta. rewrite MV. destruct (is_low _); [|reflexivity]. f_equal. apply cmean_perm, Permutation_map, Permutation_sym, PM.
  - injection H as <-. eexists. split; [reflexivity|]. intros p _. cbv beta. rewrite MV. reflexivity.
Qed.

(** Turning every member by the same angle turns the mean by it. *)
Theorem C83_rotation : forall b smooth n ms f f' p t, slice_mean b smooth n ms = Ok f -> (p < n)%nat -> 1 / 100 <= agreement ms p ->
  slice_mean b smooth n (map (fun m => (fst m, fun q => snd m q + t)) ms) = Ok f' ->
  agreement (map (fun m => (fst m, fun q => snd m q + t)) ms) p = agreement ms p /\ exists k : Z, f' p = f p + t + 360 * IZR k.
Proof.
  intros b smooth n ms f f' p t H P L H'. set (ms' := map _ ms) in *. set (T := t * (PI / 180)).
  destruct (C83_direction _ _ _ _ _ _ H P L) as (_ & [X Y] & _).
  set (C := average (fun m : Z * (nat -> R) => cos (snd m p * (PI / 180))) ms) in *. set (D := average (fun m : Z * (nat -> R) => sin (snd m p * (PI / 180))) ms) in *.
  assert (C' : average (fun m : Z * (nat -> R) => cos (snd m p * (PI / 180))) ms' = cos T * C + (- sin T) * D).
  { unfold C, D. rewrite <- average_lin. unfold ms', average. rewrite map_map, map_length. f_equal. apply rsum_ext. intros m _. cbn [snd]. rewrite Rmult_plus_distr_r. fold T. rewrite cos_plus. ring. }
  assert (D' : average (fun m : Z * (nat -> R) => sin (snd m p * (PI / 180))) ms' = sin T * C + cos T * D).
  { unfold C, D. rewrite <- average_lin. unfold ms', average. rewrite map_map, map_length. f_equal. apply rsum_ext. intros m _. cbn [snd]. rewrite Rmult_plus_distr_r. fold T. rewrite sin_plus. ring. }
  assert (G : agreement ms' p = agreement ms p). { unfold agreement at 1. rewrite C', D'. unfold agreement. fold C D. f_equal. unfold Rsqr. pose proof (sin2_cos2 T) as S2. unfold Rsqr in S2.
    replace ((cos T * C + - sin T * D) * (cos T * C + - sin T * D) + (sin T * C + cos T * D) * (sin T * C + cos T * D)) with ((sin T * sin T + cos T * cos T) * (C * C + D * D)) by ring. rewrite S2. ring. }
  split; [exact G|]. destruct (C83_direction _ _ _ _ _ _ H' P ltac:(rewrite G; exact L)) as (_ & _ & U).
  destruct (mod360_eq (f p + t)) as [k K]. exists (- k)%Z. rewrite <- (U (mod360 (f p + t)) (agreement ms p)).
  - rewrite opp_IZR. lra.
  - apply mod360_range.
  - lra.
  - rewrite C', D'. assert (E : mod360 (f p + t) * (PI / 180) = f p * (PI / 180) + T + 2 * IZR (- k) * PI). { rewrite opp_IZR. replace (mod360 (f p + t)) with (f p + t - 360 * IZR k) by lra. unfold T. field. }
    unfold points_at. rewrite E, cos_turn, sin_turn, cos_plus, sin_plus. rewrite X at 1 2. rewrite Y at 1 2. split; ring.
Qed.

(** Members within [w] degrees of a direction have their mean within [w] degrees of it, if [w] is at most 60: for instance 350
    and 10 give a direction within 10 degrees of north. *)
Lemma rad_bound : forall x w, - w <= x <= w -> w <= 60 -> - (PI / 3) <= x * (PI / 180) <= PI / 3.
Proof. intros x w H W. pose proof PI_RGT_0. split; nra. Qed.
Theorem C83_within : forall b smooth n ms f p c w, slice_mean b smooth n ms = Ok f -> (p < n)%nat -> ms <> [] -> w <= 60 ->
  (forall m, In m ms -> exists e (k : Z), snd m p = c + e + 360 * IZR k /\ - w <= e <= w) ->
  1 / 2 <= agreement ms p /\ exists e (k : Z), f p = c + e + 360 * IZR k /\ - w <= e <= w.
Proof.
  intros b smooth n ms f p c w H P N W A. pose proof PI_RGT_0 as PP. pose proof PI_4 as P4.
  set (C := average (fun m : Z * (nat -> R) => cos (snd m p * (PI / 180))) ms). set (D := average (fun m : Z * (nat -> R) => sin (snd m p * (PI / 180))) ms). set (g := c * (PI / 180)). set (v := w * (PI / 180)).
  (* relative to the direction c *)
  assert (X : 1 / 2 <= cos g * C + sin g * D).
  { unfold C, D. rewrite <- average_lin. apply average_ge; [exact N|]. intros m M. destruct (A m M) as (e & k & -> & E).
    replace ((c + e + 360 * IZR k) * (PI / 180)) with (g + e * (PI / 180) + 2 * IZR k * PI) by (unfold g; field). rewrite cos_turn, sin_turn. set (h := e * (PI / 180)).
    replace (cos g * cos (g + h) + sin g * sin (g + h)) with (cos h) by (replace h with (g + h - g) at 1 by ring; rewrite (cos_minus (g + h) g); ring).
    assert (B : - (PI / 3) <= h <= PI / 3) by (apply rad_bound with w; assumption). rewrite <- cos_PI3.
    destruct (Rle_lt_dec 0 h) as [Z0|Z0]; [apply cos_decr_1; lra|]. rewrite <- (cos_neg h). apply cos_decr_1; lra. }
  assert (Y1 : 0 <= (sin v * cos g + cos v * sin g) * C + (sin v * sin g - cos v * cos g) * D).
  { unfold C, D. rewrite <- average_lin. apply average_nonneg; [exact N|]. intros m M. destruct (A m M) as (e & k & -> & E).
    replace ((c + e + 360 * IZR k) * (PI / 180)) with (g + e * (PI / 180) + 2 * IZR k * PI) by (unfold g; field). rewrite cos_turn, sin_turn. set (h := e * (PI / 180)).
    replace ((sin v * cos g + cos v * sin g) * cos (g + h) + (sin v * sin g - cos v * cos g) * sin (g + h)) with (sin (v - h)).
    - assert (0 <= v - h <= PI) by (unfold v, h; split; nra). apply sin_ge_0; lra.
    - replace (v - h) with (v + g - (g + h)) by ring. rewrite (sin_minus (v + g) (g + h)), (sin_plus v g), (cos_plus v g). ring. }
  assert (Y2 : 0 <= (sin v * cos g - cos v * sin g) * C + (sin v * sin g + cos v * cos g) * D).
  { unfold C, D. rewrite <- average_lin. apply average_nonneg; [exact N|]. intros m M. destruct (A m M) as (e & k & -> & E).
    replace ((c + e + 360 * IZR k) * (PI / 180)) with (g + e * (PI / 180) + 2 * IZR k * PI) by (unfold g; field). rewrite cos_turn, sin_turn. set (h := e * (PI / 180)).
    replace ((sin v * cos g - cos v * sin g) * cos (g + h) + (sin v * sin g + cos v * cos g) * sin (g + h)) with (sin (v + h)).
    - assert (0 <= v + h <= PI) by (unfold v, h; split; nra). apply sin_ge_0; lra.
    - replace (v + h) with (v - g + (g + h)) by ring. rewrite (sin_plus (v - g) (g + h)), (sin_minus v g), (cos_minus v g). ring. }
  assert (G : 1 / 2 <= agreement ms p).
  { unfold agreement. fold C D. assert (Q : 1 / 2 * (1 / 2) <= C * C + D * D).
    { pose proof (sin2_cos2 g) as S2. unfold Rsqr in S2. pose proof (Rle_0_sqr (cos g * D - sin g * C)) as SQ. unfold Rsqr in SQ.
      assert (E : (cos g * C + sin g * D) * (cos g * C + sin g * D) + (cos g * D - sin g * C) * (cos g * D - sin g * C) = (sin g * sin g + cos g * cos g) * (C * C + D * D)) by ring. rewrite S2 in E. nra. }
    rewrite <- (sqrt_Rsqr (1 / 2)) by lra. apply sqrt_le_1_alt. unfold Rsqr. exact Q. }
  split; [exact G|]. destruct (C83_direction _ _ _ _ _ _ H P ltac:(lra)) as (_ & [E1 E2] & _). fold C D in E1, E2. set (r := agreement ms p) in *.
  (* an angle in (-pi, pi] *)
  set (z := (cos g * C + sin g * D, cos g * D - sin g * C)).
  assert (M : modulus z = r).
  { apply Rsqr_inj; [apply modulus_nonneg|lra|]. unfold Rsqr. rewrite modulus_sq. unfold z. cbn [fst snd]. pose proof (sin2_cos2 g) as S2. unfold Rsqr in S2.
    replace ((cos g * C + sin g * D) * (cos g * C + sin g * D) + (cos g * D - sin g * C) * (cos g * D - sin g * C)) with ((sin g * sin g + cos g * cos g) * (C * C + D * D)) by ring. rewrite S2, E1, E2.
    pose proof (sin2_cos2 (f p * (PI / 180))) as S3. unfold Rsqr in S3. set (a := cos (f p * (PI / 180))) in *. set (b0 := sin (f p * (PI / 180))) in *. replace (1 * (r * a * (r * a) + r * b0 * (r * b0))) with (r * r * (b0 * b0 + a * a)) by ring. rewrite S3. ring. }
  destruct (argument_polar z ltac:(lra)) as [Z1 Z2]. rewrite M in Z1, Z2. cbn [fst snd] in Z1, Z2. unfold z in Z1, Z2. cbn [fst snd] in Z1, Z2. fold z in Z1, Z2.
  assert (AB : - PI <= argument z <= PI). { unfold argument. destruct (Req_EM_T _ _); [lra|]. pose proof (acos_bound (fst z / modulus z)). destruct (Rle_dec _ _); lra. }
  set (a := argument z) in *.
  assert (CA : 0 < cos a) by (apply Rmult_lt_reg_l with r; lra).
  assert (AH : - (PI / 2) < a < PI / 2). { split; apply Rnot_le_lt; intro Q. - assert (cos (- a) <= 0) by (apply cos_le_0; lra). rewrite cos_neg in *. lra. - assert (cos a <= 0) by (apply cos_le_0; lra). lra. }
  assert (V : v <= PI / 3) by (unfold v; nra).
  assert (SG := sin2_cos2 g). unfold Rsqr in SG.
  assert (T1 : 0 <= sin (v - a)).
  { rewrite sin_minus. apply Rmult_le_reg_l with r; [lra|]. rewrite Rmult_0_r. replace (r * (sin v * cos a - cos v * sin a)) with (sin v * (r * cos a) - cos v * (r * sin a)) by ring. rewrite <- Z1, <- Z2. lra. }
  assert (T2 : 0 <= sin (v + a)).
  { rewrite sin_plus. apply Rmult_le_reg_l with r; [lra|]. rewrite Rmult_0_r. replace (r * (sin v * cos a + cos v * sin a)) with (sin v * (r * cos a) + cos v * (r * sin a)) by ring. rewrite <- Z1, <- Z2. lra. }
  assert (V0 : 0 <= v). { destruct ms as [|m0 ms0]; [congruence|]. destruct (A m0 (or_introl eq_refl)) as (e & k & _ & E). unfold v. nra. }
  assert (L1 : a <= v). { apply Rnot_lt_le. intro Q. assert (sin (v - a) < 0) by (apply sin_lt_0_var; lra). lra. }
  assert (L2 : - v <= a). { apply Rnot_lt_le. intro Q. assert (sin (v + a) < 0) by (apply sin_lt_0_var; lra). lra. }
  destruct (same_angle (f p * (PI / 180)) (g + a)) as [k K].
  - rewrite cos_plus. apply Rmult_eq_reg_l with r; [|lra]. rewrite <- E1. replace (r * (cos g * cos a - sin g * sin a)) with (cos g * (r * cos a) - sin g * (r * sin a)) by ring. rewrite <- Z1, <- Z2.
    replace (cos g * (cos g * C + sin g * D) - sin g * (cos g * D - sin g * C)) with ((sin g * sin g + cos g * cos g) * C) by ring. rewrite SG. ring.
  - rewrite sin_plus. apply Rmult_eq_reg_l with r; [|lra]. rewrite <- E2. replace (r * (sin g * cos a + cos g * sin a)) with (sin g * (r * cos a) + cos g * (r * sin a)) by ring. rewrite <- Z1, <- Z2.
    replace (sin g * (cos g * C + sin g * D) + cos g * (cos g * D - sin g * C)) with ((sin g * sin g + cos g * cos g) * D) by ring. rewrite SG. ring.
  - exists (a * (180 / PI)), k. split.
    + apply Rmult_eq_reg_r with (PI / 180); [|lra]. rewrite K. unfold g. field. lra.
    + unfold v in L1, L2. assert (Q : a = a * (180 / PI) * (PI / 180)) by (field; lra). rewrite Q in L1, L2. set (e := a * (180 / PI)) in *. split; nra.
Qed.
(** ** The backup *)
(** Where the agreement is below 0.01, and only there, the first-realization backup takes the value of realization 0 as it is. *)
Theorem C83_backup_control : forall smooth n ms f p m, slice_mean FirstRealization smooth n ms = Ok f -> (p < n)%nat -> NoDup (map fst ms) ->
  In m ms -> fst m = 0%Z -> agreement ms p < 1 / 100 -> f p = snd m p.
Proof.
  intros smooth n ms f p m H P N I0 Z0 L. destruct (slice_cases _ _ _ _ _ _ H P) as [_ B]. destruct (B L) as (m0 & F & ->). rewrite (find_control ms m N I0 Z0) in F. congruence.
Qed.
(** The neighbourhood backup takes the direction of the average over the members of their smoothed unit vectors, which
    is not itself checked: if it is zero the direction is 0. *)
Lemma dir_points : forall z, 0 < modulus z -> points_at (fst z) (snd z) (modulus z) (complex_to_deg z).
Proof.
  intros z M. destruct (argument_polar _ M) as [X Y]. unfold complex_to_deg. destruct (mod360_eq (degrees (argument z))) as [k K]. set (d := mod360 _) in *.
  assert (E : argument z = d * (PI / 180) + 2 * IZR k * PI). { pose proof PI_RGT_0. unfold degrees in K. apply Rmult_eq_reg_r with (180 / PI); [|apply Rgt_not_eq, Rmult_gt_0_compat; [lra|apply Rinv_0_lt_compat; lra]]. rewrite K. field. lra. }
  rewrite E, cos_turn in X. rewrite E, sin_turn in Y. split; assumption.
Qed.
Theorem C83_backup_neighbourhood : forall smooth n ms f p, slice_mean Neighbourhood smooth n ms = Ok f -> (p < n)%nat -> agreement ms p < 1 / 100 ->
  (forall a b, (forall q, a q = b q) -> forall q, smooth a q = smooth b q) ->
  let u := fun m : Z * (nat -> R) => smooth (fun q => (cos (snd m q * (PI / 180)), sin (snd m q * (PI / 180)))) p in
  let x := average (fun m => fst (u m)) ms in let y := average (fun m => snd (u m)) ms in
  0 <= f p < 360 /\ (0 < x * x + y * y -> points_at x y (sqrt (x * x + y * y)) (f p)) /\ (x = 0 -> y = 0 -> f p = 0).
Proof.
  intros smooth n ms f p H P L EXT u x y. destruct (slice_cases _ _ _ _ _ _ H P) as [_ B]. rewrite (B L). clear B.
  assert (E : cmean (map (fun m => smooth (fun q => deg_to_complex (snd m q) 1) p) ms) = (x, y)).
  { unfold cmean, x, y, average. rewrite !map_map, map_length. f_equal; f_equal; apply rsum_ext; intros m _; f_equal; apply EXT; intro q; unfold deg_to_complex, radians; f_equal; ring. }
  rewrite E. split; [apply mod360_range|]. split.
  - intro Q. apply (dir_points (x, y)). apply sqrt_lt_R0. exact Q.
  - intros -> ->. assert (Z0 : modulus (0, 0) = 0). { unfold modulus. cbn [fst snd]. unfold Rsqr. replace (0 * 0 + 0 * 0) with 0 by ring. apply sqrt_0. }
    unfold complex_to_deg, argument. destruct (Req_EM_T _ _) as [_|N]; [|contradiction]. unfold degrees. rewrite Rmult_0_l. apply mod360_id. lra.
Qed.

(** Two opposite winds cancel: the mean is the backup. *)
Theorem C83_opposite : forall p a b d1 d2, (forall q, d2 q = d1 q + 180) -> agreement [(a, d1); (b, d2)] p = 0.
Proof.
  intros p a b d1 d2 H. unfold agreement, average. cbn [map rsum length snd]. rewrite H.
  replace ((d1 p + 180) * (PI / 180)) with (d1 p * (PI / 180) + PI) by field. rewrite neg_cos, neg_sin.
  replace ((cos (d1 p * (PI / 180)) + (- cos (d1 p * (PI / 180)) + 0)) / INR 2) with 0 by (field; apply not_0_INR; lia).
  replace ((sin (d1 p * (PI / 180)) + (- sin (d1 p * (PI / 180)) + 0)) / INR 2) with 0 by (field; apply not_0_INR; lia).
  unfold Rsqr. replace (0 * 0 + 0 * 0) with 0 by ring. apply sqrt_0.
Qed.

(** The result lies in [0, 360) everywhere with the neighbourhood backup, and with the other if the values of realization 0 do. *)
Theorem C83_range : forall b smooth n ms f p, slice_mean b smooth n ms = Ok f -> (p < n)%nat ->
  (b = FirstRealization -> forall m, In m ms -> fst m = 0%Z -> 0 <= snd m p < 360) -> 0 <= f p < 360.
Proof.
  intros b smooth n ms f p H P A. destruct (slice_cases _ _ _ _ _ _ H P) as [B C]. destruct (Rle_lt_dec (1 / 100) (agreement ms p)) as [L|L].
  - rewrite (B L). apply mod360_range.
  - specialize (C L). destruct b.
    + destruct C as (m & F & ->). apply find_some in F. destruct F as [F1 F2]. apply A; [reflexivity|exact F1|]. apply Z.eqb_eq, F2.
    + rewrite C. apply mod360_range.
Qed.
(** Without that: a direction of -90, which the mean itself would give as 270, is returned as it is. *)
Theorem C83_range_control_refuted : ~ (forall smooth n ms f p, slice_mean FirstRealization smooth n ms = Ok f -> (p < n)%nat -> 0 <= f p < 360).
Proof.
  intro H. set (ms := [(0%Z, fun _ : nat => -90); (1%Z, fun _ : nat => 90)]). set (sm := fun (g : nat -> R * R) (q : nat) => g q).
  assert (G : agreement ms 0 = 0). { apply C83_opposite. intro q. lra. }
  assert (L : is_low (mean_vector ms 0) = true) by (apply low_iff; rewrite G; lra).
  specialize (H sm 1%nat ms (fun p => if is_low (mean_vector ms p) then -90 else complex_to_deg (mean_vector ms p)) 0%nat).
  cbv beta in H. rewrite L in H. assert (0 <= -90 < 360); [|lra]. apply H; [|lia]. unfold slice_mean. cbn [seq existsb]. rewrite L. reflexivity.
Qed.

(** It fails only for want of a realization 0 when one is needed. *)
Theorem C83_errors : forall b smooth n ms, slice_mean b smooth n ms = Err AttributeError /\ b = FirstRealization /\ (forall m, In m ms -> fst m <> 0%Z) /\ (exists p, (p < n)%nat /\ agreement ms p < 1 / 100)
  \/ (exists f, slice_mean b smooth n ms = Ok f) /\ (b = FirstRealization -> (exists p, (p < n)%nat /\ agreement ms p < 1 / 100) -> exists m, In m ms /\ fst m = 0%Z).
Proof.
  intros b smooth n ms. unfold slice_mean. destruct (existsb _ (seq 0 n)) eqn:E.
  - apply existsb_exists in E. destruct E as (p & I0 & L). apply low_iff in L. apply in_seq in I0. destruct b.
    + destruct (find _ ms) as [m0|] eqn:F.
      * right. split; [eexists; reflexivity|]. intros _ _. apply find_some in F. exists m0. split; [tauto|]. apply Z.eqb_eq. tauto.
      * left. split; [reflexivity|]. split; [reflexivity|]. split; [|exists p; split; [lia|exact L]]. intros m M. pose proof (find_none _ _ F m M) as Q. cbv beta in Q. apply Z.eqb_neq, Q.
    + right. split; [eexists; reflexivity|discriminate].
  - right. split; [eexists; reflexivity|]. intros _ (p & P & L). exfalso. apply low_iff in L. assert (X : existsb (fun p0 => is_low (mean_vector ms p0)) (seq 0 n) = true) by (apply existsb_exists; exists p; split; [apply in_seq; lia|exact L]). congruence.
Qed.

(** ** The whole cube *)
Lemma run_ok : forall b smooth n slices old k, run_slices b smooth n old slices = (k, None) ->
  exists new, k = old ++ new /\ Forall2 (fun s r => fst r = fst s /\ slice_mean b smooth n (snd s) = Ok (snd r)) slices new.
Proof.
  intros b smooth n slices. induction slices as [|s r IH]; intros old k H; cbn [run_slices] in H.
  - injection H as <-. exists []. rewrite app_nil_r. split; [reflexivity|constructor].
  - destruct (slice_mean b smooth n (snd s)) as [f|e] eqn:F; [|discriminate]. destruct (IH _ _ H) as (new & -> & F2). exists ((fst s, f) :: new). rewrite <- app_assoc. split; [reflexivity|]. constructor; [split; [reflexivity|exact F]|exact F2].
Qed.
Lemma insert_slice_perm : forall s l, Permutation (s :: l) (insert_slice s l).
Proof. induction l as [|t r IH]; cbn [insert_slice]; [reflexivity|]. destruct (_ <=? _)%Z; [reflexivity|]. rewrite perm_swap. constructor. exact IH. Qed.
Lemma sort_slices_perm : forall l, Permutation l (fold_right insert_slice [] l).
Proof. induction l as [|s l IH]; cbn [fold_right]; [reflexivity|]. rewrite <- insert_slice_perm. constructor. exact IH. Qed.
Lemma distinct_iff : forall l, distinct_z l = true <-> NoDup l.
Proof.
  induction l as [|x r IH]; cbn [distinct_z]; [split; [constructor|reflexivity]|]. rewrite andb_true_iff, negb_true_iff, NoDup_cons_iff, IH. split; intros [A B]; split; try exact B.
  - intro I0. rewrite (proj2 (existsb_exists _ _)) in A; [discriminate|]. exists x. split; [exact I0|apply Z.eqb_refl].
  - destruct (existsb _ r) eqn:E; [|reflexivity]. apply existsb_exists in E. destruct E as (y & Y & Q). apply Z.eqb_eq in Q. subst y. contradiction.
Qed.
Inductive times_increase : list (Z * (nat -> R)) -> Prop :=
  | ti_nil : times_increase [] | ti_one : forall s, times_increase [s]
  | ti_cons : forall s t r, (fst s < fst t)%Z -> times_increase (t :: r) -> times_increase (s :: t :: r).
Lemma insert_increase : forall s l, times_increase l -> ~ In (fst s) (map fst l) -> times_increase (insert_slice s l).
Proof.
  intros s l H. induction H as [|t|t u r L T IH]; intro N; cbn [insert_slice].
  - constructor.
  - cbn in N. destruct (Z.leb_spec (fst s) (fst t)); constructor; try constructor; lia.
  - cbn [map In] in N. destruct (Z.leb_spec (fst s) (fst t)).
    + constructor; [lia|]. constructor; assumption.
    + cbn [insert_slice] in IH. specialize (IH ltac:(cbn [map In]; tauto)). destruct (Z.leb_spec (fst s) (fst u)).
      * constructor; [lia|]. exact IH.
      * constructor; [exact L|exact IH].
Qed.
Lemma sort_slices_increase : forall l, NoDup (map fst l) -> times_increase (fold_right insert_slice [] l).
Proof.
  induction l as [|s l IH]; cbn [fold_right map]; intro N; [constructor|]. apply NoDup_cons_iff in N. destruct N as [N1 N2]. apply insert_increase; [exact (IH N2)|]. intro I0. apply N1.
  eapply Permutation_in; [apply Permutation_map, Permutation_sym, sort_slices_perm|exact I0].
Qed.

(** With a new instance the result has the mean of each slice at its time, in the order of time, and nothing else. *)
Theorem C83_cube : forall b smooth n dim slices k m, wind_direction b smooth n dim [] slices = (k, Ok m) ->
  times_increase m /\ length m = length slices /\
  (forall t ms, In (t, ms) slices -> exists f, slice_mean b smooth n ms = Ok f /\ In (t, f) m) /\
  (forall t f, In (t, f) m -> exists ms, In (t, ms) slices /\ slice_mean b smooth n ms = Ok f).
Proof.
  intros b smooth n dim slices k m H. unfold wind_direction in H. destruct (run_slices b smooth n [] slices) as [k0 [e|]] eqn:R; [discriminate|]. destruct (run_ok _ _ _ _ _ _ R) as (new & -> & F2). cbn [app] in *.
  unfold merge_slices in H. destruct (distinct_z (map fst new)) eqn:D; cbn [bind] in H; [|congruence]. apply distinct_iff in D. destruct (_ && _)%bool; [congruence|]. injection H as _ <-.
  assert (IN : forall x, In x (fold_right insert_slice [] new) <-> In x new) by (intro x; split; apply Permutation_in; [apply Permutation_sym|]; apply sort_slices_perm).
  split; [apply sort_slices_increase, D|]. split; [rewrite <- (Permutation_length (sort_slices_perm new)); symmetry; clear -F2; induction F2; cbn; congruence|]. split.
  - intros t ms I0. clear -F2 I0 IN. assert (exists f, slice_mean b smooth n ms = Ok f /\ In (t, f) new) as (f & A & B).
    { clear IN. induction F2 as [|s r ls lr [E F] _ IH]; [destruct I0|]. destruct I0 as [->|I0]; [|destruct (IH I0) as (f & A & B); exists f; split; [exact A|right; exact B]]. exists (snd r). split; [exact F|]. left. destruct r. cbn in *. congruence. }
    exists f. split; [exact A|]. apply IN, B.
  - intros t f I0. apply IN in I0. clear -F2 I0. induction F2 as [|s r ls lr [E F] _ IH]; [destruct I0|]. destruct I0 as [->|I0]; [|destruct (IH I0) as (ms & A & B); exists ms; split; [right; exact A|exact B]].
    exists (snd s). cbn in E, F. split; [left; destruct s; cbn in *; congruence|exact F].
Qed.
(** With an instance used before, the slices of the earlier calls are merged in: the same cube a second time fails. *)
Theorem C83_reuse : forall b smooth n dim old slices k m s, wind_direction b smooth n dim old slices = (k, Ok m) -> In s slices ->
  exists e, snd (wind_direction b smooth n dim k slices) = Err e.
Proof.
  intros b smooth n dim old slices k m s H I0. unfold wind_direction in *. destruct (run_slices b smooth n old slices) as [k0 [e|]] eqn:R; [discriminate|].
  assert (k0 = k) as -> by congruence. destruct (run_ok _ _ _ _ _ _ R) as (new & E & F2).
  destruct (run_slices b smooth n k slices) as [k1 [e|]] eqn:R1; [exists e; reflexivity|]. destruct (run_ok _ _ _ _ _ _ R1) as (new1 & -> & F21). exists MergeError. cbn [snd].
  unfold merge_slices. destruct (distinct_z _) eqn:D; [|reflexivity]. exfalso. apply distinct_iff in D. rewrite E in D. rewrite !map_app in D.
  assert (A : In (fst s) (map fst new)). { clear -F2 I0. induction F2 as [|x r ls lr [Q F] _ IH]; [destruct I0|]. destruct I0 as [->|I0]; [left; exact Q|right; apply IH, I0]. }
  assert (B : In (fst s) (map fst new1)). { clear -F21 I0. induction F21 as [|x r ls lr [Q F] _ IH]; [destruct I0|]. destruct I0 as [->|I0]; [left; exact Q|right; apply IH, I0]. }
  clear -D A B. apply in_split in B. destruct B as (u & v & B). rewrite B, (app_assoc _ u) in D. apply NoDup_remove_2 in D. apply D. rewrite !in_app_iff. left. left. right. exact A.
Qed.
(** and a cube of other times gets the old ones as well. *)
Theorem C83_reuse_refuted : ~ (forall b smooth n dim old slices k m, wind_direction b smooth n dim old slices = (k, Ok m) -> length m = length slices).
Proof.
  intro H. set (sm := fun (g : nat -> R * R) (q : nat) => g q). set (ms := [(0%Z, fun _ : nat => 10)]).
  specialize (H Neighbourhood sm 0%nat true [(0%Z, fun _ : nat => 5)] [(3600%Z, ms)]
    [(0%Z, fun _ : nat => 5); (3600%Z, fun p => complex_to_deg (mean_vector ms p))] [(0%Z, fun _ : nat => 5); (3600%Z, fun p => complex_to_deg (mean_vector ms p))] eq_refl). discriminate.
Qed.

(** * C84 *)
(** The two components have the speed of the wind, and point along the given direction turned by the angle of true
    north, away from it if the direction is the one the wind comes from. *)
Theorem C84_components : forall speed a adj from_, let '(u, v) := fst (resolve speed a adj from_) in
  u * u + v * v = speed * speed /\
  (from_ = false -> u = speed * sin (a + adj) /\ v = speed * cos (a + adj)) /\
  (from_ = true -> u = - speed * sin (a + adj) /\ v = - speed * cos (a + adj)).
Proof.
  intros speed a adj from_. unfold resolve. cbv zeta. cbn [fst]. split.
  - pose proof (sin2_cos2 (a + adj + (if from_ then PI else 0))) as S2. unfold Rsqr in S2. set (s := sin _) in *. set (c := cos _) in *. replace (speed * s * (speed * s) + speed * c * (speed * c)) with (speed * speed * (s * s + c * c)) by ring. rewrite S2. ring.
  - split; intros ->; [rewrite Rplus_0_r; split; reflexivity|]. rewrite neg_sin, neg_cos. split; ring.
Qed.
(** Converting the components back: the speed, and the direction the wind goes to from true north. *)
Theorem C84_back : forall speed a adj from_, 0 < speed -> let '(u, v) := fst (resolve speed a adj from_) in
  sqrt (u * u + v * v) = speed /\ points_at v u speed (a * (180 / PI) + adj * (180 / PI) + (if from_ then 180 else 0)).
Proof.
  intros speed a adj from_ P. pose proof (C84_components speed a adj from_) as H. destruct (fst (resolve speed a adj from_)) as [u v] eqn:E. destruct H as (H & _). split.
  - rewrite H. apply sqrt_square. lra.
  - unfold resolve in E. cbn [fst] in E. injection E as <- <-. pose proof PI_RGT_0 as PP. unfold points_at.
    replace ((a * (180 / PI) + adj * (180 / PI) + (if from_ then 180 else 0)) * (PI / 180)) with (a + adj + (if from_ then PI else 0)) by (destruct from_; field; lra). split; reflexivity.
Qed.
(** A wind from the south (180 degrees) and one to the north (0 degrees) are the same wind. *)
Theorem C84_from_to : forall speed a adj, let '(u, v) := fst (resolve speed (a + PI) adj true) in let '(u', v') := fst (resolve speed a adj false) in u = u' /\ v = v'.
Proof.
  intros speed a adj. unfold resolve. cbn [fst]. rewrite Rplus_0_r. replace (a + PI + adj + PI) with (a + adj + 2 * IZR 1 * PI) by ring. rewrite cos_turn, sin_turn. split; reflexivity.
Qed.
(** The directions are left changed: called again with the same cubes the answer is another, unless the turn was a full one. *)
Theorem C84_twice_refuted : ~ (forall speed a adj from_, let '(w, a') := resolve speed a adj from_ in fst (resolve speed a' adj from_) = w).
Proof.
  intro H. specialize (H 1 0 0 true). unfold resolve in H. cbn [fst] in H. assert (Q : 1 * cos (0 + 0 + PI + 0 + PI) = 1 * cos (0 + 0 + PI)) by congruence.
  replace (0 + 0 + PI + 0 + PI) with (0 + 2 * IZR 1 * PI) in Q by ring. rewrite cos_turn, cos_0, !Rplus_0_l, cos_PI in Q. lra.
Qed.

(** * Cases *)
(** Three members, at 350, 0 and 10 degrees: a mean within 10 degrees of north. *)
Example C83_case : exists ms f, slice_mean Neighbourhood (fun g q => g q) 1 ms = Ok f /\ length ms = 3%nat /\ NoDup (map fst ms) /\ 1 / 100 <= agreement ms 0 /\
  (exists e (k : Z), f 0%nat = 0 + e + 360 * IZR k /\ - 10 <= e <= 10).
Proof.
  set (ms := [(0%Z, fun _ : nat => 350); (1%Z, fun _ : nat => 0); (2%Z, fun _ : nat => 10)]).
  destruct (C83_errors Neighbourhood (fun g q => g q) 1 ms) as [(_ & Q & _)|[(f & F) _]]; [discriminate|]. exists ms, f. split; [exact F|]. split; [reflexivity|]. split; [repeat constructor; cbn; lia|].
  destruct (C83_within _ _ _ _ _ 0%nat 0 10 F ltac:(lia) ltac:(discriminate) ltac:(lra)) as [A B].
  - intros m [<-|[<-|[<-|[]]]]; cbn [snd]; [exists (-10), 1%Z|exists 0, 0%Z|exists 10, 0%Z]; (split; [cbv beta; lra|split; lra]).
  - split; [lra|exact B].
Qed.
Example C83_case_low : exists ms f, slice_mean FirstRealization (fun g q => g q) 1 ms = Ok f /\ agreement ms 0 < 1 / 100 /\ f 0%nat = 30.
Proof.
  set (ms := [(0%Z, fun _ : nat => 30); (1%Z, fun _ : nat => 210)]). assert (G : agreement ms 0 = 0) by (apply C83_opposite; intro q; lra).
  destruct (C83_errors FirstRealization (fun g q => g q) 1 ms) as [(_ & _ & Q & _)|[(f & F) _]]; [exfalso; exact (Q (0%Z, fun _ => 30) (or_introl eq_refl) eq_refl)|].
  exists ms, f. split; [exact F|]. split; [lra|]. apply (C83_backup_control _ _ _ _ 0%nat (0%Z, fun _ : nat => 30) F ltac:(lia)); [repeat constructor; cbn; lia|left; reflexivity|reflexivity|lra].
Qed.
Example C83_case_cube : exists k m, wind_direction Neighbourhood (fun g q => g q) 0 true [] [(7200%Z, [(0%Z, fun _ : nat => 30)]); (3600%Z, [(0%Z, fun _ : nat => 40)])] = (k, Ok m).
Proof. eexists _, _. reflexivity. Qed.
Example C84_case : fst (resolve 5 (PI / 2) 0 false) = (5 * sin (PI / 2), 5 * cos (PI / 2)).
Proof. unfold resolve. cbn [fst]. rewrite !Rplus_0_r. reflexivity. Qed.

Print Assumptions C83_direction.
Print Assumptions C83_agreement_range.
Print Assumptions C83_unanimous.
Print Assumptions C83_member_order.
Print Assumptions C83_rotation.
Print Assumptions C83_within.
Print Assumptions C83_backup_control.
Print Assumptions C83_backup_neighbourhood.
Print Assumptions C83_opposite.
Print Assumptions C83_range.
Print Assumptions C83_range_control_refuted.
Print Assumptions C83_errors.
Print Assumptions C83_cube.
Print Assumptions C83_reuse.
Print Assumptions C83_reuse_refuted.
Print Assumptions C84_components.
Print Assumptions C84_back.
Print Assumptions C84_from_to.
Print Assumptions C84_twice_refuted.
