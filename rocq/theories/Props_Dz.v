(** C98: rescaling by the difference in altitude (improver/calibration/dz_rescaling.py). *)
From Coq Require Import Reals.
From Verif Require Import Base Model_Wind Model_Lightprob Model_Dz Props_Wind Proofs_Temporal.
From Coq Require Import Lra.
Local Open Scope R_scope.

(** * The fit *)
Definition misfit (a k : R) (l : list (R * R)) : R := total (fun p => (snd p - a - k * fst p) ^ 2) l.
Lemma total_lin {A} (f g h : A -> R) c d e l : total (fun p => c * f p + d * g p + e * h p) l = c * total f l + d * total g l + e * total h l.
Proof. unfold total. induction l as [|x l IH]; cbn [map rsum]; [ring|rewrite IH; ring]. Qed.
Lemma total_ext {A} (f g : A -> R) l : (forall p, f p = g p) -> total f l = total g l.
Proof. intro H. unfold total. apply rsum_ext. intros x _. apply H. Qed.
Lemma total_one {A} (l : list A) : total (fun _ => 1) l = INR (length l).
Proof. unfold total. rewrite (rsum_const _ _ 1) by reflexivity. ring. Qed.
Lemma determinant_pos l : (exists p q, In p l /\ In q l /\ fst p <> fst q) -> 0 < determinant l.
Proof.
  intros (p & q & Hp & Hq & N). set (n := INR (length l)). set (s := total fst l). assert (HN : 0 < n) by (unfold n; apply lt_0_INR; destruct l; [destruct Hp|cbn; lia]).
  assert (E : total (fun x : R * R => (n * fst x - s) ^ 2) l = n * determinant l).
  { rewrite (total_ext _ (fun x => n * n * (fst x * fst x) + (-2 * n * s) * fst x + s * s * 1)) by (intro; ring). rewrite (total_lin (fun x : R * R => fst x * fst x) fst (fun _ => 1)), total_one. unfold determinant. fold n s. ring. }
  assert (P : 0 < total (fun x : R * R => (n * fst x - s) ^ 2) l).
  { assert (G : exists x, In x l /\ n * fst x - s <> 0). { destruct (Req_EM_T (n * fst p - s) 0) as [Z|Z]; [|exists p; auto]. exists q. split; [exact Hq|]. intro Z'. apply N. assert (n * fst p = n * fst q) by lra. apply Rmult_eq_reg_l in H; lra. }
    destruct G as (x & I & NZ). clear - I NZ. unfold total. generalize n s NZ. clear NZ. induction l as [|y l IH]; intros a b NZ; [destruct I|]. cbn [map rsum].
    assert (T : 0 <= rsum (map (fun x0 : R * R => (a * fst x0 - b) ^ 2) l)) by (apply rsum_nonneg; intros z _; apply pow2_ge_0). destruct I as [->|I].
    - assert (0 < (a * fst x - b) ^ 2) by (apply Rlt_0_sqr in NZ; unfold Rsqr in NZ; lra). lra.
    - specialize (IH I a b NZ). pose proof (pow2_ge_0 (a * fst y - b)). lra. }
  rewrite E in P. apply (Rmult_lt_reg_l n); lra.
Qed.
(** The scale factor is the slope of a least squares line. *)
Theorem C98_least_squares l k : slope l = Some k -> exists a, forall a' k', misfit a k l <= misfit a' k' l.
Proof.
  unfold slope. destruct (Req_EM_T (determinant l) 0) as [Z|NZ]; [discriminate|]. intro H. injection H as <-. set (n := INR (length l)). set (sx := total fst l). set (sy := total snd l). set (sxx := total (fun p : R * R => fst p * fst p) l). set (sxy := total (fun p : R * R => fst p * snd p) l).
  assert (D : determinant l = n * sxx - sx * sx) by reflexivity. rewrite D in *. set (k := (n * sxy - sx * sy) / (n * sxx - sx * sx)). assert (HN : n <> 0). { intro X. unfold n in X. destruct l as [|p r]; [unfold sxx, sx, total in NZ; cbn in NZ; lra|]. apply (not_0_INR (length (p :: r))); [discriminate|exact X]. }
  exists ((sy - k * sx) / n). set (a := (sy - k * sx) / n). intros a' k'.
  assert (N1 : sy - n * a - k * sx = 0) by (unfold a; field; exact HN). assert (N2 : sxy - a * sx - k * sxx = 0) by (unfold a, k; field; split; [exact NZ|exact HN]).
  assert (E : misfit a' k' l = misfit a k l + total (fun p : R * R => ((a - a') + (k - k') * fst p) ^ 2) l).
  { assert (M : forall a k, misfit a k l = total (fun p : R * R => snd p * snd p) l + n * a * a + k * k * sxx - 2 * a * sy - 2 * k * sxy + 2 * a * k * sx).
    { intros b m. unfold misfit. rewrite (total_ext _ (fun p : R * R => 1 * (snd p * snd p + b * b * 1 + m * m * (fst p * fst p)) + (-2) * (b * snd p + m * (fst p * snd p) + 0 * 1) + (2 * b * m) * fst p)) by (intro; ring).
      rewrite (total_lin (fun p : R * R => snd p * snd p + b * b * 1 + m * m * (fst p * fst p)) (fun p : R * R => b * snd p + m * (fst p * snd p) + 0 * 1) fst).
      rewrite (total_ext (fun p : R * R => snd p * snd p + b * b * 1 + m * m * (fst p * fst p)) (fun p => 1 * (snd p * snd p) + b * b * 1 + m * m * (fst p * fst p))) by (intro; ring).
      rewrite (total_lin (fun p : R * R => snd p * snd p) (fun _ => 1) (fun p : R * R => fst p * fst p)), (total_lin snd (fun p : R * R => fst p * snd p) (fun _ => 1)), total_one. fold n sx sy sxx sxy. ring. }
    assert (S2 : total (fun p : R * R => ((a - a') + (k - k') * fst p) ^ 2) l = n * (a - a') * (a - a') + (k - k') * (k - k') * sxx + 2 * (a - a') * (k - k') * sx).
    { rewrite (total_ext _ (fun p : R * R => ((a - a') * (a - a')) * 1 + ((k - k') * (k - k')) * (fst p * fst p) + (2 * (a - a') * (k - k')) * fst p)) by (intro; ring). rewrite (total_lin (fun _ => 1) (fun p : R * R => fst p * fst p) fst), total_one. fold n sx sxx. ring. }
    rewrite S2, !M. clearbody a k. clear M S2. assert (A1 : sy = n * a + k * sx) by lra. assert (A2 : sxy = a * sx + k * sxx) by lra. rewrite A1, A2. ring. }
  rewrite E. assert (0 <= total (fun p : R * R => ((a - a') + (k - k') * fst p) ^ 2) l) by (apply rsum_nonneg; intros p _; apply pow2_ge_0). lra.
Qed.
(** Two different altitude differences determine it, and points on a line give the slope of that line. *)
Theorem C98_exact_line l a k : (exists p q, In p l /\ In q l /\ fst p <> fst q) -> (forall p, In p l -> snd p = a + k * fst p) -> slope l = Some k.
Proof.
  intros H L. pose proof (determinant_pos l H) as P. unfold slope. destruct (Req_EM_T (determinant l) 0) as [Z|NZ]; [lra|]. f_equal.
  assert (E1 : total (fun p => fst p * snd p) l = a * total fst l + k * total (fun p => fst p * fst p) l).
  { unfold total. rewrite (rsum_ext _ _ (fun p => a * fst p + k * (fst p * fst p)) l) by (intros p I; rewrite (L p I); ring). rewrite (rsum_plus _ (fun p => a * fst p) (fun p => k * (fst p * fst p))), !rsum_scale. reflexivity. }
  assert (E2 : total snd l = a * INR (length l) + k * total fst l).
  { unfold total. rewrite (rsum_ext _ _ (fun p => a * 1 + k * fst p) l) by (intros p I; rewrite (L p I); ring). rewrite (rsum_plus _ (fun _ => a * 1) (fun p => k * fst p)), (rsum_scale _ fst k). rewrite (rsum_const _ (fun _ => a * 1) (a * 1)) by reflexivity. ring. }
  rewrite E1, E2. unfold determinant in *. field. exact NZ.
Qed.

(** * The scaled difference in altitude *)
Definition nearest_allowed (b : bounds) (d : R) : R := match b with (Some lo, Some hi) => Rmin (Rmax d lo) hi | (Some lo, None) => Rmax d lo | (None, Some hi) => Rmin d hi | (None, None) => d end.
Definition ordered (b : bounds) : Prop := match b with (Some lo, Some hi) => lo <= hi | _ => True end.
Lemma exp_le a b : a <= b -> exp a <= exp b.
Proof. intros [H|H]; [left; apply exp_increasing; exact H|right; congruence]. Qed.
Ltac rmm := repeat match goal with
  | |- context [Rmax ?a ?b] => destruct (Rle_dec a b); [rewrite (Rmax_right a b) by assumption|rewrite (Rmax_left a b) by lra]
  | |- context [Rmin ?a ?b] => destruct (Rle_dec a b); [rewrite (Rmin_left a b) by assumption|rewrite (Rmin_right a b) by lra] end.
Theorem C98_scaled k b dz : ordered b -> (k <> 0 \/ exists lo hi, b = (Some lo, Some hi)) -> scaled_dz k b dz = Some (exp (- (k * nearest_allowed b dz))).
Proof.
  intros O K. unfold scaled_dz. replace (-1 * k * dz) with (- k * dz) by ring. assert (Pd := exp_pos (- k * dz)).
  assert (Mo : forall x y, x <= y -> 0 <= k -> exp (- k * y) <= exp (- k * x)) by (intros x y H Hk; apply exp_le; assert (k * x <= k * y) by (apply Rmult_le_compat_l; assumption); lra).
  assert (Mn : forall x y, x <= y -> k <= 0 -> exp (- k * x) <= exp (- k * y)) by (intros x y H Hk; apply exp_le; assert (- k * x <= - k * y) by (apply Rmult_le_compat_l; lra); lra).
  destruct b as [[lo|] [hi|]]; cbn [fst snd exp_bound nearest_allowed ordered] in *.
  - cbn [amin amax clip_x]. f_equal. replace (-1 * k * lo) with (- k * lo) by ring. replace (-1 * k * hi) with (- k * hi) by ring. replace (- (k * Rmin (Rmax dz lo) hi)) with (- k * Rmin (Rmax dz lo) hi) by ring.
    destruct (Rle_dec 0 k) as [P|P].
    + rewrite (Rmin_right (exp (- k * lo))) by (apply Mo; assumption). rewrite (Rmax_left (exp (- k * lo))) by (apply Mo; assumption).
      destruct (Rle_dec dz lo) as [A|A]; [rewrite (Rmax_right dz lo) by exact A; rewrite (Rmin_left lo hi) by exact O; pose proof (Mo dz lo A P); pose proof (Mo lo hi O P); rewrite Rmax_left by lra; rewrite Rmin_right by lra; reflexivity|].
      rewrite (Rmax_left dz lo) by lra. pose proof (Mo lo dz ltac:(lra) P). destruct (Rle_dec dz hi) as [B|B]; [rewrite (Rmin_left dz hi) by exact B; pose proof (Mo dz hi B P); rewrite Rmax_left by lra; rewrite Rmin_left by lra; reflexivity|].
      rewrite (Rmin_right dz hi) by lra. pose proof (Mo hi dz ltac:(lra) P). pose proof (Mo lo hi O P). rewrite Rmax_right by lra. rewrite Rmin_left by lra. reflexivity.
    + assert (P' : k <= 0) by lra. rewrite (Rmin_left (exp (- k * lo))) by (apply Mn; assumption). rewrite (Rmax_right (exp (- k * lo))) by (apply Mn; assumption).
      destruct (Rle_dec dz lo) as [A|A]; [rewrite (Rmax_right dz lo) by exact A; rewrite (Rmin_left lo hi) by exact O; pose proof (Mn dz lo A P'); pose proof (Mn lo hi O P'); rewrite Rmax_right by lra; rewrite Rmin_left by lra; reflexivity|].
      rewrite (Rmax_left dz lo) by lra. pose proof (Mn lo dz ltac:(lra) P'). rewrite Rmax_left by lra. destruct (Rle_dec dz hi) as [B|B]; [rewrite (Rmin_left dz hi) by exact B; pose proof (Mn dz hi B P'); rewrite Rmin_left by lra; reflexivity|].
      rewrite (Rmin_right dz hi) by lra. pose proof (Mn hi dz ltac:(lra) P'). rewrite Rmin_right by lra. reflexivity.
  - destruct K as [K|(x & y & E)]; [|discriminate]. destruct (Req_EM_T k 0) as [Z|_]; [contradiction|]. replace (-1 * k * lo) with (- k * lo) by ring. replace (- (k * Rmax dz lo)) with (- k * Rmax dz lo) by ring. pose proof (exp_pos (- k * lo)). destruct (Rlt_dec 0 k) as [P|P]; cbn [amin amax clip_x]; f_equal.
    + rewrite (Rmin_right (exp (- k * lo))) by lra. rewrite (Rmax_left (exp (- k * lo))) by lra. rewrite (Rmax_left _ 0) by lra. destruct (Rle_dec dz lo) as [A|A]; [rewrite (Rmax_right dz lo) by exact A; pose proof (Mo dz lo A ltac:(lra)); rewrite Rmin_right by lra; reflexivity|rewrite (Rmax_left dz lo) by lra; pose proof (Mo lo dz ltac:(lra) ltac:(lra)); rewrite Rmin_left by lra; reflexivity].
    + destruct (Rle_dec dz lo) as [A|A]; [rewrite (Rmax_right dz lo) by exact A; pose proof (Mn dz lo A ltac:(lra)); rewrite Rmax_right by lra; reflexivity|rewrite (Rmax_left dz lo) by lra; pose proof (Mn lo dz ltac:(lra) ltac:(lra)); rewrite Rmax_left by lra; reflexivity].
  - destruct K as [K|(x & y & E)]; [|discriminate]. destruct (Req_EM_T k 0) as [Z|_]; [contradiction|]. replace (-1 * k * hi) with (- k * hi) by ring. replace (- (k * Rmin dz hi)) with (- k * Rmin dz hi) by ring. pose proof (exp_pos (- k * hi)). destruct (Rlt_dec 0 (- k)) as [P|P]; cbn [amin amax clip_x]; f_equal.
    + rewrite (Rmin_left 0) by lra. rewrite (Rmax_right 0) by lra. rewrite (Rmax_left _ 0) by lra. destruct (Rle_dec dz hi) as [A|A]; [rewrite (Rmin_left dz hi) by exact A; pose proof (Mn dz hi A ltac:(lra)); rewrite Rmin_left by lra; reflexivity|rewrite (Rmin_right dz hi) by lra; pose proof (Mn hi dz ltac:(lra) ltac:(lra)); rewrite Rmin_right by lra; reflexivity].
    + destruct (Rle_dec dz hi) as [A|A]; [rewrite (Rmin_left dz hi) by exact A; pose proof (Mo dz hi A ltac:(lra)); rewrite Rmax_left by lra; reflexivity|rewrite (Rmin_right dz hi) by lra; pose proof (Mo hi dz ltac:(lra) ltac:(lra)); rewrite Rmax_right by lra; reflexivity].
  - destruct K as [K|(x & y & E)]; [|discriminate]. destruct (Req_EM_T k 0) as [Z|_]; [contradiction|]. replace (- (k * dz)) with (- k * dz) by ring. destruct (Rlt_dec 0 (- k)), (Rlt_dec 0 k); try lra; cbn [amin amax clip_x]; rewrite Rmax_left by lra; reflexivity.
Qed.
(** Without both bounds a scale factor of exactly zero (forecasts equal to the truths, say) makes every value NaN. *)
Theorem C98_zero_factor_refuted b dz : fst b = None \/ snd b = None -> scaled_dz 0 b dz = None.
Proof.
  destruct b as [lo hi]. unfold scaled_dz. cbn [fst snd]. intros [->| ->]; cbn [exp_bound]; (destruct (Req_EM_T 0 0) as [_|N]; [|contradiction]); [reflexivity|]. destruct lo; cbn [amin amax clip_x exp_bound]; [reflexivity|]. destruct (Req_EM_T 0 0); [reflexivity|contradiction].
Qed.

(** * Training *)
Definition common (forecasts truths : site_data (list R)) (dz : site_data R) (s : Z) : Prop := In s (map fst forecasts) /\ In s (map fst truths) /\ In s (map fst dz).
Lemma has_iff {A} (c : site_data A) s : has c s = true <-> In s (map fst c).
Proof. unfold has. rewrite existsb_exists. split; [intros (e & I & E); apply Z.eqb_eq in E; subst s; apply in_map; exact I|intro I; apply in_map_iff in I as (e & E & I); exists e; split; [exact I|apply Z.eqb_eq; exact E]]. Qed.
Definition chosen_sites {A} (forecasts truths : site_data (list R)) (dz : site_data R) (c : site_data A) : site_data A := filter (fun e => has forecasts (fst e) && has truths (fst e) && has dz (fst e)) c.
(** The cubes list the sites they share in the same order. *)
Definition same_order (forecasts truths : site_data (list R)) (dz : site_data R) : Prop := exists sites,
  map fst (chosen_sites forecasts truths dz forecasts) = sites /\ map fst (chosen_sites forecasts truths dz truths) = sites /\ map fst (chosen_sites forecasts truths dz dz) = sites.
Lemma zip_sites : forall (sites : list Z) (f o : site_data (list R)) (d : site_data R), NoDup sites -> map fst f = sites -> map fst o = sites -> map fst d = sites -> forall x y z,
  In (z, (x, y)) (combine (map snd d) (combine (map snd f) (map snd o))) <-> exists s, In (s, x) f /\ In (s, y) o /\ In (s, z) d.
Proof.
  induction sites as [|s sites IH]; intros [|[s1 x1] f] [|[s2 y1] o] [|[s3 z1] d] N Ef Eo Ed x y z; try discriminate; cbn.
  - split; [intros []|intros (s & [] & _)].
  - cbn in Ef, Eo, Ed. injection Ef as -> Ef. injection Eo as -> Eo. injection Ed as -> Ed. inversion N as [|? ? N1 N2]; subst sites. rewrite (IH f o d N2 eq_refl Eo Ed). split.
    + intros [E|(u & A & B & C)]; [apply pair_equal_spec in E as [<- E]; apply pair_equal_spec in E as [<- <-]; exists s; auto|exists u; auto].
    + assert (X : forall (A : Type) (c : site_data A) v, map fst c = map fst f -> In (s, v) c -> False) by (intros A c v E Hx; apply N1; rewrite <- E; change s with (fst (s, v)); apply in_map; exact Hx).
      intros (u & A & B & C). destruct (Z.eq_dec s u) as [<-|NE].
      * destruct A as [A|A]; [|exfalso; apply (X _ f x eq_refl A)]. destruct B as [B|B]; [|exfalso; apply (X _ o y Eo B)]. destruct C as [C|C]; [|exfalso; apply (X _ d z Ed C)]. left. congruence.
      * right. exists u. destruct A as [A|A]; [congruence|]. destruct B as [B|B]; [congruence|]. destruct C as [C|C]; [congruence|]. auto.
Qed.
(** Then every site that all three cubes have contributes, with its own altitude difference, each pair of its forecasts and truths at one time, and nothing else does. *)
Theorem C98_training forecasts truths dz p : NoDup (map fst dz) -> same_order forecasts truths dz -> (In p (training forecasts truths dz) <->
  exists s d f o i, In (s, d) dz /\ In (s, f) forecasts /\ In (s, o) truths /\ (i < length f)%nat /\ (i < length o)%nat /\ p = (d, (nth i f 0, nth i o 0))).
Proof.
  intros N (sites & Ef & Eo & Ed). assert (Ns : NoDup sites). { rewrite <- Ed. clear - N. unfold chosen_sites. induction dz as [|e dz IH]; cbn; [constructor|]. inversion N as [|? ? N1 N2]; subst. assert (G : forall P, ~ In (fst e) (map fst (filter P dz))) by (intros P I; apply N1; apply in_map_iff in I as (x & E & I); apply filter_In in I as [I _]; rewrite <- E; apply in_map; exact I).
    assert (IH' : forall P : Z * R -> bool, NoDup (map fst (filter P dz))). { clear - N2. intro P. induction dz as [|x dz IH]; cbn; [constructor|]. inversion N2 as [|? ? M1 M2]; subst. destruct (P x); [cbn; constructor; [|apply IH; exact M2]|apply IH; exact M2]. intro I. apply M1. apply in_map_iff in I as (y & E & I). apply filter_In in I as [I _]. rewrite <- E. apply in_map. exact I. }
    destruct (_ && _); [cbn; constructor; [apply G|apply IH']|apply IH']. }
  unfold training. set (ok := fun s => has forecasts s && has truths s && has dz s). rewrite in_concat.
  assert (Z : forall (x y : list R) z, In (z, (x, y)) (combine (extract_sites ok dz) (combine (extract_sites ok forecasts) (extract_sites ok truths))) <-> exists s, In (s, x) forecasts /\ In (s, y) truths /\ In (s, z) dz).
  { intros x y z. eapply iff_trans; [exact (zip_sites sites _ _ _ Ns Ef Eo Ed x y z)|]. split.
    - intros (s & A & B & C). apply filter_In in A as [A _]. apply filter_In in B as [B _]. apply filter_In in C as [C _]. exists s. auto.
    - intros (s & A & B & C). assert (K : ok s = true) by (unfold ok; rewrite !andb_true_iff, !has_iff; split; [split|]; change s with (fst (s, x)) || idtac; [apply (in_map fst) in A; exact A|apply (in_map fst) in B; exact B|apply (in_map fst) in C; exact C]). exists s. repeat split; apply filter_In; split; try assumption; exact K. }
  split.
  - intros (q & Q & I). apply in_map_iff in Q as ([z w] & <- & Q). cbn [fst snd] in I. apply in_map_iff in I as ([a b] & <- & I).
    assert (W : exists x y, w = combine x y /\ In (z, (x, y)) (combine (extract_sites ok dz) (combine (extract_sites ok forecasts) (extract_sites ok truths)))).
    { clear - Q. revert Q. generalize (combine (extract_sites ok forecasts) (extract_sites ok truths)) (extract_sites ok dz). induction l as [|[x y] l IH]; intros [|z0 ds] Q; cbn in Q; try (destruct Q; fail). destruct Q as [E|Q]; [apply pair_equal_spec in E as [<- <-]; exists x, y; split; [reflexivity|left; reflexivity]|]. destruct (IH ds Q) as (x' & y' & A & B). exists x', y'. split; [exact A|right; exact B]. }
    destruct W as (x & y & -> & W). apply Z in W as (s & A & B & C). apply (In_nth _ _ (0, 0)) in I as (i & Hi & E). rewrite combine_length in Hi. exists s, z, x, y, i. repeat (split; [assumption|]). split; [lia|]. split; [lia|]. f_equal. rewrite <- E.
    clear - Hi. revert y i Hi. induction x as [|u x IH]; intros [|v y] [|i] Hi; cbn in *; try lia; [reflexivity|]. apply IH. lia.
  - intros (s & d & f & o & i & Id & If & Io & Hf & Ho & ->). exists (map (pair d) (combine f o)). split.
    + assert (W : In (d, (f, o)) (combine (extract_sites ok dz) (combine (extract_sites ok forecasts) (extract_sites ok truths)))) by (apply Z; exists s; auto). apply in_map_iff. exists (d, combine f o). split; [reflexivity|].
      clear - W. revert W. generalize (combine (extract_sites ok forecasts) (extract_sites ok truths)) (extract_sites ok dz). induction l as [|[x y] l IH]; intros [|z0 ds] Q; cbn in Q; try (destruct Q; fail). destruct Q as [E|Q]; [apply pair_equal_spec in E as [-> E]; apply pair_equal_spec in E as [-> ->]; left; reflexivity|right; apply IH; exact Q].
    + apply in_map. clear - Hf Ho. revert o i Hf Ho. induction f as [|u f IH]; intros [|v o] [|i] Hf Ho; cbn in *; try lia; [left; reflexivity|right; apply IH; lia].
Qed.
Lemma all_some_map {A B} (f : A -> option B) l m : all_some (map f l) = Some m -> forall y, In y m <-> exists x, In x l /\ f x = Some y.
Proof.
  revert m. induction l as [|x l IH]; intros m; cbn; [intro H; injection H as <-; intro y; split; [intros []|intros (x & [] & _)]|].
  destruct (f x) as [b|] eqn:F; [|discriminate]. destruct (all_some (map f l)) as [m'|]; [|discriminate]. cbn. intro H. injection H as <-. intro y. cbn. rewrite (IH m' eq_refl y). split.
  - intros [<-|(z & I & E)]; [exists x; auto|exists z; auto].
  - intros (z & [<-|I] & E); [left; congruence|right; exists z; auto].
Qed.
Lemma all_some_total {A B} (f : A -> option B) l : (forall x, In x l -> f x <> None) -> exists m, all_some (map f l) = Some m.
Proof. induction l as [|x l IH]; intro H; cbn; [exists []; reflexivity|]. destruct (f x) as [b|] eqn:F; [|destruct (H x (or_introl eq_refl) F)]. destruct IH as (m & ->); [intros y I; apply H; right; exact I|]. exists (b :: m). reflexivity. Qed.
Lemma in_bounds_iff b d : in_bounds b d = true <-> (forall lo, fst b = Some lo -> lo <= d) /\ (forall hi, snd b = Some hi -> d <= hi).
Proof.
  unfold in_bounds. destruct b as [lo hi]. cbn [fst snd]. rewrite andb_true_iff. split; intros [A B]; split.
  - intros x ->. destruct (Rle_dec x d); [assumption|discriminate].
  - intros x ->. destruct (Rle_dec d x); [assumption|discriminate].
  - destruct lo as [x|]; [|reflexivity]. destruct (Rle_dec x d) as [|N]; [reflexivity|]. destruct N. apply A. reflexivity.
  - destruct hi as [x|]; [|reflexivity]. destruct (Rle_dec d x) as [|N]; [reflexivity|]. destruct N. apply B. reflexivity.
Qed.
Lemma nonzero_iff x : nonzero x = true <-> x <> 0.
Proof. unfold nonzero. destruct (Req_EM_T x 0); split; intro; try discriminate; try contradiction; auto. Qed.
(** Points with a zero forecast, a zero truth or an altitude difference out of bounds do not matter at all. *)
Theorem C98_ignored b points : fit b points = fit b (filter (fun p => nonzero (fst (snd p)) && nonzero (snd (snd p)) && in_bounds b (fst p)) points).
Proof.
  change (fun p : R * (R * R) => nonzero (fst (snd p)) && nonzero (snd (snd p)) && in_bounds b (fst p)) with (used b). unfold fit.
  assert (E : filter (used b) (filter (used b) points) = filter (used b) points); [|rewrite E; reflexivity]. induction points as [|p l IH]; cbn; [reflexivity|]. destruct (used b p) eqn:U; cbn; [rewrite U; f_equal; exact IH|exact IH].
Qed.
(** If forecasts are everywhere c exp(k dz) times the truth, the estimate is exp(-k dz) with dz taken to the nearest bound, and the rescaled forecast is c times the truth where dz is within bounds. *)
Theorem C98_altitude_error_removed fp time b forecasts truths dz c k : NoDup (map fst dz) -> same_order forecasts truths dz -> 0 < c -> ordered b -> (k <> 0 \/ exists lo hi, b = (Some lo, Some hi)) ->
  (forall s d f o i, In (s, d) dz -> In (s, f) forecasts -> In (s, o) truths -> (i < length f)%nat -> (i < length o)%nat -> 0 <= nth i o 0 /\ nth i f 0 = c * exp (k * d) * nth i o 0) ->
  (exists p q, In p (training forecasts truths dz) /\ In q (training forecasts truths dz) /\ used b p = true /\ used b q = true /\ fst p <> fst q) ->
  let e := estimate fp time b forecasts truths dz in
  sc_sites e = map fst dz /\ forall i s d, nth_error dz i = Some (s, d) -> nth_error (sc_values e) i = Some (Some (exp (- (k * nearest_allowed b d)))) /\ (in_bounds b d = true -> forall o, c * exp (k * d) * o * exp (- (k * nearest_allowed b d)) = c * o).
Proof.
  intros N SO Hc Ob K E (p & q & Ip & Iq & Up & Uq & Npq) e. split; [reflexivity|].
  assert (T : forall p, In p (training forecasts truths dz) -> 0 <= snd (snd p) /\ fst (snd p) = c * exp (k * fst p) * snd (snd p)).
  { intros r Hr. apply C98_training in Hr as (s & d & f & o & i & A & B & C & D & F & ->); [|exact N|exact SO]. cbn [fst snd]. eapply E; eassumption. }
  assert (L : forall p, In p (filter (used b) (training forecasts truths dz)) -> log_ratio p = Some (fst p, ln c + k * fst p)).
  { intros r Hr. apply filter_In in Hr as [I U]. destruct (T r I) as [P1 P2]. unfold used in U. rewrite !andb_true_iff, !nonzero_iff in U. destruct U as [[U1 U2] _]. unfold log_ratio, log. assert (P3 : 0 < snd (snd r)) by lra.
    assert (Q : fst (snd r) / snd (snd r) = c * exp (k * fst r)) by (rewrite P2; field; exact U2). rewrite Q. pose proof (exp_pos (k * fst r)). destruct (Rlt_dec 0 (c * exp (k * fst r))) as [_|NN]; [|destruct NN; apply Rmult_lt_0_compat; assumption]. cbn [option_map]. rewrite ln_mult, ln_exp by assumption. reflexivity. }
  assert (F : fit b (training forecasts truths dz) = Some k).
  { unfold fit. destruct (all_some_total log_ratio (filter (used b) (training forecasts truths dz))) as (m & M); [intros r Hr; rewrite (L r Hr); discriminate|]. rewrite M. pose proof (all_some_map _ _ _ M) as MM. apply (C98_exact_line m (ln c) k).
    - exists (fst p, ln c + k * fst p), (fst q, ln c + k * fst q). repeat split; [apply MM; exists p|apply MM; exists q|exact Npq]; (split; [apply filter_In; split; assumption|apply L, filter_In; split; assumption]).
    - intros r Hr. apply MM in Hr as (x & I & Ex). rewrite (L x I) in Ex. injection Ex as <-. reflexivity. }
  intros i s d Hi. assert (V : nth_error (sc_values e) i = Some (Some (exp (- (k * nearest_allowed b d))))).
  { unfold e, estimate, scale_factor. cbn [sc_values]. rewrite F, nth_error_map, Hi. cbn [option_map snd]. rewrite C98_scaled by assumption. reflexivity. }
  split; [exact V|]. intros IB o. apply in_bounds_iff in IB as [B1 B2]. assert (NA : nearest_allowed b d = d).
  { destruct b as [[lo|] [hi|]]; cbn in *; [rewrite (Rmax_left d lo) by (apply B1; reflexivity); apply Rmin_left, B2; reflexivity|apply Rmax_left, B1; reflexivity|apply Rmin_left, B2; reflexivity|reflexivity]. }
  rewrite NA, exp_Ropp. field. apply Rgt_not_eq, exp_pos.
Qed.
(** The sites are paired by their place in the cubes: listing the neighbours in another order changes the scale factor. *)
Theorem C98_site_order_refuted : exists forecasts truths dz dz', Permutation dz dz' /\ NoDup (map fst dz) /\ scale_factor (None, None) forecasts truths dz = Some 1 /\ scale_factor (None, None) forecasts truths dz' = Some (-1).
Proof.
  exists [(1%Z, [1]); (2%Z, [exp 1])], [(1%Z, [1]); (2%Z, [1])], [(1%Z, 0); (2%Z, 1)], [(2%Z, 1); (1%Z, 0)]. split; [apply perm_swap|]. split; [cbn; constructor; [intros [X|[]]; discriminate|constructor; [intros []|constructor]]|].
  pose proof (exp_pos 1). assert (NZ : forall x, 0 < x -> nonzero x = true) by (intros x Hx; apply nonzero_iff; lra). assert (P1 : 0 < 1) by lra.
  assert (L1 : log (1 / 1) = Some 0) by (unfold log; replace (1 / 1) with 1 by field; destruct (Rlt_dec 0 1); [rewrite ln_1; reflexivity|lra]). assert (L2 : log (exp 1 / 1) = Some 1) by (unfold log; replace (exp 1 / 1) with (exp 1) by field; destruct (Rlt_dec 0 (exp 1)); [rewrite ln_exp; reflexivity|lra]).
  split; unfold scale_factor, fit, training, extract_sites, used; cbn -[Rlt_dec log nonzero exp Rdiv]; rewrite !NZ by assumption; cbn -[Rlt_dec log nonzero exp Rdiv]; unfold log_ratio; cbn [fst snd]; rewrite L1, L2; cbn [option_map all_some].
  - apply (C98_exact_line _ 0 1); [exists (0, 0), (1, 1); cbn; repeat split; auto; lra|]. intros p [<-|[<-|[]]]; cbn; lra.
  - apply (C98_exact_line _ 1 (-1)); [exists (1, 0), (0, 1); cbn; repeat split; auto; lra|]. intros p [<-|[<-|[]]]; cbn; lra.
Qed.

(** * Application *)
Definition sooner (a b : Z) : Prop := (Z.abs a < Z.abs b \/ (Z.abs a = Z.abs b /\ a < b))%Z.
Lemma insert_stable x l : StronglySorted sooner l -> Forall (fun y => (x < y)%Z) l -> StronglySorted sooner (insert (fun a b => Z.abs a <=? Z.abs b)%Z x l).
Proof.
  induction 1 as [|y l So IH F]; intro H; cbn; [repeat constructor|]. inversion H as [|? ? H1 H2]; subst. destruct (Z.leb_spec (Z.abs x) (Z.abs y)) as [L|L].
  - constructor; [constructor; assumption|]. constructor; [unfold sooner; lia|]. rewrite Forall_forall in *. intros z Z0. specialize (F z Z0). specialize (H2 z Z0). unfold sooner in *. lia.
  - constructor; [apply IH; exact H2|]. rewrite Forall_forall in *. intros z Z0. apply (Permutation_in _ (Permutation_sym (insert_perm _ _ _))) in Z0 as [<-|Z0]; [unfold sooner; lia|apply F; exact Z0].
Qed.
Lemma leniencies_sorted n : StronglySorted sooner (leniencies n).
Proof.
  unfold leniencies. assert (So : forall m k, StronglySorted Z.lt (map (fun i => Z.of_nat i - n)%Z (seq k m))).
  { induction m as [|m IH]; intro k; cbn; constructor; [apply IH|]. apply Forall_forall. intros z Z0. apply in_map_iff in Z0 as (i & <- & I). apply in_seq in I. lia. }
  generalize (So (Z.to_nat (2 * n + 1)) 0%nat). generalize (map (fun i => Z.of_nat i - n)%Z (seq 0 (Z.to_nat (2 * n + 1)))). induction 1 as [|x l S1 IH F]; cbn; [constructor|]. apply insert_stable; [exact IH|]. rewrite Forall_forall in *. intros z Z0. apply F. apply (Permutation_in _ (Permutation_sym (isort_perm _ _)) Z0).
Qed.
Lemma leniencies_in n l : In l (leniencies n) <-> (Z.abs l <= n)%Z.
Proof.
  unfold leniencies. split.
  - intro H. apply (Permutation_in _ (Permutation_sym (isort_perm _ _))) in H. apply in_map_iff in H as (i & <- & I). apply in_seq in I. lia.
  - intro H. apply (Permutation_in _ (isort_perm _ _)). apply in_map_iff. exists (Z.to_nat (l + n)). split; [lia|]. apply in_seq. lia.
Qed.
Lemma first_index_some {A} (p : A -> bool) d l i : first_index p l = Some i -> (i < length l)%nat /\ p (nth i l d) = true /\ forall j, (j < i)%nat -> p (nth j l d) = false.
Proof.
  revert i. induction l as [|x l IH]; intros i H; cbn in H; [discriminate|]. destruct (p x) eqn:P.
  - injection H as <-. cbn. split; [lia|]. split; [exact P|intros; lia].
  - destruct (first_index p l) as [k|]; [|discriminate]. cbn in H. injection H as <-. destruct (IH k eq_refl) as (A1 & A2 & A3). cbn. split; [lia|]. split; [exact A2|]. intros [|j] Hj; [exact P|apply A3; lia].
Qed.
Lemma first_index_none {A} (p : A -> bool) l : first_index p l = None <-> forall x, In x l -> p x = false.
Proof.
  induction l as [|x l IH]; cbn; [split; [intros _ x []|reflexivity]|]. destruct (p x) eqn:P; [split; [discriminate|intro H; rewrite (H x (or_introl eq_refl)) in P; discriminate]|].
  destruct (first_index p l); cbn; split; intro H; try discriminate; try reflexivity.
  - assert (X : Some n = None) by (apply IH; intros y Y; apply H; right; exact Y). discriminate.
  - intros y [<-|Y]; [exact P|apply IH; trivial].
Qed.
Lemma first_hour_some hours frt ls i : StronglySorted sooner ls -> first_hour hours frt ls = Some i -> exists l, In l ls /\ (i < length hours)%nat /\ nth i hours 0%Z = hour_wanted frt l /\ forall l', In l' ls -> sooner l' l -> ~ In (hour_wanted frt l') hours.
Proof.
  induction 1 as [|x ls So IH F]; cbn; [discriminate|]. destruct (first_index (Z.eqb (hour_wanted frt x)) hours) as [k|] eqn:E; intro H.
  - injection H as <-. destruct (first_index_some _ 0%Z _ _ E) as (A1 & A2 & _). apply Z.eqb_eq in A2. exists x. split; [left; reflexivity|]. split; [exact A1|]. split; [symmetry; exact A2|]. intros l' [<-|I] S1; [unfold sooner in S1; lia|]. rewrite Forall_forall in F. specialize (F l' I). unfold sooner in *. lia.
  - destruct (IH H) as (l & I & A1 & A2 & A3). exists l. split; [right; exact I|]. split; [exact A1|]. split; [exact A2|]. intros l' [<-|I'] S1; [|apply A3; assumption]. intro X. rewrite first_index_none in E. specialize (E _ X). rewrite Z.eqb_refl in E. discriminate.
Qed.
Lemma first_hour_none hours frt ls : first_hour hours frt ls = None <-> forall l, In l ls -> ~ In (hour_wanted frt l) hours.
Proof.
  induction ls as [|x ls IH]; cbn; [split; [intros _ l []|reflexivity]|]. destruct (first_index (Z.eqb (hour_wanted frt x)) hours) as [k|] eqn:E; split; intro H; try discriminate.
  - exfalso. destruct (first_index_some _ 0%Z _ _ E) as (A1 & A2 & _). apply Z.eqb_eq in A2. apply (H x (or_introl eq_refl)). rewrite A2. apply nth_In. exact A1.
  - intros l [<-|I]; [|apply IH; assumption]. intro X. rewrite first_index_none in E. specialize (E _ X). rewrite Z.eqb_refl in E. discriminate.
  - apply IH. intros l I. apply H. right. exact I.
Qed.
Lemma zs_eqb_iff a : forall b, zs_eqb a b = true <-> a = b.
Proof. induction a as [|x a IH]; intros [|y b]; cbn; split; intro H; try discriminate; try reflexivity; [apply andb_true_iff in H as [X Y]; apply Z.eqb_eq in X; apply IH in Y; congruence|injection H as -> ->; rewrite Z.eqb_refl; apply IH; reflexivity]. Qed.
Definition hour_of_day (t : Z) : Z := (t mod 86400 / 3600)%Z.
Theorem C98_applied n f t g : apply_dz n f t = Ok g -> fc_sites f = tb_sites t /\ fc_sites g = fc_sites f /\ length (fc_rows g) = length (fc_rows f) /\ exists l h p,
  (Z.abs l <= n)%Z /\ nth h (tb_hours t) 0%Z = ((hour_of_day (fc_frt f) + l) mod 24 * 3600)%Z /\
  (forall l', (Z.abs l' <= n)%Z -> (Z.abs l' < Z.abs l \/ (Z.abs l' = Z.abs l /\ l' < l))%Z -> ~ In ((hour_of_day (fc_frt f) + l') mod 24 * 3600)%Z (tb_hours t)) /\
  ((fc_period f <= nth p (tb_periods t) 0 /\ forall q, (q < p)%nat -> nth q (tb_periods t) 0 < fc_period f)%Z \/ (p = (length (tb_periods t) - 1)%nat /\ forall x, In x (tb_periods t) -> (x < fc_period f)%Z)) /\
  forall r i, length (nth r (fc_rows f) []) = length (tb_values t p h) -> (i < length (tb_values t p h))%nat -> nth i (nth r (fc_rows g) []) 0 = nth i (nth r (fc_rows f) []) 0 * nth i (tb_values t p h) 0.
Proof.
  unfold apply_dz. destruct (zs_eqb (fc_sites f) (tb_sites t)) eqn:Z0; [|discriminate]. apply zs_eqb_iff in Z0. destruct (first_hour (tb_hours t) (fc_frt f) (leniencies n)) as [h|] eqn:H; [|discriminate]. intro G. apply Ok_inj in G. subst g. split; [exact Z0|]. split; [reflexivity|]. cbn [fc_rows]. split; [apply map_length|].
  destruct (first_hour_some _ _ _ _ (leniencies_sorted n) H) as (l & I & A1 & A2 & A3). exists l, h, (period_index (tb_periods t) (fc_period f)). split; [apply leniencies_in; exact I|]. split; [exact A2|]. split; [intros l' I' S1; apply A3; [apply leniencies_in; exact I'|exact S1]|]. split.
  - unfold period_index. destruct (first_index _ (tb_periods t)) as [p|] eqn:P.
    + left. destruct (first_index_some _ 0%Z _ _ P) as (B1 & B2 & B3). apply Z.leb_le in B2. split; [lia|]. intros q Hq. specialize (B3 q Hq). apply Z.leb_gt in B3. lia.
    + right. split; [reflexivity|]. intros x X. rewrite first_index_none in P. specialize (P x X). apply Z.leb_gt in P. lia.
  - intros r i L Hi. destruct (le_lt_dec (length (fc_rows f)) r) as [O|O]; [rewrite nth_overflow with (l := fc_rows f) in L by exact O; cbn in L; lia|].
    rewrite nth_map_lt with (d := []) by exact O. unfold times. rewrite nth_map_lt with (d := (0, 0)) by (rewrite combine_length; lia). rewrite combine_nth by exact L. reflexivity.
Qed.
Theorem C98_refused n f t : (exists g, apply_dz n f t = Ok g) <-> fc_sites f = tb_sites t /\ exists l, (Z.abs l <= n)%Z /\ In ((hour_of_day (fc_frt f) + l) mod 24 * 3600)%Z (tb_hours t).
Proof.
  unfold apply_dz. destruct (zs_eqb (fc_sites f) (tb_sites t)) eqn:Z0.
  - apply zs_eqb_iff in Z0. destruct (first_hour (tb_hours t) (fc_frt f) (leniencies n)) as [h|] eqn:H.
    + destruct (first_hour_some _ _ _ _ (leniencies_sorted n) H) as (l & I & A1 & A2 & A3). split; [|intros _; eexists; reflexivity]. intros _. split; [exact Z0|]. exists l. split; [apply leniencies_in; exact I|]. fold (hour_wanted (fc_frt f) l). unfold hour_of_day. fold (hour_wanted (fc_frt f) l). rewrite <- A2. apply nth_In. exact A1.
    + split; [intros (g & G); discriminate|]. intros (_ & l & L & X). exfalso. rewrite first_hour_none in H. apply (H l); [apply leniencies_in; exact L|exact X].
  - split; [intros (g & G); discriminate|]. intros (E & _). apply zs_eqb_iff in E. congruence.
Qed.
(** The estimate is filed under the hour of the reference time and the forecast period it was made for, so applying it to a forecast of that period started at that hour finds it. *)
Theorem C98_filed fp time b forecasts truths dz : let e := estimate fp time b forecasts truths dz in sc_period e = (fp * 3600)%Z /\ sc_hour e = (hour_of_day (time - fp * 3600) * 3600)%Z /\ (0 <= sc_hour e < 86400)%Z /\
  forall f days, fc_period f = sc_period e -> fc_frt f = (time - fp * 3600 + days * 86400)%Z -> ((hour_of_day (fc_frt f) + 0) mod 24 * 3600)%Z = sc_hour e.
Proof.
  intro e. split; [reflexivity|]. split; [reflexivity|]. assert (B : (0 <= hour_of_day (time - fp * 3600) < 24)%Z) by (unfold hour_of_day; pose proof (Z.mod_pos_bound (time - fp * 3600) 86400 ltac:(lia)); split; [apply Z.div_pos; lia|apply Z.div_lt_upper_bound; lia]).
  change (sc_hour e) with (hour_of_day (time - fp * 3600) * 3600)%Z. split; [lia|]. intros f days _ ->. unfold hour_of_day at 1. rewrite Z.mod_add by lia. fold (hour_of_day (time - fp * 3600)). rewrite Z.add_0_r, Z.mod_small by exact B. reflexivity.
Qed.
Example C98_case : leniencies 2 = [0; -1; 1; -2; 2]%Z /\ same_order [(1%Z, [1]); (3%Z, [2]); (2%Z, [5])] [(1%Z, [1]); (2%Z, [5])] [(1%Z, 0); (2%Z, 1)] /\
  (exists g, apply_dz 1 {| fc_sites := [7; 8]%Z; fc_period := 7200; fc_frt := 86400 * 5; fc_rows := [[2; 4]] |} {| tb_sites := [7; 8]%Z; tb_periods := [3600; 10800]%Z; tb_hours := [82800; 3600]%Z; tb_values := fun p h => [INR p; INR h] |} = Ok g /\ fc_rows g = [[2 * INR 1; 4 * INR 0]]).
Proof. split; [reflexivity|]. split; [exists [1; 2]%Z; repeat split|]. eexists. split; [reflexivity|]. reflexivity. Qed.
Example C98_case_removed : nth_error (sc_values (estimate 3 0 (Some (-100), Some 100) [(1%Z, [2]); (2%Z, [2 * exp 1])] [(1%Z, [1]); (2%Z, [1])] [(1%Z, 0); (2%Z, 1)])) 1 = Some (Some (exp (- (1 * nearest_allowed (Some (-100), Some 100) 1)))).
Proof.
  apply (C98_altitude_error_removed 3 0 (Some (-100), Some 100) [(1%Z, [2]); (2%Z, [2 * exp 1])] [(1%Z, [1]); (2%Z, [1])] [(1%Z, 0); (2%Z, 1)] 2 1) with (s := 2%Z); try lra; [cbn; constructor; [intros [X|[]]; discriminate|constructor; [intros []|constructor]]|exists [1; 2]%Z; repeat split|cbn; lra| | |reflexivity].
  - intros s d f o i [A|[A|[]]] [B|[B|[]]] [C|[C|[]]]; injection A as <- <-; try discriminate; injection B as <-; injection C as <-; destruct i as [|[|i]]; cbn [length]; intros L1 L2; try lia; cbn [nth]; (split; [lra|]); rewrite ?Rmult_0_r, ?exp_0, ?Rmult_1_r; try reflexivity; lra.
  - exists (0, (2, 1)), (1, (2 * exp 1, 1)). pose proof (exp_pos 1). split; [left; reflexivity|]. split; [right; left; reflexivity|].
    assert (U : forall x y z, -100 <= x <= 100 -> y <> 0 -> z <> 0 -> used (Some (-100), Some 100) (x, (y, z)) = true) by (intros x y z Hx Hy Hz; unfold used; rewrite !andb_true_iff, !nonzero_iff, in_bounds_iff; cbn [fst snd]; split; [split; assumption|split; intros w E; injection E as <-; lra]).
    split; [apply U; lra|]. split; [apply U; lra|]. cbn. lra.
Qed.

Print Assumptions C98_least_squares.
Print Assumptions C98_exact_line.
Print Assumptions C98_scaled.
Print Assumptions C98_zero_factor_refuted.
Print Assumptions C98_training.
Print Assumptions C98_ignored.
Print Assumptions C98_altitude_error_removed.
Print Assumptions C98_site_order_refuted.
Print Assumptions C98_applied.
Print Assumptions C98_refused.
Print Assumptions C98_filed.
