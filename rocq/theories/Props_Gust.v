(** C107: gust diagnostic, vertical updraught, ultraviolet index. *)
From Coq Require Import Reals List Bool ZArith Lia String.
From Verif Require Import Base Model_Gust.
From Coq Require Import Lra.
Import ListNotations.
Local Open Scope R_scope.

(** ** Gusts *)
(** [has c q f]: the field of the first percentile equal to q is f. *)
Definition has (c : pcube) (q : R) (f : list (list R)) : Prop := exists k, nth_error (p_points c) k = Some q /\ nth_error (p_fields c) k = Some f /\ forall j, (j < k)%nat -> nth_error (p_points c) j <> Some q.
Lemma reqb_spec x y : reflect (x = y) (reqb x y).
Proof. unfold reqb. destruct (Req_EM_T x y); constructor; assumption. Qed.
Lemma field_has q : forall ps fs f, length ps = length fs -> percentile_field q ps fs = Some f <-> exists k, nth_error ps k = Some q /\ nth_error fs k = Some f /\ forall j, (j < k)%nat -> nth_error ps j <> Some q.
Proof.
  induction ps as [|p ps IH]; intros [|g fs] f E; cbn in E; try discriminate.
  - split; [discriminate|]. intros (k & H & _). destruct k; discriminate.
  - cbn [percentile_field]. destruct (reqb_spec p q) as [->|N].
    + split; [intros [= ->]; exists 0%nat; repeat split; intros j Lj; lia|]. intros (k & H1 & H2 & H3). destruct k as [|k]; [cbn in H2; now injection H2 as ->|]. elim (H3 0%nat ltac:(lia)). reflexivity.
    + rewrite IH by lia. split.
      * intros (k & H1 & H2 & H3). exists (Datatypes.S k). repeat split; try assumption. intros [|j] Lj; cbn; [congruence|]. apply H3. lia.
      * intros (k & H1 & H2 & H3). destruct k as [|k]; [cbn in H1; congruence|]. exists k. repeat split; try assumption. intros j Lj. apply (H3 (Datatypes.S j)). lia.
Qed.
Lemma combine_nth_error {A B} (l : list A) (m : list B) k a b : nth_error l k = Some a -> nth_error m k = Some b -> nth_error (combine l m) k = Some (a, b).
Proof. revert m k. induction l as [|x l IH]; intros [|y m] [|k]; cbn; try discriminate. - now intros [= ->] [= ->]. - apply IH. Qed.
Lemma combine_nth_inv {A B} (l : list A) (m : list B) k a b : nth_error (combine l m) k = Some (a, b) -> nth_error l k = Some a /\ nth_error m k = Some b.
Proof. revert m k. induction l as [|x l IH]; intros [|y m] [|k]; cbn; try discriminate. - intros [= -> ->]. now split. - apply IH. Qed.
Lemma forallb_nth {A} (f : A -> bool) l : forallb f l = true <-> forall k a, nth_error l k = Some a -> f a = true.
Proof. rewrite forallb_forall. split; [intros H k a E; apply H; now apply nth_error_In in E|intros H a I; apply In_nth_error in I as [k E]; now apply (H k)]. Qed.
(** Times are compared as far as both lists go: equal throughout, or else each wind speed time within the gust's bounds. *)
Theorem C107_times gust ws tg tw : p_times gust = Some tg -> p_times ws = Some tw ->
  (times_match gust ws = true <-> (forall k a b, nth_error tg k = Some a -> nth_error tw k = Some b -> a = b) \/
     exists bs, p_bounds gust = Some bs /\ forall k t lo hi, nth_error tw k = Some t -> nth_error bs k = Some (lo, hi) -> (lo <= t <= hi)%Z).
Proof.
  intros Eg Ew. unfold times_match. rewrite Eg, Ew.
  assert (A : times_agree tg tw = true <-> forall k a b, nth_error tg k = Some a -> nth_error tw k = Some b -> a = b). { unfold times_agree. rewrite forallb_nth. split. - intros H k a b Ea Eb. pose proof (H k (a, b) (combine_nth_error _ _ _ _ _ Ea Eb)) as X. now apply Z.eqb_eq in X. - intros H k [a b] E. apply combine_nth_inv in E as [Ea Eb]. apply Z.eqb_eq. now apply (H k). }
  assert (B : forall bs, times_inside tw bs = true <-> forall k t lo hi, nth_error tw k = Some t -> nth_error bs k = Some (lo, hi) -> (lo <= t <= hi)%Z). { intro bs. unfold times_inside. rewrite forallb_nth. split. - intros H k t lo hi Et Eb. pose proof (H k (t, (lo, hi)) (combine_nth_error _ _ _ _ _ Et Eb)) as X. cbn [fst snd] in X. apply andb_true_iff in X as [X Y]. apply Z.leb_le in X. apply Z.leb_le in Y. now split. - intros H k [t [lo hi]] E. apply combine_nth_inv in E as [Et Eb]. cbn [fst snd]. apply andb_true_iff. rewrite !Z.leb_le. now apply (H k). }
  destruct (times_agree tg tw) eqn:E; [split; [intros _; left; now apply A|reflexivity]|]. destruct (p_bounds gust) as [bs|].
  - rewrite B. split; [intro H; right; now exists bs|]. intros [H|(bs' & [= <-] & H)]; [apply A in H; discriminate|exact H].
  - split; [discriminate|]. intros [H|(bs' & H & _)]; [apply A in H; discriminate|discriminate].
Qed.
(** The result is the larger of the two at each time and point, hence no less than either. *)
Theorem C107_gust pg pw gust ws fg fw : length (p_points gust) = length (p_fields gust) -> length (p_points ws) = length (p_fields ws) -> has gust pg fg -> has ws pw fw -> p_name gust = p_name ws -> times_match gust ws = true -> length fg = length fw ->
  exists out, gust_diagnostic pg pw gust ws = Ok out /\ length out = length fg /\
    forall k a b, nth_error fg k = Some a -> nth_error fw k = Some b -> exists r, nth_error out k = Some r /\ forall x u v, nth_error a x = Some u -> nth_error b x = Some v -> nth_error r x = Some (Rmax u v).
Proof.
  intros Lg Lw Hg Hw En Tm Lf. unfold gust_diagnostic. apply (field_has pg _ _ _ Lg) in Hg. apply (field_has pw _ _ _ Lw) in Hw. rewrite Hg, Hw, En, String.eqb_refl. cbn [negb]. rewrite Tm. unfold field_max. rewrite Lf, Nat.eqb_refl. eexists. split; [reflexivity|]. rewrite map_length, combine_length. split; [lia|].
  intros k a b Ea Eb. exists (rowmax a b). split; [rewrite nth_error_map, (combine_nth_error _ _ _ _ _ Ea Eb); reflexivity|]. intros x u v Eu Ev. unfold rowmax. now rewrite nth_error_map, (combine_nth_error _ _ _ _ _ Eu Ev).
Qed.
(** Refused: a percentile that is not there, different percentile coordinates, no time, times that do not match. *)
Theorem C107_refused pg pw gust ws : length (p_points gust) = length (p_fields gust) -> length (p_points ws) = length (p_fields ws) ->
  ~ In pg (p_points gust) \/ ~ In pw (p_points ws) \/ p_name gust <> p_name ws \/ times_match gust ws = false -> gust_diagnostic pg pw gust ws = Err ValueError.
Proof.
  intros Lg Lw H. unfold gust_diagnostic. assert (No : forall q c, length (p_points c) = length (p_fields c) -> ~ In q (p_points c) -> percentile_field q (p_points c) (p_fields c) = None). { intros q c L N. destruct (percentile_field q (p_points c) (p_fields c)) as [f|] eqn:E; [|reflexivity]. apply field_has in E; [|exact L]. destruct E as (k & E & _). apply nth_error_In in E. contradiction. }
  destruct H as [H|[H|[H|H]]].
  - now rewrite (No pg gust Lg H).
  - rewrite (No pw ws Lw H). now destruct (percentile_field pg (p_points gust) (p_fields gust)).
  - destruct (percentile_field pg (p_points gust) (p_fields gust)), (percentile_field pw (p_points ws) (p_fields ws)); try reflexivity. destruct (String.eqb_spec (p_name gust) (p_name ws)); [contradiction|reflexivity].
  - destruct (percentile_field pg (p_points gust) (p_fields gust)), (percentile_field pw (p_points ws) (p_fields ws)); try reflexivity. rewrite H. now destruct (negb _).
Qed.
(** Lists of different lengths are not noticed: wind speeds at one time serve for gusts at that time and any others. *)
Theorem C107_all_times_refuted : ~ (forall pg pw gust ws out tg tw, gust_diagnostic pg pw gust ws = Ok out -> p_times gust = Some tg -> p_times ws = Some tw -> p_bounds gust = None -> tg = tw).
Proof.
  intro H. set (g := {| p_name := "percentile"; p_points := [50]; p_fields := [[[1]; [2]]]; p_times := Some [0%Z; 3600%Z]; p_bounds := None |}). set (w := {| p_name := "percentile"; p_points := [95]; p_fields := [[[5]]]; p_times := Some [0%Z]; p_bounds := None |}).
  specialize (H 50 95 g w [rowmax [1] [5]; rowmax [2] [5]] [0%Z; 3600%Z] [0%Z]). assert (E : gust_diagnostic 50 95 g w = Ok [rowmax [1] [5]; rowmax [2] [5]]). { unfold gust_diagnostic, g, w. cbn [p_points p_fields percentile_field p_name]. destruct (reqb_spec 50 50) as [_|N]; [|now elim N]. destruct (reqb_spec 95 95) as [_|N]; [|now elim N]. reflexivity. } specialize (H E eq_refl eq_refl eq_refl). discriminate.
Qed.

(** ** Updraught *)
Lemma from_cape_nonneg c : 0 <= from_cape c.
Proof. unfold from_cape. destruct (Rlt_dec c minimum_cape); [lra|]. pose proof (sqrt_pos (2 * c)). lra. Qed.
Lemma from_precip_nonneg p : 0 <= from_precip p.
Proof. unfold from_precip. destruct (Rlt_dec p minimum_precip); [lra|]. pose proof (exp_pos (22 / 100 * ln (p / (287 / 10)))). unfold Rpower. lra. Qed.
Lemma from_cape_mono c d : c <= d -> from_cape c <= from_cape d.
Proof.
  intro L. unfold from_cape, minimum_cape. destruct (Rlt_dec c 10), (Rlt_dec d 10); try lra. - pose proof (sqrt_pos (2 * d)). lra. - pose proof (sqrt_le_1_alt (2 * c) (2 * d) ltac:(lra)). lra.
Qed.
Lemma from_precip_mono p q : p <= q -> from_precip p <= from_precip q.
Proof.
  intro L. pose proof (from_precip_nonneg q) as Q. unfold from_precip, minimum_precip in *. destruct (Rlt_dec p 5), (Rlt_dec q 5); try lra. assert (Rpower (p / (287 / 10)) (22 / 100) <= Rpower (q / (287 / 10)) (22 / 100)). { apply Rle_Rpower_l; [lra|]. split; lra. } lra.
Qed.
(** Never negative; each part nothing below its minimum (10 J/kg, 5 mm/h); no less for more of either. *)
Theorem C107_updraught c p : 0 <= updraught c p /\ (c < 10 -> p < 5 -> updraught c p = 0) /\ (10 <= c -> p < 5 -> updraught c p = sqrt (2 * c) / 4) /\
  (c < 10 -> 5 <= p -> updraught c p = 733 / 100 * Rpower (p / (287 / 10)) (22 / 100)) /\ (10 <= c -> 5 <= p -> updraught c p = sqrt (2 * c) / 4 + 733 / 100 * Rpower (p / (287 / 10)) (22 / 100)) /\
  (forall c' p', c <= c' -> p <= p' -> updraught c p <= updraught c' p').
Proof.
  split; [unfold updraught; pose proof (from_cape_nonneg c); pose proof (from_precip_nonneg p); lra|]. unfold updraught. split; [|split; [|split; [|split]]].
  1-4: intros A B; unfold from_cape, from_precip, minimum_cape, minimum_precip; destruct (Rlt_dec c 10), (Rlt_dec p 5); lra.
  intros c' p' A B. pose proof (from_cape_mono c c' A). pose proof (from_precip_mono p p' B). lra.
Qed.
(** Precipitation of 28.7 mm/h adds 7.33 m/s. *)
Theorem C107_reference c : c < 10 -> updraught c (287 / 10) = 733 / 100.
Proof. intro L. destruct (C107_updraught c (287 / 10)) as (_ & _ & _ & H & _). rewrite H by lra. replace (287 / 10 / (287 / 10)) with 1 by field. unfold Rpower. rewrite ln_1, Rmult_0_r, exp_0. ring. Qed.
(** Accepted exactly when the CAPE is instantaneous and at the start of the precipitation period of the same forecast. *)
Theorem C107_updraught_times tc tp cape precip : (exists out, updraught_field tc tp cape precip = Ok out) <-> st_bounds tc = None /\ st_frt tc = st_frt tp /\ exists e, st_bounds tp = Some (st_time tc, e).
Proof.
  unfold updraught_field, updraught_times. destruct (st_bounds tc) as [b|]; [split; [intros [out H]; discriminate|intros [H _]; discriminate]|]. destruct (Z.eqb_spec (st_frt tc) (st_frt tp)) as [E|N]; cbn [negb]; [|split; [intros [out H]; discriminate|intros (_ & H & _); contradiction]]. destruct (st_bounds tp) as [[lo hi]|]; cbn [fst].
  - destruct (Z.eqb_spec (st_time tc) lo) as [->|N]; split; try (intros [out H]; discriminate). + intros _. repeat split; [exact E|]. now exists hi. + intros _. eexists. reflexivity. + intros (_ & _ & e & [= X _]). congruence.
  - split; [intros [out H]; discriminate|]. intros (_ & _ & e & H). discriminate.
Qed.
Theorem C107_updraught_field tc tp cape precip out k c p : updraught_field tc tp cape precip = Ok out -> nth_error cape k = Some c -> nth_error precip k = Some p -> nth_error out k = Some (updraught c p).
Proof. unfold updraught_field. destruct (updraught_times tc tp); [|discriminate]. intros [= <-] Ec Ep. now rewrite nth_error_map, (combine_nth_error _ _ _ _ _ Ec Ep). Qed.

(** ** Ultraviolet index *)
(** Only fluxes that are numbers and not negative are accepted; each is scaled. *)
Theorem C107_uv name scale flux : (exists out, uv_index name scale flux = Ok out) <-> name = "surface_downwelling_ultraviolet_flux_in_air"%string /\ Forall (fun x => exists v, x = Some v /\ 0 <= v) flux.
Proof.
  unfold uv_index. destruct (String.eqb_spec name uv_name) as [E|N]; cbn [negb]; [|split; [intros [out H]; discriminate|intros [H _]; contradiction]]. destruct (existsb uv_bad flux) eqn:X.
  - split; [intros [out H]; discriminate|]. intros [_ F]. apply existsb_exists in X as (x & Ix & Bx). rewrite Forall_forall in F. destruct (F x Ix) as (v & -> & P). cbn in Bx. destruct (Rlt_dec v 0); [lra|discriminate].
  - split; [|intros _; eexists; reflexivity]. intros _. split; [exact E|]. apply Forall_forall. intros x Ix. destruct (uv_bad x) eqn:B; [exfalso; assert (existsb uv_bad flux = true) by (apply existsb_exists; now exists x); congruence|]. destruct x as [v|]; [|discriminate]. exists v. split; [reflexivity|]. cbn in B. destruct (Rlt_dec v 0); [discriminate|lra].
Qed.
Theorem C107_uv_value name scale flux out k v : uv_index name scale flux = Ok out -> nth_error flux k = Some (Some v) -> nth_error out k = Some (Some (v * scale)).
Proof. unfold uv_index. destruct (negb _); [discriminate|]. destruct (existsb _ _); [discriminate|]. intros [= <-] E. now rewrite nth_error_map, E. Qed.
(** The hypotheses met. *)
Definition a_gust : pcube := {| p_name := "percentile"; p_points := [5; 50]; p_fields := [[[7]]; [[10]]]; p_times := Some [3600%Z]; p_bounds := Some [(0%Z, 3600%Z)] |}.
Definition a_wind : pcube := {| p_name := "percentile"; p_points := [95]; p_fields := [[[12]]]; p_times := Some [1800%Z]; p_bounds := None |}.
Example C107_case : has a_gust 50 [[10]] /\ has a_wind 95 [[12]] /\ times_match a_gust a_wind = true /\ gust_diagnostic 50 95 a_gust a_wind = Ok [[Rmax 10 12]] /\
  updraught_times {| st_time := 0; st_bounds := None; st_frt := 0 |} {| st_time := 3600; st_bounds := Some (0, 3600)%Z; st_frt := 0 |} = true.
Proof.
  split; [exists 1%nat; repeat split; intros j Lj; destruct j; [cbn; intro H; injection H; lra|lia]|]. split; [exists 0%nat; repeat split; intros j Lj; lia|]. split; [reflexivity|]. split; [|reflexivity].
  unfold gust_diagnostic, a_gust, a_wind. cbn [p_points p_fields percentile_field p_name]. destruct (reqb_spec 5 50); [lra|]. destruct (reqb_spec 50 50) as [_|N]; [|now elim N]. destruct (reqb_spec 95 95) as [_|N]; [|now elim N]. reflexivity.
Qed.

Print Assumptions C107_times.
Print Assumptions C107_gust.
Print Assumptions C107_refused.
Print Assumptions C107_all_times_refuted.
Print Assumptions C107_updraught.
Print Assumptions C107_reference.
Print Assumptions C107_updraught_times.
Print Assumptions C107_updraught_field.
Print Assumptions C107_uv.
Print Assumptions C107_uv_value.
