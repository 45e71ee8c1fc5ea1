(** C56, C57: lapse rates and the adjustment of temperatures. *)
From Verif Require Import Base Model_Nbhood Model_Integration Spec_Integration Proofs_Integration Model_Lapse Spec_Lapse Proofs_Lapse.
Local Open Scope Q_scope.

(** C56: a configuration is accepted exactly when its limits are in order and radius and height difference are not negative. *)
Theorem C56_accepted p : lapse_init p = Ok p <-> min_lapse_rate p <= max_lapse_rate p /\ (0 <= nbhood_radius p)%Z /\ 0 <= max_height_diff p.
Proof.
  unfold lapse_init. destruct (Qltb_spec (max_lapse_rate p) (min_lapse_rate p)) as [A|A]; [split; [discriminate|intros [B _]; lra]|].
  destruct (Z.ltb_spec (nbhood_radius p) 0) as [B|B]; [split; [discriminate|intros (_ & C & _); lia]|].
  destruct (Qltb_spec (max_height_diff p) 0) as [C|C]; [split; [discriminate|intros (_ & _ & D); lra]|]. split; [intros _; repeat split; lia || lra|reflexivity].
Qed.
Theorem C56_refused p : lapse_init p = Ok p \/ lapse_init p = Err ValueError.
Proof. unfold lapse_init. destruct (_ <? _); [auto|]. destruct (_ <? _)%Z; [auto|]. destruct (_ <? _); auto. Qed.
(** C56: every lapse rate is within the limits. *)
Theorem C56_range p h w temp orog land y x : lapse_init p = Ok p -> min_lapse_rate p <= lapse_rate_at p h w temp orog land y x <= max_lapse_rate p.
Proof.
  intro A. apply C56_accepted in A. destruct A as [A _]. unfold lapse_rate_at. set (g := if land y x then _ else _). split; [apply Q.min_glb; [apply Q.le_max_r|exact A]|apply Q.le_min_r].
Qed.
(** C56: at sea, and where the heights or the temperatures that take part do not vary, it is the dry adiabatic lapse rate (limited). *)
Theorem C56_default p h w temp orog land y x : lapse_init p = Ok p ->
  (land y x = false \/ exists qs, all_that (takes_part (max_height_diff p) (nbhood_radius p) h w orog land y x) qs /\
     (negligible (spread (map (fun q => orog (fst q) (snd q)) qs)) \/ negligible (spread (map (fun q => temp (fst q) (snd q)) qs)))) ->
  limited (min_lapse_rate p) (max_lapse_rate p) (- (98 # 10000)) (lapse_rate_at p h w temp orog land y x).
Proof.
  intros A H. apply C56_accepted in A. destruct A as [A _]. unfold lapse_rate_at. destruct (land y x) eqn:L; [|apply limited_spec; [exact A|reflexivity]].
  destruct H as [H|(qs & Q0 & H)]; [discriminate|]. apply limited_spec; [exact A|].
  assert (P : Permutation qs (fit_positions p h w orog land y x)) by (eapply all_that_perm; [exact Q0|apply fit_positions_spec]).
  assert (AV : forall l l' : list Q, Permutation l l' -> average l == average l').
  { intros l l' X. unfold average. rewrite (qsum_perm _ _ X). unfold Qlen. rewrite (Permutation_length X). reflexivity. }
  assert (SP : forall l l' : list Q, Permutation l l' -> spread l == spread l').
  { intros l l' X. unfold spread. rewrite (AV _ _ (Permutation_map (fun v => (v - average l) * (v - average l)) X)). unfold average at 1 4. rewrite !Qlen_map.
    apply Qmult_comp; [|reflexivity]. pose proof (AV _ _ X) as E. revert E. generalize (average l) (average l'). clear. intros a b E. induction l' as [|v l' IH]; [reflexivity|]. cbn [map qsum]. rewrite E, IH. reflexivity. }
  rewrite gradient_degenerate; [reflexivity|]. unfold fit_points. rewrite !map_map. fold (fit_positions p h w orog land y x). cbn [fst snd]. unfold negligible in *.
  destruct H as [H|H]; [left; rewrite <- (SP _ _ (Permutation_map (fun q => orog (fst q) (snd q)) P))|right; rewrite <- (SP _ _ (Permutation_map (fun q => temp (fst q) (snd q)) P))]; exact H.
Qed.
(** C56: elsewhere it is the (limited) slope of the line of least squares through height and temperature of the points that take part. *)
Theorem C56_least_squares p h w temp orog land y x : lapse_init p = Ok p -> land y x = true -> exists qs, all_that (takes_part (max_height_diff p) (nbhood_radius p) h w orog land y x) qs /\
  let pts := map (fun q => (orog (fst q) (snd q), temp (fst q) (snd q))) qs in
  (~ negligible (spread (map fst pts)) -> ~ negligible (spread (map snd pts)) -> exists g c,
     (forall a b, misfit g c pts <= misfit a b pts /\ (misfit a b pts <= misfit g c pts -> a == g /\ b == c)) /\
     limited (min_lapse_rate p) (max_lapse_rate p) g (lapse_rate_at p h w temp orog land y x)).
Proof.
  intros A L. apply C56_accepted in A. destruct A as [A _]. exists (fit_positions p h w orog land y x). split; [apply fit_positions_spec|]. intros pts H1 H2.
  destruct (gradient_fit pts H1 H2) as (c & F). exists (gradient pts), c. split.
  - intros a b. pose proof (fit_nonempty _ _ _ F) as N. destruct (fit_gap _ _ _ a b F) as (v & Hv & E & Ec). pose proof (Qlen_pos _ N) as P. change (misfit (gradient pts) c pts) with (squares (gradient pts) c pts). change (misfit a b pts) with (squares a b pts).
    set (d := mean (map snd pts) - a * mean (map fst pts) - b) in *. pose proof (sq_nonneg (a - gradient pts)) as S1. pose proof (sq_nonneg d) as S2.
    assert (T1 : 0 <= v * ((a - gradient pts) * (a - gradient pts))) by (apply Qmult_le_0_compat; lra). assert (T2 : 0 <= Qlen pts * (d * d)) by (apply Qmult_le_0_compat; lra).
    split; [lra|]. intro Le. assert (Z1 : v * ((a - gradient pts) * (a - gradient pts)) == 0) by lra. assert (Z2 : Qlen pts * (d * d) == 0) by lra.
    apply Qmult_integral in Z1, Z2. destruct Z1 as [Z1|Z1]; [lra|]. destruct Z2 as [Z2|Z2]; [lra|]. apply sq_zero in Z1, Z2. assert (G : a == gradient pts) by lra. split; [exact G|]. rewrite Ec. unfold d in Z2. rewrite G in Z2. lra.
  - unfold lapse_rate_at. rewrite L. apply limited_spec; [exact A|]. reflexivity.
Qed.
(** C56: a temperature that is a linear function of height gives back its slope. *)
Theorem C56_linear_profile p h w temp orog land y x a b : lapse_init p = Ok p -> land y x = true ->
  (forall i j, takes_part (max_height_diff p) (nbhood_radius p) h w orog land y x i j -> temp i j == a * orog i j + b) ->
  exists qs, all_that (takes_part (max_height_diff p) (nbhood_radius p) h w orog land y x) qs /\
    (~ negligible (spread (map (fun q => orog (fst q) (snd q)) qs)) -> ~ negligible (spread (map (fun q => temp (fst q) (snd q)) qs)) ->
     limited (min_lapse_rate p) (max_lapse_rate p) a (lapse_rate_at p h w temp orog land y x)).
Proof.
  intros A L H. destruct (C56_least_squares p h w temp orog land y x A L) as (qs & Q0 & K). exists qs. split; [exact Q0|]. intros H1 H2. cbv zeta in K. rewrite !map_map in K. cbn [fst snd] in K. specialize (K H1 H2).
  destruct K as (g & c & M & LIM). set (pts := map (fun q => (orog (fst q) (snd q), temp (fst q) (snd q))) qs) in *.
  assert (Z : misfit a b pts == 0).
  { unfold misfit, pts. rewrite map_map. cbn [fst snd]. destruct Q0 as [_ Q0]. assert (G : forall q, In q qs -> temp (fst q) (snd q) == a * orog (fst q) (snd q) + b) by (intros [i j] J; apply H; apply Q0; exact J).
    clear - G. induction qs as [|q qs IH]; [reflexivity|]. cbn [map qsum]. rewrite IH by (intros; apply G; right; assumption). rewrite (G q) by (left; reflexivity). ring. }
  assert (N : 0 <= misfit g c pts) by (unfold misfit; apply qsum_nonneg, Forall_map, Forall_forall; intros; apply sq_nonneg).
  destruct (M a b) as [M1 M2]. destruct M2 as [E _]; [lra|]. unfold limited in *. destruct LIM as [[X Y]|[[X Y]|[X Y]]]; [left|right; left|right; right]; (split; [lra|]); rewrite Y; try reflexivity. symmetry. exact E.
Qed.
(** C56: it depends only on the points that take part, and not on a common shift of the heights or of the temperatures. *)
Theorem C56_local p h w temp temp' orog orog' land land' y x ct cz : lapse_init p = Ok p -> land' y x = land y x -> (0 <= y < h)%Z -> (0 <= x < w)%Z ->
  (forall i j, (Z.abs (i - y) <= nbhood_radius p)%Z -> (Z.abs (j - x) <= nbhood_radius p)%Z -> (0 <= i < h)%Z -> (0 <= j < w)%Z -> land' i j = land i j /\ (land i j = true -> orog' i j == orog i j + cz)) ->
  (forall i j, takes_part (max_height_diff p) (nbhood_radius p) h w orog land y x i j -> temp' i j == temp i j + ct) ->
  lapse_rate_at p h w temp' orog' land' y x == lapse_rate_at p h w temp orog land y x.
Proof.
  intros A L Hy Hx HO HT. apply C56_accepted in A. destruct A as (_ & R & _). unfold lapse_rate_at. rewrite L. destruct (land y x) eqn:LC; [|reflexivity].
  assert (OC : orog' y x == orog y x + cz) by (apply (HO y x); [lia..|exact LC]).
  assert (E : fit_positions p h w orog' land' y x = fit_positions p h w orog land y x).
  { unfold fit_positions. apply filter_ext_in. intros [i j] J. apply window_in in J. cbn [fst snd]. unfold on_land, inside. cbn [fst snd].
    destruct (Z.leb_spec 0 i) as [I1|I1]; [|reflexivity]. destruct (Z.ltb_spec i h) as [I2|I2]; [|reflexivity]. destruct (Z.leb_spec 0 j) as [J1|J1]; [|reflexivity]. destruct (Z.ltb_spec j w) as [J2|J2]; [|reflexivity]. cbn [andb].
    destruct (HO i j) as [EL EO]; [lia..|]. rewrite EL. destruct (land i j) eqn:LL; [|reflexivity]. cbn [andb]. specialize (EO eq_refl). f_equal.
    assert (D : Qabs (orog' i j - orog' y x) == Qabs (orog i j - orog y x)) by (apply Qabs_wd; rewrite EO, OC; ring).
    destruct (Qltb_spec (max_height_diff p) (Qabs (orog' i j - orog' y x))) as [X|X]; destruct (Qltb_spec (max_height_diff p) (Qabs (orog i j - orog y x))) as [Y|Y]; try reflexivity; lra. }
  assert (G : gradient (fit_points p h w temp' orog' land' y x) == gradient (fit_points p h w temp orog land y x)).
  { apply (gradient_shift cz ct). unfold fit_points. fold (fit_positions p h w orog' land' y x). fold (fit_positions p h w orog land y x). rewrite E.
    pose proof (fit_positions_spec p h w orog land y x) as [_ FP]. assert (G : forall q, In q (fit_positions p h w orog land y x) -> takes_part (max_height_diff p) (nbhood_radius p) h w orog land y x (fst q) (snd q)) by (intros [i j] J; apply FP; exact J).
    revert G. generalize (fit_positions p h w orog land y x). induction l as [|q l IH]; intro G; constructor; [|apply IH; intros; apply G; right; assumption].
    pose proof (G q (or_introl eq_refl)) as T. split; cbn [fst snd]; [|apply HT; exact T]. destruct T as (T1 & T2 & T3 & T4 & T5 & _). apply (HO (fst q) (snd q)); assumption. }
  rewrite G. reflexivity.
Qed.
(** A 3 by 3 valley with a sea point: temperatures falling by 0.01 K per metre. *)
Definition slope_orog : grid Q := fun i j => inject_Z (10 * i + 5 * j).
Definition slope_temp : grid Q := fun i j => 280 - (1 # 100) * inject_Z (10 * i + 5 * j).
Definition slope_land : grid bool := fun i j => negb ((i =? 2)%Z && (j =? 2)%Z).
Definition slope_params : lapse_params := {| max_height_diff := 12; nbhood_radius := 1%Z; max_lapse_rate := 294 # 10000; min_lapse_rate := - (98 # 10000) |}.
Example C56_case : lapse_init slope_params = Ok slope_params /\ slope_land 1%Z 1%Z = true /\ fit_positions slope_params 3%Z 3%Z slope_orog slope_land 1%Z 1%Z = [(0, 1); (0, 2); (1, 0); (1, 1); (1, 2); (2, 0); (2, 1)]%Z /\
  ~ negligible (spread (map (fun q => slope_orog (fst q) (snd q)) (fit_positions slope_params 3%Z 3%Z slope_orog slope_land 1%Z 1%Z))) /\
  ~ negligible (spread (map (fun q => slope_temp (fst q) (snd q)) (fit_positions slope_params 3%Z 3%Z slope_orog slope_land 1%Z 1%Z))) /\
  lapse_rate_at slope_params 3%Z 3%Z slope_temp slope_orog slope_land 1%Z 1%Z == - (98 # 10000) /\
  lapse_rate_at {| max_height_diff := 12; nbhood_radius := 1%Z; max_lapse_rate := 1; min_lapse_rate := -1 |} 3%Z 3%Z slope_temp slope_orog slope_land 1%Z 1%Z == - (1 # 100).
Proof.
  split; [reflexivity|]. split; [reflexivity|]. split; [vm_compute; reflexivity|]. split; [|split; [|split]].
  - intro H. apply Qle_bool_iff in H. vm_compute in H. discriminate.
  - intro H. apply Qle_bool_iff in H. vm_compute in H. discriminate.
  - vm_compute. reflexivity.
  - vm_compute. reflexivity.
Qed.

(** C57: within the limit the adjustment is the lapse rate times the height difference; what exceeds the limit is adjusted with the environmental lapse rate. *)
Theorem C57_adjustment lr d limit : 0 <= limit -> exists within, limited (- limit) limit d within /\ lapse_rate_adjustment lr d limit == lr * within + - (65 # 10000) * (d - within).
Proof. intro L. exists (Qmin (Qmax d (- limit)) limit). split; [apply limited_spec; [lra|reflexivity]|]. apply adjustment_formula. exact L. Qed.
(** C57: no difference, no adjustment; opposite differences, opposite adjustments; it changes by no more than the larger lapse rate for each metre (in particular there is no jump at the limit). *)
Theorem C57_zero lr limit : 0 <= limit -> lapse_rate_adjustment lr 0 limit == 0.
Proof. intro L. rewrite adjustment_formula by exact L. rewrite Q.max_l by lra. rewrite Q.min_l by lra. ring. Qed.
Theorem C57_odd lr d limit : 0 <= limit -> lapse_rate_adjustment lr (- d) limit == - lapse_rate_adjustment lr d limit.
Proof.
  intro L. rewrite !adjustment_formula by exact L. assert (E : Qmin (Qmax (- d) (- limit)) limit == - Qmin (Qmax d (- limit)) limit) by (qmm; lra). rewrite E. ring.
Qed.
Theorem C57_no_jump lr d d' limit : 0 <= limit -> Qabs (lapse_rate_adjustment lr d limit - lapse_rate_adjustment lr d' limit) <= Qmax (Qabs lr) (65 # 10000) * Qabs (d - d').
Proof.
  intro L. rewrite !adjustment_formula by exact L. set (k := Qmin (Qmax d (- limit)) limit). set (k' := Qmin (Qmax d' (- limit)) limit). set (M := Qmax (Qabs lr) (65 # 10000)).
  assert (M1 : Qabs lr <= M) by apply Q.le_max_l. assert (M2 : (65 # 10000) <= M) by apply Q.le_max_r.
  assert (E : lr * k + ELR * (d - k) - (lr * k' + ELR * (d' - k')) == lr * (k - k') + ELR * ((d - d') - (k - k'))) by ring. rewrite E.
  assert (S' : (0 <= k - k' <= d - d') \/ (d - d' <= k - k' <= 0)). { unfold k, k'. destruct (Qlt_le_dec d d'); [right|left]; qmm; lra. }
  eapply Qle_trans; [apply Qabs_triangle|]. rewrite !Qabs_Qmult. assert (AE : Qabs ELR == 65 # 10000) by reflexivity. rewrite AE.
  destruct S' as [[A B]|[A B]].
  - rewrite (Qabs_pos (k - k')) by exact A. rewrite (Qabs_pos (d - d' - (k - k'))) by lra. rewrite (Qabs_pos (d - d')) by lra. assert (Qabs lr * (k - k') <= M * (k - k')) by (apply Qmult_le_compat_r; assumption).
    assert ((65 # 10000) * (d - d' - (k - k')) <= M * (d - d' - (k - k'))) by (apply Qmult_le_compat_r; lra). lra.
  - rewrite (Qabs_neg (k - k')) by exact B. rewrite (Qabs_neg (d - d' - (k - k'))) by lra. rewrite (Qabs_neg (d - d')) by lra. assert (Qabs lr * - (k - k') <= M * - (k - k')) by (apply Qmult_le_compat_r; lra).
    assert ((65 # 10000) * - (d - d' - (k - k')) <= M * - (d - d' - (k - k'))) by (apply Qmult_le_compat_r; lra). lra.
Qed.

(** C57: gridded: where both cubes have the same dimensions in the same order, every temperature is adjusted with the lapse rate at the same place. *)
Lemma indices_in dims : forall idx, In idx (indices dims) <-> Forall2 (fun i c => (i < length (snd c))%nat) idx dims.
Proof.
  induction dims as [|c dims IH]; intro idx; cbn [indices].
  - split; [intros [<-|[]]; constructor|intro H; inversion H; left; reflexivity].
  - rewrite in_flat_map. split.
    + intros (i & Hi & H). apply in_map_iff in H. destruct H as (r & <- & H). apply in_seq in Hi. constructor; [lia|]. apply IH. exact H.
    + intro H. inversion H as [|i ? r ? Hi HR]; subst. exists i. split; [apply in_seq; lia|]. apply in_map. apply IH. exact HR.
Qed.
Lemma indices_same a b : Forall2 (fun c c' : coord => fst c = fst c' /\ Forall2 Qeq (snd c) (snd c')) a b -> indices a = indices b.
Proof. induction 1 as [|c c' a b [_ E] H IH]; [reflexivity|]. cbn [indices]. rewrite IH. replace (length (snd c)) with (length (snd c')); [reflexivity|]. clear - E. induction E; cbn; congruence. Qed.
Lemma points_eqb_spec a : forall b, points_eqb a b = true <-> Forall2 Qeq a b.
Proof.
  unfold points_eqb. induction a as [|x a IH]; intros [|y b]; cbn.
  - split; [constructor|reflexivity].
  - split; [discriminate|intro H; inversion H].
  - split; [discriminate|intro H; inversion H].
  - specialize (IH b). rewrite !Bool.andb_true_iff in *. rewrite Qeq_bool_iff. split.
    + intros [A [B C]]. constructor; [exact B|]. apply IH. auto.
    + intro H. inversion H; subst. tauto.
Qed.
Theorem C57_gridded_same_order t lr sg dg source dest out : apply_gridded t lr sg dg source dest = Ok out ->
  Forall2 (fun c c' : coord => fst c = fst c' /\ Forall2 Qeq (snd c) (snd c')) (k_dims t) (k_dims lr) ->
  map fst out = map (labels_of (k_dims t)) (indices (k_dims t)) /\
  forall idx, Forall2 (fun i c => (i < length (snd c))%nat) idx (k_dims t) -> exists vals, In (labels_of (k_dims t) idx, vals) out /\ length vals = length (k_fields t idx) /\
    forall i, (i < length vals)%nat -> nth i vals 0 = nth i (k_fields t idx) 0 + lapse_rate_adjustment (nth i (k_fields lr idx) 0) (nth i dest 0 - nth i source 0) 50.
Proof.
  unfold apply_gridded. destruct (_ && _)%bool; cbn [negb]; [|discriminate]. destruct (_ =? _)%Z; cbn [negb]; [|discriminate]. destruct (_ =? _)%Z; cbn [negb]; [|discriminate].
  intros H D. rewrite <- (indices_same _ _ D) in H. assert (E : forall l : list (list nat), combine l l = map (fun x => (x, x)) l) by (induction l; cbn; congruence). rewrite E, map_map in H. cbn [fst snd] in H.
  match type of H with Ok ?X = Ok _ => assert (HE : out = X) by congruence end. clear H. subst out. split; [rewrite map_map; reflexivity|]. intros idx J. apply indices_in in J.
  eexists. split; [apply in_map_iff; exists idx; split; [reflexivity|exact J]|]. split; [rewrite map_length, seq_length; reflexivity|]. intros i Hi. rewrite map_length, seq_length in Hi.
  rewrite nth_map_lt with (d := 0%nat) by (rewrite seq_length; exact Hi). rewrite seq_nth by exact Hi. reflexivity.
Qed.
(** C57: a grid that differs, or a temperature dimension that the lapse rates lack or have with other points, is refused. *)
Theorem C57_gridded_refused t lr sg dg source dest : k_grid t <> k_grid lr \/ sg <> k_grid t \/ dg <> k_grid t \/
  (exists k p, In (k, p) (k_dims t) /\ match find_coord k (k_dims lr) with None => True | Some p' => ~ Forall2 Qeq p p' end) -> apply_gridded t lr sg dg source dest = Err ValueError.
Proof.
  intro H. unfold apply_gridded. destruct ((k_grid t =? k_grid lr)%Z && dims_match t lr)%bool eqn:M; cbn [negb]; [|reflexivity]. apply Bool.andb_true_iff in M. destruct M as [M1 M2]. apply Z.eqb_eq in M1.
  destruct (Z.eqb_spec sg (k_grid t)) as [S'|S']; cbn [negb]; [|reflexivity]. destruct (Z.eqb_spec dg (k_grid t)) as [D|D]; cbn [negb]; [|reflexivity]. exfalso.
  destruct H as [H|[H|[H|(k & p & J & H)]]]; try contradiction. unfold dims_match in M2. rewrite forallb_forall in M2. specialize (M2 _ J). cbn [fst snd] in M2. destruct (find_coord k (k_dims lr)) as [p'|]; [|discriminate].
  apply H. apply points_eqb_spec. exact M2.
Qed.
(** C57, refuted: with the same dimensions in another order, temperatures are adjusted with lapse rates of another place; with a further dimension, only its first lapse rates are used. *)
Definition two_by_two (first second : string) (f : Q -> Q -> Q) : lrcube := {| k_dims := [(first, [0; 1]); (second, [0; 1])]; k_grid := 1%Z; k_fields := fun idx => [f (Qn (nth 0 idx 0%nat)) (Qn (nth 1 idx 0%nat))] |}.
Theorem C57_gridded_order_refuted : exists t lr out, apply_gridded t lr 1%Z 1%Z [0] [10] = Ok out /\
  In ([("time"%string, 0); ("realization"%string, 1)], [280 + lapse_rate_adjustment (1 # 100) 10 50]) out /\
  (** the lapse rate of realization 1 at time 0 *) k_dims lr = [("realization"%string, [0; 1]); ("time"%string, [0; 1])] /\ k_fields lr [1%nat; 0%nat] = [2 # 100].
Proof.
  exists (two_by_two "time" "realization" (fun _ _ => 280)), (two_by_two "realization" "time" (fun r t => if Qeq_bool r 1 then (if Qeq_bool t 0 then 2 # 100 else 1) else 1 # 100)). eexists. split; [reflexivity|].
  split; [right; left; reflexivity|]. split; reflexivity.
Qed.
Theorem C57_gridded_extra_refuted : exists t lr out, apply_gridded t lr 1%Z 1%Z [0] [10] = Ok out /\ k_dims t = [] /\ k_dims lr = [("realization"%string, [0; 1])] /\ out = [([], [280 + lapse_rate_adjustment (1 # 100) 10 50])] /\ k_fields lr [1%nat] = [2 # 100].
Proof.
  exists {| k_dims := []; k_grid := 1%Z; k_fields := fun _ => [280] |}, {| k_dims := [("realization"%string, [0; 1])]; k_grid := 1%Z; k_fields := fun idx => [if (nth 0 idx 0%nat =? 0)%nat then 1 # 100 else 2 # 100] |}.
  eexists. repeat split; reflexivity.
Qed.
Example C57_case : exists out, apply_gridded (two_by_two "time" "realization" (fun _ _ => 280)) (two_by_two "time" "realization" (fun t r => t * (1 # 100) + r)) 1%Z 1%Z [0] [70] = Ok out /\
  In ([("time"%string, 1); ("realization"%string, 0)], [280 + lapse_rate_adjustment (1 * (1 # 100) + 0) 70 50]) out /\ lapse_rate_adjustment (1 * (1 # 100) + 0) 70 50 == 37 # 100.
Proof. eexists. split; [reflexivity|]. split; [right; right; left; reflexivity|reflexivity]. Qed.

Print Assumptions C56_accepted.
Print Assumptions C56_refused.
Print Assumptions C56_range.
Print Assumptions C56_default.
Print Assumptions C56_least_squares.
Print Assumptions C56_linear_profile.
Print Assumptions C56_local.
Print Assumptions C57_adjustment.
Print Assumptions C57_zero.
Print Assumptions C57_odd.
Print Assumptions C57_no_jump.
Print Assumptions C57_gridded_same_order.
Print Assumptions C57_gridded_refused.
Print Assumptions C57_gridded_order_refuted.
Print Assumptions C57_gridded_extra_refuted.
