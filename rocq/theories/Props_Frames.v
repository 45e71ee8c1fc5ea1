(** C101: calibration from tables. Specification in Spec_Frames.v, lemmas in Proofs_Frames.v and Proofs_FramesCube.v. *)
From Verif Require Import Base Model_Frames Spec_Frames Proofs_Frames Proofs_FramesCube Proofs_FramesStatic.
From Verif Require Model_Percentiles Props_Rainforests.
Local Open Scope Q_scope.

(** ** Training dates *)
(** They are the [n] times before the cycle that have the hour of the time forecast. *)
Theorem C101_dates cycle period n : StronglySorted Z.lt (training_dates cycle period n) /\ length (training_dates cycle period n) = n /\
  forall t, In t (training_dates cycle period n) <-> (cycle - Z.of_nat n * 86400 <= t < cycle /\ (t - (cycle + period)) mod 86400 = 0)%Z.
Proof.
  unfold training_dates. change day with 86400%Z. set (b := (cycle + period - 86400 - 86400 * (period / 86400))%Z). split; [|split].
  - assert (So : forall m a, StronglySorted Z.lt (map (fun k => (b - 86400 * (Z.of_nat n - 1 - Z.of_nat k))%Z) (seq a m))); [|apply So]. induction m as [|m IH]; intro a; cbn [seq map]; constructor; [apply IH|]. apply Forall_map, Forall_forall. intros k K. apply in_seq in K. lia.
  - now rewrite map_length, seq_length.
  - intro t. pose proof (Z.div_mod period 86400 ltac:(lia)) as E. pose proof (Z.mod_pos_bound period 86400 ltac:(lia)) as B. rewrite in_map_iff. split.
    + intros (k & <- & K). apply in_seq in K. split; [unfold b; nia|]. replace (b - 86400 * (Z.of_nat n - 1 - Z.of_nat k) - (cycle + period))%Z with ((- (1 + period / 86400 + Z.of_nat n - 1 - Z.of_nat k)) * 86400)%Z by (unfold b; ring). apply Z.mod_mul. lia.
    + intros ((L & U) & D). apply Z.mod_divide in D; [|lia]. destruct D as (q & D). exists (Z.to_nat (Z.of_nat n + q + period / 86400))%nat. assert (R : (0 <= Z.of_nat n + q + period / 86400 < Z.of_nat n)%Z) by nia. split; [unfold b; lia|]. apply in_seq. lia.
Qed.
(** Not, as documented, at least a day before the cycle. *)
Theorem C101_dates_refuted : exists cycle period t, (0 <= period)%Z /\ In t (training_dates cycle period 3) /\ (cycle - 86400 < t)%Z.
Proof. exists 0%Z, 108000%Z, (-64800)%Z. split; [lia|]. split; [cbn; auto|lia]. Qed.

(** ** The rows used *)
Lemma Ok_inj {A} (x y : A) : Ok x = Ok y -> x = y.
Proof. congruence. Qed.
Lemma chosen_used rp experiment period percentiles fs f : chosen rp experiment period percentiles fs = Ok f -> f = map fr_row (filter (used experiment period percentiles) fs).
Proof.
  unfold chosen. set (l1 := match experiment with Some e => _ | None => fs end). set (l2 := filter _ l1). destruct (1 <? _)%nat; [discriminate|]. intro H.
  assert (E2 : l2 = filter (fun r => match experiment with Some e => String.eqb (fr_experiment r) e | None => true end && (fr_period r =? period)%Z) fs).
  { unfold l2, l1. destruct experiment; [apply filter_filter|]. reflexivity. }
  assert (E : forall l3, match percentiles, rp with [], _ => Ok (map fr_row l2) | _, Percentiles => Ok (filter (fun r => existsb (Model_Percentiles.isclose (r_rep r)) percentiles) (map fr_row l2)) | _, Realizations => Err KeyError end = Ok l3 -> l3 = map fr_row (filter (used experiment period percentiles) fs)).
  { intros l3 H3. unfold used. destruct percentiles as [|p ps].
    - injection H3 as <-. rewrite E2. f_equal. apply filter_cong. intros r _. now rewrite andb_true_r.
    - destruct rp; [|discriminate]. injection H3 as <-. rewrite filter_map, E2, filter_filter. reflexivity. }
  destruct (match percentiles, rp with [], _ => Ok (map fr_row l2) | _, Percentiles => Ok (filter (fun r => existsb (Model_Percentiles.isclose (r_rep r)) percentiles) (map fr_row l2)) | _, Realizations => Err KeyError end) as [l3|] eqn:C; cbn [bind] in H; [|discriminate]. destruct (match rp with Percentiles => quantile_check l3 | Realizations => Ok tt end); cbn [bind] in H; [|discriminate]. injection H as <-. now apply E.
Qed.
Lemma existsb_filter {A} (f h : A -> bool) l : existsb f (filter h l) = existsb (fun x => h x && f x) l.
Proof. induction l as [|a l IH]; cbn; [reflexivity|]. destruct (h a); cbn; now rewrite IH. Qed.
Lemma existsb_map {A B} (f : B -> bool) (h : A -> B) l : existsb f (map h l) = existsb (fun x => f (h x)) l.
Proof. induction l as [|a l IH]; cbn; [reflexivity|]. now rewrite IH. Qed.
Lemma existsb_ext {A} (f h : A -> bool) l : (forall x, f x = h x) -> existsb f l = existsb h l.
Proof. intro E. induction l as [|a l IH]; cbn; [reflexivity|]. now rewrite E, IH. Qed.
Section link.
Variables (experiment : option string) (period : Z) (percentiles : list Q) (fs : list forecast_row) (ts : list truth_row).
Let f := map fr_row (filter (used experiment period percentiles) fs).
Let t := map of_truth ts.
Lemma both_shared s : both f t s = shared experiment period percentiles fs ts s.
Proof. unfold both, shared, has_site, f, t. rewrite !existsb_map, existsb_filter. reflexivity. Qed.
Lemma paired_at d : paired experiment period percentiles fs ts d = forecast_at f t d && truth_at f t d.
Proof.
  unfold paired, forecast_at, truth_at. f_equal.
  - unfold f at 2. rewrite existsb_map, existsb_filter. apply existsb_ext. intro r. rewrite both_shared. destruct (used _ _ _ r); reflexivity.
  - unfold t at 2. rewrite existsb_map. apply existsb_ext. intro r. rewrite both_shared. reflexivity.
Qed.
Lemma last_forecast s d p : match find (at_key s d p) (rev f) with Some r => r_value r | None => None end = forecast_for experiment period percentiles fs s d p.
Proof.
  unfold forecast_for, f. rewrite <- map_rev, <- filter_rev', find_map, find_filter. change (fun x => used experiment period percentiles x && at_key s d p (fr_row x)) with (fun r => used experiment period percentiles r && (String.eqb s (r_wmo (fr_row r)) && (d =? r_time (fr_row r))%Z && Qeq_bool p (r_rep (fr_row r)))). destruct (find _ (rev fs)); reflexivity.
Qed.
Lemma last_truth s d : match find (at_key s d 0) (rev t) with Some r => r_value r | None => None end = truth_for ts s d.
Proof.
  unfold truth_for, t. rewrite <- map_rev, find_map. assert (E : forall l, find (fun x => at_key s d 0 (of_truth x)) l = find (fun r => String.eqb s (tr_wmo r) && (d =? tr_time r)%Z) l). { induction l as [|a l IH]; [reflexivity|]. cbn [find]. unfold at_key at 1. cbn [of_truth r_wmo r_time r_rep]. rewrite Qeqb_refl, andb_true_r, IH. reflexivity. }
  rewrite E. destruct (find _ (rev ts)); reflexivity.
Qed.
End link.
Lemma fill_core l l' : fill_missing l = Ok l' -> map core l' = map core (completed l).
Proof. unfold fill_missing. destruct (repeated l); [discriminate|]. intro H. injection H as <-. now rewrite core_backward, core_forward. Qed.
Lemma fill_diag g l l' : Forall (fun r => diag r = Some g) l -> fill_missing l = Ok l' -> Forall (fun r => diag r = Some g) l'.
Proof. unfold fill_missing. destruct (repeated l); [discriminate|]. intros D H. injection H as <-. destruct l as [|r l]; [constructor|]. apply filled_diag; [exact D|discriminate]. Qed.
Lemma zip_map {A B C} (k : A -> B) (h : A -> C) l : map (fun x => (k x, h x)) l = combine (map k l) (map h l).
Proof. induction l; cbn; [reflexivity|]. now rewrite IHl. Qed.
Definition labels (rp : representation) (reps : list Q) : list Q := match rp with Realizations => reps | Percentiles => map (fun k => inject_Z (Z.of_nat k)) (seq 0 (length reps)) end.
Lemma rebadged_numbers points l : Model_Percentiles.rebadge_as_realizations points false None = Ok l -> l = map Z.of_nat (seq 0 (length points)).
Proof. unfold Model_Percentiles.rebadge_as_realizations. destruct (Model_Percentiles.diffs _); [discriminate|]. destruct (negb _); [discriminate|]. rewrite map_length, seq_length, Nat.eqb_refl. intro H. now injection H as <-. Qed.
(** Whatever the tables, if cubes are made of them the two are about the same sites in the same order and the same dates, and each value is the one in the last row about it. *)
Theorem C101_values g rp cycle period n percentiles experiment fs ts fc tc : about fs ts g -> to_cubes rp cycle period n percentiles experiment fs ts = Ok (Some fc, tc) ->
  let sites := map fst (c_sites fc) in
  let dates := filter (paired experiment period percentiles fs ts) (training_dates cycle period n) in
  ordered_names sites /\ (forall s, In s sites <-> kept experiment period percentiles fs ts s) /\
  exists c reps bounds, tc = Some c /\ c_sites c = c_sites fc /\ qssorted reps /\ (forall p, represented experiment period percentiles fs ts p <-> exists q, In q reps /\ q == p) /\
    c_fields fc = map (fun d => (d, bounds d, combine (labels rp reps) (map (fun p => map (fun s => forecast_for experiment period percentiles fs s d p) sites) reps))) dates /\
    c_fields c = map (fun d => (d, bounds d, [(0, map (fun s => truth_for ts s d) sites)])) dates.
Proof.
  intros [Af At] Hc. unfold to_cubes in Hc. cbv zeta in Hc. destruct (prepare rp experiment period percentiles fs ts) as [[H M]|] eqn:P; cbn [bind fst snd] in Hc; [|discriminate].
  unfold prepare in P. destruct (chosen rp experiment period percentiles fs) as [f|] eqn:Ch; cbn [bind] in P; [|discriminate]. apply chosen_used in Ch.
  set (t := map of_truth ts) in P. set (m := matched (drop_duplicates f) (drop_duplicates t)) in P. destruct (fill_missing (fst m)) as [F1|] eqn:Fi; cbn [bind] in P; [|discriminate]. destruct (fill_missing (snd m)) as [T1|] eqn:Ti; cbn [bind] in P; [|discriminate].
  apply Ok_inj in P. apply pair_equal_spec in P as [<- <-].
  assert (Df : Forall (fun r => diag r = Some g) f). { rewrite Ch. apply Forall_map. rewrite Forall_forall in *. intros r I'. apply filter_In in I' as [I' _]. exact (Af r I'). }
  assert (Dt : Forall (fun r => diag r = Some g) t). { unfold t. apply Forall_map. exact At. }
  pose proof (forecast_diag g f t Df Dt) as D3f. pose proof (truth_diag g f t Df Dt) as D3t. fold m in D3f, D3t.
  set (G := consistent F1) in *. assert (Cg : map core G = map core (completed (fst m))) by (unfold G; rewrite core_consistent; now apply fill_core).
  assert (Dg : Forall (fun r => diag r = Some g) G) by (apply consistent_diag; exact (fill_diag g _ _ D3f Fi)).
  pose proof (fill_core _ _ Ti) as Ct. pose proof (fill_diag g _ _ D3t Ti) as Dt1.
  assert (Z3 : Forall (fun r => r_rep r = 0) (snd m)). { apply Forall_forall. intros r I'. unfold m in I'. rewrite (matched_truths g f t Df Dt) in I'. apply filter_In in I' as [I' _]. apply dropped_in in I'. unfold t in I'. apply in_map_iff in I' as (x & <- & _). reflexivity. }
  set (F := fst m) in *. set (H := isort row_leb G) in *. set (M := merge_right (isort row_leb T1) H) in *.
  assert (Bs : forall s, both f t s = shared experiment period percentiles fs ts s) by (intro s; rewrite Ch; apply both_shared).
  assert (Pa : forall d, paired experiment period percentiles fs ts d = forecast_at f t d && truth_at f t d) by (intro d; rewrite Ch; apply paired_at).
  assert (InF : forall r, In r F -> both f t (r_wmo r) = true /\ truth_at f t (r_time r) = true /\ exists q, In q f /\ at_key (r_wmo r) (r_time r) (r_rep r) q = true). { intros r I'. apply (forecast_in g f t Df Dt). exists r. split; [exact I'|]. apply at_key_iff. repeat split; reflexivity. }
  assert (Tm : forall d, in_times F d <-> paired experiment period percentiles fs ts d = true).
  { intro d. rewrite Pa, andb_true_iff. unfold in_times. rewrite in_map_iff. split.
    - intros (r & <- & I'). destruct (InF r I') as (A & B & q & Q1 & Q2). split; [|exact B]. unfold forecast_at. apply existsb_exists. exists q. split; [exact Q1|]. apply at_key_iff in Q2 as (<- & <- & _). now rewrite A, Z.eqb_refl.
    - intros (A & B). unfold forecast_at in A. apply existsb_exists in A as (q & Q1 & Q2). apply andb_true_iff in Q2 as [Q2 Q3]. apply Z.eqb_eq in Q3. destruct (proj2 (forecast_in g f t Df Dt (r_wmo q) d (r_rep q))) as (r & R1 & R2); [split; [exact Q2|]; split; [exact B|]; exists q; split; [exact Q1|]; apply at_key_iff; repeat split; try exact Q3; reflexivity|]. exists r. split; [|exact R1]. now apply at_key_iff in R2 as (_ & <- & _). }
  assert (Ed : filter (has_time H) (training_dates cycle period n) = filter (paired experiment period percentiles fs ts) (training_dates cycle period n)).
  { apply filter_cong. intros d _. apply eq_true_iff_eq. rewrite <- Tm. exact (has_time_iff g F G Dg Cg d). }
  set (dates := training_dates cycle period n) in *. set (ds := filter (paired experiment period percentiles fs ts) dates) in *.
  destruct (slices false dates H) as [fsl|] eqn:Sf; cbn [bind] in Hc; [|discriminate]. apply (slices_ok G dates) in Sf as [Efs Chk]. fold H in Efs, Chk. rewrite Ed in Efs, Chk.
  destruct (merge fsl) as [[c0|]|] eqn:Mf; cbn [bind] in Hc; [| |discriminate].
  2: { destruct (slices true dates M) as [tl|]; cbn [bind] in Hc; [|discriminate]. destruct (merge tl); cbn [bind] in Hc; discriminate. }
  destruct (rebadged rp c0) as [c1|] eqn:Rb; cbn [bind] in Hc; [|discriminate]. destruct (slices true dates M) as [tsl|] eqn:St; cbn [bind] in Hc; [|discriminate]. destruct (merge tsl) as [tc'|] eqn:Mt; cbn [bind] in Hc; [|discriminate]. apply Ok_inj in Hc. apply pair_equal_spec in Hc as [E1 <-]. injection E1 as ->.
  apply merge_some in Mf as (s0 & r0 & Fl & Ne & Mg & _ & Ec0).
  assert (Td : forall d, In d ds -> in_times F d) by (intros d I'; apply filter_In in I' as [_ I']; now apply Tm).
  assert (Efs' : fsl = map (fun d => (d, bounds_at d (rows_at G d), map (fun p => (p, spot_of (X G d p))) (reps_of F))) ds). { rewrite Efs. apply map_ext_in. intros d I'. now rewrite (spots_at g F G Dg Cg d (Td d I')). }
  assert (Xd : exists d0 ds', ds = d0 :: ds'). { case_eq ds; [|eauto]. intro E. rewrite Efs, E in Ne. now destruct Ne. } destruct Xd as (d0 & ds' & Eds). assert (I0 : In d0 ds) by (rewrite Eds; now left).
  assert (Xr : exists p0 l0, reps_of F = p0 :: l0). { case_eq (reps_of F); [|eauto]. intro E. exfalso. exact (reps_nonempty F G Cg d0 (Td d0 I0) E). } destruct Xr as (p0 & l0 & Er). assert (P0 : In p0 (reps_of F)) by (rewrite Er; now left).
  assert (Es0 : s0 = spot_of (X G d0 p0)). { rewrite Efs', Eds in Fl. cbn [map flat_map snd app] in Fl. rewrite Er in Fl. cbn [map app snd] in Fl. now injection Fl as <- _. }
  assert (Mg' : forall d p, In d ds -> In p (reps_of F) -> mergeable s0 (spot_of (X G d p)) = true). { intros d p I' Ip. apply Mg. rewrite <- Fl, Efs'. apply in_flat_map. exists (d, bounds_at d (rows_at G d), map (fun p => (p, spot_of (X G d p))) (reps_of F)). split; [apply in_map_iff; exists d; auto|]. cbn [snd]. rewrite map_map. cbn [snd]. apply in_map_iff. exists p. auto. }
  assert (Hs : map fst (c_sites c0) = sites_of F). { rewrite Ec0, Es0. cbn [c_sites spot_of sp_sites]. rewrite map_map. cbn [fst]. exact (X_wmo g F G Dg Cg d0 p0 (Td d0 I0) P0). }
  assert (Hs1 : c_sites fc = c_sites c0). { unfold rebadged in Rb. destruct rp; [|now injection Rb as <-]. destruct (c_fields c0); [now injection Rb as <-|]. destruct (Model_Percentiles.rebadge_as_realizations _ _ _); cbn [bind] in Rb; [|discriminate]. now injection Rb as <-. }
  cbv zeta. rewrite Hs1, Hs.
  assert (Sk : forall s, In s (sites_of F) <-> kept experiment period percentiles fs ts s).
  { intro s. unfold sites_of. assert (E : In s (isort String.leb (unique String.eqb (map r_wmo F))) <-> In s (map r_wmo F)). { split; intro I'; [apply (Permutation_in _ (Permutation_sym (isort_perm _ _))) in I'; now apply unique_in in I'|]. apply (Permutation_in _ (isort_perm _ _)). apply unique_iff; [apply String.eqb_eq|exact I']. }
    rewrite E, in_map_iff. unfold kept. split.
    - intros (r & <- & I'). destruct (InF r I') as (A & B & q & Q1 & Q2). split; [now rewrite <- Bs|]. rewrite Ch in Q1. apply in_map_iff in Q1 as (x & <- & X1). apply filter_In in X1 as [X1 X2]. exists x. apply at_key_iff in Q2 as (Q2 & Q3 & _). split; [exact X1|]. split; [exact X2|]. split; [now symmetry|]. rewrite <- Q3. apply Tm. unfold in_times. now apply in_map.
    - intros (A & x & X1 & X2 & X3 & X4). rewrite Pa, andb_true_iff in X4. destruct (proj2 (forecast_in g f t Df Dt s (r_time (fr_row x)) (r_rep (fr_row x)))) as (r & R1 & R2); [split; [now rewrite Bs|]; split; [apply X4|]; exists (fr_row x); split; [rewrite Ch; apply in_map; apply filter_In; auto|]; apply at_key_iff; repeat split; try (now symmetry); reflexivity|]. exists r. split; [|exact R1]. now apply at_key_iff in R2 as (<- & _). }
  split; [|split; [exact Sk|]].
  { unfold ordered_names, sites_of. pose proof (Props_Rainforests.sorted_names (unique String.eqb (map r_wmo F))) as So. assert (Nd : NoDup (isort String.leb (unique String.eqb (map r_wmo F)))) by (apply (Permutation_NoDup (isort_perm _ _)), unique_NoDup, String.eqb_refl). clear -So Nd. induction So as [|a l So IH Fa]; [constructor|]. inversion Nd; subst. constructor; [now apply IH|]. rewrite Forall_forall in *. intros y Y. specialize (Fa y Y). apply Props_Rainforests.str_leb_cases in Fa as [Fa|Fa]; [exact Fa|subst; contradiction]. }
  (* the statics of the rows of a date agree *)
  assert (Agree : forall d, In d ds -> forall x y, In x (X G d p0) -> In y (rows_at G d) -> r_wmo x = r_wmo y -> statics_eqb (r_statics x) (r_statics y) = true).
  { intros d I' x y Ix Iy Ew. destruct (rows_in F G Cg d y Iy) as (Ty & Ry & Iy2). assert (Ix2 : In x (rows_at G d)). { rewrite <- rows_rep in Ix. now apply filter_In in Ix. }
    pose proof (Chk d I') as Ck. unfold checked in Ck. rewrite !andb_true_iff in Ck. destruct Ck as (C1 & C2). cbn [orb] in C2. rewrite !andb_true_iff in C2. destruct C2 as (((C2 & C3) & C4) & C5). change (statics_eqb (r_statics x) (r_statics y)) with (same_statics (r_statics x) (r_statics y)). unfold same_statics. rewrite !andb_true_iff.
    pose proof (proj1 (one_value_all _ _ equiv_text) C1) as V1. pose proof (proj1 (one_value_all _ _ equiv_oz) C2) as V2. pose proof (proj1 (one_value_all _ _ equiv_oq) C3) as V3. pose proof (proj1 (one_value_all _ _ equiv_text) C4) as V4. pose proof (proj1 (one_value_all _ _ equiv_text) C5) as V5.
    repeat split; [|apply V1|apply V2|apply V3|apply V4|apply V5]; try (apply in_map_iff; eauto; fail).
    assert (Mxy : mergeable (spot_of (X G d p0)) (spot_of (X G d (r_rep y))) = true) by (apply (e_trans _ equiv_spot _ s0); [apply (e_sym _ equiv_spot)|]; now apply Mg'). unfold mergeable in Mxy. rewrite !andb_true_iff in Mxy. destruct Mxy as ((Ms & _) & _). cbn [spot_of sp_sites] in Ms.
    destruct (sites_at _ _ (r_wmo x, place_of x) Ms) as (z & Z1 & Z2 & Z4); [apply in_map_iff; eauto|]. apply in_map_iff in Z1 as (w & <- & W1). cbn [fst snd] in Z2, Z4. assert (Eyw : w = y); [|subst w; exact Z4].
    pose proof (X_wmo g F G Dg Cg d (r_rep y) (Td d I') Ry) as W. assert (Nd : NoDup (map r_wmo (X G d (r_rep y)))) by (rewrite W; apply (Permutation_NoDup (isort_perm _ _)), unique_NoDup, String.eqb_refl). rewrite Z2 in Ew. clear -Nd W1 Iy2 Ew. induction (X G d (r_rep y)) as [|a l IH]; [destruct W1|]. cbn in Nd. inversion Nd as [|? ? N1 N2]; subst. destruct W1 as [<-|W1], Iy2 as [<-|Iy2]; [reflexivity|exfalso; apply N1; rewrite Ew; now apply in_map|exfalso; apply N1; rewrite <- Ew; now apply in_map|now apply IH]. }
  assert (Mr : forall d, In d ds -> filter (fun r => (r_time r =? d)%Z) M = map (truth_row_of (snd m) d) (X G d p0)) by (intros d I'; exact (M_rows g F G (snd m) T1 Dg Cg Dt1 Ct D3t Z3 d p0 l0 (Td d I') Er (Agree d I'))).
  assert (Edm : filter (has_time M) dates = ds). { rewrite <- Ed. apply filter_cong. intros d _. apply M_times. }
  assert (Bd : forall d, In d ds -> bounds_at d (map (truth_row_of (snd m) d) (X G d p0)) = bounds_at d (rows_at G d)). { intros d I'. rewrite (rows_split g F G Dg Cg d p0 l0 (Td d I') Er). pose proof (X_nonempty g F G Dg Cg d p0 (Td d I') P0) as N. destruct (X G d p0) as [|x l]; [congruence|]. reflexivity. }
  assert (Sp : forall d, In d ds -> spots (map (truth_row_of (snd m) d) (X G d p0)) = [(0, spot_of (map (truth_row_of (snd m) d) (X G d p0)))]).
  { intros d I'. pose proof (X_nonempty g F G Dg Cg d p0 (Td d I') P0) as N. set (R := map _ (X G d p0)). assert (RR : forall r, In r R -> r_rep r = 0) by (intros r Ir; unfold R in Ir; apply in_map_iff in Ir as (x & <- & _); reflexivity). assert (NR : R <> []) by (unfold R; destruct (X G d p0); [congruence|discriminate]). clearbody R. unfold spots.
    assert (Eu : unique Qeq_bool (map r_rep R) = [0]). { destruct R as [|r R']; [congruence|]. cbn [map unique]. rewrite (RR r) by now left. f_equal. apply filter_none. intros q Iq. apply unique_in in Iq. apply in_map_iff in Iq as (y & <- & Y). rewrite (RR y) by now right. reflexivity. }
    rewrite Eu. cbn [map qsort isort insert]. change (qsort [0]) with [0]. cbn [map]. do 3 f_equal. apply filter_all. intros r Ir. now rewrite (RR r Ir). }
  apply (proj1 (mapM_check (fun d => checked true (filter (fun r => (r_time r =? d)%Z) M)) (fun d => (d, bounds_at d (filter (fun r => (r_time r =? d)%Z) M), spots (filter (fun r => (r_time r =? d)%Z) M))) ValueError (filter (has_time M) dates) tsl)) in St as [Ets _]. rewrite Edm in Ets.
  assert (Ets' : tsl = map (fun d => (d, bounds_at d (rows_at G d), [(0, spot_of (map (truth_row_of (snd m) d) (X G d p0)))])) ds). { rewrite Ets. apply map_ext_in. intros d I'. now rewrite (Mr d I'), (Bd d I'), (Sp d I'). }
  assert (Em : exists c, tc' = Some c). { destruct tc' as [c|]; [eauto|]. apply merge_none in Mt. rewrite Mt, Eds in Ets'. discriminate. } destruct Em as (c & ->).
  apply merge_some in Mt as (s1 & r1 & Fl1 & _ & _ & _ & Ec).
  assert (Es1 : s1 = spot_of (map (truth_row_of (snd m) d0) (X G d0 p0))). { rewrite Ets', Eds in Fl1. cbn [map flat_map snd app] in Fl1. now injection Fl1 as <- _. }
  assert (Cf : forall d p, In d ds -> In p (reps_of F) -> map r_value (X G d p) = map (fun s => forecast_for experiment period percentiles fs s d p) (sites_of F)).
  { intros d p I' Ip. rewrite (X_values g F G Dg Cg d p (Td d I') Ip). apply map_ext_in. intros s Is. unfold cell. pose proof (Td d I') as T'. apply Tm in T'. rewrite Pa, andb_true_iff in T'. apply Sk in Is as [Is _]. unfold F, m. rewrite (forecast_cell g f t Df Dt s d p); [|now rewrite Bs|apply T']. rewrite Ch. apply last_forecast. }
  assert (Ctv : forall d, In d ds -> map r_value (map (truth_row_of (snd m) d) (X G d p0)) = map (fun s => truth_for ts s d) (sites_of F)).
  { intros d I'. rewrite map_map. cbn [truth_row_of r_value]. rewrite <- (X_wmo g F G Dg Cg d p0 (Td d I') P0), map_map. apply map_ext_in. intros x Ix. assert (Is : In (r_wmo x) (sites_of F)) by (rewrite <- (X_wmo g F G Dg Cg d p0 (Td d I') P0); now apply in_map). apply Sk in Is as [Is _]. pose proof (Td d I') as T'. apply Tm in T'. rewrite Pa, andb_true_iff in T'. unfold cell, m. rewrite (truth_cell g f t Df Dt (r_wmo x) d 0); [|now rewrite Bs|apply T'|apply T']. apply last_truth. }
  exists c, (reps_of F), (fun d => bounds_at d (rows_at G d)). split; [reflexivity|]. split; [|split; [exact (reps_strict F)|split; [|split]]].
  - rewrite Ec, Ec0, Es0, Es1. cbn [c_sites spot_of sp_sites]. rewrite map_map. reflexivity.
  - intro p. unfold represented. split.
    + intros (x & X1 & X2 & X3 & X4 & X5). rewrite Pa, andb_true_iff in X4. destruct (proj2 (forecast_in g f t Df Dt (r_wmo (fr_row x)) (r_time (fr_row x)) (r_rep (fr_row x)))) as (r & R1 & R2); [split; [now rewrite Bs|]; split; [apply X4|]; exists (fr_row x); split; [rewrite Ch; apply in_map; apply filter_In; auto|]; apply at_key_iff; repeat split; reflexivity|].
      destruct (unique_covers Qeq_bool (r_rep r) (map r_rep F) Qeqb_refl Qeqb_trans) as (q & Q1 & Q2); [now apply in_map|]. exists q. split; [now apply reps_in|]. apply Qeqb_eq in Q2. apply at_key_iff in R2 as (_ & _ & R2). rewrite Q2, <- R2. exact X5.
    + intros (q & Q1 & Q2). apply reps_in, unique_in, in_map_iff in Q1 as (r & <- & I'). destruct (InF r I') as (A & B & y & Y1 & Y2). rewrite Ch in Y1. apply in_map_iff in Y1 as (x & <- & X1). apply filter_In in X1 as [X1 X2]. apply at_key_iff in Y2 as (Y2 & Y3 & Y4). exists x. split; [exact X1|]. split; [exact X2|]. split; [rewrite <- Y2; now rewrite <- Bs|]. split; [rewrite <- Y3; apply Tm; unfold in_times; now apply in_map|]. rewrite <- Y4. exact Q2.
  - assert (E0 : c_fields c0 = map (fun d => (d, bounds_at d (rows_at G d), map (fun p => (p, map (fun s => forecast_for experiment period percentiles fs s d p) (sites_of F))) (reps_of F))) ds).
    { rewrite Ec0. cbn [c_fields]. rewrite Efs', map_map. cbn [fst snd]. apply map_ext_in. intros d I'. f_equal. rewrite map_map. cbn [fst snd]. apply map_ext_in. intros p Ip. f_equal. cbn [spot_of sp_values]. exact (Cf d p I' Ip). }
    unfold rebadged in Rb. destruct rp.
    + rewrite E0, Eds in Rb. cbn [map snd] in Rb. rewrite !map_map in Rb. cbn [fst] in Rb. rewrite map_id in Rb. destruct (Model_Percentiles.rebadge_as_realizations (reps_of F) false None) as [nums|] eqn:Nu; cbn [bind] in Rb; [|discriminate]. apply rebadged_numbers in Nu. apply Ok_inj in Rb. rewrite <- Rb. cbn [c_fields labels]. rewrite Eds. cbn [map]. f_equal.
      * cbn [fst snd]. f_equal. rewrite Nu, !map_map. cbn [snd]. reflexivity.
      * rewrite map_map. apply map_ext. intro d. cbn [fst snd]. f_equal. rewrite Nu, !map_map. cbn [snd]. reflexivity.
    + injection Rb as <-. rewrite E0. cbn [labels]. apply map_ext. intro d. f_equal. rewrite zip_map, map_id. reflexivity.
  - rewrite Ec. cbn [c_fields]. rewrite Ets', map_map. cbn [fst snd]. apply map_ext_in. intros d I'. f_equal. cbn [map fst snd spot_of sp_values]. do 2 f_equal. exact (Ctv d I').
Qed.
(** No cube comes out when there is nothing to compare. *)
Theorem C101_nothing g rp cycle period n percentiles experiment fs ts tc : about fs ts g -> to_cubes rp cycle period n percentiles experiment fs ts = Ok (None, tc) ->
  tc = None /\ filter (paired experiment period percentiles fs ts) (training_dates cycle period n) = [].
Proof.
  intros [Af At] Hc. unfold to_cubes in Hc. cbv zeta in Hc. destruct (prepare rp experiment period percentiles fs ts) as [[H M]|] eqn:P; cbn [bind fst snd] in Hc; [|discriminate].
  unfold prepare in P. destruct (chosen rp experiment period percentiles fs) as [f|] eqn:Ch; cbn [bind] in P; [|discriminate]. apply chosen_used in Ch.
  set (t := map of_truth ts) in P. set (m := matched (drop_duplicates f) (drop_duplicates t)) in P. destruct (fill_missing (fst m)) as [F1|] eqn:Fi; cbn [bind] in P; [|discriminate]. destruct (fill_missing (snd m)) as [T1|] eqn:Ti; cbn [bind] in P; [|discriminate].
  apply Ok_inj in P. apply pair_equal_spec in P as [<- <-].
  assert (Df : Forall (fun r => diag r = Some g) f). { rewrite Ch. apply Forall_map. rewrite Forall_forall in *. intros r I'. apply filter_In in I' as [I' _]. exact (Af r I'). }
  assert (Dt : Forall (fun r => diag r = Some g) t). { unfold t. apply Forall_map. exact At. }
  pose proof (forecast_diag g f t Df Dt) as D3f. pose proof (truth_diag g f t Df Dt) as D3t. fold m in D3f, D3t.
  set (G := consistent F1) in *. assert (Cg : map core G = map core (completed (fst m))) by (unfold G; rewrite core_consistent; now apply fill_core).
  assert (Dg : Forall (fun r => diag r = Some g) G) by (apply consistent_diag; exact (fill_diag g _ _ D3f Fi)).
  set (F := fst m) in *. set (H := isort row_leb G) in *. set (M := merge_right (isort row_leb T1) H) in *. set (dates := training_dates cycle period n) in *.
  destruct (slices false dates H) as [fsl|] eqn:Sf; cbn [bind] in Hc; [|discriminate]. apply (slices_ok G dates) in Sf as [Efs Chk]. fold H in Efs.
  destruct (merge fsl) as [[c0|]|] eqn:Mf; cbn [bind] in Hc; [| |discriminate]. { destruct (rebadged rp c0); cbn [bind] in Hc; [|discriminate]. destruct (slices true dates M) as [tl|]; cbn [bind] in Hc; [|discriminate]. destruct (merge tl); cbn [bind] in Hc; discriminate. }
  apply merge_none in Mf. rewrite Efs in Mf. assert (En : filter (has_time H) dates = []) by (destruct (filter (has_time H) dates); [reflexivity|discriminate]).
  split.
  - assert (Em : filter (has_time M) dates = []) by (rewrite <- En; apply filter_cong; intros d _; apply M_times).
    unfold slices in Hc. rewrite Em in Hc. cbn [mapM bind merge flat_map] in Hc. congruence.
  - apply filter_none. intros d Id. destruct (paired experiment period percentiles fs ts d) eqn:E; [|reflexivity]. exfalso. assert (Id' : In d (filter (has_time H) dates)); [|rewrite En in Id'; destruct Id']. apply filter_In. split; [exact Id|]. apply (has_time_iff g F G Dg Cg d).
    rewrite (paired_at experiment period percentiles fs ts d), <- Ch, andb_true_iff in E. fold t in E. destruct E as (A & B). unfold forecast_at in A. apply existsb_exists in A as (q & Q1 & Q2). apply andb_true_iff in Q2 as [Q2 Q3]. apply Z.eqb_eq in Q3. destruct (proj2 (forecast_in g f t Df Dt (r_wmo q) d (r_rep q))) as (r & R1 & R2); [split; [exact Q2|]; split; [exact B|]; exists q; split; [exact Q1|]; apply at_key_iff; repeat split; try exact Q3; reflexivity|].
    apply at_key_iff in R2 as (_ & -> & _). unfold in_times. now apply in_map.
Qed.

(** ** The order of the rows *)
Definition once (fs : list forecast_row) : Prop := forall r r', In r fs -> In r' fs -> r_wmo (fr_row r) = r_wmo (fr_row r') -> r_time (fr_row r) = r_time (fr_row r') -> r_rep (fr_row r) == r_rep (fr_row r') -> fr_period r = fr_period r' -> r = r'.
Definition once_true (ts : list truth_row) : Prop := forall r r', In r ts -> In r' ts -> tr_wmo r = tr_wmo r' -> tr_time r = tr_time r' -> r = r'.
Lemma find_perm {A} (f : A -> bool) l l' : Permutation l l' -> (forall x y, In x l -> In y l -> f x = true -> f y = true -> x = y) -> find f l = find f l'.
Proof.
  intros P U. destruct (find f l) as [x|] eqn:E.
  - apply find_some in E as [I1 E]. destruct (find f l') as [y|] eqn:E'.
    + apply find_some in E' as [I2 E']. f_equal. apply U; auto. apply (Permutation_in _ (Permutation_sym P)). exact I2.
    + rewrite (find_none _ _ E' x) in E; [discriminate|]. now apply (Permutation_in _ P).
  - destruct (find f l') as [y|] eqn:E'; [|reflexivity]. apply find_some in E' as [I2 E']. rewrite (find_none _ _ E y) in E'; [discriminate|]. now apply (Permutation_in _ (Permutation_sym P)).
Qed.
Lemma existsb_perm {A} (f : A -> bool) l l' : Permutation l l' -> existsb f l = existsb f l'.
Proof. intro P. apply eq_true_iff_eq. rewrite !existsb_exists. split; intros (x & I' & E); exists x; split; auto; [now apply (Permutation_in _ P)|now apply (Permutation_in _ (Permutation_sym P))]. Qed.
(** Two tables with the same rows in another order give cubes with the same sites, dates and values, if no row is given twice. *)
Theorem C101_order g rp cycle period n percentiles experiment fs ts fs' ts' fc tc fc' tc' : about fs ts g -> once fs -> once_true ts -> Permutation fs fs' -> Permutation ts ts' ->
  to_cubes rp cycle period n percentiles experiment fs ts = Ok (Some fc, Some tc) -> to_cubes rp cycle period n percentiles experiment fs' ts' = Ok (Some fc', Some tc') ->
  map fst (c_sites fc) = map fst (c_sites fc') /\ map fst (c_sites tc) = map fst (c_sites tc') /\
  map (fun x => (fst (fst x), map snd (snd x))) (c_fields fc) = map (fun x => (fst (fst x), map snd (snd x))) (c_fields fc') /\
  map (fun x => (fst (fst x), map snd (snd x))) (c_fields tc) = map (fun x => (fst (fst x), map snd (snd x))) (c_fields tc').
Proof.
  intros A O Ot Pf Pt H H'. assert (A' : about fs' ts' g) by (destruct A as [A1 A2]; split; [exact (Permutation_Forall Pf A1)|exact (Permutation_Forall Pt A2)]).
  apply (C101_values g) in H; [|exact A]. apply (C101_values g) in H'; [|exact A']. cbv zeta in H, H'. destruct H as (S1 & K & c & reps & b & E1 & E2 & R1 & R2 & F1 & F2). destruct H' as (S1' & K' & c' & reps' & b' & E1' & E2' & R1' & R2' & F1' & F2').
  injection E1 as <-. injection E1' as <-.
  assert (Sh : forall s, shared experiment period percentiles fs ts s = shared experiment period percentiles fs' ts' s) by (intro s; unfold shared; now rewrite (existsb_perm _ _ _ Pf), (existsb_perm _ _ _ Pt)).
  assert (Pa : forall d, paired experiment period percentiles fs ts d = paired experiment period percentiles fs' ts' d). { intro d. unfold paired. rewrite <- (existsb_perm _ _ _ Pf), <- (existsb_perm _ _ _ Pt). f_equal; apply existsb_ext; intro r; now rewrite Sh. }
  assert (Es : map fst (c_sites fc) = map fst (c_sites fc')).
  { apply (sorted_equal (fun a b => String.compare a b = Lt)); [|exact S1|exact S1'|].
    - intros x y L1 L2. rewrite String.compare_antisym, L2 in L1. discriminate.
    - assert (N : forall l, ordered_names l -> NoDup l). { clear. intros l So. induction So as [|a l So IH Fa]; constructor; [|exact IH]. intro I'. rewrite Forall_forall in Fa. apply Fa in I'. now rewrite Props_Rainforests.str_refl in I'. }
      apply NoDup_Permutation; [now apply N|now apply N|]. intro s. rewrite K, K'. unfold kept. rewrite Sh. split; intros (B & r & X1 & X2 & X3 & X4); (split; [exact B|]); exists r; (split; [|split; [exact X2|split; [exact X3|]]]); [now apply (Permutation_in _ Pf)|now rewrite <- Pa|now apply (Permutation_in _ (Permutation_sym Pf))|now rewrite Pa]. }
  assert (Ed : filter (paired experiment period percentiles fs ts) (training_dates cycle period n) = filter (paired experiment period percentiles fs' ts') (training_dates cycle period n)) by (apply filter_cong; intros d _; apply Pa).
  assert (Ff : forall s d p, forecast_for experiment period percentiles fs s d p = forecast_for experiment period percentiles fs' s d p).
  { intros s d p. unfold forecast_for. rewrite (find_perm _ (rev fs) (rev fs')); [reflexivity| |].
    - eapply Permutation_trans; [apply Permutation_sym, Permutation_rev|]. eapply Permutation_trans; [exact Pf|apply Permutation_rev].
    - intros x y X1 Y1 X2 Y2. apply in_rev in X1, Y1. rewrite !andb_true_iff in X2, Y2. destruct X2 as (X2 & (X3 & X4) & X5), Y2 as (Y2 & (Y3 & Y4) & Y5). apply String.eqb_eq in X3, Y3. apply Z.eqb_eq in X4, Y4. apply Qeqb_eq in X5, Y5. unfold used in X2, Y2. rewrite !andb_true_iff in X2, Y2. destruct X2 as ((_ & X2) & _), Y2 as ((_ & Y2) & _). apply Z.eqb_eq in X2, Y2. apply O; auto; try congruence. now rewrite <- X5. }
  assert (Fp : forall s d p q, p == q -> forecast_for experiment period percentiles fs' s d p = forecast_for experiment period percentiles fs' s d q).
  { intros s d p q E. unfold forecast_for. assert (X : forall l, find (fun r => used experiment period percentiles r && (String.eqb s (r_wmo (fr_row r)) && (d =? r_time (fr_row r))%Z && Qeq_bool p (r_rep (fr_row r)))) l = find (fun r => used experiment period percentiles r && (String.eqb s (r_wmo (fr_row r)) && (d =? r_time (fr_row r))%Z && Qeq_bool q (r_rep (fr_row r)))) l). { induction l as [|a l IH]; [reflexivity|]. cbn [find]. rewrite IH. assert (Eq : Qeq_bool p (r_rep (fr_row a)) = Qeq_bool q (r_rep (fr_row a))) by (apply eq_true_iff_eq; rewrite !Qeqb_eq, E; tauto). now rewrite Eq. } now rewrite X. }
  assert (Ft : forall s d, truth_for ts s d = truth_for ts' s d).
  { intros s d. unfold truth_for. rewrite (find_perm _ (rev ts) (rev ts')); [reflexivity| |].
    - eapply Permutation_trans; [apply Permutation_sym, Permutation_rev|]. eapply Permutation_trans; [exact Pt|apply Permutation_rev].
    - intros x y X1 Y1 X2 Y2. apply in_rev in X1, Y1. rewrite !andb_true_iff in X2, Y2. destruct X2 as (X3 & X4), Y2 as (Y3 & Y4). apply String.eqb_eq in X3, Y3. apply Z.eqb_eq in X4, Y4. apply Ot; auto; congruence. }
  assert (Er : Forall2 Qeq reps reps').
  { assert (Q1 : forall p, (exists q, In q reps /\ q == p) <-> (exists q, In q reps' /\ q == p)). { intro p. rewrite <- R2, <- R2'. unfold represented. split; intros (r & X1 & X2 & X3 & X4 & X5); exists r; [rewrite <- Sh, <- Pa|rewrite Sh, Pa]; (split; [|auto]); [now apply (Permutation_in _ Pf)|now apply (Permutation_in _ (Permutation_sym Pf))]. }
    clear - R1 R1' Q1. revert reps' R1' Q1. unfold qssorted in *. induction R1 as [|a l So IH Fa]; intros reps' R' Q1.
    - destruct reps' as [|b m]; [constructor|]. destruct (proj2 (Q1 b)) as (q & [] & _). exists b. split; [now left|reflexivity].
    - inversion R' as [|b m So' Fb]; subst; [destruct (proj1 (Q1 a)) as (q & [] & _); exists a; split; [now left|reflexivity]|]. rewrite Forall_forall in Fa, Fb.
      assert (Eab : a == b). { destruct (proj1 (Q1 a)) as (q & [<-|Iq] & Eq); [exists a; split; [now left|reflexivity]|now symmetry|]. destruct (proj2 (Q1 b)) as (q' & [<-|Iq'] & Eq'); [exists b; split; [now left|reflexivity]|exact Eq'|]. apply Fb in Iq. apply Fa in Iq'. lra. }
      constructor; [exact Eab|]. apply IH; [exact So'|]. intro p. split; intros (q & Iq & Eq).
      + destruct (proj1 (Q1 p)) as (q' & [<-|Iq'] & Eq'); [exists q; split; [now right|exact Eq]|apply Fa in Iq; lra|eauto].
      + destruct (proj2 (Q1 p)) as (q' & [<-|Iq'] & Eq'); [exists q; split; [now right|exact Eq]|apply Fb in Iq; lra|eauto]. }
  assert (Ln : forall (A B : Type) (a : list A) (b : list B), length a = length b -> map snd (combine a b) = b) by (clear; intros A0 B0; induction a as [|x a IH]; intros [|y b] L; cbn in *; try discriminate; [reflexivity|]; f_equal; apply IH; lia).
  assert (Ll : forall r, length (labels rp r) = length r) by (intro r; destruct rp; cbn [labels]; [now rewrite map_length, seq_length|reflexivity]).
  split; [exact Es|]. split; [now rewrite E2, E2'|]. split.
  - rewrite F1, F1', !map_map. cbn [fst snd]. rewrite Ed. apply map_ext. intro d. f_equal. rewrite !Ln by (now rewrite Ll, map_length). rewrite Es. clear - Er Ff Fp. induction Er as [|p q l l' E Er IH]; [reflexivity|]. cbn [map]. f_equal; [|exact IH]. apply map_ext. intro s. rewrite Ff. now apply Fp.
  - rewrite F2, F2', !map_map. cbn [fst snd map]. rewrite Ed, Es. apply map_ext. intro d. do 2 f_equal. apply map_ext. intro s. apply Ft.
Qed.

(** ** Sites that do not move *)
(** What every forecast row says of its site, when nothing about the site or the diagnostic changes. *)
Definition described (g name units : string) (period_of : option Z) (height : option Q) (at_site : string -> Q * Q * Q) (s : string) : statics :=
  {| st_lat := Some (fst (fst (at_site s))); st_lon := Some (snd (fst (at_site s))); st_alt := Some (snd (at_site s)); st_diag := Some g; st_period := period_of; st_height := height; st_name := Some name; st_units := Some units |}.
Definition steady (fs : list forecast_row) g name units period_of height at_site : Prop := forall r, In r fs -> r_statics (fr_row r) = described g name units period_of height at_site (r_wmo (fr_row r)).
Definition placed (at_site : string -> Q * Q * Q) (c : cube) : Prop := forall s p, In (s, p) (c_sites c) -> p = (Some (fst (fst (at_site s))), Some (snd (fst (at_site s))), Some (snd (at_site s))).
(** The time bounds of every field: the period that ends at its date, if the diagnostic has a period. *)
Definition over_period (period_of : option Z) (c : cube) : Prop := forall d b vs, In (d, b, vs) (c_fields c) -> b = match period_of with Some p => Some (d - p, d)%Z | None => None end.
Lemma described_over g name units period_of height at_site a b : over (described g name units period_of height at_site a) (described g name units period_of height at_site b) = described g name units period_of height at_site a.
Proof. unfold over, described. cbn. destruct period_of, height; reflexivity. Qed.
(** Realizations of one experiment at sites that do not move are always made into cubes, and the cubes have each site where it is and each period ending at its date. *)
Theorem C101_total g name units period_of height at_site cycle period n experiment fs ts : about fs ts g -> steady fs g name units period_of height at_site ->
  (forall r r', In r fs -> In r' fs -> fr_experiment r = fr_experiment r') ->
  exists fc tc, to_cubes Realizations cycle period n [] experiment fs ts = Ok (fc, tc) /\ forall c, fc = Some c \/ tc = Some c -> placed at_site c /\ over_period period_of c.
Proof.
  intros [Af At] Sd Ex. set (st := described g name units period_of height at_site). unfold steady in Sd. fold st in Sd. assert (Ov : forall a b, over (st a) (st b) = st a) by apply described_over.
  assert (Ch : chosen Realizations experiment period [] fs = Ok (map fr_row (filter (used experiment period []) fs))).
  { pose proof (chosen_used Realizations experiment period [] fs) as U. unfold chosen in *. set (l1 := match experiment with Some e => _ | None => fs end) in *. set (l2 := filter _ l1) in *.
    assert (C : (1 <? length (unique String.eqb (map fr_experiment l2)))%nat = false).
    { apply Nat.ltb_ge. apply Nat.leb_le. change (one_value String.eqb (map fr_experiment l2) = true). apply (one_value_all _ _ equiv_string). intros x y X1 Y1. apply in_map_iff in X1 as (r & <- & X1), Y1 as (r' & <- & Y1). apply String.eqb_eq. assert (I2 : forall q, In q l2 -> In q fs) by (intros q Iq; unfold l2 in Iq; apply filter_In in Iq as [Iq _]; unfold l1 in Iq; destruct experiment; [now apply filter_In in Iq|exact Iq]). apply Ex; now apply I2. }
    rewrite C in *. cbn [bind] in *. f_equal. now apply U. }
  set (f := map fr_row (filter (used experiment period []) fs)) in *. set (t := map of_truth ts). set (m := matched (drop_duplicates f) (drop_duplicates t)).
  assert (Df : Forall (fun r => diag r = Some g) f). { unfold f. apply Forall_map. rewrite Forall_forall in *. intros r I'. apply filter_In in I' as [I' _]. exact (Af r I'). }
  assert (Dt : Forall (fun r => diag r = Some g) t). { unfold t. apply Forall_map. exact At. }
  pose proof (forecast_diag g f t Df Dt) as D3f. pose proof (truth_diag g f t Df Dt) as D3t. pose proof (forecast_unrepeated g f t Df Dt) as Uf. pose proof (truth_unrepeated g f t Df Dt) as Ut. fold m in D3f, D3t, Uf, Ut.
  assert (Fi : exists F1, fill_missing (fst m) = Ok F1) by (unfold fill_missing; rewrite Uf; eauto). destruct Fi as (F1 & Fi). assert (Ti : exists T1, fill_missing (snd m) = Ok T1) by (unfold fill_missing; rewrite Ut; eauto). destruct Ti as (T1 & Ti).
  assert (Ff : Forall (full st) (fst m)). { apply Forall_forall. intros r I'. unfold m in I'. rewrite (matched_forecasts g f t Df Dt) in I'. apply filter_In in I' as [I' _]. apply dropped_in in I'. unfold f in I'. apply in_map_iff in I' as (x & <- & X1). apply filter_In in X1 as [X1 _]. exact (Sd x X1). }
  pose proof (filled_full st Ov _ _ Ff Fi) as Gf. pose proof (consistent_full st F1 Gf) as Gc.
  assert (Cg : map core F1 = map core (completed (fst m))) by now apply fill_core.
  assert (Dg : Forall (fun r => diag r = Some g) F1) by exact (fill_diag g _ _ D3f Fi).
  pose proof (fill_core _ _ Ti) as Ct. pose proof (fill_diag g _ _ D3t Ti) as Dt1.
  assert (Z3 : Forall (fun r => r_rep r = 0) (snd m)). { apply Forall_forall. intros r I'. unfold m in I'. rewrite (matched_truths g f t Df Dt) in I'. apply filter_In in I' as [I' _]. apply dropped_in in I'. unfold t in I'. apply in_map_iff in I' as (x & <- & _). reflexivity. }
  set (F := fst m) in *. set (H := isort row_leb F1). set (M := merge_right (isort row_leb T1) H).
  assert (Pr : prepare Realizations experiment period [] fs ts = Ok (H, M)). { unfold prepare. rewrite Ch. cbn [bind]. fold t. fold m. fold F. rewrite Fi. cbn [bind]. rewrite Ti. cbn [bind]. rewrite Gc. reflexivity. }
  assert (Hf : forall r, In r H -> full st r). { intros r I'. apply (Permutation_in _ (Permutation_sym (isort_perm _ _))) in I'. rewrite Forall_forall in Gf. now apply Gf. }
  set (dates := training_dates cycle period n). set (ds := filter (has_time H) dates).
  assert (Td : forall d, In d ds -> in_times F d) by (intros d I'; apply filter_In in I' as [_ I']; now apply (has_time_iff g F F1 Dg Cg d)).
  assert (Rf : forall d r, In r (rows_at F1 d) -> full st r). { intros d r I'. unfold rows_at in I'. apply filter_In in I' as [I' _]. now apply Hf. }
  assert (Xf : forall d p r, In r (X F1 d p) -> full st r). { intros d p r I'. unfold X in I'. apply filter_In in I' as [I' _]. now apply Hf. }
  assert (Hck : forall tr l, (forall r, In r l -> full st r) -> checked tr l = true).
  { intros tr l A. assert (V : forall (B : Type) (e : B -> B -> bool) (col : statics -> B), equiv e -> (forall a b, col (st a) = col (st b)) -> one_value e (map (fun r => col (r_statics r)) l) = true). { intros B e col Eq C. apply (one_value_all _ _ Eq). intros x y X1 Y1. apply in_map_iff in X1 as (a & <- & X1), Y1 as (b & <- & Y1). rewrite (A a X1), (A b Y1), (C (r_wmo a) (r_wmo b)). apply (e_refl _ Eq). }
    unfold checked. rewrite (V _ text_eqb st_diag equiv_text), (V _ oz_eqb st_period equiv_oz), (V _ oq_eqb st_height equiv_oq), (V _ text_eqb st_name equiv_text), (V _ text_eqb st_units equiv_text) by reflexivity. now rewrite orb_true_r. }
  set (bounds := fun d => bounds_at d (rows_at F1 d)).
  assert (Sf : slices false dates H = Ok (map (fun d => (d, bounds d, map (fun p => (p, spot_of (X F1 d p))) (reps_of F))) ds)).
  { apply (proj2 (slices_ok F1 dates _)). fold H. fold ds. split; [|intros d I'; apply Hck, Rf]. apply map_ext_in. intros d I'. now rewrite (spots_at g F F1 Dg Cg d (Td d I')). }
  assert (Ps : forall d p, In d ds -> In p (reps_of F) -> sp_sites (spot_of (X F1 d p)) = map (fun s => (s, (Some (fst (fst (at_site s))), Some (snd (fst (at_site s))), Some (snd (at_site s))))) (sites_of F)).
  { intros d p I' Ip. cbn [spot_of sp_sites]. rewrite <- (X_wmo g F F1 Dg Cg d p (Td d I') Ip), map_map. apply map_ext_in. intros r Ir. unfold place_of. rewrite (Xf d p r Ir). reflexivity. }
  assert (Pn : forall d p, In d ds -> In p (reps_of F) -> sp_name (spot_of (X F1 d p)) = Some name /\ sp_units (spot_of (X F1 d p)) = Some units).
  { intros d p I' Ip. pose proof (X_nonempty g F F1 Dg Cg d p (Td d I') Ip) as N. cbn [spot_of sp_name sp_units]. pose proof (Xf d p) as A. destruct (X F1 d p) as [|r l]; [congruence|]. rewrite (A r) by now left. split; reflexivity. }
  unfold to_cubes. rewrite Pr. cbv zeta. cbn [bind fst snd]. fold dates. rewrite Sf. cbn [bind].
  assert (Agree : forall d p, In d ds -> forall x y, In x (X F1 d p) -> In y (rows_at F1 d) -> r_wmo x = r_wmo y -> statics_eqb (r_statics x) (r_statics y) = true). { intros d p I' x y Ix Iy E. rewrite (Xf d p x Ix), (Rf d y Iy), E. apply (e_refl _ equiv_statics). }
  assert (Edm : filter (has_time M) dates = ds). { apply filter_cong. intros d _. apply M_times. }
  destruct ds as [|d0 ds'] eqn:Eds0.
  { cbn [map merge flat_map bind]. unfold slices. rewrite Edm. cbn [mapM bind merge flat_map]. exists None, None. split; [reflexivity|]. intros c [C|C]; discriminate. }
  rewrite <- Eds0 in *. assert (I0 : In d0 ds) by (rewrite Eds0; now left). assert (Xr : exists p0 l0, reps_of F = p0 :: l0). { case_eq (reps_of F); [|eauto]. intro E. exfalso. exact (reps_nonempty F F1 Cg d0 (Td d0 I0) E). } destruct Xr as (p0 & l0 & Er). assert (P0 : In p0 (reps_of F)) by (rewrite Er; now left).
  assert (Mf : forall d p, In d ds -> In p (reps_of F) -> mergeable (spot_of (X F1 d0 p0)) (spot_of (X F1 d p)) = true). { intros d p I' Ip. unfold mergeable. rewrite (Ps d0 p0 I0 P0), (Ps d p I' Ip), (proj1 (Pn d0 p0 I0 P0)), (proj2 (Pn d0 p0 I0 P0)), (proj1 (Pn d p I' Ip)), (proj2 (Pn d p I' Ip)). rewrite (e_refl _ equiv_sites), !(e_refl _ equiv_text). reflexivity. }
  set (fsl := map _ ds). assert (Ms : exists c0, merge fsl = Ok (Some c0) /\ c_sites c0 = sp_sites (spot_of (X F1 d0 p0)) /\ map fst (c_fields c0) = map fst fsl).
  { assert (Fl : flat_map (fun d : dated => map snd (snd d)) fsl = (spot_of (X F1 d0 p0)) :: tl (flat_map (fun d : dated => map snd (snd d)) fsl)) by (unfold fsl; rewrite Eds0; cbn [map flat_map snd]; rewrite Er; cbn [map app snd]; reflexivity).
    exists {| c_sites := sp_sites (spot_of (X F1 d0 p0)); c_fields := map (fun e => (fst e, map (fun p => (fst p, sp_values (snd p))) (snd e))) fsl |}. split; [|split; [cbn [c_sites]; try apply Es; reflexivity|cbn [c_fields]; rewrite map_map; reflexivity]]. apply (proj2 (merge_some fsl _)). exists (spot_of (X F1 d0 p0)), (tl (flat_map (fun d : dated => map snd (snd d)) fsl)). split; [exact Fl|]. split; [unfold fsl; rewrite Eds0; discriminate|]. split.
    - intros s' Is. assert (Is' : In s' (flat_map (fun d : dated => map snd (snd d)) fsl)) by (rewrite Fl; exact Is).
      apply in_flat_map in Is' as (x & X1 & X2). unfold fsl in X1. apply in_map_iff in X1 as (d & <- & D1). cbn [snd] in X2. rewrite map_map in X2. apply in_map_iff in X2 as (p & <- & P1). now apply Mf.
    - split; [|reflexivity]. intros x y Hx Iy. assert (Rp : forall z, In z fsl -> map fst (snd z) = reps_of F). { intros z Iz. unfold fsl in Iz. apply in_map_iff in Iz as (d & <- & _). cbn [snd]. rewrite map_map. cbn [fst]. apply map_id. } rewrite (Rp y Iy), (Rp x); [apply reps_eqb_refl|]. destruct fsl; [discriminate|]. cbn in Hx. injection Hx as <-. now left. }
  destruct Ms as (c0 & -> & Sc0 & Fc0). cbn [bind rebadged].
  assert (Mr : forall d, In d ds -> filter (fun r => (r_time r =? d)%Z) M = map (truth_row_of (snd m) d) (X F1 d p0)) by (intros d I'; exact (M_rows g F F1 (snd m) T1 Dg Cg Dt1 Ct D3t Z3 d p0 l0 (Td d I') Er (Agree d p0 I'))).
  assert (Tf : forall d r, In r (map (truth_row_of (snd m) d) (X F1 d p0)) -> full st r) by (intros d r I'; apply in_map_iff in I' as (x & <- & X1); exact (Xf d p0 x X1)).
  assert (Sp : forall d, In d ds -> spots (map (truth_row_of (snd m) d) (X F1 d p0)) = [(0, spot_of (map (truth_row_of (snd m) d) (X F1 d p0)))]).
  { intros d I'. pose proof (X_nonempty g F F1 Dg Cg d p0 (Td d I') P0) as N. set (R := map _ (X F1 d p0)). assert (RR : forall r, In r R -> r_rep r = 0) by (intros r Ir; unfold R in Ir; apply in_map_iff in Ir as (x & <- & _); reflexivity). assert (NR : R <> []) by (unfold R; destruct (X F1 d p0); [congruence|discriminate]). clearbody R. unfold spots.
    assert (Eu : unique Qeq_bool (map r_rep R) = [0]) by (apply unique_const; [reflexivity|destruct R; [congruence|discriminate]|intros x Ix; apply in_map_iff in Ix as (y & <- & Y); now apply RR]).
    rewrite Eu. change (qsort [0]) with [0]. cbn [map]. do 3 f_equal. apply filter_all. intros r Ir. now rewrite (RR r Ir). }
  set (T := fun d => map (truth_row_of (snd m) d) (X F1 d p0)).
  assert (St : slices true dates M = Ok (map (fun d => (d, bounds_at d (T d), [(0, spot_of (T d))])) ds)).
  { apply (proj2 (mapM_check (fun d => checked true (filter (fun r => (r_time r =? d)%Z) M)) (fun d => (d, bounds_at d (filter (fun r => (r_time r =? d)%Z) M), spots (filter (fun r => (r_time r =? d)%Z) M))) ValueError (filter (has_time M) dates) _)). rewrite Edm. split; [|intros d I'; rewrite (Mr d I'); apply Hck, Tf]. apply map_ext_in. intros d I'. rewrite (Mr d I'), (Sp d I'). reflexivity. }
  rewrite St. cbn [bind]. set (tsl := map _ ds).
  assert (Es : forall d, sp_sites (spot_of (T d)) = sp_sites (spot_of (X F1 d p0))) by (intro d; unfold T; cbn [spot_of sp_sites]; rewrite map_map; reflexivity).
  assert (En : forall d, sp_name (spot_of (T d)) = sp_name (spot_of (X F1 d p0)) /\ sp_units (spot_of (T d)) = sp_units (spot_of (X F1 d p0))) by (intro d; unfold T; cbn [spot_of sp_name sp_units]; destruct (X F1 d p0); split; reflexivity).
  assert (Mt : exists c1, merge tsl = Ok (Some c1) /\ c_sites c1 = sp_sites (spot_of (X F1 d0 p0)) /\ map fst (c_fields c1) = map fst tsl).
  { assert (Fl : flat_map (fun d : dated => map snd (snd d)) tsl = (spot_of (T d0)) :: tl (flat_map (fun d : dated => map snd (snd d)) tsl)) by (unfold tsl; rewrite Eds0; cbn [map flat_map snd app]; reflexivity).
    exists {| c_sites := sp_sites (spot_of (T d0)); c_fields := map (fun e => (fst e, map (fun p => (fst p, sp_values (snd p))) (snd e))) tsl |}. split; [|split; [cbn [c_sites]; try apply Es; reflexivity|cbn [c_fields]; rewrite map_map; reflexivity]]. apply (proj2 (merge_some tsl _)). exists (spot_of (T d0)), (tl (flat_map (fun d : dated => map snd (snd d)) tsl)). split; [exact Fl|]. split; [unfold tsl; rewrite Eds0; discriminate|]. split.
    - intros s' Is. assert (Is' : In s' (flat_map (fun d : dated => map snd (snd d)) tsl)) by (rewrite Fl; exact Is).
      apply in_flat_map in Is' as (x & X1 & X2). unfold tsl in X1. apply in_map_iff in X1 as (d & <- & D1). cbn [snd map] in X2. destruct X2 as [<-|[]]. pose proof (Mf d p0 D1 P0) as Q. unfold mergeable in *. destruct (En d0) as [-> ->], (En d) as [-> ->]. now rewrite !Es.
    - split; [|reflexivity]. intros x y Hx Iy. assert (Rp : forall z, In z tsl -> map fst (snd z) = [0]) by (intros z Iz; unfold tsl in Iz; apply in_map_iff in Iz as (d & <- & _); reflexivity). rewrite (Rp y Iy), (Rp x); [reflexivity|]. destruct tsl; [discriminate|]. cbn in Hx. injection Hx as <-. now left. }
  destruct Mt as (c1 & -> & Sc1 & Fc1). cbn [bind]. exists (Some c0), (Some c1). split; [reflexivity|].
  assert (Pl : forall c, c_sites c = sp_sites (spot_of (X F1 d0 p0)) -> placed at_site c). { intros c E s p I'. rewrite E, (Ps d0 p0 I0 P0) in I'. apply in_map_iff in I' as (s' & E' & _). apply pair_equal_spec in E' as [<- <-]. reflexivity. }
  assert (Bs : forall d l, (forall r, In r l -> full st r) -> l <> [] -> bounds_at d l = match period_of with Some p => Some (d - p, d)%Z | None => None end). { intros d l A N. destruct l as [|r l]; [congruence|]. cbn [bounds_at]. rewrite (A r) by now left. unfold st, described. cbn [st_period]. destruct period_of; reflexivity. }
  assert (Op : forall c (l : list dated), map fst (c_fields c) = map fst l -> (forall d b vs, In (d, b, vs) l -> b = match period_of with Some p => Some (d - p, d)%Z | None => None end) -> over_period period_of c).
  { intros c l E A d b vs I'. assert (I2 : In (d, b) (map fst l)) by (rewrite <- E; apply in_map_iff; exists (d, b, vs); auto). apply in_map_iff in I2 as ([[d' b'] vs'] & E2 & I2). cbn [fst] in E2. injection E2 as -> ->. exact (A _ _ _ I2). }
  intros c [C|C]; injection C as <-; (split; [now apply Pl|]).
  - apply (Op c0 fsl Fc0). intros d b vs I'. unfold fsl in I'. apply in_map_iff in I' as (d' & E & I'). injection E as -> <- _. unfold bounds. apply Bs; [apply Rf|]. pose proof (X_nonempty g F F1 Dg Cg d p0 (Td d I') P0) as N. intro E. apply N. unfold X. unfold rows_at in E. clear -E. destruct (filter (at_date d p0) (isort row_leb F1)) as [|r l] eqn:Z0; [reflexivity|]. exfalso. assert (I' : In r (filter (at_date d p0) (isort row_leb F1))) by (rewrite Z0; now left). apply filter_In in I' as [I1 I2]. assert (I3 : In r []); [|destruct I3]. rewrite <- E. apply filter_In. split; [exact I1|]. unfold at_date in I2. lia.
  - apply (Op c1 tsl Fc1). intros d b vs I'. unfold tsl in I'. apply in_map_iff in I' as (d' & E & I'). injection E as -> <- _. apply Bs; [apply Tf|]. pose proof (X_nonempty g F F1 Dg Cg d p0 (Td d I') P0) as N. unfold T. destruct (X F1 d p0); [congruence|discriminate].
Qed.

(** ** Sites that move *)
(** The correction of static columns: if a latitude, longitude or altitude changes at one site and stays the same at another, every site ends up at one place, and rows otherwise keep what they had. *)
Theorem C101_one_place l col r1 r2 a b s c : In col [st_lat; st_lon; st_alt] ->
  In r1 l -> In r2 l -> r_wmo r1 = r_wmo r2 -> col (r_statics r1) = Some a -> col (r_statics r2) = Some b -> ~ a == b ->
  (exists r, In r l /\ r_wmo r = s) -> (forall r, In r l -> r_wmo r = s -> exists x, col (r_statics r) = Some x /\ x == c) ->
  (forall r r', In r (consistent l) -> In r' (consistent l) -> r_wmo r = r_wmo r' -> place_of r = place_of r') /\ map core (consistent l) = map core l.
Proof.
  intros Ic I1 I2 Ew Ea Eb Nab (r0 & I0 & E0) Hs. split; [|apply core_consistent]. assert (Ne : forall x y : nat, equiv Nat.eqb) by (intros _ _; split; [apply Nat.eqb_refl|intros x y; rewrite Nat.eqb_sym; auto|intros x y z; rewrite !Nat.eqb_eq; congruence]).
  set (val s := present (map (fun r => col (r_statics r)) (of_site s l))).
  assert (Vin : forall r x, In r l -> col (r_statics r) = Some x -> In x (val (r_wmo r))). { intros r x I' E. unfold val, present. apply in_flat_map. exists (Some x). split; [|now left]. apply in_map_iff. exists r. split; [exact E|]. apply filter_In. split; [exact I'|apply String.eqb_refl]. }
  assert (Vout : forall s x, In x (val s) -> exists r, In r l /\ r_wmo r = s /\ col (r_statics r) = Some x). { intros s' x I'. unfold val, present in I'. apply in_flat_map in I' as (o & I3 & I4). apply in_map_iff in I3 as (r & <- & I3). apply filter_In in I3 as [I3 I5]. apply String.eqb_eq in I5. exists r. destruct (col (r_statics r)) as [y|]; [|destruct I4]. destruct I4 as [->|[]]. auto. }
  assert (D : counts_differ col l = true).
  { unfold counts_differ. apply Nat.ltb_lt. destruct (Nat.lt_ge_cases 1 (length (unique Nat.eqb (counts col l)))) as [L|L]; [exact L|exfalso]. apply Nat.leb_le in L. change (one_value Nat.eqb (counts col l) = true) in L. apply (proj1 (one_value_all _ _ (Ne 0%nat 0%nat))) with (x := length (unique Qeq_bool (val (r_wmo r1)))) (y := length (unique Qeq_bool (val s))) in L.
    - apply Nat.eqb_eq in L. assert (O : one_value Qeq_bool (val s) = true). { apply (one_value_all _ _ equiv_Q). intros x y X1 Y1. apply Vout in X1 as (p & P1 & P2 & P3), Y1 as (q & Q1 & Q2 & Q3). destruct (Hs p P1 P2) as (x' & X2 & X3), (Hs q Q1 Q2) as (y' & Y2 & Y3). rewrite P3 in X2. injection X2 as <-. rewrite Q3 in Y2. injection Y2 as <-. apply Qeq_bool_iff. now rewrite X3, Y3. }
      unfold one_value in O. rewrite <- L in O. change (one_value Qeq_bool (val (r_wmo r1)) = true) in O. apply Nab. apply Qeq_bool_iff. apply (proj1 (one_value_all _ _ equiv_Q) O); [now apply Vin|]. rewrite Ew. now apply Vin.
    - unfold counts. apply in_map_iff. exists (r_wmo r1). split; [reflexivity|]. apply unique_iff; [apply String.eqb_eq|]. now apply in_map.
    - unfold counts. apply in_map_iff. exists s. split; [reflexivity|]. apply unique_iff; [apply String.eqb_eq|]. rewrite <- E0. now apply in_map. }
  assert (T : counts_differ st_alt l || counts_differ st_lat l || counts_differ st_lon l = true). { destruct Ic as [<-|[<-|[<-|[]]]]; rewrite D; rewrite ?orb_true_r; reflexivity. }
  unfold consistent. rewrite T. intros r r' R1 R2 E. apply in_map_iff in R1 as (p & <- & _), R2 as (q & <- & _). cbn [with_statics r_wmo] in E. cbn [place_of r_statics with_statics st_lat st_lon st_alt]. now rewrite E.
Qed.

Definition sample (s : string) (t : Z) (p v : Q) (alt : option Q) : forecast_row :=
  {| fr_experiment := "e"; fr_period := 21600; fr_row := {| r_wmo := s; r_time := t; r_rep := p; r_value := Some v;
     r_statics := {| st_lat := Some 50; st_lon := Some 0; st_alt := alt; st_diag := Some "temperature"%string; st_period := None; st_height := None; st_name := Some "air_temperature"%string; st_units := Some "K"%string |} |} |}.
Definition seen (s : string) (t : Z) (v : Q) : truth_row := {| tr_wmo := s; tr_time := t; tr_value := Some v; tr_diag := Some "temperature"%string; tr_lat := Some 50; tr_lon := Some 0; tr_alt := Some 10 |}.
(** The dates of cycle 864000 (day 10) and period 6 hours: days 7, 8 and 9 at 06:00. *)
Definition d1 : Z := 626400. Definition d2 : Z := 712800. Definition d3 : Z := 799200.
Definition made rp percentiles fs ts := to_cubes rp 864000 21600 3 percentiles None fs ts.
Definition altitudes (r : result (option cube * option cube)) : option (list (string * option Q)) := match r with Ok (Some c, _) => Some (map (fun x => (fst x, snd (snd x))) (c_sites c)) | _ => None end.
Definition corrected (s : string) (a b c : option Q) : list forecast_row := [sample s d1 0 1 a; sample s d2 0 1 b; sample s d3 0 1 c].
Definition truths_of (s : string) : list truth_row := [seen s d1 2; seen s d2 2; seen s d3 2].
(** "Ensure that the columns expected to have the same value for a given site actually have the same values": not when all sites change alike, as when there is one site. *)
Theorem C101_moved_refuted : made Realizations [] (corrected "a" (Some 10) (Some 12) (Some 12)) (truths_of "a") = Err MergeError /\
  altitudes (made Realizations [] (corrected "a" (Some 10) (Some 12) (Some 12) ++ corrected "b" (Some 7) (Some 7) (Some 7)) (truths_of "a" ++ truths_of "b")) = Some [("a"%string, Some 12); ("b"%string, Some 7)].
Proof. split; vm_compute; reflexivity. Qed.
(** "The most recent value": not when an earlier value comes back. *)
Theorem C101_recent_refuted : altitudes (made Realizations [] (corrected "a" (Some 10) (Some 12) (Some 10) ++ corrected "b" (Some 7) (Some 7) (Some 7)) (truths_of "a" ++ truths_of "b")) = Some [("a"%string, Some 12); ("b"%string, Some 7)].
Proof. vm_compute. reflexivity. Qed.
(** "Fill the NaNs within the static columns for each wmo_id": a site without an altitude gets the next site's. *)
Theorem C101_borrowed_refuted : altitudes (made Realizations [] (corrected "a" None None None ++ corrected "b" (Some 7) (Some 7) (Some 7)) (truths_of "a" ++ truths_of "b")) = Some [("a"%string, Some 7); ("b"%string, Some 7)].
Proof. vm_compute. reflexivity. Qed.
(** The order of the rows matters: percentiles that do not first appear in ascending order are refused. *)
Theorem C101_ascending_refuted : exists fs fs' ts, Permutation fs fs' /\ about fs ts "temperature" /\ once fs /\ made Percentiles [] fs ts = Err ValueError /\ exists c, made Percentiles [] fs' ts = Ok c.
Proof.
  exists [sample "a" d1 50 1 (Some 10); sample "a" d1 75 2 (Some 10); sample "a" d1 25 0 (Some 10)], [sample "a" d1 25 0 (Some 10); sample "a" d1 50 1 (Some 10); sample "a" d1 75 2 (Some 10)], [seen "a" d1 2].
  split; [|split; [|split; [|split]]].
  - apply Permutation_sym, Permutation_cons_append.
  - split; repeat constructor.
  - intros r r' [<-|[<-|[<-|[]]]] [<-|[<-|[<-|[]]]] _ _ E _; try reflexivity; cbn in E; discriminate E.
  - vm_compute. reflexivity.
  - eexists. vm_compute. reflexivity.
Qed.
(** Two sites, three percentiles; a site without a truth and a date without a forecast are left out; one forecast missing and one given twice. *)
Example C101_case : exists fs ts fc tc, about fs ts "temperature" /\ made Percentiles [25; 50; 75] fs ts = Ok (Some fc, Some tc) /\
  map fst (c_sites fc) = ["a"; "b"]%string /\
  c_fields fc = [(d1, None, [(0, [Some 1; None]); (1, [Some 2; Some 5]); (2, [Some 9; Some 6])]); (d3, None, [(0, [Some 4; Some 4]); (1, [Some 5; Some 5]); (2, [Some 6; Some 6])])] /\
  c_fields tc = [(d1, None, [(0, [Some 3; Some 3])]); (d3, None, [(0, [Some 4; None])])].
Proof.
  exists [sample "a" d1 25 1 (Some 10); sample "a" d1 50 2 (Some 10); sample "a" d1 75 3 (Some 10); sample "b" d1 75 6 (Some 7); sample "b" d1 50 5 (Some 7); sample "a" d1 75 9 (Some 10); sample "c" d1 50 1 (Some 10);
          sample "a" d3 25 4 (Some 10); sample "a" d3 50 5 (Some 10); sample "a" d3 75 6 (Some 10); sample "b" d3 25 4 (Some 7); sample "b" d3 50 5 (Some 7); sample "b" d3 75 6 (Some 7)],
         [seen "a" d1 3; seen "b" d1 3; seen "a" d2 3; seen "a" d3 4].
  eexists. eexists. split; [split; repeat constructor|]. split; [vm_compute; reflexivity|]. repeat split.
Qed.
Example C101_total_case : let fs := corrected "b" (Some 7) (Some 7) (Some 7) ++ corrected "a" (Some 7) (Some 7) (Some 7) in let ts := truths_of "a" ++ truths_of "b" in
  about fs ts "temperature" /\ steady fs "temperature" "air_temperature" "K" None None (fun _ => (50, 0, 7)) /\ once fs /\ once_true ts /\
  altitudes (made Realizations [] fs ts) = Some [("a"%string, Some 7); ("b"%string, Some 7)].
Proof.
  cbv zeta. split; [split; repeat constructor|]. split; [|split; [|split]].
  - intros r I'. cbn in I'. repeat destruct I' as [<-|I']; try reflexivity. destruct I'.
  - intros r r' I1 I2 E1 E2 _ _. cbn in I1, I2. repeat (destruct I1 as [<-|I1]); try destruct I1; repeat (destruct I2 as [<-|I2]); try destruct I2; try reflexivity; cbn in E1, E2; discriminate.
  - intros r r' I1 I2 E1 E2. cbn in I1, I2. repeat (destruct I1 as [<-|I1]); try destruct I1; repeat (destruct I2 as [<-|I2]); try destruct I2; try reflexivity; cbn in E1, E2; discriminate.
  - vm_compute. reflexivity.
Qed.

Print Assumptions C101_dates.
Print Assumptions C101_dates_refuted.
Print Assumptions C101_values.
Print Assumptions C101_nothing.
Print Assumptions C101_order.
Print Assumptions C101_total.
Print Assumptions C101_one_place.
Print Assumptions C101_moved_refuted.
Print Assumptions C101_recent_refuted.
Print Assumptions C101_borrowed_refuted.
Print Assumptions C101_ascending_refuted.
