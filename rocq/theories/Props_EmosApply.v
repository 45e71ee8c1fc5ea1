(** C71 (checks and mask), C72. *)
From Verif Require Import Base Model_Percentiles Model_Integration Model_Bias Spec_Bias Model_Dist Model_Reordering Model_Emos Spec_Threshold Spec_Dist Spec_DistCase Spec_Emos Proofs_Temporal Proofs_Integration Proofs_Bias Props_Bias Proofs_Percentiles Proofs_Reordering Props_Dist Proofs_Emos Props_Emos Props_Reordering.
Local Open Scope Q_scope.

Lemma extent_covers a : proper_axis a -> covers a (extent a).
Proof.
  intro P. unfold covers, extent. set (items := match ax_bounds a with [] => _ | _ => flat_map _ _ end). set (items' := match ax_bounds a with [] => _ | _ => _ ++ _ end).
  assert (Same : forall x, In x items <-> In x items').
  { intro x. unfold items, items'. destruct (ax_bounds a) as [|b bs]; [reflexivity|]. rewrite in_flat_map, in_app_iff, !in_map_iff. split.
    - intros (c & Ic & [<-|[<-|[]]]); eauto.
    - intros [(c & <- & Ic)|(c & <- & Ic)]; exists c; cbn; auto. }
  assert (Ne : items <> []) by (unfold items; destruct (ax_bounds a); [exact P|discriminate]). clearbody items items'. destruct items as [|y r]; [congruence|]. cbn [fst snd]. split; [|split].
  - destruct (qminl_in y r) as (x & Ix & E). exists x. split; [now apply Same|now symmetry].
  - destruct (qmaxl_in y r) as (x & Ix & E). exists x. split; [now apply Same|now symmetry].
  - intros x Ix. apply Same in Ix. split; [now apply qminl_le|now apply qmaxl_ge].
Qed.
Lemma covers_unique a e f : covers a e -> covers a f -> fst e == fst f /\ snd e == snd f.
Proof.
  intros ((x & Ix & Ex) & (y & Iy & Ey) & B) ((x' & Ix' & Ex') & (y' & Iy' & Ey') & B'). assert (X1 := B _ Ix'). assert (X2 := B _ Iy'). assert (X3 := B' _ Ix). assert (X4 := B' _ Iy). split; lra.
Qed.
Lemma covers_eq a e f : fst e == fst f -> snd e == snd f -> covers a e -> covers a f.
Proof. intros E1 E2 ((x & Ix & Ex) & (y & Iy & Ey) & B). split; [exists x; split; [exact Ix|lra]|]. split; [exists y; split; [exact Iy|lra]|]. intros z Iz. assert (X := B _ Iz). lra. Qed.
(** C71: comparing the middle, and the two ends together, is enough: an axis is accepted exactly if it covers the same interval. *)
Theorem C71_domain a b : proper_axis a -> proper_axis b -> (axis_differs a b = false <-> exists e, covers a e /\ covers b e).
Proof.
  intros Pa Pb. assert (Ca := extent_covers a Pa). assert (Cb := extent_covers b Pb). unfold axis_differs. cbv zeta. set (e := extent a) in *. set (f := extent b) in *. clearbody e f. unfold middle. split.
  - intro H. apply Bool.orb_false_iff in H as [H1 H2]. apply Bool.negb_false_iff, Qeqb_eq in H1. assert (H1' : fst e + snd e == fst f + snd f) by (assert (E : (fst e + snd e) / 2 * 2 == (fst f + snd f) / 2 * 2) by (rewrite H1; reflexivity); field_simplify in E; lra).
    apply Bool.andb_false_iff in H2 as [H2|H2]; apply Bool.negb_false_iff, Qeqb_eq in H2; exists e; (split; [exact Ca|]); apply (covers_eq b f e); auto; lra.
  - intros (g & Ga & Gb). destruct (covers_unique a _ _ Ca Ga) as [A1 A2]. destruct (covers_unique b _ _ Cb Gb) as [B1 B2]. apply Bool.orb_false_iff. split.
    + apply Bool.negb_false_iff, Qeqb_eq. rewrite A1, A2, B1, B2. reflexivity.
    + apply Bool.andb_false_iff. left. apply Bool.negb_false_iff, Qeqb_eq. lra.
Qed.
Lemma all_ok_iff {A} (f : A -> result unit) l : all_ok f l = Ok tt <-> forall x, In x l -> f x = Ok tt.
Proof.
  unfold all_ok. induction l as [|a l IH]; [split; [intros _ x []|reflexivity]|]. cbn [mapM]. destruct (f a) as [[]|e] eqn:E; cbn [bind].
  - split.
    + intros H x [<-|Ix]; [exact E|]. apply IH; [|exact Ix]. destruct (mapM f l); [reflexivity|discriminate].
    + intro H. assert (X := proj2 IH (fun x Ix => H x (or_intror Ix))). destruct (mapM f l); [reflexivity|discriminate].
  - split; [discriminate|]. intro H. rewrite (H a (or_introl eq_refl)) in E. discriminate.
Qed.
Lemma unit_bind (a : result unit) (b : result unit) : (let* _ := a in b) = Ok tt <-> a = Ok tt /\ b = Ok tt.
Proof. destruct a as [[]|]; cbn; split; intro H; try discriminate; auto; destruct H; congruence. Qed.
(** C71: coefficients are accepted exactly if all of them are for the diagnostic, for the forecast period (rounded up to hours) and the hours of the reference times of the forecast unless that is waived, and, on a grid, for the same domain. *)
Theorem C71_compatible tolerate f cs : proper_axis (fc_x f) -> proper_axis (fc_y f) -> (forall c, In c cs -> proper_axis (cm_x c) /\ proper_axis (cm_y c)) ->
  (check_compatible tolerate f cs = Ok tt <-> forall c, In c cs -> fc_name f = cm_diagnostic c /\
     (tolerate = true \/ ((exists h, rounded_up (cm_period c) h /\ rounded_up (fc_period f) h) /\ forall h, (exists t, In t (cm_frts c) /\ at_hour t h) <-> exists t, In t (fc_frts f) /\ at_hour t h)) /\
     (fc_sites f <> None \/ ((exists e, covers (fc_x f) e /\ covers (cm_x c) e) /\ (exists e, covers (fc_y f) e /\ covers (cm_y c) e)))).
Proof.
  intros Px Py Pc. unfold check_compatible. rewrite !unit_bind. rewrite all_ok_iff.
  assert (T : (if tolerate then Ok tt else all_ok (fun c => forecast_coords_match (cm_period c) (fc_period f) (cm_frts c) (fc_frts f)) cs) = Ok tt <-> forall c, In c cs -> tolerate = true \/ ((exists h, rounded_up (cm_period c) h /\ rounded_up (fc_period f) h) /\ forall h, (exists t, In t (cm_frts c) /\ at_hour t h) <-> exists t, In t (fc_frts f) /\ at_hour t h)).
  { destruct tolerate; [split; auto|]. rewrite all_ok_iff. split; intros H c Ic.
    - right. apply C66_match. auto.
    - destruct (H c Ic) as [C|C]; [discriminate|]. now apply C66_match. }
  rewrite T. assert (D : match fc_sites f with Some _ => Ok tt | None => let* _ := all_ok (fun c => if axis_differs (fc_x f) (cm_x c) then Err ValueError else Ok tt) cs in all_ok (fun c => if axis_differs (fc_y f) (cm_y c) then Err ValueError else Ok tt) cs end = Ok tt <->
     forall c, In c cs -> fc_sites f <> None \/ ((exists e, covers (fc_x f) e /\ covers (cm_x c) e) /\ (exists e, covers (fc_y f) e /\ covers (cm_y c) e))).
  { destruct (fc_sites f); [split; [intros; left; discriminate|reflexivity]|]. rewrite unit_bind, !all_ok_iff. split.
    - intros [A B] c Ic. right. destruct (Pc c Ic) as [P1 P2]. specialize (A c Ic). specialize (B c Ic). destruct (axis_differs (fc_x f) (cm_x c)) eqn:E1; [discriminate|]. destruct (axis_differs (fc_y f) (cm_y c)) eqn:E2; [discriminate|]. split; [now apply C71_domain|now apply C71_domain].
    - intro H. split; intros c Ic; destruct (Pc c Ic) as [P1 P2]; destruct (H c Ic) as [C|[A B]]; try congruence; [apply (C71_domain _ _ Px P1) in A; now rewrite A|apply (C71_domain _ _ Py P2) in B; now rewrite B]. }
  rewrite D. split.
  - intros (A & B & C) c Ic. split; [|split; auto]. specialize (A c Ic). destruct (String.eqb_spec (fc_name f) (cm_diagnostic c)); [assumption|discriminate].
  - intro H. split; [|split]; intros c Ic; destruct (H c Ic) as (A & B & C); auto. rewrite A, String.eqb_refl. reflexivity.
Qed.
Lemma location_len n name rows additional co loc : match co_beta co with MeanBetas l => location_from_mean n name rows additional (co_alpha co) l | MemberBetas b => location_from_realizations n rows (co_alpha co) b end = Ok loc -> length loc = n.
Proof.
  destruct (co_beta co) as [l|b]; intro H; [now apply location_mean_inv in H as (_ & _ & _ & L & _)|]. unfold location_from_realizations in H. destruct (beta_rows b) as [br|]; [|discriminate]. cbn [bind] in H. repeat match type of H with (if ?c then _ else _) = _ => destruct c; [discriminate|] end. apply Ok_inj in H. subst. now rewrite map_length, seq_length.
Qed.
Lemma scale_len root n rows g d sc : scale_parameter root n rows g d = Ok sc -> length sc = n.
Proof. unfold scale_parameter. destruct (_ && _)%bool; [|discriminate]. intro H. apply Ok_inj in H. subst. now rewrite map_length, seq_length. Qed.
Lemma land_only_at land f i : (i < length f)%nat -> at_i (land_only land f) i = match land with Some l => if nth i l true then to_dval (nth i f None) else Masked | None => to_dval (nth i f None) end.
Proof. intro H. unfold at_i, land_only. rewrite (nth_map_seq _ (length f) i NotANumber H). unfold to_dval. destruct land; reflexivity. Qed.
Lemma land_only_len land f : length (land_only land f) = length f. Proof. unfold land_only. now rewrite map_length, seq_length. Qed.
Lemma parameters_inv root tolerate land f co additional loc sc : parameters root tolerate land f co additional = Ok (loc, sc) ->
  exists l0 s0, length l0 = points_of (fc_rows f) /\ length s0 = points_of (fc_rows f) /\ loc = land_only land l0 /\ sc = land_only land s0 /\ match land with Some m => length m = points_of (fc_rows f) | None => True end /\
    check_compatible tolerate f (co_meta co) = Ok tt /\
    match co_beta co with MeanBetas l => location_from_mean (points_of (fc_rows f)) (fc_name f) (fc_rows f) additional (co_alpha co) l | MemberBetas b => location_from_realizations (points_of (fc_rows f)) (fc_rows f) (co_alpha co) b end = Ok l0 /\
    scale_parameter root (points_of (fc_rows f)) (fc_rows f) (co_gamma co) (co_delta co) = Ok s0.
Proof.
  intro H. unfold parameters in H. cbv zeta in H. destruct (check_compatible tolerate f (co_meta co)) as [[]|]; [|discriminate]. cbn [bind] in H. destruct (match co_beta co with MeanBetas l => _ | MemberBetas b => _ end) as [l0|] eqn:L; [|discriminate]. cbn [bind] in H.
  destruct (scale_parameter root _ _ _ _) as [s0|] eqn:S0; [|discriminate]. cbn [bind] in H. exists l0, s0. split; [now apply location_len in L|]. split; [now apply scale_len in S0|].
  destruct land as [m|].
  - destruct (length m =? points_of (fc_rows f))%nat eqn:E; [|discriminate]. apply Nat.eqb_eq in E. apply Ok_inj in H. split; [apply (f_equal fst) in H; cbn in H; congruence|]. split; [apply (f_equal snd) in H; cbn in H; congruence|]. auto.
  - apply Ok_inj in H. split; [apply (f_equal fst) in H; cbn in H; congruence|]. split; [apply (f_equal snd) in H; cbn in H; congruence|]. auto.
Qed.
(** C71: with a land-sea mask the parameters are masked exactly at sea, and on land those found without it. *)
Theorem C71_mask root tolerate land f co additional loc sc : parameters root tolerate (Some land) f co additional = Ok (loc, sc) ->
  exists loc0 sc0, parameters root tolerate None f co additional = Ok (loc0, sc0) /\ forall i, (i < points_of (fc_rows f))%nat -> at_i loc0 i <> Masked /\ at_i sc0 i <> Masked /\
    if nth i land true then at_i loc i = at_i loc0 i /\ at_i sc i = at_i sc0 i else at_i loc i = Masked /\ at_i sc i = Masked.
Proof.
  intro H. destruct (parameters_inv _ _ _ _ _ _ _ _ H) as (l0 & s0 & Ll & Ls & -> & -> & _ & C & L & S0). exists (land_only None l0), (land_only None s0). split.
  - unfold parameters. cbv zeta. rewrite C. cbn [bind]. rewrite L. cbn [bind]. rewrite S0. reflexivity.
  - intros i Hi. rewrite !land_only_at by lia. split; [destruct (nth i l0 None); discriminate|]. split; [destruct (nth i s0 None); discriminate|]. destruct (nth i land true); auto.
Qed.

(** * C72 *)
(** C72: an attribute is usable if all coefficients have it and agree, or, where it is optional, none has it. *)
Theorem C72_attribute optional vs r : get_attribute optional vs = Ok r <-> match r with Some s => vs <> [] /\ forall v, In v vs -> v = Some s | None => optional = true /\ forall v, In v vs -> v = None end.
Proof.
  unfold get_attribute. cbv zeta. set (pr := flat_map _ vs). assert (Ip : forall s, In s pr <-> In (Some s) vs) by (intro s; unfold pr; rewrite in_flat_map; split; [intros ([x|] & A & B); [destruct B as [B|[]]; now subst|destruct B]|intro A; exists (Some s); split; [exact A|now left]]).
  assert (Lp : (length pr <= length vs)%nat /\ (length pr = length vs -> forall v, In v vs -> v <> None)).
  { unfold pr. clear. induction vs as [|[s|] vs [I1 I2]]; cbn [flat_map app length]; split; try lia.
    - intros _ v [].
    - intros H v [<-|Iv]; [discriminate|]. apply I2; [lia|exact Iv]. }
  destruct pr as [|s rest] eqn:E.
  - assert (N : forall v, In v vs -> v = None) by (intros [s|] Iv; [apply Ip in Iv; destruct Iv|reflexivity]). destruct optional; split; intro H; try discriminate.
    + apply Ok_inj in H. subst r. auto.
    + destruct r as [s|]; [|reflexivity]. destruct H as [H1 H2]. destruct vs as [|v vs]; [congruence|]. specialize (H2 v (or_introl eq_refl)). specialize (N v (or_introl eq_refl)). congruence.
    + destruct r as [s|]; [|destruct H; discriminate]. destruct H as [H1 H2]. destruct vs as [|v vs]; [congruence|]. specialize (H2 v (or_introl eq_refl)). specialize (N v (or_introl eq_refl)). congruence.
  - assert (Is : In (Some s) vs) by (apply Ip; now left). destruct (forallb (String.eqb s) rest && (length (s :: rest) =? length vs)%nat)%bool eqn:F.
    + apply Bool.andb_true_iff in F as [F1 F2]. apply Nat.eqb_eq in F2. rewrite forallb_forall in F1. assert (All : forall v, In v vs -> v = Some s).
      { intros [t|] Iv; [|exfalso; now apply (proj2 Lp F2 None Iv)]. apply Ip in Iv as [<-|Iv]; [reflexivity|]. apply F1, String.eqb_eq in Iv. now subst. }
      split; intro H.
      * apply Ok_inj in H. subst r. split; [intro C; subst; destruct Is|exact All].
      * destruct r as [t|]; [destruct H as [_ H]; f_equal; now apply H|]. destruct H as [_ H]. specialize (H _ Is). discriminate.
    + split; intro H; [discriminate|]. exfalso. destruct r as [t|]; [|destruct H as [_ H]; specialize (H _ Is); discriminate]. destruct H as [_ H]. assert (t = s) by (specialize (H _ Is); congruence). subst t.
      assert (X : (forallb (String.eqb s) rest && (length (s :: rest) =? length vs)%nat)%bool = true); [|congruence]. apply Bool.andb_true_iff. split.
      * apply forallb_forall. intros t It. assert (Iv : In (Some t) vs) by (apply Ip; now right). apply H in Iv. injection Iv as ->. apply String.eqb_refl.
      * apply Nat.eqb_eq. rewrite <- E. unfold pr. clear - H. induction vs as [|v vs IH]; [reflexivity|]. rewrite (H v (or_introl eq_refl)). cbn. f_equal. apply IH. intros w Iw. apply H. now right.
Qed.
(** C72: at sites, additional fields must be for the same sites in the same order. *)
Theorem C72_sites fc additional : check_sites fc additional = Ok tt <-> forall s, fc = Some s -> forall a, In a additional -> a = s.
Proof.
  unfold check_sites. destruct fc as [s|]; [|split; [intros _ s C; discriminate|reflexivity]]. destruct (forallb _ additional) eqn:F.
  - rewrite forallb_forall in F. split; [intros _ s' E a Ia; injection E as <-; specialize (F a Ia); now destruct (list_eq_dec Z.eq_dec a s)|reflexivity].
  - split; [discriminate|]. intro H. exfalso. assert (X : forallb (fun a => if list_eq_dec Z.eq_dec a s then true else false) additional = true); [|congruence]. apply forallb_forall. intros a Ia. rewrite (H s eq_refl a Ia). now destruct (list_eq_dec Z.eq_dec s s).
Qed.
(** C72: probabilities and percentiles need the number of realizations to make. *)
Theorem C72_count t convert rows : t <> Realizations -> as_realizations t convert None rows = Err ValueError /\ as_realizations t convert (Some 0%nat) rows = Err ValueError /\ as_realizations Realizations convert None rows = Ok rows.
Proof. destruct t; intro H; repeat split; congruence. Qed.

(** ** The whole *)
Lemma percentile_row_lengths ppf d loc sc ps rows k : percentiles_of ppf d loc sc ps = Ok rows -> (k < length ps)%nat -> length (nth k rows []) = length loc.
Proof.
  intros H Hk. unfold percentiles_of in H. destruct (length loc =? length sc)%nat eqn:E; [|discriminate]. apply Nat.eqb_eq in E. cbn [negb] in H. destruct (mapM _ ps) as [rs|] eqn:M; [|discriminate]. cbn [bind] in H. apply Ok_inj in H. subst rows.
  assert (Hr := mapM_nth _ _ _ k 0 [] M Hk). assert (Hl := mapM_len _ _ _ M). rewrite (nth_map_lt _ rs k [] []) by lia. assert (E2 : length (map fill1 loc) = length (map fill1 sc)) by (rewrite !map_length; exact E). assert (Lr := percentile_row_len _ _ _ _ _ _ E2 Hr). rewrite map_length in Lr. unfold remask. rewrite map_length, !combine_length. lia.
Qed.
Lemma probability_row_lengths cdf d u above n ths loc sc rows k : to_probabilities cdf d u above n ths loc sc = Ok rows -> (k < length ths)%nat -> length (nth k rows []) = length loc.
Proof.
  intros H Hk. unfold to_probabilities in H. destruct u as [u|]; [|discriminate]. cbv zeta in H. rewrite !map_length in H. destruct (length loc =? length sc)%nat eqn:E; [|discriminate]. destruct (length loc =? n)%nat eqn:E2; [|discriminate]. apply Nat.eqb_eq in E, E2. cbn [negb orb] in H. apply Ok_inj in H. subst rows.
  rewrite (nth_map_lt _ ths k 0 []) by exact Hk. unfold remask. rewrite ?map_length, ?combine_length, ?map_length, ?combine_length, ?map_length. lia.
Qed.
Lemma merge_at cal raw k i : (k < length cal)%nat -> (k < length raw)%nat -> (i < length (nth k cal []))%nat -> (i < length (nth k raw []))%nat ->
  value (merge_rows cal raw) k i = match value cal k i with Masked => to_dval (nth i (nth k raw []) None) | v => v end.
Proof.
  intros A B C D. unfold value, merge_rows.
  assert (X : nth k (map (fun cr : list dval * row => map (fun vu : dval * option Q => merge_point (fst vu) (to_dval (snd vu)) 0) (combine (fst cr) (snd cr))) (combine cal raw)) [] = map (fun vu : dval * option Q => merge_point (fst vu) (to_dval (snd vu)) 0) (combine (nth k cal []) (nth k raw []))).
  { rewrite (nth_map_lt _ (combine cal raw) k ([], []) []) by (rewrite combine_length; lia).
    assert (N : nth k (combine cal raw) ([], []) = (nth k cal [], nth k raw [])) by (clear - A B; revert raw k A B; induction cal as [|c cal IH]; intros [|r raw] [|k] A B; cbn in *; try lia; auto; apply IH; lia). rewrite N. reflexivity. }
  rewrite X. set (c := nth k cal []) in *. set (r := nth k raw []) in *. clearbody c r. rewrite (nth_map_lt _ (combine c r) i (NotANumber, None) NotANumber) by (rewrite combine_length; lia).
  assert (N : nth i (combine c r) (NotANumber, None) = (nth i c NotANumber, nth i r None)) by (clear - C D; revert r i C D; induction c as [|x c IH]; intros [|y r] [|i] C D; cbn in *; try lia; auto; apply IH; lia). rewrite N. cbn [fst snd]. unfold merge_point, to_dval. destruct (nth i c NotANumber); [reflexivity|reflexivity|]. destruct (nth i r None); reflexivity.
Qed.
Definition columns randomise rnd (cal : list (list dval)) (raw : list row) (i : nat) := rank_point randomise (rnd i)
  {| ep_raw := map (fun r => match nth i r None with Some q => q | None => 0 end) raw; ep_cal := map (fun r => match nth i r NotANumber with Num q => q | _ => 0 end) cal; ep_mask := map (fun r => is_masked (nth i r NotANumber)) cal |}.
Lemma reorder_at randomise rnd cal raw out : reorder randomise rnd cal raw = Ok out -> length out = length cal /\ forall i, (i < points_of raw)%nat -> exists col, columns randomise rnd cal raw i = Ok col /\
  forall k, (k < length cal)%nat -> length (nth k out []) = points_of raw /\ value out k i = match nth k col None with Some q => Num q | None => Masked end.
Proof.
  intro H. unfold reorder in H. destruct (mapM _ _) as [cols|] eqn:M; [|discriminate]. cbn [bind] in H. apply Ok_inj in H. subst out. split; [now rewrite map_length, seq_length|]. intros i Hi. assert (Hl := mapM_len _ _ _ M). rewrite seq_length in Hl.
  assert (Hr := mapM_nth _ _ _ i 0%nat [] M). rewrite seq_length in Hr. specialize (Hr Hi). rewrite seq_nth in Hr by exact Hi. cbn [plus] in Hr. exists (nth i cols []). split; [exact Hr|]. intros k Hk. rewrite nth_map_seq by exact Hk. split; [now rewrite map_length|]. unfold value. rewrite nth_map_seq by exact Hk.
  rewrite (nth_map_lt _ cols i [] NotANumber) by lia. reflexivity.
Qed.
Section Apply.
  Variables (root : Q -> Q) (randomise : bool) (rnd : nat -> list Q) (ppf : quantile_fn) (cdf : cumulative_fn) (convert : nat -> list row -> result (list row)) (has_percentile : bool) (name : string) (count : option nat) (tolerate : bool) (f : forecast) (co : coefficients) (additional : list (string * row)) (sites : list (list Z)) (dist : distribution) (names shapes : list (option string)) (rq : request).
  Definition tin := input_type has_percentile name.
  Definition tout := match rq_template rq with Some _ => Probabilities | None => tin end.
  Definition with_rows rows := {| fc_name := fc_name f; fc_period := fc_period f; fc_frts := fc_frts f; fc_sites := fc_sites f; fc_x := fc_x f; fc_y := fc_y f; fc_rows := rows |}.
  Definition product loc sc : result (list (list dval)) :=
    match tout with
    | Probabilities => let '(above, u, ths) := match rq_template rq with Some t => t | None => rq_own_template rq end in to_probabilities cdf dist u above (points_of (fc_rows f)) ths loc sc
    | Percentiles => percentiles_of ppf dist loc sc (match rq_percentiles rq with Some (p :: ps) => p :: ps | _ => rq_own rq end)
    | Realizations => let* (_, cal) := to_percentiles ppf dist loc sc (Some (length (fc_rows f))) None in reorder randomise rnd cal (fc_rows f)
    end.
  (** The forecast has as many rows as percentiles or thresholds, all of one length. *)
  Definition well_shaped := Forall (fun r => length r = points_of (fc_rows f)) (fc_rows f) /\ match tin with Percentiles => length (rq_own rq) = length (fc_rows f) | Probabilities => length (snd (rq_own_template rq)) = length (fc_rows f) | Realizations => fc_rows f <> [] end.
  Definition keeps_points := forall k rows rows', convert k rows = Ok rows' -> points_of rows' = points_of rows.
  Notation apply := (fun land => apply_emos root randomise rnd ppf cdf convert has_percentile name count tolerate land f co additional sites dist names shapes rq).
  Lemma apply_inv land t out : apply land = Ok (t, out) ->
    exists rows loc sc raw, as_realizations tin convert count (fc_rows f) = Ok rows /\ parameters root tolerate land (with_rows rows) co additional = Ok (loc, sc) /\ t = tout /\ product loc sc = Ok raw /\
      (exists a, get_attribute false names = Ok a) /\ check_sites (fc_sites f) sites = Ok tt /\
      match land with None => out = raw | Some _ => tin = tout /\ out = merge_rows raw (fc_rows f) /\ (tout = Percentiles -> length (match rq_percentiles rq with Some (p :: ps) => p :: ps | _ => rq_own rq end) = length (rq_own rq)) /\ (tout = Probabilities -> length (snd (match rq_template rq with Some t => t | None => rq_own_template rq end)) = length (snd (rq_own_template rq))) end.
  Proof.
    intro H. unfold apply_emos in H. cbv zeta in H. fold tin in H. change (match rq_template rq with Some _ => Probabilities | None => tin end) with tout in H.
    destruct ((match land with Some _ => true | None => false end && negb (ftype_eqb tin tout))%bool) eqn:C; [discriminate|]. destruct (check_sites (fc_sites f) sites) as [[]|] eqn:Cs; [|discriminate]. cbn [bind] in H.
    destruct (as_realizations tin convert count (fc_rows f)) as [rows|] eqn:R; [|discriminate]. cbn [bind] in H. fold (with_rows rows) in H. destruct (parameters root tolerate land (with_rows rows) co additional) as [[loc sc]|] eqn:P; [|discriminate]. cbn [bind] in H.
    destruct (get_attribute false names) as [a|] eqn:G; [|discriminate]. cbn [bind] in H. destruct (get_attribute true shapes) as [sh|]; [|discriminate]. cbn [bind] in H.
    match type of H with bind ?m _ = _ => change m with (product loc sc) in H end. destruct (product loc sc) as [raw|] eqn:Pr; [|discriminate]. cbn [bind] in H.
    exists rows, loc, sc, raw. split; [reflexivity|]. split; [exact P|].
    destruct land as [m|].
    - match type of H with (if ?b then _ else _) = _ => destruct b eqn:D; [discriminate|] end. apply Ok_inj in H. apply Bool.negb_false_iff in D.
      assert (t = tout) by (apply (f_equal fst) in H; cbn in H; congruence). assert (out = merge_rows raw (fc_rows f)) by (apply (f_equal snd) in H; cbn in H; congruence). cbn [andb] in C. apply Bool.negb_false_iff in C.
      split; [assumption|]. split; [exact Pr|]. split; [eauto|]. split; [reflexivity|]. split; [destruct tin, tout; try discriminate; reflexivity|]. split; [assumption|]. split.
      + intro E. rewrite E in D. destruct (rq_percentiles rq) as [[|p ps]|]; auto. apply Bool.andb_true_iff in D as [D _]. now apply Nat.eqb_eq in D.
      + intro E. rewrite E in D. destruct (rq_template rq) as [[[ab u] ths]|]; [|reflexivity]. destruct (rq_own_template rq) as [[ab' u'] own]. cbn [snd]. assert (X : (Bool.eqb ab ab' && ((length ths =? length own)%nat && forallb (fun pq => fst pq =? snd pq) (combine ths own)))%bool = true) by (destruct (rq_percentiles rq) as [[|? ?]|]; exact D). apply Bool.andb_true_iff in X as [_ X]. apply Bool.andb_true_iff in X as [X _]. now apply Nat.eqb_eq in X.
    - apply Ok_inj in H. split; [apply (f_equal fst) in H; cbn in H; congruence|]. split; [exact Pr|]. split; [eauto|]. split; [reflexivity|]. apply (f_equal snd) in H; cbn in H; congruence.
  Qed.
End Apply.

Lemma rank_mask randomise rnd p col k : rank_point randomise rnd p = Ok col -> (k < length (ep_mask p))%nat -> length (ep_mask p) = length (ep_cal p) -> (nth k col None = None <-> nth k (ep_mask p) false = true).
Proof.
  intros H Hk Hl. unfold rank_point in H. cbv zeta in H. set (rk := if randomise then _ else _) in H. destruct (choose rk (ep_cal p)) as [o|] eqn:C; [|discriminate]. cbn [bind] in H. apply Ok_inj in H. subst col.
  assert (Lo : length o = length (ep_cal p)).
  { unfold choose in C. destruct (length rk =? length (ep_cal p))%nat eqn:E; [|discriminate]. apply Nat.eqb_eq in E. cbn [negb] in C. destruct rk; [discriminate|]. destruct (forallb _ _); [|discriminate]. apply Ok_inj in C. subst o. rewrite map_length. exact E. }
  rewrite (nth_map_combine _ (ep_mask p) o k false 0 None) by lia. cbn [fst snd]. destruct (nth k (ep_mask p) false); split; intro X; congruence.
Qed.
Section Product.
  Variables (randomise : bool) (rnd : nat -> list Q) (ppf : quantile_fn) (cdf : cumulative_fn) (has_percentile : bool) (name : string) (f : forecast) (dist : distribution) (rq : request).
  Notation prod := (product randomise rnd ppf cdf has_percentile name f dist rq).
  Notation the_tout := (tout has_percentile name rq).
  Definition expected_rows : nat := match the_tout with
    | Probabilities => length (snd (match rq_template rq with Some t => t | None => rq_own_template rq end))
    | Percentiles => length (match rq_percentiles rq with Some (p :: ps) => p :: ps | _ => rq_own rq end)
    | Realizations => length (fc_rows f) end.
  Lemma product_spec loc sc raw : prod loc sc = Ok raw -> (the_tout = Realizations -> fc_rows f <> []) -> length loc = points_of (fc_rows f) ->
    length raw = expected_rows /\ forall k i, (k < expected_rows)%nat -> (i < points_of (fc_rows f))%nat -> length (nth k raw []) = points_of (fc_rows f) /\ (value raw k i = Masked <-> at_i loc i = Masked \/ at_i sc i = Masked).
  Proof.
    intros H Ne Ll. unfold product in H. unfold expected_rows. destruct the_tout.
    - destruct (match rq_template rq with Some t => t | None => rq_own_template rq end) as [[above u] ths]. cbn [snd]. assert (X : length raw = length ths) by (destruct u as [[a b]|]; [|discriminate]; now apply probabilities_inv in H). split; [exact X|]. intros k i Hk Hi. split; [rewrite (probability_row_lengths _ _ _ _ _ _ _ _ _ _ H Hk); exact Ll|]. now apply (C70_probability_mask _ _ _ _ _ _ _ _ _ _ _ H).
    - set (ps := match rq_percentiles rq with Some (p :: ps) => _ | _ => _ end) in *. assert (X : length raw = length ps) by now apply percentiles_of_inv in H. split; [exact X|]. intros k i Hk Hi. split; [rewrite (percentile_row_lengths _ _ _ _ _ _ _ H Hk); exact Ll|]. apply (C70_mask _ _ _ _ _ _ _ _ H Hk). lia.
    - destruct (to_percentiles ppf dist loc sc _ None) as [[qs cal]|] eqn:T; [|discriminate]. cbn [bind] in H. specialize (Ne eq_refl). destruct (fc_rows f) as [|r0 rs] eqn:Er; [congruence|]. rewrite <- Er in *.
      assert (T' : length cal = length (fc_rows f) /\ percentiles_of ppf dist loc sc qs = Ok cal /\ length qs = length (fc_rows f)).
      { rewrite Er in T. unfold to_percentiles in T. cbn [length] in T. destruct (choose_set_of_percentiles (S (length rs)) Quantile) as [l|] eqn:C; [|discriminate]. cbn [bind] in T. destruct (percentiles_of ppf dist loc sc l) as [r|] eqn:P; [|discriminate]. cbn [bind] in T. apply Ok_inj in T. assert (qs = l) by (apply (f_equal fst) in T; cbn in T; congruence). assert (cal = r) by (apply (f_equal snd) in T; cbn in T; congruence). subst. destruct (choose_quantile _ _ C) as [Lq _]. apply percentiles_of_inv in P as X. destruct X as (_ & X & _). rewrite Er. cbn [length]. split; [lia|]. split; [exact P|exact Lq]. }
      destruct T' as (Lc & P & Lq). destruct (reorder_at _ _ _ _ _ H) as [Lo R]. split; [lia|]. intros k i Hk Hi. destruct (R i Hi) as (col & Hc & V). destruct (V k ltac:(lia)) as [V1 V2]. split; [exact V1|]. rewrite V2.
      assert (M := rank_mask _ _ _ _ k Hc). cbn [ep_mask ep_cal] in M. rewrite !map_length in M. specialize (M ltac:(lia) eq_refl).
      rewrite (nth_map_lt _ cal k [] false) in M by lia. fold (value cal k i) in M. assert (Mk := proj1 (C70_mask _ _ _ _ _ _ k i P ltac:(lia) ltac:(lia))). unfold value in *. destruct (nth k col None); destruct (nth i (nth k cal []) NotANumber); cbn [is_masked] in M; rewrite <- Mk; split; intro X; try congruence; try (assert (false = true) by (apply M; congruence); congruence); exfalso; destruct M as [M1 M2]; [discriminate (M2 eq_refl)].
  Qed.
  Lemma product_pointwise loc sc raw loc' sc' raw' i k : prod loc sc = Ok raw -> prod loc' sc' = Ok raw' -> (the_tout = Realizations -> fc_rows f <> []) -> length loc = points_of (fc_rows f) -> length loc' = points_of (fc_rows f) ->
    (i < points_of (fc_rows f))%nat -> (k < expected_rows)%nat -> at_i loc i = at_i loc' i -> at_i sc i = at_i sc' i -> value raw k i = value raw' k i.
  Proof.
    intros H H' Ne Ll Ll' Hi Hk El Es.
    assert (Pc : forall ps r r' k, percentiles_of ppf dist loc sc ps = Ok r -> percentiles_of ppf dist loc' sc' ps = Ok r' -> (k < length ps)%nat -> value r k i = value r' k i).
    { clear - Ll Ll' Hi El Es. intros ps r r' k P P' Hk. destruct (C70_mask _ _ _ _ _ _ k i P Hk ltac:(lia)) as [_ N]. destruct (C70_mask _ _ _ _ _ _ k i P' Hk ltac:(lia)) as [_ N']. destruct (percentiles_of_inv _ _ _ _ _ _ P) as (_ & _ & V). destruct (percentiles_of_inv _ _ _ _ _ _ P') as (_ & _ & V').
      specialize (V k i Hk ltac:(lia)). specialize (V' k i Hk ltac:(lia)). rewrite <- El, <- Es in V'. rewrite V, V' in *. destruct (is_masked (at_i loc i) || is_masked (at_i sc i))%bool; [reflexivity|]. unfold point_value in *. destruct (ppf_at ppf dist (fill1 (at_i loc i)) (fill1 (at_i sc i)) (nth k ps 0 / 100)) as [v|]; cbn [is_none] in *; rewrite ?Bool.andb_false_r, ?Bool.andb_true_r in *; [reflexivity|]. destruct (existsb is_zero (map fill1 sc)), (existsb is_zero (map fill1 sc')); try reflexivity; congruence. }
    unfold product in H, H'. unfold expected_rows in Hk. destruct the_tout.
    - destruct (match rq_template rq with Some t => t | None => rq_own_template rq end) as [[above u] ths]. cbn [snd] in Hk. destruct u as [[a b]|]; [|discriminate]. destruct (probabilities_inv _ _ _ _ _ _ _ _ _ _ H) as (_ & _ & _ & V). destruct (probabilities_inv _ _ _ _ _ _ _ _ _ _ H') as (_ & _ & _ & V'). rewrite (V k i Hk Hi), (V' k i Hk Hi), El, Es. reflexivity.
    - eapply Pc; eauto.
    - specialize (Ne eq_refl). destruct (to_percentiles ppf dist loc sc _ None) as [[qs cal]|] eqn:T; [|discriminate]. destruct (to_percentiles ppf dist loc' sc' _ None) as [[qs' cal']|] eqn:T'; [|discriminate]. cbn [bind] in H, H'. destruct (fc_rows f) as [|r0 rs] eqn:Er; [congruence|]. rewrite <- Er in *.
      assert (X : exists l, length l = length (fc_rows f) /\ percentiles_of ppf dist loc sc l = Ok cal /\ percentiles_of ppf dist loc' sc' l = Ok cal').
      { rewrite Er in T, T'. unfold to_percentiles in T, T'. cbn [length] in T, T'. destruct (choose_set_of_percentiles (S (length rs)) Quantile) as [l|] eqn:C; [|discriminate]. cbn [bind] in T, T'. destruct (percentiles_of ppf dist loc sc l) as [r|] eqn:P; [|discriminate]. destruct (percentiles_of ppf dist loc' sc' l) as [r'|] eqn:P'; [|discriminate]. cbn [bind] in T, T'. apply Ok_inj in T, T'.
        assert (cal = r) by (apply (f_equal snd) in T; cbn in T; congruence). assert (cal' = r') by (apply (f_equal snd) in T'; cbn in T'; congruence). subst. destruct (choose_quantile _ _ C) as [Lq _]. exists l. rewrite Er. cbn [length]. auto. }
      destruct X as (l & Lq & P & P'). assert (Lc := proj1 (proj2 (percentiles_of_inv _ _ _ _ _ _ P))). assert (Lc' := proj1 (proj2 (percentiles_of_inv _ _ _ _ _ _ P'))).
      destruct (reorder_at _ _ _ _ _ H) as [_ R]. destruct (reorder_at _ _ _ _ _ H') as [_ R']. destruct (R i Hi) as (col & Hc & V). destruct (R' i Hi) as (col' & Hc' & V'). rewrite (proj2 (V k ltac:(lia))), (proj2 (V' k ltac:(lia))).
      assert (Ec : columns randomise rnd cal (fc_rows f) i = columns randomise rnd cal' (fc_rows f) i); [|rewrite Ec, Hc' in Hc; apply Ok_inj in Hc; now rewrite Hc].
      assert (Ev : forall A (g : dval -> A), map (fun r => g (nth i r NotANumber)) cal = map (fun r => g (nth i r NotANumber)) cal').
      { intros A g. apply nth_ext with (d := g NotANumber) (d' := g NotANumber); [rewrite !map_length; lia|]. intros n Hn. rewrite map_length in Hn. rewrite (nth_map_lt _ cal n [] _ Hn), (nth_map_lt _ cal' n []) by lia. f_equal. apply (Pc l cal cal' n P P'). lia. }
      unfold columns. rewrite (Ev Q (fun v => match v with Num q => q | _ => 0 end)), (Ev bool is_masked). reflexivity.
  Qed.
End Product.

Print Assumptions C71_domain.
Print Assumptions C71_compatible.
Print Assumptions C71_mask.
Print Assumptions C72_attribute.
Print Assumptions C72_sites.
Print Assumptions C72_count.
