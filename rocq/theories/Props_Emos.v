(** C71, C72. *)
From Verif Require Import Base Model_Percentiles Model_Integration Model_Bias Spec_Bias Model_Dist Model_Reordering Model_Emos Spec_Threshold Spec_Dist Spec_DistCase Spec_Emos Proofs_Temporal Proofs_Integration Proofs_Bias Props_Bias Proofs_Reordering Props_Dist Proofs_Emos.
Local Open Scope Q_scope.

(** * C71 *)
Lemma field_at_map f n i : (i < n)%nat -> field_at (map f (seq 0 n)) i = f i.
Proof.
  intro H. destruct n as [|[|n]]; [lia| |].
  - assert (i = 0%nat) by lia. subst. reflexivity.
  - change (field_at (map f (seq 0 (S (S n)))) i) with (nth i (map f (seq 0 (S (S n)))) None). now apply nth_map_seq.
Qed.
(** C71: the location is alpha, plus beta times the ensemble mean, plus the additional predictors times the coefficients of their name; the coefficient of a name is unique. *)
Theorem C71_mean n name rows additional alpha betas loc i v : location_from_mean n name rows additional alpha betas = Ok loc -> (i < n)%nat -> ovalue loc i = Some v ->
  exists l m b bv a s, members rows i l /\ is_mean l m /\ In (name, b) betas /\ coeff_value n i b bv /\ coeff_value n i alpha a /\ combination n i betas additional s /\
    v == a + bv * m + s /\ forall b' nm, (nm = name \/ In nm (map fst additional)) -> In (nm, b') betas -> forall b'', In (nm, b'') betas -> b'' = b'.
Proof.
  intros H Hi Hv. destruct (location_mean_inv _ _ _ _ _ _ _ H) as (_ & Fa & U & _ & V). specialize (V i Hi). unfold ovalue in Hv. rewrite Hv in V. cbn [map osum] in V.
  destruct (oadd (term betas i _) _) as [w|] eqn:W; [|contradiction]. apply oadd_some in W as (x & s & Hx & Hs & ->). cbn in V. inversion U as [|? ? (b & Lb & Fb & Ff) U']; subst. cbn [fst snd] in *.
  destruct (term_combination n i betas additional s Hi U' Hs) as (s' & C & E). unfold term in Hx. cbn [fst snd] in Hx. rewrite Lb, field_at_map in Hx by exact Hi. destruct (omean (at_point rows i)) as [m|] eqn:M; [|discriminate]. cbn in Hx. injection Hx as <-.
  apply omean_some in M as (l & Hl & M). exists l, m, b, (coeff_at b i), (coeff_at alpha i), s'. split; [exact Hl|]. split; [exact M|]. split; [now apply lookup1_in|]. split; [now apply fits_value|]. split; [now apply fits_value|]. split; [exact C|]. split; [rewrite V, E; ring|].
  intros b' nm Hn I1 b'' I2. assert (exists c, lookup1 betas nm = Some c) as [c Lc].
  { destruct Hn as [->|Hn]; [eauto|]. apply in_map_iff in Hn as (fp & <- & If). rewrite Forall_forall in U'. destruct (U' fp If) as (c & Lc & _). eauto. }
  rewrite (lookup1_unique _ _ _ _ Lc I1). now apply (lookup1_unique betas nm).
Qed.
(** C71: it is a number where the realizations and the additional predictors are numbers. *)
Theorem C71_mean_defined n name rows additional alpha betas loc i l : location_from_mean n name rows additional alpha betas = Ok loc -> (i < n)%nat -> members rows i l -> l <> [] ->
  (forall nm f, In (nm, f) additional -> forall v, field_value n i f v -> v <> None) -> exists v, ovalue loc i = Some v.
Proof.
  intros H Hi Hm Hl Ha. destruct (location_mean_inv _ _ _ _ _ _ _ H) as (_ & Fa & U & _ & V). specialize (V i Hi). inversion U as [|? ? (b & Lb & Fb & Ff) U']; subst. cbn [fst snd map osum] in *.
  assert (T1 : exists x, term betas i (name, map (fun i0 => omean (at_point rows i0)) (seq 0 n)) = Some x).
  { unfold term. cbn [fst snd]. rewrite Lb, field_at_map by exact Hi. unfold at_point. rewrite Hm. destruct (omean_members l Hl) as (m & -> & _). eexists. reflexivity. }
  assert (T2 : exists s, osum (map (term betas i) additional) = Some s).
  { clear - U' Ha Hi. induction additional as [|[nm f] r IH]; [eexists; reflexivity|]. inversion U' as [|? ? (b & Lb & Fb & Ff) U'']; subst. cbn [fst snd] in *. destruct IH as [s Hs]; [intros; eapply Ha; [right; eassumption|eassumption]|exact U''|].
    assert (N := Ha nm f (or_introl eq_refl) _ (field_fits_value n i f Ff Hi)). cbn [map osum]. rewrite Hs. unfold term. cbn [fst snd]. rewrite Lb. destruct (field_at f i); [|congruence]. eexists. reflexivity. }
  destruct T1 as [x T1], T2 as [s T2]. rewrite T1, T2 in V. unfold ovalue. destruct (nth i loc None); [eauto|contradiction].
Qed.
(** C71: predictors are matched by name: neither the order of the additional fields nor that of the coefficients matters. *)
Theorem C71_order n name rows additional additional' alpha betas betas' loc : Permutation additional additional' -> Permutation betas betas' ->
  location_from_mean n name rows additional alpha betas = Ok loc -> exists loc', location_from_mean n name rows additional' alpha betas' = Ok loc' /\ forall i, (i < n)%nat -> oeq (ovalue loc i) (ovalue loc' i).
Proof.
  intros Pa Pb H. destruct (location_mean_inv _ _ _ _ _ _ _ H) as (L & Fa & U & _ & V). set (fps := (name, map (fun i => omean (at_point rows i)) (seq 0 n)) :: additional) in *. set (fps' := (name, map (fun i => omean (at_point rows i)) (seq 0 n)) :: additional').
  assert (Pf : Permutation fps fps') by now constructor. assert (U' : Forall (usable_fp n betas') fps').
  { apply Forall_forall. intros fp If. rewrite Forall_forall in U. destruct (U fp) as (b & Lb & Fb & Ff); [eapply Permutation_in; [apply Permutation_sym, Pf|exact If]|]. exists b. rewrite <- (lookup1_perm _ _ _ Pb). auto. }
  assert (X : exists loc', location_from_mean n name rows additional' alpha betas' = Ok loc').
  { unfold location_from_mean. fold fps'. rewrite <- (Permutation_length Pf), L, (Permutation_length Pb), Nat.eqb_refl. cbn [negb]. destruct (add_spec n betas' fps' (repeat (Some 0) n) (repeat_length _ _)) as [S1 _]. destruct (S1 U') as [out ->]. cbn [bind]. rewrite Fa. eauto. }
  destruct X as [loc' H']. exists loc'. split; [exact H'|]. intros i Hi. destruct (location_mean_inv _ _ _ _ _ _ _ H') as (_ & _ & _ & _ & V'). unfold ovalue. eapply oeq_trans; [apply V; exact Hi|]. apply oeq_sym. eapply oeq_trans; [apply V'; exact Hi|]. apply oadd_oeq; [|apply oeq_refl]. fold fps'.
  assert (E : map (term betas' i) fps' = map (term betas i) fps') by (apply map_ext; intro; unfold term; now rewrite (lookup1_perm _ _ _ Pb)). rewrite E. apply osum_perm, Permutation_map, Permutation_sym, Pf.
Qed.
(** C71: as many coefficients as predictors are needed, one of each name. *)
Theorem C71_predictors n name rows additional alpha betas : (exists loc, location_from_mean n name rows additional alpha betas = Ok loc) ->
  length betas = S (length additional) /\ forall nm, (nm = name \/ In nm (map fst additional)) -> exists b, In (nm, b) betas.
Proof.
  intros [loc H]. destruct (location_mean_inv _ _ _ _ _ _ _ H) as (L & _ & U & _). split; [cbn in L; lia|]. intros nm Hn. rewrite Forall_forall in U. destruct Hn as [->|Hn].
  - destruct (U _ (or_introl eq_refl)) as (b & Lb & _). exists b. now apply lookup1_in.
  - apply in_map_iff in Hn as (fp & <- & If). destruct (U fp (or_intror If)) as (b & Lb & _). exists b. now apply lookup1_in.
Qed.
(** Weighted sums of realizations. *)
Lemma weighted bs : forall l, length bs = length l -> exists v, osum (map (fun p : Q * option Q => oscale (fst p) (snd p)) (combine bs (map Some l))) = Some v /\ v == qsum (map (fun p => fst p * snd p) (combine bs l)).
Proof.
  induction bs as [|b bs IH]; intros [|x l] H; cbn in H; try lia; [exists 0; split; reflexivity|]. destruct (IH l ltac:(lia)) as (v & E & Ev). cbn [combine map osum]. cbn [map] in E. rewrite E. cbn. eexists. split; [reflexivity|]. rewrite Ev. reflexivity.
Qed.
(** C71: with realizations as predictors the location is alpha plus the sum of the squared coefficients times the realizations; coefficients of the whole domain. *)
Theorem C71_members n rows a bs loc i l : location_from_realizations n rows (Whole a) (PerMember bs) = Ok loc -> (i < n)%nat -> members rows i l ->
  exists v, ovalue loc i = Some v /\ length bs = length l /\ v == a + qsum (map (fun p => fst p * fst p * snd p) (combine bs l)).
Proof.
  intros H Hi Hm. unfold location_from_realizations in H. cbn [beta_rows bind alpha_column length Nat.eqb negb combine map] in H. cbn [forallb] in H. rewrite Bool.andb_true_r in H.
  match type of H with (if negb ?b then _ else _) = _ => destruct b eqn:L; [|discriminate] end. cbn [negb] in H. rewrite Bool.orb_true_r in H. cbn [negb] in H. apply Ok_inj in H. subst loc.
  apply Nat.eqb_eq in L. cbn [fst snd length] in L. rewrite map_length in L. assert (Ll : length rows = length l) by (rewrite <- (map_length Some l), <- Hm, map_length; reflexivity).
  unfold ovalue. rewrite nth_map_seq by exact Hi. unfold at_point. rewrite Hm. cbn [combine map osum fst snd]. destruct (weighted (map (fun x => x * x) bs) l ltac:(rewrite map_length; lia)) as (v & -> & Ev). cbn. eexists. split; [reflexivity|]. split; [lia|]. rewrite Ev, Qmult_1_r.
  apply Qplus_comp; [reflexivity|]. rewrite <- (map_id l) at 1. clear. revert l. induction bs as [|b bs IH]; intros [|x l]; cbn; try reflexivity. rewrite IH. reflexivity.
Qed.
Lemma beta_rows_site m w : length m <> 1%nat -> w <> 1%nat -> m <> [] -> Forall (fun r => length r = w) m -> beta_rows (PerMemberSite m) = Ok (transpose w (map (map (fun x => x * x)) m)).
Proof.
  intros A B N F. unfold beta_rows. assert (W : length (hd [] m) = w) by (destruct m as [|r m]; [congruence|]; now inversion F). rewrite W. destruct (Nat.eqb_spec (length m) 1); [contradiction|]. destruct (Nat.eqb_spec w 1); [contradiction|]. reflexivity.
Qed.
(** C71: the same with coefficients for each of several sites and several realizations: the site's own. *)
Theorem C71_member_sites n rows al m loc i l a : location_from_realizations n rows (Each al) (PerMemberSite m) = Ok loc -> (i < n)%nat -> (2 <= n)%nat -> (2 <= length m)%nat -> Forall (fun r => length r = n) m -> length al = n ->
  members rows i l -> nth_error al i = Some a ->
  exists v, ovalue loc i = Some v /\ length m = length l /\ v == a + qsum (map (fun p => nth i (fst p) 0 * nth i (fst p) 0 * snd p) (combine m l)).
Proof.
  intros H Hi Hn Hm F La Hme Ha. unfold location_from_realizations in H. rewrite (beta_rows_site m n) in H; [|lia|lia|destruct m; [cbn in Hm; lia|discriminate]|exact F]. cbn [bind alpha_column] in H.
  set (t := transpose n (map (map (fun x => x * x)) m)) in *. assert (Lt : length t = n) by (unfold t, transpose; now rewrite map_length, seq_length). rewrite La, Lt, Nat.eqb_refl in H. cbn [negb] in H.
  set (ab := map _ (combine al t)) in H. assert (Lab : length ab = n) by (unfold ab; rewrite map_length, combine_length; lia). destruct (forallb _ ab) eqn:Fa; [|discriminate]. cbn [negb] in H. rewrite Lab, Nat.eqb_refl in H. cbn [orb negb] in H. apply Ok_inj in H. subst loc.
  assert (Nab : nth i ab [] = a :: map (fun r => nth i r 0) (map (map (fun x => x * x)) m)).
  { unfold ab. rewrite (nth_map_combine _ al t i 0 [] []) by lia. cbn [fst snd]. rewrite (nth_error_nth _ _ 0 Ha). f_equal. unfold t, transpose. now rewrite nth_map_seq by exact Hi. }
  rewrite forallb_forall in Fa. assert (Hab : (i < length ab)%nat) by lia. assert (Lr := Fa (nth i ab []) (nth_In ab [] Hab)). apply Nat.eqb_eq in Lr. rewrite Nab in Lr. cbn [length] in Lr. rewrite !map_length in Lr.
  assert (Ll : length rows = length l) by (rewrite <- (map_length Some l), <- Hme, map_length; reflexivity).
  unfold ovalue. rewrite nth_map_seq by exact Hi. assert (Eab : match ab with [r] => r | _ => nth i ab [] end = nth i ab []) by (destruct ab as [|r [|r' ab']]; [reflexivity|cbn in Lab; lia|reflexivity]). rewrite Eab, Nab. unfold at_point. rewrite Hme. cbn [combine map osum fst snd].
  destruct (weighted (map (fun r => nth i r 0) (map (map (fun x => x * x)) m)) l ltac:(rewrite !map_length; lia)) as (v & -> & Ev). cbn. eexists. split; [reflexivity|]. split; [lia|]. rewrite Ev, Qmult_1_r. apply Qplus_comp; [reflexivity|].
  clear - F Hi. revert l. induction m as [|r m IH]; intros [|x l]; cbn; try reflexivity. inversion F as [|? ? Lr F']; subst. rewrite (IH F'). rewrite (nth_map_lt (fun x => x * x) r i 0 0) by lia. reflexivity.
Qed.
(** C71: coefficients per grid cell cannot be applied to realizations, nor coefficients per site to a single realization. *)
Theorem C71_cells_refuted n rows alpha : location_from_realizations n rows alpha PerMemberCell = Err ValueError.
Proof. reflexivity. Qed.
Theorem C71_one_member_refuted n row0 al betas : (2 <= n)%nat -> length betas = n -> length al = n -> location_from_realizations n [row0] (Each al) (PerMemberSite [betas]) = Err ValueError.
Proof.
  intros Hn Lb La. unfold location_from_realizations. cbn [beta_rows length Nat.eqb orb bind alpha_column negb]. destruct (Nat.eqb_spec (length al) 1); [lia|]. reflexivity.
Qed.
(** C71: the scale is the root of gamma squared plus delta squared times the ensemble variance. *)
Theorem C71_scale root n rows gamma delta sc i : is_root root -> scale_parameter root n rows gamma delta = Ok sc -> (i < n)%nat ->
  match ovalue sc i with
  | Some v => exists l s2 g d, members rows i l /\ is_variance l s2 /\ coeff_value n i gamma g /\ coeff_value n i delta d /\ v = root (g * g + d * d * s2) /\ 0 <= v
  | None => forall l, members rows i l -> (length l < 2)%nat
  end.
Proof.
  intros [R1 R2] H Hi. unfold scale_parameter in H. destruct (fits n gamma && fits n delta)%bool eqn:F; [|discriminate]. apply Bool.andb_true_iff in F as [Fg Fd]. apply Ok_inj in H. subst sc. unfold ovalue. rewrite nth_map_seq by exact Hi.
  destruct (ovariance (at_point rows i)) as [s2|] eqn:V; cbn [option_map].
  - apply ovariance_some in V as (l & Hl & Vl). exists l, s2, (coeff_at gamma i), (coeff_at delta i). split; [exact Hl|]. split; [exact Vl|]. split; [now apply fits_value|]. split; [now apply fits_value|]. split; [reflexivity|]. apply R1. assert (P := is_variance_nonneg _ _ Vl). assert (A := sq_nonneg (coeff_at gamma i)). assert (B := sq_nonneg (coeff_at delta i)). assert (0 <= coeff_at delta i * coeff_at delta i * s2) by (apply Qmult_le_0_compat; lra). lra.
  - intros l Hl. unfold at_point in V. rewrite Hl in V. destruct (le_lt_dec 2 (length l)) as [C|C]; [|exact C]. destruct (ovariance_members l C) as (v & E & _). congruence.
Qed.
(** C71: the more the realizations spread, the larger the scale. *)
Theorem C71_scale_monotone root n rows rows' gamma delta sc sc' i l l' s2 s2' v v' : is_root root -> scale_parameter root n rows gamma delta = Ok sc -> scale_parameter root n rows' gamma delta = Ok sc' -> (i < n)%nat ->
  members rows i l -> members rows' i l' -> is_variance l s2 -> is_variance l' s2' -> s2 <= s2' -> ovalue sc i = Some v -> ovalue sc' i = Some v' -> v <= v'.
Proof.
  intros R H H' Hi Hl Hl' V V' Le Ev Ev'. assert (A := C71_scale root n rows gamma delta sc i R H Hi). assert (B := C71_scale root n rows' gamma delta sc' i R H' Hi). rewrite Ev in A. rewrite Ev' in B.
  destruct A as (m & x & g & d & M & X & G & D & -> & _), B as (m' & x' & g' & d' & M' & X' & G' & D' & -> & _). apply coeff_value_at in G, D, G', D'. subst g' d'. subst g d.
  assert (m = l) by (apply map_some_inj; unfold members in *; congruence). assert (m' = l') by (apply map_some_inj; unfold members in *; congruence). subst m m'. assert (E := is_variance_unique _ _ _ V X). assert (E' := is_variance_unique _ _ _ V' X'). assert (P := is_variance_nonneg _ _ X).
  apply (proj2 R); assert (A0 := sq_nonneg (coeff_at gamma i)); assert (B0 := sq_nonneg (coeff_at delta i)); set (g2 := coeff_at gamma i * coeff_at gamma i) in *; set (d2 := coeff_at delta i * coeff_at delta i) in *; clearbody g2 d2; nra.
Qed.
Lemma members_perm rows rows' i l : Permutation rows rows' -> members rows i l -> exists l', members rows' i l' /\ Permutation l l'.
Proof.
  intros P H. unfold members in *. assert (P' := Permutation_map (fun r : row => nth i r None) P). rewrite H in P'. destruct (Permutation_map_inv _ _ (Permutation_sym P')) as (l' & E & Pl). exists l'. split; [exact E|exact Pl].
Qed.
(** C71: the order of the realizations does not matter (with their mean as predictor). *)
Theorem C71_realization_order root n name rows rows' additional alpha betas gamma delta loc loc' sc sc' i : is_root root -> Permutation rows rows' ->
  location_from_mean n name rows additional alpha betas = Ok loc -> location_from_mean n name rows' additional alpha betas = Ok loc' ->
  scale_parameter root n rows gamma delta = Ok sc -> scale_parameter root n rows' gamma delta = Ok sc' -> (i < n)%nat -> oeq (ovalue loc i) (ovalue loc' i) /\ oeq (ovalue sc i) (ovalue sc' i).
Proof.
  intros R P H H' S0 S1 Hi. assert (Pn : Permutation (at_point rows i) (at_point rows' i)) by now apply Permutation_map. split.
  - destruct (location_mean_inv _ _ _ _ _ _ _ H) as (_ & _ & _ & _ & V). destruct (location_mean_inv _ _ _ _ _ _ _ H') as (_ & _ & _ & _ & V'). unfold ovalue. eapply oeq_trans; [apply V; exact Hi|]. apply oeq_sym. eapply oeq_trans; [apply V'; exact Hi|]. apply oadd_oeq; [|apply oeq_refl]. cbn [map osum]. apply oadd_oeq; [|apply oeq_refl].
    unfold term. cbn [fst snd]. destruct (lookup1 betas name) as [b|]; [|exact Logic.I]. rewrite !field_at_map by exact Hi. assert (E : oeq (omean (at_point rows' i)) (omean (at_point rows i))).
    { destruct (omean (at_point rows i)) as [v|] eqn:O.
      - apply omean_some in O as (l & E & M). destruct (members_perm rows rows' i l P E) as (l' & E' & Pl). unfold at_point. rewrite E'. assert (M' := is_mean_perm _ _ _ Pl M). destruct (omean_members l' (proj1 M')) as (v' & -> & M''). cbn. now apply (is_mean_unique l').
      - destruct (omean (at_point rows' i)) as [v|] eqn:O'; [|exact Logic.I]. apply omean_some in O' as (l & E & M). destruct (members_perm rows' rows i l (Permutation_sym P) E) as (l' & E' & Pl). unfold at_point in O. rewrite E' in O. assert (M' := is_mean_perm _ _ _ Pl M). destruct (omean_members l' (proj1 M')) as (v' & X & _). congruence. }
    destruct (omean (at_point rows' i)), (omean (at_point rows i)); cbn in *; auto. now rewrite E.
  - assert (A := C71_scale root n rows gamma delta sc i R S0 Hi). assert (B := C71_scale root n rows' gamma delta sc' i R S1 Hi). destruct (ovalue sc i) as [v|], (ovalue sc' i) as [v'|]; cbn; auto.
    + destruct A as (m & x & g & d & M & X & G & D & -> & _), B as (m' & x' & g' & d' & M' & X' & G' & D' & -> & _). apply coeff_value_at in G, D, G', D'. subst g' d'. subst g d. destruct (members_perm rows rows' i m P M) as (m2 & M2 & Pm). assert (m2 = m') by (apply map_some_inj; unfold members in *; congruence). subst m2.
      assert (E := is_variance_unique _ _ _ (is_variance_perm _ _ _ Pm X) X'). assert (Px := is_variance_nonneg _ _ X). assert (A0 := sq_nonneg (coeff_at gamma i)). assert (B0 := sq_nonneg (coeff_at delta i)). set (g2 := coeff_at gamma i * coeff_at gamma i) in *. set (d2 := coeff_at delta i * coeff_at delta i) in *. clearbody g2 d2.
      assert (root (g2 + d2 * x) <= root (g2 + d2 * x')) by (apply (proj2 R); nra). assert (root (g2 + d2 * x') <= root (g2 + d2 * x)) by (apply (proj2 R); nra). lra.
    + destruct A as (m & x & g & d & M & X & _). destruct (members_perm rows rows' i m P M) as (m2 & M2 & Pm). specialize (B m2 M2). assert (L := Permutation_length Pm). destruct X. lia.
    + destruct B as (m & x & g & d & M & X & _). destruct (members_perm rows' rows i m (Permutation_sym P) M) as (m2 & M2 & Pm). specialize (A m2 M2). assert (L := Permutation_length Pm). destruct X. lia.
Qed.
(** Two realizations and two points; an additional field, coefficients per point and their names in another order than the predictors. *)
Example C71_case :
  option_map (map (option_map Qred)) (match location_from_mean 2 "t" [[Some 1; Some 2]; [Some 3; Some 6]] [("orog"%string, [Some 10; Some 20])] (Each [1; 2]) [("orog"%string, Whole (1 # 10)); ("t"%string, Each [2; 3])] with Ok l => Some l | Err _ => None end) = Some [Some 6; Some 16] /\
  option_map (map (option_map Qred)) (match location_from_realizations 2 [[Some 1; Some 2]; [Some 3; Some 6]] (Whole 1) (PerMember [1; 2]) with Ok l => Some l | Err _ => None end) = Some [Some 14; Some 27] /\
  option_map (map (option_map Qred)) (match location_from_realizations 2 [[Some 1; Some 2]; [Some 3; Some 6]] (Each [0; 5]) (PerMemberSite [[1; 2]; [2; 0]]) with Ok l => Some l | Err _ => None end) = Some [Some 13; Some 13] /\
  option_map (map (option_map Qred)) (match scale_parameter (fun x => x / 2) 2 [[Some 1; Some 2]; [Some 3; Some 6]] (Whole 1) (Each [2; 3]) with Ok l => Some l | Err _ => None end) = Some [Some (9 # 2); Some (73 # 2)] /\
  is_root (fun x => x / 2) /\ is_variance [1; 3] 2 /\ members [[Some 1; Some 2]; [Some 3; Some 6]] 0 [1; 3].
Proof.
  split; [vm_compute; reflexivity|]. split; [vm_compute; reflexivity|]. split; [vm_compute; reflexivity|]. split; [vm_compute; reflexivity|]. split.
  - split; intros; unfold Qdiv; [apply Qmult_le_0_compat; [assumption|compute; discriminate]|apply Qmult_le_compat_r; [assumption|compute; discriminate]].
  - split; [|reflexivity]. split; [cbn; lia|]. exists 2. split; [split; [discriminate|reflexivity]|reflexivity].
Qed.

Print Assumptions C71_mean.
Print Assumptions C71_mean_defined.
Print Assumptions C71_order.
Print Assumptions C71_predictors.
Print Assumptions C71_members.
Print Assumptions C71_member_sites.
Print Assumptions C71_cells_refuted.
Print Assumptions C71_one_member_refuted.
Print Assumptions C71_scale.
Print Assumptions C71_scale_monotone.
Print Assumptions C71_realization_order.
