(** C72: ApplyEMOS as a whole. *)
From Coq Require Import Permutation.
From Verif Require Import Base Model_Percentiles Proofs_Percentiles Model_Integration Model_Bias Model_Dist Spec_Dist Spec_DistCase Props_Dist Model_Reordering Proofs_Reordering Props_Reordering Model_Emos Spec_Emos Proofs_Emos Proofs_Temporal Props_Emos Props_EmosApply.
Local Open Scope Q_scope.

Definition su_input (u : setup) : ftype := input_type (su_has_percentile u) (su_name u).
(** The percentiles that are given out. *)
Definition su_percentiles (u : setup) : list Q := match rq_percentiles (su_request u) with Some (p :: ps) => p :: ps | _ => rq_own (su_request u) end.
(** Direction, unit conversion and thresholds of the probabilities that are given out. *)
Definition su_thresholds (u : setup) : bool * option (Q * Q) * list Q := match rq_template (su_request u) with Some t => t | None => rq_own_template (su_request u) end.
(** Number of rows of the result. *)
Definition su_result_rows (u : setup) (t : ftype) : nat := match t with Probabilities => length (snd (su_thresholds u)) | Percentiles => length (su_percentiles u) | Realizations => length (su_rows u) end.

Lemma calibrate_inv u land t out : proper_setup u -> calibrate u land = Ok (t, out) ->
  exists loc0 sc0 loc sc raw, distribution_of u loc0 sc0 /\ length loc0 = su_points u /\ length loc = su_points u /\
    product (su_randomise u) (su_rnd u) (su_ppf u) (su_cdf u) (su_has_percentile u) (su_name u) (su_forecast u) (su_dist u) (su_request u) loc sc = Ok raw /\
    t = tout (su_has_percentile u) (su_name u) (su_request u) /\ (t = Realizations -> su_rows u <> []) /\
    (forall i, (i < su_points u)%nat -> at_i loc0 i <> Masked /\ at_i sc0 i <> Masked /\ (is_land land i -> at_i loc i = at_i loc0 i /\ at_i sc i = at_i sc0 i) /\ (~ is_land land i -> at_i loc i = Masked)) /\
    match land with None => out = raw | Some _ => t = su_input u /\ out = merge_rows raw (su_rows u) /\ su_result_rows u t = length (su_rows u) end.
Proof.
  intros (Sh & Own & Kp) H. unfold calibrate in H. destruct (apply_inv _ _ _ _ _ _ _ _ _ _ _ _ _ _ _ _ _ _ _ _ _ H) as (rows & loc & sc & raw & R & P & -> & Pr & _ & _ & O).
  assert (Ep : points_of rows = su_points u).
  { unfold as_realizations, tin in R. destruct (input_type _ _).
    - destruct (su_count u) as [[|c]|]; try discriminate. now apply Kp in R.
    - destruct (su_count u) as [[|c]|]; try discriminate. now apply Kp in R.
    - apply Ok_inj in R. now subst. }
  assert (Z : exists loc0 sc0, parameters (su_root u) (su_tolerate u) None (with_rows (su_forecast u) rows) (su_coeffs u) (su_additional u) = Ok (loc0, sc0) /\ length loc0 = su_points u /\ length loc = su_points u /\ forall i, (i < su_points u)%nat -> at_i loc0 i <> Masked /\ at_i sc0 i <> Masked /\ (is_land land i -> at_i loc i = at_i loc0 i /\ at_i sc i = at_i sc0 i) /\ (~ is_land land i -> at_i loc i = Masked)).
  { destruct (parameters_inv _ _ _ _ _ _ _ _ P) as (l0 & s0 & Ll & Ls & El & Es & _). cbn [fc_rows with_rows] in Ll, Ls. rewrite Ep in *.
    destruct land as [m|].
    - destruct (C71_mask _ _ _ _ _ _ _ _ P) as (a & b & Pa & Va). exists a, b. split; [exact Pa|]. destruct (parameters_inv _ _ _ _ _ _ _ _ Pa) as (l1 & s1 & Ll1 & _ & Ea & _). cbn [fc_rows with_rows] in Ll1. rewrite Ep in Ll1. split; [subst a; now rewrite land_only_len|]. split; [subst loc; now rewrite land_only_len|].
      intros i Hi. cbn [fc_rows with_rows] in Va. rewrite Ep in Va. destruct (Va i Hi) as (A & B & C). split; [exact A|]. split; [exact B|]. cbn [is_land]. destruct (nth i m true); split; intro X; auto; try congruence; tauto.
    - exists loc, sc. split; [exact P|]. assert (Lo : length loc = su_points u) by (subst loc; now rewrite land_only_len). split; [exact Lo|]. split; [exact Lo|]. intros i Hi. subst loc sc. rewrite !land_only_at by lia. unfold to_dval. split; [destruct (nth i l0 None); discriminate|]. split; [destruct (nth i s0 None); discriminate|]. split; [auto|]. intro X. exfalso. now apply X. }
  destruct Z as (loc0 & sc0 & P0 & L0 & L1 & Va). exists loc0, sc0, loc, sc, raw.
  split; [exists rows; split; [exact R|exact P0]|]. split; [exact L0|]. split; [exact L1|]. split; [exact Pr|]. split; [reflexivity|]. split.
  { unfold tout, tin. intro X. destruct (rq_template (su_request u)); [discriminate|]. rewrite X in Own. exact Own. }
  split; [exact Va|]. destruct land as [m|]; [|exact O]. destruct O as (O1 & O2 & O3 & O4). split; [symmetry; exact O1|]. split; [exact O2|]. unfold tin in O1. unfold su_result_rows, su_percentiles, su_thresholds. rewrite <- O1 in *. destruct (input_type (su_has_percentile u) (su_name u)); [rewrite <- Own; now apply O4|rewrite <- Own; now apply O3|reflexivity].
Qed.
Lemma distribution_unique u a b a' b' : distribution_of u a b -> distribution_of u a' b' -> a = a' /\ b = b'.
Proof. intros (r & R & P) (r' & R' & P'). rewrite R in R'. apply Ok_inj in R'. subst r'. cbv zeta in *. rewrite P in P'. apply Ok_inj in P'. split; congruence. Qed.
Lemma expected_is u t : t = tout (su_has_percentile u) (su_name u) (su_request u) -> expected_rows (su_has_percentile u) (su_name u) (su_forecast u) (su_request u) = su_result_rows u t.
Proof. intros ->. reflexivity. Qed.
(** The value at a land point is that of the product of the parameters. *)
Lemma land_value u land t out : proper_setup u -> calibrate u land = Ok (t, out) -> exists loc0 sc0 loc sc raw, distribution_of u loc0 sc0 /\ length loc = su_points u /\
    product (su_randomise u) (su_rnd u) (su_ppf u) (su_cdf u) (su_has_percentile u) (su_name u) (su_forecast u) (su_dist u) (su_request u) loc sc = Ok raw /\
    t = tout (su_has_percentile u) (su_name u) (su_request u) /\ (t = Realizations -> su_rows u <> []) /\
    forall i, (i < su_points u)%nat -> is_land land i -> at_i loc i = at_i loc0 i /\ at_i sc i = at_i sc0 i /\ forall k, (k < su_result_rows u t)%nat -> value out k i = value raw k i.
Proof.
  intros Pu H. destruct (calibrate_inv _ _ _ _ Pu H) as (loc0 & sc0 & loc & sc & raw & D & L0 & L1 & Pr & Et & Ne & Va & O). exists loc0, sc0, loc, sc, raw. split; [exact D|]. split; [exact L1|]. split; [exact Pr|]. split; [exact Et|]. split; [exact Ne|].
  intros i Hi Hl. destruct (Va i Hi) as (A & B & C & _). destruct (C Hl) as [C1 C2]. split; [exact C1|]. split; [exact C2|]. intros k Hk.
  rewrite Et in Ne. destruct (product_spec _ _ _ _ _ _ _ _ _ _ _ _ Pr Ne L1) as [Lr V]. rewrite (expected_is u t Et) in *. destruct land as [m|]; [|now subst].
  destruct O as (O1 & O2 & O3). subst out. destruct (V k i Hk Hi) as [V1 V2]. destruct Pu as (Sh & _). assert (Lk : length (nth k (su_rows u) []) = su_points u) by (rewrite Forall_forall in Sh; apply Sh, nth_In; lia).
  rewrite merge_at; [|lia|lia|unfold su_points in *; rewrite V1; exact Hi|lia]. destruct (value raw k i) eqn:E; try reflexivity. exfalso. assert (X := proj1 V2 eq_refl). rewrite C1, C2 in X. tauto.
Qed.

(** C72: probabilities if a template is given, otherwise what was given; with a land-sea mask the two must be the same. *)
Theorem C72_type u land t out : calibrate u land = Ok (t, out) ->
  t = match rq_template (su_request u) with Some _ => Probabilities | None => su_input u end /\ (land <> None -> t = su_input u).
Proof.
  intro H. unfold calibrate in H. destruct (apply_inv _ _ _ _ _ _ _ _ _ _ _ _ _ _ _ _ _ _ _ _ _ H) as (rows & loc & sc & raw & R & P & -> & Pr & _ & _ & O). split; [reflexivity|]. intro N. destruct land; [|congruence]. symmetry. apply O.
Qed.
(** C72: the result has a row per percentile, threshold or realization, and is masked nowhere. *)
Theorem C72_rows u land t out : proper_setup u -> calibrate u land = Ok (t, out) -> length out = su_result_rows u t /\ forall k i, (k < su_result_rows u t)%nat -> (i < su_points u)%nat -> length (nth k out []) = su_points u /\ value out k i <> Masked.
Proof.
  intros Pu H. destruct (calibrate_inv _ _ _ _ Pu H) as (loc0 & sc0 & loc & sc & raw & D & L0 & L1 & Pr & Et & Ne & Va & O). rewrite Et in Ne. destruct (product_spec _ _ _ _ _ _ _ _ _ _ _ _ Pr Ne L1) as [Lr V]. rewrite (expected_is u t Et) in *. destruct land as [m|].
  - destruct O as (O1 & O2 & O3). assert (Sh := proj1 Pu). rewrite Forall_forall in Sh. split; [subst out; unfold merge_rows; rewrite map_length, combine_length; lia|]. intros k i Hk Hi. destruct (V k i Hk Hi) as [V1 V2]. assert (Lk : length (nth k (su_rows u) []) = su_points u) by (apply Sh, nth_In; lia). split.
    + subst out. unfold merge_rows. rewrite (nth_map_combine _ raw (su_rows u) k [] [] []) by lia. cbn [fst snd]. rewrite map_length, combine_length. change (points_of (fc_rows (su_forecast u))) with (su_points u) in V1. lia.
    + subst out. rewrite merge_at; [|lia|lia|unfold su_points in *; rewrite V1; exact Hi|lia]. destruct (value raw k i); try discriminate. unfold to_dval. destruct (nth i _ None); discriminate.
  - subst raw. split; [exact Lr|]. intros k i Hk Hi. destruct (V k i Hk Hi) as [V1 V2]. split; [exact V1|]. intro X. apply V2 in X. destruct (Va i Hi) as (A & B & C & _). destruct (C Logic.I) as [C1 C2]. rewrite C1, C2 in X. tauto.
Qed.
(** C72: at sea the forecast is given out as it was. *)
Theorem C72_sea u land t out k i : proper_setup u -> calibrate u (Some land) = Ok (t, out) -> (k < length (su_rows u))%nat -> (i < su_points u)%nat -> nth i land true = false ->
  value out k i = to_dval (nth i (nth k (su_rows u) []) None).
Proof.
  intros Pu H Hk Hi Hl. destruct (calibrate_inv _ _ _ _ Pu H) as (loc0 & sc0 & loc & sc & raw & D & L0 & L1 & Pr & Et & Ne & Va & O1 & O2 & O3). rewrite Et in Ne. destruct (product_spec _ _ _ _ _ _ _ _ _ _ _ _ Pr Ne L1) as [Lr V]. rewrite (expected_is u t Et) in *. rewrite O3 in *. assert (Sh := proj1 Pu). rewrite Forall_forall in Sh.
  destruct (V k i Hk Hi) as [V1 V2]. assert (Lk : length (nth k (su_rows u) []) = su_points u) by (apply Sh, nth_In; lia). subst out. rewrite merge_at; [|lia|lia|unfold su_points in *; rewrite V1; exact Hi|lia].
  assert (M : at_i loc i = Masked) by (destruct (Va i Hi) as (_ & _ & _ & X); apply X; cbn; congruence). rewrite (proj2 V2 (or_introl M)). reflexivity.
Qed.
(** C72: on land the mask makes no difference. *)
Theorem C72_land u land land' t out t' out' k i : proper_setup u -> calibrate u land = Ok (t, out) -> calibrate u land' = Ok (t', out') -> (i < su_points u)%nat -> is_land land i -> is_land land' i -> (k < su_result_rows u t)%nat ->
  t = t' /\ value out k i = value out' k i.
Proof.
  intros Pu H H' Hi Hl Hl' Hk. destruct (land_value _ _ _ _ Pu H) as (l0 & s0 & loc & sc & raw & D & L & Pr & Et & Ne & V). destruct (land_value _ _ _ _ Pu H') as (l0' & s0' & loc' & sc' & raw' & D' & L' & Pr' & Et' & Ne' & V').
  destruct (distribution_unique _ _ _ _ _ D D') as [<- <-]. assert (E : t = t') by congruence. split; [exact E|]. rewrite <- E in *. clear Et' Ne'. destruct (V i Hi Hl) as (A & B & C). destruct (V' i Hi Hl') as (A' & B' & C'). rewrite (C k Hk), (C' k Hk). rewrite Et in Ne. rewrite <- (expected_is u t Et) in Hk. apply (product_pointwise _ _ _ _ _ _ _ _ _ _ _ _ _ _ _ _ _ Pr Pr' Ne L L' Hi Hk); congruence.
Qed.
(** C72: percentiles: the probability of not exceeding the value, under the calibrated distribution, is the percentile. *)
Theorem C72_percentiles u land out loc sc k i l s : proper_setup u -> standard_distribution (su_ppf u) (su_cdf u) -> proper_limits (su_dist u) -> calibrate u land = Ok (Percentiles, out) -> distribution_of u loc sc ->
  (i < su_points u)%nat -> is_land land i -> at_i loc i = Num l -> at_i sc i = Num s -> 0 < s -> (k < length (su_percentiles u))%nat -> 0 < nth k (su_percentiles u) 0 -> nth k (su_percentiles u) 0 < 100 ->
  exists v, value out k i = Num v /\ probability_below (su_cdf u) (su_dist u) l s v == nth k (su_percentiles u) 0 / 100 /\ within_limits (su_dist u) v.
Proof.
  intros Pu SD Pl H D Hi Hl El Es Hs Hk P1 P2. destruct (land_value _ _ _ _ Pu H) as (l0 & s0 & loc' & sc' & raw & D' & L & Pr & Et & Ne & V). destruct (distribution_unique _ _ _ _ _ D D') as [<- <-]. destruct (V i Hi Hl) as (A & B & C). rewrite (C k Hk). unfold product in Pr. rewrite <- Et in Pr. fold (su_percentiles u) in Pr.
  destruct (C70_percentile _ (su_cdf u) _ _ _ _ _ k i l s SD Pl Pr Hk ltac:(lia) ltac:(congruence) ltac:(congruence) Hs P1 P2) as (v & Vv & Pv). exists v. split; [exact Vv|]. split; [exact Pv|]. apply (C70_within_limits _ (su_cdf u) _ _ _ _ _ k i l s v SD Pl Pr Hk ltac:(lia) ltac:(congruence) ltac:(congruence) Hs P1 P2 Vv).
Qed.
(** C72: probabilities, of thresholds in the units of the forecast: those of the calibrated distribution. *)
Theorem C72_probabilities u land out loc sc above ths j i l s : proper_setup u -> standard_distribution (su_ppf u) (su_cdf u) -> calibrate u land = Ok (Probabilities, out) -> distribution_of u loc sc ->
  (i < su_points u)%nat -> is_land land i -> at_i loc i = Num l -> at_i sc i = Num s -> 0 < s -> su_thresholds u = (above, Some (1, 0), ths) -> (j < length ths)%nat ->
  exists p, value out j i = Num p /\ 0 <= p <= 1 /\ (if above then p + probability_below (su_cdf u) (su_dist u) l s (nth j ths 0) == 1 else p == probability_below (su_cdf u) (su_dist u) l s (nth j ths 0)).
Proof.
  intros Pu SD H D Hi Hl El Es Hs Eth Hj. destruct (land_value _ _ _ _ Pu H) as (l0 & s0 & loc' & sc' & raw & D' & L & Pr & Et & Ne & V). destruct (distribution_unique _ _ _ _ _ D D') as [<- <-]. destruct (V i Hi Hl) as (A & B & C). unfold su_result_rows in C. rewrite Eth in C. cbn [snd] in C. rewrite (C j Hj). unfold product in Pr. rewrite <- Et in Pr. fold (su_thresholds u) in Pr. rewrite Eth in Pr.
  apply (C70_probability _ _ _ _ _ _ _ _ _ j i l s SD Pr Hj Hi); congruence.
Qed.
(** C72: realizations: at a point the values are those of the equally spaced percentiles of the calibrated distribution, each once, in the order of the raw members. *)
Theorem C72_realizations u land out loc sc i l s raw : proper_setup u -> standard_distribution (su_ppf u) (su_cdf u) -> proper_limits (su_dist u) -> calibrate u land = Ok (Realizations, out) -> distribution_of u loc sc ->
  (i < su_points u)%nat -> is_land land i -> at_i loc i = Num l -> at_i sc i = Num s -> 0 < s -> members (su_rows u) i raw -> length (su_rnd u i) = length raw ->
  exists vals qs, (forall k, (k < length raw)%nat -> value out k i = Num (nth k vals 0)) /\ length vals = length raw /\ Permutation qs vals /\
    (forall j, (j < length raw)%nat -> probability_below (su_cdf u) (su_dist u) l s (nth j qs 0) == Qn (S j) / Qn (S (length raw))) /\
    (su_randomise u = false -> forall j k, (j < length raw)%nat -> (k < length raw)%nat -> nth j raw 0 < nth k raw 0 -> nth j vals 0 <= nth k vals 0).
Proof.
  intros Pu SD Pl H D Hi Hl El Es Hs Mem Lr. destruct (land_value _ _ _ _ Pu H) as (l0 & s0 & loc' & sc' & res & D' & L & Pr & Et & Ne & V). destruct (distribution_unique _ _ _ _ _ D D') as [<- <-]. destruct (V i Hi Hl) as (A & B & C). specialize (Ne eq_refl). unfold product in Pr. rewrite <- Et in Pr.
  assert (Lm : length (su_rows u) = length raw) by (apply (f_equal (@length _)) in Mem; rewrite !map_length in Mem; exact Mem). unfold su_result_rows in C. rewrite Lm in C.
  fold (su_rows u) in Pr. destruct (to_percentiles _ _ loc' sc' _ None) as [[qs cal]|] eqn:T; [|discriminate]. cbn [bind] in Pr.
  assert (T' : percentiles_of (su_ppf u) (su_dist u) loc' sc' qs = Ok cal /\ choose_set_of_percentiles (length raw) Quantile = Ok qs).
  { unfold to_percentiles in T. rewrite Lm in T. destruct (length raw) as [|n] eqn:En; [destruct (su_rows u); [congruence|discriminate]|]. destruct (choose_set_of_percentiles (S n) Quantile) as [q|] eqn:Cq; [|discriminate]. cbn [bind] in T. destruct (percentiles_of _ _ _ _ q) as [r|] eqn:P; [|discriminate]. cbn [bind] in T. apply Ok_inj in T. assert (E1 := f_equal fst T). assert (E2 := f_equal snd T). cbn [fst snd] in E1, E2. subst. auto. }
  destruct T' as [P Cq]. destruct (choose_quantile _ _ Cq) as [Lq Q]. destruct (percentiles_of_inv _ _ _ _ _ _ P) as (_ & Lc & _). destruct (reorder_at _ _ _ _ _ Pr) as [Lo R]. destruct (R i Hi) as (col & Hc & W).
  assert (Pos : 0 < Qn (S (length raw))) by (unfold Qn, inject_Z, Qlt; cbn; lia).
  assert (Rg : forall k, (k < length qs)%nat -> 0 < nth k qs 0 /\ nth k qs 0 < 100 /\ nth k qs 0 / 100 == Qn (S k) / Qn (S (length raw))).
  { intros k Hk. rewrite (Q k) by lia. assert (P1 : 0 < Qn (S k)) by (unfold Qn, inject_Z, Qlt; cbn; lia). assert (P2 : Qn (S k) < Qn (S (length raw))) by (unfold Qn; rewrite <- Zlt_Qlt; lia). split; [apply Qlt_shift_div_l; lra|]. split; [apply Qlt_shift_div_r; lra|]. field. lra. }
  set (vs := map (fun r => match nth i r NotANumber with Num q => q | _ => 0 end) cal) in *.
  assert (Lvs : length vs = length cal) by (unfold vs; apply map_length).
  assert (Vs : forall k, (k < length qs)%nat -> value cal k i = Num (nth k vs 0) /\ probability_below (su_cdf u) (su_dist u) l s (nth k vs 0) == nth k qs 0 / 100).
  { intros k Hk. destruct (Rg k Hk) as (R1 & R2 & _). destruct (C70_percentile _ (su_cdf u) _ _ _ _ _ k i l s SD Pl P Hk ltac:(lia) ltac:(congruence) ltac:(congruence) Hs R1 R2) as (v & Vv & Pv). unfold vs. rewrite (nth_map_lt _ cal k [] 0) by lia. fold (value cal k i). rewrite Vv. auto. }
  assert (Nm : Forall (fun b => b = false) (map (fun r => is_masked (nth i r NotANumber)) cal)).
  { rewrite Forall_map, Forall_forall. intros r Ir. destruct (In_nth _ _ [] Ir) as (k & Hk & <-). fold (value cal k i). destruct (Vs k ltac:(lia)) as [-> _]. reflexivity. }
  assert (So : qsorted vs).
  { assert (G : forall a b, (a <= b < length qs)%nat -> nth a vs 0 <= nth b vs 0).
    { intros a b Hab. assert (O : nth a qs 0 <= nth b qs 0). { rewrite (Q a), (Q b) by lia. apply Qle_shift_div_l; [exact Pos|]. assert (E : 100 * Qn (S a) / Qn (S (length raw)) * Qn (S (length raw)) == 100 * Qn (S a)) by (field; lra). rewrite E. assert (Qn (S a) <= Qn (S b)) by (unfold Qn; rewrite <- Zle_Qle; lia). lra. }
      destruct (Rg a ltac:(lia)) as (A1 & A2 & _). destruct (Rg b ltac:(lia)) as (B1 & B2 & _). apply (C70_ordered _ _ _ _ _ _ _ a b i _ _ SD P ltac:(lia) ltac:(lia) ltac:(lia) A1 O B2); apply Vs; lia. }
    apply (qsorted_of_nth vs 0). assert (Lv : length vs = length qs) by (unfold vs; now rewrite map_length). rewrite Lv. exact G. }
  unfold columns in Hc. fold vs in Hc. set (pt := {| ep_raw := _; ep_cal := vs; ep_mask := _ |}) in Hc.
  assert (Er : ep_raw pt = raw).
  { cbn. fold (su_rows u). unfold members in Mem. clear - Mem. revert raw Mem. induction (su_rows u) as [|r rs IH]; intros [|x raw] Mem; cbn in *; try discriminate; auto. injection Mem as E Mem. rewrite E. f_equal. now apply IH. }
  assert (Lmask : length (ep_mask pt) = length (ep_cal pt)) by (cbn; unfold vs; now rewrite !map_length).
  destruct (C15_permutation _ _ pt col ltac:(rewrite Er; exact Lr) Lmask Nm Hc) as (vals & Ecol & Pm). change (ep_cal pt) with vs in Pm.
  assert (Lvals : length vals = length raw) by (apply Permutation_length in Pm; lia).
  assert (Ncol : forall k, (k < length raw)%nat -> nth k col None = Some (nth k vals 0)) by (intros k Hk; subst col; apply (nth_map_lt Some vals k 0 None); lia).
  exists vals, vs. split.
  { intros k Hk. rewrite (C k Hk), (proj2 (W k ltac:(lia))), (Ncol k Hk). reflexivity. }
  split; [exact Lvals|]. split; [exact Pm|]. split.
  { intros j Hj. destruct (Vs j ltac:(lia)) as [_ ->]. apply Rg. lia. }
  intros Rd j k Hj Hk Hjk. rewrite Rd in Hc. destruct (C15_rank_order _ pt col j k ltac:(rewrite Er; exact Lr) Lmask Nm So Hc) as (ri & rj & x & y & Nx & Ny & Hxy & _); rewrite ?Er; auto.
  rewrite (Ncol j Hj) in Nx. rewrite (Ncol k Hk) in Ny. congruence.
Qed.

(** Two realizations at two points, the second at sea: raw 1 and 3, 2 and 2; variance 2 at the first. With alpha 1, beta 2 the location is 5; gamma 1, delta 2 and the root x/3 give scale 3. *)
Definition case_axis : axis := {| ax_points := [0; 1]; ax_bounds := [] |}.
Definition case_meta : coeff_meta := {| cm_diagnostic := "t"; cm_period := 3600; cm_frts := [0%Z]; cm_x := case_axis; cm_y := case_axis |}.
Definition case_rows : list row := [[Some 3; Some 2]; [Some 1; Some 2]].
Definition case_setup (perc : bool) (tmpl : option (bool * option (Q * Q) * list Q)) : setup :=
  {| su_root := fun x => x / 3; su_randomise := false; su_rnd := fun _ => [1 # 2; 1 # 3]; su_ppf := toy_ppf; su_cdf := toy_cdf; su_convert := fun _ r => Ok r; su_has_percentile := perc; su_name := "t"; su_count := Some 2%nat; su_tolerate := false;
     su_forecast := {| fc_name := "t"; fc_period := 3600; fc_frts := [0%Z]; fc_sites := None; fc_x := case_axis; fc_y := case_axis; fc_rows := case_rows |};
     su_coeffs := {| co_alpha := Whole 1; co_beta := MeanBetas [("t"%string, Whole 2)]; co_gamma := Whole 1; co_delta := Whole 2; co_meta := [case_meta] |};
     su_additional := []; su_sites := []; su_dist := Norm; su_names := [Some "norm"%string]; su_shapes := []; su_request := {| rq_percentiles := None; rq_own := [25; 75]; rq_template := tmpl; rq_own_template := (true, Some (1, 0), []) |} |}.
Lemma case_proper perc tmpl : proper_setup (case_setup perc tmpl).
Proof. split; [repeat constructor|]. split; [destruct perc; [reflexivity|discriminate]|]. intros k r r' H. apply Ok_inj in H. now subst. Qed.
Definition rounded_rows (r : result (ftype * list (list dval))) : result (ftype * list (list dval)) := match r with Ok (t, out) => Ok (t, map (map (fun v => match v with Num q => Num (Qred q) | v => v end)) out) | Err e => Err e end.
Example C72_case_percentiles : rounded_rows (calibrate (case_setup true None) (Some [true; false])) = Ok (Percentiles, [[Num 2; Num 2]; [Num 8; Num 2]]) /\
  probability_below toy_cdf Norm 5 3 2 == 25 # 100 /\ probability_below toy_cdf Norm 5 3 8 == 75 # 100.
Proof. vm_compute. auto. Qed.
Example C72_case_realizations : rounded_rows (calibrate (case_setup false None) (Some [true; false])) = Ok (Realizations, [[Num (13 # 2); Num 2]; [Num (7 # 2); Num 2]]) /\
  exists loc sc l s, distribution_of (case_setup false None) loc sc /\ at_i loc 0 = Num l /\ at_i sc 0 = Num s /\ l == 5 /\ s == 3.
Proof. split; [vm_compute; reflexivity|]. pose (p := match parameters (su_root (case_setup false None)) (su_tolerate (case_setup false None)) None (with_rows (su_forecast (case_setup false None)) case_rows) (su_coeffs (case_setup false None)) (su_additional (case_setup false None)) with Ok p => p | Err _ => ([], []) end).
  exists (fst p), (snd p), (match at_i (fst p) 0 with Num q => q | _ => 0 end), (match at_i (snd p) 0 with Num q => q | _ => 0 end).
  split; [exists case_rows; split; [reflexivity|]; vm_cast_no_check (@eq_refl (result (list dval * list dval)) (Ok p))|]. repeat split; vm_compute; reflexivity. Qed.
Example C72_case_probabilities : rounded_rows (calibrate (case_setup false (Some (true, Some (1, 0), [2; 8]))) None) = Ok (Probabilities, [[Num (3 # 4); Num (19 # 20)]; [Num (1 # 4); Num (1 # 20)]]) /\
  calibrate (case_setup false (Some (true, Some (1, 0), [2; 8]))) (Some [true; false]) = Err ValueError.
Proof. vm_compute. auto. Qed.

Print Assumptions C72_type.
Print Assumptions C72_rows.
Print Assumptions C72_sea.
Print Assumptions C72_land.
Print Assumptions C72_percentiles.
Print Assumptions C72_probabilities.
Print Assumptions C72_realizations.
