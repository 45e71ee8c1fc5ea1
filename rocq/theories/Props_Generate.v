(** C119: realizations generated from percentiles or probabilities, end to end. *)
From Verif Require Import Base Interp Model_Percentiles Proofs_Percentiles Proofs_Resample Proofs_ProbPerc Model_Reordering Proofs_Reordering Model_Generate Props_Percentiles Props_Reordering.
From Coq Require Import Permutation.
Local Open Scope Q_scope.

Lemma rebadge_chosen n l nums : choose_set_of_percentiles n Quantile = Ok l -> length nums = n -> rebadge_as_realizations l false (Some nums) = Ok nums.
Proof.
  intros C L. pose proof (choose_quantile n l C) as [Ln _]. pose proof (choose_quantile_props n l C) as (H1 & H2 & _ & HD0).
  pose proof (padded_points _ H1 H2) as HE. unfold rebadge_as_realizations. set (u := uniq (qsort (l ++ [0; 100]))) in *.
  pose proof (Forall2_len _ _ _ HE) as HL. unfold with_ends in HL. cbn [length] in HL. rewrite app_length in HL. cbn [length] in HL.
  destruct (max_min_diff u) as (d & ds & E & (i & Hi & Ei) & (j & Hj & Ej) & _); [lia|].
  assert (HD : forall i, (Datatypes.S i < length u)%nat -> nth (Datatypes.S i) u 0 - nth i u 0 == 100 / Qn (Datatypes.S n)). { intros k Hk. rewrite !(Forall2_Qeq_nth _ _ _ _ HE). apply HD0. lia. }
  rewrite E. rewrite isclose_refl by (rewrite Ei, Ej, !HD by assumption; reflexivity). cbn [negb]. rewrite L, Ln, Nat.eqb_refl. reflexivity.
Qed.
Lemma rebadge_default n l : choose_set_of_percentiles n Quantile = Ok l -> rebadge_as_realizations l false None = Ok (map Z.of_nat (seq 0 n)).
Proof.
  intro C. pose proof (choose_quantile n l C) as [Ln _]. rewrite <- (rebadge_chosen n l (map Z.of_nat (seq 0 n)) C) by (rewrite map_length; apply seq_length). unfold rebadge_as_realizations. rewrite Ln. reflexivity.
Qed.

Section command.
Variables (rng : option Z -> list (list Q)) (numba warn skip : bool) (lower upper : Q) (s : seed) (count : option nat) (raw : option raw_ensemble).
Hypothesis Hb : lower <= upper.
Let run f := generate rng numba warn skip (lower, upper) s count raw f.

(** A cube that already has realizations is given back; anything that is neither percentiles nor probabilities is refused, as are percentiles and probabilities without a number of realizations and without a raw ensemble. *)
Theorem C119_unchanged : run AlreadyRealizations = Ok None.
Proof. reflexivity. Qed.
Theorem C119_refused f : f = OtherForecast \/ (f <> AlreadyRealizations /\ count = None /\ raw = None) -> run f = Err ValueError.
Proof. unfold run. intros [-> |(N & -> & ->)]; [reflexivity|]. destruct f; [contradiction|reflexivity..]. Qed.

(** The forecast given: percentiles, or probabilities, whose values do not fall. *)
Definition forecast_points (f : forecast) : nat := match f with PercentileForecast _ rows => length rows | ProbabilityForecast _ _ probs => length probs | _ => 0 end.
Definition proper_forecast (f : forecast) : Prop :=
  match f with PercentileForecast pcts rows => pcts <> [] /\ Forall qsorted rows | ProbabilityForecast _ ths _ => qsorted ths /\ ths <> [] | _ => False end.
(** The raw ensemble, if given: distinct realizations, at least one, a row of members for each point, and random numbers of that shape. *)
Definition proper_raw (n : nat) (f : forecast) : Prop :=
  match raw with
  | None => True
  | Some r => exists members, re_numbers r = Some members /\ NoDup members /\ members <> [] /\ length (re_members r) = forecast_points f /\ (forall z, length (rng z) = forecast_points f /\ Forall (fun d => length d = n) (rng z))
  end.

Lemma percentiles_rows f n p cal : proper_forecast f -> equal_percentiles numba warn skip (lower, upper) f n = Ok (p, cal) ->
  choose_set_of_percentiles n Quantile = Ok p /\ length cal = forecast_points f /\ Forall (fun r => length r = n /\ qsorted r) cal.
Proof.
  intros P H. destruct f as [|pcts rows|rel ths probs|]; try contradiction; cbn [equal_percentiles forecast_points] in *.
  - pose proof (resample_default _ _ _ _ _ _ _ _ _ _ H) as C. cbn in C. pose proof (choose_quantile _ _ C) as [Ln _]. pose proof (choose_quantile_props _ _ C) as (Sp & _). split; [exact C|].
    pose proof (resample_monotone _ _ _ _ _ _ _ _ _ _ _ _ Hb H (proj2 P) (qssorted_qsorted _ Sp)) as Mo. destruct (resample_inv _ _ _ _ _ _ _ _ _ _ _ H) as (xp & fp & E & _ & ->).
    assert (Lf : length fp = length rows). { destruct (extended_rows _ _ _ _ _ _ _ _ Hb E) as [(_ & _ & ->)|(_ & _ & lo & hi & -> & _)]; [reflexivity|apply map_length]. }
    rewrite map_length. split; [exact Lf|]. rewrite Forall_forall in *. intros r I. split; [|exact (Mo r I)]. apply in_map_iff in I as (q & <- & _). rewrite map_length. exact Ln.
  - destruct P as [St Nt]. destruct (probs_to_percentiles numba warn skip false rel (lower, upper) ths probs None (Some n) Quantile) as [[p' out]|] eqn:E; [|discriminate]. cbn [bind] in H. injection H as -> <-.
    destruct (p2p_inv _ _ _ _ _ _ _ _ _ _ _ _ _ E) as (_ & _ & _ & _ & _ & _ & [C|[_ C]]); [discriminate|]. split; [exact C|]. pose proof (choose_quantile _ _ C) as [Ln _]. pose proof (choose_quantile_props _ _ C) as (Sp & _).
    pose proof (p2p_monotone _ _ _ _ (lower, upper) _ _ _ _ _ _ _ Hb St E (qssorted_qsorted _ Sp)) as Mo. destruct (p2p_rows _ _ _ _ _ (lower, upper) _ _ _ _ _ _ _ Hb St E) as (fp & o & _ & F & _ & _ & ->).
    assert (Lo : length o = length probs). { rewrite (Forall2_len _ _ _ F), map_length. unfold cdf_rows. destruct skip; rewrite ?map_length; reflexivity. }
    rewrite !map_length. split; [exact Lo|]. rewrite map_map. rewrite Forall_forall in *. intros r I. apply in_map_iff in I as (q & <- & I). rewrite map_map, map_id. specialize (Mo (map Some q) (in_map _ _ _ I)). destruct Mo as [_ Mo]. split.
    + clear -F I Ln. revert F. generalize (cdf_rows skip rel probs). clear -I Ln. intros rows F. revert rows F. induction o as [|r o IH]; intros [|c rows] F; inversion F; subst; [destruct I|]. destruct I as [->|I]; [|exact (IH I rows H4)]. rewrite (Forall2_len _ _ _ H2), map_length. reflexivity.
    + rewrite <- (unmask_some q). exact Mo.
Qed.

Definition count_of (n : nat) : Prop := realizations_count count raw = Ok n.
(** What the realizations are, in short: at each point the values of the equal percentiles of the forecast, each once. *)
Lemma generated f n nums out : proper_forecast f -> proper_raw n f -> count_of n -> (0 < n)%nat -> run f = Ok (Some (nums, out)) ->
  exists p cal, equal_percentiles numba warn skip (lower, upper) f n = Ok (p, cal) /\ choose_set_of_percentiles n Quantile = Ok p /\ length cal = forecast_points f /\ Forall (fun r => length r = n /\ qsorted r) cal /\
    match raw with
    | None => nums = map Z.of_nat (seq 0 n) /\ out = map (map Some) cal
    | Some r => exists members, re_numbers r = Some members /\ ecc_process rng false s p members [ecc_points cal (re_members r)] = Ok (nums, [out]) 
    end.
Proof.
  intros Pf Pr Cn N0 H. unfold run, generate in H. unfold count_of in Cn. rewrite Cn in H. cbn [bind] in H.
  assert (H' : (let* (pcts, cal) := equal_percentiles numba warn skip (lower, upper) f n in match raw with Some r => match re_numbers r with None => Err CoordinateNotFoundError | Some members => let* (nums, out) := ecc_process rng false s pcts members [ecc_points cal (re_members r)] in match out with [o] => Ok (Some (nums, o)) | _ => Err ValueError end end | None => let* nums := rebadge_as_realizations pcts false None in Ok (Some (nums, map (map Some) cal)) end) = Ok (Some (nums, out))) by (destruct f; [discriminate|exact H|exact H|discriminate]). clear H.
  destruct (equal_percentiles _ _ _ _ f n) as [[p cal]|] eqn:E; [|discriminate]. cbn [bind] in H'. destruct (percentiles_rows f n p cal Pf E) as (C & L & R). exists p, cal. split; [reflexivity|]. split; [exact C|]. split; [exact L|]. split; [exact R|].
  destruct raw as [r|].
  - destruct (re_numbers r) as [members|]; [|discriminate]. exists members. split; [reflexivity|]. destruct (ecc_process _ _ _ _ _ _) as [[nn oo]|]; [|discriminate]. cbn [bind] in H'. destruct oo as [|o [|]]; try discriminate. injection H' as -> ->. reflexivity.
  - rewrite (rebadge_default n p C) in H'. cbn [bind] in H'. injection H' as <- <-. auto.
Qed.
Lemma points_fine n f cal r : length cal = forecast_points f -> length (re_members r) = forecast_points f -> Forall (fun r => length r = n /\ qsorted r) cal ->
  Forall (fun p => length (ep_cal p) = n /\ length (ep_mask p) = n /\ Forall (fun b => b = false) (ep_mask p)) (ecc_points cal (re_members r)) /\ length (ecc_points cal (re_members r)) = forecast_points f.
Proof.
  intros L Lr F. unfold ecc_points. split; [|rewrite map_length, combine_length; lia]. rewrite Forall_forall in *. intros q I. apply in_map_iff in I as ([c m] & <- & I). apply in_combine_l in I. cbn [ep_cal ep_mask fst]. destruct (F c I) as [Lc _]. rewrite map_length. split; [exact Lc|]. split; [exact Lc|]. apply Forall_forall. intros b B. apply in_map_iff in B as (? & <- & _). reflexivity.
Qed.

(** As many realizations as asked for, or as the raw ensemble has: with its numbers, if that many were asked for, otherwise numbered on from its first; without a raw ensemble from 0. *)
Theorem C119_numbers f n nums out : proper_forecast f -> proper_raw n f -> count_of n -> (0 < n)%nat -> run f = Ok (Some (nums, out)) ->
  length nums = n /\ nums = match raw with
    | Some r => match re_numbers r with Some members => if (n =? length members)%nat then members else map (fun i => (hd 0 members + Z.of_nat i)%Z) (seq 0 n) | None => [] end
    | None => map Z.of_nat (seq 0 n) end.
Proof.
  intros Pf Pr Cn N0 H. destruct (generated f n nums out Pf Pr Cn N0 H) as (p & cal & E & C & L & R & G). pose proof (choose_quantile _ _ C) as [Ln _]. unfold proper_raw in Pr. destruct raw as [r|].
  - destruct G as (members & Em & G). destruct Pr as (m' & Em' & Nd & Ne & Lr & Rg). rewrite Em in Em'. injection Em' as <-. rewrite Em. destruct (points_fine n f cal r L Lr R) as [_ Lp].
    pose proof (C16_numbers rng false s p members _ nums out Nd Ne ltac:(destruct p; [cbn in Ln; lia|discriminate]) ltac:(intro z; rewrite Lp, Ln; exact (Rg z)) G) as N. rewrite Ln in N. split; [|exact N]. rewrite N. destruct (Nat.eqb_spec n (length members)); [congruence|]. rewrite map_length. apply seq_length.
  - destruct G as [-> _]. split; [|reflexivity]. rewrite map_length. apply seq_length.
Qed.

(** At every point: n values, none masked, that sorted are a list of quantiles, in the order of the raw ensemble (used again from its first member when there are fewer members than realizations): a member with a lower raw value has no higher value. Without a raw ensemble they ascend. *)
Theorem C119_realizations f n nums out : proper_forecast f -> proper_raw n f -> count_of n -> (0 < n)%nat -> run f = Ok (Some (nums, out)) ->
  exists p cal, equal_percentiles numba warn skip (lower, upper) f n = Ok (p, cal) /\ length out = forecast_points f /\ length cal = forecast_points f /\ forall k, (k < forecast_points f)%nat ->
    exists vals, nth k out [] = map Some vals /\ length vals = n /\ qsorted (nth k cal []) /\ Permutation (nth k cal []) vals /\
      (raw = None -> vals = nth k cal []) /\
      forall r members i j, raw = Some r -> re_numbers r = Some members -> (i < n)%nat -> (j < n)%nat ->
        let member x := nth (x mod length members) (nth k (re_members r) []) 0 in member i < member j -> nth i vals 0 <= nth j vals 0.
Proof.
  intros Pf Pr Cn N0 H. destruct (generated f n nums out Pf Pr Cn N0 H) as (p & cal & E & C & L & R & G). pose proof (choose_quantile _ _ C) as [Ln _]. exists p, cal. split; [exact E|].
  assert (Rk : forall k, (k < forecast_points f)%nat -> length (nth k cal []) = n /\ qsorted (nth k cal [])). { intros k Hk. rewrite Forall_forall in R. apply R. apply nth_In. lia. }
  unfold proper_raw in Pr. destruct raw as [r|].
  - destruct G as (members & Em & G). destruct Pr as (m' & Em' & Nd & Ne & Lr & Rg). rewrite Em in Em'. injection Em' as <-. destruct (points_fine n f cal r L Lr R) as [Pp Lp].
    pose proof (C15_process rng false s p members _ nums out Nd Ne ltac:(destruct p; [cbn in Ln; lia|discriminate]) ltac:(intro z; rewrite Lp, Ln; exact (Rg z)) ltac:(rewrite Ln; exact Pp) G) as V. pose proof (Forall2_len _ _ _ V) as Lo. rewrite Lp in Lo. split; [symmetry; exact Lo|]. split; [exact L|].
    intros k Hk. destruct (Rk k Hk) as [R1 R2]. assert (Vk : exists vals, nth k out [] = map Some vals /\ Permutation (nth k cal []) vals /\ forall i j, (i < n)%nat -> (j < n)%nat -> nth (i mod length members) (nth k (re_members r) []) 0 < nth (j mod length members) (nth k (re_members r) []) 0 -> nth i vals 0 <= nth j vals 0).
    { assert (Nk : nth_error (ecc_points cal (re_members r)) k = Some {| ep_raw := nth k (re_members r) []; ep_cal := nth k cal []; ep_mask := map (fun _ => false) (nth k cal []) |}).
      { unfold ecc_points. rewrite nth_error_map. assert (Cx : nth_error (combine cal (re_members r)) k = Some (nth k cal [], nth k (re_members r) [])). { rewrite <- combine_nth by lia. apply nth_error_nth'. rewrite combine_length. lia. } rewrite Cx. reflexivity. }
      assert (Ok : nth_error out k = Some (nth k out [])) by (apply nth_error_nth'; lia).
      clear -V Nk Ok R2 Ln. revert V Nk Ok. generalize (ecc_points cal (re_members r)). intros pts V Nk Ok. destruct (nth_error out k) as [o|] eqn:Eo; [|discriminate]. injection Ok as <-.
      assert (X : forall (A B : Type) (P : A -> B -> Prop) l m i a b, Forall2 P l m -> nth_error l i = Some a -> nth_error m i = Some b -> P a b). { clear. intros A B P l m i a b F. revert i. induction F; intros [|i] HA HB; cbn in *; try discriminate; [congruence|eauto]. }
      destruct (X _ _ _ _ _ k _ _ V Nk Eo) as (vals & -> & Pm & Or). cbn [ep_cal ep_raw] in *. exists vals. split; [reflexivity|]. split; [exact Pm|]. rewrite <- Ln. exact (Or eq_refl R2). }
    destruct Vk as (vals & V1 & V2 & V3). exists vals. split; [exact V1|]. split; [rewrite <- (Permutation_length V2); exact R1|]. split; [exact R2|]. split; [exact V2|]. split; [discriminate|]. intros r' members' i j Er Em' Hi Hj. injection Er as <-. rewrite Em in Em'. injection Em' as <-. exact (V3 i j Hi Hj).
  - destruct G as [-> ->]. rewrite map_length. split; [exact L|]. split; [exact L|]. intros k Hk. destruct (Rk k Hk) as [R1 R2]. exists (nth k cal []). split; [rewrite nth_map_lt with (d := []) by lia; reflexivity|]. split; [exact R1|]. split; [exact R2|]. split; [apply Permutation_refl|]. split; [reflexivity|]. intros ? ? ? ? X. discriminate.
Qed.

(** Nothing else can fail: if the percentiles can be made, so can the realizations, for every seed. *)
Theorem C119_total f n pc : proper_forecast f -> proper_raw n f -> count_of n -> (0 < n)%nat -> s <> SeedState -> equal_percentiles numba warn skip (lower, upper) f n = Ok pc -> exists nums out, run f = Ok (Some (nums, out)).
Proof.
  intros Pf Pr Cn N0 Sd E. destruct pc as [p cal]. destruct (percentiles_rows f n p cal Pf E) as (C & L & R). pose proof (choose_quantile _ _ C) as [Ln _].
  assert (X : exists nums out, (let* (pcts, cal) := equal_percentiles numba warn skip (lower, upper) f n in match raw with Some r => match re_numbers r with None => Err CoordinateNotFoundError | Some members => let* (nums, out) := ecc_process rng false s pcts members [ecc_points cal (re_members r)] in match out with [o] => Ok (Some (nums, o)) | _ => Err ValueError end end | None => let* nums := rebadge_as_realizations pcts false None in Ok (Some (nums, map (map Some) cal)) end) = Ok (Some (nums, out))).
  { rewrite E. cbn [bind]. unfold proper_raw in Pr. destruct raw as [r|].
    - destruct Pr as (members & Em & Nd & Ne & Lr & Rg). rewrite Em. unfold ecc_process. destruct (recycle_any (length p) members Nd Ne ltac:(lia)) as (nums & HR & Hn). rewrite HR. cbn [bind map].
      match goal with |- context[rank_loop rng false s [?t]] => destruct (loop_single rng false s t Sd) as [o Ho] end.
      { intro z. destruct (Rg z) as [Rl Rf]. destruct (points_fine n f cal r L Lr R) as [Pp Lp]. rewrite <- Lp in Rl. clear -Rl Rf Pp N0 Ln. revert Rl Rf. generalize (rng z). induction Pp as [|q t (P1 & P2 & P3) Pp IH]; intros [|d ds] Rl Rf; cbn in Rl; try discriminate; constructor.
        - inversion Rf; subst. cbn [ep_raw ep_cal]. rewrite !map_length, seq_length. split; [congruence|]. split; [congruence|]. destruct p; [cbn in *; lia|discriminate].
        - apply IH; [lia|inversion Rf; assumption]. }
      rewrite Ho. cbn [bind]. rewrite (rebadge_chosen n p nums C). { cbn [bind]. eauto. }
      rewrite Hn. destruct (Nat.eqb_spec (length p) (length members)); [congruence|]. rewrite map_length, seq_length. exact Ln.
    - rewrite (rebadge_default n p C). cbn [bind]. eauto. }
  unfold run, generate. unfold count_of in Cn. rewrite Cn. cbn [bind]. destruct f; try contradiction; exact X.
Qed.

(** ** The values *)
(** The i-th smallest value at a point: the number of the realizations not above it is at least i + 1. *)
Definition ranked (vals : list Q) (i : nat) (q : Q) : Prop := exists sorted, Permutation sorted vals /\ qsorted sorted /\ nth i sorted 0 == q.
(** From percentiles: all values lie within the range of the forecast and of the bounds; and at each percentile of the forecast that is among those asked for, (i + 1) / (n + 1), the i-th smallest value is the forecast's. *)
Theorem C119_percentile_range pcts rows n nums out k b1 b2 : proper_forecast (PercentileForecast pcts rows) -> proper_raw n (PercentileForecast pcts rows) -> count_of n -> (0 < n)%nat -> run (PercentileForecast pcts rows) = Ok (Some (nums, out)) -> (k < length rows)%nat ->
  Forall (Forall (fun x => b1 <= x <= b2)) rows -> (skip = false -> b1 <= lower /\ upper <= b2) -> exists vals, nth k out [] = map Some vals /\ Forall (fun v => b1 <= v <= b2) vals.
Proof.
  intros Pf Pr Cn N0 H Hk B1 B2. destruct (C119_realizations _ _ _ _ Pf Pr Cn N0 H) as (p & cal & E & _ & Lc & V). destruct (V k Hk) as (vals & -> & _ & _ & Pm & _). exists vals. split; [reflexivity|].
  cbn [equal_percentiles] in E. pose proof (resample_within _ _ _ _ _ _ _ _ _ _ _ _ b1 b2 Hb E (proj1 Pf) B1 B2) as W. cbn in Lc, Hk. assert (I : In (nth k cal []) cal) by (apply nth_In; lia). unfold all_in in W. rewrite Forall_forall in W. pose proof (W _ I) as Wk. rewrite Forall_forall in *. intros v Hv. apply Wk. apply (Permutation_in _ (Permutation_sym Pm)). exact Hv.
Qed.
Theorem C119_percentile_values_partial pcts rows n nums out k i j : proper_forecast (PercentileForecast pcts rows) -> proper_raw n (PercentileForecast pcts rows) -> count_of n -> (0 < n)%nat -> run (PercentileForecast pcts rows) = Ok (Some (nums, out)) -> (k < length rows)%nat ->
  spaced (if skip then pcts else 0 :: pcts ++ [100]) -> (i < n)%nat -> (j < length pcts)%nat -> nth j pcts 0 == 100 * Qn (Datatypes.S i) / Qn (Datatypes.S n) -> exists vals, nth k out [] = map Some vals /\ length vals = n /\ ranked vals i (nth j (nth k rows []) 0).
Proof.
  intros Pf Pr Cn N0 H Hk Sp Hi Hj Ep. destruct (C119_realizations _ _ _ _ Pf Pr Cn N0 H) as (p & cal & E & _ & Lc & V). destruct (V k Hk) as (vals & -> & Lv & Sk & Pm & _). exists vals. split; [reflexivity|]. split; [exact Lv|]. exists (nth k cal []). split; [exact Pm|]. split; [exact Sk|].
  destruct (percentiles_rows _ n p cal Pf E) as (C & _ & _). pose proof (choose_quantile _ _ C) as [Ln Qv]. cbn [equal_percentiles] in E. apply (resample_knot _ _ _ _ _ _ _ _ _ _ _ _ k i j Hb E Sp Hk ltac:(lia) Hj). rewrite (Qv i Hi). symmetry. exact Ep.
Qed.
(** From probabilities: all values lie within the thresholds and the bounds; and where the probability of not exceeding a threshold is (i + 1) / (n + 1), the i-th smallest value is that threshold. *)
Theorem C119_probability_range rel ths probs n nums out k b1 b2 : proper_forecast (ProbabilityForecast rel ths probs) -> proper_raw n (ProbabilityForecast rel ths probs) -> count_of n -> (0 < n)%nat -> run (ProbabilityForecast rel ths probs) = Ok (Some (nums, out)) -> (k < length probs)%nat ->
  Forall (fun t => b1 <= t <= b2) ths -> (skip = false -> b1 <= lower /\ upper <= b2) -> exists vals, nth k out [] = map Some vals /\ Forall (fun v => b1 <= v <= b2) vals.
Proof.
  intros Pf Pr Cn N0 H Hk B1 B2. destruct (C119_realizations _ _ _ _ Pf Pr Cn N0 H) as (p & cal & E & _ & Lc & V). destruct (V k Hk) as (vals & -> & _ & _ & Pm & _). exists vals. split; [reflexivity|]. cbn [equal_percentiles] in E.
  destruct (probs_to_percentiles numba warn skip false rel (lower, upper) ths probs None (Some n) Quantile) as [[p' o]|] eqn:Ep; [|discriminate]. cbn [bind] in E. injection E as -> <-. destruct Pf as [St Nt]. pose proof (p2p_bounds _ _ _ _ _ (lower, upper) _ _ _ _ _ _ _ b1 b2 Hb St Nt Ep B1 B2) as W.
  pose proof (p2p_monotone _ _ _ _ (lower, upper) _ _ _ _ _ _ _ Hb St Ep) as Mo. clear V. cbn in Lc, Hk. rewrite map_length in Lc. rewrite nth_map_lt with (d := []) in Pm by lia. assert (I : In (nth k o []) o) by (apply nth_In; lia). rewrite Forall_forall in W. pose proof (W _ I) as Wk.
  assert (Sp : qsorted p). { destruct (p2p_inv _ _ _ _ _ _ _ _ _ _ _ _ _ Ep) as (_ & _ & _ & _ & _ & _ & [C|[_ C]]); [discriminate|]. apply choose_quantile_props in C as (Sp & _). apply qssorted_qsorted. exact Sp. }
  specialize (Mo Sp). rewrite Forall_forall in Mo. destruct (Mo _ I) as [Nn _]. rewrite Forall_forall in *. intros v Hv. apply (Permutation_in _ (Permutation_sym Pm)) in Hv. apply in_map_iff in Hv as (x & <- & Ix). pose proof (Wk x Ix) as Wx. destruct x; [exact Wx|]. exfalso. exact (Nn None Ix eq_refl).
Qed.
Theorem C119_probability_values_partial rel ths probs n nums out k i j : proper_forecast (ProbabilityForecast rel ths probs) -> proper_raw n (ProbabilityForecast rel ths probs) -> count_of n -> (0 < n)%nat -> run (ProbabilityForecast rel ths probs) = Ok (Some (nums, out)) -> (k < length probs)%nat ->
  let cdf := map (fun q => match rel with Above => 1 - around9 q | Below => around9 q end) (nth k probs []) in
  qssorted cdf -> (skip = false -> Forall (fun c => 0 < c < 1) cdf) -> (i < n)%nat -> (j < length ths)%nat -> nth j cdf 0 == Qn (Datatypes.S i) / Qn (Datatypes.S n) -> exists vals, nth k out [] = map Some vals /\ length vals = n /\ ranked vals i (nth j ths 0).
Proof.
  intros Pf Pr Cn N0 H Hk cdf Sc In01 Hi Hj Ec. destruct (C119_realizations _ _ _ _ Pf Pr Cn N0 H) as (p & cal & E & _ & Lc & V). destruct (V k Hk) as (vals & -> & Lv & Sk & Pm & _). exists vals. split; [reflexivity|]. split; [exact Lv|]. exists (nth k cal []). split; [exact Pm|]. split; [exact Sk|].
  destruct (percentiles_rows _ n p cal Pf E) as (C & _ & R). pose proof (choose_quantile _ _ C) as [Ln Qv]. cbn [equal_percentiles] in E.
  destruct (probs_to_percentiles numba warn skip false rel (lower, upper) ths probs None (Some n) Quantile) as [[p' o]|] eqn:Ep; [|discriminate]. cbn [bind] in E. injection E as -> <-. cbn in Lc, Hk. rewrite map_length in Lc.
  pose proof (C14_inverts_cdf _ _ _ _ (lower, upper) _ _ _ _ _ _ _ k i j Hb (proj1 Pf) Ep Hk ltac:(lia) Hj Sc In01) as V'. rewrite nth_map_lt with (d := []) by lia. assert (Lk : length (nth k o []) = n). { rewrite Forall_forall in R. destruct (R (map (fun x => match x with Some v => v | None => 0 end) (nth k o []))) as [Rl _]; [apply in_map, nth_In; lia|]. rewrite map_length in Rl. exact Rl. }
  rewrite nth_map_lt with (d := None) by lia. fold cdf in V'. assert (Eq100 : nth i p 0 == 100 * nth j cdf 0) by (rewrite (Qv i Hi), Ec; unfold Qdiv; ring). destruct (V' Eq100) as (v & -> & Ev). exact Ev.
Qed.
End command.

(** A raw ensemble without a realization coordinate is refused even if the number of realizations is given. *)
Theorem C119_raw_without_realizations rng numba warn skip bounds s count ms f n pc : count = Some n -> equal_percentiles numba warn skip bounds f n = Ok pc ->
  generate rng numba warn skip bounds s count (Some {| re_numbers := None; re_members := ms |}) f = match f with AlreadyRealizations => Ok None | OtherForecast => Err ValueError | _ => Err CoordinateNotFoundError end.
Proof. intros -> E. destruct pc as [p cal]. destruct f; try reflexivity; unfold generate, realizations_count; cbn [bind]; rewrite E; reflexivity. Qed.

(** A case: quartiles at two points; three raw members numbered 4, 5 and 7; three realizations with no raw ensemble; and four realizations of probabilities from three members. *)
Definition draws : option Z -> list (list Q) := fun _ => [[1#2; 1#4; 1#3]; [1#2; 1#4; 1#3]].
Definition quartiles : forecast := PercentileForecast [25; 50; 75] [[1; 2; 4]; [10; 20; 30]].
Definition three_members : raw_ensemble := {| re_numbers := Some [4; 5; 7]%Z; re_members := [[9; 3; 6]; [0; 2; 1]] |}.
Definition result_is (r : result (option (list Z * list (list (option Q))))) (nums : list Z) (vals : list (list Q)) : bool :=
  match r with
  | Ok (Some (ns, o)) => (forallb (fun p => Z.eqb (fst p) (snd p)) (combine ns nums) && (length ns =? length nums)%nat && (length o =? length vals)%nat &&
      forallb (fun p => (length (fst p) =? length (snd p))%nat && forallb (fun q => match fst q with Some x => x =? snd q | None => false end) (combine (fst p) (snd p))) (combine o vals))%bool
  | _ => false end.
Example C119_case :
  result_is (generate draws false false false (0, 100) SeedNone None (Some three_members) quartiles) [4; 5; 7]%Z [[4; 1; 2]; [10; 30; 20]] = true /\
  result_is (generate draws false false false (0, 100) SeedNone (Some 3%nat) None quartiles) [0; 1; 2]%Z [[1; 2; 4]; [10; 20; 30]] = true /\
  result_is (generate (fun _ => [[1#2; 1#4; 1#3; 1#5]]) false false false (0, 10) SeedNone (Some 4%nat) (Some {| re_numbers := Some [4; 5; 7]%Z; re_members := [[9; 3; 6]] |})
     (ProbabilityForecast Above [1; 2] [[6 # 10; 2 # 10]])) [4; 5; 6; 7]%Z [[2; (1#2); 1; (3#2)]] = true /\
  proper_forecast quartiles /\ proper_raw draws (Some three_members) 3 quartiles /\ spaced (0 :: [25; 50; 75] ++ [100]) /\ nth 1 [25; 50; 75] 0 == 100 * Qn 2 / Qn 4.
Proof.
  split; [vm_compute; reflexivity|]. split; [vm_compute; reflexivity|]. split; [vm_compute; reflexivity|]. split.
  - split; [discriminate|]. repeat constructor; vm_compute; discriminate.
  - split; [|split].
    + exists [4; 5; 7]%Z. split; [reflexivity|]. split; [repeat constructor; cbn; intuition discriminate|]. split; [discriminate|]. split; [reflexivity|]. intro z. split; [reflexivity|]. repeat constructor.
    + unfold spaced. repeat (apply SSorted_cons || apply SSorted_nil); repeat (apply Forall_cons || apply Forall_nil); unfold gap, Qle, eps15; simpl; lia.
    + vm_compute. reflexivity.
Qed.

Print Assumptions C119_unchanged.
Print Assumptions C119_refused.
Print Assumptions C119_numbers.
Print Assumptions C119_realizations.
Print Assumptions C119_total.
Print Assumptions C119_percentile_range.
Print Assumptions C119_percentile_values_partial.
Print Assumptions C119_probability_range.
Print Assumptions C119_probability_values_partial.
Print Assumptions C119_raw_without_realizations.
