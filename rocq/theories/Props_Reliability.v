(** C19, C20, C21, C22, C23. *)
From Verif Require Import Base Interp Model_Percentiles Model_Reliability Spec_Reliability
  Proofs_Reliability Proofs_ReliabilityApply Proofs_ReliabilityBuild Proofs_ReliabilityMore.

(** * C19: combining undersampled bins *)
Theorem C19_terminates m t : exists fuel t', combine_undersampled fuel m t = Some t'.
Proof. exact (ex_intro _ (length t) (combine_terminates (length t) m t (le_S _ _ (le_n _)))). Qed.
(** The result is the input cut into consecutive runs, each united; every bin reaches
    the minimum or one bin is left. *)
Theorem C19_result fuel m t t' : combine_undersampled fuel m t = Some t' ->
  grouped t t' /\ (Forall (fun b => m <= rb_cnt b) t' \/ (length t' <= 1)%nat).
Proof. exact (combine_spec fuel m t t'). Qed.
Theorem C19_totals fuel m t t' : combine_undersampled fuel m t = Some t' ->
  qsum (map rb_obs t') == qsum (map rb_obs t) /\ qsum (map rb_prob t') == qsum (map rb_prob t) /\ qsum (map rb_cnt t') == qsum (map rb_cnt t).
Proof. exact (fun H => grouped_totals t t' (proj1 (combine_spec fuel m t t' H))). Qed.
Theorem C19_well_sampled_unchanged fuel m t : Forall (fun b => m <= rb_cnt b) t -> combine_undersampled fuel m t = Some t.
Proof. exact (combine_noop fuel m t). Qed.
(** Each pass merges the first bin with the largest count below the minimum with
    whichever neighbour holds fewer forecasts (the upper one on a tie). *)
Theorem C19_pass fuel m t : Exists (fun b => rb_cnt b < m) t -> (1 < length t)%nat -> exists k u,
  combine_undersampled (S fuel) m t = combine_undersampled fuel m (merge_at u t) /\
  (k < length t)%nat /\ rb_cnt (nth k t rb0) < m /\
  (forall j, (j < length t)%nat -> rb_cnt (nth j t rb0) < m ->
     rb_cnt (nth j t rb0) <= rb_cnt (nth k t rb0) /\ ((j < k)%nat -> rb_cnt (nth j t rb0) < rb_cnt (nth k t rb0))) /\
  (1 <= u < length t)%nat /\
  ((u = k /\ ((S k < length t)%nat -> rb_cnt (nth (k - 1) t rb0) < rb_cnt (nth (S k) t rb0))) \/
   (u = S k /\ (k = 0%nat \/ rb_cnt (nth (S k) t rb0) <= rb_cnt (nth (k - 1) t rb0)))).
Proof.
  intros HE HL.
  assert (E : existsb (fun c => c <? m) (map rb_cnt t) = true).
  { apply Exists_exists in HE as (b & Hb & Hc). apply existsb_exists. exists (rb_cnt b). split; [apply in_map; exact Hb|apply Qltb_lt; exact Hc]. }
  destruct (argmax_some m _ E) as (k & Hk & Lk & _). pose proof (argmax_choice m _ k Hk) as (A & B & C). rewrite map_length in *.
  assert (N : forall j, nth j (map rb_cnt t) 0 = rb_cnt (nth j t rb0)) by (intro j; exact (map_nth rb_cnt t rb0 j)).
  pose proof (pick_neighbour (map rb_cnt t) k) as P. rewrite map_length in P. specialize (P A HL). cbv zeta in P. destruct P as (P1 & P2 & P3 & P4).
  exists k, (pick_upper (map rb_cnt t) k). split; [apply combine_step; assumption|]. split; [exact A|]. rewrite N in B. split; [exact B|]. split.
  - intros j Hj Hm. specialize (C j Hj). rewrite !N in C. exact (C Hm).
  - split; [lia|]. destruct P1 as [P1|P1].
    + left. split; [exact P1|]. destruct (P3 P1) as [_ P5]. rewrite !N in P5. exact P5.
    + right. split; [exact P1|]. destruct (P4 P1) as [P5|P5]; [left; exact P5|]. rewrite !N in P5. right; exact P5.
Qed.
Definition bin (o p c lo hi : Q) : rbin := {| rb_obs := o; rb_prob := p; rb_cnt := c; rb_lo := lo; rb_hi := hi |}.
Example C19_case : option_map (map rb_cnt) (combine_undersampled 3 200
    [bin 0 10 150 0 (1#3); bin 50 75 160 (1#3) (2#3); bin 90 90 100 (2#3) 1]) = Some [410] /\
  option_map (map rb_cnt) (combine_undersampled 3 200
    [bin 0 10 350 0 (1#3); bin 50 75 160 (1#3) (2#3); bin 90 90 100 (2#3) 1]) = Some [350; 260].
Proof. split; vm_compute; reflexivity. Qed.

(** * C20: the manipulated table *)
Theorem C20_total m t : 1 <= m -> exists t', manipulate m t = Ok t'.
Proof. exact (manipulate_total m t). Qed.
Theorem C20_monotone m t t' : manipulate m t = Ok t' -> qsorted (map freq t').
Proof. exact (manipulate_monotone m t t'). Qed.
Theorem C20_unchanged m t : 1 <= m -> Forall (fun b => m <= rb_cnt b) t -> qsorted (map freq t) -> manipulate m t = Ok t.
Proof. exact (manipulate_noop m t). Qed.
Theorem C20_totals m t t' : manipulate m t = Ok t' ->
  qsum (map rb_prob t') == qsum (map rb_prob t) /\ qsum (map rb_cnt t') == qsum (map rb_cnt t).
Proof. exact (manipulate_totals m t t'). Qed.
(** Apart from the observation counts, runs of consecutive bins are united. *)
Theorem C20_runs m t t' : manipulate m t = Ok t' -> exists t2 os, grouped t t2 /\ length os = length t2 /\
  t' = map (fun p => with_obs (fst p) (snd p)) (combine t2 os).
Proof. exact (manipulate_grouped m t t'). Qed.
Theorem C20_min_count m t t' : manipulate m t = Ok t' -> Forall (fun b => m <= rb_cnt b) t' \/ (length t' <= 1)%nat.
Proof. exact (manipulate_min_count m t t'). Qed.
(** Observed frequencies stay frequencies. *)
Theorem C20_valid m t t' : manipulate m t = Ok t' -> Forall (fun b => 0 <= rb_obs b <= rb_cnt b) t ->
  Forall (fun b => 0 <= rb_obs b <= rb_cnt b) t'.
Proof. exact (manipulate_valid m t t'). Qed.
(** Adjusted frequencies are running maxima from below, or, if the lowest bin holds
    fewer forecasts than the highest, running minima from above. *)
Theorem C20_held_up counts fr i : last counts 0 <= hd 0 counts -> (i < length fr)%nat ->
  (forall j, (j <= i)%nat -> nth j fr 0 <= nth i (constant_freq counts fr) 0) /\ In (nth i (constant_freq counts fr) 0) (firstn (S i) fr).
Proof. exact (constant_freq_up counts fr i). Qed.
Theorem C20_held_down counts fr i : hd 0 counts < last counts 0 -> (i < length fr)%nat ->
  (forall j, (i <= j < length fr)%nat -> nth i (constant_freq counts fr) 0 <= nth j fr 0) /\ In (nth i (constant_freq counts fr) 0) (skipn i fr).
Proof. exact (constant_freq_down counts fr i). Qed.
Theorem C20_adjusted_frequencies m t t' t1 : manipulate m t = Ok t' -> combine_undersampled (length t) m t = Some t1 -> ~ qsorted (map freq t1) ->
  Forall2 Qeq (map freq t') (constant_freq (map rb_cnt (combine_bin_pair t1)) (map freq (combine_bin_pair t1))).
Proof.
  intros H HC HS. apply manipulate_inv in H as (Hm & t1' & HC' & [[HS' _]|[_ ->]]); rewrite HC in HC'; injection HC' as <-; [contradiction|].
  exact (assume_constant_freq _ (grouped_forall _ _ _ union_pos (combine_pair_grouped t1) (combined_pos _ _ _ _ Hm HC HS))).
Qed.
Example C20_case : exists t', manipulate 200 [bin 100 50 1000 0 (1#5); bin 700 300 1000 (1#5) (2#5); bin 400 500 1000 (2#5) (3#5); bin 300 700 1000 (3#5) (4#5); bin 1000 900 1000 (4#5) 1] = Ok t' /\
  map rb_cnt t' = [1000; 1000; 2000; 1000] /\ Forall2 Qeq (map freq t') [1#10; 7#10; 7#10; 1].
Proof. eexists. split; [vm_compute; reflexivity|]. split; [reflexivity|]. repeat constructor. Qed.

(** * C21: applying a table *)
Theorem C21_in_unit_interval xs ys p : 0 <= interpolate xs ys p <= 1.
Proof. exact (interpolate_bounds xs ys p). Qed.
Theorem C21_linear_inter_extrapolation xs ys p : length ys = length xs -> (2 <= length xs)%nat -> qssorted xs ->
  Forall (fun x => 0 <= x <= 1) xs -> 0 <= p <= 1 -> interpolate xs ys p == clip 0 1 (interp1d xs ys p).
Proof. exact (interpolate_spec xs ys p). Qed.
Theorem C21_monotone xs ys p p' : length ys = length xs -> (2 <= length xs)%nat -> qssorted xs -> Forall (fun x => 0 <= x <= 1) xs -> qsorted ys ->
  0 <= p -> p <= p' -> p' <= 1 -> interpolate xs ys p <= interpolate xs ys p'.
Proof. exact (interpolate_mono xs ys p p'). Qed.
(** A forecast equal to a bin's mean forecast is mapped to that bin's frequency. *)
Theorem C21_knots xs ys i : length ys = length xs -> (2 <= length xs)%nat -> qssorted xs -> Forall (fun x => 0 <= x <= 1) xs ->
  (i < length xs)%nat -> 0 <= nth i ys 0 <= 1 -> interpolate xs ys (nth i xs 0) == nth i ys 0.
Proof.
  intros HL H2 HX HF Hi Hy. rewrite interpolate_spec; trivial.
  - rewrite interp1d_knot by assumption. exact (clip_id 0 1 _ Hy).
  - rewrite Forall_forall in HF. exact (HF _ (nth_In xs 0 Hi)).
Qed.
Theorem C21_masked t : calibrate t None = None.
Proof. unfold calibrate. destruct (length t <? 2)%nat; reflexivity. Qed.
Theorem C21_too_few_bins t p : (length t < 2)%nat -> calibrate t p = p.
Proof. intro H. unfold calibrate. apply Nat.ltb_lt in H. rewrite H. reflexivity. Qed.
(** The chain: any table with ordered bins and means inside them, once manipulated,
    maps probabilities monotonically into [0,1]. *)
Theorem C21_after_manipulation m t t' p p' : manipulate m t = Ok t' ->
  ordered_bins t -> Forall (fun b => mean_inside b /\ 0 <= rb_cnt b /\ rb_lo b <= rb_hi b /\ 0 <= rb_lo b /\ rb_hi b <= 1) t ->
  0 <= p -> p <= p' -> p' <= 1 ->
  exists v v', calibrate t' (Some p) = Some v /\ calibrate t' (Some p') = Some v' /\ 0 <= v /\ v <= v' /\ v' <= 1.
Proof. exact (fun H A B => calibrate_chain m t t' p p' H (conj A B)). Qed.
Example C21_case : interpolate [1#10; 1#2; 9#10] [1#5; 1#2; 1] (3#10) == 7#20 /\ interpolate [1#10; 1#2; 9#10] [1#5; 1#2; 1] 1 == 1 /\
  interpolate [1#10; 1#2; 9#10] [1#5; 1#2; 1] 0 == 1#8.
Proof. repeat split; reflexivity. Qed.

(** * C22: building a table *)
(** Each bin of each point holds the number of its (forecast, truth) pairs with the
    forecast between its edges, their sum, and the number observed. *)
Theorem C22_bin_contents edges n times cells i b : qssorted edges -> Forall (fun s => length s = n) times ->
  build_table edges times = Ok cells -> (i < n)%nat -> (b < length edges - 1)%nat ->
  entry_eq (nth b (c_col (nth i cells {| c_col := []; c_masked := false |})) (0, 0, 0))
           (expected_entry edges b (map (fun s => nth i s (None, None)) times)).
Proof. exact (fun A B C D => proj2 (proj2 (build_good edges n times cells A B C) i D) b). Qed.
Theorem C22_one_bin edges p : qssorted edges -> (1 < length edges)%nat -> nth 0 edges 0 <= p -> p < nth (length edges - 1) edges 0 ->
  exists b, (b < length edges - 1)%nat /\ falls_in edges b (Some p) = true /\
    forall b', (b' < length edges - 1)%nat -> falls_in edges b' (Some p) = true -> b' = b.
Proof.
  intros A B C D. destruct (falls_exists edges p A B C D) as (b & Hb & Fb & _). exists b. split; [exact Hb|]. split; [exact Fb|].
  exact (fun b' Hb' Fb' => falls_unique edges b' b (Some p) A Hb' Hb Fb' Fb).
Qed.
(** Nothing is lost or counted twice: counts and sums over the bins add up. *)
Theorem C22_every_forecast_counted edges pairs : qssorted edges -> (1 < length edges)%nat ->
  Forall (fun ft => exists p t, ft = (Some p, Some t) /\ nth 0 edges 0 <= p /\ p < nth (length edges - 1) edges 0) pairs ->
  qsum (map (fun b => e_cnt (expected_entry edges b pairs)) (seq 0 (length edges - 1))) == Qlen pairs /\
  qsum (map (fun b => e_prob (expected_entry edges b pairs)) (seq 0 (length edges - 1))) == qsum (map forecast_value pairs).
Proof. exact (total_count edges pairs). Qed.
Theorem C22_nan_ignored edges b t pairs : entry_eq (expected_entry edges b ((None, t) :: pairs)) (expected_entry edges b pairs).
Proof. unfold expected_entry, observed, counted. cbn [filter fst snd]. destruct t; repeat split; reflexivity. Qed.
Theorem C22_masked_truth_ignored edges b f pairs : entry_eq (expected_entry edges b ((f, None) :: pairs)) (expected_entry edges b pairs).
Proof. repeat split; reflexivity. Qed.
Theorem C22_observations_and_mean edges n times cells i b : qssorted edges -> Forall (fun s => length s = n) times ->
  build_table edges times = Ok cells -> (i < n)%nat -> (b < length edges - 1)%nat ->
  let e := nth b (c_col (nth i cells {| c_col := []; c_masked := false |})) (0, 0, 0) in
  0 <= e_obs e /\ e_obs e <= e_cnt e /\ nth b edges 0 * e_cnt e <= e_prob e /\ e_prob e <= nth (S b) edges 0 * e_cnt e.
Proof.
  intros A B C D E e. destruct (proj2 (proj2 (build_good edges n times cells A B C) i D) b E) as (E1 & E2 & E3).
  destruct (expected_bounds edges b (pairs_at i times)) as (F1 & F2 & F3 & F4). subst e. unfold cell0, e0 in *. rewrite E1, E2, E3. repeat split; assumption.
Qed.
(** The default bins: on any float grid every representable probability lies within the
    (closed) bounds of exactly the bin it is counted in. *)
Theorem C22_default_bins F rnd prev next n low up bins p : float_grid F rnd prev next -> 1 < rnd (1 + tolerance) ->
  define_bins rnd prev next n low up = Ok bins -> (0 < n)%nat -> qssorted (bin_edges rnd bins) -> F p -> 0 <= p <= 1 ->
  exists b, (b < length bins)%nat /\ fst (nth b bins (0, 0)) <= p <= snd (nth b bins (0, 0)) /\ slot (bin_edges rnd bins) (Some p) = b /\
    falls_in (bin_edges rnd bins) b (Some p) = true.
Proof. exact (bins_cover F rnd prev next n low up bins p). Qed.
Example C22_case : float_grid grid grid_rnd grid_prev grid_next /\ 1 < grid_rnd (1 + tolerance) /\
  (exists bins, define_bins grid_rnd grid_prev grid_next 5 true true = Ok bins /\ length bins = 5%nat /\
     increasing_b (bin_edges grid_rnd bins) = true /\ slot (bin_edges grid_rnd bins) (Some 1) = 4%nat /\ slot (bin_edges grid_rnd bins) (Some (1#2)) = 2%nat /\
     slot (bin_edges grid_rnd bins) (Some 0) = 0%nat /\ slot (bin_edges grid_rnd bins) None = 5%nat) /\
  build_table [0; 1#2; 2] [[(Some (1#4), Some 1)]; [(Some (3#4), Some 1)]; [(Some (1#3), Some 0)]] =
    Ok [{| c_col := [(1 + 0 + 0, (1#4) + 0 + (1#3), 1 + 0 + 1); (0 + 1 + 0, 0 + (3#4) + 0, 0 + 1 + 0)]; c_masked := false |}].
Proof.
  split; [exact grid_ok|]. split; [reflexivity|]. split; [|reflexivity]. eexists. split; [reflexivity|]. split; [reflexivity|]. repeat split; vm_compute; reflexivity.
Qed.

(** * C23: additivity *)
Theorem C23_split_times edges n t1 t2 c1 c2 c i b : qssorted edges -> Forall (fun s => length s = n) (t1 ++ t2) ->
  build_table edges t1 = Ok c1 -> build_table edges t2 = Ok c2 -> build_table edges (t1 ++ t2) = Ok c -> (i < n)%nat -> (b < length edges - 1)%nat ->
  let at_ cells := nth b (c_col (nth i cells {| c_col := []; c_masked := false |})) (0, 0, 0) in
  e_obs (at_ c) == e_obs (at_ c1) + e_obs (at_ c2) /\ e_prob (at_ c) == e_prob (at_ c1) + e_prob (at_ c2) /\ e_cnt (at_ c) == e_cnt (at_ c1) + e_cnt (at_ c2).
Proof. exact (build_append edges n t1 t2 c1 c2 c i b). Qed.
Theorem C23_order_of_times edges n t1 t2 c1 c2 i b : qssorted edges -> Permutation t1 t2 -> Forall (fun s => length s = n) t1 ->
  build_table edges t1 = Ok c1 -> build_table edges t2 = Ok c2 -> (i < n)%nat -> (b < length edges - 1)%nat ->
  entry_eq (nth b (c_col (nth i c1 {| c_col := []; c_masked := false |})) (0, 0, 0)) (nth b (c_col (nth i c2 {| c_col := []; c_masked := false |})) (0, 0, 0)).
Proof. exact (build_perm edges n t1 t2 c1 c2 i b). Qed.
Theorem C23_aggregate_sums l r n k : aggregate l = Ok r -> (2 <= length l)%nat -> Forall (fun a => length (a_col a) = n) l -> (k < n)%nat ->
  e_obs (nth k (a_col r) (0, 0, 0)) == qsum (map (fun a => e_obs (nth k (a_col a) (0, 0, 0))) l) /\
  e_prob (nth k (a_col r) (0, 0, 0)) == qsum (map (fun a => e_prob (nth k (a_col a) (0, 0, 0))) l) /\
  e_cnt (nth k (a_col r) (0, 0, 0)) == qsum (map (fun a => e_cnt (nth k (a_col a) (0, 0, 0))) l).
Proof. exact (aggregate_sum l r n k). Qed.
(** Tables are accepted only if their reference time ranges are disjoint and in order. *)
Theorem C23_accepted_disjoint l r : Forall (fun a => (a_lo a <= a_hi a)%Z) l -> aggregate l = Ok r ->
  StronglySorted (fun a b => (a_hi a < a_lo b)%Z) l.
Proof. exact (aggregate_accepts l r). Qed.
(** Masks: with no masked truth no point is masked; if every time has a masked point, a
    point is masked iff it is masked at every time. *)
Theorem C23_no_mask edges n times cells : Forall (fun s => length s = n) times -> Forall (fun s => has_mask s = false) times ->
  build_table edges times = Ok cells -> Forall (fun c => c_masked c = false) cells.
Proof. exact (build_unmasked edges n times cells). Qed.
Theorem C23_mask_every_time_partial edges n times cells i : Forall (fun s => length s = n) times -> Forall (fun s => has_mask s = true) times ->
  build_table edges times = Ok cells -> (i < n)%nat ->
  c_masked (nth i cells {| c_col := []; c_masked := false |}) = forallb (fun ft => match snd ft with None => true | _ => false end) (map (fun s => nth i s (None, None)) times).
Proof. exact (build_all_masked_slices edges n times cells i). Qed.
(** But when a time without any masked point follows, the point stays masked although it
    has data: the result depends on the order of the times. *)
Theorem C23_mask_order_refuted : exists edges s1 s2 c c', build_table edges [s1; s2] = Ok c /\ build_table edges [s2; s1] = Ok c' /\
  map c_masked c = [true; false] /\ map c_masked c' = [false; false] /\ map c_col c = map c_col c'.
Proof.
  exists [0; 1#2; 2], [(Some (1#4), None); (Some 0, Some 0)], [(Some (1#4), Some 1); (Some 0, Some 0)]. do 2 eexists.
  split; [reflexivity|]. split; [reflexivity|]. repeat split; reflexivity.
Qed.
Example C23_case : exists r, aggregate [{| a_lo := 0; a_hi := 5; a_col := [(1, 2, 3)] |}; {| a_lo := 6; a_hi := 9; a_col := [(1, 1, 1)] |}] = Ok r /\
  a_lo r = 0%Z /\ a_hi r = 9%Z /\ a_col r = [(2, 3, 4)] /\
  aggregate [{| a_lo := 6; a_hi := 9; a_col := [(1, 1, 1)] |}; {| a_lo := 0; a_hi := 5; a_col := [(1, 2, 3)] |}] = Err ValueError.
Proof. eexists. split; [reflexivity|]. repeat split; reflexivity. Qed.

Print Assumptions C19_terminates.
Print Assumptions C19_result.
Print Assumptions C19_totals.
Print Assumptions C19_well_sampled_unchanged.
Print Assumptions C19_pass.
Print Assumptions C20_total.
Print Assumptions C20_monotone.
Print Assumptions C20_unchanged.
Print Assumptions C20_totals.
Print Assumptions C20_runs.
Print Assumptions C20_min_count.
Print Assumptions C20_valid.
Print Assumptions C20_held_up.
Print Assumptions C20_held_down.
Print Assumptions C20_adjusted_frequencies.
Print Assumptions C21_in_unit_interval.
Print Assumptions C21_linear_inter_extrapolation.
Print Assumptions C21_monotone.
Print Assumptions C21_knots.
Print Assumptions C21_masked.
Print Assumptions C21_too_few_bins.
Print Assumptions C21_after_manipulation.
Print Assumptions C22_bin_contents.
Print Assumptions C22_one_bin.
Print Assumptions C22_every_forecast_counted.
Print Assumptions C22_nan_ignored.
Print Assumptions C22_masked_truth_ignored.
Print Assumptions C22_observations_and_mean.
Print Assumptions C22_default_bins.
Print Assumptions C23_split_times.
Print Assumptions C23_order_of_times.
Print Assumptions C23_aggregate_sums.
Print Assumptions C23_accepted_disjoint.
Print Assumptions C23_no_mask.
Print Assumptions C23_mask_every_time_partial.
Print Assumptions C23_mask_order_refuted.
