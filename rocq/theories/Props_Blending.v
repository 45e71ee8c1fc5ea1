(** C24 - C27, C31: blending weights and weighted blending. *)
From Verif Require Import Base Interp Spec_Threshold Model_Blending Proofs_Weights Proofs_Blending Proofs_PercBlend Proofs_SpatialWeights.

(** * C24 *)
Theorem C24_total w : (exists w', normalise_weights w = Ok w') <-> Forall (fun x => 0 <= x) w /\ exists x, In x w /\ 0 < x.
Proof. exact (norm_total w). Qed.
Theorem C24_error w e : normalise_weights w = Err e -> e = ValueError.
Proof. exact (norm_err w e). Qed.
Theorem C24_sum_one w w' : normalise_weights w = Ok w' -> qsum w' == 1 /\ length w' = length w /\ Forall (fun x => 0 <= x <= 1) w'.
Proof. intro H. split; [exact (norm_sum w w' H)|split; [exact (norm_length w w' H)|exact (norm_le1 w w' H)]]. Qed.
Theorem C24_ratio w w' i j : normalise_weights w = Ok w' -> nth i w' 0 * nth j w 0 == nth j w' 0 * nth i w 0.
Proof. exact (norm_ratio w w' i j). Qed.
Theorem C24_idempotent w w' : normalise_weights w = Ok w' -> exists w'', normalise_weights w' = Ok w'' /\ Forall2 Qeq w'' w'.
Proof. exact (norm_idem w w'). Qed.
Theorem C24_scale_free w w' k : normalise_weights w = Ok w' -> 0 < k ->
  exists w'', normalise_weights (map (fun x => x * k) w) = Ok w'' /\ Forall2 Qeq w'' w'.
Proof. exact (norm_scale w w' k). Qed.
(** Normalisation along an axis treats every vector along that axis separately. *)
Theorem C24_axis cols out : normalise_weights_axis cols = Ok out -> Forall2 (fun c c' => normalise_weights c = Ok c') cols out.
Proof. exact (mapM_inv' normalise_weights cols out). Qed.
Example C24_case : normalise_weights [1; 3; 0] = Ok [1 / (1 + (3 + (0 + 0))); 3 / (1 + (3 + (0 + 0))); 0 / (1 + (3 + (0 + 0)))].
Proof. reflexivity. Qed.

(** * C25 *)
Theorem C25_linear y0 yn n w : linear_weights y0 yn n = Ok w ->
  length w = n /\ qsum w == 1 /\ Forall (fun x => 0 <= x <= 1) w /\
  (exists d, forall i, (S i < n)%nat -> nth (S i) w 0 - nth i w 0 == d) /\
  ((2 <= n)%nat -> nth 0 w 0 * yn == nth (n - 1) w 0 * y0).
Proof.
  intro H. destruct (linear_basic y0 yn n w H) as (A & B & C). repeat (split; [assumption|]). split; [exact (linear_step y0 yn n w H)|exact (linear_ends y0 yn n w H)].
Qed.
Theorem C25_linear_total y0 yn n : (2 <= n)%nat -> ((exists w, linear_weights y0 yn n = Ok w) <-> 0 <= y0 /\ 0 <= yn /\ 0 < y0 + yn).
Proof. exact (linear_total y0 yn n). Qed.
Theorem C25_linear_increasing y0 yn n w i j : linear_weights y0 yn n = Ok w -> y0 <= yn -> (i <= j < n)%nat -> nth i w 0 <= nth j w 0.
Proof. exact (linear_mono y0 yn n w i j). Qed.
Theorem C25_nonlinear c n w : nonlinear_weights c n = Ok w ->
  length w = n /\ qsum w == 1 /\ Forall (fun x => 0 < x <= 1) w /\
  (forall i, (S i < n)%nat -> nth (S i) w 0 == c * nth i w 0) /\ (forall i j, (i <= j < n)%nat -> nth j w 0 <= nth i w 0).
Proof.
  intro H. destruct (nonlinear_basic c n w H) as (A & B & C). repeat (split; [assumption|]). split; intros; [apply (nonlinear_ratio c n w i H)|apply (nonlinear_decr c n w i j H)]; assumption.
Qed.
Theorem C25_nonlinear_total c n : (exists w, nonlinear_weights c n = Ok w) <-> 0 < c <= 1 /\ (1 <= n)%nat.
Proof. exact (nonlinear_total c n). Qed.
(** inverse_ordering: weights cube in ascending order of the points, weights reversed. *)
Theorem C25_inverse_ordering c pts out : distinct pts -> nonlinear_process c pts true = Ok out ->
  exists w, nonlinear_weights c (length pts) = Ok w /\ out = combine (map fst (ksort (map (fun p => (p, tt)) pts))) (rev w).
Proof. exact (nonlinear_inverse c pts out). Qed.
Theorem C25_forward_ordering c pts out : nonlinear_process c pts false = Ok out ->
  exists w, nonlinear_weights c (length pts) = Ok w /\ out = combine pts w.
Proof. exact (nonlinear_plain c pts out). Qed.
Theorem C25_triangular pts mid width w : triangular_weights pts mid width = Ok w ->
  length w = length pts /\ qsum w == 1 /\ Forall (fun x => 0 <= x <= 1) w /\
  (forall i, (i < length pts)%nat -> (nth i w 0 == 0 <-> width <= Qabs (nth i pts 0 - mid))) /\
  (forall i j, (i < length pts)%nat -> (j < length pts)%nat -> Qabs (nth i pts 0 - mid) <= Qabs (nth j pts 0 - mid) -> nth j w 0 <= nth i w 0).
Proof.
  intro H. destruct (tri_basic pts mid width w H) as (A & B & C). repeat (split; [assumption|]). split; intros; [apply (tri_zero pts mid width w i H)|apply (tri_decr pts mid width w i j H)]; assumption.
Qed.
(** The fall-off is linear in the distance from the midpoint. *)
Theorem C25_triangular_linear pts mid width w i : triangular_weights pts mid width = Ok w -> (i < length pts)%nat ->
  nth i w 0 == Qmax 0 (1 - Qabs (nth i pts 0 - mid) / width) / qsum (map (tri_raw mid width) pts).
Proof. exact (tri_nth pts mid width w i). Qed.
Theorem C25_triangular_total pts mid width : (exists w, triangular_weights pts mid width = Ok w) <-> exists p, In p pts /\ Qabs (p - mid) < width.
Proof. exact (tri_total pts mid width). Qed.
(** ChooseWeightsLinear: per target point, the configured weights interpolated linearly
    (constant outside the configured range), normalised over the models. *)
Theorem C25_configured cs targets out : choose_weights_linear cs targets = Ok out ->
  length out = length targets /\ Forall (fun c => length (wc_points c) = length (wc_weights c)) cs /\
  forall i, (i < length targets)%nat ->
    let raw := map (fun c => config_weight c (nth i targets 0)) cs in
    Forall (fun x => 0 <= x) raw /\ 0 < qsum raw /\ nth i out [] = map (fun x => x / qsum raw) raw.
Proof. exact (choose_linear_spec cs targets out). Qed.
Theorem C25_configured_interp c t : length (wc_points c) = length (wc_weights c) -> (2 <= length (wc_points c))%nat -> qssorted (wc_points c) ->
  config_weight c t == np_interp (combine (wc_points c) (wc_weights c)) t.
Proof. exact (config_weight_np c t). Qed.
(** Points configured in descending order: outside the range the weight of the point at
    the opposite end is used. *)
Theorem C25_descending_config_refuted :
  exists c t, length (wc_points c) = length (wc_weights c) /\ wc_points c = [12; 6] /\ wc_weights c = [1; 0] /\
  config_weight c 6 == 0 /\ t < 6 /\ config_weight c t == 1 /\ config_weight c 12 == 1 /\ config_weight c 13 == 0.
Proof. exact descending_fill_witness. Qed.
Example C25_case : exists w, triangular_weights [0; 3; 6; 9] 4 4 = Ok w /\ nth 0 w 0 == 0 /\ nth 1 w 0 == 3 # 5 /\ nth 2 w 0 == 2 # 5.
Proof. eexists. repeat split; reflexivity. Qed.
Example C25_case2 : exists w, choose_weights_linear [{| wc_points := [6; 12]; wc_weights := [1; 0] |}; {| wc_points := [6; 12]; wc_weights := [0; 1] |}] [3; 8] = Ok w /\
  nth 0 (nth 0 w []) 0 == 1 /\ nth 0 (nth 1 w []) 0 == 2 # 3.
Proof. eexists. repeat split; reflexivity. Qed.

(** * C26 *)
Theorem C26_monotone rows ps ws : qsorted ps -> Forall (fun r => length r = length ps) rows ->
  qsorted (blend_percentiles rows ps ws) /\ length (blend_percentiles rows ps ws) = length ps.
Proof. intros H H0. split; [exact (blend_sorted rows ps ws H H0)|exact (blend_length rows ps ws)]. Qed.
Theorem C26_within_range rows ps ws lo hi : rows <> [] -> ps <> [] -> Forall (fun r => length r = length ps) rows ->
  Forall (Forall (fun v => lo <= v <= hi)) rows -> Forall (fun v => lo <= v <= hi) (blend_percentiles rows ps ws).
Proof. exact (blend_bounds rows ps ws lo hi). Qed.
Theorem C26_single v ps : length v = length ps -> qsorted v -> qssorted ps -> Forall2 Qeq (blend_percentiles [v] ps [1]) v.
Proof. exact (blend_single v ps). Qed.
(** Identical forecasts without repeated values blend to themselves ... *)
Theorem C26_identical v ps ws : length v = length ps -> qssorted v -> qssorted ps -> qsum ws == 1 ->
  Forall2 Qeq (blend_percentiles (repeat v (length ws)) ps ws) v.
Proof. exact (blend_identical v ps ws). Qed.
(** ... with repeated values they do not. *)
Theorem C26_identical_tied_refuted : exists v ps, qsorted v /\ qssorted ps /\ length v = length ps /\
  ~ Forall2 Qeq (blend_percentiles [v; v] ps [1 # 2; 1 # 2]) v.
Proof. exact tied_witness. Qed.
Theorem C26_order ps L M : Permutation L M ->
  Forall2 Qeq (blend_percentiles (map fst L) ps (map snd L)) (blend_percentiles (map fst M) ps (map snd M)).
Proof. exact (blend_perm ps L M). Qed.
(** A forecast given weight zero can still set the top percentile. *)
Theorem C26_zero_weight_refuted : exists a b ps, qssorted a /\ qssorted b /\ qssorted ps /\ length a = length ps /\ length b = length ps /\
  Forall2 Qeq (blend_percentiles [a] ps [1]) a /\ ~ Forall2 Qeq (blend_percentiles [a; b] ps [1; 0]) a /\
  nth 1 (blend_percentiles [a; b] ps [1; 0]) 0 == nth 1 b 0.
Proof. exact zero_weight_witness. Qed.
(** Where all weights are zero: the largest input value, at every percentile above 0. *)
Theorem C26_zero_sum rows ps j : rows <> [] -> ps <> [] -> Forall (fun r => length r = length ps) rows -> (j < length ps)%nat -> 0 < nth j ps 0 ->
  nth j (blend_percentiles rows ps (map (fun _ => 0) rows)) 0 = last (qsort (concat rows)) 0.
Proof. exact (zero_sum_max rows ps j). Qed.
(** Weights are renormalised at every point before the blend, keeping their ratios. *)
Theorem C26_renormalised cols : Forall (Forall (fun x => 0 <= x)) cols -> Forall2 (fun c c' => length c' = length c /\
   Forall (fun x => 0 <= x) c' /\ (0 < qsum c -> Qabs (qsum c' - 1) <= (1 # 100000000) + (1 # 100000)) /\ (qsum c == 0 -> qsum c' == 0) /\
   forall i j, nth i c' 0 * nth j c 0 == nth j c' 0 * nth i c 0) cols (norm_cols cols).
Proof. exact (norm_cols_spec cols). Qed.
Example C26_case : blend_percentiles [[0; 10; 20]; [10; 20; 30]] [0; 50; 100] [1 # 2; 1 # 2] <> [] /\
  nth 1 (blend_percentiles [[0; 10; 20]; [10; 20; 30]] [0; 50; 100] [1 # 2; 1 # 2]) 0 == 15.
Proof. split; [discriminate|reflexivity]. Qed.

(** * C27 *)
(** [avg l]: the weighted mean of the (value, weight) pairs l; None is masked. *)
Theorem C27_value l m : avg l = Some m ->
  m == qsum (map (fun p => fst p * snd p) (um l)) / qsum (map snd (um l)) /\ forall v w, In (v, w) (um l) <-> In (Some v, w) l.
Proof. intro H. split; [exact (proj1 (avg_value l m H))|exact (um_in l)]. Qed.
Theorem C27_bounds l m lo hi : avg l = Some m -> (forall v w, In (Some v, w) l -> 0 <= w) ->
  (forall v w, In (Some v, w) l -> 0 < w -> lo <= v <= hi) -> lo <= m <= hi.
Proof. exact (avg_bounds l m lo hi). Qed.
Theorem C27_constant l m k : avg l = Some m -> (forall v w, In (Some v, w) l -> 0 <= w) ->
  (forall v w, In (Some v, w) l -> 0 < w -> v == k) -> m == k.
Proof.
  intros H H0 H1. destruct (avg_bounds l m k k H H0); [|lra]. intros v w I P. specialize (H1 v w I P). lra.
Qed.
Theorem C27_masked l : (forall v w, In (Some v, w) l -> 0 <= w) -> (avg l = None <-> forall v w, In (Some v, w) l -> w == 0).
Proof. exact (avg_masked l). Qed.
Theorem C27_order l m : Permutation l m -> oeq (avg l) (avg m).
Proof. exact (avg_perm l m). Qed.
Theorem C27_ignored v w l : (v = None \/ w == 0) -> oeq (avg ((v, w) :: l)) (avg l).
Proof. exact (avg_skip v w l). Qed.
Theorem C27_units a b l : oeq (avg (map (omap (fun v => a * v + b)) l)) (option_map (fun m => a * m + b) (avg l)).
Proof. exact (avg_affine a b l). Qed.
Theorem C27_weight_scale k l : ~ k == 0 -> oeq (avg (map (fun p => (fst p, snd p * k)) l)) (avg l).
Proof. exact (avg_scale k l). Qed.
Theorem C27_default_weights vs : vs <> [] -> oeq (ma_average (map Some vs) (get_weights (length vs) None)) (Some (qsum vs / Qn (length vs))).
Proof. exact (avg_equal vs). Qed.
(** The whole call: every slice meets the weight of its own blend point, in whatever
    order the slices of the two cubes come. *)
Theorem C27_process tb n (es : list (Q * entry)) cube weights out : distinct_keys es ->
  Permutation (map (fun e => (fst e, (e_time (snd e), e_vals (snd e)))) es) cube ->
  Permutation (map (fun e => (fst e, e_weights (snd e))) es) weights ->
  blend_process tb n cube (Some weights) = Ok out ->
  length out = n /\ forall g, (g < n)%nat -> oeq (nth g out None) (avg (map (fun e => (nth g (e_vals (snd e)) None, nth g (e_weights (snd e)) 0)) es)).
Proof. exact (blend_matched tb n es cube weights out). Qed.
Theorem C27_process_order tb n c c' w w' : distinct_keys c -> Permutation c c' ->
  (match w, w' with Some a, Some b => distinct_keys a /\ Permutation a b | None, None => True | _, _ => False end) ->
  blend_process tb n c w = blend_process tb n c' w'.
Proof. exact (blend_order tb n c c' w w'). Qed.
(** Blending across validity times needs the timeblending flag. *)
Theorem C27_times tb ts : check_times tb ts = Ok tt <-> tb = true \/ (forall a b, In a ts -> In b ts -> a = b).
Proof. exact (check_times_iff tb ts). Qed.
(** The points of the weights cube are never compared with those of the data cube. *)
Theorem C27_point_check_refuted : exists cube weights out,
  map fst cube = [1; 2] /\ map fst weights = [3; 4] /\ blend_process false 1 cube (Some weights) = Ok out /\ out <> [None].
Proof.
  exists [(1, (0%Z, [Some 5])); (2, (0%Z, [Some 9]))], [(3, [1]); (4, [0])]. eexists. repeat split. intro H. vm_compute in H. discriminate.
Qed.
Example C27_case : exists out, blend_process false 2 [(2, (0%Z, [Some 4; None])); (1, (0%Z, [Some 8; Some 1]))] (Some [(1, [1; 1]); (2, [3; 3])]) = Ok out /\
  match out with [Some a; Some b] => a == 5 /\ b == 1 | _ => False end.
Proof. eexists. split; [reflexivity|]. simpl. split; reflexivity. Qed.

(** * C31: spatially varying weights at one grid point *)
Theorem C31_range len w masked dist : 0 < len -> Forall (fun x => 0 <= x) w -> length masked = length w -> length dist = length w ->
  length (spatial_weights len w masked dist) = length w /\ Forall (fun x => 0 <= x <= 1) (spatial_weights len w masked dist).
Proof. intros H H0 H1 H2. split; [exact (sw_length len w masked dist H1 H2)|exact (sw_nonneg len w masked dist H H0)]. Qed.
Theorem C31_masked_zero len w masked dist i : length masked = length w -> length dist = length w -> (i < length w)%nat ->
  nth i masked false = true -> nth i (spatial_weights len w masked dist) 0 == 0.
Proof. intros H H0. exact (sw_masked_zero len w masked dist H H0 i). Qed.
Theorem C31_sum_one len w masked dist i : 0 < len -> Forall (fun x => 0 <= x) w -> length masked = length w -> length dist = length w ->
  (i < length w)%nat -> nth i masked false = false -> 0 < nth i w 0 ->
  (match nth i dist None with None => True | Some d => len <= d end) -> qsum (spatial_weights len w masked dist) == 1.
Proof. intros H H0 H1 H2. exact (sw_sum_one len w masked dist H H0 H1 H2 i). Qed.
Theorem C31_fuzzy_edge len w masked dist i d : 0 < len -> length masked = length w -> length dist = length w ->
  (i < length w)%nat -> nth i masked false = false -> nth i dist None = Some d -> 0 <= d < len -> 0 < qsum (init_weights w masked) ->
  nth i (spatial_weights len w masked dist) 0 == nth i w 0 / qsum (init_weights w masked) * (d / len).
Proof. intros H H0 H1. exact (sw_fuzzy len w masked dist H H0 H1 i d). Qed.
Theorem C31_sum_refuted : exists len w masked dist, 0 < len /\ length masked = length w /\ length dist = length w /\ qsum w == 1 /\
  Forall (fun b => b = false) masked /\ qsum (spatial_weights len w masked dist) == 1 # 2.
Proof. exact spatial_not_one. Qed.
Example C31_case : let out := spatial_weights 4 [1 # 2; 1 # 4; 1 # 4] [false; false; true] [None; Some 1; Some 0] in
  nth 0 out 0 == 11 # 12 /\ nth 1 out 0 == 1 # 12 /\ nth 2 out 0 == 0.
Proof. repeat split; reflexivity. Qed.

Print Assumptions C24_total.
Print Assumptions C24_error.
Print Assumptions C24_sum_one.
Print Assumptions C24_ratio.
Print Assumptions C24_idempotent.
Print Assumptions C24_scale_free.
Print Assumptions C24_axis.
Print Assumptions C25_linear.
Print Assumptions C25_linear_total.
Print Assumptions C25_linear_increasing.
Print Assumptions C25_nonlinear.
Print Assumptions C25_nonlinear_total.
Print Assumptions C25_inverse_ordering.
Print Assumptions C25_forward_ordering.
Print Assumptions C25_triangular.
Print Assumptions C25_triangular_linear.
Print Assumptions C25_triangular_total.
Print Assumptions C25_configured.
Print Assumptions C25_configured_interp.
Print Assumptions C25_descending_config_refuted.
Print Assumptions C26_monotone.
Print Assumptions C26_within_range.
Print Assumptions C26_single.
Print Assumptions C26_identical.
Print Assumptions C26_identical_tied_refuted.
Print Assumptions C26_order.
Print Assumptions C26_zero_weight_refuted.
Print Assumptions C26_zero_sum.
Print Assumptions C26_renormalised.
Print Assumptions C27_value.
Print Assumptions C27_bounds.
Print Assumptions C27_constant.
Print Assumptions C27_masked.
Print Assumptions C27_order.
Print Assumptions C27_ignored.
Print Assumptions C27_units.
Print Assumptions C27_weight_scale.
Print Assumptions C27_default_weights.
Print Assumptions C27_process.
Print Assumptions C27_process_order.
Print Assumptions C27_times.
Print Assumptions C27_point_check_refuted.
Print Assumptions C31_range.
Print Assumptions C31_masked_zero.
Print Assumptions C31_sum_one.
Print Assumptions C31_fuzzy_edge.
Print Assumptions C31_sum_refuted.
