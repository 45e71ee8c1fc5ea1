(** C09, C12, C13, C14, C18: percentile choice, resampling, conversion, rebadging. *)
From Verif Require Import Base Interp Proofs_Interp Model_Percentiles Proofs_Percentiles Proofs_Resample Proofs_ProbPerc.

(** * C09 *)
Theorem C09_quantile_values n l : choose_set_of_percentiles n Quantile = Ok l ->
  length l = n /\ forall k, (k < n)%nat -> nth k l 0 == 100 * Qn (S k) / Qn (S n).
Proof. exact (choose_quantile n l). Qed.
Theorem C09_quantile_total n : exists l, choose_set_of_percentiles n Quantile = Ok l.
Proof. exact (choose_quantile_ok n). Qed.
Theorem C09_quantile_shape n l : choose_set_of_percentiles n Quantile = Ok l ->
  qssorted l /\ Forall (fun p => 0 < p < 100) l /\
  (forall k, (k < n)%nat -> nth k l 0 + nth (n - 1 - k) l 0 == 100) /\
  (forall k, (k < S n)%nat -> nth (S k) (0 :: l ++ [100]) 0 - nth k (0 :: l ++ [100]) 0 == 100 / Qn (S n)).
Proof. exact (choose_quantile_props n l). Qed.
(** The "random" option: sorted and within the scaled range of the draws. *)
Theorem C09_random draws l n lo hi : (forall d, In d draws -> lo <= d <= hi) ->
  choose_set_of_percentiles n (Random draws) = Ok l ->
  qsorted l /\ length l = length draws /\ Forall (fun p => lo * 100 <= p <= hi * 100) l /\
  Permutation l (map (fun d => d * 100) draws).
Proof. exact (choose_random draws l n lo hi). Qed.
Example C09_case : exists l, choose_set_of_percentiles 3 Quantile = Ok l /\ Forall2 Qeq l [25; 50; 75].
Proof. eexists. split; [reflexivity|]. repeat constructor. Qed.

(** * C12 *)
Theorem C12_monotone numba warn skip lower upper pcts rows asked n s desired out : lower <= upper ->
  resample numba warn skip (lower, upper) pcts rows asked n s = Ok (desired, out) ->
  Forall qsorted rows -> qsorted desired -> Forall qsorted out.
Proof. exact (resample_monotone numba warn skip lower upper pcts rows asked n s desired out). Qed.
Theorem C12_within_range numba warn skip lower upper pcts rows asked n s desired out b1 b2 : lower <= upper ->
  resample numba warn skip (lower, upper) pcts rows asked n s = Ok (desired, out) -> pcts <> [] ->
  Forall (Forall (fun x => b1 <= x <= b2)) rows -> (skip = false -> b1 <= lower /\ upper <= b2) ->
  Forall (Forall (fun x => b1 <= x <= b2)) out.
Proof. exact (resample_within numba warn skip lower upper pcts rows asked n s desired out b1 b2). Qed.
(** Exactness at the original percentiles, when no two of them (with the added 0 and
    100 if bounds are added) are closer than 1e-15. The missing part: an original
    percentile equal to 0 or 100 while bounds are added; see the refutation. *)
Theorem C12_exact_at_knots_partial numba warn skip lower upper pcts rows asked n s desired out i j k : lower <= upper ->
  resample numba warn skip (lower, upper) pcts rows asked n s = Ok (desired, out) ->
  spaced (if skip then pcts else 0 :: pcts ++ [100]) ->
  (i < length rows)%nat -> (j < length desired)%nat -> (k < length pcts)%nat ->
  nth j desired 0 == nth k pcts 0 -> nth j (nth i out []) 0 == nth k (nth i rows []) 0.
Proof. exact (resample_knot numba warn skip lower upper pcts rows asked n s desired out i j k). Qed.
Theorem C12_identity_partial numba warn skip lower upper p l rows n s desired out : lower <= upper ->
  resample numba warn skip (lower, upper) (p :: l) rows (Some (p :: l)) n s = Ok (desired, out) ->
  spaced (if skip then p :: l else 0 :: (p :: l) ++ [100]) ->
  desired = p :: l /\ Forall2 (Forall2 Qeq) out rows.
Proof. exact (resample_identity numba warn skip lower upper p l rows n s desired out). Qed.
Theorem C12_default_percentiles numba warn skip bounds pcts rows n s desired out :
  resample numba warn skip bounds pcts rows None n s = Ok (desired, out) ->
  choose_set_of_percentiles (match n with Some k => k | None => length pcts end) s = Ok desired.
Proof. exact (resample_default numba warn skip bounds pcts rows n s desired out). Qed.
Theorem C12_asked_percentiles numba warn skip bounds pcts rows p l n s desired out :
  resample numba warn skip bounds pcts rows (Some (p :: l)) n s = Ok (desired, out) ->
  desired = p :: l /\ Forall (fun x => 0 <= x <= 100) (p :: l).
Proof. exact (resample_desired numba warn skip bounds pcts rows p l n s desired out). Qed.
(** A forecast whose own percentiles include 0 and 100 is not reproduced: the numba
    back end replaces its minimum by the lower bound, numpy its maximum by the upper. *)
Theorem C12_endpoints_refuted :
  (exists out, resample true false false (0, 10) [0; 50; 100] [[1; 2; 3]] (Some [0; 50; 100]) None Quantile = Ok ([0; 50; 100], out) /\
     ~ nth 0 (nth 0 out []) 0 == 1) /\
  (exists out, resample false false false (0, 10) [0; 50; 100] [[1; 2; 3]] (Some [0; 50; 100]) None Quantile = Ok ([0; 50; 100], out) /\
     ~ nth 2 (nth 0 out []) 0 == 3).
Proof. exact endpoint_witness. Qed.
Example C12_case : exists out, resample true false false (0, 10) [10; 50; 90] [[2; 5; 6]; [1; 1; 9]] (Some [10; 30; 90]) None Quantile = Ok ([10; 30; 90], out) /\
  Forall2 (Forall2 Qeq) out [[2; 7 # 2; 6]; [1; 1; 9]] /\ spaced (0 :: [10; 50; 90] ++ [100]).
Proof.
  eexists. split; [reflexivity|]. split; [repeat constructor|].
  unfold spaced. repeat (apply SSorted_cons || apply SSorted_nil); repeat (apply Forall_cons || apply Forall_nil);
    unfold gap, Qle, eps15; simpl; lia.
Qed.

(** * C13 *)
Theorem C13_strict_accepts_iff bounds pcts rows :
  (exists r, add_bounds_percentiles false bounds pcts rows = Ok r) <->
  Forall (fun row => fst bounds <= snd bounds /\ qsorted row /\ Forall (fun x => fst bounds <= x <= snd bounds) row) rows /\
  qsorted pcts /\ Forall (fun p => 0 <= p <= 100) pcts.
Proof. exact (add_bounds_strict bounds pcts rows). Qed.
Theorem C13_strict_value bounds pcts rows p f : add_bounds_percentiles false bounds pcts rows = Ok (p, f) ->
  p = 0 :: pcts ++ [100] /\ f = map (fun row => fst bounds :: row ++ [snd bounds]) rows.
Proof. exact (add_bounds_strict_value bounds pcts rows p f). Qed.
Theorem C13_warning_widens lower upper pcts rows p f : lower <= upper ->
  add_bounds_percentiles true (lower, upper) pcts rows = Ok (p, f) ->
  p = 0 :: pcts ++ [100] /\ exists lo hi,
    f = map (fun row => lo :: row ++ [hi]) rows /\ lo <= lower /\ upper <= hi /\
    (Forall qsorted rows -> Forall (Forall (fun x => lo <= x <= hi)) rows /\ Forall qsorted f) /\
    (lo == lower \/ exists row x, In row rows /\ In x row /\ lo == x) /\
    (hi == upper \/ exists row x, In row rows /\ In x row /\ hi == x) /\
    (Forall qsorted rows -> Forall (Forall (fun x => lower <= x <= upper)) rows -> lo = lower /\ hi = upper).
Proof. exact (add_bounds_warn lower upper pcts rows p f). Qed.
Theorem C13_warning_accepts_iff bounds pcts rows :
  (exists r, add_bounds_percentiles true bounds pcts rows = Ok r) <-> qsorted pcts /\ Forall (fun p => 0 <= p <= 100) pcts.
Proof. exact (add_bounds_warn_total bounds pcts rows). Qed.
(** The same step for thresholds. *)
Theorem C13_thresholds_strict_rejects_iff bounds ths cdf :
  add_bounds_thresholds false bounds ths cdf = Err ValueError <->
  ~ (fst bounds <= snd bounds /\ qsorted ths /\ Forall (fun t => fst bounds <= t <= snd bounds) ths).
Proof. exact (thresholds_rejected bounds ths cdf). Qed.
Theorem C13_thresholds_widen warn bounds ths cdf fp xp : fst bounds <= snd bounds -> qsorted ths ->
  add_bounds_thresholds warn bounds ths cdf = Ok (fp, xp) ->
  xp = map (fun row => 0 :: row ++ [1]) cdf /\ exists lo hi, fp = lo :: ths ++ [hi] /\ qsorted fp /\
    lo <= fst bounds /\ snd bounds <= hi /\
    (lo == fst bounds \/ exists t, In t ths /\ lo == t) /\ (hi == snd bounds \/ exists t, In t ths /\ hi == t) /\
    (warn = false -> lo = fst bounds /\ hi = snd bounds).
Proof. exact (thresholds_used warn bounds ths cdf fp xp). Qed.
Example C13_case :
  add_bounds_percentiles true (0, 10) [50] [[12]; [-3]] = Ok ([0; 50; 100], [[-3; 12; 12]; [-3; -3; 12]]) /\
  add_bounds_percentiles false (0, 10) [50] [[12]] = Err ValueError /\
  add_bounds_percentiles false (0, 10) [50] [[2]] = Ok ([0; 50; 100], [[0; 2; 10]]).
Proof. repeat split. Qed.

(** * C14 *)
Theorem C14_monotone numba warn skip rel bounds ths probs asked n s pcts out : fst bounds <= snd bounds -> qsorted ths ->
  probs_to_percentiles numba warn skip false rel bounds ths probs asked n s = Ok (pcts, out) ->
  qsorted pcts -> Forall (fun r => Forall (fun o => o <> None) r /\
                                   qsorted (flat_map (fun o => match o with Some x => [x] | None => [] end) r)) out.
Proof. exact (p2p_monotone numba warn skip rel bounds ths probs asked n s pcts out). Qed.
Theorem C14_within_bounds numba warn skip maskp rel bounds ths probs asked n s pcts out b1 b2 :
  fst bounds <= snd bounds -> qsorted ths -> ths <> [] ->
  probs_to_percentiles numba warn skip maskp rel bounds ths probs asked n s = Ok (pcts, out) ->
  Forall (fun t => b1 <= t <= b2) ths -> (skip = false -> b1 <= fst bounds /\ snd bounds <= b2) ->
  Forall (Forall (fun o => match o with Some v => b1 <= v <= b2 | None => True end)) out.
Proof. exact (p2p_bounds numba warn skip maskp rel bounds ths probs asked n s pcts out b1 b2). Qed.
(** The CDF is that of the probabilities rounded to nine decimals (np.around). *)
Theorem C14_inverts_cdf numba warn skip rel bounds ths probs asked n s pcts out i j k : fst bounds <= snd bounds -> qsorted ths ->
  probs_to_percentiles numba warn skip false rel bounds ths probs asked n s = Ok (pcts, out) ->
  (i < length probs)%nat -> (j < length pcts)%nat -> (k < length ths)%nat ->
  let cdf := map (fun p => match rel with Above => 1 - around9 p | Below => around9 p end) (nth i probs []) in
  qssorted cdf -> (skip = false -> Forall (fun c => 0 < c < 1) cdf) ->
  nth j pcts 0 == 100 * nth k cdf 0 ->
  exists v, nth j (nth i out []) None = Some v /\ v == nth k ths 0.
Proof. exact (p2p_inverts numba warn skip rel bounds ths probs asked n s pcts out i j k). Qed.
(** Rounding moves a probability by at most 0.5e-9 and not at all if it has at most
    nine decimals. *)
Theorem C14_rounding x : Qabs (around9 x - x) <= (1 # 2) * (1 # 1000000000).
Proof. exact (around9_near x). Qed.
Theorem C14_rounding_exact (n : Z) : around9 (inject_Z n * (1 # 1000000000)) == inject_Z n * (1 # 1000000000).
Proof. exact (around9_id n). Qed.
Theorem C14_complement numba warn skip bounds ths probs probs' asked n s pcts out pcts' out' :
  Forall2 (Forall2 (fun p q => q == 1 - p)) probs probs' ->
  probs_to_percentiles numba warn skip false Above bounds ths probs asked n s = Ok (pcts, out) ->
  probs_to_percentiles numba warn skip false Below bounds ths probs' asked n s = Ok (pcts', out') ->
  pcts = pcts' /\ Forall2 (Forall2 (fun a b => match a, b with Some x, Some y => x == y | _, _ => False end)) out out'.
Proof. exact (p2p_complement numba warn skip bounds ths probs probs' asked n s pcts out pcts' out'). Qed.
(** mask_percentiles masks exactly the percentiles not resolved by the last threshold. *)
Theorem C14_masking numba warn skip rel bounds ths probs asked n s pcts out i j : fst bounds <= snd bounds -> qsorted ths ->
  probs_to_percentiles numba warn skip true rel bounds ths probs asked n s = Ok (pcts, out) ->
  (i < length probs)%nat -> (j < length pcts)%nat ->
  (nth j (nth i out []) None = None <->
   (match rel with Above => 1 - last (nth i probs []) 0 | Below => last (nth i probs []) 0 end) <= nth j pcts 0 / 100).
Proof. exact (p2p_mask numba warn skip rel bounds ths probs asked n s pcts out i j). Qed.
Example C14_case : exists out, probs_to_percentiles true false false false Above (0, 10) [2; 4; 6] [[9#10; 1#2; 1#10]] (Some [10; 50; 90]) None Quantile
   = Ok ([10; 50; 90], out) /\
  Forall2 (Forall2 (fun a b => match a with Some x => x == b | None => False end)) out [[2; 4; 6]] /\
  qssorted (map (fun p => 1 - around9 p) [9#10; 1#2; 1#10]).
Proof.
  eexists. split; [reflexivity|]. split; [repeat constructor|].
  repeat (apply SSorted_cons || apply SSorted_nil); repeat (apply Forall_cons || apply Forall_nil); reflexivity.
Qed.

(** * C18 *)
Theorem C18_labels n k optimal (m : list Q) : length m = n -> (k < n)%nat ->
  nth k (fst (rebadge_as_percentiles optimal m)) 0 ==
  if optimal then 100 * (Qn k + (1 # 2)) / Qn n else 100 * Qn (S k) / Qn (S n).
Proof. exact (labels_nth n k optimal m). Qed.
Theorem C18_labels_increasing m optimal : qssorted (fst (rebadge_as_percentiles optimal m)) /\
  Forall (fun p => 0 < p < 100) (fst (rebadge_as_percentiles optimal m)) /\
  length (fst (rebadge_as_percentiles optimal m)) = length m.
Proof. exact (labels_strict m optimal). Qed.
Theorem C18_values_sorted m optimal : qsorted (snd (rebadge_as_percentiles optimal m)) /\
  Permutation m (snd (rebadge_as_percentiles optimal m)).
Proof. exact (conj (qsort_sorted m) (qsort_perm m)). Qed.
Theorem C18_round_trip (m : list Q) :
  rebadge_as_realizations (fst (rebadge_as_percentiles false m)) false None = Ok (map Z.of_nat (seq 0 (length m))).
Proof. exact (rebadge_roundtrip m). Qed.
(** Whatever is accepted partitions [0,100] equally up to the isclose tolerance. *)
Theorem C18_accepts_only_equal points has nums out : rebadge_as_realizations points has nums = Ok out ->
  let u := uniq (qsort (points ++ [0; 100])) in
  forall i j, (S i < length u)%nat -> (S j < length u)%nat ->
    Qabs ((nth (S i) u 0 - nth i u 0) - (nth (S j) u 0 - nth j u 0)) <=
      (1 # 100000000) + (1 # 100000) * Qabs (nth (S j) u 0 - nth j u 0).
Proof. exact (rebadge_accepts_equal points has nums out). Qed.
(** The CRPS-optimal labels are rejected for every ensemble of 2 to 1e9 members. *)
Theorem C18_crps_optimal_rejected (m : list Q) has nums : (2 <= length m)%nat -> (Z.of_nat (length m) <= 1000000000)%Z ->
  rebadge_as_realizations (fst (rebadge_as_percentiles true m)) has nums = Err ValueError.
Proof. exact (crps_rejected m has nums). Qed.
Example C18_case : rebadge_as_realizations (fst (rebadge_as_percentiles false [3; 1; 2])) false None = Ok [0; 1; 2]%Z /\
  snd (rebadge_as_percentiles false [3; 1; 2]) = [1; 2; 3] /\
  rebadge_as_realizations (fst (rebadge_as_percentiles true [3; 1; 2])) false None = Err ValueError.
Proof. repeat split. Qed.

Print Assumptions C09_quantile_values.
Print Assumptions C09_quantile_total.
Print Assumptions C09_quantile_shape.
Print Assumptions C09_random.
Print Assumptions C12_monotone.
Print Assumptions C12_within_range.
Print Assumptions C12_exact_at_knots_partial.
Print Assumptions C12_identity_partial.
Print Assumptions C12_default_percentiles.
Print Assumptions C12_asked_percentiles.
Print Assumptions C12_endpoints_refuted.
Print Assumptions C13_strict_accepts_iff.
Print Assumptions C13_strict_value.
Print Assumptions C13_warning_widens.
Print Assumptions C13_warning_accepts_iff.
Print Assumptions C13_thresholds_strict_rejects_iff.
Print Assumptions C13_thresholds_widen.
Print Assumptions C14_monotone.
Print Assumptions C14_within_bounds.
Print Assumptions C14_inverts_cdf.
Print Assumptions C14_rounding.
Print Assumptions C14_rounding_exact.
Print Assumptions C14_complement.
Print Assumptions C14_masking.
Print Assumptions C18_labels.
Print Assumptions C18_labels_increasing.
Print Assumptions C18_values_sorted.
Print Assumptions C18_round_trip.
Print Assumptions C18_accepts_only_equal.
Print Assumptions C18_crps_optimal_rejected.
