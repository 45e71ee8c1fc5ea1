(** C01-C04, C30: improver/threshold.py, class Threshold. *)
From Verif Require Import Base Model_Threshold Spec_Threshold Proofs_Threshold.

(** * C01 *)
Theorem C01_truth_in_unit_interval c t lo hi data out :
  truth_values c t (lo, hi) data = Ok out ->
  length out = length data /\ Forall (fun v => 0 <= v <= 1) out.
Proof. exact (truth_values_unit c t lo hi data out). Qed.

Theorem C01_crisp_agrees_with_operator c t b data out x v :
  truth_values c t (b, b) data = Ok out -> In (x, v) (combine data out) ->
  (holds c x t -> v = 1) /\ (~ holds c x t -> v = 0).
Proof. exact (truth_values_crisp c t b data out x v). Qed.

(** For bounds the constructor accepts, each datum gets exactly the specified truth value. *)
Theorem C01_truth_value c t lo hi data out : lo <= t <= hi ->
  truth_values c t (lo, hi) data = Ok out -> Forall2 (truth_is c t lo hi) data out.
Proof. exact (truth_values_spec c t lo hi data out). Qed.

(** Each accepted operator string applies the inequality it names, and the attribute recorded on the output names it too. *)
Theorem C01_operator_strings tv cfg ff op col p : threshold_init tv cfg ff op col = Ok p ->
  forall x t, (holds (tp_cmp p) x t <-> operator_means op x t) /\ (attribute_means (spp_string (tp_cmp p)) x t <-> operator_means op x t).
Proof.
  intros H x t. destruct (init_inv _ _ _ _ _ _ H) as (_ & L & _). assert (E := lookup_means op _ L x t). split; [exact E|].
  rewrite spp_means. exact E.
Qed.
Theorem C01_operators_accepted op : In op ["ge"; "GE"; ">="; "gt"; "GT"; ">"; "le"; "LE"; "<="; "lt"; "LT"; "<"]%string <-> exists c, cmp_lookup op = Some c.
Proof. exact (lookup_total op). Qed.

Example C01_case : exists out, truth_values LE 10 (8, 14) [7; 9; 10; 12; 20] = Ok out /\
  Forall2 Qeq out [1; 3#4; 1#2; 1#4; 0].
Proof. eexists; split; [reflexivity|]. repeat constructor. Qed.
Example C01_crisp_case : truth_values GT 10 (10, 10) [9; 10; 11] = Ok [0; 0; 1].
Proof. reflexivity. Qed.

(** * C02 *)
(** The ramp of the specification really is a monotone ramp through 0, 1/2, 1. *)
Theorem C02_ramp lo t hi : lo < t < hi ->
  (forall x, x <= lo -> ramp lo t hi x == 0) /\ ramp lo t hi t == 1 # 2 /\
  (forall x, hi <= x -> ramp lo t hi x == 1) /\
  (forall x y, x <= y -> ramp lo t hi x <= ramp lo t hi y).
Proof. exact (fun H => let R := ramp_points lo t hi H in
  conj (proj1 R) (conj (proj1 (proj2 R)) (conj (proj2 (proj2 R)) (fun x y => ramp_mono lo t hi x y H)))). Qed.

(** What Threshold computes with strict bounds is that ramp (or its complement). *)
Theorem C02_fuzzy_is_ramp c t lo hi data out : lo < t < hi -> truth_values c t (lo, hi) data = Ok out ->
  Forall2 (fun x v => v == if above c then ramp lo t hi x else 1 - ramp lo t hi x) data out.
Proof. exact (fuzzy_is_ramp c t lo hi data out). Qed.

Theorem C02_fuzzy_total c t lo hi data : lo < t < hi -> exists out, truth_values c t (lo, hi) data = Ok out.
Proof. exact (fuzzy_total c t lo hi data). Qed.

(** The less-than variants are exactly one minus the greater-than variants. *)
Theorem C02_complement c c' t lo hi data out out' : lo < t < hi -> above c = true -> above c' = false ->
  truth_values c t (lo, hi) data = Ok out -> truth_values c' t (lo, hi) data = Ok out' ->
  Forall2 (fun v v' => v' == 1 - v) out out'.
Proof. exact (fuzzy_complement c c' t lo hi data out out'). Qed.

(** * C03 *)
Theorem C03_mean_over_unmasked tv cfg ff op col p n ss out k i :
  threshold_init tv cfg ff op col = Ok p -> Forall (shaped n) ss -> ss <> [] ->
  process p n ss = Ok out -> (k < length (tp_thresholds p))%nat -> (i < n)%nat ->
  mean_of (truth_is (tp_cmp p) (nth k (tp_thresholds p) 0)
             (fst (nth k (tp_bounds p) (0, 0))) (snd (nth k (tp_bounds p) (0, 0))))
          (map (member i) ss) (nth i (nth k out []) None).
Proof. exact (fun HI => process_mean p n ss out k i (init_wf tv cfg ff op col p HI)). Qed.

Theorem C03_masked_iff_all_masked tv cfg ff op col p n ss out k i :
  threshold_init tv cfg ff op col = Ok p -> Forall (shaped n) ss -> ss <> [] ->
  process p n ss = Ok out -> (k < length (tp_thresholds p))%nat -> (i < n)%nat ->
  (nth i (nth k out []) None = None <-> Forall (fun s => nth i (sl_mask s) true = true) ss).
Proof. exact (fun HI => process_masked_iff p n ss out k i (init_wf tv cfg ff op col p HI)). Qed.

Theorem C03_order_independent tv cfg ff op col p n ss ss' out out' k i :
  threshold_init tv cfg ff op col = Ok p -> Forall (shaped n) ss -> Permutation ss ss' ->
  process p n ss = Ok out -> process p n ss' = Ok out' ->
  (k < length (tp_thresholds p))%nat -> (i < n)%nat ->
  oeq (nth i (nth k out []) None) (nth i (nth k out' []) None).
Proof. exact (fun HI => process_perm p n ss ss' out out' k i (proj1 (init_wf tv cfg ff op col p HI))). Qed.

(** Output shape: one field per threshold, one value per point. *)
Theorem C03_shape tv cfg ff op col p n ss out :
  threshold_init tv cfg ff op col = Ok p -> Forall (shaped n) ss -> process p n ss = Ok out ->
  length out = length (tp_thresholds p) /\ Forall (fun f => length f = n) out.
Proof. exact (fun HI => process_shape p n ss out (proj1 (init_wf tv cfg ff op col p HI))). Qed.

(** NaN anywhere is refused; otherwise the call succeeds iff all bounds can be applied. *)
Theorem C03_success_iff tv cfg ff op col p n ss :
  threshold_init tv cfg ff op col = Ok p -> ss <> [] ->
  (exists out, process p n ss = Ok out) <->
  (Forall (fun s => sl_nan s = false) ss /\
   forall k, (k < length (tp_thresholds p))%nat ->
     usable (nth k (tp_thresholds p) 0) (fst (nth k (tp_bounds p) (0, 0))) (snd (nth k (tp_bounds p) (0, 0)))).
Proof. exact (fun HI => process_ok_iff p n ss (proj1 (init_wf tv cfg ff op col p HI))). Qed.

Example C03_case : exists p out,
  threshold_init (TVlist [2; 5]) None None ">=" Crealization = Ok p /\
  process p 2 [ {| sl_data := [1; 9]; sl_mask := [false; true]; sl_nan := false |};
                {| sl_data := [3; 9]; sl_mask := [false; true]; sl_nan := false |};
                {| sl_data := [6; 9]; sl_mask := [true; true]; sl_nan := false |} ] = Ok out /\
  oeq (nth 0 (nth 0 out []) None) (Some (1 # 2)) /\ oeq (nth 0 (nth 1 out []) None) (Some 0) /\
  nth 1 (nth 0 out []) None = None.
Proof. eexists; eexists. split; [reflexivity|]. split; [reflexivity|]. repeat split; vm_compute; reflexivity. Qed.

(** * C04 *)
(** Crisp thresholds (no bounds), and also fuzzy thresholds made from a fuzzy factor. *)
Theorem C04_monotone_in_threshold tv cfg ff op col p n ss out k k' i a a' :
  threshold_init tv cfg ff op col = Ok p -> (cfg = None \/ exists f, ff = Some f) -> Forall (shaped n) ss ->
  process p n ss = Ok out -> (k < length (tp_thresholds p))%nat -> (k' < length (tp_thresholds p))%nat -> (i < n)%nat ->
  nth k (tp_thresholds p) 0 <= nth k' (tp_thresholds p) 0 ->
  nth i (nth k out []) None = Some a -> nth i (nth k' out []) None = Some a' ->
  if above (tp_cmp p) then a' <= a else a <= a'.
Proof. exact (init_monotone tv cfg ff op col p n ss out k k' i a a'). Qed.

(** Explicit bounds: enough that the bounds are ordered like the thresholds. *)
Theorem C04_monotone_explicit_bounds tv cfg ff op col p n ss out k k' i a a' :
  threshold_init tv cfg ff op col = Ok p -> Forall (shaped n) ss ->
  process p n ss = Ok out -> (k < length (tp_thresholds p))%nat -> (k' < length (tp_thresholds p))%nat -> (i < n)%nat ->
  nth k (tp_thresholds p) 0 <= nth k' (tp_thresholds p) 0 ->
  (let '(t, lo, hi) := params p k in let '(t', lo', hi') := params p k' in
   (lo == hi /\ lo' == hi') \/ (lo < t < hi /\ lo' < t' < hi' /\ lo <= lo' /\ hi <= hi')) ->
  nth i (nth k out []) None = Some a -> nth i (nth k' out []) None = Some a' ->
  if above (tp_cmp p) then a' <= a else a <= a'.
Proof. exact (fun HI => process_monotone p n ss out k k' i a a' (init_wf tv cfg ff op col p HI)). Qed.

(** Without that ordering the claim fails: a wide band about a low threshold. *)
Theorem C04_unordered_bounds_refuted : exists p out a a',
  threshold_init TVnone (Some [(2, Some [1; 100]); (3, Some [5#2; 7#2])]) None "gt" Crealization = Ok p /\
  process p 1 [ {| sl_data := [4]; sl_mask := [false]; sl_nan := false |} ] = Ok out /\
  nth 0 (nth 0 out []) None = Some a /\ nth 0 (nth 1 out []) None = Some a' /\ a < a'.
Proof. exact unordered_bounds_witness. Qed.

Example C04_case : exists p out, threshold_init (TVlist [-2; 4]) None (Some (1#2)) "le" Crealization = Ok p /\
  process p 1 [ {| sl_data := [3]; sl_mask := [false]; sl_nan := false |};
                {| sl_data := [-5#2]; sl_mask := [false]; sl_nan := false |} ] = Ok out /\
  oeq (nth 0 (nth 0 out []) None) (Some (3 # 8)) /\ oeq (nth 0 (nth 1 out []) None) (Some (7 # 8)).
Proof. eexists; eexists. split; [reflexivity|]. split; [reflexivity|]. split; vm_compute; reflexivity. Qed.

(** * C30 *)
Theorem C30_rejects_unenclosed_threshold l k ff op col : (k < length l)%nat ->
  (forall lo hi, snd (nth k l (0, [])) = [lo; hi] -> ~ (lo <= fst (nth k l (0, [])) <= hi)) ->
  threshold_init TVnone (Some (all_bounded l)) ff op col = Err ValueError.
Proof. exact (init_reject_bounds l k ff op col). Qed.
Theorem C30_rejects_bad_factor ts f op col :
  (~ (0 < f < 1) \/ Exists (fun t => t == 0) ts) ->
  threshold_init (TVlist ts) None (Some f) op col = Err ValueError.
Proof. exact (init_reject_factor ts f op col). Qed.
Theorem C30_rejects_bounds_and_factor l f op col : l <> [] ->
  threshold_init TVnone (Some (all_bounded l)) (Some f) op col = Err ValueError.
Proof. exact (init_reject_bounds_factor l f op col). Qed.
Theorem C30_rejects_values_and_config tv cfg ff op col : cfg <> [] -> tv_truthy tv = true ->
  threshold_init tv (Some cfg) ff op col = Err ValueError.
Proof. exact (init_reject_both tv cfg ff op col). Qed.
Theorem C30_rejects_unknown_operator tv cfg ff op col p :
  threshold_init tv cfg ff op col = Ok p ->
  In op ["ge"; "GE"; ">="; "gt"; "GT"; ">"; "le"; "LE"; "<="; "lt"; "LT"; "<"]%string.
Proof. exact (init_operator tv cfg ff op col p). Qed.

(** Whatever is accepted encloses its thresholds, with a legal factor. *)
Theorem C30_accepted_encloses tv cfg ff op col p : threshold_init tv cfg ff op col = Ok p ->
  length (tp_bounds p) = length (tp_thresholds p) /\
  (forall k, (k < length (tp_thresholds p))%nat ->
    fst (nth k (tp_bounds p) (0, 0)) <= nth k (tp_thresholds p) 0 <= snd (nth k (tp_bounds p) (0, 0))) /\
  (forall f, ff = Some f -> 0 < f < 1).
Proof. exact (init_accepted tv cfg ff op col p). Qed.

(** Accepted configurations without explicit bounds can be applied to all (non-NaN) data. *)
Theorem C30_accepted_applies_partial tv cfg ff op col p n ss :
  threshold_init tv cfg ff op col = Ok p -> (cfg = None \/ exists f, ff = Some f) -> ss <> [] ->
  Forall (fun s => sl_nan s = false) ss -> exists out, process p n ss = Ok out.
Proof. exact (init_applies tv cfg ff op col p n ss). Qed.

(** The full claim is false: bounds equal to the threshold on one side only are accepted
    and then fail on every input. *)
Theorem C30_accepted_applies_refuted : exists p,
  threshold_init TVnone (Some [(1, Some [1; 2])]) None "ge" Cnone = Ok p /\
  forall n s ss, process p n (s :: ss) = Err ValueError.
Proof. exact one_sided_witness. Qed.

(** Mixed configurations: a "None" entry before a bounded one is an AttributeError, and
    after one it silently discards the bounds. *)
Theorem C30_mixed_config_refuted :
  threshold_init TVnone (Some [(1, None); (5, Some [4; 6])]) None "ge" Cnone = Err AttributeError /\
  exists p, threshold_init TVnone (Some [(5, Some [4; 6]); (1, None)]) None "ge" Cnone = Ok p /\
    fst (nth 0 (tp_bounds p) (0, 0)) == 5 /\ snd (nth 0 (tp_bounds p) (0, 0)) == 5.
Proof. exact mixed_witness. Qed.

Example C30_case : exists p, threshold_init TVnone (Some (all_bounded [(1, [0; 3]); (5, [4; 6])])) None "ge" Cnone = Ok p.
Proof. eexists; reflexivity. Qed.

Print Assumptions C01_truth_in_unit_interval.
Print Assumptions C01_crisp_agrees_with_operator.
Print Assumptions C01_truth_value.
Print Assumptions C01_operator_strings.
Print Assumptions C01_operators_accepted.
Print Assumptions C02_ramp.
Print Assumptions C02_fuzzy_is_ramp.
Print Assumptions C02_fuzzy_total.
Print Assumptions C02_complement.
Print Assumptions C03_mean_over_unmasked.
Print Assumptions C03_masked_iff_all_masked.
Print Assumptions C03_order_independent.
Print Assumptions C03_shape.
Print Assumptions C03_success_iff.
Print Assumptions C04_monotone_in_threshold.
Print Assumptions C04_monotone_explicit_bounds.
Print Assumptions C04_unordered_bounds_refuted.
Print Assumptions C30_rejects_unenclosed_threshold.
Print Assumptions C30_rejects_bad_factor.
Print Assumptions C30_rejects_bounds_and_factor.
Print Assumptions C30_rejects_values_and_config.
Print Assumptions C30_rejects_unknown_operator.
Print Assumptions C30_accepted_encloses.
Print Assumptions C30_accepted_applies_partial.
Print Assumptions C30_accepted_applies_refuted.
Print Assumptions C30_mixed_config_refuted.
