(** C05, C06, C07, C28. *)
From Verif Require Import Base Model_Threshold Spec_Threshold Model_Percentiles Model_Probability Spec_Probability
  Proofs_Names Proofs_Probability Proofs_Expected.

(** * C05 *)
(** Every comparison has an inverse attribute and it is the logical negation. *)
Theorem C05_inverse_is_negation c : exists c', inverse_attr (spp_string c) = Ok (spp_string c') /\
  forall x t, holds c' x t <-> ~ holds c x t.
Proof. exact (ex_intro _ (negation c) (conj (inverse_attr_ok c) (negation_holds c))). Qed.
Theorem C05_invert c c' : invert_probabilities c = Ok c' ->
  (exists op op', pc_attr c = spp_string op /\ pc_attr c' = spp_string op' /\ forall x t, holds op' x t <-> ~ holds op x t) /\
  pc_thr c' = pc_thr c /\ pc_cols c' = map (map (fun p => 1 - p)) (pc_cols c).
Proof.
  exact (fun H => match invert_inv c c' H with ex_intro _ op (conj A (conj B (conj C (conj D _)))) =>
    conj (ex_intro _ op (ex_intro _ (negation op) (conj A (conj B (negation_holds op))))) (conj C D) end).
Qed.
Theorem C05_inverted_attribute c c' : invert_probabilities c = Ok c' -> forall x t, attribute_means (pc_attr c') x t <-> ~ attribute_means (pc_attr c) x t.
Proof.
  intros H x t. destruct (invert_inv c c' H) as [op [A [B _]]]. rewrite A, B, !Proofs_Threshold.spp_means. apply negation_holds.
Qed.
Theorem C05_invert_total c op : pc_attr c = spp_string op -> exists c', invert_probabilities c = Ok c'.
Proof. exact (invert_total c op). Qed.
(** Twice is the identity, the name included unless it mentions both words. *)
Theorem C05_involution_partial c c' c'' : invert_probabilities c = Ok c' -> invert_probabilities c' = Ok c'' ->
  pc_attr c'' = pc_attr c /\ pc_thr c'' = pc_thr c /\ Forall2 (Forall2 Qeq) (pc_cols c'') (pc_cols c) /\
  ((contains "above" (pc_name c) && contains "below" (pc_name c))%bool = false -> pc_name c'' = pc_name c).
Proof. exact (invert_twice c c' c''). Qed.
Theorem C05_name_involution_refuted :
  exists n, contains "above" n = true /\ contains "below" n = true /\ invert_name (invert_name n) <> n.
Proof. exact invert_name_twice_bad. Qed.
(** Standard names (the diagnostic part not mentioning either word) flip direction. *)
Theorem C05_standard_name_above d : contains "above" d = false ->
  invert_name ("probability_of_" ++ d ++ "_above_threshold") = ("probability_of_" ++ d ++ "_below_threshold")%string.
Proof. exact (standard_above d). Qed.
Theorem C05_standard_name_below d : contains "above" d = false -> contains "below" d = false ->
  invert_name ("probability_of_" ++ d ++ "_below_threshold") = ("probability_of_" ++ d ++ "_above_threshold")%string.
Proof. exact (standard_below d). Qed.
(** Thresholding with the negated operator = thresholding and inverting. *)
Theorem C05_threshold_commutes c c' t lo hi data out out' : lo <= t <= hi -> (forall x t, holds c' x t <-> ~ holds c x t) ->
  truth_values c t (lo, hi) data = Ok out -> truth_values c' t (lo, hi) data = Ok out' ->
  Forall2 (fun v v' => v' == 1 - v) out out'.
Proof.
  intros HB HN. assert (E : c' = negation c).
  { pose proof (HN 0 0) as H0. pose proof (HN 1 0) as H1.
    destruct c, c'; simpl in *; trivial; exfalso;
      first [destruct H0 as [G1 G2] | idtac]; first [destruct H1 as [G3 G4] | idtac]; lra. }
  subst c'. exact (threshold_invert_values c t lo hi data out out' HB).
Qed.
Theorem C05_threshold_process_commutes tv cfg ff op op' col p p' n ss out out' k i :
  threshold_init tv cfg ff op col = Ok p -> threshold_init tv cfg ff op' col = Ok p' -> tp_cmp p' = negation (tp_cmp p) ->
  Forall (shaped n) ss -> ss <> [] -> process p n ss = Ok out -> process p' n ss = Ok out' ->
  (k < length (tp_thresholds p))%nat -> (i < n)%nat ->
  oeq (nth i (nth k out' []) None) (match nth i (nth k out []) None with Some q => Some (1 - q) | None => None end).
Proof. exact (threshold_then_invert tv cfg ff op op' col p p' n ss out out' k i). Qed.
(** to_threshold_inequality returns the direction asked for. *)
Theorem C05_requested_direction c op up : pc_attr c = spp_string op -> exists c', to_threshold_inequality c up = Ok c' /\
  direction (pc_attr c') = Some (if up then Above else Below) /\
  (above op = up -> c' = c) /\ (above op = negb up -> invert_probabilities c = Ok c').
Proof. exact (to_ineq c op up). Qed.
(** But the legacy attribute "below", which IMPROVER recognises as below-threshold, is
    returned unchanged when above is requested. *)
Theorem C05_legacy_attribute_refuted : exists c c', direction (pc_attr c) = Some Below /\ to_threshold_inequality c true = Ok c' /\
  direction (pc_attr c') = Some Below /\ invert_probabilities c = Err ValueError.
Proof. exact legacy_attr_kept. Qed.
Example C05_case : exists c', invert_probabilities
   {| pc_name := "probability_of_air_temperature_above_threshold"; pc_attr := "greater_than_or_equal_to"; pc_thr := [1; 2]; pc_cols := [[3#4; 1#4]] |} = Ok c' /\
  pc_name c' = "probability_of_air_temperature_below_threshold"%string /\ pc_attr c' = "less_than"%string /\
  Forall2 (Forall2 Qeq) (pc_cols c') [[1#4; 3#4]].
Proof. eexists. split; [reflexivity|]. repeat constructor. Qed.

(** * C06 *)
Theorem C06_probability ranges c out d : between_process ranges c = Ok out -> direction (pc_attr c) = Some d ->
  qssorted (pc_thr c) ->
  Forall (fun col => length col = length (pc_thr c) /\ monotone_in_threshold d col /\ Forall (fun p => 0 <= p <= 1) col) (pc_cols c) ->
  Forall (fun b => Forall (fun p => 0 <= p <= 1) (bt_data b)) out.
Proof. exact (between_in_unit ranges c out d). Qed.
Theorem C06_value ranges c out : between_process ranges c = Ok out -> exists m,
  (direction (pc_attr c) = Some Above /\ m == 1 \/ direction (pc_attr c) = Some Below /\ m == -1) /\
  Forall2 (fun r b => exists i j, (i < length (pc_thr c))%nat /\ (j < length (pc_thr c))%nat /\
     close_to (nth i (pc_thr c) 0) (Qmin (fst r) (snd r)) = true /\ close_to (nth j (pc_thr c) 0) (Qmax (fst r) (snd r)) = true /\
     bt_lower b = nth i (pc_thr c) 0 /\ bt_upper b = nth j (pc_thr c) 0 /\
     bt_data b = map (fun col => (nth i col 0 - nth j col 0) * m) (pc_cols c)) ranges out.
Proof.
  intro H. apply between_inv in H as (m & Hm & H). exists m. split.
  - unfold multiplier in Hm. destruct (direction _) as [[|]|]; try discriminate; injection Hm as <-; [left|right]; split; reflexivity.
  - induction H as [|r b l o Hb H IH]; constructor; trivial. apply between_one_inv in Hb as (i & j & Ei & Ej & ->). exists i, j.
    assert (Ii : In i (matching (pc_thr c) (fst (sort_pair r)))) by (rewrite Ei; left; reflexivity).
    assert (Ij : In j (matching (pc_thr c) (snd (sort_pair r)))) by (rewrite Ej; left; reflexivity).
    rewrite matching_in in *. destruct Ii as [Li Ci], Ij as [Lj Cj]. cbn [bt_lower bt_upper bt_data].
    apply close_iff in Ci. apply close_iff in Cj.
    assert (E : Qmin (fst r) (snd r) == fst (sort_pair r) /\ Qmax (fst r) (snd r) == snd (sort_pair r)).
    { unfold sort_pair. destruct (Qleb_spec (fst r) (snd r)); cbn [fst snd]; split;
        first [apply Q.min_l; lra|apply Q.min_r; lra|apply Q.max_r; lra|apply Q.max_l; lra]. }
    destruct E as [E1 E2]. split; [exact Li|]. split; [exact Lj|]. split; [|split; [|auto]].
    + apply (proj2 (close_iff _ _)). pose proof (Qabs_wd _ _ E1). unfold tol in *. lra.
    + apply (proj2 (close_iff _ _)). pose proof (Qabs_wd _ _ E2). unfold tol in *. lra.
Qed.
Theorem C06_additive m c a b d x y : a <= b -> b <= d ->
  between_one m c (a, b) = Ok x -> between_one m c (b, d) = Ok y ->
  exists z, between_one m c (a, d) = Ok z /\
  bt_lower z = bt_lower x /\ bt_upper z = bt_upper y /\
  length (bt_data z) = length (bt_data x) /\ length (bt_data z) = length (bt_data y) /\
  forall i, nth i (bt_data z) 0 == nth i (bt_data x) 0 + nth i (bt_data y) 0.
Proof.
  intros H1 H2 Hx Hy. destruct (between_additive_exists m c a b d x y H1 H2 Hx Hy) as [z Hz]. exists z. split; [exact Hz|].
  destruct (between_additive m c a b d x y z H1 H2 Hx Hy Hz) as (A & B & _ & C & D & E). auto.
Qed.
Theorem C06_complement ranges c c' op out out' : pc_attr c = spp_string op -> invert_probabilities c = Ok c' ->
  Forall (fun col => length col = length (pc_thr c)) (pc_cols c) ->
  between_process ranges c = Ok out -> between_process ranges c' = Ok out' ->
  Forall2 (fun b b' => bt_lower b' = bt_lower b /\ bt_upper b' = bt_upper b /\ Forall2 Qeq (bt_data b') (bt_data b)) out out'.
Proof. exact (between_complement ranges c c' op out out'). Qed.
Theorem C06_unavailable ranges c r t : In r ranges -> t = fst r \/ t = snd r ->
  (forall p, In p (pc_thr c) -> close_to p t = false) -> between_process ranges c = Err ValueError.
Proof. exact (between_unavailable ranges c r t). Qed.
Theorem C06_rejects_narrow_range ranges r : In r ranges -> snd r - fst r < 1 # 100000 -> between_init ranges = Err ValueError.
Proof. exact (between_rejects ranges r). Qed.
(** Success: each bound matches exactly one threshold. *)
Theorem C06_success ranges c d : direction (pc_attr c) = Some d ->
  Forall (fun r => (exists i, matching (pc_thr c) (fst (sort_pair r)) = [i]) /\ exists j, matching (pc_thr c) (snd (sort_pair r)) = [j]) ranges ->
  exists out, between_process ranges c = Ok out.
Proof. exact (between_total ranges c d). Qed.
(** Available thresholds can still be refused: the relative part of the tolerance (1e-5)
    selects neighbours, e.g. 1 Pa apart at 1000 hPa. *)
Theorem C06_available_refuted : exists c r out0,
  between_init [r] = Ok out0 /\ In (fst r) (pc_thr c) /\ In (snd r) (pc_thr c) /\ between_process [r] c = Err ValueError.
Proof. exact close_thresholds_witness. Qed.
Example C06_case : exists out, between_process [(1, 2); (2, 4); (1, 4)]
   {| pc_name := "p"; pc_attr := "greater_than"; pc_thr := [1; 2; 4]; pc_cols := [[3#4; 1#2; 1#4]] |} = Ok out /\
  Forall2 (Forall2 Qeq) (map bt_data out) [[1#4]; [1#4]; [1#2]] /\ qssorted [1; 2; 4].
Proof.
  eexists. split; [reflexivity|]. split; [repeat constructor|].
  repeat (apply SSorted_cons || apply SSorted_nil); repeat (apply Forall_cons || apply Forall_nil); reflexivity.
Qed.

(** * C07 *)
Theorem C07_weighted_mean eps c0 out c i : 0 < eps -> integrate_over_thresholds eps c0 = Ok out ->
  to_threshold_inequality c0 false = Ok c ->
  pc_thr c <> [] -> Forall (fun col => length col = length (pc_thr c)) (pc_cols c) -> (i < length (pc_cols c))%nat ->
  let t0 := hd 0 (pc_thr c) in let tn := last (pc_thr c) 0 in
  let below := t0 - Qmax eps (Qabs (t0 * eps)) in let beyond := tn + Qmax eps (Qabs (tn * eps)) in
  let ext := below :: pc_thr c ++ [beyond] in
  let full_cdf := 0 :: nth i (pc_cols c) [] ++ [1] in
  exists w, length w = S (length (pc_thr c)) /\ Forall (fun x => 0 <= x) w /\ qsum w == 1 /\
    (forall k, (k < length w)%nat -> nth k w 0 == nth (S k) full_cdf 0 - nth k full_cdf 0) /\
    nth i out 0 == wsum w (map (fun k => (nth k ext 0 + nth (S k) ext 0) / 2) (seq 0 (S (length (pc_thr c))))) /\
    below <= nth i out 0 <= beyond.
Proof.
  intros He H HC HN HL Hi t0 tn below beyond ext full.
  destruct (integrate_value eps c0 out c i He H HC HN HL Hi) as (w & L & W & S & E & D & B).
  rewrite midpoints_length, expand_length in L.
  exists w. split; [lia|]. split; [exact W|]. split; [exact S|]. split; [exact D|]. split.
  - rewrite E. clear - L.
    assert (G : forall l, Forall2 Qeq (midpoints l) (map (fun k => (nth k l 0 + nth (Datatypes.S k) l 0) / 2) (seq 0 (length l - 1)))).
    { induction l as [|a [|b l] IH]; try constructor.
      - change (a + (1 # 2) * (b - a) == (a + b) / 2). field.
      - change (length (a :: b :: l) - 1 - 0)%nat with (length (b :: l) - 0)%nat. 
        change (Forall2 Qeq (midpoints (b :: l)) (map (fun k => (nth k (a :: b :: l) 0 + nth (Datatypes.S k) (a :: b :: l) 0) / 2) (seq 1 (length l)))).
        rewrite <- seq_shift, map_map. cbn [length] in IH. rewrite Nat.sub_succ, Nat.sub_0_r in IH. exact IH. }
    specialize (G ext). assert (EL : length ext = Datatypes.S (Datatypes.S (length (pc_thr c)))) by exact (expand_length eps (pc_thr c)).
    rewrite EL in G.
    rewrite Nat.sub_succ, Nat.sub_0_r in G. change (expand_thresholds eps (pc_thr c)) with ext.
    revert G. generalize (midpoints ext). generalize (map (fun k => (nth k ext 0 + nth (Datatypes.S k) ext 0) / 2) (seq 0 (Datatypes.S (length (pc_thr c))))).
    clear. revert w. unfold dot. induction w as [|x w IH]; intros l m G; [reflexivity|]. destruct G as [|a b l' m' G1 G2]; [reflexivity|].
    cbn [zipw qsum wsum]. rewrite (IH _ _ G2), G1. reflexivity.
  - assert (EL : last (expand_thresholds eps (pc_thr c)) 0 = beyond).
    { unfold expand_thresholds. rewrite app_comm_cons. apply last_last. }
    rewrite EL in B. exact B.
Qed.
(** Accepted exactly for increasing thresholds and a monotone CDF. *)
Theorem C07_accepts_iff eps c0 c : to_threshold_inequality c0 false = Ok c ->
  ((exists out, integrate_over_thresholds eps c0 = Ok out) <-> qssorted (pc_thr c) /\ Forall cdf (pc_cols c)).
Proof. exact (integrate_accepts eps c0 c). Qed.
Theorem C07_rejection_is_value_error eps c0 c e : to_threshold_inequality c0 false = Ok c ->
  integrate_over_thresholds eps c0 = Err e -> e = ValueError.
Proof. exact (integrate_rejected eps c0 c e). Qed.
(** More mass at low values gives a smaller expected value. *)
Theorem C07_dominance eps c c' out out' i : 0 < eps -> integrate_over_thresholds eps c = Ok out -> integrate_over_thresholds eps c' = Ok out' ->
  direction (pc_attr c) = Some Below -> direction (pc_attr c') = Some Below -> pc_thr c' = pc_thr c -> pc_thr c <> [] ->
  (i < length (pc_cols c))%nat -> (i < length (pc_cols c'))%nat -> length (nth i (pc_cols c) []) = length (pc_thr c) ->
  Forall2 (fun p p' => p' <= p) (nth i (pc_cols c) []) (nth i (pc_cols c') []) -> nth i out 0 <= nth i out' 0.
Proof. exact (integrate_dominance eps c c' out out' i). Qed.
Theorem C07_direction_irrelevant eps c op c' : pc_attr c = spp_string op -> above op = true -> invert_probabilities c = Ok c' ->
  integrate_over_thresholds eps c = integrate_over_thresholds eps c'.
Proof. exact (integrate_complement eps c op c'). Qed.
Example C07_case : exists out, integrate_over_thresholds (1 # 8388608)
   {| pc_name := "probability_of_x_above_threshold"; pc_attr := "greater_than"; pc_thr := [1; 2; 4]; pc_cols := [[3#4; 1#2; 1#4]] |} = Ok out /\
   nth 0 out 0 < 3 /\ 2 < nth 0 out 0.
Proof. eexists. split; [reflexivity|]. split; reflexivity. Qed.

(** * C28 *)
Theorem C28_ordered c c' d : ensure_monotonicity true c = Ok c' -> direction (pc_attr c) = Some d ->
  pc_name c' = pc_name c /\ pc_attr c' = pc_attr c /\ pc_thr c' = pc_thr c /\
  Forall (monotone_in_threshold d) (pc_cols c') /\ Forall2 (@Permutation Q) (pc_cols c) (pc_cols c') /\
  (Forall (monotone_in_threshold d) (pc_cols c) -> c' = c) /\
  Forall2 (fun col col' => monotone_in_threshold d col -> Forall2 Qeq col' col) (pc_cols c) (pc_cols c').
Proof. exact (ensure_mono c c' d). Qed.
Theorem C28_success_iff c : (exists c', ensure_monotonicity true c = Ok c') <-> direction (pc_attr c) <> None.
Proof. exact (ensure_mono_total c). Qed.
(** A single-threshold forecast has no threshold dimension and always fails. *)
Theorem C28_single_threshold_refuted c : ensure_monotonicity false c = Err ValueError.
Proof. exact eq_refl. Qed.
Example C28_case : exists c', ensure_monotonicity true
   {| pc_name := "p"; pc_attr := "greater_than"; pc_thr := [1; 2; 3]; pc_cols := [[1#2; 3#4; 1#4]; [1; 1#2; 0]] |} = Ok c' /\
   pc_cols c' = [[3#4; 1#2; 1#4]; [1; 1#2; 0]].
Proof. eexists. split; reflexivity. Qed.

Print Assumptions C05_inverse_is_negation.
Print Assumptions C05_invert.
Print Assumptions C05_inverted_attribute.
Print Assumptions C05_invert_total.
Print Assumptions C05_involution_partial.
Print Assumptions C05_name_involution_refuted.
Print Assumptions C05_standard_name_above.
Print Assumptions C05_standard_name_below.
Print Assumptions C05_threshold_commutes.
Print Assumptions C05_threshold_process_commutes.
Print Assumptions C05_requested_direction.
Print Assumptions C05_legacy_attribute_refuted.
Print Assumptions C06_probability.
Print Assumptions C06_value.
Print Assumptions C06_additive.
Print Assumptions C06_complement.
Print Assumptions C06_unavailable.
Print Assumptions C06_rejects_narrow_range.
Print Assumptions C06_success.
Print Assumptions C06_available_refuted.
Print Assumptions C07_weighted_mean.
Print Assumptions C07_accepts_iff.
Print Assumptions C07_rejection_is_value_error.
Print Assumptions C07_dominance.
Print Assumptions C07_direction_irrelevant.
Print Assumptions C28_ordered.
Print Assumptions C28_success_iff.
Print Assumptions C28_single_threshold_refuted.
