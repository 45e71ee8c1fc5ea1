(** C29: plugin instances can be reused. *)
From Verif Require Import Base Interp Spec_State Model_Temporal Proofs_Temporal Model_Accumulation Model_State Proofs_State Props_Temporal.
Local Open Scope string_scope.
Local Open Scope Q_scope.

(** * Independent of history *)
Theorem C29_threshold truth st : st <> Some "percentile" -> history_independent (threshold_call truth) st.
Proof. exact (threshold_independent truth st). Qed.
Theorem C29_aggregate_default : history_independent aggregate_call None.
Proof. exact aggregate_none. Qed.
Theorem C29_blend_dimension_coord bc (h : list cube_coords) i : Forall (fun c => forall d, lookup bc c = Some (Some d) -> d = bc) h ->
  answer blend_call (after blend_call bc h) i = answer blend_call bc i.
Proof. exact (blend_independent bc h i). Qed.
Theorem C29_interpolation_interval m : history_independent (interval_call m) tt.
Proof. exact (interval_independent m). Qed.
Theorem C29_interpolation_same_inputs ts initial final n : (initial <= final)%Z ->
  answer times_call (after times_call ts (repeat (initial, final) n)) (initial, final) = answer times_call ts (initial, final).
Proof. exact (times_same_inputs ts initial final n). Qed.
Theorem C29_accumulation_explicit p fps : history_independent accumulation_process {| a_period := Some p; a_fps := Some fps |}.
Proof. exact (accumulation_independent p fps). Qed.
Theorem C29_combine_named n : history_independent combine_call (Some n).
Proof. exact (combine_named n). Qed.
Theorem C29_broadcast_named s : s <> "threshold" -> history_independent broadcast_call s.
Proof. exact (broadcast_named s). Qed.
Theorem C29_neighbourhood_radius lr s0 : history_independent (radius_call lr) s0.
Proof. exact (radius_independent lr s0). Qed.
Theorem C29_reliability_threshold_coord {A B} (find : A -> B) s0 : history_independent (threshold_coord_call find) s0.
Proof. exact (threshold_coord_independent find s0). Qed.
Theorem C29_other_distributions shape : history_independent (truncnorm_call false) shape.
Proof. apply independent_const. intros (l, s). reflexivity. Qed.

(** * Dependent on history *)
Theorem C29_threshold_percentile_refuted truth h i : Exists (fun c => e_dim c = "percentile") h -> e_dim i = "percentile" ->
  answer (threshold_call truth) (after (threshold_call truth) (Some "percentile") h) i = Err CoordinateNotFoundError /\
  exists v, answer (threshold_call truth) (Some "percentile") i = Ok v.
Proof.
  intros E Hi. split; [exact (threshold_percentile_after truth h i E Hi)|]. unfold answer. cbn [threshold_call].
  change (String.eqb "percentile" "percentile") with true. rewrite Hi. change (String.eqb "percentile" "percentile") with true. eexists. reflexivity.
Qed.
(** A fresh instance truncates where it was told to; an instance used once before, with (l1, s1), truncates at (v - l1) / s1. *)
Theorem C29_truncnorm_refuted shape l1 s1 l2 s2 : ~ s1 == 0 -> ~ s2 == 0 ->
  Forall2 Qeq (answer (truncnorm_call true) shape (l2, s2)) shape /\
  Forall2 Qeq (answer (truncnorm_call true) (after (truncnorm_call true) shape [(l1, s1)]) (l2, s2)) (map (fun v => (v - l1) / s1) shape).
Proof. intros N1 N2. split; [exact (truncnorm_first shape l2 s2 N2)|exact (truncnorm_second shape l1 s1 l2 s2 N1 N2)]. Qed.
Example C29_truncnorm_case : ~ Forall2 Qeq (answer (truncnorm_call true) (after (truncnorm_call true) [0; 100] [(10, 2)]) (10, 2)) [0; 100].
Proof. intro F. vm_compute in F. inversion F as [|? ? ? ? E _]; subst. vm_compute in E. discriminate. Qed.
Theorem C29_aggregate_list_refuted : ~ history_independent aggregate_call (Some []).
Proof. intro H. specialize (H [2%nat] 1%nat). vm_compute in H. discriminate. Qed.
Theorem C29_blend_refuted : ~ history_independent blend_call "forecast_period".
Proof.
  intro H. specialize (H [[("forecast_period", Some "forecast_reference_time"); ("forecast_reference_time", Some "forecast_reference_time")]]
    [("forecast_period", Some "forecast_period"); ("forecast_reference_time", None)]). vm_compute in H. discriminate.
Qed.
Theorem C29_interpolation_times_refuted : ~ history_independent times_call [3600%Z].
Proof. intro H. specialize (H [(0%Z, 10800%Z)] (0%Z, 7200%Z)). vm_compute in H. discriminate. Qed.
Theorem C29_interpolation_times_extra_refuted :
  answer times_call [7200%Z] (0%Z, 14400%Z) = Ok [7200%Z; 14400%Z] /\
  answer times_call (after times_call [7200%Z] [(0%Z, 10800%Z)]) (0%Z, 14400%Z) = Ok [7200%Z; 10800%Z; 14400%Z].
Proof. split; reflexivity. Qed.
Theorem C29_accumulation_default_refuted : ~ history_independent accumulation_process {| a_period := None; a_fps := None |}.
Proof.
  intro H. specialize (H [[rc 0 1; rc 900 1]] [rc 0 1; rc 900 1; rc 1800 1]). vm_compute in H. discriminate.
Qed.
Theorem C29_combine_refuted : ~ history_independent combine_call None.
Proof. intro H. specialize (H ["air_temperature"] "wind_speed"). vm_compute in H. discriminate. Qed.
Theorem C29_broadcast_refuted : ~ history_independent broadcast_call "threshold".
Proof. intro H. specialize (H [(Some "air_temperature", ["air_temperature"])] (Some "wind_speed", ["wind_speed"])). vm_compute in H. discriminate. Qed.
Theorem C29_daynight_refuted : ~ history_independent daynight_call false.
Proof. intro H. specialize (H [true] false). vm_compute in H. discriminate. Qed.
Theorem C29_daynight_regular h i : Forall (eq false) h -> answer daynight_call (after daynight_call false h) i = answer daynight_call false i.
Proof. intro F. assert (S : after daynight_call false h = false); [|rewrite S; reflexivity]. induction F as [|b h E F IH]; [reflexivity|]. subst b. exact IH. Qed.
Example C29_case : exists h i, Exists (fun c => e_dim c = "percentile") h /\ e_dim i = "percentile" /\
  answer (threshold_call (fun x => x)) (Some "percentile") i = Ok [qsum [0; 1] / Qlen [0; 1]].
Proof.
  exists [{| e_dim := "percentile"; e_vals := [0] |}], {| e_dim := "percentile"; e_vals := [0; 1] |}. split; [constructor; reflexivity|]. split; reflexivity.
Qed.

Print Assumptions C29_threshold.
Print Assumptions C29_aggregate_default.
Print Assumptions C29_blend_dimension_coord.
Print Assumptions C29_interpolation_interval.
Print Assumptions C29_interpolation_same_inputs.
Print Assumptions C29_accumulation_explicit.
Print Assumptions C29_combine_named.
Print Assumptions C29_broadcast_named.
Print Assumptions C29_neighbourhood_radius.
Print Assumptions C29_reliability_threshold_coord.
Print Assumptions C29_other_distributions.
Print Assumptions C29_threshold_percentile_refuted.
Print Assumptions C29_truncnorm_refuted.
Print Assumptions C29_aggregate_list_refuted.
Print Assumptions C29_blend_refuted.
Print Assumptions C29_interpolation_times_refuted.
Print Assumptions C29_interpolation_times_extra_refuted.
Print Assumptions C29_accumulation_default_refuted.
Print Assumptions C29_combine_refuted.
Print Assumptions C29_broadcast_refuted.
Print Assumptions C29_daynight_refuted.
Print Assumptions C29_daynight_regular.
