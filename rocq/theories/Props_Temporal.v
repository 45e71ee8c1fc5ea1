(** C32: temporal interpolation. C33: nowcast accumulations. *)
From Verif Require Import Base Spec_Temporal Spec_Accumulation Model_Temporal Proofs_Temporal Proofs_TemporalProcess Model_Accumulation Proofs_Accumulation.
Open Scope Z_scope.

(** * C32 *)
(** Interval mode, inputs less than a day apart: accepted exactly when the interval divides the gap; then the times are
    initial + 1, 2, ... intervals, the last being the final time. *)
Theorem C32_interval_times c m initial final : c_times c = None -> c_interval c = Some m -> 0 < m -> initial < final -> final - initial < 86400 ->
  construct_time_list c initial final =
  if (final - initial) mod (60 * m) =? 0
  then Ok (map (fun k => initial + 60 * m * (Z.of_nat k + 1)) (seq 0 (Z.to_nat ((final - initial) / (60 * m))))) else Err ValueError.
Proof.
  intros Ht Hi Hm Hf Hd. rewrite (ctl_interval c m initial final Ht Hi Hm Hf). rewrite td_small by lia.
  destruct (Z.eqb_spec ((final - initial) mod (60 * m)) 0) as [E|E]; [|reflexivity]. f_equal.
  fold (steps (60 * m) initial (Z.to_nat ((final - initial) / (60 * m)))).
  assert (D : final - initial = (60 * m) * ((final - initial) / (60 * m))) by (pose proof (Z.div_mod (final - initial) (60 * m)); lia).
  set (q := (final - initial) / (60 * m)) in *.
  assert (Q : 0 < q) by nia.
  replace (Z.to_nat q) with (S (nsteps (60 * m) (final - initial))).
  - rewrite steps_snoc. f_equal. f_equal. unfold nsteps. rewrite Z2Nat.id by (apply Z.div_pos; lia).
    replace ((final - initial - 1) / (60 * m)) with (q - 1); [lia|]. apply (Z.div_unique_pos _ _ _ (60 * m - 1)); lia.
  - unfold nsteps. replace ((final - initial - 1) / (60 * m)) with (q - 1); [lia|]. apply (Z.div_unique_pos _ _ _ (60 * m - 1)); lia.
Qed.
(** For inputs a day or more apart neither direction holds: 7 minutes does not divide a day but is accepted, and the last
    step is then shorter; 5 hours divides 25 hours but is rejected. *)
Definition every (m : Z) : config := {| c_interval := Some m; c_times := None; c_method := Linear; c_acc := false; c_max := false; c_min := false |}.
Theorem C32_interval_times_day_refuted :
  (exists l, construct_time_list (every 7) 0 86400 = Ok l /\ (86400 mod (60 * 7) <> 0) /\ nth 205 l 0 - nth 204 l 0 = 300 /\ nth 1 l 0 - nth 0 l 0 = 420) /\
  (90000 mod (60 * 300) = 0 /\ construct_time_list (every 300) 0 90000 = Err ValueError).
Proof.
  split; [|split; reflexivity]. rewrite (ctl_interval (every 7) 7 0 86400) by (reflexivity || lia). 
  eexists. split; [reflexivity|]. split; [discriminate|]. split; vm_compute; reflexivity.
Qed.
(** What does hold for any gap: strictly increasing, within the inputs' times, ending at the final time, all steps equal to
    the interval except possibly a shorter last one. *)
Theorem C32_interval_times_any_gap c m initial final l : c_times c = None -> c_interval c = Some m -> 0 < m -> initial < final ->
  construct_time_list c initial final = Ok l ->
  StronglySorted Z.lt l /\ last l initial = final /\
  (forall k, (S k < length l)%nat -> nth k l 0 = initial + 60 * m * (Z.of_nat k + 1)) /\
  0 < final - nth (length l - 1) (initial :: l) 0 <= 60 * m.
Proof.
  intros Ht Hi Hm Hf H. rewrite (ctl_interval c m initial final Ht Hi Hm Hf) in H. destruct (_ =? 0); [|discriminate]. apply Ok_inj in H. subst l.
  set (n := nsteps (60 * m) (final - initial)). destruct (nsteps_bounds (60 * m) (final - initial)) as (B1 & B2); [lia..|]. fold n in B1, B2.
  split; [|split; [|split]].
  - apply sorted_snoc; [apply steps_sorted; lia|]. apply Forall_forall. intros x Hx. apply steps_in in Hx. destruct Hx as (k & Hk & ->). nia.
  - apply last_last.
  - intros k Hk. rewrite app_length, steps_length in Hk. simpl in Hk. rewrite app_nth1 by (rewrite steps_length; lia). apply steps_nth. lia.
  - rewrite app_length, steps_length. cbn [length]. replace (n + 1 - 1)%nat with n by lia. destruct n as [|k] eqn:En; [cbn [nth]; lia|].
    cbn [nth]. rewrite app_nth1 by (rewrite steps_length; lia). rewrite steps_nth by lia. lia.
Qed.
(** Times mode: the requested times and the final time, each once, in order; accepted exactly when there is at least one time and all
    lie between the inputs' times. *)
Theorem C32_given_times c ts initial final : c_times c = Some ts -> initial <= final ->
  (forall l, construct_time_list c initial final = Ok l -> StronglySorted Z.lt l /\ (forall t, In t l <-> In t ts \/ t = final)) /\
  ((exists l, construct_time_list c initial final = Ok l) <-> ts <> [] /\ Forall (fun t => initial <= t <= final) ts).
Proof.
  intros Ht Hf. destruct (ctl_times c ts initial final Ht Hf) as (A & B). split; [|exact B]. intros l H. destruct (A l H) as (S & I & _). auto.
Qed.

(** The inputs are accepted only in time order, both or neither with bounds, bounds exactly when a period type was declared, and
    period length equal to the gap. *)
Theorem C32_inputs c c0 c1 : check_inputs c c0 c1 = Ok tt <->
  t_time c0 <= t_time c1 /\ has_bounds c0 = period_inputs c /\ has_bounds c1 = period_inputs c /\ (period_inputs c = true -> blen c1 = t_time c1 - t_time c0).
Proof. exact (check_iff c c0 c1). Qed.
Theorem C32_inputs_error sphi night c c0 c1 : check_inputs c c0 c1 <> Ok tt -> process sphi night c c0 c1 = Err ValueError.
Proof.
  intro N. unfold process. destruct (check_inputs c c0 c1) as [[]|e] eqn:E; [congruence|]. simpl. rewrite (check_err c c0 c1 e E). reflexivity.
Qed.
(** One slice per time, in order, within the inputs' times, ending at the later input. *)
Theorem C32_times sphi night c c0 c1 out : valid_config c -> process sphi night c c0 c1 = Ok out ->
  construct_time_list c (t_time c0) (t_time c1) = Ok (map o_time out) /\ strictly_up_to (t_time c0) (t_time c1) (map o_time out).
Proof. exact (process_times sphi night c c0 c1 out). Qed.
Theorem C32_linear sphi night c c0 c1 out o j x0 x1 : valid_config c -> period_inputs c = false -> c_method c = Linear ->
  process sphi night c c0 c1 = Ok out -> In o out -> nth_error (t_data c0) j = Some x0 -> nth_error (t_data c1) j = Some x1 ->
  exists v, data_at o j v /\ on_line (t_time c0) (t_time c1) x0 x1 (o_time o) v /\ between x0 x1 v /\ (o_time o = t_time c1 -> v == x1)%Q.
Proof. exact (process_linear sphi night c c0 c1 out o j x0 x1). Qed.
(** Period maxima never exceed the maximum of the whole period; minima never fall below. *)
Theorem C32_period_max sphi night c c0 c1 out o j x0 x1 : valid_config c -> c_max c = true ->
  process sphi night c c0 c1 = Ok out -> In o out -> nth_error (t_data c0) j = Some x0 -> nth_error (t_data c1) j = Some x1 ->
  exists v w, data_at o j v /\ on_line (t_time c0) (t_time c1) x0 x1 (o_time o) w /\ (v == Qmin x1 w)%Q /\ (Qmin x0 x1 <= v <= x1)%Q.
Proof.
  intros V M H Ho H0 H1. destruct (process_minmax sphi night c c0 c1 out o j x0 x1 V (or_introl M) H Ho H0 H1) as (v & w & A & B & (C1 & C2) & D).
  rewrite M in D. exists v, w. split; [assumption|]. split; [assumption|]. split; [assumption|]. rewrite D. clear - C1. split; qmm; lra.
Qed.
Theorem C32_period_min sphi night c c0 c1 out o j x0 x1 : valid_config c -> c_min c = true ->
  process sphi night c c0 c1 = Ok out -> In o out -> nth_error (t_data c0) j = Some x0 -> nth_error (t_data c1) j = Some x1 ->
  exists v w, data_at o j v /\ on_line (t_time c0) (t_time c1) x0 x1 (o_time o) w /\ (v == Qmax x1 w)%Q /\ (x1 <= v <= Qmax x0 x1)%Q.
Proof.
  intros V M H Ho H0 H1. destruct (process_minmax sphi night c c0 c1 out o j x0 x1 V (or_intror M) H Ho H0 H1) as (v & w & A & B & (C1 & C2) & D).
  destruct V as (VI & _). pose proof (init_period c VI) as (_ & _ & I3 & _). rewrite (proj2 (I3 M)) in D.
  exists v, w. split; [assumption|]. split; [assumption|]. split; [assumption|]. rewrite D. clear - C2. split; qmm; lra.
Qed.
(** Accumulations: at every point that is not dry in both inputs, the pieces are non-negative and add up to the original total. *)
Theorem C32_accumulation sphi night c c0 c1 out j a0 a1 : valid_config c -> c_acc c = true -> process sphi night c c0 c1 = Ok out ->
  nth_error (t_data c0) j = Some a0 -> nth_error (t_data c1) j = Some a1 -> 0 < blen c0 -> (0 <= a0)%Q -> (0 <= a1)%Q -> (0 < a0 + a1)%Q ->
  exists vs, series out j = map Some vs /\ Forall (fun v => 0 <= v)%Q vs /\ (qsum vs == a1)%Q.
Proof. exact (process_acc sphi night c c0 c1 out j a0 a1). Qed.
(** At points dry in both inputs, every piece is undefined (0/0), not zero. *)
Theorem C32_accumulation_dry_refuted sphi night c c0 c1 out j a0 a1 : valid_config c -> c_acc c = true -> process sphi night c c0 c1 = Ok out ->
  nth_error (t_data c0) j = Some a0 -> nth_error (t_data c1) j = Some a1 -> (a0 == 0)%Q -> (a1 == 0)%Q -> (2 <= length out)%nat ->
  Forall (fun x => x = None) (series out j).
Proof. exact (process_acc_dry sphi night c c0 c1 out j a0 a1). Qed.
(** The new periods are contiguous: each starts where the previous ended, the first at the earlier input's time. *)
Theorem C32_bounds sphi night c c0 c1 out k o : valid_config c -> period_inputs c = true -> process sphi night c c0 c1 = Ok out -> (2 <= length out)%nat ->
  nth_error out k = Some o -> exists s, o_bounds o = Some (s, o_time o) /\
    match k with O => s = t_time c0 | S k' => exists o', nth_error out k' = Some o' /\ s = o_time o' end.
Proof. exact (process_bounds sphi night c c0 c1 out k o). Qed.
(** Solar: zero when the sun is down; otherwise the ratio to the sine of the solar elevation is interpolated linearly. Gap under a day. *)
Theorem C32_solar sphi night c c0 c1 out o j x0 x1 s0 s1 s : valid_config c -> c_method c = Solar ->
  process sphi night c c0 c1 = Ok out -> (2 <= length out)%nat -> t_time c1 - t_time c0 < 86400 ->
  In o out -> nth_error (t_data c0) j = Some x0 -> nth_error (t_data c1) j = Some x1 ->
  nth_error (sphi (t_time c0)) j = Some s0 -> nth_error (sphi (t_time c1)) j = Some s1 -> nth_error (sphi (o_time o)) j = Some s ->
  ((s <= 0)%Q -> data_at o j 0) /\
  ((0 < s)%Q -> ~ (s0 == 0)%Q -> ~ (s1 == 0)%Q ->
    exists v, data_at o j v /\ on_line (t_time c0) (t_time c1) (x0 / s0) (x1 / s1) (o_time o) (v / s)).
Proof. exact (process_solar sphi night c c0 c1 out o j x0 x1 s0 s1 s). Qed.
(** For inputs a whole number of days apart no intermediate time is ever produced (division by zero). *)
Theorem C32_solar_whole_days_refuted sphi night c c0 c1 out : valid_config c -> c_method c = Solar -> (t_time c1 - t_time c0) mod 86400 = 0 ->
  process sphi night c c0 c1 = Ok out -> map o_time out = [t_time c1].
Proof. intros V M D H. rewrite (process_solar_whole_days sphi night c c0 c1 out V M D H). reflexivity. Qed.
Theorem C32_daynight sphi night c c0 c1 out o j x0 x1 b : valid_config c -> c_method c = DayNight ->
  process sphi night c c0 c1 = Ok out -> (2 <= length out)%nat ->
  In o out -> nth_error (t_data c0) j = Some x0 -> nth_error (t_data c1) j = Some x1 -> nth_error (night (o_time o)) j = Some b ->
  exists v, data_at o j v /\ (if b then v == 0 else on_line (t_time c0) (t_time c1) x0 x1 (o_time o) v)%Q.
Proof. exact (process_daynight sphi night c c0 c1 out o j x0 x1 b). Qed.

Definition ex_c (acc : bool) : config := {| c_interval := Some 60; c_times := None; c_method := Linear; c_acc := acc; c_max := false; c_min := false |}.
Definition ex0 (b : bool) : tcube := {| t_time := 0; t_bounds := if b then Some (-10800, 0) else None; t_data := [1%Q; 0%Q] |}.
Definition ex1 (b : bool) : tcube := {| t_time := 10800; t_bounds := if b then Some (0, 10800) else None; t_data := [7%Q; 0%Q] |}.
Example C32_case : valid_config (ex_c false) /\ valid_config (ex_c true) /\
  map (fun o => (o_time o, nth 0 (o_data o) None)) (match process (fun _ => []) (fun _ => []) (ex_c false) (ex0 false) (ex1 false) with Ok l => l | _ => [] end)
   = [(3600, Some (1 + (7 - 1) * (inject_Z 3600 / inject_Z 10800))%Q); (7200, Some (1 + (7 - 1) * (inject_Z 7200 / inject_Z 10800))%Q); (10800, Some (1 + (7 - 1) * (inject_Z 10800 / inject_Z 10800))%Q)] /\
  map (fun o => (o_time o, o_bounds o, nth 1 (o_data o) (Some 1%Q))) (match process (fun _ => []) (fun _ => []) (ex_c true) (ex0 true) (ex1 true) with Ok l => l | _ => [] end)
   = [(3600, Some (0, 3600), None); (7200, Some (3600, 7200), None); (10800, Some (7200, 10800), None)].
Proof.
  split; [|split; [|split; reflexivity]]; (split; [reflexivity|]); simpl; intros m E; injection E as <-; lia.
Qed.

(** * C33 *)
(** The order in which the rates are given does not matter. *)
Theorem C33_order_free s l m : Permutation l m -> NoDup (map r_time l) -> accumulation_process s l = accumulation_process s m.
Proof. exact (process_order_free s l m). Qed.
(** Rates must be at least two and at a constant time step. *)
Theorem C33_regular_iff times ti : unique_interval times = Ok ti <-> (2 <= length times)%nat /\ forall k, (S k < length times)%nat -> nth (S k) times 0 - nth k times 0 = ti.
Proof.
  rewrite unique_iff. apply and_iff_compat_l. induction times as [|a l IH]; [simpl; split; [intros; lia|auto]|].
  destruct l as [|b l]; [simpl; split; [intros; lia|auto]|]. change (regular ti (a :: b :: l)) with (b = a + ti /\ regular ti (b :: l)). rewrite IH. split.
  - intros (E & F) [|k] Hk; [simpl; lia|]. apply F. simpl in *. lia.
  - intro F. split; [specialize (F 0%nat); simpl in F; lia|]. intros k Hk. apply (F (S k)). simpl in *. lia.
Qed.
Theorem C33_period_iff period ti : 0 < period -> 0 < ti -> (check_period period ti = Ok tt <-> (ti | period)).
Proof. exact (check_period_iff period ti). Qed.
(** Every output is the time integral of the rates whose forecast periods lie in [fp - period, fp], joined by straight lines, and
    its forecast period bounds are the first and last of those. One output per forecast period not shorter than the period. *)
Theorem C33_value s cubes s' outs R n : one_forecast R n cubes -> accumulation_process s cubes = (s', Ok outs) ->
  exists cs ti, Permutation cubes cs /\ StronglySorted (fun a b => r_time a <= r_time b) cs /\ regular ti (map r_time cs) /\
  let period := match a_period s with Some p => p | None => r_fp (last cs {| r_time := 0; r_fp := 0; r_data := [] |}) end in
  let fps := filter (fun f => period <=? f) (match a_fps s with Some f => f | None => map r_fp (filter (fun c => ti <=? r_fp c) cs) end) in
  Forall2 (fun fp o => let w := filter (fun c => (fp - period <=? r_fp c) && (r_fp c <=? fp)) cs in
     (2 <= length w)%nat /\ fst (ac_fp o) = hd 0 (map r_fp w) /\ snd (ac_fp o) = last (map r_fp w) 0 /\
     forall j, (j < n)%nat -> (nth j (ac_data o) 0 == integral (map (fun c => (r_fp c, nth j (r_data c) 0%Q)) w))%Q) fps outs.
Proof.
  intros O H. destruct (process_spec s cubes s' outs R n O H) as (cs & ti & (P & S) & _ & Rg & F). exists cs, ti.
  split; [exact P|]. split; [exact S|]. split; [exact Rg|]. exact F.
Qed.
(** The time bounds of every output are its lead-time bounds counted from the forecast reference time. *)
Theorem C33_time_bounds s cubes s' outs R n : one_forecast R n cubes -> accumulation_process s cubes = (s', Ok outs) ->
  Forall (fun o => ac_time o = (R + fst (ac_fp o), R + snd (ac_fp o))) outs.
Proof.
  intros O H. destruct (process_ok s cubes s' outs H) as (ti & _ & _ & F & _).
  assert (O' : one_forecast R n (sort_cubes cubes)) by (unfold one_forecast in *; eapply Permutation_Forall; [apply sort_perm|exact O]).
  clear H. induction F as [|fp o l m A F IH]; constructor; [|assumption]. rewrite (accumulate_times R n _ _ _ _ _ O' A). f_equal; lia.
Qed.
Theorem C33_constant_rate R n cs ti period fp o j r : one_forecast R n cs -> 0 <= ti -> regular ti (map r_time cs) -> accumulate_at cs ti period fp = Ok o ->
  (j < n)%nat -> Forall (fun c => nth j (r_data c) 0 == r)%Q cs -> (nth j (ac_data o) 0 == r * inject_Z (snd (ac_fp o) - fst (ac_fp o)))%Q.
Proof. exact (accumulate_constant R n cs ti period fp o j r). Qed.
Theorem C33_nonneg R n cs ti period fp o j : one_forecast R n cs -> 0 <= ti -> regular ti (map r_time cs) -> accumulate_at cs ti period fp = Ok o ->
  (j < n)%nat -> Forall (fun c => 0 <= nth j (r_data c) 0)%Q cs -> (0 <= nth j (ac_data o) 0)%Q.
Proof. exact (accumulate_nonneg R n cs ti period fp o j). Qed.
(** Accumulations over adjacent periods add up. *)
Theorem C33_additive R n cs ti p1 p2 fp o o1 o2 j : one_forecast R n cs -> 0 < ti -> regular ti (map r_time cs) ->
  0 <= p1 -> 0 <= p2 -> (exists c, In c cs /\ r_fp c = fp - p2) ->
  accumulate_at cs ti (p1 + p2) fp = Ok o -> accumulate_at cs ti p1 (fp - p2) = Ok o1 -> accumulate_at cs ti p2 fp = Ok o2 ->
  (j < n)%nat -> (nth j (ac_data o) 0 == nth j (ac_data o1) 0 + nth j (ac_data o2) 0)%Q.
Proof. exact (accumulate_additive R n cs ti p1 p2 fp o o1 o2 j). Qed.
(** When both ends of the window are covered by inputs the output spans exactly the requested period ... *)
Theorem C33_covers R n cs ti period fp o : one_forecast R n cs -> 0 <= ti -> regular ti (map r_time cs) -> accumulate_at cs ti period fp = Ok o -> 0 <= period ->
  (exists c, In c cs /\ r_fp c = fp - period) -> (exists c, In c cs /\ r_fp c = fp) -> ac_fp o = (fp - period, fp).
Proof. exact (accumulate_covers R n cs ti period fp o). Qed.
(** ... but a window reaching beyond the inputs is accepted, and the output covers a shorter period. *)
Definition rc (t : Z) (x : Q) : rcube := {| r_time := t; r_fp := t; r_data := [x] |}.
Theorem C33_coverage_refuted : exists cubes s s' o, a_period s = Some 3600 /\ one_forecast 0 1 cubes /\
  accumulation_process s cubes = (s', Ok [o]) /\ ac_fp o = (1800, 2700).
Proof.
  exists [rc 900 1; rc 1800 1; rc 2700 1], {| a_period := Some 3600; a_fps := Some [5400] |}. eexists. eexists.
  split; [reflexivity|]. split; [repeat constructor|]. split; [vm_compute; reflexivity|]. reflexivity.
Qed.
(** Inputs that all have the same time pass the regularity check and every accumulation is then zero. *)
Theorem C33_same_time_refuted : exists cubes s s' o, (forall c, In c cubes -> r_time c = 900 /\ r_data c = [5%Q]) /\
  accumulation_process s cubes = (s', Ok [o]) /\ (nth 0 (ac_data o) 1 == 0)%Q.
Proof.
  exists [rc 900 5; rc 900 5], {| a_period := Some 900; a_fps := Some [900] |}. eexists. eexists.
  split; [simpl; intros c [<-|[<-|[]]]; auto|]. split; [vm_compute; reflexivity|]. reflexivity.
Qed.
Example C33_case : exists s' o1 o2, accumulation_process {| a_period := Some 1800; a_fps := None |} [rc 1800 3; rc 0 1; rc 900 2; rc 2700 4] = (s', Ok [o1; o2]) /\
  one_forecast 0 1 [rc 1800 3; rc 0 1; rc 900 2; rc 2700 4] /\ ac_fp o1 = (0, 1800) /\ ac_fp o2 = (900, 2700) /\ (nth 0 (ac_data o1) 0 == 3600)%Q.
Proof. eexists. eexists. eexists. split; [vm_compute; reflexivity|]. split; [repeat constructor|]. repeat split. Qed.

Print Assumptions C32_interval_times.
Print Assumptions C32_interval_times_day_refuted.
Print Assumptions C32_interval_times_any_gap.
Print Assumptions C32_given_times.
Print Assumptions C32_inputs.
Print Assumptions C32_inputs_error.
Print Assumptions C32_times.
Print Assumptions C32_linear.
Print Assumptions C32_period_max.
Print Assumptions C32_period_min.
Print Assumptions C32_accumulation.
Print Assumptions C32_accumulation_dry_refuted.
Print Assumptions C32_bounds.
Print Assumptions C32_solar.
Print Assumptions C32_solar_whole_days_refuted.
Print Assumptions C32_daynight.
Print Assumptions C33_order_free.
Print Assumptions C33_regular_iff.
Print Assumptions C33_period_iff.
Print Assumptions C33_value.
Print Assumptions C33_time_bounds.
Print Assumptions C33_constant_rate.
Print Assumptions C33_nonneg.
Print Assumptions C33_additive.
Print Assumptions C33_covers.
Print Assumptions C33_coverage_refuted.
Print Assumptions C33_same_time_refuted.
