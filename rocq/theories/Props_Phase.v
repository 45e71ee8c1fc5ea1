(** C50, C51, C52. *)
From Verif Require Proofs_Combine.
From Verif Require Import Base Interp Model_Rescale Proofs_Rescale Model_Threshold Spec_Threshold Model_Probability Model_Reference Model_Phase Spec_Phase Proofs_Temporal Proofs_Table Proofs_Phase.
Local Open Scope Q_scope.

(** * C50 *)
(** The three masks are made for exactly the fields called snow_fraction, without units, without masked values and within [0, 1]. *)
Theorem C50_mask_accepted name units data phase : (exists m, phase_mask name units data phase = Ok m) <->
  name = "snow_fraction"%string /\ units = "1"%string /\ In phase ["rain"; "sleet"; "snow"]%string /\ exists vs, data = map Some vs /\ Forall (fun v => 0 <= v <= 1) vs.
Proof.
  unfold phase_mask. split.
  - intros (m & H). destruct (validate_snow_fraction _ _ _) as [vs|] eqn:V; [|discriminate]. cbn [bind] in H. apply validate_ok in V. destruct V as (-> & -> & -> & F).
    do 2 (split; [reflexivity|]). split; [|eauto].
    destruct (String.eqb_spec phase "rain") as [->|]; [left; reflexivity|]. destruct (String.eqb_spec phase "sleet") as [->|]; [right; left; reflexivity|].
    destruct (String.eqb_spec phase "snow") as [->|]; [right; right; left; reflexivity|discriminate].
  - intros (-> & -> & I & vs & -> & F). rewrite (proj2 (validate_ok "snow_fraction" "1" (map Some vs) vs)) by auto. cbn [bind].
    destruct I as [<-|[<-|[<-|[]]]]; cbn; eauto.
Qed.
(** At every point exactly one of the three masks is one, the others are zero; which one is decided by the snow fraction. *)
Theorem C50_masks_partition vs rain sleet snow : phase_mask "snow_fraction" "1" (map Some vs) "rain" = Ok rain -> phase_mask "snow_fraction" "1" (map Some vs) "sleet" = Ok sleet ->
  phase_mask "snow_fraction" "1" (map Some vs) "snow" = Ok snow -> forall i, (i < length vs)%nat ->
  let v := nth i vs 0 in let at_i (m : string * list Z) := nth i (snd m) 0%Z in
  (v <= 1 # 100 /\ at_i rain = 1%Z /\ at_i sleet = 0%Z /\ at_i snow = 0%Z) \/ ((1 # 100) < v < 99 # 100 /\ at_i rain = 0%Z /\ at_i sleet = 1%Z /\ at_i snow = 0%Z) \/
  (99 # 100 <= v /\ at_i rain = 0%Z /\ at_i sleet = 0%Z /\ at_i snow = 1%Z).
Proof.
  unfold phase_mask. destruct (validate_snow_fraction _ _ _) as [ws|] eqn:V; [|discriminate]. cbn [bind String.eqb]. apply validate_ok in V. destruct V as (_ & _ & E & F).
  apply (f_equal (map (fun o => match o with Some v => v | None => 0 end))) in E. rewrite !map_map, !map_id in E. subst ws.
  intros A B C i Hi. apply Proofs_Temporal.Ok_inj in A. apply Proofs_Temporal.Ok_inj in B. apply Proofs_Temporal.Ok_inj in C. subst. cbn [snd].
  rewrite !nth_map_lt with (d := 0) by exact Hi. set (v := nth i vs 0). unfold rain_phase, sleet_phase, snow_phase, lower_threshold, upper_threshold.
  destruct (Qleb_spec v (1 # 100)), (Qleb_spec (99 # 100) v), (Qltb_spec (1 # 100) v), (Qltb_spec v (99 # 100)); cbn [andb]; try lra; auto 10.
Qed.
(** The probability of sleet completes those of snow and rain to one, is never negative, and is refused exactly when it would be. *)
Theorem C50_sleet snow rain out : sleet_probability snow rain = Ok out ->
  pointwise3 (fun s r o => match s, r with Some s, Some r => exists v, o = Some v /\ s + r + v == 1 /\ 0 <= v | _, _ => o = None end) snow rain out.
Proof.
  intro H. destruct (sleet_spec _ _ _ H) as (A & B & C). split; [exact A|]. split; [exact B|]. intros i Hi. specialize (C i Hi).
  destruct (nth i snow None), (nth i rain None); try exact C. destruct C as (v & E & V & N). exists v. split; [exact E|]. split; [lra|exact N].
Qed.
Theorem C50_sleet_accepted snow rain : length rain = length snow ->
  ((exists out, sleet_probability snow rain = Ok out) <-> forall i s r, nth i snow None = Some s -> nth i rain None = Some r -> s + r <= 1).
Proof.
  intro L. split; [|apply sleet_accepted; exact L]. intros (out & H) i s r A B. exact (sleet_refused snow rain out i s r H A B).
Qed.
(** At the surface a phase has probability one where the rule for the required percentile of its falling level holds (heights compared in metres), zero elsewhere, in either order of the cubes. *)
Theorem C50_surface_phase phase pct rule c o f alt unit cubes : surface_rule phase pct rule -> Permutation [c; o] cubes ->
  l_name c = ("altitude_of_" ++ phase ++ "_falling_level")%string -> surface_used o alt unit -> level_used pct c f ->
  l_spatial_match c o = true -> l_spatial_match o c = true -> length alt = length f -> 0 < unit ->
  exists out, phase_probability cubes = Ok (("probability_of_" ++ phase ++ "_at_surface")%string, out) /\ length out = length f /\
  forall i, (i < length f)%nat -> (rule (nth i alt 0 * unit) (nth i f 0 * l_unit c) -> nth i out 0%Z = 1%Z) /\ (~ rule (nth i alt 0 * unit) (nth i f 0 * l_unit c) -> nth i out 0%Z = 0%Z).
Proof.
  intros R P N O U M1 M2 L UP.
  assert (CMP : exists cmp, In (phase, cmp, pct) phase_definitions /\ forall a x, cmp a x = true <-> rule a x).
  { destruct R; eexists; (split; [cbn; eauto|]); intros a x; cbn.
    - apply Qle_bool_iff.
    - destruct (Qltb_spec a x); split; intro; try assumption; try reflexivity; try discriminate; lra.
    - destruct (Qltb_spec a x); split; intro; try assumption; try reflexivity; try discriminate; lra. }
  destruct CMP as (cmp & IN & CMP).
  assert (F : find_level phase_definitions cubes = Ok ((phase, cmp, pct), c)).
  { assert (ON : l_name o = "surface_altitude"%string \/ l_name o = "grid_neighbours"%string) by (destruct O as [(O & _)|(O & _)]; auto).
    apply Permutation_length_2_inv in P.
    destruct R; cbn in IN; destruct IN as [E|[E|[E|[]]]]; try discriminate; injection E as <-; cbn [append] in N; unfold phase_definitions, find_level, named; cbn [fst snd append];
      destruct P as [->| ->]; cbn [filter]; rewrite N; destruct ON as [-> | ->]; reflexivity. }
  assert (G : match l_levels c with Single g => Ok g | Percentiles l => match find (fun pf => fst pf =? pct) l with Some pf => Ok (snd pf) | None => Err ValueError end end = Ok f).
  { unfold level_used in U. destruct (l_levels c) as [g|l]; [congruence|]. destruct U as (b & p & a & -> & E & FB).
    replace (find (fun pf => fst pf =? pct) (b ++ (p, f) :: a)) with (Some (p, f)); [reflexivity|]. symmetry. clear - E FB. induction b as [|q b IH]; cbn.
    - destruct (Qeqb_spec p pct); [reflexivity|contradiction].
    - inversion FB; subst. destruct (Qeqb_spec (fst q) pct); [contradiction|]. apply IH. assumption. }
  assert (A : match named "surface_altitude" cubes with
              | s :: _ => match l_levels s with Single g => Ok (g, l_unit s) | Percentiles _ => Err ValueError end
              | [] => match named "grid_neighbours" cubes with [s] => Ok (l_altitude s, l_altitude_unit s) | _ => Err ValueError end end = Ok (alt, unit)).
  { apply Permutation_length_2_inv in P. unfold named. assert (NC : l_name c <> "surface_altitude"%string /\ l_name c <> "grid_neighbours"%string) by (rewrite N; destruct R; split; discriminate).
    destruct NC as [NC1 NC2]. apply String.eqb_neq in NC1, NC2.
    destruct O as [(E & S' & ->)|(E & -> & ->)]; destruct P as [->| ->]; cbn [filter]; rewrite E, NC1; cbn [String.eqb Ascii.eqb Bool.eqb]; rewrite ?NC2; try rewrite S'; reflexivity. }
  set (g := convert (l_unit c) unit f).
  assert (LG : length g = length f) by (unfold g, convert; destruct (Qeq_bool _ _); [reflexivity|apply map_length]).
  exists (zipw (fun a l => if cmp a l then 1%Z else 0%Z) alt g). split.
  - unfold phase_probability. apply Permutation_length_2_inv in P. destruct P as [->| ->]; rewrite ?M1, ?M2; cbn [negb]; rewrite F; cbn [bind]; rewrite G; cbn [bind]; rewrite A; cbn [bind];
      fold g; rewrite (proj2 (same2 (length alt) (length g))) by lia; reflexivity.
  - split; [rewrite zipw_length; lia|]. intros i Hi. rewrite zipw_nth with (da := 0) (db := 0) by lia.
    assert (E : nth i g 0 * unit == nth i f 0 * l_unit c).
    { unfold g, convert. destruct (Qeqb_spec (l_unit c) unit) as [->|]; [reflexivity|]. rewrite nth_map_lt with (d := 0) by exact Hi. field. lra. }
    assert (RM : rule (nth i alt 0) (nth i g 0) <-> rule (nth i alt 0 * unit) (nth i f 0 * l_unit c)).
    { destruct R; rewrite <- E; split; intro H; [apply Qmult_le_compat_r; lra|apply Qmult_lt_0_le_reg_r with unit; assumption|apply Qmult_lt_compat_r; lra|apply Qmult_lt_r with unit; assumption
        |apply Qmult_lt_compat_r; lra|apply Qmult_lt_r with unit; assumption]. }
    rewrite <- RM. destruct (cmp (nth i alt 0) (nth i g 0)) eqn:C.
    + split; [reflexivity|]. intro H. destruct H. apply CMP. exact C.
    + split; [|reflexivity]. intro H. apply CMP in H. congruence.
Qed.
Theorem C50_percentile_missing phase pct rule c o l : surface_rule phase pct rule -> l_name c = ("altitude_of_" ++ phase ++ "_falling_level")%string -> (l_name o = "surface_altitude" \/ l_name o = "grid_neighbours")%string ->
  l_levels c = Percentiles l -> Forall (fun q => ~ fst q == pct) l -> phase_probability [c; o] = Err ValueError.
Proof.
  intros R N ON LC F. unfold phase_probability. destruct (l_spatial_match c o); [|reflexivity]. cbn [negb].
  assert (FL : forall cmp, In (phase, cmp, pct) phase_definitions -> find_level phase_definitions [c; o] = Ok ((phase, cmp, pct), c)).
  { intros cmp IN. destruct R; cbn in IN; destruct IN as [E|[E|[E|[]]]]; try discriminate; injection E as <-; cbn [append] in N; unfold phase_definitions, find_level, named; cbn [fst snd append filter];
      rewrite N; destruct ON as [-> | ->]; reflexivity. }
  assert (NF : find (fun pf => fst pf =? pct) l = None).
  { clear - F. induction F as [|q l H F IH]; [reflexivity|]. cbn. destruct (Qeqb_spec (fst q) pct); [contradiction|exact IH]. }
  destruct R; erewrite FL by (cbn; eauto); cbn [bind]; rewrite LC, NF; reflexivity.
Qed.
(** Where the rain level is not above the snow level, no point has both rain and snow, so the probability of sleet always exists and the three add up to one with exactly one of them one. *)
Theorem C50_one_phase cr cs o fr fs alt unit rain snow : l_name cr = "altitude_of_rain_falling_level"%string -> l_name cs = "altitude_of_snow_falling_level"%string ->
  surface_used o alt unit -> level_used 20 cr fr -> level_used 80 cs fs -> l_spatial_match cr o = true -> l_spatial_match o cr = true -> l_spatial_match cs o = true -> l_spatial_match o cs = true ->
  length alt = length fr -> length alt = length fs -> 0 < unit -> (forall i, (i < length alt)%nat -> nth i fr 0 * l_unit cr <= nth i fs 0 * l_unit cs) ->
  phase_probability [cr; o] = Ok ("probability_of_rain_at_surface"%string, rain) -> phase_probability [cs; o] = Ok ("probability_of_snow_at_surface"%string, snow) ->
  exists sleet, sleet_probability (map (fun z => Some (inject_Z z)) snow) (map (fun z => Some (inject_Z z)) rain) = Ok sleet /\
  forall i, (i < length alt)%nat -> exists v, nth i sleet None = Some v /\
    ((nth i rain 0 = 1 /\ nth i snow 0 = 0 /\ v == 0)%Z \/ (nth i rain 0 = 0 /\ nth i snow 0 = 1 /\ v == 0)%Z \/ (nth i rain 0 = 0 /\ nth i snow 0 = 0 /\ v == 1)%Z).
Proof.
  intros Nr Ns O Ur Us M1 M2 M3 M4 Lr Ls UP LE Hr Hs.
  destruct (C50_surface_phase "rain" 20 _ cr o fr alt unit [cr; o] rain_rule (Permutation_refl _) Nr O Ur M1 M2 Lr UP) as (r & Er & LR & PR). cbn [append] in Er. rewrite Hr in Er. injection Er as <-.
  destruct (C50_surface_phase "snow" 80 _ cs o fs alt unit [cs; o] snow_rule (Permutation_refl _) Ns O Us M3 M4 Ls UP) as (s & Es & LS & PS). cbn [append] in Es. rewrite Hs in Es. injection Es as <-.
  assert (CASES : forall i, (i < length alt)%nat -> (nth i rain 0 = 1 /\ nth i snow 0 = 0)%Z \/ (nth i rain 0 = 0 /\ nth i snow 0 = 1)%Z \/ (nth i rain 0 = 0 /\ nth i snow 0 = 0)%Z).
  { intros i Hi. destruct (PR i ltac:(lia)) as [A B], (PS i ltac:(lia)) as [C D]. specialize (LE i Hi).
    destruct (Qlt_le_dec (nth i alt 0 * unit) (nth i fr 0 * l_unit cr)) as [X|X].
    - left. split; [apply A; exact X|apply D; lra].
    - right. destruct (Qlt_le_dec (nth i alt 0 * unit) (nth i fs 0 * l_unit cs)) as [Y|Y]; [right|left]; split; try (apply B; lra); [apply D; lra|apply C; exact Y]. }
  assert (L2 : length snow = length rain) by lia.
  destruct (sleet_accepted (map (fun z => Some (inject_Z z)) snow) (map (fun z => Some (inject_Z z)) rain)) as (out & H).
  { rewrite !map_length. lia. }
  { intros i s r A B. destruct (Nat.lt_ge_cases i (length alt)) as [Hi|Hi]; [|rewrite nth_overflow in A by (rewrite map_length; lia); discriminate].
    rewrite nth_map_lt with (d := 0%Z) in A by lia. rewrite nth_map_lt with (d := 0%Z) in B by lia. injection A as <-. injection B as <-.
    destruct (CASES i Hi) as [[-> ->]|[[-> ->]|[-> ->]]]; discriminate. }
  exists out. split; [exact H|]. intros i Hi. destruct (sleet_spec _ _ _ H) as (_ & _ & C). specialize (C i ltac:(rewrite map_length; lia)).
  rewrite !nth_map_lt with (d := 0%Z) in C by lia. destruct C as (v & E & V & _). exists v. split; [exact E|].
  destruct (CASES i Hi) as [[A B]|[[A B]|[A B]]]; rewrite A, B in *; change (inject_Z 1) with 1 in V; change (inject_Z 0) with 0 in V; [left|right; left|right; right]; (split; [reflexivity|]); (split; [reflexivity|]); lra.
Qed.
(** The rain part and the snow part of a precipitation add up to it; neither is negative nor exceeds it when it is not negative and the two probabilities are not negative. *)
Theorem C50_split_complete cubes rname rain sname snow : snow_splitter true cubes = Ok (rname, rain) -> snow_splitter false cubes = Ok (sname, snow) ->
  exists precip, In precip cubes /\ contains "precipitation" (p_name precip) = true /\ length rain = length (p_data precip) /\ length snow = length (p_data precip) /\
  forall i, (i < length (p_data precip))%nat ->
    match nth i rain None, nth i snow None with
    | Some r, Some s => exists p, nth i (p_data precip) None = Some p /\ r + s == p
    | None, None => True
    | _, _ => False
    end.
Proof.
  intros A B. destruct (splitter_inv _ _ _ _ A) as (r & s & p & Xr & Xs & Xp & L1 & L2 & L3 & _ & PA).
  destruct (splitter_inv _ _ _ _ B) as (r' & s' & p' & Xr' & Xs' & Xp' & L1' & L2' & L3' & _ & PB).
  rewrite Xr in Xr'. injection Xr' as <-. rewrite Xs in Xs'. injection Xs' as <-. rewrite Xp in Xp'. injection Xp' as <-.
  exists p. unfold extract_cube, extract_one in Xp. destruct (filter _ cubes) as [|c [|]] eqn:F; try discriminate. injection Xp as ->.
  assert (I : In p (filter (fun c => contains "precipitation" (p_name c)) cubes)) by (rewrite F; left; reflexivity). apply filter_In in I. destruct I as [I1 I2].
  do 2 (split; [assumption|]). do 2 (split; [lia|]). intros i Hi. specialize (PA i ltac:(lia)). specialize (PB i ltac:(lia)).
  destruct (nth i (p_data r) None) as [x|], (nth i (p_data s) None) as [y|], (nth i (p_data p) None) as [q|]; rewrite ?PA, ?PB; try exact I.
  destruct PA as (_ & v & -> & V), PB as (_ & w & -> & W). exists q. split; [reflexivity|]. rewrite V, W. field.
Qed.
Theorem C50_split_range is_rain cubes name out : snow_splitter is_rain cubes = Ok (name, out) ->
  (forall c w, In c cubes -> In w (p_data c) -> when (fun x => 0 <= x) w) ->
  forall i v, nth i out None = Some v -> exists p precip, In precip cubes /\ contains "precipitation" (p_name precip) = true /\ nth i (p_data precip) None = Some p /\ 0 <= v <= p.
Proof.
  intros A P i v V. destruct (splitter_inv _ _ _ _ A) as (r & s & p & Xr & Xs & Xp & L1 & L2 & L3 & _ & PA).
  assert (G : forall w c, extract_cube w cubes = Ok c -> In c cubes /\ contains w (p_name c) = true).
  { intros w c H. unfold extract_cube, extract_one in H. destruct (filter _ cubes) as [|d [|]] eqn:F; try discriminate. injection H as ->.
    assert (I : In c (filter (fun c => contains w (p_name c)) cubes)) by (rewrite F; left; reflexivity). apply filter_In in I. exact I. }
  destruct (Nat.lt_ge_cases i (length out)) as [Hi|Hi]; [|rewrite nth_overflow in V by exact Hi; discriminate].
  specialize (PA i Hi). assert (N : forall c, In c cubes -> length (p_data c) = length out -> when (fun x => 0 <= x) (nth i (p_data c) None)) by (intros c I L; apply (P c); [exact I|apply nth_In; lia]).
  pose proof (N r (proj1 (G _ _ Xr)) ltac:(lia)) as Nr. pose proof (N s (proj1 (G _ _ Xs)) ltac:(lia)) as Ns. pose proof (N p (proj1 (G _ _ Xp)) ltac:(lia)) as Np.
  destruct (nth i (p_data r) None) as [x|], (nth i (p_data s) None) as [y|], (nth i (p_data p) None) as [q|] eqn:Q; cbn [when] in *; try congruence.
  destruct PA as (S1 & w & W & E). rewrite W in V. injection V as <-. exists q, p. destruct (G _ _ Xp). do 3 (split; [assumption|]).
  set (k := ((if is_rain then x - y else y - x) + 1) / 2). assert (K : 0 <= k <= 1).
  { unfold k. assert (D : forall z, (z + 1) / 2 == (z + 1) * (1 # 2)) by (intro; field). rewrite D. destruct is_rain; lra. }
  assert (E' : w == q * k) by (rewrite E; unfold k; field). rewrite E'. split; [apply Qmult_le_0_compat; lra|]. nra.
Qed.
(** Cubes on different grids are refused, whichever coordinate and cube differs. *)
Definition same_axis (a b : dimcoord) : Prop := dname a = dname b /\ Forall2 Qeq (dpoints a) (dpoints b).
Theorem C50_split_grids is_rain cubes name out rain snow precip : snow_splitter is_rain cubes = Ok (name, out) ->
  In rain cubes -> In snow cubes -> In precip cubes -> contains "rain" (p_name rain) = true -> contains "snow" (p_name snow) = true -> contains "precipitation" (p_name precip) = true ->
  same_axis (p_x snow) (p_x rain) /\ same_axis (p_y snow) (p_y rain) /\ same_axis (p_x precip) (p_x rain) /\ same_axis (p_y precip) (p_y rain).
Proof.
  intros H Ir Is Ip Cr Cs Cp. unfold snow_splitter in H.
  assert (G : forall w c d, extract_cube w cubes = Ok c -> In d cubes -> contains w (p_name d) = true -> c = d).
  { intros w c d X I0 C. unfold extract_cube, extract_one in X. assert (J : In d (filter (fun c => contains w (p_name c)) cubes)) by (apply filter_In; auto).
    destruct (filter _ cubes) as [|e [|]]; try discriminate. destruct J as [->|[]]. congruence. }
  destruct (extract_cube "rain" cubes) as [r|] eqn:X1; [|discriminate]. cbn [bind] in H. destruct (extract_cube "snow" cubes) as [s|] eqn:X2; [|discriminate]. cbn [bind] in H.
  destruct (extract_cube "precipitation" cubes) as [p|] eqn:X3; [|discriminate]. cbn [bind] in H. rewrite (G _ _ _ X1 Ir Cr), (G _ _ _ X2 Is Cs), (G _ _ _ X3 Ip Cp) in H.
  destruct (spatial_match _) eqn:M; [|discriminate]. cbn [spatial_match forallb] in M. rewrite !andb_true_iff in M. destruct M as [[A B] [[C D] _]].
  assert (Ax : forall a b, coord_eq a b = true -> same_axis a b).
  { intros a b E. unfold coord_eq in E. apply andb_true_iff in E as [E1 E2]. split; [now apply String.eqb_eq|now apply Proofs_Combine.points_eq_iff]. }
  split; [|split; [|split]]; apply Ax; assumption.
Qed.
(** The name of the result says which part it is. *)
Theorem C50_split_names cubes rname rain sname snow precip : In precip cubes -> snow_splitter true cubes = Ok (rname, rain) -> snow_splitter false cubes = Ok (sname, snow) ->
  p_name precip = "lwe_precipitation_rate"%string -> rname = "rainfall_rate"%string /\ sname = "lwe_snowfall_rate"%string.
Proof.
  intros I A B N. destruct (splitter_inv _ _ _ _ A) as (r & s & p & _ & _ & Xp & _ & _ & _ & -> & _). destruct (splitter_inv _ _ _ _ B) as (r' & s' & p' & _ & _ & Xp' & _ & _ & _ & -> & _).
  rewrite Xp in Xp'. injection Xp' as <-. assert (E : p_name p = "lwe_precipitation_rate"%string).
  { unfold extract_cube, extract_one in Xp. assert (J : In precip (filter (fun c => contains "precipitation" (p_name c)) cubes)) by (apply filter_In; split; [exact I|rewrite N; reflexivity]).
    destruct (filter _ cubes) as [|c [|]]; try discriminate. destruct J as [->|[]]. injection Xp as <-. exact N. }
  rewrite E. split; reflexivity.
Qed.
Definition axis2 : dimcoord := {| dname := "x"; dpoints := [0; 1] |}.
Definition lcube_of (n : string) (u : Q) (l : levels) : lcube := {| l_name := n; l_y := axis2; l_x := axis2; l_unit := u; l_levels := l; l_altitude := []; l_altitude_unit := 1 |}.
Example C50_case :
  phase_mask "snow_fraction" "1" [Some (1 # 100); Some (1 # 2); Some (99 # 100)] "sleet" = Ok ("sleet_mask"%string, [0; 1; 0]%Z) /\
  phase_probability [lcube_of "surface_altitude" 1 (Single [100; 700; 2000]); lcube_of "altitude_of_rain_falling_level" 1000 (Percentiles [(50, [1; 1; 1]); (20, [1 # 2; 1 # 2; 1 # 2])])] =
    Ok ("probability_of_rain_at_surface"%string, [1; 0; 0]%Z) /\
  phase_probability [lcube_of "altitude_of_snow_falling_level" 1 (Single [900; 900; 900]); lcube_of "surface_altitude" 1 (Single [100; 700; 2000])] = Ok ("probability_of_snow_at_surface"%string, [0; 0; 1]%Z) /\
  sleet_probability [Some 0; Some 0; Some 1] [Some 1; Some 0; Some 0] = Ok [Some 0; Some 1; Some 0] /\
  exists rain, snow_splitter true [{| p_name := "probability_of_rain_at_surface"; p_y := axis2; p_x := axis2; p_data := [Some (1 # 2); None] |};
                        {| p_name := "probability_of_snow_at_surface"; p_y := axis2; p_x := axis2; p_data := [Some (1 # 4); Some 0] |};
                        {| p_name := "lwe_precipitation_rate"; p_y := axis2; p_x := axis2; p_data := [Some 8; Some 8] |}] = Ok ("rainfall_rate"%string, [Some rain; None]) /\ rain == 5.
Proof. repeat split. eexists; split; vm_compute; reflexivity. Qed.

(** * C51 *)
(** The hail fraction: the linear function of the updraught unless the cloud base is too cold, the cloud top too warm or hail melts above the surface; with large hail never below 0.05. *)
Theorem C51_hail h : let suppressed := ccl_temperature h < 26815 # 100 \/ 25815 # 100 < cct_temperature h \/ surface h < melting_level h in
  0 <= hail_fraction h <= 1 # 4 /\
  (2 # 1000 < hail_size h -> suppressed -> hail_fraction h == 5 # 100) /\ (2 # 1000 < hail_size h -> ~ suppressed -> hail_fraction h == Qmax (5 # 100) (updraught_fraction (updraught h))) /\
  (hail_size h <= 2 # 1000 -> suppressed -> hail_fraction h == 0) /\ (hail_size h <= 2 # 1000 -> ~ suppressed -> hail_fraction h == updraught_fraction (updraught h)).
Proof.
  intro sup. unfold hail_fraction. pose proof (updraught_interp (updraught h)) as E. pose proof (updraught_range (updraught h)) as R. set (f := np_interp _ _) in *. set (u := updraught_fraction _) in *.
  assert (D : ((ccl_temperature h <? 26815 # 100) || (25815 # 100 <? cct_temperature h) || (surface h <? melting_level h))%bool = true <-> sup).
  { unfold sup. destruct (Qltb_spec (ccl_temperature h) (26815 # 100)), (Qltb_spec (25815 # 100) (cct_temperature h)), (Qltb_spec (surface h) (melting_level h)); cbn; split; intro K; auto; try discriminate;
      destruct K as [K|[K|K]]; lra. }
  destruct (_ || _)%bool.
  - destruct (Qltb_spec (2 # 1000) (hail_size h)), (Qltb_spec 0 (5 # 100)); cbn [andb]; try lra; repeat split; intros; try lra; destruct D as [D _]; specialize (D eq_refl); tauto.
  - assert (N : ~ sup) by (intro K; apply D in K; discriminate).
    destruct (Qltb_spec (2 # 1000) (hail_size h)), (Qltb_spec f (5 # 100)); cbn [andb]; repeat split; intros; try lra; try tauto.
    + rewrite Q.max_l; lra.
    + rewrite Q.max_r; lra.
Qed.
Theorem C51_updraught_ramp w w' : (w <= 5 -> updraught_fraction w == 0) /\ (50 <= w -> updraught_fraction w == 1 # 4) /\ (w <= w' -> updraught_fraction w <= updraught_fraction w').
Proof.
  split; [|split; [|apply updraught_mono]]; unfold updraught_fraction; destruct (Qleb_spec w 5), (Qleb_spec w 50); intro; try lra. assert (E : w == 50) by lra. rewrite E. reflexivity.
Qed.
Theorem C51_hail_monotone h w : updraught h <= w -> hail_fraction h <= hail_fraction {| updraught := w; hail_size := hail_size h; ccl_temperature := ccl_temperature h;
  cct_temperature := cct_temperature h; melting_level := melting_level h; surface := surface h |}.
Proof.
  intro H. unfold hail_fraction; cbn [updraught hail_size ccl_temperature cct_temperature melting_level surface].
  pose proof (updraught_interp (updraught h)) as E. pose proof (updraught_interp w) as E'. pose proof (updraught_mono _ _ H) as M.
  set (f := np_interp _ (updraught h)) in *. set (f' := np_interp _ w) in *. destruct (_ || _)%bool; [apply Qle_refl|].
  destruct (Qltb_spec (2 # 1000) (hail_size h)), (Qltb_spec f (5 # 100)), (Qltb_spec f' (5 # 100)); cbn [andb]; lra.
Qed.
(** The convective ratio is masked exactly where the total is within 1e-9 of zero; elsewhere, for components that are not negative, it is in [0, 1] and completes the ratio of the other component. *)
Theorem C51_convective_ratio c d : (convective_ratio c d = None <-> Qabs (c + d) <= 1 # 1000000000) /\ (convective_ratio c d = None <-> convective_ratio d c = None) /\
  (forall v, convective_ratio c d = Some v -> v * (c + d) == c /\ (0 <= c -> 0 <= d -> 0 <= v <= 1) /\ exists w, convective_ratio d c = Some w /\ v + w == 1).
Proof.
  unfold convective_ratio. assert (EQ : Qabs (d + c) == Qabs (c + d)) by (apply Qabs_wd; ring).
  destruct (Qleb_spec (Qabs (c + d)) (1 # 1000000000)) as [A|A], (Qleb_spec (Qabs (d + c)) (1 # 1000000000)) as [B|B]; try lra.
  - repeat split; auto; intros; discriminate.
  - assert (N : ~ c + d == 0) by (intro Z; rewrite Z in A; cbn in A; lra). split; [split; [discriminate|lra]|]. split; [split; discriminate|]. intros v V. injection V as <-.
    split; [field; exact N|]. split.
    + intros C D. assert (P : 0 < c + d) by lra. split; [apply Qle_shift_div_l; lra|apply Qle_shift_div_r; lra].
    + eexists; split; [reflexivity|]. field. repeat split; try exact N; intro Z; apply N; lra.
Qed.
(** The probability of showery conditions is the share, among the realizations whose cloud is not masked, of those with cloud not above its threshold or a convective ratio above its own (masked counts as
    not above); it is masked where every cloud is. *)
Theorem C51_showers tc tv n cloud convection out i : Forall (fun f => length f = n) cloud -> Forall (fun f => length f = n) convection -> (i < n)%nat ->
  shower_probability tc tv n cloud convection = Ok out ->
  let members := filter (fun p => match fst p with Some _ => true | None => false end) (combine (map (fun f => nth i f None) cloud) (map (fun f => nth i f None) convection)) in
  match nth i out None with
  | Some v => share (fun p => showery tc tv (fst p) (snd p)) members v
  | None => members = []
  end.
Proof.
  intros Fa Fb Hi H. unfold shower_probability in H. destruct (list_eq_dec _ _ _) as [E|]; [|discriminate].
  destruct (mapM _ cloud) as [cl|] eqn:A; [|discriminate]. destruct (mapM _ convection) as [cv|] eqn:B; [|discriminate]. cbn [bind] in H. apply Proofs_Temporal.Ok_inj in H. subst out.
  apply mapM_forall2 in A, B. apply (f_equal (@length nat)) in E. rewrite !map_length in E. intro members.
  destruct (shower_members tc tv i n Hi cloud convection cl cv Fa Fb ltac:(lia) A B) as [L (k & K & S')]. rewrite nth_map_seq by exact Hi. unfold masked_mean.
  fold (unmasked_cloud i cloud convection) in members. subst members.
  destruct (flat_map _ _) as [|v vs] eqn:F; cbv zeta in L, S'; rewrite ?F in L; rewrite ?F in S'.
  - symmetry in L. apply length_zero_iff_nil in L. exact L.
  - split; [intro Z; rewrite Z in L; discriminate|]. exists k. split; [exact K|]. rewrite S'. unfold Qlen. rewrite L. reflexivity.
Qed.
Theorem C51_showers_accepted tc tv n cloud convection : (exists out, shower_probability tc tv n cloud convection = Ok out) <-> map (@length _) cloud = map (@length _) convection.
Proof.
  unfold shower_probability. destruct (list_eq_dec _ _ _) as [E|E]; [|split; [intros (o & H); discriminate|contradiction]]. split; [auto|intros _].
  destruct (mapM_total (threshold_cube tc "<=") cloud) as (cl & ->). { intros l _. destruct (threshold_cube_spec tc "<=" LE l eq_refl) as (f & -> & _). eauto. }
  destruct (mapM_total (threshold_cube tv ">") convection) as (cv & ->). { intros l _. destruct (threshold_cube_spec tv ">" GT l eq_refl) as (f & -> & _). eauto. }
  cbn [bind]. eauto.
Qed.
Example C51_case : hail_fraction {| updraught := 32; hail_size := 1 # 1000; ccl_temperature := 270; cct_temperature := 250; melting_level := 0; surface := 10 |} == 15 # 100 /\
  hail_fraction {| updraught := 32; hail_size := 3 # 1000; ccl_temperature := 260; cct_temperature := 250; melting_level := 0; surface := 10 |} == 5 # 100 /\
  convective_ratio 1 3 = Some (1 # 4) /\ convective_ratio 0 0 = None /\
  exists a b, shower_probability (13 # 16) (4 # 5) 3 [[Some 1; Some (1 # 2); None]; [Some 1; Some 1; None]] [[Some 1; Some 0; Some 1]; [None; Some 0; Some 1]] = Ok [Some a; Some b; None] /\ a == 1 # 2 /\ b == 1 # 2.
Proof. repeat split; try reflexivity. do 2 eexists; repeat split; vm_compute; reflexivity. Qed.

(** * C52 *)
(** The probability of freezing rain is the mean, over the realizations the three inputs share, of the probability of rain or sleet times that of freezing temperatures - if these are all the realizations
    of the rain. *)
Theorem C52_mean K m rain sleet temp a b c : ensemble (shape2 K m) a rain -> ensemble (shape2 K m) b sleet -> ensemble (fun f => length f = m) c temp ->
  a <> [] -> (forall r, In r a -> In r b /\ In r c) ->
  exists out, freezing_rain rain sleet temp = Ok out /\ shape2 K m out /\
  forall k j, (k < K)%nat -> (j < m)%nat -> nth j (nth k out []) 0 == qsum (map (member_probability rain sleet temp k j) a) / Qlen a.
Proof.
  intros A B C N I. destruct (freezing_value K m rain sleet temp a b c A B C) as [_ V]. cbv zeta in V.
  assert (E : filter (fun r => (existsb (Z.eqb r) b && existsb (Z.eqb r) c)%bool) a = a).
  { clear - I. induction a as [|r a IH]; [reflexivity|]. cbn [filter]. destruct (I r (or_introl eq_refl)) as [Ib Ic].
    replace (existsb (Z.eqb r) b) with true by (symmetry; apply existsb_exists; exists r; split; [exact Ib|apply Z.eqb_refl]).
    replace (existsb (Z.eqb r) c) with true by (symmetry; apply existsb_exists; exists r; split; [exact Ic|apply Z.eqb_refl]). cbn [andb]. f_equal. apply IH. intros; apply I; right; assumption. }
  rewrite E in V. apply V. exact N.
Qed.
(** In general the sum over the shared realizations is divided by the number of realizations of the rain. *)
Theorem C52_value K m rain sleet temp a b c common : ensemble (shape2 K m) a rain -> ensemble (shape2 K m) b sleet -> ensemble (fun f => length f = m) c temp ->
  StronglySorted Z.lt common -> (forall r, In r common <-> In r a /\ In r b /\ In r c) ->
  (common = [] -> freezing_rain rain sleet temp = Err ValueError) /\
  (common <> [] -> exists out, freezing_rain rain sleet temp = Ok out /\ shape2 K m out /\
   forall k j, (k < K)%nat -> (j < m)%nat -> nth j (nth k out []) 0 == qsum (map (member_probability rain sleet temp k j) common) / Qlen a).
Proof.
  intros A B C S' I. pose proof (freezing_value K m rain sleet temp a b c A B C) as V. cbv zeta in V.
  assert (E : filter (fun r => (existsb (Z.eqb r) b && existsb (Z.eqb r) c)%bool) a = common).
  { apply sorted_ext; [apply sorted_filter; apply A|exact S'|]. intro x. rewrite I, filter_In, Bool.andb_true_iff, !existsb_exists. split.
    - intros (X & (y & Y & E1) & (z & Z' & E2)). apply Z.eqb_eq in E1, E2. subst. auto.
    - intros (X & Y & Z'). split; [exact X|]. split; exists x; (split; [assumption|apply Z.eqb_refl]). }
  rewrite E in V. exact V.
Qed.
(** So, with realizations of the rain that the other inputs lack, the result is not the mean over the shared ones: certain freezing rain in every shared realization gets probability one half. *)
Theorem C52_common_refuted : exists rain sleet temp a common out, ensemble (shape2 1 1) a rain /\ ensemble (shape2 1 1) common sleet /\ ensemble (fun f => length f = 1%nat) common temp /\
  (forall r, In r common -> In r a) /\ (forall r, In r common -> member_probability rain sleet temp 0 0 r == 1) /\
  freezing_rain rain sleet temp = Ok out /\ ~ nth 0 (nth 0 out []) 0 == qsum (map (member_probability rain sleet temp 0 0) common) / Qlen common /\ nth 0 (nth 0 out []) 0 == 1 # 2.
Proof.
  exists (Build_rcube (Some [0; 1]%Z) [[[1]]; [[1]]]), (Build_rcube (Some [0%Z]) [[[0]]]), (Build_rcube (Some [0%Z]) [[1]]), [0; 1]%Z, [0%Z]. eexists.
  split; [repeat split; repeat constructor|]. split; [repeat split; repeat constructor|]. split; [repeat split; repeat constructor|].
  split; [intros r [<-|[]]; left; reflexivity|]. split; [intros r [<-|[]]; reflexivity|]. split; [reflexivity|]. split; [intro H; vm_compute in H; discriminate|vm_compute; reflexivity].
Qed.
(** Realizations are paired by position: with descending realizations in one input the members of different realizations are multiplied. *)
Theorem C52_order_refuted : exists rain sleet temp out, r_realizations rain = Some [0; 1]%Z /\ r_realizations sleet = Some [0; 1]%Z /\ r_realizations temp = Some [1; 0]%Z /\
  freezing_rain rain sleet temp = Ok out /\ ~ nth 0 (nth 0 out []) 0 == qsum (map (member_probability rain sleet temp 0 0) [0; 1]%Z) / 2.
Proof.
  exists (Build_rcube (Some [0; 1]%Z) [[[1]]; [[0]]]), (Build_rcube (Some [0; 1]%Z) [[[0]]; [[0]]]), (Build_rcube (Some [1; 0]%Z) [[0]; [1]]). eexists.
  do 4 (split; [reflexivity|]). intro H; vm_compute in H; discriminate.
Qed.
(** A probability: with rain and sleet that exclude each other and probabilities of freezing within [0, 1], the result is within [0, 1]. *)
Theorem C52_range K m rain sleet temp a b c out : ensemble (shape2 K m) a rain -> ensemble (shape2 K m) b sleet -> ensemble (fun f => length f = m) c temp ->
  (forall r k j, 0 <= pick2 k j (field_of r rain) /\ 0 <= pick2 k j (field_of r sleet) /\ pick2 k j (field_of r rain) + pick2 k j (field_of r sleet) <= 1 /\ 0 <= pick1 j (field_of r temp) <= 1) ->
  freezing_rain rain sleet temp = Ok out -> forall k j, (k < K)%nat -> (j < m)%nat -> 0 <= nth j (nth k out []) 0 <= 1.
Proof.
  intros A B C P H k j Hk Hj. destruct (freezing_value K m rain sleet temp a b c A B C) as [V0 V]. cbv zeta in V0, V. set (co := filter _ a) in *.
  assert (N : co <> []) by (intro E; rewrite (V0 E) in H; discriminate). destruct (V N) as (o & E & _ & W). rewrite H in E. injection E as <-. rewrite (W k j Hk Hj).
  assert (M : forall r, 0 <= member_probability rain sleet temp k j r <= 1).
  { intro r. destruct (P r k j) as (P1 & P2 & P3 & P4). unfold member_probability. set (x := pick2 k j (field_of r rain)) in *. set (y := pick2 k j (field_of r sleet)) in *. set (z := pick1 j (field_of r temp)) in *.
    split; [apply Qmult_le_0_compat; lra|nra]. }
  assert (L : 0 <= qsum (map (member_probability rain sleet temp k j) co) <= Qn (length co)).
  { clear - M. induction co as [|r co IH]; cbn [map qsum fold_right length]; [change (Qn 0) with 0; lra|]. specialize (M r). unfold Qn in *. rewrite Nat2Z.inj_succ, <- Z.add_1_l, inject_Z_plus. change (inject_Z 1) with 1.
    lra. }
  assert (LE : Qn (length co) <= Qlen a).
  { unfold Qlen, Qn. rewrite <- Zle_Qle. apply inj_le. unfold co. clear. induction a as [|x a IH]; cbn; [lia|]. destruct (_ && _)%bool; cbn; lia. }
  assert (Z0 : 0 < Qlen a). { unfold Qlen, Qn. rewrite <- (Zlt_Qlt 0). destruct a; [destruct (N eq_refl)|cbn [length]; lia]. }
  split; [apply Qle_shift_div_l; lra|apply Qle_shift_div_r; lra].
Qed.
(** Rain with realizations needs them in the other inputs. *)
Theorem C52_needs_realizations (rain sleet : rcube (list (list Q))) temp rs : r_realizations rain = Some rs -> r_realizations sleet <> None -> r_slices sleet <> [] -> r_realizations temp = None ->
  freezing_rain rain sleet temp = Err CoordinateNotFoundError.
Proof.
  intros A B C D. unfold freezing_rain, common_realizations. rewrite A, D. destruct (r_realizations sleet) eqn:E; [|destruct (B eq_refl)]. cbn [bind]. rewrite E, D. destruct (r_slices sleet); [destruct (C eq_refl)|reflexivity].
Qed.
(** The temperature probabilities used are those of being below freezing, whichever way the input was expressed. *)
Theorem C52_temperature above thresholds c t : freezing_temperature above thresholds c = Ok t ->
  exists i, (i < length thresholds)%nat /\ Qabs (nth i thresholds 0 - (27315 # 100)) <= 3 # 1000 /\ r_realizations t = r_realizations c /\ length (r_slices t) = length (r_slices c) /\
  forall r j, (r < length (r_slices c))%nat -> (j < length (nth i (nth r (r_slices c) []) []))%nat ->
    nth j (nth r (r_slices t) []) 0 == if above then 1 - nth j (nth i (nth r (r_slices c) []) []) 0 else nth j (nth i (nth r (r_slices c) []) []) 0.
Proof.
  unfold freezing_temperature. destruct (find _ _) as [i|] eqn:F; [|discriminate]. intro H. apply Proofs_Temporal.Ok_inj in H. subst t. cbn [r_realizations r_slices].
  apply find_some in F. destruct F as [I C]. apply in_seq in I. exists i. split; [lia|]. split.
  - unfold isclose in C. apply Qle_bool_iff in C. eapply Qle_trans; [exact C|]. vm_compute. discriminate.
  - split; [reflexivity|]. split; [apply map_length|]. intros r j Hr Hj. rewrite nth_map_lt with (d := []) by exact Hr. rewrite nth_map_lt with (d := 0) by exact Hj. destruct above; reflexivity.
Qed.
Theorem C52_temperature_accepted above thresholds c : (exists t, freezing_temperature above thresholds c = Ok t) <-> exists i, (i < length thresholds)%nat /\ isclose (nth i thresholds 0) (27315 # 100) = true.
Proof.
  unfold freezing_temperature. destruct (find _ _) as [i|] eqn:F; split; intro H.
  - apply find_some in F. destruct F as [I C]. apply in_seq in I. exists i. split; [lia|exact C].
  - eauto.
  - destruct H as (t & H). discriminate.
  - destruct H as (i & I & C). assert (X := find_none _ _ F i ltac:(apply in_seq; lia)). cbn in X. congruence.
Qed.
Example C52_case : exists x y, freezing_rain (Build_rcube (Some [0; 1]%Z) [[[1; 1 # 2]]; [[0; 1 # 2]]]) (Build_rcube (Some [0; 1; 2]%Z) [[[0; 1 # 4]]; [[1; 1 # 2]]; [[1; 1]]]) (Build_rcube (Some [0; 1]%Z) [[1; 1]; [1 # 2; 0]]) = Ok [[x; y]] /\
  x == 3 # 4 /\ y == 3 # 8.
Proof. do 2 eexists; repeat split; vm_compute; reflexivity. Qed.

Print Assumptions C50_mask_accepted.
Print Assumptions C50_masks_partition.
Print Assumptions C50_sleet.
Print Assumptions C50_sleet_accepted.
Print Assumptions C50_surface_phase.
Print Assumptions C50_percentile_missing.
Print Assumptions C50_one_phase.
Print Assumptions C50_split_complete.
Print Assumptions C50_split_range.
Print Assumptions C50_split_grids.
Print Assumptions C50_split_names.
Print Assumptions C51_hail.
Print Assumptions C51_updraught_ramp.
Print Assumptions C51_hail_monotone.
Print Assumptions C51_convective_ratio.
Print Assumptions C51_showers.
Print Assumptions C51_showers_accepted.
Print Assumptions C52_mean.
Print Assumptions C52_value.
Print Assumptions C52_common_refuted.
Print Assumptions C52_order_refuted.
Print Assumptions C52_range.
Print Assumptions C52_needs_realizations.
Print Assumptions C52_temperature.
Print Assumptions C52_temperature_accepted.
