(** C54, C55: extracting part of a cube; filling missing values along the vertical coordinate. *)
From Verif Require Import Base Model_Extract Spec_Extract Proofs_Extract Proofs_ExtractMore.
From Coq Require Import Qpower.
Local Open Scope Q_scope.

(** C54: the result holds exactly the input's values whose coordinates meet the constraints, each once, with its coordinates, in the input's order. *)
Theorem C54_cells cs units back c out after : no_step cs -> good_units (given units) -> extract_subcube cs units back c = Ok (Some out, after) ->
  exists origin : list nat -> list nat,
    (forall idx, cell out idx -> chosen cs (given units) c (origin idx) /\ c_vals out idx = c_vals c (origin idx) /\ same_labels back (given units) (labels out idx) (labels c (origin idx))) /\
    (forall idx', chosen cs (given units) c idx' -> exists idx, cell out idx /\ origin idx = idx') /\
    (forall idx jdx, cell out idx -> cell out jdx -> origin idx = origin jdx -> idx = jdx) /\
    (forall idx jdx, cell out idx -> cell out jdx -> Forall2 le idx jdx -> Forall2 le (origin idx) (origin jdx)).
Proof.
  intros N G H. unfold extract_subcube in H. fold (given units) in H. destruct (forallb _ (given units)); cbn [negb] in H; [|discriminate]. apply has_step_false in N. rewrite N in H.
  destruct (kept (effective cs) (given units) c) as [ps|] eqn:K; [|discriminate]. assert (E : out = take (effective cs) back (given units) c ps) by congruence. subst out.
  exists (rebuild (effective cs) (c_dims c) ps). split; [|split; [|split]].
  - intros idx C. split; [apply chosen_spec; apply (take_in _ _ back _ _ K); exact C|]. split; [reflexivity|]. apply (take_labels _ _ back _ _ K G). exact C.
  - intros idx' J. apply chosen_spec in J. destruct J as [C S']. apply (take_onto _ _ back _ _ K); assumption.
  - intros idx jdx. apply (take_inj _ _ back _ _ K).
  - intros idx jdx. apply (take_mono _ _ back _ _ K).
Qed.
(** C54: without steps the extraction always ends with a result, or with none exactly when no value meets the constraints; units for a coordinate that the cube does not have are refused. *)
Theorem C54_total cs units back c : no_step cs ->
  ((exists k u, In (k, u) (given units) /\ ~ named k c) -> extract_subcube cs units back c = Err CoordinateNotFoundError) /\
  ((forall k u, In (k, u) (given units) -> named k c) -> exists o after, extract_subcube cs units back c = Ok (o, after) /\ (o = None <-> forall idx, ~ chosen cs (given units) c idx)).
Proof.
  intro N. apply has_step_false in N. unfold extract_subcube. fold (given units). destruct (forallb _ (given units)) eqn:U; cbn [negb].
  - pose proof (proj1 (units_ok _ _) U) as U'. split; [intros (k & u & J & X); exfalso; exact (X (U' k u J))|intros _]. rewrite N.
    assert (KN := kept_none (effective cs) (given units) c). destruct (kept (effective cs) (given units) c) as [ps|].
    + eexists _, _. split; [reflexivity|]. split; [discriminate|]. intro H. enough (Some ps = None) by discriminate. apply KN. intros idx C S'. apply (H idx). apply chosen_spec. auto.
    + eexists _, _. split; [reflexivity|]. split; [|reflexivity]. intros _ idx J. apply chosen_spec in J. destruct J as [C S']. exact (proj1 KN eq_refl idx C S').
  - split; [reflexivity|]. intro H. apply units_ok in H. congruence.
Qed.
(** C54: between bounds that are not negative, every coordinate value in the closed range is kept, whichever way round the bounds are given; kept values are within 0.00001 percent of the range. *)
Theorem C54_range_ends a b s x : 0 <= a -> 0 <= b -> Qmin a b <= x <= Qmax a b -> allowed (Range a b s) x /\ allowed (Range b a s) x.
Proof.
  intros A B [X Y]. assert (0 <= Qmin a b) by (apply Q.min_glb; assumption). assert (0 <= Qmax a b) by (apply Qle_trans with a; [exact A|apply Q.le_max_l]).
  cbn [allowed]. rewrite (Q.min_comm b a), (Q.max_comm b a). repeat split; lra.
Qed.
Theorem C54_range_only a b s x : 0 <= a -> 0 <= b -> allowed (Range a b s) x -> Qmin a b - (1 # 10000000) * Qmin a b <= x <= Qmax a b + (1 # 10000000) * Qmax a b.
Proof. intros A B [X Y]. split; lra. Qed.
(** C54, refuted: a negative bound excludes itself. *)
Theorem C54_range_negative_refuted a b s : (Qmin a b < 0 -> ~ allowed (Range a b s) (Qmin a b)) /\ (Qmax a b < 0 -> ~ allowed (Range a b s) (Qmax a b)).
Proof. split; intros N [X Y]; lra. Qed.
Definition depths : cube := {| c_dims := [{| d_name := "depth"%string; d_points := [-10; -8; -5] |}; {| d_name := "y"%string; d_points := [0; 1] |}]; c_scalars := [("time"%string, 7)]; c_vals := fun idx => Some (Qn (nth 0 idx 0%nat * 10 + nth 1 idx 0%nat)) |}.
Example C54_range_negative_case : exists out after, extract_subcube [("depth"%string, Range (-10) (-5) None)] None true depths = Ok (Some out, after) /\ c_dims out = [{| d_name := "y"%string; d_points := [0; 1] |}] /\ In ("depth"%string, -8) (c_scalars out).
Proof. eexists _, _. split; [reflexivity|]. split; [reflexivity|]. right. left. reflexivity. Qed.

(** C54: with steps, the constraints are applied without them and then every step-th value along the named dimensions is kept, starting with the first. *)
Theorem C54_thinning cs units back c t after : ~ no_step cs -> extract_subcube cs units back c = Ok (Some t, after) ->
  exists out, extract_subcube (map unstep cs) units back c = Ok (Some out, after) /\
    Forall2 (fun d d' => d_name d' = d_name d /\ exists s, (0 < s)%Z /\ last_step (d_name d) cs s /\ every s (d_points d) (d_points d')) (c_dims out) (c_dims t) /\ c_scalars t = c_scalars out /\
    forall idx, cell t idx -> exists idx', cell out idx' /\ c_vals t idx = c_vals out idx' /\
      Forall2 (fun d ii => exists s, last_step (d_name d) cs s /\ snd ii = (fst ii * Z.to_nat s)%nat) (c_dims out) (combine idx idx').
Proof.
  intros N H. assert (HS : has_step cs = true) by (destruct (has_step cs) eqn:E; [reflexivity|]; apply has_step_false in E; contradiction).
  unfold extract_subcube in H |- *. fold (given units) in H |- *. destruct (forallb _ (given units)); cbn [negb] in H |- *; [|discriminate]. rewrite HS in H. rewrite unstep_no_step, effective_unstep, kept_unstep.
  destruct (kept (effective cs) (given units) c) as [ps|] eqn:K; [|discriminate]. eexists. split; [|].
  - unfold bind in H. destruct (thin_cube cs _) as [t'|] eqn:T; [|discriminate]. assert (EA : (if back then convert_cube (fun u x => unconv u (conv u x)) (given units) c else convert_cube conv (given units) c) = after) by congruence.
    rewrite EA. reflexivity.
  - unfold bind in H. destruct (thin_cube cs _) as [t'|] eqn:T; [|discriminate]. assert (t' = t) by congruence. subst t'. apply thin_spec in T.
    destruct (take_unstep (effective cs) back (given units) c ps) as (U1 & U2 & U3). rewrite U1, U2. destruct T as (T1 & T2 & T3). split; [exact T1|]. split; [exact T2|].
    intros idx C. destruct (T3 idx C) as (idx' & C' & V & F). exists idx'. unfold cell. rewrite U1, U3. auto.
Qed.
(** C54: a step that is not positive, or along something that is not a dimension of what was extracted, is refused; with steps an extraction that finds nothing ends with an error of another kind. *)
Theorem C54_thinning_refused cs units back c out after : extract_subcube (map unstep cs) units back c = Ok (Some out, after) ->
  (exists k a b s, In (k, Range a b (Some s)) cs /\ ((s <= 0)%Z \/ ~ In k (map d_name (c_dims out)))) -> extract_subcube cs units back c = Err ValueError.
Proof.
  intros H (k & a & b & s & J & B). assert (HS : has_step cs = true) by (apply existsb_exists; exists (k, Range a b (Some s)); auto).
  unfold extract_subcube in H |- *. fold (given units) in H |- *. destruct (forallb _ (given units)); cbn [negb] in H |- *; [|discriminate]. rewrite HS. rewrite unstep_no_step, effective_unstep, kept_unstep in H.
  destruct (kept (effective cs) (given units) c) as [ps|] eqn:K; [|discriminate]. assert (E : out = take (map unstep (effective cs)) back (given units) c ps) by congruence. subst out.
  destruct (take_unstep (effective cs) back (given units) c ps) as (U1 & _ & _). rewrite U1 in B. unfold bind, thin_cube.
  replace (forallb _ cs) with false; [reflexivity|]. symmetry. apply Bool.not_true_is_false. intro F. rewrite forallb_forall in F. specialize (F _ J). cbn [fst snd] in F. apply Bool.andb_true_iff in F.
  destruct F as [F1 F2]. destruct B as [B|B]; [lia|]. apply B. apply existsb_exists in F1. destruct F1 as (d & D1 & D2). apply String.eqb_eq in D2. subst k. apply in_map. exact D1.
Qed.
Theorem C54_nothing_to_thin cs units back c after : ~ no_step cs -> extract_subcube (map unstep cs) units back c = Ok (None, after) -> extract_subcube cs units back c = Err AttributeError.
Proof.
  intros N H. assert (HS : has_step cs = true) by (destruct (has_step cs) eqn:E; [reflexivity|]; apply has_step_false in E; contradiction).
  unfold extract_subcube in H |- *. fold (given units) in H |- *. destruct (forallb _ (given units)); cbn [negb] in H |- *; [|discriminate]. rewrite HS. rewrite unstep_no_step, effective_unstep, kept_unstep in H.
  destruct (kept (effective cs) (given units) c); [discriminate|reflexivity].
Qed.
(** C54: the caller's cube is left as it was when the original units are restored. *)
Theorem C54_caller cs units c o after : good_units (given units) -> extract_subcube cs units true c = Ok (o, after) -> same_cube after c.
Proof.
  intros G H. unfold extract_subcube in H. fold (given units) in H. destruct (forallb _ (given units)); cbn [negb] in H; [|discriminate].
  assert (E : after = convert_cube (fun u x => unconv u (conv u x)) (given units) c).
  { destruct (kept _ _ c); destruct (has_step cs); unfold bind in H; try (destruct (thin_cube cs _)); congruence. }
  subst. apply convert_same. exact G.
Qed.
(** C54, refuted: not with the units asked for kept: then the caller's own coordinates stay converted. *)
Theorem C54_caller_refuted : exists cs units c o after, good_units (given units) /\ extract_subcube cs units false c = Ok (o, after) /\ ~ same_cube after c.
Proof.
  exists [("depth"%string, Values [-8000])], (Some [("depth"%string, (1000, 0))]), depths. eexists _, _. split; [|split; [reflexivity|]].
  - intros k u [E|[]]. assert (u = (1000, 0)) by congruence. subst. cbn. intro X. discriminate X.
  - intros [H _]. cbn in H. inversion H as [|d d' l l' [_ P] _]; subst. inversion P as [|x y lx ly Q0 _]; subst. discriminate Q0.
Qed.
(** C54: the plugin returns the extracted cube; without one it raises ValueError, or returns the input if told to. *)
Theorem C54_plugin cs units back ignore c : extract_process cs units back ignore c =
  match extract_subcube cs units back c with Err e => Err e | Ok (Some out, _) => Ok out | Ok (None, after) => if ignore then Ok after else Err ValueError end.
Proof. unfold extract_process, bind. destruct (extract_subcube cs units back c) as [[[out|] after]|e]; reflexivity. Qed.
Definition pressures : cube := {| c_dims := [{| d_name := "pressure"%string; d_points := [100000; 85000; 70000; 50000] |}; {| d_name := "y"%string; d_points := [0; 1; 2; 3; 4] |}]; c_scalars := [("time"%string, 7)]; c_vals := fun idx => Some (Qn (nth 0 idx 0%nat * 10 + nth 1 idx 0%nat)) |}.
Definition hPa : option (list (string * conversion)) := Some [("pressure"%string, (1 # 100, 0))].
(** Two levels and every second row of three, with the levels in hPa. *)
Definition levels_wanted : list constraint := [("pressure"%string, Values [850; 700]); ("y"%string, Range 3 1 (Some 2%Z))].
Example C54_case : exists t after, ~ no_step levels_wanted /\ good_units (given hPa) /\ extract_subcube levels_wanted hPa true pressures = Ok (Some t, after) /\
  map d_name (c_dims t) = ["pressure"%string; "y"%string] /\ map (fun d => map Qred (d_points d)) (c_dims t) = [[85000; 70000]; [1; 3]] /\ c_vals t [1%nat; 1%nat] = Some (Qn 23).
Proof.
  eexists _, _. split; [|split; [|split; [reflexivity|split; [reflexivity|split; reflexivity]]]].
  - intro N. exact (N "y"%string 3 1 2%Z ltac:(right; left; reflexivity)).
  - intros k u [E|[]]. assert (u = (1 # 100, 0)) by congruence. subst. cbn. intro X. discriminate X.
Qed.
Example C54_cells_case : exists out after, no_step (map unstep levels_wanted) /\ extract_subcube (map unstep levels_wanted) hPa true pressures = Ok (Some out, after) /\ cell out [1%nat; 2%nat] /\ c_vals out [1%nat; 2%nat] = Some (Qn 23).
Proof.
  eexists _, _. split; [|split; [reflexivity|split; [|reflexivity]]].
  - apply has_step_false. apply unstep_no_step.
  - repeat constructor.
Qed.

(** C55: in every column, known values stay; a missing value is counted back from the next known one, or on from the last known one if none follows; a column with nothing known stays missing. *)
Theorem C55_fill inc cols n : (n < length cols)%nat -> length (fill_invalid inc cols) = length cols /\ length (nth n (fill_invalid inc cols) []) = length (nth n cols []) /\
  (forall i v, nth i (nth n cols []) None = Some v -> nth i (nth n (fill_invalid inc cols) []) None = Some v) /\
  (forall i j v, next_known (nth n cols []) i j v -> exists w, nth i (nth n (fill_invalid inc cols) []) None = Some w /\ w == v - Qn (j - i) * inc) /\
  (forall i j v, (i < length (nth n cols []))%nat -> last_known (nth n cols []) i j v -> (forall k, (i <= k)%nat -> nth k (nth n cols []) None = None) ->
     exists w, nth i (nth n (fill_invalid inc cols) []) None = Some w /\ w == v + Qn (i - j) * inc) /\
  ((forall k, nth k (nth n cols []) None = None) -> forall k, nth k (nth n (fill_invalid inc cols) []) None = None).
Proof.
  intro L. destruct (fill_shape inc cols) as [A B]. repeat split.
  - exact A.
  - apply B. exact L.
  - intros i v. apply fill_known. exact L.
  - intros i j v. apply fill_next. exact L.
  - intros i j v. apply fill_last. exact L.
  - intros H k. destruct (Nat.lt_ge_cases k (length (nth n cols []))) as [Lk|Lk]; [apply fill_none; assumption|]. apply nth_overflow. rewrite B by exact L. exact Lk.
Qed.
(** C55: a column with a known value has none missing afterwards. *)
Theorem C55_complete inc cols n i : (n < length cols)%nat -> (i < length (nth n cols []))%nat -> (exists k, nth k (nth n cols []) None <> None) -> nth i (nth n (fill_invalid inc cols) []) None <> None.
Proof.
  intros L Li (k & K). destruct (nth i (nth n cols []) None) as [v|] eqn:V; [rewrite (fill_known inc cols n i v L V); discriminate|].
  destruct (next_known_dec (nth n cols []) i) as [(j & v & _ & NK)|[X|X]]; [|congruence|].
  - destruct (fill_next inc cols n i j v L NK) as (w & W & _). congruence.
  - destruct (last_known_dec (nth n cols []) i V) as [(j & v & LK)|Y].
    + destruct (fill_last inc cols n i j v L Li LK X) as (w & W & _). congruence.
    + exfalso. apply K. destruct (Nat.le_gt_cases k i); [apply Y; assumption|apply X; lia].
Qed.
(** C55: the increment points the way the values are expected to change along the coordinate. *)
Theorem C55_increment pc inc d : (pc = inc -> 0 < increment pc inc d) /\ (pc <> inc -> increment pc inc d < 0) /\ Qabs (increment pc inc d) == Qpower 10 (- d).
Proof.
  assert (P : 0 < Qpower 10 (- d)) by (apply Qpower_0_lt; lra). unfold increment. destruct (Bool.eqb_spec pc inc) as [->|N]; (split; [intro; try contradiction; lra|split; [intro; try contradiction; lra|]]).
  - assert (E : 1 * Qpower 10 (- d) == Qpower 10 (- d)) by ring. rewrite E. apply Qabs_pos. lra.
  - assert (E : -1 * Qpower 10 (- d) == - Qpower 10 (- d)) by ring. rewrite E, Qabs_opp. apply Qabs_pos. lra.
Qed.
(** C55: where values are missing only at the ends of a column that changes strictly the expected way, the filled column changes strictly the expected way. *)
Theorem C55_monotone_partial inc cols n : (n < length cols)%nat -> ~ inc == 0 -> (exists k, nth k (nth n cols []) None <> None) ->
  (forall i k j, (i < k < j)%nat -> nth i (nth n cols []) None <> None -> nth j (nth n cols []) None <> None -> nth k (nth n cols []) None <> None) ->
  (forall i a b, nth i (nth n cols []) None = Some a -> nth (S i) (nth n cols []) None = Some b -> 0 < (b - a) * inc) ->
  forall i, (S i < length (nth n cols []))%nat -> exists a b, nth i (nth n (fill_invalid inc cols) []) None = Some a /\ nth (S i) (nth n (fill_invalid inc cols) []) None = Some b /\ 0 < (b - a) * inc.
Proof.
  intros L NZ EX CT MO i Li. set (col := nth n cols []) in *. assert (SQ : 0 < inc * inc).
  { destruct (Qlt_le_dec 0 inc) as [P|P]; [nra|]. assert (inc < 0) by (apply Qle_lteq in P; destruct P; [assumption|contradiction]). nra. }
  destruct (nth i col None) as [a|] eqn:VA; destruct (nth (S i) col None) as [b|] eqn:VB.
  - exists a, b. split; [apply (fill_known inc cols n i a L VA)|]. split; [apply (fill_known inc cols n _ b L VB)|]. exact (MO i a b VA VB).
  - assert (X : forall k, (S i <= k)%nat -> nth k col None = None).
    { intros k K. destruct (nth k col None) eqn:VK; [|reflexivity]. exfalso. destruct (Nat.eq_dec k (S i)) as [->|]; [congruence|]. apply (CT i (S i) k); [lia|congruence..]. }
    destruct (fill_last inc cols n (S i) i a L Li) as (w & W1 & W2). { split; [lia|]. split; [exact VA|]. intros k K. replace k with (S i) by lia. exact VB. } { exact X. }
    exists a, w. split; [apply (fill_known inc cols n i a L VA)|]. split; [exact W1|]. replace (S i - i)%nat with 1%nat in W2 by lia. change (Qn 1) with 1 in W2. rewrite W2. lra.
  - destruct (fill_next inc cols n i (S i) b L) as (w & W1 & W2). { split; [lia|]. split; [exact VB|]. intros k K. replace k with i by lia. exact VA. }
    exists w, b. split; [exact W1|]. split; [apply (fill_known inc cols n _ b L VB)|]. replace (S i - i)%nat with 1%nat in W2 by lia. change (Qn 1) with 1 in W2. rewrite W2. lra.
  - destruct (next_known_dec col (S i)) as [(j & v & J & NK)|[X|X]]; [|congruence|].
    + destruct (fill_next inc cols n (S i) j v L NK) as (b & B1 & B2). destruct (fill_next inc cols n i j v L) as (a & A1 & A2).
      { destruct NK as (N1 & N2 & N3). split; [lia|]. split; [exact N2|]. intros k K. destruct (Nat.eq_dec k i) as [->|]; [exact VA|apply N3; lia]. }
      exists a, b. split; [exact A1|]. split; [exact B1|]. destruct NK as (N1 & _ & _). replace (j - i)%nat with (S (j - S i)) in A2 by lia. unfold Qn in *. rewrite Nat2Z.inj_succ, <- Z.add_1_l, inject_Z_plus in A2. change (inject_Z 1) with 1 in A2. rewrite A2, B2. lra.
    + assert (X' : forall k, (i <= k)%nat -> nth k col None = None) by (intros k K; destruct (Nat.eq_dec k i) as [->|]; [exact VA|apply X; lia]).
      destruct (last_known_dec col i VA) as [(j & v & LK)|Y].
      * destruct (fill_last inc cols n i j v L ltac:(fold col; lia) LK X') as (a & A1 & A2). destruct (fill_last inc cols n (S i) j v L Li) as (b & B1 & B2).
        { destruct LK as (N1 & N2 & N3). split; [lia|]. split; [exact N2|]. intros k K. destruct (Nat.eq_dec k (S i)) as [->|]; [exact VB|apply N3; lia]. } { exact X. }
        exists a, b. split; [exact A1|]. split; [exact B1|]. destruct LK as (N1 & _ & _). replace (S i - j)%nat with (S (i - j)) in B2 by lia. unfold Qn in *. rewrite Nat2Z.inj_succ, <- Z.add_1_l, inject_Z_plus in B2. change (inject_Z 1) with 1 in B2. rewrite A2, B2. lra.
      * exfalso. destruct EX as (k & K). apply K. destruct (Nat.le_gt_cases k i); [apply Y; assumption|apply X; lia].
Qed.
(** C55, refuted: a gap inside a column may be filled against the expected way, although its known values increase. *)
Theorem C55_gap_refuted : exists inc col, 0 < inc /\ (forall i j a b, (i < j)%nat -> nth i col None = Some a -> nth j col None = Some b -> a < b) /\
  exists a b, nth 0 (nth 0 (fill_invalid inc [col]) []) None = Some a /\ nth 1 (nth 0 (fill_invalid inc [col]) []) None = Some b /\ b < a.
Proof.
  exists (1 # 100), [Some 10; None; None; Some (1001 # 100)]. split; [reflexivity|]. split.
  - intros [|[|[|[|i]]]] [|[|[|[|j]]]] a b L A B; cbn in A, B; try lia; try discriminate; try (destruct i; discriminate); try (destruct j; discriminate). assert (a = 10) by congruence. assert (b = 1001 # 100) by congruence. subst. reflexivity.
  - eexists _, _. split; [reflexivity|]. split; [reflexivity|]. reflexivity.
Qed.
Example C55_case : map (map (option_map Qred)) (fill_invalid (1 # 100) [[None; None; Some 3; Some 4; None; None]; [Some 1; Some 2; Some 3; Some 4; Some 5; Some 6]; [None; None; None; None; None; None]]) =
  [[Some (149 # 50); Some (299 # 100); Some 3; Some 4; Some (401 # 100); Some (201 # 50)]; [Some 1; Some 2; Some 3; Some 4; Some 5; Some 6]; [None; None; None; None; None; None]].
Proof. reflexivity. Qed.

Print Assumptions C54_cells.
Print Assumptions C54_total.
Print Assumptions C54_range_ends.
Print Assumptions C54_range_only.
Print Assumptions C54_range_negative_refuted.
Print Assumptions C54_thinning.
Print Assumptions C54_thinning_refused.
Print Assumptions C54_nothing_to_thin.
Print Assumptions C54_caller.
Print Assumptions C54_caller_refuted.
Print Assumptions C54_plugin.
Print Assumptions C55_fill.
Print Assumptions C55_complete.
Print Assumptions C55_increment.
Print Assumptions C55_monotone_partial.
Print Assumptions C55_gap_refuted.
