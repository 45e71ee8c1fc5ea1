(** C53. *)
From Verif Require Import Base Model_Rescale Proofs_Rescale Model_Probability Model_Reference Model_Fill Spec_Fill Proofs_Fill.
Local Open Scope Q_scope.

(** interpolate_missing_data, whatever the interpolation returns: values that are there are never changed. *)
Theorem C53_known_kept g limit as_maximum valid data i v : nth i data None = Some v -> nth i (interpolate_missing g limit as_maximum valid data) None = Some v.
Proof. exact (interp_known g limit as_maximum valid data i v). Qed.
Theorem C53_same_size g limit as_maximum valid data : length (interpolate_missing g limit as_maximum valid data) = length data.
Proof. exact (interp_length g limit as_maximum valid data). Qed.
(** A missing point gets what the interpolation of the valid known points gives there, kept on the right side of the limit; it stays missing only if that is missing, fails or there is nothing to interpolate. *)
Theorem C53_filled g limit as_maximum valid data i : (i < length data)%nat -> nth i data None = None ->
  exists known, (forall k v, In (k, v) known <-> known_in data k v /\ nth k valid true = true) /\
  match nth i (interpolate_missing g limit as_maximum valid data) None with
  | Some w => exists f u, g (length data) known = Some f /\ nth i f None = Some u /\
                match limit with
                | None => w = u
                | Some l => if as_maximum then w <= nth i l 0 /\ w <= u /\ (w == u \/ w == nth i l 0) else nth i l 0 <= w /\ u <= w /\ (w == u \/ w == nth i l 0)
                end
  | None => known = [] \/ g (length data) known = None \/ exists f, g (length data) known = Some f /\ nth i f None = None
  end.
Proof.
  intros L H. exists (known_points valid data). split; [intros; apply known_points_spec|]. rewrite (interp_missing g limit as_maximum valid data i L H). destruct (known_points valid data) as [|p k]; [auto|].
  destruct (g (length data) (p :: k)) as [f|]; [|auto]. destruct (nth i f None) as [u|] eqn:E; cbn [option_map]; [|right; right; eauto].
  exists f, u. split; [reflexivity|]. split; [exact E|]. destruct limit as [l|]; [|reflexivity]. unfold clip_limit. destruct as_maximum.
  - split; [apply Q.le_min_r|]. split; [apply Q.le_min_l|]. destruct (Q.min_spec u (nth i l 0)) as [[_ ->]|[_ ->]]; [left|right]; reflexivity.
  - split; [apply Q.le_max_r|]. split; [apply Q.le_max_l|]. destruct (Q.max_spec u (nth i l 0)) as [[_ ->]|[_ ->]]; [right|left]; reflexivity.
Qed.
(** InterpolateUsingDifference leaves every unmasked value as it was. *)
Theorem C53_difference_known linear nearest limit as_maximum c r i v : nth i c None = Some v -> nth i (fill_slice linear nearest limit as_maximum c r) None = Some v.
Proof. exact (fill_known linear nearest limit as_maximum c r i v). Qed.
(** Whatever the interpolation returns, a filled value differs from the reference by no less than the smallest and no more than the largest difference at the unmasked points, except where the limit applies. *)
Theorem C53_difference_range linear nearest limit as_maximum c r i w : length r = length c -> (i < length c)%nat -> nth i c None = None ->
  nth i (fill_slice linear nearest limit as_maximum c r) None = Some w ->
  exists k1 x1 k2 x2 u, known_in c k1 x1 /\ known_in c k2 x2 /\
    (forall k x, known_in c k x -> nth k1 r 0 - x1 <= nth k r 0 - x <= nth k2 r 0 - x2) /\
    nth k1 r 0 - x1 <= nth i r 0 - u <= nth k2 r 0 - x2 /\
    match limit with
    | None => w == u
    | Some l => if as_maximum then w == Qmin u (nth i l 0) else w == Qmax u (nth i l 0)
    end.
Proof.
  intros L B H E. destruct (fill_missing linear nearest limit as_maximum c r L i w B H E) as [(k & x & K) (d & D)].
  set (df := zipw (fun o x => match o with Some v => Some (x - v) | None => None end) c r) in *.
  assert (N : known_values df <> []).
  { intro Z. assert (I : In (nth k r 0 - x) (known_values df)) by (apply known_values_in; exists k; apply (diff_known c r L); eauto). rewrite Z in I. destruct I. }
  destruct (clip_range_in (known_values df) d N) as (lo & hi & Ilo & Ihi & A & C).
  apply known_values_in in Ilo, Ihi. destruct Ilo as (k1 & I1), Ihi as (k2 & I2). apply (diff_known c r L) in I1, I2. destruct I1 as (x1 & I1 & E1), I2 as (x2 & I2 & E2).
  exists k1, x1, k2, x2, (nth i r 0 - clip_range (known_values df) d). do 2 (split; [assumption|]). rewrite <- E1, <- E2. split; [|split].
  - intros k' x' K'. apply A. apply known_values_in. exists k'. apply (diff_known c r L). eauto.
  - lra.
  - rewrite D. destruct limit as [l|]; [|reflexivity]. unfold clip_limit. destruct as_maximum; reflexivity.
Qed.
(** If the reference is off by the same amount everywhere, so it is at the filled points. *)
Theorem C53_constant_difference linear nearest as_maximum c r i w b : length r = length c -> (i < length c)%nat -> nth i c None = None ->
  (forall k x, known_in c k x -> nth k r 0 - x == b) -> nth i (fill_slice linear nearest None as_maximum c r) None = Some w -> w == nth i r 0 - b.
Proof.
  intros L B H S' E. destruct (C53_difference_range _ _ _ _ _ _ _ _ L B H E) as (k1 & x1 & k2 & x2 & u & K1 & K2 & _ & R & W). pose proof (S' _ _ K1). pose proof (S' _ _ K2). lra.
Qed.
(** With a nearest-neighbour interpolation that answers everywhere, no point of a slice with an unmasked point stays masked; a slice without one is not filled. *)
Theorem C53_difference_complete linear nearest limit as_maximum c r w : length r = length c -> is_nearest w nearest -> (exists k x, known_in c k x) ->
  forall i, (i < length c)%nat -> nth i (fill_slice linear nearest limit as_maximum c r) None <> None.
Proof. intros L N K i B. exact (fill_complete linear nearest limit as_maximum c r L w i N K B). Qed.
Theorem C53_nothing_known linear nearest limit as_maximum c r i : length r = length c -> (forall k x, ~ known_in c k x) -> nth i (fill_slice linear nearest limit as_maximum c r) None = None.
Proof.
  intros L N. destruct (Nat.lt_ge_cases i (length c)) as [B|B]; [|apply nth_overflow; rewrite fill_length; exact B].
  destruct (nth i c None) as [v|] eqn:E; [destruct (N i v); split; assumption|].
  destruct (nth i (fill_slice linear nearest limit as_maximum c r) None) as [w|] eqn:W; [|reflexivity].
  destruct (fill_missing linear nearest limit as_maximum c r L i w B E W) as [(k & x & K) _]. destruct (N k x K).
Qed.
(** A cube without masked values is returned as it is, whatever the reference; a reference with NaN is refused otherwise. *)
Theorem C53_unmasked linear nearest limit as_maximum c r : (forall f, In f c -> forall o, In o f -> o <> None) -> fill_process linear nearest limit as_maximum c r = Ok c.
Proof.
  intro H. unfold fill_process. replace (is_masked c) with false; [reflexivity|]. symmetry. unfold is_masked. apply Bool.not_true_is_false. intro E. apply existsb_exists in E. destruct E as (f & F & E).
  apply existsb_exists in E. destruct E as (o & O & E). specialize (H f F o O). destruct o; [discriminate|contradiction].
Qed.
Theorem C53_reference_complete linear nearest limit as_maximum c r f g : In f c -> In None f -> In g r -> In None g -> fill_process linear nearest limit as_maximum c r = Err ValueError.
Proof.
  intros A B C D. unfold fill_process.
  assert (G : forall l h, In h l -> In None h -> is_masked l = true) by (intros l h X Y; apply existsb_exists; exists h; split; [exact X|]; apply existsb_exists; exists None; split; [exact Y|reflexivity]).
  rewrite (G c f A B), (G r g C D). reflexivity.
Qed.
(** A reference with as many slices is used slice by slice; one with fewer silently shortens the result. *)
Theorem C53_slices linear nearest limit as_maximum c r out i : length r = length c -> (i < length c)%nat -> (exists f, In f c /\ In None f) -> fill_process linear nearest limit as_maximum c r = Ok out ->
  nth i out [] = fill_slice linear nearest limit as_maximum (nth i c []) (map (fun o => match o with Some v => v | None => 0 end) (nth i r [])).
Proof.
  intros L B (f & F & N) H. unfold fill_process in H. replace (is_masked c) with true in H.
  - cbn [negb] in H. destruct (is_masked r); [discriminate|]. injection H as <-. rewrite zipw_nth with (da := []) (db := []) by (rewrite ?map_length; lia). f_equal.
    rewrite nth_map_lt with (d := []) by lia. reflexivity.
  - symmetry. apply existsb_exists. exists f. split; [exact F|]. apply existsb_exists. exists None. split; [exact N|reflexivity].
Qed.
Theorem C53_short_reference_refuted : exists c r out, length r <> length c /\ (forall w, fill_process (fun _ _ => None) (nearest_grid w) None true c r = Ok out) /\ length out <> length c.
Proof.
  exists [[Some 1; None]; [Some 2; None]], [[Some 3; Some 3]], [[Some 1; Some 1]]. split; [discriminate|]. split; [intro w; reflexivity|discriminate].
Qed.
(** SnowFraction: snow over rain plus snow where there is any; at a dry point the value of a nearest point with precipitation (so within [0, 1] everywhere); NaN only in a slice without any. *)
Theorem C53_snow_fraction nearest w rain snow i : length snow = length rain -> (i < length rain)%nat -> is_nearest w nearest ->
  (forall x, In x rain -> 0 <= x) -> (forall x, In x snow -> 0 <= x) ->
  let wet k := (k < length rain)%nat /\ 0 < nth k rain 0 + nth k snow 0 in
  match nth i (snow_fraction_slice nearest rain snow) None with
  | Some v => 0 <= v <= 1 /\ exists k, wet k /\ v * (nth k rain 0 + nth k snow 0) == nth k snow 0 /\ (wet i -> k = i) /\ forall k', wet k' -> (distance2 w i k <= distance2 w i k')%Z
  | None => forall k, ~ wet k
  end.
Proof.
  intros L B N Pr Ps wet. unfold snow_fraction_slice. set (f := zipw snow_ratio rain snow).
  assert (Lf : length f = length rain) by (unfold f; rewrite zipw_length; lia).
  assert (V : forall k, (k < length rain)%nat -> nth k f None = snow_ratio (nth k rain 0) (nth k snow 0)) by (intros k K; unfold f; apply zipw_nth; lia).
  assert (P : forall k, (k < length rain)%nat -> 0 <= nth k rain 0 /\ 0 <= nth k snow 0) by (intros k K; split; [apply Pr|apply Ps]; apply nth_In; lia).
  assert (KN : forall k v, known_in f k v <-> wet k /\ v = nth k snow 0 / (nth k rain 0 + nth k snow 0)).
  { intros k v. unfold known_in, wet. rewrite Lf. split.
    - intros [K E]. rewrite V in E by exact K. unfold snow_ratio in E. destruct (Qeqb_spec (nth k rain 0 + nth k snow 0) 0) as [|Z]; [discriminate|]. injection E as <-. destruct (P k K).
      split; [split; [exact K|]|reflexivity]. destruct (Qlt_le_dec 0 (nth k rain 0 + nth k snow 0)); [assumption|]. destruct Z. lra.
    - intros [[K W] ->]. split; [exact K|]. rewrite V by exact K. unfold snow_ratio. destruct (Qeqb_spec (nth k rain 0 + nth k snow 0) 0); [lra|reflexivity]. }
  assert (RANGE : forall k v, wet k -> v = nth k snow 0 / (nth k rain 0 + nth k snow 0) -> 0 <= v <= 1 /\ v * (nth k rain 0 + nth k snow 0) == nth k snow 0).
  { intros k v [K W] ->. destruct (P k K). split; [split; [apply Qle_shift_div_l; lra|apply Qle_shift_div_r; lra]|]. field. lra. }
  destruct (nth i f None) as [v|] eqn:E.
  - assert (KI : known_in f i v) by (split; [lia|exact E]). rewrite (interp_known nearest None true _ f i v E). destruct (proj1 (KN i v) KI) as [W VV]. destruct (RANGE i v W VV) as [R1 R2]. split; [exact R1|].
    exists i. split; [exact W|]. split; [exact R2|]. split; [reflexivity|]. intros k' _. unfold distance2.
    rewrite !Z.sub_diag. set (a := (Z.of_nat (i / w) - Z.of_nat (k' / w))%Z). set (b := (Z.of_nat (i mod w) - Z.of_nat (k' mod w))%Z). nia.
  - rewrite interp_missing by (try exact E; lia).
    assert (KP : forall k v, In (k, v) (known_points (map (fun _ => true) f) f) <-> wet k /\ v = nth k snow 0 / (nth k rain 0 + nth k snow 0)).
    { intros k v. rewrite known_points_spec, <- KN. split; [tauto|]. intro K. split; [exact K|]. rewrite nth_map_lt with (d := None) by apply K. reflexivity. }
    assert (DRY : ~ wet i) by (intro W; assert (X : known_in f i (nth i snow 0 / (nth i rain 0 + nth i snow 0))) by (apply KN; auto); destruct X as [_ X]; rewrite E in X; discriminate).
    destruct (known_points _ f) as [|p ps] eqn:KE.
    + intros k W. apply (proj2 (KP k (nth k snow 0 / (nth k rain 0 + nth k snow 0)))). split; [exact W|reflexivity].
    + destruct (N (length f) (p :: ps) ltac:(discriminate)) as (h & -> & Lh & PH). destruct (PH i ltac:(lia)) as (v & -> & (k & K & KM)). cbn [option_map].
      apply KP in K. destruct K as [W VV]. destruct (RANGE k v W VV) as [R1 R2]. split; [exact R1|]. exists k. split; [exact W|]. split; [exact R2|]. split; [intro; contradiction|].
      intros k' W'. apply (KM k' (nth k' snow 0 / (nth k' rain 0 + nth k' snow 0))). apply KP. auto.
Qed.
(** The two cubes are found by their names in either order; anything but one name with rain and another with snow, on one grid, at one time and without masks, is refused. *)
Theorem C53_snow_fraction_inputs nearest a b out : snow_fraction nearest [a; b] = Ok out ->
  exists rain snow, ((rain = a /\ snow = b) \/ (rain = b /\ snow = a)) /\ contains "rain" (s_name rain) = true /\ contains "snow" (s_name snow) = true /\ s_name rain <> s_name snow /\ s_time rain = s_time snow /\
  map (@length _) (s_data rain) = map (@length _) (s_data snow) /\ ~ In None (concat (s_data rain)) /\ ~ In None (concat (s_data snow)) /\
  out = zipw (snow_fraction_slice nearest) (map (map (fun o : option Q => match o with Some v => v | None => 0 end)) (s_data rain)) (map (map (fun o : option Q => match o with Some v => v | None => 0 end)) (s_data snow)).
Proof.
  unfold snow_fraction. cbn [length Nat.eqb negb]. destruct (filter _ [a; b]) as [|rain [|]] eqn:FR; try discriminate.
  destruct (filter (fun c => contains "snow" (s_name c)) [a; b]) as [|snow [|]] eqn:FS; try discriminate.
  destruct (String.eqb_spec (s_name rain) (s_name snow)) as [|NE]; [discriminate|]. destruct (negb (_ && _)); [discriminate|]. destruct (Z.eqb_spec (s_time rain) (s_time snow)) as [T|]; [|discriminate].
  cbn [negb]. destruct (is_masked (s_data rain)) eqn:M1; [discriminate|]. destruct (is_masked (s_data snow)) eqn:M2; [discriminate|]. cbn [orb].
  destruct (list_eq_dec _ _ _) as [E|]; [|discriminate]. cbn [negb]. intro H. injection H as <-.
  assert (IR : In rain (filter (fun c => contains "rain" (s_name c)) [a; b])) by (rewrite FR; left; reflexivity). apply filter_In in IR.
  assert (IS : In snow (filter (fun c => contains "snow" (s_name c)) [a; b])) by (rewrite FS; left; reflexivity). apply filter_In in IS.
  destruct IR as [IR CR], IS as [IS CS].
  assert (MK : forall l, is_masked l = false -> ~ In None (concat l)).
  { intros l M I. apply in_concat in I. destruct I as (h & I1 & I2). assert (is_masked l = true); [|congruence]. apply existsb_exists. exists h. split; [exact I1|]. apply existsb_exists. exists None. split; [exact I2|reflexivity]. }
  exists rain, snow. split; [|repeat split; auto].
  destruct IR as [<-|[<-|[]]], IS as [<-|[<-|[]]]; auto; contradiction.
Qed.
Example C53_case : is_nearest 2 (nearest_grid 2) /\
  fill_process (fun _ _ => None) (nearest_grid 2) (Some [9; 9; 9; 12]) true [[Some 5; None; Some 7; None]] [[Some 8; Some 11; Some 8; Some 20]] = Ok [[Some 5; Some 8; Some 7; Some 12]] /\
  snow_fraction_slice (nearest_grid 2) [1; 0; 3; 0] [1; 0; 1; 0] = [Some (1 # 2); Some (1 # 2); Some (1 # 4); Some (1 # 4)].
Proof. split; [apply nearest_grid_ok|]. split; vm_compute; reflexivity. Qed.

Print Assumptions C53_known_kept.
Print Assumptions C53_same_size.
Print Assumptions C53_filled.
Print Assumptions C53_difference_known.
Print Assumptions C53_difference_range.
Print Assumptions C53_constant_difference.
Print Assumptions C53_difference_complete.
Print Assumptions C53_nothing_known.
Print Assumptions C53_unmasked.
Print Assumptions C53_reference_complete.
Print Assumptions C53_slices.
Print Assumptions C53_short_reference_refuted.
Print Assumptions C53_snow_fraction.
Print Assumptions C53_snow_fraction_inputs.
