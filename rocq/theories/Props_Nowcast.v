(** C61-C63: advection of a field, orographic enhancement and the extrapolation forecast, radar masks. *)
From Coq Require Import Qround.
From Verif Require Import Base Model_Nbhood Model_Lapse Proofs_Lapse Model_Nowcast Spec_Nowcast Proofs_Nowcast Spec_Threshold Proofs_Temporal Proofs_Table.
Local Open Scope Q_scope.

(** C61: the value at a point is the bilinear interpolation of the field (continued by zero) at the place it came from, if that place is in the domain and the values around it exist. *)
Theorem C61_value h w data vx vy ts y x : ts <> 0%Z ->
  let xs := - vx * inject_Z ts + inject_Z x in let ys := - vy * inject_Z ts + inject_Z y in
  source_inside h w ys xs -> (forall i j, corner ys xs i j -> on_field h w i j -> data i j <> None) ->
  exists r, advect_point h w data vx vy ts y x = Some r /\ r == bilinear (or_zero h w data) ys xs.
Proof. intros T xs ys S0 C. apply oeq_some. now apply advect_inside. Qed.
(** C61: it is masked exactly if that place is outside the domain or one of the grid points around it is masked. *)
Theorem C61_masked h w data vx vy ts y x : ts <> 0%Z ->
  let xs := - vx * inject_Z ts + inject_Z x in let ys := - vy * inject_Z ts + inject_Z y in
  advect_point h w data vx vy ts y x = None <-> ~ (source_inside h w ys xs /\ forall i j, corner ys xs i j -> on_field h w i j -> data i j <> None).
Proof.
  intros T xs ys. split.
  - intros N [S0 C]. destruct (C61_value h w data vx vy ts y x T S0 C) as (r & E & _). congruence.
  - intro N. destruct (advect_point h w data vx vy ts y x) as [r|] eqn:E; [|reflexivity]. exfalso. apply N. exact (advect_some _ _ _ _ _ _ _ _ _ T E).
Qed.
(** C61: results lie between the extremes of the field: everywhere if zero does, and wherever the source is not beyond the last row or column. *)
Theorem C61_range h w data vx vy ts y x r lo hi : advect_point h w data vx vy ts y x = Some r -> on_field h w y x ->
  (forall i j v, on_field h w i j -> data i j = Some v -> lo <= v <= hi) ->
  let xs := - vx * inject_Z ts + inject_Z x in let ys := - vy * inject_Z ts + inject_Z y in
  (lo <= 0 <= hi \/ (xs <= inject_Z (w - 1) /\ ys <= inject_Z (h - 1))) -> lo <= r <= hi.
Proof.
  intros E On D xs ys H. destruct (Z.eq_dec ts 0) as [->|T]; [unfold advect_point in E; cbn in E; eauto|].
  destruct (advect_some _ _ _ _ _ _ _ _ _ T E) as [S0 C]. pose proof (advect_inside h w data vx vy ts y x T S0 C) as V. rewrite E in V. cbn in V. rewrite V.
  assert (Z0 : forall i j, corner ys xs i j -> on_field h w i j -> lo <= or_zero h w data i j <= hi).
  { intros i j K O. unfold or_zero. rewrite (proj2 (inside_iff h w i j) O). destruct (data i j) as [v|] eqn:Dv; [eauto|]. exfalso. now apply (C i j K O). }
  destruct S0 as (S1 & S2 & S3 & S4). destruct H as [H|[H1 H2]].
  - apply bilinear_range. intros i j K. destruct (inside h w i j) eqn:I0; [apply Z0; [assumption|now apply inside_iff]|]. unfold or_zero. rewrite I0. exact H.
  - apply (bilinear_interior h w); [split; assumption|split; assumption|exact Z0].
Qed.
(** C61: beyond the last row or column a constant field is not kept: the value fades towards zero instead. *)
Theorem C61_edge_refuted : ~ (forall h w data vx vy ts y x r lo hi, advect_point h w data vx vy ts y x = Some r -> on_field h w y x ->
  (forall i j v, on_field h w i j -> data i j = Some v -> lo <= v <= hi) -> lo <= r <= hi).
Proof.
  intro H. specialize (H 2%Z 2%Z (fun _ _ => Some 1) (- (1 # 2)) 0 1%Z 0%Z 1%Z (2 # 4) 1 1).
  assert (X : 1 <= 2 # 4 <= 1); [apply H|lra].
  - vm_compute. reflexivity.
  - split; lia.
  - intros i j v _ E. injection E as <-. lra.
Qed.
(** C61: with a displacement by whole grid squares and no masked values the field is moved exactly. *)
Theorem C61_shift h w data vx vy ts y x a b : ts <> 0%Z -> vx * inject_Z ts == inject_Z a -> vy * inject_Z ts == inject_Z b ->
  (forall i j, on_field h w i j -> data i j <> None) -> on_field h w (y - b) (x - a) ->
  oeq (advect_point h w data vx vy ts y x) (data (y - b)%Z (x - a)%Z).
Proof.
  intros T A B D O. set (xs := - vx * inject_Z ts + inject_Z x). set (ys := - vy * inject_Z ts + inject_Z y).
  assert (EX : xs == inject_Z (x - a)) by (unfold xs, Z.sub; rewrite inject_Z_plus, inject_Z_opp; lra).
  assert (EY : ys == inject_Z (y - b)) by (unfold ys, Z.sub; rewrite inject_Z_plus, inject_Z_opp; lra).
  assert (FX : Qfloor xs = (x - a)%Z) by (rewrite EX; apply Qfloor_Z). assert (FY : Qfloor ys = (y - b)%Z) by (rewrite EY; apply Qfloor_Z).
  destruct O as [O1 O2].
  assert (S0 : source_inside h w ys xs).
  { unfold source_inside. rewrite EX, EY. change 0 with (inject_Z 0). rewrite <- !Zle_Qle, <- !Zlt_Qlt. lia. }
  destruct (C61_value h w data vx vy ts y x T S0 (fun i j _ O => D i j O)) as (r & -> & E). fold xs ys in E.
  pose proof (D (y - b)%Z (x - a)%Z (conj O1 O2)) as Dn. destruct (data (y - b)%Z (x - a)%Z) as [v|] eqn:Dv; [|congruence]. cbn. rewrite E.
  unfold bilinear. rewrite FX, FY. rewrite EX, EY. unfold or_zero at 1. rewrite (proj2 (inside_iff h w (y - b) (x - a)) (conj O1 O2)), Dv. ring.
Qed.
(** C61: with masked values this fails: even without any motion the mask grows (a neighbour of no weight is used). *)
Theorem C61_mask_growth_refuted : ~ (forall h w data vx vy ts y x a b, ts <> 0%Z -> vx * inject_Z ts == inject_Z a -> vy * inject_Z ts == inject_Z b -> on_field h w (y - b) (x - a) ->
  oeq (advect_point h w data vx vy ts y x) (data (y - b)%Z (x - a)%Z)).
Proof.
  intro H. specialize (H 2%Z 2%Z (fun _ x => if (x =? 1)%Z then None else Some 5) 0 0 60%Z 0%Z 0%Z 0%Z 0%Z).
  assert (X : oeq None (Some 5)); [|exact X]. apply H; [discriminate|reflexivity|reflexivity|split; lia].
Qed.
(** C61: a timestep of zero returns the field itself. *)
Theorem C61_no_step h w data vx vy y x : advect_point h w data vx vy 0 y x = data y x.
Proof. reflexivity. Qed.
(** C61: the result depends linearly on the field. *)
Theorem C61_linear h w f g vx vy ts y x a b : ts <> 0%Z -> on_field h w y x ->
  (forall i j, on_field h w i j -> f i j <> None /\ g i j <> None) ->
  let comb i j := match f i j, g i j with Some u, Some v => Some (a * u + b * v) | _, _ => None end in
  match advect_point h w f vx vy ts y x, advect_point h w g vx vy ts y x with
  | Some u, Some v => oeq (advect_point h w comb vx vy ts y x) (Some (a * u + b * v))
  | None, None => advect_point h w comb vx vy ts y x = None
  | _, _ => False
  end.
Proof.
  intros T On D comb. assert (Dc : forall i j, on_field h w i j -> comb i j <> None) by (intros i j O; unfold comb; destruct (D i j O); destruct (f i j), (g i j); congruence).
  set (xs := - vx * inject_Z ts + inject_Z x). set (ys := - vy * inject_Z ts + inject_Z y).
  destruct (point_in_bounds xs ys w h) eqn:B.
  - apply bounds_iff in B.
    destruct (C61_value h w f vx vy ts y x T B (fun i j _ O => proj1 (D i j O))) as (u & -> & Eu). destruct (C61_value h w g vx vy ts y x T B (fun i j _ O => proj2 (D i j O))) as (v & -> & Ev).
    destruct (C61_value h w comb vx vy ts y x T B (fun i j _ O => Dc i j O)) as (r & -> & Er). cbn. rewrite Er, Eu, Ev. fold xs ys.
    assert (L : forall i j, or_zero h w comb i j == a * or_zero h w f i j + b * or_zero h w g i j).
    { intros i j. unfold or_zero. destruct (inside h w i j) eqn:I0; [|ring]. apply inside_iff in I0. unfold comb. destruct (D i j I0). destruct (f i j), (g i j); try congruence; ring. }
    unfold bilinear. rewrite !L. ring.
  - assert (N : ~ source_inside h w ys xs) by (intro C; apply bounds_iff in C; congruence).
    assert (Nn : forall d, advect_point h w d vx vy ts y x = None) by (intro d; apply (C61_masked h w d vx vy ts y x T); intros [C _]; contradiction). rewrite !Nn. reflexivity.
Qed.
(** C61: the velocities are per grid square, the reference time is the time of the input and the period is the timestep. *)
Theorem C61_cube h w vel_x vel_y dx dy c ts : let f := advect h w vel_x vel_y dx dy c ts in
  f_time f = (f_time c + ts)%Z /\ f_frt f = Some (f_time c) /\ f_period f = Some ts /\
  forall y x, f_data f y x = advect_point h w (f_data c) (vel_x y x / dx) (vel_y y x / dy) ts y x.
Proof. repeat split. Qed.
Definition ramp : grid (option Q) := fun y x => Some (inject_Z (10 * y + x)).
Example C61_case : option_map Qred (advect_point 3 3 ramp (1 # 120) (-1 # 120) 60 1 1) = Some (31 # 2) /\ source_inside 3 3 (3 # 2) (1 # 2) /\ option_map Qred (advect_point 3 3 ramp (1 # 60) (-1 # 60) 60 0 0) = None.
Proof. split; [vm_compute; reflexivity|]. split; [unfold source_inside; change (inject_Z 3) with 3; lra|vm_compute; reflexivity]. Qed.

(** C62: subtracting the enhancement leaves rates below the threshold alone, never takes a rate at or above it below it, and otherwise is exact. *)
Theorem C62_subtract thr p e : exists r, oe_point OESubtract thr (Some p) e = Some r /\
  (p < thr -> r == p) /\ (thr <= p -> p - e <= thr -> r == thr) /\ (thr <= p -> thr < p - e -> r == p - e).
Proof.
  unfold oe_point. eexists. split; [reflexivity|]. destruct (Qltb_spec p thr) as [A|A], (Qleb_spec thr p) as [B|B]; try lra; cbn [andb].
  - repeat split; intros; lra.
  - destruct (Qleb_spec (p - e) thr) as [C|C]; repeat split; intros; lra.
Qed.
Theorem C62_add thr p e : exists r, oe_point OEAdd thr (Some p) e = Some r /\ (p < thr -> r == p) /\ (thr <= p -> r == p + e).
Proof. unfold oe_point. eexists. split; [reflexivity|]. destruct (Qltb_spec p thr) as [A|A]; split; intros; lra. Qed.
Theorem C62_masked op thr e : oe_point op thr None e = None.
Proof. destruct op; reflexivity. Qed.
(** C62: adding the same enhancement again restores the rate, except that a rate less than the threshold above the enhancement becomes the threshold plus the enhancement: never less than the rate. *)
Theorem C62_round_trip thr p e : exists r, oe_point OEAdd thr (oe_point OESubtract thr (Some p) e) e = Some r /\
  (p < thr \/ thr < p - e -> r == p) /\ (thr <= p -> p - e <= thr -> r == thr + e) /\ p <= r.
Proof.
  unfold oe_point. eexists. split; [reflexivity|]. destruct (Qltb_spec p thr) as [A|A].
  - destruct (Qleb_spec thr p) as [B|B]; [lra|]. cbn [andb]. destruct (Qltb_spec (p - 0) thr) as [C|C]; [|lra]. repeat split; intros; lra.
  - destruct (Qleb_spec thr p) as [B|B]; [|lra]. cbn [andb]. destruct (Qleb_spec (p - e) thr) as [C|C].
    + destruct (Qltb_spec thr thr) as [D|D]; [lra|]. repeat split; intros; lra.
    + destruct (Qltb_spec (p - e) thr) as [D|D]; [lra|]. repeat split; intros; lra.
Qed.
(** C62: the enhancement used is that of a closest time, which must be within half an hour. *)
Lemma nearest_entry_spec {A} t : forall (l : list (Z * A)) best, let n := nearest_entry t best l in
  (n = best \/ In n l) /\ (Z.abs (fst n - t) <= Z.abs (fst best - t))%Z /\ forall e, In e l -> (Z.abs (fst n - t) <= Z.abs (fst e - t))%Z.
Proof.
  induction l as [|e l IH]; intro best; cbn.
  - split; [now left|]. split; [lia|intros e []].
  - destruct (Z.ltb_spec (Z.abs (fst e - t)) (Z.abs (fst best - t))) as [L|L].
    + destruct (IH e) as (A1 & A2 & A3). split; [destruct A1 as [-> | A1]; auto|]. split; [lia|]. intros e' [<-|H]; [lia|auto].
    + destruct (IH best) as (A1 & A2 & A3). split; [destruct A1 as [-> | A1]; auto|]. split; [lia|]. intros e' [<-|H]; [lia|auto].
Qed.
Theorem C62_nearest {A} (t : Z) (l : list (Z * A)) : match nearest_time 1800 t l with
  | Ok a => exists s, In (s, a) l /\ (Z.abs (s - t) <= 1800)%Z /\ forall e, In e l -> (Z.abs (s - t) <= Z.abs (fst e - t))%Z
  | Err e => e = ValueError /\ forall x, In x l -> (1800 < Z.abs (fst x - t))%Z
  end.
Proof.
  unfold nearest_time. destruct l as [|e l]; [split; [reflexivity|intros x []]|]. destruct (nearest_entry_spec t l e) as (A1 & A2 & A3). set (n := nearest_entry t e l) in *.
  destruct (Z.ltb_spec 1800 (Z.abs (t - fst n))) as [L|L].
  - split; [reflexivity|]. intros x [<-|H]; [lia|]. specialize (A3 x H). lia.
  - exists (fst n). split; [destruct n; cbn; destruct A1 as [-> | A1]; [now left|now right]|]. split; [lia|]. intros x [<-|H]; [lia|auto].
Qed.
(** C62: the lead times are the multiples of the interval from zero up to the maximum, ascending. *)
Theorem C62_lead_times interval max l : (0 < interval)%Z -> In l (lead_times interval max) <-> (0 <= l <= max)%Z /\ (interval | l)%Z.
Proof.
  intro H. unfold lead_times. rewrite in_map_iff. split.
  - intros (i & <- & Hi). apply in_seq in Hi as [_ Hi]. cbn in Hi. split; [|apply Z.divide_factor_r].
    assert (X : (Z.of_nat i < (max + 1 + interval - 1) / interval)%Z) by lia. assert (Z.of_nat i + 1 <= (max + interval) / interval)%Z by (replace (max + 1 + interval - 1)%Z with (max + interval)%Z in X by lia; lia).
    pose proof (Z.mul_div_le (max + interval) interval H). nia.
  - intros [B [k ->]]. exists (Z.to_nat k). assert (0 <= k)%Z by nia. split; [lia|]. apply in_seq. split; [lia|]. cbn.
    replace (max + 1 + interval - 1)%Z with (max + 1 * interval)%Z by lia. rewrite Z.div_add by lia. assert (k <= max / interval)%Z by (apply Z.div_le_lower_bound; nia). lia.
Qed.
Theorem C62_lead_times_ascending interval max i j : (0 < interval)%Z -> (i < j < length (lead_times interval max))%nat -> (nth i (lead_times interval max) 0 < nth j (lead_times interval max) 0)%Z.
Proof.
  intros H L. unfold lead_times in *. rewrite map_length, seq_length in L. rewrite !nth_map_seq by lia. cbn. nia.
Qed.
(** C62: what a forecast contains: each lead time in turn; the enhancement of the analysis time is subtracted, the rest is advected, the enhancement of the validity time is added. *)
Lemma apply_oe_inv op thr oe c r : apply_oe op thr oe c = Ok r -> exists e, nearest_time 1800 (f_time c) oe = Ok e /\
  f_time r = f_time c /\ f_frt r = f_frt c /\ f_period r = f_period c /\ forall y x, f_data r y x = oe_point op thr (f_data c y x) (e y x).
Proof.
  unfold apply_oe. destruct (nearest_time 1800 (f_time c) oe) as [e|]; [|discriminate]. cbn [bind]. intro H. apply Ok_inj in H. subst r. exists e. repeat split.
Qed.
Theorem C62_forecast h w vel_x vel_y dx dy rain thr oe c interval max out : nowcast h w vel_x vel_y dx dy rain thr (Some oe) c interval max = Ok out ->
  length out = length (lead_times interval max) /\ exists e0, nearest_time 1800 (f_time c) oe = Ok e0 /\
  forall k f, nth_error out k = Some f -> let lead := nth k (lead_times interval max) 0%Z in
    f_time f = (f_time c + 60 * lead)%Z /\ f_frt f = Some (f_time c) /\ f_period f = Some (60 * lead)%Z /\
    exists e, nearest_time 1800 (f_time f) oe = Ok e /\
    forall y x, f_data f y x = oe_point OEAdd thr (advect_point h w (fun i j => oe_point OESubtract thr (f_data c i j) (e0 i j)) (vel_x y x / dx) (vel_y y x / dy) (60 * lead) y x) (e y x).
Proof.
  unfold nowcast, extrapolation_init. intro H. destruct (apply_oe OESubtract thr oe c) as [input|] eqn:A; [|discriminate]. cbn [bind] in H.
  apply apply_oe_inv in A as (e0 & N0 & T0 & F0 & P0 & D0). apply mapM_forall2 in H. split.
  - clear - H. induction H; cbn; congruence.
  - exists e0. split; [exact N0|]. intros k f Hk. cbv zeta.
    assert (X : exists l, nth_error (lead_times interval max) k = Some l /\ extrapolate h w vel_x vel_y dx dy thr (Some oe) input l = Ok f).
    { clear - H Hk. revert k Hk. induction H as [|l o ls os E F IH]; intros [|k] Hk; cbn in Hk; try discriminate; [injection Hk as <-; exists l; auto|]. destruct (IH k Hk) as (l' & L1 & L2). exists l'. auto. }
    destruct X as (l & Hl & E). rewrite (nth_error_nth _ _ 0%Z Hl). unfold extrapolate in E. cbv zeta in E. apply apply_oe_inv in E as (e & N1 & T1 & F1 & P1 & D1).
    unfold advect in T1, F1, P1, D1, N1. cbn [f_time f_frt f_period f_data] in T1, F1, P1, D1, N1. rewrite T0 in T1, F1, N1. split; [exact T1|]. split; [exact F1|]. split; [exact P1|]. exists e. rewrite T1. split; [exact N1|].
    intros y x. rewrite D1. f_equal. unfold advect_point, increment. destruct (_ =? 0)%Z; [apply D0|]. cbv zeta. rewrite !D0. reflexivity.
Qed.
(** C62: at lead time zero the forecast is the analysis, raised at most to the threshold plus the enhancement. *)
Theorem C62_analysis h w vel_x vel_y dx dy rain thr oe c interval max out : (0 < interval)%Z -> (0 <= max)%Z -> nowcast h w vel_x vel_y dx dy rain thr (Some oe) c interval max = Ok out ->
  exists f e, nth_error out 0 = Some f /\ nearest_time 1800 (f_time c) oe = Ok e /\ forall y x,
    match f_data c y x with
    | None => f_data f y x = None
    | Some p => exists r, f_data f y x = Some r /\ (p < thr \/ thr < p - e y x -> r == p) /\ (thr <= p -> p - e y x <= thr -> r == thr + e y x)
    end.
Proof.
  intros Hi Hm H. destruct (C62_forecast _ _ _ _ _ _ _ _ _ _ _ _ _ H) as (L & e0 & N0 & F).
  assert (L0 : (0 < length (lead_times interval max))%nat). { unfold lead_times. rewrite map_length, seq_length. assert (1 <= (max + 1 + interval - 1) / interval)%Z by (apply Z.div_le_lower_bound; lia). lia. }
  destruct out as [|f out]; [cbn in L; lia|]. exists f, e0. split; [reflexivity|]. split; [exact N0|].
  destruct (F 0%nat f eq_refl) as (T & _ & _ & e & N1 & D). assert (Z0 : nth 0 (lead_times interval max) 0%Z = 0%Z). { unfold lead_times in *. rewrite map_length, seq_length in L0. rewrite nth_map_seq by exact L0. reflexivity. }
  rewrite Z0 in *. cbn [Z.mul] in *. rewrite Z.add_0_r in T. rewrite T, N0 in N1. apply Ok_inj in N1. subst e.
  intros y x. rewrite D, C61_no_step. destruct (f_data c y x) as [p|]; [|reflexivity].
  destruct (C62_round_trip thr p (e0 y x)) as (r & R1 & R2 & R3 & _). exists r. auto.
Qed.
(** C62: a non-negative analysis and enhancement give non-negative forecasts. *)
Theorem C62_nonnegative h w vel_x vel_y dx dy rain thr oe c interval max out : nowcast h w vel_x vel_y dx dy rain thr (Some oe) c interval max = Ok out -> 0 <= thr ->
  (forall y x p, on_field h w y x -> f_data c y x = Some p -> 0 <= p) -> (forall t e y x, In (t, e) oe -> 0 <= e y x) ->
  forall f y x v, In f out -> on_field h w y x -> f_data f y x = Some v -> 0 <= v.
Proof.
  intros H Th P E f y x v Hf On Hv. destruct (C62_forecast _ _ _ _ _ _ _ _ _ _ _ _ _ H) as (_ & e0 & N0 & F). apply In_nth_error in Hf as (k & Hk).
  destruct (F k f Hk) as (_ & _ & _ & e & N1 & D). rewrite D in Hv.
  assert (Ee : forall y x, 0 <= e y x) by (intros y' x'; pose proof (C62_nearest (f_time f) oe) as X; rewrite N1 in X; destruct X as (s & X & _); eauto).
  set (sub := fun i j => oe_point OESubtract thr (f_data c i j) (e0 i j)) in *. destruct (advect_point h w sub _ _ _ y x) as [a|] eqn:A; [|discriminate].
  assert (Sub : forall i j u, on_field h w i j -> sub i j = Some u -> 0 <= u).
  { intros i j u O Hu. unfold sub in Hu. destruct (f_data c i j) as [p|] eqn:Dp; [|discriminate]. specialize (P i j p O Dp). destruct (C62_subtract thr p (e0 i j)) as (r & R & R1 & R2 & R3). rewrite R in Hu. injection Hu as <-.
    destruct (Qlt_le_dec p thr) as [L|L]; [rewrite R1; assumption|]. destruct (Qlt_le_dec thr (p - e0 i j)) as [M|M]; [rewrite R3 by assumption; lra|rewrite R2 by assumption; lra]. }
  assert (A0 : 0 <= a).
  { (* an upper bound of the field: the largest of the four values around the source and the result *)
    assert (Up : exists hi, 0 <= hi /\ forall i j u, on_field h w i j -> sub i j = Some u -> u <= hi).
    { assert (Fin : forall l : list (Z * Z), exists hi, 0 <= hi /\ forall p u, In p l -> sub (fst p) (snd p) = Some u -> u <= hi).
      { induction l as [|p l (hi & H0 & IH)]; [exists 0; split; [lra|intros p u []]|]. destruct (sub (fst p) (snd p)) as [q|] eqn:Sq.
        - exists (Qmax hi q). pose proof (Q.le_max_l hi q). pose proof (Q.le_max_r hi q). split; [lra|]. intros p' u [<-|Hp] Hu; [rewrite Sq in Hu; injection Hu as <-; lra|specialize (IH p' u Hp Hu); lra].
        - exists hi. split; [exact H0|]. intros p' u [<-|Hp] Hu; [congruence|eauto]. }
      destruct (Fin (flat_map (fun i => map (fun j => (i, j)) (zrange 0 (w - 1))) (zrange 0 (h - 1)))) as (hi & H0 & Hh). exists hi. split; [exact H0|]. intros i j u [O1 O2] Hu. apply (Hh (i, j) u); [|exact Hu].
      apply in_flat_map. exists i. split; [apply zrange_in; lia|]. apply in_map. apply zrange_in. lia. }
    destruct Up as (hi & H0 & Hh). apply (C61_range _ _ _ _ _ _ _ _ _ 0 hi A On); [intros i j u O Hu; split; [eauto|eauto]|left; lra]. }
  destruct (C62_add thr a (e y x)) as (r & R & R1 & R2). rewrite R in Hv. injection Hv as <-. specialize (Ee y x). destruct (Qlt_le_dec a thr) as [L|L]; [rewrite R1; assumption|rewrite R2 by assumption; lra].
Qed.
(** C62: rain without an enhancement is refused, and so is an enhancement that is not available at one of the times. *)
Theorem C62_refused h w vel_x vel_y dx dy thr c interval max : nowcast h w vel_x vel_y dx dy true thr None c interval max = Err ValueError.
Proof. reflexivity. Qed.
Theorem C62_no_enhancement_time h w vel_x vel_y dx dy rain thr oe c interval max l : In l (lead_times interval max) -> (forall e, In e oe -> (1800 < Z.abs (fst e - (f_time c + 60 * l)))%Z) ->
  nowcast h w vel_x vel_y dx dy rain thr (Some oe) c interval max = Err ValueError.
Proof.
  intros Hl F. unfold nowcast, extrapolation_init, apply_oe at 1.
  pose proof (C62_nearest (f_time c) oe) as N0. destruct (nearest_time 1800 (f_time c) oe) as [e0|er]; [|destruct N0 as [-> _]; reflexivity]. cbn [bind].
  assert (Each : forall l', (exists f, extrapolate h w vel_x vel_y dx dy thr (Some oe) {| f_data := fun y x => oe_point OESubtract thr (f_data c y x) (e0 y x); f_time := f_time c; f_frt := f_frt c; f_period := f_period c |} l' = Ok f) \/ extrapolate h w vel_x vel_y dx dy thr (Some oe) {| f_data := fun y x => oe_point OESubtract thr (f_data c y x) (e0 y x); f_time := f_time c; f_frt := f_frt c; f_period := f_period c |} l' = Err ValueError).
  { intro l'. unfold extrapolate, apply_oe. cbv zeta. cbn [advect f_time]. pose proof (C62_nearest (f_time c + 60 * l') oe) as N1. destruct (nearest_time 1800 (f_time c + 60 * l') oe) as [e1|er]; [left; cbn [bind]; eauto|destruct N1 as [-> _]; right; reflexivity]. }
  assert (Bad : extrapolate h w vel_x vel_y dx dy thr (Some oe) {| f_data := fun y x => oe_point OESubtract thr (f_data c y x) (e0 y x); f_time := f_time c; f_frt := f_frt c; f_period := f_period c |} l = Err ValueError).
  { unfold extrapolate, apply_oe. cbv zeta. cbn [advect f_time]. pose proof (C62_nearest (f_time c + 60 * l) oe) as N1. destruct (nearest_time 1800 (f_time c + 60 * l) oe) as [e1|er]; [|destruct N1 as [-> _]; reflexivity]. exfalso. destruct N1 as (s & N1 & N2 & _). specialize (F _ N1). cbn [fst f_time] in *. lia. }
  induction (lead_times interval max) as [|a ls IH]; [destruct Hl|]. cbn [mapM]. destruct Hl as [->|Hl].
  - rewrite Bad. reflexivity.
  - destruct (Each a) as [(f & ->)| ->]; [|reflexivity]. cbn [bind]. rewrite IH by assumption. reflexivity.
Qed.
Definition rain3 : ncast := {| f_data := fun y x => Some (inject_Z x); f_time := 0; f_frt := None; f_period := None |}.
Definition oe3 : list (Z * grid Q) := [(0%Z, fun _ _ => 1 # 2); (3600%Z, fun _ _ => 1)].
Example C62_case : match nowcast 1 3 (fun _ _ => 10) (fun _ _ => 0) 36000 1000 true (1 # 32) (Some oe3) rain3 60 100 with
  | Ok l => map (fun f => (f_time f, map (fun x => option_map Qred (f_data f 0%Z x)) [0; 1; 2]%Z)) l = [(0%Z, [Some 0; Some 1; Some 2]); (3600%Z, [None; Some 0; Some (3 # 2)])] | Err _ => False end /\ lead_times 60 100 = [0; 60]%Z.
Proof. vm_compute. split; reflexivity. Qed.

(** C63: after ExtendRadarMask a pixel is masked exactly where the coverage is neither 1 nor 2; values are kept. *)
Theorem C63_coverage v m cov : fst (extend_mask v m cov) = v /\ (snd (extend_mask v m cov) = false <-> cov = 1%Z \/ cov = 2%Z).
Proof.
  split; [reflexivity|]. unfold extend_mask. cbn [snd existsb]. destruct (Z.eqb_spec cov 1), (Z.eqb_spec cov 2); cbn; split; intro H; try discriminate; try tauto; destruct H; contradiction.
Qed.
(** C63: the mask is replaced, not extended: a pixel masked before can be unmasked. *)
Theorem C63_extension_refuted : ~ (forall v cov, snd (extend_mask v true cov) = true).
Proof. intro H. specialize (H 0 1%Z). discriminate. Qed.
(** C63: FillRadarHoles keeps valid pixels and fills a masked one exactly if at most 24 pixels of its 9 by 9 window have no value. *)
Theorem C63_filled geo h w data y x n : on_field h w y x -> count_around (no_value h w data) 4 y x n ->
  (data y x <> None -> fill_holes geo h w data y x = data y x) /\
  (data y x = None -> (fill_holes geo h w data y x <> None <-> (n <= 24)%nat)).
Proof.
  intros On Cn. rewrite (count_unique _ _ _ _ _ _ Cn (count_off h w data 4 y x)). clear Cn n. set (n := length _).
  assert (Lim : (Qlen (filter (off_or_masked h w data) (window 4 y x)) <? max_masked) = (n <=? 24)%nat).
  { unfold Qlen. fold n. unfold max_masked. destruct (Nat.leb_spec n 24) as [L|L].
    - apply Qltb_lt. apply Qle_lt_trans with (inject_Z 24); [rewrite <- Zle_Qle; lia|reflexivity].
    - destruct (Qltb_spec (inject_Z (Z.of_nat n)) (81 * (3 # 10))) as [C|C]; [|reflexivity]. exfalso.
      assert (inject_Z 25 <= inject_Z (Z.of_nat n)) by (rewrite <- Zle_Qle; lia). change (inject_Z 25) with 25 in H. lra. }
  unfold fill_holes, is_speckle. rewrite Lim. split.
  - intro D. assert (X : off_or_masked h w data (y, x) = false). { destruct (off_or_masked h w data (y, x)) eqn:E; [|reflexivity]. apply off_iff in E. destruct E; contradiction. } rewrite X. reflexivity.
  - intro D. rewrite (proj2 (off_iff h w data y x) (or_intror D)). cbn [andb]. destruct (Nat.leb_spec n 24) as [L|L]; split; intro H; try lia; try congruence.
Qed.
(** C63: there is then a valid value among the 25 pixels around it, and the value set is zero if one of these values is at most 0.001 mm/h and their geometric mean otherwise. *)
Theorem C63_value geo h w data y x n : on_field h w y x -> count_around (no_value h w data) 4 y x n -> data y x = None -> (n <= 24)%nat ->
  exists vs, values_around h w data 2 y x vs /\ vs <> [] /\
    ((exists v, In v vs /\ v <= 1 # 1000) -> fill_holes geo h w data y x = Some 0) /\
    ((forall v, In v vs -> 1 # 1000 < v) -> fill_holes geo h w data y x = Some (geo vs)).
Proof.
  intros On Cn D Ln. exists (valid_around h w data y x). split; [apply values_spec|].
  pose proof (proj1 (proj2 (C63_filled geo h w data y x n On Cn) D)) as Fl. pose proof (proj2 (proj2 (C63_filled geo h w data y x n On Cn) D) Ln) as Fn. clear Fl.
  assert (E : fill_holes geo h w data y x = Some (fill_value geo (valid_around h w data y x))). { unfold fill_holes in *. destruct (is_speckle h w data y x); [reflexivity|contradiction]. }
  assert (Ne : valid_around h w data y x <> []).
  { intro Z0. rewrite (count_unique _ _ _ _ _ _ Cn (count_off h w data 4 y x)) in Ln.
    assert (I0 : incl (window 2 y x) (filter (off_or_masked h w data) (window 4 y x))).
    { intros [i j] Hp. apply filter_In. split; [apply window_in; apply window_in in Hp; lia|]. apply off_iff. unfold valid_around in Z0. unfold no_value.
      destruct (inside h w i j) eqn:Ii; [|left; intro C; apply inside_iff in C; congruence]. right. destruct (data i j) as [v|] eqn:Dv; [|reflexivity]. exfalso.
      assert (X : In v []); [|exact X]. rewrite <- Z0. apply in_flat_map. exists (i, j). cbn [fst snd]. rewrite Ii, Dv. split; [exact Hp|now left]. }
    pose proof (NoDup_incl_length (window_nodup 2 y x) I0) as L. rewrite window_length in L by lia. change (Z.to_nat (2 * 2 + 1) * Z.to_nat (2 * 2 + 1))%nat with 25%nat in L. lia. }
  split; [exact Ne|]. rewrite E. unfold fill_value. destruct (valid_around h w data y x) as [|v0 vs0] eqn:Vs; [congruence|]. rewrite <- Vs in *. clear Ne. split.
  - intros (v & Hv & Lv). destruct (forallb _ _) eqn:Fb; [|reflexivity]. exfalso. rewrite forallb_forall in Fb. specialize (Fb v Hv). apply Qltb_lt in Fb. unfold min_rr in Fb. lra.
  - intro A. assert (Fb : forallb (fun v => min_rr <? v) (valid_around h w data y x) = true) by (apply forallb_forall; intros v Hv; apply Qltb_lt, A, Hv). now rewrite Fb.
Qed.
(** C63: pixels in the two outermost rows and columns are never filled. *)
Theorem C63_border geo h w data y x : on_field h w y x -> data y x = None -> (y < 2 \/ x < 2 \/ h - 2 <= y \/ w - 2 <= x)%Z -> fill_holes geo h w data y x = None.
Proof.
  intros On D B. pose proof (count_off h w data 4 y x) as Cn.
  assert (Big : (24 < length (filter (off_or_masked h w data) (window 4 y x)))%nat).
  { assert (Blk : exists a b c d, (b - a + 1 = 3 /\ d - c + 1 = 9 \/ b - a + 1 = 9 /\ d - c + 1 = 3)%Z /\ forall i j, (a <= i <= b)%Z -> (c <= j <= d)%Z -> (Z.abs (i - y) <= 4)%Z /\ (Z.abs (j - x) <= 4)%Z /\ ~ on_field h w i j).
    { unfold on_field in *. destruct B as [B|[B|[B|B]]].
      - exists (y - 4)%Z, (y - 2)%Z, (x - 4)%Z, (x + 4)%Z. split; [left; lia|intros; lia].
      - exists (y - 4)%Z, (y + 4)%Z, (x - 4)%Z, (x - 2)%Z. split; [right; lia|intros; lia].
      - exists (y + 2)%Z, (y + 4)%Z, (x - 4)%Z, (x + 4)%Z. split; [left; lia|intros; lia].
      - exists (y - 4)%Z, (y + 4)%Z, (x + 2)%Z, (x + 4)%Z. split; [right; lia|intros; lia]. }
    destruct Blk as (a & b & c & d & Sz & Hb). set (l := flat_map (fun i => map (fun j => (i, j)) (zrange c d)) (zrange a b)).
    assert (Nd : NoDup l) by (apply product_nodup; apply zrange_nodup).
    assert (Ln : length l = 27%nat) by (unfold l; rewrite (product_length (fun i j => (i, j))), !zrange_length; destruct Sz as [[-> ->]|[-> ->]]; reflexivity).
    assert (I0 : incl l (filter (off_or_masked h w data) (window 4 y x))).
    { intros [i j] Hp. apply in_flat_map in Hp as (i' & Hi & Hj). apply in_map_iff in Hj as (j' & E & Hj). injection E as -> ->. apply zrange_in in Hi, Hj. destruct (Hb i j Hi Hj) as (H1 & H2 & H3). apply filter_In. split; [apply window_in; lia|]. apply off_iff. now left. }
    pose proof (NoDup_incl_length Nd I0). lia. }
  destruct (fill_holes geo h w data y x) eqn:F; [|reflexivity]. exfalso. apply (proj2 (C63_filled geo h w data y x _ On Cn)) in D. destruct D as [D _]. rewrite F in D. assert (Some q <> None) by discriminate. specialize (D H). lia.
Qed.
(** C63: the next row is (although the documentation says that pixels near the borders are not considered). *)
Example C63_case : let data : grid (option Q) := fun y x => if ((y =? 2) && (x =? 5))%Z%bool then None else Some 3 in
  fill_holes (fun vs => hd 0 vs) 11 11 data 2 5 = Some 3 /\ fill_holes (fun vs => hd 0 vs) 11 11 (fun y x => if ((y =? 1) && (x =? 5))%Z%bool then None else Some 3) 1 5 = None.
Proof. vm_compute. split; reflexivity. Qed.
(** C63: what is filled in lies within the range of the values around it, if the mean does. *)
Theorem C63_range geo h w data y x n lo hi r : on_field h w y x -> count_around (no_value h w data) 4 y x n -> data y x = None -> fill_holes geo h w data y x = Some r ->
  (forall vs, vs <> [] -> (forall v, In v vs -> lo <= v <= hi) -> lo <= geo vs <= hi) -> lo <= 0 <= hi ->
  (forall i j v, (Z.abs (i - y) <= 2)%Z -> (Z.abs (j - x) <= 2)%Z -> on_field h w i j -> data i j = Some v -> lo <= v <= hi) -> lo <= r <= hi.
Proof.
  intros On Cn D F G Z0 V. assert (Ln : (n <= 24)%nat) by (apply (proj2 (C63_filled geo h w data y x n On Cn) D); congruence).
  destruct (C63_value geo h w data y x n On Cn D Ln) as (vs & (l & _ & Hl & F2) & Ne & A & B).
  assert (Rg : forall v, In v vs -> lo <= v <= hi).
  { intros v Hv. assert (X : exists p, In p l /\ data (fst p) (snd p) = Some v). { clear - F2 Hv. induction F2 as [|p u l us H F IH]; [destruct Hv|]. destruct Hv as [<-|Hv]; [exists p; split; [now left|exact H]|]. destruct (IH Hv) as (q & Q1 & Q2). exists q. split; [now right|exact Q2]. }
    destruct X as ([i j] & Hp & Dv). apply Hl in Hp as (H1 & H2 & H3). apply (V i j v H1 H2); [|exact Dv]. destruct (inside h w i j) eqn:I0; [now apply inside_iff|]. exfalso. apply H3. left. intro C. apply inside_iff in C. congruence. }
  destruct (forallb (fun v => 1 # 1000 <? v) vs) eqn:Fb.
  - rewrite B in F; [injection F as <-; now apply G|]. intros v Hv. rewrite forallb_forall in Fb. now apply Qltb_lt, Fb.
  - rewrite A in F; [injection F as <-; exact Z0|]. assert (X : exists v, In v vs /\ (1 # 1000 <? v) = false). { clear - Fb. induction vs as [|v vs IH]; [discriminate|]. cbn in Fb. destruct (1 # 1000 <? v) eqn:E; [destruct (IH Fb) as (u & U1 & U2); exists u; split; [now right|exact U2]|exists v; split; [now left|exact E]]. }
    destruct X as (v & Hv & E). exists v. split; [exact Hv|]. destruct (Qltb_spec (1 # 1000) v); [discriminate|assumption].
Qed.

Print Assumptions C61_value.
Print Assumptions C61_masked.
Print Assumptions C61_range.
Print Assumptions C61_edge_refuted.
Print Assumptions C61_shift.
Print Assumptions C61_mask_growth_refuted.
Print Assumptions C61_no_step.
Print Assumptions C61_linear.
Print Assumptions C61_cube.
Print Assumptions C62_subtract.
Print Assumptions C62_add.
Print Assumptions C62_masked.
Print Assumptions C62_round_trip.
Print Assumptions C62_nearest.
Print Assumptions C62_lead_times.
Print Assumptions C62_lead_times_ascending.
Print Assumptions C62_forecast.
Print Assumptions C62_analysis.
Print Assumptions C62_nonnegative.
Print Assumptions C62_refused.
Print Assumptions C62_no_enhancement_time.
Print Assumptions C63_coverage.
Print Assumptions C63_extension_refuted.
Print Assumptions C63_filled.
Print Assumptions C63_value.
Print Assumptions C63_border.
Print Assumptions C63_range.
