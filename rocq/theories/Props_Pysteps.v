(** C114: extrapolation nowcasts with pysteps. *)
From Verif Require Import Base Model_Nbhood Proofs_Nbhood Model_Nowcast Props_Nowcast Model_Probability Model_Pysteps.
Local Open Scope Q_scope.

(** The extrapolator gives as many fields as it is asked for. *)
Definition gives_all (e : extrapolation) : Prop := forall g u v n, (0 <= n)%Z -> length (e g u v n) = Z.to_nat n.

Lemma stamped_nth a interval : forall l i k, nth_error (stamped a interval i l) k =
  option_map (fun g => {| f_data := g; f_time := (f_time a + (i + 1 + Z.of_nat k) * (interval * 60))%Z; f_frt := f_frt a; f_period := Some ((i + 1 + Z.of_nat k) * interval * 60)%Z |}) (nth_error l k).
Proof.
  induction l as [|g l IH]; intros i [|k]; cbn [stamped nth_error option_map]; try reflexivity.
  - do 3 f_equal; lia.
  - rewrite IH. destruct (nth_error l k); cbn [option_map]; [|reflexivity]. f_equal. f_equal; [lia|f_equal; lia].
Qed.
Lemma stamped_length a interval : forall l i, length (stamped a interval i l) = length l.
Proof. induction l as [|g l IH]; intro i; cbn; [reflexivity|]. rewrite IH. reflexivity. Qed.

Lemma mapM_nth_error {A B} (f : A -> result B) : forall l out, mapM f l = Ok out -> length out = length l /\
  forall k a, nth_error l k = Some a -> exists b, nth_error out k = Some b /\ f a = Ok b.
Proof.
  induction l as [|x l IH]; intros out H; cbn [mapM] in H.
  - apply Ok_inj in H. subst. split; [reflexivity|]. intros [|k] a Ha; discriminate.
  - destruct (f x) as [b|] eqn:E; [|discriminate]. cbn [bind] in H. destruct (mapM f l) as [bs|] eqn:M; [|discriminate]. cbn [bind] in H.
    apply Ok_inj in H. subst out. destruct (IH bs eq_refl) as [L N]. split; [cbn; congruence|].
    intros [|k] a Ha; cbn in Ha |- *; [|apply N; exact Ha]. injection Ha as ->. exists b. auto.
Qed.
Lemma mapM_all_ok {A B} (f : A -> result B) : forall l, (forall a, In a l -> exists b, f a = Ok b) -> exists out, mapM f l = Ok out.
Proof.
  induction l as [|x l IH]; intro H; [exists []; reflexivity|]. cbn [mapM]. destruct (H x (or_introl eq_refl)) as [b ->]. cbn [bind].
  destruct IH as [bs ->]; [intros a Ha; apply H; right; exact Ha|]. cbn [bind]. eauto.
Qed.

(** What is handed to pysteps: the analysis less the enhancement at its time, in mm/h (masked stays NaN), and displacements in grid squares per step. *)
Definition handed (thr mmh : Q) (c : ncast) (e0 : grid Q) : grid (option Q) := fun y x => option_map (fun v => v * mmh) (oe_point OESubtract thr (f_data c y x) (e0 y x)).
Definition squares (interval : Z) (spacing : Q) (u : grid (option Q)) : grid (option Q) := fun y x => option_map (fun m_per_s => m_per_s * inject_Z interval * 60 / spacing) (u y x).

(** C114: the results: the analysis and one field for each step, at multiples of the interval; each is what pysteps gives, back in the units of the input, with the enhancement nearest to its own time (within 1800 s) added; a point is masked exactly where pysteps has no value. *)
Theorem C114_fields e interval max name mmh thr spacing u v oe c out : gives_all e -> (0 < interval)%Z -> (0 <= max)%Z ->
  process e interval max name true mmh thr spacing u v (Some oe) c = Ok out ->
  length out = S (Z.to_nat (max / interval)) /\
  exists e0, nearest_time 1800 (f_time c) oe = Ok e0 /\
  let fs := handed thr mmh c e0 :: e (handed thr mmh c e0) (squares interval spacing u) (squares interval spacing v) (max / interval)%Z in
  forall k g f, nth_error fs k = Some g -> nth_error out k = Some f ->
    f_time f = (f_time c + Z.of_nat k * interval * 60)%Z /\
    f_frt f = Some (match f_frt c with Some t => t | None => f_time c end) /\
    exists ek, nearest_time 1800 (f_time f) oe = Ok ek /\
    (forall y x, f_data f y x = oe_point OEAdd thr (option_map (fun w => w * / mmh) (g y x)) (ek y x)) /\
    forall y x, f_data f y x = None <-> g y x = None.
Proof.
  intros G Hi Hm H. unfold process, num_timesteps in H. destruct (interval =? 0)%Z eqn:E0; [apply Z.eqb_eq in E0; lia|]. cbn [bind] in H.
  destruct (contains "rate" name); [|discriminate]. cbn [negb] in H.
  destruct (apply_oe OESubtract thr oe c) as [a|] eqn:A; [|discriminate]. cbn [bind] in H. cbv zeta in H.
  unfold apply_oe in A. destruct (nearest_time 1800 (f_time c) oe) as [e0|] eqn:N0; [|discriminate]. cbn [bind] in A. apply Ok_inj in A.
  assert (P : (0 <= max / interval)%Z) by (apply Z.div_pos; lia).
  set (fs := e (f_data (scaled mmh a)) _ _ _) in H. 
  assert (FS : fs = e (handed thr mmh c e0) (squares interval spacing u) (squares interval spacing v) (max / interval)%Z) by (subst a; reflexivity).
  apply mapM_nth_error in H as [L N]. split.
  - rewrite L. cbn [length]. rewrite stamped_length, FS, G by exact P. reflexivity.
  - exists e0. split; [reflexivity|]. cbv zeta. rewrite <- FS. intros k g f Hg Hf.
    assert (X : forall d t p r, apply_oe OEAdd thr oe (scaled (/ mmh) {| f_data := d; f_time := t; f_frt := r; f_period := p |}) = Ok f ->
      f_time f = t /\ f_frt f = r /\ exists ek, nearest_time 1800 (f_time f) oe = Ok ek /\
      (forall y x, f_data f y x = oe_point OEAdd thr (option_map (fun w => w * / mmh) (d y x)) (ek y x)) /\ forall y x, f_data f y x = None <-> d y x = None).
    { intros d t p r HA. apply apply_oe_inv in HA as (ek & Nk & T & F & Pd & D). cbn [scaled f_time f_frt f_period f_data] in *.
      split; [exact T|]. split; [exact F|]. exists ek. rewrite T. split; [exact Nk|]. split; [exact D|].
      intros y x. rewrite D. destruct (d y x); cbn [option_map oe_point]; split; intro; congruence. }
    destruct k as [|k]; cbn [nth_error] in Hg, Hf.
    + injection Hg as <-. destruct (N 0%nat (reformatted (scaled mmh a)) eq_refl) as (b & Hb & HA). cbn [nth_error] in Hb. rewrite Hf in Hb. injection Hb as <-.
      unfold reformatted in HA. apply X in HA as (T & F & R). subst a. cbn [scaled f_time f_frt f_data] in *. split; [rewrite T; lia|]. split; [exact F|exact R].
    + pose proof (stamped_nth (reformatted (scaled mmh a)) interval fs 0 k) as S. rewrite Hg in S. cbn [option_map] in S.
      destruct (N (Datatypes.S k) _ S) as (b & Hb & HA). cbn [nth_error] in Hb. rewrite Hf in Hb. injection Hb as <-.
      apply X in HA as (T & F & R). subst a. cbn [scaled reformatted f_time f_frt f_data] in *. split; [rewrite T; lia|]. split; [exact F|exact R].
Qed.

(** C114: the lead times are those of CreateExtrapolationForecast (C62): every multiple of the interval up to the maximum. *)
Theorem C114_lead_times e interval max name mmh thr spacing u v oe c out : gives_all e -> (0 < interval)%Z -> (0 <= max)%Z ->
  process e interval max name true mmh thr spacing u v (Some oe) c = Ok out ->
  map (fun f => (f_time f - f_time c)%Z) out = map (fun m => (60 * m)%Z) (lead_times interval max).
Proof.
  intros G Hi Hm H. destruct (C114_fields _ _ _ _ _ _ _ _ _ _ _ _ G Hi Hm H) as (L & e0 & _ & F). cbv zeta in F.
  set (n := Z.to_nat (max / interval)) in *.
  assert (LN : Z.to_nat ((max + 1 + interval - 1) / interval) = S n).
  { replace (max + 1 + interval - 1)%Z with (max + 1 * interval)%Z by lia. rewrite Z.div_add by lia. assert (0 <= max / interval)%Z by (apply Z.div_pos; lia). unfold n. lia. }
  unfold lead_times. rewrite LN. apply nth_ext with 0%Z 0%Z; [rewrite !map_length, seq_length; exact L|].
  intros k Hk. rewrite map_length in Hk. rewrite L in Hk.
  set (f0 := {| f_data := fun _ _ => None; f_time := 0; f_frt := None; f_period := None |}).
  assert (A : nth k (map (fun f => (f_time f - f_time c)%Z) out) 0%Z = (f_time (nth k out f0) - f_time c)%Z).
  { rewrite (nth_indep _ 0%Z (f_time f0 - f_time c)%Z) by (rewrite map_length; lia). apply (map_nth (fun f => (f_time f - f_time c)%Z)). }
  rewrite A. rewrite map_map. rewrite nth_map_seq by lia. cbn [Nat.add].
  set (fs := _ :: e _ _ _ _) in F. assert (LF : length fs = S n).
  { unfold fs. cbn [length]. rewrite G by (apply Z.div_pos; lia). reflexivity. }
  destruct (nth_error fs k) as [g|] eqn:Eg; [|apply nth_error_None in Eg; lia].
  destruct (nth_error out k) as [f|] eqn:Ef; [|apply nth_error_None in Ef; lia].
  rewrite (nth_error_nth _ _ f0 Ef). destruct (F k g f Eg Ef) as (T & _). rewrite T. lia.
Qed.

(** C114: the first result is the analysis itself, within what the minimum rate takes (C62_round_trip), and masked where it is. *)
Theorem C114_analysis e interval max name mmh thr spacing u v oe c out f : gives_all e -> (0 < interval)%Z -> (0 <= max)%Z -> 0 < mmh ->
  process e interval max name true mmh thr spacing u v (Some oe) c = Ok out -> nth_error out 0 = Some f ->
  exists e0, nearest_time 1800 (f_time c) oe = Ok e0 /\
  forall y x, match f_data c y x with
    | None => f_data f y x = None
    | Some p => exists r, f_data f y x = Some r /\ (p < thr -> r == p) /\ (thr <= p -> thr <= p - e0 y x -> r == p) /\ (thr <= p -> p - e0 y x <= thr -> r == thr + e0 y x)
    end.
Proof.
  intros G Hi Hm Hu H Hf. destruct (C114_fields _ _ _ _ _ _ _ _ _ _ _ _ G Hi Hm H) as (L & e0 & N0 & F). cbv zeta in F. exists e0. split; [exact N0|].
  destruct (F 0%nat _ f eq_refl Hf) as (T & _ & ek & Nk & D & _). rewrite T in Nk. replace (f_time c + Z.of_nat 0 * interval * 60)%Z with (f_time c) in Nk by lia.
  rewrite N0 in Nk. apply Ok_inj in Nk. subst ek.
  intros y x. rewrite D. unfold handed. destruct (f_data c y x) as [p|]; [|reflexivity].
  cbn [oe_point option_map]. set (ee := e0 y x).
  destruct (Qltb_spec p thr) as [E1|E1].
  - destruct (Qleb_spec thr p) as [E2|E2]; [lra|]. cbn [andb].
    set (r := (p - 0) * mmh * / mmh). assert (R : r == p) by (unfold r; field; lra).
    destruct (Qltb_spec r thr) as [E3|E3]; [|lra]. exists (r + 0). split; [reflexivity|]. repeat split; intros; lra.
  - destruct (Qleb_spec thr p) as [E2|E2]; [|lra]. cbn [andb].
    assert (SV : exists s, (if p - ee <=? thr then thr else p - ee) = s /\ (s == thr /\ p - ee <= thr \/ s == p - ee /\ thr < p - ee)).
    { destruct (Qleb_spec (p - ee) thr); eexists; (split; [reflexivity|]); [left|right]; split; try reflexivity; assumption. }
    destruct SV as (s & -> & SV).
    set (r := s * mmh * / mmh). assert (R : r == s) by (unfold r; field; lra).
    destruct (Qltb_spec r thr) as [E3|E3]; [destruct SV as [[S1 S2]|[S1 S2]]; lra|]. exists (r + ee). split; [reflexivity|].
    repeat split; intros; destruct SV as [[S1 S2]|[S1 S2]]; lra.
Qed.

(** Times in the metadata agree. *)
Definition times_agree (f : ncast) : Prop := exists r p, f_frt f = Some r /\ f_period f = Some p /\ (f_time f = r + p)%Z.

Lemma periods e interval max name mmh thr spacing u v oe c out : gives_all e -> (0 < interval)%Z -> (0 <= max)%Z ->
  process e interval max name true mmh thr spacing u v (Some oe) c = Ok out ->
  forall k f, nth_error out k = Some f -> f_period f = Some (match k with O => match f_period c with Some p => p | None => 0%Z end | _ => (Z.of_nat k * interval * 60)%Z end).
Proof.
  intros G Hi Hm H k f Hf. unfold process, num_timesteps in H. destruct (interval =? 0)%Z eqn:E0; [apply Z.eqb_eq in E0; lia|]. cbn [bind] in H.
  destruct (contains "rate" name); [|discriminate]. cbn [negb] in H.
  destruct (apply_oe OESubtract thr oe c) as [a|] eqn:A; [|discriminate]. cbn [bind] in H. cbv zeta in H.
  apply apply_oe_inv in A as (e0 & _ & _ & _ & PA & _).
  apply mapM_nth_error in H as [L N]. set (l := _ :: stamped _ _ _ _) in *.
  destruct (nth_error l k) as [x|] eqn:Ex; [|apply nth_error_None in Ex; assert (k < length out)%nat by (apply nth_error_Some; congruence); lia].
  destruct (N k x Ex) as (b & Hb & HA). rewrite Hf in Hb. injection Hb as <-. apply apply_oe_inv in HA as (_ & _ & _ & _ & P & _). rewrite P. unfold l in Ex.
  destruct k as [|k]; cbn [nth_error] in Ex.
  - injection Ex as <-. cbn [scaled reformatted f_period]. rewrite PA. reflexivity.
  - rewrite stamped_nth in Ex. destruct (nth_error _ k) in Ex; [|discriminate]. cbn [option_map] in Ex. injection Ex as <-. cbn [scaled f_period]. f_equal.
    replace (Z.of_nat (Datatypes.S k)) with (0 + 1 + Z.of_nat k)%Z by lia. reflexivity.
Qed.

(** C114: forecast periods are the times since the analysis, and agree with the times, for an analysis (no forecast period, or zero, and no reference time but its own). *)
Theorem C114_times_agree_partial e interval max name mmh thr spacing u v oe c out : gives_all e -> (0 < interval)%Z -> (0 <= max)%Z ->
  (f_frt c = None \/ f_frt c = Some (f_time c)) -> (f_period c = None \/ f_period c = Some 0%Z) ->
  process e interval max name true mmh thr spacing u v (Some oe) c = Ok out -> forall f, In f out -> times_agree f.
Proof.
  intros G Hi Hm HF HP H f Hin. apply In_nth_error in Hin as [k Hk].
  pose proof (periods _ _ _ _ _ _ _ _ _ _ _ _ G Hi Hm H k f Hk) as P.
  destruct (C114_fields _ _ _ _ _ _ _ _ _ _ _ _ G Hi Hm H) as (L & e0 & _ & F). cbv zeta in F.
  set (fs := _ :: e _ _ _ _) in F. assert (LF : length fs = length out).
  { rewrite L. unfold fs. cbn [length]. rewrite G by (apply Z.div_pos; lia). reflexivity. }
  destruct (nth_error fs k) as [g|] eqn:Eg; [|apply nth_error_None in Eg; assert (k < length out)%nat by (apply nth_error_Some; congruence); lia].
  destruct (F k g f Eg Hk) as (T & R & _). exists (f_time c), (Z.of_nat k * interval * 60)%Z.
  split; [rewrite R; destruct HF as [-> | ->]; reflexivity|]. split; [|exact T].
  rewrite P. destruct k; [destruct HP as [-> | ->]|]; f_equal; lia.
Qed.

(** Finding: an analysis that is itself a forecast (here of a quarter of an hour) gives forecast periods that are not the time since its reference time. *)
Definition quiet : extrapolation := fun g _ _ n => repeat g (Z.to_nat n).
Definition short_forecast : ncast := {| f_data := fun _ _ => Some 1; f_time := 900; f_frt := Some 0%Z; f_period := Some 900%Z |}.
Definition oe1 : list (Z * grid Q) := [(900%Z, fun _ _ => 1 # 2)].
Lemma quiet_all : gives_all quiet.
Proof. intros g u v n _. apply repeat_length. Qed.
Theorem C114_times_agree_refuted : times_agree short_forecast /\ exists out f,
  process quiet 15 30 "rainfall_rate" true 1 (1 # 32) 2000 (fun _ _ => Some 0) (fun _ _ => Some 0) (Some oe1) short_forecast = Ok out /\ nth_error out 1 = Some f /\ ~ times_agree f.
Proof.
  split; [exists 0%Z, 900%Z; repeat split|]. eexists _, _. split; [reflexivity|]. split; [reflexivity|].
  intros (r & p & R & P & T). cbn in R, P, T. injection R as <-. injection P as <-. lia.
Qed.

(** C114: refusals. Finding: the enhancement is optional in the command, but without it the plugin always fails. *)
Theorem C114_refused e interval max name area mmh thr spacing u v oe c : interval <> 0%Z ->
  (contains "rate" name = false \/ area = false -> process e interval max name area mmh thr spacing u v oe c = Err ValueError) /\
  (contains "rate" name = true -> area = true -> process e interval max name area mmh thr spacing u v None c = Err AttributeError) /\
  (forall l, oe = Some l -> contains "rate" name = true -> area = true -> (forall x, In x l -> (1800 < Z.abs (fst x - f_time c))%Z) -> process e interval max name area mmh thr spacing u v oe c = Err ValueError).
Proof.
  intro Hi. unfold process, num_timesteps. destruct (interval =? 0)%Z eqn:E0; [apply Z.eqb_eq in E0; lia|]. cbn [bind]. repeat split.
  - intros [->| ->]; [reflexivity|]. destruct (contains "rate" name); reflexivity.
  - intros -> ->. reflexivity.
  - intros l -> -> -> F. cbn [negb]. unfold apply_oe. pose proof (C62_nearest (f_time c) l) as N. destruct (nearest_time 1800 (f_time c) l) as [x|er].
    + exfalso. destruct N as (s & N1 & N2 & _). specialize (F _ N1). cbn [fst] in F. lia.
    + destruct N as [-> _]. reflexivity.
Qed.

Example C114_case : match process quiet 15 40 "rainfall_rate" true (1 # 2) (1 # 16) 2000 (fun _ _ => Some 0) (fun _ _ => Some 0) (Some oe3) rain3 with
  | Ok l => map (fun f => (f_time f, f_period f, map (fun x => option_map Qred (f_data f 0%Z x)) [0; 1; 2]%Z)) l = [(0%Z, Some 0%Z, [Some 0; Some 1; Some 2]); (900%Z, Some 900%Z, [Some 0; Some 1; Some 2]); (1800%Z, Some 1800%Z, [Some 0; Some 1; Some 2])] | Err _ => False end.
Proof. vm_compute. reflexivity. Qed.

Print Assumptions C114_fields.
Print Assumptions C114_lead_times.
Print Assumptions C114_analysis.
Print Assumptions C114_times_agree_partial.
Print Assumptions C114_times_agree_refuted.
Print Assumptions C114_refused.
