(** C120: the command that applies EMOS coefficients: what it gives back when the forecast is, and when it is not, calibrated. *)
From Coq Require Import Ascii String Permutation.
From Verif Require Import Base Interp Proofs_Nbhood Model_Percentiles Proofs_Percentiles Proofs_Resample Model_Reference Model_Bias Spec_Bias Props_Bias Model_Attributes Model_Records Model_EmosCommand Model_Probability.
Local Open Scope Q_scope.

(** ** What is said about the inputs *)
Definition coefficient (c : ecube) : bool := contains "emos_coefficient" (e_name c).
Definition timed (c : ecube) : bool := match e_when c with Some _ => true | None => false end.
Definition probabilities (c : ecube) : bool := contains "probability" (e_name c).
Definition named (m : option string) (c : ecube) : bool := match m with Some n => (negb (n =? "")%string && (e_name c =? n)%string)%bool | None => false end.
Definition land_sea (m : option string) (c : ecube) : bool := (negb (coefficient c) && named m c)%bool.
Definition static (m : option string) (c : ecube) : bool := (negb (coefficient c) && negb (named m c) && negb (timed c))%bool.
Definition dated (m : option string) (c : ecube) : bool := (negb (coefficient c) && negb (named m c) && timed c)%bool.
(** The inputs are told apart: one forecast, perhaps with a template of probabilities, and the coefficients, static fields and mask. *)
Record told (m : option string) (cubes : list ecube) (forecast : ecube) (coefficients fields : list ecube) (mask template : option ecube) : Prop := {
  t_coefficients : coefficients = filter coefficient cubes;
  t_fields : fields = filter (static m) cubes;
  t_mask : match mask with Some c => exists before after, cubes = (before ++ c :: after)%list /\ land_sea m c = true /\ Forall (fun d => land_sea m d = false) after | None => Forall (fun d => land_sea m d = false) cubes end;
  t_dated : match template with
            | Some t => probabilities t = true /\ probabilities forecast = false /\ (filter (dated m) cubes = [forecast; t] \/ filter (dated m) cubes = [t; forecast])
            | None => filter (dated m) cubes = [forecast]
            end }.
(** A text of four digits that reads [h] hours and [mi] minutes. *)
Definition digit_value (c : ascii) : Z := (Z.of_nat (nat_of_ascii c) - 48)%Z.
Definition is_digit (c : ascii) : Prop := (0 <= digit_value c <= 9)%Z.
Definition reads (s : string) (h mi : Z) : Prop :=
  exists a b c d, s = String a (String b (String c (String d ""))) /\ is_digit a /\ is_digit b /\ is_digit c /\ is_digit d /\ (10 * digit_value a + digit_value b = h)%Z /\ (10 * digit_value c + digit_value d = mi)%Z.
(** The forecast may be calibrated as far as its time goes. *)
Definition in_time (times : option (list string)) (f : ecube) : Prop :=
  match times with None => True | Some l => exists t s h mi, e_when f = Some t /\ In s l /\ reads s h mi /\ at_hour t h /\ at_minute t mi end.

Lemma digit_is n : (0 <= n <= 9)%Z -> digit_value (digit n) = n.
Proof.
  intro B. unfold digit_value, digit. rewrite nat_ascii_embedding; [lia|]. assert (Z.to_nat n <= 9)%nat by lia. lia.
Qed.
Lemma ascii_same a b : digit_value a = digit_value b -> a = b.
Proof. unfold digit_value. intro H. assert (E : nat_of_ascii a = nat_of_ascii b) by lia. rewrite <- (ascii_nat_embedding a), <- (ascii_nat_embedding b), E. reflexivity. Qed.
Lemma stamp_reads t s : s = stamp t <-> exists h mi, reads s h mi /\ at_hour t h /\ at_minute t mi.
Proof.
  pose proof (proj1 (hour_spec t _) eq_refl) as Hh. pose proof (proj1 (minute_spec t _) eq_refl) as Hm.
  assert (Bh : (0 <= hour t < 24)%Z) by (unfold hour; apply Z.mod_pos_bound; lia). assert (Bm : (0 <= (t / 60) mod 60 < 60)%Z) by (apply Z.mod_pos_bound; lia).
  set (mi := ((t / 60) mod 60)%Z) in *. assert (D : forall n, (0 <= n < 60)%Z -> (0 <= n / 10 <= 9)%Z /\ (0 <= n mod 10 <= 9)%Z /\ (10 * (n / 10) + n mod 10 = n)%Z).
  { intros n Hn. pose proof (Z.mod_pos_bound n 10 ltac:(lia)). pose proof (Z.div_mod n 10 ltac:(lia)). lia. }
  destruct (D (hour t) ltac:(lia)) as (H1 & H2 & H3), (D mi ltac:(lia)) as (M1 & M2 & M3). split.
  - intros ->. exists (hour t), mi. split; [|auto]. unfold stamp, two_digits. fold mi. cbn [append]. do 4 eexists. split; [reflexivity|]. unfold is_digit. rewrite !digit_is by lia. lia.
  - intros (h & m' & R & A & B). apply (proj2 (hour_spec t h)) in A. apply (proj2 (minute_spec t m')) in B. fold mi in B. subst h m'. destruct R as (a & b & c & d & -> & Ia & Ib & Ic & Id & E1 & E2). unfold is_digit in *.
    unfold stamp, two_digits. fold mi. cbn [append]. repeat f_equal; apply ascii_same; rewrite digit_is by lia; lia.
Qed.
Lemma accepted_iff c l t : e_when c = Some t -> exists b, time_accepted c l = Ok b /\ (b = true <-> in_time (Some l) c).
Proof.
  intro E. unfold time_accepted. rewrite E. eexists. split; [reflexivity|]. rewrite existsb_exists. cbn [in_time]. split.
  - intros (s & I & Q0). apply String.eqb_eq in Q0. symmetry in Q0. apply (proj1 (stamp_reads t s)) in Q0 as (h & mi & R & A & B). exists t, s, h, mi. auto.
  - intros (t' & s & h & mi & E' & I & R & A & B). rewrite E in E'. injection E' as <-. exists s. split; [exact I|]. apply String.eqb_eq. symmetry. apply (proj2 (stamp_reads t s)). eauto.
Qed.
(** C120: the times are compared by hour and minute. *)
Theorem C120_times c l : timed c = true -> exists b, time_accepted c l = Ok b /\ (b = true <-> in_time (Some l) c).
Proof. unfold timed. destruct (e_when c) as [t|] eqn:E; [|discriminate]. intros _. exact (accepted_iff c l t E). Qed.

(** ** The inputs by their places *)
Definition number_one (p : nat * ecube) : icube := {| i_name := e_name (snd p); i_time := match e_when (snd p) with Some _ => true | None => false end; i_id := fst p |}.
Lemma filter_numbered (P : icube -> bool) (P' : ecube -> bool) cubes : (forall n c, P (number_one (n, c)) = P' c) -> map (input_of cubes) (filter P (numbered cubes)) = filter P' cubes.
Proof.
  intro H. unfold numbered. fold number_one. assert (X : forall pre rest all, all = (pre ++ rest)%list -> map (input_of all) (filter P (map number_one (combine (seq (length pre) (length rest)) rest))) = filter P' rest).
  { intros pre rest. revert pre. induction rest as [|c r IH]; intros pre all E; [reflexivity|]. cbn [length seq combine map filter]. rewrite H. specialize (IH (pre ++ [c])%list all ltac:(rewrite <- app_assoc; exact E)). rewrite app_length in IH. cbn [length] in IH. rewrite Nat.add_1_r in IH.
    destruct (P' c); [|exact IH]. cbn [map]. f_equal; [|exact IH]. unfold input_of, number_one. cbn [i_id fst]. rewrite E, app_nth2 by lia. rewrite Nat.sub_diag. reflexivity. }
  exact (X [] cubes cubes eq_refl).
Qed.
Lemma timed_is m n c : timed_input m (number_one (n, c)) = dated m c.
Proof. unfold timed_input, mask_input, coefficient_input, number_one, dated, timed, named, coefficient. cbn [i_name i_time snd fst]. destruct (contains _ _), (match m with Some _ => _ | None => _ end); reflexivity. Qed.
Lemma static_is m n c : static_input m (number_one (n, c)) = static m c.
Proof. unfold static_input, mask_input, coefficient_input, number_one, static, timed, named, coefficient. cbn [i_name i_time snd fst]. destruct (contains _ _), (match m with Some _ => _ | None => _ end); reflexivity. Qed.
Lemma mask_is m n c : mask_input m (number_one (n, c)) = land_sea m c.
Proof. reflexivity. Qed.
Lemma numbered_in cubes i : In i (numbered cubes) -> exists c, In c cubes /\ input_of cubes i = c /\ i = number_one (i_id i, c).
Proof.
  unfold numbered. fold number_one. intro H. apply in_map_iff in H as ([n c] & <- & I). assert (E : nth n cubes nothing = c).
  { assert (X : forall (l : list ecube) s n c, In (n, c) (combine (seq s (length l)) l) -> (s <= n)%nat /\ nth (n - s) l nothing = c). { clear. induction l as [|x l IH]; intros s n c I; [destruct I|]. cbn [length seq combine] in I. destruct I as [I|I]; [injection I as <- <-; rewrite Nat.sub_diag; auto|]. destruct (IH _ _ _ I) as [A B]. split; [lia|]. destruct (n - s)%nat eqn:E; [lia|]. cbn [nth]. replace n0 with (n - Datatypes.S s)%nat by lia. exact B. }
    destruct (X _ _ _ _ I) as [_ B]. rewrite Nat.sub_0_r in B. exact B. }
  exists c. apply in_combine_r in I. split; [exact I|]. split; [exact E|reflexivity].
Qed.
(** The mask: the last of its kind. *)
Lemma last_mask_is m cubes mask : match mask with Some c => exists before after, cubes = (before ++ c :: after)%list /\ land_sea m c = true /\ Forall (fun d => land_sea m d = false) after | None => Forall (fun d => land_sea m d = false) cubes end ->
  option_map (input_of cubes) (last_mask m None (numbered cubes)) = mask.
Proof.
  intro H. assert (G : forall i, In i (numbered cubes) -> mask_input m i = land_sea m (input_of cubes i)). { intros i I. destruct (numbered_in _ _ I) as (c & _ & E & Ei). rewrite E, Ei. apply mask_is. }
  assert (Em : map (input_of cubes) (numbered cubes) = cubes). { pose proof (filter_numbered (fun _ => true) (fun _ => true) cubes (fun _ _ => eq_refl)) as X. assert (F : forall {A} (l : list A), filter (fun _ => true) l = l) by (intros A l; induction l; cbn; congruence). rewrite !F in X. exact X. }
  revert G Em. generalize (numbered cubes) as l. intros l. generalize (input_of cubes) as f. intros f G Em. subst cubes.
  assert (Z : forall s, (exists i, In i l /\ mask_input m i = true) -> last_mask m s l = last_mask m None l).
  { clear. intros s (i & I & M). revert s. induction l as [|x l IH]; intro s; [destruct I|]. unfold last_mask in *. cbn [fold_left]. destruct I as [->|I]; [rewrite M; reflexivity|]. destruct (mask_input m x); [reflexivity|]. rewrite (IH I s). reflexivity. }
  destruct mask as [c|].
  - destruct H as (b & a & E & Mc & Fa). revert E. clear Z. revert b a Fa. induction l as [|x l IH] using rev_ind; intros b a Fa E; [destruct b; discriminate|]. unfold last_mask. rewrite fold_left_app. cbn [fold_left]. rewrite map_app in E. cbn [map] in E. rewrite (G x) by (apply in_or_app; right; now left).
    assert (Hc : (a = [] /\ f x = c) \/ exists a', a = (a' ++ [f x])%list /\ map f l = (b ++ c :: a')%list). { destruct a as [|y a _] using rev_ind. - left. apply app_inj_tail in E as [_ E]. auto. - right. rewrite app_comm_cons, app_assoc in E. apply app_inj_tail in E as [E1 E2]. exists a. rewrite E2. auto. }
    destruct Hc as [[-> <-]|(a' & -> & E')]; [rewrite Mc; reflexivity|]. apply Forall_app in Fa as [Fa Fx]. inversion Fx; subst. rewrite H1. apply (IH (fun i I => G i (in_or_app _ _ _ (or_introl I))) b a' Fa E').
  - assert (X : last_mask m None l = None); [|rewrite X; reflexivity]. assert (Y : forall i, In i l -> mask_input m i = false). { intros i I. rewrite (G i I). rewrite Forall_forall in H. apply H, in_map, I. } clear -Y. unfold last_mask. induction l as [|x l IH]; [reflexivity|]. cbn [fold_left]. rewrite (Y x (or_introl eq_refl)). apply IH. intros i I. apply Y. now right.
Qed.
Lemma split_told m cubes f cs fs mk t : told m cubes f cs fs mk t -> exists r, split_coeffs m (numbered cubes) = Ok r /\ input_of cubes (r_forecast r) = f /\ map (input_of cubes) (r_coeffs r) = cs /\ map (input_of cubes) (r_static r) = fs /\ option_map (input_of cubes) (r_mask r) = mk /\ option_map (input_of cubes) (r_template r) = t.
Proof.
  intros [Tc Tf Tm Td]. pose proof (filter_numbered (timed_input m) (dated m) cubes (timed_is m)) as Fd. pose proof (filter_numbered (static_input m) (static m) cubes (static_is m)) as Fs. pose proof (filter_numbered coefficient_input coefficient cubes (fun _ _ => eq_refl)) as Fc.
  assert (Pn : forall i, In i (filter (timed_input m) (numbered cubes)) -> probability_input i = probabilities (input_of cubes i)). { intros i I. apply filter_In in I as [I _]. destruct (numbered_in _ _ I) as (c & _ & E & Ei). rewrite E, Ei. reflexivity. }
  assert (Nn : forall i, In i (filter (timed_input m) (numbered cubes)) -> i_name i = e_name (input_of cubes i)). { intros i I. apply filter_In in I as [I _]. destruct (numbered_in _ _ I) as (c & _ & E & Ei). rewrite E, Ei. reflexivity. }
  pose proof (last_mask_is m cubes mk Tm) as Mk. unfold split_coeffs. fold start_groups. destruct (split_all_spec m (numbered cubes) start_groups one_each_nil) as [[O E]|[O E]]; cbn [gr_others start_groups app] in O.
  - rewrite E. cbn [bind gr_others gr_coeffs gr_mask gr_static start_groups app] in *. destruct t as [t|].
    + destruct Td as (Pt & Pf & Td). destruct (filter (timed_input m) (numbered cubes)) as [|a [|b [|? ?]]]; try (destruct Td as [Td|Td]; rewrite Td in Fd; discriminate Fd). cbn [map] in Fd. cbn [fold_left fst snd].
      change (contains "probability" (i_name a)) with (probability_input a). change (contains "probability" (i_name b)) with (probability_input b). rewrite (Pn a), (Pn b) by (cbn; auto).
      destruct Td as [Td|Td]; rewrite Td in Fd; injection Fd as E1 E2; rewrite E1, E2, Pt, Pf; cbn [fst snd]; eexists; (split; [reflexivity|]); cbn [r_forecast r_coeffs r_static r_mask r_template option_map]; rewrite Fc, Fs; (split; [auto|]); (split; [auto|]); (split; [auto|]); (split; [exact Mk|]); f_equal; assumption.
    + destruct (filter (timed_input m) (numbered cubes)) as [|a [|b l]]; try (rewrite Td in Fd; discriminate Fd). cbn [map] in Fd. rewrite Td in Fd. injection Fd as Fd. eexists. split; [reflexivity|]. cbn [r_forecast r_coeffs r_static r_mask r_template option_map]. rewrite Fc, Fs, <- Tc, <- Tf. auto.
  - exfalso. apply O. destruct t as [t|].
    + destruct Td as (Pt & Pf & Td). destruct (filter (timed_input m) (numbered cubes)) as [|a [|b [|? ?]]]; try (destruct Td as [Td|Td]; rewrite Td in Fd; discriminate Fd). cbn [map] in Fd.
      assert (D : probability_input a <> probability_input b). { rewrite (Pn a), (Pn b) by (cbn; auto). destruct Td as [Td|Td]; rewrite Td in Fd; injection Fd as -> ->; congruence. }
      split.
      * cbn [map]. constructor; [|constructor; [intros []|constructor]]. intros [X|[]]. apply D. unfold probability_input. rewrite X. reflexivity.
      * intros x y [<-|[<-|[]]] [<-|[<-|[]]] A B; try reflexivity; exfalso; congruence.
    + destruct (filter (timed_input m) (numbered cubes)) as [|a [|b l]]; try (rewrite Td in Fd; discriminate Fd). split; [cbn; constructor; [intros []|constructor]|]. intros x y [<-|[]] [<-|[]]; reflexivity.
Qed.

Section command.
Variables (numba warn : bool) (bounds : string -> result (Q * Q)) (emos : option (list (option Q)) -> emos_input -> result ecube).
Let run := emos_command numba warn bounds emos.
(** ** With calibration *)
(** C120: in time, and with coefficients, the result is that of the calibration of the forecast with exactly these inputs; nothing is added. *)
Theorem C120_calibrated m times percentiles cubes f cs fs mk t : told m cubes f cs fs mk t -> in_time times f -> cs <> [] ->
  run m times percentiles cubes = emos percentiles {| em_forecast := f; em_coefficients := cs; em_fields := fs; em_mask := mk; em_template := t |}.
Proof.
  intros T It Nc. destruct (split_told _ _ _ _ _ _ _ T) as (r & E & Ef & Ec & Es & Em & Et). unfold run, emos_command. rewrite E. cbn [bind]. rewrite Ef, Em, Et, Es.
  assert (A : match times with None => Ok true | Some l => time_accepted f l end = Ok true).
  { destruct times as [l|]; [|reflexivity]. destruct It as (x & It). pose proof It as (s & h & mi & Ew & _). destruct (accepted_iff f l x Ew) as (b & -> & B). f_equal. apply B. exists x. exact It. }
  rewrite A. cbn [bind negb]. destruct (r_coeffs r) as [|c l]; [contradiction (Nc (eq_sym Ec))|]. rewrite Ec. reflexivity.
Qed.
(** ** Without *)
(** The comment that says so, below any comment there was. *)
Definition warned (old new : option string) : Prop :=
  match old with Some s => if (s =? "")%string then new = Some warning else exists nl, nat_of_ascii nl = 10%nat /\ new = Some (s ++ String nl warning)%string | None => new = Some warning end.
(** The same cube but for its comment. *)
Definition only_warned (c d : ecube) : Prop := e_name d = e_name c /\ e_when d = e_when c /\ e_content d = e_content c /\ warned (e_comment c) (e_comment d).
Lemma add_warning c : only_warned c (add_warning_comment c).
Proof. unfold add_warning_comment, only_warned, warned. destruct (e_comment c) as [[|a s]|]; cbn; repeat split. exists newline. split; reflexivity. Qed.
(** Nothing is calibrated: too late or too early, or no coefficients. *)
Lemma uncalibrated m times percentiles cubes f cs fs mk t : told m cubes f cs fs mk t -> ~ in_time times f \/ cs = [] ->
  exists late, (late = true <-> ~ in_time times f) /\ run m times percentiles cubes =
    (let* u := match present percentiles, t with
               | Some l, None => let* p := numbers l in resampled numba warn bounds f p
               | Some l, Some t => if late then let* p := numbers l in resampled numba warn bounds f p else Ok t
               | None, Some t => Ok t
               | None, None => Ok f
               end in Ok (add_warning_comment u)).
Proof.
  intros T U. destruct (split_told _ _ _ _ _ _ _ T) as (r & E & Ef & Ec & Es & Em & Et).
  assert (A : exists b, match times with None => Ok true | Some l => time_accepted f l end = Ok b /\ (b = true <-> in_time times f)).
  { destruct times as [l|]; [|exists true; split; [reflexivity|]; cbn; tauto]. apply C120_times. assert (I : In f (filter (dated m) cubes)). { destruct T as [_ _ _ Td]. destruct t; [destruct Td as (_ & _ & [-> | ->])|rewrite Td]; cbn; auto. } apply filter_In in I as [_ I]. unfold dated in I. destruct (timed f); [reflexivity|]. rewrite andb_false_r in I. discriminate. }
  destruct A as (b & A & B). exists (negb b). split; [destruct b; cbn; intuition discriminate|]. unfold run, emos_command. rewrite E. cbn [bind]. rewrite Ef, Em, Et, Es, A. cbn [bind]. destruct b; cbn [negb].
  - assert (N : r_coeffs r = []). { destruct U as [U| ->]; [exfalso; apply U, B; reflexivity|]. destruct (r_coeffs r); [reflexivity|discriminate]. } rewrite N. destruct (present percentiles), t; reflexivity.
  - destruct (present percentiles), t; reflexivity.
Qed.
(** C120: uncalibrated and with no percentiles asked for, the template, if there is one, otherwise the forecast is given back, with nothing but the comment changed. *)
Theorem C120_uncalibrated m times percentiles cubes f cs fs mk t : told m cubes f cs fs mk t -> ~ in_time times f \/ cs = [] -> percentiles = None \/ percentiles = Some [] ->
  exists out, run m times percentiles cubes = Ok out /\ only_warned (match t with Some t => t | None => f end) out.
Proof.
  intros T U P. destruct (uncalibrated m times percentiles _ _ _ _ _ _ T U) as (late & _ & ->). assert (E : present percentiles = None) by (destruct P as [-> | ->]; reflexivity). rewrite E. destruct t; cbn [bind]; eexists; (split; [reflexivity|apply add_warning]).
Qed.
(** C120: with percentiles asked for and no template, the forecast at exactly these percentiles: the values do not fall, they are within those of the forecast and the bounds, and the forecast's own at its own percentiles. *)
Definition within (lo hi : Q) (rows : list (list Q)) : Prop := Forall (Forall (fun v => lo <= v <= hi)) rows.
Theorem C120_percentiles m times l p cubes f cs fs mk pcts rows lower upper out : told m cubes f cs fs mk None -> ~ in_time times f \/ cs = [] -> l = map Some p -> p <> [] -> e_content f = InPercentiles pcts rows -> pcts <> [] -> bounds (e_name f) = Ok (lower, upper) -> lower <= upper -> Forall qsorted rows -> qsorted p ->
  run m times (Some l) cubes = Ok out ->
  exists rows', e_content out = InPercentiles p rows' /\ e_name out = e_name f /\ warned (e_comment f) (e_comment out) /\ Forall (fun x => 0 <= x <= 100) p /\ Forall qsorted rows' /\ (forall lo hi, within lo hi rows -> lo <= lower -> upper <= hi -> within lo hi rows') /\
    (spaced (0 :: pcts ++ [100]) -> forall i j k, (i < length rows)%nat -> (j < length p)%nat -> (k < length pcts)%nat -> nth j p 0 == nth k pcts 0 -> nth j (nth i rows' []) 0 == nth k (nth i rows []) 0).
Proof.
  intros T U -> Np Ec Npc Eb Hb Sr Sp H. destruct (uncalibrated m times (Some (map Some p)) _ _ _ _ _ _ T U) as (late & _ & E). rewrite E in H. clear E. destruct p as [|p0 p]; [contradiction|].
  assert (En : forall q : list Q, numbers (map Some q) = Ok q). { induction q as [|x q IH]; [reflexivity|]. cbn [map]. unfold numbers in *. cbn [mapM bind]. rewrite IH. reflexivity. }
  cbn [present map] in H. change (Some p0 :: map Some p) with (map Some (p0 :: p)) in H. rewrite En in H. cbn [bind] in H. unfold resampled in H. rewrite Ec in H. destruct (existsb _ (p0 :: p)) eqn:X; [discriminate|]. rewrite Eb in H. cbn [bind] in H.
  destruct (resample numba warn false (lower, upper) pcts rows (Some (p0 :: p)) None Quantile) as [[p' o]|] eqn:R; [|discriminate]. cbn [bind] in H. apply Ok_inj in H. subst out.
  pose proof (resample_desired _ _ _ _ _ _ _ _ _ _ _ _ R) as [-> _]. exists o. destruct (add_warning (with_content f (InPercentiles (p0 :: p) o))) as (W1 & W2 & W3 & W4). split; [exact W3|]. split; [exact W1|]. split; [exact W4|].
  split. { apply Forall_forall. intros x I. assert (Y : ((x <? 0) || (100 <? x))%bool = false). { destruct ((x <? 0) || (100 <? x))%bool eqn:Y; [|reflexivity]. assert (existsb (fun x => (x <? 0) || (100 <? x))%bool (p0 :: p) = true) by (apply existsb_exists; eauto). congruence. } apply orb_false_iff in Y as [Y1 Y2]. destruct (Qltb_spec x 0); [discriminate|]. destruct (Qltb_spec 100 x); [discriminate|]. lra. }
  split; [exact (resample_monotone _ _ _ _ _ _ _ _ _ _ _ _ Hb R Sr Sp)|]. split.
  - intros lo hi W L1 L2. exact (resample_within _ _ _ _ _ _ _ _ _ _ _ _ lo hi Hb R Npc W (fun _ => conj L1 L2)).
  - intros S i j k Hi Hj Hk E. exact (resample_knot _ _ _ _ _ _ _ _ _ _ _ _ i j k Hb R S Hi Hj Hk E).
Qed.
(** C120: a percentile outside 0 to 100, or a text that is no number, is refused; so are percentiles of a forecast that has none (realizations, probabilities): the promise of consistent percentiles, calibrated or not, is broken by an error. *)
Theorem C120_percentiles_refused m times percentiles l cubes f cs fs mk : told m cubes f cs fs mk None -> ~ in_time times f \/ cs = [] -> present percentiles = Some l ->
  (In None l -> run m times percentiles cubes = Err ValueError) /\
  (forall p n, l = map Some p -> e_content f = NoPercentiles n -> run m times percentiles cubes = Err CoordinateNotFoundError) /\
  (forall p pcts rows x, l = map Some p -> e_content f = InPercentiles pcts rows -> In x p -> x < 0 \/ 100 < x -> run m times percentiles cubes = Err ValueError).
Proof.
  intros T U P. destruct (uncalibrated m times percentiles _ _ _ _ _ _ T U) as (late & _ & ->). rewrite P.
  assert (En : forall q : list Q, numbers (map Some q) = Ok q). { induction q as [|x q IH]; [reflexivity|]. cbn [map]. unfold numbers in *. cbn [mapM bind]. rewrite IH. reflexivity. }
  split; [|split].
  - intro I. assert (E : numbers l = Err ValueError); [|rewrite E; reflexivity]. clear -I. induction l as [|x l IH]; [destruct I|]. unfold numbers in *. cbn [mapM]. destruct x as [q|]; [|reflexivity]. cbn [bind]. destruct I as [I|I]; [discriminate|]. rewrite (IH I). reflexivity.
  - intros p n -> E. rewrite En. cbn [bind]. unfold resampled. rewrite E. reflexivity.
  - intros p pcts rows x -> E I X. rewrite En. cbn [bind]. unfold resampled. rewrite E. assert (Y : existsb (fun x => (x <? 0) || (100 <? x))%bool p = true); [|rewrite Y; reflexivity]. apply existsb_exists. exists x. split; [exact I|]. destruct (Qltb_spec x 0); [reflexivity|]. destruct (Qltb_spec 100 x); [reflexivity|]. lra.
Qed.
(** C120: without calibration the order of the inputs does not matter. *)
Theorem C120_order m times percentiles cubes cubes' f cs fs mk t : told m cubes f cs fs mk t -> Permutation cubes cubes' -> ~ in_time times f \/ cs = [] ->
  (forall a b, In a cubes -> In b cubes -> land_sea m a = true -> land_sea m b = true -> a = b) -> run m times percentiles cubes' = run m times percentiles cubes.
Proof.
  intros T P U One. assert (Pf : forall g : ecube -> bool, Permutation (filter g cubes) (filter g cubes')). { intro g. clear -P. induction P; cbn [filter]; [constructor|destruct (g x); auto|destruct (g x), (g y); auto; constructor|eauto using perm_trans]. }
  assert (T' : told m cubes' f (filter coefficient cubes') (filter (static m) cubes') mk t).
  { destruct T as [Tc Tf Tm Td]. split; [reflexivity|reflexivity| |].
    - destruct mk as [c|].
      + destruct Tm as (b & a & E & M & _). assert (I : In c cubes') by (apply (Permutation_in _ P); rewrite E; apply in_or_app; right; now left). assert (One' : forall d, In d cubes' -> land_sea m d = true -> d = c). { intros d Id Md. apply One; [apply (Permutation_in _ (Permutation_sym P)), Id|rewrite E; apply in_or_app; right; now left|exact Md|exact M]. }
        clear -I M One'. induction cubes' as [|x l IH]; [destruct I|]. destruct (existsb (land_sea m) l) eqn:X.
        * apply existsb_exists in X as (d & Id & Md). destruct IH as (b & a & -> & _ & Fa); [rewrite <- (One' d (or_intror Id) Md); exact Id|intros e Ie; apply One'; now right|]. exists (x :: b), a. auto.
        * destruct I as [->|I]; [|assert (existsb (land_sea m) l = true) by (apply existsb_exists; eauto); congruence]. exists [], l. split; [reflexivity|]. split; [exact M|]. apply Forall_forall. intros d Id. destruct (land_sea m d) eqn:Y; [|reflexivity]. assert (existsb (land_sea m) l = true) by (apply existsb_exists; eauto). congruence.
      + rewrite Forall_forall in *. intros x I. apply Tm, (Permutation_in _ (Permutation_sym P)), I.
    - specialize (Pf (dated m)). destruct t as [t|].
      + destruct Td as (A & B & [E|E]); rewrite E in Pf; split; auto; split; auto; apply Permutation_length_2_inv in Pf as [->| ->]; auto.
      + rewrite Td in Pf. apply Permutation_length_1_inv in Pf. exact Pf. }
  assert (U' : ~ in_time times f \/ filter coefficient cubes' = []). { destruct U as [U| ->]; [auto|]. right. destruct T as [Tc _ _ _]. specialize (Pf coefficient). rewrite <- Tc in Pf. apply Permutation_nil in Pf. exact Pf. }
  destruct (uncalibrated m times percentiles _ _ _ _ _ _ T U) as (a & La & ->). destruct (uncalibrated m times percentiles _ _ _ _ _ _ T' U') as (b & Lb & ->). assert (a = b) as ->; [|reflexivity]. destruct a, b; try reflexivity; [symmetry; apply Lb, La; reflexivity|apply La, Lb; reflexivity].
Qed.
End command.

(** A case: percentiles of temperature at 03:00, a template of probabilities, one coefficient, and a static field. *)
Definition at_three : ecube := {| e_name := "air_temperature"; e_when := Some 97200%Z; e_comment := Some "Old"%string; e_content := InPercentiles [25; 50; 75] [[1; 2; 4]] |}.
Definition template_cube : ecube := {| e_name := "probability_of_air_temperature_above_threshold"; e_when := Some 97200%Z; e_comment := None; e_content := NoPercentiles 7 |}.
Definition alpha_cube : ecube := {| e_name := "emos_coefficient_alpha"; e_when := Some 0%Z; e_comment := None; e_content := NoPercentiles 8 |}.
Definition height_cube : ecube := {| e_name := "surface_altitude"; e_when := None; e_comment := None; e_content := NoPercentiles 9 |}.
Definition calibrated_cube : ecube := {| e_name := "calibrated"; e_when := None; e_comment := None; e_content := NoPercentiles 1 |}.
Definition no_emos : option (list (option Q)) -> emos_input -> result ecube := fun _ _ => Ok calibrated_cube.
Definition any_bounds : string -> result (Q * Q) := fun _ => Ok (-100, 100).
Definition kind_of (r : result ecube) : Z := match r with Ok c => match e_content c with InPercentiles p _ => Z.of_nat (List.length p) | NoPercentiles n => - Z.of_nat n end | Err _ => -100 end.
Definition comment_of (r : result ecube) : string := match r with Ok c => match e_comment c with Some s => s | None => "" end | Err _ => "?" end.
Lemma told_case : told None [alpha_cube; at_three; height_cube; template_cube] at_three [alpha_cube] [height_cube] None (Some template_cube).
Proof. split; [reflexivity|reflexivity|repeat constructor|]. split; [reflexivity|]. split; [reflexivity|]. left. reflexivity. Qed.
Lemma late_case : ~ in_time (Some ["0000"%string]) at_three.
Proof. intros (t & s & h & mi & E & [<-|[]] & R & A & B). injection E as <-. apply (proj2 (hour_spec _ _)) in A. destruct R as (a & b & c & d & Es & _ & _ & _ & _ & Eh & _). injection Es as <- <- <- <-. vm_compute in A, Eh. congruence. Qed.
(** C120: what is given back without calibration does not depend on the reason: refuted, with a template and percentiles asked for, the percentiles are given if it is not the time, the template if there are no coefficients. *)
Theorem C120_reason_refuted : ~ (forall numba warn bounds emos times percentiles cubes f cs fs mk t, told None cubes f cs fs mk t -> ~ in_time (Some times) f ->
  emos_command numba warn bounds emos None (Some times) percentiles cubes = emos_command numba warn bounds emos None None percentiles (filter (fun c => negb (coefficient c)) cubes)).
Proof.
  intro H. specialize (H false false any_bounds no_emos ["0000"%string] (Some [Some 50]) _ _ _ _ _ _ told_case late_case). apply (f_equal kind_of) in H. vm_compute in H. discriminate.
Qed.
(** C120: every input with a time is used: refuted, of two forecasts the first is forgotten without a word. *)
Theorem C120_two_forecasts_refuted : ~ (forall numba warn bounds emos m times percentiles a b, dated m a = true -> dated m b = true -> e_name a <> e_name b -> exists e, emos_command numba warn bounds emos m times percentiles [a; b] = Err e).
Proof.
  intro H. destruct (H false false any_bounds no_emos None None None at_three {| e_name := "wind_speed"; e_when := Some 97200%Z; e_comment := None; e_content := NoPercentiles 3 |} eq_refl eq_refl ltac:(discriminate)) as [e E]. apply (f_equal kind_of) in E. vm_compute in E. discriminate.
Qed.
Example C120_case :
  kind_of (emos_command false false any_bounds no_emos None (Some ["0000"; "0300"]%string) (Some [Some 50]) [alpha_cube; at_three; height_cube; template_cube]) = (-1)%Z /\
  kind_of (emos_command false false any_bounds no_emos None (Some ["0000"%string]) (Some [Some 50]) [alpha_cube; at_three; height_cube; template_cube]) = 1%Z /\
  comment_of (emos_command false false any_bounds no_emos None (Some ["0000"%string]) (Some [Some 50]) [alpha_cube; at_three; height_cube; template_cube]) = ("Old" ++ String newline warning)%string /\
  kind_of (emos_command false false any_bounds no_emos None None (Some [Some 50]) [at_three; height_cube; template_cube]) = (-7)%Z /\
  in_time (Some ["0000"; "0300"]%string) at_three /\ ~ in_time (Some ["0000"%string]) at_three /\
  told None [alpha_cube; at_three; height_cube; template_cube] at_three [alpha_cube] [height_cube] None (Some template_cube).
Proof.
  do 4 (split; [vm_compute; reflexivity|]). split; [|split; [exact late_case|exact told_case]].
  exists 97200%Z, "0300"%string, 3%Z, 0%Z. split; [reflexivity|]. split; [right; now left|]. split; [|split; [apply hour_spec|apply minute_spec]; reflexivity].
  exists "0"%char, "3"%char, "0"%char, "0"%char. unfold is_digit. vm_compute. intuition discriminate.
Qed.

Print Assumptions C120_times.
Print Assumptions C120_calibrated.
Print Assumptions C120_uncalibrated.
Print Assumptions C120_percentiles.
Print Assumptions C120_percentiles_refused.
Print Assumptions C120_order.
Print Assumptions C120_reason_refuted.
Print Assumptions C120_two_forecasts_refuted.
