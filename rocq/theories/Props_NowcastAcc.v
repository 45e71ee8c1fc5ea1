(** C122: precipitation totals from a nowcast by the minute (nowcast_accumulate). *)
From Verif Require Import Base Model_Nbhood Model_Nowcast Model_Pysteps Model_NowcastAcc Proofs_Nbhood Props_Pysteps.
From Verif Require Model_Accumulation Proofs_Accumulation.
Local Open Scope Q_scope.

(** [o] is the total, in the units asked for, of rates known at the minutes [from] to [from + count] and straight between them: each minute has 60 seconds at the mean of the rates at its ends; it is missing exactly when a rate is. *)
Definition total_over (rate : nat -> option Q) (mps out : Q) (from count : nat) (o : option Q) : Prop :=
  (forall r, (forall k, (from <= k <= from + count)%nat -> rate k = Some (r k)) ->
     exists v, o = Some v /\ v == out * mps * qsum (map (fun k => 60 * ((r k + r (S k)) / 2)) (seq from count))) /\
  (forall k, (from <= k <= from + count)%nat -> rate k = None -> o = None).

Lemma insert_first {A} (leb : A -> A -> bool) x l : Forall (fun y => leb x y = true) l -> insert leb x l = x :: l.
Proof. destruct l as [|y l]; [reflexivity|]. intro F. inversion F; subst. cbn. rewrite H1. reflexivity. Qed.
Lemma isort_same {A} (leb : A -> A -> bool) l : StronglySorted (fun a b => leb a b = true) l -> isort leb l = l.
Proof. induction 1 as [|a l S IH F]; [reflexivity|]. cbn. rewrite IH. apply insert_first. exact F. Qed.
Lemma ss_map_seq {A} (R : A -> A -> Prop) (g : nat -> A) n : forall i, (forall a b, (i <= a < b)%nat -> (b < i + n)%nat -> R (g a) (g b)) -> StronglySorted R (map g (seq i n)).
Proof.
  induction n as [|n IH]; intros i H; cbn; [constructor|]. constructor.
  - apply IH. intros a b Ha Hb. apply H; lia.
  - apply Forall_forall. intros x Hx. apply in_map_iff in Hx as (b & <- & Hb). apply in_seq in Hb. apply H; lia.
Qed.
Lemma seq_regular d t0 n : forall i, Proofs_Accumulation.regular d (map (fun k => (t0 + Z.of_nat k * d)%Z) (seq i n)).
Proof.
  induction n as [|n IH]; intro i; [exact Logic.I|]. cbn [seq map]. destruct n as [|n]; [exact Logic.I|]. specialize (IH (S i)). cbn [seq map] in *. split; [lia|exact IH].
Qed.
Lemma filter_range {A} (f : nat -> bool) (g : nat -> A) a m n : (a + m <= n)%nat -> (forall k, (k < n)%nat -> f k = (a <=? k)%nat && (k <? a + m)%nat)%bool -> filter f (seq 0 n) = seq a m.
Proof.
  intros L H. replace n with (a + (m + (n - a - m)))%nat in * by lia. rewrite !seq_app, !filter_app. cbn [Nat.add].
  assert (E : forall b i k, (forall j, (i <= j < i + k)%nat -> f j = b) -> filter f (seq i k) = if b then seq i k else []).
  { intros b i k. revert i. induction k as [|k IH]; intros i Hb; [destruct b; reflexivity|]. cbn [seq filter]. rewrite (Hb i) by lia. rewrite IH by (intros; apply Hb; lia). destruct b; reflexivity. }
  rewrite (E false), (E true), (E false).
  - rewrite app_nil_r. reflexivity.
  - intros j Hj. rewrite H by lia. destruct (Nat.leb_spec a j), (Nat.ltb_spec j (a + m)); cbn; try reflexivity; lia.
  - intros j Hj. rewrite H by lia. destruct (Nat.leb_spec a j), (Nat.ltb_spec j (a + m)); cbn; try reflexivity; lia.
  - intros j Hj. rewrite H by lia. destruct (Nat.leb_spec a j), (Nat.ltb_spec j (a + m)); cbn; try reflexivity; lia.
Qed.
Lemma filter_map {A B} (f : B -> bool) (g : A -> B) l : filter f (map g l) = map g (filter (fun a => f (g a)) l).
Proof. induction l as [|a l IH]; [reflexivity|]. cbn. destruct (f (g a)); cbn; rewrite IH; reflexivity. Qed.

Lemma qsum_step a l : qsum (a :: l) == a + qsum l.
Proof. reflexivity. Qed.
Lemma qsum_mul {A} c (f : A -> Q) l : qsum (map (fun a => c * f a) l) == c * qsum (map f l).
Proof. induction l as [|a l IH]; [cbn; ring|]. cbn [map]. rewrite !qsum_step, IH. ring. Qed.
(** ** the loop over the minutes at a point *)
Lemma acc_value g ti y x : forall p a acc r v, (forall k, (a <= k <= a + p)%nat -> f_data (g k) y x = Some (r k)) -> acc y x = Some v ->
  exists w, acc_loop ti (map g (seq a (S p))) acc y x = Some w /\ w == v + qsum (map (fun k => inject_Z ti * ((r k + r (S k)) / 2)) (seq a p)).
Proof.
  induction p as [|p IH]; intros a acc r v H E.
  - exists v. split; [exact E|]. cbn. ring.
  - change (seq a (S (S p))) with (a :: S a :: seq (S (S a)) p). cbn [map]. cbn [acc_loop].
    change (g (S a) :: map g (seq (S (S a)) p)) with (map g (seq (S a) (S p))).
    destruct (IH (S a) (fun y x => oadd (acc y x) (step ti (g a) (g (S a)) y x)) r (v + (r a + r (S a)) * inject_Z ti * (1 # 2))) as (w & W & EW).
    + intros k Hk. apply H. lia.
    + unfold step, oadd. rewrite E, (H a), (H (S a)) by lia. reflexivity.
    + exists w. split; [exact W|]. rewrite EW. cbn [seq map]. rewrite qsum_step. generalize (qsum (map (fun k : nat => inject_Z ti * ((r k + r (S k)) / 2)) (seq (S a) p))). intro s. field.
Qed.
Lemma acc_none g ti y x : forall p a acc, acc y x = None -> acc_loop ti (map g (seq a (S p))) acc y x = None.
Proof.
  induction p as [|p IH]; intros a acc E; [exact E|].
  change (seq a (S (S p))) with (a :: S a :: seq (S (S a)) p). cbn [map]. cbn [acc_loop].
  change (g (S a) :: map g (seq (S (S a)) p)) with (map g (seq (S a) (S p))). apply IH. unfold oadd. rewrite E. reflexivity.
Qed.
Lemma acc_missing g ti y x : forall p a acc k, (1 <= p)%nat -> (a <= k <= a + p)%nat -> f_data (g k) y x = None -> acc_loop ti (map g (seq a (S p))) acc y x = None.
Proof.
  induction p as [|p IH]; intros a acc k P K N; [lia|].
  change (seq a (S (S p))) with (a :: S a :: seq (S (S a)) p). cbn [map]. cbn [acc_loop].
  change (g (S a) :: map g (seq (S (S a)) p)) with (map g (seq (S a) (S p))).
  assert (C : (k = a \/ k = S a)%nat \/ (1 <= p /\ S a <= k <= S a + p)%nat) by lia. destruct C as [C|[P' K']].
  - apply acc_none. unfold step, oadd. destruct C as [->| ->]; rewrite N; [|destruct (f_data (g a) y x)]; destruct (acc y x); reflexivity.
  - apply IH with (k := k); assumption.
Qed.

Lemma zmin_seq (h : nat -> Z) : forall n i x, (forall k, (i <= k < i + n)%nat -> x <= h k)%Z -> Model_Accumulation.zmin_l x (map h (seq i n)) = x.
Proof.
  intros n i x H. apply Proofs_Accumulation.zmin_first. apply Forall_forall. intros z Hz. apply in_map_iff in Hz as (k & <- & Hk). apply in_seq in Hk. apply H. lia.
Qed.
Lemma zmax_seq (h : nat -> Z) : forall n i x, (forall k, (i <= k < i + n)%nat -> x <= h k)%Z -> (forall a b, (a <= b)%nat -> h a <= h b)%Z ->
  Model_Accumulation.zmax_l x (map h (seq i n)) = match n with O => x | S m => h (i + m)%nat end.
Proof.
  unfold Model_Accumulation.zmax_l. induction n as [|n IH]; intros i x H M; [reflexivity|]. cbn [seq map fold_left].
  rewrite Z.max_r by (apply H; lia). rewrite IH; [|intros k Hk; apply M; lia|exact M]. destruct n as [|n]; [f_equal; lia|f_equal; lia].
Qed.

(** ** the accumulation of fields that are a minute apart *)
Section Minutes.
Variables (g : nat -> ncast) (n : nat) (t0 : Z) (mps out : Q).
Hypothesis Ht : forall k, (k < n)%nat -> f_time (g k) = (t0 + Z.of_nat k * 60)%Z.
Hypothesis Hp : forall k, (k < n)%nat -> fp (g k) = (Z.of_nat k * 60)%Z.

Lemma sorted_same : by_time (map (scaled mps) (map g (seq 0 n))) = map (fun k => scaled mps (g k)) (seq 0 n).
Proof using Ht.
  rewrite map_map. apply isort_same. apply ss_map_seq. intros a b A B. cbn [scaled f_time]. rewrite !Ht by lia. apply Z.leb_le. lia.
Qed.
Lemma subset_is a p : (a + p < n)%nat -> subset (Z.of_nat p * 60) (Z.of_nat (a + p) * 60) (map (fun k => scaled mps (g k)) (seq 0 n)) = map (fun k => scaled mps (g k)) (seq a (S p)).
Proof using Hp.
  intro L. unfold subset. rewrite filter_map. f_equal. apply (filter_range (A := nat) _ (fun k => k)); [lia|]. intros k Hk.
  unfold fp. cbn [scaled f_period]. change (match f_period (g k) with Some p0 => p0 | None => 0%Z end) with (fp (g k)). rewrite Hp by exact Hk.
  destruct (Nat.leb_spec a k), (Nat.ltb_spec k (a + S p)), (Z.leb_spec (Z.of_nat (a + p) * 60 - Z.of_nat p * 60) (Z.of_nat k * 60)), (Z.leb_spec (Z.of_nat k * 60) (Z.of_nat (a + p) * 60)); cbn; try reflexivity; lia.
Qed.
Lemma accumulate_one a p : (1 <= p)%nat -> (a + p < n)%nat -> exists t,
  accumulate_at (map (fun k => scaled mps (g k)) (seq 0 n)) 60 (Z.of_nat p * 60) out (Z.of_nat (a + p) * 60) = Ok t /\
  t_fp t = (Z.of_nat a * 60, Z.of_nat (a + p) * 60)%Z /\ t_time t = (t0 + Z.of_nat a * 60, t0 + Z.of_nat (a + p) * 60)%Z /\
  forall y x, total_over (fun k => f_data (g k) y x) mps out a p (t_data t y x).
Proof using Ht Hp.
  intros P L. unfold accumulate_at. rewrite subset_is by exact L. destruct p as [|p]; [lia|]. 
  eexists. split; [cbn [seq map]; reflexivity|]. cbn [t_fp t_time t_data].
  assert (FP : forall k, (k < n)%nat -> fp (scaled mps (g k)) = (Z.of_nat k * 60)%Z) by (intros k Hk; unfold fp; cbn [scaled f_period]; apply Hp; exact Hk).
  assert (FT : forall k, (k < n)%nat -> f_time (scaled mps (g k)) = (t0 + Z.of_nat k * 60)%Z) by (intros k Hk; cbn [scaled f_time]; apply Ht; exact Hk).
  change (scaled mps (g (S a)) :: map (fun k => scaled mps (g k)) (seq (S (S a)) p)) with (map (fun k => scaled mps (g k)) (seq (S a) (S p))).
  rewrite !map_map.
  change (fp (scaled mps (g (S a))) :: map (fun k => fp (scaled mps (g k))) (seq (S (S a)) p)) with (map (fun k => fp (scaled mps (g k))) (seq (S a) (S p))).
  change (f_time (scaled mps (g (S a))) :: map (fun k => f_time (scaled mps (g k))) (seq (S (S a)) p)) with (map (fun k => f_time (scaled mps (g k))) (seq (S a) (S p))).
  rewrite (map_ext_in (fun k => fp (scaled mps (g k))) (fun k => (Z.of_nat k * 60)%Z)) by (intros k Hk; apply in_seq in Hk; apply FP; lia).
  rewrite (map_ext_in (fun k => f_time (scaled mps (g k))) (fun k => (t0 + Z.of_nat k * 60)%Z)) by (intros k Hk; apply in_seq in Hk; apply FT; lia).
  rewrite FP, FT by lia.
  rewrite !zmin_seq by (intros; lia). rewrite !zmax_seq by (intros; lia).
  split; [f_equal; f_equal; lia|]. split; [f_equal; f_equal; lia|]. intros y x.
  change (scaled mps (g a) :: map (fun k => scaled mps (g k)) (seq (S a) (S p))) with (map (fun k => scaled mps (g k)) (seq a (S (S p)))). split.
  - intros r R. destruct (acc_value (fun k => scaled mps (g k)) 60 y x (S p) a (fun _ _ => Some 0) (fun k => r k * mps) 0) as (w & W & E).
    + intros k Hk. cbn [scaled f_data]. rewrite R by exact Hk. reflexivity.
    + reflexivity.
    + rewrite W. cbn [option_map]. eexists. split; [reflexivity|]. rewrite E, Qplus_0_l, <- Qmult_assoc, <- qsum_mul, (Qmult_comm out). apply Qmult_comp; [|reflexivity].
      apply qsum_map_ext. intros k _. change (inject_Z 60) with 60. field.
  - intros k Hk N. rewrite (acc_missing _ 60 y x (S p) a _ k); [reflexivity|lia|exact Hk|]. cbn [scaled f_data]. rewrite N. reflexivity.
Qed.
End Minutes.

(** ** the command *)
Definition whole_periods (interval max period : Z) (Ls : list Z) : Prop :=
  StronglySorted Z.lt Ls /\ forall L, In L Ls <-> (interval | L)%Z /\ (period <= L <= max)%Z.
Lemma ends_whole interval max period : (0 < interval)%Z -> (0 < period)%Z -> exists l, ends interval max = Ok l /\ whole_periods interval max period (filter (fun L => (period <=? L)%Z) l).
Proof.
  intros I0 P0. unfold ends. destruct (Z.eqb_spec interval 0); [lia|]. eexists. split; [reflexivity|].
  assert (SS : forall n, StronglySorted Z.lt (map (fun i => (interval + Z.of_nat i * interval)%Z) (seq 0 n))) by (intro n0; apply ss_map_seq; intros; nia).
  split.
  - set (l := map _ _). assert (S1 : StronglySorted Z.lt l) by apply SS. clearbody l. induction S1 as [|a l S1 IH F]; [constructor|]. cbn. destruct (period <=? a)%Z; [|exact IH].
    constructor; [exact IH|]. apply Forall_forall. intros x Hx. apply filter_In in Hx as [Hx _]. rewrite Forall_forall in F. apply F, Hx.
  - intro L. rewrite filter_In, in_map_iff, Z.leb_le. set (N := (- (- (max + 1 - interval) / interval))%Z).
    assert (HN : (interval * (N - 1) < max + 1 - interval <= interval * N)%Z).
    { unfold N. pose proof (Z_div_mod_eq_full (- (max + 1 - interval)) interval). pose proof (Z.mod_pos_bound (- (max + 1 - interval)) interval I0). nia. }
    clearbody N. split.
    + intros [(i & <- & Hi) HL]. apply in_seq in Hi. split; [exists (Z.of_nat i + 1)%Z; ring|]. split; [exact HL|]. nia.
    + intros [(k & ->) [H1 H2]]. split; [|exact H1]. exists (Z.to_nat (k - 1)). assert (1 <= k)%Z by nia. split; [rewrite Z2Nat.id by lia; ring|]. apply in_seq. nia.
Qed.
Lemma Forall2_map_l {A B C} (f : A -> B) (R : B -> C -> Prop) l m : Forall2 (fun a c => R (f a) c) l m -> Forall2 R (map f l) m.
Proof. induction 1; cbn; constructor; assumption. Qed.
Lemma mapM_total {A B} (f : A -> result B) (R : A -> B -> Prop) l : (forall a, In a l -> exists b, f a = Ok b /\ R a b) -> exists out, mapM f l = Ok out /\ Forall2 R l out.
Proof.
  induction l as [|a l IH]; intro H; [exists []; split; [reflexivity|constructor]|].
  destruct (H a (or_introl eq_refl)) as (b & E & Rb). destruct IH as (out & M & F); [intros a' Ha'; apply H; right; exact Ha'|].
  exists (b :: out). cbn [mapM]. rewrite E. cbn [bind]. rewrite M. split; [reflexivity|constructor; assumption].
Qed.
Lemma rates_are e max name mmh thr spacing u v oe c rates : gives_all e -> (0 <= max)%Z -> (f_period c = None \/ f_period c = Some 0%Z) ->
  process e 1 max name true mmh thr spacing u v (Some oe) c = Ok rates ->
  length rates = S (Z.to_nat max) /\ forall k, (k < S (Z.to_nat max))%nat -> f_time (nth k rates c) = (f_time c + Z.of_nat k * 60)%Z /\ fp (nth k rates c) = (Z.of_nat k * 60)%Z.
Proof.
  intros G M P H. destruct (C114_fields e 1 max name mmh thr spacing u v oe c rates G eq_refl M H) as (L & e0 & _ & F). cbv zeta in F. rewrite Z.div_1_r in *. split; [exact L|].
  intros k Hk. assert (E : nth_error rates k = Some (nth k rates c)) by (apply nth_error_nth'; lia).
  pose proof (periods e 1 max name mmh thr spacing u v oe c rates G eq_refl M H _ _ E) as PP.
  match type of F with forall k g f, nth_error ?fs k = _ -> _ => set (l := fs) in F end.
  assert (LL : length l = S (Z.to_nat max)) by (unfold l; cbn [length]; rewrite G by exact M; reflexivity).
  assert (X : exists gg, nth_error l k = Some gg) by (destruct (nth_error l k) eqn:X; [eauto|apply nth_error_None in X; lia]).
  destruct X as (gg & X). destruct (F k gg _ X E) as (T & _). split; [rewrite T; lia|]. unfold fp. rewrite PP. destruct k as [|k]; [|lia]. destruct P as [-> | ->]; reflexivity.
Qed.
Lemma list_seq {A} (d : A) l : l = map (fun k => nth k l d) (seq 0 (length l)).
Proof. apply nth_ext with (d := d) (d' := d); [rewrite map_length, seq_length; reflexivity|]. intros k Hk. rewrite (nth_map_seq (fun k => nth k l d)) by exact Hk. reflexivity. Qed.
Lemma accumulate_all e interval max period name mmh thr spacing mps out u v oe c rates : gives_all e -> (0 < interval)%Z -> (0 < period)%Z -> (1 <= max)%Z -> (f_period c = None \/ f_period c = Some 0%Z) ->
  process e 1 max name true mmh thr spacing u v (Some oe) c = Ok rates ->
  exists Ls outs, whole_periods interval max period Ls /\
  command e interval max period name true mmh thr spacing mps out u v (Some oe) c = merged outs /\
  Forall2 (fun L t => t_fp t = ((L - period) * 60, L * 60)%Z /\ t_time t = (f_time c + (L - period) * 60, f_time c + L * 60)%Z /\
     forall y x, total_over (fun k => f_data (nth k rates c) y x) mps out (Z.to_nat (L - period)) (Z.to_nat period) (t_data t y x)) Ls outs.
Proof.
  intros G I0 P0 M FP H. destruct (rates_are e max name mmh thr spacing u v oe c rates G (Z.le_trans 0 1 max (Z.lt_le_incl 0 1 eq_refl) M) FP H) as [LEN RT].
  destruct (ends_whole interval max period I0 P0) as (l & El & W). exists (filter (fun L => (period <=? L)%Z) l).
  set (g := fun k => nth k rates c). set (n := S (Z.to_nat max)) in *.
  assert (RR : rates = map g (seq 0 n)) by (rewrite <- LEN; apply list_seq).
  assert (Ht : forall k, (k < n)%nat -> f_time (g k) = (f_time c + Z.of_nat k * 60)%Z) by (intros k Hk; apply RT; exact Hk).
  assert (Hp : forall k, (k < n)%nat -> fp (g k) = (Z.of_nat k * 60)%Z) by (intros k Hk; apply RT; exact Hk).
  assert (RES : exists outs, accumulate (period * 60) (map (fun m => m * 60)%Z l) mps out rates = Ok outs /\
    Forall2 (fun L t => t_fp t = ((L - period) * 60, L * 60)%Z /\ t_time t = (f_time c + (L - period) * 60, f_time c + L * 60)%Z /\
     forall y x, total_over (fun k => f_data (g k) y x) mps out (Z.to_nat (L - period)) (Z.to_nat period) (t_data t y x)) (filter (fun L => (period <=? L)%Z) l) outs).
  { unfold accumulate. cbv zeta. rewrite RR, (sorted_same g n (f_time c) mps Ht).
    assert (TI : Model_Accumulation.unique_interval (map f_time (map (fun k => scaled mps (g k)) (seq 0 n))) = Ok 60%Z).
    { apply Proofs_Accumulation.unique_iff. rewrite map_map. cbn [scaled f_time]. split; [rewrite map_length, seq_length; lia|].
      rewrite (map_ext_in _ (fun k => (f_time c + Z.of_nat k * 60)%Z)) by (intros k Hk; apply in_seq in Hk; apply Ht; lia). apply seq_regular. }
    rewrite TI. cbn [bind]. assert (CP : Model_Accumulation.check_period (period * 60) 60 = Ok tt).
    { unfold Model_Accumulation.check_period. cbn [Z.eqb]. rewrite Z.quot_mul, Z.rem_mul by lia. destruct (Z.eqb_spec period 0); [lia|]. reflexivity. }
    rewrite CP. cbn [bind]. rewrite filter_map. rewrite (filter_ext _ (fun L => (period <=? L)%Z)) by (intro a; destruct (Z.leb_spec (period * 60) (a * 60)), (Z.leb_spec period a); try reflexivity; lia).
    destruct W as [_ W].
    destruct (mapM_total (fun L => accumulate_at (map (fun k => scaled mps (g k)) (seq 0 n)) 60 (period * 60) out (L * 60)) (fun L t => t_fp t = ((L - period) * 60, L * 60)%Z /\ t_time t = (f_time c + (L - period) * 60, f_time c + L * 60)%Z /\
     forall y x, total_over (fun k => f_data (g k) y x) mps out (Z.to_nat (L - period)) (Z.to_nat period) (t_data t y x)) (filter (fun L => (period <=? L)%Z) l)) as (outs & MM & FF).
    - intros L HL. apply W in HL as [_ [H1 H2]].
      destruct (accumulate_one g n (f_time c) mps out Ht Hp (Z.to_nat (L - period)) (Z.to_nat period)) as (t & T & T1 & T2 & T3); [lia|unfold n; lia|].
      exists t. replace (Z.of_nat (Z.to_nat (L - period) + Z.to_nat period)) with L in * by lia. replace (Z.of_nat (Z.to_nat period)) with period in * by lia. replace (Z.of_nat (Z.to_nat (L - period))) with (L - period)%Z in * by lia.
      split; [exact T|]. split; [exact T1|]. split; [exact T2|exact T3].
    - exists outs. split; [|exact FF]. rewrite <- MM. clear. generalize (filter (fun L : Z => (period <=? L)%Z) l). intro fl. induction fl as [|a fl IH]; [reflexivity|]. cbn [map mapM]. rewrite IH. reflexivity. }
  destruct RES as (outs & A & F). exists outs. split; [exact W|]. split; [|exact F]. unfold command. rewrite H. cbn [bind]. rewrite El. cbn [bind]. rewrite A. reflexivity.
Qed.

(** C122: there is one total for each multiple of the interval that is not shorter than the period and not beyond the maximum, in order, over the period that ends there; it is the sum, minute by minute, of 60 seconds at the mean of the rates forecast for its two ends (C114), in the units asked for, and it is missing exactly where one of them is. *)
Theorem C122_totals e interval max period name mmh thr spacing mps out u v oe c outs : gives_all e -> (0 < interval)%Z -> (0 < period)%Z -> (1 <= max)%Z -> (f_period c = None \/ f_period c = Some 0%Z) ->
  command e interval max period name true mmh thr spacing mps out u v (Some oe) c = Ok outs ->
  exists rates Ls, process e 1 max name true mmh thr spacing u v (Some oe) c = Ok rates /\ length rates = S (Z.to_nat max) /\
  whole_periods interval max period Ls /\
  Forall2 (fun L t => t_fp t = ((L - period) * 60, L * 60)%Z /\ t_time t = (f_time c + (L - period) * 60, f_time c + L * 60)%Z /\
     forall y x, total_over (fun k => f_data (nth k rates c) y x) mps out (Z.to_nat (L - period)) (Z.to_nat period) (t_data t y x)) Ls outs.
Proof.
  intros G I0 P0 M FP H. destruct (process e 1 max name true mmh thr spacing u v (Some oe) c) as [rates|er] eqn:R; [|unfold command in H; rewrite R in H; discriminate].
  destruct (accumulate_all e interval max period name mmh thr spacing mps out u v oe c rates G I0 P0 M FP R) as (Ls & outs' & W & C & F). rewrite C in H.
  assert (E : outs' = outs) by (destruct outs'; [discriminate|apply Ok_inj in H; exact H]). subst outs'.
  exists rates, Ls. split; [reflexivity|]. split; [apply (rates_are e max name mmh thr spacing u v oe c rates G (Z.le_trans 0 1 max (Z.lt_le_incl 0 1 eq_refl) M) FP R)|]. split; [exact W|exact F].
Qed.

(** C122: it is refused when the rates cannot be forecast or no whole period ends at a multiple of the interval; otherwise there is a result. *)
Theorem C122_result e interval max period name mmh thr spacing mps out u v oe c : gives_all e -> (0 < interval)%Z -> (0 < period)%Z -> (1 <= max)%Z -> (f_period c = None \/ f_period c = Some 0%Z) ->
  (exists outs, command e interval max period name true mmh thr spacing mps out u v (Some oe) c = Ok outs) <->
  (exists rates, process e 1 max name true mmh thr spacing u v (Some oe) c = Ok rates) /\ exists L, (interval | L)%Z /\ (period <= L <= max)%Z.
Proof.
  intros G I0 P0 M FP. split.
  - intros (outs & H). pose proof H as H0. unfold command in H0. destruct (process e 1 max name true mmh thr spacing u v (Some oe) c) as [rates|er] eqn:R; [|discriminate]. split; [eauto|].
    destruct (accumulate_all e interval max period name mmh thr spacing mps out u v oe c rates G I0 P0 M FP R) as (Ls & outs' & [_ W] & C & F). rewrite C in H.
    destruct F as [|L t Ls' outs' _ _]; [discriminate|]. exists L. apply W. now left.
  - intros [(rates & R) (L & HL)]. destruct (accumulate_all e interval max period name mmh thr spacing mps out u v oe c rates G I0 P0 M FP R) as (Ls & outs' & [_ W] & C & F). rewrite C.
    apply W in HL. destruct F as [|? ? ? ? _ _]; [destruct HL|]. eexists. reflexivity.
Qed.
Theorem C122_period_zero e interval max name mmh thr spacing mps out u v oe c : gives_all e -> (0 < interval)%Z -> (0 <= max)%Z ->
  exists er, command e interval max 0 name true mmh thr spacing mps out u v oe c = Err er.
Proof.
  intros G I0 M. unfold command. destruct (process e 1 max name true mmh thr spacing u v oe c); [|eexists; reflexivity]. cbn [bind]. destruct (ends interval max) as [l|]; [|eexists; reflexivity]. cbn [bind].
  unfold accumulate. destruct (Model_Accumulation.unique_interval _) as [ti|]; [|eexists; reflexivity]. cbn [bind]. unfold Model_Accumulation.check_period. cbn [Z.mul Z.eqb].
  destruct (ti =? 0)%Z eqn:E; [eexists; reflexivity|]. rewrite Z.quot_0_l by (apply Z.eqb_neq; exact E). cbn. eexists; reflexivity.
Qed.

(** ** totals add up and lie within the rates *)
Lemma ss_unique : forall l m, StronglySorted Z.lt l -> StronglySorted Z.lt m -> (forall x, In x l <-> In x m) -> l = m.
Proof.
  intros l m S1. revert m. induction S1 as [|a l S1 IH F]; intros [|b m] S2 E; [reflexivity|exfalso; apply (proj2 (E b)); now left|exfalso; apply (proj1 (E a)); now left|].
  apply StronglySorted_inv in S2 as [S2 F2]. rewrite Forall_forall in F, F2.
  assert (AB : a = b).
  { destruct (proj1 (E a) (or_introl eq_refl)) as [X|X]; [congruence|]. destruct (proj2 (E b) (or_introl eq_refl)) as [Y|Y]; [congruence|]. specialize (F _ Y). specialize (F2 _ X). lia. }
  subst b. f_equal. apply IH; [exact S2|]. intro x. split; intro H.
  - destruct (proj1 (E x) (or_intror H)) as [X|X]; [|exact X]. subst x. specialize (F _ H). lia.
  - destruct (proj2 (E x) (or_intror H)) as [X|X]; [|exact X]. subst x. specialize (F2 _ H). lia.
Qed.
Lemma whole_is interval q Ls : (0 < interval)%Z -> whole_periods interval (Z.of_nat q * interval) interval Ls -> Ls = map (fun k => ((Z.of_nat k + 1) * interval)%Z) (seq 0 q).
Proof.
  intros I0 [S W]. apply ss_unique; [exact S|apply ss_map_seq; intros; nia|]. intro x. rewrite W, in_map_iff. split.
  - intros [(k & ->) H]. exists (Z.to_nat (k - 1)). assert (1 <= k)%Z by nia. split; [rewrite Z2Nat.id by lia; ring|]. apply in_seq. nia.
  - intros (k & <- & Hk). apply in_seq in Hk. split; [eexists; reflexivity|]. nia.
Qed.
Lemma qsum_chunks (f : nat -> Q) p : forall q a, qsum (map (fun j => qsum (map f (seq (j * p) p))) (seq a q)) == qsum (map f (seq (a * p) (q * p))).
Proof.
  induction q as [|q IH]; intro a; [reflexivity|]. cbn [seq map]. rewrite qsum_step, IH. cbn [Nat.mul]. rewrite seq_app, map_app, qsum_app. replace (a * p + p)%nat with (S a * p)%nat by (cbn [Nat.mul]; lia). reflexivity.
Qed.
Lemma forall2_seq {B} (R : nat -> B -> Prop) (h : nat -> Z) (R' : Z -> B -> Prop) : forall n a l, Forall2 R' (map h (seq a n)) l -> (forall k b, (a <= k < a + n)%nat -> R' (h k) b -> R k b) -> Forall2 R (seq a n) l.
Proof.
  induction n as [|n IH]; intros a l F H; inversion F; subst; constructor; [apply H; [lia|assumption]|]. apply IH; [assumption|]. intros k b Hk. apply H. lia.
Qed.

(** C122: the totals of consecutive periods add up to the total of them all: at every point that has the one it has the others, and their sum is it. *)
Theorem C122_adds_up e interval q name mmh thr spacing mps out u v oe c outs whole : gives_all e -> (0 < interval)%Z -> (1 <= q)%nat -> (f_period c = None \/ f_period c = Some 0%Z) ->
  let max := (Z.of_nat q * interval)%Z in
  command e interval max interval name true mmh thr spacing mps out u v (Some oe) c = Ok outs ->
  command e max max max name true mmh thr spacing mps out u v (Some oe) c = Ok whole ->
  exists w, whole = [w] /\ length outs = q /\ forall y x,
    (forall s, t_data w y x = Some s -> exists vs, Forall2 (fun t p => t_data t y x = Some p) outs vs /\ s == qsum vs) /\
    (t_data w y x = None -> exists t, In t outs /\ t_data t y x = None).
Proof.
  intros G I0 Q1 FP max HA HB. assert (M1 : (1 <= max)%Z) by (unfold max; nia).
  destruct (C122_totals _ _ _ _ _ _ _ _ _ _ _ _ _ _ _ G I0 I0 M1 FP HA) as (rates & LA & RA & _ & WA & FA).
  assert (M0 : (0 < max)%Z) by lia.
  destruct (C122_totals _ _ _ _ _ _ _ _ _ _ _ _ _ _ _ G M0 M0 M1 FP HB) as (rates' & LB & RB & _ & WB & FB).
  rewrite RA in RB. apply Ok_inj in RB. subst rates'.
  apply (whole_is _ _ _ I0) in WA. subst LA.
  assert (LB1 : LB = [max]).
  { apply ss_unique; [apply WB|repeat constructor|]. intro x. rewrite (proj2 WB). cbn [In]. split; [intros [_ ?]; left; lia|]. intros [<-|[]]. split; [apply Z.divide_refl|lia]. }
  subst LB. inversion FB as [|? w ? ? [_ [_ TW]] FN]; subst. inversion FN; subst. clear FB FN. exists w. split; [reflexivity|].
  split; [apply Forall2_len in FA; rewrite map_length, seq_length in FA; congruence|]. intros y x.
  set (i := Z.to_nat interval). replace (Z.to_nat max) with (q * i)%nat in TW by (unfold max, i; nia). replace (Z.to_nat (max - max)) with 0%nat in TW by lia.
  set (rate := fun k => f_data (nth k rates c) y x). specialize (TW y x). fold rate in TW.
  assert (FA' : Forall2 (fun k t => total_over rate mps out (k * i) i (t_data t y x)) (seq 0 q) outs).
  { refine (forall2_seq _ _ _ _ _ _ FA _). intros k t _ [_ [_ T]]. specialize (T y x). fold rate in T. replace (Z.to_nat ((Z.of_nat k + 1) * interval - interval)) with (k * i)%nat in T by (unfold i; nia). exact T. }
  clear FA HA HB RA. assert (DEC : (exists k, (0 <= k <= 0 + q * i)%nat /\ rate k = None) \/ exists r, forall k, (0 <= k <= 0 + q * i)%nat -> rate k = Some (r k)).
  { clear. generalize (q * i)%nat. intro n. induction n as [|n [(k & Hk & N)|(r & Hr)]].
    - destruct (rate 0%nat) as [r0|] eqn:E; [right; exists (fun _ => r0); intros k Hk; replace k with 0%nat by lia; exact E|left; exists 0%nat; split; [lia|exact E]].
    - left. exists k. split; [lia|exact N].
    - destruct (rate (S n)) as [r1|] eqn:E; [|left; exists (S n); split; [lia|exact E]]. right. exists (fun k => if (k =? S n)%nat then r1 else r k). intros k Hk. destruct (Nat.eqb_spec k (S n)); [subst; exact E|apply Hr; lia]. }
  destruct DEC as [(k & Hk & N)|(r & Hr)].
  - destruct TW as [_ TW]. rewrite (TW k Hk N). split; [discriminate|]. intros _.
    set (j := if (k =? 0)%nat then 0%nat else ((k - 1) / i)%nat). assert (I1 : (1 <= i)%nat) by (unfold i; lia).
    assert (Hj : (j < q /\ j * i <= k <= j * i + i)%nat).
    { unfold j. destruct (Nat.eqb_spec k 0); [subst; nia|]. pose proof (Nat.div_mod (k - 1) i ltac:(lia)). pose proof (Nat.mod_upper_bound (k - 1) i ltac:(lia)). split; [|nia]. apply Nat.div_lt_upper_bound; nia. }
    destruct Hj as [J1 J2]. clearbody j. assert (X : forall a n l, Forall2 (fun k t => total_over rate mps out (k * i) i (t_data t y x)) (seq a n) l -> (a <= j < a + n)%nat -> exists t, In t l /\ t_data t y x = None).
    { clear - N J2. intros a n. revert a. induction n as [|n IH]; intros a l F H; [lia|]. cbn [seq] in F. inversion F as [|? t ? ? T F']; subst. destruct (Nat.eq_dec a j) as [->|D].
      - exists t. split; [now left|]. destruct T as [_ T]. apply (T k J2 N).
      - destruct (IH (S a) _ F' ltac:(lia)) as (t' & I' & E'). exists t'. split; [now right|exact E']. }
    apply (X 0%nat q outs FA'). lia.
  - destruct TW as [TW _]. destruct (TW r Hr) as (s & Es & Vs). rewrite Es. split; [|discriminate]. intros s' E. injection E as <-.
    pose proof (qsum_chunks (fun k => 60 * ((r k + r (S k)) / 2)) i q 0) as CH. cbn [Nat.mul] in CH. setoid_rewrite Vs. setoid_rewrite <- CH.
    assert (X : forall n a l, (a + n <= q)%nat -> Forall2 (fun k t => total_over rate mps out (k * i) i (t_data t y x)) (seq a n) l ->
      exists vs, Forall2 (fun t p => t_data t y x = Some p) l vs /\ out * mps * qsum (map (fun j => qsum (map (fun k => 60 * ((r k + r (S k)) / 2)) (seq (j * i) i))) (seq a n)) == qsum vs).
    { clear - Hr. induction n as [|n IH]; intros a l L F; inversion F as [|? t ? l' T F']; subst; [exists []; split; [constructor|cbn; ring]|].
      destruct (IH (S a) l' ltac:(lia) F') as (vs & FV & EV). destruct T as [T _]. destruct (T r) as (p & Ep & Vp); [intros k Hk; apply Hr; nia|].
      exists (p :: vs). split; [constructor; assumption|]. cbn [seq map]. rewrite !qsum_step, Vp, <- EV. ring. }
    apply (X q 0%nat outs); [lia|exact FA'].
Qed.

(** C122: a total lies between the period times the least and the period times the greatest of its rates. *)
Theorem C122_bounded rate mps out from count o lo hi v : 0 <= mps -> 0 <= out -> total_over rate mps out from count o -> o = Some v ->
  (forall k, (from <= k <= from + count)%nat -> exists r, rate k = Some r /\ lo <= r <= hi) ->
  out * mps * (60 * inject_Z (Z.of_nat count) * lo) <= v <= out * mps * (60 * inject_Z (Z.of_nat count) * hi).
Proof.
  intros M0 O0 [T _] E H. set (r := fun k => match rate k with Some q => q | None => 0 end).
  destruct (T r) as (w & Ew & Vw); [intros k Hk; destruct (H k Hk) as (q & Eq & _); unfold r; rewrite Eq; reflexivity|]. rewrite E in Ew. injection Ew as <-. rewrite Vw.
  assert (B : forall k, (from <= k <= from + count)%nat -> lo <= r k <= hi) by (intros k Hk; destruct (H k Hk) as (q & Eq & Bq); unfold r; rewrite Eq; exact Bq).
  clear - M0 O0 B. assert (X : forall n a, (from <= a)%nat -> (a + n <= from + count)%nat -> 60 * inject_Z (Z.of_nat n) * lo <= qsum (map (fun k => 60 * ((r k + r (S k)) / 2)) (seq a n)) <= 60 * inject_Z (Z.of_nat n) * hi).
  { induction n as [|n IH]; intros a A1 A2; [change (inject_Z (Z.of_nat 0)) with 0; change (qsum _) with 0; split; apply Qle_lteq; right; ring|]. cbn [seq map]. rewrite qsum_step. specialize (IH (S a) ltac:(lia) ltac:(lia)).
    pose proof (B a ltac:(lia)). pose proof (B (S a) ltac:(lia)). rewrite Nat2Z.inj_succ, <- Z.add_1_r, inject_Z_plus. change (inject_Z 1) with 1.
    set (s := qsum _) in *. clearbody s. set (N := inject_Z (Z.of_nat n)) in *. clearbody N. unfold Qdiv. change (/ 2) with (1 # 2).
    assert (E : forall b, 60 * (N + 1) * b == 60 * N * b + 60 * b) by (intro b; ring). rewrite !E. lra. }
  specialize (X count from (le_n _) (le_n _)). assert (K : 0 <= out * mps) by (apply Qmult_le_0_compat; assumption).
  rewrite !(Qmult_comm (out * mps)). split; apply Qmult_le_compat_r; try exact K; apply X.
Qed.

(** C122: fewer than two fields within a period are refused: there is nothing between them to add up. *)
Theorem C122_one_field l ti period out L : (length (filter (fun c => ((L - period <=? fp c) && (fp c <=? L))%Z%bool) l) <= 1)%nat -> exists er, accumulate_at l ti period out L = Err er.
Proof. intro H. unfold accumulate_at, subset. destruct (filter _ l) as [|a [|b r]]; [eexists; reflexivity|eexists; reflexivity|cbn in H; lia]. Qed.

(** An input that is itself a forecast (its forecast period is not 0): the analysis keeps that period, the fields after it are counted from 0 (C114), so it falls into a later window. *)
Definition steady (p : option Z) : ncast := {| f_data := fun _ _ => Some 1; f_time := 0%Z; f_frt := Some (match p with Some p => (- p)%Z | None => 0%Z end); f_period := p |}.
Definition no_oe : list (Z * grid Q) := [(0%Z, fun _ _ => 0); (3600%Z, fun _ _ => 0)].
Definition shown (r : result (list total)) := match r with Ok l => map (fun t => (t_fp t, t_time t, option_map Qred (t_data t 0%Z 0%Z))) l | Err _ => [] end.
Theorem C122_forecast_input_refuted :
  shown (command quiet 15 30 15 "rainfall_rate" true 1 (1 # 32) 2000 1 1 (fun _ _ => Some 0) (fun _ _ => Some 0) (Some no_oe) (steady (Some 900%Z))) =
    [((60, 900)%Z, (0, 900)%Z, Some 900); ((900, 1800)%Z, (0, 1800)%Z, Some 960)].
Proof. vm_compute. reflexivity. Qed.

(** Cases. *)
Example C122_case :
  shown (command quiet 15 40 15 "rainfall_rate" true 1 (1 # 32) 2000 (1 # 2) 1000 (fun _ _ => Some 0) (fun _ _ => Some 0) (Some no_oe) (steady (Some 0%Z))) =
    [((0, 900)%Z, (0, 900)%Z, Some 450000); ((900, 1800)%Z, (900, 1800)%Z, Some 450000)] /\
  shown (command quiet 15 40 30 "rainfall_rate" true 1 (1 # 32) 2000 (1 # 2) 1000 (fun _ _ => Some 0) (fun _ _ => Some 0) (Some no_oe) (steady None)) =
    [((0, 1800)%Z, (0, 1800)%Z, Some 900000)] /\
  command quiet 15 40 60 "rainfall_rate" true 1 (1 # 32) 2000 (1 # 2) 1000 (fun _ _ => Some 0) (fun _ _ => Some 0) (Some no_oe) (steady None) = Err IndexError.
Proof. repeat split; vm_compute; reflexivity. Qed.

Print Assumptions C122_totals.
Print Assumptions C122_result.
Print Assumptions C122_period_zero.
Print Assumptions C122_adds_up.
Print Assumptions C122_bounded.
Print Assumptions C122_one_field.
Print Assumptions C122_forecast_input_refuted.
