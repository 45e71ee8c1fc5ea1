(** C125: blending over cycles and realizations: every cycle is replaced by the mean of its members and the cycles count alike; collapse_realizations. *)
From Coq Require Import Permutation Sorted.
From Verif Require Import Base Model_Blending Spec_Threshold Proofs_Weights Proofs_Blending Model_WeightBlend Props_WeightBlend Model_CycleBlend.
Local Open Scope Q_scope.

(** ** What a statistic of unmasked members is *)
Definition statistic (a : aggregator) (l : list Q) (v : Q) : Prop :=
  match a with
  | SUM => v == qsum l
  | MEAN => v * Qn (length l) == qsum l
  | MEDIAN => exists s, Permutation l s /\ qsorted s /\ 2 * v == nth ((length l - 1) / 2) s 0 + nth (length l / 2) s 0
  | STD_DEV => exists m, m * Qn (length l) == qsum l /\ v * Qn (length l - 1) == qsum (map (fun x => (x - m) * (x - m)) l)
  | MIN => (exists x, In x l /\ v == x) /\ Forall (fun x => v <= x) l
  | MAX => (exists x, In x l /\ v == x) /\ Forall (fun x => x <= v) l
  end.
(** The fewest members a statistic needs. *)
Definition needs (a : aggregator) : nat := match a with STD_DEV => 2 | _ => 1 end.

Lemma Qn_pos n : (0 < n)%nat -> 0 < Qn n.
Proof. intro H. unfold Qn. change 0 with (inject_Z 0). rewrite <- Zlt_Qlt. lia. Qed.
Lemma mean_spec l : l <> [] -> mean_of l * Qn (length l) == qsum l.
Proof. intro N. unfold mean_of. assert (0 < Qn (length l)) by (apply Qn_pos; destruct l; [congruence|cbn; lia]). field. lra. Qed.
Theorem C125_statistics a l v : aggregated a l = Some v -> statistic a l v /\ (needs a <= length l)%nat.
Proof.
  destruct l as [|x r]; [discriminate|]. assert (N : x :: r <> []) by discriminate. destruct a; cbn [aggregated statistic needs].
  - intros [= <-]. split; [reflexivity|cbn; lia].
  - intros [= <-]. split; [now apply mean_spec|cbn; lia].
  - intros [= <-]. split; [|cbn; lia]. exists (qsort (x :: r)). split; [apply qsort_perm|]. split; [apply qsort_sorted|].
    unfold median_of. generalize (qsort (x :: r)) as s. intro s. set (n := length (x :: r)). assert (P : (0 < n)%nat) by (unfold n; cbn; lia). clearbody n. destruct (Nat.even n) eqn:E.
    + apply Nat.even_spec in E as (k & ->). replace ((2 * k - 1) / 2)%nat with (2 * k / 2 - 1)%nat; [field|]. replace (2 * k)%nat with (k * 2)%nat by lia. rewrite Nat.div_mul by lia. replace (k * 2 - 1)%nat with (1 + (k - 1) * 2)%nat by lia. rewrite Nat.div_add by lia. cbn. lia.
    + assert (O : Nat.odd n = true) by (unfold Nat.odd; now rewrite E). apply Nat.odd_spec in O as (k & ->). replace (2 * k + 1 - 1)%nat with (k * 2)%nat by lia. rewrite Nat.div_mul by lia. replace (2 * k + 1)%nat with (1 + k * 2)%nat by lia. rewrite Nat.div_add by lia. change (1 / 2)%nat with 0%nat. cbn [Nat.add]. ring.
  - destruct r as [|y r]; [discriminate|]. intros [= <-]. split; [|cbn; lia]. exists (mean_of (x :: y :: r)). split; [now apply mean_spec|]. unfold variance_of. assert (0 < Qn (length (x :: y :: r) - 1)) by (apply Qn_pos; cbn; lia). field. lra.
  - intros [= <-]. split; [|cbn; lia]. destruct (qminl_in x r) as (y & Y & E). split; [exists y; split; [exact Y|exact E]|]. apply Forall_forall. intros z Z. now apply qminl_le.
  - intros [= <-]. split; [|cbn; lia]. destruct (qmaxl_in x r) as (y & Y & E). split; [exists y; split; [exact Y|exact E]|]. apply Forall_forall. intros z Z. now apply qmaxl_ge.
Qed.
(** The result is masked exactly where too few members are not. *)
Theorem C125_masked a l : aggregated a l = None <-> (length l < needs a)%nat.
Proof. destruct l as [|x [|y r]], a; cbn; split; intro H; try discriminate; try reflexivity; lia. Qed.
Lemma sum_sq l l' m m' : m == m' -> Permutation l l' -> qsum (map (fun x => (x - m) * (x - m)) l) == qsum (map (fun x => (x - m') * (x - m')) l').
Proof.
  intros E P. rewrite (qsum_perm _ _ (Permutation_map (fun x => (x - m) * (x - m)) P)). clear P l. induction l' as [|x l IH]; [reflexivity|]. cbn. rewrite IH, E. reflexivity.
Qed.
(** A statistic is determined by its members, in whatever order they come. *)
Theorem C125_determined a l l' v v' : l <> [] -> (a = STD_DEV -> (2 <= length l)%nat) -> Permutation l l' -> statistic a l v -> statistic a l' v' -> v == v'.
Proof.
  intros N N2 P S S'. pose proof (Permutation_length P) as L. assert (Pn : 0 < Qn (length l)) by (apply Qn_pos; destruct l; [congruence|cbn; lia]). pose proof (qsum_perm _ _ P) as Qs. destruct a; cbn [statistic] in *.
  - rewrite S, S'. exact Qs.
  - rewrite <- L in S'. assert (H : (v - v') * Qn (length l) == 0) by (setoid_replace ((v - v') * Qn (length l)) with (v * Qn (length l) - v' * Qn (length l)) by ring; rewrite S, S', Qs; ring). apply Qmult_integral in H as [H|H]; lra.
  - destruct S as (s & P1 & O1 & E1), S' as (s' & P2 & O2 & E2). rewrite <- L in E2. assert (F : Forall2 Qeq s s') by (apply qsorted_perm_eq; [exact O1|exact O2|]; eapply Permutation_trans; [apply Permutation_sym, P1|]; eapply Permutation_trans; [exact P|exact P2]).
    assert (H : 2 * v == 2 * v') by (rewrite E1, E2, !(Forall2_Qeq_nth s s') by exact F; reflexivity). lra.
  - destruct S as (m & M & E), S' as (m' & M' & E'). rewrite <- L in M', E'. assert (H : (m - m') * Qn (length l) == 0) by (setoid_replace ((m - m') * Qn (length l)) with (m * Qn (length l) - m' * Qn (length l)) by ring; rewrite M, M', Qs; ring). apply Qmult_integral in H as [H|H]; [|lra].
    assert (Em : m == m') by lra. pose proof (sum_sq l l' m m' Em P) as X. assert (P1 : 0 < Qn (length l - 1)) by (apply Qn_pos; specialize (N2 eq_refl); lia). rewrite <- E, <- E' in X. assert (K : (v - v') * Qn (length l - 1) == 0) by (setoid_replace ((v - v') * Qn (length l - 1)) with (v * Qn (length l - 1) - v' * Qn (length l - 1)) by ring; rewrite X; ring). apply Qmult_integral in K as [K|K]; lra.
  - destruct S as ((x & X & E) & F), S' as ((x' & X' & E') & F'). rewrite Forall_forall in F, F'. specialize (F x' (Permutation_in _ (Permutation_sym P) X')). specialize (F' x (Permutation_in _ P X)). lra.
  - destruct S as ((x & X & E) & F), S' as ((x' & X' & E') & F'). rewrite Forall_forall in F, F'. specialize (F x' (Permutation_in _ (Permutation_sym P) X')). specialize (F' x (Permutation_in _ P X)). lra.
Qed.
Theorem C125_member_order a l l' : Permutation l l' -> oeq (aggregated a l) (aggregated a l').
Proof.
  intro P. pose proof (Permutation_length P) as L. destruct (aggregated a l) as [v|] eqn:E, (aggregated a l') as [v'|] eqn:E'; cbn; trivial.
  - destruct (C125_statistics _ _ _ E) as (S & N), (C125_statistics _ _ _ E') as (S' & N'). apply (C125_determined a l l'); try assumption; [intros ->; destruct a; cbn in N; lia|intros ->; exact N].
  - apply C125_statistics in E as (_ & N). apply C125_masked in E'. lia.
  - apply C125_statistics in E' as (_ & N). apply C125_masked in E. lia.
Qed.
(** Methods by their names; anything else is refused, and so is a cube without realizations. *)
Definition named (a : aggregator) : string := match a with SUM => "sum" | MEAN => "mean" | MEDIAN => "median" | STD_DEV => "std_dev" | MIN => "min" | MAX => "max" end.
Lemma named_iff s a : aggregator_of s = Some a <-> s = named a.
Proof.
  unfold aggregator_of. split.
  - repeat match goal with |- context [String.eqb ?a ?b] => destruct (String.eqb_spec a b) end; intro H; try discriminate; injection H as <-; assumption.
  - intros ->. destruct a; reflexivity.
Qed.
Lemma there_in l v : In v (there l) <-> In (Some v) l.
Proof. unfold there. rewrite in_flat_map. split; [intros ([x|] & X & Y); [destruct Y as [->|[]]; exact X|destruct Y]|intro H; exists (Some v); split; [exact H|now left]]. Qed.
Theorem C125_collapse s n rows out : collapse_realizations s n rows = Ok out <-> exists a rs, s = named a /\ rows = Some rs /\ length out = n /\
  forall g, (g < n)%nat -> nth g out None = aggregated a (there (map (fun r => nth g r None) rs)).
Proof.
  unfold collapse_realizations. split.
  - destruct (aggregator_of s) as [a|] eqn:E; [|discriminate]. destruct rows as [rs|]; [|discriminate]. intro H. apply Ok_inj in H. subst out. exists a, rs. split; [now apply named_iff|]. split; [reflexivity|]. split; [now rewrite map_length, seq_length|]. intros g Hg. now rewrite nth_map_seq.
  - intros (a & rs & E & -> & L & V). apply named_iff in E. rewrite E. f_equal. apply (nth_ext _ _ None None); [now rewrite map_length, seq_length|]. intros g Hg. rewrite map_length, seq_length in Hg. rewrite nth_map_seq by exact Hg. symmetry. now apply V.
Qed.
Theorem C125_collapse_refused s n rows : (collapse_realizations s n rows = Err ValueError <-> forall a, s <> named a) /\ (collapse_realizations s n rows = Err CoordinateNotFoundError <-> (exists a, s = named a) /\ rows = None).
Proof.
  unfold collapse_realizations. destruct (aggregator_of s) as [a|] eqn:E.
  - apply named_iff in E. split.
    + split; [destruct rows; discriminate|]. intro H. now specialize (H a).
    + split; [destruct rows; [discriminate|intros _; split; [now exists a|reflexivity]]|]. now intros (_ & ->).
  - assert (H : forall a, s <> named a) by (intros a X; apply named_iff in X; congruence). split.
    + split; auto.
    + split; [discriminate|]. intros ((a & X) & _). now destruct (H a).
Qed.

(** ** The command *)
(** What a cycle says of a point: the mean of its unmasked members. *)
Definition cycle_value (c : cycle) (g : nat) (v : option Q) : Prop :=
  exists rs, cy_rows c = Some rs /\ let l := there (map (fun r => nth g r None) rs) in
  match v with None => l = [] | Some m => l <> [] /\ m * Qn (length l) == qsum l end.
(** The result at a point: the mean over the cycles that say something there. *)
Definition blended_value (vs : list (option Q)) (v : option Q) : Prop :=
  let l := there vs in match v with None => l = [] | Some m => l <> [] /\ m * Qn (length l) == qsum l end.

Lemma collapsed_inv n c x : collapsed_cycle n c = Ok x -> in_point x = cy_reference c /\ in_time x = cy_time c /\ length (in_data x) = n /\ forall g, (g < n)%nat -> cycle_value c g (nth g (in_data x) None).
Proof.
  unfold collapsed_cycle. destruct (collapse_realizations "mean" n (cy_rows c)) as [d|] eqn:E; cbn [bind]; [|discriminate]. intro H. apply Ok_inj in H. subst x. cbn. apply C125_collapse in E as (a & rs & Ea & R & L & V). assert (a = MEAN) by (destruct a; try discriminate; reflexivity). subst a.
  split; [reflexivity|]. split; [reflexivity|]. split; [exact L|]. intros g Hg. exists rs. split; [exact R|]. rewrite V by exact Hg. cbv zeta. destruct (there _) as [|y l] eqn:T; [reflexivity|]. cbn [aggregated]. split; [discriminate|]. apply mean_spec. discriminate.
Qed.
Lemma same_weight (vs : list (option Q)) (ws : list Q) k : 0 < k -> length ws = length vs -> Forall (fun w => w == k) ws -> blended_value vs (avg (combine vs ws)).
Proof.
  intros K L F. assert (A : oeq (avg (combine vs ws)) (match there vs with [] => None | l => Some (qsum l / Qn (length l)) end)).
  { rewrite avg_um. assert (E : wtotal (um (combine vs ws)) == k * Qn (length (there vs)) /\ wdot (um (combine vs ws)) == k * qsum (there vs)).
    { clear K. revert ws L F. induction vs as [|v vs IH]; intros [|w ws] L F; cbn in L; try lia; [cbn; unfold Qn; cbn; split; ring|]. inversion F as [|? ? Fw F']; subst. destruct (IH ws ltac:(lia) F') as (I1 & I2). destruct v as [v|].
      - change (um (combine (Some v :: vs) (w :: ws))) with ((v, w) :: um (combine vs ws)). change (there (Some v :: vs)) with (v :: there vs). unfold wtotal, wdot in *. cbn [map qsum fst snd length]. rewrite I1, I2, Fw. split; [|ring]. unfold Qn. rewrite Nat2Z.inj_succ. unfold Z.succ. rewrite inject_Z_plus. change (inject_Z 1) with 1. ring.
      - exact (conj I1 I2). }
    destruct E as (E1 & E2). destruct (there vs) as [|y l] eqn:T.
    - destruct (Qeqb_spec (wtotal (um (combine vs ws))) 0) as [_|N]; [reflexivity|]. exfalso. apply N. rewrite E1. unfold Qn. cbn. ring.
    - assert (P : 0 < Qn (length (y :: l))) by (apply Qn_pos; cbn; lia). destruct (Qeqb_spec (wtotal (um (combine vs ws))) 0) as [Z|N]; [exfalso; rewrite E1 in Z; apply Qmult_integral in Z as [Z|Z]; lra|]. cbn [oeq]. rewrite E1, E2. field. lra. }
  unfold blended_value. cbv zeta. destruct (avg (combine vs ws)) as [m|]; destruct (there vs) as [|y l]; cbn [oeq] in A; try contradiction; [|reflexivity]. split; [discriminate|]. rewrite A. assert (P : 0 < Qn (length (y :: l))) by (apply Qn_pos; cbn; lia). field. lra.
Qed.
Lemma blended_oeq vs v v' : oeq v v' -> blended_value vs v' -> blended_value vs v.
Proof. unfold blended_value. cbv zeta. destruct v, v'; cbn [oeq]; try contradiction; trivial. intros E (N & H). split; [exact N|]. now rewrite E. Qed.
Lemma there_perm a b : Permutation a b -> Permutation (there a) (there b).
Proof.
  unfold there. induction 1 as [|x a b P IH|x y a|a b c P1 I1 P2 I2]; [constructor| | |now apply Permutation_trans with (2 := I2)].
  - cbn. apply Permutation_app_head, IH.
  - cbn. rewrite !app_assoc. apply Permutation_app_tail, Permutation_app_comm.
Qed.
Lemma blended_perm a b v : Permutation a b -> blended_value a v -> blended_value b v.
Proof.
  intro P. apply there_perm in P. unfold blended_value. cbv zeta. destruct v.
  - intros (N & H). split; [intros E; rewrite E in P; apply Permutation_sym, Permutation_nil in P; contradiction|]. now rewrite <- (Permutation_length P), <- (qsum_perm _ _ P).
  - intros E. rewrite E in P. now apply Permutation_nil in P.
Qed.
Lemma blended_unique vs v v' : blended_value vs v -> blended_value vs v' -> oeq v v'.
Proof.
  unfold blended_value. cbv zeta. destruct v as [v|], v' as [v'|]; cbn [oeq]; trivial; try (intros; tauto). intros (N & E) (_ & E'). assert (P : 0 < Qn (length (there vs))) by (apply Qn_pos; destruct (there vs); [congruence|cbn; lia]).
  assert (K : (v - v') * Qn (length (there vs)) == 0) by (setoid_replace ((v - v') * Qn (length (there vs))) with (v * Qn (length (there vs)) - v' * Qn (length (there vs))) by ring; rewrite E, E'; ring). apply Qmult_integral in K as [K|K]; lra.
Qed.
Lemma all_alike {D} (c : list (slice D)) w : weighted (Linear (1 # 2) (1 # 2)) c w -> length w = length c /\ exists k, 0 < k /\ Forall (fun x => x == k) w.
Proof.
  intros [(L & ->)|(L & (Lw & _ & _ & k & K & P))].
  - split; [now rewrite L|]. exists 1. split; [lra|]. constructor; [reflexivity|constructor].
  - split; [exact Lw|]. exists (k * (1 # 2)). split; [lra|]. apply Forall_forall. intros x X. apply (In_nth _ _ 0) in X as (i & Hi & <-). destruct (P i ltac:(lia)) as (y & R & E). cbn [raw] in R. rewrite E, R.
    assert (0 < Qn (length c - 1)) by (apply Qn_pos; lia). field. lra.
Qed.
Lemma mapM_both {A B} (f : A -> result B) l r : mapM f l = Ok r -> Forall2 (fun x y => f x = Ok y) l r.
Proof.
  revert r. induction l as [|x l IH]; intros r H; cbn in H; [apply Ok_inj in H; subst; constructor|]. destruct (f x) eqn:E; cbn [bind] in H; [|discriminate]. destruct (mapM f l); cbn [bind] in H; [|discriminate]. apply Ok_inj in H. subst r. constructor; [exact E|]. now apply IH.
Qed.
(** The value at a point is the mean, over the cycles with an unmasked member there, of the mean over those members. *)
Theorem C125_blend n cubes out : blend_cycles_and_realizations n cubes = Ok out ->
  length out = n /\ forall g, (g < n)%nat -> exists vs, Forall2 (fun c v => cycle_value c g v) cubes vs /\ blended_value vs (nth g out None).
Proof.
  unfold blend_cycles_and_realizations. destruct (mapM (collapsed_cycle n) cubes) as [l|] eqn:M; cbn [bind]; [|discriminate]. apply mapM_both in M. intro H.
  assert (G : on_grid n l). { unfold on_grid. clear H. induction M as [|c x cs xs E M IH]; constructor; [|exact IH]. apply collapsed_inv in E. tauto. }
  destruct (C99_means _ _ _ _ _ _ _ G H) as (c & w & MS & _ & W & L & V). split; [exact L|]. intros g Hg. exists (map (fun x => nth g (in_data x) None) l). split.
  - clear -M Hg. induction M as [|c x cs xs E M IH]; cbn; constructor; [|exact IH]. apply collapsed_inv in E as (_ & _ & _ & E). now apply E.
  - apply all_alike in W as (Lw & k & K & F). apply (blended_oeq _ _ _ (V g Hg)). cbn [merged_slices] in MS.
    assert (P : Permutation (map (fun s => nth g (sl_data s) None) c) (map (fun x => nth g (in_data x) None) l)).
    { apply Permutation_sym. replace (map (fun x => nth g (in_data x) None) l) with (map (fun s => nth g (sl_data s) None) (map (fun x => slice_of (in_point x) (Point (in_point x)) x) l)) by (rewrite map_map; reflexivity). now apply Permutation_map. }
    apply (blended_perm _ _ _ P). unfold mean_at. replace (map (fun e => (nth g (sl_data (fst e)) None, snd e)) (combine c w)) with (combine (map (fun s => nth g (sl_data s) None) c) w).
    + apply (same_weight _ _ k); [exact K|now rewrite map_length|exact F].
    + clear -Lw. revert w Lw. induction c as [|s c IH]; intros [|x w] L; cbn in L; try lia; [reflexivity|]. cbn. f_equal. apply IH. lia.
Qed.
(** The order of the cubes does not matter. *)
Lemma blend_means_ok n k c out : blend_means n k = Ok c -> blend_means n k = Ok out -> c = out.
Proof. congruence. Qed.
Theorem C125_order n a b out : Permutation a b -> blend_cycles_and_realizations n a = Ok out -> blend_cycles_and_realizations n b = Ok out.
Proof.
  intros P. unfold blend_cycles_and_realizations. destruct (mapM (collapsed_cycle n) a) as [l|] eqn:M; cbn [bind]; [|discriminate].
  assert (X : exists l', mapM (collapsed_cycle n) b = Ok l' /\ Permutation l l').
  { clear -P M. revert l M. induction P as [|x a b P IH|x y a|a b c P1 I1 P2 I2]; intros l M.
    - exists l. split; [exact M|]. apply Permutation_refl.
    - cbn in M. destruct (collapsed_cycle n x) as [d|] eqn:E; cbn [bind] in M; [|discriminate]. destruct (mapM (collapsed_cycle n) a) as [t|]; cbn [bind] in M; [|discriminate]. apply Ok_inj in M. subst l. destruct (IH t eq_refl) as (t' & T & P'). exists (d :: t'). cbn. rewrite E. cbn [bind]. rewrite T. cbn [bind]. split; [reflexivity|now constructor].
    - cbn in M |- *. destruct (collapsed_cycle n y) as [d|] eqn:E; cbn [bind] in M; [|discriminate]. destruct (collapsed_cycle n x) as [e|] eqn:E'; cbn [bind] in M; [|discriminate]. destruct (mapM (collapsed_cycle n) a) as [t|]; cbn [bind] in M; [|discriminate]. apply Ok_inj in M. subst l. exists (e :: d :: t). cbn [bind]. split; [reflexivity|constructor].
    - destruct (I1 l M) as (l1 & M1 & Q1). destruct (I2 l1 M1) as (l2 & M2 & Q2). exists l2. split; [exact M2|]. eapply Permutation_trans; eassumption. }
  destruct X as (l' & -> & P'). cbn [bind]. intro H. rewrite <- H. symmetry. now apply C99_order.
Qed.
(** What is blended: at least one cube, all with realizations, from different reference times and (if there are several) for one validity time. *)
Lemma collapsed_total n c : (exists x, collapsed_cycle n c = Ok x) <-> cy_rows c <> None.
Proof. unfold collapsed_cycle, collapse_realizations. cbn. destruct (cy_rows c); cbn [bind]; split; intro H; eauto; [discriminate|now destruct H|congruence]. Qed.
Lemma two_of {A} (l : list A) : (2 <= length l)%nat -> exists x y r, l = x :: y :: r.
Proof. destruct l as [|x [|y r]]; cbn; intro; try lia; eauto. Qed.
Theorem C125_accepted n cubes : (exists out, blend_cycles_and_realizations n cubes = Ok out) <->
  cubes <> [] /\ Forall (fun c => cy_rows c <> None) cubes /\ distinct (map cy_reference cubes) /\ (forall c d, In c cubes -> In d cubes -> cy_time c = cy_time d).
Proof.
  split.
  - intros (out & H). unfold blend_cycles_and_realizations in H. destruct (mapM (collapsed_cycle n) cubes) as [l|] eqn:M; cbn [bind] in H; [|discriminate]. apply mapM_both in M.
    destruct (blend_inv _ _ _ _ _ _ _ H) as (_ & _ & c & w & Mc & A & MS & W & R). assert (X : exists c, merged false l = Ok c) by eauto. apply C99_mergeable in X as (N & D).
    assert (E1 : map in_point l = map cy_reference cubes /\ map in_time l = map cy_time cubes). { clear -M. induction M as [|x y cs xs E M IH]; [split; reflexivity|]. apply collapsed_inv in E as (E1 & E2 & _). destruct IH. cbn. split; congruence. }
    destruct E1 as (E1 & E2). split; [intros ->; inversion M; subst; congruence|]. split; [clear -M; induction M as [|x y cs xs E M IH]; constructor; [apply (proj1 (collapsed_total n x)); eauto|exact IH]|]. split; [rewrite <- E1; exact D|].
    destruct (C99_times _ _ _ _ _ _ _ H) as (c' & w' & Mc' & W' & T). rewrite Mc in Mc'. apply Ok_inj in Mc'. subst c'. apply all_alike in W' as (Lw & k & K & F). cbn [merged_slices] in MS.
    assert (Tl : forall x y, In x l -> In y l -> in_time x = in_time y).
    { assert (P : forall x, In x l -> exists i s, nth_error c i = Some s /\ sl_time s = in_time x /\ ~ nth i w' 0 == 0).
      { intros x X. assert (I' : In (slice_of (in_point x) (Point (in_point x)) x) c) by (apply (Permutation_in _ MS); apply in_map_iff; now exists x). apply In_nth_error in I' as (i & Hi). exists i, (slice_of (in_point x) (Point (in_point x)) x). split; [exact Hi|]. split; [reflexivity|]. rewrite Forall_forall in F. assert (Li : (i < length c)%nat) by (apply nth_error_Some; congruence). rewrite (F (nth i w' 0)) by (apply nth_In; lia). lra. }
      intros x y X Y. destruct (P x X) as (i & s & Hi & <- & Ni), (P y Y) as (j & t & Hj & <- & Nj). exact (T i j s t Hi Hj Ni Nj). }
    intros c1 c2 I1 I2. assert (Q : forall a, In a cubes -> exists x, In x l /\ in_time x = cy_time a). { intros a Ia. apply (in_map cy_time) in Ia. rewrite <- E2 in Ia. apply in_map_iff in Ia as (x & Ex & X). eauto. }
    destruct (Q c1 I1) as (x & X & <-), (Q c2 I2) as (y & Y & <-). now apply Tl.
  - intros (N & F & D & T). unfold blend_cycles_and_realizations. assert (M : exists l, mapM (collapsed_cycle n) cubes = Ok l). { clear -F. induction F as [|c cs Fc F (l & IH)]; [eexists; reflexivity|]. apply (collapsed_total n) in Fc as (x & E). exists (x :: l). cbn. now rewrite E, IH. }
    destruct M as (l & M). rewrite M. cbn [bind]. apply mapM_both in M. assert (E1 : map in_point l = map cy_reference cubes /\ map in_time l = map cy_time cubes). { clear -M. induction M as [|x y cs xs E M IH]; [split; reflexivity|]. apply collapsed_inv in E as (E1 & E2 & _). destruct IH. cbn. split; congruence. }
    destruct E1 as (E1 & E2). assert (X : exists c, merged false l = Ok c). { apply C99_mergeable. split; [intros ->; inversion M; subst; congruence|]. rewrite E1. exact D. }
    destruct X as (c & Mc). unfold weight_and_blend. cbn [andb negb]. rewrite Mc. cbn [bind]. destruct (C99_merged _ _ _ Mc) as (Nl & A & MS). pose proof (merged_length _ _ _ MS) as Lc.
    assert (Tc : forall s t, In s c -> In t c -> sl_time s = sl_time t).
    { cbn [merged_slices] in MS. assert (P : forall s, In s c -> exists a, In a cubes /\ cy_time a = sl_time s). { intros s S. apply (Permutation_in _ (Permutation_sym MS)) in S. apply in_map_iff in S as (x & <- & X). cbn. apply (in_map in_time) in X. rewrite E2 in X. apply in_map_iff in X as (a & Ea & Ia). eauto. }
      intros s t S1 S2. destruct (P s S1) as (a & Ia & <-), (P t S2) as (b & Ib & <-). now apply T. }
    destruct c as [|s c]; [destruct l; cbn in Lc; [congruence|lia]|]. destruct c as [|s2 c]; [eauto|]. remember (s :: s2 :: c) as cc eqn:Ecc. assert (L2 : (2 <= length cc)%nat) by (subst; cbn; lia).
    assert (B : exists w, blending_weights (Linear (1 # 2) (1 # 2)) cc = Ok w) by (cbn [blending_weights]; apply linear_total; [exact L2|lra]). destruct B as (w & B). rewrite B. cbn [bind]. pose proof (C99_weights _ _ _ A L2 B) as W.
    destruct (all_alike cc w (or_intror (conj L2 W))) as (Lw & k & K & Fw).
    assert (Keep : nonzero_weighted (combine cc w) = combine cc w). { unfold nonzero_weighted. clear -Fw K. revert w Fw. induction cc as [|a cc IH]; intros [|x w] Fw; try reflexivity. inversion Fw; subst. cbn. destruct (Qeqb_spec x 0) as [E|E]; [lra|]. cbn. f_equal. now apply IH. }
    rewrite Keep. assert (G : exists out, blend_means n (combine cc w) = Ok out).
    { unfold blend_means, blend_process. cbn [option_map]. replace (check_times false _) with (Ok tt).
      - cbn [bind]. match goal with |- context [(?a =? ?b)%nat] => replace (a =? b)%nat with true; [eauto|] end. symmetry. apply Nat.eqb_eq. rewrite <- !(Permutation_length (ksort_perm _)), !map_length. reflexivity.
      - symmetry. apply check_times_iff. right. intros a b Ia Ib. apply in_map_iff in Ia as (ea & <- & Ia), Ib as (eb & <- & Ib). apply (Permutation_in _ (Permutation_sym (ksort_perm _))) in Ia, Ib. apply in_map_iff in Ia as ([s1 k1] & <- & Ia), Ib as ([s3 k3] & <- & Ib). apply in_combine_l in Ia, Ib. cbn. now apply Tc. }
    destruct G as (out & G). subst cc. destruct w as [|w1 [|w2 w]]; cbn in Lw; try lia. cbn [combine] in *. eauto.
Qed.

(** With as many members in every cycle and none masked, the mean over all members. *)
Definition members_at (cubes : list cycle) (g : nat) : list Q := flat_map (fun c => match cy_rows c with Some rs => there (map (fun r => nth g r None) rs) | None => [] end) cubes.
Theorem C125_equal_sizes n k cubes out g : blend_cycles_and_realizations n cubes = Ok out -> (g < n)%nat ->
  Forall (fun c => exists rs, cy_rows c = Some rs /\ length (there (map (fun r => nth g r None) rs)) = k) cubes -> (0 < k)%nat ->
  exists m, nth g out None = Some m /\ m * Qn (length (members_at cubes g)) == qsum (members_at cubes g).
Proof.
  intros H Hg F K. assert (N : cubes <> []) by (apply (C125_accepted n cubes); eauto). destruct (C125_blend _ _ _ H) as (_ & V). destruct (V g Hg) as (vs & F2 & B).
  assert (X : qsum (there vs) * Qn k == qsum (members_at cubes g) /\ length (there vs) = length cubes /\ Qn (length (members_at cubes g)) == Qn (length cubes) * Qn k).
  { clear -F F2 K. induction F2 as [|c v cs vs (rs & R & D) F2 IH]; [split; [cbn; ring|split; [reflexivity|unfold Qn; cbn; ring]]|]. inversion F as [|? ? (rs' & R' & L) F']; subst. rewrite R in R'. injection R' as <-. destruct (IH F') as (I1 & I2 & I3). cbv zeta in D.
    unfold members_at in *. cbn [flat_map]. rewrite R. destruct v as [v|]; [|rewrite D in K; cbn in K; lia]. destruct D as (_ & D). change (there (Some v :: vs)) with (v :: there vs). cbn [qsum length]. split; [|split; [now rewrite I2|]].
    - rewrite qsum_app, <- I1, <- D. ring.
    - rewrite app_length. assert (E : forall a b, Qn (a + b) == Qn a + Qn b) by (intros; unfold Qn; rewrite Nat2Z.inj_add, inject_Z_plus; reflexivity). rewrite E, I3. change (Datatypes.S (length cs)) with (1 + length cs)%nat. rewrite E. change (Qn 1) with 1. ring. }
  destruct X as (X1 & X2 & X3). unfold blended_value in B. cbv zeta in B. destruct (nth g out None) as [m|].
  - exists m. split; [reflexivity|]. destruct B as (_ & B). rewrite X2 in B. rewrite X3, <- X1, <- B. ring.
  - exfalso. rewrite B in X2. destruct cubes; [congruence|discriminate].
Qed.
(** Otherwise a member of a small cycle counts for more. *)
Definition small_cycle : cycle := {| cy_reference := 0; cy_period := 21600; cy_time := 0; cy_rows := Some [[Some 0]] |}.
Definition large_cycle : cycle := {| cy_reference := 3600; cy_period := 18000; cy_time := 0; cy_rows := Some [[Some 6]; [Some 6]; [Some 6]] |}.
Theorem C125_all_members_alike_refuted : ~ (forall n cubes out g, blend_cycles_and_realizations n cubes = Ok out -> (g < n)%nat -> forall m, nth g out None = Some m -> m * Qn (length (members_at cubes g)) == qsum (members_at cubes g)).
Proof.
  intro H. destruct (blend_cycles_and_realizations 1 [small_cycle; large_cycle]) as [o|] eqn:E; [|vm_compute in E; discriminate]. specialize (H _ _ _ 0%nat E ltac:(lia)). vm_compute in E. apply Ok_inj in E. subst o. specialize (H _ eq_refl). vm_compute in H. discriminate.
Qed.
(** A blend lies between the lowest and the highest member at the point. *)
Lemma mean_between l m lo hi : l <> [] -> m * Qn (length l) == qsum l -> Forall (fun x => lo <= x <= hi) l -> lo <= m <= hi.
Proof.
  intros N E F. assert (B : lo * Qn (length l) <= qsum l <= hi * Qn (length l)).
  { clear N E m. induction F as [|x l B F IH]; [cbn [length qsum]; change (Qn 0) with 0; lra|]. cbn [qsum length]. assert (E : Qn (Datatypes.S (length l)) == Qn (length l) + 1) by (unfold Qn; rewrite Nat2Z.inj_succ; unfold Z.succ; rewrite inject_Z_plus; reflexivity). assert (E1 : forall z, z * Qn (Datatypes.S (length l)) == z * Qn (length l) + z) by (intro z; rewrite E; ring). rewrite !E1. lra. }
  assert (P : 0 < Qn (length l)) by (apply Qn_pos; destruct l; [congruence|cbn; lia]). rewrite <- E in B. destruct B as (B1 & B2). apply Qmult_le_r in B1; [|exact P]. apply Qmult_le_r in B2; [|exact P]. now split.
Qed.
Theorem C125_between n cubes out g lo hi m : blend_cycles_and_realizations n cubes = Ok out -> (g < n)%nat -> nth g out None = Some m -> Forall (fun x => lo <= x <= hi) (members_at cubes g) -> lo <= m <= hi.
Proof.
  intros H Hg E F. destruct (C125_blend _ _ _ H) as (_ & V). destruct (V g Hg) as (vs & F2 & B). rewrite E in B. destruct B as (N & B). apply (mean_between (there vs)); [exact N|exact B|]. clear -F F2. induction F2 as [|c v cs vs (rs & R & D) F2 IH]; [constructor|]. unfold members_at in F. cbn [flat_map] in F. rewrite R in F. apply Forall_app in F as (F1 & F'). specialize (IH F'). destruct v as [v|]; [|exact IH]. change (there (Some v :: vs)) with (v :: there vs). constructor; [|exact IH]. destruct D as (Nd & D). exact (mean_between _ _ _ _ Nd D F1).
Qed.
Definition case_cycles : list cycle := [{| cy_reference := 3600; cy_period := 18000; cy_time := 0; cy_rows := Some [[Some 1; None]; [Some 3; Some 5]] |}; {| cy_reference := 0; cy_period := 21600; cy_time := 0; cy_rows := Some [[Some 6; None]; [Some 8; None]] |}].
Example C125_case : match blend_cycles_and_realizations 2 case_cycles with Ok [Some a; Some b] => (a =? 9 # 2) && (b =? 5) | _ => false end = true.
Proof. vm_compute. reflexivity. Qed.
Example C125_case_statistics : let rows := Some [[Some 1]; [Some 4]; [None]; [Some 2]; [Some 9]] in
  map (fun s => match collapse_realizations s 1 rows with Ok [Some v] => Qred v | _ => 0 end) ["sum"; "mean"; "median"; "std_dev"; "min"; "max"]%string = [16; 4; 3; 38 # 3; 1; 9].
Proof. vm_compute. reflexivity. Qed.

Print Assumptions C125_statistics.
Print Assumptions C125_masked.
Print Assumptions C125_determined.
Print Assumptions C125_member_order.
Print Assumptions C125_collapse.
Print Assumptions C125_collapse_refused.
Print Assumptions C125_blend.
Print Assumptions C125_order.
Print Assumptions C125_accepted.
Print Assumptions C125_equal_sizes.
Print Assumptions C125_all_members_alike_refuted.
Print Assumptions C125_between.
