(** C92: visibility combined with the cloud base at ground level. *)
From Verif Require Import Base Spec_Threshold Model_Probability Proofs_Probability Model_Visibility.
Local Open Scope Q_scope.

(** * Specification *)
(** The share of the cloud base that counts at a threshold: [s0] at 0, everything from [T] on, a quartic between. *)
Definition share (s0 T t : Q) : Q := if Qlt_le_dec t T then 1 - (1 - s0) * ((T - t) / T) ^ 4 else 1.
(** The probability after combining: that of a visibility below the threshold is at least the share of the cloud base. *)
Definition combined (up : bool) (p share_of_cloud : Q) : Q := if up then Qmin p (1 - share_of_cloud) else Qmax p share_of_cloud.
(** The probability of a cube at a point for the k-th threshold. *)
Definition prob (c : pcube) (i k : nat) : Q := nth k (nth i (pc_cols c) []) 0.
Definition threshold (c : pcube) (k : nat) : Q := nth k (pc_thr c) 0.
Definition whole (c : pcube) : Prop := forall col, In col (pc_cols c) -> length col = length (pc_thr c).
(** What the plugin wants of the two cubes. *)
Definition usable (op : cmp) (v c : vinput) : Prop :=
  contains "visibility_in_air" (cube_name v) = true /\ contains "visibility_in_air" (cube_name c) = false /\ contains "cloud_base" (cube_name c) = true /\
  vi_prob v = true /\ vi_prob c = true /\ pc_attr (vi_cube v) = spp_string op /\
  length (pc_thr (vi_cube c)) = 1%nat /\ length (pc_cols (vi_cube c)) = length (pc_cols (vi_cube v)) /\ whole (vi_cube v) /\ whole (vi_cube c).

(** * Proofs *)
Lemma Ok_inj {A} (x y : A) : Ok x = Ok y -> x = y.
Proof. congruence. Qed.
Lemma fourth_zero T : (T * T * T * T =? 0) = (T =? 0).
Proof.
  destruct (Qeqb_spec T 0) as [E|E]; destruct (Qeqb_spec (T * T * T * T) 0) as [F|F]; try reflexivity.
  - exfalso. apply F. rewrite E. reflexivity.
  - exfalso. apply E. apply Qmult_integral in F as [F|F]; [|exact F]. apply Qmult_integral in F as [F|F]; [|exact F]. apply Qmult_integral in F as [F|F]; exact F.
Qed.
Lemma factor_ok s0 T t : ~ T == 0 -> exists f, scaling_factor s0 T t = Ok f /\ f == share s0 T t.
Proof.
  intro N. unfold scaling_factor. rewrite fourth_zero. destruct (Qeqb_spec T 0) as [E|_]; [contradiction|]. eexists. split; [reflexivity|]. unfold share.
  destruct (Qlt_le_dec t T) as [L|L].
  - destruct (T <? t) eqn:B; [apply Qltb_lt in B; lra|]. assert (E : ((T - t) / T) ^ 4 == (T - t) / T * ((T - t) / T) * ((T - t) / T) * ((T - t) / T)) by (cbn; ring). rewrite E. field. exact N.
  - destruct (T <? t) eqn:B; [reflexivity|]. apply Qltb_ge in B. assert (E : t == T) by lra. rewrite E. field. exact N.
Qed.
Lemma factors_ok s0 T thr : ~ T == 0 -> exists fs, mapM (scaling_factor s0 T) thr = Ok fs /\ length fs = length thr /\ forall k, (k < length thr)%nat -> nth k fs 0 == share s0 T (nth k thr 0).
Proof.
  intro N. induction thr as [|t thr (fs & E & L & V)]; [exists []; split; [reflexivity|split; [reflexivity|intros k K; cbn in K; lia]]|].
  cbn [mapM]. destruct (factor_ok s0 T t N) as (f & F & G). rewrite F. cbn [bind]. rewrite E. cbn [bind]. exists (f :: fs). split; [reflexivity|]. split; [cbn; lia|]. intros [|k] K; cbn [nth]; [exact G|apply V; cbn in K; lia].
Qed.
Lemma insert_fst (p : Q * Q) l : map fst (insert by_threshold p l) = insert Qle_bool (fst p) (map fst l).
Proof. induction l as [|q l IH]; [reflexivity|]. cbn [insert map]. unfold by_threshold at 1. destruct (fst p <=? fst q); [reflexivity|]. cbn [map]. rewrite IH. reflexivity. Qed.
Lemma isort_fst l : map fst (isort by_threshold l) = qsort (map fst l).
Proof. induction l as [|p l IH]; [reflexivity|]. cbn [isort map]. rewrite insert_fst, IH. reflexivity. Qed.
Lemma map_fst_combine {A B} (a : list A) (b : list B) : length a = length b -> map fst (combine a b) = a.
Proof. revert b. induction a as [|x a IH]; intros [|y b] L; try discriminate; [reflexivity|]. cbn. rewrite IH by (cbn in L; lia). reflexivity. Qed.
Lemma merged_nth thr col k : length col = length thr -> (k < length thr)%nat ->
  exists k', (k' < length thr)%nat /\ nth k (qsort thr) 0 = nth k' thr 0 /\ nth k (merged_column thr col) 0 = nth k' col 0.
Proof.
  intros L K. set (s := isort by_threshold (combine thr col)). assert (Ls : length s = length thr) by (unfold s; rewrite isort_length, combine_length; lia).
  assert (I0 : In (nth k s (0, 0)) (combine thr col)). { apply Permutation_in with s; [apply Permutation_sym, isort_perm|]. apply nth_In. lia. }
  apply (In_nth _ _ (0, 0)) in I0 as (k' & K' & E). rewrite combine_length in K'. rewrite combine_nth in E by lia. exists k'. split; [lia|].
  assert (F : nth k (map fst s) 0 = fst (nth k s (0, 0))) by (change 0 with (fst (0, 0)) at 1; apply map_nth).
  assert (G : nth k (map snd s) 0 = snd (nth k s (0, 0))) by (change 0 with (snd (0, 0)) at 1; apply map_nth).
  unfold merged_column. fold s. rewrite G. unfold s at 1 in F. rewrite isort_fst, map_fst_combine in F by lia. rewrite F, <- E. split; reflexivity.
Qed.
Lemma merged_length thr col : length col = length thr -> length (merged_column thr col) = length thr.
Proof. intro L. unfold merged_column. rewrite map_length, isort_length, combine_length. lia. Qed.
Lemma combine_point_nth fs col q k : length fs = length col -> (k < length col)%nat -> nth k (combine_point fs col q) 0 = Qmax (nth k col 0) (q * nth k fs 0).
Proof.
  intros L K. unfold combine_point. rewrite nth_indep with (d' := (fun pf => Qmax (fst pf) (q * snd pf)) (0, 0)) by (rewrite map_length, combine_length; lia). rewrite (map_nth (fun pf => Qmax (fst pf) (q * snd pf))), combine_nth by lia. reflexivity.
Qed.
Lemma combine_point_length fs col q : length fs = length col -> length (combine_point fs col q) = length col.
Proof. intro L. unfold combine_point. rewrite map_length, combine_length. lia. Qed.
Lemma qmax_proper a b c d : a == b -> c == d -> Qmax a c == Qmax b d.
Proof. intros E F. rewrite E, F. reflexivity. Qed.
Lemma separate_ok v c (swap : bool) : contains "visibility_in_air" (cube_name v) = true -> contains "visibility_in_air" (cube_name c) = false -> contains "cloud_base" (cube_name c) = true ->
  separate (if swap then [c; v] else [v; c]) = Ok (v, c).
Proof. intros A B C. unfold separate, last_of, is_cloud, is_visibility. destruct swap; cbn [length Nat.eqb negb fold_left]; rewrite A, B, C; reflexivity. Qed.
Lemma direction_spp op : direction (spp_string op) = Some (if above op then Above else Below).
Proof. destruct op; reflexivity. Qed.
Lemma hd_nth {A} (l : list A) d : hd d l = nth 0 l d. Proof. destruct l; reflexivity. Qed.

(** The probabilities below the threshold, before the direction is put back. *)
Lemma core s0 T (vis cloud : pcube) fs : length (pc_cols cloud) = length (pc_cols vis) -> whole vis -> length fs = length (pc_thr vis) -> (forall k, (k < length (pc_thr vis))%nat -> nth k fs 0 == share s0 T (threshold vis k)) ->
  let cols := map (fun vc => merged_column (pc_thr vis) (combine_point fs (fst vc) (hd 0 (snd vc)))) (combine (pc_cols vis) (pc_cols cloud)) in
  length cols = length (pc_cols vis) /\ (forall col, In col cols -> length col = length (pc_thr vis)) /\
  forall i k, (i < length (pc_cols vis))%nat -> (k < length (pc_thr vis))%nat -> exists k', (k' < length (pc_thr vis))%nat /\ nth k (qsort (pc_thr vis)) 0 = threshold vis k' /\
    nth k (nth i cols []) 0 == Qmax (prob vis i k') (prob cloud i 0 * share s0 T (threshold vis k')).
Proof.
  intros L W Lf V cols. split; [unfold cols; rewrite map_length, combine_length; lia|].
  assert (Wc : forall i, (i < length (pc_cols vis))%nat -> length (nth i (pc_cols vis) []) = length (pc_thr vis)) by (intros i Hi; apply W, nth_In, Hi). split.
  - intros col C. unfold cols in C. apply in_map_iff in C as ([a b] & <- & C). apply in_combine_l in C. apply W in C. cbn [fst snd]. apply merged_length. rewrite combine_point_length; lia.
  - intros i k Hi Hk. unfold cols. rewrite nth_indep with (d' := (fun vc => merged_column (pc_thr vis) (combine_point fs (fst vc) (hd 0 (snd vc)))) ([], [])) by (rewrite map_length, combine_length; lia).
    rewrite (map_nth (fun vc => merged_column (pc_thr vis) (combine_point fs (fst vc) (hd 0 (snd vc))))), combine_nth by lia. cbn [fst snd].
    destruct (merged_nth (pc_thr vis) (combine_point fs (nth i (pc_cols vis) []) (hd 0 (nth i (pc_cols cloud) []))) k) as (k' & K' & E & F); [rewrite combine_point_length; rewrite ?Wc; lia|exact Hk|].
    exists k'. split; [exact K'|]. split; [exact E|]. rewrite F, combine_point_nth by (rewrite ?Wc; lia). rewrite hd_nth. unfold prob. apply qmax_proper; [reflexivity|]. rewrite (V k' K'). reflexivity.
Qed.

(** * C92 *)
(** The two cubes may come in either order. Every probability of the result, for thresholds in increasing order, is that of the visibility cube for that threshold combined with the share of the cloud base. *)
Theorem C92_value s0 T op v c (swap : bool) : usable op v c -> ~ T == 0 -> exists out, process s0 T (if swap then [c; v] else [v; c]) = Ok out /\
  pc_attr out = pc_attr (vi_cube v) /\ (above op = false -> pc_name out = pc_name (vi_cube v)) /\ Permutation (pc_thr (vi_cube v)) (pc_thr out) /\ qsorted (pc_thr out) /\ length (pc_cols out) = length (pc_cols (vi_cube v)) /\ whole out /\
  forall i k, (i < length (pc_cols (vi_cube v)))%nat -> (k < length (pc_thr (vi_cube v)))%nat -> exists k', (k' < length (pc_thr (vi_cube v)))%nat /\ threshold out k = threshold (vi_cube v) k' /\
    prob out i k == combined (above op) (prob (vi_cube v) i k') (prob (vi_cube c) i 0 * share s0 T (threshold out k)).
Proof.
  intros (N1 & N2 & N3 & P1 & P2 & A & L1 & L2 & W & Wc) NT. unfold process. rewrite (separate_ok v c swap N1 N2 N3). cbn [bind]. rewrite P1, P2. cbn [negb]. rewrite A, direction_spp.
  destruct (above op) eqn:U.
  - destruct (invert_total (vi_cube v) op A) as [w Hw]. rewrite Hw. cbn [bind]. destruct (invert_inv _ _ Hw) as (op' & A1 & A2 & T1 & C1 & N).
    assert (op' = op) by (rewrite A in A1; destruct op, op'; try reflexivity; discriminate). subst op'.
    assert (Lw : length (pc_cols w) = length (pc_cols (vi_cube v))) by (rewrite C1, map_length; reflexivity).
    assert (Ww : whole w) by (intros col C; rewrite C1 in C; apply in_map_iff in C as (x & <- & X); rewrite map_length, T1; apply W, X).
    destruct (factors_ok s0 T (pc_thr w) NT) as (fs & F & Lf & V). rewrite F. cbn [bind]. rewrite L1, L2, Lw, !Nat.eqb_refl. cbn [andb negb].
    destruct (core s0 T w (vi_cube c) fs ltac:(lia) Ww Lf V) as (K1 & K2 & K3).
    set (out0 := {| pc_name := pc_name w; pc_attr := pc_attr w; pc_thr := _; pc_cols := _ |}). assert (Ao : pc_attr out0 = spp_string (negation op)) by (cbn; exact A2).
    destruct (invert_total out0 _ Ao) as [out Ho]. rewrite Ho. exists out. split; [reflexivity|]. destruct (invert_inv _ _ Ho) as (op' & B1 & B2 & T2 & C2 & _).
    assert (op' = negation op) by (rewrite Ao in B1; destruct op, op'; try reflexivity; discriminate). subst op'. rewrite negation_invol in B2.
    assert (To : pc_thr out = qsort (pc_thr (vi_cube v))) by (rewrite T2; unfold out0; cbn [pc_thr]; rewrite isort_fst, map_fst_combine, T1 by reflexivity; reflexivity).
    split; [rewrite B2; congruence|]. split; [discriminate|]. rewrite To. split; [apply qsort_perm|]. split; [apply qsort_sorted|]. split; [rewrite C2, map_length; unfold out0; cbn [pc_cols]; rewrite K1; exact Lw|].
    split. { intros col C. rewrite C2 in C. apply in_map_iff in C as (x & <- & X). rewrite map_length, To, qsort_length, <- T1. apply K2. exact X. }
    intros i k Hi Hk. destruct (K3 i k ltac:(lia) ltac:(rewrite T1; lia)) as (k' & K' & E & G). rewrite T1 in K', E. exists k'. split; [exact K'|]. assert (Tk : threshold out k = threshold (vi_cube v) k') by (unfold threshold at 1; rewrite To, E; unfold threshold; rewrite T1; reflexivity).
    split; [exact Tk|]. rewrite Tk. unfold prob at 1. rewrite C2. unfold out0. cbn [pc_cols]. change ([] : list Q) with (map (fun p => 1 - p) []). rewrite map_nth.
    rewrite nth_indep with (d' := (fun p => 1 - p) 0) by (rewrite map_length; rewrite K2 by (apply nth_In; rewrite K1; lia); rewrite T1; lia). rewrite (map_nth (fun p => 1 - p)). rewrite G.
    assert (Ep : prob w i k' = 1 - prob (vi_cube v) i k').
    { unfold prob. rewrite C1. change ([] : list Q) with (map (fun p => 1 - p) []) at 1. rewrite map_nth. rewrite nth_indep with (d' := (fun p => 1 - p) 0) by (rewrite map_length, (W (nth i (pc_cols (vi_cube v)) [])) by (apply nth_In; lia); lia). apply map_nth. }
    rewrite Ep. unfold threshold. rewrite T1. unfold combined. generalize (prob (vi_cube c) i 0 * share s0 T (nth k' (pc_thr (vi_cube v)) 0)). intro q. qmm; lra.
  - cbn [bind]. destruct (factors_ok s0 T (pc_thr (vi_cube v)) NT) as (fs & F & Lf & V). rewrite F. cbn [bind]. rewrite L1, L2, !Nat.eqb_refl. cbn [andb negb].
    destruct (core s0 T (vi_cube v) (vi_cube c) fs ltac:(lia) W Lf V) as (K1 & K2 & K3). eexists. split; [reflexivity|]. cbn [pc_attr pc_name pc_thr pc_cols].
    assert (To : map fst (isort by_threshold (combine (pc_thr (vi_cube v)) (pc_thr (vi_cube v)))) = qsort (pc_thr (vi_cube v))) by (rewrite isort_fst, map_fst_combine by reflexivity; reflexivity). rewrite To.
    split; [exact A|]. split; [reflexivity|]. split; [apply qsort_perm|]. split; [apply qsort_sorted|]. split; [exact K1|]. split; [intros col C; cbn [pc_thr]; rewrite qsort_length; apply K2; exact C|].
    intros i k Hi Hk. destruct (K3 i k Hi Hk) as (k' & K' & E & G). exists k'. split; [exact K'|]. unfold threshold at 1 3. cbn [pc_thr]. rewrite E. split; [reflexivity|]. unfold prob at 1. cbn [pc_cols]. rewrite G. reflexivity.
Qed.

(** The share: the initial value at zero, everything from the first unscaled threshold on, never outside the two between, and never falling. *)
Lemma share_le s0 T t t' : 0 <= s0 -> s0 <= 1 -> 0 < T -> t <= t' -> share s0 T t <= share s0 T t'.
Proof.
  intros S0 S1 HT L. unfold share. assert (Q4 : forall x, x ^ 4 == x * x * (x * x)) by (intro x; cbn; ring).
  assert (N : forall x, 0 <= x * x) by (intro x; destruct (Qlt_le_dec x 0); nra).
  destruct (Qlt_le_dec t T) as [A|A]; destruct (Qlt_le_dec t' T) as [B|B]; try lra.
  - assert (I : 0 < / T) by (apply Qinv_lt_0_compat; exact HT). assert (M : (T - t') / T <= (T - t) / T) by (unfold Qdiv; apply Qmult_le_compat_r; lra). assert (P : 0 <= (T - t') / T) by (unfold Qdiv; apply Qmult_le_0_compat; lra).
    rewrite !Q4. set (a := (T - t') / T) in *. set (b := (T - t) / T) in *. clearbody a b. assert (a * a <= b * b) by nra. assert (0 <= a * a) by apply N. assert (a * a * (a * a) <= b * b * (b * b)) by nra. nra.
  - rewrite Q4. set (b := (T - t) / T). clearbody b. pose proof (N (b * b)). nra.
Qed.
Theorem C92_share s0 T : 0 <= s0 -> s0 <= 1 -> 0 < T -> share s0 T 0 == s0 /\ (forall t, T <= t -> share s0 T t == 1) /\ (forall t t', t <= t' -> share s0 T t <= share s0 T t') /\ (forall t, 0 <= t -> s0 <= share s0 T t /\ share s0 T t <= 1).
Proof.
  intros S0 S1 HT. assert (Z0 : share s0 T 0 == s0). { unfold share. destruct (Qlt_le_dec 0 T); [|lra]. assert (E : (T - 0) / T == 1) by (field; lra). rewrite E. ring. }
  assert (One : forall t, T <= t -> share s0 T t == 1) by (intros t L; unfold share; destruct (Qlt_le_dec t T); [lra|reflexivity]).
  split; [exact Z0|]. split; [exact One|]. split; [intros t t'; apply share_le; assumption|]. intros t L. split.
  - rewrite <- Z0 at 1. apply share_le; assumption.
  - pose proof (share_le s0 T t (Qmax t T) S0 S1 HT ltac:(qmm; lra)). rewrite (One (Qmax t T)) in H by (qmm; lra). exact H.
Qed.
(** Probabilities remain probabilities, and poor visibility never becomes less likely. *)
Lemma combined_cases up p q : 0 <= q -> q <= 1 -> 0 <= p -> p <= 1 -> 0 <= combined up p q /\ combined up p q <= 1 /\ (if up then combined up p q <= p else p <= combined up p q).
Proof. intros. unfold combined. destruct up; qmm; lra. Qed.
Theorem C92_probability s0 T op v c (swap : bool) out : usable op v c -> 0 <= s0 -> s0 <= 1 -> 0 < T -> (forall t, In t (pc_thr (vi_cube v)) -> 0 <= t) ->
  (forall i k, 0 <= prob (vi_cube v) i k /\ prob (vi_cube v) i k <= 1) -> (forall i, 0 <= prob (vi_cube c) i 0 /\ prob (vi_cube c) i 0 <= 1) ->
  process s0 T (if swap then [c; v] else [v; c]) = Ok out -> forall i k, (i < length (pc_cols (vi_cube v)))%nat -> (k < length (pc_thr (vi_cube v)))%nat ->
  0 <= prob out i k /\ prob out i k <= 1 /\ exists k', (k' < length (pc_thr (vi_cube v)))%nat /\ threshold out k = threshold (vi_cube v) k' /\ (if above op then prob out i k <= prob (vi_cube v) i k' else prob (vi_cube v) i k' <= prob out i k).
Proof.
  intros Us S0 S1 HT Pt Pv Pc Hp i k Hi Hk. destruct (C92_value s0 T op v c swap Us ltac:(lra)) as (out' & Hp' & _ & _ & _ & _ & _ & _ & V). rewrite Hp' in Hp. apply Ok_inj in Hp. subst out'. destruct (V i k Hi Hk) as (k' & K' & E & G).
  assert (T0 : 0 <= threshold out k) by (rewrite E; apply Pt, nth_In, K'). destruct (C92_share s0 T S0 S1 HT) as (_ & _ & _ & B). destruct (B _ T0) as [B1 B2]. destruct (Pc i) as [C1 C2]. destruct (Pv i k') as [P1 P2].
  set (q := prob (vi_cube c) i 0 * share s0 T (threshold out k)) in *. assert (Q0 : 0 <= q) by (apply Qmult_le_0_compat; lra). assert (Q1 : q <= 1) by (unfold q; nra). clearbody q.
  destruct (combined_cases (above op) _ q Q0 Q1 P1 P2) as (R1 & R2 & R3). rewrite G. split; [exact R1|]. split; [exact R2|]. exists k'. split; [exact K'|]. split; [exact E|]. destruct (above op); lra.
Qed.
(** If the probabilities given are monotone in the threshold, so are those returned. *)
Theorem C92_monotone s0 T op v c (swap : bool) out : usable op v c -> 0 <= s0 -> s0 <= 1 -> 0 < T -> (forall i, 0 <= prob (vi_cube c) i 0) ->
  (forall i a b, (a < length (pc_thr (vi_cube v)))%nat -> (b < length (pc_thr (vi_cube v)))%nat -> threshold (vi_cube v) a <= threshold (vi_cube v) b -> if above op then prob (vi_cube v) i b <= prob (vi_cube v) i a else prob (vi_cube v) i a <= prob (vi_cube v) i b) ->
  process s0 T (if swap then [c; v] else [v; c]) = Ok out -> forall i a b, (i < length (pc_cols (vi_cube v)))%nat -> (a < length (pc_thr (vi_cube v)))%nat -> (b < length (pc_thr (vi_cube v)))%nat -> threshold out a <= threshold out b ->
  if above op then prob out i b <= prob out i a else prob out i a <= prob out i b.
Proof.
  intros Us S0 S1 HT Pc M Hp i a b Hi Ha Hb L. destruct (C92_value s0 T op v c swap Us ltac:(lra)) as (out' & Hp' & _ & _ & _ & _ & _ & _ & V). rewrite Hp' in Hp. apply Ok_inj in Hp. subst out'.
  destruct (V i a Hi Ha) as (a' & A' & Ea & Ga). destruct (V i b Hi Hb) as (b' & B' & Eb & Gb). pose proof (share_le s0 T _ _ S0 S1 HT L) as Sh. pose proof (Pc i) as C0.
  assert (Q : prob (vi_cube c) i 0 * share s0 T (threshold out a) <= prob (vi_cube c) i 0 * share s0 T (threshold out b)) by nra. rewrite Ea, Eb in L. specialize (M i a' b' A' B' L). revert M Q Ga Gb. generalize (prob (vi_cube c) i 0 * share s0 T (threshold out a)) (prob (vi_cube c) i 0 * share s0 T (threshold out b)). intros x y M Q Ga Gb. unfold combined in Ga, Gb. destruct (above op); rewrite Ga, Gb; clear Ga Gb; qmm; lra.
Qed.
(** The direction of the visibility cube does not matter: the complement gives the complement. *)
Lemma sorted_perm_eq (l : list Q) : forall m, qssorted l -> Permutation l m -> qsorted m -> m = l.
Proof.
  induction l as [|x l IH]; intros m So P Sm; [apply Permutation_nil in P; exact P|].
  inversion So as [|? ? So' F]; subst. destruct m as [|y m]; [apply Permutation_sym, Permutation_nil in P; discriminate|]. inversion Sm as [|? ? Sm' G]; subst.
  rewrite Forall_forall in F, G. assert (E : y = x).
  { assert (Iy : In y (x :: l)) by (apply (Permutation_in _ (Permutation_sym P)); left; reflexivity). assert (Ix : In x (y :: m)) by (apply (Permutation_in _ P); left; reflexivity).
    destruct Iy as [E|Iy]; [symmetry; exact E|]. destruct Ix as [E|Ix]; [exact E|]. specialize (F y Iy). specialize (G x Ix). lra. }
  subst y. f_equal. apply IH; [assumption|apply Permutation_cons_inv in P; exact P|assumption].
Qed.
Theorem C92_direction s0 T op v c v' out out' : usable op v c -> invert_probabilities (vi_cube v) = Ok (vi_cube v') -> contains "visibility_in_air" (cube_name v') = true -> vi_prob v' = true -> ~ T == 0 -> qssorted (pc_thr (vi_cube v)) ->
  process s0 T [v; c] = Ok out -> process s0 T [v'; c] = Ok out' -> forall i k, (i < length (pc_cols (vi_cube v)))%nat -> (k < length (pc_thr (vi_cube v)))%nat -> threshold out' k = threshold out k /\ prob out' i k == 1 - prob out i k.
Proof.
  intros Us Iv N P NT So H H' i k Hi Hk. destruct (invert_inv _ _ Iv) as (op' & A1 & A2 & T1 & C1 & _). pose proof Us as (U1 & U2 & U3 & U4 & U5 & U6 & U7 & U8 & U9 & U10). assert (op' = op) by (rewrite U6 in A1; destruct op, op'; try reflexivity; discriminate). subst op'.
  assert (Us' : usable (negation op) v' c). { unfold usable. rewrite C1, map_length. split; [exact N|]. repeat (split; [assumption|]). split; [|exact U10]. intros col C. rewrite C1 in C. apply in_map_iff in C as (x & <- & X). rewrite map_length, T1. apply U9, X. }
  destruct (C92_value s0 T op v c false Us NT) as (o & Ho & _ & _ & P1 & S1 & _ & _ & V). cbn in Ho. rewrite H in Ho. apply Ok_inj in Ho. subst o.
  destruct (C92_value s0 T _ v' c false Us' NT) as (o & Ho & _ & _ & P2 & S2 & _ & _ & V'). cbn in Ho. rewrite H' in Ho. apply Ok_inj in Ho. subst o.
  assert (Q1 : pc_thr out = pc_thr (vi_cube v)) by (apply (sorted_perm_eq (pc_thr (vi_cube v))); assumption).
  assert (Q2 : pc_thr out' = pc_thr (vi_cube v)) by (apply (sorted_perm_eq (pc_thr (vi_cube v))); [exact So|rewrite <- T1; exact P2|exact S2]).
  rewrite C1, map_length, T1 in V'. destruct (V i k Hi Hk) as (a & A & Ea & Ga). destruct (V' i k Hi Hk) as (b & B & Eb & Gb).
  assert (Tk : threshold out' k = threshold out k) by (unfold threshold; congruence). split; [exact Tk|].
  assert (D : forall x y, (x < length (pc_thr (vi_cube v)))%nat -> (y < length (pc_thr (vi_cube v)))%nat -> nth x (pc_thr (vi_cube v)) 0 == nth y (pc_thr (vi_cube v)) 0 -> x = y).
  { intros x y X Y E. destruct (lt_eq_lt_dec x y) as [[G|G]|G]; [|exact G|]; [pose proof (qssorted_nth _ 0 x y So ltac:(lia))|pose proof (qssorted_nth _ 0 y x So ltac:(lia))]; lra. }
  assert (E1 : a = b). { apply D; [exact A|exact B|]. unfold threshold in *. rewrite T1 in Eb. rewrite <- Ea, <- Eb, Q1, Q2. reflexivity. }
  subst b. rewrite Ga, Gb, Tk. assert (Ep : prob (vi_cube v') i a = 1 - prob (vi_cube v) i a).
  { unfold prob. rewrite C1. change ([] : list Q) with (map (fun p => 1 - p) []) at 1. rewrite map_nth. rewrite nth_indep with (d' := (fun p => 1 - p) 0) by (rewrite map_length, (U9 (nth i (pc_cols (vi_cube v)) [])) by (apply nth_In; lia); lia). apply map_nth. }
  rewrite Ep. generalize (prob (vi_cube c) i 0 * share s0 T (threshold out k)). intro q. unfold combined. destruct op; cbn [negation above]; qmm; lra.
Qed.
(** What is refused: anything but one cube of visibilities and one of the cloud base, cubes that are not probabilities, a first unscaled threshold of zero. *)
Theorem C92_refused s0 T cubes out : process s0 T cubes = Ok out -> exists v c (swap : bool), cubes = (if swap then [c; v] else [v; c]) /\
  contains "visibility_in_air" (cube_name v) = true /\ contains "visibility_in_air" (cube_name c) = false /\ contains "cloud_base" (cube_name c) = true /\ vi_prob v = true /\ vi_prob c = true /\
  length (pc_thr (vi_cube c)) = 1%nat /\ length (pc_cols (vi_cube c)) = length (pc_cols (vi_cube v)) /\ (pc_thr (vi_cube v) <> [] -> ~ T == 0).
Proof.
  unfold process, separate. destruct cubes as [|a [|b [|x r]]]; try discriminate. cbn [length Nat.eqb negb]. unfold last_of, is_cloud, is_visibility. cbn [fold_left]. intro H.
  assert (G : exists v c (swap : bool), [a; b] = (if swap then [c; v] else [v; c]) /\ contains "visibility_in_air" (cube_name v) = true /\ contains "visibility_in_air" (cube_name c) = false /\ contains "cloud_base" (cube_name c) = true /\ process s0 T [v; c] = Ok out).
  { destruct (contains "visibility_in_air" (cube_name a)) eqn:A; destruct (contains "visibility_in_air" (cube_name b)) eqn:B; cbn [negb andb] in H; try discriminate.
    - destruct (contains "cloud_base" (cube_name b)) eqn:C; [|discriminate]. exists a, b, false. repeat (split; [try reflexivity; try assumption|]). unfold process. rewrite (separate_ok a b false A B C). exact H.
    - destruct (contains "cloud_base" (cube_name a)) eqn:C; [|discriminate]. exists b, a, true. repeat (split; [try reflexivity; try assumption|]). unfold process. rewrite (separate_ok b a false B A C). exact H. }
  clear H. destruct G as (v & c & swap & E & A & B & C & H). exists v, c, swap. split; [exact E|]. repeat (split; [assumption|]). unfold process in H. rewrite (separate_ok v c false A B C) in H. cbn [bind] in H.
  destruct (vi_prob v); [|discriminate]. destruct (vi_prob c); [|discriminate]. cbn [negb] in H. split; [reflexivity|]. split; [reflexivity|].
  set (inv := match direction (pc_attr (vi_cube v)) with Some Above => true | _ => false end) in H. clearbody inv.
  assert (K : exists w, (if inv then invert_probabilities (vi_cube v) else Ok (vi_cube v)) = Ok w /\ pc_thr w = pc_thr (vi_cube v) /\ length (pc_cols w) = length (pc_cols (vi_cube v))).
  { destruct inv; [|exists (vi_cube v); auto]. destruct (invert_probabilities (vi_cube v)) as [w|] eqn:I0; [|discriminate]. exists w. split; [reflexivity|]. destruct (invert_inv _ _ I0) as (_ & _ & _ & T1 & C1 & _). rewrite T1, C1, map_length. auto. }
  destruct K as (w & K1 & K2 & K3). rewrite K1 in H. cbn [bind] in H. destruct (mapM (scaling_factor s0 T) (pc_thr w)) as [fs|] eqn:F; [|discriminate]. cbn [bind] in H.
  destruct (Nat.eqb_spec (length (pc_thr (vi_cube c))) 1) as [E1|E1]; [|discriminate]. destruct (Nat.eqb_spec (length (pc_cols (vi_cube c))) (length (pc_cols w))) as [E2|E2]; [|discriminate]. split; [exact E1|]. split; [lia|].
  intros NE T0. rewrite <- K2 in NE. destruct (pc_thr w) as [|t l]; [contradiction|]. cbn [mapM] in F. unfold scaling_factor in F. rewrite fourth_zero in F. destruct (Qeqb_spec T 0); [discriminate|contradiction].
Qed.
(** The comment in the code says that all probabilities are made "below"; the cloud base is not: given as its complement (name and direction of an "above" cube) it is combined as it stands. *)
Definition example_visibility : vinput := {| vi_prob := true; vi_cube := {| pc_name := "probability_of_visibility_in_air_below_threshold"; pc_attr := "less_than"; pc_thr := [50; 1000]; pc_cols := [[1 # 10; 2 # 10]; [1 # 2; 9 # 10]] |} |}.
Definition example_cloud : vinput := {| vi_prob := true; vi_cube := {| pc_name := "probability_of_cloud_base_height_below_threshold"; pc_attr := "less_than"; pc_thr := [0]; pc_cols := [[3 # 4]; [1 # 4]] |} |}.
Theorem C92_cloud_direction_refuted : exists s0 T v c c' out out', usable LT v c /\ invert_probabilities (vi_cube c) = Ok (vi_cube c') /\ vi_prob c' = true /\ process s0 T [v; c] = Ok out /\ process s0 T [v; c'] = Ok out' /\ ~ prob out' 0 1 == prob out 0 1.
Proof.
  exists (6 # 10), 1000, example_visibility, example_cloud, {| vi_prob := true; vi_cube := {| pc_name := "probability_of_cloud_base_height_above_threshold"; pc_attr := "greater_than_or_equal_to"; pc_thr := [0]; pc_cols := [[1 # 4]; [3 # 4]] |} |}.
  eexists _, _. split; [repeat split; try reflexivity; intros col C; cbn in C; intuition (subst; reflexivity)|]. split; [reflexivity|]. split; [reflexivity|]. split; [reflexivity|]. split; [reflexivity|]. vm_compute. intro H. discriminate H.
Qed.
(** A negative initial value or a value above 1 is not refused and leads out of the probabilities. *)
Theorem C92_initial_value_refuted : exists s0 T v c out, usable LT v c /\ (forall i, 0 <= prob (vi_cube c) i 0 /\ prob (vi_cube c) i 0 <= 1) /\ process s0 T [v; c] = Ok out /\ 1 < prob out 0 0.
Proof.
  exists 2, 1000, example_visibility, example_cloud. eexists. split; [repeat split; try reflexivity; intros col C; cbn in C; intuition (subst; reflexivity)|]. split; [intros [|[|[|i]]]; vm_compute; split; discriminate|]. split; [reflexivity|]. vm_compute. reflexivity.
Qed.
Example C92_case : usable LT example_visibility example_cloud /\ match process (6 # 10) 1000 [example_cloud; example_visibility] with Ok out => map (map Qred) (pc_cols out) = [[809037 # 1600000; 3 # 4]; [1 # 2; 9 # 10]] | Err _ => False end.
Proof. split; [repeat split; try reflexivity; intros col C; cbn in C; intuition (subst; reflexivity)|]. vm_compute. reflexivity. Qed.

Print Assumptions C92_value.
Print Assumptions C92_share.
Print Assumptions C92_probability.
Print Assumptions C92_monotone.
Print Assumptions C92_direction.
Print Assumptions C92_refused.
Print Assumptions C92_cloud_direction_refuted.
Print Assumptions C92_initial_value_refuted.
