From Verif Require Import Base Interp Proofs_Interp Model_Percentiles.

(** * C09 *)
Lemma linspace_length a b n : length (linspace a b n) = n.
Proof. unfold linspace. rewrite map_length, seq_length. reflexivity. Qed.
Lemma Qn_pos n : (0 < n)%nat -> 0 < Qn n.
Proof. intro H. change 0 with (Qn 0). apply Qn_lt; exact H. Qed.
Lemma choose_quantile n l : choose_set_of_percentiles n Quantile = Ok l ->
  length l = n /\ forall k, (k < n)%nat -> nth k l 0 == 100 * Qn (S k) / Qn (S n).
Proof.
  unfold choose_set_of_percentiles. cbn [bind]. intro H. injection H as <-.
  rewrite map_length, linspace_length. split; [reflexivity|]. intros k Hk.
  rewrite nth_map_lt with (d := 0) by (rewrite linspace_length; exact Hk).
  unfold linspace. rewrite nth_map_seq by exact Hk. pose proof (Qn_nonneg n).
  destruct (Nat.eqb_spec n 1) as [->|Hn].
  - assert (k = 0%nat) by lia. subst k. reflexivity.
  - rewrite !Qn_S. destruct n as [|n]; [lia|]. simpl. rewrite Nat.sub_0_r, !Qn_S.
    assert (0 < Qn n) by (apply Qn_pos; lia). field. lra.
Qed.
Lemma choose_quantile_ok n : exists l, choose_set_of_percentiles n Quantile = Ok l.
Proof. eexists; reflexivity. Qed.

Lemma Qdiv_lt_l a b c : 0 < c -> a < b -> a / c < b / c.
Proof. intros Hc H. apply Qlt_shift_div_l; [exact Hc|]. rewrite Qmult_comm, Qmult_div_r by lra. exact H. Qed.
Lemma Qdiv_le_l a b c : 0 < c -> a <= b -> a / c <= b / c.
Proof. intros Hc H. apply Qle_shift_div_l; [exact Hc|]. rewrite Qmult_comm, Qmult_div_r by lra. exact H. Qed.

Lemma choose_quantile_props n l : choose_set_of_percentiles n Quantile = Ok l ->
  qssorted l /\ Forall (fun p => 0 < p < 100) l /\
  (forall k, (k < n)%nat -> nth k l 0 + nth (n - 1 - k) l 0 == 100) /\
  (forall k, (k < S n)%nat -> nth (S k) (with_ends 0 100 l) 0 - nth k (with_ends 0 100 l) 0 == 100 / Qn (S n)).
Proof.
  intro H. apply choose_quantile in H as [HL HN]. pose proof (Qn_pos (S n) ltac:(lia)) as Hp.
  repeat split.
  - apply (qssorted_of_adj l 0). intros i Hi. rewrite !HN by lia. apply Qdiv_lt_l; [exact Hp|]. rewrite (Qn_S (S i)). lra.
  - apply Forall_forall. intros p Hpp. apply (In_nth _ _ 0) in Hpp as (k & Hk & <-). rewrite HN by lia.
    pose proof (Qn_pos (S k) ltac:(lia)). pose proof (Qn_lt (S k) (S n) ltac:(lia)). split.
    + apply Qlt_shift_div_l; [exact Hp|]. lra.
    + apply Qlt_shift_div_r; [exact Hp|]. lra.
  - intros k Hk. rewrite !HN by lia.
    assert (E : Qn (S n) == Qn (S k) + Qn (S (n - 1 - k))) by (rewrite <- Qn_plus; f_equiv; lia).
    rewrite E. rewrite E in Hp. field. lra.
  - intros k Hk. unfold with_ends.
    assert (HE : forall j, (j <= S n)%nat -> nth j (0 :: l ++ [100]) 0 == 100 * Qn j / Qn (S n)).
    { intros [|j] Hj.
      - simpl. unfold Qdiv. change (Qn 0) with 0. ring.
      - simpl. destruct (Nat.eq_dec j n) as [->|Hne].
        + rewrite app_nth2 by lia. rewrite HL, Nat.sub_diag. simpl. field. lra.
        + rewrite app_nth1 by lia. apply HN. lia. }
    rewrite !HE by lia. rewrite (Qn_S k). field. lra.
Qed.
Lemma choose_random draws l n lo hi : (forall d, In d draws -> lo <= d <= hi) ->
  choose_set_of_percentiles n (Random draws) = Ok l ->
  qsorted l /\ length l = length draws /\ Forall (fun p => lo * 100 <= p <= hi * 100) l /\
  Permutation l (map (fun d => d * 100) draws).
Proof.
  intros HB H. injection H as <-. split; [|split; [|split]].
  - apply (qsorted_of_nth _ 0). rewrite map_length. intros i j Hij. rewrite !nth_map_lt with (d := 0) by lia.
    pose proof (qsorted_nth (qsort draws) 0 i j (qsort_sorted draws) Hij). lra.
  - rewrite map_length. apply qsort_length.
  - apply Forall_forall. intros p Hp. apply in_map_iff in Hp as (d & <- & Hd).
    apply (Permutation_in d (Permutation_sym (qsort_perm draws))) in Hd. specialize (HB d Hd). lra.
  - apply Permutation_map. symmetry. apply qsort_perm.
Qed.

(** * C18 *)
Lemma uniq_strict l : qssorted l -> uniq l = l.
Proof.
  induction 1 as [|x l Hs IH Hf]; [reflexivity|]. destruct l as [|y l]; [reflexivity|].
  change (uniq (x :: y :: l)) with (if x =? y then uniq (y :: l) else x :: uniq (y :: l)).
  inversion Hf; subst. destruct (Qeqb_spec x y); [lra|]. rewrite IH. reflexivity.
Qed.
Lemma diffs_length l : length (diffs l) = (length l - 1)%nat.
Proof. induction l as [|x [|y l] IH]; try reflexivity. change (diffs (x :: y :: l)) with (y - x :: diffs (y :: l)). simpl length in *. lia. Qed.
Lemma diffs_nth l i : (S i < length l)%nat -> nth i (diffs l) 0 = nth (S i) l 0 - nth i l 0.
Proof.
  revert i. induction l as [|x [|y l] IH]; intros i H; try (simpl in H; lia).
  change (diffs (x :: y :: l)) with (y - x :: diffs (y :: l)). destruct i as [|i]; [reflexivity|].
  change (nth i (diffs (y :: l)) 0 = nth (S i) (y :: l) 0 - nth i (y :: l) 0). apply IH. simpl in *; lia.
Qed.
Lemma qssorted_Qeq l m : Forall2 Qeq l m -> qssorted m -> qssorted l.
Proof.
  intros H Hs. apply (qssorted_of_adj l 0). intros i Hi.
  rewrite !(Forall2_Qeq_nth l m) by exact H. apply qssorted_nth; trivial.
  rewrite <- (Forall2_len _ _ _ H). lia.
Qed.
Lemma with_ends_strict lo hi l : qssorted l -> Forall (fun p => lo < p < hi) l -> lo < hi -> qssorted (with_ends lo hi l).
Proof.
  intros Hs Hf Hlh. apply (qssorted_of_adj _ 0). unfold with_ends. intros i Hi. simpl in Hi. rewrite app_length in Hi. simpl in Hi.
  assert (HI : forall j, (j < length l)%nat -> lo < nth j l 0 < hi).
  { intros j Hj. rewrite Forall_forall in Hf. apply Hf, nth_In, Hj. }
  destruct i as [|i]; simpl.
  - destruct l as [|x l]; simpl; [exact Hlh|]. apply (HI 0%nat). simpl; lia.
  - rewrite (app_nth1 l [hi]) by lia. destruct (Nat.eq_dec (S i) (length l)) as [E|E].
    + rewrite app_nth2 by lia. rewrite E, Nat.sub_diag. simpl. apply (HI i). lia.
    + rewrite app_nth1 by lia. apply qssorted_nth; trivial. lia.
Qed.
(** The sorted unique points of strictly increasing labels inside (0,100). *)
Lemma padded_points l : qssorted l -> Forall (fun p => 0 < p < 100) l ->
  Forall2 Qeq (uniq (qsort (l ++ [0; 100]))) (with_ends 0 100 l).
Proof.
  intros Hs Hf. assert (HW : qssorted (with_ends 0 100 l)) by (apply with_ends_strict; trivial; reflexivity).
  assert (HP : Permutation (qsort (l ++ [0; 100])) (with_ends 0 100 l)).
  { rewrite <- qsort_perm. unfold with_ends. rewrite <- (Permutation_middle l [100] 0). reflexivity. }
  pose proof (qsorted_perm_eq _ _ (qsort_sorted (l ++ [0; 100])) (qssorted_qsorted _ HW) HP) as HE.
  rewrite uniq_strict; [exact HE|]. eapply qssorted_Qeq; eauto.
Qed.
Lemma isclose_refl a b : a == b -> isclose a b = true.
Proof.
  intro E. unfold isclose. apply Qleb_le. assert (E0 : a - b == 0) by lra. rewrite E0.
  pose proof (Qabs_nonneg b). change (Qabs 0) with 0. lra.
Qed.
Lemma isclose_true a b : isclose a b = true -> Qabs (a - b) <= (1 # 100000000) + (1 # 100000) * Qabs b.
Proof. intro H. apply Qleb_le; exact H. Qed.

Lemma labels_nth n k optimal (m : list Q) : length m = n -> (k < n)%nat ->
  nth k (fst (rebadge_as_percentiles optimal m)) 0 ==
  if optimal then 100 * (Qn k + (1 # 2)) / Qn n else 100 * Qn (S k) / Qn (S n).
Proof.
  intros HL Hk. unfold rebadge_as_percentiles. rewrite HL. cbn [fst]. rewrite nth_map_seq by exact Hk.
  destruct optimal; [reflexivity|]. rewrite !Qn_S. reflexivity.
Qed.
Lemma labels_strict m optimal : qssorted (fst (rebadge_as_percentiles optimal m)) /\
  Forall (fun p => 0 < p < 100) (fst (rebadge_as_percentiles optimal m)) /\
  length (fst (rebadge_as_percentiles optimal m)) = length m.
Proof.
  set (n := length m). assert (HL : length (fst (rebadge_as_percentiles optimal m)) = n).
  { unfold rebadge_as_percentiles. cbn [fst]. rewrite map_length, seq_length. reflexivity. }
  split; [|split; [|exact HL]].
  - apply (qssorted_of_adj _ 0). rewrite HL. intros i Hi. rewrite !(labels_nth n) by (trivial; lia).
    destruct optimal; apply Qdiv_lt_l.
    + apply Qn_pos; lia.
    + rewrite Qn_S. lra.
    + apply Qn_pos; lia.
    + rewrite (Qn_S (S i)). lra.
  - apply Forall_forall. intros p Hp. apply (In_nth _ _ 0) in Hp as (k & Hk & <-). rewrite HL in Hk.
    rewrite (labels_nth n) by trivial. pose proof (Qn_nonneg k). pose proof (Qn_lt k n Hk).
    pose proof (Qn_S k) as ES. pose proof (Qn_S n) as ES'.
    assert (H1 : Qn (S k) <= Qn n) by (apply Qn_le; lia).
    destruct optimal; split; try (apply Qlt_shift_div_l; lra); apply Qlt_shift_div_r; lra.
Qed.
Lemma max_min_diff l : (2 <= length l)%nat -> exists d ds, diffs l = d :: ds /\
  (exists i, (S i < length l)%nat /\ qmaxl d ds == nth (S i) l 0 - nth i l 0) /\
  (exists i, (S i < length l)%nat /\ qminl d ds == nth (S i) l 0 - nth i l 0) /\
  (forall i, (S i < length l)%nat -> qminl d ds <= nth (S i) l 0 - nth i l 0 <= qmaxl d ds).
Proof.
  intro HL. pose proof (diffs_length l) as HD. destruct (diffs l) as [|d ds] eqn:E; [simpl in HD; lia|].
  exists d, ds. split; [reflexivity|].
  assert (HI : forall y, In y (d :: ds) -> exists i, (S i < length l)%nat /\ y = nth (S i) l 0 - nth i l 0).
  { intros y Hy. rewrite <- E in Hy. apply (In_nth _ _ 0) in Hy as (i & Hi & <-). rewrite diffs_length in Hi.
    exists i. split; [lia|]. apply diffs_nth. lia. }
  split; [|split].
  - destruct (qmaxl_in d ds) as (y & Hy & Ey). destruct (HI y Hy) as (i & Hi & ->). eauto.
  - destruct (qminl_in d ds) as (y & Hy & Ey). destruct (HI y Hy) as (i & Hi & ->). eauto.
  - intros i Hi. assert (Hin : In (nth (S i) l 0 - nth i l 0) (d :: ds)).
    { rewrite <- E, <- diffs_nth by exact Hi. apply nth_In. rewrite diffs_length. lia. }
    split; [apply qminl_le|apply qmaxl_ge]; exact Hin.
Qed.

Lemma rebadge_roundtrip (m : list Q) :
  rebadge_as_realizations (fst (rebadge_as_percentiles false m)) false None = Ok (map Z.of_nat (seq 0 (length m))).
Proof.
  destruct (labels_strict m false) as (H1 & H2 & H3).
  pose proof (padded_points _ H1 H2) as HE. unfold rebadge_as_realizations.
  set (l := fst (rebadge_as_percentiles false m)) in *. set (u := uniq (qsort (l ++ [0; 100]))) in *.
  pose proof (Forall2_len _ _ _ HE) as HL. unfold with_ends in HL. simpl in HL. rewrite app_length in HL. simpl in HL.
  destruct (max_min_diff u) as (d & ds & E & (i & Hi & Ei) & (j & Hj & Ej) & _); [lia|].
  assert (HD : forall i, (S i < length u)%nat -> nth (S i) u 0 - nth i u 0 == 100 / Qn (S (length m))).
  { intros k Hk. rewrite !(Forall2_Qeq_nth _ _ _ _ HE). unfold with_ends.
    assert (HE' : forall j, (j <= S (length m))%nat -> nth j (0 :: l ++ [100]) 0 == 100 * Qn j / Qn (S (length m))).
    { pose proof (Qn_pos (S (length m)) ltac:(lia)). intros [|q] Hq.
      - simpl. unfold Qdiv. change (Qn 0) with 0. ring.
      - simpl. destruct (Nat.eq_dec q (length m)) as [->|Hne].
        + rewrite app_nth2 by lia. rewrite H3, Nat.sub_diag. simpl. field. lra.
        + rewrite app_nth1 by lia. apply (labels_nth (length m) q false m eq_refl). lia. }
    rewrite !HE' by lia. rewrite (Qn_S k). field. pose proof (Qn_pos (S (length m)) ltac:(lia)). lra. }
  rewrite E. rewrite isclose_refl by (rewrite Ei, Ej, !HD by assumption; reflexivity).
  cbn [negb]. rewrite map_length, seq_length, Nat.eqb_refl. rewrite H3. reflexivity.
Qed.

(** Accepted labels partition [0,100] equally, up to np.isclose. *)
Lemma rebadge_accepts_equal points has nums out : rebadge_as_realizations points has nums = Ok out ->
  let u := uniq (qsort (points ++ [0; 100])) in
  forall i j, (S i < length u)%nat -> (S j < length u)%nat ->
    Qabs ((nth (S i) u 0 - nth i u 0) - (nth (S j) u 0 - nth j u 0)) <=
      (1 # 100000000) + (1 # 100000) * Qabs (nth (S j) u 0 - nth j u 0).
Proof.
  unfold rebadge_as_realizations. set (u := uniq _). intros H i j Hi Hj.
  destruct (max_min_diff u) as (d & ds & E & _ & _ & HB); [lia|]. rewrite E in H.
  destruct (isclose (qmaxl d ds) (qminl d ds)) eqn:Ec; [|discriminate]. apply isclose_true in Ec.
  pose proof (HB i Hi) as B1. pose proof (HB j Hj) as B2.
  set (a := nth (S i) u 0 - nth i u 0) in *. set (b := nth (S j) u 0 - nth j u 0) in *.
  set (M := qmaxl d ds) in *. set (mn := qminl d ds) in *.
  assert (HMm : Qabs (M - mn) == M - mn) by (apply Qabs_pos; lra). rewrite HMm in Ec.
  assert (Hab : Qabs (a - b) <= M - mn).
  { apply Qabs_Qle_condition. split; lra. }
  (* the sorted unique points increase, so the differences are positive *)
  assert (Hpos : 0 <= mn).
  { destruct (qminl_in d ds) as (y & Hy & Ey). fold mn in Ey. rewrite Ey. rewrite <- E in Hy.
    apply (In_nth _ _ 0) in Hy as (k & Hk & <-). rewrite diffs_length in Hk. rewrite diffs_nth by lia.
    assert (HS : qsorted u).
    { unfold u. clear. pose proof (qsort_sorted (points ++ [0; 100])) as HS. set (w := qsort _) in *. clearbody w.
      assert (HI : forall l x, In x (uniq l) -> In x l).
      { clear. induction l as [|a [|b l] IH]; intros x Hx; trivial.
        change (uniq (a :: b :: l)) with (if a =? b then uniq (b :: l) else a :: uniq (b :: l)) in Hx.
        destruct (a =? b); [right; apply IH; exact Hx|]. destruct Hx as [->|Hx]; [left; reflexivity|right; apply IH; exact Hx]. }
      induction HS as [|a l Hs IH Hf]; [constructor|]. destruct l as [|b l]; [repeat constructor|].
      change (uniq (a :: b :: l)) with (if a =? b then uniq (b :: l) else a :: uniq (b :: l)).
      destruct (a =? b); [exact IH|]. constructor; [exact IH|]. apply Forall_forall. intros x Hx.
      rewrite Forall_forall in Hf. apply Hf. apply HI; exact Hx. }
    pose proof (qsorted_nth u 0 k (S k) HS ltac:(lia)). lra. }
  assert (Hmn : Qabs mn == mn) by (apply Qabs_pos; lra). rewrite Hmn in Ec.
  assert (Hb : Qabs b == b) by (apply Qabs_pos; lra). rewrite Hb. lra.
Qed.

Lemma crps_not_close (m : list Q) has nums out : (2 <= length m)%nat -> (Z.of_nat (length m) <= 1000000000)%Z ->
  rebadge_as_realizations (fst (rebadge_as_percentiles true m)) has nums <> Ok out.
Proof.
  intros H2 Hbig E. destruct (labels_strict m true) as (S1 & S2 & S3). pose proof (padded_points _ S1 S2) as HE.
  pose proof (rebadge_accepts_equal _ _ _ _ E) as HA. cbv zeta in HA.
  set (l := fst (rebadge_as_percentiles true m)) in *. set (u := uniq _) in *.
  pose proof (Forall2_len _ _ _ HE) as HL. unfold with_ends in HL. simpl in HL. rewrite app_length in HL. simpl in HL.
  specialize (HA 1%nat 0%nat ltac:(lia) ltac:(lia)).
  rewrite !(Forall2_Qeq_nth _ _ _ _ HE) in HA. unfold with_ends in HA. cbn [nth] in HA.
  rewrite !(app_nth1 l [100]) in HA by lia. unfold l in HA.
  rewrite !(labels_nth (length m)) in HA by (trivial; lia). cbn iota in HA.
  set (N := Qn (length m)) in *.
  assert (HN : 2 <= N) by (unfold N; change 2 with (Qn 2); apply Qn_le; lia).
  assert (HN' : N <= 1000000000).
  { unfold N, Qn. change 1000000000 with (inject_Z 1000000000). rewrite <- Zle_Qle. exact Hbig. }
  assert (E1 : 100 * (Qn 1 + (1 # 2)) / N - 100 * (Qn 0 + (1 # 2)) / N - (100 * (Qn 0 + (1 # 2)) / N - 0) == 50 / N).
  { change (Qn 0) with 0. change (Qn 1) with 1. field. lra. }
  assert (E2 : 100 * (Qn 0 + (1 # 2)) / N - 0 == 50 / N) by (change (Qn 0) with 0; field; lra).
  rewrite E1, E2 in HA.
  assert (Hp : (5 # 100000000) <= 50 / N) by (apply Qle_shift_div_l; lra).
  assert (Ha : Qabs (50 / N) == 50 / N) by (apply Qabs_pos; lra). rewrite Ha in HA. lra.
Qed.
Lemma crps_rejected (m : list Q) has nums : (2 <= length m)%nat -> (Z.of_nat (length m) <= 1000000000)%Z ->
  rebadge_as_realizations (fst (rebadge_as_percentiles true m)) has nums = Err ValueError.
Proof.
  intros H2 Hbig. pose proof (fun h n o => crps_not_close m h n o H2 Hbig) as HN.
  unfold rebadge_as_realizations in *. destruct (diffs _) as [|d ds] eqn:Ed; [reflexivity|].
  destruct (isclose _ _) eqn:Ec; [|reflexivity]. exfalso. cbn [negb] in HN.
  apply (HN false None (map Z.of_nat (seq 0 (length (fst (rebadge_as_percentiles true m)))))).
  rewrite map_length, seq_length, Nat.eqb_refl. reflexivity.
Qed.
