From Verif Require Import Base Model_Threshold Spec_Threshold Model_Percentiles Proofs_Percentiles Proofs_Resample Model_Probability Proofs_Names Proofs_Probability.

Lemma diffs_cons2 a b l : diffs (a :: b :: l) = (b - a) :: diffs (b :: l).
Proof. reflexivity. Qed.
Lemma mid_cons2 a b l : midpoints (a :: b :: l) = (a + (1 # 2) * (b - a)) :: midpoints (b :: l).
Proof. reflexivity. Qed.
Lemma midpoints_length l : length (midpoints l) = (length l - 1)%nat.
Proof. induction l as [|a [|b l] IH]; trivial. rewrite mid_cons2. cbn [length] in *. lia. Qed.
Lemma diffs_sum a l d : qsum (diffs (a :: l)) == last (a :: l) d - a.
Proof.
  revert a. induction l as [|b l IH]; intro a; [simpl; ring|]. rewrite diffs_cons2.
  change (last (a :: b :: l) d) with (last (b :: l) d). cbn [qsum]. rewrite (IH b). ring.
Qed.
Lemma diffs_nonneg_iff l : Forall (fun d => 0 <= d) (diffs l) <-> qsorted l.
Proof.
  split.
  - intro H. apply (qsorted_of_adj _ 0). intros i Hi. pose proof (diffs_nth l i Hi) as E.
    assert (0 <= nth i (diffs l) 0). { rewrite Forall_forall in H. apply H, nth_In. rewrite diffs_length. lia. }
    rewrite E in H0. lra.
  - intro H. apply Forall_forall. intros x Hx. apply (In_nth _ _ 0) in Hx as (i & Hi & <-). rewrite diffs_length in Hi.
    rewrite diffs_nth by lia. pose proof (qsorted_nth l 0 i (S i) H ltac:(lia)). lra.
Qed.
Lemma diffs_pos_iff l : Forall (fun d => 0 < d) (diffs l) <-> qssorted l.
Proof.
  split.
  - intro H. apply (qssorted_of_adj _ 0). intros i Hi. pose proof (diffs_nth l i Hi) as E.
    assert (0 < nth i (diffs l) 0). { rewrite Forall_forall in H. apply H, nth_In. rewrite diffs_length. lia. }
    rewrite E in H0. lra.
  - intro H. apply Forall_forall. intros x Hx. apply (In_nth _ _ 0) in Hx as (i & Hi & <-). rewrite diffs_length in Hi.
    rewrite diffs_nth by lia. pose proof (qssorted_nth l 0 i (S i) H ltac:(lia)). lra.
Qed.
Lemma existsb_false_Forall {A} (f : A -> bool) l : existsb f l = false <-> Forall (fun x => f x = false) l.
Proof.
  split.
  - intro H. apply Forall_forall. intros x Hx. destruct (f x) eqn:E; [|reflexivity].
    assert (existsb f l = true) by (apply existsb_exists; eauto). congruence.
  - induction 1; simpl; [reflexivity|]. rewrite H, IHForall. reflexivity.
Qed.
(** Convexity of [dot]. *)
Lemma dot_bounds w m lo hi : Forall (fun x => 0 <= x) w -> Forall (fun x => lo <= x <= hi) m -> (length w <= length m)%nat ->
  lo * qsum w <= dot w m <= hi * qsum w.
Proof.
  unfold dot. intro HW. revert m. induction HW as [|x w Hx HW IH]; intros m HM HL; [simpl; lra|].
  destruct m as [|y m]; [simpl in HL; lia|]. inversion HM as [|? ? Hy HM']; subst. cbn [zipw qsum]. simpl in HL.
  specialize (IH m HM' ltac:(lia)). nra.
Qed.
Lemma mid_between l lo hi : Forall (fun x => lo <= x <= hi) l -> Forall (fun x => lo <= x <= hi) (midpoints l).
Proof.
  induction l as [|a [|b l] IH]; intro H; try constructor.
  - inversion H as [|? ? Ha H']; subst. inversion H'; subst. lra.
  - apply IH. inversion H; trivial.
Qed.
Lemma mid_hd a b l : hd 0 (midpoints (a :: b :: l)) = a + (1 # 2) * (b - a).
Proof. reflexivity. Qed.
Lemma mid_sorted l : qsorted l -> qsorted (midpoints l).
Proof.
  intro H. assert (HN : forall i, (S i < length l)%nat -> nth i (midpoints l) 0 = nth i l 0 + (1 # 2) * (nth (S i) l 0 - nth i l 0)).
  { clear. induction l as [|a [|b l] IH]; intros i Hi; try (simpl in Hi; lia). rewrite mid_cons2. destruct i; [reflexivity|].
    cbn [nth]. rewrite IH by (simpl in *; lia). reflexivity. }
  apply (qsorted_of_adj _ 0). rewrite midpoints_length. intros i Hi. rewrite !HN by lia.
  pose proof (qsorted_nth l 0 i (S i) H ltac:(lia)). pose proof (qsorted_nth l 0 (S i) (S (S i)) H ltac:(lia)). lra.
Qed.
(** Summation by parts. *)
Lemma dot_dominance ms : qsorted ms -> forall cs cs' p p', length cs = length ms -> Forall2 (fun a b => b <= a) cs cs' ->
  last cs 0 == last cs' 0 ->
  dot (diffs (p :: cs)) ms + p * hd 0 ms <= dot (diffs (p' :: cs')) ms + p' * hd 0 ms.
Proof.
  induction ms as [|m ms IH]; intros HS cs cs' p p' HL HF HLast.
  - destruct cs; [|discriminate]. inversion HF; subst. unfold dot. simpl. lra.
  - destruct cs as [|c cs]; [discriminate|]. inversion HF as [|? c' ? cs1 Hc HF']; subst.
    rewrite !diffs_cons2. unfold dot in *. cbn [zipw qsum hd]. injection HL as HL.
    destruct ms as [|m1 ms].
    + destruct cs; [|discriminate]. inversion HF'; subst. simpl in *. rewrite HLast. lra.
    + destruct cs as [|d cs]; [discriminate|]. destruct cs1 as [|d' cs1]; [inversion HF'|].
      change (last (c :: d :: cs) 0) with (last (d :: cs) 0) in HLast. change (last (c' :: d' :: cs1) 0) with (last (d' :: cs1) 0) in HLast.
      inversion HS as [|? ? HS1 HS2]; subst. specialize (IH HS1 _ _ c c' HL HF' HLast). cbn [hd] in IH.
      inversion HS2; subst. nra.
Qed.

Lemma expand_sorted eps thr : 0 < eps -> thr <> [] -> qssorted thr -> qsorted (expand_thresholds eps thr) /\
  Forall (fun x => hd 0 (expand_thresholds eps thr) <= x <= last (expand_thresholds eps thr) 0) (expand_thresholds eps thr).
Proof.
  intros He HN HS.
  assert (H : qsorted (expand_thresholds eps thr)).
  { unfold expand_thresholds. apply with_ends_sorted.
    assert (HB : Forall (fun x => hd 0 thr <= x <= last thr 0) thr).
    { apply Forall_forall. intros x Hx. apply (In_nth _ _ 0) in Hx as (i & Hi & <-). apply qssorted_qsorted in HS. split.
      - destruct thr; [easy|]. apply (qsorted_nth _ 0 0 i HS). lia.
      - rewrite last_nth. apply (qsorted_nth _ 0 i _ HS). lia. }
    assert (Hh : hd 0 thr <= last thr 0). { destruct thr; [easy|]. inversion HB; subst. simpl hd. lra. }
    assert (M : forall x, eps <= Qmax eps x) by (intro; apply Q.le_max_l). pose proof (M (Qabs (hd 0 thr * eps))). pose proof (M (Qabs (last thr 0 * eps))).
    split; [lra|]. split; [apply qssorted_qsorted; exact HS|]. eapply Forall_impl; [|exact HB]. intros a [Ha1 Ha2]. cbn beta. lra. }
  split; [exact H|]. apply Forall_forall. intros x Hx. apply (In_nth _ _ 0) in Hx as (i & Hi & <-). split.
  - apply (qsorted_nth _ 0 0 i H). lia.
  - rewrite last_nth. apply (qsorted_nth _ 0 i _ H). lia.
Qed.
Lemma expand_length eps thr : length (expand_thresholds eps thr) = S (S (length thr)).
Proof. unfold expand_thresholds. cbn [length]. rewrite app_length. simpl. lia. Qed.

(** Inversion of the function. *)
Lemma integrate_inv eps c0 out : integrate_over_thresholds eps c0 = Ok out -> exists c,
  to_threshold_inequality c0 false = Ok c /\ qssorted (pc_thr c) /\
  Forall (fun col => qsorted (0 :: col ++ [1])) (pc_cols c) /\
  out = map (fun col => dot (diffs (0 :: col ++ [1])) (midpoints (expand_thresholds eps (pc_thr c)))) (pc_cols c).
Proof.
  unfold integrate_over_thresholds. destruct (to_threshold_inequality c0 false) as [c|]; [|discriminate]. cbn [bind]. intro H. exists c.
  split; [reflexivity|]. destruct (existsb _ (diffs (pc_thr c))) eqn:E1; [discriminate|].
  destruct (existsb _ (map _ _)) eqn:E2; [discriminate|]. injection H as <-.
  apply existsb_false_Forall in E1, E2. split; [|split].
  - apply diffs_pos_iff. eapply Forall_impl; [|exact E1]. cbn beta. intros a Ha. apply Qleb_gt; exact Ha.
  - apply Forall_map_iff in E2. eapply Forall_impl; [|exact E2]. cbn beta. intros col Hc. apply diffs_nonneg_iff.
    apply existsb_false_Forall in Hc. eapply Forall_impl; [|exact Hc]. cbn beta. intros a Ha. apply Qltb_ge; exact Ha.
  - rewrite map_map. reflexivity.
Qed.
Lemma integrate_total eps c0 c : to_threshold_inequality c0 false = Ok c -> 
  qssorted (pc_thr c) -> Forall (fun col => qsorted (0 :: col ++ [1])) (pc_cols c) -> exists out, integrate_over_thresholds eps c0 = Ok out.
Proof.
  intros H HT HC. unfold integrate_over_thresholds. rewrite H. cbn [bind].
  assert (E1 : existsb (fun d => d <=? 0) (diffs (pc_thr c)) = false).
  { apply existsb_false_Forall. apply diffs_pos_iff in HT. eapply Forall_impl; [|exact HT]. cbn beta. intros a Ha. apply Qleb_gt; exact Ha. }
  assert (E2 : existsb (existsb (fun d => d <? 0)) (map (fun col => diffs (0 :: col ++ [1])) (pc_cols c)) = false).
  { apply existsb_false_Forall, Forall_map_iff. eapply Forall_impl; [|exact HC]. cbn beta. intros col Hc.
    apply existsb_false_Forall. apply diffs_nonneg_iff in Hc. eapply Forall_impl; [|exact Hc]. cbn beta. intros a Ha. apply Qltb_ge; exact Ha. }
  rewrite E1, E2. eauto.
Qed.
Lemma integrate_accepts eps c0 c : to_threshold_inequality c0 false = Ok c ->
  ((exists out, integrate_over_thresholds eps c0 = Ok out) <->
   qssorted (pc_thr c) /\ Forall (fun col => qsorted col /\ Forall (fun p => 0 <= p <= 1) col) (pc_cols c)).
Proof.
  intro H. assert (HQ : Forall (fun col => qsorted (0 :: col ++ [1])) (pc_cols c) <-> Forall (fun col => qsorted col /\ Forall (fun p => 0 <= p <= 1) col) (pc_cols c)).
  { split; intro HF; (eapply Forall_impl; [|exact HF]); cbn beta; intros col.
    - intro Hc. apply (with_ends_sorted 0 1 col) in Hc. tauto.
    - intros [H1 H2]. apply (with_ends_sorted 0 1 col). repeat split; trivial. discriminate. }
  rewrite <- HQ. split.
  - intros [out HO]. apply integrate_inv in HO as (c' & E & H1 & H2 & _). rewrite H in E. injection E as <-. auto.
  - intros [H1 H2]. eapply integrate_total; eauto.
Qed.
Lemma integrate_rejected eps c0 c e : to_threshold_inequality c0 false = Ok c -> integrate_over_thresholds eps c0 = Err e -> e = ValueError.
Proof. intro H. unfold integrate_over_thresholds. rewrite H. cbn [bind]. destruct (existsb _ _); [congruence|]. destruct (existsb _ _); congruence. Qed.

Lemma integrate_value eps c0 out c i : 0 < eps -> integrate_over_thresholds eps c0 = Ok out -> to_threshold_inequality c0 false = Ok c ->
  pc_thr c <> [] -> Forall (fun col => length col = length (pc_thr c)) (pc_cols c) -> (i < length (pc_cols c))%nat ->
  let ext := expand_thresholds eps (pc_thr c) in
  exists w, length w = length (midpoints ext) /\ Forall (fun x => 0 <= x) w /\ qsum w == 1 /\ nth i out 0 == dot w (midpoints ext) /\
    (forall k, (k < length w)%nat -> nth k w 0 == nth (S k) (0 :: nth i (pc_cols c) [] ++ [1]) 0 - nth k (0 :: nth i (pc_cols c) [] ++ [1]) 0) /\
    hd 0 ext <= nth i out 0 <= last ext 0.
Proof.
  intros He H HC HN HL Hi ext. apply integrate_inv in H as (c' & E & HT & HCol & ->). rewrite HC in E. injection E as <-.
  set (col := nth i (pc_cols c) []). assert (Hcol : In col (pc_cols c)) by (apply nth_In; exact Hi).
  rewrite Forall_forall in HL, HCol. specialize (HL col Hcol). specialize (HCol col Hcol).
  rewrite nth_map_lt with (d := []) by exact Hi. fold col ext.
  assert (HLw : length (diffs (0 :: col ++ [1])) = length (midpoints ext)).
  { rewrite diffs_length, midpoints_length. unfold ext. rewrite expand_length. simpl. rewrite app_length. simpl. lia. }
  assert (HW : Forall (fun x => 0 <= x) (diffs (0 :: col ++ [1]))) by (apply diffs_nonneg_iff; exact HCol).
  assert (HS : qsum (diffs (0 :: col ++ [1])) == 1).
  { rewrite (diffs_sum 0 (col ++ [1]) 0). change (0 :: col ++ [1]) with ((0 :: col) ++ [1]). rewrite last_last. ring. }
  exists (diffs (0 :: col ++ [1])). split; [exact HLw|]. split; [exact HW|]. split; [exact HS|]. split; [reflexivity|]. split.
  - intros k Hk. rewrite diffs_length in Hk. rewrite diffs_nth by lia. reflexivity.
  - destruct (expand_sorted eps (pc_thr c) He HN HT) as [_ HB]. fold ext in HB. apply mid_between in HB.
    pose proof (dot_bounds _ _ _ _ HW HB ltac:(lia)). rewrite HS in H. lra.
Qed.

Lemma integrate_dominance eps c c' out out' i : 0 < eps -> integrate_over_thresholds eps c = Ok out -> integrate_over_thresholds eps c' = Ok out' ->
  direction (pc_attr c) = Some Below -> direction (pc_attr c') = Some Below -> pc_thr c' = pc_thr c -> pc_thr c <> [] ->
  (i < length (pc_cols c))%nat -> (i < length (pc_cols c'))%nat -> length (nth i (pc_cols c) []) = length (pc_thr c) ->
  Forall2 (fun p p' => p' <= p) (nth i (pc_cols c) []) (nth i (pc_cols c') []) -> nth i out 0 <= nth i out' 0.
Proof.
  intros He H H' HD HD' HT HN Hi Hi' HL HF.
  assert (HB : forall x, direction (pc_attr x) = Some Below -> to_threshold_inequality x false = Ok x).
  { intros x Hx. unfold to_threshold_inequality. unfold direction in Hx. 
    destruct (mem_str (pc_attr x) ["above"; "greater_than"; "greater_than_or_equal_to"]%string) eqn:E; [discriminate|].
    assert (E2 : mem_str (pc_attr x) (map spp_string [GE; GT]) = false).
    { unfold mem_str in *. cbn [existsb map spp_string] in *. rewrite !orb_false_iff in *. tauto. }
    rewrite E2, andb_false_r. reflexivity. }
  apply integrate_inv in H as (d & E & HS & _ & ->). rewrite (HB c HD) in E. injection E as <-.
  apply integrate_inv in H' as (d' & E & _ & _ & ->). rewrite (HB c' HD') in E. injection E as <-.
  rewrite !nth_map_lt with (d := []) by assumption. rewrite HT. set (ms := midpoints _).
  destruct (expand_sorted eps (pc_thr c) He HN HS) as [HE _].
  pose proof (dot_dominance ms (mid_sorted _ HE) (nth i (pc_cols c) [] ++ [1]) (nth i (pc_cols c') [] ++ [1]) 0 0) as G.
  assert (G1 : length (nth i (pc_cols c) [] ++ [1]) = length ms) by (unfold ms; rewrite midpoints_length, expand_length, app_length; simpl; lia).
  specialize (G G1). assert (G2 : Forall2 (fun a b => b <= a) (nth i (pc_cols c) [] ++ [1]) (nth i (pc_cols c') [] ++ [1])).
  { apply Forall2_app; [exact HF|]. constructor; [lra|constructor]. }
  specialize (G G2). rewrite !last_last in G. specialize (G ltac:(reflexivity)). lra.
Qed.
Lemma integrate_complement eps c op c' : pc_attr c = spp_string op -> above op = true -> invert_probabilities c = Ok c' ->
  integrate_over_thresholds eps c = integrate_over_thresholds eps c'.
Proof.
  intros E HA HI. destruct (to_ineq c op false E) as (d & Hd & _ & _ & HX). rewrite HI in HX. specialize (HX HA). injection HX as <-.
  apply invert_inv in HI as (op' & F1 & F2 & _). rewrite E in F1. apply spp_inj in F1. subst op'.
  destruct (to_ineq c' (negation op) false F2) as (d & Hd' & _ & HY & _).
  assert (above (negation op) = false) by (destruct op; simpl in *; congruence). specialize (HY H). subst d.
  unfold integrate_over_thresholds. rewrite Hd, Hd'. reflexivity.
Qed.
