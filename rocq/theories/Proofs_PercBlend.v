From Coq Require Import SetoidList SetoidPermutation.
From Verif Require Import Base Interp Spec_Threshold Model_Blending Proofs_Weights Proofs_Blending.

(** * Sorting respects equality of values *)
Lemma eqlistA_F2 l m : eqlistA Qeq l m <-> Forall2 Qeq l m.
Proof. split; induction 1; constructor; trivial. Qed.
Lemma qsort_permA l m : PermutationA Qeq l m -> Forall2 Qeq (qsort l) (qsort m).
Proof.
  intro H. apply (PermutationA_decompose Q_Setoid) in H as (l2 & P & E).
  destruct (Permutation_eqlistA_commute E (qsort_perm m)) as (l3 & P3 & E3). apply eqlistA_F2 in E3.
  assert (S3 : qsorted l3) by (apply (qsorted_Qeq (qsort m)); [apply Forall2_Qeq_sym; exact E3|apply qsort_sorted]).
  apply (Forall2_Qeq_trans _ l3); [|exact E3]. apply qsorted_perm_eq; [apply qsort_sorted|exact S3|]. rewrite <- qsort_perm, P. exact P3.
Qed.
Lemma np_from_cong k k' : Forall2 (fun p q => fst p == fst q /\ snd p == snd q) k k' ->
  forall x0 y0 x0' y0' x, x0 == x0' -> y0 == y0' -> np_from x0 y0 k x == np_from x0' y0' k' x.
Proof.
  induction 1 as [|[x1 y1] [x1' y1'] k k' [E1 E2] F IH]; intros x0 y0 x0' y0' x X Y; cbn [np_from]; [exact Y|]. cbn [fst snd] in *.
  destruct (Qleb_spec x1 x), (Qleb_spec x1' x); try (exfalso; lra); [apply IH; assumption|].
  destruct (Qeqb_spec x0 x), (Qeqb_spec x0' x); try (exfalso; lra); [exact Y|]. rewrite X, Y, E1, E2. reflexivity.
Qed.
Lemma np_interp_cong k k' x : Forall2 (fun p q => fst p == fst q /\ snd p == snd q) k k' -> np_interp k x == np_interp k' x.
Proof.
  intro F. destruct F as [|[x0 y0] [x0' y0'] k k' [E1 E2] F]; [reflexivity|]. cbn [np_interp fst snd] in *.
  destruct (Qltb_spec x x0), (Qltb_spec x x0'); try (exfalso; lra); [exact E2|]. apply np_from_cong; assumption.
Qed.
Lemma combine_cong a a' : Forall2 Qeq a a' -> forall b b', Forall2 Qeq b b' -> Forall2 (fun p q : Q * Q => fst p == fst q /\ snd p == snd q) (combine a b) (combine a' b').
Proof. induction 1; intros b b' F; simpl; [constructor|]. destruct F; constructor; auto. Qed.

(** * Basic facts *)
Lemma combined_length rows ps ws : Forall (fun r => length r = length ps) rows -> length (concat (combined_cdf rows ps ws)) = length (concat rows).
Proof.
  intro H. unfold combined_cdf. assert (G : forall s, length (concat (map (fun k => map (cdf_entry rows ps ws k) (seq 0 (length ps))) s)) = (length s * length ps)%nat).
  { induction s; simpl; [reflexivity|]. rewrite app_length, map_length, seq_length, IHs. reflexivity. }
  rewrite G, seq_length. clear G. induction H; simpl; [reflexivity|]. rewrite app_length, H, <- IHForall. reflexivity.
Qed.
Lemma blend_length rows ps ws : length (blend_percentiles rows ps ws) = length ps.
Proof. apply map_length. Qed.
Lemma blend_sorted rows ps ws : qsorted ps -> Forall (fun r => length r = length ps) rows -> qsorted (blend_percentiles rows ps ws).
Proof.
  intros S H. unfold blend_percentiles. set (k := combine _ _).
  assert (K : qsorted (map snd k)) by (unfold k; rewrite map_snd_combine by (rewrite !qsort_length; apply combined_length; exact H); apply qsort_sorted).
  clearbody k. induction S as [|p ps S IH F]; simpl; constructor.
  - clear IH F H. induction S as [|q ps S IH F]; simpl; constructor; trivial. rewrite Forall_map. eapply Forall_impl; [|exact F]. intros a Ha. apply np_interp_mono; assumption.
  - rewrite Forall_map. eapply Forall_impl; [|exact F]. intros a Ha. apply np_interp_mono; assumption.
Qed.
Lemma blend_bounds rows ps ws lo hi : rows <> [] -> ps <> [] -> Forall (fun r => length r = length ps) rows -> Forall (Forall (fun v => lo <= v <= hi)) rows ->
  Forall (fun v => lo <= v <= hi) (blend_percentiles rows ps ws).
Proof.
  intros NR NP H B. unfold blend_percentiles. rewrite Forall_map. apply Forall_forall. intros p _. apply np_interp_bounds.
  - intro E. assert (L : length (combine (qsort (concat (combined_cdf rows ps ws))) (qsort (concat rows))) = 0%nat) by (rewrite E; reflexivity).
    rewrite combine_length, !qsort_length, combined_length, Nat.min_id in L by exact H. destruct rows as [|r rows]; [easy|]. inversion H; subst. simpl in L. rewrite app_length in L.
    destruct ps; [easy|]. simpl in H2. lia.
  - apply (Forall_snd_combine (fun y => lo <= y <= hi)). apply (Permutation_Forall (qsort_perm (concat rows))). apply Forall_concat, B.
Qed.

(** * Identical forecasts *)
Lemma np_from_block n x1 y1 k : forall x0 y0 x, (0 < n)%nat -> x1 <= x -> np_from x0 y0 (repeat (x1, y1) n ++ k) x = np_from x1 y1 k x.
Proof.
  induction n as [|n IH]; intros x0 y0 x Hn Hx; [lia|]. cbn [repeat app np_from]. destruct (Qleb_spec x1 x); [|lra].
  destruct n; [reflexivity|]. apply IH; [lia|exact Hx].
Qed.
Definition blocks (n : nat) (k : list (Q * Q)) : list (Q * Q) := concat (map (fun p => repeat p n) k).
Lemma np_from_blocks n k : (0 < n)%nat -> forall x0 y0 i, qssorted (x0 :: map fst k) -> (i < length k)%nat ->
  np_from x0 y0 (blocks n k) (nth i (map fst k) 0) == nth i (map snd k) 0.
Proof.
  intro Hn. induction k as [|[x1 y1] k IH]; intros x0 y0 i HS Hi; [simpl in Hi; lia|]. inversion HS as [|? ? HS1 HF]; subst. cbn [map fst] in HS1.
  unfold blocks. cbn [map concat]. fold (blocks n k).
  assert (LE : x1 <= nth i (map fst ((x1, y1) :: k)) 0) by (apply (qsorted_nth (x1 :: map fst k) 0 0 i); [apply qssorted_qsorted; exact HS1|simpl in *; rewrite map_length; lia]).
  rewrite np_from_block by assumption. destruct i as [|i]; cbn [map fst snd nth].
  - destruct k as [|[x2 y2] k]; [reflexivity|]. unfold blocks. cbn [map concat]. destruct n; [lia|]. cbn [repeat app]. apply np_from_start. inversion HS1 as [|? ? _ F1]; subst. inversion F1; trivial.
  - apply IH; [exact HS1|simpl in Hi; lia].
Qed.
Lemma np_interp_blocks n k i : (0 < n)%nat -> qssorted (map fst k) -> (i < length k)%nat -> np_interp (blocks n k) (nth i (map fst k) 0) == nth i (map snd k) 0.
Proof.
  intros Hn HS Hi. destruct k as [|[x0 y0] k]; [simpl in Hi; lia|]. assert (E : forall x, np_interp (blocks n ((x0, y0) :: k)) x = if x <? x0 then y0 else np_from x0 y0 (repeat (x0, y0) (n - 1) ++ blocks n k) x).
  { intro x. unfold blocks. cbn [map concat]. destruct n; [lia|]. cbn [repeat app np_interp]. rewrite Nat.sub_succ, Nat.sub_0_r. reflexivity. }
  rewrite E. set (x := nth i _ 0). assert (LE : x0 <= x) by (apply (qsorted_nth (x0 :: map fst k) 0 0 i); [apply qssorted_qsorted; exact HS|simpl in *; rewrite map_length; lia]).
  destruct (Qltb_spec x x0); [lra|].
  assert (E2 : np_from x0 y0 (repeat (x0, y0) (n - 1) ++ blocks n k) x = np_from x0 y0 (blocks n k) x).
  { destruct (n - 1)%nat eqn:N1; [reflexivity|]. apply np_from_block; [lia|exact LE]. }
  rewrite E2. destruct i as [|i].
  - unfold x. cbn [map fst snd nth]. destruct k as [|[x1 y1] k]; [reflexivity|]. unfold blocks. cbn [map concat]. destruct n; [lia|]. cbn [repeat app]. apply np_from_start. inversion HS as [|? ? _ F1]; subst. inversion F1; trivial.
  - unfold x. cbn [map fst snd nth]. apply np_from_blocks; [exact Hn|exact HS|simpl in Hi; lia].
Qed.
Definition qblocks (n : nat) (l : list Q) : list Q := concat (map (fun p => repeat p n) l).
Lemma repeat_Forall {A} (P : A -> Prop) x n : P x -> Forall P (repeat x n).
Proof. intro H. induction n; simpl; constructor; auto. Qed.
Lemma qblocks_Forall (P : Q -> Prop) n l : Forall P l -> Forall P (qblocks n l).
Proof. intro H. unfold qblocks. induction H; simpl; [constructor|]. apply Forall_app. split; [apply repeat_Forall; trivial|trivial]. Qed.
Lemma qblocks_sorted n l : qsorted l -> qsorted (qblocks n l).
Proof.
  induction 1 as [|x l S IH F]; unfold qblocks; simpl; [constructor|]. fold (qblocks n l). apply qsorted_app; trivial.
  - clear. induction n; simpl; constructor; trivial. apply repeat_Forall. lra.
  - intros a b Ha Hb. apply repeat_spec in Ha. subst a. pose proof (qblocks_Forall (Qle x) n l F) as G. rewrite Forall_forall in G. apply G, Hb.
Qed.
Lemma qblocks_perm n l : Permutation (concat (repeat l n)) (qblocks n l).
Proof.
  induction n as [|n IH]; simpl.
  - unfold qblocks. induction l; simpl; trivial.
  - rewrite IH. clear IH. unfold qblocks. induction l as [|x l IH]; simpl; [reflexivity|]. apply perm_skip. rewrite <- IH. rewrite !app_assoc. apply Permutation_app_tail, Permutation_app_comm.
Qed.
Lemma blocks_combine n a : forall b, length a = length b -> combine (qblocks n a) (qblocks n b) = blocks n (combine a b).
Proof.
  induction a as [|x a IH]; intros [|y b] H; try discriminate; [reflexivity|]. unfold qblocks, blocks. cbn [map concat combine]. rewrite combine_app by (rewrite !repeat_length; reflexivity).
  fold (qblocks n a) (qblocks n b) (blocks n (combine a b)). rewrite IH by (simpl in H; lia). f_equal. clear. induction n; simpl; [reflexivity|]. rewrite IHn. reflexivity.
Qed.
Lemma nth_repeat_in {A} (x d : A) n i : (i < n)%nat -> nth i (repeat x n) d = x.
Proof. revert i. induction n; intros [|i] H; simpl; try lia; [reflexivity|]. apply IHn. lia. Qed.
Lemma qsum_map_nth (ws : list Q) : qsum (map (fun i => nth i ws 0) (seq 0 (length ws))) == qsum ws.
Proof.
  assert (E : map (fun i => nth i ws 0) (seq 0 (length ws)) = ws).
  { apply (nth_ext _ _ 0 0); [rewrite map_length, seq_length; reflexivity|]. rewrite map_length, seq_length. intros i Hi. rewrite nth_map_seq by exact Hi. reflexivity. }
  rewrite E. reflexivity.
Qed.
Lemma blend_identical v ps ws : length v = length ps -> qssorted v -> qssorted ps -> qsum ws == 1 ->
  Forall2 Qeq (blend_percentiles (repeat v (length ws)) ps ws) v.
Proof.
  intros L SV SP W. assert (Hn : (0 < length ws)%nat) by (destruct ws; [simpl in W; discriminate|simpl; lia]). set (n := length ws) in *.
  assert (C : Forall2 Qeq (concat (combined_cdf (repeat v n) ps ws)) (concat (repeat ps n))).
  { unfold combined_cdf. rewrite repeat_length. assert (G : forall s, Forall (fun k => (k < n)%nat) s -> Forall2 Qeq (concat (map (fun k => map (cdf_entry (repeat v n) ps ws k) (seq 0 (length ps))) s)) (concat (repeat ps (length s)))).
    { induction 1 as [|k s Hk Hs IH]; simpl; [constructor|]. apply Forall2_app; [|exact IH]. apply (Forall2_Qeq_of_nth _ _ 0); [rewrite map_length, seq_length; reflexivity|].
      rewrite map_length, seq_length. intros j Hj. rewrite nth_map_seq by exact Hj. unfold cdf_entry. rewrite repeat_length.
      transitivity (qsum (map (fun i => nth i ws 0 * nth j ps 0) (seq 0 n))).
      - apply qsum_map_ext. intros i Hi. apply in_seq in Hi. rewrite !nth_repeat_in by lia. destruct (Nat.eqb_spec k i); [ring|].
        assert (E : np_interp (combine v ps) (nth j v 0) == nth j ps 0).
        { pose proof (np_interp_knot (combine v ps) j) as K. rewrite map_fst_combine, map_snd_combine in K by exact L. apply K; [exact SV|]. rewrite combine_length. lia. }
        rewrite E. ring.
      - rewrite <- (map_map (fun i => nth i ws 0) (fun w => w * nth j ps 0)), qsum_map_mul. unfold n. rewrite qsum_map_nth, W. ring. }
    specialize (G (seq 0 n)). rewrite seq_length in G. apply G. apply Forall_forall. intros k Hk. apply in_seq in Hk. lia. }
  assert (C2 : Forall2 Qeq (qsort (concat (combined_cdf (repeat v n) ps ws))) (qblocks n ps)).
  { apply (Forall2_Qeq_trans _ (qsort (concat (repeat ps n)))).
    - apply qsort_permA. apply eqlistA_PermutationA. apply eqlistA_F2. exact C.
    - apply qsorted_perm_eq; [apply qsort_sorted|apply qblocks_sorted, qssorted_qsorted; exact SP|]. rewrite <- qsort_perm. apply qblocks_perm. }
  assert (V2 : Forall2 Qeq (qsort (concat (repeat v n))) (qblocks n v)).
  { apply qsorted_perm_eq; [apply qsort_sorted|apply qblocks_sorted, qssorted_qsorted; exact SV|]. rewrite <- qsort_perm. apply qblocks_perm. }
  apply (Forall2_Qeq_of_nth _ _ 0); [rewrite blend_length; auto|]. rewrite blend_length. intros j Hj. unfold blend_percentiles. rewrite (nth_map_lt _ _ _ 0) by exact Hj.
  transitivity (np_interp (combine (qblocks n ps) (qblocks n v)) (nth j ps 0)); [apply np_interp_cong, combine_cong; assumption|].
  rewrite blocks_combine by (symmetry; exact L). pose proof (np_interp_blocks n (combine ps v) j Hn) as K.
  rewrite map_fst_combine, map_snd_combine in K by (symmetry; exact L). apply K; [exact SP|]. rewrite combine_length. lia.
Qed.
(** One forecast. *)
Lemma blend_single v ps : length v = length ps -> qsorted v -> qssorted ps -> Forall2 Qeq (blend_percentiles [v] ps [1]) v.
Proof.
  intros L SV SP. assert (C : Forall2 Qeq (concat (combined_cdf [v] ps [1])) ps).
  { unfold combined_cdf. cbn [length seq map concat]. rewrite app_nil_r. apply (Forall2_Qeq_of_nth _ _ 0); [rewrite map_length, seq_length; reflexivity|].
    rewrite map_length, seq_length. intros j Hj. rewrite nth_map_seq by exact Hj. unfold cdf_entry. simpl. ring. }
  assert (C2 : Forall2 Qeq (qsort (concat (combined_cdf [v] ps [1]))) ps).
  { apply (Forall2_Qeq_trans _ (qsort ps)).
    - apply qsort_permA. apply eqlistA_PermutationA. apply eqlistA_F2. exact C.
    - rewrite qsort_id by (apply qssorted_qsorted; exact SP). apply Forall2_Qeq_refl. }
  apply (Forall2_Qeq_of_nth _ _ 0); [rewrite blend_length; auto|]. rewrite blend_length. intros j Hj. unfold blend_percentiles. rewrite (nth_map_lt _ _ _ 0) by exact Hj.
  transitivity (np_interp (combine ps v) (nth j ps 0)).
  - apply np_interp_cong, combine_cong; [exact C2|]. cbn [concat]. rewrite app_nil_r, qsort_id by exact SV. apply Forall2_Qeq_refl.
  - pose proof (np_interp_knot (combine ps v) j) as K. rewrite map_fst_combine, map_snd_combine in K by (symmetry; exact L). apply K; [exact SP|]. rewrite combine_length. lia.
Qed.

(** * The order of the forecasts does not matter *)
Fixpoint selects {A} (l : list A) : list (A * list A) :=
  match l with [] => [] | x :: r => (x, r) :: map (fun p => (fst p, x :: snd p)) (selects r) end.
Definition RS {A} (p q : A * list A) : Prop := fst p = fst q /\ Permutation (snd p) (snd q).
Global Instance RS_equiv {A} : Equivalence (@RS A).
Proof.
  split; [intros [x r]; split; reflexivity|intros [x r] [y s] [E P]; split; [symmetry; exact E|symmetry; exact P]|].
  intros [x r] [y s] [z t] [E P] [E' P']. split; [congruence|cbn [snd] in *; rewrite P; exact P'].
Qed.
Lemma selects_perm {A} (l m : list A) : Permutation l m -> PermutationA RS (selects l) (selects m).
Proof.
  induction 1.
  - constructor.
  - simpl. constructor; [split; [reflexivity|exact H]|]. clear - IHPermutation. induction IHPermutation.
    + constructor.
    + simpl. constructor; trivial. destruct H. split; simpl; [assumption|apply perm_skip; assumption].
    + simpl. apply permA_swap.
    + eapply permA_trans; eassumption.
  - simpl. eapply permA_trans; [apply permA_swap|]. constructor; [split; [reflexivity|reflexivity]|]. constructor; [split; [reflexivity|reflexivity]|].
    rewrite !map_map. cbn [fst snd]. induction (selects l); simpl; constructor; trivial. split; [reflexivity|apply perm_swap].
  - eapply permA_trans; eassumption.
Qed.
(** Row of the combined cdf of one forecast, given the other forecasts. *)
Definition term (ps : list Q) (x : Q) (y : list Q * Q) : Q := np_interp (combine (fst y) ps) x * snd y.
Definition srow (ps : list Q) (p : (list Q * Q) * list (list Q * Q)) : list Q :=
  map (fun j => nth j ps 0 * snd (fst p) + qsum (map (term ps (nth j (fst (fst p)) 0)) (snd p))) (seq 0 (length ps)).
Definition entry_at (ps : list Q) (L : list (list Q * Q)) (k j : nat) : Q :=
  qsum (map (fun i => (if (k =? i)%nat then nth j ps 0 else np_interp (combine (nth i (map fst L) []) ps) (nth j (nth k (map fst L) []) 0)) * nth i (map snd L) 0) (seq 0 (length L))).
Lemma sum_all (ps : list Q) (x : Q) (L : list (list Q * Q)) :
  qsum (map (fun i => np_interp (combine (nth i (map fst L) []) ps) x * nth i (map snd L) 0) (seq 0 (length L))) == qsum (map (term ps x) L).
Proof.
  induction L as [|[r w] L IH]; simpl; [reflexivity|]. rewrite <- seq_shift, map_map. cbn [nth]. rewrite IH. reflexivity.
Qed.
Lemma rows_selects ps L : Forall2 (Forall2 Qeq) (map (fun k => map (entry_at ps L k) (seq 0 (length ps))) (seq 0 (length L))) (map (srow ps) (selects L)).
Proof.
  induction L as [|[r w] L IH]; [constructor|]. cbn [length seq map selects]. constructor.
  - apply (Forall2_Qeq_of_nth _ _ 0); [unfold srow; rewrite !map_length; reflexivity|]. rewrite map_length, seq_length. intros j Hj. unfold srow. rewrite !nth_map_seq by exact Hj. cbn [fst snd].
    unfold entry_at. cbn [length seq map qsum]. rewrite <- seq_shift, map_map. cbn [Nat.eqb nth fst snd map]. rewrite sum_all. reflexivity.
  - rewrite map_map. rewrite <- seq_shift, map_map.
    assert (G : forall a b, Forall2 (Forall2 Qeq) a b -> forall f g : list Q -> list Q, (forall u v, Forall2 Qeq u v -> Forall2 Qeq (f u) (g v)) -> Forall2 (Forall2 Qeq) (map f a) (map g b)) by (induction 1; simpl; constructor; auto).
    assert (H : forall a b : list (list Q), length a = length b -> (forall k, (k < length a)%nat -> Forall2 Qeq (nth k a []) (nth k b [])) -> Forall2 (Forall2 Qeq) a b).
    { induction a as [|u a IHa]; intros [|v b] HL HN; try discriminate; constructor; [apply (HN 0%nat); simpl; lia|]. apply IHa; [simpl in HL; lia|]. intros k Hk. apply (HN (S k)). simpl; lia. }
    assert (SL : forall (M : list (list Q * Q)), length (selects M) = length M) by (induction M; simpl; [reflexivity|rewrite map_length; lia]).
    apply H; [rewrite !map_length, seq_length, SL; reflexivity|]. rewrite map_length, seq_length. intros k Hk. rewrite nth_map_seq by exact Hk.
    rewrite (nth_map_lt _ _ _ (([], 0), [])) by (rewrite SL; exact Hk).
    assert (B : Forall2 Qeq (map (entry_at ps L k) (seq 0 (length ps))) (srow ps (nth k (selects L) (([], 0), [])))).
    { pose proof (Forall2_len _ _ _ IH) as LL. assert (NB : forall a b, Forall2 (Forall2 Qeq) a b -> forall k, (k < length a)%nat -> Forall2 Qeq (nth k a []) (nth k b [])).
      { clear. induction 1; intros k Hk; [simpl in Hk; lia|]. destruct k; simpl; trivial. apply IHForall2. simpl in Hk. lia. }
      specialize (NB _ _ IH k). rewrite map_length, seq_length in NB. specialize (NB Hk). rewrite nth_map_seq in NB by exact Hk. rewrite (nth_map_lt _ _ _ (([], 0), [])) in NB by (rewrite SL; exact Hk). exact NB. }
    assert (KF : fst (nth k (selects L) (([], 0), [])) = nth k L ([], 0)).
    { clear - Hk SL. revert k Hk. induction L as [|y L IHL]; intros k Hk; [simpl in Hk; lia|]. destruct k; simpl; [reflexivity|]. rewrite (nth_map_lt _ _ _ (([], 0), [])) by (rewrite SL; simpl in Hk; lia). cbn [fst]. apply IHL. simpl in Hk; lia. }
    apply (Forall2_Qeq_of_nth _ _ 0); [unfold srow; rewrite !map_length; reflexivity|]. rewrite map_length, seq_length. intros j Hj.
    pose proof (Forall2_Qeq_nth _ _ j 0 B) as BJ. unfold srow in *. rewrite !nth_map_seq in * by exact Hj. cbn [fst snd map qsum]. unfold entry_at in *. cbn [length seq map qsum]. rewrite <- seq_shift, map_map. cbn [Nat.eqb nth map fst snd].
    assert (R : nth j (nth k (map fst L) []) 0 = nth j (fst (fst (nth k (selects L) ([], 0, [])))) 0).
    { rewrite KF. rewrite (nth_map_lt _ _ _ ([], 0)) by exact Hk. reflexivity. }
    rewrite BJ, R. unfold term at 2. cbn [fst snd]. ring.
Qed.
Lemma combined_eq ps L : combined_cdf (map fst L) ps (map snd L) = map (fun k => map (entry_at ps L k) (seq 0 (length ps))) (seq 0 (length L)).
Proof. unfold combined_cdf, cdf_entry, entry_at. rewrite map_length. reflexivity. Qed.
Lemma F2_concat a b : Forall2 (Forall2 Qeq) a b -> Forall2 Qeq (concat a) (concat b).
Proof. induction 1; simpl; [constructor|]. apply Forall2_app; assumption. Qed.
Lemma srow_RS ps p q : RS p q -> Forall2 Qeq (srow ps p) (srow ps q).
Proof.
  intros [E P]. apply (Forall2_Qeq_of_nth _ _ 0); [unfold srow; rewrite !map_length; reflexivity|]. unfold srow. rewrite map_length, seq_length. intros j Hj. rewrite !nth_map_seq by exact Hj.
  rewrite E. rewrite (qsum_perm _ _ (Permutation_map (term ps (nth j (fst (fst q)) 0)) P)). reflexivity.
Qed.
Lemma concat_permA ps a b : PermutationA RS a b -> PermutationA Qeq (concat (map (srow ps) a)) (concat (map (srow ps) b)).
Proof.
  induction 1; simpl.
  - constructor.
  - apply permA_trans with (srow ps x₂ ++ concat (map (srow ps) l₁)).
    + apply (PermutationA_app_tail Q_Setoid). apply eqlistA_PermutationA, eqlistA_F2, srow_RS, H.
    + apply (PermutationA_app_head Q_Setoid). exact IHPermutationA.
  - rewrite !app_assoc. apply (PermutationA_app_tail Q_Setoid), (PermutationA_app_comm Q_Setoid).
  - eapply permA_trans; eassumption.
Qed.
Lemma blend_perm ps L M : Permutation L M ->
  Forall2 Qeq (blend_percentiles (map fst L) ps (map snd L)) (blend_percentiles (map fst M) ps (map snd M)).
Proof.
  intro P. unfold blend_percentiles.
  assert (C : Forall2 Qeq (qsort (concat (combined_cdf (map fst L) ps (map snd L)))) (qsort (concat (combined_cdf (map fst M) ps (map snd M))))).
  { apply qsort_permA. rewrite !combined_eq.
    apply permA_trans with (concat (map (srow ps) (selects L))); [apply eqlistA_PermutationA, eqlistA_F2, F2_concat, rows_selects|].
    apply permA_trans with (concat (map (srow ps) (selects M))); [apply concat_permA, selects_perm, P|].
    apply eqlistA_PermutationA, eqlistA_F2, Forall2_Qeq_sym, F2_concat, rows_selects. }
  assert (T : Forall2 Qeq (qsort (concat (map fst L))) (qsort (concat (map fst M)))).
  { apply qsort_permA. apply (Permutation_PermutationA Q_Setoid). rewrite <- !flat_map_concat_map. apply Permutation_flat_map, P. }
  apply (Forall2_Qeq_of_nth _ _ 0); [rewrite !map_length; reflexivity|]. rewrite map_length. intros j Hj. rewrite !(nth_map_lt _ _ _ 0) by exact Hj.
  apply np_interp_cong, combine_cong; assumption.
Qed.

(** * Surprises *)
Lemma zero_weight_witness : exists a b ps, qssorted a /\ qssorted b /\ qssorted ps /\ length a = length ps /\ length b = length ps /\
  Forall2 Qeq (blend_percentiles [a] ps [1]) a /\ ~ Forall2 Qeq (blend_percentiles [a; b] ps [1; 0]) a /\ nth 1 (blend_percentiles [a; b] ps [1; 0]) 0 == nth 1 b 0.
Proof.
  exists [0; 10], [50; 60], [10; 90]. repeat split; try (repeat constructor; fail).
  - intro H. inversion H as [|? ? ? ? _ H1]; subst. inversion H1 as [|? ? ? ? E _]; subst. vm_compute in E. discriminate.
Qed.
Lemma tied_witness : exists v ps, qsorted v /\ qssorted ps /\ length v = length ps /\ ~ Forall2 Qeq (blend_percentiles [v; v] ps [1 # 2; 1 # 2]) v.
Proof.
  exists [0; 5; 5; 10], [0; 30; 60; 100]. repeat split.
  - repeat constructor; intro; discriminate.
  - repeat constructor.
  - intro H. inversion H as [|? ? ? ? _ H1]; subst. inversion H1 as [|? ? ? ? E _]; subst. vm_compute in E. discriminate.
Qed.
Lemma np_from_zero k : forall y0 x, 0 < x -> Forall (fun p => fst p == 0) k -> np_from 0 y0 k x = last (y0 :: map snd k) 0.
Proof.
  assert (G : forall k x0 y0 x, x0 == 0 -> 0 < x -> Forall (fun p => fst p == 0) k -> np_from x0 y0 k x = last (y0 :: map snd k) 0).
  { induction k0 as [|[x1 y1] k0 IH]; intros x0 y0 x X P F; [reflexivity|]. inversion F as [|? ? F1 F2]; subst. cbn [fst] in F1. cbn [np_from]. destruct (Qleb_spec x1 x); [|lra]. rewrite IH by assumption. reflexivity. }
  intros y0 x. apply G. reflexivity.
Qed.
(** Where every weight is zero the largest input value is returned at every percentile
    above zero. *)
Lemma zero_sum_max rows ps j : rows <> [] -> ps <> [] -> Forall (fun r => length r = length ps) rows -> (j < length ps)%nat -> 0 < nth j ps 0 ->
  nth j (blend_percentiles rows ps (map (fun _ => 0) rows)) 0 = last (qsort (concat rows)) 0.
Proof.
  intros NR NP H Hj P. unfold blend_percentiles. rewrite (nth_map_lt _ _ _ 0) by exact Hj.
  set (cdf := qsort (concat (combined_cdf rows ps (map (fun _ => 0) rows)))).
  assert (Z : Forall (fun x => x == 0) cdf).
  { apply (Permutation_Forall (qsort_perm _)). apply Forall_concat. unfold combined_cdf. rewrite Forall_map. apply Forall_forall. intros k _. rewrite Forall_map. apply Forall_forall. intros i _.
    unfold cdf_entry. assert (G : forall (f : nat -> Q) s, qsum (map (fun i => f i * nth i (map (fun _ : list Q => 0) rows) 0) s) == 0).
    { intros f s. induction s as [|a s IH]; simpl; [reflexivity|]. rewrite IH. assert (E : nth a (map (fun _ : list Q => 0) rows) 0 = 0) by (clear; revert a; induction rows; intros [|a']; simpl; auto). rewrite E. ring. }
    apply G. }
  assert (L : length cdf = length (qsort (concat rows))) by (unfold cdf; rewrite !qsort_length; apply combined_length; exact H).
  assert (NE : (0 < length (qsort (concat rows)))%nat).
  { rewrite qsort_length. destruct rows as [|r rows]; [easy|]. inversion H; subst. simpl. rewrite app_length. destruct ps; [easy|]. simpl in H2. lia. }
  clearbody cdf. destruct cdf as [|c cdf]; [simpl in L; lia|]. destruct (qsort (concat rows)) as [|t thr]; [simpl in NE; lia|]. inversion Z as [|? ? Z1 Z2]; subst. cbn [combine np_interp].
  destruct (Qltb_spec (nth j ps 0) c); [lra|]. simpl in L.
  assert (G : forall k x0 y0 x, x0 == 0 -> 0 < x -> Forall (fun p => fst p == 0) k -> np_from x0 y0 k x = last (y0 :: map snd k) 0).
  { induction k as [|[x1 y1] k0 IH]; intros x0 y0 x X P' F; [reflexivity|]. inversion F as [|? ? F1 F2]; subst. cbn [fst] in F1. cbn [np_from]. destruct (Qleb_spec x1 x); [|lra]. rewrite IH by assumption. reflexivity. }
  rewrite G; [rewrite map_snd_combine by lia; reflexivity|exact Z1|exact P|].
  apply Forall_forall. intros [u w] Hu. apply in_combine_l in Hu. rewrite Forall_forall in Z2. apply Z2, Hu.
Qed.

(** * Normalisation inside the percentile branch *)
Lemma norm_cols_spec cols : Forall (Forall (fun x => 0 <= x)) cols -> Forall2 (fun c c' => length c' = length c /\
   Forall (fun x => 0 <= x) c' /\ (0 < qsum c -> Qabs (qsum c' - 1) <= (1 # 100000000) + (1 # 100000)) /\ (qsum c == 0 -> qsum c' == 0) /\
   forall i j, nth i c' 0 * nth j c 0 == nth j c' 0 * nth i c 0) cols (norm_cols cols).
Proof.
  intro N. unfold norm_cols. destruct (forallb _ cols) eqn:E.
  - rewrite forallb_forall in E. rewrite Forall_forall in N. assert (G : forall l, (forall c, In c l -> In c cols) -> Forall2 (fun c c' => length c' = length c /\
   Forall (fun x => 0 <= x) c' /\ (0 < qsum c -> Qabs (qsum c' - 1) <= (1 # 100000000) + (1 # 100000)) /\ (qsum c == 0 -> qsum c' == 0) /\
   forall i j, nth i c' 0 * nth j c 0 == nth j c' 0 * nth i c 0) l l); [|apply G; auto].
    induction l as [|c l IH]; intro I; constructor; [|apply IH; intros; apply I; simpl; auto]. assert (Ic : In c cols) by (apply I; simpl; auto). specialize (E c Ic).
    split; [reflexivity|]. split; [apply N, Ic|]. split; [|split; [auto|intros; ring]]. intro P. apply Qltb_lt in P. rewrite P in E. cbn [negb orb] in E. apply Qleb_le in E. exact E.
  - clear E. induction N as [|c cols Nc N IH]; simpl; constructor; trivial. destruct (Qltb_spec 0 (qsum c)).
    + split; [apply map_length|]. split; [rewrite Forall_map; eapply Forall_impl; [|exact Nc]; intros; apply div_nonneg; assumption|]. split; [|split].
      * intros _. assert (EE : Qabs (qsum (map (fun x => x / qsum c) c) - 1) == 0) by (transitivity (Qabs 0); [apply Qabs_wd; rewrite qsum_map_div; field; lra|reflexivity]). eapply Qle_trans; [apply Qle_lteq; right; exact EE|]. discriminate.
      * intro Z. lra.
      * intros i j. assert (GN : forall i, nth i (map (fun x => x / qsum c) c) 0 == nth i c 0 / qsum c).
        { intro i0. destruct (Nat.lt_ge_cases i0 (length c)); [rewrite (nth_map_lt _ _ _ 0) by assumption; reflexivity|]. rewrite !nth_overflow by (rewrite ?map_length; assumption). unfold Qdiv. ring. }
        rewrite !GN. field. lra.
    + split; [apply map_length|]. assert (Z : forall i, nth i (map (fun _ : Q => 0) c) 0 = 0) by (clear; induction c; intros [|i]; simpl; auto).
      assert (SZ : qsum (map (fun _ : Q => 0) c) == 0) by (clear; induction c; simpl; [reflexivity|rewrite IHc; ring]).
      split; [rewrite Forall_map; apply Forall_forall; intros; lra|]. split; [intro; lra|]. split; [intros _; exact SZ|]. intros i j. rewrite !Z. ring.
Qed.
