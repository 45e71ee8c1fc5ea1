From Verif Require Import Base Model_Rescale Model_Blending Proofs_Weights.

Lemma zipw_length {A B C} (f : A -> B -> C) l : forall m, length (zipw f l m) = Nat.min (length l) (length m).
Proof. induction l as [|x l IH]; intros [|y m]; simpl; trivial. rewrite IH. reflexivity. Qed.
Lemma zipw_nth {A B C} (f : A -> B -> C) l d1 d2 d3 : forall m i, (i < length l)%nat -> (i < length m)%nat -> nth i (zipw f l m) d3 = f (nth i l d1) (nth i m d2).
Proof. induction l as [|x l IH]; intros [|y m] [|i] H H0; simpl in *; try lia; [reflexivity|]. apply IH; lia. Qed.
Lemma fuzzy_range len d : 0 < len -> 0 <= fuzzy len d <= 1.
Proof.
  intro H. unfold fuzzy, rescale_pt. assert (E1 : Qmin 0 1 == 0) by reflexivity. assert (E2 : Qmax 0 1 == 1) by reflexivity.
  pose proof (clip_bounds (Qmin 0 1) (Qmax 0 1) ((d - 0) * (1 - 0) / (len - 0) + 0)) as B. rewrite E1 in B at 1. lra.
Qed.
Lemma fuzzy_val len d : 0 < len -> 0 <= d -> fuzzy len d == Qmin 1 (d / len).
Proof.
  intros H Hd. unfold fuzzy, rescale_pt, clip. assert (E : (d - 0) * (1 - 0) / (len - 0) + 0 == d / len) by (field; lra).
  assert (0 <= d / len) by (apply Qle_shift_div_l; lra). change (Qmin 0 1) with 0. change (Qmax 0 1) with 1. rewrite E. qmm; lra.
Qed.
Lemma init_nonneg w m : Forall (fun x => 0 <= x) w -> Forall (fun x => 0 <= x) (init_weights w m).
Proof.
  unfold init_weights. intro H. revert m. induction H; intros [|b m]; simpl; constructor; auto. destruct b; lra.
Qed.
Lemma norm_initial_nonneg w : Forall (fun x => 0 <= x) w -> Forall (fun x => 0 <= x) (norm_initial w).
Proof.
  intro H. unfold norm_initial. destruct (Qltb_spec 0 (qsum w)); rewrite Forall_map; (eapply Forall_impl; [|exact H]); intros; simpl in *; [apply div_nonneg; assumption|lra].
Qed.
Lemma norm_initial_sum w : norm_initial w = norm_initial w /\ (0 < qsum w -> qsum (norm_initial w) == 1) /\ (qsum w <= 0 -> Forall (fun x => x == 0) (norm_initial w)).
Proof.
  split; [reflexivity|]. unfold norm_initial. destruct (Qltb_spec 0 (qsum w)); split; intro; try lra.
  - rewrite qsum_map_div. field. lra.
  - rewrite Forall_map. apply Forall_forall. intros; reflexivity.
Qed.
Lemma norm_initial_sum_le w : Forall (fun x => 0 <= x) w -> 0 <= qsum (norm_initial w) <= 1.
Proof.
  intro H. destruct (norm_initial_sum w) as (_ & A & B). pose proof (norm_initial_nonneg w H) as N. pose proof (qsum_nonneg _ N).
  destruct (Qlt_le_dec 0 (qsum w)) as [P|P]; [rewrite A by exact P; lra|]. specialize (B P). split; [lra|]. assert (qsum (norm_initial w) == 0); [|lra].
  clear - B. induction B as [|x l E B IH]; simpl; [reflexivity|]. rewrite E, IH. ring.
Qed.
Lemma norm_initial_length w : length (norm_initial w) = length w.
Proof. unfold norm_initial. destruct (_ <? _); apply map_length. Qed.
Lemma rescale_masked_le len w d : 0 < len -> 0 <= w -> 0 <= fst (rescale_masked len w d) <= w.
Proof.
  intros H Hw. destruct d as [d|]; simpl; [|lra]. pose proof (fuzzy_range len d H). nra.
Qed.
Definition rsum (ws : list (Q * bool)) := qsum (map (fun p : Q * bool => if snd p then fst p else 0) ws).
Definition usum (ws : list (Q * bool)) := qsum (map (fun p : Q * bool => if snd p then 0 else fst p) ws).
Lemma ru_split ws : rsum ws + usum ws == qsum (map fst ws).
Proof.
  unfold rsum, usum. induction ws as [|[w b] ws IH]; simpl; [ring|]. rewrite <- IH. destruct b; ring.
Qed.
Lemma rsum_nonneg ws : Forall (fun p => 0 <= fst p) ws -> 0 <= rsum ws /\ 0 <= usum ws.
Proof.
  intro H. unfold rsum, usum. induction H as [|[w b] ws Hw H IH]; simpl; [lra|]. cbn [fst] in Hw. destruct b; lra.
Qed.
Lemma sum_unmasked ws : qsum (rescale_unmasked ws) == rsum ws + usum ws * (if 0 <? usum ws then (1 - rsum ws) / usum ws else 0).
Proof.
  unfold rescale_unmasked. fold (rsum ws) (usum ws). set (f := if 0 <? usum ws then _ else _). clearbody f. unfold rsum, usum.
  induction ws as [|[w b] ws IH]; simpl; [ring|]. rewrite IH. destruct b; ring.
Qed.
Section Point.
Variables (len : Q) (w : list Q) (masked : list bool) (dist : list (option Q)).
Hypothesis Hlen : 0 < len.
Hypothesis Hw : Forall (fun x => 0 <= x) w.
Hypothesis Hm : length masked = length w.
Hypothesis Hd : length dist = length w.
Let w0 := norm_initial (init_weights w masked).
Let ws := zipw (rescale_masked len) w0 dist.
Lemma w0_nonneg : Forall (fun x => 0 <= x) w0.
Proof. apply norm_initial_nonneg, init_nonneg, Hw. Qed.
Lemma w0_length : length w0 = length w.
Proof. unfold w0. rewrite norm_initial_length. unfold init_weights. rewrite zipw_length, Hm. apply Nat.min_id. Qed.
Lemma ws_length : length ws = length w.
Proof. unfold ws. rewrite zipw_length, w0_length, Hd. apply Nat.min_id. Qed.
Lemma ws_fst : Forall (fun p => 0 <= fst p) ws /\ qsum (map fst ws) <= qsum w0.
Proof.
  unfold ws. pose proof w0_nonneg as N. revert N. generalize w0. clear - Hlen. intros l N. revert dist. induction N as [|x l Hx N IH]; intros [|d dist]; simpl; try (split; [constructor|lra]).
  - split; [constructor|]. pose proof (qsum_nonneg l N). lra.
  - destruct (IH dist) as (A & B). pose proof (rescale_masked_le len x d Hlen Hx). split; [constructor; [lra|exact A]|lra].
Qed.
Lemma sw_length : length (spatial_weights len w masked dist) = length w.
Proof. unfold spatial_weights, rescale_unmasked. rewrite map_length. exact ws_length. Qed.
Lemma sw_sum_bounds : 0 <= rsum ws <= 1 /\ 0 <= usum ws /\ rsum ws + usum ws <= 1.
Proof.
  destruct ws_fst as (A & B). pose proof (norm_initial_sum_le (init_weights w masked) (init_nonneg w masked Hw)) as C. fold w0 in C.
  destruct (rsum_nonneg ws A). pose proof (ru_split ws). lra.
Qed.
Lemma sw_nonneg : Forall (fun x => 0 <= x <= 1) (spatial_weights len w masked dist).
Proof.
  assert (N : Forall (fun x => 0 <= x) (spatial_weights len w masked dist)).
  { unfold spatial_weights, rescale_unmasked. fold w0. fold ws. fold (rsum ws) (usum ws). destruct sw_sum_bounds as (A & B & C).
    assert (F : 0 <= (if 0 <? usum ws then (1 - rsum ws) / usum ws else 0)).
    { destruct (Qltb_spec 0 (usum ws)); [apply div_nonneg; lra|lra]. }
    destruct ws_fst as (G & _). rewrite Forall_map. eapply Forall_impl; [|exact G]. intros [x b] Hx. cbn [fst snd] in *. destruct b; nra. }
  assert (S : qsum (spatial_weights len w masked dist) <= 1).
  { unfold spatial_weights. fold w0. fold ws. rewrite sum_unmasked. destruct sw_sum_bounds as (A & B & C). destruct (Qltb_spec 0 (usum ws)).
    - assert (E : rsum ws + usum ws * ((1 - rsum ws) / usum ws) == 1) by (field; lra). rewrite E. lra.
    - lra. }
  apply Forall_forall. intros x Hx. pose proof (qsum_ge_in _ x N Hx). rewrite Forall_forall in N. specialize (N x Hx). lra.
Qed.
Lemma sw_nth i : (i < length w)%nat -> nth i (spatial_weights len w masked dist) 0 ==
   let p := nth i ws (0, false) in if snd p then fst p else fst p * (if 0 <? usum ws then (1 - rsum ws) / usum ws else 0).
Proof.
  intro Hi. unfold spatial_weights, rescale_unmasked. fold w0. fold ws. fold (rsum ws) (usum ws).
  rewrite (nth_map_lt _ _ _ (0, false)) by (rewrite ws_length; exact Hi). cbv zeta. destruct (snd (nth i ws (0, false))); ring.
Qed.
Lemma ws_nth i : (i < length w)%nat -> nth i ws (0, false) = rescale_masked len (nth i w0 0) (nth i dist None).
Proof. intro Hi. unfold ws. rewrite (zipw_nth _ _ 0 None) by (rewrite ?w0_length, ?Hd; exact Hi). reflexivity. Qed.
Lemma w0_nth i : (i < length w)%nat -> nth i w0 0 == (if nth i masked false then 0 else nth i w 0) * (if 0 <? qsum (init_weights w masked) then / qsum (init_weights w masked) else 0).
Proof.
  intro Hi. unfold w0, norm_initial. assert (E : nth i (init_weights w masked) 0 = if nth i masked false then 0 else nth i w 0).
  { unfold init_weights. rewrite (zipw_nth _ _ 0 false) by lia. reflexivity. }
  assert (LI : (i < length (init_weights w masked))%nat) by (unfold init_weights; rewrite zipw_length; lia).
  destruct (Qltb_spec 0 (qsum (init_weights w masked))); rewrite (nth_map_lt _ _ _ 0) by exact LI; [rewrite E; unfold Qdiv; reflexivity|ring].
Qed.
Lemma sw_masked_zero i : (i < length w)%nat -> nth i masked false = true -> nth i (spatial_weights len w masked dist) 0 == 0.
Proof.
  intros Hi M. rewrite sw_nth by exact Hi. cbv zeta. rewrite ws_nth by exact Hi. assert (E : nth i w0 0 == 0) by (rewrite w0_nth, M by exact Hi; ring).
  set (f := if 0 <? usum ws then _ else _). clearbody f. unfold rescale_masked. destruct (nth i dist None) as [d|]; cbn [fst snd].
  - destruct (negb _); rewrite E; ring.
  - rewrite E; ring.
Qed.
(** If one slice carries weight and is left unscaled the weights sum to one. *)
Lemma usum_pos i : (i < length w)%nat -> 0 < fst (nth i ws (0, false)) -> snd (nth i ws (0, false)) = false -> 0 < usum ws.
Proof.
  intros Hi P S. unfold usum. apply qsum_pos_in.
  - rewrite Forall_map. destruct ws_fst as (G & _). eapply Forall_impl; [|exact G]. intros [x b] Hx. cbn [fst snd] in *. destruct b; lra.
  - exists (fst (nth i ws (0, false))). split; [|exact P]. apply in_map_iff. exists (nth i ws (0, false)). rewrite S. split; [reflexivity|]. apply nth_In. rewrite ws_length. exact Hi.
Qed.
Lemma sw_sum_one i : (i < length w)%nat -> nth i masked false = false -> 0 < nth i w 0 ->
  (match nth i dist None with None => True | Some d => len <= d end) -> qsum (spatial_weights len w masked dist) == 1.
Proof.
  intros Hi M P D. assert (PI : 0 < qsum (init_weights w masked)).
  { apply qsum_pos_in; [apply init_nonneg, Hw|]. exists (nth i w 0). split; [|exact P]. replace (nth i w 0) with (nth i (init_weights w masked) 0).
    - apply nth_In. unfold init_weights. rewrite zipw_length. lia.
    - unfold init_weights. rewrite (zipw_nth _ _ 0 false) by lia. rewrite M. reflexivity. }
  assert (P0 : 0 < nth i w0 0).
  { rewrite w0_nth, M by exact Hi. destruct (Qltb_spec 0 (qsum (init_weights w masked))); [|lra]. assert (0 < / qsum (init_weights w masked)) by (apply Qinv_lt_0_compat; exact PI). nra. }
  assert (G : 0 < fst (nth i ws (0, false)) /\ snd (nth i ws (0, false)) = false).
  { rewrite ws_nth by exact Hi. unfold rescale_masked. destruct (nth i dist None) as [d|]; cbn [fst snd]; [|split; [exact P0|reflexivity]].
    assert (F1 : fuzzy len d == 1). { rewrite fuzzy_val by lra. assert (1 <= d / len) by (apply Qle_shift_div_l; lra). qmm; lra. }
    assert (E : nth i w0 0 * fuzzy len d == nth i w0 0) by (rewrite F1; ring). split; [lra|]. apply Qeqb_eq in E. rewrite E. reflexivity. }
  destruct G as (G1 & G2). pose proof (usum_pos i Hi G1 G2) as U. unfold spatial_weights. fold w0. fold ws. rewrite sum_unmasked. destruct (Qltb_spec 0 (usum ws)); [|lra]. field. lra.
Qed.
(** A slice near a masked area (distance below the fuzzy length) keeps exactly its
    normalised weight times distance / length. *)
Lemma sw_fuzzy i d : (i < length w)%nat -> nth i masked false = false -> nth i dist None = Some d -> 0 <= d < len -> 0 < qsum (init_weights w masked) ->
  nth i (spatial_weights len w masked dist) 0 == nth i w 0 / qsum (init_weights w masked) * (d / len).
Proof.
  intros Hi M D L P. rewrite sw_nth by exact Hi. cbv zeta. rewrite ws_nth by exact Hi. unfold rescale_masked. rewrite D. cbn [fst snd].
  assert (F : fuzzy len d == d / len). { rewrite fuzzy_val by lra. assert (d / len < 1) by (apply Qlt_shift_div_r; lra). qmm; lra. }
  assert (E : nth i w0 0 == nth i w 0 / qsum (init_weights w masked)). { rewrite w0_nth, M by exact Hi. destruct (Qltb_spec 0 (qsum (init_weights w masked))); [reflexivity|lra]. }
  destruct (Qeqb_spec (nth i w0 0 * fuzzy len d) (nth i w0 0)) as [Z|Z]; cbn [negb].
  - assert (W0 : nth i w0 0 == 0). { rewrite F in Z. assert (d / len < 1) by (apply Qlt_shift_div_r; lra). assert (nth i w0 0 * (1 - d / len) == 0) by lra. apply Qmult_integral in H0 as [|]; [assumption|lra]. }
    rewrite <- E, W0. set (f := if 0 <? usum ws then _ else _). ring.
  - rewrite E, F. reflexivity.
Qed.
End Point.
(** Where every contributing slice is close to a masked area the weights do not sum to
    one. *)
Lemma spatial_not_one : exists len w masked dist, 0 < len /\ length masked = length w /\ length dist = length w /\ qsum w == 1 /\
  Forall (fun b => b = false) masked /\ qsum (spatial_weights len w masked dist) == 1 # 2.
Proof. exists 2, [1 # 2; 1 # 2], [false; false], [Some 1; Some 1]. repeat split; repeat constructor. Qed.
