(** Proofs about Model_Accumulation.v. *)
From Verif Require Import Base Spec_Accumulation Model_Temporal Proofs_Temporal Proofs_TemporalProcess Model_Accumulation Proofs_Reordering.
Open Scope Z_scope.

Lemma last_cons {A} (x : A) l : forall d, last (x :: l) d = last l x.
Proof.
  revert x. induction l as [|y l IH]; intros x d; [reflexivity|].
  change (last (x :: y :: l) d) with (last (y :: l) d). rewrite !IH. reflexivity.
Qed.

(** * The integral *)
Lemma integral_const l r : Forall (fun p => snd p == r)%Q l -> forall t v, (v == r)%Q ->
  (integral ((t, v) :: l) == r * (inject_Z (last (map fst l) t) - inject_Z t))%Q.
Proof.
  induction 1 as [|(t', v') l E F IH]; intros t v Ev; [simpl; ring|].
  change (integral ((t, v) :: (t', v') :: l)) with (inject_Z (t' - t) * ((v + v') / 2) + integral ((t', v') :: l))%Q.
  assert (E' : (v' == r)%Q) by exact E. rewrite (IH t' v' E').
  replace (last (map fst ((t', v') :: l)) t) with (last (map fst l) t').
  - rewrite Ev, E', inject_sub. field.
  - cbn [map fst]. clear. destruct (map fst l) as [|a m]; [reflexivity|].
    assert (G : forall (l : list Z) a d d', last (a :: l) d = last (a :: l) d').
    { clear. induction l as [|b l IH]; intros; [reflexivity|]. exact (IH b d d'). }
    change (last (t' :: a :: m) t) with (last (a :: m) t). apply G.
Qed.
Lemma integral_nonneg l : StronglySorted Z.le (map fst l) -> Forall (fun p => 0 <= snd p)%Q l -> (0 <= integral l)%Q.
Proof.
  induction l as [|(t, v) l IH]; intros S F; [simpl; lra|]. destruct l as [|(t', v') l]; [simpl; lra|].
  change (integral ((t, v) :: (t', v') :: l)) with (inject_Z (t' - t) * ((v + v') / 2) + integral ((t', v') :: l))%Q.
  inversion S as [|? ? S1 S2]; inversion F as [|? ? F1 F2]; subst. specialize (IH S1 F2).
  inversion S2; inversion F2; subst. simpl in *.
  assert (0 <= inject_Z (t' - t) * ((v + v') / 2))%Q; [|lra]. apply Qmult_le_0_compat.
  - change 0%Q with (inject_Z 0). rewrite <- Zle_Qle. lia.
  - unfold Qdiv. change (/ 2)%Q with (1#2)%Q. lra.
Qed.
Lemma integral_app l p m : (integral (l ++ p :: m) == integral (l ++ [p]) + integral (p :: m))%Q.
Proof.
  induction l as [|(t, v) l IH]; [destruct p; simpl app; simpl (integral [_]); ring|].
  destruct l as [|(t', v') l].
  - destruct p as (t', v'). simpl app.
    change (integral ((t, v) :: (t', v') :: m)) with (inject_Z (t' - t) * ((v + v') / 2) + integral ((t', v') :: m))%Q.
    change (integral [(t, v); (t', v')]) with (inject_Z (t' - t) * ((v + v') / 2) + 0)%Q. ring.
  - change (integral (((t, v) :: (t', v') :: l) ++ p :: m)) with (inject_Z (t' - t) * ((v + v') / 2) + integral (((t', v') :: l) ++ p :: m))%Q.
    change (integral (((t, v) :: (t', v') :: l) ++ [p])) with (inject_Z (t' - t) * ((v + v') / 2) + integral (((t', v') :: l) ++ [p]))%Q.
    rewrite IH. ring.
Qed.
Lemma integral_mono l m : StronglySorted Z.le (map fst l) -> map fst l = map fst m -> Forall2 (fun p q => snd p <= snd q)%Q l m -> (integral l <= integral m)%Q.
Proof.
  intros S E F. induction F as [|(t, v) (s, w) l m A F IH]; [lra|]. simpl in E. injection E as <- E.
  inversion S as [|? ? S1 S2]; subst. specialize (IH S1 E).
  destruct F as [|(t', v') (s', w') l m B F]; [simpl; lra|]. simpl in E. injection E as <- E.
  change (integral ((t, v) :: (t', v') :: l)) with (inject_Z (t' - t) * ((v + v') / 2) + integral ((t', v') :: l))%Q.
  change (integral ((t, w) :: (t', w') :: m)) with (inject_Z (t' - t) * ((w + w') / 2) + integral ((t', w') :: m))%Q.
  inversion S2; subst. simpl in *. assert (0 <= inject_Z (t' - t))%Q by (change 0%Q with (inject_Z 0); rewrite <- Zle_Qle; lia).
  assert (0 <= inject_Z (t' - t) * ((w + w' - v - v') / 2))%Q.
  { apply Qmult_le_0_compat; [assumption|]. unfold Qdiv. change (/ 2)%Q with (1#2)%Q. lra. }
  unfold Qdiv in *. change (/ 2)%Q with (1#2)%Q in *. lra.
Qed.

(** * Sorting *)
Definition tle (a b : rcube) := r_time a <= r_time b.
Lemma sort_sorted cubes : StronglySorted tle (sort_cubes cubes).
Proof.
  apply isort_sorted; unfold tle.
  - intros x y H. apply Z.leb_le in H. assumption.
  - intros x y H. apply Z.leb_gt in H. lia.
  - intros x y z. lia.
Qed.
Lemma sort_perm cubes : Permutation cubes (sort_cubes cubes).
Proof. apply isort_perm. Qed.
Lemma sorted_times cs : StronglySorted tle cs -> StronglySorted Z.le (map r_time cs).
Proof. induction 1 as [|a l S IH F]; simpl; constructor; [assumption|]. apply Forall_map. exact F. Qed.

Lemma tsorted_unique l : forall m, StronglySorted tle l -> StronglySorted tle m -> NoDup (map r_time l) -> Permutation l m -> l = m.
Proof.
  induction l as [|a l IH]; intros m Sl Sm N P; [apply Permutation_nil in P; auto|].
  destruct m as [|b m]; [apply Permutation_sym, Permutation_nil in P; discriminate|].
  inversion Sl as [|? ? Sl1 Fl]; inversion Sm as [|? ? Sm1 Fm]; subst. rewrite Forall_forall in Fl, Fm.
  assert (E : a = b).
  { assert (Hb : In b (a :: l)) by (apply (Permutation_in _ (Permutation_sym P)); left; reflexivity).
    assert (Ha : In a (b :: m)) by (apply (Permutation_in _ P); left; reflexivity).
    destruct Hb as [->|Hb]; [reflexivity|]. destruct Ha as [->|Ha]; [reflexivity|].
    specialize (Fl _ Hb). specialize (Fm _ Ha). unfold tle in *. simpl in N. inversion N as [|? ? N1 N2]; subst. exfalso. apply N1.
    replace (r_time a) with (r_time b) by lia. apply in_map. assumption. }
  subst b. f_equal. apply IH; [assumption..| |]; [simpl in N; inversion N; assumption|]. apply Permutation_cons_inv in P. assumption.
Qed.
Lemma sort_order_free l m : Permutation l m -> NoDup (map r_time l) -> sort_cubes l = sort_cubes m.
Proof.
  intros P N. apply tsorted_unique; [apply sort_sorted..| |].
  - apply (Permutation_NoDup (Permutation_map r_time (sort_perm l))). assumption.
  - rewrite <- (sort_perm l), P. apply sort_perm.
Qed.

(** * Regular intervals *)
(** Successive forecast periods differ by ti. *)
Fixpoint regular (ti : Z) (l : list Z) : Prop :=
  match l with a :: ((b :: _) as r) => b = a + ti /\ regular ti r | _ => True end.
Lemma zdiff_regular l ti : regular ti l <-> Forall (eq ti) (zdiff l).
Proof.
  induction l as [|a l IH]; [simpl; split; constructor|]. destruct l as [|b l]; [simpl; split; constructor|].
  change (regular ti (a :: b :: l)) with (b = a + ti /\ regular ti (b :: l)). change (zdiff (a :: b :: l)) with ((b - a) :: zdiff (b :: l)).
  rewrite IH. split.
  - intros (E & F). constructor; [lia|assumption].
  - intro F. inversion F; subst. split; [lia|assumption].
Qed.
Lemma unique_iff l ti : unique_interval l = Ok ti <-> (2 <= length l)%nat /\ regular ti l.
Proof.
  unfold unique_interval. rewrite zdiff_regular. destruct l as [|a [|b l]]; try (simpl; split; [discriminate|intros (? & _); lia]).
  change (zdiff (a :: b :: l)) with ((b - a) :: zdiff (b :: l)). cbv beta iota. destruct (forallb (Z.eqb (b - a)) (zdiff (b :: l))) eqn:E.
  - rewrite forallb_forall in E. split.
    + intro H. injection H as <-. split; [simpl; lia|]. constructor; [reflexivity|]. apply Forall_forall. intros x Hx. apply Z.eqb_eq, E, Hx.
    + intros (_ & F). inversion F; subst. reflexivity.
  - split; [discriminate|]. intros (_ & F). inversion F as [|? ? A B]; subst. exfalso. assert (forallb (Z.eqb (b - a)) (zdiff (b :: l)) = true); [|congruence].
    apply forallb_forall. intros x Hx. rewrite Forall_forall in B. apply Z.eqb_eq. exact (B x Hx).
Qed.
Lemma unique_err l e : unique_interval l = Err e -> e = ValueError.
Proof. unfold unique_interval. destruct (zdiff l) as [|z l0]; [congruence|]. destruct (forallb (Z.eqb z) l0); congruence. Qed.

Lemma regular_shift ti l R : regular ti l <-> regular ti (map (fun x => x - R) l).
Proof.
  induction l as [|a l IH]; [simpl; tauto|]. destruct l as [|b l]; [simpl; tauto|]. cbn [map] in *.
  change (regular ti (a :: b :: l)) with (b = a + ti /\ regular ti (b :: l)).
  change (regular ti (a - R :: b - R :: map (fun x => x - R) l)) with (b - R = a - R + ti /\ regular ti (b - R :: map (fun x => x - R) l)).
  rewrite IH. split; intros (A & B); (split; [lia|assumption]).
Qed.
Lemma regular_sorted ti l : 0 <= ti -> regular ti l -> StronglySorted Z.le l.
Proof.
  intro H. induction l as [|a l IH]; intro R; [constructor|]. destruct l as [|b l]; [repeat constructor|].
  destruct R as (E & R). specialize (IH R). constructor; [assumption|]. inversion IH as [|? ? S F]; subst.
  constructor; [lia|]. eapply Forall_impl; [|exact F]. simpl; lia.
Qed.
Lemma regular_filter ti lo hi (l : list rcube) : 0 <= ti -> regular ti (map r_fp l) ->
  regular ti (map r_fp (filter (fun c => (lo <=? r_fp c) && (r_fp c <=? hi)) l)).
Proof.
  intro H. induction l as [|a l IH]; intro R; [exact I|].
  pose proof (regular_sorted ti _ H R) as S. simpl in S. inversion S as [|? ? S1 S2]; subst. cbn [filter].
  assert (R1 : regular ti (map r_fp l)) by (destruct l; [exact I|apply R]). specialize (IH R1).
  destruct ((lo <=? r_fp a) && (r_fp a <=? hi)) eqn:W; [|exact IH]. apply andb_true_iff in W. destruct W as (W1 & W2). apply Z.leb_le in W1, W2.
  destruct l as [|b l]; [exact I|]. destruct R as (E & R). cbn [map] in S2.
  assert (Hb : r_fp a <= r_fp b) by (inversion S2; assumption).
  destruct (Z.leb_spec (r_fp b) hi) as [B|B].
  - assert (Eb : (lo <=? r_fp b) && (r_fp b <=? hi) = true) by (apply andb_true_iff; split; apply Z.leb_le; lia).
    cbn [filter] in *. rewrite Eb in *. cbn [map] in *. split; assumption.
  - assert (Ee : filter (fun c => (lo <=? r_fp c) && (r_fp c <=? hi)) (b :: l) = []).
    { clear - B R H. pose proof (regular_sorted ti _ H R) as S. assert (G : forall l, Forall (fun c => hi < r_fp c) l -> filter (fun c => (lo <=? r_fp c) && (r_fp c <=? hi)) l = []).
      { clear. induction 1 as [|c l C F IH]; [reflexivity|]. simpl. destruct (Z.leb_spec (r_fp c) hi); [lia|]. rewrite andb_false_r. assumption. }
      apply G. inversion S as [|? ? _ F]; subst. constructor; [assumption|]. apply Forall_forall. intros c Hc. rewrite Forall_forall in F. specialize (F (r_fp c) (in_map r_fp _ _ Hc)). lia. }
    rewrite Ee. exact I.
Qed.

(** * The loop *)
Lemma zip2_len {A B C} (f : A -> B -> C) l m : length (zip2 f l m) = Nat.min (length l) (length m).
Proof. unfold zip2. rewrite map_length, combine_length. reflexivity. Qed.
Lemma zip2_nth_d {A B C} (f : A -> B -> C) l : forall m j da db dc, (j < length l)%nat -> (j < length m)%nat -> nth j (zip2 f l m) dc = f (nth j l da) (nth j m db).
Proof.
  induction l as [|x l IH]; intros [|y m] [|j] da db dc H G; simpl in *; try lia; [reflexivity|].
  apply (IH m j da db dc); lia.
Qed.
Definition ptseries (j : nat) (l : list rcube) : list (Z * Q) := map (fun c => (r_fp c, nth j (r_data c) 0%Q)) l.
Lemma acc_loop_len n ti l : forall acc, Forall (fun c => length (r_data c) = n) l -> length acc = n -> length (acc_loop ti l acc) = n.
Proof.
  induction l as [|a l IH]; intros acc F E; [exact E|]. destruct l as [|b l]; [exact E|].
  change (acc_loop ti (a :: b :: l) acc) with (acc_loop ti (b :: l) (zip2 Qplus acc (zip2 (fun x y => ((x + y) * inject_Z ti * (1#2))%Q) (r_data a) (r_data b)))).
  inversion F as [|? ? F1 F2]; subst. apply IH; [assumption|]. inversion F2; subst. rewrite !zip2_len. lia.
Qed.
Lemma acc_loop_value n ti l j : (j < n)%nat -> forall acc, Forall (fun c => length (r_data c) = n) l -> length acc = n -> regular ti (map r_fp l) ->
  (nth j (acc_loop ti l acc) 0 == nth j acc 0 + integral (ptseries j l))%Q.
Proof.
  intro Hj. induction l as [|a l IH]; intros acc F E R; [simpl; ring|]. destruct l as [|b l]; [simpl; ring|].
  change (acc_loop ti (a :: b :: l) acc) with (acc_loop ti (b :: l) (zip2 Qplus acc (zip2 (fun x y => ((x + y) * inject_Z ti * (1#2))%Q) (r_data a) (r_data b)))).
  inversion F as [|? ? F1 F2]; subst. inversion F2; subst. destruct R as (Eb & R).
  rewrite IH; [|assumption|rewrite !zip2_len; lia|exact R].
  rewrite (zip2_nth_d Qplus acc _ j 0%Q 0%Q) by (rewrite ?zip2_len; lia).
  rewrite (zip2_nth_d (fun x y => ((x + y) * inject_Z ti * (1#2))%Q) (r_data a) (r_data b) j 0%Q 0%Q) by lia.
  change (integral (ptseries j (a :: b :: l))) with (inject_Z (r_fp b - r_fp a) * ((nth j (r_data a) 0 + nth j (r_data b) 0) / 2) + integral (ptseries j (b :: l)))%Q.
  rewrite Eb. replace (r_fp a + ti - r_fp a) with ti by lia. field.
Qed.

Lemma zmin_first a l : Forall (fun x => a <= x) l -> zmin_l a l = a.
Proof. unfold zmin_l. revert a. induction l as [|b l IH]; intros a F; [reflexivity|]. simpl. inversion F; subst. rewrite Z.min_l by assumption. auto. Qed.
Lemma zmax_last l : forall a, StronglySorted Z.le (a :: l) -> zmax_l a l = last l a.
Proof.
  unfold zmax_l. induction l as [|b l IH]; intros a S; [reflexivity|]. inversion S as [|? ? S1 F]; subst. inversion F; subst. cbn [fold_left].
  rewrite Z.max_r by assumption. rewrite (IH b S1). destruct l; [reflexivity|]. clear. revert a b z. induction l; intros; [reflexivity|]. simpl in *. apply (IHl a0 b a).
Qed.

(** All inputs come from one forecast: forecast period = time - reference time. Same grid. *)
Definition one_forecast (R : Z) (n : nat) (cubes : list rcube) : Prop :=
  Forall (fun c => r_fp c = r_time c - R /\ length (r_data c) = n) cubes.

Lemma fp_map R n cs : one_forecast R n cs -> map r_fp cs = map (fun x => x - R) (map r_time cs).
Proof. induction 1 as [|c l (E & _) F IH]; simpl; [reflexivity|]. congruence. Qed.
Lemma fp_mapf R n cs f : one_forecast R n cs -> one_forecast R n (filter f cs).
Proof. intro F. apply Forall_forall. intros c Hc. apply filter_In in Hc. unfold one_forecast in F. rewrite Forall_forall in F. apply F, Hc. Qed.

Definition in_window (lo hi : Z) (c : rcube) : Prop := lo <= r_fp c <= hi.
Lemma subset_in period fp cs c : In c (subset period fp cs) <-> In c cs /\ in_window (fp - period) fp c.
Proof. unfold subset, in_window. rewrite filter_In, andb_true_iff, !Z.leb_le. tauto. Qed.

Lemma accumulate_value R n cs ti period fp o : one_forecast R n cs -> 0 <= ti -> regular ti (map r_time cs) -> accumulate_at cs ti period fp = Ok o ->
  let w := subset period fp cs in
  (2 <= length w)%nat /\ fst (ac_fp o) = hd 0 (map r_fp w) /\ snd (ac_fp o) = last (map r_fp w) 0 /\
  length (ac_data o) = n /\ forall j, (j < n)%nat -> (nth j (ac_data o) 0 == integral (ptseries j w))%Q.
Proof.
  intros O T Rg H w. unfold accumulate_at in H. fold w in H.
  assert (Rw : regular ti (map r_fp w)).
  { apply regular_filter; [assumption|]. rewrite (fp_map R n cs O). apply (proj1 (regular_shift ti _ R)). assumption. }
  assert (Fw : Forall (fun c => length (r_data c) = n) w).
  { pose proof (fp_mapf R n cs (fun c => (fp - period <=? r_fp c) && (r_fp c <=? fp)) O) as G. eapply Forall_impl; [|exact G]. simpl; tauto. }
  clearbody w. destruct w as [|a [|b r]]; try discriminate. apply Ok_inj in H. subst o. cbn [ac_fp ac_data fst snd].
  assert (La : length (r_data a) = n) by (inversion Fw; assumption).
  pose proof (regular_sorted ti _ T Rw) as S.
  split; [simpl; lia|]. split; [|split; [|split]].
  - cbn [map hd]. apply (zmin_first (r_fp a) (map r_fp (b :: r))). inversion S; assumption.
  - transitivity (last (map r_fp (b :: r)) (r_fp a)); [apply (zmax_last (map r_fp (b :: r)) (r_fp a)); exact S|].
    cbn [map]. generalize (map r_fp r). intro l. change (last (r_fp a :: r_fp b :: l) 0) with (last (r_fp b :: l) 0). clear.
    generalize (r_fp a) (r_fp b). induction l as [|x l IH]; intros; [reflexivity|]. exact (IH z x).
  - apply acc_loop_len; [assumption|]. rewrite repeat_length. assumption.
  - intros j Hj. rewrite (acc_loop_value n ti _ j Hj); [|assumption|rewrite repeat_length; assumption|assumption].
    rewrite nth_repeat. ring.
Qed.

Lemma zmin_shift R l x : zmin_l (x + R) (map (fun y => y + R) l) = zmin_l x l + R.
Proof. revert x. induction l as [|y l IH]; intro x; [reflexivity|]. cbn [map]. unfold zmin_l in *. cbn [fold_left]. rewrite <- IH. f_equal. lia. Qed.
Lemma zmax_shift R l x : zmax_l (x + R) (map (fun y => y + R) l) = zmax_l x l + R.
Proof. revert x. induction l as [|y l IH]; intro x; [reflexivity|]. cbn [map]. unfold zmax_l in *. cbn [fold_left]. rewrite <- IH. f_equal. lia. Qed.
Lemma accumulate_times R n cs ti period fp o : one_forecast R n cs -> accumulate_at cs ti period fp = Ok o ->
  ac_time o = (fst (ac_fp o) + R, snd (ac_fp o) + R).
Proof.
  intros O H. unfold accumulate_at in H.
  pose proof (fp_mapf R n cs (fun c => (fp - period <=? r_fp c) && (r_fp c <=? fp)) O) as G.
  change (filter _ cs) with (subset period fp cs) in G. destruct (subset period fp cs) as [|a [|b r]]; try discriminate.
  apply Ok_inj in H. subst o. cbn [ac_fp ac_time fst snd].
  assert (E : forall l, one_forecast R n l -> map r_time l = map (fun y => y + R) (map r_fp l)).
  { clear. intros l F. rewrite map_map. apply map_ext_in. intros c Hc. unfold one_forecast in F. rewrite Forall_forall in F. destruct (F c Hc). lia. }
  pose proof (E _ G) as E1. cbn [map] in E1. injection E1 as -> E2. 
  inversion G as [|? ? _ G']; subst. rewrite (E _ G'). rewrite zmin_shift, zmax_shift. reflexivity.
Qed.

(** * check_period *)
Lemma check_period_iff period ti : 0 < period -> 0 < ti -> (check_period period ti = Ok tt <-> (ti | period)).
Proof.
  intros P T. unfold check_period. destruct (Z.eqb_spec ti 0); [lia|].
  rewrite Z.quot_div_nonneg, Z.rem_mod_nonneg by lia.
  destruct (Z.eqb_spec (period / ti) 0) as [E|E].
  - split; [discriminate|]. intro D. apply Z.divide_pos_le in D; [|lia]. apply Z.div_small_iff in E; lia.
  - destruct (Z.eqb_spec (period mod ti) 0) as [M|M].
    + split; [intros _; apply Z.mod_divide; lia|reflexivity].
    + split; [discriminate|]. intro D. apply Z.mod_divide in D; lia.
Qed.

(** * process *)
Lemma process_ok s cubes s' outs : accumulation_process s cubes = (s', Ok outs) ->
  exists ti, let cs := sort_cubes cubes in let period := period_of s cs in
  unique_interval (map r_time cs) = Ok ti /\ check_period period ti = Ok tt /\
  Forall2 (fun fp o => accumulate_at cs ti period fp = Ok o) (fps_of s cs ti period) outs /\
  s' = {| a_period := Some period; a_fps := Some (fps_of s cs ti period) |}.
Proof.
  unfold accumulation_process, acc_check_inputs. destruct (unique_interval _) as [ti|] eqn:U; [|discriminate].
  destruct (check_period _ ti) as [[]|] eqn:C; [|discriminate]. intro H. injection H as <- H.
  exists ti. cbv zeta. split; [reflexivity|]. split; [assumption|]. split; [|reflexivity]. 
  clear - H. revert outs H. generalize (fps_of s (sort_cubes cubes) ti (period_of s (sort_cubes cubes))). intro l.
  induction l as [|f l IH]; simpl; intros outs H; [injection H as <-; constructor|].
  destruct (accumulate_at _ ti _ f) as [o|] eqn:A; simpl in H; [|discriminate].
  destruct (mapM _ l) as [os|]; simpl in H; [|discriminate]. injection H as <-. constructor; [assumption|]. apply IH. reflexivity.
Qed.
Lemma interval_nonneg cubes ti : unique_interval (map r_time (sort_cubes cubes)) = Ok ti -> 0 <= ti.
Proof.
  intro U. apply unique_iff in U. destruct U as (L & R). pose proof (sorted_times _ (sort_sorted cubes)) as S.
  destruct (map r_time (sort_cubes cubes)) as [|a [|b l]]; simpl in L; try lia. destruct R as (E & _). inversion S as [|? ? _ F]; subst. inversion F; subst. lia.
Qed.

(** Same time interval everywhere: [in_time_order] is the ordering the specification uses. *)
Definition in_time_order (cubes cs : list rcube) : Prop := Permutation cubes cs /\ StronglySorted tle cs.

Lemma process_spec s cubes s' outs R n : one_forecast R n cubes -> accumulation_process s cubes = (s', Ok outs) ->
  exists cs ti, in_time_order cubes cs /\ (2 <= length cs)%nat /\ regular ti (map r_time cs) /\ 
  Forall2 (fun fp o => let w := subset (period_of s cs) fp cs in
     (2 <= length w)%nat /\ fst (ac_fp o) = hd 0 (map r_fp w) /\ snd (ac_fp o) = last (map r_fp w) 0 /\
     forall j, (j < n)%nat -> (nth j (ac_data o) 0 == integral (ptseries j w))%Q) (fps_of s cs ti (period_of s cs)) outs.
Proof.
  intros O H. destruct (process_ok s cubes s' outs H) as (ti & U & C & F & _). exists (sort_cubes cubes), ti.
  pose proof (interval_nonneg cubes ti U) as T. apply unique_iff in U. destruct U as (L & Rg).
  split; [split; [apply sort_perm|apply sort_sorted]|]. split; [rewrite map_length in L; exact L|]. split; [exact Rg|].
  assert (O' : one_forecast R n (sort_cubes cubes)) by (unfold one_forecast in *; eapply Permutation_Forall; [apply sort_perm|exact O]).
  clear - F O' T Rg. induction F as [|fp o l m A F IH]; constructor; [|assumption].
  destruct (accumulate_value R n _ ti _ fp o O' T Rg A) as (X1 & X2 & X3 & _ & X4). cbv zeta. auto.
Qed.

Lemma process_order_free s l m : Permutation l m -> NoDup (map r_time l) -> accumulation_process s l = accumulation_process s m.
Proof. intros P N. unfold accumulation_process, acc_check_inputs. rewrite (sort_order_free l m P N). reflexivity. Qed.

(** * Adjacent windows *)
Lemma filter_split ti (l : list rcube) lo mid hi : 0 < ti -> regular ti (map r_fp l) -> lo <= mid <= hi -> (exists c, In c l /\ r_fp c = mid) ->
  exists u x v, filter (fun c => (lo <=? r_fp c) && (r_fp c <=? mid)) l = u ++ [x] /\
   filter (fun c => (mid <=? r_fp c) && (r_fp c <=? hi)) l = x :: v /\
   filter (fun c => (lo <=? r_fp c) && (r_fp c <=? hi)) l = u ++ x :: v.
Proof.
  intros T. induction l as [|a l IH]; intros R W (c & Hc & Ec); [destruct Hc|].
  assert (R1 : regular ti (map r_fp l)) by (destruct l; [exact I|apply R]).
  assert (S : Forall (fun c => r_fp a < r_fp c) l).
  { clear - R T. revert a R. induction l as [|b l IH]; intros a R; [constructor|]. destruct R as (E & R). specialize (IH b R).
    constructor; [lia|]. eapply Forall_impl; [|exact IH]. simpl. lia. }
  destruct (Z.eq_dec (r_fp a) mid) as [Ea|Ea].
  - exists [], a, (filter (fun c => (lo <=? r_fp c) && (r_fp c <=? hi)) l).
    assert (G1 : filter (fun c => (lo <=? r_fp c) && (r_fp c <=? mid)) l = []).
    { clear - S Ea. induction S as [|b l B F IH]; [reflexivity|]. simpl. destruct (Z.leb_spec (r_fp b) mid); [lia|]. rewrite andb_false_r. exact IH. }
    assert (G2 : filter (fun c => (mid <=? r_fp c) && (r_fp c <=? hi)) l = filter (fun c => (lo <=? r_fp c) && (r_fp c <=? hi)) l).
    { apply filter_ext_in. intros b Hb. rewrite Forall_forall in S. specialize (S b Hb). f_equal.
      destruct (Z.leb_spec mid (r_fp b)), (Z.leb_spec lo (r_fp b)); trivial; lia. }
    simpl. rewrite G1, G2. repeat match goal with |- context [?x <=? ?y] => destruct (Z.leb_spec x y); try lia end. simpl. auto.
  - destruct Hc as [->|Hc]; [lia|]. destruct (IH R1 W (ex_intro _ c (conj Hc Ec))) as (u & x & v & E1 & E2 & E3).
    assert (La : r_fp a < mid) by (rewrite Forall_forall in S; specialize (S c Hc); lia).
    simpl. rewrite E1, E2, E3. destruct (Z.leb_spec mid (r_fp a)); [lia|]. destruct (Z.leb_spec (r_fp a) mid); [|lia]. destruct (Z.leb_spec (r_fp a) hi); [|lia]. simpl.
    rewrite !andb_true_r. destruct (lo <=? r_fp a); [exists (a :: u), x, v|exists u, x, v]; auto.
Qed.

Lemma accumulate_additive R n cs ti p1 p2 fp o o1 o2 j : one_forecast R n cs -> 0 < ti -> regular ti (map r_time cs) ->
  0 <= p1 -> 0 <= p2 -> (exists c, In c cs /\ r_fp c = fp - p2) ->
  accumulate_at cs ti (p1 + p2) fp = Ok o -> accumulate_at cs ti p1 (fp - p2) = Ok o1 -> accumulate_at cs ti p2 fp = Ok o2 ->
  (j < n)%nat -> (nth j (ac_data o) 0 == nth j (ac_data o1) 0 + nth j (ac_data o2) 0)%Q.
Proof.
  intros O T Rg P1 P2 M A A1 A2 Hj.
  destruct (accumulate_value R n cs ti _ _ o O ltac:(lia) Rg A) as (_ & _ & _ & _ & V). specialize (V j Hj).
  destruct (accumulate_value R n cs ti _ _ o1 O ltac:(lia) Rg A1) as (_ & _ & _ & _ & V1). specialize (V1 j Hj).
  destruct (accumulate_value R n cs ti _ _ o2 O ltac:(lia) Rg A2) as (_ & _ & _ & _ & V2). specialize (V2 j Hj).
  cbv zeta in *. rewrite V, V1, V2.
  assert (Rf : regular ti (map r_fp cs)) by (rewrite (fp_map R n cs O); apply (proj1 (regular_shift ti _ R)); assumption).
  destruct (filter_split ti cs (fp - (p1 + p2)) (fp - p2) fp T Rf ltac:(lia) M) as (u & x & v & E1 & E2 & E3).
  unfold subset. replace (fp - p2 - p1) with (fp - (p1 + p2)) by lia. rewrite E1, E2, E3. unfold ptseries. rewrite !map_app. simpl map.
  apply integral_app.
Qed.

Lemma accumulate_constant R n cs ti period fp o j r : one_forecast R n cs -> 0 <= ti -> regular ti (map r_time cs) -> accumulate_at cs ti period fp = Ok o ->
  (j < n)%nat -> Forall (fun c => nth j (r_data c) 0 == r)%Q cs -> (nth j (ac_data o) 0 == r * inject_Z (snd (ac_fp o) - fst (ac_fp o)))%Q.
Proof.
  intros O T Rg A Hj F. destruct (accumulate_value R n cs ti _ _ o O T Rg A) as (L & E1 & E2 & _ & V). rewrite (V j Hj), E1, E2.
  assert (Fw : Forall (fun c => nth j (r_data c) 0 == r)%Q (subset period fp cs)).
  { apply Forall_forall. intros c Hc. apply subset_in in Hc. rewrite Forall_forall in F. apply F, Hc. }
  destruct (subset period fp cs) as [|a w]; [simpl in L; lia|]. inversion Fw as [|? ? F1 F2]; subst. unfold ptseries. cbn [map hd].
  rewrite (integral_const (map (fun c => (r_fp c, nth j (r_data c) 0%Q)) w) r).
  - rewrite map_map. cbn [fst]. rewrite inject_sub. rewrite last_cons. reflexivity.
  - apply Forall_map. simpl. assumption.
  - assumption.
Qed.
Lemma subset_sorted R n cs ti period fp : one_forecast R n cs -> 0 <= ti -> regular ti (map r_time cs) -> StronglySorted Z.le (map r_fp (subset period fp cs)).
Proof.
  intros O T Rg. apply (regular_sorted ti); [assumption|]. apply regular_filter; [assumption|]. rewrite (fp_map R n cs O). apply (proj1 (regular_shift ti _ R)). assumption.
Qed.
Lemma accumulate_nonneg R n cs ti period fp o j : one_forecast R n cs -> 0 <= ti -> regular ti (map r_time cs) -> accumulate_at cs ti period fp = Ok o ->
  (j < n)%nat -> Forall (fun c => 0 <= nth j (r_data c) 0)%Q cs -> (0 <= nth j (ac_data o) 0)%Q.
Proof.
  intros O T Rg A Hj F. destruct (accumulate_value R n cs ti _ _ o O T Rg A) as (L & _ & _ & _ & V). rewrite (V j Hj).
  apply integral_nonneg.
  - unfold ptseries. rewrite map_map. cbn [fst]. apply (subset_sorted R n cs ti); assumption.
  - apply Forall_map. apply Forall_forall. intros c Hc. apply subset_in in Hc. rewrite Forall_forall in F. simpl. apply F, Hc.
Qed.

(** Full coverage: if the window's ends are both forecast periods of the inputs, the reported bounds are exactly the window. *)
Lemma accumulate_covers R n cs ti period fp o : one_forecast R n cs -> 0 <= ti -> regular ti (map r_time cs) -> accumulate_at cs ti period fp = Ok o -> 0 <= period ->
  (exists c, In c cs /\ r_fp c = fp - period) -> (exists c, In c cs /\ r_fp c = fp) -> ac_fp o = (fp - period, fp).
Proof.
  intros O T Rg A P (c & Hc & Ec) (d & Hd & Ed). destruct (accumulate_value R n cs ti _ _ o O T Rg A) as (L & E1 & E2 & _ & _).
  pose proof (subset_sorted R n cs ti period fp O T Rg) as S.
  assert (Ic : In (fp - period) (map r_fp (subset period fp cs))) by (rewrite <- Ec; apply in_map; apply subset_in; unfold in_window; split; [assumption|lia]).
  assert (Id : In fp (map r_fp (subset period fp cs))) by (rewrite <- Ed; apply in_map; apply subset_in; unfold in_window; split; [assumption|lia]).
  assert (B : Forall (fun x => fp - period <= x <= fp) (map r_fp (subset period fp cs))).
  { apply Forall_map. apply Forall_forall. intros x Hx. apply subset_in in Hx. apply Hx. }
  destruct (ac_fp o) as (x, y). simpl in E1, E2. subst x y. f_equal.
  - destruct (map r_fp (subset period fp cs)) as [|a l]; [destruct Ic|]. simpl. inversion S as [|? ? _ F]; inversion B; subst. rewrite Forall_forall in F.
    destruct Ic as [->|Ic]; [lia|]. specialize (F _ Ic). lia.
  - revert S Id B. generalize (map r_fp (subset period fp cs)). clear. intros l S. induction S as [|a l S IH F]; intros Id B; [destruct Id|].
    inversion B as [|? ? B1 B2]; subst. destruct l as [|b l]; [destruct Id as [->|[]]; reflexivity|].
    change (last (a :: b :: l) 0) with (last (b :: l) 0). destruct Id as [->|Id]; [|apply IH; assumption].
    inversion F; inversion B2; subst. apply IH; [left; lia|assumption].
Qed.
