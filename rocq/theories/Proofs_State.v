(** Proofs for C29. *)
From Verif Require Import Base Interp Spec_State Model_Temporal Proofs_Temporal Model_Accumulation Model_State.
Local Open Scope string_scope.
Local Open Scope Q_scope.

(** An invariant that contains the initial state and on which answers agree with it. *)
Lemma independent_inv {St In Out} (call : St -> In -> St * Out) (Inv : St -> Prop) s0 :
  Inv s0 -> (forall s i, Inv s -> Inv (fst (call s i))) -> (forall s i, Inv s -> snd (call s i) = snd (call s0 i)) -> history_independent call s0.
Proof.
  intros I0 IS IA h i. apply IA. unfold after. revert I0. generalize s0 at 1 2. induction h as [|x h IH]; intros s Is; [exact Is|]. simpl. apply IH. apply IS. exact Is.
Qed.
Lemma independent_const {St In Out} (call : St -> In -> St * Out) s0 : (forall i, fst (call s0 i) = s0) -> history_independent call s0.
Proof.
  intro H. apply (independent_inv call (eq s0)); [reflexivity| |]; intros s i <-; [symmetry; apply H|reflexivity].
Qed.

Lemma threshold_independent truth st : st <> Some "percentile" -> history_independent (threshold_call truth) st.
Proof.
  intro N. apply independent_const. intro i. destruct st as [s|]; [|reflexivity]. simpl.
  destruct (String.eqb_spec s "percentile"); [congruence|]. destruct (String.eqb (e_dim i) s); reflexivity.
Qed.
(** After one successful call with collapse_coord "percentile", every percentile cube is refused. *)
Lemma threshold_percentile_after truth h i : 
  Exists (fun c => e_dim c = "percentile") h -> e_dim i = "percentile" ->
  answer (threshold_call truth) (after (threshold_call truth) (Some "percentile") h) i = Err CoordinateNotFoundError.
Proof.
  intros E Hi. assert (S : after (threshold_call truth) (Some "percentile") h = Some "realization").
  { assert (R : forall h, after (threshold_call truth) (Some "realization") h = Some "realization").
    { clear. induction h as [|c h IH]; [reflexivity|]. unfold after. cbn [fold_left]. unfold step at 2. cbn [threshold_call].
      change (String.eqb "realization" "percentile") with false. cbv iota. destruct (String.eqb (e_dim c) "realization"); exact IH. }
    induction h as [|c h IH]; [inversion E|]. unfold after. cbn [fold_left]. unfold step at 2. cbn [threshold_call].
    change (String.eqb "percentile" "percentile") with true. cbv iota. destruct (String.eqb_spec (e_dim c) "percentile") as [Ec|Ec]; [apply R|].
    apply IH. inversion E; [congruence|assumption]. }
  rewrite S. unfold answer. cbn [threshold_call]. change (String.eqb "realization" "percentile") with false. cbv iota. rewrite Hi. reflexivity.
Qed.

Lemma truncnorm_first shape loc scale : ~ scale == 0 -> Forall2 Qeq (answer (truncnorm_call true) shape (loc, scale)) shape.
Proof.
  intro N. unfold answer. simpl. rewrite map_map. induction shape as [|v l IH]; simpl; constructor; [field; assumption|assumption].
Qed.
Lemma truncnorm_second shape l1 s1 l2 s2 : ~ s1 == 0 -> ~ s2 == 0 ->
  Forall2 Qeq (answer (truncnorm_call true) (after (truncnorm_call true) shape [(l1, s1)]) (l2, s2)) (map (fun v => (v - l1) / s1) shape).
Proof.
  intros N1 N2. unfold answer, after. simpl. rewrite !map_map. induction shape as [|v l IH]; simpl; constructor; [field; split; assumption|assumption].
Qed.

Lemma aggregate_none : history_independent aggregate_call None.
Proof. apply independent_const. reflexivity. Qed.

Lemma blend_independent bc (h : list cube_coords) i : Forall (fun c => forall d, lookup bc c = Some (Some d) -> d = bc) h ->
  answer blend_call (after blend_call bc h) i = answer blend_call bc i.
Proof.
  intro F. assert (S : after blend_call bc h = bc); [|rewrite S; reflexivity].
  induction F as [|c h Hc F IH]; [reflexivity|]. unfold after. cbn [fold_left]. assert (E : step blend_call bc c = bc); [|rewrite E; exact IH].
  unfold step, blend_call. destruct (lookup bc c) as [[d|]|] eqn:L; simpl; auto.
Qed.

Lemma interval_independent m : history_independent (interval_call m) tt.
Proof. apply independent_const. intros (a, b). reflexivity. Qed.

Lemma isort_zle l : StronglySorted Z.le (isort Z.leb l).
Proof.
  apply isort_sorted.
  - intros x y. destruct (Z.leb_spec x y); [auto|discriminate].
  - intros x y. destruct (Z.leb_spec x y); [discriminate|lia].
  - intros x y z. lia.
Qed.
Lemma zsortu_ext l m : (forall x, In x l <-> In x m) -> zsortu l = zsortu m.
Proof. intro E. apply zsorted_unique; [apply zsortu_sorted..|]. intro x. rewrite !zsortu_in. apply E. Qed.

Definition tcfg (ts : list Z) : config := {| c_interval := None; c_times := Some ts; c_method := Linear; c_acc := false; c_max := false; c_min := false |}.
Lemma ctl_ok_iff ts initial final : (initial <= final)%Z ->
  (exists l, construct_time_list (tcfg ts) initial final = Ok l) <-> ts <> [] /\ Forall (fun t => (initial <= t <= final)%Z) ts.
Proof. intro H. apply (ctl_times (tcfg ts) ts initial final eq_refl H). Qed.
Lemma ctl_value ts initial final l : (initial <= final)%Z -> construct_time_list (tcfg ts) initial final = Ok l -> l = zsortu (ts ++ [final]).
Proof.
  intros H E. destruct (ctl_times (tcfg ts) ts initial final eq_refl H) as (A & _). destruct (A l E) as (S & I & _).
  apply zsorted_unique; [assumption|apply zsortu_sorted|]. intro x. rewrite I, zsortu_in, in_app_iff. simpl. intuition.
Qed.
Lemma ctl_nonempty_err ts initial final e : ts <> [] -> construct_time_list (tcfg ts) initial final = Err e -> e = ValueError.
Proof.
  intros N H. unfold construct_time_list, tcfg in H. cbn [c_times] in H.
  destruct (isort Z.leb ts) as [|x s] eqn:E; [exfalso; apply N; pose proof (isort_perm Z.leb ts) as P; rewrite E in P; apply Permutation_sym, Permutation_nil in P; exact P|].
  destruct (_ || _); congruence.
Qed.

(** Calling again and again with the same pair of inputs gives the same times. *)
Lemma times_same_inputs ts initial final n : (initial <= final)%Z ->
  answer times_call (after times_call ts (repeat (initial, final) n)) (initial, final) = answer times_call ts (initial, final).
Proof.
  intro H.
  assert (G : forall s, (s = [] <-> ts = []) -> (forall x, In x s \/ x = final <-> In x ts \/ x = final) -> (Forall (fun t => (initial <= t <= final)%Z) ts <-> Forall (fun t => (initial <= t <= final)%Z) s) ->
     answer times_call s (initial, final) = answer times_call ts (initial, final)).
  { intros s N E B. unfold answer, times_call. simpl. fold (tcfg s). fold (tcfg ts).
    destruct (construct_time_list (tcfg ts) initial final) as [l|e] eqn:C.
    - assert (X : exists l, construct_time_list (tcfg s) initial final = Ok l).
      { apply ctl_ok_iff; [assumption|]. assert (Y : ts <> [] /\ Forall (fun t => (initial <= t <= final)%Z) ts) by (apply (proj1 (ctl_ok_iff ts initial final H)); eauto).
        split; [rewrite N; tauto|apply B; tauto]. }
      destruct X as (l' & C'). rewrite C'. f_equal. rewrite (ctl_value s initial final l' H C'), (ctl_value ts initial final l H C).
      apply zsortu_ext. intro x. rewrite !in_app_iff. simpl. specialize (E x). intuition.
    - destruct (construct_time_list (tcfg s) initial final) as [l'|e'] eqn:C'.
      + exfalso. assert (X : exists l, construct_time_list (tcfg ts) initial final = Ok l).
        { apply ctl_ok_iff; [assumption|]. assert (Y : s <> [] /\ Forall (fun t => (initial <= t <= final)%Z) s) by (apply (proj1 (ctl_ok_iff s initial final H)); eauto).
          split; [rewrite <- N; tauto|apply B; tauto]. }
        destruct X as (l & X). congruence.
      + f_equal. destruct (list_eq_dec Z.eq_dec ts []) as [Z|Z].
        * assert (s = []) by (apply N; assumption). subst. congruence.
        * rewrite (ctl_nonempty_err ts initial final e Z C). apply (ctl_nonempty_err s initial final e'); [rewrite N; exact Z|exact C']. }
  apply G.
  - unfold after. clear G. assert (X : forall s, fold_left (step times_call) (repeat (initial, final) n) s = [] <-> s = []); [|apply X].
    induction n as [|n IH]; intro s; [simpl; tauto|]. cbn [repeat fold_left]. rewrite IH. unfold step, times_call. simpl fst.
    destruct (construct_time_list _ initial final) eqn:E; fold (tcfg s) in E.
    + split; [destruct (isort Z.leb s); discriminate|]. intros ->. discriminate.
    + split; intro Z; [|subst; reflexivity]. pose proof (isort_perm Z.leb s) as P. rewrite Z in P. apply Permutation_sym, Permutation_nil in P. exact P.
  - unfold after. clear G. assert (X : forall s x, In x (fold_left (step times_call) (repeat (initial, final) n) s) \/ x = final <-> In x s \/ x = final); [|intro; apply X].
    induction n as [|n IH]; intros s x; [simpl; tauto|]. cbn [repeat fold_left]. rewrite IH. unfold step, times_call. simpl fst.
    assert (P : In x (isort Z.leb s) <-> In x s) by (split; apply Permutation_in; [apply Permutation_sym|]; apply isort_perm).
    destruct (construct_time_list _ initial final); [|tauto]. rewrite in_app_iff, P. simpl. intuition.
  - unfold after. clear G. assert (X : forall s, Forall (fun t => (initial <= t <= final)%Z) s <-> Forall (fun t => (initial <= t <= final)%Z) (fold_left (step times_call) (repeat (initial, final) n) s)); [|apply X].
    induction n as [|n IH]; intro s; [simpl; tauto|]. cbn [repeat fold_left]. rewrite <- IH. unfold step, times_call. simpl fst.
    assert (P : Forall (fun t => (initial <= t <= final)%Z) (isort Z.leb s) <-> Forall (fun t => (initial <= t <= final)%Z) s).
    { split; apply Permutation_Forall; [apply Permutation_sym|]; apply isort_perm. }
    destruct (construct_time_list _ initial final); [|symmetry; exact P]. rewrite Forall_app, P. split; [|tauto]. intro F. split; [exact F|]. constructor; [lia|constructor].
Qed.

Lemma filter_filter_same {A} (f : A -> bool) l : filter f (filter f l) = filter f l.
Proof. induction l as [|a l IH]; [reflexivity|]. simpl. destruct (f a) eqn:E; simpl; rewrite ?E, IH; reflexivity. Qed.
Lemma accumulation_independent p fps : history_independent accumulation_process {| a_period := Some p; a_fps := Some fps |}.
Proof.
  apply (independent_inv accumulation_process (fun s => a_period s = Some p /\ exists f, a_fps s = Some f /\ filter (fun x => (p <=? x)%Z) f = filter (fun x => (p <=? x)%Z) fps)).
  - simpl. eauto.
  - intros s i (E & f & Ef & Hf). unfold accumulation_process, acc_check_inputs. destruct (unique_interval _); [|simpl; eauto].
    unfold period_of. rewrite E. destruct (check_period p a); [|simpl; eauto]. simpl. split; [reflexivity|].
    unfold fps_of. rewrite Ef. eexists. split; [reflexivity|]. rewrite filter_filter_same. assumption.
  - intros s i (E & f & Ef & Hf). unfold accumulation_process, acc_check_inputs. destruct (unique_interval _) as [ti|]; [|reflexivity].
    unfold period_of. rewrite E. cbn [a_period]. destruct (check_period p ti); [|reflexivity]. unfold fps_of. rewrite Ef. cbn [a_fps]. cbn [snd]. rewrite Hf. reflexivity.
Qed.

Lemma combine_named n : history_independent combine_call (Some n).
Proof. apply independent_const. reflexivity. Qed.
Lemma broadcast_named s : s <> "threshold" -> history_independent broadcast_call s.
Proof. intro N. apply independent_const. intros (t, cs). simpl. destruct (String.eqb_spec s "threshold"); [congruence|reflexivity]. Qed.
Lemma radius_independent lr s0 : history_independent (radius_call lr) s0.
Proof.
  destruct lr as [|p lr]; [apply independent_const; reflexivity|].
  apply (independent_inv _ (fun _ => True)); [exact I|auto|reflexivity].
Qed.
Lemma threshold_coord_independent {A B} (find : A -> B) s0 : history_independent (threshold_coord_call find) s0.
Proof. apply (independent_inv _ (fun _ => True)); [exact I|auto|reflexivity]. Qed.
