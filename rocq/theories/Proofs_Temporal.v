(** Proofs about Model_Temporal.v. *)
From Verif Require Import Base Model_Temporal.
Open Scope Z_scope.

Lemma Ok_inj {A} (a b : A) : Ok a = Ok b -> a = b.
Proof. congruence. Qed.

(** * sorted(set(.)) *)
Lemma zins_in x l y : In y (zins x l) <-> y = x \/ In y l.
Proof.
  induction l as [|a l IH]; simpl; [intuition|].
  destruct (Z.ltb_spec x a); simpl; [intuition|].
  destruct (Z.eqb_spec x a); simpl; [subst; intuition|]. rewrite IH. intuition.
Qed.
Lemma zins_sorted x l : StronglySorted Z.lt l -> StronglySorted Z.lt (zins x l).
Proof.
  induction 1 as [|a l S IH F]; simpl; [repeat constructor|].
  destruct (Z.ltb_spec x a).
  - constructor; [constructor; assumption|]. constructor; [assumption|]. eapply Forall_impl; [|exact F]. simpl; lia.
  - destruct (Z.eqb_spec x a); [constructor; assumption|]. constructor; [assumption|].
    apply Forall_forall. intros y Hy. apply zins_in in Hy. destruct Hy as [-> | Hy]; [lia|]. rewrite Forall_forall in F. auto.
Qed.
Lemma zsortu_in l y : In y (zsortu l) <-> In y l.
Proof. induction l as [|a l IH]; simpl; [tauto|]. rewrite zins_in, IH. intuition. Qed.
Lemma zsortu_sorted l : StronglySorted Z.lt (zsortu l).
Proof. induction l; simpl; [constructor|]. apply zins_sorted. assumption. Qed.

Lemma zsorted_unique l : forall m, StronglySorted Z.lt l -> StronglySorted Z.lt m -> (forall x, In x l <-> In x m) -> l = m.
Proof.
  induction l as [|a l IH]; intros m Hl Hm E.
  - destruct m as [|b m]; [reflexivity|]. destruct (proj2 (E b) (or_introl eq_refl)).
  - destruct m as [|b m]; [destruct (proj1 (E a) (or_introl eq_refl))|].
    inversion Hl as [|? ? Sl Fl]; inversion Hm as [|? ? Sm Fm]; subst. rewrite Forall_forall in Fl, Fm.
    assert (a = b).
    { destruct (proj1 (E a) (or_introl eq_refl)) as [->|H1]; [reflexivity|]. destruct (proj2 (E b) (or_introl eq_refl)) as [->|H2]; [reflexivity|].
      specialize (Fl _ H2). specialize (Fm _ H1). lia. }
    subst b. f_equal. apply IH; [assumption..|]. intro x. split; intro H.
    + destruct (proj1 (E x) (or_intror H)) as [->|]; [specialize (Fl _ H); lia|assumption].
    + destruct (proj2 (E x) (or_intror H)) as [->|]; [specialize (Fm _ H); lia|assumption].
Qed.
Lemma zsortu_id l : StronglySorted Z.lt l -> zsortu l = l.
Proof. intro H. apply zsorted_unique; [apply zsortu_sorted|assumption|intro; apply zsortu_in]. Qed.

(** * The interval loop *)
Definition steps (step entry : Z) (n : nat) : list Z := map (fun k => entry + step * (Z.of_nat k + 1)) (seq 0 n).
Lemma steps_S step entry n : steps step entry (S n) = (entry + step) :: steps step (entry + step) n.
Proof.
  unfold steps. cbn [seq map]. f_equal; [lia|]. rewrite <- seq_shift, map_map. apply map_ext. intro k. lia.
Qed.
Lemma steps_snoc step entry n : steps step entry (S n) = steps step entry n ++ [entry + step * (Z.of_nat n + 1)].
Proof. unfold steps. rewrite seq_S, map_app. reflexivity. Qed.
Lemma steps_length step entry n : length (steps step entry n) = n.
Proof. unfold steps. rewrite map_length, seq_length. reflexivity. Qed.
Lemma steps_nth step entry n k d : (k < n)%nat -> nth k (steps step entry n) d = entry + step * (Z.of_nat k + 1).
Proof. intro H. unfold steps. rewrite nth_map_seq by assumption. reflexivity. Qed.
Lemma steps_in step entry n x : In x (steps step entry n) <-> exists k, (k < n)%nat /\ x = entry + step * (Z.of_nat k + 1).
Proof.
  unfold steps. rewrite in_map_iff. split; intros (k & A & B); exists k.
  - apply in_seq in B. split; [lia|congruence].
  - split; [congruence|apply in_seq; lia].
Qed.
Lemma steps_sorted step n : 0 < step -> forall entry, StronglySorted Z.lt (steps step entry n).
Proof.
  intro H. induction n; intro entry; [constructor|]. rewrite steps_S. constructor; [apply IHn|].
  apply Forall_forall. intros x Hx. apply steps_in in Hx. destruct Hx as (k & _ & ->). nia.
Qed.
Definition nsteps (step gap : Z) : nat := Z.to_nat ((gap - 1) / step).
Lemma loop_ok step final fuel : 0 < step -> forall entry, (Z.to_nat (final - entry) < fuel)%nat ->
  interval_loop fuel step final entry = Ok (steps step entry (nsteps step (final - entry))).
Proof.
  intro Hs. induction fuel as [|f IH]; intros entry Hf; [lia|]. simpl.
  destruct (Z.leb_spec final (entry + step)) as [L|L].
  - unfold nsteps. replace (Z.to_nat ((final - entry - 1) / step)) with 0%nat; [reflexivity|].
    symmetry. destruct (Z_lt_le_dec (final - entry - 1) 0) as [N|N].
    + pose proof (Z.div_lt_upper_bound (final - entry - 1) step 0). lia.
    + rewrite Z.div_small by lia. reflexivity.
  - rewrite IH by lia. simpl. f_equal. unfold nsteps.
    replace (final - entry - 1) with ((final - (entry + step) - 1) + 1 * step) by lia.
    rewrite Z.div_add by lia. assert (0 <= (final - (entry + step) - 1) / step) by (apply Z.div_pos; lia).
    rewrite Z2Nat.inj_add by lia. change (Z.to_nat 1) with 1%nat. rewrite Nat.add_1_r, steps_S. reflexivity.
Qed.

Lemma nsteps_bounds step gap : 0 < step -> 0 < gap -> step * Z.of_nat (nsteps step gap) < gap /\ gap <= step * (Z.of_nat (nsteps step gap) + 1).
Proof.
  intros Hs Hg. unfold nsteps. rewrite Z2Nat.id by (apply Z.div_pos; lia).
  pose proof (Z.div_mod (gap - 1) step). pose proof (Z.mod_pos_bound (gap - 1) step). nia.
Qed.

Lemma sorted_snoc l x : StronglySorted Z.lt l -> Forall (fun y => y < x) l -> StronglySorted Z.lt (l ++ [x]).
Proof.
  induction 1 as [|a l S IH F]; intro G; simpl; [repeat constructor|]. inversion G; subst. constructor; [auto|].
  apply Forall_app. split; [assumption|repeat constructor; assumption].
Qed.

(** The list in interval mode, exactly. *)
Lemma ctl_interval c m initial final : c_times c = None -> c_interval c = Some m -> 0 < m -> initial < final ->
  construct_time_list c initial final =
  if (td_seconds (final - initial) mod (60 * m)) =? 0
  then Ok (steps (60 * m) initial (nsteps (60 * m) (final - initial)) ++ [final]) else Err ValueError.
Proof.
  intros Ht Hi Hm Hf. unfold construct_time_list. rewrite Ht, Hi. destruct (Z.eqb_spec m 0); [lia|].
  destruct (_ mod _ =? 0); cbn [negb]; [|reflexivity].
  rewrite loop_ok by lia. cbn [bind]. f_equal. apply zsortu_id. apply sorted_snoc; [apply steps_sorted; lia|].
  apply Forall_forall. intros x Hx. apply steps_in in Hx. destruct Hx as (k & Hk & ->).
  destruct (nsteps_bounds (60 * m) (final - initial)); nia.
Qed.

Lemma ctl_interval_same c m t : c_times c = None -> c_interval c = Some m -> 0 < m -> construct_time_list c t t = Ok [t].
Proof.
  intros Ht Hi Hm. unfold construct_time_list. rewrite Ht, Hi. destruct (Z.eqb_spec m 0); [lia|].
  rewrite Z.sub_diag. change (td_seconds 0) with 0. rewrite Z.mod_0_l by lia. cbn [Z.eqb negb].
  rewrite loop_ok by lia. rewrite Z.sub_diag. unfold nsteps.
  replace (Z.to_nat ((0 - 1) / (60 * m))) with 0%nat; [reflexivity|].
  pose proof (Z.div_lt_upper_bound (0 - 1) (60 * m) 0). lia.
Qed.

Lemma ctl_times c ts initial final : c_times c = Some ts -> initial <= final ->
  (forall l, construct_time_list c initial final = Ok l ->
    StronglySorted Z.lt l /\ (forall t, In t l <-> In t ts \/ t = final) /\ Forall (fun t => initial <= t <= final) l) /\
  ((exists l, construct_time_list c initial final = Ok l) <-> ts <> [] /\ Forall (fun t => initial <= t <= final) ts).
Proof.
  intros Ht Hif. unfold construct_time_list. rewrite Ht.
  pose proof (isort_perm Z.leb ts) as P.
  assert (S : StronglySorted Z.le (isort Z.leb ts)).
  { apply isort_sorted.
    - intros x y. destruct (Z.leb_spec x y); lia.
    - intros x y. destruct (Z.leb_spec x y); [discriminate|lia].
    - intros x y z. lia. }
  destruct (isort Z.leb ts) as [|x s] eqn:E.
  { apply Permutation_sym, Permutation_nil in P. subst. split; [discriminate|]. split; [intros (l & H); discriminate|intros (H & _); congruence]. }
  set (lx := last (x :: s) x) in *.
  assert (B : Forall (fun t => x <= t <= lx) (x :: s)).
  { clear -S. subst lx. assert (G : forall l d, StronglySorted Z.le l -> Forall (fun t => t <= last l d) l).
    { induction l as [|a l IH]; intros d H; [constructor|]. inversion H as [|? ? H2 H3]; subst. destruct l as [|b l]; [repeat constructor; simpl; lia|].
      specialize (IH d H2). constructor; [|exact IH]. inversion H3; subst. inversion IH; subst. simpl in *. lia. }
    pose proof (G _ x S) as G1. inversion S as [|? ? S1 S2]; subst. rewrite Forall_forall in *. intros t Ht. split; [|apply G1; exact Ht].
    destruct Ht as [->|Ht]; [lia|auto]. }
  assert (Lin : In lx (x :: s)).
  { clear. subst lx. assert (G : forall l (d:Z), l <> [] -> In (last l d) l).
    { induction l as [|a l IH]; intros d H; [congruence|]. destruct l as [|b l]; [left; reflexivity|]. right. apply IH. congruence. }
    apply G. congruence. }
  destruct (Z.ltb_spec x initial) as [A|A]; simpl.
  { split; [discriminate|]. split; [intros (l & H); discriminate|]. intros (_ & F). exfalso.
    rewrite Forall_forall in F. specialize (F x).
    assert (In x ts) by (apply (Permutation_in x (Permutation_sym P)); left; reflexivity). specialize (F H). lia. }
  destruct (Z.ltb_spec final lx) as [C|C]; simpl.
  { split; [discriminate|]. split; [intros (l & H); discriminate|]. intros (_ & F). exfalso.
    rewrite Forall_forall in F. specialize (F lx (Permutation_in _ (Permutation_sym P) Lin)). lia. }
  assert (R : Forall (fun t => initial <= t <= final) ts).
  { apply Forall_forall. intros t H. rewrite Forall_forall in B. specialize (B t (Permutation_in _ P H)). lia. }
  change (zins x (zsortu (s ++ [final]))) with (zsortu ((x :: s) ++ [final])).
  split.
  - intros l H. assert (El : zsortu ((x :: s) ++ [final]) = l) by (injection H; trivial). subst l. clear H.
    assert (I : forall t, In t (zsortu ((x :: s) ++ [final])) <-> In t ts \/ t = final).
    { intro t. rewrite zsortu_in, in_app_iff. split; (intros [H|H]; [left|right]).
      - exact (Permutation_in _ (Permutation_sym P) H).
      - destruct H as [H|[]]; congruence.
      - exact (Permutation_in _ P H).
      - left; congruence. }
    split; [apply zsortu_sorted|]. split; [exact I|]. apply Forall_forall. intros t H. apply I in H. destruct H as [H|H]; [rewrite Forall_forall in R; auto|lia].
  - split; [intros _|intros _; eauto]. split; [|exact R]. intros ->. apply Permutation_nil in P. discriminate.
Qed.

(** Facts about every accepted list. *)
Definition valid_config (c : config) : Prop := init c = Ok c /\ (forall m, c_interval c = Some m -> 0 < m).
Lemma init_cases c : init c = Ok c ->
  ((exists m, c_interval c = Some m /\ c_times c = None) \/ (exists ts, c_interval c = None /\ c_times c = Some ts)).
Proof.
  unfold init. destruct (c_interval c) as [m|] eqn:E, (c_times c) as [ts|] eqn:F; try discriminate; intros _; [left|right]; eexists; split; reflexivity.
Qed.

Lemma zsorted_last l d x : StronglySorted Z.lt l -> In x l -> Forall (fun y => y <= x) l -> last l d = x.
Proof.
  induction 1 as [|a l S IH F]; intros Hx B; [destruct Hx|]. inversion B as [|? ? B1 B2]; subst.
  destruct Hx as [->|Hx].
  - destruct l as [|b l]; [reflexivity|]. inversion F; inversion B2; subst. lia.
  - destruct l as [|b l]; [destruct Hx|]. exact (IH Hx B2).
Qed.

Lemma ctl_props c initial final l : valid_config c -> initial <= final -> construct_time_list c initial final = Ok l ->
  StronglySorted Z.lt l /\ In final l /\ Forall (fun t => initial <= t <= final) l /\ l <> [].
Proof.
  intros (I & P) Hif H. destruct (init_cases c I) as [(m & E & F)|(ts & E & F)].
  - specialize (P m E). destruct (Z.eq_dec initial final) as [->|N].
    + rewrite (ctl_interval_same c m final F E P) in H. injection H as <-. split; [repeat constructor|split; [left; reflexivity|split; [constructor; [lia|constructor]|congruence]]].
    + rewrite (ctl_interval c m initial final F E P) in H by lia. destruct (_ =? 0); [|discriminate]. apply Ok_inj in H. subst l.
      set (n := nsteps (60 * m) (final - initial)) in *.
      destruct (nsteps_bounds (60 * m) (final - initial)) as (B1 & B2); [lia..|]. fold n in B1, B2.
      assert (B : Forall (fun t => initial < t < final) (steps (60 * m) initial n)).
      { apply Forall_forall. intros x Hx. apply steps_in in Hx. destruct Hx as (k & Hk & ->). nia. }
      repeat split.
      * apply sorted_snoc; [apply steps_sorted; lia|]. eapply Forall_impl; [|exact B]. simpl; lia.
      * apply in_or_app. right. left. reflexivity.
      * apply Forall_app. split; [eapply Forall_impl; [|exact B]; simpl; lia|constructor; [lia|constructor]].
      * destruct (steps (60 * m) initial n); discriminate.
  - destruct (ctl_times c ts initial final F Hif) as (A & _). destruct (A l H) as (S & J & B). repeat split; try assumption.
    + apply J. right. reflexivity.
    + intros ->. destruct (proj2 (J final) (or_intror eq_refl)).
Qed.
