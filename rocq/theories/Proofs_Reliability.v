From Verif Require Import Base Interp Model_Reliability Spec_Reliability.

(** * Grouping *)
Lemma is_union_one b : is_union [b] b.
Proof. repeat split; simpl; try lra; try discriminate. Qed.
Lemma grouped_refl t : grouped t t.
Proof. induction t as [|b t IH]; [constructor|]. change (b :: t) with ([b] ++ t) at 1. constructor; [apply is_union_one|exact IH]. Qed.
Lemma grouped_app a a' b b' : grouped a a' -> grouped b b' -> grouped (a ++ b) (a' ++ b').
Proof. induction 1; intro H1; simpl; [exact H1|]. rewrite <- app_assoc. constructor; auto. Qed.
Lemma grouped_split g : forall t t2, grouped t (g ++ t2) -> exists ta tb, t = ta ++ tb /\ grouped ta g /\ grouped tb t2.
Proof.
  induction g as [|b g IH]; intros t t2 H; simpl in H.
  - exists [], t. repeat split; trivial. constructor.
  - inversion H; subst. apply IH in H4 as (ta & tb & -> & A & B). exists (g0 ++ ta), tb. rewrite app_assoc. repeat split; trivial. constructor; trivial.
Qed.
Lemma last_app_ne {A} (l m : list A) d : m <> [] -> last (l ++ m) d = last m d.
Proof.
  intro H. induction l as [|x l IH]; [reflexivity|]. simpl. destruct (l ++ m) eqn:E; [apply app_eq_nil in E as [_ ->]; easy|exact IH].
Qed.
Lemma grouped_union t g b : grouped t g -> is_union g b -> is_union t b.
Proof.
  intros HG (HN & H1 & H2 & H3 & H4 & H5).
  assert (G : qsum (map rb_obs t) == qsum (map rb_obs g) /\ qsum (map rb_prob t) == qsum (map rb_prob g) /\ qsum (map rb_cnt t) == qsum (map rb_cnt g) /\
    (g <> [] -> t <> [] /\ rb_lo (hd rb0 t) = rb_lo (hd rb0 g) /\ rb_hi (last t rb0) = rb_hi (last g rb0))).
  { clear - HG. induction HG as [|g0 b0 t t' (N & A & B & C & D & E) HG IH]; [repeat split; try reflexivity; easy|].
    destruct IH as (I1 & I2 & I3 & I4). rewrite !map_app, !qsum_app. simpl. rewrite A, B, C, I1, I2, I3. repeat split; try reflexivity.
    - destruct g0; [easy|discriminate].
    - rewrite D. destruct g0; [easy|reflexivity].
    - destruct t' as [|b1 t'].
      + inversion HG; subst. rewrite app_nil_r. simpl. congruence.
      + destruct I4 as (J1 & J2 & J3); [discriminate|]. rewrite last_app_ne by exact J1. rewrite J3. reflexivity. }
  destruct G as (G1 & G2 & G3 & G4). destruct (G4 HN) as (J1 & J2 & J3). repeat split; trivial; try congruence; lra.
Qed.
Lemma grouped_trans t1 t2 t3 : grouped t1 t2 -> grouped t2 t3 -> grouped t1 t3.
Proof.
  intros H12 H23. revert t1 H12. induction H23 as [|g b t t' HU HG IH]; intros t1 H12.
  - inversion H12; subst. constructor.
  - apply grouped_split in H12 as (ta & tb & -> & A & B). constructor; [|apply IH; exact B]. eapply grouped_union; eauto.
Qed.
Lemma list_split3 {A} (t : list A) u d : (1 <= u < length t)%nat -> t = firstn (u - 1) t ++ [nth (u - 1) t d; nth u t d] ++ skipn (S u) t.
Proof.
  intro H. destruct u; [lia|]. rewrite Nat.sub_succ, Nat.sub_0_r. revert t H. induction u as [|u IH]; intros t H.
  - destruct t as [|a [|b t]]; simpl in *; try lia. reflexivity.
  - destruct t as [|a t]; simpl in H; [lia|]. cbn [firstn nth skipn app]. f_equal. apply IH. lia.
Qed.
Lemma merge_at_grouped u t : (1 <= u < length t)%nat -> grouped t (merge_at u t).
Proof.
  intro H. rewrite (list_split3 t u rb0 H) at 1. unfold merge_at. apply grouped_app; [apply grouped_refl|].
  constructor; [|apply grouped_refl]. repeat split; simpl; try lra; discriminate.
Qed.
Lemma merge_at_length u t : (1 <= u < length t)%nat -> S (length (merge_at u t)) = length t.
Proof. intro H. unfold merge_at. rewrite !app_length, firstn_length, skipn_length. simpl. lia. Qed.

(** * Choice of the bin *)
Lemma argmax_below_spec m l : forall i best,
  (match best with Some (k, v) => (k < i)%nat /\ v < m | None => True end) ->
  match argmax_below m l i best with
  | Some k => (k < i + length l)%nat /\ ((exists v, best = Some (k, v)) \/ ((i <= k)%nat /\ nth (k - i) l 0 < m))
  | None => best = None /\ Forall (fun c => m <= c) l
  end.
Proof.
  induction l as [|c l IH]; intros i best HB; cbn [argmax_below].
  - destruct best as [[k v]|]; cbn; [|split; [reflexivity|constructor]]. destruct HB. split; [lia|]. left. eauto.
  - set (best' := if m <=? c then best else _).
    assert (HB' : match best' with Some (k, v) => (k < S i)%nat /\ v < m | None => True end).
    { unfold best'. destruct (Qleb_spec m c); [destruct best as [[k v]|]; [destruct HB; split; [lia|assumption]|trivial]|].
      destruct best as [[k v]|]; [|split; [lia|assumption]]. destruct (Qltb_spec v c); [split; [lia|lra]|]. destruct HB. split; [lia|assumption]. }
    specialize (IH (S i) best' HB'). destruct (argmax_below m l (S i) best') as [k|].
    + destruct IH as [H1 H2]. split; [simpl; lia|]. destruct H2 as [[v Hv]|[H2 H3]].
      * unfold best' in Hv. destruct (Qleb_spec m c); [left; eauto|]. destruct best as [[k0 v0]|].
        -- destruct (Qltb_spec v0 c); [|left; eauto]. injection Hv as <- <-. right. split; [lia|]. rewrite Nat.sub_diag. exact H.
        -- injection Hv as <- <-. right. split; [lia|]. rewrite Nat.sub_diag. exact H.
      * right. split; [lia|]. replace (k - i)%nat with (S (k - S i)) by lia. exact H3.
    + destruct IH as [H1 H2]. unfold best' in H1. destruct (Qleb_spec m c).
      * split; [exact H1|]. constructor; assumption.
      * destruct best as [[k0 v0]|]; [|discriminate]. destruct (v0 <? c); discriminate.
Qed.
Lemma argmax_some m l : existsb (fun c => c <? m) l = true -> exists k, argmax_below m l 0 None = Some k /\ (k < length l)%nat /\ nth k l 0 < m.
Proof.
  intro H. pose proof (argmax_below_spec m l 0 None I) as HS. destruct (argmax_below m l 0 None) as [k|].
  - exists k. destruct HS as [H1 [[v Hv]|[_ H2]]]; [discriminate|]. rewrite Nat.sub_0_r in H2. repeat split; trivial.
  - destruct HS as [_ HF]. apply existsb_exists in H as (c & Hc & Hlt). rewrite Forall_forall in HF. apply Qltb_lt in Hlt. specialize (HF c Hc). lra.
Qed.
Lemma pick_upper_range l i : (i < length l)%nat -> (1 < length l)%nat -> (1 <= pick_upper l i < length l)%nat.
Proof.
  intros H1 H2. unfold pick_upper. destruct (Nat.eqb_spec i 0); [lia|]. destruct (Nat.eqb_spec (S i) (length l)); [lia|].
  destruct (_ <? _); lia.
Qed.

(** * C19 *)
Lemma combine_terminates fuel m t : (length t <= S fuel)%nat -> exists t', combine_undersampled fuel m t = Some t'.
Proof.
  revert t. induction fuel as [|f IH]; intros t H; cbn [combine_undersampled].
  - destruct (existsb _ _); [|cbn [andb]; eauto]. cbn [andb]. destruct (Nat.ltb_spec 1 (length t)); [lia|eauto].
  - destruct (existsb _ _) eqn:E; [|cbn [andb]; eauto]. cbn [andb]. destruct (Nat.ltb_spec 1 (length t)); [|eauto].
    destruct (argmax_some _ _ E) as (k & -> & Hk & _). apply IH.
    assert (HU : (1 <= pick_upper (map rb_cnt t) k < length t)%nat).
    { rewrite <- (map_length rb_cnt t). apply pick_upper_range; [exact Hk|rewrite map_length; lia]. }
    pose proof (merge_at_length _ _ HU). lia.
Qed.
Lemma combine_spec fuel m t t' : combine_undersampled fuel m t = Some t' ->
  grouped t t' /\ (Forall (fun b => m <= rb_cnt b) t' \/ (length t' <= 1)%nat).
Proof.
  revert t. induction fuel as [|f IH]; intros t H; cbn [combine_undersampled] in H.
  - destruct (existsb _ _ && _) eqn:E; [discriminate|]. injection H as <-. split; [apply grouped_refl|].
    apply andb_false_iff in E as [E|E]; [left|right; apply Nat.ltb_ge; exact E].
    apply Forall_forall. intros b Hb. destruct (Qleb_spec m (rb_cnt b)) as [|L]; [assumption|].
    assert (X : existsb (fun c => c <? m) (map rb_cnt t) = true) by (apply existsb_exists; exists (rb_cnt b); split; [apply in_map; exact Hb|apply Qltb_lt; exact L]). congruence.
  - destruct (existsb _ _) eqn:E.
    + cbn [andb] in H. destruct (Nat.ltb_spec 1 (length t)).
      * destruct (argmax_some _ _ E) as (k & Ek & Hk & _). rewrite Ek in H. apply IH in H as [HG HM]. split; [|exact HM].
        eapply grouped_trans; [|exact HG]. apply merge_at_grouped. rewrite <- (map_length rb_cnt t). apply pick_upper_range; [exact Hk|rewrite map_length; lia].
      * injection H as <-. split; [apply grouped_refl|]. right; lia.
    + cbn [andb] in H. injection H as <-. split; [apply grouped_refl|]. left.
      apply Forall_forall. intros b Hb. destruct (Qleb_spec m (rb_cnt b)) as [|L]; [assumption|].
      assert (X : existsb (fun c => c <? m) (map rb_cnt t) = true) by (apply existsb_exists; exists (rb_cnt b); split; [apply in_map; exact Hb|apply Qltb_lt; exact L]). congruence.
Qed.
Lemma combine_noop fuel m t : Forall (fun b => m <= rb_cnt b) t -> combine_undersampled fuel m t = Some t.
Proof.
  intro H. assert (E : existsb (fun c => c <? m) (map rb_cnt t) = false).
  { destruct (existsb _ _) eqn:E; [|reflexivity]. apply existsb_exists in E as (c & Hc & Hl). apply in_map_iff in Hc as (b & <- & Hb).
    rewrite Forall_forall in H. specialize (H b Hb). apply Qltb_lt in Hl. lra. }
  destruct fuel; cbn [combine_undersampled]; rewrite E; reflexivity.
Qed.
Lemma grouped_totals t t' : grouped t t' -> qsum (map rb_obs t') == qsum (map rb_obs t) /\ qsum (map rb_prob t') == qsum (map rb_prob t) /\
  qsum (map rb_cnt t') == qsum (map rb_cnt t).
Proof.
  induction 1 as [|g b t t' (N & A & B & C & D & E) HG (I1 & I2 & I3)]; [repeat split; reflexivity|].
  rewrite !map_app, !qsum_app. simpl. repeat split; lra.
Qed.
Lemma grouped_forall (P : rbin -> Prop) t t' : (forall g b, is_union g b -> Forall P g -> P b) -> grouped t t' -> Forall P t -> Forall P t'.
Proof.
  intros HU. induction 1 as [|g b t t' HB HG IH]; intro HF; [constructor|]. apply Forall_app in HF as [H1 H2]. constructor; eauto.
Qed.

(** * C20 *)
Lemma first_drop_spec fr u : match first_drop fr u with
  | Some k => (1 <= k <= u)%nat /\ nth k fr 0 < nth (k - 1) fr 0 /\ (forall j, (k < j <= u)%nat -> nth (j - 1) fr 0 <= nth j fr 0)
  | None => forall j, (1 <= j <= u)%nat -> nth (j - 1) fr 0 <= nth j fr 0
  end.
Proof.
  induction u as [|u IH]; cbn [first_drop]; [intros; lia|].
  destruct (Qltb_spec (nth (S u) fr 0 - nth u fr 0) 0).
  - rewrite Nat.sub_succ, Nat.sub_0_r. repeat split; try lra; intros; lia.
  - assert (G : nth (S u - 1) fr 0 <= nth (S u) fr 0) by (rewrite Nat.sub_succ, Nat.sub_0_r; lra).
    destruct (first_drop fr u) as [k|].
    + destruct IH as (A & B & C). repeat split; try lia; trivial. intros j Hj. destruct (Nat.eq_dec j (S u)) as [->|]; [exact G|]. apply C. lia.
    + intros j Hj. destruct (Nat.eq_dec j (S u)) as [->|]; [exact G|]. apply IH. lia.
Qed.
Lemma combine_pair_grouped t : grouped t (combine_bin_pair t).
Proof.
  unfold combine_bin_pair. pose proof (first_drop_spec (map freq t) (length t - 1)) as H. destruct (first_drop _ _); [|apply grouped_refl].
  destruct H as (A & _). apply merge_at_grouped. lia.
Qed.
Lemma hold_up_length l : forall p, length (hold_up p l) = length l.
Proof. induction l; intro p; simpl; [reflexivity|]. rewrite IHl. reflexivity. Qed.
Lemma hold_down_length l : forall p, length (hold_down p l) = length l.
Proof. induction l; intro p; simpl; [reflexivity|]. rewrite IHl. reflexivity. Qed.
Lemma hold_up_sorted l : forall p, qsorted (p :: hold_up p l).
Proof.
  induction l as [|x l IH]; intro p; cbn [hold_up]; [constructor; constructor|].
  set (v := if (x - p) <? 0 then p else x). assert (p <= v) by (unfold v; destruct (Qltb_spec (x - p) 0); lra).
  specialize (IH v). constructor; [exact IH|]. inversion IH; subst. constructor; [assumption|]. eapply Forall_impl; [|eassumption]. intros; simpl in *; lra.
Qed.
(** Non-increasing lists. *)
Lemma hold_down_sorted l : forall p, StronglySorted (fun a b => b <= a) (p :: hold_down p l).
Proof.
  induction l as [|x l IH]; intro p; cbn [hold_down]; [constructor; constructor|].
  set (v := if 0 <? (x - p) then p else x). assert (v <= p) by (unfold v; destruct (Qltb_spec 0 (x - p)); lra).
  specialize (IH v). constructor; [exact IH|]. inversion IH; subst. constructor; [assumption|]. eapply Forall_impl; [|eassumption]. intros; simpl in *; lra.
Qed.
Lemma ssorted_app {A} (R : A -> A -> Prop) l m : StronglySorted R l -> StronglySorted R m -> (forall x y, In x l -> In y m -> R x y) -> StronglySorted R (l ++ m).
Proof.
  induction 1 as [|x l Hs IH Hf]; intros Hm H; simpl; [exact Hm|]. constructor.
  - apply IH; [exact Hm|]. intros; apply H; [right|]; assumption.
  - apply Forall_app. split; [exact Hf|]. apply Forall_forall. intros y Hy. apply H; [left; reflexivity|exact Hy].
Qed.
Lemma ssorted_rev {A} (R : A -> A -> Prop) l : StronglySorted R l -> StronglySorted (fun a b => R b a) (rev l).
Proof.
  induction 1 as [|x l Hs IH Hf]; simpl; [constructor|]. apply ssorted_app; [exact IH|constructor; constructor|].
  intros a b Ha [<-|[]]. rewrite Forall_forall in Hf. apply Hf. apply in_rev. exact Ha.
Qed.
Lemma constant_freq_sorted c fr : qsorted (constant_freq c fr).
Proof.
  unfold constant_freq. destruct (_ <? _).
  - destruct (rev fr) as [|x r]; [constructor|]. pose proof (ssorted_rev _ _ (hold_down_sorted r x)) as H. exact H.
  - destruct fr; [constructor|]. apply hold_up_sorted.
Qed.
Lemma constant_freq_length c fr : length (constant_freq c fr) = length fr.
Proof.
  unfold constant_freq. destruct (_ <? _).
  - rewrite <- (rev_length fr). destruct (rev fr); [reflexivity|]. rewrite rev_length. simpl. rewrite hold_down_length. reflexivity.
  - destruct fr; [reflexivity|]. simpl. rewrite hold_up_length. reflexivity.
Qed.
Lemma constant_freq_in c fr v : In v (constant_freq c fr) -> In v fr.
Proof.
  assert (HU : forall l p, In v (hold_up p l) -> v = p \/ In v l).
  { induction l as [|x l IH]; intros p H; simpl in H; [easy|]. destruct (Qltb_spec (x - p) 0).
    - destruct H as [<-|H]; [left; reflexivity|]. apply IH in H as [|]; simpl; tauto.
    - destruct H as [<-|H]; [right; left; reflexivity|]. apply IH in H as [->|]; simpl; tauto. }
  assert (HD : forall l p, In v (hold_down p l) -> v = p \/ In v l).
  { induction l as [|x l IH]; intros p H; simpl in H; [easy|]. destruct (Qltb_spec 0 (x - p)).
    - destruct H as [<-|H]; [left; reflexivity|]. apply IH in H as [|]; simpl; tauto.
    - destruct H as [<-|H]; [right; left; reflexivity|]. apply IH in H as [->|]; simpl; tauto. }
  unfold constant_freq. destruct (_ <? _).
  - intro H. apply in_rev. destruct (rev fr) as [|x r]; [easy|]. apply in_rev in H. simpl in H. destruct H as [<-|H]; [left; reflexivity|].
    apply HD in H as [->|]; [left; reflexivity|right; assumption].
  - destruct fr as [|x r]; [easy|]. simpl. intros [<-|H]; [left; reflexivity|]. apply HU in H as [->|]; tauto.
Qed.
Definition pos_counts (t : list rbin) : Prop := Forall (fun b => 0 < rb_cnt b) t.
Lemma freq_with b v : 0 < rb_cnt b -> freq {| rb_obs := v * rb_cnt b; rb_prob := rb_prob b; rb_cnt := rb_cnt b; rb_lo := rb_lo b; rb_hi := rb_hi b |} == v.
Proof. intro H. unfold freq. cbn. field. lra. Qed.
Lemma assume_constant_freq t : pos_counts t -> Forall2 Qeq (map freq (assume_constant t)) (constant_freq (map rb_cnt t) (map freq t)).
Proof.
  intro HP. unfold assume_constant. pose proof (constant_freq_length (map rb_cnt t) (map freq t)) as HL. rewrite map_length in HL.
  revert HL. generalize (constant_freq (map rb_cnt t) (map freq t)) as fr. induction HP as [|b t Hb HP IH]; intros fr HL; destruct fr; simpl in *; try discriminate; constructor.
  - apply freq_with. exact Hb.
  - apply IH. lia.
Qed.
(** the table with its observation counts replaced *)
Lemma assume_constant_shape t : exists os, length os = length t /\ assume_constant t = map (fun p => with_obs (fst p) (snd p)) (combine t os).
Proof.
  unfold assume_constant. pose proof (constant_freq_length (map rb_cnt t) (map freq t)) as HL. rewrite map_length in HL. revert HL.
  generalize (constant_freq (map rb_cnt t) (map freq t)) as fr. induction t as [|b t IH]; intros fr HL; destruct fr as [|v fr]; simpl in *; try discriminate.
  - exists []. split; reflexivity.
  - destruct (IH fr) as (os & H1 & H2); [lia|]. exists (v * rb_cnt b :: os). simpl. split; [lia|]. f_equal. exact H2.
Qed.
Lemma union_pos g b : is_union g b -> Forall (fun b => 0 < rb_cnt b) g -> 0 < rb_cnt b.
Proof.
  intros (N & _ & _ & C & _) HF. rewrite C. destruct g as [|x g]; [easy|]. inversion HF; subst. simpl.
  assert (0 <= qsum (map rb_cnt g)) by (apply qsum_nonneg; apply Forall_forall; intros y Hy; apply in_map_iff in Hy as (z & <- & Hz); rewrite Forall_forall in H2; specialize (H2 z Hz); lra). lra.
Qed.
Lemma manipulate_inv m t t' : manipulate m t = Ok t' -> 1 <= m /\ exists t1, combine_undersampled (length t) m t = Some t1 /\
  ((qsorted (map freq t1) /\ t' = t1) \/ (~ qsorted (map freq t1) /\ t' = assume_constant (combine_bin_pair t1))).
Proof.
  unfold manipulate. destruct (Qltb_spec m 1); [discriminate|]. destruct (combine_undersampled _ _ _) as [t1|]; [|discriminate].
  intro H'. injection H' as <-. split; [assumption|]. exists t1. split; [reflexivity|]. destruct (nondecreasing_b _) eqn:E.
  - left. split; [apply nondecreasing_b_iff; exact E|reflexivity].
  - right. split; [|reflexivity]. intro HS. apply nondecreasing_b_iff in HS. congruence.
Qed.
Lemma manipulate_total m t : 1 <= m -> exists t', manipulate m t = Ok t'.
Proof.
  intro H. unfold manipulate. destruct (Qltb_spec m 1); [lra|]. destruct (combine_terminates (length t) m t) as [t' ->]; [lia|]. eauto.
Qed.
Lemma qsorted_single (l : list Q) : (length l <= 1)%nat -> qsorted l.
Proof. destruct l as [|x [|y l]]; simpl; intro; [constructor|repeat constructor|lia]. Qed.
Lemma combined_pos m t t1 fuel : 1 <= m -> combine_undersampled fuel m t = Some t1 -> ~ qsorted (map freq t1) -> pos_counts t1.
Proof.
  intros Hm H HS. apply combine_spec in H as [_ [H|H]].
  - eapply Forall_impl; [|exact H]. cbv beta. intros; lra.
  - destruct HS. apply qsorted_single. rewrite map_length. exact H.
Qed.
Lemma manipulate_monotone m t t' : manipulate m t = Ok t' -> qsorted (map freq t').
Proof.
  intro H. apply manipulate_inv in H as (Hm & t1 & HC & [[HS ->]|[HS ->]]); [exact HS|].
  pose proof (combined_pos _ _ _ _ Hm HC HS) as HP.
  eapply qsorted_Qeq; [|apply constant_freq_sorted]. apply Forall2_Qeq_sym. apply assume_constant_freq.
  apply (grouped_forall _ _ _ union_pos (combine_pair_grouped t1) HP).
Qed.
Lemma manipulate_grouped m t t' : manipulate m t = Ok t' -> exists t2 os, grouped t t2 /\ length os = length t2 /\
  t' = map (fun p => with_obs (fst p) (snd p)) (combine t2 os).
Proof.
  intro H. apply manipulate_inv in H as (Hm & t1 & HC & [[HS ->]|[HS ->]]); apply combine_spec in HC as [HG _].
  - exists t1, (map rb_obs t1). split; [exact HG|]. split; [apply map_length|]. clear. induction t1 as [|b t1 IH]; [reflexivity|]. simpl. f_equal; [|exact IH]. destruct b; reflexivity.
  - destruct (assume_constant_shape (combine_bin_pair t1)) as (os & H1 & H2). exists (combine_bin_pair t1), os. split; [|split; trivial].
    eapply grouped_trans; [exact HG|]. apply combine_pair_grouped.
Qed.
Lemma manipulate_noop m t : 1 <= m -> Forall (fun b => m <= rb_cnt b) t -> qsorted (map freq t) -> manipulate m t = Ok t.
Proof.
  intros Hm HF HS. unfold manipulate. destruct (Qltb_spec m 1); [lra|]. rewrite combine_noop by exact HF. apply nondecreasing_b_iff in HS. rewrite HS. reflexivity.
Qed.
Lemma with_obs_map {A} (f : rbin -> A) t os : (forall b o, f (with_obs b o) = f b) -> length os = length t ->
  map f (map (fun p => with_obs (fst p) (snd p)) (combine t os)) = map f t.
Proof. intro H. revert os. induction t as [|b t IH]; intros [|o os] HL; simpl in *; try discriminate; [reflexivity|]. rewrite H. f_equal. apply IH. lia. Qed.
Lemma manipulate_totals m t t' : manipulate m t = Ok t' -> qsum (map rb_prob t') == qsum (map rb_prob t) /\ qsum (map rb_cnt t') == qsum (map rb_cnt t).
Proof.
  intro H. apply manipulate_grouped in H as (t2 & os & HG & HL & ->). apply grouped_totals in HG as (_ & A & B). rewrite !with_obs_map; trivial. split; assumption.
Qed.
Lemma manipulate_min_count m t t' : manipulate m t = Ok t' -> Forall (fun b => m <= rb_cnt b) t' \/ (length t' <= 1)%nat.
Proof.
  intro H. apply manipulate_inv in H as (Hm & t1 & HC & [[HS ->]|[HS ->]]); pose proof HC as HC'; apply combine_spec in HC as [HG [HM|HM]]; auto.
  - left. destruct (assume_constant_shape (combine_bin_pair t1)) as (os & H1 & ->).
    assert (G : Forall (fun b => m <= rb_cnt b) (combine_bin_pair t1)).
    { apply (grouped_forall _ t1 _); [|apply combine_pair_grouped|exact HM]. intros g b (N & _ & _ & C & _) HF. rewrite C.
      destruct g as [|x g]; [easy|]. inversion HF; subst. simpl. assert (0 <= qsum (map rb_cnt g)); [|lra].
      apply qsum_nonneg. apply Forall_forall. intros y Hy. apply in_map_iff in Hy as (z & <- & Hz). rewrite Forall_forall in H3. specialize (H3 z Hz). simpl in H3. lra. }
    apply Forall_forall. intros b Hb. assert (In (rb_cnt b) (map rb_cnt (combine_bin_pair t1))).
    { rewrite <- (with_obs_map rb_cnt _ os); trivial. apply in_map. exact Hb. }
    apply in_map_iff in H as (b0 & <- & Hb0). rewrite Forall_forall in G. apply G. exact Hb0.
  - exfalso. apply HS. apply qsorted_single. rewrite map_length. exact HM.
Qed.
(** Observation counts stay between 0 and the forecast counts. *)
Definition valid_obs (b : rbin) : Prop := 0 <= rb_obs b <= rb_cnt b.
Lemma union_valid g b : is_union g b -> Forall valid_obs g -> valid_obs b.
Proof.
  intros (_ & A & _ & C & _) HF. unfold valid_obs. rewrite A, C. clear - HF. induction HF as [|x g [H1 H2] HF IH]; simpl; lra.
Qed.
Lemma manipulate_valid m t t' : manipulate m t = Ok t' -> Forall valid_obs t -> Forall valid_obs t'.
Proof.
  intros H HV. apply manipulate_inv in H as (Hm & t1 & HC & [[HS ->]|[HS ->]]).
  - apply combine_spec in HC as [HG _]. apply (grouped_forall _ _ _ union_valid HG HV).
  - pose proof (combined_pos _ _ _ _ Hm HC HS) as HP. apply combine_spec in HC as [HG _].
    assert (V2 : Forall valid_obs (combine_bin_pair t1)).
    { apply (grouped_forall _ _ _ union_valid (grouped_trans _ _ _ HG (combine_pair_grouped t1)) HV). }
    pose proof (grouped_forall _ _ _ union_pos (combine_pair_grouped t1) HP) as P2.
    unfold assume_constant. set (t2 := combine_bin_pair t1) in *. clearbody t2.
    assert (HF : Forall (fun v => 0 <= v <= 1) (constant_freq (map rb_cnt t2) (map freq t2))).
    { apply Forall_forall. intros v Hv. apply constant_freq_in in Hv. apply in_map_iff in Hv as (b & <- & Hb).
      rewrite Forall_forall in V2, P2. destruct (V2 b Hb) as [A B]. specialize (P2 b Hb). unfold freq. split.
      - apply Qle_shift_div_l; lra.
      - apply Qle_shift_div_r; lra. }
    revert HF. generalize (constant_freq (map rb_cnt t2) (map freq t2)) as fr. clear V2. induction P2 as [|b t2 Hb P2 IH]; intros [|v fr] HF; simpl; constructor; inversion HF; subst.
    + unfold valid_obs. cbn. nra.
    + apply IH. assumption.
Qed.
