From Verif Require Import Base Model_Threshold Spec_Tree Model_Tree Spec_TreeWalk.
Local Open Scope string_scope.
Local Open Scope Q_scope.

Ltac inv H := inversion H; subst; clear H.

(** * Conditions *)
Definition is_some_true (v : option bool) : bool := match v with Some true => true | _ => false end.
Definition not_none {A} (v : option A) : bool := match v with Some _ => true | None => false end.

Lemma chain_rest_and {A} (ev : A -> result (option bool)) l vs : Forall2 (fun x v => ev x = Ok v) l vs ->
  forall acc, exists v, chain_rest ev "AND" acc l = Ok v /\ (v = Some true <-> acc = Some true /\ Forall (eq (Some true)) vs).
Proof.
  induction 1 as [|x v l vs Hx HF IH]; intro acc; simpl.
  - exists acc. split; [reflexivity|]. split; [intro; subst; split; [reflexivity|constructor]|intros [H _]; exact H].
  - rewrite Hx. simpl. destruct (IH (mcomb andb acc v)) as [w [Ew Hw]]. exists w. split; [exact Ew|].
    rewrite Hw. split.
    + intros [H1 H2]. destruct acc as [[|]|], v as [[|]|]; simpl in H1; try discriminate. split; [reflexivity|constructor; trivial].
    + intros [H1 H2]. inv H2. split; [reflexivity|trivial].
Qed.
Lemma chain_and {A} (ev : A -> result (option bool)) l vs : l <> [] -> Forall2 (fun x v => ev x = Ok v) l vs ->
  exists v, chain ev l "AND" = Ok v /\ (v = Some true <-> Forall (eq (Some true)) vs).
Proof.
  intros Hl HF. destruct HF as [|x v l vs Hx HF]; [congruence|]. simpl. rewrite Hx. simpl.
  destruct (chain_rest_and ev l vs HF v) as [w [Ew Hw]]. exists w. split; [exact Ew|]. rewrite Hw.
  split; [intros [H1 H2]; constructor; [symmetry; exact H1|exact H2]|intro H; inv H; split; [reflexivity|trivial]].
Qed.
Lemma chain_rest_or {A} (ev : A -> result (option bool)) l vs : Forall2 (fun x v => ev x = Ok v) l vs ->
  forall acc, exists v, chain_rest ev "OR" acc l = Ok v /\
    (v = Some true <-> (acc <> None /\ Forall (fun v => v <> None) vs) /\ (acc = Some true \/ Exists (eq (Some true)) vs)).
Proof.
  induction 1 as [|x v l vs Hx HF IH]; intro acc; simpl.
  - exists acc. split; [reflexivity|]. split.
    + intro; subst; split; [split; [discriminate|constructor]|left; reflexivity].
    + intros [_ [H|H]]; [exact H|inv H].
  - rewrite Hx. simpl. destruct (IH (mcomb orb acc v)) as [w [Ew Hw]]. exists w. split; [exact Ew|].
    rewrite Hw. split.
    + intros [[H1 H2] H3]. destruct acc as [a|], v as [b|]; simpl in H1; try congruence.
      split; [split; [discriminate|constructor; [discriminate|exact H2]]|].
      destruct H3 as [H3|H3]; [|right; constructor 2; exact H3].
      simpl in H3. destruct a, b; try discriminate; [left; reflexivity|left; reflexivity|right; constructor; reflexivity].
    + intros [[H1 H2] H3]. inv H2. destruct acc as [a|], v as [b|]; try congruence. simpl.
      split; [split; [discriminate|trivial]|].
      destruct H3 as [H3|H3].
      * left. inv H3. reflexivity.
      * inv H3; [left|right; trivial]. match goal with H : Some true = Some b |- _ => inv H end. rewrite orb_true_r. reflexivity.
Qed.
Lemma chain_or {A} (ev : A -> result (option bool)) l vs : l <> [] -> Forall2 (fun x v => ev x = Ok v) l vs ->
  exists v, chain ev l "OR" = Ok v /\ (v = Some true <-> Forall (fun v => v <> None) vs /\ Exists (eq (Some true)) vs).
Proof.
  intros Hl HF. destruct HF as [|x v l vs Hx HF]; [congruence|]. simpl. rewrite Hx. simpl.
  destruct (chain_rest_or ev l vs HF v) as [w [Ew Hw]]. exists w. split; [exact Ew|]. rewrite Hw. split.
  - intros [[H1 H2] H3]. split; [constructor; trivial|]. destruct H3 as [H3|H3]; [constructor; symmetry; exact H3|constructor 2; exact H3].
  - intros [H1 H2]. inv H1. split; [split; trivial|]. inv H2; [left; reflexivity|right; trivial].
Qed.

(** compare, as a proposition *)
Lemma compare_sat v c t : In c [">="; ">"; "<="; "<"] ->
  exists r, compare v c t = Ok r /\ (r <> None <-> v <> Masked) /\ (r = Some true <-> field_yes c (v, t)).
Proof.
  intro Hc. unfold field_yes; simpl fst; simpl snd.
  assert (E : exists f, compare v c t = Ok (match v with Masked => None | NaN => Some false | Num x => Some (f x) end) /\ forall x, f x = true <-> sat c x t).
  { unfold sat. destruct Hc as [<-|[<-|[<-|[<-|[]]]]].
    - exists (fun x => t <=? x). split; [reflexivity|]. intro x. rewrite Qle_bool_iff. split; [intro; left; split; trivial|].
      intros [[_ H]|[[H _]|[[H _]|[H _]]]]; try discriminate. exact H.
    - exists (fun x => t <? x). split; [reflexivity|]. intro x. destruct (Qltb_spec t x) as [H|H]; (split; [intro E|intros E]); try discriminate.
      + right; left; split; trivial. + reflexivity.
      + destruct E as [[E _]|[[_ E]|[[E _]|[E _]]]]; try discriminate. lra.
    - exists (fun x => x <=? t). split; [reflexivity|]. intro x. rewrite Qle_bool_iff. split; [intro; right; right; left; split; trivial|].
      intros [[H _]|[[H _]|[[_ H]|[H _]]]]; try discriminate. exact H.
    - exists (fun x => x <? t). split; [reflexivity|]. intro x. destruct (Qltb_spec x t) as [H|H]; (split; [intro E|intros E]); try discriminate.
      + right; right; right; split; trivial. + reflexivity.
      + destruct E as [[E _]|[[E _]|[[E _]|[_ E]]]]; try discriminate. lra. }
  destruct E as [f [E Hf]]. eexists. split; [exact E|]. destruct v as [| |x].
  - split; [tauto|]. split; [discriminate|intros [x [H _]]; discriminate].
  - split; [split; discriminate|]. split; [discriminate|intros [x [H _]]; discriminate].
  - split; [split; discriminate|]. split.
    + intro H. injection H as H. exists x. split; [reflexivity|]. apply Hf. exact H.
    + intros [y [Ey Hy]]. injection Ey as <-. f_equal. apply Hf. exact Hy.
Qed.

Lemma sat_dec c x t : In c [">="; ">"; "<="; "<"] -> {sat c x t} + {~ sat c x t}.
Proof.
  intro Hc. destruct (compare (Num x) c t) as [[[|]|]|] eqn:E.
  - left. destruct (compare_sat (Num x) c t Hc) as [r [E' [_ H]]]. rewrite E in E'. injection E' as <-.
    destruct (proj1 H eq_refl) as [y [Ey Hy]]. injection Ey as <-. exact Hy.
  - right. intro Hs. destruct (compare_sat (Num x) c t Hc) as [r [E' [_ H]]]. rewrite E in E'. injection E' as <-.
    assert (Some false = Some true) by (apply H; exists x; split; trivial). discriminate.
  - exfalso. destruct (compare_sat (Num x) c t Hc) as [r [E' [H _]]]. rewrite E in E'. injection E' as <-.
    assert (None <> @None bool) by (apply H; discriminate). congruence.
  - exfalso. destruct (compare_sat (Num x) c t Hc) as [r [E' _]]. congruence.
Qed.

Lemma invert_cmp c : In c [">="; ">"; "<="; "<"] ->
  exists c', invert_comparator c = Ok c' /\ In c' [">="; ">"; "<="; "<"] /\ forall x t, sat c' x t <-> ~ sat c x t.
Proof.
  intro Hc. unfold sat. destruct Hc as [<-|[<-|[<-|[<-|[]]]]].
  - exists "<". split; [reflexivity|]. split; [simpl; tauto|]. intros x t. split.
    + intros [[E _]|[[E _]|[[E _]|[_ E]]]]; try discriminate. intros [[_ H]|[[H _]|[[H _]|[H _]]]]; try discriminate. lra.
    + intro H. right; right; right. split; [reflexivity|]. apply Qnot_le_lt. intro. apply H. left; split; trivial.
  - exists "<=". split; [reflexivity|]. split; [simpl; tauto|]. intros x t. split.
    + intros [[E _]|[[E _]|[[_ E]|[E _]]]]; try discriminate. intros [[H _]|[[_ H]|[[H _]|[H _]]]]; try discriminate. lra.
    + intro H. right; right; left. split; [reflexivity|]. apply Qnot_lt_le. intro. apply H. right; left; split; trivial.
  - exists ">". split; [reflexivity|]. split; [simpl; tauto|]. intros x t. split.
    + intros [[E _]|[[_ E]|[[E _]|[E _]]]]; try discriminate. intros [[H _]|[[H _]|[[_ H]|[H _]]]]; try discriminate. lra.
    + intro H. right; left. split; [reflexivity|]. apply Qnot_le_lt. intro. apply H. right; right; left; split; trivial.
  - exists ">=". split; [reflexivity|]. split; [simpl; tauto|]. intros x t. split.
    + intros [[_ E]|[[E _]|[[E _]|[E _]]]]; try discriminate. intros [[H _]|[[H _]|[[H _]|[_ H]]]]; try discriminate. lra.
    + intro H. left. split; [reflexivity|]. apply Qnot_lt_le. intro. apply H. right; right; right; split; trivial.
Qed.

Lemma eval_fields env cmp fields fs : In cmp [">="; ">"; "<="; "<"] ->
  Forall2 (fun (f : operand * Q) (v : val * Q) => eval_operand env (fst f) = Ok (fst v) /\ snd v = snd f) fields fs ->
  exists vs, Forall2 (fun x v => eval_field env cmp x = Ok v) fields vs /\
    (Forall (fun v => v <> None) vs <-> none_masked fs) /\
    (Forall (eq (Some true)) vs <-> Forall (field_yes cmp) fs) /\ (Exists (eq (Some true)) vs <-> Exists (field_yes cmp) fs).
Proof.
  intros Hc. induction 1 as [|f v fields fs [Ef Es] HF IH].
  - exists []. unfold none_masked. split; [constructor|]. split; [split; constructor|]. split; [split; constructor|]. split; intro H; inversion H.
  - destruct IH as [vs [F1 [F2 [F3 F4]]]]. destruct v as [v t]. simpl in *. subst t.
    destruct (compare_sat v cmp (snd f) Hc) as [r [Er [Hr1 Hr2]]].
    exists (r :: vs). split; [constructor; [unfold eval_field; rewrite Ef; exact Er|exact F1]|].
    unfold none_masked in *. split; [|split].
    + split; intro H; inv H; constructor; simpl; tauto.
    + split; intro H; inversion H as [|? ? K1 K2]; subst; constructor; try tauto; symmetry; apply Hr2; exact K1.
    + split; intro H; inversion H as [? ? K|? ? K]; subst.
      * constructor 1. apply Hr2. reflexivity.
      * constructor 2. tauto.
      * constructor 1. symmetry. apply Hr2. exact K.
      * constructor 2. tauto.
Qed.

Lemma eval_condition_yes env fields cmp comb fs : In cmp [">="; ">"; "<="; "<"] ->
  ((comb = "" /\ length fields = 1%nat) \/ (In comb ["AND"; "OR"] /\ fields <> [])) ->
  Forall2 (fun (f : operand * Q) (v : val * Q) => eval_operand env (fst f) = Ok (fst v) /\ snd v = snd f) fields fs ->
  exists v, eval_condition env (fields, cmp, comb) = Ok v /\ (v = Some true <-> yes cmp comb fs).
Proof.
  intros Hc Hb HF. destruct (eval_fields env cmp fields fs Hc HF) as [vs [F1 [F2 [F3 F4]]]].
  unfold eval_condition, yes.
  assert (HA : Forall (field_yes cmp) fs -> none_masked fs).
  { intro H. unfold none_masked. eapply Forall_impl; [|exact H]. intros a [x [Ex _]]. rewrite Ex. discriminate. }
  destruct Hb as [[-> Hl]|[[<-|[<-|[]]] Hl]].
  - destruct fields as [|f [|? ?]]; simpl in Hl; try discriminate. inv F1. inv H3. simpl. rewrite H1. simpl. exists y. split; [reflexivity|].
    change (String.eqb "" "OR") with false. cbv iota. rewrite <- F3. split.
    + intro; subst. split; [apply HA, F3; constructor; trivial; constructor|constructor; trivial; constructor].
    + intros [_ H]. inv H. reflexivity.
  - destruct (chain_and (eval_field env cmp) fields vs Hl F1) as [v [Ev Hv]]. exists v. split; [exact Ev|].
    change (String.eqb "AND" "OR") with false. cbv iota. rewrite Hv, F3. tauto.
  - destruct (chain_or (eval_field env cmp) fields vs Hl F1) as [v [Ev Hv]]. exists v. split; [exact Ev|].
    change (String.eqb "OR" "OR") with true. cbv iota. rewrite Hv, F2, F4. tauto.
Qed.

Lemma eval_condition_no env d fs : node_ok env d -> field_values env d fs ->
  exists c v, invert_condition d = Ok c /\ eval_condition env c = Ok v /\ (v = Some true <-> no (d_cmp d) (d_comb d) fs).
Proof.
  intros [Hc [Hb _]] HF. destruct (invert_cmp _ Hc) as [c' [Ec [Hc' Hs]]]. unfold invert_condition. rewrite Ec. simpl.
  assert (Hfield : forall f, field_yes c' f <-> field_no (d_cmp d) f).
  { intro f. unfold field_yes, field_no. split; intros [x [Ex Hx]]; exists x; (split; [exact Ex|]); apply Hs; exact Hx. }
  assert (HFo : forall l, Forall (field_yes c') l <-> Forall (field_no (d_cmp d)) l).
  { intro l. rewrite !Forall_forall. split; intros H x Hx; apply Hfield, H, Hx. }
  assert (HEx : forall l, Exists (field_yes c') l <-> Exists (field_no (d_cmp d)) l).
  { intro l. rewrite !Exists_exists. split; intros [x [Hx H]]; exists x; (split; [exact Hx|]); apply Hfield, H. }
  destruct Hb as [[Eb Hl]|[Hb Hl]].
  - rewrite Eb. simpl. destruct (eval_condition_yes env (d_fields d) c' "" fs Hc') as [v [Ev Hv]]; [left; split; trivial|exact HF|].
    exists (d_fields d, c', ""), v. split; [reflexivity|]. split; [exact Ev|]. rewrite Hv. unfold yes, no.
    change (String.eqb "" "OR") with false. cbv iota. rewrite HFo.
    assert (L : length fs = 1%nat) by (rewrite <- Hl; symmetry; unfold field_values in HF; clear -HF; induction HF; simpl; auto).
    destruct fs as [|f [|? ?]]; simpl in L; try discriminate. split; intros [H1 H2]; (split; [exact H1|]).
    + inv H2. constructor. trivial. + inv H2; [constructor; trivial; constructor|inv H0].
  - destruct Hb as [Eb|[Eb|[]]]; rewrite <- Eb; simpl.
    + destruct (eval_condition_yes env (d_fields d) c' "OR" fs Hc') as [v [Ev Hv]]; [right; split; [simpl; tauto|exact Hl]|exact HF|].
      exists (d_fields d, c', "OR"), v. split; [reflexivity|]. split; [exact Ev|]. rewrite Hv. unfold yes, no.
      change (String.eqb "OR" "OR") with true. change (String.eqb "AND" "OR") with false. cbv iota. rewrite HEx. tauto.
    + destruct (eval_condition_yes env (d_fields d) c' "AND" fs Hc') as [v [Ev Hv]]; [right; split; [simpl; tauto|exact Hl]|exact HF|].
      exists (d_fields d, c', "AND"), v. split; [reflexivity|]. split; [exact Ev|]. rewrite Hv. unfold yes, no.
      change (String.eqb "OR" "OR") with true. change (String.eqb "AND" "OR") with false. cbv iota. rewrite HFo. tauto.
Qed.

Lemma field_values_ex env d : node_ok env d -> exists fs, field_values env d fs.
Proof.
  intros [_ [_ H]]. unfold field_values. revert H. generalize (d_fields d). intro l. induction l as [|f l IH]; intro H.
  - exists []. constructor.
  - destruct (H f) as [v Hv]; [left; reflexivity|]. destruct IH as [fs HF]; [intros g Hg; apply H; right; exact Hg|].
    exists ((v, snd f) :: fs). constructor; [split; [exact Hv|reflexivity]|exact HF].
Qed.
Lemma field_values_fun env d fs fs' : field_values env d fs -> field_values env d fs' -> fs = fs'.
Proof.
  unfold field_values. generalize (d_fields d). intros l H. revert fs'. induction H as [|f v l fs [E1 E2] HF IH]; intros fs' H'; inv H'; [reflexivity|].
  destruct H1 as [E3 E4]. f_equal; [|apply IH; trivial]. destruct v, y. simpl in *. rewrite E1 in E3. injection E3 as ->. congruence.
Qed.

Lemma yes_no cmp comb fs : fs <> [] -> yes cmp comb fs -> no cmp comb fs -> False.
Proof.
  intros Hne [_ HY] [_ HN]. destruct (String.eqb comb "OR").
  - rewrite Exists_exists in HY. destruct HY as [f [Hf [x [Ex Hx]]]]. rewrite Forall_forall in HN. destruct (HN f Hf) as [y [Ey Hy]]. congruence.
  - rewrite Exists_exists in HN. destruct HN as [f [Hf [x [Ex Hx]]]]. rewrite Forall_forall in HY. destruct (HY f Hf) as [y [Ey Hy]]. congruence.
Qed.
(** With ordinary numbers exactly one of the answers holds. *)
Lemma yes_or_no cmp comb fs : In cmp [">="; ">"; "<="; "<"] -> Forall (fun f => exists x, fst f = Num x) fs ->
  yes cmp comb fs \/ no cmp comb fs.
Proof.
  intros Hc HF. assert (HM : none_masked fs).
  { unfold none_masked. eapply Forall_impl; [|exact HF]. intros a [x Hx]. rewrite Hx. discriminate. }
  unfold yes, no. assert (D : (Forall (field_yes cmp) fs \/ Exists (field_no cmp) fs) /\ (Exists (field_yes cmp) fs \/ Forall (field_no cmp) fs)).
  { clear HM. induction HF as [|[v t] fs [x Hx] HF [IH1 IH2]]; [split; [left|right]; constructor|]. simpl in Hx. subst v.
    destruct (sat_dec cmp x t Hc) as [Hs|Hs].
    - assert (Y : field_yes cmp (Num x, t)) by (exists x; split; trivial). split; [|left; constructor; exact Y].
      destruct IH1; [left; constructor; trivial|right; constructor 2; trivial].
    - assert (N : field_no cmp (Num x, t)) by (exists x; split; trivial). split; [right; constructor; exact N|].
      destruct IH2; [left; constructor 2; trivial|right; constructor; trivial]. }
  destruct (String.eqb comb "OR"); tauto.
Qed.
