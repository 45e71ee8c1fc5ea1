From Verif Require Import Base Model_Threshold Spec_Tree Model_Tree Spec_TreeWalk Proofs_Tree Proofs_TreeRoutes.
Local Open Scope string_scope.
Local Open Scope list_scope.

Lemma assoc_map {A B} (f : A -> B) n (t : list (string * A)) :
  assoc n (map (fun kq => (fst kq, f (snd kq))) t) = option_map f (assoc n t).
Proof. induction t as [|[k v] t IH]; simpl; [reflexivity|]. destruct (String.eqb n k); [reflexivity|exact IH]. Qed.

Definition reroute (m a : string) (t : tree) : tree := map (fun kq => (fst kq, subst_query m a (snd kq))) t.
Lemma reroute_assoc m a n t : assoc n (reroute m a t) = option_map (subst_query m a) (assoc n t).
Proof. apply assoc_map. Qed.
Lemma reroute_node m a n t d' : assoc n (reroute m a t) = Some (Node d') ->
  exists d, assoc n t = Some (Node d) /\ d_fields d' = d_fields d /\ d_cmp d' = d_cmp d /\ d_comb d' = d_comb d /\
    d_true d' = subst_name m a (d_true d) /\ d_false d' = subst_name m a (d_false d) /\ d_missing d' = d_missing d.
Proof.
  rewrite reroute_assoc. destruct (assoc n t) as [[c x g|d]|]; simpl; intro H; try discriminate. injection H as <-. exists d. simpl. tauto.
Qed.
Lemma reroute_leaf m a n t c x g : assoc n (reroute m a t) = Some (Leaf c x g) <-> assoc n t = Some (Leaf c x g).
Proof. rewrite reroute_assoc. destruct (assoc n t) as [[]|]; simpl; split; congruence. Qed.
Lemma node_reroute m a n t d : assoc n t = Some (Node d) ->
  exists d', assoc n (reroute m a t) = Some (Node d') /\ d_fields d' = d_fields d /\ d_cmp d' = d_cmp d /\ d_comb d' = d_comb d /\
    d_true d' = subst_name m a (d_true d) /\ d_false d' = subst_name m a (d_false d) /\ d_missing d' = d_missing d.
Proof. intro H. rewrite reroute_assoc, H. eexists. split; [reflexivity|]. simpl. tauto. Qed.

Lemma subst_neq m a n : a <> m -> subst_name m a n <> m.
Proof. intro H. unfold subst_name. destruct (String.eqb n m) eqn:E; [exact H|apply String.eqb_neq in E; exact E]. Qed.
Lemma subst_other m a n : n <> m -> subst_name m a n = n.
Proof. intro H. unfold subst_name. apply String.eqb_neq in H. rewrite H. reflexivity. Qed.
Lemma subst_same m a : subst_name m a m = a.
Proof. unfold subst_name. rewrite String.eqb_refl. reflexivity. Qed.
Lemma subst_cases m a n : (n = m /\ subst_name m a n = a) \/ (n <> m /\ subst_name m a n = n).
Proof. destruct (string_dec n m) as [->|H]; [left; split; [reflexivity|apply subst_same]|right; split; [exact H|apply subst_other; exact H]]. Qed.

Lemma alternative_inv t m a : alternative t m = Ok a ->
  exists d b, assoc m t = Some (Node d) /\ d_missing d = Some b /\ a = (if b then d_true d else d_false d).
Proof.
  unfold alternative. destruct (assoc m t) as [[]|]; try discriminate. destruct (d_missing d) as [b|] eqn:E; try discriminate.
  intro H. exists d, b. split; [reflexivity|]. split; [exact E|]. destruct b; injection H as <-; reflexivity.
Qed.

Section Step.
Variables (env : inputs) (M : string -> Prop) (t : tree) (m a : string).
Hypothesis HmM : M m.
Hypothesis Halt : alternative t m = Ok a.
Hypothesis Ham : a <> m.

Lemma skip_m c : walk_missing env M t a c -> walk_missing env M t m c.
Proof. intro H. destruct (alternative_inv _ _ _ Halt) as [d [b [E1 [E2 ->]]]]. eapply wm_skip; eauto. Qed.

Lemma step_forward n c : walk_missing env M t n c -> walk_missing env M (reroute m a t) (subst_name m a n) c.
Proof.
  induction 1 as [n c x g Ea|n d fs c Hn Ea HF HY HW IH|n d fs c Hn Ea HF HN HW IH|n d b c Hn Ea Eb HW IH].
  - rewrite subst_other; [eapply wm_leaf, reroute_leaf; exact Ea|].
    intros ->. destruct (alternative_inv _ _ _ Halt) as [d [b [E1 _]]]. congruence.
  - rewrite subst_other by (intros ->; contradiction). destruct (node_reroute m a _ _ _ Ea) as [d' [E' [F1 [F2 [F3 [F4 [F5 F6]]]]]]].
    eapply wm_true; [exact Hn|exact E'|unfold field_values; rewrite F1; exact HF|rewrite F2, F3; exact HY|rewrite F4; exact IH].
  - rewrite subst_other by (intros ->; contradiction). destruct (node_reroute m a _ _ _ Ea) as [d' [E' [F1 [F2 [F3 [F4 [F5 F6]]]]]]].
    eapply wm_false; [exact Hn|exact E'|unfold field_values; rewrite F1; exact HF|rewrite F2, F3; exact HN|rewrite F5; exact IH].
  - destruct (subst_cases m a n) as [[-> E]|[Hne E]]; rewrite E.
    + destruct (alternative_inv _ _ _ Halt) as [d' [b' [E1 [E2 E3]]]]. rewrite Ea in E1. injection E1 as <-. rewrite Eb in E2. injection E2 as <-.
      rewrite <- E3 in IH. rewrite subst_other in IH by exact Ham. exact IH.
    + destruct (node_reroute m a _ _ _ Ea) as [d' [E' [F1 [F2 [F3 [F4 [F5 F6]]]]]]].
      eapply wm_skip; [exact Hn|exact E'|rewrite F6; exact Eb|]. destruct b; [rewrite F4|rewrite F5]; exact IH.
Qed.
Lemma step_back n c : walk_missing env M (reroute m a t) n c -> n <> m -> walk_missing env M t n c.
Proof.
  assert (U : forall k, (subst_name m a k <> m -> walk_missing env M t (subst_name m a k) c) -> walk_missing env M t k c).
  { intros k Hk. specialize (Hk (subst_neq _ _ _ Ham)). destruct (subst_cases m a k) as [[-> E]|[_ E]]; rewrite E in Hk; [apply skip_m|]; exact Hk. }
  induction 1 as [n c x g Ea|n d fs c Hn Ea HF HY HW IH|n d fs c Hn Ea HF HN HW IH|n d b c Hn Ea Eb HW IH]; intro Hne.
  - eapply wm_leaf. apply reroute_leaf in Ea. exact Ea.
  - destruct (reroute_node _ _ _ _ _ Ea) as [d0 [E0 [F1 [F2 [F3 [F4 [F5 F6]]]]]]].
    eapply wm_true; [exact Hn|exact E0|unfold field_values; rewrite <- F1; exact HF|rewrite <- F2, <- F3; exact HY|]. apply U. rewrite <- F4. apply IH. exact U.
  - destruct (reroute_node _ _ _ _ _ Ea) as [d0 [E0 [F1 [F2 [F3 [F4 [F5 F6]]]]]]].
    eapply wm_false; [exact Hn|exact E0|unfold field_values; rewrite <- F1; exact HF|rewrite <- F2, <- F3; exact HN|]. apply U. rewrite <- F5. apply IH. exact U.
  - destruct (reroute_node _ _ _ _ _ Ea) as [d0 [E0 [F1 [F2 [F3 [F4 [F5 F6]]]]]]].
    eapply wm_skip; [exact Hn|exact E0|rewrite <- F6; exact Eb|]. apply U. destruct b; [rewrite <- F4|rewrite <- F5]; apply IH; exact U.
Qed.
Lemma step_iff s c : walk_missing env M t s c <-> walk_missing env M (reroute m a t) (subst_name m a s) c.
Proof.
  split; [apply step_forward|]. intro H. apply step_back in H; [|apply subst_neq; exact Ham].
  destruct (subst_cases m a s) as [[-> E]|[_ E]]; rewrite E in H; [apply skip_m|]; exact H.
Qed.
End Step.

(** * The loop *)
Section Loop.
Variables (env : inputs) (M : string -> Prop) (t0 : tree) (s0 : string) (rk : string -> nat).
Hypothesis Hrk : forall m d b, M m -> assoc m t0 = Some (Node d) -> d_missing d = Some b ->
  M (if b then d_true d else d_false d) -> (rk (if b then d_true d else d_false d) < rk m)%nat.

Definition same_resolution (x y : string) : Prop := forall z, resolves M t0 x z <-> resolves M t0 y z.

Record invariant (done : list string) (t : tree) (s : string) : Prop := {
  i_walk : forall c, walk_missing env M t0 s0 c <-> walk_missing env M t s c;
  i_shape : forall n, match assoc n t0, assoc n t with
                      | Some (Leaf c x g), Some q => q = Leaf c x g
                      | Some (Node d0), Some (Node d) => d_fields d = d_fields d0 /\ d_cmp d = d_cmp d0 /\ d_comb d = d_comb d0 /\ d_missing d = d_missing d0 /\
                          same_resolution (d_true d) (d_true d0) /\ same_resolution (d_false d) (d_false d0)
                      | None, None => True
                      | _, _ => False
                      end;
  i_start : same_resolution s s0;
  i_done : forall p, In p done -> s <> p /\ forall n d, assoc n t = Some (Node d) -> d_true d <> p /\ d_false d <> p;
  i_rank : forall m a, M m -> alternative t m = Ok a -> M a -> (rk a < rk m)%nat
}.

Lemma invariant_init : invariant [] t0 s0.
Proof.
  constructor.
  - tauto.
  - intro n. destruct (assoc n t0) as [[]|]; trivial. unfold same_resolution. tauto.
  - unfold same_resolution. tauto.
  - intros p [].
  - intros m a Hm Ha HMa. destruct (alternative_inv _ _ _ Ha) as [d [b [E1 [E2 ->]]]]. eapply Hrk; eauto.
Qed.

Lemma invariant_step done t s m t' s' : invariant done t s -> M m -> remove_one (t, s) m = Ok (t', s') -> invariant (m :: done) t' s'.
Proof.
  intros [I1 I2 I3 I4 I5] Hm H. unfold remove_one in H. simpl in H. destruct (alternative t m) as [a|] eqn:Ea; [|discriminate].
  simpl in H. injection H as <- <-. change (map _ t) with (reroute m a t).
  destruct (alternative_inv _ _ _ Ea) as [d [b [E1 [E2 E3]]]].
  assert (Ham : a <> m). { intros ->. specialize (I5 m m Hm Ea Hm). lia. }
  assert (Hres : same_resolution a m).
  { specialize (I2 m). rewrite E1 in I2. destruct (assoc m t0) as [[|d0]|] eqn:E0; try contradiction; [discriminate|].
    destruct I2 as [_ [_ [_ [Em [R1 R2]]]]]. rewrite Em in E2. intro z.
    assert (Ra : same_resolution a (if b then d_true d0 else d_false d0)) by (rewrite E3; destruct b; assumption).
    rewrite (Ra z). split; [intro Hz; eapply res_skip; eauto|]. intro Hz. inversion Hz as [? Hn|? d' b' ? Hn Ea' Eb' Hz']; subst; [contradiction|].
    rewrite E0 in Ea'. injection Ea' as <-. rewrite E2 in Eb'. injection Eb' as <-. exact Hz'. }
  assert (Hsub : forall x, same_resolution (subst_name m a x) x).
  { intro x. destruct (subst_cases m a x) as [[-> E]|[_ E]]; rewrite E; [exact Hres|unfold same_resolution; tauto]. }
  assert (Htr : forall x y z, same_resolution x y -> same_resolution y z -> same_resolution x z).
  { intros x y z H1 H2 w. rewrite (H1 w). apply H2. }
  constructor.
  - intro c. rewrite (I1 c). apply step_iff; assumption.
  - intro n. specialize (I2 n). rewrite reroute_assoc. destruct (assoc n t0) as [[c x g|d0]|]; destruct (assoc n t) as [[c' x' g'|d']|]; simpl; try contradiction; try discriminate; trivial.
    destruct I2 as [F1 [F2 [F3 [F4 [R1 R2]]]]]. split; [exact F1|]. split; [exact F2|]. split; [exact F3|]. split; [exact F4|].
    split; (eapply Htr; [apply Hsub|]; assumption).
  - eapply Htr; [apply Hsub|exact I3].
  - assert (Hnot : forall p, In p done -> a <> p).
    { intros p Hp. destruct (I4 p Hp) as [_ Hd]. destruct (Hd m d E1) as [D1 D2]. rewrite E3. destruct b; assumption. }
    intros p [<-|Hp].
    + split; [apply subst_neq; exact Ham|]. intros n d' Hd'. destruct (reroute_node _ _ _ _ _ Hd') as [d0 [_ [_ [_ [_ [F4 [F5 _]]]]]]].
      rewrite F4, F5. split; apply subst_neq; exact Ham.
    + destruct (I4 p Hp) as [Hs Hd]. split.
      * destruct (subst_cases m a s) as [[_ E]|[_ E]]; rewrite E; [apply Hnot; exact Hp|exact Hs].
      * intros n d' Hd'. destruct (reroute_node _ _ _ _ _ Hd') as [d0 [E0 [_ [_ [_ [F4 [F5 _]]]]]]]. destruct (Hd n d0 E0) as [D1 D2].
        rewrite F4, F5. split.
        -- destruct (subst_cases m a (d_true d0)) as [[_ E]|[_ E]]; rewrite E; [apply Hnot; exact Hp|exact D1].
        -- destruct (subst_cases m a (d_false d0)) as [[_ E]|[_ E]]; rewrite E; [apply Hnot; exact Hp|exact D2].
  - intros k x Hk Hx HMx. destruct (alternative_inv _ _ _ Hx) as [d' [b' [X1 [X2 X3]]]].
    destruct (reroute_node _ _ _ _ _ X1) as [d0 [E0 [_ [_ [_ [F4 [F5 F6]]]]]]]. rewrite F6 in X2.
    assert (Ek : alternative t k = Ok (if b' then d_true d0 else d_false d0)) by (unfold alternative; rewrite E0, X2; destruct b'; reflexivity).
    assert (Ex : x = subst_name m a (if b' then d_true d0 else d_false d0)) by (rewrite X3; destruct b'; assumption).
    destruct (subst_cases m a (if b' then d_true d0 else d_false d0)) as [[Em Es]|[_ Es]]; rewrite Es in Ex; clear X3; subst x.
    + assert (rk m < rk k)%nat by (rewrite <- Em; apply (I5 k); [exact Hk|exact Ek|rewrite Em; exact Hm]).
      assert (rk a < rk m)%nat by (apply I5; trivial). lia.
    + apply I5; trivial.
Qed.

Lemma invariant_loop ms : (forall m, In m ms -> M m) -> forall done t s t' s', invariant done t s ->
  foldM remove_one (t, s) ms = Ok (t', s') -> exists done', (forall m, In m ms \/ In m done -> In m done') /\ invariant done' t' s'.
Proof.
  induction ms as [|m ms IH]; intros HM done t s t' s' HI H; cbn [foldM] in H.
  - apply (f_equal (fun r => match r with Ok x => x | Err _ => (t, s) end)) in H. simpl in H. injection H as <- <-.
    exists done. split; [intros m [[]|Hm]; exact Hm|exact HI].
  - destruct (remove_one (t, s) m) as [[t1 s1]|] eqn:E; [|discriminate]. cbn [bind] in H.
    destruct (IH (fun k Hk => HM k (or_intror Hk)) (m :: done) t1 s1 t' s') as [done' [Hd HI']]; [eapply invariant_step; eauto; apply HM; left; reflexivity|exact H|].
    exists done'. split; [|exact HI']. intros k [[<-|Hk]|Hk]; apply Hd; [right; left; reflexivity|left; exact Hk|right; right; exact Hk].
Qed.

(** It does not fail when every missing node has a default branch. *)
Lemma loop_ok ms : (forall m, In m ms -> M m) -> (forall m, M m -> exists d b, assoc m t0 = Some (Node d) /\ d_missing d = Some b) ->
  forall done t s, invariant done t s -> exists t' s', foldM remove_one (t, s) ms = Ok (t', s').
Proof.
  intros HM HD. induction ms as [|m ms IH]; intros done t s HI; [exists t, s; reflexivity|]. cbn [foldM].
  assert (Hm : M m) by (apply HM; left; reflexivity).
  assert (exists a, alternative t m = Ok a) as [a Ea].
  { destruct (HD m Hm) as [d [b [E1 E2]]]. assert (I := i_shape _ _ _ HI m). rewrite E1 in I. unfold alternative.
    destruct (assoc m t) as [[|d']|]; try contradiction. destruct I as [_ [_ [_ [Em _]]]]. rewrite Em, E2. destruct b; eexists; reflexivity. }
  assert (E : remove_one (t, s) m = Ok (reroute m a t, subst_name m a s)) by (unfold remove_one; simpl; rewrite Ea; reflexivity).
  rewrite E. cbn [bind]. eapply (IH (fun k Hk => HM k (or_intror Hk)) (m :: done)). eapply invariant_step; eauto.
Qed.

(** Once all missing nodes are passed over, the plain walk is the walk with defaults. *)
Lemma walk_final done t s c : invariant done t s -> (forall m, M m -> In m done) ->
  (forall n, M n \/ ~ M n) -> (walk_missing env M t0 s0 c <-> walk env t s c).
Proof.
  intros HI HD HMdec. rewrite (i_walk _ _ _ HI c).
  assert (Hs : ~ M s). { intro H. destruct (i_done _ _ _ HI s (HD s H)) as [X _]. congruence. }
  assert (Ht : forall n d, assoc n t = Some (Node d) -> ~ M (d_true d) /\ ~ M (d_false d)).
  { intros n d E. split; intro H; destruct (i_done _ _ _ HI _ (HD _ H)) as [_ X]; destruct (X n d E); congruence. }
  revert Hs. generalize s. clear s HI. intros s Hs. split.
  - induction 1 as [n c x g Ea|n d fs c Hn Ea HF HY HW IH|n d fs c Hn Ea HF HN HW IH|n d b c Hn Ea Eb HW IH].
    + eapply walk_leaf; exact Ea. + eapply walk_true; eauto. apply IH. apply (Ht n d Ea). + eapply walk_false; eauto. apply IH. apply (Ht n d Ea). + contradiction.
  - induction 1 as [n c x g Ea|n d fs c Ea HF HY HW IH|n d fs c Ea HF HN HW IH].
    + eapply wm_leaf; exact Ea. + eapply wm_true; eauto. apply IH. apply (Ht n d Ea). + eapply wm_false; eauto. apply IH. apply (Ht n d Ea).
Qed.
End Loop.

(** * Presence of data *)
Section OperandInd.
  Variable P : operand -> Prop.
  Hypothesis HV : forall n, P (OVar n).
  Hypothesis HQ : forall q, P (ONum q).
  Hypothesis HS : forall x l, P x -> Forall (fun oy => P (snd oy)) l -> P (OSub x l).
  Fixpoint operand_ind' (e : operand) : P e :=
    match e with
    | OVar n => HV n
    | ONum q => HQ q
    | OSub x l => HS x l (operand_ind' x)
        ((fix go (l : list (op * operand)) : Forall (fun oy => P (snd oy)) l :=
            match l with [] => Forall_nil _ | oy :: r => Forall_cons oy (operand_ind' (snd oy)) (go r) end) l)
    end.
End OperandInd.

Lemma eval_present env e : (forall v, In v (operand_vars e) -> env v <> None) -> exists v, eval_operand env e = Ok v.
Proof.
  induction e as [n|q|x l IHx IHl] using operand_ind'; intro H; simpl.
  - specialize (H n (or_introl eq_refl)). destruct (env n) as [v|]; [exists v; reflexivity|congruence].
  - eexists; reflexivity.
  - destruct IHx as [vx Ex]; [intros v Hv; apply H; simpl; apply in_or_app; left; exact Hv|]. rewrite Ex. cbn [bind].
    set (go := fix go (l : list (op * operand)) : result (list (op * val)) := match l with [] => Ok [] | (o, y) :: r => let* v := eval_operand env y in let* vs := go r in Ok ((o, v) :: vs) end).
    assert (exists vl, go l = Ok vl) as [vl El].
    { assert (HL : forall v, In v ((fix go (l : list (op * operand)) : list string := match l with [] => [] | (_, y) :: r => operand_vars y ++ go r end) l) -> env v <> None).
      { intros v Hv. apply H. simpl. apply in_or_app. right. exact Hv. }
      clear H. induction IHl as [|[o y] l Hy HF IH]; [exists []; reflexivity|]. simpl in *.
      destruct Hy as [v Ev]; [intros v Hv; apply HL, in_or_app; left; exact Hv|]. rewrite Ev. cbn [bind].
      destruct IH as [vs Evs]; [intros w Hw; apply HL, in_or_app; right; exact Hw|]. rewrite Evs. eexists; reflexivity. }
    rewrite El. eexists; reflexivity.
Qed.

Definition avail (env : inputs) (v : string) : bool := match env v with Some _ => true | None => false end.

Lemma mapM_all {A B} (f : A -> result B) l : (forall x, In x l -> exists y, f x = Ok y) -> exists ys, mapM f l = Ok ys /\ Forall2 (fun x y => f x = Ok y) l ys.
Proof.
  induction l as [|x l IH]; intro H; [exists []; split; [reflexivity|constructor]|]. simpl.
  destruct (H x) as [y Ey]; [left; reflexivity|]. rewrite Ey. simpl. destruct IH as [ys [E HF]]; [intros z Hz; apply H; right; exact Hz|].
  rewrite E. simpl. exists (y :: ys). split; [reflexivity|constructor; trivial].
Qed.
Lemma assoc_nodup {B} n (v : B) l : NoDup (map fst l) -> In (n, v) l -> assoc n l = Some v.
Proof.
  induction l as [|[k w] l IH]; simpl; [intros _ []|]. intros HN [E|H].
  - injection E as -> ->. rewrite String.eqb_refl. reflexivity.
  - inversion HN as [|? ? Hk HN']; subst. destruct (String.eqb n k) eqn:E; [|apply IH; trivial].
    apply String.eqb_eq in E. subst. exfalso. apply Hk. change k with (fst (k, v)). apply in_map. exact H.
Qed.

Lemma missing_nodes_spec env t : NoDup (map fst t) ->
  (forall n d, assoc n t = Some (Node d) -> lacks_data env t n -> d_missing d <> None) ->
  exists ms, missing_nodes (avail env) t = Ok ms /\ forall n, In n ms <-> lacks_data env t n.
Proof.
  intros HN HD. unfold missing_nodes.
  set (f := fun kq : string * query => match snd kq with
      | Leaf _ _ _ => Ok []
      | Node d => mapM (fun _ => match d_missing d with Some _ => Ok (fst kq) | None => Err FileNotFound end) (filter (fun v => negb (avail env v)) (node_vars d))
      end).
  assert (Hf : forall kq, In kq t -> exists y, f kq = Ok y /\ forall n, In n y <-> n = fst kq /\ lacks_data env t n).
  { intros [k q] Hk. unfold f. simpl. assert (Ea := assoc_nodup _ _ _ HN Hk). destruct q as [c x g|d].
    - exists []. split; [reflexivity|]. intro n. split; [intros []|]. intros [-> [d [v [E _]]]]. congruence.
    - destruct (filter (fun v => negb (avail env v)) (node_vars d)) as [|v0 vs] eqn:EF.
      + exists []. split; [reflexivity|]. intro n. split; [intros []|]. intros [-> [d' [v [E [Hv En]]]]]. rewrite Ea in E. injection E as <-.
        assert (In v (filter (fun v => negb (avail env v)) (node_vars d))) by (apply filter_In; split; [exact Hv|unfold avail; rewrite En; reflexivity]).
        rewrite EF in H. destruct H.
      + assert (HL : lacks_data env t k).
        { exists d, v0. split; [exact Ea|]. assert (In v0 (filter (fun v => negb (avail env v)) (node_vars d))) by (rewrite EF; left; reflexivity).
          apply filter_In in H. destruct H as [H1 H2]. split; [exact H1|]. unfold avail in H2. destruct (env v0); [discriminate|reflexivity]. }
        assert (Hm := HD k d Ea HL). destruct (d_missing d) as [b|]; [|congruence].
        exists (map (fun _ => k) (v0 :: vs)). split; [clear; induction (v0 :: vs) as [|v l IH]; [reflexivity|]; simpl; rewrite IH; reflexivity|].
        intro n. rewrite in_map_iff. split; [intros [v [<- _]]; split; trivial|]. intros [-> _]. exists v0. split; [reflexivity|left; reflexivity]. }
  destruct (mapM_all f t) as [ys [E HF]]; [intros kq Hk; destruct (Hf kq Hk) as [y [Ey _]]; exists y; exact Ey|].
  rewrite E. cbn [bind]. exists (concat ys). split; [reflexivity|]. intro n. rewrite in_concat. split.
  - intros [y [Hy Hn]]. assert (exists kq, In kq t /\ f kq = Ok y) as [kq [Hk Ek]].
    { clear -HF Hy. induction HF as [|a b l l' E HF IH]; [destruct Hy|]. destruct Hy as [<-|Hy]; [exists a; split; [left; reflexivity|exact E]|].
      destruct (IH Hy) as [kq [H1 H2]]. exists kq. split; [right; exact H1|exact H2]. }
    destruct (Hf kq Hk) as [y' [Ey' Hy']]. rewrite Ek in Ey'. injection Ey' as <-. apply Hy' in Hn. tauto.
  - intro HL. destruct HL as [d [v [Ea [Hv Ev]]]] eqn:EHL. assert (Hk := assoc_In _ _ _ Ea).
    destruct (Hf _ Hk) as [y [Ey Hy]]. exists y. split.
    + clear -HF Hk Ey. induction HF as [|a b l l' E HF IH]; [destruct Hk|]. destruct Hk as [->|Hk]; [left; congruence|right; apply IH; exact Hk].
    + apply Hy. split; [reflexivity|exact HL].
Qed.

(** * process *)
Definition missing_dec env t n : lacks_data env t n \/ ~ lacks_data env t n.
Proof.
  unfold lacks_data. destruct (assoc n t) as [[c x g|d]|]; [right; intros [d [v [E _]]]; discriminate| |right; intros [d [v [E _]]]; discriminate].
  destruct (existsb (fun v => negb (avail env v)) (node_vars d)) eqn:E.
  - left. apply existsb_exists in E. destruct E as [v [Hv Hn]]. exists d, v. split; [reflexivity|]. split; [exact Hv|].
    unfold avail in Hn. destruct (env v); [discriminate|reflexivity].
  - right. intros [d' [v [E' [Hv Hn]]]]. injection E' as <-. assert (existsb (fun v => negb (avail env v)) (node_vars d) = true); [|congruence].
    apply existsb_exists. exists v. split; [exact Hv|]. unfold avail. rewrite Hn. reflexivity.
Qed.

Lemma process_walk env t s :
  NoDup (map fst t) ->
  (forall n d, assoc n t = Some (Node d) -> node_syntax d) ->
  (forall n d, assoc n t = Some (Node d) -> lacks_data env t n -> d_missing d <> None) ->
  (exists rk : string -> nat, forall n d b, lacks_data env t n -> assoc n t = Some (Node d) -> d_missing d = Some b ->
     lacks_data env t (if b then d_true d else d_false d) -> (rk (if b then d_true d else d_false d) < rk n)%nat) ->
  (forall s', resolves (lacks_data env t) t s s' -> exists d, assoc s' t = Some (Node d)) ->
  (exists out, snd (tree_process (t, s) env) = Ok out /\ (forall c, out = Some c -> walk_missing env (lacks_data env t) t s c)) /\
  ((forall n d x, assoc n t = Some (Node d) -> resolves (lacks_data env t) t (d_true d) x -> resolves (lacks_data env t) t (d_false d) x -> False) ->
   forall c, walk_missing env (lacks_data env t) t s c -> snd (tree_process (t, s) env) = Ok (Some c)).
Proof.
  intros HN HSyn HD [rk Hrk] Hst.
  destruct (missing_nodes_spec env t HN HD) as [ms [Ems Hms]].
  set (M := lacks_data env t) in *.
  assert (HI0 := invariant_init env M t s rk Hrk).
  assert (HM : forall m, In m ms -> M m) by (intros m Hm; apply Hms; exact Hm).
  assert (HDef : forall m, M m -> exists d b, assoc m t = Some (Node d) /\ d_missing d = Some b).
  { intros m Hm. destruct Hm as [d [v [E Hv]]] eqn:EE. assert (X := HD m d E Hm). destruct (d_missing d) as [b|] eqn:Eb; [|congruence].
    exists d, b. split; trivial. }
  destruct (loop_ok env M t s rk ms HM HDef [] t s HI0) as [t' [s' EL]].
  destruct (invariant_loop env M t s rk ms HM [] t s t' s' HI0 EL) as [done [Hdone HI]].
  assert (HD' : forall m, M m -> In m done) by (intros m Hm; apply Hdone; left; apply Hms; exact Hm).
  assert (HW : forall c, walk_missing env M t s c <-> walk env t' s' c).
  { intro c. eapply walk_final; [exact HI|exact HD'|]. intro n. apply missing_dec. }
  assert (EP : snd (tree_process (t, s) env) = classify env t' s').
  { unfold tree_process. simpl fst. simpl snd. change (fun v => match env v with Some _ => true | None => false end) with (avail env).
    rewrite Ems. unfold remove_optional_missing. rewrite EL. reflexivity. }
  assert (Hs' : ~ M s') by (intro H; destruct (i_done _ _ _ _ _ _ _ _ HI s' (HD' _ H)) as [X _]; congruence).
  assert (Hst' : exists d, assoc s' t' = Some (Node d)).
  { assert (R : resolves M t s s') by (apply (i_start _ _ _ _ _ _ _ _ HI); apply res_here; exact Hs').
    destruct (Hst s' R) as [d Ed]. assert (X := i_shape _ _ _ _ _ _ _ _ HI s'). rewrite Ed in X. destruct (assoc s' t') as [[|d']|]; try contradiction. exists d'; reflexivity. }
  assert (Hreach : forall m, reach t' s' m -> ~ M m).
  { intros m HR. destruct HR as [|n d HR E|n d HR E]; [exact Hs'| |]; intro H; destruct (i_done _ _ _ _ _ _ _ _ HI _ (HD' _ H)) as [_ X]; destruct (X _ _ E); congruence. }
  assert (Hnode : forall m d, assoc m t' = Some (Node d) -> exists d0, assoc m t = Some (Node d0) /\ d_fields d = d_fields d0 /\ d_cmp d = d_cmp d0 /\ d_comb d = d_comb d0 /\
      same_resolution M t (d_true d) (d_true d0) /\ same_resolution M t (d_false d) (d_false d0)).
  { intros m d E. assert (X := i_shape _ _ _ _ _ _ _ _ HI m). rewrite E in X. destruct (assoc m t) as [[|d0]|]; [discriminate| |contradiction]. exists d0. tauto. }
  assert (Hok : forall m d, reach t' s' m -> assoc m t' = Some (Node d) -> node_ok env d).
  { intros m d HR E. destruct (Hnode m d E) as [d0 [E0 [F1 [F2 [F3 _]]]]]. destruct (HSyn m d0 E0) as [S1 S2].
    split; [rewrite F2; exact S1|]. split; [rewrite F1, F3; exact S2|]. intros f Hf. apply eval_present. intros v Hv Hnone.
    apply (Hreach m HR). exists d0, v. split; [exact E0|]. split; [|exact Hnone]. unfold node_vars. apply in_flat_map. exists f. split; [rewrite <- F1; exact Hf|exact Hv]. }
  rewrite EP. split.
  - destruct (classify_sound env t' s' Hst' Hok) as [out [Eo Ho]]. exists out. split; [exact Eo|]. intros c Hc. apply HW, Ho, Hc.
  - intros Hdist c Hc. apply classify_complete; [exact Hst'|exact Hok| |apply HW; exact Hc].
    intros m d HR E Heq. destruct (Hnode m d E) as [d0 [E0 [_ [_ [_ [R1 R2]]]]]].
    assert (Hnm : ~ M (d_true d)) by (apply Hreach; eapply reach_true; eauto).
    apply (Hdist m d0 (d_true d) E0).
    + apply R1. apply res_here. exact Hnm.
    + apply R2. rewrite <- Heq. apply res_here. exact Hnm.
Qed.
