From Verif Require Import Base Model_Threshold Spec_Tree Model_Tree Spec_TreeWalk Proofs_Tree.
Local Open Scope string_scope.
Local Open Scope list_scope.

Lemma vertex_eqb_eq a b : vertex_eqb a b = true <-> a = b.
Proof.
  destruct a as [m|y], b as [n|z]; simpl; try (split; discriminate).
  - rewrite String.eqb_eq. split; [intros ->; reflexivity|intro H; injection H; trivial].
  - rewrite Z.eqb_eq. split; [intros ->; reflexivity|intro H; injection H; trivial].
Qed.
Lemma vertex_eqb_neq a b : vertex_eqb a b = false <-> a <> b.
Proof. rewrite <- vertex_eqb_eq. destruct (vertex_eqb a b); split; congruence. Qed.
Lemma existsb_vertex n r : existsb (vertex_eqb n) r = true <-> In n r.
Proof.
  rewrite existsb_exists. split.
  - intros [x [Hx E]]. apply vertex_eqb_eq in E. subst. exact Hx.
  - intro H. exists n. split; [exact H|apply vertex_eqb_eq; reflexivity].
Qed.

(** Paths of the graph. *)
Inductive path (t : tree) : vertex -> list vertex -> vertex -> Prop :=
| path_end e : path t e [e] e
| path_step s ns n r e : neighbours t s = Some ns -> In n ns -> path t n r e -> path t s (s :: r) e.

Lemma path_in_end t s r e : path t s r e -> In e r.
Proof. induction 1; [left; reflexivity|right; trivial]. Qed.
Lemma path_head t s r e : path t s r e -> exists r', r = s :: r'.
Proof. intro H; inv H; eexists; reflexivity. Qed.

(** Every route found is a path. *)
Lemma routes_sound t e : forall fuel route s p, In p (find_all_routes fuel t e route s) ->
  exists r, p = route ++ r /\ path t s r e.
Proof.
  induction fuel as [|f IH]; intros route s p H; simpl in H.
  - destruct (vertex_eqb s e) eqn:E.
    + apply vertex_eqb_eq in E. subst. destruct H as [<-|[]]. exists [e]. split; [reflexivity|constructor].
    + destruct (neighbours t s); destruct H.
  - destruct (vertex_eqb s e) eqn:E.
    + apply vertex_eqb_eq in E. subst. destruct H as [<-|[]]. exists [e]. split; [reflexivity|constructor].
    + destruct (neighbours t s) as [ns|] eqn:En; [|destruct H].
      apply in_flat_map in H. destruct H as [n [Hn H]]. destruct (existsb (vertex_eqb n) (route ++ [s])); [destruct H|].
      destruct (IH _ _ _ H) as [r [-> Hr]]. exists (s :: r). split; [rewrite <- app_assoc; reflexivity|econstructor; eauto].
Qed.
(** Every path without repetition is found, given enough fuel. *)
Lemma routes_complete t s r e : path t s r e -> forall fuel route, NoDup (route ++ r) -> (length r <= S fuel)%nat ->
  In (route ++ r) (find_all_routes fuel t e route s).
Proof.
  induction 1 as [e|s ns n r e En Hn HP IH]; intros fuel route HN HL.
  - destruct fuel; simpl; replace (vertex_eqb e e) with true by (symmetry; apply vertex_eqb_eq; reflexivity); left; reflexivity.
  - assert (Hse : vertex_eqb s e = false).
    { apply vertex_eqb_neq. intros ->. apply NoDup_remove_2 in HN. apply HN, in_or_app. right. apply path_in_end in HP. exact HP. }
    destruct (path_head _ _ _ _ HP) as [r' ->].
    destruct fuel as [|f]; [simpl in HL; lia|]. simpl. rewrite Hse, En. apply in_flat_map. exists n. split; [exact Hn|].
    assert (HX : existsb (vertex_eqb n) (route ++ [s]) = false).
    { destruct (existsb _ _) eqn:EX; [|reflexivity]. apply existsb_vertex in EX. exfalso.
      replace (route ++ s :: n :: r') with ((route ++ [s]) ++ n :: r') in HN by (rewrite <- app_assoc; reflexivity).
      apply NoDup_remove_2 in HN. apply HN, in_or_app. left. exact EX. }
    rewrite HX. replace (route ++ s :: n :: r') with ((route ++ [s]) ++ n :: r') by (rewrite <- app_assoc; reflexivity).
    apply IH; [rewrite <- app_assoc; exact HN|simpl in *; lia].
Qed.

(** * Walks and routes *)
Section Fixed.
Variables (env : inputs) (t : tree).

Lemma assoc_node_neigh n d : assoc n t = Some (Node d) -> neighbours t (VName n) = Some [VName (d_true d); VName (d_false d)].
Proof. intro H. simpl. rewrite H. reflexivity. Qed.
Lemma assoc_leaf_neigh n c x g : assoc n t = Some (Leaf c x g) -> neighbours t (VName n) = Some [VCode c].
Proof. intro H. simpl. rewrite H. reflexivity. Qed.

Lemma path_code_inv z r e : path t (VCode z) r e -> r = [VCode z] /\ e = VCode z.
Proof. intro H; inv H; [split; reflexivity|simpl in *; discriminate]. Qed.

Lemma route_conditions_node n d v r : assoc n t = Some (Node d) -> route_conditions t (VName n :: v :: r) =
  let* c0 := if vertex_eqb (VName (d_false d)) v then invert_condition d else Ok (d_fields d, d_cmp d, d_comb d) in
  let* cs0 := route_conditions t (v :: r) in Ok (c0 :: cs0).
Proof. intro Ea. cbn [route_conditions]. rewrite Ea. reflexivity. Qed.

(** Conditions of a route from a node: all evaluate; they are all true only along a walk. *)
Lemma route_sound r : forall n c, path t (VName n) r (VCode c) ->
  (forall m d, reach t n m -> assoc m t = Some (Node d) -> node_ok env d) ->
  exists cs vs, route_conditions t r = Ok cs /\ Forall2 (fun x v => eval_condition env x = Ok v) cs vs /\
    (Forall (eq (Some true)) vs -> walk env t n c) /\ (forall d, assoc n t = Some (Node d) -> cs <> []).
Proof.
  induction r as [|v r IH]; intros n c HP HOK; [inv HP|].
  inversion HP as [|s ns m r' e En Hm HP']; subst. simpl in En.
  destruct (assoc n t) as [[z x g|d]|] eqn:Ea; try discriminate.
  - injection En as <-. destruct Hm as [<-|[]]. destruct (path_code_inv _ _ _ HP') as [-> E]. injection E as ->.
    exists [], []. cbn [route_conditions]. rewrite Ea. split; [reflexivity|]. split; [constructor|]. split; [|intros; congruence].
    intros _. econstructor; exact Ea.
  - injection En as <-.
    assert (HR : exists k, m = VName k /\ (k = d_true d \/ k = d_false d)).
    { destruct Hm as [<-|[<-|[]]]; eexists; split; try reflexivity; tauto. }
    destruct HR as [k [-> Hk]].
    assert (HOK' : forall m d, reach t k m -> assoc m t = Some (Node d) -> node_ok env d).
    { intros m' d' HR HA. apply HOK with m'; [|exact HA].
      assert (R1 : reach t n k) by (destruct Hk as [-> | ->]; [eapply reach_true|eapply reach_false]; try exact Ea; constructor).
      clear -HR R1. induction HR; [exact R1| |]; [eapply reach_true|eapply reach_false]; eauto. }
    assert (Hd : node_ok env d) by (apply HOK with n; [constructor|exact Ea]).
    destruct (IH k c HP' HOK') as [cs [vs [Ecs [HF [HW _]]]]].
    destruct (field_values_ex env d Hd) as [fs Hfs].
    destruct (path_head _ _ _ _ HP') as [r'' ->].
    assert (Erc : route_conditions t (VName n :: VName k :: r'') =
      let* c0 := if vertex_eqb (VName (d_false d)) (VName k) then invert_condition d else Ok (d_fields d, d_cmp d, d_comb d) in
      let* cs0 := route_conditions t (VName k :: r'') in Ok (c0 :: cs0)).
    { cbn [route_conditions]. rewrite Ea. reflexivity. }
    rewrite Erc, Ecs. destruct (vertex_eqb (VName (d_false d)) (VName k)) eqn:Ek.
    + apply vertex_eqb_eq in Ek. injection Ek as <-.
      destruct (eval_condition_no env d fs Hd Hfs) as [c0 [v [Ec0 [Ev Hv]]]]. rewrite Ec0. simpl.
      exists (c0 :: cs), (v :: vs). split; [reflexivity|]. split; [constructor; trivial|]. split; [|discriminate].
      intro HT. inversion HT as [|? ? HT1 HT2]; subst. eapply walk_false; [exact Ea|exact Hfs|apply Hv; reflexivity|apply HW; exact HT2].
    + apply vertex_eqb_neq in Ek. assert (k = d_true d) by (destruct Hk; [trivial|congruence]). subst k.
      destruct (eval_condition_yes env (d_fields d) (d_cmp d) (d_comb d) fs) as [v [Ev Hv]]; [apply Hd|apply Hd|exact Hfs|]. simpl bind.
      exists ((d_fields d, d_cmp d, d_comb d) :: cs), (v :: vs). split; [reflexivity|]. split; [constructor; trivial|]. split; [|discriminate].
      intro HT. inversion HT as [|? ? HT1 HT2]; subst. eapply walk_true; [exact Ea|exact Hfs|apply Hv; reflexivity|apply HW; exact HT2].
Qed.

(** Walks with their number of questions: a walk is determined by its start. *)
Inductive walkn : nat -> string -> Z -> Prop :=
| wn_leaf n c night group : assoc n t = Some (Leaf c night group) -> walkn 0 n c
| wn_true k n d fs c : assoc n t = Some (Node d) -> field_values env d fs -> yes (d_cmp d) (d_comb d) fs ->
    walkn k (d_true d) c -> walkn (S k) n c
| wn_false k n d fs c : assoc n t = Some (Node d) -> field_values env d fs -> no (d_cmp d) (d_comb d) fs ->
    walkn k (d_false d) c -> walkn (S k) n c.
Lemma walk_walkn n c : walk env t n c -> exists k, walkn k n c.
Proof. induction 1 as [| ? ? ? ? ? ? ? ? [k IH]|? ? ? ? ? ? ? ? [k IH]]; eexists; [eapply wn_leaf|eapply wn_true|eapply wn_false]; eauto. Qed.
Lemma walkn_walk k n c : walkn k n c -> walk env t n c.
Proof. induction 1; [eapply walk_leaf|eapply walk_true|eapply walk_false]; eauto. Qed.

Lemma yes_no' d fs : field_values env d fs -> yes (d_cmp d) (d_comb d) fs -> no (d_cmp d) (d_comb d) fs -> d_fields d <> [] -> False.
Proof.
  intros HF HY HN Hne. apply (yes_no (d_cmp d) (d_comb d) fs); trivial. intros ->. apply Hne. unfold field_values in HF. inversion HF. reflexivity.
Qed.

Lemma walkn_fun k n c : walkn k n c -> (forall m d, reach t n m -> assoc m t = Some (Node d) -> d_fields d <> []) ->
  forall k' c', walkn k' n c' -> k = k' /\ c = c'.
Proof.
  induction 1 as [n c x g Ea|k n d fs c Ea HF HY HW IH|k n d fs c Ea HF HN HW IH]; intros Hne k' c' HW'.
  - inv HW'; try congruence. split; congruence.
  - assert (Hn : forall m d0, reach t (d_true d) m -> assoc m t = Some (Node d0) -> d_fields d0 <> []).
    { intros m d0 HR. apply Hne. clear -HR Ea. induction HR; [eapply reach_true; [constructor|exact Ea]|eapply reach_true; eauto|eapply reach_false; eauto]. }
    inversion HW' as [? ? ? ? E|? ? d' fs' ? E HF' HY' HW''|? ? d' fs' ? E HF' HN' HW'']; subst; rewrite Ea in E; try discriminate; injection E as <-.
    + destruct (IH Hn _ _ HW''). subst. split; reflexivity.
    + exfalso. rewrite (field_values_fun _ _ _ _ HF' HF) in HN'. apply (yes_no' d fs HF HY HN'). apply (Hne n); [constructor|exact Ea].
  - assert (Hn : forall m d0, reach t (d_false d) m -> assoc m t = Some (Node d0) -> d_fields d0 <> []).
    { intros m d0 HR. apply Hne. clear -HR Ea. induction HR; [eapply reach_false; [constructor|exact Ea]|eapply reach_true; eauto|eapply reach_false; eauto]. }
    inversion HW' as [? ? ? ? E|? ? d' fs' ? E HF' HY' HW''|? ? d' fs' ? E HF' HN' HW'']; subst; rewrite Ea in E; try discriminate; injection E as <-.
    + exfalso. rewrite (field_values_fun _ _ _ _ HF' HF) in HY'. apply (yes_no' d fs HF HY' HN). apply (Hne n); [constructor|exact Ea].
    + destruct (IH Hn _ _ HW''). subst. split; reflexivity.
Qed.

Definition names (r : list vertex) : list string := flat_map (fun v => match v with VName n => [n] | VCode _ => [] end) r.

(** From a walk, the route that ApplyDecisionTree evaluates to true. *)
Lemma walk_route k n c : walkn k n c ->
  (forall m d, reach t n m -> assoc m t = Some (Node d) -> node_ok env d /\ d_true d <> d_false d) ->
  exists r cs, path t (VName n) r (VCode c) /\ route_conditions t r = Ok cs /\ Forall (fun x => eval_condition env x = Ok (Some true)) cs /\
    (forall m, In (VName m) r -> exists k', (k' <= k)%nat /\ walkn k' m c /\ reach t n m) /\ length r = S (S k) /\ NoDup r /\
    (forall z, In (VCode z) r -> z = c).
Proof.
  induction 1 as [n c x g Ea|k n d fs c Ea HF HY HW IH|k n d fs c Ea HF HN HW IH]; intros HOK.
  - exists [VName n; VCode c], []. split; [econstructor; [apply (assoc_leaf_neigh _ _ _ _ Ea)|left; reflexivity|constructor]|].
    split; [cbn [route_conditions]; rewrite Ea; reflexivity|]. split; [constructor|]. split.
    { intros m [E|[E|[]]]; [|discriminate]. injection E as <-. exists 0%nat. split; [lia|]. split; [econstructor; exact Ea|constructor]. }
    split; [reflexivity|]. split.
    + constructor; [|constructor; [intros []|constructor]]. intros [E|[]]. discriminate.
    + intros z [E|[E|[]]]; congruence.
  - destruct (HOK n d (reach_refl _ _) Ea) as [Hd Hneq].
    assert (HOK' : forall m d0, reach t (d_true d) m -> assoc m t = Some (Node d0) -> node_ok env d0 /\ d_true d0 <> d_false d0).
    { intros m d0 HR. apply HOK. clear -HR Ea. induction HR; [eapply reach_true; [constructor|exact Ea]|eapply reach_true; eauto|eapply reach_false; eauto]. }
    destruct (IH HOK') as [r [cs [HP [Ecs [HT [HM [HL [HND HC]]]]]]]].
    destruct (path_head _ _ _ _ HP) as [r' ->].
    exists (VName n :: VName (d_true d) :: r'), ((d_fields d, d_cmp d, d_comb d) :: cs).
    split; [econstructor; [apply (assoc_node_neigh _ _ Ea)|left; reflexivity|exact HP]|].
    split.
    { rewrite (route_conditions_node _ _ _ _ Ea), Ecs.
      replace (vertex_eqb (VName (d_false d)) (VName (d_true d))) with false by (symmetry; apply vertex_eqb_neq; congruence). reflexivity. }
    split.
    { constructor; [|exact HT]. destruct (eval_condition_yes env (d_fields d) (d_cmp d) (d_comb d) fs) as [v [Ev Hv]]; [apply Hd|apply Hd|exact HF|].
      rewrite Ev. f_equal. apply Hv. exact HY. }
    split.
    { intros m [E|Hm]; [injection E as <-; exists (S k); split; [lia|]; split; [eapply wn_true; eauto|constructor]|].
      destruct (HM m Hm) as [k' [Hk' [HW' HR]]]. exists k'. split; [lia|]. split; [exact HW'|].
      clear -HR Ea. induction HR; [eapply reach_true; [constructor|exact Ea]|eapply reach_true; eauto|eapply reach_false; eauto]. }
    split; [simpl in *; lia|]. split.
    { constructor; [|exact HND]. intro Hin. destruct (HM n Hin) as [k' [Hk' [HW' _]]].
      assert (HWn : walkn (S k) n c) by (eapply wn_true; eauto).
      destruct (walkn_fun _ _ _ HW' ) with (k' := S k) (c' := c) as [E _]; [|exact HWn|lia].
      intros m d0 HR HA. destruct (HOK m d0 HR HA) as [[_ [[[_ HX]|[_ HX]] _]] _]; [intros E; rewrite E in HX; discriminate|exact HX]. }
    { intros z [E|Hz]; [discriminate|apply HC; exact Hz]. }
  - destruct (HOK n d (reach_refl _ _) Ea) as [Hd Hneq].
    assert (HOK' : forall m d0, reach t (d_false d) m -> assoc m t = Some (Node d0) -> node_ok env d0 /\ d_true d0 <> d_false d0).
    { intros m d0 HR. apply HOK. clear -HR Ea. induction HR; [eapply reach_false; [constructor|exact Ea]|eapply reach_true; eauto|eapply reach_false; eauto]. }
    destruct (IH HOK') as [r [cs [HP [Ecs [HT [HM [HL [HND HC]]]]]]]].
    destruct (path_head _ _ _ _ HP) as [r' ->].
    destruct (eval_condition_no env d fs Hd HF) as [c0 [v [Ec0 [Ev Hv]]]].
    exists (VName n :: VName (d_false d) :: r'), (c0 :: cs).
    split; [econstructor; [apply (assoc_node_neigh _ _ Ea)|right; left; reflexivity|exact HP]|].
    split.
    { rewrite (route_conditions_node _ _ _ _ Ea), Ecs.
      replace (vertex_eqb (VName (d_false d)) (VName (d_false d))) with true by (symmetry; apply vertex_eqb_eq; congruence).
      rewrite Ec0. reflexivity. }
    split.
    { constructor; [|exact HT]. rewrite Ev. f_equal. apply Hv. exact HN. }
    split.
    { intros m [E|Hm]; [injection E as <-; exists (S k); split; [lia|]; split; [eapply wn_false; eauto|constructor]|].
      destruct (HM m Hm) as [k' [Hk' [HW' HR]]]. exists k'. split; [lia|]. split; [exact HW'|].
      clear -HR Ea. induction HR; [eapply reach_false; [constructor|exact Ea]|eapply reach_true; eauto|eapply reach_false; eauto]. }
    split; [simpl in *; lia|]. split.
    { constructor; [|exact HND]. intro Hin. destruct (HM n Hin) as [k' [Hk' [HW' _]]].
      assert (HWn : walkn (S k) n c) by (eapply wn_false; eauto).
      destruct (walkn_fun _ _ _ HW' ) with (k' := S k) (c' := c) as [E _]; [|exact HWn|lia].
      intros m d0 HR HA. destruct (HOK m d0 HR HA) as [[_ [[[_ HX]|[_ HX]] _]] _]; [intros E; rewrite E in HX; discriminate|exact HX]. }
    { intros z [E|Hz]; [discriminate|apply HC; exact Hz]. }
Qed.

Lemma assoc_in {B} n (l : list (string * B)) v : assoc n l = Some v -> In n (map fst l).
Proof.
  induction l as [|[k w] l IH]; simpl; [discriminate|]. destruct (String.eqb n k) eqn:E; [apply String.eqb_eq in E; left; congruence|].
  intro H. right. apply IH. exact H.
Qed.
Lemma assoc_In {B} n (l : list (string * B)) v : assoc n l = Some v -> In (n, v) l.
Proof.
  induction l as [|[k w] l IH]; simpl; [discriminate|]. destruct (String.eqb n k) eqn:E; [apply String.eqb_eq in E; intro H; injection H as <-; left; congruence|].
  intro H. right. apply IH. exact H.
Qed.

Lemma walkn_in k n c : walkn k n c -> In n (map fst t).
Proof. intro H. inv H; eapply assoc_in; eauto. Qed.
Lemma walkn_code k n c : walkn k n c -> In c (defined_categories t).
Proof.
  induction 1 as [n c x g Ea| |]; trivial. apply assoc_In in Ea. unfold defined_categories. apply in_flat_map. eexists. split; [exact Ea|]. left. reflexivity.
Qed.
Lemma names_in m r : In m (names r) <-> In (VName m) r.
Proof.
  unfold names. rewrite in_flat_map. split.
  - intros [v [Hv H]]. destruct v; [destruct H as [->|[]]; exact Hv|destruct H].
  - intro H. exists (VName m). split; [exact H|left; reflexivity].
Qed.
Lemma names_nodup r : NoDup r -> NoDup (names r).
Proof.
  induction 1 as [|v r Hv HN IH]; [constructor|]. destruct v as [m|z]; simpl; [|exact IH]. constructor; [|exact IH].
  intro H. apply Hv. apply names_in. exact H.
Qed.
(** The vertices of a walk's route number at most two more than ... the names of the tree plus the final code. *)
Lemma route_length r c : NoDup r -> (forall m, In (VName m) r -> In m (map fst t)) -> (forall z, In (VCode z) r -> z = c) ->
  (length r <= S (length t))%nat.
Proof.
  intros HND HN HC.
  assert (L1 : (length (names r) <= length t)%nat).
  { rewrite <- (map_length fst t). apply NoDup_incl_length; [apply names_nodup; exact HND|]. intros m Hm. apply HN, names_in. exact Hm. }
  assert (L2 : (length r <= length (names r) + if existsb (vertex_eqb (VCode c)) r then 1 else 0)%nat).
  { clear -HND HC. induction HND as [|v r Hv HND IH]; [simpl; lia|].
    assert (HC' : forall z, In (VCode z) r -> z = c) by (intros z Hz; apply HC; right; exact Hz). specialize (IH HC').
    destruct v as [m|z].
    - cbn [length names flat_map app existsb vertex_eqb]. simpl orb. change (flat_map _ r) with (names r).
      destruct (existsb (vertex_eqb (VCode c)) r); simpl; lia.
    - assert (z = c) by (apply HC; left; reflexivity). subst z.
      cbn [length names flat_map app existsb]. change (flat_map _ r) with (names r).
      replace (vertex_eqb (VCode c) (VCode c)) with true by (symmetry; apply vertex_eqb_eq; reflexivity). simpl orb.
      assert (E : existsb (vertex_eqb (VCode c)) r = false).
      { destruct (existsb _ r) eqn:EX; [|reflexivity]. apply existsb_vertex in EX. contradiction. }
      rewrite E in IH. simpl; lia. }
  destruct (existsb _ r); lia.
Qed.

(** * The whole classification *)
Variable start : string.
Hypothesis Hstart : exists d, assoc start t = Some (Node d).
Hypothesis Hok : forall m d, reach t start m -> assoc m t = Some (Node d) -> node_ok env d.

Lemma eval_route_sound c r : path t (VName start) r (VCode c) ->
  exists v, eval_route env t r = Ok v /\ (v = Some true -> walk env t start c).
Proof.
  intro HP. destruct (route_sound r start c HP Hok) as [cs [vs [Ecs [HF [HW Hne]]]]]. unfold eval_route. rewrite Ecs. simpl.
  destruct Hstart as [d Hd]. destruct (chain_and (eval_condition env) cs vs (Hne d Hd) HF) as [v [Ev Hv]].
  exists v. split; [exact Ev|]. intro H. apply HW, Hv, H.
Qed.

Lemma set_routes code rs : (forall r, In r rs -> path t (VName start) r (VCode code)) ->
  forall acc, exists out, foldM (set_route env t code) acc rs = Ok out /\
    ((out = acc /\ (forall r, In r rs -> eval_route env t r <> Ok (Some true))) \/ (out = Some code /\ walk env t start code)).
Proof.
  induction rs as [|r rs IH]; intros HP acc; simpl.
  - exists acc. split; [reflexivity|]. left. split; [reflexivity|]. intros r [].
  - destruct (eval_route_sound code r) as [v [Ev Hv]]; [apply HP; left; reflexivity|]. unfold set_route at 1. rewrite Ev. simpl.
    destruct (IH (fun r' H' => HP r' (or_intror H')) (match v with Some true => Some code | _ => acc end)) as [out [Eo Ho]].
    exists out. split; [exact Eo|]. destruct Ho as [[E1 E2]|Ho]; [|right; exact Ho].
    destruct v as [[|]|].
    + right. split; [exact E1|apply Hv; reflexivity].
    + left. split; [exact E1|]. intros r' [<-|H']; [rewrite Ev; discriminate|apply E2; exact H'].
    + left. split; [exact E1|]. intros r' [<-|H']; [rewrite Ev; discriminate|apply E2; exact H'].
Qed.

Lemma set_category_ok acc code : exists out, set_category env t start acc code = Ok out /\
  ((out = acc /\ (forall r, In r (find_all_routes (S (length t)) t (VCode code) [] (VName start)) -> eval_route env t r <> Ok (Some true)))
   \/ (out = Some code /\ walk env t start code)).
Proof.
  apply set_routes. intros r Hr. apply routes_sound in Hr. destruct Hr as [r' [-> HP]]. exact HP.
Qed.

Lemma classify_fold codes : forall acc, exists out, foldM (set_category env t start) acc codes = Ok out /\
  ((out = acc /\ forall code, In code codes -> forall r, In r (find_all_routes (S (length t)) t (VCode code) [] (VName start)) -> eval_route env t r <> Ok (Some true))
   \/ exists c, out = Some c /\ walk env t start c).
Proof.
  induction codes as [|code codes IH]; intro acc; simpl.
  - exists acc. split; [reflexivity|]. left. split; [reflexivity|]. intros code [].
  - destruct (set_category_ok acc code) as [o [Eo Ho]]. rewrite Eo. simpl. destruct (IH o) as [out [Eout Hout]]. exists out. split; [exact Eout|].
    destruct Hout as [[-> Hall]|Hout]; [|right; exact Hout].
    destruct Ho as [[-> Ha]|[-> Hw]]; [|right; eexists; split; [reflexivity|exact Hw]].
    left. split; [reflexivity|]. intros code' [<-|H']; [exact Ha|apply Hall; exact H'].
Qed.

Lemma classify_sound : exists out, classify env t start = Ok out /\ (forall c, out = Some c -> walk env t start c).
Proof.
  unfold classify. destruct (classify_fold (defined_categories t) None) as [out [E H]]. exists out. split; [exact E|].
  intros c ->. destruct H as [[H _]|[c' [H1 H2]]]; [discriminate|]. injection H1 as ->. exact H2.
Qed.

Hypothesis Hdistinct : forall m d, reach t start m -> assoc m t = Some (Node d) -> d_true d <> d_false d.

Lemma classify_complete c : walk env t start c -> classify env t start = Ok (Some c).
Proof.
  intro HW. destruct (walk_walkn _ _ HW) as [k Hk].
  destruct (walk_route k start c Hk) as [r [cs [HP [Ecs [HT [HM [HL [HND HC]]]]]]]]; [intros m d H1 H2; split; [apply (Hok m)|apply (Hdistinct m)]; trivial|].
  assert (Hin : In r (find_all_routes (S (length t)) t (VCode c) [] (VName start))).
  { change r with ([] ++ r). apply routes_complete; [exact HP|exact HND|].
    assert (L := route_length r c HND). assert (length r <= S (length t))%nat; [|lia].
    apply L; [|exact HC]. intros m Hm. destruct (HM m Hm) as [k' [_ [Hk' _]]]. eapply walkn_in; exact Hk'. }
  assert (Htrue : eval_route env t r = Ok (Some true)).
  { unfold eval_route. rewrite Ecs. simpl.
    destruct (route_sound r start c HP Hok) as [cs' [vs [Ecs' [HF [_ Hne]]]]]. rewrite Ecs in Ecs'. injection Ecs' as <-.
    destruct Hstart as [d Hd]. destruct (chain_and (eval_condition env) cs vs (Hne d Hd) HF) as [v [Ev Hv]]. rewrite Ev. f_equal. apply Hv.
    clear -HF HT. induction HF as [|x v cs vs E HF IH]; [constructor|]. inv HT. constructor; [congruence|apply IH; trivial]. }
  unfold classify. destruct (classify_fold (defined_categories t) None) as [out [E H]]. rewrite E. f_equal.
  destruct H as [[_ H]|[c' [-> Hw']]].
  - exfalso. apply (H c (walkn_code _ _ _ Hk) r Hin Htrue).
  - f_equal. destruct (walk_walkn _ _ Hw') as [k' Hk']. eapply walkn_fun; [exact Hk'| |exact Hk].
    intros m d HR HA. destruct (Hok m d HR HA) as [_ [[[_ HX]|[_ HX]] _]]; [intros E0; rewrite E0 in HX; discriminate|exact HX].
Qed.
End Fixed.
