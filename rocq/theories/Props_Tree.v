(** C34: decision trees (ApplyDecisionTree). C35: modal categories (ModalCategory). Also the ApplyDecisionTree part of C29. *)
From Verif Require Import Base Model_Threshold Spec_Tree Model_Tree Spec_TreeWalk Proofs_Tree Proofs_TreeRoutes Proofs_TreeMissing Proofs_TreeMore
  Spec_State Spec_Modal Model_Modal Spec_ModalTree Proofs_Modal.
Local Open Scope string_scope.
Local Open Scope list_scope.
Local Open Scope Q_scope.

(** * C34 *)
(** Inverting a comparison twice gives it back; the inverted comparison holds exactly where the comparison fails. *)
Theorem C34_inversion c : In c [">="; ">"; "<="; "<"] ->
  exists c', invert_comparator c = Ok c' /\ invert_comparator c' = Ok c /\ forall x t, sat c' x t <-> ~ sat c x t.
Proof.
  intro Hc. destruct (invert_cmp c Hc) as [c' [E [_ H]]]. exists c'. split; [exact E|]. split; [|exact H].
  destruct Hc as [<-|[<-|[<-|[<-|[]]]]]; vm_compute in E; injection E as <-; reflexivity.
Qed.
(** At a point the node's condition is true exactly when the question is answered yes, the inverted condition exactly when it is
    answered no; never both, and with ordinary numbers (not masked, not NaN) one of them. *)
Theorem C34_condition env d fs : node_ok env d -> field_values env d fs ->
  (exists v, eval_condition env (d_fields d, d_cmp d, d_comb d) = Ok v /\ (v = Some true <-> yes (d_cmp d) (d_comb d) fs)) /\
  (exists c v, invert_condition d = Ok c /\ eval_condition env c = Ok v /\ (v = Some true <-> no (d_cmp d) (d_comb d) fs)) /\
  ~ (yes (d_cmp d) (d_comb d) fs /\ no (d_cmp d) (d_comb d) fs) /\
  (Forall (fun f => exists x, fst f = Num x) fs -> yes (d_cmp d) (d_comb d) fs \/ no (d_cmp d) (d_comb d) fs).
Proof.
  intros HO HF. split; [exact (eval_condition_yes env _ _ _ fs (proj1 HO) (proj1 (proj2 HO)) HF)|]. split; [exact (eval_condition_no env d fs HO HF)|].
  split; [|exact (yes_or_no _ _ fs (proj1 HO))].
  intros [HY HN]. apply (yes_no (d_cmp d) (d_comb d) fs); trivial. intros ->. inversion HF as [E|]. destruct HO as [_ [[[_ L]|[_ L]] _]]; rewrite <- E in L; [discriminate|congruence].
Qed.
(** The category given to a point is the leaf its data lead to; a point whose data lead to no leaf (masked or NaN data, a cycle) stays masked. *)
Theorem C34_classify env t start : (exists d, assoc start t = Some (Node d)) ->
  (forall m d, reach t start m -> assoc m t = Some (Node d) -> node_ok env d /\ d_true d <> d_false d) ->
  exists out, classify env t start = Ok out /\ forall c, out = Some c <-> walk env t start c.
Proof.
  intros Hs HO. destruct (classify_sound env t start Hs (fun m d H E => proj1 (HO m d H E))) as [out [E HS]].
  exists out. split; [exact E|]. intro c. split; [apply HS|]. intro HW.
  assert (E2 := classify_complete env t start Hs (fun m d H E => proj1 (HO m d H E)) (fun m d H E => proj2 (HO m d H E)) c HW). rewrite E in E2.
  injection E2 as <-. reflexivity.
Qed.
(** In a tree without cycles or dangling branches every point with ordinary numbers gets a category. *)
Theorem C34_every_point_classified env t (rank : string -> nat) start : (exists d, assoc start t = Some (Node d)) ->
  (forall m d, reach t start m -> assoc m t = Some (Node d) ->
     node_ok env d /\ d_true d <> d_false d /\ (rank (d_true d) < rank m)%nat /\ (rank (d_false d) < rank m)%nat) ->
  (forall m, reach t start m -> assoc m t <> None) ->
  (forall m d f, reach t start m -> assoc m t = Some (Node d) -> In f (d_fields d) -> exists x, eval_operand env (fst f) = Ok (Num x)) ->
  exists c, classify env t start = Ok (Some c) /\ walk env t start c.
Proof.
  intros Hs HO HI HV. destruct (walk_total env t rank start) as [c Hc]; trivial.
  - intros m d H E. destruct (HO m d H E) as [A [_ B]]. split; trivial.
  - exists c. split; [|exact Hc]. apply classify_complete; trivial; intros m d H E; apply (HO m d H E).
Qed.
(** The order in which the nodes are written does not matter. *)
Theorem C34_order_irrelevant env t t' start : (forall n, assoc n t = assoc n t') -> (exists d, assoc start t = Some (Node d)) ->
  (forall m d, reach t start m -> assoc m t = Some (Node d) -> node_ok env d /\ d_true d <> d_false d) ->
  classify env t start = classify env t' start.
Proof.
  intros HA Hs HO.
  assert (HW : forall a b, (forall n, assoc n a = assoc n b) -> forall n c, walk env a n c -> walk env b n c).
  { intros a b Hab n c H. induction H as [n c x g E|n d fs c E F Y H IH|n d fs c E F Y H IH]; rewrite Hab in E;
      [eapply walk_leaf|eapply walk_true|eapply walk_false]; eauto. }
  assert (HR : forall m, reach t' start m -> reach t start m).
  { intros m H. induction H as [|m d H IH E|m d H IH E]; [constructor| |]; rewrite <- HA in E; [eapply reach_true|eapply reach_false]; eauto. }
  destruct (C34_classify env t start Hs HO) as [o [E HC]]. destruct (C34_classify env t' start) as [o' [E' HC']].
  - destruct Hs as [d Hd]. exists d. rewrite <- HA. exact Hd.
  - intros m d H Em. apply (HO m d); [apply HR; exact H|rewrite HA; exact Em].
  - rewrite E, E'. f_equal. destruct o as [c|].
    + symmetry. apply HC'. apply (HW t t' HA), HC. reflexivity.
    + destruct o' as [c'|]; [|reflexivity]. apply HC. apply (HW t' t (fun n => eq_sym (HA n))), HC'. reflexivity.
Qed.
(** Optional diagnostics: nodes without data are passed over by their if_diagnostic_missing branch. Provided no node's two branches
    end up at the same place, the category is the leaf reached; a category given is always one the data lead to. *)
Theorem C34_process env t s : NoDup (map fst t) ->
  (forall n d, assoc n t = Some (Node d) -> node_syntax d) ->
  (forall n d, assoc n t = Some (Node d) -> lacks_data env t n -> d_missing d <> None) ->
  (exists rk : string -> nat, forall n d b, lacks_data env t n -> assoc n t = Some (Node d) -> d_missing d = Some b ->
     lacks_data env t (if b then d_true d else d_false d) -> (rk (if b then d_true d else d_false d) < rk n)%nat) ->
  (forall s', resolves (lacks_data env t) t s s' -> exists d, assoc s' t = Some (Node d)) ->
  (exists out, snd (tree_process (t, s) env) = Ok out /\ (forall c, out = Some c -> walk_missing env (lacks_data env t) t s c)) /\
  ((forall n d x, assoc n t = Some (Node d) -> resolves (lacks_data env t) t (d_true d) x -> resolves (lacks_data env t) t (d_false d) x -> False) ->
   forall c, walk_missing env (lacks_data env t) t s c -> snd (tree_process (t, s) env) = Ok (Some c)).
Proof. exact (process_walk env t s). Qed.
(** A required diagnostic that is missing is an error. *)
Theorem C34_required_missing env t s n d v : NoDup (map fst t) -> assoc n t = Some (Node d) -> d_missing d = None -> In v (node_vars d) -> env v = None ->
  exists e, snd (tree_process (t, s) env) = Err e.
Proof.
  intros HN Ha Hm Hv He. unfold tree_process. cbn [fst snd].
  destruct (missing_nodes _ t) as [ms|e] eqn:E; [exfalso|exists e; reflexivity].
  unfold missing_nodes in E. set (f := fun kq : string * query => _) in E. apply assoc_In in Ha.
  assert (HX : forall l ls, mapM f l = Ok ls -> forall x, In x l -> exists y, f x = Ok y).
  { clear. induction l as [|a l IH]; intros ls H x Hx; [destruct Hx|]. cbn [mapM] in H. destruct (f a) as [y|] eqn:Ea; [|discriminate]. cbn [bind] in H.
    destruct (mapM f l) as [ys|] eqn:El; [|discriminate]. destruct Hx as [<-|Hx]; [exists y; exact Ea|exact (IH ys eq_refl x Hx)]. }
  destruct (mapM f t) as [ls|] eqn:EM; [|discriminate]. destruct (HX t ls EM _ Ha) as [y Ey]. unfold f in Ey. cbn [fst snd] in Ey. rewrite Hm in Ey.
  destruct (filter (fun v0 => negb match env v0 with Some _ => true | None => false end) (node_vars d)) as [|w ws] eqn:EF; [|discriminate Ey].
  assert (In v []); [|destruct H]. rewrite <- EF. apply filter_In. split; [exact Hv|]. rewrite He. reflexivity.
Qed.

Definition ask (v : string) (q : Q) (cmp yes_to no_to : string) (m : option bool) : query :=
  Node {| d_fields := [(OVar v, q)]; d_cmp := cmp; d_comb := ""; d_true := yes_to; d_false := no_to; d_missing := m; d_det := false |}.
Definition leaf (c : Z) : query := Leaf c None None.
Definition env_of (l : list (string * val)) : inputs := fun v => assoc v l.
(** A tree whose optional node "snow" leads, when its data are missing, to where the other branch of "rain" goes already. *)
Definition joined : tree :=
  [("rain", ask "p_rain" (1 # 2) ">=" "snow" "dry" None); ("snow", ask "p_snow" (1 # 2) ">=" "white" "dry" (Some false));
   ("dry", leaf 1); ("white", leaf 27)].
Definition only_rain : inputs := env_of [("p_rain", Num (9 # 10))].
Theorem C34_joined_branches_refuted :
  walk_missing only_rain (lacks_data only_rain joined) joined "rain" 1 /\ snd (tree_process (joined, "rain") only_rain) = Ok None.
Proof.
  split; [|vm_compute; reflexivity].
  eapply wm_true with (fs := [(Num (9 # 10), 1 # 2)]); [|reflexivity| | |].
  - intros [d [v [E [Hv Hn]]]]. vm_compute in E. injection E as <-. destruct Hv as [<-|[]]. vm_compute in Hn. discriminate.
  - constructor; [split; reflexivity|constructor].
  - split; [constructor; [discriminate|constructor]|]. simpl. constructor; [|constructor]. exists (9 # 10). split; [reflexivity|]. left. split; [reflexivity|]. vm_compute. discriminate.
  - cbn [d_true]. eapply wm_skip; [|reflexivity|reflexivity|cbn [d_false]; eapply wm_leaf; reflexivity].
    eexists. exists "p_snow". split; [reflexivity|]. split; [left; reflexivity|reflexivity].
Qed.
(** An optional start node whose default is a leaf makes process fail instead of giving that leaf everywhere. *)
Definition start_leaf : tree := [("snow", ask "p_snow" (1 # 2) ">=" "white" "dry" (Some false)); ("dry", leaf 1); ("white", leaf 27)].
Theorem C34_start_leaf_refuted :
  walk_missing (env_of []) (lacks_data (env_of []) start_leaf) start_leaf "snow" 1 /\ snd (tree_process (start_leaf, "snow") (env_of [])) = Err IndexError.
Proof.
  split; [|vm_compute; reflexivity]. eapply wm_skip; [|reflexivity|reflexivity|cbn [d_false]; eapply wm_leaf; reflexivity].
  eexists. exists "p_snow". split; [reflexivity|]. split; [left; reflexivity|reflexivity].
Qed.
(** Arithmetic between diagnostics follows the usual precedence when no + follows a -; otherwise it need not. *)
Theorem C34_expression x l : no_add_after_sub false l -> exists y, eval_flat (Num x) (lift l) = Num y /\ y == conventional 0 false x l.
Proof. exact (eval_flat_conventional x l). Qed.
Theorem C34_expression_refuted : eval_flat (Num 3) (lift [(Sub, 1); (Add, 1)]) = Num 1 /\ conventional 0 false 3 [(Sub, 1); (Add, 1)] == 3.
Proof. split; vm_compute; reflexivity. Qed.
(** Night points get the night version of their category, day points and categories without a night version keep theirs. *)
Theorem C34_daynight t : NoDup (map fst t) ->
  (forall n n' c x g x' g', assoc n t = Some (Leaf c x g) -> assoc n' t = Some (Leaf c x' g') -> n = n') ->
  (forall n c tgt g, assoc n t = Some (Leaf c (Some tgt) g) -> exists c' g', assoc tgt t = Some (Leaf c' None g')) ->
  exists m, day_night_map t = Ok m /\
    (forall c, update_daynight m true c = c) /\ (forall b, update_daynight m b None = None) /\
    (forall n c tgt g c' g', assoc n t = Some (Leaf c (Some tgt) g) -> assoc tgt t = Some (Leaf c' None g') -> update_daynight m false (Some c) = Some c') /\
    (forall n c g, assoc n t = Some (Leaf c None g) -> update_daynight m false (Some c) = Some c).
Proof. exact (day_night_spec t). Qed.
(** Thresholds are prepared one by one: those given with a period are scaled to the plugin's target period, which must then be known and not zero; the others keep their value. *)
Theorem C34_thresholds tp l l' : update_tree_thresholds tp l = Ok l' <->
  Forall2 (fun d d' => match d with RawThr v => d' = CoordThr v | RawThrPeriod v p => exists q, tp = Some q /\ ~ q == 0 /\ d' = CoordThr (v * q / p) | CoordThr _ => False end) l l'.
Proof.
  unfold update_tree_thresholds. revert l'. induction l as [|d l IH]; intro l'; cbn [mapM bind].
  - split; [intro H; injection H as <-; constructor|]. intro H. inversion H. reflexivity.
  - assert (M : forall d', make_threshold tp d = Ok d' <-> match d with RawThr v => d' = CoordThr v | RawThrPeriod v p => exists q, tp = Some q /\ ~ q == 0 /\ d' = CoordThr (v * q / p) | CoordThr _ => False end).
    { intro d'. destruct d as [v|v p|v]; cbn [make_threshold].
      - split; [congruence|intros ->; reflexivity].
      - destruct tp as [q|]; [|split; [discriminate|intros (q & H & _); discriminate]]. destruct (Qeq_bool q 0) eqn:Z.
        + split; [discriminate|]. intros (q' & E & N & _). injection E as <-. apply Qeq_bool_iff in Z. contradiction.
        + split; [intro H; exists q; split; [reflexivity|split; [apply Qeq_bool_neq; exact Z|congruence]]|]. intros (q' & E & N & ->). injection E as <-. reflexivity.
      - split; [discriminate|intros []]. }
    destruct (make_threshold tp d) as [d'|e] eqn:E; cbn [bind].
    + destruct (mapM (make_threshold tp) l) as [r|e] eqn:R; cbn [bind].
      * split; [intro H; injection H as <-; constructor; [apply M; reflexivity|apply IH; reflexivity]|]. intro H. inversion H as [|? d2 ? l2 H1 H2]; subst. apply M in H1. apply IH in H2. congruence.
      * split; [discriminate|]. intro H. inversion H as [|? d2 ? l2 H1 H2]; subst. apply IH in H2. discriminate.
    + split; [discriminate|]. intro H. inversion H as [|? d2 ? l2 H1 H2]; subst. apply M in H1. congruence.
Qed.
Example C34_thresholds_case : exists l', update_tree_thresholds (Some 10800) [RawThr (1 # 2); RawThrPeriod 1 3600] = Ok l' /\ l' = [CoordThr (1 # 2); CoordThr (1 * 10800 / 3600)].
Proof. eexists. split; reflexivity. Qed.
(** Building a second plugin from the same dictionary fails: the first construction rewrote its thresholds. *)
Theorem C34_tree_reuse_refuted tp d l l' : update_tree_thresholds tp (d :: l) = Ok l' -> exists e, update_tree_thresholds tp l' = Err e.
Proof.
  unfold update_tree_thresholds. cbn [mapM]. destruct (make_threshold tp d) as [d'|e] eqn:E; [|discriminate]. cbn [bind].
  destruct (mapM (make_threshold tp) l); [|discriminate]. cbn [bind]. intro H. injection H as <-. cbn [mapM].
  assert (exists v, d' = CoordThr v) as [v ->].
  { destruct d as [v|v p|v]; cbn [make_threshold] in E; [|destruct tp as [q|]; [destruct (q =? 0)|]|]; try discriminate; injection E as <-; eexists; reflexivity. }
  eexists. reflexivity.
Qed.

Definition weather : tree :=
  [("rain", ask "p_rain" (1 # 2) ">=" "snow" "cloud" None); ("snow", ask "p_snow" (1 # 2) ">=" "white" "wet" (Some false));
   ("cloud", Node {| d_fields := [(OVar "low", 1 # 2); (OSub (OVar "high") [(Sub, OVar "low")], 1 # 4)]; d_cmp := "<"; d_comb := "AND";
                     d_true := "sun"; d_false := "grey"; d_missing := None; d_det := false |});
   ("wet", leaf 12); ("white", leaf 27); ("sun", Leaf 1 (Some "clear_night") None); ("clear_night", leaf 0); ("grey", leaf 7)].
Definition noon : inputs := env_of [("p_rain", Num (1 # 10)); ("p_snow", Num 0); ("low", Num (3 # 10)); ("high", Num (4 # 10))].
Example C34_case : classify noon weather "rain" = Ok (Some 1%Z) /\
  snd (tree_process (weather, "rain") (env_of [("p_rain", Num (6 # 10)); ("low", Num 0); ("high", Num 0)])) = Ok (Some 12%Z) /\
  (exists d, assoc "rain" weather = Some (Node d)) /\
  (forall m d, assoc m weather = Some (Node d) -> node_ok noon d /\ d_true d <> d_false d) /\
  update_daynight [(1, 0)]%Z false (Some 1%Z) = Some 0%Z /\ day_night_map weather = Ok [(1, 0)%Z].
Proof.
  split; [vm_compute; reflexivity|]. split; [vm_compute; reflexivity|]. split; [eexists; reflexivity|]. split; [|split; reflexivity].
  assert (HD : forall d, In d [(ask "p_rain" (1 # 2) ">=" "snow" "cloud" None); (ask "p_snow" (1 # 2) ">=" "white" "wet" (Some false));
    Node {| d_fields := [(OVar "low", 1 # 2); (OSub (OVar "high") [(Sub, OVar "low")], 1 # 4)]; d_cmp := "<"; d_comb := "AND";
                     d_true := "sun"; d_false := "grey"; d_missing := None; d_det := false |}] -> forall d', d = Node d' -> node_ok noon d' /\ d_true d' <> d_false d').
  { intros d [<-|[<-|[<-|[]]]] d' E; injection E as <-; (split; [|cbn [d_true d_false]; discriminate]);
    (split; [simpl; tauto|]); (split; [first [left; split; reflexivity|right; split; [simpl; tauto|discriminate]]|]);
    intros f Hf; simpl in Hf; repeat (destruct Hf as [<-|Hf]; [eexists; vm_compute; reflexivity|]); destruct Hf. }
  intros m d H. apply assoc_In in H. simpl in H. apply (HD (Node d)); [|reflexivity]. intuition (try discriminate); simpl;
    match goal with H : _ = _ |- _ => injection H as _ <- end; tauto.
Qed.

(** * C29, ApplyDecisionTree *)
(** While every diagnostic has always been supplied an instance answers as a fresh one; a call with an optional diagnostic missing
    reroutes the tree for good. *)
Theorem C29_decision_tree t s h i : NoDup (map fst t) ->
  Forall (fun env : inputs => forall n d v, assoc n t = Some (Node d) -> In v (node_vars d) -> env v <> None) h ->
  answer tree_process (after tree_process (t, s) h) i = answer tree_process (t, s) i.
Proof.
  intros HN HF. assert (E : after tree_process (t, s) h = (t, s)); [|rewrite E; reflexivity].
  unfold after. induction HF as [|env h He HF IH]; [reflexivity|]. cbn [fold_left]. replace (step tree_process (t, s) env) with (t, s); [exact IH|].
  unfold step, tree_process. cbn [fst snd].
  destruct (missing_nodes_spec env t HN) as [ms [Ems Hms]].
  { intros n d E [d' [v [E1 [Hv Hn]]]]. exfalso. exact (He n d' v E1 Hv Hn). }
  unfold avail in Ems. rewrite Ems. destruct ms as [|m ms]; [reflexivity|]. exfalso.
  destruct (proj1 (Hms m) (or_introl eq_refl)) as [d [v [E1 [Hv Hn]]]]. exact (He m d v E1 Hv Hn).
Qed.
Definition snowy : inputs := env_of [("p_rain", Num (6 # 10)); ("p_snow", Num (9 # 10)); ("low", Num 0); ("high", Num 0)].
Theorem C29_decision_tree_refuted : answer tree_process (weather, "rain") snowy = Ok (Some 27%Z) /\
  answer tree_process (after tree_process (weather, "rain") [env_of [("p_rain", Num (6 # 10)); ("low", Num 0); ("high", Num 0)]]) snowy = Ok (Some 12%Z).
Proof. split; vm_compute; reflexivity. Qed.

(** * C35 *)
(** The modal category is the most frequent code (night codes counted as their day codes), the largest of equally frequent ones, if it
    makes up at least 30 percent of the period; otherwise the most frequent one once the codes of each group are merged into the
    lowest of them that occurs. *)
Theorem C35_modal t p data u : proper_leaves t -> modal_init t = Ok p -> data <> [] -> Forall (leaf_code_of t) data -> Forall2 (counted_as t) data u ->
  exists r, is_mode u r /\
    (3 * Z.of_nat (length u) <= 10 * Z.of_nat (occurrences r u) -> modal_process p data = r)%Z /\
    (10 * Z.of_nat (occurrences r u) < 3 * Z.of_nat (length u) -> exists u', Forall2 (regrouped t u) u u' /\ is_mode u' (modal_process p data))%Z.
Proof. exact (modal_spec t p data u). Qed.
(** The order of the times does not matter. *)
Theorem C35_order_independent p data data' : Permutation data data' -> modal_process p data = modal_process p data'.
Proof. exact (modal_perm p data data'). Qed.
(** The result is one of the codes counted: never the internal marker of an undecided point, never a night code. *)
Theorem C35_member t p data u : proper_leaves t -> modal_init t = Ok p -> data <> [] -> Forall (leaf_code_of t) data -> Forall2 (counted_as t) data u ->
  In (modal_process p data) u /\ forall k, ~ night_of t k (modal_process p data).
Proof.
  intros PL HI Hne HL HC. destruct (modal_spec t p data u PL HI Hne HL HC) as [r [Hr [H1 H2]]].
  assert (HIN : In (modal_process p data) u).
  { destruct (Z.ltb_spec (10 * Z.of_nat (occurrences r u)) (3 * Z.of_nat (length u))) as [Hlt|Hge].
    - destruct (H2 Hlt) as [u' [HF [Hm _]]]. destruct (Forall2_in_r _ _ _ HF _ Hm) as [c [Hc [[_ E]|[g [_ [_ [Hin _]]]]]]]; [rewrite E; exact Hc|exact Hin].
    - rewrite (H1 Hge). apply Hr. }
  split; [exact HIN|]. intros k Hk. destruct (Forall2_in_r _ _ _ HC _ HIN) as [c [_ [Hn|[Hn E]]]].
  - exact (night_day_disjoint t _ _ _ PL Hn Hk).
  - rewrite E in Hk. exact (Hn k Hk).
Qed.
(** Unanimous periods. *)
Theorem C35_unanimous t p c n : proper_leaves t -> modal_init t = Ok p -> leaf_code_of t c -> (forall k, ~ night_of t k c) -> modal_process p (repeat c (S n)) = c.
Proof.
  intros PL HI HL HNo. destruct (C35_member t p (repeat c (S n)) (repeat c (S n)) PL HI) as [H _].
  - discriminate.
  - apply Forall_forall. intros x Hx. apply repeat_spec in Hx. subst. exact HL.
  - induction (S n) as [|k IH]; cbn [repeat]; constructor; [right; split; [exact HNo|reflexivity]|exact IH].
  - apply repeat_spec in H. exact H.
Qed.
Definition codes : tree :=
  [("sun", Leaf 1 (Some "clear_night") None); ("clear_night", leaf 0); ("light", Leaf 9 (Some "light_night") (Some "rain")); ("light_night", Leaf 10 None (Some "rain"));
   ("rain", Leaf 12 None (Some "rain")); ("heavy", Leaf 15 None (Some "rain")); ("grey", leaf 7); ("mist", leaf 5)].
Lemma codes_proper : proper_leaves codes.
Proof.
  constructor.
  - repeat (constructor; [simpl; intuition congruence|]). constructor.
  - intros n n' c x g x' g' H H'. apply assoc_In in H, H'. simpl in H, H'. unfold leaf in *. intuition congruence.
  - intros n c tgt g H. apply assoc_In in H. simpl in H. unfold leaf in *. intuition; try congruence; injection H0 as <- <- <- <-; eexists _, _; reflexivity.
  - intros n n' c c' tgt g g' H H'. apply assoc_In in H, H'. simpl in H, H'. unfold leaf in *. intuition congruence.
Qed.
Example C35_case : exists p, modal_init codes = Ok p /\ modal_process p [1; 0; 7; 12]%Z = 1%Z /\ modal_process p [7; 12; 5; 15; 1; 9; 10; 0]%Z = 9%Z /\
  modal_process p [7; 12; 7; 12]%Z = 12%Z.
Proof. eexists. split; [vm_compute; reflexivity|]. repeat split; vm_compute; reflexivity. Qed.

Print Assumptions C34_inversion.
Print Assumptions C34_condition.
Print Assumptions C34_classify.
Print Assumptions C34_every_point_classified.
Print Assumptions C34_order_irrelevant.
Print Assumptions C34_process.
Print Assumptions C34_required_missing.
Print Assumptions C34_joined_branches_refuted.
Print Assumptions C34_start_leaf_refuted.
Print Assumptions C34_expression.
Print Assumptions C34_expression_refuted.
Print Assumptions C34_daynight.
Print Assumptions C34_thresholds.
Print Assumptions C34_tree_reuse_refuted.
Print Assumptions C29_decision_tree.
Print Assumptions C29_decision_tree_refuted.
Print Assumptions C35_modal.
Print Assumptions C35_order_independent.
Print Assumptions C35_member.
Print Assumptions C35_unanimous.
