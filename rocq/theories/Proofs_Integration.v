(** Proofs for C48, C49. *)
From Verif Require Import Base Model_Integration Spec_Integration.
Local Open Scope Q_scope.

(** * Order of the levels *)
Definition klt (a b : level) : Prop := fst a < fst b.
Definition kle (a b : level) : Prop := fst a <= fst b.
Definition ssorted : list level -> Prop := StronglySorted klt.
Lemma ssorted_map l : qssorted (map fst l) <-> ssorted l.
Proof.
  unfold qssorted, ssorted. induction l as [|x l IH]; [split; constructor|]. cbn [map]. split; intro H; inversion H as [|? ? S F]; subst; constructor.
  - apply IH; exact S.
  - apply (proj1 (Forall_map fst (Qlt (fst x)) l)) in F. exact F.
  - apply IH; exact S.
  - apply Forall_map. exact F.
Qed.
Lemma sorted_unique l m : StronglySorted kle l -> ssorted m -> Permutation l m -> l = m.
Proof.
  intros Sl Sm. revert l Sl. induction Sm as [|x m S IH F]; intros l Sl P; [apply Permutation_sym, Permutation_nil in P; exact P|].
  destruct l as [|y l]; [apply Permutation_nil in P; discriminate|].
  assert (y = x) as ->.
  { inversion Sl as [|? ? Sl' Fl]; subst. rewrite Forall_forall in F, Fl.
    assert (Iy : In y (x :: m)) by (eapply Permutation_in; [exact P|left; reflexivity]).
    assert (Ix : In x (y :: l)) by (eapply Permutation_in; [apply Permutation_sym; exact P|left; reflexivity]).
    destruct Iy as [->|Iy]; [reflexivity|]. destruct Ix as [->|Ix]; [reflexivity|]. specialize (F y Iy). specialize (Fl x Ix). unfold klt, kle in *. lra. }
  f_equal. inversion Sl; subst. apply IH; [assumption|]. exact (Permutation_cons_inv P).
Qed.
Lemma ascending_sorted l : StronglySorted kle (ascending l).
Proof.
  apply isort_sorted; unfold kle.
  - intros x y H. apply Qleb_le; exact H.
  - intros x y H. apply Qleb_gt in H. lra.
  - intros x y z. apply Qle_trans.
Qed.
Lemma ascending_of up l : ssorted up -> Permutation l up -> ascending l = up.
Proof.
  intros S P. apply sorted_unique; [apply ascending_sorted|exact S|]. rewrite <- P. apply Permutation_sym, isort_perm.
Qed.
Lemma sorted_rev up : ssorted up -> StronglySorted (fun a b : level => fst b < fst a) (rev up).
Proof.
  induction 1 as [|x l S IH F]; [constructor|]. cbn [rev]. rewrite Forall_forall in F.
  assert (G : forall y, In y (rev l) -> fst x < fst y) by (intros y Hy; apply in_rev in Hy; exact (F y Hy)).
  revert IH G. generalize (rev l). clear. induction 1 as [|y m S IH F]; intro G; cbn [app]; [repeat constructor|].
  constructor; [apply IH; intros; apply G; right; assumption|]. apply Forall_app. split; [exact F|]. constructor; [apply G; left; reflexivity|constructor].
Qed.
Definition travel (positive : bool) (up : list level) : list level := if positive then up else rev up.
Lemma in_direction_spec positive up l : ssorted up -> l = up \/ l = rev up -> in_direction positive l = travel positive up.
Proof.
  intros S H. assert (P : Permutation l up) by (destruct H as [->| ->]; [reflexivity|apply Permutation_sym, Permutation_rev]).
  unfold in_direction, travel. rewrite (ascending_of up l S P).
  destruct (increasing_b (map fst l)) eqn:I.
  - apply increasing_b_iff, ssorted_map in I.
    assert (l = up) as -> by (apply sorted_unique; [|exact S|exact P]; clear - I; induction I as [|x l S IH F]; constructor; [exact IH|]; eapply Forall_impl; [|exact F]; unfold klt, kle; intros; lra).
    destruct positive; reflexivity.
  - destruct positive; cbn [andb negb]; [reflexivity|]. destruct H as [->|H]; [|exact H].
    exfalso. assert (increasing_b (map fst up) = true) by (apply increasing_b_iff, ssorted_map; exact S). congruence.
Qed.

(** * Layers *)
Lemma combine_layers (x : level) r : combine r (removelast (x :: r)) = map (fun p => (snd p, fst p)) (layers (x :: r)).
Proof. revert x. induction r as [|y r IH]; intro x; [reflexivity|]. cbn [removelast layers map combine fst snd]. f_equal. exact (IH y). Qed.
Lemma combine_layers' (x : level) r : combine (removelast (x :: r)) r = layers (x :: r).
Proof. revert x. induction r as [|y r IH]; intro x; [reflexivity|]. cbn [removelast layers combine]. f_equal. exact (IH y). Qed.

Definition swap_if (positive : bool) (p : level * level) : level * level := if positive then (snd p, fst p) else p.
Lemma prepare_spec positive dir : (2 <= length dir)%nat -> prepare positive dir = Ok (map (swap_if positive) (layers dir)).
Proof.
  destruct dir as [|x [|y r]]; simpl length; try lia. intros _. unfold prepare. destruct positive.
  - rewrite (combine_layers x (y :: r)). reflexivity.
  - rewrite (combine_layers' x (y :: r)). f_equal. unfold swap_if. symmetry. apply map_id.
Qed.
Lemma layers_filter {A} (R : A -> A -> Prop) (lo hi : A -> bool) l : StronglySorted R l ->
  (forall a b, R a b -> lo a = true -> lo b = true) -> (forall a b, R a b -> hi b = true -> hi a = true) ->
  filter (fun p => (lo (fst p) && hi (snd p))%bool) (layers l) = layers (filter (fun a => (lo a && hi a)%bool) l).
Proof.
  intros S L H. induction S as [|x l S IH F]; [reflexivity|]. destruct l as [|y r]; [cbn; destruct (lo x && hi x)%bool; reflexivity|].
  change (layers (x :: y :: r)) with ((x, y) :: layers (y :: r)). cbn [filter fst snd]. rewrite IH. clear IH.
  assert (Rxy : R x y) by (inversion F; assumption).
  destruct (lo x) eqn:Lx; cbn [andb].
  - rewrite (L x y Rxy Lx). cbn [andb]. destruct (hi y) eqn:Hy.
    + rewrite (H x y Rxy Hy). cbn [filter]. rewrite (L x y Rxy Lx), Hy. reflexivity.
    + assert (E : filter (fun a => (lo a && hi a)%bool) r = []).
      { inversion S as [|? ? _ Fy]; subst. rewrite Forall_forall in Fy. clear - Fy Hy H. induction r as [|z r IH]; [reflexivity|]. cbn [filter].
        assert (hi z = false) as -> by (destruct (hi z) eqn:Z; [|reflexivity]; rewrite (H y z (Fy z (or_introl eq_refl)) Z) in Hy; discriminate).
        rewrite andb_false_r. apply IH. intros; apply Fy; right; assumption. }
      cbn [filter]. rewrite (L x y Rxy Lx), Hy. cbn [andb]. rewrite E. destruct (hi x); reflexivity.
  - reflexivity.
Qed.

(** * The loop *)
(** What the loop adds for the layers used. *)
Fixpoint outputs (acc : Q) (ls : list (level * level)) : list (Q * (Q * Q) * Q) :=
  match ls with
  | [] => []
  | (a, b) :: r => let acc := acc + layer_area a b in (fst b, (Qmin (fst a) (fst b), Qmax (fst a) (fst b)), acc) :: outputs acc r
  end.
Definition oeq3 (p q : Q * (Q * Q) * Q) : Prop :=
  fst (fst p) == fst (fst q) /\ fst (snd (fst p)) == fst (snd (fst q)) /\ snd (snd (fst p)) == snd (snd (fst q)) /\ snd p == snd q.
Lemma half_layer_pos s v : half_layer s v == s * (positive_part v / 2).
Proof.
  destruct v as [x|]; cbn [half_layer positive_part]; [|unfold Qdiv; ring]. destruct (Qltb_spec 0 x) as [H|H].
  - rewrite Q.max_l by lra. field.
  - rewrite Q.max_r by lra. field.
Qed.
Definition nonzero (p : option Q) : Prop := match p with Some x => ~ x == 0 | None => True end.
Lemma truthy_nonzero p : nonzero p -> truthy p = p.
Proof. destruct p as [x|]; [|reflexivity]. cbn. destruct (Qeqb_spec x 0); [contradiction|reflexivity]. Qed.
Definition lo (positive : bool) (start : option Q) (a : level) : bool := match start with Some s => if positive then s <=? fst a else fst a <=? s | None => true end.
Definition hi (positive : bool) (stop : option Q) (a : level) : bool := match stop with Some e => if positive then fst a <=? e else e <=? fst a | None => true end.
Lemma skip_used positive start stop a b : nonzero start -> nonzero stop ->
  skip_slice positive start stop (fst (fst (swap_if positive (a, b)))) (fst (snd (swap_if positive (a, b)))) = negb (lo positive start a && hi positive stop b).
Proof.
  intros N1 N2. unfold skip_slice. rewrite (truthy_nonzero _ N1), (truthy_nonzero _ N2). unfold lo, hi, swap_if.
  destruct positive, start, stop; cbn [fst snd]; unfold Qltb; rewrite ?negb_andb, ?orb_false_r, ?andb_true_r; cbn; reflexivity.
Qed.
Definition dlt (positive : bool) (a b : level) : Prop := if positive then fst a < fst b else fst b < fst a.
Lemma loop_spec positive start stop ls : nonzero start -> nonzero stop -> Forall (fun p => dlt positive (fst p) (snd p)) ls -> forall acc acc', acc == acc' ->
  Forall2 oeq3 (integrate_loop positive start stop acc (map (swap_if positive) ls)) (outputs acc' (filter (fun p => (lo positive start (fst p) && hi positive stop (snd p))%bool) ls)).
Proof.
  intros N1 N2. induction 1 as [|[a b] ls D F IH]; intros acc acc' E; [constructor|]. cbn [map filter fst snd].
  cbn [integrate_loop]. destruct (swap_if positive (a, b)) as [u w] eqn:Sw.
  pose proof (skip_used positive start stop a b N1 N2) as SK. rewrite Sw in SK. cbn [fst snd] in SK. rewrite SK.
  destruct (lo positive start a && hi positive stop b)%bool; cbn [negb]; [|apply IH; exact E].
  cbn [outputs]. cbn [fst snd] in D. unfold swap_if in Sw. unfold dlt in D.
  assert (X : acc + (half_layer (Qabs (fst u - fst w)) (snd u) + half_layer (Qabs (fst u - fst w)) (snd w)) == acc' + layer_area a b).
  { rewrite !half_layer_pos. unfold layer_area. destruct positive; injection Sw as <- <-; rewrite E.
    - field.
    - rewrite (Qabs_Qminus (fst b) (fst a)). field. }
  constructor; [|apply IH; exact X].
  unfold oeq3. cbn [fst snd]. destruct positive; injection Sw as <- <-; repeat split; try exact X; qmm; lra.
Qed.

Lemma outputs_length ls acc : length (outputs acc ls) = length ls.
Proof. revert acc. induction ls as [|[a b] ls IH]; intro acc; [reflexivity|]. cbn [outputs length]. rewrite IH. reflexivity. Qed.
Definition none3 : Q * (Q * Q) * Q := (0, (0, 0), 0).
Lemma outputs_nth ls acc i d : (i < length ls)%nat ->
  let p := nth i ls d in
  fst (nth i (outputs acc ls) none3) = (fst (snd p), (Qmin (fst (fst p)) (fst (snd p)), Qmax (fst (fst p)) (fst (snd p)))) /\
  snd (nth i (outputs acc ls) none3) == acc + area (firstn (S i) ls).
Proof.
  revert acc i. induction ls as [|[a b] ls IH]; intros acc i Hi; [simpl in Hi; lia|]. destruct i as [|i].
  - cbn. split; [reflexivity|]. unfold area. cbn. ring.
  - simpl in Hi. destruct (IH (acc + layer_area a b) i ltac:(lia)) as [A B]. cbn [outputs nth]. split; [exact A|]. rewrite B.
    change (firstn (S (S i)) ((a, b) :: ls)) with ((a, b) :: firstn (S i) ls). unfold area. cbn [map qsum fst snd]. ring.
Qed.
Lemma layers_length {A} (l : list A) : length (layers l) = (length l - 1)%nat.
Proof. induction l as [|x [|y r] IH]; [reflexivity..|]. change (layers (x :: y :: r)) with ((x, y) :: layers (y :: r)). simpl length in *. lia. Qed.
Lemma layers_nth {A} (l : list A) i d : (S i < length l)%nat -> nth i (layers l) (d, d) = (nth i l d, nth (S i) l d).
Proof.
  revert i. induction l as [|x [|y r] IH]; intros i Hi; [simpl in Hi; lia..|]. change (layers (x :: y :: r)) with ((x, y) :: layers (y :: r)).
  destruct i as [|i]; [reflexivity|]. cbn [nth]. apply IH. simpl in *; lia.
Qed.
Lemma layers_firstn {A} (l : list A) i : firstn i (layers l) = layers (firstn (S i) l).
Proof.
  revert i. induction l as [|x [|y r] IH]; intro i; [destruct i; reflexivity..|]. change (layers (x :: y :: r)) with ((x, y) :: layers (y :: r)).
  destruct i as [|i]; [reflexivity|]. cbn [firstn]. rewrite IH. reflexivity.
Qed.
Lemma travel_sorted positive up : ssorted up -> StronglySorted (dlt positive) (travel positive up).
Proof. intro S. destruct positive; cbn [travel]; [exact S|apply sorted_rev; exact S]. Qed.
Lemma layers_adjacent {A} (R : A -> A -> Prop) l : StronglySorted R l -> Forall (fun p => R (fst p) (snd p)) (layers l).
Proof.
  induction 1 as [|x l S IH F]; [constructor|]. destruct l as [|y r]; [constructor|]. change (layers (x :: y :: r)) with ((x, y) :: layers (y :: r)).
  constructor; [inversion F; assumption|exact IH].
Qed.
Lemma travel_length positive up : length (travel positive up) = length up.
Proof. destruct positive; [reflexivity|apply rev_length]. Qed.

Definition kept (positive : bool) (start stop : option Q) (up : list level) : list level :=
  filter (fun a => in_limits positive start stop (fst a)) (travel positive up).
Lemma process_spec positive start stop up l : ssorted up -> (2 <= length up)%nat -> l = up \/ l = rev up -> nonzero start -> nonzero stop ->
  exists out, Forall2 oeq3 out (outputs 0 (layers (kept positive start stop up))) /\
  integration_process positive start stop l = match out with [] => Err ValueError | _ => Ok out end.
Proof.
  intros S L H N1 N2. unfold integration_process. rewrite (in_direction_spec positive up l S H), prepare_spec by (rewrite travel_length; exact L). cbn [bind].
  exists (integrate_loop positive start stop 0 (map (swap_if positive) (layers (travel positive up)))). split; [|destruct (integrate_loop _ _ _ _ _); reflexivity].
  pose proof (loop_spec positive start stop (layers (travel positive up)) N1 N2 (layers_adjacent _ _ (travel_sorted positive up S)) 0 0 (Qeq_refl 0)) as X.
  rewrite (layers_filter (dlt positive) (lo positive start) (hi positive stop)) in X; [exact X|apply travel_sorted; exact S| |].
  - intros a b D Ha. unfold lo, dlt in *. destruct start; [|reflexivity]. destruct positive; apply Qleb_le; apply Qleb_le in Ha; lra.
  - intros a b D Ha. unfold hi, dlt in *. destruct stop; [|reflexivity]. destruct positive; apply Qleb_le; apply Qleb_le in Ha; lra.
Qed.

Lemma area_app l m : area (l ++ m) == area l + area m.
Proof. unfold area. rewrite map_app. apply qsum_app. Qed.
Lemma layer_area_nonneg a b : 0 <= layer_area a b.
Proof.
  unfold layer_area. pose proof (Qabs_nonneg (fst b - fst a)). assert (P : forall v, 0 <= positive_part v) by (intros [x|]; cbn; [qmm; lra|lra]).
  pose proof (P (snd a)). pose proof (P (snd b)). apply Qmult_le_0_compat; [assumption|]. assert (E : (positive_part (snd a) + positive_part (snd b)) / 2 == (positive_part (snd a) + positive_part (snd b)) * (1 # 2)) by field.
  rewrite E. lra.
Qed.
Lemma area_nonneg l : 0 <= area l.
Proof. unfold area. apply qsum_nonneg, Forall_map, Forall_forall. intros p _. apply layer_area_nonneg. Qed.
Lemma layer_area_sym a b : layer_area a b == layer_area b a.
Proof. unfold layer_area. rewrite (Qabs_Qminus (fst b) (fst a)). field. Qed.
Lemma layers_snoc {A} (l : list A) (x y : A) : layers (l ++ [x; y]) = layers (l ++ [x]) ++ [(x, y)].
Proof.
  induction l as [|z l IH]; [reflexivity|]. destruct l as [|w l]; [reflexivity|].
  change ((z :: w :: l) ++ [x; y]) with (z :: (w :: l) ++ [x; y]). change ((z :: w :: l) ++ [x]) with (z :: (w :: l) ++ [x]).
  change (layers (z :: (w :: l) ++ [x; y])) with ((z, w) :: layers ((w :: l) ++ [x; y])). rewrite IH. reflexivity.
Qed.
Lemma area_rev l : area (layers (rev l)) == area (layers l).
Proof.
  induction l as [|x [|y r] IH]; [reflexivity..|]. change (layers (x :: y :: r)) with ((x, y) :: layers (y :: r)).
  cbn [rev]. rewrite <- app_assoc. change ([y] ++ [x]) with [y; x]. rewrite layers_snoc, area_app.
  change (rev r ++ [y]) with (rev (y :: r)). rewrite IH. unfold area. cbn [map qsum fst snd]. rewrite (layer_area_sym y x). ring.
Qed.

(** * Linear fit *)
Lemma mean_sum l : l <> [] -> qsum l == mean l * Qlen l.
Proof. intro N. unfold mean. field. pose proof (Qlen_pos l N). lra. Qed.
Lemma Qlen_map {A B} (f : A -> B) l : Qlen (map f l) = Qlen l.
Proof. unfold Qlen. rewrite map_length. reflexivity. Qed.
Lemma squares_expand l a b mx my : qsum (map fst l) == mx * Qlen l -> qsum (map snd l) == my * Qlen l ->
  squares a b l == qsum (map (fun p => (snd p - my) * (snd p - my)) l) - 2 * a * qsum (map (fun p => (fst p - mx) * (snd p - my)) l) +
                   a * a * qsum (map (fun p => (fst p - mx) * (fst p - mx)) l) + Qlen l * ((my - a * mx - b) * (my - a * mx - b)).
Proof.
  intros Hx Hy. unfold squares.
  assert (G : forall l, qsum (map (fun p : Q * Q => (snd p - (a * fst p + b)) * (snd p - (a * fst p + b))) l) ==
     qsum (map (fun p => (snd p - my) * (snd p - my)) l) - 2 * a * qsum (map (fun p => (fst p - mx) * (snd p - my)) l) +
     a * a * qsum (map (fun p => (fst p - mx) * (fst p - mx)) l) +
     2 * (my - a * mx - b) * (qsum (map snd l) - my * Qlen l - a * (qsum (map fst l) - mx * Qlen l)) + Qlen l * ((my - a * mx - b) * (my - a * mx - b))).
  { clear. induction l as [|[x y] l IH]; [unfold Qlen; cbn; ring|]. cbn [map qsum fst snd]. rewrite IH, Qlen_cons. ring. }
  rewrite (G l), Hx, Hy. ring.
Qed.
Lemma sq_nonneg x : 0 <= x * x.
Proof. destruct (Qlt_le_dec x 0); nra. Qed.
Lemma sq_zero x : x * x == 0 -> x == 0.
Proof. intro H. apply Qmult_integral in H. tauto. Qed.
Lemma var_pos l m : ~ qsum (map (fun p : Q * Q => (fst p - m) * (fst p - m)) l) == 0 -> 0 < qsum (map (fun p : Q * Q => (fst p - m) * (fst p - m)) l).
Proof.
  intro N. assert (H : 0 <= qsum (map (fun p : Q * Q => (fst p - m) * (fst p - m)) l)); [|lra].
  apply qsum_nonneg, Forall_map, Forall_forall. intros p _. apply sq_nonneg.
Qed.
Lemma var_zero l : l <> [] -> (qsum (map (fun p : Q * Q => (fst p - mean (map fst l)) * (fst p - mean (map fst l))) l) == 0 <-> forall p q, In p l -> In q l -> fst p == fst q).
Proof.
  intro N. set (m := mean (map fst l)). split.
  - intro H. apply qsum_zero_nonneg in H; [|apply Forall_map, Forall_forall; intros p _; apply sq_nonneg]. apply Forall_map in H. rewrite Forall_forall in H.
    assert (G : forall p, In p l -> fst p == m) by (intros p Hp; specialize (H p Hp); apply sq_zero in H; lra).
    intros p q Hp Hq. rewrite (G p Hp), (G q Hq). reflexivity.
  - intro H. assert (X : exists p0, In p0 l) by (destruct l as [|p0 l0]; [easy|exists p0; left; reflexivity]). destruct X as (p0 & I0).
    assert (M : m == fst p0).
    { subst m. unfold mean. assert (S : qsum (map fst l) == fst p0 * Qlen l).
      { assert (G : forall k : list (Q * Q), (forall p, In p k -> fst p == fst p0) -> qsum (map fst k) == fst p0 * Qlen k).
        { clear. induction k as [|p k IH]; intro H; [unfold Qlen; cbn; ring|]. cbn [map qsum]. rewrite (H p), IH, Qlen_cons; [ring| |left; reflexivity]. intros; apply H; right; assumption. }
        apply G. intros p Hp. apply H; [exact Hp|exact I0]. }
      rewrite S, Qlen_map. field. pose proof (Qlen_pos l N). lra. }
    assert (Z : forall k : list (Q * Q), (forall p, In p k -> fst p == m) -> qsum (map (fun p : Q * Q => (fst p - m) * (fst p - m)) k) == 0).
    { clear. induction k as [|p k IH]; intro H; [reflexivity|]. cbn [map qsum]. rewrite (H p), IH; [ring| |left; reflexivity]. intros; apply H; right; assumption. }
    apply Z. intros p Hp. rewrite M. apply H; [exact Hp|exact I0].
Qed.
Lemma fit_nonempty l g c : linear_fit l = Some (g, c) -> l <> [].
Proof. intros H ->. vm_compute in H. discriminate. Qed.
Lemma fit_gap l g c a b : linear_fit l = Some (g, c) -> exists v, 0 < v /\ squares a b l == squares g c l + v * ((a - g) * (a - g)) +
  Qlen l * ((mean (map snd l) - a * mean (map fst l) - b) * (mean (map snd l) - a * mean (map fst l) - b)) /\ c = mean (map snd l) - g * mean (map fst l).
Proof.
  intro H. pose proof (fit_nonempty l g c H) as N. unfold linear_fit in H. cbv zeta in H. set (mx := mean (map fst l)) in *. set (my := mean (map snd l)) in *.
  set (v := qsum (map (fun p => (fst p - mx) * (fst p - mx)) l)) in *. set (w := qsum (map (fun p => (fst p - mx) * (snd p - my)) l)) in *.
  destruct (Qeqb_spec v 0) as [E|E]; [discriminate|]. exists v. split; [apply var_pos; exact E|].
  assert (Hg : w / v = g) by congruence. assert (Hc : my - g * mx = c) by congruence. clear H. split; [|symmetry; exact Hc].
  assert (Hx : qsum (map fst l) == mx * Qlen l).
  { subst mx. rewrite (mean_sum (map fst l)) by (destruct l; [easy|discriminate]). rewrite Qlen_map. reflexivity. }
  assert (Hy : qsum (map snd l) == my * Qlen l).
  { subst my. rewrite (mean_sum (map snd l)) by (destruct l; [easy|discriminate]). rewrite Qlen_map. reflexivity. }
  rewrite (squares_expand l a b mx my Hx Hy), (squares_expand l g c mx my Hx Hy). fold v w.
  assert (W : w == g * v) by (rewrite <- Hg; field; exact E). rewrite <- Hc, W. ring.
Qed.
