(** C48, C49. *)
From Verif Require Import Base Model_Integration Spec_Integration Proofs_Integration.
Local Open Scope Q_scope.

(** * C48 *)
(** [up]: the levels from the lowest to the highest, given to the plugin in this or the opposite order. The levels between the start and the end point are taken in the direction of the
    integration; there is one output for each of them after the first, with the level as its point, the layer just passed as its bounds, and the area under the positive parts of the values
    from the first level to this one. A start or end point of exactly zero is excluded here, see below. *)
Theorem C48_value positive start stop up l out : qssorted (map fst up) -> (2 <= length up)%nat -> l = up \/ l = rev up ->
  (forall s, start = Some s -> ~ s == 0) -> (forall e, stop = Some e -> ~ e == 0) -> integration_process positive start stop l = Ok out ->
  let levels := filter (fun a => in_limits positive start stop (fst a)) (if positive then up else rev up) in
  length out = (length levels - 1)%nat /\ forall i, (i < length out)%nat ->
    let '(point, (lower, upper), value) := nth i out (0, (0, 0), 0) in
    let before := nth i levels (0, None) in let after := nth (S i) levels (0, None) in
    point == fst after /\ lower == Qmin (fst before) (fst after) /\ upper == Qmax (fst before) (fst after) /\
    value == area (layers (firstn (S (S i)) levels)).
Proof.
  intros S L H N1 N2 R levels. apply ssorted_map in S.
  destruct (process_spec positive start stop up l S L H) as (o & F & E).
  { destruct start; [apply (N1 q); reflexivity|exact I]. } { destruct stop; [apply (N2 q); reflexivity|exact I]. }
  rewrite E in R. assert (o = out) by (destruct o; [discriminate|congruence]). subst o. clear E R.
  change (kept positive start stop up) with levels in F. clearbody levels.
  assert (LE : length out = length (layers levels)) by (rewrite <- (outputs_length (layers levels) 0); clear - F; induction F; simpl; congruence).
  rewrite layers_length in LE. split; [exact LE|]. intros i Hi.
  assert (G : oeq3 (nth i out none3) (nth i (outputs 0 (layers levels)) none3)).
  { clear - F Hi. revert i Hi. induction F as [|x y l m A F IH]; intros i Hi; [simpl in Hi; lia|]. destruct i; [exact A|]. apply IH. simpl in Hi; lia. }
  destruct (outputs_nth (layers levels) 0 i ((0, None), (0, None)) ltac:(rewrite layers_length; lia)) as [X Y].
  rewrite layers_nth in X by lia. cbn [fst snd] in X. rewrite layers_firstn in Y.
  change (0, (0, 0), 0) with none3. destruct (nth i out none3) as [[pt [lw upr]] v]. destruct (nth i (outputs 0 (layers levels)) none3) as [[pt' [lw' upr']] v'].
  cbn [fst snd] in X, Y. unfold oeq3 in G. cbn [fst snd] in G. destruct G as (G1 & G2 & G3 & G4). injection X as -> -> ->. cbv zeta.
  split; [exact G1|]. split; [exact G2|]. split; [exact G3|]. rewrite G4, Y. ring.
Qed.
(** There is a result exactly when at least two levels lie between the limits. *)
Theorem C48_accepted positive start stop up l : qssorted (map fst up) -> (2 <= length up)%nat -> l = up \/ l = rev up ->
  (forall s, start = Some s -> ~ s == 0) -> (forall e, stop = Some e -> ~ e == 0) ->
  if (2 <=? length (filter (fun a => in_limits positive start stop (fst a)) up))%nat then exists out, integration_process positive start stop l = Ok out
  else integration_process positive start stop l = Err ValueError.
Proof.
  intros S L H N1 N2. apply ssorted_map in S.
  destruct (process_spec positive start stop up l S L H) as (o & F & E).
  { destruct start; [apply (N1 q); reflexivity|exact I]. } { destruct stop; [apply (N2 q); reflexivity|exact I]. }
  assert (LE : length o = (length (kept positive start stop up) - 1)%nat) by (rewrite <- layers_length, <- (outputs_length _ 0); clear - F; induction F; simpl; congruence).
  assert (K : length (kept positive start stop up) = length (filter (fun a => in_limits positive start stop (fst a)) up)).
  { unfold kept, travel. destruct positive; [reflexivity|]. apply Permutation_length.
    assert (P : Permutation (rev up) up) by (apply Permutation_sym, Permutation_rev). revert P. clear. generalize (rev up) up. intros k1 k2 P.
    induction P as [|x l m P IH|x y l|l m n P1 IH1 P2 IH2]; cbn [filter].
    - constructor.
    - destruct (in_limits _ _ _ _); [constructor|]; exact IH.
    - destruct (in_limits false start stop (fst x)), (in_limits false start stop (fst y)); try reflexivity. apply perm_swap.
    - etransitivity; eassumption. }
  rewrite K in LE. rewrite E. destruct (Nat.leb_spec 2 (length (filter (fun a => in_limits positive start stop (fst a)) up))) as [G|G]; destruct o; cbn [length] in LE; try lia; [|reflexivity]. eauto.
Qed.
(** Over the whole column both directions give the same total. *)
Theorem C48_direction up l out out' : qssorted (map fst up) -> (2 <= length up)%nat -> l = up \/ l = rev up ->
  integration_process true None None l = Ok out -> integration_process false None None l = Ok out' ->
  snd (last out (0, (0, 0), 0)) == snd (last out' (0, (0, 0), 0)).
Proof.
  intros S L H A B.
  assert (T : forall positive o, integration_process positive None None l = Ok o -> snd (last o (0, (0, 0), 0)) == area (layers up)).
  { intros positive o R. pose proof (C48_value positive None None up l o S L H ltac:(discriminate) ltac:(discriminate) R) as V. cbv zeta in V.
    assert (FI : forall k : list level, filter (fun a => in_limits positive None None (fst a)) k = k) by (induction k as [|x k IH]; [reflexivity|cbn [filter]; cbn; f_equal; exact IH]).
    rewrite FI in V. set (dir := if positive then up else rev up) in *.
    assert (LD : length dir = length up) by (subst dir; destruct positive; [reflexivity|apply rev_length]).
    destruct V as [LE V]. assert (LO : (length o - 1 < length o)%nat) by lia. specialize (V (length o - 1)%nat LO).
    rewrite last_nth. destruct (nth (length o - 1) o (0, (0, 0), 0)) as [[pt [a b]] v] eqn:N. cbn [snd]. destruct V as (_ & _ & _ & V). rewrite V.
    rewrite firstn_all2 by lia. subst dir. destruct positive; [reflexivity|apply area_rev]. }
  rewrite (T true out A), (T false out' B). reflexivity.
Qed.
(** Nothing negative is produced and the running totals never decrease. *)
Theorem C48_monotone positive start stop up l out i : qssorted (map fst up) -> (2 <= length up)%nat -> l = up \/ l = rev up ->
  (forall s, start = Some s -> ~ s == 0) -> (forall e, stop = Some e -> ~ e == 0) -> integration_process positive start stop l = Ok out ->
  ((i < length out)%nat -> 0 <= snd (nth i out (0, (0, 0), 0))) /\
  ((S i < length out)%nat -> snd (nth i out (0, (0, 0), 0)) <= snd (nth (S i) out (0, (0, 0), 0))).
Proof.
  intros S L H N1 N2 R. destruct (C48_value positive start stop up l out S L H N1 N2 R) as [LE V].
  set (levels := filter _ _) in *. clearbody levels. split; intro Hi.
  - specialize (V i Hi). destruct (nth i out _) as [[? [? ?]] v]. cbn [snd]. destruct V as (_ & _ & _ & ->). apply area_nonneg.
  - pose proof (V i ltac:(lia)) as V1. pose proof (V (Datatypes.S i) Hi) as V2. destruct (nth i out _) as [[? [? ?]] v]. destruct (nth (Datatypes.S i) out _) as [[? [? ?]] v'].
    cbn [snd]. destruct V1 as (_ & _ & _ & ->). destruct V2 as (_ & _ & _ & ->). rewrite <- !layers_firstn.
    generalize (layers levels). clear. intro l. generalize (Datatypes.S i). clear. intro i. rename l into ls.
    revert ls. induction i as [|i IH]; intros [|p ls]; cbn [firstn]; try apply Qle_refl; [apply area_nonneg|].
    specialize (IH ls). change (area (p :: firstn i ls) <= area (p :: firstn (S i) ls)). unfold area in *. cbn [map qsum]. lra.
Qed.
(** A start point of zero is not a limit: the layer below it is integrated too, although the same column starts at a positive start point as asked. *)
Theorem C48_zero_start_refuted : exists l out, integration_process true (Some 0) None l = Ok out /\ map fst l = [-(1); 0; 1] /\
  map (fun o => fst (fst o)) out = [0; 1] /\ snd (last out (0, (0, 0), 0)) == 4 /\ area (layers (filter (fun a => in_limits true (Some 0) None (fst a)) l)) == 2.
Proof. exists [(-(1), Some 2); (0, Some 2); (1, Some 2)]. eexists. repeat split; vm_compute; reflexivity. Qed.
(** A limit between two levels cuts off the whole layer: integrating a constant from 1/2 to 2 gives the area from 1 to 2. *)
Theorem C48_partial_layer_refuted : exists out, integration_process true (Some (1 # 2)) (Some 2) [(0, Some 1); (1, Some 1); (2, Some 1)] = Ok out /\
  snd (last out (0, (0, 0), 0)) == 1.
Proof. eexists. split; vm_compute; reflexivity. Qed.
Example C48_case : qssorted (map fst [(0, Some 2); (1, Some (-(4))); (3, Some 6)]) /\
  exists out, integration_process false (Some 3) None [(0, Some 2); (1, Some (-(4))); (3, Some 6)] = Ok out /\ map (fun o => Qred (snd o)) out = [6; 7].
Proof. split; [repeat constructor|]. eexists. split; vm_compute; reflexivity. Qed.

(** * C49 *)
(** The line returned has the smallest sum of squared distances, and no other line has it. *)
Lemma fit_smallest l g c : fast_linear_fit l = Ok (Some (g, c)) -> forall a b,
  squares g c (valid_pairs l) <= squares a b (valid_pairs l) /\ (squares a b (valid_pairs l) <= squares g c (valid_pairs l) -> a == g /\ b == c).
Proof.
  intros H a b. unfold fast_linear_fit in H. destruct (mismatched l); [discriminate|]. assert (F : linear_fit (valid_pairs l) = Some (g, c)) by congruence.
  pose proof (fit_nonempty _ _ _ F) as N. destruct (fit_gap _ g c a b F) as (v & Hv & E & Ec). pose proof (Qlen_pos _ N) as P.
  set (d := mean (map snd (valid_pairs l)) - a * mean (map fst (valid_pairs l)) - b) in *. pose proof (sq_nonneg (a - g)). pose proof (sq_nonneg d).
  assert (0 <= v * ((a - g) * (a - g))) by (apply Qmult_le_0_compat; lra). assert (0 <= Qlen (valid_pairs l) * (d * d)) by (apply Qmult_le_0_compat; lra).
  split; [lra|]. intro K. assert (A : a == g).
  { assert (Z : v * ((a - g) * (a - g)) == 0) by lra. apply Qmult_integral in Z. destruct Z as [Z|Z]; [lra|]. apply sq_zero in Z. lra. }
  split; [exact A|]. assert (Z : Qlen (valid_pairs l) * (d * d) == 0) by lra. apply Qmult_integral in Z. destruct Z as [Z|Z]; [lra|]. apply sq_zero in Z. subst d.
  rewrite Ec. rewrite A in Z. lra.
Qed.
Lemma residual_squares a b l : residual a b l == squares a b (valid_pairs l).
Proof.
  unfold residual, squares, valid_pairs. induction l as [|[[x|] [y|]] l IH]; [reflexivity|cbn [map flat_map app qsum fst snd]; rewrite IH; ring..].
Qed.
Lemma valid_in l x y : In (x, y) (valid_pairs l) <-> In (Some x, Some y) l.
Proof.
  unfold valid_pairs. rewrite in_flat_map. split.
  - intros ([[u|] [v|]] & Hp & I0); try (destruct I0; fail). destruct I0 as [E|[]]. injection E as <- <-. exact Hp.
  - intro Hp. exists (Some x, Some y). split; [exact Hp|now left].
Qed.
Theorem C49_least_squares l g c : fast_linear_fit l = Ok (Some (g, c)) -> forall a b,
  residual g c l <= residual a b l /\ (residual a b l <= residual g c l -> a == g /\ b == c).
Proof. intros H a b. rewrite !residual_squares. exact (fit_smallest l g c H a b). Qed.
(** Points on a line give that line. *)
Theorem C49_exact_line l a b g c : fast_linear_fit l = Ok (Some (g, c)) -> (forall x y, In (Some x, Some y) l -> y == a * x + b) -> g == a /\ c == b.
Proof.
  intros H F0. assert (F : Forall (fun p => snd p == a * fst p + b) (valid_pairs l)) by (apply Forall_forall; intros [x y] Hp; apply F0, valid_in; exact Hp).
  destruct (fit_smallest l g c H a b) as [_ K].
  assert (Z : squares a b (valid_pairs l) == 0).
  { unfold squares. clear H K. induction F as [|p k E F IH]; [reflexivity|]. cbn [map qsum]. rewrite IH, E. ring. }
  assert (N : 0 <= squares g c (valid_pairs l)) by (unfold squares; apply qsum_nonneg, Forall_map, Forall_forall; intros; apply sq_nonneg).
  destruct K as [A B]; [lra|]. split; lra.
Qed.
(** When there is a line: two different abscissae among the values present in both. A value present in only one is an error. *)
Theorem C49_defined l : fast_linear_fit l = Err ValueError <-> exists x y, In (x, y) l /\ (x = None <-> y <> None).
Proof.
  unfold fast_linear_fit. destruct (mismatched l) eqn:M.
  - split; [intros _|reflexivity]. apply existsb_exists in M. destruct M as ([x y] & I & E). exists x, y. split; [exact I|]. destruct x, y; try discriminate; split; congruence.
  - split; [discriminate|]. intros (x & y & I & E). exfalso. assert (X : mismatched l = true); [|congruence]. apply existsb_exists. exists (x, y). split; [exact I|].
    destruct x, y; try reflexivity; exfalso; [destruct E as [_ E]; discriminate E; discriminate|destruct E as [E _]; exact (E eq_refl eq_refl)].
Qed.
Lemma line_exists l : (forall x y, In (x, y) l -> (x = None <-> y = None)) ->
  ((exists g c, fast_linear_fit l = Ok (Some (g, c))) <-> exists p q, In p (valid_pairs l) /\ In q (valid_pairs l) /\ ~ fst p == fst q).
Proof.
  intro W. unfold fast_linear_fit.
  assert (M : mismatched l = false).
  { destruct (mismatched l) eqn:M; [|reflexivity]. apply existsb_exists in M. destruct M as ([x y] & I & E). specialize (W x y I). destruct x, y; try discriminate; exfalso; destruct W as [W1 W2];
      [specialize (W2 eq_refl)|specialize (W1 eq_refl)]; discriminate. }
  rewrite M. generalize (valid_pairs l). clear. intro k. unfold linear_fit. cbv zeta. set (v := qsum (map (fun p => (fst p - mean (map fst k)) * (fst p - mean (map fst k))) k)).
  destruct k as [|p0 k0] eqn:E; [|rewrite <- E in *].
  - assert (v =? 0 = true) as -> by reflexivity. split; [intros (g & c & H); discriminate|intros (p & q & [] & _)].
  - assert (N : k <> []) by (rewrite E; discriminate). pose proof (var_zero k N) as VZ. rewrite E in VZ. change (qsum _) with v in VZ. destruct (Qeqb_spec v 0) as [Z|Z].
    + split; [intros (g & c & H); discriminate|]. intros (p & q & Hp & Hq & D). exfalso. apply D. rewrite E in Hp, Hq; exact (proj1 VZ Z p q Hp Hq).
    + split; [intros _|eauto]. 
      assert (D : forall m : list (Q * Q), (exists p q, In p m /\ In q m /\ ~ fst p == fst q) \/ (forall p q, In p m -> In q m -> fst p == fst q)).
      { clear. induction m as [|p m IH]; [right; intros ? ? []|]. destruct IH as [(a & b & Ha & Hb & D)|IH]; [left; exists a, b; split; [right; exact Ha|]; split; [right; exact Hb|exact D]|].
        destruct m as [|q m]; [right; intros a b [<-|[]] [<-|[]]; reflexivity|].
        destruct (Qeq_dec (fst p) (fst q)) as [e|e]; [right|left; exists p, q; cbn; auto].
        intros a b Ha Hb. assert (G : forall z, In z (p :: q :: m) -> fst z == fst q) by (intros z [<-|Hz]; [exact e|apply IH; [exact Hz|left; reflexivity]]).
        rewrite (G a Ha), (G b Hb). reflexivity. }
      destruct (D (p0 :: k0)) as [D1|D1]; [rewrite E; exact D1|]. exfalso. apply Z, VZ. exact D1.
Qed.
Theorem C49_line_exists l : (forall x y, In (x, y) l -> (x = None <-> y = None)) ->
  ((exists g c, fast_linear_fit l = Ok (Some (g, c))) <-> exists x y x' y', In (Some x, Some y) l /\ In (Some x', Some y') l /\ ~ x == x').
Proof.
  intro W. rewrite (line_exists l W). split.
  - intros ([x y] & [x' y'] & A & B & D). exists x, y, x', y'. rewrite <- !valid_in. auto.
  - intros (x & y & x' & y' & A & B & D). exists (x, y), (x', y'). rewrite !valid_in. auto.
Qed.
Example C49_case : exists g c, fast_linear_fit [(Some 0, Some 1); (None, None); (Some 1, Some 3); (Some 2, Some 2)] = Ok (Some (g, c)) /\ g == 1 # 2 /\ c == 3 # 2.
Proof. eexists. eexists. split; [vm_compute; reflexivity|]. split; vm_compute; reflexivity. Qed.

Print Assumptions C48_value.
Print Assumptions C48_accepted.
Print Assumptions C48_direction.
Print Assumptions C48_monotone.
Print Assumptions C48_zero_start_refuted.
Print Assumptions C48_partial_layer_refuted.
Print Assumptions C49_least_squares.
Print Assumptions C49_exact_line.
Print Assumptions C49_defined.
Print Assumptions C49_line_exists.
