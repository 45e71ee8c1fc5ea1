(** Lemmas for C64-C66. *)
From Verif Require Import Base Model_Probability Model_Integration Model_Bias Spec_Bias Proofs_Temporal Proofs_Integration.
Local Open Scope Q_scope.

Lemma cell_eqb_iff a b : cell_eqb a b = true <-> a = b.
Proof.
  unfold cell_eqb. destruct a as [p [[l u]|]], b as [p' [[l' u']|]]; cbn [tc_point tc_bounds]; rewrite ?andb_true_iff, ?Z.eqb_eq; split; intro H; try (destruct H; congruence); try (destruct H as [? [? ?]]; congruence); try discriminate; injection H; intros; subst; auto.
Qed.
Lemma cell_dec (a b : tcell) : {a = b} + {a <> b}.
Proof. destruct (cell_eqb a b) eqn:E; [left; now apply cell_eqb_iff|right; intro H; apply cell_eqb_iff in H; congruence]. Qed.
Lemma seen_iff c l : existsb (cell_eqb c) l = true <-> In c l.
Proof. rewrite existsb_exists. split; [intros (x & I0 & E); apply cell_eqb_iff in E; congruence|intro I0; exists c; split; [exact I0|now apply cell_eqb_iff]]. Qed.
Definition one_style (a b : tcell) : Prop := (tc_bounds a = None /\ tc_bounds b = None) \/ (tc_bounds a <> None /\ tc_bounds b <> None).
Lemma time_matches_spec a b : one_style a b -> time_matches a b = Ok (cell_eqb a b).
Proof.
  unfold one_style, time_matches, cell_eqb. destruct a as [p [[l u]|]], b as [p' [[l' u']|]]; cbn [tc_point tc_bounds]; intros [[? ?]|[? ?]]; try congruence; [now rewrite andb_assoc|now rewrite andb_true_r].
Qed.
Lemma extract_spec h truths : (forall t, In t truths -> one_style h (t_cell t)) ->
  exists o, extract_truth h truths = Ok o /\ match o with Some t => In t truths /\ t_cell t = h | None => forall t, In t truths -> t_cell t <> h end.
Proof.
  induction truths as [|t r IH]; intro St; [exists None; split; [reflexivity|intros t []]|]. destruct IH as (o & E & O); [intros; apply St; now right|].
  cbn [extract_truth]. rewrite (time_matches_spec _ _ (St t (or_introl eq_refl))). cbn [bind]. rewrite E. cbn [bind].
  destruct (cell_eqb h (t_cell t)) eqn:C.
  - exists (Some t). split; [reflexivity|]. apply cell_eqb_iff in C. split; [now left|congruence].
  - exists o. split; [reflexivity|]. destruct o as [u|]; [destruct O; split; [now right|assumption]|]. intros u [<-|I0]; [intro H; symmetry in H; apply cell_eqb_iff in H; congruence|now apply O].
Qed.
Lemma all_nan_iff l : all_nan l = true <-> only_nan l.
Proof.
  unfold all_nan, only_nan. rewrite andb_true_iff, negb_true_iff, Nat.eqb_neq, forallb_forall. split.
  - intros [N F]. split.
    + destruct (unmasked l) as [|v u] eqn:U; [cbn in N; lia|]. assert (I0 : In v (unmasked l)) by (rewrite U; now left). apply filter_In in I0 as [I0 _]. specialize (F v (or_introl eq_refl)). destruct v; try discriminate. exact I0.
    + intros q I0. assert (J : In (Num q) (unmasked l)) by (apply filter_In; auto). specialize (F _ J). discriminate.
  - intros [N F]. split.
    + assert (J : In NotANumber (unmasked l)) by (apply filter_In; auto). destruct (unmasked l); [destruct J|cbn; lia].
    + intros v I0. apply filter_In in I0 as [I0 M]. destruct v; [exfalso; eapply F; eauto|reflexivity|discriminate].
Qed.
(** The loop: pairs of equal cells, all from the inputs, cells distinct and not seen before, and every first usable slice is there. *)
Lemma loop_spec truths hfs : (forall h t, In h hfs -> In t truths -> one_style (t_cell h) (t_cell t)) -> forall seen,
  exists ps, match_loop truths seen hfs = Ok ps /\
    (forall h t, In (h, t) ps -> In t truths /\ t_cell t = t_cell h /\ ~ In (t_cell h) seen) /\ NoDup (map (fun p => t_cell (fst p)) ps) /\
    (forall h, In h (map fst ps) <-> first_usable truths hfs h /\ ~ In (t_cell h) seen).
Proof.
  induction hfs as [|h r IH]; intros St seen.
  { exists []. split; [reflexivity|]. split; [intros h t []|]. split; [constructor|]. intro h. split; [intros []|]. intros [(b & a & E & _) _]. destruct b; discriminate. }
  assert (Str : forall h0 t, In h0 r -> In t truths -> one_style (t_cell h0) (t_cell t)) by (intros; apply St; [now right|assumption]).
  destruct (extract_spec (t_cell h) truths (fun t Ht => St h t (or_introl eq_refl) Ht)) as (o & E & O). cbn [match_loop]. rewrite E. cbn [bind].
  assert (Skip : forall seen', (usable truths h -> In (t_cell h) seen') -> forall g, first_usable truths (h :: r) g /\ ~ In (t_cell g) seen' <-> first_usable truths r g /\ ~ In (t_cell g) seen').
  { intros seen' U g. split; intros [F N]; split; try exact N.
    - destruct F as (b & a & Eq & Ug & Fg). destruct b as [|x b]; injection Eq as -> ->; [exfalso; auto|]. exists b, a. split; [reflexivity|]. split; [exact Ug|]. intros; apply Fg; [now right|assumption].
    - destruct F as (b & a & -> & Ug & Fg). exists (h :: b), a. split; [reflexivity|]. split; [exact Ug|]. intros x [<-|I0] Ux; [intro C; apply N; rewrite <- C; auto|auto]. }
  destruct o as [t|].
  - destruct O as [It Ct]. destruct (all_nan (t_data h)) eqn:A; cbn [negb andb].
    + destruct (IH Str seen) as (ps & P1 & P2 & P3 & P4). exists ps. do 3 (split; [assumption|]). intro g. rewrite P4. symmetry. apply Skip. intros [U _]. exfalso. apply U. now apply all_nan_iff.
    + destruct (existsb (cell_eqb (t_cell t)) seen) eqn:S0; cbn [negb].
      * apply seen_iff in S0. destruct (IH Str seen) as (ps & P1 & P2 & P3 & P4). exists ps. do 3 (split; [assumption|]). intro g. rewrite P4. symmetry. apply Skip. intros _. now rewrite <- Ct.
      * assert (Nt : ~ In (t_cell h) seen) by (rewrite <- Ct; intro C; apply seen_iff in C; congruence).
        destruct (IH Str (seen ++ [t_cell t])) as (ps & P1 & P2 & P3 & P4). rewrite P1. cbn [bind]. exists ((h, t) :: ps). split; [reflexivity|].
        assert (Uh : usable truths h). { split; [intro C; apply all_nan_iff in C; congruence|exists t; auto]. }
        split; [|split].
        -- intros h0 t0 [Eq|I0]; [injection Eq as <- <-; auto|]. destruct (P2 _ _ I0) as (Q1 & Q2 & Q3). split; [exact Q1|]. split; [exact Q2|]. intro C. apply Q3, in_app_iff. now left.
        -- cbn [map fst]. constructor; [|exact P3]. intro C. apply in_map_iff in C as ([h0 t0] & C1 & C2). cbn [fst] in C1. destruct (P2 _ _ C2) as (_ & _ & Q3). apply Q3, in_app_iff. right. left. congruence.
        -- intro g. cbn [map fst]. split.
           ++ intros [<-|I0]; [split; [exists [], r; split; [reflexivity|]; split; [exact Uh|intros x []]|exact Nt]|]. apply P4 in I0 as [F N]. assert (N' : ~ In (t_cell g) seen) by (intro C; apply N, in_app_iff; now left). split; [|exact N'].
              destruct F as (b & a & -> & Ug & Fg). exists (h :: b), a. split; [reflexivity|]. split; [exact Ug|]. intros x [<-|Ix] Ux; [intro C; apply N, in_app_iff; right; left; congruence|auto].
           ++ intros [F N]. destruct F as (b & a & Eq & Ug & Fg). destruct b as [|x b]; injection Eq as -> ->; [now left|]. right. apply P4. split; [exists b, a; split; [reflexivity|]; split; [exact Ug|]; intros; apply Fg; [now right|assumption]|].
              intro C. apply in_app_iff in C as [C|[C|[]]]; [now apply N|]. apply (Fg x (or_introl eq_refl) Uh). congruence.
  - destruct (IH Str seen) as (ps & P1 & P2 & P3 & P4). exists ps. do 3 (split; [assumption|]). intro g. rewrite P4. symmetry. apply Skip. intros [_ (t & It & Ct)]. exfalso. exact (O t It Ct).
Qed.
Lemma style_one hfs truths : same_style hfs truths -> forall h t, In h hfs -> In t truths -> one_style (t_cell h) (t_cell t).
Proof. intros [S0|S0] h t Hh Ht; [left|right]; split; apply S0, in_app_iff; auto. Qed.

(** Sorting two lists by the same keys keeps them paired. *)
Definition le_time (a b : tslice) : bool := (tc_point (t_cell a) <=? tc_point (t_cell b))%Z.
Definition le_pair (p q : tslice * tslice) : bool := le_time (fst p) (fst q).
Lemma insert_fst p ps : map fst (insert le_pair p ps) = insert le_time (fst p) (map fst ps).
Proof. induction ps as [|q ps IH]; [reflexivity|]. cbn [insert map]. change (le_pair p q) with (le_time (fst p) (fst q)). destruct (le_time (fst p) (fst q)); [reflexivity|]. cbn [map]. now rewrite IH. Qed.
Lemma insert_snd p ps : Forall (fun q => t_cell (snd q) = t_cell (fst q)) (p :: ps) -> map snd (insert le_pair p ps) = insert le_time (snd p) (map snd ps).
Proof.
  intro F. inversion F as [|? ? Fp Fr]; subst. clear F. induction Fr as [|q ps Fq Fr IH]; [reflexivity|]. cbn [insert map].
  change (le_pair p q) with (le_time (fst p) (fst q)). assert (E : le_time (snd p) (snd q) = le_time (fst p) (fst q)) by (unfold le_time; now rewrite Fp, Fq). rewrite E. destruct (le_time (fst p) (fst q)); [reflexivity|]. cbn [map]. now rewrite IH.
Qed.
Lemma sort_fst ps : map fst (isort le_pair ps) = isort le_time (map fst ps).
Proof. induction ps as [|p ps IH]; [reflexivity|]. cbn [isort map]. now rewrite insert_fst, IH. Qed.
Lemma sort_snd ps : Forall (fun q => t_cell (snd q) = t_cell (fst q)) ps -> map snd (isort le_pair ps) = isort le_time (map snd ps).
Proof.
  induction 1 as [|p ps Fp F IH]; [reflexivity|]. cbn [isort map]. rewrite insert_snd, IH; [reflexivity|]. constructor; [exact Fp|]. apply Forall_forall. intros q Hq. rewrite Forall_forall in F. apply F. eapply Permutation_in; [apply Permutation_sym, isort_perm|exact Hq].
Qed.
Lemma by_time_sort l : by_time l = isort le_time l.
Proof. reflexivity. Qed.
Lemma by_time_ascending l : ascending (by_time l).
Proof.
  unfold ascending. rewrite by_time_sort. assert (S0 : StronglySorted (fun a b => (tc_point (t_cell a) <= tc_point (t_cell b))%Z) (isort le_time l)).
  { apply isort_sorted; unfold le_time; intros; rewrite ?Z.leb_le, ?Z.leb_gt in *; lia. }
  induction S0 as [|a r S0 IH F]; cbn [map]; constructor; [exact IH|]. now apply Forall_map.
Qed.
Lemma filter_spec hfs truths : same_style hfs truths ->
  exists ps, (match ps with [] => filter_non_matching hfs truths = Err ValueError | _ => filter_non_matching hfs truths = Ok (map fst (isort le_pair ps), map snd (isort le_pair ps)) end) /\
    match_loop truths [] hfs = Ok ps /\
    (forall h t, In (h, t) ps -> In t truths /\ t_cell t = t_cell h) /\ NoDup (map (fun p => t_cell (fst p)) ps) /\
    (forall h, In h (map fst ps) <-> first_usable truths hfs h).
Proof.
  intro St. destruct (loop_spec truths hfs (style_one _ _ St) []) as (ps & P1 & P2 & P3 & P4). exists ps.
  assert (F : Forall (fun q => t_cell (snd q) = t_cell (fst q)) ps) by (apply Forall_forall; intros [h t] I0; now apply P2 in I0).
  split; [|split; [exact P1|split; [|split; [exact P3|]]]].
  - unfold filter_non_matching. rewrite P1. cbn [bind]. rewrite sort_fst, sort_snd by exact F. destruct ps; reflexivity.
  - intros h t I0. now apply P2 in I0 as (A & B & _).
  - intro h. rewrite P4. tauto.
Qed.
Lemma usable_first truths hfs h : In h hfs -> usable truths h -> exists g, first_usable truths hfs g /\ t_cell g = t_cell h.
Proof.
  induction hfs as [|a r IH]; intros I0 U; [destruct I0|]. destruct I0 as [->|I0].
  - exists h. split; [|reflexivity]. exists [], r. split; [reflexivity|]. split; [exact U|intros x []].
  - destruct (IH I0 U) as (g & (b & af & E & Ug & Fg) & C). destruct (cell_dec (t_cell a) (t_cell h)) as [e|e].
    + destruct (all_nan (t_data a)) eqn:A.
      * exists g. split; [|exact C]. exists (a :: b), af. rewrite E. split; [reflexivity|]. split; [exact Ug|]. intros x [<-|Ix] Ux; [exfalso; apply Ux; now apply all_nan_iff|auto].
      * exists a. split; [|exact e]. exists [], r. split; [reflexivity|]. split; [|intros x []]. split; [intro X; apply all_nan_iff in X; congruence|]. destruct U as [_ (t & It & Ct)]. exists t. split; [exact It|congruence].
    + exists g. split; [|exact C]. exists (a :: b), af. rewrite E. split; [reflexivity|]. split; [exact Ug|]. intros x [<-|Ix] Ux; [congruence|auto].
Qed.
(** Two lists in ascending order of time with distinct times and the same members are equal. *)
Lemma sorted_slices_unique (a b : list tslice) : NoDup (map (fun s => tc_point (t_cell s)) a) -> NoDup (map (fun s => tc_point (t_cell s)) b) ->
  ascending a -> ascending b -> (forall s, In s a <-> In s b) -> a = b.
Proof.
  unfold ascending. revert b. induction a as [|x a IH]; intros b Na Nb Sa Sb E.
  - destruct b as [|y b]; [reflexivity|]. exfalso. apply (proj2 (E y)). now left.
  - destruct b as [|y b]; [exfalso; apply (proj1 (E x)); now left|]. cbn [map] in *. inversion Na as [|? ? Nx Na']; inversion Nb as [|? ? Ny Nb']; inversion Sa as [|? ? Sa' Fa]; inversion Sb as [|? ? Sb' Fb]; subst.
    rewrite Forall_forall in Fa, Fb.
    assert (XY : x = y).
    { destruct (proj1 (E x) (or_introl eq_refl)) as [->|Ix]; [reflexivity|]. destruct (proj2 (E y) (or_introl eq_refl)) as [->|Iy]; [reflexivity|]. exfalso.
      assert (A1 := Fb _ (in_map (fun s => tc_point (t_cell s)) _ _ Ix)). assert (A2 := Fa _ (in_map (fun s => tc_point (t_cell s)) _ _ Iy)). cbn in A1, A2.
      apply Nx. replace (tc_point (t_cell x)) with (tc_point (t_cell y)) by lia. exact (in_map (fun s => tc_point (t_cell s)) _ _ Iy). }
    subst y. f_equal. apply IH; auto. intro s. split; intro I0.
    + destruct (proj1 (E s) (or_intror I0)) as [->|H]; [|exact H]. exfalso. apply Nx. exact (in_map (fun s => tc_point (t_cell s)) _ _ I0).
    + destruct (proj2 (E s) (or_intror I0)) as [->|H]; [|exact H]. exfalso. apply Ny. exact (in_map (fun s => tc_point (t_cell s)) _ _ I0).
Qed.
Lemma nodup_map_of {A B C} (f : A -> B) (g : A -> C) l : (forall a b, In a l -> In b l -> f a = f b -> g a = g b) -> NoDup (map g l) -> NoDup (map f l).
Proof.
  intro H. induction l as [|x l IH]; intro N; [constructor|]. cbn [map] in *. inversion N as [|? ? Nx N']; subst. constructor.
  - intro C0. apply in_map_iff in C0 as (y & E & I0). apply Nx. rewrite (H x y); [now apply in_map|now left|now right|congruence].
  - apply IH; [intros a b Ia Ib; apply H; now right|exact N'].
Qed.

(** ** Means *)
Lemma zipd_nth f a b i : (i < length a)%nat -> (i < length b)%nat -> nth i (zipd f a b) Masked = f (nth i a Masked) (nth i b Masked).
Proof. revert b i. induction a as [|x a IH]; intros [|y b] [|i] Ha Hb; cbn in *; try lia; [reflexivity|]. apply IH; lia. Qed.
Lemma zipd_length f a b : length (zipd f a b) = Nat.min (length a) (length b).
Proof. revert b. induction a as [|x a IH]; intros [|y b]; cbn; auto. Qed.
Definition neither (p : dval * dval) : bool := match p with (Masked, _) | (_, Masked) => false | _ => true end.
Definition num (p : dval * dval) : Q * Q := match p with (Num x, Num y) => (x, y) | _ => (0, 0) end.
Lemma unmasked_sub l : unmasked (map (fun p => dsub (fst p) (snd p)) l) = map (fun p => dsub (fst p) (snd p)) (filter neither l).
Proof. unfold unmasked. induction l as [|[[x| |] [y| |]] l IH]; cbn [map filter dsub fst snd neither]; rewrite ?IH; reflexivity. Qed.
Lemma neither_iff p : neither p = true <-> fst p <> Masked /\ snd p <> Masked.
Proof. destruct p as [[x| |] [y| |]]; cbn; split; intros; intuition (try congruence; try discriminate). Qed.
Lemma present_filter l : (forall p, In p l -> neither p = true -> exists x y, p = (Num x, Num y)) -> present l (map num (filter neither l)).
Proof.
  induction l as [|p l IH]; intro A; [reflexivity|]. assert (IH' : present l (map num (filter neither l))) by (apply IH; intros; apply A; [now right|assumption]).
  specialize (A p (or_introl eq_refl)). destruct p as [[x| |] [y| |]]; cbn [filter neither map num present]; try exact IH'; try (destruct (A eq_refl) as (? & ? & ?); discriminate).
  exists (map num (filter neither l)). split; [reflexivity|exact IH'].
Qed.
Lemma present_unique l es es' : present l es -> present l es' -> es = es'.
Proof.
  revert es es'. induction l as [|[[x| |] [y| |]] l IH]; cbn [present]; intros es es' H H'; try (destruct H; fail); try (now apply IH); [congruence|].
  destruct H as (r & -> & H), H' as (r' & -> & H'). f_equal. now apply IH.
Qed.
Lemma numbers_sub l : (forall p, In p l -> exists x y, p = (Num x, Num y)) -> numbers (map (fun p => dsub (fst p) (snd p)) l) = map (fun e => fst e - snd e) (map num l).
Proof.
  induction l as [|p l IH]; intro All; [reflexivity|]. destruct (All p (or_introl eq_refl)) as (x & y & ->). cbn [map numbers flat_map dsub fst snd num app]. f_equal. apply IH. intros; apply All; now right.
Qed.
Lemma mean_error_dmean l : mean_error l (dmean (map (fun p => dsub (fst p) (snd p)) l)).
Proof.
  unfold dmean. rewrite unmasked_sub. set (k := filter neither l).
  assert (Pk : forall p, In p k <-> In p l /\ fst p <> Masked /\ snd p <> Masked) by (intro p; unfold k; rewrite filter_In, neither_iff; reflexivity).
  destruct (map (fun p => dsub (fst p) (snd p)) k) as [|e es] eqn:Ek.
  - apply map_eq_nil in Ek. cbn. intros p I0. assert (X : ~ (fst p <> Masked /\ snd p <> Masked)) by (intros [A B]; assert (H : In p k) by (apply Pk; auto); rewrite Ek in H; destruct H).
    destruct p as [[x| |] [y| |]]; cbn in *; auto; exfalso; apply X; split; discriminate.
  - rewrite <- Ek. destruct (existsb is_nan (map (fun p => dsub (fst p) (snd p)) k)) eqn:N.
    + apply existsb_exists in N as (v & I0 & Hv). apply in_map_iff in I0 as (p & <- & I0). pose proof (proj1 (Pk p) I0) as (Il & M1 & M2). exists p. split; [exact Il|]. split; [exact M1|]. split; [exact M2|]. destruct p as [[x| |] [y| |]]; cbn in *; try discriminate; auto; congruence.
    + assert (Ne : k <> []) by (intro C; rewrite C in Ek; discriminate).
      assert (All : forall p, In p k -> exists x y, p = (Num x, Num y)).
      { intros p I0. pose proof (proj1 (Pk p) I0) as (_ & M1 & M2). assert (H : is_nan (dsub (fst p) (snd p)) = false).
        { destruct (is_nan _) eqn:E; [|reflexivity]. assert (X : existsb is_nan (map (fun p => dsub (fst p) (snd p)) k) = true); [|congruence]. apply existsb_exists. exists (dsub (fst p) (snd p)). split; [exact (in_map (fun p => dsub (fst p) (snd p)) _ _ I0)|exact E]. }
        destruct p as [[x| |] [y| |]]; cbn in *; try congruence. eauto. }
      cbn [mean_error]. exists (map num k). split; [|split].
      * apply present_filter. intros p I0 Np. apply All. apply filter_In. auto.
      * intro C. apply map_eq_nil in C. contradiction.
      * rewrite numbers_sub by exact All. unfold mean. rewrite !Qlen_map. field. pose proof (Qlen_pos k Ne). lra.
Qed.
Lemma mean_error_one x y : mean_error [(x, y)] (dsub x y).
Proof.
  destruct x as [x| |], y as [y| |]; cbn [dsub mean_error]; try (intros p [<-|[]]; cbn; auto; fail); try (eexists; split; [now left|]; cbn; repeat split; auto; discriminate).
  exists [(x, y)]. split; [cbn; eauto|]. split; [discriminate|]. unfold Qlen. cbn. ring.
Qed.
(** The error field, at one point. *)
Lemma additive_error_at n a t i : length a = length t -> a <> [] -> of_size n a -> of_size n t -> (i < n)%nat ->
  length (additive_error (map t_data a) (map t_data t)) = n /\ mean_error (pairs_at a t i) (nth i (additive_error (map t_data a) (map t_data t)) Masked).
Proof.
  intros L Ne Sa St Hi. unfold additive_error. set (ps := combine a t).
  assert (Ep : combine (map t_data a) (map t_data t) = map (fun p => (t_data (fst p), t_data (snd p))) ps). { unfold ps. clear - a. revert t. induction a as [|x a IH]; intros [|y t]; cbn [map combine]; [reflexivity..|]. now rewrite IH. }
  rewrite Ep, map_map. cbn [fst snd].
  assert (Ps : forall p, In p ps -> length (t_data (fst p)) = n /\ length (t_data (snd p)) = n). { intros [x y] I0. split; [apply Sa; eapply in_combine_l; exact I0|apply St; eapply in_combine_r; exact I0]. }
  assert (Np : ps <> []). { unfold ps. destruct a as [|x a], t as [|y t]; try discriminate; congruence. }
  assert (Le : forall p, In p ps -> length (zipd dsub (t_data (fst p)) (t_data (snd p))) = n) by (intros p I0; rewrite zipd_length; destruct (Ps p I0) as [-> ->]; apply Nat.min_id).
  destruct ps as [|p qs] eqn:Eps; [congruence|]. rewrite <- Eps in *. destruct qs as [|q qs].
  - rewrite Eps. cbn [map]. rewrite Eps in *. split; [apply Le; now left|]. unfold pairs_at. fold ps. rewrite Eps. cbn [map]. rewrite zipd_nth by (pose proof (Ps p (or_introl eq_refl)); lia). apply mean_error_one.
  - set (errors := map _ ps). assert (Ee : errors = zipd dsub (t_data (fst p)) (t_data (snd p)) :: map (fun x => zipd dsub (t_data (fst x)) (t_data (snd x))) (q :: qs)) by (unfold errors; rewrite Eps; reflexivity).
    rewrite Ee at 1. cbn [map]. rewrite Ee at 1. cbn [map]. rewrite (Le p) by (rewrite Eps; now left). rewrite map_length, seq_length. split; [reflexivity|].
    rewrite nth_map_seq by exact Hi.
    assert (Ec : column errors i = map (fun p => dsub (fst p) (snd p)) (pairs_at a t i)).
    { unfold column, errors, pairs_at. fold ps. rewrite Eps in *. rewrite !map_map. apply map_ext_in. intros x Hx. rewrite zipd_nth by (pose proof (Ps x Hx); lia). reflexivity. }
    rewrite Ec. apply mean_error_dmean.
Qed.
Lemma all_same_iff l : all_same l = true <-> l <> [] /\ forall x y, In x l -> In y l -> x = y.
Proof.
  destruct l as [|a r]; cbn [all_same]; [split; [discriminate|intros [H _]; congruence]|]. rewrite forallb_forall. split.
  - intro F. split; [discriminate|]. assert (G : forall x, In x (a :: r) -> x = a) by (intros x [<-|I0]; [reflexivity|apply F in I0; apply Z.eqb_eq in I0; congruence]). intros x y Ix Iy. rewrite (G x Ix), (G y Iy). reflexivity.
  - intros [_ F] x I0. apply Z.eqb_eq. apply F; [now left|now right].
Qed.
Lemma zmaxl_spec l : forall a, In (zmaxl a l) (a :: l) /\ forall x, In x (a :: l) -> (x <= zmaxl a l)%Z.
Proof.
  unfold zmaxl. induction l as [|b l IH]; intro a; cbn [fold_left]; [split; [now left|intros x [<-|[]]; lia]|]. destruct (IH (Z.max a b)) as [A B]. split.
  - destruct A as [A|A]; [|right; now right]. rewrite <- A. destruct (Z.max_spec a b) as [[_ ->]|[_ ->]]; [right; now left|now left].
  - intros x [<-|[<-|I0]]; [pose proof (B _ (or_introl eq_refl)); lia|pose proof (B _ (or_introl eq_refl)); lia|apply B; now right].
Qed.
Lemma zminl_spec l : forall a, In (zminl a l) (a :: l) /\ forall x, In x (a :: l) -> (zminl a l <= x)%Z.
Proof.
  unfold zminl. induction l as [|b l IH]; intro a; cbn [fold_left]; [split; [now left|intros x [<-|[]]; lia]|]. destruct (IH (Z.min a b)) as [A B]. split.
  - destruct A as [A|A]; [|right; now right]. rewrite <- A. destruct (Z.min_spec a b) as [[_ ->]|[_ ->]]; [now left|right; now left].
  - intros x [<-|[<-|I0]]; [pose proof (B _ (or_introl eq_refl)); lia|pose proof (B _ (or_introl eq_refl)); lia|apply B; now right].
Qed.
Lemma zmem_iff x l : zmem x l = true <-> In x l.
Proof. induction l as [|a l IH]; cbn [zmem In]; [split; [discriminate|intros []]|]. rewrite orb_true_iff, Z.eqb_eq, IH. split; intros [H|H]; auto. Qed.
Lemma znodup_iff l : znodup l = true <-> NoDup l.
Proof.
  induction l as [|a l IH]; cbn [znodup]; [split; [constructor|reflexivity]|]. rewrite andb_true_iff, negb_true_iff, IH. split.
  - intros [A B]. constructor; [intro C; apply zmem_iff in C; congruence|exact B].
  - intro N. inversion N; subst. split; [destruct (zmem a l) eqn:E; [apply zmem_iff in E; contradiction|reflexivity]|assumption].
Qed.
Lemma consistency_iff l : (check_forecast_consistency l = Ok tt <-> l <> [] /\ forall s s', In s l -> In s' l -> hour (t_frt s) = hour (t_frt s') /\ t_period s = t_period s') /\
  (check_forecast_consistency l = Ok tt \/ check_forecast_consistency l = Err ValueError).
Proof.
  unfold check_forecast_consistency. destruct (all_same (map (fun s => hour (t_frt s)) l)) eqn:A; cbn [negb].
  - destruct (all_same (map t_period l)) eqn:B; cbn [negb].
    + apply all_same_iff in A as [A0 A], B as [_ B]. split; [|now left]. split; [intros _|reflexivity]. split; [intro C; subst; now apply A0|]. intros s s' Is Is'. split; [apply A; apply (in_map (fun s => hour (t_frt s))); assumption|apply B; now apply in_map].
    + split; [|now right]. split; [discriminate|]. intros [N H]. exfalso. assert (X : all_same (map t_period l) = true); [|congruence]. apply all_same_iff. split; [intro C; apply map_eq_nil in C; contradiction|]. intros x y Ix Iy. apply in_map_iff in Ix as (s & <- & Is). apply in_map_iff in Iy as (s' & <- & Is'). now apply H.
  - split; [|now right]. split; [discriminate|]. intros [N H]. exfalso. assert (X : all_same (map (fun s => hour (t_frt s)) l) = true); [|congruence]. apply all_same_iff. split; [intro C; apply map_eq_nil in C; contradiction|]. intros x y Ix Iy. apply in_map_iff in Ix as (s & <- & Is). apply in_map_iff in Iy as (s' & <- & Is'). now apply H.
Qed.
(** ** Splitting and correcting *)
Definition is_error (c : biascube) : bool := contains "forecast_error" (b_name c).
Lemma split_bias_iff cubes : forall f bs r, split_bias f bs cubes = Ok r <->
  exists g, (match f with Some x => [x] | None => [] end) ++ filter (fun c => negb (is_error c)) cubes = [g] /\ r = (g, bs ++ filter is_error cubes).
Proof.
  induction cubes as [|c cubes IH]; intros f bs r; cbn [split_bias filter].
  - rewrite !app_nil_r. destruct f as [x|]; split.
    + intro H. apply Ok_inj in H. subst. exists x. auto.
    + intros (g & E & ->). injection E as ->. reflexivity.
    + discriminate.
    + intros (g & E & _). discriminate.
  - fold (is_error c). destruct (is_error c) eqn:E; cbn [negb].
    + rewrite IH. rewrite <- app_assoc. reflexivity.
    + destruct f as [x|].
      * split; [discriminate|]. intros (g & Eg & _). exfalso. cbn [app] in Eg. injection Eg as _ Eg. destruct (filter _ cubes); discriminate.
      * rewrite IH. cbn [app]. reflexivity.
Qed.
Lemma split_bias_error cubes : forall f bs, (exists r, split_bias f bs cubes = Ok r) \/ split_bias f bs cubes = Err ValueError.
Proof.
  induction cubes as [|c cubes IH]; intros f bs; cbn [split_bias]; [destruct f; eauto|]. destruct (contains _ _); [apply IH|]. destruct f; [now right|apply IH].
Qed.
Lemma bias_consistent_iff f bs : bs <> [] -> (forall b, In b bs -> b_frts b <> [] /\ b_periods b <> []) ->
  (check_bias_consistent f bs = Ok tt <-> (forall b b' x y, In b (f :: bs) -> In b' (f :: bs) -> In x (b_frts b) -> In y (b_frts b') -> hour x = hour y) /\
                                          (forall b b' x y, In b (f :: bs) -> In b' (f :: bs) -> In x (b_periods b) -> In y (b_periods b') -> x = y)) /\
  (check_bias_consistent f bs = Ok tt \/ check_bias_consistent f bs = Err ValueError).
Proof.
  intros Ne Nb. unfold check_bias_consistent, one_value. cbv zeta. set (bh := map hour (flat_map b_frts bs)). set (bp := flat_map b_periods bs).
  assert (Nh : bh <> []). { unfold bh. destruct bs as [|b bs]; [congruence|]. destruct (Nb b (or_introl eq_refl)) as [A _]. cbn. destruct (b_frts b); [congruence|discriminate]. }
  assert (Np : bp <> []). { unfold bp. destruct bs as [|b bs]; [congruence|]. destruct (Nb b (or_introl eq_refl)) as [_ A]. cbn. destruct (b_periods b); [congruence|discriminate]. }
  assert (Ih : forall z, In z (map hour (b_frts f) ++ bh) <-> exists b x, In b (f :: bs) /\ In x (b_frts b) /\ z = hour x).
  { intro z. unfold bh. rewrite in_app_iff, !in_map_iff. split.
    - intros [(x & <- & I0)|(x & <- & I0)]; [exists f, x; split; [now left|auto]|]. apply in_flat_map in I0 as (b & Ib & I0). exists b, x. split; [now right|auto].
    - intros (b & x & [<-|Ib] & I0 & ->); [left; eauto|right]. exists x. split; [reflexivity|]. apply in_flat_map. eauto. }
  assert (Ip : forall z, In z (b_periods f ++ bp) <-> exists b, In b (f :: bs) /\ In z (b_periods b)).
  { intro z. unfold bp. rewrite in_app_iff, in_flat_map. split; [intros [I0|(b & Ib & I0)]; [exists f; split; [now left|exact I0]|exists b; split; [now right|exact I0]]|]. intros (b & [<-|Ib] & I0); [now left|right; eauto]. }
  split.
  2:{ destruct (all_same bh); [|now right]. destruct (all_same (map hour (b_frts f) ++ bh)); [|now right]. destruct (all_same bp); [|now right]. destruct (all_same (b_periods f ++ bp)); [now left|now right]. }
  assert (All : (if negb (all_same bh) then @Err unit ValueError else if negb (all_same (map hour (b_frts f) ++ bh)) then Err ValueError else if negb (all_same bp) then Err ValueError else if negb (all_same (b_periods f ++ bp)) then Err ValueError else Ok tt) = Ok tt <->
    all_same bh = true /\ all_same (map hour (b_frts f) ++ bh) = true /\ all_same bp = true /\ all_same (b_periods f ++ bp) = true).
  { destruct (all_same bh), (all_same (map hour (b_frts f) ++ bh)), (all_same bp), (all_same (b_periods f ++ bp)); cbn [negb]; intuition discriminate. }
  rewrite All, !all_same_iff. split.
  - intros (_ & [_ H2] & _ & [_ H4]). split; intros b b' x y Ib Ib' Ix Iy; [apply H2; apply Ih; eauto|apply H4; apply Ip; eauto].
  - intros [H2 H4]. assert (G2 : forall x y, In x (map hour (b_frts f) ++ bh) -> In y (map hour (b_frts f) ++ bh) -> x = y) by (intros x y Ix Iy; apply Ih in Ix as (b & x' & Ib & Ix & ->); apply Ih in Iy as (b' & y' & Ib' & Iy & ->); eauto).
    assert (G4 : forall x y, In x (b_periods f ++ bp) -> In y (b_periods f ++ bp) -> x = y) by (intros x y Ix Iy; apply Ip in Ix as (b & Ib & Ix); apply Ip in Iy as (b' & Ib' & Iy); eauto).
    split; [|split; [|split]]; split; try (intro C; apply app_eq_nil in C as [_ C]; contradiction); auto; intros x y Ix Iy; [apply G2|apply G4]; apply in_app_iff; now right.
Qed.
