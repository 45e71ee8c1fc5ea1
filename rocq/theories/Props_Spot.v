(** C58-C60: choosing grid points for sites, extracting values at sites, adjusting them to the height of the site. *)
From Verif Require Import Base Interp Model_Nbhood Model_Percentiles Proofs_ProbPerc Model_Lapse Proofs_Lapse Model_Spot Spec_Spot Proofs_Spot Proofs_Table Proofs_Temporal Proofs_Integration.
Local Open Scope Q_scope.

(** Inversion of a successful selection. *)
Lemma select_inv cfg g near dist2 query sites out : select_neighbours cfg g near dist2 query sites = Ok out ->
  (g_circular g = true \/ g_metres g = true) /\ g_same_coords g = true /\ check_ids cfg (filter (in_domain g) sites) = Ok tt /\
  out = map (spot_of cfg g near dist2 query) (filter (in_domain g) sites).
Proof.
  unfold select_neighbours. intro H. destruct (negb (g_circular g) && negb (g_metres g))%bool eqn:M; [discriminate|].
  destruct (g_same_coords g) eqn:Sc; [|discriminate]. cbn [negb] in H. cbv zeta in H.
  destruct ((c_land cfg || c_dz cfg) && _)%bool; [discriminate|]. destruct (check_ids cfg (filter (in_domain g) sites)) as [[]|e]; [|discriminate].
  cbn [bind] in H. apply Ok_inj in H. split; [|auto]. destruct (g_circular g); [auto|]. destruct (g_metres g); [auto|discriminate].
Qed.
Lemma select_in cfg g near dist2 query sites out o : select_neighbours cfg g near dist2 query sites = Ok out -> In o out ->
  In (o_site o) sites /\ inside_domain g (o_site o) /\ o = spot_of cfg g near dist2 query (o_site o).
Proof.
  intros H Ho. apply select_inv in H as (_ & _ & _ & ->). apply in_map_iff in Ho as (s & <- & Hs). apply filter_In in Hs as [Hs D].
  apply in_domain_spec in D. auto.
Qed.

(** C58: the sites of the result are exactly the sites inside the domain, in their order. *)
Theorem C58_sites cfg g near dist2 query sites out : select_neighbours cfg g near dist2 query sites = Ok out ->
  kept_of (inside_domain g) sites (map o_site out).
Proof.
  intro H. apply select_inv in H as (_ & _ & _ & ->). rewrite map_map. cbn. rewrite map_id. apply filter_kept. intro x. apply in_domain_spec.
Qed.
(** C58: without constraints the grid point is the nearest one. *)
Theorem C58_nearest cfg g near dist2 query sites out o : select_neighbours cfg g near dist2 query sites = Ok out -> In o out ->
  c_land cfg = false -> c_dz cfg = false -> o_point o = near (o_site o).
Proof. intros H Ho L D. apply (select_in _ _ _ _ _ _ _ _ H) in Ho as (_ & _ & ->). cbn. unfold neighbour. now rewrite L, D. Qed.
(** C58: with the land constraint it is a closest land point if there is one within the search radius, and the nearest point otherwise. *)
Theorem C58_land cfg g near dist2 query sites out o : tree_ok dist2 query -> select_neighbours cfg g near dist2 query sites = Ok out -> In o out ->
  c_land cfg = true -> c_dz cfg = false ->
  let d := dist2 (o_site o) in let r2 := c_radius cfg * c_radius cfg in let land p := on_grid g p /\ g_land g p = true in
  ((exists q, land q /\ d q < r2) -> land (o_point o) /\ d (o_point o) < r2 /\ forall q, land q -> d (o_point o) <= d q) /\
  ((forall q, land q -> r2 <= d q) -> o_point o = near (o_site o)).
Proof.
  intros T H Ho L D d r2 land. apply (select_in _ _ _ _ _ _ _ _ H) in Ho as (_ & _ & E). rewrite E. cbn [spot_of o_point o_site]. subst d. rewrite E. cbn [spot_of o_site].
  destruct (land_spec cfg g near dist2 query (o_site o) T L D) as [A B]. unfold in_reach, eligible in A, B. split.
  - intros (q & [Q1 Q2] & Q3). destruct A as [[[A1 A2] A3] A4]; [exists q; auto|]. split; [split; auto|]. split; [exact A3|].
    intros q' [X1 X2]. apply A4. auto.
  - intro F. apply B. intros (q & [X1 X2] & X3). assert (land q) by (split; auto). specialize (F q H0). unfold r2 in F. lra.
Qed.
(** C58: with the height constraint it is, among the candidates (the closest eligible points within the radius, at most node_limit of them), one of least height difference, the closest of these; without candidates it is the nearest point. *)
Theorem C58_minimum_dz cfg g near dist2 query sites out o : tree_ok dist2 query -> select_neighbours cfg g near dist2 query sites = Ok out -> In o out ->
  c_dz cfg = true ->
  let d := dist2 (o_site o) in
  exists l, candidates cfg g d l /\
    (l = [] -> o_point o = near (o_site o)) /\
    (l <> [] -> In (o_point o) l /\ (forall q, In q l -> off_height g (o_alt o) (o_point o) <= off_height g (o_alt o) q) /\
       (forall q, In q l -> off_height g (o_alt o) q == off_height g (o_alt o) (o_point o) -> d (o_point o) <= d q)).
Proof.
  intros T H Ho D d. apply (select_in _ _ _ _ _ _ _ _ H) in Ho as (_ & _ & E). subst d. rewrite E. cbn [spot_of o_point o_alt o_site].
  destruct (min_dz_spec cfg g near dist2 query (o_site o) T D) as (l & C & R). exists l. split; [exact C|].
  destruct R as [[-> R]|(R1 & R2 & R3)].
  - split; [auto|]. intro N. now destruct N.
  - split; [intros ->; destruct R1|]. auto.
Qed.
(** C58: if no more eligible points than node_limit lie within the radius, the choice is optimal among all of them. *)
Theorem C58_minimum_dz_all cfg g near dist2 query sites out o : tree_ok dist2 query -> select_neighbours cfg g near dist2 query sites = Ok out -> In o out ->
  c_dz cfg = true -> let d := dist2 (o_site o) in
  (exists all, (forall p, In p all <-> in_reach cfg g d p) /\ NoDup all /\ (length all <= c_limit cfg)%nat) ->
  ((exists q, in_reach cfg g d q) -> in_reach cfg g d (o_point o) /\ forall q, in_reach cfg g d q -> off_height g (o_alt o) (o_point o) <= off_height g (o_alt o) q) /\
  ((~ exists q, in_reach cfg g d q) -> o_point o = near (o_site o)).
Proof.
  intros T H Ho D d (all & A1 & A2 & A3). destruct (C58_minimum_dz _ _ _ _ _ _ _ _ T H Ho D) as (l & (N & Len & R & Far) & L0 & L1). fold d in R, Far, L1.
  assert (I1 : incl l all) by (intros p Hp; apply A1, R, Hp).
  assert (Cov : forall q, in_reach cfg g d q -> In q l).
  { intros q Hq. destruct (in_dec zz_dec q l) as [|Nq]; [assumption|]. destruct (Far q Hq Nq) as [F _].
    assert (length all <= length l)%nat by lia. apply (NoDup_length_incl N H0 I1), A1, Hq. }
  split.
  - intros (q & Hq). pose proof (Cov q Hq) as Hl. destruct L1 as (P1 & P2 & _); [intros ->; destruct Hl|]. split; [now apply R|]. intros q' Hq'. apply P2, Cov, Hq'.
  - intro Hn. apply L0. destruct l as [|p l]; [reflexivity|]. exfalso. apply Hn. exists p. apply R. now left.
Qed.
(** C58: the grid point is the nearest one, or an eligible one within the search radius; if the nearest point is on the grid so is the chosen one. *)
Theorem C58_reach cfg g near dist2 query sites out o : tree_ok dist2 query -> select_neighbours cfg g near dist2 query sites = Ok out -> In o out ->
  o_point o = near (o_site o) \/ in_reach cfg g (dist2 (o_site o)) (o_point o).
Proof.
  intros T H Ho. destruct (c_dz cfg) eqn:D.
  - destruct (C58_minimum_dz _ _ _ _ _ _ _ _ T H Ho D) as (l & (_ & _ & R & _) & L0 & L1). destruct l as [|p l]; [left; auto|]. right. destruct L1 as [P _]; [discriminate|]. apply R, P.
  - destruct (c_land cfg) eqn:L; [|left; eapply C58_nearest; eauto]. apply (select_in _ _ _ _ _ _ _ _ H) in Ho as (_ & _ & E). rewrite E. cbn [spot_of o_point o_site].
    unfold neighbour. rewrite D, L. cbn [orb]. cbv zeta. pose proof (T (tree_nodes cfg g) (o_site o) 1%nat (nodes_nodup cfg g)) as (_ & I0 & _).
    destruct (query _ _ _) as [|p l]; [now left|]. destruct (Qltb_spec (dist2 (o_site o) p) (c_radius cfg * c_radius cfg)) as [W|W]; [right|now left].
    split; [|exact W]. apply nodes_in, I0. now left.
Qed.
Theorem C58_on_grid cfg g near dist2 query sites out o : tree_ok dist2 query -> select_neighbours cfg g near dist2 query sites = Ok out -> In o out ->
  on_grid g (near (o_site o)) -> on_grid g (o_point o).
Proof. intros T H Ho N. destruct (C58_reach _ _ _ _ _ _ _ _ T H Ho) as [-> | [[X _] _]]; assumption. Qed.
(** C58: the displacement is the altitude of the site minus the orography at the chosen point; a site without an altitude has that of the nearest point. *)
Theorem C58_displacement cfg g near dist2 query sites out o : select_neighbours cfg g near dist2 query sites = Ok out -> In o out ->
  o_dz o == o_alt o - g_orog g (o_point o) /\
  (forall a, s_alt (o_site o) = Some a -> o_alt o = a) /\ (s_alt (o_site o) = None -> o_alt o = g_orog g (near (o_site o))).
Proof.
  intros H Ho. apply (select_in _ _ _ _ _ _ _ _ H) in Ho as (_ & _ & ->). cbn. unfold altitude_of. destruct (s_alt (o_site o)); split; try reflexivity; split; congruence.
Qed.
Theorem C58_no_altitude cfg g near dist2 query sites out o : tree_ok dist2 query -> select_neighbours cfg g near dist2 query sites = Ok out -> In o out ->
  s_alt (o_site o) = None -> c_dz cfg = true -> (1 <= c_limit cfg)%nat ->
  (forall p, eligible cfg g p -> dist2 (o_site o) (near (o_site o)) < dist2 (o_site o) p \/ p = near (o_site o)) ->
  eligible cfg g (near (o_site o)) -> o_dz o == 0.
Proof.
  intros T H Ho A D Lm Best El. destruct (C58_displacement _ _ _ _ _ _ _ _ H Ho) as (E & _ & A0). specialize (A0 A). rewrite E.
  destruct (C58_minimum_dz _ _ _ _ _ _ _ _ T H Ho D) as (l & (N & Len & R & Far) & L0 & L1).
  destruct l as [|p l]; [rewrite L0, A0 by reflexivity; ring|]. destruct L1 as (P1 & P2 & _); [discriminate|].
  assert (In (near (o_site o)) (p :: l)).
  { destruct (in_dec zz_dec (near (o_site o)) (p :: l)) as [|Nn]; [assumption|]. exfalso.
    destruct (R p (or_introl eq_refl)) as [Ep Wp]. destruct (Best p Ep) as [B|B]; [|apply Nn; left; exact B].
    destruct (Far (near (o_site o))) as [_ F]; [split; [exact El|lra]|exact Nn|]. specialize (F p (or_introl eq_refl)). lra. }
  specialize (P2 _ H0). unfold off_height in P2. rewrite A0 in P2 |- *.
  assert (Z0 : Qabs (g_orog g (near (o_site o)) - g_orog g (near (o_site o))) == 0) by (setoid_replace (g_orog g (near (o_site o)) - g_orog g (near (o_site o))) with 0 by ring; reflexivity).
  rewrite Z0 in P2. apply Qabs_Qle_condition in P2. lra.
Qed.
(** C58: identifiers. *)
Theorem C58_wmo cfg g near dist2 query sites out o : select_neighbours cfg g near dist2 query sites = Ok out -> In o out ->
  (s_wmo (o_site o) <> Some 0%Z -> o_wmo o = s_wmo (o_site o)) /\ (s_wmo (o_site o) = Some 0%Z -> o_wmo o = None).
Proof.
  intros H Ho. apply (select_in _ _ _ _ _ _ _ _ H) in Ho as (_ & _ & E). rewrite E. cbn [spot_of o_wmo o_site]. destruct (s_wmo (o_site o)) as [i|]; [|split; [reflexivity|discriminate]].
  destruct (Z.eqb_spec i 0) as [->|N]; (split; [congruence|]); [reflexivity|]. intro X. injection X as X. contradiction.
Qed.
Theorem C58_ids cfg g near dist2 query sites out : select_neighbours cfg g near dist2 query sites = Ok out -> c_id_key cfg = true -> good_ids (map o_site out).
Proof.
  intros H K. apply select_inv in H as (_ & _ & C & ->). pose proof (check_ids_spec cfg (filter (in_domain g) sites) K) as S0. rewrite C in S0. rewrite map_map. cbn. now rewrite map_id.
Qed.
(** C58: a selection is refused exactly in these cases. *)
Theorem C58_accepted cfg g near dist2 query sites :
  (exists out, select_neighbours cfg g near dist2 query sites = Ok out) <->
  (g_circular g = true \/ g_metres g = true) /\ g_same_coords g = true /\
  (c_land cfg = true \/ c_dz cfg = true -> exists p, eligible cfg g p) /\
  (c_id_key cfg = true -> forall kept, kept_of (inside_domain g) sites kept -> good_ids kept).
Proof.
  assert (Kp : forall kept, kept_of (inside_domain g) sites kept -> kept = filter (in_domain g) sites).
  { intros kept K. induction K as [|x l l' P K IH|x l l' P K IH]; cbn; [reflexivity| |].
    - apply in_domain_spec in P. now rewrite P, IH.
    - destruct (in_domain g x) eqn:F; [apply in_domain_spec in F; contradiction|assumption]. }
  split.
  - intros (out & H). pose proof (select_inv _ _ _ _ _ _ _ H) as (A & B & C & _). split; [exact A|]. split; [exact B|]. split.
    + intro CC. unfold select_neighbours in H. destruct (negb _ && negb _)%bool; [discriminate|]. destruct (negb (g_same_coords g)); [discriminate|]. cbv zeta in H.
      assert (X : (c_land cfg || c_dz cfg)%bool = true) by (destruct CC as [-> | ->]; [reflexivity|apply Bool.orb_true_r]). rewrite X in H. cbn [andb] in H.
      destruct (tree_nodes cfg g) as [|p l] eqn:N; [discriminate|]. exists p. apply nodes_in. rewrite N. now left.
    + intros K kept Hk. rewrite (Kp _ Hk). pose proof (check_ids_spec cfg (filter (in_domain g) sites) K) as S0. now rewrite C in S0.
  - intros (A & B & C & D). unfold select_neighbours. rewrite B. cbn [negb]. cbv zeta.
    assert (X : (negb (g_circular g) && negb (g_metres g))%bool = false) by (destruct A as [-> | ->]; [reflexivity|apply Bool.andb_false_r]). rewrite X.
    assert (Y : ((c_land cfg || c_dz cfg) && match tree_nodes cfg g with [] => true | _ => false end)%bool = false).
    { destruct (c_land cfg || c_dz cfg)%bool eqn:O; [|reflexivity]. cbn [andb]. apply Bool.orb_true_iff in O. destruct (C O) as (p & Hp). apply nodes_in in Hp. destruct (tree_nodes cfg g); [destruct Hp|reflexivity]. }
    rewrite Y. destruct (c_id_key cfg) eqn:K.
    + specialize (D eq_refl _ (filter_kept (in_domain g) _ (in_domain_spec g) sites)). pose proof (check_ids_spec cfg (filter (in_domain g) sites) K) as S0.
      destruct (check_ids cfg (filter (in_domain g) sites)) as [[]|[]]; try contradiction; cbn [bind]; [eauto| |].
      * exfalso. destruct S0 as [_ S0]. contradiction.
      * exfalso. destruct S0 as (s & Hs & Es). destruct D as [D _]. destruct (D s Hs) as (i & Ei & _). congruence.
    + unfold check_ids. rewrite K. cbn. eauto.
Qed.
(** C58: what is found for a site does not depend on the other sites. *)
Theorem C58_independent cfg g near dist2 query sites sites' out out' o o' :
  select_neighbours cfg g near dist2 query sites = Ok out -> select_neighbours cfg g near dist2 query sites' = Ok out' ->
  In o out -> In o' out' -> o_site o = o_site o' -> o = o'.
Proof.
  intros H H' Ho Ho' E. apply (select_in _ _ _ _ _ _ _ _ H) in Ho as (_ & _ & ->). apply (select_in _ _ _ _ _ _ _ _ H') in Ho' as (_ & _ & ->). now rewrite E.
Qed.
(** A grid of 3 by 1 points 1 km apart with heights 0, 100, 40, the first two on land; sites at x = 0.9 km (40 m high), off the grid, and one without altitude. *)
Definition grid3 : model_grid := {| g_circular := false; g_metres := true; g_same_coords := true; g_xmin := -(500 # 1); g_xmax := 2500; g_ymin := -(500 # 1); g_ymax := 500; g_nx := 3; g_ny := 1;
  g_orog := fun p => nth (Z.to_nat (fst p)) [0; 100; 40] 0; g_land := fun p => (fst p <? 2)%Z |}.
Definition kms (i : Z) : Q := inject_Z (1000 * i).
Definition s1 : site := {| s_x := 900; s_y := 0; s_alt := Some 30; s_wmo := Some 3034%Z; s_id := Some 7%Z |}.
Definition s2 : site := {| s_x := 9000; s_y := 0; s_alt := Some 0; s_wmo := None; s_id := None |}.
Definition s3 : site := {| s_x := 1990; s_y := 0; s_alt := None; s_wmo := Some 0%Z; s_id := Some 8%Z |}.
Definition near3 (s : site) : Z * Z := if s_x s <? 500 then (0, 0)%Z else if s_x s <? 1500 then (1, 0)%Z else (2, 0)%Z.
Definition cfg3 (land dz : bool) (limit : nat) : nconfig := {| c_land := land; c_dz := dz; c_radius := 1500; c_limit := limit; c_id_key := true |}.
Definition run3 land dz limit := select_neighbours (cfg3 land dz limit) grid3 near3 (plane2 kms kms) (simple_tree (plane2 kms kms)) [s1; s2; s3].
Definition points_of (r : result (list spot_site)) := match r with Ok l => map (fun o => (o_point o, Qred (o_dz o), o_wmo o)) l | Err _ => [] end.
Example C58_case :
  points_of (run3 false false 36) = [((1, 0)%Z, (-70)%Q, Some 3034%Z); ((2, 0)%Z, 0%Q, None)] /\
  points_of (run3 true false 36) = [((1, 0)%Z, (-70)%Q, Some 3034%Z); ((1, 0)%Z, (-60)%Q, None)] /\
  points_of (run3 false true 36) = [((2, 0)%Z, (-10)%Q, Some 3034%Z); ((2, 0)%Z, 0%Q, None)] /\
  points_of (run3 true true 36) = [((0, 0)%Z, 30%Q, Some 3034%Z); ((1, 0)%Z, (-60)%Q, None)] /\
  tree_ok (plane2 kms kms) (simple_tree (plane2 kms kms)).
Proof. repeat split; try (vm_compute; reflexivity); apply (simple_tree_ok (plane2 kms kms)); assumption. Qed.
(** C58: with too small a node_limit the chosen point need not be the one of least height difference within the search radius (only a warning tells). *)
Theorem C58_node_limit_refuted : ~ (forall cfg g near dist2 query sites out o, tree_ok dist2 query -> select_neighbours cfg g near dist2 query sites = Ok out -> In o out -> c_dz cfg = true ->
  forall q, in_reach cfg g (dist2 (o_site o)) q -> off_height g (o_alt o) (o_point o) <= off_height g (o_alt o) q).
Proof.
  intro H. destruct (run3 false true 2) as [l|] eqn:R; [|vm_compute in R; discriminate].
  destruct l as [|o l]; [vm_compute in R; discriminate|].
  assert (P : o_site o = s1 /\ o_point o = (0, 0)%Z /\ o_alt o = 30).
  { unfold run3 in R. apply select_inv in R as (_ & _ & _ & R). change (filter (in_domain grid3) [s1; s2; s3]) with [s1; s3] in R. cbn [map] in R.
    injection R as E _. subst o. repeat split; vm_compute; reflexivity. }
  destruct P as (P1 & P2 & P3).
  pose proof (H _ _ _ _ _ _ _ o (simple_tree_ok (plane2 kms kms)) R (or_introl eq_refl) eq_refl (2, 0)%Z) as X. rewrite P1, P2, P3 in X.
  assert (Y : off_height grid3 30 (0, 0)%Z <= off_height grid3 30 (2, 0)%Z).
  { apply X. split; [split; [split; vm_compute; split; congruence|discriminate]|vm_compute; reflexivity]. }
  vm_compute in Y. now apply Y.
Qed.
Theorem C58_method_name : map (fun p => method_name (fst p) (snd p)) [(false, false); (true, false); (false, true); (true, true)] = ["nearest"; "nearest_land"; "nearest_minimum_dz"; "nearest_land_minimum_dz"]%string.
Proof. reflexivity. Qed.

(** C59: a grid match is a match of everything but the bounds of the coordinates. *)
Theorem C59_grid_match (a b : hgrid) : check_grid_match [inr a; inr b] = Ok tt <-> same_up_to_bounds b a.
Proof. unfold check_grid_match. cbn [forallb hash_of]. rewrite Bool.andb_true_r. rewrite <- hash_spec. destruct (hash_eqb _ _); split; congruence. Qed.
Theorem C59_bounds_refuted : ~ (forall a b : hgrid, check_grid_match [inr a; inr b] = Ok tt -> a_bounds (h_x a) = a_bounds (h_x b)).
Proof.
  intro H. set (ax b := {| a_points := [0; 1]; a_bounds := b; a_name := "x"; a_crs := "c"; a_units := "m" |}%string).
  specialize (H {| h_x := ax None; h_y := ax None |} {| h_x := ax (Some [(0, 1)]); h_y := ax None |} eq_refl). discriminate.
Qed.
Lemma extract_inv m n d e : spot_extract m n d = Ok e ->
  hash_eqb (hash_of (d_grid d)) (n_hash n) = true /\
  exists rows, find_method m n = Some rows /\ exists ps,
    Forall2 (fun r p => grid_indices (d_h d) (d_w d) (round_half_even (fst (fst r)), round_half_even (snd (fst r))) = Ok p) rows ps /\
    e = {| p_dims := d_dims d; p_sites := length ps; p_hash := n_hash n; p_values := fun idx j => match nth_error ps j with Some (x, y) => d_field d idx y x | None => None end |}.
Proof.
  unfold spot_extract. intro H. unfold check_grid_match in H. cbn [forallb hash_of] in H. rewrite Bool.andb_true_r in H.
  destruct (hash_eqb _ _) eqn:Hh; [|discriminate]. cbn [bind] in H. split; [reflexivity|]. unfold extract_coordinates in H. destruct (find_method m n) as [rows|]; [|discriminate].
  cbn [bind] in H. exists rows. split; [reflexivity|]. destruct (mapM _ _) as [ps|] eqn:Mp; [|discriminate]. cbn [bind] in H. apply Ok_inj in H. subst. exists ps. split; [|reflexivity].
  apply mapM_forall2 in Mp. clear - Mp. remember (map _ rows) as cs. revert rows Heqcs. induction Mp as [|c p cs ps H M IH]; intros [|r rows] E; cbn in E; try discriminate; [constructor|].
  injection E as -> E. constructor; [exact H|]. now apply IH.
Qed.
Lemma forall2_nth_err {A B} (P : A -> B -> Prop) l m j a b : Forall2 P l m -> nth_error l j = Some a -> nth_error m j = Some b -> P a b.
Proof. intro F. revert j. induction F; intros [|j] Ha Hb; cbn in *; try discriminate; [congruence|eauto]. Qed.
Lemma forall2_nth_some {A B} (P : A -> B -> Prop) l m j a : Forall2 P l m -> nth_error l j = Some a -> exists b, nth_error m j = Some b.
Proof. intro F. revert j. induction F; intros [|j] Ha; cbn in *; try discriminate; eauto. Qed.
Lemma forall2_count {A B} (P : A -> B -> Prop) l m : Forall2 P l m -> length l = length m.
Proof. induction 1; cbn; congruence. Qed.
(** C59: in every slice of the leading dimensions the value of a site is the value of the field at the grid point of the site, masked points staying masked; dimensions and sites are kept. *)
Theorem C59_value m n d e x y dz j rows : spot_extract m n d = Ok e -> find_method m n = Some rows -> nth_error rows j = Some (inject_Z x, inject_Z y, dz) ->
  (0 <= x < d_w d)%Z -> (0 <= y < d_h d)%Z ->
  p_dims e = d_dims d /\ p_sites e = length rows /\ p_hash e = n_hash n /\ forall idx, p_values e idx j = d_field d idx y x.
Proof.
  intros H F Hj Hx Hy. apply extract_inv in H as (_ & rows' & F' & ps & FF & ->). rewrite F in F'. injection F' as <-. cbn. split; [reflexivity|]. split; [symmetry; eapply forall2_count, FF|]. split; [reflexivity|]. intro idx.
  destruct (forall2_nth_some _ _ _ _ _ FF Hj) as (p & Hp). rewrite Hp. pose proof (forall2_nth_err _ _ _ _ _ _ FF Hj Hp) as G. cbn [fst snd] in G. rewrite !rhe_int in G.
  unfold grid_indices, py_index in G. cbn [fst snd] in G.
  destruct (Z.leb_spec 0 y) as [_|C]; [|lia]. destruct (Z.ltb_spec y (d_h d)) as [_|C]; [|lia]. cbn [andb bind] in G.
  destruct (Z.leb_spec 0 x) as [_|C]; [|lia]. destruct (Z.ltb_spec x (d_w d)) as [_|C]; [|lia]. cbn [andb bind] in G. apply Ok_inj in G. now subst p.
Qed.
(** C59: refusals. *)
Theorem C59_refused m n d : (hash_eqb (hash_of (d_grid d)) (n_hash n) = false -> spot_extract m n d = Err ValueError) /\
  (find_method m n = None -> spot_extract m n d = Err ValueError).
Proof.
  unfold spot_extract, check_grid_match. cbn [forallb hash_of]. rewrite Bool.andb_true_r. split; intro H.
  - now rewrite H.
  - destruct (hash_eqb _ _); [|reflexivity]. cbn [bind]. unfold extract_coordinates. now rewrite H.
Qed.
(** C59: extraction with the neighbours that the selection found, from a cube of the same grid: it succeeds, and the value of each kept site is the value at the point chosen for it. *)
Theorem C59_end_to_end cfg g hg near dist2 query sites out d :
  tree_ok dist2 query -> select_neighbours cfg g near dist2 query sites = Ok out -> (forall s, In s sites -> on_grid g (near s)) ->
  hash_eqb (hash_of (d_grid d)) (coordinate_hash hg) = true -> d_w d = g_nx g -> d_h d = g_ny g ->
  exists e, spot_extract (method_name (c_land cfg) (c_dz cfg)) (ncube_of hg cfg out) d = Ok e /\ p_sites e = length out /\
    forall j o, nth_error out j = Some o -> forall idx, p_values e idx j = d_field d idx (snd (o_point o)) (fst (o_point o)).
Proof.
  intros T H Ng Hh W Hg. set (m := method_name _ _). set (n := ncube_of hg cfg out).
  assert (Fm : find_method m n = Some (map (fun o => (inject_Z (fst (o_point o)), inject_Z (snd (o_point o)), o_dz o)) out)).
  { unfold find_method, n, ncube_of. cbn [n_methods find fst]. fold m. now rewrite String.eqb_refl. }
  assert (Og : forall o, In o out -> on_grid g (o_point o)).
  { intros o Ho. eapply C58_on_grid; eauto. apply Ng. apply (select_in _ _ _ _ _ _ _ _ H Ho). }
  assert (Ex : exists e, spot_extract m n d = Ok e).
  { unfold spot_extract, check_grid_match. cbn [forallb hash_of]. rewrite Bool.andb_true_r. change (n_hash n) with (coordinate_hash hg). rewrite Hh. cbn [bind]. unfold extract_coordinates. rewrite Fm. cbn [bind].
    rewrite map_map. cbn [fst snd]. destruct (mapM_total (grid_indices (d_h d) (d_w d)) (map (fun x => (round_half_even (inject_Z (fst (o_point x))), round_half_even (inject_Z (snd (o_point x))))) out)) as (ps & ->).
    - intros c Hc. apply in_map_iff in Hc as (o & <- & Ho). rewrite !rhe_int. destruct (Og o Ho) as [O1 O2]. unfold grid_indices, py_index. cbn [fst snd].
      destruct (Z.leb_spec 0 (snd (o_point o))) as [_|C]; [|lia]. destruct (Z.ltb_spec (snd (o_point o)) (d_h d)) as [_|C]; [|lia]. cbn [andb bind].
      destruct (Z.leb_spec 0 (fst (o_point o))) as [_|C]; [|lia]. destruct (Z.ltb_spec (fst (o_point o)) (d_w d)) as [_|C]; [|lia]. cbn. eauto.
    - cbn [bind]. eauto. }
  destruct Ex as (e & E). exists e. split; [exact E|].
  assert (V : forall j o, nth_error out j = Some o -> p_sites e = length out /\ forall idx, p_values e idx j = d_field d idx (snd (o_point o)) (fst (o_point o))).
  { intros j o Hj. assert (Hr : nth_error (map (fun o => (inject_Z (fst (o_point o)), inject_Z (snd (o_point o)), o_dz o)) out) j = Some (inject_Z (fst (o_point o)), inject_Z (snd (o_point o)), o_dz o)) by (apply map_nth_error with (f := fun o => (inject_Z (fst (o_point o)), inject_Z (snd (o_point o)), o_dz o)) in Hj; exact Hj).
    destruct (Og o) as [O1 O2]; [eapply nth_error_In, Hj|]. destruct (C59_value m n d e _ _ _ _ _ E Fm Hr) as (_ & S0 & _ & V0); [lia|lia|]. split; [rewrite S0; apply map_length|exact V0]. }
  split; [|intros j o Hj; now apply V].
  destruct out as [|o out]; [|apply (V 0%nat o eq_refl)]. apply extract_inv in E as (_ & rows & F & ps & FF & ->). rewrite Fm in F. injection F as <-. inversion FF. reflexivity.
Qed.
(** C59: the lapse rate adjustment adds, at every site of every slice, the adjustment for the displacement of the site with the fixed lapse rate or the lapse rate at the grid point of the site (C57 says what that adjustment is). *)
Theorem C59_fixed m f sm n s e rows j x y dz : lapse_adjust m (Some f) sm n s None = Ok e -> find_method m n = Some rows -> nth_error rows j = Some (x, y, dz) ->
  p_dims e = p_dims s /\ p_sites e = p_sites s /\ forall idx, p_values e idx j = option_map (fun t => t + lapse_rate_adjustment f dz 50) (p_values s idx j).
Proof.
  unfold lapse_adjust. intros H F Hj. destruct (lapse_check _ _ _ _ _) as [[]|]; [|discriminate]. cbn [bind] in H. rewrite F in H. apply Ok_inj in H. subst e. cbn. split; [reflexivity|]. split; [reflexivity|]. intro idx.
  rewrite (nth_error_nth _ _ (0, 0, 0) Hj). cbn [snd]. destruct (p_values s idx j); reflexivity.
Qed.
Theorem C59_gridded m sm n s lm ld e rows j x y dz : lapse_adjust m None sm n s (Some (lm, ld)) = Ok e -> find_method m n = Some rows -> nth_error rows j = Some (inject_Z x, inject_Z y, dz) ->
  (0 <= x < d_w ld)%Z -> (0 <= y < d_h ld)%Z ->
  forall idx, p_values e idx j = match p_values s idx j, d_field ld [] y x with Some t, Some l => Some (t + lapse_rate_adjustment l dz 50) | _, _ => None end.
Proof.
  unfold lapse_adjust. intros H F Hj Hx Hy idx. destruct (lapse_check _ _ _ _ _) as [[]|]; [|discriminate]. cbn [bind] in H. destruct (spot_extract m n ld) as [r|] eqn:R; [|discriminate]. cbn [bind] in H. rewrite F in H. apply Ok_inj in H. subst e. cbn.
  destruct (C59_value _ _ _ _ _ _ _ _ _ R F Hj Hx Hy) as (_ & _ & _ & V). rewrite V. rewrite (nth_error_nth _ _ (0, 0, 0) Hj). reflexivity.
Qed.
(** C59: what is refused: probabilities, other diagnostics, no or two sources of lapse rates, a lapse rate cube of another name or height. *)
Theorem C59_lapse_checked m fixed sm n s lr e : lapse_adjust m fixed sm n s lr = Ok e ->
  m_prob sm = false /\ (m_name sm = "air_temperature" \/ m_name sm = "feels_like_temperature")%string /\ (fixed = None <-> lr <> None) /\
  hash_eqb (p_hash s) (n_hash n) = true /\
  forall lm ld, lr = Some (lm, ld) -> m_name lm = "air_temperature_lapse_rate"%string /\ (exists a b, m_height sm = Some a /\ m_height lm = Some b /\ a == b) /\ hash_eqb (hash_of (d_grid ld)) (n_hash n) = true.
Proof.
  unfold lapse_adjust. intro H. destruct (lapse_check fixed sm n s lr) as [[]|] eqn:C; [|discriminate]. clear H. unfold lapse_check in C.
  destruct (m_prob sm); [discriminate|]. split; [reflexivity|]. destruct (String.eqb_spec (m_name sm) "air_temperature") as [N|N]; cbn [orb negb] in C.
  1: split; [now left|].
  2: destruct (String.eqb_spec (m_name sm) "feels_like_temperature") as [N'|N']; cbn [negb] in C; [split; [now right|]|discriminate].
  all: destruct lr as [[lm ld]|], fixed as [f|]; try discriminate.
  1,3: destruct (String.eqb_spec (m_name lm) "air_temperature_lapse_rate") as [M|M]; cbn [negb] in C; [|discriminate];
    unfold height_eqb in C; destruct (m_height lm) as [b|] eqn:HB; [|discriminate]; destruct (m_height sm) as [a|] eqn:HA; [|discriminate]; cbn [bind] in C; destruct (Qeqb_spec a b) as [E|E]; [|discriminate];
    unfold check_grid_match in C; cbn [forallb hash_of] in C; destruct (hash_eqb (p_hash s) (n_hash n)); cbn [andb] in C; [|discriminate]; destruct (hash_eqb (hash_of (d_grid ld)) (n_hash n)) eqn:G; [|discriminate];
    (split; [split; [discriminate|intros _; reflexivity]|]); (split; [reflexivity|]); intros lm' ld' X; injection X as <- <-; (split; [exact M|]); (split; [exists a, b; split; [reflexivity|split; [exact HB|exact E]]|exact G]).
  all: unfold check_grid_match in C; cbn [forallb hash_of] in C; destruct (hash_eqb (p_hash s) (n_hash n)); cbn [andb] in C; [|discriminate];
    (split; [split; [discriminate|intro X; exfalso; now apply X]|]); (split; [reflexivity|]); intros; discriminate.
Qed.
Definition ax2 (k : nat) : axis := {| a_points := map (fun i => inject_Z (Z.of_nat i)) (seq 0 k); a_bounds := None; a_name := "c"; a_crs := "c"; a_units := "m" |}%string.
Definition hg3 : hgrid := {| h_x := ax2 3; h_y := ax2 1 |}.
Definition diag3 : dcube := {| d_dims := [("realization"%string, [0; 1])]; d_grid := inr hg3; d_h := 1; d_w := 3; d_field := fun idx y x => if (x =? 1)%Z then None else Some (280 + inject_Z (x + 10 * Z.of_nat (nth 0 idx 0%nat))) |}.
Definition lr3 : dcube := {| d_dims := []; d_grid := inr hg3; d_h := 1; d_w := 3; d_field := fun _ _ _ => Some (- (6 # 1000)) |}.
Definition values_of (r : result scube) (idx : list nat) := match r with Ok e => map (fun j => option_map Qred (p_values e idx j)) (seq 0 (p_sites e)) | Err _ => [] end.
Definition n3 (land dz : bool) : ncube := match run3 land dz 36 with Ok l => ncube_of hg3 (cfg3 land dz 36) l | Err _ => {| n_hash := coordinate_hash hg3; n_methods := [] |} end.
Example C59_case :
  values_of (spot_extract "nearest" (n3 false false) diag3) [1%nat] = [None; Some (292 # 1)] /\
  values_of (spot_extract "nearest_minimum_dz" (n3 false true) diag3) [1%nat] = [Some (292 # 1); Some (292 # 1)] /\
  spot_extract "nearest_land" (n3 false true) diag3 = Err ValueError /\
  values_of (bind (spot_extract "nearest_minimum_dz" (n3 false true) diag3) (fun s => lapse_adjust "nearest_minimum_dz" None {| m_prob := false; m_name := "air_temperature"; m_height := Some (3 # 2) |} (n3 false true) s (Some ({| m_prob := false; m_name := "air_temperature_lapse_rate"; m_height := Some (3 # 2) |}, lr3)))) [1%nat] = [Some (14603 # 50); Some (292 # 1)].
Proof. repeat split; vm_compute; reflexivity. Qed.

(** C60: values are shifted by the displacement of their site. *)
Theorem C60_values m n rows out nb : height_adjust_values m n rows = Ok out -> find_method m n = Some nb -> length nb = length rows ->
  length out = length rows /\ forall j row x y dz, nth_error rows j = Some row -> nth_error nb j = Some (x, y, dz) -> nth_error out j = Some (map (fun v => v + dz) row).
Proof.
  unfold height_adjust_values. intros H F L. rewrite F in H. apply Ok_inj in H. subst out. split; [rewrite map_length, combine_length; lia|].
  revert nb L F. induction rows as [|r rows IH]; intros [|a nb] L F j row x y dz Hr Hn; try (destruct j; discriminate). destruct j as [|j]; cbn in Hr, Hn |- *.
  - injection Hr as <-. injection Hn as ->. reflexivity.
  - clear F IH. revert nb L j Hr Hn. induction rows as [|r' rows IH]; intros [|a' nb] L j Hr Hn; try (destruct j; discriminate). destruct j as [|j]; cbn in Hr, Hn |- *; [injection Hr as <-; injection Hn as ->; reflexivity|].
    apply IH; cbn in *; try assumption; lia.
Qed.
(** Interpolation on a segment between two knots. *)
Lemma np_from_segment : forall k x0 y0 i x, qssorted (x0 :: map fst k) -> (i < length k)%nat ->
  nth i (x0 :: map fst k) 0 <= x <= nth (S i) (x0 :: map fst k) 0 ->
  np_from x0 y0 k x == lerp (nth i (x0 :: map fst k) 0) (nth i (y0 :: map snd k) 0) (nth (S i) (x0 :: map fst k) 0) (nth (S i) (y0 :: map snd k) 0) x.
Proof.
  induction k as [|[x1 y1] k IH]; intros x0 y0 i x So Hi Hx; [cbn in Hi; lia|].
  pose proof (StronglySorted_inv So) as [So1 Fo]. cbn [map fst snd] in *. inversion Fo as [|u v L01 Fo']; subst.
  destruct i as [|i].
  - cbn [nth] in *. cbn [np_from]. destruct (Qleb_spec x1 x) as [G|G].
    + assert (E : x == x1) by lra. rewrite (np_from_comp k _ _ _ _ E). rewrite E. rewrite lerp_right by exact L01. apply np_from_start. destruct k as [|[x2 y2] k]; [exact Logic.I|]. apply StronglySorted_inv in So1 as [_ F2]. now inversion F2.
    + destruct (Qeqb_spec x0 x) as [E|E]; [|reflexivity]. rewrite <- E. now rewrite lerp_left.
  - cbn [length] in Hi. cbn [np_from]. change (nth (S i) (x0 :: x1 :: map fst k) 0) with (nth i (x1 :: map fst k) 0) in *. change (nth (S (S i)) (x0 :: x1 :: map fst k) 0) with (nth (S i) (x1 :: map fst k) 0) in *.
    change (nth (S i) (y0 :: y1 :: map snd k) 0) with (nth i (y1 :: map snd k) 0). change (nth (S (S i)) (y0 :: y1 :: map snd k) 0) with (nth (S i) (y1 :: map snd k) 0).
    assert (G : x1 <= x). { destruct i as [|i]; cbn [nth] in Hx; [lra|]. assert (X : In (nth i (map fst k) 0) (map fst k)) by (apply nth_In; rewrite map_length; lia). apply StronglySorted_inv in So1 as [_ F2]. rewrite Forall_forall in F2. specialize (F2 _ X). lra. }
    destruct (Qleb_spec x1 x) as [_|B]; [|lra]. apply IH; [assumption|lia|exact Hx].
Qed.
Lemma np_interp_segment k i x : qssorted (map fst k) -> (S i < length k)%nat -> nth i (map fst k) 0 <= x <= nth (S i) (map fst k) 0 ->
  np_interp k x == lerp (nth i (map fst k) 0) (nth i (map snd k) 0) (nth (S i) (map fst k) 0) (nth (S i) (map snd k) 0) x.
Proof.
  destruct k as [|[x0 y0] k]; intros So Hi Hx; [cbn in Hi; lia|]. cbn [map fst snd length] in *. cbn [np_interp].
  assert (G : x0 <= x). { destruct i as [|i]; [cbn [nth] in Hx; lra|]. assert (X : In (nth i (map fst k) 0) (map fst k)) by (apply nth_In; rewrite map_length; lia). apply StronglySorted_inv in So as [_ F2]. rewrite Forall_forall in F2. specialize (F2 _ X). cbn [nth] in Hx. lra. }
  destruct (Qltb_spec x x0) as [B|_]; [lra|]. apply np_from_segment; [assumption|lia|assumption].
Qed.
Lemma sorted_first_last (ts : list Q) i : qssorted ts -> (i < length ts)%nat -> nth 0 ts 0 <= nth i ts 0 <= last ts 0.
Proof.
  revert i. induction ts as [|a ts IH]; intros i So Hi; [cbn in Hi; lia|]. apply StronglySorted_inv in So as [So Fo]. destruct ts as [|b ts].
  - destruct i; [cbn; lra|cbn in Hi; lia].
  - change (last (a :: b :: ts) 0) with (last (b :: ts) 0). assert (AB : a < b) by now inversion Fo. pose proof (IH 0%nat So ltac:(cbn; lia)) as B0. cbn [nth] in B0. destruct i as [|i]; cbn [nth]; [lra|]. pose proof (IH i So ltac:(cbn in *; lia)) as B1. cbn [nth] in B1. lra.
Qed.
Lemma last_in (l : list Q) : l <> [] -> In (last l 0) l.
Proof. intro N. rewrite (app_removelast_last 0 N) at 2. apply in_or_app. right. now left. Qed.
Lemma qsorted_nth (l : list Q) i j : qsorted l -> (i <= j < length l)%nat -> nth i l 0 <= nth j l 0.
Proof.
  revert i j. induction l as [|a l IH]; intros i j So H; [cbn in H; lia|]. apply StronglySorted_inv in So as [So Fo]. destruct i as [|i], j as [|j]; cbn [nth]; try lra; try lia.
  - rewrite Forall_forall in Fo. apply Fo, nth_In. cbn in H. lia.
  - apply IH; [assumption|cbn in H; lia].
Qed.
(** C60: between two consecutive thresholds the probability is interpolated linearly at the threshold plus the displacement. *)
Theorem C60_between ts ps dz t i : qssorted ts -> length ps = length ts -> (S i < length ts)%nat -> nth i ts 0 <= t + dz <= nth (S i) ts 0 ->
  adjust_prob_at ts ps dz t == nth i ps 0 + (t + dz - nth i ts 0) / (nth (S i) ts 0 - nth i ts 0) * (nth (S i) ps 0 - nth i ps 0).
Proof.
  intros So L Hi Hx. unfold adjust_prob_at. pose proof (sorted_first_last ts i So ltac:(lia)) as B1. pose proof (sorted_first_last ts (S i) So ltac:(lia)) as B2.
  destruct (Qltb_spec (t + dz) (nth 0 ts 0)) as [B|_]; [lra|]. destruct (Qltb_spec (last ts 0) (t + dz)) as [B|_]; [lra|]. cbn [orb].
  assert (F1 : map fst (combine ts ps) = ts) by (apply map_fst_combine; congruence).
  assert (F2 : map snd (combine ts ps) = ps). { clear - L. revert ps L. induction ts as [|a ts IH]; intros [|b ps] L; cbn in *; try discriminate; [reflexivity|]. f_equal. apply IH. lia. }
  rewrite (np_interp_segment (combine ts ps) i); rewrite ?F1, ?F2; [|assumption|rewrite combine_length; lia|assumption].
  unfold lerp. assert (nth i ts 0 < nth (S i) ts 0). { clear - So Hi. revert i Hi. induction ts as [|a ts IH]; intros i Hi; [cbn in Hi; lia|]. apply StronglySorted_inv in So as [So Fo]. destruct i as [|i]; [|cbn [nth]; apply IH; [assumption|cbn in Hi; lia]].
    destruct ts as [|b ts]; [cbn in Hi; lia|]. cbn. now inversion Fo. }
  field. lra.
Qed.
(** C60: probabilities of not exceeding a threshold (they grow with the threshold): beyond the thresholds the probability of the highest or lowest threshold is taken. *)
Theorem C60_outside ts ps dz t : qssorted ts -> ts <> [] -> length ps = length ts -> qsorted ps -> In t ts ->
  (last ts 0 < t + dz -> adjust_prob_at ts ps dz t == last ps 0) /\ (t + dz < nth 0 ts 0 -> adjust_prob_at ts ps dz t == nth 0 ps 0).
Proof.
  intros So Ne L Sp Ht. apply (In_nth _ _ 0) in Ht as (i & Hi & <-). pose proof (sorted_first_last ts i So Hi) as B. unfold adjust_prob_at. destruct ps as [|p ps]; [destruct ts; [congruence|discriminate]|]. cbn [hd tl]. split; intro H.
  - destruct (Qltb_spec (last ts 0) (nth i ts 0 + dz)) as [_|C]; [|lra]. rewrite Bool.orb_true_r. destruct (Qltb_spec 0 dz) as [_|C]; [|lra].
    apply Qle_antisym.
    + apply qmaxl_lub. rewrite Forall_forall. intros y Hy. apply (In_nth _ _ 0) in Hy as (k & Hk & <-). rewrite last_nth. apply qsorted_nth; [assumption|cbn [length] in *; lia].
    + apply qmaxl_ge, last_in. discriminate.
  - destruct (Qltb_spec (nth i ts 0 + dz) (nth 0 ts 0)) as [_|C]; [|lra]. cbn [orb]. destruct (Qltb_spec 0 dz) as [C|_]; [lra|].
    apply Qle_antisym.
    + apply qminl_le. now left.
    + apply qminl_glb. apply Forall_forall. intros y Hy. apply (In_nth _ _ 0) in Hy as (k & Hk & <-). change (nth 0 (p :: ps) 0 <= nth k (p :: ps) 0). apply qsorted_nth; [assumption|lia].
Qed.
Lemma snd_combine (ts ps : list Q) : length ps = length ts -> map snd (combine ts ps) = ps.
Proof. revert ps. induction ts as [|a ts IH]; intros [|b ps] L; cbn in *; try discriminate; [reflexivity|]. f_equal. apply IH. lia. Qed.
(** C60: adjusted probabilities stay within the range of the original probabilities of the site. *)
Theorem C60_range ts ps dz t lo hi : ts <> [] -> length ps = length ts -> Forall (fun p => lo <= p <= hi) ps -> lo <= adjust_prob_at ts ps dz t <= hi.
Proof.
  intros Ne L F. unfold adjust_prob_at. destruct ps as [|p ps]; [destruct ts; [congruence|discriminate]|]. cbn [hd tl]. rewrite Forall_forall in F. destruct (_ || _)%bool.
  - destruct (0 <? dz).
    + destruct (qmaxl_in p ps) as (y & Hy & ->). now apply F.
    + destruct (qminl_in p ps) as (y & Hy & ->). now apply F.
  - apply np_interp_bounds; [destruct ts; [congruence|discriminate]|]. rewrite Forall_forall. intros [a b] H. apply in_combine_r in H. now apply F.
Qed.
(** C60: a site at the height of its grid point keeps its probabilities. *)
Theorem C60_no_displacement ts ps dz i : qssorted ts -> length ps = length ts -> dz == 0 -> (i < length ts)%nat -> adjust_prob_at ts ps dz (nth i ts 0) == nth i ps 0.
Proof.
  intros So L Z0 Hi. unfold adjust_prob_at. pose proof (sorted_first_last ts i So Hi) as B.
  destruct (Qltb_spec (nth i ts 0 + dz) (nth 0 ts 0)) as [C|_]; [lra|]. destruct (Qltb_spec (last ts 0) (nth i ts 0 + dz)) as [C|_]; [lra|]. cbn [orb].
  assert (F1 : map fst (combine ts ps) = ts) by (apply map_fst_combine; congruence).
  assert (K : np_interp (combine ts ps) (nth i (map fst (combine ts ps)) 0) == nth i (map snd (combine ts ps)) 0) by (apply np_interp_knot; [rewrite F1; assumption|rewrite combine_length; lia]).
  rewrite F1, snd_combine in K by assumption. rewrite <- K.
  destruct (combine ts ps) as [|[x0 y0] k]; [reflexivity|]. cbn [np_interp]. destruct (Qltb_spec (nth i ts 0 + dz) x0), (Qltb_spec (nth i ts 0) x0); try lra; try reflexivity; apply np_from_comp; lra.
Qed.
(** C60: probabilities of not exceeding a threshold still grow with the threshold, and grow with the displacement. *)
Theorem C60_monotone ts ps dz dz' t t' : qssorted ts -> length ps = length ts -> qsorted ps -> In t ts -> In t' ts -> t <= t' -> dz <= dz' ->
  adjust_prob_at ts ps dz t <= adjust_prob_at ts ps dz' t'.
Proof.
  intros So L Sp Ht Ht' Le Ld. assert (Ne : ts <> []) by (intros ->; destruct Ht).
  destruct (C60_outside ts ps dz t So Ne L Sp Ht) as [A1 A2]. destruct (C60_outside ts ps dz' t' So Ne L Sp Ht') as [B1 B2].
  assert (Rg : Forall (fun p => nth 0 ps 0 <= p <= last ps 0) ps).
  { rewrite Forall_forall. intros y Hy. apply (In_nth _ _ 0) in Hy as (k & Hk & <-). rewrite last_nth. split; apply qsorted_nth; trivial; lia. }
  pose proof (C60_range ts ps dz t _ _ Ne L Rg) as R1. pose proof (C60_range ts ps dz' t' _ _ Ne L Rg) as R2.
  destruct (Qlt_le_dec (last ts 0) (t' + dz')) as [C|C]; [rewrite (B1 C); lra|].
  destruct (Qlt_le_dec (t + dz) (nth 0 ts 0)) as [D|D]; [rewrite (A2 D); lra|].
  unfold adjust_prob_at. destruct (Qltb_spec (t + dz) (nth 0 ts 0)) as [X|_]; [lra|]. destruct (Qltb_spec (last ts 0) (t + dz)) as [X|_]; [lra|].
  destruct (Qltb_spec (t' + dz') (nth 0 ts 0)) as [X|_]; [lra|]. destruct (Qltb_spec (last ts 0) (t' + dz')) as [X|_]; [lra|]. cbn [orb].
  apply np_interp_mono; [now rewrite snd_combine|lra].
Qed.
(** C60: from the exact probabilities of an ensemble, the result at a threshold whose shifted value is a threshold again is the probability for the ensemble lowered by the displacement. *)
Theorem C60_distribution ts vs dz t : qssorted ts -> In t ts -> (exists t', In t' ts /\ t' == t + dz) ->
  adjust_prob_at ts (map (share_below vs) ts) dz t == share_below (map (fun v => v - dz) vs) t.
Proof.
  intros So Ht (t' & Ht' & E). apply (In_nth _ _ 0) in Ht' as (i & Hi & <-). pose proof (sorted_first_last ts i So Hi) as B. unfold adjust_prob_at.
  destruct (Qltb_spec (t + dz) (nth 0 ts 0)) as [C|_]; [lra|]. destruct (Qltb_spec (last ts 0) (t + dz)) as [C|_]; [lra|]. cbn [orb].
  assert (Lm : length (map (share_below vs) ts) = length ts) by apply map_length.
  assert (F1 : map fst (combine ts (map (share_below vs) ts)) = ts) by (apply map_fst_combine; congruence).
  pose proof (np_interp_knot (combine ts (map (share_below vs) ts)) i ltac:(rewrite F1; assumption) ltac:(rewrite combine_length; lia)) as K. rewrite F1, snd_combine in K by assumption.
  rewrite nth_map_lt with (d := 0) in K by assumption.
  assert (K2 : np_interp (combine ts (map (share_below vs) ts)) (t + dz) == np_interp (combine ts (map (share_below vs) ts)) (nth i ts 0)).
  { destruct (combine ts (map (share_below vs) ts)) as [|[x0 y0] k]; [reflexivity|]. cbn [np_interp]. destruct (Qltb_spec (t + dz) x0), (Qltb_spec (nth i ts 0) x0); try lra. apply np_from_comp. lra. }
  rewrite K2, K. unfold share_below. rewrite Qlen_map.
  assert (Fl : length (filter (fun v => v <=? nth i ts 0) vs) = length (filter (fun v => v <=? t) (map (fun v => v - dz) vs))).
  { clear - E. induction vs as [|v vs IH]; [reflexivity|]. cbn [map filter]. destruct (Qleb_spec v (nth i ts 0)), (Qleb_spec (v - dz) t); cbn [length]; try lra; congruence. }
  unfold Qlen. now rewrite Fl.
Qed.
(** C60: the values of the same forecast are moved the other way: probabilities and values adjusted for the same displacement disagree. *)
Theorem C60_consistency_refuted : ~ (forall ts vs dz t, qssorted ts -> In t ts -> (exists t', In t' ts /\ t' == t + dz) -> adjust_prob_at ts (map (share_below vs) ts) dz t == share_below (adjust_values dz vs) t).
Proof.
  intro H. specialize (H [0; 100; 200] [100] 100 0). assert (X : 1 == 0); [|discriminate X]. 
  assert (Y : adjust_prob_at [0; 100; 200] (map (share_below [100]) [0; 100; 200]) 100 0 == share_below (adjust_values 100 [100]) 0).
  { apply H; [repeat constructor|now left|]. exists 100. split; [right; now left|reflexivity]. }
  vm_compute in Y. discriminate Y.
Qed.
(** C60: for probabilities of exceeding a threshold the documented rule outside the thresholds (use the highest or lowest threshold) is not followed: the largest probability is taken instead of that of the highest threshold. *)
Theorem C60_above_refuted : ~ (forall ts ps dz t, qssorted ts -> ts <> [] -> length ps = length ts -> qsorted (rev ps) -> In t ts -> last ts 0 < t + dz -> adjust_prob_at ts ps dz t == last ps 0).
Proof.
  intro H. specialize (H [0; 100] [1; 0] 50 100). assert (Y : adjust_prob_at [0; 100] [1; 0] 50 100 == last [1; 0] 0).
  { apply H; [repeat constructor|discriminate|reflexivity|repeat constructor; discriminate|right; now left|reflexivity]. }
  vm_compute in Y. discriminate Y.
Qed.
(** C60: which cubes of probabilities are accepted, and the shape of the result. *)
Theorem C60_accepted m n ts rows nb : find_method m n = Some nb -> length nb = length rows ->
  (exists out, height_adjust_probs m n ts rows = Ok out) <-> (2 <= length ts)%nat /\ (2 <= length rows)%nat.
Proof.
  intros F L. unfold height_adjust_probs. rewrite F. destruct (Nat.ltb_spec (length ts) 2) as [A|A]; [split; [intros [? ?]; discriminate|lia]|]. destruct (Nat.ltb_spec (length rows) 2) as [B|B]; [split; [intros [? ?]; discriminate|lia]|]. split; [auto|eauto].
Qed.
Theorem C60_too_few m n ts rows : (length ts < 2)%nat -> height_adjust_probs m n ts rows = Err ValueError.
Proof. intro H. unfold height_adjust_probs. destruct (Nat.ltb_spec (length ts) 2); [reflexivity|lia]. Qed.
Theorem C60_sites m n ts rows out nb j row x y dz : height_adjust_probs m n ts rows = Ok out -> find_method m n = Some nb -> nth_error nb j = Some (x, y, dz) -> nth_error rows j = Some row ->
  nth_error out j = Some (map (adjust_prob_at ts row dz) ts).
Proof.
  unfold height_adjust_probs. intros H F Hn Hr. rewrite F in H. destruct (_ <? _)%nat; [discriminate|]. destruct (_ <? _)%nat; [discriminate|]. apply Ok_inj in H. subst out. clear F.
  revert nb rows Hn Hr. induction j as [|j IH]; intros [|a nb] [|r rows] Hn Hr; cbn in *; try discriminate; [injection Hn as ->; injection Hr as ->; reflexivity|]. now apply IH.
Qed.
Example C60_case : map (map Qred) (match height_adjust_probs "nearest" {| n_hash := coordinate_hash hg3; n_methods := [("nearest"%string, [(0, 0, 25); (1, 0, -150)])] |} [0; 100; 200] [[0; 1 # 2; 1]; [1 # 4; 1 # 2; 1]] with Ok o => o | Err _ => [] end) = [[1 # 8; 5 # 8; 1]; [1 # 4; 1 # 4; 3 # 8]] /\ qssorted [0; 100; 200] /\ qsorted [1 # 4; 1 # 2; 1].
Proof. repeat split; try (vm_compute; reflexivity); repeat constructor; discriminate. Qed.

Print Assumptions C58_sites.
Print Assumptions C58_nearest.
Print Assumptions C58_land.
Print Assumptions C58_minimum_dz.
Print Assumptions C58_minimum_dz_all.
Print Assumptions C58_reach.
Print Assumptions C58_on_grid.
Print Assumptions C58_displacement.
Print Assumptions C58_no_altitude.
Print Assumptions C58_wmo.
Print Assumptions C58_ids.
Print Assumptions C58_accepted.
Print Assumptions C58_independent.
Print Assumptions C58_node_limit_refuted.
Print Assumptions C58_method_name.
Print Assumptions C59_grid_match.
Print Assumptions C59_bounds_refuted.
Print Assumptions C59_value.
Print Assumptions C59_refused.
Print Assumptions C59_end_to_end.
Print Assumptions C59_fixed.
Print Assumptions C59_gridded.
Print Assumptions C59_lapse_checked.
Print Assumptions C60_values.
Print Assumptions C60_between.
Print Assumptions C60_outside.
Print Assumptions C60_range.
Print Assumptions C60_no_displacement.
Print Assumptions C60_monotone.
Print Assumptions C60_distribution.
Print Assumptions C60_consistency_refuted.
Print Assumptions C60_above_refuted.
Print Assumptions C60_accepted.
Print Assumptions C60_too_few.
Print Assumptions C60_sites.
