(** C124: neighbour_finding end to end. *)
From Verif Require Import Base Model_Spot Spec_Spot Proofs_Spot Props_Spot Model_NeighbourCli Proofs_Nbhood.
Local Open Scope Q_scope.

Section Neighbours.
Context {crs : Type} (make_crs : string -> string -> result crs) (plate_carree : crs).
(** the model grid, and for each coordinate system the sites transformed by it *)
Context (g : model_grid) (near : site -> Z * Z) (dist2 : site -> Z * Z -> Q) (query : list (Z * Z) -> site -> nat -> list (Z * Z)) (sites : crs -> list site).
Definition selection (cfg : nconfig) (c : crs) : result (list spot_site) := select_neighbours cfg g near dist2 query (sites c).
Definition run (o : options) := command make_crs plate_carree selection o.
(** the same options with one method asked for *)
Definition only (land dz : bool) (o : options) : options := {| p_all := false; p_land := land; p_dz := dz; p_radius := p_radius o; p_limit := p_limit o; p_crs := p_crs o; p_crs_options := p_crs_options o; p_id_key := p_id_key o |}.

Lemma selection_rows cfg c l : selection cfg c = Ok l -> l = map (spot_of cfg g near dist2 query) (filter (in_domain g) (sites c)).
Proof. intro H. apply select_inv in H as (_ & _ & _ & E). exact E. Qed.
Lemma qeq_refl q : Qeq_bool q q = true.
Proof. apply Qeq_bool_iff. reflexivity. Qed.
Lemma option_refl (a : option Z) : same_option Z.eqb a a = true.
Proof. destruct a; cbn; [apply Z.eqb_refl|reflexivity]. Qed.
Lemma rows_same cfg cfg' l : same_sites (map (spot_of cfg g near dist2 query) l) (map (spot_of cfg' g near dist2 query) l) = true.
Proof. induction l as [|s l IH]; [reflexivity|]. cbn [map same_sites]. rewrite IH. unfold same_site. cbn [spot_of o_site o_alt o_wmo]. rewrite !qeq_refl, !option_refl. reflexivity. Qed.

Lemma single_inv land dz o : run (only land dz o) = (let* c := crs_of make_crs plate_carree o in let* l := selection (config o land dz) c in Ok [(0%Z, method_name land dz, l)]).
Proof.
  unfold run, command. cbn [p_all only andb]. change (crs_of make_crs plate_carree (only land dz o)) with (crs_of make_crs plate_carree o).
  destruct (crs_of make_crs plate_carree o) as [c|e]; [|reflexivity]. cbn [bind p_land p_dz only fst snd]. change (config (only land dz o) land dz) with (config o land dz).
  destruct (selection (config o land dz) c); reflexivity.
Qed.

(** C124: with all methods, and no constraint, the result has the rows of the four single runs, numbered 0 to 3 in the order nearest, land, least height difference, both; the sites of all rows are the same; and it is given exactly if each single run is: the four can always be merged. *)
Theorem C124_all_methods o : p_all o = true -> p_land o = false -> p_dz o = false ->
  forall rows, run o = Ok rows <->
  exists l0 l1 l2 l3, rows = [(0%Z, "nearest"%string, l0); (1%Z, "nearest_land"%string, l1); (2%Z, "nearest_minimum_dz"%string, l2); (3%Z, "nearest_land_minimum_dz"%string, l3)] /\
    run (only false false o) = Ok [(0%Z, "nearest"%string, l0)] /\ run (only true false o) = Ok [(0%Z, "nearest_land"%string, l1)] /\
    run (only false true o) = Ok [(0%Z, "nearest_minimum_dz"%string, l2)] /\ run (only true true o) = Ok [(0%Z, "nearest_land_minimum_dz"%string, l3)].
Proof.
  intros A L D rows. rewrite !single_inv. unfold run at 1, command. rewrite A, L, D. cbn [andb orb].
  destruct (crs_of make_crs plate_carree o) as [c|e]; cbn [bind]; [|split; [discriminate|intros (? & ? & ? & ? & _ & X & _); discriminate]].
  cbn [mapM four fst snd].
  destruct (selection (config o false false) c) as [l0|] eqn:E0; cbn [bind]; [|split; [discriminate|intros (? & ? & ? & ? & _ & X & _); discriminate]].
  destruct (selection (config o true false) c) as [l1|] eqn:E1; cbn [bind]; [|split; [discriminate|intros (? & ? & ? & ? & _ & _ & X & _); discriminate]].
  destruct (selection (config o false true) c) as [l2|] eqn:E2; cbn [bind]; [|split; [discriminate|intros (? & ? & ? & ? & _ & _ & _ & X & _); discriminate]].
  destruct (selection (config o true true) c) as [l3|] eqn:E3; cbn [bind]; [|split; [discriminate|intros (? & ? & ? & ? & _ & _ & _ & _ & X); discriminate]].
  cbn [numbered merged snd forallb].
  assert (S1 : same_sites l0 l1 = true /\ same_sites l0 l2 = true /\ same_sites l0 l3 = true).
  { apply selection_rows in E0, E1, E2, E3. subst. rewrite !rows_same. auto. }
  destruct S1 as (-> & -> & ->). cbn [andb]. split.
  - intro H. apply Ok_inj in H. subst rows. exists l0, l1, l2, l3. repeat split.
  - intros (m0 & m1 & m2 & m3 & -> & X0 & X1 & X2 & X3). apply Ok_inj in X0, X1, X2, X3. injection X0 as <-. injection X1 as <-. injection X2 as <-. injection X3 as <-. reflexivity.
Qed.
Theorem C124_same_sites o rows : run o = Ok rows -> forall i n l j m k, In (i, n, l) rows -> In (j, m, k) rows -> map o_site l = map o_site k /\ map o_alt l = map o_alt k /\ map o_wmo l = map o_wmo k.
Proof.
  intro H. unfold run, command in H. destruct (p_all o && (p_land o || p_dz o))%bool; [discriminate|]. destruct (crs_of make_crs plate_carree o) as [c|]; [|discriminate]. cbn [bind] in H.
  assert (G : forall i n l, In (i, n, l) rows -> exists cfg, l = map (spot_of cfg g near dist2 query) (filter (in_domain g) (sites c))).
  { destruct (p_all o).
    - cbn [mapM four fst snd] in H.
      destruct (selection (config o false false) c) as [l0|] eqn:E0; cbn [bind] in H; [|discriminate].
      destruct (selection (config o true false) c) as [l1|] eqn:E1; cbn [bind] in H; [|discriminate].
      destruct (selection (config o false true) c) as [l2|] eqn:E2; cbn [bind] in H; [|discriminate].
      destruct (selection (config o true true) c) as [l3|] eqn:E3; cbn [bind] in H; [|discriminate].
      cbn [numbered merged] in H. destruct (forallb _ _); [|discriminate]. apply Ok_inj in H. subst rows. apply selection_rows in E0, E1, E2, E3.
      intros i n l [X|[X|[X|[X|[]]]]]; injection X as _ _ <-; eauto.
    - cbn [fst snd] in H. destruct (selection (config o (p_land o) (p_dz o)) c) as [l0|] eqn:E0; cbn [bind] in H; [|discriminate]. apply Ok_inj in H. subst rows. apply selection_rows in E0.
      intros i n l [X|[]]. injection X as _ _ <-. eauto. }
  intros i n l j m k H1 H2. apply G in H1 as (c1 & ->). apply G in H2 as (c2 & ->). rewrite !map_map. repeat split; apply map_ext; reflexivity.
Qed.

(** C124: one method: the row of the plugin, with the defaults of the plugin for what is not given: a radius of 10 km and 36 points. *)
Theorem C124_single o c : p_all o = false -> crs_of make_crs plate_carree o = Ok c ->
  run o = let* l := select_neighbours {| c_land := p_land o; c_dz := p_dz o; c_radius := match p_radius o with Some r => r | None => 10000 end; c_limit := match p_limit o with Some n => n | None => 36%nat end;
     c_id_key := match p_id_key o with None | Some ""%string => false | Some _ => true end |} g near dist2 query (sites c) in Ok [(0%Z, method_name (p_land o) (p_dz o), l)].
Proof.
  intros A C. unfold run, command. rewrite A, C. cbn [andb bind fst snd]. change (selection (config o (p_land o) (p_dz o)) c) with (select_neighbours (config o (p_land o) (p_dz o)) g near dist2 query (sites c)). unfold config.
  destruct (select_neighbours _ g near dist2 query (sites c)); reflexivity.
Qed.

(** C124: what is refused: all methods with a constraint, a coordinate system that is not in the list, options without a system. *)
Theorem C124_refused o :
  (p_all o = true -> p_land o = true \/ p_dz o = true -> run o = Err ValueError) /\
  (p_all o = false \/ (p_land o = false /\ p_dz o = false) ->
    (forall n, p_crs o = Some n -> ~ In n projections -> run o = Err ValueError) /\
    (p_crs o = None -> p_crs_options o <> None -> run o = Err TypeError) /\
    (p_crs o = None -> p_crs_options o = None -> forall c, crs_of make_crs plate_carree o = Ok c -> c = plate_carree)).
Proof.
  split.
  - intros A LD. unfold run, command. rewrite A. destruct LD as [-> | ->]; [reflexivity|]. rewrite Bool.orb_true_r. reflexivity.
  - intro F. assert (E : (p_all o && (p_land o || p_dz o))%bool = false) by (destruct F as [-> |[-> ->]]; [reflexivity|]; destruct (p_all o); reflexivity). unfold run, command, crs_of. rewrite E. split; [|split].
    + intros n -> N. destruct (existsb (String.eqb n) projections) eqn:X; [|reflexivity]. exfalso. apply N. apply existsb_exists in X as (x & Hx & Ex). apply String.eqb_eq in Ex. subst. exact Hx.
    + intros -> N. destruct (p_crs_options o); [reflexivity|congruence].
    + intros -> ->. intros c H. apply Ok_inj in H. congruence.
Qed.

(** C124: all methods need land: on a grid without a land point the whole command is refused, although the nearest points are found. *)
Theorem C124_no_land_refuted o c : p_all o = true -> p_land o = false -> p_dz o = false -> crs_of make_crs plate_carree o = Ok c -> p_id_key o = None ->
  g_circular g = true \/ g_metres g = true -> g_same_coords g = true -> (forall p, on_grid g p -> g_land g p = false) ->
  (exists er, run o = Err er) /\ exists l, run (only false false o) = Ok [(0%Z, "nearest"%string, l)].
Proof.
  intros A L D C K GC GS NL. split.
  - destruct (run o) as [rows|er] eqn:R; [|eauto]. exfalso. apply (C124_all_methods o A L D) in R as (l0 & l1 & l2 & l3 & _ & _ & R1 & _). rewrite single_inv, C in R1. cbn [bind] in R1.
    destruct (selection (config o true false) c) as [l|] eqn:E; [|discriminate]. assert (X : exists out, select_neighbours (config o true false) g near dist2 query (sites c) = Ok out) by (exists l; exact E).
    apply C58_accepted in X as (_ & _ & X & _). destruct X as (p & P1 & P2); [left; reflexivity|]. specialize (P2 eq_refl). rewrite NL in P2 by exact P1. discriminate.
  - rewrite single_inv, C. cbn [bind]. assert (X : exists out, select_neighbours (config o false false) g near dist2 query (sites c) = Ok out).
    { apply C58_accepted. split; [exact GC|]. split; [exact GS|]. split; [intros [X|X]; discriminate|]. unfold config. rewrite K. cbn. discriminate. }
    destruct X as (l & X). unfold selection. rewrite X. exists l. reflexivity.
Qed.
End Neighbours.

(** Case: the grid and sites of C58; the second site is off the grid. *)
Definition opts3 : options := {| p_all := true; p_land := false; p_dz := false; p_radius := None; p_limit := None; p_crs := Some "OSGB"%string; p_crs_options := None; p_id_key := None |}.
Definition osgb (n t : string) : result nat := if ((n =? "OSGB") && (t =? "{}"))%string%bool then Ok 1%nat else Err ValueError.
Definition run4 := run osgb 0%nat grid3 near3 (plane2 kms kms) (simple_tree (plane2 kms kms)) (fun c => match c with 1%nat => [s1; s2; s3] | _ => [] end).
Example C124_case : (match run4 opts3 with Ok rows => map (fun r => (fst r, map o_point (snd r))) rows | Err _ => [] end) =
  [(0%Z, "nearest"%string, [(1, 0); (2, 0)]); (1%Z, "nearest_land"%string, [(1, 0); (1, 0)]); (2%Z, "nearest_minimum_dz"%string, [(2, 0); (2, 0)]); (3%Z, "nearest_land_minimum_dz"%string, [(0, 0); (0, 0)])]%Z.
Proof. vm_compute. reflexivity. Qed.

Print Assumptions C124_all_methods.
Print Assumptions C124_same_sites.
Print Assumptions C124_single.
Print Assumptions C124_refused.
Print Assumptions C124_no_land_refuted.
