(** C116: SpotManipulation. *)
From Verif Require Proofs_Table.
From Verif Require Import Base Interp Proofs_Interp Proofs_Nbhood Model_Nbhood Model_Percentiles Proofs_Percentiles Proofs_Resample Proofs_ProbPerc Model_Lapse Model_Spot Proofs_Spot Props_Spot Model_PercConv Spec_PercConv Props_PercConv Model_SpotManip.
Local Open Scope Q_scope.

Definition vsame : list (list (option Q)) -> list (list (option Q)) -> Prop := Forall2 (Forall2 osame).
Lemma osame_refl a : osame a a. Proof. destruct a; cbn; [reflexivity|exact Logic.I]. Qed.
Lemma osame_trans a b c : osame a b -> osame b c -> osame a c.
Proof. destruct a, b, c; cbn; try tauto. intros H K. rewrite H. exact K. Qed.
Lemma osame_sym a b : osame a b -> osame b a. Proof. destruct a, b; cbn; try tauto. intro H. symmetry. exact H. Qed.
Lemma f2_refl {A} (R : A -> A -> Prop) l : (forall a, R a a) -> Forall2 R l l. Proof. intro H. induction l; constructor; auto. Qed.
Lemma f2_trans {A} (R : A -> A -> Prop) : (forall a b c, R a b -> R b c -> R a c) -> forall l m n, Forall2 R l m -> Forall2 R m n -> Forall2 R l n.
Proof. intros T l m n H. revert n. induction H; intros n K; inversion K; subst; constructor; eauto. Qed.
Lemma f2_sym {A} (R : A -> A -> Prop) : (forall a b, R a b -> R b a) -> forall l m, Forall2 R l m -> Forall2 R m l.
Proof. intros T l m H. induction H; constructor; auto. Qed.
Lemma vsame_refl v : vsame v v. Proof. apply f2_refl. intro. apply f2_refl, osame_refl. Qed.
Lemma vsame_sym v w : vsame v w -> vsame w v. Proof. apply f2_sym. apply f2_sym. exact osame_sym. Qed.
Lemma vsame_trans u v w : vsame u v -> vsame v w -> vsame u w. Proof. apply f2_trans. apply f2_trans. exact osame_trans. Qed.

Lemma regroup_map {A B} (F : A -> B) shape : regroup shape (map F (concat shape)) = map (map F) shape.
Proof.
  induction shape as [|v r IH]; [reflexivity|]. cbn [concat regroup map]. rewrite map_app, firstn_app, skipn_app, map_length, Nat.sub_diag. cbn [firstn skipn].
  rewrite firstn_all2 by (rewrite map_length; lia). rewrite skipn_all2 by (rewrite map_length; lia). rewrite app_nil_r. cbn. f_equal. exact IH.
Qed.
Lemma regroup_f2 {A B} (R : B -> B -> Prop) (shape : list (list A)) : forall l m, Forall2 R l m -> Forall2 (Forall2 R) (regroup shape l) (regroup shape m).
Proof.
  induction shape as [|v r IH]; intros l m H; cbn; constructor.
  - generalize (length v). clear IH. induction H; intros [|n]; cbn; constructor; auto.
  - apply IH. generalize (length v). clear IH. induction H; intros [|n]; cbn; auto.
Qed.
Lemma regroup_forall {A B} (P : B -> Prop) (shape : list (list A)) : forall l, Forall P l -> Forall (Forall P) (regroup shape l).
Proof. induction shape as [|v r IH]; intros l H; cbn; constructor; [|apply IH]; (apply Forall_forall; intros x Hx; rewrite Forall_forall in H; apply H); [rewrite <- (firstn_skipn (length v) l); apply in_or_app; left; exact Hx|rewrite <- (firstn_skipn (length v) l); apply in_or_app; right; exact Hx]. Qed.

Definition in_0_100 (asked : list Q) : Prop := forall p, In p asked -> 0 <= p <= 100.
(** What the percentiles are at one site. *)
Definition site_values (numba : bool) (bounds : Q * Q) (cfg : config) (asked : list Q) (real : bool) (k : kind) (v : list (list (option Q))) : list (list (option Q)) :=
  match k with
  | Percs ps => if forallb (fun a => existsb (Qeq_bool a) ps) asked then map (fun member => pick None member (kept_percentiles asked ps)) v
      else map (fun member => map Some (map (itp numba (combine (with_ends 0 100 ps) (with_ends (fst bounds) (snd bounds) (map known member)))) asked)) v
  | Probs _ rel ths =>
      let fp := if k_skip cfg then ths else match add_bounds_thresholds (k_ignore cfg) bounds ths [] with Ok x => fst x | Err _ => [] end in
      map (fun member => map Some (map (fun p => itp numba (combine (let c := to_cdf rel (map known member) in if k_skip cfg then c else with_ends 0 1 c) fp) (p / 100)) asked)) v
  | One => if real then [map (mquantile (concat v)) asked] else v
  end.
Definition out_kind (asked : list Q) (real : bool) (k : kind) : kind :=
  match k with
  | Percs ps => if forallb (fun a => existsb (Qeq_bool a) ps) asked then Percs (pick 0 ps (kept_percentiles asked ps)) else Percs asked
  | Probs _ _ _ => Percs asked
  | One => if real then Percs asked else One
  end.
Definition out_real (real : bool) (k : kind) : bool := match k with One => false | _ => real end.

Lemma thresholds_split warn bounds ths cdf : add_bounds_thresholds warn bounds ths cdf =
  match add_bounds_thresholds warn bounds ths [] with Ok x => Ok (fst x, map (with_ends 0 1) cdf) | Err e => Err e end.
Proof. destruct bounds as [lo hi]. unfold add_bounds_thresholds. destruct (nondecreasing_b _); [reflexivity|]. destruct warn; reflexivity. Qed.
Lemma members_fast rows : existsb (existsb (existsb (fun v : option Q => match v with None => true | Some _ => false end))) rows = false ->
  forall v, In v rows -> forall o, In o (concat v) -> o <> None.
Proof.
  intros H v Hv o Ho E. subst o. apply in_concat in Ho as (m & Hm & Ho).
  assert (K : existsb (existsb (existsb (fun v : option Q => match v with None => true | Some _ => false end))) rows = true); [|congruence].
  apply existsb_exists. exists v. split; [exact Hv|]. apply existsb_exists. exists m. split; [exact Hm|]. apply existsb_exists. exists None. auto.
Qed.
Lemma fast_is_slow l p : (forall o, In o l -> o <> None) -> l <> [] -> 0 <= p <= 100 -> osame (Some (np_percentile (unmasked l) p)) (mquantile l p).
Proof.
  intros H NE P. assert (NU : unmasked l <> []). { intro K. pose proof (proj1 (unmasked_nil l) K) as U. destruct l as [|o r]; [congruence|]. apply (H o (or_introl eq_refl)), U. left. reflexivity. }
  pose proof (mq_cases l p) as M. destruct (mquantile l p) as [v|] eqn:E; [|destruct (unmasked l); [congruence|destruct M; congruence]].
  cbn. eapply percentile_same; [exact NU|exact P|reflexivity|apply np_is; assumption|apply mq_is; assumption].
Qed.

Lemma out_of_100 asked : existsb (fun p => ((p <? 0) || (100 <? p))%bool) asked = false <-> in_0_100 asked.
Proof.
  unfold in_0_100. split.
  - intros H p Hp. destruct ((p <? 0) || (100 <? p))%bool eqn:E; [assert (existsb (fun p => ((p <? 0) || (100 <? p))%bool) asked = true) by (apply existsb_exists; exists p; auto); congruence|].
    apply orb_false_iff in E as [E1 E2]. destruct (Qltb_spec p 0); [discriminate|]. destruct (Qltb_spec 100 p); [discriminate|]. lra.
  - intro H. apply not_true_is_false. intro K. apply existsb_exists in K as (p & Hp & E). specialize (H p Hp). apply orb_true_iff in E as [E|E]; [destruct (Qltb_spec p 0)|destruct (Qltb_spec 100 p)]; try discriminate; lra.
Qed.
Lemma to_percentiles_sites numba bounds cfg asked s out : asked <> [] -> in_0_100 asked -> (forall v, In v (s_rows s) -> concat v <> []) ->
  to_percentiles numba bounds cfg asked s = Ok out ->
  Forall2 vsame (s_rows out) (map (site_values numba bounds cfg asked (s_real s) (s_kind s)) (s_rows s)) /\
  s_kind out = out_kind asked (s_real s) (s_kind s) /\ s_real out = out_real (s_real s) (s_kind s) /\ s_ids out = s_ids s /\ s_hash out = s_hash s.
Proof.
  intros NA R NE H. unfold to_percentiles in H. unfold site_values, out_kind, out_real. destruct (s_kind s) as [|ps|diag rel ths] eqn:K.
  - destruct (s_real s) eqn:Re.
    + rewrite (proj2 (out_of_100 asked) R) in H. rewrite andb_false_r in H. apply Ok_inj in H. subst out. cbn [with_rows s_rows s_kind s_real s_ids s_hash]. split; [|auto].
      destruct (existsb (existsb (existsb _)) (s_rows s)) eqn:E; cbn [negb].
      * apply f2_refl, vsame_refl.
      * pose proof (members_fast _ E) as U. clear E K. induction (s_rows s) as [|v r IH]; cbn [map]; constructor; [|apply IH; intros; [apply NE|eapply U]; try (right; eassumption); eassumption].
        constructor; [|constructor]. assert (UV := U v (or_introl eq_refl)). assert (NV := NE v (or_introl eq_refl)). clear IH U NE NA.
        induction asked as [|p asked IHa]; cbn [map]; constructor; [apply fast_is_slow; [exact UV|exact NV|apply R; left; reflexivity]|apply IHa; intros q Hq; apply R; right; exact Hq].
    + apply Ok_inj in H. subst out. rewrite K, Re. split; [|auto]. rewrite map_id. apply f2_refl, vsame_refl.
  - destruct (forallb (fun a => existsb (Qeq_bool a) ps) asked).
    + apply Ok_inj in H. subst out. cbn [with_rows s_rows s_kind s_real s_ids s_hash]. split; [|auto]. apply f2_refl, vsame_refl.
    + destruct (resample _ _ _ _ _ _ _ _ _) as [[desired o]|] eqn:E; [|discriminate]. cbn [bind] in H. apply Ok_inj in H. subst out. cbn [with_rows s_rows s_kind s_real s_ids s_hash].
      destruct asked as [|a asked]; [congruence|]. pose proof (resample_desired _ _ _ _ _ _ _ _ _ _ _ _ E) as [-> _].
      apply resample_inv in E as (xp & fp & EB & L & ->). apply add_bounds_strict_value in EB as [-> ->]. split; [|auto].
      rewrite !map_map. rewrite (regroup_map (fun x => map Some (map (itp numba (combine (with_ends 0 100 ps) (with_ends (fst bounds) (snd bounds) (map known x)))) (a :: asked))) (s_rows s)).
      apply f2_refl, vsame_refl.
  - destruct (probs_to_percentiles _ _ _ _ _ _ _ _ _ _ _) as [[pcts o]|] eqn:E; [|discriminate]. cbn [bind] in H. apply Ok_inj in H. subst out. cbn [with_rows s_rows s_kind s_real s_ids s_hash].
    apply p2p_inv in E as (fp & xp & oo & EB & EI & -> & EA). destruct EA as [EA|[EA _]]; [|discriminate]. injection EA as <-. split; [|auto].
    apply interp_same_y_ok in EI as [_ EI].
    assert (FX : (if k_skip cfg then ths else match add_bounds_thresholds (k_ignore cfg) bounds ths [] with Ok x => fst x | Err _ => [] end) = fp /\ xp = map (fun m => let c := to_cdf rel (map known m) in if k_skip cfg then c else with_ends 0 1 c) (concat (s_rows s))).
    { destruct (k_skip cfg); [injection EB as <- <-; rewrite map_map; auto|]. rewrite thresholds_split in EB. destruct (add_bounds_thresholds (k_ignore cfg) bounds ths []) as [x|]; [|discriminate]. injection EB as <- <-. rewrite !map_map. auto. }
    destruct FX as [-> ->].
    rewrite map_map in EI.
    assert (F2 : Forall2 (Forall2 osame) (map (map Some) oo) (map (fun m => map Some (map (fun p => itp numba (combine (let c := to_cdf rel (map known m) in if k_skip cfg then c else with_ends 0 1 c) fp) (p / 100)) asked)) (concat (s_rows s)))).
    { revert EI. generalize (concat (s_rows s)) as rr. clear. intro rr. revert oo. induction rr as [|m rr IH]; intros oo H; inversion H as [|o1 ? oo' ? H1 H2]; subst; cbn [map]; constructor; [|apply IH; exact H2].
      rewrite map_map in H1. clear -H1. revert o1 H1. induction asked as [|p a IH]; intros o1 H1; inversion H1; subst; cbn [map]; constructor; [assumption|apply IH; assumption]. }
    apply (regroup_f2 _ (s_rows s)) in F2. rewrite (regroup_map (fun m => map Some (map (fun p => itp numba (combine (let c := to_cdf rel (map known m) in if k_skip cfg then c else with_ends 0 1 c) fp) (p / 100)) asked))) in F2. exact F2.
Qed.

Lemma to_percentiles_part numba bounds cfg asked s s' out : asked <> [] -> in_0_100 asked -> s_kind s' = s_kind s -> s_real s' = s_real s -> (forall v, In v (s_rows s') -> In v (s_rows s)) ->
  to_percentiles numba bounds cfg asked s = Ok out -> exists out', to_percentiles numba bounds cfg asked s' = Ok out'.
Proof.
  intros NA R HK HR HI H. unfold to_percentiles in *. rewrite HK, HR.
  assert (HC : forall m, In m (concat (s_rows s')) -> In m (concat (s_rows s))).
  { intros m Hm. apply in_concat in Hm as (v & Hv & Hm). apply in_concat. exists v. auto. }
  destruct (s_kind s) as [|ps|diag rel ths].
  - destruct (s_real s); [|eauto]. rewrite (proj2 (out_of_100 asked) R), andb_false_r. eauto.
  - destruct (forallb _ asked); [eauto|].
    destruct (resample _ _ _ _ _ _ _ _ _) as [[desired o]|] eqn:E in H; [|discriminate]. clear H. 
    assert (G : exists y, resample numba false false bounds ps (map (map known) (concat (s_rows s'))) (Some asked) None Quantile = Ok y).
    { destruct asked as [|a asked]; [congruence|]. unfold resample in *. destruct (existsb _ (a :: asked)); [discriminate|]. cbn [bind] in *.
      destruct (add_bounds_percentiles false bounds ps (map (map known) (concat (s_rows s)))) as [[xp fp]|] eqn:B; [|discriminate]. cbn [bind] in E.
      destruct (interp_same_x numba (a :: asked) xp fp) as [oo|] eqn:X; [|discriminate]. apply interp_same_x_ok in X as [X _].
      pose proof (add_bounds_strict_value _ _ _ _ _ B) as [-> ->].
      assert (B' : exists y, add_bounds_percentiles false bounds ps (map (map known) (concat (s_rows s'))) = Ok y).
      { destruct bounds as [lo hi]. unfold add_bounds_percentiles in *. destruct (forallb nondecreasing_b (map (with_ends lo hi) (map (map known) (concat (s_rows s))))) eqn:F; [|discriminate]. cbn [bind] in B.
        assert (F' : forallb nondecreasing_b (map (with_ends lo hi) (map (map known) (concat (s_rows s')))) = true).
        { rewrite forallb_forall in F |- *. intros x Hx. apply F. rewrite map_map in Hx |- *. apply in_map_iff in Hx as (m & <- & Hm). apply in_map_iff. exists m. auto. }
        rewrite F'. cbn [bind]. destruct (nondecreasing_b _); [eauto|discriminate]. }
      destruct B' as [[xp fp] B']. pose proof (add_bounds_strict_value _ _ _ _ _ B') as [-> ->]. rewrite B'. cbn [bind].
      destruct (interp_same_x_total numba (a :: asked) (with_ends 0 100 ps) (map (with_ends (fst bounds) (snd bounds)) (map (map known) (concat (s_rows s'))))) as [o2 ->]; [|cbn [bind]; eauto].
      rewrite Forall_forall in X |- *. intros x Hx. apply X. rewrite map_map in Hx |- *. apply in_map_iff in Hx as (m & <- & Hm). apply in_map_iff. exists m. auto. }
    destruct G as [[d2 o2] ->]. cbn [bind]. eauto.
  - destruct (probs_to_percentiles _ _ _ _ _ _ _ _ _ _ _) as [[pcts o]|] eqn:E in H; [|discriminate]. clear H.
    assert (G : exists y, probs_to_percentiles numba (k_ignore cfg) (k_skip cfg) false rel bounds ths (map (map known) (concat (s_rows s'))) (Some asked) None Quantile = Ok y).
    { apply p2p_inv in E as (fp & xp & oo & EB & EI & _ & EA). destruct EA as [EA|[EA _]]; [|discriminate]. injection EA as <-. apply interp_same_y_ok in EI as [EI _].
      unfold probs_to_percentiles. cbn [bind].
      assert (B' : exists xp', (if k_skip cfg then Ok (ths, map (to_cdf rel) (map (map known) (concat (s_rows s')))) else add_bounds_thresholds (k_ignore cfg) bounds ths (map (to_cdf rel) (map (map known) (concat (s_rows s'))))) = Ok (fp, xp') /\ forall x, In x xp' -> In x xp).
      { destruct (k_skip cfg).
        - injection EB as <- <-. eexists. split; [reflexivity|]. intros x Hx. rewrite map_map in Hx |- *. apply in_map_iff in Hx as (m & <- & Hm). apply in_map_iff. exists m. auto.
        - rewrite thresholds_split in EB |- *. destruct (add_bounds_thresholds (k_ignore cfg) bounds ths []) as [y|]; [|discriminate]. injection EB as <- <-. eexists. split; [reflexivity|].
          intros x Hx. rewrite !map_map in Hx |- *. apply in_map_iff in Hx as (m & <- & Hm). apply in_map_iff. exists m. auto. }
      destruct B' as (xp' & -> & HX). cbn [bind]. destruct (interp_same_y_total numba (map (fun x => x / 100) asked) xp' fp) as [o2 ->]; [|cbn [bind]; eauto].
      rewrite Forall_forall in EI |- *. auto. }
    destruct G as [[d2 o2] ->]. cbn [bind]. eauto.
Qed.

(** ** The steps, site by site *)
Definition asked_of (w : wanted) : list Q := match w with PercentileList l => l | _ => [] end.
Definition well_formed (v : list (list (option Q))) : Prop := v <> [] /\ Forall (fun m => m <> []) v.
Lemma wf_concat v : well_formed v -> concat v <> [].
Proof. intros [N F]. destruct v as [|m r]; [congruence|]. inversion F; subst. cbn. destruct m; [congruence|discriminate]. Qed.
Lemma wf_mean v : well_formed v -> well_formed (mean_members v).
Proof.
  intros [N F]. destruct v as [|m r]; [congruence|]. inversion F; subst. split; [discriminate|]. constructor; [|constructor].
  destruct m; [congruence|]. cbn. discriminate.
Qed.
(** What collapsing and percentiles make of a site, whatever the other sites. *)
Definition site_result (numba : bool) (bounds : Q * Q) (cfg : config) (s : spots) (v : list (list (option Q))) : list (list (option Q)) :=
  let v := if k_collapse cfg then mean_members v else v in
  let real := if k_collapse cfg then false else s_real s in
  match asked_of (k_percentiles cfg) with [] => v | asked => site_values numba bounds cfg asked real (s_kind s) v end.
Definition result_kind (cfg : config) (s : spots) : kind :=
  match asked_of (k_percentiles cfg) with [] => s_kind s | asked => out_kind asked (if k_collapse cfg then false else s_real s) (s_kind s) end.

Lemma percentile_step_sites numba bounds cfg s out : in_0_100 (asked_of (k_percentiles cfg)) -> (forall v, In v (s_rows s) -> concat v <> []) ->
  percentile_step numba bounds cfg s = Ok out ->
  Forall2 vsame (s_rows out) (map (fun v => match asked_of (k_percentiles cfg) with [] => v | asked => site_values numba bounds cfg asked (s_real s) (s_kind s) v end) (s_rows s)) /\
  s_kind out = match asked_of (k_percentiles cfg) with [] => s_kind s | asked => out_kind asked (s_real s) (s_kind s) end /\ s_ids out = s_ids s /\ s_hash out = s_hash s.
Proof.
  intros R W H. unfold percentile_step in H. 
  assert (SAME : out = s -> asked_of (k_percentiles cfg) = [] -> Forall2 vsame (s_rows out) (map (fun v => match asked_of (k_percentiles cfg) with [] => v | asked => site_values numba bounds cfg asked (s_real s) (s_kind s) v end) (s_rows s)) /\
    s_kind out = match asked_of (k_percentiles cfg) with [] => s_kind s | asked => out_kind asked (s_real s) (s_kind s) end /\ s_ids out = s_ids s /\ s_hash out = s_hash s).
  { intros -> ->. rewrite map_id. split; [apply f2_refl, vsame_refl|auto]. }
  destruct (k_percentiles cfg) as [|p|l] eqn:K; cbn [asked_of] in *.
  - apply Ok_inj in H. apply SAME; auto.
  - destruct (p =? 0); [|discriminate]. apply Ok_inj in H. apply SAME; auto.
  - destruct l as [|a l]; [apply Ok_inj in H; apply SAME; auto|]. apply to_percentiles_sites in H as (A & B & _ & C & D); [|discriminate|exact R|exact W]. auto.
Qed.
Lemma percentile_step_part numba bounds cfg s s' out : in_0_100 (asked_of (k_percentiles cfg)) -> s_kind s' = s_kind s -> s_real s' = s_real s -> (forall v, In v (s_rows s') -> In v (s_rows s)) ->
  percentile_step numba bounds cfg s = Ok out -> exists out', percentile_step numba bounds cfg s' = Ok out'.
Proof.
  intros R HK HR HI H. unfold percentile_step in *. destruct (k_percentiles cfg) as [|p|[|a l]]; [eauto|destruct (p =? 0); [eauto|discriminate]|eauto|].
  eapply to_percentiles_part; [discriminate|exact R|exact HK|exact HR|exact HI|exact H].
Qed.

Definition after_extraction (numba : bool) (bounds : Q * Q) (cfg : config) (s : spots) : result spots :=
  let* s := if k_collapse cfg then collapse s else Ok s in percentile_step numba bounds cfg s.
Lemma after_sites numba bounds cfg s out : in_0_100 (asked_of (k_percentiles cfg)) -> Forall well_formed (s_rows s) ->
  after_extraction numba bounds cfg s = Ok out ->
  Forall2 vsame (s_rows out) (map (site_result numba bounds cfg s) (s_rows s)) /\ s_kind out = result_kind cfg s /\ s_ids out = s_ids s /\ s_hash out = s_hash s.
Proof.
  intros R W H. unfold after_extraction in H. unfold site_result, result_kind. destruct (k_collapse cfg).
  - unfold collapse in H. destruct (s_real s); [|discriminate]. cbn [negb bind] in H. apply percentile_step_sites in H as (A & B & C & D); [|exact R|].
    + cbn [s_rows s_real s_kind s_ids s_hash] in *. rewrite map_map in A. auto.
    + cbn [s_rows]. intros v Hv. apply in_map_iff in Hv as (w & <- & Hw). apply wf_concat, wf_mean. rewrite Forall_forall in W. auto.
  - cbn [bind] in H. apply percentile_step_sites in H as (A & B & C & D); [|exact R|].
    + auto.
    + intros v Hv. apply wf_concat. rewrite Forall_forall in W. auto.
Qed.
Lemma after_part numba bounds cfg s s' out : in_0_100 (asked_of (k_percentiles cfg)) -> s_kind s' = s_kind s -> s_real s' = s_real s -> (forall v, In v (s_rows s') -> In v (s_rows s)) ->
  after_extraction numba bounds cfg s = Ok out -> exists out', after_extraction numba bounds cfg s' = Ok out'.
Proof.
  intros R HK HR HI H. unfold after_extraction in *. destruct (k_collapse cfg).
  - unfold collapse in *. rewrite HR. destruct (s_real s); [|discriminate]. cbn [negb bind] in *. eapply percentile_step_part; [exact R| | | |exact H]; cbn [s_kind s_real s_rows]; [exact HK|reflexivity|].
    intros v Hv. apply in_map_iff in Hv as (w & <- & Hw). apply in_map. auto.
  - cbn [bind] in *. eapply percentile_step_part; [exact R|exact HK|exact HR|exact HI|exact H].
Qed.

(** ** Subsetting *)
(** [ps] are the sites of the forecast that the neighbour cube lists, in the order of the forecast. *)
Definition chosen (listed ids : list string) (ps : list nat) : Prop :=
  StronglySorted Nat.lt ps /\ forall j, In j ps <-> (j < length ids)%nat /\ In (nth j ids ""%string) listed /\ nth j ids ""%string <> "None"%string.
Lemma ss_filter_seq f : forall n a, StronglySorted Nat.lt (filter f (seq a n)).
Proof.
  induction n as [|n IH]; intro a; cbn; [constructor|]. destruct (f a); [|apply IH]. constructor; [apply IH|]. apply Forall_forall. intros x Hx. apply filter_In in Hx as [Hx _]. apply in_seq in Hx. unfold Nat.lt. lia.
Qed.
Lemma positions_chosen listed ids : chosen listed ids (positions (filter (fun i => negb (i =? "None")%string) listed) ids).
Proof.
  split; [apply ss_filter_seq|]. intro j. unfold positions. rewrite filter_In, in_seq, smem_in, filter_In. split.
  - intros (A & B & C). split; [lia|]. split; [exact B|]. intro E. rewrite E in C. discriminate.
  - intros (A & B & C). split; [lia|]. split; [exact B|]. destruct (String.eqb_spec (nth j ids ""%string) "None"); [contradiction|reflexivity].
Qed.
Lemma chosen_unique listed ids ps ps' : chosen listed ids ps -> chosen listed ids ps' -> ps = ps'.
Proof.
  intros [S1 I1] [S2 I2]. assert (E : forall j, In j ps <-> In j ps') by (intro j; rewrite I1, I2; reflexivity). clear I1 I2.
  revert ps' S2 E. induction S1 as [|a l S1 IH F]; intros [|b m] S2 E; [reflexivity|exfalso; apply (proj2 (E b)); left; reflexivity|exfalso; apply (proj1 (E a)); left; reflexivity|].
  apply StronglySorted_inv in S2 as [S2 F2]. rewrite Forall_forall in F, F2.
  assert (a = b). { destruct (proj1 (E a) (or_introl eq_refl)) as [|Ha]; [congruence|]. destruct (proj2 (E b) (or_introl eq_refl)) as [|Hb]; [congruence|]. specialize (F b Hb). specialize (F2 a Ha). unfold Nat.lt in *. lia. }
  subst b. f_equal. apply IH; [exact S2|]. intro j. specialize (E j). cbn in E. split; intro K.
  - destruct (proj1 E (or_intror K)) as [<-|]; [|assumption]. specialize (F a K). unfold Nat.lt in F. lia.
  - destruct (proj2 E (or_intror K)) as [<-|]; [|assumption]. specialize (F2 a K). unfold Nat.lt in F2. lia.
Qed.
Lemma subset_spec k nids s : subset k nids s =
  match lookup k nids, lookup k (s_ids s) with
  | Some listed, Some ids => match positions (filter (fun i => negb (i =? "None")%string) listed) ids with
      | [] => Err ValueError
      | ps => Ok {| s_meta := s_meta s; s_real := s_real s; s_kind := s_kind s; s_ids := map (fun e => (fst e, pick "" (snd e) ps)) (s_ids s);
                    s_line := (s_line s && negb (length ps =? 1)%nat)%bool; s_rows := pick [] (s_rows s) ps; s_hash := s_hash s |}
      end
  | _, _ => Err ValueError
  end%string.
Proof. unfold subset. destruct (lookup k nids); [|reflexivity]. destruct (lookup k (s_ids s)); reflexivity. Qed.

Definition plain (cfg : config) : Prop := k_lapse cfg = false /\ k_fixed cfg = None.
Definition with_subset (cfg : config) (o : option string) : config :=
  {| k_lapse := k_lapse cfg; k_fixed := k_fixed cfg; k_land := k_land cfg; k_dz := k_dz cfg; k_percentiles := k_percentiles cfg; k_ignore := k_ignore cfg; k_skip := k_skip cfg; k_collapse := k_collapse cfg; k_subset := o |}.
Lemma spots_eq numba bounds cfg n nids lr s : plain cfg ->
  manipulate numba bounds cfg n nids lr (Spots s) =
  let* s := match k_subset cfg with None => Ok s | Some k => subset k nids s end in let* o := after_extraction numba bounds cfg s in Ok (drop_hash o).
Proof.
  intros [L F]. unfold manipulate, after_extraction, lapse_step. rewrite L, F. cbn [orb].
  destruct (match k_subset cfg with None => Ok s | Some k => subset k nids s end) as [t|]; [|reflexivity]. cbn [bind].
  destruct (if k_collapse cfg then collapse t else Ok t) as [u|]; [|reflexivity]. cbn [bind]. destruct (percentile_step numba bounds cfg u) as [w|]; reflexivity.
Qed.

(** C116: subsetting keeps exactly the sites that the neighbour cube lists, apart from those without an identifier, in the order of the forecast, with their values and identifiers. It is refused exactly when the coordinate is missing or no site is kept. *)
Theorem C116_subset numba bounds cfg n nids lr s k : plain cfg -> k_subset cfg = Some k -> k_collapse cfg = false -> k_percentiles cfg = NoPercentiles ->
  match lookup k nids, lookup k (s_ids s) with
  | Some listed, Some ids => exists ps, chosen listed ids ps /\
      (ps = [] -> manipulate numba bounds cfg n nids lr (Spots s) = Err ValueError) /\
      (ps <> [] -> exists out, manipulate numba bounds cfg n nids lr (Spots s) = Ok out /\ s_rows out = map (fun j => nth j (s_rows s) []) ps /\
         s_ids out = map (fun e => (fst e, map (fun j => nth j (snd e) ""%string) ps)) (s_ids s) /\ s_kind out = s_kind s /\ s_real out = s_real s /\ s_hash out = None)
  | _, _ => manipulate numba bounds cfg n nids lr (Spots s) = Err ValueError
  end.
Proof.
  intros P K C A. rewrite (spots_eq numba bounds cfg n nids lr s P), K, subset_spec. destruct (lookup k nids) as [listed|]; [|reflexivity]. destruct (lookup k (s_ids s)) as [ids|]; [|reflexivity].
  exists (positions (filter (fun i => negb (i =? "None")%string) listed) ids). split; [apply positions_chosen|]. split.
  - intros ->. reflexivity.
  - intro NE. destruct (positions _ ids) as [|j ps] eqn:E; [congruence|]. cbn [bind]. unfold after_extraction, percentile_step. rewrite C, A. cbn [bind]. eexists. split; [reflexivity|]. cbn [drop_hash s_rows s_ids s_kind s_real s_hash]. repeat split.
Qed.

Lemma pick_map_f2 {A B} (R : B -> B -> Prop) (F : A -> B) (da : A) (db : B) l m ps : Forall2 R m (map F l) -> (forall j, In j ps -> (j < length l)%nat) ->
  Forall2 R (pick db m ps) (map F (pick da l ps)).
Proof.
  intros H. unfold pick. induction ps as [|j ps IH]; intro B1; cbn; constructor; [|apply IH; intros; apply B1; right; assumption].
  assert (Hj : (j < length l)%nat) by (apply B1; left; reflexivity). clear -H Hj. revert m j H Hj. induction l as [|a l IH]; intros m j H Hj; [cbn in Hj; lia|]. inversion H; subst. destruct j; cbn in *; [assumption|apply IH; [assumption|lia]].
Qed.
(** C116: the result at a site does not depend on the other sites: subsetting first gives the same values as subsetting the results, for collapsing and for percentiles of every kind of forecast. *)
Theorem C116_site_alone numba bounds cfg n nids lr s k listed ids ps out : plain cfg -> in_0_100 (asked_of (k_percentiles cfg)) -> Forall well_formed (s_rows s) ->
  lookup k nids = Some listed -> lookup k (s_ids s) = Some ids -> length ids = length (s_rows s) -> chosen listed ids ps -> ps <> [] ->
  manipulate numba bounds (with_subset cfg None) n nids lr (Spots s) = Ok out ->
  exists out', manipulate numba bounds (with_subset cfg (Some k)) n nids lr (Spots s) = Ok out' /\
    Forall2 vsame (s_rows out') (map (fun j => nth j (s_rows out) []) ps) /\ s_kind out' = s_kind out.
Proof.
  intros P R W LN LS LI CH NE H.
  rewrite spots_eq in H by exact P. rewrite spots_eq by exact P. cbn [with_subset k_subset] in *. cbn [bind] in H. rewrite subset_spec, LN, LS.
  rewrite <- (chosen_unique _ _ _ _ CH (positions_chosen listed ids)). destruct ps as [|j0 ps0]; [congruence|]. remember (j0 :: ps0) as ps eqn:EP. clear EP. cbn [bind].
  assert (CFG : forall o t, after_extraction numba bounds (with_subset cfg o) t = after_extraction numba bounds cfg t) by reflexivity.
  rewrite !CFG in *. destruct (after_extraction numba bounds cfg s) as [o|] eqn:E; [|discriminate]. cbn [bind] in H. apply Ok_inj in H. subst out.
  set (s' := {| s_meta := s_meta s; s_real := s_real s; s_kind := s_kind s; s_ids := _; s_line := _; s_rows := pick [] (s_rows s) ps; s_hash := s_hash s |}).
  assert (BJ : forall j, In j ps -> (j < length (s_rows s))%nat) by (intros j Hj; apply CH in Hj as [Hj _]; lia).
  assert (HI : forall v, In v (s_rows s') -> In v (s_rows s)).
  { cbn [s_rows s']. intros v Hv. unfold pick in Hv. apply in_map_iff in Hv as (j & <- & Hj). apply nth_In, BJ, Hj. }
  destruct (after_part numba bounds cfg s s' o R eq_refl eq_refl HI E) as [o' E']. rewrite E'. cbn [bind]. exists (drop_hash o'). split; [reflexivity|].
  apply after_sites in E as (A1 & A2 & _); [|exact R|exact W].
  assert (W' : Forall well_formed (s_rows s')) by (rewrite Forall_forall in *; auto).
  apply after_sites in E' as (B1 & B2 & _); [|exact R|exact W'].
  cbn [drop_hash s_rows s_kind]. split; [|rewrite A2, B2; reflexivity].
  assert (SR : forall v, site_result numba bounds cfg s' v = site_result numba bounds cfg s v) by reflexivity.
  rewrite (map_ext _ _ SR) in B1. cbn [s_rows s'] in B1.
  pose proof (pick_map_f2 vsame (site_result numba bounds cfg s) [] [] (s_rows s) (s_rows o) ps A1 BJ) as PK. unfold pick in PK, B1.
  eapply f2_trans; [exact vsame_trans|exact B1|]. apply f2_sym; [exact vsame_sym|]. exact PK.
Qed.

(** ** Gridded forecasts *)
Definition spot_config (cfg : config) : config :=
  {| k_lapse := false; k_fixed := None; k_land := k_land cfg; k_dz := k_dz cfg; k_percentiles := k_percentiles cfg; k_ignore := k_ignore cfg; k_skip := k_skip cfg; k_collapse := k_collapse cfg; k_subset := None |}.
(** The method of the configuration. *)
Definition chosen_method (cfg : config) : string := (match k_land cfg, k_dz cfg with false, false => "nearest" | true, false => "nearest_land" | false, true => "nearest_minimum_dz" | true, true => "nearest_land_minimum_dz" end)%string.
Lemma method_of cfg : method_name (k_land cfg) (k_dz cfg) = chosen_method cfg.
Proof. unfold chosen_method. destruct (k_land cfg), (k_dz cfg); reflexivity. Qed.
(** A spot forecast with, at each site, the values at the grid point of the site. *)
Definition extracted_from (g : field) (rows : list (Q * Q * Q)) (nids : list (string * list string)) (e : spots) : Prop :=
  s_meta e = f_meta g /\ s_real e = f_real g /\ s_kind e = f_kind g /\ s_ids e = nids /\ s_line e = true /\ length (s_rows e) = length rows /\
  forall j x y dz, nth_error rows j = Some (inject_Z x, inject_Z y, dz) -> (0 <= x < f_w g)%Z -> (0 <= y < f_h g)%Z -> nth_error (s_rows e) j = Some (f_cell g y x).
Lemma extract_sites m n nids g e : extract m n nids g = Ok e -> exists rows, find_method m n = Some rows /\ extracted_from g rows nids e /\ s_hash e = Some (n_hash n).
Proof.
  unfold extract. intro H. destruct (check_grid_match _); [|discriminate]. cbn [bind] in H. unfold extract_coordinates in H. destruct (find_method m n) as [rows|]; [|discriminate]. cbn [bind] in H.
  destruct (mapM _ _) as [ps|] eqn:M; [|discriminate]. cbn [bind] in H. apply Ok_inj in H. subst e. exists rows. split; [reflexivity|]. split; [|reflexivity].
  apply Proofs_Table.mapM_forall2 in M. unfold extracted_from. cbn [s_meta s_real s_kind s_ids s_line s_rows]. repeat (split; [reflexivity|]). split; [rewrite map_length; symmetry; rewrite <- (map_length (fun r => (round_half_even (fst (fst r)), round_half_even (snd (fst r)))) rows); eapply forall2_count, M|].
  intros j x y dz Hj Hx Hy.
  assert (Hc : nth_error (map (fun r : Q * Q * Q => (round_half_even (fst (fst r)), round_half_even (snd (fst r)))) rows) j = Some (round_half_even (inject_Z x), round_half_even (inject_Z y))) by (apply (map_nth_error (fun r : Q * Q * Q => (round_half_even (fst (fst r)), round_half_even (snd (fst r))))) in Hj; exact Hj).
  destruct (forall2_nth_some _ _ _ _ _ M Hc) as (p & Hp). pose proof (forall2_nth_err _ _ _ _ _ _ M Hc Hp) as G. cbn beta in G. rewrite !rhe_int in G.
  unfold grid_indices, py_index in G. cbn [fst snd] in G.
  destruct (Z.leb_spec 0 y) as [_|C]; [|lia]. destruct (Z.ltb_spec y (f_h g)) as [_|C]; [|lia]. cbn [andb bind] in G.
  destruct (Z.leb_spec 0 x) as [_|C]; [|lia]. destruct (Z.ltb_spec x (f_w g)) as [_|C]; [|lia]. cbn [andb bind] in G. apply Ok_inj in G. subst p.
  apply (map_nth_error (fun p => f_cell g (snd p) (fst p))) in Hp. exact Hp.
Qed.
(** C116: without lapse rates, the result for a gridded forecast is the result for the spot forecast of the values at the grid points of the sites. A fixed lapse rate or a cube of lapse rates then makes no difference, nor does the coordinate for subsetting. *)
Theorem C116_gridded numba bounds cfg n nids lr g out : k_lapse cfg = false -> manipulate numba bounds cfg n nids lr (Gridded g) = Ok out ->
  exists rows e, find_method (chosen_method cfg) n = Some rows /\ extracted_from g rows nids e /\
    hash_eqb (hash_of (f_grid g)) (n_hash n) = true /\ manipulate numba bounds (spot_config cfg) n nids None (Spots e) = Ok out.
Proof.
  intros L H. unfold manipulate in H. destruct (extract _ n nids g) as [e|] eqn:E; [|discriminate]. cbn [bind] in H.
  assert (G : hash_eqb (hash_of (f_grid g)) (n_hash n) = true).
  { unfold extract, check_grid_match in E. cbn [forallb hash_of] in E. destruct (hash_eqb (hash_of (f_grid g)) (n_hash n)); [reflexivity|discriminate]. }
  apply extract_sites in E as (rows & F & X & _). rewrite method_of in F. exists rows, e. split; [exact F|]. split; [exact X|]. split; [exact G|].
  rewrite spots_eq by (split; reflexivity). cbn [spot_config k_subset]. cbn [bind]. unfold after_extraction. cbn [spot_config k_collapse].
  destruct (if k_collapse cfg then collapse e else Ok e) as [u|]; [|discriminate]. cbn [bind] in *. unfold lapse_step in H. rewrite L in H.
  change (percentile_step numba bounds (spot_config cfg) u) with (percentile_step numba bounds cfg u).
  destruct (percentile_step numba bounds cfg u) as [w|]; [|discriminate]. exact H.
Qed.

(** C116: with lapse rates, each value is that without lapse rates plus the adjustment for the displacement of the site: for the lapse rate at its grid point if a cube is given, even if there is a fixed lapse rate too, and otherwise for the fixed one. *)
Definition without_lapse (cfg : config) : config :=
  {| k_lapse := false; k_fixed := k_fixed cfg; k_land := k_land cfg; k_dz := k_dz cfg; k_percentiles := k_percentiles cfg; k_ignore := k_ignore cfg; k_skip := k_skip cfg; k_collapse := k_collapse cfg; k_subset := k_subset cfg |}.
Definition adjusted_by (rate : option Q) (dz : Q) (o o' : option Q) : Prop :=
  o' = match o, rate with Some t, Some l => Some (t + lapse_rate_adjustment l dz 50) | _, _ => None end.
Lemma f2_seq {A B} (R : A -> B -> Prop) (l : list A) (d : A) (f : nat -> B) : (forall b, (b < length l)%nat -> R (nth b l d) (f b)) -> Forall2 R l (map f (seq 0 (length l))).
Proof.
  revert f. induction l as [|a l IH]; intros f H; cbn [length seq map]; constructor.
  - exact (H 0%nat ltac:(cbn; lia)).
  - rewrite <- seq_shift, map_map. apply IH. intros b Hb. exact (H (S b) ltac:(cbn; lia)).
Qed.
Lemma adjusted_rows m fixed n lr s out h : s_hash s = Some h -> adjusted m fixed n lr s = Ok out -> exists e, 
  lapse_adjust m fixed (s_meta s) n {| p_dims := []; p_sites := length (s_rows s); p_values := at_site s; p_hash := h |} lr = Ok e /\
  length (s_rows out) = length (s_rows s) /\
  forall j v, nth_error (s_rows s) j = Some v -> exists v', nth_error (s_rows out) j = Some v' /\
    Forall2 (Forall2 (fun o o' => exists idx, at_site s idx j = o /\ p_values e idx j = o')) v v'.
Proof.
  intros HH H. unfold adjusted in H. rewrite HH in H. destruct (lapse_adjust _ _ _ _ _ _) as [e|]; [|discriminate]. cbn [bind] in H. apply Ok_inj in H. subst out.
  exists e. split; [reflexivity|]. cbn [with_rows s_rows]. split; [rewrite map_length, seq_length; reflexivity|].
  intros j v Hj. assert (LJ : (j < length (s_rows s))%nat) by (apply nth_error_Some; congruence).
  set (F := fun j0 : nat => map (fun a => map (fun b => p_values e [a; b] j0) (seq 0 (length (nth a (nth j0 (s_rows s) []) [])))) (seq 0 (length (nth j0 (s_rows s) [])))).
  exists (F j). split.
  - rewrite (map_nth_error F j (seq 0 (length (s_rows s))) (d := j)); [reflexivity|]. rewrite nth_error_nth' with (d := 0%nat) by (rewrite seq_length; exact LJ). rewrite seq_nth by exact LJ. reflexivity.
  - unfold F. assert (NV : nth j (s_rows s) [] = v) by (apply nth_error_nth, Hj). rewrite NV. apply (f2_seq _ v []). intros a Ha. apply (f2_seq _ (nth a v []) None). intros b Hb.
    exists [a; b]. split; [unfold at_site; rewrite NV; reflexivity|reflexivity].
Qed.
Theorem C116_lapse numba bounds cfg n nids lr g out rows : k_lapse cfg = true -> find_method (chosen_method cfg) n = Some rows -> (lr <> None \/ k_fixed cfg <> None) ->
  (forall j x y dz, nth_error rows j = Some (x, y, dz) -> exists a b, x = inject_Z a /\ y = inject_Z b /\ (0 <= a)%Z /\ (0 <= b)%Z /\ forall lm ld, lr = Some (lm, ld) -> (a < d_w ld)%Z /\ (b < d_h ld)%Z) ->
  manipulate numba bounds cfg n nids lr (Gridded g) = Ok out ->
  exists before, manipulate numba bounds (without_lapse cfg) n nids lr (Gridded g) = Ok before /\ length (s_rows out) = length (s_rows before) /\
    forall j x y dz v, nth_error rows j = Some (inject_Z x, inject_Z y, dz) -> nth_error (s_rows before) j = Some v -> exists v', nth_error (s_rows out) j = Some v' /\
      Forall2 (Forall2 (adjusted_by (match lr with Some (_, ld) => d_field ld [] y x | None => k_fixed cfg end) dz)) v v'.
Proof.
  intros L F SRC PTS H. unfold manipulate in H |- *. cbn [without_lapse k_land k_dz k_collapse].
  destruct (extract _ n nids g) as [e|] eqn:E; [|discriminate]. cbn [bind] in *. apply extract_sites in E as (rows' & F' & X & HX). rewrite method_of in F'. rewrite F in F'. injection F' as <-.
  assert (HU : forall u, (if k_collapse cfg then collapse e else Ok e) = Ok u -> s_hash u = Some (n_hash n)).
  { intros u Hu. destruct (k_collapse cfg); [unfold collapse in Hu; destruct (s_real e); [|discriminate]|]; apply Ok_inj in Hu; subst u; exact HX. }
  destruct (if k_collapse cfg then collapse e else Ok e) as [u|]; [|discriminate]. cbn [bind] in *. specialize (HU u eq_refl).
  change (percentile_step numba bounds (without_lapse cfg) u) with (percentile_step numba bounds cfg u).
  assert (HW : forall w, percentile_step numba bounds cfg u = Ok w -> s_hash w = Some (n_hash n)).
  { intros w Hw. unfold percentile_step, to_percentiles in Hw.
    destruct (k_percentiles cfg) as [|p|[|a l]]; [|destruct (p =? 0); [|discriminate]| |]; try (apply Ok_inj in Hw; subst w; exact HU).
    destruct (s_kind u) as [|ps|dg rel ths].
    - destruct (s_real u); [destruct (_ && _)%bool; [discriminate|]|]; apply Ok_inj in Hw; subst w; exact HU.
    - destruct (forallb _ (a :: l)); [apply Ok_inj in Hw; subst w; exact HU|]. destruct (resample _ _ _ _ _ _ _ _ _) as [[d o]|]; [|discriminate]. cbn [bind] in Hw. apply Ok_inj in Hw. subst w. exact HU.
    - destruct (probs_to_percentiles _ _ _ _ _ _ _ _ _ _ _) as [[d o]|]; [|discriminate]. cbn [bind] in Hw. apply Ok_inj in Hw. subst w. exact HU. }
  destruct (percentile_step numba bounds cfg u) as [w|]; [|discriminate]. specialize (HW w eq_refl). cbn [bind] in *. unfold lapse_step in *. cbn [without_lapse k_lapse]. rewrite L in H. cbn [bind].
  exists (drop_hash w). split; [reflexivity|]. rewrite method_of in H.
  assert (ROWS : forall fixed lr0 o, adjusted (chosen_method cfg) fixed n lr0 w = Ok o -> (fixed = None /\ lr0 = lr /\ lr <> None \/ lr0 = None /\ lr = None /\ fixed = k_fixed cfg /\ fixed <> None) ->
    length (s_rows o) = length (s_rows w) /\
    forall j x y dz v, nth_error rows j = Some (inject_Z x, inject_Z y, dz) -> nth_error (s_rows w) j = Some v -> exists v', nth_error (s_rows o) j = Some v' /\
      Forall2 (Forall2 (adjusted_by (match lr with Some (_, ld) => d_field ld [] y x | None => k_fixed cfg end) dz)) v v').
  { intros fixed lr0 o HA CASES. apply (adjusted_rows _ _ _ _ _ _ (n_hash n)) in HA as (ee & LA & LEN & AV); [|exact HW]. split; [exact LEN|].
    intros j x y dz v Hj Hv. destruct (AV j v Hv) as (v' & Hv' & FF). exists v'. split; [exact Hv'|].
    assert (PT : forall idx, adjusted_by (match lr with Some (_, ld) => d_field ld [] y x | None => k_fixed cfg end) dz (at_site w idx j) (p_values ee idx j)).
    { intro idx. unfold adjusted_by. destruct CASES as [(-> & -> & NL)|(-> & -> & -> & NF)].
      - destruct lr as [[lm ld]|]; [|congruence]. destruct (PTS j _ _ _ Hj) as (a & b & Ea & Eb & Pa & Pb & Bd). injection Ea as <-. injection Eb as <-. destruct (Bd lm ld eq_refl).
        rewrite (C59_gridded _ _ _ _ _ _ _ _ _ _ _ _ LA F Hj ltac:(lia) ltac:(lia) idx). reflexivity.
      - destruct (k_fixed cfg) as [f|]; [|congruence]. destruct (C59_fixed _ _ _ _ _ _ _ _ _ _ _ LA F Hj) as (_ & _ & V). rewrite V. cbn [p_values]. destruct (at_site w idx j); reflexivity. }
    clear -FF PT. induction FF as [|m m' v v' H1 FF IH]; constructor; [|exact IH]. clear IH FF. induction H1 as [|o o' m m' (idx & <- & <-) H1 IH]; constructor; [apply PT|exact IH]. }
  destruct lr as [[lm ld]|].
  - destruct (adjusted (chosen_method cfg) None n (Some (lm, ld)) w) as [o|] eqn:EA; [|discriminate]. cbn [bind] in H. apply Ok_inj in H. subst out. apply (ROWS _ _ _ EA). left. split; [reflexivity|]. split; [reflexivity|discriminate].
  - destruct (k_fixed cfg) as [f|] eqn:KF; [|destruct SRC; congruence]. destruct (adjusted (chosen_method cfg) (Some f) n None w) as [o|] eqn:EA; [|discriminate]. cbn [bind] in H. apply Ok_inj in H. subst out.
    apply (ROWS _ _ _ EA). right. repeat (split; [reflexivity|]). discriminate.
Qed.

(** ** Percentiles *)
Definition asks (cfg : config) (asked : list Q) : Prop := plain cfg /\ k_subset cfg = None /\ k_collapse cfg = false /\ k_percentiles cfg = PercentileList asked /\ asked <> [].
Lemma asks_eq numba bounds cfg n nids lr s asked : asks cfg asked ->
  manipulate numba bounds cfg n nids lr (Spots s) = let* o := to_percentiles numba bounds cfg asked s in Ok (drop_hash o).
Proof.
  intros (P & K & C & A & NE). rewrite spots_eq by exact P. rewrite K. cbn [bind]. unfold after_extraction, percentile_step. rewrite C, A. destruct asked; [congruence|]. reflexivity.
Qed.
(** C116: of realizations, each percentage asked for gives that percentile (C115) of the values at the site that are not masked; masked only if all are. *)
Theorem C116_realizations numba bounds cfg n nids lr s asked out j v : asks cfg asked -> in_0_100 asked -> s_kind s = One -> s_real s = true -> Forall well_formed (s_rows s) ->
  manipulate numba bounds cfg n nids lr (Spots s) = Ok out -> nth_error (s_rows s) j = Some v ->
  s_kind out = Percs asked /\ s_real out = false /\ exists vs, nth_error (s_rows out) j = Some [vs] /\
    Forall2 (fun p o => match o with None => forall x, In x (concat v) -> x = None | Some q => is_percentile (unmasked (concat v)) p q end) asked vs.
Proof.
  intros AS R K RE W H Hj. rewrite (asks_eq _ _ _ _ _ _ _ _ AS) in H. unfold to_percentiles in H. rewrite K, RE in H. rewrite (proj2 (out_of_100 asked) R), andb_false_r in H. cbn [bind] in H. apply Ok_inj in H. subst out.
  cbn [drop_hash with_rows s_kind s_real s_rows]. split; [reflexivity|]. split; [reflexivity|]. eexists. split; [apply (map_nth_error (fun w => [map _ asked])); exact Hj|].
  assert (NC : concat v <> []). { apply wf_concat. rewrite Forall_forall in W. apply W. eapply nth_error_In, Hj. }
  destruct (existsb (existsb (existsb _)) (s_rows s)) eqn:E; cbn [negb].
  - assert (G : forall p, In p asked -> match mquantile (concat v) p with None => forall x, In x (concat v) -> x = None | Some q => is_percentile (unmasked (concat v)) p q end).
    { intros p Hp. pose proof (mq_cases (concat v) p) as M. destruct (mquantile (concat v) p) as [q|] eqn:Q; [apply mq_is; [apply R, Hp|exact Q]|].
      destruct (unmasked (concat v)) eqn:U; [apply unmasked_nil, U|destruct M; congruence]. }
    clear -G. induction asked as [|p a IH]; cbn; constructor; [apply G; left; reflexivity|apply IH; intros; apply G; right; assumption].
  - pose proof (members_fast _ E v (nth_error_In _ _ Hj)) as U.
    assert (NU : unmasked (concat v) <> []). { intro X. pose proof (proj1 (unmasked_nil _) X) as Y. destruct (concat v) as [|o r]; [congruence|]. apply (U o (or_introl eq_refl)), Y. left. reflexivity. }
    clear -R NU. induction asked as [|p a IH]; cbn; constructor; [apply np_is; [exact NU|apply R; left; reflexivity]|apply IH; intros q Hq; apply R; right; exact Hq].
Qed.
(** C116: of percentiles that are all there, those asked for are returned as they are, in the order of the forecast. *)
Theorem C116_available numba bounds cfg n nids lr s asked ps out : asks cfg asked -> s_kind s = Percs ps -> (forall a, In a asked -> exists p, In p ps /\ p == a) ->
  (forall p a, In p ps -> In a asked -> isclose p a = true -> p == a) ->
  manipulate numba bounds cfg n nids lr (Spots s) = Ok out ->
  exists pos, StronglySorted Nat.lt pos /\ (forall i, In i pos <-> (i < length ps)%nat /\ exists a, In a asked /\ nth i ps 0 == a) /\
    s_kind out = Percs (map (fun i => nth i ps 0) pos) /\ s_real out = s_real s /\ s_rows out = map (map (fun member => map (fun i => nth i member None) pos)) (s_rows s).
Proof.
  intros AS K AV SEP H. rewrite (asks_eq _ _ _ _ _ _ _ _ AS) in H. unfold to_percentiles in H. rewrite K in H.
  assert (F : forallb (fun a => existsb (Qeq_bool a) ps) asked = true).
  { apply forallb_forall. intros a Ha. destruct (AV a Ha) as (p & Hp & E). apply existsb_exists. exists p. split; [exact Hp|]. apply Qeq_bool_iff. symmetry. exact E. }
  rewrite F in H. cbn [bind] in H. apply Ok_inj in H. subst out. exists (kept_percentiles asked ps). split; [apply ss_filter_seq|]. split; [|repeat split].
  intro i. unfold kept_percentiles. rewrite filter_In, in_seq, existsb_exists. split.
  - intros [B (a & Ha & E)]. split; [lia|]. exists a. split; [exact Ha|]. apply SEP; [apply nth_In; lia|exact Ha|exact E].
  - intros [B (a & Ha & E)]. split; [lia|]. exists a. split; [exact Ha|]. unfold isclose. destruct (Qleb_spec (Qabs (nth i ps 0 - a)) ((1 # 100000000) + (1 # 100000) * Qabs a)) as [|X]; [reflexivity|exfalso].
    assert (Z0 : Qabs (nth i ps 0 - a) == 0) by (rewrite E; setoid_replace (a - a) with 0 by ring; reflexivity). pose proof (Qabs_nonneg a). lra.
Qed.
(** C116: percentiles made of probabilities, or of other percentiles, never decrease with the percentage. *)
Theorem C116_increasing numba bounds cfg n nids lr s asked out : asks cfg asked -> qsorted asked -> fst bounds <= snd bounds ->
  match s_kind s with
  | One => False
  | Percs ps => (exists a, In a asked /\ forall p, In p ps -> ~ p == a) /\ Forall (Forall (fun m => qsorted (map known m))) (s_rows s)
  | Probs _ _ ths => qsorted ths
  end -> manipulate numba bounds cfg n nids lr (Spots s) = Ok out ->
  s_kind out = Percs asked /\ Forall (Forall (fun m => exists l, m = map Some l /\ qsorted l)) (s_rows out).
Proof.
  intros AS SO BO HK H. rewrite (asks_eq _ _ _ _ _ _ _ _ AS) in H. unfold to_percentiles in H. destruct AS as (_ & _ & _ & _ & NE).
  destruct (s_kind s) as [|ps|dg rel ths]; [contradiction| |].
  - destruct HK as [(a & Ha & NO) HR]. destruct (forallb _ asked) eqn:F.
    { exfalso. rewrite forallb_forall in F. specialize (F a Ha). apply existsb_exists in F as (p & Hp & E). apply Qeq_bool_iff in E. apply (NO p Hp). symmetry. exact E. }
    destruct (resample _ _ _ _ _ _ _ _ _) as [[desired o]|] eqn:E; [|discriminate]. cbn [bind] in H. apply Ok_inj in H. subst out. cbn [drop_hash with_rows s_kind s_rows].
    destruct asked as [|b l]; [congruence|]. pose proof (resample_desired _ _ _ _ _ _ _ _ _ _ _ _ E) as [-> _]. split; [reflexivity|].
    destruct bounds as [lo hi]. apply resample_monotone in E; [|exact BO| |exact SO].
    + apply regroup_forall. apply Forall_map_iff. eapply Forall_impl; [|exact E]. cbn. intros r Hr. eauto.
    + apply Forall_map_iff. rewrite Forall_forall in *. intros m Hm. apply in_concat in Hm as (v & Hv & Hm). specialize (HR v Hv). rewrite Forall_forall in HR. auto.
  - destruct (probs_to_percentiles _ _ _ _ _ _ _ _ _ _ _) as [[pcts o]|] eqn:E; [|discriminate]. cbn [bind] in H. apply Ok_inj in H. subst out. cbn [drop_hash with_rows s_kind s_rows].
    pose proof E as E'. apply p2p_inv in E' as (_ & _ & oo & _ & _ & EO & [EA|[EA _]]); [|discriminate]. injection EA as <-. split; [reflexivity|].
    apply p2p_monotone in E; [|exact BO|exact HK|exact SO]. apply regroup_forall. subst o. apply Forall_map_iff. rewrite Forall_forall in *. intros r Hr.
    exists r. split; [reflexivity|]. destruct (E (map Some r) (in_map _ _ _ Hr)) as [_ X]. rewrite unmask_some in X. exact X.
Qed.

(** C116: with the option to average the realizations, each value of the result is the mean of those members that are not masked there, and it is masked only where they all are. *)
Theorem C116_collapse numba bounds cfg n nids lr s out : plain cfg -> k_subset cfg = None -> k_collapse cfg = true -> k_percentiles cfg = NoPercentiles ->
  manipulate numba bounds cfg n nids lr (Spots s) = Ok out ->
  s_real s = true /\ s_real out = false /\ s_kind out = s_kind s /\
  Forall2 (fun v w => v <> [] -> exists only, w = [only] /\ length only = length (hd [] v) /\
    forall i, (i < length only)%nat -> let there := flat_map (fun m => match nth i m None with Some q => [q] | None => [] end) v in
      match nth i only None with None => there = [] | Some q => there <> [] /\ q * inject_Z (Z.of_nat (length there)) == qsum there end) (s_rows s) (s_rows out).
Proof.
  intros P K C A H. rewrite spots_eq in H by exact P. rewrite K in H. cbn [bind] in H. unfold after_extraction, percentile_step, collapse in H. rewrite C, A in H.
  destruct (s_real s); [|discriminate]. cbn [negb bind] in H. apply Ok_inj in H. subst out. cbn [drop_hash s_real s_kind s_rows]. repeat split.
  induction (s_rows s) as [|v r IH]; cbn [map]; constructor; [|exact IH]. clear IH. intro NE. destruct v as [|first v']; [congruence|]. unfold mean_members. eexists. split; [reflexivity|].
  split; [rewrite map_length, seq_length; reflexivity|]. intros i Hi. rewrite map_length, seq_length in Hi. rewrite nth_map_seq by exact Hi. cbv zeta. cbn [Nat.add].
  set (v := first :: v') in *. clearbody v. clear NE.
  assert (E : unmasked (map (fun member => nth i member None) v) = flat_map (fun m => match nth i m None with Some q => [q] | None => [] end) v).
  { induction v as [|m t IH]; [reflexivity|]. cbn. destruct (nth i m None); cbn; f_equal; exact IH. }
  unfold mean. rewrite E. destruct (flat_map _ v) as [|q t] eqn:F; [reflexivity|]. split; [discriminate|].
  unfold Qlen. field. intro X. assert (Y : 0 < inject_Z (Z.of_nat (length (q :: t)))) by (change 0 with (inject_Z 0); rewrite <- Zlt_Qlt; cbn [length]; lia). rewrite X in Y. apply Qlt_irrefl in Y. exact Y.
Qed.
(** C116: the caller's forecast keeps its attribute model_grid_hash unless it is returned as it is: neither subset, nor averaged, nor converted to percentiles. A list of percentiles leaves a deterministic forecast as it is. *)
Theorem C116_input_hash cfg s :
  input_hash_after cfg s = if (match k_subset cfg with Some _ => true | None => false end || k_collapse cfg || match k_percentiles cfg with PercentileList (_ :: _) => match s_kind s with One => s_real s | _ => true end | _ => false end)%bool then s_hash s else None.
Proof.
  unfold input_hash_after, untouched. destruct (k_subset cfg); [reflexivity|]. destruct (k_collapse cfg); [reflexivity|]. destruct (k_percentiles cfg) as [| |[|]]; try reflexivity. destruct (s_kind s), (s_real s); reflexivity.
Qed.
Example C116_collapse_case :
  let cfg := {| k_lapse := false; k_fixed := None; k_land := false; k_dz := false; k_percentiles := NoPercentiles; k_ignore := false; k_skip := false; k_collapse := true; k_subset := None |} in
  let s := {| s_meta := {| m_prob := false; m_name := "air_temperature"%string; m_height := None |}; s_real := true; s_kind := One; s_ids := []; s_line := true; s_rows := [[[Some 281]; [None]; [Some 284]]; [[None]; [None]; [None]]]; s_hash := None |} in
  match manipulate false (200, 330) cfg {| n_hash := coordinate_hash hg3; n_methods := [] |} [] None (Spots s) with
  | Ok out => map (map (map (option_map Qred))) (s_rows out) = [[[Some (565 # 2)]]; [[None]]]
  | Err _ => False
  end.
Proof. vm_compute. reflexivity. Qed.
(** C116: refusals: a single percentile that is not in a list; lapse rates for a spot forecast, and even a fixed lapse rate that would not be applied; realizations to collapse that are not there. *)
Theorem C116_refused numba bounds cfg n nids lr s :
  ((k_lapse cfg = true \/ k_fixed cfg <> None) -> manipulate numba bounds cfg n nids lr (Spots s) = Err NotImplementedError) /\
  (plain cfg -> k_subset cfg = None -> k_collapse cfg = true -> s_real s = false -> manipulate numba bounds cfg n nids lr (Spots s) = Err CoordinateNotFoundError) /\
  (plain cfg -> k_subset cfg = None -> k_collapse cfg = false -> forall p, k_percentiles cfg = OnePercentile p -> ~ p == 0 -> manipulate numba bounds cfg n nids lr (Spots s) = Err TypeError).
Proof.
  split; [|split].
  - intro H. unfold manipulate. destruct (k_lapse cfg); [reflexivity|]. destruct H as [H|H]; [discriminate|]. destruct (k_fixed cfg); [reflexivity|congruence].
  - intros P K C R. rewrite spots_eq by exact P. rewrite K. cbn [bind]. unfold after_extraction. rewrite C. unfold collapse. rewrite R. reflexivity.
  - intros P K C p A NZ. rewrite spots_eq by exact P. rewrite K. cbn [bind]. unfold after_extraction, percentile_step. rewrite C, A. cbn [bind]. destruct (Qeqb_spec p 0); [contradiction|reflexivity].
Qed.
(** C116: the plugin may change its input: a spot forecast that is returned as it is loses its attribute model_grid_hash. *)
Theorem C116_input_kept_refuted : ~ (forall numba bounds cfg n nids lr s out, manipulate numba bounds cfg n nids lr (Spots s) = Ok out -> input_hash_after cfg s = s_hash s).
Proof.
  intro H. set (cfg := {| k_lapse := false; k_fixed := None; k_land := false; k_dz := false; k_percentiles := NoPercentiles; k_ignore := false; k_skip := false; k_collapse := false; k_subset := None |}).
  set (h := coordinate_hash hg3). set (s := {| s_meta := {| m_prob := false; m_name := "x"%string; m_height := None |}; s_real := false; s_kind := One; s_ids := []; s_line := true; s_rows := [[[Some 1]]]; s_hash := Some h |}).
  specialize (H false (0, 1) cfg {| n_hash := h; n_methods := [] |} [] None s (drop_hash s) eq_refl). discriminate.
Qed.
(** C116: the option to demote errors about ECC bounds does not reach percentiles that are resampled: it only counts for probabilities. *)
Theorem C116_bounds_option_refuted : ~ (forall numba bounds cfg n nids lr s, fst bounds <= snd bounds -> k_ignore cfg = true -> asks cfg (asked_of (k_percentiles cfg)) -> in_0_100 (asked_of (k_percentiles cfg)) -> Forall well_formed (s_rows s) ->
  (exists ps, s_kind s = Percs ps /\ qssorted ps /\ Forall (fun p => 0 <= p <= 100) ps /\ forall v m, In v (s_rows s) -> In m v -> length m = length ps) ->
  exists out, manipulate numba bounds cfg n nids lr (Spots s) = Ok out).
Proof.
  intro H. set (cfg := {| k_lapse := false; k_fixed := None; k_land := false; k_dz := false; k_percentiles := PercentileList [50]; k_ignore := true; k_skip := false; k_collapse := false; k_subset := None |}).
  set (s := {| s_meta := {| m_prob := false; m_name := "x"%string; m_height := None |}; s_real := false; s_kind := Percs [25; 75]; s_ids := []; s_line := true; s_rows := [[[Some 1; Some 5]]]; s_hash := None |}).
  destruct (H false (0, 4) cfg {| n_hash := coordinate_hash hg3; n_methods := [] |} [] None s) as [out X].
  - cbn. lra.
  - reflexivity.
  - repeat split; discriminate.
  - cbn. intros p [<-|[]]. lra.
  - repeat constructor; discriminate.
  - exists [25; 75]. split; [reflexivity|]. split; [repeat constructor; lra|]. split; [repeat constructor; lra|]. cbn. intros v m [<-|[]] [<-|[]]. reflexivity.
  - vm_compute in X. discriminate.
Qed.
(** C116: a forecast of a single site made of probabilities loses its site dimension; made of realizations it keeps it. *)
Theorem C116_site_dimension_refuted : ~ (forall numba bounds cfg n nids lr g out, manipulate numba bounds cfg n nids lr (Gridded g) = Ok out -> s_line out = true).
Proof.
  intro H. set (cfg := {| k_lapse := false; k_fixed := None; k_land := false; k_dz := false; k_percentiles := PercentileList [25; 75]; k_ignore := false; k_skip := false; k_collapse := false; k_subset := None |}).
  set (g := {| f_meta := {| m_prob := true; m_name := "probability_of_air_temperature_above_threshold"%string; m_height := None |}; f_real := false; f_kind := Probs "air_temperature" Above [280; 290]; f_grid := inr hg3; f_h := 1; f_w := 3; f_cell := fun _ _ => [[Some (3 # 4); Some (1 # 4)]] |}).
  set (n := {| n_hash := coordinate_hash hg3; n_methods := [("nearest"%string, [(1, 0, 0)])] |}).
  destruct (manipulate false (200, 330) cfg n [] None (Gridded g)) as [out|] eqn:E; [|vm_compute in E; discriminate].
  pose proof (H _ _ _ _ _ _ _ _ E) as L. apply (f_equal (fun r => match r with Ok o => s_line o | Err _ => true end)) in E. rewrite L in E. vm_compute in E. discriminate.
Qed.
Example C116_case :
  let cfg := {| k_lapse := true; k_fixed := Some (-(1 # 100)); k_land := false; k_dz := false; k_percentiles := PercentileList [0; 50; 100]; k_ignore := false; k_skip := false; k_collapse := false; k_subset := None |} in
  let g := {| f_meta := {| m_prob := false; m_name := "air_temperature"%string; m_height := Some (3 # 2) |}; f_real := true; f_kind := One; f_grid := inr hg3; f_h := 1; f_w := 3;
              f_cell := fun y x => map (fun r => [Some (280 + inject_Z x + inject_Z r)]) [3%Z; 0%Z; 4%Z] |} in
  let n := {| n_hash := coordinate_hash hg3; n_methods := [("nearest"%string, [(2, 0, 0); (1, 0, 20)])] |} in
  match manipulate false (200, 330) cfg n [("wmo_id"%string, ["03002"%string; "None"%string])] None (Gridded g) with
  | Ok out => map (map (map (option_map Qred))) (s_rows out) = [[[Some 282; Some 285; Some 286]]; [[Some (1404 # 5); Some (1419 # 5); Some (1424 # 5)]]]
  | Err _ => False
  end.
Proof. vm_compute. reflexivity. Qed.

Print Assumptions C116_subset.
Print Assumptions C116_site_alone.
Print Assumptions C116_gridded.
Print Assumptions C116_lapse.
Print Assumptions C116_realizations.
Print Assumptions C116_available.
Print Assumptions C116_increasing.
Print Assumptions C116_collapse.
Print Assumptions C116_input_hash.
Print Assumptions C116_refused.
Print Assumptions C116_input_kept_refuted.
Print Assumptions C116_bounds_option_refuted.
Print Assumptions C116_site_dimension_refuted.
