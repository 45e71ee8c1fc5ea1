(** C64-C66. *)
From Verif Require Import Base Model_Probability Model_Integration Model_Bias Spec_Bias Proofs_Temporal Proofs_Integration Proofs_Bias.
Local Open Scope Q_scope.

(** * C64 *)
(** C64: the k-th forecast and the k-th truth are valid at the same time; times ascend and each occurs once. *)
Theorem C64_pairs hfs truths a b : same_style hfs truths -> filter_non_matching hfs truths = Ok (a, b) ->
  Forall2 (fun h t => t_cell h = t_cell t) a b /\ ascending a /\ ascending b /\ NoDup (map t_cell a) /\ a <> [].
Proof.
  intros St H. destruct (filter_spec hfs truths St) as (ps & P0 & _ & P2 & P3 & _).
  assert (Ne : ps <> []) by (intro C; subst; congruence). assert (P0' : filter_non_matching hfs truths = Ok (map fst (isort le_pair ps), map snd (isort le_pair ps))) by (destruct ps; [congruence|exact P0]).
  rewrite H in P0'. injection P0' as -> ->.
  assert (F : Forall (fun q => t_cell (snd q) = t_cell (fst q)) ps) by (apply Forall_forall; intros [h t] I0; now apply P2 in I0).
  split; [|split; [|split; [|split]]].
  - assert (F2 : Forall (fun q => t_cell (snd q) = t_cell (fst q)) (isort le_pair ps)) by (apply Forall_forall; intros q Hq; rewrite Forall_forall in F; apply F; eapply Permutation_in; [apply Permutation_sym, isort_perm|exact Hq]).
    clear - F2. induction F2 as [|q l E F IH]; cbn [map]; constructor; auto.
  - rewrite sort_fst. apply by_time_ascending.
  - rewrite sort_snd by exact F. apply by_time_ascending.
  - rewrite map_map. eapply Permutation_NoDup; [|exact P3]. apply Permutation_map, isort_perm.
  - intro C. apply map_eq_nil in C. apply Ne. apply Permutation_nil. rewrite <- C. apply Permutation_sym, isort_perm.
Qed.
(** C64: a forecast slice is kept exactly if it is the first one for its time that is not all NaN, and there is a truth for this time. *)
Theorem C64_kept hfs truths a b h : same_style hfs truths -> filter_non_matching hfs truths = Ok (a, b) -> (In h a <-> first_usable truths hfs h).
Proof.
  intros St H. destruct (filter_spec hfs truths St) as (ps & P0 & _ & _ & _ & P4). destruct ps as [|p ps0] eqn:E; [congruence|]. rewrite <- E in *. rewrite H in P0. injection P0 as -> ->.
  rewrite <- P4. split; intro I0; (eapply Permutation_in; [|exact I0]); apply Permutation_map; [apply Permutation_sym|]; apply isort_perm.
Qed.
(** C64: the truths that are kept are those for which there is a forecast with values. *)
Theorem C64_truths_kept hfs truths a b t : same_style hfs truths -> NoDup (map t_cell truths) -> filter_non_matching hfs truths = Ok (a, b) ->
  (In t b <-> In t truths /\ exists h, In h hfs /\ t_cell h = t_cell t /\ ~ only_nan (t_data h)).
Proof.
  intros St Nd H. destruct (filter_spec hfs truths St) as (ps & P0 & _ & P2 & _ & P4). destruct ps as [|p ps0] eqn:E; [congruence|]. rewrite <- E in *. rewrite H in P0. injection P0 as -> ->.
  assert (X : In t (map snd (isort le_pair ps)) <-> In t (map snd ps)) by (split; intro I0; (eapply Permutation_in; [|exact I0]); apply Permutation_map; [apply Permutation_sym|]; apply isort_perm). rewrite X. split.
  - intro I0. apply in_map_iff in I0 as ([h t'] & <- & I0). cbn [snd]. destruct (P2 _ _ I0) as [A B]. split; [exact A|]. assert (Ih : In h (map fst ps)) by (apply in_map_iff; exists (h, t'); auto).
    apply P4 in Ih as (b & af & -> & [U _] & _). exists h. split; [apply in_app_iff; right; now left|]. auto.
  - intros [It (h & Ih & Ch & Nn)]. destruct (usable_first truths hfs h Ih) as (g & Fg & Cg); [split; [exact Nn|exists t; auto]|]. apply P4 in Fg. apply in_map_iff in Fg as ([g' t'] & <- & I0). cbn [fst] in Cg. destruct (P2 _ _ I0) as [A B].
    assert (t' = t); [|subst; apply in_map_iff; exists (g', t); auto].
    assert (Inj : forall l (x y : tslice), NoDup (map t_cell l) -> In x l -> In y l -> t_cell x = t_cell y -> x = y).
    { clear. induction l as [|z l IH]; intros x y N Ix Iy C; [destruct Ix|]. cbn [map] in N. inversion N as [|? ? Nz N']; subst. destruct Ix as [->|Ix], Iy as [->|Iy]; [reflexivity|exfalso; apply Nz; rewrite C; now apply in_map|exfalso; apply Nz; rewrite <- C; now apply in_map|auto]. }
    apply (Inj truths); auto. congruence.
Qed.
(** C64: it is refused exactly if no forecast slice with values has a truth for its time. *)
Theorem C64_refused hfs truths : same_style hfs truths ->
  (filter_non_matching hfs truths = Err ValueError <-> forall h, In h hfs -> ~ usable truths h) /\
  ((exists r, filter_non_matching hfs truths = Ok r) <-> exists h, In h hfs /\ usable truths h).
Proof.
  intro St. destruct (filter_spec hfs truths St) as (ps & P0 & _ & _ & _ & P4). destruct ps as [|p ps0] eqn:E; [|rewrite <- E in *].
  - assert (No : forall h, In h hfs -> ~ usable truths h) by (intros h I0 U; destruct (usable_first truths hfs h I0 U) as (g & F & _); apply P4 in F; destruct F).
    split; split; auto; [intros (r & H); congruence|intros (h & I0 & U); exfalso; exact (No h I0 U)].
  - assert (Yes : exists h, In h hfs /\ usable truths h). { assert (I0 : In (fst p) (map fst ps)) by (rewrite E; now left). apply P4 in I0 as (b & af & -> & U & _). exists (fst p). split; [apply in_app_iff; right; now left|exact U]. }
    split; split; auto; [intro H; congruence|intro H; exfalso; destruct Yes as (h & I0 & U); exact (H h I0 U)|eauto].
Qed.
(** C64: neither the order of the truths nor, for distinct times, that of the forecasts matters. *)
Theorem C64_order hfs hfs' truths truths' : same_style hfs truths -> Permutation hfs hfs' -> Permutation truths truths' ->
  NoDup (map (fun s => tc_point (t_cell s)) hfs) -> NoDup (map (fun s => tc_point (t_cell s)) truths) -> filter_non_matching hfs' truths' = filter_non_matching hfs truths.
Proof.
  intros St Ph Pt Nh Nt.
  assert (St' : same_style hfs' truths'). { assert (P : Permutation (hfs ++ truths) (hfs' ++ truths')) by now apply Permutation_app. destruct St as [S0|S0]; [left|right]; intros s I0; apply S0; eapply Permutation_in; [apply Permutation_sym; exact P|exact I0|apply Permutation_sym; exact P|exact I0]. }
  assert (Us : forall h, usable truths' h <-> usable truths h). { intro h. unfold usable. split; intros [A (t & It & Ct)]; (split; [exact A|]); exists t; (split; [|exact Ct]); eapply Permutation_in; [apply Permutation_sym; exact Pt|exact It|exact Pt|exact It]. }
  assert (Ft : forall ts hs h, NoDup (map (fun s => tc_point (t_cell s)) hs) -> (first_usable ts hs h <-> In h hs /\ usable ts h)).
  { clear. intros ts hs h N. split; [intros (b & a & -> & U & _); split; [apply in_app_iff; right; now left|exact U]|]. intros [I0 U]. apply in_split in I0 as (b & a & ->). exists b, a. split; [reflexivity|]. split; [exact U|]. intros g Ig _ C.
    rewrite map_app in N. cbn [map] in N. apply NoDup_remove_2 in N. apply N, in_app_iff. left. apply in_map_iff. exists g. split; [now rewrite C|exact Ig]. }
  assert (Nh' : NoDup (map (fun s => tc_point (t_cell s)) hfs')) by (eapply Permutation_NoDup; [apply Permutation_map; exact Ph|exact Nh]).
  assert (Nt' : NoDup (map (fun s => tc_point (t_cell s)) truths')) by (eapply Permutation_NoDup; [apply Permutation_map; exact Pt|exact Nt]).
  assert (NdC : forall l : list tslice, NoDup (map (fun s => tc_point (t_cell s)) l) -> NoDup (map t_cell l)) by (intro l; apply nodup_map_of; intros; now rewrite H1).
  destruct (C64_refused hfs truths St) as [R1 R2]. destruct (C64_refused hfs' truths' St') as [R1' R2'].
  destruct (filter_non_matching hfs truths) as [[a b]|e] eqn:E.
  - assert (Ex : exists r, filter_non_matching hfs' truths' = Ok r). { apply R2'. destruct (proj1 R2 (ex_intro _ _ eq_refl)) as (h & I0 & U). exists h. split; [eapply Permutation_in; eauto|now apply Us]. }
    destruct Ex as ([a' b'] & E'). rewrite E'.
    destruct (C64_pairs _ _ _ _ St E) as (F & A1 & A2 & _ & _). destruct (C64_pairs _ _ _ _ St' E') as (F' & A1' & A2' & _ & _).
    assert (Sub : forall hs ts x y (S0 : same_style hs ts) (Nhs : NoDup (map (fun s => tc_point (t_cell s)) hs)) (Q : filter_non_matching hs ts = Ok (x, y)), NoDup (map (fun s => tc_point (t_cell s)) x) /\ NoDup (map (fun s => tc_point (t_cell s)) y)).
    { intros hs ts x y S0 Nhs Q. destruct (C64_pairs _ _ _ _ S0 Q) as (Fx & _ & _ & Nx & _).
      assert (Nx' : NoDup (map (fun s => tc_point (t_cell s)) x)).
      { apply (nodup_map_of _ t_cell); [|exact Nx]. intros s s' Is Is' C. apply (C64_kept _ _ _ _ _ S0 Q) in Is, Is'. apply Ft in Is as [Is _]; [|exact Nhs]. apply Ft in Is' as [Is' _]; [|exact Nhs].
        assert (s = s'); [|now subst]. clear - Nhs Is Is' C. induction hs as [|z hs IH]; [destruct Is|]. cbn [map] in Nhs. inversion Nhs as [|? ? Nz N']; subst. destruct Is as [->|Is], Is' as [->|Is']; [reflexivity|exfalso; apply Nz; rewrite C; exact (in_map (fun s => tc_point (t_cell s)) _ _ Is')|exfalso; apply Nz; rewrite <- C; exact (in_map (fun s => tc_point (t_cell s)) _ _ Is)|auto]. }
      split; [exact Nx'|]. clear - Fx Nx'. replace (map (fun s => tc_point (t_cell s)) y) with (map (fun s => tc_point (t_cell s)) x); [exact Nx'|]. clear Nx'. induction Fx as [|s t x y C F IH]; [reflexivity|]. cbn [map]. now rewrite IH, C. }
    destruct (Sub _ _ _ _ St Nh E) as [Na Nb]. destruct (Sub _ _ _ _ St' Nh' E') as [Na' Nb'].
    assert (a' = a). { apply sorted_slices_unique; auto. intro s. rewrite (C64_kept _ _ _ _ s St E), (C64_kept _ _ _ _ s St' E'), !Ft, Us by assumption. split; intros [I0 U]; (split; [|exact U]); eapply Permutation_in; [apply Permutation_sym; exact Ph|exact I0|exact Ph|exact I0]. }
    assert (b' = b). { apply sorted_slices_unique; auto. intro s. rewrite (C64_truths_kept _ _ _ _ s St (NdC _ Nt) E), (C64_truths_kept _ _ _ _ s St' (NdC _ Nt') E'). split; intros [I0 (h & Ih & Q)]; (split; [|exists h; split; [|exact Q]]); eapply Permutation_in; try eassumption; now apply Permutation_sym. }
    now subst.
  - assert (Er : e = ValueError). { destruct (filter_spec hfs truths St) as (ps & P0 & _). destruct ps; congruence. } subst e. apply R1'. intros h I0 U. apply (proj1 R1 eq_refl h); [eapply Permutation_in; [apply Permutation_sym; exact Ph|exact I0]|now apply Us].
Qed.
(** C64: matching what has been matched changes nothing. *)
Lemma in_forall2_l {A B} (R : A -> B -> Prop) l m x : Forall2 R l m -> In x l -> exists y, In y m /\ R x y.
Proof. induction 1 as [|a b l m H F IH]; intros I0; [destruct I0|]. destruct I0 as [->|I0]; [exists b; split; [now left|exact H]|]. destruct (IH I0) as (y & Y1 & Y2). exists y. split; [now right|exact Y2]. Qed.
Lemma in_forall2_r {A B} (R : A -> B -> Prop) l m y : Forall2 R l m -> In y m -> exists x, In x l /\ R x y.
Proof. induction 1 as [|a b l m H F IH]; intros I0; [destruct I0|]. destruct I0 as [->|I0]; [exists a; split; [now left|exact H]|]. destruct (IH I0) as (x & Y1 & Y2). exists x. split; [now right|exact Y2]. Qed.
Theorem C64_idempotent hfs truths a b : same_style hfs truths -> NoDup (map (fun s => tc_point (t_cell s)) hfs) ->
  filter_non_matching hfs truths = Ok (a, b) -> filter_non_matching a b = Ok (a, b).
Proof.
  intros St Nh H. destruct (C64_pairs _ _ _ _ St H) as (F & A1 & A2 & N & Ne).
  assert (Ia : forall s, In s a -> In s hfs /\ usable truths s) by (intros s I0; apply (C64_kept _ _ _ _ _ St H) in I0 as (x & y & -> & U & _); split; [apply in_app_iff; right; now left|exact U]).
  assert (Ib : forall s, In s b -> In s truths). { intros s I0. destruct (filter_spec hfs truths St) as (ps & P0 & _ & P2 & _). destruct ps as [|p ps0] eqn:E; [congruence|]. rewrite <- E in *. rewrite H in P0. injection P0 as _ ->. apply in_map_iff in I0 as ([h t] & <- & I0). apply (Permutation_in _ (Permutation_sym (isort_perm le_pair ps))) in I0. now apply P2 in I0. }
  assert (St' : same_style a b) by (destruct St as [S0|S0]; [left|right]; intros s I0; apply S0, in_app_iff; apply in_app_iff in I0 as [I0|I0]; [left; now apply Ia|right; auto|left; now apply Ia|right; auto]).
  assert (Na : NoDup (map (fun s => tc_point (t_cell s)) a)).
  { apply (nodup_map_of _ t_cell); [|exact N]. intros s s' Is Is' C. apply Ia in Is as [Is _]. apply Ia in Is' as [Is' _]. assert (s = s'); [|now subst]. clear - Nh Is Is' C.
    induction hfs as [|z hs IH]; [destruct Is|]. cbn [map] in Nh. inversion Nh as [|? ? Nz N']; subst. destruct Is as [->|Is], Is' as [->|Is']; [reflexivity|exfalso; apply Nz; rewrite C; exact (in_map (fun s => tc_point (t_cell s)) _ _ Is')|exfalso; apply Nz; rewrite <- C; exact (in_map (fun s => tc_point (t_cell s)) _ _ Is)|auto]. }
  assert (Eq : forall x y, Forall2 (fun h t => t_cell h = t_cell t) x y -> map (fun s => tc_point (t_cell s)) x = map (fun s => tc_point (t_cell s)) y) by (intros x y Fx; induction Fx as [|s t x y C Fx IH]; [reflexivity|]; cbn [map]; now rewrite IH, C).
  assert (Nb : NoDup (map (fun s => tc_point (t_cell s)) b)) by (rewrite <- (Eq _ _ F); exact Na).
  assert (NbC : NoDup (map t_cell b)) by (apply (nodup_map_of _ (fun s => tc_point (t_cell s))); [intros; congruence|exact Nb]).
  assert (Ua : forall s, In s a -> usable b s) by (intros s I0; destruct (Ia s I0) as [_ [U _]]; split; [exact U|]; destruct (in_forall2_l _ _ _ _ F I0) as (t & It & Ct); exists t; auto).
  destruct (proj2 (proj2 (C64_refused a b St'))) as ([a' b'] & H'). { destruct a as [|s a]; [congruence|]. exists s. split; [now left|]. apply Ua. now left. }
  destruct (C64_pairs _ _ _ _ St' H') as (F' & A1' & A2' & N' & _).
  assert (a' = a).
  { assert (Mem : forall s, In s a' <-> In s a).
    { intro s. rewrite (C64_kept _ _ _ _ s St' H'). split; [intros (x & y & -> & _); apply in_app_iff; right; now left|]. intro I0. pose proof (Ua s I0) as U. apply in_split in I0 as (x & y & ->). exists x, y. split; [reflexivity|]. split; [exact U|].
      intros g Ig _ C. rewrite map_app in Na. cbn [map] in Na. apply NoDup_remove_2 in Na. apply Na, in_app_iff. left. apply in_map_iff. exists g. split; [now rewrite C|exact Ig]. }
    apply sorted_slices_unique; auto. apply (nodup_map_of _ t_cell); [|exact N']. intros s s' Is Is' C. apply Mem in Is, Is'. assert (s = s'); [|now subst]. clear - Na Is Is' C.
    induction a as [|z hs IH]; [destruct Is|]. cbn [map] in Na. inversion Na as [|? ? Nz N0]; subst. destruct Is as [->|Is], Is' as [->|Is']; [reflexivity|exfalso; apply Nz; rewrite C; exact (in_map (fun s => tc_point (t_cell s)) _ _ Is')|exfalso; apply Nz; rewrite <- C; exact (in_map (fun s => tc_point (t_cell s)) _ _ Is)|auto]. }
  subst a'. assert (b' = b); [|now subst].
  apply sorted_slices_unique; auto; [rewrite <- (Eq _ _ F'); exact Na|]. intro s. rewrite (C64_truths_kept _ _ _ _ s St' NbC H'). split; [tauto|]. intro I0. split; [exact I0|]. destruct (in_forall2_r _ _ _ _ F I0) as (h & Ih & Ch). exists h. split; [exact Ih|]. split; [exact Ch|]. now destruct (Ia h Ih) as [_ [U _]].
Qed.
(** C64: if the truths have bounds and the forecasts have none, a forecast is paired with a truth of a different time, any period that contains it; with bounds on the forecasts only, a TypeError is raised. *)
Definition slice_at (p : Z) (b : option (Z * Z)) (v : Q) : tslice := {| t_cell := {| tc_point := p; tc_bounds := b |}; t_frt := 0; t_period := 3600; t_data := [Num v] |}.
Theorem C64_mixed_bounds_refuted : ~ (forall hfs truths a b, filter_non_matching hfs truths = Ok (a, b) -> Forall2 (fun h t => tc_point (t_cell h) = tc_point (t_cell t)) a b).
Proof. intro H. specialize (H [slice_at 3600 None 1] [slice_at 7200 (Some (0, 7200)%Z) 2] _ _ eq_refl). inversion H as [|? ? ? ? E _]; subst. discriminate E. Qed.
Theorem C64_bounds_on_forecast_only p l u v w : filter_non_matching [slice_at p (Some (l, u)) v] [slice_at p None w] = Err TypeError.
Proof. unfold filter_non_matching, slice_at. cbn [match_loop extract_truth t_cell time_matches tc_bounds tc_point]. now rewrite Z.eqb_refl. Qed.
(** C64: a forecast without bounds is paired with a bounded truth exactly if its time is within the bounds, ends included. *)
Theorem C64_containment p q l u v w : ((exists a b, filter_non_matching [slice_at p None v] [slice_at q (Some (l, u)) w] = Ok (a, b)) <-> (l <= p <= u)%Z) /\
  ((l <= p <= u)%Z -> filter_non_matching [slice_at p None v] [slice_at q (Some (l, u)) w] = Ok ([slice_at p None v], [slice_at q (Some (l, u)) w])).
Proof.
  assert (X : (l <= p <= u)%Z -> filter_non_matching [slice_at p None v] [slice_at q (Some (l, u)) w] = Ok ([slice_at p None v], [slice_at q (Some (l, u)) w])).
  { intros [A B]. unfold filter_non_matching, slice_at. cbn [match_loop extract_truth t_cell time_matches tc_bounds tc_point]. apply Z.leb_le in A, B. rewrite A, B. reflexivity. }
  split; [|exact X]. split; [|intro B; rewrite (X B); eauto]. intros (a & b & H). unfold filter_non_matching, slice_at in H. cbn [match_loop extract_truth t_cell time_matches tc_bounds tc_point] in H.
  destruct (l <=? p)%Z eqn:A, (p <=? u)%Z eqn:B; cbn in H; try discriminate; lia.
Qed.
Example C64_case : let hfs := [slice_at 3 None 1; slice_at 1 None 2; slice_at 3 None 5; slice_at 4 None 7; {| t_cell := {| tc_point := 2; tc_bounds := None |}; t_frt := 0; t_period := 0; t_data := [NotANumber; Masked] |}] in let truths := [slice_at 1 None 8; slice_at 2 None 9; slice_at 3 None 10] in
  same_style hfs truths /\ filter_non_matching hfs truths = Ok ([slice_at 1 None 2; slice_at 3 None 1], [slice_at 1 None 8; slice_at 3 None 10]).
Proof. cbv zeta. split; [left; intros s I0; cbn in I0; intuition (subst; reflexivity)|vm_compute; reflexivity]. Qed.

(** * C65 *)
Definition single_valued (k : fkind) : Prop := match k with SingleValued => True | Percentile n | Realization n => (n <= 1)%nat | Probability => False end.
Lemma ensure_single_iff k : (ensure_single k = Ok tt <-> single_valued k) /\ (ensure_single k = Ok tt \/ ensure_single k = Err ValueError).
Proof.
  destruct k as [|n|n|]; cbn [ensure_single single_valued]; [tauto| | |split; [split; [discriminate|tauto]|now right]].
  all: destruct (Nat.ltb_spec 1 n); split; [split; [discriminate|lia]|now right|split; [lia|reflexivity]|now left].
Qed.
Lemma calculate_inv k name hfs truths b : calculate_bias k name hfs truths = Ok b -> exists a t, single_valued k /\ filter_non_matching hfs truths = Ok (a, t) /\ check_forecast_consistency a = Ok tt /\
  b_name b = ("forecast_error_of_" ++ name)%string /\ b_fields b = [additive_error (map t_data a) (map t_data t)] /\ b_periods b = match a with s :: _ => [t_period s] | [] => [] end /\
  (b_frts b, b_frt_bounds b) = match map t_frt a with [f] => ([f], None) | l => match unified_frt l [] with Some (f, bo) => ([f], Some bo) | None => ([0%Z], None) end end.
Proof.
  unfold calculate_bias. intro H. destruct (ensure_single_iff k) as [K1 [K2|K2]]; rewrite K2 in H; [|discriminate]. cbn [bind] in H. destruct (filter_non_matching hfs truths) as [[a t]|e] eqn:F; [|discriminate]. cbn [bind fst snd] in H.
  destruct (check_forecast_consistency a) as [[]|e] eqn:C; [|discriminate]. cbn [bind] in H. exists a, t. split; [now apply K1|]. split; [reflexivity|]. split; [exact C|].
  destruct (map t_frt a) as [|f [|g r]] eqn:M; cbn in H; apply Ok_inj in H; subst b; cbn; auto.
Qed.
(** C65: which historic forecasts are accepted. *)
Theorem C65_accepted k name hfs truths : same_style hfs truths ->
  ((exists b, calculate_bias k name hfs truths = Ok b) <->
   single_valued k /\ exists a t, filter_non_matching hfs truths = Ok (a, t) /\ forall s s', In s a -> In s' a -> hour (t_frt s) = hour (t_frt s') /\ t_period s = t_period s').
Proof.
  intro St. split.
  - intros (b & H). apply calculate_inv in H as (a & t & K & F & C & _). split; [exact K|]. exists a, t. split; [exact F|]. now apply consistency_iff in C as [_ C].
  - intros [K (a & t & F & C)]. unfold calculate_bias. apply (proj1 (ensure_single_iff k)) in K. rewrite K. cbn [bind]. rewrite F. cbn [bind fst snd].
    assert (Ck : check_forecast_consistency a = Ok tt) by (apply consistency_iff; split; [now destruct (C64_pairs _ _ _ _ St F) as (_ & _ & _ & _ & Ne)|exact C]). rewrite Ck. cbn [bind]. destruct (map t_frt a) as [|f [|g r]]; cbn; eauto.
Qed.
(** C65: at every point the bias is the mean of forecast minus truth over the times at which neither is masked. *)
Theorem C65_value k name hfs truths b a t n i : same_style hfs truths -> calculate_bias k name hfs truths = Ok b -> filter_non_matching hfs truths = Ok (a, t) -> of_size n a -> of_size n t -> (i < n)%nat ->
  exists field, b_fields b = [field] /\ length field = n /\ mean_error (pairs_at a t i) (nth i field Masked).
Proof.
  intros St H F Sa Sb Hi. apply calculate_inv in H as (a' & t' & _ & F' & _ & _ & Fl & _). rewrite F in F'. injection F' as <- <-. destruct (C64_pairs _ _ _ _ St F) as (F2 & _ & _ & _ & Ne).
  exists (additive_error (map t_data a) (map t_data t)). split; [exact Fl|]. apply additive_error_at; auto. clear - F2. induction F2; cbn; auto.
Qed.
(** C65: the bias is labelled with the latest reference time, with bounds from the earliest to the latest if there are several, and with the common forecast period. *)
Theorem C65_labels k name hfs truths b a t : same_style hfs truths -> calculate_bias k name hfs truths = Ok b -> filter_non_matching hfs truths = Ok (a, t) ->
  b_name b = ("forecast_error_of_" ++ name)%string /\ (forall s, In s a -> b_periods b = [t_period s]) /\
  exists f, b_frts b = [f] /\ In f (map t_frt a) /\ (forall s, In s a -> (t_frt s <= f)%Z) /\
    match b_frt_bounds b with None => length a = 1%nat | Some (lo, hi) => (1 < length a)%nat /\ hi = f /\ In lo (map t_frt a) /\ forall s, In s a -> (lo <= t_frt s)%Z end.
Proof.
  intros St H F. apply calculate_inv in H as (a' & t' & _ & F' & C & Nm & _ & Pd & Fr). rewrite F in F'. injection F' as <- <-. destruct (C64_pairs _ _ _ _ St F) as (_ & _ & _ & _ & Ne). apply consistency_iff in C as [_ C].
  split; [exact Nm|]. split. { intros s Is. rewrite Pd. destruct a as [|s0 a]; [destruct Is|]. f_equal. now apply C; [left|]. }
  assert (La : length a = length (map t_frt a)) by (symmetry; apply map_length).
  assert (In1 : forall s, In s a -> In (t_frt s) (map t_frt a)) by (intros; now apply in_map). rewrite La. clear La.
  destruct (map t_frt a) as [|f [|g r]] eqn:M.
  - exfalso. apply map_eq_nil in M. contradiction.
  - injection Fr as -> ->. exists f. split; [reflexivity|]. split; [now left|]. split; [|reflexivity]. intros s Is. apply In1 in Is as [<-|[]]. lia.
  - cbn [unified_frt] in Fr. injection Fr as E1 E2. destruct (zmaxl_spec (g :: r) f) as [A1 A2]. destruct (zminl_spec (g :: r) f) as [B1 B2].
    exists (zmaxl f (g :: r)). rewrite E1, E2. split; [reflexivity|]. split; [exact A1|]. split; [intros s Is; now apply A2, In1|].
    cbn [flat_map]. split; [cbn; lia|]. split; [reflexivity|]. split; [exact B1|]. intros s Is. now apply B2, In1.
Qed.

(** C65: which inputs ApplyBiasCorrection accepts; everything else is an error. *)
Definition bias_inputs (cubes : list biascube) : list biascube := filter is_error cubes.
Definition forecast_inputs (cubes : list biascube) : list biascube := filter (fun c => negb (is_error c)) cubes.
(** The values of all bias cubes at a point (each paired with zero, so that [mean_error] is their mean). *)
Definition biases_at (bs : list biascube) (i : nat) : list (dval * dval) := map (fun b => (nth i (field_of b) Masked, Num 0)) bs.
Lemma mean_error_values l : exists v, dmean l = v /\ mean_error (map (fun x => (x, Num 0)) l) v.
Proof.
  pose proof (mean_error_dmean (map (fun x => (x, Num 0)) l)) as M. rewrite map_map in M. cbn [fst snd] in M. exists (dmean l). split; [reflexivity|].
  set (f := fun x => dsub x (Num 0)) in M.
  assert (U : unmasked (map f l) = map f (unmasked l)) by (unfold unmasked, f; clear; induction l as [|[x| |] l IH]; cbn [map filter dsub]; rewrite ?IH; reflexivity).
  unfold dmean in M |- *. rewrite U in M. destruct (unmasked l) as [|u us] eqn:Ul; [exact M|]. cbn [map] in M. rewrite <- Ul in *. change (f u :: map f us) with (map f (u :: us)) in M. rewrite <- Ul in M.
  assert (N : existsb is_nan (map f (unmasked l)) = existsb is_nan (unmasked l)) by (unfold f; clear; induction (unmasked l) as [|[x| |] k IH]; cbn [map existsb dsub is_nan]; rewrite ?IH; reflexivity). rewrite N in M. destruct (existsb is_nan (unmasked l)) eqn:E; [exact M|].
  cbn [mean_error] in *. destruct M as (es & P & Ne & S0). exists es. split; [exact P|]. split; [exact Ne|]. rewrite <- S0.
  assert (Nu : numbers (map f (unmasked l)) = map (fun q => q - 0) (numbers (unmasked l))) by (unfold f, numbers; clear; induction (unmasked l) as [|[x| |] k IH]; cbn [map flat_map dsub app]; [reflexivity|f_equal; exact IH|exact IH|exact IH]).
  rewrite Nu. unfold mean. rewrite Qlen_map. assert (Sq : qsum (map (fun q => q - 0) (numbers (unmasked l))) == qsum (numbers (unmasked l))) by (clear; induction (numbers (unmasked l)) as [|q k IH]; cbn [map qsum]; [reflexivity|rewrite IH; ring]). rewrite Sq. reflexivity.
Qed.
Theorem C65_apply lo hi fill cubes r after : apply_bias lo hi fill cubes = Ok (r, after) ->
  exists f, forecast_inputs cubes = [f] /\ b_name r = b_name f /\ b_frts r = b_frts f /\ b_periods r = b_periods f /\ length (b_fields r) = length (b_fields f) /\
    (bias_inputs cubes = [] -> r = f) /\
    (bias_inputs cubes <> [] -> forall j i, (j < length (b_fields f))%nat -> (i < length (nth j (b_fields f) []))%nat ->
       exists m, mean_error (biases_at (bias_inputs cubes) i) m /\
         deq (nth i (nth j (b_fields r) []) Masked) (dclip lo hi (dsub (nth i (nth j (b_fields f) []) Masked) (if fill then filled m else m)))).
Proof.
  unfold apply_bias. intro H. destruct (split_bias None [] cubes) as [[f bs]|e] eqn:S0; [|discriminate]. apply split_bias_iff in S0 as (g & G & E). injection E as -> ->. cbn [app bind] in *. fold (forecast_inputs cubes) in G. fold (bias_inputs cubes) in H.
  exists g. split; [exact G|]. destruct (bias_inputs cubes) as [|b bs] eqn:B. { injection H as <- _. do 4 (split; [reflexivity|]). split; [reflexivity|congruence]. }
  rewrite <- B in *. destruct (check_bias_consistent g (bias_inputs cubes)) as [[]|e]; [|discriminate]. cbn [bind] in H. destruct (mean_bias (bias_inputs cubes)) as [m|e] eqn:M; [|discriminate]. cbn [bind] in H.
  set (m' := if fill then map filled m else m) in *. destruct (existsb _ (b_fields g)) eqn:X; [discriminate|]. injection H as <- _. cbn [b_name b_frts b_periods b_fields]. do 3 (split; [reflexivity|]). split; [apply map_length|].
  split; [congruence|]. intros _ j i Hj Hi.
  assert (Lm : length (nth j (b_fields g) []) = length m').
  { destruct (Nat.eqb_spec (length (nth j (b_fields g) [])) (length m')) as [e|e]; [exact e|]. exfalso. assert (T : existsb (fun d => negb (length d =? length m')%nat) (b_fields g) = true); [|congruence]. apply existsb_exists. exists (nth j (b_fields g) []). split; [now apply nth_In|]. apply negb_true_iff, Nat.eqb_neq. exact e. }
  assert (Lm' : length m' = length m) by (unfold m'; destruct fill; [apply map_length|reflexivity]).
  exists (nth i m Masked). split.
  - unfold biases_at. unfold mean_bias in M. destruct (bias_inputs cubes) as [|b0 [|b1 bs0]] eqn:Eb; [congruence| |].
    + injection M as <-. cbn [map]. pose proof (mean_error_one (nth i (field_of b0) Masked) (Num 0)) as Q. destruct (nth i (field_of b0) Masked); cbn [dsub] in Q; [|exact Q..]. cbn [mean_error] in *. destruct Q as (es & P & Ne & S0). exists es. split; [exact P|]. split; [exact Ne|]. rewrite <- S0. ring.
    + destruct (existsb _ _); [discriminate|]. destruct (negb _); [discriminate|]. injection M as <-. rewrite map_length, seq_length in Lm'. rewrite nth_map_seq by lia.
      destruct (mean_error_values (column (map field_of (b0 :: b1 :: bs0)) i)) as (v & <- & Q). unfold column in Q at 1. rewrite !map_map in Q. exact Q.
  - assert (Nj : nth j (map (fun d => map (dclip lo hi) (zipd dsub d m')) (b_fields g)) [] = map (dclip lo hi) (zipd dsub (nth j (b_fields g) []) m')) by (rewrite nth_map_lt with (d := []) by exact Hj; reflexivity). rewrite Nj.
    rewrite nth_map_lt with (d := Masked) by (rewrite zipd_length; lia). rewrite zipd_nth by lia.
    assert (Nm : nth i m' Masked = if fill then filled (nth i m Masked) else nth i m Masked) by (unfold m'; destruct fill; [now rewrite nth_map_lt with (d := Masked) by lia|reflexivity]). rewrite Nm.
    destruct (dclip _ _ _); cbn; auto. reflexivity.
Qed.
(** C65: which inputs are accepted. *)
Theorem C65_correction_accepted lo hi fill cubes : (forall b, In b (bias_inputs cubes) -> b_frts b <> [] /\ b_periods b <> []) ->
  ((exists r, apply_bias lo hi fill cubes = Ok r) <->
   exists f, forecast_inputs cubes = [f] /\
     (bias_inputs cubes = [] \/
      (forall b b' x y, In b (f :: bias_inputs cubes) -> In b' (f :: bias_inputs cubes) -> In x (b_frts b) -> In y (b_frts b') -> hour x = hour y) /\
      (forall b b' x y, In b (f :: bias_inputs cubes) -> In b' (f :: bias_inputs cubes) -> In x (b_periods b) -> In y (b_periods b') -> x = y) /\
      (length (bias_inputs cubes) = 1%nat \/ (forall b, In b (bias_inputs cubes) -> b_frt_bounds b = None) /\ NoDup (flat_map b_frts (bias_inputs cubes))) /\
      (exists n, (forall b, In b (bias_inputs cubes) -> length (field_of b) = n) /\ forall d, In d (b_fields f) -> length d = n))).
Proof.
  intro Nb. unfold apply_bias. destruct (split_bias_error cubes None []) as [([f bs] & S0)|S0]; rewrite S0; cbn [bind].
  2:{ split; [intros (r & H); discriminate|]. intros (f & Hf & _). exfalso. assert (X : split_bias None [] cubes = Ok (f, [] ++ filter is_error cubes)) by (apply split_bias_iff; exists f; auto). congruence. }
  apply split_bias_iff in S0 as (g & G & E). injection E as -> ->. cbn [app] in *. fold (forecast_inputs cubes) in G. fold (bias_inputs cubes). rewrite G.
  assert (Wrap : forall P : biascube -> Prop, (exists f, [g] = [f] /\ P f) <-> P g) by (intro P; split; [intros (f & Ef & H); injection Ef as <-; exact H|eauto]). rewrite Wrap. clear Wrap.
  destruct (bias_inputs cubes) as [|b0 bs0] eqn:B; [split; eauto|]. rewrite <- B in *. assert (Ne : bias_inputs cubes <> []) by (rewrite B; discriminate). set (bs := bias_inputs cubes) in *. clearbody bs.
  destruct (bias_consistent_iff g bs Ne Nb) as [Ci Ce]. destruct Ce as [Ce|Ce]; rewrite Ce; cbn [bind].
  2:{ split; [intros (r & H); discriminate|]. intros [H|(H1 & H2 & _)]; [congruence|]. exfalso. rewrite (proj2 Ci (conj H1 H2)) in Ce. discriminate. }
  apply Ci in Ce as [C1 C2].
  assert (Sz : forall (m : list dval) (after : list biascube), (exists r, (let m' := if fill then map filled m else m in
      if existsb (fun d => negb (length d =? length m')%nat) (b_fields g) then @Err (biascube * list biascube) ValueError else Ok ({| b_name := b_name g; b_frts := b_frts g; b_frt_bounds := b_frt_bounds g; b_periods := b_periods g; b_fields := map (fun d => map (dclip lo hi) (zipd dsub d m')) (b_fields g) |}, after)) = Ok r) <-> forall d, In d (b_fields g) -> length d = length m).
  { intros m after. cbv zeta. assert (L : length (if fill then map filled m else m) = length m) by (destruct fill; [apply map_length|reflexivity]). rewrite L. destruct (existsb _ _) eqn:X.
    - split; [intros (r & H); discriminate|]. intro A. exfalso. apply existsb_exists in X as (d & Id & Hd). apply negb_true_iff, Nat.eqb_neq in Hd. auto.
    - split; [|eauto]. intros _ d Id. destruct (Nat.eqb_spec (length d) (length m)) as [e|e]; [exact e|]. exfalso. assert (T : existsb (fun d => negb (length d =? length m)%nat) (b_fields g) = true); [|congruence]. apply existsb_exists. exists d. split; [exact Id|]. now apply negb_true_iff, Nat.eqb_neq. }
  unfold mean_bias. destruct bs as [|c [|c' bs1]] eqn:Eb; [congruence| |].
  - cbn [bind]. transitivity (forall d, In d (b_fields g) -> length d = length (field_of c)); [exact (Sz (field_of c) _)|]. split.
    + intro A. right. split; [exact C1|]. split; [exact C2|]. split; [now left|]. exists (length (field_of c)). split; [intros b [<-|[]]; reflexivity|exact A].
    + intros [H|(_ & _ & _ & n & Hn & Hd)]; [discriminate|]. intros d Id. rewrite (Hn c (or_introl eq_refl)). auto.
  - rewrite <- Eb in *. destruct (existsb _ bs) eqn:X.
    { cbn [bind]. split; [intros (r & H); discriminate|]. intros [H|(_ & _ & [H|[H _]] & _)]; [congruence|rewrite Eb in H; discriminate|]. exfalso. apply existsb_exists in X as (b & Ib & Hb). rewrite (H b Ib) in Hb. discriminate. }
    destruct (znodup (flat_map b_frts bs)) eqn:Z0; cbn [andb negb bind].
    2:{ split; [intros (r & H); discriminate|]. intros [H|(_ & _ & [H|[_ H]] & _)]; [congruence|rewrite Eb in H; discriminate|]. exfalso. apply znodup_iff in H. congruence. }
    assert (Sl : same_len (map field_of bs) = true <-> exists n, forall b, In b bs -> length (field_of b) = n).
    { rewrite Eb. cbn [map same_len]. rewrite forallb_forall. split.
      - intro F. exists (length (field_of c)). intros b [<-|Ib]; [reflexivity|]. apply Nat.eqb_eq, F. exact (in_map field_of (c' :: bs1) b Ib).
      - intros (n & Hn) d Id. apply Nat.eqb_eq. change (field_of c' :: map field_of bs1) with (map field_of (c' :: bs1)) in Id. apply in_map_iff in Id as (b & <- & Ib). rewrite (Hn b (or_intror Ib)), (Hn c (or_introl eq_refl)). reflexivity. }
    destruct (same_len (map field_of bs)) eqn:Sm; cbn [negb bind].
    2:{ split; [intros (r & H); discriminate|]. intros [H|(_ & _ & _ & n & Hn & _)]; [congruence|]. exfalso. assert (false = true) by (apply Sl; eauto). discriminate. }
    destruct (proj1 Sl eq_refl) as (n & Hn). assert (Hc : length (field_of (hd {| b_name := ""; b_frts := []; b_frt_bounds := None; b_periods := []; b_fields := [] |} bs)) = n) by (rewrite Eb; cbn [hd]; apply Hn; rewrite Eb; now left).
    transitivity (forall d, In d (b_fields g) -> length d = n); [|split].
    + set (mm := map _ (seq 0 _)). assert (Lmm : length mm = n) by (unfold mm; rewrite map_length, seq_length; exact Hc). pose proof (fun aft => Sz mm aft) as Sz'. rewrite Lmm in Sz'. exact (Sz' _).
    + intro A. right. split; [exact C1|]. split; [exact C2|]. split; [right; split; [|now apply znodup_iff]|eauto]. intros b Ib. destruct (b_frt_bounds b) eqn:Bb; [|reflexivity]. exfalso. assert (T : existsb (fun b => match b_frt_bounds b with Some _ => true | None => false end) bs = true); [|congruence]. apply existsb_exists. exists b. rewrite Bb. auto.
    + intros [H|(_ & _ & _ & k & Hk & Hd)]; [congruence|]. intros d Id. rewrite (Hd d Id). rewrite <- (Hk c), <- (Hn c); rewrite ?Eb; [reflexivity|now left|now left].
Qed.
(** C65: corrected values respect the bounds. *)
Theorem C65_range lo hi fill cubes r after f j i v : apply_bias lo hi fill cubes = Ok (r, after) -> forecast_inputs cubes = [f] -> bias_inputs cubes <> [] ->
  (j < length (b_fields f))%nat -> (i < length (nth j (b_fields f) []))%nat -> nth i (nth j (b_fields r) []) Masked = Num v ->
  (forall l h, lo = Some l -> hi = Some h -> l <= h) -> (forall l, lo = Some l -> l <= v) /\ (forall h, hi = Some h -> v <= h).
Proof.
  intros H Hf Ne Hj Hi Hv Lh. destruct (C65_apply _ _ _ _ _ _ H) as (f' & Hf' & _ & _ & _ & _ & _ & A). rewrite Hf in Hf'. injection Hf' as <-. destruct (A Ne j i Hj Hi) as (m & _ & D). rewrite Hv in D.
  destruct (dsub _ _) as [x| |]; cbn in D; try contradiction. split; intros b ->.
  - destruct hi as [h|]; [pose proof (Lh b h eq_refl eq_refl)|]; rewrite D; qmm; lra.
  - rewrite D. apply Q.le_min_r.
Qed.
(** C65: where every bias is masked, the forecast is unchanged (up to the bounds) if masked biases are filled, and masked otherwise. *)
Theorem C65_masked_bias lo hi fill cubes r after f j i : apply_bias lo hi fill cubes = Ok (r, after) -> forecast_inputs cubes = [f] -> bias_inputs cubes <> [] ->
  (j < length (b_fields f))%nat -> (i < length (nth j (b_fields f) []))%nat -> (forall b, In b (bias_inputs cubes) -> nth i (field_of b) Masked = Masked) ->
  deq (nth i (nth j (b_fields r) []) Masked) (if fill then dclip lo hi (nth i (nth j (b_fields f) []) Masked) else Masked).
Proof.
  intros H Hf Ne Hj Hi M. destruct (C65_apply _ _ _ _ _ _ H) as (f' & Hf' & _ & _ & _ & _ & _ & A). rewrite Hf in Hf'. injection Hf' as <-. destruct (A Ne j i Hj Hi) as (m & Hm & D).
  assert (Mm : m = Masked).
  { assert (All : forall p, In p (biases_at (bias_inputs cubes) i) -> fst p = Masked) by (intros p Ip; apply in_map_iff in Ip as (b & <- & Ib); cbn; auto).
    destruct m as [q| |]; [|destruct Hm as (p & Ip & Np & _); exfalso; apply Np; auto|reflexivity]. destruct Hm as (es & P & Nes & _). exfalso. apply Nes. clear - All P. induction (biases_at (bias_inputs cubes) i) as [|p l IH]; [exact P|]. pose proof (All p (or_introl eq_refl)) as Mp. destruct p as [x y]. cbn in Mp. subst x. apply IH; [exact P|]. intros; apply All; now right. }
  subst m. destruct fill; cbn [filled] in D.
  - destruct (nth i (nth j (b_fields f) []) Masked) as [x| |]; cbn [dsub] in D; try exact D. destruct (nth i (nth j (b_fields r) []) Masked) as [y| |]; cbn in *; try contradiction. rewrite D.
    destruct lo as [l|], hi as [h|]; qmm; lra.
  - assert (X : dclip lo hi (dsub (nth i (nth j (b_fields f) []) Masked) Masked) = Masked) by (destruct (nth i (nth j (b_fields f) []) Masked); reflexivity). rewrite X in D. exact D.
Qed.
(** C65: without bias cubes the forecast comes back unchanged. *)
Theorem C65_spin_up lo hi fill f : contains "forecast_error" (b_name f) = false -> apply_bias lo hi fill [f] = Ok (f, []).
Proof. intro N. unfold apply_bias. cbn [split_bias]. rewrite N. reflexivity. Qed.
(** C65: correcting the forecasts of the training period removes the mean error: at each point the corrected forecasts add up to the truths. *)
Definition as_forecast (name : string) (h : tslice) : biascube := {| b_name := name; b_frts := [t_frt h]; b_frt_bounds := None; b_periods := [t_period h]; b_fields := [t_data h] |}.
Lemma present_numbers l : (forall p, In p l -> exists x y, p = (Num x, Num y)) -> present l (map num l).
Proof.
  induction l as [|p l IH]; intro A; [reflexivity|]. destruct (A p (or_introl eq_refl)) as (x & y & ->). cbn [present map num]. exists (map num l). split; [reflexivity|]. apply IH. intros; apply A; now right.
Qed.
Theorem C65_unbiased k name nm hfs truths b a t n i : same_style hfs truths -> calculate_bias k name hfs truths = Ok b -> filter_non_matching hfs truths = Ok (a, t) ->
  of_size n a -> of_size n t -> (i < n)%nat -> contains "forecast_error" nm = false -> (forall s, In s (a ++ t) -> exists q, nth i (t_data s) Masked = Num q) ->
  exists cs ts, Forall2 (fun h c => exists r, apply_bias None None false [as_forecast nm h; b] = Ok (r, [b]) /\ nth i (nth 0 (b_fields r) []) Masked = Num c) a cs /\
    Forall2 (fun s q => nth i (t_data s) Masked = Num q) t ts /\ qsum cs == qsum ts.
Proof.
  intros St H F Sa Sb Hi Nn Num0. destruct (C65_value _ _ _ _ _ _ _ _ _ St H F Sa Sb Hi) as (field & Ff & Lf & M). destruct (C65_labels _ _ _ _ _ _ _ St H F) as (Nb & Pb & fr & Fb & Ifr & _ & _).
  destruct (C64_pairs _ _ _ _ St F) as (F2 & _ & _ & _ & Ne). assert (Ha : forall s s', In s a -> In s' a -> hour (t_frt s) = hour (t_frt s') /\ t_period s = t_period s').
  { destruct (proj1 (C65_accepted k name hfs truths St) (ex_intro _ b H)) as [_ (a' & t' & F' & C)]. rewrite F in F'. injection F' as <- <-. exact C. }
  assert (All : forall p, In p (pairs_at a t i) -> exists x y, p = (Num x, Num y)).
  { intros p Ip. apply in_map_iff in Ip as ([h s] & <- & Ip). cbn [fst snd]. destruct (Num0 h) as (x & ->); [apply in_app_iff; left; eapply in_combine_l; exact Ip|]. destruct (Num0 s) as (y & ->); [apply in_app_iff; right; eapply in_combine_r; exact Ip|]. eauto. }
  assert (Lab : length a = length t) by (clear - F2; induction F2; cbn; auto).
  destruct (nth i field Masked) as [q| |] eqn:Eq.
  2:{ exfalso. destruct M as (p & Ip & _ & _ & D). destruct (All p Ip) as (x & y & ->). destruct D; discriminate. }
  2:{ exfalso. destruct a as [|h a], t as [|s t]; try discriminate; [congruence|]. destruct (All _ (or_introl eq_refl)) as (x & y & E). destruct (M _ (or_introl eq_refl)) as [C|C]; cbn in *; congruence. }
  destruct M as (es & P & _ & Sq). rewrite (present_unique _ _ _ P (present_numbers _ All)) in Sq. clear P es.
  exists (map (fun p => fst (num p) - q) (pairs_at a t i)), (map (fun p => snd (num p)) (pairs_at a t i)).
  assert (App : forall h, In h a -> forall x, nth i (t_data h) Masked = Num x -> exists r, apply_bias None None false [as_forecast nm h; b] = Ok (r, [b]) /\ nth i (nth 0 (b_fields r) []) Masked = Num (x - q)).
  { intros h Ih x Hx. unfold apply_bias. cbn [split_bias as_forecast b_name]. rewrite Nn. cbn [split_bias]. rewrite Nb. assert (Ce : contains "forecast_error" ("forecast_error_of_" ++ name) = true) by reflexivity. rewrite Ce. cbn [split_bias app bind].
    assert (Cc : check_bias_consistent (as_forecast nm h) [b] = Ok tt).
    { apply bias_consistent_iff; [discriminate|intros b' [<-|[]]; rewrite Fb, (Pb h Ih); split; discriminate|]. apply in_map_iff in Ifr as (s0 & Es0 & Is0).
      split; intros b1 b2 u v [<-|[<-|[]]] [<-|[<-|[]]] Iu Iv; cbn in Iu, Iv; rewrite ?Fb, ?(Pb h Ih) in *; destruct Iu as [<-|[]], Iv as [<-|[]]; try reflexivity; rewrite <- ?Es0; apply Ha; assumption. }
    fold (as_forecast nm h). rewrite Cc. cbn [bind mean_bias existsb as_forecast b_fields]. assert (Lh : length (t_data h) = length (field_of b)) by (unfold field_of; rewrite Ff, Lf; now apply Sa). rewrite Lh, Nat.eqb_refl. cbn [negb orb]. eexists. split; [reflexivity|]. cbn [b_fields map nth].
    rewrite nth_map_lt with (d := Masked) by (rewrite zipd_length, Lh, Nat.min_id; unfold field_of; rewrite Ff, Lf; exact Hi). rewrite zipd_nth by (rewrite ?Lh; unfold field_of; rewrite Ff, Lf; exact Hi). rewrite Hx. unfold field_of. rewrite Ff, Eq. reflexivity. }
  split; [|split].
  - unfold pairs_at in *. rewrite map_map. clear Sq. clear F2 Ha Ne Ifr Num0 Sb Sa Pb. revert t Lab All F. induction a as [|h a IH]; intros [|s t] Lab All F; try discriminate; cbn [combine map] in *; constructor.
    + destruct (All _ (or_introl eq_refl)) as (x & y & E). cbn [fst snd] in E |- *. rewrite E. cbn [num fst]. apply App; [now left|congruence].
    + clear F. assert (G : forall (t : list tslice), length a = length t -> (forall p, In p (map (fun p => (nth i (t_data (fst p)) Masked, nth i (t_data (snd p)) Masked)) (combine a t)) -> exists x y, p = (Num x, Num y)) -> Forall2 (fun h c => exists r, apply_bias None None false [as_forecast nm h; b] = Ok (r, [b]) /\ nth i (nth 0 (b_fields r) []) Masked = Num c) a (map (fun x => fst (num (nth i (t_data (fst x)) Masked, nth i (t_data (snd x)) Masked)) - q) (combine a t))).
      { clear - App. intros t. revert t. assert (App' : forall h0, In h0 a -> forall x, nth i (t_data h0) Masked = Num x -> exists r, apply_bias None None false [as_forecast nm h0; b] = Ok (r, [b]) /\ nth i (nth 0 (b_fields r) []) Masked = Num (x - q)) by (intros; apply App; [now right|assumption]). clear App. induction a as [|h' a IH]; intros [|s t] L All; try discriminate; cbn [combine map] in *; constructor.
        - destruct (All _ (or_introl eq_refl)) as (x & y & E). cbn [fst snd] in E |- *. rewrite E. cbn [num fst]. apply App'; [now left|congruence].
        - apply IH; [intros; apply App'; [now right|assumption]|cbn in L; lia|intros; apply All; now right]. }
      apply G; [cbn in Lab; lia|intros; apply All; now right].
  - unfold pairs_at in *. rewrite map_map. clear - Lab All. revert t Lab All. induction a as [|h a IH]; intros [|s t] Lab All; try discriminate; cbn [combine map] in *; constructor.
    + destruct (All _ (or_introl eq_refl)) as (x & y & E). cbn [fst snd] in *. injection E as E1 E2. rewrite E1, E2. reflexivity.
    + apply IH; [cbn in Lab; lia|intros; apply All; now right].
  - rewrite Qlen_map in Sq. clear - Sq. assert (A : qsum (map (fun e => fst e - snd e) (map num (pairs_at a t i))) == qsum (map (fun p => fst (num p)) (pairs_at a t i)) - qsum (map (fun p => snd (num p)) (pairs_at a t i))) by (clear; induction (pairs_at a t i) as [|p l IH]; cbn [map qsum]; [ring|rewrite IH; ring]).
    assert (B : qsum (map (fun p => fst (num p) - q) (pairs_at a t i)) == qsum (map (fun p => fst (num p)) (pairs_at a t i)) - q * Qlen (pairs_at a t i)) by (clear; induction (pairs_at a t i) as [|p l IH]; cbn [map qsum]; [unfold Qlen; cbn; ring|rewrite IH, Qlen_cons; ring]).
    rewrite B, Sq, A. ring.
Qed.
(** C65: the mean of the biases of single times is the bias of all of them: correcting with the one or with the others gives the same forecast. *)
Lemma masked_none l es : present l es -> (forall p, In p l -> fst p = Masked \/ snd p = Masked) -> es = [].
Proof.
  revert es. induction l as [|p l IH]; intros es P A; [exact P|]. assert (A' : forall q, In q l -> fst q = Masked \/ snd q = Masked) by (intros; apply A; now right). specialize (A p (or_introl eq_refl)). destruct p as [[x| |] [y| |]]; cbn in *; try (now apply IH); try (destruct P; fail); destruct A; discriminate.
Qed.
Lemma present_nan l es p : present l es -> In p l -> fst p <> Masked -> snd p <> Masked -> fst p = NotANumber \/ snd p = NotANumber -> False.
Proof.
  revert es. induction l as [|q l IH]; intros es P I0 A B C; [destruct I0|]. destruct I0 as [->|I0]; [destruct p as [[x| |] [y| |]]; cbn in *; try congruence; try tauto; destruct C; discriminate|].
  destruct q as [[x| |] [y| |]]; cbn in P; try (destruct P; fail); try (now apply (IH es)). destruct P as (es' & _ & P). now apply (IH es').
Qed.
Lemma mean_error_unique l v v' : mean_error l v -> mean_error l v' -> deq v v'.
Proof.
  intros M M'. destruct v as [q| |], v' as [q'| |]; cbn [deq]; try exact I.
  - destruct M as (es & P & Ne & S0), M' as (es' & P' & _ & S0'). rewrite (present_unique _ _ _ P' P) in S0'. pose proof (Qlen_pos es Ne). apply Qmult_inj_r with (Qlen es); [lra|]. now rewrite S0, S0'.
  - destruct M as (es & P & Ne & _), M' as (p & I0 & A & B & C). exact (present_nan _ _ _ P I0 A B C).
  - destruct M as (es & P & Ne & _). apply Ne. exact (masked_none _ _ P M').
  - destruct M' as (es & P & Ne & _), M as (p & I0 & A & B & C). exact (present_nan _ _ _ P I0 A B C).
  - destruct M as (p & I0 & A & B & _). destruct (M' p I0); congruence.
  - destruct M' as (es & P & Ne & _). apply Ne. exact (masked_none _ _ P M).
  - destruct M' as (p & I0 & A & B & _). destruct (M p I0); congruence.
Qed.
Lemma deq_trans a b c : deq a b -> deq b c -> deq a c.
Proof. destruct a, b, c; cbn; try tauto. intros; etransitivity; eauto. Qed.
Lemma deq_sym a b : deq a b -> deq b a.
Proof. destruct a, b; cbn; auto. intro H; symmetry; exact H. Qed.
Lemma deq_clip lo hi a b : deq a b -> deq (dclip lo hi a) (dclip lo hi b).
Proof. destruct a as [x| |], b as [y| |]; cbn; try tauto. intro E. destruct lo as [l|], hi as [h|]; rewrite ?E; try reflexivity; exact E. Qed.
Lemma deq_sub a b c : deq b c -> deq (dsub a b) (dsub a c).
Proof. destruct a, b, c; cbn; try tauto. intro E; now rewrite E. Qed.
Lemma deq_filled a b : deq a b -> deq (filled a) (filled b).
Proof. destruct a, b; cbn; try tauto. reflexivity. Qed.
(** Replacing each pair by its difference does not change the mean. *)
Lemma mean_error_diff l v v' : mean_error l v -> mean_error (map (fun p => (dsub (fst p) (snd p), Num 0)) l) v' -> deq v v'.
Proof.
  intros M M'. assert (X : mean_error (map (fun p => (dsub (fst p) (snd p), Num 0)) l) v); [|exact (mean_error_unique _ _ _ X M')]. clear M'. destruct v as [q| |]; cbn [mean_error] in *.
  - destruct M as (es & P & Ne & S0). exists (map (fun e => (fst e - snd e, 0)) es). split; [|split].
    + clear S0 Ne. revert es P. induction l as [|[[x| |] [y| |]] l IH]; intros es P; cbn [map present dsub fst snd] in *; try (destruct P; fail); try (now apply IH); [now subst|]. destruct P as (es' & -> & P). exists (map (fun e => (fst e - snd e, 0)) es'). split; [reflexivity|now apply IH].
    + intro C. apply map_eq_nil in C. contradiction.
    + rewrite Qlen_map, S0, map_map. cbn [fst snd]. clear. induction es as [|e es IH]; cbn [map qsum]; [reflexivity|rewrite IH; ring].
  - destruct M as (p & I0 & A & B & C). exists (dsub (fst p) (snd p), Num 0). split; [exact (in_map (fun p => (dsub (fst p) (snd p), Num 0)) _ _ I0)|]. cbn [fst snd]. destruct p as [[x| |] [y| |]]; cbn in *; try congruence; (split; [discriminate|]; split; [discriminate|]; auto). destruct C; discriminate.
  - intros p I0. apply in_map_iff in I0 as (q & <- & I0). left. cbn [fst]. destruct (M q I0) as [E|E]; destruct q as [[x| |] [y| |]]; cbn in *; congruence.
Qed.
Lemma filter_single h t a b : filter_non_matching [h] [t] = Ok (a, b) -> a = [h] /\ b = [t].
Proof.
  unfold filter_non_matching. cbn [match_loop extract_truth]. destruct (time_matches (t_cell h) (t_cell t)) as [[|]|e]; cbn [bind existsb]; try discriminate.
  destruct (all_nan (t_data h)); cbn [negb andb bind]; [discriminate|]. intro H. injection H as <- <-. auto.
Qed.
Theorem C65_mean_of_singles k name hfs truths b a t n bs f lo hi fill r r' after after' i j : same_style hfs truths -> calculate_bias k name hfs truths = Ok b -> filter_non_matching hfs truths = Ok (a, t) ->
  of_size n a -> of_size n t -> Forall2 (fun p b1 => calculate_bias k name [fst p] [snd p] = Ok b1) (combine a t) bs -> contains "forecast_error" (b_name f) = false ->
  apply_bias lo hi fill [f; b] = Ok (r, after) -> apply_bias lo hi fill (f :: bs) = Ok (r', after') ->
  (j < length (b_fields f))%nat -> (i < length (nth j (b_fields f) []))%nat -> (i < n)%nat -> deq (nth i (nth j (b_fields r) []) Masked) (nth i (nth j (b_fields r') []) Masked).
Proof.
  intros St H F Sa Sb Fb Nf Ar Ar' Hj Hi Hn. destruct (C65_value _ _ _ _ _ _ _ _ _ St H F Sa Sb Hn) as (field & Ff & Lf & M). destruct (C65_labels _ _ _ _ _ _ _ St H F) as (Nb & _ & _).
  destruct (C64_pairs _ _ _ _ St F) as (F2 & _ & _ & _ & Ne).
  assert (Bs : Forall2 (fun p b1 => is_error b1 = true /\ nth i (field_of b1) Masked = dsub (nth i (t_data (fst p)) Masked) (nth i (t_data (snd p)) Masked)) (combine a t) bs).
  { assert (Sz : forall p, In p (combine a t) -> length (t_data (fst p)) = n /\ length (t_data (snd p)) = n) by (intros [x y] Ip; split; [apply Sa; eapply in_combine_l; exact Ip|apply Sb; eapply in_combine_r; exact Ip]).
    clear - Fb Sz Hn. induction Fb as [|p b1 ps bs1 Hp Fb IH]; constructor; [|apply IH; intros; apply Sz; now right]. apply calculate_inv in Hp as (x & y & _ & Fp & _ & Np & Fp' & _). apply filter_single in Fp as [-> ->]. split; [unfold is_error; rewrite Np; reflexivity|].
    unfold field_of. rewrite Fp'. cbn [map additive_error combine]. unfold additive_error. cbn [combine map fst snd]. pose proof (Sz p (or_introl eq_refl)). apply zipd_nth; lia. }
  assert (Ib : bias_inputs (f :: bs) = bs).
  { unfold bias_inputs. cbn [filter]. unfold is_error at 1. rewrite Nf. clear - Bs. induction Bs as [|p b1 ps bs1 [E _] B IH]; [reflexivity|]. cbn [filter]. now rewrite E, IH. }
  assert (If : forecast_inputs (f :: bs) = [f]).
  { unfold forecast_inputs. cbn [filter]. unfold is_error at 1. rewrite Nf. cbn [negb]. f_equal. clear - Bs. induction Bs as [|p b1 ps bs1 [E _] B IH]; [reflexivity|]. cbn [filter]. rewrite E. exact IH. }
  assert (Eb : is_error b = true) by (unfold is_error; rewrite Nb; reflexivity).
  assert (Ib1 : bias_inputs [f; b] = [b]) by (unfold bias_inputs; cbn [filter]; rewrite Eb; unfold is_error; now rewrite Nf).
  assert (If1 : forecast_inputs [f; b] = [f]) by (unfold forecast_inputs; cbn [filter]; rewrite Eb; unfold is_error; now rewrite Nf).
  assert (Nbs : bs <> []). { intro C. subst. inversion Bs as [E|]; subst. destruct a as [|h a]; [congruence|]. destruct t as [|s t]; [inversion F2|discriminate]. }
  destruct (C65_apply _ _ _ _ _ _ Ar) as (g & G & _ & _ & _ & _ & _ & A). rewrite If1 in G. injection G as <-. rewrite Ib1 in A. destruct (A ltac:(discriminate) j i Hj Hi) as (m & Hm & D).
  destruct (C65_apply _ _ _ _ _ _ Ar') as (g & G & _ & _ & _ & _ & _ & A'). rewrite If in G. injection G as <-. rewrite Ib in A'. destruct (A' Nbs j i Hj Hi) as (m' & Hm' & D').
  assert (Em : deq m m').
  { assert (M1 : deq m (nth i field Masked)). { assert (Fo : field_of b = field) by (unfold field_of; rewrite Ff; reflexivity). unfold biases_at in Hm. cbn [map] in Hm. rewrite Fo in Hm. pose proof (mean_error_one (nth i field Masked) (Num 0)) as O. pose proof (mean_error_unique _ _ _ Hm O) as U. destruct (nth i field Masked), m; cbn in *; try tauto. rewrite U. ring. }
    apply (deq_trans _ _ _ M1). apply (mean_error_diff _ _ _ M). unfold pairs_at. rewrite map_map. cbn [fst snd]. unfold biases_at in Hm'.
    replace (map (fun x => (dsub (nth i (t_data (fst x)) Masked) (nth i (t_data (snd x)) Masked), Num 0)) (combine a t)) with (map (fun b0 => (nth i (field_of b0) Masked, Num 0)) bs); [exact Hm'|].
    clear - Bs. induction Bs as [|p b1 ps bs1 [_ E] B IH]; [reflexivity|]. cbn [map]. now rewrite E, IH. }
  apply (deq_trans _ _ _ D). apply deq_sym. apply (deq_trans _ _ _ D'). apply deq_sym. apply deq_clip, deq_sub. destruct fill; [now apply deq_filled|exact Em].
Qed.
(** C65: the caller's bias cubes stay as they are, unless masked values of a single bias cube are filled: then it is changed in place. *)
Theorem C65_caller lo hi fill cubes r after : apply_bias lo hi fill cubes = Ok (r, after) -> fill = false \/ length (bias_inputs cubes) <> 1%nat -> after = bias_inputs cubes.
Proof.
  unfold apply_bias. intros H C. destruct (split_bias None [] cubes) as [[f bs]|e] eqn:S0; [|discriminate]. apply split_bias_iff in S0 as (g & G & E). injection E as -> ->. cbn [app bind] in *. fold (bias_inputs cubes) in *.
  destruct (bias_inputs cubes) as [|b bs] eqn:B; [congruence|]. destruct (check_bias_consistent g (b :: bs)); [|discriminate]. cbn [bind] in H. destruct (mean_bias (b :: bs)); [|discriminate]. cbn [bind] in H. destruct (existsb _ _); [discriminate|]. injection H as _ <-.
  destruct bs; [|reflexivity]. destruct fill; [|reflexivity]. destruct C as [C|C]; [discriminate|cbn in C; lia].
Qed.
Definition bias_cube (d : list dval) : biascube := {| b_name := "forecast_error_of_x"; b_frts := [0%Z]; b_frt_bounds := None; b_periods := [3600%Z]; b_fields := [d] |}.
Definition fcst_cube (d : list dval) : biascube := {| b_name := "x"; b_frts := [86400%Z]; b_frt_bounds := None; b_periods := [3600%Z]; b_fields := [d] |}.
Theorem C65_caller_refuted : ~ (forall lo hi fill cubes r after, apply_bias lo hi fill cubes = Ok (r, after) -> after = bias_inputs cubes).
Proof. intro H. specialize (H None None true [fcst_cube [Num 1]; bias_cube [Masked]] _ _ eq_refl). vm_compute in H. discriminate. Qed.
Definition day (k : Z) (v w : Q) : tslice * tslice :=
  ({| t_cell := {| tc_point := 86400 * k; tc_bounds := None |}; t_frt := 86400 * k - 3600; t_period := 3600; t_data := [Num v; Masked] |},
   {| t_cell := {| tc_point := 86400 * k; tc_bounds := None |}; t_frt := 86400 * k; t_period := 0; t_data := [Num w; Num 1] |}).
Example C65_case : let l := [day 3 5 2; day 1 4 3; day 2 1 2] in
  exists b, calculate_bias (Realization 1) "x" (map fst l) (map snd l) = Ok b /\ b_frts b = [255600%Z] /\ b_frt_bounds b = Some (82800, 255600)%Z /\ b_fields b = [[Num (3 # 3); Masked]] /\
  exists r, apply_bias (Some 0) None true [{| b_name := "x"; b_frts := [82800%Z]; b_frt_bounds := None; b_periods := [3600%Z]; b_fields := [[Num 7; Num 8]; [Num (1 # 2); NotANumber]] |}; b] = Ok r /\
    deq (nth 0 (nth 0 (b_fields (fst r)) []) Masked) (Num 6) /\ deq (nth 1 (nth 0 (b_fields (fst r)) []) Masked) (Num 8) /\ deq (nth 0 (nth 1 (b_fields (fst r)) []) Masked) (Num 0).
Proof. eexists. split; [vm_compute; reflexivity|]. repeat (split; [reflexivity|]). eexists. split; [vm_compute; reflexivity|]. vm_compute. auto. Qed.

(** * C66 *)
Lemma count_filter {A} (P : A -> Prop) f (l : list A) : (forall x, f x = true <-> P x) -> count P l (length (filter f l)).
Proof.
  intro E. induction l as [|x l IH]; cbn [filter count]; [reflexivity|]. destruct (f x) eqn:F.
  - left. split; [now apply E|]. exists (length (filter f l)). auto.
  - right. split; [rewrite <- E; congruence|exact IH].
Qed.
Lemma count_unique {A} (P : A -> Prop) (l : list A) : forall n n', count P l n -> count P l n' -> n = n'.
Proof. induction l as [|x l IH]; intros n n' C C'; cbn [count] in *; [congruence|]. destruct C as [(p & m & -> & C)|(p & C)], C' as [(p' & m' & -> & C')|(p' & C')]; try tauto; [f_equal|]; eauto. Qed.
Definition both_nan (p : dval * dval) : Prop := p = (NotANumber, NotANumber).
Lemma both_nan_iff p : (is_nan (fst p) && is_nan (snd p))%bool = true <-> both_nan p.
Proof. unfold both_nan. destruct p as [[x| |] [y| |]]; cbn; split; congruence. Qed.
Lemma share_iff (a b : list dval) p : length a = length b -> a <> [] -> ((p <? Qn (nan_pairs a b) / Qlen a) = true <-> share_exceeds both_nan (combine a b) p).
Proof.
  intros L Ne. pose proof (Qlen_pos a Ne) as Pos. pose proof (count_filter both_nan _ (combine a b) both_nan_iff) as C. fold (nan_pairs a b) in C.
  assert (Le : Qlen (combine a b) == Qlen a) by (unfold Qlen; rewrite combine_length, <- L, Nat.min_id; reflexivity).
  unfold share_exceeds. rewrite Qltb_lt. split.
  - intro H. exists (nan_pairs a b). split; [exact C|]. rewrite Le. apply Qmult_lt_r with (z := / Qlen a); [now apply Qinv_lt_0_compat|]. unfold Qdiv in H. setoid_replace (p * Qlen a * / Qlen a) with p by (field; lra). exact H.
  - intros (n & C' & H). rewrite (count_unique _ _ _ _ C' C) in H. rewrite Le in H. apply Qmult_lt_r with (z := Qlen a); [exact Pos|]. setoid_replace (Qn (nan_pairs a b) / Qlen a * Qlen a) with (Qn (nan_pairs a b)) by (field; lra). exact H.
Qed.
(** C66: with one set of coefficients for all sites, the data are refused exactly if the share of pairs with NaN in both exceeds the limit. *)
Theorem C66_pooled p n hf tr : length (concat hf) = length (concat tr) -> concat hf <> [] ->
  (check_data_sufficiency false p n hf tr = Err ValueError <-> share_exceeds both_nan (combine (concat hf) (concat tr)) p) /\
  (check_data_sufficiency false p n hf tr = Ok tt <-> ~ share_exceeds both_nan (combine (concat hf) (concat tr)) p).
Proof. intros L Ne. rewrite <- (share_iff _ _ p L Ne). unfold check_data_sufficiency. destruct (p <? _); split; split; try congruence; intros; exfalso; auto. Qed.
(** C66: point by point, they are refused exactly if the share exceeds the limit at some site. *)
Theorem C66_sites p n hf tr : length hf = length tr -> hf <> [] ->
  let at_site j := combine (map (fun r => nth j r Masked) hf) (map (fun r => nth j r Masked) tr) in
  (check_data_sufficiency true p n hf tr = Err ValueError <-> exists j, (j < n)%nat /\ share_exceeds both_nan (at_site j) p) /\
  (check_data_sufficiency true p n hf tr = Ok tt <-> forall j, (j < n)%nat -> ~ share_exceeds both_nan (at_site j) p).
Proof.
  intros L Ne at_site.
  assert (E : existsb (fun j => p <? Qn (nan_pairs (column hf j) (column tr j)) / Qlen hf) (seq 0 n) = true <-> exists j, (j < n)%nat /\ share_exceeds both_nan (at_site j) p).
  { rewrite existsb_exists. split; intros (j & A & B); exists j.
    - apply in_seq in A. split; [lia|]. apply share_iff; [unfold column; now rewrite !map_length| |].
      + unfold column. intro C. apply map_eq_nil in C. contradiction.
      + unfold column, Qlen in *. rewrite map_length. exact B.
    - split; [apply in_seq; lia|]. apply share_iff in B; [|now rewrite !map_length|intro C; apply map_eq_nil in C; contradiction]. unfold Qlen in *. rewrite map_length in B. exact B. }
  unfold check_data_sufficiency. destruct (existsb _ _) eqn:X; split; split; try congruence.
  - intros _. now apply E.
  - intro H. exfalso. destruct (proj1 E eq_refl) as (j & A & B). exact (H j A B).
  - intro H. apply E in H. discriminate.
  - intros _ j A B. assert (false = true) by (apply E; eauto). discriminate.
Qed.
(** C66: so the pairs that cannot be used are not all counted; forecasts that are all NaN pass, whatever the limit. *)
Theorem C66_sufficiency_refuted : ~ (forall p n hf tr, 0 <= p -> p < 1 -> length (concat hf) = length (concat tr) -> concat hf <> [] ->
  check_data_sufficiency false p n hf tr = Ok tt -> ~ share_exceeds (fun x : dval * dval => fst x = NotANumber \/ snd x = NotANumber) (combine (concat hf) (concat tr)) p).
Proof.
  intro H. apply (H (1 # 2) 2%nat [[NotANumber; NotANumber]] [[Num 1; Num 2]]); [lra|lra|reflexivity|discriminate|reflexivity|]. exists 2%nat. split; [|unfold Qlt; cbn; lia]. cbn. left. split; [auto|]. exists 1%nat. split; [reflexivity|]. left. split; [auto|]. exists 0%nat. auto.
Qed.
(** C66: whatever the data, a limit of one (or more) accepts, and a higher limit accepts all that a lower one does. *)
Theorem C66_monotone k p p' n hf tr : p <= p' -> check_data_sufficiency k p n hf tr = Ok tt -> check_data_sufficiency k p' n hf tr = Ok tt.
Proof.
  unfold check_data_sufficiency. intros L. destruct k.
  - destruct (existsb _ _) eqn:X; [discriminate|]. intros _. destruct (existsb (fun j => p' <? _) _) eqn:Y; [|reflexivity]. apply existsb_exists in Y as (j & A & B). exfalso. assert (existsb (fun j => p <? Qn (nan_pairs (column hf j) (column tr j)) / Qlen hf) (seq 0 n) = true); [|congruence]. apply existsb_exists. exists j. split; [exact A|]. rewrite Qltb_lt in *. lra.
  - destruct (p <? _) eqn:X; [discriminate|]. intros _. destruct (p' <? _) eqn:Y; [|reflexivity]. rewrite Qltb_ge in X. rewrite Qltb_lt in Y. lra.
Qed.
(** C66: the merged field is the calibrated one where it is not masked and the uncalibrated one elsewhere; nothing of it is masked. *)
Theorem C66_merge c u under : (c <> Masked -> merge_point c u under = c) /\ (c = Masked -> u <> Masked -> merge_point c u under = u) /\ merge_point c u under <> Masked.
Proof. destruct c, u; cbn; repeat split; congruence. Qed.
(** C66: the result depends only on the values of the two fields: refuted, the number under the mask of the uncalibrated forecast is shown. *)
Theorem C66_merge_refuted : ~ (forall c u q q', merge_point c u q = merge_point c u q').
Proof. intro H. specialize (H Masked Masked 0 1). discriminate. Qed.
Lemma hour_spec t h : hour t = h <-> at_hour t h.
Proof.
  unfold hour, at_hour. split.
  - intros <-. split; [apply Z.mod_pos_bound; lia|]. exists (t / 3600 / 24)%Z. pose proof (Z.div_mod (t / 3600) 24 ltac:(lia)). pose proof (Z.div_mod t 3600 ltac:(lia)). pose proof (Z.mod_pos_bound t 3600 ltac:(lia)). lia.
  - intros (B & d & L). assert (E : (t / 3600 = d * 24 + h)%Z). { symmetry. apply (Z.div_unique t 3600 _ (t - 3600 * (d * 24 + h))); lia. } rewrite E. symmetry. apply (Z.mod_unique _ _ d); lia.
Qed.
Lemma minute_spec t m : ((t / 60) mod 60 = m)%Z <-> at_minute t m.
Proof.
  unfold at_minute. split.
  - intros <-. split; [apply Z.mod_pos_bound; lia|]. exists (t / 60 / 60)%Z. pose proof (Z.div_mod (t / 60) 60 ltac:(lia)). pose proof (Z.div_mod t 60 ltac:(lia)). pose proof (Z.mod_pos_bound t 60 ltac:(lia)). lia.
  - intros (B & d & L). assert (E : (t / 60 = d * 60 + m)%Z). { symmetry. apply (Z.div_unique t 60 _ (t - 60 * (d * 60 + m))); lia. } rewrite E. symmetry. apply (Z.mod_unique _ _ d); lia.
Qed.
Lemma ceil_hours_spec p h : ceil_hours p = h <-> rounded_up p h.
Proof.
  unfold ceil_hours, rounded_up. split.
  - intros <-. pose proof (Z.div_mod (- p) 3600 ltac:(lia)). pose proof (Z.mod_pos_bound (- p) 3600 ltac:(lia)). lia.
  - intros L. assert (E : (- p / 3600 = - h)%Z). { symmetry. apply (Z.div_unique (- p) 3600 _ (- p + 3600 * h)); lia. } lia.
Qed.
(** C66: two cubes match exactly if their periods round up to the same hour and their reference times fall in the same hours of the day. *)
Theorem C66_match p1 p2 f1 f2 : forecast_coords_match p1 p2 f1 f2 = Ok tt <->
  (exists h, rounded_up p1 h /\ rounded_up p2 h) /\ forall h, (exists t, In t f1 /\ at_hour t h) <-> exists t, In t f2 /\ at_hour t h.
Proof.
  unfold forecast_coords_match.
  assert (S1 : same_set (map hour f1) (map hour f2) = true <-> forall h, (exists t, In t f1 /\ at_hour t h) <-> exists t, In t f2 /\ at_hour t h).
  { assert (Ih : forall l h, In h (map hour l) <-> exists t, In t l /\ at_hour t h).
    { intros l h. rewrite in_map_iff. split; intros (t & A & B); exists t; [split; [exact B|now apply hour_spec]|split; [now apply hour_spec|exact A]]. }
    unfold same_set. rewrite andb_true_iff, !forallb_forall. split.
    - intros [A B] h. rewrite <- !Ih. split; intro X; [apply A in X|apply B in X]; now apply zmem_iff in X.
    - intro H. split; intros h X; apply zmem_iff; apply Ih, H, Ih, X. }
  assert (C1 : (ceil_hours p1 =? ceil_hours p2)%Z = true <-> exists h, rounded_up p1 h /\ rounded_up p2 h).
  { rewrite Z.eqb_eq. split; [intro E; exists (ceil_hours p1); split; apply ceil_hours_spec; congruence|intros (h & A & B); apply ceil_hours_spec in A, B; congruence]. }
  rewrite <- S1, <- C1. destruct (ceil_hours p1 =? ceil_hours p2)%Z, (same_set _ _); cbn; split; try tauto; try discriminate; intros [? ?]; discriminate.
Qed.
Theorem C66_match_error p1 p2 f1 f2 : forecast_coords_match p1 p2 f1 f2 = Ok tt \/ forecast_coords_match p1 p2 f1 f2 = Err ValueError.
Proof. unfold forecast_coords_match. destruct (_ || _)%bool; auto. Qed.
(** C66: a forecast is calibrated only at one of the hours and minutes given. *)
Theorem C66_validity t times : validity_time_check t times = true <-> exists h m, In (h, m) times /\ at_hour t h /\ at_minute t m.
Proof.
  unfold validity_time_check. rewrite existsb_exists. split.
  - intros ([h m] & I0 & E). apply andb_true_iff in E as [A B]. apply Z.eqb_eq in A, B. cbn [fst snd] in *. exists h, m. split; [exact I0|]. split; [now apply hour_spec|now apply minute_spec].
  - intros (h & m & I0 & A & B). exists (h, m). split; [exact I0|]. apply hour_spec in A. apply minute_spec in B. cbn [fst snd]. now rewrite A, B, !Z.eqb_refl.
Qed.
(** C66: the unified reference time is the latest one, and its bounds are the hull of all points and bounds. *)
Theorem C66_unified points bounds p lo hi : unified_frt points bounds = Some (p, (lo, hi)) ->
  let all := points ++ map fst bounds ++ map snd bounds in
  In p points /\ (forall x, In x points -> (x <= p)%Z) /\ In lo all /\ In hi all /\ forall x, In x all -> (lo <= x <= hi)%Z.
Proof.
  intros H all. destruct points as [|a r]; [discriminate|]. unfold unified_frt in H. cbv zeta in H.
  assert (Ea : forall x, In x all <-> In x (a :: r) \/ In x (flat_map (fun b => [fst b; snd b]) bounds)).
  { intro x. unfold all. rewrite !in_app_iff, in_flat_map, !in_map_iff. split.
    - intros [A|[(b & <- & B)|(b & <- & B)]]; [now left| |]; right; exists b; cbn; auto.
    - intros [A|(b & B & C)]; [now left|]. right. cbn in C. destruct C as [<-|[<-|[]]]; [left|right]; eauto. }
  set (ends := flat_map _ _) in *. destruct (zmaxl_spec r a) as [M1 M2]. destruct (zminl_spec r a) as [N1 N2]. destruct (zmaxl_spec ends (zmaxl a r)) as [U1 U2]. destruct (zminl_spec ends (zminl a r)) as [L1 L2].
  injection H as <- <- <-. split; [exact M1|]. split; [exact M2|]. split; [|split].
  - apply Ea. destruct L1 as [L1|L1]; [left; now rewrite <- L1|now right].
  - apply Ea. destruct U1 as [U1|U1]; [left; now rewrite <- U1|now right].
  - intros x X. apply Ea in X as [X|X]; split.
    + specialize (N2 x X). specialize (L2 _ (or_introl eq_refl)). lia.
    + specialize (M2 x X). specialize (U2 _ (or_introl eq_refl)). lia.
    + apply L2. now right.
    + apply U2. now right.
Qed.
(** The groups after all the inputs. *)
Definition one_each (l : list icube) : Prop := NoDup (map i_name l) /\ forall a b, In a l -> In b l -> probability_input a = true -> probability_input b = true -> a = b.
Definition last_mask (m : option string) (start : option icube) (cubes : list icube) : option icube := fold_left (fun s c => if mask_input m c then Some c else s) cubes start.
Lemma split_step_ok m g c : split_step m g c =
  if (timed_input m c && (probability_input c && existsb probability_input (gr_others g) || existsb (fun o => (i_name o =? i_name c)%string) (gr_others g)))%bool then Err ValueError else
  Ok {| gr_coeffs := gr_coeffs g ++ (if coefficient_input c then [c] else []); gr_mask := if mask_input m c then Some c else gr_mask g;
        gr_static := gr_static g ++ (if static_input m c then [c] else []); gr_others := gr_others g ++ (if timed_input m c then [c] else []) |}.
Proof.
  unfold split_step, timed_input, static_input, mask_input, coefficient_input, probability_input. destruct (contains "emos_coefficient" (i_name c)); cbn [negb andb]; rewrite ?app_nil_r; [reflexivity|].
  destruct (match m with Some _ => _ | None => _ end); cbn [negb andb]; rewrite ?app_nil_r; [reflexivity|]. destruct (i_time c); cbn [negb andb]; rewrite ?app_nil_r; [|reflexivity].
  destruct (contains "probability" (i_name c)); cbn [andb orb]; [destruct (existsb (fun o => contains "probability" (i_name o)) (gr_others g)); cbn [orb]; [reflexivity|]|]; destruct (existsb _ _); reflexivity.
Qed.
Lemma split_all_spec m cubes : forall g, one_each (gr_others g) ->
  (one_each (gr_others g ++ filter (timed_input m) cubes) /\ split_all m g cubes = Ok {| gr_coeffs := gr_coeffs g ++ filter coefficient_input cubes; gr_mask := last_mask m (gr_mask g) cubes;
        gr_static := gr_static g ++ filter (static_input m) cubes; gr_others := gr_others g ++ filter (timed_input m) cubes |}) \/
  (~ one_each (gr_others g ++ filter (timed_input m) cubes) /\ split_all m g cubes = Err ValueError).
Proof.
  induction cubes as [|c r IH]; intros g Og.
  - left. cbn [filter split_all last_mask fold_left]. rewrite !app_nil_r. split; [exact Og|]. now destruct g.
  - cbn [split_all]. rewrite split_step_ok. destruct (timed_input m c && _)%bool eqn:T.
    + right. apply andb_true_iff in T as [T X]. cbn [filter bind]. rewrite T. split; [|reflexivity]. intros [N P]. rewrite map_app in N. cbn [map] in N. apply NoDup_remove_2 in N. apply orb_true_iff in X as [X|X].
      * apply andb_true_iff in X as [X Y]. apply existsb_exists in Y as (o & A & B). apply N. apply in_or_app. left. rewrite (P c o); [now apply in_map| | |exact X|exact B]; apply in_or_app; [right; now left|now left].
      * apply existsb_exists in X as (o & A & B). apply String.eqb_eq in B. apply N. apply in_or_app. left. rewrite <- B. now apply in_map.
    + cbn [bind]. match goal with |- context [split_all m ?G r] => set (g' := G) end.
      assert (Eo : gr_others g ++ filter (timed_input m) (c :: r) = gr_others g' ++ filter (timed_input m) r) by (unfold g'; cbn [gr_others filter]; destruct (timed_input m c); rewrite <- app_assoc; reflexivity).
      assert (Og' : one_each (gr_others g')).
      { unfold g'. cbn [gr_others]. destruct (timed_input m c) eqn:Tc; [|now rewrite app_nil_r]. cbn [andb] in T. apply orb_false_iff in T as [T1 T2]. destruct Og as [N P]. split.
        - rewrite map_app. cbn [map]. eapply Permutation_NoDup; [apply Permutation_cons_append|]. constructor; [|exact N]. intro C. apply in_map_iff in C as (o & A & B). assert (existsb (fun o => (i_name o =? i_name c)%string) (gr_others g) = true); [|congruence]. apply existsb_exists. exists o. split; [exact B|]. now apply String.eqb_eq.
        - assert (Q0 : probability_input c = true -> forall o, In o (gr_others g) -> probability_input o = true -> False).
          { intros Pc o A B. rewrite Pc in T1. cbn [andb] in T1. assert (existsb probability_input (gr_others g) = true); [|congruence]. apply existsb_exists. eauto. }
          intros a b A B Pa Pb. apply in_app_iff in A as [A|[<-|[]]], B as [B|[<-|[]]]; auto; exfalso; eauto. }
      rewrite Eo. destruct (IH g' Og') as [[A B]|[A B]]; [left|right]; (split; [exact A|]); rewrite B; [|reflexivity]. f_equal. unfold g'. cbn [gr_coeffs gr_mask gr_static gr_others filter last_mask fold_left]. f_equal; [destruct (coefficient_input c)|destruct (static_input m c)]; rewrite <- app_assoc; reflexivity.
Qed.
Definition start_groups : groups := {| gr_coeffs := []; gr_mask := None; gr_static := []; gr_others := [] |}.
Lemma one_each_nil : one_each [].
Proof. split; [constructor|intros ? ? []]. Qed.
(** C66: every kind of input (each input is of exactly one kind) is returned, in the order given; the last land-sea mask counts; the forecast is the input with a time, and the probability template the one with "probability" in its name. *)
Theorem C66_kinds m c : (if coefficient_input c then 1 else 0) + (if mask_input m c then 1 else 0) + (if static_input m c then 1 else 0) + (if timed_input m c then 1 else 0) == 1.
Proof. unfold timed_input, static_input. unfold mask_input. destruct (coefficient_input c), (match m with Some _ => _ | None => _ end), (i_time c); cbn; lra. Qed.
Theorem C66_split m cubes r : split_coeffs m cubes = Ok r ->
  r_coeffs r = filter coefficient_input cubes /\ r_static r = filter (static_input m) cubes /\
  (match r_mask r with Some c => exists before after, cubes = before ++ c :: after /\ mask_input m c = true /\ forall d, In d after -> mask_input m d = false | None => forall d, In d cubes -> mask_input m d = false end) /\
  In (r_forecast r) (filter (timed_input m) cubes) /\
  match r_template r with
  | Some t => probability_input t = true /\ probability_input (r_forecast r) = false /\ (filter (timed_input m) cubes = [r_forecast r; t] \/ filter (timed_input m) cubes = [t; r_forecast r])
  | None => forall t, In t (filter (timed_input m) cubes) -> probability_input t = true -> t = r_forecast r
  end.
Proof.
  unfold split_coeffs. fold start_groups. destruct (split_all_spec m cubes start_groups one_each_nil) as [[O E]|[_ E]]; rewrite E; [|discriminate]. cbn [bind gr_others gr_coeffs gr_mask gr_static start_groups app] in *.
  assert (Mk : match last_mask m None cubes with Some c => exists before after, cubes = before ++ c :: after /\ mask_input m c = true /\ forall d, In d after -> mask_input m d = false | None => forall d, In d cubes -> mask_input m d = false end).
  { clear. induction cubes as [|c l IH] using rev_ind; [intros d []|]. unfold last_mask in *. rewrite fold_left_app. cbn [fold_left]. destruct (mask_input m c) eqn:M.
    - exists l, []. split; [reflexivity|]. split; [exact M|intros d []].
    - destruct (fold_left _ l None) as [s|].
      + destruct IH as (b & a & -> & A & B). exists b, (a ++ [c]). split; [now rewrite <- app_assoc|]. split; [exact A|]. intros d I0. apply in_app_iff in I0 as [I0|[<-|[]]]; auto.
      + intros d I0. apply in_app_iff in I0 as [I0|[<-|[]]]; auto. }
  destruct (filter (timed_input m) cubes) as [|c [|d [|e l]]]; try discriminate.
  - intro H. apply Ok_inj in H. subst r. cbn [r_coeffs r_static r_mask r_forecast r_template]. do 3 (split; [auto|]). split; [now left|]. intros t [<-|[]]; reflexivity.
  - cbn [fold_left fst snd]. change (contains "probability" (i_name c)) with (probability_input c). change (contains "probability" (i_name d)) with (probability_input d). destruct O as [N P]. specialize (P c d (or_introl eq_refl) (or_intror (or_introl eq_refl))).
    destruct (probability_input c) eqn:Pc, (probability_input d) eqn:Pd; cbn [fst snd]; intro H; try discriminate; apply Ok_inj in H; subst r; cbn [r_coeffs r_static r_mask r_forecast r_template]; do 3 (split; [auto|]).
    + split; [right; now left|]. rewrite Pc, Pd. auto.
    + split; [now left|]. rewrite Pc, Pd. auto.
    + split; [right; now left|]. intros t [<-|[<-|[]]]; congruence.
Qed.
(** C66: it fails with ValueError exactly if no input has a time, or two of these have the same name or are both probabilities. *)
Theorem C66_split_refused m cubes : split_coeffs m cubes = Err ValueError <-> filter (timed_input m) cubes = [] \/ ~ one_each (filter (timed_input m) cubes).
Proof.
  unfold split_coeffs. fold start_groups. destruct (split_all_spec m cubes start_groups one_each_nil) as [[O E]|[O E]]; rewrite E; cbn [bind gr_others start_groups app] in *; [|tauto].
  destruct (filter (timed_input m) cubes) as [|c [|d [|e l]]]; [tauto| | |]; (split; [|intros [C|C]; [discriminate|contradiction]]); try discriminate. cbn [fold_left]. intro H. exfalso. destruct (contains _ (i_name c)), (contains _ (i_name d)); discriminate.
Qed.
(** C66: each input with a time is returned: refuted, of two that are not probabilities the first is dropped. *)
Theorem C66_split_refuted : ~ (forall m cubes r, split_coeffs m cubes = Ok r -> forall c, In c (filter (timed_input m) cubes) -> c = r_forecast r \/ Some c = r_template r).
Proof.
  intro H. specialize (H None [{| i_name := "wind_speed"; i_time := true; i_id := 0 |}; {| i_name := "air_temperature"; i_time := true; i_id := 1 |}] _ eq_refl {| i_name := "wind_speed"; i_time := true; i_id := 0 |} (or_introl eq_refl)). cbn in H. destruct H; discriminate.
Qed.
(** C66: three or more inputs with a time are never accepted, and not reported as such. *)
Theorem C66_split_three m cubes : (3 <= length (filter (timed_input m) cubes))%nat -> one_each (filter (timed_input m) cubes) -> split_coeffs m cubes = Err RuntimeError.
Proof.
  unfold split_coeffs. fold start_groups. intros L O0. destruct (split_all_spec m cubes start_groups one_each_nil) as [[O E]|[O E]]; rewrite E; cbn [bind gr_others start_groups app] in *; [|contradiction].
  destruct (filter (timed_input m) cubes) as [|c [|d [|e l]]]; cbn in L; try lia. reflexivity.
Qed.
Example C66_case :
  check_data_sufficiency true (1 # 2) 2 [[NotANumber; Num 1]; [NotANumber; Num 2]] [[NotANumber; Num 1]; [Num 1; Num 1]] = Ok tt /\
  check_data_sufficiency true (1 # 4) 2 [[NotANumber; Num 1]; [NotANumber; Num 2]] [[NotANumber; Num 1]; [Num 1; Num 1]] = Err ValueError /\
  check_data_sufficiency false (1 # 4) 2 [[NotANumber; Num 1]; [NotANumber; Num 2]] [[NotANumber; Num 1]; [Num 1; Num 1]] = Ok tt /\
  forecast_coords_match 3500 3600 [10800; 90000]%Z [3600; 12000; 97200]%Z = Ok tt /\ forecast_coords_match 3601 3600 [10800]%Z [10800]%Z = Err ValueError /\
  validity_time_check 87300 [(3, 0); (0, 15)]%Z = true /\ unified_frt [5; 3; 9]%Z [(1, 4); (3, 12)]%Z = Some (9, (1, 12))%Z /\
  let c n t k := {| i_name := n; i_time := t; i_id := k |} in
  split_coeffs (Some "land_binary_mask"%string) [c "emos_coefficient_alpha" true 0; c "probability_of_rain" true 1; c "land_binary_mask" true 2; c "rain" true 3; c "distance" false 4; c "emos_coefficient_beta" false 5]%nat%string =
    Ok {| r_forecast := c "rain" true 3; r_coeffs := [c "emos_coefficient_alpha" true 0; c "emos_coefficient_beta" false 5]; r_static := [c "distance" false 4]; r_mask := Some (c "land_binary_mask" true 2); r_template := Some (c "probability_of_rain" true 1) |}%nat%string.
Proof. vm_compute. repeat split. Qed.

Print Assumptions C64_pairs.
Print Assumptions C64_kept.
Print Assumptions C64_truths_kept.
Print Assumptions C64_refused.
Print Assumptions C64_order.
Print Assumptions C64_idempotent.
Print Assumptions C64_mixed_bounds_refuted.
Print Assumptions C64_bounds_on_forecast_only.
Print Assumptions C64_containment.
Print Assumptions C65_accepted.
Print Assumptions C65_value.
Print Assumptions C65_labels.
Print Assumptions C65_apply.
Print Assumptions C65_correction_accepted.
Print Assumptions C65_range.
Print Assumptions C65_masked_bias.
Print Assumptions C65_spin_up.
Print Assumptions C65_unbiased.
Print Assumptions C65_mean_of_singles.
Print Assumptions C65_caller.
Print Assumptions C65_caller_refuted.
Print Assumptions C66_pooled.
Print Assumptions C66_sites.
Print Assumptions C66_sufficiency_refuted.
Print Assumptions C66_monotone.
Print Assumptions C66_merge.
Print Assumptions C66_merge_refuted.
Print Assumptions C66_match.
Print Assumptions C66_match_error.
Print Assumptions C66_validity.
Print Assumptions C66_unified.
Print Assumptions C66_kinds.
Print Assumptions C66_split.
Print Assumptions C66_split_refused.
Print Assumptions C66_split_refuted.
Print Assumptions C66_split_three.
