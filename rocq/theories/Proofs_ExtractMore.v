From Verif Require Import Base Model_Extract Spec_Extract Proofs_Extract.
Local Open Scope Q_scope.

Lemma Ok_inj_x {A} (x y : A) : Ok x = Ok y -> x = y.
Proof. congruence. Qed.
Lemma in_force_cons x cs c : in_force (x :: cs) c <-> in_force cs c \/ c = x /\ match snd c with Values _ => forall v, ~ In (fst c, Values v) cs | Range _ _ _ => True end.
Proof.
  split.
  - intros (l & r & E & F). destruct l as [|y l]; cbn in E; injection E as E1 E2; subst; [right; auto|]. left. exists l, r. auto.
  - intros [(l & r & -> & F)|[-> F]]; [exists (x :: l), r|exists [], cs]; auto.
Qed.
Lemma effective_in cs c : In c (effective cs) <-> in_force cs c.
Proof.
  induction cs as [|[k t] cs IH]; cbn [effective snd fst].
  - split; [intros []|]. intros (l & r & E & _). destruct l; discriminate.
  - rewrite in_force_cons, <- IH. destruct t as [v|a b s]; [|cbn [In]; split; [intros [<-|H]; cbn; auto|intros [H|[-> _]]; auto]].
    destruct (existsb (is_value_for k) cs) eqn:X.
    + split; [auto|]. intros [H|[-> H]]; [exact H|]. exfalso. cbn in H. apply existsb_exists in X. destruct X as ([k' t'] & X1 & X2). unfold is_value_for in X2. cbn in X2. destruct t' as [v'|]; [|discriminate].
      apply String.eqb_eq in X2. subst k'. exact (H v' X1).
    + cbn [In]. split; [|intros [H|[-> _]]; auto]. intros [<-|H]; [|auto]. right. split; [reflexivity|]. cbn. intros v' J. assert (existsb (is_value_for k) cs = true); [|congruence].
      apply existsb_exists. exists (k, Values v'). split; [exact J|]. unfold is_value_for. cbn. apply String.eqb_refl.
Qed.
Lemma chosen_spec cs us c idx : chosen cs us c idx <-> cell c idx /\ satisfies (effective cs) us c idx.
Proof. unfold chosen, satisfies. split; intros [C H]; (split; [exact C|]); intros k t J; apply H; apply effective_in; exact J. Qed.

(** Positions are in increasing order. *)
Lemma filter_sorted (p : nat -> bool) l : StronglySorted lt l -> StronglySorted lt (filter p l).
Proof. induction 1 as [|a l A IH F]; cbn; [constructor|]. destruct (p a); [|exact IH]. constructor; [exact IH|]. rewrite Forall_forall in *. intros x X. apply filter_In in X. apply F. apply X. Qed.
Lemma seq_sorted n : forall a, StronglySorted lt (seq a n).
Proof. induction n as [|n IH]; intro a; cbn; constructor; [apply IH|]. apply Forall_forall. intros x X. apply in_seq in X. lia. Qed.
Lemma nth_mono l : StronglySorted lt l -> forall i j, (i <= j)%nat -> (j < length l)%nat -> (nth i l 0 <= nth j l 0)%nat.
Proof.
  induction 1 as [|a l A IH F]; intros i j L J; cbn in J; [lia|]. destruct i, j; cbn [nth]; try lia; [|apply IH; lia].
  rewrite Forall_forall in F. apply Nat.lt_le_incl, F, nth_In. lia.
Qed.
Lemma rebuild_mono cs us back ds : let ps := map (positions cs us) ds in let od := map (fun dp => pick_dim back us (fst dp) (snd dp)) (filter (fun dp => negb (demoted cs (fst dp) (snd dp))) (combine ds ps)) in
  forall idx jdx, Forall2 (fun i d => (i < length (d_points d))%nat) idx od -> Forall2 (fun i d => (i < length (d_points d))%nat) jdx od -> Forall2 le idx jdx -> Forall2 le (rebuild cs ds ps idx) (rebuild cs ds ps jdx).
Proof.
  induction ds as [|d ds IH]; intros ps od idx jdx A B L; [constructor|]. unfold od, ps in *. cbn [map combine filter fst snd rebuild] in *. destruct (demoted cs d (positions cs us d)) eqn:D; cbn [negb map] in A, B.
  - constructor; [lia|]. apply IH; assumption.
  - inversion A as [|i ? ix ? Hi HA]; inversion B as [|j ? jx ? Hj HB]; subst. inversion L; subst. cbn [pick_dim d_points fst snd] in Hi, Hj. rewrite map_length in Hi, Hj.
    constructor; [|apply IH; assumption]. apply nth_mono; [apply filter_sorted, seq_sorted|assumption..].
Qed.

Lemma kept_none cs us c : kept cs us c = None <-> forall idx, cell c idx -> ~ satisfies cs us c idx.
Proof.
  split.
  - intros K idx C S'. apply (satisfies_spec cs us c idx C) in S'. destruct S' as (A & B & P). assert (kept cs us c = Some (map (positions cs us) (c_dims c))) as K'; [|congruence].
    apply kept_some. repeat split; try assumption. apply forallb_forall. intros p Ip. apply in_map_iff in Ip. destruct Ip as (d & <- & Id).
    clear - P Id. induction P as [|i d' idx ds H P IH]; [destruct Id|]. destruct Id as [->|Id]; [|exact (IH Id)]. destruct (positions cs us d); [destruct H|reflexivity].
  - intro H. destruct (kept cs us c) as [ps|] eqn:K; [|reflexivity]. exfalso. apply kept_some in K. destruct K as (A & B & -> & N).
    assert (P : exists idx, Forall2 (fun i d => In i (positions cs us d)) idx (c_dims c)).
    { clear - N. revert N. generalize (c_dims c). induction l as [|d l IH]; intro N; [exists []; constructor|]. cbn [map forallb] in N. apply Bool.andb_true_iff in N. destruct N as [N1 N2]. destruct (IH N2) as (idx & P).
      destruct (positions cs us d) as [|i p] eqn:E; [discriminate|]. exists (i :: idx). constructor; [rewrite E; left; reflexivity|exact P]. }
    destruct P as (idx & P). assert (C : cell c idx). { unfold cell. clear - P. induction P as [|i d ? ? H]; constructor; [|assumption]. apply positions_spec in H. apply H. }
    apply (H idx C). apply satisfies_spec; auto.
Qed.

Section Take.
  Variables (cs : list constraint) (us : list (string * conversion)) (back : bool) (c : cube) (ps : list (list nat)).
  Hypothesis K : kept cs us c = Some ps.
  Hypothesis G : good_units us.
  Let out := take cs back us c ps.
  Let origin := rebuild cs (c_dims c) ps.
  Lemma take_facts : forallb (fun k => has_coord (fst k) c) cs = true /\ forallb (fun s => meets cs (fst s) (in_units us (fst s) (snd s))) (c_scalars c) = true /\
    ps = map (positions cs us) (c_dims c) /\ forallb (fun p : list nat => match p with [] => false | _ => true end) ps = true.
  Proof. apply kept_some. exact K. Qed.
  Lemma take_in idx : cell out idx -> cell c (origin idx) /\ satisfies cs us c (origin idx).
  Proof.
    destruct take_facts as (A & B & E & N). intro C. assert (P : Forall2 (fun i d => In i (positions cs us d)) (origin idx) (c_dims c)).
    { unfold origin. rewrite E. apply (rebuild_in cs us back); [rewrite <- E; exact N|]. unfold cell, out, take in C. cbn [c_dims] in C. rewrite E in C. exact C. }
    assert (C' : cell c (origin idx)). { unfold cell. clear - P. induction P as [|i d ? ? H]; constructor; [|assumption]. apply positions_spec in H. apply H. }
    split; [exact C'|]. apply satisfies_spec; auto.
  Qed.
  Lemma take_onto idx' : cell c idx' -> satisfies cs us c idx' -> exists idx, cell out idx /\ origin idx = idx'.
  Proof.
    destruct take_facts as (A & B & E & N). intros C S'. apply (satisfies_spec cs us c idx' C) in S'. destruct S' as (_ & _ & P).
    destruct (rebuild_onto cs us back _ _ P) as (idx & X & Y). exists idx. unfold cell, out, take, origin. cbn [c_dims]. rewrite E. split; assumption.
  Qed.
  Lemma take_inj idx jdx : cell out idx -> cell out jdx -> origin idx = origin jdx -> idx = jdx.
  Proof. destruct take_facts as (A & B & E & N). unfold cell, out, take, origin. cbn [c_dims]. rewrite E. apply rebuild_inj. Qed.
  Lemma take_mono idx jdx : cell out idx -> cell out jdx -> Forall2 le idx jdx -> Forall2 le (origin idx) (origin jdx).
  Proof. destruct take_facts as (A & B & E & N). unfold cell, out, take, origin. cbn [c_dims]. rewrite E. apply rebuild_mono. Qed.
  Lemma take_labels idx : cell out idx -> same_labels back us (labels out idx) (labels c (origin idx)).
  Proof.
    destruct take_facts as (A & B & E & N). intro C. exists (map (fun p => (fst p, final_point back us (fst p) (snd p))) (labels c (origin idx))). split.
    - unfold labels at 2. rewrite map_app, map_map. cbn [fst snd].
      pose proof (rebuild_labels cs us back (c_dims c)) as R. rewrite E in N. specialize (R N idx).
      unfold out, take, labels, cell in C |- *. cbn [c_dims c_scalars] in C |- *. rewrite E in C |- *. specialize (R C). unfold origin. rewrite E.
      eapply Permutation_trans; [apply Permutation_app_head; apply Permutation_app_comm|]. rewrite app_assoc. apply Permutation_app_tail. exact R.
    - generalize (labels c (origin idx)). induction l as [|[k x] l IH]; constructor; [|exact IH]. cbn [fst snd]. split; [reflexivity|]. apply final_point_spec. exact G.
  Qed.
End Take.

(** ** Thinning *)
Lemma thin_positions_eq s : (0 < s)%nat -> forall n, filter (fun i => (i mod s =? 0)%nat) (seq 0 n) = map (fun i => (i * s)%nat) (seq 0 ((n + (s - 1)) / s)).
Proof.
  intro Hs. induction n as [|n IH].
  - cbn [seq filter]. rewrite Nat.add_0_l, Nat.div_small by lia. reflexivity.
  - rewrite seq_S, filter_app, IH. cbn [Nat.add filter]. replace (S (n + (s - 1)))%nat with (n + 1 * s)%nat by lia. rewrite Nat.div_add by lia.
    pose proof (Nat.div_mod n s ltac:(lia)) as DM. pose proof (Nat.mod_upper_bound n s ltac:(lia)) as UB. destruct (Nat.eqb_spec (n mod s) 0) as [Z|Z].
    + assert (E : ((n + (s - 1)) / s = n / s)%nat). { symmetry. apply Nat.div_unique with (r := (s - 1)%nat); lia. } rewrite E, Nat.add_1_r, seq_S, map_app. cbn [map Nat.add]. do 2 f_equal. lia.
    + assert (E : ((n + (s - 1)) / s = n / s + 1)%nat). { symmetry. apply Nat.div_unique with (r := (n mod s - 1)%nat); lia. } rewrite E, app_nil_r. reflexivity.
Qed.
Lemma ceil_lt s n i : (0 < s)%nat -> ((i < (n + (s - 1)) / s)%nat <-> (i * s < n)%nat).
Proof.
  intro Hs. pose proof (Nat.div_mod (n + (s - 1)) s ltac:(lia)) as DM. pose proof (Nat.mod_upper_bound (n + (s - 1)) s ltac:(lia)) as UB. split; intro H; nia.
Qed.
Definition pos_of (cs : list constraint) (d : dim) : list nat := match step_of (d_name d) cs with Some s => thin_positions (length (d_points d)) s | None => seq 0 (length (d_points d)) end.
Lemma thin_length n s : (0 < s)%Z -> forall i, (i < length (thin_positions n s))%nat <-> (i * Z.to_nat s < n)%nat.
Proof. intros Hs i. unfold thin_positions. rewrite thin_positions_eq by lia. rewrite map_length, seq_length. apply ceil_lt. lia. Qed.
Lemma thin_nth n s i : (0 < s)%Z -> (i < length (thin_positions n s))%nat -> nth i (thin_positions n s) 0%nat = (i * Z.to_nat s)%nat.
Proof.
  intro Hs. unfold thin_positions. rewrite thin_positions_eq by lia. rewrite map_length, seq_length. intro H. rewrite (nth_indep _ _ ((0 * Z.to_nat s)%nat)) by (rewrite map_length, seq_length; exact H).
  rewrite (map_nth (fun i => (i * Z.to_nat s)%nat)). rewrite seq_nth by exact H. reflexivity.
Qed.
Lemma pos_every s (l : list Q) : (0 < s)%Z -> every s l (map (fun i => nth i l 0) (thin_positions (length l) s)).
Proof.
  intro Hs. split; [|intro i; rewrite map_length; apply thin_length; exact Hs]. intro i. destruct (Nat.lt_ge_cases i (length (thin_positions (length l) s))) as [H|H].
  - rewrite (nth_indep _ _ (nth 0%nat l 0)) by (rewrite map_length; exact H). rewrite (map_nth (fun i => nth i l 0)). rewrite thin_nth by assumption. reflexivity.
  - rewrite nth_overflow by (rewrite map_length; exact H). symmetry. apply nth_overflow. destruct (Nat.le_gt_cases (length l) (i * Z.to_nat s)) as [X|X]; [exact X|]. apply (thin_length _ s Hs) in X. lia.
Qed.
Lemma step_of_spec k cs : match step_of k cs with Some s => last_step k cs s /\ exists a b, In (k, Range a b (Some s)) cs | None => last_step k cs 1 end.
Proof.
  unfold step_of. induction cs as [|[k' t] cs IH] using rev_ind; [right; split; [reflexivity|intros a b s []]|].
  rewrite fold_left_app. cbn [fold_left snd fst]. set (acc := fold_left _ cs None) in *.
  assert (SK : forall (P : forall a b s, k' = k -> t = Range a b (Some s) -> False), match acc with Some s => last_step k (cs ++ [(k', t)]) s /\ exists a b, In (k, Range a b (Some s)) (cs ++ [(k', t)]) | None => last_step k (cs ++ [(k', t)]) 1 end).
  { intro P. assert (LS : forall s, last_step k cs s -> last_step k (cs ++ [(k', t)]) s).
    { intros s [(l & a & b & r & -> & F)|[-> F]]; [left; exists l, a, b, (r ++ [(k', t)]); split; [rewrite <- app_assoc; reflexivity|]|right; split; [reflexivity|]]; intros a' b' s' J; apply in_app_or in J;
        (destruct J as [J|[J|[]]]; [exact (F _ _ _ J)|injection J as J1 J2; exact (P _ _ _ J1 J2)]). }
    destruct acc as [s|]; [destruct IH as [I1 (a & b & I2)]; split; [apply LS; exact I1|exists a, b; apply in_or_app; auto]|apply LS; exact IH]. }
  destruct t as [v|a b [s|]]; [apply SK; intros; discriminate| |apply SK; intros; discriminate]. destruct (String.eqb_spec k' k) as [->|D].
  - split; [left; exists cs, a, b, []; split; [reflexivity|intros a' b' s' []]|]. exists a, b. apply in_or_app. right. left. reflexivity.
  - apply SK. intros; contradiction.
Qed.
Lemma thin_spec cs c t : thin_cube cs c = Ok t ->
  Forall2 (fun d d' => d_name d' = d_name d /\ exists s, (0 < s)%Z /\ last_step (d_name d) cs s /\ every s (d_points d) (d_points d')) (c_dims c) (c_dims t) /\ c_scalars t = c_scalars c /\
  forall idx, cell t idx -> exists idx', cell c idx' /\ c_vals t idx = c_vals c idx' /\
    Forall2 (fun d ii => exists s, last_step (d_name d) cs s /\ snd ii = (fst ii * Z.to_nat s)%nat) (c_dims c) (combine idx idx').
Proof.
  unfold thin_cube. destruct (forallb _ cs) eqn:F; [cbn [negb]|discriminate]. intro H. apply Ok_inj_x in H. subst t. cbn [c_dims c_scalars c_vals]. rewrite forallb_forall in F.
  assert (POS : forall k s, (exists a b, In (k, Range a b (Some s)) cs) -> (0 < s)%Z). { intros k s (a & b & J). specialize (F _ J). cbn in F. apply Bool.andb_true_iff in F. destruct F as [_ F]. lia. }
  assert (ST : forall d, exists s, (0 < s)%Z /\ last_step (d_name d) cs s /\ pos_of cs d = thin_positions (length (d_points d)) s).
  { intro d. unfold pos_of. pose proof (step_of_spec (d_name d) cs) as T. destruct (step_of (d_name d) cs) as [s|].
    - destruct T as [T1 T2]. exists s. split; [exact (POS _ _ T2)|]. split; [exact T1|reflexivity].
    - exists 1%Z. split; [lia|]. split; [exact T|]. unfold thin_positions. rewrite thin_positions_eq by (change (Z.to_nat 1) with 1%nat; lia). change (Z.to_nat 1) with 1%nat. rewrite Nat.add_0_r, Nat.div_1_r.
      transitivity (map (fun i : nat => i) (seq 0 (length (d_points d)))); [symmetry; apply map_id|apply map_ext; intro; lia]. }
  change (map (fun d => match step_of (d_name d) cs with Some s => thin_positions (length (d_points d)) s | None => seq 0 (length (d_points d)) end) (c_dims c)) with (map (pos_of cs) (c_dims c)).
  split; [|split; [reflexivity|]].
  - generalize (c_dims c). induction l as [|d l IH]; [constructor|]. cbn [map combine]. constructor; [|exact IH]. cbn [fst snd d_name d_points]. split; [reflexivity|].
    destruct (ST d) as (s & S1 & S2 & S3). exists s. split; [exact S1|]. split; [exact S2|]. rewrite S3. apply pos_every. exact S1.
  - intros idx C. exists (map (fun pi => nth (snd pi) (fst pi) 0%nat) (combine (map (pos_of cs) (c_dims c)) idx)). unfold cell in *. cbn [c_dims] in C.
    revert idx C. generalize (c_dims c). clear F. induction l as [|d l IH]; intros idx C; cbn [map combine] in C; inversion C as [|i d' ix l' Hi HC]; subst; [repeat split; constructor|].
    cbn [map combine fst snd]. destruct (IH _ HC) as (I1 & _ & I3). destruct (ST d) as (s & S1 & S2 & S3). cbn [d_points fst snd] in Hi. rewrite map_length, S3 in Hi. rewrite S3.
    assert (N : nth i (thin_positions (length (d_points d)) s) 0%nat = (i * Z.to_nat s)%nat /\ (i * Z.to_nat s < length (d_points d))%nat) by (split; [apply thin_nth; assumption|apply (thin_length _ s S1); exact Hi]).
    destruct N as [N1 N2]. split; [constructor; [rewrite N1; exact N2|exact I1]|]. split; [reflexivity|]. constructor; [|exact I3]. exists s. split; [exact S2|exact N1].
Qed.

(** Steps do not change what is extracted before thinning. *)
Lemma effective_unstep cs : effective (map unstep cs) = map unstep (effective cs).
Proof.
  induction cs as [|[k t] cs IH]; [reflexivity|]. cbn [map effective unstep fst snd]. destruct t as [v|a b s]; [|cbn [map]; f_equal; exact IH].
  replace (existsb (is_value_for k) (map unstep cs)) with (existsb (is_value_for k) cs); [destruct (existsb (is_value_for k) cs); [exact IH|cbn [map]; f_equal; exact IH]|].
  clear. induction cs as [|[k' t] cs IH]; [reflexivity|]. cbn [map existsb]. rewrite IH. f_equal. unfold is_value_for, unstep. cbn [fst snd]. destruct t; reflexivity.
Qed.
Lemma forallb_unstep (f : constraint -> bool) cs : (forall c, f (unstep c) = f c) -> forallb f (map unstep cs) = forallb f cs.
Proof. intro H. induction cs; cbn; [reflexivity|]. rewrite H, IHcs. reflexivity. Qed.
Lemma meets_unstep cs k x : meets (map unstep cs) k x = meets cs k x.
Proof. unfold meets. apply forallb_unstep. intros [k' [v|a b s]]; reflexivity. Qed.
Lemma positions_unstep cs us d : positions (map unstep cs) us d = positions cs us d.
Proof. unfold positions. apply filter_ext. intro i. apply meets_unstep. Qed.
Lemma kept_unstep cs us c : kept (map unstep cs) us c = kept cs us c.
Proof.
  unfold kept. rewrite (forallb_unstep (fun k => has_coord (fst k) c)) by reflexivity.
  assert (E : map (positions (map unstep cs) us) (c_dims c) = map (positions cs us) (c_dims c)) by (apply map_ext; intro; apply positions_unstep). rewrite E.
  assert (E2 : forallb (fun s => meets (map unstep cs) (fst s) (in_units us (fst s) (snd s))) (c_scalars c) = forallb (fun s => meets cs (fst s) (in_units us (fst s) (snd s))) (c_scalars c)).
  { generalize (c_scalars c). induction l; cbn; [reflexivity|]. rewrite meets_unstep, IHl. reflexivity. } rewrite E2. reflexivity.
Qed.
Lemma demoted_unstep cs d p : demoted (map unstep cs) d p = demoted cs d p.
Proof. unfold demoted. f_equal. induction cs; cbn; [reflexivity|]. rewrite IHcs. reflexivity. Qed.
Lemma rebuild_unstep cs ds : forall ps idx, rebuild (map unstep cs) ds ps idx = rebuild cs ds ps idx.
Proof. induction ds as [|d ds IH]; intros [|p ps] idx; cbn; try reflexivity. rewrite demoted_unstep. destruct (demoted cs d p); [f_equal; apply IH|]. destruct idx; [reflexivity|]. f_equal. apply IH. Qed.
Lemma take_unstep cs back us c ps : c_dims (take (map unstep cs) back us c ps) = c_dims (take cs back us c ps) /\ c_scalars (take (map unstep cs) back us c ps) = c_scalars (take cs back us c ps) /\
  forall idx, c_vals (take (map unstep cs) back us c ps) idx = c_vals (take cs back us c ps) idx.
Proof.
  unfold take. cbn [c_dims c_scalars c_vals].
  assert (E : filter (fun dp => negb (demoted (map unstep cs) (fst dp) (snd dp))) (combine (c_dims c) ps) = filter (fun dp => negb (demoted cs (fst dp) (snd dp))) (combine (c_dims c) ps)) by (apply filter_ext; intro; rewrite demoted_unstep; reflexivity).
  assert (E2 : filter (fun dp => demoted (map unstep cs) (fst dp) (snd dp)) (combine (c_dims c) ps) = filter (fun dp => demoted cs (fst dp) (snd dp)) (combine (c_dims c) ps)) by (apply filter_ext; intro; rewrite demoted_unstep; reflexivity).
  rewrite E, E2. split; [reflexivity|]. split; [reflexivity|]. intro idx. rewrite rebuild_unstep. reflexivity.
Qed.
Lemma unstep_no_step cs : has_step (map unstep cs) = false.
Proof. apply has_step_false. intros k a b s J. apply in_map_iff in J. destruct J as ([k' [v|a' b' s']] & E & _); unfold unstep in E; cbn in E; inversion E. Qed.
Lemma units_ok (us : list (string * conversion)) c : forallb (fun u => has_coord (fst u) c) us = true <-> forall k u, In (k, u) us -> named k c.
Proof.
  assert (H : forall k, has_coord k c = true <-> named k c).
  { intro k. unfold has_coord, named. rewrite Bool.orb_true_iff, !existsb_exists, in_app_iff, !in_map_iff. split; (intros [(x & A & B)|(x & A & B)]; [left|right]; exists x); try (apply String.eqb_eq in B; auto); (split; [exact B|apply String.eqb_eq; exact A]). }
  rewrite forallb_forall. split.
  - intros F k u J. apply H. apply (F (k, u) J).
  - intros F [k u] J. apply H. exact (F k u J).
Qed.
Lemma convert_same us c : good_units us -> same_cube (convert_cube (fun u x => unconv u (conv u x)) us c) c.
Proof.
  intro G. assert (E : forall k x, match lookup k us with Some u => unconv u (conv u x) | None => x end == x). { intros k x. exact (final_point_spec true us k x G). }
  split; [|split; [|reflexivity]]; cbn [convert_cube c_dims c_scalars].
  - induction (c_dims c) as [|d l IH]; constructor; [|exact IH]. cbn [d_name d_points]. split; [reflexivity|]. induction (d_points d); constructor; [apply E|assumption].
  - induction (c_scalars c) as [|s l IH]; constructor; [|exact IH]. cbn [fst snd]. split; [reflexivity|]. apply E.
Qed.

(** ** The filling of all the columns *)
Definition hole (o : option Q) : bool := match o with Some _ => true | None => false end.
Lemma complete_not cols n i : complete cols = true -> (n < length cols)%nat -> (i < length (nth n cols []))%nat -> nth i (nth n cols []) None <> None.
Proof.
  unfold complete. rewrite forallb_forall. intros C Ln Li. specialize (C _ (nth_In _ [] Ln)). rewrite forallb_forall in C. specialize (C _ (nth_In _ None Li)). destruct (nth i (nth n cols []) None); [discriminate|discriminate].
Qed.
Lemma fill_cases inc cols n : (n < length cols)%nat ->
  nth n (fill_invalid inc cols) [] = nth n cols [] /\ (forall i, (i < length (nth n cols []))%nat -> nth i (nth n cols []) None <> None) \/
  nth n (fill_invalid inc cols) [] = fill_backward inc (nth n cols []) /\ (forall i, (i < length (nth n cols []))%nat -> nth i (fill_backward inc (nth n cols [])) None <> None) \/
  nth n (fill_invalid inc cols) [] = fill_forward inc (fill_backward inc (nth n cols [])).
Proof.
  intro L. unfold fill_invalid. destruct (complete cols) eqn:C; [left; split; [reflexivity|]; intros i Li; apply (complete_not cols n i); assumption|]. right.
  assert (E : nth n (map (fill_backward inc) cols) [] = fill_backward inc (nth n cols [])) by (rewrite nth_map_lt with (d := []) by exact L; reflexivity).
  destruct (complete (map (fill_backward inc) cols)) eqn:C2.
  - left. split; [exact E|]. intros i Li. rewrite <- E. apply complete_not; [exact C2|rewrite map_length; exact L|]. rewrite E, backward_length. exact Li.
  - right. rewrite nth_map_lt with (d := []) by (rewrite map_length; exact L). rewrite E. reflexivity.
Qed.
Lemma fill_known inc cols n i v : (n < length cols)%nat -> nth i (nth n cols []) None = Some v -> nth i (nth n (fill_invalid inc cols) []) None = Some v.
Proof. intros L H. destruct (fill_cases inc cols n L) as [[-> _]|[[-> _]| ->]]; [exact H|apply backward_known; exact H|apply forward_known, backward_known; exact H]. Qed.
Lemma fill_next inc cols n i j v : (n < length cols)%nat -> next_known (nth n cols []) i j v -> exists w, nth i (nth n (fill_invalid inc cols) []) None = Some w /\ w == v - Qn (j - i) * inc.
Proof.
  intros L H. assert (J : (j < length (nth n cols []))%nat). { destruct H as (_ & V & _). destruct (Nat.lt_ge_cases j (length (nth n cols []))); [assumption|]. rewrite nth_overflow in V by assumption. discriminate. }
  destruct (fill_cases inc cols n L) as [[_ D]|[[-> _]| ->]].
  - destruct H as (Hij & _ & K). exfalso. apply (D i); [lia|]. apply K. lia.
  - apply backward_next; assumption.
  - destruct (backward_next inc _ _ _ _ J H) as (w & W1 & W2). exists w. split; [apply forward_known; exact W1|exact W2].
Qed.
Lemma fill_last inc cols n i j v : (n < length cols)%nat -> (i < length (nth n cols []))%nat -> last_known (nth n cols []) i j v -> (forall k, (i <= k)%nat -> nth k (nth n cols []) None = None) ->
  exists w, nth i (nth n (fill_invalid inc cols) []) None = Some w /\ w == v + Qn (i - j) * inc.
Proof.
  intros L Li (J & V & K) H. destruct (fill_cases inc cols n L) as [[_ D]|[[_ D]| ->]].
  - exfalso. apply (D i Li). apply H. lia.
  - exfalso. apply (D i Li). apply backward_none; assumption.
  - apply forward_last; [rewrite backward_length; exact Li|]. split; [exact J|]. split; [apply backward_known; exact V|]. intros k Hk. apply backward_none; [lia|]. intros m Hm. destruct (Nat.le_gt_cases m i); [apply K; lia|apply H; lia].
Qed.
Lemma fill_none inc cols n i : (n < length cols)%nat -> (i < length (nth n cols []))%nat -> (forall k, nth k (nth n cols []) None = None) -> nth i (nth n (fill_invalid inc cols) []) None = None.
Proof.
  intros L Li H. destruct (fill_cases inc cols n L) as [[-> _]|[[_ D]| ->]]; [apply H| |].
  - exfalso. apply (D i Li). apply backward_none; [exact Li|]. intros; apply H.
  - apply forward_none; [rewrite backward_length; exact Li|]. intros k K. apply backward_none; [lia|]. intros; apply H.
Qed.
Lemma fill_shape inc cols : length (fill_invalid inc cols) = length cols /\ forall n, (n < length cols)%nat -> length (nth n (fill_invalid inc cols) []) = length (nth n cols []).
Proof.
  split.
  - unfold fill_invalid. destruct (complete cols); [reflexivity|]. destruct (complete _); rewrite !map_length; reflexivity.
  - intros n L. destruct (fill_cases inc cols n L) as [[-> _]|[[-> _]| ->]]; [reflexivity|apply backward_length|rewrite forward_length; apply backward_length].
Qed.
Lemma last_known_dec l i : nth i l None = None -> (exists j v, last_known l i j v) \/ forall k, (k <= i)%nat -> nth k l None = None.
Proof.
  induction i as [|i IH]; intro N.
  - right. intros k K. replace k with 0%nat by lia. exact N.
  - destruct (nth i l None) as [v|] eqn:V.
    + left. exists i, v. split; [lia|]. split; [exact V|]. intros k K. replace k with (S i) by lia. exact N.
    + destruct (IH eq_refl) as [(j & v & J & W & K)|H].
      * left. exists j, v. split; [lia|]. split; [exact W|]. intros k Hk. destruct (Nat.eq_dec k (S i)) as [->|]; [exact N|apply K; lia].
      * right. intros k K. destruct (Nat.eq_dec k (S i)) as [->|]; [exact N|apply H; lia].
Qed.
