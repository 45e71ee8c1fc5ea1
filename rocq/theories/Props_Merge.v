(** Property C76: comparing and merging cubes. *)
From Verif Require Import Base Proofs_Temporal Model_Temporal Model_Manip.
From Coq Require Import Permutation Sorted.
Local Open Scope Q_scope.

(** ** Attributes *)
Definition is_dict (a : attributes) : Prop := NoDup (map fst a).
Lemma get_iff a k v : is_dict a -> (get k a = Some v <-> In (k, v) a).
Proof.
  unfold is_dict. induction a as [|[k' v'] a IH]; intro N; [split; [discriminate|intros []]|]. cbn [map fst] in N. inversion N as [|? ? Nx N']; subst. cbn [get]. destruct (String.eqb_spec k k') as [->|Ne].
  - split; [intro H; left; congruence|]. intros [H|H]; [congruence|]. exfalso. apply Nx. apply in_map_iff. exists (k', v). auto.
  - rewrite (IH N'). split; [now right|]. intros [H|H]; [congruence|exact H].
Qed.
Lemma get_in a k v : get k a = Some v -> In k (map fst a).
Proof. induction a as [|[k' v'] a IH]; cbn [get map fst]; [discriminate|]. destruct (String.eqb_spec k k') as [->|Ne]; [now left|]. intro H. right. now apply IH. Qed.
Lemma get_some a k : In k (map fst a) -> exists v, get k a = Some v.
Proof. induction a as [|[k' v'] a IH]; cbn [get map fst]; [intros []|]. destruct (String.eqb_spec k k') as [->|Ne]; [eauto|]. intros [H|H]; [congruence|now apply IH]. Qed.
Lemma mem_iff k l : existsb (String.eqb k) l = true <-> In k l.
Proof. rewrite existsb_exists. split; [intros (x & I0 & E); apply String.eqb_eq in E; now subst|intro H; exists k; split; [exact H|apply String.eqb_refl]]. Qed.
Lemma agrees_iff k a b : agrees k a b = true <-> exists v, get k a = Some v /\ get k b = Some v.
Proof. unfold agrees. destruct (get k a) as [x|], (get k b) as [y|]; try (split; [discriminate|intros (v & ? & ?); discriminate]). rewrite String.eqb_eq. split; [intros ->; eauto|]. intros (v & A & B). congruence. Qed.
Lemma fold_keys ref r k : forall keys, In k (fold_left (fun keys a => filter (fun k => (existsb (String.eqb k) keys && agrees k a ref)%bool) (map fst a)) r keys) <-> In k keys /\ forall a, In a r -> agrees k a ref = true.
Proof.
  induction r as [|a r IH]; intro keys; cbn [fold_left]; [split; [intro H; split; [exact H|intros a []]|tauto]|]. rewrite IH, filter_In, andb_true_iff, mem_iff. split.
  - intros [[_ [A B]] C]. split; [exact A|]. intros b [<-|Hb]; auto.
  - intros [A C]. pose proof (C a (or_introl eq_refl)) as B. split; [|intros; apply C; now right]. split; [|split; [exact A|exact B]]. apply agrees_iff in B as (v & B & _). now apply get_in in B.
Qed.
Lemma common_iff cubes k : cubes <> [] -> (In k (common_keys cubes) <-> exists v, forall a, In a cubes -> get k a = Some v).
Proof.
  destruct cubes as [|ref r]; [congruence|]. intros _. cbn [common_keys]. rewrite fold_keys. split.
  - intros [A B]. apply get_some in A as (v & A). exists v. intros a [<-|Ha]; [exact A|]. apply B, agrees_iff in Ha as (w & H1 & H2). congruence.
  - intros (v & H). split; [apply (get_in ref k v), H; now left|]. intros a Ha. apply agrees_iff. exists v. split; apply H; [now right|now left].
Qed.
Lemma common_entry cubes a k v : (forall b, In b cubes -> is_dict b) -> In a cubes -> In (k, v) a -> (In k (common_keys cubes) <-> forall b, In b cubes -> In (k, v) b).
Proof.
  intros D Ia Iv. rewrite common_iff by (intro E; subst; destruct Ia). split.
  - intros (w & H). assert (w = v) by (apply (get_iff a k v (D a Ia)) in Iv; pose proof (H a Ia); congruence). subst w. intros b Hb. apply (get_iff b k v (D b Hb)). now apply H.
  - intro H. exists v. intros b Hb. apply (get_iff b k v (D b Hb)). now apply H.
Qed.
(** An attribute passes the filter. *)
Definition passes (contains : string -> string -> bool) (flt : option string) (k : string) : Prop := match flt with Some f => contains f k = true | None => True end.
Lemma filtered_in contains flt a k v : In (k, v) (filtered contains flt a) <-> In (k, v) a /\ passes contains flt k.
Proof. unfold filtered, passes. destruct flt as [f|]; [rewrite filter_In; cbn [fst]; tauto|tauto]. Qed.
Lemma filtered_dict contains flt a : is_dict a -> is_dict (filtered contains flt a).
Proof.
  unfold is_dict, filtered. destruct flt as [f|]; [|auto]. induction a as [|e a IH]; intro N; [constructor|]. cbn [map] in N. inversion N as [|? ? Nx N']; subst. cbn [filter]. destruct (contains f (fst e)); [|now apply IH]. cbn [map]. constructor; [|now apply IH]. intro H. apply Nx. apply in_map_iff in H as (x & E & Hx). apply filter_In in Hx as [Hx _]. rewrite <- E. now apply in_map.
Qed.
(** C76: of two or more cubes, for each cube exactly the attributes (that pass the filter) that are not shared, with the same value, by all cubes. *)
Theorem C76_differences contains flt cubes : (2 <= length cubes)%nat -> (forall a, In a cubes -> is_dict a) ->
  exists out, compare_attributes contains flt cubes = Ok out /\ length out = length cubes /\
  forall i k v, (i < length cubes)%nat -> (In (k, v) (nth i out []) <-> In (k, v) (nth i cubes []) /\ passes contains flt k /\ ~ (forall b, In b cubes -> In (k, v) b)).
Proof.
  intros L D. unfold compare_attributes. set (fc := map (filtered contains flt) cubes). assert (Lf : length fc = length cubes) by apply map_length. assert (Df : forall b, In b fc -> is_dict b) by (intros b Hb; apply in_map_iff in Hb as (a & <- & Ha); now apply filtered_dict, D).
  set (res := map (filter (fun e => negb (existsb (String.eqb (fst e)) (common_keys fc)))) fc). exists res. split; [destruct fc as [|? [|? ?]]; cbn [length] in Lf; [lia|lia|reflexivity]|]. split; [unfold res; now rewrite map_length|]. intros i k v Hi.
  assert (Ni : nth i res [] = filter (fun e => negb (existsb (String.eqb (fst e)) (common_keys fc))) (filtered contains flt (nth i cubes []))).
  { unfold res, fc. rewrite (nth_map_lt (filter (fun e => negb (existsb (String.eqb (fst e)) (common_keys (map (filtered contains flt) cubes))))) (map (filtered contains flt) cubes) i [] []) by (now rewrite map_length). f_equal. now apply nth_map_lt. }
  rewrite Ni, filter_In, filtered_in, negb_true_iff. cbn [fst]. set (a := nth i cubes []). assert (Ia : In a cubes) by (now apply nth_In).
  assert (Key : In (k, v) a -> passes contains flt k -> (existsb (String.eqb k) (common_keys fc) = false <-> ~ (forall b, In b cubes -> In (k, v) b))).
  { intros Iv P. rewrite <- not_true_iff_false, mem_iff. apply not_iff_compat. rewrite (common_entry fc (filtered contains flt a) k v Df); [|now apply in_map|now apply filtered_in].
    split; intros H b Hb; [apply (in_map (filtered contains flt)), H in Hb; now apply filtered_in in Hb|]. apply in_map_iff in Hb as (x & <- & Hx). apply filtered_in. auto. }
  split; [intros [[A B] C]|intros [A [B C]]]; repeat split; auto; now apply Key.
Qed.
Theorem C76_single contains flt a : compare_attributes contains flt [a] = Ok [].
Proof. reflexivity. Qed.
(** C76: after equalising exactly the attributes that all cubes share remain, with one value; and the same are on every cube. *)
Theorem C76_equalised cubes i k v : (forall a, In a cubes -> is_dict a) -> (i < length cubes)%nat -> (In (k, v) (nth i (equalise cubes) []) <-> forall b, In b cubes -> In (k, v) b).
Proof.
  intros D Hi. unfold equalise. rewrite (nth_map_lt (filter (fun e => existsb (String.eqb (fst e)) (common_keys cubes))) cubes i [] []) by exact Hi. rewrite filter_In, mem_iff. cbn [fst]. assert (Ia : In (nth i cubes []) cubes) by (now apply nth_In). split.
  - intros [A B]. now apply (common_entry cubes (nth i cubes []) k v D Ia A).
  - intro H. pose proof (H _ Ia) as A. split; [exact A|]. now apply (common_entry cubes (nth i cubes []) k v D Ia A).
Qed.
(** C76: the cell methods kept are those of all cubes. *)
Theorem C76_cell_methods cubes m : cubes <> [] -> (In m (shared_methods cubes) <-> forall c, In c cubes -> In m c).
Proof.
  destruct cubes as [|c r]; [congruence|]. intros _. cbn [shared_methods]. rewrite filter_In, forallb_forall. split.
  - intros [A B] d [<-|Hd]; [exact A|]. apply mem_iff. now apply B.
  - intro H. split; [apply H; now left|]. intros d Hd. apply mem_iff, H. now right.
Qed.

(** ** Time bounds *)
Definition width (b : Z * Z) : Z := Z.abs (snd b - fst b).
Lemma near_iff x y : near x y = true <-> Qabs (x - y) <= (1 # 100000000) + (1 # 100000) * Qabs y.
Proof. unfold near. apply Qleb_le. Qed.
Lemma check_ranges_iff b r : (check_ranges (b :: r) = Ok tt <-> r = [] \/ forall c, In c (b :: r) -> Qabs (inject_Z (width c) - inject_Z (width b)) <= (1 # 100000000) + (1 # 100000) * inject_Z (width b)) /\ (check_ranges (b :: r) = Ok tt \/ check_ranges (b :: r) = Err ValueError).
Proof.
  destruct r as [|c r]; [cbn; tauto|]. set (bs := b :: c :: r). assert (E : check_ranges bs = if forallb (fun c => near (inject_Z (width c)) (inject_Z (width b))) bs then Ok tt else Err ValueError) by reflexivity. rewrite E.
  assert (Ab : Qabs (inject_Z (width b)) == inject_Z (width b)) by (apply Qabs_pos; change 0 with (inject_Z 0); rewrite <- Zle_Qle; unfold width; lia).
  destruct (forallb _ bs) eqn:F; (split; [|tauto]); split.
  - intros _. right. rewrite forallb_forall in F. intros d Hd. apply F, near_iff in Hd. now rewrite Ab in Hd.
  - reflexivity.
  - discriminate.
  - intros [H|H]; [discriminate|]. assert (forallb (fun c => near (inject_Z (width c)) (inject_Z (width b))) bs = true); [|congruence]. apply forallb_forall. intros d Hd. apply near_iff. rewrite Ab. now apply H.
Qed.
(** C76: cubes of periods shorter than 99,999 s are accepted exactly if all periods have the same length. *)
Theorem C76_periods b r : (width b <= 99998)%Z -> r <> [] -> (check_ranges (b :: r) = Ok tt <-> forall c, In c r -> width c = width b) /\ (check_ranges (b :: r) = Ok tt \/ check_ranges (b :: r) = Err ValueError).
Proof.
  intros Hw Ne. destruct (check_ranges_iff b r) as [A B]. split; [|exact B]. rewrite A. assert (Wq : inject_Z (width b) <= 99998) by (change 99998 with (inject_Z 99998); now rewrite <- Zle_Qle). split.
  - intros [H|H] c Hc; [congruence|]. specialize (H c (or_intror Hc)). rewrite <- (inject_Z_opp (width b)) in H || idtac. unfold Qminus in H. rewrite <- inject_Z_opp, <- inject_Z_plus in H. apply Qabs_Qle_condition in H as [H1 H2].
    assert (L1 : inject_Z (-1) < inject_Z (width c + - width b)) by (change (inject_Z (-1)) with (- (1)); lra). assert (L2 : inject_Z (width c + - width b) < inject_Z 1) by (change (inject_Z 1) with 1; lra). rewrite <- Zlt_Qlt in L1, L2. lia.
  - intro H. right. intros c [<-|Hc]; [|rewrite (H c Hc)]; (assert (E : inject_Z (width b) - inject_Z (width b) == 0) by ring; rewrite E); change (Qabs 0) with 0; assert (0 <= inject_Z (width b)) by (change 0 with (inject_Z 0); rewrite <- Zle_Qle; unfold width; lia); lra.
Qed.
(** C76: periods of different length are always refused: refuted for long periods. *)
Theorem C76_periods_refuted : ~ (forall b r c, check_ranges (b :: r) = Ok tt -> In c r -> width c = width b).
Proof. intro H. specialize (H (0, 259200)%Z [(0, 259202)%Z] (0, 259202)%Z eq_refl (or_introl eq_refl)). discriminate H. Qed.

(** ** Bounds *)
(** What the inputs cover: the bounds of a coordinate, or without bounds its points. *)
Definition covers (c : ecoord) : list Q := match ec_bounds c with Some b => flat_map (fun p => [fst p; snd p]) b | None => ec_points c end.
Lemma covers_bounded cs : forallb is_bounded cs = true -> flat_map (fun c => match ec_bounds c with Some b => ends b | None => [] end) cs = flat_map covers cs.
Proof. induction cs as [|c cs IH]; [reflexivity|]. cbn [forallb flat_map]. rewrite andb_true_iff. intros [A B]. rewrite (IH B). f_equal. unfold is_bounded in A. unfold covers. destruct (ec_bounds c); [reflexivity|discriminate]. Qed.
Lemma covers_unbounded cs : existsb is_bounded cs = false -> flat_map ec_points cs = flat_map covers cs.
Proof. induction cs as [|c cs IH]; [reflexivity|]. cbn [existsb flat_map]. rewrite orb_false_iff. intros [A B]. rewrite (IH B). f_equal. unfold is_bounded in A. unfold covers. destruct (ec_bounds c); [discriminate|reflexivity]. Qed.
Definition all_alike (cs : list ecoord) : Prop := (forall c, In c cs -> ec_bounds c <> None) \/ (forall c, In c cs -> ec_bounds c = None).
Lemma expand_cases points cs : expand_bounds points cs = if (points =? 1)%nat then (if (forallb is_bounded cs || negb (existsb is_bounded cs))%bool then let* lh := span (flat_map covers cs) in Ok (snd lh, lh) else Err ValueError) else Err ValueError.
Proof.
  unfold expand_bounds. destruct (points =? 1)%nat; [|reflexivity]. cbn [negb]. destruct (forallb is_bounded cs) eqn:F; cbn [orb]; [now rewrite covers_bounded|]. destruct (existsb is_bounded cs) eqn:X; cbn [negb]; [reflexivity|]. now rewrite covers_unbounded.
Qed.
Lemma alike_iff cs : (forallb is_bounded cs || negb (existsb is_bounded cs))%bool = true <-> all_alike cs.
Proof.
  rewrite orb_true_iff, negb_true_iff, forallb_forall, <- not_true_iff_false, existsb_exists. unfold all_alike. split; (intros [H|H]; [left|right]).
  - intros c Hc. specialize (H c Hc). unfold is_bounded in H. destruct (ec_bounds c); congruence.
  - intros c Hc. destruct (ec_bounds c) eqn:E; [|reflexivity]. exfalso. apply H. exists c. split; [exact Hc|]. unfold is_bounded. now rewrite E.
  - intros c Hc. specialize (H c Hc). unfold is_bounded. destruct (ec_bounds c); congruence.
  - intros (c & Hc & E). specialize (H c Hc). unfold is_bounded in E. now rewrite H in E.
Qed.
(** C76: the new bounds are the least and the greatest value covered by the inputs, and the point is the upper bound. *)
Theorem C76_bounds points cs p lo hi : expand_bounds points cs = Ok (p, (lo, hi)) -> points = 1%nat /\ all_alike cs /\ p = hi /\
  (forall c x, In c cs -> In x (covers c) -> lo <= x <= hi) /\ (exists c x, In c cs /\ In x (covers c) /\ x == lo) /\ (exists c x, In c cs /\ In x (covers c) /\ x == hi).
Proof.
  rewrite expand_cases. destruct (Nat.eqb_spec points 1) as [->|N]; [|discriminate]. destruct (forallb is_bounded cs || negb (existsb is_bounded cs))%bool eqn:A; [|discriminate]. intro H. split; [reflexivity|]. split; [now apply alike_iff|].
  destruct (flat_map covers cs) as [|x r] eqn:F; cbn [span bind snd] in H; [discriminate|]. apply Ok_inj in H. apply (f_equal fst) in H as H0. apply (f_equal snd) in H as H1. cbn [fst snd] in H0, H1. apply (f_equal fst) in H1 as H2. apply (f_equal snd) in H1 as H3. cbn [fst snd] in H2, H3. clear H H1.
  split; [congruence|]. assert (I0 : forall y, In y (x :: r) <-> exists c, In c cs /\ In y (covers c)) by (intro y; rewrite <- F; apply in_flat_map). split.
  - intros c y Hc Hy. assert (Iy : In y (x :: r)) by (apply I0; eauto). pose proof (qminl_le x r y Iy). pose proof (qmaxl_ge x r y Iy). subst lo hi. lra.
  - destruct (qminl_in x r) as (y & Iy & Ey). destruct (qmaxl_in x r) as (z & Iz & Ez). apply I0 in Iy as (c & Hc & Hy). apply I0 in Iz as (d & Hd & Hz). subst lo hi. split; [exists c, y|exists d, z]; (split; [assumption|split; [assumption|now symmetry]]).
Qed.
(** C76: the coordinate of the result must have one point, and all inputs must have bounds or none. *)
Theorem C76_bounds_refused points cs : cs <> [] -> (forall c, In c cs -> covers c <> []) -> ((exists r, expand_bounds points cs = Ok r) <-> points = 1%nat /\ all_alike cs) /\ (forall e, expand_bounds points cs = Err e -> e = ValueError).
Proof.
  intros Ne Nc. rewrite expand_cases. assert (S0 : exists lh, span (flat_map covers cs) = Ok lh). { destruct cs as [|c cs]; [congruence|]. specialize (Nc c (or_introl eq_refl)). cbn [flat_map]. destruct (covers c); [congruence|]. cbn; eauto. } destruct S0 as (lh & S0). rewrite S0. cbn [bind].
  destruct (Nat.eqb_spec points 1) as [->|N]; [|split; [split; [intros (r & H); discriminate|intros [H _]; contradiction]|congruence]].
  destruct (forallb is_bounded cs || negb (existsb is_bounded cs))%bool eqn:A; (split; [|congruence]); split.
  - intros _. split; [reflexivity|now apply alike_iff].
  - eauto.
  - intros (r & H); discriminate.
  - intros [_ H]. apply alike_iff in H. congruence.
Qed.

(** ** Realizations *)
Lemma once_iff l : once l = true <-> NoDup l.
Proof.
  unfold once. rewrite Nat.eqb_eq. assert (Nz : NoDup (zsortu l)). { pose proof (zsortu_sorted l) as S0. induction S0 as [|x m S1 IH F]; constructor; [|exact IH]. intro H. rewrite Forall_forall in F. specialize (F x H). lia. }
  split; intro H; [apply (NoDup_incl_NoDup Nz); [lia|intros x Hx; exact (proj1 (zsortu_in l x) Hx)]|]. apply Permutation_length, NoDup_Permutation; auto. intro x. apply zsortu_in.
Qed.
Lemma fields_in cs r t v : In (t, v) (fields_of cs r) <-> exists l, In (t, l) cs /\ In (r, v) l.
Proof.
  unfold fields_of. rewrite in_flat_map. split.
  - intros ([t' l] & Hc & H). cbn [fst snd] in H. apply in_map_iff in H as ([r' v'] & E & H). apply filter_In in H as [H1 H2]. cbn [fst snd] in *. apply Z.eqb_eq in H2. injection E as -> ->. subst r'. eauto.
  - intros (l & Hc & H). exists (t, l). split; [exact Hc|]. cbn [fst snd]. apply in_map_iff. exists (r, v). split; [reflexivity|]. apply filter_In. split; [exact H|apply Z.eqb_refl].
Qed.
Definition given (cs : list timed) (r t : Z) (v : Q) : Prop := exists l, In (t, l) cs /\ In (r, v) l.
(** Each realization once per time: every pair of cubes of one time share no realization, and none is repeated within a cube. *)
Definition no_repeats (cs : list timed) : Prop := forall r, NoDup (map fst (fields_of cs r)).
Definition is_time (cs : list timed) (t : Z) : Prop := exists l, In (t, l) cs.
Lemma zeq_list_iff a b : zeq_list a b = true <-> a = b.
Proof. unfold zeq_list. destruct (list_eq_dec Z.eq_dec a b); split; congruence. Qed.
Lemma complete_iff cs r : zeq_list (zsortu (map fst (fields_of cs r))) (zsortu (map fst cs)) = true <-> forall t, is_time cs t -> exists v, given cs r t v.
Proof.
  rewrite zeq_list_iff. assert (Ti : forall t, In t (map fst cs) <-> is_time cs t) by (intro t; rewrite in_map_iff; split; [intros ([t' l] & E & H); cbn in E; subst; now exists l|intros (l & H); exists (t, l); auto]).
  assert (Fi : forall t, In t (map fst (fields_of cs r)) <-> exists v, given cs r t v) by (intro t; rewrite in_map_iff; split; [intros ([t' v] & E & H); cbn in E; subst; exists v; now apply fields_in|intros (v & H); exists (t, v); split; [reflexivity|now apply fields_in]]).
  split.
  - intros E t Ht. apply Fi. apply zsortu_in. rewrite E. apply zsortu_in. now apply Ti.
  - intro H. apply zsorted_unique; [apply zsortu_sorted..|]. intro t. rewrite !zsortu_in, Fi, Ti. split; [intros (v & l & Hl & _); now exists l|apply H].
Qed.
Lemma reals_in cs r : In r (zsortu (flat_map (fun c : timed => map fst (snd c)) cs)) <-> exists t v, given cs r t v.
Proof.
  rewrite zsortu_in, in_flat_map. split.
  - intros ([t l] & Hc & H). cbn [snd] in H. apply in_map_iff in H as ([r' v] & E & H). cbn in E. subst. exists t, v, l. auto.
  - intros (t & v & l & Hc & H). exists (t, l). split; [exact Hc|]. cbn [snd]. apply in_map_iff. exists (r, v). auto.
Qed.
Lemma repeats_checked cs : forallb (fun r => once (map fst (fields_of cs r))) (zsortu (flat_map (fun c : timed => map fst (snd c)) cs)) = true <-> no_repeats cs.
Proof.
  rewrite forallb_forall. split; [|intros H r _; apply once_iff, H]. intros H r. destruct (fields_of cs r) as [|[t v] l] eqn:E; [constructor|]. rewrite <- E. apply once_iff, H, reals_in. exists t, v. apply fields_in. rewrite E. now left.
Qed.
Lemma filter_sorted_z p l : StronglySorted Z.lt l -> StronglySorted Z.lt (filter p l).
Proof. induction 1 as [|x l S0 IH F]; cbn [filter]; [constructor|]. destruct (p x); [|exact IH]. constructor; [exact IH|]. rewrite Forall_forall in *. intros y Hy. apply filter_In in Hy. now apply F. Qed.
(** C76: exactly the realizations given for every time remain, in ascending order; each has all the times, in ascending order, with the field given for it. *)
Theorem C76_realizations cs out : filter_realizations cs = Ok out -> no_repeats cs /\ out <> [] /\ StronglySorted Z.lt (map fst out) /\
  (forall r, In r (map fst out) <-> (exists t v, given cs r t v) /\ forall t, is_time cs t -> exists v, given cs r t v) /\
  forall r fs, In (r, fs) out -> StronglySorted Z.lt (map fst fs) /\ (forall t, In t (map fst fs) <-> is_time cs t) /\ forall t v, In (t, v) fs -> given cs r t v.
Proof.
  unfold filter_realizations. destruct (forallb _ (zsortu _)) eqn:R; cbn [negb]; [|discriminate]. apply repeats_checked in R. set (rs := filter _ (zsortu _)) in *.
  assert (Irs : forall r, In r rs <-> (exists t v, given cs r t v) /\ forall t, is_time cs t -> exists v, given cs r t v) by (intro r; unfold rs; now rewrite filter_In, reals_in, complete_iff).
  assert (Srs : StronglySorted Z.lt rs) by (apply filter_sorted_z, zsortu_sorted). set (mk := fun r => (r, map (fun t => (t, field_at_time (fields_of cs r) t)) (zsortu (map fst cs)))) in *. clearbody rs.
  intro H. assert (out = map mk rs /\ rs <> []) as [-> Ne] by (destruct rs; [discriminate|]; apply Ok_inj in H; split; [now symmetry|discriminate]). clear H. assert (Mf : map fst (map mk rs) = rs) by (rewrite map_map; apply map_id).
  split; [exact R|]. split; [destruct rs; [congruence|discriminate]|]. rewrite Mf. split; [exact Srs|]. split; [exact Irs|]. intros r fs Hr. apply in_map_iff in Hr as (r' & E & Hr). unfold mk in E. apply (f_equal fst) in E as E1. apply (f_equal snd) in E as E2. cbn [fst snd] in E1, E2. subst r' fs.
  assert (Ti : forall t, In t (zsortu (map fst cs)) <-> is_time cs t) by (intro t; rewrite zsortu_in, in_map_iff; split; [intros ([t' l] & Et & H); cbn in Et; subst; now exists l|intros (l & H); exists (t, l); auto]).
  rewrite map_map. cbn [fst]. rewrite map_id. split; [apply zsortu_sorted|]. split; [exact Ti|]. intros t v H. apply in_map_iff in H as (t' & Et & Ht). apply (f_equal fst) in Et as T1. apply (f_equal snd) in Et as T2. cbn [fst snd] in T1, T2. subst t' v. apply Irs in Hr as [_ Hr]. destruct (Hr t (proj1 (Ti t) Ht)) as (w & G). pose proof (proj2 (fields_in cs r t w) G) as Iw.
  unfold field_at_time. destruct (find (fun e => (fst e =? t)%Z) (fields_of cs r)) as [[t2 w2]|] eqn:F; [|apply (find_none _ _) with (x := (t, w)) in F; [cbn in F; lia|exact Iw]]. apply find_some in F as [F1 F2]. cbn [fst snd] in *. apply Z.eqb_eq in F2. subst t2. now apply fields_in.
Qed.
(** C76: when filtering realizations fails: a realization repeated for a time, or no realization given for every time. *)
Theorem C76_realizations_refused cs : (filter_realizations cs = Err MergeError <-> ~ no_repeats cs) /\
  (no_repeats cs -> ((exists out, filter_realizations cs = Ok out) <-> exists r, (exists t v, given cs r t v) /\ forall t, is_time cs t -> exists v, given cs r t v)) /\ (no_repeats cs -> forall e, filter_realizations cs = Err e -> e = IndexError).
Proof.
  unfold filter_realizations. destruct (forallb _ (zsortu _)) eqn:R; cbn [negb].
  - apply repeats_checked in R. set (rs := filter _ (zsortu _)) in *. assert (Irs : forall r, In r rs <-> (exists t v, given cs r t v) /\ forall t, is_time cs t -> exists v, given cs r t v) by (intro r; unfold rs; now rewrite filter_In, reals_in, complete_iff). clearbody rs. split; [|split].
    + split; [destruct rs; discriminate|contradiction].
    + intros _. destruct rs as [|r rs].
      * split; [intros (out & H); discriminate|]. intros (r & H). exfalso. now apply (Irs r).
      * split; [intros _; exists r; apply Irs; now left|eauto].
    + intros _ e H. destruct rs; congruence.
  - assert (N : ~ no_repeats cs) by (intro X; apply repeats_checked in X; congruence). split; [tauto|]. split; intros; contradiction.
Qed.
(** C76: clipping. *)
Theorem C76_clip lo hi v : lo <= hi -> match v with None => clip_value lo hi v = None | Some x => exists y, clip_value lo hi v = Some y /\ lo <= y <= hi /\ (lo <= x <= hi -> y == x) /\ (x < lo -> y == lo) /\ (hi < x -> y == hi) end.
Proof.
  intro H. destruct v as [x|]; [|reflexivity]. eexists. split; [reflexivity|]. destruct (Q.max_spec x lo) as [[A E]|[A E]]; destruct (Q.min_spec (Qmax x lo) hi) as [[B F]|[B F]]; rewrite F; rewrite ?E in *; repeat split; intros; lra.
Qed.
Example C76_case :
  compare_attributes (fun _ _ => true) None [[("source", "A"); ("title", "x")]; [("source", "A"); ("title", "y"); ("grid", "uk")]]%string = Ok [[("title", "x")]; [("title", "y"); ("grid", "uk")]]%string /\
  equalise [[("source", "A"); ("title", "x")]; [("source", "A"); ("title", "y"); ("grid", "uk")]]%string = [[("source", "A")]; [("source", "A")]]%string /\
  check_ranges [(0, 3600); (3600, 7200)]%Z = Ok tt /\ check_ranges [(0, 3600); (3600, 10800)]%Z = Err ValueError /\
  expand_bounds 1 [{| ec_points := [3]; ec_bounds := Some [(1, 3)] |}; {| ec_points := [5]; ec_bounds := Some [(2, 5)] |}] = Ok (5, (1, 5)) /\
  filter_realizations [(10, [(0, 1%Q); (2, 3%Q); (1, 2%Q)]); (5, [(2, 7%Q); (1, 8%Q)])]%Z = Ok [(1%Z, [(5%Z, 8); (10%Z, 2)]); (2%Z, [(5%Z, 7); (10%Z, 3)])] /\
  filter_realizations [(10, [(0, 1%Q)]); (5, [(2, 7%Q)])]%Z = Err IndexError /\ filter_realizations [(10, [(0, 1%Q)]); (10, [(0, 7%Q)])]%Z = Err MergeError.
Proof. vm_compute. repeat split; reflexivity. Qed.

Print Assumptions C76_differences.
Print Assumptions C76_single.
Print Assumptions C76_equalised.
Print Assumptions C76_cell_methods.
Print Assumptions C76_periods.
Print Assumptions C76_periods_refuted.
Print Assumptions C76_bounds.
Print Assumptions C76_bounds_refused.
Print Assumptions C76_realizations.
Print Assumptions C76_realizations_refused.
Print Assumptions C76_clip.
