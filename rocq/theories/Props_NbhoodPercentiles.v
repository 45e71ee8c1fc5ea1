(** C140: percentiles of the values in a circle around each point (GeneratePercentilesFromANeighbourhood). *)
From Verif Require Proofs_Spot.
From Verif Require Import Base Model_Nbhood Model_Spatial Model_NbhoodCube Model_PercConv Spec_PercConv Proofs_Nbhood Props_PercConv Model_NbhoodPercentiles.
Local Open Scope Q_scope.

Lemma Ok_inj {A} (x y : A) : Ok x = Ok y -> x = y.
Proof. congruence. Qed.
(** [f] inside; beyond an end the mean of the [r] values next to it (of all if there are fewer). *)
Definition mean_beyond (n r : Z) (f e : Z -> Q) : Prop :=
  let m := Z.min r n in
  (forall i, (0 <= i < n)%Z -> e i == f i) /\
  (forall i, (i < 0)%Z -> e i * inject_Z m == zsum 0 (Z.to_nat m) f) /\
  (forall i, (n <= i)%Z -> e i * inject_Z m == zsum (n - m) (Z.to_nat m) f).
Lemma mean_times a n f : (0 < n)%Z -> mean_from a n f * inject_Z n == zsum a (Z.to_nat n) f.
Proof. intro N. unfold mean_from. field. intro E. assert (X : (n = 0)%Z) by (apply (inject_Z_injective n 0); exact E). lia. Qed.
Lemma line_beyond n r f : (0 < n)%Z -> (0 < r)%Z -> mean_beyond n r f (pad_line n r f).
Proof.
  intros N R. split; [|split]; intros i I; unfold pad_line.
  - destruct (Z.ltb_spec i 0); [lia|]. destruct (Z.leb_spec n i); [lia|reflexivity].
  - destruct (Z.ltb_spec i 0); [|lia]. apply mean_times. lia.
  - destruct (Z.ltb_spec i 0); [lia|]. destruct (Z.leb_spec n i); [|lia]. apply mean_times. lia.
Qed.
(** C140: the field used beyond the edges: columns are carried on above and below by the mean of their values next to the edge, then every row to the left and right. *)
Theorem C140_beyond h w r g : (0 < h)%Z -> (0 < w)%Z -> (0 < r)%Z -> exists columns : grid Q,
  (forall x, mean_beyond h r (fun y => g y x) (fun y => columns y x)) /\ forall y, mean_beyond w r (fun x => columns y x) (fun x => pad_mean h w r g y x).
Proof.
  intros H W R. exists (fun y x => pad_line h r (fun y => g y x) y). split.
  - intro x. apply line_beyond; assumption.
  - intro y. unfold pad_mean. apply (line_beyond w r (fun x => pad_line h r (fun y => g y x) y)); assumption.
Qed.
Lemma pad_inside h w r g y x : (0 <= y < h)%Z -> (0 <= x < w)%Z -> pad_mean h w r g y x = g y x.
Proof.
  intros Y X. unfold pad_mean, pad_line. destruct (Z.ltb_spec x 0); [lia|]. destruct (Z.leb_spec w x); [lia|]. destruct (Z.ltb_spec y 0); [lia|]. destruct (Z.leb_spec h y); [lia|reflexivity].
Qed.
Lemma zsum_const n c : forall a, zsum a n (fun _ => c) == Qn n * c.
Proof.
  induction n as [|n IH]; intro a; [reflexivity|]. cbn [zsum]. rewrite IH. unfold Qn. rewrite Nat2Z.inj_succ, <- Z.add_1_r, inject_Z_plus. change (inject_Z 1) with 1. ring.
Qed.
Lemma mean_bounded a n f lo hi : (0 < n)%Z -> (forall i, (a <= i < a + n)%Z -> lo <= f i <= hi) -> lo <= mean_from a n f <= hi.
Proof.
  intros N B. assert (N' : 0 < inject_Z n) by (change 0 with (inject_Z 0); rewrite <- Zlt_Qlt; exact N).
  assert (E : forall c, c * inject_Z n == zsum a (Z.to_nat n) (fun _ => c)) by (intro c; rewrite zsum_const; unfold Qn; rewrite Z2Nat.id by lia; ring).
  unfold mean_from. split; [apply Qle_shift_div_l; [exact N'|]|apply Qle_shift_div_r; [exact N'|]]; rewrite E; apply zsum_le; intros i I; apply B; lia.
Qed.
Lemma line_bounded n r f lo hi i : (0 < n)%Z -> (0 < r)%Z -> (forall i, (0 <= i < n)%Z -> lo <= f i <= hi) -> lo <= pad_line n r f i <= hi.
Proof.
  intros N R B. unfold pad_line. destruct (Z.ltb_spec i 0); [apply mean_bounded; [lia|intros; apply B; lia]|]. destruct (Z.leb_spec n i); [apply mean_bounded; [lia|intros; apply B; lia]|apply B; lia].
Qed.
Lemma pad_bounded h w r g lo hi y x : (0 < h)%Z -> (0 < w)%Z -> (0 < r)%Z -> (forall y x, (0 <= y < h)%Z -> (0 <= x < w)%Z -> lo <= g y x <= hi) -> lo <= pad_mean h w r g y x <= hi.
Proof. intros H W R B. unfold pad_mean. apply line_bounded; [assumption..|]. intros x' X. apply line_bounded; [assumption..|]. intros y' Y. apply B; assumption. Qed.
Lemma mean_affine a n f c d : (0 < n)%Z -> mean_from a n (fun i => c * f i + d) == c * mean_from a n f + d.
Proof.
  intro N. assert (N' : ~ inject_Z n == 0) by (intro E; assert (X : (n = 0)%Z) by (apply (inject_Z_injective n 0); exact E); lia).
  unfold mean_from. rewrite (zsum_plus (Z.to_nat n) a (fun i => c * f i) (fun _ => d)), zsum_scale, zsum_const. unfold Qn. rewrite Z2Nat.id by lia. field. exact N'.
Qed.
Lemma mean_ext a n f f' : (forall i, f i == f' i) -> mean_from a n f == mean_from a n f'.
Proof. intro E. unfold mean_from. rewrite (zsum_ext (Z.to_nat n) a f f') by (intros; apply E). reflexivity. Qed.
Lemma line_ext n r f f' i : (forall i, f i == f' i) -> pad_line n r f i == pad_line n r f' i.
Proof. intro E. unfold pad_line. destruct (i <? 0)%Z; [apply mean_ext; exact E|]. destruct (n <=? i)%Z; [apply mean_ext; exact E|apply E]. Qed.
Lemma line_affine n r f c d i : (0 < n)%Z -> (0 < r)%Z -> pad_line n r (fun i => c * f i + d) i == c * pad_line n r f i + d.
Proof. intros N R. unfold pad_line. destruct (i <? 0)%Z; [apply mean_affine; lia|]. destruct (n <=? i)%Z; [apply mean_affine; lia|reflexivity]. Qed.
Lemma pad_affine h w r g c d y x : (0 < h)%Z -> (0 < w)%Z -> (0 < r)%Z -> pad_mean h w r (fun y x => c * g y x + d) y x == c * pad_mean h w r g y x + d.
Proof.
  intros H W R. unfold pad_mean. rewrite (line_ext w r _ (fun x => c * pad_line h r (fun y => g y x) y + d)) by (intro x'; apply (line_affine h r (fun y => g y x') c d y); assumption).
  apply (line_affine w r (fun x => pad_line h r (fun y => g y x) y) c d x); assumption.
Qed.

(** ** the circle *)
(** Every offset at a distance of at most [r], once. *)
Definition circle (r : Z) (os : list (Z * Z)) : Prop := NoDup os /\ forall dy dx, In (dy, dx) os <-> (dy * dy + dx * dx <= r * r)%Z.
Lemma product_map {A B} (l : list A) (m : list B) : NoDup l -> NoDup m -> NoDup (list_prod l m).
Proof.
  intros NL NM. induction NL as [|a l N NL IH]; [constructor|]. cbn [list_prod].
  apply Proofs_Spot.nodup_app; [apply FinFun.Injective_map_NoDup; [intros x y E; congruence|exact NM]|exact IH|].
  intros p I J. apply in_map_iff in I as (b & <- & _). apply in_prod_iff in J as [J _]. contradiction.
Qed.
Theorem C140_circle r : (0 < r)%Z -> circle r (offsets r).
Proof.
  intro R. unfold offsets. set (l := map (fun k => (Z.of_nat k - r)%Z) (seq 0 (Z.to_nat (2 * r + 1)))).
  assert (NL : NoDup l) by (unfold l; apply FinFun.Injective_map_NoDup; [intros a b E; lia|apply seq_NoDup]).
  assert (IL : forall k, In k l <-> (- r <= k <= r)%Z).
  { intro k. unfold l. rewrite in_map_iff. split; [intros (i & <- & I); apply in_seq in I; lia|]. intro K. exists (Z.to_nat (k + r)). rewrite in_seq. lia. }
  split; [apply NoDup_filter, product_map; exact NL|]. intros dy dx. rewrite filter_In. cbn [fst snd]. rewrite in_prod_iff, !IL. unfold circular_kernel. cbv zeta.
  destruct (Z.ltb_spec (r * r) (dy * dy + dx * dx)) as [H|H]; split.
  - intros [_ X]. discriminate X.
  - intro X. lia.
  - intros _. exact H.
  - intros _. split; [nia|reflexivity].
Qed.
Lemma circle_some r : (0 < r)%Z -> offsets r <> [].
Proof. intros R E. destruct (C140_circle r R) as [_ C]. specialize (C 0 0)%Z. rewrite E in C. apply (proj2 C). nia. Qed.

(** ** percentiles between the extremes *)
Lemma percentile_bounded l p v lo hi : l <> [] -> 0 <= p <= 100 -> is_percentile l p v -> (forall x, In x l -> lo <= x <= hi) -> lo <= v <= hi.
Proof.
  intros N P H B. set (s := qsort l). assert (Ps : Permutation l s) by apply qsort_perm. assert (So : qsorted s) by apply qsort_sorted.
  assert (L : (0 < length l)%nat) by (destruct l; [congruence|cbn; lia]). pose proof (Permutation_length Ps) as Ls.
  assert (I : forall i, (i < length l)%nat -> lo <= nth i s 0 <= hi) by (intros i Hi; apply B; apply (Permutation_in _ (Permutation_sym Ps)); apply nth_In; lia).
  pose proof (np_is l 0 N ltac:(lra)) as H0. pose proof (np_is l 100 N ltac:(lra)) as H1.
  assert (E0 : np_percentile l 0 == nth 0 s 0) by (apply (percentile_member l s 0 _ 0 Ps So L); [unfold Qn; change (inject_Z (Z.of_nat 0)) with 0; ring|lra|exact H0]).
  assert (E1 : np_percentile l 100 == nth (length l - 1) s 0).
  { apply (percentile_member l s 100 _ (length l - 1) Ps So ltac:(lia)); [|lra|exact H1]. unfold Qn. rewrite Nat2Z.inj_sub by lia. unfold Z.sub. rewrite inject_Z_plus. change (inject_Z (- Z.of_nat 1)) with (- (1)). ring. }
  pose proof (percentile_mono l 0 p _ v N ltac:(lra) (proj1 P) (proj2 P) H0 H). pose proof (percentile_mono l p 100 v _ N (proj1 P) (proj2 P) ltac:(lra) H H1).
  pose proof (I 0%nat L). pose proof (I (length l - 1)%nat ltac:(lia)). lra.
Qed.

(** ** the plugin *)
Definition asked_ok (percentiles : list Q) : Prop := percentiles <> [] /\ (forall p, In p percentiles -> 0 <= p <= 100) /\ ForallOrdPairs (fun p q => ~ p == q) percentiles.
Lemma twice_iff l : twice l = false <-> ForallOrdPairs (fun p q => ~ p == q) l.
Proof.
  induction l as [|a l IH]; [split; [constructor|reflexivity]|]. cbn [twice]. rewrite orb_false_iff, IH. split.
  - intros [H K]. constructor; [|exact K]. apply Forall_forall. intros x X E. assert (Y : existsb (Qeq_bool a) l = true) by (apply existsb_exists; exists x; split; [exact X|apply Qeq_bool_iff; exact E]). congruence.
  - intro H. inversion H as [|? ? F K]; subst. split; [|exact K]. destruct (existsb (Qeq_bool a) l) eqn:E; [|reflexivity]. apply existsb_exists in E as (x & X & E). apply Qeq_bool_iff in E. rewrite Forall_forall in F. destruct (F x X E).
Qed.
Lemma one_slice_ok percentiles h w r g : (exists o, one_slice percentiles h w r g = Ok o) <-> asked_ok percentiles.
Proof.
  unfold one_slice, percentile_points, asked_ok. destruct percentiles as [|p0 ps]; [split; [intros (o & H); discriminate H|intros (H & _); congruence]|]. set (l := p0 :: ps). rewrite <- twice_iff.
  destruct (twice l); [split; [intros (o & H); discriminate H|intros (_ & _ & H); discriminate H]|]. cbn [bind].
  destruct (existsb (fun p => (Qltb p 0 || Qltb 100 p)%bool) l) eqn:E.
  - split; [intros (o & H); discriminate H|]. intros (_ & B & _). apply existsb_exists in E as (x & X & E). specialize (B x X). destruct (Qltb_spec x 0); [lra|]. destruct (Qltb_spec 100 x); [lra|discriminate E].
  - split; [|intros _; eexists; reflexivity]. intros _. split; [discriminate|]. split; [|reflexivity]. intros p I.
    assert (N : (Qltb p 0 || Qltb 100 p)%bool = false) by (destruct (Qltb p 0 || Qltb 100 p)%bool eqn:X; [|reflexivity]; rewrite <- E; symmetry; apply existsb_exists; exists p; split; [exact I|exact X]).
    apply orb_false_iff in N as [N1 N2]. destruct (Qltb_spec p 0); [discriminate N1|]. destruct (Qltb_spec 100 p); [discriminate N2|]. lra.
Qed.
Lemma one_slice_is percentiles h w r g o : one_slice percentiles h w r g = Ok o -> o = combine (qsort percentiles) (map (fun p y x => np_percentile (window h w r g y x) p) percentiles).
Proof.
  unfold one_slice, percentile_points. destruct percentiles as [|p0 ps]; [discriminate|]. destruct (twice (p0 :: ps)); [discriminate|]. cbn [bind]. destruct (existsb _ (p0 :: ps)); [discriminate|]. intro H. apply Ok_inj in H. symmetry. exact H.
Qed.
Lemma increasing_asked ps : qssorted ps -> ps <> [] -> (forall p, In p ps -> 0 <= p <= 100) -> asked_ok ps.
Proof.
  intros So N B. split; [exact N|]. split; [exact B|]. clear N B. induction So as [|a l So IH F]; [constructor|]. constructor; [|exact IH]. rewrite Forall_forall in *. intros x X E. specialize (F x X). cbn beta in F. lra.
Qed.
Lemma mapM_all {A B} (f : A -> result B) l out : mapM f l = Ok out -> Forall2 (fun a b => f a = Ok b) l out.
Proof.
  revert out. induction l as [|a l IH]; intros out H; [apply Ok_inj in H; subst; constructor|]. cbn [mapM] in H. destruct (f a) as [b|] eqn:E; [|discriminate H]. cbn [bind] in H. destruct (mapM f l) as [m|]; [|discriminate H]. cbn [bind] in H. apply Ok_inj in H. subst. constructor; [exact E|apply IH; reflexivity].
Qed.
Lemma mapM_some {A B} (f : A -> result B) l : (forall a, In a l -> exists b, f a = Ok b) -> exists out, mapM f l = Ok out.
Proof.
  induction l as [|a l IH]; intro H; [eexists; reflexivity|]. destruct (H a (or_introl eq_refl)) as (b & E). destruct IH as (m & M); [intros; apply H; now right|]. exists (b :: m). cbn [mapM]. rewrite E. cbn [bind]. rewrite M. reflexivity.
Qed.
Lemma cells_positive xs radius r : distance_to_cells xs radius = Ok r -> (0 < r)%Z.
Proof.
  unfold distance_to_cells. destruct (Qle_bool radius 0) eqn:D; [discriminate|]. destruct (grid_spacing xs) as [[s|]|]; [|discriminate|discriminate]. cbn [bind]. destruct (Z.eqb_spec (Qround.Qfloor (radius / Qabs s)) 0) as [E|E]; [discriminate|]. intro H. apply Ok_inj in H. subst r.
  assert (0 <= radius / Qabs s). { unfold Qdiv. apply Qmult_le_0_compat; [|apply Qinv_le_0_compat, Qabs_nonneg]. destruct (Qlt_le_dec 0 radius) as [X|X]; [lra|]. apply Qle_bool_iff in X. congruence. }
  assert (0 <= Qround.Qfloor (radius / Qabs s))%Z; [|lia]. change 0%Z with (Qround.Qfloor 0). apply Qround.Qfloor_resp_le. assumption.
Qed.
Lemma plugin_cells b percentiles xs ys leads h w masked slices out : nbhood_percentiles b percentiles xs ys leads h w masked slices = Ok out ->
  exists r, masked = false /\ nbhood_cells b xs ys leads = Ok r /\ (0 < r)%Z /\ Forall2 (fun g o => one_slice percentiles h w r g = Ok o) slices out.
Proof.
  unfold nbhood_percentiles, nbhood_cells. destruct (base_radius b leads) as [rad|]; [|discriminate]. cbn [bind]. destruct masked; [discriminate|]. destruct (check_equal_area xs ys); [|discriminate]. cbn [bind].
  destruct (single rad) as [rd|]; [|discriminate]. cbn [bind]. destruct (distance_to_cells xs rd) as [r|] eqn:D; [|discriminate]. cbn [bind]. destruct (check_radius xs ys rd); [|discriminate]. cbn [bind]. intro M. exists r. split; [reflexivity|]. split; [first [reflexivity|exact D]|].
  split; [exact (cells_positive _ _ _ D)|]. apply mapM_all. exact M.
Qed.

(** C140: accepted are unmasked cubes, with a radius that neighbourhood processing accepts (C40, C41) and percentiles between 0 and 100, at least one, none twice. *)
Theorem C140_accepted b percentiles xs ys leads h w masked slices : slices <> [] ->
  (exists out, nbhood_percentiles b percentiles xs ys leads h w masked slices = Ok out) <->
  masked = false /\ (exists r, nbhood_cells b xs ys leads = Ok r) /\ asked_ok percentiles.
Proof.
  intro NE. split.
  - intros (out & H). destruct (plugin_cells _ _ _ _ _ _ _ _ _ _ H) as (r & M & C & _ & F). split; [exact M|]. split; [eauto|]. destruct slices as [|g gs]; [congruence|]. inversion F; subst. apply (one_slice_ok percentiles h w r g). eauto.
  - intros (-> & (r & C) & P). unfold nbhood_percentiles, nbhood_cells in *. destruct (base_radius b leads) as [rad|]; [|discriminate C]. cbn [bind] in *. destruct (check_equal_area xs ys); [|discriminate C]. cbn [bind] in *.
    destruct (single rad) as [rd|]; [|discriminate C]. cbn [bind] in *. destruct (check_radius xs ys rd); [|discriminate C]. cbn [bind] in *. rewrite C. cbn [bind].
    apply mapM_some. intros g _. apply one_slice_ok. exact P.
Qed.
(** C140: masked cubes are refused. *)
Theorem C140_masked b percentiles xs ys leads h w slices rad : base_radius b leads = Ok rad -> nbhood_percentiles b percentiles xs ys leads h w true slices = Err NotImplementedError.
Proof. intro H. unfold nbhood_percentiles. rewrite H. reflexivity. Qed.

(** C140: with percentiles in increasing order there is, for each slice, one field for each of them, labelled with it; each value is that percentile (C115) of the values at all the points within the radius, the field being carried on beyond its edges (C140_beyond; on the grid itself it is the field). *)
Theorem C140_values b percentiles xs ys leads h w masked slices out : qssorted percentiles -> nbhood_percentiles b percentiles xs ys leads h w masked slices = Ok out ->
  exists r os, nbhood_cells b xs ys leads = Ok r /\ (0 < r)%Z /\ circle r os /\
  Forall2 (fun g fields => map fst fields = percentiles /\
  forall p f, In (p, f) fields -> forall y x, is_percentile (map (fun o => pad_mean h w r g (y + fst o)%Z (x + snd o)%Z) os) p (f y x)) slices out /\
  forall g y x, (0 <= y < h)%Z -> (0 <= x < w)%Z -> pad_mean h w r g y x = g y x.
Proof.
  intros So H. destruct (plugin_cells _ _ _ _ _ _ _ _ _ _ H) as (r & _ & C & R & F). exists r, (offsets r). split; [exact C|]. split; [exact R|]. split; [apply C140_circle; exact R|]. split; [|intros; apply pad_inside; assumption].
  clear H. induction F as [|g o gs os E F IH]; constructor; [|exact IH]. assert (AO : asked_ok percentiles) by (apply (one_slice_ok percentiles h w r g); eauto).
  apply one_slice_is in E. rewrite (qsort_id percentiles) in E by (apply qssorted_qsorted; exact So). subst o. split.
  - clear. generalize (fun p y x => np_percentile (window h w r g y x) p). intro f. induction percentiles as [|p l IH]; [reflexivity|]. cbn. f_equal. exact IH.
  - intros p f I y x. destruct AO as (_ & B & _). clear So IH F.
    assert (X : In p percentiles /\ f = (fun y x => np_percentile (window h w r g y x) p)).
    { clear B. induction percentiles as [|q l IH]; [destruct I|]. cbn in I. destruct I as [I|I]; [injection I as <- <-; split; [now left|reflexivity]|]. destruct (IH I) as [J E]. split; [now right|exact E]. }
    destruct X as [X ->]. apply np_is; [|apply B; exact X]. intro N. apply map_eq_nil in N. exact (circle_some r R N).
Qed.
(** C140: the percentiles lie between the least and greatest value of the field, also at its edges, and increase with the percentage. *)
Theorem C140_bounded r h w g y x p v lo hi : (0 < h)%Z -> (0 < w)%Z -> (0 < r)%Z -> 0 <= p <= 100 -> (forall y x, (0 <= y < h)%Z -> (0 <= x < w)%Z -> lo <= g y x <= hi) ->
  is_percentile (window h w r g y x) p v -> lo <= v <= hi.
Proof.
  intros H W R P B I. refine (percentile_bounded _ p v lo hi _ P I _); [intro N; apply map_eq_nil in N; exact (circle_some r R N)|].
  intros z Z0. apply in_map_iff in Z0 as (o & <- & _). apply pad_bounded; assumption.
Qed.
Theorem C140_increasing r h w g y x p q v u : (0 < r)%Z -> 0 <= p -> p <= q -> q <= 100 -> is_percentile (window h w r g y x) p v -> is_percentile (window h w r g y x) q u -> v <= u.
Proof. intros R P PQ Q1. apply C115_percentile_increasing; [intro N; apply map_eq_nil in N; exact (circle_some r R N)|assumption..]. Qed.
(** C140: a point at least the radius away from every edge depends on nothing but the points within the radius. *)
Theorem C140_inside r h w g g' y x p : (r <= y)%Z -> (y + r < h)%Z -> (r <= x)%Z -> (x + r < w)%Z -> (0 < r)%Z ->
  (forall y' x', ((y' - y) * (y' - y) + (x' - x) * (x' - x) <= r * r)%Z -> g y' x' = g' y' x') ->
  np_percentile (window h w r g y x) p = np_percentile (window h w r g' y x) p.
Proof.
  intros Y1 Y2 X1 X2 R E. f_equal. apply map_ext_in. intros [dy dx] I. apply (proj2 (C140_circle r R)) in I. cbn [fst snd]. rewrite !pad_inside by nia. apply E. replace (y + dy - y)%Z with dy by ring. replace (x + dx - x)%Z with dx by ring. exact I.
Qed.

Lemma percentile_qeq l m p v : Forall2 Qeq l m -> is_percentile l p v -> is_percentile m p v.
Proof.
  intros E (s & P & So & H1 & H2). pose proof (Forall2_len _ _ _ E) as L. destruct (Permutation_Forall2 P E) as (t & Pt & Et). pose proof (Forall2_len _ _ _ Et) as Lt. pose proof (Permutation_length P) as Lp.
  exists t. split; [exact Pt|]. split; [eapply qsorted_Qeq; eassumption|].
  assert (N : forall i, (i < length l)%nat -> nth i s 0 == nth i t 0) by (intros i I; apply Forall2_Qeq_nth; exact Et).
  rewrite <- L. split.
  - intro I. rewrite (H1 I). apply N. lia.
  - intros i I h B. rewrite (H2 i I B), !N by lia. reflexivity.
Qed.
(** C140: in other units (a linear change that keeps the order) the percentiles are those in the first units, converted. *)
Theorem C140_units r h w g y x p v u a d : (0 < h)%Z -> (0 < w)%Z -> (0 < r)%Z -> 0 <= p <= 100 -> 0 <= a ->
  is_percentile (window h w r g y x) p v -> is_percentile (window h w r (fun y x => a * g y x + d) y x) p u -> u == a * v + d.
Proof.
  intros H W R P A V U. assert (N : window h w r g y x <> []) by (intro E; apply map_eq_nil in E; exact (circle_some r R E)).
  refine (C115_percentile_units (window h w r g y x) p v u a d N P A V _). refine (percentile_qeq _ _ p u _ U). unfold window. rewrite map_map. clear V U N.
  induction (offsets r) as [|o os IH]; [constructor|]. constructor; [|exact IH]. apply pad_affine; assumption.
Qed.

Lemma zsum_swap n m b : forall a (g : Z -> Z -> Q), zsum a n (fun x => zsum b m (g x)) == zsum b m (fun y => zsum a n (fun x => g x y)).
Proof.
  induction n as [|n IH]; intros a g.
  - cbn [zsum]. symmetry. apply zsum_zero. reflexivity.
  - cbn [zsum]. rewrite IH, <- zsum_plus. reflexivity.
Qed.
Lemma mean_swap n m a b (g : Z -> Z -> Q) : mean_from a n (fun x => mean_from b m (g x)) == mean_from b m (fun y => mean_from a n (fun x => g x y)).
Proof.
  unfold mean_from. rewrite (zsum_ext (Z.to_nat n) a _ (fun x => / inject_Z m * zsum b (Z.to_nat m) (g x))) by (intros; unfold Qdiv; ring).
  rewrite (zsum_ext (Z.to_nat m) b (fun y => zsum a (Z.to_nat n) (fun x => g x y) / inject_Z n) (fun y => / inject_Z n * zsum a (Z.to_nat n) (fun x => g x y))) by (intros; unfold Qdiv; ring).
  rewrite !zsum_scale, zsum_swap. unfold Qdiv. ring.
Qed.
Lemma pad_transposed h w r g y x : pad_mean h w r g y x == pad_mean w h r (fun y x => g x y) x y.
Proof.
  unfold pad_mean, pad_line. destruct (x <? 0)%Z, (y <? 0)%Z, (w <=? x)%Z, (h <=? y)%Z; try reflexivity; apply mean_swap.
Qed.
Lemma offsets_transposed r : (0 < r)%Z -> Permutation (offsets r) (map (fun o => (snd o, fst o)) (offsets r)).
Proof.
  intro R. destruct (C140_circle r R) as [ND IN]. apply NoDup_Permutation; [exact ND| |].
  - apply FinFun.Injective_map_NoDup; [|exact ND]. intros [a b] [c d] E. cbn in E. congruence.
  - intros [dy dx]. rewrite IN, in_map_iff. split.
    + intro L. exists (dx, dy). split; [reflexivity|]. apply IN. lia.
    + intros ([a b] & E & I). cbn in E. injection E as <- <-. apply IN in I. lia.
Qed.
(** C140: the percentiles of the transposed field are the percentiles transposed (the edges too: it does not matter which is padded first). *)
Theorem C140_transposed r h w g y x p v : (0 < r)%Z -> is_percentile (window h w r g y x) p v -> is_percentile (window w h r (fun y x => g x y) x y) p v.
Proof.
  intros R V. apply (percentile_qeq (map (fun o => pad_mean h w r g (y + snd o)%Z (x + fst o)%Z) (offsets r))).
  - unfold window. clear V. induction (offsets r) as [|o os IH]; [constructor|]. cbn [map]. constructor; [apply pad_transposed|exact IH].
  - assert (P : Permutation (window h w r g y x) (map (fun o => pad_mean h w r g (y + snd o)%Z (x + fst o)%Z) (offsets r))).
    { unfold window. rewrite (Permutation_map (fun o => pad_mean h w r g (y + fst o)%Z (x + snd o)%Z) (offsets_transposed r R)). rewrite map_map. reflexivity. }
    destruct V as (s & PS & V). exists s. split; [rewrite <- P; exact PS|]. rewrite <- (Permutation_length P). exact V.
Qed.

Lemma zsum_flip n c : forall a f, zsum a n (fun i => f (c - i)%Z) == zsum (c - a - Z.of_nat n + 1) n f.
Proof.
  induction n as [|n IH]; intros a f; [reflexivity|]. replace (zsum (c - a - Z.of_nat (S n) + 1) (S n) f) with (zsum (c - a - Z.of_nat (S n) + 1) (n + 1) f) by (rewrite Nat.add_1_r; reflexivity).
  rewrite zsum_split. cbn [zsum]. rewrite IH. replace (c - (a + 1) - Z.of_nat n + 1)%Z with (c - a - Z.of_nat (S n) + 1)%Z by lia. replace (c - a - Z.of_nat (S n) + 1 + Z.of_nat n)%Z with (c - a)%Z by lia. ring.
Qed.
Lemma line_flipped n r f i : (0 < n)%Z -> (0 < r)%Z -> pad_line n r (fun i => f (n - 1 - i)%Z) i == pad_line n r f (n - 1 - i).
Proof.
  intros N R. unfold pad_line, mean_from.
  destruct (Z.ltb_spec i 0), (Z.leb_spec n i), (Z.ltb_spec (n - 1 - i) 0), (Z.leb_spec n (n - 1 - i)); try lia; try reflexivity.
  - rewrite (zsum_flip _ (n - 1) 0 f). replace (n - 1 - 0 - Z.of_nat (Z.to_nat (Z.min r n)) + 1)%Z with (n - Z.min r n)%Z by lia. reflexivity.
  - rewrite (zsum_flip _ (n - 1) (n - Z.min r n) f). replace (n - 1 - (n - Z.min r n) - Z.of_nat (Z.to_nat (Z.min r n)) + 1)%Z with 0%Z by lia. reflexivity.
Qed.
Lemma offsets_flipped r : (0 < r)%Z -> Permutation (offsets r) (map (fun o => (fst o, - snd o)%Z) (offsets r)).
Proof.
  intro R. destruct (C140_circle r R) as [ND IN]. apply NoDup_Permutation; [exact ND| |].
  - apply FinFun.Injective_map_NoDup; [|exact ND]. intros [a b] [c d] E. cbn in E. injection E as -> E. f_equal. lia.
  - intros [dy dx]. rewrite IN, in_map_iff. split.
    + intro L. exists (dy, - dx)%Z. split; [cbn; f_equal; lia|]. apply IN. lia.
    + intros ([a b] & E & I). cbn in E. injection E as <- <-. apply IN in I. lia.
Qed.
(** C140: the percentiles of the field seen in a mirror are the percentiles seen in a mirror. *)
Theorem C140_mirrored r h w g y x p v : (0 < w)%Z -> (0 < r)%Z -> is_percentile (window h w r g y x) p v -> is_percentile (window h w r (fun y x => g y (w - 1 - x)%Z) y (w - 1 - x)) p v.
Proof.
  intros W R V. apply (percentile_qeq (map (fun o => pad_mean h w r g (y + fst o)%Z (x + - snd o)%Z) (offsets r))).
  - unfold window. clear V. induction (offsets r) as [|o os IH]; [constructor|]. cbn [map]. constructor; [|exact IH]. unfold pad_mean.
    rewrite (line_flipped w r (fun x0 => pad_line h r (fun y0 => g y0 x0) (y + fst o)) (w - 1 - x + snd o) W R). replace (w - 1 - (w - 1 - x + snd o))%Z with (x + - snd o)%Z by lia. reflexivity.
  - assert (P : Permutation (window h w r g y x) (map (fun o => pad_mean h w r g (y + fst o)%Z (x + - snd o)%Z) (offsets r))).
    { unfold window. rewrite (Permutation_map (fun o => pad_mean h w r g (y + fst o)%Z (x + snd o)%Z) (offsets_flipped r R)). rewrite map_map. reflexivity. }
    destruct V as (s & PS & V). exists s. split; [rewrite <- P; exact PS|]. rewrite <- (Permutation_length P). exact V.
Qed.

(** Percentiles not given in increasing order: the fields are put in order of their percentile before they are filled in the order given, so that they are labelled wrongly. *)
Definition slope : grid Q := fun y x => inject_Z x.
Definition at_point (r : result (list (list (Q * grid Q)))) (y x : Z) := match r with Ok l => map (map (fun e => (fst e, Qred (snd e y x)))) l | Err _ => [] end.
Definition five := [0; 1000; 2000; 3000; 4000].
Definition one := {| b_radius := Some 1000; b_radii := None; b_lead_times := None |}.
Theorem C140_order_refuted :
  at_point (nbhood_percentiles one [0; 50; 100] five five [0] 5 5 false [slope]) 2 2 = [[(0, 1); (50, 2); (100, 3)]] /\
  at_point (nbhood_percentiles one [100; 50; 0] five five [0] 5 5 false [slope]) 2 2 = [[(0, 3); (50, 2); (100, 1)]].
Proof. split; vm_compute; reflexivity. Qed.

(** Cases: within the grid and in a corner. *)
Example C140_case :
  at_point (nbhood_percentiles one [25; 60] five five [0] 5 5 false [slope]) 2 2 = [[(25, 2); (60, 2)]] /\
  at_point (nbhood_percentiles one [0; 10; 100] five five [0] 5 5 false [slope; slope]) 0 4 = [[(0, 3); (10, 17 # 5); (100, 4)]; [(0, 3); (10, 17 # 5); (100, 4)]] /\
  nbhood_percentiles one [50; 101] five five [0] 5 5 false [slope] = Err ValueError /\
  nbhood_percentiles one [50; 50] five five [0] 5 5 false [slope] = Err MergeError /\
  nbhood_percentiles one [] five five [0] 5 5 false [slope] = Err ValueError.
Proof. repeat split; vm_compute; reflexivity. Qed.

Print Assumptions C140_beyond.
Print Assumptions C140_circle.
Print Assumptions C140_accepted.
Print Assumptions C140_masked.
Print Assumptions C140_values.
Print Assumptions C140_bounded.
Print Assumptions C140_increasing.
Print Assumptions C140_inside.
Print Assumptions C140_units.
Print Assumptions C140_transposed.
Print Assumptions C140_mirrored.
Print Assumptions C140_order_refuted.
