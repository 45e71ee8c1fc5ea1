(** C73: estimation of EMOS coefficients. *)
From Coq Require Import Permutation.
From Verif Require Import Base Model_Percentiles Model_Integration Model_Bias Model_Dist Spec_Threshold Proofs_Threshold Proofs_Spot Props_Dist Model_Emos Spec_Emos Proofs_Emos Proofs_Temporal Props_Emos Model_EmosTrain Spec_EmosTrain.
Local Open Scope Q_scope.

(** ** Flattening *)
Definition positions (times n : nat) : list (nat * nat) := flat_map (fun t => map (fun i => (t, i)) (seq 0 n)) (seq 0 times).
Lemma positions_in times n t i : In (t, i) (positions times n) <-> (t < times)%nat /\ (i < n)%nat.
Proof.
  unfold positions. rewrite in_flat_map. split.
  - intros (x & Hx & Hi). apply in_map_iff in Hi as (y & E & Hy). injection E as <- <-. apply in_seq in Hx, Hy. lia.
  - intros [A B]. exists t. split; [apply in_seq; lia|]. apply in_map_iff. exists i. split; [reflexivity|apply in_seq; lia].
Qed.
Lemma nodup_app_intro {A} (l m : list A) : NoDup l -> NoDup m -> (forall x, In x l -> ~ In x m) -> NoDup (l ++ m).
Proof.
  intros Hl Hm D. induction Hl as [|x l Nx Hl IH]; [exact Hm|]. cbn. constructor.
  - intro C. apply in_app_iff in C as [C|C]; [auto|]. apply (D x); [now left|exact C].
  - apply IH. intros y Iy. apply D. now right.
Qed.
Lemma positions_nodup times n : NoDup (positions times n).
Proof.
  unfold positions. assert (G : forall k s, NoDup (flat_map (fun t => map (fun i => (t, i)) (seq 0 n)) (seq s k)) /\ forall t i, In (t, i) (flat_map (fun t => map (fun i => (t, i)) (seq 0 n)) (seq s k)) -> (s <= t)%nat).
  { induction k as [|k IH]; intro s; cbn [seq flat_map]; [split; [constructor|intros t i []]|]. destruct (IH (S s)) as [N L]. split.
    - apply nodup_app_intro; [|exact N|].
      + apply FinFun.Injective_map_NoDup; [intros x y E; congruence|apply seq_NoDup].
      + intros [t i] I1 I2. apply in_map_iff in I1 as (y & E & _). injection E as <- <-. apply L in I2. lia.
    - intros t i I0. apply in_app_iff in I0 as [I0|I0]; [apply in_map_iff in I0 as (y & E & _); injection E as <- <-; lia|]. apply L in I0. lia. }
  apply G.
Qed.
Definition unmasked_positions (times n : nat) (a : array) : list (nat * nat) := filter (fun ti => negb (is_masked (entry a ti))) (positions times n).
Lemma kept_filter (l : list dval) : kept l = map (fun i => number (nth i l Masked)) (filter (fun i => negb (is_masked (nth i l Masked))) (seq 0 (length l))).
Proof.
  unfold kept. induction l as [|v l IH]; [reflexivity|]. cbn [flat_map length seq]. rewrite <- seq_shift. cbn [filter nth].
  assert (E : forall f g : nat -> bool, (forall i, f (S i) = g i) -> filter f (map S (seq 0 (length l))) = map S (filter g (seq 0 (length l)))).
  { intros f g H. clear IH. generalize (seq 0 (length l)). intro m. induction m as [|x r IHr]; [reflexivity|]. cbn [map filter]. rewrite H. destruct (g x); cbn [map]; now rewrite IHr. }
  rewrite (E _ (fun i => negb (is_masked (nth i l Masked))) (fun i => eq_refl)). rewrite IH. destruct v; cbn [keep is_masked negb map app]; rewrite map_map; reflexivity.
Qed.
Lemma kept_positions times n a : shaped times n a -> flat_map kept a = map (fun ti => number (entry a ti)) (unmasked_positions times n a).
Proof.
  intros [L F]. subst times. unfold unmasked_positions, positions. induction a as [|r a IH]; [reflexivity|]. inversion F as [|? ? Hr F']; subst. cbn [flat_map length seq]. rewrite filter_app, map_app. f_equal.
  - rewrite kept_filter. clear. generalize (seq 0 (length r)). intro l. induction l as [|i l IH]; [reflexivity|]. cbn [filter map]. unfold entry at 1 2. cbn [fst snd nth]. destruct (negb (is_masked (nth i r Masked))); cbn [map]; now rewrite IH.
  - rewrite (IH F'). rewrite <- seq_shift. clear. generalize (seq 0 (length a)). intro l. induction l as [|t l IH]; [reflexivity|]. cbn [map flat_map]. rewrite !filter_app, !map_app. f_equal; [|exact IH].
    generalize (seq 0 (length r)). intro m. induction m as [|i m IHm]; [reflexivity|]. cbn [map filter]. change (entry (r :: a) (S t, i)) with (entry a (t, i)). destruct (negb (is_masked (entry a (t, i)))); cbn [map]; now rewrite IHm.
Qed.
Lemma is_masked_iff v : is_masked v = true <-> v = Masked. Proof. destruct v; cbn; split; congruence. Qed.
Lemma alike_positions times n a b : masked_alike times n a b -> unmasked_positions times n a = unmasked_positions times n b.
Proof.
  intro H. unfold unmasked_positions. apply filter_ext_in. intros [t i] I0. apply positions_in in I0 as [A B]. specialize (H t i A B). f_equal. destruct (is_masked (entry a (t, i))) eqn:E, (is_masked (entry b (t, i))) eqn:E'; try reflexivity.
  - apply is_masked_iff, H in E. apply is_masked_iff in E. congruence.
  - apply is_masked_iff, H in E'. apply is_masked_iff in E'. congruence.
Qed.
Lemma flatten_ok deep a r : flatten deep a = Ok r -> r = flat_map kept a.
Proof. unfold flatten. destruct a as [|s rest]; [intro H; apply Ok_inj in H; now subst|]. destruct (_ && _)%bool; [discriminate|]. intro H. apply Ok_inj in H. now subst. Qed.
Lemma static_entry times n f t i : (t < times)%nat -> (i < n)%nat -> length f = n -> entry (broadcast times (Static f)) (t, i) = unmasked (nth i f Masked).
Proof. intros A B L. cbn [broadcast]. unfold entry. cbn [fst snd]. rewrite (nth_repeat_any _ _ _ A). apply (nth_map_lt unmasked f i Masked Masked). lia. Qed.
Lemma static_shaped times f : shaped times (length f) (broadcast times (Static f)).
Proof. split; [apply repeat_length|]. cbn [broadcast]. apply Forall_forall. intros r Ir. apply repeat_spec in Ir. subst. apply map_length. Qed.
Lemma positions_length times n : length (positions times n) = (times * n)%nat.
Proof.
  unfold positions. generalize 0%nat at 2. induction times as [|k IH]; intro s; [reflexivity|]. cbn [seq flat_map]. rewrite app_length, map_length, seq_length, IH. reflexivity.
Qed.
Lemma static_positions times f : unmasked_positions times (length f) (broadcast times (Static f)) = positions times (length f).
Proof.
  unfold unmasked_positions. apply filter_all. intros [t i] I0. apply positions_in in I0 as [A B]. rewrite (static_entry times (length f)) by auto. destruct (nth i f Masked); reflexivity.
Qed.
Lemma filter_full {A} (f : A -> bool) l : length (filter f l) = length l -> filter f l = l.
Proof.
  induction l as [|x l IH]; [reflexivity|]. cbn [filter]. destruct (f x); cbn [length]; intro H; [f_equal; apply IH; lia|]. exfalso. assert (L := filter_len_le f l). lia.
Qed.
Lemma prepare_inv deep times ps rows : prepare_mean deep times ps = Ok rows -> rows = map (fun p => flat_map kept (broadcast times p)) ps /\ all_lengths rows = true.
Proof.
  unfold prepare_mean. destruct (mapM _ ps) as [r|] eqn:M; [|discriminate]. cbn [bind]. destruct (all_lengths r) eqn:A; [|discriminate]. intro H. apply Ok_inj in H. subst r. split; [|exact A].
  apply nth_ext with (d := []) (d' := []); [rewrite map_length; now apply mapM_len in M|]. intros k Hk. assert (Lk := mapM_len _ _ _ M). rewrite Lk in Hk. assert (E := mapM_nth _ _ _ k (Static []) [] M Hk). apply flatten_ok in E. rewrite E. symmetry. apply (nth_map_lt (fun p => flat_map kept (broadcast times p)) ps k (Static []) [] Hk).
Qed.
Lemma number_unmasked v : number (unmasked v) = number v. Proof. destruct v; reflexivity. Qed.

(** ** C73 *)
(** C73: means as predictors, masked alike: the minimiser gets truths, variances and predictors that belong together, each pair once. *)
Theorem C73_pairs deep deep' times n means additional truths variance p : shaped times n means -> shaped times n truths -> shaped times n variance -> Forall (fun f => length f = n) additional ->
  masked_alike times n truths means -> masked_alike times n truths variance -> together_problem false deep deep' times (Timed means :: map Static additional) truths variance = Ok p ->
  paired times n (Timed means :: map Static additional) truths variance p.
Proof.
  intros Sm St Sv Fa Am Av H. unfold together_problem in H. destruct (flatten deep truths) as [t|] eqn:Ft; [|discriminate]. cbn [bind] in H. destruct (flatten deep variance) as [s2|] eqn:Fv; [|discriminate]. cbn [bind] in H.
  destruct (prepare_mean deep times _) as [rows|] eqn:P; [|discriminate]. cbn [bind] in H. apply Ok_inj in H. subst p. apply flatten_ok in Ft, Fv. subst t s2. apply prepare_inv in P as [-> Al].
  exists (unmasked_positions times n truths). split; [apply NoDup_filter, positions_nodup|]. split.
  { intros t i. unfold unmasked_positions. rewrite filter_In, positions_in. destruct (is_masked (entry truths (t, i))) eqn:E; cbn [negb]; split; intro X; try tauto.
    - destruct X as [_ X]. discriminate.
    - destruct X as (_ & _ & X). apply is_masked_iff in E. contradiction.
    - destruct X as [[A B] _]. split; [exact A|]. split; [exact B|]. intro C. apply is_masked_iff in C. congruence. }
  cbn [pr_truth pr_variance pr_predictors]. split; [now apply kept_positions|]. split; [rewrite (alike_positions _ _ _ _ Av); now apply kept_positions|].
  assert (Em : flat_map kept means = map (fun ti => number (entry means ti)) (unmasked_positions times n truths)) by (rewrite (alike_positions _ _ _ _ Am); now apply kept_positions).
  cbn [map]. f_equal; [exact Em|]. rewrite !map_map. apply map_ext_in. intros f If. rewrite Forall_forall in Fa. assert (Lf := Fa f If).
  assert (K := kept_positions times (length f) _ (static_shaped times f)). rewrite static_positions, Lf in K. rewrite K.
  assert (Full : unmasked_positions times n truths = positions times n).
  { apply filter_full. assert (L1 : length (map (fun ti => number (entry (broadcast times (Static f)) ti)) (positions times n)) = length (flat_map kept (broadcast times (Timed means)))).
    - rewrite <- K. unfold all_lengths in Al. cbn [map] in Al. rewrite forallb_forall in Al. apply Nat.eqb_eq, Al. rewrite map_map. apply (in_map (fun f => flat_map kept (broadcast times (Static f))) additional f If).
    - cbn [broadcast] in L1. rewrite Em, !map_length in L1. fold (unmasked_positions times n truths). lia. }
  rewrite Full. apply map_ext_in. intros [t i] I0. apply positions_in in I0 as [A B]. rewrite (static_entry times n) by auto. cbn [entry_of snd]. apply number_unmasked.
Qed.
(** C73: after masking with a land-sea mask, values that are missing at a single time make gridded data unusable; at sites (two dimensions) truth and forecast with as many, but other, missing values are silently paired with each other. *)
Theorem C73_pairs_refuted : exists truths means variance p, shaped 2 2 truths /\ shaped 2 2 means /\ shaped 2 2 variance /\
  together_problem false false true 2 [Timed means] truths variance = Ok p /\ together_problem false true true 2 [Timed means] truths variance = Err ValueError /\
  ~ exists pos, pr_truth p = map (fun ti => number (entry truths ti)) pos /\ pr_predictors p = [map (fun ti => number (entry means ti)) pos].
Proof.
  exists [[Masked; Num 1]; [Num 2; Num 3]], [[Num 10; Num 11]; [Num 12; Masked]], [[Num 1; Num 1]; [Num 1; Masked]], {| pr_predictors := [[Some 10; Some 11; Some 12]]; pr_truth := [Some 1; Some 2; Some 3]; pr_variance := [Some 1; Some 1; Some 1] |}.
  split; [repeat constructor|]. split; [repeat constructor|]. split; [repeat constructor|]. split; [reflexivity|]. split; [reflexivity|]. cbn [pr_truth pr_predictors]. intros (pos & A & B). destruct pos as [|ti pos]; [discriminate|]. cbn [map] in A, B. injection A as A _. injection B as B _.
  destruct ti as [t i]. unfold entry in *. cbn [fst snd] in *. destruct t as [|[|t]]; destruct i as [|[|i]]; cbn in *; try discriminate; try (destruct i; discriminate); try (destruct t; discriminate); try (destruct t; destruct i; discriminate).
Qed.
Lemma mask_row_agree land r s : length r = length land -> length s = length land -> (forall i, nth i land false = true -> nth i r Masked = nth i s Masked) -> mask_row land r = mask_row land s.
Proof.
  revert r s. induction land as [|b land IH]; intros [|x r] [|y s] Lr Ls H; cbn in Lr, Ls; try lia; try reflexivity. unfold mask_row. cbn [combine map fst snd]. f_equal.
  - destruct b; [|reflexivity]. specialize (H 0%nat eq_refl). cbn in H. now subst.
  - apply IH; [lia|lia|]. intros i Hi. apply (H (S i)). exact Hi.
Qed.
Lemma mask_array_agree land a b : agree_on land a b -> mask_array land a = mask_array land b.
Proof.
  intro H. unfold mask_array. assert (E : forallb (fun r => length r =? length land)%nat a = forallb (fun r => length r =? length land)%nat b).
  { induction H as [|r s a b [L _] H IH]; [reflexivity|]. cbn [forallb]. now rewrite L, IH. }
  rewrite <- E. destruct (forallb (fun r => (length r =? length land)%nat) a) eqn:F; [|reflexivity]. f_equal. rewrite forallb_forall in F. assert (F' : forall r, In r b -> (length r =? length land)%nat = true) by (apply forallb_forall; congruence). clear E.
  induction H as [|r s a b [L V] H IH]; [reflexivity|]. cbn [map]. f_equal.
  - apply mask_row_agree; [apply Nat.eqb_eq, F; now left|apply Nat.eqb_eq, F'; now left|exact V].
  - apply IH; intros x Ix; [apply F|apply F']; now right.
Qed.
(** C73: with a land-sea mask the values at sea have no influence on the coefficients. *)
Theorem C73_sea crps root ols minimise use_default deep land names times means means' variances variances' truths truths' additional additional' :
  agree_on land means means' -> agree_on land variances variances' -> agree_on land truths truths' -> agree_on land additional additional' ->
  estimate_mean crps root ols minimise use_default deep (Some land) names times means variances truths additional = estimate_mean crps root ols minimise use_default deep (Some land) names times means' variances' truths' additional'.
Proof.
  intros Hm Hv Ht Ha. unfold estimate_mean. rewrite (mask_array_agree _ _ _ Hv), (mask_array_agree _ _ _ Ht).
  assert (E : mapM (mask_predictor land) (Timed means :: map Static additional) = mapM (mask_predictor land) (Timed means' :: map Static additional')); [|now rewrite E].
  cbn [mapM mask_predictor]. rewrite (mask_array_agree _ _ _ Hm). destruct (mask_array land means') as [mm|]; [|reflexivity]. cbn [bind].
  assert (E : mapM (mask_predictor land) (map Static additional) = mapM (mask_predictor land) (map Static additional')); [|now rewrite E].
  induction Ha as [|r s a b V Ha IH]; [reflexivity|]. cbn [map mapM mask_predictor]. rewrite (mask_array_agree land [r] [s]); [|now constructor; [|constructor]]. now rewrite IH.
Qed.
Lemma kept_len l : (length (kept l) <= length l)%nat.
Proof. unfold kept. induction l as [|v l IH]; [cbn; lia|]. cbn [flat_map length]. rewrite app_length. destruct v; cbn [keep length]; lia. Qed.
Lemma kept_len_masked l : In Masked l -> (length (kept l) < length l)%nat.
Proof.
  unfold kept. induction l as [|v l IH]; intros I0; [destruct I0|]. cbn [flat_map length]. rewrite app_length. assert (L := kept_len l). unfold kept in L. destruct I0 as [->|I0]; [cbn [keep length]; lia|]. specialize (IH I0). destruct v; cbn [keep length]; lia.
Qed.
Lemma mask_row_sea land r i : length r = length land -> nth_error land i = Some false -> In Masked (mask_row land r).
Proof.
  revert r i. induction land as [|b land IH]; intros [|x r] [|i] L H; cbn in L, H; try lia; try discriminate.
  - injection H as ->. left. reflexivity.
  - right. apply (IH r i); [lia|exact H].
Qed.
Lemma mask_array_inv land a b : mask_array land a = Ok b -> b = map (mask_row land) a /\ Forall (fun r => length r = length land) a.
Proof.
  unfold mask_array. destruct (forallb _ a) eqn:F; [|discriminate]. intro H. apply Ok_inj in H. subst b. split; [reflexivity|]. rewrite forallb_forall in F. apply Forall_forall. intros r Ir. now apply Nat.eqb_eq, F.
Qed.
Lemma mask_row_len land r : length r = length land -> length (mask_row land r) = length land.
Proof. intro L. unfold mask_row. rewrite map_length, combine_length. lia. Qed.
(** C73: a land-sea mask with a sea point and additional fields together always fail: the mask of the additional fields is lost when they are repeated for every time. *)
Theorem C73_mask_additional_refuted crps root ols minimise use_default deep land names times means variances truths f additional i : nth_error land i = Some false -> length means = times -> (0 < times)%nat ->
  exists e, estimate_mean crps root ols minimise use_default deep (Some land) names times means variances truths (f :: additional) = Err e.
Proof.
  intros Hi Lm Ht. destruct (estimate_mean _ _ _ _ _ _ _ _ _ _ _ _ _) as [c|e] eqn:E; [|eauto]. exfalso. unfold estimate_mean in E. cbn [map mapM mask_predictor] in E.
  destruct (mask_array land means) as [mm|] eqn:Mm; [|discriminate]. cbn [bind] in E. destruct (mask_array land [f]) as [mf|] eqn:Mf; [|discriminate]. cbn [bind] in E. destruct (mapM (mask_predictor land) (map Static additional)) as [rest|]; [|discriminate]. cbn [bind] in E.
  destruct (mask_array land variances) as [s2|]; [|discriminate]. cbn [bind] in E. destruct (mask_array land truths) as [t|]; [|discriminate]. cbn [bind] in E. cbv zeta in E. destruct (initial_guess _ _ _ _ _ _ _ _ _) as [g|]; [|discriminate]. cbn [bind] in E.
  destruct (together_problem _ _ _ _ _ _ _) as [p|] eqn:P; [|discriminate]. unfold together_problem in P. destruct (flatten deep t); [|discriminate]. cbn [bind] in P. destruct (flatten deep s2); [|discriminate]. cbn [bind] in P. destruct (prepare_mean _ _ _) as [rows|] eqn:R; [|discriminate].
  apply prepare_inv in R as [-> Al]. cbn [map all_lengths forallb broadcast] in Al. apply Bool.andb_true_iff in Al as [Al _]. apply Nat.eqb_eq in Al. apply mask_array_inv in Mm as [-> Fm]. apply mask_array_inv in Mf as [-> Ff]. inversion Ff as [|? ? Lf _]; subst. cbn [map hd] in Al.
  assert (A1 : length (flat_map kept (repeat (map unmasked (mask_row land f)) (length means))) = (length means * length land)%nat).
  { assert (Ek : length (kept (map unmasked (mask_row land f))) = length land) by (rewrite <- (mask_row_len land f Lf); generalize (mask_row land f) as l; intro l; unfold kept; induction l as [|v l IH]; [reflexivity|]; cbn [map flat_map length]; rewrite app_length, IH; destruct v; reflexivity).
    generalize (length means) as k. induction k as [|k IH]; [reflexivity|]. cbn [repeat flat_map]. rewrite app_length, Ek, IH. reflexivity. }
  assert (A2 : (length (flat_map kept (map (mask_row land) means)) < length means * length land)%nat); [|lia].
  assert (Hl : forall r, length r = length land -> (length (kept (mask_row land r)) < length land)%nat) by (intros r Lr; assert (K := kept_len_masked _ (mask_row_sea land r i Lr Hi)); rewrite (mask_row_len land r Lr) in K; exact K).
  clear - Fm Ht Hl. induction means as [|r means IH]; [cbn in Ht; lia|]. inversion Fm as [|? ? Lr Fm']; subst. cbn [map flat_map length]. rewrite app_length. specialize (Hl r Lr) as Hr. destruct means as [|r' means]; [cbn in *; lia|]. specialize (IH ltac:(cbn; lia) Fm'). cbn [length Nat.mul] in *. lia.
Qed.

(** ** One vector of coefficients *)
Lemma split_spec a bs g d : split_vector (a :: bs ++ [g; d]) = (a, bs, g, d).
Proof.
  unfold split_vector. assert (L : length (a :: bs ++ [g; d]) = S (S (S (length bs)))) by (cbn [length]; rewrite app_length; cbn; lia). rewrite L. cbn [Nat.sub nth]. cbn [skipn]. rewrite Nat.sub_0_r.
  assert (E1 : firstn (length bs) (bs ++ [g; d]) = bs) by (rewrite firstn_app, Nat.sub_diag, firstn_all; cbn; apply app_nil_r).
  assert (E2 : nth (length bs) (bs ++ [g; d]) 0 = g) by (rewrite app_nth2, Nat.sub_diag by lia; reflexivity).
  assert (E3 : nth (S (length bs)) (bs ++ [g; d]) 0 = d) by (rewrite app_nth2 by lia; replace (S (length bs) - length bs)%nat with 1%nat by lia; reflexivity).
  rewrite ?Nat.sub_0_r. rewrite E1, E2. cbn [nth]. rewrite ?E3. reflexivity.
Qed.
Lemma vector_shape (v : list Q) : (3 <= length v)%nat -> exists a bs g d, v = a :: bs ++ [g; d] /\ (length bs + 3 = length v)%nat.
Proof.
  intro L. destruct v as [|a v]; [cbn in L; lia|]. destruct (exists_last (l := v)) as (v1 & d & ->); [destruct v; cbn in L; [lia|discriminate]|]. destruct (exists_last (l := v1)) as (v2 & g & ->); [destruct v1; cbn in L; [lia|discriminate]|].
  exists a, v2, g, d. rewrite <- app_assoc. split; [reflexivity|]. cbn [length]. rewrite app_length. cbn. lia.
Qed.
Lemma osum_combine bs xs : length bs = length xs -> exists s, osum (map (fun p : Q * option Q => oscale (fst p) (snd p)) (combine bs (map Some xs))) = Some s /\ s == weighted bs xs.
Proof.
  unfold weighted. revert xs. induction bs as [|b bs IH]; intros [|x xs] L; cbn in L; try lia; [exists 0; split; reflexivity|]. destruct (IH xs ltac:(lia)) as (s & E & S0). cbn [map combine osum fst snd]. rewrite E. cbn [oscale option_map oadd]. eexists. split; [reflexivity|]. cbn [qsum]. rewrite S0. reflexivity.
Qed.
Lemma vector_location_spec realizations a bs g d xs : length bs = length xs -> exists m, vector_location realizations (a :: bs ++ [g; d]) (map Some xs) = Some m /\ m == a + weighted (map (fun b => if realizations then b * b else b) bs) xs.
Proof.
  intro L. unfold vector_location. rewrite split_spec. cbn [combine map osum fst snd oscale option_map]. destruct (osum_combine (map (fun b => if realizations then b * b else b) bs) xs ltac:(rewrite map_length; exact L)) as (s & -> & E). cbn [oadd]. eexists. split; [reflexivity|]. rewrite E. ring.
Qed.
Lemma weighted_const c k xs : length xs = k -> weighted (repeat c k) xs == c * qsum xs.
Proof. unfold weighted. revert k. induction xs as [|x xs IH]; intros [|k] L; cbn in L; try lia; cbn [repeat combine map qsum fst snd]; [ring|]. rewrite (IH k) by lia. ring. Qed.
(** C73: the default first guess for the mean: the location is the average of the predictors (for the ensemble mean alone: the ensemble mean), the scale the ensemble standard deviation. *)
Theorem C73_default_mean root members xs s2 v : xs <> [] -> v = default_guess false root (length xs) members ->
  exists m s, vector_location false v (map Some xs) = Some m /\ is_mean xs m /\ vector_scale root v (Some s2) = Some (root s) /\ s == s2.
Proof.
  intros N ->. unfold default_guess. destruct (vector_location_spec false 0 (repeat (1 / Qn (length xs)) (length xs)) 0 1 xs) as (m & E & M); [apply repeat_length|]. exists m, (0 * 0 + 1 * 1 * s2). split; [exact E|]. split.
  - split; [exact N|]. rewrite M, map_id, weighted_const by reflexivity. change (Qn (length xs)) with (Qlen xs). assert (P := Qlen_pos xs N). field. lra.
  - unfold vector_scale. rewrite split_spec. split; [reflexivity|ring].
Qed.
(** C73: the default first guess for realizations: the ensemble mean and standard deviation. *)
Theorem C73_default_members root predictors xs s2 v : xs <> [] -> v = default_guess true root predictors (length xs) -> root (1 / Qlen xs) * root (1 / Qlen xs) == 1 / Qlen xs ->
  exists m s, vector_location true v (map Some xs) = Some m /\ is_mean xs m /\ vector_scale root v (Some s2) = Some (root s) /\ s == s2.
Proof.
  intros N -> R. unfold default_guess. destruct (vector_location_spec true 0 (repeat (root (1 / Qn (length xs))) (length xs)) 0 1 xs) as (m & E & M); [apply repeat_length|]. exists m, (0 * 0 + 1 * 1 * s2). split; [exact E|]. split.
  - split; [exact N|]. rewrite M. assert (Em : map (fun b => b * b) (repeat (root (1 / Qn (length xs))) (length xs)) = repeat (root (1 / Qlen xs) * root (1 / Qlen xs)) (length xs)) by (change (Qn (length xs)) with (Qlen xs); generalize (length xs); intro k; induction k as [|k IH]; cbn [repeat map]; congruence). rewrite Em, weighted_const, R by reflexivity. assert (P := Qlen_pos xs N). field. lra.
  - unfold vector_scale. rewrite split_spec. split; [reflexivity|ring].
Qed.
(** C73: the first guess from a regression: for means, the regression line. *)
Theorem C73_regression_mean ols rows truth xs : length (snd (ols rows truth)) = length xs -> exists m, vector_location false (regression_guess ols rows truth) (map Some xs) = Some m /\ m == fst (ols rows truth) + weighted (snd (ols rows truth)) xs.
Proof. unfold regression_guess. destruct (ols rows truth) as [i g]. cbn [fst snd]. intro L. destruct (vector_location_spec false i g 0 1 xs L) as (m & E & M). exists m. split; [exact E|]. now rewrite map_id in M. Qed.
(** C73: ... but not for realizations, whose gradients are used as the coefficients that are squared: with members x and truths 2 x the regression gives gradient 2 and the first guess starts from 4 x. *)
Theorem C73_regression_members_refuted : exists ols rows truth x m, ols rows truth = (0, [2]) /\ rows = [[Some 1; Some 2; Some 3]] /\ truth = [Some 2; Some 4; Some 6] /\ vector_location true (regression_guess ols rows truth) [Some x] = Some m /\ ~ m == fst (ols rows truth) + weighted (snd (ols rows truth)) [x].
Proof.
  exists (fun _ _ => (0, [2])), [[Some 1; Some 2; Some 3]], [Some 2; Some 4; Some 6], 1, (0 * 1 + (2 * 2 * 1 + 0)). split; [reflexivity|]. split; [reflexivity|]. split; [reflexivity|]. split; [reflexivity|]. unfold weighted. cbn. intro C. discriminate.
Qed.
(** ** The distribution whose score is minimised is that of ApplyEMOS *)
Lemma lookup_combine names cs k name c : NoDup names -> length names = length cs -> nth_error names k = Some name -> nth_error cs k = Some c -> lookup1 (combine names cs) name = Some c.
Proof.
  intros N L Hn Hc. unfold lookup1. assert (E : filter (fun b : string * coeff => String.eqb (fst b) name) (combine names cs) = [(name, c)]); [|now rewrite E].
  revert cs k L Hn Hc. induction N as [|x names Nx N IH]; intros [|y cs] k L Hn Hc; cbn in L; try lia; [destruct k; discriminate|]. cbn [combine filter fst]. destruct k as [|k]; cbn in Hn, Hc.
  - injection Hn as ->. injection Hc as ->. rewrite String.eqb_refl. f_equal. clear - Nx. revert cs. induction names as [|z names IH]; intros [|w cs]; try reflexivity. cbn [combine filter fst]. destruct (String.eqb_spec z name) as [->|]; [exfalso; apply Nx; now left|]. apply IH. intro C. apply Nx. now right.
  - destruct (String.eqb_spec x name) as [->|]; [exfalso; apply Nx; eapply nth_error_In; eauto|]. eapply IH; eauto.
Qed.
Lemma terms_combine (i : nat) names (cs : list coeff) (fields : list row) : NoDup names -> length names = length cs -> length names = length fields ->
  map (term (combine names cs) i) (combine names fields) = map (fun p : Q * option Q => oscale (fst p) (snd p)) (combine (map (fun c => coeff_at c i) cs) (map (fun f => field_at f i) fields)).
Proof.
  intros N L L'. apply nth_ext with (d := None) (d' := None); [rewrite !map_length, !combine_length, !map_length; lia|]. intros k Hk. rewrite map_length, combine_length in Hk.
  rewrite (nth_map_combine _ names fields k ""%string [] None) by lia. rewrite (nth_map_combine _ (map (fun c => coeff_at c i) cs) (map (fun f => field_at f i) fields) k 0 None None) by (rewrite ?map_length; lia). unfold term. cbn [fst snd].
  rewrite (lookup_combine names cs k (nth k names ""%string) (nth k cs (Whole 0)) N L) by (apply nth_error_nth'; lia).
  rewrite (nth_map_lt (fun c => coeff_at c i) cs k (Whole 0) 0) by lia. rewrite (nth_map_lt (fun f => field_at f i) fields k [] None) by lia. reflexivity.
Qed.
Lemma split_map_combine {A B} (l : list (A * B)) : combine (map fst l) (map snd l) = l.
Proof. induction l as [|[a b] l IH]; cbn; congruence. Qed.
Lemma field_at_nth n f i : length f = n -> (i < n)%nat -> field_at f i = nth i f None.
Proof. intros L H. unfold field_at. destruct f as [|x [|y r]]; try reflexivity. cbn in L. assert (i = 0%nat) by lia. now subst. Qed.
Lemma location_general n name rows additional alpha cs a bs g d i : NoDup (name :: map fst additional) -> Forall (fun f => length (snd f) = n) additional -> (i < n)%nat ->
  length cs = S (length additional) -> Forall (fun c => fits n c = true) cs -> fits n alpha = true -> map (fun c => coeff_at c i) cs = bs -> coeff_at alpha i = a ->
  exists loc, location_from_mean n name rows additional alpha (combine (name :: map fst additional) cs) = Ok loc /\
    oeq (ovalue loc i) (vector_location false (a :: bs ++ [g; d]) (omean (at_point rows i) :: map (fun f => nth i (snd f) None) additional)).
Proof.
  intros N Fa Hi Lc Fc Fal Ebs Ea. set (names := name :: map fst additional) in *. set (betas := combine names cs). set (fps := (name, map (fun i => omean (at_point rows i)) (seq 0 n)) :: additional).
  assert (Ln : length names = length cs) by (unfold names; cbn; rewrite map_length; lia).
  assert (Efps : fps = combine names (map snd fps)) by (rewrite <- (split_map_combine fps) at 1; reflexivity).
  assert (U : Forall (usable_fp n betas) fps).
  { apply Forall_forall. intros fp If. destruct (In_nth _ _ (""%string, []) If) as (k & Hk & E). exists (nth k cs (Whole 0)). unfold fps in Hk. cbn [length] in Hk. rewrite Forall_forall in Fc. split; [|split].
    - apply (lookup_combine names cs k _ _ N Ln); [|apply nth_error_nth'; lia]. subst fp. change names with (map fst fps). rewrite nth_error_map. rewrite (nth_error_nth' _ (""%string, [])) by (unfold fps; cbn [length]; lia). reflexivity.
    - apply Fc, nth_In. lia.
    - unfold field_fits. destruct If as [<-|If]; cbn [snd]; [rewrite map_length, seq_length, Nat.eqb_refl; reflexivity|]. rewrite Forall_forall in Fa. rewrite (Fa fp If), Nat.eqb_refl. reflexivity. }
  assert (Ok1 : exists loc, location_from_mean n name rows additional alpha betas = Ok loc).
  { unfold location_from_mean. fold fps. assert (Lb : length fps = length betas) by (unfold fps, betas; cbn [length]; rewrite combine_length; lia). rewrite Lb, Nat.eqb_refl. cbn [negb]. destruct (proj1 (add_spec n betas fps (repeat (Some 0) n) (repeat_length _ _)) U) as (acc & ->). cbn [bind]. rewrite Fal. eauto. }
  destruct Ok1 as [loc Hl]. exists loc. split; [exact Hl|]. destruct (location_mean_inv _ _ _ _ _ _ _ Hl) as (_ & _ & _ & _ & V). fold fps in V. eapply oeq_trans; [apply V; exact Hi|]. rewrite Ea. unfold vector_location. rewrite split_spec.
  cbn [combine map osum fst snd oscale option_map]. rewrite map_id. rewrite Efps. unfold betas. rewrite terms_combine; [|exact N|exact Ln|rewrite map_length; unfold fps, names; cbn; rewrite map_length; reflexivity]. rewrite Ebs.
  assert (Ex : map (fun f => field_at f i) (map snd fps) = omean (at_point rows i) :: map (fun f => nth i (snd f) None) additional).
  { rewrite map_map. unfold fps. cbn [map snd]. f_equal; [rewrite field_at_map by exact Hi; reflexivity|]. apply map_ext_in. intros f If. apply (field_at_nth n); [|exact Hi]. rewrite Forall_forall in Fa. now apply Fa. }
  rewrite Ex. destruct (osum _); cbn; auto. ring.
Qed.
(** C73: mean as predictor, one set of coefficients: applying the coefficients made from a vector gives the location and scale that were scored for this vector, for every forecast. *)
Theorem C73_scored_mean root n name rows additional v alpha b gamma delta i : NoDup (name :: map fst additional) -> Forall (fun f => length (snd f) = n) additional -> (i < n)%nat ->
  length v = (length additional + 4)%nat -> whole_coefficients false (name :: map fst additional) 0 v = Ok (alpha, MeanBetas b, gamma, delta) ->
  exists loc sc, location_from_mean n name rows additional alpha b = Ok loc /\ scale_parameter root n rows gamma delta = Ok sc /\
    oeq (ovalue loc i) (vector_location false v (omean (at_point rows i) :: map (fun f => nth i (snd f) None) additional)) /\ ovalue sc i = vector_scale root v (ovariance (at_point rows i)).
Proof.
  intros N Fa Hi Lv H. destruct (vector_shape v ltac:(lia)) as (a & bs & g & d & -> & Lb). unfold whole_coefficients in H. rewrite split_spec in H. destruct (negb false && _ && _)%bool; [discriminate|]. destruct (negb (length bs =? _)%nat) eqn:E; [discriminate|]. apply Ok_inj in H.
  assert (alpha = Whole a) by congruence. assert (b = combine (name :: map fst additional) (map Whole bs)) by congruence. assert (gamma = Whole g) by congruence. assert (delta = Whole d) by congruence. subst.
  destruct (location_general n name rows additional (Whole a) (map Whole bs) a bs g d i N Fa Hi) as (loc & L & V); [rewrite map_length; lia|apply Forall_map, Forall_forall; reflexivity|reflexivity|rewrite map_map; apply map_id|reflexivity|].
  exists loc. unfold scale_parameter. cbn [fits andb]. eexists. split; [exact L|]. split; [reflexivity|]. split; [exact V|]. unfold ovalue. rewrite nth_map_seq by exact Hi. unfold vector_scale. rewrite split_spec. reflexivity.
Qed.
(** C73: the same for coefficients per site: the vector of a site is applied at this site. *)
Theorem C73_scored_sites root n name rows additional m alpha b gamma delta i : NoDup (name :: map fst additional) -> Forall (fun f => length (snd f) = n) additional -> (i < n)%nat ->
  length m = (length additional + 4)%nat -> Forall (fun r => length r = n) m -> site_coefficients false (name :: map fst additional) 0 m = Ok (alpha, MeanBetas b, gamma, delta) ->
  exists loc sc, location_from_mean n name rows additional alpha b = Ok loc /\ scale_parameter root n rows gamma delta = Ok sc /\
    let v := map (fun r => nth i r 0) m in
    oeq (ovalue loc i) (vector_location false v (omean (at_point rows i) :: map (fun f => nth i (snd f) None) additional)) /\ ovalue sc i = vector_scale root v (ovariance (at_point rows i)).
Proof.
  intros N Fa Hi Lm Fm H. assert (X : exists ra rbs rg rd, m = ra :: rbs ++ [rg; rd]).
  { destruct m as [|ra m]; [cbn in Lm; lia|]. destruct (exists_last (l := m)) as (m1 & rd & ->); [destruct m; cbn in Lm; [lia|discriminate]|]. destruct (exists_last (l := m1)) as (m2 & rg & ->); [destruct m1; cbn in Lm; [lia|discriminate]|]. exists ra, m2, rg, rd. now rewrite <- app_assoc. }
  destruct X as (ra & rbs & rg & rd & ->). assert (Lb : length rbs = S (length additional)) by (cbn [length] in Lm; rewrite app_length in Lm; cbn in Lm; lia).
  assert (S1 : firstn (length (ra :: rbs ++ [rg; rd]) - 3) (skipn 1 (ra :: rbs ++ [rg; rd])) = rbs).
  { cbn [length skipn]. rewrite app_length. cbn [length]. replace (S (length rbs + 2) - 3)%nat with (length rbs) by lia. rewrite firstn_app, Nat.sub_diag, firstn_all. cbn. apply app_nil_r. }
  assert (S2 : nth (length (ra :: rbs ++ [rg; rd]) - 2) (ra :: rbs ++ [rg; rd]) [] = rg).
  { cbn [length]. rewrite app_length. cbn [length]. replace (S (length rbs + 2) - 2)%nat with (S (length rbs)) by lia. cbn [nth]. rewrite app_nth2, Nat.sub_diag by lia. reflexivity. }
  assert (S3 : nth (length (ra :: rbs ++ [rg; rd]) - 1) (ra :: rbs ++ [rg; rd]) [] = rd).
  { cbn [length]. rewrite app_length. cbn [length]. replace (S (length rbs + 2) - 1)%nat with (S (S (length rbs))) by lia. cbn [nth]. rewrite app_nth2 by lia. replace (S (length rbs) - length rbs)%nat with 1%nat by lia. reflexivity. }
  unfold site_coefficients in H. cbv zeta in H. rewrite S1, S2, S3 in H. destruct (negb false && _ && _)%bool; [discriminate|]. destruct (negb (length rbs =? _)%nat) eqn:E; [discriminate|]. apply Ok_inj in H. cbn [nth] in H.
  assert (alpha = Each ra) by congruence. assert (b = combine (name :: map fst additional) (map Each rbs)) by congruence. assert (gamma = Each rg) by congruence. assert (delta = Each rd) by congruence. subst alpha b gamma delta.
  rewrite Forall_forall in Fm. assert (At : forall r, In r (ra :: rbs ++ [rg; rd]) -> fits n (Each r) = true /\ coeff_at (Each r) i = nth i r 0).
  { intros r Ir. assert (Lr := Fm r Ir). split; [cbn [fits]; rewrite Lr, Nat.eqb_refl; reflexivity|]. unfold coeff_at. destruct r as [|q [|q' r]]; try reflexivity. cbn in Lr. assert (i = 0%nat) by lia. now subst. }
  assert (Ib : forall r, In r rbs -> In r (ra :: rbs ++ [rg; rd])) by (intros r Ir; right; apply in_app_iff; now left). assert (Ig : In rg (ra :: rbs ++ [rg; rd])) by (right; apply in_app_iff; right; now left). assert (Id : In rd (ra :: rbs ++ [rg; rd])) by (right; apply in_app_iff; right; right; now left). assert (Ia : In ra (ra :: rbs ++ [rg; rd])) by now left.
  destruct (location_general n name rows additional (Each ra) (map Each rbs) (nth i ra 0) (map (fun r => nth i r 0) rbs) (nth i rg 0) (nth i rd 0) i N Fa Hi) as (loc & L & V).
  - rewrite map_length. exact Lb.
  - apply Forall_map, Forall_forall. intros r Ir. now apply At, Ib.
  - now apply At.
  - rewrite map_map. apply map_ext_in. intros r Ir. now apply At, Ib.
  - now apply At.
  - exists loc. unfold scale_parameter. rewrite (proj1 (At rg Ig)), (proj1 (At rd Id)). cbn [andb]. eexists. split; [exact L|]. split; [reflexivity|]. cbv zeta. cbn [map]. rewrite map_app. cbn [map]. split; [exact V|]. unfold ovalue. rewrite nth_map_seq by exact Hi. unfold vector_scale. rewrite split_spec. rewrite (proj2 (At rg Ig)), (proj2 (At rd Id)). reflexivity.
Qed.
(** C73: realizations as predictor. *)
Theorem C73_scored_members root n rows v alpha b gamma delta loc i l : whole_coefficients true [] (length rows) v = Ok (alpha, MemberBetas b, gamma, delta) -> length v = (length rows + 3)%nat -> (i < n)%nat -> members rows i l ->
  location_from_realizations n rows alpha b = Ok loc ->
  (exists x m, ovalue loc i = Some x /\ vector_location true v (map Some l) = Some m /\ x == m) /\ exists sc, scale_parameter root n rows gamma delta = Ok sc /\ ovalue sc i = vector_scale root v (ovariance (at_point rows i)).
Proof.
  intros H Lv Hi Hm Hl. destruct (vector_shape v ltac:(lia)) as (a & bs & g & d & -> & Lb). unfold whole_coefficients in H. rewrite split_spec in H. cbn [negb andb] in H. destruct (negb (length bs =? _)%nat) eqn:E; [discriminate|]. apply Ok_inj in H.
  assert (alpha = Whole a) by congruence. assert (b = PerMember bs) by congruence. assert (gamma = Whole g) by congruence. assert (delta = Whole d) by congruence. subst. split.
  - destruct (C71_members _ _ _ _ _ _ _ Hl Hi Hm) as (x & Hx & Lx & Ex). destruct (vector_location_spec true a bs g d l Lx) as (m & Em & M). exists x, m. split; [exact Hx|]. split; [exact Em|]. rewrite Ex, M. unfold weighted.
    assert (Q : map (fun p : Q * Q => fst p * snd p) (combine (map (fun b => b * b) bs) l) = map (fun p => fst p * fst p * snd p) (combine bs l)); [|now rewrite Q].
    clear - Lx. revert l Lx. induction bs as [|b bs IH]; intros [|x l] L; cbn in *; try lia; try reflexivity. f_equal. apply IH. lia.
  - unfold scale_parameter. cbn [fits andb]. eexists. split; [reflexivity|]. unfold ovalue. rewrite nth_map_seq by exact Hi. unfold vector_scale. rewrite split_spec. reflexivity.
Qed.
(** ** Point by point *)
Lemma close_refl x : close x x = true.
Proof. unfold close. apply Qleb_le. assert (E : x - x == 0) by ring. rewrite E. change (Qabs 0) with 0. assert (P := Qabs_nonneg x). lra. Qed.
Lemma filter_none {A} (f : A -> bool) l : (forall x, In x l -> f x = false) -> filter f l = [].
Proof. induction l as [|x l IH]; intro H; [reflexivity|]. cbn. rewrite (H x (or_introl eq_refl)). apply IH. intros y Iy. apply H. now right. Qed.
Lemma extracted_alone coords j : (j < length coords)%nat -> alone coords j -> extracted coords j = [j].
Proof.
  intros Hj A. unfold extracted. set (f := fun i => _). assert (Fj : f j = true) by (unfold f; rewrite !close_refl; reflexivity). assert (Fo : forall i, (i < length coords)%nat -> i <> j -> f i = false).
  { intros i Hi Ni. unfold f. destruct (A i Hi Ni) as [-> | ->]; [reflexivity|apply Bool.andb_false_r]. }
  clearbody f. clear A. assert (G : forall k s, (s <= j < s + k)%nat -> (s + k <= length coords)%nat -> filter f (seq s k) = [j]).
  { induction k as [|k IH]; intros s H1 H2; [lia|]. cbn [seq filter]. destruct (Nat.eq_dec s j) as [->|Ns].
    - rewrite Fj. f_equal. apply filter_none. intros x Ix. apply in_seq in Ix. apply Fo; lia.
    - rewrite (Fo s) by lia. apply IH; lia. }
  apply G; lia.
Qed.
Lemma concat_singles {A B} (f : A -> B) l : concat (map (fun x => [f x]) l) = map f l.
Proof. induction l as [|x l IH]; [reflexivity|]. cbn [map concat app]. now rewrite IH. Qed.
Lemma take_alone times j p : concat (broadcast times (take_predictor [j] p)) = predictor_at times j p.
Proof.
  destruct p as [a|f]; cbn [take_predictor broadcast predictor_at].
  - unfold take_points, at_site. cbn [map]. apply concat_singles.
  - cbn [map]. induction times as [|k IH]; [reflexivity|]. cbn [repeat concat app]. now rewrite IH.
Qed.
(** C73: coefficients point by point: those of a point that has its coordinates to itself depend on the data of this point only; without any truth the first guess is kept. In the result each point is where it was. *)
Theorem C73_point crps realizations root minimise times coords ps truths variance guesses vs j : independently crps realizations root minimise times coords ps truths variance guesses = Ok vs -> (j < length coords)%nat -> alone coords j ->
  nth j vs [] = (let p := {| pr_predictors := map (fun q => as_row (predictor_at times j q)) ps; pr_truth := as_row (at_site j truths); pr_variance := as_row (at_site j variance) |} in
                 if forallb is_none (pr_truth p) then nth j guesses [] else minimise p (nth j guesses [])) /\
  length vs = length coords /\ forall k c, (c < k)%nat -> nth j (nth c (transposed k vs) []) 0 = nth c (nth j vs []) 0.
Proof.
  intros H Hj A. unfold independently in H. assert (L := mapM_len _ _ _ H). rewrite seq_length in L. assert (E := mapM_nth _ _ _ j 0%nat [] H). rewrite seq_length in E. specialize (E Hj). rewrite seq_nth in E by exact Hj. cbn [plus] in E. split; [|split; [exact L|]].
  - unfold solve_point, point_problem in E. rewrite (extracted_alone coords j Hj A) in E. cbv zeta. cbn [pr_truth] in *. fold (at_site j truths) in E. fold (at_site j variance) in E.
    assert (Em : map (fun p => as_row (concat (broadcast times (take_predictor [j] p)))) ps = map (fun q => as_row (predictor_at times j q)) ps) by (apply map_ext; intro q; now rewrite take_alone). rewrite Em in E.
    unfold all_missing in E. destruct (forallb is_none (as_row (at_site j truths))); [now apply Ok_inj in E|]. unfold attempt in E. destruct (score _ _ _ _ _); [|discriminate]. cbn [bind] in E. now apply Ok_inj in E.
  - intros k c Hc. unfold transposed. rewrite nth_map_seq by exact Hc. apply (nth_map_lt (fun v => nth c v 0) vs j [] 0). lia.
Qed.
Lemma mapM_fails {A B} (f : A -> result B) l x e : In x l -> f x = Err e -> exists e', mapM f l = Err e'.
Proof. induction l as [|y l IH]; intros I0 E; [destruct I0|]. cbn [mapM]. destruct I0 as [->|I0]; [rewrite E; eexists; reflexivity|]. destruct (f y); [|eexists; reflexivity]. cbn [bind]. destruct (IH I0 E) as (e' & ->). eexists. reflexivity. Qed.
Lemma concat_lengths {A} (l : list (list A)) n : Forall (fun r => length r = n) l -> length (concat l) = (length l * n)%nat.
Proof. induction 1 as [|r l H F IH]; [reflexivity|]. cbn [concat length]. rewrite app_length, IH, H. reflexivity. Qed.
(** C73: two points with (nearly) the same coordinates, one of them with a truth, make the estimation fail for all points: the predictors of both are extracted for each. *)
Theorem C73_colocated_refuted crps realizations root minimise times coords means rest truths variance guesses i j : (i < length coords)%nat -> (j < length coords)%nat -> i <> j -> nth i coords (0, 0) = nth j coords (0, 0) ->
  length means = times -> length truths = times -> (0 < times)%nat -> ~ (forall y, In y (at_site j truths) -> number y = None) ->
  exists e, independently crps realizations root minimise times coords (Timed means :: rest) truths variance guesses = Err e.
Proof.
  intros Hi Hj N C Lm Lt Ht Tr. apply (mapM_fails _ _ j ValueError); [apply in_seq; lia|]. unfold solve_point, point_problem. cbn [pr_truth].
  assert (Am : all_missing (as_row (map (fun r => nth j r NotANumber) truths)) = false).
  { destruct (all_missing _) eqn:E; [|reflexivity]. exfalso. apply Tr. unfold all_missing in E. rewrite forallb_forall in E. intros y Iy. assert (X := E (match y with Num q => Some q | _ => None end) (in_map _ _ _ Iy)). destruct y; try reflexivity; discriminate. }
  rewrite Am. unfold attempt, score, preparation. cbn [pr_predictors pr_truth map forallb].
  assert (Lx : (2 <= length (extracted coords j))%nat).
  { assert (NoDup [i; j]) by (constructor; [intros [E|[]]; congruence|constructor; [intros []|constructor]]). change 2%nat with (length [i; j]). apply NoDup_incl_length; [assumption|]. intros x [<-|[<-|[]]]; unfold extracted; apply filter_In; (split; [apply in_seq; lia|]); rewrite ?C, !close_refl; reflexivity. }
  set (idx := extracted coords j) in *. assert (Ll : length (as_row (concat (broadcast times (take_predictor idx (Timed means))))) = (times * length idx)%nat).
  { unfold as_row. rewrite map_length. cbn [take_predictor broadcast]. rewrite (concat_lengths _ (length idx)); [unfold take_points; now rewrite map_length, Lm|]. unfold take_points. apply Forall_map, Forall_forall. intros r _. apply map_length. }
  rewrite Ll. assert (Lt' : length (as_row (map (fun r => nth j r NotANumber) truths)) = times) by (unfold as_row; now rewrite !map_length). rewrite Lt'.
  destruct (Nat.eqb_spec (times * length idx) times) as [E|E]; [exfalso; nia|]. reflexivity.
Qed.
(** C73: with one point and no mask, both ways of estimating hand the same problem to the minimiser. *)
Theorem C73_single_point deep deep' times means fields truths variance c p : shaped times 1 means -> shaped times 1 truths -> shaped times 1 variance -> Forall (fun f => length f = 1%nat) fields ->
  (forall a t, In a [means; truths; variance] -> entry a (t, 0%nat) = Masked -> (times <= t)%nat) ->
  together_problem false deep deep' times (Timed means :: map Static fields) truths variance = Ok p -> p = point_problem times [c] (Timed means :: map Static fields) truths variance 0.
Proof.
  intros Sm St Sv Ff Nm H. unfold together_problem in H. destruct (flatten deep truths) as [t|] eqn:Et; [|discriminate]. cbn [bind] in H. destruct (flatten deep variance) as [s2|] eqn:Ev; [|discriminate]. cbn [bind] in H. destruct (prepare_mean _ _ _) as [rows|] eqn:P; [|discriminate]. cbn [bind] in H. apply Ok_inj in H. subst p. apply flatten_ok in Et, Ev. subst t s2. apply prepare_inv in P as [-> _].
  assert (Ex : extracted [c] 0 = [0%nat]) by (unfold extracted; cbn; rewrite !close_refl; reflexivity). unfold point_problem. rewrite Ex.
  assert (K : forall a, shaped times 1 a -> (forall t, entry a (t, 0%nat) = Masked -> (times <= t)%nat) -> flat_map kept a = as_row (map (fun r => nth 0 r NotANumber) a)).
  { intros a [La Fa] Na. subst times. clear - Fa Na. induction a as [|r a IH]; [reflexivity|]. inversion Fa as [|? ? Lr Fa']; subst. destruct r as [|v [|? ?]]; try discriminate. cbn [flat_map map as_row nth]. unfold as_row in *. cbn [map]. rewrite <- IH; [|exact Fa'|].
    - assert (Nv : v <> Masked) by (intro C; subst; specialize (Na 0%nat eq_refl); cbn in Na; lia). unfold kept. cbn [flat_map]. rewrite app_nil_r. destruct v; try reflexivity. congruence.
    - intros t Et. specialize (Na (S t) Et). cbn in Na. lia. }
  f_equal.
  - cbn [map]. f_equal.
    + rewrite take_alone. cbn [broadcast predictor_at]. apply K; [exact Sm|]. intros t. apply (Nm means t). now left.
    + rewrite !map_map. apply map_ext_in. intros f If. rewrite take_alone. cbn [broadcast predictor_at]. rewrite Forall_forall in Ff. specialize (Ff f If). destruct f as [|v [|? ?]]; try discriminate. cbn [map nth] in *. clear. induction times as [|k IH]; [reflexivity|]. cbn [repeat flat_map]. rewrite IH. destruct v; reflexivity.
  - apply K; [exact St|]. intros t. apply (Nm truths t). right. now left.
  - apply K; [exact Sv|]. intros t. apply (Nm variance t). right. right. now left.
Qed.
(** ** The score *)
Lemma column_pick idx rows k : (k < length idx)%nat -> column (map (fun r : row => map (fun j => nth j r None) idx) rows) k = column rows (nth k idx 0%nat).
Proof. intro H. unfold column. rewrite map_map. apply map_ext. intro r. apply (nth_map_lt (fun j => nth j r None) idx k 0%nat None H). Qed.
Lemma scores_idx crps (F : nat -> option Q * option Q) (truth : row) l : scores crps (map F l) (map (fun j => nth j truth None) l) = flat_map (fun j => match F j, nth j truth None with (Some m, Some s), Some y => [crps m s y] | _, _ => [] end) l.
Proof. unfold scores. induction l as [|j l IH]; [reflexivity|]. cbn [map combine flat_map]. rewrite IH. destruct (F j) as [[m|] [s|]]; reflexivity. Qed.
Lemma map_nth_all {A} (l : list A) d : map (fun j => nth j l d) (seq 0 (length l)) = l.
Proof. apply nth_ext with (d := d) (d' := d); [now rewrite map_length, seq_length|]. intros k Hk. rewrite map_length, seq_length in Hk. now rewrite nth_map_seq. Qed.
(** C73: pairs without a truth do not count: the score is that of the pairs with a truth, if location and scale can be found for all. *)
Theorem C73_missing_truth crps realizations root p v prep : preparation realizations root v p = Ok prep -> (forall ms, In ms prep -> usable_pair ms = true) ->
  score crps realizations root (with_truth p) v = score crps realizations root p v.
Proof.
  intros H U. assert (H' := H). unfold preparation in H. destruct (negb _) eqn:C; [discriminate|]. apply Ok_inj in H. set (F := fun j => (vector_location realizations v (column (pr_predictors p) j), vector_scale root v (nth j (pr_variance p) None))) in *.
  apply Bool.negb_false_iff, Bool.andb_true_iff in C as [C C3]. apply Bool.andb_true_iff in C as [C1 C2].
  unfold with_truth. cbv zeta. set (idx := filter _ _). unfold score. rewrite H'. cbn [bind]. assert (Pw : preparation realizations root v {| pr_predictors := map (fun r : row => map (fun j => nth j r None) idx) (pr_predictors p); pr_truth := map (fun j => nth j (pr_truth p) None) idx; pr_variance := map (fun j => nth j (pr_variance p) None) idx |} = Ok (map F idx)).
  { unfold preparation. cbn [pr_predictors pr_truth pr_variance]. rewrite !map_length, Nat.eqb_refl, C2. assert (Fl : forallb (fun r : list (option Q) => (length r =? length idx)%nat) (map (fun r : row => map (fun j => nth j r None) idx) (pr_predictors p)) = true) by (apply forallb_forall; intros r Ir; apply in_map_iff in Ir as (r0 & <- & _); rewrite map_length; apply Nat.eqb_refl). rewrite Fl. cbn [andb negb]. f_equal.
    apply nth_ext with (d := (None, None)) (d' := (None, None)); [now rewrite !map_length, seq_length|]. intros k Hk. rewrite map_length, seq_length in Hk. rewrite nth_map_seq by exact Hk. rewrite (nth_map_lt F idx k 0%nat) by exact Hk. unfold F. rewrite (column_pick idx _ k Hk). rewrite (nth_map_lt (fun j => nth j (pr_variance p) None) idx k 0%nat None Hk). reflexivity. }
  rewrite Pw. cbn [bind]. subst prep. assert (U1 : forallb usable_pair (map F (seq 0 (length (pr_truth p)))) = true) by (apply forallb_forall; exact U). rewrite U1.
  assert (U2 : forallb usable_pair (map F idx) = true) by (apply forallb_forall; intros ms Im; apply in_map_iff in Im as (j & <- & Ij); apply U; apply in_map; unfold idx in Ij; apply filter_In in Ij; tauto). rewrite U2. cbn [pr_truth].
  assert (E : scores crps (map F idx) (map (fun j => nth j (pr_truth p) None) idx) = scores crps (map F (seq 0 (length (pr_truth p)))) (pr_truth p)); [|now rewrite E].
  rewrite scores_idx. rewrite <- (map_nth_all (pr_truth p) None) at 2. rewrite scores_idx. unfold idx. generalize (seq 0 (length (pr_truth p))) as l. intro l. induction l as [|j l IH]; [reflexivity|]. cbn [filter flat_map]. destruct (nth j (pr_truth p) None) as [y|] eqn:Ey; cbn [flat_map]; rewrite IH; [now rewrite Ey|]. destruct (F j) as [[m|] [s|]]; reflexivity.
Qed.
(** C73: one forecast that is not a number makes the score of all coefficients the same. *)
Theorem C73_nan_forecast_refuted crps realizations root p v r j : In r (pr_predictors p) -> (j < length (pr_truth p))%nat -> nth j r None = None -> Forall (fun r => length r = length (pr_truth p)) (pr_predictors p) -> length (pr_variance p) = length (pr_truth p) -> length v = (length (pr_predictors p) + 3)%nat ->
  score crps realizations root p v = Ok (Some bad_value).
Proof.
  intros Ir Hj Nj Fl Lv Lc. unfold score, preparation. rewrite Lc, Lv, !Nat.eqb_refl, !Bool.andb_true_r. rewrite (proj2 (forallb_forall (fun r : list (option Q) => (length r =? length (pr_truth p))%nat) (pr_predictors p))) by (intros x Ix; rewrite Forall_forall in Fl; apply Nat.eqb_eq; now apply Fl). cbn [negb bind].
  set (F := fun j => (vector_location _ _ _, _)). destruct (forallb usable_pair (map F _)) eqn:U; [|reflexivity]. exfalso. rewrite forallb_forall in U. assert (Ij : In j (seq 0 (length (pr_truth p)))) by (apply in_seq; lia). specialize (U (F j) (in_map F _ j Ij)). unfold F in U. assert (N : vector_location realizations v (column (pr_predictors p) j) = None); [|rewrite N in U; discriminate].
  destruct (vector_shape v ltac:(lia)) as (a & bs & g & d & -> & Lb). unfold vector_location. rewrite split_spec. cbn [combine map osum fst snd oscale option_map].
  assert (G : osum (map (fun p0 : Q * option Q => oscale (fst p0) (snd p0)) (combine (map (fun b => if realizations then b * b else b) bs) (column (pr_predictors p) j))) = None); [|now rewrite G].
  assert (Lbs : length bs = length (pr_predictors p)) by lia. clear - Ir Nj Lbs. revert bs Lbs. induction (pr_predictors p) as [|x l IH]; intros bs L; [destruct Ir|]. destruct bs as [|b bs]; [discriminate|]. cbn [map column combine osum fst snd]. destruct Ir as [->|Ir].
  - rewrite Nj. reflexivity.
  - cbn in L. fold (column l j). rewrite (IH Ir bs) by lia. destruct (oscale _ _); reflexivity.
Qed.
(** ** Guards *)
(** C73: which requests are accepted. *)
Theorem C73_accepted r consistent convertible : check_request r consistent convertible = Ok tt <->
  ~ (er_land r = true /\ er_point_by_point r = true) /\ er_forecasts r = true /\ er_truths r = true /\ consistent = Ok tt /\
  (er_additional r <> [] -> er_realizations r = false /\ forall coords c, In coords (er_additional r) -> In c coords -> c <> "forecast_period"%string /\ c <> "forecast_reference_time"%string /\ c <> "realization"%string) /\
  match er_desired r with Some u => convertible (er_forecast_units r) u = true /\ convertible (er_truth_units r) u = true | None => er_forecast_units r = er_truth_units r end.
Proof.
  assert (St : forall coords, static_only coords = true <-> forall c, In c coords -> c <> "forecast_period"%string /\ c <> "forecast_reference_time"%string /\ c <> "realization"%string).
  { intro coords. unfold static_only. rewrite Bool.negb_true_iff. split.
    - intros H c Ic. assert (X : existsb (String.eqb c) ["forecast_period"; "forecast_reference_time"; "realization"]%string = false).
      { destruct (existsb (String.eqb c) _) eqn:E; [|reflexivity]. exfalso. assert (existsb (fun c => existsb (String.eqb c) ["forecast_period"; "forecast_reference_time"; "realization"]%string) coords = true) by (apply existsb_exists; eauto). congruence. }
      cbn [existsb] in X. apply Bool.orb_false_iff in X as [X1 X]. apply Bool.orb_false_iff in X as [X2 X]. apply Bool.orb_false_iff in X as [X3 _]. now repeat split; apply String.eqb_neq.
    - intro H. destruct (existsb _ coords) eqn:E; [|reflexivity]. exfalso. apply existsb_exists in E as (c & Ic & E). destruct (H c Ic) as (A & B & C). cbn [existsb] in E. apply Bool.orb_true_iff in E as [E|E]; [now apply String.eqb_eq in E|]. apply Bool.orb_true_iff in E as [E|E]; [now apply String.eqb_eq in E|]. apply Bool.orb_true_iff in E as [E|E]; [now apply String.eqb_eq in E|discriminate]. }
  unfold check_request. destruct (er_land r && er_point_by_point r)%bool eqn:A.
  { apply Bool.andb_true_iff in A. split; [discriminate|tauto]. }
  assert (A' : ~ (er_land r = true /\ er_point_by_point r = true)) by (intros [x y]; rewrite x, y in A; discriminate).
  destruct (negb (er_forecasts r && er_truths r))%bool eqn:B.
  { split; [discriminate|]. intros (_ & x & y & _). rewrite x, y in B. discriminate. }
  apply Bool.negb_false_iff, Bool.andb_true_iff in B as [B1 B2].
  destruct consistent as [[]|e]; cbn [bind]; [|split; [discriminate|intros (_ & _ & _ & x & _); discriminate]].
  set (add := match er_additional r with [] => Ok tt | l => if er_realizations r then Err NotImplementedError else if forallb static_only l then Ok tt else Err ValueError end). set (un := match er_desired r with Some u => if (convertible (er_forecast_units r) u && convertible (er_truth_units r) u)%bool then Ok tt else Err ValueError | None => if String.eqb (er_forecast_units r) (er_truth_units r) then Ok tt else Err ValueError end).
  assert (C : add = Ok tt <-> (er_additional r <> [] -> er_realizations r = false /\ forall coords c, In coords (er_additional r) -> In c coords -> c <> "forecast_period"%string /\ c <> "forecast_reference_time"%string /\ c <> "realization"%string)).
  { unfold add. destruct (er_additional r) as [|ad ads]; [split; [intros _ X; congruence|reflexivity]|]. destruct (er_realizations r); [split; [discriminate|intro X; destruct X as [X _]; [discriminate|discriminate]]|]. destruct (forallb static_only (ad :: ads)) eqn:F.
    - split; [|reflexivity]. intros _ _. split; [reflexivity|]. rewrite forallb_forall in F. intros co c Ico. now apply St, F.
    - split; [discriminate|]. intro X. destruct X as [_ X]; [discriminate|]. assert (Y : forallb static_only (ad :: ads) = true) by (apply forallb_forall; intros co Ico; apply St; intros c Ic; now apply (X co c)). congruence. }
  assert (D : un = Ok tt <-> match er_desired r with Some u => convertible (er_forecast_units r) u = true /\ convertible (er_truth_units r) u = true | None => er_forecast_units r = er_truth_units r end).
  { unfold un. destruct (er_desired r) as [u|].
    - destruct (convertible (er_forecast_units r) u), (convertible (er_truth_units r) u); cbn [andb]; split; try discriminate; auto; intros [X Y]; discriminate.
    - destruct (String.eqb_spec (er_forecast_units r) (er_truth_units r)); split; auto; try discriminate. intro X. contradiction. }
  destruct add as [[]|e]; cbn [bind].
  - rewrite D. split; [intro X; split; [exact A'|]; split; [exact B1|]; split; [exact B2|]; split; [reflexivity|]; split; [now apply C|exact X]|]. now intros (_ & _ & _ & _ & _ & X).
  - split; [discriminate|]. intros (_ & _ & _ & _ & X & _). apply C in X. discriminate.
Qed.
(** Three times, two points of which the second is at sea; the regression is y = x, the search doubles the first guess. *)
Example C73_case : let est land := estimate_mean (fun m s y => (y - m) * (y - m)) (fun x => x) (fun _ _ => (0, [1])) (fun p v => map (Qmult (Qn (length (pr_truth p)))) v) false true land ["t"%string] 3
     [[Num 1; Num 7]; [Num 2; NotANumber]; [Num 3; Num 7]] [[Num 1; Num 1]; [Num 1; NotANumber]; [Num 2; Num 1]] [[Num 1; Num 3]; [Num 2; Num 3]; [Num 3; NotANumber]] [] in
  est (Some [true; false]) = Ok (Whole (3 * 0), MeanBetas [("t"%string, Whole (3 * 1))], Whole (3 * 0), Whole (3 * 1)) /\
  est None = Ok (Whole (6 * 0), MeanBetas [("t"%string, Whole (6 * 1))], Whole (6 * 0), Whole (6 * 1)).
Proof. cbv zeta. split; vm_compute; reflexivity. Qed.
Example C73_case_points : exists vs, independently (fun m s y => (y - m) * (y - m)) false (fun x => x) (fun p v => map (Qplus (match pr_truth p with Some y :: _ => y | _ => 0 end)) v) 2 [(0, 0); (1, 1); (2, 2)]
    [Timed [[Num 1; Num 2; Num 3]; [Num 4; Num 5; Num 6]]] [[Num 10; NotANumber; Num 30]; [Num 40; NotANumber; Num 60]] [[Num 1; Num 1; Num 1]; [Num 1; Num 1; Num 1]] (repeat [0; 1; 1; 1] 3) = Ok vs /\
  map (map Qred) (transposed 4 vs) = [[10; 0; 30]; [11; 1; 31]; [11; 1; 31]; [11; 1; 31]] /\ alone [(0, 0); (1, 1); (2, 2)] 1.
Proof.
  eexists. split; [vm_compute; reflexivity|]. split; [vm_compute; reflexivity|]. intros i Hi Ni. cbn in Hi. destruct i as [|[|[|i]]]; try lia; left; vm_compute; reflexivity.
Qed.

Print Assumptions C73_pairs.
Print Assumptions C73_pairs_refuted.
Print Assumptions C73_sea.
Print Assumptions C73_mask_additional_refuted.
Print Assumptions C73_default_mean.
Print Assumptions C73_default_members.
Print Assumptions C73_regression_mean.
Print Assumptions C73_regression_members_refuted.
Print Assumptions C73_scored_mean.
Print Assumptions C73_scored_sites.
Print Assumptions C73_scored_members.
Print Assumptions C73_point.
Print Assumptions C73_colocated_refuted.
Print Assumptions C73_single_point.
Print Assumptions C73_missing_truth.
Print Assumptions C73_nan_forecast_refuted.
Print Assumptions C73_accepted.
