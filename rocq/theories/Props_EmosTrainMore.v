(** C70, C72, C73: theorems added after tests with wrong programs. *)
From Verif Require Import Base Model_Percentiles Model_Integration Model_Bias Model_Dist Spec_Threshold Proofs_Threshold Proofs_Spot Props_Dist Model_Emos Spec_Emos Proofs_Emos Proofs_Temporal Props_Emos Model_EmosTrain Spec_EmosTrain Props_EmosTrain.
Local Open Scope Q_scope.

(** C70: a number of 0 is as good as none: the list decides, and without a list there is a TypeError. *)
Theorem C70_zero_number ppf d loc scale ps : to_percentiles ppf d loc scale (Some 0%nat) ps = to_percentiles ppf d loc scale None ps /\ to_percentiles ppf d loc scale (Some 0%nat) None = Err TypeError.
Proof. split; reflexivity. Qed.
(** C70: the template of probabilities is accepted if it has axes, a threshold and one to three dimensions. *)
Theorem C70_template axes threshold dims : (check_template axes threshold dims = Ok tt <-> axes = true /\ threshold = true /\ (dims <= 3)%nat) /\ (check_template axes threshold dims <> Ok tt -> check_template axes threshold dims = Err ValueError).
Proof.
  unfold check_template. destruct axes, threshold; cbn [negb]; try (split; [split; [discriminate|intros (A & B & _); discriminate]|reflexivity]).
  destruct (Nat.ltb_spec dims 4) as [L|L]; (split; [split|]).
  - intros _. repeat split. lia.
  - reflexivity.
  - intro C. contradiction C. reflexivity.
  - discriminate.
  - intros (_ & _ & C). lia.
  - reflexivity.
Qed.
(** C72: a forecast with a percentile coordinate is one of percentiles whatever its name; otherwise the name tells probabilities from realizations. *)
Theorem C72_kind name : input_type true name = Percentiles /\ (forall rest, input_type false ("probability_of" ++ rest)%string = Probabilities) /\ (input_type false name = Probabilities -> exists rest, name = ("probability_of" ++ rest)%string) /\ input_type false name <> Percentiles.
Proof.
  split; [reflexivity|]. split; [|split].
  - intro rest. unfold input_type. cbn. destruct rest; reflexivity.
  - unfold input_type. destruct (String.prefix "probability_of" name) eqn:P; [|discriminate]. intros _. generalize dependent name. generalize "probability_of"%string. intro s. induction s as [|c s IH]; intros name P; [exists name; reflexivity|]. destruct name as [|c' name]; cbn in P; [discriminate|]. destruct (Ascii.ascii_dec c c') as [->|]; [|discriminate]. destruct (IH name P) as [rest ->]. exists rest. reflexivity.
  - unfold input_type. destruct (String.prefix _ _); discriminate.
Qed.

(** C73: realizations as predictors: the k-th row of predictors holds the values of the k-th realization that are not masked, in order. *)
Lemma chunks_concat size : forall rows, Forall (fun r : row => length r = size) rows -> chunks (length rows) size (concat rows) = rows.
Proof.
  induction rows as [|r rows IH]; intro F; [reflexivity|]. inversion F as [|? ? L F']; subst. cbn [length chunks concat]. rewrite firstn_app, firstn_all, Nat.sub_diag, firstn_O, app_nil_r. rewrite skipn_app, skipn_all, Nat.sub_diag. cbn [app skipn]. rewrite IH by exact F'. reflexivity.
Qed.
Lemma alike_kept a b : length a = length b -> (forall i, (i < length a)%nat -> (nth i a Masked = Masked <-> nth i b Masked = Masked)) -> length (kept a) = length (kept b).
Proof.
  revert b. induction a as [|x a IH]; intros [|y b] L H; try discriminate; [reflexivity|]. unfold kept. cbn [flat_map]. rewrite !app_length. cbn [length] in L. injection L as L. fold (kept a) (kept b). rewrite (IH b L).
  - f_equal. specialize (H 0%nat ltac:(cbn; lia)). cbn [nth] in H. destruct x, y; cbn [keep length]; try reflexivity; exfalso; destruct H as [H1 H2]; first [discriminate H1; reflexivity | discriminate H2; reflexivity | specialize (H1 eq_refl); discriminate | specialize (H2 eq_refl); discriminate].
  - intros i Hi. apply (H (S i)). cbn. lia.
Qed.
Theorem C73_realizations deep deep' times n members a rest truths variance p : shaped members n a -> (forall k k', (k < members)%nat -> (k' < members)%nat -> forall i, (i < n)%nat -> (entry a (k, i) = Masked <-> entry a (k', i) = Masked)) ->
  together_problem true deep deep' times (Timed a :: rest) truths variance = Ok p ->
  length (pr_predictors p) = members /\ forall k, (k < members)%nat -> nth k (pr_predictors p) [] = map (fun i => number (entry a (k, i))) (filter (fun i => negb (is_masked (entry a (k, i)))) (seq 0 n)).
Proof.
  intros [L F] A H. unfold together_problem in H. destruct (flatten deep truths) as [t|]; [|discriminate]. cbn [bind] in H. destruct (flatten deep variance) as [s2|]; [|discriminate]. cbn [bind] in H.
  unfold flatten_rows in H. destruct (flatten deep' a) as [r|] eqn:Fl; [|discriminate]. cbn [bind] in H. apply flatten_ok in Fl. subst r.
  assert (C : flat_map kept a = concat (map kept a)) by (apply flat_map_concat_map). rewrite Forall_forall in F.
  destruct a as [|a0 a']; [discriminate|]. set (a := a0 :: a') in *. assert (U : Forall (fun r : row => length r = length (kept a0)) (map kept a)).
  { apply Forall_forall. intros r Ir. apply in_map_iff in Ir as (x & <- & Ix). symmetry. apply alike_kept; [rewrite (F a0), (F x Ix); [reflexivity|left; reflexivity]|]. intros i Hi. apply In_nth with (d := []) in Ix as (k & Hk & E).
    specialize (A 0%nat k ltac:(subst members; cbn; lia) ltac:(subst members; exact Hk) i ltac:(rewrite <- (F a0 (or_introl eq_refl)); exact Hi)). unfold entry in A. cbn [fst snd] in A. rewrite E in A. exact A. }
  assert (LC : length (flat_map kept a) = (length a * length (kept a0))%nat).
  { rewrite C. revert U. generalize (length (kept a0)). intro m. rewrite <- (map_length kept a). generalize (map kept a). intros rows U. induction U as [|r rows E U IH]; [reflexivity|]. cbn [concat length]. rewrite app_length, IH, E. lia. }
  assert (N : (length a <> 0)%nat) by (cbn; discriminate). destruct (length a) as [|m] eqn:LA; [congruence|]. rewrite LC in H. rewrite Nat.mul_comm, Nat.mod_mul, Nat.eqb_refl, Nat.div_mul in H by discriminate. cbn [bind] in H. apply Ok_inj in H. subst p. cbn [pr_predictors].
  assert (E : chunks (S m) (length (kept a0)) (flat_map kept a) = map kept a) by (rewrite C, <- LA, <- (map_length kept a); apply chunks_concat; exact U). rewrite E. split; [rewrite map_length; congruence|]. intros k Hk.
  rewrite (nth_map_lt kept a k [] []) by congruence. rewrite kept_filter. assert (Lk : length (nth k a []) = n) by (apply F, nth_In; congruence). rewrite Lk. reflexivity.
Qed.

(** C73: if location and scale are found everywhere, the score is the mean over the pairs with a truth. *)
Theorem C73_score crps realizations root p v prep : preparation realizations root v p = Ok prep -> (forall ms, In ms prep -> usable_pair ms = true) -> (exists y, In (Some y) (pr_truth p)) ->
  exists s, score crps realizations root p v = Ok (Some s) /\ s * Qlen (scores crps prep (pr_truth p)) == qsum (scores crps prep (pr_truth p)) /\
    length (scores crps prep (pr_truth p)) = length (filter (fun y => match y with Some _ => true | None => false end) (pr_truth p)).
Proof.
  intros H U [y Y]. unfold score. rewrite H. cbn [bind]. rewrite (proj2 (forallb_forall _ _) U).
  assert (LP : length prep = length (pr_truth p)) by (unfold preparation in H; destruct (negb _); [discriminate|]; apply Ok_inj in H; subst prep; rewrite map_length, seq_length; reflexivity).
  assert (CNT : length (scores crps prep (pr_truth p)) = length (filter (fun y => match y with Some _ => true | None => false end) (pr_truth p))).
  { unfold scores. clear H Y. revert LP U. generalize (pr_truth p). induction prep as [|[m s] prep IH]; intros [|o t] LP U; try discriminate; [reflexivity|]. cbn [combine flat_map filter]. assert (X := U (m, s) (or_introl eq_refl)). destruct m as [m|]; [|discriminate]. destruct s as [s|]; [|discriminate]. injection LP as LP. rewrite app_length, (IH t LP) by (intros ms I0; apply U; right; exact I0). destruct o; reflexivity. }
  destruct (scores crps prep (pr_truth p)) as [|x r] eqn:S'.
  - exfalso. assert (X : In (Some y) (filter (fun y => match y with Some _ => true | None => false end) (pr_truth p))) by (apply filter_In; auto). cbn in CNT. destruct (filter _ _); [destruct X|discriminate].
  - exists (mean (x :: r)). split; [reflexivity|]. split; [|exact CNT]. unfold mean. assert (0 < Qlen (x :: r)) by (apply Qlen_pos; discriminate). field. lra.
Qed.

(** C73: the regression is used exactly if it is not switched off and neither truths nor predictors contain a value that is not a number. *)
Theorem C73_guess use_default realizations root ols deep deep_truth members stack truths :
  ((use_default = true \/ (exists r, In r truths /\ In NotANumber r) \/ (exists r, In r stack /\ In NotANumber r)) -> initial_guess use_default realizations root ols deep deep_truth members stack truths = Ok (default_guess realizations root (length stack) members)) /\
  (~ (use_default = true \/ (exists r, In r truths /\ In NotANumber r) \/ (exists r, In r stack /\ In NotANumber r)) -> forall v, initial_guess use_default realizations root ols deep deep_truth members stack truths = Ok v ->
     exists t rows, flatten deep_truth truths = Ok t /\ flatten_rows deep stack = Ok rows /\ v = regression_guess ols rows t).
Proof.
  assert (E : (use_default || existsb has_nan truths || existsb has_nan stack)%bool = true <-> (use_default = true \/ (exists r, In r truths /\ In NotANumber r) \/ (exists r, In r stack /\ In NotANumber r))).
  { assert (N : forall a : array, existsb has_nan a = true <-> exists r, In r a /\ In NotANumber r).
    { intro a. rewrite existsb_exists. split; intros (r & I0 & H); exists r; (split; [exact I0|]).
      - unfold has_nan in H. apply existsb_exists in H as (v & Iv & H). destruct v; try discriminate. exact Iv.
      - apply existsb_exists. exists NotANumber. split; [exact H|reflexivity]. }
    rewrite !Bool.orb_true_iff, !N. tauto. }
  unfold initial_guess. destruct (_ || _)%bool eqn:B.
  - split; [reflexivity|]. intro C. exfalso. apply C, E. reflexivity.
  - split; [intro C; apply E in C; discriminate|]. intros _ v H. destruct (flatten deep_truth truths) as [t|]; [|discriminate]. cbn [bind] in H. destruct (flatten_rows deep stack) as [rows|]; [|discriminate]. cbn [bind] in H. apply Ok_inj in H. exists t, rows. auto.
Qed.

(** C73: with a land-sea mask exactly the sea points, the points masked before and the values that are not numbers are masked; other values are kept. *)
Theorem C73_masking land a b t i : mask_array land a = Ok b -> (t < length a)%nat -> (i < length land)%nat ->
  entry b (t, i) = if nth i land false then match entry a (t, i) with Num q => Num q | _ => Masked end else Masked.
Proof.
  unfold mask_array. destruct (forallb _ a) eqn:F; [|discriminate]. intros H Ht Hi. apply Ok_inj in H. subst b. unfold entry. cbn [fst snd]. rewrite (nth_map_lt (mask_row land) a t [] []) by exact Ht. rewrite forallb_forall in F. assert (L : length (nth t a []) = length land) by (apply Nat.eqb_eq, F, nth_In, Ht).
  unfold mask_row. rewrite (nth_map_lt _ (combine land (nth t a [])) i (false, Masked) Masked) by (rewrite combine_length; lia). rewrite combine_nth by congruence. cbn [fst snd]. destruct (nth i land false); [|reflexivity]. destruct (nth i (nth t a []) Masked); reflexivity.
Qed.

Example C73_case_more : let a := [[Num 1; Masked; Num 2]; [Num 3; Masked; NotANumber]] in
  match together_problem true false true 1 [Timed a] [[Num 1; Masked; Num 5]] [[Num 1; Masked; Num 1]] with Ok p => pr_predictors p = [[Some 1; Some 2]; [Some 3; None]] | Err _ => False end /\
  initial_guess false false (fun x => x) (fun _ _ => (7, [1])) true false 0 [[Num 1; Num 2]] [[Num 1; Num 2]] = Ok [7; 1; 0; 1] /\ initial_guess false false (fun x => x) (fun _ _ => (7, [1])) true false 0 [[Num 1; NotANumber]] [[Num 1; Num 2]] = Ok [0; 1 / Qn 1; 0; 1] /\
  mask_array [true; true; false] [[Num 1; NotANumber; Num 3]] = Ok [[Num 1; Masked; Masked]].
Proof. repeat split. Qed.

Print Assumptions C70_zero_number.
Print Assumptions C70_template.
Print Assumptions C72_kind.
Print Assumptions C73_realizations.
Print Assumptions C73_score.
Print Assumptions C73_guess.
Print Assumptions C73_masking.
