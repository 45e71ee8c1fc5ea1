From Verif Require Import Base Interp Model_Blending Proofs_ReliabilityApply.

(** * normalise_weights *)
Lemma existsb_neg w : existsb (fun x => x <? 0) w = false <-> Forall (fun x => 0 <= x) w.
Proof.
  induction w as [|x w IH]; simpl; [split; [constructor|reflexivity]|]. rewrite orb_false_iff, IH. rewrite Qltb_ge.
  split; [intros []; constructor; trivial|intro H; inversion H; auto].
Qed.
Lemma norm_inv w w' : normalise_weights w = Ok w' ->
  w <> [] /\ Forall (fun x => 0 <= x) w /\ 0 < qsum w /\ w' = map (fun x => x / qsum w) w.
Proof.
  unfold normalise_weights. destruct (Nat.eqb_spec (length w) 0); [discriminate|].
  destruct (existsb _ w) eqn:E; [discriminate|]. apply existsb_neg in E.
  destruct (Qeqb_spec (qsum w) 0); [discriminate|]. intros [= <-]. pose proof (qsum_nonneg w E).
  repeat split; trivial; [intros ->; simpl in *; lia|lra].
Qed.
Lemma norm_ok w : Forall (fun x => 0 <= x) w -> 0 < qsum w -> normalise_weights w = Ok (map (fun x => x / qsum w) w).
Proof.
  intros H H0. unfold normalise_weights. destruct (Nat.eqb_spec (length w) 0).
  { destruct w; [simpl in H0; lra|discriminate]. }
  apply existsb_neg in H. rewrite H. destruct (Qeqb_spec (qsum w) 0); [lra|reflexivity].
Qed.
Lemma qsum_pos_in w : Forall (fun x => 0 <= x) w -> (0 < qsum w <-> exists x, In x w /\ 0 < x).
Proof.
  intro H. split.
  - intro P. destruct (Exists_dec (fun x => 0 < x) w) as [E|E].
    + intro x. destruct (Qlt_le_dec 0 x); [left; assumption|right; lra].
    + apply Exists_exists in E. exact E.
    + exfalso. assert (G : qsum w <= 0); [|lra]. clear P. induction H as [|x w Hx Hw IH]; simpl; [lra|].
      assert (~ 0 < x) by (intro; apply E; left; assumption). assert (qsum w <= 0) by (apply IH; intro; apply E; right; assumption). lra.
  - intros (x & Hx & P). pose proof (qsum_ge_in w x H Hx). lra.
Qed.
Lemma norm_total w : (exists w', normalise_weights w = Ok w') <-> Forall (fun x => 0 <= x) w /\ exists x, In x w /\ 0 < x.
Proof.
  split.
  - intros (w' & H). apply norm_inv in H as (_ & H & P & _). split; trivial. apply qsum_pos_in; trivial.
  - intros (H & E). eexists. apply norm_ok; trivial. apply qsum_pos_in; trivial.
Qed.
Lemma norm_err w e : normalise_weights w = Err e -> e = ValueError.
Proof. unfold normalise_weights. destruct (_ =? 0)%nat; [congruence|]. destruct (existsb _ _); [congruence|]. destruct (_ =? _); congruence. Qed.
Lemma norm_length w w' : normalise_weights w = Ok w' -> length w' = length w.
Proof. intro H. apply norm_inv in H as (_ & _ & _ & ->). apply map_length. Qed.
Lemma norm_sum w w' : normalise_weights w = Ok w' -> qsum w' == 1.
Proof. intro H. apply norm_inv in H as (_ & _ & P & ->). rewrite qsum_map_div. field. lra. Qed.
Lemma div_nonneg a b : 0 <= a -> 0 < b -> 0 <= a / b.
Proof. intros. apply Qle_shift_div_l; lra. Qed.
Lemma norm_nonneg w w' : normalise_weights w = Ok w' -> Forall (fun x => 0 <= x) w'.
Proof.
  intro H. apply norm_inv in H as (_ & F & P & ->). rewrite Forall_map. eapply Forall_impl; [|exact F]. intros a Ha. apply div_nonneg; assumption.
Qed.
Lemma norm_le1 w w' : normalise_weights w = Ok w' -> Forall (fun x => 0 <= x <= 1) w'.
Proof.
  intro H. pose proof (norm_sum _ _ H). pose proof (norm_nonneg _ _ H) as N. apply Forall_forall. intros x Hx.
  pose proof (qsum_ge_in w' x N Hx). rewrite Forall_forall in N. specialize (N x Hx). lra.
Qed.
Lemma norm_nth w w' i : normalise_weights w = Ok w' -> nth i w' 0 == nth i w 0 / qsum w.
Proof.
  intro H. apply norm_inv in H as (_ & _ & P & ->). destruct (Nat.lt_ge_cases i (length w)).
  - rewrite (nth_map_lt _ _ _ 0) by assumption. reflexivity.
  - rewrite !nth_overflow by (rewrite ?map_length; assumption). unfold Qdiv. ring.
Qed.
Lemma norm_ratio w w' i j : normalise_weights w = Ok w' -> nth i w' 0 * nth j w 0 == nth j w' 0 * nth i w 0.
Proof. intro H. rewrite !(norm_nth w w' _ H). apply norm_inv in H as (_ & _ & P & _). field. lra. Qed.
Lemma norm_idem w w' : normalise_weights w = Ok w' -> exists w'', normalise_weights w' = Ok w'' /\ Forall2 Qeq w'' w'.
Proof.
  intro H. pose proof (norm_sum _ _ H) as S. pose proof (norm_nonneg _ _ H) as N. eexists. split; [apply norm_ok; [exact N|lra]|].
  clear H. apply (Forall2_Qeq_of_nth _ _ 0); [apply map_length|]. rewrite map_length. intros i Hi. rewrite (nth_map_lt _ _ _ 0) by exact Hi.
  setoid_rewrite S. field.
Qed.
Lemma norm_scale w w' k : normalise_weights w = Ok w' -> 0 < k -> exists w'', normalise_weights (map (fun x => x * k) w) = Ok w'' /\ Forall2 Qeq w'' w'.
Proof.
  intros H Hk. apply norm_inv in H as (_ & F & P & ->). assert (S : qsum (map (fun x => x * k) w) == qsum w * k) by apply qsum_map_mul.
  eexists. split.
  - apply norm_ok; [rewrite Forall_map; eapply Forall_impl; [|exact F]; intros; simpl in *; nra|]. rewrite S. nra.
  - apply (Forall2_Qeq_of_nth _ _ 0); [rewrite !map_length; reflexivity|]. rewrite !map_length. intros i Hi.
    rewrite (nth_map_lt _ _ _ 0) by (rewrite map_length; exact Hi). rewrite !(nth_map_lt _ _ _ 0) by exact Hi. setoid_rewrite S. field. lra.
Qed.

(** * Linear default weights *)
Lemma linear_raw_length y0 yn n : length (linear_raw y0 yn n) = n.
Proof. unfold linear_raw. rewrite map_length, seq_length. reflexivity. Qed.
Lemma linear_raw_nth y0 yn n i : (i < n)%nat -> nth i (linear_raw y0 yn n) 0 = (yn - y0) / (Qn n - 1) * Qn i + y0.
Proof. intro H. unfold linear_raw. rewrite nth_map_seq by exact H. reflexivity. Qed.
Lemma linear_inv y0 yn n w : linear_weights y0 yn n = Ok w -> 0 <= y0 /\ ((n = 1%nat /\ w = [1]) \/ (n <> 1%nat /\ normalise_weights (linear_raw y0 yn n) = Ok w)).
Proof.
  unfold linear_weights. destruct (Qltb_spec y0 0); [discriminate|]. destruct (Nat.eqb_spec n 1).
  - intros [= <-]. auto.
  - auto.
Qed.
Lemma linear_basic y0 yn n w : linear_weights y0 yn n = Ok w -> length w = n /\ qsum w == 1 /\ Forall (fun x => 0 <= x <= 1) w.
Proof.
  intro H. apply linear_inv in H as (_ & [[-> ->]|[_ H]]).
  - split; [reflexivity|]. split; [simpl; lra|]. constructor; [lra|constructor].
  - split; [rewrite (norm_length _ _ H); apply linear_raw_length|]. split; [exact (norm_sum _ _ H)|exact (norm_le1 _ _ H)].
Qed.
Lemma linear_step y0 yn n w : linear_weights y0 yn n = Ok w -> exists d, forall i, (S i < n)%nat -> nth (S i) w 0 - nth i w 0 == d.
Proof.
  intro H. apply linear_inv in H as (_ & [[-> ->]|[N H]]).
  - exists 0. intros; lia.
  - exists ((yn - y0) / (Qn n - 1) / qsum (linear_raw y0 yn n)). intros i Hi. pose proof (norm_inv _ _ H) as (_ & _ & P & _).
    rewrite !(norm_nth _ _ _ H). rewrite !linear_raw_nth by lia. rewrite Qn_S.
    assert (1 < Qn n) by (change 1 with (Qn 1); apply Qn_lt; lia). field; try split; lra.
Qed.
Lemma linear_ends y0 yn n w : linear_weights y0 yn n = Ok w -> (2 <= n)%nat -> nth 0 w 0 * yn == nth (n - 1) w 0 * y0.
Proof.
  intros H Hn. apply linear_inv in H as (_ & [[-> _]|[N H]]); [lia|]. pose proof (norm_inv _ _ H) as (_ & _ & P & _).
  rewrite !(norm_nth _ _ _ H). rewrite !linear_raw_nth by lia. assert (E : Qn n == Qn (n - 1) + 1) by (rewrite <- Qn_S; replace (S (n - 1)) with n by lia; reflexivity).
  rewrite E. assert (0 < Qn (n - 1)) by (change 0 with (Qn 0); apply Qn_lt; lia). change (Qn 0) with 0. field; try split; lra.
Qed.
Lemma linear_raw_between y0 yn n i : (2 <= n)%nat -> (i < n)%nat -> exists t, 0 <= t <= 1 /\ (yn - y0) / (Qn n - 1) * Qn i + y0 == (1 - t) * y0 + t * yn.
Proof.
  intros Hn Hi. assert (E : Qn n == Qn (n - 1) + 1) by (rewrite <- Qn_S; replace (S (n - 1)) with n by lia; reflexivity).
  assert (0 < Qn (n - 1)) by (change 0 with (Qn 0); apply Qn_lt; lia). exists (Qn i / Qn (n - 1)). split.
  - assert (Qn i <= Qn (n - 1)) by (apply Qn_le; lia). pose proof (Qn_nonneg i). split; [apply Qle_shift_div_l; lra|apply Qle_shift_div_r; lra].
  - rewrite E. field; try split; lra.
Qed.
Lemma linear_total y0 yn n : (2 <= n)%nat -> ((exists w, linear_weights y0 yn n = Ok w) <-> 0 <= y0 /\ 0 <= yn /\ 0 < y0 + yn).
Proof.
  intro Hn. split.
  - intros (w & H). apply linear_inv in H as (H0 & [[-> _]|[N H]]); [lia|]. split; trivial. apply norm_inv in H as (_ & F & P & _).
    assert (E : Qn n == Qn (n - 1) + 1) by (rewrite <- Qn_S; replace (S (n - 1)) with n by lia; reflexivity).
    assert (PN : 0 < Qn (n - 1)) by (change 0 with (Qn 0); apply Qn_lt; lia).
    assert (Y : 0 <= yn).
    { rewrite Forall_forall in F. assert (I : In (nth (n - 1) (linear_raw y0 yn n) 0) (linear_raw y0 yn n)) by (apply nth_In; rewrite linear_raw_length; lia).
      specialize (F _ I). rewrite linear_raw_nth in F by lia. assert (EE : (yn - y0) / (Qn n - 1) * Qn (n - 1) + y0 == yn) by (rewrite E; field; lra). rewrite EE in F. exact F. }
    split; trivial. destruct (Qlt_le_dec 0 (y0 + yn)); trivial. exfalso. apply qsum_pos_in in P; trivial. destruct P as (x & Hx & Px).
    apply (In_nth _ _ 0) in Hx as (i & Hi & <-). rewrite linear_raw_length in Hi. rewrite linear_raw_nth in Px by exact Hi.
    destruct (linear_raw_between y0 yn n i Hn Hi) as (t & Ht & EE). rewrite EE in Px. assert (y0 == 0) by lra. assert (yn == 0) by lra. rewrite H, H1 in Px. lra.
  - intros (H0 & H1 & H2). unfold linear_weights. destruct (Qltb_spec y0 0); [lra|]. destruct (Nat.eqb_spec n 1); [lia|].
    apply norm_total. assert (F : Forall (fun x => 0 <= x) (linear_raw y0 yn n)).
    { apply Forall_forall. intros x Hx. apply (In_nth _ _ 0) in Hx as (i & Hi & <-). rewrite linear_raw_length in Hi. rewrite linear_raw_nth by exact Hi.
      destruct (linear_raw_between y0 yn n i Hn Hi) as (t & Ht & EE). rewrite EE. nra. }
    split; trivial. assert (E : Qn n == Qn (n - 1) + 1) by (rewrite <- Qn_S; replace (S (n - 1)) with n by lia; reflexivity).
    assert (PN : 0 < Qn (n - 1)) by (change 0 with (Qn 0); apply Qn_lt; lia).
    destruct (Qlt_le_dec 0 y0).
    + exists (nth 0 (linear_raw y0 yn n) 0). split; [apply nth_In; rewrite linear_raw_length; lia|]. rewrite linear_raw_nth by lia. change (Qn 0) with 0. lra.
    + exists (nth (n - 1) (linear_raw y0 yn n) 0). split; [apply nth_In; rewrite linear_raw_length; lia|]. rewrite linear_raw_nth by lia.
      assert (EE : (yn - y0) / (Qn n - 1) * Qn (n - 1) + y0 == yn) by (rewrite E; field; lra). rewrite EE. lra.
Qed.
(** The direction of the slope. *)
Lemma linear_mono y0 yn n w i j : linear_weights y0 yn n = Ok w -> y0 <= yn -> (i <= j < n)%nat -> nth i w 0 <= nth j w 0.
Proof.
  intros H L Hij. apply linear_inv in H as (_ & [[-> ->]|[N H]]).
  - assert (i = 0%nat) by lia. assert (j = 0%nat) by lia. subst. lra.
  - pose proof (norm_inv _ _ H) as (_ & _ & P & _). rewrite !(norm_nth _ _ _ H). rewrite !linear_raw_nth by lia.
    assert (1 < Qn n) by (change 1 with (Qn 1); apply Qn_lt; lia). assert (Qn i <= Qn j) by (apply Qn_le; lia).
    assert (0 <= (yn - y0) / (Qn n - 1)) by (apply Qle_shift_div_l; lra).
    unfold Qdiv at 1 3. apply Qmult_le_compat_r; [|apply Qlt_le_weak, Qinv_lt_0_compat; exact P]. nra.
Qed.

(** * Non-linear default weights *)
Lemma qpow_pos c k : 0 < c -> 0 < qpow c k.
Proof. intro H. induction k; simpl; [lra|nra]. Qed.
Lemma nonlinear_raw_ok c n : 0 < c -> (1 <= n)%nat -> normalise_weights (map (qpow c) (seq 0 n)) = Ok (map (fun x => x / qsum (map (qpow c) (seq 0 n))) (map (qpow c) (seq 0 n))).
Proof.
  intros H Hn. apply norm_ok.
  - rewrite Forall_map. apply Forall_forall. intros k _. apply Qlt_le_weak, qpow_pos, H.
  - apply qsum_pos_in; [rewrite Forall_map; apply Forall_forall; intros k _; apply Qlt_le_weak, qpow_pos, H|].
    exists (qpow c 0). split; [|apply qpow_pos, H]. apply in_map, in_seq. lia.
Qed.
Lemma nonlinear_total c n : (exists w, nonlinear_weights c n = Ok w) <-> 0 < c <= 1 /\ (1 <= n)%nat.
Proof.
  unfold nonlinear_weights. destruct (Qleb_spec c 0); simpl; [split; [intros (w & Hw); discriminate|intros ((? & ?) & ?); lra]|].
  destruct (Qltb_spec 1 c); [split; [intros (w & Hw); discriminate|intros ((? & ?) & ?); lra]|]. split.
  - intros (w & Hw). split; [lra|]. destruct n; [discriminate|lia].
  - intros (_ & Hn). rewrite nonlinear_raw_ok by trivial. eexists; reflexivity.
Qed.
Lemma nonlinear_inv c n w : nonlinear_weights c n = Ok w -> 0 < c <= 1 /\ normalise_weights (map (qpow c) (seq 0 n)) = Ok w.
Proof.
  unfold nonlinear_weights. destruct (Qleb_spec c 0); [discriminate|]. destruct (Qltb_spec 1 c); [discriminate|]. simpl. intuition lra.
Qed.
Lemma nonlinear_basic c n w : nonlinear_weights c n = Ok w -> length w = n /\ qsum w == 1 /\ Forall (fun x => 0 < x <= 1) w.
Proof.
  intro H. apply nonlinear_inv in H as (C & H). split; [rewrite (norm_length _ _ H), map_length, seq_length; reflexivity|]. split; [exact (norm_sum _ _ H)|].
  pose proof (norm_le1 _ _ H) as L. apply norm_inv in H as (_ & _ & P & ->). rewrite Forall_forall in *. intros x Hx. split; [|apply L, Hx].
  apply in_map_iff in Hx as (y & <- & Hy). apply in_map_iff in Hy as (k & <- & _). apply Qlt_shift_div_l; [exact P|]. pose proof (qpow_pos c k). lra.
Qed.
Lemma nonlinear_ratio c n w i : nonlinear_weights c n = Ok w -> (S i < n)%nat -> nth (S i) w 0 == c * nth i w 0.
Proof.
  intros H Hi. apply nonlinear_inv in H as (C & H). rewrite !(norm_nth _ _ _ H). rewrite !nth_map_seq by lia. cbn [qpow]. unfold Qdiv. ring.
Qed.
Lemma nonlinear_decr c n w i j : nonlinear_weights c n = Ok w -> (i <= j < n)%nat -> nth j w 0 <= nth i w 0.
Proof.
  intros H [L Hj]. pose proof (nonlinear_basic _ _ _ H) as (HL & _ & F). rewrite Forall_forall in F. induction L as [|j L IH]; [lra|].
  rewrite (nonlinear_ratio _ _ _ _ H) by lia. assert (nth j w 0 <= nth i w 0) by (apply IH; lia).
  assert (0 < nth j w 0 <= 1) by (apply F, nth_In; lia). apply nonlinear_inv in H as (C & _). nra.
Qed.

(** ** Sorting slices by coordinate *)
Section Ksort.
Context {A : Type}.
Implicit Type l : list (Q * A).
Lemma kinsert_perm (x : Q * A) l : Permutation (x :: l) (kinsert x l).
Proof.
  induction l as [|y l IH]; simpl; [reflexivity|]. destruct (fst x <=? fst y); [reflexivity|]. rewrite perm_swap. apply perm_skip, IH.
Qed.
Lemma ksort_perm l : Permutation l (ksort l).
Proof. induction l as [|x l IH]; simpl; [reflexivity|]. rewrite <- kinsert_perm. apply perm_skip, IH. Qed.
Lemma ksort_length l : length (ksort l) = length l.
Proof. symmetry. apply Permutation_length, ksort_perm. Qed.
Lemma kinsert_keys x l : qsorted (map fst l) -> qsorted (map fst (kinsert x l)).
Proof.
  induction l as [|y l IH]; intro H; simpl; [repeat constructor|]. destruct (Qleb_spec (fst x) (fst y)); simpl.
  - constructor; trivial. simpl in H. inversion H; subst. constructor; trivial. eapply Forall_impl; [|eassumption]. intros; simpl in *; lra.
  - simpl in H. inversion H; subst. constructor; [apply IH; trivial|]. apply (Permutation_Forall (x := map fst (x :: l))).
    + apply Permutation_map, kinsert_perm.
    + simpl. constructor; [lra|trivial].
Qed.
Lemma ksort_keys l : qsorted (map fst (ksort l)).
Proof. induction l as [|x l IH]; simpl; [constructor|]. apply kinsert_keys, IH. Qed.
Definition distinct_keys l := ForallOrdPairs (fun p q : Q * A => ~ fst p == fst q) l.
Lemma distinct_perm l l' : Permutation l l' -> distinct_keys l -> distinct_keys l'.
Proof.
  unfold distinct_keys. induction 1; intro H1; trivial.
  - inversion H1; subst. constructor; auto. eapply Permutation_Forall; eassumption.
  - inversion H1 as [|? ? F1 H2]; subst. inversion H2 as [|? ? F2 H3]; subst. inversion F1; subst. constructor; [constructor; auto|constructor; auto].
    intro X; apply H4; symmetry; exact X.
  - auto.
Qed.
Lemma ksorted_unique l : forall l', qsorted (map fst l) -> qsorted (map fst l') -> distinct_keys l -> Permutation l l' -> l = l'.
Proof.
  induction l as [|x l IH]; intros l' S S' D P.
  - apply Permutation_nil in P. symmetry. exact P.
  - destruct l' as [|y l']; [symmetry in P; apply Permutation_nil in P; discriminate|].
    assert (E : x = y).
    { pose proof (Permutation_in x P (or_introl eq_refl)) as I1. symmetry in P. pose proof (Permutation_in y P (or_introl eq_refl)) as I2.
      destruct I2 as [I2|I2]; [exact I2|]. destruct I1 as [I1|I1]; [symmetry; exact I1|]. exfalso.
      simpl in S, S'. inversion S; inversion S'; subst. inversion D as [|? ? F _]; subst. rewrite Forall_forall in *.
      assert (fst x <= fst y) by (apply H2, in_map, I2). assert (fst y <= fst x) by (apply H6, in_map, I1). apply (F y I2). lra. }
    subst y. f_equal. simpl in S, S'. inversion S; inversion S'; inversion D; subst. apply IH; trivial. apply Permutation_cons_inv in P. exact P.
Qed.
Lemma ksort_unique l l' : distinct_keys l -> Permutation l l' -> ksort l = ksort l'.
Proof.
  intros D P. apply ksorted_unique; try apply ksort_keys; [apply (distinct_perm l); [apply ksort_perm|exact D]|].
  rewrite <- ksort_perm, <- ksort_perm. exact P.
Qed.
Lemma ksort_id l : qsorted (map fst l) -> ksort l = l.
Proof.
  induction l as [|x l IH]; simpl; intro H; [reflexivity|]. inversion H; subst. rewrite IH by trivial. destruct l as [|y l]; [reflexivity|].
  simpl. destruct (Qleb_spec (fst x) (fst y)); [reflexivity|]. inversion H3; subst. lra.
Qed.
End Ksort.

Definition distinct (l : list Q) := ForallOrdPairs (fun p q => ~ p == q) l.
Lemma distinct_map_key {A} (l : list (Q * A)) : distinct (map fst l) -> distinct_keys l.
Proof.
  unfold distinct, distinct_keys. induction l as [|x l IH]; simpl; intro H; constructor; inversion H; subst; [|auto].
  rewrite Forall_map in *. exact H2.
Qed.
Lemma combine_app {A B} (a : list A) : forall (b : list B) a' b', length a = length b -> combine (a ++ a') (b ++ b') = combine a b ++ combine a' b'.
Proof. induction a as [|x a IH]; intros [|y b] a' b' H; try discriminate; simpl; [reflexivity|]. f_equal. apply IH. simpl in H; lia. Qed.
Lemma combine_rev {A B} (a : list A) (b : list B) : length a = length b -> rev (combine a b) = combine (rev a) (rev b).
Proof.
  revert b. induction a as [|x a IH]; intros [|y b] H; try discriminate; simpl; [reflexivity|]. simpl in H. rewrite combine_app by (rewrite !rev_length; lia).
  rewrite IH by lia. reflexivity.
Qed.
(** With inverse_ordering the weights cube is the points in ascending order with the
    weights reversed: the largest point has the largest weight. *)
Lemma nonlinear_inverse c pts out : distinct pts -> nonlinear_process c pts true = Ok out ->
  exists w, nonlinear_weights c (length pts) = Ok w /\ out = combine (map fst (ksort (map (fun p => (p, tt)) pts))) (rev w).
Proof.
  intros D. unfold nonlinear_process, sort_coord_in_cube. set (s := ksort _).
  assert (L : length (map fst (rev s)) = length pts) by (unfold s; rewrite map_length, rev_length, ksort_length, map_length; reflexivity).
  rewrite L. destruct (nonlinear_weights c (length pts)) as [w|] eqn:W; [|discriminate]. cbn [bind]. unfold build_weights_cube. rewrite L.
  destruct (Nat.eqb_spec (length w) (length pts)) as [E|E]; [|discriminate]. cbn [bind]. intros [= <-]. exists w. split; trivial.
  assert (R : rev (combine (map fst (rev s)) w) = combine (map fst s) (rev w)).
  { rewrite combine_rev by (rewrite L; auto). rewrite map_rev, rev_involutive. reflexivity. }
  rewrite <- R.
  assert (K : map fst (rev (combine (map fst (rev s)) w)) = map fst s).
  { rewrite R. apply map_fst_combine. rewrite rev_length. rewrite map_length, rev_length in L. rewrite map_length. lia. }
  transitivity (ksort (rev (combine (map fst (rev s)) w))).
  - apply ksort_unique; [|apply Permutation_rev]. apply distinct_map_key. rewrite map_fst_combine by (rewrite L; auto).
    assert (P : Permutation (map (fun p => (p, tt)) pts) (rev s)) by (rewrite <- Permutation_rev; apply ksort_perm).
    assert (DK : distinct_keys (map (fun p => (p, tt)) pts)).
    { apply distinct_map_key. rewrite map_map. rewrite map_id. exact D. }
    apply (distinct_perm _ _ P) in DK. revert DK. generalize (rev s). unfold distinct, distinct_keys. clear. induction l as [|x l IH]; simpl; intro H; constructor; inversion H; subst; [|auto].
    rewrite Forall_map. exact H2.
  - apply ksort_id. rewrite K. apply ksort_keys.
Qed.
Lemma nonlinear_plain c pts out : nonlinear_process c pts false = Ok out -> exists w, nonlinear_weights c (length pts) = Ok w /\ out = combine pts w.
Proof.
  unfold nonlinear_process, build_weights_cube. destruct (nonlinear_weights c (length pts)) as [w|]; [|discriminate]. cbn [bind].
  destruct (_ =? _)%nat; [|discriminate]. intros [= <-]. eauto.
Qed.

(** * Triangular weights *)
Lemma tri_raw_val mid width p : 0 < width -> tri_raw mid width p == Qmax 0 (1 - Qabs (p - mid) / width).
Proof.
  intro W. unfold tri_raw. assert (D : 0 < / width) by (apply Qinv_lt_0_compat; exact W). assert (WI : width * / width == 1) by (field; lra).
  apply Qabs_case; intro S; destruct (Qleb_spec (mid - width) p), (Qleb_spec p (mid + width)); cbn [andb]; unfold Qdiv; try (destruct (Qeqb_spec p mid)); qmm; try nra.
Qed.
Lemma tri_raw_nonneg mid width p : 0 < width -> 0 <= tri_raw mid width p.
Proof. intro W. rewrite tri_raw_val by exact W. qmm; lra. Qed.
Lemma tri_inv pts mid width w : triangular_weights pts mid width = Ok w -> 0 < width /\ normalise_weights (map (tri_raw mid width) pts) = Ok w.
Proof.
  unfold triangular_weights. destruct (Qeqb_spec width 0) as [|NW]; [discriminate|]. intro H. split; trivial.
  destruct (Qlt_le_dec 0 width) as [|L]; trivial. exfalso. apply norm_inv in H as (_ & F & P & _). apply qsum_pos_in in P; trivial. destruct P as (x & Hx & Px).
  apply in_map_iff in Hx as (p & <- & _). unfold tri_raw in Px. destruct (Qleb_spec (mid - width) p), (Qleb_spec p (mid + width)); simpl in Px; lra.
Qed.
Lemma tri_total pts mid width : (exists w, triangular_weights pts mid width = Ok w) <-> exists p, In p pts /\ Qabs (p - mid) < width.
Proof.
  split.
  - intros (w & H). apply tri_inv in H as (W & H). apply norm_inv in H as (_ & F & P & _). apply qsum_pos_in in P; trivial. destruct P as (x & Hx & Px).
    apply in_map_iff in Hx as (p & <- & Hp). exists p. split; trivial. rewrite tri_raw_val in Px by exact W.
    destruct (Qlt_le_dec (Qabs (p - mid)) width); trivial. exfalso. assert (1 <= Qabs (p - mid) / width) by (apply Qle_shift_div_l; lra). qmm; lra.
  - intros (p & Hp & L). assert (W : 0 < width) by (pose proof (Qabs_nonneg (p - mid)); lra).
    assert (F : Forall (fun x => 0 <= x) (map (tri_raw mid width) pts)) by (rewrite Forall_map; apply Forall_forall; intros; apply tri_raw_nonneg; exact W).
    unfold triangular_weights. destruct (Qeqb_spec width 0); [lra|]. apply norm_total. split; trivial. exists (tri_raw mid width p). split; [apply in_map; exact Hp|].
    rewrite tri_raw_val by exact W. assert (Qabs (p - mid) / width < 1) by (apply Qlt_shift_div_r; lra). qmm; lra.
Qed.
Lemma tri_basic pts mid width w : triangular_weights pts mid width = Ok w -> length w = length pts /\ qsum w == 1 /\ Forall (fun x => 0 <= x <= 1) w.
Proof.
  intro H. apply tri_inv in H as (W & H). split; [rewrite (norm_length _ _ H); apply map_length|]. split; [exact (norm_sum _ _ H)|exact (norm_le1 _ _ H)].
Qed.
Lemma tri_nth pts mid width w i : triangular_weights pts mid width = Ok w -> (i < length pts)%nat ->
  nth i w 0 == Qmax 0 (1 - Qabs (nth i pts 0 - mid) / width) / qsum (map (tri_raw mid width) pts).
Proof.
  intros H Hi. apply tri_inv in H as (W & H). rewrite (norm_nth _ _ _ H). rewrite (nth_map_lt _ _ _ 0) by exact Hi. rewrite tri_raw_val by exact W. reflexivity.
Qed.
Lemma tri_zero pts mid width w i : triangular_weights pts mid width = Ok w -> (i < length pts)%nat -> (nth i w 0 == 0 <-> width <= Qabs (nth i pts 0 - mid)).
Proof.
  intros H Hi. rewrite (tri_nth _ _ _ _ _ H Hi). apply tri_inv in H as (W & H). apply norm_inv in H as (_ & _ & P & _).
  assert (D : 0 < / width) by (apply Qinv_lt_0_compat; exact W). assert (WI : width * / width == 1) by (field; lra).
  set (S := qsum _) in *. clearbody S. assert (DS : 0 < / S) by (apply Qinv_lt_0_compat; exact P). set (a := Qabs _). clearbody a. unfold Qdiv in *. split; intro E.
  - destruct (Qlt_le_dec a width); [|lra]. exfalso. assert (a * / width < 1) by nra. qmm; [|lra]. assert (0 < (1 - a * / width) * / S) by nra. rewrite H1 in E. lra.
  - assert (1 <= a * / width) by nra. qmm; [|rewrite H1; ring]. assert (m == 0) by lra. rewrite H2. ring.
Qed.
Lemma tri_decr pts mid width w i j : triangular_weights pts mid width = Ok w -> (i < length pts)%nat -> (j < length pts)%nat ->
  Qabs (nth i pts 0 - mid) <= Qabs (nth j pts 0 - mid) -> nth j w 0 <= nth i w 0.
Proof.
  intros H Hi Hj L. rewrite (tri_nth _ _ _ _ _ H Hi), (tri_nth _ _ _ _ _ H Hj). apply tri_inv in H as (W & H). apply norm_inv in H as (_ & _ & P & _).
  assert (D : 0 < / width) by (apply Qinv_lt_0_compat; exact W). unfold Qdiv at 1 3. apply Qmult_le_compat_r; [|apply Qlt_le_weak, Qinv_lt_0_compat; exact P].
  unfold Qdiv. assert (Qabs (nth i pts 0 - mid) * / width <= Qabs (nth j pts 0 - mid) * / width) by nra. qmm; lra.
Qed.

(** * ChooseWeightsLinear *)
Lemma pl_np k : forall x0 y0 x, k <> [] -> qssorted (x0 :: map fst k) -> x0 <= x -> x <= last (map fst k) 0 -> pl_from x0 y0 k x == np_from x0 y0 k x.
Proof.
  induction k as [|[x1 y1] r IH]; intros x0 y0 x N HX H0 H1; [easy|]. cbn [pl_from np_from].
  assert (L : x0 < x1) by (inversion HX as [|? ? _ F]; inversion F; trivial). inversion HX as [|? ? HX' _]; subst. destruct r as [|[x2 y2] r].
  - simpl in H1. cbn [np_from]. destruct (Qleb_spec x1 x).
    + assert (E : x == x1) by lra. transitivity (lerp x0 y0 x1 y1 x1); [unfold lerp; rewrite E; reflexivity|]. apply lerp_right; exact L.
    + destruct (Qeqb_spec x0 x) as [E|E]; [|reflexivity]. transitivity (lerp x0 y0 x1 y1 x0); [unfold lerp; rewrite E; reflexivity|apply lerp_left].
  - destruct (Qleb_spec x x1).
    + destruct (Qleb_spec x1 x).
      * assert (E : x == x1) by lra. transitivity (lerp x0 y0 x1 y1 x1); [unfold lerp; rewrite E; reflexivity|]. rewrite lerp_right by exact L.
        transitivity (np_from x1 y1 ((x2, y2) :: r) x1); [symmetry; apply np_from_start; simpl in HX'; inversion HX' as [|? ? _ F]; inversion F; trivial|].
        apply np_from_comp. symmetry; exact E.
      * destruct (Qeqb_spec x0 x) as [E|E]; [|reflexivity]. transitivity (lerp x0 y0 x1 y1 x0); [unfold lerp; rewrite E; reflexivity|apply lerp_left].
    + destruct (Qleb_spec x1 x); [|lra]. apply IH; [discriminate|exact HX'|lra|]. exact H1.
Qed.
Lemma np_from_above k : forall x0 y0 x, qssorted (x0 :: map fst k) -> last (x0 :: map fst k) 0 < x -> np_from x0 y0 k x = last (y0 :: map snd k) 0.
Proof.
  induction k as [|[x1 y1] r IH]; intros x0 y0 x HX H; [reflexivity|]. inversion HX as [|? ? HX' F]; subst. cbn [np_from].
  assert (G : x1 <= last (x0 :: map fst ((x1, y1) :: r)) 0).
  { change (x1 <= last (x1 :: map fst r) 0). rewrite last_nth. apply (qsorted_nth (x1 :: map fst r) 0 0); [apply qssorted_qsorted; exact HX'|simpl; lia]. }
  destruct (Qleb_spec x1 x); [|lra]. rewrite IH; [reflexivity|exact HX'|exact H].
Qed.
Lemma config_weight_np c t : length (wc_points c) = length (wc_weights c) -> (2 <= length (wc_points c))%nat -> qssorted (wc_points c) ->
  config_weight c t == np_interp (combine (wc_points c) (wc_weights c)) t.
Proof.
  destruct c as [xs ys]. cbn [wc_points wc_weights]. intros HL H2 HX. unfold config_weight, interp1d_fill. cbn [wc_points wc_weights].
  rewrite ksort_id by (rewrite map_fst_combine by exact HL; apply qssorted_qsorted; exact HX). rewrite map_fst_combine, map_snd_combine by exact HL.
  destruct xs as [|x0 xs]; [simpl in H2; lia|]. destruct ys as [|y0 ys]; [discriminate|]. simpl in HL, H2. cbn [hd combine].
  assert (LL : length xs = length ys) by lia. cbn [np_interp]. destruct (Qltb_spec t x0); [reflexivity|]. destruct (Qltb_spec (last (x0 :: xs) 0) t).
  - rewrite np_from_above; [rewrite map_snd_combine by exact LL; reflexivity|rewrite map_fst_combine by exact LL; exact HX|rewrite map_fst_combine by exact LL; assumption].
  - assert (NE : xs <> []) by (intros ->; simpl in H2; lia). rewrite interp1d_pl; [|lia|exact NE|exact HX].
    apply pl_np; [destruct xs, ys; try discriminate; easy|rewrite map_fst_combine by exact LL; exact HX|lra|].
    rewrite map_fst_combine by exact LL. destruct xs; [easy|]. assumption.
Qed.
Lemma mapM_inv' {A B} (f : A -> result B) l : forall out, mapM f l = Ok out -> Forall2 (fun x y => f x = Ok y) l out.
Proof.
  induction l as [|x l IH]; simpl; intros out H; [injection H as <-; constructor|]. destruct (f x) eqn:E; [|discriminate]. cbn [bind] in H.
  destruct (mapM f l) eqn:E1; [|discriminate]. injection H as <-. constructor; auto.
Qed.
Lemma choose_linear_spec cs targets out : choose_weights_linear cs targets = Ok out ->
  length out = length targets /\ Forall (fun c => length (wc_points c) = length (wc_weights c)) cs /\
  forall i, (i < length targets)%nat ->
    let raw := map (fun c => config_weight c (nth i targets 0)) cs in
    Forall (fun x => 0 <= x) raw /\ 0 < qsum raw /\ nth i out [] = map (fun x => x / qsum raw) raw.
Proof.
  unfold choose_weights_linear, check_config. destruct (forallb _ cs) eqn:E; [|discriminate]. cbn [bind]. unfold normalise_weights_axis. intro H.
  apply mapM_inv' in H. pose proof (Forall2_len _ _ _ H) as L. rewrite map_length in L. split; [auto|]. split.
  - apply Forall_forall. intros c Hc. rewrite forallb_forall in E. apply Nat.eqb_eq, E, Hc.
  - intros i Hi. set (raw := map _ cs). assert (G : normalise_weights (nth i (map (fun t => map (fun c => config_weight c t) cs) targets) []) = Ok (nth i out [])).
    { clear - H Hi. revert i Hi. remember (map _ targets) as rows eqn:R. assert (length rows = length targets) by (rewrite R; apply map_length). rewrite <- H0. clear R H0.
      induction H; intros i Hi; [simpl in Hi; lia|]. destruct i; simpl; trivial. apply IHForall2. simpl in Hi. lia. }
    rewrite (nth_map_lt _ _ _ 0) in G by exact Hi. fold raw in G. apply norm_inv in G as (_ & F & P & Eo). auto.
Qed.
(** A configuration listed in descending order: below the smallest configured point the
    weight of the largest one is used. *)
Lemma descending_fill_witness :
  exists c t, length (wc_points c) = length (wc_weights c) /\ wc_points c = [12; 6] /\ wc_weights c = [1; 0] /\
  config_weight c 6 == 0 /\ t < 6 /\ config_weight c t == 1 /\ config_weight c 12 == 1 /\ config_weight c 13 == 0.
Proof. exists {| wc_points := [12; 6]; wc_weights := [1; 0] |}, 3. repeat split; reflexivity. Qed.
