(** Proofs for C47. *)
From Verif Require Import Base Model_Table Spec_Table.
Local Open Scope Q_scope.

Lemma fold_last l (i : Z) : fold_left (fun _ k => Z.of_nat k) l i = match l with [] => i | _ => Z.of_nat (last l 0%nat) end.
Proof. revert i. induction l as [|x l IH]; intro i; [reflexivity|]. cbn [fold_left]. rewrite IH. destruct l; reflexivity. Qed.

Lemma filter_prefix v l : qsorted l -> forall i, (i < length l)%nat -> (nth i l 0 <= v <-> (i < length (filter (fun x => (x <=? v)%Q) l))%nat).
Proof.
  induction 1 as [|x l S IH F]; intros i Hi; [simpl in Hi; lia|]. cbn [filter]. destruct (Qleb_spec x v) as [H|H].
  - destruct i as [|i]; cbn [nth length]; [split; [lia|easy]|]. simpl in Hi. rewrite (IH i) by lia. lia.
  - assert (E : filter (fun x => x <=? v) l = []).
    { rewrite Forall_forall in F.
      assert (G : forall y, In y l -> (y <=? v) = false) by (intros y Hy; apply Qleb_gt; specialize (F y Hy); lra).
      clear - G. induction l as [|y l IH]; [reflexivity|]. cbn [filter]. rewrite (G y) by (left; reflexivity). apply IH. intros; apply G; right; assumption. }
    rewrite E. cbn [length]. split; [|lia]. intro K. exfalso. destruct i as [|i]; cbn [nth] in K; [lra|].
    rewrite Forall_forall in F. simpl in Hi. specialize (F (nth i l 0) ltac:(apply nth_In; lia)). lra.
Qed.

Lemma last_filter_seq f n m j : last (filter f (seq n m)) 0%nat = j -> filter f (seq n m) <> [] ->
  f j = true /\ (n <= j < n + m)%nat /\ forall k, (j < k < n + m)%nat -> f k = false.
Proof.
  revert n. induction m as [|m IH]; intros n H N; [destruct (N eq_refl)|]. cbn [seq filter] in *. destruct (f n) eqn:E.
  - destruct (filter f (seq (S n) m)) as [|y r] eqn:R.
    + cbn in H. subst j. split; [exact E|]. split; [lia|]. intros k Hk.
      destruct (f k) eqn:K; [|reflexivity]. assert (In k (filter f (seq (S n) m))) by (apply filter_In; split; [apply in_seq; lia|exact K]).
      rewrite R in H. destruct H.
    + rewrite <- R in H. assert (H' : last (filter f (seq (S n) m)) 0%nat = j) by (rewrite R in H |- *; exact H).
      destruct (IH (S n) H') as (A & B & C); [rewrite R; discriminate|]. split; [exact A|]. split; [lia|]. intros; apply C; lia.
  - destruct (IH (S n) H N) as (A & B & C). split; [exact A|]. split; [lia|]. intros; apply C; lia.
Qed.

Lemma index_spec labels v : qsorted labels -> labels <> [] ->
  exists i, nearest_lower_index labels v = Z.of_nat i /\ (i < length labels)%nat /\ label_for (fun x => In x labels) v (nth i labels 0).
Proof.
  intros SO NE. unfold nearest_lower_index. cbv zeta. rewrite fold_last.
  assert (L : (0 < length labels)%nat) by (destruct labels; [easy|simpl; lia]).
  destruct (within_tol labels v) as [|z r] eqn:W.
  - assert (FAR : forall i, (i < length labels)%nat -> tol <= Qabs (nth i labels 0 - v)).
    { intros i Hi. destruct (Qlt_le_dec (Qabs (nth i labels 0 - v)) tol) as [H|H]; [|exact H]. exfalso.
      assert (K : In i (within_tol labels v)) by (apply filter_In; split; [apply in_seq; lia|apply Qltb_lt; exact H]). rewrite W in K. destruct K. }
    assert (EQV : forall i, (i < length labels)%nat -> (nth i labels 0 < v + tol <-> nth i labels 0 <= v)).
    { intros i Hi. specialize (FAR i Hi). unfold tol in *. split; intro H; [|lra]. destruct (Qlt_le_dec v (nth i labels 0)) as [G|G]; [|exact G].
      rewrite Qabs_pos in FAR by lra. lra. }
    unfold searchsorted_right. set (k := length (filter (fun l => l <=? v) labels)).
    pose proof (filter_prefix v labels SO) as FP. fold k in FP.
    assert (KL : (k <= length labels)%nat) by (subst k; clear; induction labels as [|x l IH]; [simpl; lia|cbn [filter]; destruct (x <=? v); simpl; lia]).
    clearbody k. exists (k - 1)%nat. split; [lia|]. split; [lia|]. split; [apply nth_In; lia|].
    destruct k as [|k].
    + right. intros m Hm. apply (In_nth _ _ 0) in Hm. destruct Hm as (j & Hj & <-). split.
      * destruct (Qlt_le_dec (nth j labels 0) (v + tol)) as [H|H]; [|exact H]. apply (EQV j Hj) in H. apply (FP j Hj) in H. lia.
      * apply qsorted_nth; [exact SO|lia].
    + left. replace (S k - 1)%nat with k by lia. split.
      * apply (EQV k); [lia|]. apply FP; lia.
      * intros m Hm K. apply (In_nth _ _ 0) in Hm. destruct Hm as (j & Hj & <-). apply (EQV j Hj) in K. apply (FP j Hj) in K.
        apply qsorted_nth; [exact SO|lia].
  - rewrite <- W. assert (N : within_tol labels v <> []) by (rewrite W; discriminate). clear W z r.
    destruct (last_filter_seq _ _ _ _ eq_refl N) as (A & B & C). fold (within_tol labels v) in A, B, C.
    change (filter (fun i : nat => Qabs (nth i labels 0 - v) <? tol) (seq 0 (length labels))) with (within_tol labels v) in A, B, C.
    set (j := last (within_tol labels v) 0%nat) in *. clearbody j. apply Qltb_lt in A.
    exists j. split; [lia|]. split; [lia|]. split; [apply nth_In; lia|]. left. unfold tol in *. apply Qabs_Qlt_condition in A. split; [lra|].
    intros m Hm K. apply (In_nth _ _ 0) in Hm. destruct Hm as (k & Hk & <-). destruct (Nat.le_gt_cases k j) as [H|H].
    + apply qsorted_nth; [exact SO|lia].
    + exfalso. specialize (C k ltac:(lia)). apply Qltb_ge in C. pose proof (qsorted_nth labels 0 j k SO ltac:(lia)).
      assert (Qabs (nth k labels 0 - v) < 1 # 100000) by (apply Qabs_Qlt_condition; lra). lra.
Qed.

Lemma label_for_ext (P P' : Q -> Prop) v l l' : (forall m, P m -> exists m', P' m' /\ m' == m) -> (forall m, P' m -> exists m', P m' /\ m' == m) ->
  P' l' -> l' == l -> label_for P v l -> label_for P' v l'.
Proof.
  intros H K Hl E [_ [[A B]|A]]; split; try assumption; [left|right].
  - split; [lra|]. intros m Hm Hv. destruct (K m Hm) as (m' & Hm' & Em). specialize (B m' Hm'). lra.
  - intros m Hm. destruct (K m Hm) as (m' & Hm' & Em). specialize (A m' Hm'). lra.
Qed.

Lemma dedup_in l x : In x (dedup l) -> In x l.
Proof. induction l as [|y l IH]; [easy|]. cbn [dedup]. intros [->|H]; [left; reflexivity|]. apply filter_In in H. right. apply IH, H. Qed.
Lemma dedup_cover l x : In x l -> exists y, In y (dedup l) /\ y == x.
Proof.
  induction l as [|z l IH]; [easy|]. cbn [dedup]. intros [->|H]; [exists x; split; [left; reflexivity|reflexivity]|].
  destruct (IH H) as (y & Hy & E). destruct (Qeqb_spec y z) as [G|G].
  - exists z. split; [left; reflexivity|lra].
  - exists y. split; [right; apply filter_In; split; [exact Hy|]|exact E]. destruct (Qeqb_spec y z); [contradiction|reflexivity].
Qed.
Lemma rows_in t x : In x (row_labels t) -> is_row t x.
Proof.
  unfold row_labels. intro H. apply (Permutation_in _ (Permutation_sym (qsort_perm _))), dedup_in, in_flat_map in H. destruct H as (c & Hc & H). exists c. auto.
Qed.
Lemma rows_cover t x : is_row t x -> exists y, In y (row_labels t) /\ y == x.
Proof.
  intros (c & Hc & H). destruct (dedup_cover (flat_map (fun c => map fst (snd c)) t) x) as (y & Hy & E); [apply in_flat_map; eauto|].
  exists y. split; [|exact E]. apply (Permutation_in _ (qsort_perm _)). exact Hy.
Qed.
Lemma columns_in t x : In x (column_labels t) <-> is_column t x.
Proof. unfold column_labels, is_column. split; apply Permutation_in; [apply Permutation_sym|]; apply qsort_perm. Qed.

Lemma distinct_in l x y : distinct l -> In x l -> In y l -> x == y -> x = y.
Proof.
  induction 1 as [|a l F D IH]; [easy|]. rewrite Forall_forall in F. intros [->|Hx] [->|Hy] E; auto; exfalso.
  - exact (F y Hy E).
  - apply (F x Hx). lra.
Qed.
Lemma distinct_cons a l : distinct (a :: l) -> distinct l /\ forall x, In x l -> ~ a == x.
Proof. intro H. inversion H as [|? ? F D]; subst. rewrite Forall_forall in F. auto. Qed.
Lemma lookup_spec {A} l (d : list (Q * A)) a : distinct (map fst d) -> (lookup l d = Some a <-> exists l', l' == l /\ In (l', a) d).
Proof.
  unfold lookup. induction d as [|[k b] d IH]; intro D; [cbn; split; [discriminate|intros (? & _ & [])]|].
  cbn [map fst] in D. apply distinct_cons in D. destruct D as [D N]. cbn [find fst]. destruct (Qeqb_spec k l) as [E|E]; cbn [option_map snd].
  - split; [intro H; injection H as ->; exists k; split; [exact E|left; reflexivity]|].
    intros (l' & El & [H|H]); [injection H as -> ->; reflexivity|]. exfalso. apply (N l'); [apply in_map_iff; exists (l', a); auto|lra].
  - rewrite (IH D). split; intros (l' & El & H); exists l'; split; try exact El; [right; exact H|]. destruct H as [H|H]; [injection H as -> ->; contradiction|exact H].
Qed.
Lemma lookup_none {A} l (d : list (Q * A)) : lookup l d = None <-> forall l' a, In (l', a) d -> ~ l' == l.
Proof.
  unfold lookup. destruct (find (fun p => fst p =? l) d) as [[k b]|] eqn:F; cbn [option_map].
  - apply find_some in F. destruct F as [I E]. cbn [fst] in E. apply Qeqb_eq in E. split; [discriminate|]. intro H. destruct (H k b I E).
  - split; [|reflexivity]. intros _ l' a I E. apply (find_none _ _ F) in I. cbn [fst] in I. apply Qeqb_eq in E. congruence.
Qed.

Lemma at_index_nat l i : (i < length l)%nat -> at_index l (Z.of_nat i) = Ok (nth i l 0).
Proof. intro H. unfold at_index. rewrite Nat2Z.id, (nth_error_nth' l 0 H). reflexivity. Qed.

(** The two labels used, for a table with rows and columns. *)
Lemma row_found t v : row_labels t <> [] -> exists r, at_index (row_labels t) (nearest_lower_index (row_labels t) v) = Ok r /\ In r (row_labels t) /\ label_for (is_row t) v r.
Proof.
  intro N. destruct (index_spec (row_labels t) v) as (i & -> & Hi & H); [apply qsort_sorted|exact N|]. exists (nth i (row_labels t) 0).
  split; [apply at_index_nat; exact Hi|]. split; [apply nth_In; exact Hi|].
  apply (label_for_ext (fun x => In x (row_labels t)) (is_row t) v (nth i (row_labels t) 0)); [|apply rows_cover|apply rows_in, nth_In; exact Hi|reflexivity|exact H].
  intros m Hm. exists m. split; [apply rows_in; exact Hm|reflexivity].
Qed.
Lemma column_found t v : t <> [] -> exists c, at_index (column_labels t) (nearest_lower_index (column_labels t) v) = Ok c /\ label_for (is_column t) v c.
Proof.
  intro N. assert (NE : column_labels t <> []).
  { destruct t as [|[c x] t]; [easy|]. intro E. assert (In c (column_labels ((c, x) :: t))) by (apply columns_in; left; reflexivity). rewrite E in H. destruct H. }
  destruct (index_spec (column_labels t) v) as (i & -> & Hi & H); [apply qsort_sorted|exact NE|]. exists (nth i (column_labels t) 0).
  split; [apply at_index_nat; exact Hi|].
  apply (label_for_ext (fun x => In x (column_labels t)) (is_column t) v (nth i (column_labels t) 0)); [| |apply columns_in, nth_In; exact Hi|reflexivity|exact H];
    intros m Hm; exists m; (split; [apply columns_in; exact Hm|reflexivity]).
Qed.

Lemma extract_point_value t rv cv o : well_formed t -> extract_point t (Some rv) (Some cv) = Ok o -> table_value t rv cv o.
Proof.
  intros [WC WR] H. unfold extract_point in H. cbn [index_of_value] in H.
  assert (NT : t <> []) by (intros ->; vm_compute in H; discriminate).
  destruct (column_found t cv NT) as (c & Ec & Lc). rewrite Ec in H. cbn [bind] in H.
  assert (NR : row_labels t <> []).
  { intro E. rewrite E in H. unfold at_index in H. rewrite (proj2 (nth_error_None _ _)) in H by (simpl; lia). discriminate. }
  destruct (row_found t rv NR) as (r & Er & _ & Lr). rewrite Er in H. cbn [bind] in H. injection H as <-.
  unfold entry. destruct (lookup c t) as [cells|] eqn:K.
  - apply (lookup_spec c t cells WC) in K. destruct K as (c' & E & I).
    assert (c' = c) as -> by (apply (distinct_in (map fst t)); [exact WC|apply in_map_iff; exists (c', cells); auto|apply Lc|exact E]).
    assert (DC : distinct (map fst cells)) by (rewrite Forall_forall in WR; exact (WR _ I)).
    destruct (lookup r cells) as [x|] eqn:X.
    + apply (lookup_spec r cells x DC) in X. destruct X as (r' & E' & I'). exists r', c.
      split; [apply (label_for_ext (is_row t) (is_row t) rv r); [intros; eexists; split; [eassumption|reflexivity]|intros; eexists; split; [eassumption|reflexivity]| |exact E'|exact Lr]|].
      * exists (c, cells). split; [exact I|]. apply in_map_iff. exists (r', x). auto.
      * split; [exact Lc|]. exists cells. auto.
    + exists r, c. split; [exact Lr|]. split; [exact Lc|]. intros r' x E' (cells' & I1 & I2). 
      assert (cells' = cells).
      { clear - WC I I1. induction t as [|[k b] t IH]; [easy|]. cbn [map fst] in WC. apply distinct_cons in WC. destruct WC as [D N].
        destruct I as [I|I], I1 as [I1|I1]; auto.
        - congruence.
        - injection I as -> ->. exfalso. apply (N c); [apply in_map_iff; exists (c, cells'); auto|reflexivity].
        - injection I1 as -> ->. exfalso. apply (N c); [apply in_map_iff; exists (c, cells); auto|reflexivity]. }
      subst cells'. apply (proj1 (lookup_none r cells) X r' x I2). exact E'.
  - exfalso. destruct Lc as [Lc _]. unfold is_column in Lc. apply in_map_iff in Lc. destruct Lc as ([c' a] & E & I). cbn in E. subst c'.
    apply (proj1 (lookup_none c t) K c a I). reflexivity.
Qed.

Lemma extract_point_total t rv cv : (exists c r x, holds t r c x) -> exists o, extract_point t rv cv = Ok o.
Proof.
  intros (c0 & r0 & x0 & cells & I1 & I2). unfold extract_point.
  assert (NT : t <> []) by (intros ->; destruct I1).
  assert (NR : row_labels t <> []).
  { destruct (rows_cover t r0) as (y & Hy & _); [exists (c0, cells); split; [exact I1|apply in_map_iff; exists (r0, x0); auto]|]. intro E. rewrite E in Hy. destruct Hy. }
  assert (C : exists c, at_index (column_labels t) (index_of_value (column_labels t) cv) = Ok c).
  { destruct cv as [v|]; [destruct (column_found t v NT) as (c & E & _); eauto|]. cbn [index_of_value].
    assert (K : column_labels t <> []) by (intro E; assert (X : In c0 (column_labels t)) by (apply columns_in, in_map_iff; exists (c0, cells); auto); rewrite E in X; destruct X).
    destruct (column_labels t) as [|a l]; [easy|]. replace (Z.max 0 (Z.of_nat (length (a :: l)) - 1)) with (Z.of_nat (length l)) by (simpl length; lia).
    eexists. apply at_index_nat. simpl; lia. }
  assert (R : exists r, at_index (row_labels t) (index_of_value (row_labels t) rv) = Ok r).
  { destruct rv as [v|]; [destruct (row_found t v NR) as (r & E & _); eauto|]. cbn [index_of_value].
    destruct (row_labels t) as [|a l]; [easy|]. replace (Z.max 0 (Z.of_nat (length (a :: l)) - 1)) with (Z.of_nat (length l)) by (simpl length; lia).
    eexists. apply at_index_nat. simpl; lia. }
  destruct C as (c & ->), R as (r & ->). cbn [bind]. eauto.
Qed.
Lemma extract_point_nan t rv cv o : extract_point t rv cv = Ok o -> rv = None \/ cv = None -> o = None.
Proof.
  unfold extract_point. destruct (at_index _ _); [|discriminate]. cbn [bind]. destruct (at_index _ _); [|discriminate]. cbn [bind].
  intros H [-> | ->]; injection H as <-; [reflexivity|]. destruct rv; reflexivity.
Qed.

(** The value read is determined by the labels: uniqueness. *)
Lemma label_for_unique P v l m : label_for P v l -> label_for P v m -> l == m.
Proof.
  intros [Pl [[A B]|A]] [Pm [[C D]|C]].
  - specialize (B m Pm C). specialize (D l Pl A). lra.
  - specialize (C l Pl). lra.
  - specialize (A m Pm). lra.
  - pose proof (A m Pm). pose proof (C l Pl). lra.
Qed.
Lemma label_for_mono P v v' l l' : v <= v' -> label_for P v l -> label_for P v' l' -> l <= l'.
Proof.
  intros H [Pl [[A B]|A]] [Pm [[C D]|C]].
  - apply (D l Pl). lra.
  - specialize (C l Pl). lra.
  - apply (A l' Pm).
  - apply (A l' Pm).
Qed.

Lemma holds_functional t r r' c c' x x' : well_formed t -> r == r' -> c == c' -> holds t r c x -> holds t r' c' x' -> x = x'.
Proof.
  intros [WC WR] Er Ec (cells & I & J) (cells' & I' & J').
  assert (c = c') as <- by (apply (distinct_in (map fst t)); [exact WC|apply in_map_iff; exists (c, cells); auto|apply in_map_iff; exists (c', cells'); auto|exact Ec]).
  assert (G : forall (A : Type) (d : list (Q * A)) k (a b : A), distinct (map fst d) -> In (k, a) d -> In (k, b) d -> a = b).
  { clear. intros A d k a b D I J. induction d as [|[k' e] d IH]; [easy|]. cbn [map fst] in D. apply distinct_cons in D. destruct D as [D N].
    destruct I as [I|I], J as [J|J]; auto.
    - congruence.
    - injection I as -> ->. exfalso. apply (N k); [apply in_map_iff; exists (k, b); auto|reflexivity].
    - injection J as -> ->. exfalso. apply (N k); [apply in_map_iff; exists (k, a); auto|reflexivity]. }
  assert (cells' = cells) as -> by exact (G _ t c cells' cells WC I' I).
  rewrite Forall_forall in WR. specialize (WR _ I). cbn [snd] in WR.
  assert (r = r') as <- by (apply (distinct_in (map fst cells)); [exact WR|apply in_map_iff; exists (r, x); auto|apply in_map_iff; exists (r', x'); auto|exact Er]).
  exact (G _ cells r x x' WR J J').
Qed.
Lemma table_value_unique t rv cv o o' : well_formed t -> table_value t rv cv o -> table_value t rv cv o' -> o = o'.
Proof.
  intros W (r & c & Lr & Lc & H) (r' & c' & Lr' & Lc' & H').
  pose proof (label_for_unique _ _ _ _ Lr Lr') as Er. pose proof (label_for_unique _ _ _ _ Lc Lc') as Ec.
  assert (c = c') as <- by (apply (distinct_in (map fst t)); [apply W|apply Lc|apply Lc'|exact Ec]).
  destruct o as [x|], o' as [x'|]; [f_equal; exact (holds_functional t r r' c c x x' W Er Ec H H')| | |reflexivity]; exfalso.
  - exact (H' r x Er H).
  - apply (H r' x'); [lra|exact H'].
Qed.
Lemma table_value_perm t t' rv cv o : Permutation t t' -> table_value t rv cv o -> table_value t' rv cv o.
Proof.
  intros P (r & c & Lr & Lc & H).
  assert (HI : forall p, In p t <-> In p t') by (intro p; split; apply Permutation_in; [exact P|apply Permutation_sym; exact P]).
  assert (HR : forall x, is_row t x <-> is_row t' x) by (intro x; unfold is_row; split; intros (k & A & B); exists k; split; try exact B; apply HI; exact A).
  assert (HC : forall x, is_column t x <-> is_column t' x) by (intro x; unfold is_column; split; apply Permutation_in, Permutation_map; [exact P|apply Permutation_sym; exact P]).
  assert (HH : forall r c x, holds t r c x <-> holds t' r c x) by (intros; unfold holds; split; intros (k & A & B); exists k; split; try exact B; apply HI; exact A).
  assert (G : forall (A B : Q -> Prop) v l, (forall x, A x <-> B x) -> label_for A v l -> label_for B v l).
  { intros A B v l E [X [[Y Z]|Y]]; (split; [apply E; exact X|]); [left; split; [exact Y|]; intros m Hm; apply Z, E, Hm|right; intros m Hm; apply Y, E, Hm]. }
  exists r, c. split; [exact (G _ _ _ _ HR Lr)|]. split; [exact (G _ _ _ _ HC Lc)|].
  destruct o as [x|]; [apply HH; exact H|]. intros r' x E K. apply (H r' x E), HH, K.
Qed.
Lemma well_formed_perm t t' : Permutation t t' -> well_formed t -> well_formed t'.
Proof.
  intros P [A B]. split; [|eapply Permutation_Forall; eassumption].
  assert (P' := Permutation_map fst P). revert A. generalize (map fst t') (map fst t) P'. clear. intros l m P. unfold distinct.
  induction P as [|x l l' P IH|x y l|l l' l'' P1 IH1 P2 IH2]; intro A; [exact A| | |auto].
  - inversion A as [|? ? F D]; subst. constructor; [eapply Permutation_Forall; eassumption|auto].
  - inversion A as [|? ? F D]; subst. inversion D as [|? ? F' D']; subst. inversion F; subst. constructor; [constructor; [lra|assumption]|]. constructor; assumption.
Qed.
Lemma mapM_forall2 {A B} (f : A -> result B) l m : mapM f l = Ok m -> Forall2 (fun a b => f a = Ok b) l m.
Proof.
  revert m. induction l as [|x l IH]; intros m H; cbn [mapM] in H; [injection H as <-; constructor|].
  destruct (f x) as [b|] eqn:E; [|discriminate]. cbn [bind] in H. destruct (mapM f l) as [bs|]; [|discriminate]. cbn [bind] in H. injection H as <-. constructor; auto.
Qed.
Lemma mapM_total {A B} (f : A -> result B) l : (forall x, In x l -> exists y, f x = Ok y) -> exists m, mapM f l = Ok m.
Proof.
  induction l as [|x l IH]; intro H; cbn [mapM]; [eauto|]. destruct (H x) as (y & ->); [left; reflexivity|]. cbn [bind].
  destruct IH as (m & ->); [intros; apply H; right; assumption|]. cbn [bind]. eauto.
Qed.
