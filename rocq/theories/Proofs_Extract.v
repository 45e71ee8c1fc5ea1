From Verif Require Import Base Model_Extract Spec_Extract.
Local Open Scope Q_scope.

Lemma isclose_spec x y : isclose x y = true <-> Qabs (x - y) <= (1 # 100000000) + (1 # 100000) * Qabs y.
Proof. unfold isclose. apply Qle_bool_iff. Qed.
Lemma passes_spec t x : passes t x = true <-> allowed t x.
Proof.
  destruct t as [l|a b s]; cbn [passes allowed].
  - rewrite existsb_exists. split; intros (y & I & H); exists y; (split; [exact I|]); apply isclose_spec; exact H.
  - unfold range_test, tolerance. rewrite Bool.andb_true_iff, !Qle_bool_iff. reflexivity.
Qed.
Lemma meets_spec cs k x : meets cs k x = true <-> forall t, In (k, t) cs -> allowed t x.
Proof.
  unfold meets. rewrite forallb_forall. split.
  - intros H t I. specialize (H _ I). cbn [fst snd] in H. rewrite String.eqb_refl in H. cbn in H. apply passes_spec. exact H.
  - intros H [k' t] I. cbn [fst snd]. destruct (String.eqb_spec k' k) as [->|]; [|reflexivity]. cbn. apply passes_spec. apply H. exact I.
Qed.
Lemma positions_spec cs us d i : In i (positions cs us d) <-> (i < length (d_points d))%nat /\ forall t, In (d_name d, t) cs -> allowed t (in_units us (d_name d) (nth i (d_points d) 0)).
Proof. unfold positions. rewrite filter_In, in_seq, meets_spec. split; intros [A B]; (split; [lia|exact B]). Qed.
Lemma positions_nodup cs us d : NoDup (positions cs us d).
Proof. apply NoDup_filter, seq_NoDup. Qed.

(** ** The positions of an index of the result *)
Section Cells.
  Variables (cs : list constraint) (us : list (string * conversion)).
  Let ps (ds : list dim) := map (positions cs us) ds.
  Let outdims (back : bool) (ds : list dim) := map (fun dp => pick_dim back us (fst dp) (snd dp)) (filter (fun dp => negb (demoted cs (fst dp) (snd dp))) (combine ds (ps ds))).
  Lemma rebuild_in back ds : forallb (fun p : list nat => match p with [] => false | _ => true end) (ps ds) = true -> forall idx,
    Forall2 (fun i d => (i < length (d_points d))%nat) idx (outdims back ds) -> Forall2 (fun i d => In i (positions cs us d)) (rebuild cs ds (ps ds) idx) ds.
  Proof.
    induction ds as [|d ds IH]; intros N idx H; cbn [ps map rebuild]; [constructor|]. cbn [ps map forallb] in N. apply Bool.andb_true_iff in N. destruct N as [N1 N2].
    unfold outdims, ps in H. cbn [map combine filter fst snd] in H. destruct (demoted cs d (positions cs us d)) eqn:D.
    - constructor; [|apply IH; [exact N2|exact H]]. destruct (positions cs us d) as [|i p]; [discriminate|]. left. reflexivity.
    - cbn [negb map] in H. inversion H as [|i d' idx' ds' Hi HR]; subst. constructor; [|apply IH; assumption]. cbn [pick_dim d_points fst snd] in Hi. rewrite map_length in Hi. apply nth_In. exact Hi.
  Qed.
  Lemma rebuild_onto back ds : forall idx', Forall2 (fun i d => In i (positions cs us d)) idx' ds ->
    exists idx, Forall2 (fun i d => (i < length (d_points d))%nat) idx (outdims back ds) /\ rebuild cs ds (ps ds) idx = idx'.
  Proof.
    induction ds as [|d ds IH]; intros idx' H; inversion H as [|i d' idx'' ds' Hi HR]; subst.
    - exists []. split; [constructor|reflexivity].
    - destruct (IH _ HR) as (idx & A & B). unfold outdims, ps. cbn [map combine filter fst snd]. destruct (demoted cs d (positions cs us d)) eqn:D.
      + exists idx. cbn [negb rebuild]. rewrite D. unfold ps in B. rewrite B. split; [exact A|]. f_equal. unfold demoted in D. apply Bool.andb_true_iff in D. destruct D as [D _].
        apply Nat.eqb_eq in D. destruct (positions cs us d) as [|j [|]]; try discriminate. destruct Hi as [->|[]]. reflexivity.
      + destruct (In_nth _ _ 0%nat Hi) as (n & Ln & En). exists (n :: idx). cbn [negb map rebuild]. rewrite D. split.
        * constructor; [cbn [pick_dim d_points fst snd]; rewrite map_length; exact Ln|exact A].
        * rewrite En. unfold ps in B. rewrite B. reflexivity.
  Qed.
  Lemma rebuild_inj back ds : forall idx jdx, Forall2 (fun i d => (i < length (d_points d))%nat) idx (outdims back ds) -> Forall2 (fun i d => (i < length (d_points d))%nat) jdx (outdims back ds) ->
    rebuild cs ds (ps ds) idx = rebuild cs ds (ps ds) jdx -> idx = jdx.
  Proof.
    induction ds as [|d ds IH]; intros idx jdx A B E.
    - inversion A; inversion B; reflexivity.
    - unfold outdims, ps in A, B, E. cbn [map combine filter fst snd rebuild] in *. destruct (demoted cs d (positions cs us d)) eqn:D; cbn [negb map] in A, B.
      + injection E as E. apply IH; assumption.
      + inversion A as [|i ? ix ? Hi HA]; inversion B as [|j ? jx ? Hj HB]; subst. injection E as E1 E2. cbn [pick_dim d_points fst snd] in Hi, Hj. rewrite map_length in Hi, Hj.
        f_equal; [|apply IH; assumption]. apply (NoDup_nth (positions cs us d) 0%nat); [apply positions_nodup|assumption..].
  Qed.
  (** Positions keep their order. *)
  Lemma rebuild_labels back ds : forallb (fun p : list nat => match p with [] => false | _ => true end) (ps ds) = true -> forall idx,
    Forall2 (fun i d => (i < length (d_points d))%nat) idx (outdims back ds) ->
    Permutation (map (fun p => (d_name (fst p), nth (snd p) (d_points (fst p)) 0)) (combine (outdims back ds) idx) ++
                 map (fun dp => (d_name (fst dp), final_point back us (d_name (fst dp)) (nth (nth 0 (snd dp) 0%nat) (d_points (fst dp)) 0))) (filter (fun dp => demoted cs (fst dp) (snd dp)) (combine ds (ps ds))))
                (map (fun p => (d_name (fst p), final_point back us (d_name (fst p)) (nth (snd p) (d_points (fst p)) 0))) (combine ds (rebuild cs ds (ps ds) idx))).
  Proof.
    induction ds as [|d ds IH]; intros N idx H; [constructor|]. cbn [ps map forallb] in N. apply Bool.andb_true_iff in N. destruct N as [N1 N2].
    unfold outdims, ps in *. cbn [map combine filter fst snd rebuild] in *. destruct (demoted cs d (positions cs us d)) eqn:D; cbn [negb map combine fst snd] in *.
    - apply Permutation_sym. eapply Permutation_trans; [|apply Permutation_middle]. apply perm_skip. apply Permutation_sym. apply IH; assumption.
    - inversion H as [|i ? ix ? Hi HR]; subst. cbn [combine map fst snd app pick_dim d_name d_points]. cbn [pick_dim d_points fst snd] in Hi. rewrite map_length in Hi.
      rewrite nth_map_lt with (d := 0%nat) by exact Hi. apply perm_skip. apply IH; assumption.
  Qed.
End Cells.

Lemma lookup_in {A} k (l : list (string * A)) u : lookup k l = Some u -> In (k, u) l.
Proof.
  unfold lookup. destruct (find _ l) as [[k' u']|] eqn:F; [|discriminate]. intro H. injection H as <-. apply find_some in F. destruct F as [I E]. cbn in E. apply String.eqb_eq in E. subst. exact I.
Qed.
Lemma final_point_spec back us k x : good_units us -> final_point back us k x == if back then x else in_units us k x.
Proof.
  intro G. unfold final_point, in_units. destruct (lookup k us) as [u|] eqn:E; [|destruct back; reflexivity]. destruct back; [|reflexivity].
  unfold unconv, conv. apply lookup_in in E. apply G in E. field. exact E.
Qed.
Lemma has_coord_spec k c idx : length idx = length (c_dims c) -> (has_coord k c = true <-> exists x, In (k, x) (labels c idx)).
Proof.
  intro L. unfold has_coord, labels. rewrite Bool.orb_true_iff, !existsb_exists. split.
  - intros [(d & I & E)|((k' & x) & I & E)]; apply String.eqb_eq in E; cbn in E; subst.
    + destruct (In_nth _ _ {| d_name := ""; d_points := [] |} I) as (n & Ln & En). exists (nth (nth n idx 0%nat) (d_points d) 0). apply in_or_app. left. apply in_map_iff. exists (d, nth n idx 0%nat). split; [reflexivity|].
      rewrite <- En, <- combine_nth by lia. apply nth_In. rewrite combine_length. lia.
    + exists x. apply in_or_app. right. exact I.
  - intros (x & I). apply in_app_or in I. destruct I as [I|I].
    + left. apply in_map_iff in I. destruct I as ((d & i) & E & I). injection E as E _. apply in_combine_l in I. exists d. split; [exact I|]. apply String.eqb_eq. exact E.
    + right. exists (k, x). split; [exact I|apply String.eqb_refl].
Qed.
Lemma cell_length c idx : cell c idx -> length idx = length (c_dims c).
Proof. intro H. induction H; cbn; congruence. Qed.
Lemma in_combine_cell ds : forall idx (P : nat -> dim -> Prop), Forall2 P idx ds -> forall d i, In (d, i) (combine ds idx) -> P i d.
Proof. induction ds as [|d ds IH]; intros idx P H d' i I; inversion H; subst; cbn in I; [destruct I|]. destruct I as [E|I]; [injection E as <- <-; assumption|eapply IH; eassumption]. Qed.

(** An index satisfies the constraints when each of its positions is kept and the scalar coordinates pass. *)
Lemma satisfies_spec cs us c idx : cell c idx -> (satisfies cs us c idx <->
  forallb (fun k => has_coord (fst k) c) cs = true /\ forallb (fun s => meets cs (fst s) (in_units us (fst s) (snd s))) (c_scalars c) = true /\ Forall2 (fun i d => In i (positions cs us d)) idx (c_dims c)).
Proof.
  intro C. pose proof (cell_length _ _ C) as L. rewrite !forallb_forall. split.
  - intro S'. split; [|split].
    + intros [k t] I. cbn [fst]. apply (has_coord_spec k c idx L). apply (S' k t I).
    + intros [k x] I. cbn [fst snd]. apply meets_spec. intros t T. apply (S' k t T). unfold labels. apply in_or_app. right. exact I.
    + assert (P : forall d i, In (d, i) (combine (c_dims c) idx) -> forall t, In (d_name d, t) cs -> allowed t (in_units us (d_name d) (nth i (d_points d) 0))).
      { intros d i I t T. apply (S' _ t T). unfold labels. apply in_or_app. left. apply in_map_iff. exists (d, i). auto. }
      unfold cell in C. clear - C P. revert idx C P. generalize (c_dims c). induction l as [|d l IH]; intros idx C P; inversion C; subst; constructor.
      * apply positions_spec. split; [assumption|]. apply P. left. reflexivity.
      * apply IH; [assumption|]. intros d' i' I. apply P. right. exact I.
  - intros (A & B & P) k t I. split.
    + apply (has_coord_spec k c idx L). apply (A (k, t) I).
    + intros x X. unfold labels in X. apply in_app_or in X. destruct X as [X|X].
      * apply in_map_iff in X. destruct X as ((d & i) & E & X). injection E as <- <-. apply (in_combine_cell _ _ _ P) in X. apply positions_spec in X. apply X. exact I.
      * specialize (B (k, x) X). cbn [fst snd] in B. apply (proj1 (meets_spec _ _ _) B). exact I.
Qed.
Lemma kept_some cs us c ps : kept cs us c = Some ps <-> forallb (fun k => has_coord (fst k) c) cs = true /\ forallb (fun s => meets cs (fst s) (in_units us (fst s) (snd s))) (c_scalars c) = true /\
  ps = map (positions cs us) (c_dims c) /\ forallb (fun p : list nat => match p with [] => false | _ => true end) ps = true.
Proof.
  unfold kept. destruct (forallb (fun k => has_coord (fst k) c) cs); cbn [negb]; [|split; [discriminate|intros [H _]; discriminate]].
  destruct (forallb _ (c_scalars c)); cbn [negb]; [|split; [discriminate|intros (_ & H & _); discriminate]].
  assert (E : forall l : list (list nat), existsb (fun p : list nat => match p with [] => true | _ => false end) l = negb (forallb (fun p : list nat => match p with [] => false | _ => true end) l)) by (induction l as [|[|] l IH]; cbn; auto).
  rewrite E. destruct (forallb _ (map (positions cs us) (c_dims c))) eqn:F; cbn [negb].
  - split; [intro H; injection H as <-; auto|]. intros (_ & _ & -> & _). reflexivity.
  - split; [discriminate|]. intros (_ & _ & -> & H). congruence.
Qed.

Lemma effective_nodup cs : NoDup (map fst cs) -> effective cs = cs.
Proof.
  induction cs as [|[k t] cs IH]; intro N; [reflexivity|]. inversion N; subst. cbn [effective snd fst]. rewrite IH by assumption. destruct t; [|reflexivity].
  replace (existsb (is_value_for k) cs) with false; [reflexivity|]. symmetry. apply Bool.not_true_is_false. intro E. apply existsb_exists in E. destruct E as ([k' t'] & I & E). unfold is_value_for in E. cbn in E.
  destruct t'; [|discriminate]. apply String.eqb_eq in E. subst. apply (in_map fst) in I. contradiction.
Qed.
Lemma has_step_false cs : has_step cs = false <-> no_step cs.
Proof.
  unfold has_step, no_step. split.
  - intros H k a b s I. assert (existsb (fun c => match snd c with Range _ _ (Some _) => true | _ => false end) cs = true); [|congruence]. apply existsb_exists. exists (k, Range a b (Some s)). auto.
  - intro H. apply Bool.not_true_is_false. intro E. apply existsb_exists in E. destruct E as ([k t] & I & E). cbn in E. destruct t as [|a b [s|]]; try discriminate. exact (H k a b s I).
Qed.

(** ** Columns *)
Lemma fill_from_length inc l : forall p, length (fill_from inc p l) = length l.
Proof. induction l; intro p; cbn; [reflexivity|]. f_equal. apply IHl. Qed.
Lemma fill_from_known inc l : forall p i v, nth i l None = Some v -> nth i (fill_from inc p l) None = Some v.
Proof. induction l as [|o l IH]; intros p [|i] v H; cbn in *; try discriminate; [rewrite H; reflexivity|]. apply IH. exact H. Qed.
Lemma fill_from_missing inc l : forall p i, (i < length l)%nat -> (forall k, (k <= i)%nat -> nth k l None = None) -> exists q,
  nth i (fill_from inc p l) None = q /\ match p, q with Some a, Some b => b == a + Qn (S i) * inc | None, None => True | _, _ => False end.
Proof.
  induction l as [|o l IH]; intros p i L H; cbn in L; [lia|]. pose proof (H 0%nat ltac:(lia)) as H0. cbn in H0. subst o. destruct i as [|i]; cbn [fill_from nth].
  - eexists; split; [reflexivity|]. destruct p; cbn; [|exact I]. unfold Qn. cbn. ring.
  - destruct (IH (option_map (fun p => p + inc) p) i ltac:(lia)) as (q & Q1 & Q2). { intros k K. apply (H (S k)). lia. }
    exists q. split; [exact Q1|]. destruct p as [a|]; cbn [option_map] in Q2; destruct q as [b|]; try contradiction; [|exact I]. rewrite Q2.
    unfold Qn. rewrite (Nat2Z.inj_succ (S i)), <- Z.add_1_l, inject_Z_plus. change (inject_Z 1) with 1. ring.
Qed.
Lemma fill_from_last inc l : forall p i j v, (i < length l)%nat -> last_known l i j v -> exists w, nth i (fill_from inc p l) None = Some w /\ w == v + Qn (i - j) * inc.
Proof.
  induction l as [|o l IH]; intros p i j v L (J & V & K); cbn in L; [lia|]. destruct i as [|i]; [lia|]. destruct j as [|j].
  - cbn in V. subst o. cbn [fill_from nth]. destruct (fill_from_missing inc l (Some v) i ltac:(lia)) as (q & Q1 & Q2). { intros k Hk. apply (K (S k)). lia. }
    destruct q as [w|]; [|destruct Q2]. exists w. split; [exact Q1|]. rewrite Nat.sub_0_r. exact Q2.
  - cbn [fill_from nth]. replace (S i - S j)%nat with (i - j)%nat by lia. apply IH; [lia|]. split; [lia|]. split; [exact V|]. intros k Hk. apply (K (S k)). lia.
Qed.
Lemma forward_eq inc l : fill_forward inc l = fill_from inc None l.
Proof. destruct l as [|[x|] l]; reflexivity. Qed.
Lemma forward_length inc l : length (fill_forward inc l) = length l.
Proof. rewrite forward_eq. apply fill_from_length. Qed.
Lemma backward_length inc l : length (fill_backward inc l) = length l.
Proof. unfold fill_backward. rewrite rev_length, forward_length, rev_length. reflexivity. Qed.
Lemma forward_known inc l i v : nth i l None = Some v -> nth i (fill_forward inc l) None = Some v.
Proof. rewrite forward_eq. apply fill_from_known. Qed.
Lemma forward_last inc l i j v : (i < length l)%nat -> last_known l i j v -> exists w, nth i (fill_forward inc l) None = Some w /\ w == v + Qn (i - j) * inc.
Proof. rewrite forward_eq. apply fill_from_last. Qed.
Lemma forward_none inc l i : (i < length l)%nat -> (forall k, (k <= i)%nat -> nth k l None = None) -> nth i (fill_forward inc l) None = None.
Proof. intros L H. rewrite forward_eq. destruct (fill_from_missing inc l None i L H) as (q & Q1 & Q2). destruct q; [destruct Q2|exact Q1]. Qed.
Lemma rev_at (l : list (option Q)) i : (i < length l)%nat -> nth i (rev l) None = nth (length l - S i) l None.
Proof. apply rev_nth. Qed.
Lemma backward_known inc l i v : nth i l None = Some v -> nth i (fill_backward inc l) None = Some v.
Proof.
  intro H. destruct (Nat.lt_ge_cases i (length l)) as [L|L]; [|rewrite nth_overflow in H by exact L; discriminate]. unfold fill_backward.
  rewrite rev_at by (rewrite forward_length, rev_length; exact L). rewrite forward_length, rev_length. apply forward_known. rewrite rev_at by lia. replace (length l - S (length l - S i))%nat with i by lia. exact H.
Qed.
Lemma backward_next inc l i j v : (j < length l)%nat -> next_known l i j v -> exists w, nth i (fill_backward inc l) None = Some w /\ w == v - Qn (j - i) * inc.
Proof.
  intros L (J & V & K). unfold fill_backward. rewrite rev_at by (rewrite forward_length, rev_length; lia). rewrite forward_length, rev_length.
  destruct (forward_last (- inc) (rev l) (length l - S i) (length l - S j) v) as (w & W1 & W2).
  - rewrite rev_length. lia.
  - split; [lia|]. split; [rewrite rev_at by lia; replace (length l - S (length l - S j))%nat with j by lia; exact V|]. intros k Hk. rewrite rev_at by lia. apply K. lia.
  - exists w. split; [exact W1|]. rewrite W2. replace (length l - S i - (length l - S j))%nat with (j - i)%nat by lia. ring.
Qed.
Lemma backward_none inc l i : (i < length l)%nat -> (forall k, (i <= k)%nat -> nth k l None = None) -> nth i (fill_backward inc l) None = None.
Proof.
  intros L H. unfold fill_backward. rewrite rev_at by (rewrite forward_length, rev_length; lia). rewrite forward_length, rev_length. apply forward_none; [rewrite rev_length; lia|].
  intros k Hk. rewrite rev_at by lia. apply H. lia.
Qed.
(** Every missing position has a known one after it, or none after it. *)
Lemma next_known_dec l i : (exists j v, (j < length l)%nat /\ next_known l i j v) \/ nth i l None <> None \/ forall k, (i <= k)%nat -> nth k l None = None.
Proof.
  destruct (nth i l None) as [x|] eqn:E; [right; left; discriminate|].
  assert (G : forall n, (exists j v, (j < length l)%nat /\ next_known l i j v) \/ forall k, (i <= k < i + n)%nat -> nth k l None = None).
  { induction n as [|n [IH|IH]]; [right; intros; lia|left; exact IH|]. destruct (nth (i + n) l None) as [v|] eqn:V.
    - left. exists (i + n)%nat, v. assert (n <> 0)%nat by (intros ->; rewrite Nat.add_0_r in V; congruence). split; [|split; [lia|split; [exact V|exact IH]]].
      destruct (Nat.lt_ge_cases (i + n) (length l)); [assumption|]. rewrite nth_overflow in V by assumption. discriminate.
    - right. intros k K. destruct (Nat.eq_dec k (i + n)) as [->|]; [exact V|]. apply IH. lia. }
  destruct (G (length l)) as [A|A]; [left; exact A|]. right. right. intros k K. destruct (Nat.lt_ge_cases k (length l)) as [B|B]; [apply A; lia|apply nth_overflow; exact B].
Qed.
