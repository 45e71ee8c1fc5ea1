(** Proofs about Model_Spot. *)
From Verif Require Import Base Interp Model_Nbhood Model_Percentiles Model_Lapse Model_Spot Spec_Spot Proofs_Phase Proofs_Reordering.
Local Open Scope Q_scope.

Lemma all_points_in g p : In p (all_points g) <-> on_grid g p.
Proof.
  destruct p as [a b]. unfold all_points, on_grid. cbn [fst snd]. rewrite in_flat_map. split.
  - intros (i & Hi & H). apply in_map_iff in H as (j & E & Hj). injection E as <- <-.
    apply in_seq in Hi, Hj. lia.
  - intros [H1 H2]. exists (Z.to_nat a). split; [apply in_seq; lia|]. apply in_map_iff. exists (Z.to_nat b).
    split; [f_equal; lia|apply in_seq; lia].
Qed.
Lemma nodup_app {A} (l1 l2 : list A) : NoDup l1 -> NoDup l2 -> (forall x, In x l1 -> ~ In x l2) -> NoDup (l1 ++ l2).
Proof.
  intros N1 N2 D. induction N1 as [|a l1 Ha N1 IH]; [assumption|]. cbn [app]. constructor.
  - intro H. apply in_app_or in H as [H|H]; [contradiction|]. apply (D a); [now left|assumption].
  - apply IH. intros x Hx. apply D. now right.
Qed.
Lemma nodup_app_l {A} (l1 l2 : list A) : NoDup (l1 ++ l2) -> NoDup l1.
Proof.
  induction l1 as [|a l1 IH]; cbn; intro H; [constructor|]. inversion H as [|x y H1 H2]; subst. constructor; [|now apply IH].
  intro C. apply H1, in_or_app. now left.
Qed.
Lemma nodup_product {A B C} (f : A -> B -> C) (l1 : list A) (l2 : list B) :
  (forall a b a' b', f a b = f a' b' -> a = a' /\ b = b') -> NoDup l1 -> NoDup l2 -> NoDup (flat_map (fun a => map (f a) l2) l1).
Proof.
  intros Inj N1 N2. induction N1 as [|a l1 Ha N1 IH]; [constructor|]. cbn [flat_map].
  apply nodup_app; [|assumption|].
  - apply FinFun.Injective_map_NoDup; [|assumption]. intros b b' E. apply (Inj a b a b' E).
  - intros x Hx Hx'. apply in_map_iff in Hx as (b & <- & _). apply in_flat_map in Hx' as (a' & Ha' & H').
    apply in_map_iff in H' as (b' & E & _). apply Inj in E as [-> _]. contradiction.
Qed.
Lemma all_points_nodup g : NoDup (all_points g).
Proof.
  unfold all_points. apply (nodup_product (fun i j => (Z.of_nat i, Z.of_nat j))); [|apply seq_NoDup|apply seq_NoDup].
  intros a b a' b' E. injection E as E1 E2. lia.
Qed.
Lemma nodes_in cfg g p : In p (tree_nodes cfg g) <-> eligible cfg g p.
Proof.
  unfold tree_nodes, eligible. destruct (c_land cfg).
  - rewrite filter_In, all_points_in. intuition.
  - rewrite all_points_in. intuition discriminate.
Qed.
Lemma nodes_nodup cfg g : NoDup (tree_nodes cfg g).
Proof. unfold tree_nodes. destruct (c_land cfg); [apply NoDup_filter|]; apply all_points_nodup. Qed.

(** The first of the least. *)
Lemma first_min_spec key : forall l best,
  let m := first_min key best l in
  (m = best \/ In m l) /\ key m <= key best /\ (forall q, In q l -> key m <= key q).
Proof.
  induction l as [|p l IH]; intros best; cbn.
  - split; [now left|]. split; [lra|intros q []].
  - destruct (Qltb_spec (key p) (key best)) as [H|H].
    + destruct (IH p) as (A & B & C). split; [|split].
      * destruct A as [-> | A]; auto.
      * lra.
      * intros q [<-|Hq]; [exact B|now apply C].
    + destruct (IH best) as (A & B & C). split; [|split].
      * destruct A as [-> | A]; auto.
      * exact B.
      * intros q [<-|Hq]; [lra|now apply C].
Qed.
Lemma first_min_first key d : forall l best,
  StronglySorted (fun p q => d p <= d q) (best :: l) ->
  let m := first_min key best l in forall q, In q (best :: l) -> key q == key m -> d m <= d q.
Proof.
  induction l as [|p l IH]; intros best H; cbn.
  - intros q [<-|[]] _. lra.
  - apply StronglySorted_inv in H as [H1 H2]. pose proof (StronglySorted_inv H1) as [H3 H4].
    destruct (Qltb_spec (key p) (key best)) as [L|L].
    + intros q [<-|Hq] E.
      * destruct (first_min_spec key l p) as (_ & B & _). exfalso. lra.
      * apply (IH p H1 q Hq E).
    + assert (S' : StronglySorted (fun p q : Z * Z => d p <= d q) (best :: l)).
      { constructor; [assumption|]. rewrite Forall_forall in *. intros x Hx. apply H2. now right. }
      intros q Hq E. specialize (IH best S'). cbn in IH.
      destruct Hq as [<-|[<-|Hq]].
      * apply IH; [now left|assumption].
      * destruct (first_min_spec key l best) as (_ & B & _).
        assert (X : key best == key (first_min key best l)) by lra.
        pose proof (IH best (or_introl eq_refl) X). rewrite Forall_forall in H2. specialize (H2 p (or_introl eq_refl)). lra.
      * apply IH; [now right|assumption].
Qed.

(** A list that is sorted and ranked, filtered by the radius, is a list of candidates. *)
Lemma sorted_filter_ss {A} (R : A -> A -> Prop) f l : StronglySorted R l -> StronglySorted R (filter f l).
Proof.
  induction 1 as [|x l H IH F]; cbn; [constructor|]. destruct (f x); [|assumption]. constructor; [assumption|].
  rewrite Forall_forall in *. intros y Hy. apply filter_In in Hy as [Hy _]. now apply F.
Qed.
Lemma filter_len_le {A} f (l : list A) : (length (filter f l) <= length l)%nat.
Proof. induction l; cbn; [lia|]. destruct (f a); cbn; lia. Qed.
Lemma filter_all {A} f (l : list A) : (forall x, In x l -> f x = true) -> filter f l = l.
Proof. induction l; cbn; intro H; [reflexivity|]. rewrite (H a (or_introl eq_refl)), IHl; auto. Qed.
Lemma zz_dec (p q : Z * Z) : {p = q} + {p <> q}.
Proof. destruct p as [a b], q as [c d], (Z.eq_dec a c), (Z.eq_dec b d); subst; auto; right; congruence. Qed.

Lemma found_candidates cfg g d l :
  ranked d (tree_nodes cfg g) (c_limit cfg) l -> candidates cfg g d (filter (fun p => d p <? c_radius cfg * c_radius cfg) l).
Proof.
  intros (N & I & Sr & Ln & Far). split; [|split; [|split]].
  - now apply NoDup_filter.
  - pose proof (filter_len_le (fun p => d p <? c_radius cfg * c_radius cfg) l). lia.
  - intros p Hp. apply filter_In in Hp as [Hp W]. apply Qltb_lt in W. split; [|assumption]. apply nodes_in, I, Hp.
  - intros q [Eq Wq] Nq.
    assert (Nl : ~ In q l). { intro H. apply Nq, filter_In. split; [assumption|]. now apply Qltb_lt. }
    assert (Hq : In q (tree_nodes cfg g)) by now apply nodes_in.
    assert (All : forall p, In p l -> (d p <? c_radius cfg * c_radius cfg) = true).
    { intros p Hp. apply Qltb_lt. pose proof (Far q Hq Nl p Hp). lra. }
    rewrite (filter_all _ _ All). split; [|intros p Hp; now apply Far].
    assert (length l < length (tree_nodes cfg g))%nat; [|lia].
    destruct (Nat.lt_ge_cases (length l) (length (tree_nodes cfg g))) as [|C]; [assumption|].
    exfalso. apply Nl. apply (NoDup_length_incl N C I), Hq.
Qed.

(** The result of the search for the least height difference. *)
Lemma min_dz_spec cfg g near dist2 query s :
  tree_ok dist2 query -> c_dz cfg = true ->
  let alt := altitude_of g near s in let p := neighbour cfg g near dist2 query s in
  exists l, candidates cfg g (dist2 s) l /\
    ((l = [] /\ p = near s) \/
     (In p l /\ (forall q, In q l -> off_height g alt p <= off_height g alt q) /\
      (forall q, In q l -> off_height g alt q == off_height g alt p -> dist2 s p <= dist2 s q))).
Proof.
  intros T D alt p. pose proof (T (tree_nodes cfg g) s (c_limit cfg) (nodes_nodup cfg g)) as R.
  exists (filter (fun p => dist2 s p <? c_radius cfg * c_radius cfg) (query (tree_nodes cfg g) s (c_limit cfg))).
  split; [now apply found_candidates|].
  assert (Ss := sorted_filter_ss _ (fun p => dist2 s p <? c_radius cfg * c_radius cfg) _ (proj1 (proj2 (proj2 R)))).
  subst p. unfold neighbour. rewrite D, Bool.orb_true_r. cbv zeta.
  set (f := filter _ _) in *. unfold select_minimum_dz. destruct f as [|a f]; [now left|]. right.
  destruct (first_min_spec (off_height g alt) f a) as (A & B & C).
  pose proof (first_min_first (off_height g alt) (dist2 s) f a Ss) as F.
  unfold off_height in A, B, C, F |- *. fold alt. split; [|split].
  - destruct A as [A|A]; [left|right]; auto.
  - intros q [<-|Hq]; auto.
  - intros q Hq E. apply F; assumption.
Qed.
Lemma land_spec cfg g near dist2 query s :
  tree_ok dist2 query -> c_land cfg = true -> c_dz cfg = false ->
  let p := neighbour cfg g near dist2 query s in
  ((exists q, in_reach cfg g (dist2 s) q) -> in_reach cfg g (dist2 s) p /\ forall q, eligible cfg g q -> dist2 s p <= dist2 s q) /\
  ((~ exists q, in_reach cfg g (dist2 s) q) -> p = near s).
Proof.
  intros T L D p. pose proof (T (tree_nodes cfg g) s 1%nat (nodes_nodup cfg g)) as (N & I & Sr & Ln & Far).
  subst p. unfold neighbour. rewrite D, L. cbn [orb]. cbv zeta.
  destruct (query (tree_nodes cfg g) s 1%nat) as [|a l] eqn:Q0.
  - cbn in Ln. assert (Z0 : tree_nodes cfg g = []) by (destruct (tree_nodes cfg g); [reflexivity|cbn in Ln; lia]).
    split; [|reflexivity]. intros (q & Hq & _). apply nodes_in in Hq. rewrite Z0 in Hq. destruct Hq.
  - assert (Hl : l = []). { destruct l; [reflexivity|]. cbn [length] in Ln. lia. } subst l.
    assert (Best : forall q, eligible cfg g q -> dist2 s a <= dist2 s q).
    { intros q Hq. apply nodes_in in Hq. destruct (zz_dec a q) as [<-|Ne]; [lra|]. apply Far; [assumption| |now left].
      intros [H|[]]. contradiction. }
    destruct (Qltb_spec (dist2 s a) (c_radius cfg * c_radius cfg)) as [W|W].
    + split; [|intros H; exfalso; apply H].
      * intros _. split; [|assumption]. split; [|assumption]. apply nodes_in, I. now left.
      * exists a. split; [|assumption]. apply nodes_in, I. now left.
    + split; [|reflexivity]. intros (q & Hq & Wq). exfalso. specialize (Best q Hq). lra.
Qed.

(** A tree exists: insertion sort. *)
Fixpoint insert_by (d : Z * Z -> Q) (p : Z * Z) (l : list (Z * Z)) : list (Z * Z) :=
  match l with [] => [p] | q :: r => if d p <=? d q then p :: l else q :: insert_by d p r end.
Fixpoint sort_by (d : Z * Z -> Q) (l : list (Z * Z)) : list (Z * Z) := match l with [] => [] | p :: r => insert_by d p (sort_by d r) end.
Definition simple_tree (dist2 : site -> Z * Z -> Q) (nodes : list (Z * Z)) (s : site) (k : nat) : list (Z * Z) := firstn k (sort_by (dist2 s) nodes).
Lemma insert_perm d p l : Permutation (insert_by d p l) (p :: l).
Proof.
  induction l as [|q l IH]; cbn; [reflexivity|]. destruct (d p <=? d q); [reflexivity|].
  rewrite IH. apply perm_swap.
Qed.
Lemma sort_by_perm d l : Permutation (sort_by d l) l.
Proof. induction l; cbn; [reflexivity|]. rewrite insert_perm. now constructor. Qed.
Lemma insert_sorted d p l : StronglySorted (fun a b => d a <= d b) l -> StronglySorted (fun a b => d a <= d b) (insert_by d p l).
Proof.
  induction 1 as [|q l H IH F]; cbn; [constructor; constructor|]. destruct (Qleb_spec (d p) (d q)) as [L|L].
  - constructor; [constructor; assumption|]. constructor; [assumption|]. rewrite Forall_forall in *. intros x Hx. specialize (F x Hx). lra.
  - constructor; [assumption|]. rewrite Forall_forall in *. intros x Hx.
    apply (Permutation_in _ (insert_perm d p l)) in Hx as [<-|Hx]; [lra|now apply F].
Qed.
Lemma sort_by_sorted d l : StronglySorted (fun a b => d a <= d b) (sort_by d l).
Proof. induction l; cbn; [constructor|]. now apply insert_sorted. Qed.
Lemma ss_app {A} (R : A -> A -> Prop) l1 l2 : StronglySorted R (l1 ++ l2) -> StronglySorted R l1 /\ forall a b, In a l1 -> In b l2 -> R a b.
Proof.
  induction l1 as [|x l1 IH]; cbn; intro H; [split; [constructor|intros a b []]|].
  apply StronglySorted_inv in H as [H F]. destruct (IH H) as [I1 I2]. rewrite Forall_app in F. destruct F as [F1 F2]. split.
  - now constructor.
  - intros a b [<-|Ha] Hb; [rewrite Forall_forall in F2; now apply F2|now apply I2].
Qed.
Lemma simple_tree_ok dist2 : tree_ok dist2 (simple_tree dist2).
Proof.
  intros nodes s k N. unfold simple_tree. set (d := dist2 s). pose proof (sort_by_perm d nodes) as P. pose proof (sort_by_sorted d nodes) as So.
  pose proof (firstn_skipn k (sort_by d nodes)) as E. rewrite <- E in So. apply ss_app in So as [S1 S2].
  assert (Nd : NoDup (sort_by d nodes)) by (apply (Permutation_NoDup (Permutation_sym P)), N).
  split; [|split; [|split; [assumption|split]]].
  - rewrite <- E in Nd. now apply nodup_app_l in Nd.
  - intros x Hx. apply (Permutation_in _ P). rewrite <- E. apply in_or_app. now left.
  - rewrite firstn_length, (Permutation_length P). reflexivity.
  - intros q Hq Nq p Hp. apply S2; [assumption|]. apply (Permutation_in _ (Permutation_sym P)) in Hq. rewrite <- E in Hq.
    apply in_app_or in Hq as [Hq|Hq]; [contradiction|assumption].
Qed.

(** Sites. *)
Lemma in_domain_spec g s : in_domain g s = true <-> inside_domain g s.
Proof.
  unfold in_domain, inside_domain. destruct (g_circular g).
  - rewrite Bool.andb_true_iff, !Qle_bool_iff. intuition discriminate.
  - rewrite !Bool.andb_true_iff, !Qle_bool_iff. intuition.
Qed.
Lemma filter_kept {A} (f : A -> bool) P (H : forall x, f x = true <-> P x) l : kept_of P l (filter f l).
Proof.
  induction l as [|x l IH]; cbn; [constructor|]. destruct (f x) eqn:F.
  - apply kept_yes; [now apply H|assumption].
  - apply kept_no; [|assumption]. intro C. apply H in C. congruence.
Qed.
Lemma ids_spec l : match ids_of l with
  | Ok ids => map s_id l = map Some ids
  | Err e => e = KeyError /\ exists s, In s l /\ s_id s = None end.
Proof.
  induction l as [|s l IH]; cbn; [reflexivity|]. destruct (s_id s) as [i|] eqn:E.
  - destruct (ids_of l) as [ids|e]; cbn.
    + now rewrite IH.
    + destruct IH as (-> & s' & H & H'). split; [reflexivity|]. exists s'. auto.
  - split; [reflexivity|]. exists s. auto.
Qed.
Lemma distinct_spec l : distinct_z l = true <-> NoDup l.
Proof.
  induction l as [|a l IH]; cbn; [split; [constructor|reflexivity]|]. rewrite Bool.andb_true_iff, IH, Bool.negb_true_iff. split.
  - intros [H1 H2]. constructor; [|assumption]. intro C. assert (existsb (Z.eqb a) l = true); [|congruence].
    apply existsb_exists. exists a. split; [assumption|apply Z.eqb_refl].
  - intro H. inversion H as [|x y H1 H2]; subst. split; [|assumption]. destruct (existsb (Z.eqb a) l) eqn:F; [|reflexivity].
    apply existsb_exists in F as (b & Hb & E). apply Z.eqb_eq in E. subst. contradiction.
Qed.
Lemma check_ids_spec cfg l : c_id_key cfg = true ->
  match check_ids cfg l with
  | Ok _ => good_ids l
  | Err KeyError => exists s, In s l /\ s_id s = None
  | Err ValueError => (forall s, In s l -> s_id s <> None) /\ ~ good_ids l
  | Err _ => False
  end.
Proof.
  intro K. unfold check_ids. rewrite K. cbn [negb]. pose proof (ids_spec l) as Sp. destruct (ids_of l) as [ids|e]; cbn [bind]; [|destruct Sp as [-> Sp]; exact Sp].
  assert (Inj : NoDup (map s_id l) <-> NoDup ids).
  { rewrite Sp. split; [apply NoDup_map_inv|]. intro H. apply FinFun.Injective_map_NoDup; [|assumption]. intros a b E. now injection E. }
  assert (Pres : forall s, In s l -> s_id s <> None).
  { intros s Hs C. apply (in_map s_id) in Hs. rewrite Sp, C in Hs. apply in_map_iff in Hs as (x & X & _). discriminate. }
  assert (Val : forall s, In s l -> exists i, s_id s = Some i /\ In i ids).
  { intros s Hs. apply (in_map s_id) in Hs. rewrite Sp in Hs. apply in_map_iff in Hs as (x & X & Hx). eauto. }
  assert (Lav : forall i, In i ids -> exists s, In s l /\ s_id s = Some i).
  { intros i Hi. apply (in_map Some) in Hi. rewrite <- Sp in Hi. apply in_map_iff in Hi as (s & X & Hs). eauto. }
  destruct (distinct_z ids) eqn:Di; cbn [negb].
  - apply distinct_spec in Di. destruct (existsb (fun i => negb (id_fits i)) ids) eqn:Ex.
    + split; [assumption|]. intros [G _]. apply existsb_exists in Ex as (i & Hi & F). apply Bool.negb_true_iff in F.
      destruct (Lav i Hi) as (s & Hs & E). destruct (G s Hs) as (i' & E' & R). rewrite E in E'. injection E' as <-.
      unfold id_fits in F. apply Bool.andb_false_iff in F. destruct F as [F|F]; apply Z.ltb_ge in F; lia.
    + split; [|now apply Inj]. intros s Hs. destruct (Val s Hs) as (i & E & Hi). exists i. split; [assumption|].
      assert (F : id_fits i = true). { destruct (id_fits i) eqn:F; [reflexivity|]. exfalso. assert (existsb (fun i => negb (id_fits i)) ids = true); [|congruence]. apply existsb_exists. exists i. rewrite F. auto. }
      unfold id_fits in F. apply Bool.andb_true_iff in F as [F1 F2]. apply Z.ltb_lt in F1, F2. lia.
  - split; [assumption|]. intros [_ G]. apply Inj in G. apply distinct_spec in G. congruence.
Qed.

(** Grids. *)
Lemma lq_same_spec a b : lq_same a b = true <-> Forall2 Qeq a b.
Proof.
  revert b. induction a as [|x a IH]; intros [|y b]; cbn; split; intro H; try discriminate; try constructor; try now inversion H.
  - apply Bool.andb_true_iff in H as [H _]. now apply Qeq_bool_iff.
  - apply Bool.andb_true_iff in H as [_ H]. now apply IH.
  - inversion H; subst. apply Bool.andb_true_iff. split; [now apply Qeq_bool_iff|now apply IH].
Qed.
Lemma key_spec a b : key_eqb (axis_key a) (axis_key b) = true <-> same_axis a b.
Proof.
  unfold axis_key, key_eqb, same_axis. rewrite !Bool.andb_true_iff, !String.eqb_eq, lq_same_spec. tauto.
Qed.
Lemma hash_spec a b : hash_eqb (coordinate_hash a) (coordinate_hash b) = true <-> same_up_to_bounds a b.
Proof. unfold hash_eqb, coordinate_hash, same_up_to_bounds. cbn [fst snd]. rewrite Bool.andb_true_iff, !key_spec. reflexivity. Qed.
