From Verif Require Model_Probability.
From Verif Require Import Base Interp Spec_Threshold Model_Blending Proofs_Weights Proofs_Blending Proofs_Reordering Proofs_PercBlend Props_Blending Model_WeightBlend.
Local Open Scope Q_scope.

(** * C99: what WeightAndBlend returns *)
(** [raw m c i x]: slice [i] of the merged slices [c] counts [x], before normalisation. *)
Definition raw {D} (m : method) (c : list (slice D)) (i : nat) (x : Q) : Prop :=
  match m with
  | Linear y0 yn => x == y0 + (yn - y0) * Qn i / Qn (length c - 1)
  | NonLinear f false => x == qpow f i
  | NonLinear f true => x == qpow f (length c - 1 - i)
  | Dict config => exists s before k e after, nth_error c i = Some s /\ config = before ++ (k, e) :: after /\ key_eqb k (sl_key s) = true /\ (forall k' e', In (k', e') before -> key_eqb k' (sl_key s) = false) /\ x == config_weight e (sl_lead s)
  end.
(** The weights are in proportion to those numbers and add up to one. *)
Definition shares {D} (m : method) (c : list (slice D)) (w : list Q) : Prop :=
  length w = length c /\ Forall (fun x => 0 <= x) w /\ qsum w == 1 /\ exists k, 0 < k /\ forall i, (i < length c)%nat -> exists x, raw m c i x /\ nth i w 0 == k * x.
(** A slice for an input with point [p] and key [k]. *)
Definition slice_of {D} (p : Q) (k : key) (x : input D) : slice D := {| sl_point := p; sl_key := k; sl_lead := in_lead x; sl_time := in_time x; sl_data := in_data x |}.
Definition ascending {D} (c : list (slice D)) : Prop := qssorted (map sl_point c).

Lemma Ok_inj {A} (x y : A) : Ok x = Ok y -> x = y.
Proof. now intros [= ->]. Qed.
Lemma normalised w w' : normalise_weights w = Ok w' -> 0 < qsum w /\ w' = map (fun x => x / qsum w) w.
Proof.
  intro H. destruct (C24_sum_one w w' H) as (_ & _ & _). unfold normalise_weights in H. destruct (length w =? 0)%nat; [discriminate|]. destruct (existsb _ w) eqn:E; [discriminate|]. destruct (Qeqb_spec (qsum w) 0) as [|N]; [discriminate|]. apply Ok_inj in H. split; [|now symmetry].
  assert (F : Forall (fun x => 0 <= x) w). { apply Forall_forall. intros x X. destruct (Qlt_le_dec x 0) as [L|L]; [|exact L]. exfalso. assert (T : existsb (fun x => x <? 0) w = true) by (apply existsb_exists; exists x; split; [exact X|now apply Qltb_lt]). congruence. }
  pose proof (qsum_nonneg w F). lra.
Qed.
Lemma proportional w w' : normalise_weights w = Ok w' -> exists k, 0 < k /\ length w' = length w /\ forall i, (i < length w)%nat -> nth i w' 0 == k * nth i w 0.
Proof.
  intro H. destruct (normalised w w' H) as (P & ->). exists (/ qsum w). split; [now apply Qinv_lt_0_compat|]. split; [apply map_length|]. intros i Hi. rewrite (nth_map_lt _ w i 0 0) by exact Hi. field. lra.
Qed.
Lemma find_first {A} (f : A -> bool) l e : find f l = Some e -> exists l1 l2, l = l1 ++ e :: l2 /\ f e = true /\ forall x, In x l1 -> f x = false.
Proof.
  induction l as [|a l IH]; [discriminate|]. cbn. destruct (f a) eqn:E.
  - intros [= ->]. exists [], l. split; [reflexivity|]. split; [exact E|intros x []].
  - intro H. destruct (IH H) as (l1 & l2 & -> & T & F). exists (a :: l1), l2. split; [reflexivity|]. split; [exact T|]. intros x [<-|X]; auto.
Qed.
Lemma mapM_at {A B} (f : A -> result B) l r d i : mapM f l = Ok r -> (i < length l)%nat -> exists x, nth_error l i = Some x /\ f x = Ok (nth i r d).
Proof.
  revert r i. induction l as [|a l IH]; intros r i H Hi; [cbn in Hi; lia|]. cbn in H. destruct (f a) as [b|] eqn:E; cbn [bind] in H; [|discriminate]. destruct (mapM f l) as [t|]; cbn [bind] in H; [|discriminate]. apply Ok_inj in H. subst r.
  destruct i; [exists a; split; [reflexivity|exact E]|]. cbn in Hi. destruct (IH t i eq_refl ltac:(lia)) as (x & X & Y). exists x. split; [exact X|exact Y].
Qed.
Lemma mapM_size {A B} (f : A -> result B) l r : mapM f l = Ok r -> length r = length l.
Proof.
  revert r. induction l as [|a l IH]; intros r H; cbn in H; [apply Ok_inj in H; now subst|]. destruct (f a); cbn [bind] in H; [|discriminate]. destruct (mapM f l); cbn [bind] in H; [|discriminate]. apply Ok_inj in H. subst r. cbn. f_equal. now apply IH.
Qed.
Lemma ksort_points {D} (c : list (slice D)) : ascending c -> map fst (ksort (map (fun p : Q => (p, tt)) (map sl_point c))) = map sl_point c.
Proof.
  intro A. rewrite ksort_id; [rewrite map_map; cbn; now rewrite map_id|]. rewrite map_map. cbn. rewrite map_id. now apply qssorted_qsorted.
Qed.
Lemma distinct_sorted l : qssorted l -> distinct l.
Proof. unfold distinct. induction 1 as [|a l H IH F]; constructor; [|exact IH]. eapply Forall_impl; [|exact F]. cbn. intros b B E. rewrite E in B. lra. Qed.

(** The weights of merged slices. *)
Theorem C99_weights {D} m (c : list (slice D)) w : ascending c -> (2 <= length c)%nat -> blending_weights m c = Ok w -> shares m c w.
Proof.
  intros A N. unfold shares. destruct m as [config|y0 yn|f inv]; cbn [blending_weights].
  - destruct (check_config _); cbn [bind]; [|discriminate]. destruct (mapM (dict_weight config) c) as [r|] eqn:M; cbn [bind]; [|discriminate]. intro H. pose proof (mapM_size _ _ _ M) as L. destruct (C24_sum_one r w H) as (S1 & L1 & F1). destruct (proportional r w H) as (k & K & _ & P).
    split; [lia|]. split; [eapply Forall_impl; [|exact F1]; cbn; intros; lra|]. split; [exact S1|]. exists k. split; [exact K|]. intros i Hi. exists (nth i r 0). split; [|apply P; lia].
    destruct (mapM_at _ _ _ 0 i M Hi) as (s & S2 & E). unfold dict_weight in E. destruct (find _ config) as [[k0 e]|] eqn:F; [|discriminate]. apply Ok_inj in E. cbn [snd] in E. destruct (find_first _ _ _ F) as (l1 & l2 & C & T & Fl).
    exists s, l1, k0, e, l2. split; [exact S2|]. split; [exact C|]. split; [exact T|]. split; [|rewrite <- E; reflexivity]. intros k' e' I'. exact (Fl _ I').
  - intro H. destruct (C25_linear _ _ _ _ H) as (L & S1 & F1 & _ & _). unfold linear_weights in H. destruct (y0 <? 0); [discriminate|]. destruct (length c =? 1)%nat eqn:E; [apply Nat.eqb_eq in E; lia|]. destruct (proportional _ _ H) as (k & K & _ & P).
    split; [exact L|]. split; [eapply Forall_impl; [|exact F1]; cbn; intros; lra|]. split; [exact S1|]. exists k. split; [exact K|]. intros i Hi.
    unfold linear_raw in P. rewrite map_length, seq_length in P. specialize (P i Hi). eexists. split; [reflexivity|]. rewrite P, nth_map_seq by exact Hi.
    assert (Q1 : Qn (length c) - 1 == Qn (length c - 1)). { unfold Qn. rewrite Nat2Z.inj_sub by lia. unfold Zminus. rewrite inject_Z_plus, inject_Z_opp. reflexivity. }
    rewrite Q1. assert (0 < Qn (length c - 1)) by (unfold Qn; change 0 with (inject_Z 0); rewrite <- Zlt_Qlt; lia). field. lra.
  - assert (Aux : forall v, nonlinear_weights f (length c) = Ok v -> length v = length c /\ Forall (fun x => 0 <= x) v /\ qsum v == 1 /\ exists k, 0 < k /\ forall i, (i < length c)%nat -> nth i v 0 == k * qpow f i).
    { intros v H. destruct (C25_nonlinear _ _ _ H) as (L & S1 & F1 & _ & _). unfold nonlinear_weights in H. destruct ((f <=? 0) || (1 <? f)); [discriminate|]. destruct (proportional _ _ H) as (k & K & _ & P). split; [exact L|]. split; [eapply Forall_impl; [|exact F1]; cbn; intros; lra|]. split; [exact S1|]. exists k. split; [exact K|].
      intros i Hi. rewrite map_length, seq_length in P. rewrite (P i Hi), nth_map_seq by exact Hi. reflexivity. }
    destruct inv; intro H; destruct (nonlinear_process f (map sl_point c) _) as [o|] eqn:E; cbn [bind] in H; try discriminate; apply Ok_inj in H; subst w.
    + apply C25_inverse_ordering in E; [|now apply distinct_sorted]. destruct E as (v & V & ->). rewrite map_length in V. destruct (Aux v V) as (L & F1 & S1 & k & K & P). rewrite (ksort_points c A), map_snd_combine by (rewrite map_length, rev_length; lia).
      split; [rewrite rev_length; exact L|]. split; [now apply Forall_rev|]. split; [rewrite <- S1; symmetry; apply qsum_perm, Permutation_rev|]. exists k. split; [exact K|]. intros i Hi. eexists. split; [reflexivity|]. rewrite rev_nth by lia. rewrite L. replace (length c - S i)%nat with (length c - 1 - i)%nat by lia. apply P. lia.
    + apply C25_forward_ordering in E. destruct E as (v & V & ->). rewrite map_length in V. destruct (Aux v V) as (L & F1 & S1 & k & K & P). rewrite map_snd_combine by (rewrite map_length; lia).
      split; [exact L|]. split; [exact F1|]. split; [exact S1|]. exists k. split; [exact K|]. intros i Hi. eexists. split; [reflexivity|]. now apply P.
Qed.

(** ** Merging *)
(** Over models: in the order of the inputs, each known by its name; over a coordinate: in the order of its points. *)
Definition merged_slices {D} (model : bool) (xs : list (input D)) (c : list (slice D)) : Prop :=
  if model then Forall2 (fun x s => exists n, in_model x = Some n /\ s = slice_of (sl_point s) (Name n) x) xs c /\ NoDup (map in_model xs)
  else Permutation (map (fun x => slice_of (in_point x) (Point (in_point x)) x) xs) c.
Lemma number_ok {D} : forall (xs : list (input D)) k seen c, number_models k seen xs = Ok c ->
  Forall2 (fun x s => exists n, in_model x = Some n /\ s = slice_of (sl_point s) (Name n) x) xs c /\ NoDup (map in_model xs) /\ (forall s, In s seen -> ~ In (Some s) (map in_model xs)) /\
  map sl_point c = map (fun i => inject_Z (1000 * Z.of_nat i)) (seq k (length xs)).
Proof.
  induction xs as [|x xs IH]; intros k seen c; cbn [number_models].
  - intro H. apply Ok_inj in H. subst c. repeat split; try constructor. intros s _ [].
  - destruct (in_model x) as [n|] eqn:M; [|discriminate]. destruct (existsb (String.eqb n) seen) eqn:E; [discriminate|]. destruct (number_models (S k) (n :: seen) xs) as [t|] eqn:T; cbn [bind]; [|discriminate]. intro H. apply Ok_inj in H. subst c.
    destruct (IH _ _ _ T) as (F & ND & NS & P). cbn [map]. rewrite M. split; [|split; [|split]].
    + constructor; [exists n; split; [exact M|reflexivity]|exact F].
    + constructor; [apply NS; now left|exact ND].
    + intros s S' [X|X]; [|exact (NS s (or_intror S') X)]. injection X as ->. assert (B : existsb (String.eqb s) seen = true) by (apply existsb_exists; exists s; split; [exact S'|apply String.eqb_refl]). congruence.
    + cbn [length seq map sl_point]. f_equal. exact P.
Qed.
Lemma number_total {D} : forall (xs : list (input D)) k seen, (forall x, In x xs -> in_model x <> None) -> NoDup (map in_model xs) -> (forall s, In s seen -> ~ In (Some s) (map in_model xs)) -> exists c, number_models k seen xs = Ok c.
Proof.
  induction xs as [|x xs IH]; intros k seen M ND NS; cbn [number_models]; [eauto|]. destruct (in_model x) as [n|] eqn:E; [|exfalso; apply (M x (or_introl eq_refl) E)]. cbn [map] in ND, NS. rewrite E in ND, NS. inversion ND as [|? ? N1 N2]; subst.
  destruct (existsb (String.eqb n) seen) eqn:B. { apply existsb_exists in B as (s & S' & B). apply String.eqb_eq in B. subst s. exfalso. apply (NS n S'). now left. }
  destruct (IH (S k) (n :: seen)) as (t & ->); [intros y Y; apply M; now right|exact N2| |cbn [bind]; eauto]. intros s [<-|S'] X; [exact (N1 X)|apply (NS s S'); now right].
Qed.
Lemma number_err {D} : forall (xs : list (input D)) k seen e, number_models k seen xs = Err e -> e = ValueError.
Proof. induction xs as [|x xs IH]; intros k seen e; cbn [number_models]; [discriminate|]. destruct (in_model x); [|congruence]. destruct (existsb _ seen); [congruence|]. destruct (number_models _ _ xs) eqn:T; cbn [bind]; [discriminate|]. intros [= <-]. exact (IH _ _ _ T). Qed.
Lemma thousands k n : qssorted (map (fun i => inject_Z (1000 * Z.of_nat i)) (seq k n)).
Proof.
  revert k. induction n as [|n IH]; intro k; cbn [seq map]; constructor; [apply IH|]. apply Forall_forall. intros x X. apply in_map_iff in X as (i & <- & I'). apply in_seq in I'. cbn beta. rewrite <- Zlt_Qlt. lia.
Qed.
Lemma distinct_b_iff l : distinct_b l = true <-> distinct l.
Proof.
  unfold distinct. induction l as [|x l IH]; cbn; [split; [constructor|reflexivity]|]. rewrite andb_true_iff, negb_true_iff, IH. split.
  - intros [A B]. constructor; [|exact B]. apply Forall_forall. intros y Y E. assert (T : existsb (Qeq_bool x) l = true) by (apply existsb_exists; exists y; split; [exact Y|now apply Qeq_bool_iff]). congruence.
  - intro H. inversion H as [|? ? F G]; subst. split; [|exact G]. destruct (existsb (Qeq_bool x) l) eqn:E; [|reflexivity]. apply existsb_exists in E as (y & Y & E). apply Qeq_bool_iff in E. rewrite Forall_forall in F. exfalso. exact (F y Y E).
Qed.
Lemma sorted_distinct l : qsorted l -> distinct l -> qssorted l.
Proof.
  unfold distinct. induction 1 as [|a l H IH F]; intro D; constructor; inversion D as [|? ? Fd Dd]; subst; [now apply IH|]. rewrite Forall_forall in *. intros x X. specialize (F x X). specialize (Fd x X). lra.
Qed.
Lemma distinct_of_keys {A} (l : list (Q * A)) : distinct_keys l -> distinct (map fst l).
Proof. unfold distinct, distinct_keys. induction 1 as [|a l F H IH]; cbn; constructor; [|exact IH]. rewrite Forall_map. exact F. Qed.
Theorem C99_merged {D} model (xs : list (input D)) c : merged model xs = Ok c -> xs <> [] /\ ascending c /\ merged_slices model xs c.
Proof.
  unfold merged. destruct xs as [|x xs]; [discriminate|]. intro H. split; [discriminate|]. unfold merged_slices. destruct model.
  - destruct (number_ok _ _ _ _ H) as (F & ND & _ & P). split; [|split; assumption]. unfold ascending. rewrite P. apply thousands.
  - set (s := map _ (x :: xs)) in H. destruct (distinct_b (map sl_point s)) eqn:E; [|discriminate]. apply Ok_inj in H. subst c. apply distinct_b_iff in E.
    assert (P : Permutation s (map snd (ksort (map by_point s)))). { rewrite <- (ksort_perm (map by_point s)). rewrite map_map. cbn. now rewrite map_id. }
    split; [|exact P]. unfold ascending. apply sorted_distinct.
    + pose proof (ksort_keys (map by_point s)) as K. assert (X : map sl_point (map snd (ksort (map by_point s))) = map fst (ksort (map by_point s))); [|rewrite X; exact K].
      rewrite map_map. apply map_ext_in. intros [q t] T. apply (Permutation_in _ (Permutation_sym (ksort_perm _))) in T. apply in_map_iff in T as (t' & T & _). unfold by_point in T. apply pair_equal_spec in T as [<- <-]. reflexivity.
    + assert (X : distinct_keys (map by_point s)) by (apply distinct_map_key; rewrite map_map; exact E). apply (distinct_perm _ _ (ksort_perm _)) in X. apply distinct_of_keys in X. assert (Y : map sl_point (map snd (ksort (map by_point s))) = map fst (ksort (map by_point s))); [|rewrite Y; exact X].
      rewrite map_map. apply map_ext_in. intros [q t] T. apply (Permutation_in _ (Permutation_sym (ksort_perm _))) in T. apply in_map_iff in T as (t' & T & _). unfold by_point in T. apply pair_equal_spec in T as [<- <-]. reflexivity.
Qed.
Theorem C99_mergeable {D} model (xs : list (input D)) : (exists c, merged model xs = Ok c) <->
  xs <> [] /\ if model then (forall x, In x xs -> in_model x <> None) /\ NoDup (map in_model xs) else distinct (map in_point xs).
Proof.
  split.
  - intros (c & H). destruct (C99_merged _ _ _ H) as (N & _ & M). split; [exact N|]. destruct model; cbn in M.
    + destruct M as [F ND]. split; [|exact ND]. intros x X. clear -F X. induction F as [|y s l l' (n & E & _) F IH]; [destruct X|]. destruct X as [<-|X]; [congruence|auto].
    + unfold merged in H. destruct xs as [|x xs]; [congruence|]. destruct (distinct_b _) eqn:E in H; [|discriminate]. apply distinct_b_iff in E. rewrite map_map in E. exact E.
  - intros [N M]. unfold merged. destruct xs as [|x xs]; [congruence|]. destruct model.
    + apply number_total; [apply M|apply M|intros s []].
    + set (s := map _ (x :: xs)). assert (E : distinct_b (map sl_point s) = true); [|rewrite E; eauto]. apply distinct_b_iff. unfold s. rewrite map_map. exact M.
Qed.

(** ** The result *)
(** Every input has a value, possibly masked, at each of [n] grid points. *)
Definition on_grid (n : nat) (xs : list (input (list (option Q)))) : Prop := Forall (fun x => length (in_data x) = n) xs.
Lemma slices_in {D} model (xs : list (input D)) c s : merged_slices model xs c -> In s c -> exists x p k, In x xs /\ s = slice_of p k x.
Proof.
  unfold merged_slices. destruct model.
  - intros [F _] I'. induction F as [|x t l l' (n & M & E) F IH]; [destruct I'|]. destruct I' as [<-|I']; [exists x, (sl_point t), (Name n); split; [now left|exact E]|]. destruct (IH I') as (y & p & k & Y & E'). exists y, p, k. split; [now right|exact E'].
  - intros P I'. apply (Permutation_in _ (Permutation_sym P)) in I'. apply in_map_iff in I' as (x & <- & X). exists x, (in_point x), (Point (in_point x)). split; [exact X|reflexivity].
Qed.
Definition mean_at (c : list (slice (list (option Q)))) (w : list Q) (g : nat) : option Q := avg (map (fun e => (nth g (sl_data (fst e)) None, snd e)) (combine c w)).
Lemma um_filter (f : Q * Q -> Q) (l : list (option Q * Q)) : (forall v w, w == 0 -> f (v, w) == 0) -> qsum (map f (um l)) == qsum (map f (um (filter (fun e => negb (snd e =? 0)) l))).
Proof.
  intro F. induction l as [|[v w] l IH]; [reflexivity|]. assert (C : forall v w l, um ((v, w) :: l) = match v with Some v => (v, w) :: um l | None => um l end) by (intros [?|] ? ?; reflexivity).
  rewrite C. cbn [filter snd]. destruct (Qeqb_spec w 0) as [E|E]; cbn [negb].
  - destruct v; [|exact IH]. cbn [map qsum]. rewrite (F q w E), IH. ring.
  - rewrite C. destruct v; [|exact IH]. cbn [map qsum]. rewrite IH. reflexivity.
Qed.
Lemma avg_filter (l : list (option Q * Q)) : oeq (avg l) (avg (filter (fun e => negb (snd e =? 0)) l)).
Proof.
  rewrite !avg_um. apply avg_cong.
  - apply (um_filter snd). auto.
  - apply (um_filter (fun p => fst p * snd p)). intros v w E. cbn. rewrite E. ring.
Qed.
Lemma filter_map_swap {A B} (f : A -> B) (p : B -> bool) (q : A -> bool) l : (forall x, p (f x) = q x) -> filter p (map f l) = map f (filter q l).
Proof. intro E. induction l as [|x l IH]; [reflexivity|]. cbn. rewrite E. destruct (q x); cbn; now rewrite IH. Qed.
Lemma points_sub {D} (l : list (slice D * Q)) : distinct (map (fun e => sl_point (fst e)) l) -> distinct (map (fun e => sl_point (fst e)) (nonzero_weighted l)).
Proof.
  unfold distinct, nonzero_weighted. induction l as [|e l IH]; [constructor|]. cbn [map filter]. intro H. inversion H as [|? ? F G]; subst. destruct (negb (snd e =? 0)); [|now apply IH]. cbn [map]. constructor; [|now apply IH].
  apply Forall_forall. intros x X. rewrite Forall_forall in F. apply F. apply in_map_iff in X as (y & <- & Y). apply filter_In in Y. apply in_map_iff. exists y. split; [reflexivity|apply Y].
Qed.
Lemma blended tb n (l : list (slice (list (option Q)) * Q)) out : distinct (map (fun e => sl_point (fst e)) l) -> (forall e, In e l -> length (sl_data (fst e)) = n) ->
  blend_process tb n (map (fun e => (sl_point (fst e), (sl_time (fst e), sl_data (fst e)))) l) (Some (map (fun e => (sl_point (fst e), repeat (snd e) n)) l)) = Ok out ->
  length out = n /\ forall g, (g < n)%nat -> oeq (nth g out None) (avg (map (fun e => (nth g (sl_data (fst e)) None, snd e)) l)).
Proof.
  intros Dk Ln H. set (es := map (fun e : slice (list (option Q)) * Q => (sl_point (fst e), {| e_time := sl_time (fst e); e_vals := sl_data (fst e); e_weights := repeat (snd e) n |})) l).
  destruct (C27_process tb n es (map (fun e => (sl_point (fst e), (sl_time (fst e), sl_data (fst e)))) l) (map (fun e => (sl_point (fst e), repeat (snd e) n)) l) out) as (L & G).
  - apply distinct_map_key. unfold es. rewrite map_map. exact Dk.
  - unfold es. rewrite map_map. reflexivity.
  - unfold es. rewrite map_map. reflexivity.
  - exact H.
  - split; [exact L|]. intros g Hg. specialize (G g Hg). unfold es in G. rewrite map_map in G. cbn [fst snd e_vals e_weights] in G.
    erewrite map_ext_in in G; [exact G|]. intros e I'. cbn beta. f_equal. apply nth_repeat_in. exact Hg.
Qed.
Lemma oeq_sym a b : oeq a b -> oeq b a.
Proof. destruct a, b; cbn; auto. intro H. now symmetry. Qed.
Lemma avg_one v k : ~ k == 0 -> oeq v (avg [(v, k)]).
Proof.
  intro K. rewrite avg_um. unfold um, wtotal, wdot. destruct v as [v|]; cbn [flat_map fst snd app map qsum]; [|reflexivity]. destruct (Qeqb_spec (k + 0) 0) as [E|E]; [exfalso; lra|]. cbn [oeq]. field. lra.
Qed.
Lemma combine_points {D} (c : list (slice D)) (w : list Q) : length w = length c -> map (fun e => sl_point (fst e)) (combine c w) = map sl_point c.
Proof. revert w. induction c as [|s c IH]; intros [|x w] L; cbn in *; try lia; [reflexivity|]. f_equal. apply IH. lia. Qed.
Lemma kept_means {D} (f : slice D -> option Q) (l : list (slice D * Q)) : oeq (avg (map (fun e => (f (fst e), snd e)) (nonzero_weighted l))) (avg (map (fun e => (f (fst e), snd e)) l)).
Proof.
  apply oeq_sym. eapply oeq_trans'; [apply avg_filter|]. unfold nonzero_weighted. erewrite filter_map_swap; [apply oeq_refl'|]. reflexivity.
Qed.
Lemma weights_length {D} m (c : list (slice D)) w : ascending c -> blending_weights m c = Ok w -> (2 <= length c)%nat -> length w = length c.
Proof. intros A H N. exact (proj1 (C99_weights m c w A N H)). Qed.
(** The weights of all inputs: one alone has all the weight. *)
Definition weighted {D} (m : method) (c : list (slice D)) (w : list Q) : Prop := (length c = 1%nat /\ w = [1]) \/ ((2 <= length c)%nat /\ shares m c w).
Lemma blend_inv {D} (blend : list (slice D * Q) -> result D) m model id record xs out : weight_and_blend blend m model id record xs = Ok out ->
  (record = true -> id = true) /\ (model = true -> id = true) /\ exists c w, merged model xs = Ok c /\ ascending c /\ merged_slices model xs c /\ weighted m c w /\
  ((exists s k, nonzero_weighted (combine c w) = [(s, k)] /\ out = sl_data s) \/ ((forall s k, nonzero_weighted (combine c w) <> [(s, k)]) /\ (2 <= length c)%nat /\ blending_weights m c = Ok w /\ blend (nonzero_weighted (combine c w)) = Ok out)).
Proof.
  unfold weight_and_blend. destruct (record && negb id) eqn:E1; [discriminate|]. destruct (model && negb id) eqn:E2; [discriminate|]. destruct (merged model xs) as [c|] eqn:M; cbn [bind]; [|discriminate]. destruct (C99_merged _ _ _ M) as (N & A & MS). intro H.
  split; [intros ->; now destruct id|]. split; [intros ->; now destruct id|].
  assert (G : (c = [] \/ exists s, c = [s]) \/ (2 <= length c)%nat) by (destruct c as [|s [|t r]]; [left; now left|left; right; now exists s|right; cbn; lia]).
  destruct G as [[->|(s & ->)]|L2].
  - exfalso. destruct xs as [|x xs]; [congruence|]. destruct model; cbn in MS; [destruct MS as [F _]; inversion F|apply Permutation_sym, Permutation_nil in MS; discriminate].
  - apply Ok_inj in H. exists [s], [1]. split; [reflexivity|]. split; [exact A|]. split; [exact MS|]. split; [left; split; reflexivity|]. left. exists s, 1. split; [reflexivity|now symmetry].
  - assert (H' : (let* w := blending_weights m c in match nonzero_weighted (combine c w) with [(s, _)] => Ok (sl_data s) | kept => blend kept end) = Ok out) by (destruct c as [|s [|t r]]; [cbn in L2; lia|cbn in L2; lia|exact H]). clear H.
    destruct (blending_weights m c) as [w|] eqn:B; cbn [bind] in H'; [|discriminate]. exists c, w. split; [reflexivity|]. split; [exact A|]. split; [exact MS|]. split; [right; split; [exact L2|now apply C99_weights]|].
    destruct (nonzero_weighted (combine c w)) as [|[s k] [|e r]] eqn:K.
    + right. split; [intros; discriminate|]. repeat split; assumption.
    + left. exists s, k. split; [reflexivity|]. apply Ok_inj in H'. now symmetry.
    + right. split; [intros; discriminate|]. repeat split; assumption.
Qed.
Lemma weighted_length {D} m (c : list (slice D)) w : weighted m c w -> length w = length c /\ Forall (fun x => 0 <= x) w /\ qsum w == 1.
Proof. intros [[L ->]|[_ (A & B & C & _)]]; [|auto]. split; [now rewrite L|]. split; [repeat constructor; lra|cbn; lra]. Qed.
(** What is returned is, at each grid point, the mean of all the inputs with those weights (of those not masked there). *)
Theorem C99_means n m model id record xs out : on_grid n xs -> weight_and_blend (blend_means n) m model id record xs = Ok out ->
  exists c w, merged_slices model xs c /\ ascending c /\ weighted m c w /\ length out = n /\ forall g, (g < n)%nat -> oeq (nth g out None) (mean_at c w g).
Proof.
  intros G H. destruct (blend_inv _ _ _ _ _ _ _ H) as (_ & _ & c & w & M & A & MS & W & R). exists c, w. destruct (weighted_length _ _ _ W) as (L & F & S1). split; [exact MS|]. split; [exact A|]. split; [exact W|].
  assert (Ld : forall s, In s c -> length (sl_data s) = n). { intros s I'. destruct (slices_in _ _ _ _ MS I') as (x & p & k & X & ->). unfold on_grid in G. rewrite Forall_forall in G. exact (G x X). }
  assert (Ld' : forall e, In e (nonzero_weighted (combine c w)) -> length (sl_data (fst e)) = n). { intros [s k] I'. apply filter_In in I' as [I' _]. apply in_combine_l in I'. exact (Ld s I'). }
  destruct R as [(s & k & K & ->)|(_ & L2 & B & R)].
  - split; [apply (Ld' (s, k)); rewrite K; now left|]. intros g Hg. unfold mean_at. eapply oeq_trans'; [|apply (kept_means (fun s => nth g (sl_data s) None))]. rewrite K. cbn [map fst snd]. apply avg_one.
    assert (I' : In (s, k) (nonzero_weighted (combine c w))) by (rewrite K; now left). apply filter_In in I' as [_ I']. cbn in I'. now destruct (Qeqb_spec k 0).
  - destruct (blended false n (nonzero_weighted (combine c w)) out) as (Lo & V); [apply points_sub; rewrite (combine_points c w L); now apply distinct_sorted|exact Ld'|exact R|]. split; [exact Lo|]. intros g Hg. eapply oeq_trans'; [exact (V g Hg)|]. apply (kept_means (fun s => nth g (sl_data s) None)).
Qed.
(** So it lies between the values of the inputs, is masked where all of them are and only where one of them is. *)
Theorem C99_bounds n m model id record xs out : on_grid n xs -> weight_and_blend (blend_means n) m model id record xs = Ok out ->
  forall g, (g < n)%nat ->
  (forall v lo hi, nth g out None = Some v -> (forall x u, In x xs -> nth g (in_data x) None = Some u -> lo <= u <= hi) -> lo <= v <= hi) /\
  ((forall x, In x xs -> nth g (in_data x) None = None) -> nth g out None = None) /\ ((forall x, In x xs -> nth g (in_data x) None <> None) -> nth g out None <> None).
Proof.
  intros G H g Hg. destruct (C99_means _ _ _ _ _ _ _ G H) as (c & w & MS & A & W & L & V). specialize (V g Hg). destruct (weighted_length _ _ _ W) as (Lw & F & S1). unfold mean_at in V.
  set (l := map _ (combine c w)) in V.
  assert (In_ : forall o k, In (o, k) l -> 0 <= k /\ exists x, In x xs /\ o = nth g (in_data x) None).
  { intros o k I'. unfold l in I'. apply in_map_iff in I' as ([s k'] & E & I'). apply pair_equal_spec in E as [<- <-]. cbn [fst snd]. split; [apply in_combine_r in I'; rewrite Forall_forall in F; now apply F|]. apply in_combine_l in I'. destruct (slices_in _ _ _ _ MS I') as (x & p & q & X & ->). exists x. split; [exact X|reflexivity]. }
  assert (Nn : forall v k, In (Some v, k) l -> 0 <= k) by (intros v k I'; exact (proj1 (In_ _ _ I'))).
  split; [|split].
  - intros v lo hi E B. rewrite E in V. destruct (avg l) as [a|] eqn:Av; [|destruct V]. cbn in V. rewrite V. apply (C27_bounds l a lo hi Av Nn). intros u k I' _. destruct (In_ _ _ I') as (_ & x & X & Eu). apply (B x u X). now symmetry.
  - intro Mk. assert (Av : avg l = None). { apply (C27_masked l Nn). intros v k I'. destruct (In_ _ _ I') as (_ & x & X & Eu). rewrite (Mk x X) in Eu. discriminate. } rewrite Av in V. destruct (nth g out None); [destruct V|reflexivity].
  - intros Mk E. rewrite E in V. destruct (avg l) as [a|] eqn:Av; [destruct V|]. pose proof (proj1 (C27_masked l Nn) Av) as Av'. clear Av. rename Av' into Av.
    assert (Z : Forall (fun x => x == 0) w). { apply Forall_forall. intros k K. apply (In_nth _ _ 0) in K as (i & Hi & <-). assert (Hc : (i < length c)%nat) by lia. destruct (nth_error c i) as [s|] eqn:Ec; [|apply nth_error_None in Ec; lia].
      assert (I' : In (nth g (sl_data s) None, nth i w 0) l). { unfold l. apply in_map_iff. exists (s, nth i w 0). split; [reflexivity|]. apply nth_error_In with i. clear -Ec Hi. revert w i Ec Hi. induction c as [|t c IH]; intros [|y w] [|i] Ec Hi; cbn in *; try discriminate; try lia; [injection Ec as ->; reflexivity|]. apply IH; [exact Ec|lia]. }
      destruct (In_ _ _ I') as (_ & x & X & Eu). destruct (nth g (sl_data s) None) as [v|]; [exact (Av v _ I')|]. exfalso. apply (Mk x X). now symmetry. }
    assert (Q0 : qsum w == 0). { clear -Z. induction Z as [|x l E Z IH]; [reflexivity|]. cbn. rewrite E, IH. ring. } lra.
Qed.

(** ** Inputs without weight *)
(** Merging and weighting look at the labels only. *)
Definition change {A B} (f : A -> Z * B) (x : input A) : input B := {| in_model := in_model x; in_point := in_point x; in_lead := in_lead x; in_time := fst (f (in_data x)); in_data := snd (f (in_data x)) |}.
Definition schange {A B} (f : A -> Z * B) (s : slice A) : slice B := {| sl_point := sl_point s; sl_key := sl_key s; sl_lead := sl_lead s; sl_time := fst (f (sl_data s)); sl_data := snd (f (sl_data s)) |}.
Definition rmap {A B} (f : A -> B) (r : result A) : result B := match r with Ok x => Ok (f x) | Err e => Err e end.
Lemma number_change {A B} (f : A -> Z * B) : forall (zs : list (input A)) k seen, number_models k seen (map (change f) zs) = rmap (map (schange f)) (number_models k seen zs).
Proof.
  induction zs as [|z zs IH]; intros k seen; [reflexivity|]. cbn [number_models map]. cbn [in_model change]. destruct (in_model z) as [n|]; [|reflexivity]. destruct (existsb _ seen); [reflexivity|]. rewrite IH. destruct (number_models _ _ zs); reflexivity.
Qed.
Definition by_coordinate {D} (s : list (slice D)) : result (list (slice D)) := if distinct_b (map sl_point s) then Ok (map snd (ksort (map by_point s))) else Err MergeError.
Lemma by_coordinate_change {A B} (f : A -> Z * B) (s : list (slice A)) : by_coordinate (map (schange f) s) = rmap (map (schange f)) (by_coordinate s).
Proof.
  unfold by_coordinate. rewrite map_map. cbn [schange sl_point]. change (map (fun x => sl_point x) s) with (map sl_point s). destruct (distinct_b (map sl_point s)); [|reflexivity]. cbn [rmap]. f_equal.
  assert (E2 : map by_point (map (schange f) s) = map (fun p => (fst p, schange f (snd p))) (map by_point s)) by (rewrite !map_map; reflexivity). rewrite E2, ksort_map, !map_map. reflexivity.
Qed.
Lemma merged_coordinate {D} (xs : list (input D)) : xs <> [] -> merged false xs = by_coordinate (map (fun x => slice_of (in_point x) (Point (in_point x)) x) xs).
Proof. destruct xs; [congruence|reflexivity]. Qed.
Lemma merged_change {A B} (f : A -> Z * B) model (zs : list (input A)) : merged model (map (change f) zs) = rmap (map (schange f)) (merged model zs).
Proof.
  destruct model.
  - destruct zs as [|z zs]; [reflexivity|]. exact (number_change f (z :: zs) 0 []).
  - destruct zs as [|z zs]; [reflexivity|]. rewrite !merged_coordinate by discriminate. rewrite <- by_coordinate_change. f_equal. rewrite !map_map. reflexivity.
Qed.
Lemma weights_change {A B} (f : A -> Z * B) m (c : list (slice A)) : blending_weights m (map (schange f) c) = blending_weights m c.
Proof.
  destruct m as [config|y0 yn|q inv]; cbn [blending_weights].
  - assert (E : mapM (dict_weight config) (map (schange f) c) = mapM (dict_weight config) c) by (induction c as [|s c IH]; [reflexivity|]; cbn [map mapM]; rewrite IH; reflexivity). rewrite E. reflexivity.
  - now rewrite map_length.
  - rewrite map_map. reflexivity.
Qed.
Definition same_labels {D} (x y : input D) : Prop := in_model x = in_model y /\ in_point x = in_point y /\ in_lead x = in_lead y.
Definition pack {D} (p : input D * input D) : input ((Z * D) * (Z * D)) := {| in_model := in_model (fst p); in_point := in_point (fst p); in_lead := in_lead (fst p); in_time := 0; in_data := ((in_time (fst p), in_data (fst p)), (in_time (snd p), in_data (snd p))) |}.
Lemma packed {D} (xs ys : list (input D)) : Forall2 same_labels xs ys -> exists zs : list (input ((Z * D) * (Z * D))), xs = map (change fst) zs /\ ys = map (change snd) zs.
Proof.
  induction 1 as [|x y xs ys (A & B & C) F (zs & -> & ->)]; [exists []; split; reflexivity|]. exists (pack (x, y) :: zs). cbn [map]. split; f_equal; destruct x, y; cbn in *; subst; reflexivity.
Qed.
Lemma combine_change {A B} (f : A -> Z * B) (c : list (slice A)) (w : list Q) : nonzero_weighted (combine (map (schange f) c) w) = map (fun e => (schange f (fst e), snd e)) (nonzero_weighted (combine c w)).
Proof.
  unfold nonzero_weighted. revert w. induction c as [|s c IH]; intros [|x w]; try reflexivity. cbn [map combine filter snd]. destruct (negb (x =? 0)); cbn [map fst snd]; now rewrite IH.
Qed.
(** The data and the times of inputs whose weight is zero do not matter. *)
Theorem C99_without_weight {D} (blend : list (slice D * Q) -> result D) m model id record xs ys : Forall2 same_labels xs ys ->
  (forall c c' w, merged model xs = Ok c -> merged model ys = Ok c' -> weighted m c w -> forall i, (i < length c)%nat -> nth i w 0 == 0 \/ nth_error c i = nth_error c' i) ->
  weight_and_blend blend m model id record xs = weight_and_blend blend m model id record ys.
Proof.
  intros S' Z0. destruct (packed _ _ S') as (zs & -> & ->). clear S'. unfold weight_and_blend. destruct (record && negb id); [reflexivity|]. destruct (model && negb id); [reflexivity|]. rewrite !merged_change in Z0 |- *.
  destruct (merged model zs) as [c|] eqn:M; [|reflexivity]. cbn [rmap bind] in Z0 |- *. pose proof (fun w => Z0 _ _ w eq_refl eq_refl) as Z1. clear Z0.
  destruct (C99_merged _ _ _ M) as (_ & A & _).
  assert (G : (c = [] \/ exists s, c = [s]) \/ (2 <= length c)%nat) by (destruct c as [|s [|t r]]; [left; now left|left; right; now exists s|right; cbn; lia]).
  assert (Af : forall f : ((Z * D) * (Z * D)) -> Z * D, ascending (map (schange f) c)) by (intro f; unfold ascending in *; rewrite map_map; exact A).
  destruct G as [[->|(s & ->)]|L2].
  - cbn [map]. destruct m as [config|y0 yn|q inv]; cbn [blending_weights]; try reflexivity.
  - cbn [map]. f_equal. destruct (Z1 [1]) with (i := 0%nat) as [E|E]; [left; split; reflexivity|cbn; lia|cbn in E; lra|]. cbn in E. injection E as _ E. exact E.
  - assert (U : forall f : ((Z * D) * (Z * D)) -> Z * D, match map (schange f) c with [s] => Ok (sl_data s) | _ => let* w := blending_weights m (map (schange f) c) in match nonzero_weighted (combine (map (schange f) c) w) with [(s, _)] => Ok (sl_data s) | kept => blend kept end end =
       let* w := blending_weights m c in match nonzero_weighted (combine (map (schange f) c) w) with [(s, _)] => Ok (sl_data s) | kept => blend kept end).
    { intro f. rewrite <- (weights_change f). destruct c as [|s [|t r]]; [cbn in L2; lia|cbn in L2; lia|reflexivity]. }
    rewrite !U. destruct (blending_weights m c) as [w|] eqn:B; [|reflexivity]. cbn [bind]. rewrite !combine_change.
    assert (E : map (fun e : slice ((Z * D) * (Z * D)) * Q => (schange fst (fst e), snd e)) (nonzero_weighted (combine c w)) = map (fun e => (schange snd (fst e), snd e)) (nonzero_weighted (combine c w))); [|now rewrite E].
    apply map_ext_in. intros [s k] I'. unfold nonzero_weighted in I'. apply filter_In in I' as [I' K]. cbn [snd fst] in *. f_equal. apply (In_nth_error) in I' as (i & I').
    assert (X : nth_error c i = Some s /\ nth_error w i = Some k). { clear -I'. revert w i I'. induction c as [|t c IH]; intros [|y w] [|i] I'; cbn in *; try discriminate; [injection I' as -> ->; auto|]. now apply IH. }
    destruct X as [Xs Xk]. assert (Li : (i < length c)%nat) by (apply nth_error_Some; congruence).
    destruct (Z1 w) with (i := i) as [E|E].
    + right. rewrite map_length. split; [exact L2|]. apply C99_weights; [apply Af|now rewrite map_length|]. now rewrite weights_change.
    + now rewrite map_length.
    + exfalso. rewrite (nth_error_nth _ _ 0 Xk) in E. destruct (Qeqb_spec k 0); [discriminate|contradiction].
    + rewrite !nth_error_map, Xs in E. cbn in E. injection E as E1 E2. unfold schange. now rewrite E1, E2.
Qed.
(** A single input, or the only one with weight, is returned as it is. *)
Theorem C99_single {D} (blend : list (slice D * Q) -> result D) m model id record x : (record = true -> id = true) -> (model = true -> id = true /\ in_model x <> None) -> weight_and_blend blend m model id record [x] = Ok (in_data x).
Proof.
  intros R M. unfold weight_and_blend. replace (record && negb id) with false by (destruct record, id; auto; now specialize (R eq_refl)). destruct model.
  - destruct (M eq_refl) as (-> & N). cbn. destruct (in_model x); [reflexivity|congruence].
  - reflexivity.
Qed.
Theorem C99_one_left {D} (blend : list (slice D * Q) -> result D) m model id record xs out c w i s : weight_and_blend blend m model id record xs = Ok out -> merged model xs = Ok c -> weighted m c w ->
  nth_error c i = Some s -> (forall j, (j < length c)%nat -> j <> i -> nth j w 0 == 0) -> blending_weights m c = Ok w -> out = sl_data s.
Proof.
  intros H M W N Z B. destruct (blend_inv _ _ _ _ _ _ _ H) as (_ & _ & c' & w' & M' & A & _ & W' & R). rewrite M in M'. apply Ok_inj in M'. subst c'. destruct (weighted_length _ _ _ W) as (Lw & _ & S1).
  assert (Li : (i < length c)%nat) by (apply nth_error_Some; congruence).
  assert (K : forall (c : list (slice D)) (w : list Q) i s, length w = length c -> nth_error c i = Some s -> ~ nth i w 0 == 0 -> (forall j, (j < length c)%nat -> j <> i -> nth j w 0 == 0) -> exists k, nonzero_weighted (combine c w) = [(s, k)]).
  { clear. unfold nonzero_weighted. induction c as [|t c IH]; intros [|y w] [|i] s L N K Z; cbn in *; try discriminate.
    - injection N as ->. destruct (Qeqb_spec y 0) as [E|E]; [contradiction|]. cbn. exists y. f_equal. assert (F : forall (c : list (slice D)) w, length w = length c -> (forall j, (j < length c)%nat -> nth j w 0 == 0) -> filter (fun e => negb (snd e =? 0)) (combine c w) = []).
      { clear. induction c as [|t c IH]; intros [|y w] L Z; cbn in *; try discriminate; [reflexivity|]. destruct (Qeqb_spec y 0) as [E|E]; [|exfalso; apply E, (Z 0%nat); lia]. cbn. apply IH; [lia|]. intros j Hj. apply (Z (S j)). lia. }
      apply F; [lia|]. intros j Hj. apply (Z (S j)); lia.
    - destruct (Qeqb_spec y 0) as [E|E]; [|exfalso; apply E, (Z 0%nat); lia]. cbn. apply (IH w i s); [lia|exact N|exact K|]. intros j Hj Nj. apply (Z (S j)); lia. }
  assert (Kw : ~ nth i w 0 == 0). { intro E. assert (F : Forall (fun x => x == 0) w). { apply Forall_forall. intros x X. apply (In_nth _ _ 0) in X as (j & Hj & <-). destruct (Nat.eq_dec j i) as [->|Nj]; [exact E|]. apply Z; [lia|exact Nj]. } assert (Q0 : qsum w == 0). { clear -F. induction F as [|x l E Z IH]; [reflexivity|]. cbn. rewrite E, IH. ring. } lra. }
  destruct (K c w i s Lw N Kw Z) as (k & Ek).
  destruct W' as [[L1 ->]|[L2 _]].
  - destruct c as [|t [|? ?]]; cbn in L1; try lia. destruct i; cbn in Li; [|lia]. cbn in N. injection N as ->. destruct R as [(s' & k' & K' & ->)|(_ & L2 & _)]; [|cbn in L2; lia]. cbn in K'. injection K' as <- _. reflexivity.
  - assert (Ew : forall kept, nonzero_weighted (combine c w') = kept -> w' = w -> kept = [(s, k)]) by (intros kept <- ->; exact Ek).
    destruct R as [(s' & k' & K' & ->)|(NK & _ & B' & _)].
    + (* the weights of [blend_inv] are those computed *)
      unfold weight_and_blend in H. destruct (record && negb id); [discriminate|]. destruct (model && negb id); [discriminate|]. rewrite M in H. cbn [bind] in H. destruct c as [|t [|t' r]]; [cbn in L2; lia|cbn in L2; lia|]. rewrite B in H. cbn [bind] in H. rewrite Ek in H. apply Ok_inj in H. now symmetry.
    + rewrite B in B'. apply Ok_inj in B'. subst w'. exfalso. exact (NK s k Ek).
Qed.

(** ** The order of the inputs *)
Lemma distinct_permuted a b : Permutation a b -> distinct a -> distinct b.
Proof.
  intros P D. assert (X : distinct_keys (map (fun q => (q, tt)) a)) by (apply distinct_map_key; rewrite map_map; cbn; now rewrite map_id). apply (distinct_perm _ (map (fun q => (q, tt)) b)) in X; [|now apply Permutation_map]. apply distinct_of_keys in X. rewrite map_map in X. cbn in X. now rewrite map_id in X.
Qed.
Lemma merged_order {D} (xs ys : list (input D)) : Permutation xs ys -> merged false xs = merged false ys.
Proof.
  intro P. destruct xs as [|x xs]; [apply Permutation_nil in P; now subst|]. assert (N : ys <> []) by (intros ->; apply Permutation_sym, Permutation_nil in P; discriminate). rewrite !merged_coordinate by (discriminate || exact N).
  set (s := map _ (x :: xs)). set (t := map (fun x => slice_of (in_point x) (Point (in_point x)) x) ys). assert (Q1 : Permutation s t) by (apply Permutation_map, P). unfold by_coordinate.
  destruct (distinct_b (map sl_point s)) eqn:E, (distinct_b (map sl_point t)) eqn:E'; try reflexivity.
  - apply distinct_b_iff in E. f_equal. f_equal. apply ksort_unique; [apply distinct_map_key; rewrite map_map; exact E|now apply Permutation_map].
  - exfalso. apply distinct_b_iff in E. apply (distinct_permuted _ (map sl_point t)) in E; [|now apply Permutation_map]. apply distinct_b_iff in E. congruence.
  - exfalso. apply distinct_b_iff in E'. apply (distinct_permuted _ (map sl_point s)) in E'; [|now apply Permutation_sym, Permutation_map]. apply distinct_b_iff in E'. congruence.
Qed.
(** Over a coordinate the order in which inputs are given does not matter ... *)
Theorem C99_order {D} (blend : list (slice D * Q) -> result D) m id record xs ys : Permutation xs ys -> weight_and_blend blend m false id record xs = weight_and_blend blend m false id record ys.
Proof. intro P. unfold weight_and_blend. now rewrite (merged_order xs ys P). Qed.
(** ... nor over models with weights from a configuration. *)
Lemma avg_weights (l l' : list (option Q * Q)) : Forall2 (fun p q => fst p = fst q /\ snd p == snd q) l l' -> oeq (avg l) (avg l').
Proof.
  intro F. rewrite !avg_um. assert (C : forall v w l, um ((v, w) :: l) = match v with Some v => (v, w) :: um l | None => um l end) by (intros [?|] ? ?; reflexivity).
  apply avg_cong; unfold wtotal, wdot; (induction F as [|[v w] [v' w'] l l' [E1 E2] F IH]; [reflexivity|]); cbn in E1, E2; subst v'; rewrite !C; destruct v; try exact IH; cbn [map qsum fst snd]; rewrite IH, E2; reflexivity.
Qed.
Definition configured (config : list (key * wconfig)) (k : key) (lead : Q) : Q := match find (fun e => key_eqb (fst e) k) config with Some e => config_weight (snd e) lead | None => 0 end.
Lemma find_at {A} (f : A -> bool) l1 e l2 : f e = true -> (forall x, In x l1 -> f x = false) -> find f (l1 ++ e :: l2) = Some e.
Proof. intros T F. induction l1 as [|a l1 IH]; cbn; [now rewrite T|]. rewrite F by now left. apply IH. intros x X. apply F. now right. Qed.
Lemma mean_configured config (c : list (slice (list (option Q)))) w g : shares (Dict config) c w -> oeq (mean_at c w g) (avg (map (fun s => (nth g (sl_data s) None, configured config (sl_key s) (sl_lead s))) c)).
Proof.
  intros (L & _ & _ & k & K & P). unfold mean_at. eapply oeq_trans'; [|apply (C27_weight_scale k); lra]. rewrite map_map. cbn [fst snd]. apply avg_weights.
  assert (P' : forall i s, nth_error c i = Some s -> nth i w 0 == configured config (sl_key s) (sl_lead s) * k).
  { intros i s N. assert (Li : (i < length c)%nat) by (apply nth_error_Some; congruence). destruct (P i Li) as (x & (s' & l1 & k0 & e & l2 & N' & -> & T & F & X) & E). rewrite N in N'. injection N' as <-. rewrite E, X. unfold configured. rewrite (find_at _ l1 (k0, e) l2); [cbn [snd]; ring|exact T|]. intros [k' e'] I'. exact (F k' e' I'). }
  clear P. revert w L P'. induction c as [|s c IH]; intros [|y w] L P'; cbn in L; try lia; cbn [combine map]; constructor.
  - cbn. split; [reflexivity|]. exact (P' 0%nat s eq_refl).
  - apply IH; [lia|]. intros i t N. exact (P' (S i) t N).
Qed.
Lemma named_means config (xs : list (input (list (option Q)))) c g : merged_slices true xs c ->
  map (fun s => (nth g (sl_data s) None, configured config (sl_key s) (sl_lead s))) c = map (fun x => (nth g (in_data x) None, configured config (Name (match in_model x with Some n => n | None => "" end)) (in_lead x))) xs.
Proof. intros [F _]. induction F as [|x s xs c (n & M & E) F IH]; [reflexivity|]. cbn [map]. f_equal; [rewrite E, M; reflexivity|exact IH]. Qed.
Lemma merged_length {D} model (xs : list (input D)) c : merged_slices model xs c -> length c = length xs.
Proof. unfold merged_slices. destruct model; [intros [F _]; symmetry; exact (Forall2_len _ _ _ F)|intro P; apply Permutation_length in P; now rewrite map_length in P]. Qed.
Theorem C99_order_of_models n config id record xs ys out out' : on_grid n xs -> Permutation xs ys -> weight_and_blend (blend_means n) (Dict config) true id record xs = Ok out -> weight_and_blend (blend_means n) (Dict config) true id record ys = Ok out' -> Forall2 oeq out out'.
Proof.
  intros G P H H'. assert (G' : on_grid n ys) by (unfold on_grid in *; eapply Permutation_Forall; eassumption).
  destruct (C99_means _ _ _ _ _ _ _ G H) as (c & w & MS & _ & W & L & V). destruct (C99_means _ _ _ _ _ _ _ G' H') as (c' & w' & MS' & _ & W' & L' & V').
  pose proof (merged_length _ _ _ MS) as Lc. pose proof (merged_length _ _ _ MS') as Lc'. pose proof (Permutation_length P) as Lp.
  destruct W as [[L1 _]|[L2 W]].
  - destruct xs as [|x [|? ?]]; cbn in Lc; try lia. apply Permutation_length_1_inv in P. subst ys. rewrite H in H'. apply Ok_inj in H'. subst out'. clear. induction out; constructor; [apply oeq_refl'|assumption].
  - destruct W' as [[L1' _]|[_ W']]; [lia|].
    assert (E : forall g, (g < n)%nat -> oeq (nth g out None) (nth g out' None)).
    { intros g Hg. eapply oeq_trans'; [exact (V g Hg)|]. eapply oeq_trans'; [|apply oeq_sym; exact (V' g Hg)]. eapply oeq_trans'; [apply (mean_configured config); exact W|]. eapply oeq_trans'; [|apply oeq_sym, (mean_configured config); exact W'].
      rewrite (named_means config xs c g MS), (named_means config ys c' g MS'). apply C27_order. now apply Permutation_map. }
    clear -E L L'. revert out' n L L' E. induction out as [|a out IH]; intros [|b out'] n L L' E; cbn in L, L'; try lia; constructor; [apply (E 0%nat); lia|]. apply (IH out' (n - 1)%nat); [lia|lia|]. intros g Hg. apply (E (S g)). lia.
Qed.
(** With weights that depend on the place it does: models are numbered as they come. *)
Definition two_models : list (input (list (option Q))) := [{| in_model := Some "a"%string; in_point := 0; in_lead := 0; in_time := 0; in_data := [Some 0] |}; {| in_model := Some "b"%string; in_point := 0; in_lead := 0; in_time := 0; in_data := [Some 6] |}].
Theorem C99_order_of_models_refuted : ~ (forall m xs ys out out', Permutation xs ys -> weight_and_blend (blend_means 1) m true true false xs = Ok out -> weight_and_blend (blend_means 1) m true true false ys = Ok out' -> Forall2 oeq out out').
Proof.
  intro H. specialize (H (Linear 1 2) two_models (rev two_models)). destruct (weight_and_blend (blend_means 1) (Linear 1 2) true true false two_models) as [o|] eqn:E; [|vm_compute in E; discriminate]. destruct (weight_and_blend (blend_means 1) (Linear 1 2) true true false (rev two_models)) as [o'|] eqn:E'; [|vm_compute in E'; discriminate].
  specialize (H o o' (Permutation_rev _) eq_refl eq_refl). vm_compute in E, E'. apply Ok_inj in E, E'. subst o o'. inversion H as [|? ? ? ? X]; subst. vm_compute in X. discriminate.
Qed.
(** A plugin can be called again: what a call does to the plugin does not change later results. *)
Theorem C99_again {D} (blend : list (slice D * Q) -> result D) m id record coord xs ys : snd (call blend m id record (fst (call blend m id record coord xs)) ys) = snd (call blend m id record coord ys).
Proof.
  unfold call. cbn [fst snd]. destruct (Model_Probability.contains "model" coord) eqn:E; [|rewrite andb_false_r, E; reflexivity]. rewrite andb_true_r. match goal with |- context [if ?b then _ else _] => destruct b end; [reflexivity|now rewrite E].
Qed.
(** What is refused. *)
Theorem C99_refused {D} (blend : list (slice D * Q) -> result D) m model id record xs :
  ((record = true \/ model = true) -> id = false -> weight_and_blend blend m model id record xs = Err ValueError) /\
  ((exists out, weight_and_blend blend m model id record xs = Ok out) -> (exists c, merged model xs = Ok c)).
Proof.
  split.
  - intros R ->. unfold weight_and_blend. destruct record, model; try reflexivity. destruct R; discriminate.
  - intros (out & H). destruct (blend_inv _ _ _ _ _ _ _ H) as (_ & _ & c & _ & M & _). eauto.
Qed.
Lemma blend_means_error n l e : blend_means n l = Err e -> e = ValueError.
Proof. unfold blend_means, blend_process. cbn [option_map]. unfold check_times. destruct (1 <? _)%nat; cbn [bind]; [congruence|]. destruct (_ =? _)%nat; congruence. Qed.
(** Fields of different times are not blended, unless all but one have no weight. *)
Theorem C99_times n m model id record xs out : weight_and_blend (blend_means n) m model id record xs = Ok out ->
  exists c w, merged model xs = Ok c /\ weighted m c w /\ forall i j s t, nth_error c i = Some s -> nth_error c j = Some t -> ~ nth i w 0 == 0 -> ~ nth j w 0 == 0 -> sl_time s = sl_time t.
Proof.
  intro H. destruct (blend_inv _ _ _ _ _ _ _ H) as (_ & _ & c & w & M & A & MS & W & R). exists c, w. split; [exact M|]. split; [exact W|]. destruct (weighted_length _ _ _ W) as (Lw & _).
  assert (K : forall i s, nth_error c i = Some s -> ~ nth i w 0 == 0 -> In (s, nth i w 0) (nonzero_weighted (combine c w))).
  { intros i s N Z. unfold nonzero_weighted. apply filter_In. split; [|cbn; now destruct (Qeqb_spec (nth i w 0) 0)]. apply nth_error_In with i. clear -N Lw. revert w i N Lw. induction c as [|t c IH]; intros [|y w] [|i] N Lw; cbn in *; try discriminate; [injection N as ->; reflexivity|]. apply IH; [exact N|lia]. }
  intros i j s t Ni Nj Zi Zj. specialize (K i s Ni Zi) as Ki. specialize (K j t Nj Zj) as Kj. destruct R as [(s' & k' & E & _)|(_ & _ & _ & R)].
  - rewrite E in Ki, Kj. destruct Ki as [Ki|[]], Kj as [Kj|[]]. congruence.
  - unfold blend_means, blend_process in R. cbn [option_map] in R. destruct (check_times false _) as [[]|] eqn:C; cbn [bind] in R; [|discriminate]. apply C27_times in C. destruct C as [C|C]; [discriminate|]. apply C.
    + apply in_map_iff. exists (sl_point s, (sl_time s, sl_data s)). split; [reflexivity|]. apply (Permutation_in _ (ksort_perm _)). apply in_map_iff. exists (s, nth i w 0). split; [reflexivity|exact Ki].
    + apply in_map_iff. exists (sl_point t, (sl_time t, sl_data t)). split; [reflexivity|]. apply (Permutation_in _ (ksort_perm _)). apply in_map_iff. exists (t, nth j w 0). split; [reflexivity|exact Kj].
Qed.

(** ** Weights that vary in space *)
Lemma transposed_at n rows k i g : (i < k)%nat -> (g < n)%nat -> nth g (nth i (transposed n rows k) []) 0 = nth i (nth g rows []) 0.
Proof. intros I' G. unfold transposed. rewrite nth_map_seq by exact I'. rewrite nth_map_seq by exact G. reflexivity. Qed.
Lemma transposed_length n rows k : length (transposed n rows k) = k.
Proof. unfold transposed. now rewrite map_length, seq_length. Qed.
Lemma spatial_nonneg len w masked dist : 0 < len -> Forall (fun x => 0 <= x) w -> length masked = length w -> length dist = length w -> Forall (fun x => 0 <= x) (spatial_weights len w masked dist).
Proof. intros A B C E. eapply Forall_impl; [|exact (proj2 (C31_range len w masked dist A B C E))]. cbn. intros; lra. Qed.
(** The weights of the slices [l] at grid point [g]. *)
Definition weights_at (len : Q) (distance : slice (list (option Q)) -> nat -> option Q) (l : list (slice (list (option Q)) * Q)) (g : nat) : list Q :=
  spatial_weights len (map snd l) (map (fun e => is_masked (nth g (sl_data (fst e)) None)) l) (map (fun e => distance (fst e) g) l).
Lemma combine_map_l {A B C} (f : A -> B) (l : list A) (r : list C) : combine (map f l) r = map (fun p => (f (fst p), snd p)) (combine l r).
Proof. revert r. induction l as [|a l IH]; intros [|b r]; cbn; [reflexivity|reflexivity|reflexivity|]. now rewrite IH. Qed.
Lemma blended_spatially len distance n (l : list (slice (list (option Q)) * Q)) out : distinct (map (fun e => sl_point (fst e)) l) -> 0 < len -> Forall (fun e => 0 <= snd e) l ->
  blend_means_spatially len distance n l = Ok out ->
  length out = n /\ forall g, (g < n)%nat -> oeq (nth g out None) (avg (combine (map (fun e => nth g (sl_data (fst e)) None) l) (weights_at len distance l g))).
Proof.
  intros Dk Hl Nn H. unfold blend_means_spatially in H. set (rows := map _ (seq 0 n)) in H. set (T := transposed n rows (length l)) in H.
  assert (LT : length T = length l) by apply transposed_length.
  set (es := map (fun p : (slice (list (option Q)) * Q) * list Q => (sl_point (fst (fst p)), {| e_time := sl_time (fst (fst p)); e_vals := sl_data (fst (fst p)); e_weights := snd p |})) (combine l T)).
  assert (ML : forall (B : Type) (f : slice (list (option Q)) * Q -> B), map (fun p => f (fst p)) (combine l T) = map f l). { intros B f. rewrite <- (map_map fst f). rewrite map_fst_combine by lia. reflexivity. }
  destruct (C27_process false n es (map (fun e => (sl_point (fst e), (sl_time (fst e), sl_data (fst e)))) l) (combine (map (fun e => sl_point (fst e)) l) T) out) as (L & G).
  - apply distinct_map_key. unfold es. rewrite map_map. cbn [fst]. rewrite (ML Q (fun e => sl_point (fst e))). exact Dk.
  - unfold es. rewrite map_map. cbn [fst snd e_time e_vals]. rewrite (ML _ (fun e => (sl_point (fst e), (sl_time (fst e), sl_data (fst e))))). reflexivity.
  - unfold es. rewrite map_map. cbn [fst snd e_weights]. rewrite combine_map_l. reflexivity.
  - exact H.
  - split; [exact L|]. intros g Hg. specialize (G g Hg). unfold es in G. rewrite map_map in G. cbn [fst snd e_vals e_weights] in G.
    replace (combine (map (fun e => nth g (sl_data (fst e)) None) l) (weights_at len distance l g)) with (map (fun x => (nth g (sl_data (fst (fst x))) None, nth g (snd x) 0)) (combine l T)); [exact G|].
    assert (LW : length (weights_at len distance l g) = length l). { unfold weights_at. destruct (C31_range len (map snd l) (map (fun e => is_masked (nth g (sl_data (fst e)) None)) l) (map (fun e => distance (fst e) g) l)) as [E _]; [exact Hl|now rewrite Forall_map|now rewrite !map_length|now rewrite !map_length|]. rewrite E. apply map_length. }
    apply (nth_ext _ _ (None, 0) (None, 0)); [rewrite map_length, !combine_length, map_length; lia|]. intros i Hi. rewrite map_length, combine_length, LT, Nat.min_id in Hi.
    destruct l as [|e0 l']; [cbn in Hi; lia|]. set (l := e0 :: l') in *.
    rewrite (nth_map_lt _ (combine l T) i (e0, []) (None, 0)) by (rewrite combine_length; lia). rewrite (combine_nth l T i e0 []) by lia. rewrite combine_nth by (rewrite map_length; lia). cbn [fst snd]. rewrite (nth_map_lt _ l i e0 None) by exact Hi. f_equal.
    unfold T. rewrite transposed_at by assumption. unfold rows. rewrite nth_map_seq by exact Hg. reflexivity.
Qed.
(** With them too each value lies between those of the inputs that are not masked there. *)
Theorem C99_spatial n len distance m model id record xs out : 0 < len -> on_grid n xs -> weight_and_blend (blend_means_spatially len distance n) m model id record xs = Ok out ->
  length out = n /\ forall g, (g < n)%nat -> forall v lo hi, nth g out None = Some v -> (forall x u, In x xs -> nth g (in_data x) None = Some u -> lo <= u <= hi) -> lo <= v <= hi.
Proof.
  intros Hl G H. destruct (blend_inv _ _ _ _ _ _ _ H) as (_ & _ & c & w & M & A & MS & W & R). destruct (weighted_length _ _ _ W) as (L & F & S1).
  assert (Ld : forall s, In s c -> exists x, In x xs /\ sl_data s = in_data x). { intros s I'. destruct (slices_in _ _ _ _ MS I') as (x & p & k & X & ->). eauto. }
  assert (Ld' : forall e, In e (nonzero_weighted (combine c w)) -> 0 <= snd e /\ exists x, In x xs /\ sl_data (fst e) = in_data x). { intros [s k] I'. apply filter_In in I' as [I' _]. split; [apply in_combine_r in I'; rewrite Forall_forall in F; exact (F k I')|apply in_combine_l in I'; exact (Ld s I')]. }
  destruct R as [(s & k & K & ->)|(_ & L2 & B & R)].
  - destruct (Ld' (s, k)) as (_ & x & X & E); [rewrite K; now left|]. cbn in E. rewrite E. unfold on_grid in G. rewrite Forall_forall in G. split; [now apply G|]. intros g Hg v lo hi V Bd. exact (Bd x v X V).
  - assert (Fk : Forall (fun e => 0 <= snd e) (nonzero_weighted (combine c w))) by (apply Forall_forall; intros e I'; exact (proj1 (Ld' e I'))).
    destruct (blended_spatially len distance n (nonzero_weighted (combine c w)) out) as (Lo & V); [apply points_sub; rewrite (combine_points c w L); now apply distinct_sorted|exact Hl|exact Fk|exact R|]. split; [exact Lo|]. intros g Hg v lo hi E Bd. specialize (V g Hg). rewrite E in V.
    set (kept := nonzero_weighted (combine c w)) in *. set (l := combine _ _) in V. destruct (avg l) as [a|] eqn:Av; [|destruct V]. cbn in V. rewrite V. apply (C27_bounds l a lo hi Av).
    + intros u k I'. apply in_combine_r in I'. assert (N : Forall (fun x => 0 <= x) (weights_at len distance kept g)) by (apply spatial_nonneg; [exact Hl|now rewrite Forall_map|now rewrite !map_length|now rewrite !map_length]). rewrite Forall_forall in N. now apply N.
    + intros u k I' _. apply in_combine_l in I'. apply in_map_iff in I' as (e & E' & I'). destruct (Ld' e I') as (_ & x & X & Ed). rewrite Ed in E'. exact (Bd x u X E').
Qed.

(** ** Percentiles *)
(** Each input gives the percentiles [ps] at each of [n] grid points: so does the blend, in order and between the extremes of the inputs. *)
Definition on_percentiles (ps : list Q) (n : nat) (xs : list (input (list (list Q)))) : Prop := Forall (fun x => length (in_data x) = n /\ Forall (fun r => length r = length ps) (in_data x)) xs.
Theorem C99_percentiles ps n m model id record xs out : qsorted ps -> ps <> [] -> on_percentiles ps n xs -> (forall x g, In x xs -> qsorted (nth g (in_data x) [])) ->
  weight_and_blend (blend_percentile_slices false ps n) m model id record xs = Ok out ->
  length out = n /\ forall g, (g < n)%nat -> length (nth g out []) = length ps /\ qsorted (nth g out []) /\
    forall lo hi, (forall x, In x xs -> Forall (fun v => lo <= v <= hi) (nth g (in_data x) [])) -> Forall (fun v => lo <= v <= hi) (nth g out []).
Proof.
  intros Sp Np G Sx H. destruct (blend_inv _ _ _ _ _ _ _ H) as (_ & _ & c & w & M & A & MS & W & R). destruct (weighted_length _ _ _ W) as (L & F & S1). unfold on_percentiles in G. rewrite Forall_forall in G.
  assert (Ld : forall e, In e (nonzero_weighted (combine c w)) -> exists x, In x xs /\ sl_data (fst e) = in_data x). { intros [s k] I'. apply filter_In in I' as [I' _]. apply in_combine_l in I'. destruct (slices_in _ _ _ _ MS I') as (x & p & q & X & ->). eauto. }
  assert (Row : forall x g, In x xs -> (g < n)%nat -> length (nth g (in_data x) []) = length ps). { intros x g X Hg. destruct (G x X) as (Lx & Fx). rewrite Forall_forall in Fx. apply Fx, nth_In. lia. }
  destruct R as [(s & k & K & ->)|(NK & L2 & B & R)].
  - destruct (Ld (s, k)) as (x & X & E); [rewrite K; now left|]. cbn in E. rewrite E. split; [now apply G|]. intros g Hg. split; [now apply Row|]. split; [now apply Sx|]. intros lo hi Bd. now apply Bd.
  - unfold blend_percentile_slices in R. set (kept := nonzero_weighted (combine c w)) in *. set (l := map snd (ksort _)) in R. destruct (check_times _ _); cbn [bind] in R; [|discriminate]. unfold aggregate in R.
    assert (Pl : Permutation kept l). { unfold l. rewrite <- ksort_perm. rewrite map_map. cbn. now rewrite map_id. }
    assert (Nl : l <> []). { intros E. rewrite E in Pl. apply Permutation_sym, Permutation_nil in Pl. assert (Q0 : qsum w == 0); [|lra]. unfold kept in Pl. clear -Pl L. revert w Pl L. induction c as [|s c IH]; intros [|y w] Pl L; cbn in *; try lia; [reflexivity|]. destruct (Qeqb_spec y 0) as [E|E]; cbn in Pl; [|discriminate]. rewrite E, IH; [ring|exact Pl|lia]. }
    pose proof (mapM_size _ _ _ R) as Ln. rewrite map_length, seq_length in Ln. split; [exact Ln|]. intros g Hg.
    destruct (mapM_at _ _ _ [] g R) as (x & N & E); [rewrite map_length, seq_length; exact Hg|]. rewrite nth_error_map, nth_error_nth' with (d := 0%nat) in N by (rewrite seq_length; exact Hg). rewrite seq_nth in N by exact Hg. cbn [option_map plus] in N. injection N as <-. cbn [fst snd] in E.
    destruct (_ =? _)%nat; [|discriminate]. apply Ok_inj in E. rewrite <- E. clear R E. set (rows := map (fun e : slice (list (list Q)) * Q => nth g (sl_data (fst e)) []) l).
    assert (Rw : forall r, In r rows -> exists x, In x xs /\ r = nth g (in_data x) []). { intros r I'. unfold rows in I'. apply in_map_iff in I' as (e & <- & I'). apply (Permutation_in _ (Permutation_sym Pl)) in I'. destruct (Ld e I') as (x & X & Ed). exists x. split; [exact X|]. now rewrite Ed. }
    assert (FR : Forall (fun r => length r = length ps) rows) by (apply Forall_forall; intros r I'; destruct (Rw r I') as (x & X & ->); now apply Row).
    destruct (C26_monotone rows ps (nth g (norm_cols (repeat (map snd l) n)) []) Sp FR) as (S2 & L3). split; [exact L3|]. split; [exact S2|]. intros lo hi Bd. apply C26_within_range; [|exact Np|exact FR|].
    + intro E0. apply Nl. unfold rows in E0. now apply map_eq_nil in E0.
    + apply Forall_forall. intros r I'. destruct (Rw r I') as (x & X & ->). now apply Bd.
Qed.

(** * C100: blending a point with those around it *)
(** The points of the coordinate are distinct and each slice has a value, possibly masked, at each of [n] grid points. *)
Definition on_points (n : nat) (cube : list (slice (list (option Q)))) : Prop := distinct (map sl_point cube) /\ Forall (fun s => length (sl_data s) = n) cube.
Lemma central_iff {D} p (cube : list (slice D)) s : distinct (map sl_point cube) -> (central p cube = Ok s <-> In s cube /\ sl_point s == p).
Proof.
  intro Di. unfold central. assert (Un : forall (a b : slice D) (l : list (slice D)), In a l -> In b l -> distinct (map sl_point l) -> sl_point a == sl_point b -> a = b).
  { clear. induction l as [|x l IH]; intros Ia Ib Di E; [destruct Ia|]. cbn in Di. inversion Di as [|? ? F G]; subst. rewrite Forall_map, Forall_forall in F. destruct Ia as [<-|Ia], Ib as [<-|Ib]; [reflexivity|exfalso; exact (F b Ib E)|exfalso; symmetry in E; exact (F a Ia E)|now apply IH]. }
  assert (In_ : forall t, In t (filter (fun s => sl_point s =? p) cube) <-> In t cube /\ sl_point t == p) by (intro t; rewrite filter_In; now rewrite Qeqb_eq).
  assert (One : forall a b r, filter (fun s => sl_point s =? p) cube <> a :: b :: r).
  { intros a b r E. assert (Ia : In a (filter (fun s => sl_point s =? p) cube)) by (rewrite E; now left). assert (Ib : In b (filter (fun s => sl_point s =? p) cube)) by (rewrite E; right; now left). apply In_ in Ia as [Ia Ea], Ib as [Ib Eb].
    assert (Df : distinct (map sl_point (filter (fun s => sl_point s =? p) cube))). { clear -Di. induction cube as [|x l IH]; [constructor|]. cbn in Di. inversion Di as [|? ? F G]; subst. cbn. destruct (sl_point x =? p); [|now apply IH]. cbn. constructor; [|now apply IH]. rewrite Forall_map, Forall_forall in *. intros y Y. apply filter_In in Y. now apply F. }
    rewrite E in Df. inversion Df as [|? ? F _]; subst. inversion F as [|? ? X _]; subst. apply X. rewrite Ea, Eb. reflexivity. }
  destruct (filter (fun s => sl_point s =? p) cube) as [|a [|b r]] eqn:E.
  - split; [discriminate|]. intro H. apply In_ in H. destruct H.
  - split; [intro H; apply Ok_inj in H; subst a; apply In_; now left|]. intro H. apply In_ in H. destruct H as [<-|[]]. reflexivity.
  - exfalso. exact (One a b r eq_refl).
Qed.
(** The weight of a point, before normalisation: one at the centre, falling to nothing at the width. *)
Definition triangle (mid width p : Q) : Q := Qmax 0 (1 - Qabs (p - mid) / width).
Lemma tri_is_triangle mid width p : 0 < width -> tri_raw mid width p == triangle mid width p.
Proof.
  intro W. unfold tri_raw, triangle. assert (Inv : 0 < / width) by now apply Qinv_lt_0_compat.
  destruct (Qleb_spec (mid - width) p) as [A|A], (Qleb_spec p (mid + width)) as [B|B]; cbn [andb].
  - assert (Ab : Qabs (p - mid) <= width) by (apply Qabs_Qle_condition; lra). assert (Dv : Qabs (p - mid) / width <= 1) by (apply Qle_shift_div_r; lra).
    destruct (Qeqb_spec p mid) as [E|E]; [|rewrite Q.max_r by lra; field; lra]. assert (Z : Qabs (p - mid) == 0) by (rewrite E; setoid_replace (mid - mid) with 0 by ring; reflexivity). rewrite Z. rewrite Q.max_r; [field; lra|]. setoid_replace (0 / width) with 0 by (field; lra). lra.
  - assert (Ab : width <= Qabs (p - mid)) by (pose proof (Qle_Qabs (p - mid)); lra). assert (1 <= Qabs (p - mid) / width) by (apply Qle_shift_div_l; lra). rewrite Q.max_l by lra. reflexivity.
  - assert (Ab : width <= Qabs (p - mid)) by (pose proof (Qle_Qabs (-(p - mid))) as X; rewrite Qabs_opp in X; lra). assert (1 <= Qabs (p - mid) / width) by (apply Qle_shift_div_l; lra). rewrite Q.max_l by lra. reflexivity.
  - assert (Ab : width <= Qabs (p - mid)) by (pose proof (Qle_Qabs (p - mid)); lra). assert (1 <= Qabs (p - mid) / width) by (apply Qle_shift_div_l; lra). rewrite Q.max_l by lra. reflexivity.
Qed.
Lemma zip_self {A B} (f : A -> B) (l : list A) : combine l (map f l) = map (fun x => (x, f x)) l.
Proof. induction l; cbn; [reflexivity|]. now rewrite IHl. Qed.
Lemma triangular_ok pts mid width w : triangular_weights pts mid width = Ok w -> 0 < width /\ exists t, 0 < t /\ w = map (fun p => tri_raw mid width p / t) pts.
Proof.
  intro H. assert (E : exists w, triangular_weights pts mid width = Ok w) by eauto. apply C25_triangular_total in E as (p & _ & P). assert (W : 0 < width) by (pose proof (Qabs_nonneg (p - mid)); lra). split; [exact W|].
  unfold triangular_weights in H. destruct (width =? 0); [discriminate|]. destruct (normalised _ _ H) as (T & ->). exists (qsum (map (tri_raw mid width) pts)). split; [exact T|]. now rewrite map_map.
Qed.
(** The plugin works if one of the points is the central one and the width, in the units of the coordinate, is positive; and returns the mean of the slices with triangular weights and the metadata of the central slice. *)
Theorem C100_blend n u point width cube : on_points n cube ->
  ((exists out, triangular_blend (blend_means_over_time n) u point width cube = Ok out) <-> (exists s, In s cube /\ sl_point s == convert u point) /\ 0 < convert u width) /\
  forall out, triangular_blend (blend_means_over_time n) u point width cube = Ok out -> exists s, In s cube /\ sl_point s == convert u point /\
    sl_point out = sl_point s /\ sl_time out = sl_time s /\ sl_key out = sl_key s /\ sl_lead out = sl_lead s /\ length (sl_data out) = n /\
    forall g, (g < n)%nat -> oeq (nth g (sl_data out) None) (avg (map (fun t => (nth g (sl_data t) None, triangle (convert u point) (convert u width) (sl_point t))) cube)).
Proof.
  intros [Di Ld]. set (p := convert u point). set (wd := convert u width). rewrite Forall_forall in Ld.
  assert (Len : forall w, triangular_weights (map sl_point cube) p wd = Ok w -> length w = length cube). { intros w H. destruct (triangular_ok _ _ _ _ H) as (_ & t & _ & ->). now rewrite !map_length. }
  assert (Bl : forall w, triangular_weights (map sl_point cube) p wd = Ok w -> exists d, blend_means_over_time n (combine cube w) = Ok d).
  { intros w H. unfold blend_means_over_time, blend_process. cbn [option_map check_times bind]. rewrite !ksort_length, !map_length, Nat.eqb_refl. eauto. }
  split.
  - unfold triangular_blend. fold p wd. split.
    + intros (out & H). destruct (central p cube) as [s|] eqn:C; cbn [bind] in H; [|discriminate]. apply (central_iff p cube s Di) in C. destruct (triangular_weights _ p wd) as [w|] eqn:T; cbn [bind] in H; [|discriminate]. destruct (triangular_ok _ _ _ _ T) as (W & _). split; [exists s; exact C|exact W].
    + intros ((s & C) & W). apply (central_iff p cube s Di) in C. rewrite C. cbn [bind]. apply (central_iff p cube s Di) in C. destruct C as [I' E].
      assert (T : exists w, triangular_weights (map sl_point cube) p wd = Ok w). { apply C25_triangular_total. exists (sl_point s). split; [now apply in_map|]. rewrite E. setoid_replace (p - p) with 0 by ring. exact W. }
      destruct T as (w & T). rewrite T. cbn [bind]. destruct (Bl w T) as (d & ->). cbn [bind]. eauto.
  - intros out H. unfold triangular_blend in H. fold p wd in H. destruct (central p cube) as [s|] eqn:C; cbn [bind] in H; [|discriminate]. apply (central_iff p cube s Di) in C. destruct C as [I' E]. destruct (triangular_weights _ p wd) as [w|] eqn:T; cbn [bind] in H; [|discriminate].
    destruct (blend_means_over_time n (combine cube w)) as [d|] eqn:B; cbn [bind] in H; [|discriminate]. apply Ok_inj in H. subst out. cbn [sl_point sl_time sl_key sl_lead sl_data]. exists s. repeat (split; [assumption || reflexivity|]).
    pose proof (Len w eq_refl) as Lw. destruct (blended true n (combine cube w) d) as (L & V); [rewrite combine_points by exact Lw; exact Di| |exact B|].
    { intros [t k] I2. apply in_combine_l in I2. now apply Ld. }
    split; [exact L|]. intros g Hg. eapply oeq_trans'; [exact (V g Hg)|]. destruct (triangular_ok _ _ _ _ T) as (W & tt & Ht & ->). rewrite map_map, zip_self, map_map. cbn [fst snd].
    eapply oeq_trans'; [|apply (C27_weight_scale (/ tt)); intro Z; pose proof (Qinv_lt_0_compat tt Ht); lra]. rewrite map_map. cbn [fst snd]. apply avg_weights. clear -W Ht. induction cube as [|t cube IH]; cbn [map]; constructor; [|exact IH]. cbn. split; [reflexivity|]. rewrite tri_is_triangle by exact W. reflexivity.
Qed.
Lemma triangle_pos mid width p : 0 < width -> 0 <= triangle mid width p /\ (0 < triangle mid width p <-> Qabs (p - mid) < width).
Proof.
  intro W. unfold triangle. split; [apply Q.le_max_l|]. split; intro H.
  - destruct (Qlt_le_dec (Qabs (p - mid)) width) as [L|L]; [exact L|]. assert (1 <= Qabs (p - mid) / width) by (apply Qle_shift_div_l; lra). rewrite Q.max_l in H by lra. lra.
  - assert (Qabs (p - mid) / width < 1) by (apply Qlt_shift_div_r; lra). rewrite Q.max_r by lra. lra.
Qed.
(** Two slices at the central point are refused. *)
Theorem C100_point_twice n u point width (a b c : list (slice (list (option Q)))) s t : sl_point s == convert u point -> sl_point t == convert u point -> triangular_blend (blend_means_over_time n) u point width (a ++ s :: b ++ t :: c) = Err ValueError.
Proof.
  intros S1 S2. unfold triangular_blend. set (p := convert u point) in *. assert (C : central p (a ++ s :: b ++ t :: c) = Err ValueError); [|rewrite C; reflexivity].
  unfold central. rewrite filter_app. cbn [filter]. rewrite filter_app. cbn [filter]. repeat match goal with |- context [if ?x then _ else _] => replace x with true by (symmetry; apply Qeq_bool_iff; assumption) end.
  destruct (filter _ a) as [|x [|y r]]; [|reflexivity|reflexivity]. cbn [app]. destruct (filter _ b) as [|x r]; reflexivity.
Qed.
(** Only what is nearer to the central point than the width counts. *)
Theorem C100_window n u point width cube out g : on_points n cube -> triangular_blend (blend_means_over_time n) u point width cube = Ok out -> (g < n)%nat ->
  let near t := Qabs (sl_point t - convert u point) < convert u width in
  (forall v lo hi, nth g (sl_data out) None = Some v -> (forall t x, In t cube -> near t -> nth g (sl_data t) None = Some x -> lo <= x <= hi) -> lo <= v <= hi) /\
  (nth g (sl_data out) None = None <-> forall t, In t cube -> near t -> nth g (sl_data t) None = None).
Proof.
  intros G H Hg near. destruct (C100_blend n u point width cube G) as [Ex V]. assert (W : 0 < convert u width) by (apply Ex; eauto). destruct (V out H) as (s & _ & _ & _ & _ & _ & _ & _ & M). specialize (M g Hg). set (l := map _ cube) in M.
  assert (In_ : forall o k, In (o, k) l -> exists t, In t cube /\ o = nth g (sl_data t) None /\ k = triangle (convert u point) (convert u width) (sl_point t)). { intros o k I'. unfold l in I'. apply in_map_iff in I' as (t & E & I'). apply pair_equal_spec in E as [<- <-]. exists t. auto. }
  assert (Nn : forall v k, In (Some v, k) l -> 0 <= k). { intros v k I'. destruct (In_ _ _ I') as (t & _ & _ & ->). now apply triangle_pos. }
  split.
  - intros v lo hi E B. rewrite E in M. destruct (avg l) as [a|] eqn:Av; [|destruct M]. cbn in M. rewrite M. apply (C27_bounds l a lo hi Av Nn). intros x k I' K. destruct (In_ _ _ I') as (t & T & Ex' & Ek). apply (B t x T); [|now symmetry]. subst k. now apply (triangle_pos (convert u point) (convert u width) (sl_point t) W) in K.
  - assert (E : nth g (sl_data out) None = None <-> avg l = None) by (destruct (nth g (sl_data out) None), (avg l); cbn in M; split; intro; congruence || contradiction || reflexivity). rewrite E, (C27_masked l Nn). split.
    + intros Z t T Nt. destruct (nth g (sl_data t) None) as [x|] eqn:X; [|reflexivity]. exfalso. assert (K : 0 < triangle (convert u point) (convert u width) (sl_point t)) by (now apply (triangle_pos _ _ _ W)). assert (I' : In (Some x, triangle (convert u point) (convert u width) (sl_point t)) l) by (unfold l; apply in_map_iff; exists t; split; [now rewrite X|exact T]). specialize (Z _ _ I'). lra.
    + intros Z v k I'. destruct (In_ _ _ I') as (t & T & Ev & ->). destruct (triangle_pos (convert u point) (convert u width) (sl_point t) W) as [P I2]. destruct (Qlt_le_dec 0 (triangle (convert u point) (convert u width) (sl_point t))) as [L|L]; [|lra]. apply I2 in L. rewrite (Z t T L) in Ev. discriminate.
Qed.
(** With nothing else within the width the central slice is returned. *)
Theorem C100_alone n u point width cube out s : on_points n cube -> triangular_blend (blend_means_over_time n) u point width cube = Ok out -> In s cube -> sl_point s == convert u point ->
  (forall t, In t cube -> t = s \/ convert u width <= Qabs (sl_point t - convert u point)) -> forall g, (g < n)%nat -> oeq (nth g (sl_data out) None) (nth g (sl_data s) None).
Proof.
  intros G H I' E Far g Hg. destruct (C100_window n u point width cube out g G H Hg) as (B & N). cbv zeta in B, N. destruct (C100_blend n u point width cube G) as [Ex _]. assert (W : 0 < convert u width) by (apply Ex; eauto).
  assert (Near : forall t, In t cube -> Qabs (sl_point t - convert u point) < convert u width -> t = s) by (intros t T Nt; destruct (Far t T) as [->|F]; [reflexivity|lra]).
  assert (Ns : Qabs (sl_point s - convert u point) < convert u width). { rewrite E. setoid_replace (convert u point - convert u point) with 0 by ring. exact W. }
  destruct (nth g (sl_data out) None) as [v|] eqn:Ev.
  - destruct (nth g (sl_data s) None) as [x|] eqn:Es.
    + cbn. assert (x <= v <= x); [|lra]. apply B; [reflexivity|]. intros t y T Nt Y. rewrite (Near t T Nt), Es in Y. injection Y as <-. lra.
    + exfalso. assert (Z : Some v = None); [|discriminate]. apply N. intros t T Nt. now rewrite (Near t T Nt).
  - rewrite (proj1 N eq_refl s I' Ns). exact Logic.I.
Qed.
Lemma oeq_sym' (a b : option Q) : oeq a b -> oeq b a.
Proof. destruct a, b; cbn; auto. intro H. now symmetry. Qed.
(** The order of the slices does not matter. *)
Theorem C100_order n u point width cube cube' out out' : on_points n cube -> Permutation cube cube' -> triangular_blend (blend_means_over_time n) u point width cube = Ok out -> triangular_blend (blend_means_over_time n) u point width cube' = Ok out' ->
  sl_point out = sl_point out' /\ sl_time out = sl_time out' /\ forall g, (g < n)%nat -> oeq (nth g (sl_data out) None) (nth g (sl_data out') None).
Proof.
  intros G P H H'. assert (G' : on_points n cube'). { destruct G as [A B]. split; [apply (distinct_permuted (map sl_point cube)); [now apply Permutation_map|exact A]|]. apply Forall_forall. intros s S'. rewrite Forall_forall in B. apply B. exact (Permutation_in _ (Permutation_sym P) S'). }
  destruct (C100_blend n u point width cube G) as [_ V]. destruct (C100_blend n u point width cube' G') as [_ V']. destruct (V _ H) as (s & S1 & S2 & S3 & S4 & _ & _ & _ & M). destruct (V' _ H') as (s' & T1 & T2 & T3 & T4 & _ & _ & _ & M').
  assert (E : s = s'). { pose proof (proj2 (central_iff _ cube s (proj1 G)) (conj S1 S2)) as X. pose proof (proj2 (central_iff _ cube s' (proj1 G)) (conj (Permutation_in _ (Permutation_sym P) T1) T2)) as Y. congruence. }
  subst s'. split; [congruence|]. split; [congruence|]. intros g Hg. eapply oeq_trans'; [exact (M g Hg)|]. eapply oeq_trans'; [|apply oeq_sym'; exact (M' g Hg)]. apply avg_perm. now apply Permutation_map.
Qed.
(** A width in units with an offset from those of the coordinate is moved by the offset: two degrees Celsius make a window of more than 275 kelvin, in which the blend weights a slice 200 kelvin away. *)
Definition kelvin : option (Q * Q) := Some (1, 27315 # 100).
Definition at_point (p : Q) (v : Q) : slice (list (option Q)) := {| sl_point := p; sl_key := Point p; sl_lead := 0; sl_time := 0; sl_data := [Some v] |}.
Theorem C100_width_refuted : exists cube out s, on_points 1 cube /\ triangular_blend (blend_means_over_time 1) kelvin 0 2 cube = Ok out /\ In s cube /\ sl_point s == 27315 # 100 /\
  (forall t, In t cube -> t = s \/ 200 <= Qabs (sl_point t - (27315 # 100))) /\ ~ oeq (nth 0 (sl_data out) None) (nth 0 (sl_data s) None).
Proof.
  exists [at_point (27315 # 100) 1; at_point (47315 # 100) 10]. eexists. exists (at_point (27315 # 100) 1). split; [split; repeat constructor; vm_compute; congruence|]. split; [vm_compute; reflexivity|]. split; [now left|]. split; [reflexivity|]. split.
  - intros t [<-|[<-|[]]]; [now left|right]. vm_compute. congruence.
  - vm_compute. congruence.
Qed.
(** Percentiles are blended the same way: in order, and between the extremes of all the slices ... *)
Theorem C100_percentiles_partial ps n u point width cube out : qsorted ps -> ps <> [] -> Forall (fun s => length (sl_data s) = n /\ Forall (fun r => length r = length ps) (sl_data s)) cube ->
  triangular_blend (blend_percentile_slices true ps n) u point width cube = Ok out ->
  length (sl_data out) = n /\ forall g, (g < n)%nat -> length (nth g (sl_data out) []) = length ps /\ qsorted (nth g (sl_data out) []) /\
    forall lo hi, (forall t, In t cube -> Forall (fun v => lo <= v <= hi) (nth g (sl_data t) [])) -> Forall (fun v => lo <= v <= hi) (nth g (sl_data out) []).
Proof.
  intros Sp Np G H. rewrite Forall_forall in G. unfold triangular_blend in H. destruct (central _ _) as [s|] eqn:C; cbn [bind] in H; [|discriminate]. destruct (triangular_weights _ _ _) as [w|] eqn:T; cbn [bind] in H; [|discriminate].
  destruct (blend_percentile_slices true ps n (combine cube w)) as [d|] eqn:B; cbn [bind] in H; [|discriminate]. apply Ok_inj in H. subst out. cbn [sl_data].
  assert (Lw : length w = length cube). { destruct (triangular_ok _ _ _ _ T) as (_ & t & _ & ->). now rewrite !map_length. }
  assert (Nc : cube <> []). { intros ->. cbn in C. discriminate. }
  unfold blend_percentile_slices in B. set (l := map snd (ksort _)) in B. destruct (check_times _ _); cbn [bind] in B; [|discriminate]. unfold aggregate in B.
  assert (Pl : Permutation (combine cube w) l). { unfold l. rewrite <- ksort_perm. rewrite map_map. cbn. now rewrite map_id. }
  assert (Ld : forall e, In e l -> In (fst e) cube). { intros [t k] I'. apply (Permutation_in _ (Permutation_sym Pl)) in I'. cbn. now apply in_combine_l in I'. }
  pose proof (mapM_size _ _ _ B) as Ln. rewrite map_length, seq_length in Ln. split; [exact Ln|]. intros g Hg.
  destruct (mapM_at _ _ _ [] g B) as (x & N & E); [rewrite map_length, seq_length; exact Hg|]. rewrite nth_error_map, nth_error_nth' with (d := 0%nat) in N by (rewrite seq_length; exact Hg). rewrite seq_nth in N by exact Hg. cbn [option_map plus] in N. injection N as <-. cbn [fst snd] in E.
  destruct (_ =? _)%nat; [|discriminate]. apply Ok_inj in E. rewrite <- E. clear B E. set (rows := map (fun e : slice (list (list Q)) * Q => nth g (sl_data (fst e)) []) l).
  assert (Rw : forall r, In r rows -> exists t, In t cube /\ r = nth g (sl_data t) []). { intros r I'. unfold rows in I'. apply in_map_iff in I' as (e & <- & I'). exists (fst e). split; [now apply Ld|reflexivity]. }
  assert (FR : Forall (fun r => length r = length ps) rows). { apply Forall_forall. intros r I'. destruct (Rw r I') as (t & X & ->). destruct (G t X) as (Lt & Ft). rewrite Forall_forall in Ft. apply Ft, nth_In. lia. }
  destruct (C26_monotone rows ps (nth g (norm_cols (repeat (map snd l) n)) []) Sp FR) as (S2 & L3). split; [exact L3|]. split; [exact S2|]. intros lo hi Bd. apply C26_within_range; [|exact Np|exact FR|].
  - intro E0. unfold rows in E0. apply map_eq_nil in E0. rewrite E0 in Pl. apply Permutation_sym, Permutation_nil in Pl. apply (f_equal (@length _)) in Pl. rewrite combine_length, Lw, Nat.min_id in Pl. destruct cube; [now apply Nc|discriminate].
  - apply Forall_forall. intros r I'. destruct (Rw r I') as (t & X & ->). now apply Bd.
Qed.
(** ... not of those within the width only: a slice beyond it, though it has no weight, decides a percentile (Props_Blending.C26_zero_weight_refuted); unlike in C99, slices without weight are not left out. *)
Definition percentiles_at (p : Q) (row : list Q) : slice (list (list Q)) := {| sl_point := p; sl_key := Point p; sl_lead := 0; sl_time := 0; sl_data := [row] |}.
Theorem C100_percentiles_window_refuted : exists cube out s, triangular_blend (blend_percentile_slices true [10; 90] 1) None 0 1 cube = Ok out /\ In s cube /\ sl_point s == 0 /\
  (forall t, In t cube -> t = s \/ 3 <= Qabs (sl_point t - 0)) /\ sl_data s = [[0; 10]] /\ nth 1 (nth 0 (sl_data out) []) 0 == 60.
Proof.
  exists [percentiles_at 0 [0; 10]; percentiles_at 3 [50; 60]]. eexists. exists (percentiles_at 0 [0; 10]). split; [vm_compute; reflexivity|]. split; [now left|]. split; [reflexivity|]. split; [|split; reflexivity].
  intros t [<-|[<-|[]]]; [now left|right]. vm_compute. congruence.
Qed.

(** * Cases *)
Definition a_model (name : string) (lead : Q) (data : list (option Q)) : input (list (option Q)) := {| in_model := Some name; in_point := 0; in_lead := lead; in_time := 0; in_data := data |}.
Definition ukv_to_enukx : list (key * wconfig) := [(Name "uk_det", {| wc_points := [0; 6; 12]; wc_weights := [1; 1; 0] |}); (Name "uk_ens", {| wc_points := [0; 6; 12]; wc_weights := [0; 1; 1] |})].
Example C99_case : exists a b c, 
  weight_and_blend (blend_means 2) (Dict ukv_to_enukx) true true false [a_model "uk_det" 9 [Some 3; None]; a_model "uk_ens" 9 [Some 6; Some 8]] = Ok a /\ Forall2 oeq a [Some 5; Some 8] /\
  weight_and_blend (blend_means 2) (Dict ukv_to_enukx) true true false [a_model "uk_det" 0 [Some 3; None]; a_model "uk_ens" 0 [Some 6; Some 8]] = Ok b /\ Forall2 oeq b [Some 3; None] /\
  weight_and_blend (blend_means 2) (Linear 1 3) true true false [a_model "uk_det" 0 [Some 4; None]; a_model "uk_ens" 0 [Some 8; Some 8]] = Ok c /\ Forall2 oeq c [Some 7; Some 8] /\
  weight_and_blend (blend_means 2) (Dict ukv_to_enukx) true true false [a_model "uk_det" 0 [Some 4; None]; a_model "uk_det" 0 [Some 8; Some 8]] = Err ValueError.
Proof. eexists. eexists. eexists. split; [vm_compute; reflexivity|]. split; [repeat constructor|]. split; [vm_compute; reflexivity|]. split; [repeat constructor|]. split; [vm_compute; reflexivity|]. split; [repeat constructor|]. vm_compute. reflexivity. Qed.
(** Hours, with the width in minutes. *)
Example C100_case : exists out, triangular_blend (blend_means_over_time 1) (Some (1 # 60, 0)) 180 120 [at_point 1 100; at_point 2 4; at_point 3 6; at_point 4 12] = Ok out /\
  sl_point out = 3 /\ Forall2 oeq (sl_data out) [Some 7] /\ on_points 1 [at_point 1 100; at_point 2 4; at_point 3 6; at_point 4 12] /\ triangular_blend (blend_means_over_time 1) None 5 1 [at_point 1 100; at_point 2 4] = Err ValueError.
Proof. eexists. split; [vm_compute; reflexivity|]. split; [reflexivity|]. split; [repeat constructor|]. split; [split; repeat constructor; vm_compute; congruence|]. reflexivity. Qed.

Print Assumptions C99_weights.
Print Assumptions C99_merged.
Print Assumptions C99_mergeable.
Print Assumptions C99_means.
Print Assumptions C99_bounds.
Print Assumptions C99_without_weight.
Print Assumptions C99_single.
Print Assumptions C99_one_left.
Print Assumptions C99_order.
Print Assumptions C99_order_of_models.
Print Assumptions C99_order_of_models_refuted.
Print Assumptions C99_again.
Print Assumptions C99_refused.
Print Assumptions C99_times.
Print Assumptions C99_spatial.
Print Assumptions C99_percentiles.
Print Assumptions C100_blend.
Print Assumptions C100_point_twice.
Print Assumptions C100_window.
Print Assumptions C100_alone.
Print Assumptions C100_order.
Print Assumptions C100_width_refuted.
Print Assumptions C100_percentiles_partial.
Print Assumptions C100_percentiles_window_refuted.
