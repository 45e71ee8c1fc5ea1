(** Proofs for C71, C72. *)
From Verif Require Import Base Model_Percentiles Model_Integration Model_Bias Model_Dist Model_Emos Spec_Threshold Spec_Dist Spec_Emos Proofs_Temporal Proofs_Integration Props_Dist.
Local Open Scope Q_scope.

Lemma oadd_some a b v : oadd a b = Some v -> exists x y, a = Some x /\ b = Some y /\ v = x + y.
Proof. destruct a, b; cbn; intro H; try discriminate. injection H as <-. eauto. Qed.
Lemma oadd_none a b : oadd a b = None -> a = None \/ b = None.
Proof. destruct a, b; cbn; intro H; try discriminate; auto. Qed.
Lemma oeq_refl a : oeq a a. Proof. destruct a; cbn; auto. reflexivity. Qed.
Lemma oeq_sym a b : oeq a b -> oeq b a. Proof. destruct a, b; cbn; auto. intro H. now symmetry. Qed.
Lemma oeq_trans a b c : oeq a b -> oeq b c -> oeq a c. Proof. destruct a, b, c; cbn; auto; try tauto. intros. lra. Qed.
Lemma oadd_oeq a a' b b' : oeq a a' -> oeq b b' -> oeq (oadd a b) (oadd a' b').
Proof. destruct a, a', b, b'; cbn; auto; try tauto. intros A B. rewrite A, B. reflexivity. Qed.
Lemma oadd_assoc a b c : oeq (oadd (oadd a b) c) (oadd a (oadd b c)).
Proof. destruct a, b, c; cbn; auto. ring. Qed.
Lemma oadd_comm a b : oeq (oadd a b) (oadd b a).
Proof. destruct a, b; cbn; auto. ring. Qed.
Lemma osum_perm l m : Permutation l m -> oeq (osum l) (osum m).
Proof.
  induction 1 as [|x l m P IH|x y l|l m n P1 IH1 P2 IH2]; cbn [osum].
  - apply oeq_refl.
  - apply oadd_oeq; [apply oeq_refl|exact IH].
  - eapply oeq_trans; [apply oeq_sym, oadd_assoc|]. eapply oeq_trans; [apply oadd_oeq; [apply oadd_comm|apply oeq_refl]|]. apply oadd_assoc.
  - eapply oeq_trans; eauto.
Qed.
Lemma numbers_of_some l m : numbers_of l = Some m <-> l = map Some m.
Proof.
  revert m. induction l as [|[x|] l IH]; intros [|y m]; cbn; split; intro H; try discriminate; try reflexivity.
  - destruct (numbers_of l); discriminate.
  - destruct (numbers_of l) as [k|] eqn:E; [|discriminate]. cbn in H. injection H as -> ->. f_equal. now apply IH.
  - injection H as -> H. destruct (IH m) as [_ I0]. rewrite (I0 H). reflexivity.
Qed.
Lemma numbers_of_none l : numbers_of l = None <-> In None l.
Proof.
  induction l as [|[x|] l IH]; cbn; split; intro H; try discriminate; auto.
  - destruct H.
  - right. apply IH. destruct (numbers_of l); [discriminate|reflexivity].
  - destruct H as [H|H]; [discriminate|]. apply IH in H. now rewrite H.
Qed.
Lemma mean_is_mean x r : is_mean (x :: r) (mean (x :: r)).
Proof. split; [discriminate|]. unfold mean. field. assert (H := Qlen_pos (x :: r) ltac:(discriminate)). lra. Qed.
Lemma is_mean_unique l m m' : is_mean l m -> is_mean l m' -> m == m'.
Proof. intros [N A] [_ B]. assert (H := Qlen_pos l N). assert (E : m * Qlen l == m' * Qlen l) by lra. apply Qmult_inj_r in E; [exact E|lra]. Qed.
Lemma Qlen_ge2 {A} (x y : A) r : 1 < Qlen (x :: y :: r).
Proof. rewrite !Qlen_cons. assert (H := Qlen_nonneg r). lra. Qed.
Lemma variance_is x y r : is_variance (x :: y :: r) (variance (x :: y :: r)).
Proof.
  split; [cbn; lia|]. exists (mean (x :: y :: r)). split; [apply mean_is_mean|]. unfold variance. set (l := x :: y :: r). assert (H : 1 < Qlen l) by apply Qlen_ge2. field. lra.
Qed.
Lemma is_variance_unique l v v' : is_variance l v -> is_variance l v' -> v == v'.
Proof.
  intros [N (m & M & V)] [_ (m' & M' & V')]. assert (E := is_mean_unique _ _ _ M M'). assert (S0 : qsum (map (fun x => (x - m) * (x - m)) l) == qsum (map (fun x => (x - m') * (x - m')) l)) by (apply qsum_map_ext; intros; rewrite E; reflexivity).
  destruct l as [|x [|y r]]; cbn in N; try lia. assert (H := Qlen_ge2 x y r). assert (X : v * (Qlen (x :: y :: r) - 1) == v' * (Qlen (x :: y :: r) - 1)) by lra. apply Qmult_inj_r in X; [exact X|lra].
Qed.
Lemma is_variance_nonneg l v : is_variance l v -> 0 <= v.
Proof.
  intros [N (m & _ & V)]. assert (P : 0 <= qsum (map (fun x => (x - m) * (x - m)) l)) by (apply qsum_nonneg, Forall_forall; intros y Hy; apply in_map_iff in Hy as (x & <- & _); apply sq_nonneg).
  destruct l as [|x [|y r]]; cbn in N; try lia. assert (H := Qlen_ge2 x y r). destruct (Qlt_le_dec v 0) as [C|C]; [|exact C]. nra.
Qed.
Lemma is_mean_perm l m x : Permutation l m -> is_mean l x -> is_mean m x.
Proof.
  intros P [N M]. split; [intro C; subst; apply N; now apply Permutation_nil, Permutation_sym|]. unfold Qlen in *. rewrite <- (Permutation_length P), <- (qsum_perm _ _ P). exact M.
Qed.
Lemma is_variance_perm l m v : Permutation l m -> is_variance l v -> is_variance m v.
Proof.
  intros P [N (a & M & V)]. split; [now rewrite <- (Permutation_length P)|]. exists a. split; [now apply (is_mean_perm l m)|]. unfold Qlen in *. rewrite <- (Permutation_length P), <- (qsum_perm _ _ (Permutation_map _ P)). exact V.
Qed.
(** Mean and variance over the realizations at a point. *)
Lemma omean_some l v : omean l = Some v -> exists m, l = map Some m /\ is_mean m v.
Proof.
  unfold omean. destruct (numbers_of l) as [[|x r]|] eqn:E; try discriminate. intro H. injection H as <-. apply numbers_of_some in E. exists (x :: r). split; [exact E|apply mean_is_mean].
Qed.
Lemma ovariance_some l v : ovariance l = Some v -> exists m, l = map Some m /\ is_variance m v.
Proof.
  unfold ovariance. destruct (numbers_of l) as [[|x [|y r]]|] eqn:E; try discriminate. intro H. injection H as <-. apply numbers_of_some in E. exists (x :: y :: r). split; [exact E|apply variance_is].
Qed.
Lemma map_some_inj (l m : list Q) : map Some l = map Some m -> l = m.
Proof. revert m. induction l as [|x l IH]; intros [|y m] H; cbn in H; try discriminate; auto. injection H as -> H. f_equal. auto. Qed.
Lemma omean_members l : l <> [] -> exists v, omean (map Some l) = Some v /\ is_mean l v.
Proof.
  intro N. unfold omean. destruct (numbers_of (map Some l)) as [m|] eqn:E.
  - apply numbers_of_some in E. apply map_some_inj in E. subst m. destruct l as [|x r]; [congruence|]. eexists. split; [reflexivity|apply mean_is_mean].
  - apply numbers_of_none in E. apply in_map_iff in E as (? & C & _). discriminate.
Qed.
Lemma ovariance_members l : (2 <= length l)%nat -> exists v, ovariance (map Some l) = Some v /\ is_variance l v.
Proof.
  intro N. unfold ovariance. destruct (numbers_of (map Some l)) as [m|] eqn:E.
  - apply numbers_of_some in E. apply map_some_inj in E. subst m. destruct l as [|x [|y r]]; cbn in N; try lia. eexists. split; [reflexivity|apply variance_is].
  - apply numbers_of_none in E. apply in_map_iff in E as (? & C & _). discriminate.
Qed.

(** ** Coefficients *)
Lemma fits_value n i c : fits n c = true -> (i < n)%nat -> coeff_value n i c (coeff_at c i).
Proof.
  destruct c as [q|l]; cbn [fits]; intros H Hi; [constructor|]. apply Bool.orb_true_iff in H as [H|H]; apply Nat.eqb_eq in H.
  - destruct l as [|q [|q' r]]; [cbn in H; lia|apply COne|]. apply CEach; [exact H|]. unfold coeff_at. now apply nth_error_nth'; lia.
  - destruct l as [|q [|q' r]]; cbn in H; try lia. apply COne.
Qed.
Lemma coeff_value_at n i c q : coeff_value n i c q -> coeff_at c i = q.
Proof.
  intro H. destruct H as [q|q|l q L E]; cbn; try reflexivity. destruct l as [|a [|b r]]; [destruct i; discriminate| |now apply nth_error_nth].
  destruct i as [|i]; [cbn in E; congruence|]. destruct i; discriminate.
Qed.
Lemma field_fits_value n i f : field_fits n f = true -> (i < n)%nat -> field_value n i f (field_at f i).
Proof.
  unfold field_fits. intros H Hi. apply Bool.orb_true_iff in H as [H|H]; apply Nat.eqb_eq in H.
  - destruct f as [|q [|q' r]]; [cbn in H; lia|apply FOne|]. apply FEach; [exact H|]. unfold field_at. now apply nth_error_nth'; lia.
  - destruct f as [|q [|q' r]]; cbn in H; try lia. apply FOne.
Qed.
Definition lookup1 (betas : list (string * coeff)) (name : string) : option coeff := match filter (fun b => String.eqb (fst b) name) betas with [(_, b)] => Some b | _ => None end.
Definition usable_fp (n : nat) (betas : list (string * coeff)) (fp : string * row) : Prop := exists b, lookup1 betas (fst fp) = Some b /\ fits n b = true /\ field_fits n (snd fp) = true.
Definition term (betas : list (string * coeff)) (i : nat) (fp : string * row) : option Q := match lookup1 betas (fst fp) with Some b => oscale (coeff_at b i) (field_at (snd fp) i) | None => None end.
Lemma add_spec n betas fps : forall acc, length acc = n ->
  (Forall (usable_fp n betas) fps -> exists out, add_predictors n betas acc fps = Ok out) /\
  (forall out, add_predictors n betas acc fps = Ok out -> Forall (usable_fp n betas) fps /\ length out = n /\ forall i, (i < n)%nat -> oeq (nth i out None) (oadd (nth i acc None) (osum (map (term betas i) fps)))).
Proof.
  induction fps as [|[name f] fps IH]; intros acc La; cbn [add_predictors].
  - split; [eauto|]. intros out H. apply Ok_inj in H. subst out. split; [constructor|]. split; [exact La|]. intros i Hi. cbn. destruct (nth i acc None); cbn; auto. ring.
  - set (acc' := fun b => map (fun i => oadd (nth i acc None) (oscale (coeff_at b i) (field_at f i))) (seq 0 n)). assert (La' : forall b, length (acc' b) = n) by (intro; unfold acc'; now rewrite map_length, seq_length). split.
    + intro H. inversion H as [|? ? (b & Lb & Fb & Ff) H']; subst. cbn [fst snd] in *. unfold lookup1 in Lb. destruct (filter _ betas) as [|[nm b'] [|? ?]]; try discriminate. injection Lb as ->. rewrite Fb, Ff. cbn [andb]. destruct (IH (acc' b) (La' b)) as [I1 _]. now apply I1.
    + intros out H. destruct (filter (fun b => String.eqb (fst b) name) betas) as [|[nm b] [|? ?]] eqn:Fi; try discriminate. destruct (fits n b && field_fits n f)%bool eqn:Fb; [|discriminate]. apply Bool.andb_true_iff in Fb as [Fb Ff].
      destruct (IH (acc' b) (La' b)) as [_ I2]. destruct (I2 out H) as (U & Lo & V). assert (Lk : lookup1 betas name = Some b) by (unfold lookup1; now rewrite Fi). split; [constructor; [exists b; auto|exact U]|]. split; [exact Lo|].
      intros i Hi. eapply oeq_trans; [apply V; exact Hi|]. unfold acc'. rewrite nth_map_seq by exact Hi. cbn [map osum]. unfold term at 2. cbn [fst snd]. rewrite Lk. apply oadd_assoc.
Qed.
Lemma add_len n betas acc fps out : length acc = n -> add_predictors n betas acc fps = Ok out -> length out = n.
Proof. intros L H. now apply (add_spec n betas fps acc L). Qed.
Lemma lookup1_in betas name b : lookup1 betas name = Some b -> In (name, b) betas.
Proof.
  unfold lookup1. destruct (filter _ betas) as [|[nm b'] [|? ?]] eqn:F; try discriminate. intro H. injection H as ->. assert (I0 : In (nm, b) (filter (fun b => String.eqb (fst b) name) betas)) by (rewrite F; now left). apply filter_In in I0 as [I0 E]. cbn in E. apply String.eqb_eq in E. now subst.
Qed.
Lemma lookup1_unique betas name b c : lookup1 betas name = Some b -> In (name, c) betas -> c = b.
Proof.
  unfold lookup1. intros H I0. assert (I1 : In (name, c) (filter (fun b => String.eqb (fst b) name) betas)) by (apply filter_In; split; [exact I0|apply String.eqb_refl]).
  destruct (filter _ betas) as [|[nm b'] [|? ?]]; try discriminate. injection H as ->. destruct I1 as [I1|[]]. congruence.
Qed.
Lemma lookup1_perm betas betas' name : Permutation betas betas' -> lookup1 betas name = lookup1 betas' name.
Proof.
  intro P. unfold lookup1. assert (Pf : forall l m : list (string * coeff), Permutation l m -> Permutation (filter (fun b => String.eqb (fst b) name) l) (filter (fun b => String.eqb (fst b) name) m)).
  { clear. induction 1 as [|x l m P IH|x y l|l m n P1 IH1 P2 IH2]; cbn [filter].
    - constructor.
    - destruct (String.eqb (fst x) name); [now constructor|exact IH].
    - destruct (String.eqb (fst y) name), (String.eqb (fst x) name); try apply Permutation_refl. apply perm_swap.
    - eapply perm_trans; eauto. }
  specialize (Pf _ _ P). destruct (filter _ betas) as [|p [|p' r]], (filter _ betas') as [|q [|q' r']]; try reflexivity; try (apply Permutation_length in Pf; cbn in Pf; lia).
  - apply Permutation_length_1 in Pf. now subst.
  - destruct p, q. reflexivity.
Qed.
Lemma term_combination n i betas fps s : (i < n)%nat -> Forall (usable_fp n betas) fps -> osum (map (term betas i) fps) = Some s -> exists s', combination n i betas fps s' /\ s == s'.
Proof.
  intro Hi. revert s. induction fps as [|[name f] fps IH]; intros s U H; cbn [map osum] in H; [injection H as <-; exists 0; split; [constructor|reflexivity]|].
  inversion U as [|? ? (b & Lb & Fb & Ff) U']; subst. cbn [fst snd] in *. apply oadd_some in H as (x & y & Hx & Hy & ->). destruct (IH y U' Hy) as (s' & C & E). unfold term in Hx. cbn [fst snd] in Hx. rewrite Lb in Hx. unfold oscale in Hx.
  assert (Fv := field_fits_value n i f Ff Hi). destruct (field_at f i) as [q|]; [|discriminate]. cbn in Hx. injection Hx as <-. exists (coeff_at b i * q + s'). split; [|rewrite E; reflexivity].
  apply CCons with b; [now apply lookup1_in|now apply fits_value|exact Fv|exact C].
Qed.
Lemma location_mean_inv n name rows additional alpha betas loc : location_from_mean n name rows additional alpha betas = Ok loc ->
  let fps := (name, map (fun i => omean (at_point rows i)) (seq 0 n)) :: additional in
  length fps = length betas /\ fits n alpha = true /\ Forall (usable_fp n betas) fps /\ length loc = n /\
  forall i, (i < n)%nat -> oeq (nth i loc None) (oadd (osum (map (term betas i) fps)) (Some (coeff_at alpha i))).
Proof.
  intros H fps. unfold location_from_mean in H. fold fps in H. destruct (length fps =? length betas)%nat eqn:L; [|discriminate]. apply Nat.eqb_eq in L. cbn [negb] in H.
  destruct (add_predictors n betas (repeat (Some 0) n) fps) as [acc|] eqn:A; [|discriminate]. cbn [bind] in H. destruct (fits n alpha) eqn:F; [|discriminate]. apply Ok_inj in H. subst loc.
  destruct (add_spec n betas fps (repeat (Some 0) n) (repeat_length _ _)) as [_ S0]. destruct (S0 acc A) as (U & La & V). split; [exact L|]. split; [reflexivity|]. split; [exact U|]. split; [now rewrite map_length, seq_length|].
  intros i Hi. rewrite nth_map_seq by exact Hi. apply oadd_oeq; [|apply oeq_refl]. eapply oeq_trans; [apply V; exact Hi|]. rewrite (nth_indep _ None (Some 0)) by (now rewrite repeat_length). rewrite nth_repeat. destruct (osum _); cbn; auto. ring.
Qed.
