From Verif Require Import Base Model_Nbhood Model_Integration Spec_Integration Proofs_Integration Model_Lapse Spec_Lapse.
Local Open Scope Q_scope.

Lemma adjustment_formula lr d limit : 0 <= limit -> lapse_rate_adjustment lr d limit == lr * Qmin (Qmax d (- limit)) limit + ELR * (d - Qmin (Qmax d (- limit)) limit).
Proof.
  intro L. unfold lapse_rate_adjustment. destruct (Qltb_spec limit d) as [A|A]; destruct (Qltb_spec d (- limit)) as [B|B]; try lra.
  - rewrite (Q.max_l d (- limit)) by lra. rewrite (Q.min_r d limit) by lra. rewrite (Q.max_l (d - limit) 0) by lra. ring.
  - rewrite (Q.max_r d (- limit)) by lra. rewrite (Q.min_l (- limit) limit) by lra. rewrite (Q.min_l (d + limit) 0) by lra. ring.
  - rewrite (Q.max_l d (- limit)) by lra. rewrite (Q.min_l d limit) by lra. ring.
Qed.
Lemma zrange_in a b i : In i (zrange a b) <-> (a <= i <= b)%Z.
Proof.
  unfold zrange. rewrite in_map_iff. split.
  - intros (k & <- & K). apply in_seq in K. lia.
  - intro H. exists (Z.to_nat (i - a)). split; [lia|]. apply in_seq. lia.
Qed.
Lemma zrange_nodup a b : NoDup (zrange a b).
Proof. unfold zrange. apply FinFun.Injective_map_NoDup; [intros i j H; lia|apply seq_NoDup]. Qed.
Lemma window_in r y x i j : In (i, j) (window r y x) <-> (Z.abs (i - y) <= r)%Z /\ (Z.abs (j - x) <= r)%Z.
Proof.
  unfold window. rewrite in_flat_map. split.
  - intros (k & K & H). apply in_map_iff in H. destruct H as (l & E & H). injection E as <- <-. apply zrange_in in K, H. lia.
  - intros [A B]. exists i. split; [apply zrange_in; lia|]. apply in_map_iff. exists j. split; [reflexivity|apply zrange_in; lia].
Qed.
Lemma product_nodup (l1 l2 : list Z) : NoDup l1 -> NoDup l2 -> NoDup (flat_map (fun i => map (fun j => (i, j)) l2) l1).
Proof.
  intros A B. induction A as [|a l1 N A IH]; [constructor|]. cbn [flat_map].
  assert (D : forall p, In p (map (fun j => (a, j)) l2) -> ~ In p (flat_map (fun i => map (fun j => (i, j)) l2) l1)).
  { intros p H1 H2. apply in_map_iff in H1. destruct H1 as (j & <- & _). apply in_flat_map in H2. destruct H2 as (i & Hi & H2). apply in_map_iff in H2. destruct H2 as (k & E & _). injection E as E _. subst. contradiction. }
  assert (C : NoDup (map (fun j => (a, j)) l2)) by (apply FinFun.Injective_map_NoDup; [intros x y H; congruence|exact B]).
  clear - C IH D. induction C as [|p l M C IH2]; [exact IH|]. cbn [app]. constructor; [|apply IH2; intros q Q1; apply D; right; exact Q1].
  intro H. apply in_app_or in H. destruct H as [H|H]; [contradiction|]. apply (D p); [left; reflexivity|exact H].
Qed.
Lemma window_nodup r y x : NoDup (window r y x).
Proof. apply product_nodup; apply zrange_nodup. Qed.

Definition fit_positions (p : lapse_params) (h w : Z) (orog : grid Q) (land : grid bool) (y x : Z) : list (Z * Z) :=
  filter (fun q => (on_land h w land q && negb (max_height_diff p <? Qabs (orog (fst q) (snd q) - orog y x)))%bool) (window (nbhood_radius p) y x).
Lemma fit_positions_spec p h w orog land y x : all_that (takes_part (max_height_diff p) (nbhood_radius p) h w orog land y x) (fit_positions p h w orog land y x).
Proof.
  split; [apply NoDup_filter, window_nodup|]. intros i j. unfold fit_positions, takes_part. rewrite filter_In, window_in. cbn [fst snd]. unfold on_land, inside. rewrite !Bool.andb_true_iff, !Z.leb_le, !Z.ltb_lt, Bool.negb_true_iff. cbn [fst snd].
  assert (E : (max_height_diff p <? Qabs (orog i j - orog y x)) = false <-> Qabs (orog i j - orog y x) <= max_height_diff p).
  { destruct (Qltb_spec (max_height_diff p) (Qabs (orog i j - orog y x))) as [A|A]; split; intro H; try discriminate; try reflexivity; lra. }
  rewrite E. tauto.
Qed.
Lemma all_that_perm P l l' : all_that P l -> all_that P l' -> Permutation l l'.
Proof. intros [A B] [C D]. apply NoDup_Permutation; [assumption..|]. intros [i j]. rewrite B, D. reflexivity. Qed.

(** ** Points up to equality and a shift *)
Definition shifted (cx cy : Q) (p q : Q * Q) : Prop := fst q == fst p + cx /\ snd q == snd p + cy.
Lemma mean_shift (l : list Q) : l <> [] -> forall l' c, Forall2 (fun v v' => v' == v + c) l l' -> mean l' == mean l + c.
Proof.
  intros N l' c H. assert (S' : forall l l', Forall2 (fun v v' => v' == v + c) l l' -> qsum l' == qsum l + c * Qlen l /\ Qlen l' = Qlen l).
  { clear. intros l l' H. induction H as [|v v' l l' E H [I1 I2]]; [split; [unfold Qlen; cbn; ring|reflexivity]|]. split.
    - cbn [qsum]. rewrite E, I1, Qlen_cons. ring.
    - unfold Qlen in *. cbn [length]. assert (length l' = length l) by (clear - H; induction H; cbn; congruence). congruence. }
  destruct (S' _ _ H) as [A B]. unfold mean. rewrite A, B. field. pose proof (Qlen_pos l N). lra.
Qed.
Lemma shifted_fst cx cy l l' : Forall2 (shifted cx cy) l l' -> Forall2 (fun v v' => v' == v + cx) (map fst l) (map fst l').
Proof. induction 1 as [|p q l l' [A B] H IH]; constructor; assumption. Qed.
Lemma shifted_snd cx cy l l' : Forall2 (shifted cx cy) l l' -> Forall2 (fun v v' => v' == v + cy) (map snd l) (map snd l').
Proof. induction 1 as [|p q l l' [A B] H IH]; constructor; assumption. Qed.
Lemma qsum_f2 {A} (f g : A -> Q) (R : A -> A -> Prop) l l' : Forall2 R l l' -> (forall a b, R a b -> f a == g b) -> qsum (map f l) == qsum (map g l').
Proof. intros H E. induction H as [|a b l l' R1 H IH]; [reflexivity|]. cbn [map qsum]. rewrite IH, (E a b R1). reflexivity. Qed.
Lemma len_f2 {A B} (R : A -> B -> Prop) l l' : Forall2 R l l' -> length l' = length l.
Proof. induction 1; cbn; congruence. Qed.
Lemma variance_shift l l' c : Forall2 (fun v v' => v' == v + c) l l' -> variance l' == variance l.
Proof.
  intro H. destruct l as [|a l]; [inversion H; reflexivity|]. assert (N : a :: l <> []) by discriminate. pose proof (mean_shift _ N _ _ H) as M. unfold variance. set (m := mean (a :: l)) in *. set (m' := mean l') in *.
  unfold mean. assert (L : Qlen (map (fun v => (v - m') * (v - m')) l') == Qlen (map (fun v => (v - m) * (v - m)) (a :: l))) by (rewrite !Qlen_map; unfold Qlen; rewrite (len_f2 _ _ _ H); reflexivity).
  rewrite L. assert (E : qsum (map (fun v => (v - m) * (v - m)) (a :: l)) == qsum (map (fun v => (v - m') * (v - m')) l')).
  { apply (qsum_f2 _ _ _ _ _ H). intros x y XY. rewrite XY, M. ring. }
  rewrite E. reflexivity.
Qed.
Lemma std_shift l l' c : Forall2 (fun v v' => v' == v + c) l l' -> std_is_zero l' = std_is_zero l.
Proof. intro H. unfold std_is_zero. apply variance_shift in H. apply eq_true_iff_eq. rewrite !Qle_bool_iff, H. reflexivity. Qed.
Lemma gradient_shift cx cy l l' : Forall2 (shifted cx cy) l l' -> gradient l' == gradient l.
Proof.
  intro H. destruct l as [|a l]; [inversion H; reflexivity|]. assert (N1 : map fst (a :: l) <> []) by discriminate. assert (N2 : map snd (a :: l) <> []) by discriminate.
  pose proof (mean_shift _ N1 _ _ (shifted_fst _ _ _ _ H)) as M1. pose proof (mean_shift _ N2 _ _ (shifted_snd _ _ _ _ H)) as M2.
  unfold gradient. rewrite (std_shift _ _ _ (shifted_fst _ _ _ _ H)), (std_shift _ _ _ (shifted_snd _ _ _ _ H)). unfold linear_fit. cbv zeta.
  set (mx := mean (map fst (a :: l))) in *. set (my := mean (map snd (a :: l))) in *. set (mx' := mean (map fst l')) in *. set (my' := mean (map snd l')) in *.
  assert (V : qsum (map (fun p => (fst p - mx) * (fst p - mx)) (a :: l)) == qsum (map (fun p => (fst p - mx') * (fst p - mx')) l')).
  { apply (qsum_f2 _ _ _ _ _ H). intros p q [A B]. rewrite A, M1. ring. }
  assert (W : qsum (map (fun p => (fst p - mx) * (snd p - my)) (a :: l)) == qsum (map (fun p => (fst p - mx') * (snd p - my')) l')).
  { apply (qsum_f2 _ _ _ _ _ H). intros p q [A B]. rewrite A, B, M1, M2. ring. }
  destruct (Qeqb_spec (qsum (map (fun p => (fst p - mx) * (fst p - mx)) (a :: l))) 0) as [E|E]; destruct (Qeqb_spec (qsum (map (fun p => (fst p - mx') * (fst p - mx')) l')) 0) as [F|F]; [reflexivity| | |].
  - exfalso. apply F. rewrite <- V. exact E.
  - exfalso. apply E. rewrite V. exact F.
  - destruct (_ || _)%bool; [reflexivity|]. rewrite V, W. reflexivity.
Qed.
Lemma limited_spec lo hi v v' : lo <= hi -> v == v' -> limited lo hi v (Qmin (Qmax v' lo) hi).
Proof.
  intros L E. unfold limited. destruct (Qlt_le_dec v lo) as [A|A].
  - left. split; [exact A|]. rewrite Q.max_r by lra. apply Q.min_l. lra.
  - rewrite Q.max_l by lra. destruct (Qlt_le_dec hi v) as [B|B].
    + right. left. split; [exact B|]. apply Q.min_r. lra.
    + right. right. split; [lra|]. rewrite Q.min_l by lra. symmetry. exact E.
Qed.
Lemma gradient_fit pts : ~ negligible (spread (map fst pts)) -> ~ negligible (spread (map snd pts)) -> exists c, linear_fit pts = Some (gradient pts, c).
Proof.
  intros A B. unfold negligible, spread, average in A, B. unfold gradient, std_is_zero, variance, mean.
  destruct (linear_fit pts) as [[g c]|] eqn:F.
  - exists c. destruct (Qleb_spec (qsum (map (fun v => (v - qsum (map snd pts) / Qlen (map snd pts)) * (v - qsum (map snd pts) / Qlen (map snd pts))) (map snd pts)) / Qlen (map (fun v => (v - qsum (map snd pts) / Qlen (map snd pts)) * (v - qsum (map snd pts) / Qlen (map snd pts))) (map snd pts))) (1 # 10000000000000000)) as [X|X]; [contradiction|].
    destruct (Qleb_spec (qsum (map (fun v => (v - qsum (map fst pts) / Qlen (map fst pts)) * (v - qsum (map fst pts) / Qlen (map fst pts))) (map fst pts)) / Qlen (map (fun v => (v - qsum (map fst pts) / Qlen (map fst pts)) * (v - qsum (map fst pts) / Qlen (map fst pts))) (map fst pts))) (1 # 10000000000000000)) as [Y|Y]; [contradiction|]. reflexivity.
  - exfalso. apply A. unfold linear_fit in F. cbv zeta in F. destruct (Qeqb_spec (qsum (map (fun p => (fst p - mean (map fst pts)) * (fst p - mean (map fst pts))) pts)) 0) as [E|E]; [|discriminate].
    rewrite (map_map fst (fun v => (v - qsum (map fst pts) / Qlen (map fst pts)) * (v - qsum (map fst pts) / Qlen (map fst pts))) pts). unfold mean in E. rewrite E. unfold Qdiv. rewrite Qmult_0_l. discriminate.
Qed.
Lemma gradient_degenerate pts : negligible (spread (map fst pts)) \/ negligible (spread (map snd pts)) -> gradient pts = DALR.
Proof.
  intro H. unfold gradient. destruct (linear_fit pts) as [[g c]|]; [|reflexivity]. replace (std_is_zero (map snd pts) || std_is_zero (map fst pts))%bool with true; [reflexivity|]. symmetry. apply Bool.orb_true_iff. unfold std_is_zero. rewrite !Qle_bool_iff.
  destruct H as [H|H]; [right|left]; exact H.
Qed.
