From Coq Require Import SetoidList SetoidPermutation.
From Verif Require Import Base Interp Spec_Threshold Model_Blending Proofs_Weights.

(** * Weighted mean *)
Definition avg (l : list (option Q * Q)) : option Q := ma_average (map fst l) (map snd l).
Definition um (l : list (option Q * Q)) : list (Q * Q) :=
  flat_map (fun p => match fst p with Some v => [(v, snd p)] | None => [] end) l.
Lemma combine_split' {A B} (l : list (A * B)) : combine (map fst l) (map snd l) = l.
Proof. induction l as [|[a b] l IH]; simpl; [reflexivity|]. rewrite IH. reflexivity. Qed.
Lemma avg_um l : avg l = (if wtotal (um l) =? 0 then None else Some (wdot (um l) / wtotal (um l))).
Proof. unfold avg, ma_average, unmasked. rewrite combine_split'. reflexivity. Qed.
Lemma um_in l v w : In (v, w) (um l) <-> In (Some v, w) l.
Proof.
  unfold um. rewrite in_flat_map. split.
  - intros ([o w'] & H & I). destruct o; simpl in I; [|easy]. destruct I as [[= -> ->]|[]]. exact H.
  - intro H. exists (Some v, w). split; [exact H|simpl; auto].
Qed.
Lemma um_perm l m : Permutation l m -> Permutation (um l) (um m).
Proof. intro H. unfold um. apply Permutation_flat_map, H. Qed.
Lemma wtotal_perm l m : Permutation l m -> wtotal l == wtotal m.
Proof. intro H. unfold wtotal. apply qsum_perm, Permutation_map, H. Qed.
Lemma wdot_perm l m : Permutation l m -> wdot l == wdot m.
Proof. intro H. unfold wdot. apply qsum_perm, Permutation_map, H. Qed.
Lemma avg_cong (p q : list (Q * Q)) : wtotal p == wtotal q -> wdot p == wdot q ->
  oeq (if wtotal p =? 0 then None else Some (wdot p / wtotal p)) (if wtotal q =? 0 then None else Some (wdot q / wtotal q)).
Proof.
  intros H H0. destruct (Qeqb_spec (wtotal p) 0), (Qeqb_spec (wtotal q) 0); cbn [oeq]; trivial; try (exfalso; lra). rewrite H, H0. reflexivity.
Qed.
Lemma avg_perm l m : Permutation l m -> oeq (avg l) (avg m).
Proof. intro H. rewrite !avg_um. apply um_perm in H. apply avg_cong; [apply wtotal_perm|apply wdot_perm]; exact H. Qed.
Lemma wbounds ps lo hi : Forall (fun p => 0 <= snd p) ps -> Forall (fun p => 0 < snd p -> lo <= fst p <= hi) ps ->
  lo * wtotal ps <= wdot ps <= hi * wtotal ps /\ 0 <= wtotal ps.
Proof.
  unfold wtotal, wdot. induction ps as [|[v w] ps IH]; intros N B; simpl; [split; lra|]. inversion N; inversion B; subst. cbn [fst snd] in *.
  destruct IH as (IH & IH2); trivial. destruct (Qlt_le_dec 0 w) as [P|P].
  - specialize (H5 P). split; [|lra]. nra.
  - assert (E : w == 0) by lra. rewrite !E. split; [lra|lra].
Qed.
Lemma avg_bounds l m lo hi : avg l = Some m -> (forall v w, In (Some v, w) l -> 0 <= w) ->
  (forall v w, In (Some v, w) l -> 0 < w -> lo <= v <= hi) -> lo <= m <= hi.
Proof.
  rewrite avg_um. intros H N B. destruct (Qeqb_spec (wtotal (um l)) 0) as [|NZ]; [discriminate|]. injection H as <-.
  destruct (wbounds (um l) lo hi) as (G & P).
  - apply Forall_forall. intros [v w] Hv. apply um_in in Hv. exact (N v w Hv).
  - apply Forall_forall. intros [v w] Hv. apply um_in in Hv. exact (B v w Hv).
  - assert (0 < wtotal (um l)) by lra. split; [apply Qle_shift_div_l; trivial; lra|apply Qle_shift_div_r; trivial; lra].
Qed.
Lemma wtotal_zero l : (forall v w, In (Some v, w) l -> 0 <= w) -> (wtotal (um l) == 0 <-> forall v w, In (Some v, w) l -> w == 0).
Proof.
  intro N. assert (F : Forall (fun x => 0 <= x) (map snd (um l))).
  { rewrite Forall_map. apply Forall_forall. intros [v w] Hv. apply um_in in Hv. exact (N v w Hv). }
  unfold wtotal. split.
  - intros Z v w Hv. pose proof (qsum_zero_nonneg _ F Z) as G. rewrite Forall_map, Forall_forall in G. apply um_in in Hv. exact (G _ Hv).
  - intro Z. assert (G : forall ps : list (Q * Q), (forall p, In p ps -> snd p == 0) -> qsum (map snd ps) == 0).
    { induction ps as [|p ps IH]; simpl; intro H; [reflexivity|]. rewrite IH by auto. rewrite H by auto. ring. }
    apply G. intros [v w] Hv. apply um_in in Hv. exact (Z v w Hv).
Qed.
Lemma avg_masked l : (forall v w, In (Some v, w) l -> 0 <= w) -> (avg l = None <-> forall v w, In (Some v, w) l -> w == 0).
Proof.
  intro N. rewrite <- (wtotal_zero l N), avg_um. destruct (Qeqb_spec (wtotal (um l)) 0); split; intros; trivial; try easy; try discriminate.
Qed.
Lemma avg_value l m : avg l = Some m -> m == wdot (um l) / wtotal (um l) /\ ~ wtotal (um l) == 0.
Proof. rewrite avg_um. destruct (Qeqb_spec (wtotal (um l)) 0) as [|NZ]; [discriminate|]. intros [= <-]. split; [reflexivity|exact NZ]. Qed.
(** Units: an affine change of the values changes the mean in the same way. *)
Definition omap (f : Q -> Q) (p : option Q * Q) : option Q * Q := (option_map f (fst p), snd p).
Lemma um_omap f l : um (map (omap f) l) = map (fun p => (f (fst p), snd p)) (um l).
Proof. unfold um. induction l as [|[[v|] w] l IH]; simpl; trivial. rewrite IH. reflexivity. Qed.
Lemma avg_affine a b l : oeq (avg (map (omap (fun v => a * v + b)) l)) (option_map (fun m => a * m + b) (avg l)).
Proof.
  rewrite !avg_um, um_omap. set (ps := um l). clearbody ps.
  assert (T : wtotal (map (fun p => (a * fst p + b, snd p)) ps) == wtotal ps).
  { unfold wtotal. rewrite map_map. reflexivity. }
  assert (D : wdot (map (fun p => (a * fst p + b, snd p)) ps) == a * wdot ps + b * wtotal ps).
  { unfold wdot, wtotal. rewrite map_map. induction ps as [|[v w] ps IH]; simpl; [ring|]. cbn [fst snd] in *. setoid_rewrite IH; [ring|]. unfold wtotal. rewrite map_map. reflexivity. }
  destruct (Qeqb_spec (wtotal (map (fun p => (a * fst p + b, snd p)) ps)) 0), (Qeqb_spec (wtotal ps) 0); cbn [oeq option_map]; trivial; try (exfalso; lra).
  rewrite T, D. field. assumption.
Qed.
(** Weights only matter up to a common factor. *)
Lemma avg_scale k l : ~ k == 0 -> oeq (avg (map (fun p => (fst p, snd p * k)) l)) (avg l).
Proof.
  intro K. rewrite !avg_um. assert (U : um (map (fun p => (fst p, snd p * k)) l) = map (fun p => (fst p, snd p * k)) (um l)).
  { unfold um. induction l as [|[[v|] w] l IH]; simpl; trivial. rewrite IH. reflexivity. }
  rewrite U. set (ps := um l). clearbody ps. clear U l.
  assert (T : wtotal (map (fun p => (fst p, snd p * k)) ps) == wtotal ps * k).
  { unfold wtotal. rewrite map_map. induction ps; simpl; [ring|]. rewrite IHps. ring. }
  assert (D : wdot (map (fun p => (fst p, snd p * k)) ps) == wdot ps * k).
  { unfold wdot. rewrite map_map. clear T. induction ps; simpl; [ring|]. cbn [fst snd] in *. rewrite IHps. ring. }
  destruct (Qeqb_spec (wtotal (map (fun p => (fst p, snd p * k)) ps)) 0) as [Z|Z], (Qeqb_spec (wtotal ps) 0) as [Z'|Z']; cbn [oeq]; trivial.
  - rewrite T in Z. apply Qmult_integral in Z as [Z|Z]; contradiction.
  - rewrite T, Z' in Z. apply Z. ring.
  - rewrite T, D. field. split; assumption.
Qed.
Lemma avg_skip v w l : (v = None \/ w == 0) -> oeq (avg ((v, w) :: l)) (avg l).
Proof.
  intros [-> | W]; rewrite !avg_um.
  - apply avg_cong; reflexivity.
  - destruct v as [v|]; [|apply avg_cong; reflexivity]. apply avg_cong; unfold wtotal, wdot; simpl; rewrite W; ring.
Qed.
Lemma qsum_repeat x n : qsum (repeat x n) == Qn n * x.
Proof. induction n; simpl repeat; cbn [qsum]; [unfold Qn; simpl; ring|]. rewrite IHn, Qn_S. ring. Qed.
Lemma qsum_const {A} (q : Q) (vs : list A) : qsum (map (fun _ => q) vs) == q * Qn (length vs).
Proof. induction vs; cbn [map qsum length]; [unfold Qn; simpl; ring|]. rewrite IHvs, Qn_S. ring. Qed.
Lemma avg_equal (vs : list Q) : vs <> [] -> oeq (ma_average (map Some vs) (get_weights (length vs) None)) (Some (qsum vs / Qn (length vs))).
Proof.
  intro NE. unfold ma_average. cbn [get_weights]. assert (U : unmasked (map Some vs) (repeat (1 / Qn (length vs)) (length vs)) = map (fun v => (v, 1 / Qn (length vs))) vs).
  { unfold unmasked. generalize (1 / Qn (length vs)). intro q. clear. induction vs; simpl; [reflexivity|]. rewrite IHvs. reflexivity. }
  rewrite U. assert (P : 0 < Qn (length vs)) by (change 0 with (Qn 0); apply Qn_lt; destruct vs; [easy|simpl; lia]).
  set (q := 1 / Qn (length vs)) in *. assert (Q1 : q * Qn (length vs) == 1) by (unfold q; field; lra).
  assert (T : wtotal (map (fun v => (v, q)) vs) == 1).
  { unfold wtotal. rewrite map_map. cbn [snd]. rewrite qsum_const. exact Q1. }
  assert (D : wdot (map (fun v => (v, q)) vs) == qsum vs * q).
  { unfold wdot. rewrite map_map. cbn [fst snd]. apply qsum_map_mul. }
  clearbody q. destruct (Qeqb_spec (wtotal (map (fun v => (v, q)) vs)) 0) as [Z|Z]; [exfalso; lra|]. cbn [oeq]. rewrite T, D. unfold Qdiv. 
  assert (E : q == / Qn (length vs)). { apply (Qmult_inj_r _ _ (Qn (length vs))); [lra|]. rewrite Q1. field. lra. }
  rewrite E. field. lra.
Qed.

Lemma oeq_refl' a : oeq a a.
Proof. destruct a; simpl; trivial. reflexivity. Qed.
Lemma oeq_trans' a b c : oeq a b -> oeq b c -> oeq a c.
Proof. destruct a, b, c; simpl; trivial; try easy. intros H H0. rewrite H. exact H0. Qed.

(** ** The whole call *)
Lemma check_times_iff tb ts : check_times tb ts = Ok tt <-> tb = true \/ (forall a b, In a ts -> In b ts -> a = b).
Proof.
  unfold check_times. destruct tb; [tauto|]. destruct (Nat.ltb_spec 1 (length (nodup Z.eq_dec ts))) as [L|L].
  - split; [discriminate|]. intros [|H]; [discriminate|]. exfalso. pose proof (NoDup_nodup Z.eq_dec ts) as N.
    destruct (nodup Z.eq_dec ts) as [|a [|b r]] eqn:E; simpl in L; try lia.
    assert (Ia : In a ts) by (apply (nodup_In Z.eq_dec); rewrite E; simpl; auto). assert (Ib : In b ts) by (apply (nodup_In Z.eq_dec); rewrite E; simpl; auto).
    rewrite (H a b Ia Ib) in N. inversion N; subst. apply H2. simpl; auto.
  - split; [|reflexivity]. intros _. right. intros a b Ha Hb. apply (nodup_In Z.eq_dec) in Ha, Hb.
    destruct (nodup Z.eq_dec ts) as [|x [|y r]]; simpl in *; [easy| |lia]. intuition congruence.
Qed.
Lemma ksort_map {A B} (f : A -> B) (l : list (Q * A)) : ksort (map (fun p => (fst p, f (snd p))) l) = map (fun p => (fst p, f (snd p))) (ksort l).
Proof.
  induction l as [|x l IH]; simpl; [reflexivity|]. rewrite IH. generalize (ksort l). clear. intro m. induction m as [|y m IH]; simpl; [reflexivity|].
  destruct (fst x <=? fst y); simpl; [reflexivity|]. rewrite IH. reflexivity.
Qed.
Lemma blend_order tb n c c' w w' : distinct_keys c -> Permutation c c' ->
  (match w, w' with Some a, Some b => distinct_keys a /\ Permutation a b | None, None => True | _, _ => False end) ->
  blend_process tb n c w = blend_process tb n c' w'.
Proof.
  intros D P W. unfold blend_process. rewrite (ksort_unique c c' D P). destruct w as [w|], w' as [w'|]; try easy. destruct W as (D' & P').
  cbn [option_map]. rewrite (ksort_unique w w' D' P'). reflexivity.
Qed.
Record entry := { e_time : Z; e_vals : list (option Q); e_weights : list Q }.
Lemma blend_matched tb n (es : list (Q * entry)) cube weights out : distinct_keys es ->
  Permutation (map (fun e => (fst e, (e_time (snd e), e_vals (snd e)))) es) cube ->
  Permutation (map (fun e => (fst e, e_weights (snd e))) es) weights ->
  blend_process tb n cube (Some weights) = Ok out ->
  length out = n /\ forall g, (g < n)%nat -> oeq (nth g out None) (avg (map (fun e => (nth g (e_vals (snd e)) None, nth g (e_weights (snd e)) 0)) es)).
Proof.
  intros D P W. unfold blend_process. cbn [option_map].
  assert (DK : forall B (f : entry -> B), distinct_keys (map (fun e : Q * entry => (fst e, f (snd e))) es)).
  { intros B f. apply distinct_map_key. rewrite map_map. cbn [fst]. clear - D. unfold distinct, distinct_keys in *. induction es; simpl; constructor; inversion D; subst; [|auto].
    rewrite Forall_map. exact H1. }
  rewrite <- (ksort_unique _ _ (DK _ (fun e => (e_time e, e_vals e))) P). rewrite <- (ksort_unique _ _ (DK _ e_weights) W).
  rewrite (ksort_map (fun e => (e_time e, e_vals e)) es), (ksort_map e_weights es). rewrite !map_map. cbn [fst snd].
  destruct (check_times tb _) as [[]|]; [|discriminate]. cbn [bind]. rewrite !map_length, Nat.eqb_refl. intros [= <-].
  unfold weighted_mean. cbn [option_map get_weights]. split; [rewrite map_length, seq_length; reflexivity|]. intros g Hg. rewrite nth_map_seq by exact Hg.
  pose proof (ksort_perm es) as KP. unfold column. rewrite !map_map. cbn [fst snd].
  apply (oeq_trans' _ (avg (map (fun e => (nth g (e_vals (snd e)) None, nth g (e_weights (snd e)) 0)) (ksort es)))).
  - unfold avg. rewrite !map_map. cbn [fst snd]. apply oeq_refl'.
  - apply avg_perm. apply Permutation_map. symmetry. exact KP.
Qed.
