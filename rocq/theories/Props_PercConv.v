(** C115: percentiles over coordinates. *)
From Verif Require Import Base Proofs_Nbhood Model_Probability Model_PercConv Spec_PercConv.
Local Open Scope Q_scope.

Lemma Qn_le a b : Qn a <= Qn b <-> (a <= b)%nat.
Proof. unfold Qn. rewrite <- Zle_Qle. lia. Qed.
Lemma Qn_lt a b : Qn a < Qn b <-> (a < b)%nat.
Proof. unfold Qn. rewrite <- Zlt_Qlt. lia. Qed.
Lemma Qn_S a : Qn (S a) == Qn a + 1.
Proof. unfold Qn. rewrite Nat2Z.inj_succ. unfold Z.succ. rewrite inject_Z_plus. reflexivity. Qed.
Lemma Qn_0 : Qn 0 == 0. Proof. reflexivity. Qed.
Lemma floor_pos h : 0 <= h -> Qn (Z.to_nat (Qround.Qfloor h)) <= h < Qn (Z.to_nat (Qround.Qfloor h)) + 1.
Proof.
  intro H. assert (F : (0 <= Qround.Qfloor h)%Z) by (change 0%Z with (Qround.Qfloor 0); apply Qround.Qfloor_resp_le; exact H).
  unfold Qn. rewrite Z2Nat.id by exact F. split; [apply Qround.Qfloor_le|].
  pose proof (Qround.Qlt_floor h) as L. rewrite inject_Z_plus in L. exact L.
Qed.
Lemma pred_n n : (0 < n)%nat -> inject_Z (Z.of_nat n - 1) == Qn n - 1.
Proof. intro H. unfold Qn. replace (Z.of_nat n - 1)%Z with (Z.of_nat n + (-1))%Z by lia. rewrite inject_Z_plus. reflexivity. Qed.

(** Both methods give the percentile. *)
Lemma np_is l p : l <> [] -> 0 <= p <= 100 -> is_percentile l p (np_percentile l p).
Proof.
  intros NE P. exists (qsort l). split; [apply qsort_perm|]. split; [apply qsort_sorted|].
  assert (LP : (0 < length l)%nat) by (destruct l; [congruence|cbn; lia]).
  unfold np_percentile. set (h := p / 100 * inject_Z (Z.of_nat (length l) - 1)).
  assert (Hh : h == p / 100 * (Qn (length l) - 1)) by (unfold h; rewrite pred_n by exact LP; reflexivity).
  assert (P1 : 0 <= p / 100 <= 1).
  { split; [apply Qle_shift_div_l; lra|apply Qle_shift_div_r; lra]. }
  assert (LQ : 1 <= Qn (length l)) by (change 1 with (Qn 1); apply Qn_le; lia).
  set (q := p / 100) in *. clearbody q.
  assert (H0 : 0 <= h <= Qn (length l) - 1) by (rewrite Hh; nra).
  pose proof (floor_pos h (proj1 H0)) as K. set (k := Z.to_nat (Qround.Qfloor h)) in *. change (inject_Z (Z.of_nat k)) with (Qn k).
  split.
  - intro L1. rewrite L1 in *. assert (E : Qn 1 == 1) by reflexivity.
    replace (Nat.min k (1 - 1)) with 0%nat by lia. replace (Nat.min (S k) (1 - 1)) with 0%nat by lia. ring.
  - intros i Hi. cbv zeta. rewrite <- Hh. intro Hr. clearbody h. clear Hh.
    assert (KI : k = i \/ k = S i).
    { assert (A : (i < S k)%nat) by (apply Qn_lt; rewrite Qn_S; lra). assert (B : (k <= S i)%nat) by (apply Qn_le; rewrite Qn_S; lra). lia. }
    destruct KI as [-> | ->].
    + rewrite !Nat.min_l by lia. ring.
    + rewrite Qn_S in *. assert (Eh : h == Qn i + 1) by lra.
      rewrite Nat.min_l by lia. rewrite Eh. ring.
Qed.

Lemma mq_cases l p : match unmasked l with [] => mquantile l p = None | _ => exists v, mquantile l p = Some v end.
Proof. unfold mquantile. destruct (unmasked l) as [|a [|b r]]; [reflexivity|eauto|eauto]. Qed.
Lemma mq_is l p v : 0 <= p <= 100 -> mquantile l p = Some v -> is_percentile (unmasked l) p v.
Proof.
  intros P H. unfold mquantile in H. destruct (unmasked l) as [|a [|b r]] eqn:U; [discriminate| |].
  - injection H as <-. exists [a]. split; [reflexivity|]. split; [repeat constructor|]. split; [reflexivity|]. cbn. intros; lia.
  - cbv zeta in H. remember (a :: b :: r) as w eqn:W. assert (LP : (2 <= length w)%nat) by (subst w; cbn; lia). clear W U.
    injection H as <-. exists (qsort w). split; [apply qsort_perm|]. split; [apply qsort_sorted|]. split; [lia|].
    intros i Hi. cbv zeta. change (inject_Z (Z.of_nat (length w))) with (Qn (length w)).
    assert (P1 : 0 <= p / 100 <= 1) by (split; [apply Qle_shift_div_l; lra|apply Qle_shift_div_r; lra]).
    set (q := p / 100) in *. clearbody q. set (n := Qn (length w)). assert (N2 : 2 <= n) by (unfold n; change 2 with (Qn 2); apply Qn_le; lia).
    assert (NI : Qn i + 1 <= n - 1). { unfold n. assert (Qn (S (S i)) <= Qn (length w)) by (apply Qn_le; lia). rewrite !Qn_S in *. lra. }
    intro Hr. set (al := n * q + (1 - q)). assert (AL : al == q * (n - 1) + 1) by (unfold al; ring).
    set (h := q * (n - 1)) in *. clearbody h. clearbody al.
    assert (CA : clip 1 (n - 1) al == clip 1 (n - 1) (h + 1)) by (rewrite AL; reflexivity).
    rewrite (Qround.Qfloor_comp _ _ CA).
    pose proof (Qround.Qfloor_le (clip 1 (n - 1) (h + 1))) as F1. pose proof (Qround.Qlt_floor (clip 1 (n - 1) (h + 1))) as F2.
    set (k := Qround.Qfloor (clip 1 (n - 1) (h + 1))) in *. rewrite inject_Z_plus in F2. change (inject_Z 1) with 1 in F2.
    pose proof (clip_bounds 1 (n - 1) (h + 1)) as CB. assert (CB' : 1 <= clip 1 (n - 1) (h + 1) <= n - 1) by (apply CB; lra). clear CB.
    assert (I0 : 0 <= Qn i) by (change 0 with (Qn 0); apply Qn_le; lia).
    assert (CV : (h + 1 <= n - 1 /\ clip 1 (n - 1) (h + 1) == h + 1) \/ (n - 1 <= h + 1 /\ clip 1 (n - 1) (h + 1) == n - 1)).
    { clear -Hr NI I0 N2. unfold clip. qmm; lra. }
    set (cc := clip 1 (n - 1) (h + 1)) in *. clearbody cc k. clear CA.
    assert (KI : k = Z.of_nat (S i) \/ k = Z.of_nat (S (S i))).
    { assert (A : (Z.of_nat i < k)%Z) by (rewrite Zlt_Qlt; change (inject_Z (Z.of_nat i)) with (Qn i); lra).
      assert (B : (k < Z.of_nat (S (S (S i))))%Z). { rewrite Zlt_Qlt. change (inject_Z (Z.of_nat (S (S (S i))))) with (Qn (S (S (S i)))). rewrite !Qn_S. lra. } lia. }
    destruct KI as [-> | ->].
    + replace (Z.to_nat (Z.of_nat (S i) - 1)) with i by lia. rewrite Nat2Z.id.
      change (inject_Z (Z.of_nat (S i))) with (Qn (S i)) in *. rewrite Qn_S in *.
      assert (G : clip 0 1 (al - Qn (S i)) == h - Qn i) by (rewrite clip_id; [rewrite AL, Qn_S; ring|rewrite AL, Qn_S; lra]).
      rewrite Qn_S in G.
      rewrite G. ring.
    + replace (Z.to_nat (Z.of_nat (S (S i)) - 1)) with (S i) by lia. rewrite Nat2Z.id.
      change (inject_Z (Z.of_nat (S (S i)))) with (Qn (S (S i))) in *. rewrite !Qn_S in *.
      assert (Eh : h == Qn i + 1) by lra.
      assert (G : clip 0 1 (al - Qn (S (S i))) == 0) by (rewrite clip_id; rewrite AL, !Qn_S; lra).
      rewrite !Qn_S in G.
      rewrite G. rewrite Eh. ring.
Qed.

(** What follows from being a percentile. *)
Lemma segment n h : (2 <= n)%nat -> 0 <= h <= Qn n - 1 -> exists i, (S i < n)%nat /\ Qn i <= h <= Qn i + 1.
Proof.
  intros N H. pose proof (floor_pos h (proj1 H)) as K. set (k := Z.to_nat (Qround.Qfloor h)) in *. clearbody k.
  destruct (Nat.lt_ge_cases (S k) n) as [L|L].
  - exists k. split; [exact L|lra].
  - destruct n as [|[|m]]; [lia|lia|]. exists m. split; [lia|].
    assert (Qn (S (S m)) <= Qn (S k)) by (apply Qn_le; lia). rewrite !Qn_S in *. lra.
Qed.
Lemma position n p : (1 <= n)%nat -> 0 <= p <= 100 -> 0 <= p / 100 * (Qn n - 1) <= Qn n - 1.
Proof.
  intros N P. assert (P1 : 0 <= p / 100 <= 1) by (split; [apply Qle_shift_div_l; lra|apply Qle_shift_div_r; lra]).
  assert (1 <= Qn n) by (change 1 with (Qn 1); apply Qn_le; lia). nra.
Qed.
Lemma nonempty {A} (l : list A) : l <> [] -> (1 <= length l)%nat. Proof. destruct l; [congruence|cbn; lia]. Qed.
Lemma nth_Forall2 (l m : list Q) i : Forall2 Qeq l m -> nth i l 0 == nth i m 0.
Proof. intro H. revert i. induction H; intros [|i]; cbn; try reflexivity; auto. Qed.

Lemma percentile_same l l' p v v' : l <> [] -> 0 <= p <= 100 -> Permutation l l' -> is_percentile l p v -> is_percentile l' p v' -> v == v'.
Proof.
  intros NE P PE (s & P1 & S1 & A1 & B1) (s' & P2 & S2 & A2 & B2). rewrite <- (Permutation_length PE) in *.
  assert (E : Forall2 Qeq s s'). { apply qsorted_perm_eq; [exact S1|exact S2|]. rewrite <- P1, PE. exact P2. }
  destruct (Nat.eq_dec (length l) 1) as [L1|L1].
  - rewrite (A1 L1), (A2 L1). apply nth_Forall2, E.
  - pose proof (nonempty l NE). destruct (segment (length l) (p / 100 * (Qn (length l) - 1))) as (i & Hi & Hr); [lia|apply position; [lia|exact P]|].
    rewrite (B1 i Hi Hr), (B2 i Hi Hr). rewrite (nth_Forall2 _ _ i E), (nth_Forall2 _ _ (S i) E). reflexivity.
Qed.
Lemma nth_within l i : qsorted l -> (S i < length l)%nat -> forall t, 0 <= t <= 1 -> nth i l 0 <= nth i l 0 + t * (nth (S i) l 0 - nth i l 0) <= nth (S i) l 0.
Proof. intros H Hi t Ht. pose proof (Base.qsorted_nth l 0 i (S i) H ltac:(lia)). nra. Qed.
Lemma percentile_mono l p q v w : l <> [] -> 0 <= p -> p <= q -> q <= 100 -> is_percentile l p v -> is_percentile l q w -> v <= w.
Proof.
  intros NE P0 PQ Q1 (s & P1 & S1 & A1 & B1) (s' & P2 & S2 & A2 & B2).
  assert (E : Forall2 Qeq s s') by (apply qsorted_perm_eq; [exact S1|exact S2|rewrite <- P1; exact P2]).
  pose proof (nonempty l NE) as N1. assert (LS : length s = length l) by (symmetry; apply Permutation_length, P1).
  destruct (Nat.eq_dec (length l) 1) as [L1|L1].
  - rewrite (A1 L1), (A2 L1), (nth_Forall2 _ _ 0%nat E). lra.
  - set (h := p / 100 * (Qn (length l) - 1)) in *. set (g := q / 100 * (Qn (length l) - 1)) in *.
    assert (HG : h <= g). { unfold h, g. assert (1 <= Qn (length l)) by (change 1 with (Qn 1); apply Qn_le; lia). assert (p / 100 <= q / 100) by (apply Qmult_le_compat_r; [exact PQ|discriminate]). nra. }
    destruct (segment (length l) h) as (i & Hi & Hr); [lia|unfold h; apply position; [lia|lra]|].
    destruct (segment (length l) g) as (j & Hj & Gr); [lia|unfold g; apply position; [lia|lra]|].
    rewrite (B1 i Hi Hr), (B2 j Hj Gr). rewrite <- (nth_Forall2 _ _ j E), <- (nth_Forall2 _ _ (S j) E).
    fold h. fold g. clearbody h g.
    destruct (lt_eq_lt_dec i j) as [[L|L]|L].
    + pose proof (nth_within s i S1 ltac:(lia) (h - Qn i) ltac:(lra)). pose proof (nth_within s j S1 ltac:(lia) (g - Qn j) ltac:(lra)).
      pose proof (Base.qsorted_nth s 0 (S i) j S1 ltac:(lia)). lra.
    + subst j. pose proof (Base.qsorted_nth s 0 i (S i) S1 ltac:(lia)). nra.
    + assert (Qn (S j) <= Qn i) by (apply Qn_le; lia). rewrite Qn_S in *.
      pose proof (nth_within s i S1 ltac:(lia) (h - Qn i) ltac:(lra)). pose proof (nth_within s j S1 ltac:(lia) (g - Qn j) ltac:(lra)).
      assert (HE : h == Qn i) by lra. assert (GE : g == Qn j + 1) by lra. assert (IE : Qn i == Qn (S j)) by (rewrite Qn_S; lra).
      assert (EI : i = S j). { assert (i <= S j)%nat by (apply Qn_le; lra). lia. } subst i.
      rewrite HE, GE. lra.
Qed.
Lemma percentile_affine l p v a b : 0 <= a -> is_percentile l p v -> is_percentile (map (fun x => a * x + b) l) p (a * v + b).
Proof.
  intros Ha (s & P1 & S1 & A1 & B1). exists (map (fun x => a * x + b) s). rewrite map_length.
  assert (LS : length s = length l) by (symmetry; apply Permutation_length, P1).
  split; [apply Permutation_map, P1|]. split.
  { clear -S1 Ha. induction S1 as [|x l H IH F]; cbn; constructor; [exact IH|]. apply Forall_forall. intros y Hy. apply in_map_iff in Hy as (z & <- & Hz). rewrite Forall_forall in F. specialize (F z Hz). nra. }
  assert (NM : forall i, (i < length s)%nat -> nth i (map (fun x => a * x + b) s) 0 = a * nth i s 0 + b).
  { intros i Hi. rewrite (nth_indep _ 0 (a * 0 + b)) by (rewrite map_length; exact Hi). apply (map_nth (fun x => a * x + b)). }
  split.
  - intro L1. rewrite NM by lia. rewrite (A1 L1). reflexivity.
  - intros i Hi. cbv zeta. intro Hr. rewrite !NM by lia. rewrite (B1 i Hi Hr). cbv zeta. ring.
Qed.

(** How many values satisfy a condition. *)
Definition count (f : Q -> bool) (l : list Q) : nat := length (filter f l).
Lemma count_perm f l m : Permutation l m -> count f l = count f m.
Proof. unfold count. induction 1 as [|x l m H IH|x y l|l m n H1 IH1 H2 IH2]; cbn; [reflexivity| | |congruence]; [destruct (f x); cbn; congruence|destruct (f x), (f y); reflexivity]. Qed.
Lemma count_below s v i : qsorted s -> (i < length s)%nat -> nth i s 0 <= v -> (S i <= count (fun x => (x <=? v)%Q) s)%nat.
Proof.
  intro H. revert i. induction H as [|x l H IH F]; intros i Hi Hv; [cbn in Hi; lia|]. unfold count. cbn [filter].
  assert (X : x <= v). { destruct i; [exact Hv|]. cbn in Hv, Hi. rewrite Forall_forall in F. assert (B : (i < length l)%nat) by lia. specialize (F (nth i l 0) (nth_In _ _ B)). lra. }
  destruct (Qleb_spec x v); [|lra]. cbn [length]. destruct i; [lia|]. cbn in Hv, Hi. specialize (IH i ltac:(lia) Hv). unfold count in IH. lia.
Qed.
Lemma count_above s v i : qsorted s -> (i < length s)%nat -> v <= nth i s 0 -> (length s - i <= count (fun x => (v <=? x)%Q) s)%nat.
Proof.
  intro H. revert i. induction H as [|x l H IH F]; intros i Hi Hv; [cbn in Hi; lia|]. unfold count. cbn [filter length].
  destruct i as [|i].
  - cbn in Hv. assert (A : filter (fun y => v <=? y) l = l). { clear IH Hi. induction l as [|y l IHl]; [reflexivity|]. cbn. apply StronglySorted_inv in H as [H _]. inversion F as [|? ? F1 F2]; subst. destruct (Qleb_spec v y); [|lra]. f_equal. apply IHl; assumption. }
    destruct (Qleb_spec v x); [|lra]. cbn [length]. rewrite A. lia.
  - cbn in Hv, Hi. specialize (IH i ltac:(lia) Hv). unfold count in IH. destruct (v <=? x); cbn [length]; lia.
Qed.

(** C115: at least a share p/100 of the steps between the values lies on either side of the p-th percentile. *)
Lemma percentile_shares l p v : l <> [] -> 0 <= p <= 100 -> is_percentile l p v ->
  p / 100 * (Qn (length l) - 1) <= Qn (count (fun x => (x <=? v)%Q) l) /\
  (1 - p / 100) * (Qn (length l) - 1) <= Qn (count (fun x => (v <=? x)%Q) l).
Proof.
  intros NE P (s & P1 & S1 & A1 & B1). pose proof (nonempty l NE) as N1. assert (LS : length s = length l) by (symmetry; apply Permutation_length, P1).
  rewrite (count_perm _ _ _ P1), (count_perm (fun x => (v <=? x)%Q) _ _ P1).
  destruct (Nat.eq_dec (length l) 1) as [L1|L1].
  - rewrite L1 in *. assert (E : Qn 1 - 1 == 0) by reflexivity. rewrite E, !Qmult_0_r. split; change 0 with (Qn 0); apply Qn_le; lia.
  - set (h := p / 100 * (Qn (length l) - 1)) in *.
    assert (H2 : (1 - p / 100) * (Qn (length l) - 1) == Qn (length l) - 1 - h) by (unfold h; ring). rewrite H2.
    destruct (segment (length l) h) as (i & Hi & Hr); [lia|unfold h; apply position; [lia|lra]|].
    pose proof (B1 i Hi Hr) as V. fold h in V. clearbody h.
    pose proof (nth_within s i S1 ltac:(lia) (h - Qn i) ltac:(lra)) as W.
    pose proof (count_below s v i S1 ltac:(lia) ltac:(lra)) as CB. pose proof (count_above s v (S i) S1 ltac:(lia) ltac:(lra)) as CA.
    apply Qn_le in CB, CA. rewrite Qn_S in CB. split; [lra|].
    assert (Qn (length s - S i) + Qn (S i) == Qn (length l)). { unfold Qn. rewrite <- inject_Z_plus. replace (Z.of_nat (length s - S i) + Z.of_nat (S i))%Z with (Z.of_nat (length l)) by lia. reflexivity. }
    rewrite Qn_S in *. lra.
Qed.
Lemma percentile_member l s p v i : Permutation l s -> qsorted s -> (i < length l)%nat -> p * (Qn (length l) - 1) == 100 * Qn i -> 0 <= p <= 100 -> is_percentile l p v -> v == nth i s 0.
Proof.
  intros PS SS Hi Hp P (s' & P1 & S1 & A1 & B1).
  assert (E : Forall2 Qeq s s') by (apply qsorted_perm_eq; [exact SS|exact S1|rewrite <- PS; exact P1]). rewrite (nth_Forall2 _ _ i E).
  assert (H : p / 100 * (Qn (length l) - 1) == Qn i). { unfold Qdiv. rewrite <- Qmult_assoc, (Qmult_comm (/ 100)), Qmult_assoc, Hp. field. }
  destruct (Nat.eq_dec (length l) 1) as [L1|L1].
  - assert (i = 0)%nat by lia. subst i. apply A1, L1.
  - destruct (Nat.eq_dec (S i) (length l)) as [L|L].
    + destruct i as [|j]; [lia|]. rewrite (B1 j); [|lia|rewrite H, Qn_S; lra]. rewrite H, Qn_S. ring.
    + rewrite (B1 i); [|lia|rewrite H; lra]. rewrite H. ring.
Qed.

(** The cells that are collapsed together. *)
Lemma tuples_in sizes idx : In idx (tuples sizes) <-> in_range sizes idx.
Proof.
  revert idx. induction sizes as [|n r IH]; intro idx; cbn [tuples].
  - split; [intros [<-|[]]; constructor|]. inversion 1. left. reflexivity.
  - rewrite in_flat_map. split.
    + intros (i & Hi & H). apply in_seq in Hi. apply in_map_iff in H as (t & <- & Ht). constructor; [lia|apply IH, Ht].
    + inversion 1 as [|? i ? t H1 H2]; subst. exists i. split; [apply in_seq; lia|apply in_map, IH, H2].
Qed.
Lemma nodup_flat {A B} (f : A -> list B) l : NoDup l -> (forall a, In a l -> NoDup (f a)) -> (forall a b x, In a l -> In b l -> In x (f a) -> In x (f b) -> a = b) -> NoDup (flat_map f l).
Proof.
  induction 1 as [|a l N H IH]; intros F D; cbn; [constructor|]. 
  assert (NA : NoDup (f a)) by (apply F; left; reflexivity).
  assert (NR : NoDup (flat_map f l)) by (apply IH; [intros; apply F; right; assumption|intros; eapply D; eauto; right; assumption]).
  assert (DJ : forall x, In x (f a) -> ~ In x (flat_map f l)).
  { intros x Hx Hy. apply in_flat_map in Hy as (b & Hb & Hy). assert (a = b) by (eapply D; eauto; [left; reflexivity|right; exact Hb]). subst. contradiction. }
  clear -NA NR DJ. induction (f a) as [|x m IHm]; [exact NR|]. cbn. inversion NA; subst. constructor.
  - rewrite in_app_iff. intros [K|K]; [contradiction|]. exact (DJ x (or_introl eq_refl) K).
  - apply IHm; [assumption|]. intros y Hy. apply DJ. right. exact Hy.
Qed.
Lemma tuples_nodup sizes : NoDup (tuples sizes).
Proof.
  induction sizes as [|n r IH]; cbn [tuples]; [repeat constructor; intros []|]. apply nodup_flat; [apply seq_NoDup| |].
  - intros i _. apply FinFun.Injective_map_NoDup; [|exact IH]. intros x y E. congruence.
  - intros i j x _ _ Hi Hj. apply in_map_iff in Hi as (t & <- & _). apply in_map_iff in Hj as (u & E & _). congruence.
Qed.
Lemma weave_spec : forall fl sizes outer, length fl = length sizes -> in_range (select (map negb fl) sizes) outer ->
  NoDup (map (weave fl outer) (tuples (select fl sizes))) /\
  forall idx, In idx (map (weave fl outer) (tuples (select fl sizes))) <-> in_range sizes idx /\ kept_part fl idx = outer.
Proof.
  assert (W : forall fl sizes outer inner, length fl = length sizes -> in_range (select (map negb fl) sizes) outer -> in_range (select fl sizes) inner ->
    in_range sizes (weave fl outer inner) /\ kept_part fl (weave fl outer inner) = outer /\ select fl (weave fl outer inner) = inner).
  { induction fl as [|b fl IH]; intros [|n sizes] outer inner L Ho Hi; cbn in L; try discriminate; cbn [map select negb] in *.
    - inversion Ho; inversion Hi; subst. repeat split. constructor.
    - destruct b; cbn [negb weave] in *.
      + inversion Hi as [|? i ? t H1 H2]; subst. destruct (IH sizes outer t) as (A & B & C); [lia|exact Ho|exact H2|]. cbn. rewrite B, C. repeat split. constructor; assumption.
      + inversion Ho as [|? i ? t H1 H2]; subst. destruct (IH sizes t inner) as (A & B & C); [lia|exact H2|exact Hi|]. cbn. rewrite B, C. repeat split. constructor; assumption. }
  assert (V : forall fl sizes idx, length fl = length sizes -> in_range sizes idx -> in_range (select fl sizes) (select fl idx) /\ weave fl (kept_part fl idx) (select fl idx) = idx).
  { induction fl as [|b fl IH]; intros [|n sizes] idx L H; cbn in L; try discriminate; inversion H as [|? i ? t H1 H2]; subst; cbn [select kept_part weave]; [split; [constructor|reflexivity]|].
    destruct (IH sizes t ltac:(lia) H2) as [A B]. destruct b; cbn [weave]; rewrite B; (split; [|reflexivity]); [constructor; assumption|exact A]. }
  intros fl sizes outer L Ho. split.
  - assert (I : forall l, NoDup l -> (forall x, In x l -> in_range (select fl sizes) x) -> NoDup (map (weave fl outer) l)).
    { induction 1 as [|x l N H IH]; intro R; cbn; constructor; [|apply IH; intros; apply R; right; assumption].
      intro K. apply in_map_iff in K as (y & E & Hy). assert (x = y); [|subst; contradiction].
      destruct (W fl sizes outer x L Ho (R x (or_introl eq_refl))) as (_ & _ & C1). destruct (W fl sizes outer y L Ho (R y (or_intror Hy))) as (_ & _ & C2). congruence. }
    apply I; [apply tuples_nodup|]. intros x Hx. apply tuples_in, Hx.
  - intro idx. rewrite in_map_iff. split.
    + intros (inner & <- & Hin). apply tuples_in in Hin. destruct (W fl sizes outer inner L Ho Hin) as (A & B & _). auto.
    + intros [R <-]. destruct (V fl sizes idx L R) as [A B]. exists (select fl idx). split; [exact B|]. apply tuples_in, A.
Qed.

(** ** The theorems *)
Definition on_dimension (names : list string) (c : cube) (d : nat) : Prop := exists n ds, In (n, ds) (coords c) /\ In n names /\ In d ds.
Definition carried_once (n : string) (c : cube) : Prop := exists ds, filter (fun x => (fst x =? n)%string) (coords c) = [(n, ds)].
Definition acceptable (names : list string) (ps : list Q) (fast : bool) (c : cube) : Prop :=
  NoDup names /\ (forall n, In n names -> carried_once n c) /\ (exists d, (d < length (sizes c))%nat /\ on_dimension names c d) /\
  (forall n ds, In (n, ds) (coords c) -> contains "percentile" n = true -> In n names) /\
  (fast = true -> (forall idx, in_range (sizes c) idx -> vals c idx <> None) /\ forall p, In p ps -> 0 <= p <= 100).

Lemma smem_in n (l : list string) : existsb (String.eqb n) l = true <-> In n l.
Proof. rewrite existsb_exists. split; [intros (x & H & E); apply String.eqb_eq in E; subst; exact H|]. intro H. exists n. split; [exact H|apply String.eqb_refl]. Qed.
Lemma flags_length names c : length (collapsing names c) = length (sizes c).
Proof. unfold collapsing. rewrite map_length, seq_length. reflexivity. Qed.
Lemma flag_on names c d : (d < length (sizes c))%nat -> (nth d (collapsing names c) false = true <-> on_dimension names c d).
Proof.
  intro Hd. unfold collapsing. rewrite (nth_map_seq (fun d => existsb _ (coords c))) by exact Hd. cbn [Nat.add]. rewrite existsb_exists. split.
  - intros ([n ds] & Hin & E). cbn in E. apply andb_true_iff in E as [E1 E2]. apply smem_in in E1. apply existsb_exists in E2 as (x & Hx & E). apply Nat.eqb_eq in E. subst x. exists n, ds. auto.
  - intros (n & ds & H1 & H2 & H3). exists (n, ds). split; [exact H1|]. cbn. apply andb_true_iff. split; [apply smem_in, H2|]. apply existsb_exists. exists d. split; [exact H3|apply Nat.eqb_refl].
Qed.
Lemma any_flag names c : existsb (fun b => b) (collapsing names c) = true <-> exists d, (d < length (sizes c))%nat /\ on_dimension names c d.
Proof.
  rewrite existsb_exists. split.
  - intros (b & Hb & ->). apply (In_nth _ _ false) in Hb as (d & Hd & E). rewrite flags_length in Hd. exists d. split; [exact Hd|apply flag_on; assumption].
  - intros (d & Hd & H). exists true. split; [|reflexivity]. apply flag_on in H; [|exact Hd]. rewrite <- H. apply nth_In. rewrite flags_length. exact Hd.
Qed.
Lemma masked_iff c : masked c = false <-> forall idx, in_range (sizes c) idx -> vals c idx <> None.
Proof.
  unfold masked. split.
  - intros H idx R E. assert (existsb (fun i => match vals c i with None => true | Some _ => false end) (tuples (sizes c)) = true); [|congruence].
    apply existsb_exists. exists idx. split; [apply tuples_in, R|]. rewrite E. reflexivity.
  - intro H. apply not_true_is_false. intro K. apply existsb_exists in K as (idx & Hi & E). apply tuples_in in Hi. specialize (H idx Hi). destruct (vals c idx); congruence.
Qed.
Lemma double_count names (cs : list (string * list nat)) :
  list_sum (map (fun x => length (filter (String.eqb (fst x)) names)) cs) = list_sum (map (fun n => length (filter (fun x => (fst x =? n)%string) cs)) names).
Proof.
  induction cs as [|x cs IH]; cbn [map list_sum fold_right].
  - induction names as [|n r IHr]; cbn; [reflexivity|exact IHr].
  - change (fold_right Nat.add 0%nat) with list_sum. rewrite IH. clear IH. induction names as [|n r IHr]; cbn [map filter list_sum fold_right length] in *; [reflexivity|].
    change (fold_right Nat.add 0%nat) with list_sum in *. rewrite <- IHr. destruct ((fst x =? n)%string); cbn [length]; lia.
Qed.
Lemma once_filter n names : NoDup names -> In n names -> length (filter (String.eqb n) names) = 1%nat.
Proof.
  induction 1 as [|x l N H IH]; intros [].
  - subst x. cbn. rewrite String.eqb_refl. cbn. f_equal. assert (E : filter (String.eqb n) l = []); [|rewrite E; reflexivity].
    clear IH H. induction l as [|y l IHl]; [reflexivity|]. cbn. destruct (String.eqb_spec n y); [subst; exfalso; apply N; left; reflexivity|]. apply IHl. intro K. apply N. right. exact K.
  - cbn. destruct (String.eqb_spec n x); [subst; contradiction|]. apply IH. assumption.
Qed.
Lemma nodup_counts names : (forall n, In n names -> length (filter (String.eqb n) names) = 1%nat) -> NoDup names.
Proof.
  induction names as [|x l IH]; intro H; constructor.
  - intro K. specialize (H x (or_introl eq_refl)). cbn in H. rewrite String.eqb_refl in H. cbn in H.
    assert (In x (filter (String.eqb x) l)) by (apply filter_In; split; [exact K|apply String.eqb_refl]). destruct (filter (String.eqb x) l); [contradiction|cbn in H; lia].
  - apply IH. intros n Hn. specialize (H n (or_intror Hn)). cbn in H. destruct (String.eqb_spec n x); [|exact H].
    subst x. cbn in H. assert (In n (filter (String.eqb n) l)) by (apply filter_In; split; [exact Hn|apply String.eqb_refl]). destruct (filter (String.eqb n) l); [contradiction|cbn in H; lia].
Qed.
Lemma carried_iff n c : carried_once n c <-> length (with_name n c) = 1%nat.
Proof.
  unfold carried_once, with_name. split; [intros [ds ->]; reflexivity|]. intro H.
  destruct (filter (fun x => (fst x =? n)%string) (coords c)) as [|[m ds] [|y r]] eqn:E; cbn in H; try lia.
  assert (K : In (m, ds) (filter (fun x => (fst x =? n)%string) (coords c))) by (rewrite E; left; reflexivity). apply filter_In in K as [_ K]. cbn in K. apply String.eqb_eq in K. subst. exists ds. reflexivity.
Qed.
Lemma existsb_negb_nat {A} (f : A -> nat) k l : existsb (fun n => negb (f n =? k)%nat) l = false <-> forall n, In n l -> f n = k.
Proof.
  split.
  - intros H n Hn. destruct (f n =? k)%nat eqn:E; [apply Nat.eqb_eq, E|]. assert (existsb (fun n => negb (f n =? k)%nat) l = true); [|congruence]. apply existsb_exists. exists n. rewrite E. auto.
  - intro H. apply not_true_is_false. intro K. apply existsb_exists in K as (n & Hn & E). rewrite (H n Hn), Nat.eqb_refl in E. discriminate.
Qed.

(** C115: what is accepted: distinct names, each that of exactly one coordinate, one of them at least on a dimension, no other coordinate whose name contains "percentile"; with numpy's method, no masked value and percentiles from 0 to 100. *)
Theorem C115_accepted names asked fast c : (exists out, convert names asked fast c = Ok out) <->
  acceptable names (match asked with Some l => l | None => default_percentiles end) fast c.
Proof.
  unfold convert, acceptable. set (ps := match asked with Some l => l | None => default_percentiles end). cbv zeta.
  set (M := list_sum _). assert (MD : M = list_sum (map (fun n => length (with_name n c)) names)) by apply double_count. clearbody M.
  assert (PC : existsb (fun x => (negb (existsb (String.eqb (fst x)) names) && contains "percentile" (fst x))%bool) (coords c) = false <-> (forall n ds, In (n, ds) (coords c) -> contains "percentile" n = true -> In n names)).
  { split.
    - intros H n ds Hin E. apply smem_in. destruct (existsb (String.eqb n) names) eqn:K; [reflexivity|]. assert (existsb (fun x => (negb (existsb (String.eqb (fst x)) names) && contains "percentile" (fst x))%bool) (coords c) = true); [|congruence].
      apply existsb_exists. exists (n, ds). split; [exact Hin|]. cbn [fst]. rewrite K, E. reflexivity.
    - intro H. apply not_true_is_false. intro K. apply existsb_exists in K as ([n ds] & Hin & E). cbn [fst] in E. apply andb_true_iff in E as [E1 E2]. specialize (H n ds Hin E2). apply smem_in in H. rewrite H in E1. discriminate. }
  assert (PR : existsb (fun p => ((p <? 0) || (100 <? p))%bool) ps = false <-> forall p, In p ps -> 0 <= p <= 100).
  { split.
    - intros H p Hp. destruct ((p <? 0) || (100 <? p))%bool eqn:E; [assert (existsb (fun p => ((p <? 0) || (100 <? p))%bool) ps = true) by (apply existsb_exists; exists p; auto); congruence|].
      apply orb_false_iff in E as [E1 E2]. destruct (Qltb_spec p 0); [discriminate|]. destruct (Qltb_spec 100 p); [discriminate|]. lra.
    - intro H. apply not_true_is_false. intro K. apply existsb_exists in K as (p & Hp & E). specialize (H p Hp). apply orb_true_iff in E as [E|E]; [destruct (Qltb_spec p 0)|destruct (Qltb_spec 100 p)]; try discriminate; lra. }
  pose proof (existsb_negb_nat (fun n => length (with_name n c)) 1 names) as X1.
  pose proof (existsb_negb_nat (fun n => length (filter (String.eqb n) names)) 1 names) as X2. cbv beta in X1, X2.
  pose proof (any_flag names c) as AF. pose proof (masked_iff c) as MI. split.
  - intros [out H].
    destruct (M =? length names)%nat; cbn [negb] in H; [|discriminate].
    destruct (existsb (fun n => negb (length (with_name n c) =? 1)%nat) names) eqn:E1; [discriminate|].
    destruct (existsb (fun b => b) (collapsing names c)) eqn:E2; cbn [negb] in H; [|discriminate].
    destruct (fast && masked c)%bool eqn:E3; [discriminate|].
    destruct (fast && existsb (fun p => ((p <? 0) || (100 <? p))%bool) ps)%bool eqn:E4; [discriminate|].
    destruct (existsb (fun n => negb (length (filter (String.eqb n) names) =? 1)%nat) names) eqn:E5; [discriminate|].
    destruct (existsb (fun x => (negb (existsb (String.eqb (fst x)) names) && contains "percentile" (fst x))%bool) (coords c)) eqn:E6; [discriminate|].
    split; [apply nodup_counts, X2; reflexivity|]. split; [intros n Hn; apply carried_iff, X1; auto|]. split; [apply AF; reflexivity|]. split; [apply PC; reflexivity|].
    intros ->. cbn [andb] in E3, E4. split; [apply MI, E3|apply PR, E4].
  - intros (N & C1 & D & P & F).
    assert (W : forall n, In n names -> length (with_name n c) = 1%nat) by (intros n Hn; apply carried_iff, C1, Hn).
    assert (ML : M = length names).
    { rewrite MD. clear -W. induction names as [|n r IH]; [reflexivity|]. cbn [map list_sum fold_right length]. rewrite (W n (or_introl eq_refl)). change (fold_right Nat.add 0%nat) with list_sum. rewrite IH; [reflexivity|]. intros; apply W; right; assumption. }
    rewrite ML, Nat.eqb_refl. cbn [negb].
    rewrite (proj2 X1 W). rewrite (proj2 AF D). cbn [negb].
    assert (E3 : (fast && masked c)%bool = false) by (destruct fast; [apply MI, (F eq_refl)|reflexivity]). rewrite E3.
    assert (E4 : (fast && existsb (fun p => ((p <? 0) || (100 <? p))%bool) ps)%bool = false) by (destruct fast; [apply PR, (F eq_refl)|reflexivity]). rewrite E4.
    rewrite (proj2 X2); [|intros n Hn; apply once_filter; assumption]. rewrite (proj2 PC P). eauto.
Qed.

Lemma convert_inv names asked fast c out : convert names asked fast c = Ok out ->
  acceptable names (percentiles out) fast c /\ percentiles out = match asked with Some l => l | None => default_percentiles end /\
  left_sizes out = select (map negb (collapsing names c)) (sizes c) /\
  forall p outer, pvals out p outer = let group := map (fun inner => vals c (weave (collapsing names c) outer inner)) (tuples (select (collapsing names c) (sizes c))) in
          if fast then Some (np_percentile (unmasked group) p) else mquantile group p.
Proof.
  intro H. assert (A := proj1 (C115_accepted names asked fast c) (ex_intro _ out H)).
  unfold convert in H. cbv zeta in H.
  repeat match type of H with (if ?b then _ else _) = _ => destruct b; [discriminate|] end.
  apply Ok_inj in H. subst out. cbn [percentiles left_sizes pvals]. auto.
Qed.
Lemma unmasked_map {A} (f : A -> option Q) l : (forall x, In x l -> f x <> None) -> map Some (unmasked (map f l)) = map f l.
Proof. induction l as [|x l IH]; intro H; [reflexivity|]. cbn. pose proof (H x (or_introl eq_refl)). destruct (f x) as [q|]; [|congruence]. cbn. f_equal. apply IH. intros; apply H; right; assumption. Qed.
Lemma unmasked_nil l : unmasked l = [] <-> forall v, In v l -> v = None.
Proof.
  induction l as [|v l IH]; cbn; [split; [intros _ _ []|reflexivity]|]. destruct v as [q|]; cbn.
  - split; [discriminate|]. intro H. specialize (H (Some q) (or_introl eq_refl)). discriminate.
  - rewrite IH. split; [intros H v [<-|K]; [reflexivity|apply H, K]|]. intros H v K. apply H. right. exact K.
Qed.

(** C115: the values. For each percentile and each index of the dimensions left, the result is that percentile of the values, if not masked, of all the cells that agree with the index: every one of them, once. It is masked only if all of them are. *)
Theorem C115_values names asked fast c out p outer : convert names asked fast c = Ok out -> 0 <= p <= 100 -> Forall (fun n => (0 < n)%nat) (sizes c) ->
  in_range (left_sizes out) outer ->
  exists fl cells, length fl = length (sizes c) /\ (forall d, (d < length (sizes c))%nat -> (nth d fl false = true <-> on_dimension names c d)) /\
    NoDup cells /\ (forall idx, In idx cells <-> in_range (sizes c) idx /\ kept_part fl idx = outer) /\ cells <> [] /\
    match pvals out p outer with
    | None => forall idx, In idx cells -> vals c idx = None
    | Some v => exists l, map Some l = filter (fun o => match o with Some _ => true | None => false end) (map (vals c) cells) /\ l <> [] /\ is_percentile l p v
    end.
Proof.
  intros H P SZ RO. apply convert_inv in H as ((N & C1 & D & PN & F) & PE & LS & V). rewrite LS in RO.
  pose proof (weave_spec (collapsing names c) (sizes c) outer (flags_length names c) RO) as [ND CI].
  set (fl := collapsing names c) in *. set (cells := map (weave fl outer) (tuples (select fl (sizes c)))) in *.
  assert (NE : tuples (select fl (sizes c)) <> []).
  { clearbody fl. clear -SZ. assert (S2 : Forall (fun n => (0 < n)%nat) (select fl (sizes c))).
    { generalize fl. clear fl. induction SZ as [|n r Hn SZ IH]; intros [|b fl]; cbn; try constructor. destruct b; [constructor; [exact Hn|apply IH]|apply IH]. }
    induction S2 as [|n r Hn S2 IH]; cbn; [discriminate|]. destruct n; [lia|]. cbn. intro K. apply app_eq_nil in K as [K _]. apply map_eq_nil in K. contradiction. }
  assert (NC : cells <> []) by (unfold cells; intro K; apply map_eq_nil in K; contradiction).
  exists fl, cells. split; [apply flags_length|]. split; [intros d Hd; apply flag_on, Hd|]. split; [exact ND|]. split; [exact CI|]. split; [exact NC|].
  assert (G : map (fun inner => vals c (weave fl outer inner)) (tuples (select fl (sizes c))) = map (vals c) cells) by (unfold cells; rewrite map_map; reflexivity).
  rewrite V. cbv zeta. rewrite G.
  assert (UF : forall l, map Some (unmasked l) = filter (fun o : option Q => match o with Some _ => true | None => false end) l).
  { induction l as [|[q|] l IH]; cbn; [reflexivity|f_equal; exact IH|exact IH]. }
  destruct fast.
  - exists (unmasked (map (vals c) cells)). split; [apply UF|].
    assert (UN : unmasked (map (vals c) cells) <> []).
    { intro K. pose proof (proj1 (unmasked_nil _) K) as U. destruct cells as [|i r]; [congruence|]. specialize (U (vals c i) (or_introl eq_refl)).
      destruct (F eq_refl) as [F1 _]. apply (F1 i); [apply CI; left; reflexivity|exact U]. }
    split; [exact UN|]. apply np_is; assumption.
  - destruct (mquantile (map (vals c) cells) p) as [v|] eqn:E.
    + exists (unmasked (map (vals c) cells)). split; [apply UF|]. split; [|apply mq_is; assumption].
      pose proof (mq_cases (map (vals c) cells) p) as K. intro U. rewrite U in K. congruence.
    + pose proof (mq_cases (map (vals c) cells) p) as K. destruct (unmasked (map (vals c) cells)) eqn:U; [|destruct K; congruence].
      intros idx Hin. apply (proj1 (unmasked_nil _) U). apply in_map, Hin.
Qed.

(** C115: what a percentile is fixes it, whatever the order of the values; it increases with the percentage; it commutes with increasing changes of units; members are at their own percentages; and at least p percent of the n - 1 steps lie on either side. *)
Theorem C115_percentile_unique l l' p v v' : l <> [] -> 0 <= p <= 100 -> Permutation l l' -> is_percentile l p v -> is_percentile l' p v' -> v == v'.
Proof. apply percentile_same. Qed.
Theorem C115_percentile_increasing l p q v w : l <> [] -> 0 <= p -> p <= q -> q <= 100 -> is_percentile l p v -> is_percentile l q w -> v <= w.
Proof. apply percentile_mono. Qed.
Theorem C115_percentile_units l p v w a b : l <> [] -> 0 <= p <= 100 -> 0 <= a -> is_percentile l p v -> is_percentile (map (fun x => a * x + b) l) p w -> w == a * v + b.
Proof.
  intros NE P Ha H K. eapply percentile_same; [|exact P|reflexivity|exact K|apply percentile_affine; assumption]. intro E. apply map_eq_nil in E. contradiction.
Qed.
Theorem C115_percentile_members l s p v i : Permutation l s -> qsorted s -> (i < length l)%nat -> p * (Qn (length l) - 1) == 100 * Qn i -> 0 <= p <= 100 -> is_percentile l p v -> v == nth i s 0.
Proof. apply percentile_member. Qed.
Theorem C115_percentile_shares l p v : l <> [] -> 0 <= p <= 100 -> is_percentile l p v ->
  p / 100 * (Qn (length l) - 1) <= Qn (length (filter (fun x => (x <=? v)%Q) l)) /\ (1 - p / 100) * (Qn (length l) - 1) <= Qn (length (filter (fun x => (v <=? x)%Q) l)).
Proof. apply percentile_shares. Qed.

Definition osame (a b : option Q) : Prop := match a, b with Some x, Some y => x == y | None, None => True | _, _ => False end.
(** C115: both methods give the same values where both are defined. *)
Theorem C115_methods_agree names asked c out out' : convert names asked true c = Ok out -> convert names asked false c = Ok out' -> Forall (fun n => (0 < n)%nat) (sizes c) ->
  percentiles out = percentiles out' /\ left_sizes out = left_sizes out' /\ forall p outer, 0 <= p <= 100 -> in_range (left_sizes out) outer -> osame (pvals out p outer) (pvals out' p outer).
Proof.
  intros H H' SZ. pose proof (convert_inv _ _ _ _ _ H) as ((N & C1 & D & PN & F) & PE & LS & V). pose proof (convert_inv _ _ _ _ _ H') as (_ & PE' & LS' & V').
  split; [congruence|]. split; [congruence|]. intros p outer P R. 
  destruct (C115_values _ _ _ _ _ p outer H P SZ R) as (fl & cells & _ & _ & _ & CI & NC & X).
  rewrite V, V' in *. cbv zeta in *. set (g := map _ (tuples _)) in *. destruct X as (l & _ & _ & X).
  assert (NU : forall o, In o g -> o <> None).
  { intros o Ho. unfold g in Ho. apply in_map_iff in Ho as (inner & <- & Hin). destruct (F eq_refl) as [F1 _]. apply F1.
    rewrite LS in R. destruct (weave_spec (collapsing names c) (sizes c) outer (flags_length names c) R) as [_ CI']. apply CI', in_map, Hin. }
  assert (NG : unmasked g <> []).
  { intro K. pose proof (proj1 (unmasked_nil _) K) as U. destruct g as [|o r] eqn:Eg.
    - unfold g in Eg. apply map_eq_nil in Eg. destruct cells as [|i cr]; [congruence|]. specialize (proj1 (CI i) (or_introl eq_refl)) as [Ri Ki].
      rewrite LS in R. destruct (weave_spec (collapsing names c) (sizes c) outer (flags_length names c) R) as [_ CI']. rewrite Eg in CI'. cbn in CI'.
      assert (SZ' : Forall (fun n => (0 < n)%nat) (select (collapsing names c) (sizes c))).
      { clear -SZ. generalize (collapsing names c) as f. induction SZ as [|n rr Hn SZ IH]; intros [|b f]; cbn; try constructor. destruct b; [constructor; [exact Hn|apply IH]|apply IH]. }
      clear -SZ' Eg. induction SZ' as [|n rr Hn SZ' IH]; cbn in Eg; [discriminate|]. destruct n; [lia|]. cbn in Eg. apply app_eq_nil in Eg as [K _]. apply map_eq_nil in K. contradiction.
    - apply (NU o (or_introl eq_refl)), U. left. reflexivity. }
  pose proof (mq_cases g p) as Mc. destruct (mquantile g p) as [v|] eqn:E; [|destruct (unmasked g); [congruence|destruct Mc; congruence]].
  cbn. eapply percentile_same; [exact NG|exact P|reflexivity|apply np_is; assumption|apply mq_is; assumption].
Qed.

(** C115: the order in which the coordinates are named makes no difference. *)
Theorem C115_order names names' asked fast c out : Permutation names names' -> convert names asked fast c = Ok out ->
  exists out', convert names' asked fast c = Ok out' /\ percentiles out' = percentiles out /\ left_sizes out' = left_sizes out /\ forall p outer, pvals out' p outer = pvals out p outer.
Proof.
  intros PM H. pose proof (convert_inv _ _ _ _ _ H) as ((N & C1 & (d & Hd & D) & PN & F) & PE & LS & V).
  assert (AC : exists out', convert names' asked fast c = Ok out').
  { apply C115_accepted. split; [eapply Permutation_NoDup; eassumption|]. split; [intros n Hn; apply C1; eapply Permutation_in; [symmetry; exact PM|exact Hn]|].
    split; [exists d; split; [exact Hd|]; destruct D as (n & ds & A & B & C); exists n, ds; split; [exact A|]; split; [eapply Permutation_in; [exact PM|exact B]|exact C]|].
    split; [intros n ds A B; eapply Permutation_in; [exact PM|eapply PN; eassumption]|]. rewrite <- PE. exact F. }
  destruct AC as [out' H']. exists out'. split; [exact H'|]. pose proof (convert_inv _ _ _ _ _ H') as (_ & PE' & LS' & V').
  assert (CE : collapsing names' c = collapsing names c).
  { unfold collapsing. apply map_ext. intro k. clear -PM. induction (coords c) as [|x r IH]; [reflexivity|]. cbn [existsb]. f_equal; [|exact IH]. f_equal.
    apply eq_true_iff_eq. rewrite !smem_in. split; apply Permutation_in; [symmetry; exact PM|exact PM]. }
  rewrite CE in *. split; [congruence|]. split; [congruence|]. intros p outer. rewrite V, V'. reflexivity.
Qed.

(** C115: generate-percentiles takes numpy's method exactly when it can: masked data never make it fail. *)
Theorem C115_masks_handled names asked c : generate names asked c <> Err TypeError /\
  ((exists out, convert names asked false c = Ok out) -> (forall p, In p (match asked with Some l => l | None => default_percentiles end) -> 0 <= p <= 100) -> exists out, generate names asked c = Ok out).
Proof.
  split.
  - unfold generate, convert. cbv zeta.
    destruct (negb _); [discriminate|]. destruct (existsb _ names); [discriminate|]. destruct (negb (existsb _ _)); [discriminate|].
    replace (negb (masked c) && masked c)%bool with false by (destruct (masked c); reflexivity).
    destruct (negb (masked c) && _)%bool; [discriminate|]. destruct (existsb _ names); [discriminate|]. destruct (existsb _ (coords c)); discriminate.
  - intros H R. unfold generate. apply C115_accepted in H as (A & B & C & D & _). apply C115_accepted. repeat (split; [assumption|]).
    intro F. split; [apply masked_iff; destruct (masked c); [discriminate|reflexivity]|exact R].
Qed.
(** Outside 0 to 100 the two methods differ: numpy's refuses, scipy's gives the least or greatest value. *)
Theorem C115_out_of_range_refuted : ~ (forall names asked c, (exists out, convert names asked false c = Ok out) -> forall p, In p (match asked with Some l => l | None => default_percentiles end) -> 0 <= p <= 100).
Proof.
  intro H. specialize (H ["realization"%string] (Some [150]) {| sizes := [2%nat]; coords := [("realization"%string, [0%nat])]; vals := fun _ => Some 0 |}). cbn in H.
  assert (K : 0 <= 150 <= 100) by (apply H; [|left; reflexivity]; eexists; reflexivity). lra.
Qed.
Example C115_case :
  let c := {| sizes := [3%nat; 2%nat]; coords := [("realization"%string, [0%nat]); ("latitude"%string, [1%nat])];
    vals := fun i => match i with [r; y] => if ((r =? 1) && (y =? 1))%nat%bool then None else Some (Qn (10 * r * (3 - r) + y)) | _ => None end |} in
  exists out, generate ["realization"%string] (Some [0; 25; 50; 100]) c = Ok out /\
    map (fun p => option_map Qred (pvals out p [0%nat])) [0; 25; 50; 100] = [Some 0; Some 10; Some 20; Some 20] /\
    map (fun p => option_map Qred (pvals out p [1%nat])) [0; 25; 50; 100] = [Some 1; Some 6; Some 11; Some 21].
Proof. eexists. split; [reflexivity|]. split; vm_compute; reflexivity. Qed.

Print Assumptions C115_accepted.
Print Assumptions C115_values.
Print Assumptions C115_percentile_unique.
Print Assumptions C115_percentile_increasing.
Print Assumptions C115_percentile_units.
Print Assumptions C115_percentile_members.
Print Assumptions C115_percentile_shares.
Print Assumptions C115_methods_agree.
Print Assumptions C115_order.
Print Assumptions C115_masks_handled.
Print Assumptions C115_out_of_range_refuted.
