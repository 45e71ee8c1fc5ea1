(** Proofs for C46. *)
From Verif Require Import Base Model_Reference Model_Combine Spec_Combine.
Local Open Scope Q_scope.

Lemma points_eq_iff a : forall b, points_eq a b = true <-> Forall2 Qeq a b.
Proof.
  induction a as [|x a IH]; intros [|y b]; cbn [points_eq].
  - split; constructor.
  - split; [discriminate|intros H; inversion H].
  - split; [discriminate|intros H; inversion H].
  - rewrite andb_true_iff, Qeqb_eq, IH. split; [intros [A B]; constructor; assumption|intros H; inversion H; auto].
Qed.
Lemma coord_eq_iff a b : coord_eq a b = true <-> dname a = dname b /\ Forall2 Qeq (dpoints a) (dpoints b).
Proof. unfold coord_eq. rewrite andb_true_iff, String.eqb_eq, points_eq_iff. reflexivity. Qed.

(** How the dimensions of one more cube relate to those of the first. *)
Definition pairs (dc da : dimcoord) : Prop := dname dc = dname da /\ (size_of dc = size_of da \/ size_of dc = 1%nat).
Definition clamp (sc idx : list nat) : list nat := map (fun p => if (fst p =? 1)%nat then 0%nat else snd p) (combine sc idx).

Lemma Forall2_rev_ {A B} (R : A -> B -> Prop) l m : Forall2 R l m -> Forall2 R (rev l) (rev m).
Proof. induction 1; cbn; [constructor|]. apply Forall2_app; auto. Qed.
Lemma fits_ok sa sb : Forall2 (fun b a => b = a \/ b = 1%nat) sb sa -> fits sa sb = true.
Proof.
  intros H. unfold fits. apply Forall2_rev_ in H. induction H as [|b a lb la R H IH]; [destruct (rev sa); reflexivity|]. cbn [fits_rev]. rewrite IH, andb_true_r. apply orb_true_iff. rewrite !Nat.eqb_eq. exact R.
Qed.
Lemma align_same sc idx : length idx = length sc -> align sc idx = clamp sc idx.
Proof. intros L. unfold align, clamp. rewrite L, Nat.sub_diag. reflexivity. Qed.
Lemma shapes_rel dc da : Forall2 pairs dc da -> Forall2 (fun b a => b = a \/ b = 1%nat) (map size_of dc) (map size_of da).
Proof. induction 1 as [|c a lc la [_ R] H IH]; cbn; constructor; auto. Qed.

Lemma plain_step o acc c : Forall2 pairs (dims c) (dims acc) -> exists r, combine_plain o acc c = Ok r /\ dims r = dims acc /\
  forall idx, length idx = length (dims acc) -> vals r idx = apply_op o (vals acc idx) (vals c (clamp (shape_of c) idx)).
Proof.
  intros H. unfold combine_plain. rewrite fits_ok by (apply shapes_rel, H). eexists. split; [reflexivity|]. split; [reflexivity|]. intros idx L. cbn [vals]. rewrite align_same; [reflexivity|].
  unfold shape_of. rewrite map_length, (Forall2_len _ _ _ H). exact L.
Qed.

Lemma remove_mid {A} (l1 l2 : list A) x : remove_nth (length l1) (l1 ++ x :: l2) = l1 ++ l2.
Proof.
  unfold remove_nth. rewrite firstn_app, firstn_all, Nat.sub_diag. cbn [firstn]. rewrite app_nil_r. f_equal. change (S (length l1)) with (1 + length l1)%nat.
  rewrite skipn_app, skipn_all2 by lia. replace (1 + length l1 - length l1)%nat with 1%nat by lia. reflexivity.
Qed.
Lemma insert_mid {A} (l1 l2 : list A) x : insert_nth (length l1) x (l1 ++ l2) = l1 ++ x :: l2.
Proof. unfold insert_nth. rewrite firstn_app, firstn_all, Nat.sub_diag. cbn [firstn]. rewrite app_nil_r. rewrite skipn_app, skipn_all2, Nat.sub_diag by lia. reflexivity. Qed.
Lemma nth_mid {A} (l1 l2 : list A) x d : nth (length l1) (l1 ++ x :: l2) d = x.
Proof. rewrite app_nth2, Nat.sub_diag by lia. reflexivity. Qed.
Lemma index_of_split name ds i : index_of name ds = Some i -> exists d1 d d2, ds = d1 ++ d :: d2 /\ length d1 = i /\ dname d = name.
Proof.
  revert i. induction ds as [|d ds IH]; intros i H; cbn [index_of] in H; [discriminate|]. destruct (String.eqb_spec (dname d) name) as [E|E].
  - inversion H; subst. exists [], d, ds. auto.
  - destruct (index_of name ds) as [j|]; [|discriminate]. inversion H; subst. destruct (IH j eq_refl) as [d1 [d' [d2 [-> [L N]]]]]. exists (d :: d1), d', d2. cbn. auto.
Qed.
Lemma index_of_names name a : forall b, map dname a = map dname b -> index_of name a = index_of name b.
Proof. induction a as [|x a IH]; intros [|y b] H; cbn in *; try discriminate; [reflexivity|]. inversion H. rewrite (IH b) by assumption. reflexivity. Qed.
Lemma pairs_names dc da : Forall2 pairs dc da -> map dname dc = map dname da.
Proof. induction 1 as [|c a lc la [E _] H IH]; cbn; [reflexivity|]. congruence. Qed.
Lemma combine_app_ {A B} (a1 a2 : list A) (b1 b2 : list B) : length a1 = length b1 -> combine (a1 ++ a2) (b1 ++ b2) = combine a1 b1 ++ combine a2 b2.
Proof. revert b1. induction a1 as [|x a IH]; intros [|y b] L; cbn in *; try lia; [reflexivity|]. rewrite IH by lia. reflexivity. Qed.
Lemma list_split {A} (l : list A) n : (n < length l)%nat -> exists l1 x l2, l = l1 ++ x :: l2 /\ length l1 = n.
Proof.
  revert n. induction l as [|y l IH]; intros n H; cbn in H; [lia|]. destruct n as [|n]; [exists [], y, l; auto|]. destruct (IH n ltac:(lia)) as [l1 [x [l2 [-> L]]]]. exists (y :: l1), x, l2. cbn. auto.
Qed.
Lemma clamp_app s1 s2 i1 i2 : length s1 = length i1 -> clamp (s1 ++ s2) (i1 ++ i2) = clamp s1 i1 ++ clamp s2 i2.
Proof. intros L. unfold clamp. rewrite combine_app_ by exact L. apply map_app. Qed.
Lemma clamp_length s i : length s = length i -> length (clamp s i) = length s.
Proof. intros L. unfold clamp. rewrite map_length, combine_length. lia. Qed.
Lemma app_inv_len {A} (a1 a2 b1 b2 : list A) : length a1 = length b1 -> a1 ++ a2 = b1 ++ b2 -> a1 = b1 /\ a2 = b2.
Proof. revert b1. induction a1 as [|x a IH]; intros [|y b] L E; cbn in *; try lia; [auto|]. inversion E. destruct (IH b); [lia|assumption|]. subst. auto. Qed.
Lemma remove_at {A} n (l1 l2 : list A) x : length l1 = n -> remove_nth n (l1 ++ x :: l2) = l1 ++ l2.
Proof. intros <-. apply remove_mid. Qed.
Lemma insert_at {A} n (l1 l2 : list A) x : length l1 = n -> insert_nth n x (l1 ++ l2) = l1 ++ x :: l2.
Proof. intros <-. apply insert_mid. Qed.
Lemma nth_at {A} n (l1 l2 : list A) x d : length l1 = n -> nth n (l1 ++ x :: l2) d = x.
Proof. intros <-. apply nth_mid. Qed.
Lemma realization_step o ra acc c : index_of "realization" (dims acc) = Some ra -> Forall2 pairs (dims c) (dims acc) -> nth ra (shape_of c) 0%nat = nth ra (shape_of acc) 0%nat ->
  exists r, combine_realizations o ra acc c = Ok r /\ dims r = dims acc /\ forall idx, valid idx acc -> vals r idx = apply_op o (vals acc idx) (vals c (clamp (shape_of c) idx)).
Proof.
  intros R H S. unfold combine_realizations. rewrite (index_of_names _ _ _ (pairs_names _ _ H)), R. destruct (index_of_split _ _ _ R) as [a1 [a [a2 [Ea [La _]]]]].
  assert (HL := Forall2_len _ _ _ H). assert (Hra : (ra < length (dims c))%nat) by (rewrite HL, Ea, app_length; cbn; lia).
  destruct (list_split _ _ Hra) as [c1 [cd [c2 [Ec Lc]]]]. unfold shape_of in *. rewrite Ea, Ec in *. rewrite !map_app in *. cbn [map] in *.
  assert (L1 : length (map size_of a1) = ra) by (rewrite map_length; exact La). assert (L2 : length (map size_of c1) = ra) by (rewrite map_length; exact Lc).
  assert (Sz : size_of cd = size_of a) by (rewrite !nth_at in S by assumption; exact S).
  assert (P : Forall2 pairs (c1 ++ c2) (a1 ++ a2)).
  { apply Forall2_app_inv_l in H. destruct H as [x1 [x2 [F1 [F2 E]]]]. assert (Lx := Forall2_len _ _ _ F1). inversion F2; subst.
    assert (E1 : a1 = x1 /\ a :: a2 = y :: l') by (apply app_inv_len; [lia|exact E]). destruct E1 as [-> E1]. inversion E1; subst. apply Forall2_app; assumption. }
  assert (PL : length c2 = length a2) by (apply Forall2_len in P; rewrite !app_length in P; lia).
  rewrite (remove_at ra (map size_of a1)) by assumption. rewrite (remove_at ra (map size_of c1)) by assumption.
  rewrite fits_ok by (rewrite <- !map_app; apply shapes_rel; exact P). eexists. split; [reflexivity|]. split; [reflexivity|]. intros idx V. cbn [vals]. unfold valid in V. rewrite Ea in V.
  apply Forall2_app_inv_r in V. destruct V as [i1 [i2 [F1 [F2 ->]]]]. inversion F2 as [|k y i2' l' Hk F2' X Y]; subst i2 y l'. assert (Li := Forall2_len _ _ _ F1). assert (Li2 := Forall2_len _ _ _ F2').
  cbv zeta. rewrite !(nth_at ra) by (assumption || lia). replace (k <? size_of cd)%nat with true by (symmetry; apply Nat.ltb_lt; rewrite Sz; exact Hk). f_equal. f_equal.
  rewrite (remove_at ra i1) by lia. rewrite align_same by (rewrite !app_length, !map_length; lia). rewrite !clamp_app by lia.
  rewrite insert_at by (rewrite clamp_length; lia). f_equal. change (clamp (size_of cd :: map size_of c2) (k :: i2')) with ((if (size_of cd =? 1)%nat then 0%nat else k) :: clamp (map size_of c2) i2').
  f_equal. destruct (Nat.eqb_spec (size_of cd) 1) as [Z|Z]; [|reflexivity]. unfold size_of in *. lia.
Qed.

Definition slicing (broadcast : option string) (c0 : cube) : option nat :=
  match index_of "realization" (dims c0) with
  | Some ra => if (match broadcast with Some b => (b =? "realization")%string | None => false end) then None else Some ra
  | None => None end.
Lemma slicing_index b c0 ra : slicing b c0 = Some ra -> index_of "realization" (dims c0) = Some ra.
Proof. unfold slicing. destruct (index_of _ _); [|discriminate]. destruct (match b with Some _ => _ | None => _ end); [discriminate|]. intros [= ->]. reflexivity. Qed.
Definition step (o : operator) (s : option nat) : cube -> cube -> result cube := match s with Some ra => combine_realizations o ra | None => combine_plain o end.
Definition picked (idx : list nat) (c : cube) : option Q := vals c (clamp (shape_of c) idx).
Definition same_members (s : option nat) (c acc : cube) : Prop := match s with Some ra => nth ra (shape_of c) 0%nat = nth ra (shape_of acc) 0%nat | None => True end.
Lemma valid_length idx c : valid idx c -> length idx = length (dims c).
Proof. apply Forall2_len. Qed.
Lemma fold_steps o s rest : forall acc, (forall ra, s = Some ra -> index_of "realization" (dims acc) = Some ra) ->
  Forall (fun c => Forall2 pairs (dims c) (dims acc) /\ same_members s c acc) rest ->
  exists r, foldM (step o s) rest acc = Ok r /\ dims r = dims acc /\ forall idx, valid idx acc -> vals r idx = fold_left (apply_op o) (map (picked idx) rest) (vals acc idx).
Proof.
  induction rest as [|c rest IH]; intros acc R F; cbn [foldM].
  - exists acc. auto.
  - inversion F as [|? ? [P M] F']; subst. assert (St : exists r, step o s acc c = Ok r /\ dims r = dims acc /\ forall idx, valid idx acc -> vals r idx = apply_op o (vals acc idx) (picked idx c)).
    { unfold step. destruct s as [ra|].
      - apply realization_step; [apply R; reflexivity|exact P|exact M].
      - destruct (plain_step o acc c P) as [r [E [D V]]]. exists r. split; [exact E|]. split; [exact D|]. intros idx H. apply V, valid_length, H. }
    destruct St as [r [E [D V]]]. rewrite E. cbn [bind]. destruct (IH r) as [r' [E' [D' V']]].
    + intros ra Hs. rewrite D. apply R, Hs.
    + eapply Forall_impl; [|exact F']. cbn beta. intros c' [P' M']. rewrite D. split; [exact P'|]. unfold same_members, shape_of in *. rewrite D. exact M'.
    + exists r'. split; [exact E'|]. split; [congruence|]. intros idx H. cbn [map fold_left]. rewrite <- (V idx H). apply V'. unfold valid in *. rewrite D. exact H.
Qed.

Lemma fold_none f l : fold_left (apply_op (Lift f)) l None = None.
Proof. induction l as [|[x|] l IH]; cbn; auto. Qed.
Lemma fold_lift f l x : fold_left (apply_op (Lift f)) l (Some x) = option_map (fun r => fold_left f r x) (all_present l).
Proof.
  revert x. induction l as [|[y|] l IH]; intros x; cbn [fold_left apply_op all_present]; [reflexivity| |apply fold_none]. rewrite IH. destruct (all_present l); reflexivity.
Qed.
Lemma fold_plus r : forall x, fold_left Qplus r x == x + qsum r.
Proof. induction r as [|y r IH]; intros x; cbn [fold_left qsum]; [lra|]. rewrite IH. lra. Qed.
Lemma fold_minus r : forall x, fold_left Qminus r x == x - qsum r.
Proof. induction r as [|y r IH]; intros x; cbn [fold_left qsum]; [lra|]. rewrite IH. lra. Qed.
Lemma fold_mult r : forall x, fold_left Qmult r x == x * product r.
Proof. induction r as [|y r IH]; intros x; unfold product in *; cbn [fold_left fold_right]; [ring|]. rewrite IH. ring. Qed.
Lemma fold_max r : forall x, fold_left Qmax r x = qmaxl x r.
Proof. induction r as [|y r IH]; intros x; cbn; auto. Qed.
Lemma fold_min r : forall x, fold_left Qmin r x = qminl x r.
Proof. induction r as [|y r IH]; intros x; cbn; auto. Qed.
Lemma fold_masked l : forall a, same_value (fold_left masked_add l a) (match present (a :: l) with [] => None | ps => Some (qsum ps) end).
Proof.
  induction l as [|b l IH]; intros a; cbn [fold_left].
  - destruct a; cbn [present flat_map app same_value qsum]; [lra|exact I].
  - specialize (IH (masked_add a b)). destruct a as [x|], b as [y|]; cbn [masked_add present flat_map app] in *.
    + destruct (fold_left masked_add l (Some (x + y))) as [v|]; [|contradiction]. cbn [same_value qsum] in *. rewrite IH. lra.
    + destruct (fold_left masked_add l (Some (x + 0))) as [v|]; [|contradiction]. cbn [same_value qsum] in *. rewrite IH. lra.
    + destruct (fold_left masked_add l (Some (0 + y))) as [v|]; [|contradiction]. cbn [same_value qsum] in *. rewrite IH. lra.
    + exact IH.
Qed.

(** The data of the combination, given the shapes agree. *)
Definition final (op : string) (n : Q) (v : option Q) : option Q := if (op =? "mean")%string then option_map (fun x => x / n) v else v.
Lemma all_present_length l ps : all_present l = Some ps -> length ps = length l.
Proof.
  revert ps. induction l as [|[x|] l IH]; intros ps H; cbn in H; [inversion H; reflexivity| |discriminate]. destruct (all_present l) as [q|]; [|discriminate]. inversion H. cbn. rewrite (IH q eq_refl). reflexivity.
Qed.
Lemma combination_ok op o v0 l : operator_of op = Ok o -> same_value (final op (Qlen (v0 :: l)) (fold_left (apply_op o) l v0)) (combination op (v0 :: l)).
Proof.
  intros H. unfold combination, final. unfold operator_of in H.
  assert (K : forall f, fold_left (apply_op (Lift f)) l v0 = match all_present (v0 :: l) with Some (x :: r) => Some (fold_left f r x) | _ => None end).
  { intros f. destruct v0 as [x|]; [|rewrite fold_none; reflexivity]. rewrite fold_lift. cbn [all_present]. destruct (all_present l); reflexivity. }
  assert (LN : forall ps, all_present (v0 :: l) = Some ps -> Qlen ps = Qlen (v0 :: l)) by (intros ps E; unfold Qlen; rewrite (all_present_length _ _ E); reflexivity).
  cbn [existsb] in *. rewrite ?orb_false_r in *.
  destruct (String.eqb_spec op "+") as [-> |N1]; [cbn [orb] in H; inversion H; subst; cbn [String.eqb Ascii.eqb Bool.eqb orb]; rewrite K; destruct (all_present (v0 :: l)) as [[|x r]|]; try exact I; cbn [same_value]; apply fold_plus|].
  destruct (String.eqb_spec op "add") as [-> |N2]; [cbn [orb] in H; inversion H; subst; cbn [String.eqb Ascii.eqb Bool.eqb orb]; rewrite K; destruct (all_present (v0 :: l)) as [[|x r]|]; try exact I; cbn [same_value]; apply fold_plus|].
  destruct (String.eqb_spec op "mean") as [-> |N3].
  { cbn [orb] in H; inversion H; subst. cbn [String.eqb Ascii.eqb Bool.eqb orb]. rewrite K. destruct (all_present (v0 :: l)) as [[|x r]|] eqn:E; try exact I. cbn [same_value option_map]. rewrite (LN _ eq_refl), fold_plus. reflexivity. }
  cbn [orb] in *. destruct (String.eqb_spec op "-") as [-> |N4]; [cbn [orb] in H; inversion H; subst; cbn [String.eqb Ascii.eqb Bool.eqb orb]; rewrite K; destruct (all_present (v0 :: l)) as [[|x r]|]; try exact I; cbn [same_value]; apply fold_minus|].
  destruct (String.eqb_spec op "subtract") as [-> |N5]; [cbn [orb] in H; inversion H; subst; cbn [String.eqb Ascii.eqb Bool.eqb orb]; rewrite K; destruct (all_present (v0 :: l)) as [[|x r]|]; try exact I; cbn [same_value]; apply fold_minus|].
  cbn [orb] in *. destruct (String.eqb_spec op "*") as [-> |N6]; [cbn [orb] in H; inversion H; subst; cbn [String.eqb Ascii.eqb Bool.eqb orb]; rewrite K; destruct (all_present (v0 :: l)) as [[|x r]|]; try exact I; cbn [same_value]; apply fold_mult|].
  destruct (String.eqb_spec op "multiply") as [-> |N7]; [cbn [orb] in H; inversion H; subst; cbn [String.eqb Ascii.eqb Bool.eqb orb]; rewrite K; destruct (all_present (v0 :: l)) as [[|x r]|]; try exact I; cbn [same_value]; apply fold_mult|].
  cbn [orb] in *. destruct (String.eqb_spec op "max") as [-> |N8]; [inversion H; subst; cbn [String.eqb Ascii.eqb Bool.eqb orb]; rewrite K; destruct (all_present (v0 :: l)) as [[|x r]|]; try exact I; cbn [same_value]; rewrite fold_max; reflexivity|].
  destruct (String.eqb_spec op "min") as [-> |N9]; [inversion H; subst; cbn [String.eqb Ascii.eqb Bool.eqb orb]; rewrite K; destruct (all_present (v0 :: l)) as [[|x r]|]; try exact I; cbn [same_value]; rewrite fold_min; reflexivity|].
  destruct (String.eqb_spec op "masked_add") as [-> |N10]; [|discriminate]. inversion H; subst. change (apply_op MaskedAdd) with masked_add. apply fold_masked.
Qed.

Lemma combine_data_ok op o b c0 rest : operator_of op = Ok o -> Forall (fun c => Forall2 pairs (dims c) (dims c0) /\ same_members (slicing b c0) c c0) rest ->
  exists r, combine_data op b (c0 :: rest) = Ok r /\ dims r = dims c0 /\ forall idx, valid idx c0 -> same_value (vals r idx) (combination op (vals c0 idx :: map (picked idx) rest)).
Proof.
  intros O F. unfold combine_data. rewrite O. cbn [bind]. fold (slicing b c0). change (match slicing b c0 with Some ra => combine_realizations o ra | None => combine_plain o end) with (step o (slicing b c0)).
  destruct (fold_steps o (slicing b c0) rest c0 (slicing_index b c0) F) as [r [E [D V]]]. rewrite E. cbn [bind]. eexists. split; [reflexivity|]. destruct (op =? "mean")%string eqn:M.
  - split; [exact D|]. intros idx H. cbn [vals]. rewrite (V idx H). assert (X := combination_ok op o (vals c0 idx) (map (picked idx) rest) O). unfold final in X. rewrite M in X.
    replace (Qlen (c0 :: rest)) with (Qlen (vals c0 idx :: map (picked idx) rest)) by (unfold Qlen; cbn [length]; rewrite map_length; reflexivity). exact X.
  - split; [exact D|]. intros idx H. rewrite (V idx H). assert (X := combination_ok op o (vals c0 idx) (map (picked idx) rest) O). unfold final in X. rewrite M in X. exact X.
Qed.

Definition alike (d d' : dimcoord) : Prop := dname d = dname d' /\ Forall2 Qeq (dpoints d) (dpoints d').
Lemma alike_pairs dc da : Forall2 alike dc da -> Forall2 pairs dc da.
Proof. induction 1 as [|c a lc la [E P] H IH]; constructor; auto. split; [exact E|]. left. apply (Forall2_len _ _ _ P). Qed.
Lemma alike_sizes dc da : Forall2 alike dc da -> map size_of dc = map size_of da.
Proof. induction 1 as [|c a lc la [E P] H IH]; cbn; [reflexivity|]. rewrite IH. f_equal. apply (Forall2_len _ _ _ P). Qed.
Lemma clamp_valid ds idx : Forall2 (fun i d => (i < length (dpoints d))%nat) idx ds -> clamp (map size_of ds) idx = idx.
Proof.
  induction 1 as [|i d li ld H F IH]; [reflexivity|]. unfold clamp in *. cbn [map combine fst snd]. rewrite IH. f_equal. destruct (Nat.eqb_spec (size_of d) 1) as [E|]; [|reflexivity]. unfold size_of in E. lia.
Qed.
Lemma alike_match cmp dc da : (forall a b, alike a b -> cmp a b = true) -> Forall2 alike dc da -> forallb (fun p => cmp (fst p) (snd p)) (combine dc da) = true.
Proof. intros C. induction 1 as [|c a lc la E H IH]; cbn; [reflexivity|]. rewrite IH, (C _ _ E). reflexivity. Qed.
Lemma comparator_alike b a a' : alike a a' -> comparator b a a' = true.
Proof. intros H. apply coord_eq_iff in H. unfold comparator. rewrite H. destruct b; reflexivity. Qed.
Lemma same_grid_picked c c0 idx : same_grid c c0 -> valid idx c0 -> picked idx c = vals c idx.
Proof. intros G V. unfold picked, shape_of. rewrite (alike_sizes _ _ G). f_equal. apply clamp_valid. exact V. Qed.
Lemma same_grid_ok b c c0 : same_grid c c0 -> Forall2 pairs (dims c) (dims c0) /\ same_members (slicing b c0) c c0.
Proof. intros G. split; [apply alike_pairs, G|]. unfold same_members, shape_of. rewrite (alike_sizes _ _ G). destruct (slicing b c0); auto. Qed.
Lemma match_same_grid c c0 : length (dims c) = length (dims c0) -> dims_match coord_eq c c0 = true -> same_grid c c0.
Proof.
  unfold dims_match, same_grid. generalize (dims c0). induction (dims c) as [|d l IH]; intros [|a m] L H; cbn [length] in L; try lia; [constructor|].
  cbn [combine forallb fst snd] in H. apply andb_true_iff in H. destruct H as [A B]. constructor; [apply coord_eq_iff, A|apply IH; [lia|exact B]].
Qed.

Lemma filter_name l d : NoDup (map dname l) -> In d l -> filter (fun x => (dname x =? dname d)%string) l = [d].
Proof.
  induction l as [|x l IH]; intros N I; [contradiction|]. cbn [map] in N. inversion N as [|? ? N1 N2]; subst. cbn [filter]. destruct I as [-> |I].
  - rewrite String.eqb_refl. f_equal. clear IH N N2. induction l as [|y l IH]; [reflexivity|]. cbn [map] in N1. cbn [filter]. destruct (String.eqb_spec (dname y) (dname d)) as [E|E].
    + exfalso. apply N1. left. exact E.
    + apply IH. intros X. apply N1. right. exact X.
  - destruct (String.eqb_spec (dname x) (dname d)) as [E|E]; [|apply IH; assumption]. exfalso. apply N1. rewrite E. apply in_map. exact I.
Qed.
Lemma flat_names l l' : NoDup (map dname l) -> incl l' l -> flat_map (fun n => filter (fun x => (dname x =? n)%string) l) (map dname l') = l'.
Proof.
  intros N. induction l' as [|d l' IH]; intros I; [reflexivity|]. cbn [map flat_map]. rewrite filter_name by (assumption || (apply I; left; reflexivity)). cbn [app]. f_equal. apply IH. intros x Hx. apply I. right. exact Hx.
Qed.
Lemma index_of_at p s t : NoDup (map dname (p ++ s :: t)) -> index_of (dname s) (p ++ s :: t) = Some (length p).
Proof.
  induction p as [|x p IH]; intros N; cbn [app index_of].
  - rewrite String.eqb_refl. reflexivity.
  - cbn [app map] in N. inversion N as [|? ? N1 N2]; subst. destruct (String.eqb_spec (dname x) (dname s)) as [E|E]; [|rewrite IH by exact N2; reflexivity].
    exfalso. apply N1. rewrite E, map_app. apply in_or_app. right. left. reflexivity.
Qed.
Definition look (new : list dimcoord) (idx : list nat) (d : dimcoord) : nat := match index_of (dname d) new with Some i => nth i idx 0%nat | None => 0%nat end.
Lemma look_segment s : forall p t ip is_ it, NoDup (map dname (p ++ s ++ t)) -> length ip = length p -> length is_ = length s -> map (look (p ++ s ++ t) (ip ++ is_ ++ it)) s = is_.
Proof.
  induction s as [|d s IH]; intros p t ip is_ it N Lp Ls; destruct is_ as [|k is_]; cbn [length] in Ls; try lia; [reflexivity|]. cbn [map]. f_equal.
  - unfold look. cbn [app]. rewrite index_of_at by exact N. apply nth_at. exact Lp.
  - replace (p ++ (d :: s) ++ t) with ((p ++ [d]) ++ s ++ t) in * by (rewrite <- app_assoc; reflexivity). replace (ip ++ (k :: is_) ++ it) with ((ip ++ [k]) ++ is_ ++ it) by (rewrite <- app_assoc; reflexivity).
    apply IH; [exact N|rewrite !app_length; cbn; lia|lia].
Qed.
Lemma alike_names dc da : Forall2 alike dc da -> map dname dc = map dname da.
Proof. intros H. apply pairs_names, alike_pairs, H. Qed.
Lemma not_in_nil {A} (l : list A) : (forall x, ~ In x l) -> l = [].
Proof. destruct l as [|x l]; intros H; [reflexivity|]. exfalso. apply (H x). left. reflexivity. Qed.
Lemma perm_names (d : dimcoord) d1 d2 : Permutation (map dname (d :: d1 ++ d2)) (map dname (d1 ++ d :: d2)).
Proof. apply Permutation_map. apply Permutation_middle. Qed.

(** Broadcasting one cube. *)
Lemma broadcast_one name pos c c0 : index_of name (dims c0) = Some pos -> NoDup (map dname (dims c0)) -> lacks name pos c c0 ->
  let c' := reorder (map dname (dims c0)) (add_axis name c) in
  Forall2 pairs (dims c') (dims c0) /\ dims_match (comparator (Some name)) c' c0 = true /\
  (forall ra, ra <> pos -> nth ra (shape_of c') 0%nat = nth ra (shape_of c0) 0%nat) /\
  forall idx, valid idx c0 -> picked idx c' = vals c (without pos idx).
Proof.
  intros Ix N [Lk [_ F]]. destruct (index_of_split _ _ _ Ix) as [D1 [B [D2 [E [L Bn]]]]]. fold (remove_nth pos (dims c0)) in F. rewrite E in F. rewrite (remove_at pos) in F by exact L.
  apply Forall2_app_inv_r in F. destruct F as [C1 [C2 [F1 [F2 Ec]]]]. assert (N1 := alike_names _ _ F1). assert (N2 := alike_names _ _ F2). assert (L1 := Forall2_len _ _ _ F1). assert (L2 := Forall2_len _ _ _ F2).
  set (B1 := {| dname := name; dpoints := [0] |}). assert (Names : map dname (dims c0) = map dname (C1 ++ B1 :: C2)) by (rewrite E, !map_app; cbn [map]; rewrite N1, N2, Bn; reflexivity).
  assert (ND : NoDup (map dname (C1 ++ B1 :: C2))) by (rewrite <- Names; exact N).
  assert (ND' : NoDup (map dname (B1 :: C1 ++ C2))) by (eapply Permutation_NoDup; [apply Permutation_sym, perm_names|exact ND]).
  cbv zeta. assert (Dims : dims (reorder (map dname (dims c0)) (add_axis name c)) = C1 ++ B1 :: C2 /\
    forall idx, vals (reorder (map dname (dims c0)) (add_axis name c)) idx = vals c (map (look (C1 ++ B1 :: C2) idx) (C1 ++ C2))).
  { unfold reorder, add_axis. cbn [dims vals]. rewrite Ec. fold B1. rewrite Names. rewrite flat_names; [|exact ND'|intros x Hx; apply in_app_iff in Hx; destruct Hx as [Hx|[<- |Hx]]; [right; apply in_or_app; auto|left; reflexivity|right; apply in_or_app; auto]].
    assert (Oth : filter (fun d => negb (existsb (String.eqb (dname d)) (map dname (C1 ++ B1 :: C2)))) (B1 :: C1 ++ C2) = []).
    { apply not_in_nil. intros x Hx. apply filter_In in Hx. destruct Hx as [Hx Ne]. apply negb_true_iff in Ne. rewrite <- not_true_iff_false in Ne. apply Ne. apply existsb_exists. exists (dname x). split; [|apply String.eqb_refl].
      apply in_map. apply Permutation_in with (2 := Hx). apply Permutation_middle. }
    rewrite Oth, app_nil_r. split; [reflexivity|]. intros idx. cbn [map tl]. reflexivity. }
  set (c' := reorder _ _) in *. clearbody c'. destruct Dims as [Dd Dv].
  assert (P1 : Forall2 pairs (C1 ++ B1 :: C2) (D1 ++ B :: D2)).
  { apply Forall2_app; [apply alike_pairs, F1|]. constructor; [|apply alike_pairs, F2]. split; [symmetry; exact Bn|]. right. reflexivity. }
  split; [rewrite Dd, E; exact P1|]. split.
  { unfold dims_match. rewrite Dd, E. rewrite combine_app_ by exact L1. rewrite forallb_app. cbn [combine forallb fst snd].
    rewrite (alike_match (comparator (Some name)) C1 D1 (comparator_alike _) F1), (alike_match (comparator (Some name)) C2 D2 (comparator_alike _) F2).
    unfold comparator, broadcastable. cbn [dname size_of]. change (dname B1) with name. rewrite Bn, String.eqb_refl. cbn. rewrite ?orb_true_r. reflexivity. }
  split.
  { intros ra Hra. unfold shape_of. rewrite Dd, E, !map_app. cbn [map]. rewrite (alike_sizes _ _ F1), (alike_sizes _ _ F2). destruct (lt_eq_lt_dec ra pos) as [[X|X]|X]; [|contradiction|].
    - rewrite !app_nth1 by (rewrite map_length; lia). reflexivity.
    - rewrite !app_nth2 by (rewrite map_length; lia). rewrite map_length, L. destruct (ra - pos)%nat as [|m] eqn:Em; [lia|]. reflexivity. }
  intros idx V. unfold picked. rewrite Dv. unfold valid in V. rewrite E in V. apply Forall2_app_inv_r in V. destruct V as [i1 [i2 [V1 [V2 ->]]]]. inversion V2 as [|k y i2' l' Hk V2' X Y]; subst i2 y l'.
  assert (Li1 := Forall2_len _ _ _ V1). assert (Li2 := Forall2_len _ _ _ V2').
  unfold shape_of. rewrite Dd, (map_app size_of C1). cbn [map]. rewrite clamp_app by (rewrite map_length; lia).
  rewrite (alike_sizes _ _ F1), (alike_sizes _ _ F2). rewrite (clamp_valid _ _ V1).
  change (clamp (size_of B1 :: map size_of D2) (k :: i2')) with (0%nat :: clamp (map size_of D2) i2'). rewrite (clamp_valid _ _ V2').
  f_equal. unfold without. fold (remove_nth pos (i1 ++ k :: i2')). rewrite (remove_at pos i1) by lia. rewrite map_app. f_equal.
  - exact (look_segment C1 [] (B1 :: C2) [] i1 (0%nat :: i2') ND eq_refl ltac:(lia)).
  - replace (C1 ++ B1 :: C2) with ((C1 ++ [B1]) ++ C2 ++ []) in * by (rewrite app_nil_r, <- app_assoc; reflexivity).
    replace (i1 ++ 0%nat :: i2') with ((i1 ++ [0%nat]) ++ i2' ++ []) by (rewrite app_nil_r, <- app_assoc; reflexivity). apply look_segment; [exact ND|rewrite !app_length; cbn; lia|lia].
Qed.
