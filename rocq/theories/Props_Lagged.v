(** C96: time-lagged ensembles, labels of periods and integrals over time. *)
From Verif Require Import Base Proofs_Temporal Model_Manip Model_Attributes Model_Times Props_Times Props_Merge Model_Standardise Props_Standardise Model_Lagged.
From Coq Require Import Permutation Sorted.
Local Open Scope Q_scope.

Lemma put_perm {A} (e : Z * A) l : Permutation (put e l) (e :: l).
Proof. induction l as [|f l IH]; [reflexivity|]. cbn [put]. destruct (fst e <=? fst f)%Z; [reflexivity|]. rewrite IH. apply perm_swap. Qed.
Lemma merge_perm {A} (l : list (Z * A)) : Permutation (merge l) l.
Proof. unfold merge. induction l as [|e l IH]; [reflexivity|]. cbn [fold_right]. rewrite put_perm, IH. reflexivity. Qed.
Lemma put_sorted {A} (e : Z * A) l : StronglySorted Z.le (map fst l) -> StronglySorted Z.le (map fst (put e l)).
Proof.
  induction l as [|f l IH]; intro H; [repeat constructor|]. cbn [put]. inversion H as [|? ? H1 H2]; subst. destruct (Z.leb_spec (fst e) (fst f)); cbn [map].
  - constructor; [exact H|]. constructor; [assumption|]. rewrite Forall_forall in *. intros x X. specialize (H2 x X). lia.
  - constructor; [exact (IH H1)|]. rewrite Forall_forall in *. intros x X. apply (Permutation_in (l := map fst (put e l)) (l' := map fst (e :: l))) in X; [|apply Permutation_map, put_perm]. destruct X as [<-|X]; [lia|exact (H2 x X)].
Qed.
Lemma merge_sorted {A} (l : list (Z * A)) : StronglySorted Z.le (map fst (merge l)).
Proof. unfold merge. induction l as [|e l IH]; [constructor|]. cbn [fold_right]. apply put_sorted. exact IH. Qed.
Lemma strict l : StronglySorted Z.le l -> NoDup l -> StronglySorted Z.lt l.
Proof. induction 1 as [|x l H IH F]; intro N; [constructor|]. inversion N as [|? ? N1 N2]; subst. constructor; [exact (IH N2)|]. rewrite Forall_forall in *. intros y Y. specialize (F y Y). assert (x <> y) by congruence. lia. Qed.
Lemma number_spec {A} (l : list (Z * A)) : forall k, map snd (number k l) = map snd l /\ map fst (number k l) = map (fun i => k + Z.of_nat i)%Z (seq 0 (length l)).
Proof.
  induction l as [|e l IH]; intro k; [split; reflexivity|]. destruct (IH (k + 1)%Z) as [E1 E2]. cbn [number map length seq]. split; [cbn [snd]; f_equal; exact E1|]. cbn [fst]. f_equal; [lia|]. rewrite E2, <- seq_shift, map_map. apply map_ext. intro i. lia.
Qed.
Lemma renumber_spec {A} (cubes : list (list (Z * A))) : forall k, map snd (concat (renumber k cubes)) = map snd (concat cubes) /\ map fst (concat (renumber k cubes)) = map (fun i => k + Z.of_nat i)%Z (seq 0 (length (concat cubes))) /\ length (renumber k cubes) = length cubes.
Proof.
  induction cubes as [|c r IH]; intro k; [repeat split|]. destruct (IH (k + Z.of_nat (length c))%Z) as (E1 & E2 & E3). destruct (number_spec c k) as [N1 N2]. cbn [renumber concat length]. rewrite !map_app, N1, N2, E1, E2, E3. split; [reflexivity|]. split; [|reflexivity]. rewrite app_length, seq_app, map_app. f_equal. cbn [Nat.add].
  replace (seq (length c) (length (concat r))) with (map (fun i => (length c + i)%nat) (seq 0 (length (concat r)))).
  - rewrite map_map. apply map_ext. intro i. lia.
  - clear. generalize (length (concat r)) as n. intro n. generalize (length c) as m. induction n as [|n IHn]; intro m; [reflexivity|]. cbn [seq map]. f_equal; [lia|]. rewrite <- (IHn (S m)), <- (seq_shift n 0), map_map. apply map_ext. intro. lia.
Qed.
Lemma sorted_unique {A} : forall a b : list (Z * A), Permutation a b -> StronglySorted Z.lt (map fst a) -> StronglySorted Z.lt (map fst b) -> a = b.
Proof.
  induction a as [|x a IH]; intros b P Sa Sb; [apply Permutation_nil in P; subst; reflexivity|]. destruct b as [|y b]; [symmetry in P; apply Permutation_nil in P; discriminate|]. cbn [map] in Sa, Sb. inversion Sa as [|? ? Sa' Fa]; subst. inversion Sb as [|? ? Sb' Fb]; subst. rewrite Forall_forall in Fa, Fb.
  assert (x = y). { assert (X : In x (y :: b)) by (apply (Permutation_in (l := x :: a) _ P); left; reflexivity). assert (Y : In y (x :: a)) by (apply (Permutation_in (l := y :: b) _ (Permutation_sym P)); left; reflexivity). destruct X as [->|X]; [reflexivity|]. destruct Y as [->|Y]; [reflexivity|]. pose proof (Fa _ (in_map fst _ _ Y)). pose proof (Fb _ (in_map fst _ _ X)). lia. }
  subst y. f_equal. apply IH; [apply Permutation_cons_inv with (a := x); exact P|exact Sa'|exact Sb'].
Qed.
Lemma seq_lt n : StronglySorted Z.lt (map (fun i => 0 + Z.of_nat i)%Z (seq 0 n)).
Proof. generalize 0%nat as k. induction n as [|n IH]; intro k; [constructor|]. cbn [seq map]. constructor; [apply IH|]. apply Forall_forall. intros x X. apply in_map_iff in X as (i & <- & I0). apply in_seq in I0. lia. Qed.
(** C96: the lagged ensemble of two or more cubes has every member of every cube, in the order of its realization numbers, which all differ. If no number is used twice all members keep theirs, otherwise they are numbered from 0 in the order of the cubes. *)
Theorem C96_lagged {A} (cubes : list (list (Z * A))) : (2 <= length cubes)%nat -> exists out, lagged cubes = Ok out /\ StronglySorted Z.lt (map fst out) /\ Permutation (map snd out) (map snd (concat cubes)) /\
  (NoDup (map fst (concat cubes)) -> Permutation out (concat cubes)) /\
  (~ NoDup (map fst (concat cubes)) -> map snd out = map snd (concat cubes) /\ map fst out = map Z.of_nat (seq 0 (length (concat cubes)))).
Proof.
  intro L. unfold lagged. destruct (once (map fst (concat cubes))) eqn:O.
  - apply once_iff in O. destruct cubes as [|a [|b r]]; [cbn in L; lia|cbn in L; lia|]. set (l := concat (a :: b :: r)) in *. exists (merge l). split; [reflexivity|]. split; [apply strict; [apply merge_sorted|]; apply (Permutation_NoDup (l := map fst l)); [apply Permutation_map, Permutation_sym, merge_perm|exact O]|]. split; [apply Permutation_map, merge_perm|]. split; [intros _; apply merge_perm|]. intro N. contradiction.
  - assert (N : ~ NoDup (map fst (concat cubes))) by (rewrite <- once_iff, O; discriminate). destruct (renumber_spec cubes 0%Z) as (E1 & E2 & E3). assert (Q : merge (concat (renumber 0 cubes)) = concat (renumber 0 cubes)).
    { apply sorted_unique; [apply merge_perm| |rewrite E2; apply seq_lt]. apply strict; [apply merge_sorted|]. apply (Permutation_NoDup (l := map fst (concat (renumber 0 cubes)))); [apply Permutation_map, Permutation_sym, merge_perm|]. rewrite E2. clear. pose proof (seq_lt (length (concat cubes))) as S. induction S as [|x l S IH F]; constructor; [|exact IH]. intro X. rewrite Forall_forall in F. specialize (F x X). lia. }
    exists (concat (renumber 0 cubes)). split; [|].
    + rewrite <- E3 in L. destruct (renumber 0 cubes) as [|a [|b r]]; [cbn in L; lia|cbn in L; lia|]. rewrite Q. reflexivity.
    + split; [rewrite E2; apply seq_lt|]. split; [rewrite E1; reflexivity|]. split; [contradiction|]. intros _. split; [exact E1|]. rewrite E2. apply map_ext. intro i. lia.
Qed.
Theorem C96_single {A} (c : list (Z * A)) : NoDup (map fst c) -> lagged [c] = Ok c.
Proof. intro N. unfold lagged. cbn [concat]. rewrite app_nil_r. apply once_iff in N. rewrite N. reflexivity. Qed.
(** C96: the period of a single time: the bounds are the given number of hours up to the point, for the time and the forecast period, whatever they were before; points stay. *)
Definition whole_period (h : Z) (x y : coord) : Prop := exists p, co_points x = [p] /\ co_points y = [p] /\ co_name y = co_name x /\ co_units y = co_units x /\ exists lo, co_bounds y = Some [(lo, p)] /\ p - lo == inject_Z h * 3600.
Theorem C96_period period fp t : (forall f' t', relabel_to_period period fp t = Ok (f', t') -> exists h, period = Some h /\ (1 <= h)%Z /\ whole_period h fp f' /\ whole_period h t t') /\
  ((exists out, relabel_to_period period fp t = Ok out) <-> exists h, period = Some h /\ (1 <= h)%Z /\ length (co_points fp) = 1%nat /\ length (co_points t) = 1%nat) /\ (forall e, relabel_to_period period fp t = Err e -> e = ValueError).
Proof.
  assert (One : forall h x y, relabel_one h x = Ok y -> whole_period h x y). { intros h x y H. unfold relabel_one in H. destruct (co_points x) as [|p [|]] eqn:P; try discriminate. apply Ok_inj in H. subst y. exists p. cbn [with_bounds co_points co_name co_units co_bounds]. rewrite P. repeat (split; [reflexivity|]). eexists. split; [reflexivity|]. ring. }
  assert (One' : forall h x, length (co_points x) = 1%nat -> exists y, relabel_one h x = Ok y). { intros h x H. unfold relabel_one. destruct (co_points x) as [|p [|]]; try discriminate. eauto. }
  unfold relabel_to_period. destruct period as [h|]; [|split; [discriminate|split; [split; [intros (? & H); discriminate|intros (? & H & _); discriminate]|congruence]]].
  destruct (Z.ltb_spec h 1) as [L|L]; [split; [discriminate|split; [split; [intros (? & H); discriminate|intros (k & H & K & _); injection H as <-; lia]|congruence]]|].
  split; [|split].
  - intros f' t' H. destruct (relabel_one h fp) as [f|] eqn:F; [|discriminate]. cbn [bind] in H. destruct (relabel_one h t) as [t1|] eqn:T; [|discriminate]. cbn [bind] in H. apply Ok_inj in H. injection H as <- <-. exists h. auto.
  - split.
    + intros (out & H). exists h. split; [reflexivity|]. split; [exact L|]. destruct (relabel_one h fp) as [f|] eqn:F; [|discriminate]. cbn [bind] in H. destruct (relabel_one h t) as [t1|] eqn:T; [|discriminate]. destruct (One _ _ _ F) as (p & E & _). destruct (One _ _ _ T) as (q & E' & _). rewrite E, E'. split; reflexivity.
    + intros (k & E & _ & A & B). injection E as <-. destruct (One' h fp A) as (f & ->). cbn [bind]. destruct (One' h t B) as (t1 & ->). cbn [bind]. eauto.
  - intros e H. unfold relabel_one in H. destruct (co_points fp) as [|p [|p2 pr]], (co_points t) as [|q [|q2 qr]]; cbn [bind] in H; congruence.
Qed.
(** C96: the units are not looked at: for a time in hours the bounds are 3600 times too far apart. *)
Theorem C96_period_units_refuted : exists fp t f' t' u lo hi, relabel_to_period (Some 1%Z) fp t = Ok (f', t') /\ co_units t' = Some u /\ co_bounds t' = Some [(lo, hi)] /\ ~ (hi - lo) * un_seconds u == 3600.
Proof.
  exists (timed "forecast_period" [6] {| un_seconds := 3600; un_epoch := None |} Float64), (timed "time" [6] {| un_seconds := 3600; un_epoch := Some 0 |} Float64). do 5 eexists. split; [vm_compute; reflexivity|]. split; [reflexivity|]. split; [reflexivity|]. vm_compute. discriminate.
Qed.
(** C96: integrated over time: all slices have bounds; in the result the times are in order and every value is the rate times the seconds between the bounds; the cell methods are a sum over time and those without time. *)
Lemma put_time_perm e l : Permutation (put_time e l) (e :: l).
Proof. induction l as [|f l IH]; [reflexivity|]. cbn [put_time]. destruct (it_time e <=? it_time f); [reflexivity|]. rewrite IH. apply perm_swap. Qed.
Lemma times_perm l : Permutation (fold_right put_time [] l) l.
Proof. induction l as [|e l IH]; [reflexivity|]. cbn [fold_right]. rewrite put_time_perm, IH. reflexivity. Qed.
Lemma put_time_sorted e l : StronglySorted (fun a b => it_time a <= it_time b) l -> StronglySorted (fun a b => it_time a <= it_time b) (put_time e l).
Proof.
  induction l as [|f l IH]; intro H; [repeat constructor|]. cbn [put_time]. inversion H as [|? ? H1 H2]; subst. destruct (it_time e <=? it_time f) eqn:E.
  - apply Qleb_le in E. constructor; [exact H|]. constructor; [exact E|]. rewrite Forall_forall in *. intros x X. specialize (H2 x X). lra.
  - assert (G : it_time f <= it_time e) by (apply Qlt_le_weak, Qnot_le_lt; intro Q; apply Qleb_le in Q; congruence). constructor; [exact (IH H1)|]. rewrite Forall_forall in *. intros x X. apply (Permutation_in (l := put_time e l) (l' := e :: l)) in X; [|apply put_time_perm]. destruct X as [<-|X]; [exact G|exact (H2 x X)].
Qed.
Definition integral (u : units) (s r : at_time) : Prop := it_time r = it_time s /\ it_bounds r = it_bounds s /\ exists lo hi, it_bounds s = Some (lo, hi) /\ Forall2 (fun v w => w == v * ((hi - lo) * un_seconds u)) (it_values s) (it_values r).
Theorem C96_integral u slices methods : (forall out ms, integrate_time u slices methods = Ok (out, ms) -> StronglySorted (fun a b => it_time a <= it_time b) out /\ (exists l, Permutation out l /\ Forall2 (integral u) slices l) /\
    (exists rest, ms = {| cm_method := "sum"; cm_coords := ["time"%string]; cm_intervals := []; cm_comments := [] |} :: rest /\ forall m, In m rest <-> In m methods /\ ~ In "time"%string (cm_coords m))) /\
  ((exists r, integrate_time u slices methods = Ok r) <-> forall s, In s slices -> it_bounds s <> None) /\ (forall e, integrate_time u slices methods = Err e -> e = ValueError).
Proof.
  unfold integrate_time. assert (M : forall e, mapM (integrate_one u) slices = Err e -> e = ValueError /\ exists s, In s slices /\ it_bounds s = None).
  { intro e. revert e. induction slices as [|s l IH]; intro e; [discriminate|]. cbn [mapM]. unfold integrate_one at 1. destruct (it_bounds s) as [[lo hi]|] eqn:B; [|intro H; split; [cbn in H; congruence|exists s; split; [left; reflexivity|exact B]]]. cbn [bind]. destruct (mapM (integrate_one u) l) as [t|e'] eqn:E; [discriminate|]. cbn [bind]. intro H. destruct (IH e) as (-> & s' & S & N); [congruence|]. split; [reflexivity|]. exists s'. split; [right; exact S|exact N]. }
  destruct (mapM (integrate_one u) slices) as [l|e] eqn:E; cbn [bind].
  - apply mapM_in in E. split; [|split; [|discriminate]].
    + intros out ms H. apply Ok_inj in H. apply pair_equal_spec in H as [<- <-]. split; [|split].
      * clear. induction l as [|s l IH]; [constructor|]. cbn [fold_right]. apply put_time_sorted. exact IH.
      * exists l. split; [apply times_perm|]. clear -E. induction E as [|s r a b H E IH]; constructor; [|exact IH]. unfold integrate_one in H. destruct (it_bounds s) as [[lo hi]|] eqn:B; [|discriminate]. apply Ok_inj in H. subst r. split; [reflexivity|]. split; [symmetry; exact B|]. exists lo, hi. split; [exact B|]. cbn [it_values]. induction (it_values s); constructor; [reflexivity|assumption].
      * eexists. split; [reflexivity|]. intro m. rewrite filter_In, negb_true_iff, <- not_true_iff_false, smem_iff. reflexivity.
    + split; [|eauto]. intros _ s S N. clear -E S N. induction E as [|a b l r H E IH]; [destruct S|]. destruct S as [->|S]; [|exact (IH S)]. unfold integrate_one in H. rewrite N in H. discriminate.
  - destruct (M e eq_refl) as (-> & s & S & N). split; [discriminate|]. split; [|congruence]. split; [intros (r & H); discriminate|]. intro H. exfalso. exact (H s S N).
Qed.
(** C96: rates over periods that follow one another: the sum of the integrals is the integral over the whole. *)
Theorem C96_additive u a b c v x y z : integrate_one u {| it_time := b; it_bounds := Some (a, b); it_values := [v] |} = Ok x -> integrate_one u {| it_time := c; it_bounds := Some (b, c); it_values := [v] |} = Ok y -> integrate_one u {| it_time := c; it_bounds := Some (a, c); it_values := [v] |} = Ok z ->
  nth 0 (it_values x) 0 + nth 0 (it_values y) 0 == nth 0 (it_values z) 0.
Proof. intros H1 H2 H3. apply Ok_inj in H1, H2, H3. subst. cbn. ring. Qed.
Example C96_case : (lagged [[(0, "a"); (1, "b")]; [(1, "c"); (2, "d")]]%Z = Ok [(0, "a"); (1, "b"); (2, "c"); (3, "d")]%Z /\ lagged [[(4, "a"); (6, "b")]; [(1, "c"); (5, "d")]]%Z = Ok [(1, "c"); (4, "a"); (5, "d"); (6, "b")]%Z)%string /\
  (exists f t, relabel_to_period (Some 3%Z) (timed "forecast_period" [21600] in_seconds Int32) (timed "time" [1440021600] since_1970 Int64) = Ok (f, t) /\ option_map (map (fun b => (Qred (fst b), Qred (snd b)))) (co_bounds f) = Some [(10800, 21600)]) /\
  (exists out ms, integrate_time {| un_seconds := 3600; un_epoch := Some 0 |} [{| it_time := 6; it_bounds := Some (3, 6); it_values := [1 # 3600] |}; {| it_time := 3; it_bounds := Some (2, 3); it_values := [2] |}] [{| cm_method := "mean"; cm_coords := ["time"%string]; cm_intervals := []; cm_comments := [] |}] = Ok (out, ms) /\ map (fun s => (it_time s, map Qred (it_values s))) out = [(3, [7200]); (6, [3])] /\ ms = [sum_over_time]).
Proof. split; [split; reflexivity|]. split; [do 2 eexists; split; vm_compute; reflexivity|]. do 2 eexists. split; [vm_compute; reflexivity|]. split; vm_compute; reflexivity. Qed.

Print Assumptions C96_lagged.
Print Assumptions C96_single.
Print Assumptions C96_period.
Print Assumptions C96_period_units_refuted.
Print Assumptions C96_integral.
Print Assumptions C96_additive.
