(** C87: gradients between adjacent grid squares and smoothing coefficients from the orography. *)
From Coq Require Import Lia.
From Verif Require Import Base Model_Nbhood Spec_Nbhood Proofs_Nbhood Model_Spatial Props_Spatial Model_Recursive Proofs_Recursive Model_Orosmooth.
From Coq Require Import Lqa.
Local Open Scope Q_scope.

(** * Specification *)
(** Equally spaced points. *)
Definition evenly (p0 d : Q) (l : list Q) : Prop := (2 <= length l)%nat /\ forall k, (k < length l)%nat -> nth k l 0 == p0 + Qn k * d.
(** A pair of neighbouring cells: the cell and the one to its right, or the cell and the next one along y. *)
Inductive pair := Right (i j : Z) | Next (i j : Z).
Definition within (gx gy : field) (p : pair) : Prop := match p with Right i j => (0 <= i < f_h gx)%Z /\ (0 <= j < f_w gx)%Z | Next i j => (0 <= i < f_h gy)%Z /\ (0 <= j < f_w gy)%Z end.
Definition gradient_at (gx gy : field) (p : pair) : Q := match p with Right i j => f_at gx i j | Next i j => f_at gy i j end.
Definition steepness (gx gy : field) (p : pair) : Q := Qabs (gradient_at gx gy p).
Definition coefficient_at (c : coefficients * coefficients) (p : pair) : option Q := match p with Right i j => fst c i j | Next i j => snd c i j end.
(** The power function: no negative results, larger for larger arguments. *)
Definition rising (power : Q -> Q) : Prop := (forall x, 0 <= x -> 0 <= power x) /\ (forall x y, 0 <= x -> x < y -> power x < power y) /\ (forall x y, x == y -> power x == power y).
Definition flattest (gx gy : field) (p : pair) : Prop := forall q, within gx gy q -> steepness gx gy p <= steepness gx gy q.
Definition steepest (gx gy : field) (p : pair) : Prop := forall q, within gx gy q -> steepness gx gy q <= steepness gx gy p.
Definition mask_pair (m : mask) (p : pair) : Z * Z := match p with Right i j => (m_at m i j, m_at m i (j + 1)%Z) | Next i j => (m_at m i j, m_at m (i + 1)%Z j) end.
Definition limit (q : Q) : Prop := 0 <= q <= 1 # 2.

(** * Gradients *)
Lemma evenly_spacing p0 d l : evenly p0 d l -> exists s, grid_spacing l = Ok (Some s) /\ s == Qabs d.
Proof. intros [L H]. exact (C39_spacing p0 d l L H). Qed.
Lemma step p0 d l k : evenly p0 d l -> (0 <= k)%Z -> (k + 1 < Z.of_nat (length l))%Z -> point l (k + 1) - point l k == d.
Proof.
  intros [L H] K B. unfold point. replace (Z.to_nat (k + 1)) with (S (Z.to_nat k)) by lia. rewrite !H by lia. unfold Qn. rewrite Nat2Z.inj_succ, <- Z.add_1_r, inject_Z_plus. change (inject_Z 1) with 1. ring.
Qed.
(** On a plane with equally spaced coordinates: the difference over the distance. *)
Theorem C87_gradient s x0 dx y0 dy : s_system s = Distances -> s_circular s = false -> evenly x0 dx (s_x s) -> evenly y0 dy (s_y s) ->
  exists gx gy, gradients s = Ok (gx, gy) /\ f_h gx = height s /\ f_w gx = (width s - 1)%Z /\ f_h gy = (height s - 1)%Z /\ f_w gy = width s /\
    (forall i j, f_at gx i j == (s_z s i (j + 1)%Z - s_z s i j) / Qabs dx) /\ (forall i j, f_at gy i j == (s_z s (i + 1)%Z j - s_z s i j) / Qabs dy).
Proof.
  intros P C X Y. unfold gradients, difference_x, difference_y, distances. rewrite P, C. destruct (evenly_spacing _ _ _ X) as (a & -> & A). destruct (evenly_spacing _ _ _ Y) as (b & -> & B).
  destruct X as [LX _], Y as [LY _]. unfold width, height. destruct (Z.leb_spec (Z.of_nat (length (s_x s))) 1); [lia|]. destruct (Z.leb_spec (Z.of_nat (length (s_y s))) 1); [lia|]. cbn [bind].
  eexists _, _. split; [reflexivity|]. cbn [quotient f_h f_w f_at]. repeat (split; [reflexivity|]). split; intros i j; [rewrite A|rewrite B]; reflexivity.
Qed.
(** A plane a x + b y + c has the gradient (a, b), if the coordinates increase. *)
Theorem C87_slope s x0 dx y0 dy a b c gx gy : s_system s = Distances -> s_circular s = false -> evenly x0 dx (s_x s) -> evenly y0 dy (s_y s) -> 0 < dx -> 0 < dy ->
  (forall i j, (0 <= i < height s)%Z -> (0 <= j < width s)%Z -> s_z s i j == a * point (s_x s) j + b * point (s_y s) i + c) -> gradients s = Ok (gx, gy) ->
  forall p, within gx gy p -> gradient_at gx gy p == match p with Right _ _ => a | Next _ _ => b end.
Proof.
  intros P C X Y DX DY Z G p W. destruct (C87_gradient s x0 dx y0 dy P C X Y) as (gx' & gy' & G' & H1 & H2 & H3 & H4 & V1 & V2). rewrite G in G'. apply Ok_inj in G'. injection G' as <- <-.
  destruct p as [i j|i j]; cbn [within gradient_at] in *.
  - rewrite H1, H2 in W. rewrite V1, !Z by lia. pose proof (step x0 dx (s_x s) j X ltac:(lia) ltac:(unfold width in *; lia)) as E. rewrite Qabs_pos by lra. setoid_replace (a * point (s_x s) (j + 1) + b * point (s_y s) i + c - (a * point (s_x s) j + b * point (s_y s) i + c)) with (a * (point (s_x s) (j + 1) - point (s_x s) j)) by ring. rewrite E. field. lra.
  - rewrite H3, H4 in W. rewrite V2, !Z by lia. pose proof (step y0 dy (s_y s) i Y ltac:(lia) ltac:(unfold height in *; lia)) as E. rewrite Qabs_pos by lra. setoid_replace (a * point (s_x s) j + b * point (s_y s) (i + 1) + c - (a * point (s_x s) j + b * point (s_y s) i + c)) with (b * (point (s_y s) (i + 1) - point (s_y s) i)) by ring. rewrite E. field. lra.
Qed.
(** If a coordinate decreases the sign is wrong on a plane ... *)
Theorem C87_descending_refuted s x0 dx y0 dy a b c gx gy : s_system s = Distances -> s_circular s = false -> evenly x0 dx (s_x s) -> evenly y0 dy (s_y s) -> dy < 0 ->
  (forall i j, (0 <= i < height s)%Z -> (0 <= j < width s)%Z -> s_z s i j == a * point (s_x s) j + b * point (s_y s) i + c) -> gradients s = Ok (gx, gy) ->
  forall i j, within gx gy (Next i j) -> gradient_at gx gy (Next i j) == - b.
Proof.
  intros P C X Y DY Z G i j W. destruct (C87_gradient s x0 dx y0 dy P C X Y) as (gx' & gy' & G' & H1 & H2 & H3 & H4 & V1 & V2). rewrite G in G'. apply Ok_inj in G'. injection G' as <- <-. cbn [within gradient_at] in *.
  rewrite H3, H4 in W. rewrite V2, !Z by lia. pose proof (step y0 dy (s_y s) i Y ltac:(lia) ltac:(unfold height in *; lia)) as E. rewrite Qabs_neg by lra. setoid_replace (a * point (s_x s) j + b * point (s_y s) (i + 1) + c - (a * point (s_x s) j + b * point (s_y s) i + c)) with (b * (point (s_y s) (i + 1) - point (s_y s) i)) by ring. rewrite E. field. lra.
Qed.
(** ... but not on a sphere, where the gradient times the signed distance is the difference; a circular axis is closed. *)
Theorem C87_sphere s kx ky gx gy : s_system s = Sphere kx ky -> gradients s = Ok (gx, gy) -> (forall l, ~ kx l == 0) -> ~ ky == 0 ->
  (forall k, (0 <= k)%Z -> (k + 1 < width s)%Z -> ~ point (s_x s) (k + 1) == point (s_x s) k) -> (forall k, (0 <= k)%Z -> (k + 1 < height s)%Z -> ~ point (s_y s) (k + 1) == point (s_y s) k) ->
  (f_h gx = height s /\ f_w gx = (if s_circular s then width s else width s - 1)%Z /\ f_h gy = (height s - 1)%Z /\ f_w gy = width s) /\
  (forall i j, (0 <= j)%Z -> (j + 1 < width s)%Z -> f_at gx i j * (kx (point (s_y s) i) * (point (s_x s) (j + 1) - point (s_x s) j)) == s_z s i (j + 1)%Z - s_z s i j) /\
  (s_circular s = true -> forall i, ~ 360 + point (s_x s) 0 == point (s_x s) (width s - 1) -> f_at gx i (width s - 1)%Z * (kx (point (s_y s) i) * (360 + point (s_x s) 0 - point (s_x s) (width s - 1))) == s_z s i 0%Z - s_z s i (width s - 1)%Z) /\
  (forall i j, (0 <= i)%Z -> (i + 1 < height s)%Z -> f_at gy i j * (ky * (point (s_y s) (i + 1) - point (s_y s) i)) == s_z s (i + 1)%Z j - s_z s i j).
Proof.
  intros P G KX KY NX NY. unfold gradients, difference_x, difference_y, distances in G. rewrite P in G.
  assert (E : forall a b c : Q, ~ b == 0 -> ~ c == 0 -> ~ b * c == 0) by (intros a b c B C H; apply Qmult_integral in H; tauto).
  destruct (s_circular s) eqn:C; [|destruct (Z.leb_spec (width s) 1); [discriminate|]]; cbn [bind] in G; (destruct (Z.leb_spec (height s) 1); [discriminate|]); cbn [bind] in G; apply Ok_inj in G; injection G as <- <-; cbn [quotient f_h f_w f_at].
  - split; [repeat split|]. split; [|split].
    + intros i j J J1. destruct (Z.eqb_spec j (width s - 1)); [lia|]. field. split; [|apply KX]. specialize (NX j J J1). intro A. apply NX. lra.
    + intros _ i N. rewrite Z.eqb_refl. field. split; [|apply KX]. intro A. apply N. lra.
    + intros i j I J1. field. split; [|exact KY]. specialize (NY i I J1). intro A. apply NY. lra.
  - split; [repeat split|]. split; [|split].
    + intros i j J J1. destruct (Z.eqb_spec j (width s - 1)); [lia|]. field. split; [|apply KX]. specialize (NX j J J1). intro A. apply NX. lra.
    + discriminate.
    + intros i j I J1. field. split; [|exact KY]. specialize (NY i I J1). intro A. apply NY. lra.
Qed.

(** * Coefficients *)
(** Limits outside [0, 1/2] are refused, whatever the orography. *)
Lemma outside_iff q : outside q = false <-> limit q.
Proof. unfold outside, limit. destruct (Qltb_spec q 0), (Qltb_spec (1 # 2) q); cbn [orb]; split; intro HH; try discriminate; try lra; try reflexivity. all: split; lra. Qed.
Theorem C87_limits o power s m same : ~ (limit (o_flat o) /\ limit (o_steep o)) -> smoothing_coefficients o power s m same = Err ValueError.
Proof.
  intro H. unfold smoothing_coefficients, init. destruct (outside (o_flat o)) eqn:A; [reflexivity|]. destruct (outside (o_steep o)) eqn:B; [reflexivity|]. apply outside_iff in A, B. tauto.
Qed.
(** Otherwise the result is decided by the gradients. *)
Lemma no_mask o power s c : smoothing_coefficients o power s None true = Ok c -> limit (o_flat o) /\ limit (o_steep o) /\ exists gx gy, gradients s = Ok (gx, gy) /\ c = scale o (unnormalised power gx) (unnormalised power gy).
Proof.
  unfold smoothing_coefficients, init. destruct (outside (o_flat o)) eqn:A; [discriminate|]. destruct (outside (o_steep o)) eqn:B; [discriminate|]. cbn [orb bind]. apply outside_iff in A, B. destruct (gradients s) as [[gx gy]|]; [|discriminate]. cbn [bind]. intro H. apply Ok_inj in H. subst c. split; [exact A|]. split; [exact B|]. exists gx, gy. auto.
Qed.
Lemma value_in power (gx gy : field) i j : (0 <= i < f_h gx)%Z -> (0 <= j < f_w gx)%Z -> In (Qabs (power (Qabs (f_at gx i j)))) (values (unnormalised power gx)).
Proof.
  intros I J. unfold values. apply in_map_iff. exists (i, j). split; [reflexivity|]. apply indices_in. auto.
Qed.
Lemma in_value power g v : In v (values (unnormalised power g)) -> exists i j, (0 <= i < f_h g)%Z /\ (0 <= j < f_w g)%Z /\ v = Qabs (power (Qabs (f_at g i j))).
Proof. unfold values. intro H. apply in_map_iff in H as ([i j] & <- & H). apply indices_in in H. exists i, j. cbn. tauto. Qed.
Lemma smallest_le l v : In v l -> smallest l <= v.
Proof. destruct l as [|x r]; [intros []|]. intro H. cbn [smallest]. apply qminl_le. exact H. Qed.
Lemma largest_ge l v : In v l -> v <= largest l.
Proof. destruct l as [|x r]; [intros []|]. intro H. cbn [largest]. apply qmaxl_ge. exact H. Qed.
Lemma smallest_in l : l <> [] -> exists v, In v l /\ smallest l == v.
Proof. destruct l as [|x r]; [congruence|]. intros _. cbn [smallest]. destruct (qminl_in x r) as (y & I & E). eauto. Qed.
Lemma largest_in l : l <> [] -> exists v, In v l /\ largest l == v.
Proof. destruct l as [|x r]; [congruence|]. intros _. cbn [largest]. destruct (qmaxl_in x r) as (y & I & E). eauto. Qed.
Lemma shapes s gx gy : gradients s = Ok (gx, gy) -> (0 < width s)%Z -> (0 < f_h gx)%Z /\ (0 < f_w gx)%Z /\ (0 < f_h gy)%Z /\ (0 < f_w gy)%Z.
Proof.
  intros G W. unfold gradients, difference_x, difference_y in G. destruct (s_circular s).
  - destruct (s_system s); try discriminate. cbn [bind] in G. destruct (Z.leb_spec (height s) 1); [discriminate|]. cbn [bind] in G. destruct (distances s) as [[a b]|]; [|discriminate]. cbn [bind] in G. apply Ok_inj in G. injection G as <- <-. cbn. lia.
  - destruct (Z.leb_spec (width s) 1); [discriminate|]. cbn [bind] in G. destruct (Z.leb_spec (height s) 1); [discriminate|]. cbn [bind] in G. destruct (distances s) as [[a b]|]; [|discriminate]. cbn [bind] in G. apply Ok_inj in G. injection G as <- <-. cbn. lia.
Qed.
(** The least and the greatest power of the steepness. *)
Section Scaled.
  Context (power : Q -> Q) (R : rising power) (s : surface) (W : (0 < width s)%Z) (gx gy : field) (G : gradients s = Ok (gx, gy)).
  Let strength p := power (steepness gx gy p).
  Let lo := Qmin (smallest (values (unnormalised power gx))) (smallest (values (unnormalised power gy))).
  Let hi := Qmax (largest (values (unnormalised power gx))) (largest (values (unnormalised power gy))).
  Lemma strength_pos p : Qabs (strength p) == strength p.
  Proof. apply Qabs_pos. apply R. apply Qabs_nonneg. Qed.
  Lemma bounds p : within gx gy p -> lo <= strength p <= hi.
  Proof.
    intro H. rewrite <- (strength_pos p). unfold lo, hi. destruct p as [i j|i j]; cbn [within] in H; destruct H as [I J].
    - pose proof (value_in power gx gy i j I J) as V. split.
      + eapply Qle_trans; [apply Q.le_min_l|]. apply smallest_le. exact V.
      + eapply Qle_trans; [|apply Q.le_max_l]. apply largest_ge. exact V.
    - pose proof (value_in power gy gx i j I J) as V. split.
      + eapply Qle_trans; [apply Q.le_min_r|]. apply smallest_le. exact V.
      + eapply Qle_trans; [|apply Q.le_max_r]. apply largest_ge. exact V.
  Qed.
  Lemma nonempty g : (0 < f_h g)%Z -> (0 < f_w g)%Z -> values (unnormalised power g) <> [].
  Proof. intros A B E. pose proof (value_in power g g 0 0 ltac:(lia) ltac:(lia)) as V. rewrite E in V. destruct V. Qed.
  Lemma attained : (exists p, within gx gy p /\ lo == strength p) /\ (exists p, within gx gy p /\ hi == strength p).
  Proof.
    destruct (shapes s gx gy G W) as (A & B & C & D).
    destruct (smallest_in _ (nonempty gx A B)) as (v1 & I1 & E1). destruct (smallest_in _ (nonempty gy C D)) as (v2 & I2 & E2).
    destruct (largest_in _ (nonempty gx A B)) as (v3 & I3 & E3). destruct (largest_in _ (nonempty gy C D)) as (v4 & I4 & E4).
    apply in_value in I1 as (i1 & j1 & ? & ? & ->). apply in_value in I2 as (i2 & j2 & ? & ? & ->). apply in_value in I3 as (i3 & j3 & ? & ? & ->). apply in_value in I4 as (i4 & j4 & ? & ? & ->).
    split.
    - unfold lo. destruct (Q.min_spec (smallest (values (unnormalised power gx))) (smallest (values (unnormalised power gy)))) as [[_ E]|[_ E]].
      + exists (Right i1 j1). split; [split; assumption|]. eapply Qeq_trans; [exact E|]. rewrite E1. apply strength_pos with (p := Right i1 j1).
      + exists (Next i2 j2). split; [split; assumption|]. eapply Qeq_trans; [exact E|]. rewrite E2. apply strength_pos with (p := Next i2 j2).
    - unfold hi. destruct (Q.max_spec (largest (values (unnormalised power gx))) (largest (values (unnormalised power gy)))) as [[_ E]|[_ E]].
      + exists (Next i4 j4). split; [split; assumption|]. eapply Qeq_trans; [exact E|]. rewrite E4. apply strength_pos with (p := Next i4 j4).
      + exists (Right i3 j3). split; [split; assumption|]. eapply Qeq_trans; [exact E|]. rewrite E3. apply strength_pos with (p := Right i3 j3).
  Qed.
  Lemma strength_mono p q : steepness gx gy p <= steepness gx gy q -> strength p <= strength q.
  Proof.
    intro H. unfold strength. destruct R as (_ & M & E). destruct (Qlt_le_dec (steepness gx gy p) (steepness gx gy q)) as [L|L]; [apply Qlt_le_weak, M; [apply Qabs_nonneg|exact L]|]. rewrite (E (steepness gx gy p) (steepness gx gy q)) by lra. lra.
  Qed.
  Lemma least p : flattest gx gy p -> within gx gy p -> strength p == lo.
  Proof. intros F P. pose proof (bounds p P) as B. destruct attained as [(q & Q1 & E) _]. pose proof (strength_mono p q (F q Q1)). lra. Qed.
  Lemma greatest p : steepest gx gy p -> within gx gy p -> strength p == hi.
  Proof. intros F P. pose proof (bounds p P) as B. destruct attained as [_ (q & Q1 & E)]. pose proof (strength_mono q p (F q Q1)). lra. Qed.
  Lemma distinct : (exists p q, within gx gy p /\ within gx gy q /\ ~ steepness gx gy p == steepness gx gy q) -> lo < hi.
  Proof.
    intros (p & q & P & Q1 & N). pose proof (bounds p P) as B. pose proof (bounds q Q1) as B'. destruct R as (_ & M & _). unfold strength in B, B'.
    destruct (Qlt_le_dec (steepness gx gy p) (steepness gx gy q)) as [L|L]; [pose proof (M _ _ (Qabs_nonneg _) L); unfold steepness in *; lra|]. assert (L' : steepness gx gy q < steepness gx gy p) by lra. pose proof (M _ _ (Qabs_nonneg _) L'). unfold steepness in *; lra.
  Qed.
  Lemma coef o p : coefficient_at (scale o (unnormalised power gx) (unnormalised power gy)) p = scale1 o lo hi (strength p).
  Proof. destruct p; reflexivity. Qed.
  Lemma coef_value o p : lo < hi -> exists c, coefficient_at (scale o (unnormalised power gx) (unnormalised power gy)) p = Some c /\ c == (strength p - lo) / (hi - lo) * (o_steep o - o_flat o) + o_flat o.
  Proof. intro L. rewrite coef. unfold scale1. destruct (Qeqb_spec (hi - lo) 0); [lra|]. eexists. split; [reflexivity|]. rewrite strength_pos. reflexivity. Qed.
  Lemma share p : lo < hi -> within gx gy p -> 0 <= (strength p - lo) / (hi - lo) <= 1.
  Proof. intros L P. pose proof (bounds p P). split; [apply Qle_shift_div_l|apply Qle_shift_div_r]; lra. Qed.
End Scaled.
Definition varied (gx gy : field) : Prop := exists p q, within gx gy p /\ within gx gy q /\ ~ steepness gx gy p == steepness gx gy q.
(** The coefficients lie between the two limits; the flattest pairs get the one, the steepest the other. *)
Theorem C87_range o power s c gx gy p : rising power -> (0 < width s)%Z -> smoothing_coefficients o power s None true = Ok c -> gradients s = Ok (gx, gy) -> varied gx gy -> within gx gy p ->
  exists v, coefficient_at c p = Some v /\ Qmin (o_flat o) (o_steep o) <= v <= Qmax (o_flat o) (o_steep o) /\ limit v /\
    (flattest gx gy p -> v == o_flat o) /\ (steepest gx gy p -> v == o_steep o).
Proof.
  intros R W H G V P. destruct (no_mask _ _ _ _ H) as (LF & LS & gx' & gy' & G' & ->). rewrite G in G'. apply Ok_inj in G'. injection G' as <- <-.
  pose proof (distinct power R gx gy V) as L. destruct (coef_value power R gx gy o p L) as (v & -> & E). exists v. split; [reflexivity|]. pose proof (share power R gx gy p L P) as [S0 S1]. set (t := (_ - _) / (_ - _)) in *.
  assert (B : Qmin (o_flat o) (o_steep o) <= v <= Qmax (o_flat o) (o_steep o)).
  { clear - E S0 S1. pose proof (Q.min_spec (o_flat o) (o_steep o)) as MI. pose proof (Q.max_spec (o_flat o) (o_steep o)) as MA. destruct MI as [[M1 M2]|[M1 M2]]; destruct MA as [[M3 M4]|[M3 M4]]; rewrite M2, M4, E; split; nra. }
  split; [exact B|]. split.
  { unfold limit in *. pose proof (Q.min_glb (o_flat o) (o_steep o) 0 (proj1 LF) (proj1 LS)). pose proof (Q.max_lub (o_flat o) (o_steep o) (1 # 2) (proj2 LF) (proj2 LS)). lra. }
  split; intro F.
  - pose proof (least power R s W gx gy G p F P) as E'. rewrite E. assert (T : t == 0) by (unfold t; rewrite E'; unfold Qdiv; ring). rewrite T. ring.
  - pose proof (greatest power R s W gx gy G p F P) as E'. rewrite E. assert (T : t == 1) by (unfold t; rewrite E'; field; lra). rewrite T. ring.
Qed.
(** The steeper of two pairs, in whichever direction, gets the coefficient nearer to that for the steepest. *)
Theorem C87_order o power s c gx gy p q u v : rising power -> (0 < width s)%Z -> smoothing_coefficients o power s None true = Ok c -> gradients s = Ok (gx, gy) -> varied gx gy -> 
  steepness gx gy p <= steepness gx gy q -> coefficient_at c p = Some u -> coefficient_at c q = Some v ->
  (o_steep o <= o_flat o -> v <= u) /\ (o_flat o <= o_steep o -> u <= v) /\ (steepness gx gy p == steepness gx gy q -> u == v).
Proof.
  intros R W H G V LE U U'. destruct (no_mask _ _ _ _ H) as (LF & LS & gx' & gy' & G' & ->). rewrite G in G'. apply Ok_inj in G'. injection G' as <- <-.
  pose proof (distinct power R gx gy V) as L. destruct (coef_value power R gx gy o p L) as (a & A & E). destruct (coef_value power R gx gy o q L) as (b & B & F). rewrite U in A. rewrite U' in B. injection A as <-. injection B as <-.
  pose proof (strength_mono power R gx gy p q LE) as M. cbv beta in M. set (lo := Qmin _ _) in *. set (hi := Qmax _ _) in *.
  assert (T : (power (steepness gx gy p) - lo) / (hi - lo) <= (power (steepness gx gy q) - lo) / (hi - lo)) by (apply Qmult_le_compat_r; [lra|apply Qlt_le_weak, Qinv_lt_0_compat; lra]).
  rewrite E, F. set (t := (power (steepness gx gy p) - lo) / (hi - lo)) in *. set (t' := (power (steepness gx gy q) - lo) / (hi - lo)) in *. split; [intro; nra|]. split; [intro; nra|].
  intro EQ. assert (TT : t == t') by (unfold t, t'; destruct R as (_ & _ & R); rewrite (R _ _ EQ); reflexivity). rewrite TT. reflexivity.
Qed.
(** With power 1 the coefficient is linear in the steepness. *)
Theorem C87_linear o s c gx gy p lo hi : (0 < width s)%Z -> smoothing_coefficients o (fun x => x) s None true = Ok c -> gradients s = Ok (gx, gy) -> within gx gy lo -> within gx gy hi -> flattest gx gy lo -> steepest gx gy hi -> steepness gx gy lo < steepness gx gy hi ->
  exists v, coefficient_at c p = Some v /\ v == o_flat o + (o_steep o - o_flat o) * ((steepness gx gy p - steepness gx gy lo) / (steepness gx gy hi - steepness gx gy lo)).
Proof.
  intros W H G WL WH FL FH LT. destruct (no_mask _ _ _ _ H) as (LF & LS & gx' & gy' & G' & ->). rewrite G in G'. apply Ok_inj in G'. injection G' as <- <-.
  assert (R : rising (fun x => x)) by (split; [|split]; intros; lra || assumption). assert (V : varied gx gy) by (exists lo, hi; repeat split; trivial; lra).
  pose proof (distinct _ R gx gy V) as L. destruct (coef_value _ R gx gy o p L) as (v & -> & E). exists v. split; [reflexivity|]. rewrite E. rewrite <- (least _ R s W gx gy G lo FL WL), <- (greatest _ R s W gx gy G hi FH WH). ring.
Qed.
(** Refuted: that there is always a result. If all pairs are equally steep (level ground, or one even slope of the same steepness both ways) every coefficient is NaN. *)
Theorem C87_even_refuted o power s c gx gy p : rising power -> (0 < width s)%Z -> smoothing_coefficients o power s None true = Ok c -> gradients s = Ok (gx, gy) -> 
  (forall p q, within gx gy p -> within gx gy q -> steepness gx gy p == steepness gx gy q) -> coefficient_at c p = None.
Proof.
  intros R W H G A. destruct (no_mask _ _ _ _ H) as (LF & LS & gx' & gy' & G' & ->). rewrite G in G'. apply Ok_inj in G'. injection G' as <- <-.
  rewrite coef. destruct (attained power R s W gx gy G) as [(a & WA & EA) (b & WB & EB)]. unfold scale1. destruct (Qeqb_spec (Qmax (largest (values (unnormalised power gx))) (largest (values (unnormalised power gy))) - Qmin (smallest (values (unnormalised power gx))) (smallest (values (unnormalised power gy)))) 0) as [E|E]; [reflexivity|]. exfalso. apply E. destruct R as (_ & _ & R). rewrite EA, EB, (R _ _ (A a b WA WB)). ring.
Qed.

(** * Masks *)
(** On a grid that is not circular a mask of zeros and ones: coefficients are zeroed for pairs of which one cell is 1 (inverted: one is 0; boundary: they differ), and unchanged elsewhere. *)
Theorem C87_mask o power s m c : s_circular s = false -> smoothing_coefficients o power s None true = Ok c -> m_bool m = false -> (forall i j, m_at m i j = 0%Z \/ m_at m i j = 1%Z) ->
  exists c', smoothing_coefficients o power s (Some m) true = Ok c' /\ forall p, let '(a, b) := mask_pair m p in
    coefficient_at c' p = if (if o_boundary o then negb (a =? b)%Z else if o_invert o then ((a =? 0) || (b =? 0))%Z%bool else ((a =? 1) || (b =? 1))%Z%bool) then Some 0 else coefficient_at c p.
Proof.
  intros C H B M. destruct (no_mask _ _ _ _ H) as (LF & LS & gx & gy & G & ->). unfold smoothing_coefficients, init. apply outside_iff in LF, LS. rewrite LF, LS. cbn [orb bind negb]. rewrite G. cbn [bind]. unfold zero_masked. rewrite C. eexists. split; [reflexivity|]. intro p. unfold mask_pair.
  assert (K : forall a b, (a = 0 \/ a = 1)%Z -> (b = 0 \/ b = 1)%Z -> zeroed o m a b = (if o_boundary o then negb (a =? b)%Z else if o_invert o then ((a =? 0) || (b =? 0))%Z%bool else ((a =? 1) || (b =? 1))%Z%bool)).
  { intros a b [-> | ->] [-> | ->]; unfold zeroed, added; rewrite B; destruct (o_boundary o), (o_invert o); reflexivity. }
  destruct p as [i j|i j]; cbn [coefficient_at fst snd]; rewrite K by apply M; reflexivity.
Qed.
(** A mask on another grid is refused. *)
Theorem C87_mask_grid o power s m : smoothing_coefficients o power s (Some m) false = Err ValueError.
Proof. unfold smoothing_coefficients, init. destruct (_ || _)%bool; reflexivity. Qed.
(** Refuted: that masks work on circular grids (IndexError), and that boolean masks can be inverted (everything is zeroed). *)
Theorem C87_mask_refuted o power s m c : smoothing_coefficients o power s None true = Ok c ->
  (s_circular s = true -> smoothing_coefficients o power s (Some m) true = Err IndexError) /\
  (s_circular s = false -> m_bool m = true -> o_boundary o = false -> o_invert o = true -> exists c', smoothing_coefficients o power s (Some m) true = Ok c' /\ forall p, coefficient_at c' p = Some 0).
Proof.
  intro H. destruct (no_mask _ _ _ _ H) as (LF & LS & gx & gy & G & ->). unfold smoothing_coefficients, init. apply outside_iff in LF, LS. rewrite LF, LS. cbn [orb bind negb]. rewrite G. cbn [bind]. unfold zero_masked. split.
  - intros ->. reflexivity.
  - intros -> B O I. eexists. split; [reflexivity|]. intro p. assert (K : forall a b, zeroed o m a b = true) by (intros a b; unfold zeroed, added; rewrite O, I, B; destruct (0 <? a + b)%Z; reflexivity). destruct p; cbn [coefficient_at fst snd]; rewrite K; reflexivity.
Qed.
(** Where the coefficients are numbers, the recursive filter accepts them: they have the shape it wants and none is above one half. *)
Theorem C87_filter o power s m c gx gy cx cy iterations edge times slices : rising power -> (0 < width s)%Z -> s_circular s = false -> smoothing_coefficients o power s m true = Ok c -> gradients s = Ok (gx, gy) -> varied gx gy ->
  (forall i j, within gx gy (Right i j) -> fst c i j = Some (cx i j)) -> (forall i j, within gx gy (Next i j) -> snd c i j = Some (cy i j)) -> slices <> [] -> existsb (fun sl => any_masked (height s) (width s) (snd sl)) slices = false -> iterations <> None ->
  exists out, fst (recursive_process iterations edge (height s) (width s) times slices cx cy) = Ok out.
Proof.
  intros R W C H G V CX CY NE NM IT.
  assert (SH : f_h gx = height s /\ f_w gx = (width s - 1)%Z /\ f_h gy = (height s - 1)%Z /\ f_w gy = width s).
  { unfold gradients, difference_x, difference_y in G. rewrite C in G. destruct (width s <=? 1)%Z; [discriminate|]. cbn [bind] in G. destruct (height s <=? 1)%Z; [discriminate|]. cbn [bind] in G. destruct (distances s) as [[a b]|]; [|discriminate]. cbn [bind] in G. apply Ok_inj in G. injection G as <- <-. repeat split. }
  destruct SH as (S1 & S2 & S3 & S4).
  assert (H0 : exists c0, smoothing_coefficients o power s None true = Ok c0 /\ forall p v, coefficient_at c p = Some v -> v = 0 \/ coefficient_at c0 p = Some v).
  { unfold smoothing_coefficients in *. destruct (init o) as [o'|]; [|discriminate]. cbn [bind] in *. rewrite G in *. destruct m as [m|]; cbn [negb bind] in *.
    - eexists. split; [reflexivity|]. unfold zero_masked in H. rewrite C in H. apply Ok_inj in H. subst c. intros [i j|i j] v; cbn [coefficient_at fst snd]; destruct (zeroed _ _ _ _); intro E; [injection E as <-; left; reflexivity|right; exact E|injection E as <-; left; reflexivity|right; exact E].
    - apply Ok_inj in H. subst c. eexists. split; [reflexivity|]. auto. }
  destruct H0 as (c0 & H0 & K).
  assert (LIM : forall p v, within gx gy p -> coefficient_at c p = Some v -> limit v).
  { intros p v P E. destruct (K p v E) as [-> |E0]; [split; lra|]. destruct (C87_range o power s c0 gx gy p R W H0 G V P) as (v' & E1 & _ & L & _). rewrite E0 in E1. injection E1 as ->. exact L. }
  assert (TX : too_large (height s) (width s - 1) cx = false).
  { destruct (too_large _ _ cx) eqn:T; [|reflexivity]. apply too_large_spec in T as (i & j & I & J & T). exfalso. assert (P : within gx gy (Right i j)) by (cbn; lia). specialize (LIM (Right i j) (cx i j) P (CX i j P)). unfold limit in LIM. lra. }
  assert (TY : too_large (height s - 1) (width s) cy = false).
  { destruct (too_large _ _ cy) eqn:T; [|reflexivity]. apply too_large_spec in T as (i & j & I & J & T). exfalso. assert (P : within gx gy (Next i j)) by (cbn; lia). specialize (LIM (Next i j) (cy i j) P (CY i j P)). unfold limit in LIM. lra. }
  unfold recursive_process. rewrite TX, TY. cbn [orb]. destruct slices as [|sl slices]; [congruence|]. rewrite NM. cbn [andb]. destruct iterations as [n|]; [|congruence]. cbn [fst]. eexists. reflexivity.
Qed.

(** * Case: a ridge on a grid of 3 by 3 cells of 2000 m. *)
Definition ridge : surface := {| s_system := Distances; s_circular := false; s_x := [0; 2000; 4000]; s_y := [0; 2000; 4000]; s_z := fun i j => if (j =? 1)%Z then 100 else if (i =? 2)%Z then 50 else 0 |}.
Example C87_case : let o := {| o_flat := 1 # 2; o_steep := 0; o_boundary := false; o_invert := false |} in
  match smoothing_coefficients o (fun x => x * x) ridge (Some {| m_bool := false; m_at := fun i j => if ((i =? 0) && (j =? 0))%Z then 1%Z else 0%Z |}) true with
  | Ok c => map (fun p => option_map Qred (coefficient_at c p)) [Right 0 0; Right 0 1; Right 2 0; Next 0 0; Next 0 1; Next 1 2] = [Some 0; Some 0; Some (3 # 8); Some 0; Some (1 # 2); Some (3 # 8)]
  | Err _ => False end.
Proof. vm_compute. reflexivity. Qed.
Example C87_case_rising : rising (fun x => x * x) /\ evenly 0 2000 (s_x ridge).
Proof.
  split.
  - split; [intros x H; nra|]. split; [intros x y H L; nra|]. intros x y E. rewrite E. reflexivity.
  - split; [cbn; lia|]. intros k K. cbn in K. destruct k as [|[|[|k]]]; [reflexivity..|lia].
Qed.

Print Assumptions C87_gradient.
Print Assumptions C87_slope.
Print Assumptions C87_descending_refuted.
Print Assumptions C87_sphere.
Print Assumptions C87_limits.
Print Assumptions C87_range.
Print Assumptions C87_order.
Print Assumptions C87_linear.
Print Assumptions C87_even_refuted.
Print Assumptions C87_mask.
Print Assumptions C87_mask_grid.
Print Assumptions C87_mask_refuted.
Print Assumptions C87_filter.
