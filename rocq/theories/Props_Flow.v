(** C103: optical flow: the motion of precipitation between two fields. *)
From Verif Require Import Base Model_Nbhood Proofs_Nbhood Model_Nowcast Model_Flow.
Local Open Scope Q_scope.

(** ** Weighted sums *)
Definition within (h w : Z) (f : grid Q) (lo hi : Q) : Prop := forall i j, (0 <= i < h)%Z -> (0 <= j < w)%Z -> lo <= f i j <= hi.
Definition same (h w : Z) (f g : grid Q) : Prop := forall i j, (0 <= i < h)%Z -> (0 <= j < w)%Z -> f i j == g i j.
Definition onto (n : Z) (at_ : Z -> Z) : Prop := forall i, (0 <= at_ i < n)%Z.
Lemma reflected_in n : (0 < n)%Z -> onto n (reflected n).
Proof. intros P i. unfold reflected. pose proof (Z.mod_pos_bound i (2 * n) ltac:(lia)). destruct (Z.ltb_spec (i mod (2 * n)) n); lia. Qed.
Lemma nearest_onto n : (0 < n)%Z -> onto n (nearest n).
Proof. intros P i. now apply nearest_in. Qed.
Definition kernel_total (r : Z) (k : grid Q) : Q := zsum (- r) (Z.to_nat (2 * r + 1)) (fun dy => zsum (- r) (Z.to_nat (2 * r + 1)) (fun dx => k dy dx)).
Definition kernel_pos (r : Z) (k : grid Q) : Prop := forall dy dx, (- r <= dy <= r)%Z -> (- r <= dx <= r)%Z -> 0 <= k dy dx.
Section Sums.
Variables (h w r : Z) (at_y at_x : Z -> Z) (k : grid Q).
Hypotheses (Hy : onto h at_y) (Hx : onto w at_x) (Hr : (0 <= r)%Z).
Lemma wsum_ext f g i j : same h w f g -> weighted_sum at_y at_x r k f i j == weighted_sum at_y at_x r k g i j.
Proof. intro E. unfold weighted_sum. apply zsum_ext. intros dy _. apply zsum_ext. intros dx _. rewrite (E _ _ (Hy _) (Hx _)). reflexivity. Qed.
Lemma wsum_scale c f i j : weighted_sum at_y at_x r k (fun a b => c * f a b) i j == c * weighted_sum at_y at_x r k f i j.
Proof. unfold weighted_sum. rewrite <- zsum_scale. apply zsum_ext. intros dy _. rewrite <- zsum_scale. apply zsum_ext. intros dx _. ring. Qed.
Lemma wsum_const c i j : weighted_sum at_y at_x r k (fun _ _ => c) i j == c * kernel_total r k.
Proof. unfold weighted_sum, kernel_total. rewrite <- zsum_scale. apply zsum_ext. intros dy _. rewrite <- zsum_scale. apply zsum_ext. intros dx _. ring. Qed.
Lemma wsum_le f g i j : kernel_pos r k -> (forall a b, (0 <= a < h)%Z -> (0 <= b < w)%Z -> f a b <= g a b) -> weighted_sum at_y at_x r k f i j <= weighted_sum at_y at_x r k g i j.
Proof.
  intros K L. unfold weighted_sum. apply zsum_le. intros dy Dy. apply zsum_le. intros dx Dx. rewrite Z2Nat.id in Dy, Dx by lia. specialize (K dy dx ltac:(lia) ltac:(lia)). specialize (L _ _ (Hy (i + dy)%Z) (Hx (j + dx)%Z)). set (a := f _ _) in *. set (b := g _ _) in *. clearbody a b. nra.
Qed.
Lemma wsum_within f lo hi i j : kernel_pos r k -> kernel_total r k == 1 -> within h w f lo hi -> lo <= weighted_sum at_y at_x r k f i j <= hi.
Proof.
  intros K T W. split.
  - assert (E : lo == weighted_sum at_y at_x r k (fun _ _ => lo) i j) by (rewrite wsum_const, T; ring). rewrite E. apply wsum_le; [exact K|]. intros a b A B. now apply W.
  - assert (E : hi == weighted_sum at_y at_x r k (fun _ _ => hi) i j) by (rewrite wsum_const, T; ring). rewrite E. apply wsum_le; [exact K|]. intros a b A B. now apply W.
Qed.
End Sums.
Lemma neighbours_pos : kernel_pos 1 neighbours.
Proof. intros dy dx _ _. unfold neighbours. destruct ((dy =? 0)%Z && (dx =? 0)%Z)%bool; [lra|]. destruct ((dy =? 0)%Z || (dx =? 0)%Z)%bool; lra. Qed.
Lemma neighbours_total : kernel_total 1 neighbours == 1.
Proof. vm_compute. reflexivity. Qed.
Lemma tent_nonneg r t : (0 < r)%Z -> (- r <= t <= r)%Z -> 0 <= tent r t.
Proof.
  intros Pr B. unfold tent. assert (P : 0 < inject_Z r) by (change 0 with (inject_Z 0); now rewrite <- Zlt_Qlt). assert (Q1 : Qabs (inject_Z t / inject_Z r) <= 1); [|lra]. apply Qabs_Qle_condition. split.
  - apply Qle_shift_div_l; [exact P|]. change (-(1)) with (inject_Z (-1)). rewrite <- inject_Z_mult, <- Zle_Qle. lia.
  - apply Qle_shift_div_r; [exact P|]. change 1 with (inject_Z 1). rewrite <- inject_Z_mult, <- Zle_Qle. lia.
Qed.
Lemma tent_centre r : tent r 0 == 1.
Proof. unfold tent. assert (E : inject_Z 0 / inject_Z r == 0) by (unfold Qdiv; change (inject_Z 0) with 0; ring). rewrite E. reflexivity. Qed.
Lemma tent_total_pos r : (0 < r)%Z -> 0 < tent_total r.
Proof.
  intro P. assert (N : 0 <= tent_total r). { apply zsum_nonneg. intros dy Dy. apply zsum_nonneg. intros dx Dx. rewrite Z2Nat.id in Dy, Dx by lia. apply Qmult_le_0_compat; apply tent_nonneg; lia. }
  destruct (Qlt_le_dec 0 (tent_total r)) as [L|L]; [exact L|exfalso]. assert (E : tent_total r == 0) by lra. unfold tent_total in E.
  assert (T : forall dy dx, (- r <= dy < - r + Z.of_nat (Z.to_nat (2 * r + 1)))%Z -> (- r <= dx < - r + Z.of_nat (Z.to_nat (2 * r + 1)))%Z -> 0 <= tent r dy * tent r dx) by (intros dy dx Dy Dx; rewrite Z2Nat.id in Dy, Dx by lia; apply Qmult_le_0_compat; apply tent_nonneg; lia).
  assert (B : (- r <= 0 < - r + Z.of_nat (Z.to_nat (2 * r + 1)))%Z) by (rewrite Z2Nat.id by lia; lia).
  assert (E0 := zsum_zero_inv _ _ _ (fun dy Dy => zsum_nonneg _ _ _ (fun dx Dx => T dy dx Dy Dx)) E 0%Z B). cbv beta in E0.
  assert (E1 := zsum_zero_inv _ _ _ (fun dx Dx => T 0%Z dx B Dx) E0 0%Z B). cbv beta in E1. rewrite !tent_centre in E1. lra.
Qed.
Lemma tents_pos r : (0 < r)%Z -> kernel_pos r (tents r).
Proof. intros P dy dx Dy Dx. unfold tents. pose proof (tent_total_pos r P). apply Qle_shift_div_l; [assumption|]. rewrite Qmult_0_l. apply Qmult_le_0_compat; apply tent_nonneg; lia. Qed.
Lemma tents_total r : (0 < r)%Z -> kernel_total r (tents r) == 1.
Proof.
  intro P. pose proof (tent_total_pos r P). assert (E : kernel_total r (tents r) == (/ tent_total r) * tent_total r). { unfold kernel_total. unfold tent_total at 2. rewrite <- zsum_scale. apply zsum_ext. intros dy _. rewrite <- zsum_scale. apply zsum_ext. intros dx _. unfold tents, Qdiv. ring. } rewrite E. rewrite Qmult_comm. apply Qmult_inv_r. lra.
Qed.
Lemma box_total r : (0 <= r)%Z -> kernel_total r (fun _ _ => 1 / inject_Z ((2 * r + 1) * (2 * r + 1))) == 1.
Proof.
  intro P. assert (C : forall n a (c : Q), zsum a n (fun _ => c) == inject_Z (Z.of_nat n) * c). { induction n as [|n IH]; intros a c; [cbn; change (inject_Z 0) with 0; ring|]. cbn [zsum]. rewrite IH, Nat2Z.inj_succ. unfold Z.succ. rewrite inject_Z_plus. change (inject_Z 1) with 1. ring. }
  unfold kernel_total. rewrite C, C, Z2Nat.id by lia. rewrite inject_Z_mult. assert (N : ~ inject_Z (2 * r + 1) == 0) by (change 0 with (inject_Z 0); rewrite inject_Z_injective; lia). field. exact N.
Qed.
Lemma smooth_within m h w r f lo hi : (0 < h)%Z -> (0 < w)%Z -> (0 < r)%Z -> within h w f lo hi -> forall i j, lo <= smooth m h w r f i j <= hi.
Proof.
  intros Ph Pw Pr W i j. destruct m; cbn [smooth].
  - apply (wsum_within h w); auto using reflected_in, tents_pos, tents_total. lia.
  - apply (wsum_within h w); auto using nearest_onto; [lia| |apply box_total; lia]. intros dy dx _ _. apply Qle_shift_div_l; [change 0 with (inject_Z 0); rewrite <- Zlt_Qlt; nia|]. lra.
Qed.
Lemma smooth_scale m h w r c f i j : smooth m h w r (fun a b => c * f a b) i j == c * smooth m h w r f i j.
Proof. destruct m; apply wsum_scale. Qed.
Lemma smooth_ext m h w r f g i j : (0 < h)%Z -> (0 < w)%Z -> same h w f g -> smooth m h w r f i j == smooth m h w r g i j.
Proof. intros Ph Pw E. destruct m; cbn [smooth]; apply (wsum_ext h w); auto using reflected_in, nearest_onto. Qed.

(** ** Smoothing of the boxes *)
Definition weights_ok (h w : Z) (ws : grid Q) : Prop := forall i j, (0 <= i < h)%Z -> (0 <= j < w)%Z -> 0 <= ws i j.
Lemma quot_within x n lo hi : 0 < n -> lo * n <= x <= hi * n -> lo <= x / n <= hi.
Proof. intros P [L U]. split; [apply Qle_shift_div_l; assumption|apply Qle_shift_div_r; assumption]. Qed.
Section Smart.
Variables (h w : Z) (ws : grid Q).
Hypotheses (Ph : (0 < h)%Z) (Pw : (0 < w)%Z) (W : weights_ok h w ws).
Lemma around_nonneg i j : 0 <= around h w ws i j.
Proof.
  unfold around. assert (E : 0 == weighted_sum (reflected h) (reflected w) 1 neighbours (fun _ _ => 0) i j) by (rewrite (wsum_const 1 (reflected h) (reflected w)); ring). rewrite E. apply (wsum_le h w); auto using reflected_in, neighbours_pos. lia.
Qed.
(** Values at boxes with weight alone determine the weighted values around. *)
Lemma around_rainy v lo hi i j : (forall a b, (0 <= a < h)%Z -> (0 <= b < w)%Z -> 0 < ws a b -> lo <= v a b <= hi) -> lo * around h w ws i j <= around h w (fun a b => ws a b * v a b) i j <= hi * around h w ws i j.
Proof.
  intro V. unfold around. rewrite <- !(wsum_scale 1). split; apply (wsum_le h w); auto using reflected_in, neighbours_pos; try lia; intros a b A B; specialize (W a b A B); destruct (Qlt_le_dec 0 (ws a b)) as [P|P].
  - specialize (V a b A B P). set (x := ws a b) in *. set (y := v a b) in *. clearbody x y. nra.
  - assert (E : ws a b == 0) by lra. rewrite E. lra.
  - specialize (V a b A B P). set (x := ws a b) in *. set (y := v a b) in *. clearbody x y. nra.
  - assert (E : ws a b == 0) by lra. rewrite E. lra.
Qed.
Lemma smart_rainy p v lo hi i j : (0 <= i < h)%Z -> (0 <= j < w)%Z -> (forall a b, (0 <= a < h)%Z -> (0 <= b < w)%Z -> 0 < ws a b -> lo <= v a b <= hi) ->
  (0 < ws i j -> lo <= p i j <= hi) -> 0 < ws i j \/ 0 < around h w ws i j -> lo <= smart h w ws p v i j <= hi.
Proof.
  intros Bi Bj V Pt R. unfold smart. cbv zeta. pose proof (around_rainy v lo hi i j V) as A. pose proof (around_nonneg i j) as N. pose proof (W i j Bi Bj) as Wp. set (vn := around h w (fun a b => ws a b * v a b) i j) in *. set (nw := around h w ws i j) in *. set (x := ws i j) in *. clearbody vn nw x. rewrite !Qabs_pos by assumption.
  destruct (Qltb_spec 0 x) as [Px|Px].
  - specialize (Pt Px). set (y := p i j) in *. clearbody y. apply quot_within; [lra|]. split; nra.
  - destruct R as [R|R]; [lra|]. destruct (Qltb_spec 0 nw); [now apply quot_within|lra].
Qed.
Lemma smart_within p v lo hi i j : (0 <= i < h)%Z -> (0 <= j < w)%Z -> within h w v lo hi -> within h w p lo hi -> lo <= smart h w ws p v i j <= hi.
Proof.
  intros Bi Bj V Pt. destruct (Qlt_le_dec 0 (ws i j)) as [R|R]; [apply smart_rainy; auto|]. destruct (Qlt_le_dec 0 (around h w ws i j)) as [R'|R']; [apply smart_rainy; auto|].
  unfold smart. cbv zeta. rewrite !Qabs_pos by (apply around_nonneg || now apply W). destruct (Qltb_spec 0 (ws i j)); [lra|]. destruct (Qltb_spec 0 (around h w ws i j)); [lra|]. unfold around. apply (wsum_within h w); auto using reflected_in, neighbours_pos, neighbours_total. lia.
Qed.
Lemma times_within n : forall p v lo hi, within h w v lo hi -> within h w p lo hi -> within h w (smart_times n h w ws p v) lo hi.
Proof. induction n as [|n IH]; intros p v lo hi V Pt; [exact V|]. cbn [smart_times]. apply IH; [|exact Pt]. intros i j Bi Bj. now apply smart_within. Qed.
(** Boxes with rain stay within the displacements of the boxes with rain. *)
Lemma times_rainy n : forall p v lo hi, let rainy f := forall a b, (0 <= a < h)%Z -> (0 <= b < w)%Z -> 0 < ws a b -> lo <= f a b <= hi in rainy p -> rainy v -> rainy (smart_times n h w ws p v).
Proof. cbv zeta. induction n as [|n IH]; intros p v lo hi Pt V; [exact V|]. cbn [smart_times]. apply IH; [exact Pt|]. intros i j Bi Bj R. apply smart_rainy; auto. Qed.
End Smart.
(** The same displacements up to a factor give the same smoothed ones up to it. *)
Lemma around_factor h w c f g i j : (0 < h)%Z -> (0 < w)%Z -> (forall a b, (0 <= a < h)%Z -> (0 <= b < w)%Z -> g a b == c * f a b) -> around h w g i j == c * around h w f i j.
Proof. intros Ph Pw E. unfold around. rewrite <- wsum_scale. apply (wsum_ext h w); auto using reflected_in. Qed.
Lemma smart_factor h w c ws ws' p p' v v' i j : (0 < h)%Z -> (0 < w)%Z -> (0 <= i < h)%Z -> (0 <= j < w)%Z -> same h w ws' ws -> same h w p' (fun a b => c * p a b) -> same h w v' (fun a b => c * v a b) -> smart h w ws' p' v' i j == c * smart h w ws p v i j.
Proof.
  intros Ph Pw Bi Bj Ew Ep Ev. unfold smart. cbv zeta.
  assert (E1 : around h w (fun a b => ws' a b * v' a b) i j == c * around h w (fun a b => ws a b * v a b) i j) by (apply around_factor; auto; intros a b A B; rewrite (Ew a b A B), (Ev a b A B); ring).
  assert (E2 : around h w ws' i j == around h w ws i j) by (rewrite (around_factor h w 1 ws); auto; [ring|]; intros a b A B; rewrite (Ew a b A B); ring).
  assert (E3 : around h w v' i j == c * around h w v i j) by (apply around_factor; auto).
  assert (E4 := Ew i j Bi Bj). assert (E5 := Ep i j Bi Bj). cbv beta in E5.
  set (vn' := around h w (fun a b => ws' a b * v' a b) i j) in *. set (vn := around h w (fun a b => ws a b * v a b) i j) in *. set (nw' := around h w ws' i j) in *. set (nw := around h w ws i j) in *. set (x' := around h w v' i j) in *. set (x := around h w v i j) in *. set (w' := ws' i j) in *. set (w0 := ws i j) in *. clearbody vn' vn nw' nw x' x w' w0.
  assert (D4 : Qabs w' == Qabs w0) by now rewrite E4. assert (D2 : Qabs nw' == Qabs nw) by now rewrite E2. destruct (Qltb_spec 0 (Qabs w')), (Qltb_spec 0 (Qabs w0)); try lra.
  - rewrite E1, E2, E4, E5. unfold Qdiv. ring.
  - destruct (Qltb_spec 0 (Qabs nw')), (Qltb_spec 0 (Qabs nw)); try lra. rewrite E1, E2. unfold Qdiv. ring.
Qed.
Lemma times_factor n h w c ws ws' : (0 < h)%Z -> (0 < w)%Z -> same h w ws' ws -> forall p p' v v', same h w p' (fun a b => c * p a b) -> same h w v' (fun a b => c * v a b) -> same h w (smart_times n h w ws' p' v') (fun a b => c * smart_times n h w ws p v a b).
Proof. intros Ph Pw Ew. induction n as [|n IH]; intros p p' v v' Ep Ev; [exact Ev|]. cbn [smart_times]. apply IH; [exact Ep|]. intros i j Bi Bj. now apply smart_factor. Qed.
Lemma boxes_pos n size : (0 < n)%Z -> (0 < size)%Z -> (0 < boxes n size)%Z.
Proof. intros P S. unfold boxes. pose proof (Z.div_pos (n - 1) size ltac:(lia) S). lia. Qed.
Lemma boxes_cover n size i : (0 < size)%Z -> (0 <= i < n)%Z -> (0 <= i / size < boxes n size)%Z.
Proof. intros S B. unfold boxes. split; [apply Z.div_pos; lia|]. pose proof (Z.div_le_mono i (n - 1) size S ltac:(lia)). lia. Qed.
Lemma smooth_boxes_within n h w size ws f lo hi : (0 < h)%Z -> (0 < w)%Z -> (3 <= size)%Z -> weights_ok (boxes h size) (boxes w size) ws -> within (boxes h size) (boxes w size) f lo hi -> forall i j, lo <= smooth_boxes n h w size ws f i j <= hi.
Proof.
  intros Ph Pw Ps W F i j. unfold smooth_boxes. apply smooth_within; [exact Ph|exact Pw| |].
  - pose proof (Z.div_le_lower_bound size 3 1 ltac:(lia) ltac:(lia)). lia.
  - intros a b A B. unfold to_grid. apply times_within; try assumption; try (apply boxes_pos; lia); apply boxes_cover; lia.
Qed.
Lemma smooth_boxes_factor n h w size c ws ws' f f' i j : (0 < h)%Z -> (0 < w)%Z -> (0 < size)%Z -> same (boxes h size) (boxes w size) ws' ws -> same (boxes h size) (boxes w size) f' (fun a b => c * f a b) -> smooth_boxes n h w size ws' f' i j == c * smooth_boxes n h w size ws f i j.
Proof.
  intros Ph Pw Ps Ew Ef. unfold smooth_boxes. rewrite <- smooth_scale. apply smooth_ext; [exact Ph|exact Pw|]. intros a b A B. unfold to_grid. apply (times_factor n (boxes h size) (boxes w size) c ws ws' (boxes_pos h size Ph Ps) (boxes_pos w size Pw Ps) Ew f f' f f' Ef Ef); apply boxes_cover; lia.
Qed.

(** ** The displacement of a box *)
Lemma bs_ext h w size f g bi bj : (0 <= bi)%Z -> (0 <= bj)%Z -> (0 < size)%Z -> same h w f g -> box_sum h w size f bi bj == box_sum h w size g bi bj.
Proof. intros Bi Bj S E. unfold box_sum. apply zsum_ext. intros i I1. apply zsum_ext. intros j J1. apply E; nia. Qed.
Lemma bs_plus h w size f g bi bj : box_sum h w size (fun i j => f i j + g i j) bi bj == box_sum h w size f bi bj + box_sum h w size g bi bj.
Proof. unfold box_sum. rewrite <- zsum_plus. apply zsum_ext. intros i _. apply zsum_plus. Qed.
Lemma bs_scale h w size c f bi bj : box_sum h w size (fun i j => c * f i j) bi bj == c * box_sum h w size f bi bj.
Proof. unfold box_sum. rewrite <- zsum_scale. apply zsum_ext. intros i _. apply zsum_scale. Qed.
Lemma bs_nonneg h w size f bi bj : (forall i j, 0 <= f i j) -> 0 <= box_sum h w size f bi bj.
Proof. intro P. apply zsum_nonneg. intros i _. apply zsum_nonneg. intros j _. apply P. Qed.
Lemma bs_all h w size f g bi bj : (forall i j, f i j == g i j) -> box_sum h w size f bi bj == box_sum h w size g bi bj.
Proof. intro E. unfold box_sum. apply zsum_ext. intros i _. apply zsum_ext. intros j _. apply E. Qed.
(** The mismatch of a displacement: how far the box is from having been moved by it. *)
Definition mismatch (h w size : Z) (dx dy dt : grid Q) (bi bj : Z) (u v : Q) : Q := box_sum h w size (fun i j => (dx i j * u + dy i j * v + dt i j) * (dx i j * u + dy i j * v + dt i j)) bi bj.
(** Whether the box has structure in two directions. *)
Definition structured (h w size : Z) (dx dy : grid Q) (bi bj : Z) : Prop :=
  ~ box_sum h w size (fun i j => dx i j * dx i j) bi bj * box_sum h w size (fun i j => dy i j * dy i j) bi bj - box_sum h w size (fun i j => dx i j * dy i j) bi bj * box_sum h w size (fun i j => dx i j * dy i j) bi bj == 0.
Lemma mismatch_form h w size dx dy dt bi bj u v : mismatch h w size dx dy dt bi bj u v ==
  u * u * box_sum h w size (fun i j => dx i j * dx i j) bi bj + 2 * u * v * box_sum h w size (fun i j => dx i j * dy i j) bi bj + v * v * box_sum h w size (fun i j => dy i j * dy i j) bi bj
  + 2 * u * box_sum h w size (fun i j => dx i j * dt i j) bi bj + 2 * v * box_sum h w size (fun i j => dy i j * dt i j) bi bj + box_sum h w size (fun i j => dt i j * dt i j) bi bj.
Proof. unfold mismatch. rewrite <- !bs_scale, <- !bs_plus. apply bs_all. intros i j. ring. Qed.
Lemma square_form a b c p q x y : (forall s t, 0 <= s * s * a + 2 * s * t * b + t * t * c) -> ~ a * c - b * b == 0 -> let '(u, v) := solve a b c p q in
  u * u * a + 2 * u * v * b + v * v * c + 2 * u * p + 2 * v * q <= x * x * a + 2 * x * y * b + y * y * c + 2 * x * p + 2 * y * q.
Proof.
  intros N D. unfold solve. cbv zeta. destruct (Qeqb_spec (a * c - b * b) 0); [contradiction|]. set (u := - ((c * p - b * q) / (a * c - b * b))). set (v := - ((a * q - b * p) / (a * c - b * b))).
  assert (E1 : a * u + b * v + p == 0) by (unfold u, v; field; exact D). assert (E2 : b * u + c * v + q == 0) by (unfold u, v; field; exact D). clearbody u v. specialize (N (x - u) (y - v)).
  assert (E : x * x * a + 2 * x * y * b + y * y * c + 2 * x * p + 2 * y * q == (u * u * a + 2 * u * v * b + v * v * c + 2 * u * p + 2 * v * q) + ((x - u) * (x - u) * a + 2 * (x - u) * (y - v) * b + (y - v) * (y - v) * c) + 2 * (x - u) * (a * u + b * v + p) + 2 * (y - v) * (b * u + c * v + q)) by ring.
  rewrite E, E1, E2. lra.
Qed.
Lemma solve_pair a b c p q : exists u v, solve a b c p q = (u, v).
Proof. destruct (solve a b c p q) as [u v]. eauto. Qed.
(** In a box with structure in two directions the displacement is that with the least mismatch; in the others it is zero. *)
Theorem C103_least_mismatch h w size dx dy dt bi bj u v x y : structured h w size dx dy bi bj -> displacement h w size dx dy dt bi bj = (u, v) -> mismatch h w size dx dy dt bi bj u v <= mismatch h w size dx dy dt bi bj x y.
Proof.
  intros S D. rewrite !mismatch_form. unfold displacement in D. cbv zeta in D. pose proof (fun P => square_form _ _ _ (box_sum h w size (fun i j => dx i j * dt i j) bi bj) (box_sum h w size (fun i j => dy i j * dt i j) bi bj) x y P S) as F. rewrite D in F.
  apply Qplus_le_l. assert (P : forall s t, 0 <= s * s * box_sum h w size (fun i j => dx i j * dx i j) bi bj + 2 * s * t * box_sum h w size (fun i j => dx i j * dy i j) bi bj + t * t * box_sum h w size (fun i j => dy i j * dy i j) bi bj).
  { intros s t. assert (E : s * s * box_sum h w size (fun i j => dx i j * dx i j) bi bj + 2 * s * t * box_sum h w size (fun i j => dx i j * dy i j) bi bj + t * t * box_sum h w size (fun i j => dy i j * dy i j) bi bj == box_sum h w size (fun i j => (s * dx i j + t * dy i j) * (s * dx i j + t * dy i j)) bi bj) by (rewrite <- !bs_scale, <- !bs_plus; apply bs_all; intros i j; ring). rewrite E. apply bs_nonneg. intros i j. set (z := s * dx i j + t * dy i j). clearbody z. nra. }
  exact (F P).
Qed.
Theorem C103_unstructured h w size dx dy dt bi bj : ~ structured h w size dx dy bi bj -> displacement h w size dx dy dt bi bj = (0, 0).
Proof. intro N. unfold displacement, solve. cbv zeta. destruct (Qeqb_spec (box_sum h w size (fun i j => dx i j * dx i j) bi bj * box_sum h w size (fun i j => dy i j * dy i j) bi bj - box_sum h w size (fun i j => dx i j * dy i j) bi bj * box_sum h w size (fun i j => dx i j * dy i j) bi bj) 0) as [E|E]; [reflexivity|contradiction]. Qed.
Lemma solve_eq a b c p q u v : ~ a * c - b * b == 0 -> p == - (u * a + v * b) -> q == - (u * b + v * c) -> fst (solve a b c p q) == u /\ snd (solve a b c p q) == v.
Proof. intros D P Q0. unfold solve. cbv zeta. destruct (Qeqb_spec (a * c - b * b) 0); [contradiction|]. cbn [fst snd]. rewrite P, Q0. split; field; exact D. Qed.
(** A box whose change is exactly that of a displacement has it found. *)
Theorem C103_exact_displacement h w size dx dy dt bi bj u v : (0 <= bi)%Z -> (0 <= bj)%Z -> (0 < size)%Z -> structured h w size dx dy bi bj -> same h w dt (fun i j => - (u * dx i j + v * dy i j)) ->
  fst (displacement h w size dx dy dt bi bj) == u /\ snd (displacement h w size dx dy dt bi bj) == v.
Proof.
  intros Bi Bj Ps S E. unfold displacement. cbv zeta. apply solve_eq; [exact S| |].
  - rewrite (bs_ext h w size (fun i j => dx i j * dt i j) (fun i j => (- u) * (dx i j * dx i j) + (- v) * (dx i j * dy i j))) by (try assumption; intros i j I1 J1; rewrite (E i j I1 J1); ring). rewrite bs_plus, !bs_scale. ring.
  - rewrite (bs_ext h w size (fun i j => dy i j * dt i j) (fun i j => (- u) * (dx i j * dy i j) + (- v) * (dy i j * dy i j))) by (try assumption; intros i j I1 J1; rewrite (E i j I1 J1); ring). rewrite bs_plus, !bs_scale. ring.
Qed.

(** ** Derivatives *)
Lemma surrounded_lin h w f g k u v : (0 < h)%Z -> (0 < w)%Z -> (forall i j, (0 <= i < h - 1)%Z -> (0 <= j < w - 1)%Z -> k i j == - (u * f i j + v * g i j)) -> forall i j, midpoint (surrounded h w k) i j == - (u * midpoint (surrounded h w f) i j + v * midpoint (surrounded h w g) i j).
Proof.
  intros Ph Pw E i j. assert (S : forall a b, surrounded h w k a b == - (u * surrounded h w f a b + v * surrounded h w g a b)).
  { intros a b. unfold surrounded. destruct ((1 <=? a) && (a <=? h - 1) && (1 <=? b) && (b <=? w - 1))%Z eqn:Q0; [|ring]. rewrite !andb_true_iff, !Z.leb_le in Q0. apply E; lia. }
  unfold midpoint. rewrite !S. ring.
Qed.
(** A pattern of second degree, and the same pattern moved by (u, v). *)
Definition pattern (a b c d e k x y : Q) : Q := a * x * x + b * x * y + c * y * y + d * x + e * y + k.
Definition moving (h w : Z) (f : Q -> Q -> Q) (u v : Q) (d1 d2 : grid Q) : Prop := forall i j, (0 <= i < h)%Z -> (0 <= j < w)%Z -> d1 i j == f (inject_Z j) (inject_Z i) /\ d2 i j == f (inject_Z j - u) (inject_Z i - v).
Lemma inner_translation h w a b c d e k u v d1 d2 i j : moving h w (pattern a b c d e k) u v d1 d2 -> (0 <= i < h - 1)%Z -> (0 <= j < w - 1)%Z ->
  midpoint (fun i j => d2 i j - d1 i j) i j == - (u * ((1 # 2) * (half_way 0 (diff 1 d1) i j + half_way 0 (diff 1 d2) i j)) + v * ((1 # 2) * (half_way 1 (diff 0 d1) i j + half_way 1 (diff 0 d2) i j))).
Proof.
  intros M Bi Bj. unfold midpoint, half_way, diff. cbn [Z.eqb].
  destruct (M i j ltac:(lia) ltac:(lia)) as [A1 A2]. destruct (M (i + 1)%Z j ltac:(lia) ltac:(lia)) as [B1 B2]. destruct (M i (j + 1)%Z ltac:(lia) ltac:(lia)) as [C1 C2]. destruct (M (i + 1)%Z (j + 1)%Z ltac:(lia) ltac:(lia)) as [D1 D2].
  rewrite A1, A2, B1, B2, C1, C2, D1, D2. rewrite !inject_Z_plus. change (inject_Z 1) with 1. unfold pattern. field.
Qed.
(** Motion of such a pattern satisfies the equation of optical flow at every point. *)
Theorem C103_derivatives_exact h w a b c d e k u v d1 d2 i j : (0 < h)%Z -> (0 < w)%Z -> moving h w (pattern a b c d e k) u v d1 d2 -> temporal h w d1 d2 i j == - (u * spatial 1 h w d1 d2 i j + v * spatial 0 h w d1 d2 i j).
Proof.
  intros Ph Pw M. unfold temporal, spatial. apply surrounded_lin; [exact Ph|exact Pw|]. intros p q Bp Bq. exact (inner_translation h w a b c d e k u v d1 d2 p q M Bp Bq).
Qed.

(** ** Whole fields *)
Definition textured (h w size : Z) (d1 d2 : grid Q) : Prop := forall bi bj, (0 <= bi < boxes h size)%Z -> (0 <= bj < boxes w size)%Z -> structured h w size (spatial 1 h w d1 d2) (spatial 0 h w d1 d2) bi bj.
Lemma weight_nonneg damp h w size d1 d2 bi bj : 0 <= box_weight damp h w size d1 d2 bi bj.
Proof. unfold box_weight. cbv zeta. destruct (Qltb_spec (damp ((1 # 2) / inject_Z (size * size) * (box_sum h w size d1 bi bj + box_sum h w size d2 bi bj))) (1 # 100)); lra. Qed.
Lemma checked_weight_ok damp h w size d1 d2 a b : weights_ok a b (checked_weight damp h w size d1 d2).
Proof. intros i j _ _. unfold checked_weight. destruct (extreme _ _); [lra|apply weight_nonneg]. Qed.
Lemma extreme_spec n uv : BoolSpec (inject_Z n / 3 < Qabs (fst uv) + Qabs (snd uv)) (Qabs (fst uv) + Qabs (snd uv) <= inject_Z n / 3) (extreme n uv).
Proof. unfold extreme. apply Qltb_spec. Qed.
Lemma checked_size h w size d1 d2 bi bj : (0 < h)%Z -> (0 < size)%Z -> Qabs (fst (checked h w size d1 d2 bi bj)) + Qabs (snd (checked h w size d1 d2 bi bj)) <= inject_Z (boxes h size) / 3.
Proof.
  intros Ph Ps. unfold checked. cbv zeta. destruct (extreme_spec (boxes h size) (found h w size d1 d2 bi bj)) as [L|L]; [|exact L]. cbn [fst snd]. change (Qabs 0) with 0. pose proof (boxes_pos h size Ph Ps) as B. apply Qle_shift_div_l; [reflexivity|]. assert (0 <= inject_Z (boxes h size)) by (change 0 with (inject_Z 0); rewrite <- Zle_Qle; lia). lra.
Qed.
Lemma abs_bound x b : Qabs x <= b -> - b <= x <= b.
Proof. apply Qabs_Qle_condition. Qed.
(** No displacement exceeds a third of the number of rows of boxes, in grid squares. *)
Theorem C103_bounded damp n h w size d1 d2 i j : (0 < h)%Z -> (0 < w)%Z -> (3 <= size)%Z ->
  Qabs (fst (displacements damp n h w size d1 d2) i j) <= inject_Z (boxes h size) / 3 /\ Qabs (snd (displacements damp n h w size d1 d2) i j) <= inject_Z (boxes h size) / 3.
Proof.
  intros Ph Pw Ps. unfold displacements. cbv zeta. cbn [fst snd]. split; apply Qabs_Qle_condition; (apply smooth_boxes_within; [exact Ph|exact Pw|exact Ps|apply checked_weight_ok|]); intros bi bj _ _; pose proof (checked_size h w size d1 d2 bi bj Ph ltac:(lia)) as C; [pose proof (Qabs_nonneg (snd (checked h w size d1 d2 bi bj)))|pose proof (Qabs_nonneg (fst (checked h w size d1 d2 bi bj)))]; apply abs_bound; lra.
Qed.
(** A pattern of second degree moving by (u, v) is found to move by (u, v) everywhere, if that is at most a third of the number of rows of boxes... *)
Theorem C103_translation damp n h w size a b c d e k u v d1 d2 i j : (0 < h)%Z -> (0 < w)%Z -> (3 <= size)%Z -> moving h w (pattern a b c d e k) u v d1 d2 -> textured h w size d1 d2 -> Qabs u + Qabs v <= inject_Z (boxes h size) / 3 ->
  fst (displacements damp n h w size d1 d2) i j == u /\ snd (displacements damp n h w size d1 d2) i j == v.
Proof.
  intros Ph Pw Ps M T L.
  assert (F : forall bi bj, (0 <= bi < boxes h size)%Z -> (0 <= bj < boxes w size)%Z -> fst (checked h w size d1 d2 bi bj) == u /\ snd (checked h w size d1 d2 bi bj) == v).
  { intros bi bj Bi Bj. destruct (C103_exact_displacement h w size (spatial 1 h w d1 d2) (spatial 0 h w d1 d2) (temporal h w d1 d2) bi bj u v ltac:(lia) ltac:(lia) ltac:(lia) (T bi bj Bi Bj)) as [Fu Fv]; [intros p q _ _; exact (C103_derivatives_exact h w a b c d e k u v d1 d2 p q Ph Pw M)|].
    change (displacement h w size (spatial 1 h w d1 d2) (spatial 0 h w d1 d2) (temporal h w d1 d2) bi bj) with (found h w size d1 d2 bi bj) in *. unfold checked. cbv zeta. destruct (extreme_spec (boxes h size) (found h w size d1 d2 bi bj)) as [X|X]; [rewrite Fu, Fv in X; lra|now split]. }
  unfold displacements. cbv zeta. cbn [fst snd]. split.
  - assert (B : u <= smooth_boxes n h w size (checked_weight damp h w size d1 d2) (fun i j => fst (checked h w size d1 d2 i j)) i j <= u); [|lra]. apply smooth_boxes_within; try assumption; [apply checked_weight_ok|]. intros bi bj Bi Bj. destruct (F bi bj Bi Bj) as [E _]. rewrite E. lra.
  - assert (B : v <= smooth_boxes n h w size (checked_weight damp h w size d1 d2) (fun i j => snd (checked h w size d1 d2 i j)) i j <= v); [|lra]. apply smooth_boxes_within; try assumption; [apply checked_weight_ok|]. intros bi bj Bi Bj. destruct (F bi bj Bi Bj) as [_ E]. rewrite E. lra.
Qed.
(** ... and not to move at all if it is more, however large the domain is. *)
Theorem C103_fast_translation damp n h w size a b c d e k u v d1 d2 i j : (0 < h)%Z -> (0 < w)%Z -> (3 <= size)%Z -> moving h w (pattern a b c d e k) u v d1 d2 -> textured h w size d1 d2 -> inject_Z (boxes h size) / 3 < Qabs u + Qabs v ->
  fst (displacements damp n h w size d1 d2) i j == 0 /\ snd (displacements damp n h w size d1 d2) i j == 0.
Proof.
  intros Ph Pw Ps M T L.
  assert (F : forall bi bj, (0 <= bi < boxes h size)%Z -> (0 <= bj < boxes w size)%Z -> checked h w size d1 d2 bi bj = (0, 0)).
  { intros bi bj Bi Bj. destruct (C103_exact_displacement h w size (spatial 1 h w d1 d2) (spatial 0 h w d1 d2) (temporal h w d1 d2) bi bj u v ltac:(lia) ltac:(lia) ltac:(lia) (T bi bj Bi Bj)) as [Fu Fv]; [intros p q _ _; exact (C103_derivatives_exact h w a b c d e k u v d1 d2 p q Ph Pw M)|].
    change (displacement h w size (spatial 1 h w d1 d2) (spatial 0 h w d1 d2) (temporal h w d1 d2) bi bj) with (found h w size d1 d2 bi bj) in *. unfold checked. cbv zeta. destruct (extreme_spec (boxes h size) (found h w size d1 d2 bi bj)) as [X|X]; [reflexivity|rewrite Fu, Fv in X; lra]. }
  unfold displacements. cbv zeta. cbn [fst snd]. split.
  - assert (B : 0 <= smooth_boxes n h w size (checked_weight damp h w size d1 d2) (fun i j => fst (checked h w size d1 d2 i j)) i j <= 0); [|lra]. apply smooth_boxes_within; try assumption; [apply checked_weight_ok|]. intros bi bj Bi Bj. rewrite (F bi bj Bi Bj). cbn. lra.
  - assert (B : 0 <= smooth_boxes n h w size (checked_weight damp h w size d1 d2) (fun i j => snd (checked h w size d1 d2 i j)) i j <= 0); [|lra]. apply smooth_boxes_within; try assumption; [apply checked_weight_ok|]. intros bi bj Bi Bj. rewrite (F bi bj Bi Bj). cbn. lra.
Qed.
Lemma solve_factor s a a' b b' c c' p p' q q' : a' == a -> b' == b -> c' == c -> p' == s * p -> q' == s * q -> fst (solve a' b' c' p' q') == s * fst (solve a b c p q) /\ snd (solve a' b' c' p' q') == s * snd (solve a b c p q).
Proof.
  intros A B C P Q0. unfold solve. cbv zeta. assert (D : a' * c' - b' * b' == a * c - b * b) by (rewrite A, B, C; reflexivity). destruct (Qeqb_spec (a' * c' - b' * b') 0) as [X|X], (Qeqb_spec (a * c - b * b) 0) as [Y|Y]; cbn [fst snd]; try (split; ring); try (exfalso; lra). rewrite P, Q0, A, B, C. split; field; exact Y.
Qed.
Lemma displacement_factor s h w size dx dy dt dx' dy' dt' bi bj : (0 <= bi)%Z -> (0 <= bj)%Z -> (0 < size)%Z -> same h w dx' dx -> same h w dy' dy -> same h w dt' (fun i j => s * dt i j) ->
  fst (displacement h w size dx' dy' dt' bi bj) == s * fst (displacement h w size dx dy dt bi bj) /\ snd (displacement h w size dx' dy' dt' bi bj) == s * snd (displacement h w size dx dy dt bi bj).
Proof.
  intros Bi Bj Ps Ex Ey Et. unfold displacement. cbv zeta. apply solve_factor; [| | |rewrite <- bs_scale|rewrite <- bs_scale]; apply bs_ext; try assumption; intros i j I1 J1; rewrite ?(Ex i j I1 J1), ?(Ey i j I1 J1), ?(Et i j I1 J1); ring.
Qed.
Lemma spatial_swap axis h w d1 d2 i j : spatial axis h w d2 d1 i j == spatial axis h w d1 d2 i j.
Proof. assert (S : forall a b, surrounded h w (fun i j => (1 # 2) * (half_way (1 - axis) (diff axis d2) i j + half_way (1 - axis) (diff axis d1) i j)) a b == surrounded h w (fun i j => (1 # 2) * (half_way (1 - axis) (diff axis d1) i j + half_way (1 - axis) (diff axis d2) i j)) a b) by (intros a b; unfold surrounded; destruct (_ && _)%bool; [ring|reflexivity]). unfold spatial, midpoint. rewrite !S. reflexivity. Qed.
Lemma temporal_swap h w d1 d2 i j : temporal h w d2 d1 i j == -(1) * temporal h w d1 d2 i j.
Proof. assert (S : forall a b, surrounded h w (midpoint (fun i j => d1 i j - d2 i j)) a b == - surrounded h w (midpoint (fun i j => d2 i j - d1 i j)) a b) by (intros a b; unfold surrounded, midpoint; destruct (_ && _)%bool; ring). unfold temporal. unfold midpoint at 1 3. rewrite !S. ring. Qed.
Lemma found_reversed h w size d1 d2 bi bj : (0 <= bi)%Z -> (0 <= bj)%Z -> (0 < size)%Z -> fst (found h w size d2 d1 bi bj) == -(1) * fst (found h w size d1 d2 bi bj) /\ snd (found h w size d2 d1 bi bj) == -(1) * snd (found h w size d1 d2 bi bj).
Proof. intros Bi Bj Ps. unfold found. apply displacement_factor; try assumption; intros i j _ _; [apply spatial_swap|apply spatial_swap|apply temporal_swap]. Qed.
Lemma extreme_abs n x y : Qabs (fst x) + Qabs (snd x) == Qabs (fst y) + Qabs (snd y) -> extreme n x = extreme n y.
Proof. intro E. destruct (extreme_spec n x), (extreme_spec n y); try reflexivity; lra. Qed.
Lemma abs_minus x y : x == -(1) * y -> Qabs x == Qabs y.
Proof. intro E. rewrite E, Qabs_Qmult. change (Qabs (-(1))) with 1. ring. Qed.
(** Exchanging the fields reverses the motion. *)
Theorem C103_reversed damp n h w size d1 d2 i j : (forall x y, x == y -> damp x == damp y) -> (0 < h)%Z -> (0 < w)%Z -> (0 < size)%Z ->
  fst (displacements damp n h w size d2 d1) i j == - fst (displacements damp n h w size d1 d2) i j /\ snd (displacements damp n h w size d2 d1) i j == - snd (displacements damp n h w size d1 d2) i j.
Proof.
  intros Pd Ph Pw Ps.
  assert (X : forall bi bj, (0 <= bi < boxes h size)%Z -> (0 <= bj < boxes w size)%Z -> extreme (boxes h size) (found h w size d2 d1 bi bj) = extreme (boxes h size) (found h w size d1 d2 bi bj)).
  { intros bi bj Bi Bj. destruct (found_reversed h w size d1 d2 bi bj ltac:(lia) ltac:(lia) Ps) as [E1 E2]. apply extreme_abs. rewrite (abs_minus _ _ E1), (abs_minus _ _ E2). reflexivity. }
  assert (W : same (boxes h size) (boxes w size) (checked_weight damp h w size d2 d1) (checked_weight damp h w size d1 d2)).
  { intros bi bj Bi Bj. unfold checked_weight. rewrite (X bi bj Bi Bj). destruct (extreme _ _); [reflexivity|]. unfold box_weight. cbv zeta. set (s1 := box_sum h w size d1 bi bj). set (s2 := box_sum h w size d2 bi bj). assert (E : damp ((1 # 2) / inject_Z (size * size) * (s2 + s1)) == damp ((1 # 2) / inject_Z (size * size) * (s1 + s2))) by (apply Pd; ring). destruct (Qltb_spec (damp ((1 # 2) / inject_Z (size * size) * (s2 + s1))) (1 # 100)), (Qltb_spec (damp ((1 # 2) / inject_Z (size * size) * (s1 + s2))) (1 # 100)); lra. }
  unfold displacements. cbv zeta. cbn [fst snd]. split.
  - rewrite (smooth_boxes_factor n h w size (-(1)) (checked_weight damp h w size d1 d2) _ (fun a b => fst (checked h w size d1 d2 a b))); try assumption; [ring|]. intros bi bj Bi Bj. unfold checked. cbv zeta. rewrite (X bi bj Bi Bj). destruct (extreme _ _); [reflexivity|]. apply found_reversed; lia.
  - rewrite (smooth_boxes_factor n h w size (-(1)) (checked_weight damp h w size d1 d2) _ (fun a b => snd (checked h w size d1 d2 a b))); try assumption; [ring|]. intros bi bj Bi Bj. unfold checked. cbv zeta. rewrite (X bi bj Bi Bj). destruct (extreme _ _); [reflexivity|]. apply found_reversed; lia.
Qed.
(** Fields that are the same do not move. *)
Theorem C103_still damp n h w size d1 d2 i j : (0 < h)%Z -> (0 < w)%Z -> (3 <= size)%Z -> same h w d1 d2 -> fst (displacements damp n h w size d1 d2) i j == 0 /\ snd (displacements damp n h w size d1 d2) i j == 0.
Proof.
  intros Ph Pw Ps E. assert (T : forall a b, temporal h w d1 d2 a b == 0 * temporal h w d1 d2 a b).
  { intros a b. assert (S : forall p q, surrounded h w (midpoint (fun i j => d2 i j - d1 i j)) p q == 0). { intros p q. unfold surrounded, midpoint. destruct ((1 <=? p) && (p <=? h - 1) && (1 <=? q) && (q <=? w - 1))%Z eqn:Q0; [|reflexivity]. rewrite !andb_true_iff, !Z.leb_le in Q0. assert (E' : forall a b, (0 <= a < h)%Z -> (0 <= b < w)%Z -> d2 a b - d1 a b == 0) by (intros x y X Y; rewrite (E x y X Y); ring). rewrite !E' by lia. ring. } unfold temporal at 1. unfold midpoint at 1. rewrite !S. ring. }
  assert (F : forall bi bj, (0 <= bi < boxes h size)%Z -> (0 <= bj < boxes w size)%Z -> fst (checked h w size d1 d2 bi bj) == 0 /\ snd (checked h w size d1 d2 bi bj) == 0).
  { intros bi bj Bi Bj. unfold checked. cbv zeta. destruct (extreme _ _); [split; reflexivity|]. unfold found. destruct (displacement_factor 0 h w size (spatial 1 h w d1 d2) (spatial 0 h w d1 d2) (temporal h w d1 d2) (spatial 1 h w d1 d2) (spatial 0 h w d1 d2) (temporal h w d1 d2) bi bj ltac:(lia) ltac:(lia) ltac:(lia)) as [A B]; [intros p q _ _; reflexivity|intros p q _ _; reflexivity|intros p q _ _; apply T|]. split; lra. }
  unfold displacements. cbv zeta. cbn [fst snd]. split.
  - assert (B : 0 <= smooth_boxes n h w size (checked_weight damp h w size d1 d2) (fun i j => fst (checked h w size d1 d2 i j)) i j <= 0); [|lra]. apply smooth_boxes_within; try assumption; [apply checked_weight_ok|]. intros bi bj Bi Bj. destruct (F bi bj Bi Bj). lra.
  - assert (B : 0 <= smooth_boxes n h w size (checked_weight damp h w size d1 d2) (fun i j => snd (checked h w size d1 d2 i j)) i j <= 0); [|lra]. apply smooth_boxes_within; try assumption; [apply checked_weight_ok|]. intros bi bj Bi Bj. destruct (F bi bj Bi Bj). lra.
Qed.
(** Smoothing: boxes with weight keep within the displacements of boxes with weight, and do not depend on those without. *)
Theorem C103_dry_boxes_bounded n h w ws f lo hi : (0 < h)%Z -> (0 < w)%Z -> (forall i j, (0 <= i < h)%Z -> (0 <= j < w)%Z -> 0 <= ws i j) -> (forall i j, (0 <= i < h)%Z -> (0 <= j < w)%Z -> 0 < ws i j -> lo <= f i j <= hi) ->
  forall i j, (0 <= i < h)%Z -> (0 <= j < w)%Z -> 0 < ws i j -> lo <= smart_times n h w ws f f i j <= hi.
Proof. intros Ph Pw W F. apply times_rainy; assumption. Qed.
(** Boxes with rain and a displacement that is not extreme keep within the displacements found in such boxes: the others, whose displacements are set to zero, do not slow them down. *)
Theorem C103_extreme_boxes_ignored damp n h w size d1 d2 lo hi (pick : Q * Q -> Q) : (0 < h)%Z -> (0 < w)%Z -> (0 < size)%Z -> pick = fst \/ pick = snd ->
  let counts i j := extreme (boxes h size) (found h w size d1 d2 i j) = false /\ 0 < box_weight damp h w size d1 d2 i j in
  (forall i j, (0 <= i < boxes h size)%Z -> (0 <= j < boxes w size)%Z -> counts i j -> lo <= pick (found h w size d1 d2 i j) <= hi) ->
  forall i j, (0 <= i < boxes h size)%Z -> (0 <= j < boxes w size)%Z -> counts i j ->
  let v := fun i j => pick (checked h w size d1 d2 i j) in
  lo <= smart_times n (boxes h size) (boxes w size) (checked_weight damp h w size d1 d2) v v i j <= hi.
Proof.
  intros Ph Pw Ps Pk counts F i j Bi Bj [Ce Cw] v. assert (P : forall k, (0 < k)%Z -> (0 < boxes k size)%Z). { intros k K. unfold boxes. pose proof (Z.div_pos (k - 1) size ltac:(lia) Ps). lia. }
  assert (Hv : forall a b, (0 <= a < boxes h size)%Z -> (0 <= b < boxes w size)%Z -> 0 < checked_weight damp h w size d1 d2 a b -> lo <= v a b <= hi).
  { intros a b A B W; unfold v, checked; unfold checked_weight in W; cbv zeta; destruct (extreme (boxes h size) (found h w size d1 d2 a b)) eqn:E; [lra|]; apply F; [exact A|exact B|split; [exact E|exact W]]. }
  apply (C103_dry_boxes_bounded n (boxes h size) (boxes w size) (checked_weight damp h w size d1 d2) v lo hi (P h Ph) (P w Pw) (checked_weight_ok _ _ _ _ _ _ _ _) Hv i j Bi Bj).
  unfold checked_weight. rewrite Ce. exact Cw.
Qed.
(** The eight boxes around a box away from the edges: those that share a side weigh twice as much as those that share a corner. *)
Theorem C103_neighbour_weights h w f i j : (0 < i < h - 1)%Z -> (0 < j < w - 1)%Z ->
  around h w f i j == (1 # 6) * (f (i - 1)%Z j + f (i + 1)%Z j + f i (j - 1)%Z + f i (j + 1)%Z) + (1 # 12) * (f (i - 1)%Z (j - 1)%Z + f (i - 1)%Z (j + 1)%Z + f (i + 1)%Z (j - 1)%Z + f (i + 1)%Z (j + 1)%Z).
Proof.
  intros Bi Bj. assert (Rf : forall n k, (0 <= k < n)%Z -> reflected n k = k). { intros n k K. unfold reflected. cbv zeta. rewrite Z.mod_small by lia. destruct (Z.ltb_spec k n); lia. }
  unfold around, weighted_sum. change (Z.to_nat (2 * 1 + 1)) with 3%nat. change (- (1))%Z with (-1)%Z. cbn [zsum]. change (-1 + 1)%Z with 0%Z. change (0 + 1)%Z with 1%Z.
  unfold neighbours. cbn [Z.eqb andb orb]. rewrite ?Z.add_0_r. replace (i + -1)%Z with (i - 1)%Z by lia. replace (j + -1)%Z with (j - 1)%Z by lia. rewrite !(Rf h) by lia. rewrite !(Rf w) by lia. ring.
Qed.
Definition agree (h w : Z) (ws f g : grid Q) : Prop := forall i j, (0 <= i < h)%Z -> (0 <= j < w)%Z -> ~ ws i j == 0 -> f i j == g i j.
Lemma times_agree n h w ws : (0 < h)%Z -> (0 < w)%Z -> forall p p' v v', agree h w ws p p' -> agree h w ws v v' -> agree h w ws (smart_times n h w ws p v) (smart_times n h w ws p' v').
Proof.
  intros Ph Pw. induction n as [|n IH]; intros p p' v v' Ep Ev; [exact Ev|]. cbn [smart_times]. apply IH; [exact Ep|]. intros i j Bi Bj N. unfold smart. cbv zeta. assert (P : 0 < Qabs (ws i j)). { destruct (Qlt_le_dec 0 (Qabs (ws i j))) as [L|L]; [exact L|]. exfalso. apply N. pose proof (Qabs_nonneg (ws i j)). assert (Z0 : Qabs (ws i j) == 0) by lra. apply Qabs_Qle_condition in L. lra. }
  destruct (Qltb_spec 0 (Qabs (ws i j))); [|lra]. rewrite (Ep i j Bi Bj N). assert (E : around h w (fun a b => ws a b * v a b) i j == around h w (fun a b => ws a b * v' a b) i j); [|now rewrite E].
  unfold around. apply (wsum_ext h w); auto using reflected_in. intros a b A B. destruct (Qeq_dec (ws a b) 0) as [Z0|Z0]; [rewrite Z0; ring|]. now rewrite (Ev a b A B Z0).
Qed.
Theorem C103_dry_boxes_ignored n h w ws f g : (0 < h)%Z -> (0 < w)%Z -> (forall i j, (0 <= i < h)%Z -> (0 <= j < w)%Z -> ~ ws i j == 0 -> f i j == g i j) -> forall i j, (0 <= i < h)%Z -> (0 <= j < w)%Z -> ~ ws i j == 0 -> smart_times n h w ws f f i j == smart_times n h w ws g g i j.
Proof. intros Ph Pw E. apply times_agree; assumption. Qed.

(** ** A paraboloid moving over nine boxes *)
Definition bowl1 : grid Q := fun i j => pattern 1 0 1 0 0 0 (inject_Z j) (inject_Z i).
Definition bowl2 (u v : Q) : grid Q := fun i j => pattern 1 0 1 0 0 0 (inject_Z j - u) (inject_Z i - v).
Lemma bowl_moving h w u v : moving h w (pattern 1 0 1 0 0 0) u v bowl1 (bowl2 u v).
Proof. intros i j _ _. split; reflexivity. Qed.
Definition all_structured (h w size : Z) (d1 d2 : grid Q) : bool :=
  forallb (fun p => negb (let s f g := box_sum h w size (fun i j => f i j * g i j) (fst p) (snd p) in let dx := fun i j => Qred (spatial 1 h w d1 d2 i j) in let dy := fun i j => Qred (spatial 0 h w d1 d2 i j) in s dx dx * s dy dy - s dx dy * s dx dy =? 0)) (indices (boxes h size) (boxes w size)).
Lemma all_structured_ok h w size d1 d2 : all_structured h w size d1 d2 = true -> textured h w size d1 d2.
Proof.
  intros A bi bj Bi Bj. unfold all_structured in A. rewrite forallb_forall in A. specialize (A (bi, bj) (proj2 (indices_in _ _ bi bj) (conj Bi Bj))). cbv zeta in A. cbn [fst snd] in A. apply negb_true_iff in A. unfold structured. intro E. apply Qeq_bool_neq in A. apply A. rewrite <- E.
  assert (R : forall f g : grid Q, box_sum h w size (fun i j => Qred (f i j) * Qred (g i j)) bi bj == box_sum h w size (fun i j => f i j * g i j) bi bj) by (intros f g; apply bs_all; intros i j; rewrite !Qred_correct; reflexivity). rewrite !R. reflexivity.
Qed.
Example C103_case damp n i j : fst (displacements damp n 9 9 3 bowl1 (bowl2 (1 # 2) (-1 # 4))) i j == 1 # 2 /\ snd (displacements damp n 9 9 3 bowl1 (bowl2 (1 # 2) (-1 # 4))) i j == -1 # 4.
Proof. apply (C103_translation damp n 9 9 3 1 0 1 0 0 0); try lia; [apply bowl_moving|apply all_structured_ok; vm_compute; reflexivity|vm_compute; discriminate]. Qed.
(** Motion by 2 grid squares over a domain of 9 is taken for none, although a third of the domain is 3. *)
Theorem C103_third_of_domain_refuted : exists h w size u v d1 d2, moving h w (pattern 1 0 1 0 0 0) u v d1 d2 /\ textured h w size d1 d2 /\ Qabs u + Qabs v < inject_Z h / 3 /\ Qabs u + Qabs v < inject_Z w / 3 /\ (3 <= size)%Z /\ 0 < u /\
  forall damp n i j, fst (displacements damp n h w size d1 d2) i j == 0.
Proof.
  exists 9%Z, 9%Z, 3%Z, 2, 0, bowl1, (bowl2 2 0). assert (T : textured 9 9 3 bowl1 (bowl2 2 0)) by (apply all_structured_ok; vm_compute; reflexivity). split; [apply bowl_moving|]. split; [exact T|]. split; [vm_compute; reflexivity|]. split; [vm_compute; reflexivity|]. split; [lia|]. split; [reflexivity|]. intros damp n i j.
  refine (proj1 (C103_fast_translation damp n 9 9 3 1 0 1 0 0 0 2 0 bowl1 (bowl2 2 0) i j _ _ _ _ _ _)); try lia; [apply bowl_moving|exact T|vm_compute; reflexivity].
Qed.
(** The same motion on the same fields with rows and columns exchanged may be found or not. *)
Theorem C103_transposed_refuted : exists h w size u v d1 d2, moving h w (pattern 1 0 1 0 0 0) u v d1 d2 /\ (3 <= size)%Z /\ 0 < u /\ (forall damp n i j, fst (displacements damp n h w size d1 d2) i j == 0) /\ (forall damp n i j, snd (displacements damp n w h size (fun i j => d1 j i) (fun i j => d2 j i)) i j == u).
Proof.
  exists 3%Z, 9%Z, 3%Z, (1 # 2), 0, bowl1, (bowl2 (1 # 2) 0). split; [apply bowl_moving|]. split; [lia|]. split; [reflexivity|]. split; intros damp n i j.
  - refine (proj1 (C103_fast_translation damp n 3 9 3 1 0 1 0 0 0 (1 # 2) 0 bowl1 (bowl2 (1 # 2) 0) i j _ _ _ _ _ _)); try lia; [apply bowl_moving|apply all_structured_ok; vm_compute; reflexivity|vm_compute; reflexivity].
  - refine (proj2 (C103_translation damp n 9 3 3 1 0 1 0 0 0 0 (1 # 2) (fun i j => bowl1 j i) (fun i j => bowl2 (1 # 2) 0 j i) i j _ _ _ _ _ _)); try lia; [|apply all_structured_ok; vm_compute; reflexivity|vm_compute; discriminate]. intros a b _ _. unfold bowl1, bowl2, pattern. split; ring.
Qed.

(** ** The plugin *)
Lemma velocities_inv damp p spacing size f g u v : velocities damp p spacing size f g = Ok (u, v) -> exists t r, check_fields f g = Ok tt /\ advection_time f g = Ok t /\ smoothing_radius (pl_km p) t spacing = Ok r /\ (r <= size)%Z /\
  ((dry f || dry g = true)%bool /\ (forall i j, u i j = 0 /\ v i j = 0) \/ (dry f || dry g = false)%bool /\ forall i j, let d := dimensionless damp (pl_method p) (pl_iterations p) (rows f) (cols f) size r (filled f) (filled g) in u i j = fst d i j * (1000 * spacing) / inject_Z t /\ v i j = snd d i j * (1000 * spacing) / inject_Z t).
Proof.
  unfold velocities. destruct (check_fields f g) as [[]|]; [|discriminate]. cbn [bind]. destruct (advection_time f g) as [t|]; [|discriminate]. cbn [bind]. destruct (smoothing_radius (pl_km p) t spacing) as [r|] eqn:Er; [|discriminate]. cbn [bind]. destruct (Z.ltb_spec size r); [discriminate|]. intro H0. exists t, r. split; [reflexivity|]. split; [reflexivity|]. split; [exact Er|]. split; [assumption|]. destruct (dry f || dry g)%bool; apply Ok_inj, pair_equal_spec in H0 as [<- <-]; [left|right]; (split; [reflexivity|]); intros; split; reflexivity.
Qed.
Lemma time_positive f g t : advection_time f g = Ok t -> (0 < t)%Z.
Proof. unfold advection_time. intro H. match type of H with bind ?x _ = _ => destruct x as [s|] end; [|discriminate]. cbn [bind] in H. destruct (Z.leb_spec s 0); [discriminate|]. apply Ok_inj in H. lia. Qed.
Lemma radius_bounds km t spacing r : smoothing_radius km t spacing = Ok r -> (3 <= r)%Z.
Proof. unfold smoothing_radius. cbv zeta. intro H. destruct (Z.ltb_spec (truncate ((if (900 <? t)%Z then km * (inject_Z t / 900) else km) / spacing)) 3); [discriminate|]. apply Ok_inj in H. lia. Qed.
(** Times: the second field must be later, or now with the first a forecast for now; the time is positive. *)
Theorem C103_time f g t : advection_time f g = Ok t -> (0 < t)%Z /\ (t = o_time g - o_time f \/ o_time g = o_time f /\ o_period f = Some t /\ (o_period g = None \/ o_period g = Some 0))%Z.
Proof.
  intro H. split; [exact (time_positive f g t H)|]. unfold advection_time in H. destruct (Z.eqb_spec (o_time g - o_time f) 0) as [E|E].
  - right. split; [lia|]. destruct (o_period g) as [x|]; [destruct (Z.eqb_spec x 0); [|discriminate]|]; (destruct (o_period f) as [q|]; [|discriminate]); cbn [bind] in H; (destruct (q <=? 0)%Z; [discriminate|]); apply Ok_inj in H; subst; auto.
  - left. cbn [bind] in H. destruct (_ <=? 0)%Z; [discriminate|]. apply Ok_inj in H. lia.
Qed.
Lemma same_axis_spec a : forall b, same_axis a b = true <-> Forall2 Qeq a b.
Proof.
  unfold same_axis. induction a as [|x a IH]; intros [|y b]; cbn.
  - split; constructor.
  - split; [discriminate|intro F; inversion F].
  - split; [discriminate|intro F; inversion F].
  - rewrite andb_true_iff in *. specialize (IH b). rewrite andb_true_iff in IH. rewrite andb_true_iff. split.
    + intros (L & X & R). constructor; [now apply Qeq_bool_iff|]. apply IH. now split.
    + intro F. inversion F as [|? ? ? ? X R]; subst. apply IH in R as [L R]. split; [exact L|]. split; [now apply Qeq_bool_iff|exact R].
Qed.
(** Fields of different names, on different grids or in the wrong order are refused. *)
Theorem C103_refused damp p spacing size f g : (o_name f <> o_name g -> velocities damp p spacing size f g = Err ValueError) /\
  (o_name f = o_name g -> ~ (Forall2 Qeq (o_x f) (o_x g) /\ Forall2 Qeq (o_y f) (o_y g)) -> velocities damp p spacing size f g = Err InvalidCubeError) /\
  (o_name f = o_name g -> (o_time g < o_time f)%Z -> velocities damp p spacing size f g = Err InvalidCubeError).
Proof.
  unfold velocities, check_fields. split; [|split].
  - intro N. destruct (String.eqb_spec (o_name f) (o_name g)); [contradiction|reflexivity].
  - intros -> N. rewrite String.eqb_refl. cbn [negb]. rewrite <- !same_axis_spec in N. destruct (same_axis (o_x f) (o_x g)), (same_axis (o_y f) (o_y g)); try reflexivity. exfalso. apply N. split; reflexivity.
  - intros -> L. rewrite String.eqb_refl. cbn [negb]. destruct (_ && _)%bool; [|reflexivity]. cbn [bind]. unfold advection_time. destruct (Z.eqb_spec (o_time g - o_time f) 0); [lia|]. cbn [bind]. destruct (Z.leb_spec (o_time g - o_time f) 0); [reflexivity|lia].
Qed.
(** The smoothing radius is at least three squares and at most the size of the boxes. *)
Theorem C103_radius damp p spacing size f g uv : velocities damp p spacing size f g = Ok uv -> exists t r, advection_time f g = Ok t /\ (3 <= r <= size)%Z /\ r = truncate ((if (900 <? t)%Z then pl_km p * (inject_Z t / 900) else pl_km p) / spacing).
Proof.
  destruct uv as [u v]. intro H. destruct (velocities_inv _ _ _ _ _ _ _ _ H) as (t & r & _ & Et & Er & Lr & _). exists t, r. split; [exact Et|]. pose proof (radius_bounds _ _ _ _ Er). split; [lia|]. unfold smoothing_radius in Er. cbv zeta in Er. destruct (_ <? 3)%Z; [discriminate|]. apply Ok_inj in Er. now symmetry.
Qed.
(** No speed exceeds that of crossing, in the time between the fields, a third of as many grid lengths as there are rows of boxes. *)
Theorem C103_speed_bounded damp p spacing size f g u v i j : 0 < spacing -> (0 < rows f)%Z -> (0 < cols f)%Z -> velocities damp p spacing size f g = Ok (u, v) -> exists t, advection_time f g = Ok t /\
  let most := inject_Z (boxes (rows f) size) / 3 * (1000 * spacing) / inject_Z t in Qabs (u i j) <= most /\ Qabs (v i j) <= most.
Proof.
  intros Sp Pr Pc H. destruct (velocities_inv _ _ _ _ _ _ _ _ H) as (t & r & _ & Et & Er & Lr & D). exists t. split; [exact Et|]. cbv zeta. pose proof (time_positive f g t Et) as Pt. pose proof (radius_bounds _ _ _ _ Er) as R3. assert (It : 0 < inject_Z t) by (change 0 with (inject_Z 0); now rewrite <- Zlt_Qlt).
  assert (Bx : 0 <= inject_Z (boxes (rows f) size) / 3). { apply Qle_shift_div_l; [reflexivity|]. pose proof (boxes_pos (rows f) size Pr ltac:(lia)). assert (0 <= inject_Z (boxes (rows f) size)) by (change 0 with (inject_Z 0); rewrite <- Zle_Qle; lia). lra. }
  assert (K : forall d, Qabs d <= inject_Z (boxes (rows f) size) / 3 -> Qabs (d * (1000 * spacing) / inject_Z t) <= inject_Z (boxes (rows f) size) / 3 * (1000 * spacing) / inject_Z t).
  { intros d L. unfold Qdiv at 1 3. rewrite !Qabs_Qmult. assert (P1 : 0 <= 1000 * spacing) by lra. assert (P2 : 0 < / inject_Z t) by (apply Qinv_lt_0_compat; exact It). rewrite (Qabs_pos (1000)) by lra. rewrite (Qabs_pos spacing) by lra. rewrite (Qabs_pos (/ inject_Z t)) by lra. apply Qmult_le_compat_r; [|lra]. apply Qmult_le_compat_r; [exact L|exact P1]. }
  destruct D as [[_ D]|[_ D]]; destruct (D i j) as [-> ->].
  - change (Qabs 0) with 0. assert (Q0 : 0 <= inject_Z (boxes (rows f) size) / 3 * (1000 * spacing) / inject_Z t); [|now split]. apply Qle_shift_div_l; [exact It|]. rewrite Qmult_0_l. apply Qmult_le_0_compat; lra.
  - cbv zeta. unfold dimensionless. destruct (C103_bounded damp (pl_iterations p) (rows f) (cols f) size (smooth (pl_method p) (rows f) (cols f) r (filled f)) (smooth (pl_method p) (rows f) (cols f) r (filled g)) i j Pr Pc ltac:(lia)) as [B1 B2]. split; apply K; assumption.
Qed.
(** Nothing moves if a field is dry or the fields are the same. *)
Theorem C103_no_motion damp p spacing size f g u v i j : (0 < rows f)%Z -> (0 < cols f)%Z -> velocities damp p spacing size f g = Ok (u, v) -> dry f = true \/ dry g = true \/ same (rows f) (cols f) (filled f) (filled g) -> u i j == 0 /\ v i j == 0.
Proof.
  intros Pr Pc H C. destruct (velocities_inv _ _ _ _ _ _ _ _ H) as (t & r & _ & Et & Er & Lr & D). pose proof (radius_bounds _ _ _ _ Er) as R3. destruct D as [[_ D]|[Dr D]]; destruct (D i j) as [-> ->]; [split; reflexivity|]. apply orb_false_iff in Dr as [D1 D2]. destruct C as [C|[C|C]]; try congruence. cbv zeta. unfold dimensionless.
  destruct (C103_still damp (pl_iterations p) (rows f) (cols f) size (smooth (pl_method p) (rows f) (cols f) r (filled f)) (smooth (pl_method p) (rows f) (cols f) r (filled g)) i j Pr Pc ltac:(lia)) as [E1 E2]; [intros a b _ _; now apply smooth_ext|]. rewrite E1, E2. split; unfold Qdiv; ring.
Qed.
(** The plugin insists on twenty iterations. *)
Theorem C103_iterations m km n p : new_plugin m km n = Ok p -> (20 <= pl_iterations p)%nat.
Proof. unfold new_plugin. destruct (Nat.ltb_spec n 20); [discriminate|]. intro E. apply Ok_inj in E. subst p. exact H. Qed.
(** ** Several fields: their order in the list is irrelevant. *)
Lemma insert_swap f g l : o_time f <> o_time g -> insert_time f (insert_time g l) = insert_time g (insert_time f l).
Proof.
  intro N. induction l as [|k l IH]; cbn [insert_time].
  - destruct (Z.ltb_spec (o_time g) (o_time f)), (Z.ltb_spec (o_time f) (o_time g)); try lia; reflexivity.
  - destruct (Z.ltb_spec (o_time k) (o_time g)) as [A|A], (Z.ltb_spec (o_time k) (o_time f)) as [B|B]; cbn [insert_time].
    + rewrite (proj2 (Z.ltb_lt _ _) A), (proj2 (Z.ltb_lt _ _) B), IH. reflexivity.
    + rewrite (proj2 (Z.ltb_ge _ _) B). destruct (Z.ltb_spec (o_time f) (o_time g)); [|lia]. rewrite (proj2 (Z.ltb_lt _ _) A). reflexivity.
    + rewrite (proj2 (Z.ltb_ge _ _) A). destruct (Z.ltb_spec (o_time g) (o_time f)); [|lia]. rewrite (proj2 (Z.ltb_lt _ _) B). reflexivity.
    + destruct (Z.ltb_spec (o_time g) (o_time f)), (Z.ltb_spec (o_time f) (o_time g)); try lia; [rewrite (proj2 (Z.ltb_ge _ _) B); reflexivity|rewrite (proj2 (Z.ltb_ge _ _) A); reflexivity].
Qed.
Lemma by_time_perm l l' : Permutation l l' -> NoDup (map o_time l) -> by_time l = by_time l'.
Proof.
  intro P. induction P as [|x l l' P IH|x y l|l1 l2 l3 P1 IH1 P2 IH2]; intro N; [reflexivity| | |].
  - cbn in *. inversion N; subst. unfold by_time in *. now rewrite IH.
  - cbn in *. apply insert_swap. inversion N as [|? ? A _]; subst. intro E. apply A. left. symmetry. exact E.
  - rewrite IH1 by exact N. apply IH2. apply (Permutation_NoDup (Permutation_map o_time P1) N).
Qed.
Theorem C103_order damp size n spacing l l' : Permutation l l' -> NoDup (map o_time l) -> components damp size n spacing l = components damp size n spacing l'.
Proof. intros P N. unfold components. now rewrite (by_time_perm l l' P N). Qed.
(** Two fields: their velocities; one: refused. *)
Theorem C103_two_fields damp size n spacing f g p u v : (o_time f < o_time g)%Z -> new_plugin Box 14 n = Ok p -> velocities damp p spacing size f g = Ok (u, v) -> exists u' v', components damp size n spacing [g; f] = Ok (u', v') /\ forall i j, u' i j == u i j /\ v' i j == v i j.
Proof.
  intros L P V. exists (mean_grid [u]), (mean_grid [v]). split.
  - unfold components, by_time. cbn [fold_right insert_time]. destruct (Z.ltb_spec (o_time f) (o_time g)); [|lia]. rewrite P. cbn [bind consecutive mapM fst snd]. rewrite V. reflexivity.
  - intros i j. unfold mean_grid. cbn [map qsum]. unfold Qlen. cbn [length]. change (inject_Z (Z.of_nat 1)) with 1. split; field.
Qed.
Theorem C103_one_field damp size n spacing f : components damp size n spacing [f] = Err ValueError.
Proof. unfold components, by_time. cbn [fold_right insert_time]. unfold new_plugin. destruct (n <? 20)%nat; reflexivity. Qed.
(** Means of velocities stay within their bounds. *)
Lemma mean_within gs lo hi i j : gs <> [] -> Forall (fun g : grid Q => lo <= g i j <= hi) gs -> lo <= mean_grid gs i j <= hi.
Proof.
  intros N F. unfold mean_grid. assert (P : 0 < Qlen gs) by (unfold Qlen; destruct gs; [congruence|]; reflexivity). apply quot_within; [exact P|]. clear N P. induction F as [|g gs B F IH]; [cbn; unfold Qlen; cbn; change (inject_Z 0) with 0; split; lra|]. cbn [map qsum]. rewrite Qlen_cons. destruct IH. split; lra.
Qed.
Theorem C103_mean_bounded gs lo hi i j : gs <> [] -> (forall g, In g gs -> lo <= g i j <= hi) -> lo <= mean_grid gs i j <= hi.
Proof. intros N F. apply mean_within; [exact N|]. now apply Forall_forall. Qed.

(** The background flow comes back from the total by taking off the perturbation, where there is one; elsewhere it is the total. *)
Theorem C103_perturbation (flows : list Q) (adjustments : list (option Q)) k a f : nth_error (map (fun p => perturbed (fst p) (snd p)) (combine flows adjustments)) k = Some f -> nth_error adjustments k = Some a ->
  exists b, nth_error flows k = Some b /\ match a with Some x => f - x == b | None => f == b end.
Proof.
  revert adjustments k. induction flows as [|b flows IH]; intros [|a' adjustments] [|k]; cbn [combine map nth_error]; try discriminate; [|apply IH]. cbn [fst snd]. intros H E. injection E as ->. injection H as <-. exists b. split; [reflexivity|]. destruct a; cbn [perturbed]; [ring|reflexivity].
Qed.

Print Assumptions C103_least_mismatch.
Print Assumptions C103_unstructured.
Print Assumptions C103_exact_displacement.
Print Assumptions C103_derivatives_exact.
Print Assumptions C103_bounded.
Print Assumptions C103_translation.
Print Assumptions C103_fast_translation.
Print Assumptions C103_reversed.
Print Assumptions C103_still.
Print Assumptions C103_dry_boxes_bounded.
Print Assumptions C103_extreme_boxes_ignored.
Print Assumptions C103_neighbour_weights.
Print Assumptions C103_dry_boxes_ignored.
Print Assumptions C103_third_of_domain_refuted.
Print Assumptions C103_transposed_refuted.
Print Assumptions C103_time.
Print Assumptions C103_refused.
Print Assumptions C103_radius.
Print Assumptions C103_speed_bounded.
Print Assumptions C103_no_motion.
Print Assumptions C103_iterations.
Print Assumptions C103_order.
Print Assumptions C103_two_fields.
Print Assumptions C103_one_field.
Print Assumptions C103_mean_bounded.
Print Assumptions C103_perturbation.
