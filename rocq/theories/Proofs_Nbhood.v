From Verif Require Import Base Model_Nbhood Spec_Nbhood.
Lemma Ok_inj {A} (x y : A) : Ok x = Ok y -> x = y.
Proof. congruence. Qed.
Local Open Scope Q_scope.

(** * Sums *)
Lemma zsum_ext n : forall a f g, (forall i, (a <= i < a + Z.of_nat n)%Z -> f i == g i) -> zsum a n f == zsum a n g.
Proof.
  induction n as [|n IH]; intros a f g H; cbn [zsum]; [reflexivity|]. rewrite (H a) by lia. rewrite (IH (a + 1)%Z f g); [reflexivity|].
  intros i Hi. apply H. lia.
Qed.
Lemma zsum_shift n c : forall a f, zsum a n (fun i => f (i + c)%Z) = zsum (a + c) n f.
Proof. induction n as [|n IH]; intros a f; cbn [zsum]; [reflexivity|]. rewrite IH. replace (a + 1 + c)%Z with (a + c + 1)%Z by lia. reflexivity. Qed.
Lemma zsum_split n k : forall a f, zsum a (n + k) f == zsum a n f + zsum (a + Z.of_nat n) k f.
Proof.
  induction n as [|n IH]; intros a f.
  - cbn [Nat.add zsum]. replace (a + Z.of_nat 0)%Z with a by lia. ring.
  - cbn [Nat.add zsum]. rewrite IH. replace (a + 1 + Z.of_nat n)%Z with (a + Z.of_nat (S n))%Z by lia. ring.
Qed.
Lemma zsum_zero n a f : (forall i, (a <= i < a + Z.of_nat n)%Z -> f i == 0) -> zsum a n f == 0.
Proof. intro H. rewrite (zsum_ext n a f (fun _ => 0) H). clear H. revert a. induction n as [|n IH]; intro a; cbn [zsum]; [reflexivity|]. rewrite IH. ring. Qed.
Lemma zsum_minus n : forall a f g, zsum a n (fun i => f i - g i) == zsum a n f - zsum a n g.
Proof. induction n as [|n IH]; intros a f g; cbn [zsum]; [ring|]. rewrite IH. ring. Qed.
Lemma zsum_plus n : forall a f g, zsum a n (fun i => f i + g i) == zsum a n f + zsum a n g.
Proof. induction n as [|n IH]; intros a f g; cbn [zsum]; [ring|]. rewrite IH. ring. Qed.
Lemma zsum_scale n c : forall a f, zsum a n (fun i => c * f i) == c * zsum a n f.
Proof. induction n as [|n IH]; intros a f; cbn [zsum]; [ring|]. rewrite IH. ring. Qed.
Lemma zsum_le n : forall a f g, (forall i, (a <= i < a + Z.of_nat n)%Z -> f i <= g i) -> zsum a n f <= zsum a n g.
Proof.
  induction n as [|n IH]; intros a f g H; cbn [zsum]; [lra|]. assert (A := H a). assert (B := IH (a + 1)%Z f g).
  apply Qplus_le_compat; [apply A; lia|apply B; intros i Hi; apply H; lia].
Qed.
Lemma zsum_nonneg n a f : (forall i, (a <= i < a + Z.of_nat n)%Z -> 0 <= f i) -> 0 <= zsum a n f.
Proof. intro H. assert (E : zsum a n (fun _ => 0) == 0) by (apply zsum_zero; reflexivity). rewrite <- E. apply zsum_le. exact H. Qed.
Lemma zsum_zero_inv n : forall a f, (forall i, (a <= i < a + Z.of_nat n)%Z -> 0 <= f i) -> zsum a n f == 0 -> forall i, (a <= i < a + Z.of_nat n)%Z -> f i == 0.
Proof.
  induction n as [|n IH]; intros a f H E i Hi; [lia|]. cbn [zsum] in E.
  assert (H0 : 0 <= f a) by (apply H; lia). assert (H1 : 0 <= zsum (a + 1) n f) by (apply zsum_nonneg; intros k Hk; apply H; lia).
  destruct (Z.eq_dec i a) as [->|N]; [lra|]. apply (IH (a + 1)%Z f); [intros k Hk; apply H; lia|lra|lia].
Qed.

Lemma inside_true h w i j : inside h w i j = true <-> (0 <= i < h)%Z /\ (0 <= j < w)%Z.
Proof. unfold inside. rewrite !andb_true_iff, !Z.leb_le, !Z.ltb_lt. lia. Qed.

(** * Box sums *)
Lemma cumsum_diff f i n : (-1 <= i)%Z -> (0 <= n)%Z ->
  zsum 0 (Z.to_nat (n + i + 1)) f - zsum 0 (Z.to_nat (i + 1)) f == zsum (i + 1) (Z.to_nat n) f.
Proof.
  intros Hi Hn. replace (Z.to_nat (n + i + 1)) with (Z.to_nat (i + 1) + Z.to_nat n)%nat by lia. rewrite zsum_split.
  replace (0 + Z.of_nat (Z.to_nat (i + 1)))%Z with (i + 1)%Z by lia. ring.
Qed.
Lemma boxsum_spec h w r c g : (0 <= r)%Z -> exists s, boxsum h w (2 * r + 1) c g = Ok s /\
  forall y x, (0 <= y)%Z -> (0 <= x)%Z -> s y x == square_total c h w r g y x.
Proof.
  intro Hr. unfold boxsum. replace (Z.even (2 * r + 1)) with false by (rewrite Z.add_comm, Z.even_add_mul_2; reflexivity).
  replace ((2 * r + 1) / 2)%Z with r by (apply (Z.div_unique (2 * r + 1) 2 r 1); lia).
  eexists. split; [reflexivity|]. intros y x Hy Hx. cbv beta. set (P := padded (r + 1) h w c g). set (n := (2 * r + 1)%Z).
  assert (D : forall i, cumsum_cols (cumsum_rows P) i (n + x)%Z - cumsum_cols (cumsum_rows P) i x == zsum (x + 1) (Z.to_nat n) (fun j => cumsum_rows P i j)).
  { intro i. unfold cumsum_cols. apply (cumsum_diff (fun k => cumsum_rows P i k) x n); lia. }
  setoid_replace (cumsum_cols (cumsum_rows P) (n + y)%Z (n + x)%Z - cumsum_cols (cumsum_rows P) y (n + x)%Z + cumsum_cols (cumsum_rows P) y x - cumsum_cols (cumsum_rows P) (n + y)%Z x)
    with (zsum (x + 1) (Z.to_nat n) (fun j => cumsum_rows P (n + y)%Z j) - zsum (x + 1) (Z.to_nat n) (fun j => cumsum_rows P y j)) by (rewrite <- !D; ring).
  rewrite <- zsum_minus.
  assert (SW : forall a b k l (f : Z -> Z -> Q), zsum a k (fun j => zsum b l (fun i => f i j)) == zsum b l (fun i => zsum a k (fun j => f i j))).
  { intros a b k l f. revert a. induction k as [|k IH]; intro a; cbn [zsum]; [symmetry; apply zsum_zero; reflexivity|]. rewrite IH. rewrite zsum_plus. reflexivity. }
  rewrite (zsum_ext _ _ _ (fun j => zsum (y + 1) (Z.to_nat n) (fun i => P i j))).
  2:{ intros j _. unfold cumsum_rows. apply (cumsum_diff (fun k => P k j) y n); lia. }
  rewrite SW. unfold square_total. fold n.
  replace (y + 1)%Z with (y - r + (r + 1))%Z by lia. rewrite <- (zsum_shift _ (r + 1)).
  apply zsum_ext. intros i _. replace (x + 1)%Z with (x - r + (r + 1))%Z by lia. rewrite <- (zsum_shift _ (r + 1)).
  apply zsum_ext. intros j _. unfold P, padded, value. replace (i + (r + 1) - (r + 1))%Z with i by lia. replace (j + (r + 1) - (r + 1))%Z with j by lia. reflexivity.
Qed.

Lemma square_total_total h w r g y x : square_total 0 h w r g y x == total Square h w r g y x.
Proof.
  unfold square_total, total. replace (y - r)%Z with (- r + y)%Z by lia. rewrite <- (zsum_shift _ y). apply zsum_ext. intros dy _.
  replace (x - r)%Z with (- r + x)%Z by lia. rewrite <- (zsum_shift _ x). apply zsum_ext. intros dx _. cbn [weight entry].
  replace (dy + y)%Z with (y + dy)%Z by lia. replace (dx + x)%Z with (x + dx)%Z by lia. ring.
Qed.
Lemma kernel_weight b r dy dx : (0 < r)%Z -> circular_kernel r b dy dx == weight (Circular b) r dy dx.
Proof.
  intro Hr. unfold circular_kernel, weight. destruct b; [|reflexivity].
  assert (H : 0 < inject_Z (r * r)) by (change 0 with (inject_Z 0); rewrite <- Zlt_Qlt; nia).
  set (a := inject_Z (r * r)) in *. set (d := inject_Z (dy * dy + dx * dx)).
  assert (E : (a - d) / a == 1 - d / a) by (field; lra). destruct ((a - d) / a <? 0) eqn:L.
  - apply Qltb_lt in L. qmm; lra.
  - apply Qltb_ge in L. rewrite E. qmm; lra.
Qed.

(** * Bounding boxes *)
Lemma lmin_spec l : forall d, (lmin d l <= d)%Z /\ (forall z, In z l -> (lmin d l <= z)%Z) /\ (In (lmin d l) (d :: l)).
Proof.
  induction l as [|x l IH]; intro d; cbn [lmin fold_right]; [split; [lia|]; split; [intros z []|left; reflexivity]|].
  destruct (IH d) as [A [B C]]. fold (lmin d l). split; [lia|]. split; [intros z [<-|Hz]; [lia|specialize (B z Hz); lia]|].
  destruct (Z.min_spec x (lmin d l)) as [[_ ->]|[_ ->]]; [right; left; reflexivity|]. destruct C as [<-|C]; [left; reflexivity|right; right; exact C].
Qed.
Lemma lmax_spec l : forall d, (d <= lmax d l)%Z /\ (forall z, In z l -> (z <= lmax d l)%Z) /\ (In (lmax d l) (d :: l)).
Proof.
  induction l as [|x l IH]; intro d; cbn [lmax fold_right]; [split; [lia|]; split; [intros z []|left; reflexivity]|].
  destruct (IH d) as [A [B C]]. fold (lmax d l). split; [lia|]. split; [intros z [<-|Hz]; [lia|specialize (B z Hz); lia]|].
  destruct (Z.max_spec x (lmax d l)) as [[_ ->]|[_ ->]]; [|right; left; reflexivity]. destruct C as [<-|C]; [left; reflexivity|right; right; exact C].
Qed.
Lemma zseq_in n z : In z (zseq n) <-> (0 <= z < n)%Z.
Proof.
  unfold zseq. rewrite in_map_iff. split.
  - intros [k [<- H]]. apply in_seq in H. lia.
  - intro H. exists (Z.to_nat z). split; [lia|]. apply in_seq. lia.
Qed.
Lemma indices_in h w i j : In (i, j) (indices h w) <-> (0 <= i < h)%Z /\ (0 <= j < w)%Z.
Proof. unfold indices. rewrite in_prod_iff, !zseq_in. reflexivity. Qed.
Lemma differing_in h w e g i j : In (i, j) (differing h w e g) <-> (0 <= i < h)%Z /\ (0 <= j < w)%Z /\ ~ g i j == e.
Proof.
  unfold differing. rewrite filter_In, indices_in. cbn [fst snd]. split.
  - intros [[A B] C]. split; [exact A|]. split; [exact B|]. intro E. apply Qeq_bool_iff in E. rewrite E in C. discriminate.
  - intros [A [B C]]. split; [split; trivial|]. destruct (g i j =? e) eqn:E; [|reflexivity]. exfalso. apply C. apply Qeq_bool_iff. exact E.
Qed.
Lemma bounding_spec h w r e g : (0 <= r)%Z -> let b := bounding h w r e g in
  ((forall i j, (0 <= i < h)%Z -> (0 <= j < w)%Z -> g i j == e) /\ box_size b = 0%Z) \/
  (exists y0 y1 x0 x1, (0 <= y0 <= y1)%Z /\ (y1 < h)%Z /\ (0 <= x0 <= x1)%Z /\ (x1 < w)%Z /\
    b = {| ystart := Z.max 0 (y0 - r); ystop := Z.min h (y1 + 1 + r); xstart := Z.max 0 (x0 - r); xstop := Z.min w (x1 + 1 + r) |} /\
    (forall i j, (0 <= i < h)%Z -> (0 <= j < w)%Z -> ~ g i j == e -> (y0 <= i <= y1)%Z /\ (x0 <= j <= x1)%Z) /\
    (exists j, (0 <= j < w)%Z /\ ~ g y0 j == e) /\ (exists j, (0 <= j < w)%Z /\ ~ g y1 j == e) /\
    (exists i, (0 <= i < h)%Z /\ ~ g i x0 == e) /\ (exists i, (0 <= i < h)%Z /\ ~ g i x1 == e)).
Proof.
  intro Hr. cbv zeta. unfold bounding. assert (HD := differing_in h w e g). destruct (differing h w e g) as [|[i0 j0] l].
  - left. split; [|reflexivity]. intros i j Hi Hj. destruct (Qeq_dec (g i j) e) as [E|E]; [exact E|]. exfalso. apply (HD i j). split; [exact Hi|]. split; trivial.
  - right. cbv zeta. set (ys := map fst ((i0, j0) :: l)). set (xs := map snd ((i0, j0) :: l)). cbn [fst snd].
    destruct (lmin_spec ys i0) as [A1 [A2 A3]]. destruct (lmax_spec ys i0) as [B1 [B2 B3]].
    destruct (lmin_spec xs j0) as [C1 [C2 C3]]. destruct (lmax_spec xs j0) as [D1 [D2 D3]].
    assert (HY : forall z, In z (i0 :: ys) -> exists j, (0 <= z < h)%Z /\ (0 <= j < w)%Z /\ ~ g z j == e).
    { intros z Hz. assert (Hz' : In z ys) by (destruct Hz as [<-|Hz]; [left; reflexivity|exact Hz]). unfold ys in Hz'. apply in_map_iff in Hz'.
      destruct Hz' as [[a j] [E Hin]]. cbn [fst] in E. subst a. exists j. apply HD. exact Hin. }
    assert (HX : forall z, In z (j0 :: xs) -> exists i, (0 <= i < h)%Z /\ (0 <= z < w)%Z /\ ~ g i z == e).
    { intros z Hz. assert (Hz' : In z xs) by (destruct Hz as [<-|Hz]; [left; reflexivity|exact Hz]). unfold xs in Hz'. apply in_map_iff in Hz'.
      destruct Hz' as [[i a] [E Hin]]. cbn [snd] in E. subst a. exists i. apply HD. exact Hin. }
    destruct (HY _ A3) as [ja [Ha1 [Ha2 Ha3]]]. destruct (HY _ B3) as [jb [Hb1 [Hb2 Hb3]]].
    destruct (HX _ C3) as [ic [Hc1 [Hc2 Hc3]]]. destruct (HX _ D3) as [id [Hd1 [Hd2 Hd3]]].
    exists (lmin i0 ys), (lmax i0 ys), (lmin j0 xs), (lmax j0 xs).
    split; [lia|]. split; [lia|]. split; [lia|]. split; [lia|]. split; [reflexivity|]. split.
    + intros i j Hi Hj Hn. assert (Hin : In (i, j) ((i0, j0) :: l)) by (apply HD; split; [exact Hi|]; split; trivial).
      assert (In i ys) by (change i with (fst (i, j)); apply in_map; exact Hin). assert (In j xs) by (change j with (snd (i, j)); apply in_map; exact Hin).
      split; split; auto.
    + split; [exists ja; split; trivial|]. split; [exists jb; split; trivial|]. split; [exists ic; split; trivial|exists id; split; trivial].
Qed.

(** * Totals *)
Lemma total_ext m h w r g g' y x : (0 < h)%Z -> (0 < w)%Z ->
  (forall dy dx, (- r <= dy <= r)%Z -> (- r <= dx <= r)%Z -> entry m h w g (y + dy) (x + dx) == entry m h w g' (y + dy) (x + dx)) ->
  total m h w r g y x == total m h w r g' y x.
Proof.
  intros Hh Hw H. unfold total. apply zsum_ext. intros dy Hdy. apply zsum_ext. intros dx Hdx. rewrite H; [reflexivity|lia|lia].
Qed.
Lemma nearest_in n i : (0 < n)%Z -> (0 <= nearest n i < n)%Z.
Proof. intro H. unfold nearest. lia. Qed.
(** Every entry met is an entry of the domain (or 0). *)
Lemma entry_ext m h w g g' : (0 < h)%Z -> (0 < w)%Z -> (forall i j, (0 <= i < h)%Z -> (0 <= j < w)%Z -> g i j == g' i j) ->
  forall i j, entry m h w g i j == entry m h w g' i j.
Proof.
  intros Hh Hw H i j. destruct m; cbn [entry].
  - unfold value. destruct (inside h w i j) eqn:E; [|reflexivity]. apply inside_true in E. apply H; lia.
  - apply H; apply nearest_in; trivial.
Qed.
(** raw_sum with padding c on a field agrees with the window total when what lies outside it is 0 or never met. *)
Definition entry_c (m : method) (c : Q) (h w : Z) (g : grid Q) (i j : Z) : Q :=
  match m with Square => value c h w g i j | Circular _ => g (nearest h i) (nearest w j) end.
Definition total_c (m : method) (c : Q) (h w r : Z) (g : grid Q) (y x : Z) : Q :=
  zsum (- r) (Z.to_nat (2 * r + 1)) (fun dy => zsum (- r) (Z.to_nat (2 * r + 1)) (fun dx => weight m r dy dx * entry_c m c h w g (y + dy) (x + dx))).
Lemma raw_sum_spec m r h w c g : (0 < r)%Z -> exists s, raw_sum m r h w c g = Ok s /\
  forall y x, (0 <= y)%Z -> (0 <= x)%Z -> s y x == total_c m c h w r g y x.
Proof.
  intro Hr. destruct m as [|b]; cbn [raw_sum].
  - destruct (boxsum_spec h w r c g) as [s [E H]]; [lia|]. exists s. split; [exact E|]. intros y x Hy Hx. rewrite H by trivial.
    unfold square_total, total_c. replace (y - r)%Z with (- r + y)%Z by lia. rewrite <- (zsum_shift _ y). apply zsum_ext. intros dy _.
    replace (x - r)%Z with (- r + x)%Z by lia. rewrite <- (zsum_shift _ x). apply zsum_ext. intros dx _. cbn [weight entry_c].
    replace (dy + y)%Z with (y + dy)%Z by lia. replace (dx + x)%Z with (x + dx)%Z by lia. ring.
  - eexists. split; [reflexivity|]. intros y x _ _. unfold correlate, total_c. apply zsum_ext. intros dy _. apply zsum_ext. intros dx _.
    rewrite kernel_weight by trivial. reflexivity.
Qed.

(** The crop of the bounding box. *)
Lemma nearest_crop n r a b i y : (0 <= a <= b)%Z -> (b < n)%Z -> (0 < r)%Z ->
  (0 <= y - Z.max 0 (a - r) < Z.min n (b + 1 + r) - Z.max 0 (a - r))%Z -> (y - r <= i <= y + r)%Z ->
  let s := Z.max 0 (a - r) in let t := Z.min n (b + 1 + r) in
  (s + nearest (t - s) (i - s) = nearest n i)%Z \/
  ((0 <= s + nearest (t - s) (i - s) < n)%Z /\ (s + nearest (t - s) (i - s) < a \/ b < s + nearest (t - s) (i - s))%Z /\
   (0 <= nearest n i < n)%Z /\ (nearest n i < a \/ b < nearest n i)%Z).
Proof.
  intros Ha Hb Hr Hy Hi. cbv zeta. unfold nearest. destruct (Z_lt_dec i (a - r)) as [A|A]; [right|destruct (Z_lt_dec (b + r) i) as [B|B]; [right|left]]; lia.
Qed.
Section Crop.
Variables (m : method) (h w r : Z) (g : grid Q) (e : Q) (y0 y1 x0 x1 : Z).
Hypothesis Hh : (0 < h)%Z.
Hypothesis Hw : (0 < w)%Z.
Hypothesis Hr : (0 < r)%Z.
Hypothesis HY : (0 <= y0 <= y1 /\ y1 < h)%Z.
Hypothesis HX : (0 <= x0 <= x1 /\ x1 < w)%Z.
Hypothesis Hout : forall i j, (0 <= i < h)%Z -> (0 <= j < w)%Z -> ~ g i j == e -> (y0 <= i <= y1)%Z /\ (x0 <= j <= x1)%Z.
Let b := {| ystart := Z.max 0 (y0 - r); ystop := Z.min h (y1 + 1 + r); xstart := Z.max 0 (x0 - r); xstop := Z.min w (x1 + 1 + r) |}.
Hypothesis Hsafe : m = Square -> e == 0 \/ ((2 * r <= y0 /\ y1 < h - 2 * r)%Z /\ (2 * r <= x0 /\ x1 < w - 2 * r)%Z).

Lemma off_rows i j : (0 <= i < h)%Z -> (0 <= j < w)%Z -> (i < y0 \/ y1 < i \/ j < x0 \/ x1 < j)%Z -> g i j == e.
Proof. intros Hi Hj H. destruct (Qeq_dec (g i j) e) as [E|E]; [exact E|]. destruct (Hout i j Hi Hj E). lia. Qed.

Lemma crop_entry y x i j : inside (ystop b - ystart b) (xstop b - xstart b) (y - ystart b) (x - xstart b) = true ->
  (y - r <= i <= y + r)%Z -> (x - r <= j <= x + r)%Z ->
  entry_c m e (ystop b - ystart b) (xstop b - xstart b) (fun i j => g (ystart b + i)%Z (xstart b + j)%Z) (i - ystart b) (j - xstart b) == entry m h w g i j.
Proof.
  intros HB Hi Hj. apply inside_true in HB. cbn [ystart ystop xstart xstop b] in *.
  set (ys := Z.max 0 (y0 - r)) in *. set (ye := Z.min h (y1 + 1 + r)) in *. set (xs := Z.max 0 (x0 - r)) in *. set (xe := Z.min w (x1 + 1 + r)) in *.
  destruct m as [|bw] eqn:Em; cbn [entry_c entry].
  - unfold value. destruct (inside (ye - ys) (xe - xs) (i - ys) (j - xs)) eqn:E1.
    + apply inside_true in E1. assert (E2 : inside h w i j = true) by (apply inside_true; lia). rewrite E2.
      replace (ys + (i - ys))%Z with i by lia. replace (xs + (j - xs))%Z with j by lia. reflexivity.
    + assert (N : ~ ((0 <= i - ys < ye - ys)%Z /\ (0 <= j - xs < xe - xs)%Z)) by (rewrite <- inside_true; congruence).
      destruct (inside h w i j) eqn:E2.
      * apply inside_true in E2. symmetry. apply off_rows; lia.
      * assert (N2 : ~ ((0 <= i < h)%Z /\ (0 <= j < w)%Z)) by (rewrite <- inside_true; congruence).
        destruct (Hsafe eq_refl) as [E0|S]; [exact E0|]. exfalso. apply N2. lia.
  - destruct (nearest_crop h r y0 y1 i y) as [Ey|Ey]; [lia|lia|lia|lia|lia| |].
    + destruct (nearest_crop w r x0 x1 j x) as [Ex|Ex]; [lia|lia|lia|lia|lia| |].
      * fold ys ye in Ey. fold xs xe in Ex. rewrite Ey, Ex. reflexivity.
      * fold ys ye in Ey. fold xs xe in Ex. rewrite Ey. assert (A := nearest_in h i Hh). clear Ey Hi Hj HB. transitivity e; [apply off_rows; lia|symmetry; apply off_rows; lia].
    + assert (A := nearest_in w j Hw). assert (B : (0 <= xs + nearest (xe - xs) (j - xs) < w)%Z) by (unfold nearest; clear Ey; lia).
      fold ys ye in Ey. clear Hi Hj HB. transitivity e; [apply off_rows; lia|symmetry; apply off_rows; lia].
Qed.
Lemma crop_total y x : inside (ystop b - ystart b) (xstop b - xstart b) (y - ystart b) (x - xstart b) = true ->
  total_c m e (ystop b - ystart b) (xstop b - xstart b) r (fun i j => g (ystart b + i)%Z (xstart b + j)%Z) (y - ystart b) (x - xstart b) == total m h w r g y x.
Proof.
  intro HB. unfold total_c, total. apply zsum_ext. intros dy Hdy. apply zsum_ext. intros dx Hdx.
  replace (y - ystart b + dy)%Z with (y + dy - ystart b)%Z by lia. replace (x - xstart b + dx)%Z with (x + dx - xstart b)%Z by lia.
  rewrite crop_entry; [reflexivity|exact HB|lia|lia].
Qed.
(** Away from the box every domain point in the window has the extreme value. *)
Lemma far_entry y x i j : inside h w y x = true -> inside (ystop b - ystart b) (xstop b - xstart b) (y - ystart b) (x - xstart b) = false ->
  (y - r <= i <= y + r)%Z -> (x - r <= j <= x + r)%Z ->
  match m with Square => inside h w i j = true -> g i j == e | Circular _ => g (nearest h i) (nearest w j) == e end.
Proof.
  intros HI HB Hi Hj. apply inside_true in HI.
  assert (N : ~ ((0 <= y - ystart b < ystop b - ystart b)%Z /\ (0 <= x - xstart b < xstop b - xstart b)%Z)) by (rewrite <- inside_true; congruence).
  cbn [ystart ystop xstart xstop b] in N. destruct m.
  - intro E. apply inside_true in E. apply off_rows; lia.
  - unfold nearest. apply off_rows; lia.
Qed.
End Crop.

(** * _do_nbhood_sum *)
Lemma box_size_pos h w r y0 y1 x0 x1 : (0 < r)%Z -> (0 <= y0 <= y1)%Z -> (y1 < h)%Z -> (0 <= x0 <= x1)%Z -> (x1 < w)%Z ->
  (0 < box_size {| ystart := Z.max 0 (y0 - r); ystop := Z.min h (y1 + 1 + r); xstart := Z.max 0 (x0 - r); xstop := Z.min w (x1 + 1 + r) |})%Z.
Proof. intros. unfold box_size. cbn [ystart ystop xstart xstop]. apply Z.mul_pos_pos; lia. Qed.

Definition finish (m : method) (ranges h w : Z) (g : grid Q) (ch : choice) : result (grid Q) :=
  let '(size, extreme, fill, b) := ch in
  if (size =? 0)%Z then Ok fill
  else
    let cropped := fun i j => g (ystart b + i)%Z (xstart b + j)%Z in
    let* s := raw_sum m ranges (ystop b - ystart b) (xstop b - xstart b) extreme cropped in
    if (size =? h * w)%Z then Ok s
    else Ok (fun y x => if inside (ystop b - ystart b) (xstop b - xstart b) (y - ystart b) (x - xstart b)
                        then s (y - ystart b)%Z (x - xstart b)%Z else fill y x).
Lemma do_finish m r h w g o : do_nbhood_sum m r h w g o = finish m r h w g (choose h w r g o).
Proof. reflexivity. Qed.

Definition window_all (m : method) (h w r : Z) (g : grid Q) (e : Q) (y x : Z) : Prop :=
  forall i j, (y - r <= i <= y + r)%Z -> (x - r <= j <= x + r)%Z ->
    match m with Square => inside h w i j = true -> g i j == e | Circular _ => g (nearest h i) (nearest w j) == e end.
Lemma finish_full m r h w g fill : (0 < h)%Z -> (0 < w)%Z -> (0 < r)%Z ->
  exists s, finish m r h w g ((h * w)%Z, 0, fill, {| ystart := 0; ystop := h; xstart := 0; xstop := w |}) = Ok s /\
    forall y x, (0 <= y < h)%Z -> (0 <= x < w)%Z -> s y x == total m h w r g y x.
Proof.
  intros Hh Hw Hr. unfold finish. assert (E : ((h * w) =? 0)%Z = false) by (apply Z.eqb_neq; nia). rewrite E. cbn [ystart ystop xstart xstop].
  destruct (raw_sum_spec m r (h - 0) (w - 0) 0 (fun i j => g (0 + i)%Z (0 + j)%Z) Hr) as [s [Es Hs]]. rewrite Es. cbn [bind].
  rewrite Z.eqb_refl. exists s. split; [reflexivity|]. intros y x Hy Hx. rewrite Hs by lia. rewrite !Z.sub_0_r.
  unfold total_c, total. apply zsum_ext. intros dy _. apply zsum_ext. intros dx _. destruct m; reflexivity.
Qed.
Lemma finish_box m r h w g fill e : (0 < h)%Z -> (0 < w)%Z -> (0 < r)%Z ->
  (box_size (bounding h w r e g) < h * w)%Z ->
  (m = Square -> e == 0 \/ clear_of_edge h w r (fun i j => ~ g i j == e)) ->
  (forall y x, (0 <= y < h)%Z -> (0 <= x < w)%Z -> window_all m h w r g e y x -> fill y x == total m h w r g y x) ->
  exists s, finish m r h w g (box_size (bounding h w r e g), e, fill, bounding h w r e g) = Ok s /\
    forall y x, (0 <= y < h)%Z -> (0 <= x < w)%Z -> s y x == total m h w r g y x.
Proof.
  intros Hh Hw Hr Hlt Hs Hf. destruct (bounding_spec h w r e g) as [[Hall E0]|H]; [lia| |].
  - unfold finish. rewrite E0. cbn [Z.eqb]. exists fill. split; [reflexivity|]. intros y x Hy Hx. apply Hf; trivial.
    intros i j Hi Hj. destruct m; [intro A; apply inside_true in A; apply Hall; lia|apply Hall; apply nearest_in; trivial].
  - destruct H as [y0 [y1 [x0 [x1 [Hy [Hy1 [Hx [Hx1 [Eb [Hout [W1 [W2 [W3 W4]]]]]]]]]]]]].
    assert (Hp := box_size_pos h w r y0 y1 x0 x1 Hr Hy Hy1 Hx Hx1). rewrite <- Eb in Hp.
    assert (HY : (0 <= y0 <= y1 /\ y1 < h)%Z) by lia. assert (HX : (0 <= x0 <= x1 /\ x1 < w)%Z) by lia.
    assert (Hsafe : m = Square -> e == 0 \/ ((2 * r <= y0 /\ y1 < h - 2 * r)%Z /\ (2 * r <= x0 /\ x1 < w - 2 * r)%Z)).
    { intro Em. destruct (Hs Em) as [A|A]; [left; exact A|right]. destruct W1 as [j1 [J1 D1]]. destruct W2 as [j2 [J2 D2]].
      destruct W3 as [i3 [I3 D3]]. destruct W4 as [i4 [I4 D4]].
      assert (A1 := A y0 j1 ltac:(lia) J1 D1). assert (A2 := A y1 j2 ltac:(lia) J2 D2). assert (A3 := A i3 x0 I3 ltac:(lia) D3). assert (A4 := A i4 x1 I4 ltac:(lia) D4). lia. }
    unfold finish. assert (N0 : (box_size (bounding h w r e g) =? 0)%Z = false) by (apply Z.eqb_neq; lia). rewrite N0.
    assert (N1 : (box_size (bounding h w r e g) =? h * w)%Z = false) by (apply Z.eqb_neq; lia). rewrite N1.
    set (b := bounding h w r e g) in *.
    destruct (raw_sum_spec m r (ystop b - ystart b) (xstop b - xstart b) e (fun i j => g (ystart b + i)%Z (xstart b + j)%Z) Hr) as [s [Es Hsum]].
    rewrite Es. cbn [bind]. eexists. split; [reflexivity|]. intros y x Dy Dx. cbv beta.
    destruct (inside (ystop b - ystart b) (xstop b - xstart b) (y - ystart b) (x - xstart b)) eqn:EI.
    + assert (EI' := EI). apply inside_true in EI'. rewrite Hsum by lia. rewrite Eb in EI |- *.
      exact (crop_total m h w r g e y0 y1 x0 x1 Hh Hw Hr HY HX Hout Hsafe y x EI).
    + apply Hf; trivial. rewrite Eb in EI. intros i j Hi Hj.
      refine (far_entry m h w r g e y0 y1 x0 x1 Hh Hw Hr HY HX Hout Hsafe y x i j _ EI Hi Hj); apply inside_true; lia.
Qed.

Lemma window_total m h w r g g' e y x : (0 < h)%Z -> (0 < w)%Z -> window_all m h w r g e y x -> window_all m h w r g' e y x ->
  total m h w r g y x == total m h w r g' y x.
Proof.
  intros Hh Hw A B. apply total_ext; trivial. intros dy dx Hy Hx. specialize (A (y + dy)%Z (x + dx)%Z ltac:(lia) ltac:(lia)).
  specialize (B (y + dy)%Z (x + dx)%Z ltac:(lia) ltac:(lia)). destruct m; cbn [entry].
  - unfold value. destruct (inside h w (y + dy) (x + dx)); [|reflexivity]. rewrite A, B by reflexivity. reflexivity.
  - rewrite A, B. reflexivity.
Qed.
Lemma total_zero m h w r y x : total m h w r (fun _ _ => 0) y x == 0.
Proof.
  unfold total. apply zsum_zero. intros dy _. apply zsum_zero. intros dx _. destruct m; cbn [entry]; [unfold value; destruct (inside _ _ _ _)|]; ring.
Qed.
Lemma do_nbhood_sum_spec m r h w g o : (0 < h)%Z -> (0 < w)%Z -> (0 < r)%Z ->
  match o with
  | None => True
  | Some area => exists valid, (forall y x, (0 <= y < h)%Z -> (0 <= x < w)%Z -> area y x == total m h w r valid y x) /\
      (forall i j, (0 <= i < h)%Z -> (0 <= j < w)%Z -> g i j == 1 -> valid i j == 1) /\ edge_safe m h w r (fun i j => ~ g i j == 1)
  end ->
  exists s, do_nbhood_sum m r h w g o = Ok s /\ forall y x, (0 <= y < h)%Z -> (0 <= x < w)%Z -> s y x == total m h w r g y x.
Proof.
  intros Hh Hw Hr Ho. rewrite do_finish. unfold choose. cbn [fold_left].
  assert (F0 : forall fill : grid Q, (forall y x, fill y x == 0) -> forall y x, (0 <= y < h)%Z -> (0 <= x < w)%Z -> window_all m h w r g 0 y x -> fill y x == total m h w r g y x).
  { intros fill Hfill y x Hy Hx HA. rewrite Hfill. rewrite (window_total m h w r g (fun _ _ => 0) 0 y x Hh Hw HA); [symmetry; apply total_zero|].
    intros i j _ _. destruct m; reflexivity. }
  set (full := {| ystart := 0; ystop := h; xstart := 0; xstop := w |}). set (z := fun _ _ : Z => 0).
  assert (S0 : consider h w r g ((h * w)%Z, 0, z, full) (0, Some z) = ((h * w)%Z, 0, z, full) \/
     ((box_size (bounding h w r 0 g) < h * w)%Z /\ consider h w r g ((h * w)%Z, 0, z, full) (0, Some z) = (box_size (bounding h w r 0 g), 0, z, bounding h w r 0 g))).
  { unfold consider. cbn [snd fst]. destruct (box_size (bounding h w r 0 g) <? h * w)%Z eqn:L; [right|left; reflexivity]. split; [apply Z.ltb_lt; exact L|reflexivity]. }
  set (c0 := consider h w r g ((h * w)%Z, 0, z, full) (0, Some z)) in *.
  assert (R0 : exists s, finish m r h w g c0 = Ok s /\ forall y x, (0 <= y < h)%Z -> (0 <= x < w)%Z -> s y x == total m h w r g y x).
  { destruct S0 as [-> | [L ->]]; [apply finish_full; trivial|]. apply finish_box; trivial; [intros _; left; reflexivity|]. apply F0. reflexivity. }
  destruct o as [area|]; [|exact R0].
  assert (S1 : consider h w r g c0 (1, Some area) = c0 \/
     ((box_size (bounding h w r 1 g) < h * w)%Z /\ consider h w r g c0 (1, Some area) = (box_size (bounding h w r 1 g), 1, area, bounding h w r 1 g))).
  { destruct S0 as [-> | [L ->]]; unfold consider; cbn [snd fst].
    - destruct (box_size (bounding h w r 1 g) <? h * w)%Z eqn:L1; [right|left; reflexivity]. split; [apply Z.ltb_lt; exact L1|reflexivity].
    - destruct (box_size (bounding h w r 1 g) <? box_size (bounding h w r 0 g))%Z eqn:L1; [right|left; reflexivity]. apply Z.ltb_lt in L1. split; [lia|reflexivity]. }
  change (exists s, finish m r h w g (consider h w r g c0 (1, Some area)) = Ok s /\ forall y x, (0 <= y < h)%Z -> (0 <= x < w)%Z -> s y x == total m h w r g y x).
  destruct S1 as [-> | [L ->]]; [exact R0|]. destruct Ho as [valid [Harea [Hval Hedge]]].
  apply finish_box; trivial.
  - intros ->. right. destruct Hedge as [C|[S1 [S2 [S3 S4]]]]; [exact C|]. exfalso.
    destruct (bounding_spec h w r 1 g) as [[Hall E0]|H]; [lia| |].
    + destruct S1 as [i [j [Hi [Hj [Hn _]]]]]. apply Hn. apply Hall; trivial.
    + destruct H as [y0 [y1 [x0 [x1 [Hy [Hy1 [Hx [Hx1 [Eb [Hout _]]]]]]]]]]. rewrite Eb in L. unfold box_size in L. cbn [ystart ystop xstart xstop] in L.
      destruct S1 as [i1 [j1 [I1 [J1 [N1 B1]]]]]. destruct S2 as [i2 [j2 [I2 [J2 [N2 B2]]]]].
      destruct S3 as [i3 [j3 [I3 [J3 [N3 B3]]]]]. destruct S4 as [i4 [j4 [I4 [J4 [N4 B4]]]]].
      destruct (Hout _ _ I1 J1 N1). destruct (Hout _ _ I2 J2 N2). destruct (Hout _ _ I3 J3 N3). destruct (Hout _ _ I4 J4 N4).
      replace (Z.min h (y1 + 1 + r)) with h in L by lia. replace (Z.max 0 (y0 - r)) with 0%Z in L by lia.
      replace (Z.min w (x1 + 1 + r)) with w in L by lia. replace (Z.max 0 (x0 - r)) with 0%Z in L by lia. rewrite !Z.sub_0_r in L. lia.
  - intros y x Hy Hx HA. rewrite Harea by trivial. symmetry. apply (window_total m h w r g valid 1 y x Hh Hw HA).
    intros i j Hi Hj. specialize (HA i j Hi Hj). destruct m.
    + intro E. assert (E' := E). apply inside_true in E'. apply Hval; [lia|lia|apply HA; exact E].
    + apply Hval; [apply nearest_in; trivial|apply nearest_in; trivial|exact HA].
Qed.

(** * Means *)
Lemma weight_nonneg m r dy dx : 0 <= weight m r dy dx.
Proof. destruct m as [|[|]]; cbn [weight]; [lra| |destruct (Z.ltb _ _); lra]. qmm; lra. Qed.
Lemma entry_position m h w g i j : entry m h w g i j = match position m h w i j with Some (a, b) => g a b | None => 0 end.
Proof. destruct m; cbn [entry position]; [|reflexivity]. unfold value. destruct (inside h w i j); reflexivity. Qed.
Lemma position_in m h w i j a b : (0 < h)%Z -> (0 < w)%Z -> position m h w i j = Some (a, b) -> (0 <= a < h)%Z /\ (0 <= b < w)%Z.
Proof.
  intros Hh Hw H. destruct m; cbn [position] in H.
  - destruct (inside h w i j) eqn:E; [|discriminate]. apply inside_true in E. injection H as <- <-. exact E.
  - injection H as <- <-. split; apply nearest_in; trivial.
Qed.
Lemma total_le_weight m h w r ok data hi y x : (0 < h)%Z -> (0 < w)%Z ->
  (forall i j, contributes m h w r ok y x i j -> data i j <= hi) -> value_total m h w r ok data y x <= hi * weight_total m h w r ok y x.
Proof.
  intros Hh Hw H. unfold value_total, weight_total, total. rewrite <- zsum_scale. apply zsum_le. intros dy Hdy. rewrite <- zsum_scale. apply zsum_le. intros dx Hdx.
  rewrite !entry_position. assert (W := weight_nonneg m r dy dx). destruct (position m h w (y + dy) (x + dx)) as [[a b]|] eqn:P; [|lra].
  destruct (ok a b) eqn:O; [|lra]. destruct (Qlt_le_dec 0 (weight m r dy dx)) as [Wp|Wz].
  - assert (data a b <= hi) by (apply H; exists dy, dx; repeat split; try lia; trivial). rewrite Qmult_1_r.
    rewrite (Qmult_comm hi). apply Qmult_le_l; lra.
  - assert (E : weight m r dy dx == 0) by lra. rewrite E. lra.
Qed.
Lemma total_ge_weight m h w r ok data lo y x : (0 < h)%Z -> (0 < w)%Z ->
  (forall i j, contributes m h w r ok y x i j -> lo <= data i j) -> lo * weight_total m h w r ok y x <= value_total m h w r ok data y x.
Proof.
  intros Hh Hw H. unfold value_total, weight_total, total. rewrite <- zsum_scale. apply zsum_le. intros dy Hdy. rewrite <- zsum_scale. apply zsum_le. intros dx Hdx.
  rewrite !entry_position. assert (W := weight_nonneg m r dy dx). destruct (position m h w (y + dy) (x + dx)) as [[a b]|] eqn:P; [|lra].
  destruct (ok a b) eqn:O; [|lra]. destruct (Qlt_le_dec 0 (weight m r dy dx)) as [Wp|Wz].
  - assert (lo <= data a b) by (apply H; exists dy, dx; repeat split; try lia; trivial). rewrite Qmult_1_r.
    rewrite (Qmult_comm lo). apply Qmult_le_l; lra.
  - assert (E : weight m r dy dx == 0) by lra. rewrite E. lra.
Qed.
Lemma weight_total_nonneg m h w r ok y x : 0 <= weight_total m h w r ok y x.
Proof.
  apply zsum_nonneg. intros dy _. apply zsum_nonneg. intros dx _. apply Qmult_le_0_compat; [apply weight_nonneg|]. rewrite entry_position.
  destruct (position _ _ _ _ _) as [[a b]|]; [destruct (ok a b)|]; lra.
Qed.
Lemma weight_total_zero m h w r ok y x : weight_total m h w r ok y x == 0 <-> ~ exists i j, contributes m h w r ok y x i j.
Proof.
  split.
  - intros E [i [j [dy [dx [Hy [Hx [W [P O]]]]]]]]. unfold weight_total, total in E.
    assert (NN : forall dy dx, 0 <= weight m r dy dx * entry m h w (fun i j => if ok i j then 1 else 0) (y + dy) (x + dx)).
    { intros a b. apply Qmult_le_0_compat; [apply weight_nonneg|]. rewrite entry_position. destruct (position m h w (y + a) (x + b)) as [[u v]|]; [destruct (ok u v)|]; lra. }
    assert (A := zsum_zero_inv _ _ _ (fun i _ => zsum_nonneg _ _ _ (fun k _ => NN i k)) E dy ltac:(lia)). cbv beta in A.
    assert (B := zsum_zero_inv _ _ _ (fun k Hk => NN dy k) A dx ltac:(lia)). cbv beta in B. rewrite entry_position, P in B. cbv beta iota in B. rewrite O in B. lra.
  - intro H. unfold weight_total, total. apply zsum_zero. intros dy Hdy. apply zsum_zero. intros dx Hdx. rewrite entry_position.
    destruct (position m h w (y + dy) (x + dx)) as [[a b]|] eqn:P; [|ring]. destruct (ok a b) eqn:O; [|ring].
    assert (W := weight_nonneg m r dy dx). destruct (Qlt_le_dec 0 (weight m r dy dx)) as [Wp|Wz]; [|assert (E : weight m r dy dx == 0) by lra; rewrite E; ring].
    exfalso. apply H. exists a, b, dy, dx. repeat split; try lia; trivial.
Qed.

Section Mean.
Variables (m : method) (r h w : Z) (data : grid Q) (own : grid bool) (mask : option (grid Q)).
Hypothesis Hh : (0 < h)%Z.
Hypothesis Hw : (0 < w)%Z.
Hypothesis Hr : (0 < r)%Z.
Let ok := usable own mask.
Lemma mask_usable i j : (match mask with Some k => k i j =? 0 | None => false end || own i j)%bool = negb (ok i j).
Proof. unfold ok, usable. destruct (own i j), mask as [k|]; cbn; try reflexivity; destruct (k i j =? 0); reflexivity. Qed.
Lemma valid_total y x : total m h w r (fun i j => if (match mask with Some k => k i j =? 0 | None => false end || own i j)%bool then 0 else 1) y x == weight_total m h w r ok y x.
Proof. apply total_ext; trivial. intros dy dx _ _. apply entry_ext; trivial. intros i j _ _. rewrite mask_usable. destruct (ok i j); reflexivity. Qed.
Lemma zeroed_total y x : total m h w r (fun i j => if (match mask with Some k => k i j =? 0 | None => false end || own i j)%bool then 0 else data i j) y x == value_total m h w r ok data y x.
Proof. apply total_ext; trivial. intros dy dx _ _. apply entry_ext; trivial. intros i j _ _. rewrite mask_usable. destruct (ok i j); reflexivity. Qed.

Lemma calculate_sum re_mask : exists out, calculate_neighbourhood m r true re_mask h w data own mask = Ok out /\
  forall y x, (0 <= y < h)%Z -> (0 <= x < w)%Z -> exists v, out y x = (Some v, (re_mask && negb (ok y x))%bool) /\ v == value_total m h w r ok data y x.
Proof.
  unfold calculate_neighbourhood. cbv zeta beta iota.
  match goal with |- context[do_nbhood_sum m r h w ?G None] => destruct (do_nbhood_sum_spec m r h w G (@None (grid Q)) Hh Hw Hr I) as [s [E H]] end.
  rewrite E. cbn [bind]. eexists. split; [reflexivity|]. intros y x Hy Hx. cbv beta. rewrite mask_usable. eexists. split; [reflexivity|]. rewrite H by trivial. apply zeroed_total.
Qed.

Lemma unmasked_in i j : (0 <= i < h)%Z -> (0 <= j < w)%Z -> own i j = false -> In (data i j) (unmasked_values h w own data).
Proof.
  intros Hi Hj Ho. unfold unmasked_values. apply in_map_iff. exists (i, j). split; [reflexivity|]. apply filter_In. split; [apply indices_in; split; trivial|].
  cbn [fst snd]. rewrite Ho. reflexivity.
Qed.
Lemma contributes_in y x i j : contributes m h w r ok y x i j -> (0 <= i < h)%Z /\ (0 <= j < w)%Z /\ ok i j = true.
Proof. intros [dy [dx [_ [_ [_ [P O]]]]]]. destruct (position_in _ _ _ _ _ _ _ Hh Hw P). auto. Qed.
Lemma ok_own i j : ok i j = true -> own i j = false.
Proof. unfold ok, usable. destruct (own i j); [discriminate|reflexivity]. Qed.
Lemma mean_range lo hi y x : 0 < weight_total m h w r ok y x -> (forall i j, contributes m h w r ok y x i j -> lo <= data i j <= hi) ->
  lo <= value_total m h w r ok data y x / weight_total m h w r ok y x <= hi.
Proof.
  intros HN H. split.
  - apply Qle_shift_div_l; [exact HN|]. apply total_ge_weight; trivial. intros i j C. apply H. exact C.
  - apply Qle_shift_div_r; [exact HN|]. apply total_le_weight; trivial. intros i j C. apply H. exact C.
Qed.

Lemma calculate_mean re_mask : edge_safe m h w r (fun i j => ~ (ok i j = true /\ data i j == 1)) ->
  exists out, calculate_neighbourhood m r false re_mask h w data own mask = Ok out /\
  forall y x, (0 <= y < h)%Z -> (0 <= x < w)%Z ->
    snd (out y x) = (re_mask && negb (ok y x))%bool /\
    (weight_total m h w r ok y x == 0 -> fst (out y x) = None) /\
    (~ weight_total m h w r ok y x == 0 -> exists v, fst (out y x) = Some v /\ v == value_total m h w r ok data y x / weight_total m h w r ok y x).
Proof.
  intro Hsafe. unfold calculate_neighbourhood. cbv zeta beta iota.
  set (valid := fun i j => if (match mask with Some k => k i j =? 0 | None => false end || own i j)%bool then 0 else 1).
  set (zeroed := fun i j => if (match mask with Some k => k i j =? 0 | None => false end || own i j)%bool then 0 else data i j).
  destruct (do_nbhood_sum_spec m r h w valid (@None (grid Q)) Hh Hw Hr I) as [area [E1 H1]]. rewrite E1. cbn [bind].
  destruct (do_nbhood_sum_spec m r h w zeroed (Some area) Hh Hw Hr) as [s [E2 H2]].
  { exists valid. split; [exact H1|]. split.
    - intros i j _ _. unfold zeroed, valid. destruct (_ || _)%bool; [intro A; exact A|reflexivity].
    - assert (Z1 : forall i j, zeroed i j == 1 <-> (ok i j = true /\ data i j == 1)).
      { intros i j. unfold zeroed. rewrite mask_usable. destruct (ok i j); cbn [negb]; [tauto|]. split; [intro A; exfalso; discriminate A|intros [A _]; discriminate A]. }
      destruct m; [|exact I]. destruct Hsafe as [C|S]; [left|right].
      + intros i j Hi Hj Hn. apply C; trivial. rewrite <- Z1. exact Hn.
      + unfold spans_domain in *. cbv zeta in *. destruct S as [[i1 [j1 S1]] [[i2 [j2 S2]] [[i3 [j3 S3]] [i4 [j4 S4]]]]]. rewrite <- Z1 in S1, S2, S3, S4.
        split; [exists i1, j1; exact S1|]. split; [exists i2, j2; exact S2|]. split; [exists i3, j3; exact S3|exists i4, j4; exact S4]. }
  rewrite E2. cbn [bind]. eexists. split; [reflexivity|]. intros y x Hy Hx. cbv beta. cbn [fst snd]. rewrite mask_usable. split; [reflexivity|].
  assert (EA : area y x == weight_total m h w r ok y x) by (rewrite H1 by trivial; apply valid_total).
  assert (ES : s y x == value_total m h w r ok data y x) by (rewrite H2 by trivial; apply zeroed_total).
  destruct (area y x =? 0) eqn:E0.
  - apply Qeq_bool_iff in E0. split; [reflexivity|]. intro N. exfalso. apply N. rewrite <- EA. exact E0.
  - apply Qeq_bool_neq in E0. split; [intro N; exfalso; apply E0; rewrite EA; exact N|]. intro N.
    assert (NN := weight_total_nonneg m h w r ok y x). assert (HP : 0 < weight_total m h w r ok y x) by lra.
    assert (Q : s y x / area y x == value_total m h w r ok data y x / weight_total m h w r ok y x) by (rewrite EA, ES; reflexivity).
    assert (HR : forall vs, (forall i j, (0 <= i < h)%Z -> (0 <= j < w)%Z -> own i j = false -> In (data i j) vs) -> vs <> [] ->
      exists v, match qmin_list vs, qmax_list vs with Some lo, Some hi => Some (clip lo hi (s y x / area y x)) | _, _ => None end = Some v /\
        v == value_total m h w r ok data y x / weight_total m h w r ok y x).
    { intros vs Hvs Hne. destruct vs as [|z vs]; [congruence|]. cbn [qmin_list qmax_list]. eexists. split; [reflexivity|]. rewrite Q. apply clip_id.
      apply mean_range; [exact HP|]. intros i j C. destruct (contributes_in _ _ _ _ C) as [Hi [Hj O]]. assert (Hin := Hvs i j Hi Hj (ok_own _ _ O)).
      split; [apply qminl_le; exact Hin|apply qmaxl_ge; exact Hin]. }
    apply HR; [apply unmasked_in|]. intro Hv. apply N. apply weight_total_zero. intros [i [j C]]. destruct (contributes_in _ _ _ _ C) as [Hi [Hj O]].
    assert (Hin := unmasked_in i j Hi Hj (ok_own _ _ O)). rewrite Hv in Hin. exact Hin.
Qed.
(** Whatever happens near the edges, a result is within the range of the unmasked data. *)
Lemma calculate_range re_mask out lo hi y x v : calculate_neighbourhood m r false re_mask h w data own mask = Ok out ->
  (0 <= y < h)%Z -> (0 <= x < w)%Z -> fst (out y x) = Some v ->
  (forall i j, (0 <= i < h)%Z -> (0 <= j < w)%Z -> own i j = false -> lo <= data i j <= hi) -> lo <= v <= hi.
Proof.
  intros H Hy Hx Hv Hb. unfold calculate_neighbourhood in H. cbv zeta beta iota in H.
  destruct (do_nbhood_sum m r h w _ None) as [area|e]; [|discriminate]. cbn [bind] in H. destruct (do_nbhood_sum m r h w _ (Some area)) as [s|e]; [|discriminate].
  cbn [bind] in H. apply Ok_inj in H. subst out. cbn [fst] in Hv. destruct (area y x =? 0); [discriminate|].
  assert (HU : forall z, In z (unmasked_values h w own data) -> lo <= z <= hi).
  { intros z Hz. unfold unmasked_values in Hz. apply in_map_iff in Hz. destruct Hz as [[i j] [<- Hf]]. apply filter_In in Hf. destruct Hf as [Hi Ho].
    apply indices_in in Hi. cbn [fst snd] in *. apply Hb; try tauto. destruct (own i j); [discriminate|reflexivity]. }
  destruct (unmasked_values h w own data) as [|z l]; [discriminate|]. cbn [qmin_list qmax_list] in Hv. injection Hv as <-.
  assert (A : qminl z l <= qmaxl z l) by (eapply Qle_trans; [apply (qminl_le z l z); left; reflexivity|apply qmaxl_ge; left; reflexivity]).
  assert (B := clip_bounds (qminl z l) (qmaxl z l) (s y x / area y x) A).
  assert (C : lo <= qminl z l) by (apply qminl_glb; apply Forall_forall; intros u Hu; apply HU; exact Hu).
  assert (D : qmaxl z l <= hi) by (apply qmaxl_lub; apply Forall_forall; intros u Hu; apply HU; exact Hu). lra.
Qed.
End Mean.

Lemma calculate_missing m r h w data own mask re_mask out y x : (0 < h)%Z -> (0 < w)%Z -> (0 < r)%Z ->
  calculate_neighbourhood m r false re_mask h w data own mask = Ok out -> (0 <= y < h)%Z -> (0 <= x < w)%Z ->
  (fst (out y x) = None <-> ~ exists i j, contributes m h w r (usable own mask) y x i j).
Proof.
  intros Hh Hw Hr H Hy Hx. rewrite <- weight_total_zero. unfold calculate_neighbourhood in H. cbv zeta beta iota in H.
  set (valid := fun i j => if (match mask with Some k => k i j =? 0 | None => false end || own i j)%bool then 0 else 1) in H.
  destruct (do_nbhood_sum_spec m r h w valid (@None (grid Q)) Hh Hw Hr I) as [area [E1 H1]]. rewrite E1 in H. cbn [bind] in H.
  match type of H with context[do_nbhood_sum m r h w ?G (Some area)] => destruct (do_nbhood_sum m r h w G (Some area)) as [s|e]; [|discriminate] end.
  cbn [bind] in H. apply Ok_inj in H. subst out. cbn [fst].
  assert (EA : area y x == weight_total m h w r (usable own mask) y x) by (rewrite H1 by trivial; apply valid_total; trivial).
  destruct (area y x =? 0) eqn:E0.
  - apply Qeq_bool_iff in E0. split; [intros _; rewrite <- EA; exact E0|reflexivity].
  - apply Qeq_bool_neq in E0. split; [|intro A; exfalso; apply E0; rewrite EA; exact A].
    intro A. apply weight_total_zero. intros [i [j C]]. destruct (contributes_in m r h w own mask Hh Hw _ _ _ _ C) as [Hi [Hj O]].
    assert (Hin := unmasked_in h w data own i j Hi Hj (ok_own own mask i j O)).
    destruct (unmasked_values h w own data) as [|z l]; [exact Hin|]. cbn in A. discriminate A.
Qed.
Lemma value_total_le m h w r ok d d' y x : (0 < h)%Z -> (0 < w)%Z -> (forall i j, (0 <= i < h)%Z -> (0 <= j < w)%Z -> ok i j = true -> d i j <= d' i j) ->
  value_total m h w r ok d y x <= value_total m h w r ok d' y x.
Proof.
  intros Hh Hw H. unfold value_total, total. apply zsum_le. intros dy Hdy. apply zsum_le. intros dx Hdx. rewrite !entry_position.
  assert (W := weight_nonneg m r dy dx). destruct (position m h w (y + dy) (x + dx)) as [[a b]|] eqn:P; [|lra].
  destruct (position_in _ _ _ _ _ _ _ Hh Hw P). destruct (ok a b) eqn:O; [|lra]. rewrite !(Qmult_comm (weight _ _ _ _)). apply Qmult_le_compat_r; [apply H; trivial|exact W].
Qed.
