From Verif Require Import Base Interp Model_Reliability Spec_Reliability Proofs_Reliability.

(** * Piecewise linear interpolation with linear extrapolation, by recursion *)
Fixpoint pl_from (x0 y0 : Q) (k : list (Q * Q)) (p : Q) : Q :=
  match k with
  | [] => y0
  | (x1, y1) :: r => match r with
                     | [] => lerp x0 y0 x1 y1 p
                     | _ => if p <=? x1 then lerp x0 y0 x1 y1 p else pl_from x1 y1 r p
                     end
  end.
Lemma lerp_mono' x0 y0 x1 y1 p p' : x0 < x1 -> y0 <= y1 -> p <= p' -> lerp x0 y0 x1 y1 p <= lerp x0 y0 x1 y1 p'.
Proof.
  intros H1 H2 H3. unfold lerp. assert (0 <= (y1 - y0) / (x1 - x0)) by (apply Qle_shift_div_l; lra). nra.
Qed.
Lemma pl_from_comp k : forall x0 y0 y0' p, y0 == y0' -> pl_from x0 y0 k p == pl_from x0 y0' k p.
Proof.
  induction k as [|[x1 y1] r IH]; intros x0 y0 y0' p H; cbn [pl_from]; [exact H|]. destruct r; [unfold lerp; rewrite H; reflexivity|].
  destruct (p <=? x1); [unfold lerp; rewrite H; reflexivity|reflexivity].
Qed.
Lemma pl_from_ge k : forall x0 y0 p, qssorted (x0 :: map fst k) -> qsorted (y0 :: map snd k) -> x0 <= p -> y0 <= pl_from x0 y0 k p.
Proof.
  induction k as [|[x1 y1] r IH]; intros x0 y0 p HX HY Hp; cbn [pl_from]; [lra|].
  assert (L : x0 < x1) by (inversion HX as [|? ? _ F]; inversion F; trivial). assert (L' : y0 <= y1) by (inversion HY as [|? ? _ F]; inversion F; trivial).
  assert (G : y0 <= lerp x0 y0 x1 y1 p) by (apply Qle_trans with (lerp x0 y0 x1 y1 x0); [rewrite lerp_left; lra|apply lerp_mono'; assumption]).
  destruct r; [exact G|]. destruct (Qleb_spec p x1); [exact G|]. inversion HX; inversion HY; subst. specialize (IH x1 y1 p). cbn [map fst snd] in IH.
  assert (y1 <= pl_from x1 y1 (p0 :: r) p) by (apply IH; trivial; lra). lra.
Qed.
Lemma pl_from_mono k : forall x0 y0 p p', qssorted (x0 :: map fst k) -> qsorted (y0 :: map snd k) -> p <= p' -> pl_from x0 y0 k p <= pl_from x0 y0 k p'.
Proof.
  induction k as [|[x1 y1] r IH]; intros x0 y0 p p' HX HY Hp; cbn [pl_from]; [lra|].
  assert (L : x0 < x1) by (inversion HX as [|? ? _ F]; inversion F; trivial). assert (L' : y0 <= y1) by (inversion HY as [|? ? _ F]; inversion F; trivial).
  destruct r as [|k0 r]; [apply lerp_mono'; assumption|]. inversion HX as [|? ? HX' _]; inversion HY as [|? ? HY' _]; subst.
  destruct (Qleb_spec p x1), (Qleb_spec p' x1); try lra.
  - apply lerp_mono'; assumption.
  - apply Qle_trans with y1; [|apply pl_from_ge; trivial; lra]. apply Qle_trans with (lerp x0 y0 x1 y1 x1); [apply lerp_mono'; assumption|]. rewrite lerp_right by exact L. lra.
  - apply IH; trivial.
Qed.
Lemma pl_from_at_start k x0 y0 : qssorted (x0 :: map fst k) -> pl_from x0 y0 k x0 == y0.
Proof.
  destruct k as [|[x1 y1] r]; intro HX; cbn [pl_from]; [reflexivity|].
  assert (L : x0 < x1) by (inversion HX as [|? ? _ F]; inversion F; trivial).
  destruct r; [apply lerp_left|]. destruct (Qleb_spec x0 x1); [apply lerp_left|lra].
Qed.

(** interp1d is that function. *)
Lemma interp1d_step x0 xs y0 ys p : (2 <= length xs)%nat -> x0 < p -> hd 0 xs < p -> interp1d (x0 :: xs) (y0 :: ys) p = interp1d xs ys p.
Proof.
  intros HL H0 H1. unfold interp1d. cbn [searchsorted]. assert (E : (x0 <? p) = true) by (apply Qltb_lt; exact H0). rewrite E.
  assert (HS : (1 <= searchsorted xs p)%nat). { destruct xs as [|x1 xs]; [simpl in HL; lia|]. cbn [searchsorted hd] in *. assert (E1 : (x1 <? p) = true) by (apply Qltb_lt; exact H1). rewrite E1. lia. }
  set (s := searchsorted xs p) in *. cbn [length].
  replace (Nat.min (Nat.max (S s) 1) (S (length xs) - 1)) with (S (Nat.min (Nat.max s 1) (length xs - 1))) by lia.
  rewrite Nat.sub_succ, Nat.sub_0_r. set (h := Nat.min _ _). assert (HH : (1 <= h)%nat) by (unfold h; lia). clearbody h. destruct h as [|h']; [lia|]. rewrite Nat.sub_succ, Nat.sub_0_r. reflexivity.
Qed.
Lemma interp1d_first x0 x1 xs y0 y1 ys p : p <= x1 -> interp1d (x0 :: x1 :: xs) (y0 :: y1 :: ys) p = lerp x0 y0 x1 y1 p.
Proof.
  intro H. unfold interp1d. cbn [searchsorted]. assert (E1 : (x1 <? p) = false) by (apply Qltb_ge; exact H). rewrite E1.
  destruct (x0 <? p); cbn [length]; reflexivity.
Qed.
Lemma interp1d_pl xs : forall x0 y0 ys p, length ys = length xs -> xs <> [] -> qssorted (x0 :: xs) -> interp1d (x0 :: xs) (y0 :: ys) p = pl_from x0 y0 (combine xs ys) p.
Proof.
  induction xs as [|x1 xs IH]; intros x0 y0 ys p HL HN HX; [easy|]. destruct ys as [|y1 ys]; [discriminate|]. simpl in HL.
  assert (L : x0 < x1) by (inversion HX as [|? ? _ F]; inversion F; trivial).
  cbn [combine pl_from]. destruct xs as [|x2 xs].
  - destruct ys; [|discriminate]. cbn [combine]. unfold interp1d. cbn [length].
    replace (Nat.min (Nat.max (searchsorted [x0; x1] p) 1) (2 - 1)) with 1%nat by lia. reflexivity.
  - destruct ys as [|y2 ys]; [discriminate|]. cbn [combine]. destruct (Qleb_spec p x1).
    + apply interp1d_first. assumption.
    + rewrite interp1d_step; [|simpl; lia|lra|simpl; lra]. inversion HX; subst. rewrite IH; [reflexivity|simpl in *; lia|discriminate|assumption].
Qed.

(** * Replacing the end knots *)
Fixpoint set_last (v : Q * Q) (k : list (Q * Q)) : list (Q * Q) :=
  match k with [] => [] | [_] => [v] | a :: r => a :: set_last v r end.
Lemma set_ends_eq a b x l : l <> [] -> set_ends a b (x :: l) = a :: removelast l ++ [b].
Proof.
  intro H. cbn [set_ends]. destruct (exists_last H) as (m & z & ->). rewrite rev_app_distr. cbn. rewrite rev_involutive, removelast_last. reflexivity.
Qed.
Lemma combine_set_last xs : forall ys b d, length ys = length xs -> xs <> [] -> combine (removelast xs ++ [b]) (removelast ys ++ [d]) = set_last (b, d) (combine xs ys).
Proof.
  induction xs as [|x xs IH]; intros ys b d HL HN; [easy|]. destruct ys as [|y ys]; [discriminate|]. destruct xs as [|x2 xs]; destruct ys as [|y2 ys]; try discriminate.
  - reflexivity.
  - cbn [removelast combine app set_last]. f_equal. apply (IH (y2 :: ys)); [simpl in *; lia|discriminate].
Qed.
Lemma np_from_y k : forall x0 y0 y0' x, y0 == y0' -> np_from x0 y0 k x == np_from x0 y0' k x.
Proof.
  induction k as [|[x1 y1] r IH]; intros x0 y0 y0' x H; cbn [np_from]; [exact H|]. destruct (x1 <=? x); [reflexivity|].
  destruct (x0 =? x); [exact H|]. unfold lerp. rewrite H. reflexivity.
Qed.
Lemma collinear x0 y0 x1 y1 a b p : x0 < x1 -> a < b -> lerp a (lerp x0 y0 x1 y1 a) b (lerp x0 y0 x1 y1 b) p == lerp x0 y0 x1 y1 p.
Proof. intros H H0. unfold lerp. field. split; lra. Qed.
Lemma collinear1 x0 y0 x1 y1 a p : x0 < x1 -> a < x1 -> lerp a (lerp x0 y0 x1 y1 a) x1 y1 p == lerp x0 y0 x1 y1 p.
Proof. intros H H0. unfold lerp. field. split; lra. Qed.
Lemma np_ext k : forall x0 y0 x1 y1 r a p, k = (x1, y1) :: r -> qssorted (x0 :: map fst k) -> Forall (fun q => fst q <= 1) k -> a < x1 -> a <= p -> p <= 1 ->
  np_from a (lerp x0 y0 x1 y1 a) (set_last (1, pl_from x0 y0 k 1) k) p == pl_from x0 y0 k p.
Proof.
  induction k as [|k0 k IH]; intros x0 y0 x1 y1 r a p E HX HF Ha Hap Hp; [discriminate|]. injection E as -> ->.
  assert (L : x0 < x1) by (inversion HX as [|? ? _ F]; inversion F; trivial). inversion HF as [|? ? F1 F2]; subst. cbn [fst] in F1.
  destruct r as [|[x2 y2] r].
  - cbn [set_last pl_from np_from]. destruct (Qleb_spec 1 p).
    + assert (E : p == 1) by lra. unfold lerp. rewrite E. reflexivity.
    + destruct (Qeqb_spec a p) as [E|E]; [unfold lerp; rewrite E; reflexivity|]. apply collinear; lra.
  - inversion HX as [|? ? HX' _]; subst. cbn [map fst] in HX'.
    assert (L2 : x1 < x2) by (inversion HX' as [|? ? _ F]; inversion F; trivial). assert (X2 : x2 <= 1) by (inversion F2; trivial).
    change (set_last ?v ((x1, y1) :: (x2, y2) :: r)) with ((x1, y1) :: set_last v ((x2, y2) :: r)).
    assert (E1 : pl_from x0 y0 ((x1, y1) :: (x2, y2) :: r) 1 = pl_from x1 y1 ((x2, y2) :: r) 1).
    { cbn [pl_from]. destruct (Qleb_spec 1 x1); [lra|reflexivity]. }
    rewrite E1. cbn [np_from]. specialize (IH x1 y1 x2 y2 r x1 p eq_refl HX' F2 L2).
    change (pl_from x0 y0 ((x1, y1) :: (x2, y2) :: r) p) with (if p <=? x1 then lerp x0 y0 x1 y1 p else pl_from x1 y1 ((x2, y2) :: r) p).
    destruct (Qleb_spec x1 p).
    + rewrite (np_from_y _ _ y1 (lerp x1 y1 x2 y2 x1)) by (symmetry; apply lerp_left). rewrite IH by assumption.
      destruct (Qleb_spec p x1); [|reflexivity]. assert (E : p == x1) by lra.
      transitivity (pl_from x1 y1 ((x2, y2) :: r) x1).
      * apply Qle_antisym; [|]; clear - E HX'; cbn [pl_from]; destruct r; unfold lerp; try (rewrite E; lra).
        -- destruct (Qleb_spec p x2), (Qleb_spec x1 x2); try (rewrite E; lra); exfalso; assert (x1 < x2) by (inversion HX' as [|? ? _ F]; inversion F; trivial); lra.
        -- destruct (Qleb_spec p x2), (Qleb_spec x1 x2); try (rewrite E; lra); exfalso; assert (x1 < x2) by (inversion HX' as [|? ? _ F]; inversion F; trivial); lra.
      * rewrite pl_from_at_start by exact HX'. transitivity (lerp x0 y0 x1 y1 x1); [symmetry; apply lerp_right; exact L|]. unfold lerp. rewrite E. reflexivity.
    + destruct (Qleb_spec p x1); [|lra]. destruct (Qeqb_spec a p) as [E|E]; [unfold lerp; rewrite E; reflexivity|]. apply collinear1; lra.
Qed.

(** * C21 *)
Lemma interpolate_spec xs ys p : length ys = length xs -> (2 <= length xs)%nat -> qssorted xs -> Forall (fun x => 0 <= x <= 1) xs -> 0 <= p <= 1 ->
  interpolate xs ys p == clip 0 1 (interp1d xs ys p).
Proof.
  intros HL H2 HX HF Hp. unfold interpolate. apply clip_comp; try reflexivity.
  destruct xs as [|x0 [|x1 xs]]; simpl in H2; try lia. destruct ys as [|y0 [|y1 ys]]; try discriminate.
  rewrite !set_ends_eq by discriminate. cbn [combine]. rewrite combine_set_last; [|simpl in *; lia|discriminate].
  rewrite !interp1d_pl by (simpl in *; try discriminate; trivial; lia).
  assert (L : x0 < x1) by (inversion HX as [|? ? _ F]; inversion F; trivial).
  assert (HM : map fst (combine (x1 :: xs) (y1 :: ys)) = x1 :: xs) by (apply map_fst_combine; simpl in *; lia).
  inversion HF as [|? ? F0 F1]; subst. inversion F1 as [|? ? F2 F3]; subst.
  assert (HK : Forall (fun q => fst q <= 1) (combine (x1 :: xs) (y1 :: ys))).
  { apply Forall_forall. intros [u v] Hu. apply in_combine_l in Hu. rewrite Forall_forall in F1. cbn [fst]. destruct (F1 u Hu). assumption. }
  unfold np_interp. destruct (Qltb_spec p 0); [lra|].
  rewrite <- (np_ext (combine (x1 :: xs) (y1 :: ys)) x0 y0 x1 y1 (combine xs ys) 0 p); [|reflexivity|rewrite HM; exact HX|exact HK|lra|lra|lra].
  apply np_from_y. cbn [combine pl_from]. destruct (combine xs ys); [reflexivity|]. destruct (Qleb_spec 0 x1); [reflexivity|lra].
Qed.
Lemma interp1d_mono xs ys p p' : length ys = length xs -> (2 <= length xs)%nat -> qssorted xs -> qsorted ys -> p <= p' -> interp1d xs ys p <= interp1d xs ys p'.
Proof.
  intros HL H2 HX HY Hp. destruct xs as [|x0 xs]; [simpl in H2; lia|]. destruct ys as [|y0 ys]; [discriminate|]. destruct xs as [|x1 xs]; [simpl in H2; lia|].
  rewrite !interp1d_pl by (simpl in *; try discriminate; trivial; lia). apply pl_from_mono; [| |exact Hp].
  - rewrite map_fst_combine by (simpl in *; lia). exact HX.
  - rewrite map_snd_combine by (simpl in *; lia). exact HY.
Qed.
Lemma interp1d_knot xs ys i : length ys = length xs -> (2 <= length xs)%nat -> qssorted xs -> (i < length xs)%nat -> interp1d xs ys (nth i xs 0) == nth i ys 0.
Proof.
  intros HL H2 HX Hi. destruct xs as [|x0 xs]; [simpl in H2; lia|]. destruct ys as [|y0 ys]; [discriminate|]. destruct xs as [|x1 xs]; [simpl in H2; lia|].
  rewrite interp1d_pl by (simpl in *; try discriminate; trivial; lia).
  destruct i as [|i]; cbn [nth].
  - apply pl_from_at_start. rewrite map_fst_combine by (simpl in *; lia). exact HX.
  - assert (G : forall xs ys x0 y0 i, length ys = length xs -> qssorted (x0 :: xs) -> (i < length xs)%nat -> pl_from x0 y0 (combine xs ys) (nth i xs 0) == nth i ys 0).
    { clear. induction xs as [|x1 xs IH]; intros ys x0 y0 i HL HX Hi; [simpl in Hi; lia|]. destruct ys as [|y1 ys]; [discriminate|].
      assert (L : x0 < x1) by (inversion HX as [|? ? _ F]; inversion F; trivial). inversion HX as [|? ? HX' _]; subst.
      cbn [combine pl_from]. destruct i as [|i]; cbn [nth].
      - destruct (combine xs ys); [apply lerp_right; exact L|]. destruct (Qleb_spec x1 x1); [apply lerp_right; exact L|lra].
      - simpl in Hi. destruct xs as [|x2 xs]; [simpl in Hi; lia|]. destruct ys as [|y2 ys]; [discriminate|]. cbn [combine].
        assert (G : x1 < nth i (x2 :: xs) 0). { inversion HX' as [|? ? _ F]; subst. rewrite Forall_forall in F. apply F, nth_In. lia. }
        destruct (Qleb_spec (nth i (x2 :: xs) 0) x1); [lra|]. change ((x2, y2) :: combine xs ys) with (combine (x2 :: xs) (y2 :: ys)). apply IH; [simpl in *; lia|exact HX'|simpl in *; lia]. }
    apply (G (x1 :: xs) ys x0 y0 i); [simpl in *; lia|exact HX|simpl in *; lia].
Qed.
Lemma interpolate_mono xs ys p p' : length ys = length xs -> (2 <= length xs)%nat -> qssorted xs -> Forall (fun x => 0 <= x <= 1) xs -> qsorted ys ->
  0 <= p -> p <= p' -> p' <= 1 -> interpolate xs ys p <= interpolate xs ys p'.
Proof.
  intros HL H2 HX HF HY H0 H1 H3. rewrite !interpolate_spec by (trivial; lra). apply clip_mono; [lra|]. apply interp1d_mono; trivial.
Qed.
Lemma interpolate_bounds xs ys p : 0 <= interpolate xs ys p <= 1.
Proof. unfold interpolate. apply clip_bounds. lra. Qed.

(** * The chain: a well-formed table stays well-formed *)
Definition wf_bin (b : rbin) : Prop := mean_inside b /\ 0 <= rb_cnt b /\ rb_lo b <= rb_hi b /\ 0 <= rb_lo b /\ rb_hi b <= 1.
Definition wf_table (t : list rbin) : Prop := ordered_bins t /\ Forall wf_bin t.
Lemma union_range g b : is_union g b -> wf_table g -> wf_bin b /\ (forall x, In x g -> rb_lo b <= rb_lo x /\ rb_hi x <= rb_hi b) .
Proof.
  intros (N & _ & B & C & D & E) [HO HW].
  assert (R : forall x, In x g -> rb_lo (hd rb0 g) <= rb_lo x /\ rb_hi x <= rb_hi (last g rb0)).
  { clear - N HO HW. induction HO as [|y g HO IH Hf]; [easy|]. inversion HW as [|? ? Wy Wg]; subst. intros x [<-|Hx].
    - split; [simpl; lra|]. destruct g as [|z g]; [simpl; lra|]. assert (G : In (last (z :: g) rb0) (z :: g)).
      { destruct (exists_last (l := z :: g)) as (m & w & E); [discriminate|]. rewrite E. rewrite last_last. apply in_or_app. right; left; reflexivity. }
      change (last (y :: z :: g) rb0) with (last (z :: g) rb0). rewrite Forall_forall in Hf, Wg. specialize (Hf _ G). destruct (Wg _ G) as (_ & _ & Q1 & _). lra.
    - assert (NG : g <> []) by (destruct g; [easy|discriminate]). destruct (IH NG Wg x Hx) as [I1 I2]. split.
      + simpl. rewrite Forall_forall in Hf. specialize (Hf x Hx). destruct Wy as (_ & _ & Q1 & _). lra.
      + destruct g as [|z g]; [easy|]. exact I2. }
  split; [|intros x Hx; rewrite D, E; apply R; exact Hx].
  rewrite Forall_forall in HW.
  assert (G : rb_lo (hd rb0 g) * qsum (map rb_cnt g) <= qsum (map rb_prob g) <= rb_hi (last g rb0) * qsum (map rb_cnt g) /\ 0 <= qsum (map rb_cnt g)).
  { revert R. generalize (rb_lo (hd rb0 g)) as l. generalize (rb_hi (last g rb0)) as h. intros h l R. clear - HW R. induction g as [|x g IH]; [simpl; lra|].
    destruct IH as [I1 I2]; [intros; apply HW; right; assumption|intros; apply R; right; assumption|].
    destruct (HW x) as (M & Q0 & _); [left; reflexivity|]. destruct (R x) as [R1 R2]; [left; reflexivity|]. unfold mean_inside in M. cbn [map qsum]. split; [|lra].
    assert (l * rb_cnt x <= rb_lo x * rb_cnt x) by nra. assert (rb_hi x * rb_cnt x <= h * rb_cnt x) by nra. split; lra. }
  destruct g as [|x g]; [easy|]. destruct (HW x) as (_ & _ & Q1 & Q2 & Q3); [left; reflexivity|].
  assert (GL : In (last (x :: g) rb0) (x :: g)).
  { destruct (exists_last (l := x :: g)) as (m & w & E'); [discriminate|]. rewrite E'. rewrite last_last. apply in_or_app. right; left; reflexivity. }
  destruct (HW _ GL) as (_ & _ & Q4 & Q5 & Q6). destruct (R _ GL) as [R1 R2].
  unfold wf_bin, mean_inside. rewrite B, C, D, E. destruct G as [G1 G2]. repeat split; try lra; simpl hd in *; try lra.
Qed.
Lemma wf_app a b : wf_table (a ++ b) -> wf_table a /\ wf_table b /\ (forall x y, In x a -> In y b -> rb_hi x < rb_lo y).
Proof.
  intros [HO HW]. apply Forall_app in HW as [W1 W2]. induction a as [|x a IH]; [repeat split; trivial; [constructor|easy]|].
  simpl in HO. inversion HO as [|? ? HO' HF]; subst. apply Forall_app in HF as [F1 F2]. inversion W1; subst. destruct IH as (A & B & C); trivial.
  repeat split; trivial; try apply B.
  - constructor; [apply A|exact F1].
  - intros u v [<-|Hu] Hv; [rewrite Forall_forall in F2; apply F2; exact Hv|apply C; trivial].
Qed.
Lemma wf_grouped t t' : grouped t t' -> wf_table t -> wf_table t' /\ (forall b, In b t' -> exists x, In x t /\ rb_lo b = rb_lo x).
Proof.
  induction 1 as [|g b t t' HU HG IH]; intro HW; [split; [exact HW|easy]|]. apply wf_app in HW as (W1 & W2 & W3). destruct (IH W2) as [[O1 F1] L1].
  destruct (union_range _ _ HU W1) as [WB RB]. split; [split|].
  - constructor; [exact O1|]. apply Forall_forall. intros y Hy. destruct (L1 y Hy) as (x & Hx & ->).
    destruct HU as (N & _ & _ & _ & _ & E). rewrite E. apply W3; [|exact Hx].
    destruct (exists_last N) as (m & w & ->). rewrite last_last. apply in_or_app. right; left; reflexivity.
  - constructor; assumption.
  - intros y [<-|Hy].
    + destruct HU as (N & _ & _ & _ & D & _). destruct g as [|x g]; [easy|]. exists x. split; [left; reflexivity|exact D].
    + destruct (L1 y Hy) as (x & Hx & Ex). exists x. split; [apply in_or_app; right; exact Hx|exact Ex].
Qed.
Lemma means_increasing t : wf_table t -> pos_counts t -> qssorted (map mean_prob t) /\ Forall (fun x => 0 <= x <= 1) (map mean_prob t).
Proof.
  intros [HO HW] HP.
  assert (G : forall b, wf_bin b -> 0 < rb_cnt b -> rb_lo b <= mean_prob b <= rb_hi b).
  { intros b ((M1 & M2) & _) C. unfold mean_prob. split; [apply Qle_shift_div_l; lra|apply Qle_shift_div_r; lra]. }
  induction HO as [|b t HO IH HF]; [split; constructor|]. inversion HW as [|? ? W1 W2]; inversion HP as [|? ? P1 P2]; subst. destruct (IH W2 P2) as [I1 I2].
  specialize (G b W1 P1) as Gb. destruct W1 as (_ & _ & _ & Q1 & Q2). split; cbn [map]; constructor; trivial; [|lra].
  apply Forall_forall. intros y Hy. apply in_map_iff in Hy as (z & <- & Hz). rewrite Forall_forall in HF, W2, P2.
  specialize (HF z Hz). specialize (G z (W2 z Hz) (P2 z Hz)). lra.
Qed.
Lemma manipulate_wf m t t' : manipulate m t = Ok t' -> wf_table t -> wf_table t'.
Proof.
  intros H HW. apply manipulate_grouped in H as (t2 & os & HG & HL & ->). apply wf_grouped in HG as [HG _]; [|exact HW]. clear - HG HL.
  revert os HL. destruct HG as [HO HF]. induction HO as [|b t2 HO IH HB]; intros os HL; destruct os as [|o os]; try discriminate; simpl; [split; constructor|].
  inversion HF as [|? ? F1 F2]; subst. simpl in HL. destruct (IH F2 os) as [I1 I2]; [lia|]. split; constructor; trivial.
  apply Forall_forall. intros y Hy. apply in_map_iff in Hy as ([c q] & <- & Hc). apply in_combine_l in Hc. rewrite Forall_forall in HB. exact (HB c Hc).
Qed.
Lemma manipulate_pos m t t' : manipulate m t = Ok t' -> (2 <= length t')%nat -> pos_counts t'.
Proof.
  intros H HL. assert (Hm : 1 <= m) by (apply manipulate_inv in H; tauto). apply manipulate_min_count in H as [H|H]; [|lia].
  eapply Forall_impl; [|exact H]. cbv beta. intros; lra.
Qed.
Lemma calibrate_chain m t t' p p' : manipulate m t = Ok t' -> wf_table t -> 0 <= p -> p <= p' -> p' <= 1 ->
  exists v v', calibrate t' (Some p) = Some v /\ calibrate t' (Some p') = Some v' /\ 0 <= v /\ v <= v' /\ v' <= 1.
Proof.
  intros H HW H0 H1 H2. unfold calibrate. destruct (Nat.ltb_spec (length t') 2).
  - exists p, p'. repeat split; trivial.
  - pose proof (manipulate_pos _ _ _ H ltac:(lia)) as HP. pose proof (manipulate_wf _ _ _ H HW) as HW'. destruct (means_increasing _ HW' HP) as [M1 M2].
    pose proof (manipulate_monotone _ _ _ H) as HS. cbn [option_map]. do 2 eexists. split; [reflexivity|]. split; [reflexivity|].
    pose proof (interpolate_bounds (map mean_prob t') (map freq t') p). pose proof (interpolate_bounds (map mean_prob t') (map freq t') p').
    split; [lra|]. split; [|lra]. apply interpolate_mono; trivial; rewrite !map_length; trivial.
Qed.
