From Verif Require Import Base Interp Proofs_Interp Model_Percentiles Proofs_Percentiles.

(** One row, one target: either back end. *)
Definition itp (numba : bool) (k : list (Q * Q)) (x : Q) : Q := if numba then fast_rec k x else np_interp k x.

Lemma itp_bounds b k x lo hi : k <> [] -> Forall (fun p => lo <= snd p <= hi) k -> lo <= itp b k x <= hi.
Proof. destruct b; [apply fast_rec_bounds|apply np_interp_bounds]. Qed.
Lemma itp_mono b k x x' : qsorted (map snd k) -> x <= x' -> itp b k x <= itp b k x'.
Proof. destruct b; [apply fast_rec_mono|apply np_interp_mono]. Qed.
Lemma itp_knot b k i : spaced (map fst k) -> (i < length k)%nat -> itp b k (nth i (map fst k) 0) == nth i (map snd k) 0.
Proof. destruct b; intros; [apply fast_rec_knot; trivial|apply np_interp_knot; trivial; apply spaced_qssorted; trivial]. Qed.
Lemma fast_from_comp k : forall x0 y0 x x', x == x' -> fast_from x0 y0 k x == fast_from x0 y0 k x'.
Proof.
  induction k as [|[x1 y1] k IH]; intros x0 y0 x x' E; cbn [fast_from]; [reflexivity|].
  rewrite E. destruct (x1 <? x'); [apply IH; exact E|]. destruct (eps15 <=? x1 - x0); [|reflexivity]. rewrite E; reflexivity.
Qed.
Lemma itp_comp b k x x' : x == x' -> itp b k x == itp b k x'.
Proof.
  intro E. destruct b.
  - unfold itp. destruct k as [|[x0 y0] k]; simpl; [reflexivity|]. rewrite E. destruct (x0 <? x'); [|reflexivity]. apply fast_from_comp; exact E.
  - unfold itp. apply Qle_antisym.
    + destruct k as [|[x0 y0] k]; simpl; [lra|]. rewrite E at 1. destruct (x' <? x0); [lra|]. rewrite (np_from_comp k x0 y0 x x' E). lra.
    + destruct k as [|[x0 y0] k]; simpl; [lra|]. rewrite E at 1. destruct (x' <? x0); [lra|]. rewrite (np_from_comp k x0 y0 x x' E). lra.
Qed.

Lemma interp_same_x_ok b x xp fp out : interp_same_x b x xp fp = Ok out ->
  Forall (fun r => length r = length xp) fp /\ out = map (fun row => map (itp b (combine xp row)) x) fp.
Proof.
  intro H. assert (HL : Forall (fun r => length r = length xp) fp).
  { destruct b; unfold interp_same_x, fast_interp_same_x, slow_interp_same_x in H;
    (destruct (forallb _ fp) eqn:E; [|discriminate]); rewrite forallb_forall in E; apply Forall_forall;
    intros r Hr; apply Nat.eqb_eq; auto. }
  split; [exact HL|]. destruct b; unfold interp_same_x, fast_interp_same_x, slow_interp_same_x in H;
  (destruct (forallb _ fp) eqn:E; [|discriminate]); injection H as <-; [|reflexivity].
  clear E. induction HL as [|r fp Hr HL IH]; simpl; [reflexivity|]. rewrite IH. f_equal.
  apply map_ext. intro t. apply fast_at_rec; exact Hr.
Qed.
Lemma interp_same_x_total b x xp fp : Forall (fun r => length r = length xp) fp -> exists out, interp_same_x b x xp fp = Ok out.
Proof. intro H. apply (same_x_total x) in H as [H1 H2]. destruct b; trivial. Qed.

(** * Bounds around the percentiles *)
Lemma with_ends_length lo hi row : length (with_ends lo hi row) = S (S (length row)).
Proof. unfold with_ends. simpl. rewrite app_length. simpl. lia. Qed.
Lemma with_ends_sorted lo hi row : qsorted (with_ends lo hi row) <->
  lo <= hi /\ qsorted row /\ Forall (fun x => lo <= x <= hi) row.
Proof.
  unfold with_ends. split.
  - intro H. inversion H as [|? ? H1 H2]; subst. apply Forall_app in H2 as [H2 H3]. inversion H3; subst.
    assert (HH : qsorted row /\ Forall (fun x => x <= hi) row).
    { clear - H1. induction row as [|x row IH]; [split; constructor|]. inversion H1 as [|? ? Ha Hb]; subst.
      destruct (IH Ha) as [I1 I2]. apply Forall_app in Hb as [Hb Hc]. inversion Hc; subst.
      split; constructor; trivial. }
    destruct HH as [HA HB]. split; [trivial|]. split; [trivial|].
    rewrite Forall_forall in *. intros x Hx. split; auto.
  - intros (H1 & H2 & H3). constructor.
    + apply qsorted_app; [exact H2|repeat constructor|]. intros x y Hx [<-|[]]. rewrite Forall_forall in H3. apply H3; exact Hx.
    + apply Forall_app. split; [|repeat constructor; exact H1]. eapply Forall_impl; [|exact H3]. simpl. intros; lra.
Qed.

Definition all_in (rows : list (list Q)) (lo hi : Q) : Prop := Forall (Forall (fun x => lo <= x <= hi)) rows.

Lemma forallb_nondecr rows : forallb nondecreasing_b rows = true <-> Forall qsorted rows.
Proof.
  rewrite forallb_forall, Forall_forall. split; intros H r Hr; apply nondecreasing_b_iff; auto.
Qed.
Lemma Forall_map_iff {A B} (P : B -> Prop) (f : A -> B) l : Forall P (map f l) <-> Forall (fun x => P (f x)) l.
Proof.
  rewrite !Forall_forall. split; intros H x Hx; [apply H, in_map, Hx|].
  apply in_map_iff in Hx as (y & <- & Hy). auto.
Qed.

Lemma add_bounds_strict bounds pcts rows :
  (exists r, add_bounds_percentiles false bounds pcts rows = Ok r) <->
  Forall (fun row => fst bounds <= snd bounds /\ qsorted row /\ Forall (fun x => fst bounds <= x <= snd bounds) row) rows /\
  qsorted pcts /\ Forall (fun p => 0 <= p <= 100) pcts.
Proof.
  destruct bounds as [lo hi]. unfold add_bounds_percentiles. cbn [fst snd].
  assert (E1 : forallb nondecreasing_b (map (with_ends lo hi) rows) = true <->
     Forall (fun row => lo <= hi /\ qsorted row /\ Forall (fun x => lo <= x <= hi) row) rows).
  { rewrite forallb_nondecr, Forall_map_iff. split; apply Forall_impl; intro row; apply with_ends_sorted. }
  assert (E2 : nondecreasing_b (with_ends 0 100 pcts) = true <-> qsorted pcts /\ Forall (fun p => 0 <= p <= 100) pcts).
  { rewrite nondecreasing_b_iff, with_ends_sorted. split; [tauto|]. intros [? ?]. repeat split; trivial. discriminate. }
  destruct (forallb _ _) eqn:F1; cbn [bind].
  - destruct (nondecreasing_b (with_ends 0 100 pcts)) eqn:F2.
    + split; [|eauto]. intros _. split; [apply E1; reflexivity|apply E2; reflexivity].
    + split; [intros [r H]; discriminate|]. intros [_ H]. apply E2 in H. discriminate.
  - split; [intros [r H]; discriminate|]. intros [H _]. apply E1 in H. discriminate.
Qed.
Lemma add_bounds_strict_value bounds pcts rows p f :
  add_bounds_percentiles false bounds pcts rows = Ok (p, f) ->
  p = with_ends 0 100 pcts /\ f = map (with_ends (fst bounds) (snd bounds)) rows.
Proof.
  destruct bounds as [lo hi]. unfold add_bounds_percentiles. destruct (forallb _ _); cbn [bind]; [|discriminate].
  destruct (nondecreasing_b _); [|discriminate]. intro H. injection H as <- <-. split; reflexivity.
Qed.

Lemma array_max_spec lo hi rows : let M := array_max lo (map (with_ends lo hi) rows) in
  lo <= M /\ (rows <> [] -> hi <= M) /\ Forall (Forall (fun x => x <= M)) rows /\
  (M == lo \/ M == hi \/ exists row x, In row rows /\ In x row /\ M == x).
Proof.
  intro M. unfold M, array_max. set (l := concat _).
  assert (HIn : forall x, In x l <-> rows <> [] /\ (x = lo \/ x = hi) \/ exists row, In row rows /\ In x row).
  { intro x. unfold l. rewrite in_concat. split.
    - intros (y & Hy & Hx). apply in_map_iff in Hy as (row & <- & Hr). unfold with_ends in Hx.
      destruct Hx as [<-|Hx]; [left; split; [destruct rows; [contradiction|discriminate]|auto]|].
      apply in_app_iff in Hx as [Hx|[<-|[]]]; [right; eauto|].
      left; split; [destruct rows; [contradiction|discriminate]|auto].
    - intros [[Hr Hx]|(row & Hr & Hx)].
      + destruct rows as [|row rows]; [easy|]. exists (with_ends lo hi row). split; [left; reflexivity|].
        unfold with_ends. destruct Hx as [-> | ->]; [left; reflexivity|]. right. apply in_app_iff. right. left; reflexivity.
      + exists (with_ends lo hi row). split; [apply in_map; exact Hr|]. unfold with_ends. right. apply in_app_iff. left; exact Hx. }
  split; [apply qmaxl_ge_head|]. split; [|split].
  - intro Hr. apply qmaxl_ge. right. apply HIn. left; auto.
  - apply Forall_forall. intros row Hrow. apply Forall_forall. intros x Hx. apply qmaxl_ge. right. apply HIn. right; eauto.
  - destruct (qmaxl_in lo l) as (y & [Hy|Hy] & E); [left; rewrite E, <- Hy; reflexivity|].
    apply HIn in Hy as [[_ Hyy]|(row & Hr & Hx)]; [destruct Hyy as [Hyy|Hyy]; rewrite Hyy in E; auto|]. right; right; eauto.
Qed.
Lemma array_min_spec lo hi rows : let M := array_min lo (map (with_ends lo hi) rows) in
  M <= lo /\ (rows <> [] -> M <= hi) /\ Forall (Forall (fun x => M <= x)) rows /\
  (M == lo \/ M == hi \/ exists row x, In row rows /\ In x row /\ M == x).
Proof.
  intro M. unfold M, array_min. set (l := concat _).
  assert (HIn : forall x, In x l <-> rows <> [] /\ (x = lo \/ x = hi) \/ exists row, In row rows /\ In x row).
  { intro x. unfold l. rewrite in_concat. split.
    - intros (y & Hy & Hx). apply in_map_iff in Hy as (row & <- & Hr). unfold with_ends in Hx.
      destruct Hx as [<-|Hx]; [left; split; [destruct rows; [contradiction|discriminate]|auto]|].
      apply in_app_iff in Hx as [Hx|[<-|[]]]; [right; eauto|].
      left; split; [destruct rows; [contradiction|discriminate]|auto].
    - intros [[Hr Hx]|(row & Hr & Hx)].
      + destruct rows as [|row rows]; [easy|]. exists (with_ends lo hi row). split; [left; reflexivity|].
        unfold with_ends. destruct Hx as [-> | ->]; [left; reflexivity|]. right. apply in_app_iff. right. left; reflexivity.
      + exists (with_ends lo hi row). split; [apply in_map; exact Hr|]. unfold with_ends. right. apply in_app_iff. left; exact Hx. }
  split; [apply qminl_le; left; reflexivity|]. split; [|split].
  - intro Hr. apply qminl_le. right. apply HIn. left; auto.
  - apply Forall_forall. intros row Hrow. apply Forall_forall. intros x Hx. apply qminl_le. right. apply HIn. right; eauto.
  - destruct (qminl_in lo l) as (y & [Hy|Hy] & E); [left; rewrite E, <- Hy; reflexivity|].
    apply HIn in Hy as [[_ Hyy]|(row & Hr & Hx)]; [destruct Hyy as [Hyy|Hyy]; rewrite Hyy in E; auto|]. right; right; eauto.
Qed.

(** With the warning option: new bounds enclose all data and the old bounds, and are
    themselves old bounds or data values. *)
Lemma add_bounds_warn lower upper pcts rows p f : lower <= upper ->
  add_bounds_percentiles true (lower, upper) pcts rows = Ok (p, f) ->
  p = with_ends 0 100 pcts /\ exists lo hi,
    f = map (with_ends lo hi) rows /\ lo <= lower /\ upper <= hi /\ 
    (Forall qsorted rows -> all_in rows lo hi /\ Forall qsorted f) /\
    (lo == lower \/ exists row x, In row rows /\ In x row /\ lo == x) /\
    (hi == upper \/ exists row x, In row rows /\ In x row /\ hi == x) /\
    (Forall qsorted rows -> all_in rows lower upper -> lo = lower /\ hi = upper).
Proof.
  intros Hlu. unfold add_bounds_percentiles. set (fc := map (with_ends lower upper) rows).
  destruct (forallb nondecreasing_b fc) eqn:F1; cbn [bind];
  (destruct (nondecreasing_b (with_ends 0 100 pcts)) eqn:F2; [|discriminate]); intro H; injection H as <- <-;
  (split; [reflexivity|]).
  - exists lower, upper. split; [reflexivity|]. split; [lra|]. split; [lra|]. split; [|split; [left; reflexivity|split; [left; reflexivity|auto]]].
    intros _. apply forallb_nondecr in F1. split; [|exact F1]. unfold all_in. unfold fc in F1.
    apply (proj1 (Forall_map_iff qsorted (with_ends lower upper) rows)) in F1.
    eapply Forall_impl; [|exact F1]. intros row Hr. apply with_ends_sorted in Hr. tauto.
  - destruct (array_max_spec lower upper rows) as (X1 & X2 & X3 & X4).
    destruct (array_min_spec lower upper rows) as (N1 & N2 & N3 & N4).
    set (M := array_max lower (map (with_ends lower upper) rows)) in *.
    set (m := array_min lower (map (with_ends lower upper) rows)) in *.
    exists (if m <? lower then m else lower), (if upper <? M then M else upper).
    split; [reflexivity|].
    assert (L1 : (if m <? lower then m else lower) <= lower) by (destruct (Qltb_spec m lower); lra).
    assert (L2 : upper <= (if upper <? M then M else upper)) by (destruct (Qltb_spec upper M); lra).
    split; [exact L1|]. split; [exact L2|].
    assert (AI : all_in rows (if m <? lower then m else lower) (if upper <? M then M else upper)).
    { unfold all_in. rewrite Forall_forall in *. intros row Hr. specialize (X3 row Hr). specialize (N3 row Hr).
      rewrite Forall_forall in *. intros x Hx. specialize (X3 x Hx). specialize (N3 x Hx).
      destruct (Qltb_spec m lower), (Qltb_spec upper M); lra. }
    split; [|split; [|split]].
    + intro HS. split; [exact AI|]. apply Forall_map_iff. unfold all_in in AI. rewrite Forall_forall in *.
      intros row Hr. apply with_ends_sorted. split; [exact (Qle_trans _ _ _ L1 (Qle_trans _ _ _ Hlu L2))|]. split; [apply HS; exact Hr|apply AI; exact Hr].
    + destruct (Qltb_spec m lower); [|left; reflexivity].
      destruct N4 as [E|[E|E]]; [left; exact E|left; lra|right; exact E].
    + destruct (Qltb_spec upper M); [|left; reflexivity].
      destruct X4 as [E|[E|E]]; [left; lra|left; exact E|right; exact E].
    + intros HS HA. exfalso. assert (forallb nondecreasing_b fc = true); [|congruence].
      apply forallb_nondecr. unfold fc. apply Forall_map_iff. unfold all_in in HA. rewrite Forall_forall in *. intros row Hr.
      apply with_ends_sorted. auto.
Qed.
Lemma add_bounds_warn_total bounds pcts rows :
  (exists r, add_bounds_percentiles true bounds pcts rows = Ok r) <-> qsorted pcts /\ Forall (fun p => 0 <= p <= 100) pcts.
Proof.
  destruct bounds as [lo hi]. unfold add_bounds_percentiles.
  assert (E2 : nondecreasing_b (with_ends 0 100 pcts) = true <-> qsorted pcts /\ Forall (fun p => 0 <= p <= 100) pcts).
  { rewrite nondecreasing_b_iff, with_ends_sorted. split; [tauto|]. intros [? ?]. repeat split; trivial. discriminate. }
  rewrite <- E2. destruct (forallb _ _); cbn [bind]; destruct (nondecreasing_b (with_ends 0 100 pcts));
    split; intro H; trivial; try discriminate; try (destruct H; discriminate); eexists; reflexivity.
Qed.

(** What the interpolation is given, in all option combinations. *)
Lemma extended_rows (warn skip : bool) lower upper pcts rows xp fp : lower <= upper ->
  (if skip then Ok (pcts, rows) else add_bounds_percentiles warn (lower, upper) pcts rows) = Ok (xp, fp) ->
  (skip = true /\ xp = pcts /\ fp = rows) \/
  (skip = false /\ xp = with_ends 0 100 pcts /\ exists lo hi, fp = map (with_ends lo hi) rows /\ lo <= lower /\ upper <= hi /\
     (Forall qsorted rows -> Forall qsorted fp) /\
     (lo == lower \/ exists row x, In row rows /\ In x row /\ lo == x) /\
     (hi == upper \/ exists row x, In row rows /\ In x row /\ hi == x) /\
     (warn = false -> lo = lower /\ hi = upper /\ all_in rows lower upper)).
Proof.
  intros Hlu. destruct skip.
  - intro H. injection H as <- <-. left; auto.
  - intro H. right. split; [reflexivity|]. destruct warn.
    + apply add_bounds_warn in H as (-> & lo & hi & -> & A & B & C & D & E & F); [|exact Hlu]. split; [reflexivity|].
      exists lo, hi. repeat split; trivial; try discriminate. intro HS. apply C; exact HS.
    + pose proof H as H0. apply add_bounds_strict_value in H as [-> ->]. split; [reflexivity|]. exists lower, upper.
      assert (HX : exists r, add_bounds_percentiles false (lower, upper) pcts rows = Ok r) by eauto.
      apply add_bounds_strict in HX as [HX _]. cbn [fst snd] in *.
      assert (HA : all_in rows lower upper) by (unfold all_in; eapply Forall_impl; [|exact HX]; simpl; intros; tauto).
      repeat split; trivial; try lra; try (left; reflexivity).
      intros _. apply Forall_map_iff. eapply Forall_impl; [|exact HX]. simpl. intros row (A & B & C). apply with_ends_sorted; auto.
Qed.

Lemma resample_inv numba warn skip bounds pcts rows asked n s desired out :
  resample numba warn skip bounds pcts rows asked n s = Ok (desired, out) ->
  exists xp fp, (if skip then Ok (pcts, rows) else add_bounds_percentiles warn bounds pcts rows) = Ok (xp, fp) /\
    Forall (fun r => length r = length xp) fp /\ out = map (fun row => map (itp numba (combine xp row)) desired) fp.
Proof.
  unfold resample. match goal with |- bind ?r _ = _ -> _ => destruct r as [d|] end; [|discriminate]. cbn [bind].
  destruct (if skip then _ else _) as [[xp fp]|]; [|discriminate]. cbn [bind].
  destruct (interp_same_x numba d xp fp) as [o|] eqn:E; [|discriminate]. cbn [bind]. intro H. injection H as <- <-.
  apply interp_same_x_ok in E as [E1 E2]. eauto.
Qed.
Lemma resample_desired numba warn skip bounds pcts rows p l n s desired out :
  resample numba warn skip bounds pcts rows (Some (p :: l)) n s = Ok (desired, out) -> desired = p :: l /\ Forall (fun x => 0 <= x <= 100) (p :: l).
Proof.
  unfold resample. destruct (existsb _ (p :: l)) eqn:E; [discriminate|]. cbn [bind].
  destruct (if skip then _ else _) as [[xp fp]|]; [|discriminate]. cbn [bind].
  destruct (interp_same_x numba _ xp fp) as [o|]; [|discriminate]. cbn [bind]. intro H. injection H as <- <-.
  split; [reflexivity|]. apply Forall_forall. intros x Hx.
  destruct (Qltb_spec x 0) as [A|A]; [exfalso|destruct (Qltb_spec 100 x) as [B|B]; [exfalso|lra]].
  - assert (existsb (fun x => (x <? 0) || (100 <? x)) (p :: l) = true); [|congruence].
    apply existsb_exists. exists x. split; [exact Hx|]. apply Qltb_lt in A. rewrite A. reflexivity.
  - assert (existsb (fun x => (x <? 0) || (100 <? x)) (p :: l) = true); [|congruence].
    apply existsb_exists. exists x. split; [exact Hx|]. apply Qltb_lt in B. rewrite B, orb_true_r. reflexivity.
Qed.
Lemma resample_default numba warn skip bounds pcts rows n s desired out :
  resample numba warn skip bounds pcts rows None n s = Ok (desired, out) ->
  choose_set_of_percentiles (match n with Some k => k | None => length pcts end) s = Ok desired.
Proof.
  unfold resample. destruct (choose_set_of_percentiles _ s) as [d|]; [|discriminate]. cbn [bind].
  destruct (if skip then _ else _) as [[xp fp]|]; [|discriminate]. cbn [bind].
  destruct (interp_same_x numba _ xp fp) as [o|]; [|discriminate]. cbn [bind]. intro H. injection H as <- <-. reflexivity.
Qed.

Lemma map_itp_sorted b k d : qsorted (map snd k) -> qsorted d -> qsorted (map (itp b k) d).
Proof.
  intros Hk Hd. apply (qsorted_of_nth _ 0). rewrite map_length. intros i j Hij.
  rewrite !nth_map_lt with (d := 0) by lia. apply itp_mono; trivial. apply qsorted_nth; trivial.
Qed.

Lemma resample_monotone numba warn skip lower upper pcts rows asked n s desired out : lower <= upper ->
  resample numba warn skip (lower, upper) pcts rows asked n s = Ok (desired, out) ->
  Forall qsorted rows -> qsorted desired -> Forall qsorted out.
Proof.
  intros Hlu H HR HD. apply resample_inv in H as (xp & fp & E & HL & ->).
  apply extended_rows in E; [|exact Hlu].
  assert (HF : Forall qsorted fp).
  { destruct E as [(_ & -> & ->)|(_ & -> & lo & hi & _ & _ & _ & C & _)]; auto. }
  apply Forall_map_iff. rewrite Forall_forall in *. intros row Hr. apply map_itp_sorted; trivial.
  rewrite map_snd_combine; [auto|]. symmetry. auto.
Qed.
Lemma resample_within numba warn skip lower upper pcts rows asked n s desired out b1 b2 : lower <= upper ->
  resample numba warn skip (lower, upper) pcts rows asked n s = Ok (desired, out) -> pcts <> [] ->
  all_in rows b1 b2 -> (skip = false -> b1 <= lower /\ upper <= b2) -> all_in out b1 b2.
Proof.
  intros Hlu H HN HA HB. apply resample_inv in H as (xp & fp & E & HL & ->).
  apply extended_rows in E; [|exact Hlu].
  assert (HF : all_in fp b1 b2 /\ xp <> []).
  { destruct E as [(_ & -> & ->)|(Es & -> & lo & hi & -> & C1 & C2 & _ & C3 & C4 & _)]; [auto|].
    destruct (HB Es) as [B1 B2]. split; [|discriminate].
    assert (HIn : forall row x, In row rows -> In x row -> b1 <= x <= b2).
    { intros row x Hr Hx. unfold all_in in HA. rewrite Forall_forall in HA. specialize (HA row Hr). rewrite Forall_forall in HA. auto. }
    assert (Hlo : b1 <= lo <= b2).
    { destruct C3 as [C3|(row & x & Hr & Hx & C3)]; [lra|]. specialize (HIn row x Hr Hx). lra. }
    assert (Hhi : b1 <= hi <= b2).
    { destruct C4 as [C4|(row & x & Hr & Hx & C4)]; [lra|]. specialize (HIn row x Hr Hx). lra. }
    unfold all_in. apply Forall_map_iff. apply Forall_forall. intros row Hr. unfold with_ends.
    constructor; [exact Hlo|]. apply Forall_app. split; [|repeat constructor; tauto].
    apply Forall_forall. intros x Hx. eapply HIn; eauto. }
  destruct HF as [HF HX]. unfold all_in in *. apply Forall_map_iff. rewrite Forall_forall in *. intros row Hr.
  apply Forall_map_iff. apply Forall_forall. intros t _. apply itp_bounds.
  - specialize (HL row Hr). destruct xp; [easy|]. destruct row; [discriminate|]. discriminate.
  - apply (Forall_snd_combine (fun y => b1 <= y <= b2)). apply HF; exact Hr.
Qed.

Lemma spaced_with_ends_inner lo hi l : spaced (with_ends lo hi l) -> spaced l.
Proof.
  unfold with_ends. intro H. inversion H as [|? ? H1 _]; subst. clear H. revert H1.
  induction l as [|x l IH]; intro H; [constructor|]. inversion H as [|? ? H1 H2]; subst. constructor; [apply IH; exact H1|].
  apply Forall_app in H2. tauto.
Qed.
Lemma resample_knot numba warn skip lower upper pcts rows asked n s desired out i j k : lower <= upper ->
  resample numba warn skip (lower, upper) pcts rows asked n s = Ok (desired, out) ->
  spaced (if skip then pcts else with_ends 0 100 pcts) ->
  (i < length rows)%nat -> (j < length desired)%nat -> (k < length pcts)%nat ->
  nth j desired 0 == nth k pcts 0 -> nth j (nth i out []) 0 == nth k (nth i rows []) 0.
Proof.
  intros Hlu H HS Hi Hj Hk E0. apply resample_inv in H as (xp & fp & E & HL & ->).
  apply extended_rows in E; [|exact Hlu]. 
  assert (HI : (i < length fp)%nat).
  { destruct E as [(_ & -> & ->)|(_ & -> & lo & hi & -> & _)]; [exact Hi|rewrite map_length; exact Hi]. }
  rewrite nth_map_lt with (d := []) by exact HI. rewrite nth_map_lt with (d := 0) by exact Hj.
  assert (HR : length (nth i fp []) = length xp) by (rewrite Forall_forall in HL; apply HL, nth_In; exact HI).
  rewrite (itp_comp numba _ _ _ E0).
  destruct E as [(-> & -> & ->)|(-> & -> & lo & hi & -> & _)].
  - pose proof (itp_knot numba (combine pcts (nth i rows [])) k) as HK.
    rewrite map_fst_combine, map_snd_combine in HK by lia. apply HK; [exact HS|rewrite combine_length; lia].
  - rewrite nth_map_lt with (d := []) in * by exact Hi. rewrite !with_ends_length in HR.
    pose proof (itp_knot numba (combine (with_ends 0 100 pcts) (with_ends lo hi (nth i rows []))) (S k)) as HK.
    rewrite map_fst_combine, map_snd_combine in HK by (rewrite !with_ends_length; lia).
    assert (W : forall a b l, (k < length l)%nat -> nth (S k) (with_ends a b l) 0 = nth k l 0).
    { intros a b l Hl. unfold with_ends. simpl. apply app_nth1; exact Hl. }
    rewrite !W in HK by lia. apply HK; [exact HS|rewrite combine_length, !with_ends_length; lia].
Qed.
Lemma resample_identity numba warn skip lower upper p l rows n s desired out : lower <= upper ->
  resample numba warn skip (lower, upper) (p :: l) rows (Some (p :: l)) n s = Ok (desired, out) ->
  spaced (if skip then p :: l else with_ends 0 100 (p :: l)) ->
  desired = p :: l /\ Forall2 (Forall2 Qeq) out rows.
Proof.
  intros Hlu H HS. pose proof (resample_desired _ _ _ _ _ _ _ _ _ _ _ _ H) as [-> _]. split; [reflexivity|].
  pose proof H as H0. apply resample_inv in H0 as (xp & fp & E & HL & EO).
  apply extended_rows in E; [|exact Hlu].
  assert (HLr : Forall (fun r => length r = length (p :: l)) rows /\ length out = length rows).
  { rewrite EO, map_length. destruct E as [(_ & -> & ->)|(_ & -> & lo & hi & -> & _)]; [split; [exact HL|reflexivity]|].
    rewrite map_length. split; [|reflexivity]. apply (proj1 (Forall_map_iff _ _ _)) in HL. eapply Forall_impl; [|exact HL].
    intros r Hr. cbv beta in Hr. rewrite !with_ends_length in Hr. lia. }
  destruct HLr as [HLr HLo].
  assert (HO : forall i, (i < length rows)%nat -> Forall2 Qeq (nth i out []) (nth i rows [])).
  { intros i Hi. assert (R1 : length (nth i rows []) = length (p :: l)) by (rewrite Forall_forall in HLr; apply HLr, nth_In, Hi).
    assert (R2 : length (nth i out []) = length (p :: l)).
    { rewrite EO in *. rewrite map_length in HLo. rewrite nth_map_lt with (d := []) by lia. rewrite map_length. reflexivity. }
    apply (Forall2_Qeq_of_nth _ _ 0); [lia|]. intros j Hj.
    eapply resample_knot; eauto; try lia. reflexivity. }
  clear - HLo HO. revert rows HLo HO. induction out as [|o out IH]; intros [|r rows] HLo HO; simpl in HLo; try lia; constructor.
  - apply (HO 0%nat). simpl; lia.
  - apply IH; [lia|]. intros i Hi. apply (HO (S i)). simpl; lia.
Qed.

Lemma endpoint_witness :
  (exists out, resample true false false (0, 10) [0; 50; 100] [[1; 2; 3]] (Some [0; 50; 100]) None Quantile = Ok ([0; 50; 100], out) /\
     ~ nth 0 (nth 0 out []) 0 == 1) /\
  (exists out, resample false false false (0, 10) [0; 50; 100] [[1; 2; 3]] (Some [0; 50; 100]) None Quantile = Ok ([0; 50; 100], out) /\
     ~ nth 2 (nth 0 out []) 0 == 3).
Proof. split; eexists; (split; [reflexivity|]); vm_compute; discriminate. Qed.
