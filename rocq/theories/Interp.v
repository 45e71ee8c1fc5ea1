(** Interpolation primitives.
    [np_interp] models numpy's np.interp (numpy/core/src/multiarray/compiled_base.c,
    arr_interp: j is the largest index with xp[j] <= x; exact hit returns fp[j];
    constant extrapolation).  For sorted xp the linear search used here finds the
    same j as numpy's binary search.
    [fast_at] and [y_scan] model
    improver/ensemble_copula_coupling/numba_utilities.py lines 20-52 and 55-116. *)
From Verif Require Export Base.

Definition lerp (x0 y0 x1 y1 x : Q) : Q := (y1 - y0) / (x1 - x0) * (x - x0) + y0.

Fixpoint np_from (x0 y0 : Q) (k : list (Q * Q)) (x : Q) : Q :=
  match k with
  | [] => y0
  | (x1, y1) :: r =>
      if x1 <=? x then np_from x1 y1 r x
      else if x0 =? x then y0 else lerp x0 y0 x1 y1 x
  end.

(** np.interp(x, xp, fp) with k = zip(xp, fp); numpy rejects empty xp. *)
Definition np_interp (k : list (Q * Q)) (x : Q) : Q :=
  match k with
  | [] => 0
  | (x0, y0) :: r => if x <? x0 then y0 else np_from x0 y0 r x
  end.

(** np.searchsorted(l, x) (side="left"): first index with l[i] >= x, for sorted l. *)
Fixpoint searchsorted (l : list Q) (x : Q) : nat :=
  match l with
  | [] => 0
  | y :: r => if y <? x then S (searchsorted r x) else 0
  end.

(** np.searchsorted(l, x, side="right"): first index with l[i] > x, for sorted l. *)
Fixpoint searchsorted_right (l : list Q) (x : Q) : nat :=
  match l with
  | [] => 0
  | y :: r => if y <=? x then S (searchsorted_right r x) else 0
  end.

Definition eps15 : Q := 1 # 1000000000000000.

(** numba_utilities.py lines 38-51: one target x, one row (xp, fp). *)
Definition fast_at (xp fp : list Q) (x : Q) : Q :=
  let ind := searchsorted xp x in
  if (ind =? 0)%nat then nth 0 fp 0
  else if (ind =? length xp)%nat then last fp 0
  else
    let xl := nth (ind - 1) xp 0 in
    let xu := nth ind xp 0 in
    let yl := nth (ind - 1) fp 0 in
    let yu := nth ind fp 0 in
    if eps15 <=? xu - xl then yl + (x - xl) / (xu - xl) * (yu - yl) else yl.

(** numba_utilities.py lines 20-52: fast_interp_same_x (1-D-ness of x and xp is by typing). *)
Definition fast_interp_same_x (x xp : list Q) (fp : list (list Q)) : result (list (list Q)) :=
  if forallb (fun row => (length row =? length xp)%nat) fp
  then Ok (map (fun row => map (fast_at xp row) x) fp)
  else Err ValueError.

(** ensemble_copula_coupling/utilities.py lines 268-282: slow_interp_same_x. *)
Definition slow_interp_same_x (x xp : list Q) (fp : list (list Q)) : result (list (list Q)) :=
  if forallb (fun row => (length row =? length xp)%nat) fp
  then Ok (map (fun row => map (np_interp (combine xp row)) x) fp)
  else Err ValueError.

(** Loop state of fast_interp_same_y for one row (lines 83-86). *)
Record scan := { s_ind : nat; s_int : Q; s_slope : Q; s_xl : Q }.
Definition scan0 : scan := {| s_ind := 0; s_int := 0; s_slope := 0; s_xl := 0 |}.

(** Lines 95-97: while ind < max_ind and xp[ind] < curr_x: ind += 1. *)
Definition advance (xp : list Q) (ind : nat) (x : Q) : nat :=
  (ind + searchsorted (skipn ind xp) x)%nat.

(** Lines 106-114: recompute intercept, x_lower and slope at ind. *)
Definition refresh (xp fp : list Q) (ind : nat) : scan :=
  let intercept := nth (ind - 1) fp 0 in
  let x_lower := nth (ind - 1) xp 0 in
  let h_diff := nth ind xp 0 - x_lower in
  {| s_ind := ind; s_int := intercept; s_xl := x_lower;
     s_slope := if h_diff <? eps15 then 0 else (nth ind fp 0 - intercept) / h_diff |}.

(** Lines 87-115: one target. *)
Definition y_step (ordered : bool) (xp fp : list Q) (st : scan) (x : Q) : scan * Q :=
  let ind := if ordered then advance xp (s_ind st) x else searchsorted xp x in
  let recalculate := ordered && negb (ind =? s_ind st)%nat in
  if (ind =? 0)%nat then
    ({| s_ind := ind; s_int := s_int st; s_slope := s_slope st; s_xl := s_xl st |}, nth 0 fp 0)
  else if (ind =? length xp)%nat then
    ({| s_ind := ind; s_int := s_int st; s_slope := s_slope st; s_xl := s_xl st |}, last fp 0)
  else
    let st' := if recalculate || negb ordered then refresh xp fp ind
               else {| s_ind := ind; s_int := s_int st; s_slope := s_slope st; s_xl := s_xl st |} in
    (st', s_int st' + (x - s_xl st') * s_slope st').

Fixpoint y_scan (ordered : bool) (xp fp : list Q) (st : scan) (xs : list Q) : list Q :=
  match xs with
  | [] => []
  | x :: r => let (st', v) := y_step ordered xp fp st x in v :: y_scan ordered xp fp st' r
  end.

(** Lines 73-77: x is non-decreasing. Lines 55-116: the whole function. *)
Definition fast_interp_same_y (x : list Q) (xp : list (list Q)) (fp : list Q) : result (list (list Q)) :=
  if forallb (fun row => (length row =? length fp)%nat) xp
  then Ok (map (fun row => y_scan (nondecreasing_b x) row fp scan0 x) xp)
  else Err ValueError.

(** ensemble_copula_coupling/utilities.py lines 311-324: slow_interp_same_y. *)
Definition slow_interp_same_y (x : list Q) (xp : list (list Q)) (fp : list Q) : result (list (list Q)) :=
  if forallb (fun row => (length row =? length fp)%nat) xp
  then Ok (map (fun row => map (np_interp (combine row fp)) x) xp)
  else Err ValueError.

(** * Lemmas *)

Lemma lerp_bounds x0 y0 x1 y1 x lo hi :
  x0 < x1 -> x0 <= x <= x1 -> lo <= y0 <= hi -> lo <= y1 <= hi -> lo <= lerp x0 y0 x1 y1 x <= hi.
Proof.
  intros Hx Hx1 Hy0 Hy1. unfold lerp.
  assert (E : (y1 - y0) / (x1 - x0) * (x - x0) + y0 == y0 + (x - x0) / (x1 - x0) * (y1 - y0)) by (field; lra).
  rewrite E.
  assert (H0 : 0 <= (x - x0) / (x1 - x0)) by (apply Qle_shift_div_l; lra).
  assert (H1 : (x - x0) / (x1 - x0) <= 1) by (apply Qle_shift_div_r; lra).
  set (t := (x - x0) / (x1 - x0)) in *. clearbody t. nra.
Qed.
Lemma lerp_mono x0 y0 x1 y1 x x' :
  x0 < x1 -> y0 <= y1 -> x <= x' -> lerp x0 y0 x1 y1 x <= lerp x0 y0 x1 y1 x'.
Proof.
  intros Hx Hy Hxx. unfold lerp.
  assert (H0 : 0 <= (y1 - y0) / (x1 - x0)) by (apply Qle_shift_div_l; lra).
  set (t := (y1 - y0) / (x1 - x0)) in *. clearbody t. nra.
Qed.
Lemma lerp_left x0 y0 x1 y1 : lerp x0 y0 x1 y1 x0 == y0.
Proof. unfold lerp. ring. Qed.
Lemma lerp_right x0 y0 x1 y1 : x0 < x1 -> lerp x0 y0 x1 y1 x1 == y1.
Proof. intro H. unfold lerp. field. lra. Qed.
Global Instance lerp_comp : Proper (Qeq ==> Qeq ==> Qeq ==> Qeq ==> Qeq ==> Qeq) lerp.
Proof. intros a a' H1 b b' H2 c c' H3 d d' H4 e e' H5. unfold lerp. rewrite H1, H2, H3, H4, H5. reflexivity. Qed.

Lemma np_from_bounds k : forall x0 y0 x lo hi,
  x0 <= x -> lo <= y0 <= hi -> Forall (fun p => lo <= snd p <= hi) k -> lo <= np_from x0 y0 k x <= hi.
Proof.
  induction k as [|[x1 y1] k IH]; intros x0 y0 x lo hi Hx Hy HF; simpl; [exact Hy|].
  inversion HF as [|? ? H1 H2]; subst; simpl in H1.
  destruct (Qleb_spec x1 x); [apply IH; trivial|].
  destruct (Qeqb_spec x0 x); [exact Hy|].
  apply lerp_bounds; trivial; lra.
Qed.
Lemma np_interp_bounds k x lo hi :
  k <> [] -> Forall (fun p => lo <= snd p <= hi) k -> lo <= np_interp k x <= hi.
Proof.
  destruct k as [|[x0 y0] k]; [easy|]. intros _ HF. inversion HF as [|? ? H1 H2]; subst. simpl in *.
  destruct (Qltb_spec x x0); [exact H1|]. apply np_from_bounds; trivial.
Qed.

Lemma np_from_ge_start k : forall x0 y0 x, x0 <= x -> qsorted (y0 :: map snd k) -> y0 <= np_from x0 y0 k x.
Proof.
  induction k as [|[x1 y1] k IH]; intros x0 y0 x Hx HS; simpl; [lra|].
  inversion HS as [|? ? HS1 HF]; subst. inversion HF as [|? ? Hy1 _]; subst. simpl in *.
  destruct (Qleb_spec x1 x).
  - apply Qle_trans with y1; [exact Hy1|]. apply IH; trivial.
  - destruct (Qeqb_spec x0 x); [lra|].
    destruct (lerp_bounds x0 y0 x1 y1 x y0 y1); lra.
Qed.
Lemma np_from_mono k : forall x0 y0 x x', x0 <= x -> x <= x' -> qsorted (y0 :: map snd k) ->
  np_from x0 y0 k x <= np_from x0 y0 k x'.
Proof.
  induction k as [|[x1 y1] k IH]; intros x0 y0 x x' Hx Hxx HS; simpl; [lra|].
  inversion HS as [|? ? HS1 HF]; subst. inversion HF as [|? ? Hy1 _]; subst. simpl in *.
  destruct (Qleb_spec x1 x), (Qleb_spec x1 x'); try lra.
  - apply IH; trivial.
  - apply Qle_trans with y1; [|apply np_from_ge_start; trivial].
    destruct (Qeqb_spec x0 x); [lra|]. destruct (lerp_bounds x0 y0 x1 y1 x y0 y1); lra.
  - destruct (Qeqb_spec x0 x), (Qeqb_spec x0 x'); try lra.
    + destruct (lerp_bounds x0 y0 x1 y1 x' y0 y1); lra.
    + apply lerp_mono; lra.
Qed.
Lemma np_interp_mono k x x' : qsorted (map snd k) -> x <= x' -> np_interp k x <= np_interp k x'.
Proof.
  destruct k as [|[x0 y0] k]; simpl; intros HS Hxx; [lra|].
  destruct (Qltb_spec x x0), (Qltb_spec x' x0); try lra.
  - apply np_from_ge_start; trivial.
  - apply np_from_mono; trivial.
Qed.

Lemma np_from_comp k : forall x0 y0 x x', x == x' -> np_from x0 y0 k x == np_from x0 y0 k x'.
Proof.
  induction k as [|[x1 y1] k IH]; intros x0 y0 x x' E; simpl; [reflexivity|].
  destruct (Qleb_spec x1 x), (Qleb_spec x1 x'); try lra; [apply IH; exact E|].
  destruct (Qeqb_spec x0 x), (Qeqb_spec x0 x'); try lra. rewrite E. reflexivity.
Qed.
Global Instance np_interp_comp : Proper (eq ==> Qeq ==> Qeq) np_interp.
Proof.
  intros k k' <- x x' E. destruct k as [|[x0 y0] k]; simpl; [reflexivity|].
  destruct (Qltb_spec x x0), (Qltb_spec x' x0); try lra. apply np_from_comp; exact E.
Qed.

(** Exact at the knots. *)
Lemma np_from_start k x0 y0 : (match k with [] => True | (x1, _) :: _ => x0 < x1 end) -> np_from x0 y0 k x0 == y0.
Proof.
  destruct k as [|[x1 y1] k]; simpl; [reflexivity|]. intro H.
  destruct (Qleb_spec x1 x0); [lra|]. destruct (Qeqb_spec x0 x0); [reflexivity|lra].
Qed.
Lemma np_from_knot k : forall x0 y0 i, qssorted (x0 :: map fst k) -> (i < length k)%nat ->
  np_from x0 y0 k (nth i (map fst k) 0) == nth i (map snd k) 0.
Proof.
  induction k as [|[x1 y1] k IH]; intros x0 y0 i HS Hi; [simpl in Hi; lia|].
  inversion HS as [|? ? HS1 HF]; subst. simpl in HS1.
  destruct i as [|i].
  - simpl. destruct (Qleb_spec x1 x1); [|lra]. apply np_from_start.
    destruct k as [|[x2 y2] k]; trivial. inversion HS1 as [|? ? _ HF1]; subst. inversion HF1; subst. trivial.
  - simpl. assert (H : x1 <= nth i (map fst k) 0).
    { inversion HS1 as [|? ? _ HF1]; subst. rewrite Forall_forall in HF1. apply Qlt_le_weak, HF1, nth_In.
      rewrite map_length. simpl in Hi. lia. }
    destruct (Qleb_spec x1 (nth i (map fst k) 0)); [|lra]. apply IH; trivial. simpl in Hi; lia.
Qed.
Lemma np_interp_knot k i : qssorted (map fst k) -> (i < length k)%nat ->
  np_interp k (nth i (map fst k) 0) == nth i (map snd k) 0.
Proof.
  destruct k as [|[x0 y0] k]; intros HS Hi; [simpl in Hi; lia|]. destruct i as [|i].
  - simpl. destruct (Qltb_spec x0 x0); [lra|]. apply np_from_start.
    destruct k as [|[x1 y1] k]; trivial. inversion HS as [|? ? _ HF]; subst. inversion HF; subst. trivial.
  - simpl in *. inversion HS as [|? ? HS1 HF]; subst.
    assert (H : x0 < nth i (map fst k) 0).
    { rewrite Forall_forall in HF. apply HF, nth_In. rewrite map_length. lia. }
    destruct (Qltb_spec (nth i (map fst k) 0) x0); [lra|].
    apply np_from_knot; [constructor; trivial|lia].
Qed.

(** Recursive form of the numba interpolation. *)
Fixpoint fast_from (x0 y0 : Q) (k : list (Q * Q)) (x : Q) : Q :=
  match k with
  | [] => y0
  | (x1, y1) :: r =>
      if x1 <? x then fast_from x1 y1 r x
      else if eps15 <=? x1 - x0 then y0 + (x - x0) / (x1 - x0) * (y1 - y0) else y0
  end.
Definition fast_rec (k : list (Q * Q)) (x : Q) : Q :=
  match k with
  | [] => 0
  | (x0, y0) :: r => if x0 <? x then fast_from x0 y0 r x else y0
  end.

Lemma searchsorted_le l x : (searchsorted l x <= length l)%nat.
Proof. induction l as [|y l IH]; simpl; [lia|]. destruct (y <? x); simpl; lia. Qed.

Lemma fast_at_from xp : forall fp x0 y0 x, length fp = length xp ->
  x0 < x -> fast_at (x0 :: xp) (y0 :: fp) x = fast_from x0 y0 (combine xp fp) x.
Proof.
  induction xp as [|x1 xp IH]; intros fp x0 y0 x HL Hx; destruct fp as [|y1 fp]; simpl in HL; try lia.
  - unfold fast_at. simpl. assert (E : (x0 <? x) = true) by (apply Qltb_lt; exact Hx). rewrite E. reflexivity.
  - simpl combine. simpl fast_from. destruct (Qltb_spec x1 x) as [H1|H1].
    + rewrite <- IH by (trivial; lia). unfold fast_at.
      assert (E0 : (x0 <? x) = true) by (apply Qltb_lt; exact Hx).
      assert (E1 : (x1 <? x) = true) by (apply Qltb_lt; exact H1).
      cbn [searchsorted]. rewrite E0, E1. cbn [searchsorted].
      replace (S (S (searchsorted xp x)) =? 0)%nat with false by reflexivity.
      replace (S (searchsorted xp x) =? 0)%nat with false by reflexivity.
      change (length (x0 :: x1 :: xp)) with (S (length (x1 :: xp))).
      change (S (S (searchsorted xp x)) =? S (length (x1 :: xp)))%nat with (S (searchsorted xp x) =? length (x1 :: xp))%nat.
      destruct (S (searchsorted xp x) =? length (x1 :: xp))%nat; [reflexivity|].
      replace (S (S (searchsorted xp x)) - 1)%nat with (S (searchsorted xp x)) by lia.
      replace (S (searchsorted xp x) - 1)%nat with (searchsorted xp x) by lia.
      reflexivity.
    + unfold fast_at. assert (E0 : (x0 <? x) = true) by (apply Qltb_lt; exact Hx).
      assert (E1 : (x1 <? x) = false) by (apply Qltb_ge; exact H1).
      cbn [searchsorted]. rewrite E0, E1. simpl. reflexivity.
Qed.
Lemma fast_at_rec xp fp x : length fp = length xp -> fast_at xp fp x = fast_rec (combine xp fp) x.
Proof.
  intro HL. destruct xp as [|x0 xp], fp as [|y0 fp]; simpl in HL; try lia; [reflexivity|].
  simpl combine. simpl fast_rec. destruct (Qltb_spec x0 x) as [H|H].
  - apply fast_at_from; [lia|exact H].
  - unfold fast_at. simpl. assert (E : (x0 <? x) = false) by (apply Qltb_ge; exact H). rewrite E. reflexivity.
Qed.

Lemma eps15_pos : 0 < eps15. Proof. reflexivity. Qed.

Lemma flerp_eq x0 y0 x1 y1 x : x0 < x1 -> y0 + (x - x0) / (x1 - x0) * (y1 - y0) == lerp x0 y0 x1 y1 x.
Proof. intro H. unfold lerp. field. lra. Qed.

Lemma fast_from_bounds k : forall x0 y0 x lo hi,
  x0 < x -> lo <= y0 <= hi -> Forall (fun p => lo <= snd p <= hi) k -> lo <= fast_from x0 y0 k x <= hi.
Proof.
  pose proof eps15_pos.
  induction k as [|[x1 y1] k IH]; intros x0 y0 x lo hi Hx Hy HF; simpl; [exact Hy|].
  inversion HF as [|? ? H1 H2]; subst; simpl in H1.
  destruct (Qltb_spec x1 x); [apply IH; trivial|].
  destruct (Qleb_spec eps15 (x1 - x0)); [|exact Hy].
  rewrite flerp_eq by lra. apply lerp_bounds; trivial; lra.
Qed.
Lemma fast_rec_bounds k x lo hi :
  k <> [] -> Forall (fun p => lo <= snd p <= hi) k -> lo <= fast_rec k x <= hi.
Proof.
  destruct k as [|[x0 y0] k]; [easy|]. intros _ HF. inversion HF as [|? ? H1 H2]; subst. simpl in *.
  destruct (Qltb_spec x0 x); [|exact H1]. apply fast_from_bounds; trivial.
Qed.
Lemma fast_from_ge_start k : forall x0 y0 x, x0 < x -> qsorted (y0 :: map snd k) -> y0 <= fast_from x0 y0 k x.
Proof.
  pose proof eps15_pos.
  induction k as [|[x1 y1] k IH]; intros x0 y0 x Hx HS; simpl; [lra|].
  inversion HS as [|? ? HS1 HF]; subst. inversion HF as [|? ? Hy1 _]; subst. simpl in *.
  destruct (Qltb_spec x1 x).
  - apply Qle_trans with y1; [exact Hy1|]. apply IH; trivial.
  - destruct (Qleb_spec eps15 (x1 - x0)); [|lra]. rewrite flerp_eq by lra.
    destruct (lerp_bounds x0 y0 x1 y1 x y0 y1); lra.
Qed.
Lemma fast_from_mono k : forall x0 y0 x x', x0 < x -> x <= x' -> qsorted (y0 :: map snd k) ->
  fast_from x0 y0 k x <= fast_from x0 y0 k x'.
Proof.
  pose proof eps15_pos.
  induction k as [|[x1 y1] k IH]; intros x0 y0 x x' Hx Hxx HS; simpl; [lra|].
  inversion HS as [|? ? HS1 HF]; subst. inversion HF as [|? ? Hy1 _]; subst. simpl in *.
  destruct (Qltb_spec x1 x), (Qltb_spec x1 x'); try lra.
  - apply IH; trivial.
  - apply Qle_trans with y1; [|apply fast_from_ge_start; trivial].
    destruct (Qleb_spec eps15 (x1 - x0)); [|lra]. rewrite flerp_eq by lra.
    destruct (lerp_bounds x0 y0 x1 y1 x y0 y1); lra.
  - destruct (Qleb_spec eps15 (x1 - x0)); [|lra]. rewrite !flerp_eq by lra. apply lerp_mono; lra.
Qed.
Lemma fast_rec_mono k x x' : qsorted (map snd k) -> x <= x' -> fast_rec k x <= fast_rec k x'.
Proof.
  destruct k as [|[x0 y0] k]; simpl; intros HS Hxx; [lra|].
  destruct (Qltb_spec x0 x), (Qltb_spec x0 x'); try lra.
  - apply fast_from_mono; trivial.
  - apply fast_from_ge_start; trivial.
Qed.

(** Knots that are at least 1e-15 apart. *)
Definition gap (x y : Q) : Prop := eps15 <= y - x.
Definition spaced : list Q -> Prop := StronglySorted gap.
Lemma spaced_qssorted l : spaced l -> qssorted l.
Proof.
  pose proof eps15_pos. unfold gap.
  induction 1 as [|x l Hs IH Hf]; constructor; trivial.
  eapply Forall_impl; [|exact Hf]. unfold gap. intros; lra.
Qed.

Lemma fast_from_np k : forall x0 y0 x, x0 < x -> spaced (x0 :: map fst k) ->
  fast_from x0 y0 k x == np_from x0 y0 k x.
Proof.
  pose proof eps15_pos.
  induction k as [|[x1 y1] k IH]; intros x0 y0 x Hx HS; simpl; [reflexivity|].
  inversion HS as [|? ? HS1 HF]; subst. inversion HF as [|? ? Hg _]; subst. unfold gap in Hg. simpl in *.
  destruct (Qltb_spec x1 x) as [H1|H1].
  - destruct (Qleb_spec x1 x); [|lra]. apply IH; trivial.
  - destruct (Qleb_spec eps15 (x1 - x0)); [|lra].
    rewrite flerp_eq by lra.
    destruct (Qleb_spec x1 x) as [H2|H2].
    + assert (E : x == x1) by lra. rewrite (np_from_comp k x1 y1 x x1 E).
      rewrite E, lerp_right by lra. symmetry. apply np_from_start.
      destruct k as [|[x2 y2] k]; trivial. inversion HS1 as [|? ? _ HF1]; subst.
      inversion HF1 as [|? ? Hg2 _]; subst. unfold gap in Hg2; simpl in Hg2. lra.
    + destruct (Qeqb_spec x0 x); [lra|]. reflexivity.
Qed.
Lemma fast_rec_np k x : spaced (map fst k) -> fast_rec k x == np_interp k x.
Proof.
  pose proof eps15_pos.
  destruct k as [|[x0 y0] k]; simpl; intro HS; [reflexivity|].
  destruct (Qltb_spec x0 x) as [H1|H1], (Qltb_spec x x0) as [H2|H2]; try lra.
  - apply fast_from_np; trivial.
  - assert (E : x == x0) by lra. rewrite (np_from_comp k x0 y0 x x0 E). symmetry. apply np_from_start.
    destruct k as [|[x1 y1] k]; trivial. inversion HS as [|? ? _ HF]; subst. inversion HF as [|? ? Hg _]; subst.
    unfold gap in Hg; simpl in Hg. lra.
Qed.

(** Exact at knots for the numba version (knots 1e-15 apart). *)
Lemma fast_rec_knot k i : spaced (map fst k) -> (i < length k)%nat ->
  fast_rec k (nth i (map fst k) 0) == nth i (map snd k) 0.
Proof.
  intros HS Hi. rewrite fast_rec_np by exact HS. apply np_interp_knot; trivial. apply spaced_qssorted; exact HS.
Qed.

Lemma map_fst_combine {A B} (l : list A) (m : list B) : length l = length m -> map fst (combine l m) = l.
Proof. revert m. induction l as [|x l IH]; intros [|y m] H; simpl in *; try discriminate; [reflexivity|]. f_equal. apply IH. lia. Qed.
Lemma map_snd_combine {A B} (l : list A) (m : list B) : length l = length m -> map snd (combine l m) = m.
Proof. revert m. induction l as [|x l IH]; intros [|y m] H; simpl in *; try discriminate; [reflexivity|]. f_equal. apply IH. lia. Qed.
Lemma Forall_snd_combine {A B} (P : B -> Prop) (l : list A) (m : list B) : Forall P m -> Forall (fun p => P (snd p)) (combine l m).
Proof.
  intro H. apply Forall_forall. intros [a b] Hab. apply in_combine_r in Hab.
  rewrite Forall_forall in H. apply H. exact Hab.
Qed.

(** The incremental scan. *)
Lemma searchsorted_mono l x x' : x <= x' -> (searchsorted l x <= searchsorted l x')%nat.
Proof.
  intro H. induction l as [|y l IH]; simpl; [lia|].
  destruct (Qltb_spec y x), (Qltb_spec y x'); try lia; try lra.
Qed.
Lemma advance_searchsorted l : forall x x', x <= x' -> advance l (searchsorted l x) x' = searchsorted l x'.
Proof.
  unfold advance. induction l as [|y l IH]; intros x x' H; [reflexivity|].
  cbn [searchsorted]. destruct (Qltb_spec y x) as [H1|H1].
  - assert (E : (y <? x') = true) by (apply Qltb_lt; lra). rewrite E. cbn [skipn].
    simpl. f_equal. apply IH; exact H.
  - simpl. reflexivity.
Qed.

(** Value of one target considered alone (lines 98-115 with the search done afresh). *)
Definition y_alone (xp fp : list Q) (x : Q) : Q := snd (y_step false xp fp scan0 x).

Definition scan_inv (xp fp : list Q) (st : scan) : Prop :=
  (0 < s_ind st < length xp)%nat -> st = refresh xp fp (s_ind st).

Lemma y_step_ordered xp fp st x :
  scan_inv xp fp st -> (advance xp (s_ind st) x = searchsorted xp x) ->
  snd (y_step true xp fp st x) = y_alone xp fp x /\
  scan_inv xp fp (fst (y_step true xp fp st x)) /\ s_ind (fst (y_step true xp fp st x)) = searchsorted xp x.
Proof.
  intros Hinv Hadv. unfold y_alone, y_step. rewrite Hadv. cbn [andb negb orb].
  pose proof (searchsorted_le xp x) as Hle.
  destruct (Nat.eqb_spec (searchsorted xp x) 0) as [E0|E0].
  - simpl. repeat split; trivial. intros [H1 H2]. simpl in H1. lia.
  - destruct (Nat.eqb_spec (searchsorted xp x) (length xp)) as [E1|E1].
    + simpl. repeat split; trivial. intros [H1 H2]. simpl in H2. lia.
    + rewrite orb_false_r. destruct (Nat.eqb_spec (searchsorted xp x) (s_ind st)) as [E2|E2].
      * cbn [negb].
        assert (Est : st = refresh xp fp (searchsorted xp x)).
        { rewrite E2. apply Hinv. lia. }
        rewrite Est. cbn [s_ind s_int s_slope s_xl refresh fst snd].
        split; [reflexivity|]. split; [|reflexivity]. intros _. reflexivity.
      * simpl. split; [reflexivity|]. split; [|reflexivity]. intros _. reflexivity.
Qed.

Lemma y_scan_ordered xp fp : forall xs st x0,
  scan_inv xp fp st -> s_ind st = searchsorted xp x0 -> qsorted (x0 :: xs) ->
  y_scan true xp fp st xs = map (y_alone xp fp) xs.
Proof.
  induction xs as [|x xs IH]; intros st x0 Hinv Hind HS; [reflexivity|].
  inversion HS as [|? ? HS1 HF]; subst. inversion HF as [|? ? Hx _]; subst.
  assert (Hadv : advance xp (s_ind st) x = searchsorted xp x).
  { rewrite Hind. apply advance_searchsorted. exact Hx. }
  destruct (y_step_ordered xp fp st x Hinv Hadv) as (H1 & H2 & H3).
  cbn [y_scan map]. destruct (y_step true xp fp st x) as [st' v] eqn:E. simpl in H1, H2, H3.
  subst v. f_equal. apply (IH st' x); trivial.
Qed.
Lemma y_scan_unordered xp fp xs : forall st, y_scan false xp fp st xs = map (y_alone xp fp) xs.
Proof.
  induction xs as [|x xs IH]; intro st; [reflexivity|].
  cbn [y_scan map]. destruct (y_step false xp fp st x) as [st' v] eqn:E.
  assert (Hv : v = y_alone xp fp x).
  { unfold y_alone. unfold y_step in E |- *. cbn [andb orb negb] in *.
    destruct (searchsorted xp x =? 0)%nat; [injection E as <- <-; reflexivity|].
    destruct (searchsorted xp x =? length xp)%nat; [injection E as <- <-; reflexivity|].
    injection E as <- <-. reflexivity. }
  subst v. f_equal. apply IH.
Qed.
Lemma y_scan_alone b xp fp xs : (b = true -> qsorted xs) -> y_scan b xp fp scan0 xs = map (y_alone xp fp) xs.
Proof.
  destruct b; intro H; [|apply y_scan_unordered].
  specialize (H eq_refl).
  destruct xs as [|x xs]; [reflexivity|].
  inversion H as [|? ? HS HF]; subst.
  cbn [y_scan map].
  assert (Hinv : scan_inv xp fp scan0) by (intros [H1 _]; simpl in H1; lia).
  assert (Hadv : advance xp (s_ind scan0) x = searchsorted xp x) by reflexivity.
  destruct (y_step_ordered xp fp scan0 x Hinv Hadv) as (H1 & H2 & H3).
  destruct (y_step true xp fp scan0 x) as [st' v] eqn:E. simpl in H1, H2, H3. subst v. f_equal.
  apply (y_scan_ordered xp fp xs st' x); trivial.
Qed.
Lemma y_alone_fast xp fp x : y_alone xp fp x == fast_at xp fp x.
Proof.
  unfold y_alone, y_step, fast_at. cbn [andb orb negb].
  destruct (searchsorted xp x =? 0)%nat; [reflexivity|].
  destruct (searchsorted xp x =? length xp)%nat; [reflexivity|].
  cbn [snd refresh s_int s_slope s_xl]. set (i := searchsorted xp x).
  pose proof eps15_pos.
  destruct (Qltb_spec (nth i xp 0 - nth (i - 1) xp 0) eps15), (Qleb_spec eps15 (nth i xp 0 - nth (i - 1) xp 0)); try lra.
  field. lra.
Qed.
