From Verif Require Import Base Model_Rescale.

Lemma zipw_length {A B C} (f : A -> B -> C) l m : length l = length m -> length (zipw f l m) = length l.
Proof. revert m. induction l as [|x l IH]; intros [|y m] H; simpl in *; try discriminate; [reflexivity|]. f_equal. apply IH. lia. Qed.
Lemma zipw_nth {A B C} (f : A -> B -> C) l : forall m i da db dc, (i < length l)%nat -> (i < length m)%nat ->
  nth i (zipw f l m) dc = f (nth i l da) (nth i m db).
Proof.
  induction l as [|x l IH]; intros [|y m] i da db dc Hl Hm; simpl in *; try lia.
  destruct i as [|i]; [reflexivity|]. apply IH; lia.
Qed.

Lemma rescale_pt_lo dl dr sl sr b : ~ dl == dr -> rescale_pt dl dr sl sr b dl == sl.
Proof.
  intro H. unfold rescale_pt.
  assert (E : (dl - dl) * (sr - sl) / (dr - dl) + sl == sl) by (field; lra).
  destruct b; rewrite E; [|reflexivity]. apply clip_id. qmm; lra.
Qed.
Lemma rescale_pt_hi dl dr sl sr b : ~ dl == dr -> rescale_pt dl dr sl sr b dr == sr.
Proof.
  intro H. unfold rescale_pt.
  assert (E : (dr - dl) * (sr - sl) / (dr - dl) + sl == sr) by (field; lra).
  destruct b; rewrite E; [|reflexivity]. apply clip_id. qmm; lra.
Qed.
Lemma rescale_pt_range dl dr sl sr x :
  Qmin sl sr <= rescale_pt dl dr sl sr true x <= Qmax sl sr.
Proof. unfold rescale_pt. apply clip_bounds. qmm; lra. Qed.

Lemma rescale_raw_interior dl dr sl sr x : dl < dr -> dl <= x <= dr ->
  Qmin sl sr <= (x - dl) * (sr - sl) / (dr - dl) + sl <= Qmax sl sr.
Proof.
  intros H Hx.
  assert (E : (x - dl) * (sr - sl) / (dr - dl) + sl == sl + (x - dl) / (dr - dl) * (sr - sl)) by (field; lra).
  rewrite E.
  assert (H0 : 0 <= (x - dl) / (dr - dl)) by (apply Qle_shift_div_l; lra).
  assert (H1 : (x - dl) / (dr - dl) <= 1) by (apply Qle_shift_div_r; lra).
  set (t := (x - dl) / (dr - dl)) in *. clearbody t. qmm; nra.
Qed.
Lemma rescale_raw_flip dl dr sl sr x : ~ dl == dr ->
  (x - dl) * (sr - sl) / (dr - dl) + sl == (x - dr) * (sl - sr) / (dl - dr) + sr.
Proof. intro H. field. split; lra. Qed.
Lemma rescale_pt_clip_noop dl dr sl sr x : ~ dl == dr -> Qmin dl dr <= x <= Qmax dl dr ->
  rescale_pt dl dr sl sr true x == rescale_pt dl dr sl sr false x.
Proof.
  intros H Hx. unfold rescale_pt. apply clip_id.
  destruct (Qlt_le_dec dl dr) as [L|L].
  - apply rescale_raw_interior; trivial. revert Hx. qmm; lra.
  - pose proof (rescale_raw_interior dr dl sr sl x) as HH.
    assert (dr < dl) by lra. assert (Hi : dr <= x <= dl) by (revert Hx; qmm; lra).
    specialize (HH H0 Hi). rewrite <- (rescale_raw_flip dl dr sl sr x H) in HH.
    revert HH. qmm; lra.
Qed.
Lemma rescale_pt_mono dl dr sl sr b x y : dl < dr -> sl <= sr -> x <= y ->
  rescale_pt dl dr sl sr b x <= rescale_pt dl dr sl sr b y.
Proof.
  intros H Hs Hxy. unfold rescale_pt.
  assert (E : (x - dl) * (sr - sl) / (dr - dl) + sl <= (y - dl) * (sr - sl) / (dr - dl) + sl).
  { assert (Ex : forall z, (z - dl) * (sr - sl) / (dr - dl) == (sr - sl) / (dr - dl) * (z - dl)) by (intro; field; lra).
    rewrite !Ex. assert (0 <= (sr - sl) / (dr - dl)) by (apply Qle_shift_div_l; lra).
    set (t := (sr - sl) / (dr - dl)) in *. clearbody t. nra. }
  destruct b; [|exact E]. apply clip_mono; [|exact E]. qmm; lra.
Qed.
Lemma rescale_pt_anti dl dr sl sr b x y : dl < dr -> sr <= sl -> x <= y ->
  rescale_pt dl dr sl sr b y <= rescale_pt dl dr sl sr b x.
Proof.
  intros H Hs Hxy. unfold rescale_pt.
  assert (E : (y - dl) * (sr - sl) / (dr - dl) + sl <= (x - dl) * (sr - sl) / (dr - dl) + sl).
  { assert (Ex : forall z, (z - dl) * (sr - sl) / (dr - dl) == (z - dl) * - ((sl - sr) / (dr - dl))) by (intro; field; lra).
    rewrite !Ex. assert (0 <= (sl - sr) / (dr - dl)) by (apply Qle_shift_div_l; lra).
    set (t := (sl - sr) / (dr - dl)) in *. clearbody t. nra. }
  destruct b; [|exact E]. apply clip_mono; [|exact E]. qmm; lra.
Qed.
Lemma rescale_pt_inverse dl dr sl sr x : ~ dl == dr -> ~ sl == sr ->
  rescale_pt sl sr dl dr false (rescale_pt dl dr sl sr false x) == x.
Proof. intros H1 H2. unfold rescale_pt. field. split; lra. Qed.
Global Instance rescale_pt_comp dl dr sl sr b : Proper (Qeq ==> Qeq) (rescale_pt dl dr sl sr b).
Proof. intros x y E. unfold rescale_pt. destruct b; rewrite E; reflexivity. Qed.

Lemma rescale_ok data dl dr sl sr b out :
  rescale data (Some (dl, dr)) (sl, sr) b = Ok out ->
  ~ dl == dr /\ ~ sl == sr /\ out = map (rescale_pt dl dr sl sr b) data.
Proof.
  unfold rescale. simpl. destruct (Qeqb_spec dl dr); [discriminate|].
  destruct (Qeqb_spec sl sr); [discriminate|]. intro E. injection E as <-. auto.
Qed.
Lemma rescale_err data dl dr sl sr b :
  rescale data (Some (dl, dr)) (sl, sr) b = Err ValueError <-> (dl == dr \/ sl == sr).
Proof.
  unfold rescale. simpl. destruct (Qeqb_spec dl dr); [split; auto|].
  destruct (Qeqb_spec sl sr); [split; auto|]. split; [discriminate|]. intros [|]; contradiction.
Qed.
Lemma rescale_total data dl dr sl sr b : ~ dl == dr -> ~ sl == sr ->
  rescale data (Some (dl, dr)) (sl, sr) b = Ok (map (rescale_pt dl dr sl sr b) data).
Proof.
  intros H1 H2. unfold rescale. simpl. destruct (Qeqb_spec dl dr); [contradiction|].
  destruct (Qeqb_spec sl sr); [contradiction|]. reflexivity.
Qed.

(** Default data range: the data's own extremes map to the ends of the scale. *)
Lemma rescale_default data sl sr b out : rescale data None (sl, sr) b = Ok out ->
  exists lo hi, (forall x, In x data -> lo <= x <= hi) /\ lo < hi /\
    (exists x, In x data /\ x == lo) /\ (exists x, In x data /\ x == hi) /\
    out = map (rescale_pt lo hi sl sr b) data.
Proof.
  unfold rescale. simpl. destruct data as [|x l]; [discriminate|]. cbn [bind].
  destruct (Qeqb_spec (qminl x l) (qmaxl x l)) as [|Hne]; [discriminate|].
  destruct (Qeqb_spec sl sr); [discriminate|]. intro E.
  exists (qminl x l), (qmaxl x l).
  assert (HB : forall y, In y (x :: l) -> qminl x l <= y <= qmaxl x l).
  { intros y Hy. split; [apply qminl_le|apply qmaxl_ge]; exact Hy. }
  split; [exact HB|]. split.
  - specialize (HB x (or_introl eq_refl)). lra.
  - split; [|split].
    + destruct (qminl_in x l) as (y & Hy & Ey). exists y. split; [exact Hy|]. symmetry; exact Ey.
    + destruct (qmaxl_in x l) as (y & Hy & Ey). exists y. split; [exact Hy|]. symmetry; exact Ey.
    + injection E as <-. reflexivity.
Qed.

(** Double scaling at one point. *)
Lemma double_scaling_pt data scaled d0 d1 d2 s0 s1 s2 comb out i :
  apply_double_scaling data scaled d0 d1 d2 s0 s1 s2 comb = Ok out ->
  length scaled = length data -> (i < length data)%nat ->
  nth i out 0 = comb (nth i scaled 0)
    (if nth i data 0 <? d1 then rescale_pt d0 d1 s0 s1 true (nth i data 0)
     else rescale_pt d1 d2 s1 s2 true (nth i data 0)).
Proof.
  unfold apply_double_scaling. intros H HL Hi.
  destruct (rescale data (Some (d0, d1)) (s0, s1) true) as [a|] eqn:Ea; [|discriminate].
  destruct (rescale data (Some (d1, d2)) (s1, s2) true) as [b|] eqn:Eb; [|discriminate].
  cbn [bind] in H. injection H as <-.
  apply rescale_ok in Ea as (_ & _ & ->). apply rescale_ok in Eb as (_ & _ & ->).
  set (f0 := rescale_pt d0 d1 s0 s1 true). set (f1 := rescale_pt d1 d2 s1 s2 true).
  assert (HC : length (combine (map f0 data) (map f1 data)) = length data).
  { rewrite combine_length, !map_length. lia. }
  rewrite zipw_nth with (da := 0) (db := 0); [|lia|rewrite zipw_length by lia; lia].
  f_equal. rewrite zipw_nth with (da := 0) (db := (0, 0)); [|lia|lia].
  rewrite combine_nth by (rewrite !map_length; reflexivity).
  rewrite !nth_map_lt with (d := 0) by lia. reflexivity.
Qed.

(** * Vector-level statements used by Props_Rescale *)
Lemma rescale_linear data dl dr sl sr out i :
  rescale data (Some (dl, dr)) (sl, sr) false = Ok out -> (i < length data)%nat ->
  length out = length data /\ (nth i out 0 - sl) * (dr - dl) == (nth i data 0 - dl) * (sr - sl).
Proof.
  intros H Hi. apply rescale_ok in H as (H1 & H2 & ->). rewrite map_length. split; [reflexivity|].
  rewrite nth_map_lt with (d := 0) by exact Hi. unfold rescale_pt. field. lra.
Qed.
Lemma rescale_endpoints data dl dr sl sr b out i :
  rescale data (Some (dl, dr)) (sl, sr) b = Ok out -> (i < length data)%nat ->
  (nth i data 0 == dl -> nth i out 0 == sl) /\ (nth i data 0 == dr -> nth i out 0 == sr).
Proof.
  intros H Hi. apply rescale_ok in H as (H1 & H2 & ->).
  rewrite nth_map_lt with (d := 0) by exact Hi.
  split; intro E; rewrite E; [apply rescale_pt_lo|apply rescale_pt_hi]; exact H1.
Qed.
Lemma rescale_clip_thm data dl dr sl sr out raw i :
  rescale data (Some (dl, dr)) (sl, sr) true = Ok out ->
  rescale data (Some (dl, dr)) (sl, sr) false = Ok raw -> (i < length data)%nat ->
  Qmin sl sr <= nth i out 0 <= Qmax sl sr /\
  (Qmin dl dr <= nth i data 0 <= Qmax dl dr -> nth i out 0 == nth i raw 0).
Proof.
  intros H H' Hi. apply rescale_ok in H as (H1 & H2 & ->). apply rescale_ok in H' as (_ & _ & ->).
  rewrite !nth_map_lt with (d := 0) by exact Hi. split; [apply rescale_pt_range|].
  intro E. apply rescale_pt_clip_noop; trivial.
Qed.
Lemma rescale_clip_value data dl dr sl sr out raw i :
  rescale data (Some (dl, dr)) (sl, sr) true = Ok out ->
  rescale data (Some (dl, dr)) (sl, sr) false = Ok raw -> (i < length data)%nat ->
  (nth i raw 0 <= Qmin sl sr -> nth i out 0 == Qmin sl sr) /\
  (Qmax sl sr <= nth i raw 0 -> nth i out 0 == Qmax sl sr).
Proof.
  intros H H' Hi. apply rescale_ok in H as (H1 & H2 & ->). apply rescale_ok in H' as (_ & _ & ->).
  rewrite !nth_map_lt with (d := 0) by exact Hi. unfold rescale_pt, clip.
  split; intro E; qmm; lra.
Qed.
Lemma rescale_mono_thm data dl dr sl sr b out i j :
  rescale data (Some (dl, dr)) (sl, sr) b = Ok out -> dl < dr ->
  (i < length data)%nat -> (j < length data)%nat -> nth i data 0 <= nth j data 0 ->
  (sl < sr -> nth i out 0 <= nth j out 0) /\ (sr < sl -> nth j out 0 <= nth i out 0).
Proof.
  intros H Hd Hi Hj Hij. apply rescale_ok in H as (H1 & H2 & ->).
  rewrite !nth_map_lt with (d := 0) by trivial.
  split; intro; [apply rescale_pt_mono|apply rescale_pt_anti]; lra.
Qed.
Lemma rescale_inverse_thm data dl dr sl sr out :
  rescale data (Some (dl, dr)) (sl, sr) false = Ok out ->
  exists back, rescale out (Some (sl, sr)) (dl, dr) false = Ok back /\ Forall2 Qeq back data.
Proof.
  intros H. apply rescale_ok in H as (H1 & H2 & ->).
  eexists. split; [apply rescale_total; trivial|]. rewrite map_map.
  induction data as [|x data IH]; constructor; [|exact IH]. apply rescale_pt_inverse; trivial.
Qed.
Lemma rescale_default_thm data sl sr out :
  rescale data None (sl, sr) false = Ok out ->
  exists lo hi, lo < hi /\ (exists x, In x data /\ x == lo) /\ (exists x, In x data /\ x == hi) /\
    Forall (fun x => lo <= x <= hi) data /\ rescale data (Some (lo, hi)) (sl, sr) false = Ok out.
Proof.
  intro H. assert (Hs : ~ sl == sr).
  { unfold rescale in H. simpl in H. destruct data; [discriminate|]. cbn [bind] in H.
    destruct (qminl _ _ =? _); [discriminate|]. destruct (Qeqb_spec sl sr); [discriminate|assumption]. }
  apply rescale_default in H as (lo & hi & Hb & Hl & Hlo & Hhi & ->).
  exists lo, hi. repeat split; trivial.
  - apply Forall_forall. exact Hb.
  - apply rescale_total; lra.
Qed.

Lemma raw_line dl dr sl sr x : ~ dl == dr -> ((x - dl) * (sr - sl) / (dr - dl) + sl - sl) * (dr - dl) == (x - dl) * (sr - sl).
Proof. intro H. field. intro E. apply H. lra. Qed.
Lemma rescale_pt_below dl dr sl sr x : dl < dr -> x <= dl -> rescale_pt dl dr sl sr true x == sl.
Proof.
  intros H Hx. unfold rescale_pt. cbv zeta. set (q := (x - dl) * (sr - sl) / (dr - dl)).
  assert (E : q == ((dl - x) / (dr - dl)) * (sl - sr)) by (unfold q; field; lra).
  assert (P : 0 <= (dl - x) / (dr - dl)) by (apply Qle_shift_div_l; lra). unfold clip.
  destruct (Qlt_le_dec sl sr) as [C|C].
  - assert (q <= 0) by nra. qmm; lra.
  - assert (0 <= q) by nra. qmm; lra.
Qed.
Lemma rescale_pt_above dl dr sl sr x : dl < dr -> dr <= x -> rescale_pt dl dr sl sr true x == sr.
Proof.
  intros H Hx. unfold rescale_pt. cbv zeta. set (q := (x - dl) * (sr - sl) / (dr - dl)).
  assert (E : q == ((x - dr) / (dr - dl)) * (sr - sl) + (sr - sl)) by (unfold q; field; lra).
  assert (P : 0 <= (x - dr) / (dr - dl)) by (apply Qle_shift_div_l; lra). unfold clip.
  destruct (Qlt_le_dec sl sr) as [C|C].
  - assert (sr - sl <= q) by nra. qmm; lra.
  - assert (q <= sr - sl) by nra. qmm; lra.
Qed.
Lemma rescale_pt_line dl dr sl sr x : dl < dr -> dl <= x <= dr -> (rescale_pt dl dr sl sr true x - sl) * (dr - dl) == (x - dl) * (sr - sl).
Proof.
  intros H Hx. rewrite rescale_pt_clip_noop; [|lra|qmm; lra]. unfold rescale_pt. cbv zeta. rewrite raw_line by lra. reflexivity.
Qed.
Lemma double_scaling_limit data scaled d0 d1 d2 s0 s1 s2 comb out i : d0 < d1 -> d1 < d2 ->
  apply_double_scaling data scaled d0 d1 d2 s0 s1 s2 comb = Ok out -> length scaled = length data -> (i < length data)%nat ->
  exists limit, nth i out 0 = comb (nth i scaled 0) limit /\
    (nth i data 0 <= d0 -> limit == s0) /\ (d0 <= nth i data 0 <= d1 -> (limit - s0) * (d1 - d0) == (nth i data 0 - d0) * (s1 - s0)) /\
    (d1 <= nth i data 0 <= d2 -> (limit - s1) * (d2 - d1) == (nth i data 0 - d1) * (s2 - s1)) /\ (d2 <= nth i data 0 -> limit == s2).
Proof.
  intros A B H L Hi. eexists. split; [exact (double_scaling_pt _ _ _ _ _ _ _ _ _ _ i H L Hi)|]. set (x := nth i data 0) in *. clearbody x.
  destruct (Qltb_spec x d1) as [C|C].
  - split; [intro; apply rescale_pt_below; lra|]. split; [intro; apply rescale_pt_line; lra|]. split; intro; lra.
  - split; [intro; lra|]. split; [|split; intro; [apply rescale_pt_line; lra|apply rescale_pt_above; lra]].
    intro X. assert (E : x == d1) by lra. rewrite (rescale_pt_below d1 d2 s1 s2 x B) by lra. rewrite E. ring.
Qed.
Lemma double_scaling_ok data scaled d0 d1 d2 s0 s1 s2 comb :
  (exists out, apply_double_scaling data scaled d0 d1 d2 s0 s1 s2 comb = Ok out) <-> ~ (d0 == d1 \/ d1 == d2 \/ s0 == s1 \/ s1 == s2).
Proof.
  unfold apply_double_scaling. split.
  - intros [out H]. destruct (rescale data (Some (d0, d1)) (s0, s1) true) as [a|] eqn:Ea; [|discriminate]. destruct (rescale data (Some (d1, d2)) (s1, s2) true) as [b|] eqn:Eb; [|discriminate].
    apply rescale_ok in Ea as (A & B & _). apply rescale_ok in Eb as (C & D & _). tauto.
  - intro H. rewrite (rescale_total data d0 d1 s0 s1 true) by tauto. rewrite (rescale_total data d1 d2 s1 s2 true) by tauto. cbn [bind]. eauto.
Qed.
