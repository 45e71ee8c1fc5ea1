From Verif Require Import Base Interp Proofs_Interp Model_Percentiles Proofs_Percentiles Proofs_Resample.

(** * np.around(., 9) *)
Lemma floor_spec z : inject_Z (Qfloor z) <= z < inject_Z (Qfloor z) + 1.
Proof.
  split; [apply Qfloor_le|]. pose proof (Qlt_floor z) as H. rewrite inject_Z_plus in H. exact H.
Qed.
Lemma floor_unique z (f : Z) : inject_Z f <= z -> z < inject_Z f + 1 -> Qfloor z = f.
Proof.
  intros H1 H2. pose proof (floor_spec z) as [H3 H4].
  assert (A : (f < Qfloor z + 1)%Z).
  { rewrite Zlt_Qlt, inject_Z_plus. change (inject_Z 1) with 1. lra. }
  assert (B : (Qfloor z < f + 1)%Z).
  { rewrite Zlt_Qlt, inject_Z_plus. change (inject_Z 1) with 1. lra. }
  lia.
Qed.
Lemma injZ_sub (a b : Z) : inject_Z (a - b) == inject_Z a - inject_Z b.
Proof. unfold Z.sub. rewrite inject_Z_plus, inject_Z_opp. reflexivity. Qed.
Lemma rhe_near z : Qabs (inject_Z (round_half_even z) - z) <= 1 # 2.
Proof.
  unfold round_half_even. pose proof (floor_spec z) as [H1 H2]. set (f := Qfloor z) in *.
  apply Qabs_Qle_condition.
  destruct (Qltb_spec (z - inject_Z f) (1 # 2)); [lra|].
  destruct (Qltb_spec (1 # 2) (z - inject_Z f)); [rewrite inject_Z_plus; change (inject_Z 1) with 1; lra|].
  destruct (Z.even f); [lra|rewrite inject_Z_plus; change (inject_Z 1) with 1; lra].
Qed.
Lemma rhe_int (n : Z) : round_half_even (inject_Z n) = n.
Proof.
  unfold round_half_even. rewrite Qfloor_Z. destruct (Qltb_spec (inject_Z n - inject_Z n) (1 # 2)); [reflexivity|lra].
Qed.
Global Instance rhe_comp : Proper (Qeq ==> eq) round_half_even.
Proof. intros a b E. unfold round_half_even. rewrite (Qfloor_comp a b E). repeat rewrite E. reflexivity. Qed.
Lemma rhe_mono x y : x <= y -> (round_half_even x <= round_half_even y)%Z.
Proof.
  intro H. unfold round_half_even. pose proof (floor_spec x) as [X1 X2]. pose proof (floor_spec y) as [Y1 Y2].
  pose proof (Qfloor_resp_le x y H) as F. set (f := Qfloor x) in *. set (g := Qfloor y) in *.
  destruct (Z.eq_dec f g) as [E|E].
  - rewrite <- E in *. clear g E.
    destruct (Qltb_spec (x - inject_Z f) (1 # 2)), (Qltb_spec (y - inject_Z f) (1 # 2));
      try destruct (Qltb_spec (1 # 2) (x - inject_Z f)); try destruct (Qltb_spec (1 # 2) (y - inject_Z f));
      destruct (Z.even f); try lia; lra.
  - assert (f + 1 <= g)%Z by lia.
    repeat match goal with |- context [Qltb ?a ?b] => destruct (Qltb_spec a b) end; destruct (Z.even f), (Z.even g); lia.
Qed.
Lemma rhe_reflect (N : Z) z : Z.even N = true -> round_half_even (inject_Z N - z) = (N - round_half_even z)%Z.
Proof.
  intro HN. unfold round_half_even. pose proof (floor_spec z) as [H1 H2]. set (f := Qfloor z) in *.
  destruct (Qeq_dec z (inject_Z f)) as [E|E].
  - assert (F : Qfloor (inject_Z N - z) = (N - f)%Z).
    { apply floor_unique; rewrite injZ_sub; lra. }
    rewrite F. assert (EI : inject_Z (N - f) == inject_Z N - inject_Z f) by (rewrite injZ_sub; reflexivity).
    destruct (Qltb_spec (z - inject_Z f) (1 # 2)); [|lra].
    destruct (Qltb_spec (inject_Z N - z - inject_Z (N - f)) (1 # 2)); [reflexivity|lra].
  - assert (F : Qfloor (inject_Z N - z) = (N - f - 1)%Z).
    { apply floor_unique; rewrite !injZ_sub; change (inject_Z 1) with 1; lra. }
    rewrite F.
    assert (EI : inject_Z (N - f - 1) == inject_Z N - inject_Z f - 1) by (rewrite !injZ_sub; reflexivity).
    assert (EV : Z.even (N - f - 1) = negb (Z.even f)).
    { rewrite !Z.even_sub, HN. change (Z.even 1) with false. destruct (Z.even f); reflexivity. }
    destruct (Qltb_spec (z - inject_Z f) (1 # 2)).
    + destruct (Qltb_spec (inject_Z N - z - inject_Z (N - f - 1)) (1 # 2)); [lra|].
      destruct (Qltb_spec (1 # 2) (inject_Z N - z - inject_Z (N - f - 1))); [lia|lra].
    + destruct (Qltb_spec (1 # 2) (z - inject_Z f)).
      * destruct (Qltb_spec (inject_Z N - z - inject_Z (N - f - 1)) (1 # 2)); [lia|lra].
      * destruct (Qltb_spec (inject_Z N - z - inject_Z (N - f - 1)) (1 # 2)); [lra|].
        destruct (Qltb_spec (1 # 2) (inject_Z N - z - inject_Z (N - f - 1))); [lra|].
        rewrite EV. destruct (Z.even f); simpl; lia.
Qed.

Definition nano : Q := 1 # 1000000000.
Lemma around9_near x : Qabs (around9 x - x) <= (1 # 2) * nano.
Proof.
  unfold around9, nano. pose proof (rhe_near (x * 1000000000)) as H. apply Qabs_Qle_condition in H.
  set (r := inject_Z _) in *. apply Qabs_Qle_condition.
  assert (E : r / 1000000000 == r * (1 # 1000000000)) by (unfold Qdiv; reflexivity).
  rewrite E. split; lra.
Qed.
Lemma around9_mono x y : x <= y -> around9 x <= around9 y.
Proof.
  intro H. unfold around9. assert (HZ : (round_half_even (x * 1000000000) <= round_half_even (y * 1000000000))%Z) by (apply rhe_mono; lra).
  rewrite Zle_Qle in HZ. apply Qdiv_le_l; [reflexivity|exact HZ].
Qed.
Global Instance around9_comp : Proper (Qeq ==> Qeq) around9.
Proof. intros a b E. unfold around9. rewrite E. reflexivity. Qed.
Lemma around9_reflect x : around9 (1 - x) == 1 - around9 x.
Proof.
  unfold around9. assert (E : (1 - x) * 1000000000 == inject_Z 1000000000 - x * 1000000000) by (change (inject_Z 1000000000) with 1000000000; ring).
  rewrite E, rhe_reflect by reflexivity. rewrite injZ_sub.
  change (inject_Z 1000000000) with 1000000000. field.
Qed.
Lemma around9_unit x : 0 <= x <= 1 -> 0 <= around9 x <= 1.
Proof.
  intros [H1 H2]. split.
  - assert (E : around9 0 == 0) by reflexivity. rewrite <- E. apply around9_mono; exact H1.
  - assert (E : around9 1 == 1) by reflexivity. rewrite <- E. apply around9_mono; exact H2.
Qed.
(** Values with at most nine decimals are not changed. *)
Lemma around9_id (n : Z) : around9 (inject_Z n * nano) == inject_Z n * nano.
Proof.
  unfold around9. assert (E : inject_Z n * nano * 1000000000 == inject_Z n) by (unfold nano; ring).
  rewrite E, rhe_int. unfold nano. field.
Qed.
(** Distinct rounded values are at least 1e-9 apart. *)
Lemma around9_gap a b : around9 a < around9 b -> eps15 <= around9 b - around9 a.
Proof.
  unfold around9. set (m := round_half_even _). set (n := round_half_even _). intro H.
  assert (HZ : (m < n)%Z).
  { rewrite Zlt_Qlt. apply Qmult_lt_r with (z := nano); [reflexivity|]. unfold Qdiv in H. unfold nano. 
    change (/ 1000000000) with (1 # 1000000000) in H. exact H. }
  assert (HZ' : (m + 1 <= n)%Z) by lia. rewrite Zle_Qle, inject_Z_plus in HZ'.
  assert (E : inject_Z n / 1000000000 - inject_Z m / 1000000000 == (inject_Z n - inject_Z m) * (1 # 1000000000)) by (unfold Qdiv; change (/ 1000000000) with (1 # 1000000000); ring).
  rewrite E. change (inject_Z 1) with 1 in HZ'. unfold eps15.
  assert (1 # 1000000000 <= (inject_Z n - inject_Z m) * (1 # 1000000000)) by lra.
  eapply Qle_trans; [|exact H0]. discriminate.
Qed.

(** * same_y with either back end *)
Lemma interp_same_y_ok b x xp fp out : interp_same_y b x xp fp = Ok out ->
  Forall (fun r => length r = length fp) xp /\
  Forall2 (Forall2 Qeq) out (map (fun row => map (itp b (combine row fp)) x) xp).
Proof.
  intro H. destruct b; unfold interp_same_y in H.
  - apply fast_y_rows in H as [-> HL]. split; [exact HL|].
    induction HL as [|r xp Hr HL IH]; constructor; [|exact IH].
    clear - Hr. induction x as [|t x IH]; constructor; [|exact IH].
    rewrite y_alone_fast, fast_at_rec by lia. reflexivity.
  - unfold slow_interp_same_y in H. destruct (forallb _ xp) eqn:E; [|discriminate]. injection H as <-.
    rewrite forallb_forall in E. split.
    + apply Forall_forall. intros r Hr. apply Nat.eqb_eq. auto.
    + clear E. induction xp; constructor; [|exact IHxp]. apply Forall2_Qeq_refl.
Qed.
Lemma interp_same_y_total b x xp fp : Forall (fun r => length r = length fp) xp -> exists out, interp_same_y b x xp fp = Ok out.
Proof.
  intro H. assert (E : forallb (fun row => (length row =? length fp)%nat) xp = true).
  { apply forallb_forall. intros r Hr. apply Nat.eqb_eq. rewrite Forall_forall in H. auto. }
  destruct b; unfold interp_same_y, fast_interp_same_y, slow_interp_same_y; rewrite E; eexists; reflexivity.
Qed.

(** Thresholds actually used. *)
Lemma thresholds_used warn bounds ths cdf fp xp : fst bounds <= snd bounds -> qsorted ths ->
  add_bounds_thresholds warn bounds ths cdf = Ok (fp, xp) ->
  xp = map (with_ends 0 1) cdf /\ exists lo hi, fp = with_ends lo hi ths /\ qsorted fp /\
    lo <= fst bounds /\ snd bounds <= hi /\
    (lo == fst bounds \/ exists t, In t ths /\ lo == t) /\ (hi == snd bounds \/ exists t, In t ths /\ hi == t) /\
    (warn = false -> lo = fst bounds /\ hi = snd bounds).
Proof.
  destruct bounds as [lower upper]. cbn [fst snd]. intros Hlu HT. unfold add_bounds_thresholds.
  destruct (nondecreasing_b (with_ends lower upper ths)) eqn:E.
  - intro H. injection H as <- <-. split; [reflexivity|]. exists lower, upper.
    apply nondecreasing_b_iff in E. split; [reflexivity|]. split; [exact E|]. repeat split; try lra; left; reflexivity.
  - destruct warn; [|discriminate]. intro H. injection H as <- <-. split; [reflexivity|].
    set (M := qmaxl lower (ths ++ [upper])) in *. set (m := qminl lower (ths ++ [upper])) in *.
    assert (HM : forall x, In x ths -> m <= x <= M).
    { intros x Hx. split; [apply qminl_le|apply qmaxl_ge]; right; apply in_app_iff; left; exact Hx. }
    assert (HM1 : upper <= M) by (apply qmaxl_ge; right; apply in_app_iff; right; left; reflexivity).
    assert (HM2 : m <= lower) by (apply qminl_le; left; reflexivity).
    exists (if m <? lower then m else lower), (if upper <? M then M else upper).
    assert (L1 : (if m <? lower then m else lower) <= lower) by (destruct (Qltb_spec m lower); lra).
    assert (L2 : upper <= (if upper <? M then M else upper)) by (destruct (Qltb_spec upper M); lra).
    split; [reflexivity|]. split.
    + apply with_ends_sorted. split; [exact (Qle_trans _ _ _ L1 (Qle_trans _ _ _ Hlu L2))|]. split; [exact HT|].
      apply Forall_forall. intros x Hx. specialize (HM x Hx). destruct (Qltb_spec m lower), (Qltb_spec upper M); lra.
    + split; [exact L1|]. split; [exact L2|]. split; [|split; [|discriminate]].
      * destruct (Qltb_spec m lower); [|left; reflexivity]. destruct (qminl_in lower (ths ++ [upper])) as (y & Hy & Ey). fold m in Ey.
        destruct Hy as [<-|Hy]; [left; lra|]. apply in_app_iff in Hy as [Hy|[<-|[]]]; [right; eauto|left; lra].
      * destruct (Qltb_spec upper M); [|left; reflexivity]. destruct (qmaxl_in lower (ths ++ [upper])) as (y & Hy & Ey). fold M in Ey.
        destruct Hy as [<-|Hy]; [left; lra|]. apply in_app_iff in Hy as [Hy|[<-|[]]]; [right; eauto|left; lra].
Qed.
Lemma thresholds_rejected bounds ths cdf : 
  add_bounds_thresholds false bounds ths cdf = Err ValueError <-> ~ (fst bounds <= snd bounds /\ qsorted ths /\ Forall (fun t => fst bounds <= t <= snd bounds) ths).
Proof.
  destruct bounds as [lo hi]. unfold add_bounds_thresholds. cbn [fst snd].
  rewrite <- with_ends_sorted, <- nondecreasing_b_iff.
  destruct (nondecreasing_b _); split; intro H; try discriminate; trivial. exfalso; apply H; reflexivity.
Qed.

Lemma p2p_inv numba warn skip maskp rel bounds ths probs asked n s pcts out :
  probs_to_percentiles numba warn skip maskp rel bounds ths probs asked n s = Ok (pcts, out) ->
  exists fp xp o, (if skip then Ok (ths, map (to_cdf rel) probs) else add_bounds_thresholds warn bounds ths (map (to_cdf rel) probs)) = Ok (fp, xp) /\
    interp_same_y numba (map (fun x => x / 100) pcts) xp fp = Ok o /\
    out = (if maskp then map (fun pv => mask_row rel (map (fun x => x / 100) pcts) (fst pv) (snd pv)) (combine probs o) else map (map Some) o) /\
    (asked = Some pcts \/ (asked = None /\ choose_set_of_percentiles (match n with Some k => k | None => length ths end) s = Ok pcts)).
Proof.
  unfold probs_to_percentiles. intro H.
  assert (G : forall r : result (list Q * list (list (option Q))), (match n, asked with Some _, Some _ => Err ValueError | _, _ => r end) = Ok (pcts, out) -> r = Ok (pcts, out)).
  { intro r. destruct n, asked; intro; discriminate || assumption. }
  apply G in H. clear G.
  match type of H with bind ?r _ = _ => destruct r as [p|] eqn:Ep end; [|discriminate]. cbn [bind] in H.
  destruct (if skip then _ else _) as [[fp xp]|] eqn:Eb; [|discriminate]. cbn [bind] in H.
  destruct (interp_same_y numba _ xp fp) as [o|] eqn:Ei; [|discriminate]. cbn [bind] in H. injection H as <- <-.
  exists fp, xp, o. repeat split; trivial. destruct asked; [injection Ep as <-; left; reflexivity|right; auto].
Qed.

(** CDF of each point, as given to the interpolation. *)
Definition cdf_rows (skip : bool) rel (probs : list (list Q)) : list (list Q) :=
  if skip then map (to_cdf rel) probs else map (with_ends 0 1) (map (to_cdf rel) probs).

Lemma p2p_rows numba warn skip maskp rel bounds ths probs asked n s pcts out : fst bounds <= snd bounds -> qsorted ths ->
  probs_to_percentiles numba warn skip maskp rel bounds ths probs asked n s = Ok (pcts, out) ->
  exists fp o, qsorted fp /\ Forall2 (Forall2 Qeq) o (map (fun row => map (fun p => itp numba (combine row fp) (p / 100)) pcts) (cdf_rows skip rel probs)) /\
    Forall (fun r => length r = length fp) (cdf_rows skip rel probs) /\
    (skip = true /\ fp = ths \/ skip = false /\ exists lo hi, fp = with_ends lo hi ths /\
       lo <= fst bounds /\ snd bounds <= hi /\
       (lo == fst bounds \/ exists t, In t ths /\ lo == t) /\ (hi == snd bounds \/ exists t, In t ths /\ hi == t) /\
       (warn = false -> lo = fst bounds /\ hi = snd bounds)) /\
    out = (if maskp then map (fun pv => mask_row rel (map (fun x => x / 100) pcts) (fst pv) (snd pv)) (combine probs o) else map (map Some) o).
Proof.
  intros Hlu HT H. apply p2p_inv in H as (fp & xp & o & E & EI & EO & _).
  apply interp_same_y_ok in EI as [HL HI]. exists fp, o.
  assert (HX : xp = cdf_rows skip rel probs /\ qsorted fp /\
     (skip = true /\ fp = ths \/ skip = false /\ exists lo hi, fp = with_ends lo hi ths /\
       lo <= fst bounds /\ snd bounds <= hi /\
       (lo == fst bounds \/ exists t, In t ths /\ lo == t) /\ (hi == snd bounds \/ exists t, In t ths /\ hi == t) /\
       (warn = false -> lo = fst bounds /\ hi = snd bounds))).
  { destruct skip.
    - injection E as <- <-. split; [reflexivity|]. split; [exact HT|]. left; auto.
    - apply thresholds_used in E as (-> & lo & hi & -> & HS & R); trivial. split; [reflexivity|]. split; [exact HS|].
      right. split; [reflexivity|]. exists lo, hi. tauto. }
  destruct HX as (-> & HS & HR). split; [exact HS|]. split; [|auto].
  assert (EM : map (fun row => map (itp numba (combine row fp)) (map (fun x => x / 100) pcts)) (cdf_rows skip rel probs)
             = map (fun row => map (fun p => itp numba (combine row fp) (p / 100)) pcts) (cdf_rows skip rel probs)).
  { apply map_ext. intro row. rewrite map_map. reflexivity. }
  rewrite <- EM. exact HI.
Qed.

Definition unmask (r : list (option Q)) : list Q := flat_map (fun o => match o with Some x => [x] | None => [] end) r.
Lemma unmask_some l : unmask (map Some l) = l.
Proof. unfold unmask. induction l; simpl; congruence. Qed.

Lemma p2p_monotone numba warn skip rel bounds ths probs asked n s pcts out : fst bounds <= snd bounds -> qsorted ths ->
  probs_to_percentiles numba warn skip false rel bounds ths probs asked n s = Ok (pcts, out) ->
  qsorted pcts -> Forall (fun r => Forall (fun o => o <> None) r /\ qsorted (unmask r)) out.
Proof.
  intros Hlu HT H HP. apply p2p_rows in H as (fp & o & HS & HO & HL & _ & ->); trivial.
  apply Forall_map_iff. remember (cdf_rows skip rel probs) as rows. clear Heqrows.
  remember (map (fun row => map (fun p => itp numba (combine row fp) (p / 100)) pcts) rows) as target.
  revert rows HL Heqtarget. induction HO as [|r t o target' Hrt HO IH]; intros rows HL Heq; [constructor|].
  destruct rows as [|row rows]; [discriminate|]. simpl in Heq. injection Heq as -> ->.
  inversion HL; subst. constructor; [|eapply IH; eauto].
  rewrite unmask_some. split; [apply Forall_map_iff, Forall_forall; discriminate|].
  apply Forall2_Qeq_sym in Hrt. eapply qsorted_Qeq; [exact Hrt|].
  apply (qsorted_of_nth _ 0). rewrite map_length. intros i j Hij. rewrite !nth_map_lt with (d := 0) by lia.
  apply itp_mono; [rewrite map_snd_combine by lia; exact HS|]. apply Qdiv_le_l; [reflexivity|]. apply qsorted_nth; trivial.
Qed.
Lemma p2p_bounds numba warn skip maskp rel bounds ths probs asked n s pcts out b1 b2 : fst bounds <= snd bounds -> qsorted ths -> ths <> [] ->
  probs_to_percentiles numba warn skip maskp rel bounds ths probs asked n s = Ok (pcts, out) ->
  Forall (fun t => b1 <= t <= b2) ths -> (skip = false -> b1 <= fst bounds /\ snd bounds <= b2) ->
  Forall (Forall (fun o => match o with Some v => b1 <= v <= b2 | None => True end)) out.
Proof.
  intros Hlu HT HN H HB HK. apply p2p_rows in H as (fp & o & HS & HO & HL & HF & ->); trivial.
  assert (HFP : Forall (fun t => b1 <= t <= b2) fp /\ fp <> []).
  { destruct HF as [[_ ->]|(Es & lo & hi & -> & _ & _ & C1 & C2 & _)]; [auto|]. destruct (HK Es) as [K1 K2].
    split; [|discriminate]. rewrite Forall_forall in HB.
    unfold with_ends. constructor.
    - destruct C1 as [C1|(t & Ht & C1)]; [lra|]. specialize (HB t Ht). lra.
    - apply Forall_app. split; [apply Forall_forall; exact HB|]. constructor; [|constructor].
      destruct C2 as [C2|(t & Ht & C2)]; [lra|]. specialize (HB t Ht). lra. }
  destruct HFP as [HFP HNE].
  assert (HOB : Forall (Forall (fun v => b1 <= v <= b2)) o).
  { remember (cdf_rows skip rel probs) as rows. clear Heqrows.
    remember (map (fun row => map (fun p => itp numba (combine row fp) (p / 100)) pcts) rows) as target.
    revert rows HL Heqtarget. induction HO as [|r t o target' Hrt HO IH]; intros rows HL Heq; [constructor|].
    destruct rows as [|row rows]; [discriminate|]. simpl in Heq. injection Heq as -> ->.
    inversion HL; subst. constructor; [|eapply IH; eauto].
    apply Forall_forall. intros v Hv. apply (In_nth _ _ 0) in Hv as (j & Hj & <-).
    rewrite (Forall2_Qeq_nth _ _ j 0 Hrt). pose proof (Forall2_len _ _ _ Hrt) as HLe. rewrite map_length in HLe.
    rewrite nth_map_lt with (d := 0) by lia. apply itp_bounds.
    - destruct fp; [easy|]. destruct row; [discriminate|]. discriminate.
    - apply (Forall_snd_combine (fun y => b1 <= y <= b2)). exact HFP. }
  destruct maskp.
  - apply Forall_map_iff. apply Forall_forall. intros [pr v] Hpv. apply in_combine_r in Hpv.
    rewrite Forall_forall in HOB. specialize (HOB v Hpv). cbn [fst snd]. unfold mask_row. apply Forall_map_iff.
    apply Forall_forall. intros [f y] Hfy. apply in_combine_r in Hfy. cbn [fst snd].
    destruct (_ <=? f); [trivial|]. rewrite Forall_forall in HOB. auto.
  - apply Forall_map_iff. eapply Forall_impl; [|exact HOB]. intros r Hr. apply Forall_map_iff. exact Hr.
Qed.

Lemma p2p_inverts numba warn skip rel bounds ths probs asked n s pcts out i j k : fst bounds <= snd bounds -> qsorted ths ->
  probs_to_percentiles numba warn skip false rel bounds ths probs asked n s = Ok (pcts, out) ->
  (i < length probs)%nat -> (j < length pcts)%nat -> (k < length ths)%nat ->
  qssorted (to_cdf rel (nth i probs [])) ->
  (skip = false -> Forall (fun c => 0 < c < 1) (to_cdf rel (nth i probs []))) ->
  nth j pcts 0 == 100 * nth k (to_cdf rel (nth i probs [])) 0 ->
  exists v, nth j (nth i out []) None = Some v /\ v == nth k ths 0.
Proof.
  intros Hlu HT H Hi Hj Hk HC HU E. apply p2p_rows in H as (fp & o & HS & HO & HL & HF & ->); trivial.
  assert (HLo : length o = length (cdf_rows skip rel probs)) by (rewrite (Forall2_len _ _ _ HO), map_length; reflexivity).
  assert (HLc : length (cdf_rows skip rel probs) = length probs) by (unfold cdf_rows; destruct skip; rewrite !map_length; reflexivity).
  assert (HOi : Forall2 Qeq (nth i o []) (map (fun p => itp numba (combine (nth i (cdf_rows skip rel probs) []) fp) (p / 100)) pcts)).
  { assert (HG : forall a b, Forall2 (Forall2 Qeq) a b -> Forall2 Qeq (nth i a []) (nth i b [])).
    { clear. intros a b H. revert i. induction H; intros [|i]; simpl; trivial; constructor. }
    specialize (HG _ _ HO). rewrite nth_map_lt with (d := []) in HG by lia. exact HG. }
  assert (HLi : length (nth i o []) = length pcts) by (rewrite (Forall2_len _ _ _ HOi), map_length; reflexivity).
  rewrite nth_map_lt with (d := []) by lia. rewrite nth_map_lt with (d := 0) by lia.
  exists (nth j (nth i o []) 0). split; [reflexivity|].
  rewrite (Forall2_Qeq_nth _ _ j 0 HOi). rewrite nth_map_lt with (d := 0) by lia.
  set (cr := nth i (cdf_rows skip rel probs) []) in *.
  assert (HLr : length cr = length fp).
  { rewrite Forall_forall in HL. apply HL. apply nth_In. lia. }
  assert (HSp : spaced (to_cdf rel (nth i probs []))).
  { clear - HC. unfold to_cdf in *. induction (nth i probs []) as [|x l IH]; simpl in *; [constructor|].
    inversion HC as [|? ? H1 H2]; subst. constructor; [apply IH; exact H1|].
    apply Forall_forall. intros y Hy. rewrite Forall_forall in H2. specialize (H2 y Hy).
    apply in_map_iff in Hy as (z & <- & _). unfold gap. destruct rel.
    - assert (HG : around9 z < around9 x) by lra. apply around9_gap in HG. lra.
    - apply around9_gap; exact H2. }
  assert (Ep : nth j pcts 0 / 100 == nth k (to_cdf rel (nth i probs [])) 0) by (rewrite E; field).
  rewrite (itp_comp numba _ _ _ Ep).
  destruct HF as [[Es ->]|(Es & lo & hi & -> & _)].
  - subst skip. unfold cr, cdf_rows in *. rewrite nth_map_lt with (d := []) in * by lia.
    pose proof (itp_knot numba (combine (to_cdf rel (nth i probs [])) ths) k) as HK.
    rewrite map_fst_combine, map_snd_combine in HK by lia. apply HK; [exact HSp|rewrite combine_length; lia].
  - subst skip. specialize (HU eq_refl). unfold cr, cdf_rows in *. rewrite map_map in *. rewrite nth_map_lt with (d := []) in * by lia.
    rewrite !with_ends_length in HLr.
    pose proof (itp_knot numba (combine (with_ends 0 1 (to_cdf rel (nth i probs []))) (with_ends lo hi ths)) (S k)) as HK.
    rewrite map_fst_combine, map_snd_combine in HK by (rewrite !with_ends_length; lia).
    assert (W : forall a b l, (k < length l)%nat -> nth (S k) (with_ends a b l) 0 = nth k l 0).
    { intros a b l Hl. unfold with_ends. simpl. apply app_nth1; exact Hl. }
    rewrite !W in HK by lia. apply HK; [|rewrite combine_length, !with_ends_length; lia].
    (* spaced with the end points *)
    assert (H9 : forall c, In c (to_cdf rel (nth i probs [])) -> eps15 <= c /\ eps15 <= 1 - c).
    { intros c Hc. rewrite Forall_forall in HU. specialize (HU c Hc). unfold to_cdf in Hc. apply in_map_iff in Hc as (z & <- & _).
      assert (A0 : around9 0 == 0) by reflexivity. assert (A1 : around9 1 == 1) by reflexivity.
      destruct rel.
      - split.
        + assert (HG : around9 z < around9 1) by lra. apply around9_gap in HG. lra.
        + assert (HG : around9 0 < around9 z) by lra. apply around9_gap in HG. lra.
      - split.
        + assert (HG : around9 0 < around9 z) by lra. apply around9_gap in HG. lra.
        + assert (HG : around9 z < around9 1) by lra. apply around9_gap in HG. lra. }
    unfold with_ends. remember (to_cdf rel (nth i probs [])) as c. clear - HSp H9.
    constructor.
    + induction HSp as [|x l Hs IH Hf]; simpl; [repeat constructor|]. constructor.
      * apply IH. intros y Hy. apply H9. right; exact Hy.
      * apply Forall_app. split; [exact Hf|]. constructor; [|constructor]. unfold gap. apply H9. left; reflexivity.
    + apply Forall_app. split.
      * apply Forall_forall. intros y Hy. unfold gap. specialize (H9 y Hy). lra.
      * constructor; [|constructor]. unfold gap. discriminate.
Qed.

(** Above- and below-threshold cubes with complementary probabilities agree. *)
Lemma to_cdf_complement row row' : Forall2 (fun p q => q == 1 - p) row row' -> Forall2 Qeq (to_cdf Above row) (to_cdf Below row').
Proof.
  induction 1 as [|p q row row' E H IH]; simpl; constructor; [|exact IH]. rewrite E, around9_reflect. reflexivity.
Qed.
Lemma fast_from_row k k' : Forall2 (fun a b => fst a == fst b /\ snd a == snd b) k k' ->
  forall x0 x0' y0 y0' x, x0 == x0' -> y0 == y0' -> fast_from x0 y0 k x == fast_from x0' y0' k' x.
Proof.
  induction 1 as [|[a b] [a' b'] k k' [E1 E2] H IH]; intros x0 x0' y0 y0' x E E'; cbn [fast_from]; [exact E'|].
  cbn [fst snd] in *. rewrite (Qltb_comp _ _ E1 x x (Qeq_refl x)). destruct (a' <? x); [apply IH; trivial|].
  assert (EG : (eps15 <=? a - x0) = (eps15 <=? a' - x0')) by (rewrite E1, E; reflexivity). rewrite EG.
  destruct (eps15 <=? a' - x0'); rewrite ?E1, ?E2, ?E, ?E'; reflexivity.
Qed.
Lemma np_from_row k k' : Forall2 (fun a b => fst a == fst b /\ snd a == snd b) k k' ->
  forall x0 x0' y0 y0' x, x0 == x0' -> y0 == y0' -> np_from x0 y0 k x == np_from x0' y0' k' x.
Proof.
  induction 1 as [|[a b] [a' b'] k k' [E1 E2] H IH]; intros x0 x0' y0 y0' x E E'; cbn [np_from]; [exact E'|].
  cbn [fst snd] in *. assert (EG : (a <=? x) = (a' <=? x)) by (rewrite E1; reflexivity). rewrite EG.
  destruct (a' <=? x); [apply IH; trivial|].
  assert (EH : (x0 =? x) = (x0' =? x)) by (rewrite E; reflexivity). rewrite EH.
  destruct (x0' =? x); [exact E'|]. unfold lerp. rewrite E1, E2, E, E'. reflexivity.
Qed.
Lemma itp_row b k k' x : Forall2 (fun a b => fst a == fst b /\ snd a == snd b) k k' -> itp b k x == itp b k' x.
Proof.
  intro H. destruct H as [|[a y] [a' y'] k k' [E1 E2] H]; [reflexivity|]. cbn [fst snd] in *.
  destruct b; cbn [itp fast_rec np_interp].
  - rewrite (Qltb_comp _ _ E1 x x (Qeq_refl x)). destruct (a' <? x); [apply fast_from_row; trivial|exact E2].
  - rewrite (Qltb_comp x x (Qeq_refl x) _ _ E1). destruct (x <? a'); [exact E2|apply np_from_row; trivial].
Qed.
Lemma combine_row r r' fp : Forall2 Qeq r r' -> Forall2 (fun a b => fst a == fst b /\ snd a == snd b) (combine r fp) (combine r' fp).
Proof. intro H. revert fp. induction H; intros [|f fp]; simpl; constructor; auto. split; [trivial|reflexivity]. Qed.
Lemma p2p_complement numba warn skip bounds ths probs probs' asked n s pcts out pcts' out' :
  Forall2 (Forall2 (fun p q => q == 1 - p)) probs probs' ->
  probs_to_percentiles numba warn skip false Above bounds ths probs asked n s = Ok (pcts, out) ->
  probs_to_percentiles numba warn skip false Below bounds ths probs' asked n s = Ok (pcts', out') ->
  pcts = pcts' /\ Forall2 (Forall2 (fun a b => match a, b with Some x, Some y => x == y | _, _ => False end)) out out'.
Proof.
  intros HC H H'. apply p2p_inv in H as (fp & xp & o & E & EI & -> & EP). apply p2p_inv in H' as (fp' & xp' & o' & E' & EI' & -> & EP').
  assert (pcts = pcts').
  { destruct EP as [EP|[EP1 EP2]], EP' as [EP'|[EP1' EP2']]; congruence. }
  subst pcts'. split; [reflexivity|].
  assert (HX : fp = fp' /\ Forall2 (Forall2 Qeq) xp xp').
  { assert (HC' : Forall2 (Forall2 Qeq) (map (to_cdf Above) probs) (map (to_cdf Below) probs')).
    { clear - HC. induction HC; simpl; constructor; [apply to_cdf_complement|]; trivial. }
    destruct skip; [injection E as <- <-; injection E' as <- <-; auto|].
    assert (HW : Forall2 (Forall2 Qeq) (map (with_ends 0 1) (map (to_cdf Above) probs)) (map (with_ends 0 1) (map (to_cdf Below) probs'))).
    { clear - HC'. induction HC'; simpl; constructor; trivial. unfold with_ends. constructor; [reflexivity|].
      apply Forall2_app; [trivial|]. repeat constructor. }
    unfold add_bounds_thresholds in E, E'. destruct bounds as [lo hi].
    destruct (nondecreasing_b _); [injection E as <- <-; injection E' as <- <-; auto|].
    destruct warn; [|discriminate]. injection E as <- <-; injection E' as <- <-; auto. }
  destruct HX as [<- HX]. apply interp_same_y_ok in EI as [_ EI]. apply interp_same_y_ok in EI' as [_ EI'].
  clear E E'. revert o o' EI EI'. induction HX as [|r r' xp xp' Hr HX IH]; intros o o' EI EI'; inversion EI; subst; inversion EI'; subst; simpl; constructor.
  - clear - H2 H4 Hr. set (fr := map (fun x => x / 100) pcts) in *. clearbody fr.
    rename H2 into G1. rename H4 into G2.
    revert x x0 G1 G2. induction fr as [|t fr IH]; intros u v G1 G2.
    + inversion G1; subst; inversion G2; subst. constructor.
    + simpl in G1, G2. inversion G1 as [|? ? ? ? K1 K2]; subst. inversion G2 as [|? ? ? ? K3 K4]; subst. simpl. constructor.
      * rewrite K1, K3. apply itp_row, combine_row, Hr.
      * apply IH; trivial.
  - apply IH; trivial.
Qed.
Lemma p2p_mask numba warn skip rel bounds ths probs asked n s pcts out i j : fst bounds <= snd bounds -> qsorted ths ->
  probs_to_percentiles numba warn skip true rel bounds ths probs asked n s = Ok (pcts, out) ->
  (i < length probs)%nat -> (j < length pcts)%nat ->
  (nth j (nth i out []) None = None <->
   (match rel with Above => 1 - last (nth i probs []) 0 | Below => last (nth i probs []) 0 end) <= nth j pcts 0 / 100).
Proof.
  intros Hlu HT H Hi Hj. apply p2p_rows in H as (fp & o & HS & HO & HL & HF & ->); trivial.
  assert (HLo : length o = length probs).
  { rewrite (Forall2_len _ _ _ HO), map_length. unfold cdf_rows; destruct skip; rewrite !map_length; reflexivity. }
  rewrite nth_map_lt with (d := ([], [])) by (rewrite combine_length; lia). rewrite combine_nth by lia. cbn [fst snd].
  assert (HLi : length (nth i o []) = length pcts).
  { assert (HG : forall a b, Forall2 (Forall2 Qeq) a b -> Forall2 Qeq (nth i a []) (nth i b [])).
    { clear. intros a b H. revert i. induction H; intros [|i]; simpl; trivial; constructor. }
    specialize (HG _ _ HO). pose proof (Forall2_len _ _ _ HO) as HH. rewrite map_length in HH. rewrite nth_map_lt with (d := []) in HG by lia.
    apply Forall2_len in HG. rewrite map_length in HG. exact HG. }
  unfold mask_row. rewrite nth_map_lt with (d := (0, 0)) by (rewrite combine_length, map_length; lia).
  rewrite combine_nth by (rewrite map_length; lia). cbn [fst snd].
  rewrite nth_map_lt with (d := 0) by lia.
  match goal with |- context [Qle_bool ?a ?b] => destruct (Qleb_spec a b) as [L|L] end.
  - split; [intros _; exact L|reflexivity].
  - split; [discriminate|]. intro. lra.
Qed.
