(** C40: neighbourhood processing with a mask (one result for each zone, or collapsed over the zones). C41: radii that vary with lead time. *)
From Verif Require Import Base Interp Proofs_Weights Model_Nbhood Spec_Nbhood Proofs_Nbhood Model_Spatial Proofs_Spatial Model_NbhoodCube Spec_NbhoodCube Proofs_NbhoodCube.
Local Open Scope Q_scope.

(** * C41 *)
(** What the helper for command line arguments accepts. *)
Theorem C41_arguments radii lead_times :
  (lead_times = None -> (length radii = 1%nat -> radius_by_lead_time radii lead_times = Ok (OneRadius (hd 0 radii), None)) /\
                        (length radii <> 1%nat -> radius_by_lead_time radii lead_times = Err ValueError)) /\
  (forall ts, lead_times = Some ts -> (length radii = length ts -> radius_by_lead_time radii lead_times = Ok (Radii radii, Some ts)) /\
                                      (length radii <> length ts -> radius_by_lead_time radii lead_times = Err ValueError)).
Proof.
  split.
  - intros ->. destruct radii as [|a [|b l]]; cbn; split; intro H; try reflexivity; try discriminate; exfalso; apply H; reflexivity.
  - intros ts ->. unfold radius_by_lead_time. destruct (Nat.eqb_spec (length radii) (length ts)) as [E|E]; split; intro H; try reflexivity; contradiction.
Qed.
(** What it accepts the plugin accepts. *)
Theorem C41_arguments_fit radii lead_times a ts : radius_by_lead_time radii lead_times = Ok (a, ts) -> exists b, base_init a ts = Ok b.
Proof.
  unfold radius_by_lead_time. destruct lead_times as [l|].
  - destruct (Nat.eqb (length radii) (length l)) eqn:E; [|discriminate]. intro H. apply Ok_inj in H. injection H as <- <-. unfold base_init. rewrite E. eauto.
  - destruct radii as [|r [|]]; try discriminate. intro H. apply Ok_inj in H. injection H as <- <-. eexists. reflexivity.
Qed.
Theorem C41_mismatch rs ts r : (length rs <> length ts -> base_init (Radii rs) (Some ts) = Err ValueError) /\ base_init (OneRadius r) (Some ts) = Err TypeError.
Proof. split; [|reflexivity]. intro H. unfold base_init. destruct (Nat.eqb_spec (length rs) (length ts)); [contradiction|reflexivity]. Qed.

(** The radius at a lead time that is listed is the one listed for it; before the first and after the last it stays at theirs; anywhere it
    lies within the range of the radii, and with radii that grow it never falls as the lead time grows. *)
Section radii.
Variables (rs ts : list Q) (b : base).
Hypothesis Hb : base_init (Radii rs) (Some ts) = Ok b.
Hypothesis Hn : ts <> [].
Let radius lead := np_interp (combine ts rs) lead.
Lemma radius_is lead : base_radius b [lead] = Ok [radius lead].
Proof. exact (init_radius rs ts b [lead] Hb Hn). Qed.

Theorem C41_listed_lead_time i r : qssorted ts -> (i < length ts)%nat -> base_radius b [nth i ts 0] = Ok [r] -> r == nth i rs 0.
Proof.
  intros HS Hi H. rewrite radius_is in H. injection H as <-. destruct (init_radii _ _ _ Hb) as [_ L]. unfold radius. symmetry in L.
  assert (A := np_interp_knot (combine ts rs) i). rewrite map_fst_combine, map_snd_combine, combine_length in A by exact L. apply A; [exact HS|]. rewrite L, Nat.min_id. rewrite <- L. exact Hi.
Qed.
Theorem C41_outside lead r : qssorted ts -> base_radius b [lead] = Ok [r] -> (lead < hd 0 ts -> r = hd 0 rs) /\ (last ts 0 < lead -> r = last rs 0).
Proof.
  intros HS H. rewrite radius_is in H. injection H as <-. destruct (init_radii _ _ _ Hb) as [_ L]. unfold radius. clear radius.
  destruct ts as [|t ts']; [easy|]. destruct rs as [|q rs']; [discriminate|]. cbn [combine np_interp hd]. split; intro G.
  - destruct (Qltb_spec lead t); [reflexivity|lra].
  - assert (L' : length ts' = length rs') by (cbn in L; lia).
    assert (T : t <= last (t :: ts') 0).
    { rewrite Base.last_nth. apply (qsorted_nth (t :: ts') 0 0); [apply qssorted_qsorted; exact HS|simpl; lia]. }
    destruct (Qltb_spec lead t); [lra|]. rewrite np_from_above; rewrite ?map_fst_combine, ?map_snd_combine by exact L'; trivial.
Qed.
Theorem C41_range lead r lo hi : base_radius b [lead] = Ok [r] -> (forall x, In x rs -> lo <= x <= hi) -> lo <= r <= hi.
Proof.
  intros H R. rewrite radius_is in H. injection H as <-. destruct (init_radii _ _ _ Hb) as [_ L]. apply np_interp_bounds.
  - destruct ts as [|t ts']; [easy|]. destruct rs as [|q rs']; discriminate.
  - apply (Forall_snd_combine (fun x => lo <= x <= hi)). apply Forall_forall. exact R.
Qed.
Theorem C41_monotone lead lead' r r' : qsorted rs -> lead <= lead' -> base_radius b [lead] = Ok [r] -> base_radius b [lead'] = Ok [r'] -> r <= r'.
Proof.
  intros S LE H H'. rewrite radius_is in H, H'. injection H as <-. injection H' as <-. destruct (init_radii _ _ _ Hb) as [_ L]. apply np_interp_mono; [|exact LE].
  rewrite map_snd_combine by (symmetry; exact L). exact S.
Qed.
End radii.

(** When a cube is processed, the neighbourhood reaches the whole cells in the radius of its lead time, at least one, no more than half the domain's
    diagonal, and every slice is processed with it. *)
Theorem C41_process m so rm b xs ys leads h w slices mask out : nbhood_process m so rm b xs ys leads h w slices mask = Ok out ->
  exists r radius s, base_radius b leads = Ok [radius] /\ 4 * (radius * radius) <= span xs * span xs + span ys * span ys /\ (1 <= r)%Z /\
    grid_spacing xs = Ok (Some s) /\ 0 < s /\ inject_Z r * s <= radius /\ radius < (inject_Z r + 1) * s /\
    Forall2 (fun sl o => calculate_neighbourhood m r so rm h w (s_data sl) (s_own sl) mask = Ok o) slices out.
Proof.
  unfold nbhood_process. intro H. destruct (nbhood_cells b xs ys leads) as [r|e] eqn:E; [|discriminate]. cbn [bind] in H.
  destruct (nbhood_cells_ok _ _ _ _ _ E) as [radius [A [_ [B [C [s [D [F [G K]]]]]]]]]. exists r, radius, s. repeat (split; trivial). apply mapM_inv'. exact H.
Qed.
(** Radii by lead time do not work for a cube with several lead times: it is always refused. *)
Theorem C41_several_lead_times_refuted m so rm rs ts b xs ys leads h w slices mask : base_init (Radii rs) (Some ts) = Ok b -> ts <> [] -> (2 <= length leads)%nat ->
  exists e, nbhood_process m so rm b xs ys leads h w slices mask = Err e /\ (check_equal_area xs ys = Ok tt -> e = ValueError).
Proof.
  intros Hb Hn Hl. unfold nbhood_process, nbhood_cells. rewrite (init_radius rs ts b leads Hb Hn). cbn [bind]. destruct (check_equal_area xs ys) as [u|e].
  - cbn [bind]. destruct leads as [|a [|c l]]; cbn in Hl; try lia. cbn [map single bind]. exists ValueError. split; reflexivity.
  - exists e. split; [reflexivity|]. discriminate.
Qed.
(** A list of radii without lead times is accepted by the constructor and then fails on every cube. *)
Theorem C41_list_without_lead_times_refuted rs : exists b, base_init (Radii rs) None = Ok b /\
  forall m so rm xs ys leads h w slices mask, nbhood_process m so rm b xs ys leads h w slices mask = Err AttributeError.
Proof. eexists. split; [reflexivity|]. intros. reflexivity. Qed.

Example C41_case : exists b r, base_init (Radii [1000; 3000]) (Some [2; 6]) = Ok b /\ base_radius b [4] = Ok [r] /\ r == 2000 /\
  nbhood_cells b [0; 1000; 2000; 3000] [0; 1000; 2000; 3000] [4] = Ok 2%Z.
Proof. eexists. eexists. split; [reflexivity|]. split; [vm_compute; reflexivity|]. split; vm_compute; reflexivity. Qed.

(** * C40 *)
Section C40.
Variables (m : method) (radii : radii_arg) (lead_times : option (list Q)) (xs ys : list Q) (h w : Z) (masks : list (grid Q)) (slices : list nslice) (b : base).
Hypothesis Hh : (0 < h)%Z.
Hypothesis Hw : (0 < w)%Z.
Hypothesis Hb : base_init radii lead_times = Ok b.
Hypothesis Hc : consistent b xs ys h w slices.
Let zone so out k z s mask g := masked_process m so radii lead_times None xs ys h w masks slices = Ok out /\ nth_error slices k = Some s /\ nth_error masks z = Some mask /\
  exists zs, nth_error out k = Some zs /\ nth_error zs z = Some g.

Lemma zone_computed so out k z s mask g : zone so out k z s mask g -> exists r s' o, (0 < r)%Z /\ nbhood_cells b xs ys [s_lead s] = Ok r /\
  calculate_neighbourhood m r so false h w (s_data s') (s_own s') (Some mask) = Ok o /\ g = (fun y x => fst (o y x)) /\
  same_on Qeq h w (s_data s') (s_data s) /\ same_on eq h w (s_own s') (s_own s).
Proof.
  intros [H [Hs [Hm [zs [Ho Hg]]]]]. unfold masked_process in H. rewrite Hb in H. cbn [bind] in H. destruct (loop_spec _ _ _ _ _ H) as [_ P].
  destruct (P k s zs Hs Ho) as [s' [I1 [I2 I3]]]. apply one_zones in I2. destruct (forall2_nth _ _ _ _ _ _ I2 Hm Hg) as [r [o [R1 [R2 R3]]]].
  destruct (Hc s' s I1 (nth_error_In _ _ Hs) I3) as [C1 C2]. exists r, s', o. destruct (nbhood_cells_ok _ _ _ _ _ R1) as [? [_ [_ [_ [R _]]]]].
  split; [lia|]. split; [rewrite <- C2; exact R1|]. auto.
Qed.

(** Every zone's result at every slice is the neighbourhood mean (sum) over the points of that zone that are unmasked in that slice. *)
Theorem C40_zone_mean_partial out k z s mask g : zone false out k z s mask g ->
  exists r, (0 < r)%Z /\ nbhood_cells b xs ys [s_lead s] = Ok r /\
    (edge_safe m h w r (fun i j => ~ (usable (s_own s) (Some mask) i j = true /\ s_data s i j == 1)) ->
     forall y x, (0 <= y < h)%Z -> (0 <= x < w)%Z -> is_window_mean m h w r (usable (s_own s) (Some mask)) (s_data s) y x (g y x)).
Proof.
  intro Z. destruct (zone_computed _ _ _ _ _ _ _ Z) as [r [s' [o [R0 [R1 [R2 [-> [D O]]]]]]]]. exists r. split; [exact R0|]. split; [exact R1|]. intros S y x Hy Hx.
  assert (U := usable_ext (s_own s') (s_own s) (Some mask) h w O).
  assert (S' : edge_safe m h w r (fun i j => ~ (usable (s_own s') (Some mask) i j = true /\ s_data s' i j == 1))).
  { eapply edge_safe_ext; [|exact S]. intros i j Hi Hj. cbv beta. rewrite (U i j Hi Hj), (D i j Hi Hj). reflexivity. }
  destruct (calculate_mean m r h w (s_data s') (s_own s') (Some mask) Hh Hw R0 false S') as [o' [E P]]. rewrite R2 in E. apply Ok_inj in E. subst o'.
  destruct (P y x Hy Hx) as [_ P']. exact (window_mean_ext _ _ _ _ _ _ _ _ _ _ _ Hh Hw U D P').
Qed.
Theorem C40_zone_sum out k z s mask g : zone true out k z s mask g ->
  exists r, (0 < r)%Z /\ nbhood_cells b xs ys [s_lead s] = Ok r /\
    forall y x, (0 <= y < h)%Z -> (0 <= x < w)%Z -> is_window_sum m h w r (usable (s_own s) (Some mask)) (s_data s) y x (g y x).
Proof.
  intro Z. destruct (zone_computed _ _ _ _ _ _ _ Z) as [r [s' [o [R0 [R1 [R2 [-> [D O]]]]]]]]. exists r. split; [exact R0|]. split; [exact R1|]. intros y x Hy Hx.
  assert (U := usable_ext (s_own s') (s_own s) (Some mask) h w O).
  destruct (calculate_sum m r h w (s_data s') (s_own s') (Some mask) Hh Hw R0 false) as [o' [E P]]. rewrite R2 in E. apply Ok_inj in E. subst o'.
  destruct (P y x Hy Hx) as [v [P1 P2]]. rewrite P1. exists v. split; [reflexivity|]. rewrite P2. apply value_total_ext; trivial. intros i j Hi Hj _. exact (D i j Hi Hj).
Qed.
(** It is missing exactly where the zone has no unmasked point in the window, and within the range of the slice, for every field. *)
Theorem C40_zone_missing out k z s mask g r y x : zone false out k z s mask g -> nbhood_cells b xs ys [s_lead s] = Ok r -> (0 <= y < h)%Z -> (0 <= x < w)%Z ->
  (g y x = None <-> ~ exists i j, contributes m h w r (usable (s_own s) (Some mask)) y x i j).
Proof.
  intros Z R Hy Hx. destruct (zone_computed _ _ _ _ _ _ _ Z) as [r' [s' [o [R0 [R1 [R2 [-> [D O]]]]]]]]. rewrite R in R1. apply Ok_inj in R1. subst r'.
  rewrite (calculate_missing m r h w (s_data s') (s_own s') (Some mask) false o y x Hh Hw R0 R2 Hy Hx). rewrite <- !weight_total_zero.
  rewrite (weight_total_ext m h w r _ _ y x Hh Hw (usable_ext (s_own s') (s_own s) (Some mask) h w O)). reflexivity.
Qed.
Theorem C40_zone_range out k z s mask g y x v lo hi : zone false out k z s mask g -> (0 <= y < h)%Z -> (0 <= x < w)%Z -> g y x = Some v ->
  (forall i j, (0 <= i < h)%Z -> (0 <= j < w)%Z -> s_own s i j = false -> lo <= s_data s i j <= hi) -> lo <= v <= hi.
Proof.
  intros Z Hy Hx Hv R. destruct (zone_computed _ _ _ _ _ _ _ Z) as [r' [s' [o [R0 [R1 [R2 [-> [D O]]]]]]]].
  apply (calculate_range m r' h w (s_data s') (s_own s') (Some mask) false o lo hi y x v R2 Hy Hx Hv). intros i j Hi Hj Hm. rewrite (D i j Hi Hj). apply R; trivial. rewrite <- O; trivial.
Qed.

(** Collapsed over the zones: one field for each slice, at every point the mean of the zones' results with the weights given, leaving out missing
    results and masked weights; missing exactly where no zone with a result has any weight; within the range of the zones' results. *)
Section collapsed.
Variables (ws : list (grid (option Q))) (so : bool) (out zout : list (list (grid (option Q)))) (k : nat) (os zs : list (grid (option Q))).
Hypothesis Hout : masked_process m so radii lead_times (Some ws) xs ys h w masks slices = Ok out.
Hypothesis Hzones : masked_process m so radii lead_times None xs ys h w masks slices = Ok zout.
Hypothesis Hos : nth_error out k = Some os.
Hypothesis Hzs : nth_error zout k = Some zs.
Hypothesis Hws : forall u y x c, In u ws -> u y x = Some c -> 0 <= c.

Lemma loops_agree : forall l p zp prev zprev o z, slice_loop (one_slice m so b xs ys h w masks (Some ws)) h w prev l = Ok o -> slice_loop (one_slice m so b xs ys h w masks None) h w zprev l = Ok z ->
  (prev = None /\ zprev = None \/ exists s, prev = Some (s, p) /\ zprev = Some (s, zp) /\ p = [collapse_mask_coord zp ws]) ->
  Forall2 (fun a c => a = [collapse_mask_coord c ws]) o z.
Proof.
  induction l as [|s l IH]; intros p zp prev zprev o z Ho Hz HP; [cbn in *; apply Ok_inj in Ho; apply Ok_inj in Hz; subst; constructor|].
  cbn [slice_loop] in Ho, Hz.
  assert (Fresh : forall o z, (let* o := one_slice m so b xs ys h w masks (Some ws) s in let* os := slice_loop (one_slice m so b xs ys h w masks (Some ws)) h w (Some (s, o)) l in Ok (o :: os)) = Ok o ->
    (let* o := one_slice m so b xs ys h w masks None s in let* os := slice_loop (one_slice m so b xs ys h w masks None) h w (Some (s, o)) l in Ok (o :: os)) = Ok z ->
    Forall2 (fun a c => a = [collapse_mask_coord c ws]) o z).
  { clear Ho Hz o z. intros o z Ho Hz. destruct (one_slice m so b xs ys h w masks (Some ws) s) as [a|e] eqn:E; [|discriminate].
    destruct (one_collapsed _ _ _ _ _ _ _ _ _ _ _ E) as [c [Ec ->]]. rewrite Ec in Hz. cbn [bind] in Ho, Hz.
    destruct (slice_loop _ h w (Some (s, [collapse_mask_coord c ws])) l) as [o'|e] eqn:L1; [|discriminate]. destruct (slice_loop _ h w (Some (s, c)) l) as [z'|e] eqn:L2; [|discriminate].
    cbn [bind] in Ho, Hz. apply Ok_inj in Ho. apply Ok_inj in Hz. subst. constructor; [reflexivity|]. eapply IH; [exact L1|exact L2|]. right. exists s. repeat split. }
  destruct HP as [[-> ->]|[s0 [-> [-> ->]]]]; [exact (Fresh o z Ho Hz)|]. destruct (array_equal h w (s_data s0) (s_data s)); [|exact (Fresh o z Ho Hz)].
  destruct (slice_loop _ h w (Some (s0, [collapse_mask_coord zp ws])) l) as [o'|e] eqn:L1; [|discriminate]. destruct (slice_loop _ h w (Some (s0, zp)) l) as [z'|e] eqn:L2; [|discriminate].
  cbn [bind] in Ho, Hz. apply Ok_inj in Ho. apply Ok_inj in Hz. subst. constructor; [reflexivity|]. eapply IH; [exact L1|exact L2|]. right. exists s0. repeat split.
Qed.
Lemma collapsed_is : os = [collapse_mask_coord zs ws].
Proof.
  unfold masked_process in Hout, Hzones. rewrite Hb in Hout, Hzones. cbn [bind] in Hout, Hzones.
  assert (F := loops_agree slices [] [] None None out zout Hout Hzones (or_introl (conj eq_refl eq_refl))). exact (forall2_nth _ _ _ _ _ _ F Hos Hzs).
Qed.
Lemma weights_nonneg y x : forall j u, nth_error (map (fun z : grid (option Q) => z y x) ws) j = Some (Some u) -> 0 <= u.
Proof.
  intros j u H. rewrite nth_error_map in H. destruct (nth_error ws j) as [g|] eqn:E; cbn [option_map] in H; [|discriminate H]. injection H as H. exact (Hws g y x u (nth_error_In _ _ E) H).
Qed.
Theorem C40_collapsed_mean : exists f, os = [f] /\ forall y x,
  (forall v, f y x = Some v -> is_weighted_mean (map (fun z : grid (option Q) => z y x) zs) (map (fun z : grid (option Q) => z y x) ws) v) /\
  (f y x = None <-> forall j g u v c, nth_error zs j = Some g -> nth_error ws j = Some u -> g y x = Some v -> u y x = Some c -> c == 0).
Proof.
  eexists. split; [exact collapsed_is|]. intros y x. split.
  - intros v H. exact (collapse_value _ _ _ (weights_nonneg y x) H).
  - unfold collapse_mask_coord. rewrite (collapse_none _ _ (weights_nonneg y x)). split.
    + intros H j g u v c Hg Hu Hv Hc'. apply (H j v c); rewrite nth_error_map; [rewrite Hg|rewrite Hu]; cbn; f_equal; trivial.
    + intros H j v u Hv Hu. rewrite nth_error_map in Hv, Hu. destruct (nth_error zs j) as [g|] eqn:Eg; [|discriminate]. destruct (nth_error ws j) as [q|] eqn:Eu; [|discriminate].
      cbn in Hv, Hu. injection Hv as Hv. injection Hu as Hu. exact (H j g q v u Eg Eu Hv Hu).
Qed.
Theorem C40_collapsed_range f y x v lo hi : os = [f] -> f y x = Some v ->
  (forall j g u a c, nth_error zs j = Some g -> nth_error ws j = Some u -> g y x = Some a -> u y x = Some c -> 0 < c -> lo <= a <= hi) -> lo <= v <= hi.
Proof.
  intros Ef Hv R. rewrite collapsed_is in Ef. apply (f_equal (hd (fun _ _ => @None Q))) in Ef. cbn [hd] in Ef. subst f. apply (collapse_range _ _ lo hi v (weights_nonneg y x)) in Hv; trivial.
  intros j a c Ha Hc' Hp. rewrite nth_error_map in Ha, Hc'. destruct (nth_error zs j) as [g|] eqn:Eg; [|discriminate]. destruct (nth_error ws j) as [q|] eqn:Eu; [|discriminate].
  cbn in Ha, Hc'. injection Ha as Ha. injection Hc' as Hc'. exact (R j g q a c Eg Eu Ha Hc' Hp).
Qed.
End collapsed.
End C40.

(** Without consistency a slice can get another slice's result: the same values with another mask ... *)
Definition two_four : grid Q := fun i j => if (Z.eqb i 1 && Z.eqb j 1)%bool then 4 else 2.
Definition all_zone : grid Q := fun _ _ => 1.
Definition clear_mask : grid bool := fun _ _ => false.
Definition centre_mask : grid bool := fun i j => (Z.eqb i 1 && Z.eqb j 1)%bool.
Definition at_origin (o : result (list (list (grid (option Q))))) (k : nat) : option Q :=
  match o with Ok l => match nth_error l k with Some (g :: _) => g 0%Z 0%Z | _ => None end | Err _ => None end.
Definition five := [0; 1000; 2000; 3000; 4000].
Theorem C40_reused_mask_refuted :
  let run l := masked_process Square false (OneRadius 1000) None None five five 5 5 [all_zone] l in
  let first := {| s_data := two_four; s_own := clear_mask; s_lead := 1 |} in
  let second := {| s_data := two_four; s_own := centre_mask; s_lead := 1 |} in
  exists a c, at_origin (run [first; second]) 1 = Some a /\ at_origin (run [second]) 0 = Some c /\ a == 5 # 2 /\ c == 2.
Proof. cbv zeta. eexists. eexists. split; [vm_compute; reflexivity|]. split; [vm_compute; reflexivity|]. split; vm_compute; reflexivity. Qed.
(** ... and the same values at a lead time with a larger radius. *)
Theorem C40_reused_radius_refuted :
  let run l := masked_process Square false (Radii [1000; 2000]) (Some [1; 2]) None five five 5 5 [all_zone] l in
  let early := {| s_data := two_four; s_own := clear_mask; s_lead := 1 |} in
  let late := {| s_data := two_four; s_own := clear_mask; s_lead := 2 |} in
  exists a c, at_origin (run [early; late]) 1 = Some a /\ at_origin (run [late]) 0 = Some c /\ a == 5 # 2 /\ c == 20 # 9.
Proof. cbv zeta. eexists. eexists. split; [vm_compute; reflexivity|]. split; [vm_compute; reflexivity|]. split; vm_compute; reflexivity. Qed.

(** A case: two zones, weights masked in a corner, two slices of which the second repeats the first. *)
Definition west : grid Q := fun _ j => if Z.ltb j 2 then 1 else 0.
Definition east : grid Q := fun _ j => if Z.ltb j 2 then 0 else 1.
Definition half_weight : grid (option Q) := fun i j => if (Z.eqb i 4 && Z.eqb j 4)%bool then None else Some (1 # 2).
Definition repeated := [{| s_data := two_four; s_own := centre_mask; s_lead := 1 |}; {| s_data := two_four; s_own := centre_mask; s_lead := 3 |}].
Example C40_case : exists b, base_init (OneRadius 1000) None = Ok b /\ consistent b five five 5 5 repeated /\
  (exists v, at_origin (masked_process Square false (OneRadius 1000) None (Some [half_weight; half_weight]) five five 5 5 [west; east] repeated) 1 = Some v /\ v == 2) /\
  match masked_process Square false (OneRadius 1000) None (Some [half_weight; half_weight]) five five 5 5 [west; east] repeated with
  | Ok [_; [g]] => g 4%Z 4%Z | _ => Some 0 end = None.
Proof.
  eexists. split; [reflexivity|]. split; [|split; [eexists; split; vm_compute; reflexivity|vm_compute; reflexivity]].
  intros s s' [<-|[<-|[]]] [<-|[<-|[]]] _; split; try (intros i j _ _; reflexivity); reflexivity.
Qed.

Print Assumptions C41_arguments.
Print Assumptions C41_arguments_fit.
Print Assumptions C41_mismatch.
Print Assumptions C41_listed_lead_time.
Print Assumptions C41_outside.
Print Assumptions C41_range.
Print Assumptions C41_monotone.
Print Assumptions C41_process.
Print Assumptions C41_several_lead_times_refuted.
Print Assumptions C41_list_without_lead_times_refuted.
Print Assumptions C40_zone_mean_partial.
Print Assumptions C40_zone_sum.
Print Assumptions C40_zone_missing.
Print Assumptions C40_zone_range.
Print Assumptions C40_collapsed_mean.
Print Assumptions C40_collapsed_range.
Print Assumptions C40_reused_mask_refuted.
Print Assumptions C40_reused_radius_refuted.
