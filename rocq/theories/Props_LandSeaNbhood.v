(** C118: land and sea are neighbourhood processed apart. Windows, totals and means are those of Spec_Nbhood.v and Spec_NbhoodCube.v. *)
From Verif Require Import Base Model_Nbhood Spec_Nbhood Proofs_Nbhood Model_Spatial Model_NbhoodCube Spec_NbhoodCube Proofs_NbhoodCube Model_LandSeaNbhood.
From Verif Require Import Props_NbhoodCube Proofs_Weights.
Local Open Scope Q_scope.

(** A mask field of land (1) and sea (0). *)
Definition binary (h w : Z) (k : grid Q) : Prop := forall i j, (0 <= i < h)%Z -> (0 <= j < w)%Z -> k i j == 0 \/ k i j == 1.
(** The points with data whose mask is v. *)
Definition of_surface (k : grid Q) (v : Q) (own : grid bool) : grid bool := fun i j => (negb (own i j) && (k i j =? v))%bool.
Definition has_surface (h w : Z) (k : grid Q) (v : Q) : Prop := exists i j, (0 <= i < h)%Z /\ (0 <= j < w)%Z /\ k i j == v.

Lemma indices_in h w i j : In (i, j) (indices h w) <-> (0 <= i < h)%Z /\ (0 <= j < w)%Z.
Proof.
  assert (Zs : forall n a, In a (zseq n) <-> (0 <= a < n)%Z). { intros n a. unfold zseq. rewrite in_map_iff. split; [intros (b & <- & B); apply in_seq in B; lia|]. intro B. exists (Z.to_nat a). split; [lia|]. apply in_seq. lia. }
  unfold indices. rewrite in_prod_iff, !Zs. reflexivity.
Qed.
Lemma any_iff h w g : any_positive h w g = true <-> exists i j, (0 <= i < h)%Z /\ (0 <= j < w)%Z /\ 0 < g i j.
Proof.
  unfold any_positive. rewrite existsb_exists. split.
  - intros ([i j] & I' & E). apply indices_in in I' as [A B]. cbn [fst snd] in E. destruct (Qltb_spec 0 (g i j)); [|discriminate]. exists i, j. auto.
  - intros (i & j & A & B & L). exists (i, j). split; [apply indices_in; auto|]. cbn [fst snd]. destruct (Qltb_spec 0 (g i j)); [reflexivity|lra].
Qed.
Lemma int_one q : q == 1 -> to_int q == 1.
Proof. intro E. unfold to_int. unfold Qeq in E. cbn in E. replace (Qnum q) with (Zpos (Qden q)) by lia. rewrite Z.quot_same by lia. reflexivity. Qed.
Lemma int_zero q : q == 0 -> to_int q == 0.
Proof. intro E. unfold to_int. unfold Qeq in E. cbn in E. replace (Qnum q) with 0%Z by lia. reflexivity. Qed.
Lemma eqb_one a b : (a =? b) = true <-> a == b.
Proof. destruct (Qeqb_spec a b); split; congruence. Qed.

(** The point counts in its own window. *)
Lemma own_contributes m h w r ok y x :  (1 <= r)%Z -> (0 <= y < h)%Z -> (0 <= x < w)%Z -> ok y x = true -> contributes m h w r ok y x y x.
Proof.
  intros R Hy Hx O. exists 0%Z, 0%Z. split; [lia|]. split; [lia|]. split; [|split; [|exact O]].
  - destruct m as [|[|]]; cbn [weight]; [lra| |].
    + change (inject_Z (0 * 0 + 0 * 0)) with 0. setoid_replace (1 - 0 / inject_Z (r * r)) with 1 by (unfold Qdiv; ring). vm_compute. reflexivity.
    + destruct (Z.ltb_spec (r * r) (0 * 0 + 0 * 0)); [nia|lra].
  - rewrite !Z.add_0_r. unfold position. destruct m; [|unfold nearest; rewrite !Z.max_r, !Z.min_r by lia; reflexivity].
    unfold inside. destruct (Z.leb_spec 0 y), (Z.ltb_spec y h), (Z.leb_spec 0 x), (Z.ltb_spec x w); try lia. reflexivity.
Qed.

Section command.
Variables (m : method) (radii : list Q) (lead_times : option (list Q)) (xs ys leads : list Q) (h w : Z) (slices : list nslice).
Hypothesis Hh : (0 < h)%Z.
Hypothesis Hw : (0 < w)%Z.

(** ** A mask of land and sea *)
Section fields.
Variables (k : grid Q) (area_sum : bool) (out : list (grid (option Q * bool))).
Hypothesis Hk : binary h w k.
Hypothesis Hrun : land_and_sea m area_sum radii lead_times xs ys leads h w slices (LandSeaMask k) None = Ok out.

Lemma land_usable own : same_on eq h w (usable own (Some (fun i j => to_int (k i j)))) (of_surface k 1 own).
Proof.
  intros i j Hi Hj. unfold usable, of_surface. f_equal. destruct (Hk i j Hi Hj) as [E|E].
  - pose proof (int_zero _ E). destruct (Qeqb_spec (to_int (k i j)) 0), (Qeqb_spec (k i j) 1); try reflexivity; exfalso; lra.
  - pose proof (int_one _ E). destruct (Qeqb_spec (to_int (k i j)) 0), (Qeqb_spec (k i j) 1); try reflexivity; exfalso; lra.
Qed.
Lemma sea_usable own : same_on eq h w (usable own (Some (fun i j => logical_not (k i j)))) (of_surface k 0 own).
Proof. intros i j Hi Hj. unfold usable, of_surface, logical_not. f_equal. destruct (Qeqb_spec (k i j) 0) as [E|E]; reflexivity. Qed.
Lemma land_any : any_positive h w (fun i j => to_int (k i j)) = true <-> has_surface h w k 1.
Proof.
  rewrite any_iff. split; intros (i & j & A & B & E); exists i, j; (split; [exact A|]); (split; [exact B|]).
  - destruct (Hk i j A B) as [Z|O]; [|exact O]. rewrite (int_zero _ Z) in E. lra.
  - rewrite (int_one _ E). lra.
Qed.
Lemma sea_any : any_positive h w (fun i j => logical_not (k i j)) = true <-> has_surface h w k 0.
Proof.
  rewrite any_iff. split; intros (i & j & A & B & E); exists i, j; (split; [exact A|]); (split; [exact B|]).
  - unfold logical_not in E. destruct (Qeqb_spec (k i j) 0); [assumption|lra].
  - unfold logical_not. destruct (Qeqb_spec (k i j) 0); [lra|contradiction].
Qed.
(** Every slice of the result, taken apart. *)
Lemma command_parts : exists r, (1 <= r)%Z /\ length out = length slices /\
  (has_surface h w k 1 -> has_surface h w k 0 -> forall n s o, nth_error slices n = Some s -> nth_error out n = Some o -> exists a b,
     calculate_neighbourhood m r area_sum true h w (s_data s) (s_own s) (Some (fun i j => to_int (k i j))) = Ok a /\
     calculate_neighbourhood m r area_sum true h w (s_data s) (s_own s) (Some (fun i j => logical_not (k i j))) = Ok b /\ o = add_filled a b) /\
  (~ has_surface h w k 0 -> forall n s o, nth_error slices n = Some s -> nth_error out n = Some o -> calculate_neighbourhood m r area_sum true h w (s_data s) (s_own s) (Some (fun i j => to_int (k i j))) = Ok o) /\
  (~ has_surface h w k 1 -> forall n s o, nth_error slices n = Some s -> nth_error out n = Some o -> calculate_neighbourhood m r area_sum true h w (s_data s) (s_own s) (Some (fun i j => logical_not (k i j))) = Ok o) /\
  exists a b, command_radii radii lead_times = Ok a /\ base_init a lead_times = Ok b /\ nbhood_cells b xs ys leads = Ok r.
Proof.
  pose proof land_any as La. pose proof sea_any as Sa. revert Hrun. unfold land_and_sea, surfaces. cbn [bind]. destruct (command_radii radii lead_times) as [a|] eqn:Ea; [|discriminate]. cbn [bind]. unfold process_land, process_sea. set (lg := fun i j => to_int (k i j)) in *. set (sg := fun i j => logical_not (k i j)) in *. clearbody lg sg.
  destruct (base_init a lead_times) as [b|] eqn:Eb; cbn [bind].
  2:{ destruct (any_positive h w lg); [discriminate|]. cbn [bind]. destruct (any_positive h w sg); discriminate. }
  unfold nbhood_process. destruct (nbhood_cells b xs ys leads) as [r|] eqn:Er; cbn [bind].
  2:{ destruct (any_positive h w lg); [discriminate|]. cbn [bind]. destruct (any_positive h w sg); discriminate. }
  destruct (nbhood_cells_ok _ _ _ _ _ Er) as [? [_ [_ [_ [R1 _]]]]].
  intro H. exists r. split; [lia|].
  assert (Nth : forall g l, mapM (fun s => calculate_neighbourhood m r area_sum true h w (s_data s) (s_own s) (Some g)) slices = Ok l -> length l = length slices /\ forall n s o, nth_error slices n = Some s -> nth_error l n = Some o -> calculate_neighbourhood m r area_sum true h w (s_data s) (s_own s) (Some g) = Ok o).
  { intros g l M. apply mapM_inv' in M. split; [clear -M; induction M; cbn; congruence|]. intros n s o A B. exact (forall2_nth _ _ _ _ _ _ M A B). }
  destruct (any_positive h w lg) eqn:AL; [destruct (mapM _ slices) as [ra|] eqn:MA in H; [|discriminate]|]; cbn [bind] in H; (destruct (any_positive h w sg) eqn:AS; [destruct (mapM _ slices) as [rb|] eqn:MB in H; [|discriminate]|]); cbn [bind] in H; try discriminate; apply Ok_inj in H; subst out.
  - apply Nth in MA as [LA NA]. apply Nth in MB as [LB NB]. split; [rewrite map_length, combine_length, LA, LB; apply Nat.min_id|]. split; [|split; [intro N0; exfalso; apply N0, Sa; reflexivity|split; [intro N0; exfalso; apply N0, La; reflexivity|eauto]]].
    intros _ _ n s o Sn On. rewrite nth_error_map in On. destruct (nth_error (combine ra rb) n) as [[u v]|] eqn:C; [|discriminate]. cbn [option_map fst snd] in On. injection On as <-.
    assert (Cn : nth_error ra n = Some u /\ nth_error rb n = Some v). { clear -C. revert rb n C. induction ra as [|x ra IH]; intros [|y rb] [|n] C; cbn in *; try discriminate; [injection C as -> ->; auto|exact (IH _ _ C)]. } destruct Cn as [Cu Cv]. exists u, v. split; [exact (NA n s u Sn Cu)|]. split; [exact (NB n s v Sn Cv)|reflexivity].
  - apply Nth in MA as [LA NA]. assert (N0 : ~ has_surface h w k 0) by (rewrite <- Sa; congruence). split; [exact LA|]. split; [intros _ Q0; contradiction|]. split; [intros _; exact NA|]. split; [intro N1; exfalso; apply N1, La; reflexivity|eauto].
  - apply Nth in MB as [LB NB]. assert (N1 : ~ has_surface h w k 1) by (rewrite <- La; congruence). split; [exact LB|]. split; [intros Q1; contradiction|]. split; [intro N0; exfalso; apply N0, Sa; reflexivity|]. split; [intros _; exact NB|eauto].
Qed.
Lemma calc_mask sum_only re_mask r data own g a y x : calculate_neighbourhood m r sum_only re_mask h w data own (Some g) = Ok a -> snd (a y x) = (re_mask && negb (usable own (Some g) y x))%bool.
Proof.
  intro H. unfold calculate_neighbourhood in H. cbv zeta beta iota in H. assert (E : (re_mask && negb (usable own (Some g) y x))%bool = (re_mask && ((g y x =? 0) || own y x))%bool). { unfold usable. f_equal. destruct (own y x), (g y x =? 0); reflexivity. }
  rewrite E. destruct sum_only.
  - destruct (do_nbhood_sum _ _ _ _ _ _); [|discriminate]. cbn [bind] in H. apply Ok_inj in H. subst a. reflexivity.
  - destruct (do_nbhood_sum _ _ _ _ _ None); [|discriminate]. cbn [bind] in H. destruct (do_nbhood_sum _ _ _ _ _ _); [|discriminate]. cbn [bind] in H. apply Ok_inj in H. subst a. reflexivity.
Qed.
Definition same_value (a b : option Q) : Prop := match a, b with Some u, Some v => u == v | None, None => True | _, _ => False end.
Lemma same_refl a : same_value a a.
Proof. destruct a; cbn; reflexivity. Qed.
Lemma surface_classic v : v = 0 \/ v = 1 -> has_surface h w k v \/ ~ has_surface h w k v.
Proof.
  intros [-> | ->]; [destruct (any_positive h w (fun i j => logical_not (k i j))) eqn:E|destruct (any_positive h w (fun i j => to_int (k i j))) eqn:E].
  - left. apply sea_any. exact E.
  - right. intro H. apply sea_any in H. congruence.
  - left. apply land_any. exact E.
  - right. intro H. apply land_any in H. congruence.
Qed.
(** At a point with data of surface v: the result of one neighbourhood calculation that uses surface v only. *)
Lemma at_point v n s o y x : v = 0 \/ v = 1 -> nth_error slices n = Some s -> nth_error out n = Some o -> (0 <= y < h)%Z -> (0 <= x < w)%Z -> s_own s y x = false -> k y x == v ->
  exists r g a, (1 <= r)%Z /\ (exists c b, command_radii radii lead_times = Ok c /\ base_init c lead_times = Ok b /\ nbhood_cells b xs ys leads = Ok r) /\ same_on eq h w (usable (s_own s) (Some g)) (of_surface k v (s_own s)) /\ calculate_neighbourhood m r area_sum true h w (s_data s) (s_own s) (Some g) = Ok a /\
    snd (o y x) = false /\ same_value (fst (o y x)) (fst (a y x)).
Proof.
  intros Hv Sn On Hy Hx Ow Kv. destruct command_parts as (r & R1 & _ & Both & Land & Sea & Rad).
  assert (Hs : has_surface h w k v) by (exists y, x; auto).
  assert (Us : forall g, same_on eq h w (usable (s_own s) (Some g)) (of_surface k v (s_own s)) -> usable (s_own s) (Some g) y x = true). { intros g E. rewrite (E y x Hy Hx). unfold of_surface. rewrite Ow. cbn [negb andb]. apply eqb_one. exact Kv. }
  assert (Un : forall g v', same_on eq h w (usable (s_own s) (Some g)) (of_surface k v' (s_own s)) -> ~ v' == v -> usable (s_own s) (Some g) y x = false). { intros g v' E N. rewrite (E y x Hy Hx). unfold of_surface. rewrite Ow. cbn [negb andb]. destruct (Qeqb_spec (k y x) v') as [Q0|Q0]; [|reflexivity]. exfalso. apply N. rewrite <- Q0. exact Kv. }
  destruct Hv as [-> | ->].
  - destruct (surface_classic 1 (or_intror eq_refl)) as [H1|H1].
    + destruct (Both H1 Hs n s o Sn On) as (a & b & A & B & ->). exists r, (fun i j => logical_not (k i j)), b. split; [exact R1|]. split; [exact Rad|]. split; [apply sea_usable|]. split; [exact B|]. split; [reflexivity|].
      pose proof (calc_mask _ _ _ _ _ _ _ y x A) as MA. pose proof (calc_mask _ _ _ _ _ _ _ y x B) as MB. rewrite (Un _ 1 (land_usable _)) in MA by lra. rewrite (Us _ (sea_usable _)) in MB. cbn [andb negb] in MA, MB.
      unfold add_filled, filled. cbn [fst]. rewrite MA, MB. destruct (fst (b y x)); cbn [same_value]; [ring|trivial].
    + exists r, (fun i j => logical_not (k i j)), o. pose proof (Sea H1 n s o Sn On) as B. split; [exact R1|]. split; [exact Rad|]. split; [apply sea_usable|]. split; [exact B|]. split; [|apply same_refl].
      rewrite (calc_mask _ _ _ _ _ _ _ y x B). rewrite (Us _ (sea_usable _)). reflexivity.
  - destruct (surface_classic 0 (or_introl eq_refl)) as [H1|H1].
    + destruct (Both Hs H1 n s o Sn On) as (a & b & A & B & ->). exists r, (fun i j => to_int (k i j)), a. split; [exact R1|]. split; [exact Rad|]. split; [apply land_usable|]. split; [exact A|]. split; [reflexivity|].
      pose proof (calc_mask _ _ _ _ _ _ _ y x A) as MA. pose proof (calc_mask _ _ _ _ _ _ _ y x B) as MB. rewrite (Un _ 0 (sea_usable _)) in MB by lra. rewrite (Us _ (land_usable _)) in MA. cbn [andb negb] in MA, MB.
      unfold add_filled, filled. cbn [fst]. rewrite MA, MB. destruct (fst (a y x)); cbn [same_value]; [ring|trivial].
    + exists r, (fun i j => to_int (k i j)), o. pose proof (Land H1 n s o Sn On) as B. split; [exact R1|]. split; [exact Rad|]. split; [apply land_usable|]. split; [exact B|]. split; [|apply same_refl].
      rewrite (calc_mask _ _ _ _ _ _ _ y x B). rewrite (Us _ (land_usable _)). reflexivity.
Qed.
End fields.

(** With a mask of land and sea: one field for each slice. *)
Definition run k area_sum out := land_and_sea m area_sum radii lead_times xs ys leads h w slices (LandSeaMask k) None = Ok out.
(** The size in cells of the neighbourhood: that of C41 for the radius or radii given. *)
Definition size_is r := exists c b, command_radii radii lead_times = Ok c /\ base_init c lead_times = Ok b /\ nbhood_cells b xs ys leads = Ok r.
Theorem C118_slices k area_sum out : binary h w k -> run k area_sum out -> length out = length slices.
Proof. intros B R. destruct (command_parts _ _ _ B R) as (? & _ & L & _). exact L. Qed.

(** At every point with data there is a value, not masked; it is the mean over those points of the window that are of the same surface and have data, the other surface having no part. *)
Theorem C118_same_surface_mean_partial k out v n s o y x : binary h w k -> run k false out -> v = 0 \/ v = 1 -> nth_error slices n = Some s -> nth_error out n = Some o -> (0 <= y < h)%Z -> (0 <= x < w)%Z -> s_own s y x = false -> k y x == v ->
  exists r q, size_is r /\ (1 <= r)%Z /\ o y x = (Some q, false) /\
    (edge_safe m h w r (fun i j => ~ (of_surface k v (s_own s) i j = true /\ s_data s i j == 1)) ->
     0 < weight_total m h w r (of_surface k v (s_own s)) y x /\ q == value_total m h w r (of_surface k v (s_own s)) (s_data s) y x / weight_total m h w r (of_surface k v (s_own s)) y x).
Proof.
  intros B R Hv Sn On Hy Hx Ow Kv. destruct (at_point k false out B R v n s o y x Hv Sn On Hy Hx Ow Kv) as (r & g & a & R1 & Rad & U & C & M & V).
  assert (Oy : usable (s_own s) (Some g) y x = true). { rewrite (U y x Hy Hx). unfold of_surface. rewrite Ow. cbn [negb andb]. apply eqb_one. exact Kv. }
  assert (Co := own_contributes m h w r _ y x R1 Hy Hx Oy).
  assert (Nn : fst (a y x) <> None). { intro E. apply (calculate_missing m r h w (s_data s) (s_own s) (Some g) true a y x Hh Hw ltac:(lia) C Hy Hx) in E. apply E. eauto. }
  destruct (fst (a y x)) as [qa|] eqn:Fa; [|contradiction]. destruct (o y x) as [[q|] mk] eqn:Fo; cbn [fst snd same_value] in *; [|contradiction]. subst mk.
  exists r, q. split; [exact Rad|]. split; [exact R1|]. split; [reflexivity|]. intro Sf.
  assert (Sf' : edge_safe m h w r (fun i j => ~ (usable (s_own s) (Some g) i j = true /\ s_data s i j == 1))). { eapply edge_safe_ext; [|exact Sf]. intros i j Hi Hj. cbv beta. rewrite (U i j Hi Hj). reflexivity. }
  destruct (calculate_mean m r h w (s_data s) (s_own s) (Some g) Hh Hw ltac:(lia) true Sf') as [a' [E P]]. rewrite C in E. apply Ok_inj in E. subst a'. destruct (P y x Hy Hx) as (_ & _ & P3).
  assert (Wn : ~ weight_total m h w r (usable (s_own s) (Some g)) y x == 0). { rewrite weight_total_zero. intro N. apply N. eauto. }
  pose proof (weight_total_ext m h w r _ _ y x Hh Hw U) as We. pose proof (value_total_ext m h w r _ _ (s_data s) (s_data s) y x Hh Hw U (fun i j _ _ _ => Qeq_refl _)) as Ve.
  split.
  - rewrite <- We. pose proof (weight_total_nonneg m h w r (usable (s_own s) (Some g)) y x). lra.
  - destruct (P3 Wn) as (q' & Eq & Vq). rewrite Fa in Eq. injection Eq as <-. rewrite V, Vq, We, Ve. reflexivity.
Qed.
(** With area_sum: the sum over the same points, for every field. *)
Theorem C118_same_surface_sum k out v n s o y x : binary h w k -> run k true out -> v = 0 \/ v = 1 -> nth_error slices n = Some s -> nth_error out n = Some o -> (0 <= y < h)%Z -> (0 <= x < w)%Z -> s_own s y x = false -> k y x == v ->
  exists r q, size_is r /\ (1 <= r)%Z /\ o y x = (Some q, false) /\ q == value_total m h w r (of_surface k v (s_own s)) (s_data s) y x.
Proof.
  intros B R Hv Sn On Hy Hx Ow Kv. destruct (at_point k true out B R v n s o y x Hv Sn On Hy Hx Ow Kv) as (r & g & a & R1 & Rad & U & C & M & V).
  destruct (calculate_sum m r h w (s_data s) (s_own s) (Some g) Hh Hw ltac:(lia) true) as [a' [E P]]. rewrite C in E. apply Ok_inj in E. subst a'. destruct (P y x Hy Hx) as (q' & P1 & P2).
  rewrite P1 in V. destruct (o y x) as [[q|] mk] eqn:Fo; cbn [fst snd same_value] in *; [|contradiction]. subst mk. exists r, q. split; [exact Rad|]. split; [exact R1|]. split; [reflexivity|].
  rewrite V, P2. apply value_total_ext; trivial. intros. reflexivity.
Qed.
(** The mean is within the range of the slice's data, for every field, and of the data of its own surface in the window where the mean is. *)
Theorem C118_range k out n s o y x q lo hi : binary h w k -> run k false out -> nth_error slices n = Some s -> nth_error out n = Some o -> (0 <= y < h)%Z -> (0 <= x < w)%Z -> s_own s y x = false -> o y x = (Some q, false) ->
  (forall i j, (0 <= i < h)%Z -> (0 <= j < w)%Z -> s_own s i j = false -> lo <= s_data s i j <= hi) -> lo <= q <= hi.
Proof.
  intros B R Sn On Hy Hx Ow Oq L. assert (exists v, (v = 0 \/ v = 1) /\ k y x == v) as (v & Hv & Kv) by (destruct (B y x Hy Hx); eauto).
  destruct (at_point k false out B R v n s o y x Hv Sn On Hy Hx Ow Kv) as (r & g & a & R1 & _ & U & C & _ & V). rewrite Oq in V. cbn [fst] in V. destruct (fst (a y x)) as [qa|] eqn:Fa; cbn [same_value] in V; [|contradiction].
  rewrite V. exact (calculate_range m r h w (s_data s) (s_own s) (Some g) true a lo hi y x qa C Hy Hx Fa L).
Qed.
Theorem C118_surface_range_partial k out v n s o y x q lo hi : binary h w k -> run k false out -> v = 0 \/ v = 1 -> nth_error slices n = Some s -> nth_error out n = Some o -> (0 <= y < h)%Z -> (0 <= x < w)%Z -> s_own s y x = false -> k y x == v -> o y x = (Some q, false) ->
  (forall r, size_is r -> edge_safe m h w r (fun i j => ~ (of_surface k v (s_own s) i j = true /\ s_data s i j == 1))) ->
  (forall r i j, size_is r -> contributes m h w r (of_surface k v (s_own s)) y x i j -> lo <= s_data s i j <= hi) -> lo <= q <= hi.
Proof.
  intros B R Hv Sn On Hy Hx Ow Kv Oq Sf L. destruct (C118_same_surface_mean_partial k out v n s o y x B R Hv Sn On Hy Hx Ow Kv) as (r & q' & Sr & _ & E & P). rewrite Oq in E. injection E as <-. destruct (P (Sf r Sr)) as [W ->].
  pose proof (total_le_weight m h w r (of_surface k v (s_own s)) (s_data s) hi y x Hh Hw (fun i j C => proj2 (L r i j Sr C))) as Up.
  pose proof (total_ge_weight m h w r (of_surface k v (s_own s)) (s_data s) lo y x Hh Hw (fun i j C => proj1 (L r i j Sr C))) as Lo.
  split; [apply Qle_shift_div_l|apply Qle_shift_div_r]; trivial.
Qed.
(** Where only one surface occurs, missing data stay masked. Where both do, they come out as zero, not masked. *)
Theorem C118_missing_one_surface k area_sum out v n s o y x : binary h w k -> run k area_sum out -> (v = 0 \/ v = 1) -> ~ has_surface h w k v -> nth_error slices n = Some s -> nth_error out n = Some o -> (0 <= y < h)%Z -> (0 <= x < w)%Z -> snd (o y x) = s_own s y x.
Proof.
  intros B R Hv N Sn On Hy Hx. destruct (command_parts k area_sum out B R) as (r & R1 & _ & _ & Land & Sea & _). assert (K : ~ k y x == v) by (intro E; apply N; exists y, x; auto).
  destruct Hv as [-> | ->].
  - rewrite (calc_mask _ _ _ _ _ _ _ y x (Land N n s o Sn On)), (land_usable k B _ y x Hy Hx). unfold of_surface. destruct (B y x Hy Hx) as [E|E]; [contradiction|]. apply (proj2 (eqb_one _ _)) in E. rewrite E. destruct (s_own s y x); reflexivity.
  - rewrite (calc_mask _ _ _ _ _ _ _ y x (Sea N n s o Sn On)), (sea_usable k _ y x Hy Hx). unfold of_surface. destruct (B y x Hy Hx) as [E|E]; [|contradiction]. apply (proj2 (eqb_one _ _)) in E. rewrite E. destruct (s_own s y x); reflexivity.
Qed.
Theorem C118_missing_becomes_zero k area_sum out n s o y x : binary h w k -> run k area_sum out -> has_surface h w k 0 -> has_surface h w k 1 -> nth_error slices n = Some s -> nth_error out n = Some o -> (0 <= y < h)%Z -> (0 <= x < w)%Z -> s_own s y x = true ->
  exists q, o y x = (Some q, false) /\ q == 0.
Proof.
  intros B R H0 H1 Sn On Hy Hx Ow. destruct (command_parts k area_sum out B R) as (r & R1 & _ & Both & _). destruct (Both H1 H0 n s o Sn On) as (a & b & A & C & ->).
  pose proof (calc_mask _ _ _ _ _ _ _ y x A) as MA. pose proof (calc_mask _ _ _ _ _ _ _ y x C) as MC. unfold usable in MA, MC. rewrite Ow in MA, MC. cbn [negb andb] in MA, MC.
  unfold add_filled, filled. rewrite MA, MC. exists (0 + 0). split; reflexivity.
Qed.
(** The other surface has no part: two inputs that agree on a surface (mask and data there) give the same there, by the mean and by the sum. *)
End command.

Section twice.
Variables (m : method) (radii : list Q) (lead_times : option (list Q)) (xs ys leads : list Q) (h w : Z).
Hypothesis Hh : (0 < h)%Z.
Hypothesis Hw : (0 < w)%Z.
Theorem C118_no_mixing_sum slices slices' k k' out out' v n s s' o o' y x :
  binary h w k -> binary h w k' -> run m radii lead_times xs ys leads h w slices k true out -> run m radii lead_times xs ys leads h w slices' k' true out' -> v = 0 \/ v = 1 ->
  nth_error slices n = Some s -> nth_error out n = Some o -> nth_error slices' n = Some s' -> nth_error out' n = Some o' ->
  same_on eq h w (of_surface k v (s_own s)) (of_surface k' v (s_own s')) ->
  (forall i j, (0 <= i < h)%Z -> (0 <= j < w)%Z -> of_surface k v (s_own s) i j = true -> s_data s i j == s_data s' i j) ->
  (0 <= y < h)%Z -> (0 <= x < w)%Z -> of_surface k v (s_own s) y x = true ->
  exists q q', o y x = (Some q, false) /\ o' y x = (Some q', false) /\ q == q'.
Proof.
  intros B B' R R' Hv Sn On Sn' On' Eo Ed Hy Hx P. assert (P' : of_surface k' v (s_own s') y x = true) by (rewrite <- (Eo y x Hy Hx); exact P).
  assert (Pc : forall kk (oo : grid bool), of_surface kk v oo y x = true -> oo y x = false /\ kk y x == v). { intros kk oo E. unfold of_surface in E. apply andb_prop in E as [E1 E2]. destruct (oo y x); [discriminate|]. split; [reflexivity|]. apply eqb_one. exact E2. }
  destruct (Pc _ _ P) as [Ow Kv]. destruct (Pc _ _ P') as [Ow' Kv'].
  destruct (C118_same_surface_sum m radii lead_times xs ys leads h w slices Hh Hw k out v n s o y x B R Hv Sn On Hy Hx Ow Kv) as (r & q & (c & b & Sr1 & Sr2 & Sr3) & _ & E & V).
  destruct (C118_same_surface_sum m radii lead_times xs ys leads h w slices' Hh Hw k' out' v n s' o' y x B' R' Hv Sn' On' Hy Hx Ow' Kv') as (r' & q' & (c' & b' & Tr1 & Tr2 & Tr3) & _ & E' & V').
  rewrite Sr1 in Tr1. apply Ok_inj in Tr1. subst c'. rewrite Sr2 in Tr2. apply Ok_inj in Tr2. subst b'. rewrite Sr3 in Tr3. apply Ok_inj in Tr3. subst r'.
  exists q, q'. split; [exact E|]. split; [exact E'|]. rewrite V, V'. apply value_total_ext; trivial.
Qed.
Theorem C118_no_mixing_mean_partial slices slices' k k' out out' v n s s' o o' y x :
  binary h w k -> binary h w k' -> run m radii lead_times xs ys leads h w slices k false out -> run m radii lead_times xs ys leads h w slices' k' false out' -> v = 0 \/ v = 1 ->
  nth_error slices n = Some s -> nth_error out n = Some o -> nth_error slices' n = Some s' -> nth_error out' n = Some o' ->
  same_on eq h w (of_surface k v (s_own s)) (of_surface k' v (s_own s')) ->
  (forall i j, (0 <= i < h)%Z -> (0 <= j < w)%Z -> of_surface k v (s_own s) i j = true -> s_data s i j == s_data s' i j) ->
  (forall r, edge_safe m h w r (fun i j => ~ (of_surface k v (s_own s) i j = true /\ s_data s i j == 1))) ->
  (0 <= y < h)%Z -> (0 <= x < w)%Z -> of_surface k v (s_own s) y x = true ->
  exists q q', o y x = (Some q, false) /\ o' y x = (Some q', false) /\ q == q'.
Proof.
  intros B B' R R' Hv Sn On Sn' On' Eo Ed Sf Hy Hx P. assert (P' : of_surface k' v (s_own s') y x = true) by (rewrite <- (Eo y x Hy Hx); exact P).
  assert (Pc : forall kk (oo : grid bool), of_surface kk v oo y x = true -> oo y x = false /\ kk y x == v). { intros kk oo E. unfold of_surface in E. apply andb_prop in E as [E1 E2]. destruct (oo y x); [discriminate|]. split; [reflexivity|]. apply eqb_one. exact E2. }
  destruct (Pc _ _ P) as [Ow Kv]. destruct (Pc _ _ P') as [Ow' Kv'].
  destruct (C118_same_surface_mean_partial m radii lead_times xs ys leads h w slices Hh Hw k out v n s o y x B R Hv Sn On Hy Hx Ow Kv) as (r & q & (c & b & Sr1 & Sr2 & Sr3) & _ & E & V).
  destruct (C118_same_surface_mean_partial m radii lead_times xs ys leads h w slices' Hh Hw k' out' v n s' o' y x B' R' Hv Sn' On' Hy Hx Ow' Kv') as (r' & q' & (c' & b' & Tr1 & Tr2 & Tr3) & _ & E' & V').
  rewrite Sr1 in Tr1. apply Ok_inj in Tr1. subst c'. rewrite Sr2 in Tr2. apply Ok_inj in Tr2. subst b'. rewrite Sr3 in Tr3. apply Ok_inj in Tr3. subst r'.
  exists q, q'. split; [exact E|]. split; [exact E'|]. destruct (V (Sf r)) as [_ ->]. destruct V' as [_ ->].
  { eapply edge_safe_ext; [|exact (Sf r)]. intros i j Hi Hj. cbv beta. rewrite (Eo i j Hi Hj). split; intros N [A D]; apply N; (split; [exact A|]); [rewrite (Ed i j Hi Hj) by (rewrite (Eo i j Hi Hj); exact A)|rewrite <- (Ed i j Hi Hj) by (rewrite (Eo i j Hi Hj); exact A)]; exact D. }
  rewrite (weight_total_ext m h w r _ _ y x Hh Hw Eo), (value_total_ext m h w r _ _ (s_data s) (s_data s') y x Hh Hw Eo Ed). reflexivity.
Qed.
End twice.

(** ** Arguments *)
Theorem C118_arguments m area_sum radii lead_times xs ys leads h w slices mask weights :
  let run := land_and_sea m area_sum radii lead_times xs ys leads h w slices mask weights in
  (forall zones, mask = ZoneMask true zones -> run = Err ValueError) /\
  (forall zones, mask = ZoneMask false zones -> weights = None -> run = Err TypeError) /\
  (forall zones ws, mask = ZoneMask false zones -> weights = Some ws -> w_include_sea ws = true -> run = Err ValueError) /\
  (forall k ws, mask = LandSeaMask k -> weights = Some ws -> run = Err TypeError) /\
  (forall k ts, mask = LandSeaMask k -> weights = None -> lead_times = Some ts -> length radii <> length ts -> run = Err RuntimeError).
Proof.
  cbv zeta. repeat split.
  - intros z ->. reflexivity.
  - intros z -> ->. reflexivity.
  - intros z ws -> -> E. unfold land_and_sea, surfaces. rewrite E. reflexivity.
  - intros k ws -> ->. reflexivity.
  - intros k ts -> -> -> N. unfold land_and_sea, surfaces, command_radii. cbn [bind]. destruct (Nat.eqb_spec (length radii) (length ts)); [contradiction|reflexivity].
Qed.
(** Without lead times only the first radius counts. *)
Theorem C118_extra_radii_ignored m area_sum r rest rest' xs ys leads h w slices mask weights :
  land_and_sea m area_sum (r :: rest) None xs ys leads h w slices mask weights = land_and_sea m area_sum (r :: rest') None xs ys leads h w slices mask weights.
Proof. reflexivity. Qed.
(** Topographic weights that have no masked point, as with a domain of land only, are refused. *)
Theorem C118_all_land_zones_refuted m area_sum radii lead_times xs ys leads h w slices zones ws : w_include_sea ws = false -> w_zones ws <> [] -> w_has_mask ws = false ->
  land_and_sea m area_sum radii lead_times xs ys leads h w slices (ZoneMask false zones) (Some ws) = Err ValueError.
Proof. intros A B C. unfold land_and_sea, surfaces. rewrite A. destruct (w_zones ws) as [|z l]; [contradiction|]. rewrite C. reflexivity. Qed.

(** ** Topographic zones: land by zones, sea by itself *)
Section zones.
Variables (m : method) (area_sum : bool) (radii : list Q) (lead_times : option (list Q)) (xs ys leads : list Q) (h w : Z) (slices : list nslice).
Hypothesis Hh : (0 < h)%Z.
Hypothesis Hw : (0 < w)%Z.
Variables (zones : list (grid Q)) (first : grid (option Q)) (others : list (grid (option Q))) (out : list (grid (option Q * bool))).
(** The weights of all zones are masked at the same points: the sea. *)
Definition sea_at (y x : Z) : Prop := first y x = None.
Hypothesis Hmask : forall z y x, In z others -> (z y x = None <-> sea_at y x).
Let weights := {| w_include_sea := false; w_has_mask := true; w_zones := first :: others |}.
Hypothesis Hrun : land_and_sea m area_sum radii lead_times xs ys leads h w slices (ZoneMask false zones) (Some weights) = Ok out.
Let lg : grid Q := fun i j => match first i j with Some _ => 1 | None => 0 end.
Let sg : grid Q := fun i j => match first i j with Some _ => 0 | None => 1 end.
Definition is_sea (own : grid bool) : grid bool := fun i j => (negb (own i j) && match first i j with None => true | Some _ => false end)%bool.

Lemma zone_sea_usable own i j : usable own (Some sg) i j = is_sea own i j.
Proof. unfold usable, is_sea, sg. destruct (first i j); reflexivity. Qed.
Lemma zone_land_any : any_positive h w lg = true <-> exists i j, (0 <= i < h)%Z /\ (0 <= j < w)%Z /\ ~ sea_at i j.
Proof. rewrite any_iff. unfold lg, sea_at. split; intros (i & j & A & B & E); exists i, j; (split; [exact A|]); (split; [exact B|]); destruct (first i j); first [lra|congruence|discriminate|contradiction E; reflexivity|idtac]. Qed.
Lemma zone_sea_any : any_positive h w sg = true <-> exists i j, (0 <= i < h)%Z /\ (0 <= j < w)%Z /\ sea_at i j.
Proof. rewrite any_iff. unfold sg, sea_at. split; intros (i & j & A & B & E); exists i, j; (split; [exact A|]); (split; [exact B|]); destruct (first i j); first [lra|congruence|discriminate|contradiction E; reflexivity|idtac]. Qed.

(** The results of C40 on the land, by slices, and those of the sea. *)
Lemma zone_parts : exists c, command_radii radii lead_times = Ok c /\
  ((exists i j, (0 <= i < h)%Z /\ (0 <= j < w)%Z /\ ~ sea_at i j) -> exists zs fs, masked_process m area_sum c lead_times (Some (first :: others)) xs ys h w zones slices = Ok zs /\ Forall2 (fun z f => z = [f]) zs fs /\
     ((~ exists i j, (0 <= i < h)%Z /\ (0 <= j < w)%Z /\ sea_at i j) -> out = map (fun g : grid (option Q) => fun y x => (g y x, match g y x with None => true | Some _ => false end)) fs) /\
     forall b r, base_init c lead_times = Ok b -> nbhood_cells b xs ys leads = Ok r -> (exists i j, (0 <= i < h)%Z /\ (0 <= j < w)%Z /\ sea_at i j) ->
        exists ss, Forall2 (fun s o => calculate_neighbourhood m r area_sum true h w (s_data s) (s_own s) (Some sg) = Ok o) slices ss /\
        out = map (fun p => add_filled (fst p) (snd p)) (combine (map (fun g : grid (option Q) => fun y x => (g y x, match g y x with None => true | Some _ => false end)) fs) ss)) /\
  ((exists i j, (0 <= i < h)%Z /\ (0 <= j < w)%Z /\ sea_at i j) -> exists b r, base_init c lead_times = Ok b /\ nbhood_cells b xs ys leads = Ok r) /\
  ((~ exists i j, (0 <= i < h)%Z /\ (0 <= j < w)%Z /\ ~ sea_at i j) -> forall b r, base_init c lead_times = Ok b -> nbhood_cells b xs ys leads = Ok r ->
     Forall2 (fun s o => calculate_neighbourhood m r area_sum true h w (s_data s) (s_own s) (Some sg) = Ok o) slices out).
Proof.
  pose proof zone_land_any as La. pose proof zone_sea_any as Sa. revert Hrun. unfold land_and_sea, surfaces. cbn [w_include_sea w_zones w_has_mask weights negb bind]. fold lg sg. destruct (command_radii radii lead_times) as [c|] eqn:Ec; [|discriminate]. cbn [bind]. unfold process_land, process_sea. unfold weights. cbn [option_map w_zones]. intro H. exists c. split; [reflexivity|].
  set (L := exists i j, (0 <= i < h)%Z /\ (0 <= j < w)%Z /\ ~ sea_at i j) in *. set (S := exists i j, (0 <= i < h)%Z /\ (0 <= j < w)%Z /\ sea_at i j) in *.
  assert (One : forall zs l, mapM one_grid zs = Ok l -> exists fs, Forall2 (fun z f => z = [f]) zs fs /\ l = map (fun g : grid (option Q) => fun y x => (g y x, match g y x with None => true | Some _ => false end)) fs).
  { induction zs as [|z zs IH]; intros l M; cbn in M; [apply Ok_inj in M; subst; exists []; split; [constructor|reflexivity]|]. unfold one_grid at 1 in M. destruct z as [|f [|? ?]]; cbn [single bind] in M; try discriminate. destruct (mapM one_grid zs) as [l'|]; [|discriminate]. cbn [bind] in M. apply Ok_inj in M. subst l. destruct (IH _ eq_refl) as (fs & F & ->). exists (f :: fs). split; [constructor; [reflexivity|exact F]|reflexivity]. }
  destruct (any_positive h w lg) eqn:AL.
  - assert (HL : L) by (apply La; reflexivity). destruct (masked_process m area_sum c lead_times (Some (first :: others)) xs ys h w zones slices) as [zs|] eqn:Em; [|cbn [bind] in H; discriminate H]. cbn [bind] in H. destruct (mapM one_grid zs) as [l|] eqn:El; [|cbn [bind] in H; discriminate H]. cbn [bind] in H.
    destruct (One _ _ El) as (fs & F & ->). destruct (any_positive h w sg) eqn:AS.
    + assert (HS : S) by (apply Sa; reflexivity). destruct (base_init c lead_times) as [b|] eqn:Eb; [|cbn [bind] in H; discriminate H]. cbn [bind] in H. unfold nbhood_process in H. destruct (nbhood_cells b xs ys leads) as [r|] eqn:Er; [|cbn [bind] in H; discriminate H]. cbn [bind] in H. destruct (mapM _ slices) as [ss|] eqn:Es in H; [|cbn [bind] in H; discriminate H]. cbn [bind] in H. apply Ok_inj in H.
      split; [|split; [eauto|intro N; contradiction]]. intros _. exists zs, fs. split; [reflexivity|]. split; [exact F|]. split; [intro N; contradiction|]. intros b' r' Eb' Er' _. apply Ok_inj in Eb'. subst b'. rewrite Er in Er'. apply Ok_inj in Er'. subst r'. exists ss. split; [apply mapM_inv'; exact Es|symmetry; exact H].
    + cbn [bind] in H. apply Ok_inj in H. split; [|split; [intro Y; apply Sa in Y; discriminate|intro N; contradiction]]. intros _. exists zs, fs. split; [reflexivity|]. split; [exact F|]. split; [intro; symmetry; exact H|]. intros b r _ _ Y. apply Sa in Y. discriminate.
  - cbn [bind] in H. destruct (any_positive h w sg) eqn:AS; cbn [bind] in H; [|cbn [bind] in H; discriminate H]. destruct (base_init c lead_times) as [b|] eqn:Eb; [|cbn [bind] in H; discriminate H]. cbn [bind] in H. unfold nbhood_process in H. destruct (nbhood_cells b xs ys leads) as [r|] eqn:Er; [|cbn [bind] in H; discriminate H]. cbn [bind] in H. destruct (mapM _ slices) as [ss|] eqn:Es in H; [|cbn [bind] in H; discriminate H]. cbn [bind] in H. apply Ok_inj in H. subst out.
    split; [intro Y; apply La in Y; discriminate|]. split; [eauto|]. intros _ b' r' Eb' Er'. apply Ok_inj in Eb'. subst b'. rewrite Er in Er'. apply Ok_inj in Er'. subst r'. apply mapM_inv'. exact Es.
Qed.

Lemma combine_nth {A B} (l : list A) (l' : list B) n a b : nth_error l n = Some a -> nth_error l' n = Some b -> nth_error (combine l l') n = Some (a, b).
Proof. revert l' n. induction l as [|x l IH]; intros [|y l'] [|n] H H'; cbn in *; try discriminate; [injection H as ->; injection H' as ->; reflexivity|exact (IH _ _ H H')]. Qed.
Lemma combine_split {A B} (l : list A) (l' : list B) n p : nth_error (combine l l') n = Some p -> nth_error l n = Some (fst p) /\ nth_error l' n = Some (snd p).
Proof. revert l' n. induction l as [|x l IH]; intros [|y l'] [|n] H; cbn in *; try discriminate; [injection H as <-; auto|exact (IH _ _ H)]. Qed.

Lemma no_sea_value n z f y x : (exists c zs, masked_process m area_sum c lead_times (Some (first :: others)) xs ys h w zones slices = Ok zs /\ nth_error zs n = Some z) -> z = [f] -> sea_at y x -> f y x = None.
Proof.
  intros (c & zs & M & Z) -> S. unfold masked_process in M. destruct (base_init c lead_times) as [b|]; [|discriminate]. cbn [bind] in M. apply loop_spec in M as [L P].
  destruct (nth_error slices n) as [s|] eqn:Sn. 2:{ apply nth_error_None in Sn. rewrite <- L in Sn. apply nth_error_None in Sn. congruence. }
  destruct (P n s [f] Sn Z) as (s' & _ & O & _). apply one_collapsed in O as (zz & _ & E). injection E as ->. unfold collapse_mask_coord.
  assert (N : forall vs ws, (forall u, In u ws -> u = None) -> weighted_pairs vs ws = []).
  { intros vs ws. revert vs. induction ws as [|u ws IH]; intros [|v vs] A; try reflexivity. unfold weighted_pairs. cbn [combine flat_map]. rewrite (A u (or_introl eq_refl)). destruct v; cbn [app]; apply IH; intros u' I; apply A; now right. }
  unfold collapse_point. cbv zeta. rewrite N; [reflexivity|]. intros u I. apply in_map_iff in I as (g & <- & [<-|G]); [exact S|]. apply (proj2 (Hmask g y x G)). exact S.
Qed.

(** At a sea point with data: the sea alone, whatever the zones give. *)
Lemma zone_sea_point n s o y x : nth_error slices n = Some s -> nth_error out n = Some o -> (0 <= y < h)%Z -> (0 <= x < w)%Z -> s_own s y x = false -> sea_at y x ->
  exists c b r a, command_radii radii lead_times = Ok c /\ base_init c lead_times = Ok b /\ nbhood_cells b xs ys leads = Ok r /\ (1 <= r)%Z /\
    calculate_neighbourhood m r area_sum true h w (s_data s) (s_own s) (Some sg) = Ok a /\ snd (o y x) = false /\ same_value (fst (o y x)) (fst (a y x)).
Proof.
  intros Sn On Hy Hx Ow S. destruct zone_parts as (c & C & Land & SeaB & SeaOnly). assert (HS : exists i j, (0 <= i < h)%Z /\ (0 <= j < w)%Z /\ sea_at i j) by (exists y, x; auto).
  destruct (SeaB HS) as (b & r & Hb & Hr). destruct (nbhood_cells_ok _ _ _ _ _ Hr) as [? [_ [_ [_ [R1 _]]]]].
  assert (Mk : forall a, calculate_neighbourhood m r area_sum true h w (s_data s) (s_own s) (Some sg) = Ok a -> snd (a y x) = false). { intros a A. rewrite (calc_mask _ _ _ _ _ _ _ _ _ _ y x A). rewrite zone_sea_usable. unfold is_sea. rewrite Ow. unfold sea_at in S. rewrite S. reflexivity. }
  destruct (any_positive h w lg) eqn:AL.
  - apply (proj1 zone_land_any) in AL. destruct (Land AL) as (zs & fs & M & F & _ & Rest). destruct (Rest b r Hb Hr HS) as (ss & G & ->). clear Rest Land SeaOnly SeaB.
    rewrite nth_error_map in On. destruct (nth_error (combine _ ss) n) as [p|] eqn:Cn; [|discriminate]. injection On as <-. apply combine_split in Cn as [C1 C2]. rewrite nth_error_map in C1. destruct (nth_error fs n) as [f|] eqn:Fn; [|discriminate]. injection C1 as C1.
    assert (Zn : exists z, nth_error zs n = Some z). { destruct (nth_error zs n) eqn:E; [eauto|]. apply nth_error_None in E. assert (length zs = length fs) by (clear -F; induction F; cbn; congruence). assert (n < length fs)%nat by (apply nth_error_Some; congruence). lia. } destruct Zn as [z Zn].
    pose proof (forall2_nth _ _ _ _ _ _ F Zn Fn) as Ez. cbv beta in Ez. assert (Fv : f y x = None) by (apply (no_sea_value n z f y x); [eauto|exact Ez|exact S]).
    pose proof (forall2_nth _ _ _ _ _ _ G Sn C2) as A. cbv beta in A. exists c, b, r, (snd p). split; [exact C|]. split; [exact Hb|]. split; [exact Hr|]. split; [exact R1|]. split; [exact A|]. split; [reflexivity|].
    unfold add_filled, filled. cbn [fst]. rewrite <- C1. cbn [fst snd]. rewrite Fv, (Mk _ A). destruct (fst (snd p y x)); cbn [same_value]; [ring|trivial].
  - assert (NL : ~ exists i j, (0 <= i < h)%Z /\ (0 <= j < w)%Z /\ ~ sea_at i j) by (intro Y; apply zone_land_any in Y; congruence). pose proof (forall2_nth _ _ _ _ _ _ (SeaOnly NL b r Hb Hr) Sn On) as A. cbv beta in A.
    exists c, b, r, o. split; [exact C|]. split; [exact Hb|]. split; [exact Hr|]. split; [exact R1|]. split; [exact A|]. split; [exact (Mk _ A)|apply same_refl].
Qed.
End zones.

Section zone_theorems.
Variables (m : method) (radii : list Q) (lead_times : option (list Q)) (xs ys leads : list Q) (h w : Z) (slices : list nslice).
Hypothesis Hh : (0 < h)%Z.
Hypothesis Hw : (0 < w)%Z.
Variables (zones : list (grid Q)) (first : grid (option Q)) (others : list (grid (option Q))).
Hypothesis Hmask : forall z y x, In z others -> (z y x = None <-> sea_at first y x).
Definition zone_run area_sum out := land_and_sea m area_sum radii lead_times xs ys leads h w slices (ZoneMask false zones) (Some {| w_include_sea := false; w_has_mask := true; w_zones := first :: others |}) = Ok out.

(** With topographic zones, at a sea point: the mean over the sea points of the window, the land having no part. *)
Theorem C118_zones_sea_mean_partial out n s o y x : zone_run false out -> nth_error slices n = Some s -> nth_error out n = Some o -> (0 <= y < h)%Z -> (0 <= x < w)%Z -> s_own s y x = false -> sea_at first y x ->
  exists r q, size_is radii lead_times xs ys leads r /\ (1 <= r)%Z /\ o y x = (Some q, false) /\
    (edge_safe m h w r (fun i j => ~ (is_sea first (s_own s) i j = true /\ s_data s i j == 1)) ->
     0 < weight_total m h w r (is_sea first (s_own s)) y x /\ q == value_total m h w r (is_sea first (s_own s)) (s_data s) y x / weight_total m h w r (is_sea first (s_own s)) y x).
Proof.
  intros R Sn On Hy Hx Ow S. destruct (zone_sea_point m false radii lead_times xs ys leads h w slices zones first others out Hmask R n s o y x Sn On Hy Hx Ow S) as (c & b & r & a & Hc & Hb & Hr & R1 & C & M & V).
  set (g := fun i j => match first i j with Some _ => 0 | None => 1 end) in *. assert (C0 : calculate_neighbourhood m r false true h w (s_data s) (s_own s) (Some g) = Ok a) by exact C. clear C. rename C0 into C. assert (U : same_on eq h w (usable (s_own s) (Some g)) (is_sea first (s_own s))) by (intros i j _ _; apply zone_sea_usable).
  assert (Oy : usable (s_own s) (Some g) y x = true). { rewrite (U y x Hy Hx). unfold is_sea. rewrite Ow. unfold sea_at in S. rewrite S. reflexivity. }
  assert (Co := own_contributes m h w r _ y x R1 Hy Hx Oy).
  assert (Nn : fst (a y x) <> None). { intro E. apply (calculate_missing m r h w (s_data s) (s_own s) (Some g) true a y x Hh Hw ltac:(lia) C Hy Hx) in E. apply E. eauto. }
  destruct (fst (a y x)) as [qa|] eqn:Fa; [|contradiction]. destruct (o y x) as [[q|] mk] eqn:Fo; cbn [fst snd same_value] in *; [|contradiction]. subst mk.
  exists r, q. split; [exists c, b; auto|]. split; [exact R1|]. split; [reflexivity|]. intro Sf.
  assert (Sf' : edge_safe m h w r (fun i j => ~ (usable (s_own s) (Some g) i j = true /\ s_data s i j == 1))). { eapply edge_safe_ext; [|exact Sf]. intros i j Hi Hj. cbv beta. rewrite (U i j Hi Hj). reflexivity. }
  destruct (calculate_mean m r h w (s_data s) (s_own s) (Some g) Hh Hw ltac:(lia) true Sf') as [a' [E P]]. rewrite C in E. apply Ok_inj in E. subst a'. destruct (P y x Hy Hx) as (_ & _ & P3).
  assert (Wn : ~ weight_total m h w r (usable (s_own s) (Some g)) y x == 0). { rewrite weight_total_zero. intro N. apply N. eauto. }
  pose proof (weight_total_ext m h w r _ _ y x Hh Hw U) as We. pose proof (value_total_ext m h w r _ _ (s_data s) (s_data s) y x Hh Hw U (fun i j _ _ _ => Qeq_refl _)) as Ve.
  split.
  - rewrite <- We. pose proof (weight_total_nonneg m h w r (usable (s_own s) (Some g)) y x). lra.
  - destruct (P3 Wn) as (q' & Eq & Vq). rewrite Fa in Eq. injection Eq as <-. rewrite V, Vq, We, Ve. reflexivity.
Qed.
Theorem C118_zones_sea_sum out n s o y x : zone_run true out -> nth_error slices n = Some s -> nth_error out n = Some o -> (0 <= y < h)%Z -> (0 <= x < w)%Z -> s_own s y x = false -> sea_at first y x ->
  exists r q, size_is radii lead_times xs ys leads r /\ (1 <= r)%Z /\ o y x = (Some q, false) /\ q == value_total m h w r (is_sea first (s_own s)) (s_data s) y x.
Proof.
  intros R Sn On Hy Hx Ow S. destruct (zone_sea_point m true radii lead_times xs ys leads h w slices zones first others out Hmask R n s o y x Sn On Hy Hx Ow S) as (c & b & r & a & Hc & Hb & Hr & R1 & C & M & V).
  assert (C0 : calculate_neighbourhood m r true true h w (s_data s) (s_own s) (Some (fun i j => match first i j with Some _ => 0 | None => 1 end)) = Ok a) by exact C. clear C. rename C0 into C.
  destruct (calculate_sum m r h w (s_data s) (s_own s) (Some (fun i j => match first i j with Some _ => 0 | None => 1 end)) Hh Hw ltac:(lia) true) as [a' [E P]]. rewrite C in E. apply Ok_inj in E. subst a'. destruct (P y x Hy Hx) as (q' & P1 & P2).
  rewrite P1 in V. destruct (o y x) as [[q|] mk] eqn:Fo; cbn [fst snd same_value] in *; [|contradiction]. subst mk. exists r, q. split; [exists c, b; auto|]. split; [exact R1|]. split; [reflexivity|].
  rewrite V, P2. apply value_total_ext; trivial; [intros i j _ _; apply zone_sea_usable|]. intros. reflexivity.
Qed.
(** ... and at a land point: what C40 gives for the zones collapsed with the weights; where that is missing, zero if there is sea anywhere, otherwise masked. *)
Theorem C118_zones_land area_sum out n o y x : zone_run area_sum out -> nth_error out n = Some o -> (0 <= y < h)%Z -> (0 <= x < w)%Z -> ~ sea_at first y x ->
  exists c zs f, command_radii radii lead_times = Ok c /\ masked_process m area_sum c lead_times (Some (first :: others)) xs ys h w zones slices = Ok zs /\ nth_error zs n = Some [f] /\
    (forall v, f y x = Some v -> exists q, o y x = (Some q, false) /\ q == v) /\
    (f y x = None -> (exists i j, (0 <= i < h)%Z /\ (0 <= j < w)%Z /\ sea_at first i j) -> exists q, o y x = (Some q, false) /\ q == 0) /\
    (f y x = None -> (~ exists i j, (0 <= i < h)%Z /\ (0 <= j < w)%Z /\ sea_at first i j) -> o y x = (None, true)).
Proof.
  intros R On Hy Hx S. destruct (zone_parts m area_sum radii lead_times xs ys leads h w slices zones first others out R) as (c & C & Land & SeaB & _).
  destruct Land as (zs & fs & M & F & NoSea & WithSea); [exists y, x; auto|].
  assert (Z : forall f, nth_error fs n = Some f -> nth_error zs n = Some [f]). { clear -F. revert n. induction F as [|z f' zs fs E F IH]; intros [|n] f A; cbn in *; try discriminate; [injection A as <-; congruence|exact (IH n f A)]. }
  destruct (any_positive h w (fun i j => match first i j with Some _ => 0 | None => 1 end)) eqn:AS.
  - apply (proj1 (zone_sea_any h w first)) in AS. destruct (SeaB AS) as (b & r & Hb & Hr). destruct (WithSea b r Hb Hr AS) as (ss & G & ->).
    rewrite nth_error_map in On. destruct (nth_error (combine _ ss) n) as [p|] eqn:Cn; [|discriminate]. injection On as <-. apply combine_split in Cn as [C1 C2]. rewrite nth_error_map in C1. destruct (nth_error fs n) as [f|] eqn:Fn; [|discriminate]. injection C1 as C1.
    assert (Sn : exists s, nth_error slices n = Some s). { destruct (nth_error slices n) eqn:E; [eauto|]. apply nth_error_None in E. assert (length slices = length ss) by (clear -G; induction G; cbn; congruence). assert (n < length ss)%nat by (apply nth_error_Some; congruence). lia. } destruct Sn as [s Sn].
    pose proof (forall2_nth _ _ _ _ _ _ G Sn C2) as A. cbv beta in A. pose proof (calc_mask _ _ _ _ _ _ _ _ _ _ y x A) as MA. rewrite zone_sea_usable in MA. unfold is_sea in MA.
    assert (MA' : snd (snd p y x) = true). { rewrite MA. unfold sea_at in S. destruct (first y x); [|contradiction S; reflexivity]. destruct (s_own s y x); reflexivity. }
    exists c, zs, f. split; [exact C|]. split; [exact M|]. split; [exact (Z f eq_refl)|]. unfold add_filled, filled. rewrite MA', <- C1. cbn [fst snd]. split; [|split].
    + intros v ->. exists (v + 0). split; [reflexivity|ring].
    + intros -> _. exists (0 + 0). split; reflexivity.
    + intros _ N. contradiction.
  - assert (NS : ~ exists i j, (0 <= i < h)%Z /\ (0 <= j < w)%Z /\ sea_at first i j) by (intro Y; apply (proj2 (zone_sea_any h w first)) in Y; congruence). rewrite (NoSea NS) in On. rewrite nth_error_map in On. destruct (nth_error fs n) as [f|] eqn:Fn; [|discriminate]. injection On as <-.
    exists c, zs, f. split; [exact C|]. split; [exact M|]. split; [exact (Z f eq_refl)|]. split; [|split].
    + intros v E. rewrite E. exists v. split; reflexivity.
    + intros _ Y. contradiction.
    + intros E _. rewrite E. reflexivity.
Qed.
End zone_theorems.

(** A mask of fractions strictly between 0 and 1: such points are neither land nor sea, and with no other points there is no result. *)
Theorem C118_fractional_mask_refuted m area_sum radii lead_times xs ys leads h w slices : forall k, (forall i j, (0 <= i < h)%Z -> (0 <= j < w)%Z -> 0 < k i j < 1) ->
  match land_and_sea m area_sum radii lead_times xs ys leads h w slices (LandSeaMask k) None with Ok _ => False | Err _ => True end.
Proof.
  intros k K. assert (I : forall q, 0 < q < 1 -> to_int q = 0). { intros q [A B]. unfold to_int. unfold Qlt in A, B. cbn in A, B. rewrite Z.quot_small by lia. reflexivity. }
  assert (A : any_positive h w (fun i j => to_int (k i j)) = false). { destruct (any_positive _ _ _) eqn:E; [|reflexivity]. apply any_iff in E as (i & j & Hi & Hj & E). rewrite (I _ (K i j Hi Hj)) in E. lra. }
  assert (B : any_positive h w (fun i j => logical_not (k i j)) = false). { destruct (any_positive h w (fun i j => logical_not (k i j))) eqn:E; [|reflexivity]. apply any_iff in E as (i & j & Hi & Hj & E). unfold logical_not in E. pose proof (K i j Hi Hj). destruct (Qeqb_spec (k i j) 0); lra. }
  unfold land_and_sea, surfaces. cbn [bind]. destruct (command_radii radii lead_times); [|exact Logic.I]. cbn [bind]. rewrite A, B. exact Logic.I.
Qed.

(** A case: land in the west, sea in the east, data 2 on land and 4 at sea, a missing point. *)
Definition coast : grid Q := fun _ j => if Z.ltb j 2 then 1 else 0.
Definition coast_data : grid Q := fun i j => if Z.ltb j 2 then (if Z.eqb i 0 then 3 else 2) else 4.
Definition coast_slice : nslice := {| s_data := coast_data; s_own := fun i j => (Z.eqb i 4 && Z.eqb j 4)%bool; s_lead := 1 |}.
Definition grid_points : list Q := [0; 1000; 2000; 3000; 4000].
Definition at_point_is (r : result (list (grid (option Q * bool)))) (y x : Z) (q : Q) : bool :=
  match r with Ok [o] => match o y x with (Some v, false) => v =? q | _ => false end | _ => false end.
Example C118_case :
  let r := land_and_sea Square false [1000; 9999] None grid_points grid_points [1] 5 5 [coast_slice] (LandSeaMask coast) None in
  let t := land_and_sea Square true [1000] None grid_points grid_points [1] 5 5 [coast_slice] (LandSeaMask coast) None in
  at_point_is r 0 1 (5 # 2) = true /\ at_point_is r 3 1 2 = true /\ at_point_is r 0 2 4 = true /\ at_point_is r 4 4 0 = true /\ at_point_is t 3 1 12 = true /\
  binary 5 5 coast /\ edge_safe Square 5 5 1 (fun i j => ~ (of_surface coast 1 (s_own coast_slice) i j = true /\ coast_data i j == 1)).
Proof.
  cbv zeta. split; [vm_compute; reflexivity|]. split; [vm_compute; reflexivity|]. split; [vm_compute; reflexivity|]. split; [vm_compute; reflexivity|]. split; [vm_compute; reflexivity|].
  split; [intros i j _ _; unfold coast; destruct (Z.ltb j 2); [right|left]; reflexivity|]. right. assert (N : forall i j, ~ coast_data i j == 1). { intros i j. unfold coast_data. destruct (Z.ltb j 2), (Z.eqb i 0); lra. }
  split; [|split; [|split]]; [exists 0%Z, 0%Z|exists 4%Z, 0%Z|exists 0%Z, 0%Z|exists 0%Z, 4%Z]; (split; [lia|]); (split; [lia|]); (split; [|lia]); intros [_ D]; exact (N _ _ D).
Qed.
(** ... and zones: two on land. *)
Definition some_weights (a : Q) : grid (option Q) := fun _ j => if Z.ltb j 2 then Some a else None.
Definition high : grid Q := fun i j => if (Z.ltb j 2 && Z.ltb i 2)%bool then 1 else 0.
Definition low : grid Q := fun i j => if (Z.ltb j 2 && negb (Z.ltb i 2))%bool then 1 else 0.
Example C118_zones_case :
  let r := land_and_sea Square false [1000] None grid_points grid_points [1] 5 5 [coast_slice] (ZoneMask false [high; low]) (Some {| w_include_sea := false; w_has_mask := true; w_zones := [some_weights (1 # 4); some_weights (3 # 4)] |}) in
  at_point_is r 1 1 (17 # 8) = true /\ at_point_is r 0 2 4 = true /\ (forall y x, In (some_weights (3 # 4)) [some_weights (3 # 4)] -> (some_weights (3 # 4) y x = None <-> sea_at (some_weights (1 # 4)) y x)).
Proof.
  cbv zeta. split; [vm_compute; reflexivity|]. split; [vm_compute; reflexivity|]. intros y x _. unfold sea_at, some_weights. destruct (Z.ltb x 2); split; congruence.
Qed.

Print Assumptions C118_slices.
Print Assumptions C118_same_surface_mean_partial.
Print Assumptions C118_same_surface_sum.
Print Assumptions C118_range.
Print Assumptions C118_surface_range_partial.
Print Assumptions C118_missing_one_surface.
Print Assumptions C118_missing_becomes_zero.
Print Assumptions C118_no_mixing_sum.
Print Assumptions C118_no_mixing_mean_partial.
Print Assumptions C118_arguments.
Print Assumptions C118_extra_radii_ignored.
Print Assumptions C118_all_land_zones_refuted.
Print Assumptions C118_zones_sea_mean_partial.
Print Assumptions C118_zones_sea_sum.
Print Assumptions C118_zones_land.
Print Assumptions C118_fractional_mask_refuted.
