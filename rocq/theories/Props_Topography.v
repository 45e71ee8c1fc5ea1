(** C43: topographic zone weights, orography band masks, land-sea mask correction. *)
From Verif Require Import Base Interp Model_Topography Spec_Topography Proofs_Topography.
Local Open Scope Q_scope.

(** The whole process: one list of weights for each grid point, one weight for each band; a point is masked exactly where the land mask is zero; other points hold the
    weights of their height, independent of every other point. *)
Theorem C43_points ndim bs land oro out w : zone_weights ndim bs land oro = Ok (out, w) ->
  length out = length oro /\
  forall p, (p < length oro)%nat ->
    length (nth p out []) = length bs /\
    ((exists l, land = Some l /\ nth p l 0 == 0) -> nth p out [] = repeat None (length bs)) /\
    (~ (exists l, land = Some l /\ nth p l 0 == 0) -> nth p out [] = map Some (zone_point bs (nth p oro 0))).
Proof.
  unfold zone_weights. intros H. destruct (negb _); [discriminate|]. destruct bs as [|b0 br]; [discriminate|]. destruct (same_size land oro) eqn:S; [|discriminate].
  remember (b0 :: br) as bs eqn:Eb. clear Eb b0 br. inversion H; subst; clear H. rewrite map_length, zip_land_length. split; [reflexivity|]. intros p Hp.
  set (f := fun p => map _ (zone_point bs (snd p))). rewrite (nth_map_lt f _ _ (None, 0)) by (rewrite zip_land_length; exact Hp). rewrite (zip_land_nth _ _ _ _ Hp S). unfold f. cbn [fst snd]. clear f.
  split; [rewrite map_length; apply zone_point_length|]. split.
  - intros [l [-> E]]. unfold sea_masked. apply Qeq_bool_iff in E. rewrite E. rewrite <- (zone_point_length bs (nth p oro 0)). generalize (zone_point bs (nth p oro 0)). intros ws.
    induction ws as [|x r IH]; cbn; [reflexivity|]. rewrite IH. reflexivity.
  - intros N. destruct land as [l|]; [|reflexivity]. unfold sea_masked. destruct (Qeqb_spec (nth p l 0) 0) as [E|E]; [exfalso; apply N; exists l; auto|reflexivity].
Qed.
Theorem C43_accepted ndim bs land oro : (exists o, zone_weights ndim bs land oro = Ok o) <-> ndim = 2%nat /\ bs <> [] /\ forall l, land = Some l -> length l = length oro.
Proof.
  unfold zone_weights. destruct (Nat.eqb_spec ndim 2) as [E|E]; cbn [negb].
  - destruct bs as [|b r]; [split; [intros [o H]; discriminate|intros [_ [H _]]; congruence]|]. destruct land as [l|]; cbn [same_size].
    + destruct (Nat.eqb_spec (length l) (length oro)) as [L|L]; split; intros H.
      * split; [exact E|]. split; [discriminate|]. intros l' [= <-]. exact L.
      * eexists. reflexivity.
      * destruct H as [o H]. discriminate.
      * exfalso. apply L. apply (proj2 (proj2 H)). reflexivity.
    + split; intros; [|eexists; reflexivity]. split; [exact E|]. split; [discriminate|]. intros l' X. discriminate X.
  - split; [intros [o H]; discriminate|intros [H _]; congruence].
Qed.

(** Every weight is between zero and one, whatever the bands (also overlapping, empty or with gaps). *)
Theorem C43_range bs z w : In w (zone_point bs z) -> 0 <= w <= 1.
Proof. intros H. exact (proj1 (Forall_forall _ _) (zone_point_range bs z) w H). Qed.

(** Contiguous bands: the weight of each band is the specified one, ... *)
Theorem C43_weights bs k z j : contiguous bs -> (k < length bs)%nat -> inside bs k z -> (j < length bs)%nat -> nth j (zone_point bs z) 0 == ideal_weight bs k z j.
Proof. exact (zone_point_value bs k z j). Qed.
(** ... they sum to one at any height above the lowest bound up to the highest one, ... *)
Theorem C43_sum_to_one bs z : contiguous bs -> bs <> [] -> lower bs 0 < z -> z <= upper bs (length bs - 1) -> qsum (zone_point bs z) == 1.
Proof. intros C N L U. destruct (inside_exists bs z C N L U) as [k [K I]]. exact (zone_point_sum bs k z C K I). Qed.
(** ... only the band of the height and one neighbour have a weight, and no band has more weight than the band of the height (at least one half); ... *)
Theorem C43_local bs k z : contiguous bs -> (k < length bs)%nat -> inside bs k z ->
  (1 # 2) <= nth k (zone_point bs z) 0 /\ (forall j, nth j (zone_point bs z) 0 <= nth k (zone_point bs z) 0) /\
  (forall j, ~ nth j (zone_point bs z) 0 == 0 -> j = k \/ (S j = k /\ z < middle bs k) \/ (j = S k /\ middle bs k < z)).
Proof.
  intros C K I. assert (V := fun j => C43_weights bs k z j C K I). assert (L := zone_point_length bs z). assert (T : (1 # 2) <= closeness bs k z <= 1).
  { apply tent_bounds; [apply I|apply I|]. unfold middle. field. }
  assert (Own : (1 # 2) <= nth k (zone_point bs z) 0).
  { rewrite (V k K). unfold ideal_weight. rewrite Nat.eqb_refl. cbv zeta. destruct (_ || _)%bool; lra. }
  split; [exact Own|]. split.
  - intros j. destruct (le_lt_dec (length bs) j) as [J|J]; [rewrite nth_overflow by lia; lra|]. destruct (Nat.eq_dec j k) as [->|N]; [lra|]. apply Qle_trans with (1 # 2); [|exact Own].
    rewrite (V j J). unfold ideal_weight. cbv zeta. destruct (Nat.eqb_spec j k); [lia|]. destruct (_ && _)%bool; [lra|]. destruct (_ && _)%bool; lra.
  - intros j Hj. destruct (le_lt_dec (length bs) j) as [J|J]; [exfalso; apply Hj; rewrite nth_overflow by lia; reflexivity|]. rewrite (V j J) in Hj. unfold ideal_weight in Hj. cbv zeta in Hj.
    destruct (Nat.eqb_spec j k) as [|N]; [left; assumption|]. right. destruct (Nat.eqb_spec (S j) k) as [E|E]; cbn [andb] in Hj.
    + destruct (Qltb_spec z (middle bs k)); [left; auto|]. destruct (Nat.eqb_spec j (S k)); [lia|]. cbn in Hj. exfalso. apply Hj. reflexivity.
    + destruct (Nat.eqb_spec j (S k)) as [E'|E']; cbn [andb] in Hj; [|exfalso; apply Hj; reflexivity]. destruct (Qltb_spec (middle bs k) z); [right; auto|]. exfalso. apply Hj. reflexivity.
Qed.
(** ... at the edge between two bands each has one half, and just above the edge (height tending to it) both weights tend to one half, so there is no step. *)
Theorem C43_no_step bs k z e : contiguous bs -> (S k < length bs)%nat -> z == upper bs k ->
  0 < e -> e <= (upper bs (S k) - lower bs (S k)) / 2 ->
  nth k (zone_point bs z) 0 == 1 # 2 /\ nth (S k) (zone_point bs z) 0 == 1 # 2 /\
  nth k (zone_point bs (z + e)) 0 == (1 # 2) - e / (upper bs (S k) - lower bs (S k)) /\ nth (S k) (zone_point bs (z + e)) 0 == (1 # 2) + e / (upper bs (S k) - lower bs (S k)).
Proof.
  intros C K E He Hw. assert (A := proj1 C k ltac:(lia)). assert (B := proj1 C (S k) K). assert (D := proj2 C k K).
  assert (M : middle bs k == (lower bs k + upper bs k) * (1 # 2)) by (unfold middle; field). assert (M' : middle bs (S k) == (lower bs (S k) + upper bs (S k)) * (1 # 2)) by (unfold middle; field).
  assert (Hw' : e <= (upper bs (S k) - lower bs (S k)) * (1 # 2)) by (assert (X : (upper bs (S k) - lower bs (S k)) / 2 == (upper bs (S k) - lower bs (S k)) * (1 # 2)) by field; lra). clear Hw.
  assert (I : inside bs k z) by (unfold inside; lra). assert (I' : inside bs (S k) (z + e)) by (unfold inside; lra).
  assert (Cl : closeness bs k z == 1 # 2).
  { unfold closeness. rewrite Qabs_pos by lra. assert (X : (z - middle bs k) / (upper bs k - lower bs k) == 1 # 2); [|rewrite X; reflexivity]. rewrite E, M. field. lra. }
  assert (Cl' : closeness bs (S k) (z + e) == (1 # 2) + e / (upper bs (S k) - lower bs (S k))).
  { unfold closeness. rewrite Qabs_neg by lra. rewrite E, M', D. field. lra. }
  split; [|split; [|split]].
  - rewrite (C43_weights bs k z k C ltac:(lia) I) by lia. unfold ideal_weight. cbv zeta. rewrite Nat.eqb_refl. destruct (Qltb_spec z (middle bs k)); [lra|].
    destruct (Nat.eqb_spec (S k) (length bs)); [lia|]. rewrite andb_false_r. exact Cl.
  - rewrite (C43_weights bs k z (S k) C ltac:(lia) I) by lia. unfold ideal_weight. cbv zeta. destruct (Nat.eqb_spec (S k) k); [lia|]. rewrite Nat.eqb_refl.
    destruct (Qltb_spec z (middle bs k)); [lra|]. destruct (Qltb_spec (middle bs k) z); [|lra]. rewrite andb_false_r. cbn [andb]. rewrite Cl. reflexivity.
  - rewrite (C43_weights bs (S k) (z + e) k C ltac:(lia) I') by lia. unfold ideal_weight. cbv zeta. destruct (Nat.eqb_spec k (S k)); [lia|]. rewrite Nat.eqb_refl.
    destruct (Nat.eqb_spec k (S (S k))); [lia|]. cbn [andb]. destruct (Qltb_spec (z + e) (middle bs (S k))) as [Y|Y]; [rewrite Cl'; ring|].
    assert (Ee : e == (upper bs (S k) - lower bs (S k)) * (1 # 2)) by lra. rewrite Ee. field. lra.
  - rewrite (C43_weights bs (S k) (z + e) (S k) C ltac:(lia) I') by lia. unfold ideal_weight. cbv zeta. rewrite Nat.eqb_refl. change (S k =? 0)%nat with false. rewrite andb_false_r.
    destruct (Qltb_spec (middle bs (S k)) (z + e)); [lra|]. cbn [andb orb]. exact Cl'.
Qed.

(** Outside the bands every weight is zero; the lowest bound itself is outside although no warning is given for it: the weights of such a point do not sum to one. *)
Theorem C43_outside bs z : contiguous bs -> bs <> [] -> z <= lower bs 0 \/ upper bs (length bs - 1) < z -> forall j, nth j (zone_point bs z) 0 == 0.
Proof. intros C N H j. rewrite (zone_point_outside bs z C N H). rewrite nth_repeat. reflexivity. Qed.
Theorem C43_warnings bs oro : bs <> [] -> oro <> [] ->
  (fst (warnings bs oro) = true <-> exists z, In z oro /\ forall b, In b bs -> fst b < z /\ snd b < z) /\
  (snd (warnings bs oro) = true <-> exists z, In z oro /\ forall b, In b bs -> z < fst b /\ z < snd b) /\
  (contiguous bs -> fst (warnings bs oro) = false -> snd (warnings bs oro) = false -> forall z, In z oro -> lower bs 0 <= z <= upper bs (length bs - 1)).
Proof.
  intros N M. unfold warnings. destruct oro as [|z0 zs]; [congruence|]. assert (BI := bounds_of_in bs). destruct (bounds_of bs) as [|y ys] eqn:E.
  { exfalso. destruct bs as [|b0 r]; [congruence|]. discriminate E. }
  cbn [fst snd]. rewrite !Qltb_lt, !Qltb_ge. destruct (qmaxl_in z0 zs) as [zm [Izm Ezm]]. destruct (qminl_in z0 zs) as [zn [Izn Ezn]]. destruct (qmaxl_in y ys) as [ym [Iym Eym]]. destruct (qminl_in y ys) as [yn [Iyn Eyn]].
  split; [|split].
  - split.
    + intros H. exists zm. split; [exact Izm|]. intros c Hc. assert (X := qmaxl_ge y ys (fst c) ltac:(apply BI; exists c; auto)). assert (Y := qmaxl_ge y ys (snd c) ltac:(apply BI; exists c; auto)). lra.
    + intros [z [Iz H]]. assert (X := qmaxl_ge z0 zs z Iz). apply BI in Iym. destruct Iym as [c [Ic [-> | ->]]]; destruct (H c Ic); lra.
  - split.
    + intros H. exists zn. split; [exact Izn|]. intros c Hc. assert (X := qminl_le y ys (fst c) ltac:(apply BI; exists c; auto)). assert (Y := qminl_le y ys (snd c) ltac:(apply BI; exists c; auto)). lra.
    + intros [z [Iz H]]. assert (X := qminl_le z0 zs z Iz). apply BI in Iyn. destruct Iyn as [c [Ic [-> | ->]]]; destruct (H c Ic); lra.
  - intros C A B z Iz. assert (X := qmaxl_ge z0 zs z Iz). assert (Y := qminl_le z0 zs z Iz).
    assert (Low : forall c, In c bs -> lower bs 0 <= fst c /\ lower bs 0 <= snd c /\ fst c <= upper bs (length bs - 1) /\ snd c <= upper bs (length bs - 1)).
    { intros c Hc. destruct (In_nth bs c (0, 0) Hc) as [j [J <-]]. change (fst (nth j bs (0, 0))) with (lower bs j). change (snd (nth j bs (0, 0))) with (upper bs j).
      assert (P := proj1 C j J). assert (P0 := proj1 C 0%nat ltac:(lia)). assert (Pl := proj1 C (length bs - 1)%nat ltac:(lia)).
      assert (Q1 : lower bs 0 <= lower bs j) by (destruct (Nat.eq_dec j 0) as [-> |Nj]; [apply Qle_refl|]; assert (W := contiguous_le bs 0 j C ltac:(lia)); lra).
      assert (Q2 : upper bs j <= upper bs (length bs - 1)) by (destruct (Nat.eq_dec j (length bs - 1)) as [Ej|Nj]; [rewrite Ej; apply Qle_refl|]; assert (W := contiguous_le bs j (length bs - 1) C ltac:(lia)); lra).
      repeat split; lra. }
    apply BI in Iym. apply BI in Iyn. destruct Iym as [c [Ic Ec]]. destruct Iyn as [d [Id Ed]]. destruct (Low c Ic) as [_ [_ [L1 L2]]]. destruct (Low d Id) as [L3 [L4 _]].
    split; [destruct Ed as [-> | ->]; lra|destruct Ec as [-> | ->]; lra].
Qed.
Theorem C43_lowest_bound_refuted : exists bs oro, contiguous bs /\ warnings bs oro = (false, false) /\
  exists z, In z oro /\ lower bs 0 <= z <= upper bs (length bs - 1) /\ ~ qsum (zone_point bs z) == 1.
Proof.
  exists [(0, 50); (50, 100)], [0; 60]. split.
  { split; intros [|[|k]] H; cbn in H; try lia; reflexivity. }
  split; [reflexivity|]. exists 0. split; [left; reflexivity|]. split; [split; discriminate|]. discriminate.
Qed.

(** Band masks: one for each band; 1 exactly at the points that are land (or there is no land mask) with a height in the band, 0 elsewhere. *)
Theorem C43_band_masks bs land oro ms : band_ancils (Some bs) land oro = Ok ms ->
  length ms = length bs /\ forall k p, (k < length bs)%nat -> (p < length oro)%nat ->
    (nth p (nth k ms []) 0%Z = 1%Z \/ nth p (nth k ms []) 0%Z = 0%Z) /\
    (nth p (nth k ms []) 0%Z = 1%Z <-> inside bs k (nth p oro 0) /\ forall l, land = Some l -> ~ nth p l 0 == 0).
Proof.
  unfold band_ancils. intros H. assert (G : forall bs ms, mapM (fun b => gen_orography_masks b land oro) bs = Ok ms -> length ms = length bs /\
    forall k, (k < length bs)%nat -> gen_orography_masks (nth k bs (0, 0)) land oro = Ok (nth k ms [])).
  { clear. induction bs as [|b r IH]; intros ms H; cbn [mapM] in H.
    - inversion H. split; [reflexivity|]. intros k K. cbn in K. lia.
    - destruct (gen_orography_masks b land oro) as [m|] eqn:E; [|discriminate]. cbn [bind] in H. destruct (mapM _ r) as [l|] eqn:F; [|discriminate]. cbn [bind] in H. inversion H. subst.
      destruct (IH l eq_refl) as [L P]. split; [cbn; lia|]. intros [|k] K; cbn; [exact E|]. apply P. cbn in K. lia. }
  destruct (G bs ms H) as [L P]. split; [exact L|]. intros k p K Hp. specialize (P k K). unfold gen_orography_masks in P. destruct (same_size land oro) eqn:S; [|discriminate].
  apply (f_equal (fun r => match r with Ok a => a | Err _ => [] end)) in P. rewrite <- P. set (f := fun p => band_mask_point _ (fst p) (snd p)).
  rewrite (nth_map_lt f _ _ (None, 0)) by (rewrite zip_land_length; exact Hp). rewrite (zip_land_nth _ _ _ _ Hp S). unfold f. cbn [fst snd]. unfold band_mask_point. cbv zeta.
  assert (IB := in_band_iff (nth k bs (0, 0)) (nth p oro 0)). change (fst (nth k bs (0, 0)) < nth p oro 0 <= snd (nth k bs (0, 0))) with (inside bs k (nth p oro 0)) in IB.
  destruct land as [l|].
  - unfold sea_filled. destruct (Qeqb_spec (nth p l 0) 0) as [Z|Z].
    + split; [auto|]. split; [discriminate|]. intros [_ X]. exfalso. exact (X l eq_refl Z).
    + destruct (in_band _ _).
      * split; [auto|]. split; [|reflexivity]. intros _. split; [apply IB; reflexivity|]. intros l' [= <-]. exact Z.
      * split; [auto|]. split; [discriminate|]. intros [X _]. apply IB in X. discriminate.
  - destruct (in_band _ _).
    + split; [auto|]. split; [|reflexivity]. intros _. split; [apply IB; reflexivity|]. intros l' X. discriminate X.
    + split; [auto|]. split; [discriminate|]. intros [X _]. apply IB in X. discriminate.
Qed.
(** With contiguous bands every land point above the lowest and not above the highest bound belongs to exactly one mask; no sea point to any. *)
Theorem C43_masks_partition bs land oro ms p : contiguous bs -> bs <> [] -> band_ancils (Some bs) land oro = Ok ms -> (p < length oro)%nat ->
  lower bs 0 < nth p oro 0 -> nth p oro 0 <= upper bs (length bs - 1) ->
  ((forall l, land = Some l -> ~ nth p l 0 == 0) -> exists k, (k < length bs)%nat /\ forall j, (j < length bs)%nat -> nth p (nth j ms []) 0%Z = if (j =? k)%nat then 1%Z else 0%Z) /\
  ((exists l, land = Some l /\ nth p l 0 == 0) -> forall j, (j < length bs)%nat -> nth p (nth j ms []) 0%Z = 0%Z).
Proof.
  intros C N H Hp Lo Hi. destruct (C43_band_masks bs land oro ms H) as [L P]. split.
  - intros A. destruct (inside_exists bs _ C N Lo Hi) as [k [K I]]. exists k. split; [exact K|]. intros j J. destruct (P j p J Hp) as [B D]. destruct (Nat.eqb_spec j k) as [-> |E]; [apply D; auto|].
    destruct B as [B|B]; [|exact B]. exfalso. apply E. apply D in B. exact (inside_unique bs j k _ C J K (proj1 B) I).
  - intros [l [El Z]] j J. destruct (P j p J Hp) as [[B|B] D]; [|exact B]. apply D in B. exfalso. exact (proj2 B l El Z).
Qed.

(** The corrected land-sea mask holds only 0 and 1, is 1 exactly where the interpolated mask was at least one half, and correcting it again changes nothing. *)
Theorem C43_land_sea mask p : (p < length mask)%nat ->
  length (correct_mask mask) = length mask /\ (nth p (correct_mask mask) 0 = 0 \/ nth p (correct_mask mask) 0 = 1) /\
  (nth p (correct_mask mask) 0 = 1 <-> (1 # 2) <= nth p mask 0) /\ correct_mask (correct_mask mask) = correct_mask mask.
Proof.
  intros H. unfold correct_mask. rewrite map_length. split; [reflexivity|]. rewrite (nth_map_lt correct_point _ _ 0) by exact H. split; [apply correct_point_01|]. split.
  - destruct (correct_point_spec (nth p mask 0)) as [A _]. split.
    + intros E. apply A. rewrite E. reflexivity.
    + intros E. apply A in E. destruct (correct_point_01 (nth p mask 0)) as [Z|Z]; [|exact Z]. rewrite Z in E. discriminate.
  - rewrite map_map. apply map_ext. intros v. destruct (correct_point_01 v) as [-> | ->]; reflexivity.
Qed.

Definition case_bands : list (Q * Q) := [(0, 50); (50, 150); (150, 160)].
Example C43_case : contiguous case_bands /\
  exists out, zone_weights 2 case_bands (Some [1; 0; 1; 1; 1]) [20; 60; 75; 140; 159] = Ok (out, (false, false)) /\
    map (map (option_map Qred)) out = [[Some 1; Some 0; Some 0]; [None; None; None]; [Some (1 # 4); Some (3 # 4); Some 0]; [Some 0; Some (3 # 5); Some (2 # 5)]; [Some 0; Some 0; Some 1]].
Proof.
  split; [split; intros [|[|[|k]]] H; cbn in H; try lia; reflexivity|]. eexists. split; [reflexivity|]. vm_compute. reflexivity.
Qed.

Print Assumptions C43_points.
Print Assumptions C43_accepted.
Print Assumptions C43_range.
Print Assumptions C43_weights.
Print Assumptions C43_sum_to_one.
Print Assumptions C43_local.
Print Assumptions C43_no_step.
Print Assumptions C43_outside.
Print Assumptions C43_warnings.
Print Assumptions C43_lowest_bound_refuted.
Print Assumptions C43_band_masks.
Print Assumptions C43_masks_partition.
Print Assumptions C43_land_sea.
