From Verif Require Import Base Interp Proofs_Weights Model_Nbhood Spec_Nbhood Proofs_Nbhood Model_Spatial Proofs_Spatial Model_NbhoodCube Spec_NbhoodCube Proofs_Reordering.
Local Open Scope Q_scope.

(** Totals depend on the usable points of the domain only. *)
Lemma weight_total_ext m h w r ok ok' y x : (0 < h)%Z -> (0 < w)%Z -> same_on eq h w ok ok' -> weight_total m h w r ok y x == weight_total m h w r ok' y x.
Proof.
  intros Hh Hw E. apply total_ext; trivial. intros dy dx _ _. rewrite !entry_position. destruct (position m h w (y + dy) (x + dx)) as [[a b]|] eqn:P; [|reflexivity].
  destruct (position_in _ _ _ _ _ _ _ Hh Hw P). rewrite E by trivial. reflexivity.
Qed.
Lemma value_total_ext m h w r ok ok' d d' y x : (0 < h)%Z -> (0 < w)%Z -> same_on eq h w ok ok' ->
  (forall i j, (0 <= i < h)%Z -> (0 <= j < w)%Z -> ok i j = true -> d i j == d' i j) -> value_total m h w r ok d y x == value_total m h w r ok' d' y x.
Proof.
  intros Hh Hw E D. apply total_ext; trivial. intros dy dx _ _. rewrite !entry_position. destruct (position m h w (y + dy) (x + dx)) as [[a b]|] eqn:P; [|reflexivity].
  destruct (position_in _ _ _ _ _ _ _ Hh Hw P). rewrite <- E by trivial. destruct (ok a b) eqn:O; [apply D; trivial|reflexivity].
Qed.
Lemma window_mean_ext m h w r ok ok' d d' y x o : (0 < h)%Z -> (0 < w)%Z -> same_on eq h w ok ok' -> same_on Qeq h w d d' ->
  is_window_mean m h w r ok d y x o -> is_window_mean m h w r ok' d' y x o.
Proof.
  intros Hh Hw E D [A B]. assert (W := weight_total_ext m h w r ok ok' y x Hh Hw E).
  assert (V := value_total_ext m h w r ok ok' d d' y x Hh Hw E (fun i j Hi Hj _ => D i j Hi Hj)). split.
  - intro Z. apply A. rewrite W. exact Z.
  - intro N. destruct B as [v [-> Hv]]; [rewrite W; exact N|]. exists v. split; [reflexivity|]. rewrite Hv, V, W. reflexivity.
Qed.
Lemma edge_safe_ext m h w r P P' : (forall i j, (0 <= i < h)%Z -> (0 <= j < w)%Z -> (P i j <-> P' i j)) -> edge_safe m h w r P -> edge_safe m h w r P'.
Proof.
  intro E. destruct m; [|trivial]. intros [C|S]; [left|right].
  - intros i j Hi Hj H. apply C; trivial. apply E; trivial.
  - destruct S as [A [B [C D]]]. repeat split.
    + destruct A as [i [j [Hi [Hj [H K]]]]]. exists i, j. repeat split; try lia; trivial. apply E; trivial.
    + destruct B as [i [j [Hi [Hj [H K]]]]]. exists i, j. repeat split; try lia; trivial. apply E; trivial.
    + destruct C as [i [j [Hi [Hj [H K]]]]]. exists i, j. repeat split; try lia; trivial. apply E; trivial.
    + destruct D as [i [j [Hi [Hj [H K]]]]]. exists i, j. repeat split; try lia; trivial. apply E; trivial.
Qed.
Lemma usable_ext own own' mask h w : same_on eq h w own own' -> same_on eq h w (usable own mask) (usable own' mask).
Proof. intros E i j Hi Hj. unfold usable. rewrite E by trivial. reflexivity. Qed.

(** Radii. *)
Lemma init_radii rs ts b : base_init (Radii rs) (Some ts) = Ok b -> b = {| b_radius := None; b_radii := Some rs; b_lead_times := Some ts |} /\ length rs = length ts.
Proof.
  unfold base_init. destruct (Nat.eqb_spec (length rs) (length ts)) as [E|E]; [|discriminate]. intro H. apply Ok_inj in H. subst b. split; [reflexivity|exact E].
Qed.
Lemma init_radius rs ts b leads : base_init (Radii rs) (Some ts) = Ok b -> ts <> [] -> base_radius b leads = Ok (map (np_interp (combine ts rs)) leads).
Proof. intros H N. destruct (init_radii _ _ _ H) as [-> L]. unfold base_radius. cbn [b_lead_times b_radii]. destruct ts; [easy|reflexivity]. Qed.

Lemma cells_positive l d k : distance_to_cells l d = Ok k -> 0 < d /\ (1 <= k)%Z /\ exists s, grid_spacing l = Ok (Some s) /\ 0 < s /\ inject_Z k * s <= d /\ d < (inject_Z k + 1) * s.
Proof.
  intro H. assert (H0 := H). unfold distance_to_cells in H. destruct (Qle_bool d 0) eqn:D; [discriminate|]. assert (Dp : 0 < d).
  { destruct (Qlt_le_dec 0 d); [trivial|]. exfalso. apply Qle_bool_iff in q. rewrite q in D. discriminate. }
  destruct (grid_spacing l) as [[s|]|e] eqn:E; try discriminate. cbn [bind] in H. cbv zeta in H. destruct (spacing_tolerance l s E) as [S0 _].
  assert (Sp : 0 < s).
  { destruct (Qlt_le_dec 0 s); [trivial|]. assert (Z : s == 0) by lra. exfalso. assert (F : Qround.Qfloor (d / Qabs s) = 0%Z).
    { rewrite (Qround.Qfloor_comp _ (d / 0)); [|rewrite Z; reflexivity]. rewrite (Qround.Qfloor_comp _ 0); [reflexivity|]. unfold Qdiv. change (/ 0) with 0. ring. }
    rewrite F in H. discriminate. }
  destruct (cells_spec l d s E Sp) as [C _]. apply C in H0. split; [exact Dp|]. split; [tauto|]. exists s. tauto.
Qed.

Lemma nbhood_cells_ok b xs ys leads r : nbhood_cells b xs ys leads = Ok r ->
  exists radius, base_radius b leads = Ok [radius] /\ 0 < radius /\ 4 * (radius * radius) <= span xs * span xs + span ys * span ys /\ (1 <= r)%Z /\
  exists s, grid_spacing xs = Ok (Some s) /\ 0 < s /\ inject_Z r * s <= radius /\ radius < (inject_Z r + 1) * s.
Proof.
  unfold nbhood_cells. intro H. destruct (base_radius b leads) as [rs|e]; [|discriminate]. cbn [bind] in H. destruct (check_equal_area xs ys) as [u|e]; [|discriminate]. cbn [bind] in H.
  destruct rs as [|q [|]]; try discriminate. cbn [single bind] in H. unfold check_radius in H. destruct (_ && _)%bool eqn:C; [discriminate|]. cbn [bind] in H.
  destruct (cells_positive _ _ _ H) as [P [R S]]. exists q. split; [reflexivity|]. split; [exact P|]. split; [|split; [exact R|exact S]].
  apply Qltb_lt in P. rewrite P in C. cbn [andb] in C. apply Qltb_ge in C. exact C.
Qed.

(** The loop over slices: each result was computed from an earlier slice with the same values. *)
Lemma array_equal_spec h w a b : array_equal h w a b = true <-> same_on Qeq h w a b.
Proof.
  unfold array_equal. rewrite forallb_forall. split.
  - intros H i j Hi Hj. apply Qeq_bool_iff. exact (H (i, j) (proj2 (indices_in h w i j) (conj Hi Hj))).
  - intros H [i j] P. apply indices_in in P. apply Qeq_bool_iff. apply H; tauto.
Qed.
Lemma loop_gen one h w slices : forall prev out, match prev with Some (p, o) => one p = Ok o | None => True end ->
  slice_loop one h w prev slices = Ok out -> length out = length slices /\
  forall k s o, nth_error slices k = Some s -> nth_error out k = Some o ->
    exists s', (In s' (firstn (S k) slices) \/ exists o', prev = Some (s', o')) /\ one s' = Ok o /\ same_on Qeq h w (s_data s') (s_data s).
Proof.
  induction slices as [|a l IH]; intros prev out Hp H.
  - cbn in H. apply Ok_inj in H. subst out. split; [reflexivity|]. intros [|k]; discriminate.
  - cbn [slice_loop] in H.
    assert (Fresh : forall out, (let* o := one a in let* os := slice_loop one h w (Some (a, o)) l in Ok (o :: os)) = Ok out -> length out = length (a :: l) /\
      forall k s o, nth_error (a :: l) k = Some s -> nth_error out k = Some o ->
        exists s', In s' (firstn (S k) (a :: l)) /\ one s' = Ok o /\ same_on Qeq h w (s_data s') (s_data s)).
    { clear H out. intros out H. destruct (one a) as [o|e] eqn:E; [|discriminate]. cbn [bind] in H. destruct (slice_loop one h w (Some (a, o)) l) as [os|e] eqn:L; [|discriminate].
      cbn [bind] in H. apply Ok_inj in H. subst out. destruct (IH (Some (a, o)) os E L) as [LL P]. split; [cbn [length]; f_equal; exact LL|]. intros [|k] s o' Hs Ho.
      - cbn in Hs, Ho. injection Hs as <-. injection Ho as <-. exists a. split; [left; reflexivity|]. split; [exact E|]. intros i j _ _. reflexivity.
      - cbn [nth_error] in Hs, Ho. destruct (P k s o' Hs Ho) as [s' [W [O S]]]. exists s'. split; [|split; trivial]. destruct W as [W|[o2 W]].
        + right. exact W.
        + injection W as <- _. left. reflexivity. }
    destruct prev as [[p o]|].
    + destruct (array_equal h w (s_data p) (s_data a)) eqn:Eq.
      * destruct (slice_loop one h w (Some (p, o)) l) as [os|e] eqn:L; [|discriminate]. cbn [bind] in H. apply Ok_inj in H. subst out.
        destruct (IH (Some (p, o)) os Hp L) as [LL P]. split; [cbn [length]; f_equal; exact LL|]. intros [|k] s o' Hs Ho.
        -- cbn in Hs, Ho. injection Hs as <-. injection Ho as <-. exists p. split; [right; eauto|]. split; [exact Hp|]. apply array_equal_spec. exact Eq.
        -- cbn [nth_error] in Hs, Ho. destruct (P k s o' Hs Ho) as [s' [W R]]. exists s'. split; [|exact R]. destruct W as [W|W]; [left; right; exact W|right; exact W].
      * destruct (Fresh out H) as [LL P]. split; [exact LL|]. intros k s o' Hs Ho. destruct (P k s o' Hs Ho) as [s' [W R]]. exists s'. split; [left; exact W|exact R].
    + destruct (Fresh out H) as [LL P]. split; [exact LL|]. intros k s o' Hs Ho. destruct (P k s o' Hs Ho) as [s' [W R]]. exists s'. split; [left; exact W|exact R].
Qed.
Lemma in_firstn {A} n (l : list A) x : In x (firstn n l) -> In x l.
Proof. intro H. rewrite <- (firstn_skipn n l). apply in_or_app. left. exact H. Qed.
Lemma loop_spec one h w slices out : slice_loop one h w None slices = Ok out -> length out = length slices /\
  forall k s o, nth_error slices k = Some s -> nth_error out k = Some o -> exists s', In s' slices /\ one s' = Ok o /\ same_on Qeq h w (s_data s') (s_data s).
Proof.
  intro H. destruct (loop_gen one h w slices None out I H) as [L P]. split; [exact L|]. intros k s o Hs Ho. destruct (P k s o Hs Ho) as [s' [[W|[? W]] R]]; [|discriminate].
  exists s'. split; [exact (in_firstn _ _ _ W)|exact R].
Qed.

(** One slice with one mask. *)
Lemma forall2_nth {A B} (R : A -> B -> Prop) l m k a b : Forall2 R l m -> nth_error l k = Some a -> nth_error m k = Some b -> R a b.
Proof.
  intro F. revert k. induction F as [|x y l m H F IH]; intros [|k] Ha Hb; try discriminate.
  - cbn in Ha, Hb. injection Ha as <-. injection Hb as <-. exact H.
  - cbn in Ha, Hb. exact (IH k Ha Hb).
Qed.
Lemma one_zones m so b xs ys h w masks s zones : one_slice m so b xs ys h w masks None s = Ok zones ->
  Forall2 (fun mask g => exists r out, nbhood_cells b xs ys [s_lead s] = Ok r /\ calculate_neighbourhood m r so false h w (s_data s) (s_own s) (Some mask) = Ok out /\
    g = fun y x => fst (out y x)) masks zones.
Proof.
  unfold one_slice. intro H. destruct (mapM _ masks) as [zs|e] eqn:E; [|discriminate]. cbn [bind] in H. apply Ok_inj in H. subst zs. apply mapM_inv in E.
  induction E as [|mask g l l' H F IH]; constructor; [|exact IH]. clear IH F. unfold nbhood_process in H. destruct (nbhood_cells b xs ys [s_lead s]) as [r|e] eqn:N; [|discriminate].
  cbn [bind mapM] in H. destruct (calculate_neighbourhood m r so false h w (s_data s) (s_own s) (Some mask)) as [out|e] eqn:C; [|discriminate]. cbn [bind single] in H. apply Ok_inj in H.
  exists r, out. split; [reflexivity|]. split; [exact C|]. symmetry. exact H.
Qed.
Lemma one_collapsed m so b xs ys h w masks ws s o : one_slice m so b xs ys h w masks (Some ws) s = Ok o ->
  exists zones, one_slice m so b xs ys h w masks None s = Ok zones /\ o = [collapse_mask_coord zones ws].
Proof.
  unfold one_slice. intro H. destruct (mapM _ masks) as [zs|e] eqn:E; [|discriminate]. cbn [bind] in *. apply Ok_inj in H. exists zs. split; [reflexivity|]. symmetry. exact H.
Qed.

(** Collapsing. *)
Lemma pairs_in vs ws p : In p (weighted_pairs vs ws) <-> exists k, nth_error vs k = Some (Some (fst p)) /\ nth_error ws k = Some (Some (snd p)).
Proof.
  unfold weighted_pairs. revert ws. induction vs as [|v vs IH]; intro ws.
  - cbn. split; [intros []|]. intros [[|k] [H _]]; discriminate.
  - destruct ws as [|u ws]; [cbn; split; [intros []|intros [[|k] [_ H]]; discriminate]|]. cbn [combine flat_map]. rewrite in_app_iff, IH. split.
    + intros [H|[k H]]; [|exists (S k); exact H]. exists 0%nat. destruct v as [v|]; [|destruct H]. destruct u as [u|]; [|destruct H]. destruct H as [<-|[]]. split; reflexivity.
    + intros [[|k] [A B]]; [|right; exists k; split; trivial]. left. cbn in A, B. injection A as ->. injection B as ->. left. destruct p; reflexivity.
Qed.
Lemma collapse_none vs ws : (forall k u, nth_error ws k = Some (Some u) -> 0 <= u) ->
  (collapse_point vs ws = None <-> forall k v u, nth_error vs k = Some (Some v) -> nth_error ws k = Some (Some u) -> u == 0).
Proof.
  intro NN. unfold collapse_point. cbv zeta. set (ps := weighted_pairs vs ws). assert (P : Forall (fun x => 0 <= x) (map snd ps)).
  { apply Forall_forall. intros x Hx. apply in_map_iff in Hx. destruct Hx as [p [<- Hp]]. apply pairs_in in Hp. destruct Hp as [k [_ Hp]]. exact (NN k _ Hp). }
  assert (Q1 : qsum (map snd ps) == 0 <-> Forall (fun x => x == 0) (map snd ps)).
  { clear NN. induction (map snd ps) as [|x l IH]; [split; [constructor|reflexivity]|]. inversion P as [|? ? Px Pl]; subst. specialize (IH Pl). cbn [qsum].
    assert (G : 0 <= qsum l) by (apply qsum_nonneg; exact Pl). split.
    - intro E. constructor; [lra|]. apply IH. lra.
    - intro F. inversion F; subst. apply IH in H2. lra. }
  assert (D : (if qsum (map snd ps) =? 0 then None else Some (qsum (map (fun p => fst p * snd p) ps) / qsum (map snd ps))) = None <-> qsum (map snd ps) == 0).
  { rewrite <- Qeq_bool_iff. destruct (qsum (map snd ps) =? 0); split; intro; try reflexivity; discriminate. }
  rewrite D, Q1, Forall_forall. split.
  - intros H k v u Hv Hu. apply H. apply in_map_iff. exists (v, u). split; [reflexivity|]. apply pairs_in. exists k. split; trivial.
  - intros H x Hx. apply in_map_iff in Hx. destruct Hx as [p [<- Hp]]. apply pairs_in in Hp. destruct Hp as [k [A B]]. exact (H k _ _ A B).
Qed.
Lemma pairs_bounds ps lo hi : (forall p, In p ps -> 0 <= snd p /\ (0 < snd p -> lo <= fst p <= hi)) ->
  lo * qsum (map snd ps) <= qsum (map (fun p : Q * Q => fst p * snd p) ps) /\ qsum (map (fun p => fst p * snd p) ps) <= hi * qsum (map snd ps).
Proof.
  induction ps as [|p ps IH]; intro H; [cbn; lra|]. cbn [map qsum]. destruct IH as [A B]; [intros q Hq; apply H; right; exact Hq|].
  destruct (H p (or_introl eq_refl)) as [N R]. assert (C : lo * snd p <= fst p * snd p <= hi * snd p).
  { destruct (Qlt_le_dec 0 (snd p)) as [G|G].
    - destruct (R G). split; apply Qmult_le_compat_r; trivial; lra.
    - assert (Z : snd p == 0) by lra. rewrite Z. lra. }
  split; lra.
Qed.
Lemma collapse_range vs ws lo hi v : (forall k u, nth_error ws k = Some (Some u) -> 0 <= u) ->
  (forall k x u, nth_error vs k = Some (Some x) -> nth_error ws k = Some (Some u) -> 0 < u -> lo <= x <= hi) -> collapse_point vs ws = Some v -> lo <= v <= hi.
Proof.
  intros NN R H. unfold collapse_point in H. cbv zeta in H. set (ps := weighted_pairs vs ws) in *. destruct (qsum (map snd ps) =? 0) eqn:E; [discriminate|]. injection H as <-.
  assert (Pp : 0 <= qsum (map snd ps)).
  { apply qsum_nonneg. apply Forall_forall. intros x Hx. apply in_map_iff in Hx. destruct Hx as [p [<- Hp]]. apply pairs_in in Hp. destruct Hp as [k [_ Hp]]. exact (NN k _ Hp). }
  assert (T : 0 < qsum (map snd ps)). { apply Qeq_bool_neq in E. lra. }
  destruct (pairs_bounds ps lo hi) as [A B].
  { intros p Hp. apply pairs_in in Hp. destruct Hp as [k [K1 K2]]. split; [exact (NN k _ K2)|]. intro U. exact (R k _ _ K1 K2 U). }
  split; [apply Qle_shift_div_l|apply Qle_shift_div_r]; trivial.
Qed.
Lemma present_pairs f vs : forall ws, qsum (map (present vs ws f) (seq 0 (length vs))) == qsum (map (fun p => f (fst p) (snd p)) (weighted_pairs vs ws)).
Proof.
  induction vs as [|v vs IH]; intro ws; [reflexivity|]. cbn [length seq map qsum]. rewrite <- seq_shift, map_map. destruct ws as [|u ws].
  - assert (E : present (v :: vs) [] f 0 = 0) by (unfold present; cbn; destruct v; reflexivity). rewrite E. cbn. rewrite (qsum_map_ext _ (fun _ => 0)).
    + clear. induction (seq 0 (length vs)) as [|? ? IH]; cbn [map qsum]; lra.
    + intros k _. unfold present. cbn. destruct (nth k vs None); reflexivity.
  - assert (E : qsum (map (fun k => present (v :: vs) (u :: ws) f (S k)) (seq 0 (length vs))) == qsum (map (present vs ws f) (seq 0 (length vs)))) by reflexivity.
    rewrite E, IH. unfold weighted_pairs. cbn [combine flat_map]. rewrite map_app, qsum_app. unfold present. cbn [nth]. destruct v as [v|], u as [u|]; cbn; ring.
Qed.
Lemma collapse_value vs ws v : (forall k u, nth_error ws k = Some (Some u) -> 0 <= u) -> collapse_point vs ws = Some v -> is_weighted_mean vs ws v.
Proof.
  intros NN H. unfold collapse_point in H. cbv zeta in H. unfold is_weighted_mean. cbv zeta. rewrite !present_pairs. set (ps := weighted_pairs vs ws) in *.
  destruct (qsum (map snd ps) =? 0) eqn:E; [discriminate|]. injection H as <-. apply Qeq_bool_neq in E.
  assert (Pp : 0 <= qsum (map snd ps)).
  { apply qsum_nonneg. apply Forall_forall. intros x Hx. apply in_map_iff in Hx. destruct Hx as [p [<- Hp]]. apply pairs_in in Hp. destruct Hp as [k [_ Hp]]. exact (NN k _ Hp). }
  change (map (fun p : Q * Q => snd p) ps) with (map snd ps). split; [lra|]. field. exact E.
Qed.
