(** C68: regridding with land-sea masks. *)
From Coq Require Import Qround Qfield.
From Verif Require Import Base Model_Percentiles Model_Nbhood Proofs_Percentiles Proofs_Temporal Proofs_Table Proofs_Weights Proofs_Blending Model_Regrid Spec_Regrid Proofs_Regrid Props_Regrid.
Local Open Scope Q_scope.

(** ** The window and the surroundings *)
Lemma qmin_of_in l : l <> [] -> exists y, In y l /\ qmin_of l == y.
Proof. destruct l as [|a r]; [easy|]. intros _. apply qminl_in. Qed.
Lemma slice_surroundings g ts g' r0 c0 : 0 < g_dlat g -> 0 < g_dlon g -> slice_grid g ts = Ok (g', r0, c0) -> forall i j, surroundings g ts i j <-> (r0 <= i < r0 + g_ny g' /\ c0 <= j < c0 + g_nx g')%Z.
Proof.
  intros Dy Dx H i j. unfold slice_grid in H. destruct ts as [|t0 ts0] eqn:Ets; [discriminate|]. assert (Ne : ts <> []) by (rewrite Ets; discriminate). rewrite <- Ets in *. clear Ets.
  destruct (slice_axis_spec (qmin_of (map fst ts)) (qmax_of (map fst ts)) (g_lat0 g) (g_dlat g) (g_ny g) Dy) as (cr & mr & Er & Sr).
  destruct (slice_axis_spec (qmin_of (map snd ts)) (qmax_of (map snd ts)) (g_lon0 g) (g_dlon g) (g_nx g) Dx) as (cc & mc & Ec & Sc).
  rewrite Er, Ec in H. destruct mr as [|mr]; [discriminate|]. destruct mc as [|mc]; [destruct (zs cr (S mr)); discriminate|]. rewrite !zs_S in H. rewrite <- !zs_S, !zs_length in H. apply Ok_inj in H. injection H as <- <- <-. change (Z.pos (Pos.of_succ_nat mr)) with (Z.of_nat (S mr)). change (Z.pos (Pos.of_succ_nat mc)) with (Z.of_nat (S mc)).
  cbn [g_ny g_nx]. rewrite Sr, Sc. fold (lat_at g i). fold (lon_at g j).
  assert (Ne1 : map fst ts <> []) by (destruct ts; [congruence|discriminate]). assert (Ne2 : map snd ts <> []) by (destruct ts; [congruence|discriminate]).
  destruct (qmin_of_in _ Ne1) as (y1 & Y1 & E1). destruct (qmax_of_in _ Ne1) as (y2 & Y2 & E2). destruct (qmin_of_in _ Ne2) as (y3 & Y3 & E3). destruct (qmax_of_in _ Ne2) as (y4 & Y4 & E4).
  apply in_map_iff in Y1 as (t1 & <- & I1), Y2 as (t2 & <- & I2), Y3 as (t3 & <- & I3), Y4 as (t4 & <- & I4). unfold surroundings, a_source. split.
  - intros ((A & B) & (u1 & U1 & P1) & (u2 & U2 & P2) & (u3 & U3 & P3) & (u4 & U4 & P4)). pose proof (qmin_of_spec _ _ (in_map fst _ _ U1)). pose proof (qmax_of_spec _ _ (in_map fst _ _ U2)). pose proof (qmin_of_spec _ _ (in_map snd _ _ U3)). pose proof (qmax_of_spec _ _ (in_map snd _ _ U4)). repeat split; try lia; lra.
  - intros ((A & A1 & A2) & (B & B1 & B2)). split; [lia|]. split; [exists t1; split; [exact I1|lra]|]. split; [exists t2; split; [exact I2|lra]|]. split; [exists t3; split; [exact I3|lra]|exists t4; split; [exact I4|lra]].
Qed.
(** The points of the window by number. *)
Lemma window_point g g' r0 c0 ts k : window_of g g' r0 c0 ts -> (0 <= k < g_ny g' * g_nx g')%Z ->
  (0 <= k / g_nx g' < g_ny g')%Z /\ (0 <= k mod g_nx g' < g_nx g')%Z /\ a_source g (row_of g' r0 k) (col_of g' c0 k) /\ in_lat g' k == lat_at g (row_of g' r0 k) /\ in_lon g' k == lon_at g (col_of g' c0 k) /\ flat_index g' k = Ok k.
Proof.
  intros W B. destruct (wo_rows _ _ _ _ _ W) as (R1 & R2 & R3). destruct (wo_cols _ _ _ _ _ W) as (C1 & C2 & C3).
  assert (P1 : (0 <= k / g_nx g' < g_ny g')%Z) by (split; [apply Z.div_pos; lia|apply Z.div_lt_upper_bound; lia]). pose proof (Z.mod_pos_bound k (g_nx g') ltac:(lia)) as P2.
  split; [exact P1|]. split; [exact P2|]. unfold row_of, col_of, in_lat, in_lon, a_source. split; [lia|]. split; [apply (wo_lat _ _ _ _ _ W)|]. split; [apply (wo_lon _ _ _ _ _ W)|].
  unfold flat_index. destruct ((0 <=? k)%Z) eqn:E1; [|lia]. destruct ((k <? g_ny g' * g_nx g')%Z) eqn:E2; [reflexivity|lia].
Qed.
Lemma window_number g g' r0 c0 ts i j : window_of g g' r0 c0 ts -> (r0 <= i < r0 + g_ny g' /\ c0 <= j < c0 + g_nx g')%Z -> exists k, (0 <= k < g_ny g' * g_nx g')%Z /\ row_of g' r0 k = i /\ col_of g' c0 k = j.
Proof.
  intros W [A B]. exists ((i - r0) * g_nx g' + (j - c0))%Z. destruct (flat_cell g' (i - r0) (j - c0) ltac:(lia) ltac:(lia)) as (_ & D & M). unfold row_of, col_of. rewrite D, M. split; [nia|lia].
Qed.

(** ** Weights *)
Ltac pair_inj H := apply Ok_inj in H; match type of H with _ = (?k, ?w) => let H1 := fresh in let H2 := fresh in pose proof (f_equal fst H) as H1; pose proof (f_equal snd H) as H2; cbn [fst snd] in H1, H2; clear H; subst k w end.
Section Weights.
Context (metric : target -> target -> Q) (near : sgrid -> nat -> target -> found) (Hnear : nearest_search metric near).
Context (pw : Q -> Q) (Hpw : forall x, 0 < x -> 0 < pw x).
Context (g : sgrid) (ts : list target) (g' : sgrid) (r0 c0 : Z) (W : window_of g g' r0 c0 ts) (Dy : 0 < g_dlat g) (Dx : 0 < g_dlon g).
Lemma near_ok n t : (forall e, In e (near g' n t) -> (0 <= snd e < g_ny g' * g_nx g')%Z /\ fst e == metric t (in_lat g' (snd e), in_lon g' (snd e)) /\ 0 <= fst e) /\ NoDup (map snd (near g' n t)) /\
  (forall l1 e l2 e' l3, near g' n t = l1 ++ e :: l2 ++ e' :: l3 -> fst e <= fst e') /\ (length (near g' n t) <= n)%nat /\
  (forall k, (0 <= k < g_ny g' * g_nx g')%Z -> In k (map snd (near g' n t)) \/ (length (near g' n t) = n /\ forall e, In e (near g' n t) -> fst e <= metric t (in_lat g' k, in_lon g' k))).
Proof.
  destruct Hnear as (_ & Pos & H). destruct (wo_rows _ _ _ _ _ W) as (_ & R & _). destruct (wo_cols _ _ _ _ _ W) as (_ & C & _). destruct (H g' n t R C) as (A & B). split; [|exact B].
  intros e He. destruct (A e He) as [A1 A2]. split; [exact A1|]. split; [exact A2|]. rewrite A2. apply Pos.
Qed.
Definition fine (land : Z -> bool) (own : bool) (ks : list Z) (ws : list Q) : Prop :=
  length ks = length ws /\ (forall k, In k ks -> (0 <= k < g_ny g' * g_nx g')%Z) /\ (forall w, In w ws -> - (1 # 100000000) < w) /\ qsum ws == 1 /\ (forall p, In p (combine ks ws) -> land (fst p) = own \/ snd p == 0).
Lemma normalised_sum ws : (forall w, In w ws -> 0 <= w) -> (exists w, In w ws /\ 0 < w) -> 0 < qsum ws /\ qsum (normalised ws) == 1 /\ forall w, In w (normalised ws) -> 0 <= w.
Proof.
  intros P E. assert (S0 : 0 < qsum ws) by (apply qsum_pos_in; [now apply Forall_forall|exact E]). split; [exact S0|]. unfold normalised. split.
  - rewrite qsum_map_mul. field. lra.
  - intros w H. apply in_map_iff in H as (x & <- & Ix). apply Qmult_le_0_compat; [now apply P|]. apply Qle_shift_div_l; lra.
Qed.
Lemma idw_raw_pos use d : 0 <= d -> 0 <= idw_raw pw use d /\ (use = true -> 0 < idw_raw pw use d).
Proof.
  intro D. assert (P : 0 < pw (1 / (d + eps32))) by (apply Hpw, Qlt_shift_div_l; unfold eps32; lra). unfold idw_raw. destruct use; (split; [lra|]); [intros _; exact P|discriminate].
Qed.
Lemma in_combine_app {A B} (a b : list A) (c d : list B) p : length a = length c -> In p (combine (a ++ b) (c ++ d)) -> In p (combine a c) \/ In p (combine b d).
Proof. revert c. induction a as [|x a IH]; intros [|y c] L H; cbn [length] in L; try lia; [now right|]. cbn [app combine] in H. destruct H as [<-|H]; [left; now left|]. destruct (IH c ltac:(lia) H); [left; now right|now right]. Qed.
Lemma in_combine_maps {A B C} (f : A -> B) (h : A -> C) l p : In p (combine (map f l) (map h l)) -> exists a, In a l /\ p = (f a, h a).
Proof. induction l as [|x l IH]; intro H; [destruct H|]. cbn [map combine] in H. destruct H as [<-|H]; [exists x; split; [now left|reflexivity]|]. destruct (IH H) as (a & Ia & E). exists a. split; [now right|exact E]. Qed.
Lemma same_type_iff land own k : same_type land own k = true <-> land k = own.
Proof. unfold same_type. apply eqb_true_iff. Qed.
Lemma corners_valid i j t : in_cell g' i j t -> forall k, In k (quad_list (cell_quad g' i j)) -> (0 <= k < g_ny g' * g_nx g')%Z.
Proof. intros (B & _) k. rewrite cell_quad_eq. unfold quad_list. cbn [In]. intros [<-|[<-|[<-|[<-|[]]]]]; nia. Qed.
Lemma lake_spec land own vic i j t ks ws : in_cell g' i j t -> lake_island pw g' land own vic (near g' 8 t) (cell_quad g' i j) t = Ok (ks, ws) ->
  fine land own ks ws \/ ((forall e, In e (near g' 8 t) -> land (snd e) = own -> vic < fst e) /\ exists w, basic_weights g' (cell_quad g' i j) t = Ok w /\ ks = quad_list (cell_quad g' i j) /\ ws = four_list w).
Proof.
  intros Ic H. destruct (near_ok 8 t) as (Nok & _). unfold lake_island in H. set (good := filter _ _) in H.
  assert (Gd : forall e, In e good <-> In e (near g' 8 t) /\ land (snd e) = own /\ fst e <= vic) by (intro e; unfold good; rewrite filter_In, andb_true_iff, same_type_iff, Qleb_le; reflexivity).
  destruct good as [|e0 gl] eqn:Eg; [right|left].
  - destruct (basic_weights g' (cell_quad g' i j) t) as [w|] eqn:Ew; [|discriminate]. cbn [bind] in H. pair_inj H. split; [|exists w; auto]. intros e He Hl. destruct (Qlt_le_dec vic (fst e)) as [L|L]; [exact L|]. exfalso. apply (proj2 (Gd e)). auto.
  - rewrite <- Eg in *. clearbody good. set (used := firstn 4 good) in *. pair_inj H.
    assert (Us : forall e, In e used -> In e good) by (intros e He; unfold used in He; rewrite <- (firstn_skipn 4 good); apply in_or_app; now left).
    assert (Lu : (length used <= 4)%nat) by (unfold used; rewrite firstn_length; lia). assert (I0 : In e0 used) by (unfold used; rewrite Eg; now left).
    set (raw := map (fun e => idw_raw pw true (fst e)) used ++ repeat 0 (4 - length used)).
    assert (Rp : forall w, In w raw -> 0 <= w).
    { intros w Hw. apply in_app_or in Hw as [Hw|Hw]; [|apply repeat_spec in Hw; subst; lra]. apply in_map_iff in Hw as (e & <- & He). apply idw_raw_pos. apply Nok. apply Gd. now apply Us. }
    assert (Re : exists w, In w raw /\ 0 < w).
    { exists (idw_raw pw true (fst e0)). split; [apply in_or_app; left; apply in_map_iff; eauto|]. apply idw_raw_pos; [|reflexivity]. apply Nok, Gd, Us, I0. }
    destruct (normalised_sum raw Rp Re) as (S0 & S1 & S2). unfold fine. split; [|split; [|split; [|split]]].
    + unfold normalised, raw. rewrite map_length, !app_length, !map_length, repeat_length, skipn_length. rewrite cell_quad_eq. cbn [quad_list length]. lia.
    + intros k Hk. apply in_app_or in Hk as [Hk|Hk]; [apply in_map_iff in Hk as (e & <- & He); apply Nok, Gd, Us, He|]. apply (corners_valid i j t Ic). rewrite <- (firstn_skipn (length used) (quad_list _)). apply in_or_app. now right.
    + intros w Hw. specialize (S2 w Hw). lra.
    + exact S1.
    + intros p Hp. unfold normalised in Hp. set (f := fun w => w * (1 / qsum raw)) in Hp. unfold raw in Hp. rewrite map_app, map_map in Hp. apply in_combine_app in Hp as [Hp|Hp]; [| |now rewrite !map_length].
      * apply in_combine_maps in Hp as (e & He & ->). left. apply Gd. now apply Us.
      * right. destruct p as [k w]. apply in_combine_r in Hp. apply in_map_iff in Hp as (x & <- & Hx). apply repeat_spec in Hx. subst. cbn [snd]. unfold f. ring.
Qed.
Lemma idw_spec land own vic i j t ks ws : in_cell g' i j t -> idw_or_lake pw g' land own vic (near g' 4 t) (near g' 8 t) (cell_quad g' i j) t = Ok (ks, ws) ->
  fine land own ks ws \/ ((forall e, In e (near g' 8 t) -> land (snd e) = own -> vic < fst e) /\ exists w, basic_weights g' (cell_quad g' i j) t = Ok w /\ ks = quad_list (cell_quad g' i j) /\ ws = four_list w).
Proof.
  intros Ic H. destruct (near_ok 4 t) as (Nok & _). unfold idw_or_lake in H. destruct (existsb (fun e => same_type land own (snd e)) (near g' 4 t)) eqn:Ex; [|now apply lake_spec]. left. apply existsb_exists in Ex as (e0 & I0 & T0). pair_inj H.
  set (raw := map (fun e => idw_raw pw (same_type land own (snd e)) (fst e)) (near g' 4 t)).
  assert (Rp : forall w, In w raw -> 0 <= w) by (intros w Hw; apply in_map_iff in Hw as (e & <- & He); apply idw_raw_pos; now apply Nok).
  assert (Re : exists w, In w raw /\ 0 < w) by (exists (idw_raw pw (same_type land own (snd e0)) (fst e0)); split; [apply in_map_iff; eauto|]; apply idw_raw_pos; [now apply Nok|exact T0]).
  destruct (normalised_sum raw Rp Re) as (S0 & S1 & S2). unfold fine. split; [|split; [|split; [|split]]].
  - unfold normalised, raw. now rewrite !map_length.
  - intros k Hk. apply in_map_iff in Hk as (e & <- & He). now apply Nok.
  - intros w Hw. specialize (S2 w Hw). lra.
  - exact S1.
  - intros p Hp. unfold normalised in Hp. set (f := fun w => w * (1 / qsum raw)) in Hp. unfold raw in Hp. rewrite map_map in Hp. apply in_combine_maps in Hp as (e & He & ->). cbn [fst snd]. destruct (same_type land own (snd e)) eqn:T; [left; now apply same_type_iff|right]. unfold f, idw_raw. ring.
Qed.
Lemma basic_fine land own i j t w : in_cell g' i j t -> basic_weights g' (cell_quad g' i j) t = Ok w -> (forall k, In k (quad_list (cell_quad g' i j)) -> land k = own) -> fine land own (quad_list (cell_quad g' i j)) (four_list w).
Proof.
  intros Ic E T. destruct (basic_weights_cell _ _ _ _ _ _ _ _ Dy Dx W Ic) as (w1 & w2 & w3 & w4 & Ew & W1 & W2 & W3 & W4). rewrite Ew in E. apply Ok_inj in E. subst w. pose proof (corners_valid i j t Ic) as V.
  assert (Ig : in_cell g (r0 + i) (c0 + j) t). { destruct Ic as (B & L & M). rewrite !(wo_lat _ _ _ _ _ W) in L. rewrite !(wo_lon _ _ _ _ _ W) in M. rewrite Z.add_assoc in L, M. destruct (wo_rows _ _ _ _ _ W) as (? & ? & ?). destruct (wo_cols _ _ _ _ _ W) as (? & ? & ?). split; [lia|]. split; assumption. }
  destruct (up_range g _ _ t Dy Dx Ig) as [U A]. set (u := up g (r0 + i) t) in *. set (a := along g (c0 + j) t) in *.
  assert (X : 0 <= w1 /\ 0 <= w2 /\ 0 <= w3 /\ 0 <= w4) by (rewrite W1, W2, W3, W4; repeat split; apply Qmult_le_0_compat; lra).
  unfold fine. split; [|split; [exact V|split; [|split]]].
  - rewrite cell_quad_eq. reflexivity.
  - cbn [four_list In]. intros x Hx. destruct Hx as [<-|[<-|[<-|[<-|[]]]]]; lra.
  - cbn [four_list qsum fold_right]. rewrite W1, W2, W3, W4. ring.
  - intros [k x] Hp. left. apply in_combine_l in Hp. now apply T.
Qed.
Lemma triangle_fine land own i j t n w : in_cell g' i j t -> triangle g' n (cell_quad g' i j) t = Ok w -> (n < 4)%nat -> forallb (fun x => - (1 # 100000000) <? x) (four_list w) = true ->
  (forall m, (m < 4)%nat -> m <> n -> land (nth m (quad_list (cell_quad g' i j)) 0%Z) = own) -> fine land own (quad_list (cell_quad g' i j)) (four_list w).
Proof.
  intros Ic E Hn F T. pose proof (corners_valid i j t Ic) as V. destruct (cell_rows _ _ _ _ _ _ _ _ W Ic i j ltac:(auto) ltac:(auto)) as (Fi & _). rewrite forallb_forall in F. rewrite cell_quad_eq in *. unfold triangle in E. rewrite Fi in E. cbn [bind] in E. apply Ok_inj in E.
  unfold fine. split; [destruct w as [[[? ?] ?] ?]; reflexivity|]. split; [exact V|]. split; [intros x Hx; apply Qltb_lt; now apply F|]. cbn [quad_list] in *.
  destruct n as [|[|[|[|n]]]]; [| | | |lia]; cbv zeta in E; (split; [subst w; cbn [four_list qsum fold_right]; ring|]); subst w; cbn [four_list combine]; intros p [<-|[<-|[<-|[<-|[]]]]]; cbn [fst snd];
    first [right; reflexivity|left; first [apply (T 0%nat); [lia|congruence]|apply (T 1%nat); [lia|congruence]|apply (T 2%nat); [lia|congruence]|apply (T 3%nat); [lia|congruence]]].
Qed.
Lemma masked_weights_spec land own vic i j t ks ws : in_cell g' i j t -> masked_weights pw g' land own vic (near g') (cell_quad g' i j) t = Ok (ks, ws) ->
  fine land own ks ws \/ ((forall e, In e (near g' 8 t) -> land (snd e) = own -> vic < fst e) /\ exists w, basic_weights g' (cell_quad g' i j) t = Ok w /\ ks = quad_list (cell_quad g' i j) /\ ws = four_list w).
Proof.
  intros Ic H. unfold masked_weights in H.
  assert (Ty : mapM (fun k => let* i := flat_index g' k in Ok (same_type land own i)) (quad_list (cell_quad g' i j)) = Ok (map (same_type land own) (quad_list (cell_quad g' i j)))).
  { pose proof (corners_valid i j t Ic) as V. clear H. induction (quad_list (cell_quad g' i j)) as [|k l IH]; [reflexivity|]. cbn [mapM map]. destruct (window_point _ _ _ _ _ k W (V k (or_introl eq_refl))) as (_ & _ & _ & _ & _ & F). rewrite F. cbn [bind]. rewrite IH by (intros; apply V; now right). reflexivity. }
  rewrite Ty in H. cbn [bind] in H. destruct (cell_quad g' i j) as [[[a b] c] d] eqn:Eq. change (map (same_type land own) (quad_list (a, b, c, d))) with [same_type land own a; same_type land own b; same_type land own c; same_type land own d] in H.
  assert (Corner : forall w, triangle g' (first_false 0 [same_type land own a; same_type land own b; same_type land own c; same_type land own d]) (a, b, c, d) t = Ok w -> forall n, first_false 0 [same_type land own a; same_type land own b; same_type land own c; same_type land own d] = n -> (n < 4)%nat -> (forall m, (m < 4)%nat -> m <> n -> nth m [same_type land own a; same_type land own b; same_type land own c; same_type land own d] true = true) -> forallb (fun x => - (1 # 100000000) <? x) (four_list w) = true -> fine land own (quad_list (a, b, c, d)) (four_list w)).
  { intros w Ew n En Hn T F. rewrite En in Ew. rewrite <- Eq in *. apply (triangle_fine land own i j t n w Ic Ew Hn F). intros m Hm Hd. specialize (T m Hm Hd). rewrite Eq. cbn [quad_list]. destruct m as [|[|[|[|m]]]]; [| | | |lia]; cbn [nth] in *; now apply same_type_iff. }
  destruct (same_type land own a) eqn:Ta, (same_type land own b) eqn:Tb, (same_type land own c) eqn:Tc, (same_type land own d) eqn:Td; cbn [count_true filter length first_false] in H, Corner;
  match type of H with
  | (let* w := basic_weights g' _ t in _) = _ =>
      destruct (basic_weights g' (a, b, c, d) t) as [w|] eqn:Ew; [|discriminate]; cbn [bind] in H; pair_inj H; left; rewrite <- Eq in *; apply (basic_fine land own i j t w Ic Ew); rewrite Eq; intros k [<-|[<-|[<-|[<-|[]]]]]; now apply same_type_iff
  | (let* w := triangle g' ?n _ t in _) = _ =>
      destruct (triangle g' n (a, b, c, d) t) as [w|] eqn:Ew; [|discriminate]; cbn [bind] in H; destruct (forallb (fun x => - (1 # 100000000) <? x) (four_list w)) eqn:F;
      [pair_inj H; left; apply (Corner w eq_refl n eq_refl); [lia| |exact F]; intros m Hm Hd; destruct m as [|[|[|[|m]]]]; try lia; try congruence; reflexivity
      |rewrite <- Eq in *; now apply idw_spec]
  | _ => rewrite <- Eq in *; first [now apply idw_spec|now apply lake_spec]
  end.
Qed.
End Weights.
Lemma weighted_mixed ws vs : length ws = length vs -> mixed ws vs (weighted_sum ws vs).
Proof.
  unfold weighted_sum, mixed. revert vs. induction ws as [|w ws IH]; intros [|v vs] L; cbn [length] in L; try lia.
  - right. exists [], 0. cbn. split; [reflexivity|]. split; [reflexivity|]. reflexivity.
  - cbn [combine fold_right fst snd]. destruct v as [v|]; [|left; split; [now left|reflexivity]]. destruct (IH vs ltac:(lia)) as [[I0 ->]|(qs & x & -> & -> & E)]; [left; split; [now right|reflexivity]|].
    right. exists (v :: qs), (w * v + x). split; [reflexivity|]. split; [reflexivity|]. cbn [combine map qsum fold_right fst snd]. change (fold_right Qplus 0) with qsum. rewrite E. reflexivity.
Qed.
Lemma values_window g g' r0 c0 ts data ks vs : window_of g g' r0 c0 ts -> (forall k, In k ks -> (0 <= k < g_ny g' * g_nx g')%Z) ->
  values_at g' (fun k => data (row_of g' r0 k) (col_of g' c0 k)) ks = Ok vs -> vs = map (fun s => data (fst s) (snd s)) (map (fun k => (row_of g' r0 k, col_of g' c0 k)) ks).
Proof.
  intros W V H. unfold values_at in H. revert vs H. induction ks as [|k ks IH]; intros vs H; cbn [mapM] in H; [apply Ok_inj in H; now subst|].
  destruct (window_point _ _ _ _ _ k W (V k (or_introl eq_refl))) as (_ & _ & _ & _ & _ & F). rewrite F in H. cbn [bind] in H. destruct (mapM _ ks) as [r|] eqn:M; [|discriminate]. cbn [bind] in H. apply Ok_inj in H. subst vs. cbn [map]. rewrite <- (IH (fun k H => V k (or_intror H)) r eq_refl). reflexivity.
Qed.
Lemma nothing_in_eight metric near g ts g' r0 c0 (land : Z -> Z -> bool) own vic t : nearest_search metric near -> window_of g g' r0 c0 ts -> 0 < g_dlat g -> 0 < g_dlon g -> slice_grid g ts = Ok (g', r0, c0) ->
  (forall e, In e (near g' 8%nat t) -> land (row_of g' r0 (snd e)) (col_of g' c0 (snd e)) = own -> vic < fst e) -> nothing_near metric g ts land own vic t.
Proof.
  intros Hn W Dy Dx S0 H i j Su Hl. apply (slice_surroundings _ _ _ _ _ Dy Dx S0) in Su. destruct (window_number _ _ _ _ _ i j W Su) as (k & Bk & Ri & Cj). destruct (near_ok metric near Hn g ts g' r0 c0 W 8 t) as (Nok & Nd & _ & _ & Co).
  destruct Hn as (Cm & _ & _).
  assert (Aw : forall k, (0 <= k < g_ny g' * g_nx g')%Z -> metric t (in_lat g' k, in_lon g' k) == away metric g t (row_of g' r0 k, col_of g' c0 k)).
  { intros k' B'. destruct (window_point _ _ _ _ _ k' W B') as (_ & _ & _ & La & Lo & _). unfold away. cbn [fst snd]. apply Cm. split; [exact La|exact Lo]. }
  destruct (Co k Bk) as [I0|[L0 A0]].
  - apply in_map_iff in I0 as (e & <- & Ie). destruct (Nok e Ie) as (_ & Ee & _). left. specialize (H e Ie). rewrite Ri, Cj in H. specialize (H Hl). rewrite Ee, (Aw _ Bk), Ri, Cj in H. exact H.
  - right. exists (map (fun e => (row_of g' r0 (snd e), col_of g' c0 (snd e))) (near g' 8%nat t)). split; [|split].
    + revert Nd Nok. generalize (near g' 8%nat t). intros l Nd Nok. induction l as [|e l IH]; [constructor|]. cbn [map] in *. inversion Nd as [|? ? N1 N2]; subst. constructor; [|apply IH; [exact N2|intros; apply Nok; now right]].
      intro X. apply in_map_iff in X as (e' & E & Ie'). apply N1. apply in_map_iff. exists e'. split; [|exact Ie']. destruct (Nok e (or_introl eq_refl)) as (B1 & _). destruct (Nok e' (or_intror Ie')) as (B2 & _).
      injection E as E1 E2. unfold row_of, col_of in E1, E2. destruct (wo_cols _ _ _ _ _ W) as (_ & C2 & _). rewrite (Z.div_mod (snd e) (g_nx g')), (Z.div_mod (snd e') (g_nx g')) by lia. lia.
    + now rewrite map_length.
    + intros p Hp. apply in_map_iff in Hp as (e & <- & Ie). cbn [fst snd]. destruct (Nok e Ie) as (Be & Ee & _). destruct (window_point _ _ _ _ _ _ W Be) as (_ & _ & As & _). split; [exact As|]. specialize (A0 e Ie). rewrite Ee, (Aw _ Be), (Aw _ Bk), Ri, Cj in A0. exact A0.
Qed.
(** C68: in bilinear regridding with masks the value at a covered target is a weighted sum of source points, with weights above -1e-8 that add up to one and depend on the places and types but not on the values. Every source point with a weight is of the type of the target, unless no source point of this type is within the vicinity among the eight nearest; then the plain bilinear weights of its cell are used. Targets that are not covered are missing. *)
Theorem C68_weights metric ms g data0 ts out0 : nearest_search metric (m_near ms) -> (forall x, 0 < x -> 0 < m_pw ms x) -> well_posed g ts -> length (m_own ms) = length ts -> regrid BilinearMode (Some ms) g data0 ts = Ok out0 ->
  forall k, (k < length ts)%nat -> let t := nth k ts (0, 0) in let own := nth k (m_own ms) true in
  (covered g t -> exists ss ws, length ss = length ws /\ (forall s, In s ss -> a_source g (fst s) (snd s)) /\ (forall w, In w ws -> - (1 # 100000000) < w) /\ qsum ws == 1 /\
     ((forall s w, In (s, w) (combine ss ws) -> m_land ms (fst s) (snd s) = own \/ w == 0) \/
      (nothing_near metric g ts (m_land ms) own (m_vicinity ms) t /\ exists i j, home_cell g i j t /\ ss = [(i, j); (i + 1, j); (i + 1, j + 1); (i, j + 1)]%Z /\
         Forall2 Qeq ws [(1 - up g i t) * (1 - along g j t); up g i t * (1 - along g j t); up g i t * along g j t; (1 - up g i t) * along g j t])) /\
     (forall data out, regrid BilinearMode (Some ms) g data ts = Ok out -> mixed ws (map (fun s => data (fst s) (snd s)) ss) (nth k out None))) /\
  (~ covered g t -> forall data out, regrid BilinearMode (Some ms) g data ts = Ok out -> nth k out None = None).
Proof.
  intros Hn Hp Wp Lo H0 k Hk t own. pose proof Wp as (Ny & Nx & Dy & Dx & _). split; intro C.
  - pose proof H0 as H1. apply regrid_at in H1 as (L & g' & r0 & c0 & S0 & W & H); [|exact Lo|exact Wp]. destruct (H k Hk) as [H1 _]. fold t in H1. destruct (H1 C) as (i & j & Hc & Ic & V). cbn [point_value own_list] in V. fold own in V.
    set (land := fun i0 : Z => m_land ms (row_of g' r0 i0) (col_of g' c0 i0)) in V. destruct (masked_weights (m_pw ms) g' land own (m_vicinity ms) (m_near ms g') (cell_quad g' i j) t) as [[ks ws]|] eqn:Em; [|discriminate].
    pose proof (masked_weights_spec metric (m_near ms) Hn (m_pw ms) Hp g ts g' r0 c0 W Dy Dx land own (m_vicinity ms) i j t ks ws Ic Em) as Sp.
    assert (Gen : length ks = length ws -> (forall k, In k ks -> (0 <= k < g_ny g' * g_nx g')%Z) -> forall data out, regrid BilinearMode (Some ms) g data ts = Ok out -> mixed ws (map (fun s => data (fst s) (snd s)) (map (fun k => (row_of g' r0 k, col_of g' c0 k)) ks)) (nth k out None)).
    { intros Lk Vk data out Hd. apply regrid_at in Hd as (_ & g2 & r2 & c2 & S2 & _ & Hd); [|exact Lo|exact Wp]. rewrite S0 in S2. apply Ok_inj in S2. injection S2 as <- <- <-. destruct (Hd k Hk) as [Hd1 _]. fold t in Hd1. destruct (Hd1 C) as (i' & j' & Hc' & Ic' & V').
      destruct (home_unique _ _ _ _ _ _ Dy Dx Hc Hc') as [Ei Ej]. assert (i' = i) by lia. assert (j' = j) by lia. subst i' j'. cbn [point_value own_list] in V'. fold own in V'. fold land in V'. rewrite Em in V'. cbn [bind fst snd] in V'.
      destruct (values_at g' (fun i0 => data (row_of g' r0 i0) (col_of g' c0 i0)) ks) as [vs|] eqn:Ev; [|discriminate]. cbn [bind] in V'. apply Ok_inj in V'. rewrite <- V'. apply (values_window g g' r0 c0 ts) in Ev; [|exact W|exact Vk]. rewrite <- Ev. apply weighted_mixed. rewrite Ev, !map_length. congruence. }
    destruct Sp as [(Lk & Vk & Pw & Su & Ty)|(No & w & Ew & -> & ->)].
    + exists (map (fun k => (row_of g' r0 k, col_of g' c0 k)) ks), ws. split; [now rewrite map_length|]. split; [intros s Hs; apply in_map_iff in Hs as (x & <- & Ix); cbn [fst snd]; apply (window_point g g' r0 c0 ts x W (Vk x Ix))|]. split; [exact Pw|]. split; [exact Su|]. split; [left|now apply Gen].
      intros s w Hs. clear - Ty Hs. unfold land in Ty. revert ws Ty Hs. induction ks as [|x ks IH]; intros [|y ws] Ty Hs; try destruct Hs. { apply (f_equal fst) in H as E1. apply (f_equal snd) in H as E2. cbn [fst snd] in E1, E2. subst. apply (Ty (x, w)). now left. } apply (IH ws); [intros; apply Ty; now right|exact H].
    + pose proof (corners_valid g' i j t Ic) as Vk. destruct (basic_weights_cell _ _ _ _ _ _ _ _ Dy Dx W Ic) as (w1 & w2 & w3 & w4 & Ew' & W1 & W2 & W3 & W4). rewrite Ew' in Ew. apply Ok_inj in Ew. subst w.
      destruct (up_range g _ _ t Dy Dx (proj1 Hc)) as [U A]. set (u := up g (r0 + i) t) in *. set (a := along g (c0 + j) t) in *.
      assert (X : 0 <= w1 /\ 0 <= w2 /\ 0 <= w3 /\ 0 <= w4) by (rewrite W1, W2, W3, W4; repeat split; apply Qmult_le_0_compat; lra).
      exists (map (fun k => (row_of g' r0 k, col_of g' c0 k)) (quad_list (cell_quad g' i j))), (four_list (w1, w2, w3, w4)). split; [rewrite map_length, cell_quad_eq; reflexivity|].
      split; [intros s Hs; apply in_map_iff in Hs as (x & <- & Ix); cbn [fst snd]; apply (window_point g g' r0 c0 ts x W (Vk x Ix))|]. split; [cbn [four_list In]; intros x Hx; destruct Hx as [<-|[<-|[<-|[<-|[]]]]]; lra|]. split; [cbn [four_list qsum fold_right]; rewrite W1, W2, W3, W4; ring|]. split; [right|apply Gen; [rewrite cell_quad_eq; reflexivity|exact Vk]].
      split; [now apply (nothing_in_eight metric (m_near ms) g ts g' r0 c0)|]. exists (r0 + i)%Z, (c0 + j)%Z. split; [exact Hc|]. split; [|cbn [four_list]; repeat constructor; assumption].
      rewrite cell_quad_eq. unfold quad_list. cbn [map].
      destruct (cell_rows _ _ _ _ _ _ _ _ W Ic i j ltac:(auto) ltac:(auto)) as (_ & -> & -> & _). destruct (cell_rows _ _ _ _ _ _ _ _ W Ic (i + 1)%Z j ltac:(auto) ltac:(auto)) as (_ & -> & -> & _).
      destruct (cell_rows _ _ _ _ _ _ _ _ W Ic (i + 1)%Z (j + 1)%Z ltac:(auto) ltac:(auto)) as (_ & -> & -> & _). destruct (cell_rows _ _ _ _ _ _ _ _ W Ic i (j + 1)%Z ltac:(auto) ltac:(auto)) as (_ & -> & -> & _). now rewrite !Z.add_assoc.
  - intros data out Hd. apply regrid_at in Hd as (_ & g' & r0 & c0 & _ & _ & Hd); [|exact Lo|exact Wp]. now apply (Hd k Hk).
Qed.
Lemma mixed_const ws qs c : length ws = length qs -> (forall q, In q qs -> q == c) -> qsum (map (fun p => fst p * snd p) (combine ws qs)) == qsum ws * c.
Proof. revert qs. induction ws as [|w ws IH]; intros [|q qs] L H; cbn [length] in L; try lia; [cbn; ring|]. cbn [combine map qsum fold_right fst snd]. change (fold_right Qplus 0) with qsum. rewrite IH by (try lia; intros; apply H; now right). rewrite (H q (or_introl eq_refl)). ring. Qed.
Lemma mixed_own ws qs qs' : length ws = length qs -> length qs = length qs' -> (forall n, (n < length ws)%nat -> nth n qs 0 == nth n qs' 0 \/ nth n ws 0 == 0) -> qsum (map (fun p => fst p * snd p) (combine ws qs)) == qsum (map (fun p => fst p * snd p) (combine ws qs')).
Proof.
  revert qs qs'. induction ws as [|w ws IH]; intros [|q qs] [|q' qs'] L L' H; cbn [length] in L, L'; try lia; [reflexivity|]. cbn [combine map qsum fold_right fst snd]. change (fold_right Qplus 0) with qsum. rewrite (IH qs qs') by (try lia; intros n Hn; apply (H (S n)); cbn [length]; lia).
  destruct (H 0%nat) as [E|E]; [cbn [length]; lia| |]; cbn [nth] in E; rewrite E; ring.
Qed.
(** C68: a uniform field stays uniform. *)
Theorem C68_uniform metric ms g data ts out c k : nearest_search metric (m_near ms) -> (forall x, 0 < x -> 0 < m_pw ms x) -> well_posed g ts -> length (m_own ms) = length ts -> regrid BilinearMode (Some ms) g data ts = Ok out ->
  (forall i j, a_source g i j -> exists q, data i j = Some q /\ q == c) -> (k < length ts)%nat -> covered g (nth k ts (0, 0)) -> exists v, nth k out None = Some v /\ v == c.
Proof.
  intros Hn Hp Wp Lo H U Hk C. destruct (C68_weights metric ms g data ts out Hn Hp Wp Lo H k Hk) as [X _]. destruct (X C) as (ss & ws & L & As & _ & Su & _ & Mx). specialize (Mx data out H). destruct Mx as [[I0 _]|(qs & v & Eq & Ev & V)].
  - apply in_map_iff in I0 as (s & E & Is). destruct (U _ _ (As s Is)) as (q & Eq & _). congruence.
  - exists v. split; [exact Ev|]. rewrite V. assert (Lq : length ws = length qs) by (apply (f_equal (@length _)) in Eq; rewrite !map_length in Eq; lia). rewrite (mixed_const ws qs c Lq); [rewrite Su; ring|].
    intros q Hq. assert (I1 : In (Some q) (map (fun s => data (fst s) (snd s)) ss)) by (rewrite Eq; now apply in_map). apply in_map_iff in I1 as (s & E & Is). destruct (U _ _ (As s Is)) as (q' & Eq' & Hq'). assert (q = q') by congruence. now subst.
Qed.
(** C68: if some source point of the type of the target is near enough, then the value at the target does not depend on the values of source points of the other type, as long as none are missing. *)
Theorem C68_own_only metric ms g data data' ts out out' k : nearest_search metric (m_near ms) -> (forall x, 0 < x -> 0 < m_pw ms x) -> well_posed g ts -> length (m_own ms) = length ts ->
  regrid BilinearMode (Some ms) g data ts = Ok out -> regrid BilinearMode (Some ms) g data' ts = Ok out' -> (k < length ts)%nat -> let t := nth k ts (0, 0) in let own := nth k (m_own ms) true in
  ~ nothing_near metric g ts (m_land ms) own (m_vicinity ms) t ->
  (forall i j, a_source g i j -> exists q q', data i j = Some q /\ data' i j = Some q' /\ (m_land ms i j = own -> q == q')) -> same_value (nth k out None) (nth k out' None).
Proof.
  intros Hn Hp Wp Lo H H' Hk t own Ne U. destruct (C68_weights metric ms g data ts out Hn Hp Wp Lo H k Hk) as [X Y]. fold t own in X, Y. assert (Cd : covered g t \/ ~ covered g t).
  { unfold covered. destruct (Qlt_le_dec (fst t) (lat_at g 0)); [right; lra|]. destruct (Qlt_le_dec (lat_at g (g_ny g - 1)) (fst t)); [right; lra|]. destruct (Qlt_le_dec (snd t) (lon_at g 0)); [right; lra|]. destruct (Qlt_le_dec (lon_at g (g_nx g - 1)) (snd t)); [right; lra|left; lra]. }
  destruct Cd as [C|C]; [|rewrite (Y C _ _ H), (Y C _ _ H'); exact I]. destruct (X C) as (ss & ws & L & As & _ & _ & Ty & Mx). destruct Ty as [Ty|[Ty _]]; [|contradiction].
  pose proof (Mx data out H) as M1. pose proof (Mx data' out' H') as M2.
  destruct M1 as [[I0 _]|(qs & v & Eq & Ev & V)]; [apply in_map_iff in I0 as (s & E & Is); destruct (U _ _ (As s Is)) as (q & q' & E1 & _); congruence|].
  destruct M2 as [[I0 _]|(qs' & v' & Eq' & Ev' & V')]; [apply in_map_iff in I0 as (s & E & Is); destruct (U _ _ (As s Is)) as (q & q' & _ & E1 & _); congruence|].
  rewrite Ev, Ev'. cbn [same_value]. rewrite V, V'. assert (Lq : length ss = length qs) by (apply (f_equal (@length _)) in Eq; rewrite !map_length in Eq; lia). assert (Lq' : length ss = length qs') by (apply (f_equal (@length _)) in Eq'; rewrite !map_length in Eq'; lia).
  apply mixed_own; [lia|lia|]. intros n Hn0. set (s := nth n ss (0%Z, 0%Z)). assert (Is : In s ss) by (apply nth_In; lia). destruct (U _ _ (As s Is)) as (q & q' & E1 & E2 & E3).
  assert (Q1 : nth n qs 0 = q). { apply (f_equal (fun l => nth n l None)) in Eq. rewrite (nth_indep _ None (data (fst (0, 0)%Z) (snd (0, 0)%Z))) in Eq by (rewrite map_length; lia). rewrite (map_nth (fun s => data (fst s) (snd s))) in Eq. fold s in Eq. rewrite E1 in Eq. rewrite (nth_indep _ None (Some 0)) in Eq by (rewrite map_length; lia). rewrite map_nth in Eq. congruence. }
  assert (Q2 : nth n qs' 0 = q'). { apply (f_equal (fun l => nth n l None)) in Eq'. rewrite (nth_indep _ None (data' (fst (0, 0)%Z) (snd (0, 0)%Z))) in Eq' by (rewrite map_length; lia). rewrite (map_nth (fun s => data' (fst s) (snd s))) in Eq'. fold s in Eq'. rewrite E2 in Eq'. rewrite (nth_indep _ None (Some 0)) in Eq' by (rewrite map_length; lia). rewrite map_nth in Eq'. congruence. }
  rewrite Q1, Q2. destruct (Ty s (nth n ws 0)) as [T|T]; [|left; now apply E3|now right]. unfold s. rewrite <- combine_nth by exact L. apply nth_In. rewrite combine_length. lia.
Qed.
(** C68: if the four corners of the cell of a target are of its type, the result is plain bilinear interpolation. *)
Theorem C68_same_type ms g data ts out k i j : well_posed g ts -> length (m_own ms) = length ts -> regrid BilinearMode (Some ms) g data ts = Ok out -> (k < length ts)%nat -> let t := nth k ts (0, 0) in
  home_cell g i j t -> (forall a b, (a = i \/ a = i + 1)%Z -> (b = j \/ b = j + 1)%Z -> m_land ms a b = nth k (m_own ms) true) -> cell_value g data i j t (nth k out None).
Proof.
  intros Wp Lo H Hk t Hc T. pose proof Wp as (Ny & Nx & Dy & Dx & _). apply regrid_at in H as (L & g' & r0 & c0 & S0 & W & H); [|exact Lo|exact Wp]. destruct (H k Hk) as [H1 _]. fold t in H1.
  assert (C : covered g t). { destruct Hc as ((B & [L1 L2] & [M1 M2]) & _). unfold covered. pose proof (proj2 (lat_mono g 0 i Dy) ltac:(lia)). pose proof (proj2 (lat_mono g (i + 1) (g_ny g - 1) Dy) ltac:(lia)). pose proof (proj2 (lon_mono g 0 j Dx) ltac:(lia)). pose proof (proj2 (lon_mono g (j + 1) (g_nx g - 1) Dx) ltac:(lia)). lra. }
  destruct (H1 C) as (a & b & Hc' & Ic & V). destruct (home_unique _ _ _ _ _ _ Dy Dx Hc Hc') as [-> ->]. cbn [point_value own_list] in V. set (own := nth k (m_own ms) true) in *.
  destruct (basic_weights_cell _ _ _ _ _ _ _ _ Dy Dx W Ic) as (w1 & w2 & w3 & w4 & Ew & W1 & W2 & W3 & W4).
  destruct (cell_rows _ _ _ _ _ _ _ _ W Ic a b ltac:(auto) ltac:(auto)) as (F1 & R1 & C1 & _). destruct (cell_rows _ _ _ _ _ _ _ _ W Ic (a + 1)%Z b ltac:(auto) ltac:(auto)) as (F2 & R2 & C2 & _).
  destruct (cell_rows _ _ _ _ _ _ _ _ W Ic (a + 1)%Z (b + 1)%Z ltac:(auto) ltac:(auto)) as (F3 & R3 & C3 & _). destruct (cell_rows _ _ _ _ _ _ _ _ W Ic a (b + 1)%Z ltac:(auto) ltac:(auto)) as (F4 & R4 & C4 & _).
  set (land := fun i0 : Z => m_land ms (row_of g' r0 i0) (col_of g' c0 i0)) in V.
  assert (Em : masked_weights (m_pw ms) g' land own (m_vicinity ms) (m_near ms g') (cell_quad g' a b) t = Ok (quad_list (cell_quad g' a b), four_list (w1, w2, w3, w4))).
  { unfold masked_weights. rewrite Ew. rewrite cell_quad_eq. cbn [quad_list mapM]. rewrite F1, F2, F3, F4. cbn [bind]. unfold same_type, land. rewrite R1, C1, R2, C2, R3, C3, R4, C4. rewrite !T by lia. rewrite eqb_reflx. reflexivity. }
  rewrite Em in V. cbn [bind fst snd] in V. rewrite (values_cell _ _ _ _ _ _ _ _ data W Ic) in V. cbn [bind] in V. apply Ok_inj in V. rewrite <- V. unfold cell_value. unfold weighted_sum, four_list. cbn [combine fold_right fst snd].
  destruct (data (r0 + a)%Z (c0 + b)%Z) as [x|], (data (r0 + a + 1)%Z (c0 + b)%Z) as [y|], (data (r0 + a + 1)%Z (c0 + b + 1)%Z) as [z|], (data (r0 + a)%Z (c0 + b + 1)%Z) as [u|]; try reflexivity.
  eexists. split; [reflexivity|]. rewrite W1, W2, W3, W4. ring.
Qed.
(** C68: if one corner of the cell of a target is of the other type and the target is on the other side of the diagonal, then the result is on the plane through the three corners of its type: a field that is linear on these three is reproduced, whatever the value at the fourth. *)
Definition from_corner (side : bool) (share : Q) : Q := if side then 1 - share else share.
Theorem C68_triangle ms g data ts out k i j (si sj : bool) c p q : well_posed g ts -> length (m_own ms) = length ts -> regrid BilinearMode (Some ms) g data ts = Ok out -> (k < length ts)%nat -> let t := nth k ts (0, 0) in
  home_cell g i j t -> let i' := (if si then i + 1 else i)%Z in let j' := (if sj then j + 1 else j)%Z in
  (forall a b, (a = i \/ a = i + 1)%Z -> (b = j \/ b = j + 1)%Z -> (a, b) <> (i', j') -> m_land ms a b = nth k (m_own ms) true /\ exists x, data a b = Some x /\ x == c + p * inject_Z (a - i) + q * inject_Z (b - j)) ->
  m_land ms i' j' <> nth k (m_own ms) true -> data i' j' <> None -> 1 <= from_corner si (up g i t) + from_corner sj (along g j t) ->
  exists v, nth k out None = Some v /\ v == c + p * up g i t + q * along g j t.
Proof.
  intros Wp Lo H Hk t Hc i' j' T Tw Dw Fc. pose proof Wp as (Ny & Nx & Dy & Dx & _). apply regrid_at in H as (L & g' & r0 & c0 & S0 & W & H); [|exact Lo|exact Wp]. destruct (H k Hk) as [H1 _]. fold t in H1.
  assert (C : covered g t). { destruct Hc as ((B & [L1 L2] & [M1 M2]) & _). unfold covered. pose proof (proj2 (lat_mono g 0 i Dy) ltac:(lia)). pose proof (proj2 (lat_mono g (i + 1) (g_ny g - 1) Dy) ltac:(lia)). pose proof (proj2 (lon_mono g 0 j Dx) ltac:(lia)). pose proof (proj2 (lon_mono g (j + 1) (g_nx g - 1) Dx) ltac:(lia)). lra. }
  destruct (H1 C) as (a & b & Hc' & Ic & V). destruct (home_unique _ _ _ _ _ _ Dy Dx Hc Hc') as [-> ->]. cbn [point_value own_list] in V. set (own := nth k (m_own ms) true) in *.
  destruct (cell_rows _ _ _ _ _ _ _ _ W Ic a b ltac:(auto) ltac:(auto)) as (F1 & R1 & C1 & La & Ln). destruct (cell_rows _ _ _ _ _ _ _ _ W Ic (a + 1)%Z b ltac:(auto) ltac:(auto)) as (F2 & R2 & C2 & _).
  destruct (cell_rows _ _ _ _ _ _ _ _ W Ic (a + 1)%Z (b + 1)%Z ltac:(auto) ltac:(auto)) as (F3 & R3 & C3 & _). destruct (cell_rows _ _ _ _ _ _ _ _ W Ic a (b + 1)%Z ltac:(auto) ltac:(auto)) as (F4 & R4 & C4 & _).
  destruct (up_range g _ _ t Dy Dx (proj1 Hc)) as [U A].
  set (land := fun i0 : Z => m_land ms (row_of g' r0 i0) (col_of g' c0 i0)) in V. rewrite (cell_quad_eq g' a b) in V. unfold masked_weights in V. cbn [quad_list mapM] in V. rewrite F1, F2, F3, F4 in V. cbn [bind] in V.
  unfold same_type, land in V. rewrite R1, C1, R2, C2, R3, C3, R4, C4, !(Z.add_assoc r0 a 1), !(Z.add_assoc c0 b 1) in V.
  pose proof (values_cell _ _ _ _ _ _ _ _ data W Ic) as Vc. rewrite cell_quad_eq in Vc. cbn [quad_list] in Vc.
  unfold triangle in V. rewrite F1 in V. cbn [bind] in V.
  assert (X1 : g_dlat g' * (in_lon g' (a * g_nx g' + b) + g_dlon g' - snd t) / (g_dlat g' * g_dlon g') == 1 - along g (c0 + b) t) by (rewrite Ln, (wo_dlat _ _ _ _ _ W), (wo_dlon _ _ _ _ _ W); unfold along; field; lra).
  assert (X2 : g_dlat g' * (snd t - in_lon g' (a * g_nx g' + b)) / (g_dlat g' * g_dlon g') == along g (c0 + b) t) by (rewrite Ln, (wo_dlat _ _ _ _ _ W), (wo_dlon _ _ _ _ _ W); unfold along; field; lra).
  assert (X3 : (in_lat g' (a * g_nx g' + b) + g_dlat g' - fst t) * g_dlon g' / (g_dlat g' * g_dlon g') == 1 - up g (r0 + a) t) by (rewrite La, (wo_dlat _ _ _ _ _ W), (wo_dlon _ _ _ _ _ W); unfold up; field; lra).
  assert (X4 : (fst t - in_lat g' (a * g_nx g' + b)) * g_dlon g' / (g_dlat g' * g_dlon g') == up g (r0 + a) t) by (rewrite La, (wo_dlat _ _ _ _ _ W), (wo_dlon _ _ _ _ _ W); unfold up; field; lra).
  set (z1 := g_dlat g' * (in_lon g' (a * g_nx g' + b) + g_dlon g' - snd t) / (g_dlat g' * g_dlon g')) in *. set (z2 := g_dlat g' * (snd t - in_lon g' (a * g_nx g' + b)) / (g_dlat g' * g_dlon g')) in *.
  set (z3 := (in_lat g' (a * g_nx g' + b) + g_dlat g' - fst t) * g_dlon g' / (g_dlat g' * g_dlon g')) in *. set (z4 := (fst t - in_lat g' (a * g_nx g' + b)) * g_dlon g' / (g_dlat g' * g_dlon g')) in *.
  set (i0 := (r0 + a)%Z) in *. set (j0 := (c0 + b)%Z) in *. clearbody z1 z2 z3 z4. clear H H1 F1 F2 F3 F4 R1 R2 R3 R4 C1 C2 C3 C4.
  assert (E0 : forall z, inject_Z (z - z) == 0) by (intro z; replace (z - z)%Z with 0%Z by lia; reflexivity). assert (E1 : forall z, inject_Z (z + 1 - z) == 1) by (intro z; replace (z + 1 - z)%Z with 1%Z by lia; reflexivity).
  pose proof (E0 i0) as P1. pose proof (E0 j0) as P2. pose proof (E1 i0) as P3. pose proof (E1 j0) as P4.
  set (u := up g i0 t) in *. set (s := along g j0 t) in *.
  destruct si, sj; subst i' j'; cbn [from_corner] in Fc.
  all: match type of Dw with ?f ?x ?y <> None => destruct (f x y) as [d|] eqn:Dd; [clear Dw|congruence]end.
  all: match type of Tw with ?f ?x ?y <> ?o => assert (Lw : Bool.eqb (f x y) o = false) by (apply eqb_false_iff; exact Tw) end.
  all: rewrite Lw in V.
  1: destruct (T i0 j0 ltac:(lia) ltac:(lia) ltac:(intro E; injection E; lia)) as (M1 & x1 & G1 & V1). 1: destruct (T i0 (j0 + 1)%Z ltac:(lia) ltac:(lia) ltac:(intro E; injection E; lia)) as (M2 & x2 & G2 & V2). 1: destruct (T (i0 + 1)%Z j0 ltac:(lia) ltac:(lia) ltac:(intro E; injection E; lia)) as (M3 & x3 & G3 & V3).
  2: destruct (T i0 j0 ltac:(lia) ltac:(lia) ltac:(intro E; injection E; lia)) as (M1 & x1 & G1 & V1). 2: destruct (T i0 (j0 + 1)%Z ltac:(lia) ltac:(lia) ltac:(intro E; injection E; lia)) as (M2 & x2 & G2 & V2). 2: destruct (T (i0 + 1)%Z (j0 + 1)%Z ltac:(lia) ltac:(lia) ltac:(intro E; injection E; lia)) as (M3 & x3 & G3 & V3).
  3: destruct (T i0 j0 ltac:(lia) ltac:(lia) ltac:(intro E; injection E; lia)) as (M1 & x1 & G1 & V1). 3: destruct (T (i0 + 1)%Z (j0 + 1)%Z ltac:(lia) ltac:(lia) ltac:(intro E; injection E; lia)) as (M2 & x2 & G2 & V2). 3: destruct (T (i0 + 1)%Z j0 ltac:(lia) ltac:(lia) ltac:(intro E; injection E; lia)) as (M3 & x3 & G3 & V3).
  4: destruct (T (i0 + 1)%Z (j0 + 1)%Z ltac:(lia) ltac:(lia) ltac:(intro E; injection E; lia)) as (M1 & x1 & G1 & V1). 4: destruct (T i0 (j0 + 1)%Z ltac:(lia) ltac:(lia) ltac:(intro E; injection E; lia)) as (M2 & x2 & G2 & V2). 4: destruct (T (i0 + 1)%Z j0 ltac:(lia) ltac:(lia) ltac:(intro E; injection E; lia)) as (M3 & x3 & G3 & V3).
  all: rewrite M1, M2, M3, !eqb_reflx in V; cbn [count_true filter length first_false] in V.
  all: match type of V with context [if forallb ?f ?l then _ else _] => let b := constr:(forallb f l) in assert (Po : b = true) by (cbn [four_list forallb]; rewrite !andb_true_iff; repeat split; apply Qltb_lt; lra); rewrite Po in V end.
  all: cbn [bind fst snd quad_list] in V; rewrite Vc in V; cbn [bind] in V; apply Ok_inj in V; rewrite G1, G2, G3, ?Dd in V; cbn [weighted_sum four_list combine fold_right fst snd] in V; rewrite <- V; eexists; (split; [reflexivity|]); rewrite V1, V2, V3, ?X1, ?X2, ?X3, ?X4, ?P1, ?P2, ?P3, ?P4; ring.
Qed.
(** ** Nearest with mask *)
Lemma count_zero l : count_true l = 0%nat -> forall b, In b l -> b = false.
Proof. unfold count_true. induction l as [|x l IH]; intros H b Hb; [destruct Hb|]. cbn [filter] in H. destruct x; [discriminate|]. destruct Hb as [<-|Hb]; [reflexivity|now apply IH]. Qed.
Lemma count_pos l : count_true l <> 0%nat -> In true l.
Proof. unfold count_true. induction l as [|x l IH]; intro H; [cbn in H; lia|]. cbn [filter] in H. destruct x; [now left|right; now apply IH]. Qed.
Lemma count_all l n : length l = n -> (count_true l <? n)%nat = false -> forall b, In b l -> b = true.
Proof.
  intros <- H. apply Nat.ltb_ge in H. unfold count_true in H. induction l as [|x l IH]; intros b Hb; [destruct Hb|]. cbn [filter length] in H. destruct x; cbn [length] in H.
  - destruct Hb as [<-|Hb]; [reflexivity|]. apply IH; [lia|exact Hb].
  - exfalso. assert (X : forall l : list bool, (length (filter (fun b => b) l) <= length l)%nat) by (clear; induction l as [|[|] l IH]; cbn [filter length]; lia). specialize (X l). lia.
Qed.
(** C68: nearest-neighbour regridding with masks gives the value of one source point: if the corners of the cell are all of the type of the target, the closest of all source points in degrees; else the closest point of its type in the surroundings, if there is one that is near enough; else the closest point, whatever its type. *)
Theorem C68_nearest metric ms g data ts out k : nearest_search metric (m_near ms) -> well_posed g ts -> length (m_own ms) = length ts -> regrid NearestMode (Some ms) g data ts = Ok out -> (k < length ts)%nat ->
  let t := nth k ts (0, 0) in let own := nth k (m_own ms) true in
  (covered g t -> exists i j, a_source g i j /\ nth k out None = data i j /\
     ((m_land ms i j = own /\ (exists a b, home_cell g a b t /\ forall x y, (x = a \/ x = a + 1)%Z -> (y = b \/ y = b + 1)%Z -> m_land ms x y = own) /\ forall i' j', a_source g i' j' -> dist2 g t i j <= dist2 g t i' j') \/
      (m_land ms i j = own /\ forall i' j', surroundings g ts i' j' -> m_land ms i' j' = own -> away metric g t (i, j) <= away metric g t (i', j')) \/
      (nothing_near metric g ts (m_land ms) own (m_vicinity ms) t /\ forall i' j', surroundings g ts i' j' -> away metric g t (i, j) <= away metric g t (i', j')))) /\
  (~ covered g t -> nth k out None = None).
Proof.
  intros Hn Wp Lo H Hk t own. pose proof Wp as (Ny & Nx & Dy & Dx & _). apply regrid_at in H as (L & g' & r0 & c0 & S0 & W & H); [|exact Lo|exact Wp]. destruct (H k Hk) as [H1 H2]. fold t in H1, H2. split; [|exact H2]. intro C.
  destruct (H1 C) as (i & j & Hc & Ic & V). cbn [point_value own_list] in V. fold own in V. set (land := fun i0 : Z => m_land ms (row_of g' r0 i0) (col_of g' c0 i0)) in V.
  assert (Aw : forall k, (0 <= k < g_ny g' * g_nx g')%Z -> metric t (in_lat g' k, in_lon g' k) == away metric g t (row_of g' r0 k, col_of g' c0 k)).
  { intros k' B'. destruct (window_point _ _ _ _ _ k' W B') as (_ & _ & _ & La & Lo' & _). unfold away. cbn [fst snd]. destruct Hn as (Cm & _). apply Cm. split; [exact La|exact Lo']. }
  unfold masked_nearest in V. destruct (quad_distances g' (cell_quad g' i j) t) as [ds|] eqn:Ed; [|discriminate]. cbn [bind] in V. destruct (quad_distances_cell _ _ _ _ _ _ _ _ _ Dy Dx W Ic Ed) as (Ned & Only & All).
  destruct (near_ok metric (m_near ms) Hn g ts g' r0 c0 W 4 t) as (Nok4 & _ & _ & _ & Co4). destruct (near_ok metric (m_near ms) Hn g ts g' r0 c0 W 8 t) as (Nok8 & _ & So8 & _ & Co8).
  assert (Ld : length ds = 4%nat). { unfold quad_distances in Ed. apply mapM_forall2 in Ed. apply Forall2_len in Ed. rewrite cell_quad_eq in Ed. cbn [quad_list length] in Ed. lia. }
  assert (Ne4 : m_near ms g' 4 t <> []). { intro E. rewrite E in Co4. destruct (wo_rows _ _ _ _ _ W) as (_ & R & _). destruct (wo_cols _ _ _ _ _ W) as (_ & Cc & _). destruct (Co4 0%Z ltac:(nia)) as [[]|[X _]]. discriminate. }
  destruct (count_true (map (fun e => same_type land own (snd e)) ds) <? 4)%nat eqn:Ct.
  - set (ds4 := m_near ms g' 4%nat t) in *. cbv zeta in V. destruct (count_true (map (fun e => same_type land own (snd e)) ds4) =? 0)%nat eqn:Cz.
    + apply Nat.eqb_eq in Cz. assert (Z4 : forall e, In e ds4 -> land (snd e) <> own) by (intros e He X; pose proof (count_zero _ Cz (same_type land own (snd e)) (in_map (fun e => same_type land own (snd e)) _ _ He)) as Y; apply (proj2 (same_type_iff _ _ _)) in X; congruence).
      destruct (filter (fun e => (same_type land own (snd e) && (fst e <=? m_vicinity ms))%bool) (m_near ms g' 8 t)) as [|e l] eqn:Ef; cbn [bind] in V; apply Ok_inj in V.
      * destruct (pick_spec (map (fun e => (Some (fst e), snd e)) ds4)) as (d & Ip & Mp); [destruct ds4; [congruence|discriminate]|]. set (p := pick_nearest _) in *. apply in_map_iff in Ip as (e & E & Ie). injection E as Ed0 Ep.
        destruct (Nok4 e Ie) as (Be & Ee & _). destruct (window_point _ _ _ _ _ _ W Be) as (_ & _ & As & _). exists (row_of g' r0 (snd e)), (col_of g' c0 (snd e)). split; [exact As|]. split; [rewrite <- V, <- Ep; reflexivity|]. right. right. split.
        -- apply (nothing_in_eight metric (m_near ms) g ts g' r0 c0); auto. intros e' Ie' T'. destruct (Qlt_le_dec (m_vicinity ms) (fst e')) as [X|X]; [exact X|exfalso]. assert (F : In e' (filter (fun e => (same_type land own (snd e) && (fst e <=? m_vicinity ms))%bool) (m_near ms g' 8 t))) by (apply filter_In; split; [exact Ie'|]; apply andb_true_iff; split; [now apply same_type_iff|now apply Qleb_le]). rewrite Ef in F. destruct F.
        -- intros i' j' Su. apply (slice_surroundings _ _ _ _ _ Dy Dx S0) in Su. destruct (window_number _ _ _ _ _ i' j' W Su) as (q & Bq & Ri & Cj). rewrite <- Ri, <- Cj, <- (Aw _ Bq), <- (Aw _ Be), <- Ee. destruct (Co4 q Bq) as [I0|[_ A0]]; [|now apply A0].
           apply in_map_iff in I0 as (e' & <- & Ie'). destruct (Nok4 e' Ie') as (_ & Ee' & _). rewrite <- Ee'. specialize (Mp (Some (fst e'), snd e') (in_map (fun e : Q * Z => (Some (fst e), snd e)) _ _ Ie')). rewrite <- Ed0 in Mp. exact Mp.
      * assert (Fe : In e (e :: l)) by now left. rewrite <- Ef in Fe. apply filter_In in Fe as [Ie Fe]. apply andb_true_iff in Fe as [Te Le]. apply (proj1 (same_type_iff _ _ _)) in Te. apply Qleb_le in Le.
        destruct (Nok8 e Ie) as (Be & Ee & _). destruct (window_point _ _ _ _ _ _ W Be) as (_ & _ & As & _). exists (row_of g' r0 (snd e)), (col_of g' c0 (snd e)). split; [exact As|]. split; [now rewrite <- V|]. right. left. split; [exact Te|].
        intros i' j' Su Tq. apply (slice_surroundings _ _ _ _ _ Dy Dx S0) in Su. destruct (window_number _ _ _ _ _ i' j' W Su) as (q & Bq & Ri & Cj). rewrite <- Ri, <- Cj, <- (Aw _ Bq), <- (Aw _ Be), <- Ee. destruct (Co8 q Bq) as [I0|[_ A0]]; [|now apply A0].
        apply in_map_iff in I0 as (e' & <- & Ie'). destruct (Nok8 e' Ie') as (_ & Ee' & _). rewrite <- Ee'. destruct (Qlt_le_dec (m_vicinity ms) (fst e')) as [X|X]; [lra|].
        assert (F : In e' (e :: l)) by (rewrite <- Ef; apply filter_In; split; [exact Ie'|]; apply andb_true_iff; split; [apply same_type_iff; unfold land; now rewrite Ri, Cj|now apply Qleb_le]). destruct F as [->|F]; [lra|]. apply in_split in F as (l1 & l2 & F). rewrite F in Ef.
        apply (filter_split _ _ e e' [] l1 l2) in Ef as (m1 & m2 & m3 & Ef). apply (So8 _ _ _ _ _ Ef).
    + cbn [bind] in V. apply Ok_inj in V. apply Nat.eqb_neq in Cz. apply count_pos in Cz. apply in_map_iff in Cz as (e1 & T1 & I1).
      destruct (pick_spec (map (fun e => ((if same_type land own (snd e) then Some (fst e) else None), snd e)) ds4)) as (d & Ip & Mp); [destruct ds4; [congruence|discriminate]|]. set (p := pick_nearest _) in *. apply in_map_iff in Ip as (e & E & Ie). injection E as Ed0 Ep.
      assert (Te : same_type land own (snd e) = true). { destruct (same_type land own (snd e)); [reflexivity|exfalso]. specialize (Mp _ (in_map (fun e => ((if same_type land own (snd e) then Some (fst e) else None), snd e)) _ _ I1)). cbn [fst] in Mp. rewrite T1, <- Ed0 in Mp. exact Mp. }
      rewrite Te in Ed0. destruct (Nok4 e Ie) as (Be & Ee & _). destruct (window_point _ _ _ _ _ _ W Be) as (_ & _ & As & _). exists (row_of g' r0 (snd e)), (col_of g' c0 (snd e)). split; [exact As|]. split; [rewrite <- V, <- Ep; reflexivity|]. right. left. split; [now apply (proj1 (same_type_iff _ _ _)) in Te|].
      intros i' j' Su Tq. apply (slice_surroundings _ _ _ _ _ Dy Dx S0) in Su. destruct (window_number _ _ _ _ _ i' j' W Su) as (q & Bq & Ri & Cj). rewrite <- Ri, <- Cj, <- (Aw _ Bq), <- (Aw _ Be), <- Ee. destruct (Co4 q Bq) as [I0|[_ A0]]; [|now apply A0].
      apply in_map_iff in I0 as (e' & <- & Ie'). destruct (Nok4 e' Ie') as (_ & Ee' & _). rewrite <- Ee'. specialize (Mp _ (in_map (fun e => ((if same_type land own (snd e) then Some (fst e) else None), snd e)) _ _ Ie')). cbn [fst] in Mp. assert (Tq' : same_type land own (snd e') = true) by (apply same_type_iff; unfold land; now rewrite Ri, Cj). rewrite Tq', <- Ed0 in Mp. exact Mp.
  - assert (Al : forall e, In e ds -> same_type land own (snd e) = true). { intros e He. apply (count_all _ 4%nat) with (b := same_type land own (snd e)) in Ct; [exact Ct|now rewrite map_length|]. apply in_map_iff. eauto. }
    cbv zeta in V. destruct (count_true (map (fun e => same_type land own (snd e)) ds) =? 0)%nat eqn:Cz. { apply Nat.eqb_eq in Cz. destruct ds as [|e ds]; [congruence|]. exfalso. pose proof (count_zero _ Cz (same_type land own (snd e)) (or_introl eq_refl)) as X. rewrite (Al e (or_introl eq_refl)) in X. discriminate. }
    cbn [bind] in V. apply Ok_inj in V. destruct (pick_spec (map (fun e => ((if same_type land own (snd e) then Some (fst e) else None), snd e)) ds)) as (d & Ip & Mp); [destruct ds; [congruence|discriminate]|]. set (p := pick_nearest _) in *. apply in_map_iff in Ip as (e & E & Ie). injection E as Ed0 Ep. rewrite (Al e Ie) in Ed0.
    destruct (Only e Ie) as (a & b & Ha & Hb & Es & Efd). destruct (cell_rows _ _ _ _ _ _ _ _ W Ic a b Ha Hb) as (_ & Rr & Cc & _). exists (r0 + a)%Z, (c0 + b)%Z. pose proof Hc as Hh. destruct Hc as [Hc Ht]. pose proof Hc as (Bd & _). split; [unfold a_source; lia|]. split; [rewrite <- V, <- Ep, Es, Rr, Cc; reflexivity|]. left. split; [|split].
    + pose proof (Al e Ie) as T. apply (proj1 (same_type_iff _ _ _)) in T. unfold land in T. rewrite Es, Rr, Cc in T. exact T.
    + exists (r0 + i)%Z, (c0 + j)%Z. split; [exact Hh|]. intros x y Hx Hy. destruct (All (x - r0)%Z (y - c0)%Z) as (e' & Ie' & Es' & _); [lia|lia|]. pose proof (Al e' Ie') as T. apply (proj1 (same_type_iff _ _ _)) in T. unfold land in T. rewrite Es' in T. destruct (cell_rows _ _ _ _ _ _ _ _ W Ic (x - r0)%Z (y - c0)%Z) as (_ & Rr' & Cc' & _); [lia|lia|]. rewrite Rr', Cc' in T. replace (r0 + (x - r0))%Z with x in T by lia. replace (c0 + (y - c0))%Z with y in T by lia. exact T.
    + intros i' j' _. destruct (corner_nearest g _ _ t Dy Dx Hc i' j') as (x & y & Hx & Hy & Le). destruct (All (x - r0)%Z (y - c0)%Z) as (e' & Ie' & _ & Ef'); [lia|lia|]. replace (r0 + (x - r0))%Z with x in Ef' by lia. replace (c0 + (y - c0))%Z with y in Ef' by lia.
      specialize (Mp _ (in_map (fun e => ((if same_type land own (snd e) then Some (fst e) else None), snd e)) _ _ Ie')). cbn [fst] in Mp. rewrite (Al e' Ie'), <- Ed0 in Mp. cbn [ole fst] in Mp. lra.
Qed.
(** ** A search that meets the hypothesis, and examples *)
Fixpoint put (e : Q * Z) (l : found) : found := match l with [] => [e] | x :: r => if fst e <=? fst x then e :: l else x :: put e r end.
Definition by_distance (l : found) : found := fold_right put [] l.
Definition full_search (metric : target -> target -> Q) (g : sgrid) (n : nat) (t : target) : found :=
  firstn n (by_distance (map (fun k => (metric t (in_lat g k, in_lon g k), k)) (zseq (g_ny g * g_nx g)))).
Lemma put_perm e l : Permutation (put e l) (e :: l).
Proof. induction l as [|x l IH]; [reflexivity|]. cbn [put]. destruct (fst e <=? fst x); [reflexivity|]. rewrite IH. apply perm_swap. Qed.
Lemma by_distance_perm l : Permutation (by_distance l) l.
Proof. induction l as [|x l IH]; [reflexivity|]. cbn [by_distance fold_right]. fold (by_distance l). rewrite put_perm. now rewrite IH. Qed.
Definition nearer (a b : Q * Z) : Prop := fst a <= fst b.
Lemma put_sorted e l : StronglySorted nearer l -> StronglySorted nearer (put e l).
Proof.
  induction 1 as [|x l S0 IH F]; [repeat constructor|]. cbn [put]. destruct (fst e <=? fst x) eqn:E.
  - apply Qleb_le in E. constructor; [now constructor|]. constructor; [exact E|]. rewrite Forall_forall in *. intros y Hy. specialize (F y Hy). unfold nearer in *. lra.
  - assert (E' : fst x <= fst e). { destruct (Qlt_le_dec (fst e) (fst x)) as [L|L]; [|exact L]. assert (fst e <=? fst x = true) by (apply Qleb_le; lra). congruence. } constructor; [exact IH|]. rewrite Forall_forall in *. intros y Hy. apply (Permutation_in _ (put_perm e l)) in Hy. destruct Hy as [<-|Hy]; [exact E'|now apply F].
Qed.
Lemma by_distance_sorted l : StronglySorted nearer (by_distance l).
Proof. induction l as [|x l IH]; [constructor|]. cbn [by_distance fold_right]. now apply put_sorted. Qed.
Lemma sorted_split l1 l2 : StronglySorted nearer (l1 ++ l2) -> forall a b, In a l1 -> In b l2 -> fst a <= fst b.
Proof. induction l1 as [|x l1 IH]; intros H a b Ha Hb; [destruct Ha|]. cbn [app] in H. inversion H as [|? ? S0 F]; subst. destruct Ha as [<-|Ha]; [|now apply IH]. rewrite Forall_forall in F. apply F. apply in_or_app. now right. Qed.
Lemma zseq_in n k : In k (zseq n) <-> (0 <= k < n)%Z.
Proof. rewrite zseq_zs, zs_in. lia. Qed.
Lemma full_search_ok metric : (forall t p q, same_point p q -> metric t p == metric t q) -> (forall t p, 0 <= metric t p) -> nearest_search metric (full_search metric).
Proof.
  intros Cm Ps. split; [exact Cm|]. split; [exact Ps|]. intros g n t Ny Nx. unfold full_search. set (all := map (fun k => (metric t (in_lat g k, in_lon g k), k)) (zseq (g_ny g * g_nx g))). set (s := by_distance all).
  assert (Ps0 : Permutation s all) by apply by_distance_perm. assert (Ss : StronglySorted nearer s) by apply by_distance_sorted.
  assert (Sub : forall e, In e (firstn n s) -> In e s) by (intros e He; rewrite <- (firstn_skipn n s); apply in_or_app; now left).
  assert (Al : forall e, In e s -> (0 <= snd e < g_ny g * g_nx g)%Z /\ fst e = metric t (in_lat g (snd e), in_lon g (snd e))).
  { intros e He. apply (Permutation_in _ Ps0) in He. apply in_map_iff in He as (k & <- & Hk). cbn [fst snd]. split; [now apply zseq_in|reflexivity]. }
  split; [|split; [|split; [|split]]].
  - intros e He. destruct (Al e (Sub e He)) as [A B]. split; [exact A|]. rewrite B. reflexivity.
  - assert (N : NoDup (map snd s)). { apply (Permutation_NoDup (l := map snd all)); [apply Permutation_map; now symmetry|]. unfold all. rewrite map_map. cbn [snd]. rewrite map_id. rewrite zseq_zs. unfold zs. apply FinFun.Injective_map_NoDup; [intros x y E; lia|apply seq_NoDup]. }
    rewrite <- (firstn_skipn n s), map_app in N. clear - N. induction (map snd (firstn n s)) as [|x l IH]; [constructor|]. cbn [app] in N. inversion N as [|? ? N1 N2]; subst. constructor; [intro X; apply N1; apply in_or_app; now left|now apply IH].
  - intros l1 e l2 e' l3 E. rewrite <- (firstn_skipn n s), E in Ss. rewrite <- !app_assoc in Ss. cbn [app] in Ss. replace (l1 ++ e :: (l2 ++ e' :: l3) ++ skipn n s) with ((l1 ++ [e]) ++ ((l2 ++ e' :: l3) ++ skipn n s)) in Ss by (rewrite <- app_assoc; reflexivity).
    apply (sorted_split _ _ Ss); [apply in_or_app; right; now left|]. apply in_or_app. left. apply in_or_app. right. now left.
  - rewrite firstn_length. lia.
  - intros k Hk. assert (Ik : In (metric t (in_lat g k, in_lon g k), k) s) by (apply (Permutation_in _ (Permutation_sym Ps0)); apply in_map_iff; exists k; split; [reflexivity|now apply zseq_in]).
    rewrite <- (firstn_skipn n s) in Ik. apply in_app_or in Ik as [Ik|Ik]; [left; apply (in_map snd) in Ik; exact Ik|right]. split.
    + rewrite firstn_length. assert (L : (length (skipn n s) > 0)%nat) by (destruct (skipn n s); [destruct Ik|cbn; lia]). rewrite skipn_length in L. lia.
    + intros e He. rewrite <- (firstn_skipn n s) in Ss. apply (sorted_split _ _ Ss e _ He Ik).
Qed.
(** Metres along the two directions. *)
Definition walk (t p : target) : Q := 100000 * (Qabs (fst t - fst p) + Qabs (snd t - snd p)).
Lemma walk_ok : nearest_search walk (full_search walk).
Proof.
  apply full_search_ok.
  - intros t p q [E1 E2]. unfold walk. rewrite E1, E2. reflexivity.
  - intros t p. unfold walk. pose proof (Qabs_nonneg (fst t - fst p)). pose proof (Qabs_nonneg (snd t - snd p)). lra.
Qed.
(** Land in the last two columns of the small grid (four columns, three rows). *)
Definition coast (i j : Z) : bool := (2 <=? j)%Z.
Definition coast_masks (vicinity : Q) (own : list bool) : masks := {| m_land := coast; m_own := own; m_vicinity := vicinity; m_near := full_search walk; m_pw := fun x => x |}.
Definition exposed (i j : Z) : option Q := Some (if coast i j then inject_Z (100 + i) else inject_Z i).
(** C68: a land target in a cell with two land corners takes land values only; a sea target at the same place sea values only; a land target far from land takes the values of its cell. *)
Example C68_case : let ts := [(201 # 4, 13); (205 # 4, 14 - (1 # 4)); (203 # 4, 21 # 2); (51, 16); (207 # 4, 31 # 2)] in let ms := coast_masks 250000 [true; false; true; true; false] in
  well_posed small_grid ts /\ nearest_search walk (m_near ms) /\ (forall x, 0 < x -> 0 < m_pw ms x) /\ length (m_own ms) = length ts /\
  (exists out, regrid BilinearMode (Some ms) small_grid exposed ts = Ok out /\ nth 2 out None <> None /\ map (fun o => match o with Some v => (100 <=? v)%Q | None => false end) out = [true; false; false; true; true]) /\
  rounded (regrid NearestMode (Some ms) small_grid exposed ts) = [Some 100; Some 1; Some 1; Some 101; Some 102].
Proof.
  split; [now apply small_well_posed|]. split; [apply walk_ok|]. split; [intros x H; exact H|]. split; [reflexivity|]. split; [|vm_compute; reflexivity].
  eexists. split; [vm_compute; reflexivity|]. split; [vm_compute; discriminate|vm_compute; reflexivity].
Qed.
(** C68: missing values of the other type do not matter when points of the type of the target are near: refuted. A source of weight zero that is missing makes the result missing. *)
Definition holed (i j : Z) : option Q := if ((j =? 1) && (i =? 0))%Z%bool then None else exposed i j.
Theorem C68_missing_refuted : ~ (forall metric ms g data ts out k, nearest_search metric (m_near ms) -> (forall x, 0 < x -> 0 < m_pw ms x) -> well_posed g ts -> length (m_own ms) = length ts ->
  regrid BilinearMode (Some ms) g data ts = Ok out -> (k < length ts)%nat -> covered g (nth k ts (0, 0)) -> let own := nth k (m_own ms) true in
  ~ nothing_near metric g ts (m_land ms) own (m_vicinity ms) (nth k ts (0, 0)) -> (forall i j, a_source g i j -> m_land ms i j = own -> exists q, data i j = Some q) -> nth k out None <> None).
Proof.
  intro H. set (ts := [(201 # 4, 13)]). set (ms := coast_masks 250000 [true]). set (out := match regrid BilinearMode (Some ms) small_grid holed ts with Ok o => o | _ => [] end).
  apply (H walk ms small_grid holed ts out 0%nat); [apply walk_ok|intros x Hx; exact Hx|now apply small_well_posed|reflexivity|unfold out; vm_compute; reflexivity| | | | |unfold out; vm_compute; reflexivity].
  - cbn. lia.
  - vm_compute. repeat split; congruence.
  - intro N. assert (Su : surroundings small_grid ts 0 2) by (unfold surroundings, a_source; repeat split; try (cbn; lia); exists (201 # 4, 13); (split; [now left|vm_compute; reflexivity])). destruct (N 0%Z 2%Z Su eq_refl) as [X|(l & Nd & Ll & Hl)]; [vm_compute in X; discriminate|].
    (* eight points at most 1.25e5 m away: only three *)
    assert (Sub : incl l [(0, 1); (1, 1); (0, 2)]%Z).
    { intros [a b] Hp. destruct (Hl _ Hp) as [[A B] D]. cbn [fst snd] in A, B. cbn [small_grid g_ny g_nx] in A, B. assert (Ca : a = 0%Z \/ a = 1%Z \/ a = 2%Z) by lia. assert (Cb : b = 0%Z \/ b = 1%Z \/ b = 2%Z \/ b = 3%Z) by lia.
      destruct Ca as [-> | [-> | ->]], Cb as [-> | [-> | [-> | ->]]]; try (cbn [In]; tauto); vm_compute in D; exfalso; apply D; reflexivity. }
    apply (NoDup_incl_length Nd) in Sub. cbn [length] in Sub. lia.
  - intros i j _ L. unfold holed. destruct ((j =? 1) && (i =? 0))%Z%bool eqn:E; [|unfold exposed; eauto]. apply andb_true_iff in E as [E _]. apply Z.eqb_eq in E. subst. cbn in L. discriminate.
Qed.
(** C68: if a corner of the cell of the target is of its type then sources of the other type are not used: refuted on a grid coarser than the vicinity, when this corner is not among the four nearest points. *)
Definition rock (i j : Z) : bool := ((i =? 1) && (j =? 2))%Z%bool.
Definition rock_masks : masks := {| m_land := rock; m_own := [true]; m_vicinity := 25000; m_near := full_search walk; m_pw := fun x => x |}.
Theorem C68_corner_refuted : ~ (forall metric ms g data data' ts out out' k i j, nearest_search metric (m_near ms) -> (forall x, 0 < x -> 0 < m_pw ms x) -> well_posed g ts -> length (m_own ms) = length ts ->
  regrid BilinearMode (Some ms) g data ts = Ok out -> regrid BilinearMode (Some ms) g data' ts = Ok out' -> (k < length ts)%nat -> let own := nth k (m_own ms) true in
  home_cell g i j (nth k ts (0, 0)) -> m_land ms (i + 1) (j + 1) = own -> (forall i j, a_source g i j -> exists q q', data i j = Some q /\ data' i j = Some q' /\ (m_land ms i j = own -> q == q')) -> same_value (nth k out None) (nth k out' None)).
Proof.
  intro H. set (ts := [(1001 # 20, 121 # 10)]). set (d1 := fun i j : Z => Some (if rock i j then 50 else 0)). set (d2 := fun i j : Z => Some (if rock i j then 50 else 7)).
  set (o1 := match regrid BilinearMode (Some rock_masks) small_grid d1 ts with Ok o => o | _ => [] end). set (o2 := match regrid BilinearMode (Some rock_masks) small_grid d2 ts with Ok o => o | _ => [] end).
  assert (X : same_value (nth 0 o1 None) (nth 0 o2 None)); [|vm_compute in X; discriminate X].
  apply (H walk rock_masks small_grid d1 d2 ts o1 o2 0%nat 0%Z 1%Z); [apply walk_ok|intros x Hx; exact Hx|now apply small_well_posed|reflexivity|unfold o1; vm_compute; reflexivity|unfold o2; vm_compute; reflexivity| | |reflexivity|].
  - cbn. lia.
  - vm_compute. intuition congruence.
  - intros i j _. unfold d1, d2. destruct (rock i j) eqn:E; do 2 eexists; (split; [reflexivity|split; [reflexivity|]]); [reflexivity|]. intro L. cbn in L. congruence.
Qed.

(** C68: a sea target in a cell with a rock at the far corner. *)
Definition tilted (i j : Z) : option Q := Some (if rock i j then 50 else 3 + 2 * inject_Z (i - 0) + 5 * inject_Z (j - 1)).
Example C68_triangle_case : let ts := [(201 # 4, 25 # 2)] in let ms := {| m_land := rock; m_own := [false]; m_vicinity := 25000; m_near := full_search walk; m_pw := fun x => x |} in let t := (201 # 4, 25 # 2) in
  well_posed small_grid ts /\ home_cell small_grid 0 1 t /\
  (forall a b, (a = 0 \/ a = 0 + 1)%Z -> (b = 1 \/ b = 1 + 1)%Z -> (a, b) <> (0 + 1, 1 + 1)%Z -> rock a b = false /\ exists x, tilted a b = Some x /\ x == 3 + 2 * inject_Z (a - 0) + 5 * inject_Z (b - 1)) /\ rock 1 2 = true /\
  1 <= from_corner true (up small_grid 0 t) + from_corner true (along small_grid 1 t) /\ rounded (regrid BilinearMode (Some ms) small_grid tilted ts) = [Some (19 # 4)].
Proof.
  cbv zeta. split; [now apply small_well_posed|]. split; [vm_compute; intuition congruence|]. split.
  - intros a b Ha Hb N. assert (R : rock a b = false) by (unfold rock; destruct (a =? 1)%Z eqn:E1, (b =? 2)%Z eqn:E2; try reflexivity; exfalso; apply N; apply Z.eqb_eq in E1, E2; now subst). split; [exact R|]. unfold tilted. rewrite R. eexists. split; [reflexivity|]. reflexivity.
  - split; [reflexivity|]. split; [vm_compute; discriminate|vm_compute; reflexivity].
Qed.

Print Assumptions C68_weights.
Print Assumptions C68_uniform.
Print Assumptions C68_own_only.
Print Assumptions C68_same_type.
Print Assumptions C68_triangle.
Print Assumptions C68_nearest.
Print Assumptions C68_missing_refuted.
Print Assumptions C68_corner_refuted.
