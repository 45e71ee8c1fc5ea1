From Verif Require Import Base Model_Threshold Spec_Threshold Proofs_Threshold Model_Percentiles Proofs_Percentiles Model_Probability Proofs_Names.

(** * C05 *)
Definition negation (c : cmp) : cmp := match c with GE => LT | GT => LE | LE => GT | LT => GE end.
Lemma inverse_attr_ok c : inverse_attr (spp_string c) = Ok (spp_string (negation c)).
Proof. destruct c; reflexivity. Qed.
Lemma negation_holds c x t : holds (negation c) x t <-> ~ holds c x t.
Proof. destruct c; simpl; split; intros; try lra. Qed.
Lemma spp_inj c d : spp_string c = spp_string d -> c = d.
Proof. destruct c, d; simpl; intro; congruence. Qed.
Lemma inverse_attr_inv a b : inverse_attr a = Ok b -> exists c, a = spp_string c /\ b = spp_string (negation c).
Proof.
  intro H.
  destruct (string_dec a (spp_string GE)) as [->|N1]; [exists GE; rewrite inverse_attr_ok in H; split; congruence|].
  destruct (string_dec a (spp_string GT)) as [->|N2]; [exists GT; rewrite inverse_attr_ok in H; split; congruence|].
  destruct (string_dec a (spp_string LE)) as [->|N3]; [exists LE; rewrite inverse_attr_ok in H; split; congruence|].
  destruct (string_dec a (spp_string LT)) as [->|N4]; [exists LT; rewrite inverse_attr_ok in H; split; congruence|].
  exfalso. unfold inverse_attr in H.
  assert (HF : filter (fun kv : string * cmp => String.eqb (spp_string (snd kv)) a) cmp_table = []).
  { unfold cmp_table. cbn [filter snd].
    rewrite (proj2 (String.eqb_neq _ _) (not_eq_sym N1)), (proj2 (String.eqb_neq _ _) (not_eq_sym N2)),
            (proj2 (String.eqb_neq _ _) (not_eq_sym N3)), (proj2 (String.eqb_neq _ _) (not_eq_sym N4)). reflexivity. }
  rewrite HF in H. discriminate.
Qed.
Lemma invert_inv c c' : invert_probabilities c = Ok c' -> exists op,
  pc_attr c = spp_string op /\ pc_attr c' = spp_string (negation op) /\ pc_thr c' = pc_thr c /\
  pc_cols c' = map (map (fun p => 1 - p)) (pc_cols c) /\ pc_name c' = invert_name (pc_name c).
Proof.
  unfold invert_probabilities. destruct (inverse_attr (pc_attr c)) eqn:E; [|discriminate]. cbn [bind]. intro H. injection H as <-.
  apply inverse_attr_inv in E as (op & E & ->). exists op. auto.
Qed.
Lemma invert_total c op : pc_attr c = spp_string op -> exists c', invert_probabilities c = Ok c'.
Proof. intro E. unfold invert_probabilities. rewrite E, inverse_attr_ok. eexists; reflexivity. Qed.
Lemma negation_invol c : negation (negation c) = c.
Proof. destruct c; reflexivity. Qed.
Lemma invert_twice c c' c'' : invert_probabilities c = Ok c' -> invert_probabilities c' = Ok c'' ->
  pc_attr c'' = pc_attr c /\ pc_thr c'' = pc_thr c /\ Forall2 (Forall2 Qeq) (pc_cols c'') (pc_cols c) /\
  ((contains "above" (pc_name c) && contains "below" (pc_name c))%bool = false -> pc_name c'' = pc_name c).
Proof.
  intros H H'. apply invert_inv in H as (op & E1 & E2 & E3 & E4 & E5). apply invert_inv in H' as (op' & F1 & F2 & F3 & F4 & F5).
  rewrite E2 in F1. apply spp_inj in F1. subst op'. rewrite negation_invol in F2.
  split; [congruence|]. split; [congruence|]. split.
  - rewrite F4, E4. clear. induction (pc_cols c) as [|col cols IH]; simpl; constructor; [|exact IH].
    induction col; simpl; constructor; [ring|assumption].
  - intro HN. rewrite F5, E5. apply invert_name_twice; exact HN.
Qed.

Lemma truth_is_neg c t lo hi x v v' : truth_is c t lo hi x v -> truth_is (negation c) t lo hi x v' -> v' == 1 - v.
Proof.
  intros [[E H]|[L H]] [[E' H']|[L' H']]; try lra.
  - rewrite negation_holds in H'. destruct H as [[H ->]|[H ->]], H' as [[H' ->]|[H' ->]]; try tauto; lra.
  - rewrite H, H'. destruct c; simpl; lra.
Qed.
Lemma threshold_invert_values c t lo hi data out out' : lo <= t <= hi ->
  truth_values c t (lo, hi) data = Ok out -> truth_values (negation c) t (lo, hi) data = Ok out' ->
  Forall2 (fun v v' => v' == 1 - v) out out'.
Proof.
  intros HB H H'. apply (truth_values_spec c t lo hi data out HB) in H. apply (truth_values_spec _ t lo hi data out' HB) in H'.
  revert out' H'. induction H as [|x v data out Hv H IH]; intros out' H'; inversion H'; subst; constructor; [|auto].
  eapply truth_is_neg; eauto.
Qed.
Lemma mean_of_neg c t lo hi ms v v' : mean_of (truth_is c t lo hi) ms v -> mean_of (truth_is (negation c) t lo hi) ms v' ->
  oeq v' (match v with Some p => Some (1 - p) | None => None end).
Proof.
  destruct v as [p|], v' as [p'|]; simpl.
  - intros [HN (ts & F & E)] [_ (ts' & F' & E')]. rewrite E, E'.
    assert (HS : qsum ts' == Qlen ts - qsum ts /\ length ts = length ts' /\ length ts = length (unmasked ms)).
    { clear E E' HN. revert ts' F'. induction F as [|x v xs ts Hv F IH]; intros ts' F'; inversion F'; subst; simpl.
      - split; [unfold Qlen; simpl; ring|auto].
      - destruct (IH _ H3) as (I1 & I2 & I3). rewrite Qlen_cons. rewrite (truth_is_neg _ _ _ _ _ _ _ Hv H1), I1.
        split; [ring|]. simpl. auto. }
    destruct HS as (S1 & S2 & S3). rewrite S1. unfold Qlen. rewrite S2. fold (Qlen ts').
    assert (0 < Qlen ts'). { apply Qlen_pos. intro. subst. simpl in S2. destruct (unmasked ms); [easy|simpl in *; congruence]. }
    field. lra.
  - intros [HN _] H. congruence.
  - intros H [HN _]. congruence.
  - trivial.
Qed.
(** The whole of Threshold.process with the negated operator gives one minus. *)
Lemma threshold_then_invert tv cfg ff op op' col p p' n ss out out' k i :
  threshold_init tv cfg ff op col = Ok p -> threshold_init tv cfg ff op' col = Ok p' -> tp_cmp p' = negation (tp_cmp p) ->
  Forall (shaped n) ss -> ss <> [] -> process p n ss = Ok out -> process p' n ss = Ok out' ->
  (k < length (tp_thresholds p))%nat -> (i < n)%nat ->
  oeq (nth i (nth k out' []) None) (match nth i (nth k out []) None with Some q => Some (1 - q) | None => None end).
Proof.
  intros HI HI' HC HS HN HP HP' Hk Hi.
  assert (HT : tp_thresholds p' = tp_thresholds p /\ tp_bounds p' = tp_bounds p).
  { clear - HI HI'. unfold threshold_init in *. destruct (_ && _); [discriminate|].
    destruct cfg as [cf|]; destruct tv; try discriminate;
    (destruct (set_thresholds _ _) as [[ts fb]|]; [cbn [bind] in *|discriminate];
     match goal with H : bind ?r _ = _ |- _ => destruct r; [cbn [bind] in *|discriminate] end;
     match goal with H : bind ?r _ = _ |- _ => destruct r; [cbn [bind] in *|discriminate] end;
     destruct (cmp_lookup op); [|discriminate]; destruct (cmp_lookup op'); [|discriminate];
     destruct col; try discriminate; injection HI as <-; injection HI' as <-; auto). }
  destruct HT as [HT HB].
  pose proof (process_mean p n ss out k i (init_wf _ _ _ _ _ _ HI) HS HN HP Hk Hi) as M.
  assert (Hk' : (k < length (tp_thresholds p'))%nat) by (rewrite HT; exact Hk).
  pose proof (process_mean p' n ss out' k i (init_wf _ _ _ _ _ _ HI') HS HN HP' Hk' Hi) as M'.
  rewrite HC, HT, HB in M'. eapply mean_of_neg; eauto.
Qed.

Lemma mem_below op : mem_str (spp_string op) (map spp_string [LE; LT]) = negb (above op).
Proof. destruct op; reflexivity. Qed.
Lemma mem_above op : mem_str (spp_string op) (map spp_string [GE; GT]) = above op.
Proof. destruct op; reflexivity. Qed.
Lemma direction_spp op : direction (spp_string op) = Some (if above op then Above else Below).
Proof. destruct op; reflexivity. Qed.
Lemma to_ineq c op up : pc_attr c = spp_string op -> exists c', to_threshold_inequality c up = Ok c' /\
  direction (pc_attr c') = Some (if up then Above else Below) /\
  (above op = up -> c' = c) /\ (above op = negb up -> invert_probabilities c = Ok c').
Proof.
  intro E. unfold to_threshold_inequality. rewrite E, mem_below, mem_above.
  destruct (above op) eqn:EA, up; cbn [andb orb negb].
  - exists c. rewrite E, direction_spp, EA. repeat split; trivial; discriminate.
  - destruct (invert_total c op E) as [c' H]. exists c'. rewrite H. apply invert_inv in H as (op' & F1 & F2 & _).
    rewrite E in F1. apply spp_inj in F1. subst op'. rewrite F2, direction_spp. destruct op; simpl in *; try discriminate; repeat split; trivial; discriminate.
  - destruct (invert_total c op E) as [c' H]. exists c'. rewrite H. apply invert_inv in H as (op' & F1 & F2 & _).
    rewrite E in F1. apply spp_inj in F1. subst op'. rewrite F2, direction_spp. destruct op; simpl in *; try discriminate; repeat split; trivial; discriminate.
  - exists c. rewrite E, direction_spp, EA. repeat split; trivial; discriminate.
Qed.
Lemma legacy_attr_kept : exists c c', direction (pc_attr c) = Some Below /\ to_threshold_inequality c true = Ok c' /\
  direction (pc_attr c') = Some Below /\ invert_probabilities c = Err ValueError.
Proof.
  exists {| pc_name := "probability_of_rain_below_threshold"; pc_attr := "below"; pc_thr := [1]; pc_cols := [[1 # 4]] |}.
  eexists. repeat split.
Qed.

(** * C06 *)
Lemma matching_in thr t i : In i (matching thr t) <-> (i < length thr)%nat /\ close_to (nth i thr 0) t = true.
Proof. unfold matching. rewrite filter_In, in_seq. split; intros [H1 H2]; split; trivial; lia. Qed.
Definition tol (t : Q) : Q := (1 # 100000) + (1 # 100000) * Qabs t.
Lemma close_iff p t : close_to p t = true <-> - tol t <= p - t <= tol t.
Proof. unfold close_to, tol. rewrite Qleb_le. apply Qabs_Qle_condition. Qed.
Lemma Qabs_lip x y : x <= y -> Qabs y - Qabs x <= y - x.
Proof.
  intro H. pose proof (Qle_Qabs y). apply Qabs_case; intro; apply Qabs_case; intro; lra.
Qed.
(** Unique matches of an increasing pair are in order. *)
Lemma match_order thr lo hi i j : qssorted thr -> lo <= hi -> matching thr lo = [i] -> matching thr hi = [j] -> (i <= j)%nat.
Proof.
  intros HS HL Hi Hj. destruct (le_lt_dec i j) as [|L]; [assumption|exfalso].
  assert (Ii : In i (matching thr lo)) by (rewrite Hi; left; reflexivity).
  assert (Ij : In j (matching thr hi)) by (rewrite Hj; left; reflexivity).
  assert (Nj : ~ In j (matching thr lo)) by (rewrite Hi; intros [->|[]]; lia).
  rewrite matching_in in *. rewrite close_iff in *. destruct Ii as [Li Ci], Ij as [Lj Cj].
  assert (HLt : nth j thr 0 < nth i thr 0) by (apply qssorted_nth; [exact HS|lia]).
  assert (HN : ~ (- tol lo <= nth j thr 0 - lo <= tol lo)) by tauto.
  pose proof (Qabs_lip lo hi HL). unfold tol in *. lra.
Qed.

Lemma between_one_inv m c r b : between_one m c r = Ok b -> exists i j,
  matching (pc_thr c) (fst (sort_pair r)) = [i] /\ matching (pc_thr c) (snd (sort_pair r)) = [j] /\
  b = {| bt_lower := nth i (pc_thr c) 0; bt_upper := nth j (pc_thr c) 0;
         bt_data := map (fun col => (nth i col 0 - nth j col 0) * m) (pc_cols c) |}.
Proof.
  unfold between_one. destruct (matching _ (fst _)) as [|i [|]]; try discriminate.
  destruct (matching _ (snd _)) as [|j [|]]; try discriminate. intro H. injection H as <-. eauto.
Qed.
Lemma between_inv ranges c out : between_process ranges c = Ok out -> exists m,
  multiplier (pc_attr c) = Ok m /\ Forall2 (fun r b => between_one m c r = Ok b) ranges out.
Proof.
  unfold between_process. destruct (negb _); [discriminate|]. destruct (multiplier _) as [m|]; [|discriminate]. cbn [bind]. intro H.
  exists m. split; [reflexivity|]. revert out H. induction ranges as [|r l IH]; intros out H; cbn [mapM] in H.
  - injection H as <-. constructor.
  - destruct (between_one m c r) eqn:E; [|discriminate]. cbn [bind] in H. destruct (mapM _ l) eqn:E2; [|discriminate].
    cbn [bind] in H. injection H as <-. constructor; auto.
Qed.
(** Monotone in threshold in the direction of the cube. *)
Definition col_monotone (d : relation) (col : list Q) : Prop :=
  match d with Above => qsorted (rev col) | Below => qsorted col end.
Lemma rev_sorted_nth col i j : qsorted (rev col) -> (i <= j < length col)%nat -> nth j col 0 <= nth i col 0.
Proof.
  intros H Hij. pose proof (qsorted_nth (rev col) 0 (length col - S j) (length col - S i) H) as G.
  rewrite rev_length in G. specialize (G ltac:(lia)). rewrite !rev_nth in G by lia.
  replace (length col - S (length col - S j))%nat with j in G by lia.
  replace (length col - S (length col - S i))%nat with i in G by lia. exact G.
Qed.
Lemma between_in_unit ranges c out d : between_process ranges c = Ok out -> direction (pc_attr c) = Some d ->
  qssorted (pc_thr c) -> Forall (fun col => length col = length (pc_thr c) /\ col_monotone d col /\ Forall (fun p => 0 <= p <= 1) col) (pc_cols c) ->
  Forall (fun b => Forall (fun p => 0 <= p <= 1) (bt_data b)) out.
Proof.
  intros H HD HT HC. apply between_inv in H as (m & Hm & H). unfold multiplier in Hm. rewrite HD in Hm.
  induction H as [|r b ranges out Hb H IH]; constructor; [|exact IH]. clear IH H.
  apply between_one_inv in Hb as (i & j & Ei & Ej & ->). cbn [bt_data].
  assert (Hij : (i <= j)%nat).
  { eapply match_order; [exact HT| |exact Ei|exact Ej]. unfold sort_pair. destruct (Qleb_spec (fst r) (snd r)); simpl; lra. }
  assert (Ii : In i (matching (pc_thr c) (fst (sort_pair r)))) by (rewrite Ei; left; reflexivity).
  assert (Ij : In j (matching (pc_thr c) (snd (sort_pair r)))) by (rewrite Ej; left; reflexivity).
  rewrite matching_in in *. destruct Ii as [Li _], Ij as [Lj _].
  apply Forall_forall. intros v Hv. apply in_map_iff in Hv as (col & <- & Hc).
  rewrite Forall_forall in HC. destruct (HC col Hc) as (L & M & U).
  assert (U' : forall q, (q < length (pc_thr c))%nat -> 0 <= nth q col 0 <= 1).
  { intros q Hq. rewrite Forall_forall in U. apply U, nth_In. lia. }
  pose proof (U' i Li). pose proof (U' j Lj). destruct d; injection Hm as <-; simpl in M.
  - pose proof (rev_sorted_nth col i j M ltac:(lia)). lra.
  - pose proof (qsorted_nth col 0 i j M ltac:(lia)). lra.
Qed.
(** Adjoining ranges add up. *)
Lemma between_additive m c a b d x y z : a <= b -> b <= d ->
  between_one m c (a, b) = Ok x -> between_one m c (b, d) = Ok y -> between_one m c (a, d) = Ok z ->
  bt_lower z = bt_lower x /\ bt_upper z = bt_upper y /\ bt_upper x = bt_lower y /\
  length (bt_data z) = length (bt_data x) /\ length (bt_data z) = length (bt_data y) /\
  forall i, nth i (bt_data z) 0 == nth i (bt_data x) 0 + nth i (bt_data y) 0.
Proof.
  intros Hab Hbd Hx Hy Hz. apply between_one_inv in Hx as (i & j & Ei & Ej & ->). apply between_one_inv in Hy as (i2 & j2 & Ei2 & Ej2 & ->).
  apply between_one_inv in Hz as (i3 & j3 & Ei3 & Ej3 & ->). unfold sort_pair in *. cbn [fst snd] in *.
  destruct (Qleb_spec a b), (Qleb_spec b d), (Qleb_spec a d); try lra. cbn [fst snd] in *.
  assert (i3 = i /\ j3 = j2 /\ i2 = j) as (-> & -> & ->) by (repeat split; congruence).
  cbn [bt_lower bt_upper bt_data]. rewrite !map_length. repeat split; trivial.
  intro k. destruct (lt_dec k (length (pc_cols c))).
  - rewrite !nth_map_lt with (d := []) by trivial. ring.
  - rewrite !nth_overflow by (rewrite map_length; lia). ring.
Qed.
Lemma between_additive_exists m c a b d x y : a <= b -> b <= d ->
  between_one m c (a, b) = Ok x -> between_one m c (b, d) = Ok y -> exists z, between_one m c (a, d) = Ok z.
Proof.
  intros Hab Hbd Hx Hy. apply between_one_inv in Hx as (i & j & Ei & Ej & ->). apply between_one_inv in Hy as (i2 & j2 & Ei2 & Ej2 & ->).
  unfold sort_pair in *. cbn [fst snd] in *. destruct (Qleb_spec a b), (Qleb_spec b d); try lra. cbn [fst snd] in *.
  unfold between_one, sort_pair. cbn [fst snd]. destruct (Qleb_spec a d); [|lra]. cbn [fst snd]. rewrite Ei, Ej2. eauto.
Qed.
(** An above cube and its complement agree. *)
Lemma between_complement ranges c c' op out out' : pc_attr c = spp_string op -> invert_probabilities c = Ok c' ->
  Forall (fun col => length col = length (pc_thr c)) (pc_cols c) ->
  between_process ranges c = Ok out -> between_process ranges c' = Ok out' ->
  Forall2 (fun b b' => bt_lower b' = bt_lower b /\ bt_upper b' = bt_upper b /\ Forall2 Qeq (bt_data b') (bt_data b)) out out'.
Proof.
  intros EA HI HL H H'. apply invert_inv in HI as (op' & F1 & F2 & F3 & F4 & _). rewrite EA in F1. apply spp_inj in F1. subst op'.
  apply between_inv in H as (m & Hm & H). apply between_inv in H' as (m' & Hm' & H').
  assert (HM : m' == - m).
  { unfold multiplier in *. rewrite EA in Hm. rewrite F2 in Hm'. rewrite direction_spp in *.
    destruct op; simpl in *; injection Hm as <-; injection Hm' as <-; reflexivity. }
  revert out' H'. induction H as [|r b ranges out Hb H IH]; intros out' H'; inversion H' as [|? b' ? ? Hb' H'']; subst; constructor; [|auto].
  apply between_one_inv in Hb as (i & j & Ei & Ej & ->). apply between_one_inv in Hb' as (i' & j' & Ei' & Ej' & ->).
  cbn [bt_lower bt_upper bt_data]. rewrite F3 in Ei', Ej'. assert (i' = i /\ j' = j) as [-> ->] by (split; congruence). rewrite F3.
  split; [reflexivity|]. split; [reflexivity|]. rewrite F4.
  assert (Ii : In i (matching (pc_thr c) (fst (sort_pair r)))) by (rewrite Ei; left; reflexivity).
  assert (Ij : In j (matching (pc_thr c) (snd (sort_pair r)))) by (rewrite Ej; left; reflexivity).
  rewrite matching_in in *. destruct Ii as [Li _], Ij as [Lj _].
  clear - HM HL Li Lj. induction (pc_cols c) as [|col cols IH]; simpl; constructor; [|apply IH; inversion HL; trivial].
  inversion HL; subst. rewrite !nth_map_lt with (d := 0) by lia. rewrite HM. ring.
Qed.
(** When does it succeed? *)
Lemma between_unavailable ranges c r t : In r ranges -> t = fst r \/ t = snd r ->
  (forall p, In p (pc_thr c) -> close_to p t = false) -> between_process ranges c = Err ValueError.
Proof.
  intros Hr Ht HN. unfold between_process.
  assert (HM : matching (pc_thr c) t = []).
  { destruct (matching (pc_thr c) t) as [|i l] eqn:E; [reflexivity|]. exfalso.
    assert (In i (matching (pc_thr c) t)) by (rewrite E; left; reflexivity). apply matching_in in H as [H1 H2].
    rewrite HN in H2; [discriminate|]. apply nth_In; exact H1. }
  destruct (forallb _ ranges) eqn:E; [|reflexivity]. exfalso. rewrite forallb_forall in E. specialize (E r Hr).
  apply andb_true_iff in E as [E1 E2]. unfold sort_pair in *. destruct Ht as [-> | ->], (fst r <=? snd r); cbn [fst snd] in *; rewrite HM in *; discriminate.
Qed.
Lemma between_rejects ranges r : In r ranges -> snd r - fst r < 1 # 100000 -> between_init ranges = Err ValueError.
Proof.
  intros H L. unfold between_init. destruct (existsb _ ranges) eqn:E; [reflexivity|]. exfalso.
  assert (existsb (fun r : Q * Q => snd r - fst r <? (1 # 100000)) ranges = true).
  { apply existsb_exists. exists r. split; [exact H|]. apply Qltb_lt; exact L. }
  congruence.
Qed.
(** Thresholds too close for the relative tolerance are all selected and the call fails. *)
Lemma close_thresholds_witness : exists c r out0,
  between_init [r] = Ok out0 /\ In (fst r) (pc_thr c) /\ In (snd r) (pc_thr c) /\ between_process [r] c = Err ValueError.
Proof.
  exists {| pc_name := "probability_of_surface_air_pressure_above_threshold"; pc_attr := "greater_than";
            pc_thr := [100000; 100001; 100010]; pc_cols := [[1; 1 # 2; 0]] |}, (100000, 100010), [(100000, 100010)].
  split; [reflexivity|]. split; [simpl; auto|]. split; [simpl; auto|]. reflexivity.
Qed.
Lemma between_total ranges c d : direction (pc_attr c) = Some d ->
  Forall (fun r => (exists i, matching (pc_thr c) (fst (sort_pair r)) = [i]) /\ exists j, matching (pc_thr c) (snd (sort_pair r)) = [j]) ranges ->
  exists out, between_process ranges c = Ok out.
Proof.
  intros HD H. unfold between_process.
  assert (HF : forallb (fun r => negb (match matching (pc_thr c) (fst (sort_pair r)) with [] => true | _ => false end) &&
                 negb (match matching (pc_thr c) (snd (sort_pair r)) with [] => true | _ => false end)) ranges = true).
  { apply forallb_forall. intros r Hr. rewrite Forall_forall in H. destruct (H r Hr) as [[i ->] [j ->]]. reflexivity. }
  rewrite HF. unfold multiplier. rewrite HD. cbn [negb].
  assert (G : forall m, exists out, mapM (between_one m c) ranges = Ok out).
  { intro m. clear HF. induction H as [|r l [[i Ei] [j Ej]] H IH]; [exists []; reflexivity|].
    destruct IH as [o IH]. cbn [mapM]. unfold between_one at 1. rewrite Ei, Ej. cbn [bind]. rewrite IH. eexists. reflexivity. }
  destruct d; apply G.
Qed.

(** * C28 *)
Lemma nonincreasing_iff l : nonincreasing_b l = true <-> qsorted (rev l).
Proof. apply nondecreasing_b_iff. Qed.
Lemma Permutation_Forall2_rev {A} (R : A -> A -> Prop) l m : Forall2 R l m -> Forall2 R (rev l) (rev m).
Proof.
  induction 1; simpl; [constructor|]. apply Forall2_app; [assumption|]. repeat constructor; assumption.
Qed.
Lemma ensure_mono c c' d : ensure_monotonicity true c = Ok c' -> direction (pc_attr c) = Some d ->
  pc_name c' = pc_name c /\ pc_attr c' = pc_attr c /\ pc_thr c' = pc_thr c /\
  Forall (col_monotone d) (pc_cols c') /\ Forall2 (@Permutation Q) (pc_cols c) (pc_cols c') /\
  (Forall (col_monotone d) (pc_cols c) -> c' = c) /\
  Forall2 (fun col col' => col_monotone d col -> Forall2 Qeq col' col) (pc_cols c) (pc_cols c').
Proof.
  unfold ensure_monotonicity. intros H HD. rewrite HD in H. cbn [negb] in H.
  assert (HR : forall cols : list (list Q), Forall2 (@Permutation Q) cols cols) by (intro cols; induction cols; constructor; auto).
  assert (HR2 : forall cols : list (list Q), Forall2 (fun col col' => col_monotone d col -> Forall2 Qeq col' col) cols cols).
  { intro cols; induction cols; constructor; auto. intros _. apply Forall2_Qeq_refl. }
  destruct d; cbn [col_monotone].
  - destruct (forallb nonincreasing_b (pc_cols c)) eqn:E.
    + injection H as <-. repeat split; trivial. apply Forall_forall. intros col Hc. rewrite forallb_forall in E.
      apply nonincreasing_iff. auto.
    + injection H as <-. cbn [pc_name pc_attr pc_thr pc_cols]. repeat split; trivial.
      * apply Forall_forall. intros col Hc. apply in_map_iff in Hc as (x & <- & _). unfold col_monotone. rewrite rev_involutive. apply qsort_sorted.
      * clear. induction (pc_cols c); simpl; constructor; trivial. rewrite <- Permutation_rev. apply qsort_perm.
      * intro HF. exfalso. assert (forallb nonincreasing_b (pc_cols c) = true); [|congruence].
        apply forallb_forall. intros x Hx. apply nonincreasing_iff. rewrite Forall_forall in HF. exact (HF x Hx).
      * clear. induction (pc_cols c); simpl; constructor; trivial. intro HS.
        assert (E : Forall2 Qeq (qsort a) (rev a)).
        { apply qsorted_perm_eq; [apply qsort_sorted|exact HS|]. rewrite <- qsort_perm. apply Permutation_rev. }
        apply Permutation_Forall2_rev in E. rewrite rev_involutive in E. exact E.
  - destruct (forallb nondecreasing_b (pc_cols c)) eqn:E.
    + injection H as <-. repeat split; trivial. apply Forall_forall. intros col Hc. rewrite forallb_forall in E.
      apply nondecreasing_b_iff. auto.
    + injection H as <-. cbn [pc_name pc_attr pc_thr pc_cols]. repeat split; trivial.
      * apply Forall_forall. intros col Hc. apply in_map_iff in Hc as (x & <- & _). apply qsort_sorted.
      * clear. induction (pc_cols c); simpl; constructor; trivial. apply qsort_perm.
      * intro HF. exfalso. assert (forallb nondecreasing_b (pc_cols c) = true); [|congruence].
        apply forallb_forall. intros x Hx. apply nondecreasing_b_iff. rewrite Forall_forall in HF. exact (HF x Hx).
      * clear. induction (pc_cols c); simpl; constructor; trivial. intro HS. rewrite qsort_id by exact HS. apply Forall2_Qeq_refl.
Qed.
Lemma ensure_mono_total c : (exists c', ensure_monotonicity true c = Ok c') <-> direction (pc_attr c) <> None.
Proof.
  unfold ensure_monotonicity. cbn [negb]. destruct (direction (pc_attr c)) as [[|]|].
  - destruct (forallb _ _); split; intros; eauto; discriminate.
  - destruct (forallb _ _); split; intros; eauto; discriminate.
  - split; [intros [? ?]; discriminate|congruence].
Qed.
