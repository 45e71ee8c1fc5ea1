(** From prepared tables to cubes: lemmas for Props_Frames.v *)
From Verif Require Import Base Model_Frames Proofs_Frames.
From Verif Require Props_Rainforests.
Local Open Scope Q_scope.

Section forecast.
Variables (g : string) (F G : list row).
Hypothesis Dg : Forall (fun r => diag r = Some g) G.
Hypothesis Cg : map core G = map core (completed F).
Let H := isort row_leb G.
Definition sites_of : list string := isort String.leb (unique String.eqb (map r_wmo F)).
Definition reps_of : list Q := qsort (unique Qeq_bool (map r_rep F)).
Definition in_times (d : Z) : Prop := In d (map r_time F).
Definition X (d : Z) (p : Q) : list row := filter (at_date d p) H.
Lemma H_core r : In r H -> In (core r) (map core (completed F)).
Proof. intro I'. apply (Permutation_in _ (Permutation_sym (isort_perm _ _))) in I'. rewrite <- Cg. now apply in_map. Qed.
Lemma H_keys r : In r H -> In (r_wmo r) (map r_wmo F) /\ In (r_time r) (map r_time F) /\ In (r_rep r) (unique Qeq_bool (map r_rep F)).
Proof.
  intro I'. apply H_core in I'. apply in_map_iff in I' as (q & E & Q1). apply completed_in in Q1 as (s & t & p & S1 & T1 & P1 & ->). rewrite cell_core in E. unfold core in E. apply pair_equal_spec in E as [E _]. apply pair_equal_spec in E as [E <-]. apply pair_equal_spec in E as [<- <-].
  split; [now apply unique_in in S1|]. split; [now apply unique_in in T1|exact P1].
Qed.
Lemma H_diag r : In r H -> diag r = Some g.
Proof. intro I'. apply (Permutation_in _ (Permutation_sym (isort_perm _ _))) in I'. rewrite Forall_forall in Dg. now apply Dg. Qed.
Lemma X_core d p : in_times d -> In p (unique Qeq_bool (map r_rep F)) -> map core (X d p) = map (fun s => (s, d, p, cell F s d p)) sites_of.
Proof. intros T P. apply (prepared_rows g); [exact Cg|exact Dg|apply unique_iff; [apply Z.eqb_eq|exact T]|exact P]. Qed.
Lemma reps_in p : In p reps_of <-> In p (unique Qeq_bool (map r_rep F)).
Proof. unfold reps_of. split; intro I'; [exact (Permutation_in _ (Permutation_sym (qsort_perm _)) I')|exact (Permutation_in _ (qsort_perm _) I')]. Qed.
Lemma reps_strict : qssorted reps_of.
Proof. apply qsort_strict, unique_pairs. Qed.
Lemma X_wmo d p : in_times d -> In p reps_of -> map r_wmo (X d p) = sites_of.
Proof. intros T P. apply reps_in in P. pose proof (X_core d p T P) as C. apply (f_equal (map (fun c => fst (fst (fst c))))) in C. rewrite !map_map in C. cbn in C. now rewrite map_id in C. Qed.
Lemma X_values d p : in_times d -> In p reps_of -> map r_value (X d p) = map (fun s => cell F s d p) sites_of.
Proof. intros T P. apply reps_in in P. pose proof (X_core d p T P) as C. apply (f_equal (map snd)) in C. rewrite !map_map in C. exact C. Qed.
Lemma sites_nonempty d : in_times d -> sites_of <> [].
Proof. intros T E. unfold sites_of in E. unfold in_times in T. destruct F as [|r l]; [destruct T|]. apply (f_equal (@length _)) in E. rewrite isort_length in E. discriminate. Qed.
Lemma X_nonempty d p : in_times d -> In p reps_of -> X d p <> [].
Proof. intros T P E. pose proof (X_wmo d p T P) as W. rewrite E in W. exact (sites_nonempty d T (eq_sym W)). Qed.
Lemma reps_nonempty d : in_times d -> reps_of <> [].
Proof. intros T E. unfold reps_of in E. unfold in_times in T. destruct F as [|r l]; [destruct T|]. apply (f_equal (@length _)) in E. rewrite qsort_length in E. discriminate. Qed.
Definition rows_at (d : Z) : list row := filter (fun r => (r_time r =? d)%Z) H.
Lemma rows_rep d p : filter (fun r => Qeq_bool p (r_rep r)) (rows_at d) = X d p.
Proof. unfold rows_at, X. rewrite filter_filter. apply filter_cong. intros r _. unfold at_date. now rewrite Z.eqb_sym. Qed.
Lemma rows_in d r : In r (rows_at d) -> r_time r = d /\ In (r_rep r) reps_of /\ In r (X d (r_rep r)).
Proof. unfold rows_at. intro I'. apply filter_In in I' as [I' E]. apply Z.eqb_eq in E. split; [exact E|]. split; [apply reps_in; now apply H_keys|]. unfold X. apply filter_In. split; [exact I'|]. unfold at_date. now rewrite E, Z.eqb_refl, Qeqb_refl. Qed.
Lemma has_time_iff d : has_time H d = true <-> in_times d.
Proof.
  unfold has_time. rewrite existsb_exists. split.
  - intros (r & I' & E). apply Z.eqb_eq in E. subst d. now apply H_keys.
  - intro T. destruct reps_of as [|p l] eqn:Er; [exfalso; exact (reps_nonempty d T Er)|]. assert (P : In p reps_of) by (rewrite Er; now left). destruct (X d p) as [|r l'] eqn:Ex; [exfalso; exact (X_nonempty d p T P Ex)|]. assert (I' : In r (X d p)) by (rewrite Ex; now left). unfold X in I'. apply filter_In in I' as [I' A]. apply andb_true_iff in A as [A _]. exists r. auto.
Qed.
Lemma rep_list d : in_times d -> qsort (unique Qeq_bool (map r_rep (rows_at d))) = reps_of.
Proof.
  intro T. apply (sorted_equal Qlt); [intros x y; lra|apply qsort_strict, unique_pairs|exact reps_strict|]. unfold reps_of. rewrite <- !qsort_perm. apply NoDup_Permutation; [apply unique_NoDup, Qeqb_refl|apply unique_NoDup, Qeqb_refl|]. intro p.
  assert (Lit : forall q, In q (map r_rep (rows_at d)) <-> In q (unique Qeq_bool (map r_rep F))). { intro q. split.
    - intro I'. apply in_map_iff in I' as (r & <- & I'). apply rows_in in I' as (_ & I' & _). now apply reps_in.
    - intro P. pose proof (X_core d q T P) as C. destruct (X d q) as [|r l] eqn:Ex; [exfalso; apply (X_nonempty d q T); [now apply reps_in|exact Ex]|]. apply in_map_iff. exists r. assert (I' : In r (X d q)) by (rewrite Ex; now left). cbn in C. destruct sites_of as [|s ss]; [discriminate|]. cbn in C. injection C as _ _ Er _ _. split; [exact Er|]. rewrite <- rows_rep in I'. now apply filter_In in I'. }
  split.
  - intro I'. apply unique_in in I'. now apply Lit.
  - intro P. assert (I' : In p (map r_rep (rows_at d))) by now apply Lit. destruct (unique_covers Qeq_bool p _ Qeqb_refl Qeqb_trans I') as (q & Q1 & Q2). pose proof (unique_in _ _ _ Q1) as Q3. apply Lit in Q3.
    assert (E : q = p); [|now rewrite <- E]. pose proof (unique_pairs Qeq_bool (map r_rep F)) as Up. destruct (ForallOrdPairs_In Up q p Q3 P) as [E|[E|E]]; [exact E|congruence|]. rewrite Qeqb_sym in E. congruence.
Qed.
Lemma spots_at d : in_times d -> spots (rows_at d) = map (fun p => (p, spot_of (X d p))) reps_of.
Proof. intro T. unfold spots. rewrite rep_list by exact T. apply map_ext. intro p. now rewrite rows_rep. Qed.
(** The rows of a date begin with those of its first percentile or realization. *)
Lemma rows_split d p0 l0 : in_times d -> reps_of = p0 :: l0 -> rows_at d = X d p0 ++ filter (fun r => negb (Qeq_bool p0 (r_rep r))) (rows_at d).
Proof.
  intros T E. rewrite <- rows_rep. assert (So : StronglySorted row_le (rows_at d)) by (apply sorted_filter, row_sorted).
  assert (Al : Forall (fun r => diag r = Some g /\ r_time r = d /\ p0 <= r_rep r) (rows_at d)).
  { apply Forall_forall. intros r I'. destruct (rows_in d r I') as (Et & P & _). split; [apply H_diag; now apply filter_In in I'|]. split; [exact Et|]. pose proof reps_strict as St. rewrite E in St, P. inversion St as [|? ? _ Fm]; subst. destruct P as [->|P]; [lra|]. rewrite Forall_forall in Fm. specialize (Fm _ P). lra. }
  induction So as [|a l So IH Fa]; [reflexivity|]. inversion Al as [|? ? (Da & Ta & La) Al']; subst. cbn [filter]. destruct (Qeq_bool p0 (r_rep a)) eqn:Ea; cbn [negb app]; [f_equal; now apply IH|].
  assert (N : forall r, In r l -> Qeq_bool p0 (r_rep r) = false). { intros r I'. rewrite Forall_forall in Fa, Al'. specialize (Fa r I'). destruct (Al' r I') as (Dr & Tr & Lr). unfold row_le, row_leb, row_cmp in Fa. unfold diag in Da, Dr. rewrite Da, Dr, Tr in Fa. cbn [text_cmp] in Fa. rewrite Props_Rainforests.str_refl, Z.compare_refl in Fa. cbn [then_cmp] in Fa.
    destruct (Qeq_bool p0 (r_rep r)) eqn:Er; [|reflexivity]. apply Qeqb_eq in Er. assert (Na : ~ p0 == r_rep a) by (intro Z; apply Qeqb_eq in Z; congruence). assert (Gt' : r_rep r < r_rep a) by (rewrite <- Er; apply Qle_lteq in La as [La|La]; [exact La|contradiction]). apply Qgt_alt in Gt'. rewrite Gt' in Fa. discriminate. }
  rewrite (filter_none (fun r => Qeq_bool p0 (r_rep r)) l) by exact N. cbn [app]. f_equal. symmetry. apply filter_all. intros r I'. now rewrite (N r I').
Qed.
Variable dates : list Z.
Lemma slices_ok fs : slices false dates H = Ok fs <-> fs = map (fun d => (d, bounds_at d (rows_at d), spots (rows_at d))) (filter (has_time H) dates) /\ forall d, In d (filter (has_time H) dates) -> checked false (rows_at d) = true.
Proof. unfold slices. apply (mapM_check (fun d => checked false (rows_at d)) (fun d => (d, bounds_at d (rows_at d), spots (rows_at d)))). Qed.
End forecast.

(** ** The truths *)
Lemma truth_matches g (T3 Tt : list row) s d v : map core Tt = map core (completed T3) -> Forall (fun r => diag r = Some g) Tt -> Forall (fun r => r_rep r = 0) T3 -> Forall (fun r => diag r = Some g) T3 ->
  let q := {| r_wmo := s; r_time := d; r_rep := 0; r_value := None; r_statics := v |} in st_diag v = Some g ->
  (exists r, filter (fun r => same_row r q) (isort row_leb Tt) = [r] /\ r_value r = cell T3 s d 0) \/ (filter (fun r => same_row r q) (isort row_leb Tt) = [] /\ cell T3 s d 0 = None).
Proof.
  intros C D Z0 D3 q Dq. set (L := isort row_leb Tt).
  assert (DL : forall r, In r L -> diag r = Some g). { intros r I'. apply (Permutation_in _ (Permutation_sym (isort_perm _ _))) in I'. rewrite Forall_forall in D. now apply D. }
  assert (E : filter (fun r => same_row r q) L = filter (at_key s d 0) L). { apply filter_cong. intros r I'. apply eq_true_iff_eq. rewrite (same_row_key g r q (DL r I') Dq). rewrite !at_key_iff. unfold q. cbn [r_wmo r_time r_rep]. split; intros (A & B & E'); (split; [now symmetry|split; [now symmetry|lra]]). }
  rewrite E. assert (Ze : forall r, In r T3 -> r_rep r = 0) by (rewrite Forall_forall in Z0; exact Z0).
  destruct (in_dec string_dec s (map r_wmo T3)) as [Is|Ns]; [destruct (in_dec Z.eq_dec d (map r_time T3)) as [Id|Nd]|].
  - left. assert (P0 : In 0 (unique Qeq_bool (map r_rep T3))). { apply in_map_iff in Is as (r & _ & R1). destruct (unique_covers Qeq_bool (r_rep r) (map r_rep T3) Qeqb_refl Qeqb_trans) as (p & P1 & P2); [now apply in_map|]. pose proof (unique_in _ _ _ P1) as P3. apply in_map_iff in P3 as (r' & <- & R2). rewrite (Ze r' R2) in P1. exact P1. }
    pose proof (X_core g T3 Tt D C d 0 Id P0) as Xc. unfold X in Xc. fold L in Xc. assert (Ek : filter (at_key s d 0) L = filter (fun r => String.eqb s (r_wmo r)) (filter (at_date d 0) L)). { rewrite filter_filter. apply filter_cong. intros r _. unfold at_key, at_date. destruct (String.eqb s (r_wmo r)), (d =? r_time r)%Z; cbn; rewrite ?andb_true_r, ?andb_false_r; reflexivity. }
    rewrite Ek. set (Y := filter (at_date d 0) L) in *. assert (W : map r_wmo Y = sites_of T3). { apply (f_equal (map (fun c => fst (fst (fst c))))) in Xc. rewrite !map_map in Xc. cbn in Xc. now rewrite map_id in Xc. }
    assert (Nd : NoDup (map r_wmo Y)). { rewrite W. apply (Permutation_NoDup (isort_perm _ _)), unique_NoDup, String.eqb_refl. }
    assert (Iy : In s (map r_wmo Y)). { rewrite W. unfold sites_of. apply (Permutation_in _ (isort_perm _ _)). apply unique_iff; [apply String.eqb_eq|exact Is]. }
    assert (V : forall r, In r Y -> r_wmo r = s -> r_value r = cell T3 s d 0). { intros r I' Ew. assert (Ic : In (core r) (map core Y)) by now apply in_map. rewrite Xc in Ic. apply in_map_iff in Ic as (s' & Es & _). unfold core in Es. apply pair_equal_spec in Es as [Es <-]. apply pair_equal_spec in Es as [Es _]. apply pair_equal_spec in Es as [Es _]. now rewrite Es, Ew. }
    clear Xc W Ek E. clearbody Y. clear -Nd Iy V. induction Y as [|r Y IH]; [destruct Iy|]. cbn [map] in *. inversion Nd as [|? ? N1 N2]; subst. cbn [filter]. destruct (String.eqb s (r_wmo r)) eqn:Es.
    + apply String.eqb_eq in Es. exists r. split; [|apply V; [now left|now symmetry]]. f_equal. apply filter_none. intros y Y1. apply String.eqb_neq. intros ->. apply N1. rewrite <- Es. now apply in_map.
    + destruct Iy as [Iy|Iy]; [apply String.eqb_neq in Es; congruence|]. apply IH; [exact N2|exact Iy|]. intros y Y1. apply V. now right.
  - right. split.
    + apply filter_none. intros r I'. apply not_true_iff_false. intro K. apply at_key_iff in K as (_ & -> & _). apply Nd. destruct (H_keys T3 Tt C r I') as (_ & A & _). exact A.
    + unfold cell. destruct (find (at_key s d 0) T3) as [r|] eqn:Fr; [|reflexivity]. exfalso. apply find_some in Fr as [R1 R2]. apply at_key_iff in R2 as (_ & -> & _). apply Nd. now apply in_map.
  - right. split.
    + apply filter_none. intros r I'. apply not_true_iff_false. intro K. apply at_key_iff in K as (-> & _). apply Ns. destruct (H_keys T3 Tt C r I') as (A & _). exact A.
    + unfold cell. destruct (find (at_key s d 0) T3) as [r|] eqn:Fr; [|reflexivity]. exfalso. apply find_some in Fr as [R1 R2]. apply at_key_iff in R2 as (-> & _). apply Ns. now apply in_map.
Qed.

Lemma flat_if {A B} (c : A -> bool) (h : A -> list B) l : flat_map (fun s => if c s then h s else []) l = flat_map h (filter c l).
Proof. induction l as [|a l IH]; cbn; [reflexivity|]. destruct (c a); cbn; now rewrite IH. Qed.
Lemma flat_single_map {A B} (h : A -> list B) (k : A -> B) l : (forall x, In x l -> h x = [k x]) -> flat_map h l = map k l.
Proof. intro E. induction l as [|a l IH]; cbn; [reflexivity|]. rewrite E by now left. cbn. f_equal. apply IH. intros x I'. apply E. now right. Qed.
Section truth.
Variables (g : string) (F G T3 Tt : list row).
Hypothesis Dg : Forall (fun r => diag r = Some g) G.
Hypothesis Cg : map core G = map core (completed F).
Hypothesis Dt : Forall (fun r => diag r = Some g) Tt.
Hypothesis Ct : map core Tt = map core (completed T3).
Hypothesis D3 : Forall (fun r => diag r = Some g) T3.
Hypothesis Z3 : Forall (fun r => r_rep r = 0) T3.
Let H := isort row_leb G.
Let M := merge_right (isort row_leb Tt) H.
Let h (s : row) : list row := match filter (fun r => same_row r s) (isort row_leb Tt) with
                     | [] => [s]
                     | m => map (fun r => {| r_wmo := r_wmo s; r_time := r_time s; r_rep := 0; r_value := r_value r; r_statics := r_statics s |}) m
                     end.
Let U := unique subset_eqb (map subset_of H).
Lemma M_eq : M = flat_map h U. Proof. reflexivity. Qed.
Lemma h_in s r : In r (h s) -> r_wmo r = r_wmo s /\ r_time r = r_time s /\ r_statics r = r_statics s.
Proof. unfold h. destruct (filter _ _) as [|q m]; [intros [<-|[]]; auto|]. intro I'. apply in_map_iff in I' as (x & <- & _). auto. Qed.
Lemma h_some s : exists r, In r (h s).
Proof. unfold h. destruct (filter _ _) as [|q m]; [exists s; now left|]. eexists. left. reflexivity. Qed.
Lemma M_times d : has_time M d = has_time H d.
Proof.
  apply eq_true_iff_eq. unfold has_time. rewrite !existsb_exists. split.
  - intros (r & I' & E). rewrite M_eq in I'. apply in_flat_map in I' as (s & S1 & R1). apply h_in in R1 as (_ & R1 & _). apply unique_in in S1. apply in_map_iff in S1 as (q & <- & Q1). exists q. split; [exact Q1|]. rewrite R1 in E. exact E.
  - intros (r & I' & E). assert (Is : In (subset_of r) (map subset_of H)) by now apply in_map. destruct (unique_covers subset_eqb _ _ (e_refl _ equiv_subset) (e_trans _ equiv_subset) Is) as (s & S1 & S2). destruct (h_some s) as (q & Q1). exists q. split; [rewrite M_eq; apply in_flat_map; eauto|]. apply h_in in Q1 as (_ & Q1 & _). rewrite Q1. unfold subset_eqb in S2. apply andb_true_iff in S2 as [S2 _]. apply andb_true_iff in S2 as [_ S2]. apply Z.eqb_eq in S2. now rewrite S2.
Qed.
Definition truth_row_of (d : Z) (x : row) : row := {| r_wmo := r_wmo x; r_time := d; r_rep := 0; r_value := cell T3 (r_wmo x) d 0; r_statics := r_statics x |}.
Lemma M_rows d p0 l0 : in_times F d -> reps_of F = p0 :: l0 -> (forall x y, In x (X G d p0) -> In y (rows_at G d) -> r_wmo x = r_wmo y -> statics_eqb (r_statics x) (r_statics y) = true) ->
  filter (fun r => (r_time r =? d)%Z) M = map (truth_row_of d) (X G d p0).
Proof.
  intros T E Agree. rewrite M_eq, filter_flat. rewrite (flat_map_cong _ (fun s => if (r_time s =? d)%Z then h s else [])).
  2: { intros s _. destruct (r_time s =? d)%Z eqn:Es; [apply filter_all|apply filter_none]; intros r I'; apply h_in in I' as (_ & I' & _); now rewrite I'. }
  rewrite flat_if. unfold U. rewrite (unique_filter subset_eqb (fun r => (r_time r =? d)%Z)). 2: { intros x y Exy. unfold subset_eqb in Exy. apply andb_true_iff in Exy as [Exy _]. apply andb_true_iff in Exy as [_ Exy]. apply Z.eqb_eq in Exy. now rewrite Exy. }
  rewrite filter_map. cbn [subset_of r_time]. change (filter (fun x => (r_time x =? d)%Z) H) with (rows_at G d). assert (P0 : In p0 (reps_of F)) by (rewrite E; now left). pose proof (X_wmo g F G Dg Cg d p0 T P0) as W.
  assert (Eu : unique subset_eqb (map subset_of (rows_at G d)) = map subset_of (X G d p0)).
  { rewrite (rows_split g F G Dg Cg d p0 l0 T E), map_app. rewrite unique_absorb; [|exact (e_refl _ equiv_subset)|exact (e_trans _ equiv_subset)|].
    - apply unique_distinct. assert (Nd : NoDup (map r_wmo (X G d p0))) by (rewrite W; apply (Permutation_NoDup (isort_perm _ _)), unique_NoDup, String.eqb_refl). clear -Nd. induction (X G d p0) as [|x l IH]; [constructor|]. cbn [map] in *. inversion Nd as [|? ? N1 N2]; subst. constructor; [|now apply IH]. apply Forall_map, Forall_forall. intros y Y. unfold subset_eqb. cbn [subset_of r_wmo]. replace (String.eqb (r_wmo x) (r_wmo y)) with false; [reflexivity|]. symmetry. apply String.eqb_neq. intro Ew. apply N1. rewrite Ew. now apply in_map.
    - intros y Iy. apply in_map_iff in Iy as (r & <- & Ir). apply filter_In in Ir as [Ir _]. assert (Iw : In (r_wmo r) (map r_wmo (X G d p0))). { rewrite W. unfold sites_of. apply (Permutation_in _ (isort_perm _ _)). apply unique_iff; [apply String.eqb_eq|]. apply (H_keys F G Cg). unfold rows_at in Ir. now apply filter_In in Ir. }
      apply in_map_iff in Iw as (x & Ex & Ix). exists (subset_of x). split; [now apply in_map|]. unfold subset_eqb. cbn [subset_of r_wmo r_time r_statics]. rewrite (Agree x r Ix Ir Ex), Ex, String.eqb_refl. destruct (rows_in F G Cg d r Ir) as (-> & _). unfold X in Ix. apply filter_In in Ix as [_ Ix]. apply andb_true_iff in Ix as [Ix _]. rewrite Z.eqb_sym. rewrite Ix. reflexivity. }
  rewrite Eu. rewrite flat_map_concat_map, map_map, <- flat_map_concat_map. apply flat_single_map. intros x Ix. unfold h. pose proof Ix as Ix2. unfold X in Ix2. apply filter_In in Ix2 as [Ih Ix2]. apply andb_true_iff in Ix2 as [Et _]. apply Z.eqb_eq in Et.
  assert (Dx : st_diag (r_statics x) = Some g) by exact (H_diag g G Dg x Ih). unfold subset_of. rewrite <- Et. destruct (truth_matches g T3 Tt (r_wmo x) d (r_statics x) Ct Dt Z3 D3 Dx) as [(r & -> & Ev)|(-> & Ev)]; cbn [map r_wmo r_time r_statics]; unfold truth_row_of; now rewrite Ev.
Qed.
Lemma M_diag r : In r M -> diag r = Some g.
Proof. intro I'. rewrite M_eq in I'. apply in_flat_map in I' as (s & S1 & R1). apply h_in in R1 as (_ & _ & R1). unfold diag. rewrite R1. apply unique_in in S1. apply in_map_iff in S1 as (q & <- & Q1). exact (H_diag g G Dg q Q1). Qed.
End truth.

(** ** Merging *)
Notation dated := (Z * option (Z * Z) * list (Q * spot))%type.
Lemma merge_some (l : list dated) c : merge l = Ok (Some c) <-> exists s r, flat_map (fun d => map snd (snd d)) l = s :: r /\ l <> [] /\ (forall s', In s' (s :: r) -> mergeable s s' = true) /\
  (forall d e, hd_error l = Some d -> In e l -> reps_eqb (map fst (snd d)) (map fst (snd e)) = true) /\ c = {| c_sites := sp_sites s; c_fields := map (fun e => (fst e, map (fun p => (fst p, sp_values (snd p))) (snd e))) l |}.
Proof.
  unfold merge. destruct l as [|d l]; [split; [discriminate|intros (s & r & _ & N & _); congruence]|]. destruct (flat_map _ (d :: l)) as [|s r] eqn:E; [split; [discriminate|intros (s & r & X & _); discriminate]|].
  destruct (forallb (mergeable s) r && forallb _ (d :: l)) eqn:C.
  - apply andb_true_iff in C as [C1 C2]. rewrite forallb_forall in C1, C2. split.
    + intro H. injection H as <-. exists s, r. split; [reflexivity|]. split; [discriminate|]. split; [intros s' [<-|I']; [apply (e_refl _ equiv_spot)|now apply C1]|]. split; [|reflexivity]. intros d' e Hd I'. cbn in Hd. injection Hd as <-. now apply C2.
    + intros (s' & r' & X & _ & _ & _ & ->). injection X as <- <-. reflexivity.
  - split; [discriminate|]. intros (s' & r' & X & _ & A & B & _). injection X as <- <-. exfalso. apply andb_false_iff in C as [C|C]; apply not_true_iff_false in C; apply C; apply forallb_forall; intros y Y; [apply A; now right|now apply (B d y)].
Qed.
Lemma merge_none (l : list dated) : merge l = Ok None <-> l = [].
Proof. unfold merge. destruct l as [|d l]; [split; reflexivity|]. split; [|discriminate]. destruct (flat_map _ (d :: l)); [discriminate|]. destruct (_ && _); discriminate. Qed.
Lemma reps_eqb_refl l : reps_eqb l l = true.
Proof. induction l; cbn; [reflexivity|]. now rewrite Qeqb_refl. Qed.
