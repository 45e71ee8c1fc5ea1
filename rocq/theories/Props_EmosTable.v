(** C130: estimating coefficients from tables: what is read, what the estimation is given, and when nothing is done. *)
From Verif Require Import Base Model_Frames Spec_Frames Proofs_Frames Proofs_FramesCube Props_Frames Model_EmosTable.
Local Open Scope Q_scope.

(** ** The cycles that are read *)
Lemma cycles_iff cycle period n b t : t = (b + period)%Z -> (In b (cycles cycle period n) <-> In t (training_dates cycle period n)).
Proof.
  intros ->. unfold cycles, training_dates. rewrite !in_map_iff. split; intros (k & E & K); exists k; (split; [lia|exact K]).
Qed.
(** They are as many as the training length, a day apart, at the hour of the cycle, the last at least a day before it; what they forecast for the period asked for are exactly the training dates, all before the cycle. *)
Theorem C130_cycles cycle period n : (0 <= period)%Z -> length (cycles cycle period n) = n /\
  (forall b, In b (cycles cycle period n) -> (b <= cycle - 86400)%Z /\ ((cycle - b) mod 86400 = 0)%Z /\ (b + period < cycle)%Z) /\
  (forall b, In b (cycles cycle period n) <-> In (b + period)%Z (training_dates cycle period n)).
Proof.
  intro P. split; [unfold cycles; now rewrite map_length, seq_length|]. split.
  - intros b B. split; [|split].
    + unfold cycles in B. apply in_map_iff in B as (k & <- & K). apply in_seq in K. unfold day. pose proof (Z.div_pos period 86400 P ltac:(lia)). nia.
    + unfold cycles in B. apply in_map_iff in B as (k & <- & K). unfold day. replace (cycle - (cycle - 86400 - 86400 * (period / 86400) - 86400 * (Z.of_nat n - 1 - Z.of_nat k)))%Z with ((1 + period / 86400 + (Z.of_nat n - 1 - Z.of_nat k)) * 86400)%Z by ring. apply Z.mod_mul. lia.
    + apply (cycles_iff cycle period n b (b + period) eq_refl) in B. apply (C101_dates cycle period n) in B. lia.
  - intro b. now apply cycles_iff.
Qed.

(** ** What the table says of a diagnostic *)
(** The rows about the diagnostic, whatever their cycles. *)
Definition all_rows (g : string) (l : list table_row) : list forecast_row := map tb_row (filter (fun r => about_diagnostic g (st_diag (r_statics (fr_row (tb_row r))))) l).
(** Of these the rows about some times. *)
Definition rows_at (dates : list Z) (l : list forecast_row) : list forecast_row := filter (fun r => existsb (Z.eqb (r_time (fr_row r))) dates) l.
(** The time of a row is that of its cycle and its period after it. *)
Definition in_step (l : list table_row) : Prop := forall r, In r l -> r_time (fr_row (tb_row r)) = (tb_blend r + fr_period (tb_row r))%Z.
Lemma in_existsb t l : existsb (Z.eqb t) l = true <-> In t l.
Proof. rewrite existsb_exists. split; [intros (x & X & E); apply Z.eqb_eq in E; now subst|intro H; exists t; split; [exact H|apply Z.eqb_refl]]. Qed.
Section spec.
Variables (experiment : option string) (period : Z) (percentiles : list Q) (ts : list truth_row).
Notation u := (used experiment period percentiles).
Lemma existsb_used (f : forecast_row -> bool) l : existsb (fun r => u r && f r) l = existsb f (filter u l).
Proof. induction l as [|r l IH]; [reflexivity|]. cbn [existsb filter]. destruct (u r); cbn [existsb andb orb]; now rewrite IH. Qed.
Lemma shared_ext l l' s : filter u l = filter u l' -> shared experiment period percentiles l ts s = shared experiment period percentiles l' ts s.
Proof. intro E. unfold shared. now rewrite !existsb_used, E. Qed.
Lemma existsb_ext {A} (f h : A -> bool) l : (forall x, f x = h x) -> existsb f l = existsb h l.
Proof. intro E. induction l as [|x l IH]; [reflexivity|]. cbn. now rewrite E, IH. Qed.
Lemma paired_ext l l' t : filter u l = filter u l' -> paired experiment period percentiles l ts t = paired experiment period percentiles l' ts t.
Proof.
  intro E. unfold paired. f_equal.
  - rewrite (existsb_ext (fun r => u r && shared experiment period percentiles l ts (r_wmo (fr_row r)) && (t =? r_time (fr_row r))%Z) (fun r => u r && (shared experiment period percentiles l' ts (r_wmo (fr_row r)) && (t =? r_time (fr_row r))%Z)) l) by (intro r; now rewrite (shared_ext l l' _ E), andb_assoc).
    rewrite (existsb_ext (fun r => u r && shared experiment period percentiles l' ts (r_wmo (fr_row r)) && (t =? r_time (fr_row r))%Z) (fun r => u r && (shared experiment period percentiles l' ts (r_wmo (fr_row r)) && (t =? r_time (fr_row r))%Z)) l') by (intro r; now rewrite andb_assoc).
    now rewrite !existsb_used, E.
  - apply existsb_ext. intro r. now rewrite (shared_ext l l' _ E).
Qed.
Lemma in_used l l' r : filter u l = filter u l' -> In r l -> u r = true -> In r l'.
Proof. intros E I' U. assert (X : In r (filter u l)) by (apply filter_In; auto). rewrite E in X. now apply filter_In in X as (X & _). Qed.
Lemma kept_ext l l' s : filter u l = filter u l' -> kept experiment period percentiles l ts s <-> kept experiment period percentiles l' ts s.
Proof.
  assert (H : forall a b, filter u a = filter u b -> kept experiment period percentiles a ts s -> kept experiment period percentiles b ts s).
  { intros a b E (S1 & r & R1 & R2 & R3 & R4). split; [now rewrite <- (shared_ext a b s E)|]. exists r. split; [exact (in_used a b r E R1 R2)|]. split; [exact R2|]. split; [exact R3|]. now rewrite <- (paired_ext a b _ E). }
  intro E. split; apply H; congruence.
Qed.
Lemma represented_ext l l' p : filter u l = filter u l' -> represented experiment period percentiles l ts p <-> represented experiment period percentiles l' ts p.
Proof.
  assert (H : forall a b, filter u a = filter u b -> represented experiment period percentiles a ts p -> represented experiment period percentiles b ts p).
  { intros a b E (r & R1 & R2 & R3 & R4 & R5). exists r. split; [exact (in_used a b r E R1 R2)|]. split; [exact R2|]. split; [now rewrite <- (shared_ext a b _ E)|]. split; [now rewrite <- (paired_ext a b _ E)|exact R5]. }
  intro E. split; apply H; congruence.
Qed.
Lemma find_used (f : forecast_row -> bool) l : find (fun r => u r && f r) l = find f (filter u l).
Proof. induction l as [|r l IH]; [reflexivity|]. cbn [find filter]. destruct (u r); cbn [andb find]; [now rewrite IH|exact IH]. Qed.
Lemma forecast_ext l l' s t p : filter u l = filter u l' -> forecast_for experiment period percentiles l s t p = forecast_for experiment period percentiles l' s t p.
Proof.
  intro E. unfold forecast_for. rewrite !find_used. replace (filter u (rev l)) with (filter u (rev l')); [reflexivity|].
  assert (F : forall k, filter u (rev k) = rev (filter u k)). { induction k as [|r k IH]; [reflexivity|]. cbn [rev filter]. rewrite filter_app, IH. cbn [filter]. destruct (u r); cbn [rev]; [reflexivity|apply app_nil_r]. }
  now rewrite !F, E.
Qed.
(** The rows that are not about a time do not matter for the forecast at that time. *)
Lemma forecast_at dates l s t p : In t dates -> forecast_for experiment period percentiles (rows_at dates l) s t p = forecast_for experiment period percentiles l s t p.
Proof.
  intro D. unfold forecast_for, rows_at. replace (find _ (rev (filter (fun r => existsb (Z.eqb (r_time (fr_row r))) dates) l))) with (find (fun r => u r && (String.eqb s (r_wmo (fr_row r)) && (t =? r_time (fr_row r))%Z && Qeq_bool p (r_rep (fr_row r)))) (rev l)); [reflexivity|].
  assert (F : forall (f : forecast_row -> bool) k, filter f (rev k) = rev (filter f k)). { intros f k. induction k as [|r k IH]; [reflexivity|]. cbn [rev filter]. rewrite filter_app, IH. cbn [filter]. destruct (f r); cbn [rev]; [reflexivity|apply app_nil_r]. }
  rewrite <- F. induction (rev l) as [|r k IH]; [reflexivity|]. cbn [find filter]. destruct (existsb (Z.eqb (r_time (fr_row r))) dates) eqn:E; cbn [find]; [now rewrite IH|].
  replace (t =? r_time (fr_row r))%Z with false; [rewrite andb_false_r, andb_false_l, andb_false_r; exact IH|]. symmetry. apply Z.eqb_neq. intro X. rewrite <- X in E. apply in_existsb in D. congruence.
Qed.
End spec.
Lemma filter_both {A} (f h : A -> bool) l : filter f (filter h l) = filter (fun x => h x && f x) l.
Proof. induction l as [|x l IH]; [reflexivity|]. cbn. destruct (h x); cbn; [destruct (f x); now rewrite IH|exact IH]. Qed.
Lemma filter_maps {A B} (k : A -> B) (f : B -> bool) l : filter f (map k l) = map k (filter (fun x => f (k x)) l).
Proof. induction l as [|x l IH]; [reflexivity|]. cbn. destruct (f (k x)); cbn; now rewrite IH. Qed.
(** Reading by cycle is the same, for the period asked for, as choosing by time. *)
Lemma read_used g experiment period percentiles cycle n l : in_step l ->
  filter (used experiment period percentiles) (read_forecasts g (cycles cycle period n) l) = filter (used experiment period percentiles) (rows_at (training_dates cycle period n) (all_rows g l)).
Proof.
  intro A. unfold read_forecasts, rows_at, all_rows. rewrite !filter_maps, !filter_both. f_equal.
  assert (E : forall r, In r l -> (about_diagnostic g (st_diag (r_statics (fr_row (tb_row r)))) && existsb (Z.eqb (tb_blend r)) (cycles cycle period n) && used experiment period percentiles (tb_row r)) =
     (about_diagnostic g (st_diag (r_statics (fr_row (tb_row r)))) && (existsb (Z.eqb (r_time (fr_row (tb_row r)))) (training_dates cycle period n) && used experiment period percentiles (tb_row r)))).
  { intros r R. rewrite <- andb_assoc. f_equal. destruct (used experiment period percentiles (tb_row r)) eqn:U; [|now rewrite !andb_false_r]. rewrite !andb_true_r.
    assert (P : fr_period (tb_row r) = period). { unfold used in U. apply andb_prop in U as (U & _). apply andb_prop in U as (_ & U). now apply Z.eqb_eq in U. }
    apply eq_true_iff_eq. rewrite !in_existsb. apply cycles_iff. rewrite (A r R), P. reflexivity. }
  clear A. induction l as [|r l IH]; [reflexivity|]. cbn [filter]. rewrite E by now left. rewrite IH by (intros q Q'; apply E; now right). reflexivity.
Qed.
Lemma about_read g cs l ts : about (read_forecasts g cs l) (read_truths g ts) g.
Proof.
  assert (A : forall d, about_diagnostic g d = true -> d = Some g). { intros [h|] E; [|discriminate]. cbn in E. apply String.eqb_eq in E. now subst. }
  split.
  - apply Forall_forall. intros r R. unfold read_forecasts in R. apply in_map_iff in R as (q & <- & Q'). apply filter_In in Q' as (_ & E). apply andb_prop in E as (E & _). now apply A.
  - apply Forall_forall. intros r R. apply filter_In in R as (_ & E). now apply A.
Qed.

(** ** What the estimation is given *)
(** If something is estimated, it is from one forecast cube and one truth cube about the same sites, in order of their identifiers, whose times are the training dates for which the whole tables have both; each forecast and each truth is that of the last row of the whole table about the diagnostic, site and time (and period, percentile, experiment). *)
Theorem C130_given {R} (estimate : cube -> cube -> list (list (string * Q)) -> result R) rp g cycle period n percentiles experiment forecasts truths additional r :
  in_step forecasts -> command estimate rp g cycle period n percentiles experiment forecasts truths additional = Ok (Some r) ->
  exists f t aps, estimate f t aps = Ok r /\
    let at_dates := rows_at (training_dates cycle period n) (all_rows g forecasts) in
    let ts := filter (fun q => match tr_diag q with Some d => String.eqb g d | None => false end) truths in
    let sites := map fst (c_sites f) in
    let dates := filter (paired experiment period percentiles at_dates ts) (training_dates cycle period n) in
    ordered_names sites /\ (forall s, In s sites <-> kept experiment period percentiles at_dates ts s) /\ c_sites t = c_sites f /\ ts <> [] /\
    (exists reps bounds, qssorted reps /\ (forall p, represented experiment period percentiles at_dates ts p <-> exists q, In q reps /\ q == p) /\
      c_fields f = map (fun d => (d, bounds d, combine (labels rp reps) (map (fun p => map (fun s => forecast_for experiment period percentiles (all_rows g forecasts) s d p) sites) reps))) dates /\
      c_fields t = map (fun d => (d, bounds d, [(0, map (fun s => truth_for ts s d) sites)])) dates) /\
    Forall2 (fun a a' => a' = filter (fun e => existsb (String.eqb (fst e)) sites) a /\ a' <> []) additional aps.
Proof.
  intros Al H. unfold command in H. change (read_truths g truths) with (filter (fun q => about_diagnostic g (tr_diag q)) truths) in H. set (ts := filter (fun q => about_diagnostic g (tr_diag q)) truths) in H. set (fs := read_forecasts g (cycles cycle period n) forecasts) in H.
  assert (H' : ts <> [] /\ (let* (f, t) := to_cubes rp cycle period n percentiles experiment fs ts in match f, t with Some f, Some t => let* aps := mapM (at_sites (map fst (c_sites t))) additional in let* r := estimate f t aps in Ok (Some r) | _, _ => Ok None end) = Ok (Some r)) by (destruct ts; [discriminate|split; [discriminate|exact H]]).
  destruct H' as (Nt & H'). clear H. rename H' into H. destruct (to_cubes rp cycle period n percentiles experiment fs ts) as [[fo to]|] eqn:T; cbn [bind] in H; [|discriminate]. destruct fo as [f|]; [|discriminate]. destruct to as [t|]; [|discriminate].
  destruct (mapM _ additional) as [aps|] eqn:M; cbn [bind] in H; [|discriminate]. destruct (estimate f t aps) as [r'|] eqn:Es; cbn [bind] in H; [|discriminate]. apply Ok_inj in H. injection H as ->.
  exists f, t, aps. split; [exact Es|]. cbv zeta. change (filter (fun q => match tr_diag q with Some d => String.eqb g d | None => false end) truths) with ts.
  assert (Ab : about fs ts g) by (unfold fs, ts; apply (about_read g)). pose proof (read_used g experiment period percentiles cycle n forecasts Al) as U. fold fs in U. set (at_dates := rows_at (training_dates cycle period n) (all_rows g forecasts)) in *.
  destruct (C101_values g rp cycle period n percentiles experiment fs ts f (Some t) Ab T) as (V1 & V2 & c & reps & bounds & Ec & V3 & V4 & V5 & V6 & V7). injection Ec as <-.
  assert (D : filter (paired experiment period percentiles fs ts) (training_dates cycle period n) = filter (paired experiment period percentiles at_dates ts) (training_dates cycle period n)) by (apply filter_ext; intro d; now apply paired_ext).
  split; [exact V1|]. split; [intro s; rewrite V2; now apply kept_ext|]. split; [exact V3|]. split; [exact Nt|]. split.
  - exists reps, bounds. split; [exact V4|]. split; [intro p; rewrite <- V5; symmetry; now apply represented_ext|]. rewrite <- D. split; [|exact V7]. rewrite V6. apply map_ext_in. intros d I'. apply filter_In in I' as (I' & _). do 2 f_equal. apply map_ext. intro p. apply map_ext. intro s. rewrite (forecast_ext experiment period percentiles fs at_dates s d p U). now apply forecast_at.
  - rewrite <- V3. clear -M. revert aps M. induction additional as [|a l IH]; intros aps M; cbn [mapM] in M; [injection M as <-; constructor|]. destruct (at_sites _ a) as [a'|] eqn:E; cbn [bind] in M; [|discriminate]. destruct (mapM _ l) as [l'|]; cbn [bind] in M; [|discriminate]. injection M as <-. constructor; [|now apply IH]. unfold at_sites in E. destruct (filter _ a) as [|e k]; [discriminate|]. injection E as <-. split; [reflexivity|discriminate].
Qed.
(** Without truths of the diagnostic the command fails; it does nothing only if no training date has both a forecast and a truth. *)
Theorem C130_no_truth {R} (estimate : cube -> cube -> list (list (string * Q)) -> result R) rp g cycle period n percentiles experiment forecasts truths additional :
  (forall q, In q truths -> tr_diag q <> Some g) -> command estimate rp g cycle period n percentiles experiment forecasts truths additional = Err FileNotFound.
Proof.
  intro H. unfold command. replace (read_truths g truths) with (@nil truth_row); [reflexivity|]. symmetry. unfold read_truths. induction truths as [|q l IH]; [reflexivity|]. cbn [filter]. destruct (about_diagnostic g (tr_diag q)) eqn:E.
  - exfalso. apply (H q (or_introl eq_refl)). unfold about_diagnostic in E. destruct (tr_diag q); [|discriminate]. apply String.eqb_eq in E. now subst.
  - apply IH. intros p P. apply H. now right.
Qed.
Theorem C130_nothing {R} (estimate : cube -> cube -> list (list (string * Q)) -> result R) rp g cycle period n percentiles experiment forecasts truths additional :
  in_step forecasts -> command estimate rp g cycle period n percentiles experiment forecasts truths additional = Ok None ->
  filter (paired experiment period percentiles (rows_at (training_dates cycle period n) (all_rows g forecasts)) (filter (fun q => match tr_diag q with Some d => String.eqb g d | None => false end) truths)) (training_dates cycle period n) = [].
Proof.
  intros Al H. unfold command in H. change (read_truths g truths) with (filter (fun q => about_diagnostic g (tr_diag q)) truths) in H. change (fun q : truth_row => match tr_diag q with Some d => String.eqb g d | None => false end) with (fun q => about_diagnostic g (tr_diag q)). set (ts := filter (fun q => about_diagnostic g (tr_diag q)) truths) in *. set (fs := read_forecasts g (cycles cycle period n) forecasts) in H.
  assert (H' : (let* (f, t) := to_cubes rp cycle period n percentiles experiment fs ts in match f, t with Some f, Some t => let* aps := mapM (at_sites (map fst (c_sites t))) additional in let* r := estimate f t aps in Ok (Some r) | _, _ => Ok None end) = Ok None) by (destruct ts; [discriminate|exact H]).
  clear H. rename H' into H. assert (Ab : about fs ts g) by (unfold fs, ts; apply (about_read g)). pose proof (read_used g experiment period percentiles cycle n forecasts Al) as U. fold fs in U.
  destruct (to_cubes rp cycle period n percentiles experiment fs ts) as [[fo to]|] eqn:T; cbn [bind] in H; [|discriminate]. destruct fo as [f|].
  - destruct (C101_values g rp cycle period n percentiles experiment fs ts f to Ab T) as (_ & _ & c & _ & _ & -> & _). destruct (mapM _ additional); cbn [bind] in H; [|discriminate]. destruct (estimate f c _); cbn [bind] in H; discriminate.
  - destruct (C101_nothing g rp cycle period n percentiles experiment fs ts to Ab T) as (_ & E). rewrite <- E. apply filter_ext. intro d. symmetry. now apply paired_ext.
Qed.

(** ** Additional predictors *)
From Verif Require Import Props_Rainforests.
Lemma ordered_unique (l m : list string) : ordered_names l -> ordered_names m -> (forall s, In s l <-> In s m) -> l = m.
Proof.
  intros L. revert m. induction L as [|x l L IH F]; intros m M E.
  - destruct m as [|y m]; [reflexivity|]. exfalso. now apply (proj2 (E y)); left.
  - destruct m as [|y m]; [exfalso; now apply (proj1 (E x)); left|]. inversion M as [|y' m' M' G]; subst. rewrite Forall_forall in F, G.
    assert (X : x = y). { destruct (proj1 (E x) (or_introl eq_refl)) as [X|X]; [now symmetry|]. destruct (proj2 (E y) (or_introl eq_refl)) as [Y|Y]; [exact Y|]. exfalso. apply (str_lt_irrefl x). eapply str_compare_trans; [apply F, Y|apply G, X]. }
    subst y. f_equal. apply IH; [exact M'|]. intro s. split; intro S'.
    + destruct (proj1 (E s) (or_intror S')) as [X|X]; [|exact X]. subst s. exfalso. apply (str_lt_irrefl x). now apply F.
    + destruct (proj2 (E s) (or_intror S')) as [X|X]; [|exact X]. subst s. exfalso. apply (str_lt_irrefl x). now apply G.
Qed.
Lemma ordered_filter {A} (key : A -> string) (f : A -> bool) l : ordered_names (map key l) -> ordered_names (map key (filter f l)).
Proof.
  unfold ordered_names. induction l as [|x l IH]; cbn [map filter]; intro H; [constructor|]. inversion H as [|k m M F]; subst. destruct (f x); cbn [map]; [|now apply IH]. constructor; [now apply IH|].
  rewrite Forall_forall in F |- *. intros s S'. apply in_map_iff in S' as (y & <- & Y). apply filter_In in Y as (Y & _). apply F. now apply in_map.
Qed.
(** A predictor in the order of the site identifiers that has all the sites is handed over at exactly the sites of the cubes, in their order, with its own values. *)
Theorem C130_predictors (a : list (string * Q)) (sites : list string) : ordered_names (map fst a) -> ordered_names sites -> sites <> [] -> (forall s, In s sites -> In s (map fst a)) ->
  exists a', at_sites sites a = Ok a' /\ map fst a' = sites /\ (forall e, In e a' -> In e a).
Proof.
  intros A S' N I'. assert (E : map fst (filter (fun e => existsb (String.eqb (fst e)) sites) a) = sites).
  { apply ordered_unique; [now apply ordered_filter|exact S'|]. intro s. rewrite in_map_iff. split.
    - intros (e & <- & X). apply filter_In in X as (_ & X). apply existsb_exists in X as (y & Y & X). apply String.eqb_eq in X. now rewrite X.
    - intro X. pose proof (I' s X) as Y. apply in_map_iff in Y as (e & <- & Y). exists e. split; [reflexivity|]. apply filter_In. split; [exact Y|]. apply existsb_exists. exists (fst e). split; [exact X|apply String.eqb_refl]. }
  unfold at_sites. destruct (filter _ a) as [|e l] eqn:F; [exfalso; apply N; now rewrite <- E|]. exists (e :: l). split; [reflexivity|]. split; [exact E|]. intros x X. rewrite <- F in X. now apply filter_In in X.
Qed.
(** In general what is handed over are the predictor's values at those of its sites that the cubes have, in the order of the predictor: a predictor in another order, or without some site, is handed over like that without complaint. *)
Definition reached : cube -> cube -> list (list (string * Q)) -> result (list string * list (list (string * Q))) := fun f t aps => Ok (map fst (c_sites t), aps).
Definition in_table (r : forecast_row) : table_row := {| tb_blend := r_time (fr_row r) - fr_period r; tb_row := r |}.
Definition both : list table_row := map in_table (corrected "a" (Some 10) (Some 10) (Some 10) ++ corrected "b" (Some 7) (Some 7) (Some 7)).
Lemma both_in_step : in_step both.
Proof. unfold in_step, both. intros r R. apply in_map_iff in R as (q & <- & _). unfold in_table. cbn [tb_blend tb_row]. lia. Qed.
Theorem C130_predictors_refuted :
  command reached Realizations "temperature" 864000 21600 3 [] None both (truths_of "a" ++ truths_of "b") [[("b"%string, 1); ("a"%string, 2)]; [("b"%string, 3)]] =
  Ok (Some (["a"; "b"]%string, [[("b"%string, 1); ("a"%string, 2)]; [("b"%string, 3)]])).
Proof. vm_compute. reflexivity. Qed.
(** Two sites; a third without truths; rows of another diagnostic, cycle and period are left out; the third date has no truths. *)
Definition other_period (s : string) (t : Z) (v : Q) : table_row := {| tb_blend := t - 3600; tb_row := {| fr_experiment := "e"; fr_period := 3600; fr_row := fr_row (sample s t 0 v (Some 10)) |} |}.
Example C130_case : let forecasts := both ++ [other_period "a" d1 99; in_table (sample "c" d1 0 5 (Some 1)); in_table (sample "a" (d1 - 86400) 0 98 (Some 10))] in
  in_step forecasts /\
  command (fun f t aps => Ok (map fst (c_sites f), c_fields f, c_fields t, aps)) Realizations "temperature" 864000 21600 3 [] None forecasts ([seen "a" d1 2; seen "b" d1 3; seen "b" d2 4; seen "a" (d1 - 86400) 1]) [[("a"%string, 1); ("b"%string, 2); ("z"%string, 3)]] =
  Ok (Some (["a"; "b"]%string, [(d1, None, [(0, [Some 1; Some 1])]); (d2, None, [(0, [Some 1; Some 1])])], [(d1, None, [(0, [Some 2; Some 3])]); (d2, None, [(0, [None; Some 4])])], [[("a"%string, 1); ("b"%string, 2)]])) /\
  command reached Realizations "wind_speed" 864000 21600 3 [] None forecasts (truths_of "a") [] = Err FileNotFound.
Proof.
  cbv zeta. split; [|split; vm_compute; reflexivity]. intros r R. apply in_app_or in R as [R|R]; [now apply both_in_step|]. repeat (destruct R as [<-|R]; [vm_compute; reflexivity|]). destruct R.
Qed.

Print Assumptions C130_cycles.
Print Assumptions C130_given.
Print Assumptions C130_no_truth.
Print Assumptions C130_nothing.
Print Assumptions C130_predictors.
Print Assumptions C130_predictors_refuted.
