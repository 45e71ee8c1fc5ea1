(** C111: saving files. *)
From Coq Require Import String Permutation.
From Verif Require Import Base Model_Manip Model_Attributes Props_Attributes Model_Probability Model_Times Props_Times Props_Rainforests Model_Save.
Local Open Scope string_scope.

(** ** Files *)
Section Files.
Context {P : Type}.
(** A disk without two names for one file. *)
Definition sound (d : disk P) : Prop := (forall n m i, dk_names d n = Some i -> dk_names d m = Some i -> n = m) /\ (forall n i, dk_names d n = Some i -> (i < dk_next d)%nat).
(** Processes that save to different files, none of which is the temporary file of another. *)
Definition separate (ps : list (process P)) : Prop := forall i j p q, i <> j -> nth_error ps i = Some p -> nth_error ps j = Some q -> pr_target p <> pr_target q /\ pr_target p <> temporary (pr_target q).
Definition starting (ps : list (process P)) : Prop := Forall (fun p => pr_stage p = Start) ps.
Lemma append_longer a b : a ++ b = a -> b = "".
Proof. induction a; cbn; [auto|]. intros [= E]. auto. Qed.
Lemma temporary_other n : temporary n <> n.
Proof. intro E. apply append_longer in E. discriminate. Qed.
Lemma append_len a b : String.length (a ++ b) = (String.length a + String.length b)%nat.
Proof. induction a; cbn; congruence. Qed.
Lemma temporary_inj : forall n m, temporary n = temporary m -> n = m.
Proof.
  unfold temporary. induction n as [|a n IH]; intros [|b m] E; auto.
  - apply (f_equal String.length) in E. rewrite !append_len in E. cbn in E. lia.
  - apply (f_equal String.length) in E. rewrite !append_len in E. cbn in E. lia.
  - cbn in E. injection E as -> E. f_equal. now apply IH.
Qed.
(** Where a process has got to. *)
Definition own (d0 d : disk P) (p : process P) : Prop :=
  match pr_stage p with
  | Start => read d (pr_target p) = read d0 (pr_target p)
  | Writing i rest => dk_names d (temporary (pr_target p)) = Some i /\ (exists before, pr_contents p = (before ++ rest)%list /\ dk_files d i = before) /\ read d (pr_target p) = read d0 (pr_target p)
  | Done => read d (pr_target p) = Some (pr_contents p)
  | Failed => False
  end.
Definition untouched (d d' : disk P) (n : string) : Prop := dk_names d' n = dk_names d n /\ forall i, dk_names d n = Some i -> dk_files d' i = dk_files d i.
Lemma untouched_read d d' n : untouched d d' n -> read d' n = read d n.
Proof. intros [A B]. unfold read. rewrite A. destruct (dk_names d n) as [i|]; [cbn; now rewrite B|reflexivity]. Qed.
Lemma own_frame d0 d d' p : untouched d d' (pr_target p) -> untouched d d' (temporary (pr_target p)) -> own d0 d p -> own d0 d' p.
Proof.
  intros A B. unfold own. rewrite (untouched_read _ _ _ A). destruct (pr_stage p) as [|i rest| |]; auto. intros (N & (b & E & F) & R). destruct B as [B1 B2]. split; [now rewrite B1|]. split; [|exact R]. exists b. split; [exact E|]. now rewrite (B2 i N).
Qed.
Lemma eqb_no a b : a <> b -> String.eqb a b = false.
Proof. apply String.eqb_neq. Qed.
Lemma step_own d0 d p d' p' : sound d -> own d0 d p -> step d p = (d', p') ->
  sound d' /\ own d0 d' p' /\ pr_target p' = pr_target p /\ pr_contents p' = pr_contents p /\ forall n, n <> pr_target p -> n <> temporary (pr_target p) -> untouched d d' n.
Proof.
  intros [S1 S2] O E. unfold step in E. set (t := pr_target p) in *. set (tmp := temporary t) in *. assert (NT : tmp <> t) by apply temporary_other. unfold own in O. fold t tmp in O. destruct (pr_stage p) as [|i [|c r]| |] eqn:St.
  - destruct (dk_names d tmp) as [i|] eqn:Nt; injection E as <- <-.
    + split; [split; [exact S1|exact S2]|]. assert (U : forall n, n <> tmp -> untouched d {| dk_names := dk_names d; dk_files := set_file (dk_files d) i []; dk_next := dk_next d |} n).
      { intros n Hn. split; [reflexivity|]. intros j J. cbn [dk_files]. unfold set_file. destruct (Nat.eqb_spec j i) as [->|]; [elim Hn; exact (S1 _ _ _ J Nt)|reflexivity]. }
      split; [|split; [reflexivity|split; [reflexivity|auto]]]. unfold own. cbn [pr_stage at_stage pr_target pr_contents]. fold t tmp. split; [exact Nt|]. split; [exists []; split; [reflexivity|]; cbn [dk_files]; unfold set_file; now rewrite Nat.eqb_refl|]. rewrite (untouched_read d _ t) by (apply U; congruence). exact O.
    + assert (U : forall n, n <> tmp -> untouched d {| dk_names := set_name (dk_names d) tmp (Some (dk_next d)); dk_files := set_file (dk_files d) (dk_next d) []; dk_next := Datatypes.S (dk_next d) |} n).
      { intros n Hn. split; cbn [dk_names dk_files]; [unfold set_name; now rewrite eqb_no|]. intros j J. unfold set_file. destruct (Nat.eqb_spec j (dk_next d)) as [->|]; [apply S2 in J; lia|reflexivity]. }
      split; [split; cbn [dk_names dk_next]; unfold set_name|].
      * intros n m i A B. destruct (String.eqb_spec n tmp) as [->|Hn], (String.eqb_spec m tmp) as [->|Hm]; auto; [injection A as <-; apply S2 in B; lia|injection B as <-; apply S2 in A; lia|eauto].
      * intros n i A. destruct (String.eqb n tmp); [injection A as <-; lia|apply S2 in A; lia].
      * split; [|split; [reflexivity|split; [reflexivity|auto]]]. unfold own. cbn [pr_stage at_stage pr_target pr_contents]. fold t tmp. cbn [dk_names dk_files]. split; [unfold set_name; now rewrite String.eqb_refl|]. split; [exists []; split; [reflexivity|]; unfold set_file; now rewrite Nat.eqb_refl|]. rewrite (untouched_read d _ t) by (apply U; congruence). exact O.
  - destruct O as (N & (b & Eb & F) & R). rewrite N in E. injection E as <- <-. rewrite app_nil_r in Eb. split; [split; cbn [dk_names dk_next]; unfold set_name|].
    + intros n m j A B. destruct (String.eqb_spec n tmp) as [->|Hn]; [discriminate|]. destruct (String.eqb_spec m tmp) as [->|Hm]; [discriminate|]. destruct (String.eqb_spec n t) as [->|Hn'], (String.eqb_spec m t) as [->|Hm']; auto; [injection A as <-; elim Hm; exact (S1 _ _ _ B N)|injection B as <-; elim Hn; exact (S1 _ _ _ A N)|eauto].
    + intros n j A. destruct (String.eqb n tmp); [discriminate|]. destruct (String.eqb n t); [injection A as <-; eauto|eauto].
    + split; [|split; [reflexivity|split; [reflexivity|]]].
      * unfold own. cbn [pr_stage at_stage pr_target pr_contents]. fold t. unfold read. cbn [dk_names dk_files]. unfold set_name. rewrite eqb_no by congruence. rewrite String.eqb_refl. cbn. now rewrite F, Eb.
      * intros n H1 H2. split; cbn [dk_names dk_files]; [unfold set_name; now rewrite !eqb_no|reflexivity].
  - destruct O as (N & (b & Eb & F) & R). injection E as <- <-. split; [split; [exact S1|exact S2]|]. assert (U : forall n, n <> tmp -> untouched d {| dk_names := dk_names d; dk_files := set_file (dk_files d) i (dk_files d i ++ [c])%list; dk_next := dk_next d |} n).
    { intros n Hn. split; [reflexivity|]. intros j J. cbn [dk_files]. unfold set_file. destruct (Nat.eqb_spec j i) as [->|]; [elim Hn; exact (S1 _ _ _ J N)|reflexivity]. }
    split; [|split; [reflexivity|split; [reflexivity|auto]]]. unfold own. cbn [pr_stage at_stage pr_target pr_contents]. fold t tmp. split; [exact N|]. split; [|rewrite (untouched_read d _ t) by (apply U; congruence); exact R].
    exists (b ++ [c])%list. split; [rewrite <- app_assoc; exact Eb|]. cbn [dk_files]. unfold set_file. now rewrite Nat.eqb_refl, F.
  - injection E as <- <-. split; [now split|]. split; [unfold own; rewrite St; exact O|]. repeat split.
  - destruct O.
Qed.
Lemma turn_spec : forall (ps : list (process P)) d k d' ps', turn d ps k = (d', ps') ->
  (nth_error ps k = None /\ d' = d /\ ps' = ps) \/ (exists p p', nth_error ps k = Some p /\ step d p = (d', p') /\ forall j, nth_error ps' j = if Nat.eqb j k then Some p' else nth_error ps j).
Proof.
  induction ps as [|p r IH]; intros d k d' ps' E; cbn [turn] in E.
  - injection E as <- <-. left. destruct k; auto.
  - destruct k as [|k].
    + destruct (step d p) as [d1 p1] eqn:S1. injection E as <- <-. right. exists p, p1. split; [reflexivity|]. split; [exact S1|]. intros [|j]; reflexivity.
    + destruct (turn d r k) as [d1 r1] eqn:T. injection E as <- <-. destruct (IH d k d1 r1 T) as [(A & -> & ->)|(q & q' & A & B & C)]; [left; auto|]. right. exists q, q'. repeat split; auto. intros [|j]; [reflexivity|]. cbn. apply C.
Qed.
Definition invariant (d0 : disk P) (ps0 : list (process P)) (d : disk P) (ps : list (process P)) : Prop :=
  sound d /\ (forall j, match nth_error ps0 j, nth_error ps j with Some p, Some q => pr_target q = pr_target p /\ pr_contents q = pr_contents p /\ own d0 d q | None, None => True | _, _ => False end) /\
  (forall n, (forall p, In p ps0 -> n <> pr_target p /\ n <> temporary (pr_target p)) -> read d n = read d0 n).
Lemma turn_invariant d0 ps0 d ps k : separate ps0 -> invariant d0 ps0 d ps -> invariant d0 ps0 (fst (turn d ps k)) (snd (turn d ps k)).
Proof.
  intros Sp (Sd & J & Oth). destruct (turn d ps k) as [d' ps'] eqn:T. cbn [fst snd]. destruct (turn_spec ps d k d' ps' T) as [(_ & -> & ->)|(p & p' & Np & St & Nj)]; [now split|].
  pose proof (J k) as Jk. rewrite Np in Jk. destruct (nth_error ps0 k) as [p0|] eqn:N0; [|destruct Jk]. destruct Jk as (T0 & C0 & O0). destruct (step_own d0 d p d' p' Sd O0 St) as (Sd' & O' & T' & C' & U). split; [exact Sd'|]. split.
  - intro j. rewrite Nj. destruct (Nat.eqb_spec j k) as [->|Hj]; [rewrite N0; split; [congruence|]; split; [congruence|exact O']|]. specialize (J j). destruct (nth_error ps0 j) as [q0|] eqn:Q0, (nth_error ps j) as [q|]; auto. destruct J as (A & B & C). split; [exact A|]. split; [exact B|].
    destruct (Sp j k q0 p0 Hj Q0 N0) as [X1 X2]. destruct (Sp k j p0 q0 (fun e => Hj (eq_sym e)) N0 Q0) as [X3 X4]. apply (own_frame d0 d d' q); [apply U|apply U|exact C]; rewrite ?A, ?T0; try assumption; try congruence. intro E. apply temporary_inj in E. congruence.
  - intros n H. assert (I0 : In p0 ps0) by (eapply nth_error_In; exact N0). destruct (H p0 I0) as [H1 H2]. rewrite (untouched_read d d' n); [now apply Oth|]. apply U; rewrite T0; assumption.
Qed.
Lemma run_invariant d0 ps0 sched : separate ps0 -> forall d ps, invariant d0 ps0 d ps -> invariant d0 ps0 (fst (run d ps sched)) (snd (run d ps sched)).
Proof.
  intro Sp. unfold run. induction sched as [|k s IH]; intros d ps I'; [exact I'|]. cbn [fold_left fst snd]. pose proof (turn_invariant d0 ps0 d ps k Sp I') as I2. destruct (turn d ps k) as [d1 ps1]. cbn [fst snd] in I2. now apply IH.
Qed.
Lemma start_invariant d ps : sound d -> starting ps -> invariant d ps d ps.
Proof.
  intros S1 St. split; [exact S1|]. split; [|reflexivity]. intro j. destruct (nth_error ps j) as [p|] eqn:E; [|exact Logic.I]. repeat split. unfold starting in St. rewrite Forall_forall in St. apply nth_error_In in E. unfold own. rewrite (St p E). reflexivity.
Qed.
End Files.
(** Whatever turns the processes take and wherever they stop, a file that is being saved to is as it was or complete; complete when the process is done; other files are as they were. *)
Theorem C111_atomic {P} (d : disk P) ps schedule d' ps' : sound d -> separate ps -> starting ps -> run d ps schedule = (d', ps') -> sound d' /\ length ps' = length ps /\
  (forall j p, nth_error ps j = Some p -> (read d' (pr_target p) = read d (pr_target p) \/ read d' (pr_target p) = Some (pr_contents p)) /\ (forall q, nth_error ps' j = Some q -> pr_stage q = Done -> read d' (pr_target p) = Some (pr_contents p))) /\
  (forall n, (forall p, In p ps -> n <> pr_target p /\ n <> temporary (pr_target p)) -> read d' n = read d n).
Proof.
  intros S1 Sp St R. pose proof (run_invariant d ps schedule Sp d ps (start_invariant d ps S1 St)) as (Sd & J & O). rewrite R in *. cbn [fst snd] in *. split; [exact Sd|]. split; [|split; [|exact O]].
  - assert (N : forall j, nth_error ps' j = None <-> nth_error ps j = None) by (intro j; specialize (J j); destruct (nth_error ps j), (nth_error ps' j); split; try congruence; tauto).
    destruct (Nat.lt_trichotomy (length ps') (length ps)) as [L|[L|L]]; [|exact L|].
    + pose proof (proj2 (nth_error_None ps' (length ps')) (le_n _)) as X. apply N in X. apply nth_error_None in X. lia.
    + pose proof (proj2 (nth_error_None ps (length ps)) (le_n _)) as X. apply N in X. apply nth_error_None in X. lia.
  - intros j p Np. specialize (J j). rewrite Np in J. destruct (nth_error ps' j) as [q|]; [|destruct J]. destruct J as (A & B & C). rewrite <- A, <- B. unfold own in C. split.
    + destruct (pr_stage q) as [|i r| |]; [left; exact C|left; apply C|right; exact C|destruct C].
    + intros q' [= <-] D. rewrite D in C. exact C.
Qed.
(** Left alone, a process finishes: also where earlier attempts left a temporary file. *)
Lemma alone {P} (d0 : disk P) : forall rest d p i, sound d -> own d0 d p -> pr_stage p = Writing i rest -> exists d' p', run d [p] (repeat 0%nat (Datatypes.S (length rest))) = (d', [p']) /\ pr_stage p' = Done /\ read d' (pr_target p) = Some (pr_contents p).
Proof.
  induction rest as [|c r IH]; intros d p i S1 O St; cbn [length repeat]; unfold run; cbn [fold_left turn fst snd]; destruct (step d p) as [d1 p1] eqn:E; destruct (step_own d0 d p d1 p1 S1 O E) as (S2 & O2 & T2 & C2 & _).
  - exists d1, p1. split; [reflexivity|]. assert (D : pr_stage p1 = Done). { unfold step in E. rewrite St in E. unfold own in O. rewrite St in O. destruct O as (N & _). rewrite N in E. injection E as _ <-. reflexivity. } split; [exact D|]. unfold own in O2. rewrite D in O2. now rewrite <- T2, <- C2.
  - assert (D : pr_stage p1 = Writing i r). { unfold step in E. rewrite St in E. injection E as _ <-. reflexivity. } destruct (IH d1 p1 i S2 O2 D) as (d' & p' & R & X & Y). exists d', p'. rewrite <- T2, <- C2. split; [exact R|auto].
Qed.
Theorem C111_completes {P} (d : disk P) p : sound d -> pr_stage p = Start -> exists d' p', run d [p] (repeat 0%nat (length (pr_contents p) + 2)) = (d', [p']) /\ pr_stage p' = Done /\ read d' (pr_target p) = Some (pr_contents p).
Proof.
  intros S1 St. replace (length (pr_contents p) + 2)%nat with (Datatypes.S (Datatypes.S (length (pr_contents p)))) by lia. cbn [repeat]. unfold run. cbn [fold_left turn fst snd]. destruct (step d p) as [d1 p1] eqn:E. assert (O : own d d p) by (unfold own; now rewrite St). destruct (step_own d d p d1 p1 S1 O E) as (S2 & O2 & T2 & C2 & _).
  assert (D : exists i, pr_stage p1 = Writing i (pr_contents p)) by (unfold step in E; rewrite St in E; destruct (dk_names d (temporary (pr_target p))); injection E as _ <-; eexists; reflexivity). destruct D as [i D].
  destruct (alone d (pr_contents p) d1 p1 i S2 O2 D) as (d' & p' & R & X & Y). exists d', p'. rewrite <- T2, <- C2. split; [rewrite C2; exact R|auto].
Qed.
(** A crash and another attempt: the file is complete. *)
Theorem C111_again {P} (d : disk P) p n d' p' q : sound d -> pr_stage p = Start -> run d [p] (repeat 0%nat n) = (d', p') -> pr_stage q = Start -> exists d'' q', run d' [q] (repeat 0%nat (length (pr_contents q) + 2)) = (d'', [q']) /\ read d'' (pr_target q) = Some (pr_contents q).
Proof.
  intros S1 St R Sq. destruct (C111_atomic d [p] (repeat 0%nat n) d' p') as (S2 & _); auto.
  - intros i j a b N A B. destruct i as [|i]; [|destruct i; discriminate]. destruct j as [|j]; [congruence|destruct j; discriminate].
  - repeat constructor. exact St.
  - destruct (C111_completes d' q S2 Sq) as (d'' & q' & A & _ & B). exists d'', q'. auto.
Qed.
(** Two processes that save to the same file share the temporary file: the file can end up neither as it was nor as either would have it. *)
Theorem C111_same_file_refuted : ~ (forall (d : disk nat) (p q : process nat) schedule d' ps', sound d -> pr_stage p = Start -> pr_stage q = Start -> pr_target p = pr_target q -> run d [p; q] schedule = (d', ps') ->
  read d' (pr_target p) = read d (pr_target p) \/ read d' (pr_target p) = Some (pr_contents p) \/ read d' (pr_target p) = Some (pr_contents q)).
Proof.
  intro H. pose (d := {| dk_names := fun n => if String.eqb n "out.nc" then Some 0%nat else None; dk_files := fun _ => [7%nat]; dk_next := 1%nat |}).
  pose (p := {| pr_target := "out.nc"; pr_contents := [1; 2]%nat; pr_stage := Start |}). pose (q := {| pr_target := "out.nc"; pr_contents := [3; 4]%nat; pr_stage := Start |}).
  pose (s := [0; 0; 0; 1; 1; 0]%nat). specialize (H d p q s (fst (run d [p; q] s)) (snd (run d [p; q] s))). destruct H as [H|[H|H]]; try reflexivity; try discriminate.
  - split; cbn; intros n; [intros m i|intros i]; destruct (String.eqb_spec n "out.nc") as [->|]; try discriminate; [destruct (String.eqb_spec m "out.nc"); [congruence|discriminate]|intros [= <-]; lia].
Qed.

(** ** Cubes *)
Lemma prepare_ok cs : forall cs', prepare cs = (cs', None) -> Forall (fun c => check_mandatory_standards (sc_objects c) = Ok tt /\ sc_known c = true) cs /\
  Forall2 (fun c k => sc_objects k = sc_objects c /\ sc_known k = sc_known c /\ sc_shape k = sc_shape c /\ sc_methods k = isort String.leb (sc_methods c) /\ sc_attributes k = drop_attr "least_significant_digit" (sc_attributes c)) cs cs'.
Proof.
  induction cs as [|c r IH]; intros cs' H; cbn [prepare] in H; [injection H as <-; split; constructor|]. cbn [sc_objects ordered] in H. destruct (check_mandatory_standards (sc_objects c)) as [[]|e] eqn:E; [|discriminate]. cbn [sc_known ordered] in H. destruct (sc_known c) eqn:K; [|discriminate]. destruct (prepare r) as [r' e'] eqn:R. injection H as <- ->. destruct (IH r' eq_refl) as [A B]. split; constructor; auto.
Qed.
(** What is written: cubes that meet the metadata standards and have units; their cell methods in order and without the attribute for rounding, otherwise as they were. *)
Theorem C111_saved {P} (pieces : list scube -> option (list nat) -> list string -> list P) level cs name cs' p : save_netcdf pieces level cs name = (cs', Ok p) -> cs <> [] /\ (0 <= level < 10)%Z /\
  Forall (fun c => (forall o, In o (sc_objects c) -> standard o) /\ sc_known c = true) cs /\
  Forall2 (fun c k => sc_objects k = sc_objects c /\ sc_shape k = sc_shape c /\ StronglySorted (fun a b => String.leb a b = true) (sc_methods k) /\ Permutation (sc_methods c) (sc_methods k) /\ (forall a, Model_Manip.get a (sc_attributes k) = if String.eqb a "least_significant_digit" then None else Model_Manip.get a (sc_attributes c))) cs cs' /\
  pr_target p = name /\ pr_stage p = Start /\ pr_contents p = pieces cs' (chunk_sizes cs') (local_keys cs').
Proof.
  unfold save_netcdf. destruct (prepare cs) as [c1 [e|]] eqn:E; [intro H; injection H as _ H; discriminate|]. destruct (prepare_ok cs c1 E) as [A B]. intro H. injection H as <- H. destruct c1 as [|c0 c1]; [discriminate|]. destruct ((0 <=? level) && (level <? 10))%Z eqn:L; [|discriminate]. injection H as <-. apply andb_true_iff in L as [L1 L2]. apply Z.leb_le in L1. apply Z.ltb_lt in L2.
  split; [intros ->; inversion B|]. split; [lia|]. split; [eapply Forall_impl; [|exact A]; intros c [X Y]; split; [now apply C82_standards|exact Y]|]. split; [|repeat split].
  clear -B. induction B as [|c k cs ks (B1 & B2 & B3 & B4 & B5) B IH]; constructor; [|exact IH]. split; [exact B1|]. split; [exact B3|]. rewrite B4, B5. split; [apply sorted_names|]. split; [apply isort_perm|]. intro a. apply get_drop.
Qed.
Lemma nonstandard l e : check_mandatory_standards l = Err e -> exists o, In o l /\ ~ standard o.
Proof.
  unfold check_mandatory_standards. destruct (forallb _ l) eqn:F; [discriminate|]. intros _. rewrite <- not_true_iff_false, forallb_forall in F. assert (X : existsb (fun o => negb (check_dtype o && check_units o)) l = true).
  { destruct (existsb _ l) eqn:E; [reflexivity|]. elim F. intros o O. rewrite <- not_true_iff_false, existsb_exists in E. destruct (check_dtype o && check_units o)%bool eqn:C; [reflexivity|]. elim E. exists o. rewrite C. auto. }
  apply existsb_exists in X as (o & O & C). exists o. split; [exact O|]. intro S1. apply standard_iff in S1. rewrite S1 in C. discriminate.
Qed.
(** Nothing is written when a cube does not meet the standards or has no known units, when there is no cube, or the level is out of range. *)
Theorem C111_refused {P} (pieces : list scube -> option (list nat) -> list string -> list P) level cs name : (exists e, snd (save_netcdf pieces level cs name) = Err e) <->
  (Exists (fun c => (exists o, In o (sc_objects c) /\ ~ standard o) \/ sc_known c = false) cs \/ cs = [] \/ (level < 0)%Z \/ (10 <= level)%Z).
Proof.
  assert (X : (exists e, snd (prepare cs) = Some e) <-> Exists (fun c => (exists o, In o (sc_objects c) /\ ~ standard o) \/ sc_known c = false) cs).
  { induction cs as [|c r IH]; [cbn; split; [intros [e H]; discriminate|inversion 1]|]. cbn [prepare]. cbn [sc_objects ordered sc_known]. rewrite Exists_cons, <- IH. destruct (check_mandatory_standards (sc_objects c)) as [[]|e] eqn:E.
    - assert (N : ~ exists o, In o (sc_objects c) /\ ~ standard o) by (intros (o & O & S1); apply S1; exact (proj1 (proj1 (C82_standards (sc_objects c))) E o O)). destruct (sc_known c); [|split; [intros _; left; now right|intros _; eexists; reflexivity]]. destruct (prepare r) as [r' e]. cbn [snd]. intuition discriminate.
    - split; [|intros _; eexists; reflexivity]. intros _. left. left. exact (nonstandard _ _ E). }
  rewrite <- X. unfold save_netcdf. destruct (prepare cs) as [cs' [e|]] eqn:E; cbn [snd]; [split; [intros _; left; now exists e|intros _; now exists e]|]. apply prepare_ok in E as [_ B].
  destruct B as [|c k cs cs' _ B].
  - split; [intros _; right; now left|intros _; now exists RuntimeError].
  - destruct ((0 <=? level) && (level <? 10))%Z eqn:L.
    + apply andb_true_iff in L as [L1 L2]. apply Z.leb_le in L1. apply Z.ltb_lt in L2. split; [intros [e H]; discriminate|]. intros [[e H]|[H|[H|H]]]; try discriminate; lia.
    + split; [|intros _; now exists ValueError]. intros _. right. right. apply andb_false_iff in L as [L|L]; [apply Z.leb_gt in L; auto|apply Z.ltb_ge in L; auto].
Qed.
(** Cubes before the one that is refused have been changed all the same. *)
Theorem C111_refused_changes_refuted : ~ (forall {P} (pieces : list scube -> option (list nat) -> list string -> list P) level cs name e, snd (save_netcdf pieces level cs name) = Err e -> fst (save_netcdf pieces level cs name) = cs).
Proof.
  intro H. pose (c := {| sc_objects := []; sc_known := true; sc_attributes := [("least_significant_digit", "2")]; sc_shape := []; sc_methods := [] |}). specialize (H nat (fun _ _ _ => []) 11%Z [c] "out.nc" ValueError eq_refl). discriminate.
Qed.
(** One cube: pieces of one horizontal field. *)
Theorem C111_pieces c : (2 <= length (sc_shape c))%nat -> exists k, chunk_sizes [c] = Some k /\ length k = length (sc_shape c) /\ forall i, (i < length (sc_shape c))%nat -> nth i k 0%nat = if (i <? length (sc_shape c) - 2)%nat then 1%nat else nth i (sc_shape c) 0%nat.
Proof.
  intro L. unfold chunk_sizes. cbn [one_front forallb]. pose proof L as L'. apply Nat.leb_le in L'. rewrite L'. eexists. split; [reflexivity|]. set (n := (length (sc_shape c) - 2)%nat). split; [rewrite app_length, repeat_length, skipn_length; lia|]. intros i Hi. destruct (Nat.ltb_spec i n) as [H|H].
  - rewrite app_nth1 by (now rewrite repeat_length). clear -H. revert i H. induction n as [|n IH]; intros [|i] H; cbn; auto; try lia. apply IH. lia.
  - rewrite app_nth2 by (rewrite repeat_length; lia). rewrite repeat_length. rewrite <- (firstn_skipn n (sc_shape c)) at 2. rewrite app_nth2 by (rewrite firstn_length; lia). f_equal. rewrite firstn_length. lia.
Qed.
(** Several cubes: the first two dimensions are compared, not the horizontal ones, so the pieces may not fit the others. *)
Theorem C111_pieces_refuted : ~ (forall cs k c, chunk_sizes cs = Some k -> In c cs -> length k = length (sc_shape c)).
Proof.
  intro H. pose (c := fun s => {| sc_objects := []; sc_known := true; sc_attributes := []; sc_shape := s; sc_methods := [] |}). specialize (H [c [3; 4; 5]%nat; c [3; 4]%nat] [1; 4; 5]%nat (c [3; 4]%nat) eq_refl (or_intror (or_introl eq_refl))). discriminate.
Qed.
(** Attributes written with the data: those of the cubes that are neither general ones nor, in one chosen cube, Met Office ones. *)
Theorem C111_keys cs k : In k (local_keys cs) <-> (exists c, In c cs /\ In k (map fst (sc_attributes c))) /\ ~ In k ["title"; "um_version"; "grid_id"; "source"; "Conventions"; "institution"; "history"] /\ ~ (exists c, key_cube cs = Some c /\ In k (map fst (sc_attributes c)) /\ contains "mosg__" k = true).
Proof.
  unfold local_keys. rewrite filter_In, in_flat_map, negb_true_iff, <- not_true_iff_false, smem_iff. unfold global_keys. rewrite in_app_iff. fold general_keys. assert (E : In k match key_cube cs with Some c => filter (contains "mosg__") (map fst (sc_attributes c)) | None => [] end <-> exists c, key_cube cs = Some c /\ In k (map fst (sc_attributes c)) /\ contains "mosg__" k = true).
  { destruct (key_cube cs) as [c|]; [rewrite filter_In; split; [intros []; exists c; auto|intros (c' & [= <-] & H); exact H]|split; [intros []|intros (c & H & _); discriminate]]. }
  rewrite E. tauto.
Qed.
(** With one cube no Met Office attribute is written with the data; with several it may be. *)
Theorem C111_keys_one c k : In k (local_keys [c]) -> contains "mosg__" k = false.
Proof. intro H. apply C111_keys in H as ((c' & [<-|[]] & I') & _ & N). apply not_true_iff_false. intro C. apply N. exists c. auto. Qed.
Theorem C111_keys_refuted : ~ (forall cs k, In k (local_keys cs) -> contains "mosg__" k = false).
Proof.
  intro H. pose (c := fun a => {| sc_objects := []; sc_known := true; sc_attributes := a; sc_shape := [2; 2]%nat; sc_methods := [] |}). specialize (H [c []; c [("mosg__grid_type", "standard")]] "mosg__grid_type" ltac:(vm_compute; auto)). discriminate.
Qed.
Example C111_case : exists (d : disk nat) p q, sound d /\ separate [p; q] /\ starting [p; q] /\ read (fst (run d [p; q] [0; 1; 0; 1; 0; 0]%nat)) "a.nc" = Some [1; 2]%nat /\ read (fst (run d [p; q] [0; 1; 0; 1; 0; 0]%nat)) "b.nc" = Some [9%nat] /\ read (fst (run d [p; q] [0; 1; 0; 1; 0; 0]%nat)) "b.nc.tmp" = Some [3%nat].
Proof.
  exists {| dk_names := fun n => if String.eqb n "b.nc" then Some 0%nat else None; dk_files := fun _ => [9%nat]; dk_next := 1%nat |}, {| pr_target := "a.nc"; pr_contents := [1; 2]%nat; pr_stage := Start |}, {| pr_target := "b.nc"; pr_contents := [3; 4]%nat; pr_stage := Start |}.
  split; [|split; [|split; [repeat constructor|repeat split]]].
  - split; cbn; intros n; [intros m i|intros i]; destruct (String.eqb_spec n "b.nc") as [->|]; try discriminate; [destruct (String.eqb_spec m "b.nc"); [congruence|discriminate]|intros [= <-]; lia].
  - intros i j p q N A B. destruct i as [|[|i]]; [| |destruct i; discriminate]; (destruct j as [|[|j]]; [| |destruct j; discriminate]); try congruence; cbn in A, B; injection A as <-; injection B as <-; split; discriminate.
Qed.

Print Assumptions C111_atomic.
Print Assumptions C111_completes.
Print Assumptions C111_again.
Print Assumptions C111_same_file_refuted.
Print Assumptions C111_saved.
Print Assumptions C111_refused.
Print Assumptions C111_refused_changes_refuted.
Print Assumptions C111_pieces.
Print Assumptions C111_pieces_refuted.
Print Assumptions C111_keys.
Print Assumptions C111_keys_one.
Print Assumptions C111_keys_refuted.
