(** C79: the names of probability cubes, their threshold coordinates and cell methods. *)
From Coq Require Import Ascii Permutation.
From Verif Require Import Base Model_Probability Proofs_Names Model_Manip Props_Merge Model_Attributes Proofs_Reordering Props_Attributes.
Local Open Scope string_scope.

Definition occurs (w s : string) : Prop := exists a b, s = a ++ w ++ b.
(** The name of a diagnostic that none of the conventional parts occurs in. *)
Definition clean (x : string) : Prop := forall w, In w ["_above_threshold"; "_below_threshold"; "_between_thresholds"; "_in_vicinity"; "_in_variable_vicinity"] -> ~ occurs w x.
Definition is_vicinity (v : string) : Prop := In v [""; "_in_vicinity"; "_in_variable_vicinity"].
Definition is_relation (t : string) : Prop := In t ["_above_threshold"; "_below_threshold"; "_between_thresholds"].

Lemma app_nil (s : string) : s ++ "" = s.
Proof. induction s as [|c s IH]; [reflexivity|]. cbn [append]. now rewrite IH. Qed.
Lemma app_assoc' (a b c : string) : (a ++ b) ++ c = a ++ b ++ c.
Proof. induction a as [|x a IH]; [reflexivity|]. cbn [append]. now rewrite IH. Qed.
Lemma app_len (a b : string) : String.length (a ++ b) = (String.length a + String.length b)%nat.
Proof. induction a as [|x a IH]; [reflexivity|]. cbn. now rewrite IH. Qed.
Lemma prefix_app w s : String.prefix w (w ++ s) = true.
Proof. induction w as [|c w IH]; [now destruct s|]. cbn [append]. apply prefix_cons. auto. Qed.
Lemma prefix_iff w s : String.prefix w s = true <-> exists t, s = w ++ t.
Proof. split; [apply prefix_split|]. intros [t ->]. apply prefix_app. Qed.
Lemma substring_all s : substring 0 (String.length s) s = s.
Proof. induction s as [|c s IH]; [reflexivity|]. cbn. now rewrite IH. Qed.
Lemma after_app w s : after w (w ++ s) = s.
Proof.
  unfold after. rewrite app_len. replace (String.length w + String.length s - String.length w)%nat with (String.length s) by lia.
  induction w as [|c w IH]; [apply substring_all|exact IH].
Qed.
(** Two ways to cut the same text. *)
Lemma cut (a : string) : forall b c d, a ++ b = c ++ d -> (exists y, a = c ++ y /\ d = y ++ b) \/ (exists y, c = a ++ y /\ b = y ++ d).
Proof.
  induction a as [|x a IH]; intros b c d E.
  - right. exists c. split; [reflexivity|exact E].
  - destruct c as [|z c]; [left; exists (String x a); split; [reflexivity|symmetry; exact E]|]. cbn [append] in E. injection E as <- E. destruct (IH _ _ _ E) as [(y & -> & ->)|(y & -> & ->)]; [left|right]; exists y; auto.
Qed.
(** No proper end of w begins suf. *)
Fixpoint overlap_free (w suf : string) : bool := match w with "" => true | String _ y => ((String.eqb y "" || negb (String.prefix y suf)) && overlap_free y suf)%bool end.
Lemma overlap_free_spec b : forall y suf, overlap_free (b ++ y) suf = true -> b <> "" -> y <> "" -> String.prefix y suf = false.
Proof.
  induction b as [|c b IH]; intros y suf H N Y; [congruence|]. cbn [append overlap_free] in H. apply andb_prop in H as [A B]. destruct b as [|d b].
  - cbn [append] in A. apply orb_prop in A as [A|A]; [apply String.eqb_eq in A; congruence|]. now destruct (String.prefix y suf).
  - apply (IH y suf B); [discriminate|exact Y].
Qed.
Lemma no_match w b suf : overlap_free w suf = true -> b <> "" -> ~ occurs w b -> String.prefix w (b ++ suf) = false.
Proof.
  intros O N C. destruct (String.prefix w (b ++ suf)) eqn:P; [|reflexivity]. exfalso. apply prefix_split in P as [r E]. destruct (cut _ _ _ _ E) as [(y & Eb & _)|(y & Ew & Es)].
  - apply C. exists "", y. exact Eb.
  - subst w. destruct y as [|c y].
    + apply C. exists "", "". now rewrite app_nil, app_nil.
    + assert (X : String.prefix (String c y) suf = false) by (apply (overlap_free_spec b); [exact O|exact N|discriminate]). rewrite Es, prefix_app in X. discriminate.
Qed.
Definition tails : list (string * string) := flat_map (fun v => map (fun t => (v, t)) ["_above_threshold"; "_below_threshold"; "_between_thresholds"; ""]) [""; "_in_vicinity"; "_in_variable_vicinity"].
Lemma tails_iff v t : In (v, t) tails <-> is_vicinity v /\ (is_relation t \/ t = "").
Proof.
  unfold tails. rewrite in_flat_map. unfold is_vicinity, is_relation. split.
  - intros (u & U & H). apply in_map_iff in H as (s & [= <- <-] & S'). split; [exact U|]. cbn in S' |- *. intuition.
  - intros (V & T). exists v. split; [exact V|]. apply in_map_iff. exists t. split; [reflexivity|]. cbn in T |- *. intuition.
Qed.
Lemma overlaps v t w : In (v, t) tails -> In w ["_above_threshold"; "_below_threshold"; "_between_thresholds"; "_in_vicinity"; "_in_variable_vicinity"] -> overlap_free w (v ++ t) = true.
Proof.
  assert (X : forallb (fun p => forallb (fun w => overlap_free w (fst p ++ snd p)) ["_above_threshold"; "_below_threshold"; "_between_thresholds"; "_in_vicinity"; "_in_variable_vicinity"]) tails = true) by (vm_compute; reflexivity).
  intros P W. rewrite forallb_forall in X. specialize (X _ P). rewrite forallb_forall in X. exact (X _ W).
Qed.
Lemma tail_none b v t : In (v, t) tails -> b <> "" -> clean b -> tail_at (b ++ v ++ t) = None.
Proof.
  intros P N C. assert (F : forall w, In w ["_above_threshold"; "_below_threshold"; "_between_thresholds"; "_in_vicinity"; "_in_variable_vicinity"] -> String.prefix w (b ++ v ++ t) = false).
  { intros w W. apply no_match; [now apply overlaps|exact N|now apply C]. }
  unfold tail_at, vicinity_at, suffix_at, thresholds_text. cbn [find]. rewrite !F by (cbn; auto 8). destruct b as [|c b]; [congruence|reflexivity].
Qed.
Lemma tail_found v t : In (v, t) tails -> tail_at (v ++ t) = Some (v, t).
Proof.
  assert (X : forallb (fun p => match tail_at (fst p ++ snd p) with Some q => (String.eqb (fst q) (fst p) && String.eqb (snd q) (snd p))%bool | None => false end) tails = true) by (vm_compute; reflexivity).
  intro P. rewrite forallb_forall in X. specialize (X _ P). cbn [fst snd] in X. destruct (tail_at (v ++ t)) as [[a b]|]; [|discriminate]. apply andb_prop in X as [A B]. apply String.eqb_eq in A, B. cbn in A, B. now subst.
Qed.
Lemma clean_tail c x : clean (String c x) -> clean x.
Proof. intros H w W (a & b & ->). apply (H w W). exists (String c a), b. reflexivity. Qed.
Lemma parts_of x v t : clean x -> In (v, t) tails -> name_parts ("probability_of_" ++ x ++ v ++ t) = Some (x, (v, t)).
Proof.
  intros C P. unfold name_parts. rewrite prefix_app, after_app. induction x as [|c x IH].
  - cbn [append]. pose proof (tail_found v t P) as T. destruct (v ++ t) eqn:E; cbn [find_tail]; rewrite T; reflexivity.
  - cbn [append find_tail]. assert (T := tail_none (String c x) v t P ltac:(discriminate) C). cbn [append] in T. rewrite T, IH by (now apply (clean_tail c)). reflexivity.
Qed.

(** The diagnostic's name is recovered from the name of the probability cube, with or without the vicinity. *)
Theorem C79_diagnostic x v t : clean x -> is_vicinity v -> is_relation t \/ t = "" ->
  extract_diagnostic_name ("probability_of_" ++ x ++ v ++ t) false = Ok x /\ extract_diagnostic_name ("probability_of_" ++ x ++ v ++ t) true = Ok (x ++ v).
Proof. intros C V T. unfold extract_diagnostic_name. rewrite parts_of by (auto; now apply tails_iff). auto. Qed.
(** The vicinity form of the name; applying it again changes nothing, and a variable vicinity becomes a plain one. *)
Theorem C79_vicinity x v t : clean x -> is_vicinity v -> is_relation t \/ t = "" ->
  in_vicinity_name_format ("probability_of_" ++ x ++ v ++ t) = Ok ("probability_of_" ++ x ++ "_in_vicinity" ++ t).
Proof. intros C V T. unfold in_vicinity_name_format. rewrite parts_of by (auto; now apply tails_iff). auto. Qed.
(** Any other name is refused. *)
Theorem C79_refused n : String.prefix "probability_of_" n = false -> (forall c, extract_diagnostic_name n c = Err ValueError) /\ in_vicinity_name_format n = Err AttributeError.
Proof. intro H. unfold extract_diagnostic_name, in_vicinity_name_format, name_parts. rewrite H. auto. Qed.
Definition exists_prefix (n : string) : Prop := exists q, n = "probability_of_" ++ q.
(** Every name that begins so is accepted, and the diagnostic is what stands before some tail. *)
Lemma find_tail_total s : exists d v t r, find_tail s = Some (d, (v, t)) /\ s = d ++ v ++ t ++ r /\ is_vicinity v /\ (is_relation t \/ (t = "" /\ r = "")).
Proof.
  assert (SA : forall s t, suffix_at s = Some t -> exists r, s = t ++ r /\ (is_relation t \/ (t = "" /\ r = ""))).
  { intros u t. unfold suffix_at, thresholds_text. destruct (find _ _) as [w|] eqn:F.
    - intros [= <-]. apply find_some in F as [W P]. apply prefix_split in P as [r ->]. exists r. split; [reflexivity|now left].
    - destruct (String.eqb u "") eqn:E; [|discriminate]. intros [= <-]. apply String.eqb_eq in E. subst. exists "". auto. }
  assert (VA : forall w s x, vicinity_at w s = Some x -> fst x = w /\ exists r, s = w ++ snd x ++ r /\ (is_relation (snd x) \/ (snd x = "" /\ r = ""))).
  { intros w u x. unfold vicinity_at. destruct (String.prefix w u) eqn:P; [|discriminate]. apply prefix_split in P as [q ->]. rewrite after_app. destruct (suffix_at q) as [t|] eqn:Q; [|discriminate]. intros [= <-]. destruct (SA _ _ Q) as (r & -> & R). split; [reflexivity|]. exists r. auto. }
  assert (TA : forall s v t, tail_at s = Some (v, t) -> exists r, s = v ++ t ++ r /\ is_vicinity v /\ (is_relation t \/ (t = "" /\ r = ""))).
  { intros u v t. unfold tail_at, is_vicinity. destruct (vicinity_at "_in_vicinity" u) as [x|] eqn:A.
    - intros [= ->]. destruct (VA _ _ _ A) as (E & r & -> & R). cbn [fst snd] in *. subst. exists r. split; [reflexivity|]. split; [cbn [In]; auto|exact R].
    - destruct (vicinity_at "_in_variable_vicinity" u) as [x|] eqn:B.
      + intros [= ->]. destruct (VA _ _ _ B) as (E & r & -> & R). cbn [fst snd] in *. subst. exists r. split; [reflexivity|]. split; [cbn [In]; auto|exact R].
      + destruct (suffix_at u) as [q|] eqn:Q; [|discriminate]. intros [= <- <-]. destruct (SA _ _ Q) as (r & -> & R). exists r. split; [reflexivity|]. split; [cbn [In]; auto|exact R]. }
  induction s as [|c s IH].
  - exists "", "", "", "". split; [reflexivity|]. split; [reflexivity|]. split; [cbn; auto|auto].
  - cbn [find_tail]. destruct (tail_at (String c s)) as [[v t]|] eqn:T.
    + destruct (TA _ _ _ T) as (r & E & V & R). exists "", v, t, r. auto.
    + destruct IH as (d & v & t & r & F & -> & V & R). rewrite F. exists (String c d), v, t, r. auto.
Qed.
Theorem C79_accepted n : exists_prefix n -> exists x v t r, n = "probability_of_" ++ x ++ v ++ t ++ r /\ is_vicinity v /\ (is_relation t \/ (t = "" /\ r = "")) /\
  extract_diagnostic_name n false = Ok x /\ extract_diagnostic_name n true = Ok (x ++ v) /\ in_vicinity_name_format n = Ok ("probability_of_" ++ x ++ "_in_vicinity" ++ t).
Proof.
  intros [q ->]. destruct (find_tail_total q) as (d & v & t & r & F & E & V & R). exists d, v, t, r. split; [now rewrite E|]. split; [exact V|]. split; [exact R|].
  unfold extract_diagnostic_name, in_vicinity_name_format, name_parts. rewrite prefix_app, after_app, F. auto.
Qed.

(** Renaming a diagnostic.  In a probability cube's name the diagnostic's name is replaced; if it occurs there once, the
    rest of the name stays. *)
Lemma contains_occurs w s : contains w s = true <-> occurs w s.
Proof.
  split.
  - induction s as [|c s IH]; cbn [contains].
    + rewrite orb_false_r. intro H. apply prefix_split in H as [t E]. exists "", t. exact E.
    + intro H. apply orb_prop in H as [H|H]; [apply prefix_split in H as [t E]; exists "", t; exact E|]. destruct (IH H) as (a & b & ->). exists (String c a), b. reflexivity.
  - intros (a & b & ->). apply contains_app.
Qed.
Lemma replace_none old new s : old <> "" -> ~ occurs old s -> replace old new s = s.
Proof.
  intros N. induction s as [|c s IH]; intro H; [reflexivity|]. rewrite replace_miss.
  - f_equal. apply IH. intros (a & b & ->). apply H. exists (String c a), b. reflexivity.
  - destruct (String.prefix old (String c s)) eqn:P; [|reflexivity]. exfalso. apply H. apply prefix_split in P as [t ->]. exists "", t. reflexivity.
Qed.
Lemma replace_once old new p t : old <> "" -> (forall a b, p ++ old ++ t = a ++ old ++ b -> a = p) -> replace old new (p ++ old ++ t) = p ++ new ++ t.
Proof.
  intros N. induction p as [|c p IH]; intro U.
  - cbn [append]. rewrite replace_hit by exact N. f_equal. apply replace_none; [exact N|]. intros (a & b & ->).
    specialize (U (old ++ a) b). cbn [append] in U. rewrite app_assoc' in U. specialize (U eq_refl). destruct old; [congruence|discriminate].
  - cbn [append]. rewrite replace_miss.
    + f_equal. apply IH. intros a b E. specialize (U (String c a) b). cbn [append] in U. rewrite E in U. specialize (U eq_refl). now injection U.
    + destruct (String.prefix old (String c (p ++ old ++ t))) eqn:P; [|reflexivity]. exfalso. apply prefix_split in P as [r E]. specialize (U "" r). cbn [append] in U. specialize (U E). discriminate.
Qed.
(** The new name of a threshold coordinate: that of the diagnostic, without a vicinity. *)
Lemma base_clean x : clean x -> base_name x = x /\ base_name (x ++ "_in_vicinity") = x /\ base_name (x ++ "_in_variable_vicinity") = x.
Proof.
  intro C. assert (A : ~ occurs "_in_vicinity" x) by (apply C; cbn; auto 6). assert (B : ~ occurs "_in_variable_vicinity" x) by (apply C; cbn; auto 6).
  unfold base_name. rewrite (replace_none "_in_variable_vicinity" "" x) by (discriminate || assumption). rewrite (replace_none "_in_vicinity" "" x) by (discriminate || assumption). split; [reflexivity|].
  assert (Uq : forall w p, In w ["_in_vicinity"; "_in_variable_vicinity"] -> ~ occurs w p -> forall a b, p ++ w ++ "" = a ++ w ++ b -> a = p).
  { intros w p W NO a b E. rewrite app_nil in E. assert (O : overlap_free w w = true) by (cbn in W; destruct W as [<-|[<-|[]]]; vm_compute; reflexivity).
    destruct (cut _ _ _ _ E) as [(y & -> & Ey)|(y & -> & Ey)].
    - destruct y as [|c y]; [now rewrite app_nil|]. exfalso. assert (P : String.prefix w (String c y ++ w) = false) by (apply no_match; [exact O|discriminate|intros (u & z & Eu); apply NO; exists (a ++ u), z; rewrite Eu, app_assoc'; reflexivity]). rewrite <- Ey, prefix_app in P. discriminate.
    - assert (L := f_equal String.length Ey). rewrite !app_len in L. destruct y; cbn in L; [now rewrite app_nil|lia]. }
  split.
  - assert (NV : ~ occurs "_in_variable_vicinity" (x ++ "_in_vicinity")).
    { intros (a & b & E). destruct (cut _ _ _ _ E) as [(y & Ex & Ey)|(y & -> & Ey)].
      - destruct y as [|c y]; [discriminate|]. assert (P : String.prefix "_in_variable_vicinity" (String c y ++ "_in_vicinity") = false) by (apply no_match; [vm_compute; reflexivity|discriminate|intros (u & z & Eu); apply B; exists (a ++ u), z; rewrite Ex, Eu, app_assoc'; reflexivity]). rewrite <- Ey, prefix_app in P. discriminate.
      - assert (L := f_equal String.length Ey). rewrite !app_len in L. cbn in L. lia. }
    rewrite (replace_none "_in_variable_vicinity" "" (x ++ "_in_vicinity")) by (discriminate || exact NV).
    rewrite <- (app_nil "_in_vicinity") at 2. rewrite replace_once; [now rewrite app_nil|discriminate|]. intros a b E. apply (Uq "_in_vicinity" x) with b; [now left|exact A|exact E].
  - rewrite <- (app_nil "_in_variable_vicinity") at 2. rewrite replace_once; [rewrite app_nil; apply replace_none; [discriminate|exact A]|discriminate|]. intros a b E. apply (Uq "_in_variable_vicinity" x) with b; [right; now left|exact B|exact E].
Qed.
Theorem C79_renamed x v t y v' methods own : clean x -> is_vicinity v -> is_relation t -> x ++ v <> "" -> clean y -> is_vicinity v' ->
  (forall a b, "probability_of_" ++ (x ++ v) ++ t = a ++ (x ++ v) ++ b -> a = "probability_of_") ->
  exists ms, update_diagnostic_name true ("probability_of_" ++ x ++ v ++ t) (y ++ v') methods own = Ok ("probability_of_" ++ (y ++ v') ++ t, Some y, ms).
Proof.
  intros C V T Ne Cy V' U. unfold update_diagnostic_name. destruct (C79_diagnostic x v t C V (or_introl T)) as [_ D]. rewrite D. cbn [bind].
  assert (B : base_name (y ++ v') = y). { destruct (base_clean y Cy) as (A1 & A2 & A3). unfold is_vicinity in V'. cbn in V'. destruct V' as [<-|[<-|[<-|[]]]]; [now rewrite app_nil|exact A2|exact A3]. }
  rewrite B. rewrite <- (app_assoc' x v t). rewrite replace_once by (assumption || (intros a b E; now apply (U a b))). eexists. reflexivity.
Qed.
(** Without that condition the conventional parts of the name may be damaged. *)
Theorem C79_renamed_refuted : ~ (forall x t y methods own n c ms, clean x -> x <> "" -> is_relation t -> clean y -> update_diagnostic_name true ("probability_of_" ++ x ++ t) y methods own = Ok (n, c, ms) -> n = "probability_of_" ++ y ++ t).
Proof.
  intro H. specialize (H "threshold" "_above_threshold" "x" [] [] "probability_of_x_above_x" (Some "x") []). assert (X : forall s, In s ["threshold"; "x"] -> clean s).
  { intros s S' w W O. apply contains_occurs in O. assert (F : forallb (fun s => forallb (fun w => negb (contains w s)) ["_above_threshold"; "_below_threshold"; "_between_thresholds"; "_in_vicinity"; "_in_variable_vicinity"]) ["threshold"; "x"] = true) by (vm_compute; reflexivity).
    rewrite forallb_forall in F. specialize (F _ S'). rewrite forallb_forall in F. specialize (F _ W). rewrite O in F. discriminate. }
  discriminate H; [apply X; cbn; auto|discriminate|cbn; auto|apply X; cbn; auto|vm_compute; reflexivity].
Qed.
(** The cell methods: one that has a single comment in which the diagnostic's name occurs refers to the new name
    afterwards; the others stay. *)
Theorem C79_cell_methods original new_name x ms : (extract_diagnostic_name original false = Ok x \/ ((forall y, extract_diagnostic_name original false <> Ok y) /\ x = original)) ->
  length (update_cell_methods ms original new_name) = length ms /\
  forall i d, (i < length ms)%nat -> let c := nth i ms d in let c' := nth i (update_cell_methods ms original new_name) d in
    cm_method c' = cm_method c /\ cm_coords c' = cm_coords c /\ cm_intervals c' = cm_intervals c /\
    (forall s, cm_comments c = [s] -> occurs x s -> cm_comments c' = ["of " ++ new_name]) /\
    ((forall s, cm_comments c = [s] -> ~ occurs x s) -> c' = c).
Proof.
  intro X. unfold update_cell_methods. set (d0 := match extract_diagnostic_name original false with Ok z => z | Err _ => original end).
  assert (E : d0 = x). { unfold d0. destruct X as [->|[N ->]]; [reflexivity|]. destruct (extract_diagnostic_name original false) as [z|]; [exfalso; now apply (N z)|reflexivity]. }
  rewrite E. clearbody d0. split; [apply map_length|]. intros i d Hi. cbv zeta. rewrite !(nth_map_lt _ ms i d d) by exact Hi. set (c := nth i ms d).
  destruct (cm_comments c) as [|s [|s' r]] eqn:M.
  - repeat split; try assumption. intros s S'. discriminate.
  - destruct (contains x s) eqn:O.
    + cbn [with_comments cm_method cm_coords cm_intervals cm_comments]. split; [reflexivity|]. split; [reflexivity|]. split; [reflexivity|]. split; [reflexivity|]. intro N. exfalso. apply (N s eq_refl). now apply contains_occurs.
    + split; [reflexivity|]. split; [reflexivity|]. split; [reflexivity|]. split; [|reflexivity]. intros s0 [= <-] Oc. apply contains_occurs in Oc. congruence.
  - repeat split; try assumption. intros s0 S'. discriminate.
Qed.
(** Names of diagnostics that are not probabilities. *)
Theorem C79_renamed_plain original new_name methods own : exists ms, update_diagnostic_name false original new_name methods own = Ok (new_name, None, ms).
Proof. eexists. reflexivity. Qed.
(** Made a probability, a cell method refers to the threshold coordinate; made a diagnostic again, to nothing. *)
Theorem C79_probability_methods threshold ms : length (methods_for_probability threshold ms) = length ms /\
  methods_for_diagnostic (methods_for_probability threshold ms) = methods_for_diagnostic ms /\
  forall c', In c' (methods_for_probability threshold ms) -> cm_comments c' = ["of " ++ threshold].
Proof.
  unfold methods_for_probability, methods_for_diagnostic. split; [apply map_length|]. split; [rewrite map_map; reflexivity|].
  intros c' I'. apply in_map_iff in I' as (c & <- & _). reflexivity.
Qed.
Lemma case_clean : clean "lwe_precipitation_rate" /\ clean "rainfall_rate".
Proof.
  split; intros w W O; apply contains_occurs in O; cbn in W; repeat (destruct W as [<-|W]; [vm_compute in O; discriminate|]); destruct W.
Qed.
Lemma case_once a b : "probability_of_" ++ ("rainfall_rate" ++ "") ++ "_above_threshold" = a ++ ("rainfall_rate" ++ "") ++ b -> a = "probability_of_".
Proof.
  cbn [append]. intro E. do 45 (try (destruct a as [|? a]; [first [reflexivity|discriminate E]|cbn [append] in E; first [discriminate E|injection E as <- E]])).
Qed.
Example C79_case : extract_diagnostic_name "probability_of_lwe_precipitation_rate_in_vicinity_above_threshold" true = Ok "lwe_precipitation_rate_in_vicinity" /\
  in_vicinity_name_format "probability_of_lwe_precipitation_rate_in_variable_vicinity_above_threshold" = Ok "probability_of_lwe_precipitation_rate_in_vicinity_above_threshold" /\
  update_diagnostic_name true "probability_of_rainfall_rate_above_threshold" "lwe_precipitation_rate_in_vicinity"
    [{| cm_method := "maximum"; cm_coords := ["time"]; cm_intervals := []; cm_comments := ["of rainfall_rate"] |}] [] =
  Ok ("probability_of_lwe_precipitation_rate_in_vicinity_above_threshold", Some "lwe_precipitation_rate", [{| cm_method := "maximum"; cm_coords := ["time"]; cm_intervals := []; cm_comments := ["of lwe_precipitation_rate"] |}]).
Proof. vm_compute. auto. Qed.

Print Assumptions C79_diagnostic.
Print Assumptions C79_vicinity.
Print Assumptions C79_refused.
Print Assumptions C79_accepted.
Print Assumptions C79_renamed.
Print Assumptions C79_renamed_refuted.
Print Assumptions C79_cell_methods.
Print Assumptions C79_renamed_plain.
Print Assumptions C79_probability_methods.
