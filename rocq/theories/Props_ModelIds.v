(** C78: the model identifiers of a blend. *)
From Coq Require Import Ascii Permutation.
From Verif Require Import Base Model_Probability Proofs_Names Model_Manip Props_Merge Model_Attributes Proofs_Reordering Props_Attributes.
Local Open Scope string_scope.

Fixpoint space_free (s : string) : Prop := match s with "" => True | String c r => c <> " "%char /\ space_free r end.
(** The words of a text: what single blanks separate. *)
Definition words (s : string) (ws : list string) : Prop := ws <> [] /\ Forall space_free ws /\ String.concat " " ws = s.
(** Alphabetical order, by the codes of the characters. *)
Definition before (s t : string) : Prop := String.compare s t = Lt.

Lemma acmp_lt_trans a b c : Ascii.compare a b = Lt -> Ascii.compare b c = Lt -> Ascii.compare a c = Lt.
Proof. unfold Ascii.compare. rewrite !N.compare_lt_iff. apply N.lt_trans. Qed.
Lemma acmp_eq a b : Ascii.compare a b = Eq -> a = b.
Proof. apply Ascii.compare_eq_iff. Qed.
Lemma acmp_refl a : Ascii.compare a a = Eq.
Proof. unfold Ascii.compare. apply N.compare_refl. Qed.
Lemma before_trans s : forall t u, before s t -> before t u -> before s u.
Proof.
  unfold before. induction s as [|a s IH]; intros [|b t] [|c u]; cbn [String.compare]; try congruence.
  destruct (Ascii.compare a b) eqn:A; try congruence; destruct (Ascii.compare b c) eqn:B; try congruence.
  - apply acmp_eq in A, B. subst. rewrite acmp_refl. apply IH.
  - apply acmp_eq in A. subst. now rewrite B.
  - apply acmp_eq in B. subst. now rewrite A.
  - now rewrite (acmp_lt_trans _ _ _ A B).
Qed.
Lemma before_irrefl s : ~ before s s.
Proof. unfold before. induction s as [|a s IH]; cbn [String.compare]; [discriminate|]. now rewrite acmp_refl. Qed.
Definition sle (s t : string) : Prop := s = t \/ before s t.
Lemma leb_sle s t : String.leb s t = true -> sle s t.
Proof. unfold String.leb, sle, before. destruct (String.compare s t) eqn:E; try discriminate; [|auto]. intros _. left. now apply String.compare_eq_iff. Qed.
Lemma leb_not s t : String.leb s t = false -> sle t s.
Proof. unfold String.leb, sle, before. rewrite (String.compare_antisym t s). destruct (String.compare s t); try discriminate. auto. Qed.
Lemma sle_trans s t u : sle s t -> sle t u -> sle s u.
Proof. intros [->|A] [->|B]; unfold sle; auto. right. now apply (before_trans s t u). Qed.
Lemma sort_words_in l w : In w (sort_words l) <-> In w l.
Proof.
  unfold sort_words. rewrite <- (nodup_In string_dec l w). split; apply Permutation_in; [apply Permutation_sym|]; apply isort_perm.
Qed.
Lemma sort_words_sorted l : StronglySorted before (sort_words l).
Proof.
  unfold sort_words. pose proof (isort_sorted String.leb sle leb_sle leb_not sle_trans (nodup string_dec l)) as H.
  assert (N : NoDup (isort String.leb (nodup string_dec l))) by (eapply Permutation_NoDup; [apply isort_perm|apply NoDup_nodup]).
  induction H as [|x r Hs IH Hf]; [constructor|]. inversion N as [|? ? X N']; subst. constructor; [now apply IH|]. rewrite Forall_forall in *. intros y Y. destruct (Hf y Y) as [<-|B]; [contradiction|exact B].
Qed.
Lemma before_sorted_ext l : forall l', StronglySorted before l -> StronglySorted before l' -> (forall w, In w l <-> In w l') -> l = l'.
Proof.
  induction l as [|x l IH]; intros [|y l'] A B E.
  - reflexivity.
  - destruct (proj2 (E y) (or_introl eq_refl)).
  - destruct (proj1 (E x) (or_introl eq_refl)).
  - inversion A as [|? ? A1 A2]; inversion B as [|? ? B1 B2]; subst. rewrite Forall_forall in A2, B2.
    assert (x = y).
    { destruct (proj1 (E x) (or_introl eq_refl)) as [->|X]; [reflexivity|]. destruct (proj2 (E y) (or_introl eq_refl)) as [->|Y]; [reflexivity|]. exfalso. apply (before_irrefl x). apply (before_trans x y x); [now apply A2|now apply B2]. }
    subst y. f_equal. apply IH; [exact A1|exact B1|]. intro w. split; intro W.
    + destruct (proj1 (E w) (or_intror W)) as [<-|]; [|assumption]. exfalso. apply (before_irrefl x). now apply A2.
    + destruct (proj2 (E w) (or_intror W)) as [<-|]; [|assumption]. exfalso. apply (before_irrefl x). now apply B2.
Qed.

(** Splitting and joining. *)
Lemma split_nonempty s : split_words s <> [].
Proof. destruct s as [|c s]; cbn [split_words]; [discriminate|]. destruct (Ascii.eqb c " "); [discriminate|]. destruct (split_words s); discriminate. Qed.
Lemma split_free s : Forall space_free (split_words s).
Proof.
  induction s as [|c s IH]; cbn [split_words]; [repeat constructor|]. destruct (Ascii.eqb c " ") eqn:E; [constructor; [exact Logic.I|exact IH]|]. apply Ascii.eqb_neq in E.
  destruct (split_words s) as [|w ws] eqn:W; [repeat constructor; assumption|]. inversion IH as [|? ? A B]; subst. constructor; [split; assumption|exact B].
Qed.
Lemma concat_cons w v ws : String.concat " " (w :: v :: ws) = w ++ String " " (String.concat " " (v :: ws)).
Proof. reflexivity. Qed.
Lemma concat_head c w ws : String.concat " " (String c w :: ws) = String c (String.concat " " (w :: ws)).
Proof. destruct ws; reflexivity. Qed.
Lemma split_concat s : String.concat " " (split_words s) = s.
Proof.
  induction s as [|c s IH]; cbn [split_words]; [reflexivity|]. destruct (Ascii.eqb c " ") eqn:E.
  - apply Ascii.eqb_eq in E. subst. pose proof (split_nonempty s) as N. destruct (split_words s) as [|w ws]; [congruence|]. rewrite concat_cons, IH. reflexivity.
  - pose proof (split_nonempty s) as N. destruct (split_words s) as [|w ws]; [congruence|]. rewrite concat_head, IH. reflexivity.
Qed.
Lemma split_of_words s ws : words s ws <-> split_words s = ws.
Proof.
  split.
  - intros (N & F & <-). induction ws as [|w ws IH]; [congruence|]. inversion F as [|? ? A B]; subst. clear N F.
    induction w as [|c w IHw].
    + destruct ws as [|v ws]; [reflexivity|]. rewrite concat_cons. cbn [append split_words]. change (Ascii.eqb " " " ") with true. cbn iota. f_equal. apply IH; [discriminate|exact B].
    + destruct A as [A A']. rewrite concat_head. cbn [split_words]. apply Ascii.eqb_neq in A. rewrite A, IHw by exact A'. reflexivity.
  - intros <-. split; [apply split_nonempty|]. split; [apply split_free|apply split_concat].
Qed.

(** The values of the cubes. *)
Lemma values_of_cubes k cubes : match mapM (fun a : attributes => match get k a with Some v => Ok v | None => Err AttributeError end) cubes with
  | Ok vs => map (get k) cubes = map Some vs | Err e => e = AttributeError /\ exists a, In a cubes /\ get k a = None end.
Proof.
  induction cubes as [|a r IH]; cbn [mapM]; [reflexivity|]. destruct (get k a) as [v|] eqn:G; cbn [bind].
  - destruct (mapM _ r) as [vs|e]; cbn [bind map].
    + now rewrite G, IH.
    + destruct IH as (-> & b & B & X). split; [reflexivity|]. exists b. cbn; auto.
  - split; [reflexivity|]. exists a. cbn; auto.
Qed.
(** w is one of the identifiers of the cubes. *)
Definition identifier (cubes : list attributes) (k w : string) : Prop := exists a v ws, In a cubes /\ get k a = Some v /\ words v ws /\ In w ws.
Lemma identifier_iff cubes k vs w : map (get k) cubes = map Some vs -> (identifier cubes k w <-> In w (flat_map split_words vs)).
Proof.
  intro E. rewrite in_flat_map. split.
  - intros (a & v & ws & A & G & W & I'). exists v. split; [|apply split_of_words in W; now rewrite W].
    assert (X : In (Some v) (map Some vs)) by (rewrite <- E, <- G; now apply in_map). apply in_map_iff in X. destruct X as (u & [= ->] & U). exact U.
  - intros (v & V & I'). assert (X : In (Some v) (map (get k) cubes)) by (rewrite E; now apply in_map). apply in_map_iff in X. destruct X as (a & G & A). exists a, v, (split_words v). split; [exact A|]. split; [exact G|]. split; [now apply split_of_words|exact I'].
Qed.
(** The identifier of a blend: the words of all its inputs, each once, in alphabetical order. *)
Theorem C78_words cubes k s : cubes <> [] -> model_id_words cubes k = Ok s ->
  exists ws, words s ws /\ StronglySorted before ws /\ forall w, In w ws <-> identifier cubes k w.
Proof.
  unfold model_id_words. intro N. pose proof (values_of_cubes k cubes) as V. destruct (mapM _ cubes) as [vs|e]; cbn [bind]; [|discriminate]. intros [= <-].
  exists (sort_words (flat_map split_words vs)). split; [|split; [apply sort_words_sorted|]].
  - split; [|split; [|reflexivity]].
    + destruct cubes as [|a r]; [congruence|]. destruct vs as [|v vs]; [discriminate|]. pose proof (split_nonempty v) as X. destruct (split_words v) as [|w ws] eqn:E; [congruence|]. intro Z.
      assert (In w []); [|assumption]. rewrite <- Z. apply sort_words_in. cbn [flat_map]. rewrite E. now left.
    + rewrite Forall_forall. intros w W. apply sort_words_in, in_flat_map in W as (v & _ & W). pose proof (split_free v) as F. rewrite Forall_forall in F. now apply F.
  - intro w. rewrite sort_words_in. now rewrite (identifier_iff _ _ _ _ V).
Qed.
Theorem C78_refused cubes k : (exists e, model_id_words cubes k = Err e) <-> exists a, In a cubes /\ get k a = None.
Proof.
  unfold model_id_words. pose proof (values_of_cubes k cubes) as V. destruct (mapM _ cubes) as [vs|e]; cbn [bind].
  - split; [intros [? ?]; discriminate|]. intros (a & A & G). assert (X : In (get k a) (map Some vs)) by (rewrite <- V; now apply in_map). rewrite G in X. apply in_map_iff in X as (? & ? & _). discriminate.
  - split; [intros _; apply V|eauto].
Qed.
Theorem C78_error cubes k e : model_id_words cubes k = Err e -> e = AttributeError.
Proof. unfold model_id_words. pose proof (values_of_cubes k cubes) as V. destruct (mapM _ cubes); cbn [bind]; [discriminate|]. intros [= <-]. apply V. Qed.
(** Only the set of identifiers matters: not their order, nor how often or in which cubes they occur. *)
Theorem C78_set cubes cubes' k s s' : cubes <> [] -> cubes' <> [] -> model_id_words cubes k = Ok s -> model_id_words cubes' k = Ok s' ->
  (s = s' <-> forall w, identifier cubes k w <-> identifier cubes' k w).
Proof.
  intros N N' H H'. destruct (C78_words _ _ _ N H) as (ws & W & S1 & E). destruct (C78_words _ _ _ N' H') as (ws' & W' & S2 & E'). split.
  - intros <- w. apply split_of_words in W, W'. subst. now rewrite <- E, <- E'.
  - intro X. assert (ws = ws') by (apply before_sorted_ext; auto; intro w; now rewrite E, E'). subst. destruct W as (_ & _ & <-), W' as (_ & _ & <-). reflexivity.
Qed.
(** Blending in stages gives the identifiers of blending at once. *)
Theorem C78_stages first rest k s : first <> [] -> model_id_words first k = Ok s -> model_id_words ([(k, s)] :: rest) k = model_id_words (first ++ rest)%list k.
Proof.
  intros N H. destruct (model_id_words (first ++ rest)%list k) as [t|e] eqn:T.
  - destruct (model_id_words ([(k, s)] :: rest) k) as [u|e] eqn:U.
    + f_equal. refine (proj2 (C78_set _ _ k u t _ _ U T) _); [discriminate|destruct first; [congruence|discriminate]|]. intro w.
      destruct (C78_words _ _ _ N H) as (ws & W & _ & E). split.
      * intros (a & v & vs & [<-|A] & G & V & I').
        -- cbn in G. rewrite String.eqb_refl in G. injection G as <-. apply split_of_words in W, V. subst. apply E in I' as (a & v & us & A & G & V & I'). exists a, v, us. rewrite in_app_iff. auto.
        -- exists a, v, vs. rewrite in_app_iff. auto.
      * intros (a & v & vs & A & G & V & I'). apply in_app_iff in A as [A|A].
        -- exists [(k, s)], s, ws. split; [now left|]. split; [cbn; now rewrite String.eqb_refl|]. split; [exact W|]. apply E. exists a, v, vs. auto.
        -- exists a, v, vs. split; [now right|auto].
    + exfalso. destruct (proj1 (C78_refused ([(k, s)] :: rest) k) (ex_intro _ _ U)) as (a & [<-|A] & G).
      * cbn in G. rewrite String.eqb_refl in G. discriminate.
      * destruct (proj2 (C78_refused (first ++ rest)%list k)) as [e' E']; [exists a; rewrite in_app_iff; auto|]. congruence.
  - destruct (model_id_words ([(k, s)] :: rest) k) as [u|e'] eqn:U; [|apply C78_error in U; apply C78_error in T; congruence]. exfalso.
    destruct (proj1 (C78_refused (first ++ rest)%list k) (ex_intro _ _ T)) as (a & A & G). apply in_app_iff in A as [A|A].
    + destruct (proj2 (C78_refused first k)) as [e' E']; [exists a; auto|]. congruence.
    + destruct (proj2 (C78_refused ([(k, s)] :: rest) k)) as [e' E']; [exists a; cbn; auto|]. congruence.
Qed.
Example C78_case : model_id_words [[("m", "uk_ens nc_det")]; [("x", "y"); ("m", "uk_det uk_ens")]] "m" = Ok "nc_det uk_det uk_ens" /\ words "nc_det uk_det uk_ens" ["nc_det"; "uk_det"; "uk_ens"] /\
  model_id_words [[("m", "a")]; [("x", "y")]] "m" = Err AttributeError.
Proof. split; [vm_compute; reflexivity|]. split; [apply split_of_words; reflexivity|reflexivity]. Qed.

Print Assumptions C78_words.
Print Assumptions C78_refused.
Print Assumptions C78_error.
Print Assumptions C78_set.
Print Assumptions C78_stages.
