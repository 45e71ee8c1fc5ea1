(** C137 copying attributes; C138 the command that collapses realizations. *)
From Verif Require Import Base Model_Probability Model_Manip Model_Attributes Props_Attributes Model_CycleBlend Props_CycleBlend Model_CopyAttributes.
Local Open Scope string_scope.
Local Open Scope list_scope.

Lemma Ok_inj {A} (x y : A) : Ok x = Ok y -> x = y. Proof. congruence. Qed.
(** A text that stands for itself in amend_attributes. *)
Definition itself (v : string) : Prop := v <> "remove" /\ contains "{}" v = false /\ contains "{now:" v = false.
Lemma wanted_ok names template ch : wanted names template = Ok ch <-> Forall2 (fun k e => fst e = k /\ find_attr k template = Some (snd e)) (nodup string_dec names) ch.
Proof.
  unfold wanted. generalize (nodup string_dec names). intro l. revert ch. induction l as [|k l IH]; intro ch; cbn [mapM].
  - split; [intro H; injection H as <-; constructor|intro H; inversion H; reflexivity].
  - destruct (find_attr k template) as [v|] eqn:E; cbn [bind].
    + destruct (mapM _ l) as [c|e] eqn:M; cbn [bind].
      * split; [intro H; injection H as <-; constructor; [split; [reflexivity|exact E]|now apply IH]|].
        intro H. inversion H as [|? [q w] ? c' [Q W] F]; subst. cbn [fst snd] in *. apply IH in F. congruence.
      * split; [discriminate|]. intro H. inversion H as [|? ? ? c' _ F]; subst. apply IH in F. discriminate F.
    + split; [discriminate|]. intro H. inversion H as [|? ? ? ? [_ W] _]; subst. congruence.
Qed.
Lemma wanted_err names template e : wanted names template = Err e -> e = KeyError /\ exists k, In k names /\ find_attr k template = None.
Proof.
  unfold wanted. assert (G : forall k, In k (nodup string_dec names) -> In k names) by (intro k; apply nodup_In). revert G. generalize (nodup string_dec names). intros l G. induction l as [|k l IH]; cbn [mapM]; [discriminate|].
  destruct (find_attr k template) as [v|] eqn:E; cbn [bind].
  - destruct (mapM _ l); cbn [bind]; [discriminate|]. intro H. injection H as <-. apply IH; [|reflexivity]. intros q Q. apply G. now right.
  - intro H. injection H as <-. split; [reflexivity|]. exists k. split; [apply G; now left|exact E].
Qed.
Lemma amend_texts stamp ch : forall a, NoDup (map fst ch) -> (forall k v, In (k, v) ch -> exists t, v = inl t /\ itself t) ->
  exists b, amend stamp a ch = (b, None) /\ (forall k, ~ In k (map fst ch) -> get k b = get k a) /\ (forall k t, In (k, inl t) ch -> get k b = Some t).
Proof.
  induction ch as [|[k v] ch IH]; intros a ND T; cbn [amend].
  - exists a. split; [reflexivity|]. split; [auto|intros ? ? []].
  - destruct (T k v (or_introl eq_refl)) as (t & -> & R & B & N). inversion ND as [|? ? NI ND']. subst. cbn [fst] in NI.
    assert (O := amend_one_spec stamp a k t). unfold amended in O. rewrite N in O. destruct (String.eqb_spec t "remove"); [contradiction|]. rewrite B in O.
    destruct (amend_one stamp a (k, t)) as [c|e]; [|discriminate O]. destruct O as (w & W & G). injection W as <-.
    destruct (IH c ND') as (b & -> & U & C); [intros q u Q; apply (T q u); now right|]. exists b. split; [reflexivity|]. cbn [map fst]. split.
    + intros q Q. rewrite U by (intro X; apply Q; now right). rewrite G. destruct (String.eqb_spec q k) as [->|_]; [elim Q; now left|reflexivity].
    + intros q u [X|X]; [injection X as <- <-; rewrite U by exact NI; rewrite G, String.eqb_refl; reflexivity|apply C, X].
Qed.
(** C137: afterwards every cube has the template's values of the attributes named, and its own values of all others. *)
Theorem C137_copied stamp names template cubes : cubes <> [] -> (forall k, In k names -> exists t, find_attr k template = Some (inl t) /\ itself t) ->
  exists after, copy_attributes stamp names template cubes = (after, None) /\
    Forall2 (fun a b => forall k, if in_dec string_dec k names then exists t, find_attr k template = Some (inl t) /\ get k b = Some t else get k b = get k a) cubes after.
Proof.
  intros NE T. unfold copy_attributes. destruct cubes as [|a0 r0]; [congruence|]. clear NE. generalize (a0 :: r0). intro cubes. clear a0 r0.
  destruct (wanted names template) as [ch|e] eqn:W; [|apply wanted_err in W as (_ & k & Hk & N); destruct (T k Hk) as (t & X & _); congruence].
  assert (W' := W). apply wanted_ok in W'. assert (KEYS : map fst ch = nodup string_dec names) by (clear W; induction W' as [|k e l c [X _] _ IH]; [reflexivity|]; cbn; congruence).
  assert (ND : NoDup (map fst ch)) by (rewrite KEYS; apply NoDup_nodup).
  assert (VAL : forall k v, In (k, v) ch -> In k names /\ find_attr k template = Some v).
  { intros k v H. assert (Hk : In k names) by (apply (nodup_In string_dec); rewrite <- KEYS; exact (in_map fst _ _ H)). split; [exact Hk|]. clear W KEYS ND T Hk. induction W' as [|q e l c [X Y] _ IH]; [destruct H|]. destruct H as [->|H]; [cbn in *; now subst|apply IH, H]. }
  assert (TX : forall k v, In (k, v) ch -> exists t, v = inl t /\ itself t). { intros k v H. destruct (VAL k v H) as [Hk F]. destruct (T k Hk) as (t & X & I). exists t. split; [congruence|exact I]. }
  induction cubes as [|a r IH]; cbn [copy_all]; [exists []; split; [reflexivity|constructor]|]. rewrite W. destruct (amend_texts stamp ch a ND TX) as (b & -> & U & C).
  destruct IH as (after & -> & F). exists (b :: after). split; [reflexivity|]. constructor; [|exact F]. intro k. destruct (in_dec string_dec k names) as [Hk|Hk].
  - destruct (T k Hk) as (t & X & _). exists t. split; [exact X|]. apply C. assert (K : In k (map fst ch)) by (rewrite KEYS; now apply nodup_In). apply in_map_iff in K as ([q v] & E & K). cbn in E. subst q.
    destruct (VAL k v K) as [_ V]. assert (v = inl t) by congruence. now subst v.
  - apply U. rewrite KEYS. intro X. apply Hk. now apply nodup_In in X.
Qed.
(** C137: no cubes are refused. *)
Theorem C137_no_cubes stamp names template : copy_attributes stamp names template [] = ([], Some ValueError).
Proof. reflexivity. Qed.
(** C137: an attribute that the template lacks is a KeyError, and then no cube has changed. *)
Theorem C137_missing stamp names template cubes k : cubes <> [] -> In k names -> find_attr k template = None -> copy_attributes stamp names template cubes = (cubes, Some KeyError).
Proof.
  intros NE Hk N. unfold copy_attributes. destruct cubes as [|a r]; [congruence|]. cbn [copy_all]. destruct (wanted names template) as [ch|e] eqn:W.
  - exfalso. apply wanted_ok in W. apply (nodup_In string_dec) in Hk. clear NE. induction W as [|q e l c [X Y] _ IH]; [destruct Hk|]. destruct Hk as [->|Hk]; [congruence|auto].
  - apply wanted_err in W as [-> _]. reflexivity.
Qed.
(** C137: not every value is copied: the texts remove and {} and numbers are not taken as they are. *)
Theorem C137_remove_refuted stamp : ~ (forall names template cubes after k t, copy_attributes stamp names template cubes = (after, None) -> In k names -> find_attr k template = Some (inl t) -> Forall (fun b => get k b = Some t) after).
Proof. intro H. specialize (H ["a"] [("a", inl "remove")] [[("a", "1")]] [[]] "a" "remove" eq_refl (or_introl eq_refl) eq_refl). inversion H. discriminate. Qed.
Theorem C137_braces_refuted stamp : ~ (forall names template cubes after k t, copy_attributes stamp names template cubes = (after, None) -> t <> "remove" -> In k names -> find_attr k template = Some (inl t) -> Forall (fun b => get k b = Some t) after).
Proof.
  intro H. assert (X : "{}" <> "remove") by discriminate. specialize (H ["a"] [("a", inl "{}")] [[("a", "1")]] [[("a", "1")]] "a" "{}" eq_refl X (or_introl eq_refl) eq_refl). inversion H. discriminate.
Qed.
Theorem C137_number stamp names template cubes k : cubes <> [] -> In k names -> find_attr k template = Some (inr tt) -> exists after e, copy_attributes stamp names template cubes = (after, Some e).
Proof.
  intros NE Hk N. unfold copy_attributes. destruct cubes as [|a r]; [congruence|]. cbn [copy_all]. destruct (wanted names template) as [ch|e] eqn:W; [|eauto].
  assert (K : In (k, inr tt) ch). { apply wanted_ok in W. apply (nodup_In string_dec) in Hk. clear NE. induction W as [|q [q' v] l c [X Y] _ IH]; [destruct Hk|]. cbn [fst snd] in *. subst q'. destruct Hk as [->|Hk]; [left; congruence|right; auto]. }
  assert (E : exists b e, amend stamp a ch = (b, Some e)).
  { clear W NE Hk. revert a. induction ch as [|[q [t|u]] ch IH]; intro a; [destruct K| |cbn; eauto]. cbn [amend]. destruct K as [K|K]; [discriminate K|]. destruct (amend_one stamp a (q, t)); [apply IH, K|eauto]. }
  destruct E as (b & e & ->). eauto.
Qed.
Example C137_case stamp : copy_attributes stamp ["mosg__grid_version"; "title"] [("title", inl "UKV"); ("source", inl "Met Office"); ("mosg__grid_version", inl "1.3.0")] [[("title", "old"); ("source", "IMPROVER")]; []] =
  ([[("title", "UKV"); ("source", "IMPROVER"); ("mosg__grid_version", "1.3.0")]; [("mosg__grid_version", "1.3.0"); ("title", "UKV")]], None) /\
  copy_attributes stamp ["title"; "absent"] [("title", inl "UKV")] [[("title", "old")]] = ([[("title", "old")]], Some KeyError).
Proof. split; reflexivity. Qed.

(** C138: the result is the statistic asked for, at every point, of the members that are not missing there (missing where there are too few); the name changes only if one is given that is not empty. *)
Theorem C138_command method new_name n dimension name rows out : collapse_command method new_name n dimension name rows = Ok out ->
  (fst out = name /\ (new_name = None \/ new_name = Some "") \/ fst out <> "" /\ new_name = Some (fst out)) /\
  exists a rs, method = named a /\ rows = Some rs /\ length (snd out) = n /\ forall g, (g < n)%nat ->
    let l := there (map (fun r => nth g r None) rs) in
    match nth g (snd out) None with
    | Some v => statistic a l v /\ (needs a <= length l)%nat
    | None => (length l < needs a)%nat
    end.
Proof.
  unfold collapse_command. destruct dimension; [|discriminate]. cbn [negb]. destruct (collapse_realizations method n rows) as [d|] eqn:E; [|discriminate]. cbn [bind]. intro H. apply Ok_inj in H. subst out. cbn [fst snd]. split.
  - destruct new_name as [[|c s]|]; [left; auto|right; split; [discriminate|reflexivity]|left; auto].
  - apply C125_collapse in E as (a & rs & M & R & L & V). exists a, rs. split; [exact M|]. split; [exact R|]. split; [exact L|]. intros g Hg. cbv zeta. rewrite V by exact Hg.
    destruct (aggregated a _) as [v|] eqn:A; [now apply C125_statistics in A|now apply C125_masked in A].
Qed.
(** C138: it succeeds exactly if realization is a dimension and the method is one of the six; a scalar realization is refused. *)
Theorem C138_accepted method new_name n dimension name rs : (exists out, collapse_command method new_name n dimension name (Some rs) = Ok out) <-> dimension = true /\ exists a, method = named a.
Proof.
  unfold collapse_command. destruct dimension; cbn [negb]; [|split; [intros [? H]; discriminate H|intros [H _]; discriminate H]].
  destruct (collapse_realizations method n (Some rs)) as [d|e] eqn:E; cbn [bind].
  - split; [|eauto]. intros _. split; [reflexivity|]. apply C125_collapse in E as (a & _ & M & _). eauto.
  - split; [intros [? H]; discriminate H|]. intros [_ [a ->]]. unfold collapse_realizations in E. rewrite (proj2 (named_iff (named a) a) eq_refl) in E. discriminate E.
Qed.
Theorem C138_refused method new_name n dimension name rows e : collapse_command method new_name n dimension name rows = Err e -> e = ValueError \/ rows = None /\ e = CoordinateNotFoundError.
Proof.
  unfold collapse_command, collapse_realizations. destruct dimension; cbn [negb]; [|intro H; left; congruence]. destruct (aggregator_of method); cbn [bind]; [|intro H; left; congruence].
  destruct rows; cbn [bind]; [discriminate|]. intro H. right. split; congruence.
Qed.
Example C138_case : collapse_command "median" (Some "") 2 true "x" (Some [[Some 3; None]; [Some 1; None]; [None; Some 5]]%Q) = Ok ("x", [Some ((1 + 3) / 2); Some 5]%Q) /\
  collapse_command "median" (Some "y") 2 false "x" (Some [[Some 3; None]]%Q) = Err ValueError.
Proof. split; reflexivity. Qed.

Print Assumptions C137_copied.
Print Assumptions C137_no_cubes.
Print Assumptions C137_missing.
Print Assumptions C137_remove_refuted.
Print Assumptions C137_braces_refuted.
Print Assumptions C137_number.
Print Assumptions C138_command.
Print Assumptions C138_accepted.
Print Assumptions C138_refused.
