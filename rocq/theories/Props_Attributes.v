(** C77: the attributes of cubes. *)
From Coq Require Import Ascii Permutation.
From Verif Require Import Base Model_Probability Proofs_Names Model_Manip Props_Merge Model_Attributes Proofs_Reordering Proofs_TreeMissing.
Local Open Scope string_scope.

(** Every cube, and there is at least one, has the value v under k. *)
Definition agreed (k v : string) (cubes : list attributes) : Prop := cubes <> [] /\ forall a, In a cubes -> get k a = Some v.
Definition mandatory (k : string) : Prop := In k ["title"; "source"; "institution"].

Lemma get_set k v k' a : get k' (set_attr k v a) = if String.eqb k' k then Some v else get k' a.
Proof.
  induction a as [|[q w] a IH]; cbn [set_attr get].
  - now destruct (String.eqb k' k).
  - destruct (String.eqb k q) eqn:E; cbn [get].
    + apply String.eqb_eq in E. subst q. now destruct (String.eqb k' k).
    + rewrite IH. destruct (String.eqb k' q) eqn:F; [|reflexivity]. apply String.eqb_eq in F. subst q. rewrite String.eqb_sym in E. now rewrite E.
Qed.
Lemma get_drop k k' a : get k' (drop_attr k a) = if String.eqb k' k then None else get k' a.
Proof.
  induction a as [|[q w] a IH]; cbn [drop_attr filter get fst].
  - now destruct (String.eqb k' k).
  - fold (drop_attr k a). destruct (String.eqb k q) eqn:E; cbn [negb get].
    + apply String.eqb_eq in E. subst q. rewrite IH. now destruct (String.eqb k' k).
    + rewrite IH. destruct (String.eqb k' q) eqn:F; [|reflexivity]. apply String.eqb_eq in F. subst q. rewrite String.eqb_sym in E. now rewrite E.
Qed.
Lemma keys_set k v a : map fst (set_attr k v a) = if existsb (String.eqb k) (map fst a) then map fst a else (map fst a ++ [k])%list.
Proof.
  induction a as [|[q w] a IH]; [reflexivity|]. cbn [set_attr map fst existsb]. destruct (String.eqb k q) eqn:E; cbn [map fst orb]; [reflexivity|].
  rewrite IH. now destruct (existsb (String.eqb k) (map fst a)).
Qed.
Lemma set_dict k v a : is_dict a -> is_dict (set_attr k v a).
Proof.
  unfold is_dict. rewrite keys_set. destruct (existsb (String.eqb k) (map fst a)) eqn:E; [auto|]. intro H.
  apply (Permutation_NoDup (l := k :: map fst a)); [apply Permutation_cons_append|]. constructor; [|exact H]. intro X. apply mem_iff in X. congruence.
Qed.
Lemma in_keys k a : In k (map fst a) <-> exists v, get k a = Some v.
Proof. split; [apply get_some|]. intros [v H]. now apply get_in in H. Qed.
Lemma set_keys_in k v a q : In q (map fst (set_attr k v a)) <-> q = k \/ In q (map fst a).
Proof.
  rewrite !in_keys, get_set. destruct (String.eqb q k) eqn:E.
  - apply String.eqb_eq in E. subst. split; [auto|eauto].
  - apply String.eqb_neq in E. split; [auto|]. intros [|]; [congruence|assumption].
Qed.
Lemma common_iff k v cubes : common_value k cubes = Some v <-> agreed k v cubes.
Proof.
  unfold common_value, agreed. destruct cubes as [|a r]; [split; [discriminate|tauto]|]. split.
  - destruct (get k a) as [w|] eqn:G; [|discriminate]. destruct (forallb _ r) eqn:F; [|discriminate]. intros [= ->]. split; [discriminate|].
    intros b [<-|B]; [exact G|]. rewrite forallb_forall in F. specialize (F b B). destruct (get k b); [|discriminate]. apply String.eqb_eq in F. now subst.
  - intros [_ H]. rewrite (H a) by now left. replace (forallb _ r) with true; [reflexivity|]. symmetry. apply forallb_forall. intros b B. rewrite (H b) by now right. apply String.eqb_refl.
Qed.
Lemma common_none k cubes : common_value k cubes = None <-> ~ exists v, agreed k v cubes.
Proof.
  split.
  - intros H [v A]. apply common_iff in A. congruence.
  - intro H. destruct (common_value k cubes) as [v|] eqn:E; [|reflexivity]. exfalso. apply H. exists v. now apply common_iff.
Qed.
Lemma agreed_unique k v w cubes : agreed k v cubes -> agreed k w cubes -> v = w.
Proof. intros [N A] [_ B]. destruct cubes as [|a r]; [congruence|]. specialize (A a (or_introl eq_refl)). specialize (B a (or_introl eq_refl)). congruence. Qed.

(** The step of generate_mandatory_attributes, and a run of it. *)
Definition gen_step (cubes : list attributes) (required : list string) (acc : result attributes) (k : string) : result attributes :=
  let* d := acc in match common_value k cubes with Some v => Ok (set_attr k v d) | None => if existsb (String.eqb k) required then Err ValueError else Ok d end.
Lemma gen_run cubes req ks : forall d0,
  match fold_left (gen_step cubes req) ks (Ok d0) with
  | Ok d => (forall k, In k ks -> In k req -> exists v, agreed k v cubes) /\ (is_dict d0 -> is_dict d) /\
      forall k, get k d = if existsb (String.eqb k) ks then match common_value k cubes with Some v => Some v | None => get k d0 end else get k d0
  | Err e => e = ValueError /\ exists k, In k ks /\ In k req /\ ~ exists v, agreed k v cubes
  end.
Proof.
  assert (FE : forall l e, fold_left (gen_step cubes req) l (Err e) = Err e) by (induction l; auto).
  induction ks as [|k ks IH]; intro d0; cbn [fold_left].
  - split; [intros ? []|]. split; [auto|]. intro; reflexivity.
  - unfold gen_step at 2. cbn [bind]. destruct (common_value k cubes) as [v|] eqn:C.
    + specialize (IH (set_attr k v d0)). destruct (fold_left _ ks _) as [d|e].
      * destruct IH as (A & D & G). split; [|split].
        -- intros q [<-|Q] R; [|auto]. exists v. now apply common_iff.
        -- intro H. apply D, set_dict, H.
        -- intro q. rewrite G, get_set. cbn [existsb]. destruct (String.eqb q k) eqn:E; cbn [orb].
           ++ apply String.eqb_eq in E. subst q. rewrite C. now destruct (existsb _ ks).
           ++ reflexivity.
      * destruct IH as (-> & q & Q & R & N). split; [reflexivity|]. exists q. cbn. auto.
    + destruct (existsb (String.eqb k) req) eqn:R.
      * rewrite FE. split; [reflexivity|]. exists k. split; [now left|]. split; [now apply mem_iff|]. now apply common_none.
      * specialize (IH d0). destruct (fold_left _ ks _) as [d|e].
        -- destruct IH as (A & D & G). split; [|split; [exact D|]].
           ++ intros q [<-|Q] R'; [|auto]. apply mem_iff in R'. congruence.
           ++ intro q. rewrite G. cbn [existsb]. destruct (String.eqb q k) eqn:E; cbn [orb]; [|reflexivity]. apply String.eqb_eq in E. subst q. rewrite C. now destruct (existsb _ ks).
        -- destruct IH as (-> & q & Q & R' & N). split; [reflexivity|]. exists q. cbn. auto.
Qed.
(** The model id that is asked for. *)
Definition asked (model_id : option string) (k : string) : Prop := model_id = Some k /\ k <> "".
Definition req_of (model_id : option string) : list string := match model_id with Some "" => [] | Some m => [m] | None => [] end.
Lemma req_iff m k : In k (req_of m) <-> asked m k.
Proof.
  unfold req_of, asked. destruct m as [[|c s]|]; cbn [In].
  - split; [intros []|]. intros [[= <-] H]. congruence.
  - split; [intros [<-|[]]; split; [reflexivity|discriminate]|]. intros [[= <-] _]. now left.
  - split; [intros []|]. intros [? _]. discriminate.
Qed.
Lemma gen_unfold cubes m : generate_mandatory_attributes cubes m = fold_left (gen_step cubes (req_of m)) (["title"; "source"; "institution"] ++ req_of m)%list (Ok mandatory_defaults).
Proof. reflexivity. Qed.

(** The attributes of a new diagnostic: title, source and institution, and the model id if asked for; each the value
    that all the inputs share, or else its default. *)
Theorem C77_generated cubes model_id d : generate_mandatory_attributes cubes model_id = Ok d ->
  is_dict d /\ (forall k, In k (map fst d) <-> mandatory k \/ asked model_id k) /\
  (forall k v, mandatory k \/ asked model_id k -> agreed k v cubes -> get k d = Some v) /\
  (forall k, mandatory k -> (~ exists v, agreed k v cubes) -> get k d = Some (if String.eqb k "source" then "IMPROVER" else "unknown")) /\
  (forall k, asked model_id k -> exists v, agreed k v cubes).
Proof.
  rewrite gen_unfold. intro H. pose proof (gen_run cubes (req_of model_id) (["title"; "source"; "institution"] ++ req_of model_id)%list mandatory_defaults) as R. rewrite H in R. destruct R as (A & D & G).
  assert (M : forall k, existsb (String.eqb k) (["title"; "source"; "institution"] ++ req_of model_id)%list = true <-> mandatory k \/ asked model_id k).
  { intro k. rewrite mem_iff, in_app_iff, req_iff. reflexivity. }
  split; [apply D; unfold is_dict; cbn; repeat constructor; cbn; intuition discriminate|].
  assert (AQ : forall k, asked model_id k -> exists v, agreed k v cubes). { intros k K. apply A; [apply in_app_iff; right|]; now apply req_iff. }
  split; [|split; [|split; [|exact AQ]]].
  - intro k. rewrite in_keys, G. specialize (M k). destruct (existsb _ _) eqn:E.
    + split; [intros _; now apply M|]. intros K. destruct (common_value k cubes) as [v|] eqn:C; [eauto|]. destruct K as [K|K].
      * unfold mandatory in K. cbn in K. destruct K as [<-|[<-|[<-|[]]]]; cbn; eauto.
      * apply common_none in C. exfalso. apply C. now apply AQ.
    + split; [|intro K; apply M in K; discriminate]. intros [v V]. left. unfold mandatory. apply get_in in V. exact V.
  - intros k v K V. rewrite G. apply M in K. rewrite K. apply common_iff in V. now rewrite V.
  - intros k K N. rewrite G. replace (existsb _ _) with true by (symmetry; apply M; now left). apply common_none in N. rewrite N. unfold mandatory in K. cbn in K. destruct K as [<-|[<-|[<-|[]]]]; reflexivity.
Qed.
(** It is refused exactly if a model id is asked for which the inputs do not share. *)
Theorem C77_generated_refused cubes model_id : (exists e, generate_mandatory_attributes cubes model_id = Err e) <-> (exists k, asked model_id k /\ ~ exists v, agreed k v cubes).
Proof.
  rewrite gen_unfold. pose proof (gen_run cubes (req_of model_id) (["title"; "source"; "institution"] ++ req_of model_id)%list mandatory_defaults) as R. destruct (fold_left _ _ _) as [d|e].
  - destruct R as (A & _). split; [intros [? ?]; discriminate|]. intros (k & K & N). exfalso. apply N. apply req_iff in K. apply A; [apply in_app_iff; now right|exact K].
  - destruct R as (-> & k & _ & K & N). split; [intros _; exists k; split; [now apply req_iff|exact N]|eauto].
Qed.
Lemma agreed_perm k v cubes cubes' : Permutation cubes cubes' -> agreed k v cubes -> agreed k v cubes'.
Proof. intros P [N A]. split; [intros ->; apply Permutation_sym, Permutation_nil in P; congruence|]. intros a I'. apply A. eapply Permutation_in; [apply Permutation_sym; exact P|exact I']. Qed.
(** The order of the inputs does not matter. *)
Theorem C77_generated_order cubes cubes' model_id : Permutation cubes cubes' -> generate_mandatory_attributes cubes model_id = generate_mandatory_attributes cubes' model_id.
Proof.
  intro P. rewrite !gen_unfold. generalize (Ok mandatory_defaults). induction (["title"; "source"; "institution"] ++ req_of model_id)%list as [|k ks IH]; intro r; [reflexivity|]. cbn [fold_left]. rewrite IH. f_equal.
  unfold gen_step. replace (common_value k cubes') with (common_value k cubes); [reflexivity|]. destruct (common_value k cubes) as [v|] eqn:C.
  - symmetry. apply common_iff. apply common_iff in C. now apply (agreed_perm _ _ cubes).
  - symmetry. apply common_none. apply common_none in C. intros [v V]. apply C. exists v. now apply (agreed_perm _ _ cubes' _ (Permutation_sym P)).
Qed.
(** get_model_id_attr: the value that all the cubes share, and an error if there is none. *)
Theorem C77_model_id cubes k : (forall v, get_model_id_attr cubes k = Ok v <-> agreed k v cubes) /\ (forall e, get_model_id_attr cubes k = Err e -> e = ValueError).
Proof.
  unfold get_model_id_attr. set (f := fun a : attributes => match get k a with Some v => Ok v | None => Err ValueError end).
  assert (FI : forall vs, mapM f cubes = Ok vs -> map (get k) cubes = map Some vs).
  { clear. induction cubes as [|a r IH]; intros vs H; cbn in H.
    - injection H as <-. reflexivity.
    - unfold f in H at 1. destruct (get k a) as [v|] eqn:G; cbn [bind] in H; [|discriminate]. destruct (mapM f r) as [ws|]; cbn [bind] in H; [|discriminate]. injection H as <-. cbn [map]. rewrite G. f_equal. now apply IH. }
  assert (FE : forall e, mapM f cubes = Err e -> e = ValueError /\ exists a, In a cubes /\ get k a = None).
  { clear. induction cubes as [|a r IH]; intros e H; cbn in H; [discriminate|]. unfold f in H at 1. destruct (get k a) as [v|] eqn:G; cbn [bind] in H.
    - destruct (mapM f r) as [ws|e'] eqn:M; cbn [bind] in H; [discriminate|]. injection H as <-. destruct (IH _ eq_refl) as (-> & b & B & Gb). split; [reflexivity|]. exists b. cbn. auto.
    - injection H as <-. split; [reflexivity|]. exists a. cbn. auto. }
  destruct (mapM f cubes) as [vs|e] eqn:M; cbn [bind].
  - specialize (FI _ eq_refl). clear FE.
    assert (Iv : forall v, In v vs <-> exists a, In a cubes /\ get k a = Some v).
    { intro v. split; intro H.
      - assert (X : In (Some v) (map (get k) cubes)) by (rewrite FI; now apply in_map). apply in_map_iff in X. destruct X as (a & E & A). eauto.
      - destruct H as (a & A & E). assert (X : In (Some v) (map Some vs)) by (rewrite <- FI; apply in_map_iff; eauto). apply in_map_iff in X. destruct X as (w & [= ->] & W). exact W. }
    assert (Al : forall a, In a cubes -> exists v, get k a = Some v /\ In v vs).
    { intros a A. assert (X : In (get k a) (map Some vs)) by (rewrite <- FI; now apply in_map). apply in_map_iff in X. destruct X as (v & <- & V). eauto. }
    split.
    + intro v. split.
      * destruct (nodup string_dec vs) as [|w [|w' r]] eqn:N; try discriminate. intros [= <-].
        assert (O : forall u, In u vs -> u = w). { intros u U. apply (nodup_In string_dec) in U. rewrite N in U. destruct U as [<-|[]]. reflexivity. }
        split.
        -- intros ->. cbn in FI. destruct vs; [discriminate|discriminate].
        -- intros a A. destruct (Al a A) as (u & E & U). now rewrite (O u U) in E.
      * intros [Ne A]. assert (O : forall u, In u vs -> u = v). { intros u U. apply Iv in U. destruct U as (a & I' & E). rewrite (A a I') in E. congruence. }
        assert (V : In v vs). { destruct cubes as [|a r]; [congruence|]. apply Iv. exists a. split; [now left|]. apply A. now left. }
        destruct (nodup string_dec vs) as [|w r] eqn:N.
        -- apply (nodup_In string_dec) in V. rewrite N in V. destruct V.
        -- pose proof (NoDup_nodup string_dec vs) as ND. rewrite N in ND.
           assert (O' : forall u, In u (w :: r) -> u = v). { intros u U. apply O. apply (nodup_In string_dec). now rewrite N. }
           rewrite (O' w) by now left. destruct r as [|w' r]; [reflexivity|]. exfalso. inversion ND as [|? ? X _]. apply X. rewrite (O' w) by now left. rewrite <- (O' w') by (right; now left). now left.
    + intro e. destruct (nodup string_dec vs) as [|w [|w' r]]; intro X; congruence.
  - destruct (FE _ eq_refl) as (-> & a & A & G). split; [|congruence]. intro v. split; [discriminate|]. intros [_ H]. rewrite (H a A) in G. discriminate.
Qed.

(** The attributes of a cube made by create_new_diagnostic_cube: the optional ones take precedence, all three mandatory
    ones must be there. *)
Lemma update_get b : forall a k, is_dict b -> get k (update a b) = match get k b with Some v => Some v | None => get k a end.
Proof.
  induction b as [|[q w] b IH]; intros a k D; [reflexivity|]. unfold update in *. cbn [fold_left fst snd get].
  assert (Db : is_dict b) by (unfold is_dict in *; cbn in D; now inversion D). rewrite IH, get_set by exact Db. destruct (String.eqb k q) eqn:E; [|reflexivity]. apply String.eqb_eq in E. subst q.
  destruct (get k b) as [v|] eqn:G; [|reflexivity]. apply get_in in G. unfold is_dict in D. cbn in D. inversion D. contradiction.
Qed.
Theorem C77_new_cube mandatory_ optional : (forall o, optional = Some o -> is_dict o) ->
  let want k := match optional with Some o => match get k o with Some v => Some v | None => get k mandatory_ end | None => get k mandatory_ end in
  (forall d, snd (new_cube_attributes mandatory_ optional) = Ok d -> (forall k, get k d = want k) /\ forall k, mandatory k -> want k <> None) /\
  (forall e, snd (new_cube_attributes mandatory_ optional) = Err e -> e = ValueError /\ exists k, mandatory k /\ want k = None).
Proof.
  intros D want. unfold new_cube_attributes. set (d0 := match optional with Some o => update mandatory_ o | None => mandatory_ end).
  assert (G : forall k, get k d0 = want k). { intro k. unfold d0, want. destruct optional as [o|]; [|reflexivity]. apply update_get. now apply D. }
  cbn [fst snd]. destruct (forallb _ _) eqn:F.
  - split; [|discriminate]. intros d [= <-]. split; [exact G|]. intros k K. rewrite forallb_forall in F. specialize (F k K). rewrite G in F. now destruct (want k).
  - split; [discriminate|]. intros e [= <-]. split; [reflexivity|]. cbn [mandatory_defaults map fst forallb] in F. unfold mandatory.
    destruct (get "title" d0) eqn:T; [|exists "title"; rewrite <- G; cbn; auto]. destruct (get "source" d0) eqn:T'; [|exists "source"; rewrite <- G; cbn; auto]. destruct (get "institution" d0) eqn:T''; [discriminate|]. exists "institution"; rewrite <- G; cbn; auto 6.
Qed.
(** The caller's dictionary is not left alone. *)
Theorem C77_new_cube_caller_refuted : ~ (forall mandatory_ optional, fst (new_cube_attributes mandatory_ optional) = mandatory_).
Proof. intro H. specialize (H mandatory_defaults (Some [("title", "Solar")])). discriminate. Qed.
(** It is left alone if there are no optional attributes, or if they are already there. *)
Lemma set_same k v a : get k a = Some v -> set_attr k v a = a.
Proof. induction a as [|[q w] a IH]; [discriminate|]. cbn [get set_attr]. destruct (String.eqb k q) eqn:E; [intros [= ->]; reflexivity|]. intro H. now rewrite IH. Qed.
Theorem C77_new_cube_caller mandatory_ optional : (forall o k v, optional = Some o -> In (k, v) o -> get k mandatory_ = Some v) -> fst (new_cube_attributes mandatory_ optional) = mandatory_.
Proof.
  intro H. unfold new_cube_attributes. cbn [fst]. destruct optional as [o|]; [|reflexivity]. assert (G : forall k v, In (k, v) o -> get k mandatory_ = Some v) by (intros; eapply H; eauto). clear H.
  unfold update. induction o as [|[k v] o IH]; [reflexivity|]. cbn [fold_left fst snd]. rewrite set_same by (apply G; now left). apply IH. intros; apply G; now right.
Qed.

(** amend_attributes *)
(** What one entry of the changes makes of a value; None: the attribute is not there. *)
Definition amended (stamp : string -> string) (v0 : string) (old : option string) : result (option string) :=
  let v := if contains "{now:" v0 then stamp v0 else v0 in
  if String.eqb v "remove" then Ok None else if contains "{}" v then let* w := py_format v (match old with Some o => o | None => "" end) false in Ok (Some w) else Ok (Some v).
Lemma amend_one_spec stamp a k v : match amend_one stamp a (k, v) with
  | Ok b => exists w, amended stamp v (get k a) = Ok w /\ forall q, get q b = if String.eqb q k then w else get q a
  | Err e => amended stamp v (get k a) = Err e end.
Proof.
  unfold amend_one, amended. set (v' := if contains "{now:" v then stamp v else v). destruct (String.eqb v' "remove").
  - exists None. split; [reflexivity|]. intro q. apply get_drop.
  - destruct (contains "{}" v').
    + destruct (py_format _ _ _) as [w|e]; cbn [bind]; [|reflexivity]. exists (Some w). split; [reflexivity|]. intro q. apply get_set.
    + exists (Some v'). split; [reflexivity|]. intro q. apply get_set.
Qed.
(** After a success every entry of the changes is carried out, on the value from before, and nothing else is touched. *)
Theorem C77_amend stamp changes : forall a b, is_dict changes -> amend_attributes stamp a changes = (b, None) ->
  (forall k, ~ In k (map fst changes) -> get k b = get k a) /\ (forall k v, In (k, v) changes -> amended stamp v (get k a) = Ok (get k b)).
Proof.
  induction changes as [|[k v] r IH]; intros a b D H; cbn [amend_attributes] in H.
  - injection H as <-. split; [auto|intros ? ? []].
  - pose proof (amend_one_spec stamp a k v) as O. destruct (amend_one stamp a (k, v)) as [c|e] eqn:E; [|discriminate]. destruct O as (w & W & G). unfold is_dict in D. cbn in D. inversion D as [|? ? N D']. subst.
    destruct (IH c b D' H) as [U C]. split.
    + intros q Q. cbn in Q. rewrite U by tauto. rewrite G. destruct (String.eqb q k) eqn:F; [|reflexivity]. apply String.eqb_eq in F. subst. tauto.
    + intros q u [[= <- <-]|Q].
      * rewrite U by exact N. rewrite G, String.eqb_refl. exact W.
      * rewrite <- (C q u Q). rewrite G. destruct (String.eqb q k) eqn:F; [|reflexivity]. apply String.eqb_eq in F. subst. exfalso. apply N. now apply (in_map fst) in Q.
Qed.
(** After a failure the entries before the failing one are carried out and no other. *)
Theorem C77_amend_failure stamp changes : forall a b e, is_dict changes -> amend_attributes stamp a changes = (b, Some e) ->
  exists done k v rest, changes = (done ++ (k, v) :: rest)%list /\ amend_attributes stamp a done = (b, None) /\ amended stamp v (get k a) = Err e.
Proof.
  induction changes as [|[k v] r IH]; intros a b e D H; cbn [amend_attributes] in H; [discriminate|].
  pose proof (amend_one_spec stamp a k v) as O. unfold is_dict in D. cbn in D. inversion D as [|? ? N D']. subst. destruct (amend_one stamp a (k, v)) as [c|x] eqn:E.
  - destruct O as (w & W & G). destruct (IH c b e D' H) as (dn & q & u & rest & -> & A & F). exists ((k, v) :: dn)%list, q, u, rest. split; [reflexivity|]. split; [cbn [amend_attributes]; now rewrite E|].
    rewrite <- F. rewrite G. destruct (String.eqb q k) eqn:X; [|reflexivity]. apply String.eqb_eq in X. subst. exfalso. apply N. rewrite map_app. apply in_app_iff. right. now left.
  - injection H as <- <-. exists [], k, v, r. split; [reflexivity|]. split; [reflexivity|exact O].
Qed.
(** The order of the changes does not matter to a success. *)
Theorem C77_amend_order stamp changes changes' a b : is_dict changes -> Permutation changes changes' -> amend_attributes stamp a changes = (b, None) ->
  exists b', amend_attributes stamp a changes' = (b', None) /\ forall k, get k b' = get k b.
Proof.
  intros D P H. assert (D' : is_dict changes') by (unfold is_dict in *; eapply Permutation_NoDup; [apply Permutation_map; exact P|exact D]).
  destruct (C77_amend _ _ _ _ D H) as [U C]. destruct (amend_attributes stamp a changes') as [b' [e|]] eqn:E.
  - exfalso. destruct (C77_amend_failure _ _ _ _ _ D' E) as (dn & k & v & rest & Eq & _ & F). assert (In (k, v) changes). { eapply Permutation_in; [apply Permutation_sym; exact P|]. rewrite Eq. apply in_app_iff. right. now left. } rewrite (C _ _ H0) in F. discriminate.
  - exists b'. split; [reflexivity|]. destruct (C77_amend _ _ _ _ D' E) as [U' C']. intro k.
    destruct (in_dec string_dec k (map fst changes)) as [I'|N].
    + apply in_map_iff in I' as ([k' v] & <- & V). cbn [fst]. assert (V' := Permutation_in _ P V). specialize (C _ _ V). specialize (C' _ _ V'). congruence.
    + rewrite U by exact N. apply U'. intro X. apply N. eapply Permutation_in; [apply Permutation_map, Permutation_sym; exact P|exact X].
Qed.
(** A text without braces around one {} takes the old value in its place; a second {} is refused. *)
Fixpoint no_braces (s : string) : Prop := match s with "" => True | String c r => c <> "{"%char /\ c <> "}"%char /\ no_braces r end.
Lemma format_skip p s arg u : no_braces p -> py_format (p ++ s) arg u = let* o := py_format s arg u in Ok (p ++ o).
Proof.
  induction p as [|c p IH]; cbn [no_braces append].
  - intros _. destruct (py_format s arg u); reflexivity.
  - intros (A & B & H). cbn [py_format]. apply Ascii.eqb_neq in A, B. rewrite A, B, IH by exact H. destruct (py_format s arg u); reflexivity.
Qed.
Lemma format_plain p arg u : no_braces p -> py_format p arg u = Ok p.
Proof. intro H. replace p with (p ++ "") at 1 by (clear; induction p; cbn; [reflexivity|now f_equal]). rewrite format_skip by exact H. cbn [py_format bind]. f_equal. clear; induction p; cbn; [reflexivity|now f_equal]. Qed.
Lemma contains_app p w s : contains w (p ++ w ++ s) = true.
Proof.
  assert (X : forall s0, String.prefix w (w ++ s0) = true). { clear. intro s0. induction w as [|c w IH]; [now destruct s0|]. cbn [append]. apply prefix_cons. auto. }
  induction p as [|c p IH]; cbn [append].
  - destruct (w ++ s) eqn:E; cbn [contains]; rewrite <- E, X; reflexivity.
  - cbn [contains]. rewrite IH. apply orb_true_r.
Qed.
Theorem C77_amend_insert stamp p s old : no_braces p -> no_braces s -> contains "{now:" (p ++ "{}" ++ s) = false ->
  amended stamp (p ++ "{}" ++ s) (Some old) = Ok (Some (p ++ old ++ s)) /\ amended stamp (p ++ "{}" ++ s) None = Ok (Some (p ++ s)).
Proof.
  intros P S' N. assert (R : String.eqb (p ++ "{}" ++ s) "remove" = false).
  { apply String.eqb_neq. intro X. pose proof (contains_app p "{}" s) as Y. rewrite X in Y. discriminate. }
  assert (F : forall o, py_format (p ++ "{}" ++ s) o false = Ok (p ++ o ++ s)).
  { intro o. rewrite format_skip by exact P. change (py_format ("{}" ++ s) o false) with (let* x := py_format s o true in Ok (o ++ x)). now rewrite format_plain by exact S'. }
  unfold amended. rewrite N, R, contains_app, !F. split; reflexivity.
Qed.
Theorem C77_amend_twice stamp p q s old : no_braces p -> no_braces q -> contains "{now:" (p ++ "{}" ++ q ++ "{}" ++ s) = false -> amended stamp (p ++ "{}" ++ q ++ "{}" ++ s) old = Err IndexError.
Proof.
  intros P Q N. assert (R : String.eqb (p ++ "{}" ++ q ++ "{}" ++ s) "remove" = false).
  { apply String.eqb_neq. intro X. pose proof (contains_app p "{}" (q ++ "{}" ++ s)) as Y. rewrite X in Y. discriminate. }
  unfold amended. rewrite N, R, contains_app, format_skip by exact P. set (o := match old with Some _ => _ | None => _ end). change (py_format ("{}" ++ q ++ "{}" ++ s) o false) with (let* x := py_format (q ++ "{}" ++ s) o true in Ok (o ++ x)).
  rewrite format_skip by exact Q. reflexivity.
Qed.
Theorem C77_amend_set stamp v old : contains "{now:" v = false -> contains "{}" v = false -> amended stamp v old = Ok (if String.eqb v "remove" then None else Some v).
Proof. intros N F. unfold amended. rewrite N, F. now destruct (String.eqb v "remove"). Qed.
(** A history that is appended to keeps what it was, and no other attribute is touched. *)
Theorem C77_history timestamp value app a : exists h, get "history" (set_history timestamp value app a) = Some h /\
  (forall old, app = true -> get "history" a = Some old -> h = old ++ "; " ++ timestamp ++ ": " ++ value) /\
  (app = false \/ get "history" a = None -> h = timestamp ++ ": " ++ value) /\
  forall k, k <> "history" -> get k (set_history timestamp value app a) = get k a.
Proof.
  unfold set_history. destruct app, (get "history" a) as [old|] eqn:G; eexists; (split; [rewrite get_set, String.eqb_refl; reflexivity|]).
  all: split; [intros o A O; try discriminate|]. all: try (injection O as ->; reflexivity).
  all: split; [intros [X|X]; try discriminate; try reflexivity|]. all: intros k K; rewrite get_set; apply String.eqb_neq in K; now rewrite K.
Qed.

Example C77_case : generate_mandatory_attributes [[("title", "A"); ("source", "IMPROVER"); ("mosg__model", "uk_det")]; [("mosg__model", "uk_det"); ("title", "B"); ("source", "UM")]] (Some "mosg__model") = Ok [("title", "unknown"); ("source", "IMPROVER"); ("institution", "unknown"); ("mosg__model", "uk_det")] /\
  generate_mandatory_attributes [[("title", "A")]; [("title", "A")]] (Some "mosg__model") = Err ValueError /\
  amend_attributes (fun x => x) [("title", "UKV"); ("history", "x")] [("title", "IMPROVER {} forecast"); ("history", "remove"); ("source", "S")] = ([("title", "IMPROVER UKV forecast"); ("source", "S")], None) /\
  amend_attributes (fun x => x) [("title", "UKV")] [("source", "S"); ("title", "{}{}"); ("a", "b")] = ([("title", "UKV"); ("source", "S")], Some IndexError).
Proof. vm_compute. auto. Qed.

Print Assumptions C77_generated.
Print Assumptions C77_generated_refused.
Print Assumptions C77_generated_order.
Print Assumptions C77_model_id.
Print Assumptions C77_new_cube.
Print Assumptions C77_new_cube_caller_refuted.
Print Assumptions C77_new_cube_caller.
Print Assumptions C77_amend.
Print Assumptions C77_amend_failure.
Print Assumptions C77_amend_order.
Print Assumptions C77_amend_insert.
Print Assumptions C77_amend_twice.
Print Assumptions C77_amend_set.
Print Assumptions C77_history.
