(** C109: the metadata of a blend. *)
From Coq Require Import Ascii String Permutation.
From Verif Require Import Base Props_Merge Proofs_Nbhood Model_Manip Model_Attributes Props_Attributes Model_Times Props_Times Model_Records Props_Rainforests Props_Records Model_BlendMeta.
Local Open Scope string_scope.

(** ** The blend dimension *)
Definition only (name : string) (c : place) (coords : list place) : Prop := exists l r, coords = (l ++ c :: r)%list /\ pl_name c = name /\ Forall (fun k => pl_name k <> name) (l ++ r).
Lemma filter_none {A} (f : A -> bool) l : filter f l = [] <-> Forall (fun x => f x = false) l.
Proof. induction l as [|a l IH]; cbn; [split; [constructor|reflexivity]|]. destruct (f a) eqn:E; [split; [discriminate|intro H; inversion H; congruence]|]. rewrite IH. split; [intro; now constructor|now inversion 1]. Qed.
Lemma filter_one {A} (f : A -> bool) c l : filter f l = [c] <-> exists a b, l = (a ++ c :: b)%list /\ f c = true /\ Forall (fun x => f x = false) (a ++ b).
Proof.
  split.
  - induction l as [|x l IH]; cbn; [discriminate|]. destruct (f x) eqn:E.
    + intros [= <- H]. exists [], l. apply filter_none in H. auto.
    + intro H. destruct (IH H) as (a & b & -> & F & G). exists (x :: a), b. repeat split; auto. cbn. now constructor.
  - intros (a & b & -> & F & G). apply Forall_app in G as [G1 G2]. rewrite filter_app. cbn. rewrite F. apply filter_none in G1, G2. now rewrite G1, G2.
Qed.
Lemma named_iff name c coords : coord_named name coords = Ok c <-> only name c coords.
Proof.
  unfold coord_named, only. split.
  - destruct (filter _ coords) as [|x [|? ?]] eqn:F; try discriminate. intros [= ->]. apply filter_one in F as (a & b & -> & N & G). exists a, b. split; [reflexivity|]. apply String.eqb_eq in N. split; [exact N|]. eapply Forall_impl; [|exact G]. intros k K. cbn in K. now apply String.eqb_neq.
  - intros (a & b & -> & N & G). assert (F : filter (fun k => String.eqb (pl_name k) name) (a ++ c :: b) = [c]).
    { apply filter_one. exists a, b. split; [reflexivity|]. split; [now apply String.eqb_eq|]. eapply Forall_impl; [|exact G]. intros k K. now apply String.eqb_neq. } now rewrite F.
Qed.
Theorem C109_dimension coords blend c : only blend c coords ->
  (forall n, find_blend_dim_coord coords blend = Ok n -> exists d k, pl_dims c = [d] /\ In k coords /\ pl_dim k = true /\ pl_dims k = [d] /\ pl_name k = n) /\
  (find_blend_dim_coord coords blend = Err ValueError <-> length (pl_dims c) <> 1%nat).
Proof.
  intro O. apply named_iff in O. unfold find_blend_dim_coord. rewrite O. cbn [bind]. destruct (pl_dims c) as [|d [|? ?]]; try (split; [discriminate|split; [intros _; cbn; lia|reflexivity]]). split.
  - intros n H. destruct (filter _ coords) as [|k [|? ?]] eqn:F; try discriminate. injection H as <-. apply filter_one in F as (a & b & -> & N & G). exists d, k. apply andb_true_iff in N as [N1 N2]. destruct (pl_dims k) as [|e [|? ?]]; try discriminate. apply Nat.eqb_eq in N2. subst e. repeat split; auto. apply in_app_iff. right. now left.
  - split; [|cbn; lia]. destruct (filter _ coords) as [|k [|? ?]]; discriminate.
Qed.
(** The coordinates to remove are those along the dimension that are not times ... *)
Theorem C109_remove coords blend c d : only blend c coords -> pl_dims c = [d] -> exists l, get_coords_to_remove coords blend = Ok l /\
  forall n, In n l <-> exists k, In k coords /\ pl_name k = n /\ In d (pl_dims k) /\ ~ In n ["time"; "forecast_reference_time"; "blend_time"; "forecast_period"; "UTC_offset"].
Proof.
  intros O D. apply named_iff in O. unfold get_coords_to_remove. rewrite O. cbn [bind]. rewrite D. eexists. split; [reflexivity|]. intro n. rewrite in_map_iff.
  assert (E : forall k, (negb (existsb (String.eqb (pl_name k)) time_names) && existsb (Nat.eqb d) (pl_dims k))%bool = true <-> In d (pl_dims k) /\ ~ In (pl_name k) time_names).
  { intro k. rewrite andb_true_iff, negb_true_iff. rewrite existsb_exists. assert (X : existsb (String.eqb (pl_name k)) time_names = false <-> ~ In (pl_name k) time_names).
    { rewrite <- not_true_iff_false, existsb_exists. split; intros H1 H2; apply H1; [exists (pl_name k); split; [exact H2|apply String.eqb_refl]|]. destruct H2 as (y & Y & E). apply String.eqb_eq in E. now subst. }
    rewrite X. split; [intros [A (y & Y & E)]; apply Nat.eqb_eq in E; subst; auto|intros [A B]; split; [exact B|exists d; split; [exact A|apply Nat.eqb_refl]]]. }
  split; [intros (k & <- & K); apply filter_In in K as [K1 K2]; apply E in K2; exists k; tauto|].
  intros (k & K1 & <- & K2 & K3). exists k. split; [reflexivity|]. apply filter_In. split; [exact K1|]. apply E. auto.
Qed.
(** ... and, where the blend coordinate has no dimension, the record and the model. *)
Theorem C109_remove_scalar coords blend c : only blend c coords -> pl_dims c = [] -> exists l, get_coords_to_remove coords blend = Ok l /\
  forall n, In n l <-> (n = "blend_record" /\ (exists k, In k coords /\ pl_name k = n)) \/ (blend = "model_id" /\ (n = "model_id" \/ n = "model_configuration")).
Proof.
  intros O D. apply named_iff in O. unfold get_coords_to_remove. rewrite O. cbn [bind]. rewrite D. eexists. split; [reflexivity|]. intro n. rewrite in_app_iff.
  assert (A : In n (if existsb (fun k => String.eqb (pl_name k) record_coord) coords then [record_coord] else []) <-> n = "blend_record" /\ exists k, In k coords /\ pl_name k = n).
  { destruct (existsb _ coords) eqn:E.
    - apply existsb_exists in E as (k & K & N). apply String.eqb_eq in N. split; [intros [<-|[]]; split; [reflexivity|exists k; auto]|intros [-> _]; now left].
    - split; [intros []|]. intros [-> (k & K & N)]. rewrite <- not_true_iff_false, existsb_exists in E. apply E. exists k. split; [exact K|]. now apply String.eqb_eq. }
  rewrite A. destruct (String.eqb_spec blend model_blend_coord) as [E|E].
  - split; [intros [H|[H|[H|[]]]]; auto|intros [H|[_ [H|H]]]; subst; auto; right; cbn; auto].
  - split; [intros [H|[]]; auto|intros [H|[H _]]; [auto|contradiction]].
Qed.

(** ** Times *)
(** As [Props_Times.ready], with no blend time yet and a scalar reference time in seconds since 1970. *)
Definition blendable (c : tcube) (T : Q) : Prop :=
  (exists t, tc_time c = Some t /\ typed t /\ well_formed t /\ in_range t T) /\ tc_blend c = None /\
  (exists f x, tc_frt c = Some f /\ tm_points f = [x] /\ tm_units f = since_1970) /\
  (forall o, In o ({| ob_name := ""; ob_coord := false; ob_dtype := tc_dtype c; ob_bounds := None; ob_units := None |} :: as_object "time" (tc_time c) ++ tc_others c)%list -> standard o).
(** The blend is of the cycle T: blend time and reference time are T without bounds; a forecast period is measured from T, and none appears; the rest is as it was. *)
Definition of_cycle (c c' : tcube) (T : Q) : Prop :=
  tc_time c' = tc_time c /\ tc_data c' = tc_data c /\ tc_others c' = tc_others c /\ tc_dtype c' = tc_dtype c /\
  (exists b x, tc_blend c' = Some b /\ tm_points b = [x] /\ x == T /\ tm_units b = since_1970 /\ tm_bounds b = None) /\
  (exists f x, tc_frt c' = Some f /\ tm_points f = [x] /\ x == T /\ tm_units f = since_1970 /\ tm_bounds f = None /\ get "deprecation_message" (tm_attributes f) <> None) /\
  (tc_period c = None -> tc_period c' = None) /\
  (tc_period c <> None -> exists t p, tc_time c = Some t /\ tc_period c' = Some p /\ lead_times t T p /\ get "deprecation_message" (tm_attributes p) <> None).
Theorem C109_times c T : whole [T] -> blendable c T -> exists c', set_blended_times (Some T) c = Ok c' /\ of_cycle c c' T.
Proof.
  intros W ((t & Et & Ty & Wf & Rg) & Nb & (f & x0 & Ef & Pf & Uf) & St). destruct (created T W) as (z & Ez & Cr).
  assert (W1 : whole [((T - match un_epoch (tm_units f) with Some e => e | None => 0 end) / un_seconds (tm_units f))%Q]).
  { rewrite Uf. cbn. intros y [<-|[]]. exists z. rewrite Ez. field. }
  destruct (rounded_whole _ W1) as (out & O & F). inversion F as [|? z' ? ? E' F']; subst. inversion F'; subst. clear F F'. rewrite Uf in E'. cbn [un_epoch since_1970 un_seconds] in E'. assert (Ez' : (inject_Z z' == T)%Q) by (rewrite <- E'; field).
  unfold set_blended_times. rewrite Ef, O. cbn [bind]. unfold add_blend_time. rewrite Cr. cbn [bind]. rewrite Nb. cbn [bind]. rewrite Pf. cbn [length Nat.eqb bind tc_period tc_time tc_blend tc_dtype tc_others tc_data map].
  set (b := {| tm_points := [inject_Z z]; tm_bounds := None; tm_units := since_1970; tm_dtype := Int64; tm_bdtype := Int64; tm_dim := true; tm_spans := false; tm_attributes := [] |}).
  set (f1 := {| tm_points := [inject_Z z']; tm_bounds := None; tm_units := tm_units f; tm_dtype := Int64; tm_bdtype := tm_bdtype f; tm_dim := tm_dim f; tm_spans := tm_spans f; tm_attributes := tm_attributes f |}).
  set (c1 := {| tc_time := tc_time c; tc_frt := Some f1; tc_blend := Some b; tc_period := None; tc_dtype := tc_dtype c; tc_others := tc_others c; tc_data := tc_data c |}).
  assert (DM : forall n k, get "deprecation_message" (tm_attributes (deprecated n k)) <> None) by (intros n k; cbn [deprecated tm_attributes]; rewrite get_set; cbn; discriminate).
  destruct (C80_calculated c1 false t f1 (inject_Z z')) as (p & P & L).
  - now left.
  - intros f2 b2 [= <-] [= <-]. exists (inject_Z z'), (inject_Z z). repeat split. now rewrite Ez', Ez.
  - exact Et.
  - reflexivity.
  - reflexivity.
  - exact Ty.
  - split; intros _ y Y; [|destruct Y]. destruct Y as [<-|[]]. exists z'. reflexivity.
  - exact Wf.
  - intros y Y. apply (fits_comp (y - T)); [now rewrite Ez'|now apply Rg].
  - intros o Ob. unfold objects in Ob. cbn [tc_dtype tc_time tc_frt tc_blend tc_period tc_others c1] in Ob. destruct Ob as [Ob|Ob]; [apply St; now left|]. rewrite !in_app_iff in Ob. destruct Ob as [Ob|[Ob|[Ob|[Ob|Ob]]]].
    + apply St. right. rewrite !in_app_iff. auto.
    + cbn [as_object] in Ob. destruct Ob as [<-|[]]. apply standard_iff. cbn. rewrite Uf. reflexivity.
    + cbn [as_object] in Ob. destruct Ob as [<-|[]]. apply standard_iff. reflexivity.
    + destruct Ob.
    + apply St. right. rewrite !in_app_iff. auto.
  - discriminate.
  - assert (L' : lead_times t T p) by (apply (lead_times_comp t (inject_Z z')); [exact Ez'|exact L]).
    assert (G : forall q, (q = None /\ tc_period c = None) \/ (q = Some p /\ tc_period c <> None) -> of_cycle c {| tc_time := tc_time c; tc_frt := Some (deprecated "forecast_reference_time" f1); tc_blend := Some b; tc_period := option_map (deprecated "forecast_period") q; tc_dtype := tc_dtype c; tc_others := tc_others c; tc_data := tc_data c |} T).
    { intros q Q. unfold of_cycle. cbn [tc_time tc_frt tc_blend tc_period tc_dtype tc_others tc_data]. do 4 (split; [reflexivity|]). split; [exists b, (inject_Z z); repeat split; now symmetry|]. split; [exists (deprecated "forecast_reference_time" f1), (inject_Z z'); repeat split; [exact Ez'|exact Uf|apply DM]|].
      destruct Q as [[-> Q]|[-> Q]]; split; intro N; try contradiction; try reflexivity. exists t, (deprecated "forecast_period" p). split; [exact Et|]. split; [reflexivity|]. split; [exact L'|apply DM]. }
    destruct (tc_period c) as [q0|] eqn:Eq.
    + rewrite P. cbn [bind]. eexists. split; [reflexivity|]. apply G. right. split; [reflexivity|discriminate].
    + cbn [bind]. eexists. split; [reflexivity|]. apply (G None). left. auto.
Qed.
(** Refused: no cycle time, no reference time, a blend time that is there. *)
Theorem C109_times_refused c T : (tc_frt c <> None -> set_blended_times None c = Err ValueError) /\ (tc_frt c = None -> set_blended_times T c = Err CoordinateNotFoundError) /\
  (tc_blend c <> None -> forall c', set_blended_times T c <> Ok c').
Proof.
  unfold set_blended_times. split; [|split].
  - destruct (tc_frt c); congruence.
  - intros ->. reflexivity.
  - intros B c'. destruct (tc_frt c); [|discriminate]. destruct T as [T|]; [|discriminate]. destruct (round_close _); cbn [bind]; [|discriminate]. unfold add_blend_time. destruct (create_frt T); cbn [bind]; [|discriminate]. destruct (tc_blend c); [discriminate|congruence].
Qed.
(** A reference time in hours passes for a blend without forecast period but not for one with it. *)
Theorem C109_hours_refuted : ~ (forall c T, whole [T] -> tc_blend c = None -> (exists f x, tc_frt c = Some f /\ tm_points f = [x] /\ (0 < un_seconds (tm_units f))%Q /\ (exists z, x == inject_Z z)%Q) -> (exists c', set_blended_times (Some T) {| tc_time := tc_time c; tc_frt := tc_frt c; tc_blend := tc_blend c; tc_period := None; tc_dtype := tc_dtype c; tc_others := tc_others c; tc_data := tc_data c |} = Ok c') -> exists c', set_blended_times (Some T) c = Ok c').
Proof.
  intro H. pose (f := {| tm_points := [0%Q]; tm_bounds := None; tm_units := {| un_seconds := 3600; un_epoch := Some 0%Q |}; tm_dtype := Int64; tm_bdtype := Int64; tm_dim := true; tm_spans := false; tm_attributes := [] |}).
  pose (t := {| tm_points := [7200%Q]; tm_bounds := None; tm_units := since_1970; tm_dtype := Int64; tm_bdtype := Int64; tm_dim := true; tm_spans := false; tm_attributes := [] |}).
  destruct (H {| tc_time := Some t; tc_frt := Some f; tc_blend := None; tc_period := Some t; tc_dtype := Float32; tc_others := []; tc_data := [] |} 3600%Q) as (c' & E).
  - intros x [<-|[]]. exists 3600%Z. reflexivity.
  - reflexivity.
  - exists f, 0%Q. repeat split. exists 0%Z. reflexivity.
  - eexists. vm_compute. reflexivity.
  - vm_compute in E. discriminate.
Qed.

(** ** The whole update *)
Section Update.
Variables (stamp : string -> string) (c : blended) (blend : string) (to_remove : option (list string)) (cycle : option Q) (changes : option attributes) (model_id : string) (c' : blended).
Hypothesis D : update_blended_metadata stamp c blend to_remove cycle changes model_id = Ok c'.
Definition cyclic : Prop := blend = "forecast_reference_time" \/ blend = "model_id".
Lemma parts : exists attrs amended_,
  (if (String.eqb blend "forecast_reference_time" || String.eqb blend "model_id")%bool then set_blended_times cycle (bl_times c) else Ok (bl_times c)) = Ok (bl_times c') /\
  (if String.eqb blend "model_id" then match find (fun e => String.eqb (fst e) "model_configuration") (bl_scalars c) with None => Err CoordinateNotFoundError | Some e => Ok (set_attr model_id (String.concat " " (isort String.leb (split_on "|"%char (snd e)))) (bl_attributes c)) end else Ok (bl_attributes c)) = Ok attrs /\
  match to_remove with None => Ok (bl_scalars c) | Some l => fold_left remove_scalar l (Ok (bl_scalars c)) end = Ok (bl_scalars c') /\
  match changes with None => amended_ = attrs | Some l => amend_attributes stamp attrs l = (amended_, None) end /\
  bl_attributes c' = fold_left (fun a d => match get (fst d) a with Some _ => a | None => set_attr (fst d) (snd d) a end) mandatory_defaults amended_.
Proof.
  unfold update_blended_metadata, model_blend_coord, model_name_coord in D. destruct (if (_ || _)%bool then set_blended_times _ _ else _) as [t|] eqn:E1; [|discriminate]. cbn [bind] in D. destruct (if String.eqb blend "model_id" then _ else Ok (bl_attributes c)) as [a|] eqn:E2; [|discriminate]. cbn [bind] in D. destruct (match to_remove with None => _ | Some _ => _ end) as [s|] eqn:E3; [|discriminate]. cbn [bind] in D.
  destruct changes as [l|].
  - destruct (amend_attributes stamp a l) as [a' [e|]] eqn:E4; [discriminate|]. cbn [bind] in D. apply Ok_inj in D. subst c'. exists a, a'. auto.
  - cbn [bind] in D. apply Ok_inj in D. subst c'. exists a, a. auto.
Qed.
(** The times change in a blend over cycles or models, and in no other. *)
Lemma times_part : (cyclic -> set_blended_times cycle (bl_times c) = Ok (bl_times c')) /\ (~ cyclic -> bl_times c' = bl_times c).
Proof.
  destruct parts as (a & b & E & _). unfold cyclic. destruct (String.eqb_spec blend "forecast_reference_time"), (String.eqb_spec blend "model_id"); cbn [orb] in E; split; intro H; try tauto. apply Ok_inj in E. now symmetry.
Qed.
Lemma removed l : forall s s', fold_left remove_scalar l (Ok s) = Ok s' -> s' = filter (fun e => negb (existsb (String.eqb (fst e)) l)) s /\ (forall n, In n l -> In n (map fst s)) /\ NoDup l.
Proof.
  induction l as [|n l IH]; intros s s' H.
  - cbn in H. injection H as <-. cbn. split; [induction s; cbn; congruence|]. split; [intros ? []|constructor].
  - cbn [fold_left] in H. unfold remove_scalar at 2 in H. cbn [bind] in H. destruct (existsb _ s) eqn:E.
    + destruct (IH _ _ H) as (A & B & C). split; [|split].
      * rewrite A. clear. induction s as [|e s IHs]; [reflexivity|]. cbn [filter existsb]. destruct (String.eqb (fst e) n) eqn:E; cbn [negb orb filter]; [exact IHs|]. destruct (negb (existsb _ l)); [f_equal|]; exact IHs.
      * intros m [<-|M]; [apply existsb_exists in E as (e & I' & N); apply String.eqb_eq in N; subst n; now apply in_map|]. specialize (B m M). rewrite in_map_iff in *. destruct B as (e & N & I'). exists e. split; [exact N|]. now apply filter_In in I'.
      * constructor; [|exact C]. intro M. specialize (B n M). rewrite in_map_iff in B. destruct B as (e & N & I'). apply filter_In in I' as [_ I']. rewrite N, String.eqb_refl in I'. discriminate.
    + exfalso. clear -H. induction l as [|m l IHl]; [discriminate|]. now apply IHl.
Qed.
(** Exactly the named coordinates are gone. *)
Lemma scalars_part : forall e, In e (bl_scalars c') <-> In e (bl_scalars c) /\ (forall l, to_remove = Some l -> ~ In (fst e) l).
Proof.
  destruct parts as (a & b & _ & _ & E & _). intro e. destruct to_remove as [l|].
  - apply removed in E as (-> & _ & _). rewrite filter_In. assert (X : negb (existsb (String.eqb (fst e)) l) = true <-> ~ In (fst e) l).
    { rewrite negb_true_iff, <- not_true_iff_false, existsb_exists. split; intros H1 H2; apply H1; [exists (fst e); split; [exact H2|apply String.eqb_refl]|]. destruct H2 as (y & Y & Z'). apply String.eqb_eq in Z'. now subst. }
    rewrite X. split; [intros [H1 H2]; split; [exact H1|]; intros l' [= <-]; exact H2|]. intros [H1 H2]. split; [exact H1|]. now apply H2.
  - apply Ok_inj in E. rewrite <- E. split; [intro H; split; [exact H|discriminate]|tauto].
Qed.
Lemma defaults_get a k : get k (fold_left (fun a d => match get (fst d) a with Some _ => a | None => set_attr (fst d) (snd d) a end) mandatory_defaults a) = match get k a with Some v => Some v | None => get k mandatory_defaults end.
Proof.
  assert (G : forall l a k, get k (fold_left (fun a d => match get (fst d) a with Some _ => a | None => set_attr (fst d) (snd d) a end) l a) = match get k a with Some v => Some v | None => get k l end).
  { clear. induction l as [|[k0 v0] l IH]; intros a k; [cbn; now destruct (get k a)|]. cbn [fold_left fst snd]. rewrite IH. destruct (get k0 a) as [w|] eqn:E.
    - destruct (get k a) eqn:F; [reflexivity|]. cbn. destruct (String.eqb_spec k k0) as [->|N]; [congruence|]. assert (String.eqb k0 k = false) by (apply String.eqb_neq; congruence). try rewrite H. reflexivity.
    - rewrite get_set. destruct (String.eqb_spec k k0) as [->|N]; [rewrite E; cbn; now rewrite String.eqb_refl|]. destruct (get k a); [reflexivity|]. cbn. assert (String.eqb k0 k = false) by (apply String.eqb_neq; congruence). try rewrite H. destruct (String.eqb_spec k k0); [contradiction|reflexivity]. }
  apply G.
Qed.
End Update.
Theorem C109_update stamp c blend to_remove cycle changes model_id c' : update_blended_metadata stamp c blend to_remove cycle changes model_id = Ok c' ->
  (cyclic blend -> set_blended_times cycle (bl_times c) = Ok (bl_times c')) /\ (~ cyclic blend -> bl_times c' = bl_times c) /\
  (forall e, In e (bl_scalars c') <-> In e (bl_scalars c) /\ (forall l, to_remove = Some l -> ~ In (fst e) l)).
Proof. intro D. pose proof (times_part _ _ _ _ _ _ _ _ D) as [A B]. split; [exact A|]. split; [exact B|]. exact (scalars_part _ _ _ _ _ _ _ _ D). Qed.
(** The mandatory attributes are there: from the caller's changes, from the cube, or the default. *)
Theorem C109_mandatory stamp c blend to_remove cycle changes model_id c' : update_blended_metadata stamp c blend to_remove cycle changes model_id = Ok c' -> forall k, mandatory k -> exists v, get k (bl_attributes c') = Some v.
Proof.
  intros D k M. destruct (parts _ _ _ _ _ _ _ _ D) as (a & b & _ & _ & _ & _ & E). rewrite E, defaults_get. destruct (get k b) as [v|]; [now exists v|]. destruct M as [<-|[<-|[<-|[]]]]; eexists; reflexivity.
Qed.
(** Attributes neither changed by the caller nor the model attribute stay as they are. *)
Theorem C109_kept stamp c blend to_remove cycle changes model_id c' k v : update_blended_metadata stamp c blend to_remove cycle changes model_id = Ok c' ->
  (forall l, changes = Some l -> is_dict l /\ ~ In k (map fst l)) -> (blend = "model_id" -> k <> model_id) -> get k (bl_attributes c) = Some v -> get k (bl_attributes c') = Some v.
Proof.
  intros D N M V. destruct (parts _ _ _ _ _ _ _ _ D) as (a & b & _ & A & _ & B & E). rewrite E, defaults_get. assert (G : get k a = Some v).
  { destruct (String.eqb_spec blend "model_id") as [X|X]; [|apply Ok_inj in A; now subst]. destruct (find _ (bl_scalars c)) as [e|]; [|discriminate]. apply Ok_inj in A. subst a. rewrite get_set. destruct (String.eqb_spec k model_id) as [Y|Y]; [elim (M X Y)|exact V]. }
  assert (H : get k b = Some v). { destruct changes as [l|]; [|now subst]. destruct (N l eq_refl) as [N1 N2]. destruct (C77_amend stamp l a b N1 B) as [U _]. now rewrite U. }
  now rewrite H.
Qed.
(** A blend of models names the models it was made of: in order, each as often as it was there. *)
Theorem C109_models stamp c to_remove cycle changes model_id c' models : update_blended_metadata stamp c "model_id" to_remove cycle changes model_id = Ok c' ->
  (forall l, changes = Some l -> is_dict l /\ ~ In model_id (map fst l)) -> models <> [] -> Forall (without "|"%char) models ->
  (forall s, In (("model_configuration")%string, s) (bl_scalars c) -> s = String.concat "|" models) ->
  exists sorted, Permutation models sorted /\ StronglySorted (fun a b => String.leb a b = true) sorted /\ get model_id (bl_attributes c') = Some (String.concat " " sorted).
Proof.
  intros D N Ne W S1. destruct (parts _ _ _ _ _ _ _ _ D) as (a & b & _ & A & _ & B & E). exists (isort String.leb models). split; [apply isort_perm|]. split; [apply sorted_names|]. rewrite E, defaults_get. cbn [String.eqb] in A. change (String.eqb "model_id" "model_id") with true in A. cbv iota in A.
  destruct (find _ (bl_scalars c)) as [[n s]|] eqn:F; [|discriminate]. apply Ok_inj in A. apply find_some in F as [I' F]. cbn [fst] in F. apply String.eqb_eq in F. subst n. apply S1 in I'. subst s. cbn [snd] in A. rewrite (split_concat "|"%char models Ne W) in A.
  assert (G : get model_id a = Some (String.concat " " (isort String.leb models))) by (subst a; rewrite get_set, String.eqb_refl; reflexivity).
  assert (H : get model_id b = Some (String.concat " " (isort String.leb models))). { destruct changes as [l|]; [|now subst b]. destruct (N l eq_refl) as [N1 N2]. destruct (C77_amend stamp l a b N1 B) as [U _]. now rewrite U. }
  now rewrite H.
Qed.
(** A model that contributes twice is named twice. *)
Theorem C109_repeated_refuted : ~ (forall models, Forall (without "|"%char) models -> models <> [] -> isort String.leb (split_on "|"%char (String.concat "|" models)) = nodup string_dec (isort String.leb models)).
Proof. intro H. specialize (H ["uk_det"; "uk_det"]). assert (F : Forall (without "|"%char) ["uk_det"; "uk_det"]) by (repeat constructor; unfold without; cbn; intuition discriminate). specialize (H F ltac:(discriminate)). vm_compute in H. discriminate. Qed.
(** Refused: a cycle or model blend without cycle time; a model blend of a cube that does not name the models; a coordinate to remove that is not there. *)
Theorem C109_refused stamp c blend to_remove cycle changes model_id :
  (cyclic blend -> tc_frt (bl_times c) <> None -> cycle = None -> update_blended_metadata stamp c blend to_remove cycle changes model_id = Err ValueError) /\
  (blend = "model_id" -> ~ In "model_configuration" (map fst (bl_scalars c)) -> forall c', update_blended_metadata stamp c blend to_remove cycle changes model_id <> Ok c') /\
  (forall n l, to_remove = Some l -> In n l -> ~ In n (map fst (bl_scalars c)) -> forall c', update_blended_metadata stamp c blend to_remove cycle changes model_id <> Ok c').
Proof.
  split; [|split].
  - intros C F ->. unfold update_blended_metadata, model_blend_coord. assert (X : (String.eqb blend "forecast_reference_time" || String.eqb blend "model_id")%bool = true) by (destruct C as [->| ->]; reflexivity). rewrite X. destruct (C109_times_refused (bl_times c) None) as [R _]. rewrite (R F). reflexivity.
  - intros -> N c' D. destruct (parts _ _ _ _ _ _ _ _ D) as (a & b & _ & A & _). change (String.eqb "model_id" "model_id") with true in A. cbv iota in A. destruct (find _ (bl_scalars c)) as [[n s]|] eqn:F; [|discriminate]. apply find_some in F as [I' F]. cbn [fst] in F. apply String.eqb_eq in F. subst n. apply N. now apply (in_map fst) in I'.
  - intros n l -> I' N c' D. destruct (parts _ _ _ _ _ _ _ _ D) as (a & b & _ & _ & S1 & _). apply removed in S1 as (_ & B & _). exact (N (B n I')).
Qed.
Example C109_case : exists c c', update_blended_metadata (fun s => s) c "model_id" (Some ["model_id"; "model_configuration"]) (Some 3600%Q) (Some [("title", "blend")]) "mosg__model_configuration" = Ok c' /\
  get "mosg__model_configuration" (bl_attributes c') = Some "uk_det uk_ens" /\ get "source" (bl_attributes c') = Some "IMPROVER" /\ get "title" (bl_attributes c') = Some "blend" /\ bl_scalars c' = [("height", "10 m")] /\ blendable (bl_times c) 3600 /\ tc_period (bl_times c) <> None.
Proof.
  pose (at_ := fun x => {| tm_points := [x]; tm_bounds := None; tm_units := since_1970; tm_dtype := Int64; tm_bdtype := Int64; tm_dim := true; tm_spans := false; tm_attributes := [] |}).
  pose (tc := {| tc_time := Some (at_ 7200%Q); tc_frt := Some (at_ 0%Q); tc_blend := None; tc_period := Some (at_ 7200%Q); tc_dtype := Float32; tc_others := []; tc_data := [] |}).
  exists {| bl_times := tc; bl_scalars := [("model_id", "1000"); ("height", "10 m"); ("model_configuration", "uk_ens|uk_det")]; bl_attributes := [("institution", "Met Office")] |}. eexists. split; [vm_compute; reflexivity|]. do 4 (split; [reflexivity|]). split; [|discriminate].
  split; [|split; [reflexivity|split]].
  - exists (at_ 7200%Q). split; [reflexivity|]. split; [split; intros _ x X; [destruct X as [<-|[]]; exists 7200%Z; reflexivity|destruct X]|]. split; [exact Logic.I|]. intros x X. destruct X as [<-|[]]. split; discriminate.
  - exists (at_ 0%Q), 0%Q. repeat split.
  - intros o [<-|[<-|[]]]; apply standard_iff; reflexivity.
Qed.

Print Assumptions C109_dimension.
Print Assumptions C109_remove.
Print Assumptions C109_remove_scalar.
Print Assumptions C109_times.
Print Assumptions C109_times_refused.
Print Assumptions C109_hours_refuted.
Print Assumptions C109_update.
Print Assumptions C109_mandatory.
Print Assumptions C109_kept.
Print Assumptions C109_models.
Print Assumptions C109_repeated_refuted.
Print Assumptions C109_refused.
