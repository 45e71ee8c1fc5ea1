(** C117: the interpreter of metadata. The standard is in Spec_Interpret.v, lemmas in Proofs_Interpret.v and Proofs_InterpretRest.v. *)
From Coq Require Import Ascii String Permutation.
From Verif Require Import Base Model_Records Model_Attributes Model_Interpret Props_Naming Spec_Interpret Proofs_Interpret Proofs_InterpretRest.
Local Open Scope string_scope.

Section cube.
Variable c : cube.
Hypothesis N : NoDup (map co_name (c_coords c)).
Hypothesis Na : NoDup (map fst (c_attributes c)).
Lemma kinds : ~ exempt c -> ancillary c \/ (c_name c = "weather_code" \/ c_name c = "wind_from_direction") \/ probabilities c \/ percentiles c \/ realizations c.
Proof.
  intro Ne. destruct (mem (c_name c) ancillaries) eqn:A; [left; now apply mem_iff|]. apply mem_not in A. destruct (string_dec (c_name c) "weather_code") as [W|W]; [auto|]. destruct (string_dec (c_name c) "wind_from_direction") as [D|D]; [auto|]. right. right.
  assert (St : standard c) by (unfold standard; auto).
  assert (Pn : named_probability c \/ ~ named_probability c). { unfold named_probability. rewrite <- !contains_occurs. destruct (contains "probability" (c_name c)), (contains "threshold" (c_name c)); intuition congruence. }
  assert (Dx : forall f (P : coordinate -> Prop), (forall x, f x = true <-> P x) -> (exists x, In x (c_coords c) /\ P x) \/ ~ exists x, In x (c_coords c) /\ P x). { intros f P H. destruct (existsb f (c_coords c)) eqn:E; [left; apply existsb_exists in E as (x & X & F); exists x; split; [exact X|now apply H]|]. right. intros (x & X & F). assert (T : existsb f (c_coords c) = true) by (apply existsb_exists; exists x; split; [exact X|now apply H]). congruence. }
  pose proof (Dx (fun x => contains "percentile" (co_name x)) is_percentile (fun x => contains_occurs _ _)) as Pp. pose proof (Dx has_threshold_var is_threshold (fun x => var_iff x)) as Pt.
  assert (Epc : percentiles c <-> ~ named_probability c /\ exists x, In x (c_coords c) /\ is_percentile x) by (unfold percentiles; tauto).
  assert (Dpc : percentiles c \/ ~ percentiles c) by (destruct Pn, Pp; tauto).
  assert (Dpb : probabilities c \/ ~ probabilities c) by (unfold probabilities; destruct Pn, Pt, Dpc; tauto).
  unfold realizations. destruct Dpc, Dpb; tauto.
Qed.
Lemma seen_diagnostic j x : ~ exempt c -> seen c j -> (diagnostic c x <-> i_diagnostic j = Some x).
Proof.
  intros Ne (S1 & S2 & S3 & S4 & S5). assert (E : ~ probabilities c -> i_diagnostic j = Some (c_name c) -> (diagnostic c x <-> i_diagnostic j = Some x)). { intros Np ->. unfold diagnostic. split; [intros [[H _]|[_ H]]; [contradiction|congruence]|]. intro H. right. split; [exact Np|congruence]. }
  destruct (kinds Ne) as [K|[K|[K|[K|K]]]].
  - apply E; [apply no_kind, not_standard; auto|now apply S1].
  - apply E; [apply no_kind, not_standard; tauto|now apply S2].
  - destruct (S3 K) as (_ & (d & D1 & D2) & _). unfold diagnostic. rewrite D1, D2. split; [intros [[_ H]|[H _]]; [congruence|contradiction]|]. intro H. left. split; [exact K|congruence].
  - apply E; [|now apply S4]. intros (_ & [H|[H _]]); [destruct K as (_ & K & _); contradiction|contradiction].
  - apply E; [destruct K; tauto|now apply S5].
Qed.
Lemma seen_ancillary j : ~ exempt c -> seen c j -> (field_is "ancillary" (i_field j) = true <-> ancillary c).
Proof.
  intros Ne (S1 & S2 & S3 & S4 & S5). split; [|intro K; now rewrite (proj1 (S1 K))]. intro F. destruct (kinds Ne) as [K|[K|[K|[K|K]]]]; [exact K| | | |]; exfalso.
  - rewrite (proj1 (S2 K)) in F. cbn in F. destruct K as [K|K]; rewrite K in F; discriminate.
  - rewrite (proj1 (S3 K)) in F. discriminate.
  - rewrite (proj1 (S4 K)) in F. discriminate.
  - rewrite (proj1 (S5 K)) in F. discriminate.
Qed.
Lemma seen_realizations j : ~ exempt c -> seen c j -> (field_is "realizations" (i_field j) = true <-> realizations c).
Proof.
  intros Ne (S1 & S2 & S3 & S4 & S5). split; [|intro K; now rewrite (proj1 (S5 K))]. intro F. destruct (kinds Ne) as [K|[K|[K|[K|K]]]]; [| | | |exact K]; exfalso.
  - rewrite (proj1 (S1 K)) in F. discriminate.
  - rewrite (proj1 (S2 K)) in F. cbn in F. destruct K as [K|K]; rewrite K in F; discriminate.
  - rewrite (proj1 (S3 K)) in F. discriminate.
  - rewrite (proj1 (S4 K)) in F. discriminate.
Qed.
Lemma own_ok d : (forallb (fun k => mem k (map fst (c_attributes c))) (diagnostic_attributes (Some d)) = true) <->
  (d = "weather_code" -> (exists v, value c "weather_code" v) /\ exists v, value c "weather_code_meaning" v) /\ (d = "wind_gust" -> exists v, value c "wind_gust_diagnostic" v).
Proof.
  rewrite match_own. unfold value. destruct (String.eqb_spec d "weather_code") as [->|D].
  - cbn [forallb]. rewrite !andb_true_iff, !key_iff. split; [intros (A & B & _); split; [auto|discriminate]|]. intros [H _]. destruct (H eq_refl). auto.
  - destruct (String.eqb_spec d "wind_gust") as [->|D']; cbn [forallb]; [rewrite andb_true_iff, key_iff; split; [intros [A _]; split; [discriminate|auto]|intros [_ H]; auto]|]. split; [intros _; split; intro; contradiction|reflexivity].
Qed.
Lemma attributes_ok j : ~ exempt c -> seen c j -> (passes (check_attributes (c_attributes c) j) <-> i_errors j = [] /\ attribute_rule c /\ blend_rule c /\ model_rule c).
Proof.
  intros Ne Sn. pose proof (seen_diagnostic j) as Sd. assert (Dg : exists d, i_diagnostic j = Some d). { destruct Sn as (S1 & S2 & S3 & S4 & S5). destruct (kinds Ne) as [K|[K|[K|[K|K]]]]; [exists (c_name c); now apply S1|exists (c_name c); now apply S2|destruct (S3 K) as (_ & (d & _ & D) & _); eauto|exists (c_name c); now apply S4|exists (c_name c); now apply S5]. } destruct Dg as (d & Ed).
  unfold check_attributes. cbv zeta. set (a := c_attributes c) in *. set (own := diagnostic_attributes (i_diagnostic j)). set (j1 := if existsb _ a then _ else _).
  assert (E1 : i_errors j1 = [] <-> i_errors j = [] /\ forall k v, value c k v -> ~ In k forbidden_attributes).
  { assert (X : existsb (fun e => mem (fst e) forbidden_attributes) a = false <-> forall k v, value c k v -> ~ In k forbidden_attributes). { split; [intros H k v V I'; assert (T : existsb (fun e => mem (fst e) forbidden_attributes) a = true) by (apply existsb_exists; exists (k, v); split; [exact V|now apply mem_iff]); congruence|]. intro H. destruct (existsb _ a) eqn:T; [|reflexivity]. apply existsb_exists in T as ([k v] & V & M). apply mem_iff in M. exfalso. exact (H k v V M). }
    unfold j1. destruct (existsb (fun e => mem (fst e) forbidden_attributes) a).
    - rewrite err_not. split; [intros []|]. intros [_ H]. apply X in H. discriminate.
    - destruct (existsb _ a); cbn [warn i_errors]; rewrite <- X; tauto. }
  assert (L1 : look j1 = look j /\ i_diagnostic j1 = i_diagnostic j /\ i_field j1 = i_field j) by (unfold j1; destruct (existsb _ a); [|destruct (existsb _ a)]; repeat split). clearbody j1.
  set (b2 := negb (forallb _ own)). assert (E2 : b2 = false <-> (d = "weather_code" -> (exists v, value c "weather_code" v) /\ exists v, value c "weather_code_meaning" v) /\ (d = "wind_gust" -> exists v, value c "wind_gust_diagnostic" v)) by (unfold b2, own; rewrite Ed, negb_false_iff; apply own_ok). clearbody b2.
  assert (Rq : ((d = "weather_code" -> (exists v, value c "weather_code" v) /\ exists v, value c "weather_code_meaning" v) /\ (d = "wind_gust" -> exists v, value c "wind_gust_diagnostic" v)) <-> (diagnostic c "weather_code" -> (exists v, value c "weather_code" v) /\ exists v, value c "weather_code_meaning" v) /\ (diagnostic c "wind_gust" -> exists v, value c "wind_gust_diagnostic" v)).
  { rewrite !(Sd _ Ne Sn), Ed. split; intros [H1 H2]; split; intro H; [apply H1; congruence|apply H2; congruence|apply H1; congruence|apply H2; congruence]. }
  set (j2 := err_if b2 RequiredAttribute j1). assert (Fj : i_field j2 = i_field j) by (pose proof (look_if b2 RequiredAttribute j1) as L; unfold j2; unfold look in L; destruct L1 as (_ & _ & L1); congruence).
  rewrite match_ancillary, Fj. destruct (field_is "ancillary" (i_field j)) eqn:An.
  - apply (seen_ancillary j Ne Sn) in An. rewrite passes_ok. unfold j2. rewrite err_if_nil, E1, E2, Rq. unfold attribute_rule, blend_rule, model_rule. tauto.
  - assert (Ax : ~ ancillary c) by (rewrite <- (seen_ancillary j Ne Sn); congruence). set (b3 := negb (forallb _ mandatory)). assert (E3 : b3 = false <-> forall k, In k ["title"; "source"; "institution"] -> exists v, value c k v). { unfold b3. rewrite negb_false_iff, forallb_forall. split; intros H k K; specialize (H k K); now apply key_iff. } clearbody b3.
    assert (Base : i_errors (err_if b3 MandatoryAttribute j2) = [] <-> i_errors j = [] /\ attribute_rule c). { rewrite err_if_nil. unfold j2. rewrite err_if_nil, E1, E2, E3, Rq. unfold attribute_rule. tauto. }
    destruct (attr "title" a) as [t|] eqn:T.
    + apply (attr_some "title" a t Na) in T. change (value c "title" t) in T. change (passes (check_model t (c_attributes c) (set_post (contains "Post-Processed" t || contains blend_title t) (err_if b3 MandatoryAttribute j2))) <-> i_errors j = [] /\ attribute_rule c /\ blend_rule c /\ model_rule c). rewrite (model_ok c Na). change (i_errors (set_post (contains "Post-Processed" t || contains blend_title t) (err_if b3 MandatoryAttribute j2))) with (i_errors (err_if b3 MandatoryAttribute j2)). rewrite Base.
      assert (Bl : blend c <-> blend_text t). { unfold blend. split; [intros (t' & V & O)|intro O; exists t; auto]. assert (t' = t); [|now subst]. apply (attr_some "title" a t' Na) in V. apply (attr_some "title" a t Na) in T. congruence. }
      assert (Mf : model_fine c t <-> blend_rule c /\ model_rule c).
      { unfold model_fine, blend_rule, model_rule. rewrite Bl. split.
        - intros [H1 H2]. split; [intros _; exact H1|]. intros _ Nb id V. destruct (H2 Nb id V) as (n & I' & H). exists n. split; [exact I'|]. intros t' code m V'. apply (attr_some "title" a t' Na) in V'. apply (attr_some "title" a t Na) in T. replace t' with t by congruence. apply H.
        - intros [H1 H2]. split; [exact (H1 Ax)|]. intros Nb id V. destruct (H2 Ax Nb id V) as (n & I' & H). exists n. split; [exact I'|]. intros code m. now apply H. }
      rewrite Mf. tauto.
    + rewrite passes_ok. rewrite Base. split; [|tauto]. intros [_ R]. exfalso. destruct R as (_ & _ & _ & R). destruct (R Ax "title") as (v & V); [now left|]. exact (proj1 (attr_none "title" a) T v V).
Qed.
Lemma attributes_look i j : ~ exempt c -> seen c i -> check_attributes (c_attributes c) i = Ok j -> look j = look i /\ i_relative j = i_relative i /\ i_unhandled j = i_unhandled i /\ (attribute_rule c -> ~ ancillary c -> (i_blended j = true <-> blend c)).
Proof.
  intros Ne Sn. unfold check_attributes. cbv zeta. set (a := c_attributes c) in *. set (own := diagnostic_attributes (i_diagnostic i)). set (j1 := if existsb _ a then _ else _).
  assert (L1 : look j1 = look i /\ i_relative j1 = i_relative i /\ i_unhandled j1 = i_unhandled i) by (unfold j1; destruct (existsb _ a); [|destruct (existsb _ a)]; repeat split). clearbody j1. set (b2 := negb (forallb _ own)). clearbody b2. set (j2 := err_if b2 RequiredAttribute j1). assert (L2 : look j2 = look i /\ i_relative j2 = i_relative i /\ i_unhandled j2 = i_unhandled i) by (unfold j2; destruct b2; exact L1). clearbody j2.
  assert (Fj : i_field j2 = i_field i) by (destruct L2 as (L2 & _); unfold look in L2; congruence). rewrite match_ancillary, Fj. destruct (field_is "ancillary" (i_field i)) eqn:An.
  - apply (seen_ancillary i Ne Sn) in An. intro H. apply Ok_inj in H. subst j. split; [tauto|]. split; [tauto|]. split; [tauto|]. intros _ Q. contradiction.
  - set (b3 := negb (forallb _ mandatory)). set (j3 := err_if b3 MandatoryAttribute j2). assert (L3 : look j3 = look i /\ i_relative j3 = i_relative i /\ i_unhandled j3 = i_unhandled i) by (unfold j3; destruct b3; exact L2). clearbody j3. destruct (attr "title" a) as [t|] eqn:T.
    + intro H. apply (model_look c) in H as (A & B & C & D). split; [unfold look in *; cbn in A; destruct L3 as [L3 _]; congruence|]. split; [cbn in B; destruct L3; intuition congruence|]. split; [cbn in D; intuition congruence|]. intros _ _. rewrite C, contains_occurs. apply (attr_some "title" a t Na) in T. unfold blend. split; [intro O; exists t; auto|]. intros (t' & V & O). replace t with t'; [exact O|]. apply (attr_some "title" a t' Na) in V. apply (attr_some "title" a t Na) in T. congruence.
    + intro H. apply Ok_inj in H. subst j. split; [tauto|]. split; [tauto|]. split; [tauto|]. intros R Ax. exfalso. destruct R as (_ & _ & _ & R). destruct (R Ax "title") as (v & V); [now left|]. exact (proj1 (attr_none "title" a) T v V).
Qed.

(** ** Coordinates *)
Lemma present_ok l i : i_errors (check_present l c i) = [] <-> i_errors i = [] /\ forall k, In k l -> has c k.
Proof. unfold check_present. rewrite err_if_nil, negb_false_iff, forallb_forall. split; intros [A H]; (split; [exact A|]); intros k K; specialize (H k K); now apply named_iff. Qed.
Lemma same_iff a b : same_dims a b = true <-> forall d, In d a <-> In d b.
Proof.
  unfold same_dims. rewrite andb_true_iff, !forallb_forall. split.
  - intros [A B] d. split; intro H; [specialize (A d H)|specialize (B d H)]; [apply existsb_exists in A as (y & Y & E)|apply existsb_exists in B as (y & Y & E)]; apply Nat.eqb_eq in E; now subst.
  - intro H. split; intros d D; apply H in D; apply existsb_exists; exists d; split; auto; apply Nat.eqb_refl.
Qed.
Lemma horizontal_fold dy dx l : forall i, i_errors (fold_left (fun i k => match coord k c with Ok t => err_if (negb (same_dims (co_dims t) [dy; dx])) (NotHorizontal k) i | Err _ => i end) l i) = [] <-> i_errors i = [] /\ forall x, In x (c_coords c) -> In (co_name x) l -> forall d, In d (co_dims x) <-> d = dy \/ d = dx.
Proof.
  induction l as [|k l IH]; intro i; cbn [fold_left]; [split; [intro H; split; [exact H|intros x _ []]|tauto]|]. rewrite IH. destruct (coord k c) as [t|] eqn:E.
  - apply (coord_ok k c t N) in E as [T1 T2]. rewrite err_if_nil, negb_false_iff, same_iff. split.
    + intros [[A B] C]. split; [exact A|]. intros x X [K|K]; [|now apply C]. assert (x = t) by (apply (coord_one c x t N X T1); congruence). subst x. intro d. rewrite (B d). cbn. intuition.
    + intros [A B]. split; [split; [exact A|]|intros x X K; apply B; [exact X|now right]]. intro d. rewrite (B t T1) by (left; congruence). cbn. intuition.
  - apply (coord_err k c _ N) in E. split; intros [A B]; (split; [exact A|]); [|intros x X K; apply B; [exact X|now right]]. intros x X [K|K]; [exfalso; apply E; exists x; auto|now apply B].
Qed.
Lemma spot_look dy dx l : forall i, let j := fold_left (fun i k => match coord k c with Ok t => err_if (negb (same_dims (co_dims t) [dy; dx])) (NotHorizontal k) i | Err _ => i end) l i in look j = look i /\ i_relative j = i_relative i /\ i_unhandled j = i_unhandled i /\ i_blended j = i_blended i.
Proof. induction l as [|k l IH]; intro i; cbn [fold_left]; [repeat split|]. cbv zeta. match goal with |- look (fold_left _ _ ?k) = _ /\ _ => destruct (IH k) as (A & B & C & D) end. rewrite A, B, C, D. destruct (coord k c); [unfold err_if; destruct (negb _)|]; repeat split. Qed.
Lemma spot_ok i : passes (check_spot c i) <-> i_errors i = [] /\ (has c "spot_index" -> spot_rule c) /\ has c "spot_index".
Proof.
  unfold check_spot, check_horizontal. set (i1 := match attr "title" _ with Some _ => _ | None => _ end). assert (E1 : i_errors i1 = [] <-> i_errors i = [] /\ forall t, value c "title" t -> occurs "Spot Values" t).
  { unfold i1. destruct (attr "title" (c_attributes c)) as [t|] eqn:T.
    - rewrite err_if_nil, negb_false_iff, contains_occurs. change (i_errors (set_spot i)) with (i_errors i). pose proof (proj1 (attr_some "title" _ t Na) T) as V. split; [intros [A B]; split; [exact A|]; intros t' V'; apply (attr_some "title" _ t' Na) in V'; congruence|]. intros [A B]. split; [exact A|now apply B].
    - change (i_errors (set_spot i)) with (i_errors i). split; [intro A; split; [exact A|]; intros t V; exfalso; exact (proj1 (attr_none _ _) T t V)|tauto]. }
  clearbody i1. rewrite passes_bind. unfold spot_rule, has in *. split.
  - intros (y & Ey & P). rewrite passes_bind in P. destruct P as (x & Ex & P). rewrite passes_bind in P. destruct P as (dy & Edy & P). rewrite passes_bind in P. destruct P as (dx & Edx & P). rewrite passes_ok, horizontal_fold, present_ok, E1 in P. destruct P as [[[A B] C] D]. split; [exact A|]. split; [|apply C; now left]. intros _ _. split; [exact B|]. split; [intros k K; apply C; now right|]. exists y, x, dy, dx.
    split; [unfold only in Ey; destruct (filter (is_axis AxisY) (c_coords c)) as [|? [|? ?]]; congruence|]. split; [unfold only in Ex; destruct (filter (is_axis AxisX) (c_coords c)) as [|? [|? ?]]; congruence|]. unfold first_dim in Edy, Edx. split; [destruct (co_dims y); [discriminate|]; cbn; congruence|]. split; [destruct (co_dims x); [discriminate|]; cbn; congruence|]. exact D.
  - intros (A & H & Hs). destruct (H Hs Hs) as (B & C & y & x & dy & dx & Ey & Ex & Edy & Edx & D). exists y. rewrite Ey. split; [reflexivity|]. rewrite passes_bind. exists x. rewrite Ex. split; [reflexivity|]. rewrite passes_bind. exists dy. split; [unfold first_dim; destruct (co_dims y); [discriminate|]; cbn in Edy; congruence|]. rewrite passes_bind. exists dx. split; [unfold first_dim; destruct (co_dims x); [discriminate|]; cbn in Edx; congruence|]. rewrite passes_ok, horizontal_fold, present_ok, E1. split; [|exact D]. split; [auto|]. intros k [<-|K]; [exact Hs|now apply C].
Qed.
Lemma spot_keeps i j : check_spot c i = Ok j -> look j = look i /\ i_relative j = i_relative i /\ i_unhandled j = i_unhandled i /\ i_blended j = i_blended i.
Proof.
  unfold check_spot, check_horizontal. set (i1 := match attr "title" _ with Some _ => _ | None => _ end). assert (L : look i1 = look i /\ i_relative i1 = i_relative i /\ i_unhandled i1 = i_unhandled i /\ i_blended i1 = i_blended i) by (unfold i1; destruct (attr _ _); [unfold err_if; destruct (negb _)|]; repeat split). clearbody i1.
  destruct (only _); [|discriminate]. cbn [bind]. destruct (only _); [|discriminate]. cbn [bind]. destruct (first_dim _) as [dy|]; [|discriminate]. cbn [bind]. destruct (first_dim _) as [dx|]; [|discriminate]. cbn [bind]. intro H. apply Ok_inj in H. subst j. match goal with |- look (fold_left _ _ ?k) = _ /\ _ => destruct (spot_look dy dx spot_coords k) as (A & B & C & D) end. cbv zeta in *. rewrite A, B, C, D. unfold check_present, err_if. destruct (negb _); exact L.
Qed.
Definition bounds_fine (k : string) : Prop := forall x b, In x (c_coords c) -> co_name x = k -> co_bounds x = Some b -> forall p lo hi, In (p, (lo, hi)) (combine (co_points x) b) -> p = hi.
Lemma bounds_ok k i : passes (check_bounds c k i) <-> i_errors i = [] /\ bounds_fine k.
Proof.
  unfold check_bounds, bounds_fine. destruct (mem k (names c)) eqn:M.
  - apply named_iff in M as (x & X1 & X2). rewrite (proj2 (coord_ok k c x N) (conj X1 X2)). cbn [bind].
    assert (U : forall x', In x' (c_coords c) -> co_name x' = k -> x' = x) by (intros x' A B; apply (coord_one c x' x N A X1); congruence).
    destruct (co_bounds x) as [b|] eqn:B.
    + rewrite passes_ok, err_if_nil, negb_false_iff, forallb_forall. split; intros [A H]; (split; [exact A|]).
      * intros x' b' I' E Eb p lo hi P. rewrite (U x' I' E) in *. rewrite B in Eb. injection Eb as <-. specialize (H _ P). cbn in H. lia.
      * intros [p [lo hi]] P. cbn [fst snd]. apply Z.eqb_eq. exact (H x b X1 X2 B p lo hi P).
    + rewrite passes_ok. split; [intro A; split; [exact A|]; intros x' b' I' E Eb; rewrite (U x' I' E) in Eb; congruence|tauto].
  - rewrite passes_ok. split; [intro A; split; [exact A|]; intros x b I' E; exfalso; assert (T : mem k (names c) = true) by (apply named_iff; exists x; auto); congruence|tauto].
Qed.
Lemma bounds_keeps k i j : check_bounds c k i = Ok j -> look j = look i /\ i_relative j = i_relative i /\ i_unhandled j = i_unhandled i /\ i_blended j = i_blended i.
Proof. unfold check_bounds. destruct (mem k (names c)); [destruct (coord k c) as [t|]; [|discriminate]; cbn [bind]; destruct (co_bounds t); [unfold err_if; destruct (negb _)|]|]; intro H; apply Ok_inj in H; subst j; repeat split. Qed.

(** ** All of it *)
Definition rest_rules : Prop := attribute_rule c /\ blend_rule c /\ model_rule c /\ spot_rule c /\ time_rule c /\ bounds_rule c /\ c_standard c = true /\ ensemble_rule c.
Definition keeps (j i : interp) : Prop := look j = look i /\ i_relative j = i_relative i /\ i_unhandled j = i_unhandled i.
Lemma rest_ok i : ~ exempt c -> seen c i -> (passes (check_rest c i) <-> i_errors i = [] /\ rest_rules).
Proof.
  intros Ne Sn. unfold check_rest, rest_rules. rewrite passes_bind.
  assert (Main : forall j, seen c j -> (attribute_rule c -> ~ ancillary c -> (i_blended j = true <-> blend c)) -> attribute_rule c ->
    (passes (let* i := if mem "spot_index" (names c) then check_spot c j else Ok j in
             let i := match i_field i with Some "ancillary" => i | _ => check_present (if i_blended i then blended_times else unblended_times) c i end in
             let* i := check_bounds c "time" i in let* i := check_bounds c "forecast_period" i in
             let i := err_if (negb (c_standard c)) Standards i in
             match i_field i with Some "realizations" => match coord "realization" c with Err _ => Ok i | Ok r => Ok (err_if (negb (contains "ens" (match attr id_attr (c_attributes c) with Some m => m | None => "ens" end)) && (1 <? length (co_points r))%nat) Realizations i) end | _ => Ok i end)
     <-> i_errors j = [] /\ spot_rule c /\ time_rule c /\ bounds_rule c /\ c_standard c = true /\ ensemble_rule c)).
  { intros j Sj Bj Ar.
    assert (Hsp : forall P, passes (bind (if mem "spot_index" (names c) then check_spot c j else Ok j) P) <-> exists k, (if mem "spot_index" (names c) then check_spot c j else Ok j) = Ok k /\ passes (P k)) by (intro P; apply passes_bind). rewrite Hsp. clear Hsp.
    assert (Sp : passes (if mem "spot_index" (names c) then check_spot c j else Ok j) <-> i_errors j = [] /\ spot_rule c).
    { destruct (mem "spot_index" (names c)) eqn:M.
      - apply named_iff in M. rewrite spot_ok. tauto.
      - assert (Q : ~ has c "spot_index") by (rewrite <- named_iff; congruence). rewrite passes_ok. unfold spot_rule. tauto. }
    assert (Sk : forall k, (if mem "spot_index" (names c) then check_spot c j else Ok j) = Ok k -> look k = look j /\ i_blended k = i_blended j). { intros k. destruct (mem "spot_index" (names c)); intro H; [apply spot_keeps in H; tauto|apply Ok_inj in H; subst; auto]. }
    assert (Next : forall k, look k = look j -> i_blended k = i_blended j -> (passes (let i := match i_field k with Some "ancillary" => k | _ => check_present (if i_blended k then blended_times else unblended_times) c k end in
             let* i := check_bounds c "time" i in let* i := check_bounds c "forecast_period" i in
             let i := err_if (negb (c_standard c)) Standards i in
             match i_field i with Some "realizations" => match coord "realization" c with Err _ => Ok i | Ok r => Ok (err_if (negb (contains "ens" (match attr id_attr (c_attributes c) with Some m => m | None => "ens" end)) && (1 <? length (co_points r))%nat) Realizations i) end | _ => Ok i end)
       <-> i_errors k = [] /\ time_rule c /\ bounds_rule c /\ c_standard c = true /\ ensemble_rule c)).
    { intros k Lk Bk. assert (Fk : i_field k = i_field j) by (unfold look in Lk; congruence). cbv zeta. rewrite match_ancillary. rewrite Fk. set (k1 := if field_is "ancillary" (i_field j) then _ else _).
      assert (E1 : i_errors k1 = [] <-> i_errors k = [] /\ time_rule c).
      { unfold k1, time_rule. destruct (field_is "ancillary" (i_field j)) eqn:An; [apply (seen_ancillary j Ne Sj) in An; tauto|]. assert (Ax : ~ ancillary c) by (rewrite <- (seen_ancillary j Ne Sj); congruence). rewrite present_ok, Bk. specialize (Bj Ar Ax). destruct (i_blended j).
        - assert (B : blend c) by now apply Bj. split; intros [A H]; (split; [exact A|]); [intros _; split; [intros _; split; apply H; cbn; auto|tauto]|]. destruct (H Ax) as [H1 _]. destruct (H1 B). intros x [<-|[<-|[]]]; assumption.
        - assert (B : ~ blend c) by (intro B; apply Bj in B; discriminate). split; intros [A H]; (split; [exact A|]); [intros _; split; [tauto|]; intros _; split; [apply H; cbn; auto|split; apply H; cbn; auto]|]. destruct (H Ax) as [_ H1]. destruct (H1 B) as (? & ? & ?). intros x [<-|[<-|[<-|[]]]]; assumption. }
      assert (F1 : i_field k1 = i_field j) by (unfold k1; destruct (field_is _ _); [exact Fk|]; unfold check_present, err_if; destruct (negb _); exact Fk). clearbody k1.
      rewrite passes_bind. assert (Fin : forall q, i_field q = i_field j -> (passes (let i := err_if (negb (c_standard c)) Standards q in match i_field i with Some "realizations" => match coord "realization" c with Err _ => Ok i | Ok r => Ok (err_if (negb (contains "ens" (match attr id_attr (c_attributes c) with Some m => m | None => "ens" end)) && (1 <? length (co_points r))%nat) Realizations i) end | _ => Ok i end) <-> i_errors q = [] /\ c_standard c = true /\ ensemble_rule c)).
      { intros q Fq. cbv zeta. set (q1 := err_if (negb (c_standard c)) Standards q). assert (Eq : i_errors q1 = [] <-> i_errors q = [] /\ c_standard c = true) by (unfold q1; rewrite err_if_nil, negb_false_iff; tauto). assert (Fq1 : i_field q1 = i_field j) by (unfold q1, err_if; destruct (negb _); exact Fq). clearbody q1. rewrite match_realizations, Fq1. unfold ensemble_rule. destruct (field_is "realizations" (i_field j)) eqn:Rf.
        - apply (seen_realizations j Ne Sj) in Rf. destruct (coord "realization" c) as [r|] eqn:Cr.
          + apply (coord_ok _ c r N) in Cr as [R1 R2]. rewrite passes_ok, err_if_nil, Eq. assert (X : (negb (contains "ens" match attr id_attr (c_attributes c) with Some m => m | None => "ens" end) && (1 <? length (co_points r))%nat) = false <-> (realizations c -> forall x id, In x (c_coords c) -> co_name x = "realization" -> value c "mosg__model_configuration" id -> ~ occurs "ens" id -> (length (co_points x) <= 1)%nat)); [|rewrite X; tauto].
            rewrite andb_false_iff, negb_false_iff, Nat.ltb_ge. split.
            * intros H _ x id X1 X2 V O. assert (x = r) by (apply (coord_one c x r N X1 R1); congruence). subst x. destruct H as [H|H]; [|exact H]. exfalso. apply (attr_some id_attr _ id Na) in V. rewrite V in H. apply contains_occurs in H. contradiction.
            * intro H. destruct (attr id_attr (c_attributes c)) as [id|] eqn:V; [|left; reflexivity]. apply (attr_some id_attr _ id Na) in V. destruct (contains "ens" id) eqn:O; [now left|]. right. apply no_occurs in O. exact (H Rf r id R1 R2 V O).
          + apply (coord_err _ c _ N) in Cr. rewrite passes_ok, Eq. split; [intros [A B]; split; [exact A|]; split; [exact B|]; intros _ x id X1 X2; exfalso; apply Cr; exists x; auto|tauto].
        - assert (Q : ~ realizations c) by (rewrite <- (seen_realizations j Ne Sj); congruence). rewrite passes_ok, Eq. tauto. }
      assert (Br : bounds_rule c <-> bounds_fine "time" /\ bounds_fine "forecast_period"). { unfold bounds_rule, bounds_fine. split; [intro H; split; intros x b X1 X2; apply H; auto|]. intros [H1 H2] x b X1 [X2|X2]; [now apply H1|now apply H2]. }
      split.
      - intros (q & Eq & P). rewrite passes_bind in P. destruct P as (r & Er & P). pose proof (bounds_keeps _ _ _ Eq) as (Lq & _). pose proof (bounds_keeps _ _ _ Er) as (Lr & _). unfold look in Lq, Lr. apply Fin in P; [|congruence]. destruct P as (P1 & P2 & P3). assert (Q1 : passes (check_bounds c "forecast_period" q)) by (exists r; auto). apply bounds_ok in Q1 as [Q1 Q2]. assert (Q3 : passes (check_bounds c "time" k1)) by (exists q; auto). apply bounds_ok in Q3 as [Q3 Q4]. apply E1 in Q3. rewrite Br. tauto.
      - rewrite Br. intros (A & T & [B1 B2] & S1 & En). assert (Q : passes (check_bounds c "time" k1)) by (apply bounds_ok; split; [apply E1; auto|exact B1]). destruct Q as (q & Eq & Zq). exists q. split; [exact Eq|]. rewrite passes_bind. assert (Q : passes (check_bounds c "forecast_period" q)) by (apply bounds_ok; auto). destruct Q as (r & Er & Zr). exists r. split; [exact Er|]. pose proof (bounds_keeps _ _ _ Eq) as (Lq & _). pose proof (bounds_keeps _ _ _ Er) as (Lr & _). unfold look in Lq, Lr. apply Fin; [congruence|auto]. }
    split.
    - intros (k & Ek & P). destruct (Sk k Ek) as [Lk Bk]. apply (Next k Lk Bk) in P as (Zk & P). assert (Q : passes (if mem "spot_index" (names c) then check_spot c j else Ok j)) by (exists k; auto). apply Sp in Q. tauto.
    - intros (A & S1 & P). assert (Q : passes (if mem "spot_index" (names c) then check_spot c j else Ok j)) by (apply Sp; auto). destruct Q as (k & Ek & Zk). exists k. split; [exact Ek|]. destruct (Sk k Ek) as [Lk Bk]. apply (Next k Lk Bk). tauto. }
  assert (Sl : forall j, look j = look i -> i_relative j = i_relative i -> seen c j). { intros j L R. unfold look in L. assert (L1 : i_field j = i_field i) by congruence. assert (L2 : i_diagnostic j = i_diagnostic i) by congruence. unfold seen in *. rewrite L1, L2, R. exact Sn. }
  split.
  - intros (j & Ej & P). destruct (attributes_look i j Ne Sn Ej) as (La & Lb & _ & Lc).
    assert (Zi : i_errors j = []).
    { clear -P N Na. apply passes_bind in P as (k & Ek & P). cbv zeta in P. rewrite match_ancillary in P. apply passes_bind in P as (q & Eq & P). apply passes_bind in P as (r & Er & P). rewrite match_realizations in P.
      assert (Zr : i_errors r = []). { destruct (field_is _ _) in P; [destruct (coord "realization" c)|]; rewrite passes_ok in P; rewrite ?err_if_nil in P; tauto. }
      assert (Q1 : passes (check_bounds c "forecast_period" q)) by (exists r; auto). apply bounds_ok in Q1 as [Q1 _]. match type of Eq with check_bounds _ _ ?x = _ => assert (Q2 : passes (check_bounds c "time" x)) by (exists q; auto) end. apply bounds_ok in Q2 as [Q2 _].
      assert (Zk : i_errors k = []). { destruct (field_is _ _) in Q2; [exact Q2|]. apply present_ok in Q2. tauto. }
      destruct (mem "spot_index" (names c)); [|apply Ok_inj in Ek; now subst]. assert (Q3 : passes (check_spot c j)) by (exists k; auto). apply spot_ok in Q3. tauto. }
    assert (Q : passes (check_attributes (c_attributes c) i)) by (exists j; auto). apply (attributes_ok i Ne Sn) in Q as (Q1 & Q2 & Q3 & Q4). apply (Main j (Sl j La Lb) Lc Q2) in P. tauto.
  - intros (A & R1 & R2 & R3 & R4). assert (Q : passes (check_attributes (c_attributes c) i)) by (apply (attributes_ok i Ne Sn); auto). destruct Q as (j & Ej & Zj). exists j. split; [exact Ej|]. destruct (attributes_look i j Ne Sn Ej) as (La & Lb & _ & Lc). apply (Main j (Sl j La Lb) Lc R1). auto.
Qed.
End cube.

(** ** What is left alone *)
Section keep.
Variable c : cube.
Hypothesis N : NoDup (map co_name (c_coords c)).
Hypothesis Na : NoDup (map fst (c_attributes c)).
Definition flags (i : interp) := (i_spot i, i_unhandled i).
Lemma flags_if b p i : flags (err_if b p i) = flags i. Proof. now destruct b. Qed.
Lemma flags_threshold n t i : flags (check_threshold n t i) = flags i.
Proof. unfold check_threshold. destruct (co_relative t) as [r|]; [|destruct (negb _); reflexivity]. destruct (word_for r) as [w|]; [destruct (w =? "between")|]; rewrite ?flags_if; destruct (negb _); reflexivity. Qed.
Lemma flags_probability i j : check_probability c i = Ok j -> flags j = flags i.
Proof.
  unfold check_probability. cbv zeta. set (i1 := err_if _ _ i). assert (E : flags i1 = flags i) by apply flags_if. clearbody i1. rewrite <- E. clear E. destruct (extract_diagnostic_name _ _) as [d|]; [|intro H; apply Ok_inj in H; now subst]. destruct (negb _).
  - destruct (find_threshold c) as [t|]; [|intro H; apply Ok_inj in H; now subst]. destruct (coord _ c); [|discriminate]. cbn [bind]. intro H. apply Ok_inj in H. subst j. now rewrite flags_threshold.
  - destruct (coord d c); [|discriminate]. cbn [bind]. intro H. apply Ok_inj in H. subst j. now rewrite flags_threshold.
Qed.
Lemma flags_method m i j : check_method c m i = Ok j -> flags j = flags i.
Proof.
  unfold check_method. destruct (mem _ _).
  - destruct (cm_coords m) as [|x r]; [discriminate|]. set (i1 := add_method _ i). assert (E : flags i1 = flags i) by reflexivity. clearbody i1. rewrite <- E. clear E. set (i2 := match i_field i1 with Some _ => _ | None => _ end). assert (E : flags i2 = flags i1). { unfold i2. generalize (negb match cm_comments m with t :: _ => String.prefix ("of " ++ text (i_diagnostic i1)) t | [] => false end). intro b. clear. destruct (i_field i1) as [f|]; [|reflexivity]. assert (H : flags (err_if b MethodComment i1) = flags i1) by apply flags_if. revert H. generalize (err_if b MethodComment i1). intros k H. repeat match goal with |- flags (match ?s with _ => _ end) = _ => destruct s; try reflexivity; try exact H end. } clearbody i2. rewrite <- E. destruct (mem "time" _); [destruct (coord "time" c) as [t|]; [|discriminate]; cbn [bind]|]; intro H; apply Ok_inj in H; subst j; [apply flags_if|reflexivity].
  - destruct (is_forbidden_method m); intro H; apply Ok_inj in H; now subst.
Qed.
Lemma flags_all l : forall i j, over_all (check_method c) l i = Ok j -> flags j = flags i.
Proof. induction l as [|m l IH]; intros i j; cbn [over_all]; [intro H; apply Ok_inj in H; now subst|]. destruct (check_method c m i) as [k|] eqn:E; [|discriminate]. cbn [bind]. intro H. rewrite (IH _ _ H). exact (flags_method m i k E). Qed.
Lemma flags_categories l : forall i j, over_all check_category l i = Ok j -> flags j = flags i.
Proof. induction l as [|m l IH]; intros i j; cbn [over_all]; [intro H; apply Ok_inj in H; now subst|]. unfold check_category. destruct (is_mode m "1"); [|destruct (is_mode m "3")]; cbn [bind]; intro H; now rewrite (IH _ _ H). Qed.
Lemma flags_kind i j : check_kind c i = Ok (j, false) -> flags j = flags i.
Proof.
  unfold check_kind. destruct (mem _ _); [intro H; injection H as <-; now rewrite flags_if|]. destruct (mem _ _).
  - destruct (c_name c =? "weather_code").
    + destruct (over_all _ _ _) as [k|] eqn:E; [|discriminate]. cbn [bind]. intro H. injection H as <-. now rewrite (flags_categories _ _ _ E).
    + destruct (c_name c =? "wind_from_direction"); [intro H; injection H as <-; now rewrite flags_if|discriminate].
  - match goal with |- (let* i := ?r in _) = _ -> _ => assert (E : forall k, r = Ok k -> flags k = flags i); [|destruct r as [k|]; [|discriminate]] end.
    + intros k. destruct (_ && _)%bool; [intro H; now rewrite (flags_probability _ _ H)|]. destruct (find_percentile c) as [[p|]|]; [| |discriminate]; cbn [bind].
      * intro H. apply Ok_inj in H. subst k. now rewrite !flags_if.
      * destruct (mapM _ _) as [ts|]; [|discriminate]. cbn [bind]. destruct (existsb _ ts); [intro H; now rewrite (flags_probability _ _ H)|intro H; apply Ok_inj in H; now subst].
    + specialize (E k eq_refl). cbn [bind]. unfold check_methods. destruct (over_all _ _ _) as [q|] eqn:F; [|discriminate]. cbn [bind]. intro H. injection H as <-. apply flags_all in F. rewrite F, flags_if. exact E.
Qed.
Lemma flags_codes cs l : forall s t, name_codes cs l s = Ok t -> flags (fst t) = flags (fst s).
Proof. induction l as [|x l IH]; intros s t; cbn [name_codes]; [intro H; apply Ok_inj in H; now subst|]. unfold name_code. destruct (attr x model_names) as [n|]; [destruct (attr x (rev cs)) as [v|]; [|discriminate]|]; cbn [bind]; intro H; now rewrite (IH _ _ H). Qed.
Lemma flags_fold (f : string * string -> bool) (g : string * string -> problem) l : forall i, flags (fold_left (fun i e => err_if (f e) (g e) i) l i) = flags i.
Proof. induction l as [|e l IH]; intro i; cbn [fold_left]; [reflexivity|]. rewrite IH. apply flags_if. Qed.
Lemma flags_model t i j : check_model t (c_attributes c) i = Ok j -> flags j = flags i.
Proof.
  unfold check_model. destruct (contains blend_title t).
  - destruct (attr id_attr (c_attributes c)) as [ids|], (attr run_attr (c_attributes c)) as [runs|]; cbn [err_if]; try (intro H; apply Ok_inj in H; now subst j).
    destruct (cycles runs) as [cs|]; [|discriminate]. cbn [bind]. destruct (name_codes cs _ _) as [s|] eqn:E; [|discriminate]. cbn [bind]. intro H. apply Ok_inj in H. subst j. apply flags_codes in E. exact E.
  - destruct (attr id_attr (c_attributes c)) as [id|]; [|intro H; apply Ok_inj in H; now subst j]. destruct (attr id model_names); intro H; apply Ok_inj in H; subst j.
    + exact (flags_fold (fun e => contains (snd e ++ " Model") t && negb (id =? fst e)) (fun e => TitleModel (fst e)) model_names (set_blended false i)).
    + exact (flags_fold (fun e => contains (snd e ++ " Model") t && negb (id =? fst e)) (fun e => TitleModel (fst e)) model_names (set_blended false i)).
Qed.
Lemma flags_attributes i j : check_attributes (c_attributes c) i = Ok j -> flags j = flags i.
Proof.
  unfold check_attributes. cbv zeta. set (i1 := if existsb _ _ then _ else _). assert (E : flags i1 = flags i) by (unfold i1; destruct (existsb _ _); [|destruct (existsb _ _)]; reflexivity). clearbody i1. rewrite <- E. clear E. set (i2 := err_if _ RequiredAttribute i1). assert (E : flags i2 = flags i1) by apply flags_if. clearbody i2. rewrite <- E. clear E. rewrite match_ancillary. destruct (field_is _ _); [intro H; apply Ok_inj in H; now subst|]. set (i3 := err_if _ MandatoryAttribute i2). assert (E : flags i3 = flags i2) by apply flags_if. clearbody i3. rewrite <- E. clear E. destruct (attr "title" _) as [t|]; [|intro H; apply Ok_inj in H; now subst]. intro H. apply flags_model in H. exact H.
Qed.
Lemma rest_keeps i j : ~ exempt c -> seen c i -> check_rest c i = Ok j -> look j = look i /\ i_relative j = i_relative i /\ i_unhandled j = i_unhandled i /\ (i_spot i = false -> (i_spot j = true <-> has c "spot_index")).
Proof.
  intros Ne Sn. unfold check_rest. destruct (check_attributes (c_attributes c) i) as [k|] eqn:E; [|discriminate]. cbn [bind]. destruct (attributes_look c Na i k Ne Sn E) as (A1 & A2 & A3 & _). apply flags_attributes in E. assert (A4 : i_spot k = i_spot i) by (unfold flags in E; congruence). clear E. rewrite <- A1, <- A2, <- A3, <- A4. clear A1 A2 A3 A4.
  match goal with |- (let* i := ?r in _) = _ -> _ => assert (E : forall q, r = Ok q -> look q = look k /\ i_relative q = i_relative k /\ i_unhandled q = i_unhandled k /\ (i_spot k = false -> (i_spot q = true <-> has c "spot_index"))); [|destruct r as [q|]; [|discriminate]] end.
  - intros q. destruct (mem "spot_index" (names c)) eqn:M.
    + intro H. destruct (spot_keeps c k q H) as (B1 & B2 & B3 & _). split; [exact B1|]. split; [exact B2|]. split; [exact B3|]. intros _. apply named_iff in M. split; [intros _; exact M|intros _]. revert H. unfold check_spot, check_horizontal. set (k1 := match attr "title" _ with Some _ => _ | None => _ end). assert (F : i_spot k1 = true) by (unfold k1; destruct (attr _ _); [unfold err_if; destruct (negb _)|]; reflexivity). clearbody k1.
      destruct (only _); [|discriminate]. cbn [bind]. destruct (only _); [|discriminate]. cbn [bind]. destruct (first_dim _) as [dy|]; [|discriminate]. cbn [bind]. destruct (first_dim _) as [dx|]; [|discriminate]. cbn [bind]. intro H. apply Ok_inj in H. subst q. set (k2 := check_present _ c k1). assert (F2 : i_spot k2 = true) by (unfold k2, check_present, err_if; destruct (negb _); exact F). clearbody k2. clear -F2. revert k2 F2. induction spot_coords as [|x l IH]; intros k2 F2; [exact F2|]. cbn [fold_left]. apply IH. destruct (coord x c); [unfold err_if; destruct (negb _)|]; exact F2.
    + intro H. apply Ok_inj in H. subst q. repeat split; try reflexivity. * congruence. * intro Q. apply named_iff in Q. congruence.
  - specialize (E q eq_refl). cbn [bind]. cbv zeta. rewrite match_ancillary. set (q1 := if field_is _ _ then _ else _). assert (E1 : look q1 = look q /\ i_relative q1 = i_relative q /\ i_unhandled q1 = i_unhandled q /\ i_spot q1 = i_spot q) by (unfold q1; destruct (field_is _ _); [|unfold check_present, err_if; destruct (negb _)]; repeat split). clearbody q1.
    assert (Bk : forall w a b, check_bounds c w a = Ok b -> i_spot b = i_spot a). { intros w a b. unfold check_bounds. destruct (mem w (names c)); [destruct (coord w c) as [t|]; [|discriminate]; cbn [bind]; destruct (co_bounds t); [unfold err_if; destruct (negb _)|]|]; intro H; apply Ok_inj in H; now subst b. }
    destruct (check_bounds c "time" q1) as [q2|] eqn:F2; [|discriminate]. cbn [bind]. pose proof (bounds_keeps c _ _ _ F2) as G2. apply Bk in F2. destruct (check_bounds c "forecast_period" q2) as [q3|] eqn:F3; [|discriminate]. cbn [bind]. pose proof (bounds_keeps c _ _ _ F3) as G3. apply Bk in F3. set (q4 := err_if _ Standards q3). assert (G4 : look q4 = look q3 /\ i_relative q4 = i_relative q3 /\ i_unhandled q4 = i_unhandled q3 /\ i_spot q4 = i_spot q3) by (unfold q4, err_if; destruct (negb _); repeat split). clearbody q4. rewrite match_realizations. intro H. assert (G5 : look j = look q4 /\ i_relative j = i_relative q4 /\ i_unhandled j = i_unhandled q4 /\ i_spot j = i_spot q4). { destruct (field_is _ _) in H; [destruct (coord _ _)|]; apply Ok_inj in H; subst j; [unfold err_if; destruct (_ && _)%bool| |]; repeat split. }
    destruct E as (X1 & X2 & X3 & X4), E1 as (Y1 & Y2 & Y3 & Y4), G2 as (Z1 & Z2 & Z3 & _), G3 as (W1 & W2 & W3 & _), G4 as (V1 & V2 & V3 & V4), G5 as (U1 & U2 & U3 & U4). split; [congruence|]. split; [congruence|]. split; [congruence|]. intro H0. rewrite U4, V4, F3, F2, Y4. now apply X4.
Qed.
End keep.

(** Errors are only ever added. *)
Section mono.
Variable c : cube.
Hypothesis N : NoDup (map co_name (c_coords c)).
Hypothesis Na : NoDup (map fst (c_attributes c)).
Lemma attributes_mono i j : check_attributes (c_attributes c) i = Ok j -> i_errors j = [] -> i_errors i = [].
Proof.
  intros H Z. assert (P : passes (check_attributes (c_attributes c) i)) by (exists j; auto). clear H Z. revert P. unfold check_attributes. cbv zeta. set (i1 := if existsb _ _ then _ else _). assert (E : i_errors i1 = [] -> i_errors i = []). { unfold i1. destruct (existsb _ _); [rewrite err_not; intros []|]. destruct (existsb _ _); auto. } clearbody i1. set (b := negb _). clearbody b. rewrite match_ancillary. destruct (field_is _ _).
  - rewrite passes_ok, err_if_nil. tauto.
  - set (b' := negb _). clearbody b'. destruct (attr "title" _) as [t|].
    + rewrite (model_ok c Na). change (i_errors (set_post ?x ?k)) with (i_errors k). rewrite !err_if_nil. tauto.
    + rewrite passes_ok, !err_if_nil. tauto.
Qed.
Lemma rest_mono i j : check_rest c i = Ok j -> i_errors j = [] -> i_errors i = [].
Proof.
  intros H Z. assert (P : passes (check_rest c i)) by (exists j; auto). clear H Z. unfold check_rest in P. apply passes_bind in P as (a & Ea & P). apply (attributes_mono i a Ea). apply passes_bind in P as (k & Ek & P). cbv zeta in P. rewrite match_ancillary in P. apply passes_bind in P as (q & Eq & P). apply passes_bind in P as (r & Er & P). rewrite match_realizations in P.
  assert (Zr : i_errors r = []). { destruct (field_is _ _) in P; [destruct (coord "realization" c)|]; rewrite passes_ok in P; rewrite ?err_if_nil in P; tauto. }
  assert (Q1 : passes (check_bounds c "forecast_period" q)) by (exists r; auto). apply (bounds_ok c N) in Q1 as [Q1 _]. match type of Eq with check_bounds _ _ ?x = _ => assert (Q2 : passes (check_bounds c "time" x)) by (exists q; auto) end. apply (bounds_ok c N) in Q2 as [Q2 _].
  assert (Zk : i_errors k = []). { destruct (field_is _ _) in Q2; [exact Q2|]. apply present_ok in Q2. tauto. }
  destruct (mem "spot_index" (names c)); [|apply Ok_inj in Ek; now subst]. assert (Q3 : passes (check_spot c a)) by (exists k; auto). apply (spot_ok c N Na) in Q3. tauto.
Qed.
End mono.

(** ** The theorems *)
(** An interpreter accepts a cube just when the cube is of a kind that is not looked at, or nothing has been recorded and every rule of the standard holds. *)
Theorem C117_verdict i c : well_formed c -> ((exists j, run i c = Done j) <-> exempt c \/ (i_errors i = [] /\ compliant c)).
Proof.
  intros [N Na]. unfold run. destruct (check_kind c i) as [[j [|]]|e] eqn:K.
  - assert (Ex : exempt c) by (apply (kind_exempt c i); eauto). split; [auto|eauto].
  - assert (Ne : ~ exempt c). { intro Ex. apply (kind_exempt c i) in Ex as (j' & E). congruence. } split.
    + intros (k & H). right. destruct (check_rest c j) as [q|] eqn:Rq; [|discriminate]. destruct (i_errors q) eqn:Zq; [|discriminate].
      destruct (i_errors j) eqn:Zj.
      * assert (Sn : seen c j) by exact (kind_seen c N i j K Zj). assert (P : passes (check_rest c j)) by (exists q; auto). apply (rest_ok c N Na j Ne Sn) in P as [_ P]. assert (Kq : exists j, check_kind c i = Ok (j, false) /\ i_errors j = []) by eauto. apply (kind_ok c N i) in Kq as (_ & Z & Kr). split; [exact Z|]. unfold kind_rules, rest_rules, compliant in *. tauto.
      * exfalso. assert (Mono : forall q, check_rest c j = Ok q -> i_errors q = [] -> i_errors j = []); [|specialize (Mono q Rq Zq); congruence]. intros q'; exact (rest_mono c N Na j q').
    + intros [Ex|[Z C]]; [contradiction|]. assert (Kq : exists j, check_kind c i = Ok (j, false) /\ i_errors j = []) by (apply (kind_ok c N i); unfold kind_rules, compliant in *; tauto). destruct Kq as (j' & Kj & Zj). rewrite K in Kj. injection Kj as <-. assert (Sn : seen c j) by exact (kind_seen c N i j K Zj). assert (P : passes (check_rest c j)) by (apply (rest_ok c N Na j Ne Sn); unfold rest_rules, compliant in *; tauto). destruct P as (q & -> & Zq). rewrite Zq. eauto.
  - split; [intros (j & H); discriminate|]. intros [Ex|[Z C]].
    + apply (kind_exempt c i) in Ex as (j & H). congruence.
    + exfalso. destruct (in_dec string_dec (c_name c) intermediates) as [Ex|Ne]; [apply (kind_exempt c i) in Ex as (j & H); congruence|]. assert (Kq : exists j, check_kind c i = Ok (j, false) /\ i_errors j = []) by (apply (kind_ok c N i); unfold kind_rules, compliant, exempt in *; tauto). destruct Kq as (j & H & _). congruence.
Qed.
(** The order of coordinates, cell methods and attributes makes no difference to what is compliant. *)
Lemma compliant_order c c' : c_name c = c_name c' -> c_units c = c_units c' -> c_standard c = c_standard c' -> Permutation (c_coords c) (c_coords c') -> Permutation (c_methods c) (c_methods c') -> Permutation (c_attributes c) (c_attributes c') -> compliant c -> compliant c'.
Proof.
  destruct c as [n u co ms at' st], c' as [n' u' co' ms' at'' st']. cbn [c_name c_units c_standard c_coords c_methods c_attributes]. intros <- <- <- Pc Pm Pa.
  assert (Hc : forall x, In x co <-> In x co') by (intro x; split; apply Permutation_in; [exact Pc|now apply Permutation_sym]).
  assert (Hm : forall x, In x ms <-> In x ms') by (intro x; split; apply Permutation_in; [exact Pm|now apply Permutation_sym]).
  assert (Ha : forall x, In x at' <-> In x at'') by (intro x; split; apply Permutation_in; [exact Pa|now apply Permutation_sym]).
  assert (Hf : forall f y, filter f co = [y] -> filter f co' = [y]).
  { intros f y E. assert (P : Permutation [y] (filter f co')). { rewrite <- E. clear -Pc. induction Pc as [|x l l' P IH|x y l|l1 l2 l3 P1 IH1 P2 IH2]; cbn [filter]; [constructor|destruct (f x); [now constructor|exact IH]|destruct (f x), (f y); try constructor; reflexivity|exact (perm_trans IH1 IH2)]. } apply Permutation_length_1_inv in P. exact P. }
  assert (Hn : ms = [] -> ms' = []) by (intros ->; now apply Permutation_nil). assert (H1 : forall m, ms = [m] -> ms' = [m]) by (intros m ->; now apply Permutation_length_1_inv).
  set (c := Build_cube n u co ms at' st). set (c' := Build_cube n u co' ms' at'' st).
  assert (Ev : forall k v, value c k v <-> value c' k v) by (intros k v; apply Ha).
  assert (Eh : forall k, has c k <-> has c' k) by (intro k; split; intros (x & X & E); exists x; (split; [now apply Hc|exact E])).
  assert (Epc : percentiles c <-> percentiles c') by (split; intros (A & B & x & X & E); (split; [exact A|]); (split; [exact B|]); exists x; (split; [now apply Hc|exact E])).
  assert (Eth : (exists x, In x (c_coords c) /\ is_threshold x) <-> exists x, In x (c_coords c') /\ is_threshold x) by (split; intros (x & X & E); exists x; (split; [now apply Hc|exact E])).
  assert (Epb : probabilities c <-> probabilities c') by (unfold probabilities; rewrite Epc, Eth; reflexivity).
  assert (Ere : realizations c <-> realizations c') by (unfold realizations; rewrite Epc, Epb; reflexivity).
  assert (Ed : forall d, diagnostic c d <-> diagnostic c' d) by (intro d; unfold diagnostic; rewrite Epb; reflexivity).
  assert (Eb : blend c <-> blend c') by (unfold blend; split; intros (t & V & O); exists t; (split; [now apply Ev|exact O])).
  intros (R1 & R2 & R3 & R4 & R5 & R6 & R7 & R8 & R9 & R10 & R11). unfold compliant. split; [|split; [|split; [|split; [|split; [|split; [|split; [|split; [|split; [|split]]]]]]]]].
  - intro Pb. apply Epb in Pb. destruct (R1 Pb) as (A & d & x & r & w & B & X & C). split; [exact A|]. exists d, x, r, w. split; [exact B|]. split; [now apply Hc|exact C].
  - intro Pp. apply Epc in Pp. destruct (R2 Pp) as (x & X & A & B & C). exists x. split; [now apply Hc|]. split; [exact A|]. split; [exact B|]. intros y Y. apply C. now apply Hc.
  - destruct R3 as (A & B & C & D). split; [intro H; exact (Hn (A H))|]. split; [intros H m M; apply (B H); now apply Hm|]. split; [intro H; destruct (C H) as [E|E]; [left; exact (Hn E)|right; exact (H1 _ E)]|]. intro H. destruct (D H) as [D1 D2]. split.
    + intros a I' O. destruct (D1 a I' O) as (m & M & E). exists m. split; [now apply Hm|exact E].
    + intros m M. apply Hm in M. destruct (D2 m M) as (E1 & E2). split; [|exact E2]. intro Rc. destruct (E1 Rc) as (F1 & F2 & F3). split; [exact F1|]. split; [intro T; destruct (F2 T) as (x & X & E); exists x; split; [now apply Hc|exact E]|]. intro Pb. apply Epb in Pb. destruct (F3 Pb) as (d & t & rest & G1 & G2). exists d, t, rest. split; [now apply Ed|exact G2].
  - destruct R4 as (A & B & C & D). split; [intros k v V; apply (A k v); now apply Ev|]. split; [intro H; apply Ed in H; destruct (B H) as [(v & V) (w & W)]; split; [exists v|exists w]; now apply Ev|]. split; [intro H; apply Ed in H; destruct (C H) as (v & V); exists v; now apply Ev|]. intros H k K. destruct (D H k K) as (v & V). exists v. now apply Ev.
  - intros H B. apply Eb in B. destruct (R5 H B) as (ids & runs & V1 & V2 & E). exists ids, runs. split; [now apply Ev|]. split; [now apply Ev|exact E].
  - intros H B id V. rewrite <- Eb in B. apply Ev in V. destruct (R6 H B id V) as (m & I' & E). exists m. split; [exact I'|]. intros t code m' T. apply E. now apply Ev.
  - intro H. apply Eh in H. destruct (R7 H) as (A & B & y & x & dy & dx & Fy & Fx & Dy & Dx & E). split; [intros t T; apply A; now apply Ev|]. split; [intros k K; apply Eh; now apply B|]. exists y, x, dy, dx. split; [now apply Hf|]. split; [now apply Hf|]. split; [exact Dy|]. split; [exact Dx|]. intros k K. apply E. now apply Hc.
  - intro H. destruct (R8 H) as [A B]. rewrite <- !Eh, <- Eb. tauto.
  - intros x b X. apply R9. now apply Hc.
  - exact R10.
  - intros H x id X E V. apply Ere in H. apply (R11 H x id); [now apply Hc|exact E|now apply Ev].
Qed.
Theorem C117_order c c' i : well_formed c -> c_name c = c_name c' -> c_units c = c_units c' -> c_standard c = c_standard c' -> Permutation (c_coords c) (c_coords c') -> Permutation (c_methods c) (c_methods c') -> Permutation (c_attributes c) (c_attributes c') ->
  ((exists j, run i c = Done j) <-> exists j, run i c' = Done j).
Proof.
  intros W En Eu Es Pc Pm Pa. assert (W' : well_formed c') by (destruct W as [W1 W2]; split; [exact (Permutation_NoDup (Permutation_map co_name Pc) W1)|exact (Permutation_NoDup (Permutation_map fst Pa) W2)]). rewrite (C117_verdict i c W), (C117_verdict i c' W'). unfold exempt. rewrite En.
  assert (Q : compliant c <-> compliant c'); [|tauto]. split; apply compliant_order; auto; now apply Permutation_sym.
Qed.
(** A used interpreter gives the verdict of a new one, so long as nothing it looked at was refused. *)
Theorem C117_reuse c c' i j : well_formed c -> well_formed c' -> run i c = Done j -> ((exists k, run j c' = Done k) <-> exempt c' \/ ((exempt c -> i_errors i = []) /\ exists k, run new_interp c' = Done k)).
Proof.
  intros W W' H. rewrite !(C117_verdict _ c' W'). destruct (in_dec string_dec (c_name c) intermediates) as [Ex|Ne].
  - assert (Ej : i_errors j = i_errors i). { unfold run in H. destruct (check_kind c i) as [[q [|]]|] eqn:K; [|exfalso; destruct (proj2 (kind_exempt c i) Ex) as (q' & E); congruence|discriminate]. injection H as <-. revert K. unfold check_kind. destruct (mem _ ancillaries); [discriminate|]. destruct (mem _ special_cases); [destruct (c_name c =? "weather_code"); [destruct (over_all _ _ _); discriminate|]; destruct (c_name c =? "wind_from_direction"); [discriminate|]; intro K; injection K as <-; reflexivity|]. intro K. exfalso. match type of K with (let* i := ?r in _) = _ => destruct r as [k|]; [|discriminate] end. cbn [bind] in K. destruct (check_methods c k); discriminate. } rewrite Ej. change (i_errors new_interp) with (@nil problem). change (exempt c) in Ex. intuition.
  - assert (Ej : i_errors j = []). { unfold run in H. destruct (check_kind c i) as [[q [|]]|] eqn:K; [exfalso; apply Ne; apply (kind_exempt c i); eauto| |discriminate]. destruct (check_rest c q) as [r|]; [|discriminate]. destruct (i_errors r) eqn:E; [|discriminate]. injection H as <-. exact E. } rewrite Ej. change (i_errors new_interp) with (@nil problem). change (~ exempt c) in Ne. intuition.
Qed.
(** There is always an account of a cube that is accepted, and its first line says what it is. *)
Theorem C117_display i c j : well_formed c -> run i c = Done j -> exists lines, display j = Some lines.
Proof.
  intros [N Na] H. unfold run in H. destruct (check_kind c i) as [[q [|]]|] eqn:K; [| |discriminate].
  - injection H as <-. assert (U : i_unhandled q = true). { revert K. unfold check_kind. destruct (mem _ ancillaries); [discriminate|]. destruct (mem _ special_cases); [destruct (c_name c =? "weather_code"); [destruct (over_all _ _ _); discriminate|]; destruct (c_name c =? "wind_from_direction"); [discriminate|]; intro K; injection K as <-; reflexivity|]. intro K. exfalso. match type of K with (let* i := ?r in _) = _ => destruct r as [k|]; [|discriminate] end. cbn [bind] in K. destruct (check_methods c k); discriminate. } unfold display. rewrite U. eauto.
  - assert (Ne : ~ exempt c). { intro Ex. apply (kind_exempt c i) in Ex as (j' & E). congruence. } destruct (check_rest c q) as [r|] eqn:Rq; [|discriminate]. destruct (i_errors r) eqn:E; [|discriminate]. injection H as <-. assert (Zq : i_errors q = []) by exact (rest_mono c N Na q r Rq E). assert (Sn : seen c q) by exact (kind_seen c N i q K Zq). destruct (rest_keeps c Na q r Ne Sn Rq) as (L & R1 & _ & _). unfold look in L. assert (L1 : i_field r = i_field q) by congruence. assert (L2 : i_diagnostic r = i_diagnostic q) by congruence.
    unfold display. destruct (i_unhandled r); [eauto|]. unfold standard_lines. rewrite L1, L2, R1. destruct Sn as (S1 & S2 & S3 & S4 & S5).
    destruct (kinds c Ne) as [Kd|[Kd|[Kd|[Kd|Kd]]]].
    + destruct (S1 Kd) as [-> ->]. cbn [text]. destruct (mem _ special_cases); [eauto|]. cbn [String.eqb]. eexists. reflexivity.
    + destruct (S2 Kd) as [-> ->]. cbn [text]. assert (M : mem (c_name c) special_cases = true) by (apply special_iff; tauto). rewrite M. eauto.
    + destruct (S3 Kd) as (-> & (d & _ & ->) & x & ->). cbn [text]. destruct (mem d special_cases); [eauto|]. cbn [option_map]. destruct ("probabilities" =? "probabilities"); eauto.
    + destruct (S4 Kd) as [-> ->]. cbn [text]. destruct (mem _ special_cases); eexists; reflexivity.
    + destruct (S5 Kd) as [-> ->]. cbn [text]. destruct (mem _ special_cases); eexists; reflexivity.
Qed.
Definition first_words (c : cube) (w : string) : Prop :=
  ancillary c /\ w = "ancillary file" \/ c_name c = "weather_code" /\ w = "weather code file" \/ c_name c = "wind_from_direction" /\ w = "wind from direction file"
  \/ probabilities c /\ w = "probabilities file" \/ percentiles c /\ w = "percentiles file" \/ realizations c /\ w = "file containing one or more realizations".
Theorem C117_first_line c j : well_formed c -> ~ exempt c -> run new_interp c = Done j ->
  exists place what rest, display j = Some (("This is a " ++ place ++ what) :: rest) /\ first_words c what /\ (place = "spot " /\ has c "spot_index" \/ place = "gridded " /\ ~ has c "spot_index").
Proof.
  intros [N Na] Ne H. unfold run in H. destruct (check_kind c new_interp) as [[q [|]]|] eqn:K; [exfalso; apply Ne, (kind_exempt c new_interp); eauto| |discriminate].
  destruct (check_rest c q) as [r|] eqn:Rq; [|discriminate]. destruct (i_errors r) eqn:E; [|discriminate]. injection H as <-. assert (Zq : i_errors q = []) by exact (rest_mono c N Na q r Rq E). assert (Sn : seen c q) by exact (kind_seen c N new_interp q K Zq). destruct (rest_keeps c Na q r Ne Sn Rq) as (L & R1 & R2 & R3). unfold look in L. assert (L1 : i_field r = i_field q) by congruence. assert (L2 : i_diagnostic r = i_diagnostic q) by congruence. apply flags_kind in K. unfold flags in K. cbn in K. assert (K1 : i_spot q = false) by congruence. assert (K2 : i_unhandled r = false) by congruence. specialize (R3 K1).
  assert (Pl : (if i_spot r then "spot " else "gridded ") = "spot " /\ has c "spot_index" \/ (if i_spot r then "spot " else "gridded ") = "gridded " /\ ~ has c "spot_index"). { destruct (i_spot r); [left; split; [reflexivity|now apply R3]|right; split; [reflexivity|]]. intro Q. apply R3 in Q. discriminate. }
  unfold display. rewrite K2. unfold standard_lines. rewrite L1, L2, R1. destruct Sn as (S1 & S2 & S3 & S4 & S5). unfold first_words.
  destruct (kinds c Ne) as [Kd|[Kd|[Kd|[Kd|Kd]]]].
  - destruct (S1 Kd) as [-> ->]. cbn [text]. assert (M : mem (c_name c) special_cases = true) by (apply special_iff; tauto). rewrite M. eexists _, "ancillary file", _. split; [reflexivity|]. split; [auto|exact Pl].
  - destruct (S2 Kd) as [-> ->]. cbn [text]. assert (M : mem (c_name c) special_cases = true) by (apply special_iff; tauto). rewrite M. destruct Kd as [Kd|Kd]; rewrite Kd; [eexists _, "weather code file", _|eexists _, "wind from direction file", _]; (split; [reflexivity|]); (split; [tauto|exact Pl]).
  - destruct (S3 Kd) as (-> & (d & _ & ->) & x & ->). cbn [text]. destruct (mem d special_cases); eexists _, "probabilities file", _; (split; [reflexivity|]); (split; [tauto|exact Pl]).
  - destruct (S4 Kd) as [-> ->]. cbn [text]. destruct (mem _ special_cases); eexists _, "percentiles file", _; (split; [reflexivity|]); (split; [tauto|exact Pl]).
  - destruct (S5 Kd) as [-> ->]. cbn [text]. destruct (mem _ special_cases); eexists _, "file containing one or more realizations", _; (split; [reflexivity|]); (split; [tauto|exact Pl]).
Qed.
(** The command: an account for each cube that is accepted, and failure just when there is a cube that is not; it stops early only for something other than a ValueError. *)
Theorem C117_command l : (forall c, In c l -> well_formed c) ->
  match interpret_all l with
  | Ok (out, failed) => Forall2 (fun c o => o <> None <-> exempt c \/ compliant c) l out /\ (failed = true <-> exists c, In c l /\ ~ exempt c /\ ~ compliant c)
  | Err e => e <> ValueError /\ exists c, In c l /\ ~ exempt c /\ ~ compliant c /\ run new_interp c = Raised e
  end.
Proof.
  induction l as [|c l IH]; intro W; cbn [interpret_all]; [split; [constructor|split; [discriminate|intros (c & [] & _)]]|].
  assert (Wc : well_formed c) by (apply W; now left). specialize (IH (fun x X => W x (or_intror X))). pose proof (C117_verdict new_interp c Wc) as V. change (i_errors new_interp) with (@nil problem) in V.
  assert (No : (forall j, run new_interp c <> Done j) -> ~ exempt c /\ ~ compliant c). { intro Q. split; intro X; destruct (proj2 V) as (j & E); auto; exact (Q j E). }
  assert (Bad : (forall j, run new_interp c <> Done j) -> match (let* (out, _) := interpret_all l in Ok (None :: out, true)) with Ok (out, failed) => Forall2 (fun c o => o <> None <-> exempt c \/ compliant c) (c :: l) out /\ (failed = true <-> exists x, In x (c :: l) /\ ~ exempt x /\ ~ compliant x) | Err e => e <> ValueError /\ exists x, In x (c :: l) /\ ~ exempt x /\ ~ compliant x /\ run new_interp x = Raised e end).
  { intro Q. destruct (No Q) as [Q1 Q2]. destruct (interpret_all l) as [[out failed]|e]; cbn [bind].
    - destruct IH as [F _]. split; [constructor; [split; [congruence|tauto]|exact F]|]. split; [intros _; exists c; split; [now left|auto]|reflexivity].
    - destruct IH as (A & x & X & B). split; [exact A|]. exists x. split; [now right|exact B]. }
  destruct (run new_interp c) as [j|j|e] eqn:Rn.
  - destruct (C117_display new_interp c j Wc Rn) as (lines & ->). assert (Gd : exempt c \/ compliant c) by (destruct (proj1 V) as [X|[_ X]]; eauto). destruct (interpret_all l) as [[out failed]|e]; cbn [bind].
    + destruct IH as [F G]. split; [constructor; [split; [auto|discriminate]|exact F]|]. rewrite G. split; [intros (x & X & B); exists x; split; [now right|exact B]|]. intros (x & [<-|X] & B); [tauto|eauto].
    + destruct IH as (A & x & X & B). split; [exact A|]. exists x. split; [now right|exact B].
  - apply Bad. congruence.
  - assert (Q : forall j, Raised e <> Done j) by congruence. destruct e; try (split; [discriminate|]; exists c; split; [now left|]; destruct (No Q) as [Q1 Q2]; auto). apply Bad. exact Q.
Qed.
(** ** Cases *)
Definition simple (n : string) (b : option (list (Z * Z))) : coordinate := {| co_name := n; co_var := None; co_relative := None; co_units := "1"; co_axis := None; co_dims := []; co_points := [3600%Z]; co_bounds := b |}.
Definition threshold_of (n r : string) : coordinate := {| co_name := n; co_var := Some "threshold"; co_relative := Some r; co_units := "m"; co_axis := None; co_dims := [0%nat]; co_points := [1%Z; 2%Z]; co_bounds := None |}.
Definition times := [simple "time" (Some [(0%Z, 3600%Z)]); simple "forecast_period" None; simple "forecast_reference_time" None].
Definition max_over_time (comment : string) : cell_method := {| cm_method := "maximum"; cm_coords := ["time"]; cm_intervals := []; cm_comments := [comment] |}.
Definition usual (t : string) : list (string * string) := [("title", t); ("source", "IMPROVER"); ("institution", "Met Office"); ("mosg__model_configuration", "uk_ens")].
Definition gusts (units title : string) : cube := {| c_name := "probability_of_wind_speed_above_threshold"; c_units := units; c_coords := threshold_of "wind_speed" "greater_than" :: times; c_methods := [max_over_time "of wind_speed"]; c_attributes := usual title; c_standard := true |}.
Definition accepted (o : outcome) : bool := match o with Done _ => true | _ => false end.
Lemma accepted_iff o : accepted o = true -> exists j, o = Done j.
Proof. destruct o; [eauto|discriminate|discriminate]. Qed.
Lemma collated_errors i c j : run i c = Collated j -> i_errors j <> [].
Proof. unfold run. destruct (check_kind c i) as [[q [|]]|]; [discriminate| |discriminate]. destruct (check_rest c q) as [r|]; [|discriminate]. destruct (i_errors r) eqn:Z; [discriminate|]. intro E. injection E as <-. congruence. Qed.
Lemma shaped c : (if list_eq_dec string_dec (nodup string_dec (map co_name (c_coords c))) (map co_name (c_coords c)) then if list_eq_dec string_dec (nodup string_dec (map fst (c_attributes c))) (map fst (c_attributes c)) then true else false else false) = true -> well_formed c.
Proof. destruct (list_eq_dec _ _ _) as [A|]; [|discriminate]. destruct (list_eq_dec _ _ _) as [B|]; [|discriminate]. intros _. split; [rewrite <- A|rewrite <- B]; apply NoDup_nodup. Qed.
Example C117_case : well_formed (gusts "1" "MOGREPS-UK Model Forecast on UK 2 km Standard Grid") /\ compliant (gusts "1" "MOGREPS-UK Model Forecast on UK 2 km Standard Grid")
  /\ interpret_all [gusts "1" "MOGREPS-UK Model Forecast on UK 2 km Standard Grid"; gusts "m s-1" "UKV Model Forecast on UK 2 km Standard Grid"]
     = Ok ([Some ["This is a gridded probabilities file"; "It contains probabilities of wind speed greater than thresholds"; "These probabilities are of wind speed maximum over time"; "It has undergone no significant post-processing"; "It contains data from MOGREPS-UK"]; None], true).
Proof.
  assert (W : well_formed (gusts "1" "MOGREPS-UK Model Forecast on UK 2 km Standard Grid")) by (apply shaped; reflexivity). split; [exact W|]. split; [|vm_compute; reflexivity].
  assert (V : exists j, run new_interp (gusts "1" "MOGREPS-UK Model Forecast on UK 2 km Standard Grid") = Done j) by (apply accepted_iff; vm_compute; reflexivity). apply (C117_verdict _ _ W) in V as [V|[_ V]]; [|exact V]. exfalso. revert V. unfold exempt. rewrite <- mem_iff. discriminate.
Qed.
(** "UKV Model" in a title of another model is found; so is a deterministic model with two realizations. *)
Example C117_title_case : match run new_interp (gusts "m s-1" "UKV Model Forecast on UK 2 km Standard Grid") with Collated j => i_errors j = [ProbabilityUnits; TitleModel "uk_det"] | _ => False end.
Proof. vm_compute. reflexivity. Qed.
(** After a cube that is refused, an interpreter refuses a compliant one, so one is needed for each cube. *)
Theorem C117_reuse_refuted : exists bad good j, well_formed bad /\ well_formed good /\ compliant good /\ run new_interp bad = Collated j /\ forall k, run j good <> Done k.
Proof.
  destruct C117_case as (W & Cm & _). assert (Wb : well_formed (gusts "m s-1" "UKV Model")) by (apply shaped; reflexivity). destruct (run new_interp (gusts "m s-1" "UKV Model")) as [j|j|e] eqn:E.
  - exfalso. assert (A : accepted (run new_interp (gusts "m s-1" "UKV Model")) = false) by (vm_compute; reflexivity). rewrite E in A. discriminate.
  - exists (gusts "m s-1" "UKV Model"), (gusts "1" "MOGREPS-UK Model Forecast on UK 2 km Standard Grid"), j. split; [exact Wb|]. split; [exact W|]. split; [exact Cm|]. split; [exact E|]. intros k F. assert (Q : exists k, run j (gusts "1" "MOGREPS-UK Model Forecast on UK 2 km Standard Grid") = Done k) by eauto. apply (C117_verdict _ _ W) in Q as [Q|[Q _]].
    + revert Q. unfold exempt. rewrite <- mem_iff. discriminate.
    + exact (collated_errors _ _ _ E Q).
  - exfalso. assert (A : match run new_interp (gusts "m s-1" "UKV Model") with Raised _ => true | _ => false end = false) by (vm_compute; reflexivity). rewrite E in A. discriminate.
Qed.
(** The word of the comparison is looked for anywhere in the name: a name that says below, of something above ground, is let through as greater than. *)
Definition misnamed : cube := {| c_name := "probability_of_height_above_ground_below_threshold"; c_units := "1"; c_coords := threshold_of "height_above_ground" "greater_than" :: times; c_methods := []; c_attributes := usual "MOGREPS-UK Model"; c_standard := true |}.
Theorem C117_relation_refuted : ~ forall c d x, well_formed c -> compliant c -> probabilities c -> c_name c = "probability_of_" ++ d ++ "_below_threshold" -> In x (c_coords c) -> is_threshold x -> co_relative x <> Some "greater_than".
Proof.
  intro H. assert (W : well_formed misnamed) by (apply shaped; reflexivity). assert (V : exists j, run new_interp misnamed = Done j) by (apply accepted_iff; vm_compute; reflexivity). apply (C117_verdict _ _ W) in V as [V|[_ V]]; [revert V; unfold exempt; rewrite <- mem_iff; discriminate|].
  apply (H misnamed "height_above_ground" (threshold_of "height_above_ground" "greater_than")); auto; [|now left|reflexivity]. split; [|left; split; apply contains_occurs; reflexivity]. unfold standard, ancillary, exempt. rewrite <- !mem_iff. repeat split; discriminate.
Qed.
(** The comment of a method need only begin as it should. *)
Definition of_another : cube := {| c_name := "probability_of_wind_speed_above_threshold"; c_units := "1"; c_coords := threshold_of "wind_speed" "greater_than" :: times; c_methods := [max_over_time "of wind_speed_of_gust"]; c_attributes := usual "MOGREPS-UK Model"; c_standard := true |}.
Theorem C117_comment_refuted : exists j, run new_interp of_another = Done j.
Proof. apply accepted_iff. vm_compute. reflexivity. Qed.
(** Three sorts of wrong metadata that are not collated but stop the command: a model of a blend with no record of a run; a method over time without time; a method over nothing. *)
Definition blended (runs : string) : cube := {| c_name := "air_temperature"; c_units := "K"; c_coords := [simple "time" None; simple "blend_time" None]; c_methods := []; c_attributes := [("title", "IMPROVER Post-Processed Multi-Model Blend on UK 2 km Standard Grid"); ("source", "IMPROVER"); ("institution", "Met Office"); ("mosg__model_configuration", "uk_det uk_ens"); ("mosg__model_run", runs)]; c_standard := true |}.
Definition with_methods (m : cell_method) (cs : list coordinate) : cube := {| c_name := "air_temperature"; c_units := "K"; c_coords := cs; c_methods := [m]; c_attributes := usual "MOGREPS-UK Model"; c_standard := true |}.
Example C117_blend_case : match run new_interp (blended ("uk_det:20240101T0300Z:0.500" ++ String newline "uk_ens:20240101T0000Z:0.500")) with Done j => i_model j = Some "UKV (cycle: 20240101T0300Z), MOGREPS-UK (cycle: 20240101T0000Z)" | _ => False end.
Proof. vm_compute. reflexivity. Qed.
Theorem C117_collated_refuted : ~ forall c e, well_formed c -> run new_interp c = Raised e -> e = ValueError.
Proof. intro H. assert (Q : KeyError = ValueError); [|discriminate]. apply (H (blended "uk_det:20240101T0300Z:1.000")); [apply shaped; reflexivity|vm_compute; reflexivity]. Qed.
Example C117_stops_case : interpret_all [blended "uk_det:20240101T0300Z:1.000"; gusts "m s-1" "UKV Model"] = Err KeyError
  /\ interpret_all [with_methods (max_over_time "") [simple "forecast_period" None]] = Err CoordinateNotFoundError
  /\ interpret_all [with_methods {| cm_method := "sum"; cm_coords := []; cm_intervals := []; cm_comments := [] |} times] = Err IndexError
  /\ run new_interp (blended "uk_det:20240101T0300Z") = Raised ValueError.
Proof. repeat split; vm_compute; reflexivity. Qed.

Print Assumptions C117_verdict.
Print Assumptions C117_order.
Print Assumptions C117_reuse.
Print Assumptions C117_display.
Print Assumptions C117_first_line.
Print Assumptions C117_command.
Print Assumptions C117_reuse_refuted.
Print Assumptions C117_relation_refuted.
Print Assumptions C117_comment_refuted.
Print Assumptions C117_collated_refuted.
