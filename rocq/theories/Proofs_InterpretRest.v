(** More lemmas for C117: kinds of cube, attributes, coordinates. *)
From Coq Require Import Ascii String.
From Verif Require Import Base Model_Records Model_Attributes Model_Interpret Props_Naming Spec_Interpret Proofs_Interpret.
Local Open Scope string_scope.

Ltac strings := repeat match goal with |- match ?s with EmptyString => _ | String _ _ => _ end = _ => destruct s; try reflexivity | |- (if ?b then _ else _) = _ => destruct b; try reflexivity | |- (let (_, _, _, _, _, _, _, _) := ?a in _) = _ => destruct a; try reflexivity end.
Definition field_is (s : string) (f : option string) : bool := match f with Some x => x =? s | None => false end.
Lemma match_ancillary {A} (f : option string) (a b : A) : match f with Some "ancillary" => a | _ => b end = if field_is "ancillary" f then a else b.
Proof. unfold field_is. destruct f as [f|]; [|reflexivity]. destruct (String.eqb_spec f "ancillary") as [->|D]; [reflexivity|]. strings. congruence. Qed.
Lemma match_realizations {A} (f : option string) (a b : A) : match f with Some "realizations" => a | _ => b end = if field_is "realizations" f then a else b.
Proof. unfold field_is. destruct f as [f|]; [|reflexivity]. destruct (String.eqb_spec f "realizations") as [->|D]; [reflexivity|]. strings. congruence. Qed.
Lemma match_own d : diagnostic_attributes (Some d) = if d =? "weather_code" then ["weather_code"; "weather_code_meaning"] else if d =? "wind_gust" then ["wind_gust_diagnostic"] else [].
Proof. unfold diagnostic_attributes. destruct (String.eqb_spec d "weather_code") as [->|D]; [reflexivity|]. destruct (String.eqb_spec d "wind_gust") as [->|D']; [reflexivity|]. strings; congruence. Qed.

Section cube.
Variable c : cube.
Hypothesis N : NoDup (map co_name (c_coords c)).
Hypothesis Na : NoDup (map fst (c_attributes c)).

(** ** Kinds *)
Lemma exclusive : (ancillary c -> ~ exempt c /\ c_name c <> "weather_code" /\ c_name c <> "wind_from_direction") /\ (exempt c -> ~ ancillary c /\ c_name c <> "weather_code" /\ c_name c <> "wind_from_direction") /\ (c_name c = "weather_code" -> ~ ancillary c /\ ~ exempt c /\ c_name c <> "wind_from_direction") /\ (c_name c = "wind_from_direction" -> ~ ancillary c /\ ~ exempt c /\ c_name c <> "weather_code").
Proof.
  unfold ancillary, exempt. assert (D : forall s, In s ancillaries -> ~ In s intermediates). { intros s A B. assert (C : forallb (fun s => negb (mem s intermediates)) ancillaries = true) by reflexivity. rewrite forallb_forall in C. specialize (C s A). apply negb_true_iff in C. apply mem_not in C. contradiction. }
  assert (W : ~ In "weather_code" ancillaries /\ ~ In "weather_code" intermediates /\ ~ In "wind_from_direction" ancillaries /\ ~ In "wind_from_direction" intermediates) by (repeat split; apply mem_not; reflexivity). destruct W as (W1 & W2 & W3 & W4).
  split; [|split; [|split]].
  - intro H. split; [now apply D|]. split; intro E; rewrite E in H; contradiction.
  - intro H. split; [intro A; exact (D _ A H)|]. split; intro E; rewrite E in H; contradiction.
  - intros ->. split; [exact W1|]. split; [exact W2|discriminate].
  - intros ->. split; [exact W3|]. split; [exact W4|discriminate].
Qed.
Lemma special_iff : mem (c_name c) special_cases = true <-> c_name c = "weather_code" \/ c_name c = "wind_from_direction" \/ exempt c \/ ancillary c.
Proof. rewrite mem_iff. unfold special_cases, exempt, ancillary. cbn [In]. rewrite in_app_iff. split; intros [H|[H|H]]; auto. Qed.

(** What the first check leaves for the others. *)
Definition seen (j : interp) : Prop :=
  (ancillary c -> i_field j = Some "ancillary" /\ i_diagnostic j = Some (c_name c)) /\
  (c_name c = "weather_code" \/ c_name c = "wind_from_direction" -> i_field j = Some (c_name c) /\ i_diagnostic j = Some (c_name c)) /\
  (probabilities c -> i_field j = Some "probabilities" /\ (exists d, extract_diagnostic_name (c_name c) false = Ok d /\ i_diagnostic j = Some d) /\ exists r, i_relative j = Some r) /\
  (percentiles c -> i_field j = Some "percentiles" /\ i_diagnostic j = Some (c_name c)) /\
  (realizations c -> i_field j = Some "realizations" /\ i_diagnostic j = Some (c_name c)).
Definition kind_rules : Prop := probability_rule c /\ percentile_rule c /\ method_rule c.
Lemma not_standard : ancillary c \/ exempt c \/ c_name c = "weather_code" \/ c_name c = "wind_from_direction" -> ~ standard c.
Proof. unfold standard. tauto. Qed.
Lemma no_kind : ~ standard c -> ~ probabilities c /\ ~ percentiles c /\ ~ realizations c.
Proof. unfold probabilities, percentiles, realizations. tauto. Qed.
Lemma categories_ok l : forall i, passes (over_all check_category l i) <-> i_errors i = [] /\ forall m, In m l -> mode_over "1 hour" m \/ mode_over "3 hour" m.
Proof.
  assert (M : forall m h, is_mode m h = true <-> mode_over (h ++ " hour") m). { intros [a b e f] h. unfold is_mode, mode_over. cbn [cm_method cm_coords cm_intervals cm_comments]. rewrite andb_true_iff, String.eqb_eq. destruct b as [|x [|? ?]], e as [|y [|? ?]], f; try (split; [intros [_ H]; discriminate|intro H; discriminate]). rewrite andb_true_iff, !String.eqb_eq. split; [intros (-> & -> & ->); reflexivity|]. intro H. injection H as -> -> ->. auto. }
  induction l as [|m l IH]; intro i; cbn [over_all]; [rewrite passes_ok; split; [intro H; split; [exact H|intros m []]|tauto]|]. rewrite passes_bind. unfold check_category. pose proof (M m "1") as M1. pose proof (M m "3") as M3. destruct (is_mode m "1"); [|destruct (is_mode m "3")].
  - split; [intros (j & E & P); apply Ok_inj in E; subst j; rewrite IH in P; destruct P as [A B]; split; [exact A|]; intros m' [<-|I']; [left; now apply M1|auto]|]. intros [A B]. eexists. split; [reflexivity|]. rewrite IH. split; [exact A|]. intros m' I'. apply B. now right.
  - split; [intros (j & E & P); apply Ok_inj in E; subst j; rewrite IH in P; destruct P as [A B]; split; [exact A|]; intros m' [<-|I']; [right; now apply M3|auto]|]. intros [A B]. eexists. split; [reflexivity|]. rewrite IH. split; [exact A|]. intros m' I'. apply B. now right.
  - split; [intros (j & E & P); apply Ok_inj in E; subst j; rewrite IH, err_not in P; tauto|]. intros [A B]. destruct (B m (or_introl eq_refl)) as [H|H]; [apply M1 in H|apply M3 in H]; discriminate.
Qed.
Lemma categories_look l : forall i j, over_all check_category l i = Ok j -> look j = look i.
Proof. induction l as [|m l IH]; intros i j; cbn [over_all]; [intro H; apply Ok_inj in H; now subst|]. unfold check_category. destruct (is_mode m "1"); [|destruct (is_mode m "3")]; cbn [bind]; intro H; now rewrite (IH _ _ H). Qed.

Lemma coords_all : exists ts, mapM (fun k => coord k c) (names c) = Ok ts /\ forall x, In x ts <-> In x (c_coords c).
Proof.
  assert (H : forall l, incl l (c_coords c) -> mapM (fun k => coord k c) (map co_name l) = Ok l).
  { induction l as [|x l IH]; intro I'; [reflexivity|]. cbn [map mapM]. rewrite (proj2 (coord_ok (co_name x) c x N)) by (split; [apply I'; now left|reflexivity]). cbn [bind]. rewrite IH by (intros y Y; apply I'; now right). reflexivity. }
  exists (c_coords c). split; [apply H, incl_refl|reflexivity].
Qed.
Lemma thresholds_iff ts : (forall x, In x ts <-> In x (c_coords c)) -> (existsb has_threshold_var ts = true <-> exists x, In x (c_coords c) /\ is_threshold x).
Proof. intro E. rewrite existsb_exists. split; intros (x & A & B); exists x; (split; [now apply E|now apply var_iff]). Qed.

Lemma kind_ok i : (exists j, check_kind c i = Ok (j, false) /\ i_errors j = []) <-> ~ exempt c /\ i_errors i = [] /\ kind_rules.
Proof.
  unfold check_kind, kind_rules. destruct exclusive as (X1 & X2 & X3 & X4).
  destruct (mem (c_name c) ancillaries) eqn:A.
  { apply mem_iff in A. change (ancillary c) in A. destruct (X1 A) as (X & Y & Z). pose proof (not_standard (or_introl A)) as NS. destruct (no_kind NS) as (P1 & P2 & _). split.
    - intros (j & E & H). injection E as <-. apply err_if_nil in H as [H M]. cbn in H. split; [exact X|]. split; [exact H|]. split; [intro; contradiction|]. split; [intro; contradiction|]. split; [intros _; destruct (c_methods c); [reflexivity|discriminate]|]. split; [intro; contradiction|]. split; intro; contradiction.
    - intros (_ & H & _ & _ & M & _). eexists. split; [reflexivity|]. apply err_if_nil. split; [exact H|]. rewrite (M A). reflexivity. }
  apply mem_not in A. change (~ ancillary c) in A. destruct (mem (c_name c) special_cases) eqn:Sp.
  { apply special_iff in Sp. destruct (String.eqb_spec (c_name c) "weather_code") as [Ew|Ew].
    { pose proof (not_standard (or_intror (or_intror (or_introl Ew)))) as NS. destruct (no_kind NS) as (P1 & P2 & _). destruct (X3 Ew) as (_ & X & Y). split.
      - intros (j & E & H). destruct (over_all check_category (c_methods c) _) as [k|] eqn:O; [|discriminate]. cbn [bind] in E. injection E as <-. assert (P : passes (over_all check_category (c_methods c) (set_field (Some (c_name c)) (Some (c_name c)) i))) by (exists k; auto). apply categories_ok in P as [B M]. split; [exact X|]. split; [exact B|]. split; [intro; contradiction|]. split; [intro; contradiction|]. split; [intro; contradiction|]. split; [intros _; exact M|]. split; intro; contradiction.
      - intros (_ & H & _ & _ & _ & M & _). assert (P : passes (over_all check_category (c_methods c) (set_field (Some (c_name c)) (Some (c_name c)) i))) by (apply categories_ok; auto). destruct P as (k & -> & Z). cbn [bind]. eauto. }
    destruct (String.eqb_spec (c_name c) "wind_from_direction") as [Ed|Ed].
    { pose proof (not_standard (or_intror (or_intror (or_intror Ed)))) as NS. destruct (no_kind NS) as (P1 & P2 & _). destruct (X4 Ed) as (_ & X & Y).
      assert (M : (match c_methods c with [] => false | [m] => negb (is_mean_of_realizations m) | _ => true end) = false <-> c_methods c = [] \/ c_methods c = [mean_over "realization"]).
      { destruct (c_methods c) as [|m [|m' r]]; [split; auto| |split; [discriminate|intros [H|H]; discriminate]]. rewrite negb_false_iff. destruct m as [a b e f]. unfold is_mean_of_realizations, mean_over. cbn [cm_method cm_coords cm_intervals cm_comments]. rewrite andb_true_iff, String.eqb_eq. destruct b as [|x [|? ?]], e, f; try (split; [intros [_ H]; discriminate|intros [H|H]; discriminate]). rewrite String.eqb_eq. split; [intros [-> ->]; auto|]. intros [H|H]; [discriminate|]. injection H as -> ->. auto. }
      split.
      - intros (j & E & H). injection E as <-. apply err_if_nil in H as [H Z]. apply M in Z. split; [exact X|]. split; [exact H|]. split; [intro; contradiction|]. split; [intro; contradiction|]. split; [intro; contradiction|]. split; [intro; contradiction|]. split; [intros _; exact Z|intro; contradiction].
      - intros (_ & H & _ & _ & _ & _ & Z & _). eexists. split; [reflexivity|]. apply err_if_nil. split; [exact H|]. apply M. now apply Z. }
    split; [intros (j & E & _); discriminate|]. intros [H _]. tauto. }
  assert (St : standard c). { assert (~ (c_name c = "weather_code" \/ c_name c = "wind_from_direction" \/ exempt c \/ ancillary c)) by (rewrite <- special_iff; congruence). unfold standard. tauto. }
  assert (Ne : ~ exempt c) by (unfold standard in St; tauto). assert (Nw : c_name c <> "weather_code" /\ c_name c <> "wind_from_direction") by (unfold standard in St; tauto).
  assert (MR : forall prob d, (probabilities c <-> prob = true) -> (forall x, diagnostic c x <-> x = d) -> (method_rule c <-> (forall a, In a accumulations -> occurs a (c_name c) -> exists m, In m (c_methods c) /\ sum_over_time m) /\ forall m, In m (c_methods c) -> fine_method c prob (Some d) m)).
  { intros prob d Hp Hd. unfold method_rule. split.
    - intros (_ & _ & _ & M). destruct (M St) as [M1 M2]. split; [exact M1|]. intros m I'. destruct (M2 m I') as (F1 & F2). split; [|exact F2]. intro R. destruct (F1 R) as (G1 & G2 & G3). split; [exact G1|]. split; [exact G2|]. intro Q. apply Hp in Q. destruct (G3 Q) as (d' & t & rest & D & E & more). apply Hd in D. subst d'. exists t, rest. auto.
    - intros [M1 M2]. split; [intro; contradiction|]. split; [intro; tauto|]. split; [intro; tauto|]. intros _. split; [exact M1|]. intros m I'. destruct (M2 m I') as (F1 & F2). split; [|exact F2]. intro R. destruct (F1 R) as (G1 & G2 & G3). split; [exact G1|]. split; [exact G2|]. intro Q. apply Hp in Q. destruct (G3 Q) as (t & rest & E & more). exists d, t, rest. split; [now apply Hd|]. auto. }
  assert (PR : probabilities c -> (probability_rule c <-> is_probability c)) by (intro Q; unfold probability_rule, is_probability; tauto).
  assert (Bd : forall (r : result interp) (P : Prop), (exists j, (let* i := r in let* i := check_methods c i in Ok (i, false)) = Ok (j, false) /\ i_errors j = []) <-> exists k, r = Ok k /\ passes (check_methods c k)).
  { intros r _. split.
    - intros (j & E & H). destruct r as [k|]; [|discriminate]. cbn [bind] in E. destruct (check_methods c k) as [l|] eqn:M; [|discriminate]. cbn [bind] in E. injection E as <-. exists k. split; [reflexivity|]. exists l. auto.
    - intros (k & -> & l & M & H). cbn [bind]. rewrite M. cbn [bind]. eauto. }
  (* probabilities, however found *)
  assert (Prob : forall k, probabilities c -> i_errors k = i_errors i -> i_field k = Some "probabilities" -> (exists j, (let* i := check_probability c k in let* i := check_methods c i in Ok (i, false)) = Ok (j, false) /\ i_errors j = []) <-> i_errors i = [] /\ probability_rule c /\ percentile_rule c /\ method_rule c).
  { intros k Pb Ek Fk. rewrite (Bd _ True). assert (Np : ~ percentiles c). { intros (_ & P1 & P2). destruct Pb as (_ & [P|[P _]]); [contradiction|]. apply P. unfold percentiles. tauto. } rewrite (PR Pb).
    assert (Dg : forall d, extract_diagnostic_name (c_name c) false = Ok d -> forall x, diagnostic c x <-> x = d). { intros d E x. unfold diagnostic. split; [intros [[_ H]|[H _]]; [congruence|contradiction]|]. intros ->. left. auto. }
    split.
    - intros (j & E & P). apply (methods_ok c N) in P as (Z & M1 & M2). assert (P : passes (check_probability c k)) by (exists j; auto). apply (probability_ok c N) in P as [P1 P2]. destruct (probability_look c k j E Z) as (L1 & (d & L2 & L3) & _). split; [congruence|]. split; [exact P2|]. split; [intro; contradiction|]. apply (MR true d); [tauto|now apply Dg|]. split; [exact M1|]. unfold prob_field in M2. rewrite L1, Fk, L3 in M2. exact M2.
    - intros (Z & P & _ & M). assert (Q : passes (check_probability c k)) by (apply (probability_ok c N); split; [congruence|exact P]). destruct Q as (j & E & Zj). exists j. split; [exact E|]. destruct (probability_look c k j E Zj) as (L1 & (d & L2 & L3) & _). apply (methods_ok c N). apply (MR true d) in M as [M1 M2]; [|tauto|now apply Dg]. split; [exact Zj|]. split; [exact M1|]. unfold prob_field. rewrite L1, Fk, L3. exact M2. }
  destruct (contains "probability" (c_name c) && contains "threshold" (c_name c)) eqn:Np.
  { apply andb_true_iff in Np as [Q1 Q2]. apply contains_occurs in Q1, Q2. assert (Pb : probabilities c) by (split; [exact St|]; left; split; assumption). match goal with |- context [check_probability c ?k] => rewrite (Prob k Pb eq_refl eq_refl) end. tauto. }
  assert (Nn : ~ named_probability c). { intros [Q1 Q2]. apply contains_occurs in Q1, Q2. rewrite Q1, Q2 in Np. discriminate. }
  unfold find_percentile. set (l := filter (fun x => contains "percentile" (co_name x)) (c_coords c)). assert (L : forall x, In x l <-> In x (c_coords c) /\ is_percentile x) by (intro x; unfold l; rewrite filter_In, contains_occurs; reflexivity).
  assert (Pc : percentiles c <-> l <> []). { unfold percentiles. split; [intros (_ & _ & x & X & P) E; assert (I' : In x l) by (apply L; auto); rewrite E in I'; destruct I'|]. intro E. split; [exact St|]. split; [exact Nn|]. destruct l as [|x r]; [congruence|]. exists x. apply L. now left. }
  destruct l as [|p [|q r]] eqn:El.
  - cbn [bind]. assert (Npc : ~ percentiles c) by (rewrite Pc; congruence). destruct coords_all as (ts & -> & Ts). cbn [bind]. destruct (existsb has_threshold_var ts) eqn:Th.
    + apply (thresholds_iff ts Ts) in Th. assert (Pb : probabilities c) by (split; [exact St|]; right; auto). match goal with |- context [check_probability c ?k] => rewrite (Prob k Pb eq_refl eq_refl) end. tauto.
    + assert (Npb : ~ probabilities c). { intros (_ & [H|[_ H]]); [contradiction|]. apply (thresholds_iff ts Ts) in H. congruence. }
      cbn [bind]. assert (Dg : forall x, diagnostic c x <-> x = c_name c) by (intro x; unfold diagnostic; split; [intros [[H _]|[_ H]]; [contradiction|congruence]|intros ->; right; auto]).
      assert (Hf : probabilities c <-> false = true) by (split; [intro; contradiction|discriminate]). rewrite (MR false (c_name c) Hf Dg).
      match goal with |- context [check_methods c ?k] => pose proof (methods_ok c N k) as Mk; set (k0 := k) in * end. change (i_errors k0) with (i_errors i) in Mk. change (prob_field k0) with false in Mk. change (i_diagnostic k0) with (Some (c_name c)) in Mk. split.
      * intros (j & E & H). destruct (check_methods c k0) as [k|] eqn:M; [|discriminate]. cbn [bind] in E. injection E as <-. assert (P : passes (Ok k)) by (now apply passes_ok). apply Mk in P. unfold probability_rule, percentile_rule. tauto.
      * intros (_ & Z & _ & _ & M). destruct (proj2 Mk (conj Z M)) as (k & -> & Zk). cbn [bind]. eauto.
  - cbn [bind]. assert (Hpc : percentiles c) by (apply Pc; discriminate). assert (Npb : ~ probabilities c) by (intros (_ & [H|[H _]]); contradiction).
    assert (Dg : forall x, diagnostic c x <-> x = c_name c) by (intro x; unfold diagnostic; split; [intros [[H _]|[_ H]]; [contradiction|congruence]|intros ->; right; auto]).
    assert (R : percentile_rule c <-> co_name p = "percentile" /\ co_units p = "%").
    { unfold percentile_rule. destruct (proj1 (L p) (or_introl eq_refl)) as [Lp1 Lp2]. split.
      - intro H. destruct (H Hpc) as (x & _ & U2 & U3 & U4). rewrite (U4 p Lp1 Lp2). auto.
      - intros [E1 E2] _. exists p. split; [exact Lp1|]. split; [exact E1|]. split; [exact E2|]. intros y Y P. destruct (proj2 (L y) (conj Y P)) as [H|[]]; auto. }
    assert (Hf : probabilities c <-> false = true) by (split; [intro; contradiction|discriminate]). rewrite R, (MR false (c_name c) Hf Dg).
    match goal with |- context [check_methods c ?k] => pose proof (methods_ok c N k) as Mk; set (k0 := k) in * end.
    assert (F : prob_field k0 = false /\ i_diagnostic k0 = Some (c_name c)). { unfold k0. destruct (negb (co_units p =? "%")), (negb (co_name p =? "percentile")); split; reflexivity. } destruct F as [F1 F2]. rewrite F1, F2 in Mk. unfold k0 at 2 in Mk. rewrite !err_if_nil, !negb_false_iff, !String.eqb_eq in Mk. change (i_errors (set_field _ _ _)) with (i_errors i) in Mk. split.
    + intros (j & E & H). destruct (check_methods c k0) as [k|] eqn:M; [|discriminate]. cbn [bind] in E. injection E as <-. assert (P : passes (Ok k)) by (now apply passes_ok). apply Mk in P. unfold probability_rule. tauto.
    + intros (_ & Z & _ & Rp & M). destruct (proj2 Mk) as (k & -> & Zk); [tauto|]. cbn [bind]. eauto.
  - cbn [bind]. split; [intros (j & E & _); discriminate|]. intros (_ & _ & _ & R & _). exfalso. destruct (R (proj2 Pc ltac:(discriminate))) as (x & _ & _ & _ & U). assert (Ep : p = x) by (destruct (proj1 (L p) (or_introl eq_refl)); now apply U). assert (Eq : q = x) by (destruct (proj1 (L q) (or_intror (or_introl eq_refl))); now apply U).
    assert (ND : NoDup (p :: q :: r)). { rewrite <- El. subst l. apply NoDup_filter. apply (NoDup_map_inv _ _ N). } inversion ND as [|? ? ND1 _]; subst. apply ND1. now left.
Qed.

Lemma kind_seen i j : check_kind c i = Ok (j, false) -> i_errors j = [] -> seen j.
Proof.
  unfold check_kind. destruct exclusive as (X1 & X2 & X3 & X4). intros H Z.
  destruct (mem (c_name c) ancillaries) eqn:A.
  { apply mem_iff in A. change (ancillary c) in A. injection H as <-. pose proof (not_standard (or_introl A)) as NS. destruct (no_kind NS) as (P1 & P2 & P3). split; [intros _; destruct (c_methods c); split; reflexivity|]. split; [destruct (X1 A) as (_ & E1 & E2); intros [E|E]; contradiction|]. repeat split; contradiction. }
  apply mem_not in A. change (~ ancillary c) in A. destruct (mem (c_name c) special_cases) eqn:Sp.
  { apply special_iff in Sp. destruct (String.eqb_spec (c_name c) "weather_code") as [Ew|Ew].
    { pose proof (not_standard (or_intror (or_intror (or_introl Ew)))) as NS. destruct (no_kind NS) as (P1 & P2 & P3). destruct (over_all check_category (c_methods c) _) as [k|] eqn:O; [|discriminate]. cbn [bind] in H. injection H as <-. apply categories_look in O. unfold look in O. cbn in O. split; [intro; contradiction|]. split; [intros _; split; congruence|]. split; [intro; contradiction|]. split; intro; contradiction. }
    destruct (String.eqb_spec (c_name c) "wind_from_direction") as [Ed|Ed]; [|discriminate].
    pose proof (not_standard (or_intror (or_intror (or_intror Ed)))) as NS. destruct (no_kind NS) as (P1 & P2 & P3). injection H as <-. match goal with |- seen (err_if ?b ?p ?k) => pose proof (look_if b p k) as L; set (q := err_if b p k) in * end. unfold look in L. cbn in L. split; [intro; contradiction|]. split; [intros _; split; congruence|]. split; [intro; contradiction|]. split; intro; contradiction. }
  assert (St : standard c). { assert (~ (c_name c = "weather_code" \/ c_name c = "wind_from_direction" \/ exempt c \/ ancillary c)) by (rewrite <- special_iff; congruence). unfold standard. tauto. }
  assert (Ns : ~ (c_name c = "weather_code" \/ c_name c = "wind_from_direction")) by (unfold standard in St; tauto).
  assert (Prob : forall k, probabilities c -> i_field k = Some "probabilities" -> (let* i := check_probability c k in let* i := check_methods c i in Ok (i, false)) = Ok (j, false) -> seen j).
  { intros k Pb Fk E. assert (Np : ~ percentiles c). { intros (_ & P1 & P2). destruct Pb as (_ & [P|[P _]]); [contradiction|]. apply P. unfold percentiles. tauto. }
    destruct (check_probability c k) as [k1|] eqn:E1; [|discriminate]. cbn [bind] in E. destruct (check_methods c k1) as [k2|] eqn:E2; [|discriminate]. cbn [bind] in E. injection E as ->. assert (P : passes (check_methods c k1)) by (exists j; auto). apply (methods_ok c N) in P as [Z1 _]. destruct (probability_look c k k1 E1 Z1) as (L1 & (d & L2 & L3) & r & L4).
    unfold check_methods in E2. apply all_look in E2 as [M1 M2]. rewrite look_if in M1. unfold look in M1. assert (M3 : i_field j = Some "probabilities") by congruence. assert (M4 : i_diagnostic j = Some d) by congruence. assert (M5 : i_relative j = Some r) by (rewrite M2; destruct (existsb _ accumulations && _); exact L4).
    split; [intro; contradiction|]. split; [intro; contradiction|]. split; [intros _; split; [exact M3|]; split; eauto|]. split; [intro; contradiction|]. intros (_ & _ & Q). contradiction. }
  destruct (contains "probability" (c_name c) && contains "threshold" (c_name c)) eqn:Np.
  { apply andb_true_iff in Np as [Q1 Q2]. apply contains_occurs in Q1, Q2. assert (Pb : probabilities c) by (split; [exact St|]; left; split; assumption). refine (Prob _ Pb _ H); reflexivity. }
  assert (Nn : ~ named_probability c). { intros [Q1 Q2]. apply contains_occurs in Q1, Q2. rewrite Q1, Q2 in Np. discriminate. }
  unfold find_percentile in H. set (l := filter (fun x => contains "percentile" (co_name x)) (c_coords c)) in *. assert (L : forall x, In x l <-> In x (c_coords c) /\ is_percentile x) by (intro x; unfold l; rewrite filter_In, contains_occurs; reflexivity).
  assert (Pc : percentiles c <-> l <> []). { unfold percentiles. split; [intros (_ & _ & x & X & P) E; assert (I' : In x l) by (apply L; auto); rewrite E in I'; destruct I'|]. intro E. split; [exact St|]. split; [exact Nn|]. destruct l as [|x r]; [congruence|]. exists x. apply L. now left. }
  clearbody l. destruct l as [|p [|q r]]; [| |discriminate].
  - cbn [bind] in H. assert (Npc : ~ percentiles c) by (rewrite Pc; congruence). destruct coords_all as (ts & Ets & Ts). rewrite Ets in H. cbn [bind] in H. destruct (existsb has_threshold_var ts) eqn:Th.
    + apply (thresholds_iff ts Ts) in Th. assert (Pb : probabilities c) by (split; [exact St|]; right; auto). refine (Prob _ Pb _ H); reflexivity.
    + assert (Npb : ~ probabilities c). { intros (_ & [Q|[_ Q]]); [contradiction|]. apply (thresholds_iff ts Ts) in Q. congruence. }
      cbn [bind] in H. destruct (check_methods c _) as [k2|] eqn:E2; [|discriminate]. cbn [bind] in H. injection H as ->. unfold check_methods in E2. apply all_look in E2 as [M1 _]. rewrite look_if in M1. unfold look in M1. cbn in M1. split; [intro; contradiction|]. split; [intro; contradiction|]. split; [intro; contradiction|]. split; [intro; contradiction|]. intros _. split; congruence.
  - cbn [bind] in H. assert (Hpc : percentiles c) by (apply Pc; discriminate). assert (Npb : ~ probabilities c) by (intros (_ & [Q|[Q _]]); contradiction).
    destruct (check_methods c _) as [k2|] eqn:E2; [|discriminate]. cbn [bind] in H. injection H as ->. unfold check_methods in E2. apply all_look in E2 as [M1 _]. rewrite !look_if in M1. unfold look in M1. cbn in M1. split; [intro; contradiction|]. split; [intro; contradiction|]. split; [intro; contradiction|]. split; [intros _; split; congruence|]. intros (_ & Q & _). contradiction.
Qed.
Lemma kind_exempt i : (exists j, check_kind c i = Ok (j, true)) <-> exempt c.
Proof.
  unfold check_kind. destruct exclusive as (X1 & X2 & X3 & X4). destruct (mem (c_name c) ancillaries) eqn:A.
  { apply mem_iff in A. split; [intros (j & E); discriminate|]. intro E. destruct (X1 A). contradiction. }
  apply mem_not in A. change (~ ancillary c) in A. destruct (mem (c_name c) special_cases) eqn:Sp.
  - apply special_iff in Sp. destruct (String.eqb_spec (c_name c) "weather_code") as [Ew|Ew]; [split; [intros (j & E); destruct (over_all _ _ _); discriminate|intro E; destruct (X3 Ew) as (_ & Q & _); contradiction]|].
    destruct (String.eqb_spec (c_name c) "wind_from_direction") as [Ed|Ed]; [split; [intros (j & E); discriminate|intro E; destruct (X4 Ed) as (_ & Q & _); contradiction]|]. split; [intros _; tauto|intros _; eauto].
  - split.
    + intros (j & E). exfalso. match type of E with (let* i := ?r in _) = _ => destruct r as [k|]; [|discriminate] end. cbn [bind] in E. destruct (check_methods c k); discriminate.
    + intro E. exfalso. assert (Q : mem (c_name c) special_cases = true) by (apply special_iff; tauto). congruence.
Qed.

(** ** Attributes *)
Lemma codes_known x : (exists n, attr x model_names = Some n) <-> In x ["nc_det"; "gl_det"; "gl_ens"; "uk_ens"; "uk_det"].
Proof. rewrite attr_here, <- key_iff, mem_iff. reflexivity. Qed.
Lemma names_ok cs codes : forall s, (exists t, name_codes cs codes s = Ok t /\ i_errors (fst t) = []) <-> i_errors (fst s) = [] /\ forall x, In x codes -> In x ["nc_det"; "gl_det"; "gl_ens"; "uk_ens"; "uk_det"] /\ exists v, In (x, v) cs.
Proof.
  induction codes as [|x codes IH]; intro s; cbn [name_codes]; [split; [intros (t & E & H); apply Ok_inj in E; subst; split; [exact H|intros x []]|intros [H _]; eauto]|]. unfold name_code. pose proof (codes_known x) as K. destruct (attr x model_names) as [n|].
  - assert (Hr : (exists v, attr x (rev cs) = Some v) <-> exists v, In (x, v) cs) by (rewrite attr_here; split; intros (v & I'); exists v; [now apply in_rev|now apply in_rev in I']). destruct (attr x (rev cs)) as [v|]; cbn [bind].
    + rewrite IH. cbn [fst]. split; intros [A B]; (split; [exact A|]); [|intros y Y; apply B; now right]. intros y [<-|Y]; [|auto]. split; [apply K; eauto|apply Hr; eauto].
    + split; [intros (t & E & _); discriminate|]. intros [_ B]. destruct (B x (or_introl eq_refl)) as [_ B2]. apply Hr in B2 as (v & E). discriminate.
  - cbn [bind]. rewrite IH. cbn [fst]. rewrite err_not. split; [tauto|]. intros [_ B]. destruct (B x (or_introl eq_refl)) as [B1 _]. apply K in B1 as (n & E). discriminate.
Qed.
Lemma names_look cs codes : forall s t, name_codes cs codes s = Ok t -> look (fst t) = look (fst s) /\ i_relative (fst t) = i_relative (fst s) /\ i_blended (fst t) = i_blended (fst s) /\ i_unhandled (fst t) = i_unhandled (fst s).
Proof.
  induction codes as [|x codes IH]; intros s t; cbn [name_codes]; [intro H; apply Ok_inj in H; now subst|]. unfold name_code. destruct (attr x model_names) as [n|]; [destruct (attr x (rev cs)) as [v|]; [|discriminate]|]; cbn [bind]; intro H; apply IH in H; exact H.
Qed.
Lemma cycles_ok runs : (exists cs, cycles runs = Ok cs) <-> forall line, In line (split_on newline runs) -> exists a b w, split_on colon line = [a; b; w].
Proof.
  unfold cycles. induction (split_on newline runs) as [|x l IH]; cbn [mapM]; [split; [intros _ y []|eauto]|]. split.
  - intros (cs & E) line [<-|I']; destruct (split_on colon x) as [|a [|b [|w [|? ?]]]]; try discriminate; [eauto|]. cbn [bind] in E. destruct (mapM _ l) as [r|] eqn:M; [|discriminate]. apply (proj1 IH); eauto.
  - intro H. destruct (H x (or_introl eq_refl)) as (a & b & w & ->). cbn [bind]. destruct (proj2 IH) as (r & ->); [intros y Y; apply H; now right|]. cbn [bind]. eauto.
Qed.
Lemma cycles_in runs cs x v : cycles runs = Ok cs -> (In (x, v) cs <-> exists line w, In line (split_on newline runs) /\ split_on colon line = [x; v; w]).
Proof.
  unfold cycles. revert cs. induction (split_on newline runs) as [|y l IH]; intros cs; cbn [mapM]; [intro H; apply Ok_inj in H; subst; split; [intros []|intros (line & w & [] & _)]|]. destruct (split_on colon y) as [|a [|b [|w [|? ?]]]] eqn:E; try discriminate. cbn [bind]. destruct (mapM _ l) as [r|]; [|discriminate]. cbn [bind]. intro H. apply Ok_inj in H. subst cs. cbn [In]. rewrite (IH r eq_refl). split.
  - intros [H|(line & w' & I' & H)]; [injection H as -> ->; exists y, w; auto|exists line, w'; auto].
  - intros (line & w' & [<-|I'] & H); [left; congruence|right; eauto].
Qed.
Definition blend_text (t : string) : Prop := occurs "IMPROVER Post-Processed Multi-Model Blend" t.
Definition model_fine (t : string) : Prop :=
  (blend_text t -> exists ids runs, value c "mosg__model_configuration" ids /\ value c "mosg__model_run" runs /\ (forall line, In line (split_on newline runs) -> exists a b w, split_on colon line = [a; b; w]) /\
    forall code, In code (split_words ids) -> In code ["nc_det"; "gl_det"; "gl_ens"; "uk_ens"; "uk_det"] /\ exists line b w, In line (split_on newline runs) /\ split_on colon line = [code; b; w]) /\
  (~ blend_text t -> forall id, value c "mosg__model_configuration" id -> exists n, In (id, n) model_names /\ forall code m, In (code, m) model_names -> occurs (m ++ " Model") t -> code = id).
Lemma fold_nil (f : string * string -> bool) (g : string * string -> problem) l : forall i, i_errors (fold_left (fun i e => err_if (f e) (g e) i) l i) = [] <-> i_errors i = [] /\ forall e, In e l -> f e = false.
Proof. induction l as [|e l IH]; intro i; cbn [fold_left]; [split; [intro H; split; [exact H|intros e []]|tauto]|]. rewrite IH, err_if_nil. split; [intros [[A B] C]; split; [exact A|]; intros x [<-|X]; auto|]. intros [A B]. split; [split; [exact A|apply B; now left]|intros x X; apply B; now right]. Qed.
Lemma fold_look (f : string * string -> bool) (g : string * string -> problem) l : forall i, let j := fold_left (fun i e => err_if (f e) (g e) i) l i in look j = look i /\ i_relative j = i_relative i /\ i_blended j = i_blended i /\ i_unhandled j = i_unhandled i.
Proof. induction l as [|e l IH]; intro i; cbn [fold_left]; [repeat split|]. cbv zeta. destruct (IH (err_if (f e) (g e) i)) as (A & B & C & D). rewrite A, B, C, D. destruct (f e); repeat split. Qed.
Lemma model_ok t i : passes (check_model t (c_attributes c) i) <-> i_errors i = [] /\ model_fine t.
Proof.
  unfold check_model, model_fine. fold (blend_text t). destruct (contains blend_title t) eqn:B.
  - apply contains_occurs in B. change (blend_text t) in B.
    pose proof (fun v => attr_some id_attr (c_attributes c) v Na) as V1. pose proof (fun v => attr_some run_attr (c_attributes c) v Na) as V2. pose proof (attr_none id_attr (c_attributes c)) as U1. pose proof (attr_none run_attr (c_attributes c)) as U2.
    set (ai := attr id_attr (c_attributes c)) in *. set (ar := attr run_attr (c_attributes c)) in *. clearbody ai ar.
    destruct ai as [ids|]; [destruct ar as [runs|]|].
    + cbn [err_if]. rewrite passes_bind. pose proof (proj1 (V1 ids) eq_refl) as I1. pose proof (proj1 (V2 runs) eq_refl) as I2.
      assert (One : forall ids' runs', value c "mosg__model_configuration" ids' -> value c "mosg__model_run" runs' -> ids' = ids /\ runs' = runs). { intros ids' runs' A1 A2. apply V1 in A1. apply V2 in A2. split; congruence. }
      split.
      * intros (cs & Ec & P). rewrite passes_bind in P. destruct P as (s & Es & P). rewrite passes_ok in P. cbn [set_model i_errors] in P. assert (Q : exists t, name_codes cs (split_words ids) (set_blended true i, []) = Ok t /\ i_errors (fst t) = []) by eauto. apply names_ok in Q as [Q1 Q2]. split; [exact Q1|]. split; [|tauto]. intros _. exists ids, runs. split; [exact I1|]. split; [exact I2|]. split; [apply cycles_ok; eauto|]. intros code Hc. destruct (Q2 code Hc) as [K (v & Hv)]. split; [exact K|]. apply (cycles_in runs cs code v Ec) in Hv as (line & w & H1 & H2). exists line, v, w. auto.
      * intros [Z [H _]]. destruct (H B) as (ids' & runs' & A1 & A2 & A3 & A4). destruct (One _ _ A1 A2) as [-> ->]. apply cycles_ok in A3 as (cs & Ec). exists cs. split; [exact Ec|]. rewrite passes_bind. assert (Q : exists t, name_codes cs (split_words ids) (set_blended true i, []) = Ok t /\ i_errors (fst t) = []). { apply names_ok. split; [exact Z|]. intros x X. destruct (A4 x X) as [K (line & b & w & H1 & H2)]. split; [exact K|]. exists b. apply (cycles_in runs cs x b Ec). eauto. } destruct Q as (s & Es & Q). exists s. split; [exact Es|]. rewrite passes_ok. exact Q.
    + rewrite passes_ok, err_if_nil. split; [intros [_ H]; discriminate|]. intros [_ [H _]]. destruct (H B) as (ids' & runs' & _ & A2 & _). exfalso. exact (proj1 U2 eq_refl runs' A2).
    + rewrite passes_ok, !err_if_nil. split; [intros [[_ H] _]; discriminate|]. intros [_ [H _]]. destruct (H B) as (ids' & runs' & A1 & _). exfalso. exact (proj1 U1 eq_refl ids' A1).
  - apply no_occurs in B. change (~ blend_text t) in B. pose proof (fun v => attr_some id_attr (c_attributes c) v Na) as V1. pose proof (attr_none id_attr (c_attributes c)) as U1. set (ai := attr id_attr (c_attributes c)) in *. clearbody ai. destruct ai as [id|].
    + assert (Nm : NoDup (map fst model_names)) by (cbn; repeat (constructor; [cbn; intuition discriminate|]); constructor).
      set (j := fold_left _ model_names _). assert (F : i_errors j = [] <-> i_errors i = [] /\ forall code m, In (code, m) model_names -> occurs (m ++ " Model") t -> code = id).
      { unfold j. rewrite (fold_nil (fun e => contains (snd e ++ " Model") t && negb (id =? fst e)) (fun e => TitleModel (fst e))). change (i_errors (set_blended false i)) with (i_errors i). split; intros [A H]; (split; [exact A|]).
        - intros code m I' O. specialize (H (code, m) I'). cbn [fst snd] in H. apply contains_occurs in O. rewrite O in H. cbn [andb] in H. apply negb_false_iff, String.eqb_eq in H. now symmetry.
        - intros [code m] I'. cbn [fst snd]. destruct (contains (m ++ " Model") t) eqn:O; [|reflexivity]. apply contains_occurs in O. rewrite (H code m I' O). rewrite String.eqb_refl. reflexivity. }
      clearbody j. destruct (attr id model_names) as [n|] eqn:An.
      * apply (attr_some id model_names n Nm) in An. rewrite passes_ok. cbn [set_model i_errors]. rewrite F. split.
        { intros [A H]. split; [exact A|]. split; [intro; contradiction|]. intros _ id' Hi. apply V1 in Hi. injection Hi as <-. eauto. }
        { intros [A [_ H]]. split; [exact A|]. destruct (H B id (proj1 (V1 id) eq_refl)) as (_ & _ & H'). exact H'. }
      * rewrite passes_ok, err_not. split; [intros []|]. intros [_ [_ H]]. destruct (H B id (proj1 (V1 id) eq_refl)) as (n & Hn & _). exact (proj1 (attr_none id model_names) An n Hn).
    + rewrite passes_ok. change (i_errors (set_blended false i)) with (i_errors i). split; [intro A; split; [exact A|]; split; [intro; contradiction|]; intros _ id Hi; exfalso; exact (proj1 U1 eq_refl id Hi)|tauto].
Qed.
Lemma model_look t i j : check_model t (c_attributes c) i = Ok j -> look j = look i /\ i_relative j = i_relative i /\ i_blended j = contains blend_title t /\ i_unhandled j = i_unhandled i.
Proof.
  unfold check_model. destruct (contains blend_title t).
  - destruct (attr id_attr (c_attributes c)) as [ids|], (attr run_attr (c_attributes c)) as [runs|]; cbn [err_if].
    + destruct (cycles runs) as [cs|]; [|discriminate]. cbn [bind]. destruct (name_codes cs _ _) as [s|] eqn:E; [|discriminate]. cbn [bind]. intro H. apply Ok_inj in H. subst j. apply names_look in E as (A & B & C & D). cbn [fst] in *. unfold look in *. cbn in *. auto.
    + intro H. apply Ok_inj in H. subst j. repeat split.
    + intro H. apply Ok_inj in H. subst j. repeat split.
    + intro H. apply Ok_inj in H. subst j. repeat split.
  - destruct (attr id_attr (c_attributes c)) as [id|]; [|intro H; apply Ok_inj in H; subst j; repeat split]. match goal with |- context [fold_left ?f model_names ?k] => pose proof (fold_look (fun e => contains (snd e ++ " Model") t && negb (id =? fst e)) (fun e => TitleModel (fst e)) model_names k) as L; cbv zeta in L; set (q := fold_left f model_names k) in * end. clearbody q. cbn in L. destruct (attr id model_names); intro H; apply Ok_inj in H; subst j; exact L.
Qed.
End cube.
