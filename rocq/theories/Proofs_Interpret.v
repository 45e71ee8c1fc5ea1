(** Lemmas for C117: what each check of the interpreter amounts to. *)
From Coq Require Import Ascii String.
From Verif Require Import Base Model_Records Model_Attributes Model_Interpret Props_Naming Spec_Interpret.
Local Open Scope string_scope.

Lemma Ok_inj {A} (a b : A) : Ok a = Ok b -> a = b.
Proof. congruence. Qed.
Lemma mem_iff s l : mem s l = true <-> In s l.
Proof. unfold mem. rewrite existsb_exists. split; [intros (x & I' & E); apply String.eqb_eq in E; now subst|]. intro I'. exists s. split; [exact I'|apply String.eqb_refl]. Qed.
Lemma mem_not s l : mem s l = false <-> ~ In s l.
Proof. rewrite <- mem_iff. destruct (mem s l); split; congruence. Qed.
Lemma no_occurs w s : contains w s = false <-> ~ occurs w s.
Proof. rewrite <- contains_occurs. destruct (contains w s); split; congruence. Qed.
Lemma attr_some k l v : NoDup (map fst l) -> (attr k l = Some v <-> In (k, v) l).
Proof.
  intro N. unfold attr. induction l as [|[k' v'] l IH]; cbn [find map fst] in *; [split; [discriminate|intros []]|]. inversion N as [|? ? N1 N2]; subst. destruct (String.eqb_spec k' k) as [->|D].
  - cbn [option_map snd]. split; [intro E; injection E as <-; now left|]. intros [E|I']; [congruence|]. exfalso. apply N1. apply in_map_iff. exists (k, v). auto.
  - rewrite (IH N2). split; [now right|]. intros [E|I']; [congruence|exact I'].
Qed.
Lemma attr_none k l : attr k l = None <-> forall v, ~ In (k, v) l.
Proof.
  unfold attr. induction l as [|[k' v'] l IH]; cbn [find fst]; [split; [intros _ v []|reflexivity]|]. destruct (String.eqb_spec k' k) as [->|D].
  - cbn. split; [discriminate|]. intro H. exfalso. apply (H v'). now left.
  - rewrite IH. split; intros H v I'; [destruct I' as [E|I']; [congruence|exact (H v I')]|exact (H v (or_intror I'))].
Qed.
Lemma attr_here k l : (exists v, attr k l = Some v) <-> exists v, In (k, v) l.
Proof.
  split.
  - intros (v & E). unfold attr in E. destruct (find _ l) as [[k' v']|] eqn:F; [|discriminate]. apply find_some in F as [I' F]. cbn in F. apply String.eqb_eq in F. subst. eauto.
  - intros (v & I'). destruct (attr k l) as [w|] eqn:E; [eauto|]. exfalso. exact (proj1 (attr_none k l) E v I').
Qed.
Lemma key_iff k (l : list (string * string)) : mem k (map fst l) = true <-> exists v, In (k, v) l.
Proof. rewrite mem_iff, in_map_iff. split; [intros ([k' v] & <- & I'); eauto|intros (v & I'); exists (k, v); auto]. Qed.
Lemma named_iff k c : mem k (names c) = true <-> has c k.
Proof. unfold names, has. rewrite mem_iff, in_map_iff. split; intros (x & A & B); eauto. Qed.
Lemma coord_ok k c x : NoDup (map co_name (c_coords c)) -> (coord k c = Ok x <-> In x (c_coords c) /\ co_name x = k).
Proof.
  unfold coord. induction (c_coords c) as [|y l IH]; intro N; cbn [filter map] in *; [split; [discriminate|intros [[] _]]|]. inversion N as [|? ? N1 N2]; subst. destruct (String.eqb_spec (co_name y) k) as [E|D].
  - assert (F : filter (fun x => co_name x =? k) l = []). { clear -N1 E. induction l as [|z l IH]; [reflexivity|]. cbn [filter]. destruct (String.eqb_spec (co_name z) k) as [E'|_]; [exfalso; apply N1; cbn; left; congruence|]. apply IH. intro I'. apply N1. now right. }
    rewrite F. cbn [only]. split; [intro H; apply Ok_inj in H; subst; split; [now left|reflexivity]|]. intros [[<-|I'] E']; [reflexivity|]. exfalso. apply N1. rewrite E, <- E'. now apply in_map.
  - rewrite (IH N2). split; [intros [I' E]; split; [now right|exact E]|]. intros [[<-|I'] E]; [contradiction|auto].
Qed.
Lemma coord_err k c e : NoDup (map co_name (c_coords c)) -> coord k c = Err e -> ~ has c k.
Proof. intros N E (x & I' & Ex). rewrite (proj2 (coord_ok k c x N) (conj I' Ex)) in E. discriminate. Qed.
Lemma coord_one c x y : NoDup (map co_name (c_coords c)) -> In x (c_coords c) -> In y (c_coords c) -> co_name x = co_name y -> x = y.
Proof. intros N X Y E. pose proof (proj2 (coord_ok (co_name y) c x N) (conj X E)). pose proof (proj2 (coord_ok (co_name y) c y N) (conj Y eq_refl)). congruence. Qed.

(** ** Steps *)
Definition passes (r : result interp) : Prop := exists i, r = Ok i /\ i_errors i = [].
Lemma passes_ok i : passes (Ok i) <-> i_errors i = [].
Proof. unfold passes. split; [intros (j & E & H); injection E as <-; exact H|eauto]. Qed.
Lemma passes_err e : passes (Err e) <-> False.
Proof. unfold passes. split; [intros (j & E & _); discriminate|intros []]. Qed.
Lemma passes_bind {A} (r : result A) (g : A -> result interp) : passes (bind r g) <-> exists x, r = Ok x /\ passes (g x).
Proof. destruct r as [x|e]; cbn [bind]; split; try (intro H; exists x; auto; fail). - intros (y & E & H). injection E as <-. exact H. - intros (j & E & _). discriminate. - intros (y & E & _). discriminate. Qed.
Lemma err_if_nil b p i : i_errors (err_if b p i) = [] <-> i_errors i = [] /\ b = false.
Proof. destruct b; cbn; split; [intro H; destruct (i_errors i); discriminate|intros [_ H]; discriminate|auto|tauto]. Qed.
Lemma err_not p i : i_errors (err p i) = [] <-> False.
Proof. cbn. split; [intro H; destruct (i_errors i); discriminate|intros []]. Qed.
(** What later checks look at. *)
Definition look (i : interp) := (i_field i, i_diagnostic i).
Lemma look_if b p i : look (err_if b p i) = look i. Proof. now destruct b. Qed.

Lemma word_iff r w : word_for r = Some w <-> relation_word r w.
Proof.
  unfold word_for, relation_word. destruct (mem r ["greater_than"; "greater_than_or_equal_to"]) eqn:A.
  - apply mem_iff in A. destruct A as [<-|[<-|[]]]; (split; [intro H; injection H as <-; tauto|]); intros [[_ ->]|[[[H|H] _]|[H _]]]; try discriminate; reflexivity.
  - apply mem_not in A. destruct (mem r ["less_than"; "less_than_or_equal_to"]) eqn:B.
    + apply mem_iff in B. destruct B as [<-|[<-|[]]]; (split; [intro H; injection H as <-; tauto|]); intros [[[H|H] _]|[[_ ->]|[H _]]]; try discriminate; reflexivity.
    + apply mem_not in B. destruct (String.eqb_spec r "between_thresholds") as [->|D].
      * split; [intro H; injection H as <-; tauto|]. intros [[[H|H] _]|[[[H|H] _]|[_ ->]]]; try discriminate; reflexivity.
      * split; [discriminate|]. intros [[H _]|[[H _]|[H _]]]; exfalso; [apply A|apply B|apply D]; cbn; destruct H; subst; auto.
Qed.
Lemma var_iff x : (match co_var x with Some v => v =? "threshold" | None => false end) = true <-> is_threshold x.
Proof. unfold is_threshold. destruct (co_var x) as [v|]; [|split; discriminate]. rewrite String.eqb_eq. split; [now intros ->|congruence]. Qed.
Lemma threshold_ok n t i : i_errors (check_threshold n t i) = [] <-> i_errors i = [] /\ is_threshold t /\ exists r w, co_relative t = Some r /\ relation_word r w /\ occurs w n.
Proof.
  unfold check_threshold. destruct (co_relative t) as [r|].
  - destruct (word_for r) as [w|] eqn:W.
    + rewrite err_if_nil. set (j := if w =? "between" then _ else _). assert (E : i_errors j = i_errors (set_relative (Some r) (err_if (negb match co_var t with Some v => v =? "threshold" | None => false end) ThresholdVar i))) by (unfold j; destruct (w =? "between"); reflexivity). rewrite E. cbn [set_relative i_errors]. rewrite err_if_nil, !negb_false_iff, var_iff, contains_occurs.
      apply word_iff in W. split; [intros [[A B] C]; split; [exact A|]; split; [exact B|]; eauto|]. intros (A & B & r' & w' & Er & Rw & C). injection Er as <-. apply word_iff in W, Rw. rewrite W in Rw. injection Rw as <-. auto.
    + rewrite err_not. split; [intros []|]. intros (_ & _ & r' & w' & Er & Rw & _). injection Er as <-. apply word_iff in Rw. congruence.
  - rewrite err_not. split; [intros []|]. intros (_ & _ & r' & w' & Er & _). discriminate.
Qed.
Lemma threshold_look n t i : look (check_threshold n t i) = look i.
Proof. unfold check_threshold. destruct (co_relative t) as [r|]; [destruct (word_for r) as [w|]; [rewrite look_if; destruct (w =? "between")|]|]; unfold look; cbn; rewrite ?(f_equal fst (look_if _ _ _)); destruct (negb _); reflexivity. Qed.
Lemma threshold_relative n t i : i_errors (check_threshold n t i) = [] -> exists r, i_relative (check_threshold n t i) = Some r.
Proof.
  unfold check_threshold. destruct (co_relative t) as [r|]; [|rewrite err_not; intros []]. destruct (word_for r) as [w|]; [|rewrite err_not; intros []]. intros _. exists r. destruct (w =? "between"), (negb (contains w n)); reflexivity.
Qed.

(** The rule for probabilities, once it is known that the cube is one of probabilities. *)
Definition is_probability (c : cube) : Prop := c_units c = "1" /\
  exists d x r w, extract_diagnostic_name (c_name c) false = Ok d /\ In x (c_coords c) /\ co_name x = d /\ is_threshold x /\ co_relative x = Some r /\ relation_word r w /\ occurs w (c_name c).
Section cube.
Variable c : cube.
Hypothesis N : NoDup (map co_name (c_coords c)).
Lemma probability_ok i : passes (check_probability c i) <-> i_errors i = [] /\ is_probability c.
Proof.
  unfold check_probability, is_probability. destruct (extract_diagnostic_name (c_name c) false) as [d|e].
  2: { rewrite passes_ok, err_not. split; [intros []|]. intros (_ & _ & d & x & r & w & E & _). discriminate. }
  destruct (mem d (names c)) eqn:M; cbn [negb].
  - rewrite passes_bind. split.
    + intros (t & T & P). apply (coord_ok d c t N) in T as [T1 T2]. rewrite passes_ok in P. apply threshold_ok in P as (A & B & r & w & C). cbn [set_field i_errors] in A. apply err_if_nil in A as [A U]. apply negb_false_iff, String.eqb_eq in U. split; [exact A|]. split; [exact U|]. exists d, t, r, w. tauto.
    + intros (A & U & d' & x & r & w & E & X & Ex & H). injection E as <-. exists x. split; [now apply coord_ok|]. rewrite passes_ok. apply threshold_ok. cbn [set_field i_errors]. rewrite err_if_nil, negb_false_iff, String.eqb_eq. split; [auto|]. split; [tauto|]. exists r, w. tauto.
  - apply mem_not in M. assert (F : forall P : Prop, i_errors i = [] /\ c_units c = "1" /\ (exists d0 x r w, Ok d = Ok d0 /\ In x (c_coords c) /\ co_name x = d0 /\ is_threshold x /\ co_relative x = Some r /\ relation_word r w /\ occurs w (c_name c)) -> P).
    { intros P (_ & _ & d' & x & r & w & E & X & Ex & _). injection E as <-. exfalso. apply M. unfold names. rewrite <- Ex. now apply in_map. }
    destruct (find_threshold c) as [t|].
    + rewrite passes_bind. split; [|apply F]. intros (t' & _ & P). rewrite passes_ok in P. apply threshold_ok in P as [P _]. rewrite err_not in P. destruct P.
    + rewrite passes_ok, err_not. split; [intros []|apply F].
Qed.
Lemma probability_look i j : check_probability c i = Ok j -> i_errors j = [] -> i_field j = i_field i /\ (exists d, extract_diagnostic_name (c_name c) false = Ok d /\ i_diagnostic j = Some d) /\ exists r, i_relative j = Some r.
Proof.
  unfold check_probability. destruct (extract_diagnostic_name (c_name c) false) as [d|e]; [|intros H Z; apply Ok_inj in H; subst j; rewrite err_not in Z; destruct Z].
  destruct (mem d (names c)) eqn:M; cbn [negb].
  - destruct (coord d c) as [t|]; [|discriminate]. cbn [bind]. intros H Z. apply Ok_inj in H. subst j. split; [|split].
    + match goal with |- context [check_threshold ?n ?t ?i] => pose proof (threshold_look n t i) as L end. apply (f_equal fst) in L. cbn in L. rewrite L. now destruct (negb (c_units c =? "1")).
    + exists d. split; [reflexivity|]. match goal with |- context [check_threshold ?n ?t ?i] => pose proof (threshold_look n t i) as L end. apply (f_equal snd) in L. exact L.
    + now apply threshold_relative.
  - destruct (find_threshold c) as [t|]; [|intros H Z; apply Ok_inj in H; subst j; rewrite err_not in Z; destruct Z]. destruct (coord (co_name t) c) as [t'|]; [|discriminate]. cbn [bind]. intros H Z. apply Ok_inj in H. subst j. apply threshold_ok in Z as [Z _]. rewrite err_not in Z. destruct Z.
Qed.

(** ** Cell methods *)
Definition fine_method (prob : bool) (d : option string) (m : cell_method) : Prop :=
  (recognised m -> cm_coords m <> [] /\ (In "time" (cm_coords m) -> exists x, In x (c_coords c) /\ co_name x = "time" /\ co_bounds x <> None) /\
     (prob = true -> exists t rest, cm_comments m = t :: rest /\ exists more, t = "of " ++ text d ++ more)) /\
  cm_method m <> "point" /\ cm_method m <> "weighted_mean" /\ ~ In m (map mean_over ["forecast_reference_time"; "model_id"; "model_configuration"; "realization"]).
Definition prob_field (i : interp) : bool := match i_field i with Some f => f =? "probabilities" | None => false end.
Lemma forbidden_iff m : is_forbidden_method m = true <-> cm_method m = "point" \/ cm_method m = "weighted_mean" \/ In m (map mean_over ["forecast_reference_time"; "model_id"; "model_configuration"; "realization"]).
Proof.
  unfold is_forbidden_method. rewrite orb_true_iff, mem_iff, andb_true_iff, String.eqb_eq. destruct m as [a b e f]. cbn [cm_method cm_coords cm_intervals cm_comments]. split.
  - intros [[H|[H|[]]]|[-> H]]; [now left|right; now left|]. right. right. destruct b as [|x [|? ?]], e, f; try discriminate. apply mem_iff in H. apply in_map_iff. exists x. split; [reflexivity|exact H].
  - intros [->|[->|H]]; [left; cbn; auto|left; cbn; auto|]. right. apply in_map_iff in H as (x & E & H). unfold mean_over in E. injection E as <- <- <- <-. split; [reflexivity|]. now apply mem_iff.
Qed.
Lemma prefix_of p q t : String.prefix (p ++ q) t = true <-> exists more, t = p ++ q ++ more.
Proof. rewrite prefix_iff. split; intros (m & ->); exists m; now rewrite app_assoc'. Qed.
Lemma method_ok m i : passes (check_method c m i) <-> i_errors i = [] /\ fine_method (prob_field i) (i_diagnostic i) m.
Proof.
  unfold check_method, fine_method. destruct (mem (cm_method m) compliant_methods) eqn:R.
  - apply mem_iff in R. assert (R' : recognised m) by exact R.
    assert (Z : cm_method m <> "point" /\ cm_method m <> "weighted_mean" /\ ~ In m (map mean_over ["forecast_reference_time"; "model_id"; "model_configuration"; "realization"])).
    { split; [|split]; [intro E; rewrite E in R; cbn in R; intuition discriminate|intro E; rewrite E in R; cbn in R; intuition discriminate|]. intro I'. apply in_map_iff in I' as (x & E & _). rewrite <- E in R. cbn in R. intuition discriminate. }
    destruct (cm_coords m) as [|x r] eqn:C.
    + rewrite passes_err. split; [intros []|]. intros (_ & H & _). destruct (H R') as [H' _]. congruence.
    + set (i0 := add_method _ i). set (i1 := match i_field i0 with Some _ => _ | None => _ end).
      assert (E1 : i_errors i1 = [] <-> i_errors i = [] /\ (prob_field i = true -> exists t rest, cm_comments m = t :: rest /\ exists more, t = "of " ++ text (i_diagnostic i) ++ more)).
      { assert (Fi : i1 = if prob_field i then err_if (negb match cm_comments m with t :: _ => String.prefix ("of " ++ text (i_diagnostic i)) t | [] => false end) MethodComment i0 else i0).
        { unfold i1, prob_field. change (i_field i0) with (i_field i). destruct (i_field i) as [f|]; [|reflexivity]. destruct (String.eqb_spec f "probabilities") as [->|D]; [reflexivity|]. clear -D. repeat match goal with |- match ?s with EmptyString => _ | String _ _ => _ end = _ => destruct s; try reflexivity | |- (if ?b then _ else _) = _ => destruct b; try reflexivity | |- (let (_, _, _, _, _, _, _, _) := ?a in _) = _ => destruct a; try reflexivity end. congruence. }
        rewrite Fi. destruct (prob_field i).
        - rewrite err_if_nil, negb_false_iff. change (i_errors i0) with (i_errors i). destruct (cm_comments m) as [|t rest]; [split; [intros [_ H]; discriminate|intros [_ H]; destruct (H eq_refl) as (? & ? & H' & _); discriminate]|]. rewrite prefix_of. split; intros [A B]; (split; [exact A|]); [intros _; exists t, rest; auto|]. destruct (B eq_refl) as (t' & r' & E & M). injection E as <- <-. exact M.
        - change (i_errors i0) with (i_errors i). split; [intro A; split; [exact A|discriminate]|tauto]. }
      destruct (mem "time" (x :: r)) eqn:T.
      * apply mem_iff in T. rewrite passes_bind. split.
        { intros (t & Ct & P). apply (coord_ok "time" c t N) in Ct as [T1 T2]. rewrite passes_ok, err_if_nil, E1 in P. destruct P as [[A B] D]. split; [exact A|]. split; [|exact Z]. intros _. split; [discriminate|]. split; [|exact B]. intros _. exists t. split; [exact T1|]. split; [exact T2|]. destruct (co_bounds t); discriminate. }
        { intros (A & H & _). destruct (H R') as (_ & H2 & H3). destruct (H2 T) as (t & T1 & T2 & T3). exists t. split; [now apply coord_ok|]. rewrite passes_ok, err_if_nil, E1. split; [auto|]. destruct (co_bounds t); [reflexivity|congruence]. }
      * apply mem_not in T. rewrite passes_ok, E1. split; [intros [A B]; split; [exact A|]; split; [|exact Z]; intros _; split; [discriminate|]; split; [intro; contradiction|exact B]|]. intros (A & H & _). split; [exact A|]. now apply H.
  - apply mem_not in R. assert (R' : ~ recognised m) by exact R. destruct (is_forbidden_method m) eqn:F.
    + rewrite passes_ok, err_not. split; [intros []|]. intros (_ & _ & A & B & D). apply forbidden_iff in F. tauto.
    + rewrite passes_ok. change (i_errors (warn UnknownMethod i)) with (i_errors i). assert (F' : ~ (cm_method m = "point" \/ cm_method m = "weighted_mean" \/ In m (map mean_over ["forecast_reference_time"; "model_id"; "model_configuration"; "realization"]))) by (rewrite <- forbidden_iff; congruence). split; [intro A; split; [exact A|]; split; [intro; contradiction|]; tauto|tauto].
Qed.
Lemma method_look m i j : check_method c m i = Ok j -> look j = look i /\ i_relative j = i_relative i.
Proof.
  unfold check_method. destruct (mem (cm_method m) compliant_methods).
  - destruct (cm_coords m) as [|x r]; [discriminate|]. set (i0 := add_method _ i). set (i1 := match i_field i0 with Some _ => _ | None => _ end).
    assert (L : look i1 = look i /\ i_relative i1 = i_relative i). { unfold i1. repeat match goal with |- context [match i_field ?k with _ => _ end] => destruct (i_field k) | |- context [match ?s with EmptyString => _ | String _ _ => _ end] => destruct s | |- context [let (_, _, _, _, _, _, _, _) := ?a in _] => destruct a | |- context [if ?b then _ else _] => destruct b end; try (split; reflexivity); unfold err_if; destruct (negb _); split; reflexivity. }
    clearbody i1. destruct (mem "time" (x :: r)); [destruct (coord "time" c) as [t|]; [|discriminate]; cbn [bind]; destruct (co_bounds t)|]; intro H; apply Ok_inj in H; subst j; exact L.
  - destruct (is_forbidden_method m); intro H; apply Ok_inj in H; subst j; split; reflexivity.
Qed.
Lemma all_ok l : forall i, passes (over_all (check_method c) l i) <-> i_errors i = [] /\ forall m, In m l -> fine_method (prob_field i) (i_diagnostic i) m.
Proof.
  induction l as [|m l IH]; intro i; cbn [over_all].
  - rewrite passes_ok. split; [intro H; split; [exact H|intros m []]|tauto].
  - rewrite passes_bind. split.
    + intros (j & E & P). rewrite IH in P. destruct P as [P1 P2]. assert (M : passes (check_method c m i)) by (exists j; auto). apply method_ok in M as [M1 M2]. split; [exact M1|]. apply method_look in E as [E _]. unfold look in E. assert (E1 : i_field j = i_field i) by congruence. assert (E2 : i_diagnostic j = i_diagnostic i) by congruence. intros m' [<-|I']; [exact M2|]. unfold prob_field in *. rewrite E1, E2 in P2. now apply P2.
    + intros [A H]. assert (M : passes (check_method c m i)) by (apply method_ok; split; [exact A|apply H; now left]). destruct M as (j & E & Z). exists j. split; [exact E|]. rewrite IH. split; [exact Z|]. apply method_look in E as [E _]. unfold look in E. assert (E1 : i_field j = i_field i) by congruence. assert (E2 : i_diagnostic j = i_diagnostic i) by congruence. intros m' I'. unfold prob_field. rewrite E1, E2. apply H. now right.
Qed.
Lemma all_look l : forall i j, over_all (check_method c) l i = Ok j -> look j = look i /\ i_relative j = i_relative i.
Proof.
  induction l as [|m l IH]; intros i j; cbn [over_all]; [intro H; apply Ok_inj in H; subst; auto|]. destruct (check_method c m i) as [k|] eqn:E; [|discriminate]. cbn [bind]. intro H. apply IH in H as [A B]. apply method_look in E as [C D]. split; congruence.
Qed.
Lemma methods_ok i : passes (check_methods c i) <-> i_errors i = [] /\ (forall a, In a accumulations -> occurs a (c_name c) -> exists m, In m (c_methods c) /\ sum_over_time m) /\ forall m, In m (c_methods c) -> fine_method (prob_field i) (i_diagnostic i) m.
Proof.
  unfold check_methods. rewrite all_ok, err_if_nil. assert (L : forall b p, prob_field (err_if b p i) = prob_field i /\ i_diagnostic (err_if b p i) = i_diagnostic i) by (intros [] p; split; reflexivity). rewrite (proj1 (L _ _)), (proj2 (L _ _)).
  assert (E : existsb (fun a => contains a (c_name c)) accumulations && negb (existsb is_time_sum (c_methods c)) = false <-> (forall a, In a accumulations -> occurs a (c_name c) -> exists m, In m (c_methods c) /\ sum_over_time m)); [|rewrite E; tauto].
  assert (Ts : forall m, is_time_sum m = true <-> sum_over_time m). { intro m. unfold is_time_sum, sum_over_time. rewrite andb_true_iff, String.eqb_eq. destruct (cm_coords m) as [|x [|y r]]; [split; intros [_ H]; discriminate| |split; intros [_ H]; discriminate]. rewrite String.eqb_eq. split; intros [A B]; split; congruence. }
  rewrite andb_false_iff, negb_false_iff. split.
  - intros [H|H] a I' O.
    + exfalso. assert (T : existsb (fun a => contains a (c_name c)) accumulations = true) by (apply existsb_exists; exists a; split; [exact I'|now apply contains_occurs]). congruence.
    + apply existsb_exists in H as (m & M & H). exists m. split; [exact M|now apply Ts].
  - intro H. destruct (existsb (fun a => contains a (c_name c)) accumulations) eqn:E; [|now left]. right. apply existsb_exists in E as (a & A & O). apply contains_occurs in O. destruct (H a A O) as (m & M & S1). apply existsb_exists. exists m. split; [exact M|now apply Ts].
Qed.
End cube.
