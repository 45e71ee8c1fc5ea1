(** C131: the blending commands: what is refused, which options have an effect, and what comes out. *)
From Verif Require Model_Probability.
From Verif Require Import Base Spec_Threshold Proofs_Weights Model_Blending Proofs_Blending Model_WeightBlend Props_WeightBlend Model_BlendCli.
Local Open Scope string_scope.
Local Open Scope list_scope.
Local Open Scope Q_scope.

(** ** weighted-blending *)
(** The combinations of options that contradict each other. *)
Definition nonzero (v : option Q) : Prop := exists x, v = Some x /\ ~ x == 0.
Inductive contradictory (o : options) : Prop :=
  | linear_and_c : o_method o = "linear" -> nonzero (o_c o) -> contradictory o
  | nonlinear_and_ends : o_method o = "nonlinear" -> nonzero (o_y0 o) \/ nonzero (o_yn o) -> contradictory o
  | dict_without_config : o_method o = "dict" -> o_config o = None -> contradictory o
  | models_without_id : about_models (o_coord o) = true -> o_model_id o = false -> contradictory o
  | record_without_id : o_record o = true -> o_model_id o = false -> contradictory o.
Lemma truthy_iff v : truthy v = true <-> nonzero v.
Proof.
  unfold truthy, nonzero. destruct v as [x|]; [|split; [discriminate|intros (? & [=] & _)]]. destruct (Qeqb_spec x 0) as [E|E]; cbn; split; try discriminate.
  - intros (y & [= <-] & N). now destruct N.
  - intros _. now exists x.
  - reflexivity.
Qed.
Definition checks (o : options) : bool :=
  ((o_method o =? "linear")%string && truthy (o_c o)) || ((o_method o =? "nonlinear")%string && (truthy (o_y0 o) || truthy (o_yn o))) || ((o_method o =? "dict")%string && match o_config o with None => true | Some _ => false end) ||
  (about_models (o_coord o) && negb (o_model_id o)) || (o_record o && negb (o_model_id o)).
Lemma checks_iff o : checks o = true <-> contradictory o.
Proof.
  unfold checks. rewrite !orb_true_iff, !andb_true_iff, orb_true_iff, !negb_true_iff, !truthy_iff, !String.eqb_eq. split.
  - intros [[[[(A & B)|(A & B)]|(A & B)]|(A & B)]|(A & B)].
    + now apply linear_and_c.
    + now apply nonlinear_and_ends.
    + apply dict_without_config; [exact A|]. now destruct (o_config o).
    + now apply models_without_id.
    + now apply record_without_id.
  - intros [A B|A B|A B|A B|A B]; [left; left; left; left|left; left; left; right|left; left; right; rewrite B|left; right|right]; now split.
Qed.
Lemma command_is {D} (blend : list (slice D * Q) -> result D) o cubes : weighted_blending blend o cubes =
  if checks o then Err RuntimeError else match method_of o with None => Err ValueError | Some m => weight_and_blend blend m (about_models (o_coord o)) (o_model_id o) (o_record o) cubes end.
Proof.
  unfold weighted_blending, checks. destruct (_ && truthy (o_c o)); [reflexivity|]. destruct (_ && (truthy _ || truthy _)); [reflexivity|]. destruct (_ && match o_config o with None => true | Some _ => false end); [reflexivity|].
  destruct (about_models _ && _); [reflexivity|]. destruct (o_record o && _); reflexivity.
Qed.
Lemma normalise_error w e : normalise_weights w = Err e -> e = ValueError.
Proof. unfold normalise_weights. destruct (_ =? _)%nat; [congruence|]. destruct (existsb _ _); [congruence|]. destruct (_ =? _); congruence. Qed.
Lemma number_error {D} (l : list (input D)) : forall k seen e, number_models k seen l = Err e -> e = ValueError.
Proof.
  induction l as [|x l IH]; intros k seen e H; cbn [number_models] in H; [discriminate|]. destruct (in_model x) as [s|]; [|congruence]. destruct (existsb _ seen); [congruence|].
  destruct (number_models (S k) (s :: seen) l) eqn:E; cbn [bind] in H; [discriminate|]. injection H as <-. eapply IH, E.
Qed.
Lemma dict_error {D} config (c : list (slice D)) e : mapM (dict_weight config) c = Err e -> e = KeyError.
Proof. induction c as [|s c IH]; cbn [mapM]; [discriminate|]. unfold dict_weight at 1. destruct (find _ config); cbn [bind]; [|congruence]. destruct (mapM _ c) eqn:E; cbn [bind]; [discriminate|]. intros [= <-]. now apply IH. Qed.
Lemma weights_error {D} m (c : list (slice D)) e : blending_weights m c = Err e -> e = ValueError \/ e = KeyError.
Proof.
  destruct m as [config|y0 yn|k inv]; cbn [blending_weights].
  - unfold check_config. destruct (forallb _ _); cbn [bind]; [|intros [= <-]; now left]. destruct (mapM _ c) eqn:E; cbn [bind]; [intro H; left; eapply normalise_error, H|]. intros [= <-]. right. eapply dict_error, E.
  - unfold linear_weights. destruct (y0 <? 0); [intros [= <-]; now left|]. destruct (_ =? 1)%nat; [discriminate|]. intro H. left. eapply normalise_error, H.
  - unfold nonlinear_process. cbv zeta. match goal with |- context [nonlinear_weights k ?n] => destruct (nonlinear_weights k n) eqn:E end; cbn [bind].
    + unfold build_weights_cube. destruct (_ =? _)%nat; cbn [bind]; [discriminate|]. intros [= <-]. now left.
    + intros [= <-]. left. unfold nonlinear_weights in E. destruct ((k <=? 0) || (1 <? k)); [congruence|]. eapply normalise_error, E.
Qed.
Lemma plugin_error n m model id record cubes e : weight_and_blend (blend_means n) m model id record cubes = Err e -> e <> RuntimeError.
Proof.
  unfold weight_and_blend. destruct (record && negb id); [congruence|]. destruct (model && negb id); [congruence|]. destruct (merged model cubes) as [c|e'] eqn:M; cbn [bind].
  - assert (G : forall e, (let* w := blending_weights m c in match nonzero_weighted (combine c w) with [(s, _)] => Ok (sl_data s) | kept => blend_means n kept end) = Err e -> e <> RuntimeError).
    { intros x X. destruct (blending_weights m c) as [w|y] eqn:B; cbn [bind] in X; [|injection X as <-; destruct (weights_error _ _ _ B) as [-> | ->]; discriminate].
      assert (Z : blend_means n (nonzero_weighted (combine c w)) = Err x -> x <> RuntimeError) by (intro Z; rewrite (blend_means_error _ _ _ Z); discriminate).
      destruct (nonzero_weighted (combine c w)) as [|[s k] [|p q]]; [now apply Z|discriminate|now apply Z]. }
    destruct c as [|s [|t r]]; [exact (G e)|discriminate|exact (G e)].
  - intros [= <-]. unfold merged in M. destruct cubes as [|x l]; [injection M as <-; discriminate|]. destruct model; [rewrite (number_error _ _ _ _ M); discriminate|]. cbv zeta in M. destruct (distinct_b _); [discriminate|]. injection M as <-. discriminate.
Qed.
(** Contradictory options are refused as such whatever the cubes, and nothing else is; an unknown method is refused too. *)
Theorem C131_refused {D} (blend : list (slice D * Q) -> result D) o cubes : contradictory o -> weighted_blending blend o cubes = Err RuntimeError.
Proof. intro C. rewrite command_is. now rewrite (proj2 (checks_iff o) C). Qed.
Theorem C131_refused_only n o cubes : weighted_blending (blend_means n) o cubes = Err RuntimeError -> contradictory o.
Proof.
  rewrite command_is. destruct (checks o) eqn:E; [intros _; now apply checks_iff|]. destruct (method_of o); [|discriminate]. intro H. now apply plugin_error in H.
Qed.
Theorem C131_method {D} (blend : list (slice D * Q) -> result D) o cubes : ~ In (o_method o) ["linear"; "nonlinear"; "dict"] -> exists e, weighted_blending blend o cubes = Err e /\ (e = RuntimeError \/ e = ValueError).
Proof.
  intro N. rewrite command_is. destruct (checks o); [exists RuntimeError; auto|]. exists ValueError. split; [|now right]. unfold method_of.
  destruct (String.eqb_spec (o_method o) "dict") as [E|]; [exfalso; apply N; rewrite E; cbn; auto|]. destruct (String.eqb_spec (o_method o) "linear") as [E|]; [exfalso; apply N; rewrite E; cbn; auto|]. destruct (String.eqb_spec (o_method o) "nonlinear") as [E|]; [exfalso; apply N; rewrite E; cbn; auto|]. reflexivity.
Qed.
(** Options of other methods have no effect on what is accepted: two runs with the same method and coordinate and the same values for that method give the same. *)
Definition same_method_options (a b : options) : Prop :=
  o_method a = o_method b /\ o_coord a = o_coord b /\ o_model_id a = o_model_id b /\ o_record a = o_record b /\
  (o_method a = "linear" -> o_y0 a = o_y0 b /\ o_yn a = o_yn b) /\ (o_method a = "nonlinear" -> o_c a = o_c b) /\ (o_method a = "dict" -> o_config a = o_config b).
Theorem C131_unused {D} (blend : list (slice D * Q) -> result D) a b cubes : same_method_options a b -> ~ contradictory a -> ~ contradictory b -> weighted_blending blend a cubes = weighted_blending blend b cubes.
Proof.
  intros (M & C & I' & R & L & N & G) A B. rewrite !command_is. destruct (checks a) eqn:Ea; [exfalso; now apply A, checks_iff|]. destruct (checks b) eqn:Eb; [exfalso; now apply B, checks_iff|].
  assert (E : method_of a = method_of b).
  { unfold method_of. rewrite <- M. destruct (String.eqb_spec (o_method a) "dict") as [X|]; [now rewrite (G X)|]. destruct (String.eqb_spec (o_method a) "linear") as [X|]; [destruct (L X) as (-> & ->); reflexivity|]. destruct (String.eqb_spec (o_method a) "nonlinear") as [X|]; [now rewrite (N X)|reflexivity]. }
  now rewrite E, C, I', R.
Qed.
(** What is accepted is blended by the plugin: between the values of the cubes at each point, masked only where one of them is. *)
Theorem C131_between n o cubes out : on_grid n cubes -> weighted_blending (blend_means n) o cubes = Ok out -> forall g, (g < n)%nat ->
  (forall v lo hi, nth g out None = Some v -> (forall x u, In x cubes -> nth g (in_data x) None = Some u -> lo <= u <= hi) -> lo <= v <= hi) /\
  ((forall x, In x cubes -> nth g (in_data x) None = None) -> nth g out None = None) /\ ((forall x, In x cubes -> nth g (in_data x) None <> None) -> nth g out None <> None).
Proof. intros G H. rewrite command_is in H. destruct (checks o); [discriminate|]. destruct (method_of o) as [m|]; [|discriminate]. exact (C99_bounds n m _ _ _ cubes out G H). Qed.
(** With the linear method the shares of the cubes, in order of the coordinate, lie on the straight line from the one end value to the other; with the nonlinear method each is the factor times the one before; both ends and the factor are needed as soon as there are two cubes. *)
Theorem C131_line n o cubes out y0 yn : on_grid n cubes -> o_method o = "linear" -> o_y0 o = Some y0 -> o_yn o = Some yn -> about_models (o_coord o) = false -> weighted_blending (blend_means n) o cubes = Ok out ->
  exists c w, merged_slices false cubes c /\ ascending c /\ length w = length c /\ Forall (fun x => 0 <= x) w /\ qsum w == 1 /\
    ((2 <= length c)%nat -> exists k, 0 < k /\ forall i, (i < length c)%nat -> nth i w 0 == k * (y0 + (yn - y0) * (Qn i / Qn (length c - 1)))) /\
    forall g, (g < n)%nat -> oeq (nth g out None) (mean_at c w g).
Proof.
  intros G M Y0 YN A H. rewrite command_is in H. destruct (checks o); [discriminate|]. unfold method_of in H. rewrite M, Y0, YN, A in H. cbn [String.eqb Ascii.eqb Bool.eqb] in H.
  destruct (C99_means _ _ _ _ _ _ _ G H) as (c & w & MS & As & W & L & V). exists c, w. destruct (weighted_length _ _ _ W) as (Lw & F & S1). split; [exact MS|]. split; [exact As|]. split; [exact Lw|]. split; [exact F|]. split; [exact S1|]. split; [|exact V].
  intro L2. destruct W as [(L1 & _)|(_ & _ & _ & _ & k & Kp & K)]; [lia|]. exists k. split; [exact Kp|]. intros i I'. destruct (K i I') as (x & X & ->). cbn [raw] in X. rewrite X. unfold Qdiv. now rewrite Qmult_assoc.
Qed.
Theorem C131_powers n o cubes out f : on_grid n cubes -> o_method o = "nonlinear" -> o_c o = Some f -> about_models (o_coord o) = false -> weighted_blending (blend_means n) o cubes = Ok out ->
  exists c w, merged_slices false cubes c /\ ascending c /\ length w = length c /\ Forall (fun x => 0 <= x) w /\ qsum w == 1 /\
    ((2 <= length c)%nat -> forall i, (S i < length c)%nat -> nth (S i) w 0 == f * nth i w 0) /\ forall g, (g < n)%nat -> oeq (nth g out None) (mean_at c w g).
Proof.
  intros G M C A H. rewrite command_is in H. destruct (checks o); [discriminate|]. unfold method_of in H. rewrite M, C, A in H. cbn [String.eqb Ascii.eqb Bool.eqb unless] in H.
  destruct (C99_means _ _ _ _ _ _ _ G H) as (c & w & MS & As & W & L & V). exists c, w. destruct (weighted_length _ _ _ W) as (Lw & F & S1). split; [exact MS|]. split; [exact As|]. split; [exact Lw|]. split; [exact F|]. split; [exact S1|]. split; [|exact V].
  intros L2 i I'. destruct W as [(L1 & _)|(_ & _ & _ & _ & k & Kp & K)]; [lia|]. destruct (K i ltac:(lia)) as (x & X & ->). destruct (K (S i) I') as (y & Y & ->). cbn [raw qpow] in X, Y. rewrite X, Y. ring.
Qed.
Theorem C131_needed {D} (blend : list (slice D * Q) -> result D) o cubes c : ~ contradictory o -> merged (about_models (o_coord o)) cubes = Ok c ->
  (o_method o = "linear" /\ (o_y0 o = None \/ o_yn o = None)) \/ (o_method o = "nonlinear" /\ o_c o = None) ->
  weighted_blending blend o cubes = match c with [s] => Ok (sl_data s) | _ => Err ValueError end.
Proof.
  intros N Mg H. rewrite command_is. destruct (checks o) eqn:E; [exfalso; now apply N, checks_iff|].
  assert (G : exists m, method_of o = Some m /\ forall l : list (slice D), blending_weights m l = Err ValueError).
  { unfold method_of. destruct H as [(-> & H)|(-> & H)]; cbn [String.eqb Ascii.eqb Bool.eqb].
    - exists (Linear (-1) 0). split; [destruct H as [-> | ->]; [reflexivity|now destruct (o_y0 o)]|]. reflexivity.
    - rewrite H. exists (NonLinear 0 false). split; reflexivity. }
  destruct G as (m & -> & B). assert (R1 : o_record o && negb (o_model_id o) = false /\ about_models (o_coord o) && negb (o_model_id o) = false).
  { unfold checks in E. rewrite !orb_false_iff in E. tauto. }
  unfold weight_and_blend. rewrite (proj1 R1), (proj2 R1), Mg. cbn [bind]. destruct c as [|s [|t r]]; [rewrite B; reflexivity|reflexivity|rewrite B; reflexivity].
Qed.
(** "RuntimeError: If calc_method is linear and cval is not None" (and likewise for the ends with nonlinear): not if they are zero. *)
Definition sample_options m y0 yn c : options := {| o_method := m; o_coord := "forecast_period"; o_y0 := y0; o_yn := yn; o_c := c; o_config := None; o_model_id := false; o_record := false |}.
Definition field_of (p : Q) (v : list (option Q)) : input (list (option Q)) := {| in_model := None; in_point := p; in_lead := p; in_time := 0; in_data := v |}.
Theorem C131_zero_refuted : let cubes := [field_of 1 [Some 10]; field_of 2 [Some 20]] in
  (exists out, weighted_blending (blend_means 1) (sample_options "linear" (Some 1) (Some 3) (Some 0)) cubes = Ok [Some out] /\ out == 35 # 2) /\
  (exists out, weighted_blending (blend_means 1) (sample_options "nonlinear" (Some 0) (Some 0) (Some (1 # 4))) cubes = Ok [Some out] /\ out == 12).
Proof. cbv zeta. split; eexists; (split; [vm_compute; reflexivity|vm_compute; reflexivity]). Qed.

(** ** blend-with-vicinity-and-rename *)
Definition says (n : option string) : Prop := exists s, n = Some s /\ s <> "".
Theorem C131_vicinity {D} (blend : list (slice D * Q) -> result D) name radius o cubes out : blend_with_vicinity blend name radius o cubes = Ok out <->
  (says name \/ nonzero radius) /\ weighted_blending blend o (map fst cubes) = Ok (fst out) /\ snd out = update_vicinity name radius (blended_vicinity (map snd cubes)).
Proof.
  unfold blend_with_vicinity. assert (G : match name with Some n => (n =? "")%string | None => true end = false <-> says name).
  { unfold says. destruct name as [n|]; [|split; [discriminate|intros (? & [=] & _)]]. rewrite String.eqb_neq. split; [intro H; now exists n|intros (s & [= <-] & H); exact H]. }
  destruct (match name with Some n => (n =? "")%string | None => true end) eqn:E1; cbn [andb].
  - destruct (truthy radius) eqn:E2; cbn [negb].
    + destruct (weighted_blending blend o (map fst cubes)) as [d|]; cbn [bind]; split.
      * intros [= <-]. cbn [fst snd]. split; [right; now apply truthy_iff|]. split; reflexivity.
      * intros (_ & [= ->] & <-). now destruct out.
      * discriminate.
      * now intros (_ & [=] & _).
    + split; [discriminate|]. intros ([X|X] & _); [apply G in X; discriminate|apply truthy_iff in X; congruence].
  - assert (Sn : says name) by now apply G. destruct (weighted_blending blend o (map fst cubes)) as [d|]; cbn [bind]; split.
    + intros [= <-]. cbn [fst snd]. split; [now left|]. split; reflexivity.
    + intros (_ & [= ->] & <-). now destruct out.
    + discriminate.
    + now intros (_ & [=] & _).
Qed.
(** The cube gets the new name and the radius given; the radius is marked as a maximum exactly if the blended cube had none, as when the cubes' radii differ. *)
Theorem C131_vicinity_name {D} (blend : list (slice D * Q) -> result D) name radius o cubes out : cubes <> [] -> blend_with_vicinity blend name radius o cubes = Ok out ->
  (forall s, name = Some s -> s <> "" -> v_name (snd out) = s) /\ (~ says name -> forall s, (forall c, In c cubes -> v_name (snd c) = s) -> v_name (snd out) = s) /\
  (forall r, radius = Some r -> ~ r == 0 -> exists m, v_radius (snd out) = Some (r, m) /\
     (m = false <-> exists a k, forall c, In c cubes -> exists b, v_radius (snd c) = Some (b, k) /\ b == a)).
Proof.
  intros Ne H. apply C131_vicinity in H as (_ & _ & ->). unfold update_vicinity. cbn [v_name v_radius]. split; [|split].
  - intros s -> N. now apply String.eqb_neq in N as ->.
  - intros N s A. replace (match name with Some n => if (n =? "")%string then v_name (blended_vicinity (map snd cubes)) else n | None => v_name (blended_vicinity (map snd cubes)) end) with (v_name (blended_vicinity (map snd cubes))).
    + destruct cubes as [|c l]; [congruence|]. cbn [map blended_vicinity v_name]. apply A. now left.
    + destruct name as [n|]; [|reflexivity]. destruct (String.eqb_spec n "") as [|X]; [reflexivity|]. exfalso. apply N. now exists n.
  - intros r -> N. destruct (Qeqb_spec r 0) as [E|_]; [now destruct N|]. eexists. split; [reflexivity|]. destruct cubes as [|c l]; [congruence|]. cbn [map blended_vicinity v_radius]. destruct (v_radius (snd c)) as [[a k]|] eqn:E.
    + destruct (forallb _ (map snd l)) eqn:F; cbn; split; try discriminate.
      * intros _. exists a, k. intros d [<-|D']; [exists a; split; [exact E|reflexivity]|]. rewrite forallb_forall in F. specialize (F (snd d) (in_map snd _ _ D')). destruct (v_radius (snd d)) as [[b k']|]; [|discriminate]. apply andb_prop in F as (F1 & F2). apply Bool.eqb_prop in F2. subst k'. exists b. split; [reflexivity|]. apply Qeq_bool_iff in F1. now symmetry.
      * reflexivity.
      * intros (a' & k' & A). exfalso. assert (T : forallb (fun w => match v_radius w with Some (b, m') => (a =? b) && Bool.eqb k m' | None => false end) (map snd l) = true).
        { apply forallb_forall. intros w W. apply in_map_iff in W as (d & <- & D'). destruct (A c (or_introl eq_refl)) as (b0 & E0 & B0). destruct (A d (or_intror D')) as (b & -> & B). rewrite E in E0. injection E0 as -> ->. apply andb_true_intro. split; [apply Qeq_bool_iff; now rewrite B0, B|apply Bool.eqb_reflx]. }
        congruence.
    + split; [discriminate|]. intros (a & k & A). destruct (A c (or_introl eq_refl)) as (b & X & _). congruence.
Qed.
(** A radius of zero counts as none: alone it is refused, and with a name the vicinity stays what it was. *)
Theorem C131_zero_radius {D} (blend : list (slice D * Q) -> result D) name o cubes : blend_with_vicinity blend name (Some 0) o cubes = blend_with_vicinity blend name None o cubes.
Proof. reflexivity. Qed.

(** ** blend-adjacent-points *)
Definition lasts (b : Z * Z) : Q := inject_Z (Z.abs (snd b - fst b)).
Definition alike (x y : Q) : Prop := Qabs (x - y) <= (1 # 100000000) + (1 # 100000) * Qabs y.
Lemma ranges_iff l : Model_Manip.check_ranges l = Ok tt <-> forall b r, l = b :: r -> forall c, In c l -> alike (lasts c) (lasts b).
Proof.
  assert (Self : forall x, alike x x). { intro x. unfold alike. assert (E : x - x == 0) by ring. rewrite E. change (Qabs 0) with 0. pose proof (Qabs_nonneg x). lra. }
  unfold Model_Manip.check_ranges. destruct l as [|b [|c r]].
  - split; [intros _ ? ? [=]|reflexivity].
  - split; [|reflexivity]. intros _ b' r [= <- <-] c [<-|[]]. apply Self.
  - set (l := b :: c :: r). destruct (forallb _ l) eqn:F.
    + split; [|reflexivity]. intros _ b' r' E d D'. injection E as <- <-. rewrite forallb_forall in F. specialize (F d D'). unfold Model_Manip.near in F. now apply Qle_bool_iff in F.
    + split; [discriminate|]. intro H. exfalso. assert (T : forallb (fun d => Model_Manip.near (inject_Z (Z.abs (snd d - fst d))) (inject_Z (Z.abs (snd b - fst b)))) l = true); [|congruence]. apply forallb_forall. intros d D'. unfold Model_Manip.near. apply Qle_bool_iff. exact (H b (c :: r) eq_refl d D').
Qed.
Definition bounds_of {D} (l : list (input D * option (Z * Z))) : list (Z * Z) := flat_map (fun e => match snd e with Some b => [b] | None => [] end) l.
Lemma merged_in {D} (xs : list (input D)) c : merged false xs = Ok c -> forall (P : input D -> Prop), (forall s, In s c -> P {| in_model := None; in_point := sl_point s; in_lead := sl_lead s; in_time := sl_time s; in_data := sl_data s |}) <-> (forall x, In x xs -> P {| in_model := None; in_point := in_point x; in_lead := in_lead x; in_time := in_time x; in_data := in_data x |}).
Proof.
  intros M P. destruct (C99_merged false xs c M) as (_ & _ & S'). cbn in S'. split.
  - intros H x X. pose proof (in_map (fun x => slice_of (in_point x) (Point (in_point x)) x) _ _ X) as Y. apply (Permutation_in _ S') in Y. exact (H _ Y).
  - intros H s X. apply (Permutation_in _ (Permutation_sym S')) in X. apply in_map_iff in X as (x & <- & X). exact (H x X).
Qed.
Lemma merged_some {D} (xs : list (input D)) c : merged false xs = Ok c -> forall (P : input D -> Prop), (exists s, In s c /\ P {| in_model := None; in_point := sl_point s; in_lead := sl_lead s; in_time := sl_time s; in_data := sl_data s |}) <-> (exists x, In x xs /\ P {| in_model := None; in_point := in_point x; in_lead := in_lead x; in_time := in_time x; in_data := in_data x |}).
Proof.
  intros M P. destruct (C99_merged false xs c M) as (_ & _ & S'). cbn in S'. split.
  - intros (s & X & H). apply (Permutation_in _ (Permutation_sym S')) in X. apply in_map_iff in X as (x & <- & X). exists x. split; [exact X|exact H].
  - intros (x & X & H). pose proof (in_map (fun x => slice_of (in_point x) (Point (in_point x)) x) _ _ X) as Y. apply (Permutation_in _ S') in Y. exists (slice_of (in_point x) (Point (in_point x)) x). split; [exact Y|exact H].
Qed.
Lemma check_ranges_cases l : Model_Manip.check_ranges l = Ok tt \/ Model_Manip.check_ranges l = Err ValueError.
Proof. unfold Model_Manip.check_ranges. destruct l as [|b [|c r]]; auto. destruct (forallb _ _); auto. Qed.
Lemma merge_slices_iff {D} check (l : list (input D * option (Z * Z))) c : merge_slices check l = Ok c <-> merged false (map fst l) = Ok c /\ (check = true -> Model_Manip.check_ranges (bounds_of l) = Ok tt).
Proof.
  unfold merge_slices. fold (bounds_of l). destruct (merged false (map fst l)) as [c'|]; cbn [bind]; [|split; [discriminate|intros ([=] & _)]]. destruct check.
  - destruct (check_ranges_cases (bounds_of l)) as [-> | ->]; cbn [bind]; split; intro H; try discriminate.
    + split; [exact H|reflexivity].
    + exact (proj1 H).
    + destruct H as (_ & H). discriminate (H eq_refl).
  - cbn [bind]. split; [intro H; split; [exact H|discriminate]|now intros (H & _)].
Qed.
Lemma adjacent_inv {D} (blend : list (slice D * Q) -> result D) coord by_period u point width (cubes : list (input D * option (Z * Z))) out :
  blend_adjacent merge_slices blend coord by_period u point width cubes = Ok out <->
  Model_Probability.contains "time" coord = false /\ (by_period = true -> coord = "forecast_period" /\ Model_Manip.check_ranges (bounds_of cubes) = Ok tt) /\
  exists c w, merged false (map fst cubes) = Ok c /\ width = Some w /\ triangular_blend blend u point w c = Ok out.
Proof.
  unfold blend_adjacent. destruct (Model_Probability.contains "time" coord); [split; [discriminate|intros ([=] & _)]|].
  assert (G : forall c, (if by_period && (coord =? "forecast_period")%string then merge_slices true cubes else if by_period then Err ValueError else merge_slices false cubes) = Ok c <->
     merged false (map fst cubes) = Ok c /\ (by_period = true -> coord = "forecast_period" /\ Model_Manip.check_ranges (bounds_of cubes) = Ok tt)).
  { intro c. destruct by_period; cbn [andb].
    - destruct (String.eqb_spec coord "forecast_period") as [E|E]; [|split; [discriminate|intros (_ & H); destruct (H eq_refl) as (X & _); congruence]]. rewrite merge_slices_iff. split; intros (A & B); (split; [exact A|]); intros _; [split; [exact E|now apply B]|exact (proj2 (B eq_refl))].
    - rewrite merge_slices_iff. split; intros (A & _); (split; [exact A|discriminate]). }
  destruct (if by_period && _ then _ else _) as [c|e] eqn:E; cbn [bind].
  - destruct (proj1 (G c) eq_refl) as (M & B). split.
    + intro H. split; [reflexivity|]. split; [exact B|]. destruct width as [w|]; [exists c, w; auto|]. destruct (central _ c); discriminate.
    + intros (_ & _ & c' & w & M' & -> & H). rewrite M in M'. injection M' as ->. exact H.
  - split; [discriminate|]. intros (_ & B & c & w & M & _ & _). discriminate (proj2 (G c) (conj M B)).
Qed.
Lemma merged_grid n (cubes : list (input (list (option Q)) * option (Z * Z))) c : Forall (fun e => length (in_data (fst e)) = n) cubes -> merged false (map fst cubes) = Ok c -> on_points n c.
Proof.
  intros G M. destruct (C99_merged _ _ _ M) as (_ & A & _). split; [apply distinct_sorted; exact A|]. apply Forall_forall. apply (merged_in _ c M (fun x => length (in_data x) = n)). intros x X. apply in_map_iff in X as (e & <- & X). rewrite Forall_forall in G. exact (G e X).
Qed.
(** Accepted: coordinates without "time" in their name; the option for blending over time only with the forecast period, and then only if all bounds are as long as the first; a width; distinct points one of which is the central one. *)
Theorem C131_adjacent n coord by_period u point width (cubes : list (input (list (option Q)) * option (Z * Z))) : Forall (fun e => length (in_data (fst e)) = n) cubes ->
  ((exists out, blend_adjacent merge_slices (blend_means_over_time n) coord by_period u point width cubes = Ok out) <->
   Model_Probability.contains "time" coord = false /\ (by_period = true -> coord = "forecast_period" /\ forall b r, bounds_of cubes = b :: r -> forall c, In c (bounds_of cubes) -> alike (lasts c) (lasts b)) /\
   distinct (map (fun e => in_point (fst e)) cubes) /\ (exists e, In e cubes /\ in_point (fst e) == convert u point) /\ exists w, width = Some w /\ 0 < convert u w) /\
  forall out, blend_adjacent merge_slices (blend_means_over_time n) coord by_period u point width cubes = Ok out -> exists w, width = Some w /\
    (exists e, In e cubes /\ in_point (fst e) == convert u point /\ sl_point out == convert u point /\ sl_time out = in_time (fst e)) /\ length (sl_data out) = n /\
    forall g, (g < n)%nat -> let near e := Qabs (in_point (fst e) - convert u point) < convert u w in
      (forall v lo hi, nth g (sl_data out) None = Some v -> (forall e x, In e cubes -> near e -> nth g (in_data (fst e)) None = Some x -> lo <= x <= hi) -> lo <= v <= hi) /\
      (nth g (sl_data out) None = None <-> forall e, In e cubes -> near e -> nth g (in_data (fst e)) None = None).
Proof.
  intro G. split.
  - split.
    + intros (out & H). apply adjacent_inv in H as (T & B & c & w & M & W & H). pose proof (merged_grid n cubes c G M) as OP. destruct (C100_blend n u point w c OP) as (Ex & _). destruct (proj1 Ex (ex_intro _ out H)) as (Ce & Wp).
      split; [exact T|]. split; [intro X; destruct (B X) as (B1 & B2); split; [exact B1|now apply ranges_iff]|]. split; [|split; [|now exists w]].
      * destruct (proj1 (C99_mergeable false (map fst cubes)) (ex_intro _ c M)) as (_ & X). now rewrite map_map in X.
      * apply (merged_some _ c M (fun x => in_point x == convert u point)) in Ce as (x & X & E). apply in_map_iff in X as (e & <- & X). exists e. split; [exact X|exact E].
    + intros (T & B & Di & (e & E1 & E2) & w & W & Wp). assert (Mg : exists c, merged false (map fst cubes) = Ok c). { apply C99_mergeable. split; [destruct cubes; [destruct E1|discriminate]|]. now rewrite map_map. }
      destruct Mg as (c & M). pose proof (merged_grid n cubes c G M) as OP. destruct (C100_blend n u point w c OP) as (Ex & _). destruct (proj2 Ex) as (out & H).
      { split; [|exact Wp]. apply (merged_some _ c M (fun x => in_point x == convert u point)). exists (fst e). split; [now apply in_map|exact E2]. }
      exists out. apply adjacent_inv. split; [exact T|]. split; [intro X; destruct (B X) as (B1 & B2); split; [exact B1|now apply ranges_iff]|]. exists c, w. auto.
  - intros out H. apply adjacent_inv in H as (_ & _ & c & w & M & W & H). pose proof (merged_grid n cubes c G M) as OP. exists w. split; [exact W|]. destruct (C100_blend n u point w c OP) as (_ & V). destruct (V out H) as (s & S1 & S2 & S3 & S4 & _ & _ & L & _). split; [|split; [exact L|]].
    + pose proof (proj1 (merged_some _ c M (fun x => in_point x == convert u point /\ in_time x = sl_time s)) (ex_intro _ s (conj S1 (conj S2 eq_refl)))) as (x & X & E & Ti). apply in_map_iff in X as (e & <- & X). exists e. split; [exact X|]. split; [exact E|]. split; [now rewrite S3|now rewrite S4].
    + intros g Hg. cbv zeta. destruct (C100_window n u point w c out g OP H Hg) as (B & N). split.
      * intros v lo hi Ev Bd. apply (B v lo hi Ev). intros t x T Nr Ex. pose proof (proj2 (merged_in _ c M (fun y => forall x, Qabs (in_point y - convert u point) < convert u w -> nth g (in_data y) None = Some x -> lo <= x <= hi))) as Y. cbn in Y. refine (Y _ t T x Nr Ex). intros y Yi z Nz Ez. apply in_map_iff in Yi as (e & <- & Yi). exact (Bd e z Yi Nz Ez).
      * rewrite N. pose proof (merged_in _ c M (fun y => Qabs (in_point y - convert u point) < convert u w -> nth g (in_data y) None = None)) as Y. cbn in Y. rewrite Y. split.
        -- intros Z e E Nr. exact (Z (fst e) (in_map fst _ _ E) Nr).
        -- intros Z x X Nr. apply in_map_iff in X as (e & <- & X). exact (Z e X Nr).
Qed.

(** Concrete runs: two cycles blended linearly; the same with a factor; the adjacent points of a forecast period. *)
Example C131_case : let cubes := [field_of 2 [Some 20; None]; field_of 1 [Some 10; Some 4]] in let o := sample_options "linear" (Some 1) (Some 3) None in
  on_grid 2 cubes /\ ~ contradictory o /\ contradictory (sample_options "linear" (Some 1) (Some 3) (Some (1 # 2))) /\
  (exists a b, weighted_blending (blend_means 2) o cubes = Ok [Some a; Some b] /\ a == 35 # 2 /\ b == 4) /\
  (exists a b, weighted_blending (blend_means 2) (sample_options "nonlinear" None None (Some (1 # 4))) cubes = Ok [Some a; Some b] /\ a == 12 /\ b == 4) /\
  weighted_blending (blend_means 2) (sample_options "linear" None None None) cubes = Err ValueError /\
  weighted_blending (blend_means 2) (sample_options "linear" None None None) [field_of 1 [Some 10; Some 4]] = Ok [Some 10; Some 4] /\
  weighted_blending (blend_means 2) (sample_options "cubic" None None None) cubes = Err ValueError.
Proof.
  cbv zeta. split; [repeat constructor|]. split; [intro C; apply checks_iff in C; vm_compute in C; discriminate|]. split; [apply checks_iff; reflexivity|].
  split; [eexists; eexists; split; [vm_compute; reflexivity|split; reflexivity]|]. split; [eexists; eexists; split; [vm_compute; reflexivity|split; reflexivity]|]. repeat split; vm_compute; reflexivity.
Qed.
Example C131_vicinity_case : let cube v r := (field_of v [Some v], {| v_name := "lightning"; v_radius := Some (r, false) |}) in let o := sample_options "linear" (Some 1) (Some 1) None in
  (exists a, blend_with_vicinity (blend_means 1) (Some "in_vicinity") (Some 50000) o [cube 1 25000; cube 2 50000] = Ok ([Some a], {| v_name := "in_vicinity"; v_radius := Some (50000, true) |}) /\ a == 3 # 2) /\
  (exists a, blend_with_vicinity (blend_means 1) None (Some 60000) o [cube 1 50000; cube 2 50000] = Ok ([Some a], {| v_name := "lightning"; v_radius := Some (60000, false) |}) /\ a == 3 # 2) /\
  blend_with_vicinity (blend_means 1) None (Some 0) o [cube 1 50000] = Err ValueError.
Proof. cbv zeta. split; [eexists; split; [vm_compute; reflexivity|reflexivity]|]. split; [eexists; split; [vm_compute; reflexivity|reflexivity]|]. reflexivity. Qed.
Example C131_adjacent_case : let cubes := [(field_of 0 [Some 0], Some (0, 3600)%Z); (field_of 1 [Some 8], Some (3600, 7200)%Z); (field_of 2 [Some 100], Some (7200, 10800)%Z)] in
  (exists out a, blend_adjacent merge_slices (blend_means_over_time 1) "forecast_period" true None 1 (Some (4 # 2)) cubes = Ok out /\ sl_point out = 1 /\ sl_data out = [Some a] /\ a == 29) /\
  blend_adjacent merge_slices (blend_means_over_time 1) "time" false None 1 (Some 2) cubes = Err ValueError /\
  blend_adjacent merge_slices (blend_means_over_time 1) "height" true None 1 (Some 2) cubes = Err ValueError /\
  blend_adjacent merge_slices (blend_means_over_time 1) "forecast_period" true None 1 (Some 2) ((field_of 3 [Some 1], Some (0, 1800)%Z) :: cubes) = Err ValueError.
Proof. cbv zeta. split; [eexists; eexists; split; [vm_compute; reflexivity|split; [reflexivity|split; [reflexivity|reflexivity]]]|]. repeat split; vm_compute; reflexivity. Qed.

Print Assumptions C131_refused.
Print Assumptions C131_refused_only.
Print Assumptions C131_method.
Print Assumptions C131_unused.
Print Assumptions C131_between.
Print Assumptions C131_line.
Print Assumptions C131_powers.
Print Assumptions C131_needed.
Print Assumptions C131_zero_refuted.
Print Assumptions C131_vicinity.
Print Assumptions C131_vicinity_name.
Print Assumptions C131_zero_radius.
Print Assumptions C131_adjacent.
