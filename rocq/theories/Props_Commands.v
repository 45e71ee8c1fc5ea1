(** C132, C133, C134: the commands for lapse rates, for normalising to a reference and for downscaling winds. *)
From Verif Require Import Base Model_Nbhood Model_Lapse Props_Lapse Model_Reference Spec_Reference Proofs_Reference Props_Reference Model_Commands.
Local Open Scope string_scope.
Local Open Scope list_scope.
Local Open Scope Q_scope.

Lemma Ok_inj {A} (x y : A) : Ok x = Ok y -> x = y.
Proof. now intros [= ->]. Qed.
(** ** C132: temp-lapse-rate *)
Definition sane (p : lapse_params) : Prop := min_lapse_rate p <= max_lapse_rate p /\ 0 <= max_height_diff p /\ (0 <= nbhood_radius p)%Z.
Lemma checks_are {A} p (r : result A) : sane p -> (if max_lapse_rate p <? min_lapse_rate p then Err ValueError else if max_height_diff p <? 0 then Err ValueError else if (nbhood_radius p <? 0)%Z then Err ValueError else r) = r.
Proof. intros (A1 & A2 & A3). rewrite (proj2 (Qltb_ge _ _) A1), (proj2 (Qltb_ge _ _) A2), (proj2 (Z.ltb_ge _ _) A3). reflexivity. Qed.
Lemma checks_fail {A} p (r : result A) : ~ sane p -> (if max_lapse_rate p <? min_lapse_rate p then Err ValueError else if max_height_diff p <? 0 then Err ValueError else if (nbhood_radius p <? 0)%Z then Err ValueError else r) = Err ValueError.
Proof.
  intro N. destruct (Qltb_spec (max_lapse_rate p) (min_lapse_rate p)) as [|A1]; [reflexivity|]. destruct (Qltb_spec (max_height_diff p) 0) as [|A2]; [reflexivity|]. destruct (Z.ltb_spec (nbhood_radius p) 0) as [|A3]; [reflexivity|]. exfalso. apply N. split; [lra|]. split; [lra|lia].
Qed.
Lemma sane_init p : sane p -> lapse_init p = Ok p.
Proof. intros (A & B & C). apply C56_accepted. auto. Qed.
(** What is refused, and as what: limits or sizes that make no sense before missing files. *)
Theorem C132_refused p h w rs temps o l : (~ sane p -> temp_lapse_rate false p h w rs temps o l = Err ValueError) /\
  (sane p -> o = None \/ l = None -> temp_lapse_rate false p h w rs temps o l = Err RuntimeError).
Proof.
  unfold temp_lapse_rate. split; [apply checks_fail|]. intros S' H. rewrite checks_are by exact S'. destruct o, l; try reflexivity. destruct H; discriminate.
Qed.
Theorem C132_accepted dry p h w rs temps o l : (exists out, temp_lapse_rate dry p h w rs temps o l = Ok out) <->
  dry = true \/ (sane p /\ o <> None /\ l <> None /\ (rs = false -> h <> 1%Z /\ w <> 1%Z)).
Proof.
  destruct dry; [split; [now left|intros _; unfold temp_lapse_rate; eauto]|]. split.
  - intros (out & H). right. assert (S' : sane p). { unfold sane. destruct (Qlt_le_dec (max_lapse_rate p) (min_lapse_rate p)); [exfalso; rewrite (proj1 (C132_refused p h w rs temps o l)) in H; [discriminate|unfold sane; lra]|]. destruct (Qlt_le_dec (max_height_diff p) 0); [exfalso; rewrite (proj1 (C132_refused p h w rs temps o l)) in H; [discriminate|unfold sane; lra]|]. destruct (Z_lt_le_dec (nbhood_radius p) 0); [exfalso; rewrite (proj1 (C132_refused p h w rs temps o l)) in H; [discriminate|unfold sane; lia]|]. auto. }
    split; [exact S'|]. unfold temp_lapse_rate in H. rewrite checks_are in H by exact S'. destruct o as [o|]; [|discriminate]. destruct l as [l|]; [|discriminate]. rewrite sane_init in H by exact S'. cbn [bind] in H. split; [discriminate|]. split; [discriminate|]. intros ->. cbn [negb andb] in H.
    destruct (Z.eqb_spec h 1); [discriminate|]. destruct (Z.eqb_spec w 1); [discriminate|]. auto.
  - intros [|(S' & No & Nl & G)]; [discriminate|]. unfold temp_lapse_rate. rewrite checks_are by exact S'. destruct o as [o|]; [|congruence]. destruct l as [l|]; [|congruence]. rewrite sane_init by exact S'. cbn [bind]. destruct rs; cbn [negb andb]; [eauto|]. destruct (G eq_refl) as (A & B). apply Z.eqb_neq in A, B. rewrite A, B. cbn. eauto.
Qed.
(** With the option the rate is the dry adiabatic one everywhere whatever else is given; otherwise it lies within the limits, is the limited dry adiabatic one at sea, and the field of each realization is what the command gives for that realization alone. *)
Theorem C132_dry p h w rs temps o l out : temp_lapse_rate true p h w rs temps o l = Ok out -> length out = length temps /\ forall i t y x, nth_error out i = Some t -> t y x = - (98 # 10000).
Proof.
  intros [= <-]. split; [now rewrite map_length|]. intros i t y x H. apply nth_error_In in H. apply in_map_iff in H as (g & <- & _). reflexivity.
Qed.
Theorem C132_rates p h w rs temps o l out : temp_lapse_rate false p h w rs temps (Some o) (Some l) = Ok out -> length out = length temps /\ forall i t f, nth_error temps i = Some t -> nth_error out i = Some f ->
  (forall y x, min_lapse_rate p <= f y x <= max_lapse_rate p) /\ (forall y x, l y x = false -> f y x == Qmin (Qmax (- (98 # 10000)) (min_lapse_rate p)) (max_lapse_rate p)) /\
  temp_lapse_rate false p h w true [t] (Some o) (Some l) = Ok [f].
Proof.
  intro H. assert (S' : sane p). { destruct (proj1 (C132_accepted false p h w rs temps (Some o) (Some l)) (ex_intro _ out H)) as [|(S' & _)]; [discriminate|exact S']. }
  pose proof (sane_init p S') as In_. unfold temp_lapse_rate in H |- *. rewrite checks_are in H by exact S'. rewrite In_ in H. cbn [bind] in H. destruct (negb rs && _)%bool; [discriminate|]. apply Ok_inj in H. subst out. split; [now rewrite map_length|].
  intros i t f Ht Hf. rewrite nth_error_map, Ht in Hf. cbn [option_map] in Hf. injection Hf as <-. split; [intros; now apply C56_range|]. split; [intros y x E; unfold lapse_rate_at; rewrite E; reflexivity|].
  rewrite checks_are by exact S'. rewrite In_. reflexivity.
Qed.
(** A field without realizations on a grid of a single row or column is refused, the same field as a realization is not. *)
Theorem C132_row_refuted : exists p temp o l, sane p /\ temp_lapse_rate false p 1 3 false [temp] (Some o) (Some l) = Err ValueError /\ exists out, temp_lapse_rate false p 1 3 true [temp] (Some o) (Some l) = Ok out.
Proof.
  exists {| max_height_diff := 35; nbhood_radius := 1; max_lapse_rate := 3 # 100; min_lapse_rate := - (98 # 10000) |}, (fun _ _ => 280), (fun _ _ => 0), (fun _ _ => true). split; [split; [|split]; vm_compute; discriminate|]. split; [reflexivity|]. eexists. reflexivity.
Qed.
Example C132_case : let p := {| max_height_diff := 50; nbhood_radius := 1; max_lapse_rate := 3 # 100; min_lapse_rate := - (98 # 10000) |} in let temp := fun y x : Z => 280 - (65 # 10000) * inject_Z (10 * (y + x)) in let orog := fun y x : Z => inject_Z (10 * (y + x)) in let land := fun y x : Z => negb (x =? 2)%Z in
  exists f, temp_lapse_rate false p 3 3 false [temp] (Some orog) (Some land) = Ok [f] /\ f 1%Z 1%Z == - (65 # 10000) /\ f 1%Z 2%Z == - (98 # 10000) /\
  temp_lapse_rate false p 3 3 false [temp] None (Some land) = Err RuntimeError /\
  (exists g, temp_lapse_rate true {| max_height_diff := -1; nbhood_radius := -1; max_lapse_rate := 0; min_lapse_rate := 1 |} 3 3 false [temp] None None = Ok [g] /\ g 1%Z 1%Z = DALR).
Proof. cbv zeta. eexists. split; [reflexivity|]. split; [vm_compute; reflexivity|]. split; [vm_compute; reflexivity|]. split; [reflexivity|]. eexists. split; reflexivity. Qed.

(** ** C133: normalise-to-reference *)
Definition others (reference : string) (cubes : list (string * field)) : list (string * field) := filter (fun c => negb (String.eqb (fst c) reference)) cubes.
Definition named (n : string) (cubes : list (string * field)) : list (string * field) := filter (fun c => String.eqb (fst c) n) cubes.
Lemma split_is (cubes : list (string * field)) r : split_by_name cubes (Some [r]) = (named r cubes, others r cubes).
Proof. unfold split_by_name, named, others. f_equal; apply filter_ext; intro c; cbn [existsb]; now rewrite orb_false_r. Qed.
Lemma combine_named (l : list (string * field)) (out : list field) n e : length out = length l -> filter (fun e => String.eqb (fst e) n) (combine (map fst l) out) = [e] ->
  exists i c, named n l = [c] /\ nth_error l i = Some c /\ nth_error out i = Some (snd e).
Proof.
  revert out. induction l as [|c l IH]; intros [|o out] L H; cbn in *; try discriminate. destruct (String.eqb_spec (fst c) n) as [E|E].
  - injection H as <- H. exists 0%nat, c. split; [|split; reflexivity]. f_equal. clear -H L. injection L as L. revert out L H. induction l as [|d l IH]; intros [|o out] L H; cbn in *; try discriminate; [reflexivity|]. destruct (String.eqb (fst d) n); [discriminate|]. apply (IH out); [lia|exact H].
  - destruct (IH out ltac:(lia) H) as (i & d & A & B & C). exists (S i), d. auto.
Qed.
Lemma command_inv cubes r n pr ig f : normalise_command cubes r n pr ig = Ok f -> exists ref out i c, named r cubes = [ref] /\ normalise (map snd (others r cubes)) (snd ref) pr ig = Ok out /\
  named n (others r cubes) = [c] /\ nth_error (others r cubes) i = Some c /\ nth_error out i = Some f.
Proof.
  unfold normalise_command. rewrite split_is. destruct (named r cubes) as [|ref [|]]; try discriminate. destruct (normalise _ _ pr ig) as [out|] eqn:E; cbn [bind]; [|discriminate]. destruct (filter _ _) as [|e [|]] eqn:F; try discriminate. intro H. apply Ok_inj in H. subst f.
  assert (L : length out = length (others r cubes)). { clear F. unfold normalise in E. destruct (map snd (others r cubes)) as [|a [|b k]] eqn:M; try discriminate. cbv zeta in E. repeat (match type of E with (if ?x then _ else _) = _ => destruct x; [discriminate|] end). apply Ok_inj in E. subst out. rewrite map_length, <- M. apply map_length. }
  destruct (combine_named _ out n e L F) as (i & c & A & B & C). exists ref, out, i, c. auto.
Qed.
(** What is returned is the one cube of that name among the others, at each point its share of the total of all others times the one reference. *)
Theorem C133_returned cubes r n pr ig f : Forall (fun c => whole (snd c)) cubes -> normalise_command cubes r n pr ig = Ok f -> exists ref c, named r cubes = [ref] /\ named n (others r cubes) = [c] /\ n <> r /\ f_dims f = f_dims (snd c) /\
  forall p, (p < length (f_data (snd ref)))%nat -> let total := qsum (map (fun c => nth p (f_data (snd c)) 0) (others r cubes)) in
    ~ total == 0 -> nth p (f_data f) 0 * total == nth p (f_data (snd ref)) 0 * nth p (f_data (snd c)) 0.
Proof.
  intros W H. destruct (command_inv _ _ _ _ _ _ H) as (ref & out & i & c & R & N & C & I1 & I2). exists ref, c. split; [exact R|]. split; [exact C|]. rewrite Forall_forall in W.
  assert (Wr : whole (snd ref)). { apply W. assert (X : In ref (named r cubes)) by (rewrite R; now left). now apply filter_In in X as (X & _). }
  assert (Wo : Forall whole (map snd (others r cubes))). { apply Forall_forall. intros g G. apply in_map_iff in G as (d & <- & G). apply filter_In in G as (G & _). now apply W. }
  split. { intros ->. assert (X : In c (named r (others r cubes))) by (rewrite C; now left). apply filter_In in X as (X & E). apply filter_In in X as (_ & X). rewrite E in X. discriminate. }
  destruct (C45_shares _ _ _ _ _ N Wo Wr) as (L & V). assert (Li : (i < length (map snd (others r cubes)))%nat) by (rewrite map_length; apply nth_error_Some; congruence).
  assert (Ef : forall d, nth i out d = f) by (intro d; now apply nth_error_nth). assert (Ec : forall d, nth i (map snd (others r cubes)) d = snd c) by (intro d; apply nth_error_nth; rewrite nth_error_map, I1; reflexivity).
  split.
  - destruct (f_data (snd ref)) as [|q k] eqn:Er.
    + unfold normalise in N. destruct (map snd (others r cubes)) as [|a [|b k]] eqn:M; try discriminate. cbv zeta in N. repeat (match type of N with (if ?x then _ else _) = _ => destruct x; [discriminate|] end). apply Ok_inj in N. subst out. rewrite nth_error_map in I2. rewrite <- M in I2. rewrite nth_error_map, I1 in I2. cbn [option_map] in I2. injection I2 as <-. reflexivity.
    + destruct (V i f 0%nat Li ltac:(cbn; lia)) as (D & _). now rewrite Ef, Ec in D.
  - intros p P total T. destruct (V i f p Li P) as (_ & X). rewrite Ef, Ec in X. unfold total_at in X. rewrite map_map in X. exact (X T).
Qed.
(** The reference itself cannot be returned, nor a name that is not there; without exactly one reference the command fails. *)
Theorem C133_refused cubes r n pr ig : length (named r cubes) <> 1%nat \/ n = r \/ length (named n (others r cubes)) <> 1%nat -> forall f, normalise_command cubes r n pr ig <> Ok f.
Proof.
  intros H f E. destruct (command_inv _ _ _ _ _ _ E) as (ref & out & i & c & R & _ & C & _). destruct H as [H|[->|H]]; [rewrite R in H; now apply H| |rewrite C in H; now apply H].
  assert (X : In c (named r (others r cubes))) by (rewrite C; now left). apply filter_In in X as (X & Y). apply filter_In in X as (_ & X). rewrite Y in X. discriminate.
Qed.
(** The runs for all the other names give fields that add up to the reference. *)
Theorem C133_total cubes r pr fs ref p : Forall (fun c => whole (snd c)) cubes -> named r cubes = [ref] -> (p < length (f_data (snd ref)))%nat ->
  Forall2 (fun c f => normalise_command cubes r (fst c) pr false = Ok f) (others r cubes) fs -> others r cubes <> [] -> qsum (map (fun f => nth p (f_data f) 0) fs) == nth p (f_data (snd ref)) 0.
Proof.
  intros W R P F Ne. assert (W' := W). rewrite Forall_forall in W'.
  assert (Wr : whole (snd ref)). { apply W'. assert (X : In ref (named r cubes)) by (rewrite R; now left). now apply filter_In in X as (X & _). }
  assert (Wo : Forall whole (map snd (others r cubes))). { apply Forall_forall. intros g G. apply in_map_iff in G as (d & <- & G). apply filter_In in G as (G & _). now apply W'. }
  assert (G : exists out, normalise (map snd (others r cubes)) (snd ref) pr false = Ok out /\ fs = out).
  { destruct (others r cubes) as [|c0 l] eqn:Eo; [congruence|]. assert (N : exists out, normalise (map snd (c0 :: l)) (snd ref) pr false = Ok out). { inversion F as [|a b k m X Y]; subst. destruct (command_inv _ _ _ _ _ _ X) as (ref' & out & _ & _ & R' & N & _). rewrite R in R'. injection R' as <-. rewrite Eo in N. eauto. }
    destruct N as (out & N). exists out. split; [exact N|]. destruct (C45_shares _ _ _ _ _ N Wo Wr) as (L & _). rewrite map_length in L.
    apply (nth_ext _ _ {| f_dims := []; f_data := [] |} {| f_dims := []; f_data := [] |}); [rewrite L; symmetry; exact (Forall2_len _ _ _ F)|]. intros i Hi.
    assert (Ei : exists c, nth_error (c0 :: l) i = Some c). { destruct (nth_error (c0 :: l) i) eqn:E; [eauto|]. apply nth_error_None in E. pose proof (Forall2_len _ _ _ F). lia. }
    destruct Ei as (c & Ei). assert (Fi : exists f, nth_error fs i = Some f /\ normalise_command cubes r (fst c) pr false = Ok f). { clear -F Ei. revert i Ei. induction F as [|a b k m X Y IH]; intros [|i] Ei; cbn in Ei; try discriminate; [injection Ei as ->; exists b; split; [reflexivity|exact X]|]. destruct (IH i Ei) as (f & A & B). exists f. auto. }
    destruct Fi as (f & Fi & Ex). rewrite (nth_error_nth _ _ _ Fi). destruct (command_inv _ _ _ _ _ _ Ex) as (ref' & out' & j & d & R' & N' & C & J1 & J2). rewrite R in R'. injection R' as <-. rewrite Eo in N', C, J1. rewrite N in N'. injection N' as <-.
    assert (j = i). { assert (Hd : fst d = fst c). { assert (X : In d (named (fst c) (c0 :: l))) by (rewrite C; now left). apply filter_In in X as (_ & X). now apply String.eqb_eq in X. }
      clear -C Ei J1 Hd. revert i j Ei J1 C. generalize (c0 :: l). intro m. induction m as [|e m IH]; intros [|i] [|j] Ei J1 C; cbn in Ei, J1; try discriminate; [reflexivity| | |].
      - injection Ei as ->. exfalso. cbn [named filter] in C. unfold named in C. cbn [filter] in C. rewrite String.eqb_refl in C. injection C as -> C. assert (X : In d (filter (fun c0 => String.eqb (fst c0) (fst d)) m)) by (apply filter_In; split; [eapply nth_error_In, J1|apply String.eqb_refl]). rewrite C in X. destruct X.
      - injection J1 as ->. exfalso. unfold named in C. cbn [filter] in C. rewrite Hd, String.eqb_refl in C. injection C as C. assert (X : In c (filter (fun c0 => String.eqb (fst c0) (fst c)) m)) by (apply filter_In; split; [eapply nth_error_In, Ei|apply String.eqb_refl]). rewrite C in X. destruct X.
      - f_equal. apply (IH i j Ei J1). unfold named in *. cbn [filter] in C. destruct (String.eqb_spec (fst e) (fst c)) as [E|E]; [|exact C]. exfalso. injection C as -> C. assert (X : In d (filter (fun c0 => String.eqb (fst c0) (fst c)) m)) by (apply filter_In; split; [eapply nth_error_In, J1|rewrite Hd; apply String.eqb_refl]). rewrite C in X. destruct X. }
    subst j. symmetry. now apply nth_error_nth. }
  destruct G as (out & N & ->). exact (C45_total _ _ _ _ _ p N Wo Wr P (or_introl eq_refl)).
Qed.
Example C133_case : let f l := {| f_dims := [{| dname := "x"; dpoints := [0; 1] |}]; f_data := l |} in let cubes := [("rain", f [1; 3]); ("precipitation", f [8; 8]); ("snow", f [3; 1])] in
  Forall (fun c => whole (snd c)) cubes /\ (exists a b, normalise_command cubes "precipitation" "snow" false false = Ok (f [a; b]) /\ a == 6 /\ b == 2) /\
  normalise_command cubes "precipitation" "precipitation" false false = Err ConstraintMismatchError /\ normalise_command cubes "sleet" "snow" false false = Err ValueError.
Proof. cbv zeta. split; [repeat constructor|]. split; [eexists; eexists; split; [vm_compute; reflexivity|split; reflexivity]|]. split; reflexivity. Qed.

(** ** C134: wind-downscaling *)
Section wind.
Context {D : Type}.
Notation levels := (list (Q * D)).
Lemma in_order_perm (l : list (Z * levels)) : Permutation l (in_order l).
Proof.
  assert (P : forall (e : Z * levels) k, Permutation (e :: k) (put e k)). { intros e k. induction k as [|f k IH]; cbn [put]; [reflexivity|]. destruct (fst e <=? fst f)%Z; [reflexivity|]. rewrite perm_swap. now constructor. }
  induction l as [|e l IH]; [reflexivity|]. cbn [in_order fold_right]. rewrite <- P. now constructor.
Qed.
Definition ascending_numbers (l : list Z) : Prop := StronglySorted Z.lt l.
Lemma twice_iff l : twice l = false <-> NoDup l.
Proof.
  induction l as [|x l IH]; cbn [twice]; [split; [constructor|reflexivity]|]. rewrite orb_false_iff, IH, NoDup_cons_iff. split; intros (A & B); (split; [|exact B]).
  - intro X. assert (T : existsb (Z.eqb x) l = true) by (apply existsb_exists; exists x; split; [exact X|apply Z.eqb_refl]). congruence.
  - destruct (existsb (Z.eqb x) l) eqn:E; [|reflexivity]. apply existsb_exists in E as (y & Y & E). apply Z.eqb_eq in E. subst. contradiction.
Qed.
Lemma in_order_sorted (l : list (Z * levels)) : NoDup (map fst l) -> ascending_numbers (map fst (in_order l)).
Proof.
  intro N. assert (N' : NoDup (map fst (in_order l))) by (eapply Permutation_NoDup; [apply Permutation_map, in_order_perm|exact N]).
  assert (S' : StronglySorted Z.le (map fst (in_order l))).
  { clear. induction l as [|e l IH]; cbn [in_order fold_right]; [constructor|]. fold (in_order l). revert IH. generalize (in_order l). intros k K. induction k as [|f k IHk]; cbn [put]; [repeat constructor|]. inversion K as [|a b C F]; subst. destruct (Z.leb_spec (fst e) (fst f)); cbn [map].
    - constructor; [exact K|]. constructor; [assumption|]. rewrite Forall_forall in F |- *. intros z Z'. specialize (F z Z'). lia.
    - constructor; [now apply IHk|]. rewrite Forall_forall in F |- *. intros z Z'. apply in_map_iff in Z' as (g & <- & G). assert (X : In g (e :: k)). { clear -G. induction k as [|h k IH]; cbn [put] in G; [exact G|]. destruct (fst e <=? fst h)%Z; [exact G|]. destruct G as [<-|G]; [right; now left|]. destruct (IH G) as [<-|X]; [now left|right; now right]. } destruct X as [<-|X]; [lia|]. apply F. now apply in_map. }
  clear N. induction S' as [|x m S' IH F]; [constructor|]. apply NoDup_cons_iff in N' as (X & N'). constructor; [now apply IH|]. rewrite Forall_forall in F |- *. intros z Z'. specialize (F z Z'). assert (x <> z) by (intros ->; contradiction). lia.
Qed.
(** The members of a wind cube that has realizations, as a scalar coordinate or along a dimension. *)
Definition members_of (wd : @wind D) : list (Z * levels) := match wd with Plain _ => [] | Scalar r l => [(r, l)] | Members m => m end.
(** The levels that are asked for. *)
Definition asked (u : Q * Q) (level : option Q) (e : Q * D) : Prop := match level with None => True | Some v => fst u * fst e + snd u == v end.
Lemma at_level_iff u level (l : levels) e : In e (at_level u level l) <-> In e l /\ asked u level e.
Proof. unfold at_level, asked. destruct level as [v|]; [|tauto]. rewrite filter_In. now rewrite Qeq_bool_iff. Qed.
(** A member of the result: the corrected levels of that member alone, those at the height asked for, in their order; there is one if a height was asked for. *)
Definition corrected_at (correct : levels -> result levels) (u : Q * Q) (level : option Q) (l out : levels) : Prop :=
  exists c, correct l = Ok c /\ out = at_level u level c /\ (level <> None -> out <> []).
Lemma restrict_members u level (m : list (Z * levels)) out : restrict u level (Members m) = Ok out -> exists k, out = Members k /\ k = map (fun e : Z * levels => (fst e, at_level u level (snd e))) m /\ (level <> None -> forall e, In e k -> snd e <> []).
Proof.
  unfold restrict. cbv zeta. destruct (existsb _ _) eqn:E; [discriminate|]. intro H. apply Ok_inj in H. subst out. eexists. split; [reflexivity|]. split; [reflexivity|]. intros L e I' X. destruct level as [v|]; [|congruence].
  assert (T : existsb (fun e : Z * levels => match snd e with [] => true | _ => false end) (map (fun e => (fst e, at_level u (Some v) (snd e))) m) = true) by (apply existsb_exists; exists e; split; [exact I'|now rewrite X]). congruence.
Qed.
(** Each realization is corrected on its own: the result has the realizations of the input, in ascending order along a dimension even if there was only one as a scalar coordinate; a cube without realizations has none in the result. *)
Theorem C134_realizations (correct : levels -> result levels) u level wd out : wind_downscaling correct u level wd = Ok out -> (forall l, wd <> Plain l) ->
  exists k, out = Members k /\ ascending_numbers (map fst k) /\ (forall r, In r (map fst k) <-> In r (map fst (members_of wd))) /\
    forall r l, In (r, l) k -> exists s, In (r, s) (members_of wd) /\ corrected_at correct u level s l.
Proof.
  unfold wind_downscaling. intros H NP. destruct wd as [l|r l|m]; [exfalso; now apply (NP l)| |].
  - destruct (correct l) as [c|] eqn:C; cbn [bind] in H; [|discriminate]. apply restrict_members in H as (k & -> & -> & N). eexists. split; [reflexivity|]. cbn [map fst snd members_of]. split; [repeat constructor|]. split; [tauto|]. intros r' l' [E|[]]. injection E as <- <-. exists l. split; [now left|]. exists c. split; [exact C|]. split; [reflexivity|]. intro L. exact (N L _ (or_introl eq_refl)).
  - destruct (mapM _ m) as [c|] eqn:C; cbn [bind] in H; [|discriminate]. destruct (twice (map fst c)) eqn:T; [discriminate|]. apply twice_iff in T. assert (Nc : c <> []) by (destruct c; [discriminate|discriminate]).
    assert (H' : restrict u level (Members (in_order c)) = Ok out) by (destruct c; [congruence|exact H]). clear H. apply restrict_members in H' as (k & -> & Ek & N). exists k. split; [reflexivity|].
    assert (Fc : Forall2 (fun e d => fst d = fst e /\ correct (snd e) = Ok (snd d)) m c).
    { clear -C. revert c C. induction m as [|e m IH]; intros c C; cbn [mapM] in C; [injection C as <-; constructor|]. destruct (correct (snd e)) as [x|] eqn:X; cbn [bind] in C; [|discriminate]. destruct (mapM _ m) as [c'|] eqn:E; cbn [bind] in C; [|discriminate]. injection C as <-. constructor; [split; [reflexivity|exact X]|now apply IH]. }
    assert (Ef : map fst k = map fst (in_order c)) by (rewrite Ek, map_map; reflexivity). rewrite Ef. split; [now apply in_order_sorted|].
    assert (Em : map fst c = map fst m). { clear -Fc. induction Fc as [|e d m c (A & _) F IH]; [reflexivity|]. cbn. now rewrite A, IH. }
    split.
    + intro r. cbn [members_of]. rewrite <- Em. split; intro X; [eapply Permutation_in; [apply Permutation_sym, Permutation_map, in_order_perm|exact X]|eapply Permutation_in; [apply Permutation_map, in_order_perm|exact X]].
    + intros r l I'. pose proof I' as I2. rewrite Ek in I'. apply in_map_iff in I' as ([r' cl] & E & I'). injection E as -> <-. cbn [snd] in *. apply (Permutation_in _ (Permutation_sym (in_order_perm c))) in I'.
      assert (G : exists s, In (r, s) m /\ correct s = Ok cl). { clear -Fc I'. induction Fc as [|e d m c (A & B) F IH]; [destruct I'|]. destruct I' as [->|I']; [exists (snd e); cbn in A, B; split; [left; destruct e; cbn in *; now subst|exact B]|]. destruct (IH I') as (s & X & Y). exists s. split; [now right|exact Y]. }
      destruct G as (s & X & Y). exists s. split; [exact X|]. exists cl. split; [exact Y|]. split; [reflexivity|]. intro L. exact (N L _ I2).
Qed.
Theorem C134_plain (correct : levels -> result levels) u level l out : wind_downscaling correct u level (Plain l) = Ok out -> exists k, out = Plain k /\ corrected_at correct u level l k.
Proof.
  unfold wind_downscaling. destruct (correct l) as [c|] eqn:C; cbn [bind]; [|discriminate]. unfold restrict. cbv zeta. destruct (at_level u level c) as [|e k] eqn:E.
  - destruct level; [discriminate|]. intro H. apply Ok_inj in H. exists []. split; [now symmetry|]. exists c. split; [exact C|]. split; [now symmetry|congruence].
  - intro H. apply Ok_inj in H. exists (e :: k). split; [now symmetry|]. exists c. split; [exact C|]. split; [now symmetry|discriminate].
Qed.
(** A height that the corrected wind has not is refused. *)
Theorem C134_height (correct : levels -> result levels) u v wd r s c : In (r, s) (members_of wd) -> correct s = Ok c -> (forall e, In e c -> ~ fst u * fst e + snd u == v) -> forall out, wind_downscaling correct u (Some v) wd <> Ok out.
Proof.
  intros I' C Nv out H. assert (NP : forall l, wd <> Plain l) by (intros l ->; destruct I'). destruct (C134_realizations correct u (Some v) wd out H NP) as (k & -> & A & B & V).
  assert (X : In r (map fst k)) by (apply B; apply in_map_iff; exists (r, s); auto). apply in_map_iff in X as ([r' l] & E & X). cbn in E. subst r'. destruct (V r l X) as (s' & S1 & c' & C' & El & Nl).
  assert (s' = s). { (* the realizations are distinct *)
    destruct wd as [q|q q'|m]; [destruct I'|destruct I' as [E|[]]; destruct S1 as [F|[]]; congruence|]. cbn [members_of] in *. assert (Nd : NoDup (map fst m)).
    { unfold wind_downscaling in H. destruct (mapM _ m) as [cs|] eqn:Cm; cbn [bind] in H; [|discriminate]. destruct (twice (map fst cs)) eqn:T; [discriminate|]. apply twice_iff in T. replace (map fst m) with (map fst cs); [exact T|]. clear -Cm. revert cs Cm. induction m as [|e m IH]; intros cs C; cbn [mapM] in C; [injection C as <-; reflexivity|]. destruct (correct (snd e)); cbn [bind] in C; [|discriminate]. destruct (mapM _ m) as [c'|] eqn:E; cbn [bind] in C; [|discriminate]. injection C as <-. cbn [map fst]. f_equal. now apply IH. }
    clear -Nd I' S1. induction m as [|e m IH]; [destruct I'|]. apply NoDup_cons_iff in Nd as (N & Nd). destruct I' as [->|I'], S1 as [E|S1].
    - congruence.
    - exfalso. apply N. apply in_map_iff. exists (r, s'). auto.
    - subst e. exfalso. apply N. apply in_map_iff. exists (r, s). auto.
    - now apply IH. }
  subst s'. rewrite C in C'. injection C' as <-. apply Nl; [discriminate|]. rewrite El. destruct (at_level u (Some v) c) as [|e t] eqn:Ea; [reflexivity|]. exfalso. assert (Y : In e (at_level u (Some v) c)) by (rewrite Ea; now left). apply at_level_iff in Y as (Y1 & Y2). exact (Nv e Y1 Y2).
Qed.
End wind.
Example C134_case : let correct l := Ok (map (fun e : Q * Q => (fst e, Qred (snd e * (9 # 10)))) l) in
  wind_downscaling correct (1 # 1000, 0) (Some (1 # 10)) (Members [(2%Z, [(10, 5); (100, 10)]); (0%Z, [(10, 7); (100, 20)])]) = Ok (Members [(0%Z, [(100, 18)]); (2%Z, [(100, 9)])]) /\
  wind_downscaling correct (1, 0) None (Scalar 3 [(10, 5)]) = Ok (Members [(3%Z, [(10, 9 # 2)])]) /\
  wind_downscaling correct (1, 0) None (Plain [(10, 5)]) = Ok (Plain [(10, 9 # 2)]) /\
  wind_downscaling correct (1, 0) (Some 50) (Plain [(10, 5)]) = Err ValueError.
Proof. cbv zeta. repeat split; reflexivity. Qed.

Print Assumptions C132_refused.
Print Assumptions C132_accepted.
Print Assumptions C132_dry.
Print Assumptions C132_rates.
Print Assumptions C132_row_refuted.
Print Assumptions C133_returned.
Print Assumptions C133_refused.
Print Assumptions C133_total.
Print Assumptions C134_realizations.
Print Assumptions C134_plain.
Print Assumptions C134_height.
