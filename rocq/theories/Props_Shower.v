(** C141 remaking a diagnostic as a shower condition. *)
From Verif Require Import Base Model_Shower.
Local Open Scope string_scope.
Local Open Scope list_scope.

(** The coordinate that counts as the threshold: the one called "threshold", or, if there is not exactly one, the first with that var_name. *)
Inductive is_threshold (l : list tcoord) : list tcoord -> tcoord -> list tcoord -> Prop :=
| by_name a t b : l = a ++ t :: b -> tc_name t = "threshold" -> (forall c, In c (a ++ b) -> tc_name c <> "threshold") -> is_threshold l a t b
| by_var a t b : l = a ++ t :: b -> (forall a' t' b', l = a' ++ t' :: b' -> tc_name t' = "threshold" -> exists c, In c (a' ++ b') /\ tc_name c = "threshold") ->
    tc_var t = Some "threshold" -> (forall c, In c a -> tc_var c <> Some "threshold") -> is_threshold l a t b.

Lemma places_nil p l : forall k, places p k l = [] <-> forall c, In c l -> p c = false.
Proof.
  induction l as [|c l IH]; intro k; cbn [places]; [split; [intros _ ? []|reflexivity]|]. destruct (p c) eqn:E.
  - split; [discriminate|]. intro H. rewrite (H c (or_introl eq_refl)) in E. discriminate E.
  - rewrite IH. split; [intros H q [<-|Q]; [exact E|auto]|intros H q Q; apply H; now right].
Qed.
Lemma places_first p l : forall k i r, places p k l = i :: r -> exists a t b, l = a ++ t :: b /\ i = (k + length a)%nat /\ p t = true /\ (forall c, In c a -> p c = false) /\ r = places p (S i) b.
Proof.
  induction l as [|c l IH]; intros k i r; cbn [places]; [discriminate|]. destruct (p c) eqn:E; intro H.
  - injection H as <- <-. exists [], c, l. repeat split; auto. intros ? [].
  - apply IH in H as (a & t & b & -> & -> & T & N & R). exists (c :: a), t, b. repeat split; auto; [cbn; lia|]. intros q [<-|Q]; auto.
Qed.
Lemma places_app p a : forall k t b, (forall c, In c a -> p c = false) -> p t = true -> places p k (a ++ t :: b) = (k + length a)%nat :: places p (S (k + length a)) b.
Proof.
  induction a as [|c a IH]; intros k t b N T; cbn [places app length].
  - rewrite T, Nat.add_0_r. reflexivity.
  - rewrite (N c (or_introl eq_refl)), IH; [|intros q Q; apply N; now right|exact T]. rewrite Nat.add_succ_r. reflexivity.
Qed.
Lemma change_app f a t b : change (length a) f (a ++ t :: b) = a ++ f t :: b. Proof. induction a as [|c a IH]; cbn; [reflexivity|now rewrite IH]. Qed.
Lemma at_app {B} (g : tcoord -> B) a t b : map g (firstn 1 (skipn (length a) (a ++ t :: b))) = [g t]. Proof. induction a as [|c a IH]; [reflexivity|exact IH]. Qed.
Lemma named_iff s c : named s c = true <-> tc_name c = s. Proof. apply String.eqb_eq. Qed.
Lemma named_not s c : named s c = false <-> tc_name c <> s. Proof. apply String.eqb_neq. Qed.
Lemma var_iff s c : var_named s c = true <-> tc_var c = Some s. Proof. unfold var_named. destruct (tc_var c) as [v|]; [rewrite String.eqb_eq; split; congruence|split; discriminate]. Qed.
Lemma var_not s c : var_named s c = false <-> tc_var c <> Some s. Proof. rewrite <- var_iff. now destruct (var_named s c). Qed.

Lemma find_some l a t b : is_threshold l a t b -> find_threshold l = Some (length a).
Proof.
  intros [a' t' b' E T N|a' t' b' E N T F]; unfold find_threshold.
  - rewrite E, places_app; [|intros c Q; apply named_not, N, in_or_app; now left|now apply named_iff].
    assert (Z : forall k, places (named "threshold") k b' = []) by (intro k; apply places_nil; intros c Q; apply named_not, N, in_or_app; now right). now rewrite Z.
  - assert (V : places (var_named "threshold") 0 l = length a' :: places (var_named "threshold") (S (length a')) b') by (rewrite E; apply (places_app (var_named "threshold") a' 0); [intros c Q; now apply var_not, F|now apply var_iff]).
    rewrite V. destruct (places (named "threshold") 0 l) as [|i [|j r]] eqn:P; try reflexivity. exfalso.
    apply places_first in P as (x & u & y & E2 & _ & U & NX & R). apply named_iff in U. destruct (N x u y E2 U) as (c & Q & C). apply in_app_or in Q as [Q|Q].
    + specialize (NX c Q). apply named_not in NX. contradiction.
    + symmetry in R. assert (S := proj1 (places_nil _ _ _) R c Q). apply named_not in S. contradiction.
Qed.
Lemma find_spec l i : find_threshold l = Some i -> exists a t b, is_threshold l a t b /\ i = length a.
Proof.
  unfold find_threshold. intro H.
  assert (V : (forall a' t' b', l = a' ++ t' :: b' -> tc_name t' = "threshold" -> exists c, In c (a' ++ b') /\ tc_name c = "threshold") -> match places (var_named "threshold") 0 l with i :: _ => Some i | [] => None end = Some i -> exists a t b, is_threshold l a t b /\ i = length a).
  { intros N K. destruct (places (var_named "threshold") 0 l) as [|j r] eqn:P; [discriminate K|]. injection K as ->. apply places_first in P as (a & t & b & E & I & T & F & _). exists a, t, b. split; [|exact I]. apply by_var; [exact E|exact N|now apply var_iff|]. intros c Q. apply var_not, F, Q. }
  destruct (places (named "threshold") 0 l) as [|j [|k r]] eqn:P.
  - apply V; [|exact H]. intros a' t' b' E T. exfalso. assert (X := proj1 (places_nil _ _ _) P t'). rewrite E in X. specialize (X (in_elt _ _ _)). apply named_not in X. contradiction.
  - injection H as ->. apply places_first in P as (a & t & b & E & I & T & F & R). exists a, t, b. split; [|exact I]. apply by_name; [exact E|now apply named_iff|]. intros c Q. apply in_app_or in Q as [Q|Q]; [apply named_not, F, Q|]. symmetry in R. apply named_not, (proj1 (places_nil _ _ _) R c Q).
  - apply V; [|exact H]. intros a' t' b' E T. apply places_first in P as (a & t & b & E2 & I & U & F & R). symmetry in R. apply places_first in R as (x & u & y & -> & _ & W & _). apply named_iff in U, W.
    destruct (Nat.eq_dec (length a') (length a)) as [L|L].
    + exists u. split; [|exact W]. apply in_or_app. right. rewrite E in E2. assert (a' = a /\ t' :: b' = t :: x ++ u :: y) as [_ X]. { clear - E2 L. revert a L E2. induction a' as [|c a' IH]; intros [|d a] L E2; try discriminate L; cbn in *; [auto|]. injection E2 as -> E2. apply IH in E2 as [-> ->]; [auto|lia]. } injection X as _ ->. apply in_elt.
    + exists t. split; [|exact U]. rewrite E in E2. assert (X : In t (a' ++ b') \/ length a' = length a). { clear - E2. revert a E2. induction a' as [|c a' IH]; intros [|d a] E2; cbn in *; [now right| | |]. - injection E2 as _ ->. left. apply in_elt. - injection E2 as -> _. left. now left. - injection E2 as _ E2. apply IH in E2 as [X| ->]; [left; now right|now right]. } tauto.
Qed.

Section remade.
Context {A : Type}.
Implicit Types c d : tcube A.

Definition remade (t : tcoord) : tcoord := {| tc_name := "shower_condition"; tc_var := Some "threshold"; tc_points := [1%Q]; tc_units := "1"; tc_relation := tc_relation t |}.
Lemma make_case c : (exists a t b p, is_threshold (tq_coords c) a t b /\ tc_points t = [p] /\ (forall x, In x (a ++ b) -> tc_name x <> "shower_condition") /\
    make c = ({| tq_name := "probability_of_shower_condition_above_threshold"; tq_coords := a ++ remade t :: b; tq_data := tq_data c |}, None)) \/
  (exists d e, make c = (d, Some e) /\ tq_name d = "probability_of_shower_condition_above_threshold" /\ tq_data d = tq_data c /\
    forall a t b, is_threshold (tq_coords c) a t b -> length (tc_points t) <> 1%nat \/ exists x, In x (a ++ b) /\ tc_name x = "shower_condition").
Proof.
  unfold make. cbn [with_name tq_coords]. destruct (find_threshold (tq_coords c)) as [i|] eqn:F.
  2:{ right. eexists _, _. split; [reflexivity|]. split; [reflexivity|]. split; [reflexivity|]. intros a t b T. apply find_some in T. congruence. }
  assert (F0 := F). apply find_spec in F as (a & t & b & T & ->). assert (E : tq_coords c = a ++ t :: b) by (destruct T; assumption). rewrite E, at_app.
  assert (SAME : forall a' t' b', is_threshold (a ++ t :: b) a' t' b' -> a' = a /\ t' = t /\ b' = b).
  { intros a' t' b' T'. assert (X := find_some _ _ _ _ T'). rewrite <- E, F0 in X. injection X as X. assert (E' : a ++ t :: b = a' ++ t' :: b') by (destruct T'; assumption). clear - X E'. revert a' X E'. induction a as [|y a IH]; intros [|z a'] X E'; try discriminate X; cbn in *; [injection E' as -> ->; auto|]. injection E' as -> E'. apply IH in E' as (-> & -> & ->); [auto|lia]. }
  destruct (tc_points t) as [|p [|q r]] eqn:P.
  1, 3: right; eexists _, _; split; [reflexivity|]; split; [reflexivity|]; split; [reflexivity|]; intros a' t' b' T'; apply SAME in T' as (-> & -> & ->); left; rewrite P; discriminate.
  rewrite change_app. cbn [with_coords tq_coords].
  destruct (places (named "shower_condition") 0 (a ++ renamed "shower_condition" t :: b)) as [|j r] eqn:L.
  { exfalso. assert (X := proj1 (places_nil _ _ _) L _ (in_elt _ _ _)). discriminate X. }
  assert (ALL : r = [] <-> forall x, In x (a ++ b) -> tc_name x <> "shower_condition").
  { apply places_first in L as (x & u & y & EQ & I & U & N & R). split.
    - intros ->. symmetry in R. assert (Y := proj1 (places_nil _ _ _) R). assert (LEN : x = a /\ u = renamed "shower_condition" t /\ y = b).
      { clear - EQ N U Y. revert x EQ N. induction a as [|z a IH]; intros [|w x] EQ N; cbn in *.
        - injection EQ as -> ->. auto.
        - injection EQ as <- _. specialize (N _ (or_introl eq_refl)). discriminate N.
        - injection EQ as -> <-. assert (X := Y _ (in_elt _ _ _)). discriminate X.
        - injection EQ as -> EQ. apply IH in EQ as (-> & -> & ->); [auto|]. intros q Q. apply N. now right. }
      destruct LEN as (-> & -> & ->). intros q Q. apply named_not. apply in_app_or in Q as [Q|Q]; [now apply N|now apply Y].
    - intro H. assert (X : places (named "shower_condition") 0 (a ++ renamed "shower_condition" t :: b) = [length a]).
      { rewrite places_app; [|intros q Q; apply named_not, H, in_or_app; now left|reflexivity]. f_equal. apply places_nil. intros q Q. apply named_not, H, in_or_app. now right. }
      assert (X2 : places (named "shower_condition") 0 (a ++ renamed "shower_condition" t :: b) = j :: r) by (rewrite EQ; rewrite places_app by assumption; subst j r; reflexivity). congruence. }
  destruct r as [|k r].
  - left. exists a, t, b, p. assert (N := proj1 ALL eq_refl). split; [rewrite <- E; exact T|]. split; [exact P|]. split; [exact N|]. assert (J : j = length a).
    { rewrite places_app in L; [injection L; intros; cbn in *; congruence|intros q Q; apply named_not, N, in_or_app; now left|reflexivity]. }
    subst j. rewrite change_app. reflexivity.
  - right. eexists _, _. split; [reflexivity|]. split; [reflexivity|]. split; [reflexivity|]. intros a' t' b' T'. apply SAME in T' as (-> & -> & ->). right.
    destruct (existsb (named "shower_condition") (a ++ b)) eqn:X.
    + apply existsb_exists in X as (x & Q & U). exists x. split; [exact Q|now apply named_iff].
    + exfalso. assert (Y : k :: r = []); [|discriminate Y]. apply ALL. intros q Q. apply named_not. destruct (named "shower_condition" q) eqn:Z; [|reflexivity]. rewrite (proj2 (existsb_exists _ _)) in X; [discriminate X|]. eauto.
Qed.
(** C141: the result is the cube with its name, and its threshold coordinate's name, var_name, value and unit, changed, and nothing else. *)
Theorem C141_remade ip c d : fst (make_shower_condition_cube ip c) = Ok d ->
  tq_name d = "probability_of_shower_condition_above_threshold" /\ tq_data d = tq_data c /\
  exists a t b, is_threshold (tq_coords c) a t b /\ tq_coords d = a ++ {| tc_name := "shower_condition"; tc_var := Some "threshold"; tc_points := [1%Q]; tc_units := "1"; tc_relation := tc_relation t |} :: b.
Proof.
  unfold make_shower_condition_cube. destruct (make_case c) as [(a & t & b & p & T & _ & _ & ->)|(d' & e & -> & _)]; cbn [fst]; [|discriminate]. intro H. injection H as <-. repeat split. exists a, t, b. split; [exact T|reflexivity].
Qed.
(** C141: it succeeds exactly if there is a threshold coordinate, of one point, and no other coordinate is called shower_condition. *)
Theorem C141_accepted ip c : (exists d, fst (make_shower_condition_cube ip c) = Ok d) <->
  exists a t b p, is_threshold (tq_coords c) a t b /\ tc_points t = [p] /\ forall x, In x (a ++ b) -> tc_name x <> "shower_condition".
Proof.
  unfold make_shower_condition_cube. destruct (make_case c) as [(a & t & b & p & T & P & N & ->)|(d' & e & -> & _ & _ & R)]; cbn [fst].
  - split; [|eauto]. intros _. exists a, t, b, p. auto.
  - split; [intros [? H]; discriminate H|]. intros (a & t & b & p & T & P & N). destruct (R a t b T) as [X|(x & Q & X)]; [rewrite P in X; now elim X|now elim (N x Q)].
Qed.
(** C141: without in_place the cube given is untouched; with it, it is the result. *)
Theorem C141_argument c : snd (make_shower_condition_cube false c) = c /\ (forall d, fst (make_shower_condition_cube true c) = Ok d -> snd (make_shower_condition_cube true c) = d) /\
  fst (make_shower_condition_cube true c) = fst (make_shower_condition_cube false c).
Proof.
  unfold make_shower_condition_cube. destruct (make c) as [d [e|]]; cbn; repeat split; congruence.
Qed.
(** C141: a cube refused in place has nevertheless been renamed. *)
Theorem C141_refused_yet_renamed c e : fst (make_shower_condition_cube true c) = Err e -> tq_name (snd (make_shower_condition_cube true c)) = "probability_of_shower_condition_above_threshold" /\ tq_data (snd (make_shower_condition_cube true c)) = tq_data c.
Proof.
  unfold make_shower_condition_cube. destruct (make_case c) as [(a & t & b & p & _ & _ & _ & ->)|(d' & e' & -> & N & D & _)]; cbn; [discriminate|auto].
Qed.
(** C141: a probability of being below a threshold is called one of being above it: the relation and the data stay as they were. *)
Theorem C141_below_called_above_refuted c d a t b : fst (make_shower_condition_cube false c) = Ok d -> is_threshold (tq_coords c) a t b -> tc_relation t = Some "less_than" ->
  tq_name d = "probability_of_shower_condition_above_threshold" /\ tq_data d = tq_data c /\ exists x, In x (tq_coords d) /\ tc_name x = "shower_condition" /\ tc_relation x = Some "less_than".
Proof.
  intros H T R. apply C141_remade in H as (N & D & a' & t' & b' & T' & E). split; [exact N|]. split; [exact D|].
  assert (t' = t). { assert (L := find_some _ _ _ _ T). rewrite (find_some _ _ _ _ T') in L. injection L as L. assert (E1 : tq_coords c = a ++ t :: b) by (destruct T; assumption). assert (E2 : tq_coords c = a' ++ t' :: b') by (destruct T'; assumption). rewrite E1 in E2. assert (X : nth_error (a ++ t :: b) (length a) = nth_error (a' ++ t' :: b') (length a')) by congruence. rewrite !nth_error_app2, !Nat.sub_diag in X by lia. cbn in X. congruence. }
  subst t'. eexists. rewrite E. split; [apply in_elt|]. split; [reflexivity|exact R].
Qed.
(** C141: doing it twice is doing it once, if only one coordinate is called a threshold by either name. *)
Theorem C141_once c d : fst (make_shower_condition_cube false c) = Ok d ->
  (forall a t b, is_threshold (tq_coords c) a t b -> forall x, In x (a ++ b) -> tc_name x <> "threshold" /\ tc_var x <> Some "threshold") ->
  fst (make_shower_condition_cube false d) = Ok d.
Proof.
  intros H U. assert (ACC : exists d, fst (make_shower_condition_cube false c) = Ok d) by eauto. apply C141_accepted in ACC as (a & t & b & p & T & P & N).
  assert (H' := H). apply C141_remade in H' as (NM & D & a' & t' & b' & T' & E).
  assert (S : a' = a /\ t' = t /\ b' = b). { assert (L := find_some _ _ _ _ T). rewrite (find_some _ _ _ _ T') in L. injection L as L. assert (E1 : tq_coords c = a ++ t :: b) by (destruct T; assumption). assert (E2 : tq_coords c = a' ++ t' :: b') by (destruct T'; assumption). rewrite E1 in E2. clear - L E2. revert a' L E2. induction a as [|y a IH]; intros [|z a'] X E'; try discriminate X; cbn in *; [injection E' as -> ->; auto|]. injection E' as -> E'. apply IH in E' as (-> & -> & ->); [auto|lia]. }
  destruct S as (-> & -> & ->). specialize (U a t b T).
  assert (T2 : is_threshold (tq_coords d) a (remade t) b).
  { rewrite E. apply by_var; [reflexivity| |reflexivity|intros x Q; apply U, in_or_app; now left].
    intros x u y EQ X. exfalso. assert (Q : In u (a ++ remade t :: b)) by (unfold remade; rewrite EQ; apply in_elt). apply in_app_or in Q as [Q|[<-|Q]]; [|discriminate X|]; elim (proj1 (U u ltac:(apply in_or_app; tauto)) X). }
  assert (ACC : exists d', fst (make_shower_condition_cube false d) = Ok d') by (apply C141_accepted; exists a, (remade t), b, 1%Q; auto). destruct ACC as [d' Hd']. rewrite Hd'. f_equal.
  apply C141_remade in Hd' as (NM2 & D2 & a2 & t2 & b2 & T3 & E3).
  assert (S : a2 = a /\ t2 = remade t /\ b2 = b). { assert (L := find_some _ _ _ _ T2). rewrite (find_some _ _ _ _ T3) in L. injection L as L. assert (E1 : tq_coords d = a ++ remade t :: b) by exact E. assert (E2 : tq_coords d = a2 ++ t2 :: b2) by (destruct T3; assumption). rewrite E1 in E2. clear - L E2. revert a2 L E2. induction a as [|y a IH]; intros [|z a'] X E'; try discriminate X; cbn in *; [injection E' as -> ->; auto|]. injection E' as -> E'. apply IH in E' as (-> & -> & ->); [auto|lia]. }
  destruct S as (-> & -> & ->). destruct d as [n1 l1 v1], d' as [n2 l2 v2]; cbn in *. subst. reflexivity.
Qed.
(** C141: the command never changes its cube, and gives what the function gives. *)
Theorem C141_command c : remake_as_shower_condition c = fst (make_shower_condition_cube true c).
Proof. symmetry. apply C141_argument. Qed.
End remade.

Example C141_case :
  let t := {| tc_name := "cloud_texture"; tc_var := Some "threshold"; tc_points := [5#100]; tc_units := "1"; tc_relation := Some "less_than" |} in
  let y := {| tc_name := "latitude"; tc_var := None; tc_points := [1#1; 2#1]; tc_units := "degrees"; tc_relation := None |} in
  let c := {| tq_name := "probability_of_cloud_texture_below_threshold"; tq_coords := [y; t]; tq_data := [1#4; 1#2] |} in
  remake_as_shower_condition c = Ok {| tq_name := "probability_of_shower_condition_above_threshold"; tq_coords := [y; remade t]; tq_data := [1#4; 1#2] |} /\
  fst (make_shower_condition_cube true {| tq_name := "rain"; tq_coords := [y]; tq_data := [1#4] |}) = Err CoordinateNotFoundError /\
  tq_name (snd (make_shower_condition_cube true {| tq_name := "rain"; tq_coords := [y]; tq_data := [1#4] |})) = "probability_of_shower_condition_above_threshold".
Proof. repeat split. Qed.

Print Assumptions C141_remade.
Print Assumptions C141_accepted.
Print Assumptions C141_argument.
Print Assumptions C141_refused_yet_renamed.
Print Assumptions C141_below_called_above_refuted.
Print Assumptions C141_once.
Print Assumptions C141_command.
