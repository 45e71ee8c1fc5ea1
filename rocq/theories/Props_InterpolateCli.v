(** C126: the temporal_interpolate command: the two cubes may be given in either order. *)
From Coq Require Import Permutation Sorted.
From Verif Require Import Base Spec_Temporal Model_Temporal Proofs_Temporal Proofs_TemporalProcess Props_Temporal Model_InterpolateCli.
Local Open Scope Z_scope.

(** Cubes of different times: their order does not matter. *)
Theorem C126_order moment sphi night o a b : t_time a <> t_time b -> temporal_interpolate moment sphi night o a b = temporal_interpolate moment sphi night o b a.
Proof. intro N. unfold temporal_interpolate, ordered. destruct (Z.ltb_spec (t_time b) (t_time a)), (Z.ltb_spec (t_time a) (t_time b)); try lia; reflexivity. Qed.
(** Of the same time: the second is returned. *)
Lemma configured_inv moment o c : configured moment o = Ok c -> init c = Ok c /\ c_interval c = o_interval o /\ c_acc c = o_acc o /\ c_max c = o_max o /\ c_min c = o_min o /\ method_of (o_method o) = Ok (c_method c) /\
  match o_at o, c_times c with None, None => True | Some l, Some t => Forall2 (fun s z => moment s = Some z) l t | _, _ => False end.
Proof.
  unfold configured. destruct (read_times moment (o_at o)) as [ts|] eqn:T; cbn [bind]; [|discriminate]. destruct (method_of (o_method o)) as [m|] eqn:M; cbn [bind]; [|discriminate]. intro H.
  assert (E : c = {| c_interval := o_interval o; c_times := ts; c_method := m; c_acc := o_acc o; c_max := o_max o; c_min := o_min o |}).
  { unfold init in H. cbn [c_interval c_times c_acc c_max c_min c_method] in H. destruct (o_interval o), ts; try discriminate; destruct (Nat.ltb _ _); try discriminate; destruct (_ && _)%bool; try discriminate; now injection H as <-. }
  rewrite <- E in H. subst c. cbn. repeat split; try assumption. unfold read_times in T. destruct (o_at o) as [l|]; [|injection T as <-; trivial]. destruct (mapM _ l) as [t|] eqn:X; cbn [bind] in T; [|discriminate]. injection T as <-.
  clear -X. revert t X. induction l as [|s l IH]; intros t X; cbn in X; [injection X as <-; constructor|]. destruct (moment s) as [z|] eqn:E; cbn [bind] in X; [|discriminate]. destruct (mapM _ l) as [r|]; cbn [bind] in X; [|discriminate]. injection X as <-. constructor; [exact E|now apply IH].
Qed.
Definition positive (o : options) : Prop := forall m, o_interval o = Some m -> 0 < m.
Lemma configured_valid moment o c : positive o -> configured moment o = Ok c -> valid_config c.
Proof. intros P H. destruct (configured_inv _ _ _ H) as (I' & E & _). split; [exact I'|]. intros m M. rewrite E in M. now apply P. Qed.
Theorem C126_same_time moment sphi night o a b out : positive o -> t_time a = t_time b -> temporal_interpolate moment sphi night o a b = Ok out -> exists s, out = [s] /\ o_time s = t_time b /\ o_data s = map Some (t_data b).
Proof.
  intros P E H. unfold temporal_interpolate, ordered in H. destruct (Z.ltb_spec (t_time b) (t_time a)); [lia|]. destruct (configured moment o) as [c|] eqn:C; cbn [bind] in H; [|discriminate]. pose proof (configured_valid _ _ _ P C) as V.
  destruct (process_inv _ _ _ _ _ _ V H) as (_ & ts & _ & _ & [(T & ->)|(_ & L & _)]); [|lia]. eexists. split; [reflexivity|]. split; reflexivity.
Qed.
Theorem C126_order_same_time_refuted : ~ (forall moment sphi night o a b, temporal_interpolate moment sphi night o a b = temporal_interpolate moment sphi night o b a).
Proof.
  intro H. specialize (H (fun _ => None) (fun _ => []) (fun _ => []) {| o_interval := Some 60; o_at := None; o_method := "linear"; o_acc := false; o_max := false; o_min := false |} {| t_time := 0; t_bounds := None; t_data := [0%Q] |} {| t_time := 0; t_bounds := None; t_data := [1%Q] |}). vm_compute in H. discriminate.
Qed.
Definition earlier (a b : tcube) : Z := Z.min (t_time a) (t_time b).
Definition later (a b : tcube) : Z := Z.max (t_time a) (t_time b).
Lemma run moment sphi night o a b out : positive o -> temporal_interpolate moment sphi night o a b = Ok out -> exists c c0 c1, valid_config c /\ configured moment o = Ok c /\ process sphi night c c0 c1 = Ok out /\ t_time c0 = earlier a b /\ t_time c1 = later a b /\ t_time c0 <= t_time c1 /\ ((c0 = a /\ c1 = b) \/ (c0 = b /\ c1 = a /\ t_time b < t_time a)).
Proof.
  intros P H. unfold temporal_interpolate, ordered in H. unfold earlier, later. destruct (Z.ltb_spec (t_time b) (t_time a)) as [L|L]; (destruct (configured moment o) as [c|] eqn:C; cbn [bind] in H; [|discriminate]); pose proof (configured_valid _ _ _ P C) as V.
  - exists c, b, a. refine (conj V (conj eq_refl (conj H (conj _ (conj _ (conj _ _)))))); [lia|lia|lia|right; auto].
  - exists c, a, b. refine (conj V (conj eq_refl (conj H (conj _ (conj _ (conj _ _)))))); [lia|lia|lia|left; auto].
Qed.
(** The times: increasing, from after the earlier to the later. *)
Theorem C126_times moment sphi night o a b out : positive o -> temporal_interpolate moment sphi night o a b = Ok out -> strictly_up_to (earlier a b) (later a b) (map o_time out) /\
  (forall l, o_at o = Some l -> forall t, In t (map o_time out) <-> t = later a b \/ exists s, In s l /\ moment s = Some t).
Proof.
  intros P H. destruct (run _ _ _ _ _ _ _ P H) as (c & c0 & c1 & V & C & R & <- & <- & L & _). destruct (C32_times _ _ _ _ _ _ V R) as (T & U). split; [exact U|]. intros l Ol t.
  destruct (configured_inv _ _ _ C) as (_ & _ & _ & _ & _ & _ & F). rewrite Ol in F. destruct (c_times c) as [ts|] eqn:Ct; [|contradiction]. destruct (C32_given_times c ts _ _ Ct L) as (G & _). destruct (G _ T) as (_ & G'). rewrite G'.
  assert (X : In t ts <-> exists s, In s l /\ moment s = Some t).
  { clear -F. induction F as [|s z l ts E F IH]; cbn; [split; [tauto|now intros (s & [] & _)]|]. rewrite IH. split; [intros [->|(s' & I' & E')]; [exists s; auto|exists s'; auto]|intros (s' & [<-|I'] & E'); [left; congruence|right; eauto]]. }
  rewrite X. tauto.
Qed.
(** The linear method, whichever cube is first: on the straight line through the two values. *)
Theorem C126_linear moment sphi night o a b out s j xa xb : positive o -> o_acc o = false -> o_max o = false -> o_min o = false -> o_method o = "linear"%string -> temporal_interpolate moment sphi night o a b = Ok out ->
  In s out -> nth_error (t_data a) j = Some xa -> nth_error (t_data b) j = Some xb -> exists v, data_at s j v /\ on_line (t_time a) (t_time b) xa xb (o_time s) v /\ between xa xb v.
Proof.
  intros P A1 A2 A3 M H I' Ja Jb. destruct (run _ _ _ _ _ _ _ P H) as (c & c0 & c1 & V & C & R & _ & _ & L & W). destruct (configured_inv _ _ _ C) as (_ & _ & B1 & B2 & B3 & Mc & _). rewrite M in Mc. injection Mc as Mc.
  assert (Pc : period_inputs c = false) by (unfold period_inputs; now rewrite B1, B2, B3, A1, A2, A3). destruct W as [(-> & ->)|(-> & -> & _)].
  - destruct (C32_linear _ _ _ _ _ _ _ _ _ _ V Pc (eq_sym Mc) R I' Ja Jb) as (v & D & O & B & _). exists v. auto.
  - destruct (C32_linear _ _ _ _ _ _ _ _ _ _ V Pc (eq_sym Mc) R I' Jb Ja) as (v & D & O & B & _). exists v. split; [exact D|]. split.
    + unfold on_line in *. unfold Z.sub in *. rewrite !inject_Z_plus, !inject_Z_opp in *. lra || nra.
    + unfold between in *. rewrite Q.min_comm, Q.max_comm. exact B.
Qed.
(** The last slice is the later of the cubes (for linear interpolation and for a period minimum or maximum). *)
Theorem C126_last moment sphi night o a b out s j x : positive o -> o_acc o = false -> o_method o = "linear"%string -> o_max o = false -> o_min o = false -> t_time a <> t_time b -> length (t_data a) = length (t_data b) -> temporal_interpolate moment sphi night o a b = Ok out ->
  In s out -> o_time s = later a b -> nth_error (t_data (if t_time a <? t_time b then b else a)) j = Some x -> exists v, data_at s j v /\ (v == x)%Q.
Proof.
  intros P A1 M A2 A3 N Ld H I' T J. assert (Y : exists y, nth_error (t_data (if t_time a <? t_time b then a else b)) j = Some y).
  { destruct (nth_error (t_data (if t_time a <? t_time b then a else b)) j) eqn:E; [eauto|]. apply nth_error_None in E. assert (nth_error (t_data (if t_time a <? t_time b then b else a)) j <> None) by congruence. apply nth_error_Some in H0. destruct (t_time a <? t_time b); lia. }
  destruct Y as (y & Y). destruct (run _ _ _ _ _ _ _ P H) as (c & c0 & c1 & V & C & R & _ & E1 & L & W). destruct (configured_inv _ _ _ C) as (_ & _ & B1 & B2 & B3 & Mc & _). rewrite M in Mc. injection Mc as Mc.
  assert (Pc : period_inputs c = false) by (unfold period_inputs; now rewrite B1, B2, B3, A1, A2, A3). rewrite <- E1 in T.
  assert (Q : t_data c0 = t_data (if t_time a <? t_time b then a else b) /\ t_data c1 = t_data (if t_time a <? t_time b then b else a)). { destruct W as [(-> & ->)|(-> & -> & K)]; destruct (Z.ltb_spec (t_time a) (t_time b)); auto; lia. }
  destruct Q as (Q0 & Q1). rewrite <- Q0 in Y. rewrite <- Q1 in J. destruct (C32_linear _ _ _ _ _ _ _ _ _ _ V Pc (eq_sym Mc) R I' Y J) as (v & D & _ & _ & E). exists v. split; [exact D|now apply E].
Qed.
(** What is refused before anything is read from the cubes. *)
Theorem C126_refused moment sphi night o a b : (o_interval o = None <-> o_at o = None) \/ ~ In (o_method o) ["linear"; "solar"; "daynight"]%string \/ (exists l s, o_at o = Some l /\ In s l /\ moment s = None) \/
  (o_method o <> "linear"%string /\ (o_acc o || o_max o || o_min o = true)%bool) \/ (o_acc o && o_max o || o_acc o && o_min o || o_max o && o_min o = true)%bool ->
  temporal_interpolate moment sphi night o a b = Err ValueError.
Proof.
  intro H. unfold temporal_interpolate. destruct (ordered a b) as (c0, c1). assert (E : configured moment o = Err ValueError); [|now rewrite E]. unfold configured.
  assert (Rt : read_times moment (o_at o) = Err ValueError \/ exists ts, read_times moment (o_at o) = Ok ts /\ (ts = None <-> o_at o = None) /\ forall l s, o_at o = Some l -> In s l -> moment s <> None).
  { unfold read_times. destruct (o_at o) as [l|]; [|right; exists None; split; [reflexivity|split; [tauto|discriminate]]]. clear. assert (X : mapM (fun s => match moment s with Some z => Ok z | None => Err ValueError end) l = Err ValueError \/ exists t, mapM (fun s => match moment s with Some z => Ok z | None => Err ValueError end) l = Ok t /\ forall s, In s l -> moment s <> None).
    { induction l as [|s l IH]; [right; exists []; split; [reflexivity|intros s []]|]. cbn. destruct (moment s) eqn:E; cbn [bind]; [|now left]. destruct IH as [->|(t & -> & F)]; [now left|]. right. exists (z :: t). split; [reflexivity|]. intros s' [<-|I']; [congruence|auto]. }
    destruct X as [->|(t & -> & F)]; [now left|]. right. exists (Some t). split; [reflexivity|]. split; [split; discriminate|]. intros l' s [= <-] I'. auto. }
  destruct Rt as [->|(ts & -> & Tn & Tm)]; [reflexivity|]. cbn [bind]. destruct (method_of (o_method o)) as [m|e] eqn:M; cbn [bind]; [|unfold method_of in M; repeat match goal with H : context [String.eqb ?x ?y] |- _ => destruct (String.eqb x y) end; congruence].
  unfold init. cbn [c_interval c_times c_method c_acc c_max c_min]. destruct H as [H|[H|[(l & s & El & Is & Es)|[(H1 & H2)|H]]]].
  - rewrite <- Tn in H. destruct (o_interval o), ts; try reflexivity; exfalso; destruct H as (H1 & H2); try (specialize (H1 eq_refl); discriminate); try (specialize (H2 eq_refl); discriminate).
  - exfalso. apply H. unfold method_of in M. destruct (String.eqb_spec (o_method o) "linear") as [->|]; [now left|]. destruct (String.eqb_spec (o_method o) "solar") as [->|]; [right; now left|]. destruct (String.eqb_spec (o_method o) "daynight") as [->|]; [right; right; now left|discriminate].
  - exfalso. exact (Tm l s El Is Es).
  - assert (Nm : match m with Linear => true | _ => false end = false). { unfold method_of in M. destruct (String.eqb_spec (o_method o) "linear") as [E0|]; [congruence|]. destruct (String.eqb (o_method o) "solar"); [injection M as <-; reflexivity|]. destruct (String.eqb (o_method o) "daynight"); [injection M as <-; reflexivity|discriminate]. }
    rewrite Nm, H2. cbn [andb negb]. destruct (o_interval o), ts; try reflexivity; now destruct (Nat.ltb _ _).
  - replace (Nat.ltb 1 _) with true; [destruct (o_interval o), ts; reflexivity|]. destruct (o_acc o), (o_max o), (o_min o); try discriminate; reflexivity.
Qed.
Definition case_options : options := {| o_interval := None; o_at := Some ["201711080200Z"; "201711080100Z"]%string; o_method := "linear"; o_acc := false; o_max := false; o_min := false |}.
Definition case_moment (s : string) : option Z := if String.eqb s "201711080100Z" then Some 3600 else if String.eqb s "201711080200Z" then Some 7200 else None.
Example C126_case : match temporal_interpolate case_moment (fun _ => []) (fun _ => []) case_options {| t_time := 10800; t_bounds := None; t_data := [6%Q] |} {| t_time := 0; t_bounds := None; t_data := [0%Q] |} with
  | Ok l => map (fun s => (o_time s, map (option_map Qred) (o_data s))) l = [(3600, [Some 2%Q]); (7200, [Some 4%Q]); (10800, [Some 6%Q])] | Err _ => False end.
Proof. vm_compute. reflexivity. Qed.

Print Assumptions C126_order.
Print Assumptions C126_same_time.
Print Assumptions C126_order_same_time_refuted.
Print Assumptions C126_times.
Print Assumptions C126_linear.
Print Assumptions C126_last.
Print Assumptions C126_refused.
