(** Proofs about TemporalInterpolation.process (Model_Temporal.v). *)
From Verif Require Import Base Spec_Temporal Model_Temporal Proofs_Temporal.
Open Scope Z_scope.

Lemma ctl_up_to c initial final l : valid_config c -> initial <= final -> construct_time_list c initial final = Ok l -> strictly_up_to initial final l.
Proof.
  intros V L H. destruct (ctl_props c initial final l V L H) as (S & I & F & N). repeat split; try assumption.
  apply zsorted_last; [assumption..|]. eapply Forall_impl; [|exact F]. simpl; lia.
Qed.

Lemma up_to_cases a b l : strictly_up_to a b l -> l = [b] \/ (2 <= length l)%nat /\ a < b.
Proof.
  intros (S & F & L & N). destruct l as [|x [|y l]]; [congruence|left; simpl in L; congruence|right].
  split; [simpl; lia|]. inversion S as [|? ? _ G]; subst. inversion G; inversion F; subst. inversion H6; subst. lia.
Qed.

(** * check_inputs *)
Lemma check_iff c c0 c1 : check_inputs c c0 c1 = Ok tt <->
  t_time c0 <= t_time c1 /\ has_bounds c0 = period_inputs c /\ has_bounds c1 = period_inputs c /\
  (period_inputs c = true -> blen c1 = t_time c1 - t_time c0).
Proof.
  unfold check_inputs. destruct (Z.ltb_spec (t_time c1) (t_time c0)); [split; [discriminate|lia]|].
  destruct (has_bounds c0), (has_bounds c1), (period_inputs c); simpl; try (split; [discriminate|intros (? & ? & ? & ?); congruence]).
  - destruct (Z.eqb_spec (t_time c1 - t_time c0) (blen c1)); simpl; split; try discriminate; intuition lia.
  - intuition congruence.
Qed.
Lemma check_err c c0 c1 e : check_inputs c c0 c1 = Err e -> e = ValueError.
Proof. unfold check_inputs. repeat match goal with |- context [if ?b then _ else _] => destruct b end; congruence. Qed.

(** * Shape of the output *)
Definition whole (c1 : tcube) : tslice := {| o_time := t_time c1; o_bounds := t_bounds c1; o_data := map Some (t_data c1) |}.
Definition mk (p : (Z * option (Z * Z)) * list (option Q)) : tslice := {| o_time := fst (fst p); o_bounds := snd (fst p); o_data := snd p |}.
Definition field_list sphi night c c0 c1 ts : result (list (list (option Q))) :=
  let t0 := t_time c0 in let t1 := t_time c1 in
  let lin := interp_fields t0 t1 (t_data c0) (t_data c1) ts in
      if c_acc c then
        let pts := zip2 (fun a0 a1 => accumulate_point t0 t1 (blen c0) (blen c1) a0 a1 ts) (t_data c0) (t_data c1) in
        Ok (map (fun k => column None k pts) (seq 0 (length ts)))
      else if c_max c then Ok (somes (map (fun f => zip2 Qmin (t_data c1) f) lin))
      else if c_min c then Ok (somes (map (fun f => zip2 Qmax (t_data c1) f) lin))
      else match c_method c with
           | Linear => Ok (somes lin)
           | Solar => solar_fields sphi t0 t1 (t_data c0) (t_data c1) ts
           | DayNight => Ok (somes (daynight_fields night (combine ts lin)))
           end.
Definition bnd_list (c : config) t0 ts : list (option (Z * Z)) := if period_inputs c then map Some (add_bounds t0 ts) else map (fun _ => None) ts.

Lemma process_inv sphi night c c0 c1 out : valid_config c -> process sphi night c c0 c1 = Ok out ->
  check_inputs c c0 c1 = Ok tt /\ exists ts, construct_time_list c (t_time c0) (t_time c1) = Ok ts /\ strictly_up_to (t_time c0) (t_time c1) ts /\
  ((ts = [t_time c1] /\ out = [whole c1]) \/
   ((2 <= length ts)%nat /\ t_time c0 < t_time c1 /\ exists fs, field_list sphi night c c0 c1 ts = Ok fs /\
     out = map mk (combine (combine ts (bnd_list c (t_time c0) ts)) fs))).
Proof.
  intros V. unfold process. destruct (check_inputs c c0 c1) as [[]|] eqn:C; simpl; [|discriminate].
  assert (L : t_time c0 <= t_time c1) by (apply check_iff in C; tauto).
  destruct (construct_time_list c (t_time c0) (t_time c1)) as [ts|] eqn:T; simpl; [|discriminate].
  intro H. split; [reflexivity|]. exists ts. split; [reflexivity|].
  pose proof (ctl_up_to c _ _ ts V L T) as U. split; [exact U|].
  destruct (up_to_cases _ _ _ U) as [E|(E & LT)].
  - left. subst ts. split; [reflexivity|]. rewrite Z.eqb_refl in H. injection H as <-. reflexivity.
  - right. split; [assumption|]. split; [assumption|]. destruct ts as [|x [|y r]]; [simpl in E; lia..|].
    match type of H with bind ?F _ = _ => change F with (field_list sphi night c c0 c1 (x :: y :: r)) in H end.
    destruct (field_list sphi night c c0 c1 (x :: y :: r)) as [fs|]; cbn [bind] in H; [|discriminate].
    exists fs. split; [reflexivity|]. apply Ok_inj in H. symmetry. exact H.
Qed.

Lemma bnd_length c t0 ts : length (bnd_list c t0 ts) = length ts.
Proof.
  unfold bnd_list, add_bounds. destruct (period_inputs c); rewrite map_length; [|reflexivity].
  rewrite combine_length.
  assert (G : forall A (a : A) l, length (removelast (a :: l)) = length l).
  { intros A a l. revert a. induction l as [|b l IH]; intro a; [reflexivity|]. change (removelast (a :: b :: l)) with (a :: removelast (b :: l)). cbn [length]. rewrite IH. reflexivity. }
  rewrite G. lia.
Qed.

Lemma mk_times ts : forall bs fs, length bs = length ts -> length fs = length ts -> map o_time (map mk (combine (combine ts bs) fs)) = ts.
Proof.
  induction ts as [|t ts IH]; intros [|b bs] [|f fs] H H'; simpl in *; try lia; [reflexivity..|]. f_equal. apply IH; lia.
Qed.
Lemma mk_bounds ts : forall bs fs, length bs = length ts -> length fs = length ts -> map o_bounds (map mk (combine (combine ts bs) fs)) = bs.
Proof.
  induction ts as [|t ts IH]; intros [|b bs] [|f fs] H H'; simpl in *; try lia; [reflexivity..|]. f_equal. apply IH; lia.
Qed.
Lemma mk_data ts : forall bs fs, length bs = length ts -> length fs = length ts -> map o_data (map mk (combine (combine ts bs) fs)) = fs.
Proof.
  induction ts as [|t ts IH]; intros [|b bs] [|f fs] H H'; simpl in *; try lia; [reflexivity..|]. f_equal. apply IH; lia.
Qed.
Lemma mk_in F ts : forall bs o, In o (map mk (combine (combine ts bs) (map F ts))) -> In (o_time o) ts /\ o_data o = F (o_time o).
Proof.
  induction ts as [|t ts IH]; intros [|b bs] o H; simpl in *; try tauto. destruct H as [<-|H]; [simpl; auto|].
  destruct (IH bs o H). auto.
Qed.

Lemma field_length sphi night c c0 c1 ts fs : field_list sphi night c c0 c1 ts = Ok fs -> length fs = length ts.
Proof.
  unfold field_list. destruct (c_acc c); [intro H; injection H as <-; rewrite map_length, seq_length; reflexivity|].
  unfold somes, interp_fields. destruct (c_max c); [intro H; injection H as <-; rewrite !map_length; reflexivity|].
  destruct (c_min c); [intro H; injection H as <-; rewrite !map_length; reflexivity|].
  destruct (c_method c).
  - intro H; injection H as <-; rewrite !map_length; reflexivity.
  - unfold solar_fields. destruct (_ =? 0); intro H; [discriminate|]. injection H as <-. rewrite map_length. reflexivity.
  - intro H; injection H as <-. unfold daynight_fields. rewrite !map_length, combine_length, map_length. lia.
Qed.

(** One output per requested time, in order. *)
Lemma process_times sphi night c c0 c1 out : valid_config c -> process sphi night c c0 c1 = Ok out ->
  construct_time_list c (t_time c0) (t_time c1) = Ok (map o_time out) /\ strictly_up_to (t_time c0) (t_time c1) (map o_time out).
Proof.
  intros V H. destruct (process_inv _ _ _ _ _ _ V H) as (_ & ts & T & U & [(E & ->)|(E & L & fs & F & ->)]).
  - subst ts. simpl. auto.
  - rewrite mk_times; [auto|apply bnd_length|apply (field_length _ _ _ _ _ _ _ F)].
Qed.

(** * Values *)
Lemma inj_pos z : 0 < z -> (0 < inject_Z z)%Q.
Proof. intro H. change 0%Q with (inject_Z 0). rewrite <- Zlt_Qlt. assumption. Qed.

Lemma tlerp_line t0 t1 x0 x1 t : t0 < t1 -> on_line t0 t1 x0 x1 t (tlerp t0 t1 x0 x1 t).
Proof.
  intro H. unfold on_line, tlerp. assert (~ inject_Z (t1 - t0) == 0)%Q.
  { pose proof (inj_pos (t1 - t0) ltac:(lia)). lra. }
  field. assumption.
Qed.
Lemma line_between t0 t1 x0 x1 t v : t0 < t1 -> t0 <= t <= t1 -> on_line t0 t1 x0 x1 t v -> between x0 x1 v.
Proof.
  intros H B E. unfold on_line, between in *.
  assert (P : (0 < inject_Z (t1 - t0))%Q) by (apply inj_pos; lia).
  assert (A : (0 <= inject_Z (t - t0) <= inject_Z (t1 - t0))%Q) by (change 0%Q with (inject_Z 0); rewrite <- !Zle_Qle; lia).
  set (d := inject_Z (t1 - t0)) in *. set (a := inject_Z (t - t0)) in *. clearbody d a.
  assert (pd : forall u, (0 <= u * d -> 0 <= u)%Q).
  { intros u Hu. destruct (Qlt_le_dec u 0) as [N|N]; [|assumption]. exfalso.
    assert (0 < (- u) * d)%Q by (apply Qmult_lt_0_compat; lra). lra. }
  assert (E2 : ((x1 - v) * d == (x1 - x0) * (d - a))%Q) by lra.
  assert (mm : (0 <= x1 - x0 -> 0 <= v - x0 /\ 0 <= x1 - v)%Q).
  { intro K. split; apply pd; [rewrite E|rewrite E2]; apply Qmult_le_0_compat; lra. }
  assert (mn : (0 <= x0 - x1 -> 0 <= x0 - v /\ 0 <= v - x1)%Q).
  { intro K. assert (E3 : ((x0 - v) * d == (x0 - x1) * a)%Q) by lra. assert (E4 : ((v - x1) * d == (x0 - x1) * (d - a))%Q) by lra.
    split; apply pd; [rewrite E3|rewrite E4]; apply Qmult_le_0_compat; lra. }
  destruct (Qmin_cases x0 x1) as [(C & ->)|(C & ->)]; destruct (Qmax_cases x0 x1) as [(D & ->)|(D & ->)];
    (destruct mm; [lra|]) || (destruct mn; [lra|]); split; lra.
Qed.
Lemma line_unique t0 t1 x0 x1 t v w : t0 < t1 -> on_line t0 t1 x0 x1 t v -> on_line t0 t1 x0 x1 t w -> (v == w)%Q.
Proof.
  intros H A B. unfold on_line in *.
  assert (P : (0 < inject_Z (t1 - t0))%Q) by (apply inj_pos; lia).
  set (d := inject_Z (t1 - t0)) in *. clearbody d.
  assert (E : ((v - w) * d == 0)%Q) by lra.
  destruct (Qmult_integral _ _ E); lra.
Qed.
Lemma line_end t0 t1 x0 x1 v : t0 < t1 -> on_line t0 t1 x0 x1 t1 v -> (v == x1)%Q.
Proof. intros H A. apply (line_unique t0 t1 x0 x1 t1 v x1 H A). unfold on_line. reflexivity. Qed.
Lemma line_start t0 t1 x0 x1 v : t0 < t1 -> on_line t0 t1 x0 x1 t0 v -> (v == x0)%Q.
Proof. intros H A. apply (line_unique t0 t1 x0 x1 t0 v x0 H A). unfold on_line. rewrite Z.sub_diag. change (inject_Z 0) with 0%Q. ring. Qed.

Lemma zip2_nth {A B C} (f : A -> B -> C) l : forall m j a b, nth_error l j = Some a -> nth_error m j = Some b -> nth_error (zip2 f l m) j = Some (f a b).
Proof.
  induction l as [|x l IH]; intros [|y m] [|j] a b H G; simpl in *; try discriminate.
  - injection H as ->. injection G as ->. reflexivity.
  - exact (IH m j a b H G).
Qed.
Lemma nth_error_map_some {A B} (f : A -> B) l j a : nth_error l j = Some a -> nth_error (map f l) j = Some (f a).
Proof. intro H. rewrite nth_error_map, H. reflexivity. Qed.
Lemma whole_nth c1 j x : nth_error (t_data c1) j = Some x -> nth_error (o_data (whole c1)) j = Some (Some x).
Proof. apply nth_error_map_some. Qed.

Definition data_at (o : tslice) (j : nat) (v : Q) : Prop := nth_error (o_data o) j = Some (Some v).

Lemma times_in_range a b l t : strictly_up_to a b l -> In t l -> a <= t <= b.
Proof. intros (_ & F & _) H. rewrite Forall_forall in F. auto. Qed.

(** Generic: if the multi-time path computes the field of time t as F t. *)
Lemma process_pointwise sphi night c c0 c1 out F : valid_config c -> process sphi night c c0 c1 = Ok out ->
  (forall ts fs, field_list sphi night c c0 c1 ts = Ok fs -> fs = map F ts) ->
  forall o, In o out -> t_time c0 <= o_time o <= t_time c1 /\
    ((out = [whole c1] /\ o = whole c1) \/ (t_time c0 < t_time c1 /\ (2 <= length out)%nat /\ o_data o = F (o_time o))).
Proof.
  intros V H HF o Ho. destruct (process_times _ _ _ _ _ _ V H) as (_ & U2).
  split; [apply (times_in_range _ _ _ _ U2); apply in_map; exact Ho|].
  destruct (process_inv _ _ _ _ _ _ V H) as (_ & ts & T & U & [(E & ->)|(E & L & fs & FF & Eo)]).
  - left. split; [reflexivity|]. destruct Ho as [<-|[]]. reflexivity.
  - right. split; [assumption|]. assert (length out = length ts).
    { rewrite Eo. rewrite map_length, !combine_length, bnd_length, (field_length _ _ _ _ _ _ _ FF). lia. }
    split; [lia|]. rewrite (HF ts fs FF) in Eo. subst out. exact (proj2 (mk_in F ts _ o Ho)).
Qed.

Lemma period_false c : period_inputs c = false -> c_acc c = false /\ c_max c = false /\ c_min c = false.
Proof. unfold period_inputs. destruct (c_acc c), (c_max c), (c_min c); simpl; intuition discriminate. Qed.
Lemma init_period c : init c = Ok c -> (c_acc c = true -> c_max c = false /\ c_min c = false) /\ (c_max c = true -> c_acc c = false /\ c_min c = false) /\
  (c_min c = true -> c_acc c = false /\ c_max c = false) /\ (period_inputs c = true -> c_method c = Linear).
Proof.
  unfold init, period_inputs. destruct (c_interval c), (c_times c); try discriminate; destruct (c_acc c), (c_max c), (c_min c), (c_method c); simpl; intuition discriminate.
Qed.

Lemma process_linear sphi night c c0 c1 out o j x0 x1 : valid_config c -> period_inputs c = false -> c_method c = Linear ->
  process sphi night c c0 c1 = Ok out -> In o out -> nth_error (t_data c0) j = Some x0 -> nth_error (t_data c1) j = Some x1 ->
  exists v, data_at o j v /\ on_line (t_time c0) (t_time c1) x0 x1 (o_time o) v /\ between x0 x1 v /\ (o_time o = t_time c1 -> v == x1)%Q.
Proof.
  intros V P M H Ho H0 H1. destruct (period_false c P) as (A & B & C).
  destruct (process_pointwise sphi night c c0 c1 out
    (fun t => map Some (zip2 (fun x0 x1 => tlerp (t_time c0) (t_time c1) x0 x1 t) (t_data c0) (t_data c1))) V H) with (o := o) as (R & [(E & ->)|(L & _ & E)]); [|exact Ho|..].
  - intros ts fs F. unfold field_list in F. rewrite A, B, C, M in F. injection F as <-. unfold somes, interp_fields. rewrite map_map. reflexivity.
  - exists x1. split; [apply whole_nth; assumption|]. split; [|split; [|reflexivity]].
    + simpl. unfold on_line. reflexivity.
    + unfold between. split; qmm; lra.
  - exists (tlerp (t_time c0) (t_time c1) x0 x1 (o_time o)). split; [|split; [|split]].
    + unfold data_at. rewrite E. apply nth_error_map_some. apply (zip2_nth (fun x0 x1 => tlerp (t_time c0) (t_time c1) x0 x1 (o_time o))); assumption.
    + apply tlerp_line. assumption.
    + apply (line_between _ _ _ _ _ _ L R (tlerp_line _ _ _ _ _ L)).
    + intro Et. apply (line_end (t_time c0) (t_time c1) x0 x1); [assumption|]. rewrite Et. apply tlerp_line. assumption.
Qed.

Lemma process_minmax sphi night c c0 c1 out o j x0 x1 : valid_config c -> c_max c = true \/ c_min c = true ->
  process sphi night c c0 c1 = Ok out -> In o out -> nth_error (t_data c0) j = Some x0 -> nth_error (t_data c1) j = Some x1 ->
  exists v w, data_at o j v /\ on_line (t_time c0) (t_time c1) x0 x1 (o_time o) w /\ between x0 x1 w /\
   (v == (if c_max c then Qmin x1 w else Qmax x1 w))%Q.
Proof.
  intros V P H Ho H0 H1. destruct V as (VI & VP). pose proof (init_period c VI) as (I1 & I2 & I3 & I4).
  set (g := if c_max c then Qmin else Qmax).
  destruct (process_pointwise sphi night c c0 c1 out
    (fun t => map Some (zip2 g (t_data c1) (zip2 (fun x0 x1 => tlerp (t_time c0) (t_time c1) x0 x1 t) (t_data c0) (t_data c1)))) (conj VI VP) H) with (o := o) as (R & [(E & ->)|(L & _ & E)]); [|exact Ho|..].
  - intros ts fs F. unfold field_list in F. unfold g. destruct (c_max c).
    + rewrite (proj1 (I2 eq_refl)) in F. injection F as <-. unfold somes, interp_fields. rewrite !map_map. reflexivity.
    + destruct P as [P|P]; [discriminate|]. rewrite (proj1 (I3 P)), P in F. injection F as <-. unfold somes, interp_fields. rewrite !map_map. reflexivity.
  - exists x1, x1. split; [apply whole_nth; assumption|]. split; [simpl; unfold on_line; reflexivity|]. split; [unfold between; split; (qmm; lra)|]. destruct (c_max c); qmm; lra.
  - exists (g x1 (tlerp (t_time c0) (t_time c1) x0 x1 (o_time o))), (tlerp (t_time c0) (t_time c1) x0 x1 (o_time o)). split; [|split; [|split]].
    + unfold data_at. rewrite E. apply nth_error_map_some. apply zip2_nth; [assumption|]. apply (zip2_nth (fun x0 x1 => tlerp (t_time c0) (t_time c1) x0 x1 (o_time o))); assumption.
    + apply tlerp_line. assumption.
    + apply (line_between _ _ _ _ _ _ L R (tlerp_line _ _ _ _ _ L)).
    + unfold g. destruct (c_max c); reflexivity.
Qed.

(** * Accumulations *)
Lemma inject_sub a b : (inject_Z (a - b) == inject_Z a - inject_Z b)%Q.
Proof. unfold Z.sub. rewrite inject_Z_plus, inject_Z_opp. reflexivity. Qed.

(** The trapezium rule is exact on a straight line, however the period is cut. *)
Lemma trapezia_line (k b : Q) ts : forall t0, 
  let f := fun t => (k * inject_Z t + b)%Q in
  (qsum (trapezia t0 (f t0) (map (fun t => (t, f t)) ts)) == (inject_Z (last ts t0) - inject_Z t0) * ((f t0 + f (last ts t0)) / 2))%Q.
Proof.
  induction ts as [|t ts IH]; intros t0 f; [cbn [map trapezia qsum last]; ring|].
  cbn [map trapezia qsum]. specialize (IH t). cbv zeta in IH. unfold f.
  rewrite IH. rewrite inject_sub. replace (last (t :: ts) t0) with (last ts t).
  - field.
  - assert (G : forall (l : list Z) a d d', last (a :: l) d = last (a :: l) d').
    { clear. induction l as [|b l IH]; intros; [reflexivity|]. exact (IH b d d'). }
    destruct ts as [|z ts]; [reflexivity|]. change (last (t :: z :: ts) t0) with (last (z :: ts) t0). apply G.
Qed.
Lemma trapezia_ext l : forall t0 r0 r0' m, (r0 == r0')%Q -> Forall2 (fun p q => fst p = fst q /\ (snd p == snd q)%Q) l m ->
  Forall2 Qeq (trapezia t0 r0 l) (trapezia t0 r0' m).
Proof.
  induction l as [|(t, r) l IH]; intros t0 r0 r0' m E F; inversion F as [|? (t', r') ? m' (A & B) F']; subst; simpl; [constructor|].
  simpl in A, B. subst t'. constructor; [rewrite E, B; reflexivity|]. apply IH; assumption.
Qed.
Lemma trapezia_length l : forall t0 r0, length (trapezia t0 r0 l) = length l.
Proof. induction l as [|(t, r) l IH]; intros; simpl; [reflexivity|]. rewrite IH. reflexivity. Qed.

Lemma trapezia_nonneg l : forall t0 r0, (0 <= r0)%Q -> StronglySorted Z.le (t0 :: map fst l) -> Forall (fun p => 0 <= snd p)%Q l ->
  Forall (fun x => 0 <= x)%Q (trapezia t0 r0 l).
Proof.
  induction l as [|(t, r) l IH]; intros t0 r0 P S F; simpl; [constructor|]. inversion S as [|? ? S1 S2]; inversion S2; inversion F; subst. simpl in *.
  constructor; [|apply IH; assumption]. apply Qmult_le_0_compat.
  - change 0%Q with (inject_Z 0). rewrite <- Zle_Qle. lia.
  - assert (0 <= (r0 + r) * (1#2))%Q by (apply Qmult_le_0_compat; lra). unfold Qdiv. change (/ 2)%Q with (1#2)%Q. assumption.
Qed.

Lemma tlerp_nonneg t0 t1 a b t : t0 < t1 -> t0 <= t <= t1 -> (0 <= a)%Q -> (0 <= b)%Q -> (0 <= tlerp t0 t1 a b t)%Q.
Proof.
  intros L R A B. destruct (line_between t0 t1 a b t _ L R (tlerp_line _ _ _ _ _ L)) as (C & _).
  assert (0 <= Qmin a b)%Q by (qmm; lra). lra.
Qed.

Lemma total_formula t0 t1 r0 r1 ts : t0 < t1 -> strictly_up_to t0 t1 ts ->
  (qsum (trapezia t0 r0 (map (fun t => (t, tlerp t0 t1 r0 r1 t)) ts)) == inject_Z (t1 - t0) * ((r0 + r1) / 2))%Q.
Proof.
  intros L (_ & _ & La & _). pose proof (inj_pos (t1 - t0) ltac:(lia)) as P.
  set (k := ((r1 - r0) / inject_Z (t1 - t0))%Q). set (b := (r0 - k * inject_Z t0)%Q).
  pose proof (trapezia_line k b ts t0) as T. cbv zeta in T.
  assert (E : forall t, (tlerp t0 t1 r0 r1 t == k * inject_Z t + b)%Q).
  { intro t. unfold tlerp, b, k. rewrite (inject_sub t t0). field. lra. }
  rewrite (Forall2_Qeq_qsum _ (trapezia t0 (k * inject_Z t0 + b) (map (fun t => (t, k * inject_Z t + b)%Q) ts))).
  - rewrite T, La. rewrite <- inject_sub. assert (E0 : (k * inject_Z t0 + b == r0)%Q) by (unfold b; ring). rewrite E0.
    assert (E1 : (k * inject_Z t1 + b == r1)%Q). { unfold b, k. rewrite inject_sub in *. field. lra. }
    rewrite E1. reflexivity.
  - apply trapezia_ext; [unfold b; ring|]. clear - E. induction ts; simpl; constructor; [split; [reflexivity|apply E]|assumption].
Qed.

Lemma acc_point_total t0 t1 len0 a0 a1 ts : t0 < t1 -> strictly_up_to t0 t1 ts -> 0 < len0 -> (0 <= a0)%Q -> (0 <= a1)%Q -> (0 < a0 + a1)%Q ->
  exists vs, accumulate_point t0 t1 len0 (t1 - t0) a0 a1 ts = map Some vs /\ Forall (fun v => 0 <= v)%Q vs /\ (qsum vs == a1)%Q.
Proof.
  intros L U Hl A0 A1 A. unfold accumulate_point. destruct (Z.eqb_spec len0 0); [lia|].
  pose proof (inj_pos len0 Hl) as P0. pose proof (inj_pos (t1 - t0) ltac:(lia)) as P1.
  set (r0 := (a0 / inject_Z len0)%Q). set (r1 := (a1 / inject_Z (t1 - t0))%Q).
  assert (R0 : (0 <= r0)%Q) by (apply Qle_shift_div_l; lra). assert (R1 : (0 <= r1)%Q) by (apply Qle_shift_div_l; lra).
  assert (R : (0 < r0 + r1)%Q).
  { destruct (Qlt_le_dec 0 a0) as [G|G].
    - assert (0 < r0)%Q by (apply Qlt_shift_div_l; lra). lra.
    - assert (0 < r1)%Q by (apply Qlt_shift_div_l; lra). lra. }
  pose proof (total_formula t0 t1 r0 r1 ts L U) as T. set (tr := trapezia _ _ _) in *.
  assert (Tp : (0 < qsum tr)%Q).
  { rewrite T. apply Qmult_lt_0_compat; [assumption|]. unfold Qdiv. change (/ 2)%Q with (1#2)%Q. lra. }
  unfold renormalise. destruct (Qeqb_spec (qsum tr) 0); [lra|].
  exists (map (fun x => x * (a1 / qsum tr))%Q tr). split; [rewrite map_map; reflexivity|]. split.
  - apply Forall_forall. intros v Hv. apply in_map_iff in Hv. destruct Hv as (x & <- & Hx).
    assert (N : Forall (fun x => 0 <= x)%Q tr).
    { destruct U as (S & B & _). apply trapezia_nonneg; [assumption| |].
      - rewrite map_map. cbn [fst]. rewrite map_id. constructor.
        + clear - S. induction S as [|a l S IH F]; constructor; [assumption|]. eapply Forall_impl; [|exact F]. simpl. lia.
        + eapply Forall_impl; [|exact B]. simpl. lia.
      - apply Forall_forall. intros p Hp. apply in_map_iff in Hp. destruct Hp as (t & <- & Ht). simpl.
        rewrite Forall_forall in B. apply tlerp_nonneg; auto. }
    rewrite Forall_forall in N. apply Qmult_le_0_compat; [auto|]. apply Qle_shift_div_l; lra.
  - rewrite qsum_map_mul. field. lra.
Qed.

Lemma acc_point_dry t0 t1 len0 a0 a1 ts : t0 < t1 -> strictly_up_to t0 t1 ts -> (a0 == 0)%Q -> (a1 == 0)%Q ->
  accumulate_point t0 t1 len0 (t1 - t0) a0 a1 ts = map (fun _ => None) ts.
Proof.
  intros L U A0 A1. unfold accumulate_point. destruct (Z.eqb_spec len0 0); [reflexivity|]. unfold renormalise.
  pose proof (total_formula t0 t1 (a0 / inject_Z len0) (a1 / inject_Z (t1 - t0)) ts L U) as T.
  destruct (Qeqb_spec (qsum (trapezia t0 (a0 / inject_Z len0) (map (fun t => (t, tlerp t0 t1 (a0 / inject_Z len0) (a1 / inject_Z (t1 - t0)) t)) ts))) 0) as [E|E].
  - assert (Ln : length (trapezia t0 (a0 / inject_Z len0) (map (fun t => (t, tlerp t0 t1 (a0 / inject_Z len0) (a1 / inject_Z (t1 - t0)) t)) ts)) = length ts) by (rewrite trapezia_length, map_length; reflexivity).
    revert Ln. generalize (trapezia t0 (a0 / inject_Z len0) (map (fun t => (t, tlerp t0 t1 (a0 / inject_Z len0) (a1 / inject_Z (t1 - t0)) t)) ts)).
    clear. intros l. revert ts. induction l; intros [|t ts]; simpl; intro; try lia; [reflexivity|]. f_equal. apply IHl. lia.
  - exfalso. apply E. rewrite T, A0, A1. unfold Qdiv. rewrite !Qmult_0_l. ring.
Qed.

Definition series (out : list tslice) (j : nat) : list (option Q) := map (fun o => nth j (o_data o) None) out.

Lemma map_nth_seq {A} (l : list A) d n : length l = n -> map (fun k => nth k l d) (seq 0 n) = l.
Proof.
  intros <-. induction l as [|a l IH]; [reflexivity|]. simpl. f_equal. rewrite <- seq_shift, map_map. exact IH.
Qed.

Lemma acc_length t0 t1 l0 l1 a0 a1 ts : length (accumulate_point t0 t1 l0 l1 a0 a1 ts) = length ts.
Proof.
  unfold accumulate_point. destruct (_ =? _); [apply map_length|]. unfold renormalise. destruct (_ =? _)%Q; rewrite map_length, trapezia_length, map_length; reflexivity.
Qed.

Lemma acc_series sphi night c c0 c1 out j a0 a1 : valid_config c -> c_acc c = true -> process sphi night c c0 c1 = Ok out ->
  nth_error (t_data c0) j = Some a0 -> nth_error (t_data c1) j = Some a1 ->
  (out = [whole c1]) \/
  (t_time c0 < t_time c1 /\ strictly_up_to (t_time c0) (t_time c1) (map o_time out) /\ (2 <= length out)%nat /\
   blen c1 = t_time c1 - t_time c0 /\
   series out j = accumulate_point (t_time c0) (t_time c1) (blen c0) (blen c1) a0 a1 (map o_time out)).
Proof.
  intros V A H H0 H1. destruct (process_times _ _ _ _ _ _ V H) as (_ & U).
  destruct (process_inv _ _ _ _ _ _ V H) as (C & ts & T & U2 & [(E & ->)|(E & L & fs & FF & Eo)]); [left; reflexivity|right].
  split; [assumption|]. split; [assumption|].
  assert (Et : map o_time out = ts) by (rewrite Eo; apply mk_times; [apply bnd_length|apply (field_length _ _ _ _ _ _ _ FF)]).
  assert (Ed : map o_data out = fs) by (rewrite Eo; apply mk_data; [apply bnd_length|apply (field_length _ _ _ _ _ _ _ FF)]).
  split; [rewrite <- (map_length o_time), Et; assumption|].
  split. { apply check_iff in C. unfold period_inputs in C. rewrite A in C. simpl in C. apply C. reflexivity. }
  rewrite Et. unfold series. rewrite <- (map_map o_data (fun d => nth j d None)), Ed.
  unfold field_list in FF. rewrite A in FF. injection FF as <-. rewrite map_map.
  set (pts := zip2 _ (t_data c0) (t_data c1)).
  assert (Ep : nth_error pts j = Some (accumulate_point (t_time c0) (t_time c1) (blen c0) (blen c1) a0 a1 ts)) by (apply (zip2_nth (fun a0 a1 => accumulate_point (t_time c0) (t_time c1) (blen c0) (blen c1) a0 a1 ts)); assumption).
  clearbody pts. transitivity (map (fun k => nth k (accumulate_point (t_time c0) (t_time c1) (blen c0) (blen c1) a0 a1 ts) None) (seq 0 (length ts))).
  - apply map_ext. intro k. unfold column. apply nth_error_nth. apply nth_error_map_some with (f := fun r => nth k r None). assumption.
  - apply map_nth_seq. apply acc_length.
Qed.

Lemma process_acc sphi night c c0 c1 out j a0 a1 : valid_config c -> c_acc c = true -> process sphi night c c0 c1 = Ok out ->
  nth_error (t_data c0) j = Some a0 -> nth_error (t_data c1) j = Some a1 -> 0 < blen c0 -> (0 <= a0)%Q -> (0 <= a1)%Q -> (0 < a0 + a1)%Q ->
  exists vs, series out j = map Some vs /\ Forall (fun v => 0 <= v)%Q vs /\ (qsum vs == a1)%Q.
Proof.
  intros V A H H0 H1 B P0 P1 P. destruct (acc_series _ _ _ _ _ _ _ _ _ V A H H0 H1) as [->|(L & U & N & Bl & ->)].
  - exists [a1]. unfold series. simpl. split; [f_equal; apply nth_error_nth; apply (whole_nth c1); assumption|]. split; [repeat constructor; assumption|ring].
  - rewrite Bl. apply acc_point_total; assumption.
Qed.
Lemma process_acc_dry sphi night c c0 c1 out j a0 a1 : valid_config c -> c_acc c = true -> process sphi night c c0 c1 = Ok out ->
  nth_error (t_data c0) j = Some a0 -> nth_error (t_data c1) j = Some a1 -> (a0 == 0)%Q -> (a1 == 0)%Q -> (2 <= length out)%nat ->
  Forall (fun x => x = None) (series out j).
Proof.
  intros V A H H0 H1 Z0 Z1 N. destruct (acc_series _ _ _ _ _ _ _ _ _ V A H H0 H1) as [->|(L & U & _ & Bl & ->)]; [simpl in N; lia|].
  rewrite Bl, acc_point_dry by assumption. apply Forall_forall. intros x Hx. apply in_map_iff in Hx. destruct Hx as (? & <- & _). reflexivity.
Qed.

(** * Bounds *)
Lemma process_bounds sphi night c c0 c1 out k o : valid_config c -> period_inputs c = true -> process sphi night c c0 c1 = Ok out -> (2 <= length out)%nat ->
  nth_error out k = Some o -> exists s, o_bounds o = Some (s, o_time o) /\
    match k with O => s = t_time c0 | S k' => exists o', nth_error out k' = Some o' /\ s = o_time o' end.
Proof.
  intros V P H N Ho. destruct (process_inv _ _ _ _ _ _ V H) as (_ & ts & T & U & [(E & ->)|(E & L & fs & FF & Eo)]); [simpl in N; lia|].
  assert (Et : map o_time out = ts) by (rewrite Eo; apply mk_times; [apply bnd_length|apply (field_length _ _ _ _ _ _ _ FF)]).
  assert (Eb : map o_bounds out = map Some (add_bounds (t_time c0) ts)) by (rewrite Eo; rewrite mk_bounds; [unfold bnd_list; rewrite P; reflexivity|apply bnd_length|apply (field_length _ _ _ _ _ _ _ FF)]).
  rewrite <- Et in Eb. clear - Eb Ho. generalize dependent (t_time c0). revert out o Ho.
  assert (G : forall a b l, add_bounds a (b :: l) = (a, b) :: add_bounds b l) by reflexivity.
  induction k as [|k IH]; intros [|o1 out] o Ho z Eb; try discriminate.
  - injection Ho as ->. cbn [map] in Eb. rewrite G in Eb. cbn [map] in Eb. injection Eb as Eb _. exists z. auto.
  - simpl in Ho. cbn [map] in Eb. rewrite G in Eb. cbn [map] in Eb. injection Eb as E1 Eb. destruct (IH out o Ho (o_time o1) Eb) as (s & A & B).
    exists s. split; [assumption|]. destruct k; [exists o1; split; [reflexivity|assumption]|exact B].
Qed.

(** * Solar and day/night *)
Lemma td_small d : 0 <= d < 86400 -> td_seconds d = d.
Proof. intro H. apply Z.mod_small. assumption. Qed.

Lemma process_solar sphi night c c0 c1 out o j x0 x1 s0 s1 s : valid_config c -> c_method c = Solar ->
  process sphi night c c0 c1 = Ok out -> (2 <= length out)%nat -> t_time c1 - t_time c0 < 86400 ->
  In o out -> nth_error (t_data c0) j = Some x0 -> nth_error (t_data c1) j = Some x1 ->
  nth_error (sphi (t_time c0)) j = Some s0 -> nth_error (sphi (t_time c1)) j = Some s1 -> nth_error (sphi (o_time o)) j = Some s ->
  ((s <= 0)%Q -> data_at o j 0) /\
  ((0 < s)%Q -> ~ (s0 == 0)%Q -> ~ (s1 == 0)%Q ->
    exists v, data_at o j v /\ on_line (t_time c0) (t_time c1) (x0 / s0) (x1 / s1) (o_time o) (v / s)).
Proof.
  intros V M H N G Ho H0 H1 S0 S1 S. destruct V as (VI & VP). pose proof (init_period c VI) as (_ & _ & _ & I4).
  assert (P : period_inputs c = false) by (destruct (period_inputs c); [specialize (I4 eq_refl); congruence|reflexivity]).
  destruct (period_false c P) as (A & B & C).
  destruct (process_pointwise sphi night c c0 c1 out
    (fun t => zip2 (fun s x => solar_point (td_seconds (t_time c1 - t_time c0)) (td_seconds (t - t_time c0)) (fst (fst s)) (snd (fst s)) (snd s) (fst x) (snd x))
         (combine (combine (sphi (t_time c0)) (sphi (t_time c1))) (sphi t)) (combine (t_data c0) (t_data c1))) (conj VI VP) H) with (o := o) as (R & [(E & ->)|(L & _ & E)]); [|exact Ho|..].
  - intros ts fs F. unfold field_list in F. rewrite A, B, C, M in F. unfold solar_fields in F. destruct (_ =? 0); [discriminate|]. injection F as <-. reflexivity.
  - rewrite E in N. simpl in N. lia.
  - assert (cn : forall X Y (l : list X) (m : list Y) i a b, nth_error l i = Some a -> nth_error m i = Some b -> nth_error (combine l m) i = Some (a, b)).
    { clear. induction l as [|x l IH]; intros [|y m] [|i] a b; simpl; try discriminate; intros; [congruence|auto]. }
    assert (D : nth_error (o_data o) j = Some (solar_point (t_time c1 - t_time c0) (o_time o - t_time c0) s0 s1 s x0 x1)).
    { rewrite E. rewrite !td_small by lia. erewrite zip2_nth; [|apply cn; [apply cn; eassumption|eassumption]|apply cn; eassumption]. reflexivity. }
    unfold data_at. rewrite D. unfold solar_point. split.
    + intro Z. destruct (Qltb_spec 0 s); [lra|]. reflexivity.
    + intros Z N0 N1. destruct (Qltb_spec 0 s); [|lra]. destruct (Qeqb_spec s0 0); [tauto|]. destruct (Qeqb_spec s1 0); [tauto|]. simpl.
      eexists. split; [reflexivity|]. unfold on_line. pose proof (inj_pos (t_time c1 - t_time c0) ltac:(lia)). field. repeat split; try lra; assumption.
Qed.

Lemma process_solar_whole_days sphi night c c0 c1 out : valid_config c -> c_method c = Solar -> (t_time c1 - t_time c0) mod 86400 = 0 ->
  process sphi night c c0 c1 = Ok out -> out = [whole c1].
Proof.
  intros (VI & VP) M D H. pose proof (init_period c VI) as (_ & _ & _ & I4).
  assert (P : period_inputs c = false) by (destruct (period_inputs c); [specialize (I4 eq_refl); congruence|reflexivity]).
  destruct (period_false c P) as (A & B & C).
  destruct (process_inv _ _ _ _ _ _ (conj VI VP) H) as (_ & ts & T & U & [(E & ->)|(E & L & fs & FF & Eo)]); [reflexivity|].
  unfold field_list in FF. rewrite A, B, C, M in FF. unfold solar_fields in FF. unfold td_seconds in FF. rewrite D in FF. discriminate.
Qed.

Lemma process_daynight sphi night c c0 c1 out o j x0 x1 b : valid_config c -> c_method c = DayNight ->
  process sphi night c c0 c1 = Ok out -> (2 <= length out)%nat ->
  In o out -> nth_error (t_data c0) j = Some x0 -> nth_error (t_data c1) j = Some x1 -> nth_error (night (o_time o)) j = Some b ->
  exists v, data_at o j v /\ (if b then v == 0 else on_line (t_time c0) (t_time c1) x0 x1 (o_time o) v)%Q.
Proof.
  intros (VI & VP) M H N Ho H0 H1 Hb. pose proof (init_period c VI) as (_ & _ & _ & I4).
  assert (P : period_inputs c = false) by (destruct (period_inputs c); [specialize (I4 eq_refl); congruence|reflexivity]).
  destruct (period_false c P) as (A & B & C).
  destruct (process_pointwise sphi night c c0 c1 out
    (fun t => map Some (zip2 (fun (b : bool) x => if b then 0%Q else x) (night t) (zip2 (fun x0 x1 => tlerp (t_time c0) (t_time c1) x0 x1 t) (t_data c0) (t_data c1)))) (conj VI VP) H) with (o := o) as (R & [(E & ->)|(L & _ & E)]); [|exact Ho|..].
  - intros ts fs F. unfold field_list in F. rewrite A, B, C, M in F. injection F as <-. unfold somes, daynight_fields, interp_fields.
    rewrite map_map. clear. induction ts; simpl; [reflexivity|]. rewrite IHts. reflexivity.
  - rewrite E in N. simpl in N. lia.
  - eexists. split; [unfold data_at; rewrite E; apply nth_error_map_some; apply (zip2_nth (fun (b : bool) x => if b then 0%Q else x)); [eassumption|apply (zip2_nth (fun x0 x1 => tlerp (t_time c0) (t_time c1) x0 x1 (o_time o))); eassumption]|].
    destruct b; [reflexivity|]. apply tlerp_line. assumption.
Qed.
