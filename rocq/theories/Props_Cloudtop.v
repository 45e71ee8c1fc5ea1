(** C89: the temperature at the top of convective cloud. *)
From Coq Require Import Lia.
From Verif Require Import Base Model_Cloudtop.
From Coq Require Import Lqa.
Local Open Scope Q_scope.

(** * Specification *)
(** At level [k] the parcel is above the base of the cloud and colder than the air around it. *)
Definition stopped (pressures : list Q) (p : point) (k : nat) : Prop := let q := nth k pressures 0 in q < pt_p p /\ pt_parcel p q < pt_env p k.
(** The parcel rises through the first [n] levels and is stopped at the next, if there is one. *)
Definition rises_through (pressures : list Q) (p : point) (n : nat) : Prop := (n <= length pressures)%nat /\ (forall k, (k < n)%nat -> ~ stopped pressures p k) /\ ((n < length pressures)%nat -> stopped pressures p n).
(** Its temperature at the last level it reached; at the base if it reached none. *)
Definition last_temperature (pressures : list Q) (p : point) (n : nat) : Q := match n with O => pt_t p | S k => pt_parcel p (nth k pressures 0) end.

(** * One point *)
Fixpoint alone (k : nat) (pressures : list Q) (p : point) (s : state) : state := match pressures with [] => s | q :: r => alone (S k) r p (step k q p s) end.
Lemma alone_off k pressures p t : alone k pressures p (false, t) = (false, t).
Proof. revert k. induction pressures as [|q r IH]; intro k; [reflexivity|]. cbn [alone]. unfold step. cbn [fst snd andb]. apply IH. Qed.
Lemma levels_alone pressures ps : forall k ss, length ss = length ps -> levels k pressures ps ss = map (fun x => alone k pressures (fst x) (snd x)) (combine ps ss).
Proof.
  induction pressures as [|q r IH]; intros k ss L; cbn [levels alone].
  - revert ss L. induction ps as [|p ps IHp]; intros [|s ss] L; try discriminate; [reflexivity|]. cbn [combine map fst snd]. f_equal. apply IHp. cbn in L. lia.
  - set (ss' := map _ _). assert (L' : length ss' = length ps) by (unfold ss'; rewrite map_length, combine_length; lia).
    assert (E : map (fun x => alone (S k) r (fst x) (snd x)) (combine ps ss') = map (fun x => alone (S k) r (fst x) (step k q (fst x) (snd x))) (combine ps ss)).
    { unfold ss'. clear -L. revert ss L. induction ps as [|p ps IHp]; intros [|s ss] L; try discriminate; [reflexivity|]. cbn [combine map fst snd]. f_equal. apply IHp. cbn in L. lia. }
    rewrite <- E. destruct (negb (existsb fst ss')) eqn:N; [|apply IH; exact L'].
    apply Bool.negb_true_iff in N. clearbody ss'. clear -N L'. revert ss' N L'. induction ps as [|p ps IHp]; intros [|s ss] N L; try discriminate; [reflexivity|]. cbn [combine map fst snd]. cbn [existsb] in N. apply Bool.orb_false_iff in N as [N1 N2]. destruct s as [b t]. cbn in N1. subst b. rewrite alone_off. f_equal. apply IHp; [exact N2|cbn in L; lia].
Qed.
Lemma cloud_top_alone pressures ps : cloud_top pressures ps = map (fun p => finish p (alone 0 pressures p (start p))) ps.
Proof.
  unfold cloud_top. rewrite levels_alone by apply map_length. induction ps as [|p ps IH]; [reflexivity|]. cbn [map combine fst snd]. f_equal. exact IH.
Qed.
Lemma alone_spec pre : forall k p t n, (n <= length pre)%nat ->
  (forall i, (i < n)%nat -> ~ (nth i pre 0 < pt_p p /\ pt_parcel p (nth i pre 0) < pt_env p (k + i)%nat)) -> ((n < length pre)%nat -> nth n pre 0 < pt_p p /\ pt_parcel p (nth n pre 0) < pt_env p (k + n)%nat) ->
  snd (alone k pre p (true, t)) = match n with O => t | S i => pt_parcel p (nth i pre 0) end.
Proof.
  induction pre as [|q r IH]; intros k p t n L H E; cbn [alone].
  - cbn in L. replace n with 0%nat by lia. reflexivity.
  - unfold step. cbn [fst snd andb]. destruct n as [|n].
    + destruct (E ltac:(cbn; lia)) as [E1 E2]. cbn [nth] in E1, E2. rewrite Nat.add_0_r in E2. rewrite (proj2 (Qltb_lt _ _) E1), (proj2 (Qltb_lt _ _) E2). cbn [andb negb]. rewrite alone_off. reflexivity.
    + pose proof (H 0%nat ltac:(lia)) as H0. cbn [nth] in H0. rewrite Nat.add_0_r in H0. assert (C : ((pt_parcel p q <? pt_env p k) && (q <? pt_p p))%bool = false).
      { destruct (Qltb_spec (pt_parcel p q) (pt_env p k)); [|reflexivity]. destruct (Qltb_spec q (pt_p p)); [tauto|reflexivity]. }
      rewrite C. cbn [negb]. rewrite (IH (S k) p (pt_parcel p q) n).
      * destruct n; reflexivity.
      * cbn in L. lia.
      * intros i I0. specialize (H (S i) ltac:(lia)). cbn [nth] in H. replace (S k + i)%nat with (k + S i)%nat by lia. exact H.
      * intro I0. specialize (E ltac:(cbn; lia)). cbn [nth] in E. replace (S k + n)%nat with (k + S n)%nat by lia. exact E.
Qed.

(** * C89 *)
(** The temperature of the parcel at the last level before the one where it is stopped; masked if that is less than 4 K below that of the base, or if there is no base. *)
Theorem C89_top pressures ps i p n : nth_error ps i = Some p -> rises_through pressures p n ->
  nth i (cloud_top pressures ps) None = (if (pt_masked p || (pt_t p - last_temperature pressures p n <? 4))%bool then None else Some (last_temperature pressures p n)).
Proof.
  intros I0 (L & B & E). rewrite cloud_top_alone. assert (Li : (i < length ps)%nat) by (apply nth_error_Some; congruence). rewrite (nth_map_lt _ ps i p None Li). rewrite (nth_error_nth ps i p I0). unfold finish, minimum_t_diff.
  destruct (pt_masked p) eqn:M; [reflexivity|]. cbn [orb]. unfold start. rewrite M. cbn [negb].
  rewrite (alone_spec pressures 0 p (pt_t p) n L); [reflexivity|exact B|exact E].
Qed.
(** There is always exactly one such level, so the theorem above determines the result. *)
Theorem C89_total pressures p : exists n, rises_through pressures p n /\ forall m, rises_through pressures p m -> m = n.
Proof.
  assert (D : forall k, stopped pressures p k \/ ~ stopped pressures p k).
  { intro k. unfold stopped. cbv zeta. destruct (Qlt_le_dec (nth k pressures 0) (pt_p p)); [|right; lra]. destruct (Qlt_le_dec (pt_parcel p (nth k pressures 0)) (pt_env p k)); [left|right]; lra. }
  assert (X : forall m, (m <= length pressures)%nat -> (forall k, (k < m)%nat -> ~ stopped pressures p k) \/ exists n, (n < m)%nat /\ stopped pressures p n /\ forall k, (k < n)%nat -> ~ stopped pressures p k).
  { induction m as [|m IH]; intro L; [left; intros; lia|]. destruct IH as [A|(n & N1 & N2 & N3)]; [lia| |right; exists n; split; [lia|]; split; [exact N2|exact N3]]. destruct (D m) as [Y|Y]; [right; exists m; split; [lia|]; split; [exact Y|exact A]|left]. intros k K. destruct (Nat.eq_dec k m) as [->|]; [exact Y|apply A; lia]. }
  assert (U : forall n m, rises_through pressures p n -> rises_through pressures p m -> ~ (n < m)%nat) by (intros n m (L & B & E) (L' & B' & E') LT; apply (B' n LT), E; lia).
  destruct (X (length pressures) (le_n _)) as [A|(n & N1 & N2 & N3)].
  - exists (length pressures). assert (R : rises_through pressures p (length pressures)) by (split; [lia|]; split; [exact A|lia]). split; [exact R|]. intros m M. pose proof (U _ _ R M). pose proof (U _ _ M R). lia.
  - exists n. assert (R : rises_through pressures p n) by (split; [lia|]; split; [exact N3|intros _; exact N2]). split; [exact R|]. intros m M. pose proof (U _ _ R M). pose proof (U _ _ M R). lia.
Qed.
(** Each point is treated on its own, although the loop ends for all points together. *)
Theorem C89_independent pressures ps : length (cloud_top pressures ps) = length ps /\ cloud_top pressures ps = concat (map (fun p => cloud_top pressures [p]) ps).
Proof.
  split; [rewrite cloud_top_alone; apply map_length|]. rewrite cloud_top_alone. induction ps as [|p ps IH]; [reflexivity|]. cbn [map concat]. rewrite cloud_top_alone. cbn [map app]. rewrite <- IH. reflexivity.
Qed.
(** Cloud is at least 4 K deep, and there is none without a base. *)
Theorem C89_depth pressures ps i p v : nth_error ps i = Some p -> nth i (cloud_top pressures ps) None = Some v -> pt_masked p = false /\ v <= pt_t p - 4.
Proof.
  intros I0 E. destruct (C89_total pressures p) as (n & R & _). rewrite (C89_top pressures ps i p n I0 R) in E. destruct (pt_masked p); [discriminate|]. cbn [orb] in E. destruct (Qltb_spec (pt_t p - last_temperature pressures p n) 4) as [Q|Q]; [discriminate|]. injection E as <-. split; [reflexivity|lra].
Qed.
(** Only what is at and below the level that stops the parcel matters. *)
Theorem C89_above pressures rest rest' p n : rises_through pressures p n -> (n < length pressures)%nat -> cloud_top (pressures ++ rest) [p] = cloud_top (pressures ++ rest') [p].
Proof.
  intros (L & B & E) N. assert (K : forall r, rises_through (pressures ++ r) p n).
  { intro r. split; [rewrite app_length; lia|]. split.
    - intros k K. specialize (B k K). unfold stopped in *. rewrite app_nth1 by lia. exact B.
    - intros _. specialize (E N). unfold stopped in *. rewrite app_nth1 by lia. exact E. }
  assert (T : forall r, last_temperature (pressures ++ r) p n = last_temperature pressures p n) by (intro r; unfold last_temperature; destruct n; [reflexivity|]; rewrite app_nth1 by lia; reflexivity).
  assert (X : forall r, cloud_top (pressures ++ r) [p] = [if (pt_masked p || (pt_t p - last_temperature pressures p n <? 4))%bool then None else Some (last_temperature pressures p n)]).
  { intro r. pose proof (C89_top (pressures ++ r) [p] 0 p n eq_refl (K r)) as Y. destruct (C89_independent (pressures ++ r) [p]) as [Z0 _]. destruct (cloud_top (pressures ++ r) [p]) as [|a [|b l]]; try discriminate. cbn [nth] in Y. rewrite Y, T. reflexivity. }
  rewrite !X. reflexivity.
Qed.
(** A parcel that is stopped at the first level above the base makes no cloud, if at the levels below it is not colder than at the base. *)
Theorem C89_no_cloud pressures p n : rises_through pressures p n -> (forall k, (k < n)%nat -> pt_p p <= nth k pressures 0) -> (forall q, pt_p p <= q -> pt_t p <= pt_parcel p q) -> cloud_top pressures [p] = [None].
Proof.
  intros R B W. pose proof (C89_top pressures [p] 0 p n eq_refl R) as Y. destruct (C89_independent pressures [p]) as [Z0 _]. destruct (cloud_top pressures [p]) as [|a [|b l]]; try discriminate. cbn [nth] in Y. rewrite Y.
  assert (T : pt_t p <= last_temperature pressures p n). { unfold last_temperature. destruct n as [|n]; [lra|]. apply W, B. lia. }
  destruct (Qltb_spec (pt_t p - last_temperature pressures p n) 4); [rewrite orb_true_r; reflexivity|lra].
Qed.
(** Refuted: that the order of the levels does not matter. Seen from above the parcel is stopped at once. *)
Theorem C89_order_refuted : exists pressures p p', (forall k, (k < 3)%nat -> pt_env p' k = pt_env p (2 - k)%nat) /\ pt_t p' = pt_t p /\ pt_p p' = pt_p p /\ pt_masked p' = pt_masked p /\ pt_parcel p' = pt_parcel p /\ length pressures = 3%nat /\
  cloud_top pressures [p] <> cloud_top (rev pressures) [p'].
Proof.
  exists [90000; 80000; 70000], {| pt_t := 290; pt_p := 95000; pt_masked := false; pt_parcel := fun q => q / 1000 + 195; pt_env := fun k => nth k [280; 270; 268] 0 |}, {| pt_t := 290; pt_p := 95000; pt_masked := false; pt_parcel := fun q => q / 1000 + 195; pt_env := fun k => nth k [268; 270; 280] 0 |}.
  split; [intros [|[|[|k]]] K; try reflexivity; lia|]. repeat (split; [reflexivity|]). vm_compute. discriminate.
Qed.

(** * Case *)
Example C89_case : let p env := {| pt_t := 290; pt_p := 95000; pt_masked := false; pt_parcel := fun q => q / 1000 + 195; pt_env := fun k => nth k env 0 |} in
  map (option_map Qred) (cloud_top [100000; 90000; 80000; 70000] [p [296; 280; 274; 268]; p [296; 286; 200; 200]; p [290; 280; 270; 260]]) = [Some 275; None; Some 265] /\ rises_through [100000; 90000; 80000; 70000] (p [296; 280; 274; 268]) 3.
Proof.
  cbv zeta. split; [vm_compute; reflexivity|]. split; [cbn; lia|]. split.
  - intros k K [A B]. destruct k as [|[|[|k]]]; [..|lia]; vm_compute in A, B; discriminate.
  - intros _. split; vm_compute; reflexivity.
Qed.

Print Assumptions C89_top.
Print Assumptions C89_total.
Print Assumptions C89_independent.
Print Assumptions C89_depth.
Print Assumptions C89_above.
Print Assumptions C89_no_cloud.
Print Assumptions C89_order_refuted.
