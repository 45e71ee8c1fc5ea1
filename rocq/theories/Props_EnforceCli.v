(** C127: the enforce_consistent_forecasts command: which of the two cubes is the reference, which arguments are accepted, and the values. *)
From Coq Require Import Permutation.
From Verif Require Import Base Model_Reference Spec_Reference Proofs_Reference Props_Reference Model_EnforceCli.
Local Open Scope Q_scope.

(** The lowest and highest value allowed where the reference is [r]. *)
Inductive allowed : list Q -> list Q -> list string -> Q -> option Q -> option Q -> Prop :=
| at_least a m r : allowed [a] [m] [">="%string] r (Some (m * r + a)) None
| at_most a m r : allowed [a] [m] ["<="%string] r None (Some (m * r + a))
| low_high a1 a2 m1 m2 r : allowed [a1; a2] [m1; m2] [">="; "<="]%string r (Some (m1 * r + a1)) (Some (m2 * r + a2))
| high_low a1 a2 m1 m2 r : allowed [a1; a2] [m1; m2] ["<="; ">="]%string r (Some (m2 * r + a2)) (Some (m1 * r + a1)).
(** The forecast [f] and the reference [r] among the two cubes. *)
Definition chosen (cubes : list ccube) (ref_name : option string) (f r : ccube) : Prop :=
  exists n, ref_name = Some n /\ In n (c_names r) /\ ~ In n (c_names f) /\ (cubes = [f; r] \/ cubes = [r; f]).

Lemma matches_iff n c : matches (Some n) c = true <-> In n (c_names c).
Proof. cbn. rewrite existsb_exists. split; [intros (x & X & E); apply String.eqb_eq in E; now subst|intro I'; exists n; split; [exact I'|apply String.eqb_refl]]. Qed.
Lemma not_matches n c : matches (Some n) c = false <-> ~ In n (c_names c).
Proof. rewrite <- matches_iff. destruct (matches (Some n) c); split; congruence. Qed.
Definition arg_of {A} (l : list A) : arg A := match l with [x] => One x | _ => Many l end.
Lemma arguments_iff adds muls cmps w e : arguments adds muls cmps w = Ok e <-> length adds = length muls /\ length muls = length cmps /\ (length cmps < 3)%nat /\ e = {| e_add := arg_of adds; e_mul := arg_of muls; e_cmp := arg_of cmps; e_warn := w |}.
Proof.
  unfold arguments. destruct (Nat.eqb_spec (length adds) (length muls)) as [E1|E1]; [|split; [discriminate|tauto]]. destruct (Nat.eqb_spec (length muls) (length cmps)) as [E2|E2]; [|split; [discriminate|tauto]]. destruct (Nat.ltb_spec (length cmps) 3) as [L|L]; [|split; [discriminate|lia]]. cbn [andb].
  destruct adds as [|a [|a2 [|a3 adds]]], muls as [|m [|m2 [|m3 muls]]], cmps as [|c [|c2 [|c3 cmps]]]; cbn in E1, E2, L; try lia; cbn; (split; [intro H; injection H as <-; auto|intros (_ & _ & _ & ->); reflexivity]).
Qed.
Lemma chosen_inv cubes n adds muls cmps w out : enforce_consistent_forecasts cubes n adds muls cmps w = Ok out ->
  exists e f r, arguments adds muls cmps w = Ok e /\ chosen cubes n f r /\ enforce e (String.eqb (c_units f) (c_units r)) (c_probability f) (c_values f) (c_values r) = Ok out.
Proof.
  unfold enforce_consistent_forecasts. destruct (arguments adds muls cmps w) as [e|]; cbn [bind]; [|discriminate]. destruct cubes as [|a [|b [|? ?]]]; try discriminate. destruct n as [n|]; [|discriminate].
  destruct (matches (Some n) a) eqn:Ma, (matches (Some n) b) eqn:Mb; try discriminate; intro H.
  - exists e, b, a. split; [reflexivity|]. split; [|exact H]. exists n. split; [reflexivity|]. split; [now apply matches_iff|]. split; [now apply not_matches|now right].
  - exists e, a, b. split; [reflexivity|]. split; [|exact H]. exists n. split; [reflexivity|]. split; [now apply matches_iff|]. split; [now apply not_matches|now left].
Qed.
Lemma chosen_run cubes n f r e adds muls cmps w : chosen cubes n f r -> arguments adds muls cmps w = Ok e -> enforce_consistent_forecasts cubes n adds muls cmps w = enforce e (String.eqb (c_units f) (c_units r)) (c_probability f) (c_values f) (c_values r).
Proof.
  intros (m & -> & I' & N & C) A. unfold enforce_consistent_forecasts. rewrite A. cbn [bind]. apply matches_iff in I'. apply not_matches in N. destruct C as [-> | ->]; now rewrite I', N.
Qed.
Lemma limits_allowed adds muls cmps w x lo hi : length adds = length muls -> length muls = length cmps -> (length cmps < 3)%nat ->
  (limits {| e_add := arg_of adds; e_mul := arg_of muls; e_cmp := arg_of cmps; e_warn := w |} x = Some (lo, hi) <-> allowed adds muls cmps x lo hi).
Proof.
  intros E1 E2 L. split.
  - destruct adds as [|a [|a2 [|a3 adds]]], muls as [|m [|m2 [|m3 muls]]], cmps as [|c [|c2 [|c3 cmps]]]; cbn [length] in E1, E2, L; try lia; unfold limits; cbn [arg_of e_add e_mul e_cmp]; try discriminate.
    + intro H. assert (C : c = ">="%string \/ c = "<="%string \/ (c <> ">="%string /\ c <> "<="%string)) by (destruct (string_dec c ">="); [auto|destruct (string_dec c "<="); auto]). destruct C as [->|[->|(N1 & N2)]]; [injection H as <- <-; apply at_least|injection H as <- <-; apply at_most|].
      exfalso. revert H N1 N2. repeat (let b := fresh in match goal with |- context [match ?s with EmptyString => _ | String _ _ => _ end] => destruct s as [|b s] end; try discriminate; try (destruct b as [[] [] [] [] [] [] [] []]; try discriminate)); intros; congruence.
    + intro H. destruct (list_eq_dec string_dec [c; c2] [">="; "<="]%string) as [E|N1]; [injection E as -> ->; injection H as <- <-; apply low_high|]. destruct (list_eq_dec string_dec [c; c2] ["<="; ">="]%string) as [E|N2]; [injection E as -> ->; injection H as <- <-; apply high_low|].
      exfalso. revert H N1 N2. repeat (let b := fresh in match goal with |- context [match ?s with EmptyString => _ | String _ _ => _ end] => destruct s as [|b s] end; try discriminate; try (destruct b as [[] [] [] [] [] [] [] []]; try discriminate)); intros; congruence.
  - intro A. destruct A; reflexivity.
Qed.

(** The values: the reference is the cube that bears the name, the other is changed as little as the bounds allow. *)
Theorem C127_values cubes n adds muls cmps w new warned f r : enforce_consistent_forecasts cubes n adds muls cmps w = Ok (new, warned) -> chosen cubes n f r ->
  length new = length (c_values f) /\ forall p, (p < length (c_values f))%nat -> exists lo hi, allowed adds muls cmps (nth p (c_values r) 0) lo hi /\
    within lo hi (nth p new 0) /\ (within lo hi (nth p (c_values f) 0) -> nth p new 0 == nth p (c_values f) 0) /\
    (forall y, within lo hi y -> Qabs (nth p new 0 - nth p (c_values f) 0) <= Qabs (y - nth p (c_values f) 0)).
Proof.
  intros H C. destruct (chosen_inv _ _ _ _ _ _ _ H) as (e & _ & _ & A & _ & _). rewrite (chosen_run _ _ _ _ _ _ _ _ _ C A) in H. apply arguments_iff in A as (E1 & E2 & L & ->). destruct (C44_consistent _ _ _ _ _ _ _ H) as (Ln & _ & V). split; [exact Ln|].
  intros p P. destruct (V p P) as (lo & hi & Li & W). exists lo, hi. split; [now apply (limits_allowed adds muls cmps w)|exact W].
Qed.
Theorem C127_warning cubes n adds muls cmps w new warned f r : enforce_consistent_forecasts cubes n adds muls cmps w = Ok (new, warned) -> chosen cubes n f r ->
  (warned = true <-> exists d p, w = Some d /\ (p < length (c_values f))%nat /\ d < Qabs (nth p new 0 - nth p (c_values f) 0)).
Proof.
  intros H C. destruct (chosen_inv _ _ _ _ _ _ _ H) as (e & _ & _ & A & _ & _). rewrite (chosen_run _ _ _ _ _ _ _ _ _ C A) in H. apply arguments_iff in A as (E1 & E2 & L & ->). exact (C44_warning _ _ _ _ _ _ _ H).
Qed.
(** What is accepted. *)
Theorem C127_accepted cubes n adds muls cmps w : (exists o, enforce_consistent_forecasts cubes n adds muls cmps w = Ok o) <->
  exists f r, chosen cubes n f r /\ c_units f = c_units r /\ length (c_values r) = length (c_values f) /\ c_values f <> [] /\
    (c_probability f = true -> exists a m, adds = [a] /\ muls = [m] /\ a == 0 /\ m == 1) /\
    (exists lo hi, allowed adds muls cmps 0 lo hi) /\ (forall x lo hi, In x (c_values r) -> allowed adds muls cmps x (Some lo) (Some hi) -> lo <= hi).
Proof.
  assert (One_iff : forall (l : list Q) x, arg_of l = One x -> l = [x]) by (clear; intros [|y [|z l]] x H; cbn in H; try discriminate; now injection H as ->). split.
  - intros (o & H). destruct (chosen_inv _ _ _ _ _ _ _ H) as (e & f & r & A & C & E). exists f, r. split; [exact C|]. apply arguments_iff in A as (E1 & E2 & L & ->).
    assert (X : exists o, enforce {| e_add := arg_of adds; e_mul := arg_of muls; e_cmp := arg_of cmps; e_warn := w |} (String.eqb (c_units f) (c_units r)) (c_probability f) (c_values f) (c_values r) = Ok o) by eauto. apply C44_accepted in X as (U & P & Li & O & Ll & N). cbn [e_add e_mul] in P.
    split; [now apply String.eqb_eq|]. split; [exact Ll|]. split; [exact N|]. split.
    + intro Pr. destruct (P Pr) as ((a & Ea & Za) & m & Em & Zm). exists a, m. split; [now apply One_iff|]. split; [now apply One_iff|]. now split.
    + split.
      * destruct (limits _ 0) as [[lo hi]|] eqn:Q1 in Li; [|congruence]. exists lo, hi. now apply (limits_allowed adds muls cmps w).
      * intros x lo hi Ix Al. apply (O x lo hi Ix). now apply (limits_allowed adds muls cmps w).
  - intros (f & r & C & U & Ll & N & P & (lo & hi & Al) & O). assert (Ls : length adds = length muls /\ length muls = length cmps /\ (length cmps < 3)%nat) by (destruct Al; cbn; lia). destruct Ls as (E1 & E2 & L).
    assert (A : arguments adds muls cmps w = Ok {| e_add := arg_of adds; e_mul := arg_of muls; e_cmp := arg_of cmps; e_warn := w |}) by (apply arguments_iff; auto). rewrite (chosen_run _ _ _ _ _ _ _ _ _ C A). apply C44_accepted. split; [now apply String.eqb_eq|]. split.
    + intro Pr. destruct (P Pr) as (a & m & -> & -> & Za & Zm). split; [now exists a|now exists m].
    + split; [apply (limits_allowed adds muls cmps w) in Al; [congruence|assumption..]|]. split; [|now split]. intros x l h Ix Li. apply (O x l h Ix). now apply (limits_allowed adds muls cmps w) in Li.
Qed.
(** The order of the cubes does not matter. *)
Theorem C127_order a b n adds muls cmps w : enforce_consistent_forecasts [a; b] n adds muls cmps w = enforce_consistent_forecasts [b; a] n adds muls cmps w.
Proof. unfold enforce_consistent_forecasts. destruct (arguments adds muls cmps w); cbn [bind]; [|reflexivity]. destruct (matches n a), (matches n b); reflexivity. Qed.
(** Without the name of the reference, or with a name that both or neither have, nothing is done. *)
Theorem C127_ambiguous a b n adds muls cmps w : (length adds = length muls /\ length muls = length cmps /\ length cmps < 3)%nat -> (n = None \/ exists m, n = Some m /\ (In m (c_names a) <-> In m (c_names b))) ->
  enforce_consistent_forecasts [a; b] n adds muls cmps w = Err ConstraintMismatchError.
Proof.
  intros (E1 & E2 & L) H. unfold enforce_consistent_forecasts. rewrite (proj2 (arguments_iff adds muls cmps w _)) by (repeat split; try assumption; reflexivity). cbn [bind]. destruct H as [->|(m & -> & E)]; [reflexivity|].
  destruct (matches (Some m) a) eqn:Ma, (matches (Some m) b) eqn:Mb; try reflexivity; exfalso.
  - apply matches_iff in Ma. apply not_matches in Mb. tauto.
  - apply matches_iff in Mb. apply not_matches in Ma. tauto.
Qed.
(** Arguments of different lengths, or of three and more values, are refused whatever the cubes, and so are other numbers of cubes ... *)
Theorem C127_refused cubes n adds muls cmps w : ~ (length adds = length muls /\ length muls = length cmps /\ length cmps < 3)%nat \/ length cubes <> 2%nat -> enforce_consistent_forecasts cubes n adds muls cmps w = Err ValueError.
Proof.
  intro H. unfold enforce_consistent_forecasts. destruct (arguments adds muls cmps w) as [e|e] eqn:A; cbn [bind].
  - apply arguments_iff in A as (E1 & E2 & L & _). destruct H as [H|H]; [tauto|]. destruct cubes as [|a [|b [|? ?]]]; try reflexivity. cbn in H. lia.
  - unfold arguments in A. destruct (_ && _)%bool; [|congruence]. destruct adds as [|? [|? ?]], muls as [|? [|? ?]], cmps as [|? [|? ?]]; discriminate.
Qed.
(** ... but empty lists pass the check of the lengths and fail on their first element. *)
Theorem C127_empty_lists_refuted : ~ (forall cubes n adds muls cmps w, ~ (length adds = 1 \/ length adds = 2)%nat -> enforce_consistent_forecasts cubes n adds muls cmps w = Err ValueError).
Proof.
  intro H. specialize (H [{| c_names := ["f"%string]; c_values := [0]; c_probability := false; c_units := "K" |}; {| c_names := ["r"%string]; c_values := [0]; c_probability := false; c_units := "K" |}] (Some "r"%string) [] [] [] None).
  assert (N : ~ (@length Q [] = 1 \/ @length Q [] = 2)%nat) by (cbn; lia). specialize (H N). vm_compute in H. discriminate.
Qed.
(** With the arguments left out the result is the larger of forecast and reference. *)
Theorem C127_defaults cubes n w new warned f r : enforce_consistent_forecasts cubes n [0] [1] [">="%string] w = Ok (new, warned) -> chosen cubes n f r -> forall p, (p < length (c_values f))%nat -> nth p new 0 == Qmax (nth p (c_values f) 0) (nth p (c_values r) 0).
Proof.
  intros H C p P. destruct (C127_values _ _ _ _ _ _ _ _ _ _ H C) as (_ & V). destruct (V p P) as (lo & hi & Al & (W1 & _) & K & M). inversion Al; subst. specialize (W1 _ eq_refl). set (x := nth p (c_values f) 0) in *. set (y := nth p (c_values r) 0) in *. set (z := nth p new 0) in *. clearbody x y z. clear -W1 K M.
  destruct (Qlt_le_dec x y) as [L|L].
  - rewrite Q.max_r by lra. assert (G : Qabs (z - x) <= Qabs (y - x)). { apply M. split; intros ? [= <-]. lra. } rewrite !Qabs_pos in G by lra. lra.
  - rewrite Q.max_l by lra. apply K. split; intros ? [= <-]. lra.
Qed.
Definition case_forecast := {| c_names := ["wind_gust"%string]; c_values := [5; 10; 20]; c_probability := false; c_units := "m s-1" |}.
Definition case_reference := {| c_names := ["wind_speed"; "ff"]%string; c_values := [8; 10; 11]; c_probability := false; c_units := "m s-1" |}.
Example C127_case : match enforce_consistent_forecasts [case_reference; case_forecast] (Some "ff"%string) [0; 4] [1; 1] [">="; "<="]%string (Some 4) with Ok (l, true) => forallb (fun p => (fst p =? snd p)%Q) (combine l [8; 10; 15]) && (length l =? 3)%nat | _ => false end = true.
Proof. vm_compute. reflexivity. Qed.
Example C127_case_chosen : chosen [case_reference; case_forecast] (Some "ff"%string) case_forecast case_reference.
Proof. exists "ff"%string. split; [reflexivity|]. split; [cbn; auto|]. split; [cbn; intros [E|[]]; discriminate|now right]. Qed.

Print Assumptions C127_values.
Print Assumptions C127_warning.
Print Assumptions C127_accepted.
Print Assumptions C127_order.
Print Assumptions C127_ambiguous.
Print Assumptions C127_refused.
Print Assumptions C127_empty_lists_refuted.
Print Assumptions C127_defaults.
