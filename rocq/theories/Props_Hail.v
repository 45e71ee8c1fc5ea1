(** C86: the size of hail stones from the tables. *)
From Coq Require Import ZArith QArith Qround List Bool Lia Lqa.
From Verif Require Import Base Model_Percentiles Proofs_ProbPerc Model_Hail.
Import ListNotations.
Local Open Scope Z_scope.

(** * Specification *)
(** Row for a difference of 0, 0.5, 1, ... 12.5; column for a difference of 5, 10, ... 50 (written out as in the paper's table). *)
Definition table_entry (row column : nat) : Z := nth column (nth row nomogram []) 0.
(** [r] is the whole number nearest to [x]. *)
Definition nearest (x : Q) (r : Z) : Prop := (inject_Z r - (1 # 2) < x /\ x < inject_Z r + (1 # 2))%Q.

Lemma nearest_round : forall x r, nearest x r -> round_half_even x = r.
Proof.
  intros x r [A B]. pose proof (rhe_near x) as N. apply Qabs.Qabs_Qle_condition in N. destruct N as [N1 N2]. set (k := round_half_even x) in *.
  assert (L1 : (inject_Z k < inject_Z (r + 1))%Q) by (rewrite inject_Z_plus; change (inject_Z 1) with 1%Q; lra).
  assert (L2 : (inject_Z (r - 1) < inject_Z k)%Q) by (unfold Z.sub; rewrite inject_Z_plus; change (inject_Z (- (1))) with (- (1))%Q; lra).
  rewrite <- Zlt_Qlt in L1, L2. lia.
Qed.

(** * The tables *)
Definition below (n : nat) (P : nat -> bool) : bool := forallb P (seq 0 n).
Lemma below_spec : forall n P, below n P = true -> forall i, (i < n)%nat -> P i = true.
Proof. intros n P H i L. unfold below in H. rewrite forallb_forall in H. apply H, in_seq. lia. Qed.
Definition upd (b : nat) (hail : Z) : Z := cell updated_values (Z.of_nat b - 1) (Z.of_nat (bisect_right (map inject_Z hail_groups) (inject_Z hail))).
Lemma upd_eq : forall hail w, updated_hail_size hail w = upd (bisect_right wbzh_keys w) hail.
Proof. reflexivity. Qed.
Lemma keys_bound : forall w, (bisect_right wbzh_keys w < 7)%nat.
Proof. intro w. unfold bisect_right, wbzh_keys. cbn [filter]. repeat destruct (Qle_bool _ _); cbn; lia. Qed.
Lemma cell_table : forall i j, (i < 26)%nat -> (j < 10)%nat -> cell nomogram (Z.of_nat i) (Z.of_nat j) = table_entry i j.
Proof.
  intros i j I J. unfold cell, index. replace (Z.of_nat i <? 0) with false by (symmetry; apply Z.ltb_ge; lia). replace (Z.of_nat j <? 0) with false by (symmetry; apply Z.ltb_ge; lia). rewrite !Nat2Z.id. reflexivity.
Qed.
Lemma table_mono : forall i j i' j', (i' < 26)%nat -> (j' < 10)%nat -> (i <= i')%nat -> (j <= j')%nat -> table_entry i j <= table_entry i' j'.
Proof.
  assert (H : below 26 (fun i' => below 10 (fun j' => below (S i') (fun i => below (S j') (fun j => table_entry i j <=? table_entry i' j')))) = true) by (vm_compute; reflexivity).
  intros i j i' j' I J L M. pose proof (below_spec _ _ H i' I) as H1. pose proof (below_spec _ _ H1 j' J) as H2. pose proof (below_spec _ _ H2 i ltac:(lia)) as H3. pose proof (below_spec _ _ H3 j ltac:(lia)) as H4. apply Z.leb_le, H4.
Qed.
Lemma table_bound : forall i j, (i < 26)%nat -> (j < 10)%nat -> 0 <= table_entry i j <= 120.
Proof. intros i j I J. split; [change 0 with (table_entry 0 0)|change 120 with (table_entry 25 9)]; apply table_mono; lia. Qed.
Lemma upd_mono : forall b x y, (b < 7)%nat -> 0 <= x -> x <= y -> y <= 120 -> upd b x <= upd b y.
Proof.
  assert (H : below 7 (fun b => below 121 (fun y => below (S y) (fun x => upd b (Z.of_nat x) <=? upd b (Z.of_nat y)))) = true) by (vm_compute; reflexivity).
  intros b x y B X L Y. pose proof (below_spec _ _ H b B) as H1. pose proof (below_spec _ _ H1 (Z.to_nat y) ltac:(lia)) as H2. pose proof (below_spec _ _ H2 (Z.to_nat x) ltac:(lia)) as H3. cbv beta in H3. rewrite !Z2Nat.id in H3 by lia. apply Z.leb_le, H3.
Qed.
Lemma upd_bound : forall b x, (b < 7)%nat -> 0 <= x <= 120 -> 0 <= upd b x <= x.
Proof.
  assert (H : below 7 (fun b => below 121 (fun x => (0 <=? upd b (Z.of_nat x)) && (upd b (Z.of_nat x) <=? Z.of_nat x))) = true) by (vm_compute; reflexivity).
  intros b x B X. pose proof (below_spec _ _ H b B) as H1. pose proof (below_spec _ _ H1 (Z.to_nat x) ltac:(lia)) as H2. cbv beta in H2. rewrite !Z2Nat.id in H2 by lia. apply andb_true_iff in H2. rewrite !Z.leb_le in H2. exact H2.
Qed.
Lemma upd_height : forall b b' x, (1 <= b)%nat -> (b <= b')%nat -> (b' < 7)%nat -> 0 <= x <= 120 -> upd b' x <= upd b x.
Proof.
  assert (H : below 7 (fun b' => below (S b') (fun b => (b =? 0)%nat || below 121 (fun x => upd b' (Z.of_nat x) <=? upd b (Z.of_nat x)))) = true) by (vm_compute; reflexivity).
  intros b b' x B L B' X. pose proof (below_spec _ _ H b' B') as H1. pose proof (below_spec _ _ H1 b ltac:(lia)) as H2. cbv beta in H2. destruct (Nat.eqb_spec b 0); [lia|]. cbn [orb] in H2. pose proof (below_spec _ _ H2 (Z.to_nat x) ltac:(lia)) as H3. cbv beta in H3. rewrite !Z2Nat.id in H3 by lia. apply Z.leb_le, H3.
Qed.

(** The size before the height of freezing is considered: an entry of the table or 0. *)
Lemma size_cases : forall v h w, exists x, 0 <= x <= 120 /\ get_hail_size v h w = (if Qle_bool 3300 w then upd (bisect_right wbzh_keys w) x else x) /\
  ((exists v' h', v = Some v' /\ h = Some h' /\ 0 <= round_half_even (v' * 2) /\ 1 <= round_half_even (h' / 5) /\
      x = table_entry (Z.to_nat (Z.min (round_half_even (v' * 2)) 25)) (Z.to_nat (Z.min (round_half_even (h' / 5) - 1) 9)))
   \/ (x = 0 /\ forall v' h', v = Some v' -> h = Some h' -> round_half_even (v' * 2) < 0 \/ round_half_even (h' / 5) < 1)).
Proof.
  intros v h w. destruct v as [v|]; [|exists 0; split; [lia|]; split; [reflexivity|right; split; [reflexivity|discriminate]]].
  destruct h as [h|]; [|exists 0; split; [lia|]; split; [reflexivity|right; split; [reflexivity|discriminate]]].
  unfold get_hail_size. change (Z.of_nat (length nomogram) - 1) with 25. change (Z.of_nat (length (nth 0 nomogram [])) - 1) with 9. cbv zeta.
  destruct (Z.leb_spec 0 (round_half_even (v * 2))) as [A|A]; [destruct (Z.leb_spec 0 (round_half_even (h / 5) - 1)) as [B|B]|]; cbn [andb].
  - assert (E : cell nomogram (Z.min (round_half_even (v * 2)) 25) (Z.min (round_half_even (h / 5) - 1) 9) = table_entry (Z.to_nat (Z.min (round_half_even (v * 2)) 25)) (Z.to_nat (Z.min (round_half_even (h / 5) - 1) 9))).
    { rewrite <- cell_table by lia. rewrite !Z2Nat.id by lia. reflexivity. }
    eexists. split; [|split; [rewrite E; reflexivity|left; exists v, h; repeat (split; [reflexivity || lia|]); reflexivity]]. apply table_bound; lia.
  - exists 0. split; [lia|]. split; [reflexivity|]. right. split; [reflexivity|]. intros v' h' _ E. injection E as <-. lia.
  - exists 0. split; [lia|]. split; [reflexivity|]. right. split; [reflexivity|]. intros v' h' E _. injection E as <-. lia.
Qed.
Lemma get_bound : forall v h w, 0 <= get_hail_size v h w <= 120.
Proof. intros v h w. destruct (size_cases v h w) as (x & X & -> & _). destruct (Qle_bool 3300 w); [|exact X]. pose proof (upd_bound (bisect_right wbzh_keys w) x (keys_bound w) X). lia. Qed.

(** * C86 *)
(** Between 0 and 120 mm whatever the input. *)
Theorem C86_range : forall sat dry t268 ccl w, (0 <= hail_size sat dry t268 ccl w <= 12 # 100)%Q.
Proof.
  intros sat dry t268 ccl w. unfold hail_size. cbv zeta. match goal with |- context [get_hail_size ?a ?b w] => pose proof (get_bound a b w) as [A B] end. rewrite Zle_Qle in A, B. change (inject_Z 0) with 0%Q in A. change (inject_Z 120) with 120%Q in B.
  split; [apply Qle_shift_div_l|apply Qle_shift_div_r]; lra.
Qed.
(** No hail where an input is missing, or where the condensation level is colder than 268.15 K. *)
Theorem C86_masked : forall sat dry t268 ccl w, sat = None \/ dry = None \/ t268 = None \/ (ccl < 26815 # 100)%Q -> (hail_size sat dry t268 ccl w == 0)%Q.
Proof.
  assert (Z1 : forall h w, get_hail_size None h w = 0). { intros h w. destruct (size_cases None h w) as (x & X & -> & [(v' & h' & Q & _)|(-> & _)]); [discriminate|]. destruct (Qle_bool 3300 w); [|reflexivity]. pose proof (upd_bound (bisect_right wbzh_keys w) 0 (keys_bound w) ltac:(lia)). lia. }
  assert (Z2 : forall v w, get_hail_size v None w = 0). { intros v w. destruct (size_cases v None w) as (x & X & -> & [(v' & h' & _ & Q & _)|(-> & _)]); [discriminate|]. destruct (Qle_bool 3300 w); [|reflexivity]. pose proof (upd_bound (bisect_right wbzh_keys w) 0 (keys_bound w) ltac:(lia)). lia. }
  intros sat dry t268 ccl w H. unfold hail_size. cbv zeta. destruct (Qltb_spec ccl (26815 # 100)) as [L|L]; [rewrite Z1; reflexivity|].
  destruct H as [->|[->|[->|H]]]; [rewrite Z1; reflexivity| |destruct sat; rewrite Z1; reflexivity|lra]. rewrite Z2. reflexivity.
Qed.
(** The entry of the table: the row nearest to the difference of the ascent in half degrees, the column nearest to that
    of the descent in steps of five degrees, the last of each beyond the table. *)
Theorem C86_entry : forall v h w r c, (w < 3300)%Q -> (r < 26)%nat -> (c < 10)%nat ->
  nearest (v * 2) (Z.of_nat r) \/ (r = 25%nat /\ 25 <= v * 2)%Q -> nearest (h / 5) (Z.of_nat c + 1) \/ (c = 9%nat /\ 10 <= h / 5)%Q ->
  get_hail_size (Some v) (Some h) w = table_entry r c.
Proof.
  intros v h w r c W R C HV HH. destruct (size_cases (Some v) (Some h) w) as (x & X & -> & D).
  replace (Qle_bool 3300 w) with false by (symmetry; destruct (Qle_bool 3300 w) eqn:E; [apply Qle_bool_iff in E; lra|reflexivity]).
  assert (RV : Z.min (round_half_even (v * 2)) 25 = Z.of_nat r). { destruct HV as [HV|[-> HV]]; [rewrite (nearest_round _ _ HV); lia|]. apply rhe_mono in HV. change (round_half_even 25) with 25 in HV. lia. }
  assert (RH : Z.min (round_half_even (h / 5) - 1) 9 = Z.of_nat c). { destruct HH as [HH|[-> HH]]; [rewrite (nearest_round _ _ HH); lia|]. apply rhe_mono in HH. change (round_half_even 10) with 10 in HH. lia. }
  destruct D as [(v' & h' & E1 & E2 & A & B & ->)|(-> & N)].
  - injection E1 as <-. injection E2 as <-. rewrite RV, RH, !Nat2Z.id. reflexivity.
  - exfalso. destruct (N v h eq_refl eq_refl); lia.
Qed.
(** No hail where the ascent is colder by more than 0.25 degrees or the descent warmer by 2.5 degrees or less. *)
Theorem C86_small : forall v h w, (v < -1 # 4)%Q \/ (h <= 5 # 2)%Q -> get_hail_size (Some v) (Some h) w = 0.
Proof.
  intros v h w H. destruct (size_cases (Some v) (Some h) w) as (x & X & -> & D).
  assert (Z0 : x = 0).
  { destruct D as [(v' & h' & E1 & E2 & A & B & _)|(-> & _)]; [|reflexivity]. exfalso. injection E1 as <-. injection E2 as <-. destruct H as [H|H].
    - pose proof (rhe_near (v * 2)) as N. apply Qabs.Qabs_Qle_condition in N. destruct N as [N1 N2]. assert (L : (inject_Z (round_half_even (v * 2)) < inject_Z 0)%Q) by (change (inject_Z 0) with 0%Q; lra). rewrite <- Zlt_Qlt in L. lia.
    - assert (L : (h / 5 <= 1 # 2)%Q) by (apply Qle_shift_div_r; lra). apply rhe_mono in L. change (round_half_even (1 # 2)) with 0 in L. lia. }
  subst x. destruct (Qle_bool 3300 w); [|reflexivity]. pose proof (upd_bound (bisect_right wbzh_keys w) 0 (keys_bound w) ltac:(lia)). lia.
Qed.
(** The documentation promises no hail where either difference is negative; just below zero there is some. *)
Theorem C86_negative_refuted : ~ (forall v h w, (v < 0 \/ h < 0)%Q -> get_hail_size (Some v) (Some h) w = 0).
Proof. intro H. specialize (H (-1 # 5) 30%Q 0%Q (or_introl eq_refl)). vm_compute in H. discriminate. Qed.
(** Larger differences never give smaller hail. *)
Theorem C86_monotone : forall v v' h h' w, (v <= v')%Q -> (h <= h')%Q -> get_hail_size (Some v) (Some h) w <= get_hail_size (Some v') (Some h') w.
Proof.
  intros v v' h h' w V H. destruct (size_cases (Some v) (Some h) w) as (x & X & -> & D). destruct (size_cases (Some v') (Some h') w) as (y & Y & -> & D').
  assert (L : x <= y).
  { destruct D as [(a & b & E1 & E2 & A & B & ->)|(-> & _)]; [|lia]. injection E1 as <-. injection E2 as <-.
    assert (V2 : round_half_even (v * 2) <= round_half_even (v' * 2)) by (apply rhe_mono; lra). assert (H2 : round_half_even (h / 5) <= round_half_even (h' / 5)) by (apply rhe_mono; unfold Qdiv; apply Qmult_le_compat_r; [exact H|discriminate]).
    destruct D' as [(a & b & E1 & E2 & A' & B' & ->)|(-> & N)]; [|exfalso; destruct (N v' h' eq_refl eq_refl); lia]. injection E1 as <-. injection E2 as <-. apply table_mono; lia. }
  destruct (Qle_bool 3300 w); [|exact L]. apply upd_mono; [apply keys_bound|lia|exact L|lia].
Qed.
(** The height of freezing only ever reduces the size; at 4400 m and above there is none; from 3350 m on a greater height never gives larger hail. *)
Theorem C86_reduced : forall v h w w0, (w0 < 3300)%Q -> get_hail_size v h w <= get_hail_size v h w0.
Proof.
  intros v h w w0 W. destruct (size_cases v h w) as (x & X & -> & D). destruct (size_cases v h w0) as (y & Y & -> & D').
  replace (Qle_bool 3300 w0) with false by (symmetry; destruct (Qle_bool 3300 w0) eqn:E; [apply Qle_bool_iff in E; lra|reflexivity]).
  assert (E : x = y). { destruct D as [(a & b & -> & -> & A & B & ->)|(-> & N)]; destruct D' as [(a' & b' & E1 & E2 & A' & B' & ->)|(-> & N')]; [injection E1 as <-; injection E2 as <-; reflexivity|exfalso; destruct (N' a b eq_refl eq_refl); lia|exfalso; subst; destruct (N a' b' eq_refl eq_refl); lia|reflexivity]. }
  subst y. destruct (Qle_bool 3300 w); [|lia]. pose proof (upd_bound (bisect_right wbzh_keys w) x (keys_bound w) X). lia.
Qed.
Lemma count_mono : forall l w w', (w <= w')%Q -> (bisect_right l w <= bisect_right l w')%nat.
Proof.
  intros l w w' H. unfold bisect_right. induction l as [|k l IH]; [cbn; lia|]. cbn [filter]. destruct (Qle_bool k w) eqn:A.
  - apply Qle_bool_iff in A. replace (Qle_bool k w') with true by (symmetry; apply Qle_bool_iff; lra). cbn [length]. lia.
  - destruct (Qle_bool k w'); cbn [length]; lia.
Qed.
Theorem C86_height : forall v h w w', (3350 <= w)%Q -> (w <= w')%Q -> get_hail_size v h w' <= get_hail_size v h w.
Proof.
  intros v h w w' W L. destruct (size_cases v h w) as (x & X & -> & D). destruct (size_cases v h w') as (y & Y & -> & D').
  assert (E : x = y). { destruct D as [(a & b & -> & -> & A & B & ->)|(-> & N)]; destruct D' as [(a' & b' & E1 & E2 & A' & B' & ->)|(-> & N')]; [injection E1 as <-; injection E2 as <-; reflexivity|exfalso; destruct (N' a b eq_refl eq_refl); lia|exfalso; subst; destruct (N a' b' eq_refl eq_refl); lia|reflexivity]. }
  subst y. replace (Qle_bool 3300 w) with true by (symmetry; apply Qle_bool_iff; lra). replace (Qle_bool 3300 w') with true by (symmetry; apply Qle_bool_iff; lra).
  apply upd_height; [|apply count_mono, L|apply keys_bound|exact X]. pose proof (count_mono wbzh_keys 3350 w W) as C. change (bisect_right wbzh_keys 3350) with 1%nat in C. exact C.
Qed.
Theorem C86_high : forall v h w, (4400 <= w)%Q -> get_hail_size v h w = 0.
Proof.
  intros v h w W. destruct (size_cases v h w) as (x & X & -> & _). replace (Qle_bool 3300 w) with true by (symmetry; apply Qle_bool_iff; lra).
  pose proof (count_mono wbzh_keys 4400 w W) as C. change (bisect_right wbzh_keys 4400) with 6%nat in C. pose proof (keys_bound w). replace (bisect_right wbzh_keys w) with 6%nat by lia.
  assert (Q : upd 6 x <= upd 6 120) by (apply upd_mono; lia). change (upd 6 120) with 0 in Q. pose proof (upd_bound 6 x ltac:(lia) X). lia.
Qed.
(** The reduction for each band of heights: [band] is the row of the second table whose key is the greatest not above
    the height, and the column is counted by the groups of sizes. *)
Lemma reduction : forall v h w w0 band g, (w0 < 3300)%Q -> (3350 <= w)%Q -> (band < 6)%nat -> (nth band wbzh_keys 0 <= w)%Q -> ((band < 5)%nat -> (w < nth (S band) wbzh_keys 0)%Q) ->
  (g <= 7)%nat -> ((0 < g)%nat -> nth (g - 1) hail_groups 0 <= get_hail_size v h w0) -> get_hail_size v h w0 < nth g hail_groups 0 ->
  get_hail_size v h w = nth g (nth band updated_values []) 0.
Proof.
  intros v h w w0 band g W0 W B K1 K2 G G1 G2. destruct (size_cases v h w) as (x & X & -> & D). destruct (size_cases v h w0) as (y & Y & E0 & D').
  replace (Qle_bool 3300 w0) with false in E0 by (symmetry; destruct (Qle_bool 3300 w0) eqn:E; [apply Qle_bool_iff in E; lra|reflexivity]). rewrite E0 in *. clear E0.
  assert (E : x = y). { destruct D as [(a & b & -> & -> & A & C & ->)|(-> & N)]; destruct D' as [(a' & b' & E1 & E2 & A' & B' & ->)|(-> & N')]; [injection E1 as <-; injection E2 as <-; reflexivity|exfalso; destruct (N' a b eq_refl eq_refl); lia|exfalso; subst; destruct (N a' b' eq_refl eq_refl); lia|reflexivity]. }
  subst y. replace (Qle_bool 3300 w) with true by (symmetry; apply Qle_bool_iff; lra).
  assert (Q : bisect_right wbzh_keys w = S band).
  { unfold bisect_right, wbzh_keys in *. cbn [filter]. destruct band as [|[|[|[|[|[|band]]]]]]; [| | | | | |lia]; cbn [nth] in K1, K2; try specialize (K2 ltac:(lia));
    repeat match goal with |- context [Qle_bool ?a w] => let E := fresh in destruct (Qle_bool a w) eqn:E; [apply Qle_bool_iff in E|let E2 := fresh in assert (E2 : ~ (a <= w)%Q) by (intro E2; apply Qle_bool_iff in E2; congruence); clear E] end; try reflexivity; exfalso; lra. }
  rewrite Q. unfold upd. replace (Z.of_nat (S band) - 1) with (Z.of_nat band) by lia.
  assert (H : below 6 (fun b => below 121 (fun x => below 8 (fun g => implb (((g =? 0)%nat || (nth (g - 1) hail_groups 0 <=? Z.of_nat x)) && (Z.of_nat x <? nth g hail_groups 0))
     (cell updated_values (Z.of_nat b) (Z.of_nat (bisect_right (map inject_Z hail_groups) (inject_Z (Z.of_nat x)))) =? nth g (nth b updated_values []) 0)))) = true) by (vm_compute; reflexivity).
  pose proof (below_spec _ _ H band B) as H1. pose proof (below_spec _ _ H1 (Z.to_nat x) ltac:(lia)) as H2. pose proof (below_spec _ _ H2 g ltac:(lia)) as H3. cbv beta in H3. rewrite Z2Nat.id in H3 by lia.
  assert (C : ((g =? 0)%nat || (nth (g - 1) hail_groups 0 <=? x)) && (x <? nth g hail_groups 0) = true).
  { apply andb_true_iff. split; [|apply Z.ltb_lt; exact G2]. destruct (Nat.eqb_spec g 0); [reflexivity|]. cbn [orb]. apply Z.leb_le, G1. lia. }
  rewrite C in H3. cbn [implb] in H3. apply Z.eqb_eq in H3. exact H3.
Qed.
Definition lowest (band : nat) : Q := match band with O => 3350 | 1%nat => 3550 | 2%nat => 3750 | 3%nat => 3950 | 4%nat => 4150 | _ => 4400 end%Q.
Definition least_size (g : nat) : Z := match g with O => 0 | 1%nat => 5 | 2%nat => 10 | 3%nat => 20 | 4%nat => 25 | 5%nat => 50 | 6%nat => 75 | 7%nat => 100 | _ => 125 end.
Definition reduced (band g : nat) : Z :=
  match Z.of_nat band, Z.of_nat g with
  | 0, 1 => 5 | 0, 2 => 10 | 0, 3 => 15 | 0, 4 => 25 | 0, 5 => 50 | 0, 6 => 65 | 0, 7 => 75
  | 1, 2 => 5 | 1, 3 => 10 | 1, 4 => 20 | 1, 5 => 20 | 1, 6 => 25 | 1, 7 => 30
  | 2, 3 => 5 | 2, 4 => 10 | 2, 5 => 15 | 2, 6 => 15 | 2, 7 => 15
  | 3, 4 => 5 | 3, 5 => 10 | 3, 6 => 10 | 3, 7 => 10
  | 4, 6 => 5 | 4, 7 => 5
  | _, _ => 0
  end.
Theorem C86_reduction : forall v h w w0 band g, (w0 < 3300)%Q -> (band < 6)%nat -> (lowest band <= w)%Q -> ((band < 5)%nat -> (w < lowest (S band))%Q) ->
  (g <= 7)%nat -> least_size g <= get_hail_size v h w0 < least_size (S g) -> get_hail_size v h w = reduced band g.
Proof.
  intros v h w w0 band g W0 B K1 K2 G [G1 G2].
  assert (V : reduced band g = nth g (nth band updated_values []) 0) by (do 6 (destruct band as [|band]; [do 8 (destruct g as [|g]; [reflexivity|]); lia|]); lia).
  rewrite V. apply (reduction v h w w0 band g W0); [|exact B| | |exact G| |].
  - do 6 (destruct band as [|band]; [cbn [lowest] in K1; lra|]); lia.
  - do 6 (destruct band as [|band]; [exact K1|]); lia.
  - intro L. specialize (K2 L). do 5 (destruct band as [|band]; [exact K2|]); lia.
  - intro P. do 8 (destruct g as [|g]; [exact G1 || lia|]); lia.
  - do 8 (destruct g as [|g]; [exact G2|]); lia.
Qed.
(** Below 3300 m the size of the first table is kept.  The documentation says so up to 3350 m, but from 3300 m to
    3350 m all hail is removed: no key of the second table is as low, and the index -1 selects its last row. *)
Theorem C86_low_unchanged : forall v h w w0, (w < 3300)%Q -> (w0 < 3300)%Q -> get_hail_size v h w = get_hail_size v h w0.
Proof. intros v h w w0 W W0. apply Z.le_antisymm; apply C86_reduced; assumption. Qed.
Theorem C86_gap : forall v h w, (3300 <= w)%Q -> (w < 3350)%Q -> get_hail_size v h w = 0.
Proof.
  intros v h w A B. destruct (size_cases v h w) as (x & X & -> & _). replace (Qle_bool 3300 w) with true by (symmetry; apply Qle_bool_iff; lra).
  assert (C : bisect_right wbzh_keys w = 0%nat).
  { unfold bisect_right, wbzh_keys. cbn [filter]. repeat match goal with |- context [Qle_bool ?a w] => let E := fresh in destruct (Qle_bool a w) eqn:E; [apply Qle_bool_iff in E; lra|] end. reflexivity. }
  rewrite C. assert (Q : upd 0 x <= upd 0 120) by (apply upd_mono; lia). change (upd 0 120) with 0 in Q. pose proof (upd_bound 0 x ltac:(lia) X). lia.
Qed.
Theorem C86_unchanged_below_3350_refuted : ~ (forall v h w w0, (w < 3350)%Q -> (w0 < 3300)%Q -> get_hail_size v h w = get_hail_size v h w0).
Proof. intro H. specialize (H (Some 5%Q) (Some 30%Q) 3320%Q 0%Q eq_refl eq_refl). vm_compute in H. discriminate. Qed.
Theorem C86_height_everywhere_refuted : ~ (forall v h w w', (w <= w')%Q -> get_hail_size v h w' <= get_hail_size v h w).
Proof. intro H. specialize (H (Some 5%Q) (Some 30%Q) 3320%Q 3400%Q ltac:(discriminate)). vm_compute in H. congruence. Qed.

(** * Cases *)
Example C86_case : get_hail_size (Some (52 # 10)) (Some 31%Q) 2000%Q = 40 /\ get_hail_size (Some (52 # 10)) (Some 31%Q) 3400%Q = 25 /\ get_hail_size (Some (52 # 10)) (Some 31%Q) 3600%Q = 20 /\ get_hail_size (Some 100%Q) (Some 100%Q) 3360%Q = 75.
Proof. repeat split; reflexivity. Qed.
Example C86_case_entry : nearest ((52 # 10) * 2)%Q (Z.of_nat 10) /\ nearest (31 / 5)%Q (Z.of_nat 5 + 1) /\ table_entry 10 5 = 40.
Proof. repeat split; reflexivity. Qed.
Example C86_case_size : (hail_size (Some (2733 # 10)) (Some 300%Q) (Some (26815 # 100)) 280 2000 == 4 # 100)%Q.
Proof. reflexivity. Qed.

Print Assumptions C86_range.
Print Assumptions C86_masked.
Print Assumptions C86_entry.
Print Assumptions C86_small.
Print Assumptions C86_negative_refuted.
Print Assumptions C86_monotone.
Print Assumptions C86_reduced.
Print Assumptions C86_height.
Print Assumptions C86_high.
Print Assumptions C86_reduction.
Print Assumptions C86_low_unchanged.
Print Assumptions C86_gap.
Print Assumptions C86_unchanged_below_3350_refuted.
Print Assumptions C86_height_everywhere_refuted.
