(** The above <-> below renaming of invert_probabilities. *)
From Coq Require Import Ascii.
From Verif Require Import Base Model_Threshold Model_Probability.
Local Open Scope string_scope.

Lemma prefix_cons c d w s : String.prefix (String c w) (String d s) = true <-> c = d /\ String.prefix w s = true.
Proof.
  cbn [String.prefix]. destruct (ascii_dec c d); split; intro H; try tauto; try discriminate.
Qed.
Lemma prefix_nil w s : String.prefix w s = true -> w <> "" -> s <> "".
Proof. destruct w, s; simpl; congruence. Qed.
Lemma prefix_split w s : String.prefix w s = true -> exists t, s = w ++ t.
Proof.
  revert s. induction w as [|c w IH]; intros s H; [exists s; reflexivity|]. destruct s as [|d s]; [discriminate|].
  apply prefix_cons in H as [<- H]. destruct (IH s H) as [t ->]. exists t. reflexivity.
Qed.
Lemma contains_unfold w c s : contains w (String c s) = false <-> String.prefix w (String c s) = false /\ contains w s = false.
Proof. change (contains w (String c s)) with (String.prefix w (String c s) || contains w s)%bool. rewrite orb_false_iff. reflexivity. Qed.

(** One step of replace. *)
Lemma replace_hit old new t : old <> "" -> replace old new (old ++ t) = new ++ replace old new t.
Proof.
  intro H. destruct old as [|c w]; [easy|]. unfold replace. cbn [append replace_from].
  assert (HP : String.prefix (String c w) (String c (w ++ t)) = true).
  { apply prefix_cons. split; [reflexivity|]. clear. induction w as [|d w IH]; [destruct t; reflexivity|].
    cbn [append]. apply prefix_cons. auto. }
  rewrite HP. f_equal. cbn [String.length]. rewrite Nat.sub_succ, Nat.sub_0_r. clear HP.
  assert (G : forall o n u t, replace_from (String.length u) o n (u ++ t) = replace_from 0 o n t).
  { clear. intros o n u. induction u as [|d u IH]; intro t; [reflexivity|]. cbn [String.length append replace_from]. apply IH. }
  apply G.
Qed.
Lemma replace_miss old new c s : String.prefix old (String c s) = false -> replace old new (String c s) = String c (replace old new s).
Proof. intro H. unfold replace. cbn [replace_from]. rewrite H. reflexivity. Qed.

Lemma str_len_ind (P : string -> Prop) :
  (forall s, (forall t, (String.length t < String.length s)%nat -> P t) -> P s) -> forall s, P s.
Proof.
  intros H s. assert (G : forall n s, (String.length s < n)%nat -> P s).
  { induction n; intros u Hu; [lia|]. apply H. intros t Ht. apply IHn. lia. }
  apply (G (S (String.length s))). lia.
Qed.
Lemma app_len a b : String.length (a ++ b) = (String.length a + String.length b)%nat.
Proof. induction a; simpl; congruence. Qed.

(** If the replaced text starts with a character that is not the first of [new], that
    character was already there. *)
Lemma replace_head old n0 new s x u : old <> "" -> x <> n0 ->
  replace old (String n0 new) s = String x u -> exists t, s = String x t /\ u = replace old (String n0 new) t.
Proof.
  intros Ho Hx H. destruct s as [|c s]; [discriminate|]. destruct (String.prefix old (String c s)) eqn:E.
  - apply prefix_split in E as [t E]. rewrite E in H. rewrite replace_hit in H by exact Ho. simpl in H. congruence.
  - rewrite replace_miss in H by exact E. injection H as H1 H2. exists s. split; congruence.
Qed.
Lemma contains_app_r w u s : contains w (u ++ s) = false -> contains w s = false.
Proof. induction u; intro H; [exact H|]. cbn [append] in H. apply contains_unfold in H as [_ H]. auto. Qed.
Lemma contains_tl w c s : contains w (String c s) = false -> contains w s = false.
Proof. intro H. apply contains_unfold in H as [_ H]. exact H. Qed.

(** Steps through a fixed word: [pw] proves that the original already had the word. *)
Ltac step_word H t :=
  let E := fresh "E" in let t' := fresh "t" in
  apply replace_head in H as (t' & E & H); [|discriminate|discriminate].

Lemma ab_word s : String.prefix "below" (replace "above" "below" s) = true ->
  String.prefix "below" s = true \/ String.prefix "above" s = true.
Proof.
  destruct s as [|c s]; [discriminate|]. destruct (String.prefix "above" (String c s)) eqn:E; [tauto|].
  rewrite replace_miss by exact E. intro H. left. apply prefix_cons in H as [<- H].
  apply prefix_split in H as [u H]. cbn [append] in H.
  apply replace_head in H as (t1 & E1 & H); [|discriminate|discriminate]. symmetry in H.
  apply replace_head in H as (t2 & E2 & H); [|discriminate|discriminate]. symmetry in H.
  apply replace_head in H as (t3 & E3 & H); [|discriminate|discriminate]. symmetry in H.
  apply replace_head in H as (t4 & E4 & H); [|discriminate|discriminate].
  subst. destruct t4; reflexivity.
Qed.
Lemma ba_word s : String.prefix "above" (replace "below" "above" s) = true ->
  String.prefix "above" s = true \/ String.prefix "below" s = true.
Proof.
  destruct s as [|c s]; [discriminate|]. destruct (String.prefix "below" (String c s)) eqn:E; [tauto|].
  rewrite replace_miss by exact E. intro H. left. apply prefix_cons in H as [<- H].
  apply prefix_split in H as [u H]. cbn [append] in H.
  apply replace_head in H as (t1 & E1 & H); [|discriminate|discriminate]. symmetry in H.
  apply replace_head in H as (t2 & E2 & H); [|discriminate|discriminate]. symmetry in H.
  apply replace_head in H as (t3 & E3 & H); [|discriminate|discriminate]. symmetry in H.
  apply replace_head in H as (t4 & E4 & H); [|discriminate|discriminate].
  subst. destruct t4; reflexivity.
Qed.

Lemma back_ab s : contains "below" s = false -> replace "below" "above" (replace "above" "below" s) = s.
Proof.
  induction s as [s IH] using str_len_ind. intro HC. destruct s as [|c s]; [reflexivity|].
  destruct (String.prefix "above" (String c s)) eqn:E.
  - apply prefix_split in E as [t E]. rewrite E in *. rewrite replace_hit by discriminate. rewrite replace_hit by discriminate.
    rewrite IH; [reflexivity| |apply (contains_app_r "below" "above" t HC)]. rewrite app_len. simpl. lia.
  - rewrite replace_miss by exact E. rewrite replace_miss.
    + rewrite IH; [reflexivity|simpl; lia|apply (contains_tl _ _ _ HC)].
    + rewrite <- replace_miss by exact E. destruct (String.prefix "below" (replace "above" "below" (String c s))) eqn:E2; [|reflexivity].
      apply ab_word in E2 as [E2|E2]; [|congruence]. apply contains_unfold in HC as [HC _]. congruence.
Qed.
Lemma back_ba s : contains "above" s = false -> replace "above" "below" (replace "below" "above" s) = s.
Proof.
  induction s as [s IH] using str_len_ind. intro HC. destruct s as [|c s]; [reflexivity|].
  destruct (String.prefix "below" (String c s)) eqn:E.
  - apply prefix_split in E as [t E]. rewrite E in *. rewrite replace_hit by discriminate. rewrite replace_hit by discriminate.
    rewrite IH; [reflexivity| |apply (contains_app_r "above" "below" t HC)]. rewrite app_len. simpl. lia.
  - rewrite replace_miss by exact E. rewrite replace_miss.
    + rewrite IH; [reflexivity|simpl; lia|apply (contains_tl _ _ _ HC)].
    + rewrite <- replace_miss by exact E. destruct (String.prefix "above" (replace "below" "above" (String c s))) eqn:E2; [|reflexivity].
      apply ba_word in E2 as [E2|E2]; [|congruence]. apply contains_unfold in HC as [HC _]. congruence.
Qed.

Lemma contains_app w u v : contains w v = true -> contains w (u ++ v) = true.
Proof.
  intro H. induction u as [|c u IH]; [exact H|]. cbn [append].
  change (String.prefix w (String c (u ++ v)) || contains w (u ++ v) = true)%bool. rewrite IH. apply orb_true_r.
Qed.
Lemma prefix_contains w s : String.prefix w s = true -> contains w s = true.
Proof. destruct s; simpl; intros ->; reflexivity. Qed.

(** After replacing "above" no "above" is left. *)
Lemma gone_above s : contains "above" (replace "above" "below" s) = false.
Proof.
  induction s as [s IH] using str_len_ind. destruct s as [|c s]; [reflexivity|].
  destruct (String.prefix "above" (String c s)) eqn:E.
  - apply prefix_split in E as [t E]. rewrite E in *. rewrite replace_hit by discriminate.
    assert (HL : contains "above" (replace "above" "below" t) = false) by (apply IH; rewrite app_len; simpl; lia).
    cbn [append]. repeat (apply contains_unfold; split; [reflexivity|]). exact HL.
  - rewrite replace_miss by exact E. apply contains_unfold. split; [|apply IH; simpl; lia].
    destruct (String.prefix "above" (String c (replace "above" "below" s))) eqn:E2; [|reflexivity]. exfalso.
    apply prefix_cons in E2 as [<- H]. apply prefix_split in H as [u H]. cbn [append] in H.
    destruct s as [|d s]; [discriminate|]. destruct (String.prefix "above" (String d s)) eqn:E3.
    + apply prefix_split in E3 as [t E3]. rewrite E3 in H. rewrite replace_hit in H by discriminate. discriminate.
    + rewrite replace_miss in H by exact E3. injection H as -> H.
      apply replace_head in H as (t2 & E4 & H); [|discriminate|discriminate]. symmetry in H.
      apply replace_head in H as (t3 & E5 & H); [|discriminate|discriminate]. symmetry in H.
      apply replace_head in H as (t4 & E6 & H); [|discriminate|discriminate].
      subst. destruct t4; discriminate.
Qed.
(** A name mentioning "below" mentions "above" after the reverse replacement. *)
Lemma now_above s : contains "below" s = true -> contains "above" (replace "below" "above" s) = true.
Proof.
  induction s as [|c s IH]; [discriminate|]. intro H.
  destruct (String.prefix "below" (String c s)) eqn:E.
  - apply prefix_split in E as [t E]. rewrite E. rewrite replace_hit by discriminate. apply prefix_contains.
    destruct (replace "below" "above" t); reflexivity.
  - change (String.prefix "below" (String c s) || contains "below" s = true)%bool in H. rewrite E in H. simpl in H.
    rewrite replace_miss by exact E. apply (contains_app _ (String c "")). auto.
Qed.
Lemma replace_none old new s : contains old s = false -> replace old new s = s.
Proof.
  induction s as [|c s IH]; [reflexivity|]. intro H. apply contains_unfold in H as [H1 H2].
  rewrite replace_miss by exact H1. rewrite IH by exact H2. reflexivity.
Qed.

(** Inverting the name twice. *)
Lemma invert_name_twice n : (contains "above" n && contains "below" n)%bool = false -> invert_name (invert_name n) = n.
Proof.
  intro H. unfold invert_name. destruct (contains "above" n) eqn:EA.
  - rewrite gone_above. simpl in H. apply back_ab. exact H.
  - destruct (contains "below" n) eqn:EB.
    + rewrite now_above by exact EB. apply back_ba. exact EA.
    + rewrite (replace_none "below" "above" n EB), EA. apply replace_none. exact EB.
Qed.
Lemma invert_name_twice_bad : exists n, contains "above" n = true /\ contains "below" n = true /\ invert_name (invert_name n) <> n.
Proof. exists "probability_of_cloud_base_above_sea_level_below_threshold". repeat split. discriminate. Qed.

(** The direction word of a standard name flips. *)
Fixpoint no_char (c : ascii) (s : string) : bool :=
  match s with EmptyString => true | String d r => negb (Ascii.eqb c d) && no_char c r end.
Lemma prefix_sep w s c t : no_char c w = true -> String.prefix w (s ++ String c t) = true -> String.prefix w s = true.
Proof.
  revert s. induction w as [|x w IH]; intros s HN H; [destruct s; reflexivity|].
  cbn [no_char] in HN. apply andb_true_iff in HN as [HN1 HN2]. destruct s as [|y s]; cbn [append] in H.
  - apply prefix_cons in H as [-> _]. rewrite Ascii.eqb_refl in HN1. discriminate.
  - apply prefix_cons in H as [-> H]. apply prefix_cons. auto.
Qed.
Lemma replace_sep old new s c t : no_char c old = true -> contains old s = false ->
  replace old new (s ++ String c t) = s ++ replace old new (String c t).
Proof.
  intro HN. induction s as [|d s IH]; intro HC; [reflexivity|]. cbn [append]. apply contains_unfold in HC as [H1 H2].
  rewrite replace_miss; [rewrite IH by exact H2; reflexivity|].
  destruct (String.prefix old (String d (s ++ String c t))) eqn:E; [|reflexivity].
  apply (prefix_sep old (String d s) c t HN) in E. congruence.
Qed.
Lemma contains_sep w s c t : no_char c w = true -> contains w (String c t) = false -> contains w s = false -> contains w (s ++ String c t) = false.
Proof.
  intros HN Ht. induction s as [|d s IH]; intro HC; [exact Ht|]. cbn [append]. apply contains_unfold in HC as [H1 H2].
  apply contains_unfold. split; [|auto].
  destruct (String.prefix w (String d (s ++ String c t))) eqn:E; [|reflexivity].
  apply (prefix_sep w (String d s) c t HN) in E. congruence.
Qed.
Lemma app_assoc_s (a b c : string) : (a ++ b) ++ c = a ++ b ++ c.
Proof. induction a; simpl; congruence. Qed.
Lemma standard_above d : contains "above" d = false ->
  invert_name ("probability_of_" ++ d ++ "_above_threshold") = "probability_of_" ++ d ++ "_below_threshold".
Proof.
  intro H. unfold invert_name.
  assert (HA : contains "above" ("probability_of_" ++ d ++ "_above_threshold") = true).
  { apply contains_app, contains_app. reflexivity. }
  rewrite HA. set (t := d ++ "_above_threshold"). 
  assert (E : replace "above" "below" ("probability_of" ++ String "_" t) = "probability_of" ++ replace "above" "below" (String "_" t)) by (apply replace_sep; reflexivity).
  change ("probability_of_" ++ t) with ("probability_of" ++ String "_" t). rewrite E.
  rewrite replace_miss by reflexivity. unfold t.
  rewrite (replace_sep "above" "below" d "_" "above_threshold" eq_refl H). reflexivity.
Qed.
Lemma standard_below d : contains "above" d = false -> contains "below" d = false ->
  invert_name ("probability_of_" ++ d ++ "_below_threshold") = "probability_of_" ++ d ++ "_above_threshold".
Proof.
  intros H0 H. unfold invert_name. set (t := d ++ "_below_threshold").
  change ("probability_of_" ++ t) with ("probability_of" ++ String "_" t).
  rewrite contains_sep; [|reflexivity| |reflexivity].
  - assert (E : replace "below" "above" ("probability_of" ++ String "_" t) = "probability_of" ++ replace "below" "above" (String "_" t)) by (apply replace_sep; reflexivity).
    rewrite E. rewrite replace_miss by reflexivity. unfold t.
    rewrite (replace_sep "below" "above" d "_" "below_threshold" eq_refl H). reflexivity.
  - apply contains_unfold. split; [reflexivity|]. unfold t. apply contains_sep; [reflexivity|reflexivity|exact H0].
Qed.
