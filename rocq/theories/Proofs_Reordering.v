From Verif Require Import Base Model_Percentiles Proofs_Percentiles Proofs_Resample Model_Reordering.

(** * Permutations of 0..n-1 *)
Definition is_perm (n : nat) (l : list nat) : Prop := Permutation (seq 0 n) l.
Lemma is_perm_length n l : is_perm n l -> length l = n.
Proof. intro H. apply Permutation_length in H. rewrite seq_length in H. congruence. Qed.
Lemma is_perm_bound n l i : is_perm n l -> (i < n)%nat -> (nth i l 0 < n)%nat.
Proof.
  intros H Hi. assert (In (nth i l 0%nat) l) by (apply nth_In; rewrite (is_perm_length n l H); exact Hi).
  apply (Permutation_in _ (Permutation_sym H)) in H0. apply in_seq in H0. lia.
Qed.
Lemma is_perm_NoDup n l : is_perm n l -> NoDup l.
Proof. intro H. apply (Permutation_NoDup H). apply seq_NoDup. Qed.
Lemma is_perm_map_perm {A} n l (v : list A) d : is_perm n l -> length v = n -> Permutation v (map (fun r => nth r v d) l).
Proof.
  intros H HL. transitivity (map (fun r => nth r v d) (seq 0 n)); [|apply Permutation_map; exact H].
  assert (E : map (fun r => nth r v d) (seq 0 n) = v).
  { apply (nth_ext _ _ d d); [rewrite map_length, seq_length; auto|]. intros i Hi. rewrite map_length, seq_length in Hi.
    rewrite nth_map_seq by exact Hi. reflexivity. }
  rewrite E. reflexivity.
Qed.
Lemma sorted_nat_unique l m : StronglySorted lt l -> StronglySorted lt m -> Permutation l m -> l = m.
Proof.
  intro Hl. revert m. induction Hl as [|x l Hs IH Hf]; intros m Hm HP.
  - apply Permutation_nil in HP. congruence.
  - destruct m as [|y m]; [symmetry in HP; apply Permutation_nil in HP; discriminate|].
    inversion Hm as [|? ? Hms Hmf]; subst.
    assert (x = y).
    { assert (Hx : In x (y :: m)) by (apply (Permutation_in _ HP); left; reflexivity).
      assert (Hy : In y (x :: l)) by (apply (Permutation_in _ (Permutation_sym HP)); left; reflexivity).
      rewrite Forall_forall in Hf, Hmf. destruct Hx as [->|Hx]; [reflexivity|]. destruct Hy as [->|Hy]; [reflexivity|].
      specialize (Hf y Hy). specialize (Hmf x Hx). lia. }
    subst y. f_equal. apply IH; [exact Hms|]. apply Permutation_cons_inv in HP. exact HP.
Qed.
Lemma seq_sorted a n : StronglySorted lt (seq a n).
Proof.
  revert a. induction n; intro a; simpl; constructor; [apply IHn|]. apply Forall_forall. intros x Hx. apply in_seq in Hx. lia.
Qed.
(** Sorting distinct positions by a strict total order. *)
Lemma isort_strict (leb : nat -> nat -> bool) (L : nat -> nat -> Prop) l : 
  (forall i j, leb i j = true -> i = j \/ L i j) -> (forall i j, leb i j = false -> L j i) ->
  (forall i j k, L i j -> L j k -> L i k) -> NoDup l -> StronglySorted L (isort leb l).
Proof.
  intros H1 H2 H3 HN.
  assert (HS : StronglySorted (fun i j => i = j \/ L i j) (isort leb l)).
  { apply isort_sorted; [exact H1|intros; right; auto|]. intros x y z [->|A] [->|B]; auto. right; eauto. }
  assert (HN' : NoDup (isort leb l)) by (apply (Permutation_NoDup (isort_perm leb l)); exact HN).
  induction HS as [|x m Hs IH Hf]; constructor.
  - apply IH. inversion HN'; trivial.
  - inversion HN'; subst. apply Forall_forall. intros y Hy. rewrite Forall_forall in Hf. destruct (Hf y Hy) as [->|]; [contradiction|assumption].
Qed.
Lemma ssorted_nth (L : nat -> nat -> Prop) l i j : StronglySorted L l -> (i < j < length l)%nat -> L (nth i l 0%nat) (nth j l 0%nat).
Proof.
  intro H. revert i j. induction H as [|x l Hs IH Hf]; intros i j Hij; [simpl in Hij; lia|].
  destruct i; destruct j; try lia; simpl in *.
  - rewrite Forall_forall in Hf. apply Hf, nth_In. lia.
  - apply IH. lia.
Qed.

(** nat_argsort of a permutation is its inverse. *)
Lemma nat_argsort_perm l : is_perm (length l) (nat_argsort l).
Proof. apply isort_perm. Qed.
Lemma q_argsort_perm l : is_perm (length l) (q_argsort l).
Proof. apply isort_perm. Qed.
Lemma lexsort_perm raw rnd : is_perm (length raw) (lexsort raw rnd).
Proof. apply isort_perm. Qed.
Lemma argsort_inverse n l i : is_perm n l -> (i < n)%nat -> nth (nth i (nat_argsort l) 0%nat) l 0%nat = i.
Proof.
  intros HP Hi. pose proof (is_perm_length n l HP) as HL. pose proof (nat_argsort_perm l) as HT. rewrite HL in HT.
  set (t := nat_argsort l) in *.
  assert (HS : StronglySorted (fun i j => (nth i l 0 < nth j l 0)%nat \/ (nth i l 0 = nth j l 0 /\ i < j)%nat) t).
  { apply isort_strict.
    - intros a b H. apply orb_true_iff in H as [H|H]; [right; left; apply Nat.ltb_lt; exact H|].
      apply andb_true_iff in H as [H1 H2]. apply Nat.eqb_eq in H1. apply Nat.leb_le in H2.
      destruct (Nat.eq_dec a b); [left; assumption|right; right; lia].
    - intros a b H. apply orb_false_iff in H as [H1 H2]. apply Nat.ltb_ge in H1. apply andb_false_iff in H2 as [H2|H2].
      + apply Nat.eqb_neq in H2. left; lia.
      + apply Nat.leb_gt in H2. lia.
    - intros a b c [A|[A A']] [B|[B B']]; lia.
    - apply seq_NoDup. }
  assert (HM : map (fun r => nth r l 0%nat) t = seq 0 n).
  { apply sorted_nat_unique; [|apply seq_sorted|].
    - clear - HS HP HT HL. 
      assert (HB : Forall (fun a => (a < n)%nat) t).
      { apply Forall_forall. intros a Ha. apply (Permutation_in _ (Permutation_sym HT)) in Ha. apply in_seq in Ha. lia. }
      clear HT. induction HS as [|a m Hs IH Hf]; simpl; constructor.
      + apply IH. inversion HB; trivial.
      + apply Forall_forall. intros y Hy. apply in_map_iff in Hy as (b & <- & Hb). rewrite Forall_forall in Hf.
        destruct (Hf b Hb) as [|[E Lt]]; [assumption|exfalso].
        assert (Ha : (a < n)%nat) by (inversion HB; trivial). assert (Hb' : (b < n)%nat) by (inversion HB as [|? ? _ HB2]; rewrite Forall_forall in HB2; auto).
        pose proof (is_perm_NoDup _ _ HP) as HN. rewrite (NoDup_nth l 0%nat) in HN. specialize (HN a b ltac:(lia) ltac:(lia) E). lia.
    - transitivity l; [|symmetry; exact HP]. symmetry. apply (is_perm_map_perm n); [exact HT|exact HL]. }
  assert (HE : nth i (map (fun r => nth r l 0%nat) t) 0%nat = i) by (rewrite HM; apply seq_nth; exact Hi).
  rewrite nth_map_lt with (d := 0%nat) in HE; [exact HE|]. rewrite (is_perm_length n t HT). exact Hi.
Qed.

(** * C15 *)
(** The order of the members: raw value, then random draw, then position. *)
Definition before (raw rnd : list Q) (i j : nat) : Prop :=
  nth i raw 0 < nth j raw 0 \/
  (nth i raw 0 == nth j raw 0 /\ (nth i rnd 0 < nth j rnd 0 \/ (nth i rnd 0 == nth j rnd 0 /\ (i < j)%nat))).
Lemma before_trans raw rnd i j k : before raw rnd i j -> before raw rnd j k -> before raw rnd i k.
Proof.
  unfold before. intros [A|[A [B|[B B']]]] [C|[C [D|[D D']]]]; try (left; lra); right; (split; [lra|]); try (left; lra); right; split; [lra|lia].
Qed.
Lemma before_irrefl raw rnd i : ~ before raw rnd i i.
Proof. unfold before. intros [A|[A [B|[B B']]]]; lra || lia. Qed.
Lemma lexsort_sorted raw rnd : StronglySorted (before raw rnd) (lexsort raw rnd).
Proof.
  apply isort_strict.
  - intros i j H. unfold lex_leb in H. apply orb_true_iff in H as [H|H]; [right; left; apply Qltb_lt; exact H|].
    apply andb_true_iff in H as [H1 H2]. apply Qeqb_eq in H1. apply orb_true_iff in H2 as [H2|H2].
    + right; right. split; [exact H1|]. left. apply Qltb_lt; exact H2.
    + apply andb_true_iff in H2 as [H2 H3]. apply Qeqb_eq in H2. apply Nat.leb_le in H3.
      destruct (Nat.eq_dec i j); [left; assumption|]. right; right. split; [exact H1|]. right. split; [exact H2|lia].
  - intros i j H. unfold lex_leb in H. apply orb_false_iff in H as [H1 H2]. apply Qltb_ge in H1. unfold before.
    destruct (Qeqb_spec (nth i raw 0) (nth j raw 0)) as [E|E].
    + right. split; [lra|]. cbn [andb] in H2. apply orb_false_iff in H2 as [H2 H3]. apply Qltb_ge in H2.
      destruct (Qeqb_spec (nth i rnd 0) (nth j rnd 0)) as [E'|E'].
      * right. split; [lra|]. cbn [andb] in H3. apply Nat.leb_gt in H3. exact H3.
      * left. lra.
    + left. lra.
  - intros i j k. apply before_trans.
  - apply seq_NoDup.
Qed.
Lemma rank_order raw rnd i j : (i < length raw)%nat -> (j < length raw)%nat -> before raw rnd i j ->
  let r := nat_argsort (lexsort raw rnd) in (nth i r 0 < nth j r 0)%nat.
Proof.
  intros Hi Hj HB r. pose proof (lexsort_perm raw rnd) as HP.
  pose proof (argsort_inverse _ _ i HP Hi) as Ei. pose proof (argsort_inverse _ _ j HP Hj) as Ej. fold r in Ei, Ej.
  assert (HLs : length (lexsort raw rnd) = length raw) by (apply is_perm_length; exact HP).
  pose proof (nat_argsort_perm (lexsort raw rnd)) as HR. rewrite HLs in HR. fold r in HR.
  pose proof (is_perm_bound _ _ i HR Hi) as Bi. pose proof (is_perm_bound _ _ j HR Hj) as Bj.
  destruct (lt_eq_lt_dec (nth i r 0%nat) (nth j r 0%nat)) as [[L|E]|G]; [exact L| |].
  - rewrite E, Ej in Ei. subst. destruct (before_irrefl _ _ _ HB).
  - pose proof (ssorted_nth _ _ (nth j r 0%nat) (nth i r 0%nat) (lexsort_sorted raw rnd)) as HS.
    rewrite HLs in HS. specialize (HS ltac:(lia)). rewrite Ei, Ej in HS.
    destruct (before_irrefl raw rnd i). eapply before_trans; eauto.
Qed.

(** Unfolding of rank_point. *)
Lemma choose_ok r v o : choose r v = Ok o -> length r = length v /\ o = map (fun k => nth k v 0) r /\ r <> [].
Proof.
  unfold choose. destruct (length r =? length v)%nat eqn:E; [|discriminate]. cbn [negb]. apply Nat.eqb_eq in E.
  destruct r; [discriminate|]. destruct (forallb _ _); [|discriminate]. intro H. injection H as <-. repeat split; trivial. discriminate.
Qed.
Lemma choose_total r v : is_perm (length v) r -> v <> [] -> exists o, choose r v = Ok o.
Proof.
  intros HP HN. unfold choose. pose proof (is_perm_length _ _ HP) as HL. rewrite HL, Nat.eqb_refl. cbn [negb].
  destruct r as [|a r]; [destruct v; [easy|discriminate]|].
  assert (HF : forallb (fun r => r <? length v)%nat (a :: r) = true).
  { apply forallb_forall. intros x Hx. apply (Permutation_in _ (Permutation_sym HP)) in Hx. apply in_seq in Hx. apply Nat.ltb_lt. lia. }
  rewrite HF. eauto.
Qed.
Definition ranking (ro : bool) (raw rnd : list Q) : list nat := if ro then q_argsort rnd else nat_argsort (lexsort raw rnd).
Lemma ranking_perm ro raw rnd : length rnd = length raw -> is_perm (length raw) (ranking ro raw rnd).
Proof.
  intro E. unfold ranking. destruct ro; [rewrite <- E; apply q_argsort_perm|].
  pose proof (nat_argsort_perm (lexsort raw rnd)) as H. rewrite (is_perm_length _ _ (lexsort_perm raw rnd)) in H. exact H.
Qed.
Lemma map_snd_combine' {A B} (l : list A) (m : list B) : length l = length m -> map snd (combine l m) = m.
Proof. revert m. induction l; destruct m; simpl; intros; try congruence. f_equal. auto. Qed.
Lemma rank_point_nomask ro rnd p out : rank_point ro rnd p = Ok out -> Forall (fun b => b = false) (ep_mask p) -> length (ep_mask p) = length (ep_cal p) ->
  out = map Some (map (fun k => nth k (ep_cal p) 0) (ranking ro (ep_raw p) rnd)) /\ length (ranking ro (ep_raw p) rnd) = length (ep_cal p).
Proof.
  unfold rank_point. fold (ranking ro (ep_raw p) rnd). destruct (choose _ _) eqn:E; [|discriminate]. cbn [bind]. intros H HM HL. injection H as <-.
  apply choose_ok in E as (E1 & -> & _). split; [|exact E1].
  set (v := map _ (ranking _ _ _)). assert (HLv : length (ep_mask p) = length v) by (unfold v; rewrite map_length; lia).
  rewrite <- (map_snd_combine' (ep_mask p) v HLv) at 2. rewrite map_map. apply map_ext_in. intros [b x] Hb. apply in_combine_l in Hb.
  rewrite Forall_forall in HM. rewrite (HM b Hb). reflexivity.
Qed.
Lemma rank_point_values ro rnd p out : length rnd = length (ep_raw p) -> length (ep_mask p) = length (ep_cal p) ->
  Forall (fun b => b = false) (ep_mask p) -> rank_point ro rnd p = Ok out -> exists vals,
  out = map Some vals /\ Permutation (ep_cal p) vals.
Proof.
  intros HL HLm HM H. apply rank_point_nomask in H as [-> HLr]; trivial. eexists. split; [reflexivity|].
  apply is_perm_map_perm with (n := length (ep_raw p)); [apply ranking_perm; exact HL|].
  rewrite (is_perm_length _ _ (ranking_perm ro _ _ HL)) in HLr. auto.
Qed.
Lemma rank_point_order rnd p out i j : length rnd = length (ep_raw p) -> length (ep_mask p) = length (ep_cal p) ->
  Forall (fun b => b = false) (ep_mask p) -> qsorted (ep_cal p) -> rank_point false rnd p = Ok out ->
  (i < length (ep_raw p))%nat -> (j < length (ep_raw p))%nat -> before (ep_raw p) rnd i j ->
  exists ri rj x y, nth i out None = Some x /\ nth j out None = Some y /\ x <= y /\
    (ri < rj < length (ep_cal p))%nat /\ x = nth ri (ep_cal p) 0 /\ y = nth rj (ep_cal p) 0.
Proof.
  intros HL HLm HM HS H Hi Hj HB. apply rank_point_nomask in H as [-> HLr]; trivial. unfold ranking in *.
  pose proof (rank_order _ _ i j Hi Hj HB) as HO. cbv zeta in HO. set (r := nat_argsort _) in *.
  assert (HRP : is_perm (length (ep_raw p)) r) by exact (ranking_perm false (ep_raw p) rnd HL).
  pose proof (is_perm_length _ _ HRP) as HRL. pose proof (is_perm_bound _ _ j HRP Hj).
  exists (nth i r 0%nat), (nth j r 0%nat), (nth (nth i r 0%nat) (ep_cal p) 0), (nth (nth j r 0%nat) (ep_cal p) 0).
  rewrite !map_map. rewrite !nth_map_lt with (d := 0%nat) by lia. repeat split; trivial; try lia.
  apply qsorted_nth; [exact HS|]. lia.
Qed.
Lemma rank_point_total ro rnd p : length rnd = length (ep_raw p) -> length (ep_cal p) = length (ep_raw p) -> ep_raw p <> [] ->
  exists out, rank_point ro rnd p = Ok out.
Proof.
  intros HL HLc HN. unfold rank_point. fold (ranking ro (ep_raw p) rnd).
  destruct (choose_total (ranking ro (ep_raw p) rnd) (ep_cal p)) as [o ->].
  - rewrite HLc. apply ranking_perm; exact HL.
  - destruct (ep_cal p); [destruct (ep_raw p); [easy|discriminate]|discriminate].
  - cbn [bind]. eauto.
Qed.
Lemma rank_point_all_masked ro rnd p out : rank_point ro rnd p = Ok out -> Forall (fun b => b = true) (ep_mask p) -> Forall (fun o => o = None) out.
Proof.
  unfold rank_point. destruct (choose _ _); [|discriminate]. cbn [bind]. intros H HM. injection H as <-. apply Forall_map_iff.
  apply Forall_forall. intros [b v] Hb. apply in_combine_l in Hb. rewrite Forall_forall in HM. cbn [fst]. rewrite (HM b Hb). reflexivity.
Qed.
(** A mask that varies with percentile (not checked unless the raw forecast is masked
    too) leaks a masked value and loses an unmasked one. *)
Lemma mask_leak : exists rnd p out, rank_point false rnd p = Ok out /\ masks_ok [(ep_mask p, [false; false])] = true /\
  ep_mask p = [true; false] /\ nth 1 out None = Some (nth 0 (ep_cal p) 0) /\ nth 0 (ep_cal p) 0 == 7.
Proof.
  exists [1 # 2; 1 # 3], {| ep_raw := [2; 1]; ep_cal := [7; 9]; ep_mask := [true; false] |}, [None; Some 7].
  repeat split.
Qed.

Lemma any_masked_iff l : any_masked l = true <-> exists m, In m l /\ In true m.
Proof.
  unfold any_masked. rewrite existsb_exists. split; intros (m & H & K); exists m; split; try assumption.
  - apply existsb_exists in K. destruct K as (b & Hb & ->). exact Hb.
  - apply existsb_exists. exists true. auto.
Qed.
Lemma masks_ok_iff points : Forall (fun cr => fst cr <> []) points -> masks_ok points = true <->
  (forall m, In m (map snd points) -> ~ In true m) \/
  ((exists m, In m (map fst points) /\ In true m) /\ forall c r, In (c, r) points -> exists b, (forall x, In x c \/ In x r -> x = b)).
Proof.
  intro NE. unfold masks_ok. cbv zeta.
  destruct (any_masked (map snd points)) eqn:R.
  - destruct (any_masked (map fst points)) eqn:C; cbn [andb negb].
    + rewrite forallb_forall. split.
      * intro H. right. split; [apply any_masked_iff; exact C|]. intros c r I. specialize (H _ I). cbn [fst snd] in H.
        apply andb_true_iff in H. destruct H as [H1 H2]. rewrite forallb_forall in H1, H2. exists (hd false c).
        intros x [Hx|Hx].
        -- destruct c as [|y c]; [destruct Hx|]. destruct Hx as [->|Hx]; [reflexivity|]. symmetry. apply Bool.eqb_prop. apply H1. exact Hx.
        -- symmetry. apply Bool.eqb_prop. apply H2. exact Hx.
      * intros [H|[_ H]].
        -- apply any_masked_iff in R. destruct R as (m & I & K). destruct (H m I K).
        -- intros [c r] I. cbn [fst snd]. destruct (H c r I) as (b & Hb). apply andb_true_iff. 
           destruct c as [|y c].
           { rewrite Forall_forall in NE. destruct (NE _ I eq_refl). }
           cbn [hd tl]. rewrite (Hb y) by (left; left; reflexivity).
           split; apply forallb_forall; intros x Hx; rewrite (Hb x); try apply Bool.eqb_reflx; [left; right; exact Hx|right; exact Hx].
    + split; [discriminate|]. intros [H|[H _]].
      * apply any_masked_iff in R. destruct R as (m & I & K). destruct (H m I K).
      * apply any_masked_iff in H. congruence.
  - rewrite andb_false_r. cbn. split; [intros _; left|reflexivity]. intros m I K.
    assert (any_masked (map snd points) = true) by (apply any_masked_iff; eauto). congruence.
Qed.

(** * C16 *)
Lemma positions_nodup points i : NoDup points -> (i < length points)%nat -> positions points (nth i points 0%Z) = [i].
Proof.
  intros HN Hi. unfold positions.
  assert (HF : forall j, In j (filter (fun k => (nth k points 0 =? nth i points 0)%Z) (seq 0 (length points))) <-> j = i).
  { intro j. rewrite filter_In, in_seq, Z.eqb_eq. split.
    - intros [H1 H2]. rewrite (NoDup_nth points 0%Z) in HN. apply HN; [lia|exact Hi|exact H2].
    - intros ->. split; [lia|reflexivity]. }
  assert (HND : NoDup (filter (fun k => (nth k points 0 =? nth i points 0)%Z) (seq 0 (length points)))) by (apply NoDup_filter, seq_NoDup).
  destruct (filter _ _) as [|a [|b l]].
  - exfalso. apply (proj2 (HF i) eq_refl).
  - f_equal. apply HF. left; reflexivity.
  - exfalso. assert (a = i) by (apply HF; left; reflexivity). assert (b = i) by (apply HF; right; left; reflexivity).
    inversion HND as [|? ? HX _]; subst. apply HX. left; reflexivity.
Qed.
Lemma mapM_map_ok {A B} (f : A -> result B) (g : A -> B) l : (forall x, In x l -> f x = Ok (g x)) -> mapM f l = Ok (map g l).
Proof.
  induction l as [|x l IH]; intro H; [reflexivity|]. cbn [mapM]. rewrite H by (left; reflexivity). cbn [bind].
  rewrite IH by (intros; apply H; right; assumption). reflexivity.
Qed.
Lemma recycle_spec plen points : NoDup points -> points <> [] -> (0 < plen)%nat -> plen <> length points ->
  recycle plen points = Ok (map (fun i => (hd 0 points + Z.of_nat i)%Z) (seq 0 plen), map (fun i => (i mod length points)%nat) (seq 0 plen)).
Proof.
  intros HN HE HP HD. unfold recycle. destruct (plen =? length points)%nat eqn:E; [apply Nat.eqb_eq in E; contradiction|].
  assert (HM : (length points <> 0)%nat) by (destruct points; [easy|discriminate]).
  assert (HR : map (fun i => nth (i mod length points) points 0%Z) (seq 0 plen) = hd 0%Z points :: map (fun i => nth (i mod length points) points 0%Z) (seq 1 (plen - 1))).
  { destruct plen; [lia|]. cbn [seq map]. rewrite Nat.mod_0_l by exact HM. rewrite Nat.sub_succ, Nat.sub_0_r. f_equal. destruct points; [easy|reflexivity]. }
  assert (HMM : mapM (fun r => match positions points r with [k] => Ok k | _ => Err MergeError end) (map (fun i => nth (i mod length points) points 0%Z) (seq 0 plen))
    = Ok (map (fun i => (i mod length points)%nat) (seq 0 plen))).
  { clear HR. induction (seq 0 plen) as [|i l IH]; [reflexivity|]. cbn [map mapM]. rewrite positions_nodup; [|exact HN|apply Nat.mod_upper_bound; exact HM].
    cbn [bind]. rewrite IH. reflexivity. }
  rewrite HR in *. rewrite HMM. reflexivity.
Qed.
Lemma recycle_same points : recycle (length points) points = Ok (points, seq 0 (length points)).
Proof. unfold recycle. rewrite Nat.eqb_refl. reflexivity. Qed.
(** How often member [k] is used. *)
Lemma count_mod M P k : (k < M)%nat ->
  count_occ Nat.eq_dec (map (fun i => (i mod M)%nat) (seq 0 P)) k = (P / M + if k <? P mod M then 1 else 0)%nat.
Proof.
  intro Hk. induction P as [|P IH].
  - simpl seq. rewrite Nat.div_0_l, Nat.mod_0_l by lia. reflexivity.
  - rewrite seq_S, map_app, count_occ_app, IH. cbn [map Nat.add count_occ].
    pose proof (Nat.div_mod P M ltac:(lia)) as D. pose proof (Nat.mod_upper_bound P M ltac:(lia)) as U.
    set (q := (P / M)%nat) in *. set (r := (P mod M)%nat) in *.
    destruct (Nat.eq_dec (S r) M) as [E|E].
    + assert (D1 : (S P / M = S q)%nat). { symmetry. apply (Nat.div_unique _ _ _ 0); lia. }
      assert (D2 : (S P mod M = 0)%nat). { symmetry. apply (Nat.mod_unique _ _ (S q)); lia. }
      rewrite D1, D2. destruct (Nat.ltb_spec k r), (Nat.ltb_spec k 0), (Nat.eq_dec r k); lia.
    + assert (D1 : (S P / M = q)%nat). { symmetry. apply (Nat.div_unique _ _ _ (S r)); lia. }
      assert (D2 : (S P mod M = S r)%nat). { symmetry. apply (Nat.mod_unique _ _ q); lia. }
      rewrite D1, D2. destruct (Nat.ltb_spec k r), (Nat.ltb_spec k (S r)), (Nat.eq_dec r k); lia.
Qed.
Lemma count_even M P k k' : (k < M)%nat -> (k' < M)%nat ->
  let used := map (fun i => (i mod M)%nat) (seq 0 P) in
  (count_occ Nat.eq_dec used k <= S (count_occ Nat.eq_dec used k'))%nat.
Proof. intros H H' used. unfold used. rewrite !count_mod by assumption. destruct (_ <? _)%nat, (_ <? _)%nat; lia. Qed.

(** * C17 *)
Lemma loop_second rng ro t rest : rank_loop rng ro SeedState (t :: rest) = Err TypeError.
Proof. reflexivity. Qed.
Lemma mapM_ok {A B} (f : A -> result B) l : (forall x, In x l -> exists y, f x = Ok y) -> exists o, mapM f l = Ok o.
Proof.
  induction l as [|x l IH]; intro H; [exists []; reflexivity|]. cbn [mapM]. destruct (H x) as [y ->]; [left; reflexivity|]. cbn [bind].
  destruct IH as [o ->]; [intros; apply H; right; assumption|]. cbn [bind]. eauto.
Qed.
Lemma loop_many rng ro s t1 t2 rest : (forall z, Forall2 (fun r p => length r = length (ep_raw p) /\ length (ep_cal p) = length (ep_raw p) /\ ep_raw p <> []) (rng z) t1) ->
  rank_loop rng ro s (t1 :: t2 :: rest) = Err TypeError.
Proof.
  intro H. cbn [rank_loop]. destruct s as [|z|]; cbn [bind]; [| |reflexivity].
  - destruct (mapM_ok (fun rp => rank_point ro (fst rp) (snd rp)) (combine (rng None) t1)) as [o Ho].
    { intros [r p] Hrp. specialize (H None). cbn [fst snd]. assert (G : length r = length (ep_raw p) /\ length (ep_cal p) = length (ep_raw p) /\ ep_raw p <> []).
      { clear - H Hrp. induction H; simpl in Hrp; [easy|]. destruct Hrp as [E|Hrp]; [injection E as <- <-; trivial|auto]. }
      destruct G as (G1 & G2 & G3). apply rank_point_total; trivial. }
    rewrite Ho. reflexivity.
  - destruct (mapM_ok (fun rp => rank_point ro (fst rp) (snd rp)) (combine (rng (Some z)) t1)) as [o Ho].
    { intros [r p] Hrp. specialize (H (Some z)). cbn [fst snd]. assert (G : length r = length (ep_raw p) /\ length (ep_cal p) = length (ep_raw p) /\ ep_raw p <> []).
      { clear - H Hrp. induction H; simpl in Hrp; [easy|]. destruct Hrp as [E|Hrp]; [injection E as <- <-; trivial|auto]. }
      destruct G as (G1 & G2 & G3). apply rank_point_total; trivial. }
    rewrite Ho. reflexivity.
Qed.
Lemma loop_single rng ro s t : s <> SeedState ->
  (forall z, Forall2 (fun r p => length r = length (ep_raw p) /\ length (ep_cal p) = length (ep_raw p) /\ ep_raw p <> []) (rng z) t) ->
  exists o, rank_loop rng ro s [t] = Ok [o].
Proof.
  intros Hs H. cbn [rank_loop].
  assert (G : forall z, exists o, mapM (fun rp => rank_point ro (fst rp) (snd rp)) (combine (rng z) t) = Ok o).
  { intro z. apply mapM_ok. intros [r p] Hrp. specialize (H z). cbn [fst snd].
    assert (G : length r = length (ep_raw p) /\ length (ep_cal p) = length (ep_raw p) /\ ep_raw p <> []).
    { clear - H Hrp. induction H; simpl in Hrp; [easy|]. destruct Hrp as [E|Hrp]; [injection E as <- <-; trivial|auto]. }
    destruct G as (G1 & G2 & G3). apply rank_point_total; trivial. }
  destruct s as [|z|]; [| |easy]; cbn [bind].
  - destruct (G None) as [o Ho]. rewrite Ho. cbn [bind]. eauto.
  - destruct (G (Some z)) as [o Ho]. rewrite Ho. cbn [bind]. eauto.
Qed.

(** * The whole process call *)
Lemma recycle_any plen points : NoDup points -> points <> [] -> (0 < plen)%nat -> exists nums,
  recycle plen points = Ok (nums, map (fun i => (i mod length points)%nat) (seq 0 plen)) /\
  nums = (if (plen =? length points)%nat then points else map (fun i => (hd 0 points + Z.of_nat i)%Z) (seq 0 plen)).
Proof.
  intros HN HE HP. destruct (Nat.eq_dec plen (length points)) as [->|D].
  - exists points. rewrite Nat.eqb_refl. split; [|reflexivity]. rewrite recycle_same. do 2 f_equal.
    apply (nth_ext _ _ 0%nat 0%nat); [rewrite map_length; reflexivity|]. intros i Hi. rewrite seq_length in Hi.
    rewrite seq_nth by exact Hi. rewrite nth_map_seq by exact Hi. symmetry. apply Nat.mod_small. exact Hi.
  - eexists. split; [apply recycle_spec; assumption|]. destruct (Nat.eqb_spec plen (length points)); [contradiction|reflexivity].
Qed.
Lemma mapM_inv {A B} (f : A -> result B) l : forall o, mapM f l = Ok o -> Forall2 (fun x y => f x = Ok y) l o.
Proof.
  induction l as [|x l IH]; intros o H; cbn [mapM] in H.
  - injection H as <-. constructor.
  - destruct (f x) as [y|] eqn:E; [|discriminate]. cbn [bind] in H. destruct (mapM f l) as [ys|]; [|discriminate].
    cbn [bind] in H. injection H as <-. constructor; [exact E|]. apply IH. reflexivity.
Qed.
Definition recycled_point (M P : nat) (p : ecc_point) : ecc_point :=
  {| ep_raw := map (fun k => nth k (ep_raw p) 0) (map (fun i => (i mod M)%nat) (seq 0 P)); ep_cal := ep_cal p; ep_mask := ep_mask p |}.
Lemma recycled_raw M P p : length (ep_raw (recycled_point M P p)) = P.
Proof. cbn. rewrite !map_length, seq_length. reflexivity. Qed.
Lemma recycled_nth M P p i : (i < P)%nat -> nth i (ep_raw (recycled_point M P p)) 0 = nth (i mod M) (ep_raw p) 0.
Proof.
  intro Hi. cbn. rewrite nth_map_lt with (d := 0%nat) by (rewrite map_length, seq_length; exact Hi). rewrite nth_map_seq by exact Hi. reflexivity.
Qed.
Lemma process_single rng ro s pcts members t nums o : NoDup members -> members <> [] -> pcts <> [] ->
  (forall z, length (rng z) = length t /\ Forall (fun r => length r = length pcts) (rng z)) ->
  ecc_process rng ro s pcts members [t] = Ok (nums, [o]) ->
  nums = (if (length pcts =? length members)%nat then members else map (fun i => (hd 0 members + Z.of_nat i)%Z) (seq 0 (length pcts))) /\
  Forall2 (fun p out => exists rnd, length rnd = length pcts /\ rank_point ro rnd (recycled_point (length members) (length pcts) p) = Ok out) t o.
Proof.
  intros HN HE HP HR H. unfold ecc_process in H.
  destruct (recycle_any (length pcts) members HN HE) as (nums' & HRc & Hn); [destruct pcts; [easy|simpl; lia]|].
  rewrite HRc in H. cbn [bind map] in H.
  change (fun p => {| ep_raw := map _ _; ep_cal := ep_cal p; ep_mask := ep_mask p |}) with (recycled_point (length members) (length pcts)) in H.
  cbn [rank_loop] in H.
  destruct (match s with SeedNone => Ok None | SeedInt z => Ok (Some z) | SeedState => Err TypeError end) as [z|]; [|discriminate]. cbn [bind] in H.
  destruct (mapM _ _) as [o'|] eqn:E; [|discriminate]. cbn [bind] in H.
  destruct (rebadge_as_realizations pcts false (Some nums')) as [n|] eqn:ER; [|discriminate]. cbn [bind] in H. injection H as <- <-.
  split.
  - unfold rebadge_as_realizations in ER. destruct (diffs _); [discriminate|]. destruct (negb _); [discriminate|].
    destruct (_ =? _)%nat; [|discriminate]. injection ER as <-. exact Hn.
  - apply mapM_inv in E. destruct (HR z) as [HL HF]. clear HR HRc ER. revert t E HL. revert HF. generalize (rng z) as rs. intros rs HF.
    revert o'. induction HF as [|r rs Hr HF IH]; intros o' t E HL; destruct t as [|p t]; simpl in HL; try discriminate; simpl in E; inversion E; subst; constructor.
    + exists r. split; [exact Hr|]. assumption.
    + apply IH; [assumption|lia].
Qed.
Lemma process_values rng ro s pcts members t nums o : NoDup members -> members <> [] -> pcts <> [] ->
  (forall z, length (rng z) = length t /\ Forall (fun r => length r = length pcts) (rng z)) ->
  Forall (fun p => length (ep_cal p) = length pcts /\ length (ep_mask p) = length pcts /\ Forall (fun b => b = false) (ep_mask p)) t ->
  ecc_process rng ro s pcts members [t] = Ok (nums, [o]) ->
  Forall2 (fun p out => exists vals, out = map Some vals /\ Permutation (ep_cal p) vals /\
     (ro = false -> qsorted (ep_cal p) -> forall i j, (i < length pcts)%nat -> (j < length pcts)%nat ->
       nth (i mod length members) (ep_raw p) 0 < nth (j mod length members) (ep_raw p) 0 -> nth i vals 0 <= nth j vals 0)) t o.
Proof.
  intros HN HE HP HR HF H. apply process_single in H as [_ H]; trivial. clear HR.
  induction H as [|p out t o (rnd & HL & Hr) H IH]; [constructor|]. inversion HF as [|? ? (F1 & F2 & F3) HF']; subst. constructor; [|apply IH; exact HF'].
  pose proof Hr as Hr'. apply rank_point_values in Hr as (vals & -> & HPm); [|rewrite recycled_raw; exact HL|cbn; congruence|exact F3].
  exists vals. split; [reflexivity|]. split; [exact HPm|]. intros -> HS i j Hi Hj Hlt.
  destruct (rank_point_order rnd (recycled_point (length members) (length pcts) p) (map Some vals) i j) as (ri & rj & x & y & Ex & Ey & Hxy & _);
    trivial; try (rewrite recycled_raw; trivial); [cbn; congruence| |].
  - left. rewrite !recycled_nth by assumption. exact Hlt.
  - assert (HLv : length vals = length pcts) by (apply Permutation_length in HPm; cbn in HPm; congruence).
    rewrite nth_map_lt with (d := 0) in Ex by lia. rewrite nth_map_lt with (d := 0) in Ey by lia. injection Ex as ->. injection Ey as ->. exact Hxy.
Qed.
Lemma process_many rng ro s pcts members t1 t2 rest : NoDup members -> members <> [] -> pcts <> [] ->
  (forall z, Forall2 (fun r p => length r = length pcts /\ length (ep_cal p) = length pcts) (rng z) t1) ->
  ecc_process rng ro s pcts members (t1 :: t2 :: rest) = Err TypeError.
Proof.
  intros HN HE HP HR. unfold ecc_process.
  assert (P0 : (0 < length pcts)%nat) by (destruct pcts; [easy|simpl; lia]).
  destruct (recycle_any (length pcts) members HN HE P0) as (nums' & HRc & _). rewrite HRc. cbn [bind].
  change (fun p => {| ep_raw := map _ _; ep_cal := ep_cal p; ep_mask := ep_mask p |}) with (recycled_point (length members) (length pcts)).
  cbn [map]. rewrite loop_many; [reflexivity|]. intro z. specialize (HR z).
  induction HR as [|r p rs t [A B] HR IH]; constructor; [|exact IH]. rewrite recycled_raw. repeat split; [exact A|exact B|].
  intro E. apply (f_equal (@length _)) in E. rewrite recycled_raw in E. simpl in E. lia.
Qed.
