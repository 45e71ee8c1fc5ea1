From Verif Require Import Base Interp Model_Reliability Spec_Reliability Proofs_Reliability.
(** The bin merged is the first one with the largest count below the minimum. *)
Lemma argmax_largest m l : forall pre best,
  (match best with
   | Some (k, v) => (k < length pre)%nat /\ v = nth k pre 0 /\ v < m /\ (forall j, (j < length pre)%nat -> nth j pre 0 < m -> nth j pre 0 <= v /\ ((j < k)%nat -> nth j pre 0 < v))
   | None => Forall (fun c => m <= c) pre end) ->
  match argmax_below m l (length pre) best with
  | Some k => (k < length (pre ++ l))%nat /\ nth k (pre ++ l) 0 < m /\
      (forall j, (j < length (pre ++ l))%nat -> nth j (pre ++ l) 0 < m -> nth j (pre ++ l) 0 <= nth k (pre ++ l) 0 /\ ((j < k)%nat -> nth j (pre ++ l) 0 < nth k (pre ++ l) 0))
  | None => Forall (fun c => m <= c) (pre ++ l)
  end.
Proof.
  induction l as [|c l IH]; intros pre best HB; cbn [argmax_below].
  - rewrite app_nil_r. destruct best as [[k v]|]; cbn [option_map fst]; [|exact HB]. destruct HB as (A & -> & B & C). repeat split; trivial; apply C; assumption.
  - specialize (IH (pre ++ [c])). rewrite app_length in IH. simpl length in IH. replace (length pre + 1)%nat with (S (length pre)) in IH by lia.
    rewrite <- app_assoc in IH. simpl app in IH. apply IH. clear IH.
    assert (NP : forall j, (j < length pre)%nat -> nth j (pre ++ [c]) 0 = nth j pre 0) by (intros; apply app_nth1; assumption).
    assert (NC : nth (length pre) (pre ++ [c]) 0 = c) by (rewrite app_nth2, Nat.sub_diag by lia; reflexivity).
    destruct (Qleb_spec m c) as [Hc|Hc].
    + destruct best as [[k v]|].
      * destruct HB as (A & B & C & D). split; [lia|]. split; [rewrite NP by lia; exact B|]. split; [exact C|]. intros j Hj Hm.
        destruct (Nat.eq_dec j (length pre)) as [->|]; [rewrite NC in Hm; lra|]. rewrite NP in * by lia. apply D; [lia|exact Hm].
      * apply Forall_app. split; [exact HB|]. constructor; [exact Hc|constructor].
    + destruct best as [[k v]|].
      * destruct HB as (A & B & C & D). destruct (Qltb_spec v c) as [L|L].
        -- split; [lia|]. split; [symmetry; exact NC|]. split; [exact Hc|]. intros j Hj Hm. destruct (Nat.eq_dec j (length pre)) as [->|].
           ++ rewrite NC. split; [lra|lia].
           ++ rewrite NP in * by lia. destruct (D j ltac:(lia) Hm) as [D1 _]. split; [lra|intros; lra].
        -- split; [lia|]. split; [rewrite NP by lia; exact B|]. split; [exact C|]. intros j Hj Hm.
           destruct (Nat.eq_dec j (length pre)) as [->|]; [rewrite NC; split; [lra|lia]|]. rewrite NP in * by lia. apply D; [lia|exact Hm].
      * split; [lia|]. split; [symmetry; exact NC|]. split; [exact Hc|]. intros j Hj Hm. destruct (Nat.eq_dec j (length pre)) as [->|]; [rewrite NC; split; [lra|lia]|].
        rewrite NP in Hm by lia. rewrite Forall_forall in HB. specialize (HB (nth j pre 0)). assert (In (nth j pre 0) pre) by (apply nth_In; lia). specialize (HB H). lra.
Qed.
Lemma argmax_choice m l k : argmax_below m l 0 None = Some k ->
  (k < length l)%nat /\ nth k l 0 < m /\ forall j, (j < length l)%nat -> nth j l 0 < m -> nth j l 0 <= nth k l 0 /\ ((j < k)%nat -> nth j l 0 < nth k l 0).
Proof. intro H. pose proof (argmax_largest m l [] None (Forall_nil _)) as G. simpl in G. rewrite H in G. exact G. Qed.
(** One pass of the loop. *)
Lemma combine_step fuel m t k : existsb (fun c => c <? m) (map rb_cnt t) = true -> (1 < length t)%nat -> argmax_below m (map rb_cnt t) 0 None = Some k ->
  combine_undersampled (S fuel) m t = combine_undersampled fuel m (merge_at (pick_upper (map rb_cnt t) k) t).
Proof.
  intros H1 H2 H3. assert (E : (1 <? length t)%nat = true) by (apply Nat.ltb_lt; exact H2).
  change (combine_undersampled (S fuel) m t) with
    (if existsb (fun c => c <? m) (map rb_cnt t) && (1 <? length t)%nat then match argmax_below m (map rb_cnt t) 0 None with None => None | Some i => combine_undersampled fuel m (merge_at (pick_upper (map rb_cnt t) i) t) end else Some t).
  rewrite H1, E, H3. reflexivity.
Qed.
(** It is merged with the neighbour holding fewer forecasts. *)
Lemma pick_neighbour l k : (k < length l)%nat -> (1 < length l)%nat ->
  let u := pick_upper l k in (u = k \/ u = S k) /\ (u - 1 < u < length l)%nat /\
  (u = k -> (1 <= k)%nat /\ ((S k < length l)%nat -> nth (k - 1) l 0 < nth (S k) l 0)) /\
  (u = S k -> (k = 0)%nat \/ nth (S k) l 0 <= nth (k - 1) l 0).
Proof.
  intros H1 H2. unfold pick_upper. destruct (Nat.eqb_spec k 0) as [->|N0]; cbv zeta.
  - repeat split; intros; try lia.
  - destruct (Nat.eqb_spec (S k) (length l)).
    + repeat split; intros; try lia.
    + destruct (Qltb_spec (nth (k - 1) l 0) (nth (S k) l 0)); repeat split; intros; try lia; trivial. right; trivial.
Qed.

(** The held frequencies are running maxima (bottom up) or minima (top down). *)
Lemma hold_up_max l : forall p i, (i < length l)%nat ->
  (forall j, (j <= i)%nat -> nth j l 0 <= nth i (hold_up p l) 0) /\ p <= nth i (hold_up p l) 0 /\ In (nth i (hold_up p l) 0) (p :: firstn (S i) l).
Proof.
  induction l as [|x l IH]; intros p i Hi; [simpl in Hi; lia|]. cbn [hold_up]. set (v := if (x - p) <? 0 then p else x).
  assert (V : p <= v /\ x <= v /\ (v = p \/ v = x)) by (unfold v; destruct (Qltb_spec (x - p) 0); repeat split; auto; lra). destruct V as (V1 & V2 & V3).
  destruct i as [|i].
  - cbn [nth]. repeat split; trivial; [intros j Hj; replace j with 0%nat by lia; exact V2|]. simpl. destruct V3; auto.
  - simpl in Hi. destruct (IH v i ltac:(lia)) as (A & B & C). cbn [nth]. repeat split; [|lra|].
    + intros [|j] Hj; [lra|]. apply A. lia.
    + cbn [firstn]. destruct C as [C|C]; [rewrite <- C; destruct V3 as [-> | ->]; simpl; auto|]. right; right. exact C.
Qed.
Lemma hold_down_min l : forall p i, (i < length l)%nat ->
  (forall j, (j <= i)%nat -> nth i (hold_down p l) 0 <= nth j l 0) /\ nth i (hold_down p l) 0 <= p /\ In (nth i (hold_down p l) 0) (p :: firstn (S i) l).
Proof.
  induction l as [|x l IH]; intros p i Hi; [simpl in Hi; lia|]. cbn [hold_down]. set (v := if 0 <? (x - p) then p else x).
  assert (V : v <= p /\ v <= x /\ (v = p \/ v = x)) by (unfold v; destruct (Qltb_spec 0 (x - p)); repeat split; auto; lra). destruct V as (V1 & V2 & V3).
  destruct i as [|i].
  - cbn [nth]. repeat split; trivial; [intros j Hj; replace j with 0%nat by lia; exact V2|]. simpl. destruct V3; auto.
  - simpl in Hi. destruct (IH v i ltac:(lia)) as (A & B & C). cbn [nth]. repeat split; [|lra|].
    + intros [|j] Hj; [lra|]. apply A. lia.
    + cbn [firstn]. destruct C as [C|C]; [rewrite <- C; destruct V3 as [-> | ->]; simpl; auto|]. right; right. exact C.
Qed.
Lemma constant_freq_up c fr i : last c 0 <= hd 0 c -> (i < length fr)%nat ->
  (forall j, (j <= i)%nat -> nth j fr 0 <= nth i (constant_freq c fr) 0) /\ In (nth i (constant_freq c fr) 0) (firstn (S i) fr).
Proof.
  intros H Hi. unfold constant_freq. assert (E : (hd 0 c <? last c 0) = false) by (apply Qltb_ge; exact H). rewrite E.
  destruct fr as [|x fr]; [simpl in Hi; lia|]. destruct i as [|i].
  - cbn. split; [intros j Hj; replace j with 0%nat by lia; lra|left; reflexivity].
  - simpl in Hi. destruct (hold_up_max fr x i ltac:(lia)) as (A & B & C). cbn [nth]. split; [|exact C]. intros [|j] Hj; [exact B|]. apply A. lia.
Qed.
Lemma constant_freq_down c fr i : hd 0 c < last c 0 -> (i < length fr)%nat ->
  (forall j, (i <= j < length fr)%nat -> nth i (constant_freq c fr) 0 <= nth j fr 0) /\ In (nth i (constant_freq c fr) 0) (skipn i fr).
Proof.
  intros H Hi. unfold constant_freq. assert (E : (hd 0 c <? last c 0) = true) by (apply Qltb_lt; exact H). rewrite E.
  assert (ER : fr = rev (rev fr)) by (symmetry; apply rev_involutive). pose proof (rev_length fr) as RL. destruct (rev fr) as [|x r] eqn:EF; [simpl in RL; lia|].
  set (h := x :: hold_down x r). assert (HLh : length h = length (x :: r)) by (unfold h; simpl; rewrite hold_down_length; reflexivity).
  set (n := length fr) in *. assert (Nh : length h = n) by (rewrite HLh; exact RL).
  assert (K : forall k, (k < n)%nat -> (forall j, (j <= k)%nat -> nth k h 0 <= nth j (x :: r) 0) /\ In (nth k h 0) (firstn (S k) (x :: r))).
  { intros k Hk. destruct k as [|k].
    - cbn. split; [intros j Hj; replace j with 0%nat by lia; lra|left; reflexivity].
    - assert (Hk' : (k < length r)%nat) by (simpl in RL; lia). destruct (hold_down_min r x k Hk') as (A & B & C). unfold h. cbn [nth]. split; [|exact C]. intros [|j] Hj; [exact B|]. apply A. lia. }
  destruct (K (n - 1 - i)%nat ltac:(lia)) as [K1 K2].
  assert (EN : nth i (rev h) 0 = nth (n - 1 - i) h 0) by (rewrite rev_nth by lia; rewrite Nh; f_equal; lia). rewrite EN. split.
  - intros j Hj. specialize (K1 (n - 1 - j)%nat ltac:(lia)). rewrite <- EF in K1. rewrite rev_nth in K1 by (fold n; lia). fold n in K1. replace (n - S (n - 1 - j))%nat with j in K1 by lia. exact K1.
  - rewrite <- EF in K2. apply in_rev. replace (S (n - 1 - i)) with (n - i)%nat in K2 by lia. rewrite firstn_rev in K2. fold n in K2. replace (n - (n - i))%nat with i in K2 by lia. exact K2.
Qed.
